(** Waypoints and linear diagrams. *)
From Coq Require Import String List Bool Arith ZArith Lia Permutation.
From Verif Require Import Py PyFacts Consts Nx NxFacts Rep SpecRep RepFacts MetricsFacts Classify Layouter
  SpecLayout ClassifyFacts TopoFacts GridFacts LayoutFacts.
Import ListNotations.
Open Scope string_scope.
Open Scope list_scope.

Definition zpt (p : Z * Z) : string * string := (zstr (fst p), zstr (snd p)).

(** What the waypoints must look like: source at (sx, sy), target at (tx, ty). *)
Definition drawn_from_to (styp ttyp : pyval) (sx sy tx ty : Z) (w : list (Z * Z)) : Prop :=
  hd_error w = Some (sx + 50, sy + 50)%Z /\
  on_box tx ty (fst (last w (0, 0)%Z)) (snd (last w (0, 0)%Z)) /\ 2 <= length w /\
  (sy = ty \/ routed_gateway styp = true \/ routed_gateway ttyp = true -> axis_parallel w).

Lemma icoord_zstr : forall a k z, dget k a = Some (VStr (zstr z)) -> icoord a k = Ok z.
Proof. intros a k z H. unfold icoord, dgetE. rewrite H. cbn [rbind]. rewrite zparse_zstr. reflexivity. Qed.

Lemma waypoints_xy : forall s t sx sy tx ty st tt,
  dget "x" s = Some (VStr (zstr sx)) -> dget "y" s = Some (VStr (zstr sy)) ->
  dget "x" t = Some (VStr (zstr tx)) -> dget "y" t = Some (VStr (zstr ty)) ->
  dget "type" s = Some st -> dget "type" t = Some tt ->
  exists wz, waypoints_for s t = Ok (map zpt wz) /\ drawn_from_to st tt sx sy tx ty wz.
Proof.
  intros s t sx sy tx ty st ttt A1 A2 A3 A4 A5 A6. unfold waypoints_for.
  rewrite (icoord_zstr s k_x sx A1), (icoord_zstr s k_y sy A2), (icoord_zstr t k_x tx A3), (icoord_zstr t k_y ty A4).
  unfold dgetE. change k_type with "type". change k_y with "y". rewrite A5, A6, A2, A4. cbn [rbind].
  assert (Sv : same_value (VStr (zstr sy)) (VStr (zstr ty)) = Z.eqb sy ty).
  { simpl. destruct (Z.eqb_spec sy ty) as [->|N]; [apply String.eqb_refl|].
    apply eqb_neq'. intro C. apply N. apply zstr_inj. auto. }
  rewrite Sv. unfold pt, drawn_from_to, on_box.
  destruct (routed_gateway st) eqn:Es.
  - exists [((sx + 50), (sy + 50)); ((sx + 50), (ty + 50)); (tx, (ty + 50))]%Z. split; [reflexivity|].
    simpl. split; [reflexivity|]. split; [lia|]. split; [lia|]. auto.
  - destruct (Z.eqb_spec sy ty) as [Ey|Ey].
    + exists [((sx + 50), (sy + 50)); (tx, (ty + 50))]%Z. split; [reflexivity|]. simpl.
      split; [reflexivity|]. split; [lia|]. split; [lia|]. intros _. split; auto. right. lia.
    + destruct (routed_gateway ttt) eqn:Et.
      * exists [((sx + 50), (sy + 50)); ((tx + 50), (sy + 50)); ((tx + 50), ty)]%Z. split; [reflexivity|]. simpl.
        split; [reflexivity|]. split; [lia|]. split; [lia|]. auto.
      * exists [((sx + 50), (sy + 50)); (tx, (ty + 50))]%Z. split; [reflexivity|]. simpl.
        split; [reflexivity|]. split; [lia|]. split; [lia|]. intros [C|[C|C]]; congruence.
Qed.

Lemma find_dget : forall n (ns : dict attrs), find (fun x : string * attrs => String.eqb (fst x) n) ns =
  match dget n ns with Some a => Some (n, a) | None => None end.
Proof.
  induction ns as [|[m a] t IH]; simpl; auto. rewrite (String.eqb_sym n m).
  destruct (String.eqb_spec m n) as [->|]; auto.
Qed.

(** All nodes have a type and coordinates. *)
Definition positioned (d : diagram) : Prop := forall n, is_node d n ->
  exists x y ty, at_xy d n x y /\ attr d n "type" = Some ty.

Lemma wpa_ok_inv : forall d a w, positioned d -> wpa (gnodes (dgraph d)) a = Ok w ->
  exists s t sx sy tx ty sty tty wz, dget "sourceRef" a = Some (VStr s) /\ dget "targetRef" a = Some (VStr t) /\
    at_xy d s sx sy /\ at_xy d t tx ty /\ attr d s "type" = Some sty /\ attr d t "type" = Some tty /\
    w = map zpt wz /\ drawn_from_to sty tty sx sy tx ty wz.
Proof.
  intros d a w P E. unfold wpa in E. unfold dgetE in E.
  change k_source_ref with "sourceRef" in E. change k_target_ref with "targetRef" in E.
  destruct (dget "sourceRef" a) as [[|s| | | | |]|] eqn:Es; try discriminate.
  destruct (dget "targetRef" a) as [[|t| | | | |]|] eqn:Et; cbn [rbind] in E; rewrite ?find_dget in E;
    try (destruct (dget s (gnodes (dgraph d))); discriminate).
  destruct (dget s (gnodes (dgraph d))) as [sa|] eqn:Gs; [|discriminate]. cbn [rbind snd] in E.
  destruct (dget t (gnodes (dgraph d))) as [ta|] eqn:Gt; [|discriminate]. cbn [rbind snd] in E.
  destruct (P s) as [sx [sy [sty [[X1 Y1] T1]]]]; [eapply dget_key_In; eauto|].
  destruct (P t) as [tx [ty [tty [[X2 Y2] T2]]]]; [eapply dget_key_In; eauto|].
  pose proof (conj X1 (conj Y1 (conj X2 (conj Y2 (conj T1 T2))))) as H.
  unfold attr, node_of in H. rewrite Gs, Gt in H. destruct H as [H1 [H2 [H3 [H4 [H5 H6]]]]].
  destruct (waypoints_xy sa ta sx sy tx ty sty tty H1 H2 H3 H4 H5 H6) as [wz [Ew D]]. rewrite Ew in E. inv E.
  exists s, t, sx, sy, tx, ty, sty, tty, wz. unfold at_xy. auto 15.
Qed.
Lemma wpa_total : forall d a s t, positioned d -> dget "sourceRef" a = Some (VStr s) -> dget "targetRef" a = Some (VStr t) ->
  is_node d s -> is_node d t -> exists w, wpa (gnodes (dgraph d)) a = Ok w.
Proof.
  intros d a s t P Es Et Ns Nt. unfold wpa, dgetE. change k_source_ref with "sourceRef". change k_target_ref with "targetRef".
  rewrite Es, Et. cbn [rbind]. rewrite !find_dget.
  destruct (P s Ns) as [sx [sy [sty [[X1 Y1] T1]]]]. destruct (P t Nt) as [tx [ty [tty [[X2 Y2] T2]]]].
  pose proof (conj X1 (conj Y1 (conj X2 (conj Y2 (conj T1 T2))))) as H. unfold attr, node_of in H.
  destruct (dget s (gnodes (dgraph d))) as [sa|]; [|destruct H; discriminate].
  destruct (dget t (gnodes (dgraph d))) as [ta|]; [|destruct H as [_ [_ [C _]]]; discriminate].
  destruct H as [H1 [H2 [H3 [H4 [H5 H6]]]]]. cbn [rbind snd].
  destruct (waypoints_xy sa ta sx sy tx ty sty tty H1 H2 H3 H4 H5 H6) as [wz [Ew D]]. eauto.
Qed.

Lemma flow_drawn : forall d1 d2 t, gwf (dgraph d1) -> positioned d1 -> set_flows_waypoints d1 = (d2, Ok tt) ->
  In t (get_flows d2) ->
  exists s m sx sy tx ty sty tty wz, dget "sourceRef" (snd t) = Some (VStr s) /\ dget "targetRef" (snd t) = Some (VStr m) /\
    at_xy d2 s sx sy /\ at_xy d2 m tx ty /\ attr d2 s "type" = Some sty /\ attr d2 m "type" = Some tty /\
    dget "waypoints" (snd t) = Some (VPoints (map zpt wz)) /\ drawn_from_to sty tty sx sy tx ty wz.
Proof.
  intros d1 d2 t W P H Ht. destruct (waypoints_ok d1 d2 W H) as [En F].
  unfold get_flows, edges_view in Ht. unfold dkeys in Ht. rewrite En in Ht.
  pose proof (edges_from_rel _ (map fst (gnodes (dgraph d1))) [] _ _ F) as F'.
  destruct (Forall2_in_r _ _ _ _ _ _ F' Ht) as [t0 [_ [_ [S [w [Ew Dw]]]]]].
  destruct (wpa_ok_inv d1 (snd t0) w P Ew) as [s [m [sx [sy [tx [ty [sty [tty [wz [A1 [A2 [A3 [A4 [A5 [A6 [A7 A8]]]]]]]]]]]]]]]].
  exists s, m, sx, sy, tx, ty, sty, tty, wz.
  assert (Ea : forall n k, attr d2 n k = attr d1 n k) by (intros; unfold attr, node_of; rewrite En; reflexivity).
  unfold at_xy. rewrite !Ea. unfold same_but in S. rewrite !S by (intros [C|[]]; discriminate).
  rewrite Dw, A7. unfold at_xy in *. tauto.
Qed.

(** ** Linear diagrams *)
Lemma before_consec : forall (a b : list string) n m, before (a ++ n :: m :: b) n m.
Proof.
  intros. exists (length a), (S (length a)). split; [lia|]. split.
  - rewrite nth_error_app2 by lia. rewrite Nat.sub_diag. reflexivity.
  - rewrite nth_error_app2 by lia. replace (S (length a) - length a) with 1 by lia. reflexivity.
Qed.
Lemma before_cons : forall x l a b, before (x :: l) a b -> a <> x -> before l a b.
Proof.
  intros x l a b [i [j [L [A B]]]] N. destruct i as [|i]; [simpl in A; congruence|].
  destruct j as [|j]; [lia|]. simpl in *. exists i, j. split; [lia|auto].
Qed.

(** A permutation that keeps the neighbours in order is the identity. *)
Lemma order_unique : forall ns s : list string, NoDup ns -> Permutation s ns ->
  (forall a n m b, ns = a ++ n :: m :: b -> before s n m) -> s = ns.
Proof.
  induction ns as [|a ns IH]; intros s N P H; [apply Permutation_nil; symmetry; auto|].
  assert (Ns : NoDup s) by (eapply Permutation_NoDup; [symmetry; exact P|exact N]). inv N.
  destruct s as [|x s]; [apply Permutation_nil in P; discriminate|].
  assert (Hb : forall l, ns = l -> forall y, In y l -> before (x :: s) a y).
  { assert (G : forall l pre c, (a :: ns) = pre ++ c :: l -> (c = a \/ before (x :: s) a c) -> forall y, In y l -> before (x :: s) a y).
    { induction l as [|z l IHl]; intros pre c E Hc y Hy; [contradiction|].
      assert (Bz : before (x :: s) a z).
      { pose proof (H pre c z l E) as B. destruct Hc as [->|Hc]; auto. eapply before_trans; eauto. }
      destruct Hy as [->|Hy]; auto. apply (IHl (pre ++ [c]) z); auto. rewrite <- app_assoc. exact E. }
    intros l <- y Hy. apply (G ns [] a); auto. }
  assert (x = a).
  { destruct (string_dec x a) as [|Ne]; auto. exfalso.
    assert (Hx : In x ns). { assert (In x (a :: ns)) by (eapply Permutation_in; [exact P|left; auto]). destruct H0; [congruence|auto]. }
    destruct (Hb ns eq_refl x Hx) as [i [j [L [A B]]]].
    assert (j = 0). { apply (proj1 (NoDup_nth_error (x :: s)) Ns); [apply nth_error_Some; congruence|exact B]. }
    lia. }
  subst x. f_equal. apply IH; auto.
  - eapply Permutation_cons_inv; eauto.
  - intros l n m r E. specialize (H (a :: l) n m r). rewrite E in H. specialize (H eq_refl).
    apply before_cons in H; auto. intros ->. apply H2. rewrite E. apply in_or_app. right. left. auto.
Qed.

Section L.
Variable d : diagram.
Variable ns : list string.
Hypothesis Co : coherent d.
Hypothesis AL : all_laid_out d.
Hypothesis Lin : linear d ns.

Lemma lin_flow_before : forall f n m, flow d f n m -> before ns n m.
Proof.
  intros f n m F. destruct Lin as [_ [_ [_ E]]]. destruct (proj1 (E n m) (ex_intro _ f F)) as [a [b ->]].
  apply before_consec.
Qed.
Lemma lin_acyclic : acyclic d.
Proof.
  intros l [n P]. destruct Lin as [N _].
  assert (B : forall a l b, path d a l b -> before ns a b).
  { induction 1 as [f a b F|f a b l0 c F P' IH]; [eapply lin_flow_before; eauto|].
    eapply before_trans; [exact N|eapply lin_flow_before; eauto|exact IH]. }
  exact (before_irrefl _ n N (B _ _ _ P)).
Qed.
Lemma lin_topo : forall fuel, length (classified d) + sumin (classified d) < fuel ->
  exists s, topological_sort fuel d (classified d) = Ok (s, []) /\ map cid s = ns /\ incl s (classified d).
Proof.
  intros fuel F.
  destruct (loop_terminates d Co AL (fun l C => match lin_acyclic l C with end) fuel (classified d) [] []
             (inv_init d Co AL) F) as [[s b] E].
  assert (b = []) by (eapply loop_acyclic; eauto; [apply lin_acyclic|apply inv_init; auto]). subst b.
  exists s. split; auto. pose proof (topo_ok d Co AL fuel s [] E) as I.
  destruct (final_facts d Co AL s [] I) as [P [N [O _]]]. destruct Lin as [Nn [Hn [_ Hf]]]. split.
  - apply order_unique; auto.
    + apply NoDup_Permutation; auto. intro x. rewrite <- Hn. split.
      * intro Hx. apply in_map_iff in Hx. destruct Hx as [c [<- Hc]]. apply (orig_node d Co).
        eapply Permutation_in; [exact P|exact Hc].
      * intro Hx. eapply Permutation_in; [symmetry; apply Permutation_map; exact P|]. apply (node_in_orig d Co AL). auto.
    + intros a n m b Ea. destruct (proj2 (Hf n m)) as [f F']; [eauto|]. apply (O f n m F'). intros [].
  - intros c Hc. eapply Permutation_in; [exact P|exact Hc].
Qed.

Fixpoint cells (k : Z) (l : list string) : list cell :=
  match l with [] => [] | n :: t => mkCell 2 (k + 1) n :: cells (k + 1) t end.

Lemma cells_nth : forall l k i n, nth_error l i = Some n -> In (mkCell 2 (k + Z.of_nat i + 1) n) (cells k l).
Proof.
  induction l as [|a t IH]; intros k i n H; [destruct i; discriminate|]. destruct i as [|i]; simpl in H.
  - inv H. left. f_equal. lia.
  - right. replace (k + Z.of_nat (S i) + 1)%Z with ((k + 1) + Z.of_nat i + 1)%Z by lia. apply IH. auto.
Qed.
Lemma cells_ids : forall l k, map cnid (cells k l) = l.
Proof. induction l as [|a t IH]; intros k; simpl; auto. f_equal. auto. Qed.

Lemma lin_not_split : forall c, In c (classified d) -> smem c_split (ccls c) = false.
Proof.
  intros c H. rewrite (orig_split d Co c H). apply Nat.leb_gt. destruct Lin as [_ [_ [D _]]].
  destruct (D (cid c)) as [_ D2]. apply Nat.lt_succ_r. exact D2.
Qed.
Lemma lin_not_join : forall c, In c (classified d) -> smem c_join (ccls c) = false.
Proof.
  intros c H. rewrite (orig_join d Co c H). apply Nat.leb_gt. destruct Lin as [_ [_ [D _]]].
  destruct (D (cid c)) as [D1 _]. apply Nat.lt_succ_r. exact D1.
Qed.

Lemma lin_place : forall fuel rest rounds pre k p lr, length rest <= rounds -> incl rest (classified d) ->
  map cnid pre ++ p :: map cid rest = ns -> (forall c, In c pre -> (ccol c <= k)%Z) ->
  grid_loop rounds (S fuel) d ((pre ++ [mkCell 2 k p], lr), rest) = Ok (pre ++ mkCell 2 k p :: cells k (map cid rest)).
Proof.
  intros fuel. induction rest as [|c t IH]; intros rounds pre k p lr R I Ea M.
  - destruct rounds; reflexivity.
  - destruct rounds as [|rounds]; [simpl in R; lia|]. cbn [grid_loop snd fst].
    assert (Hc : In c (classified d)) by (apply I; left; auto).
    pose proof Lin as [Nn [_ [D Hf]]]. destruct (proj2 (Hf p (cid c))) as [f F]; [exists (map cnid pre), (map cid t); symmetry; exact Ea|].
    assert (N : NoDup (map cnid (pre ++ [mkCell 2 k p]))).
    { rewrite map_app. cbn [map cnid]. rewrite <- Ea in Nn. change (p :: map cid (c :: t)) with ([p] ++ map cid (c :: t)) in Nn.
      rewrite app_assoc in Nn. eapply nodup_l; eauto. }
    destruct (orig_cin d Co c Hc) as [Ei _]. pose proof F as [_ [Fi G]].
    assert (Ein : cin c = [f]).
    { rewrite Ei. destruct (D (cid c)) as [D1 _]. destruct (incoming_of d (cid c)) as [|f1 [|f2 r]]; [contradiction| |simpl in D1; lia].
      destruct Fi as [->|[]]. reflexivity. }
    assert (Ch : choose_cell d c (pre ++ [mkCell 2 k p]) lr None = Ok (2%Z, (2%Z, (k + 1)%Z), lr)).
    { unfold choose_cell. rewrite Ein, (lin_not_join c Hc), (ref_source d f p (cid c) G). cbn [rbind].
      pose proof (gfind_nodup (pre ++ [mkCell 2 k p]) (mkCell 2 k p) N) as Gf. cbn [cnid] in Gf.
      rewrite Gf by (apply in_or_app; right; left; auto). reflexivity. }
    assert (Ins : insert_into_grid (pre ++ [mkCell 2 k p]) 2 (k + 1) (cid c) =
                  Ok ((pre ++ [mkCell 2 k p]) ++ [mkCell 2 (k + 1) (cid c)])).
    { unfold insert_into_grid. destruct (find _ _) as [x|] eqn:Ff; [|reflexivity]. exfalso.
      apply find_some in Ff. destruct Ff as [Hx E]. apply andb_true_iff in E. destruct E as [_ E].
      apply Z.eqb_eq in E. apply in_app_or in Hx. destruct Hx as [Hx|[<-|[]]]; [specialize (M x Hx); lia|simpl in E; lia]. }
    cbn [place_element]. rewrite Ch. cbn [rbind]. rewrite Ins. cbn [rbind]. rewrite (lin_not_split c Hc).
    cbn [rbind]. rewrite IH.
    + f_equal. rewrite <- app_assoc. reflexivity.
    + simpl in R. lia.
    + intros x Hx. apply I. right; auto.
    + rewrite map_app, <- app_assoc. exact Ea.
    + intros x Hx. apply in_app_or in Hx. destruct Hx as [Hx|[<-|[]]]; [specialize (M x Hx); lia|simpl; lia].
Qed.

Lemma lin_grid : forall fuel s, map cid s = ns -> incl s (classified d) ->
  grid_layout (S fuel) d s = Ok (cells 0 ns).
Proof.
  intros fuel s E I. unfold grid_layout. destruct s as [|c t]; [simpl in E; rewrite <- E; reflexivity|].
  cbn [length grid_loop snd fst]. assert (Hc : In c (classified d)) by (apply I; left; auto).
  destruct (orig_cin d Co c Hc) as [Ei _].
  assert (Ein : cin c = []).
  { rewrite Ei. destruct (incoming_of d (cid c)) as [|f r] eqn:Ef; auto. exfalso.
    destruct (in_flow d Co (cid c) f) as [n F]; [rewrite Ef; left; auto|].
    pose proof (lin_flow_before f n (cid c) F) as [i [j [L [_ B]]]]. destruct Lin as [Nn _].
    assert (j = 0). { apply (proj1 (NoDup_nth_error ns) Nn); [apply nth_error_Some; congruence|].
      rewrite B, <- E. reflexivity. }
    lia. }
  cbn [place_element]. unfold choose_cell. rewrite Ein. cbn [rbind].
  unfold insert_into_grid at 1. cbn [find rbind]. rewrite (lin_not_split c Hc). cbn [rbind].
  pose proof (lin_place fuel t (length t) [] 1 (cid c) 4) as P. cbn [app] in P.
  etransitivity; [apply P|]; auto.
  - intros x Hx. apply I. right; auto.
  - intros x [].
  - rewrite <- E. reflexivity.
Qed.

Lemma lin_layout : forall fuel, gwf (dgraph d) -> drawable d ->
  length (classified d) + sumin (classified d) < fuel ->
  exists d', generate_layout fuel d = (d', Ok tt) /\
    forall i n, nth_error ns i = Some n -> at_xy d' n (150 * (Z.of_nat i + 1) + 50) 250.
Proof.
  intros fuel W Dr F. destruct (lin_topo fuel F) as [s [Es [Ei Is]]].
  destruct fuel as [|fuel]; [lia|]. pose proof (lin_grid fuel s Ei Is) as Eg.
  assert (Gn : forall n, is_node d n -> exists c, gfind n (cells 0 ns) = Ok c).
  { intros n Hn. destruct Lin as [Nn [Hin _]]. apply Hin in Hn. apply In_nth_error in Hn. destruct Hn as [i Hi].
    exists (mkCell 2 (0 + Z.of_nat i + 1) n).
    apply (gfind_nodup (cells 0 ns) (mkCell 2 (0 + Z.of_nat i + 1) n)); [rewrite cells_ids; auto|apply cells_nth; auto]. }
  destruct (coords_does (cells 0 ns) d Gn) as [d1 E1].
  destruct (coords_ok _ _ _ E1) as [K [Ed P]].
  assert (Kp : kept d d1). { pose proof (kept_coords (cells 0 ns) d) as Kp. rewrite E1 in Kp. exact Kp. }
  assert (Ps : positioned d1).
  { intros n Hn. assert (Hn' : is_node d n) by (unfold is_node in *; rewrite K in Hn; exact Hn).
    destruct (P n Hn') as [c [_ A]]. destruct Co as [[_ L] _]. destruct (L n Hn') as [[t Ht] _].
    exists (ccol c * 150 + 50)%Z, (crow c * 100 + 50)%Z, (VStr t). split; auto.
    destruct Kp as [_ [Ka _]]. rewrite Ka by discriminate. exact Ht. }
  assert (W1 : gwf (dgraph d1)) by (apply (gwf_same_ends (dgraph d)); auto; rewrite Ed; reflexivity).
  destruct (waypoints_does d1 W1) as [d2 E2].
  { intros t Ht. unfold get_flows, edges_view, dkeys in Ht. rewrite Ed, K in Ht.
    destruct (Dr t Ht) as [a [b [A1 [A2 [A3 A4]]]]]. apply (wpa_total d1 (snd t) a b); auto; unfold is_node; rewrite K; auto. }
  assert (EL : generate_layout (S fuel) d = (d2, Ok tt)).
  { eapply layout_does; eauto. apply elements_eq. apply Co. }
  exists d2. split; auto.
  intros i n Hi. destruct (layout_facts (S fuel) d d2 Co EL) as [_ [s' [b' [g [d1' [A1 [_ [A3 [_ [_ [_ [_ [A8 _]]]]]]]]]]]]].
  rewrite Es in A1. injection A1 as <- <-. rewrite Eg in A3. injection A3 as <-.
  assert (Hn : is_node d n). { destruct Lin as [_ [Hin _]]. apply Hin. eapply nth_error_In; eauto. }
  destruct (A8 n Hn) as [c [_ [_ [Gc [_ At]]]]]. destruct Lin as [Nn _].
  pose proof (gfind_nodup (cells 0 ns) (mkCell 2 (0 + Z.of_nat i + 1) n)) as Gf. cbn [cnid] in Gf.
  rewrite Gf in Gc; [|rewrite cells_ids; auto|apply cells_nth; auto].
  injection Gc as <-. cbn [ccol crow] in At.
  replace (150 * (Z.of_nat i + 1) + 50)%Z with ((0 + Z.of_nat i + 1) * 150 + 50)%Z by lia. exact At.
Qed.
End L.
