(** C98: crossings and segments of automatically laid out processes; exact routes (C30). *)
From Coq Require Import String List Bool Arith ZArith QArith Lia Permutation.
From Verif Require Import Py PyFacts Consts Nx NxFacts Rep SpecRep RepFacts MetricsFacts Classify Layouter LayoutMetrics SpecLayoutMetrics
  SpecLayout ClassifyFacts TopoFacts GridFacts LayoutFacts LayoutFacts2 GeomFacts CrossFacts Prop_Layout Prop_LayoutMetrics SpecBlocks SpecFlat SpecPlan PlanFacts PlanBlocks PlanRules Prop_BlockLayout
  SpecOptions OptionShape OptionPlan Prop_Options SameFacts SpecCrossing CrossGrid CrossPicture RouteFacts.
Import ListNotations.
Open Scope string_scope.
Open Scope list_scope.
Open Scope nat_scope.

(** The waypoints of every flow after a layout. *)
Theorem C30_exact_route : forall fuel d d' t s m sx sy tx ty, coherent d -> gwf (dgraph d) -> generate_layout fuel d = (d', Ok tt) ->
  In t (get_flows d') -> dget "sourceRef" (snd t) = Some (VStr s) -> dget "targetRef" (snd t) = Some (VStr m) ->
  at_xy d' s sx sy -> at_xy d' m tx ty ->
  dget "waypoints" (snd t) = Some (VPoints (map (fun p => (zstr (fst p), zstr (snd p)))
    (corners (usual_gateway_b d' s) (usual_gateway_b d' m) sx sy tx ty))).
Proof. exact layout_routes. Qed.

Lemma polyline_route : forall gs gt r c r' c',
  polyline (map qpt (corners gs gt (150 * c + 50) (100 * r + 50) (150 * c' + 50) (100 * r' + 50))) = map qseg (route gs gt r c r' c').
Proof.
  intros gs gt r c r' c'. unfold corners, route.
  replace (150 * c + 50 + 50)%Z with (cx c) by (unfold cx; lia). replace (150 * c' + 50 + 50)%Z with (cx c') by (unfold cx; lia).
  replace (100 * r + 50 + 50)%Z with (yy r) by (unfold yy; lia). replace (100 * r' + 50 + 50)%Z with (yy r') by (unfold yy; lia).
  assert (E : Z.eqb (100 * r + 50) (100 * r' + 50) = Z.eqb r r') by (destruct (Z.eqb_spec r r'), (Z.eqb_spec (100 * r + 50) (100 * r' + 50)); try reflexivity; lia). rewrite E.
  destruct gs, (Z.eqb r r'), gt; reflexivity.
Qed.
Lemma pc_pairs : forall l, (forall s, In s l -> straight s) -> pc (map qseg l) = pairs zcross l.
Proof.
  induction l as [|s l IH]; intro H; [reflexivity|]. cbn [map pc pairs]. rewrite IH by (intros t Ht; apply H; right; exact Ht). f_equal.
  assert (X : forall t, In t l -> crossb (qseg s) (qseg t) = zcross s t) by (intros t Ht; apply cross_zcross; apply H; [left; reflexivity|right; exact Ht]).
  clear - X. induction l as [|t l IH]; [reflexivity|]. cbn [map filter]. rewrite (X t (or_introl eq_refl)). assert (IH' := IH (fun u Hu => X u (or_intror Hu))).
  destruct (zcross s t); cbn [length]; rewrite IH'; reflexivity.
Qed.
Lemma usual_b : forall d n, usual_gateway d n <-> usual_gateway_b d n = true.
Proof.
  intros d n. unfold usual_gateway, usual_gateway_b. split.
  - intros (t & E & I). rewrite E. apply existsb_exists. exists t. split; [exact I|apply String.eqb_refl].
  - destruct (attr d n "type") as [[|t| | | | |]|]; try discriminate. intro H. apply existsb_exists in H. destruct H as [t' [I E]]. apply String.eqb_eq in E. subst t'. exists t. split; [reflexivity|exact I].
Qed.

(** The crossings and the segments of an automatically laid out process. *)
Theorem C98_metrics : forall d s ps e fuel pyfloat, coherent d -> all_laid_out d -> gwf (dgraph d) -> drawable d ->
  consists d s ps e -> (forall p, In p ps -> plain_part p) -> flows_are d (path_flows s ps e) -> gateways_fit d s ps ->
  reads_integers pyfloat -> sort_bound d <= fuel ->
  exists d', generate_layout fuel d = (d', Ok tt) /\
    count_crossing_points pyfloat d' = Ok (process_crossings ps) /\ count_segments pyfloat d' = Ok (process_segments ps).
Proof.
  intros d s ps e fuel pf Co AL W Dr Cs Pl (l' & Fl & Pe) [Gb Ga] Rf F.
  assert (Lo : forall p, In p ps -> loose_part p) by (intros [n|g j bs] Hp; [exact I|destruct (Pl _ Hp) as [A B]; split; [exact A|left; exact B]]).
  assert (Pa : forall p, In p ps -> act_part p) by (intros p Hp; apply loose_act; auto).
  destruct (option_places d s ps e fuel Co AL W Dr Cs Lo F) as (d' & pos & Ed & At & Ps & Pic). exists d'. split; [exact Ed|].
  pose proof (C29_only_drawing fuel d) as O. rewrite Ed in O. cbn [fst] in O. destruct O as (_ & Oa & Of & _).
  set (gate := usual_gateway_b d).
  assert (Gt : forall n, usual_gateway_b d' n = gate n) by (intro n; unfold gate, usual_gateway_b; rewrite Oa by discriminate; reflexivity).
  pose proof Cs as (_ & Hn & _).
  assert (Nd : forall p, In p l' -> is_node d (fst p) /\ is_node d (snd p)).
  { intros [x y] Hp. apply (Permutation_in _ Pe) in Hp. destruct (act_ends ps s e x y Pa Hp) as [A B]. cbn [fst snd]. rewrite !Hn. unfold all_nodes. split.
    - destruct A as [<-|A]; [left; reflexivity|right; apply in_or_app; left; exact A].
    - right. exact B. }
  set (pts := fun p : string * string => corners (gate (fst p)) (gate (snd p)) (150 * snd (pos (fst p)) + 50) (100 * fst (pos (fst p)) + 50) (150 * snd (pos (snd p)) + 50) (100 * fst (pos (snd p)) + 50)).
  assert (D : Forall2 (drawn pf) (get_flows d') (map (fun p => map qpt (pts p)) l')).
  { 
    assert (X : forall t p, In t (get_flows d') -> In p l' -> dget "sourceRef" (snd t) = Some (VStr (fst p)) -> dget "targetRef" (snd t) = Some (VStr (snd p)) -> drawn pf t (map qpt (pts p))).
    { intros t p Ht Hp E1 E2. destruct (Nd p Hp) as [N1 N2]. eexists. split.
      - apply (layout_routes fuel d d' t (fst p) (snd p) _ _ _ _ Co W Ed Ht E1 E2 (At _ N1) (At _ N2)).
      - rewrite !Gt. fold (pts p). clear - Rf. induction (pts p) as [|q l IH]; [constructor|]. cbn [map]. constructor; [|exact IH]. unfold qpt, zpt. cbn [px py fst snd]. split; apply Rf. }
    assert (Y : Forall2 (fun t q => dget "sourceRef" (snd t) = Some (VStr (fst q)) /\ dget "targetRef" (snd t) = Some (VStr (snd q))) (get_flows d') l').
    { clear - Fl Of. revert l' Fl. induction Of as [|t t' ts ts' [_ K] Of IH]; intros l' Fl; inversion Fl as [|u q us qs [R1 R2] Fl']; subst; constructor; [|apply IH; exact Fl'].
      rewrite !K by discriminate. split; assumption. }
    clear - X Y. induction Y as [|t q ts qs [R1 R2] Y IH]; [constructor|]. cbn [map]. constructor; [apply X; auto; left; reflexivity|].
    apply IH. intros u p Hu Hp. apply X; right; assumption. }
  assert (Ne : forall w, In w (map (fun p => map qpt (pts p)) l') -> w <> []).
  { intros w Hw. apply in_map_iff in Hw. destruct Hw as [p [<- _]]. unfold pts, corners. destruct (gate (fst p)); [discriminate|]. destruct (gate (snd p) && negb _); discriminate. }
  assert (Es : concat (map polyline (map (fun p => map qpt (pts p)) l')) = map qseg (flat_map (segs pos gate) l')).
  { clear. induction l' as [|p l IH]; [reflexivity|]. cbn [map concat flat_map]. rewrite map_app, IH. f_equal. unfold pts. rewrite polyline_route. reflexivity. }
  destruct (process_segs pos gate e ps s 2%Z Pl) as (L & P & In_ & Cr & Le).
  { intros g j bs Hb. destruct (Gb g j bs Hb) as [A B]. split; apply usual_b; assumption. }
  { intros n Hi. apply not_true_is_false. intro G. apply (Ga n (or_intror Hi)). apply usual_b. exact G. }
  { exact Ps. }
  { exact Pic. }
  assert (Gs : gate s = false) by (apply not_true_is_false; intro G; apply (Ga s (or_introl eq_refl)); apply usual_b; exact G). rewrite Gs in P.
  assert (Pf : Permutation (flat_map (segs pos gate) l') (head_segs false 2 ++ L)) by (rewrite <- P; apply Permutation_flat_map; exact Pe).
  assert (St : forall x, In x (head_segs false 2 ++ L) -> straight x).
  { intros x [<-|Hx]; [right; reflexivity|apply In_; exact Hx]. }
  unfold count_crossing_points, count_segments. rewrite (flows_segments_ok pf _ _ D Ne). cbn [rbind]. rewrite Es. split; f_equal.
  - rewrite loop_pc, (pc_perm _ _ (Permutation_sym (Permutation_rev _))), (pc_perm _ _ (Permutation_map qseg Pf)), (pc_pairs _ St).
    unfold head_segs, route. cbn [Z.eqb Pos.eqb app pairs]. rewrite filter_none; [exact Cr|]. intros [[a1 b1] [a2 b2]] Hx. destruct (In_ _ Hx) as [[H1 H2] _]. cbn [fst snd] in *. apply apart_x. unfold cx, lx in *. lia.
  - rewrite map_length, (Permutation_length Pf). unfold process_segments. cbn [head_segs route Z.eqb Pos.eqb app length]. rewrite <- Le. reflexivity.
Qed.

(** * Diagrams built with the API *)
Definition ends_of (a : attrs) : string * string :=
  (match dget "sourceRef" a with Some (VStr x) => x | _ => "" end, match dget "targetRef" a with Some (VStr x) => x | _ => "" end).
Lemma edge_keys : forall (k : edge -> string * string) es, simple es -> (forall e, In e es -> same_pair (fst (k e)) (snd (k e)) (eu e) (ev e)) -> NoDup (map k es).
Proof.
  intros k. induction es as [|e t IH]; intros Si K; [constructor|]. cbn [map]. constructor.
  - intro H. apply in_map_iff in H. destruct H as (e2 & E & H). apply (simple_other e t e2 Si H). pose proof (K e (or_introl eq_refl)) as A. pose proof (K e2 (or_intror H)) as B.
    rewrite E in B. unfold joins_same, same_pair in *. clear - A B. destruct A as [[A1 A2]|[A1 A2]], B as [[B1 B2]|[B1 B2]]; [left|right|right|left]; split; congruence.
  - apply IH; [|intros x Hx; apply K; right; exact Hx]. intros l1 e1 l2 e2 l3 ->. apply (Si (e :: l1) e1 l2 e2 l3). reflexivity.
Qed.
Lemma api_flows : forall l d ps, history l d -> distinct_pairs d -> NoDup ps ->
  (forall x y, (exists f r, dget f (seq_flows d) = Some r /\ fl_src r = x /\ fl_tgt r = y) <-> In (x, y) ps) -> flows_are d ps.
Proof.
  intros l d ps H D N Fl. pose proof (inv_history l d H) as I.
  assert (V : forall t, In t (get_flows d) -> dget "sourceRef" (snd t) = Some (VStr (fst (ends_of (snd t)))) /\ dget "targetRef" (snd t) = Some (VStr (snd (ends_of (snd t)))) /\
            same_pair (fst (fst t)) (snd (fst t)) (fst (ends_of (snd t))) (snd (ends_of (snd t))) /\ In (ends_of (snd t)) ps).
  { intros t Ht. destruct (view_flow d t I Ht) as (f & r & p & w & L & Sp & _ & _ & A & B & _). unfold ends_of. rewrite A, B. cbn [fst snd]. split; [reflexivity|]. split; [reflexivity|]. split; [exact Sp|].
    apply Fl. exists f, r. destruct L as (pre & post & E & _). split; [|auto]. apply In_dget; [exact (inv_f d I)|]. rewrite E. apply in_or_app. right. left. reflexivity. }
  exists (map (fun t => ends_of (snd t)) (get_flows d)). split.
  - assert (G : forall ts, (forall t, In t ts -> In t (get_flows d)) -> Forall2 (fun t p => dget "sourceRef" (snd t) = Some (VStr (fst p)) /\ dget "targetRef" (snd t) = Some (VStr (snd p)))
                     ts (map (fun t => ends_of (snd t)) ts)); [|apply G; auto].
    induction ts as [|t ts IH]; intro Hi; [constructor|]. cbn [map]. constructor; [|apply IH; intros x Hx; apply Hi; right; exact Hx].
    destruct (V t (Hi t (or_introl eq_refl))) as (A & B & _). auto.
  - apply NoDup_Permutation; [|exact N|].
    + destruct (get_flows_shows d I) as (es & Pe & F).
      assert (E : map (fun t => ends_of (snd t)) (get_flows d) = map (fun e => ends_of (eat e)) es).
      { clear - F. induction F as [|t e ts es [A _] F IH]; [reflexivity|]. cbn [map]. rewrite A, IH. reflexivity. }
      rewrite E. apply (Permutation_NoDup (Permutation_map (fun e => ends_of (eat e)) (Permutation_sym Pe))). apply edge_keys; [apply gwf_simple_list, (inv_g d I)|].
      intros e He. destruct (edge_in_view _ e (inv_g d I) He) as (t & Ht & Ea & Sp). destruct (V t Ht) as (_ & _ & Q & _). rewrite Ea in Q. unfold same_pair in *. clear - Q Sp.
      destruct Q as [[A B]|[A B]], Sp as [[C E]|[C E]]; [left|right|right|left]; split; congruence.
    + intros [x y]. split.
      * intro Hi. apply in_map_iff in Hi. destruct Hi as (t & <- & Ht). apply V. exact Ht.
      * intro Hi. apply Fl in Hi. destruct Hi as (f & r & E & <- & <-). destruct (flow_by_id_live d f r I (distinct_live d f r (inv_f d I) D E)) as (a & b & at_ & Q & _ & _ & _ & A & B).
        rewrite (flow_by_id_find d f I) in Q. injection Q as Q. apply find_some in Q. destruct Q as [Q _]. apply in_map_iff. exists (a, b, at_). split; [|exact Q]. unfold ends_of. cbn [snd]. rewrite A, B. reflexivity.
Qed.

Lemma NoDup_app_intro : forall A (l l' : list A), NoDup l -> NoDup l' -> (forall x, In x l -> ~ In x l') -> NoDup (l ++ l').
Proof.
  intros A. induction l as [|x l IH]; intros l' N N' D; [exact N'|]. inversion N as [|? ? Nx Nl]; subst. cbn [app]. constructor.
  - intro H. apply in_app_or in H. destruct H as [H|H]; [exact (Nx H)|exact (D x (or_introl eq_refl) H)].
  - apply IH; auto. intros y Hy. apply D. right. exact Hy.
Qed.
Lemma NoDup_app_elim : forall A (l l' : list A), NoDup (l ++ l') -> NoDup l /\ NoDup l' /\ forall x, In x l -> ~ In x l'.
Proof.
  intros A. induction l as [|x l IH]; intros l' N; [split; [constructor|split; [exact N|intros ? []]]|]. cbn [app] in N. inversion N as [|? ? Nx Nl]; subst.
  destruct (IH l' Nl) as (A1 & A2 & A3). split; [constructor; [intro H; apply Nx; apply in_or_app; left; exact H|exact A1]|]. split; [exact A2|].
  intros y [<-|Hy] H; [apply Nx; apply in_or_app; right; exact H|exact (A3 y Hy H)].
Qed.
Lemma chain_fst : forall ns x y, map fst (chain x ns y) = x :: ns.
Proof. induction ns as [|n t IH]; intros x y; [reflexivity|]. cbn [chain map fst]. rewrite IH. reflexivity. Qed.
Lemma chain_tl : forall ns x y p, ns <> [] -> In p (chain x ns y) -> In (fst p) ns \/ In (snd p) ns.
Proof.
  intros [|n t] x y p Ne H; [congruence|]. cbn [chain] in H. destruct H as [<-|H]; [right; left; reflexivity|left].
  rewrite <- (chain_fst t n y). apply in_map. exact H.
Qed.
Lemma chain_ends : forall ns x y p, In p (chain x ns y) -> In (fst p) (x :: ns) /\ In (snd p) (ns ++ [y]).
Proof. intros ns x y [a b] H. apply chain_in in H. destruct H as (i & A & B). split; [exact (nth_error_In _ _ A)|exact (nth_error_In _ _ B)]. Qed.
Lemma NoDup_of_map : forall A B (f : A -> B) l, NoDup (map f l) -> NoDup l.
Proof.
  intros A B f. induction l as [|x l IH]; intro N; [constructor|]. cbn [map] in N. inversion N as [|? ? Nx Nl]; subst. constructor; [|auto].
  intro H. apply Nx. apply in_map. exact H.
Qed.
Lemma inner_distinct : forall g j bs, (forall b : branch_t, In b bs -> names b <> []) -> NoDup (g :: j :: flat_map names bs) -> NoDup (flat_map (fun b => chain g (names b) j) bs).
Proof.
  intros g j. induction bs as [|b t IH]; intros Ne N; [constructor|]. cbn [flat_map] in *.
  pose proof (NoDup_cons_iff g (j :: names b ++ flat_map names t)) as Q. apply Q in N. destruct N as [Ng N]. clear Q.
  pose proof (NoDup_cons_iff j (names b ++ flat_map names t)) as Q. apply Q in N. destruct N as [Nj N]. clear Q.
  destruct (NoDup_app_elim _ _ _ N) as (N1 & N2 & N3).
  apply NoDup_app_intro.
  - apply (NoDup_of_map _ _ fst). rewrite chain_fst. constructor; [|exact N1]. intro H. apply Ng. right. apply in_or_app. left. exact H.
  - apply IH; [intros c Hc; apply Ne; right; exact Hc|]. constructor; [intros [H|H]; apply Ng; [left; exact H|right; apply in_or_app; right; exact H]|].
    constructor; [intro H; apply Nj; apply in_or_app; right; exact H|exact N2].
  - intros p Hp Hq. apply in_flat_map in Hq. destruct Hq as (c & Hc & Hq). destruct (chain_ends _ _ _ _ Hq) as [A B].
    assert (Ic : forall n, In n (names c) -> In n (flat_map names t)) by (intros n Hn; apply in_flat_map; eauto).
    destruct (chain_tl _ _ _ _ (Ne b (or_introl eq_refl)) Hp) as [F|F].
    + destruct A as [A|A]; [apply Ng; rewrite A; right; apply in_or_app; left; exact F|exact (N3 _ F (Ic _ A))].
    + apply in_app_or in B. destruct B as [B|[B|[]]]; [exact (N3 _ F (Ic _ B))|apply Nj; rewrite B; apply in_or_app; left; exact F].
Qed.
Lemma flows_distinct : forall ps x e, (forall p, In p ps -> plain_part p) -> NoDup (all_nodes x ps e) -> NoDup (path_flows x ps e).
Proof.
  induction ps as [|p qs IH]; intros x e P N; [repeat constructor; intros []|]. unfold all_nodes in N. cbn [flat_map] in N. cbn [path_flows].
  assert (Pq : forall q, In q qs -> plain_part q) by (intros q Hq; apply P; right; exact Hq).
  rewrite <- app_assoc in N. apply NoDup_cons_iff in N. destruct N as [Nx N]. destruct (NoDup_app_elim _ _ _ N) as (N1 & N2 & N3).
  assert (Lp : In (last_of p) (part_nodes p)) by (destruct p; cbn; auto).
  assert (Fp : In (first_of p) (part_nodes p)) by (destruct p; cbn; auto).
  assert (Q : NoDup (path_flows (last_of p) qs e)) by (apply IH; [exact Pq|]; constructor; [apply N3; exact Lp|exact N2]).
  constructor.
  - intro H. apply in_app_or in H. destruct H as [H|H].
    + destruct p as [n|g j bs]; [contradiction|]. specialize (P _ (or_introl eq_refl)). rewrite plain_flows in H by exact P. rewrite plain_nodes in N1 by exact P. apply in_flat_map in H. destruct H as (b & Hb & H).
      apply chain_ends in H. destruct H as [_ H]. cbn [snd first_of] in H. inversion N1 as [|? ? A B]; subst. apply A. apply in_app_or in H. destruct H as [H|[H|[]]]; [right; apply in_flat_map; eauto|left; exact H].
    + destruct (path_ends qs _ e _ _ Pq H) as [_ B]. exact (N3 _ Fp B).
  - destruct p as [n|g j bs]; [exact Q|]. specialize (P _ (or_introl eq_refl)). rewrite plain_flows by exact P. rewrite plain_nodes in * by exact P.
    apply NoDup_app_intro; [|exact Q|].
    + apply inner_distinct; [|exact N1]. intros b Hb. destruct P as [_ P]. destruct (P b Hb) as (_ & Ne & _). unfold names. intro Z. apply Ne. apply map_eq_nil in Z. exact Z.
    + intros [a b] Hp Hq. destruct (path_ends qs _ e _ _ Pq Hq) as [A _]. apply in_flat_map in Hp. destruct Hp as (c & Hc & Hp). apply chain_ends in Hp. destruct Hp as [B _]. cbn [fst last_of] in *.
      assert (Ia : a = g \/ In a (flat_map names bs)) by (destruct B as [<-|B]; [left; reflexivity|right; apply in_flat_map; eauto]).
      destruct A as [<-|A].
      * inversion N1 as [|? ? C1 C2]; subst. inversion C2 as [|? ? D1 D2]; subst. destruct Ia as [->|Ia]; [apply C1; left; reflexivity|exact (D1 Ia)].
      * apply (N3 a); [destruct Ia as [->|Ia]; [left; reflexivity|right; right; exact Ia]|]. apply in_or_app. left. exact A.
Qed.

(** A diagram built with the API whose nodes and flows are those of such a process. *)
Theorem C98_api : forall l d s ps e fuel pyfloat, history l d -> distinct_pairs d -> NoDup (all_nodes s ps e) ->
  (forall n, is_node d n <-> In n (all_nodes s ps e)) ->
  (forall x y, (exists f r, dget f (seq_flows d) = Some r /\ fl_src r = x /\ fl_tgt r = y) <-> In (x, y) (path_flows s ps e)) ->
  (forall p, In p ps -> plain_part p) -> gateways_fit d s ps -> reads_integers pyfloat -> sort_bound d <= fuel ->
  exists d', generate_layout fuel d = (d', Ok tt) /\
    count_crossing_points pyfloat d' = Ok (process_crossings ps) /\ count_segments pyfloat d' = Ok (process_segments ps).
Proof.
  intros l d s ps e fuel pf H D N Nd Fl P G R F. destruct (C26_api_diagrams_coherent l d H D) as [Co [AL [W [Dr Ff]]]].
  apply (C98_metrics d s ps e); auto; [|apply (api_flows l); auto; apply flows_distinct; auto]. split; [exact N|]. split; [exact Nd|]. split.
  - intros x y. rewrite <- Fl. unfold goes. split; intros [f X].
    + apply Ff in X. destruct X as [r X]. eauto.
    + destruct X as [r X]. exists f. apply Ff. eauto.
  - intros f g x y A B. apply Ff in A, B. destruct A as [r [A1 [A2 A3]]], B as [r' [B1 [B2 B3]]]. apply (D f r g r' A1 B1). left. split; congruence.
Qed.

(** The metrics report a laid out process free of crossings only if it has no block at all. *)
Theorem C98_free_of_crossings : forall d s ps e fuel pyfloat, coherent d -> all_laid_out d -> gwf (dgraph d) -> drawable d ->
  consists d s ps e -> (forall p, In p ps -> plain_part p) -> flows_are d (path_flows s ps e) -> gateways_fit d s ps ->
  reads_integers pyfloat -> sort_bound d <= fuel ->
  exists d', generate_layout fuel d = (d', Ok tt) /\
    (count_crossing_points pyfloat d' = Ok 0 <-> forall p, In p ps -> is_act p) /\
    (forall g j bs, In (Block g j bs) ps -> exists n, count_crossing_points pyfloat d' = Ok n /\ 2 <= n).
Proof.
  intros d s ps e fuel pf Co AL W Dr Cs Pl Fl G R F. destruct (C98_metrics d s ps e fuel pf Co AL W Dr Cs Pl Fl G R F) as (d' & E & C & _). exists d'. split; [exact E|].
  assert (B : forall g j bs, In (Block g j bs) ps -> 2 <= process_crossings ps).
  { intros g j bs Hi. destruct (Pl _ Hi) as [Two _]. change (2 <= @length branch_t bs) in Two. apply in_split in Hi. destruct Hi as (l1 & l2 & ->). unfold process_crossings. rewrite map_app, list_sum_app. cbn [map list_sum fold_right part_crossings].
    assert (H : 1 <= @length branch_t bs / 2) by (apply Nat.div_le_lower_bound; lia). 
    change (2 <= list_sum (map part_crossings l1) + (2 * (@length branch_t bs / 2) * (@length branch_t bs / 2) + list_sum (map part_crossings l2))). set (h := @length branch_t bs / 2) in *. clearbody h. nia. }
  split.
  - rewrite C. split.
    + intros Z p Hp. destruct p as [n|g j bs]; [exists n; reflexivity|]. exfalso. specialize (B g j bs Hp). injection Z as Z. lia.
    + intro A. f_equal. unfold process_crossings. clear - A. induction ps as [|p qs IH]; [reflexivity|]. cbn [map]. destruct (A p (or_introl eq_refl)) as [n ->]. cbn [part_crossings]. change (list_sum (map part_crossings qs) = 0).
      apply IH. intros q Hq. apply A. right. exact Hq.
  - intros g j bs Hi. exists (process_crossings ps). split; [exact C|exact (B g j bs Hi)].
Qed.

(** * Examples *)
Definition read_integer (s : string) : option Q := option_map inject_Z (zparse s).
Lemma read_integer_ok : reads_integers read_integer.
Proof. intro z. unfold read_integer. rewrite zparse_zstr. reflexivity. Qed.
(** A block of two branches and one of four. *)
Definition cross_parts : list part :=
  [Act "x"; Block "g1" "j1" [([Act "a"; Act "b"], None); ([Act "c"], None)]; 
   Block "g2" "j2" [([Act "p"], None); ([Act "q"], None); ([Act "r"], None); ([Act "t"], None)]].
Definition cross_d : diagram := option_of "s" cross_parts "e".
Definition fit_b (d : diagram) (s : string) (ps : list part) : bool :=
  forallb (fun p => match p with Act _ => true | Block g j _ => usual_gateway_b d g && usual_gateway_b d j end) ps &&
  forallb (fun n => negb (usual_gateway_b d n)) (s :: flat_map part_acts ps).
Lemma fit_ok : forall d s ps, fit_b d s ps = true -> gateways_fit d s ps.
Proof.
  intros d s ps H. apply andb_true_iff in H. destruct H as [A B]. rewrite forallb_forall in A, B. split.
  - intros g j bs Hi. specialize (A _ Hi). cbn beta iota in A. apply andb_true_iff in A. destruct A. split; apply usual_b; assumption.
  - intros n Hn C. apply usual_b in C. specialize (B n Hn). rewrite C in B. discriminate.
Qed.
Lemma cross_ok : history (option_ops "s" cross_parts "e") cross_d /\
  (coherent cross_d /\ all_laid_out cross_d /\ gwf (dgraph cross_d) /\ drawable cross_d /\ consists cross_d "s" cross_parts "e") /\
  (forall p, In p cross_parts -> plain_part p) /\ flows_are cross_d (path_flows "s" cross_parts "e") /\ gateways_fit cross_d "s" cross_parts /\ sort_bound cross_d <= 90.
Proof.
  assert (H : history (option_ops "s" cross_parts "e") cross_d) by (apply checked_history; vm_compute; reflexivity).
  assert (P : forall p, In p cross_parts -> plain_part p) by (apply plain_ok; reflexivity).
  destruct (consists_ok _ _ "s" cross_parts "e" H) as (Co & AL & W & Dr & Cs); [vm_compute; reflexivity|].
  split; [exact H|]. split; [exact (conj Co (conj AL (conj W (conj Dr Cs))))|]. split; [exact P|]. split; [|split; [apply fit_ok; vm_compute; reflexivity|apply Nat.leb_le; vm_compute; reflexivity]].
  assert (D : distinct_pairs cross_d) by (apply pairs_checked_ok; vm_compute; reflexivity).
  destruct (C26_api_diagrams_coherent _ _ H D) as (_ & _ & _ & _ & Ff). destruct Cs as (N & _ & Cs & _).
  apply (api_flows (option_ops "s" cross_parts "e") cross_d (path_flows "s" cross_parts "e") H D (flows_distinct cross_parts "s" "e" P N)). intros x y. rewrite <- Cs. unfold goes. split.
  - intros (f & X). exists f. exact (proj2 (Ff f x y) X).
  - intros (f & X). exists f. exact (proj1 (Ff f x y) X).
Qed.
Example C98_metrics_example : let r := generate_layout 90 cross_d in
  snd r = Ok tt /\ count_crossing_points read_integer (fst r) = Ok 10 /\ process_crossings cross_parts = 10 /\
  count_segments read_integer (fst r) = Ok (process_segments cross_parts).
Proof. vm_compute. repeat split. Qed.
Example C98_metrics_applies : exists d', generate_layout 90 cross_d = (d', Ok tt) /\
  count_crossing_points read_integer d' = Ok 10 /\ count_segments read_integer d' = Ok (process_segments cross_parts).
Proof.
  destruct cross_ok as (_ & (Co & AL & W & Dr & Cs) & P & Fl & G & F).
  apply (C98_metrics cross_d "s" cross_parts "e" 90 read_integer); auto. exact read_integer_ok.
Qed.
Example C98_free_applies : exists d', generate_layout 90 cross_d = (d', Ok tt) /\ count_crossing_points read_integer d' <> Ok 0.
Proof.
  destruct cross_ok as (_ & (Co & AL & W & Dr & Cs) & P & Fl & G & F).
  destruct (C98_free_of_crossings cross_d "s" cross_parts "e" 90 read_integer Co AL W Dr Cs P Fl G read_integer_ok F) as (d' & E & _ & B). exists d'. split; [exact E|].
  destruct (B "g1" "j1" _ (or_intror (or_introl eq_refl))) as (n & C & L). rewrite C. intro Z. injection Z as Z. lia.
Qed.
(** The route of the flow from the lower branch to the first gateway where branches meet. *)
Example C30_exact_route_example : let d' := fst (generate_layout 90 cross_d) in
  exists t, In t (get_flows d') /\ ends_of (snd t) = ("c", "j1") /\
    dget "waypoints" (snd t) = Some (VPoints (map (fun p => (zstr (fst p), zstr (snd p))) [(700, 500); (1000, 500); (1000, 250)]%Z)).
Proof.
  set (r := fst (generate_layout 90 cross_d)). cbv zeta.
  exists (match find (fun t => String.eqb (fst (ends_of (snd t))) "c") (get_flows r) with Some t => t | None => ("", "", []) end).
  split; [|vm_compute; split; reflexivity].
  destruct (find _ (get_flows r)) eqn:E; [exact (proj1 (find_some _ _ E))|]. exfalso. revert E. vm_compute. discriminate.
Qed.
Print Assumptions C30_exact_route.
Print Assumptions C98_metrics.
Print Assumptions C98_api.
Print Assumptions C98_free_of_crossings.
