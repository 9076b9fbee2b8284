(** Facts about the placement in the grid. *)
From Coq Require Import String List Bool Arith ZArith Lia Permutation.
From Verif Require Import Py PyFacts Consts Nx NxFacts Rep SpecRep RepFacts MetricsFacts Classify Layouter
  SpecLayout ClassifyFacts TopoFacts.
Import ListNotations.
Open Scope string_scope.
Open Scope list_scope.

Lemma cremove_perm : forall n l l', cremove n l = Ok l' ->
  Permutation (map cid l) (n :: map cid l') /\ incl l' l.
Proof.
  induction l as [|c t IH]; intros l' E; [discriminate|]. simpl in E.
  destruct (String.eqb_spec n (cid c)) as [->|Ne].
  - inv E. split; [reflexivity|]. intros x Hx. right; auto.
  - destruct (cremove n t) as [r|] eqn:Er; [|discriminate]. inv E. destruct (IH r eq_refl) as [P I]. split.
    + simpl. rewrite P. apply perm_swap.
    + intros x [->|Hx]; [left; auto|right; auto].
Qed.

Section G.
Variable d : diagram.
Variable all : list cnode.

(** Grids that arise by successive insertions. *)
Inductive built : list cell -> Prop :=
| b_nil : built []
| b_add : forall g n lr enf row r c lr' g', built g -> In n all ->
    choose_cell d n g lr enf = Ok (row, (r, c), lr') ->
    insert_into_grid g r c (cid n) = Ok g' -> built g'.

Lemma insert_ok : forall g r c n g', insert_into_grid g r c n = Ok g' ->
  g' = g ++ [mkCell r c n] /\ forall x, In x g -> ~ (crow x = r /\ ccol x = c).
Proof.
  intros g r c n g' E. unfold insert_into_grid in E.
  destruct (find _ g) as [y|] eqn:F; [discriminate|]. inv E. split; auto.
  intros x Hx [A B]. pose proof (find_none _ _ F x Hx) as Z. cbv beta in Z. rewrite A, B, !Z.eqb_refl in Z. discriminate.
Qed.

Lemma rfold_inv : forall A S (f : S -> A -> res S) (P : S -> Prop) l s s',
  P s -> (forall s a s1, In a l -> P s -> f s a = Ok s1 -> P s1) -> rfold f l s = Ok s' -> P s'.
Proof.
  induction l as [|a t IH]; intros s s' H F E; cbn [rfold] in E; [inv E; auto|].
  destruct (f s a) as [s1|] eqn:Ef; [|discriminate]. cbn [rbind] in E. eapply IH; [| |exact E].
  - eapply F; eauto. left; auto.
  - intros s0 a0 s2 Ha. apply F. right; auto.
Qed.

Definition placed (st st' : pstate) (ids : list string) : Prop :=
  exists new R, fst (fst st') = fst (fst st) ++ new /\
    Permutation (map cid (snd st)) (R ++ map cid (snd st')) /\
    Permutation (map cnid new) (ids ++ R) /\ incl (snd st') (snd st).

Lemma place_ok : forall fuel n enf st st', place_element fuel d n enf st = Ok st' ->
  In n all -> incl (snd st) all -> built (fst (fst st)) ->
  placed st st' [cid n] /\ built (fst (fst st')).
Proof.
  induction fuel as [|fuel IH]; intros n enf [[grid lr] tmp] st' E Hn Ht B; [discriminate|].
  cbn [place_element] in E. destruct (choose_cell d n grid lr enf) as [[[row [r c]] lr1]|] eqn:Ec; [|discriminate].
  cbn [rbind] in E. destruct (insert_into_grid grid r c (cid n)) as [grid1|] eqn:Ei; [|discriminate].
  cbn [rbind] in E. cbn [fst snd] in *.
  assert (B1 : built grid1) by (eapply b_add; eauto).
  destruct (insert_ok _ _ _ _ _ Ei) as [Eg _].
  assert (P0 : placed (grid, lr, tmp) (grid1, lr1, tmp) [cid n]).
  { exists [mkCell r c (cid n)], []. cbn [fst snd]. split; auto. split; [reflexivity|]. split; [reflexivity|apply incl_refl]. }
  destruct (smem c_split (ccls n)); [|inv E; auto].
  destruct (rmap _ (cout n)) as [succs|] eqn:Es; [|discriminate]. cbn [rbind] in E.
  set (P := fun st : pstate => placed (grid, lr, tmp) st [cid n] /\ built (fst (fst st))).
  assert (P st'); [|exact H].
  eapply (rfold_inv _ _ _ P); [| |exact E].
  - split; auto.
  - intros s k s1 _ [[new [R [G1 [G2 [G3 G4]]]]] Bs] Ef.
    destruct (nth_error (filter _ tmp) k) as [x|] eqn:En; [|discriminate].
    destruct (place_element fuel d x _ s) as [s2|] eqn:Ep; [|discriminate]. cbn [rbind] in Ef.
    assert (Hx : In x tmp) by (apply nth_error_In in En; apply filter_In in En; tauto).
    destruct (IH x _ s s2 Ep) as [[new2 [R2 [H1 [H2 [H3 H4]]]]] B2]; auto.
    { intros y Hy. apply Ht, G4, Hy. }
    destruct (cremove (cid x) (snd s2)) as [tmp'|] eqn:Er; [|discriminate]. cbn [rbind] in Ef. inv Ef.
    destruct (cremove_perm _ _ _ Er) as [Pr Ir]. cbn [fst snd] in *. split; [|exact B2].
    exists (new ++ new2), (R ++ R2 ++ [cid x]). cbn [fst snd]. split; [rewrite H1, G1, app_assoc; reflexivity|].
    split; [|split].
    + rewrite G2, H2, Pr. rewrite <- !app_assoc. cbn [app]. reflexivity.
    + rewrite map_app, G3, H3. cbn [app].
      rewrite <- (Permutation_cons_append R2 (cid x)). reflexivity.
    + intros y Hy. apply G4, H4, Ir, Hy.
Qed.

Lemma grid_loop_ok : forall rounds fuel st g, grid_loop rounds fuel d st = Ok g ->
  incl (snd st) all -> built (fst (fst st)) ->
  built g /\ exists new, g = fst (fst st) ++ new /\ Permutation (map cnid new) (map cid (snd st)).
Proof.
  induction rounds as [|rounds IH]; intros fuel [[grid lr] tmp] g E Ht B; cbn [grid_loop fst snd] in *.
  - destruct tmp; [|discriminate]. inv E. split; auto. exists []. rewrite app_nil_r. auto.
  - destruct tmp as [|n tmp]; [inv E; split; auto; exists []; rewrite app_nil_r; auto|].
    destruct (place_element fuel d n None (grid, lr, tmp)) as [st'|] eqn:Ep; [|discriminate]. cbn [rbind] in E.
    destruct (place_ok fuel n None (grid, lr, tmp) st' Ep) as [[new [R [H1 [H2 [H3 H4]]]]] B']; auto.
    { apply Ht. left; auto. } { intros x Hx. apply Ht. right; auto. }
    cbn [fst snd] in *.
    destruct (IH fuel st' g E) as [Bg [new2 [G1 G2]]]; auto.
    { intros x Hx. apply Ht. right. auto. }
    split; auto. exists (new ++ new2). split; [rewrite G1, H1, app_assoc; reflexivity|].
    rewrite map_app, H3, G2. cbn [map]. rewrite H2. cbn [app]. reflexivity.
Qed.

Lemma built_nodup : forall g, built g -> NoDup (map (fun c => (crow c, ccol c)) g).
Proof.
  induction 1 as [|g n lr enf row r c lr' g' B IH Hn Ec Ei]; [constructor|].
  destruct (insert_ok _ _ _ _ _ Ei) as [-> F]. rewrite map_app. simpl.
  apply NoDup_app; auto.
  - constructor; [intros []|constructor].
  - intros x Hx [<-|[]]. apply in_map_iff in Hx. destruct Hx as [y [Ey Hy]]. inv Ey. apply (F y); auto.
Qed.
End G.

Lemma gfind_ok : forall n g c, gfind n g = Ok c -> In c g /\ cnid c = n.
Proof.
  intros n g c E. unfold gfind in E. destruct (find _ g) as [x|] eqn:F; [|discriminate]. inv E.
  apply find_some in F. destruct F as [A B]. apply String.eqb_eq in B. auto.
Qed.
Lemma gfind_nodup : forall g c, NoDup (map cnid g) -> In c g -> gfind (cnid c) g = Ok c.
Proof.
  unfold gfind. induction g as [|a t IH]; intros c N H; [contradiction|]. inv N. simpl.
  destruct (String.eqb_spec (cnid a) (cnid c)) as [E|E].
  - destruct H as [->|H]; auto. exfalso. apply H2. rewrite E. apply in_map. auto.
  - destruct H as [->|H]; [congruence|]. auto.
Qed.

Lemma join_col : forall preds g acc,
  (snd acc <= snd (fold_left (fun acc c => if smem (cnid c) preds
     then ((fst acc + crow c)%Z, if Z.ltb (snd acc) (ccol c) then ccol c else snd acc) else acc) g acc))%Z /\
  forall c, In c g -> In (cnid c) preds ->
   (ccol c <= snd (fold_left (fun acc c => if smem (cnid c) preds
     then ((fst acc + crow c)%Z, if Z.ltb (snd acc) (ccol c) then ccol c else snd acc) else acc) g acc))%Z.
Proof.
  intros preds. induction g as [|a t IH]; intros acc; simpl; [split; [lia|intros c []]|].
  match goal with |- context [fold_left _ t ?x] => set (acc1 := x) end.
  destruct (IH acc1) as [A B]. 
  assert (L : (snd acc <= snd acc1)%Z).
  { unfold acc1. destruct (smem (cnid a) preds); [|lia]. cbn [snd]. destruct (Z.ltb_spec (snd acc) (ccol a)); lia. }
  split; [lia|]. intros c [<-|H] Hp; [|auto].
  assert (ccol a <= snd acc1)%Z; [|lia]. unfold acc1. apply smem_In in Hp. rewrite Hp. cbn [snd].
  destruct (Z.ltb_spec (snd acc) (ccol a)); lia.
Qed.

(** What the maximum is. *)
Lemma join_col_reached : forall preds g acc,
  let m := snd (fold_left (fun acc c => if smem (cnid c) preds
     then ((fst acc + crow c)%Z, if Z.ltb (snd acc) (ccol c) then ccol c else snd acc) else acc) g acc) in
  m = snd acc \/ exists c, In c g /\ In (cnid c) preds /\ ccol c = m.
Proof.
  intros preds. induction g as [|a t IH]; intros acc; simpl; auto.
  match goal with |- context [fold_left _ t ?x] => set (acc1 := x) end.
  destruct (IH acc1) as [A|[c [A [B C]]]]; [|right; eauto]. cbv zeta in A. rewrite A.
  unfold acc1. destruct (smem (cnid a) preds) eqn:Em; auto. cbn [snd].
  destruct (Z.ltb_spec (snd acc) (ccol a)); auto. right. exists a. split; auto. split; auto. apply smem_In. auto.
Qed.

Lemma rmap_In : forall A B (f : A -> res B) l r, rmap f l = Ok r ->
  (forall a, In a l -> exists b, f a = Ok b /\ In b r) /\ (forall b, In b r -> exists a, In a l /\ f a = Ok b).
Proof.
  induction l as [|a t IH]; intros r E; cbn [rmap] in E.
  - inv E. split; intros ? [].
  - destruct (f a) as [b|] eqn:Ef; [|discriminate]. cbn [rbind] in E.
    destruct (rmap f t) as [r'|] eqn:Er; [|discriminate]. cbn [rbind] in E. inv E.
    destruct (IH r' eq_refl) as [P Q]. split.
    + intros x [<-|Hx]; [exists b; split; auto; left; auto|]. destruct (P x Hx) as [y [Ey Hy]]. exists y. split; auto. right; auto.
    + intros y [<-|Hy]; [exists a; split; auto; left; auto|]. destruct (Q y Hy) as [x [Hx Ey]]. exists x. split; auto. right; auto.
Qed.

Section Cols.
Variable d : diagram.
Hypothesis Co : coherent d.

Lemma orig_cin : forall c, In c (classified d) -> cin c = incoming_of d (cid c) /\ cout c = outgoing_of d (cid c).
Proof.
  intros c H. apply classified_char in H; [|apply Co]. destruct H as [t [b [_ [_ [A [B _]]]]]]. auto.
Qed.

Lemma source_of : forall f n m s, flow d f n m -> flow_ref d f k_source_ref = Ok s -> s = n.
Proof. intros f n m s [_ [_ G]] E. rewrite (ref_source d f n m G) in E. congruence. Qed.
Lemma target_of : forall f n m s, flow d f n m -> flow_ref d f k_target_ref = Ok s -> s = m.
Proof. intros f n m s [_ [_ G]] E. rewrite (ref_target d f n m G) in E. congruence. Qed.

(** The column of a cell relative to the cells of the predecessors that were already
    there. *)
Lemma built_cols : forall g, built d (classified d) g -> NoDup (map cnid g) ->
  forall g1 cm g2, g = g1 ++ cm :: g2 -> forall f n, flow d f n (cnid cm) ->
  (forall cn, In cn g1 -> cnid cn = n -> (ccol cn + 1 <= ccol cm)%Z) /\
  (~ join_node d (cnid cm) -> exists cn, In cn g1 /\ cnid cn = n /\ ccol cm = (ccol cn + 1)%Z).
Proof.
  induction 1 as [|g n0 lr enf row r c lr' g' B IH Hn Ec Ei]; intros N g1 cm g2 E f n F.
  - destruct g1; discriminate.
  - destruct (insert_ok _ _ _ _ _ Ei) as [Eg _]. rewrite Eg in *.
    assert (Ng : NoDup (map cnid g)). { rewrite map_app in N. eapply nodup_l; eauto. }
    destruct g2 as [|z g2] using rev_ind.
    + apply app_inj_tail in E. destruct E as [<- <-]. cbn [cnid ccol] in *.
      destruct (orig_cin n0 Hn) as [Ein _]. pose proof F as [_ [Fi _]]. rewrite <- Ein in Fi.
      pose proof (orig_join d Co n0 Hn) as J.
      unfold choose_cell in Ec. destruct (cin n0) as [|f0 fs] eqn:Ecin; [contradiction|].
      destruct (smem c_join (ccls n0)) eqn:Ej.
      * split; [|intro C; exfalso; apply C; unfold join_node; apply Nat.leb_le; auto].
        intros cn Hcn Ecn. destruct (rmap _ (f0 :: fs)) as [preds|] eqn:Ep; [|discriminate]. cbn [rbind] in Ec.
        injection Ec as _ _ <- _. destruct (rmap_In _ _ _ _ _ Ep) as [P _].
        destruct (P f Fi) as [s [Es Hs]]. apply (source_of f n (cid n0)) in Es; auto. subst s.
        unfold join_position. destruct (join_col preds g (0%Z, 0%Z)) as [_ M]. specialize (M cn Hcn). rewrite Ecn in M.
        specialize (M Hs). lia.
      * assert (fs = []).
        { symmetry in J. apply Nat.leb_gt in J. rewrite <- Ein in J. simpl in J. destruct fs; simpl in J; auto; lia. }
        subst fs. destruct Fi as [<-|[]].
        destruct (flow_ref d f0 k_source_ref) as [p|] eqn:Ep; [|discriminate]. cbn [rbind] in Ec.
        apply (source_of f0 n (cid n0)) in Ep; auto. subst p.
        destruct (gfind n g) as [cn|] eqn:Eg'; [|discriminate]. cbn [rbind] in Ec. injection Ec as _ _ <- _.
        destruct (gfind_ok _ _ _ Eg') as [Hcn Ecn]. split; [|intros _; exists cn; auto].
        intros cn' Hcn' Ecn'. pose proof (gfind_nodup g cn' Ng Hcn') as G. rewrite Ecn' in G.
        rewrite G in Eg'. inv Eg'. lia.
    + clear IHg2. rewrite app_comm_cons, app_assoc in E. apply app_inj_tail in E. destruct E as [E <-].
      eapply IH; eauto.
Qed.

Lemma topo_in_orig : forall fuel orig tmp sorted back s b,
  topo_loop fuel d orig tmp sorted back = Ok (s, b) -> incl sorted orig -> incl s orig.
Proof.
  assert (T : forall orig ready tmp sorted t s, take_ready d orig ready tmp sorted = Ok (t, s) -> incl sorted orig -> incl s orig).
  { induction ready as [|n r IH]; intros tmp sorted t s E I; cbn [take_ready] in E; [inv E; auto|].
    destruct (cremove (cid n) tmp); [|discriminate]. cbn [rbind] in E.
    destruct (cfind (cid n) orig) as [o|] eqn:Eo; [|discriminate]. cbn [rbind] in E.
    destruct (release d (cout n) a); [|discriminate]. cbn [rbind] in E. eapply IH; eauto.
    intros x Hx. apply in_app_or in Hx. destruct Hx as [Hx|[<-|[]]]; auto.
    unfold cfind in Eo. destruct (find _ orig) eqn:Ff; [|discriminate]. inv Eo. apply find_some in Ff. tauto. }
  induction fuel as [|fuel IH]; intros orig tmp sorted back s b E I; destruct tmp as [|c t]; cbn [topo_loop] in E;
    try (inv E; auto; fail); try discriminate.
  remember (c :: t) as tmp. destruct (filter _ tmp) as [|r0 rs].
  - destruct (cut_joins d (map cid tmp) (tmp, back)) as [[t' b']|]; [|discriminate]. cbn [rbind fst snd] in E. eauto.
  - destruct (take_ready d orig (rev (r0 :: rs)) tmp sorted) as [[t' s']|] eqn:Et; [|discriminate]. cbn [rbind fst snd] in E.
    eauto.
Qed.
End Cols.
