(** Diagrams with the same plan are sorted and placed in the same way. *)
From Coq Require Import String List Bool Arith ZArith Lia Permutation.
From Verif Require Import Py PyFacts Consts Nx NxFacts Rep SpecRep RepFacts MetricsFacts Classify Layouter
  SpecLayout ClassifyFacts TopoFacts GridFacts LayoutFacts LayoutFacts2 SpecBlocks SpecFlat SpecPlan SpecPicture.
Import ListNotations.
Open Scope string_scope.
Open Scope list_scope.

(** ** One diagram: the steps of the sort in terms of connected pairs *)
Definition cut_pair (d : diagram) (back : list string) (n m : string) : Prop := exists f, In f back /\ flow d f n m.

Section One.
Variable d : diagram.
Hypothesis Co : coherent d.
Hypothesis AL : all_laid_out d.
Hypothesis Sf : single_flows d.

Lemma empty_in : forall tmp sorted back c, Inv d tmp sorted back -> In c tmp ->
  (cin c = [] <-> forall n, In n (map cid tmp) -> goes d n (cid c) -> cut_pair d back n (cid c)).
Proof.
  intros tmp sorted back c I Hc. split.
  - intros E n Hn [f F]. destruct (in_dec string_dec f back) as [Hb|Hb]; [exists f; auto|].
    exfalso. assert (X : In f (cin c)).
    { apply (ti_in _ _ _ _ I c f Hc). destruct F as [A [B G]]. eauto 6. }
    rewrite E in X. contradiction.
  - intros H. destruct (cin c) as [|f r] eqn:E; auto. exfalso.
    assert (X : In f (cin c)) by (rewrite E; left; auto). apply (ti_in _ _ _ _ I c f Hc) in X.
    destruct X as [Hi [Hb [n [G Hn]]]]. destruct (in_flow d Co _ _ Hi) as [n' F].
    pose proof F as [_ [_ G']]. destruct (goes_fun d _ _ _ _ _ G G') as [<- _].
    destruct (H n Hn (ex_intro _ f F)) as [g [Hg Fg]]. rewrite (Sf g f n (cid c)) in Hg by auto. contradiction.
Qed.

Lemma filter_cid : forall p l, map cid (filter (fun x => p (cid x)) l) = filter p (map cid l).
Proof. induction l as [|c t IH]; simpl; auto. destruct (p (cid c)); simpl; congruence. Qed.
Lemma filter_filter : forall A (p q : A -> bool) l, filter p (filter q l) = filter (fun x => q x && p x) l.
Proof. induction l as [|a t IH]; simpl; auto. destruct (q a); simpl; [destruct (p a)|]; congruence. Qed.

Lemma take_ready_ids : forall ready tmp sorted back, Inv d tmp sorted back ->
  NoDup (map cid ready) -> (forall c, In c ready -> In c tmp /\ cin c = []) ->
  exists tmp' sorted', take_ready d (orig d) ready tmp sorted = Ok (tmp', sorted') /\ Inv d tmp' sorted' back /\
    map cid tmp' = filter (fun n => negb (smem n (map cid ready))) (map cid tmp) /\
    map cid sorted' = map cid sorted ++ map cid ready.
Proof.
  induction ready as [|c t IH]; intros tmp sorted back I N H.
  - exists tmp, sorted. simpl. rewrite app_nil_r. split; auto. split; auto. split; auto.
    symmetry. apply filter_all_true. auto.
  - inv N. destruct (H c (or_introl eq_refl)) as [Hc Ec].
    destruct (take_one d Co AL tmp sorted back c I Hc Ec) as [o [tmp1 [E1 [E2 [Eo [E3 [E4 I1]]]]]]].
    cbn [take_ready]. rewrite E1. cbn [rbind]. rewrite E2. cbn [rbind]. rewrite E3. cbn [rbind].
    destruct (IH tmp1 (sorted ++ [o]) back I1 H3) as [tmp' [sorted' [E [I' [Ht Hs]]]]].
    + intros x Hx. destruct (H x (or_intror Hx)) as [Hx1 Hx2]. split; auto.
      rewrite E4. apply in_map_iff. exists x. split.
      * apply drop_in_id. rewrite Hx2. intros f [].
      * apply filter_In. split; auto. apply negb_true_iff, eqb_neq'. intro C. apply H2. rewrite <- C. apply in_map. auto.
    + exists tmp', sorted'. split; auto. split; auto. split.
      * rewrite Ht, E4, drop_in_cid, (filter_cid (fun n => negb (String.eqb n (cid c)))), filter_filter.
        apply filter_ext. intro n. cbn [map smem existsb]. rewrite negb_orb. reflexivity.
      * rewrite Hs, map_app, <- app_assoc. simpl. rewrite Eo. reflexivity.
Qed.

Lemma cut_joins_pairs : forall ns tmp sorted back, Inv d tmp sorted back -> (forall n, In n ns -> In n (map cid tmp)) ->
  exists tmp' back', cut_joins d ns (tmp, back) = Ok (tmp', back') /\ Inv d tmp' sorted back' /\ map cid tmp' = map cid tmp /\
    forall n m, cut_pair d back' n m <->
      cut_pair d back n m \/ (In m ns /\ join_node d m /\ In n (map cid tmp) /\ goes d n m).
Proof.
  induction ns as [|n0 t IH]; intros tmp sorted back I H.
  - exists tmp, back. split; auto. split; auto. split; auto. intros n m. simpl. tauto.
  - pose proof (H n0 (or_introl eq_refl)) as Hn. apply in_map_iff in Hn. destruct Hn as [c [<- Hc]].
    cbn [cut_joins fst]. rewrite cfind_ok by (auto; eapply tmp_nodup; eauto). cbn [rbind].
    destruct (ti_live _ _ _ _ I c Hc) as [Ni [No J]].
    destruct (smem c_join (ccls c)) eqn:Ej.
    + assert (Jc : join_node d (cid c)) by tauto.
      destruct (cut_many d Co (cin c) tmp sorted back c I Hc Jc Ni (fun f H => H)) as [tmp1 [E [I1 [M _]]]].
      rewrite E. cbn [rbind].
      destruct (IH tmp1 sorted (back ++ cin c) I1) as [tmp' [back' [E' [I' [M' D]]]]].
      { intros m Hm. rewrite M. apply H. right; auto. }
      exists tmp', back'. split; auto. split; auto. split; [congruence|].
      intros n m. rewrite D, M. split.
      * intros [[f [Hf F]]|[A [B [C G]]]]; [|right; split; [right|]; auto].
        apply in_app_or in Hf. destruct Hf as [Hf|Hf]; [left; exists f; auto|]. right.
        apply (ti_in _ _ _ _ I c f Hc) in Hf. destruct Hf as [_ [_ [n' [G Hn']]]].
        pose proof F as [_ [_ G']]. destruct (goes_fun d _ _ _ _ _ G G') as [-> <-].
        split; [left; auto|]. split; auto. split; auto. exists f. auto.
      * intros [[f [Hf F]]|[[<-|A] [B [C G]]]]; [left; exists f; split; auto; apply in_or_app; auto| |right; auto].
        left. destruct G as [f F]. exists f. split; auto. apply in_or_app.
        destruct (in_dec string_dec f back) as [Hb|Hb]; auto. right.
        apply (ti_in _ _ _ _ I c f Hc). destruct F as [X [Y G]]. eauto 6.
    + cbn [rbind]. destruct (IH tmp sorted back I) as [tmp' [back' [E' [I' [M' D]]]]].
      { intros m Hm. apply H. right; auto. }
      exists tmp', back'. split; auto. split; auto. split; auto.
      intros n m. rewrite D. split; intros [A|[A B]]; auto.
      * right. split; auto. right; auto.
      * destruct A as [<-|A]; auto. exfalso. destruct B as [B _]. apply J in B. discriminate.
Qed.

(** The predecessors and the successors of a node. *)
Lemma preds_list : forall n, exists l, rmap (fun f => flow_ref d f k_source_ref) (incoming_of d n) = Ok l /\
  length l = length (incoming_of d n) /\ NoDup l /\ forall p, In p l <-> goes d p n.
Proof.
  intros n.
  assert (Nd : NoDup (incoming_of d n)).
  { destruct (incoming_of d n) as [|f r] eqn:E; [constructor|]. rewrite <- E. destruct Co as [_ [N _]]. apply N.
    apply (incoming_node d n f). rewrite E. left; auto. }
  assert (G : forall l, NoDup l -> incl l (incoming_of d n) ->
    exists r, rmap (fun f => flow_ref d f k_source_ref) l = Ok r /\ length r = length l /\ NoDup r /\
      forall p, In p r <-> exists f, In f l /\ flow d f p n).
  { induction l as [|f t IH]; intros N Hi.
    - exists []. simpl. split; auto. split; auto. split; [constructor|]. intros p. split; [intros []|intros [f [[] _]]].
    - inv N. destruct IH as [r [E [Lr [Nr P]]]]; auto. { intros x Hx. apply Hi. right; auto. }
      destruct (in_flow d Co n f (Hi f (or_introl eq_refl))) as [p F]. exists (p :: r). cbn [rmap].
      pose proof F as [_ [_ Gf]]. rewrite (ref_source d f p n Gf). cbn [rbind]. rewrite E. cbn [rbind].
      split; auto. split; [simpl; lia|]. split.
      + constructor; auto. intro C. apply P in C. destruct C as [g [Hg Fg]]. rewrite (Sf g f p n) in Hg by auto. contradiction.
      + intros q. split.
        * intros [<-|Hq]; [exists f; split; auto; left; auto|]. apply P in Hq. destruct Hq as [g [Hg Fg]]. exists g. split; auto. right; auto.
        * intros [g [[<-|Hg] Fg]]; [|right; apply P; eauto]. left. destruct Fg as [_ [_ Gg]].
          destruct (goes_fun d _ _ _ _ _ Gf Gg). auto. }
  destruct (G _ Nd (incl_refl _)) as [r [E [Lr [Nr P]]]]. exists r. split; auto. split; auto. split; auto.
  intros p. rewrite P. split; [intros [f [_ F]]; exists f; auto|intros [f F]; exists f; split; auto; apply F].
Qed.
Lemma succs_list : forall n, exists l, rmap (fun f => flow_ref d f k_target_ref) (outgoing_of d n) = Ok l /\
  length l = length (outgoing_of d n) /\ NoDup l /\ forall p, In p l <-> goes d n p.
Proof.
  intros n.
  assert (Nd : NoDup (outgoing_of d n)).
  { destruct (outgoing_of d n) as [|f r] eqn:E; [constructor|]. rewrite <- E. destruct Co as [_ [N _]]. apply N.
    apply (outgoing_node d n f). rewrite E. left; auto. }
  assert (G : forall l, NoDup l -> incl l (outgoing_of d n) ->
    exists r, rmap (fun f => flow_ref d f k_target_ref) l = Ok r /\ length r = length l /\ NoDup r /\
      forall p, In p r <-> exists f, In f l /\ flow d f n p).
  { induction l as [|f t IH]; intros N Hi.
    - exists []. simpl. split; auto. split; auto. split; [constructor|]. intros p. split; [intros []|intros [f [[] _]]].
    - inv N. destruct IH as [r [E [Lr [Nr P]]]]; auto. { intros x Hx. apply Hi. right; auto. }
      destruct (out_flow d Co n f (Hi f (or_introl eq_refl))) as [p F]. exists (p :: r). cbn [rmap].
      pose proof F as [_ [_ Gf]]. rewrite (ref_target d f n p Gf). cbn [rbind]. rewrite E. cbn [rbind].
      split; auto. split; [simpl; lia|]. split.
      + constructor; auto. intro C. apply P in C. destruct C as [g [Hg Fg]]. rewrite (Sf g f n p) in Hg by auto. contradiction.
      + intros q. split.
        * intros [<-|Hq]; [exists f; split; auto; left; auto|]. apply P in Hq. destruct Hq as [g [Hg Fg]]. exists g. split; auto. right; auto.
        * intros [g [[<-|Hg] Fg]]; [|right; apply P; eauto]. left. destruct Fg as [_ [_ Gg]].
          destruct (goes_fun d _ _ _ _ _ Gf Gg). auto. }
  destruct (G _ Nd (incl_refl _)) as [r [E [Lr [Nr P]]]]. exists r. split; auto. split; auto. split; auto.
  intros p. rewrite P. split; [intros [f [_ F]]; exists f; auto|intros [f F]; exists f; split; auto; apply F].
Qed.
End One.

(** ** Relations on results *)
Definition rsim {A B} (R : A -> B -> Prop) (r : res A) (r' : res B) : Prop :=
  match r, r' with Ok a, Ok b => R a b | Err e, Err e' => e' = e | _, _ => False end.
Lemma rbind_sim : forall A B A' B' (R : A -> A' -> Prop) (Q : B -> B' -> Prop) m m' (f : A -> res B) (f' : A' -> res B'),
  rsim R m m' -> (forall a a', R a a' -> rsim Q (f a) (f' a')) -> rsim Q (rbind m f) (rbind m' f').
Proof. intros. destruct m, m'; simpl in *; try contradiction; auto. Qed.
Lemma rfold_sim : forall A S S' (R : S -> S' -> Prop) (f : S -> A -> res S) (f' : S' -> A -> res S') l s s',
  (forall a s s', R s s' -> rsim R (f s a) (f' s' a)) -> R s s' -> rsim R (rfold f l s) (rfold f' l s').
Proof.
  induction l as [|a t IH]; intros s s' H Hs; cbn [rfold]; [exact Hs|].
  eapply rbind_sim; [apply H; exact Hs|]. intros b b' Hb. apply IH; auto.
Qed.

Lemma ids_filter : forall (p p' : cnode -> bool) l l', map cid l' = map cid l ->
  (forall c c', In c l -> In c' l' -> cid c' = cid c -> p' c' = p c) -> map cid (filter p' l') = map cid (filter p l).
Proof.
  induction l as [|c t IH]; intros [|c' t'] E H; try discriminate; auto. simpl in E. injection E as E1 E2.
  simpl. rewrite (H c c' (or_introl eq_refl) (or_introl eq_refl) E1).
  assert (X : map cid (filter p' t') = map cid (filter p t)) by (apply IH; auto; intros; apply H; auto; right; auto).
  destruct (p c); simpl; congruence.
Qed.
Lemma cremove_sim : forall n l l', map cid l' = map cid l ->
  rsim (fun r r' => map cid r' = map cid r /\ incl r l /\ incl r' l') (cremove n l) (cremove n l').
Proof.
  induction l as [|c t IH]; intros [|c' t'] E; try discriminate; [reflexivity|]. simpl in E. injection E as E1 E2.
  simpl. rewrite E1. destruct (String.eqb n (cid c)).
  - simpl. split; auto. split; apply incl_tl, incl_refl.
  - specialize (IH t' E2). destruct (cremove n t) as [r|], (cremove n t') as [r'|]; simpl in *; auto; try contradiction.
    destruct IH as [A [B C]]. split; [congruence|]. split; intros x [->|Hx]; [left; auto|right; auto|left; auto|right; auto].
Qed.
Lemma nth_sim : forall (l l' : list cnode) i, map cid l' = map cid l ->
  match nth_error l i, nth_error l' i with
  | Some c, Some c' => In c l /\ In c' l' /\ cid c' = cid c
  | None, None => True
  | _, _ => False
  end.
Proof.
  induction l as [|c t IH]; intros [|c' t'] i E; try discriminate; [destruct i; exact I|]. simpl in E. injection E as E1 E2.
  destruct i as [|i]; simpl; [split; auto|]. specialize (IH t' i E2).
  destruct (nth_error t i), (nth_error t' i); try contradiction; auto. destruct IH as [A [B C]]. auto.
Qed.

(** ** Two diagrams *)
Section Two.
Variables d d' : diagram.
Hypothesis Co : coherent d.
Hypothesis Co' : coherent d'.
Hypothesis AL : all_laid_out d.
Hypothesis AL' : all_laid_out d'.
Hypothesis Sf : single_flows d.
Hypothesis Sf' : single_flows d'.
Hypothesis SP : same_plan d d'.

Lemma nodes_of_In : forall d0 n t, listed d0 -> (In n (nodes_of d0 t) <-> attr d0 n "type" = Some (VStr t)).
Proof.
  intros d0 n t L0. unfold nodes_of. rewrite in_map_iff. split.
  - intros [[m a] [<- H]]. apply filter_In in H. destruct H as [H E]. simpl in *.
    destruct (entry d0 L0 m a H) as [_ [_ [_ [_ At]]]]. rewrite At. destruct (dget "type" a) as [[]|]; try discriminate.
    apply String.eqb_eq in E. subst. reflexivity.
  - intros H. unfold attr in H. destruct (node_of d0 n) as [a|] eqn:E; [|discriminate]. exists (n, a). split; auto.
    apply filter_In. split; [apply dget_In; exact E|]. simpl. rewrite H. apply eqb_refl'.
Qed.
Lemma same_types : forall n, attr d' n "type" = attr d n "type".
Proof.
  intros n. pose proof Co as [L _]. pose proof Co' as [L' _].
  assert (X : forall d0, listed d0 -> (exists t, attr d0 n "type" = Some (VStr t)) \/ attr d0 n "type" = None).
  { intros d0 L0. destruct (in_dec string_dec n (map fst (gnodes (dgraph d0)))) as [Hn|Hn].
    - left. destruct L0 as [_ L0]. destruct (L0 n Hn) as [T _]. exact T.
    - right. unfold attr, node_of. destruct (dget n (gnodes (dgraph d0))) eqn:E; auto.
      exfalso. apply Hn. eapply dget_key_In; eauto. }
  destruct SP as [St _].
  destruct (X d L) as [[t T]|T], (X d' L') as [[t' T']|T']; try congruence.
  - pose proof T as T0. apply nodes_of_In in T0; auto. rewrite <- St in T0. apply nodes_of_In in T0; auto. congruence.
  - pose proof T as T0. apply nodes_of_In in T0; auto. rewrite <- St in T0. apply nodes_of_In in T0; auto. congruence.
  - pose proof T' as T0. apply nodes_of_In in T0; auto. rewrite St in T0. apply nodes_of_In in T0; auto. congruence.
Qed.
Lemma same_nodes : forall n, is_node d' n <-> is_node d n.
Proof.
  intros n. pose proof Co as [[_ L] _]. pose proof Co' as [[_ L'] _]. split; intro H.
  - destruct (L' n H) as [[t T] _]. rewrite same_types in T. eapply is_node_attr; eauto.
  - destruct (L n H) as [[t T] _]. rewrite <- same_types in T. eapply is_node_attr; eauto.
Qed.

Lemma classified_ids : forall d0, listed d0 -> map cid (classified d0) = flat_map (fun tb => nodes_of d0 (fst tb)) classified_types.
Proof.
  intros d0 _. unfold classified. rewrite !flat_map_concat_map, concat_map, map_map. f_equal. apply map_ext. intros tb.
  rewrite map_map. unfold nodes_of. reflexivity.
Qed.
Lemma same_ids : map cid (classified d') = map cid (classified d).
Proof.
  pose proof Co as [L _]. pose proof Co' as [L' _]. rewrite !classified_ids by auto.
  rewrite !flat_map_concat_map. f_equal. apply map_ext. intro tb. apply SP.
Qed.

Lemma in_count : forall n, length (incoming_of d' n) = length (incoming_of d n).
Proof.
  intros n. destruct (preds_list d Co Sf n) as [l [_ [E [N P]]]]. destruct (preds_list d' Co' Sf' n) as [l' [_ [E' [N' P']]]].
  rewrite <- E, <- E'. apply Permutation_length. apply NoDup_Permutation; auto. intro x. rewrite P, P'. apply SP.
Qed.
Lemma out_count : forall n, length (outgoing_of d' n) = length (outgoing_of d n).
Proof.
  intros n. destruct (succs_list d Co Sf n) as [l [_ [E [N P]]]]. destruct (succs_list d' Co' Sf' n) as [l' [_ [E' [N' P']]]].
  rewrite <- E, <- E'. apply Permutation_length. apply NoDup_Permutation; auto. intro x. rewrite P, P'. apply SP.
Qed.
Lemma same_joins : forall n, join_node d' n <-> join_node d n.
Proof. intros n. unfold join_node. rewrite in_count. tauto. Qed.
Lemma same_labels : forall c c', In c (classified d) -> In c' (classified d') -> cid c' = cid c -> ccls c' = ccls c.
Proof.
  intros c c' H H' E. apply classified_char in H; [|apply Co]. apply classified_char in H'; [|apply Co'].
  destruct H as [t [b [T [Hb [_ [_ ->]]]]]]. destruct H' as [t' [b' [T' [Hb' [_ [_ ->]]]]]].
  rewrite E in *. rewrite same_types, T in T'. injection T' as <-. rewrite in_count, out_count. f_equal.
  clear - Hb Hb'. unfold classified_types in *. simpl in *.
  repeat (destruct Hb as [Hb|Hb]; [inv Hb; repeat (destruct Hb' as [Hb'|Hb']; [inv Hb'; reflexivity|]); contradiction|]).
  contradiction.
Qed.

(** *** The sort *)
Definition sim3 (tmp sorted : list cnode) (back : list string) (tmp' sorted' : list cnode) (back' : list string) : Prop :=
  map cid tmp' = map cid tmp /\ map cid sorted' = map cid sorted /\ forall n m, cut_pair d' back' n m <-> cut_pair d back n m.

Lemma loop_sim : forall fuel tmp sorted back tmp' sorted' back',
  Inv d tmp sorted back -> Inv d' tmp' sorted' back' -> sim3 tmp sorted back tmp' sorted' back' ->
  rsim (fun r r' => map cid (fst r') = map cid (fst r)) (topo_loop fuel d (orig d) tmp sorted back)
       (topo_loop fuel d' (orig d') tmp' sorted' back').
Proof.
  induction fuel as [|fuel IH]; intros tmp sorted back tmp' sorted' back' I I' [Et [Es Eb]].
  - destruct tmp, tmp'; try discriminate; simpl; auto.
  - destruct tmp as [|c0 t0], tmp' as [|c0' t0']; try discriminate; [simpl; auto|]. cbn [topo_loop].
    remember (c0 :: t0) as tmp eqn:X. remember (c0' :: t0') as tmp' eqn:X'. clear X X' c0 t0 c0' t0'.
    assert (Er : map cid (filter (fun c => Nat.eqb (length (cin c)) 0) tmp') = map cid (filter (fun c => Nat.eqb (length (cin c)) 0) tmp)).
    { apply ids_filter; auto. intros c c' Hc Hc' Ec.
      pose proof (empty_in d Co Sf tmp sorted back c I Hc) as P.
      pose proof (empty_in d' Co' Sf' tmp' sorted' back' c' I' Hc') as P'.
      rewrite Et, Ec in P'. destruct SP as [_ Sg].
      assert (Q : cin c' = [] <-> cin c = []).
      { rewrite P, P'. split; intros A n Hn G; apply Eb; apply A; auto; apply Sg; auto. }
      destruct (Nat.eqb_spec (length (cin c')) 0) as [Z|Z], (Nat.eqb_spec (length (cin c)) 0) as [Y|Y]; auto; exfalso.
      - apply Y. apply length_zero_iff_nil in Z. apply Q in Z. rewrite Z. reflexivity.
      - apply Z. apply length_zero_iff_nil in Y. apply Q in Y. rewrite Y. reflexivity. }
    destruct (filter (fun c => Nat.eqb (length (cin c)) 0) tmp) as [|r0 rs] eqn:Fr;
      destruct (filter (fun c => Nat.eqb (length (cin c)) 0) tmp') as [|r0' rs'] eqn:Fr'; try discriminate.
    + destruct (cut_joins_pairs d Co (map cid tmp) tmp sorted back I (fun n H => H)) as [t1 [b1 [E1 [I1 [M1 D1]]]]].
      destruct (cut_joins_pairs d' Co' (map cid tmp') tmp' sorted' back' I' (fun n H => H)) as [t2 [b2 [E2 [I2 [M2 D2]]]]].
      rewrite E1, E2. cbn [rbind fst snd]. apply IH; auto. split; [congruence|]. split; auto.
      intros n m. rewrite D1, D2, Eb, Et, same_joins. destruct SP as [_ Sg]. rewrite Sg. tauto.
    + destruct (ready_props d Co tmp sorted back I _ Fr) as [N H]. destruct (ready_props d' Co' tmp' sorted' back' I' _ Fr') as [N' H'].
      destruct (take_ready_ids d Co AL _ tmp sorted back I N H) as [t1 [s1 [E1 [I1 [M1 S1]]]]].
      destruct (take_ready_ids d' Co' AL' _ tmp' sorted' back' I' N' H') as [t2 [s2 [E2 [I2 [M2 S2]]]]].
      rewrite E1, E2. cbn [rbind fst snd]. apply IH; auto.
      assert (Rr : map cid (rev (r0' :: rs')) = map cid (rev (r0 :: rs))) by (rewrite !map_rev, Er; reflexivity).
      split; [|split; auto].
      * rewrite M1, M2, Rr, Et. reflexivity.
      * rewrite S1, S2, Rr, Es. reflexivity.
Qed.
Lemma sort_sim : forall fuel, rsim (fun r r' => map cid (fst r') = map cid (fst r))
  (topological_sort fuel d (classified d)) (topological_sort fuel d' (classified d')).
Proof.
  intros fuel. apply loop_sim; try apply inv_init; auto.
  split; [apply same_ids|]. split; auto. intros n m. split; intros [f [[] _]].
Qed.

(** *** The grid *)
Definition alike (c c' : cnode) : Prop := In c (classified d) /\ In c' (classified d') /\ cid c' = cid c.
Definition st_sim (st st' : pstate) : Prop :=
  fst st' = fst st /\ map cid (snd st') = map cid (snd st) /\ incl (snd st) (classified d) /\ incl (snd st') (classified d').

Lemma smem_same : forall x l l', (forall y, In y l' <-> In y l) -> smem x l' = smem x l.
Proof.
  intros x l l' H. destruct (smem x l) eqn:E.
  - apply smem_In. apply H. apply smem_In. exact E.
  - apply smem_notIn. rewrite H. apply smem_notIn. exact E.
Qed.

Lemma choose_same : forall c c' g lr enf, alike c c' -> choose_cell d' c' g lr enf = choose_cell d c g lr enf.
Proof.
  intros c c' g lr enf [H [H' E]]. pose proof (orig_cin d Co c H) as [Ei _]. pose proof (orig_cin d' Co' c' H') as [Ei' _].
  pose proof (orig_join d Co c H) as J. pose proof (same_labels c c' H H' E) as Ec.
  destruct (preds_list d Co Sf (cid c)) as [l [El [Ll [N P]]]].
  destruct (preds_list d' Co' Sf' (cid c)) as [l' [El' [Ll' [N' P']]]].
  assert (Sl : forall p, In p l' <-> In p l) by (intro p; rewrite P, P'; apply SP).
  unfold choose_cell. rewrite E in *. rewrite <- Ei in El, Ll, J. rewrite <- Ei' in El', Ll'.
  assert (Lc : length (cin c') = length (cin c)) by (rewrite Ei, Ei'; apply in_count).
  destruct (cin c) as [|f r] eqn:Ef; destruct (cin c') as [|f' r'] eqn:Ef'; try discriminate; auto.
  rewrite Ec. destruct (smem c_join (ccls c)) eqn:Ej.
  - rewrite El, El'. cbn [rbind].
    assert (Jp : join_position l' g = join_position l g).
    { unfold join_position. generalize (0%Z, 0%Z). induction g as [|a t IH]; intro acc; [reflexivity|].
      cbn [fold_left]. rewrite (smem_same (cnid a) l l' Sl). apply IH. }
    rewrite Jp. assert (length l' = length l) by congruence. rewrite H0. reflexivity.
  - symmetry in J. apply Nat.leb_gt in J. simpl in J. destruct r; [|simpl in J; lia]. destruct r'; [|simpl in Lc; lia].
    cbn [rmap] in El, El'. destruct (flow_ref d f k_source_ref) as [p|]; [|discriminate]. destruct (flow_ref d' f' k_source_ref) as [p'|]; [|discriminate].
    cbn [rbind] in *. injection El as <-. injection El' as <-.
    assert (X : p' = p). { destruct (proj1 (Sl p') (or_introl eq_refl)) as [|[]]; auto. }
    rewrite X. reflexivity.
Qed.

Lemma place_sim : forall fuel c c' enf st st', alike c c' -> st_sim st st' ->
  rsim st_sim (place_element fuel d c enf st) (place_element fuel d' c' enf st').
Proof.
  induction fuel as [|fuel IH]; intros c c' enf [[g lr] tmp] [[g' lr'] tmp'] Ha [E1 [E2 [I1 I2]]]; [reflexivity|].
  cbn [fst snd] in *. inversion E1; subst g' lr'. clear E1. cbn [place_element].
  rewrite (choose_same c c' g lr enf Ha). destruct (choose_cell d c g lr enf) as [[[row [r k]] lr1]|e]; [|reflexivity].
  cbn [rbind]. pose proof Ha as [H [H' E]]. rewrite E, (same_labels c c' H H' E).
  destruct (insert_into_grid g r k (cid c)) as [g1|e]; [|reflexivity]. cbn [rbind].
  destruct (smem c_split (ccls c)); [|repeat split; auto].
  destruct (succs_list d Co Sf (cid c)) as [l [El [Ll [N P]]]].
  destruct (succs_list d' Co' Sf' (cid c)) as [l' [El' [Ll' [N' P']]]].
  destruct (orig_cin d Co c H) as [_ Eo]. destruct (orig_cin d' Co' c' H') as [_ Eo']. rewrite E in Eo'.
  rewrite Eo, Eo', El, El'. cbn [rbind]. rewrite Ll, Ll', out_count.
  assert (Sl : forall p, In p l' <-> In p l) by (intro p; rewrite P, P'; apply SP).
  assert (Ns : map cid (filter (fun c => smem (cid c) l') tmp') = map cid (filter (fun c => smem (cid c) l) tmp)).
  { apply ids_filter; auto. intros x x' _ _ Ex. rewrite Ex. apply smem_same. exact Sl. }
  set (ns := filter (fun c => smem (cid c) l) tmp) in *. set (ns' := filter (fun c => smem (cid c) l') tmp') in *.
  apply rfold_sim; [|repeat split; auto].
  intros i s s' Hs. pose proof (nth_sim ns ns' i Ns) as X.
  destruct (nth_error ns i) as [x|] eqn:Ex, (nth_error ns' i) as [x'|] eqn:Ex'; try contradiction; [|reflexivity].
  destruct X as [X1 [X2 X3]].
  assert (Ax : alike x x').
  { split; [|split; auto]; [apply I1|apply I2]; apply filter_In in X1; apply filter_In in X2; tauto. }
  eapply rbind_sim; [apply IH; [exact Ax|exact Hs]|]. intros s1 s1' [F1 [F2 [F3 F4]]].
  rewrite X3. eapply rbind_sim; [apply cremove_sim; exact F2|]. intros r1 r1' [R1 [R2 R3]].
  split; [cbn [fst]; exact F1|]. cbn [snd]. split; auto. split; eapply incl_tran; eauto.
Qed.

Lemma grid_loop_sim : forall rounds fuel st st', st_sim st st' ->
  rsim (fun g g' => g' = g) (grid_loop rounds fuel d st) (grid_loop rounds fuel d' st').
Proof.
  induction rounds as [|rounds IH]; intros fuel [gl tmp] [gl' tmp'] [E1 [E2 [I1 I2]]]; cbn [fst snd] in *; subst gl';
    destruct tmp as [|n t], tmp' as [|n' t']; try discriminate; cbn [grid_loop snd fst]; try reflexivity.
  simpl in E2. injection E2 as E2 E3.
  eapply rbind_sim; [apply place_sim|].
  - split; [apply I1; left; auto|]. split; [apply I2; left; auto|exact E2].
  - split; auto. split; auto. split; intros x Hx; [apply I1|apply I2]; right; auto.
  - intros s s' Hs. apply IH. exact Hs.
Qed.
Lemma grid_sim : forall fuel s s', map cid s' = map cid s -> incl s (classified d) -> incl s' (classified d') ->
  rsim (fun g g' => g' = g) (grid_layout fuel d s) (grid_layout fuel d' s').
Proof.
  intros fuel s s' E I1 I2. unfold grid_layout.
  replace (length s') with (length s) by (rewrite <- (map_length cid s), <- E; apply map_length).
  apply grid_loop_sim. repeat split; auto.
Qed.

(** Sort and grid together. *)
Definition planned (d0 : diagram) (fuel : nat) : res (list cell) :=
  let* s := topological_sort fuel d0 (classified d0) in grid_layout fuel d0 (fst s).
Lemma planned_same : forall fuel, planned d' fuel = planned d fuel.
Proof.
  intros fuel. unfold planned. pose proof (sort_sim fuel) as S0.
  destruct (topological_sort fuel d (classified d)) as [[s b]|e] eqn:E1;
    destruct (topological_sort fuel d' (classified d')) as [[s' b']|e'] eqn:E2; simpl in S0; try contradiction; [|subst; reflexivity].
  cbn [rbind fst].
  assert (G : rsim (fun g g' => g' = g) (grid_layout fuel d s) (grid_layout fuel d' s')).
  { apply grid_sim; auto.
    - eapply topo_in_orig; [exact E1|]. intros x [].
    - eapply topo_in_orig; [exact E2|]. intros x []. }
  destruct (grid_layout fuel d s), (grid_layout fuel d' s'); simpl in G; try contradiction; subst; reflexivity.
Qed.
End Two.

(** ** The whole layout, given the grid *)
Lemma planned_layout : forall fuel d, coherent d -> all_laid_out d -> gwf (dgraph d) -> drawable d ->
  match planned d fuel with
  | Ok g => exists d1, generate_layout fuel d = (d1, Ok tt) /\
              (forall n, is_node d n -> exists c, gfind n g = Ok c /\ at_xy d1 n (ccol c * 150 + 50) (crow c * 100 + 50))
  | Err e => generate_layout fuel d = (d, Err e)
  end.
Proof.
  intros fuel d Co AL W Dr. pose proof Co as [L _]. unfold planned.
  destruct (topological_sort fuel d (classified d)) as [[s b]|e] eqn:Es; cbn [rbind fst].
  2:{ unfold generate_layout, mbind, mread. rewrite (elements_eq d L), Es. reflexivity. }
  destruct (grid_layout fuel d s) as [g|e] eqn:Eg.
  2:{ unfold generate_layout, mbind, mread. rewrite (elements_eq d L), Es. cbn [fst]. rewrite Eg. reflexivity. }
  pose proof (topo_ok d Co AL fuel s b Es) as I. destruct (final_facts d Co AL s b I) as [Ps [Ns _]].
  pose proof Eg as Eg0. unfold grid_layout in Eg.
  destruct (grid_loop_ok d (classified d) _ _ _ _ Eg) as [B [new [G1 G2]]].
  { intros x Hx. eapply Permutation_in; [exact Ps|exact Hx]. } { constructor. }
  cbn [fst snd app] in G1, G2. subst new.
  assert (Ng : NoDup (map cnid g)) by (eapply Permutation_NoDup; [symmetry; exact G2|exact Ns]).
  assert (Gn : forall n, is_node d n -> exists c, gfind n g = Ok c).
  { intros n Hn. apply (node_in_orig d Co AL) in Hn.
    assert (Hi : In n (map cnid g)). { eapply Permutation_in; [symmetry; exact G2|].
      eapply Permutation_in; [symmetry; apply Permutation_map; exact Ps|exact Hn]. }
    apply in_map_iff in Hi. destruct Hi as [c [<- Hc]]. exists c. apply gfind_nodup; auto. }
  destruct (coords_does g d Gn) as [d1 E1]. destruct (coords_ok _ _ _ E1) as [K [Ed P]].
  assert (Kp : kept d d1). { pose proof (kept_coords g d) as Kp. rewrite E1 in Kp. exact Kp. }
  assert (Psd : positioned d1).
  { intros n Hn. assert (Hn' : is_node d n) by (unfold is_node in *; rewrite K in Hn; exact Hn).
    destruct (P n Hn') as [c [_ Ac]]. destruct L as [_ L]. destruct (L n Hn') as [[t Ht] _].
    exists (ccol c * 150 + 50)%Z, (crow c * 100 + 50)%Z, (VStr t). split; auto.
    destruct Kp as [_ [Ka _]]. rewrite Ka by discriminate. exact Ht. }
  assert (W1 : gwf (dgraph d1)) by (apply (gwf_same_ends (dgraph d)); auto; rewrite Ed; reflexivity).
  destruct (waypoints_does d1 W1) as [d2 E2].
  { intros t Ht. unfold get_flows, edges_view, dkeys in Ht. rewrite Ed, K in Ht.
    destruct (Dr t Ht) as [a [b0 [A1 [A2 [A3 A4]]]]]. apply (wpa_total d1 (snd t) a b0); auto; unfold is_node; rewrite K; auto. }
  assert (EL : generate_layout fuel d = (d2, Ok tt)) by (eapply layout_does; eauto; apply elements_eq; exact L).
  exists d2. split; auto. intros n Hn.
  destruct (layout_facts fuel d d2 Co EL) as [_ [s' [b' [g' [d1' [A1 [_ [A3 [_ [_ [_ [_ [A8 _]]]]]]]]]]]]].
  rewrite Es in A1. injection A1 as <- <-. rewrite Eg0 in A3. injection A3 as <-.
  destruct (A8 n Hn) as [c [_ [_ [Gc [_ At]]]]]. eauto.
Qed.
