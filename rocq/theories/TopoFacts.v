(** Topological sort: invariant, termination, divergence. *)
From Coq Require Import String List Bool Arith Lia Permutation.
From Verif Require Import Py PyFacts Consts Nx NxFacts Rep SpecRep RepFacts MetricsFacts Classify Layouter
  SpecLayout ClassifyFacts.
Import ListNotations.
Open Scope string_scope.
Open Scope list_scope.

(** ** Lists *)
Definition notin (fs : list string) (f : string) : bool := negb (smem f fs).
Lemma notin_true : forall fs f, notin fs f = true <-> ~ In f fs.
Proof. intros. unfold notin. rewrite negb_true_iff. apply smem_notIn. Qed.
Lemma filter_notin : forall fs l f, In f (filter (notin fs) l) <-> In f l /\ ~ In f fs.
Proof. intros. rewrite filter_In, notin_true. tauto. Qed.
Lemma filter_notin_id : forall fs l, (forall f, In f l -> ~ In f fs) -> filter (notin fs) l = l.
Proof. intros fs l H. apply filter_all_true. intros x Hx. apply notin_true. auto. Qed.
Lemma filter_notin_cons : forall f t l, filter (notin t) (filter (notin [f]) l) = filter (notin (f :: t)) l.
Proof.
  intros f t l. induction l as [|g r IH]; auto. simpl.
  assert (E : notin (f :: t) g = notin [f] g && notin t g).
  { unfold notin. simpl. rewrite orb_false_r, negb_orb. reflexivity. }
  rewrite E. destruct (notin [f] g); simpl; [|exact IH]. destruct (notin t g); [f_equal|]; exact IH.
Qed.
Lemma filter_len_le : forall A (p : A -> bool) l, length (filter p l) <= length l.
Proof. induction l; simpl; auto. destruct (p a); simpl; lia. Qed.
Lemma filter_len_lt : forall A (p : A -> bool) l x, In x l -> p x = false -> length (filter p l) < length l.
Proof.
  induction l as [|a t IH]; intros x H E; [contradiction|]. simpl. destruct H as [->|H].
  - rewrite E. pose proof (filter_len_le _ p t). lia.
  - specialize (IH x H E). destruct (p a); simpl; lia.
Qed.

Lemma sremove_filter : forall f l, NoDup l -> In f l -> sremove f l = Ok (filter (notin [f]) l).
Proof.
  induction l as [|g t IH]; intros N H; [contradiction|]. inv N. simpl. unfold notin at 1. simpl.
  destruct (String.eqb_spec f g) as [->|E].
  - rewrite eqb_refl'. simpl. f_equal. symmetry. apply filter_notin_id. intros x Hx [->|[]]. contradiction.
  - rewrite (eqb_neq' g f) by auto. simpl. destruct H as [->|H]; [congruence|].
    rewrite IH by auto. reflexivity.
Qed.

Lemma cfind_ok : forall l c, NoDup (map cid l) -> In c l -> cfind (cid c) l = Ok c.
Proof.
  unfold cfind. induction l as [|a t IH]; intros c N H; [contradiction|]. inv N. simpl.
  destruct (String.eqb_spec (cid a) (cid c)) as [E|E].
  - destruct H as [->|H]; auto. exfalso. apply H2. rewrite E. apply in_map. auto.
  - destruct H as [->|H]; [congruence|]. auto.
Qed.

Lemma cremove_ok : forall l c, NoDup (map cid l) -> In c l ->
  cremove (cid c) l = Ok (filter (fun x => negb (String.eqb (cid x) (cid c))) l).
Proof.
  induction l as [|a t IH]; intros c N H; [contradiction|]. inv N. simpl.
  destruct (String.eqb_spec (cid c) (cid a)) as [E|E].
  - rewrite E, eqb_refl'. simpl. f_equal. symmetry. apply filter_all_true. intros x Hx. apply negb_true_iff.
    apply eqb_neq'. intro E2. apply H2. rewrite <- E2. apply in_map. auto.
  - rewrite (eqb_neq' (cid a) (cid c)) by auto. simpl. destruct H as [->|H]; [congruence|].
    rewrite IH by auto. reflexivity.
Qed.

Lemma same_cid : forall l c1 c2, NoDup (map cid l) -> In c1 l -> In c2 l -> cid c1 = cid c2 -> c1 = c2.
Proof.
  intros l c1 c2 N H1 H2 E. pose proof (cfind_ok l c1 N H1) as A. pose proof (cfind_ok l c2 N H2) as B.
  rewrite E in A. congruence.
Qed.

(** ** before *)
Lemma before_app : forall l x n m, before l n m -> before (l ++ x) n m.
Proof.
  intros l x n m [i [j [L [A B]]]]. exists i, j. split; auto.
  rewrite !nth_error_app1; auto; apply nth_error_Some; congruence.
Qed.
Lemma before_last : forall l n m, In n l -> before (l ++ [m]) n m.
Proof.
  intros l n m H. apply In_nth_error in H. destruct H as [i Hi]. exists i, (length l).
  assert (i < length l) by (apply nth_error_Some; congruence).
  split; auto. split; [rewrite nth_error_app1; auto|]. rewrite nth_error_app2, Nat.sub_diag by auto. reflexivity.
Qed.
Lemma before_In : forall l n m, before l n m -> In n l /\ In m l.
Proof. intros l n m [i [j [_ [A B]]]]. split; eapply nth_error_In; eauto. Qed.
Lemma before_trans : forall l a b c, NoDup l -> before l a b -> before l b c -> before l a c.
Proof.
  intros l a b c N [i [j [L1 [A B]]]] [i' [j' [L2 [B' C]]]].
  assert (j = i').
  { apply (proj1 (NoDup_nth_error l) N); [apply nth_error_Some; congruence|congruence]. }
  exists i, j'. split; [lia|auto].
Qed.
Lemma before_irrefl : forall l a, NoDup l -> ~ before l a a.
Proof.
  intros l a N [i [j [L [A B]]]].
  assert (i = j). { apply (proj1 (NoDup_nth_error l) N); [apply nth_error_Some; congruence|congruence]. }
  lia.
Qed.

Definition drop_in (fs : list string) (c : cnode) : cnode := with_cin (filter (notin fs) (cin c)) c.
Definition drop_out (fs : list string) (c : cnode) : cnode := with_cout (filter (notin fs) (cout c)) c.
Lemma drop_in_cid : forall fs l, map cid (map (drop_in fs) l) = map cid l.
Proof. intros. rewrite map_map. reflexivity. Qed.
Lemma drop_out_cid : forall fs l, map cid (map (drop_out fs) l) = map cid l.
Proof. intros. rewrite map_map. reflexivity. Qed.
Lemma drop_in_id : forall fs c, (forall f, In f (cin c) -> ~ In f fs) -> drop_in fs c = c.
Proof. intros fs [i ci co cc] H. unfold drop_in, with_cin. simpl in *. rewrite filter_notin_id by auto. reflexivity. Qed.
Lemma drop_out_id : forall fs c, (forall f, In f (cout c) -> ~ In f fs) -> drop_out fs c = c.
Proof. intros fs [i ci co cc] H. unfold drop_out, with_cout. simpl in *. rewrite filter_notin_id by auto. reflexivity. Qed.

Section T.
Variable d : diagram.
Hypothesis Co : coherent d.
Hypothesis AL : all_laid_out d.

Lemma goes_fun : forall f n m n' m', flow_goes d f n m -> flow_goes d f n' m' -> n = n' /\ m = m'.
Proof. intros f n m n' m' [t [E [A B]]] [t' [E' [A' B']]]. rewrite E in E'. inv E'. split; congruence. Qed.

Lemma ref_target : forall f n m, flow_goes d f n m -> flow_ref d f k_target_ref = Ok m.
Proof.
  intros f n m [t [E [_ B]]]. unfold flow_ref. rewrite E. cbn [rbind]. unfold dgetE.
  change k_target_ref with "targetRef". rewrite B. reflexivity.
Qed.
Lemma ref_source : forall f n m, flow_goes d f n m -> flow_ref d f k_source_ref = Ok n.
Proof.
  intros f n m [t [E [B _]]]. unfold flow_ref. rewrite E. cbn [rbind]. unfold dgetE.
  change k_source_ref with "sourceRef". rewrite B. reflexivity.
Qed.

Lemma drop_incoming_eq : forall f n m c tmp, flow_goes d f n m -> NoDup (map cid tmp) ->
  In c tmp -> cid c = m -> NoDup (cin c) -> In f (cin c) ->
  (forall c', In c' tmp -> In f (cin c') -> exists n', flow_goes d f n' (cid c')) ->
  drop_incoming m f tmp = Ok (map (drop_in [f]) tmp).
Proof.
  intros f n m c tmp G N H E Nc Hf T. unfold drop_incoming. rewrite <- E, cfind_ok by auto. cbn [rbind].
  rewrite sremove_filter by auto. cbn [rbind]. f_equal. unfold cupdate. apply map_ext_in. intros c' Hc'.
  destruct (String.eqb_spec (cid c') (cid c)) as [Ec|Ec].
  - rewrite (same_cid tmp c' c) by auto. reflexivity.
  - symmetry. apply drop_in_id. intros g Hg [->|[]]. destruct (T c' Hc' Hg) as [n' G'].
    destruct (goes_fun _ _ _ _ _ G G'). congruence.
Qed.

Lemma drop_outgoing_eq : forall f n m c tmp, flow_goes d f n m -> NoDup (map cid tmp) ->
  In c tmp -> cid c = n -> NoDup (cout c) -> In f (cout c) ->
  (forall c', In c' tmp -> In f (cout c') -> exists m', flow_goes d f (cid c') m') ->
  drop_outgoing n f tmp = Ok (map (drop_out [f]) tmp).
Proof.
  intros f n m c tmp G N H E Nc Hf T. unfold drop_outgoing. rewrite <- E, cfind_ok by auto. cbn [rbind].
  rewrite sremove_filter by auto. cbn [rbind]. f_equal. unfold cupdate. apply map_ext_in. intros c' Hc'.
  destruct (String.eqb_spec (cid c') (cid c)) as [Ec|Ec].
  - rewrite (same_cid tmp c' c) by auto. reflexivity.
  - symmetry. apply drop_out_id. intros g Hg [->|[]]. destruct (T c' Hc' Hg) as [n' G'].
    destruct (goes_fun _ _ _ _ _ G G'). congruence.
Qed.

Lemma release_eq : forall outs tmp, NoDup (map cid tmp) -> NoDup outs ->
  (forall f, In f outs -> exists n c, flow_goes d f n (cid c) /\ In c tmp /\ In f (cin c)) ->
  (forall c, In c tmp -> NoDup (cin c)) ->
  (forall c f, In c tmp -> In f (cin c) -> exists n, flow_goes d f n (cid c)) ->
  release d outs tmp = Ok (map (drop_in outs) tmp).
Proof.
  unfold release. induction outs as [|f t IH]; intros tmp N No F Nc T.
  - cbn [rfold]. f_equal. symmetry. rewrite <- (map_id tmp) at 2. apply map_ext. intro c. apply drop_in_id. auto.
  - inv No. cbn [rfold]. destruct (F f (or_introl eq_refl)) as [n [c [G [Hc Hf]]]].
    rewrite (ref_target f n _ G). cbn [rbind].
    rewrite (drop_incoming_eq f n (cid c) c tmp) by (auto; intros; apply T; auto). cbn [rbind].
    rewrite IH.
    + f_equal. rewrite map_map. apply map_ext. intros [i ci co cc]. unfold drop_in, with_cin. simpl. f_equal.
      apply filter_notin_cons.
    + rewrite drop_in_cid. exact N.
    + exact H2.
    + intros g Hg. destruct (F g (or_intror Hg)) as [n' [c' [G' [Hc' Hf']]]].
      exists n', (drop_in [f] c'). split; [exact G'|]. split; [apply in_map; auto|].
      simpl. apply filter_notin. split; auto. intros [->|[]]. contradiction.
    + intros c' H'. apply in_map_iff in H'. destruct H' as [c0 [<- H0]]. simpl. apply NoDup_filter. auto.
    + intros c' g H' Hg. apply in_map_iff in H'. destruct H' as [c0 [<- H0]]. simpl in *.
      apply filter_notin in Hg. apply T; tauto.
Qed.

(** ** The invariant *)
Definition orig : list cnode := classified d.
Lemma Li : listed d. Proof. apply Co. Qed.

Definition lives (c : cnode) : Prop := NoDup (cin c) /\ NoDup (cout c) /\
  (smem c_join (ccls c) = true <-> join_node d (cid c)).

Record Inv (tmp sorted : list cnode) (back : list string) : Prop := mkTInv {
  ti_perm : Permutation (map cid tmp ++ map cid sorted) (map cid orig);
  ti_live : forall c, In c tmp -> lives c;
  ti_in : forall c f, In c tmp -> (In f (cin c) <-> In f (incoming_of d (cid c)) /\ ~ In f back /\
                                   exists n, flow_goes d f n (cid c) /\ In n (map cid tmp));
  ti_out : forall c f, In c tmp -> (In f (cout c) <-> In f (outgoing_of d (cid c)) /\ ~ In f back);
  ti_order : forall f n m, flow d f n m -> ~ In f back -> In m (map cid sorted) -> before (map cid sorted) n m;
  ti_sorted : forall c, In c sorted -> In c orig;
  ti_back : forall f, In f back -> exists n m, flow d f n m /\ join_node d m }.

Lemma orig_nodup : NoDup (map cid orig).
Proof. apply classified_nodup. exact Li. Qed.

Lemma inv_nodup : forall tmp sorted back, Inv tmp sorted back -> NoDup (map cid tmp ++ map cid sorted).
Proof.
  intros tmp sorted back I. eapply Permutation_NoDup; [symmetry; apply (ti_perm _ _ _ I)|apply orig_nodup].
Qed.
Lemma nodup_l : forall A (a b : list A), NoDup (a ++ b) -> NoDup a.
Proof. induction a; intros b H; [constructor|]. inv H. constructor; [intro; apply H2, in_or_app; auto|eauto]. Qed.
Lemma nodup_r : forall A (a b : list A), NoDup (a ++ b) -> NoDup b.
Proof. induction a; intros b H; auto. inv H. auto. Qed.
Lemma nodup_lr : forall A (a b : list A) x, NoDup (a ++ b) -> In x a -> ~ In x b.
Proof.
  induction a as [|h t IH]; intros b x N H; [contradiction|]. inv N. destruct H as [->|H]; [|auto].
  intro Hb. apply H2. apply in_or_app. auto.
Qed.
Lemma tmp_nodup : forall tmp sorted back, Inv tmp sorted back -> NoDup (map cid tmp).
Proof. intros. eapply nodup_l. eapply inv_nodup. eauto. Qed.

Lemma node_in_orig : forall n, is_node d n -> In n (map cid orig).
Proof.
  intros n H. destruct (AL n H) as [t [Ht Hl]]. apply types_laid_out in Hl. destruct Hl as [base Hb].
  apply in_map_iff.
  exists (mkCN n (incoming_of d n) (outgoing_of d n)
           (base ++ (if Nat.leb 2 (length (incoming_of d n)) then [c_join] else [])
                 ++ (if Nat.leb 2 (length (outgoing_of d n)) then [c_split] else []))).
  split; auto. apply classified_char; [exact Li|]. exists t, base. auto 6.
Qed.
Lemma orig_node : forall c, In c orig -> is_node d (cid c).
Proof.
  intros c H. apply classified_char in H; [|exact Li]. destruct H as [t [b [Ht _]]].
  eapply is_node_attr; eauto.
Qed.
Lemma incoming_node : forall n f, In f (incoming_of d n) -> is_node d n.
Proof.
  intros n f H. unfold incoming_of in H. destruct (attr d n "incoming") eqn:E; [|contradiction].
  eapply is_node_attr; eauto.
Qed.
Lemma outgoing_node : forall n f, In f (outgoing_of d n) -> is_node d n.
Proof.
  intros n f H. unfold outgoing_of in H. destruct (attr d n "outgoing") eqn:E; [|contradiction].
  eapply is_node_attr; eauto.
Qed.
Lemma out_flow : forall n f, In f (outgoing_of d n) -> exists m, flow d f n m.
Proof.
  intros n f H. destruct Co as [_ [_ [A _]]]. destruct (A n f H) as [m [G Hi]]. exists m. split; auto.
Qed.
Lemma in_flow : forall m f, In f (incoming_of d m) -> exists n, flow d f n m.
Proof.
  intros m f H. destruct Co as [_ [_ [_ A]]]. destruct (A m f H) as [n [G Ho]]. exists n. split; auto.
Qed.

Lemma base_no_label : forall t base, In (t, base) classified_types -> smem c_join base = false /\ smem c_split base = false.
Proof.
  intros t base H. unfold classified_types in H. simpl in H.
  repeat (destruct H as [H|H]; [inv H; split; reflexivity|]). contradiction.
Qed.
Lemma smem_app : forall x a b, smem x (a ++ b) = smem x a || smem x b.
Proof. intros. apply existsb_app. Qed.
Lemma orig_join : forall c, In c orig -> smem c_join (ccls c) = Nat.leb 2 (length (incoming_of d (cid c))).
Proof.
  intros c H. apply classified_char in H; [|exact Li]. destruct H as [t [b [Ht [Hb [_ [_ E]]]]]].
  rewrite E, !smem_app. destruct (base_no_label t b Hb) as [-> _].
  destruct (Nat.leb 2 (length (incoming_of d (cid c)))), (Nat.leb 2 (length (outgoing_of d (cid c)))); reflexivity.
Qed.
Lemma orig_split : forall c, In c orig -> smem c_split (ccls c) = Nat.leb 2 (length (outgoing_of d (cid c))).
Proof.
  intros c H. apply classified_char in H; [|exact Li]. destruct H as [t [b [Ht [Hb [_ [_ E]]]]]].
  rewrite E, !smem_app. destruct (base_no_label t b Hb) as [_ ->].
  destruct (Nat.leb 2 (length (incoming_of d (cid c)))), (Nat.leb 2 (length (outgoing_of d (cid c)))); reflexivity.
Qed.

Lemma inv_init : Inv orig [] [].
Proof.
  constructor.
  - rewrite app_nil_r. reflexivity.
  - intros c H. unfold lives. pose proof (orig_node c H) as Hn. rewrite (orig_join c H).
    apply classified_char in H; [|exact Li]. destruct H as [t [b [_ [_ [Ei [Eo _]]]]]].
    destruct Co as [_ [N _]]. rewrite Ei, Eo. destruct (N _ Hn). split; auto. split; auto.
    unfold join_node. apply Nat.leb_le.
  - intros c f H. pose proof H as H'. apply classified_char in H; [|exact Li]. destruct H as [t [b [_ [_ [Ei _]]]]].
    rewrite Ei. split; [|tauto]. intro Hf. split; auto. split; [intros []|].
    destruct (in_flow _ _ Hf) as [n [Ho [_ G]]]. exists n. split; auto. apply node_in_orig. eapply outgoing_node; eauto.
  - intros c f H. apply classified_char in H; [|exact Li]. destruct H as [t [b [_ [_ [_ [Eo _]]]]]].
    rewrite Eo. split; [auto|tauto].
  - intros f n m _ _ [].
  - intros c [].
  - intros f [].
Qed.

(** A current outgoing flow leads to a node that is still there and has it in its
    current incoming list. *)
Lemma cur_out_target : forall tmp sorted back c f, Inv tmp sorted back -> In c tmp -> In f (cout c) ->
  exists c', flow_goes d f (cid c) (cid c') /\ In c' tmp /\ In f (cin c').
Proof.
  intros tmp sorted back c f I Hc Hf. apply (ti_out _ _ _ I c f Hc) in Hf. destruct Hf as [Ho Hb].
  destruct (out_flow _ _ Ho) as [m F]. pose proof F as [_ [Hi G]].
  assert (Hm : In m (map cid tmp)).
  { assert (Hm : In m (map cid tmp ++ map cid sorted)).
    { eapply Permutation_in; [symmetry; apply (ti_perm _ _ _ I)|]. apply node_in_orig. eapply incoming_node; eauto. }
    apply in_app_or in Hm. destruct Hm as [|Hm]; auto. exfalso.
    pose proof (ti_order _ _ _ I f (cid c) m F Hb Hm) as B. apply before_In in B. destruct B as [B _].
    eapply nodup_lr; [eapply inv_nodup; eauto| |exact B]. apply in_map. auto. }
  apply in_map_iff in Hm. destruct Hm as [c' [<- Hc']]. exists c'. split; auto. split; auto.
  apply (ti_in _ _ _ I c' f Hc'). split; auto. split; auto. exists (cid c). split; auto. apply in_map. auto.
Qed.

Lemma in_ids_filter : forall (c : cnode) tmp n, In n (map cid (filter (fun x => negb (String.eqb (cid x) (cid c))) tmp)) <->
  In n (map cid tmp) /\ n <> cid c.
Proof.
  intros c tmp n. rewrite !in_map_iff. split.
  - intros [x [<- H]]. apply filter_In in H. destruct H as [H E]. split; [exists x; auto|].
    apply negb_true_iff in E. intro C. rewrite C, eqb_refl' in E. discriminate.
  - intros [[x [<- H]] N]. exists x. split; auto. apply filter_In. split; auto.
    apply negb_true_iff. apply eqb_neq'. auto.
Qed.

Lemma filter_ids_perm : forall (c : cnode) tmp, NoDup (map cid tmp) -> In c tmp ->
  Permutation (map cid tmp) (cid c :: map cid (filter (fun x => negb (String.eqb (cid x) (cid c))) tmp)).
Proof.
  intros c tmp N H. apply NoDup_Permutation; auto.
  - constructor; [rewrite in_ids_filter; tauto|]. apply NoDup_map_filter. auto.
  - intro n. simpl. rewrite in_ids_filter. destruct (string_dec n (cid c)) as [->|E].
    + split; auto. intros _. apply in_map. auto.
    + split; [auto|]. intros [Ec|[A _]]; [congruence|auto].
Qed.

Lemma take_one : forall tmp sorted back c, Inv tmp sorted back -> In c tmp -> cin c = [] ->
  exists o tmp1,
    cremove (cid c) tmp = Ok (filter (fun x => negb (String.eqb (cid x) (cid c))) tmp) /\
    cfind (cid c) orig = Ok o /\ cid o = cid c /\
    release d (cout c) (filter (fun x => negb (String.eqb (cid x) (cid c))) tmp) = Ok tmp1 /\
    tmp1 = map (drop_in (cout c)) (filter (fun x => negb (String.eqb (cid x) (cid c))) tmp) /\
    Inv tmp1 (sorted ++ [o]) back.
Proof.
  intros tmp sorted back c I Hc Ec. pose proof (tmp_nodup _ _ _ I) as N.
  set (rest := filter (fun x => negb (String.eqb (cid x) (cid c))) tmp).
  assert (Hr : forall x, In x rest <-> In x tmp /\ cid x <> cid c).
  { intro x. unfold rest. rewrite filter_In, negb_true_iff. split; intros [A B]; split; auto.
    - intro E. rewrite E, eqb_refl' in B. discriminate.
    - apply eqb_neq'. auto. }
  assert (Ho : In (cid c) (map cid orig)).
  { eapply Permutation_in; [apply (ti_perm _ _ _ I)|]. apply in_or_app. left. apply in_map. auto. }
  apply in_map_iff in Ho. destruct Ho as [o [Eo Ho]].
  exists o, (map (drop_in (cout c)) rest). split; [apply cremove_ok; auto|].
  split; [rewrite <- Eo; apply cfind_ok; [apply orig_nodup|auto]|]. split; [auto|]. split; [|split; [reflexivity|]].
  - apply release_eq.
    + unfold rest. apply NoDup_map_filter. auto.
    + apply (ti_live _ _ _ I c Hc).
    + intros f Hf. destruct (cur_out_target _ _ _ c f I Hc Hf) as [c' [G [H1 H2]]].
      exists (cid c), c'. split; auto. split; auto. apply Hr. split; auto. intro E.
      rewrite (same_cid tmp c' c) in H2 by auto. rewrite Ec in H2. contradiction.
    + intros x Hx. apply Hr in Hx. apply (ti_live _ _ _ I x). tauto.
    + intros x f Hx Hf. apply Hr in Hx. destruct Hx as [Hx _]. apply (ti_in _ _ _ I x f Hx) in Hf.
      destruct Hf as [_ [_ [n [G _]]]]. eauto.
  - assert (P : Permutation (map cid tmp) (cid c :: map cid rest)) by (apply filter_ids_perm; auto).
    constructor.
    + rewrite drop_in_cid, map_app. simpl. rewrite Eo. rewrite <- (ti_perm _ _ _ I), P. simpl.
      rewrite app_assoc. symmetry. apply Permutation_cons_append.
    + intros x Hx. apply in_map_iff in Hx. destruct Hx as [y [<- Hy]]. apply Hr in Hy. destruct Hy as [Hy _].
      destruct (ti_live _ _ _ I y Hy) as [A [B C]]. split; [simpl; apply NoDup_filter; auto|]. split; auto.
    + intros x f Hx. apply in_map_iff in Hx. destruct Hx as [y [<- Hy]]. apply Hr in Hy. destruct Hy as [Hy Ny].
      simpl. rewrite filter_notin, (ti_in _ _ _ I y f Hy), drop_in_cid. split.
      * intros [[A [B [n [G Hn]]]] Hout]. split; auto. split; auto. exists n. split; auto.
        unfold rest. apply in_ids_filter. split; auto. intros ->. apply Hout. apply (ti_out _ _ _ I c f Hc).
        split; auto. destruct (in_flow _ _ A) as [n' [Ho' [_ G']]]. destruct (goes_fun _ _ _ _ _ G G'). congruence.
      * intros [A [B [n [G Hn]]]]. unfold rest in Hn. apply in_ids_filter in Hn. destruct Hn as [Hn Nn].
        split; [eauto 6|]. intro Hout. apply (ti_out _ _ _ I c f Hc) in Hout. destruct Hout as [Ho' _].
        destruct (out_flow _ _ Ho') as [m [_ [_ G']]]. destruct (goes_fun _ _ _ _ _ G G'). congruence.
    + intros x f Hx. apply in_map_iff in Hx. destruct Hx as [y [<- Hy]]. apply Hr in Hy. destruct Hy as [Hy Ny].
      simpl. apply (ti_out _ _ _ I y f Hy).
    + intros f n m F Hb Hm. rewrite map_app in *. simpl in *. rewrite Eo in *. apply in_app_or in Hm.
      destruct Hm as [Hm|[<-|[]]]; [apply before_app; apply (ti_order _ _ _ I f n m); auto|].
      apply before_last. destruct F as [Fo [Fi G]].
      assert (Hn : In n (map cid tmp ++ map cid sorted)).
      { eapply Permutation_in; [symmetry; apply (ti_perm _ _ _ I)|]. apply node_in_orig. eapply outgoing_node; eauto. }
      apply in_app_or in Hn. destruct Hn as [Hn|]; auto. exfalso.
      assert (X : In f (cin c)) by (apply (ti_in _ _ _ I c f Hc); eauto 6). rewrite Ec in X. contradiction.
    + intros x Hx. apply in_app_or in Hx. destruct Hx as [Hx|[<-|[]]]; auto. apply (ti_sorted _ _ _ I x Hx).
    + apply (ti_back _ _ _ I).
Qed.

Definition sumin (l : list cnode) : nat := fold_right (fun c n => length (cin c) + n) 0 l.
Lemma sumin_drop : forall fs l, sumin (map (drop_in fs) l) <= sumin l.
Proof. induction l as [|c t IH]; simpl; auto. pose proof (filter_len_le _ (notin fs) (cin c)). lia. Qed.
Lemma sumin_filter : forall p l, sumin (filter p l) <= sumin l.
Proof. induction l as [|c t IH]; simpl; auto. destruct (p c); simpl; lia. Qed.
Lemma sumin_drop_lt : forall f l c, In c l -> In f (cin c) -> sumin (map (drop_in [f]) l) < sumin l.
Proof.
  induction l as [|a t IH]; intros c H Hf; [contradiction|]. simpl. destruct H as [->|H].
  - pose proof (sumin_drop [f] t).
    assert (length (filter (notin [f]) (cin c)) < length (cin c)).
    { eapply filter_len_lt; [exact Hf|]. unfold notin. simpl. rewrite eqb_refl'. reflexivity. }
    lia.
  - specialize (IH c H Hf). pose proof (filter_len_le _ (notin [f]) (cin a)). lia.
Qed.

Lemma take_ready_ok : forall ready tmp sorted back, Inv tmp sorted back ->
  NoDup (map cid ready) -> (forall c, In c ready -> In c tmp /\ cin c = []) ->
  exists tmp' sorted', take_ready d orig ready tmp sorted = Ok (tmp', sorted') /\
    Inv tmp' sorted' back /\ length tmp' + length ready = length tmp /\ sumin tmp' <= sumin tmp.
Proof.
  induction ready as [|c t IH]; intros tmp sorted back I N H.
  - exists tmp, sorted. simpl. auto.
  - inv N. destruct (H c (or_introl eq_refl)) as [Hc Ec].
    destruct (take_one tmp sorted back c I Hc Ec) as [o [tmp1 [E1 [E2 [_ [E3 [E4 I1]]]]]]].
    cbn [take_ready]. rewrite E1. cbn [rbind]. rewrite E2. cbn [rbind]. rewrite E3. cbn [rbind].
    destruct (IH tmp1 (sorted ++ [o]) back I1 H3) as [tmp' [sorted' [E [I' [Hl Hs]]]]].
    + intros x Hx. destruct (H x (or_intror Hx)) as [Hx1 Hx2]. split; auto.
      rewrite E4. apply in_map_iff. exists x. split.
      * apply drop_in_id. rewrite Hx2. intros f [].
      * apply filter_In. split; auto. apply negb_true_iff, eqb_neq'. intro C. apply H2. rewrite <- C. apply in_map. auto.
    + exists tmp', sorted'. split; auto. split; auto. split.
      * pose proof (Permutation_length (filter_ids_perm c tmp (tmp_nodup _ _ _ I) Hc)) as L.
        simpl in L. rewrite !map_length in L. rewrite E4, map_length in Hl. cbn [length]. lia.
      * rewrite E4 in Hs. pose proof (sumin_drop (cout c) (filter (fun x => negb (String.eqb (cid x) (cid c))) tmp)).
        pose proof (sumin_filter (fun x => negb (String.eqb (cid x) (cid c))) tmp). lia.
Qed.

(** One cut. *)
Lemma cut_one : forall tmp sorted back c f, Inv tmp sorted back -> In c tmp -> join_node d (cid c) -> In f (cin c) ->
  exists tmp1, cut_flow d (tmp, back) f = Ok (tmp1, back ++ [f]) /\
    tmp1 = map (drop_in [f]) (map (drop_out [f]) tmp) /\ Inv tmp1 sorted (back ++ [f]).
Proof.
  intros tmp sorted back c f I Hc J Hf. pose proof (tmp_nodup _ _ _ I) as N.
  pose proof (proj1 (ti_in _ _ _ I c f Hc) Hf) as [Hin [Hb [n [G Hn]]]].
  apply in_map_iff in Hn. destruct Hn as [s [<- Hs]].
  assert (F : flow d f (cid s) (cid c)).
  { destruct (in_flow _ _ Hin) as [n' [Ho [Hi' G']]]. destruct (goes_fun _ _ _ _ _ G G') as [<- _]. split; auto. }
  assert (Hfo : In f (cout s)). { apply (ti_out _ _ _ I s f Hs). split; auto. apply F. }
  eexists. split; [|split; [reflexivity|]].
  - unfold cut_flow. cbn [fst snd]. rewrite (ref_source f _ _ G). cbn [rbind].
    rewrite (drop_outgoing_eq f (cid s) (cid c) s tmp); auto.
    + cbn [rbind]. rewrite (ref_target f _ _ G). cbn [rbind].
      rewrite (drop_incoming_eq f (cid s) (cid c) (drop_out [f] c)); auto.
      * rewrite drop_out_cid. auto.
      * apply in_map. auto.
      * simpl. apply (ti_live _ _ _ I c Hc).
      * intros c' Hc' Hf'. apply in_map_iff in Hc'. destruct Hc' as [y [<- Hy]]. simpl in *.
        apply (ti_in _ _ _ I y f Hy) in Hf'. destruct Hf' as [_ [_ [n [G' _]]]]. eauto.
    + apply (ti_live _ _ _ I s Hs).
    + intros c' Hc' Hf'. apply (ti_out _ _ _ I c' f Hc') in Hf'. destruct Hf' as [Ho' _].
      destruct (out_flow _ _ Ho') as [m [_ [_ G']]]. eauto.
  - constructor.
    + rewrite drop_in_cid, drop_out_cid. apply (ti_perm _ _ _ I).
    + intros x Hx. apply in_map_iff in Hx. destruct Hx as [y [<- Hy]]. apply in_map_iff in Hy. destruct Hy as [z [<- Hz]].
      destruct (ti_live _ _ _ I z Hz) as [A [B C]]. split; [simpl; apply NoDup_filter; auto|].
      split; [simpl; apply NoDup_filter; auto|]. exact C.
    + intros x g Hx. apply in_map_iff in Hx. destruct Hx as [y [<- Hy]]. apply in_map_iff in Hy. destruct Hy as [z [<- Hz]].
      rewrite drop_in_cid, drop_out_cid. simpl. rewrite filter_notin, (ti_in _ _ _ I z g Hz), in_app_iff. simpl. split.
      * intros [[A [B E]] D]. split; auto. split; auto. tauto.
      * intros [A [B E]]. split; [split; auto|]; tauto.
    + intros x g Hx. apply in_map_iff in Hx. destruct Hx as [y [<- Hy]]. apply in_map_iff in Hy. destruct Hy as [z [<- Hz]].
      simpl. rewrite filter_notin, (ti_out _ _ _ I z g Hz), in_app_iff. simpl. tauto.
    + intros g n m F' Hb' Hm. apply (ti_order _ _ _ I g n m); auto. intro. apply Hb'. apply in_or_app. auto.
    + apply (ti_sorted _ _ _ I).
    + intros g Hg. apply in_app_or in Hg. destruct Hg as [Hg|[<-|[]]]; [apply (ti_back _ _ _ I g Hg)|].
      exists (cid s), (cid c). auto.
Qed.

Lemma cut_many : forall fs tmp sorted back c, Inv tmp sorted back -> In c tmp -> join_node d (cid c) ->
  NoDup fs -> (forall f, In f fs -> In f (cin c)) ->
  exists tmp', rfold (cut_flow d) fs (tmp, back) = Ok (tmp', back ++ fs) /\ Inv tmp' sorted (back ++ fs) /\
    map cid tmp' = map cid tmp /\ sumin tmp' + (match fs with [] => 0 | _ => 1 end) <= sumin tmp /\
    (fs = [] -> tmp' = tmp).
Proof.
  induction fs as [|f t IH]; intros tmp sorted back c I Hc J N H.
  - exists tmp. rewrite app_nil_r. simpl. split; auto. split; auto. split; auto. split; auto. lia.
  - inv N. destruct (cut_one tmp sorted back c f I Hc J (H f (or_introl eq_refl))) as [tmp1 [E [E1 I1]]].
    cbn [rfold]. rewrite E. cbn [rbind].
    destruct (IH tmp1 sorted (back ++ [f]) (drop_in [f] (drop_out [f] c)) I1) as [tmp' [E2 [I2 [M [S _]]]]]; auto.
    + rewrite E1. apply in_map, in_map. auto.
    + intros g Hg. simpl. apply filter_notin. split; [apply H; right; auto|]. intros [->|[]]. contradiction.
    + rewrite <- app_assoc in *. exists tmp'. split; auto. split; auto. split; [|split; [|discriminate]].
      * rewrite M, E1, drop_in_cid, drop_out_cid. reflexivity.
      * assert (sumin tmp1 < sumin tmp).
        { rewrite E1. assert (E0 : sumin (map (drop_out [f]) tmp) = sumin tmp).
          { clear. induction tmp as [|a r IHr]; auto. cbn [map sumin fold_right] in *. unfold sumin in *. rewrite IHr. reflexivity. }
          rewrite <- E0. apply (sumin_drop_lt f _ (drop_out [f] c)); [apply in_map; auto|].
          simpl. apply H. left. auto. }
        lia.
Qed.

Lemma cut_joins_ok : forall ns tmp sorted back, Inv tmp sorted back -> (forall n, In n ns -> In n (map cid tmp)) ->
  exists tmp' back', cut_joins d ns (tmp, back) = Ok (tmp', back') /\ Inv tmp' sorted back' /\
    map cid tmp' = map cid tmp /\
    (sumin tmp' < sumin tmp \/
     (sumin tmp' = sumin tmp /\ tmp' = tmp /\ back' = back /\
      forall c, In c tmp -> In (cid c) ns -> join_node d (cid c) -> cin c = [])).
Proof.
  induction ns as [|n t IH]; intros tmp sorted back I H.
  - exists tmp, back. split; auto. split; auto. split; auto. right. repeat split; auto. intros c _ [].
  - pose proof (H n (or_introl eq_refl)) as Hn. apply in_map_iff in Hn. destruct Hn as [c [<- Hc]].
    cbn [cut_joins fst]. rewrite cfind_ok by (auto; eapply tmp_nodup; eauto). cbn [rbind].
    destruct (ti_live _ _ _ I c Hc) as [Ni [No J]].
    destruct (smem c_join (ccls c)) eqn:Ej.
    + assert (Jc : join_node d (cid c)) by tauto.
      destruct (cut_many (cin c) tmp sorted back c I Hc Jc Ni (fun f H => H)) as [tmp1 [E [I1 [M [S Z]]]]].
      rewrite E. cbn [rbind].
      destruct (IH tmp1 sorted (back ++ cin c) I1) as [tmp' [back' [E' [I' [M' D]]]]].
      { intros m Hm. rewrite M. apply H. right; auto. }
      exists tmp', back'. split; auto. split; auto. split; [congruence|].
      destruct (cin c) as [|g r] eqn:Ec.
      * specialize (Z eq_refl). subst tmp1. rewrite app_nil_r in *. destruct D as [D|[D1 [D2 [D3 D4]]]]; [left; auto|].
        right. repeat split; auto. intros x Hx [Hi|Hi] Jx; [|apply D4; auto].
        rewrite (same_cid tmp x c); auto. eapply tmp_nodup; eauto.
      * left. destruct D as [D|[D1 _]]; lia.
    + cbn [rbind]. destruct (IH tmp sorted back I) as [tmp' [back' [E' [I' [M' D]]]]].
      { intros m Hm. apply H. right; auto. }
      exists tmp', back'. split; auto. split; auto. split; auto. destruct D as [D|[D1 [D2 [D3 D4]]]]; [left; auto|].
      right. repeat split; auto. intros x Hx [Hi|Hi] Jx; [|apply D4; auto].
      exfalso. assert (x = c) by (eapply same_cid; eauto; eapply tmp_nodup; eauto). subst x.
      apply J in Jx. discriminate.
Qed.

(** ** The loop *)
Lemma ready_props : forall tmp sorted back, Inv tmp sorted back ->
  forall ready, filter (fun c => Nat.eqb (length (cin c)) 0) tmp = ready ->
  NoDup (map cid (rev ready)) /\ (forall c, In c (rev ready) -> In c tmp /\ cin c = []).
Proof.
  intros tmp sorted back I ready <-. split.
  - rewrite map_rev. apply NoDup_rev. apply NoDup_map_filter. eapply tmp_nodup; eauto.
  - intros c Hc. apply in_rev in Hc. apply filter_In in Hc. destruct Hc as [Hc E]. split; auto.
    apply Nat.eqb_eq in E. apply length_zero_iff_nil. auto.
Qed.

Lemma loop_correct : forall fuel tmp sorted back, Inv tmp sorted back ->
  match topo_loop fuel d orig tmp sorted back with
  | Ok (s, b) => Inv [] s b
  | Err e => e = OutOfFuel
  end.
Proof.
  induction fuel as [|fuel IH]; intros tmp sorted back I.
  - destruct tmp; simpl; auto.
  - destruct tmp as [|c0 t0]; [simpl; auto|]. cbn [topo_loop].
    remember (c0 :: t0) as tmp eqn:Et. clear Et c0 t0.
    destruct (filter (fun c => Nat.eqb (length (cin c)) 0) tmp) as [|r0 rs] eqn:Er.
    + destruct (cut_joins_ok (map cid tmp) tmp sorted back I (fun n H => H)) as [tmp' [back' [E [I' _]]]].
      rewrite E. cbn [rbind fst snd]. apply IH. auto.
    + destruct (ready_props tmp sorted back I _ Er) as [N H].
      destruct (take_ready_ok (rev (r0 :: rs)) tmp sorted back I N H) as [tmp' [sorted' [E [I' _]]]].
      rewrite E. cbn [rbind fst snd]. apply IH. auto.
Qed.

(** ** Closed sets contain cycles *)
Fixpoint chain (n : string) (l : list string) : Prop :=
  match l with [] => True | m :: t => (exists f, flow d f n m) /\ chain m t end.

Lemma back_chain : forall X, X <> [] -> (forall m, In m X -> exists f n, In n X /\ flow d f n m) ->
  forall k, exists n l, length l = k /\ chain n l /\ incl (n :: l) X.
Proof.
  intros X NE H. induction k as [|k [n [l [L [C I]]]]].
  - destruct X as [|x t]; [congruence|]. exists x, []. repeat split; auto. intros y [->|[]]. left; auto.
  - destruct (H n) as [f [p [Hp F]]]; [apply I; left; auto|]. exists p, (n :: l). simpl. split; [lia|].
    split; [eauto|]. intros y [->|Hy]; auto.
Qed.

Lemma dup_split : forall l : list string, ~ NoDup l -> exists a l1 l2 l3, l = l1 ++ a :: l2 ++ a :: l3.
Proof.
  induction l as [|x t IH]; intros H; [exfalso; apply H; constructor|].
  destruct (in_dec string_dec x t) as [Hi|Hi].
  - apply in_split in Hi. destruct Hi as [l2 [l3 ->]]. exists x, [], l2, l3. reflexivity.
  - destruct IH as [a [l1 [l2 [l3 E]]]]; [intro N; apply H; constructor; auto|].
    exists a, (x :: l1), l2, l3. rewrite E. reflexivity.
Qed.

Lemma chain_path : forall l2 a b l3, chain a (l2 ++ b :: l3) -> path d a (a :: l2) b.
Proof.
  induction l2 as [|m t IH]; intros a b l3 H; simpl in H.
  - destruct H as [[f F] _]. eapply path_one; eauto.
  - destruct H as [[f F] H]. eapply path_more; eauto.
Qed.
Lemma chain_suffix : forall l1 n a l, chain n (l1 ++ a :: l) -> chain a l.
Proof. induction l1 as [|m t IH]; intros n a l H; simpl in H; destruct H; eauto. Qed.

Lemma closed_cycle : forall X, X <> [] -> (forall m, In m X -> exists f n, In n X /\ flow d f n m) ->
  exists l, cycle d l /\ incl l X.
Proof.
  intros X NE H. destruct (back_chain X NE H (length X)) as [n [l [L [C I]]]].
  destruct (dup_split (n :: l)) as [a [l1 [l2 [l3 E]]]].
  { intro N. pose proof (NoDup_incl_length N I). simpl in *. lia. }
  exists (a :: l2). split.
  - exists a. destruct l1 as [|z l1]; simpl in E; inversion E; subst; clear E.
    + eapply chain_path; eauto.
    + apply chain_path with (l3 := l3). apply chain_suffix in C. exact C.
  - intros y Hy. apply I. rewrite E. apply in_or_app. right. destruct Hy as [->|Hy]; [left; auto|].
    right. apply in_or_app. left. auto.
Qed.

Lemma stuck_closed : forall tmp sorted back, Inv tmp sorted back -> (forall c, In c tmp -> cin c <> []) ->
  forall m, In m (map cid tmp) -> exists f n, In n (map cid tmp) /\ flow d f n m.
Proof.
  intros tmp sorted back I H m Hm. apply in_map_iff in Hm. destruct Hm as [c [<- Hc]].
  specialize (H c Hc). destruct (cin c) as [|f r] eqn:E; [congruence|].
  assert (Hf : In f (cin c)) by (rewrite E; left; auto). apply (ti_in _ _ _ I c f Hc) in Hf.
  destruct Hf as [Hi [_ [n [G Hn]]]]. exists f, n. split; auto.
  destruct (in_flow _ _ Hi) as [n' [Ho [_ G']]]. destruct (goes_fun _ _ _ _ _ G G') as [<- _]. split; auto.
Qed.

Lemma not_ready : forall tmp : list cnode, filter (fun c => Nat.eqb (length (cin c)) 0) tmp = [] ->
  forall c, In c tmp -> cin c <> [].
Proof.
  intros tmp E c Hc Ec. assert (In c (filter (fun c => Nat.eqb (length (cin c)) 0) tmp)).
  { apply filter_In. split; auto. rewrite Ec. reflexivity. }
  rewrite E in H. contradiction.
Qed.

Lemma loop_terminates : (forall l, cycle d l -> exists n, In n l /\ join_node d n) ->
  forall fuel tmp sorted back, Inv tmp sorted back -> length tmp + sumin tmp < fuel ->
  exists r, topo_loop fuel d orig tmp sorted back = Ok r.
Proof.
  intros HC. induction fuel as [|fuel IH]; intros tmp sorted back I L; [lia|].
  destruct tmp as [|c0 t0]; [simpl; eauto|]. cbn [topo_loop].
  remember (c0 :: t0) as tmp eqn:Et.
  destruct (filter (fun c => Nat.eqb (length (cin c)) 0) tmp) as [|r0 rs] eqn:Er.
  - destruct (cut_joins_ok (map cid tmp) tmp sorted back I (fun n H => H)) as [tmp' [back' [E [I' [M D]]]]].
    rewrite E. cbn [rbind fst snd]. apply IH; auto.
    assert (length tmp' = length tmp) by (rewrite <- (map_length cid tmp'), M; apply map_length).
    destruct D as [D|[_ [_ [_ D]]]]; [lia|]. exfalso.
    destruct (closed_cycle (map cid tmp)) as [l [Cy Il]].
    + rewrite Et. discriminate.
    + apply (stuck_closed tmp sorted back I (not_ready tmp Er)).
    + destruct (HC l Cy) as [n [Hn J]]. apply Il in Hn. apply in_map_iff in Hn. destruct Hn as [c [<- Hc]].
      apply (not_ready tmp Er c Hc). apply D; auto. apply in_map. auto.
  - destruct (ready_props tmp sorted back I _ Er) as [N H].
    destruct (take_ready_ok (rev (r0 :: rs)) tmp sorted back I N H) as [tmp' [sorted' [E [I' [Hl Hs]]]]].
    rewrite E. cbn [rbind fst snd]. apply IH; auto. rewrite rev_length in Hl. simpl in Hl. lia.
Qed.

Lemma loop_acyclic : acyclic d -> forall fuel tmp sorted s b, Inv tmp sorted [] ->
  topo_loop fuel d orig tmp sorted [] = Ok (s, b) -> b = [].
Proof.
  intros A. induction fuel as [|fuel IH]; intros tmp sorted s b I E.
  - destruct tmp; simpl in E; inv E. reflexivity.
  - destruct tmp as [|c0 t0]; [simpl in E; inv E; reflexivity|]. cbn [topo_loop] in E.
    remember (c0 :: t0) as tmp eqn:Et.
    destruct (filter (fun c => Nat.eqb (length (cin c)) 0) tmp) as [|r0 rs] eqn:Er.
    + exfalso. destruct (closed_cycle (map cid tmp)) as [l [Cy Il]].
      * rewrite Et. discriminate.
      * apply (stuck_closed tmp sorted [] I (not_ready tmp Er)).
      * exact (A l Cy).
    + destruct (ready_props tmp sorted [] I _ Er) as [N H].
      destruct (take_ready_ok (rev (r0 :: rs)) tmp sorted [] I N H) as [tmp' [sorted' [E2 [I' _]]]].
      rewrite E2 in E. cbn [rbind fst snd] in E. eapply IH; eauto.
Qed.

(** ** Results *)
Lemma final_facts : forall s b, Inv [] s b ->
  Permutation s orig /\ NoDup (map cid s) /\
  (forall f n m, flow d f n m -> ~ In f b -> before (map cid s) n m) /\
  (forall f, In f b -> exists n m, flow d f n m /\ join_node d m).
Proof.
  intros s b I. pose proof (inv_nodup _ _ _ I) as N. simpl in N. split; [|split; [auto|split]].
  - apply NoDup_Permutation.
    + eapply NoDup_map_inv. exact N.
    + eapply NoDup_map_inv. apply orig_nodup.
    + intro c. split; [apply (ti_sorted _ _ _ I)|]. intro Hc.
      assert (Hi : In (cid c) (map cid s)).
      { eapply Permutation_in; [symmetry; apply (ti_perm _ _ _ I)|]. apply in_map. auto. }
      apply in_map_iff in Hi. destruct Hi as [c' [E Hc']].
      rewrite <- (same_cid orig c' c); auto; [apply orig_nodup|apply (ti_sorted _ _ _ I); auto].
  - intros f n m F Hb. apply (ti_order _ _ _ I f n m); auto.
    eapply Permutation_in; [symmetry; apply (ti_perm _ _ _ I)|]. apply node_in_orig. eapply incoming_node. apply F.
  - apply (ti_back _ _ _ I).
Qed.

Lemma topo_ok : forall fuel s b, topological_sort fuel d orig = Ok (s, b) -> Inv [] s b.
Proof.
  intros fuel s b E. pose proof (loop_correct fuel orig [] [] inv_init) as H. unfold topological_sort in E.
  rewrite E in H. exact H.
Qed.

Lemma path_before : forall s b, Inv [] s b -> forall n l m, path d n l m ->
  (forall x, In x l -> ~ join_node d x) -> ~ join_node d m -> before (map cid s) n m.
Proof.
  intros s b I n l m P. destruct (final_facts s b I) as [_ [N [O B]]].
  induction P as [f n m F|f n m l k F P IH]; intros Hl Hm.
  - apply (O f n m F). intro Hb. destruct (B f Hb) as [n' [m' [[_ [_ G']] J]]]. destruct F as [_ [_ G]].
    destruct (goes_fun _ _ _ _ _ G G'). subst. contradiction.
  - apply before_trans with m; auto.
    + apply (O f n m F). intro Hb. destruct (B f Hb) as [n' [m' [[_ [_ G']] J]]]. destruct F as [_ [_ G]].
      destruct (goes_fun _ _ _ _ _ G G'). subst. apply (Hl m'); auto. right. inv P; left; auto.
    + apply IH; auto. intros x Hx. apply Hl. right; auto.
Qed.

Lemma diverges : (exists l, cycle d l /\ forall n, In n l -> ~ join_node d n) ->
  forall fuel, topological_sort fuel d orig = Err OutOfFuel.
Proof.
  intros [l [[n P] H]] fuel. pose proof (loop_correct fuel orig [] [] inv_init) as LC. unfold topological_sort.
  destruct (topo_loop fuel d orig orig [] []) as [[s b]|e]; [|congruence]. exfalso.
  assert (Hn : In n l) by (inv P; left; auto).
  destruct (final_facts s b LC) as [_ [N _]].
  exact (before_irrefl _ n N (path_before s b LC n l n P H (H n Hn))).
Qed.
End T.
