From Coq Require Import String List Bool Arith ZArith QArith Lia Permutation Sorted.
From Verif Require Import Py PyFacts Consts Nx NxFacts Rep SpecRep RepFacts Metrics SpecMetrics.
Import ListNotations.
Open Scope string_scope.
Open Scope list_scope.
Open Scope nat_scope.

Definition type_of (p : string * attrs) : list string :=
  match dget "type" (snd p) with Some (VStr t) => [t] | _ => [] end.
Definition types (d : diagram) : list string := flat_map type_of (gnodes (dgraph d)).

(** ** Cardinalities *)
Lemma number_unique : forall d P k1 k2, number d P k1 -> number d P k2 -> k1 = k2.
Proof.
  intros d P k1 k2 [l1 [N1 [L1 H1]]] [l2 [N2 [L2 H2]]]. subst.
  apply Permutation_length. apply NoDup_Permutation; auto.
  intro n. rewrite H1, H2. tauto.
Qed.

Lemma number_ext : forall d P Q k, (forall t, P t <-> Q t) -> number d P k -> number d Q k.
Proof.
  intros d P Q k E [l [N [L H]]]. exists l. split; auto. split; auto.
  intro n. rewrite H. split; intros [t [A B]]; exists t; split; auto; apply E; auto.
Qed.

Definition has_p (p : string -> bool) (x : string * attrs) : bool := existsb p (type_of x).

Lemma filter_types : forall p l,
  length (filter p (flat_map type_of l)) = length (filter (has_p p) l).
Proof.
  induction l as [|x t IH]; simpl; auto. rewrite filter_app, app_length, IH.
  unfold has_p at 2. unfold type_of. destruct (dget "type" (snd x)) as [[]|]; simpl; auto.
  destruct (p s); simpl; auto.
Qed.

Lemma NoDup_map_filter : forall A (f : A -> string) p l, NoDup (map f l) -> NoDup (map f (filter p l)).
Proof.
  induction l as [|a t IH]; simpl; intros H; auto. inv H. destruct (p a); simpl; auto.
  constructor; auto. intro C. apply H2. apply in_map_iff in C. destruct C as [b [E Hb]].
  apply filter_In in Hb. rewrite <- E. apply in_map. tauto.
Qed.

Lemma number_filter : forall d (p : string -> bool), unique_ids d ->
  number d (fun t => p t = true) (length (filter p (types d))).
Proof.
  intros d p Hu. unfold types. rewrite filter_types.
  exists (map fst (filter (has_p p) (gnodes (dgraph d)))). split; [|split].
  - apply NoDup_map_filter. exact Hu.
  - apply map_length.
  - intro n. rewrite in_map_iff. split.
    + intros [[n' a] [E H]]. simpl in E. subst n'. apply filter_In in H. destruct H as [Hin Hp].
      unfold has_p, type_of in Hp. simpl in Hp.
      destruct (dget "type" a) as [[]|] eqn:Et; simpl in Hp; try discriminate.
      rewrite orb_false_r in Hp. exists s. split; auto.
      unfold attr, node_of. rewrite (In_dget n a) by auto. exact Et.
    + intros [t [Ht Hp]]. unfold attr, node_of in Ht.
      destruct (dget n (gnodes (dgraph d))) as [a|] eqn:E; [|discriminate].
      exists (n, a). split; auto. apply filter_In. split; [apply dget_In; auto|].
      unfold has_p, type_of. simpl. change (dget "type" a = Some (VStr t)) in Ht.
      rewrite Ht. simpl. rewrite Hp. reflexivity.
Qed.

Lemma count_occ_filter : forall t l, count_occ string_dec l t = length (filter (String.eqb t) l).
Proof.
  induction l as [|a r IH]; simpl; auto.
  destruct (string_dec a t) as [->|N].
  - rewrite eqb_refl'. simpl. congruence.
  - rewrite eqb_neq' by congruence. auto.
Qed.

Definition freq (d : diagram) (t : string) : nat := count_occ string_dec (types d) t.

Lemma number_freq : forall d t, unique_ids d -> number d (eq t) (freq d t).
Proof.
  intros. unfold freq. rewrite count_occ_filter. eapply number_ext; [|apply number_filter; auto].
  intro s. simpl. rewrite String.eqb_eq. tauto.
Qed.

(** ** Counting queries *)
Lemma rfilter_eq : forall A (f : A -> res bool) p l, (forall x, In x l -> f x = Ok (p x)) ->
  rfilter f l = Ok (filter p l).
Proof.
  induction l as [|a t IH]; simpl; intros H; auto.
  rewrite H by auto. simpl. rewrite IH by auto. reflexivity.
Qed.

Lemma typed_entry : forall d, unique_ids d -> typed d ->
  forall x, In x (gnodes (dgraph d)) -> exists t, dget "type" (snd x) = Some (VStr t).
Proof.
  intros d Hu Ht [n a] Hin. destruct (Ht n) as [t H].
  - unfold is_node. change n with (fst (n, a)). apply in_map. exact Hin.
  - exists t. unfold attr, node_of in H. rewrite (In_dget n a) in H by auto. exact H.
Qed.

Lemma count_query : forall d t, unique_ids d -> typed d -> t <> "" ->
  get_nodes_count (Some t) d = Ok (freq d t).
Proof.
  intros d t Hu Hty Ht. unfold get_nodes_count.
  assert (E : get_nodes (Some t) d = Ok (filter (has_p (String.eqb t)) (gnodes (dgraph d)))).
  { unfold get_nodes. destruct t as [|c t']; [congruence|].
    apply rfilter_eq. intros x Hx. destruct (typed_entry d Hu Hty x Hx) as [ty E].
    unfold attr_is, dgetE, has_p, type_of. change k_type with "type". rewrite E. simpl.
    rewrite orb_false_r. rewrite String.eqb_sym. reflexivity. }
  rewrite E. simpl. f_equal. unfold freq. rewrite count_occ_filter. unfold types.
  symmetry. apply filter_types.
Qed.

(** Sum of the frequencies of distinct types. *)
Lemma freq_sum : forall ts l, NoDup ts ->
  fold_right (fun t acc => count_occ string_dec l t + acc) 0 ts = length (filter (fun s => smem s ts) l).
Proof.
  intros ts l H. induction l as [|a r IH]; simpl.
  - induction ts; simpl; auto. inv H. auto.
  - destruct (smem a ts) eqn:E; simpl.
    + rewrite <- IH. clear IH. revert E. induction ts as [|b tb IHt]; simpl; intro E; [discriminate|].
      inv H. destruct (string_dec a b) as [->|N].
      * assert (X : fold_right (fun t acc => (if string_dec b t then S (count_occ string_dec r t) else count_occ string_dec r t) + acc) 0 tb
                  = fold_right (fun t acc => count_occ string_dec r t + acc) 0 tb).
        { clear - H2. induction tb as [|c tc IH]; simpl; auto.
          destruct (string_dec b c); [subst; exfalso; apply H2; left; auto|].
          rewrite IH; auto. intro C. apply H2. right. auto. }
        rewrite X. lia.
      * rewrite eqb_neq' in E by congruence. simpl in E. rewrite IHt; auto.
    + rewrite <- IH. clear IH. revert E. induction ts as [|b tb IHt]; simpl; intro E; auto.
      inv H. apply orb_false_iff in E. destruct E as [E1 E2].
      destruct (string_dec a b) as [->|N]; [rewrite eqb_refl' in E1; discriminate|].
      rewrite IHt; auto.
Qed.

Lemma number_sum : forall d ts, unique_ids d -> NoDup ts ->
  number d (fun t => In t ts) (fold_right (fun t acc => freq d t + acc) 0 ts).
Proof.
  intros d ts Hu Hn. unfold freq. rewrite freq_sum by auto.
  eapply number_ext; [|apply number_filter; auto]. intro t. simpl. apply smem_In.
Qed.

Lemma counts_of_eq : forall d tys, unique_ids d -> typed d -> ~ In "" tys ->
  counts_of tys d = Ok (map (fun t => (t, freq d t)) tys).
Proof.
  intros d tys Hu Ht. induction tys as [|t r IH]; intros Hn; auto.
  unfold counts_of in *. cbn [rmap map].
  rewrite count_query; auto; [|intro; subst; apply Hn; left; auto]. cbn [rbind].
  rewrite IH by (intro; apply Hn; right; auto). reflexivity.
Qed.

Lemma sum_counts_freq : forall d tys,
  sum_counts (map (fun t => (t, freq d t)) tys) = fold_right (fun t acc => freq d t + acc) 0 tys.
Proof. induction tys; simpl; auto. Qed.

Ltac notin := let C := fresh in intro C; simpl in C;
  repeat (destruct C as [C|C]; [discriminate|]); contradiction.
Ltac nodup := repeat (constructor; [notin|]); constructor.

Section Typed.
Variable d : diagram.
Hypothesis Hu : unique_ids d.
Hypothesis Ht : typed d.

Lemma gateways_eq : get_gateway_counts d = Ok (map (fun t => (t, freq d t)) GATEWAY_TYPES).
Proof. apply counts_of_eq; auto. notin. Qed.
Lemma events_eq : get_events_counts d = Ok (map (fun t => (t, freq d t)) EVENT_TYPES).
Proof. apply counts_of_eq; auto. notin. Qed.
Lemma activities_eq : get_activities_counts d = Ok (map (fun t => (t, freq d t)) ["task"; "subProcess"]).
Proof.
  unfold get_activities_counts. rewrite !count_query; auto; discriminate.
Qed.

Lemma number_gateways : number d is_gateway (sum_counts (map (fun t => (t, freq d t)) GATEWAY_TYPES)).
Proof.
  rewrite sum_counts_freq. eapply number_ext; [|apply number_sum; auto].
  - intro t. unfold is_gateway. simpl. intuition congruence.
  - nodup.
Qed.
Lemma number_events : number d is_event (sum_counts (map (fun t => (t, freq d t)) EVENT_TYPES)).
Proof.
  rewrite sum_counts_freq. eapply number_ext; [|apply number_sum; auto].
  - intro t. unfold is_event. simpl. intuition congruence.
  - nodup.
Qed.
Lemma number_activities : number d is_activity (freq d "task" + (freq d "subProcess" + 0)).
Proof.
  change (number d is_activity (fold_right (fun t acc => freq d t + acc) 0 ["task"; "subProcess"])).
  eapply number_ext; [|apply number_sum; auto].
  - intro t. unfold is_activity. simpl. intuition congruence.
  - nodup.
Qed.

Lemma activities_count : exists a, all_activities_count d = Ok a /\ NOA_metric d = Ok a /\ number d is_activity a.
Proof.
  exists (freq d "task" + (freq d "subProcess" + 0)). split; [|split].
  - unfold all_activities_count. rewrite activities_eq. reflexivity.
  - unfold NOA_metric. rewrite activities_eq. simpl. f_equal. lia.
  - apply number_activities.
Qed.
Lemma gateways_count : exists a, all_gateways_count d = Ok a /\ number d is_gateway a.
Proof.
  eexists. split; [|apply number_gateways].
  unfold all_gateways_count. rewrite gateways_eq. reflexivity.
Qed.
Lemma events_count : exists a, all_events_count d = Ok a /\ TNE_metric d = Ok a /\ number d is_event a.
Proof.
  eexists. split; [|split; [|apply number_events]].
  - unfold all_events_count. rewrite events_eq. reflexivity.
  - unfold TNE_metric. rewrite events_eq. reflexivity.
Qed.
Lemma control_count : exists g e, number d is_gateway g /\ number d is_event e /\
  all_control_flow_elements_count d = Ok (g + e).
Proof.
  eexists. eexists. split; [apply number_gateways|]. split; [apply number_events|].
  unfold all_control_flow_elements_count. rewrite gateways_eq, events_eq. simpl. f_equal. lia.
Qed.
Lemma type_count : forall t, t <> "" -> exists k, get_nodes_count (Some t) d = Ok k /\ number d (eq t) k.
Proof. intros t H. exists (freq d t). split; [apply count_query; auto|apply number_freq; auto]. Qed.
Lemma tnie_count : exists k, TNIE_metric d = Ok k /\
  number d (fun t => t = "intermediateCatchEvent" \/ t = "intermediateThrowEvent") k.
Proof.
  exists (fold_right (fun t acc => freq d t + acc) 0 ["intermediateCatchEvent"; "intermediateThrowEvent"]).
  split.
  - unfold TNIE_metric. rewrite !count_query; auto; try discriminate. simpl. f_equal. lia.
  - eapply number_ext; [|apply number_sum; auto].
    + intro t. simpl. intuition congruence.
    + nodup.
Qed.
End Typed.
