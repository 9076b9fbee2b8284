(** Facts about the CSV exporter. *)
From Coq Require Import String Ascii List Bool Arith ZArith Lia Permutation.
From Verif Require Import Py PyFacts Consts Nx NxFacts Rep SpecRep RepFacts MetricsFacts Classify SpecLayout ClassifyFacts.
From Verif Require Import CsvRegex CsvImport SpecCsv RegexFacts CsvFacts CsvTable CsvExport SpecCsvExport.
Import ListNotations.
Open Scope string_scope.
Open Scope list_scope.

(** * The entry nodes *)
Definition no_incoming (n : node_t) : bool := match lst "incoming" (snd n) with [] => true | _ => false end.
Lemma entry_nodes_eq : forall d, listed d -> entry_nodes d = Ok (filter no_incoming (gnodes (dgraph d))).
Proof.
  intros d L. unfold entry_nodes. change (get_nodes (Some "") d) with (Ok (nodes_view (dgraph d))). cbn [rbind].
  unfold nodes_view. apply rfilter_eq. intros [n a] Hn. destruct (entry d L n a Hn) as [_ [_ [Hi _]]].
  change k_incoming with "incoming". cbn [snd]. rewrite Hi. unfold no_incoming. cbn [snd].
  destruct (lst "incoming" a); reflexivity.
Qed.
Lemma entry_iff : forall d n, listed d ->
  (entry_node d n <-> In n (map fst (filter no_incoming (gnodes (dgraph d))))).
Proof.
  intros d n L. split.
  - intros [N E]. apply in_map_iff in N. destruct N as [[m a] [<- H]]. cbn [fst] in *.
    apply in_map_iff. exists (m, a). split; auto. apply filter_In. split; auto.
    destruct (entry d L m a H) as [_ [_ [_ [_ At]]]]. unfold incoming_of in E. rewrite At in E.
    unfold no_incoming, lst. cbn [snd]. destruct (dget "incoming" a) as [[]|]; auto. rewrite E. reflexivity.
  - intros H. apply in_map_iff in H. destruct H as [[m a] [<- H]]. cbn [fst]. apply filter_In in H. destruct H as [H E].
    destruct (entry d L m a H) as [N [_ [_ [_ At]]]]. split; auto. unfold incoming_of. rewrite At.
    unfold no_incoming, lst in E. cbn [snd] in E. destruct (dget "incoming" a) as [[]|]; auto. destruct l; [auto|discriminate].
Qed.
Lemma entry_unique : forall d, listed d ->
  ((exists n, filter no_incoming (gnodes (dgraph d)) = [n]) <-> exists n, forall m, entry_node d m <-> m = n).
Proof.
  intros d L. assert (N : NoDup (map fst (filter no_incoming (gnodes (dgraph d))))).
  { destruct L as [U _]. unfold unique_ids, node_keys in U. clear - U.
    induction (gnodes (dgraph d)) as [|[n a] t IH]; [constructor|]. cbn [map fst] in U. inversion U; subst. cbn [filter].
    destruct (no_incoming (n, a)); auto. cbn [map fst]. constructor; auto. intro C. apply H1.
    apply in_map_iff in C. destruct C as [x [<- C]]. apply filter_In in C. apply in_map. tauto. }
  split.
  - intros [[n a] E]. exists n. intros m. rewrite (entry_iff d m L), E. simpl. intuition.
  - intros [n H]. assert (I : forall m, In m (map fst (filter no_incoming (gnodes (dgraph d)))) <-> m = n).
    { intros m. rewrite <- (entry_iff d m L). apply H. }
    destruct (filter no_incoming (gnodes (dgraph d))) as [|x [|y l]].
    + exfalso. apply (proj2 (I n) eq_refl).
    + eauto.
    + exfalso. cbn [map] in N, I. inversion N; subst. apply H2. left.
      transitivity n; [|symmetry]; apply I; [right; left|left]; auto.
Qed.

(** * No BpmnPythonError behind the first check *)
Definition quiet {A} (r : res A) : Prop := forall m, r <> Err (BpmnPythonError m).
Lemma quiet_ok : forall A (a : A), quiet (Ok a).
Proof. intros A a m H. discriminate. Qed.
Lemma quiet_bind : forall A B (r : res A) (f : A -> res B), quiet r -> (forall a, quiet (f a)) -> quiet (rbind r f).
Proof. intros A B r f H1 H2 m. destruct r as [a|e]; simpl; [apply H2|]. intro E. inv E. eapply H1; eauto. Qed.
Lemma quiet_dgetE : forall V k (a : dict V), quiet (dgetE k a).
Proof. intros V k a m. unfold dgetE. destruct (dget k a); discriminate. Qed.
Lemma quiet_fold : forall A B (f : A -> B -> res A) l a, (forall a b, quiet (f a b)) -> quiet (rfold f l a).
Proof. induction l as [|b t IH]; intros a H; simpl; [apply quiet_ok|]. apply quiet_bind; auto. Qed.
Lemma quiet_flow : forall f d, quiet (get_flow_by_id f d).
Proof.
  intros f d. unfold get_flow_by_id. induction (get_flows d) as [|e t IH]; [apply quiet_ok|].
  simpl. apply quiet_bind; [apply quiet_dgetE|]. intros v. destruct (veqs v f); [apply quiet_ok|auto].
Qed.
Ltac quiet_step :=
  match goal with
  | |- quiet (Ok _) => apply quiet_ok
  | |- quiet (rbind _ _) => apply quiet_bind; [|intros ?]
  | |- quiet (dgetE _ _) => apply quiet_dgetE
  | |- quiet (get_flow_by_id _ _) => apply quiet_flow
  | |- quiet (rfold _ _ _) => apply quiet_fold; intros ? ?
  | |- quiet (if ?b then _ else _) => destruct b
  | |- quiet (match ?x with _ => _ end) => destruct x
  | |- quiet (let '(_, _) := ?x in _) => destruct x
  | |- quiet (Err _) => intros m E; discriminate
  end.
Lemma quiet_export : forall fuel d classes node order prefix condition who add_join rows,
  quiet (export_node fuel d classes node order prefix condition who add_join rows).
Proof.
  induction fuel as [|fuel IH]; intros; [intros m; discriminate|]. cbn [export_node].
  unfold start_activity, end_activity, first_definition, str_add, outgoing_list, flow_of, target_node, ascii_lowercase.
  repeat first [apply IH | progress cbv zeta | quiet_step].
Qed.

(** * Classes, flows and targets of consistent diagrams *)
Lemma class_of : forall d n t, listed d -> typed d n t -> laid_out t ->
  exists ls, dget n (map (fun c => (cid c, ccls c)) (classified d)) = Some ls /\
    smem c_join ls = Nat.leb 2 (length (incoming_of d n)) /\ smem c_split ls = Nat.leb 2 (length (outgoing_of d n)).
Proof.
  intros d n t L T O. apply types_laid_out in O. destruct O as [base Hb].
  set (ls := base ++ (if Nat.leb 2 (length (incoming_of d n)) then [c_join] else [])
                  ++ (if Nat.leb 2 (length (outgoing_of d n)) then [c_split] else [])).
  exists ls. split.
  - apply In_dget; [unfold dkeys; rewrite map_map; apply classified_nodup; auto|].
    apply in_map_iff. exists (mkCN n (incoming_of d n) (outgoing_of d n) ls). split; auto.
    apply classified_char; auto. cbn [cid cin cout ccls]. exists t, base. auto.
  - unfold ls, classified_types in *. cbn [In] in Hb.
    repeat match type of Hb with
         | _ \/ _ => destruct Hb as [Hb|Hb]
         | False => contradiction
         end; injection Hb as <- <-;
    destruct (Nat.leb 2 (length (incoming_of d n))), (Nat.leb 2 (length (outgoing_of d n))); split; reflexivity.
Qed.
Lemma flow_of_goes : forall d f n m, flow_goes d f n m -> exists a, flow_of d f = Ok a /\ dget "targetRef" a = Some (VStr m).
Proof. intros d f n m [t [E [_ T]]]. exists (snd t). unfold flow_of. rewrite E. split; auto. Qed.
Lemma node_entry : forall d n, listed d -> is_node d n ->
  exists a, get_node_by_id n d = Some (n, a) /\ In (n, a) (gnodes (dgraph d)) /\ (forall k, attr d n k = dget k a) /\
    dget "incoming" a = Some (VList (incoming_of d n)) /\ dget "outgoing" a = Some (VList (outgoing_of d n)).
Proof.
  intros d n L N. apply in_map_iff in N. destruct N as [[n' a] [E H]]. cbn [fst] in E. subst n'.
  exists a. destruct (entry d L n a H) as [_ [_ [Hi [Ho At]]]].
  assert (G : get_node_by_id n d = Some (n, a)).
  { unfold get_node_by_id, nodes_view. destruct L as [U _]. unfold unique_ids, node_keys in U. clear - U H.
    induction (gnodes (dgraph d)) as [|[m b] t IH]; [contradiction|]. cbn [map fst] in U. inversion U; subst. cbn [find fst].
    destruct (String.eqb m n) eqn:E.
    - apply String.eqb_eq in E. subst m. destruct H as [H|H]; [inv H; auto|]. exfalso. apply H2.
      apply in_map_iff. exists (n, a). auto.
    - destruct H as [H|H]; auto. inv H. rewrite String.eqb_refl in E. discriminate. }
  split; auto. split; auto. split; auto. unfold incoming_of, outgoing_of. rewrite !At.
  rewrite Hi, Ho. auto.
Qed.
Lemma target_of : forall d f n m, listed d -> is_node d m -> flow_goes d f n m ->
  exists fa a, flow_of d f = Ok fa /\ target_node d fa = Ok (Some (m, a)) /\ In (m, a) (gnodes (dgraph d)).
Proof.
  intros d f n m L N F. destruct (flow_of_goes _ _ _ _ F) as [fa [E T]].
  destruct (node_entry d m L N) as [a [G [H _]]]. exists fa, a. split; auto. split; auto.
  unfold target_node, dgetE. change k_target_ref with "targetRef". rewrite T. cbn [rbind]. rewrite G. reflexivity.
Qed.
