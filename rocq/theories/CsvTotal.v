(** When importing a table succeeds. *)
From Coq Require Import String Ascii List Bool Arith ZArith Lia Permutation.
From Verif Require Import Py PyFacts Consts Nx NxFacts Rep SpecRep RepFacts.
From Verif Require Import CsvRegex CsvImport SpecCsv RegexFacts CsvFacts CsvTable SpecFlow CsvGhost CsvFill CsvLast.
Import ListNotations.
Open Scope string_scope.
Open Scope list_scope.

Lemma seq_total : forall o, exists l, get_possible_sequence_continuation_successor o = Ok l.
Proof.
  intros o. destruct (re_match rx_trailing_number o) as [r|] eqn:R.
  - rewrite (seq_succ_numbered _ _ _ (trailing_number_some _ _ R)). eauto.
  - rewrite seq_succ_none by (apply trailing_number_none; auto). eauto.
Qed.
Lemma split_total : forall o, exists l, get_possible_split_continuation_successor o = Ok l.
Proof.
  intros o. destruct (re_match rx_trailing_number o) as [r|] eqn:R.
  - rewrite (split_succ_numbered _ _ _ (trailing_number_some _ _ R)). eauto.
  - rewrite split_succ_none by (apply trailing_number_none; auto). eauto.
Qed.

Lemma opens_branch : forall rows o, opens rows o -> exists b, branch rows o b.
Proof.
  intros rows o [p [n [N [H|H]]]]; eexists; exists p, n; (split; [exact N|]); (split; [|exact H]);
    exists "a"%char; [exists 0|exists 1]; (split; [left; vm_compute; auto 60|left; reflexivity]).
Qed.

Lemma gateway_type_total : forall rows o, good_rows rows -> In o (orders rows) -> opens rows o ->
  exists ty succs, get_gateway_type o (orders rows) rows = Ok ty /\ get_all_split_successors o (orders rows) = Ok succs.
Proof.
  intros rows o G Ho [p [n [N _]]]. pose proof (good_plain _ _ G Ho) as P.
  assert (E : exists succs, get_all_split_successors o (orders rows) = Ok succs /\ forall b, In b succs -> In b (orders rows)).
  { rewrite (all_split_numbered _ _ _ (orders rows) N).
    2: { intros c Hc. apply plain_special. apply (numbered_plain _ _ _ N P). exact Hc. }
    eexists. split; [reflexivity|]. intros b Hb. apply filter_In in Hb. tauto. }
  destruct E as [succs [E I]]. unfold get_gateway_type. rewrite E. cbn [rbind].
  assert (C : exists conds, get_node_conditions succs rows = Ok conds).
  { unfold get_node_conditions. clear E. induction succs as [|b succs IH]; [eexists; reflexivity|].
    destruct (dget_Some_keys b rows) as [r R]; [apply I; left; auto|].
    destruct IH as [cs Cs]; [intros; apply I; right; auto|].
    cbn [rmap]. rewrite Cs. unfold dgetE. rewrite R. cbn [rbind]. eauto. }
  destruct C as [conds ->]. cbn [rbind]. eauto.
Qed.

(** The row can be connected. *)
Definition row_fine (rows : dict row) (o : string) : Prop :=
  onward rows o -> (exists m, follows rows o m) \/ opens rows o \/
    exists m, closes rows o m /\ (forall m', closes rows o m' -> m' = m) /\ (2 <= value m)%Z.

Lemma fan_total : forall bs g d tb L, books d L -> is_node d g -> (forall b, In b bs -> is_node d b) ->
  exists d', mfor bs (fun s => add_connection g s) (d, tb) = ((d', tb), Ok tt).
Proof.
  induction bs as [|b bs IH]; intros g d tb L B G H; [exists d; reflexivity|].
  destruct (add_connection_spec g b d tb) as [d1 [E C]]; [apply B|auto|apply H; left; auto|].
  cbn [mfor]. rewrite (mbind_eq _ _ _ _ _ _ _ _ E).
  apply (IH g d1 tb (L ++ [(g, b)])).
  - eapply books_connect; eauto. apply H. left; auto.
  - apply (connected_is_node _ _ _ _ _ _ C). auto.
  - intros x Hx. apply (connected_is_node _ _ _ _ _ _ C). apply H. right; auto.
Qed.

Lemma merge_type_cases : forall rows base done d L m, good_rows rows -> filled rows base done d L -> number m ->
  (exists ty, get_merge_node_type m d = Ok ty /\ (2 <= value m)%Z) \/
  (exists s, get_merge_node_type m d = Err (BpmnPythonError s) /\ (value m < 2)%Z).
Proof.
  intros rows base done d L m G F N. unfold get_merge_node_type.
  destruct (trailing_number_numbered _ _ _ (number_numbered m N)) as [r [E [G1 G2]]]. rewrite E, G1, G2.
  rewrite py_int_value by auto. cbn [rbind]. destruct (Z.ltb_spec (value m - 2) 0).
  - right. eexists. split; [reflexivity|lia].
  - left. change (("" ++ zstr (value m - 2))%string) with (zstr (value m - 2)).
    destruct (gnode (dgraph d) (split_id (zstr (value m - 2)))) as [a|] eqn:Ga; [|eexists; split; [reflexivity|lia]].
    assert (Hn : is_node d (split_id (zstr (value m - 2)))) by (apply is_node_of; exists a; exact Ga).
    apply (fi_nodes _ _ _ _ _ F) in Hn. destruct Hn as [Hn|[[o [Ho [So Eo]]]|[o [m' [Ho [Mo Eo]]]]]].
    + exfalso. apply (split_not_plain (zstr (value m - 2))). eapply good_plain; eauto.
    + destruct (fi_split _ _ _ _ _ F o Ho So) as [t [Gt At]]. rewrite <- Eo in At.
      unfold attr, node_of in At. unfold gnode in Ga. rewrite Ga in At. unfold dgetE.
      change k_type with "type". rewrite At. cbn [rbind]. eexists. split; [reflexivity|lia].
    + exfalso. eapply split_join. exact Eo.
Qed.

Lemma connect_total : forall rows base done d L n, good_rows rows -> filled rows base done d L ->
  In n (orders rows) -> ~ In n done ->
  (row_fine rows n /\ exists d', connect_node (orders rows) n (d, rows) = ((d', rows), Ok tt)) \/
  (~ row_fine rows n /\ exists st msg, connect_node (orders rows) n (d, rows) = (st, Err (BpmnPythonError msg)) /\
     ((forall m, ~ closes rows n m) -> msg = ("Something wrong in csv file syntax - look for " ++ n)%string)).
Proof.
  intros rows base done d L n G F Hn Nd. pose proof (proj2 G n Hn) as Ln. pose proof (good_plain _ _ G Hn) as Pn.
  pose proof (fi_books _ _ _ _ _ F) as B.
  assert (Rn : forall x, In x (orders rows) -> is_node d x) by (intros x Hx; apply (fi_nodes _ _ _ _ _ F); auto).
  destruct (onward_iff rows n (proj1 G) Hn) as [b [E0 On]].
  unfold connect_node. rewrite mbind_read. cbn [snd]. rewrite E0. destruct b.
  { left. split; [|exists d; reflexivity]. intros C. apply On in C. discriminate. }
  assert (O : onward rows n) by (apply On; auto). clear On E0.
  destruct (seq_total n) as [l1 S1]. destruct (split_total n) as [l2 S2]. destruct (merge_total n Ln) as [l3 S3].
  rewrite mbind_read. unfold is_there_sequence_continuation. rewrite S1. cbn [rbind].
  destruct (any_successor_present l1 (orders rows)) eqn:A1.
  { left. apply any_true in A1. destruct A1 as [x [X1 X2]].
    assert (Fx : follows rows n x) by (apply (follows_iff rows n l1 S1); auto).
    split; [intros _; left; eauto|].
    assert (E : the_successor_present l1 (orders rows) = Ok x).
    { apply the_succ_one; auto. intros y Y1 Y2. eapply follows_unique; [|exact Fx].
      apply (follows_iff rows n l1 S1). auto. }
    rewrite mbind_read. cbv beta iota. rewrite mbind_read, E.
    destruct (add_connection_spec n x d rows) as [d1 [E1 _]]; [apply B|auto|auto|]. eauto. }
  assert (Nf : forall m, ~ follows rows n m).
  { intros m C. apply (follows_iff rows n l1 S1 m) in C. rewrite any_false in A1. eapply A1; apply C. }
  rewrite mbind_read. unfold is_there_split_continuation. rewrite S2. cbn [rbind].
  destruct (any_successor_present l2 (orders rows)) eqn:A2.
  { left. assert (Op : opens rows n) by (apply (opens_iff rows n l2 S2); auto).
    split; [intros _; auto|].
    destruct (gateway_type_total rows n G Hn Op) as [ty [succs [E1 E2]]].
    assert (T3 : three_gateways ty) by (eapply gateway_type_three; eauto).
    assert (Ng : ~ is_node d (split_of n)).
    { intros C. apply (fi_nodes _ _ _ _ _ F) in C. destruct C as [C|[[o [C [_ X]]]|[o [m [C [_ X]]]]]].
      - apply (split_not_plain n). eapply good_plain; eauto.
      - apply split_inj in X. subst. auto.
      - eapply split_join; eauto. }
    destruct (node_info_new (split_id n) (Some ty) "" default_process_id d Ng) as [d1 [X1 Ad]].
    assert (B1 : books d1 L).
    { eapply books_add; eauto. apply split_simple; auto. }
    assert (K1 : forall x, is_node d x -> is_node d1 x) by (intros x Hx; apply (added_is_node _ _ _ _ _ Ad); auto).
    assert (Ks : is_node d1 (split_id n)) by (apply (added_is_node _ _ _ _ _ Ad); auto).
    destruct (add_connection_spec n (split_id n) d1 rows) as [d2 [X2 C2]]; [apply B1|auto|auto|].
    assert (B2 : books d2 (L ++ [(n, split_id n)])) by (eapply books_connect; eauto).
    destruct (fan_total succs (split_id n) d2 rows _ B2) as [d3 X3].
    { apply (connected_is_node _ _ _ _ _ _ C2). auto. }
    { intros x Hx. apply (connected_is_node _ _ _ _ _ _ C2). apply K1, Rn.
      apply (branches_found rows n succs Pn E2) in Hx. destruct Hx as [p [k [_ [_ Hx]]]]. auto. }
    exists d3. erewrite mbind_eq.
    2: { unfold add_split_gateway. rewrite mbind_read. cbn [snd]. rewrite E1.
         erewrite mbind_eq; [reflexivity|]. unfold on_diagram. cbn [fst snd]. rewrite X1. reflexivity. }
    cbn [fst snd]. rewrite (mbind_eq _ _ _ _ _ _ _ _ X2). rewrite mbind_read, E2. exact X3. }
  assert (Nop : ~ opens rows n).
  { intros C. apply (opens_iff rows n l2 S2) in C. congruence. }
  rewrite mbind_read. unfold is_there_merge_continuation. rewrite S3. cbn [rbind].
  assert (Cl : forall m, In m l3 /\ In m (orders rows) <-> closes rows n m) by (apply closes_iff; auto).
  destruct (any_successor_present l3 (orders rows)) eqn:A3.
  2: { right. rewrite any_false in A3. split.
       - intros C. destruct (C O) as [[m C1]|[C1|[m [C1 _]]]]; [eapply Nf; eauto|auto|].
         apply Cl in C1. eapply A3; apply C1.
       - eexists. eexists. split; [reflexivity|]. intros _. reflexivity. }
  rewrite mbind_read. cbv beta iota. rewrite mbind_read.
  destruct (the_successor_present l3 (orders rows)) as [s|e] eqn:E.
  2: { right. split.
       - intros C. destruct (C O) as [[m C1]|[C1|[m [C1 [C2 _]]]]]; [eapply Nf; eauto|auto|].
         assert (X : the_successor_present l3 (orders rows) = Ok m).
         { apply Cl in C1. apply the_succ_one; try apply C1. intros y Y1 Y2. apply C2, Cl. auto. }
         congruence.
       - assert (X : e = BpmnPythonError "Some error in program - there should be exactly one found successor.").
         { unfold the_successor_present in E. destruct (successors_present _ _) as [|a [|b r]]; congruence. }
         rewrite X. eexists. eexists. split; [reflexivity|]. intros Q. exfalso. apply any_true in A3.
         destruct A3 as [x Hx]. eapply Q. apply Cl. exact Hx. }
  destruct (the_succ _ _ _ E) as [Y1 [Y2 Y3]].
  assert (Cs : closes rows n s) by (apply Cl; auto).
  assert (Us : forall m, closes rows n m -> m = s) by (intros m Hm; apply Cl in Hm; apply Y3; tauto).
  assert (Num : number s) by (eapply closes_number; eauto).
  unfold add_merge_gateway_if_not_exists, gread.
  destruct (has_node (dgraph d) (join_id s)) eqn:E7.
  - left. assert (Hj : is_node d (join_id s)) by (apply dhas_true; exact E7). split.
    + intros _. right. right. exists s. split; auto. split; auto.
      apply (fi_nodes _ _ _ _ _ F) in Hj. change (join_id s) with (join_of s) in Hj.
      destruct Hj as [X|[[o [_ [_ X]]]|[o [m [X [Y Z]]]]]].
      * exfalso. apply (join_not_plain s). eapply good_plain; eauto.
      * exfalso. symmetry in X. eapply split_join; eauto.
      * apply join_inj in Z. subst m.
        pose proof (fi_val _ _ _ _ _ F o s X Y). auto.
    + destruct (add_connection_spec n (join_id s) d rows) as [d1 [X1 _]]; [apply B|auto|auto|].
      exists d1. erewrite mbind_eq.
      2: { unfold on_diagram. cbn [fst snd]. rewrite mbind_read, E7. reflexivity. }
      cbn [fst snd]. erewrite mbind_eq; [|reflexivity]. exact X1.
  - assert (Hj : ~ is_node d (join_id s)) by (apply dhas_false; exact E7).
    destruct (merge_type_cases _ _ _ _ _ s G F Num) as [[ty [T1 T2]]|[msg [T1 T2]]].
    + left. split; [intros _; right; right; exists s; auto|].
      destruct (node_info_new (join_id s) ty "" default_process_id d Hj) as [d1 [X1 Ad]].
      assert (B1 : books d1 L).
      { eapply books_add; eauto. apply join_simple. apply number_plain; auto. }
      assert (K1 : forall x, is_node d x -> is_node d1 x) by (intros x Hx; apply (added_is_node _ _ _ _ _ Ad); auto).
      assert (Ks : is_node d1 (join_id s)) by (apply (added_is_node _ _ _ _ _ Ad); auto).
      destruct (add_connection_spec (join_id s) s d1 rows) as [d2 [X2 C2]]; [apply B1|auto|auto|].
      assert (B2 : books d2 (L ++ [(join_id s, s)])) by (eapply books_connect; eauto).
      destruct (add_connection_spec n (join_id s) d2 rows) as [d3 [X3 C3]]; [apply B2| | |];
        try (apply (connected_is_node _ _ _ _ _ _ C2); auto).
      exists d3. erewrite mbind_eq.
      2: { unfold on_diagram. cbn [fst snd]. rewrite mbind_read, E7, mbind_read, T1. erewrite mbind_eq by exact X1. reflexivity. }
      cbn [fst snd]. rewrite (mbind_eq _ _ _ _ _ _ _ _ X2). exact X3.
    + right. split.
      * intros C. destruct (C O) as [[m C1]|[C1|[m [C1 [C2 C3]]]]]; [eapply Nf; eauto|auto|].
        rewrite (Us m C1) in C3. lia.
      * eexists. eexists. split.
        -- apply mbind_err. unfold on_diagram. cbn [fst snd]. rewrite mbind_read, E7, mbind_read, T1. reflexivity.
        -- intros Q. exfalso. eapply Q; eauto.
Qed.

(** * Removing nodes *)
Lemma remove_incoming_total : forall b d f l r lo lo', attr d b "incoming" = Some (VList (f :: l)) ->
  dget f (seq_flows d) = Some r -> attr d (fl_src r) "outgoing" = Some (VList lo) -> list_remove f lo = Ok lo' ->
  has_edge (fl_src r) b (dgraph d) = true -> exists d', remove_incoming_connection b d = (d', Ok (fl_src r)).
Proof.
  intros b d f l r lo lo' H1 H2 H3 H4 H5. unfold remove_incoming_connection, mbind, gread, mread.
  rewrite (proj2 (node_list_ok b k_incoming d (f :: l)) H1). cbn [list_head]. unfold dgetE. rewrite H2.
  rewrite (proj2 (node_list_ok (fl_src r) k_outgoing d lo) H3), H4.
  destruct (node_set_attr (fl_src r) k_outgoing (VList lo') d (attr_is_node _ _ _ _ H3)) as [d1 [S1 [A1 [K1 [G1 R1]]]]].
  rewrite S1. unfold mmodify, ggraph, mtry, remove_edge. cbn [dgraph with_flows].
  assert (X : has_edge (fl_src r) b (dgraph d1) = true) by (apply has_edge_true; rewrite G1; apply has_edge_true; exact H5).
  rewrite X. eexists. reflexivity.
Qed.
Lemma remove_outgoing_total : forall b d f l r li li', attr d b "outgoing" = Some (VList (f :: l)) ->
  dget f (seq_flows d) = Some r -> attr d (fl_tgt r) "incoming" = Some (VList li) -> list_remove f li = Ok li' ->
  has_edge b (fl_tgt r) (dgraph d) = true -> exists d', remove_outgoing_connection b d = (d', Ok (fl_tgt r)).
Proof.
  intros b d f l r li li' H1 H2 H3 H4 H5. unfold remove_outgoing_connection, mbind, gread, mread.
  rewrite (proj2 (node_list_ok b k_outgoing d (f :: l)) H1). cbn [list_head]. unfold dgetE. rewrite H2.
  rewrite (proj2 (node_list_ok (fl_tgt r) k_incoming d li) H3), H4.
  destruct (node_set_attr (fl_tgt r) k_incoming (VList li') d (attr_is_node _ _ _ _ H3)) as [d1 [S1 [A1 [K1 [G1 R1]]]]].
  rewrite S1. unfold mmodify, ggraph, mtry, remove_edge. cbn [dgraph with_flows].
  assert (X : has_edge b (fl_tgt r) (dgraph d1) = true) by (apply has_edge_true; rewrite G1; apply has_edge_true; exact H5).
  rewrite X. eexists. reflexivity.
Qed.

Lemma wf_lists : forall d n, wf d -> is_node d n ->
  attr d n "outgoing" = Some (VList (outgoing_of d n)) /\ attr d n "incoming" = Some (VList (incoming_of d n)).
Proof.
  intros d n [_ W] H. destruct (W n H) as [[lo Lo] [[li Li] _]].
  rewrite (out_of _ _ _ Lo), (in_of _ _ _ Li). auto.
Qed.
Lemma linked_edge : forall d u v, linked d u v <-> has_edge u v (dgraph d) = true.
Proof.
  intros d u v. unfold linked. rewrite has_edge_true. split; intros [e [H P]]; exists e; split; auto.
  - apply same_pair_connects. exact P.
  - apply same_pair_connects in P. exact P.
Qed.

Lemma remove_total : forall n s t d tb L, books d L -> filter (into n) L = [(s, n)] -> filter (from n) L = [(n, t)] ->
  s <> n -> t <> n -> s <> t -> exists st, csv_remove_node n (d, tb) = (st, Ok (s, t)).
Proof.
  intros n s t d tb L B FI FO Ns Nt Nst.
  assert (I1 : In (s, n) L).
  { assert (X : In (s, n) (filter (into n) L)) by (rewrite FI; left; auto). apply filter_In in X. tauto. }
  assert (I2 : In (n, t) L).
  { assert (X : In (n, t) (filter (from n) L)) by (rewrite FO; left; auto). apply filter_In in X. tauto. }
  destruct (bk_ends _ _ B _ _ I1) as [Hs Hn]. destruct (bk_ends _ _ B _ _ I2) as [_ Ht].
  destruct (wf_lists d n (bk_wf _ _ B) Hn) as [An1 An2]. destruct (wf_lists d s (bk_wf _ _ B) Hs) as [As1 _].
  destruct (wf_lists d t (bk_wf _ _ B) Ht) as [_ At2].
  rewrite (bk_in _ _ B), FI in An2. rewrite (bk_out _ _ B), FO in An1. cbn [map] in An1, An2.
  assert (D1 : dget (gid (s, n)) (seq_flows d) = Some (mkFlow (gid (s, n)) s n)) by (apply (bk_flows _ _ B); eauto).
  assert (D2 : dget (gid (n, t)) (seq_flows d) = Some (mkFlow (gid (n, t)) n t)) by (apply (bk_flows _ _ B); eauto).
  destruct (list_remove_in (gid (s, n)) (outgoing_of d s)) as [lo Lo].
  { rewrite (bk_out _ _ B). apply in_map. apply filter_In. split; auto. apply from_true. auto. }
  destruct (remove_incoming_total n d _ _ _ _ _ An2 D1 As1 Lo) as [d1 E1].
  { apply linked_edge. apply (bk_linked _ _ B). auto. }
  cbn [fl_src] in E1. pose proof E1 as X. apply remove_incoming_inv in X.
  destruct X as [f1 [l1 [r1 [lo0 [lo1 [Y1 [Y2 [Y3 [Y4 [Y5 [A1 [K1 [F1 [G1 M1]]]]]]]]]]]]]].
  rewrite An2 in Y1. injection Y1 as <- <-. clear Y2 Y3 r1.
  destruct (list_remove_in (gid (n, t)) (incoming_of d t)) as [li Li].
  { rewrite (bk_in _ _ B). apply in_map. apply filter_In. split; auto. apply into_true. auto. }
  assert (Nf : gid (n, t) <> gid (s, n)).
  { intros C. unfold gid in C. cbn [fst snd] in C. apply flow_id_inj in C; try (apply B; auto). destruct C. congruence. }
  destruct (remove_outgoing_total n d1 (gid (n, t)) [] (mkFlow (gid (n, t)) n t) (incoming_of d t) li) as [d2 E2]; auto.
  - rewrite A1, (eqb_neq' n s), andb_false_l by auto. exact An1.
  - rewrite F1, dget_ddel, eqb_neq' by auto. exact D2.
  - cbn [fl_tgt]. rewrite A1, andb_false_r. exact At2.
  - cbn [fl_tgt]. apply has_edge_true.
    assert (X : linked d n t) by (apply (bk_linked _ _ B); auto). apply linked_edge, has_edge_true in X.
    destruct X as [e [He P]]. exists e. split; auto. rewrite G1. apply filter_In. split; auto.
    apply negb_true_iff. destruct (connects s n e) eqn:C; auto. apply same_pair_connects in C. apply same_pair_connects in P.
    unfold same_pair in *. intuition congruence.
  - cbn [fl_tgt] in E2. unfold csv_remove_node, mbind, on_diagram. cbn [fst snd]. rewrite E1. cbn [fst snd].
    rewrite E2. cbn [fst snd]. pose proof E2 as X. apply remove_outgoing_inv in X.
    destruct X as [f2 [l2 [r2 [li0 [li1 [_ [_ [_ [_ [_ [_ [K2 _]]]]]]]]]]]].
    assert (Hn2 : has_node (dgraph d2) n = true).
    { apply dhas_true. change (is_node d2 n). unfold is_node. fold (node_keys d2). rewrite K2, K1. exact Hn. }
    unfold ggraph, mtry, remove_node. rewrite Hn2. eexists. reflexivity.
Qed.

(** * The last phase *)
Lemma gateway_total : forall n st L, books (fst st) L -> is_node (fst st) n ->
  (is_gateway (fst st) n -> length (filter (into n) L) < 2 -> length (filter (from n) L) < 2 ->
     exists s t, In (s, n) L /\ In (n, t) L /\ s <> n /\ t <> n /\ s <> t) ->
  exists st', remove_gateway_if_unnecessary n st = (st', Ok tt).
Proof.
  intros n [d tb] L B Hn H. cbn [fst snd] in *. unfold remove_gateway_if_unnecessary. rewrite mbind_read. cbn [fst].
  destruct (removable_type n d) eqn:E; [|eexists; reflexivity].
  apply removable_spec in E.
  destruct (wf_lists d n (bk_wf _ _ B) Hn) as [A1 A2].
  rewrite mbind_read. cbn [fst]. rewrite (flow_count_spec n k_incoming d _ A2).
  destruct (Nat.ltb_spec (length (incoming_of d n)) 2) as [L1|]; [|eexists; reflexivity].
  rewrite mbind_read. cbn [fst]. rewrite (flow_count_spec n k_outgoing d _ A1).
  destruct (Nat.ltb_spec (length (outgoing_of d n)) 2) as [L2|]; [|eexists; reflexivity].
  rewrite (bk_in _ _ B), map_length in L1. rewrite (bk_out _ _ B), map_length in L2.
  destruct (H E L1 L2) as [s [t [H1 [H2 [Ns [Nt Nst]]]]]].
  assert (F1 : filter (into n) L = [(s, n)]).
  { assert (X : In (s, n) (filter (into n) L)) by (apply filter_In; split; auto; apply into_true; auto).
    destruct (filter (into n) L) as [|a [|b u]]; [contradiction| |simpl in L1; lia]. destruct X as [-> |[]]. reflexivity. }
  assert (F2 : filter (from n) L = [(n, t)]).
  { assert (X : In (n, t) (filter (from n) L)) by (apply filter_In; split; auto; apply from_true; auto).
    destruct (filter (from n) L) as [|a [|b u]]; [contradiction| |simpl in L2; lia]. destruct X as [-> |[]]. reflexivity. }
  destruct (remove_total n s t d tb L B F1 F2 Ns Nt Nst) as [[d1 tb1] E1].
  rewrite (mbind_eq _ _ _ _ _ _ _ _ E1). cbn [fst snd].
  apply csv_remove_inv in E1. destruct E1 as [T1 S1]. cbn [fst snd] in *.
  destruct (add_connection_spec s t d1 tb1) as [d2 [E2 _]].
  - eapply spliced_wf; eauto. apply B.
  - apply (spliced_is_node _ _ _ _ _ _ S1). split; auto. apply (bk_ends _ _ B _ _ H1).
  - apply (spliced_is_node _ _ _ _ _ _ S1). split; auto. apply (bk_ends _ _ B _ _ H2).
  - eauto.
Qed.

Lemma thin_total : forall d0 tb L0, books d0 L0 ->
  (forall x y, In (x, y) L0 -> ~ (is_gateway d0 x /\ is_gateway d0 y)) ->
  (forall g, thin d0 L0 g -> exists s t, In (s, g) L0 /\ In (g, t) L0 /\ s <> t) ->
  exists st', remove_unnecessary_merge_gateways (d0, tb) = (st', Ok tt).
Proof.
  intros d0 tb L0 B Alt Deg. unfold remove_unnecessary_merge_gateways. rewrite mbind_read. cbn [fst].
  change (dkeys (gnodes (dgraph d0))) with (node_keys d0).
  assert (G : forall todo done st L, node_keys d0 = done ++ todo -> thinned d0 tb L0 done st L ->
    exists st', mfor todo remove_gateway_if_unnecessary st = (st', Ok tt)).
  { induction todo as [|n todo IH]; intros done st L E T; [eexists; reflexivity|].
    assert (Nd : ~ In n done).
    { assert (N : NoDup (node_keys d0)) by (apply B). rewrite E in N. apply NoDup_remove_2 in N.
      intros C. apply N, in_app_iff. auto. }
    assert (Hn : is_node d0 n) by (unfold is_node; fold (node_keys d0); rewrite E; apply in_app_iff; right; left; auto).
    assert (Nn : is_node (fst st) n) by (apply (th_nodes _ _ _ _ _ _ T); tauto).
    destruct (gateway_total n st L (th_books _ _ _ _ _ _ T) Nn) as [st1 E1].
    - intros Gw Li Lo. assert (G0 : is_gateway d0 n).
      { unfold is_gateway in *. rewrite <- (th_attr _ _ _ _ _ _ T) by (auto; discriminate). exact Gw. }
      rewrite (th_into _ _ _ _ _ _ T) in Li by tauto. rewrite (th_from _ _ _ _ _ _ T) in Lo by tauto.
      destruct (Deg n (conj G0 (conj Li Lo))) as [s [t [Hs [Ht Ne]]]]. exists s, t.
      assert (X1 : In (s, n) (filter (into n) L)).
      { rewrite (th_into _ _ _ _ _ _ T) by tauto. apply filter_In. split; auto. apply into_true. auto. }
      assert (X2 : In (n, t) (filter (from n) L)).
      { rewrite (th_from _ _ _ _ _ _ T) by tauto. apply filter_In. split; auto. apply from_true. auto. }
      apply filter_In in X1. apply filter_In in X2. split; [tauto|]. split; [tauto|].
      split; [|split].
      + intros ->. apply (Alt n n Hs). auto.
      + intros ->. apply (Alt n n Ht). auto.
      + exact Ne.
    - cbn [mfor]. rewrite (mbind_eq _ _ _ _ _ _ _ _ E1).
      destruct (thin_step d0 tb L0 done st L n st1 Alt T Nd Hn E1) as [L1 [T1 _]].
      apply (IH (done ++ [n]) st1 L1); auto. rewrite <- app_assoc. exact E. }
  eapply (G (node_keys d0) [] (d0, tb) L0); auto. apply thinned_start; auto.
Qed.

(** * The whole table *)
Definition first_bad (rows : dict row) (todo : list string) (msg : string) : Prop :=
  exists pre o post, todo = pre ++ o :: post /\ (forall x, In x pre -> row_fine rows x) /\ ~ row_fine rows o /\
    ((forall m, ~ closes rows o m) -> msg = ("Something wrong in csv file syntax - look for " ++ o)%string).

Lemma fill_outcome : forall rows base todo done d L, good_rows rows -> orders rows = done ++ todo ->
  filled rows base done d L ->
  (exists d' L', mfor todo (connect_node (orders rows)) (d, rows) = ((d', rows), Ok tt) /\
     filled rows base (orders rows) d' L' /\ forall o, In o todo -> row_fine rows o) \/
  (exists st msg, mfor todo (connect_node (orders rows)) (d, rows) = (st, Err (BpmnPythonError msg)) /\
     first_bad rows todo msg).
Proof.
  intros rows base. induction todo as [|n todo IH]; intros done d L G E F.
  - left. exists d, L. rewrite app_nil_r in E. rewrite E. split; [reflexivity|]. split; auto. intros o [].
  - assert (Nn : In n (orders rows)) by (rewrite E; apply in_app_iff; right; left; auto).
    assert (Nd : ~ In n done).
    { pose proof (proj1 G) as N. rewrite E in N. apply NoDup_remove_2 in N. intros C. apply N, in_app_iff. auto. }
    destruct (connect_total rows base done d L n G F Nn Nd) as [[Fi [d1 E1]]|[Nf [st [msg [E1 M]]]]].
    + destruct (fill_step rows base done d L n (d1, rows) G F Nn Nd E1) as [_ [L1 F1]]. cbn [fst] in F1.
      cbn [mfor]. rewrite (mbind_eq _ _ _ _ _ _ _ _ E1).
      destruct (IH (done ++ [n]) d1 L1 G) as [[d2 [L2 [A [B C]]]]|[st [msg [A [pre [o [post [P1 [P2 P3]]]]]]]]]; auto.
      * rewrite <- app_assoc. exact E.
      * left. exists d2, L2. split; auto. split; auto. intros o [<- |Ho]; auto.
      * right. exists st, msg. split; auto. exists (n :: pre), o, post. split; [simpl; f_equal; auto|].
        split; auto. intros x [<- |Hx]; auto.
    + right. exists st, msg. cbn [mfor]. rewrite (mbind_err _ _ _ _ _ _ _ _ E1). split; auto.
      exists [], n, todo. split; auto. split; auto. intros x [].
Qed.

Lemma branch_longer : forall rows o b, branch rows o b -> b <> o.
Proof.
  intros rows o b [p [n [N [B _]]]] ->. destruct N as [[Nn N] [S _]].
  apply branch_of_spec in B. destruct B as [c [k [tl [Lc [_ B]]]]].
  assert (X : forall z, o = (p ++ n ++ z)%string -> is_in c (n ++ z)%string).
  { intros z Hz. rewrite Hz in B. unfold next in B. rewrite !sapp_assoc in B. apply sapp_inv_head in B. rewrite B.
    apply in_app_str. left. reflexivity. }
  assert (Bc : branch_char c) by (apply is_letter_spec; exact Lc).
  assert (Y : is_in c n -> False).
  { intros C. apply N in C. destruct Bc as [Bc| ->]; [eapply latin_digit; eauto|].
    unfold digit, is_in in C. vm_compute in C. intuition discriminate. }
  destruct S as [S|S].
  - specialize (X ""). rewrite sapp_nil in X. auto.
  - specialize (X line_feed S). apply in_app_str_inv in X. destruct X as [X|X]; auto.
    unfold is_in in X. vm_compute in X. destruct X as [X|[]]. subst c. destruct Bc as [Bc|Bc]; [|discriminate].
    unfold latin, is_in in Bc. vm_compute in Bc. intuition discriminate.
Qed.

Theorem load_outcome : forall table d,
  let rows := remove_white_spaces_in_orders table in
  blank d -> good_rows rows ->
  ((forall o, In o (orders rows) -> row_fine rows o) /\
   ((forall o r, In (o, r) rows -> is_goto r = false) -> exists d', load_diagram_from_csv table d = (d', Ok tt))) \/
  (exists d' msg, load_diagram_from_csv table d = (d', Err (BpmnPythonError msg)) /\ first_bad rows (orders rows) msg).
Proof.
  intros table d rows Bl G.
  destruct (populate_eq (d, rows)) as [d0 [P0 [Gd [Fd _]]]]. cbn [fst snd] in *.
  assert (Bl0 : blank d0) by (destruct Bl; split; congruence).
  destruct (rows_imported rows d0 Bl0 (proj1 G)) as [d1 [P1 [R M1]]].
  { intros o Ho. eapply good_plain; eauto. }
  unfold load_diagram_from_csv, import_table. fold rows.
  rewrite (mbind_eq _ _ _ _ _ _ _ _ P0), (mbind_eq _ _ _ _ _ _ _ _ P1).
  assert (FE : fill_graph_connections (d1, rows) = mfor (orders rows) (connect_node (orders rows)) (d1, rows)).
  { unfold fill_graph_connections. rewrite mbind_read. cbn [fst]. change (dkeys (gnodes (dgraph d1))) with (node_keys d1).
    rewrite (ri_keys _ _ R). reflexivity. }
  destruct (fill_outcome rows d1 (orders rows) [] d1 [] G eq_refl (filled_start _ _ R))
    as [[d2 [L [E2 [F Fine]]]]|[st [msg [E2 FB]]]]; rewrite <- FE in E2.
  2: { right. rewrite (mbind_err _ _ _ _ _ _ _ _ E2). exists (fst st), msg. auto. }
  left. split; [exact Fine|]. intros NG. rewrite (mbind_eq _ _ _ _ _ _ _ _ E2).
  pose proof (fi_books _ _ _ _ _ F) as B2.
  destruct (legacy_total d2 (bk_wf _ _ B2)) as [d3 E3].
  assert (E3' : on_diagram legacy_adjustment (d2, rows) = ((d3, rows), Ok tt)).
  { unfold on_diagram. cbn [fst snd]. rewrite E3. reflexivity. }
  rewrite (mbind_eq _ _ _ _ _ _ _ _ E3').
  destruct (legacy_inv _ _ (bk_wf _ _ B2) E3) as [W3 [A3 [K3 [Ed3 R3]]]].
  assert (B3 : books d3 L).
  { destruct R3 as [R3 _]. eapply books_frame; eauto. intros m k [-> | ->]; apply A3; discriminate. }
  assert (E4 : remove_goto_nodes (d3, rows) = ((d3, rows), Ok tt)).
  { unfold remove_goto_nodes. rewrite mbind_read. cbn [snd]. clear - NG. induction rows as [|[o r] rows IH]; [reflexivity|].
    assert (X : forall l st, (forall o r, In (o, r) l -> is_goto r = false) ->
      mfor l (fun p => if is_goto (snd p) then
        do s <- csv_remove_node (fst p) ;; do t <- mread (fun _ => goto_target (snd p)) ;; add_connection (fst s) t
        else mret tt) st = (st, Ok tt)).
    { clear. induction l as [|[o r] l IH]; intros st N; [reflexivity|]. cbn [mfor fst snd]. rewrite (N o r) by (left; auto).
      unfold mbind. cbn. apply IH. intros a b Hb. apply (N a b). right; auto. }
    apply X. exact NG. }
  rewrite (mbind_eq _ _ _ _ _ _ _ _ E4).
  assert (GW : forall g, is_gateway d3 g <-> gateway_of rows g).
  { intros g. rewrite <- (filled_gateways _ _ _ _ G R F). unfold is_gateway. rewrite A3 by discriminate. tauto. }
  assert (FL : forall s t, In (s, t) L <-> raw_flow rows s t).
  { intros s t. rewrite (fi_flows _ _ _ _ _ F). apply raw_by_all. }
  destruct (thin_total d3 rows L B3) as [st' E5].
  - intros x y Hxy [C1 C2]. apply FL in Hxy. apply GW in C1. apply GW in C2. eapply raw_alternates; eauto.
  - assert (Deg : forall g, gateway_of rows g -> (exists s, In (s, g) L) /\ (exists t, In (g, t) L)).
    { intros g [[o [S ->]]|[o [m [M ->]]]].
    + split; [exists o; apply FL; apply rf_split; auto|].
      destruct (opens_branch rows o) as [b Hb]; [apply S|]. exists b. apply FL. apply rf_branch; auto.
    + split; [exists o; apply FL; apply rf_join; auto|]. exists m. apply FL. eapply rf_after; eauto. }
    intros g [Hg _]. apply GW in Hg. destruct (Deg g Hg) as [[s Hs] [t Ht]]. exists s, t. split; auto. split; auto.
    intros <-. apply FL in Hs. apply FL in Ht.
    assert (Rs : In s (orders rows)).
    { destruct (proj1 (fi_nodes _ _ _ _ _ F s)) as [X|X]; auto.
      - apply (bk_ends _ _ B2 s g). apply FL. auto.
      - exfalso. apply (raw_alternates rows s g G Hs); auto. unfold gateway_of.
        destruct X as [[o [_ X]]|[o [m [_ X]]]]; [left|right]; eauto. }
    pose proof (good_plain _ _ G Rs) as Ps.
    rewrite <- raw_by_all in Hs, Ht. apply row_source in Hs; auto. destruct Hs as [_ Hs].
    destruct Hg as [[o [S ->]]|[o [m [M ->]]]].
    + apply split_source in Ht; auto. destruct Ht as [_ [_ Ht]].
      destruct Hs as [[_ [p [n [_ [_ X]]]]]|[[X1 X2]|[m [_ X]]]].
      * apply (split_not_plain o). eapply good_plain; eauto.
      * apply split_inj in X2. subst. eapply branch_longer; eauto.
      * eapply split_join; eauto.
    + apply join_source in Ht; auto. destruct Ht as [-> _].
      destruct Hs as [[_ [p [n [_ [_ X]]]]]|[[X1 X2]|[m' [X1 X2]]]].
      * apply (join_not_plain m). eapply good_plain; eauto.
      * symmetry in X2. eapply split_join; eauto.
      * apply join_inj in X2. subst m'. destruct X1 as [_ [_ [_ X1]]].
        pose proof (closes_number _ _ _ X1) as X2. destruct X1 as [l [k [q [c [X1 _]]]]].
        eapply branch_not_number; eauto.
  - rewrite E5. cbn [fst snd]. eauto.
Qed.

Lemma lower_letter : forall c x y, In (x, y) [("g"%char, "G"%char); ("o"%char, "O"%char); ("t"%char, "T"%char)] ->
  (lower_ascii c = x <-> In c [x; y]).
Proof.
  intros c x y H. split.
  - intros E. assert (X : forallb (fun k => negb (Ascii.eqb (lower_ascii (ascii_of_nat k)) x) ||
       Ascii.eqb (ascii_of_nat k) x || Ascii.eqb (ascii_of_nat k) y) (seq 0 256) = true).
    { destruct H as [H|[H|[H|[]]]]; inv H; vm_compute; reflexivity. }
    rewrite forallb_forall in X. specialize (X (nat_of_ascii c)). rewrite ascii_nat_embedding in X.
    pose proof (nat_ascii_bounded c). assert (Y : In (nat_of_ascii c) (seq 0 256)) by (apply in_seq; lia).
    specialize (X Y). rewrite !orb_true_iff, negb_true_iff, !Ascii.eqb_eq in X.
    destruct X as [[X|X]|X]; simpl; auto. rewrite E, Ascii.eqb_refl in X. discriminate.
  - intros E. destruct H as [H|[H|[H|[]]]]; inv H; destruct E as [<- |[<- |[]]]; reflexivity.
Qed.
Lemma is_goto_spec : forall r, is_goto r = true <-> goto_row r.
Proof.
  intros r. unfold is_goto, goto_row. destruct (r_activity r) as [|c1 [|c2 [|c3 [|c4 s]]]]; cbn [lower].
  1-4: split; [intros H; cbn [prefix] in H|intros [x1 [x2 [x3 [x4 [q [H _]]]]]]; discriminate].
  1-4: repeat (destruct (ascii_dec _ _) in H); discriminate.
  split.
  - intros H. cbn [prefix] in H. exists c1, c2, c3, c4, s. split; auto.
    destruct (ascii_dec "g" (lower_ascii c1)) as [E1|]; [|discriminate].
    destruct (ascii_dec "o" (lower_ascii c2)) as [E2|]; [|discriminate].
    destruct (ascii_dec "t" (lower_ascii c3)) as [E3|]; [|discriminate].
    destruct (ascii_dec "o" (lower_ascii c4)) as [E4|]; [|discriminate].
    repeat split; eapply lower_letter; auto; simpl; auto.
  - intros [x1 [x2 [x3 [x4 [q [H [A [B [C D]]]]]]]]]. inv H.
    apply lower_letter in A; [|simpl; auto]. apply lower_letter in B; [|simpl; auto].
    apply lower_letter in C; [|simpl; auto]. apply lower_letter in D; [|simpl; auto].
    rewrite A, B, C, D. simpl. destruct (lower q); reflexivity.
Qed.
