(** CSV import: tables with goto rows (C86).
    Each theorem is followed by a concrete case of its hypotheses. *)
From Coq Require Import String Ascii List Bool Arith ZArith Lia Permutation.
From Verif Require Import Py PyFacts Consts Nx NxFacts Rep SpecRep RepFacts.
From Verif Require Import CsvRegex CsvImport SpecCsv RegexFacts CsvFacts CsvTable SpecFlow SpecGoto CsvGhost CsvFill CsvLast CsvTotal.
From Verif Require Import GotoFacts CsvGoto CsvJump Prop_CsvRows Prop_CsvImport.
Import ListNotations.
Open Scope string_scope.
Open Scope list_scope.

Lemma table_rerouted : forall table d d', fresh d -> documented table -> neat_jumps (rows_of table) ->
  load_diagram_from_csv table d = (d', Ok tt) -> exists L, rerouted (rows_of table) d d' L.
Proof.
  intros table d d' F [N D] NJ H. pose proof (goto_import table d d' F) as X.
  rewrite (rows_cleaned table N) in X. apply X; auto. split; auto.
Qed.

(** * Checkers for the examples *)
(** The flows of the rows, as the importer makes them. *)
Definition made (rows : dict row) : cstate * res unit :=
  mbind populate_dicts (fun _ => mbind import_nodes_info (fun _ => fill_graph_connections)) (empty_diagram, rows).
Definition made_flows (rows : dict row) : flows_of :=
  map (fun p => (fl_src (snd p), fl_tgt (snd p))) (seq_flows (fst (fst (made rows)))).
Lemma made_ok : forall rows, good_rows rows -> snd (made rows) = Ok tt ->
  forall s t, raw_flow rows s t <-> In (s, t) (made_flows rows).
Proof.
  intros rows G H. unfold made_flows.
  destruct (made rows) as [st r] eqn:E. cbn [fst snd] in *. subst r. unfold made in E.
  apply mbind_ok in E. destruct E as [s0 [[] [E0 E]]]. apply mbind_ok in E. destruct E as [s1 [[] [E1 E2]]].
  destruct (populate_eq (empty_diagram, rows)) as [d0 [Q [Gd [Fd _]]]]. cbn [fst snd] in *. rewrite E0 in Q. inv Q.
  assert (Bl : blank d0) by (split; [rewrite Gd|rewrite Fd]; reflexivity).
  destruct (rows_imported rows d0 Bl (proj1 G)) as [d1 [Q1 [R M1]]].
  { intros o Ho. eapply good_plain; eauto. }
  rewrite E1 in Q1. inv Q1.
  destruct (fill_all rows d1 st G R E2) as [T2 [L F]]. pose proof (fi_books _ _ _ _ _ F) as B.
  intros s t. rewrite <- raw_by_all, <- (fi_flows _ _ _ _ _ F). split.
  - intros X. apply in_map_iff. exists (get_flow_id s t, mkFlow (get_flow_id s t) s t). split; auto.
    apply dget_In. apply (bk_flows _ _ B). eauto.
  - intros X. apply in_map_iff in X. destruct X as [[f q] [X1 X2]]. cbn [snd] in X1. inv X1.
    apply (In_dget _ _ _ (bk_keys _ _ B)) in X2. apply (bk_flows _ _ B) in X2. destruct X2 as [a [b [X2 [-> ->]]]]. exact X2.
Qed.

Definition goto_b (rows : dict row) (o : string) : bool :=
  existsb (fun p => String.eqb (fst p) o && is_goto (snd p)) rows.
Lemma goto_b_ok : forall rows o, goto_b rows o = true <-> goto_order rows o.
Proof.
  intros rows o. unfold goto_b, goto_order. rewrite existsb_exists. split.
  - intros [[x r] [H E]]. apply andb_true_iff in E. cbn [fst snd] in E. destruct E as [E1 E2].
    apply String.eqb_eq in E1. subst. exists r. split; auto. apply is_goto_spec. auto.
  - intros [r [H G]]. exists (o, r). split; auto. cbn [fst snd]. rewrite String.eqb_refl. apply is_goto_spec. auto.
Qed.
Definition pair_b (p : string * string) (l : flows_of) : bool :=
  existsb (fun q => String.eqb (fst p) (fst q) && String.eqb (snd p) (snd q)) l.
Lemma pair_b_ok : forall p l, pair_b p l = true <-> In p l.
Proof.
  intros [a b] l. unfold pair_b. rewrite existsb_exists. cbn [fst snd]. split.
  - intros [[x y] [H E]]. apply andb_true_iff in E. rewrite !String.eqb_eq in E. destruct E. cbn [fst snd] in *. subst. auto.
  - intros H. exists (a, b). split; auto. cbn [fst snd]. rewrite !String.eqb_refl. auto.
Qed.

Definition jumps (rows : dict row) : list (string * (string * string)) :=
  flat_map (fun p => if is_goto (snd p)
                     then match goto_target (snd p) with
                          | Ok t => map (fun q => (fst p, (fst q, t))) (filter (into (fst p)) (made_flows rows))
                          | Err _ => []
                          end
                     else []) rows.
Lemma jumps_ok : forall rows, good_rows rows -> snd (made rows) = Ok tt ->
  forall o x t, redirects rows o x t <-> In (o, (x, t)) (jumps rows).
Proof.
  intros rows G M o x t. unfold jumps, redirects. rewrite in_flat_map. split.
  - intros [r [H1 [H2 [H3 H4]]]]. exists (o, r). split; auto. cbn [fst snd]. rewrite (proj2 (is_goto_spec r) H2).
    rewrite (proj2 (goto_target_spec r t H2) H4). apply in_map_iff. exists (x, o). split; auto.
    apply filter_In. split; [apply made_ok; auto|]. apply into_true. auto.
  - intros [[o' r] [H1 H2]]. cbn [fst snd] in H2. destruct (is_goto r) eqn:E; [|destruct H2]. apply is_goto_spec in E.
    destruct (goto_target r) as [t'|] eqn:Et; [|destruct H2]. apply (goto_target_spec r _ E) in Et.
    apply in_map_iff in H2. destruct H2 as [[a b] [X Y]]. cbn [fst] in X. inv X. apply filter_In in Y. destruct Y as [Y1 Y2].
    apply into_true in Y2. cbn [snd] in Y2. subst b. exists r. split; auto. split; auto. split; auto. apply made_ok; auto.
Qed.

Definition neat_b (rows : dict row) : bool :=
  let R := made_flows rows in
  let J := jumps rows in
  match snd (made rows) with Ok _ => true | Err _ => false end &&
  forallb (fun p => negb (is_goto (snd p)) ||
    match goto_target (snd p) with
    | Ok t => existsb (String.eqb t) (orders rows) && negb (goto_b rows t)
    | Err _ => true
    end) rows &&
  forallb (fun p => forallb (fun q => negb (String.eqb (snd p) (snd q)) || negb (goto_b rows (snd p)) ||
    String.eqb (fst p) (fst q)) R) R &&
  forallb (fun p => negb (goto_b rows (fst p)) || negb (goto_b rows (snd p))) R &&
  forallb (fun j => negb (pair_b (snd j) R)) J &&
  forallb (fun j => forallb (fun k => negb (pair_b (snd j) [snd k]) || String.eqb (fst j) (fst k)) J) J.
Lemma neat_b_ok : forall rows, good_rows rows -> neat_b rows = true -> neat_jumps rows.
Proof.
  intros rows G H. unfold neat_b in H. rewrite !andb_true_iff in H. destruct H as [[[[[M H1] H2] H3] H4] H5].
  assert (M' : snd (made rows) = Ok tt) by (destruct (snd (made rows)) as [[]|]; [reflexivity|discriminate]). clear M.
  pose proof (made_ok rows G M') as FL. pose proof (jumps_ok rows G M') as JL.
  rewrite forallb_forall in H1, H2, H3, H4, H5. constructor.
  - intros o r t Hr Gr Ht. specialize (H1 _ Hr). cbn [snd] in H1. rewrite (proj2 (is_goto_spec r) Gr) in H1.
    rewrite (proj2 (goto_target_spec r t Gr) Ht) in H1. cbn [negb orb] in H1. apply andb_true_iff in H1. destruct H1 as [A B].
    split.
    + apply existsb_exists in A. destruct A as [x [A E]]. apply String.eqb_eq in E. subst. auto.
    + apply negb_true_iff in B. intros C. apply goto_b_ok in C. congruence.
  - intros o x y Go A B. apply FL in A. apply FL in B. specialize (H2 _ A). rewrite forallb_forall in H2. specialize (H2 _ B).
    cbn [fst snd] in H2. rewrite String.eqb_refl in H2. apply goto_b_ok in Go. rewrite Go in H2. cbn [negb orb] in H2.
    apply String.eqb_eq. exact H2.
  - intros x o A Gx Go. apply FL in A. specialize (H3 _ A). cbn [fst snd] in H3. apply goto_b_ok in Gx. apply goto_b_ok in Go.
    rewrite Gx, Go in H3. discriminate.
  - intros o x t A B. apply JL in A. apply FL in B. specialize (H4 _ A). cbn [snd] in H4. apply pair_b_ok in B. rewrite B in H4.
    discriminate.
  - intros o o' x t A B. apply JL in A. apply JL in B. specialize (H5 _ A). rewrite forallb_forall in H5. specialize (H5 _ B).
    cbn [fst snd] in H5. rewrite (proj2 (pair_b_ok (x, t) [(x, t)])) in H5 by (left; auto). apply String.eqb_eq. exact H5.
Qed.

(** The ways and the steps. *)
Definition ways (rows : dict row) : flows_of :=
  filter (fun p => negb (goto_b rows (fst p)) && negb (goto_b rows (snd p))) (made_flows rows) ++ map snd (jumps rows).
Lemma ways_ok : forall rows, good_rows rows -> snd (made rows) = Ok tt ->
  forall s t, way rows s t <-> In (s, t) (ways rows).
Proof.
  intros rows G M s t. unfold way, ways. rewrite in_app_iff, filter_In, andb_true_iff, !negb_true_iff. cbn [fst snd].
  assert (X : forall o, goto_b rows o = false <-> ~ goto_order rows o).
  { intros o. rewrite <- goto_b_ok. destruct (goto_b rows o); split; congruence. }
  rewrite !X, <- (made_ok rows G M). split; (intros [H|H]; [left; tauto|right]).
  - destruct H as [o H]. apply in_map_iff. exists (o, (s, t)). split; auto. apply jumps_ok; auto.
  - apply in_map_iff in H. destruct H as [[o p] [E H]]. cbn [snd] in E. subst p. exists o. apply jumps_ok; auto.
Qed.
(** Pairs in which an end could be a gateway that is left out. *)
Definition steps_over (rows : dict row) : flows_of :=
  let W := ways rows in
  W ++ flat_map (fun p =>
         if Nat.ltb (length (nodup string_dec (map fst (filter (into (snd p)) W)))) 2 &&
            Nat.ltb (length (nodup string_dec (map snd (filter (from (snd p)) W)))) 2 &&
            negb (existsb (String.eqb (snd p)) (orders rows))
         then map (fun q => (fst p, snd q)) (filter (from (snd p)) W) else []) W.
Definition one_way_b (rows : dict row) : bool :=
  match snd (made rows) with Ok _ => true | Err _ => false end &&
  forallb (fun p => negb (pair_b (snd p, fst p) (steps_over rows))) (steps_over rows).
Lemma one_way_b_ok : forall rows, good_rows rows -> one_way_b rows = true -> one_way rows.
Proof.
  intros rows G H. unfold one_way_b in H. apply andb_true_iff in H. destruct H as [M H].
  assert (M' : snd (made rows) = Ok tt) by (destruct (snd (made rows)) as [[]|]; [reflexivity|discriminate]). clear M.
  pose proof (ways_ok rows G M') as WL. rewrite forallb_forall in H.
  assert (short : forall l : list string, (forall x y, In x l -> In y l -> x = y) -> Nat.ltb (length (nodup string_dec l)) 2 = true).
  { intros l U. apply Nat.ltb_lt. pose proof (NoDup_nodup string_dec l) as N.
    assert (U' : forall x y, In x (nodup string_dec l) -> In y (nodup string_dec l) -> x = y).
    { intros x y A B. apply nodup_In in A. apply nodup_In in B. auto. }
    destruct (nodup string_dec l) as [|a [|b v]]; simpl; try lia. exfalso. inversion N as [|? ? Q _]; subst.
    apply Q. left. symmetry. apply U'; simpl; auto. }
  assert (S : forall s t, step_to rows s t -> In (s, t) (steps_over rows)).
  { intros s t [Q|[g [[Pg [P1 P2]] [Q1 Q2]]]]; unfold steps_over; apply in_app_iff; [left; apply WL; auto|]. right.
    apply in_flat_map. exists (s, g). split; [apply WL; auto|]. cbn [fst snd].
    rewrite !short.
    - destruct (existsb (String.eqb g) (orders rows)) eqn:E.
      + exfalso. apply existsb_exists in E. destruct E as [x [E1 E2]]. apply String.eqb_eq in E2. subst x.
        eapply gateway_not_row; eauto.
      + cbn [andb negb]. apply in_map_iff. exists (g, t). split; auto. apply filter_In. split; [apply WL; auto|].
        apply from_true. auto.
    - intros x y A B. apply in_map_iff in A. destruct A as [[a1 a2] [<- A]]. apply in_map_iff in B. destruct B as [[b1 b2] [<- B]].
      apply filter_In in A. apply filter_In in B. destruct A as [A A'], B as [B B']. apply from_true in A'. apply from_true in B'.
      cbn [fst snd] in *. subst. apply P2; apply WL; auto.
    - intros x y A B. apply in_map_iff in A. destruct A as [[a1 a2] [<- A]]. apply in_map_iff in B. destruct B as [[b1 b2] [<- B]].
      apply filter_In in A. apply filter_In in B. destruct A as [A A'], B as [B B']. apply into_true in A'. apply into_true in B'.
      cbn [fst snd] in *. subst. apply P1; apply WL; auto. }
  intros s t A B. apply S in A. apply S in B. specialize (H _ A). cbn [fst snd] in H. apply pair_b_ok in B. rewrite B in H. discriminate.
Qed.

(** * C86 *)
(** The nodes are the rows but the goto rows, and the gateways that are needed; the flows
    lead past the goto rows to the rows they name; the lists of flows agree. *)
Theorem C86_nodes_and_flows : forall table d d', fresh d -> documented table ->
  let rows := rows_of table in
  neat_jumps rows -> load_diagram_from_csv table d = (d', Ok tt) ->
  (forall n, is_node d' n <-> goto_node rows n) /\
  (forall s t, flow_between d' s t <-> goto_flow rows s t) /\
  (forall s t, linked d' s t <-> goto_flow rows s t \/ goto_flow rows t s) /\
  (forall n f, In f (outgoing_of d' n) <-> exists t, dget f (seq_flows d') = Some (mkFlow f n t)) /\
  (forall n f, In f (incoming_of d' n) <-> exists s, dget f (seq_flows d') = Some (mkFlow f s n)) /\
  (forall n, NoDup (outgoing_of d' n) /\ NoDup (incoming_of d' n)).
Proof.
  intros table d d' F D rows NJ H. destruct (table_rerouted _ _ _ F D NJ H) as [L I]. fold rows in I.
  pose proof (re_books _ _ _ _ I) as B.
  assert (Inj : forall p q, In p L -> In q L -> gid p = gid q -> p = q).
  { intros [p1 p2] [q1 q2] Hp Hq E. unfold gid in E. cbn [fst snd] in E.
    destruct (bk_ends _ _ B _ _ Hp) as [P1 _], (bk_ends _ _ B _ _ Hq) as [P2 _].
    apply flow_id_inj in E; try (apply B; auto). destruct E as [-> ->]. reflexivity. }
  split; [apply I|]. split; [|split; [|split; [|split]]].
  - intros s t. rewrite <- (re_flows _ _ _ _ I). split.
    + intros [f Hf]. apply (bk_flows _ _ B) in Hf. destruct Hf as [a [b [Hab [_ E]]]]. inv E. auto.
    + intros Q. exists (get_flow_id s t). apply (bk_flows _ _ B). eauto.
  - intros s t. rewrite <- !(re_flows _ _ _ _ I). apply B.
  - intros n f. rewrite (bk_out _ _ B), in_map_iff. split.
    + intros [[s t] [<- Hf]]. apply filter_In in Hf. destruct Hf as [Hf E]. apply from_true in E. cbn [fst] in E. subst s.
      exists t. apply (bk_flows _ _ B). eauto.
    + intros [t Hf]. apply (bk_flows _ _ B) in Hf. destruct Hf as [a [b [Hab [Ef E]]]]. inv E. exists (a, b). split; auto.
      apply filter_In. split; auto. apply from_true. auto.
  - intros n f. rewrite (bk_in _ _ B), in_map_iff. split.
    + intros [[s t] [<- Hf]]. apply filter_In in Hf. destruct Hf as [Hf E]. apply into_true in E. cbn [snd] in E. subst t.
      exists s. apply (bk_flows _ _ B). eauto.
    + intros [s Hf]. apply (bk_flows _ _ B) in Hf. destruct Hf as [a [b [Hab [Ef E]]]]. inv E. exists (a, b). split; auto.
      apply filter_In. split; auto. apply into_true. auto.
  - intros n. rewrite (bk_out _ _ B), (bk_in _ _ B). pose proof (re_nodup _ _ _ _ I) as N.
    assert (X : forall g, NoDup (map gid (filter g L))).
    { intros g. assert (Y : forall l, NoDup l -> (forall p, In p l -> In p L) -> NoDup (map gid l)).
      { induction l as [|p l IH]; intros Nl Q; [constructor|]. inversion Nl; subst. cbn [map]. constructor.
        - intros C. apply in_map_iff in C. destruct C as [q [C1 C2]]. assert (q = p) by (apply Inj; auto; apply Q; simpl; auto).
          subst. contradiction.
        - apply IH; auto. intros q Hq. apply Q. right. auto. }
      apply Y; [apply NoDup_filter; auto|]. intros p Hp. apply filter_In in Hp. tauto. }
    split; apply X.
Qed.

(** A review that sends the text back. *)
Definition review : list (order_label * row) :=
  [rw "0" "begin" ""; rw "1" "write" ""; rw "2" "review" "";
   (OStr "3a1", mkRow "GoTo 1" "no" "" "" ""); (OStr "3b1", mkRow "publish" "yes" "" "" ""); rw "4" "end" "yes"].
Definition review_diagram : diagram := fst (load_diagram_from_csv review empty_diagram).
Lemma review_documented : documented review.
Proof. apply check_documented; vm_compute; reflexivity. Qed.
Lemma review_neat : neat_jumps (rows_of review) /\ one_way (rows_of review).
Proof.
  split; [apply neat_b_ok|apply one_way_b_ok]; try exact review_documented; vm_compute; reflexivity.
Qed.
Example C86_nodes_and_flows_example : documented review /\ neat_jumps (rows_of review) /\ fresh empty_diagram /\
  load_diagram_from_csv review empty_diagram = (review_diagram, Ok tt) /\
  node_keys review_diagram = ["0"; "1"; "2"; "3b1"; "4"; "2_split"] /\
  map (fun p => (fl_src (snd p), fl_tgt (snd p))) (seq_flows review_diagram) =
    [("0", "1"); ("1", "2"); ("2", "2_split"); ("2_split", "3b1"); ("2_split", "1"); ("3b1", "4")].
Proof.
  split; [exact review_documented|]. split; [apply review_neat|]. split; [split; reflexivity|].
  split; [vm_compute; reflexivity|]. split; vm_compute; reflexivity.
Qed.

(** The other rows become the same elements as in a table without goto rows. *)
Theorem C86_row_elements : forall table d d', fresh d -> documented table -> neat_jumps (rows_of table) ->
  load_diagram_from_csv table d = (d', Ok tt) ->
  forall o r, In (o, r) (rows_of table) -> ~ goto_row r ->
  (o = "0" -> attr d' o "type" = Some (VStr "startEvent")) /\
  (o <> "0" -> r_terminated r = "yes" -> attr d' o "type" = Some (VStr "endEvent")) /\
  (o <> "0" -> r_terminated r <> "yes" -> r_subprocess r = "yes" -> attr d' o "type" = Some (VStr "subProcess")) /\
  (o <> "0" -> r_terminated r <> "yes" -> r_subprocess r <> "yes" -> attr d' o "type" = Some (VStr "task")) /\
  (attr d' o "type" <> Some (VStr "endEvent") -> attr d' o "node_name" = Some (VStr (r_activity r))) /\
  (attr d' o "type" = Some (VStr "endEvent") -> attr d' o "node_name" = Some (VStr "")).
Proof.
  intros table d d' F D NJ H o r Hr Ng. destruct (table_rerouted _ _ _ F D NJ H) as [L I].
  rewrite (re_type _ _ _ _ I o r Hr Ng), (re_name _ _ _ _ I o r Hr Ng). unfold row_name, row_type.
  split; [intros ->; reflexivity|].
  assert (X : forall a b : string, a <> b -> String.eqb a b = false) by (intros; apply String.eqb_neq; auto).
  split; [intros A ->; rewrite (X _ _ A); reflexivity|].
  split; [intros A B ->; rewrite (X _ _ A), (X _ _ B); reflexivity|].
  split; [intros A B C; rewrite (X _ _ A), (X _ _ B), (X _ _ C); reflexivity|].
  destruct (String.eqb o "0"); [|destruct (String.eqb (r_terminated r) "yes"); [|destruct (String.eqb (r_subprocess r) "yes")]].
  all: split; intros Y; try reflexivity; try discriminate. exfalso. apply Y. reflexivity.
Qed.
Example C86_row_elements_example :
  map (fun o => (attr review_diagram o "type", attr review_diagram o "node_name")) ["0"; "2"; "3b1"; "4"] =
  [(Some (VStr "startEvent"), Some (VStr "begin")); (Some (VStr "task"), Some (VStr "review"));
   (Some (VStr "task"), Some (VStr "publish")); (Some (VStr "endEvent"), Some (VStr ""))].
Proof. vm_compute. reflexivity. Qed.

(** Unless two flows go back and forth, every flow has its own edge, labelled with the
    condition of the row the flow leads to; no other edges are there. *)
Theorem C86_edges : forall table d d', fresh d -> documented table -> neat_jumps (rows_of table) ->
  one_way (rows_of table) -> load_diagram_from_csv table d = (d', Ok tt) ->
  (forall f s t, dget f (seq_flows d') = Some (mkFlow f s t) ->
   exists e, In e (gedges (dgraph d')) /\ eu e = s /\ ev e = t /\
    dget "id" (eat e) = Some (VStr f) /\ dget "sourceRef" (eat e) = Some (VStr s) /\
    dget "targetRef" (eat e) = Some (VStr t) /\
    (forall r, In (t, r) (rows_of table) -> r_condition r <> "" ->
       dget "conditionExpression" (eat e) = Some (VCond (f ++ "_cond") (r_condition r))) /\
    ((forall r, In (t, r) (rows_of table) -> r_condition r = "") -> dget "conditionExpression" (eat e) = None)) /\
  (forall e, In e (gedges (dgraph d')) ->
   exists f, dget f (seq_flows d') = Some (mkFlow f (eu e) (ev e)) /\ dget "id" (eat e) = Some (VStr f)).
Proof.
  intros table d d' F D NJ OW H. destruct (table_rerouted _ _ _ F D NJ H) as [L I].
  pose proof (re_books _ _ _ _ I) as B. pose proof (re_edges _ _ _ _ I OW) as Eg. split.
  - intros f s t Hf. apply (bk_flows _ _ B) in Hf. destruct Hf as [s' [t' [Hst [Ef E]]]]. inv E.
    destruct (proj2 (bk_linked _ _ B s' t') (or_introl Hst)) as [e [He P]].
    destruct (Eg e He) as [Ie Ae].
    assert (X : eu e = s' /\ ev e = t').
    { destruct P as [P|[P1 P2]]; auto. rewrite P1, P2 in Ie. exfalso.
      apply (re_flows _ _ _ _ I) in Hst. apply (re_flows _ _ _ _ I) in Ie. apply (OW s' t'); [apply Hst|apply Ie]. }
    destruct X as [Eu Ev]. rewrite Eu, Ev in Ae. exists e. split; auto. split; auto. split; auto. rewrite Ae.
    assert (C : forall k, dget k (conn_attrs s' t' (connection_condition t' (rows_of table)) []) =
      if String.eqb k "conditionExpression"
      then match connection_condition t' (rows_of table) with
           | Some c => if String.eqb c "" then None else Some (VCond (get_flow_id s' t' ++ "_cond") c)
           | None => None end
      else dget k (conn_attrs s' t' None [])).
    { intros k. unfold conn_attrs. destruct (connection_condition t' (rows_of table)) as [c|]; [destruct (String.eqb c "")|].
      2: { change k_condition_expression with "conditionExpression". rewrite dget_dset. reflexivity. }
      all: destruct (String.eqb_spec k "conditionExpression") as [-> |]; reflexivity. }
    assert (U : NoDup (dkeys (rows_of table))) by apply D.
    rewrite !C. cbn [String.eqb Ascii.eqb Bool.eqb]. split; [reflexivity|]. split; [reflexivity|]. split; [reflexivity|]. split.
    + intros r Hr Nr. unfold connection_condition. rewrite (In_dget _ _ _ U Hr). cbn [option_map].
      rewrite (proj2 (String.eqb_neq _ _) Nr). reflexivity.
    + intros Nr. unfold connection_condition. destruct (dget t' (rows_of table)) as [r|] eqn:E; [|reflexivity].
      apply dget_In in E. cbn [option_map]. rewrite (Nr r E). reflexivity.
  - intros e He. destruct (Eg e He) as [Ie Ae]. exists (get_flow_id (eu e) (ev e)). split.
    + apply (bk_flows _ _ B). eauto.
    + rewrite Ae. unfold conn_attrs. destruct (connection_condition _ _) as [c|]; [destruct (String.eqb c "")|]; reflexivity.
Qed.
Example C86_edges_example : one_way (rows_of review) /\
  map (fun e => (eu e, ev e, dget "conditionExpression" (eat e))) (gedges (dgraph review_diagram)) =
  [("0", "1", None); ("1", "2", None); ("2", "2_split", None); ("2_split", "3b1", Some (VCond "2_split__3b1_cond" "yes"));
   ("2_split", "1", None); ("3b1", "4", None)].
Proof. split; [apply review_neat|]. vm_compute. reflexivity. Qed.

(** When such a table can be loaded: every row can be connected, every goto row names a
    row, has a flow in and a flow out, and every gateway that is left out lies between two
    different nodes. *)
Definition followed (rows : dict row) : Prop :=
  (forall o r, In (o, r) rows -> goto_row r ->
    (exists t, second_word (r_activity r) t) /\ (exists x, raw_flow rows x o) /\ exists y, raw_flow rows o y) /\
  (forall g, passed rows g -> exists s t, way rows s g /\ way rows g t /\ s <> t).
Theorem C86_loads : forall table d, fresh d -> documented table -> neat_jumps (rows_of table) ->
  ((exists d', load_diagram_from_csv table d = (d', Ok tt)) <->
   (forall o, In o (orders (rows_of table)) -> connectable (rows_of table) o) /\ followed (rows_of table)).
Proof.
  intros table d F [N D] NJ. pose proof (goto_loads table d F) as X. rewrite (rows_cleaned table N) in X.
  rewrite X by (auto; split; auto). split.
  - intros [A [B C]]. split; [exact A|]. split; auto.
  - intros [A [B C]]. split; [exact A|]. constructor; auto.
Qed.
Example C86_loads_example : followed (rows_of review).
Proof.
  apply (C86_loads review empty_diagram); [split; reflexivity|exact review_documented|apply review_neat|].
  exists review_diagram. vm_compute. reflexivity.
Qed.

(** * What goes wrong *)
(** The condition of a goto row is lost: it is on no edge. *)
Theorem C86_condition_refuted : exists table d' o r, documented table /\ neat_jumps (rows_of table) /\ one_way (rows_of table) /\
  load_diagram_from_csv table empty_diagram = (d', Ok tt) /\
  In (o, r) (rows_of table) /\ goto_row r /\ r_condition r = "no" /\
  forall e i, In e (gedges (dgraph d')) -> dget "conditionExpression" (eat e) <> Some (VCond i "no").
Proof.
  exists review, review_diagram, "3a1", (mkRow "GoTo 1" "no" "" "" "").
  split; [exact review_documented|]. split; [apply review_neat|]. split; [apply review_neat|].
  split; [vm_compute; reflexivity|]. split; [vm_compute; auto|]. split; [apply is_goto_spec; vm_compute; reflexivity|].
  split; [reflexivity|]. intros e i He. vm_compute in He.
  repeat (destruct He as [<- |He]; [vm_compute; intros X; discriminate X|]). contradiction.
Qed.

(** A task that is repeated until it works: the flow back shares an edge with the flow
    from the task, which loses its identifier. *)
Definition retry : list (order_label * row) :=
  [rw "0" "begin" ""; rw "1" "try" ""; (OStr "2a1", mkRow "goto 1" "no" "" "" ""); (OStr "2b1", mkRow "use" "yes" "" "" "");
   rw "3" "end" "yes"].
Theorem C86_every_edge_refuted : exists table d' f r, documented table /\ neat_jumps (rows_of table) /\
  load_diagram_from_csv table empty_diagram = (d', Ok tt) /\
  dget f (seq_flows d') = Some r /\
  forall e, In e (gedges (dgraph d')) -> dget "id" (eat e) <> Some (VStr f).
Proof.
  exists retry, (fst (load_diagram_from_csv retry empty_diagram)), "1__1_split", (mkFlow "1__1_split" "1" "1_split").
  assert (D : documented retry) by (apply check_documented; vm_compute; reflexivity).
  split; [exact D|]. split; [apply neat_b_ok; [exact D|vm_compute; reflexivity]|].
  split; [vm_compute; reflexivity|]. split; [vm_compute; reflexivity|].
  intros e He. vm_compute in He.
  repeat (destruct He as [<- |He]; [vm_compute; intros X; discriminate X|]). contradiction.
Qed.

(** Branches that all go elsewhere: the join has no flow in, and the import fails although
    every row can be connected and every goto row be followed. *)
Definition all_away : list (order_label * row) :=
  [rw "0" "begin" ""; rw "1" "choose" ""; (OStr "2a1", mkRow "goto 0" "no" "" "" ""); (OStr "2b1", mkRow "goto 4" "yes" "" "" "");
   rw "3" "more" ""; rw "4" "end" "yes"].
Theorem C86_gotos_load_refuted : exists table, documented table /\ neat_jumps (rows_of table) /\
  (forall o, In o (orders (rows_of table)) -> connectable (rows_of table) o) /\
  (forall o r, In (o, r) (rows_of table) -> goto_row r ->
    (exists t, second_word (r_activity r) t) /\ (exists x, raw_flow (rows_of table) x o) /\ exists y, raw_flow (rows_of table) o y) /\
  snd (load_diagram_from_csv table empty_diagram) = Err IndexError.
Proof.
  exists all_away. assert (D : documented all_away) by (apply check_documented; vm_compute; reflexivity).
  assert (G : good_rows (rows_of all_away)) by exact D.
  assert (M : snd (made (rows_of all_away)) = Ok tt) by (vm_compute; reflexivity).
  pose proof (made_ok _ G M) as FL.
  split; [exact D|]. split; [apply neat_b_ok; [exact D|vm_compute; reflexivity]|].
  split; [|split; [|vm_compute; reflexivity]].
  - pose proof (load_outcome all_away empty_diagram) as X. rewrite (rows_cleaned all_away (proj1 D)) in X.
    destruct X as [[A _]|[d' [msg [A _]]]]; [split; reflexivity|exact G|exact A|].
    exfalso. assert (Y : snd (load_diagram_from_csv all_away empty_diagram) = Err IndexError) by (vm_compute; reflexivity).
    rewrite A in Y. discriminate.
  - intros o r Hr Gr. apply is_goto_spec in Gr. 
    assert (T : forall t, goto_target r = Ok t -> second_word (r_activity r) t).
    { intros t. apply goto_target_spec. apply is_goto_spec. exact Gr. }
    unfold rows_of, all_away, rw in Hr. cbn [map fst snd] in Hr.
    repeat (destruct Hr as [Hr|Hr]; [inv Hr; try (vm_compute in Gr; discriminate Gr)|]); try contradiction.
    + split; [exists "0"; apply T; vm_compute; reflexivity|].
      split; [exists "1_split"|exists "3_join"]; apply FL; vm_compute; auto 20.
    + split; [exists "4"; apply T; vm_compute; reflexivity|].
      split; [exists "1_split"|exists "3_join"]; apply FL; vm_compute; auto 20.
Qed.

(** Two branches with the same goal: the list of the gateway names one flow twice. *)
Definition twice : list (order_label * row) :=
  [rw "0" "begin" ""; rw "1" "write" ""; rw "2" "review" ""; (OStr "3a1", mkRow "goto 1" "bad" "" "" "");
   (OStr "3b1", mkRow "goto 1" "poor" "" "" ""); (OStr "3c1", mkRow "publish" "good" "" "" ""); rw "4" "end" "yes"].
Theorem C86_same_goal_refuted : exists table d' n, documented table /\
  load_diagram_from_csv table empty_diagram = (d', Ok tt) /\ is_node d' n /\ ~ NoDup (outgoing_of d' n).
Proof.
  exists twice, (fst (load_diagram_from_csv twice empty_diagram)), "2_split".
  split; [apply check_documented; vm_compute; reflexivity|]. split; [vm_compute; reflexivity|].
  split; [vm_compute; auto 20|].
  assert (E : outgoing_of (fst (load_diagram_from_csv twice empty_diagram)) "2_split" =
    ["2_split__3c1"; "2_split__1"; "2_split__1"]) by (vm_compute; reflexivity).
  rewrite E. intros N. inversion N as [|? ? _ N2]; subst. inversion N2 as [|? ? N3 _]; subst. apply N3. left. reflexivity.
Qed.

Print Assumptions C86_nodes_and_flows.
Print Assumptions C86_row_elements.
Print Assumptions C86_edges.
Print Assumptions C86_loads.
Print Assumptions C86_condition_refuted.
Print Assumptions C86_every_edge_refuted.
Print Assumptions C86_gotos_load_refuted.
Print Assumptions C86_same_goal_refuted.
