(** CSV import: how rows are related to each other (C46, C47, C48, C52, C53, C56).
    Each theorem is followed by a concrete case of its hypotheses. *)
From Coq Require Import String Ascii List Bool Arith ZArith Lia.
From Verif Require Import Py PyFacts Consts Nx NxFacts Rep SpecRep RepFacts.
From Verif Require Import CsvRegex CsvImport SpecCsv RegexFacts CsvFacts CsvTable.
Import ListNotations.
Open Scope string_scope.
Open Scope list_scope.

(** A row without condition, who and subprocess. *)
Definition rw (o a t : string) : order_label * row := (OStr o, mkRow a "" "" "" t).

Lemma number_12 : number "12".
Proof. split; [discriminate|]. intros c [<- |[<- |[]]]; vm_compute; auto 20. Qed.
Lemma numbered_2a12 : numbered "2a12" "2a" "12".
Proof.
  split; [exact number_12|]. split; [left; reflexivity|]. right. right. exists "2", "a"%char.
  split; [reflexivity|]. split; [|left; vm_compute; auto 60]. intros [H|[]]. discriminate.
Qed.

(** * C46 *)
Theorem C46_sequence_successor : forall s,
  (forall p n, numbered s p n ->
     get_possible_sequence_continuation_successor s = Ok [p ++ zstr (value n + 1)]%string) /\
  ((forall p n, ~ numbered s p n) -> get_possible_sequence_continuation_successor s = Ok []).
Proof. intros s. split; [apply seq_succ_numbered | apply seq_succ_none]. Qed.

(** An order is read as prefix and number in one way only. *)
Theorem C46_one_reading : forall s p n p' n', numbered s p n -> numbered s p' n' -> p = p' /\ n = n'.
Proof. exact numbered_unique. Qed.

Example C46_example : numbered "2a12" "2a" "12" /\
  get_possible_sequence_continuation_successor "2a12" = Ok ["2a13"] /\
  get_possible_sequence_continuation_successor "99" = Ok ["100"] /\
  get_possible_sequence_continuation_successor "2a" = Ok [].
Proof. split; [exact numbered_2a12|]. vm_compute. auto. Qed.

(** * C47 *)
Theorem C47_split_successors : forall s p n ids, numbered s p n ->
  (forall c, is_in c p -> ~ special c) ->
  exists bs, get_all_split_successors s ids = Ok bs /\
    chosen (branch_of (p ++ zstr (value n + 1))%string) ids bs.
Proof.
  intros s p n ids H S. eexists. split; [apply all_split_numbered; eauto|].
  eexists. split; [|reflexivity]. intros x. apply split_match.
Qed.
Theorem C47_other_orders : forall s ids, (forall p n, ~ numbered s p n) ->
  get_all_split_successors s ids = Err (BpmnPythonError ("Something wrong in program - look for " ++ s)).
Proof. exact all_split_none. Qed.

Example C47_example : numbered "2a12" "2a" "12" /\
  get_all_split_successors "2a12" ["2a13"; "2a13a"; "2a13b1"; "2a13b2"; "2a13ca"; "2a14a"; "2a13c11"]
  = Ok ["2a13a"; "2a13b1"; "2a13c11"].
Proof. split; [exact numbered_2a12|]. vm_compute. reflexivity. Qed.

(** * C48 *)
Theorem C48_gateway_type : forall s p n ids rows bs conds, numbered s p n ->
  (forall c, is_in c p -> ~ special c) ->
  chosen (branch_of (p ++ zstr (value n + 1))%string) ids bs ->
  Forall2 (fun b c => exists r, dget b rows = Some r /\ trimmed (r_condition r) c) bs conds ->
  exists t, get_gateway_type s ids rows = Ok t /\
    (t = "exclusiveGateway" <-> decision conds) /\
    (t = "parallelGateway" <-> ~ decision conds /\ forall c, In c conds -> c = "") /\
    (t = "inclusiveGateway" <-> ~ decision conds /\ exists c, In c conds /\ c <> "").
Proof.
  intros s p n ids rows bs conds H S [f [Hf ->]] F. exists (gateway_kind conds). split.
  - eapply gateway_type_ok; [|exact F]. rewrite (all_split_numbered s p n ids H S). f_equal.
    apply filter_ext. intros x. pose proof (split_match (p ++ zstr (value n + 1)) x) as X.
    fold (is_branch (p ++ zstr (value n + 1)) x) in X. specialize (Hf x).
    destruct (is_branch (p ++ zstr (value n + 1)) x), (f x); intuition congruence.
  - apply gateway_kind_spec.
Qed.

Definition cond_rows : dict row :=
  [("2a13a", mkRow "x" " yes " "" "" ""); ("2a13b1", mkRow "y" "no" "" "" ""); ("2a13c", mkRow "z" "" "" "" "")].
Example C48_example : get_gateway_type "2a12" ["2a13a"; "2a13b1"] cond_rows = Ok "exclusiveGateway" /\
  get_gateway_type "2a12" ["2a13a"; "2a13b1"; "2a13c"] cond_rows = Ok "inclusiveGateway" /\
  get_gateway_type "2a12" ["2a13c"] cond_rows = Ok "parallelGateway" /\
  decision ["yes"; "no"] /\ trimmed " yes " "yes".
Proof.
  split; [reflexivity|]. split; [reflexivity|]. split; [reflexivity|]. split; [exists "yes", "no"; auto|].
  apply strip_unique. reflexivity.
Qed.

(** * C52 *)

(** The rows at which the branches around [s] may come together: for each enclosing
    pair of number and letter the next number, without what precedes the pair. *)
Theorem C52_merge_candidates : forall l m s, branch_label l m s ->
  get_possible_merge_continuation_successors s = Ok (map (fun p => zstr (value (fst p) + 1)) l).
Proof. exact merge_successors. Qed.

Lemma branch_2a2b1 : branch_label [("2", "a"%char); ("2", "b"%char)] "1" "2a2b1".
Proof.
  assert (N : forall c, digit c -> number (String c "")).
  { intros c H. split; [discriminate|]. intros x [<- |[]]. exact H. }
  split; [discriminate|]. split.
  - intros n c [H|[H|[]]]; inv H; (split; [apply N|]); vm_compute; auto 60.
  - split; [right; apply N; vm_compute; auto 20|]. reflexivity.
Qed.
Example C52_example : branch_label [("2", "a"%char); ("2", "b"%char)] "1" "2a2b1" /\
  get_possible_merge_continuation_successors "2a2b1" = Ok ["3"; "3"].
Proof. split; [exact branch_2a2b1 | reflexivity]. Qed.

(** The enclosing prefix is dropped ... *)
Theorem C52_keeps_prefix_refuted : exists l1 n c l2 m s r, branch_label (l1 ++ (n, c) :: l2) m s /\
  get_possible_merge_continuation_successors s = Ok r /\ ~ In (pairs_text l1 ++ zstr (value n + 1))%string r.
Proof.
  exists [("2", "a"%char)], "2", "b"%char, [], "1", "2a2b1", ["3"; "3"].
  split; [exact branch_2a2b1|]. split; [reflexivity|]. vm_compute. intuition discriminate.
Qed.
(** ... so that a row after an inner split is loaded without any incoming flow. *)
Definition nested_table : list (order_label * row) :=
  [rw "0" "begin" ""; rw "1" "x" ""; rw "2a1" "y" ""; rw "2a2a" "z" ""; rw "2a2b" "u" "";
   rw "2a3" "v" ""; rw "2b" "w" ""; rw "3" "end" "yes"].
Theorem C52_nested_merge_refuted : exists table d', load_diagram_from_csv table empty_diagram = (d', Ok tt) /\
  In (rw "2a3" "v" "") table /\ is_node d' "2a3" /\ incoming_of d' "2a3" = [].
Proof.
  exists nested_table, (fst (load_diagram_from_csv nested_table empty_diagram)).
  vm_compute. split; [reflexivity|]. split; [auto 20|]. split; [auto 20|]. reflexivity.
Qed.

(** * C53 *)
Theorem C53_no_pass_through_gateways : forall table d d', dgraph d = empty_graph ->
  load_diagram_from_csv table d = (d', Ok tt) ->
  forall n t, is_node d' n -> attr d' n "type" = Some (VStr t) ->
  t = "inclusiveGateway" \/ t = "exclusiveGateway" \/ t = "parallelGateway" ->
  2 <= length (incoming_of d' n) \/ 2 <= length (outgoing_of d' n).
Proof.
  intros table d d' E H n t Hn Ht G. eapply no_pass_through; eauto.
  - split.
    + unfold unique_ids. rewrite E. constructor.
    + intros m Hm. unfold is_node in Hm. rewrite E in Hm. contradiction.
  - exists t. auto.
Qed.

(** A split with one branch and joins with one branch are dissolved, the split with two
    branches stays. *)
Definition lone_branches : list (order_label * row) :=
  [rw "0" "begin" ""; rw "1" "x" ""; rw "2a" "y" ""; rw "3" "z" ""; rw "4a1" "u" ""; rw "4b1" "w" "yes";
   rw "4a2" "v" ""; rw "5" "end" "yes"].
Example C53_example : let r := load_diagram_from_csv lone_branches empty_diagram in
  snd r = Ok tt /\
  dkeys (gnodes (dgraph (fst r))) = ["0"; "1"; "2a"; "3"; "4a1"; "4b1"; "4a2"; "5"; "3_split"] /\
  dkeys (seq_flows (fst r)) =
    ["0__1"; "3__3_split"; "3_split__4a1"; "3_split__4b1"; "4a1__4a2"; "1__2a"; "2a__3"; "4a2__5"].
Proof. vm_compute. auto. Qed.

(** * C56 *)
Theorem C56_rows_kept : forall table, NoDup (map fst table) ->
  NoDup (map (fun p => clean_order (fst p)) table) ->
  remove_white_spaces_in_orders table = map (fun p => (clean_order (fst p), snd p)) table.
Proof. exact clean_distinct. Qed.
Theorem C56_clean_orders : forall o,
  (forall s, o = OStr s -> trimmed s (clean_order o)) /\
  (forall z, (0 <= z)%Z -> o = OInt z -> number (clean_order o) /\ value (clean_order o) = z).
Proof.
  intros o. split.
  - intros s ->. rewrite clean_order_str. apply strip_trimmed.
  - intros z Hz ->. cbn [clean_order]. split; [apply zstr_number; auto | apply value_zstr; auto].
Qed.
Theorem C56_trimmed_unique : forall s t t', trimmed s t -> trimmed s t' -> t = t'.
Proof. exact trimmed_unique. Qed.

Example C56_example : NoDup (map (fun p => clean_order (fst p)) [(OStr " 1 ", mkRow "x" "" "" "" ""); (OInt 2, mkRow "y" "" "" "" "")])
  /\ remove_white_spaces_in_orders [(OStr " 1 ", mkRow "x" "" "" "" ""); (OInt 2, mkRow "y" "" "" "" "")]
     = [("1", mkRow "x" "" "" "" ""); ("2", mkRow "y" "" "" "" "")].
Proof.
  split; [|reflexivity]. vm_compute. constructor; [|repeat constructor; auto].
  intros [H|[]]. discriminate.
Qed.

(** Rows whose orders only differ by white space overwrite each other. *)
Theorem C56_every_row_kept_refuted : exists table, NoDup (map fst table) /\
  exists p, In p table /\ ~ In (snd p) (map snd (remove_white_spaces_in_orders table)).
Proof.
  exists [(OStr "1", mkRow "x" "" "" "" ""); (OStr "1 ", mkRow "y" "" "" "" "")]. split.
  - constructor; [|repeat constructor; auto]. intros [H|[]]. discriminate.
  - exists (OStr "1", mkRow "x" "" "" "" ""). split; [left; reflexivity|]. vm_compute. intros [H|[]]. discriminate.
Qed.

Print Assumptions C46_sequence_successor.
Print Assumptions C46_one_reading.
Print Assumptions C47_split_successors.
Print Assumptions C47_other_orders.
Print Assumptions C48_gateway_type.
Print Assumptions C52_merge_candidates.
Print Assumptions C52_keeps_prefix_refuted.
Print Assumptions C52_nested_merge_refuted.
Print Assumptions C53_no_pass_through_gateways.
Print Assumptions C56_rows_kept.
Print Assumptions C56_clean_orders.
Print Assumptions C56_trimmed_unique.
Print Assumptions C56_every_row_kept_refuted.
