(** CSV import: the diagram a table is loaded into (C49, C50, C51, C54, C66, C67).
    Each theorem is followed by a concrete case of its hypotheses. *)
From Coq Require Import String Ascii List Bool Arith ZArith Lia Permutation.
From Verif Require Import Py PyFacts Consts Nx NxFacts Rep SpecRep RepFacts.
From Verif Require Import CsvRegex CsvImport SpecCsv RegexFacts CsvFacts CsvTable SpecFlow CsvGhost CsvFill CsvLast CsvTotal.
From Verif Require Import Prop_CsvRows.
Import ListNotations.
Open Scope string_scope.
Open Scope list_scope.

(** The table under its cleaned orders (C56), which are distinct and of the documented
    form. *)
Definition rows_of (table : list (order_label * row)) : dict row :=
  map (fun p => (clean_order (fst p), snd p)) table.
Definition documented (table : list (order_label * row)) : Prop :=
  NoDup (orders (rows_of table)) /\ forall o, In o (orders (rows_of table)) -> label o.
Definition goto_free (table : list (order_label * row)) : Prop :=
  forall o r, In (o, r) table -> ~ goto_row r.
Definition fresh (d : diagram) : Prop := dgraph d = empty_graph /\ seq_flows d = [].

(** A flow between two nodes is recorded. *)
Definition flow_between (d : diagram) (s t : string) : Prop :=
  exists f, dget f (seq_flows d) = Some (mkFlow f s t).

Lemma rows_cleaned : forall table, NoDup (orders (rows_of table)) ->
  remove_white_spaces_in_orders table = rows_of table.
Proof.
  intros table N. unfold orders, rows_of in N. rewrite map_map in N. cbn [fst] in N. apply clean_distinct; [|exact N].
  apply (NoDup_map_inv clean_order). rewrite map_map. exact N.
Qed.
Lemma free_rows : forall table, goto_free table -> forall o r, In (o, r) (rows_of table) -> is_goto r = false.
Proof.
  intros table H o r Hr. apply in_map_iff in Hr. destruct Hr as [[o' r'] [E Hr]]. inv E.
  destruct (is_goto r) eqn:X; auto. apply is_goto_spec in X. exfalso. eapply H; eauto.
Qed.
Lemma table_loaded : forall table d d', fresh d -> documented table -> goto_free table ->
  load_diagram_from_csv table d = (d', Ok tt) -> exists L, imported (rows_of table) d d' L.
Proof.
  intros table d d' F [N D] GF H. pose proof (table_import table d d' F) as X.
  rewrite (rows_cleaned table N) in X. apply X; auto; [split; auto|]. apply free_rows; auto.
Qed.

(** A checker for the examples. *)
Definition is_digit_b (c : ascii) : bool := existsb (Ascii.eqb c) (list_ascii_of_string "0123456789").
Definition is_latin_b (c : ascii) : bool :=
  existsb (Ascii.eqb c) (list_ascii_of_string "abcdefghijklmnopqrstuvwxyzABCDEFGHIJKLMNOPQRSTUVWXYZ").
Fixpoint read_label (w s : string) (l : list (string * ascii)) : option (list (string * ascii) * string) :=
  match s with
  | "" => Some (l, w)
  | String c t =>
      if is_digit_b c then read_label (w ++ String c "") t l
      else if is_latin_b c && negb (String.eqb w "") then read_label "" t (l ++ [(w, c)])
      else None
  end.
Definition check_label (s : string) : bool :=
  match read_label "" s [] with Some ([], "") => false | Some _ => true | None => false end.
Lemma read_label_ok : forall s w l l' m, (w = "" \/ number w) ->
  (forall n c, In (n, c) l -> number n /\ latin c) -> read_label w s l = Some (l', m) ->
  (m = "" \/ number m) /\ (forall n c, In (n, c) l' -> number n /\ latin c) /\
  (pairs_text l ++ w ++ s)%string = (pairs_text l' ++ m)%string.
Proof.
  assert (D : forall c, is_digit_b c = true -> digit c).
  { intros c H. apply existsb_exists in H. destruct H as [x [H E]]. apply Ascii.eqb_eq in E. subst. exact H. }
  assert (T : forall c, is_latin_b c = true -> latin c).
  { intros c H. apply existsb_exists in H. destruct H as [x [H E]]. apply Ascii.eqb_eq in E. subst. exact H. }
  assert (P : forall a b, pairs_text (a ++ b) = (pairs_text a ++ pairs_text b)%string).
  { induction a as [|[n c] a IH]; intros b; [reflexivity|]. simpl app. rewrite !pairs_text_cons, IH, !sapp_assoc. reflexivity. }
  induction s as [|c s IH]; intros w l l' m W H E; simpl in E.
  - inv E. split; auto. split; auto. rewrite sapp_nil. reflexivity.
  - destruct (is_digit_b c) eqn:B.
    + apply IH in E; auto.
      * destruct E as [E1 [E2 E3]]. split; auto. split; auto. rewrite <- E3, sapp_assoc. reflexivity.
      * right. split; [destruct w; discriminate|]. intros x Hx. apply in_app_str_inv in Hx.
        destruct Hx as [Hx|[<- |[]]]; auto.
        destruct W as [-> |W]; [contradiction|]. apply W. exact Hx.
    + destruct (is_latin_b c && negb (String.eqb w "")) eqn:B2; [|discriminate].
      apply andb_true_iff in B2. destruct B2 as [B2 B3]. apply negb_true_iff, String.eqb_neq in B3.
      destruct W as [W|W]; [congruence|].
      apply IH in E; auto.
      * destruct E as [E1 [E2 E3]]. split; auto. split; auto. rewrite <- E3, P, sapp_assoc.
        rewrite pairs_text_cons. cbn [pairs_text map String.concat]. rewrite !sapp_assoc. reflexivity.
      * intros n x Hx. apply in_app_iff in Hx. destruct Hx as [Hx|[Hx|[]]]; auto. inv Hx. auto.
Qed.
Lemma check_label_ok : forall s, check_label s = true -> label s.
Proof.
  intros s H. unfold check_label in H. destruct (read_label "" s []) as [[l m]|] eqn:E; [|discriminate].
  apply read_label_ok in E; auto; [|intros n c []]. destruct E as [E1 [E2 E3]]. change (s = pairs_text l ++ m)%string in E3.
  destruct l as [|p l].
  - left. destruct E1 as [-> |E1]; [discriminate|]. rewrite E3. exact E1.
  - right. exists (p :: l), m. split; [discriminate|]. auto.
Qed.
Fixpoint distinct (l : list string) : bool :=
  match l with [] => true | x :: t => negb (existsb (String.eqb x) t) && distinct t end.
Lemma distinct_ok : forall l, distinct l = true -> NoDup l.
Proof.
  induction l as [|x l IH]; simpl; intros H; constructor; apply andb_true_iff in H; destruct H as [H1 H2]; auto.
  intros C. apply negb_true_iff in H1. assert (X : existsb (String.eqb x) l = true).
  { apply existsb_exists. exists x. split; auto. apply String.eqb_refl. }
  congruence.
Qed.
Lemma check_documented : forall table,
  distinct (orders (rows_of table)) && forallb check_label (orders (rows_of table)) = true -> documented table.
Proof.
  intros table H. apply andb_true_iff in H. destruct H as [A B]. split; [apply distinct_ok; auto|].
  intros o Ho. apply check_label_ok. rewrite forallb_forall in B. auto.
Qed.
Lemma check_goto_free : forall table, forallb (fun p => negb (is_goto (snd p))) table = true -> goto_free table.
Proof.
  intros table H o r Hr C. apply is_goto_spec in C. rewrite forallb_forall in H. specialize (H _ Hr). cbn [snd] in H.
  rewrite C in H. discriminate.
Qed.

(** The examples: a decision with two branches, the second one with a parallel split of its
    own, and a join. *)
Definition sample : list (order_label * row) :=
  [(OInt 0, mkRow "begin" "" "" "" ""); (OStr " 1 ", mkRow "check" "" "me" "" "");
   (OStr "2a1", mkRow "pay" "yes" "" "" ""); (OStr "2b1", mkRow "cancel" "no" "" "yes" "");
   (OStr "2b2a", mkRow "call" "" "" "" ""); (OStr "2b2b", mkRow "write" "" "" "" "");
   (OInt 3, mkRow "close" "" "" "" ""); (OInt 4, mkRow "the end" "" "" "" "yes")].
Lemma sample_documented : documented sample /\ goto_free sample /\ fresh empty_diagram.
Proof.
  split; [apply check_documented; vm_compute; reflexivity|].
  split; [apply check_goto_free; vm_compute; reflexivity|]. split; reflexivity.
Qed.
Definition sample_diagram : diagram := fst (load_diagram_from_csv sample empty_diagram).
Lemma sample_loads : load_diagram_from_csv sample empty_diagram = (sample_diagram, Ok tt).
Proof. vm_compute. reflexivity. Qed.

(** * C66 *)
Theorem C66_nodes_and_flows : forall table d d', fresh d -> documented table -> goto_free table ->
  load_diagram_from_csv table d = (d', Ok tt) ->
  let rows := rows_of table in
  (forall n, is_node d' n <-> table_node rows n) /\
  (forall s t, flow_between d' s t <-> table_flow rows s t) /\
  (forall s t, linked d' s t <-> table_flow rows s t \/ table_flow rows t s).
Proof.
  intros table d d' F D GF H rows. destruct (table_loaded _ _ _ F D GF H) as [L I]. fold rows in I.
  split; [apply I|]. split.
  - intros s t. rewrite <- (im_flows _ _ _ _ I). split.
    + intros [f Hf]. apply (bk_flows _ _ (im_books _ _ _ _ I)) in Hf. destruct Hf as [a [b [Hab [_ E]]]]. inv E. auto.
    + intros Hst. exists (get_flow_id s t). apply (bk_flows _ _ (im_books _ _ _ _ I)). eauto.
  - intros s t. rewrite (bk_linked _ _ (im_books _ _ _ _ I)), !(im_flows _ _ _ _ I). tauto.
Qed.
Example C66_nodes_and_flows_example : documented sample /\ goto_free sample /\ fresh empty_diagram /\
  load_diagram_from_csv sample empty_diagram = (sample_diagram, Ok tt) /\
  node_keys sample_diagram = ["0"; "1"; "2a1"; "2b1"; "2b2a"; "2b2b"; "3"; "4"; "1_split"; "3_join"; "2b1_split"] /\
  map (fun p => (fl_src (snd p), fl_tgt (snd p))) (seq_flows sample_diagram) =
    [("0", "1"); ("1", "1_split"); ("1_split", "2a1"); ("1_split", "2b1"); ("3_join", "3"); ("2a1", "3_join");
     ("2b1", "2b1_split"); ("2b1_split", "2b2a"); ("2b1_split", "2b2b"); ("2b2a", "3_join"); ("2b2b", "3_join"); ("3", "4")].
Proof.
  destruct sample_documented as [A [B C]]. repeat (split; [assumption|]). split; [exact sample_loads|].
  split; vm_compute; reflexivity.
Qed.

(** The elements of the rows.  End events do not take their name from the activity. *)
Theorem C66_row_elements : forall table d d', fresh d -> documented table -> goto_free table ->
  load_diagram_from_csv table d = (d', Ok tt) ->
  forall o r, In (o, r) (rows_of table) ->
  (o = "0" -> attr d' o "type" = Some (VStr "startEvent")) /\
  (o <> "0" -> r_terminated r = "yes" -> attr d' o "type" = Some (VStr "endEvent")) /\
  (o <> "0" -> r_terminated r <> "yes" -> r_subprocess r = "yes" -> attr d' o "type" = Some (VStr "subProcess")) /\
  (o <> "0" -> r_terminated r <> "yes" -> r_subprocess r <> "yes" -> attr d' o "type" = Some (VStr "task")) /\
  (attr d' o "type" <> Some (VStr "endEvent") -> attr d' o "node_name" = Some (VStr (r_activity r))) /\
  (attr d' o "type" = Some (VStr "endEvent") -> attr d' o "node_name" = Some (VStr "")).
Proof.
  intros table d d' F D GF H o r Hr. destruct (table_loaded _ _ _ F D GF H) as [L I].
  rewrite (im_type _ _ _ _ I o r Hr), (im_name _ _ _ _ I o r Hr). unfold row_name, row_type.
  split; [intros ->; reflexivity|].
  assert (X : forall a b : string, a <> b -> String.eqb a b = false) by (intros; apply String.eqb_neq; auto).
  split; [intros A ->; rewrite (X _ _ A); reflexivity|].
  split; [intros A B ->; rewrite (X _ _ A), (X _ _ B); reflexivity|].
  split; [intros A B C; rewrite (X _ _ A), (X _ _ B), (X _ _ C); reflexivity|].
  destruct (String.eqb o "0"); [|destruct (String.eqb (r_terminated r) "yes"); [|destruct (String.eqb (r_subprocess r) "yes")]].
  all: split; intros Y; try reflexivity; try discriminate. exfalso. apply Y. reflexivity.
Qed.
Example C66_row_elements_example :
  map (fun o => (attr sample_diagram o "type", attr sample_diagram o "node_name")) ["0"; "1"; "2b1"; "4"] =
  [(Some (VStr "startEvent"), Some (VStr "begin")); (Some (VStr "task"), Some (VStr "check"));
   (Some (VStr "subProcess"), Some (VStr "cancel")); (Some (VStr "endEvent"), Some (VStr ""))].
Proof. vm_compute. reflexivity. Qed.

(** The gateway of a split that is kept. *)
Theorem C66_split_type : forall table d d', fresh d -> documented table -> goto_free table ->
  load_diagram_from_csv table d = (d', Ok tt) ->
  let rows := rows_of table in
  forall o bs conds, splits rows o -> is_node d' (split_of o) ->
  chosen (branch rows o) (orders rows) bs ->
  Forall2 (fun b c => exists r, In (b, r) rows /\ trimmed (r_condition r) c) bs conds ->
  exists t, attr d' (split_of o) "type" = Some (VStr t) /\
    (t = "exclusiveGateway" <-> decision conds) /\
    (t = "parallelGateway" <-> ~ decision conds /\ forall c, In c conds -> c = "") /\
    (t = "inclusiveGateway" <-> ~ decision conds /\ exists c, In c conds /\ c <> "").
Proof.
  intros table d d' F D GF H rows o bs conds S Nn [f [Hf ->]] C.
  destruct (table_loaded _ _ _ F D GF H) as [L I]. fold rows in I.
  destruct (im_split _ _ _ _ I o S) as [ty [E A]]; [apply I; auto|]. exists ty. split; auto.
  assert (Ho : In o (orders rows)) by (apply onward_in, S).
  assert (Gr : good_rows rows) by exact D.
  destruct (gateway_type_total rows o Gr Ho) as [ty' [succs [E' Es]]]; [apply S|].
  destruct (branches_found rows o succs (good_plain _ _ Gr Ho) Es) as [Br _].
  assert (X : succs = filter f (orders rows)).
  { assert (P := S). destruct P as [_ [_ [p [n [N _]]]]].
    rewrite (all_split_numbered _ _ _ (orders rows) N) in Es.
    2: { intros c Hc. apply plain_special. apply (numbered_plain _ _ _ N (good_plain _ _ Gr Ho)). exact Hc. }
    inv Es. apply filter_ext_in'. intros x Hx. specialize (Br x). rewrite filter_In in Br. specialize (Hf x).
    destruct (is_branch (p ++ zstr (value n + 1)) x), (f x); intuition congruence. }
  rewrite X in Es.
  assert (K : get_gateway_type o (orders rows) rows = Ok (gateway_kind conds)).
  { eapply gateway_type_ok; [exact Es|]. clear - C Gr. induction C as [|b c bs cs [r [Hr T]] C IH]; constructor; auto.
    exists r. split; auto. apply In_dget; auto. apply Gr. }
  rewrite E in K. inv K. apply gateway_kind_spec.
Qed.
Example C66_split_type_example :
  attr sample_diagram (split_of "1") "type" = Some (VStr "exclusiveGateway") /\
  attr sample_diagram (split_of "2b1") "type" = Some (VStr "parallelGateway").
Proof. vm_compute. split; reflexivity. Qed.

(** * C50 *)
Theorem C50_flows_consistent : forall table d d', fresh d -> documented table -> goto_free table ->
  load_diagram_from_csv table d = (d', Ok tt) ->
  (forall f r, dget f (seq_flows d') = Some r ->
     fl_name r = f /\ is_node d' (fl_src r) /\ is_node d' (fl_tgt r) /\
     In f (outgoing_of d' (fl_src r)) /\ In f (incoming_of d' (fl_tgt r)) /\ linked d' (fl_src r) (fl_tgt r)) /\
  (forall n f, In f (outgoing_of d' n) -> exists t, dget f (seq_flows d') = Some (mkFlow f n t)) /\
  (forall n f, In f (incoming_of d' n) -> exists s, dget f (seq_flows d') = Some (mkFlow f s n)).
Proof.
  intros table d d' F D GF H. destruct (table_loaded _ _ _ F D GF H) as [L I].
  pose proof (im_books _ _ _ _ I) as B. split; [|split].
  - intros f r Hf. apply (bk_flows _ _ B) in Hf. destruct Hf as [s [t [Hst [-> ->]]]]. cbn [fl_name fl_src fl_tgt].
    destruct (bk_ends _ _ B _ _ Hst). split; auto. split; auto. split; auto. split; [|split].
    + rewrite (bk_out _ _ B). apply (in_map gid _ (s, t)). apply filter_In. split; auto. apply from_true; auto.
    + rewrite (bk_in _ _ B). apply (in_map gid _ (s, t)). apply filter_In. split; auto. apply into_true; auto.
    + apply (bk_linked _ _ B). auto.
  - intros n f Hf. rewrite (bk_out _ _ B) in Hf. apply in_map_iff in Hf. destruct Hf as [[s t] [<- Hf]].
    apply filter_In in Hf. destruct Hf as [Hf E]. apply from_true in E. cbn [fst] in E. subst s.
    exists t. apply (bk_flows _ _ B). eauto.
  - intros n f Hf. rewrite (bk_in _ _ B) in Hf. apply in_map_iff in Hf. destruct Hf as [[s t] [<- Hf]].
    apply filter_In in Hf. destruct Hf as [Hf E]. apply into_true in E. cbn [snd] in E. subst t.
    exists s. apply (bk_flows _ _ B). eauto.
Qed.
Example C50_example : outgoing_of sample_diagram "1_split" = ["1_split__2a1"; "1_split__2b1"] /\
  incoming_of sample_diagram "3_join" = ["2a1__3_join"; "2b2a__3_join"; "2b2b__3_join"].
Proof. vm_compute. split; reflexivity. Qed.

(** A goto row with two incoming flows leaves a dangling flow. *)
Definition two_way_goto : list (order_label * row) :=
  [rw "0" "begin" ""; rw "1" "x" ""; rw "2" "p" ""; rw "2a1" "y" ""; rw "2b1" "z" ""; rw "3" "goto 1" ""; rw "4" "end" "yes"].
Theorem C50_every_table_refuted : exists table d' f r, documented table /\
  load_diagram_from_csv table empty_diagram = (d', Ok tt) /\
  dget f (seq_flows d') = Some r /\ ~ is_node d' (fl_tgt r).
Proof.
  exists two_way_goto, (fst (load_diagram_from_csv two_way_goto empty_diagram)), "3_join__3", (mkFlow "3_join__3" "3_join" "3").
  split; [apply check_documented; vm_compute; reflexivity|]. vm_compute. split; [reflexivity|]. split; [reflexivity|].
  intuition discriminate.
Qed.

(** * C67 *)
(** Every flow has its own edge, drawn in the direction of the flow and labelled with the
    condition of the row it leads to. *)
Theorem C67_edges_of_flows : forall table d d', fresh d -> documented table -> goto_free table ->
  load_diagram_from_csv table d = (d', Ok tt) ->
  forall f s t, dget f (seq_flows d') = Some (mkFlow f s t) ->
  exists e, In e (gedges (dgraph d')) /\ eu e = s /\ ev e = t /\
    dget "id" (eat e) = Some (VStr f) /\ dget "sourceRef" (eat e) = Some (VStr s) /\
    dget "targetRef" (eat e) = Some (VStr t) /\
    (forall r, In (t, r) (rows_of table) -> r_condition r <> "" ->
       dget "conditionExpression" (eat e) = Some (VCond (f ++ "_cond") (r_condition r))) /\
    ((forall r, In (t, r) (rows_of table) -> r_condition r = "") -> dget "conditionExpression" (eat e) = None).
Proof.
  intros table d d' F D GF H f s t Hf. destruct (table_loaded _ _ _ F D GF H) as [L I].
  pose proof (im_books _ _ _ _ I) as B. apply (bk_flows _ _ B) in Hf. destruct Hf as [s' [t' [Hst [Ef E]]]]. inv E.
  destruct (proj2 (bk_linked _ _ B s' t') (or_introl Hst)) as [e [He P]].
  destruct (im_edges _ _ _ _ I e He) as [Ie Ae].
  assert (X : eu e = s' /\ ev e = t').
  { destruct P as [P|[P1 P2]]; auto. rewrite P1, P2 in Ie. exfalso. eapply (im_back _ _ _ _ I); eauto. }
  destruct X as [Eu Ev]. rewrite Eu, Ev in Ae. exists e. split; auto. split; auto. split; auto. rewrite Ae.
  assert (C : forall k, dget k (conn_attrs s' t' (connection_condition t' (rows_of table)) []) =
    if String.eqb k "conditionExpression"
    then match connection_condition t' (rows_of table) with
         | Some c => if String.eqb c "" then None else Some (VCond (get_flow_id s' t' ++ "_cond") c)
         | None => None end
    else dget k (conn_attrs s' t' None [])).
  { intros k. unfold conn_attrs. destruct (connection_condition t' (rows_of table)) as [c|]; [destruct (String.eqb c "")|].
    2: { change k_condition_expression with "conditionExpression". rewrite dget_dset. reflexivity. }
    all: destruct (String.eqb_spec k "conditionExpression") as [-> |]; reflexivity. }
  assert (U : NoDup (dkeys (rows_of table))) by apply D.
  rewrite !C. cbn [String.eqb Ascii.eqb Bool.eqb]. split; [reflexivity|]. split; [reflexivity|]. split; [reflexivity|]. split.
  - intros r Hr Nr. unfold connection_condition. rewrite (In_dget _ _ _ U Hr). cbn [option_map].
    rewrite (proj2 (String.eqb_neq _ _) Nr). reflexivity.
  - intros Nr. unfold connection_condition. destruct (dget t' (rows_of table)) as [r|] eqn:E; [|reflexivity].
    apply dget_In in E. cbn [option_map]. rewrite (Nr r E). reflexivity.
Qed.
Example C67_example : dget "1_split__2a1" (seq_flows sample_diagram) = Some (mkFlow "1_split__2a1" "1_split" "2a1") /\
  map (fun e => dget "conditionExpression" (eat e))
    (filter (fun e => String.eqb (eu e) "1_split") (gedges (dgraph sample_diagram))) =
  [Some (VCond "1_split__2a1_cond" "yes"); Some (VCond "1_split__2b1_cond" "no")].
Proof. vm_compute. split; reflexivity. Qed.

Theorem C67_flow_of_edge : forall table d d', fresh d -> documented table -> goto_free table ->
  load_diagram_from_csv table d = (d', Ok tt) ->
  forall e, In e (gedges (dgraph d')) ->
  exists f, dget f (seq_flows d') = Some (mkFlow f (eu e) (ev e)) /\ dget "id" (eat e) = Some (VStr f).
Proof.
  intros table d d' F D GF H e He. destruct (table_loaded _ _ _ F D GF H) as [L I].
  destruct (im_edges _ _ _ _ I e He) as [Ie Ae]. exists (get_flow_id (eu e) (ev e)). split.
  - apply (bk_flows _ _ (im_books _ _ _ _ I)). eauto.
  - rewrite Ae. unfold conn_attrs. destruct (connection_condition _ _) as [c|]; [destruct (String.eqb c "")|]; reflexivity.
Qed.

(** A loop back to the row before shares one edge of the diagram with the forward flow,
    which loses its identifier. *)
Definition straight_loop : list (order_label * row) :=
  [rw "0" "begin" ""; rw "1" "x" ""; rw "2" "y" ""; rw "3" "goto 1" ""; rw "4" "end" "yes"].
Theorem C67_every_flow_has_its_edge_refuted : exists table d' f r, documented table /\
  load_diagram_from_csv table empty_diagram = (d', Ok tt) /\
  dget f (seq_flows d') = Some r /\
  forall e, In e (gedges (dgraph d')) -> dget "id" (eat e) <> Some (VStr f).
Proof.
  exists straight_loop, (fst (load_diagram_from_csv straight_loop empty_diagram)), "1__2", (mkFlow "1__2" "1" "2").
  split; [apply check_documented; vm_compute; reflexivity|]. vm_compute. split; [reflexivity|]. split; [reflexivity|].
  intros e H. repeat (destruct H as [<- |H]; [vm_compute; intros X; discriminate X|]). contradiction.
Qed.

(** * C51 *)
(** A row that is not terminated and has no continuation. *)
Definition dead (rows : dict row) (o : string) : Prop :=
  onward rows o /\ (forall m, ~ follows rows o m) /\ ~ opens rows o /\ (forall m, ~ closes rows o m).
(** A row that can be connected. *)
Definition connectable (rows : dict row) (o : string) : Prop :=
  onward rows o -> (exists m, follows rows o m) \/ opens rows o \/
    exists m, closes rows o m /\ (forall m', closes rows o m' -> m' = m) /\ (2 <= value m)%Z.

Theorem C51_dead_row : forall table d, fresh d -> documented table ->
  (exists o, dead (rows_of table) o) ->
  exists d' msg, load_diagram_from_csv table d = (d', Err (BpmnPythonError msg)).
Proof.
  intros table d F D [o [On [Nf [Nop Nc]]]].
  pose proof (load_outcome table d F) as X. rewrite (rows_cleaned table (proj1 D)) in X.
  destruct (X D) as [[A _]|[d' [msg [A _]]]]; [|eauto]. exfalso.
  destruct (A o (onward_in _ _ On) On) as [[m Q]|[Q|[m [Q _]]]]; [eapply Nf; eauto|auto|eapply Nc; eauto].
Qed.
Theorem C51_names_the_first_dead_row : forall table d, fresh d -> documented table ->
  forall pre o post, orders (rows_of table) = pre ++ o :: post -> dead (rows_of table) o ->
  (forall x, In x pre -> connectable (rows_of table) x) ->
  exists d', load_diagram_from_csv table d =
    (d', Err (BpmnPythonError ("Something wrong in csv file syntax - look for " ++ o))).
Proof.
  intros table d F D pre o post E [On [Nf [Nop Nc]]] Pre.
  pose proof (load_outcome table d F) as X. rewrite (rows_cleaned table (proj1 D)) in X.
  assert (Bad : ~ row_fine (rows_of table) o).
  { intros Q. destruct (Q On) as [[m Y]|[Y|[m [Y _]]]]; [eapply Nf; eauto|auto|eapply Nc; eauto]. }
  destruct (X D) as [[A _]|[d' [msg [A [pre' [o' [post' [E' [P1 [P2 P3]]]]]]]]]].
  - exfalso. apply Bad, A. rewrite E. apply in_app_iff. right; left; auto.
  - assert (Q : o' = o).
    { rewrite E in E'. clear - E' Bad Pre P1 P2. revert pre' E' P1. induction pre as [|a pre IH]; intros [|b pre'] E' P1.
      - inv E'. auto.
      - inv E'. exfalso. apply Bad. apply P1. left; auto.
      - inv E'. exfalso. apply P2. apply Pre. left; auto.
      - inv E'. eapply IH; eauto; intros; [apply Pre|apply P1]; right; auto. }
    subst o'. exists d'. rewrite A, P3; auto.
Qed.
Definition dead_end : list (order_label * row) :=
  [rw "0" "begin" ""; rw "1" "x" ""; rw "3" "end" "yes"].
Lemma dead_end_row : dead (rows_of dead_end) "1".
Proof.
  assert (N : forall p n, numbered "1" p n -> p = "" /\ n = "1").
  { intros p n H. apply (numbered_unique "1"); auto. apply number_numbered. split; [discriminate|].
    intros c [<- |[]]. vm_compute. auto. }
  split; [|split; [|split]].
  - exists (mkRow "x" "" "" "" ""). split; [vm_compute; auto|discriminate].
  - intros m [p [n [H [-> I]]]]. apply N in H. destruct H as [-> ->]. vm_compute in I. intuition discriminate.
  - intros [p [n [H I]]]. apply N in H. destruct H as [-> ->]. vm_compute in I. intuition discriminate.
  - intros m C. apply (closes_branch _ _ _ C). split; [discriminate|]. intros c [<- |[]]. vm_compute. auto.
Qed.
Example C51_example : documented dead_end /\ dead (rows_of dead_end) "1" /\
  snd (load_diagram_from_csv dead_end empty_diagram) =
  Err (BpmnPythonError "Something wrong in csv file syntax - look for 1").
Proof.
  split; [apply check_documented; vm_compute; reflexivity|]. split; [exact dead_end_row|]. vm_compute. reflexivity.
Qed.
(** Loading a table without goto rows succeeds exactly when every row can be connected. *)
Theorem C51_success : forall table d, fresh d -> documented table -> goto_free table ->
  ((exists d', load_diagram_from_csv table d = (d', Ok tt)) <->
   forall o, In o (orders (rows_of table)) -> connectable (rows_of table) o).
Proof.
  intros table d F D GF. pose proof (load_outcome table d F) as X. rewrite (rows_cleaned table (proj1 D)) in X.
  destruct (X D) as [[A B]|[d' [msg [A [pre' [o' [post' [E' [P1 [P2 P3]]]]]]]]]].
  - split; intros _; [exact A|]. apply B. apply free_rows; auto.
  - split.
    + intros [d2 C]. rewrite A in C. discriminate.
    + intros C. exfalso. apply P2. apply C. rewrite E'. apply in_app_iff. right; left; auto.
Qed.
Example C51_success_example : exists d', load_diagram_from_csv sample empty_diagram = (d', Ok tt).
Proof. exists sample_diagram. exact sample_loads. Qed.

(** * C54 *)
Theorem C54_process_lists_rows : forall table d d', fresh d -> documented table -> goto_free table ->
  load_diagram_from_csv table d = (d', Ok tt) ->
  exists p, dget "process_1" (procs d') = Some p /\
    dget "node_ids" p = Some (VList (orders (rows_of table))).
Proof.
  intros table d d' F D GF H. destruct (table_loaded _ _ _ F D GF H) as [L I].
  destruct (im_meta _ _ _ _ I) as [d1 [P [M _]]].
  destruct (populate_eq (d, rows_of table)) as [dd [Q [_ [_ Pr]]]]. cbn [fst snd] in *. rewrite P in Q. inv Q.
  rewrite M, Pr, dget_dset. rewrite eqb_refl'. eexists. split; [reflexivity|]. reflexivity.
Qed.
Example C54_example : option_map (dget "node_ids") (dget "process_1" (procs sample_diagram)) =
  Some (Some (VList ["0"; "1"; "2a1"; "2b1"; "2b2a"; "2b2b"; "3"; "4"])).
Proof. vm_compute. reflexivity. Qed.
Theorem C54_lists_its_nodes_refuted : exists table d' p ids, load_diagram_from_csv table empty_diagram = (d', Ok tt) /\
  dget "process_1" (procs d') = Some p /\ dget "node_ids" p = Some (VList ids) /\
  (exists n, is_node d' n /\ ~ In n ids) /\ (exists n, In n ids /\ ~ is_node d' n).
Proof.
  exists two_way_goto. eexists. eexists. eexists. split; [vm_compute; reflexivity|]. split; [vm_compute; reflexivity|].
  split; [reflexivity|]. split.
  - exists "3_join". split; vm_compute; [auto 20|intuition discriminate].
  - exists "3". split; vm_compute; [auto 20|intuition discriminate].
Qed.

(** * C49 *)
(** The orders 0, 1, ..., n. *)
Definition step (i : nat) : string := zstr (Z.of_nat i).
Definition steps (n : nat) : list string := map step (seq 0 (S n)).

Lemma step_number : forall i, number (step i) /\ value (step i) = Z.of_nat i.
Proof. intros i. unfold step. split; [apply zstr_number; lia|apply value_zstr; lia]. Qed.
Lemma step_inj : forall i j, step i = step j -> i = j.
Proof. intros i j E. pose proof (proj2 (step_number i)). pose proof (proj2 (step_number j)). rewrite E in H. lia. Qed.
Lemma in_steps : forall n x, In x (steps n) <-> exists i, i <= n /\ x = step i.
Proof.
  intros n x. unfold steps. rewrite in_map_iff. split.
  - intros [i [<- H]]. apply in_seq in H. exists i. split; auto. lia.
  - intros [i [H ->]]. exists i. split; auto. apply in_seq. lia.
Qed.
Lemma steps_distinct : forall n, NoDup (steps n).
Proof. intros n. apply FinFun.Injective_map_NoDup; [intros i j; apply step_inj|apply seq_NoDup]. Qed.

Section Straight.
  Variables (rows : dict row) (n : nat).
  Hypothesis Eo : orders rows = steps n.
  Hypothesis Et : forall i r, In (step i, r) rows -> (r_terminated r = "yes" <-> i = n).

  Lemma straight_onward : forall o, onward rows o <-> exists i, i < n /\ o = step i.
  Proof.
    intros o. split.
    - intros [r [Hr Nt]]. assert (Ho : In o (orders rows)) by (apply in_map_iff; exists (o, r); auto).
      rewrite Eo in Ho. apply in_steps in Ho. destruct Ho as [i [Hi ->]]. exists i. split; auto.
      destruct (Nat.eq_dec i n) as [-> |]; [|lia]. exfalso. apply Nt. apply (Et n r Hr). reflexivity.
    - intros [i [Hi ->]]. assert (Ho : In (step i) (orders rows)) by (rewrite Eo; apply in_steps; exists i; split; [lia|auto]).
      apply in_map_iff in Ho. destruct Ho as [[o r] [E Hr]]. cbn [fst] in E. subst o. exists r. split; auto.
      intros C. apply (Et i r Hr) in C. lia.
  Qed.
  Lemma straight_follows : forall i m, follows rows (step i) m <-> i < n /\ m = step (S i).
  Proof.
    intros i m. destruct (step_number i) as [N V]. assert (Z : zstr (value (step i) + 1) = step (S i)).
    { rewrite V. unfold step. f_equal. lia. }
    split.
    - intros [p [q [Nq [-> Hm]]]]. destruct (numbered_unique _ _ _ _ _ Nq (number_numbered _ N)) as [-> ->].
      unfold next in *. change (In (zstr (value (step i) + 1)) (orders rows)) in Hm.
      change (i < n /\ zstr (value (step i) + 1) = step (S i)). rewrite Z in *. split; auto.
      rewrite Eo in Hm. apply in_steps in Hm. destruct Hm as [j [Hj E]]. apply step_inj in E. lia.
    - intros [Hi ->]. exists "", (step i). split; [apply number_numbered; auto|]. unfold next. rewrite Z. split; auto.
      rewrite Eo. apply in_steps. exists (S i). split; auto.
  Qed.
  Lemma straight_raw : forall s t, raw_flow rows s t <-> exists i, i < n /\ s = step i /\ t = step (S i).
  Proof.
    assert (A : forall o, onward rows o -> exists m, follows rows o m).
    { intros o On. apply straight_onward in On. destruct On as [i [Hi ->]]. exists (step (S i)). apply straight_follows. auto. }
    assert (B : forall o, ~ splits rows o) by (intros o [X [Y _]]; destruct (A o X) as [m Z]; eapply Y; eauto).
    assert (C : forall o m, ~ merges rows o m) by (intros o m [X [Y _]]; destruct (A o X) as [x Z]; eapply Y; eauto).
    intros s t. split.
    - intros R. destruct R as [o m [On F]|o S|o b S _|o m M|o m M];
        [|exfalso; eapply B; eauto|exfalso; eapply B; eauto|exfalso; eapply C; eauto|exfalso; eapply C; eauto].
      apply straight_onward in On. destruct On as [i [Hi ->]]. apply straight_follows in F. exists i. intuition.
    - intros [i [Hi [-> ->]]]. apply rf_sequence. split; [apply straight_onward; eauto|apply straight_follows; auto].
  Qed.
  Lemma straight_gateway : forall g, ~ gateway_of rows g.
  Proof.
    assert (A : forall o, onward rows o -> exists m, follows rows o m).
    { intros o On. apply straight_onward in On. destruct On as [i [Hi ->]]. exists (step (S i)). apply straight_follows. auto. }
    intros g [[o [[X [Y _]] _]]|[o [m [[X [Y _]] _]]]]; destruct (A o X) as [x Z]; eapply Y; eauto.
  Qed.
End Straight.

(** Rows 0, 1, ..., n become a chain of n+1 nodes. *)
Theorem C49_linear_table : forall table d n, fresh d -> goto_free table ->
  orders (rows_of table) = steps n ->
  (forall i r, In (step i, r) (rows_of table) -> (r_terminated r = "yes" <-> i = n)) ->
  exists d', load_diagram_from_csv table d = (d', Ok tt) /\
    (forall x, is_node d' x <-> exists i, i <= n /\ x = step i) /\
    (forall s t, flow_between d' s t <-> exists i, i < n /\ s = step i /\ t = step (S i)) /\
    (forall i, outgoing_of d' (step i) = if Nat.ltb i n then [get_flow_id (step i) (step (S i))] else []) /\
    (forall i, incoming_of d' (step (S i)) = if Nat.ltb i n then [get_flow_id (step i) (step (S i))] else []) /\
    incoming_of d' (step 0) = [].
Proof.
  intros table d n F GF Eo Et.
  assert (D : documented table).
  { split; [rewrite Eo; apply steps_distinct|]. intros o Ho. rewrite Eo in Ho. apply in_steps in Ho.
    destruct Ho as [i [_ ->]]. left. apply step_number. }
  destruct (proj2 (C51_success table d F D GF)) as [d' H].
  { intros o Ho On. apply (straight_onward _ _ Eo Et) in On. destruct On as [i [Hi ->]]. left. exists (step (S i)).
    apply (straight_follows _ _ Eo). auto. }
  exists d'. split; auto. destruct (table_loaded _ _ _ F D GF H) as [L I].
  destruct (C66_nodes_and_flows _ _ _ F D GF H) as [N [Fl _]].
  assert (ND : forall g, ~ dissolved (rows_of table) g) by (intros g [X _]; eapply straight_gateway; eauto).
  assert (TF : forall s t, table_flow (rows_of table) s t <-> exists i, i < n /\ s = step i /\ t = step (S i)).
  { intros s t. rewrite <- (straight_raw _ _ Eo Et). unfold table_flow. split.
    - intros [_ [_ [X|[g [X _]]]]]; auto. exfalso. eapply ND; eauto.
    - intros X. split; auto. }
  pose proof (im_books _ _ _ _ I) as B.
  assert (InL : forall s t, In (s, t) L <-> exists i, i < n /\ s = step i /\ t = step (S i)).
  { intros s t. rewrite (im_flows _ _ _ _ I). apply TF. }
  assert (One : forall (f : string * string -> bool) a (l : list (string * string)), NoDup l -> In a l ->
    (forall x, In x l -> (f x = true <-> x = a)) -> filter f l = [a]).
  { clear. intros f a. induction l as [|x l IH]; intros Nd Ha Hf; [contradiction|]. inv Nd. simpl.
    destruct (f x) eqn:E.
    - apply Hf in E; [|left; auto]. subst x. f_equal. clear IH Ha. apply filter_nil. intros y Hy.
      destruct (f y) eqn:E2; auto. apply Hf in E2; [|right; auto]. subst. contradiction.
    - destruct Ha as [-> |Ha].
      + assert (X : f a = true) by (apply Hf; [left; auto|reflexivity]). congruence.
      + apply IH; auto. intros y Hy. apply Hf. right; auto. }
  assert (None_ : forall (f : string * string -> bool) l, (forall x, In x l -> f x = false) -> filter f l = []).
  { intros f l. apply filter_nil. }
  split; [|split; [|split; [|split]]].
  - intros x. rewrite N. unfold table_node. rewrite Eo, in_steps. split.
    + intros [[X|X] _]; auto. exfalso. eapply straight_gateway; eauto.
    + intros X. split; auto.
  - intros s t. rewrite Fl. apply TF.
  - intros i. rewrite (bk_out _ _ B). destruct (Nat.ltb i n) eqn:Hi.
    + apply Nat.ltb_lt in Hi. rewrite (One _ (step i, step (S i))); [reflexivity|apply I|apply InL; eauto|].
      intros [s t] Hx. apply InL in Hx. destruct Hx as [j [Hj [-> ->]]]. rewrite from_true. cbn [fst]. split.
      * intros E. apply step_inj in E. subst. reflexivity.
      * intros E. inv E. reflexivity.
    + apply Nat.ltb_ge in Hi. rewrite None_; [reflexivity|]. intros [s t] Hx. apply InL in Hx.
      destruct Hx as [j [Hj [-> ->]]]. destruct (from (step i) (step j, step (S j))) eqn:E; auto.
      apply from_true in E. cbn [fst] in E. apply step_inj in E. lia.
  - intros i. rewrite (bk_in _ _ B). destruct (Nat.ltb i n) eqn:Hi.
    + apply Nat.ltb_lt in Hi. rewrite (One _ (step i, step (S i))); [reflexivity|apply I|apply InL; eauto|].
      intros [s t] Hx. apply InL in Hx. destruct Hx as [j [Hj [-> ->]]]. rewrite into_true. cbn [snd]. split.
      * intros E. apply step_inj in E. inv E. reflexivity.
      * intros E. injection E as _ E. exact E.
    + apply Nat.ltb_ge in Hi. rewrite None_; [reflexivity|]. intros [s t] Hx. apply InL in Hx.
      destruct Hx as [j [Hj [-> ->]]]. destruct (into (step (S i)) (step j, step (S j))) eqn:E; auto.
      apply into_true in E. cbn [snd] in E. apply step_inj in E. lia.
  - rewrite (bk_in _ _ B), None_; [reflexivity|]. intros [s t] Hx. apply InL in Hx.
    destruct Hx as [j [Hj [-> ->]]]. destruct (into (step 0) (step j, step (S j))) eqn:E; auto.
    apply into_true in E. cbn [snd] in E. apply step_inj in E. lia.
Qed.
Definition straight : list (order_label * row) :=
  [rw "0" "begin" ""; rw "1" "x" ""; rw "2" "y" ""; rw "3" "end" "yes"].
Example C49_example : goto_free straight /\ orders (rows_of straight) = steps 3 /\
  (forall i r, In (step i, r) (rows_of straight) -> (r_terminated r = "yes" <-> i = 3)) /\
  dkeys (seq_flows (fst (load_diagram_from_csv straight empty_diagram))) = ["0__1"; "1__2"; "2__3"].
Proof.
  split; [apply check_goto_free; vm_compute; reflexivity|]. split; [vm_compute; reflexivity|].
  split; [|vm_compute; reflexivity]. intros i r H.
  assert (X : forall j, step i = step j -> i = j) by (intros j; apply step_inj).
  change (rows_of straight) with [(step 0, mkRow "begin" "" "" "" ""); (step 1, mkRow "x" "" "" "" "");
    (step 2, mkRow "y" "" "" "" ""); (step 3, mkRow "end" "" "" "" "yes")] in H.
  repeat (destruct H as [H|H]; [injection H as H <-; symmetry in H; apply X in H; subst i;
    split; intros Q; try reflexivity; discriminate Q|]). contradiction.
Qed.

Print Assumptions C66_nodes_and_flows.
Print Assumptions C66_row_elements.
Print Assumptions C66_split_type.
Print Assumptions C50_flows_consistent.
Print Assumptions C50_every_table_refuted.
Print Assumptions C67_edges_of_flows.
Print Assumptions C67_flow_of_edge.
Print Assumptions C67_every_flow_has_its_edge_refuted.
Print Assumptions C51_dead_row.
Print Assumptions C51_names_the_first_dead_row.
Print Assumptions C51_success.
Print Assumptions C54_process_lists_rows.
Print Assumptions C54_lists_its_nodes_refuted.
Print Assumptions C49_linear_table.
