(** Tables without goto rows describe processes without loops (C84). *)
From Coq Require Import String Ascii List Bool Arith ZArith Lia.
From Verif Require Import Py PyFacts Consts Nx NxFacts Rep SpecRep RepFacts SpecLayout Classify Layouter Prop_Layout.
From Verif Require Import CsvRegex CsvImport SpecCsv RegexFacts CsvFacts SpecFlow CsvGhost CsvFill CsvLast CsvGraph CsvCoherent Prop_CsvImport Prop_CsvLayout.
Import ListNotations.
Open Scope string_scope.
Open Scope list_scope.

(** * Lexicographic order *)
Fixpoint lexlt (a b : list Z) : Prop :=
  match a, b with
  | _, [] => False
  | [], _ :: _ => True
  | x :: a', y :: b' => (x < y)%Z \/ (x = y /\ lexlt a' b')
  end.
Lemma lex_irrefl : forall a, ~ lexlt a a.
Proof. induction a as [|x a IH]; cbn; [auto|]. intros [H|[_ H]]; [lia|auto]. Qed.
Lemma lex_trans : forall a b c, lexlt a b -> lexlt b c -> lexlt a c.
Proof.
  induction a as [|x a IH]; intros [|y b] [|z c]; cbn; auto; try contradiction.
  intros [H|[-> H]] [K|[-> K]]; [left; lia|auto|auto|]. right. split; eauto.
Qed.
Lemma lex_more : forall a x b, lexlt a (a ++ x :: b).
Proof. induction a as [|y a IH]; cbn; auto. Qed.
Lemma lex_step : forall p x y a b, (x < y)%Z -> lexlt (p ++ x :: a) (p ++ y :: b).
Proof. induction p as [|z p IH]; cbn; auto. Qed.

(** * The numbers and letters of an order *)
Definition code (c : ascii) : Z := Z.of_nat (nat_of_ascii c).
Definition done (w : option Z) : list Z := match w with Some v => [v] | None => [] end.
Fixpoint pieces_from (w : option Z) (s : string) : list Z :=
  match s with
  | "" => done w
  | String c t =>
    if is_digit c then pieces_from (Some (10 * match w with Some v => v | None => 0 end + (code c - 48))%Z) t
    else done w ++ code c :: pieces_from None t
  end.
Definition pieces (s : string) : list Z := pieces_from None s.
Lemma pieces_digits : forall n w, sall is_digit n = true -> pieces_from (Some w) n = [value_from w n].
Proof.
  induction n as [|c n IH]; intros w H; cbn; [reflexivity|]. cbn in H. apply andb_prop in H. destruct H as [H1 H2]. rewrite H1. apply IH. exact H2.
Qed.
Lemma pieces_number : forall n, number n -> pieces n = [value n].
Proof.
  intros n H. apply number_spec in H. destruct H as [N D]. destruct n as [|c n]; [congruence|]. unfold pieces, value. cbn. cbn in D.
  apply andb_prop in D. destruct D as [D1 D2]. rewrite D1. rewrite pieces_digits by exact D2. reflexivity.
Qed.
Lemma pieces_letter : forall q w c t, is_digit c = false -> pieces_from w (q ++ String c t) = pieces_from w q ++ code c :: pieces t.
Proof.
  induction q as [|a q IH]; intros w c t H; cbn.
  - rewrite H. reflexivity.
  - destruct (is_digit a); [apply IH; exact H|]. rewrite IH by exact H. rewrite <- app_assoc. reflexivity.
Qed.
(** The prefix before a number. *)
Definition ended (p : string) : Prop := p = "" \/ exists q c, p = (q ++ String c "")%string /\ is_digit c = false.
Lemma pieces_after : forall p t, ended p -> pieces (p ++ t) = pieces p ++ pieces t.
Proof.
  intros p t [-> |[q [c [-> H]]]]; [reflexivity|]. unfold pieces. rewrite sapp_assoc. cbn [append]. rewrite !pieces_letter by exact H.
  rewrite <- app_assoc. reflexivity.
Qed.
Lemma not_digit : forall c, ~ digit c -> is_digit c = false.
Proof. intros c H. destruct (is_digit c) eqn:E; [|reflexivity]. exfalso. apply H. apply is_digit_spec. exact E. Qed.
Lemma latin_not : forall c, latin c -> is_digit c = false.
Proof. intros c H. apply not_digit. intros D. eapply latin_digit; eauto. Qed.
Lemma branch_char_not : forall c, branch_char c -> is_digit c = false.
Proof. intros c [H| ->]; [apply latin_not; exact H|reflexivity]. Qed.
Lemma numbered_ended : forall s p n, numbered s p n -> ended p.
Proof.
  intros s p n [_ [_ [-> |[[c [-> H]]|[q [c [-> [_ H]]]]]]]].
  - left. reflexivity.
  - right. exists "", c. split; [reflexivity|apply not_digit; exact H].
  - right. exists q, c. split; [reflexivity|apply branch_char_not; exact H].
Qed.
Lemma numbered_pieces : forall s p n, label s -> numbered s p n -> pieces s = pieces p ++ [value n].
Proof.
  intros s p n L N. rewrite (numbered_plain_eq s p n (label_plain s L) N). rewrite pieces_after by (eapply numbered_ended; eauto).
  rewrite (pieces_number n) by apply N. reflexivity.
Qed.
Lemma number_then : forall n c t, number n -> is_digit c = false -> pieces (n ++ String c t) = value n :: code c :: pieces t.
Proof.
  intros n c t N H. unfold pieces at 1. rewrite pieces_letter by exact H. change (pieces_from None n) with (pieces n). rewrite pieces_number by exact N. reflexivity.
Qed.
Lemma next_number : forall s p n, numbered s p n -> number (zstr (value n + 1)) /\ value (zstr (value n + 1)) = (value n + 1)%Z.
Proof.
  intros s p n [N _]. apply number_spec in N. assert (0 <= value n)%Z by (apply value_from_nonneg; [apply N|lia]).
  split; [apply zstr_number; lia|apply value_zstr; lia].
Qed.

(** * The rank *)
Definition rank (s : string) : list Z :=
  match pieces s with
  | v :: 95 :: 106 :: _ => [v - 1; 256]
  | l => l
  end%Z.
Definition plain_rank (l : list Z) : Prop := match l with _ :: 95 :: 106 :: _ => False | _ => True end%Z.
Lemma rank_plain : forall s, plain_rank (pieces s) -> rank s = pieces s.
Proof.
  intros s H. unfold rank. destruct (pieces s) as [|v l]; [reflexivity|]. destruct l as [|b l]; [reflexivity|].
  destruct (Z.eq_dec b 95) as [-> |Nb].
  - destruct l as [|e l]; [reflexivity|]. destruct (Z.eq_dec e 106) as [-> |Ne]; [destruct H|].
    destruct e as [|p|p]; try reflexivity. repeat (destruct p as [p|p|]; try reflexivity; try congruence).
  - destruct b as [|p|p]; try reflexivity. repeat (destruct p as [p|p|]; try reflexivity; try congruence).
Qed.
Lemma latin_code : forall c, latin c -> code c <> 95%Z /\ (code c < 256)%Z.
Proof.
  intros c H. split.
  - intros E. unfold code in E. assert (K : nat_of_ascii c = 95) by lia. assert (c = ascii_of_nat 95) by (rewrite <- K; symmetry; apply ascii_nat_embedding).
    subst c. revert H. unfold latin, is_in. vm_compute. intuition discriminate.
  - unfold code. pose proof (nat_ascii_bounded c). lia.
Qed.
Lemma concat_cons : forall x l, String.concat "" (x :: l) = (x ++ String.concat "" l)%string.
Proof. intros x [|y l]; cbn; [|reflexivity]. induction x as [|c x IH]; cbn; congruence. Qed.
Lemma branch_pieces : forall q c l k o, branch_label ((q, c) :: l) k o -> exists r, pieces o = value q :: code c :: r.
Proof.
  intros q c l k o [_ [P [_ E]]]. destruct (P q c (or_introl eq_refl)) as [Nq Lc]. eexists. rewrite E. unfold pairs_text. cbn [map fst snd].
  rewrite concat_cons. rewrite !sapp_assoc. cbn [append]. apply number_then; [exact Nq|apply latin_not; exact Lc].
Qed.
Lemma label_plain_rank : forall o, label o -> plain_rank (pieces o) /\ plain_rank (pieces o ++ code "_" :: pieces "split").
Proof.
  intros o [N|[l [k B]]].
  - rewrite pieces_number by exact N. split; exact Logic.I.
  - pose proof B as [Nl [P _]]. destruct l as [|[q c] l]; [congruence|]. destruct (P q c (or_introl eq_refl)) as [_ Lc].
    destruct (branch_pieces _ _ _ _ _ B) as [r ->]. destruct (latin_code c Lc) as [X _]. cbn [app plain_rank].
    destruct (code c) as [|u|u]; try (split; exact Logic.I).
    repeat (destruct u as [u|u|]; try (split; exact Logic.I); try congruence).
Qed.
Lemma rank_label : forall o, label o -> rank o = pieces o.
Proof. intros o L. apply rank_plain, label_plain_rank, L. Qed.
Lemma rank_split : forall o, label o -> rank (split_of o) = pieces o ++ code "_" :: pieces "split".
Proof.
  intros o L. assert (E : pieces (split_of o) = pieces o ++ code "_" :: pieces "split") by (unfold split_of, pieces at 1; rewrite pieces_letter; reflexivity).
  rewrite rank_plain; [exact E|]. rewrite E. apply label_plain_rank, L.
Qed.
Lemma rank_join : forall m, number m -> rank (join_of m) = [value m - 1; 256]%Z.
Proof.
  intros m N. unfold rank, join_of. change (m ++ "_join")%string with (m ++ String "_" "join")%string. rewrite number_then by (auto; reflexivity). reflexivity.
Qed.

(** * The flows go up *)
(** A row inside nested branches is followed by the row after the outermost block, if it
    merges at all. *)
Definition block_ends (rows : dict row) : Prop :=
  forall o q c p l k, In o (orders rows) -> branch_label ((q, c) :: p :: l) k o -> In (zstr (value q + 1)) (orders rows).

Section Rows.
Variable rows : dict row.
Hypothesis La : forall o, In o (orders rows) -> label o.
Hypothesis Un : forall o m m', merges rows o m -> merges rows o m' -> m = m'.
Hypothesis Be : block_ends rows.

Lemma onward_in : forall o, onward rows o -> In o (orders rows).
Proof using. intros o [r [H _]]. apply in_map_iff. exists (o, r). auto. Qed.
Lemma number_bound : forall q, number q -> (0 <= value q)%Z.
Proof using. intros q N. apply number_spec in N. apply value_from_nonneg; [apply N|lia]. Qed.
Lemma merge_up : forall o m, merges rows o m -> exists q c l k, branch_label ((q, c) :: l) k o /\ number m /\ value m = (value q + 1)%Z.
Proof using All.
  intros o m M. pose proof M as [On [F [Op [l [k [q [c [B [I [E J]]]]]]]]]]. pose proof B as [Nl [P _]]. destruct l as [|[q1 c1] l]; [congruence|].
  exists q1, c1, l, k. split; [exact B|]. destruct (P q1 c1 (or_introl eq_refl)) as [N1 _]. pose proof (number_bound _ N1) as V1.
  assert (Em : m = zstr (value q1 + 1)).
  { destruct l as [|p l].
    - destruct I as [I|[]]. congruence.
    - apply (Un o); [exact M|]. split; [exact On|]. split; [exact F|]. split; [exact Op|]. exists ((q1, c1) :: p :: l), k, q1, c1.
      split; [exact B|]. split; [left; reflexivity|]. split; [reflexivity|]. eapply Be; [apply onward_in; exact On|exact B]. }
  rewrite Em. split; [apply zstr_number; lia|apply value_zstr; lia].
Qed.
Lemma raw_up : forall s t, raw_flow rows s t -> lexlt (rank s) (rank t).
Proof using All.
  intros s t [o m [On [p [n [Nu [-> I]]]]]|o [On [_ _]]|o b [On [_ _]] [p [n [Nu [Br Ib]]]]|o m M|o m M].
  - rewrite (rank_label o) by (apply La, onward_in, On). rewrite (rank_label (next p n)) by (apply La, I).
    rewrite (numbered_pieces o p n) by (auto using onward_in). destruct (next_number _ _ _ Nu) as [N1 N2].
    unfold next. rewrite pieces_after by (eapply numbered_ended; eauto). rewrite (pieces_number _ N1). rewrite N2. apply lex_step. lia.
  - pose proof (La _ (onward_in o On)) as L. rewrite rank_label, rank_split by exact L. apply lex_more.
  - pose proof (La _ (onward_in o On)) as L. rewrite rank_split by exact L. rewrite (rank_label b) by auto. rewrite (numbered_pieces o p n L Nu).
    destruct (next_number _ _ _ Nu) as [N1 N2]. rewrite <- app_assoc. cbn [app]. destruct Br as [c [k [Bc Eb]]].
    assert (X : exists r, pieces b = pieces p ++ (value n + 1)%Z :: r).
    { destruct Eb as [-> | ->]; unfold next; rewrite !sapp_assoc, pieces_after by (eapply numbered_ended; eauto);
        cbn [append]; rewrite number_then by (auto using branch_char_not); rewrite N2; eauto. }
    destruct X as [r ->]. apply lex_step. lia.
  - destruct (merge_up o m M) as [q [c [l [k [B [Nm V]]]]]]. pose proof M as [On _]. rewrite (rank_label o) by (apply La, onward_in, On).
    rewrite rank_join by exact Nm. destruct (branch_pieces _ _ _ _ _ B) as [r ->]. rewrite V. pose proof B as [_ [P _]].
    destruct (P q c (or_introl eq_refl)) as [_ Lc]. destruct (latin_code c Lc) as [_ X]. cbn. right. split; [lia|]. left. exact X.
  - destruct (merge_up o m M) as [q [c [l [k [B [Nm V]]]]]]. rewrite rank_join by exact Nm. rewrite rank_label by (left; exact Nm).
    rewrite pieces_number by exact Nm. cbn. left. lia.
Qed.
Lemma table_up : forall s t, table_flow rows s t -> lexlt (rank s) (rank t).
Proof using All.
  intros s t [_ [_ [H|[g [_ [H K]]]]]]; [apply raw_up; exact H|]. eapply lex_trans; apply raw_up; eassumption.
Qed.
End Rows.

(** * C84 *)
(** The process of a table without goto rows has no loops, if every block that contains
    another block is followed by a row. *)
Theorem C84_no_loops : forall table d, documented table -> goto_free table -> block_ends (rows_of table) ->
  load_diagram_from_csv table empty_diagram = (d, Ok tt) -> acyclic d.
Proof.
  intros table d D G Be H c [n P]. destruct (C83_ready_for_layout table d D G H) as [_ [_ [_ [_ F]]]].
  destruct (table_loaded _ _ _ fresh_empty D G H) as [L I].
  assert (U : forall f a b, flow d f a b -> lexlt (rank a) (rank b)).
  { intros f a b X. apply (table_up (rows_of table)); [apply D|apply I|exact Be|]. apply F. eauto. }
  assert (Q : forall a l b, path d a l b -> lexlt (rank a) (rank b)).
  { induction 1; [eauto|]. eapply lex_trans; eauto. }
  apply (lex_irrefl (rank n)). eapply Q; eauto.
Qed.

(** So the layouter orders the nodes without taking a flow for a way back, and whatever
    goes wrong in it goes wrong in the grid. *)
Theorem C84_layout_order : forall table d fuel, documented table -> goto_free table -> block_ends (rows_of table) ->
  load_diagram_from_csv table empty_diagram = (d, Ok tt) -> sort_bound d <= fuel ->
  exists s, (let* cls := generate_elements_clasification d in topological_sort fuel d cls) = Ok (s, []) /\
    forall g, grid_layout fuel d s = Ok g -> exists d', generate_layout fuel d = (d', Ok tt).
Proof.
  intros table d fuel D G Be H F. destruct (C83_ready_for_layout table d D G H) as [Co [AL [W [Dr _]]]].
  apply C65_only_the_grid_fails; auto. eapply C84_no_loops; eauto.
Qed.

(** Branches inside branches do not occur: nothing more is needed. *)
Theorem C84_no_nesting : forall table d, documented table -> goto_free table ->
  (forall o q c p l k, In o (orders (rows_of table)) -> ~ branch_label ((q, c) :: p :: l) k o) ->
  load_diagram_from_csv table empty_diagram = (d, Ok tt) -> acyclic d.
Proof.
  intros table d D G N H. eapply C84_no_loops; eauto. intros o q c p l k I B. exfalso. eapply N; eauto.
Qed.

(** A nested branch with no row after the outer block continues at the row whose number
    follows the number of the inner block, which may lie before the outer one. *)
Definition loop_table : list (order_label * row) :=
  [(OInt 0, mkRow "begin" "" "" "" ""); (OInt 1, mkRow "check" "" "" "" ""); (OInt 2, mkRow "pay" "" "" "" ""); (OInt 3, mkRow "pack" "" "" "" "");
   (OInt 4, mkRow "ship" "" "" "" ""); (OStr "5a1", mkRow "call" "yes" "" "" ""); (OStr "5a2a1", mkRow "write" "x" "" "" "");
   (OStr "5a2b1", mkRow "wait" "y" "" "" ""); (OStr "5b1", mkRow "end" "no" "" "" "yes")].
Definition loop_diagram : diagram := fst (load_diagram_from_csv loop_table empty_diagram).
Lemma loop_loads : load_diagram_from_csv loop_table empty_diagram = (loop_diagram, Ok tt).
Proof. vm_compute. reflexivity. Qed.
Lemma recorded_flow : forall table d s t, documented table -> goto_free table -> load_diagram_from_csv table empty_diagram = (d, Ok tt) ->
  dget (get_flow_id s t) (seq_flows d) = Some (mkFlow (get_flow_id s t) s t) -> exists f, flow d f s t.
Proof.
  intros table d s t D G H X. apply (C83_ready_for_layout table d D G H).
  apply (C66_nodes_and_flows table empty_diagram d fresh_empty D G H). eexists. exact X.
Qed.
Theorem C84_no_loops_refuted : exists table d, documented table /\ goto_free table /\ load_diagram_from_csv table empty_diagram = (d, Ok tt) /\
  cycle d ["3"; "4"; "4_split"; "5a1"; "5a1_split"; "5a2a1"; "3_join"].
Proof.
  exists loop_table, loop_diagram. assert (D : documented loop_table) by (apply check_documented; vm_compute; reflexivity).
  assert (G : goto_free loop_table) by (apply check_goto_free; vm_compute; reflexivity).
  split; [exact D|]. split; [exact G|]. split; [exact loop_loads|].
  pose proof (fun s t => recorded_flow loop_table loop_diagram s t D G loop_loads) as F. clear D G.
  destruct (F "3" "4") as [f0 F0]; [vm_compute; reflexivity|].
  destruct (F "4" "4_split") as [f1 F1]; [vm_compute; reflexivity|].
  destruct (F "4_split" "5a1") as [f2 F2]; [vm_compute; reflexivity|].
  destruct (F "5a1" "5a1_split") as [f3 F3]; [vm_compute; reflexivity|].
  destruct (F "5a1_split" "5a2a1") as [f4 F4]; [vm_compute; reflexivity|].
  destruct (F "5a2a1" "3_join") as [f5 F5]; [vm_compute; reflexivity|].
  destruct (F "3_join" "3") as [f6 F6]; [vm_compute; reflexivity|].
  clear F. exists "3".
  apply (path_more _ _ _ _ _ _ F0).
  apply (path_more _ _ _ _ _ _ F1).
  apply (path_more _ _ _ _ _ _ F2).
  apply (path_more _ _ _ _ _ _ F3).
  apply (path_more _ _ _ _ _ _ F4).
  apply (path_more _ _ _ _ _ _ F5).
  apply (path_one _ _ _ _ F6).
Qed.

(** The table of C66 has a block inside a block, followed by row 3. *)
Example C84_example : documented sample /\ goto_free sample /\ block_ends (rows_of sample) /\
  load_diagram_from_csv sample empty_diagram = (sample_diagram, Ok tt) /\ acyclic sample_diagram /\
  exists l k, branch_label (("2", "b"%char) :: l) k "2b2a" /\ l <> [].
Proof.
  split; [apply sample_documented|]. split; [apply sample_documented|].
  assert (B : block_ends (rows_of sample)).
  { intros o q c p l k I B. destruct (branch_pieces _ _ _ _ _ B) as [r E]. clear B. revert E. generalize (value q) (code c). intros v x E.
    vm_compute in I. repeat (destruct I as [<- |I]; [vm_compute in E; first [discriminate E|injection E as <- _ _; vm_compute; tauto]|]). contradiction. }
  split; [exact B|]. split; [exact sample_loads|]. split; [eapply C84_no_loops; [apply sample_documented|apply sample_documented|exact B|exact sample_loads]|].
  exists [("2", "a"%char)], "". split; [|discriminate]. split; [discriminate|]. split; [|split; [left; reflexivity|reflexivity]].
  intros n c [X|[X|[]]]; injection X as <- <-; (split; [apply number_spec; split; [discriminate|reflexivity]|unfold latin, is_in; vm_compute; tauto]).
Qed.
Print Assumptions C84_no_loops.
Print Assumptions C84_layout_order.
Print Assumptions C84_no_nesting.
Print Assumptions C84_no_loops_refuted.
