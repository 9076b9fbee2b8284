(** Tables whose jumps lead forward describe processes without loops (C121).
    Each theorem is followed by a concrete case of its hypotheses. *)
From Coq Require Import String Ascii List Bool Arith ZArith Lia Permutation Relations.
From Verif Require Import Py PyFacts Consts Nx NxFacts Rep SpecRep RepFacts SpecLayout.
From Verif Require Import CsvRegex CsvImport SpecCsv RegexFacts CsvFacts CsvTable SpecFlow SpecGoto CsvGhost CsvFill CsvLast CsvTotal GotoFacts CsvGoto CsvJump.
From Verif Require Import Prop_CsvRows Prop_CsvImport Prop_CsvGoto Prop_CsvAcyclic Prop_CsvAnyGoto Prop_CsvChains.
Import ListNotations.
Open Scope string_scope.
Open Scope list_scope.

(** The order [o] begins with the number [n]. *)
Definition begins (o n : string) : Prop := number n /\ (o = n \/ exists c r, o = (n ++ String c r)%string /\ ~ digit c).
(** The goal of every goto row is a row whose order begins with a greater number. *)
Definition jumps_ahead (rows : dict row) : Prop := forall o t, jumps_to rows o t ->
  In t (orders rows) /\ exists n m, begins o n /\ begins t m /\ (value n < value m)%Z.

(** * The jumps go up *)
Lemma not_digit : forall c, ~ digit c -> is_digit c = false.
Proof. intros c H. destruct (is_digit c) eqn:E; auto. elim H. apply is_digit_spec. exact E. Qed.
Lemma begins_pieces : forall o n, begins o n -> exists l, pieces o = value n :: l.
Proof.
  intros o n [N [-> |[c [r [-> D]]]]]; [exists []; apply pieces_number; exact N|]. eexists. apply number_then; [exact N|apply not_digit; exact D].
Qed.
Lemma ahead_up : forall rows o t, good_rows rows -> jumps_ahead rows -> jumps_to rows o t -> lexlt (rank o) (rank t).
Proof.
  intros rows o t G A J. destruct (A o t J) as [It [n [m [Bn [Bm V]]]]]. destruct J as [r [Io _]].
  assert (La : forall x, In x (orders rows) -> label x) by apply G.
  rewrite (rank_label o) by (apply La; exact (in_map fst _ _ Io)). rewrite (rank_label t) by (apply La; exact It).
  destruct (begins_pieces _ _ Bn) as [l ->]. destruct (begins_pieces _ _ Bm) as [k ->]. left. exact V.
Qed.
Lemma lands_up : forall rows m y, good_rows rows -> jumps_ahead rows -> lands rows m y -> m = y \/ lexlt (rank m) (rank y).
Proof.
  intros rows m y G A H. induction H as [y _|o t y J _ IH]; [left; reflexivity|right]. pose proof (ahead_up rows o t G A J) as U.
  destruct IH as [<- |IH]; [exact U|eapply lex_trans; eauto].
Qed.
Lemma loaded_merges : forall table d d', fresh d -> documented table -> load_diagram_from_csv table d = (d', Ok tt) -> row_onward (rows_of table).
Proof.
  intros table d d' Fr D H. pose proof (rows_cleaned table (proj1 D)) as Cl. set (rows := rows_of table) in *.
  assert (G : good_rows rows) by exact D. assert (Bl : blank d) by exact Fr.
  destruct (import_phases _ _ _ H) as [d0 [s1 [s2 [d3 [s4 [s5 [P0 [P1 [P2 [P3 [P4 [P5 ->]]]]]]]]]]]]. rewrite Cl in P0, P1.
  assert (Bl0 : blank d0).
  { destruct (populate_eq (d, rows)) as [dd [Q [Gd [Fd _]]]]. cbn [fst snd] in *. rewrite P0 in Q. inv Q. destruct Bl. split; congruence. }
  destruct (rows_imported rows d0 Bl0 (proj1 G)) as [d1 [Q1 [R M1]]].
  { intros o Ho. eapply good_plain; eauto. }
  rewrite Q1 in P1. injection P1 as <-.
  destruct (fill_all rows d1 s2 G R P2) as [T2 [L F]].
  intros o m m' M. eapply (fi_merge _ _ _ _ _ F); eauto. apply onward_in, M.
Qed.

(** * C121 *)
(** If every jump leads forward and every block that contains another block is followed by a row, no way through the
    loaded diagram comes back to where it began. *)
Theorem C121_no_loops : forall table d d', fresh d -> documented table -> one_entry (rows_of table) ->
  block_ends (rows_of table) -> jumps_ahead (rows_of table) -> load_diagram_from_csv table d = (d', Ok tt) ->
  (forall x, ~ clos_trans string (flow_to d') x x) /\ acyclic d'.
Proof.
  intros table d d' F D OE Be A H. assert (G : good_rows (rows_of table)) by exact D. pose proof (loaded_merges table d d' F D H) as Un.
  destruct (C120_flows_consistent table d d' F D OE H) as [FC [FO [FI _]]].
  assert (U : forall x y, goes_to (rows_of table) x y -> lexlt (rank x) (rank y)).
  { intros x y [_ [m [R La]]]. assert (R1 : lexlt (rank x) (rank m)) by (eapply (raw_up (rows_of table)); eauto; apply G).
    destruct (lands_up _ _ _ G A La) as [<- |L]; [exact R1|eapply lex_trans; eauto]. }
  assert (X : forall x, ~ clos_trans string (flow_to d') x x).
  { intros x T.
    assert (Nx : is_node d' x).
    { apply clos_trans_t1n in T. assert (E : exists z, flow_to d' x z) by (inversion T; eauto). destruct E as [z [f [r [Q [<- _]]]]]. apply (FC f r Q). }
    apply (C120_ways table d d' F D OE H x x Nx Nx) in T. apply (lex_irrefl (rank x)).
    assert (Y : forall a b, clos_trans string (goes_to (rows_of table)) a b -> lexlt (rank a) (rank b)).
    { intros a b Q. induction Q as [a b Q|a b c _ I1 _ I2]; [auto|eapply lex_trans; eauto]. }
    apply Y. exact T. }
  split; [exact X|]. intros l [n P]. apply (X n).
  assert (S1 : forall f a b, flow d' f a b -> flow_to d' a b).
  { intros f a b [O [I _]]. destruct (FO _ _ O) as [t Q1]. destruct (FI _ _ I) as [s Q2]. assert (E : mkFlow f a t = mkFlow f s b) by congruence.
    injection E as -> ->. exists f, (mkFlow f s b). split; [exact Q2|]. split; reflexivity. }
  assert (S2 : forall a k b, path d' a k b -> clos_trans string (flow_to d') a b).
  { intros a k b Q. induction Q as [f a b Q|f a b k c Q _ IH]; [apply t_step; eauto|]. eapply t_trans; [apply t_step; eauto|exact IH]. }
  eauto.
Qed.
(** Two jumps lead ahead to the last row: from the first branch to row 6, and on to row 8. *)
Definition onward_table : list (order_label * row) :=
  [rw "0" "begin" ""; rw "1" "write" ""; rw "2" "review" ""; jump "3a1" "6"; (OStr "3b1", mkRow "publish" "fine" "" "" "");
   rw "4" "done" "yes"; (OStr "6", mkRow "goto 8" "" "" "" ""); rw "7" "file" ""; rw "8" "close" "yes"].
Definition onward_diagram : diagram := fst (load_diagram_from_csv onward_table empty_diagram).
Example C121_no_loops_example : documented onward_table /\ one_entry (rows_of onward_table) /\ block_ends (rows_of onward_table) /\
  jumps_ahead (rows_of onward_table) /\ jumps_to (rows_of onward_table) "3a1" "6" /\ jumps_to (rows_of onward_table) "6" "8" /\
  load_diagram_from_csv onward_table empty_diagram = (onward_diagram, Ok tt) /\
  map (fun p => (fl_src (snd p), fl_tgt (snd p))) (seq_flows onward_diagram) =
    [("0", "1"); ("1", "2"); ("2", "2_split"); ("2_split", "3b1"); ("7", "8"); ("2_split", "8"); ("3b1", "4")].
Proof.
  assert (D : documented onward_table) by (apply check_documented; vm_compute; reflexivity).
  split; [exact D|]. split; [apply one_entry_ok; [exact D|vm_compute; reflexivity|vm_compute; reflexivity]|]. clear D. split.
  { intros o q c p l k I B. destruct (branch_pieces _ _ _ _ _ B) as [r E]. clear B. revert E. generalize (value q) (code c). intros v x E.
    vm_compute in I. repeat (destruct I as [<- |I]; [vm_compute in E; first [discriminate E|injection E as <- _ _; vm_compute; tauto]|]). contradiction. }
  assert (Nb : forall n, match n with "" => false | _ => sall is_digit n end = true -> number n).
  { intros n H. apply number_spec. destruct n; [discriminate|]. split; [discriminate|exact H]. }
  split.
  { intros o t [r [I [G T]]]. apply (goto_target_spec r t G) in T. apply is_goto_spec in G.
    assert (In (o, t) [("3a1", "6"); ("6", "8")]) as Q.
    { vm_compute in I. repeat (destruct I as [I|I]; [injection I as <- <-; first [vm_compute in G; discriminate G|vm_compute in T; injection T as <-; vm_compute; tauto]|]). contradiction. }
    clear I G T r. destruct Q as [Q|[Q|[]]]; injection Q as <- <-.
    - split; [vm_compute; tauto|]. exists "3", "6". split; [|split; [split; [apply Nb; reflexivity|left; reflexivity]|vm_compute; reflexivity]].
      split; [apply Nb; reflexivity|]. right. exists "a"%char, "1". split; [reflexivity|]. intros C. apply is_digit_spec in C. discriminate C.
    - split; [vm_compute; tauto|]. exists "6", "8". split; [|split; [|vm_compute; reflexivity]]; (split; [apply Nb; reflexivity|left; reflexivity]). }
  split.
  { exists (snd (jump "3a1" "6")). split; [clear; vm_compute; tauto|]. apply jump_goes; vm_compute; reflexivity. }
  split.
  { exists (mkRow "goto 8" "" "" "" ""). split; [clear; vm_compute; tauto|]. apply (proj1 (names_ok "8" "6" (mkRow "goto 8" "" "" "" ""))). vm_compute. reflexivity. }
  split; [vm_compute; reflexivity|]. vm_compute. reflexivity.
Qed.

(** Every loop passes the place where a jump that does not lead forward ends. *)
Definition leads_ahead (o t : string) : Prop := exists n m, begins o n /\ begins t m /\ (value n < value m)%Z.
Theorem C121_loops_pass_jumps : forall table d d' (back : string -> Prop), fresh d -> documented table -> one_entry (rows_of table) ->
  block_ends (rows_of table) -> (forall o t, jumps_to (rows_of table) o t -> In t (orders (rows_of table)) /\ (back o \/ leads_ahead o t)) ->
  load_diagram_from_csv table d = (d', Ok tt) -> forall x, clos_trans string (flow_to d') x x ->
  exists o y, goto_order (rows_of table) o /\ back o /\ lands (rows_of table) o y /\ is_node d' y /\
    clos_trans string (flow_to d') x y /\ clos_trans string (flow_to d') y x.
Proof.
  intros table d d' back F D OE Be A H x T. assert (G : good_rows (rows_of table)) by exact D. pose proof (loaded_merges table d d' F D H) as Un.
  destruct (C120_flows_consistent table d d' F D OE H) as [FC _]. destruct (C118_left table d d' F D H) as [_ [Rn _]].
  pose proof (fun u v => C120_ways table d d' F D OE H u v) as Ways. set (rows := rows_of table) in *.
  assert (La : forall o, In o (orders rows) -> label o) by apply G.
  assert (LU : forall m y, lands rows m y -> m = y \/ lexlt (rank m) (rank y) \/ exists o, goto_order rows o /\ back o /\ lands rows o y).
  { intros m y L. induction L as [y _|o t y J L IH]; [left; reflexivity|]. destruct (A o t J) as [It Ab]. pose proof J as [r [Io [Go _]]]. right.
    destruct Ab as [B|[n [k [Bn [Bk V]]]]]; [right; exists o; split; [exists r; auto|split; [exact B|eapply la_jump; eauto]]|].
    assert (U : lexlt (rank o) (rank t)).
    { rewrite (rank_label o) by (apply La; exact (in_map fst _ _ Io)). rewrite (rank_label t) by (apply La; exact It).
      destruct (begins_pieces _ _ Bn) as [l ->]. destruct (begins_pieces _ _ Bk) as [l' ->]. left. exact V. }
    destruct IH as [<- |[IH|IH]]; [left; exact U|left; eapply lex_trans; eauto|right; exact IH]. }
  assert (X : forall a b, clos_trans string (goes_to rows) a b -> lexlt (rank a) (rank b) \/
     exists o y, goto_order rows o /\ back o /\ lands rows o y /\ clos_trans string (goes_to rows) a y /\ (y = b \/ clos_trans string (goes_to rows) y b)).
  { intros a b Q. induction Q as [a b Q|a b c Q1 I1 Q2 I2].
    - pose proof Q as [_ [m [R L]]]. assert (R1 : lexlt (rank a) (rank m)) by (eapply (raw_up rows); eauto).
      destruct (LU m b L) as [<- |[U|[o [Go [B Lo]]]]]; [left; exact R1|left; eapply lex_trans; eauto|right].
      exists o, b. split; [exact Go|]. split; [exact B|]. split; [exact Lo|]. split; [apply t_step; exact Q|left; reflexivity].
    - destruct I1 as [U1|[o [y [Go [B [Lo [P1 P2]]]]]]].
      + destruct I2 as [U2|[o [y [Go [B [Lo [P1 P2]]]]]]]; [left; eapply lex_trans; eauto|right].
        exists o, y. split; [exact Go|]. split; [exact B|]. split; [exact Lo|]. split; [eapply t_trans; eauto|exact P2].
      + right. exists o, y. split; [exact Go|]. split; [exact B|]. split; [exact Lo|]. split; [exact P1|]. right. destruct P2 as [-> |P2]; [exact Q2|eapply t_trans; eauto]. }
  assert (Nx : is_node d' x).
  { apply clos_trans_t1n in T. assert (E : exists z, flow_to d' x z) by (inversion T; eauto). destruct E as [z [f [r [Q [<- _]]]]]. apply (FC f r Q). }
  apply (Ways x x Nx Nx) in T. destruct (X x x T) as [U|[o [y [Go [B [Lo [P1 P2]]]]]]]; [elim (lex_irrefl _ U)|].
  assert (Ry : forall m, lands rows m y -> In m (orders rows) -> In y (orders rows)).
  { intros m L. induction L as [y _|a t y J _ IH]; auto. intros _. apply IH; auto. apply (A a t J). }
  assert (Ny : is_node d' y).
  { assert (Iy : In y (orders rows)) by (apply (Ry o Lo); destruct Go as [r [I _]]; exact (in_map fst _ _ I)).
    apply in_map_iff in Iy. destruct Iy as [[y' r] [E I]]. cbn [fst] in E. subst y'.
    assert (Ng : ~ goto_order rows y) by (apply chase_lands in Lo; apply Lo). apply (Rn y r I). intros C. apply Ng. exists r. auto. }
  exists o, y. split; [exact Go|]. split; [exact B|]. split; [exact Lo|]. split; [exact Ny|]. split; [apply (Ways x y Nx Ny); exact P1|].
  destruct P2 as [-> |P2]; [apply (Ways x x Nx Nx); exact T|apply (Ways y x Ny Nx); exact P2].
Qed.

Lemma relay_loop : documented relay /\ one_entry (rows_of relay) /\ block_ends (rows_of relay) /\
  load_diagram_from_csv relay empty_diagram = (relay_diagram, Ok tt) /\ clos_trans string (flow_to relay_diagram) "1" "1".
Proof.
  destruct C120_flows_consistent_example as [D [OE _]]. split; [exact D|]. split; [exact OE|]. clear D OE. split.
  { intros o q c p l k I B. destruct (branch_pieces _ _ _ _ _ B) as [r E]. clear B. revert E. generalize (value q) (code c). intros v x E.
    vm_compute in I. repeat (destruct I as [<- |I]; [vm_compute in E; first [discriminate E|injection E as <- _ _; vm_compute; tauto]|]). contradiction. }
  split; [vm_compute; reflexivity|].
  assert (X : forall f r, dget f (seq_flows relay_diagram) = Some r -> flow_to relay_diagram (fl_src r) (fl_tgt r)) by (clear; intros f r Q; exists f, r; split; [exact Q|split; reflexivity]).
  assert (A : dget "1__2" (seq_flows relay_diagram) = Some (mkFlow "1__2" "1" "2")) by (vm_compute; reflexivity).
  assert (B : dget "2__2_split" (seq_flows relay_diagram) = Some (mkFlow "2__2_split" "2" "2_split")) by (vm_compute; reflexivity).
  assert (C : dget "2_split__1" (seq_flows relay_diagram) = Some (mkFlow "2_split__1" "2_split" "1")) by (vm_compute; reflexivity).
  apply X in A. apply X in B. apply X in C. cbn [fl_src fl_tgt] in A, B, C.
  exact (t_trans _ _ _ _ _ (t_step _ _ _ _ A) (t_trans _ _ _ _ _ (t_step _ _ _ _ B) (t_step _ _ _ _ C))).
Qed.
(** In the table of C120 only the jump of row 6 leads back. *)
Example C121_loops_pass_jumps_example :
  (forall o t, jumps_to (rows_of relay) o t -> In t (orders (rows_of relay)) /\ (o = "6" \/ leads_ahead o t)) /\
  jumps_to (rows_of relay) "6" "1" /\ jumps_to (rows_of relay) "3a1" "6" /\ ~ leads_ahead "6" "1" /\
  exists table d', table = relay /\ documented table /\ one_entry (rows_of table) /\ block_ends (rows_of table) /\
    load_diagram_from_csv table empty_diagram = (d', Ok tt) /\ clos_trans string (flow_to d') "1" "1".
Proof.
  assert (Nb : forall n, match n with "" => false | _ => sall is_digit n end = true -> number n).
  { intros n H. apply number_spec. destruct n; [discriminate|]. split; [discriminate|exact H]. }
  split.
  { intros o t [r [I [G T]]]. apply (goto_target_spec r t G) in T. apply is_goto_spec in G.
    assert (In (o, t) [("3a1", "6"); ("6", "1")]) as Q.
    { vm_compute in I. repeat (destruct I as [I|I]; [injection I as <- <-; first [vm_compute in G; discriminate G|vm_compute in T; injection T as <-; vm_compute; tauto]|]). contradiction. }
    clear I G T r. destruct Q as [Q|[Q|[]]]; injection Q as <- <-; (split; [vm_compute; tauto|]).
    - right. exists "3", "6". split; [|split; [split; [apply Nb; reflexivity|left; reflexivity]|vm_compute; reflexivity]].
      split; [apply Nb; reflexivity|]. right. exists "a"%char, "1". split; [reflexivity|]. intros C. apply is_digit_spec in C. discriminate C.
    - left. reflexivity. }
  split; [exists (mkRow "goto 1" "" "" "" ""); split; [clear; vm_compute; tauto|apply (proj1 (names_ok "1" "6" (mkRow "goto 1" "" "" "" ""))); vm_compute; reflexivity]|].
  split; [exists (snd (jump "3a1" "6")); split; [clear; vm_compute; tauto|apply jump_goes; vm_compute; reflexivity]|].
  split.
  { intros [n [m [Bn [Bm V]]]]. apply begins_pieces in Bn, Bm. destruct Bn as [l Bn], Bm as [k Bm].
    revert Bn Bm V. generalize (value n) (value m). intros u v Bn Bm V. vm_compute in Bn. vm_compute in Bm. injection Bn as En _. injection Bm as Em _. lia. }
  exists relay, relay_diagram. destruct relay_loop as [D [OE [BE [Ld T]]]]. split; [reflexivity|]. split; [exact D|]. split; [exact OE|]. split; [exact BE|]. split; [exact Ld|exact T].
Qed.

(** With a jump back the process of a table has a loop. *)
Theorem C121_jump_back_refuted : exists table d', documented table /\ one_entry (rows_of table) /\ block_ends (rows_of table) /\
  load_diagram_from_csv table empty_diagram = (d', Ok tt) /\ clos_trans string (flow_to d') "1" "1".
Proof. exists relay, relay_diagram. exact relay_loop. Qed.

Print Assumptions C121_no_loops.
Print Assumptions C121_loops_pass_jumps.
Print Assumptions C121_jump_back_refuted.
