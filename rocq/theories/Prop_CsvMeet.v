(** CSV: the gateways where the branches of a block meet, after exporting a process with
    blocks and loading the file (C82).  Each theorem is followed by a concrete case of its
    hypotheses. *)
From Coq Require Import String Ascii List Bool Arith ZArith Lia Permutation.
From Verif Require Import Py PyFacts Consts Nx NxFacts Rep SpecRep RepFacts MetricsFacts Classify SpecLayout ClassifyFacts.
From Verif Require Import CsvRegex CsvImport SpecCsv RegexFacts CsvFacts CsvTable SpecFlow CsvGhost CsvFill CsvLast CsvTotal CsvExport SpecCsvExport CsvExportFacts CsvChain CsvOrders.
From Verif Require Import SpecGoto SpecJoin SpecBlocks BlockExport SpecFlat FlatTable FlatLines.
From Verif Require Import Prop_LayoutMetrics Prop_Layout Prop_CsvRows Prop_CsvImport Prop_CsvExport Prop_CsvBlocks Prop_CsvFlat Prop_CsvJoin.
Import ListNotations.
Open Scope string_scope.
Open Scope list_scope.

Lemma sequence_app : forall d prefix l1 l2 k stop,
  sequence_lines d prefix k "" (l1 ++ l2) stop =
  sequence_lines d prefix k "" l1 None ++ sequence_lines d prefix (k + Z.of_nat (length l1)) "" l2 stop.
Proof.
  intros d prefix. induction l1 as [|p l1 IH]; intros l2 k stop.
  - cbn [app sequence_lines length]. rewrite Z.add_0_r. reflexivity.
  - cbn [app sequence_lines length]. rewrite IH, <- app_assoc. do 3 f_equal. lia.
Qed.

Section Meet.
  Variables (d : diagram) (s e : string) (ps : list part) (fuel : nat).
  Hypothesis St : structured d s ps e.
  Hypothesis Fl : flat ps.
  Hypothesis Fu : size ps + 1 < fuel.
  Hypothesis Tx : texts_readable d s ps e.
  Variable table : list (order_label * row).
  Hypothesis Rd : reads (csv_text (csv_columns :: process_lines d s ps e)) table.
  Let rows := rows_of table.
  Let head (l : list string) := nth 0 l "".

  Lemma orders_heads : orders rows = map head (process_lines d s ps e).
  Proof using All.
    pose proof (same_lines d s e ps fuel St Fl Fu Tx table Rd) as R.
    assert (L : forall l, In l (process_lines d s ps e) -> exists o r, label o /\ l = line_of o r).
    { intros l H. apply (lines_iff d s e ps Fl) in H. destruct H as [o [r [H ->]]]. exists o, r. split; auto.
      apply (row_fine d s e ps fuel St Fl Fu Tx o r H). }
    unfold rows, orders, rows_of. rewrite map_map. cbn [fst]. clear - R L.
    induction R as [|l p ls tb H R IH]; [reflexivity|]. cbn [map]. rewrite IH by (intros; apply L; right; auto). f_equal.
    destruct (L l (or_introl eq_refl)) as [o [r [Lo E]]]. destruct H as [o1 [a1 [c1 [w1 [s1 [t1 [El [Lt _]]]]]]]].
    rewrite El in E. unfold line_of in E. inv E. apply clean_label_text; auto.
  Qed.

  Lemma block_before : forall k g j bs i b, nth_error ps k = Some (Block g j bs) -> nth_error bs i = Some b -> snd b = None ->
    precedes (orders rows) (num k) (row_label (S k) i (branch_rows b)).
  Proof using All.
    intros k g j bs i b H B E. rewrite orders_heads.
    pose proof (few d s e ps fuel St Fl Fu Tx table Rd) as Few.
    destruct (branch_flow d s e ps fuel St Fl Fu Tx k g j bs i b H B) as [f F].
    destruct (nth_error_split ps k H) as [l1 [l2 [Ep El]]].
    unfold process_lines. rewrite Ep, sequence_app, El. cbn [sequence_lines].
    assert (A : In (num k) (map head (start_line d s :: sequence_lines d "" 1 "" l1 None))).
    { destruct k as [|k]; [left; reflexivity|]. right.
      destruct (nth_error ps k) as [p|] eqn:Ek; [|apply nth_error_None in Ek; apply nth_lt in H; lia].
      destruct p as [n|g' j' bs'].
      - apply in_map_iff. exists (act_line d "" (1 + Z.of_nat k) (cond_at "" k) n). split.
        + unfold head, act_line. cbn [nth append]. unfold num. f_equal. lia.
        + apply sequence_in. left. exists k, (Act n). split; [|left; reflexivity]. rewrite <- Ek, Ep. symmetry. apply nth_error_app1. lia.
      - exfalso. destruct (proj2 Fl k _ _ Ek H) as [n Q]; [exists g', j', bs'; reflexivity|discriminate]. }
    assert (C : In (row_label (S k) i (branch_rows b)) (map head (part_lines d "" (1 + Z.of_nat k) "" (Block g j bs)))).
    { destruct (part_acts_only ps Fl k g j bs b H (nth_error_In _ _ B)) as [Ac Lb].
      assert (Eb : branch_rows b = length (fst b)) by (unfold branch_rows, stops; rewrite E; simpl; lia).
      destruct (nth_error (fst b) (length (fst b) - 1)) as [q|] eqn:Eq; [|apply nth_error_None in Eq; lia].
      destruct (Ac q (nth_error_In _ _ Eq)) as [n ->].
      apply in_map_iff. exists (act_line d (branch_prefix "" (1 + Z.of_nat k) i) (1 + Z.of_nat (length (fst b) - 1)) (cond_at (branch_mark d g f) (length (fst b) - 1)) n).
      split.
      - unfold head, act_line, branch_prefix, row_label. cbn [nth append]. rewrite sapp_assoc. unfold num.
        rewrite Eb. f_equal; [f_equal; lia|]. f_equal. f_equal. lia.
      - rewrite block_lines. apply branches_in. exists i, f, b. split; auto. split; auto. rewrite branch_sequence by auto.
        cbn [Nat.add]. apply sequence_in. left. exists (length (fst b) - 1), (Act n). split; auto. left. reflexivity. }
    rewrite app_comm_cons, !map_app. apply in_split in C. destruct C as [c1 [c2 C]].
    rewrite C. eexists. eexists. split; [rewrite <- app_assoc; cbn [app]; rewrite (app_assoc _ c1); reflexivity|].
    apply in_app_iff. left. exact A.
  Qed.
End Meet.

(** * C82 *)
(** The branches of a block meet again at a gateway of the kind of the one that opens the
    block (see [C82_gateways] for that kind). *)
Theorem C82_meeting : forall d s ps e fuel text table d0 d', structured d s ps e -> flat ps -> texts_readable d s ps e ->
  size ps + 1 < fuel -> export_process_to_csv fuel d None = (Some text, Ok tt) -> reads text table -> fresh d0 ->
  load_diagram_from_csv table d0 = (d', Ok tt) ->
  forall k g j bs, nth_error ps k = Some (Block g j bs) ->
  is_node d' (join_of (num (S (S k)))) /\
  attr d' (join_of (num (S (S k)))) "type" = attr d' (split_of (num k)) "type".
Proof.
  intros d s ps e fuel text table d0 d' St Fl Tx Fu Ex Rd Fr Ld k g j bs H.
  rewrite (C81_lines d s ps e fuel St Fu) in Ex. injection Ex as <-.
  assert (Dc : documented table) by (eapply (table_documented d s e ps fuel); eauto).
  assert (Gf : goto_free table) by (eapply (table_no_goto d s e ps fuel); eauto).
  pose proof (few d s e ps fuel St Fl Fu Tx table Rd) as Few.
  assert (Or := fun o => orders_iff d s e ps fuel St Fl Fu Tx table Rd o).
  assert (Ot := onward_top d s e ps fuel St Fl Fu Tx table Rd). assert (Ow := onward_row d s e ps fuel St Fl Fu Tx table Rd).
  assert (Bk : block_at ps k bs) by (exists g, j; auto).
  assert (Nd : forall x, x = split_of (num k) \/ x = join_of (num (S (S k))) -> is_node d' x).
  { intros x Hx. eapply (loaded_nodes d s e ps fuel); eauto. apply structure_nodes; auto. right. right. exists k, bs. auto. }
  split; [apply Nd; auto|].
  destruct (proj1 Fl _ (nth_error_In _ _ H)) as [[i [_ [b [_ [_ [B [_ [Sn _]]]]]]]] _].
  assert (M : merges (rows_of table) (row_label (S k) i (branch_rows b)) (num (S (S k)))).
  { apply (merges_iff ps Fl Few (rows_of table) Or Ow). exists k, i, b. split; auto. exists bs. auto. }
  destruct (C88_like_its_split table d0 d' Fr Dc (free_neat table Gf) Ld _ _ (num k) M) as [X _]; auto.
  assert (V : value (num (S (S k))) = Z.of_nat (S (S k))) by (unfold num; apply value_zstr; lia).
  split; [|split].
  - rewrite V. unfold num. f_equal. lia.
  - apply (splits_iff ps Fl Few (rows_of table) Or Ot). eauto.
  - intros o Mo. apply (merges_iff ps Fl Few (rows_of table) Or Ow) in Mo.
    destruct Mo as [k' [i' [b' [[bs' [[g' [j' H']] B']] [E' [-> Ek]]]]]].
    apply num_inj in Ek. injection Ek as <-. eapply (block_before d s e ps fuel); eauto.
Qed.
Example C82_meeting_example : nth_error flat_parts 0 = Some (Block "g" "j" [([Act "b"; Act "c"], None); ([Act "h"], None); ([Act "x"], Some "e2")]) /\
  load_diagram_from_csv flat_table empty_diagram = (flat_loaded, Ok tt) /\
  map (fun l => attr flat_loaded l "type") [join_of (num 2); join_of (num 4)] = [Some (VStr "inclusiveGateway"); Some (VStr "parallelGateway")].
Proof. split; [reflexivity|]. split; vm_compute; reflexivity. Qed.
Print Assumptions C82_meeting.
