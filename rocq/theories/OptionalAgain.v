(** The diagram loaded from the file of a process with optional steps as a structure: the direct flow comes last, and the branches meet at the
    next activity. *)
From Coq Require Import String Ascii List Bool Arith ZArith Lia Permutation.
From Verif Require Import Py PyFacts Consts Nx NxFacts Rep SpecRep RepFacts MetricsFacts Classify SpecLayout ClassifyFacts.
From Verif Require Import CsvRegex CsvImport SpecCsv RegexFacts CsvFacts CsvTable SpecFlow CsvGhost CsvFill CsvLast CsvGraph CsvTotal CsvExport SpecCsvExport CsvExportFacts CsvChain CsvOrders CsvXml CsvCoherent CsvFan.
From Verif Require Import SpecBlocks BlockExport SpecFlat FlatTable FlatLines GotoFacts CsvJump CsvGotoFan FlatAgain SpecOptional OptionalTable SpecAgain SpecLoose.
From Verif Require Import Prop_CsvRows Prop_CsvImport Prop_CsvExport Prop_CsvBlocks Prop_CsvFlat Prop_CsvLayout SpecGoto Prop_CsvGoto Prop_GotoLayout Prop_CsvOptional Prop_CsvAgain.
Import ListNotations.
Open Scope string_scope.
Open Scope list_scope.

Lemma is_direct_spec : forall b, is_direct b = true <-> direct b.
Proof. intros [[|p l] [x|]]; unfold direct; cbn; split; intros H; try discriminate; reflexivity. Qed.
Lemma relabel_is_direct : forall k i b, is_direct (relabel_branch k i b) = is_direct b.
Proof. intros k i [[|p l] [x|]]; reflexivity. Qed.
Lemma has_direct_is : forall bs, has_direct bs = true <-> exists i b, nth_error bs i = Some b /\ direct b.
Proof.
  intros bs. change (has_direct bs) with (existsb is_direct bs). rewrite existsb_exists. split.
  - intros [b [H D]]. apply In_nth_error in H. destruct H as [i H]. exists i, b. split; auto. apply is_direct_spec. exact D.
  - intros [i [b [H D]]]. exists b. split; [eapply nth_error_In; eauto|]. apply is_direct_spec. exact D.
Qed.

(** The letters of the branches that are not direct. *)
Fixpoint letters (i : nat) (bs : list branch_t) : list nat :=
  match bs with [] => [] | b :: bs' => (if is_direct b then [] else [i]) ++ letters (S i) bs' end.
Lemma letters_filter : forall (p : nat -> bool) bs i, (forall i' b, nth_error bs i' = Some b -> p (i + i') = negb (is_direct b)) ->
  filter p (seq i (length bs)) = letters i bs.
Proof.
  intros p. induction bs as [|b bs IH]; intros i H; [reflexivity|]. cbn [length seq filter letters].
  pose proof (H 0 b eq_refl) as H0. rewrite Nat.add_0_r in H0. rewrite H0, IH; [destruct (is_direct b); reflexivity|].
  intros i' b' E. rewrite Nat.add_succ_comm. apply (H (S i') b' E).
Qed.
Lemma letters_branches : forall C (F : nat -> C) (P : C -> branch_t -> Prop) K bs i,
  (forall i' b, nth_error bs i' = Some b -> ~ direct b -> P (F (i + i')) (relabel_branch K (i + i') b)) ->
  Forall2 P (map F (letters i bs)) (filter (fun b => negb (is_direct b)) (relabel_branches K i bs)).
Proof.
  intros C F P K. induction bs as [|b bs IH]; intros i H; [constructor|]. cbn [letters relabel_branches filter]. rewrite relabel_is_direct.
  assert (R : Forall2 P (map F (letters (S i) bs)) (filter (fun b => negb (is_direct b)) (relabel_branches K (S i) bs))).
  { apply IH. intros i' b' E D. rewrite Nat.add_succ_comm. apply (H (S i') b' E D). }
  destruct (is_direct b) eqn:E; cbn [negb app map]; [exact R|]. constructor; [|exact R].
  specialize (H 0 b eq_refl). rewrite Nat.add_0_r in H. apply H. intros D. apply is_direct_spec in D. congruence.
Qed.
Lemma direct_part : forall K bs i, (forall i' i'' b b', nth_error bs i' = Some b -> nth_error bs i'' = Some b' -> direct b -> direct b' -> i' = i'') ->
  filter is_direct (relabel_branches K i bs) = if has_direct bs then [([], None)] else [].
Proof.
  intros K. induction bs as [|b bs IH]; intros i U; [reflexivity|]. cbn [relabel_branches filter]. rewrite relabel_is_direct.
  change (has_direct (b :: bs)) with (is_direct b || has_direct bs)%bool.
  rewrite IH by (intros i' i'' c c' H H' D D'; pose proof (U (S i') (S i'') c c' H H' D D'); lia).
  destruct (is_direct b) eqn:E; cbn [orb]; [|reflexivity]. destruct (has_direct bs) eqn:E2.
  - apply has_direct_is in E2. destruct E2 as [i' [b' [H D]]]. apply is_direct_spec in E. pose proof (U 0 (S i') b b' eq_refl H E D). discriminate.
  - apply is_direct_spec in E. red in E. subst b. reflexivity.
Qed.

(** * Labels *)
Lemma oletters_labels : forall d g k bs fs i, length fs = length bs -> (forall b, In b bs -> flat_branch b \/ direct b) ->
  map label_of (branches_lines d "" (Z.of_nat k) g i fs bs) = letter_rows k i (map fill_branch bs).
Proof.
  intros d g k. induction bs as [|b bs IH]; intros fs i L F; destruct fs as [|f fs]; try discriminate; [reflexivity|].
  cbn [branches_lines letter_rows map]. rewrite map_app. injection L as L. rewrite IH by (auto; intros; apply F; right; auto). f_equal.
  destruct (direct_dec b) as [D|D].
  - rewrite (fill_direct b D). red in D. subst b. cbn [branch_lines map]. unfold jump_line, label_of, row_label, branch_prefix. cbn [nth append branch_rows fst snd length stops].
    cbn [Nat.add seq map]. rewrite sapp_assoc. reflexivity.
  - rewrite (fill_other b D). destruct (F b (or_introl eq_refl)) as [[A [R _]]|C]; [|contradiction]. rewrite branch_sequence by auto. destruct b as [qs st]. cbn [fst snd] in *.
    change 1%Z with (Z.of_nat 1). rewrite acts_labels by auto. apply map_ext. intros m. unfold branch_prefix, row_label. cbn [append].
    rewrite sapp_assoc. reflexivity.
Qed.
Lemma oprocess_labels : forall d s ps e, optional ps ->
  (forall k g j bs, nth_error ps k = Some (Block g j bs) -> length (outgoing_of d g) = length bs) ->
  map label_of (process_lines d s ps e) = "0" :: all_labels 1 (fill ps) ++ [num (S (length ps))].
Proof.
  intros d s ps e [Fl _] Lo. unfold process_lines. cbn [map]. f_equal. change 1%Z with (Z.of_nat 1).
  assert (X : forall qs k, (forall q, In q qs -> optional_part q /\ forall g j bs, q = Block g j bs -> length (outgoing_of d g) = length bs) ->
    map label_of (sequence_lines d "" (Z.of_nat k) "" qs (Some e)) = all_labels k (fill qs) ++ [num (k + length qs)]).
  { induction qs as [|q qs IH]; intros k H; cbn [sequence_lines all_labels length fill map].
    - rewrite Nat.add_0_r. reflexivity.
    - rewrite map_app. replace (Z.of_nat k + 1)%Z with (Z.of_nat (S k)) by lia. rewrite IH by (intros; apply H; right; auto).
      rewrite <- Nat.add_succ_comm, app_assoc. f_equal. destruct (H q (or_introl eq_refl)) as [F L]. f_equal. destruct q as [n|g j bs]; [reflexivity|].
      rewrite block_lines. apply oletters_labels; [eapply L; eauto|apply F]. }
  rewrite X; [reflexivity|]. intros q Hq. split; [apply Fl; auto|]. intros g j bs ->. apply In_nth_error in Hq. destruct Hq as [k Hk]. eauto.
Qed.

(** * Branches written again *)
Definition same_branch (d d' : diagram) (c b : branch_t) : Prop :=
  (direct b /\ direct c) \/
  (~ direct b /\ exists lab, c = (map (fun m => Act (lab m)) (seq 1 (length (fst b))), match snd b with Some _ => Some (lab (S (length (fst b)))) | None => None end) /\
    (forall q, In q (fst b) -> is_act q) /\ (forall m n, nth_error (fst b) m = Some (Act n) -> same_act d d' n (lab (S m))) /\
    (snd b <> None -> bare d' (lab (S (length (fst b)))))).
Lemma same_rows : forall d d' c b, same_branch d d' c b -> is_direct c = is_direct b.
Proof.
  intros d d' c b [[-> ->]|[D [lab [-> _]]]]; [reflexivity|]. destruct b as [[|p l] [x|]]; try reflexivity.
Qed.
Lemma forall2_filter : forall A B (R : A -> B -> Prop) f g l l', Forall2 R l l' -> (forall x y, R x y -> f x = g y) -> Forall2 R (filter f l) (filter g l').
Proof.
  intros A B R f g l l' F E. induction F as [|x y l l' H F IH]; [constructor|]. cbn [filter]. rewrite (E x y H). destruct (g y); auto.
Qed.
Lemma moved_last : forall d d' cs bs, Forall2 (same_branch d d') cs bs -> Forall2 (same_branch d d') (direct_last cs) (direct_last bs).
Proof.
  intros d d' cs bs F. unfold direct_last. apply Forall2_app; apply forall2_filter; auto; intros x y H; rewrite (same_rows _ _ _ _ H); reflexivity.
Qed.
Lemma moved_again : forall d d' K g g' cs bs, (forall f, branch_mark d' g' f = "" /\ condition_text d' g' f = "") -> Forall2 (same_branch d d') cs bs ->
  forall fs fs' i, length fs = length bs -> length fs' = length cs ->
  branches_lines d' "" (Z.of_nat K) g' i fs' cs = map kept_line (branches_lines d "" (Z.of_nat K) g i fs bs).
Proof.
  intros d d' K g g' cs bs M F. induction F as [|c b cs bs H F IH]; intros fs fs' i L L'; destruct fs as [|f fs], fs' as [|f' fs']; try discriminate; [reflexivity|].
  cbn [branches_lines]. rewrite map_app. injection L as L. injection L' as L'. rewrite <- (IH fs fs' (S i)) by auto. f_equal.
  destruct (M f') as [M1 M2]. destruct H as [[-> ->]|[D [lab [E [A [Ha He]]]]]].
  - cbn [branch_lines map]. rewrite M2. reflexivity.
  - assert (P : 1 <= branch_rows b) by (apply rows_pos; exact D).
    assert (P' : 1 <= branch_rows c).
    { rewrite E. unfold branch_rows, stops in *. cbn [fst snd]. rewrite map_length, seq_length. destruct (snd b); exact P. }
    rewrite !branch_sequence by auto. rewrite E. cbn [fst snd]. rewrite M1. change 1%Z with (Z.of_nat 1). apply branch_again; auto.
Qed.

(** * Flows *)
Section Flows.
  Variable ps : list part.
  Hypothesis Op : optional ps.
  Hypothesis Few : forall k bs, block_no ps k bs -> length bs <= 26.
  Lemma letter_no : forall k i b, branch_no ps k i b -> i < 26.
  Proof using All. intros k i b [bs [B H]]. apply nth_lt in H. specialize (Few k bs B). unfold branch_t in *. lia. Qed.
  Lemma letter_in : forall bs i b k, nth_error bs i = Some b -> block_no ps k bs -> i < 26.
  Proof using All. intros bs i b k H B. apply (letter_no k i b). exists bs. auto. Qed.
  Ltac letter := first [eapply letter_no; eassumption | eapply letter_in; eassumption].
  Ltac absurd_name E :=
    first [ exact (split_join _ _ E) | exact (split_join _ _ (eq_sym E))
          | refine (split_not_plain _ (eq_ind _ plain _ _ (eq_sym E))); (apply num_plain || (apply row_plain; letter))
          | refine (split_not_plain _ (eq_ind _ plain _ _ E)); (apply num_plain || (apply row_plain; letter))
          | refine (join_not_plain _ (eq_ind _ plain _ _ (eq_sym E))); (apply num_plain || (apply row_plain; letter))
          | refine (join_not_plain _ (eq_ind _ plain _ _ E)); (apply num_plain || (apply row_plain; letter))
          | eapply top_not_row; [|exact E]; letter | eapply top_not_row; [|symmetry; exact E]; letter ].
  Ltac tell E :=
    first [ exfalso; absurd_name E
          | apply num_inj in E | apply split_inj, num_inj in E | apply join_inj, num_inj in E
          | apply row_inj in E; [destruct E as [? [? ?]]|letter|letter] ].

  Lemma gap_line : forall k bs, block_no ps k bs -> ~ line_no ps (S k).
  Proof using All.
    intros k bs [g [j H]] [L|[L|[k' [n [L H']]]]]; [discriminate| |].
    - injection L as L. apply nth_lt in H. lia.
    - injection L as ->. congruence.
  Qed.
  Lemma oflow_target : forall x y y', optional_flow ps x y -> optional_flow ps x y' -> (forall k, x <> split_of (num k)) -> y = y'.
  Proof using All.
    intros x y y' H H' N. pose proof gap_line as BT.
    destruct H as [k Lk T T'|k bs B|k i b B D|k i b B D|k i b m B M|k i b bs B Hb M Lo|k bs B Lo|k i b bs B Hb M Lo];
      inversion H' as [k1 Lk1 T1 T1' E E'|k1 bs1 B1 E E'|k1 i1 b1 B1 D1 E E'|k1 i1 b1 B1 D1 E E'|k1 i1 b1 m1 B1 M1 E E'|k1 i1 b1 bs1 B1 Hb1 M1 Lo1 E E'|k1 bs1 B1 Lo1 E E'|k1 i1 b1 bs1 B1 Hb1 M1 Lo1 E E'];
      clear H' E'; try tell E; try congruence.
    all: try (subst; exfalso; eapply BT; eassumption).
    all: try (exfalso; eapply N; reflexivity).
    all: assert (k1 = k) by lia; subst.
    all: try (exfalso; assert (Q : branch_no ps k i b1) by (exists bs1; auto); rewrite (branch_no_fun ps _ _ _ _ Q B) in *; lia).
    all: try (exfalso; assert (Q : branch_no ps k i b) by (exists bs; auto); rewrite (branch_no_fun ps _ _ _ _ Q B1) in *; lia).
    all: try (exfalso; rewrite (block_no_fun ps _ _ _ B B1) in *; contradiction).
  Qed.
  Lemma oflow_source : forall x x' y, optional_flow ps x y -> optional_flow ps x' y -> (forall k, y <> join_of (num k)) ->
    (forall k bs, block_no ps k bs -> has_direct bs = true -> y <> num (S (S k))) -> (forall k bs, block_no ps k bs -> lone bs -> has_direct bs = true) -> x = x'.
  Proof using All.
    intros x x' y H H' N N' LD. pose proof gap_line as BT.
    assert (ND : forall k i b, branch_no ps k i b -> direct b -> y <> num (S (S k))).
    { intros k i b [bs [B Hb]] D. apply (N' k bs B). apply has_direct_is. eauto. }
    destruct H as [k Lk T T'|k bs B|k i b B D|k i b B D|k i b m B M|k i b bs B Hb M Lo|k bs B Lo|k i b bs B Hb M Lo];
      try (exfalso; eapply N; reflexivity); try (exfalso; eapply ND; [| |reflexivity]; eassumption); try (exfalso; apply (N' k bs B (LD k bs B Lo)); reflexivity);
      inversion H' as [k1 Lk1 T1 T1' E' E|k1 bs1 B1 E' E|k1 i1 b1 B1 D1 E' E|k1 i1 b1 B1 D1 E' E|k1 i1 b1 m1 B1 M1 E' E|k1 i1 b1 bs1 B1 Hb1 M1 Lo1 E' E|k1 bs1 B1 Lo1 E' E|k1 i1 b1 bs1 B1 Hb1 M1 Lo1 E' E];
      clear H' E'; try tell E; try congruence; try lia.
    all: try (exfalso; eapply N; reflexivity).
    all: try (exfalso; eapply ND; [exact B1|exact D1|congruence]).
    all: try (exfalso; apply (N' k1 bs1 B1 (LD k1 bs1 B1 Lo1)); congruence).
    all: try (exfalso; match goal with B : block_no ps ?k ?bs, T : line_no ps ?q |- _ => apply (BT k bs B); replace (S k) with q by lia; assumption end).
    all: try (assert (k1 = k) by lia; subst; congruence).
  Qed.
End Flows.

(** * The loaded diagram *)
Lemma acts_route : forall d K i n m0 z, (forall m, m < n -> only_to d (row_label K i (m0 + m)) (if (S m =? n)%nat then z else row_label K i (m0 + S m))) ->
  route d (if (n =? 0)%nat then z else row_label K i m0) (map (fun m => Act (row_label K i m)) (seq m0 n)) z.
Proof.
  intros d K i. induction n as [|n IH]; intros m0 z H; [reflexivity|]. cbn [seq map route]. split; [reflexivity|].
  exists (if (n =? 0)%nat then z else row_label K i (S m0)). split.
  - specialize (H 0 ltac:(lia)). rewrite Nat.add_0_r, Nat.add_1_r in H. destruct n; exact H.
  - apply (IH (S m0) z). intros m Hm. specialize (H (S m) ltac:(lia)). replace (m0 + S m) with (S m0 + m) in H by lia. replace (m0 + S (S m)) with (S m0 + S m) in H by lia. exact H.
Qed.

Section Again.
  Variables (d : diagram) (s e : string) (ps : list part) (fuel : nat).
  Hypothesis St : structured d s ps e.
  Hypothesis Op : optional ps.
  Hypothesis Fu : size ps + 1 < fuel.
  Hypothesis Tx : texts_readable d s ps e.
  Variable table : list (order_label * row).
  Hypothesis Rd : reads (csv_text (csv_columns :: process_lines d s ps e)) table.
  Variable d' : diagram.
  Hypothesis Ld : load_diagram_from_csv table empty_diagram = (d', Ok tt).
  Let rows := rows_of table.
  Let z := num (S (length ps)).
  Let Few := ofew d s e ps fuel St Op Fu Tx table Rd.
  Let Ord := oorders_iff d s e ps fuel St Op Fu Tx table Rd.
  Let OnT := oonward_top d s e ps fuel St Op Fu Tx table Rd.
  Let OnR := oonward_row d s e ps fuel St Op Fu Tx table Rd.
  Let Go := ogo d s e ps fuel St Op Fu Tx table Rd.
  Let Goal' := ogoal d s e ps fuel St Op Fu Tx table Rd.

  Lemma oa_loaded : exists L, rerouted rows empty_diagram d' L /\ gwf (dgraph d') /\ edged rows d' L /\ coherent d' /\ (forall x y, In (x, y) L -> flow_goes d' (gid (x, y)) x y) /\ forall x y, In (x, y) L <-> optional_flow ps x y.
  Proof using All.
    pose proof (odocumented d s e ps fuel St Op Fu Tx table Rd) as D.
    pose proof (oneat d s e ps fuel St Op Fu Tx table Rd) as NJ.
    assert (OW : one_way rows) by exact (opt_one_way ps Op Few rows Ord OnT OnR Go Goal').
    destruct (table_rerouted _ _ _ fresh_empty D NJ Ld) as [L I]. exists L. split; [exact I|].
    destruct (C91_ready_for_layout table d' D NJ OW Ld) as [Co [_ [W _]]]. split; [exact W|]. split; [apply (re_edges _ _ _ _ I OW)|]. split; [exact Co|].
    split; [eapply booked_listed_goes; [apply I|apply I|apply (re_edges _ _ _ _ I OW)|eapply goto_back; eauto|exact W]|].
    intros x y. rewrite (re_flows _ _ _ _ I). apply (opt_flows ps Op Few rows Ord OnT OnR Go Goal').
  Qed.
  Lemma oa_node : forall n, is_node d' n <-> optional_node ps n.
  Proof using All. exact (oloaded_nodes d s e ps fuel St Op Fu Tx table Rd empty_diagram d' fresh_empty Ld). Qed.
  Lemma oa_goes : forall x y, optional_flow ps x y -> is_node d' x /\ is_node d' y /\ flow_goes d' (gid (x, y)) x y.
  Proof using All.
    intros x y H. destruct oa_loaded as [L [I [W [Eg [_ [Gs F]]]]]]. apply F in H. destruct (bk_ends _ _ (re_books _ _ _ _ I) _ _ H) as [Hx Hy].
    split; [auto|]. split; [auto|]. auto.
  Qed.
  Lemma oa_only : forall x y, optional_flow ps x y -> (forall k, x <> split_of (num k)) -> only_to d' x y.
  Proof using All.
    intros x y H N. destruct oa_loaded as [L [I [W [Eg [_ [Gs F]]]]]]. destruct (oa_goes x y H) as [Hx [Hy Hg]]. pose proof (proj2 (F x y) H) as Hl.
    split; [exact Hy|]. exists (gid (x, y)). split; [|exact Hg].
    rewrite (bk_out _ _ (re_books _ _ _ _ I)). change [gid (x, y)] with (map gid [(x, y)]). f_equal. apply only_one.
    - apply NoDup_filter. apply I.
    - apply filter_In. split; auto. apply from_true. reflexivity.
    - intros [a b] Hab. apply filter_In in Hab. destruct Hab as [Hab Fr]. apply from_true in Fr. cbn in Fr. subst a. f_equal.
      symmetry. eapply (oflow_target ps Op Few); eauto. apply F. auto.
  Qed.
  Lemma oa_two : forall x x' y, optional_flow ps x y -> optional_flow ps x' y -> x <> x' -> join_node d' y.
  Proof using All.
    intros x x' y H H' N. destruct oa_loaded as [L [I [W [Eg [_ [Gs F]]]]]]. unfold join_node. rewrite (bk_in _ _ (re_books _ _ _ _ I)), map_length.
    assert (X : forall x, optional_flow ps x y -> In (x, y) (filter (into y) L)).
    { intros v Hv. apply filter_In. split; [apply F; exact Hv|]. apply into_true. reflexivity. }
    pose proof (X x H) as X1. pose proof (X x' H') as X2. destruct (filter (into y) L) as [|p [|q l]]; [contradiction| |cbn; lia].
    destruct X1 as [X1|[]]. destruct X2 as [X2|[]]. congruence.
  Qed.
  Lemma oa_one : forall y, (forall x x', optional_flow ps x y -> optional_flow ps x' y -> x = x') -> ~ join_node d' y.
  Proof using All.
    intros y U J. destruct oa_loaded as [L [I [W [Eg [_ [Gs F]]]]]]. unfold join_node in J. rewrite (bk_in _ _ (re_books _ _ _ _ I)), map_length in J.
    assert (Q : length (filter (into y) L) < 2); [|lia]. apply short_unique; [apply I|].
    intros [x1 x2] [y1 y2] X1 X2 X3 X4. apply into_true in X2. apply into_true in X4. cbn [snd] in *. subst. f_equal. apply U; apply F; auto.
  Qed.
  Lemma oa_entry : forall n, entry_node d' n <-> is_node d' n /\ forall x, ~ optional_flow ps x n.
  Proof using All.
    intros n. destruct oa_loaded as [L [I [W [Eg [_ [Gs F]]]]]]. unfold entry_node. rewrite (bk_in _ _ (re_books _ _ _ _ I)). split; intros [H1 H2]; split; auto.
    - intros x Hx. apply F in Hx. assert (Y : In (x, n) (filter (into n) L)) by (apply filter_In; split; auto; apply into_true; reflexivity).
      destruct (filter (into n) L); [contradiction|discriminate].
    - rewrite filter_all_false; [reflexivity|]. intros [a b] Hab. destruct (into n (a, b)) eqn:E; auto. apply into_true in E. cbn in E. subst b.
      exfalso. apply (H2 a). apply F. exact Hab.
  Qed.

  Lemma oa_orders : orders rows = "0" :: all_labels 1 (fill ps) ++ [num (S (length ps))].
  Proof using All.
    rewrite <- (oprocess_labels d s ps e Op); [|intros; eapply (oblock_facts d s e ps fuel); eauto].
    pose proof (osame_lines d s e ps fuel St Op Fu Tx table Rd) as R.
    assert (Lb : forall l, In l (process_lines d s ps e) -> label (label_of l)).
    { intros l Hl. apply (opt_lines_iff d s e ps Op) in Hl. destruct Hl as [o [r [Hf ->]]]. apply (opt_row_fine d s e ps fuel St Op Fu Tx o r Hf). }
    unfold orders, rows, rows_of. rewrite map_map. cbn [fst]. clear - R Lb. induction R as [|l p lines t Hl R IH]; [reflexivity|].
    cbn [map]. f_equal; [|apply IH; intros; apply Lb; right; auto]. specialize (Lb l (or_introl eq_refl)).
    destruct Hl as [o [a [c [w [s1 [t1 [-> [Lt _]]]]]]]]. apply clean_label_text; auto.
  Qed.
  Lemma oa_out : forall k g j bs, nth_error ps k = Some (Block g j bs) ->
    outgoing_of d' (split_of (num k)) = map (get_flow_id (split_of (num k))) (map (fun i => row_label (S k) i 1) (letters 0 bs) ++ if has_direct bs then [num (S (S k))] else []).
  Proof using All.
    intros k g j bs H.
    pose proof (odocumented d s e ps fuel St Op Fu Tx table Rd) as D.
    pose proof (oneat d s e ps fuel St Op Fu Tx table Rd) as NJ.
    assert (Ec : remove_white_spaces_in_orders table = rows) by (apply rows_cleaned; apply D).
    assert (Bn : block_no ps k bs) by (exists g, j; auto).
    assert (Bf : block_at (fill ps) k (map fill_branch bs)) by (apply fill_block; eauto).
    assert (Fq : forall k g j bs, nth_error (fill ps) k = Some (Block g j bs) -> length bs <= 26) by (apply (fill_few ps Few)).
    assert (Sp : splits rows (num k)).
    { apply (splits_iff (fill ps) (fill_flat ps Op) Fq rows Ord OnT). exists k, (map fill_branch bs). split; auto. }
    assert (Nn : is_node d' (split_of (num k))).
    { apply oa_node. right. right. left. exists k, bs. split; auto. }
    pose proof (goto_fan_import table empty_diagram d') as X. cbv zeta in X. rewrite Ec in X.
    destruct (X fresh_empty D NJ Ld (num k) Sp Nn) as [p [q [goals [Hp [Hq [Fw Eo]]]]]]. rewrite Eo. f_equal.
    assert (Br : forall o, branch rows (num k) o <-> exists i b, nth_error bs i = Some b /\ o = row_label (S k) i 1).
    { intros o. rewrite (branch_top (fill ps) (fill_flat ps Op) Fq rows Ord). split.
      - intros [i [b [B ->]]]. apply fill_at in B. destruct B as [b0 [[bs' [B' Hb]] ->]]. rewrite (block_no_fun ps _ _ _ B' Bn) in Hb. eauto.
      - intros [i [b [Hb ->]]]. exists i, (fill_branch b). split; auto. apply fill_at. exists b. split; auto. exists bs. auto. }
    assert (Lt : forall i b, nth_error bs i = Some b -> i < 26) by (intros i b Hb; eapply (letter_in ps Op Few); eauto).
    assert (Gd : forall i b, nth_error bs i = Some b -> (goto_order rows (row_label (S k) i 1) <-> direct b)).
    { intros i b Hb. pose proof (Go (row_label (S k) i 1)) as Gq. fold rows in Gq. rewrite Gq. clear Gq. split.
      - intros [k' [i' [b' [B' [D' E']]]]]. apply row_inj in E'; [|eapply Lt; eauto|eapply (letter_no ps Op Few); eauto]. destruct E' as [E1 [E2 _]]. injection E1 as <-. subst i'.
        assert (Q : branch_no ps k i b) by (exists bs; auto). rewrite (branch_no_fun ps _ _ _ _ Q B'). exact D'.
      - intros Db. exists k, i, b. split; [exists bs; auto|auto]. }
    f_equal.
    - rewrite oa_orders in Hp |- *.
      assert (E1 : filter p ("0" :: all_labels 1 (fill ps) ++ [num (S (length ps))]) =
        filter p (filter (fun o => existsb (fun i => String.eqb o (row_label (S k) i 1)) (seq 0 (length bs))) ("0" :: all_labels 1 (fill ps) ++ [num (S (length ps))]))).
      { rewrite filter_both. apply filter_agree. intros o Ho. destruct (p o) eqn:Ep; [|rewrite andb_false_r; reflexivity]. rewrite andb_true_r. symmetry.
        apply (Hp o Ho) in Ep. destruct Ep as [Ep _]. apply Br in Ep. destruct Ep as [i [b [Hb ->]]]. apply existsb_exists. exists i. split; [|apply String.eqb_refl].
        apply in_seq. apply nth_lt in Hb. unfold branch_t in *. lia. }
      rewrite E1. rewrite <- (fill_len ps) in *.
      pose proof Bf as [g' [j' Bf']].
      rewrite (firsts_of_block (fill ps) k g' j' (map fill_branch bs) _ (fill_flat ps Op) Fq Bf').
      2: { intros o _. rewrite map_length, existsb_exists. split.
           - intros [i [Hi E]]. apply String.eqb_eq in E. apply in_seq in Hi. exists i. split; [unfold branch_t in *; lia|auto].
           - intros [i [Hi ->]]. exists i. split; [apply in_seq; unfold branch_t in *; lia|apply String.eqb_refl]. }
      rewrite map_length, filter_map. f_equal. apply letters_filter. intros i b Hb. cbn [Nat.add].
      assert (Ho : In (row_label (S k) i 1) ("0" :: all_labels 1 (fill ps) ++ [num (S (length (fill ps)))])).
      { rewrite (fill_len ps). rewrite <- oa_orders. assert (Q : branch rows (num k) (row_label (S k) i 1)) by (apply Br; eauto). destruct Q as [? [? [_ [_ Q]]]]. exact Q. }
      pose proof (Hp _ Ho) as Hpi. rewrite Br, (Gd i b Hb) in Hpi. pose proof (is_direct_spec b) as Is.
      destruct (p (row_label (S k) i 1)), (is_direct b); cbn [negb]; try reflexivity; exfalso.
      + destruct Hpi as [[_ Q] _]; auto. apply Q. apply Is. reflexivity.
      + destruct Hpi as [_ Q]. assert (C : false = true); [apply Q; split; [eauto|]|discriminate]. intros Db. apply Is in Db. discriminate.
    - assert (Ug : forall b r, In (b, r) (filter q rows) -> exists i c, nth_error bs i = Some c /\ direct c /\ b = row_label (S k) i 1 /\ In (b, r) rows /\ goto_row r).
      { intros b r Hf. apply filter_In in Hf. destruct Hf as [Hr Hf]. apply Hq in Hf; auto. destruct Hf as [Hf Gr]. apply Br in Hf. destruct Hf as [i [c [Hc ->]]].
        exists i, c. split; auto. split; [|auto]. apply (Gd i c Hc). exists r. auto. }
      destruct (has_direct bs) eqn:Hd.
      + apply has_direct_is in Hd. destruct Hd as [i [b [Hb Db]]]. pose proof (proj2 (Gd i b Hb) Db) as [r [Hr Gr]].
        assert (Bi : branch_no ps k i b) by (exists bs; auto).
        assert (E1 : filter q rows = [(row_label (S k) i 1, r)]).
        { apply only_one.
          - apply NoDup_filter. assert (Nd : NoDup (orders rows)) by apply D. unfold orders in Nd. eapply NoDup_map_inv; exact Nd.
          - apply filter_In. split; auto. apply Hq; auto. split; auto. apply Br. eauto.
          - intros [b' r'] Hf. destruct (Ug b' r' Hf) as [i' [c [Hc [Dc [-> [Hr' Gr']]]]]].
            assert (i' = i).
            { apply (proj1 Op) in H || idtac. pose proof (proj1 Op _ (nth_error_In _ _ H)) as [_ [_ [_ U]]]. eapply U; eauto. }
            subst i'. f_equal. eapply (orow_unique d s e ps fuel St Op Fu Tx table Rd); eauto. }
        rewrite E1 in Fw. inversion Fw as [|? y ? l Sw Fw' E2 E3]. inversion Fw'. subst. cbn [snd] in Sw.
        apply (Goal' k i b r y Bi Db Hr Gr) in Sw. subst y. reflexivity.
      + destruct (filter q rows) as [|[b r] l] eqn:E1; [inversion Fw; reflexivity|]. exfalso.
        destruct (Ug b r (or_introl eq_refl)) as [i [c [Hc [Dc _]]]]. assert (C : has_direct bs = true) by (apply has_direct_is; eauto). congruence.
  Qed.

  Hypothesis Sg : single_steps ps.
  Hypothesis Sf : steps_followed ps.
  Lemma lone_direct : forall k bs, block_no ps k bs -> (lone bs <-> has_direct bs = true).
  Proof using All.
    intros k bs [g [j B]]. split; [|eapply Sg; eauto]. intros Lo. destruct (has_direct bs) eqn:E; [reflexivity|exfalso].
    pose proof (proj1 Op _ (nth_error_In _ _ B)) as [[i [i' [b [b' [Ne [Hi [Hi' [Sb Sb']]]]]]]] _]. apply Ne.
    assert (M : forall i b, nth_error bs i = Some b -> snd b = None -> meets b).
    { intros q c Hc Sc. split; auto. intros C. destruct c as [u v]. cbn in *. subst. assert (X : has_direct bs = true); [|congruence].
      apply has_direct_is. exists q, ([], None). split; [exact Hc|reflexivity]. }
    eapply Lo; eauto.
  Qed.
  Lemma next_act : forall k bs, block_no ps k bs -> has_direct bs = true -> exists n, nth_error ps (S k) = Some (Act n).
  Proof using All.
    intros k bs [g [j B]] H. pose proof (Sf k g j bs B H) as L. destruct (nth_error ps (S k)) as [q|] eqn:E; [|apply nth_error_None in E; lia].
    destruct (proj2 Op k _ _ B E (ex_intro _ g (ex_intro _ j (ex_intro _ bs eq_refl)))) as [n ->]. eauto.
  Qed.
  Lemma block_next : forall k bs q, block_no ps k bs -> nth_error ps (S k) = Some q -> is_act q.
  Proof using All. intros k bs q [g [j B]] E. exact (proj2 Op k _ _ B E (ex_intro _ g (ex_intro _ j (ex_intro _ bs eq_refl)))). Qed.
  Definition meeting_of (k : nat) (bs : list branch_t) : string := if has_direct bs then num (S (S k)) else join_of (num (S (S k))).
  Lemma oa_no_join : forall y, (forall k, y <> join_of (num k)) -> (forall k bs, block_no ps k bs -> has_direct bs = true -> y <> num (S (S k))) -> ~ join_node d' y.
  Proof using All.
    intros y N N'. apply oa_one. intros x x' H H'. eapply (oflow_source ps Op Few); eauto. intros k bs B L. eapply lone_direct; eauto.
  Qed.
  Lemma oa_join : forall k bs, block_no ps k bs -> join_node d' (meeting_of k bs).
  Proof using All.
    intros k bs B. pose proof B as [g [j H]]. pose proof (proj1 Op _ (nth_error_In _ _ H)) as [[i [i' [b [b' [Ne [Hi [Hi' [Sb Sb']]]]]]]] [[c [Hc Mc]] _]].
    unfold meeting_of. destruct (has_direct bs) eqn:E.
    - pose proof E as E'. apply has_direct_is in E'. destruct E' as [q [u [Hu Du]]]. apply In_nth_error in Hc. destruct Hc as [q' Hc].
      apply (oa_two (split_of (num k)) (row_label (S k) q' (branch_rows c))).
      + apply (op_direct ps k q u); [exists bs; auto|exact Du].
      + apply (op_lone ps k q' c bs B Hc Mc). apply (lone_direct k bs B). exact E.
      + intros C. eapply not_split; [|symmetry; exact C]. apply row_plain. eapply (letter_in ps Op Few); eauto.
    - assert (NL : ~ lone bs) by (intros L; apply (lone_direct k bs B) in L; congruence).
      assert (M : forall i b, nth_error bs i = Some b -> snd b = None -> meets b).
      { intros q u Hu Su. split; auto. intros C. destruct u as [u v]. cbn in *. subst. assert (X : has_direct bs = true); [|congruence].
        apply has_direct_is. exists q, ([], None). split; [exact Hu|reflexivity]. }
      apply (oa_two (row_label (S k) i (branch_rows b)) (row_label (S k) i' (branch_rows b'))).
      + eapply op_meet; eauto.
      + eapply op_meet; eauto.
      + intros C. apply row_inj in C; [apply Ne; apply C| |]; eapply (letter_in ps Op Few); eauto.
  Qed.
  Lemma oa_act : forall k n, nth_error ps k = Some (Act n) ->
    attr d' (num (S k)) "type" = attr d n "type" /\ attr d' (num (S k)) "node_name" = attr d n "node_name" /\ activity_node d n.
  Proof using All.
    intros k n H. assert (An : activity_node d n).
    { pose proof St as [_ [_ [_ [_ [_ [_ [_ Hc]]]]]]]. specialize (Hc _ (nth_error_In _ _ H)). inversion Hc; auto. }
    destruct (oact_elements d s e ps fuel St Op Fu Tx table Rd empty_diagram d' fresh_empty Ld n (num (S k)) An
      (onum_0 d s e ps fuel St Op Fu Tx table Rd empty_diagram d' fresh_empty Ld k) "") as [A B]; [|auto]. apply fr_act. auto.
  Qed.
  Lemma oa_inner : forall k g j bs i b m n, nth_error ps k = Some (Block g j bs) -> nth_error bs i = Some b -> nth_error (fst b) m = Some (Act n) ->
    attr d' (row_label (S k) i (S m)) "type" = attr d n "type" /\ attr d' (row_label (S k) i (S m)) "node_name" = attr d n "node_name" /\ activity_node d n.
  Proof using All.
    intros k g j bs i b m n H Hb Hn.
    assert (An : activity_node d n).
    { pose proof St as [_ [_ [_ [_ [_ [_ [_ Hc]]]]]]]. specialize (Hc _ (nth_error_In _ _ H)). inversion Hc; subst.
      match goal with Q : forall b p, In b bs -> In p (fst b) -> contains d p |- _ => pose proof (Q b (Act n) (nth_error_In _ _ Hb) (nth_error_In _ _ Hn)) as X end.
      inversion X; auto. }
    destruct (obranch_flow d s e ps fuel St Op Fu Tx k g j bs i b H Hb) as [f F].
    assert (Hi : i < 26) by (eapply (letter_in ps Op Few); [exact Hb|exists g, j; eauto]).
    destruct (oact_elements d s e ps fuel St Op Fu Tx table Rd empty_diagram d' fresh_empty Ld n (row_label (S k) i (S m)) An
      (orow_0 d s e ps fuel St Op Fu Tx table Rd empty_diagram d' fresh_empty Ld (S k) i (S m) Hi)
      (cond_at (branch_mark d g f) m)) as [A B]; [eapply fr_inner; eauto|auto].
  Qed.
  Lemma oa_stop : forall k g j bs i b x, nth_error ps k = Some (Block g j bs) -> nth_error bs i = Some b -> snd b = Some x ->
    typed d' (row_label (S k) i (S (length (fst b)))) "endEvent" /\ named d' (row_label (S k) i (S (length (fst b)))) "".
  Proof using All.
    intros k g j bs i b x H Hb Hx. destruct (obranch_flow d s e ps fuel St Op Fu Tx k g j bs i b H Hb) as [f F].
    assert (Hi : i < 26) by (eapply (letter_in ps Op Few); [exact Hb|exists g, j; eauto]).
    eapply (oend_elements d s e ps fuel St Op Fu Tx table Rd empty_diagram d' fresh_empty Ld); [|eapply fr_stop; eauto].
    exact (orow_0 d s e ps fuel St Op Fu Tx table Rd empty_diagram d' fresh_empty Ld (S k) i _ Hi).
  Qed.
  Lemma oa_end : typed d' z "endEvent" /\ named d' z "".
  Proof using All.
    eapply (oend_elements d s e ps fuel St Op Fu Tx table Rd empty_diagram d' fresh_empty Ld); [|eapply fr_end; eauto].
    exact (onum_0 d s e ps fuel St Op Fu Tx table Rd empty_diagram d' fresh_empty Ld _).
  Qed.
  Lemma oa_start : typed d' "0" "startEvent" /\ named d' "0" (event_word d s ++ node_text d s)%string.
  Proof using All.
    destruct (oelements d s e ps fuel St Op Fu Tx table Rd empty_diagram d' fresh_empty Ld _ _ (fr_start d s e ps)) as [R1 [_ [_ [_ [R5 _]]]]].
    specialize (R1 eq_refl). split; [exact R1|]. apply R5. rewrite R1. discriminate.
  Qed.
  Lemma oa_text : forall n, is_node d' n -> (exists t, named d' n t) /\
    (attr d' n "event_definitions" = None \/ attr d' n "event_definitions" = Some (VDefs [])) /\
    (attr d' n "default" = None \/ attr d' n "default" = Some VNone).
  Proof using All.
    intros n Hn. destruct (imported_inv table d' Ld) as [d0 [[_ [N _]] _]]. destruct (N n Hn) as (t & T & K & X & _ & _ & D & _ & _ & V).
    split; auto. apply (X "node_name"). left. auto.
  Qed.
  Lemma oa_names : forall t, In t (get_flows d') -> dget "name" (snd t) = Some (VStr "").
  Proof using All.
    intros t Ht. destruct oa_loaded as [L [R [W [Eg _]]]]. destruct (view_in_edge _ _ W Ht) as [ed [He [Hs _]]]. rewrite Hs.
    destruct (Eg ed He) as [_ ->]. unfold conn_attrs, k_name, k_target_ref, k_source_ref, k_condition_expression.
    destruct (connection_condition _ _) as [c|]; [destruct (String.eqb c "")|]; rewrite !dget_dset; reflexivity.
  Qed.
  Lemma line_is_node : forall k, line_no ps k -> is_node d' (num k).
  Proof using All. intros k H. apply oa_node. left. eauto. Qed.
  Lemma inner_is_node : forall k i b m, branch_no ps k i b -> m < branch_rows b -> is_node d' (row_label (S k) i (S m)).
  Proof using All. intros k i b m B H. apply oa_node. right. left. exists k, i, b, m. auto. Qed.
  Lemma oa_split : forall k bs, block_no ps k bs -> gateway_node d' (split_of (num k)) /\ ~ join_node d' (split_of (num k)).
  Proof using All.
    intros k bs B. destruct oa_loaded as [L [R _]].
    assert (Bf : block_at (fill ps) k (map fill_branch bs)) by (apply fill_block; eauto).
    assert (Sp : splits rows (num k)).
    { apply (splits_iff (fill ps) (fill_flat ps Op) (fill_few ps Few) rows Ord OnT). eauto. }
    assert (N1 : is_node d' (split_of (num k))) by (apply oa_node; right; right; left; eauto).
    split; [split; auto|].
    - destruct (re_split _ _ _ _ R _ Sp) as [ty [G T]]; [apply (re_nodes _ _ _ _ R); auto|]. exists ty. split; [exact T|].
      unfold get_gateway_type in G. destruct (get_all_split_successors _ _); [|discriminate]. cbn [rbind] in G. destruct (get_node_conditions _ _); [|discriminate].
      cbn [rbind] in G. injection G as <-. destruct (_ && _); [vm_compute; tauto|]. destruct (no_conditions _); vm_compute; tauto.
    - apply oa_no_join; [intros k' C; exact (split_join _ _ C)|]. intros k' bs' _ _ C. eapply not_split; [|symmetry; exact C]. apply num_plain.
  Qed.
  Lemma oa_merge : forall k bs, block_no ps k bs -> has_direct bs = false -> gateway_node d' (join_of (num (S (S k)))).
  Proof using All.
    intros k bs B E. destruct oa_loaded as [L [R _]].
    assert (NL : ~ lone bs) by (intros Lo; apply (lone_direct k bs B) in Lo; congruence).
    assert (N2 : is_node d' (join_of (num (S (S k))))) by (apply oa_node; right; right; right; eauto).
    pose proof B as [g [j H]]. pose proof (proj1 Op _ (nth_error_In _ _ H)) as [[i [_ [b [_ [_ [Hi [_ [Sb _]]]]]]]] _].
    assert (Mg : merges rows (row_label (S k) i (branch_rows (fill_branch b))) (num (S (S k)))).
    { apply (merges_iff (fill ps) (fill_flat ps Op) (fill_few ps Few) rows Ord OnR). exists k, i, (fill_branch b). split; [|split; [rewrite fill_stop; exact Sb|auto]].
      apply fill_at. exists b. split; auto. exists bs. auto. }
    split; auto. destruct (re_join _ _ _ _ R _ _ Mg) as [ty [G T]]; [apply (re_nodes _ _ _ _ R); auto|]. exists ty. split; [exact T|].
    unfold three_gateways in G. intuition subst; vm_compute; tauto.
  Qed.
  Lemma oa_activity : forall l n, is_node d' l -> activity_node d n -> attr d' l "type" = attr d n "type" -> activity_node d' l.
  Proof using All. intros l n Hl [_ T] E. split; auto. unfold typed in *. rewrite E. auto. Qed.
  Lemma acts_of : forall k g j bs i b, nth_error ps k = Some (Block g j bs) -> nth_error bs i = Some b -> forall p, In p (fst b) -> is_act p.
  Proof using All.
    intros k g j bs i b H Hb p Hp. pose proof (proj1 Op _ (nth_error_In _ _ H)) as [_ [_ [Fb _]]]. destruct (Fb b (nth_error_In _ _ Hb)) as [[A _]|D]; [auto|].
    red in D. subst b. contradiction.
  Qed.
  Lemma oa_row_act : forall k g j bs i b m, nth_error ps k = Some (Block g j bs) -> nth_error bs i = Some b -> m < length (fst b) ->
    activity_node d' (row_label (S k) i (S m)) /\ ~ join_node d' (row_label (S k) i (S m)).
  Proof using All.
    intros k g j bs i b m H Hb Hm. assert (Bt : branch_no ps k i b) by (exists bs; split; auto; exists g, j; auto).
    destruct (nth_error (fst b) m) as [q|] eqn:Hn; [|apply nth_error_None in Hn; lia].
    destruct (acts_of k g j bs i b H Hb q (nth_error_In _ _ Hn)) as [n ->].
    destruct (oa_inner k g j bs i b m n H Hb Hn) as [T [_ An]]. split.
    - eapply oa_activity; eauto. eapply inner_is_node; eauto. unfold branch_rows. lia.
    - assert (Hi : i < 26) by (eapply (letter_no ps Op Few); eauto).
      apply oa_no_join; [apply not_join, row_plain; auto|]. intros k' bs' _ _ C. eapply top_not_row; [exact Hi|symmetry; exact C].
  Qed.
  Lemma oa_opens : forall k g j bs i b, nth_error ps k = Some (Block g j bs) -> nth_error bs i = Some b -> ~ direct b ->
    opens_route d' (split_of (num k)) (meeting_of k bs) (get_flow_id (split_of (num k)) (row_label (S k) i 1)) (relabel_branch (S k) i b).
  Proof using All.
    intros k g j bs i b H Hb Nd. assert (B : block_no ps k bs) by (exists g, j; auto). assert (Bt : branch_no ps k i b) by (exists bs; auto).
    assert (Hi : i < 26) by (eapply (letter_no ps Op Few); eauto).
    assert (Pos : 1 <= branch_rows b) by (apply rows_pos; auto).
    split; [|split].
    - exists (row_label (S k) i 1). split; [eapply inner_is_node; eauto|]. split; [apply (oa_goes (split_of (num k)) (row_label (S k) i 1)); eapply op_branch; eauto|].
      unfold relabel_branch at 1. cbn [fst]. set (w := arrives (meeting_of k bs) (relabel_branch (S k) i b)).
      assert (R : route d' (if (length (fst b) =? 0)%nat then w else row_label (S k) i 1) (map (fun m => Act (row_label (S k) i m)) (seq 1 (length (fst b)))) w).
      { apply acts_route. intros m Hm. change (1 + m) with (S m). change (1 + S m) with (S (S m)). apply oa_only; [|intros k' C; exact (not_split _ (row_plain _ _ _ Hi) _ C)].
        destruct (S m =? length (fst b))%nat eqn:E.
        - apply Nat.eqb_eq in E. unfold w, arrives, relabel_branch. cbn [snd]. destruct (snd b) as [x|] eqn:Sb.
          + rewrite <- E. eapply op_inner; eauto. unfold branch_rows, stops. rewrite Sb. cbn. lia.
          + assert (M : meets b) by (split; auto; destruct (fst b); [cbn in E; lia|discriminate]).
            assert (El : S m = branch_rows b) by (unfold branch_rows, stops; rewrite Sb; cbn; lia). rewrite El.
            unfold meeting_of. pose proof (lone_direct k bs B) as LD. destruct (has_direct bs).
            * eapply op_lone; eauto. apply LD. reflexivity.
            * eapply op_meet; eauto. intros Lo. apply LD in Lo. discriminate.
        - apply Nat.eqb_neq in E. eapply op_inner; eauto. unfold branch_rows. lia. }
      destruct (length (fst b)) as [|n] eqn:El; [|exact R]. cbn [Nat.eqb] in R. replace (row_label (S k) i 1) with w; [exact R|].
      unfold w, arrives, relabel_branch. cbn [snd]. unfold branch_rows, stops in Pos. rewrite El in Pos |- *. destruct (snd b) eqn:Sb; [reflexivity|cbn in Pos; lia].
    - intros E. right. unfold relabel_branch in *. cbn [fst snd] in *. destruct (snd b) eqn:Sb; [discriminate|].
      unfold branch_rows, stops in Pos. rewrite Sb in Pos. simpl in Pos. destruct (length (fst b)) as [|n]; [lia|].
      exists (map (fun m => Act (row_label (S k) i m)) (seq 1 n)), (row_label (S k) i (1 + n)). rewrite seq_S, map_app. reflexivity.
    - intros x E. unfold relabel_branch in E. cbn [snd] in E. destruct (snd b) as [w|] eqn:Sb; [|discriminate]. injection E as <-.
      assert (M : length (fst b) < branch_rows b) by (unfold branch_rows, stops; rewrite Sb; simpl; lia).
      split; [split; [eapply inner_is_node; eauto|]|].
      { eapply oa_stop; eauto. }
      { apply oa_no_join; [apply not_join, row_plain; auto|]. intros k' bs' _ _ C. eapply top_not_row; [exact Hi|symmetry; exact C]. }
  Qed.
  Lemma direct_last_in : forall b bs, In b (direct_last bs) <-> In b bs.
  Proof using.
    intros b bs. unfold direct_last. rewrite in_app_iff, !filter_In. destruct (is_direct b); cbn; intuition discriminate.
  Qed.
  Lemma direct_last_len : forall bs, length (direct_last bs) = length bs.
  Proof using.
    clear. intros bs. unfold direct_last. rewrite app_length. induction bs as [|b bs IH]; [reflexivity|]. cbn [filter]. destruct (is_direct b); cbn [negb length] in *; unfold branch_t in *; lia.
  Qed.
  Lemma relabel_count : forall K bs i, length (relabel_branches K i bs) = length bs.
  Proof using. intros K. induction bs as [|b bs IH]; intros i; cbn; auto. Qed.
  Lemma oa_forks : forall k g j bs, nth_error ps k = Some (Block g j bs) ->
    forks d' (split_of (num k)) (meeting_of k bs) (direct_last (relabel_branches (S k) 0 bs)).
  Proof using All.
    intros k g j bs H. assert (B : block_no ps k bs) by (exists g, j; auto). destruct (oa_split k bs B) as [G1 G2].
    pose proof (proj1 Op _ (nth_error_In _ _ H)) as [Tm [[c [Hc Mc]] [Fb U]]].
    assert (F2 : Forall2 (opens_route d' (split_of (num k)) (meeting_of k bs)) (outgoing_of d' (split_of (num k))) (direct_last (relabel_branches (S k) 0 bs))).
    { rewrite (oa_out k g j bs H), map_app, map_map. unfold direct_last. apply Forall2_app.
      - apply letters_branches. intros i b Hb Nd. cbn [Nat.add]. eapply oa_opens; eauto.
      - rewrite (direct_part (S k) bs 0 U). destruct (has_direct bs) eqn:Hd; cbn [map]; [|constructor].
        constructor; [|constructor]. split; [|split; [left; reflexivity|discriminate]]. pose proof Hd as Hd'. apply has_direct_is in Hd'. destruct Hd' as [i [b [Hb Db]]].
        destruct (oa_goes (split_of (num k)) (num (S (S k)))) as [_ [N2 F]]; [apply (op_direct ps k i b); [exists bs; auto|exact Db]|].
        exists (num (S (S k))). split; auto. split; [exact F|]. unfold meeting_of. rewrite Hd. reflexivity. }
    pose proof (Forall2_len _ _ _ _ _ F2) as Ln. rewrite direct_last_len, relabel_count in Ln.
    split; [exact G1|]. split; [exact G2|]. split.
    { unfold split_node. rewrite Ln. destruct Tm as [i [i' [b [b' [Ne [Hi [Hi' _]]]]]]]. apply nth_lt in Hi, Hi'. unfold branch_t in *; lia. }
    split; [rewrite direct_last_len, relabel_count; eapply Few; eauto|]. split; [apply oa_join; auto|]. split; [exact F2|].
    apply In_nth_error in Hc. destruct Hc as [i Hi]. exists (relabel_branch (S k) i c). split; [apply direct_last_in, in_branches; eauto|].
    destruct Mc as [M1 M2]. unfold relabel_branch. cbn [fst snd]. rewrite M1. split; auto. destruct (fst c); [congruence|discriminate].
  Qed.
  Lemma skip_cons : forall (A : Type) (l : list A) m q r, skipn m l = q :: r -> nth_error l m = Some q /\ skipn (S m) l = r.
  Proof using.
    intros A. induction l as [|x l IH]; intros [|m] q r H; try discriminate H; [|].
    - cbn [skipn] in H. injection H as -> ->. split; reflexivity.
    - cbn [skipn] in H. destruct (IH m q r H) as [A1 A2]. split; [exact A1|exact A2].
  Qed.
  Definition entry_of (m : nat) (qs : list part) : string := match qs with Block _ _ _ :: _ => split_of (num m) | _ => num (S m) end.
  Lemma entry_flow : forall m, line_no ps m -> m <= length ps -> only_to d' (num m) (entry_of m (skipn m ps)).
  Proof using All.
    intros m Ln Hm. apply oa_only; [|intros k C; exact (not_split _ (num_plain _) _ C)].
    destruct (skipn m ps) as [|[n|g j bs] r] eqn:E; cbn [entry_of].
    - apply op_next; auto. right. left. assert (X : length (skipn m ps) = 0) by (rewrite E; reflexivity). rewrite skipn_length in X. lia.
    - apply skip_cons in E. destruct E as [E _]. apply op_next; auto. right. right. exists m, n. auto.
    - apply skip_cons in E. destruct E as [E _]. apply (op_split ps m bs). exists g, j. auto.
  Qed.
  Lemma oa_spine : forall qs m, m <= length ps -> skipn m ps = qs -> route d' (entry_of m qs) (reloaded (S m) qs) z.
  Proof using All.
    induction qs as [|[n|g j bs] qs IH]; intros m Hm E; cbn [reloaded route reload_part entry_of].
    - unfold z. do 2 f_equal. assert (X : length (skipn m ps) = 0) by (rewrite E; reflexivity). rewrite skipn_length in X. lia.
    - apply skip_cons in E. destruct E as [E E']. pose proof (nth_lt _ _ _ _ E). split; [reflexivity|]. exists (entry_of (S m) qs). split; [|apply IH; auto].
      rewrite <- E'. apply entry_flow; [|lia]. right. right. eauto.
    - apply skip_cons in E. destruct E as [E E']. pose proof (nth_lt _ _ _ _ E). rewrite Nat.sub_succ, Nat.sub_0_r. split; [reflexivity|]. exists (entry_of (S m) qs). split; [|apply IH; auto].
      assert (B : block_no ps m bs) by (exists g, j; auto). pose proof (lone_direct m bs B) as LD. destruct (has_direct bs) eqn:Hd.
      + right. destruct (next_act m bs B Hd) as [n Hn]. destruct (oa_act (S m) n Hn) as [T [_ An]]. split.
        * eapply oa_activity; eauto. apply line_is_node. right. right. eauto.
        * destruct qs as [|q r]; [|apply skip_cons in E'; destruct E' as [E' _]; rewrite Hn in E'; injection E' as <-; reflexivity].
          apply nth_lt in Hn. assert (X : length (skipn (S m) ps) = 0) by (rewrite E'; reflexivity). rewrite skipn_length in X. lia.
      + left. split; [eapply oa_merge; eauto|]. apply oa_only; [|intros k C; exact (split_join _ _ (eq_sym C))].
        assert (NL : ~ lone bs) by (intros Lo; apply LD in Lo; discriminate).
        replace (entry_of (S m) qs) with (num (S (S m))); [eapply op_join; eauto|].
        destruct qs as [|q r]; [reflexivity|]. apply skip_cons in E'. destruct E' as [E' _]. destruct (block_next m bs q B E') as [n ->]. reflexivity.
  Qed.
  Lemma acts_loosely : forall l, (forall p, In p l -> exists n, p = Act n /\ activity_node d' n /\ ~ join_node d' n) -> loosely d' l.
  Proof using.
    induction l as [|p l IH]; intros H; [constructor|]. destruct (H p (or_introl eq_refl)) as [n [-> [A N]]]. apply lo_act; auto. apply IH. intros; apply H; right; auto.
  Qed.
  Lemma oa_branches : forall k g j bs, nth_error ps k = Some (Block g j bs) -> forall b, In b (direct_last (relabel_branches (S k) 0 bs)) -> loosely d' (fst b).
  Proof using All.
    intros k g j bs H c Hc. apply direct_last_in, in_branches in Hc. destruct Hc as [i [b [Hb ->]]]. apply acts_loosely. intros p Hp. unfold relabel_branch in Hp. cbn [fst] in Hp.
    apply in_map_iff in Hp. destruct Hp as [m [<- Hm]]. apply in_seq in Hm. destruct m as [|m]; [lia|]. exists (row_label (S k) i (S m)). split; [reflexivity|].
    eapply oa_row_act; eauto. lia.
  Qed.
  Lemma oa_loosely : forall n qs m, length qs <= n -> skipn m ps = qs ->
    (forall k bs, block_no ps k bs -> has_direct bs = true -> m <> S k) -> loosely d' (reloaded (S m) qs).
  Proof using All.
    induction n as [n IH] using lt_wf_ind. intros [|[a|g j bs] qs] m Hn E Hp; cbn [reloaded reload_part]; [constructor| |].
    - cbn [length] in Hn. apply skip_cons in E. destruct E as [E E']. destruct (oa_act m a E) as [T [_ An]]. apply lo_act.
      + eapply oa_activity; eauto. apply line_is_node. right. right. eauto.
      + apply oa_no_join; [apply not_join, num_plain|]. intros k bs B Hd C. apply num_inj in C. injection C as C. exact (Hp k bs B Hd C).
      + apply (IH (length qs) ltac:(lia) qs (S m) (le_n _) E'). intros k bs [g [j B]] _ C. injection C as ->. congruence.
    - cbn [length] in Hn. apply skip_cons in E. destruct E as [E E']. rewrite Nat.sub_succ, Nat.sub_0_r. assert (B : block_no ps m bs) by (exists g, j; auto).
      pose proof (oa_forks m g j bs E) as Fk. unfold meeting_of in Fk. destruct (has_direct bs) eqn:Hd.
      + destruct (next_act m bs B Hd) as [a Ha]. destruct (oa_act (S m) a Ha) as [T [_ An]].
        destruct qs as [|q r]; [exfalso|].
        { apply nth_lt in Ha. assert (X : length (skipn (S m) ps) = 0) by (rewrite E'; reflexivity). rewrite skipn_length in X. lia. }
        apply skip_cons in E'. destruct E' as [E' E2]. rewrite Ha in E'. injection E' as <-. cbn [reloaded reload_part length] in *. apply lo_meet; auto.
        * eapply oa_activity; eauto. apply line_is_node. right. right. eauto.
        * eapply oa_branches; eauto.
        * apply (IH (length r) ltac:(lia) r (S (S m)) (le_n _) E2). intros k bs' [g' [j' B']] _ C. injection C as <-. congruence.
      + apply lo_block; auto; [eapply oa_merge; eauto|eapply oa_branches; eauto|].
        apply (IH (length qs) ltac:(lia) qs (S m) (le_n _) E'). intros k bs' B' Hd' C. injection C as ->. rewrite (block_no_fun ps _ _ _ B' B) in Hd'. congruence.
  Qed.
  Lemma oa_first : forall n, entry_node d' n <-> n = "0".
  Proof using All.
    intros n. rewrite oa_entry. split.
    - intros [Hn X]. apply oa_node in Hn. destruct Hn as [[k [T ->]]|[[k [i [b [m [Bt [M ->]]]]]]|[[k [bs [B ->]]]|[k [bs [B [NL ->]]]]]]].
      + destruct k as [|k]; [reflexivity|]. exfalso. assert (Lk : k <= length ps).
        { destruct T as [T|[T|[k' [n [T H]]]]]; [lia|lia|]. injection T as ->. apply nth_lt in H. lia. }
        destruct k as [|k].
        { apply (X (num 0)). apply op_next; auto. left. auto. }
        destruct (nth_error ps k) as [[a|g j bs]|] eqn:E; [| |apply nth_error_None in E; lia].
        * apply (X (num (S k))). apply op_next; auto. right. right. eauto.
        * assert (B : block_no ps k bs) by (exists g, j; auto). pose proof (lone_direct k bs B) as LD. destruct (has_direct bs) eqn:Hd.
          { apply has_direct_is in Hd. destruct Hd as [i [b [Hb Db]]]. apply (X (split_of (num k))). apply (op_direct ps k i b); [exists bs; auto|exact Db]. }
          { apply (X (join_of (num (S (S k))))). apply (op_join ps k bs B). intros Lo. apply LD in Lo. discriminate. }
      + exfalso. destruct m as [|m].
        * apply (X (split_of (num k))). apply (op_branch ps k i b Bt). intros D. red in D. subst b. cbn in M. lia.
        * apply (X (row_label (S k) i (S m))). apply (op_inner ps k i b m Bt). exact M.
      + exfalso. apply (X (num k)). eapply op_split; eauto.
      + exfalso. pose proof B as [g [j H]]. pose proof (proj1 Op _ (nth_error_In _ _ H)) as [_ [[c [Hc Mc]] _]]. apply In_nth_error in Hc. destruct Hc as [i Hi].
        exact (X _ (op_meet ps k i c bs B Hi Mc NL)).
    - intros ->. split; [apply oa_node; left; exists 0; split; auto; left; auto|]. intros x Hab. change "0" with (num 0) in Hab.
      inversion Hab as [k1 Lk1 T1 T1' E' E|k1 bs1 B1 E' E|k1 i1 b1 B1 D1 E' E|k1 i1 b1 B1 D1 E' E|k1 i1 b1 m1 B1 M1 E' E|k1 i1 b1 bs1 B1 Hb1 M1 Lo1 E' E|k1 bs1 B1 Lo1 E' E|k1 i1 b1 bs1 B1 Hb1 M1 Lo1 E' E].
      + apply (num_inj (S k1) 0) in E. discriminate.
      + apply (split_not_plain (num k1)). rewrite E. apply (num_plain 0).
      + eapply (top_not_row 0); [eapply (letter_no ps Op Few); exact B1|symmetry; exact E].
      + apply (num_inj (S (S k1)) 0) in E. discriminate.
      + eapply (top_not_row 0); [eapply (letter_no ps Op Few); exact B1|symmetry; exact E].
      + eapply join_not_plain. rewrite E. apply (num_plain 0).
      + apply (num_inj (S (S k1)) 0) in E. discriminate.
      + apply (num_inj (S (S k1)) 0) in E. discriminate.
  Qed.
  Theorem oa_process : loose_process d' "0" (reloaded 1 ps) z.
  Proof using All.
    destruct oa_loaded as [L [R [W [Eg [Co _]]]]].
    split; [exact Co|]. split; [|split; [|split; [|split; [|split; [|split]]]]].
    - intros n Hn. destruct (oa_text n Hn) as [A [B _]]. split; auto. destruct B as [B|B]; eauto.
    - intros t v Ht Hv. rewrite (oa_names t Ht) in Hv. injection Hv as <-. right. eauto.
    - apply oa_first.
    - apply oa_start.
    - exists (entry_of 0 ps). split; [apply (entry_flow 0); [left; auto|lia]|]. apply (oa_spine ps 0); [lia|reflexivity].
    - split; [apply line_is_node; right; left; auto|]. apply oa_end.
    - apply (oa_loosely (length ps) ps 0 (le_n _) eq_refl). intros k bs _ _ C. discriminate.
  Qed.

  (** ** The second file *)
  Lemma oa_no_event : forall n, is_node d' n -> event_word d' n = "".
  Proof using All. intros n Hn. destruct (oa_text n Hn) as [_ [[E|E] _]]; unfold event_word; rewrite E; reflexivity. Qed.
  Lemma oa_no_text : forall f, SpecBlocks.flow_text d' f = "".
  Proof using All.
    intros f. unfold SpecBlocks.flow_text, get_flow_by_id.
    assert (X : forall l, (forall t, In t l -> In t (get_flows d')) -> forall t, first_flow f l = Ok (Some t) -> In t (get_flows d')).
    { induction l as [|t l IH]; intros Il t' E; [discriminate|]. cbn [first_flow] in E. unfold dgetE in E.
      destruct (dget _ (snd t)) as [v|]; [|discriminate]. cbn [rbind] in E. destruct (veqs v f); [inv E; apply Il; left; auto|].
      apply IH; auto. intros. apply Il. right. auto. }
    destruct (first_flow f (get_flows d')) as [[t|]|] eqn:E; auto. apply X in E; auto. rewrite (oa_names t E). reflexivity.
  Qed.
  Lemma oa_no_mark : forall g f, is_node d' g -> branch_mark d' g f = "" /\ condition_text d' g f = "".
  Proof using All.
    intros g f Hg. unfold branch_mark, condition_text, default_branch. rewrite oa_no_text.
    destruct (oa_text g Hg) as [_ [_ [E|E]]]; rewrite E, andb_false_r; destruct (is_type _ _ _); split; reflexivity.
  Qed.
  Lemma oa_bare : forall l, typed d' l "endEvent" -> named d' l "" -> bare d' l.
  Proof using All.
    intros l T N. split; [apply oa_no_event; eapply attr_is_node; eauto|]. unfold node_text. unfold named in N. rewrite N. reflexivity.
  Qed.
  Lemma oa_same : forall k g j bs i b, nth_error ps k = Some (Block g j bs) -> nth_error bs i = Some b -> same_branch d d' (relabel_branch (S k) i b) b.
  Proof using All.
    intros k g j bs i b H Hb. destruct (direct_dec b) as [D|D].
    - left. red in D. subst b. split; reflexivity.
    - right. split; [exact D|]. exists (row_label (S k) i). split; [reflexivity|]. split; [eapply acts_of; eauto|]. split.
      + intros m n Hm. destruct (oa_inner k g j bs i b m n H Hb Hm) as [A1 [A2 _]]. split; auto.
      + intros Ne. destruct (snd b) as [x|] eqn:Sb; [|congruence]. destruct (oa_stop k g j bs i b x H Hb Sb). apply oa_bare; auto.
  Qed.
  Lemma oa_second : process_lines d' "0" (reloaded 1 ps) z = map kept_line (process_lines d s (map move_direct ps) e).
  Proof using All.
    unfold process_lines. cbn [map]. f_equal.
    - destruct oa_start as [T N]. unfold start_line.
      rewrite oa_no_event by (eapply attr_is_node; eauto). unfold node_text at 1. unfold named in N. rewrite N. reflexivity.
    - change 1%Z with (Z.of_nat 1).
      assert (X : forall ps0 k0, (forall i p, nth_error ps0 i = Some p -> nth_error ps (k0 + i) = Some p) -> k0 + length ps0 = length ps ->
        sequence_lines d' "" (Z.of_nat (S k0)) "" (reloaded (S k0) ps0) (Some z) = map kept_line (sequence_lines d "" (Z.of_nat (S k0)) "" (map move_direct ps0) (Some e))).
      { induction ps0 as [|p ps0 IH]; intros k0 H L.
        - cbn [reloaded sequence_lines map]. f_equal. apply bare_line. destruct oa_end. apply oa_bare; auto.
        - cbn [reloaded map sequence_lines]. rewrite map_app. replace (Z.of_nat (S k0) + 1)%Z with (Z.of_nat (S (S k0))) by lia.
          rewrite <- IH; [|intros i q Hq; rewrite Nat.add_succ_comm; apply (H (S i) q Hq)|simpl in L; lia]. f_equal.
          specialize (H 0 p eq_refl). rewrite Nat.add_0_r in H. destruct p as [n|g j bs].
          + cbn [reload_part move_direct part_lines map]. f_equal. apply same_act_line. destruct (oa_act k0 n H) as [A1 [A2 _]]. split; auto.
          + cbn [reload_part move_direct]. rewrite !block_lines, Nat.sub_succ, Nat.sub_0_r.
            assert (B : block_no ps k0 bs) by (exists g, j; auto).
            apply moved_again.
            * intros f. apply oa_no_mark. apply (oa_split k0 bs B).
            * apply moved_last. assert (Y : forall i b, nth_error bs i = Some b -> same_branch d d' (relabel_branch (S k0) (0 + i) b) b) by (intros i b Hb; eapply oa_same; eauto).
              revert Y. generalize 0. clear. induction bs as [|b bs IH]; intros i0 Y; [constructor|]. cbn [relabel_branches]. constructor.
              { specialize (Y 0 b eq_refl). rewrite Nat.add_0_r in Y. exact Y. }
              { apply IH. intros i c Hc. rewrite Nat.add_succ_comm. apply (Y (S i) c Hc). }
            * rewrite direct_last_len. eapply (oblock_facts d s e ps fuel); eauto.
            * destruct (oa_forks k0 g j bs H) as [_ [_ [_ [_ [_ [F _]]]]]]. apply (Forall2_len _ _ _ _ _ F). }
      apply (X ps 0); auto.
  Qed.
End Again.
