(** The numbers and the kinds of gateways of processes with optional steps after any number of CSV trips (C117).
    Each theorem is followed by a concrete case of its hypotheses. *)
From Coq Require Import String Ascii List Bool Arith ZArith QArith Lia Permutation.
From Verif Require Import Py PyFacts Consts Nx NxFacts Rep SpecRep RepFacts MetricsFacts Classify SpecLayout ClassifyFacts.
From Verif Require Import CsvRegex CsvImport SpecCsv RegexFacts CsvFacts CsvTable SpecFlow CsvGhost CsvFill CsvLast CsvTotal CsvExport SpecCsvExport CsvExportFacts CsvChain CsvOrders CsvJump.
From Verif Require Import SpecBlocks BlockExport SpecFlat FlatTable FlatLines GotoFacts SpecPlan SpecTally Prop_Tally.
From Verif Require Import Metrics SpecMetrics MetricsFacts2 Prop_Metrics SpecMeasure MeasureFacts Prop_Measure CsvMeasure.
From Verif Require Import Prop_CsvRows Prop_CsvImport Prop_CsvExport Prop_CsvBlocks Prop_CsvFlat SpecGoto SpecJoin Prop_CsvGoto Prop_CsvJoin Prop_CsvMeet Prop_CsvLayout.
From Verif Require Import OptionalTable SpecLoose OptionalAgain OptionalTidy SpecTrips OptionalCount Prop_CsvOptional Prop_OptionalDraw Prop_OptionalAgain Prop_OptionalCount Prop_OptionalTrips Prop_OptionalGates.
From Verif Require Import SpecOptional SpecAgain.
Import ListNotations.
Open Scope string_scope.
Open Scope list_scope.
Open Scope nat_scope.

(** * Moving the direct flow does not change the numbers *)
Lemma perm_flat_len : forall A B (f : A -> list B) l l', Permutation l l' -> length (flat_map f l) = length (flat_map f l').
Proof. intros A B f l l' P. induction P; cbn [flat_map]; rewrite ?app_length; lia. Qed.
Lemma perm_sum : forall A (f : A -> nat) l l', Permutation l l' -> list_sum (map f l) = list_sum (map f l').
Proof. intros A f l l' P. induction P; cbn [map list_sum fold_right]; unfold list_sum in *; lia. Qed.
Lemma parts_len : forall A (f : part -> list A), (forall g j bs, length (f (Block g j (direct_last bs))) = length (f (Block g j bs))) ->
  forall ps, length (flat_map f (map move_direct ps)) = length (flat_map f ps).
Proof. intros A f H. induction ps as [|[n|g j bs] ps IH]; auto; cbn [map flat_map move_direct]; rewrite !app_length, IH, ?H; reflexivity. Qed.
Lemma parts_sum : forall (f : part -> nat), (forall g j bs, f (Block g j (direct_last bs)) = f (Block g j bs)) ->
  forall ps, list_sum (map f (map move_direct ps)) = list_sum (map f ps).
Proof. intros f H ps. rewrite map_map. f_equal. apply map_ext. intros [n|g j bs]; [reflexivity|apply H]. Qed.
Lemma move_ends : forall ps, length (flat_map part_ends (map move_direct ps)) = length (flat_map part_ends ps).
Proof. apply parts_len. intros g j bs. cbn [part_ends]. apply perm_flat_len, direct_last_perm. Qed.
Lemma move_acts : forall ps, length (flat_map part_acts (map move_direct ps)) = length (flat_map part_acts ps).
Proof. apply parts_len. intros g j bs. cbn [part_acts]. apply perm_flat_len, direct_last_perm. Qed.
Lemma move_blocks : forall ps, list_sum (map blocks (map move_direct ps)) = list_sum (map blocks ps).
Proof. apply parts_sum. intros g j bs. cbn [blocks]. f_equal. apply perm_sum, direct_last_perm. Qed.
Lemma move_extra : forall ps, list_sum (map extra (map move_direct ps)) = list_sum (map extra ps).
Proof.
  apply parts_sum. intros g j bs. cbn [extra]. unfold SpecMeasure.meeting. rewrite (perm_filter _ _ _ _ (direct_last_perm bs)). f_equal. apply perm_sum, direct_last_perm.
Qed.
Lemma move_lost : forall ps, lost (map move_direct ps) = lost ps.
Proof.
  unfold lost. induction ps as [|p ps IH]; auto. cbn [map filter].
  assert (E : gone (move_direct p) = gone p). { destruct p as [n|g j bs]; auto. cbn [move_direct gone]. rewrite (perm_filter _ _ _ _ (direct_last_perm bs)). reflexivity. }
  rewrite E. destruct (gone p); cbn [length]; rewrite ?IH; reflexivity.
Qed.
Lemma move_nodes : forall s ps e, length (all_nodes s (map move_direct ps) e) = length (all_nodes s ps e).
Proof. intros s ps e. rewrite !kinds_length, move_ends, move_acts, move_blocks. reflexivity. Qed.

(** * The gateways behind the blocks *)
Section Meet.
  Variables (d : diagram) (s e : string) (ps : list part) (fuel : nat).
  Hypothesis St : structured d s ps e.
  Hypothesis Op : optional ps.
  Hypothesis Fu : size ps + 1 < fuel.
  Hypothesis Tx : texts_readable d s ps e.
  Variable table : list (order_label * row).
  Hypothesis Rd : reads (csv_text (csv_columns :: process_lines d s ps e)) table.
  Let rows := rows_of table.
  Let head (l : list string) := nth 0 l "".

  Lemma oheads : orders rows = map head (process_lines d s ps e).
  Proof using All.
    pose proof (osame_lines d s e ps fuel St Op Fu Tx table Rd) as R.
    assert (L : forall l, In l (process_lines d s ps e) -> exists o r, label o /\ l = line_of o r).
    { intros l H. apply (opt_lines_iff d s e ps Op) in H. destruct H as [o [r [H ->]]]. exists o, r. split; auto.
      apply (opt_row_fine d s e ps fuel St Op Fu Tx o r H). }
    unfold rows, orders, rows_of. rewrite map_map. cbn [fst]. clear - R L.
    induction R as [|l p ls tb H R IH]; [reflexivity|]. cbn [map]. rewrite IH by (intros; apply L; right; auto). f_equal.
    destruct (L l (or_introl eq_refl)) as [o [r [Lo E]]]. destruct H as [o1 [a1 [c1 [w1 [s1 [t1 [El [Lt _]]]]]]]].
    rewrite El in E. unfold line_of in E. inv E. apply clean_label_text; auto.
  Qed.
  Lemma oblock_before : forall k g j bs i b, nth_error ps k = Some (Block g j bs) -> nth_error bs i = Some b -> snd b = None ->
    precedes (orders rows) (num k) (row_label (S k) i (branch_rows (fill_branch b))).
  Proof using All.
    intros k g j bs i b H B E. rewrite oheads.
    destruct (obranch_flow d s e ps fuel St Op Fu Tx k g j bs i b H B) as [f F].
    destruct (nth_error_split ps k H) as [l1 [l2 [Ep El]]].
    unfold process_lines. rewrite Ep, sequence_app, El. cbn [sequence_lines].
    assert (A : In (num k) (map head (start_line d s :: sequence_lines d "" 1 "" l1 None))).
    { destruct k as [|k]; [left; reflexivity|]. right.
      destruct (nth_error ps k) as [p|] eqn:Ek; [|apply nth_error_None in Ek; apply nth_lt in H; lia].
      destruct p as [n|g' j' bs'].
      - apply in_map_iff. exists (act_line d "" (1 + Z.of_nat k) (cond_at "" k) n). split.
        + unfold head, act_line. cbn [nth append]. unfold num. f_equal. lia.
        + apply sequence_in. left. exists k, (Act n). split; [|left; reflexivity]. rewrite <- Ek, Ep. symmetry. apply nth_error_app1. lia.
      - exfalso. destruct (proj2 Op k _ _ Ek H) as [n Q]; [exists g', j', bs'; reflexivity|discriminate]. }
    assert (C : In (row_label (S k) i (branch_rows (fill_branch b))) (map head (part_lines d "" (1 + Z.of_nat k) "" (Block g j bs)))).
    { apply in_map_iff. destruct (direct_dec b) as [D|D].
      - rewrite (fill_direct b D). exists (jump_line "" (branch_prefix "" (1 + Z.of_nat k) i) (1 + Z.of_nat k) (condition_text d g f)). split.
        + unfold head, jump_line, branch_prefix, row_label. cbn [nth append]. rewrite sapp_assoc. unfold num. f_equal. f_equal. lia.
        + rewrite block_lines. apply branches_in. exists i, f, b. split; auto. split; auto. red in D. subst b. left. reflexivity.
      - rewrite (fill_other b D). pose proof (opt_acts_only ps Op k g j bs b H (nth_error_In _ _ B)) as Ac. pose proof (rows_pos b D) as Lb.
        assert (Eb : branch_rows b = length (fst b)) by (unfold branch_rows, stops; rewrite E; simpl; lia).
        destruct (nth_error (fst b) (length (fst b) - 1)) as [q|] eqn:Eq; [|apply nth_error_None in Eq; lia].
        destruct (Ac q (nth_error_In _ _ Eq)) as [n ->].
        exists (act_line d (branch_prefix "" (1 + Z.of_nat k) i) (1 + Z.of_nat (length (fst b) - 1)) (cond_at (branch_mark d g f) (length (fst b) - 1)) n).
        split.
        + unfold head, act_line, branch_prefix, row_label. cbn [nth append]. rewrite sapp_assoc. unfold num.
          rewrite Eb. f_equal; [f_equal; lia|]. f_equal. f_equal. lia.
        + rewrite block_lines. apply branches_in. exists i, f, b. split; auto. split; auto. rewrite branch_sequence by auto.
          cbn [Nat.add]. apply sequence_in. left. exists (length (fst b) - 1), (Act n). split; auto. left. reflexivity. }
    rewrite app_comm_cons, !map_app. apply in_split in C. destruct C as [c1 [c2 C]].
    rewrite C. eexists. eexists. split; [rewrite <- app_assoc; cbn [app]; rewrite (app_assoc _ c1); reflexivity|].
    apply in_app_iff. left. exact A.
  Qed.
End Meet.

(** * C117 *)
(** Where two branches with activities meet stands a gateway of the kind of the one that opens the block. *)
Theorem C117_meeting : forall d s ps e fuel text table d0 d', structured d s ps e -> optional ps -> texts_readable d s ps e ->
  size ps + 1 < fuel -> export_process_to_csv fuel d None = (Some text, Ok tt) -> reads text table -> fresh d0 ->
  load_diagram_from_csv table d0 = (d', Ok tt) ->
  forall k g j bs, nth_error ps k = Some (Block g j bs) ->
  (is_node d' (join_of (num (S (S k)))) <-> ~ lone bs) /\
  (~ lone bs -> exists t, typed d' (split_of (num k)) t /\ typed d' (join_of (num (S (S k)))) t).
Proof.
  intros d s ps e fuel text table d0 d' St Op Tx Fu Ex Rd Fr Ld k g j bs H.
  rewrite (C81_lines d s ps e fuel St Fu) in Ex. injection Ex as <-.
  pose proof (odocumented d s e ps fuel St Op Fu Tx table Rd) as Dc. pose proof (oneat d s e ps fuel St Op Fu Tx table Rd) as Nj.
  pose proof (ofew d s e ps fuel St Op Fu Tx table Rd) as Few. pose proof (fill_few ps Few) as Ff. pose proof (fill_flat ps Op) as Fl.
  pose proof (oorders_iff d s e ps fuel St Op Fu Tx table Rd) as Or. pose proof (oonward_top d s e ps fuel St Op Fu Tx table Rd) as Ot.
  pose proof (oonward_row d s e ps fuel St Op Fu Tx table Rd) as Ow.
  pose proof (ogo d s e ps fuel St Op Fu Tx table Rd) as Go. pose proof (ogoal d s e ps fuel St Op Fu Tx table Rd) as Gl.
  assert (Bk : block_no ps k bs) by (exists g, j; auto).
  pose proof (oloaded_nodes d s e ps fuel St Op Fu Tx table Rd d0 d' Fr Ld) as Nd.
  destruct (table_rerouted table d0 d' Fr Dc Nj Ld) as [L R].
  assert (I : is_node d' (join_of (num (S (S k)))) <-> ~ lone bs).
  { split.
    - intros N C. apply (re_nodes _ _ _ _ R) in N. destruct N as [_ [_ N]]. apply N. apply (passed_join ps Op Few _ Or Ot Ow Go Gl k bs Bk). exact C.
    - intros C. apply Nd. right. right. right. exists k, bs. auto. }
  split; [exact I|]. intros Nl. apply I in Nl.
  destruct (proj1 Op _ (nth_error_In _ _ H)) as [_ [[b [Ib Mb]] _]]. apply In_nth_error in Ib. destruct Ib as [i Hi].
  assert (M : merges (rows_of table) (row_label (S k) i (branch_rows (fill_branch b))) (num (S (S k)))).
  { apply (merges_iff (fill ps) Fl Ff (rows_of table) Or Ow). exists k, i, (fill_branch b).
    split; [apply fill_at; exists b; split; auto; exists bs; auto|]. split; [rewrite fill_stop; apply Mb|]. auto. }
  destruct (C88_like_its_split table d0 d' Fr Dc Nj Ld _ _ (num k) M) as [X [t [T _]]]; auto.
  - assert (V : value (num (S (S k))) = Z.of_nat (S (S k))) by (unfold num; apply value_zstr; lia).
    split; [|split].
    + rewrite V. unfold num. f_equal. lia.
    + apply (splits_iff (fill ps) Fl Ff (rows_of table) Or Ot). exists k, (map fill_branch bs). split; [apply fill_block; eauto|reflexivity].
    + intros o Mo. apply (merges_iff (fill ps) Fl Ff (rows_of table) Or Ow) in Mo.
      destruct Mo as [k' [i' [b' [B' [E' [Eo Ek]]]]]]. apply fill_at in B'. destruct B' as [b0 [[bs0 [[g0 [j0 H0]] B0]] ->]]. subst o.
      apply num_inj in Ek. injection Ek as <-. rewrite fill_stop in E'. eapply (oblock_before d s e ps fuel); eauto.
  - apply Nd. right. right. left. eauto.
  - exists t. split; [exact T|]. unfold typed. rewrite X. exact T.
Qed.

(** The diagrams loaded from later files have the numbers of the one loaded from the first. *)
Theorem C117_numbers : forall d s ps e fuel text table d' n text' table' d'', structured d s ps e -> optional ps -> single_steps ps -> steps_followed ps ->
  texts_readable d s ps e -> size ps + 1 < fuel -> export_process_to_csv fuel d None = (Some text, Ok tt) ->
  reads text table -> load_diagram_from_csv table empty_diagram = (d', Ok tt) ->
  trips fuel n text text' -> reads text' table' -> load_diagram_from_csv table' empty_diagram = (d'', Ok tt) ->
  TNSE_metric d'' = TNSE_metric d' /\ TNIE_metric d'' = TNIE_metric d' /\ TNEE_metric d'' = TNEE_metric d' /\ NOA_metric d'' = NOA_metric d' /\
  NOAJS_metric d'' = NOAJS_metric d' /\ NOAC_metric d'' = NOAC_metric d' /\
  exists q q', CoefficientOfNetworkComplexity_metric d' = Ok q /\ CoefficientOfNetworkComplexity_metric d'' = Ok q' /\ (q' == q)%Q.
Proof.
  intros d s ps e fuel text table d' n text' table' d'' St Op Sg Sf Tx Fu Ex Rd Ld Tr Rd' Ld'.
  destruct (C112_loaded_numbers d s ps e fuel text table d' St Op Tx Fu Ex Rd Ld) as (Lo & A1 & A2 & A3 & A4 & A5 & A6 & (q & A7 & A8)).
  assert (X : let nodes := length (all_nodes s ps e) in
    TNSE_metric d'' = Ok 1 /\ TNIE_metric d'' = Ok 0 /\ TNEE_metric d'' = Ok (1 + length (flat_map part_ends ps)) /\ NOA_metric d'' = Ok (length (flat_map part_acts ps)) /\
    NOAJS_metric d'' = Ok (length (flat_map part_acts ps) + 2 * list_sum (map blocks ps) - lost ps) /\ NOAC_metric d'' = Ok (nodes - lost ps) /\
    exists q, CoefficientOfNetworkComplexity_metric d'' = Ok q /\
      (q * inject_Z (Z.of_nat (nodes - lost ps)) == inject_Z (Z.of_nat (nodes + list_sum (map extra ps) - 1 - lost ps)))%Q).
  { destruct n as [|n].
    - inversion Tr; subst. apply (C112_loaded_numbers d s ps e fuel text' table' d'' St Op Tx Fu Ex Rd' Ld').
    - pose proof (second_text_is d s ps e fuel text n text' St Op Sg Sf Tx Fu Ex Tr) as E2.
      assert (Fu' : size (map move_direct ps) + 1 < fuel) by (rewrite move_size; exact Fu).
      pose proof (second_is_file d s ps e fuel St Op Fu) as Ex'. rewrite <- E2 in Ex'.
      pose proof (C112_loaded_numbers (tidy d) s (map move_direct ps) e fuel text' table' d'' (tidy_structured d s ps e St Op) (move_optional ps Op)
        (move_texts d s ps e St Tx) Fu' Ex' Rd' Ld') as Y. cbv zeta in Y.
      rewrite move_nodes, move_ends, move_acts, move_blocks, move_extra, move_lost in Y. apply Y. }
  destruct X as (B1 & B2 & B3 & B4 & B5 & B6 & (q' & B7 & B8)). rewrite A1, A2, A3, A4, A5, A6, B1, B2, B3, B4, B5, B6. do 6 (split; [reflexivity|]).
  exists q, q'. split; [exact A7|]. split; [exact B7|].
  set (N := length (all_nodes s ps e) - lost ps) in *.
  assert (P : 0 < N). { unfold N. rewrite kinds_length. lia. }
  assert (NZ : ~ (inject_Z (Z.of_nat N) == 0)%Q) by (unfold Qeq, inject_Z; cbn [Qnum Qden]; lia).
  apply (Qmult_inj_r _ _ (inject_Z (Z.of_nat N)) NZ). rewrite A8, B8. reflexivity.
Qed.

(** From the second file on all gateways are parallel, so there is at most one kind of gateway. *)
Theorem C117_one_kind : forall d s ps e fuel text n text' table d', structured d s ps e -> optional ps -> single_steps ps -> steps_followed ps ->
  texts_readable d s ps e -> size ps + 1 < fuel -> export_process_to_csv fuel d None = (Some text, Ok tt) ->
  trips fuel (S n) text text' -> reads text' table -> load_diagram_from_csv table empty_diagram = (d', Ok tt) ->
  (forall x t, is_gateway t -> typed d' x t -> t = "parallelGateway") /\
  GatewayHeterogenity_metric d' = Ok (match list_sum (map blocks ps) with 0 => 0 | S _ => 1 end).
Proof.
  intros d s ps e fuel text n text' table d' St Op Sg Sf Tx Fu Ex Tr Rd Ld.
  pose proof (second_text_is d s ps e fuel text n text' St Op Sg Sf Tx Fu Ex Tr) as E2.
  pose proof (C116_decisions_lost d s ps e fuel text n text' table d' St Op Sg Sf Tx Fu Ex Tr Rd Ld) as Pl.
  set (qs := map move_direct ps).
  assert (Fu' : size qs + 1 < fuel) by (unfold qs; rewrite move_size; exact Fu).
  pose proof (second_is_file d s ps e fuel St Op Fu) as Ex'. rewrite <- E2 in Ex'.
  pose proof (tidy_structured d s ps e St Op) as St'. pose proof (move_optional ps Op) as Op'. pose proof (move_texts d s ps e St Tx) as Tx'. fold qs in St', Op', Tx'.
  pose proof (C117_meeting (tidy d) s qs e fuel text' table empty_diagram d' St' Op' Tx' Fu' Ex' Rd fresh_empty Ld) as Mt.
  assert (Ex2 := Ex'). rewrite (C81_lines (tidy d) s qs e fuel St' Fu') in Ex2. injection Ex2 as Et. rewrite <- Et in Rd.
  pose proof (odocumented (tidy d) s e qs fuel St' Op' Fu' Tx' table Rd) as Dc. pose proof (oneat (tidy d) s e qs fuel St' Op' Fu' Tx' table Rd) as Nj.
  pose proof (ofew (tidy d) s e qs fuel St' Op' Fu' Tx' table Rd) as Few.
  pose proof (oorders_iff (tidy d) s e qs fuel St' Op' Fu' Tx' table Rd) as Or. pose proof (oonward_top (tidy d) s e qs fuel St' Op' Fu' Tx' table Rd) as Ot.
  pose proof (oonward_row (tidy d) s e qs fuel St' Op' Fu' Tx' table Rd) as Ow.
  destruct (table_rerouted table empty_diagram d' fresh_empty Dc Nj Ld) as [L R].
  assert (Pl' : forall k bs, block_no qs k bs -> typed d' (split_of (num k)) "parallelGateway").
  { intros k bs [g [j B]]. unfold qs in B. rewrite nth_error_map in B. destruct (nth_error ps k) as [[m|g0 j0 bs0]|] eqn:Q; try discriminate. eapply Pl; eauto. }
  assert (Cs : forall x, is_node d' x -> exists t, typed d' x t /\ (In t ["startEvent"; "endEvent"; "subProcess"; "task"] \/ t = "parallelGateway")).
  { intros x N. apply (re_nodes _ _ _ _ R) in N. pose proof N as [[I|I] [G P]].
    - unfold orders in I. apply in_map_iff in I. destruct I as [[x' r] [E I]]. cbn [fst] in E. subst x'.
      exists (row_type x r). split; [apply (re_type _ _ _ _ R x r I); intros C; apply G; exists r; auto|]. left. unfold row_type.
      destruct (String.eqb x "0"); [cbn; auto|]. destruct (String.eqb _ _); [cbn; auto|]. destruct (String.eqb _ _); cbn; auto.
    - apply (opt_gateways qs Op' Few _ Or Ot Ow) in I. destruct I as (k & bs & B & [-> | ->]).
      + exists "parallelGateway". split; [eapply Pl'; eauto|auto].
      + apply (re_nodes _ _ _ _ R) in N. pose proof B as [g [j B']]. destruct (Mt k g j bs B') as [M1 M2]. destruct (M2 (proj1 M1 N)) as [t [T1 T2]].
        pose proof (Pl' k bs B) as T. unfold typed in T, T1. rewrite T in T1. injection T1 as <-. exists "parallelGateway". auto. }
  assert (At : forall x t, typed d' x t -> is_node d' x).
  { intros x t T. unfold typed, attr in T. destruct (node_of d' x) as [a|] eqn:Q; [|discriminate]. apply is_node_of. eauto. }
  assert (One : forall x t, is_gateway t -> typed d' x t -> t = "parallelGateway").
  { intros x t G T. destruct (Cs x (At x t T)) as [t' [T' C]]. unfold typed in T, T'. rewrite T in T'. injection T' as <-.
    destruct C as [C|C]; auto. exfalso. cbn [In] in C. unfold is_gateway in G. intuition congruence. }
  split; [exact One|].
  assert (U : unique_ids d') by (apply (loaded_gwf _ _ _ _ fresh_empty Ld)).
  assert (Ty : SpecRep.typed d') by (intros x N; destruct (Cs x N) as [t [T _]]; exists t; exact T).
  destruct (C15_gateway_heterogeneity d' U Ty) as [k [-> [l [Nl [Ll Hl]]]]]. f_equal.
  assert (Sub : forall t, In t l -> t = "parallelGateway") by (intros t I; apply Hl in I; destruct I as [G [x T]]; eapply One; eauto).
  assert (Iff : In "parallelGateway" l <-> list_sum (map blocks ps) <> 0).
  { rewrite Hl. split.
    - intros [_ [x T]] Z. pose proof (At x _ T) as N.
      assert (Nb : forall k bs, ~ block_no qs k bs).
      { intros k1 bs [g [j B]]. unfold qs in B. rewrite nth_error_map in B. destruct (nth_error ps k1) as [[m|g0 j0 bs0]|] eqn:Q; try discriminate.
        apply nth_error_In, in_split in Q. destruct Q as [p1 [p2 ->]]. rewrite map_app, list_sum_app in Z. cbn [map blocks list_sum fold_right] in Z. lia. }
      apply (re_nodes _ _ _ _ R) in N. destruct N as [[I|I] [G P]].
      + unfold orders in I. apply in_map_iff in I. destruct I as [[x' r] [E I]]. cbn [fst] in E. subst x'.
        pose proof (re_type _ _ _ _ R x r I (fun C => G (ex_intro _ r (conj I C)))) as T'. unfold typed in T. rewrite T in T'. injection T' as T'. unfold row_type in T'.
        destruct (String.eqb x "0"); [discriminate|]. destruct (String.eqb _ _); [discriminate|]. destruct (String.eqb _ _); discriminate.
      + apply (opt_gateways qs Op' Few _ Or Ot Ow) in I. destruct I as (k0 & bs & B & _). eapply Nb; eauto.
    - intros Z. split; [unfold is_gateway; auto|].
      assert (B : exists k0 g j bs, nth_error ps k0 = Some (Block g j bs)).
      { clear - Z. induction ps as [|[m|g j bs] ps' IH]; [elim Z; reflexivity| |exists 0; repeat eexists].
        destruct IH as [k0 [g [j [bs H]]]]; [exact Z|]. exists (S k0), g, j, bs. exact H. }
      destruct B as (k0 & g & j & bs & B). exists (split_of (num k0)). eapply Pl; eauto. }
  destruct l as [|a [|b l]].
  - subst k. destruct (list_sum (map blocks ps)); [reflexivity|]. exfalso. apply (proj2 Iff). discriminate.
  - subst k. pose proof (Sub a (or_introl eq_refl)) as ->. destruct (list_sum (map blocks ps)); [|reflexivity]. exfalso. apply (proj1 Iff); [left|]; reflexivity.
  - exfalso. pose proof (Sub a (or_introl eq_refl)). pose proof (Sub b (or_intror (or_introl eq_refl))). subst a b. inversion Nl as [|? ? Q]; subst. apply Q. left. reflexivity.
Qed.

(** * Examples: the three optional steps; a block with three branches that meet *)
Example C117_meeting_example : structured opt_demo "s" opt_parts "e" /\ optional opt_parts /\ texts_readable opt_demo "s" opt_parts "e" /\
  reads (csv_text (csv_columns :: process_lines opt_demo "s" opt_parts "e")) opt_tab /\ load_diagram_from_csv opt_tab empty_diagram = (opt_loaded, Ok tt) /\
  ~ lone [([Act "l"], None); ([], None); ([Act "r"], None); ([], Some "e2")] /\
  map (fun x => attr opt_loaded x "type") ["0_split"; "2_join"; "2_split"; "4_join"] =
    [Some (VStr "inclusiveGateway"); None; Some (VStr "inclusiveGateway"); Some (VStr "inclusiveGateway")].
Proof.
  destruct opt_demo_ok as [_ [S [T [_ [_ [R _]]]]]]. split; [exact S|]. split; [exact opt_parts_ok|]. split; [exact T|]. split; [exact R|]. split; [vm_compute; reflexivity|].
  split; [|vm_compute; reflexivity]. rewrite lone_count. intros C. apply Nat.leb_le in C. vm_compute in C. discriminate.
Qed.
Example C117_numbers_example : structured step_demo "s" step_parts "e" /\ optional step_parts /\ single_steps step_parts /\ steps_followed step_parts /\
  texts_readable step_demo "s" step_parts "e" /\ size step_parts + 1 < 40 /\
  export_process_to_csv 40 step_demo None = (Some (csv_text (csv_columns :: process_lines step_demo "s" step_parts "e")), Ok tt) /\
  trips 40 1 (csv_text (csv_columns :: process_lines step_demo "s" step_parts "e")) step_second /\ reads step_second step_again_table /\
  load_diagram_from_csv step_again_table empty_diagram = (step_again, Ok tt) /\
  map NOA_metric [step_loaded; step_again] = [Ok 7; Ok 7] /\ map NOAJS_metric [step_loaded; step_again] = [Ok 10; Ok 10] /\
  map NOAC_metric [step_loaded; step_again] = [Ok 12; Ok 12] /\ map CoefficientOfNetworkComplexity_metric [step_loaded; step_again] = [Ok (14 # 12)%Q; Ok (14 # 12)%Q].
Proof.
  destruct C115_stable_example as [A [B [C [D [E [F [G _]]]]]]]. destruct C115_later_shape_example as [H [I [J _]]].
  repeat (split; [assumption|]). vm_compute. repeat split.
Qed.
(** Two kinds of gateways after the first file, one from the second on. *)
Example C117_one_kind_example : list_sum (map blocks step_parts) = 3 /\ map GatewayHeterogenity_metric [step_loaded; step_again] = [Ok 2; Ok 1].
Proof. vm_compute. split; reflexivity. Qed.
Print Assumptions C117_meeting.
Print Assumptions C117_numbers.
Print Assumptions C117_one_kind.
