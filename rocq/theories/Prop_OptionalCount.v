(** What a CSV file does to the numbers of a process with optional steps (C112).
    Each theorem is followed by a concrete case of its hypotheses. *)
From Coq Require Import String Ascii List Bool Arith ZArith QArith Lia Permutation.
From Verif Require Import Py PyFacts Consts Nx NxFacts Rep SpecRep RepFacts MetricsFacts Classify SpecLayout ClassifyFacts TopoFacts.
From Verif Require Import CsvRegex CsvImport SpecCsv RegexFacts CsvFacts CsvTable SpecFlow CsvGhost CsvFill CsvLast CsvTotal CsvExport SpecCsvExport CsvExportFacts CsvChain CsvOrders.
From Verif Require Import SpecBlocks BlockExport SpecFlat FlatTable FlatLines GotoFacts SpecPlan SpecTally Prop_Tally.
From Verif Require Import Metrics SpecMetrics MetricsFacts2 Prop_Metrics SpecMeasure MeasureFacts Prop_Measure CsvMeasure.
From Verif Require Import Prop_LayoutMetrics Prop_Layout Prop_CsvRows Prop_CsvImport Prop_CsvExport Prop_CsvBlocks Prop_CsvFlat SpecGoto Prop_CsvGoto Prop_CsvMeasure Prop_BlockCsv Prop_CsvLayout SpecOptional OptionalTable OptionalCount Prop_CsvOptional.
Import ListNotations.
Open Scope string_scope.
Open Scope list_scope.
Open Scope nat_scope.

Lemma acts_relabelled : forall ps l, In l (flat_map part_acts (relabel 1 ps)) <->
  (exists k n, nth_error ps k = Some (Act n) /\ l = num (S k)) \/
  (exists k g j bs i b m, nth_error ps k = Some (Block g j bs) /\ nth_error bs i = Some b /\ m < length (fst b) /\ l = row_label (S k) i (S m)).
Proof.
  intros ps l. rewrite in_flat_map. split.
  - intros [q [Hq I]]. apply in_relabel in Hq. destruct Hq as [k [p [Hp ->]]]. destruct p as [n|g j bs]; cbn [relabel_part part_acts] in I.
    + destruct I as [<- |[]]. left. exists k, n. auto.
    + right. apply in_flat_map in I. destruct I as [c [Hc I]]. apply in_branches in Hc. destruct Hc as [i [b [Hb ->]]].
      unfold relabel_branch in I. cbn [fst] in I. apply in_flat_map in I. destruct I as [a [Ha I]]. apply in_map_iff in Ha. destruct Ha as [m [<- Hm]].
      apply in_seq in Hm. destruct I as [<- |[]]. destruct m as [|m]; [lia|]. exists k, g, j, bs, i, b, m. repeat split; auto; lia.
  - intros [(k & n & H & ->)|(k & g & j & bs & i & b & m & H & B & M & ->)].
    + exists (relabel_part (S k) (Act n)). split; [apply in_relabel; eauto|left; reflexivity].
    + exists (relabel_part (S k) (Block g j bs)). split; [apply in_relabel; eauto|]. cbn [relabel_part part_acts]. apply in_flat_map.
      exists (relabel_branch (S k) i b). split; [apply in_branches; eauto|]. unfold relabel_branch. cbn [fst]. apply in_flat_map.
      exists (Act (row_label (S k) i (S m))). split; [apply in_map_iff; exists (S m); split; auto; apply in_seq; lia|left; reflexivity].
Qed.
Lemma ends_labelled : forall ps k g j bs i b x, nth_error ps k = Some (Block g j bs) -> nth_error bs i = Some b -> snd b = Some x ->
  In (row_label (S k) i (S (length (fst b)))) (flat_map part_ends (relabel 1 ps)).
Proof.
  intros ps k g j bs i b x H B X. apply in_flat_map. exists (relabel_part (S k) (Block g j bs)). split; [apply in_relabel; eauto|].
  cbn [relabel_part part_ends]. apply in_flat_map. exists (relabel_branch (S k) i b). split; [apply in_branches; eauto|].
  unfold relabel_branch. cbn [fst snd]. rewrite X. apply in_or_app. right. left. reflexivity.
Qed.
Lemma ends_len : forall ps k, (forall p, In p ps -> shallow p) -> length (flat_map part_ends (relabel k ps)) = length (flat_map part_ends ps).
Proof.
  induction ps as [|p qs IH]; intros k Sh; auto. cbn [relabel flat_map]. rewrite !app_length, (IH _ (fun q Hq => Sh q (or_intror Hq))). f_equal.
  pose proof (Sh p (or_introl eq_refl)) as S. destruct p as [n|g j bs]; auto. cbn [shallow] in S. cbn [relabel_part part_ends].
  assert (X : forall l i, (forall b q, In b l -> In q (fst b) -> is_act q) ->
    length (flat_map (fun b : branch_t => flat_map part_ends (fst b) ++ match snd b with Some e => [e] | None => [] end) (relabel_branches k i l)) =
    length (flat_map (fun b : branch_t => flat_map part_ends (fst b) ++ match snd b with Some e => [e] | None => [] end) l)).
  { induction l as [|b l IHl]; intros i H; auto. cbn [relabel_branches flat_map]. rewrite !app_length, (IHl _ (fun c q Hc => H c q (or_intror Hc))). f_equal.
    rewrite (acts_none part_ends (fst b)); auto; [|intros q Hq; eapply H; [left; reflexivity|exact Hq]].
    rewrite (acts_none part_ends (fst (relabel_branch k i b))); auto.
    - unfold relabel_branch. cbn [snd]. destruct (snd b); reflexivity.
    - intros q Hq. unfold relabel_branch in Hq. cbn [fst] in Hq. apply in_map_iff in Hq. destruct Hq as [m [<- _]]. red. eauto. }
  apply X. exact S.
Qed.
Lemma listing_len : forall A (P : A -> Prop) (l m : list A), listing P l -> NoDup m -> (forall x, In x m <-> P x) -> length l = length m.
Proof.
  intros A P l m [N1 H1] N2 H2. apply Permutation_length. apply NoDup_Permutation; auto. intros x. rewrite H1, H2. tauto.
Qed.

(** The numbers of the loaded diagram. *)
Theorem C112_loaded_numbers : forall d s ps e fuel text table d', structured d s ps e -> SpecOptional.optional ps -> texts_readable d s ps e -> size ps + 1 < fuel ->
  export_process_to_csv fuel d None = (Some text, Ok tt) -> reads text table -> load_diagram_from_csv table empty_diagram = (d', Ok tt) ->
  let nodes := length (all_nodes s ps e) in
  let ends := 1 + length (flat_map part_ends ps) in
  let acts := length (flat_map part_acts ps) in
  let gates := 2 * list_sum (map blocks ps) in
  lost ps <= list_sum (map blocks ps) /\
  TNSE_metric d' = Ok 1 /\ TNIE_metric d' = Ok 0 /\ TNEE_metric d' = Ok ends /\ NOA_metric d' = Ok acts /\
  NOAJS_metric d' = Ok (acts + gates - lost ps) /\ NOAC_metric d' = Ok (nodes - lost ps) /\
  (exists q, CoefficientOfNetworkComplexity_metric d' = Ok q /\
     (q * inject_Z (Z.of_nat (nodes - lost ps)) == inject_Z (Z.of_nat (nodes + list_sum (map extra ps) - 1 - lost ps)))%Q).
Proof.
  intros d s ps e fuel text table d' St Op Tx Fu Ex Rd Ld nodes ends acts gates. rewrite (C81_lines d s ps e fuel St Fu) in Ex. injection Ex as <-.
  pose proof (odocumented d s e ps fuel St Op Fu Tx table Rd) as D. pose proof (oneat d s e ps fuel St Op Fu Tx table Rd) as NJ.
  pose proof (orows_iff d s e ps fuel St Op Fu Tx table Rd) as Rw.
  pose proof (ofew d s e ps fuel St Op Fu Tx table Rd) as Few. pose proof (oorders_iff d s e ps fuel St Op Fu Tx table Rd) as Ord.
  pose proof (oonward_top d s e ps fuel St Op Fu Tx table Rd) as On. pose proof (oonward_row d s e ps fuel St Op Fu Tx table Rd) as Or.
  pose proof (ogo d s e ps fuel St Op Fu Tx table Rd) as Go. pose proof (ogoal d s e ps fuel St Op Fu Tx table Rd) as Gl.
  pose proof (opt_one_way ps Op Few _ Ord On Or Go Gl) as OW.
  pose proof (optional_shallow ps Op) as Sh.
  assert (Ls : forall p, In p ps -> letters_enough p).
  { intros [m|g j bs] Hp; cbn [letters_enough]; auto. apply In_nth_error in Hp. destruct Hp as [k Hk]. apply (Few k bs). exists g, j. exact Hk. }
  destruct (gates_listed ps Ls) as (Ng & Nj & Na & Ne). pose proof (branch_list_distinct ps 0 Ls) as Nb.
  set (rows := rows_of table) in *.
  assert (Bd : forall k g j bs i b, nth_error ps k = Some (Block g j bs) -> nth_error bs i = Some b -> i < 26).
  { intros k g j bs i b H B. apply nth_lt in B. pose proof (Few k bs (ex_intro _ g (ex_intro _ j H))). unfold branch_t in *. lia. }
  assert (Fine : forall o r, flat_row d s e ps o r -> ~ goto_row r) by (intros o r H; apply (flat_row_fine d s e ps fuel St Op Fu Tx o r H)).
  assert (N0 : forall k, num (S k) <> "0") by (intros k C; change "0" with (num 0) in C; apply num_inj in C; lia).
  assert (R0 : forall k i m, i < 26 -> row_label k i m <> "0") by (intros k i m Hi C; symmetry in C; change "0" with (num 0) in C; revert C; unfold row_label; apply top_not_row; exact Hi).
  assert (Bf : forall k g j bs i b, nth_error ps k = Some (Block g j bs) -> nth_error bs i = Some b -> exists f, nth_error (outgoing_of d g) i = Some f)
    by (intros; eapply (obranch_flow d s e ps fuel); eauto).
  (* the rows *)
  assert (Wk : forall o, In o (flat_map part_acts (relabel 1 ps)) <-> works rows o).
  { intros o. rewrite acts_relabelled. split.
    - intros [(k & n & H & ->)|(k & g & j & bs & i & b & m & H & B & M & ->)].
      + pose proof (fr_act d s e ps k n H) as R. eexists. split; [apply Rw, or_flat, R|]. split; [exact (Fine _ _ R)|]. split; [apply N0|discriminate].
      + destruct (Bf k g j bs i b H B) as [f F]. destruct (nth_error (fst b) m) as [q|] eqn:Q; [|apply nth_error_None in Q; lia].
        destruct (Sh _ (nth_error_In _ _ H) b q (nth_error_In _ _ B) (nth_error_In _ _ Q)) as [n ->].
        pose proof (fr_inner d s e ps k g j bs i b f m n H B F Q) as R. eexists. split; [apply Rw, or_flat, R|]. split; [exact (Fine _ _ R)|].
        split; [apply R0; eapply Bd; eauto|discriminate].
    - intros (r & I & G & Z & T). apply Rw in I. destruct I as [o r H|k g j bs i b f H B F Di]; [|elim G; apply jump_goto].
      destruct H as [| |k n H|k g j bs i b f m n H B F Q|k g j bs i b f x H B F X].
      + elim Z. reflexivity.
      + elim T. reflexivity.
      + left. eauto.
      + right. exists k, g, j, bs, i, b, m. split; auto. split; auto. split; auto. apply nth_lt in Q. exact Q.
      + elim T. reflexivity. }
  assert (En : forall o, In o (num (S (length ps)) :: flat_map part_ends (relabel 1 ps)) <-> finishes rows o).
  { intros o. split.
    - intros [<- |I].
      + pose proof (fr_end d s e ps) as R. eexists. split; [apply Rw, or_flat, R|]. split; [exact (Fine _ _ R)|]. split; [apply N0|reflexivity].
      + apply ends_relabelled in I. destruct I as (k & g & j & bs & i & b & x & H & B & X & ->). destruct (Bf k g j bs i b H B) as [f F].
        pose proof (fr_stop d s e ps k g j bs i b f x H B F X) as R. eexists. split; [apply Rw, or_flat, R|]. split; [exact (Fine _ _ R)|].
        split; [apply R0; eapply Bd; eauto|reflexivity].
    - intros (r & I & G & Z & T). apply Rw in I. destruct I as [o r H|k g j bs i b f H B F Di]; [|elim G; apply jump_goto].
      destruct H as [| |k n H|k g j bs i b f m n H B F Q|k g j bs i b f x H B F X]; try discriminate.
      + left. reflexivity.
      + right. eapply ends_labelled; eauto. }
  assert (Be : forall o, In o ["0"] <-> begins rows o).
  { intros o. split.
    - intros [<- |[]]. pose proof (fr_start d s e ps) as R. eexists. split; [apply Rw, or_flat, R|]. split; [exact (Fine _ _ R)|reflexivity].
    - intros (r & _ & _ & ->). left. reflexivity. }
  assert (Lo : forall o, In o ("0" :: flat_map part_acts (relabel 1 ps)) <-> leads_on rows o).
  { intros o. split.
    - intros [<- |I].
      + pose proof (fr_start d s e ps) as R. split; [eexists; split; [apply Rw, or_flat, R|discriminate]|]. change "0" with (num 0). eapply (go_top ps); eauto.
      + apply Wk in I. destruct I as (r & I & G & Z & T). split; [exists r; auto|]. intros (r' & I' & G'). apply G.
        replace r with r'; auto. eapply (orow_unique d s e ps fuel); eauto.
    - intros [(r & I & T) G]. destruct (string_dec o "0") as [-> |Z]; [left; reflexivity|]. right. apply Wk. exists r. split; auto. split; auto.
      intros C. apply G. exists r. auto. }
  assert (Gt : forall g, In g (split_list 1 ps ++ join_list 1 ps) <-> gateway_left rows g).
  { intros g. unfold gateway_left. rewrite in_app_iff, split_list_in, join_list_in, (opt_gateways ps Op Few _ Ord On Or). split.
    - intros [(i & bs & B & ->)|(i & bs & B & L & ->)].
      + split; [exists i, bs; auto|]. eapply (not_passed_split ps); eauto.
      + split; [exists i, bs; auto|]. intros C. apply (passed_join ps Op Few _ Ord On Or Go Gl i bs B) in C. contradiction.
    - intros [(i & bs & B & [-> | ->]) P]; [left; exists i, bs; auto|]. right. exists i, bs. split; auto. split; auto.
      intros C. apply P. apply (passed_join ps Op Few _ Ord On Or Go Gl i bs B). exact C. }
  assert (Ord' : forall o, In o (orders rows) <-> (exists k, top_row (fill ps) k /\ o = num k) \/ (exists k i m, inner_row (fill ps) k i m /\ o = row_label (S k) i (S m))) by exact Ord.
  pose proof (fill_few ps Few) as Ff.
  assert (Jn : forall g, In g (join_list 1 ps) <-> join_left rows g).
  { intros g. rewrite join_list_in. split.
    - intros (i & bs & B & L & ->). pose proof B as [g0 [j0 B0]]. pose proof (proj1 Op _ (nth_error_In _ _ B0)) as P. cbn [optional_part] in P.
      destruct P as [_ [[b [Ib M]] _]]. apply In_nth_error in Ib. destruct Ib as [m Hm].
      exists (row_label (S i) m (branch_rows (fill_branch b))), (num (S (S i))). split.
      + apply (merges_iff (fill ps) (fill_flat ps Op) Ff _ Ord' Or). exists i, m, (fill_branch b). split; [apply fill_at; exists b; split; auto; exists bs; auto|].
        split; [rewrite fill_stop; apply M|]. auto.
      + split; [reflexivity|]. intros C. apply (passed_join ps Op Few _ Ord On Or Go Gl i bs B) in C. contradiction.
    - intros (o & m & M & -> & P). apply (merges_iff (fill ps) (fill_flat ps Op) Ff _ Ord' Or) in M. destruct M as (k & i & b' & B' & _ & _ & ->).
      apply fill_at in B'. destruct B' as [b [[bs [B H]] _]]. exists k, bs. split; auto. split; [|reflexivity].
      intros C. apply P. apply (passed_join ps Op Few _ Ord On Or Go Gl k bs B). exact C. }
  assert (Br : forall x, In x (branch_list 1 ps) <-> branch_left rows x).
  { intros [x y]. rewrite branch_list_in. unfold branch_left. cbn [fst snd]. split.
    - intros (i & m & b & B & E). injection E as -> ->. pose proof B as [bs [Bl H]]. cbn [Nat.add]. split.
      + apply (splits_iff (fill ps) (fill_flat ps Op) Ff _ Ord' On). exists i, (map fill_branch bs). split; [apply fill_block; eauto|reflexivity].
      + split; [eapply (not_passed_split ps); eauto|]. apply (branch_top (fill ps) (fill_flat ps Op) Ff _ Ord'). exists m, (fill_branch b). split; [apply fill_at; eauto|reflexivity].
    - intros [Sp [_ B]]. apply (splits_iff (fill ps) (fill_flat ps Op) Ff _ Ord' On) in Sp. destruct Sp as (k & bs & _ & ->).
      apply (branch_top (fill ps) (fill_flat ps Op) Ff _ Ord') in B. destruct B as (i & b' & B & ->). apply fill_at in B. destruct B as [b [B _]].
      exists k, i, b. split; auto. }
  (* the lengths *)
  assert (La : length (flat_map part_acts (relabel 1 ps)) = acts).
  { destruct (C110_round_trip d s ps e fuel St Op Tx Fu) as [text [Ex [_ R]]]. rewrite (C81_lines d s ps e fuel St Fu) in Ex. injection Ex as <-.
    destruct (R table empty_diagram Rd fresh_empty) as [d2 [_ [_ [_ [_ [_ [F _]]]]]]]. symmetry. exact (Forall2_len _ _ _ _ _ F). }
  pose proof (ends_len ps 1 Sh) as Le. pose proof (split_len ps 1 Sh) as Lsp. pose proof (join_len ps 1 Sh) as Lj. pose proof (branch_len ps 1) as Lb.
  destruct (all_width ps Op) as [Wd _].
  assert (Nn : nodes = 2 + length (flat_map part_ends ps) + acts + gates) by apply kinds_length.
  split; [lia|].
  assert (N00 : NoDup ["0"]) by (constructor; [intros []|constructor]).
  destruct (C104_counts table empty_diagram d' fresh_empty D NJ Ld) as (st & en & wk & gt & Hs & He & Hw & Hg & _ & M1 & M2 & M3 & _ & _ & M6 & _ & _ & _ & M10 & M11 & _).
  fold rows in Hs, He, Hw, Hg.
  pose proof (listing_len _ _ _ _ Hs N00 Be) as E1. pose proof (listing_len _ _ _ _ He Ne En) as E2. pose proof (listing_len _ _ _ _ Hw Na Wk) as E3.
  pose proof (listing_len _ _ _ _ Hg Ng Gt) as E4. rewrite app_length in E4. cbn [length] in E1, E2.
  split; [rewrite M1, E1; reflexivity|]. split; [exact M2|]. split; [rewrite M3, E2, Le; reflexivity|]. split; [rewrite M6, E3, La; reflexivity|].
  split; [rewrite M10; f_equal; unfold gates; lia|]. split; [rewrite M11; f_equal; lia|].
  destruct (C104_complexity table empty_diagram d' fresh_empty D NJ OW Ld) as (st' & en' & wk' & gt' & on & jn & br & Hs' & He' & Hw' & Hg' & Ho & Hj & Hb & C1 & C2).
  fold rows in Hs', He', Hw', Hg', Ho, Hj, Hb.
  pose proof (listing_len _ _ _ _ Hs' N00 Be) as F1. pose proof (listing_len _ _ _ _ He' Ne En) as F2. pose proof (listing_len _ _ _ _ Hw' Na Wk) as F3.
  pose proof (listing_len _ _ _ _ Hg' Ng Gt) as F4. rewrite app_length in F4. cbn [length] in F1, F2.
  assert (F5 : length on = 1 + acts).
  { rewrite (listing_len _ _ _ ("0" :: flat_map part_acts (relabel 1 ps)) Ho); [cbn [length]; lia| |exact Lo]. constructor; auto.
    intros C. apply Wk in C. destruct C as (r & _ & _ & C & _). apply C. reflexivity. }
  pose proof (listing_len _ _ _ _ Hj Nj Jn) as F6. pose proof (listing_len _ _ _ _ Hb Nb Br) as F7.
  destruct C2 as [q [Q1 Q2]]; [lia|]. exists q. split; [exact Q1|].
  replace (nodes - lost ps) with (length wk' + length gt' + (length st' + length en')) by lia.
  replace (nodes + list_sum (map extra ps) - 1 - lost ps) with (length on + length jn + length br) by lia. exact Q2.
Qed.

Lemma ratio_raised : forall q q' n x l, 1 <= x \/ l = 0 -> l < n ->
  (q * inject_Z (Z.of_nat n) == inject_Z (Z.of_nat (n + x - 1)))%Q ->
  (q' * inject_Z (Z.of_nat (n - l)) == inject_Z (Z.of_nat (n + x - 1 - l)))%Q ->
  (q <= q')%Q /\ (0 < l -> 2 <= x -> (q < q')%Q) /\ (l = 0 \/ x = 1 -> (q' == q)%Q).
Proof.
  intros q q' n x l X L A B. destruct q as [a b], q' as [a' b']. unfold Qeq, Qle, Qlt, Qmult, inject_Z in *. cbn [Qnum Qden] in *.
  rewrite Nat2Z.inj_sub in B by lia. rewrite !Nat2Z.inj_sub in B by lia. rewrite Nat2Z.inj_sub in A by lia.
  rewrite Nat2Z.inj_add in A, B. rewrite !Pos.mul_1_r, !Z.mul_1_r in *. change (Z.of_nat 1) with 1%Z in *.
  set (N := Z.of_nat n) in *. set (K := Z.of_nat l) in *. set (Y := Z.of_nat x) in *. set (P := Z.pos b) in *. set (P' := Z.pos b') in *.
  assert (HP : (0 < P)%Z) by (unfold P; lia). assert (HP' : (0 < P')%Z) by (unfold P'; lia). assert (HN : (0 <= K < N)%Z) by (unfold K, N; lia).
  assert (E1 : ((a * P') * (N * (N - K)) = (P * P') * ((N + Y - 1) * (N - K)))%Z) by (transitivity ((a * N) * (P' * (N - K)))%Z; [ring|rewrite A; ring]).
  assert (E2 : ((a' * P) * (N * (N - K)) = (P * P') * ((N + Y - 1 - K) * N))%Z) by (transitivity ((a' * (N - K)) * (P * N))%Z; [ring|rewrite B; ring]).
  assert (H0 : (0 < N * (N - K))%Z) by (apply Z.mul_pos_pos; lia). assert (H1 : (0 < P * P')%Z) by (apply Z.mul_pos_pos; lia).
  assert (Df : ((N + Y - 1 - K) * N - (N + Y - 1) * (N - K) = K * (Y - 1))%Z) by ring.
  split; [|split].
  - apply (Zmult_le_reg_r _ _ (N * (N - K))); [lia|]. rewrite E1, E2. apply Z.mul_le_mono_nonneg_l; [lia|].
    enough (0 <= K * (Y - 1))%Z by lia. destruct X as [X| ->]; [apply Z.mul_nonneg_nonneg; unfold Y; lia|unfold K; lia].
  - intros L0 X2. apply (Zmult_lt_reg_r _ _ (N * (N - K))); [lia|]. rewrite E1, E2. apply Zmult_lt_compat_l; [lia|].
    enough (0 < K * (Y - 1))%Z by lia. apply Z.mul_pos_pos; unfold K, Y; lia.
  - intros C. apply (Z.mul_cancel_r _ _ (N * (N - K))); [lia|]. rewrite E1, E2. f_equal. enough (K * (Y - 1) = 0)%Z by lia.
    destruct C as [-> | ->]; [unfold K|unfold Y; change (Z.of_nat 1) with 1%Z]; ring.
Qed.

(** Compared with the diagram made with the API: events and activities are as many as before, one gateway is missing for each block counted by
    [lost], and the flows per node never fall. *)
Theorem C112_numbers_compared : forall l d s ps e fuel text table d', history l d -> distinct_pairs d -> made_of d s ps e ->
  structured d s ps e -> SpecOptional.optional ps -> texts_readable d s ps e -> size ps + 1 < fuel ->
  export_process_to_csv fuel d None = (Some text, Ok tt) -> reads text table -> load_diagram_from_csv table empty_diagram = (d', Ok tt) ->
  TNSE_metric d' = TNSE_metric d /\ TNIE_metric d' = TNIE_metric d /\ TNEE_metric d' = TNEE_metric d /\ NOA_metric d' = NOA_metric d /\
  (exists m m', NOAJS_metric d = Ok m /\ NOAJS_metric d' = Ok m' /\ m' + lost ps = m) /\
  (exists m m', NOAC_metric d = Ok m /\ NOAC_metric d' = Ok m' /\ m' + lost ps = m) /\
  (exists q q', CoefficientOfNetworkComplexity_metric d = Ok q /\ CoefficientOfNetworkComplexity_metric d' = Ok q' /\ (q <= q')%Q /\
     (0 < lost ps -> 2 <= list_sum (map extra ps) -> (q < q')%Q) /\ (lost ps = 0 \/ list_sum (map extra ps) = 1 -> (q' == q)%Q)).
Proof.
  intros l d s ps e fuel text table d' H D M St Op Tx Fu Ex Rd Ld.
  pose proof (structured_kinds _ _ _ _ St) as K.
  destruct (C112_loaded_numbers d s ps e fuel text table d' St Op Tx Fu Ex Rd Ld) as (Lo & A1 & A2 & A3 & A4 & A5 & A6 & (q' & A7 & A8)).
  destruct (C99_counts l d s ps e H M K) as (B1 & B2 & B3 & _ & B5 & B6 & B7 & _). rewrite A1, A2, A3, A4, B1, B2, B3, B5. do 4 (split; [reflexivity|]).
  pose proof (kinds_length s ps e) as Kl.
  split; [eexists; eexists; split; [exact B6|split; [exact A5|lia]]|]. split; [eexists; eexists; split; [exact B7|split; [exact A6|lia]]|].
  destruct (C99_network_complexity l d s ps e H D M) as (q & C1 & C2). exists q, q'. split; [exact C1|]. split; [exact A7|].
  eapply ratio_raised; [| |exact C2|exact A8]; [|lia]. destruct (all_width ps Op) as [_ W]. lia.
Qed.

(** * Examples *)
Lemma opt_demo_made : history opt_ops opt_demo /\ distinct_pairs opt_demo /\ made_of opt_demo "s" opt_parts "e".
Proof.
  destruct opt_demo_ok as (H & _). split; [exact H|]. apply (Prop_Measure.made_ok _ _ "s" opt_parts "e" H); [vm_compute; reflexivity|].
  assert (Sa : forall ns p, In p (map Act ns) -> sound p) by (intros ns p Hp; apply in_map_iff in Hp; destruct Hp as [n [<- _]]; constructor).
  intros p [<- |[<- |[<- |[]]]]; [|constructor|]; (constructor; [cbn; lia|cbn; lia|]).
  - intros b p [<- |[<- |[]]] Hp; [exact (Sa ["b"; "c"] p Hp)|contradiction].
  - intros b p [<- |[<- |[<- |[<- |[]]]]] Hp; [exact (Sa ["l"] p Hp)|contradiction|exact (Sa ["r"] p Hp)|contradiction].
Qed.
Example C112_example : SpecOptional.optional opt_parts /\ lost opt_parts = 1 /\ list_sum (map extra opt_parts) = 3 /\
  load_diagram_from_csv opt_tab empty_diagram = (opt_loaded, Ok tt) /\
  NOA_metric opt_demo = Ok 5 /\ NOA_metric opt_loaded = Ok 5 /\ NOAJS_metric opt_demo = Ok 9 /\ NOAJS_metric opt_loaded = Ok 8 /\
  NOAC_metric opt_demo = Ok 12 /\ NOAC_metric opt_loaded = Ok 11 /\
  CoefficientOfNetworkComplexity_metric opt_demo = Ok (14 # 12)%Q /\ CoefficientOfNetworkComplexity_metric opt_loaded = Ok (13 # 11)%Q.
Proof. split; [exact opt_parts_ok|]. vm_compute. repeat split. Qed.
Print Assumptions C112_loaded_numbers.
Print Assumptions C112_numbers_compared.
