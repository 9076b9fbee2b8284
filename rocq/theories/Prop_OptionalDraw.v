(** Processes with optional steps exported to CSV, loaded, laid out and saved (C111).
    Each theorem is followed by a concrete case of its hypotheses. *)
From Coq Require Import String Ascii List Bool Arith ZArith Lia Permutation.
From Verif Require Import Py PyFacts Consts Nx NxFacts Rep SpecRep RepFacts MetricsFacts Classify Layouter SpecLayout ClassifyFacts TopoFacts LayoutFacts.
From Verif Require Import SpecBlocks SpecFlat SpecPlan PlanBlocks Prop_BlockLayout SpecOptions OptionShape OptionPlan Prop_Options.
From Verif Require Import CsvRegex CsvImport SpecCsv RegexFacts CsvFacts CsvTable SpecFlow CsvGhost CsvFill CsvLast CsvTotal CsvExport SpecCsvExport CsvExportFacts CsvChain CsvOrders.
From Verif Require Import BlockExport FlatTable FlatLines GotoFacts SpecOptional OptionalTable OptionalDraw.
From Verif Require Import Xml Export Import SpecXml SpecRound SpecWrite Prop_XmlRound Prop_XmlWrites Prop_XmlDrawn.
From Verif Require Import Prop_LayoutMetrics Prop_Layout Prop_CsvRows Prop_CsvImport Prop_CsvExport Prop_CsvBlocks Prop_CsvFlat SpecGoto Prop_CsvGoto Prop_CsvLayout Prop_GotoLayout Prop_BlockCsv Prop_CsvOptional.
Import ListNotations.
Open Scope string_scope.
Open Scope list_scope.

(** * The parts of the loaded diagram *)
Lemma labelled_act : forall k i b p, In p (fst (relabel_branch k i b)) -> is_act p.
Proof. intros k i b p H. unfold relabel_branch in H. cbn [fst] in H. apply in_map_iff in H. destruct H as [m [<- _]]. exists (row_label k i m). reflexivity. Qed.
Lemma labelled_len : forall k bs i, length (relabel_branches k i bs) = length bs.
Proof. intros k. induction bs as [|b bs IH]; intros i; cbn; auto. Qed.
Lemma labelled_loose : forall k g j g' j' bs, step_part (Block g j bs) -> loose_part (Block g' j' (relabel_branches k 0 bs)).
Proof.
  intros k g j g' j' bs [[L P]|[a [-> | ->]]]; cbn [loose_part].
  - split; [rewrite labelled_len; exact L|]. left. intros b Hb. apply in_branches in Hb. destruct Hb as [i [b0 [Hb ->]]].
    apply nth_error_In in Hb. destruct (P b0 Hb) as [_ [A B]]. split; [apply labelled_act|]. unfold relabel_branch. cbn [fst snd]. rewrite B.
    split; auto. destruct (fst b0); [congruence|discriminate].
  - split; [cbn; lia|]. right. eexists [_], []. split; [reflexivity|]. intros b [<- |[]]. eexists. reflexivity.
  - split; [cbn; lia|]. right. eexists [], [_]. split; [reflexivity|]. intros b [<- |[]]. eexists. reflexivity.
Qed.
Lemma drawn_loose : forall n ps k, length ps <= n -> (forall p, In p ps -> step_part p) -> forall p, In p (drawn k ps) -> loose_part p.
Proof.
  induction n as [n IH] using lt_wf_ind. intros ps k Hn P p Hp. destruct ps as [|[a|g j bs] qs]; [contradiction| |].
  - cbn [length] in Hn. cbn [drawn] in Hp. destruct Hp as [<- |Hp]; [exact I|]. eapply (IH (length qs) ltac:(lia) qs); eauto. intros q Hq. apply P. right; auto.
  - cbn [length] in Hn. cbn [drawn] in Hp. pose proof (P _ (or_introl eq_refl)) as Pb. destruct (has_direct bs).
    + destruct qs as [|[a|g' j' bs'] rest]; try contradiction. cbn [length] in Hn. destruct Hp as [<- |Hp]; [eapply labelled_loose; exact Pb|].
      eapply (IH (length rest) ltac:(lia) rest); eauto. intros q Hq. apply P. right; right; auto.
    + destruct Hp as [<- |Hp]; [eapply labelled_loose; exact Pb|]. eapply (IH (length qs) ltac:(lia) qs); eauto. intros q Hq. apply P. right; auto.
Qed.

Lemma loaded_consists : forall d s e ps fuel table d1, structured d s ps e -> SpecOptional.optional ps -> (forall p, In p ps -> step_part p) -> steps_followed ps ->
  texts_readable d s ps e -> size ps + 1 < fuel -> reads (csv_text (csv_columns :: process_lines d s ps e)) table ->
  load_diagram_from_csv table empty_diagram = (d1, Ok tt) ->
  documented table /\ neat_jumps (rows_of table) /\ one_way (rows_of table) /\
  coherent d1 /\ all_laid_out d1 /\ gwf (dgraph d1) /\ drawable d1 /\ consists d1 "0" (drawn 1 ps) (num (S (length ps))).
Proof.
  intros d s e ps fuel table d1 St Op Sp Sf Tx Fu Rd Ld.
  pose proof (odocumented d s e ps fuel St Op Fu Tx table Rd) as D.
  pose proof (oneat d s e ps fuel St Op Fu Tx table Rd) as NJ.
  assert (OW : one_way (rows_of table)).
  { eapply (opt_one_way ps Op); [eapply (ofew d s e ps fuel); eauto|eapply (oorders_iff d s e ps fuel); eauto|eapply (oonward_top d s e ps fuel); eauto|
      eapply (oonward_row d s e ps fuel); eauto|eapply (ogo d s e ps fuel); eauto|eapply (ogoal d s e ps fuel); eauto]. }
  destruct (C91_ready_for_layout table d1 D NJ OW Ld) as [Co [AL [W [Dr Fl]]]].
  split; auto. split; auto. split; auto. split; auto. split; auto. split; auto. split; auto.
  pose proof (oloaded_nodes d s e ps fuel St Op Fu Tx table Rd empty_diagram d1 fresh_empty Ld) as Nd.
  pose proof (oloaded_flows d s e ps fuel St Op Fu Tx table Rd empty_diagram d1 fresh_empty Ld) as Fb.
  destruct (C86_nodes_and_flows table empty_diagram d1 fresh_empty D NJ Ld) as [_ [Gf _]].
  pose proof (drawn_flows ps Op Sp Sf) as Df.
  pose proof (drawn_loose (length ps) ps 1 (le_n _) Sp) as Lo.
  assert (La : forall p, In p (drawn 1 ps) -> act_part p) by (intros p Hp; apply loose_act; auto).
  assert (Go : forall x y, goes d1 x y <-> In (x, y) (path_flows "0" (drawn 1 ps) (num (S (length ps))))).
  { intros x y. rewrite Df, <- Fb, Gf. apply Fl. }
  split.
  { apply drawn_distinct. intros [m|g j bs] Hp; cbn [letters_enough]; auto. apply In_nth_error in Hp. destruct Hp as [k Hk].
    apply (ofew d s e ps fuel St Op Fu Tx table Rd k bs). exists g, j. exact Hk. }
  split.
  { intros n. split.
    - intros H. apply Nd in H. destruct (node_entered ps Op Sp Sf n H) as [-> |[x F]]; [left; reflexivity|]. right.
      apply Df in F. exact (proj2 (act_ends _ _ _ _ _ La F)).
    - intros [<- |H]; [apply Nd; left; exists 0; split; [left; reflexivity|reflexivity]|].
      destruct (entered _ _ _ "0" H Lo) as [b F]. apply Go in F. destruct F as [f F]. eapply incoming_node. apply F. }
  split; [exact Go|]. destruct (table_rerouted _ _ _ fresh_empty D NJ Ld) as [L Im]. assert (G : good_rows (rows_of table)) by exact D.
  intros f g x y A B. apply (goto_flows _ _ _ _ G NJ OW Im W) in A, B. destruct A, B. congruence.
Qed.

(** A process with optional steps exported to CSV, loaded and laid out; then saved as XML and loaded.  The picture is that
    of the process in which the activity after an optional step has taken the place of the gateway. *)
Theorem C111_csv : forall d s ps e fuel, structured d s ps e -> SpecOptional.optional ps -> (forall p, In p ps -> step_part p) -> steps_followed ps ->
  texts_readable d s ps e -> size ps + 1 < fuel ->
  exists text, export_process_to_csv fuel d None = (Some text, Ok tt) /\ (exists table, reads text table) /\
    forall table, reads text table ->
    let qs := drawn 1 ps in let z := num (S (length ps)) in
    exists d1 bound, load_diagram_from_csv table empty_diagram = (d1, Ok tt) /\
      forall fuel1, bound <= fuel1 -> exists d2, generate_layout fuel1 d1 = (d2, Ok tt) /\
        in_cell d2 "0" 2 1 /\ picture_at (in_cell d2) 2 2 qs z /\
        forall set_order, any_order set_order -> exists bound', forall fuel2, bound' <= fuel2 ->
        exists d3, round_trip set_order fuel2 d2 d3 /\ (forall n, is_node d3 n <-> In n (all_nodes "0" qs z)) /\
          in_cell d3 "0" 2 1 /\ picture_at (in_cell d3) 2 2 qs z.
Proof.
  intros d s ps e fuel St Op Sp Sf Tx Fu. destruct (C110_round_trip d s ps e fuel St Op Tx Fu) as [text [Ex [Rt R]]].
  exists text. split; auto. split; auto. intros table Rd qs z. destruct (R table empty_diagram Rd fresh_empty) as [d1 [Ld [Nd _]]].
  rewrite (C81_lines d s ps e fuel St Fu) in Ex. injection Ex as <-.
  destruct (loaded_consists d s e ps fuel table d1 St Op Sp Sf Tx Fu Rd Ld) as [D [NJ [OW [Co [AL [W [Dr Cs]]]]]]].
  pose proof (drawn_loose (length ps) ps 1 (le_n _) Sp) as Lo.
  exists d1, (sort_bound d1). split; auto. intros fuel1 F1.
  destruct (C97_picture d1 "0" qs z fuel1 Co AL W Dr Cs Lo F1) as [d2 [Ly [S Pi]]].
  exists d2. split; auto. split; auto. split; auto. intros so Ao.
  destruct (C91_table_saved so table fuel1 d1 d2 Ao D NJ OW Ld Ly) as [bound' B]. exists bound'. intros fuel2 F2.
  destruct (B fuel2 F2) as [d3 [Rt3 [N3 [A3 _]]]]. exists d3. split; auto.
  destruct (C86_nodes_and_flows table empty_diagram d1 fresh_empty D NJ Ld) as [Tn _].
  assert (N : forall n, is_node d3 n <-> In n (all_nodes "0" qs z)) by (intro n; rewrite N3, <- Tn; apply Cs). split; auto.
  assert (Same : forall n x y, In n (all_nodes "0" qs z) -> at_xy d2 n x y -> at_xy d3 n x y).
  { intros n x y I [X Y]. apply N in I. destruct (A3 n I) as [x' [y' [[X2 Y2] [[X3 Y3] _]]]]. rewrite X2 in X. rewrite Y2 in Y. split; congruence. }
  split; [apply Same; [left; auto|exact S]|].
  apply (picture_ext (in_cell d2)); [intros p Hp; apply loose_act; apply Lo; exact Hp| |exact Pi].
  intros n r c I. apply Same. right. exact I.
Qed.

(** * Above the canvas *)
Lemma labelled_optional : forall k g j g' j' bs, step_part (Block g j bs) ->
  SpecOptions.optional (Block g' j' (relabel_branches k 0 bs)) = SpecOptions.optional (Block g j bs) /\ only_options (Block g' j' (relabel_branches k 0 bs)) /\
  SpecOptions.optional (Block g j bs) = has_direct bs.
Proof.
  intros k g j g' j' bs [[L P]|[a [-> | ->]]]; [|repeat split; reflexivity..].
  assert (X : forall l, (forall b, In b l -> fst b <> []) -> SpecOptions.direct l = false).
  { intros l H. unfold SpecOptions.direct. induction l as [|b l IH]; auto. cbn [existsb]. rewrite IH by (intros c Hc; apply H; right; auto).
    specialize (H b (or_introl eq_refl)). unfold has_steps. destruct (fst b); [congruence|reflexivity]. }
  assert (A : SpecOptions.direct bs = false) by (apply X; intros b Hb; apply P; auto).
  assert (B : SpecOptions.direct (relabel_branches k 0 bs) = false).
  { apply X. intros b Hb. apply in_branches in Hb. destruct Hb as [i [b0 [Hb ->]]]. apply nth_error_In in Hb. destruct (P b0 Hb) as [_ [C _]].
    unfold relabel_branch. cbn [fst]. destruct (fst b0); [congruence|discriminate]. }
  unfold SpecOptions.optional, only_options. rewrite A, B, (plain_no_direct bs P). repeat split; auto. discriminate.
Qed.
Lemma drawn_options : forall n ps k, length ps <= n -> (forall p, In p ps -> step_part p) -> steps_followed ps ->
  (forall k p q, nth_error ps k = Some p -> nth_error ps (S k) = Some q -> SpecFlat.is_block p -> is_act q) ->
  options (drawn k ps) = options ps /\ forall p, In p (drawn k ps) -> only_options p.
Proof.
  induction n as [n IH] using lt_wf_ind. intros ps k Hn P Sf Nb.
  assert (Tail : forall p qs, ps = p :: qs -> (forall q, In q qs -> step_part q) /\ steps_followed qs /\
    forall k p q, nth_error qs k = Some p -> nth_error qs (S k) = Some q -> SpecFlat.is_block p -> is_act q).
  { intros p qs ->. split; [intros q Hq; apply P; right; auto|]. split.
    - intros m g j bs H D. specialize (Sf (S m) g j bs H D). cbn [length] in Sf. lia.
    - intros m x y H H'. apply (Nb (S m)); auto. }
  destruct ps as [|[a|g j bs] qs].
  - split; [reflexivity|intros p []].
  - cbn [length] in Hn. destruct (Tail _ _ eq_refl) as [P' [Sf' Nb']]. destruct (IH (length qs) ltac:(lia) qs (S k) (le_n _) P' Sf' Nb') as [A B].
    cbn [drawn]. split; [exact A|]. intros p [<- |H]; [exact I|auto].
  - cbn [length] in Hn. pose proof (P _ (or_introl eq_refl)) as Pb. cbn [drawn]. destruct (has_direct bs) eqn:E.
    + pose proof (Sf 0 g j bs eq_refl E) as L. destruct qs as [|q rest]; [cbn in L; lia|].
      destruct (Nb 0 _ q eq_refl eq_refl) as [a ->]; [red; eauto|]. cbn [length] in Hn.
      destruct (Tail _ _ eq_refl) as [P' [Sf' Nb']].
      destruct (IH (length rest) ltac:(lia) rest (S (S k)) (le_n _)) as [A B]; [intros q Hq; apply P'; right; auto| | |].
      { intros m g0 j0 bs0 H D. specialize (Sf' (S m) g0 j0 bs0 H D). cbn [length] in Sf'. lia. }
      { intros m x y H H'. apply (Nb' (S m)); auto. }
      destruct (labelled_optional k g j (split_of (num (k - 1))) (num (S k)) bs Pb) as [C [D F]]. split.
      * unfold options in *. cbn [filter]. rewrite C, F, E. cbn [filter SpecOptions.optional length]. rewrite A. reflexivity.
      * intros p [<- |H]; [exact D|auto].
    + destruct (Tail _ _ eq_refl) as [P' [Sf' Nb']]. destruct (IH (length qs) ltac:(lia) qs (S k) (le_n _) P' Sf' Nb') as [A B].
      destruct (labelled_optional k g j (split_of (num (k - 1))) (join_of (num (S k))) bs Pb) as [C [D F]]. split.
      * unfold options in *. cbn [filter]. rewrite C, F, E. exact A.
      * intros p [<- |H]; [exact D|auto].
Qed.
(** With three optional steps the loaded diagram is drawn above the canvas. *)
Theorem C111_off_canvas : forall d s ps e fuel text table, structured d s ps e -> SpecOptional.optional ps -> (forall p, In p ps -> step_part p) -> steps_followed ps ->
  texts_readable d s ps e -> size ps + 1 < fuel -> 3 <= options ps ->
  export_process_to_csv fuel d None = (Some text, Ok tt) -> reads text table ->
  exists d1, load_diagram_from_csv table empty_diagram = (d1, Ok tt) /\
    forall fuel1, sort_bound d1 <= fuel1 ->
    exists d2 n x y, generate_layout fuel1 d1 = (d2, Ok tt) /\ is_node d1 n /\ at_xy d2 n x y /\ (y < 0)%Z.
Proof.
  intros d s ps e fuel text table St Op Sp Sf Tx Fu Th Ex Rd. rewrite (C81_lines d s ps e fuel St Fu) in Ex. injection Ex as <-.
  destruct (oloads d s e ps fuel St Op Fu Tx table Rd empty_diagram fresh_empty) as [d1 Ld]. exists d1. split; auto. intros fuel1 F1.
  destruct (loaded_consists d s e ps fuel table d1 St Op Sp Sf Tx Fu Rd Ld) as [D [NJ [OW [Co [AL [W [Dr Cs]]]]]]].
  destruct (drawn_options (length ps) ps 1 (le_n _) Sp Sf (proj2 Op)) as [A B].
  eapply C97_off_canvas; eauto; [apply (drawn_loose (length ps) ps 1 (le_n _) Sp)|]. rewrite A. exact Th.
Qed.

(** * Example: three optional steps *)
Definition step_parts : list part :=
  [Act "a"; Block "g1" "j1" [([Act "b"], None); ([], None)]; Act "c"; Block "g2" "j2" [([], None); ([Act "x"], None)]; Act "h";
   Block "g3" "j3" [([Act "y"], None); ([], None)]; Act "k"].
Definition step_ops : list op :=
  [ONew "m" "0"; OStart "id2" "begin" None false true (Some "s") "" ""] ++
  map (fun n => OTask "id2" ("do " ++ n)%string (Some n) "") ["a"; "b"; "c"; "x"; "h"; "y"; "k"] ++
  flat_map (fun n => [OExclusive "id2" "g" "Diverging" None (Some ("g" ++ n)%string) ""; OExclusive "id2" "j" "Converging" None (Some ("j" ++ n)%string) ""]) ["1"; "2"; "3"] ++
  [OEnd "id2" "done" None (Some "e") "" ""] ++
  map (fun p => OFlow "id2" (fst p) (snd p) (if String.eqb (fst p) "g1" then "if " ++ snd p else "")%string (fst p ++ snd p)%string) (path_flows "s" step_parts "e").
Definition step_demo : diagram := run empty_diagram step_ops.
Definition step_table : list (order_label * row) := table_of (process_lines step_demo "s" step_parts "e").
Lemma step_parts_ok : SpecOptional.optional step_parts /\ (forall p, In p step_parts -> step_part p) /\ steps_followed step_parts.
Proof.
  assert (Ua : forall n p, In p [Act n] -> is_act p) by (intros n p [<- |[]]; exists n; auto).
  assert (Dt : forall n i i' b b', nth_error [([Act n], None); ([], None)] i = Some b -> nth_error [([Act n], None); ([], None)] i' = Some b' -> SpecOptional.direct b -> SpecOptional.direct b' -> i = i').
  { intros n [|[|i]] [|[|i']] b b' H H' D D'; cbn in H, H'; auto; try (injection H as <-; red in D; discriminate D); try (injection H' as <-; red in D'; discriminate D');
      try (destruct i; discriminate); try (destruct i'; discriminate). }
  assert (Dt' : forall n i i' b b', nth_error [([], None); ([Act n], None)] i = Some b -> nth_error [([], None); ([Act n], None)] i' = Some b' -> SpecOptional.direct b -> SpecOptional.direct b' -> i = i').
  { intros n [|[|i]] [|[|i']] b b' H H' D D'; cbn in H, H'; auto; try (injection H as <-; red in D; discriminate D); try (injection H' as <-; red in D'; discriminate D');
      try (destruct i; discriminate); try (destruct i'; discriminate). }
  assert (O1 : forall g j n, optional_part (Block g j [([Act n], None); ([], None)])).
  { intros g j n. split; [exists 0, 1, ([Act n], None), ([], None); repeat split; discriminate|].
    split; [exists ([Act n], None); split; [left; auto|split; [auto|discriminate]]|]. split; [|apply Dt].
    intros b [<- |[<- |[]]]; [left; split; [apply Ua|cbn; lia]|right; reflexivity]. }
  assert (O2 : forall g j n, optional_part (Block g j [([], None); ([Act n], None)])).
  { intros g j n. split; [exists 0, 1, ([], None), ([Act n], None); repeat split; discriminate|].
    split; [exists ([Act n], None); split; [right; left; auto|split; [auto|discriminate]]|]. split; [|apply Dt'].
    intros b [<- |[<- |[]]]; [right; reflexivity|left; split; [apply Ua|cbn; lia]]. }
  split; [split|split].
  - intros p Hp. cbn in Hp. repeat (destruct Hp as [<- |Hp]; [auto; exact I|]). contradiction.
  - intros [|[|[|[|[|[|[|k]]]]]]] p q Hp Hq [g [j [bs B]]]; cbn in Hp, Hq; try (destruct k; discriminate); injection Hp as <-; try discriminate; injection Hq as <-; red; eauto.
  - intros p Hp. cbn in Hp. repeat (destruct Hp as [<- |Hp]; [try exact I; right; eexists; auto|]). contradiction.
  - intros [|[|[|[|[|[|[|k]]]]]]] g j bs Hp D; cbn in Hp; try discriminate; cbn; try lia. destruct k; discriminate.
Qed.
Lemma step_demo_ok : structured step_demo "s" step_parts "e" /\ texts_readable step_demo "s" step_parts "e" /\ size step_parts + 1 < 40 /\ options step_parts = 3 /\
  export_process_to_csv 40 step_demo None = (Some (csv_text (csv_columns :: process_lines step_demo "s" step_parts "e")), Ok tt) /\
  reads (csv_text (csv_columns :: process_lines step_demo "s" step_parts "e")) step_table.
Proof.
  assert (H : history step_ops step_demo /\ coherent step_demo) by (apply built; vm_compute; reflexivity). destruct H as [H C].
  split; [apply structured_ok; [exact C|vm_compute; reflexivity]|]. split; [apply texts_ok; vm_compute; reflexivity|].
  split; [apply Nat.ltb_lt; vm_compute; reflexivity|]. split; [reflexivity|]. split; [vm_compute; reflexivity|]. apply table_reads; vm_compute; reflexivity.
Qed.
Example C111_csv_example :
  drawn 1 step_parts = [Act "1"; Block "1_split" "3" [([Act "2a1"], None); ([], None)]; Block "3_split" "5" [([], None); ([Act "4b1"], None)];
    Block "5_split" "7" [([Act "6a1"], None); ([], None)]] /\
  let r := generate_layout 80 (fst (load_diagram_from_csv step_table empty_diagram)) in
  snd r = Ok tt /\
  map (fun x => match x with (n, Some (VStr a), Some (VStr b)) => (n, a, b) | (n, _, _) => (n, "", "") end) (Prop_BlockLayout.drawn_at (fst r)) =
  [("0", "200", "250"); ("1", "350", "250"); ("2a1", "650", "450"); ("3", "800", "350"); ("4b1", "1100", "550"); ("5", "1250", "150");
   ("6a1", "1550", "350"); ("7", "1700", "-50"); ("8", "1850", "-50"); ("1_split", "500", "250"); ("3_split", "950", "350"); ("5_split", "1400", "150")].
Proof. split; [vm_compute; reflexivity|]. split; vm_compute; reflexivity. Qed.
Print Assumptions C111_csv.
Print Assumptions C111_off_canvas.
