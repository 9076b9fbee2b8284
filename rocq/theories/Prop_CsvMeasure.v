(** Going through a CSV file keeps the numbers of a process (C105).
    Each theorem is followed by a concrete case of its hypotheses. *)
From Coq Require Import String Ascii List Bool Arith ZArith QArith Lia Permutation.
From Verif Require Import Py PyFacts Consts Nx NxFacts Rep SpecRep RepFacts Classify Layouter SpecLayout ClassifyFacts TopoFacts Prop_Layout.
From Verif Require Import CsvImport CsvExport SpecCsv SpecFlow SpecCsvExport SpecBlocks SpecFlat CsvFacts CsvGhost CsvGraph CsvFill CsvLast CsvCoherent FlatTable FlatLines FlatAgain
  Prop_CsvImport Prop_CsvBlocks Prop_CsvFlat Prop_CsvLayout Prop_CsvAgain.
From Verif Require Import SpecPlan PlanBlocks Prop_BlockCsv.
From Verif Require Import Metrics SpecMetrics MetricsFacts MetricsFacts2 Prop_Metrics LayoutMetrics SpecLayoutMetrics Prop_LayoutMetrics SpecMeasure MeasureFacts Prop_Measure CsvMeasure.
Import ListNotations.
Open Scope string_scope.
Open Scope list_scope.
Open Scope nat_scope.

(** The loaded diagram is made of the same structure with the names of the file. *)
Lemma loaded_made : forall d s ps e fuel text table d', structured d s ps e -> flat ps -> texts_readable d s ps e -> size ps + 1 < fuel ->
  export_process_to_csv fuel d None = (Some text, Ok tt) -> reads text table -> load_diagram_from_csv table empty_diagram = (d', Ok tt) ->
  let qs := relabel 1 ps in let z := num (S (length ps)) in
  made_of d' "0" qs z /\ kinds_fit d' "0" qs z /\ steady d' /\ unique_ids d' /\ SpecRep.typed d' /\
  length (get_flows d') = length (path_flows "0" qs z) /\
  (forall n, flow_ends d' n = count_occ string_dec (flat_map (fun p => [fst p; snd p]) (path_flows "0" qs z)) n).
Proof.
  intros d s ps e fuel text table d' St Fl Tx Fu Ex Rd Ld qs z.
  destruct (C82_round_trip d s ps e fuel St Fl Tx Fu) as [text' [Ex' [_ R]]]. rewrite Ex in Ex'. injection Ex' as <-.
  destruct (R table empty_diagram Rd fresh_empty) as [d1 [Ld' [Nd [Fb _]]]]. rewrite Ld in Ld'. injection Ld' as <-. fold qs z in Nd, Fb.
  pose proof (C94_structure d s ps e fuel text table d' St Fl Tx Fu Ex Rd Ld) as St'. fold qs z in St'.
  rewrite (C81_lines d s ps e fuel St Fu) in Ex. injection Ex as <-.
  assert (D : documented table) by (eapply (table_documented d s e ps fuel); eauto).
  assert (G : goto_free table) by (eapply (table_no_goto d s e ps fuel); eauto).
  destruct (C83_ready_for_layout table d' D G Ld) as (_ & _ & W & _ & _).
  destruct (table_loaded table empty_diagram d' fresh_empty D G Ld) as [L Im].
  assert (Ls : forall p, In p ps -> letters_enough p).
  { intros p Hp. destruct p as [m|g j bs]; cbn [letters_enough]; auto. apply In_nth_error in Hp. destruct Hp as [k Hk]. eapply (few d s e ps fuel); eauto. }
  assert (So : forall p, In p qs -> sound p) by (intros p Hp; apply flat_sound; apply (proj1 (relabel_flat ps Fl) p Hp)).
  assert (N : NoDup (all_nodes "0" qs z)) by (apply labels_distinct; exact Ls).
  assert (Lf : forall x y, In (x, y) L <-> In (x, y) (path_flows "0" qs z)).
  { intros x y. rewrite <- Fb. rewrite <- (loaded_records _ _ _ _ Im). unfold flow_between. split; [intros (f & r & E & <- & <-)|intros (f & E)].
    - exists f. rewrite E. destruct r as [nm a b]. apply (bk_flows _ _ (im_books _ _ _ _ Im)) in E. destruct E as (a' & b' & _ & -> & Er). rewrite Er. reflexivity.
    - exists f. eexists. split; [exact E|]. auto. }
  assert (P : Permutation L (path_flows "0" qs z)).
  { apply NoDup_Permutation; [apply Im|apply process_nodup; assumption|]. intros [x y]. apply Lf. }
  split; [split; [exact N|split; [exact So|split; [exact Nd|]]]|].
  { intros x y. rewrite (loaded_records _ _ _ _ Im). apply Lf. }
  split; [apply structured_kinds; exact St'|]. split; [apply (loaded_steady _ _ _ _ Im W)|]. split; [apply W|]. split; [apply (loaded_typed _ _ _ _ Im)|]. split.
  - unfold get_flows. rewrite edges_view_length by exact W. rewrite <- (map_length both), (Permutation_length (loaded_edges _ _ _ _ Im W)). apply Permutation_length. exact P.
  - intro n. apply (loaded_ends _ _ _ _ Im W _ n P).
Qed.

(** Both metrics are undefined or both are the same number. *)
Definition same_ratio (a b : res Q) : Prop :=
  match a, b with Ok p, Ok q => (p == q)%Q | Err x, Err y => x = y | _, _ => False end.
Lemma ratio_unique : forall n m a b, 0 < n -> (exists q, a = Ok q /\ (q * inject_Z (Z.of_nat n) == inject_Z (Z.of_nat m))%Q) ->
  (exists q, b = Ok q /\ (q * inject_Z (Z.of_nat n) == inject_Z (Z.of_nat m))%Q) -> same_ratio a b.
Proof.
  intros n m a b Pn (p & -> & Ep) (q & -> & Eq). cbn [same_ratio]. rewrite <- Eq in Ep. apply Qmult_inj_r in Ep; [exact Ep|]. unfold Qeq, inject_Z. cbn [Qnum Qden]. lia.
Qed.

(** The numbers of the loaded diagram follow from the structure that was exported. *)
Theorem C105_loaded_numbers : forall d s ps e fuel text table d' fuel', structured d s ps e -> flat ps -> texts_readable d s ps e -> size ps + 1 < fuel ->
  export_process_to_csv fuel d None = (Some text, Ok tt) -> reads text table -> load_diagram_from_csv table empty_diagram = (d', Ok tt) ->
  let nodes := length (all_nodes s ps e) in
  let ends := 1 + length (flat_map part_ends ps) in
  let acts := length (flat_map part_acts ps) in
  let gates := 2 * list_sum (map blocks ps) in
  TNSE_metric d' = Ok 1 /\ TNIE_metric d' = Ok 0 /\ TNEE_metric d' = Ok ends /\ NOA_metric d' = Ok acts /\
  NOAJS_metric d' = Ok (acts + gates) /\ NOAC_metric d' = Ok nodes /\
  (exists q, CoefficientOfNetworkComplexity_metric d' = Ok q /\ (q * inject_Z (Z.of_nat nodes) == inject_Z (Z.of_nat (nodes + list_sum (map extra ps) - 1)))%Q) /\
  (gates = 0 -> AverageGatewayDegree_metric d' = Err ZeroDivisionError) /\
  (0 < gates -> exists q, AverageGatewayDegree_metric d' = Ok q /\ (q * inject_Z (Z.of_nat gates) == inject_Z (Z.of_nat (list_sum (map gate_ends ps))))%Q) /\
  (2 * nodes < fuel' ->
     (exists p, compute_longest_path fuel' d' = Ok p /\ length p = longest_way ps) /\
     (exists q, compute_longest_path_tasks fuel' d' = Ok q /\ length q = most_steps ps)).
Proof.
  intros d s ps e fuel text table d' fuel' St Fl Tx Fu Ex Rd Ld nodes ends acts gates.
  destruct (loaded_made d s ps e fuel text table d' St Fl Tx Fu Ex Rd Ld) as (M & K & Sd & U & Ty & Lf & Fe).
  destruct (alike_numbers _ _ (relabel_alike ps 1 (proj1 Fl))) as (Ab & Ax & Ag & Al & Am & Aa & Ae & An). specialize (An "0" (num (S (length ps))) s e).
  destruct (counts_of _ _ _ _ U Ty M K) as (C1 & C2 & C3 & _ & C5 & C6 & C7 & _). rewrite Ab, Aa, Ae, An in *.
  split; [exact C1|]. split; [exact C2|]. split; [exact C3|]. split; [exact C5|]. split; [exact C6|]. split; [exact C7|].
  pose proof (complexity_of _ _ _ _ U M Lf) as Cx. rewrite An, Ax in Cx. split; [exact Cx|].
  destruct (degree_of_gates _ _ _ _ U Ty M Fe K) as [D0 D1]. rewrite Ab, Ag in *. split; [intro Z; apply D0; unfold gates in Z; lia|]. split; [intro Z; apply D1; unfold gates in Z; lia|].
  intro F2. pose proof (nodes_length _ _ _ _ U M) as Nl. rewrite An in Nl. split.
  - destruct (made_longest _ _ _ _ Sd M fuel') as (p & E & Lp); [rewrite Nl; exact F2|]. exists p. rewrite <- Al. auto.
  - destruct (made_most _ _ _ _ Sd M K fuel') as (p & E & Lp); [rewrite Nl; exact F2|]. exists p. rewrite <- Am. auto.
Qed.

(** So a process made with the API has the same numbers before and after. *)
Theorem C105_numbers_kept : forall l d s ps e fuel text table d' fuel', history l d -> distinct_pairs d -> made_of d s ps e ->
  structured d s ps e -> flat ps -> texts_readable d s ps e -> size ps + 1 < fuel ->
  export_process_to_csv fuel d None = (Some text, Ok tt) -> reads text table -> load_diagram_from_csv table empty_diagram = (d', Ok tt) ->
  TNSE_metric d' = TNSE_metric d /\ TNIE_metric d' = TNIE_metric d /\ TNEE_metric d' = TNEE_metric d /\ NOA_metric d' = NOA_metric d /\
  NOAJS_metric d' = NOAJS_metric d /\ NOAC_metric d' = NOAC_metric d /\
  same_ratio (CoefficientOfNetworkComplexity_metric d') (CoefficientOfNetworkComplexity_metric d) /\
  same_ratio (AverageGatewayDegree_metric d') (AverageGatewayDegree_metric d) /\
  (2 * length (gnodes (dgraph d)) < fuel' ->
     exists p p' q q', compute_longest_path fuel' d = Ok p /\ compute_longest_path fuel' d' = Ok p' /\ length p' = length p /\
       compute_longest_path_tasks fuel' d = Ok q /\ compute_longest_path_tasks fuel' d' = Ok q' /\ length q' = length q).
Proof.
  intros l d s ps e fuel text table d' fuel' H D M St Fl Tx Fu Ex Rd Ld.
  pose proof (structured_kinds _ _ _ _ St) as K.
  destruct (C105_loaded_numbers d s ps e fuel text table d' fuel' St Fl Tx Fu Ex Rd Ld) as (A1 & A2 & A3 & A4 & A5 & A6 & A7 & A8 & A9 & A10).
  destruct (C99_counts l d s ps e H M K) as (B1 & B2 & B3 & _ & B5 & B6 & B7 & _). rewrite A1, A2, A3, A4, A5, A6, B1, B2, B3, B5, B6, B7. do 6 (split; [reflexivity|]). split.
  { apply (ratio_unique _ _ _ _) with (2 := A7); [unfold all_nodes; cbn [length]; lia|]. apply (C99_network_complexity l d s ps e H D M). }
  destruct (C99_gateway_degree l d s ps e H D M K) as [D0 D1]. split.
  { destruct (Nat.eq_dec (list_sum (map blocks ps)) 0) as [Z|Z].
    - rewrite A8, D0 by lia. reflexivity.
    - apply (ratio_unique (2 * list_sum (map blocks ps)) (list_sum (map gate_ends ps))); [lia|apply A9; lia|apply D1; lia]. }
  rewrite (nodes_length d s ps e (gwf_nodup _ (inv_g d (inv_history l d H))) M). intro F2. destruct (A10 F2) as [(p' & P' & Lp') (q' & Q' & Lq')].
  destruct (C99_longest_path l d s ps e fuel' H D M F2) as (p & P & Lp). destruct (C99_most_activities l d s ps e fuel' H D M K F2) as (q & Q & Lq).
  exists p, p', q, q'. rewrite P, P', Q, Q', Lp, Lp', Lq, Lq'. auto 10.
Qed.

(** * Examples *)
Lemma flat_demo_made : history flat_ops flat_demo /\ distinct_pairs flat_demo /\ made_of flat_demo "s" flat_parts "e".
Proof.
  destruct flat_demo_ok as (H & _ & Fl & _). split; [exact H|]. apply (made_ok _ _ "s" flat_parts "e" H); [vm_compute; reflexivity|].
  intros p Hp. apply flat_sound. exact (proj1 Fl p Hp).
Qed.
Example C105_example : longest_way flat_parts = 10 /\ most_steps flat_parts = 4 /\
  map NOAC_metric [flat_demo; flat_loaded] = [Ok 14; Ok 14] /\
  map CoefficientOfNetworkComplexity_metric [flat_demo; flat_loaded] = [Ok (15 # 14)%Q; Ok (15 # 14)%Q] /\
  map AverageGatewayDegree_metric [flat_demo; flat_loaded] = [Ok (13 # 4)%Q; Ok (13 # 4)%Q] /\
  map (fun d => let* p := compute_longest_path 40 d in Ok (map fst p)) [flat_demo; flat_loaded] =
    [Ok ["s"; "g"; "b"; "c"; "j"; "m"; "g2"; "l"; "j2"; "e"]; Ok ["0"; "0_split"; "1a1"; "1a2"; "2_join"; "2"; "2_split"; "3a1"; "4_join"; "4"]].
Proof. vm_compute. repeat split. Qed.
Example C105_applies : exists p p' q q', compute_longest_path 40 flat_demo = Ok p /\ compute_longest_path 40 flat_loaded = Ok p' /\ length p' = length p /\
       compute_longest_path_tasks 40 flat_demo = Ok q /\ compute_longest_path_tasks 40 flat_loaded = Ok q' /\ length q' = length q.
Proof.
  destruct flat_demo_made as (H & D & M). destruct flat_demo_ok as (_ & St & Fl & Tx & Fu & Ex & Rd & _).
  assert (Ld : load_diagram_from_csv flat_table empty_diagram = (flat_loaded, Ok tt)) by (vm_compute; reflexivity).
  destruct (C105_numbers_kept flat_ops flat_demo "s" flat_parts "e" 40 _ flat_table flat_loaded 40 H D M St Fl Tx Fu Ex Rd Ld) as (_ & _ & _ & _ & _ & _ & _ & _ & X).
  apply X. apply Nat.ltb_lt. vm_compute. reflexivity.
Qed.

(** The number of kinds of gateways is not kept: a decision without conditions becomes
    parallel. *)
Definition mute_ops : list op :=
  [ONew "m" "0"; OStart "id2" "begin" None false true (Some "s") "90" "91";
   OExclusive "id2" "g" "Diverging" None (Some "g") ""; OTask "id2" "pack" (Some "b") ""; OTask "id2" "call" (Some "h") "";
   OExclusive "id2" "j" "Converging" None (Some "j") ""; OTask "id2" "close" (Some "m") "";
   OParallel "id2" "g2" "Diverging" (Some "g2") ""; OTask "id2" "left" (Some "l") "";
   OTask "id2" "right" (Some "r") ""; OParallel "id2" "j2" "Converging" (Some "j2") "";
   OEnd "id2" "done" None (Some "e") "92" "93";
   OFlow "id2" "s" "g" "" "10"; OFlow "id2" "g" "b" "" "12"; OFlow "id2" "g" "h" "" "13"; OFlow "id2" "b" "j" "" "16"; OFlow "id2" "h" "j" "" "17";
   OFlow "id2" "j" "m" "" "26"; OFlow "id2" "m" "g2" "" "27"; OFlow "id2" "g2" "l" "" "19"; OFlow "id2" "g2" "r" "" "20";
   OFlow "id2" "l" "j2" "" "21"; OFlow "id2" "r" "j2" "" "22"; OFlow "id2" "j2" "e" "" "23"].
Definition mute : diagram := run empty_diagram mute_ops.
Definition mute_parts : list part :=
  [Block "g" "j" [([Act "b"], None); ([Act "h"], None)]; Act "m"; Block "g2" "j2" [([Act "l"], None); ([Act "r"], None)]].
Theorem C105_gateway_kinds_refuted : exists ops d ps text table d', history ops d /\ distinct_pairs d /\ made_of d "s" ps "e" /\ structured d "s" ps "e" /\ flat ps /\
  texts_readable d "s" ps "e" /\ size ps + 1 < 40 /\ export_process_to_csv 40 d None = (Some text, Ok tt) /\ reads text table /\
  load_diagram_from_csv table empty_diagram = (d', Ok tt) /\ GatewayHeterogenity_metric d = Ok 2 /\ GatewayHeterogenity_metric d' = Ok 1.
Proof.
  exists mute_ops, mute, mute_parts, (csv_text (csv_columns :: process_lines mute "s" mute_parts "e")), (table_of (process_lines mute "s" mute_parts "e")),
    (fst (load_diagram_from_csv (table_of (process_lines mute "s" mute_parts "e")) empty_diagram)).
  assert (H : history mute_ops mute /\ coherent mute) by (apply built; vm_compute; reflexivity). destruct H as [H C].
  assert (Fl : flat mute_parts) by (apply flat_ok; vm_compute; reflexivity).
  destruct (made_ok _ _ "s" mute_parts "e" H) as [D M]; [vm_compute; reflexivity|intros p Hp; apply flat_sound; exact (proj1 Fl p Hp)|].
  split; [exact H|]. split; [exact D|]. split; [exact M|]. split; [apply structured_ok; [exact C|vm_compute; reflexivity]|]. split; [exact Fl|].
  split; [apply texts_ok; vm_compute; reflexivity|]. split; [apply Nat.ltb_lt; vm_compute; reflexivity|]. split; [vm_compute; reflexivity|].
  split; [apply table_reads; vm_compute; reflexivity|]. split; [vm_compute; reflexivity|]. split; vm_compute; reflexivity.
Qed.
Print Assumptions C105_loaded_numbers.
Print Assumptions C105_numbers_kept.
Print Assumptions C105_gateway_kinds_refuted.
