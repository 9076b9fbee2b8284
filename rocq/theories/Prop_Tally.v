(** The metrics of a diagram loaded from a spreadsheet follow from its rows (C104).
    Each theorem is followed by a concrete case of its hypotheses. *)
From Coq Require Import String Ascii List Bool Arith ZArith QArith Lia Permutation.
From Verif Require Import Py PyFacts Consts Nx NxFacts Rep SpecRep RepFacts.
From Verif Require Import CsvRegex CsvImport SpecCsv RegexFacts CsvFacts SpecFlow SpecGoto CsvGhost CsvGraph CsvFill CsvLast CsvCoherent.
From Verif Require Import Metrics SpecMetrics MetricsFacts MetricsFacts2 Prop_Metrics.
From Verif Require Import GotoFacts CsvGoto CsvJump Prop_CsvRows Prop_CsvImport Prop_CsvGoto SpecTally TallyFacts.
Import ListNotations.
Open Scope string_scope.
Open Scope list_scope.
Open Scope nat_scope.

Lemma loaded_gwf : forall table d d' r, fresh d -> load_diagram_from_csv table d = (d', r) -> gwf (dgraph d').
Proof. intros table d d' r [F _] H. eapply gwf_loaded; [|exact H]. rewrite F. apply gwf_empty. Qed.
Lemma loaded_connectable : forall table d d', fresh d -> documented table -> neat_jumps (rows_of table) ->
  load_diagram_from_csv table d = (d', Ok tt) -> forall o, In o (orders (rows_of table)) -> connectable (rows_of table) o.
Proof. intros table d d' F D NJ H. apply (proj1 (C86_loads table d F D NJ)). exists d'. exact H. Qed.

(** The number of nodes of each kind: the rows that are not goto rows, and the gateways
    that are not left out. *)
Theorem C104_counts : forall table d d', fresh d -> documented table ->
  let rows := rows_of table in neat_jumps rows -> load_diagram_from_csv table d = (d', Ok tt) ->
  exists st en wk gt, listing (begins rows) st /\ listing (finishes rows) en /\ listing (works rows) wk /\
    listing (gateway_left rows) gt /\ length st <= 1 /\
    TNSE_metric d' = Ok (length st) /\ TNIE_metric d' = Ok 0 /\ TNEE_metric d' = Ok (length en) /\
    TNE_metric d' = Ok (length st + length en) /\ all_events_count d' = Ok (length st + length en) /\
    NOA_metric d' = Ok (length wk) /\ all_activities_count d' = Ok (length wk) /\
    all_gateways_count d' = Ok (length gt) /\
    all_control_flow_elements_count d' = Ok (length gt + (length st + length en)) /\
    NOAJS_metric d' = Ok (length wk + length gt) /\
    NOAC_metric d' = Ok (length wk + length gt + (length st + length en)) /\
    NumberOfNodes_metric d' = Ok (length wk + length gt + (length st + length en)).
Proof.
  intros table d d' F D rows NJ H. destruct (table_rerouted table d d' F D NJ H) as [L I]. fold rows in I.
  pose proof (loaded_gwf _ _ _ _ F H) as W. assert (G : good_rows rows) by exact D.
  destruct (begins_listing rows G) as [st Hs]. destruct (finishes_listing rows G) as [en He]. destruct (works_listing rows G) as [wk Hw].
  pose proof (gateways_listing rows d d' L G I W) as Hg. remember (filter _ _) as gt eqn:Egt. clear Egt.
  exists st, en, wk, gt. split; [exact Hs|]. split; [exact He|]. split; [exact Hw|]. split; [exact Hg|].
  split.
  { apply (NoDup_incl_length (l' := ["0"])); [apply Hs|]. intros o Ho. apply Hs in Ho. destruct Ho as (r & _ & _ & ->). left; reflexivity. }
  destruct (C13_count_metrics d') as (a & b & c & e & f & g & A1 & A2 & A3 & A4 & A5 & A6 & M).
  { apply W. } { exact (nodes_typed rows d d' L G I). }
  pose proof (number_unique _ _ _ _ A1 (start_number _ _ _ _ G I _ Hs)) as ->.
  pose proof (number_unique _ _ _ _ A2 (inter_number _ _ _ _ G I)) as ->.
  pose proof (number_unique _ _ _ _ A3 (end_number _ _ _ _ G I _ He)) as ->.
  pose proof (number_unique _ _ _ _ A5 (work_number _ _ _ _ G I _ Hw)) as ->.
  pose proof (number_unique _ _ _ _ A6 (gate_number _ _ _ _ G I _ Hg)) as ->.
  destruct M as (M1 & M2 & M3 & M4 & M5 & M6 & M7 & M8 & M9 & M10 & M11 & M12 & M13).
  assert (E : e = length st + length en) by lia. rewrite E in *. auto 20.
Qed.

(** The number of flows: one for each row that leads on, one for each join, one for each
    branch of a split. *)
Theorem C104_flow_records : forall table d d', fresh d -> documented table ->
  let rows := rows_of table in neat_jumps rows -> load_diagram_from_csv table d = (d', Ok tt) ->
  exists on jn br, listing (leads_on rows) on /\ listing (join_left rows) jn /\ listing (branch_left rows) br /\
    length (seq_flows d') = length on + length jn + length br.
Proof.
  intros table d d' F D rows NJ H. destruct (table_rerouted table d d' F D NJ H) as [L I]. fold rows in I.
  pose proof (loaded_gwf _ _ _ _ F H) as W. assert (G : good_rows rows) by exact D.
  pose proof (gateways_listing rows d d' L G I W) as Hg.
  destruct (leads_listing rows G) as [on Ho]. destruct (joins_listing rows d d' L G I W) as [jn Hj]. destruct (branches_listing rows d d' L G I) as [br Hb].
  exists on, jn, br. split; [exact Ho|]. split; [exact Hj|]. split; [exact Hb|].
  rewrite (records_number rows d d' L I). eapply flows_number; eauto. eapply loaded_connectable; eauto.
Qed.

(** The coefficient of network complexity and the average degree of the gateways. *)
Theorem C104_complexity : forall table d d', fresh d -> documented table ->
  let rows := rows_of table in neat_jumps rows -> one_way rows -> load_diagram_from_csv table d = (d', Ok tt) ->
  exists st en wk gt on jn br, listing (begins rows) st /\ listing (finishes rows) en /\ listing (works rows) wk /\
    listing (gateway_left rows) gt /\ listing (leads_on rows) on /\ listing (join_left rows) jn /\ listing (branch_left rows) br /\
    let nodes := length wk + length gt + (length st + length en) in
    let flows := length on + length jn + length br in
    (nodes = 0 -> CoefficientOfNetworkComplexity_metric d' = Err ZeroDivisionError) /\
    (nodes <> 0 -> exists q, CoefficientOfNetworkComplexity_metric d' = Ok q /\
       (q * inject_Z (Z.of_nat nodes) == inject_Z (Z.of_nat flows))%Q).
Proof.
  intros table d d' F D rows NJ OW H.
  destruct (C104_counts table d d' F D NJ H) as (st & en & wk & gt & Hs & He & Hw & Hg & _ & _ & _ & _ & _ & _ & _ & _ & _ & _ & _ & _ & Nn).
  destruct (table_rerouted table d d' F D NJ H) as [L I]. fold rows in I, Hs, He, Hw, Hg.
  pose proof (loaded_gwf _ _ _ _ F H) as W. assert (G : good_rows rows) by exact D.
  destruct (leads_listing rows G) as [on Ho]. destruct (joins_listing rows d d' L G I W) as [jn Hj]. destruct (branches_listing rows d d' L G I) as [br Hb].
  exists st, en, wk, gt, on, jn, br. do 7 (split; [assumption|]). intros nodes flows.
  assert (K : length (gedges (dgraph d')) = flows).
  { rewrite <- (map_length ends), (Permutation_length (edges_listed rows d d' L G I W OW)). eapply flows_number; eauto. eapply loaded_connectable; eauto. }
  assert (N : length (gnodes (dgraph d')) = nodes).
  { assert (X : Permutation (map fst (gnodes (dgraph d'))) (wk ++ gt ++ st ++ en)).
    { apply NoDup_Permutation; [apply W| |].
      - apply NoDup_app_intro; [apply Hw|apply NoDup_app_intro; [apply Hg|apply NoDup_app_intro; [apply Hs|apply He|]|]|].
        + intros x A B. apply Hs in A. apply He in B. destruct A as (r & _ & _ & A), B as (r' & _ & _ & B & _). auto.
        + intros x A B. apply Hg in A. apply (gateway_not_row rows x G (proj1 A)). apply in_app_or in B.
          destruct B as [B|B]; [apply Hs in B|apply He in B]; destruct B as (r & B & _); apply in_map_iff; exists (x, r); auto.
        + intros x A B. apply Hw in A. destruct A as (r & A & A1 & A2 & A3). apply in_app_or in B. destruct B as [B|B].
          * apply Hg in B. apply (gateway_not_row rows x G (proj1 B)). apply in_map_iff; exists (x, r); auto.
          * apply in_app_or in B. destruct B as [B|B]; [apply Hs in B; destruct B as (r' & _ & _ & B); auto|].
            apply He in B. destruct B as (r' & B & _ & _ & B'). apply A3. rewrite (same_row rows G x r r' A B). exact B'.
      - intros n. rewrite !in_app_iff, (proj2 Hw), (proj2 Hg), (proj2 Hs), (proj2 He). change (In n (map fst (gnodes (dgraph d')))) with (is_node d' n).
        rewrite (re_nodes _ _ _ _ I). split.
        + intros [[A|A] [Ng P]]; [|right; left; split; auto]. unfold orders in A. apply in_map_iff in A. destruct A as [[o r] [<- A]]. cbn [fst] in *.
          assert (Q : ~ goto_row r) by (intros C; apply Ng; exists r; auto).
          destruct (string_dec o "0") as [E|E]; [right; right; left; exists r; auto|].
          destruct (string_dec (r_terminated r) "yes") as [T|T]; [right; right; right; exists r; auto|left; exists r; auto].
        + assert (X : forall r, In (n, r) rows -> ~ goto_row r -> goto_node rows n).
          { intros r A B. assert (O : In n (orders rows)) by (apply in_map_iff; exists (n, r); auto). split; auto. split; [|apply row_left; auto].
            intros (r' & A' & C). apply B. rewrite (same_row rows G n r r' A A'). exact C. }
          intros [(r & A & B & _)|[A|[(r & A & B & _)|(r & A & B & _)]]]; try (eapply X; eauto; fail).
          destruct A as [A P]. split; auto. split; auto. apply gateway_not_goto; auto. }
    rewrite <- (map_length fst), (Permutation_length X), !app_length. unfold nodes. lia. }
  destruct (C18_network_complexity d' W) as [Z1 Z2]. rewrite N, K in Z2. split.
  - intros E. apply Z1. apply length_zero_iff_nil. lia.
  - intros E. apply Z2. intros C. rewrite C in N. cbn [length] in N. auto.
Qed.

Theorem C104_gateway_degree : forall table d d', fresh d -> documented table ->
  let rows := rows_of table in neat_jumps rows -> one_way rows -> load_diagram_from_csv table d = (d', Ok tt) ->
  exists gt jn br ent, listing (gateway_left rows) gt /\ listing (join_left rows) jn /\ listing (branch_left rows) br /\
    listing (enters rows) ent /\
    (gt = [] -> AverageGatewayDegree_metric d' = Err ZeroDivisionError) /\
    (gt <> [] -> exists q, AverageGatewayDegree_metric d' = Ok q /\
       (q * inject_Z (Z.of_nat (length gt)) == inject_Z (Z.of_nat (length jn + length br + length ent)))%Q).
Proof.
  intros table d d' F D rows NJ OW H. destruct (table_rerouted table d d' F D NJ H) as [L I]. fold rows in I.
  pose proof (loaded_gwf _ _ _ _ F H) as W. assert (G : good_rows rows) by exact D.
  destruct (joins_listing rows d d' L G I W) as [jn Hj]. destruct (branches_listing rows d d' L G I) as [br Hb]. destruct (enters_listing rows d d' L G NJ I) as [ent Hent].
  destruct (C19_average_gateway_degree d') as (gs & Ng & Hgs & Z1 & Z2). { apply W. } { exact (nodes_typed rows d d' L G I). }
  assert (Hg : listing (gateway_left rows) gs).
  { split; auto. intros n. rewrite Hgs. apply (gate_kind rows d d' L G I). }
  exists gs, jn, br, ent. do 4 (split; [assumption|]). split; [exact Z1|]. intros E. destruct (Z2 E) as [q [Q1 Q2]]. exists q. split; auto.
  rewrite Q2. rewrite (gate_ends rows d d' L G I W gs OW Ng).
  rewrite (gates_number rows d d' L G NJ I gs Hg jn br Hj Hb), (entries_number rows d d' L G NJ I gs Hg ent Hent). reflexivity.
Qed.

Example C104_example : fresh empty_diagram /\ documented review /\ neat_jumps (rows_of review) /\ one_way (rows_of review) /\
  load_diagram_from_csv review empty_diagram = (review_diagram, Ok tt) /\
  TNSE_metric review_diagram = Ok 1 /\ TNEE_metric review_diagram = Ok 1 /\ NOA_metric review_diagram = Ok 3 /\
  all_gateways_count review_diagram = Ok 1 /\ NumberOfNodes_metric review_diagram = Ok 6 /\ length (seq_flows review_diagram) = 6 /\
  CoefficientOfNetworkComplexity_metric review_diagram = Ok (6 # 6)%Q /\
  AverageGatewayDegree_metric review_diagram = Ok (3 # 1)%Q.
Proof.
  split; [split; reflexivity|]. split; [exact review_documented|]. split; [apply review_neat|]. split; [apply review_neat|].
  vm_compute. repeat split.
Qed.

(** Two branches that meet, one of them of two steps. *)
Definition fork : list (order_label * row) :=
  [rw "0" "begin" ""; rw "1" "choose" ""; (OStr "2a1", mkRow "bake" "hot" "" "" ""); (OStr "2a2", mkRow "cool" "" "" "" "");
   (OStr "2b1", mkRow "freeze" "cold" "" "" ""); rw "3" "serve" ""; rw "4" "end" "yes"].
Definition fork_diagram : diagram := fst (load_diagram_from_csv fork empty_diagram).
Example C104_joins_example : documented fork /\ neat_jumps (rows_of fork) /\ one_way (rows_of fork) /\
  load_diagram_from_csv fork empty_diagram = (fork_diagram, Ok tt) /\
  NOA_metric fork_diagram = Ok 5 /\ all_gateways_count fork_diagram = Ok 2 /\ NumberOfNodes_metric fork_diagram = Ok 9 /\
  length (seq_flows fork_diagram) = 6 + 1 + 2 /\
  CoefficientOfNetworkComplexity_metric fork_diagram = Ok (9 # 9)%Q /\
  AverageGatewayDegree_metric fork_diagram = Ok (6 # 2)%Q.
Proof.
  assert (D : documented fork) by (apply check_documented; vm_compute; reflexivity).
  split; [exact D|]. split; [apply neat_b_ok; [exact D|vm_compute; reflexivity]|]. split; [apply one_way_b_ok; [exact D|vm_compute; reflexivity]|].
  vm_compute. repeat split.
Qed.

(** The flows there and back between two nodes count once: the coefficient of the table
    [retry] is below the number of its flows over the number of its nodes. *)
Theorem C104_complexity_refuted : exists table d' q n, documented table /\ neat_jumps (rows_of table) /\
  load_diagram_from_csv table empty_diagram = (d', Ok tt) /\
  NumberOfNodes_metric d' = Ok n /\ CoefficientOfNetworkComplexity_metric d' = Ok q /\
  (q * inject_Z (Z.of_nat n) < inject_Z (Z.of_nat (length (seq_flows d'))))%Q.
Proof.
  exists retry, (fst (load_diagram_from_csv retry empty_diagram)), (4 # 5)%Q, 5.
  assert (D : documented retry) by (apply check_documented; vm_compute; reflexivity).
  split; [exact D|]. split; [apply neat_b_ok; [exact D|vm_compute; reflexivity]|].
  vm_compute. repeat split.
Qed.

Print Assumptions C104_counts.
Print Assumptions C104_flow_records.
Print Assumptions C104_complexity.
Print Assumptions C104_gateway_degree.
Print Assumptions C104_complexity_refuted.
