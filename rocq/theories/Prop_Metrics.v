(** Properties of the complexity metrics (bpmn_python/bpmn_diagram_metrics.py): C13-C19. *)
From Coq Require Import String List Bool Arith ZArith QArith.
From Verif Require Import Py PyFacts Nx NxFacts Rep SpecRep RepFacts
  Metrics SpecMetrics MetricsFacts MetricsFacts2.
Import ListNotations.
Open Scope string_scope.
Open Scope list_scope.
Open Scope nat_scope.

(** Start, three tasks, two kinds of gateways, a subprocess, two end events. *)
Definition mdemo_ops : list op :=
  [ONew "m" "0"; OProcess "p" false true "None" "1" "2";
   OStart "id2" "s" None false true (Some "s") "" "";
   OTask "id2" "a" (Some "a") ""; OTask "id2" "b" (Some "b") ""; OTask "id2" "c" (Some "c") "";
   OExclusive "id2" "x" "Diverging" None (Some "x") "";
   OParallel "id2" "y" "Unspecified" (Some "y") "";
   OSubprocess "id2" "sub" false false (Some "sub") "";
   OEnd "id2" "e" None (Some "e1") "" ""; OEnd "id2" "e" None (Some "e2") "" "";
   OFlow "id2" "s" "x" "" "10"; OFlow "id2" "x" "a" "" "11"; OFlow "id2" "x" "y" "" "12";
   OFlow "id2" "y" "y" "" "13"; OFlow "id2" "a" "e1" "" "14"].
Definition mdemo : diagram := run empty_diagram mdemo_ops.

Lemma mdemo_history : history mdemo_ops mdemo.
Proof. apply checked_history. vm_compute. reflexivity. Qed.

Lemma mdemo_unique : unique_ids mdemo.
Proof. exact (gwf_nodup _ (inv_g _ (inv_history _ _ mdemo_history))). Qed.
Lemma mdemo_typed : typed mdemo.
Proof. intros n Hn. apply (inv_n _ (inv_history _ _ mdemo_history) n Hn). Qed.

(** C13.  Every counting metric is the cardinality of a set of nodes. *)
Theorem C13_count_metrics : forall d, unique_ids d -> typed d ->
  exists start inter end_ events acts gates,
    number d (eq "startEvent") start /\
    number d (fun t => t = "intermediateCatchEvent" \/ t = "intermediateThrowEvent") inter /\
    number d (eq "endEvent") end_ /\ number d is_event events /\
    number d is_activity acts /\ number d is_gateway gates /\
    TNSE_metric d = Ok start /\ TNIE_metric d = Ok inter /\ TNEE_metric d = Ok end_ /\
    TNE_metric d = Ok events /\ all_events_count d = Ok events /\
    events = start + inter + end_ /\
    NOA_metric d = Ok acts /\ all_activities_count d = Ok acts /\
    all_gateways_count d = Ok gates /\
    all_control_flow_elements_count d = Ok (gates + events) /\
    NOAC_metric d = Ok (acts + gates + events) /\
    NumberOfNodes_metric d = Ok (acts + gates + events) /\
    NOAJS_metric d = Ok (acts + gates).
Proof. exact count_metrics. Qed.

Theorem C13_type_count : forall d t, unique_ids d -> typed d -> t <> "" ->
  exists k, get_nodes_count (Some t) d = Ok k /\ number d (eq t) k.
Proof. intros d t Hu Ht. apply type_count; auto. Qed.

(** The specification determines the value. *)
Theorem C13_number_unique : forall d P k1 k2, number d P k1 -> number d P k2 -> k1 = k2.
Proof. exact number_unique. Qed.

(** One node without a type makes every typed count raise. *)
Theorem C13_untyped_raises : forall d t n, unique_ids d -> t <> "" -> is_node d n ->
  attr d n "type" = None -> get_nodes_count (Some t) d = Err (KeyError "type").
Proof. exact count_untyped. Qed.

Example C13_example : unique_ids mdemo /\ typed mdemo /\
  TNE_metric mdemo = Ok 3 /\ NOA_metric mdemo = Ok 4 /\ NOAC_metric mdemo = Ok 9 /\ NOAJS_metric mdemo = Ok 6.
Proof.
  split; [exact mdemo_unique|]. split; [exact mdemo_typed|]. vm_compute. auto.
Qed.

(** C14.  The documented default of get_nodes_count is not what it computes: on every
    typed diagram the call without a type returns 0. *)
Theorem C14_default_count_zero : forall d, unique_ids d -> typed d -> get_nodes_count None d = Ok 0.
Proof. exact count_none. Qed.

Theorem C14_default_count_refuted : exists d, unique_ids d /\ typed d /\
  length (gnodes (dgraph d)) = 9 /\ get_nodes_count None d <> Ok (length (gnodes (dgraph d))).
Proof.
  exists mdemo. split; [exact mdemo_unique|]. split; [exact mdemo_typed|].
  vm_compute. split; [reflexivity|discriminate].
Qed.

(** C15 *)
Theorem C15_gateway_heterogeneity : forall d, unique_ids d -> typed d ->
  exists k, GatewayHeterogenity_metric d = Ok k /\ distinct_types d is_gateway k.
Proof. exact hetero_spec. Qed.

Example C15_example : GatewayHeterogenity_metric mdemo = Ok 2.
Proof. vm_compute. reflexivity. Qed.

(** C16.  [durfee_ok d m]: at least [m] types occur at least [m] times each. *)
Theorem C16_durfee : forall d, unique_ids d -> typed d ->
  exists m, DurfeeSquare_metric d = Ok m /\ durfee_ok d m /\ forall j, durfee_ok d j -> j <= m.
Proof. exact durfee_spec. Qed.

(** The other half of the definition in the docstring: of the types that occur more
    than [m] times there are at most [m]. *)
Theorem C16_durfee_others : forall d m, unique_ids d -> typed d -> DurfeeSquare_metric d = Ok m ->
  forall ts, NoDup ts -> (forall t, In t ts -> t <> "" /\ exists k, number d (eq t) k /\ m < k) ->
  length ts <= m.
Proof. exact durfee_others. Qed.

Example C16_example : DurfeeSquare_metric mdemo = Ok 2.
Proof. vm_compute. reflexivity. Qed.

(** C17 *)
Theorem C17_perfect : forall d, unique_ids d -> typed d ->
  exists p, PerfectSquare_metric d = Ok p /\ perfect_ok d p /\ forall j, perfect_ok d j -> j <= p.
Proof. exact perfect_spec. Qed.

Example C17_example : PerfectSquare_metric mdemo = Ok 2.
Proof. vm_compute. reflexivity. Qed.

(** C18 *)
Theorem C18_network_complexity : forall d, gwf (dgraph d) ->
  (gnodes (dgraph d) = [] -> CoefficientOfNetworkComplexity_metric d = Err ZeroDivisionError) /\
  (gnodes (dgraph d) <> [] -> exists q, CoefficientOfNetworkComplexity_metric d = Ok q /\
     (q * inject_Z (Z.of_nat (length (gnodes (dgraph d))))
      == inject_Z (Z.of_nat (length (gedges (dgraph d)))))%Q).
Proof. exact cnc_spec. Qed.

(** The hypothesis holds in every diagram built through the API. *)
Theorem C18_histories_wellformed : forall l d, history l d -> gwf (dgraph d).
Proof. intros l d H. exact (inv_g _ (inv_history l d H)). Qed.

Example C18_example : gwf (dgraph mdemo) /\
  CoefficientOfNetworkComplexity_metric mdemo = Ok (5 # 9)%Q.
Proof.
  split; [exact (C18_histories_wellformed _ _ mdemo_history)|vm_compute; reflexivity].
Qed.

(** C19 *)
Theorem C19_average_gateway_degree : forall d, unique_ids d -> typed d -> exists gs, NoDup gs /\
  (forall n, In n gs <-> exists t, attr d n "type" = Some (VStr t) /\ is_gateway t) /\
  (gs = [] -> AverageGatewayDegree_metric d = Err ZeroDivisionError) /\
  (gs <> [] -> exists q, AverageGatewayDegree_metric d = Ok q /\
    (q * inject_Z (Z.of_nat (length gs)) ==
     inject_Z (Z.of_nat (fold_right (fun n acc => flow_ends d n + acc)%nat 0%nat gs)))%Q).
Proof. exact avg_spec. Qed.

Theorem C19_handshake : forall d, gwf (dgraph d) ->
  fold_right (fun n acc => flow_ends d n + acc) 0 (map fst (gnodes (dgraph d)))
  = 2 * length (gedges (dgraph d)).
Proof. exact handshake. Qed.

Example C19_example : AverageGatewayDegree_metric mdemo = Ok (6 # 2)%Q.
Proof. vm_compute. reflexivity. Qed.

Print Assumptions C13_count_metrics.
Print Assumptions C13_type_count.
Print Assumptions C13_number_unique.
Print Assumptions C13_untyped_raises.
Print Assumptions C14_default_count_zero.
Print Assumptions C14_default_count_refuted.
Print Assumptions C15_gateway_heterogeneity.
Print Assumptions C16_durfee.
Print Assumptions C16_durfee_others.
Print Assumptions C17_perfect.
Print Assumptions C18_network_complexity.
Print Assumptions C18_histories_wellformed.
Print Assumptions C19_average_gateway_degree.
Print Assumptions C19_handshake.
