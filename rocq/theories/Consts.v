(** Constants of bpmn_python/bpmn_python_consts.py (lines 11-101).  Only the
    constants used by the modelled code are listed; Rocq names carry a [k_] (keys)
    or [t_] (element types) prefix. *)
From Coq Require Import String.
Open Scope string_scope.

(* bpmn_python_consts.py:12-36, attribute names *)
Definition k_id := "id".
Definition k_name := "name".
Definition k_node_name := "node_name".
Definition k_gateway_direction := "gatewayDirection".
Definition k_default := "default".
Definition k_instantiate := "instantiate".
Definition k_event_gateway_type := "eventGatewayType".
Definition k_source_ref := "sourceRef".
Definition k_target_ref := "targetRef".
Definition k_triggered_by_event := "triggeredByEvent".
Definition k_parallel_multiple := "parallelMultiple".
Definition k_cancel_activity := "cancelActivity".
Definition k_attached_to_ref := "attachedToRef".
Definition k_is_interrupting := "isInterrupting".
Definition k_is_closed := "isClosed".
Definition k_is_executable := "isExecutable".
Definition k_is_expanded := "isExpanded".
Definition k_is_horizontal := "isHorizontal".
Definition k_is_collection := "isCollection".
Definition k_process_type := "processType".
Definition t_sequence_flow := "sequenceFlow".
Definition k_condition_expression := "conditionExpression".
Definition t_message_flow := "messageFlow".
Definition k_message_flows := "messageFlows".

(* bpmn_python_consts.py:47-51 *)
Definition k_bpmn_element := "bpmnElement".
Definition k_height := "height".
Definition k_width := "width".
Definition k_x := "x".
Definition k_y := "y".

(* bpmn_python_consts.py:54-81 *)
Definition t_definitions := "definitions".
Definition t_collaboration := "collaboration".
Definition t_participant := "participant".
Definition k_participants := "participants".
Definition k_process := "process".
Definition k_process_ref := "processRef".
Definition t_lane := "lane".
Definition k_lanes := "lanes".
Definition k_lane_set := "laneSet".
Definition k_child_lane_set := "childLaneSet".
Definition t_flow_node_ref := "flowNodeRef".
Definition k_flow_node_refs := "flowNodeRefs".
Definition t_task := "task".
Definition t_user_task := "userTask".
Definition t_service_task := "serviceTask".
Definition t_manual_task := "manualTask".
Definition t_subprocess := "subProcess".
Definition t_data_object := "dataObject".
Definition t_complex_gateway := "complexGateway".
Definition t_event_based_gateway := "eventBasedGateway".
Definition t_inclusive_gateway := "inclusiveGateway".
Definition t_exclusive_gateway := "exclusiveGateway".
Definition t_parallel_gateway := "parallelGateway".
Definition t_start_event := "startEvent".
Definition t_intermediate_catch_event := "intermediateCatchEvent".
Definition t_end_event := "endEvent".
Definition t_intermediate_throw_event := "intermediateThrowEvent".
Definition t_boundary_event := "boundaryEvent".

(* bpmn_python_consts.py:84-99 *)
Definition t_bpmn_shape := "BPMNShape".
Definition t_bpmn_edge := "BPMNEdge".
Definition k_incoming := "incoming".
Definition k_outgoing := "outgoing".
Definition t_waypoint := "waypoint".
Definition k_waypoints := "waypoints".
Definition k_type := "type".
Definition k_event_definitions := "event_definitions".
Definition k_node_ids := "node_ids".
Definition k_definition_type := "definition_type".
