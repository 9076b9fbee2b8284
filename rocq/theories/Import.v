(** Model of bpmn_python/bpmn_diagram_import.py.  A document is given by its root
    element; [set_order] gives the order in which a set of strings is iterated, which
    Python leaves open (lines 574, 599, 626, 650, 669, 690). *)
From Coq Require Import String List Bool Arith.
From Verif Require Import Py Consts Nx Rep Xml.
Import ListNotations.
Open Scope string_scope.
Open Scope list_scope.

Section Import.
Variable set_order : list string -> list string.

(** * Nodes *)

(** The owner of a flow node: [process_attributes] is the dictionary of a process or the
    attribute dictionary of a subprocess node (line 417). *)
Inductive owner : Type := InProcess (pid : string) | InSubprocess (sid : string).
Definition owner_id (o : owner) : string := match o with InProcess p => p | InSubprocess s => s end.

(** [process_attributes[node_ids].append(x)] (line 358). *)
Definition append_node_id (o : owner) (x : string) : MD unit :=
  match o with
  | InSubprocess s => ggraph (append_node_attr s k_node_ids x)
  | InProcess p =>
      mtry (fun d => let* a := dgetE p (procs d) in
                     let* v := dgetE k_node_ids a in
                     match v with
                     | VList l => Ok (with_procs d (dset p (dset k_node_ids (VList (l ++ [x])) a) (procs d)))
                     | _ => Err AttributeError
                     end)
  end.

(** bpmn_diagram_import.py:361-368 and 371-378. *)
Definition reference_list (k : string) (e : dom) : res (list string) :=
  fold_elements (d_kids e)
    (fun l x => if String.eqb (d_local x) k then let* v := first_value x in Ok (l ++ [v]) else Ok l) [].

(** bpmn_diagram_import.py:331-378. *)
Definition import_flow_node_to_graph (o : owner) (e : dom) : MD unit :=
  let id := get_attribute k_id e in
  do_ ggraph (fun g => Ok (add_node id g)) ;;
  do_ node_set id k_id (VStr id) ;;
  do_ node_set id k_type (VStr (d_local e)) ;;
  do_ node_set id k_node_name (VStr (attribute_or k_name "" e)) ;;
  do_ node_set id k_process (VStr (owner_id o)) ;;
  do_ append_node_id o id ;;
  do ins <- mread (fun _ => reference_list k_incoming e) ;;
  do_ node_set id k_incoming (VList ins) ;;
  do outs <- mread (fun _ => reference_list k_outgoing e) ;;
  node_set id k_outgoing (VList outs).

(** bpmn_diagram_import.py:452-468, 381-393. *)
Definition import_activity_to_graph (o : owner) (e : dom) : MD unit :=
  do_ import_flow_node_to_graph o e ;;
  node_set (get_attribute k_id e) k_default (attribute_or_none k_default e).
(** bpmn_diagram_import.py:433-449. *)
Definition import_data_object_to_graph (o : owner) (e : dom) : MD unit :=
  do_ import_flow_node_to_graph o e ;;
  node_set (get_attribute k_id e) k_is_collection (VStr (attribute_or k_is_collection "false" e)).
(** bpmn_diagram_import.py:471-487, 550-561. *)
Definition import_gateway_to_graph (o : owner) (e : dom) : MD unit :=
  do_ import_flow_node_to_graph o e ;;
  node_set (get_attribute k_id e) k_gateway_direction (VStr (attribute_or k_gateway_direction "Unspecified" e)).
(** bpmn_diagram_import.py:490-505; 532-547 is the same code. *)
Definition import_gateway_with_default_to_graph (o : owner) (e : dom) : MD unit :=
  do_ import_gateway_to_graph o e ;;
  node_set (get_attribute k_id e) k_default (attribute_or_none k_default e).
(** bpmn_diagram_import.py:510-529. *)
Definition import_event_based_gateway_to_graph (o : owner) (e : dom) : MD unit :=
  let id := get_attribute k_id e in
  do_ import_gateway_to_graph o e ;;
  do_ node_set id k_instantiate (VStr (attribute_or k_instantiate "false" e)) ;;
  node_set id k_event_gateway_type (VStr (attribute_or k_event_gateway_type "Exclusive" e)).

(** bpmn_diagram_import.py:564-581. *)
Definition imported_definitions (types : list string) (e : dom) : list (string * string) :=
  flat_map (fun t => map (fun x => (get_attribute k_id x, t)) (elements_in t e)) (set_order types).
Definition import_event_definition_elements (e : dom) (types : list string) : MD unit :=
  node_set (get_attribute k_id e) k_event_definitions (VDefs (imported_definitions types e)).
(** bpmn_diagram_import.py:599-600, 626-628, 650-651, 669-670, 690-691. *)
Definition start_event_types : list string :=
  ["messageEventDefinition"; "timerEventDefinition"; "conditionalEventDefinition";
   "escalationEventDefinition"; "signalEventDefinition"].
Definition catch_event_types : list string :=
  ["messageEventDefinition"; "timerEventDefinition"; "signalEventDefinition"; "conditionalEventDefinition";
   "escalationEventDefinition"].
Definition end_event_types : list string :=
  ["messageEventDefinition"; "signalEventDefinition"; "escalationEventDefinition";
   "errorEventDefinition"; "compensateEventDefinition"; "terminateEventDefinition"].
Definition throw_event_types : list string :=
  ["messageEventDefinition"; "signalEventDefinition"; "escalationEventDefinition"; "compensateEventDefinition"].
Definition boundary_event_types : list string :=
  ["messageEventDefinition"; "timerEventDefinition"; "signalEventDefinition"; "conditionalEventDefinition";
   "escalationEventDefinition"; "errorEventDefinition"].

(** bpmn_diagram_import.py:584-608. *)
Definition import_start_event_to_graph (o : owner) (e : dom) : MD unit :=
  let id := get_attribute k_id e in
  do_ import_flow_node_to_graph o e ;;
  do_ node_set id k_parallel_multiple (VStr (attribute_or k_parallel_multiple "false" e)) ;;
  do_ node_set id k_is_interrupting (VStr (attribute_or k_is_interrupting "true" e)) ;;
  import_event_definition_elements e start_event_types.
(** bpmn_diagram_import.py:611-634. *)
Definition import_intermediate_catch_event_to_graph (o : owner) (e : dom) : MD unit :=
  do_ import_flow_node_to_graph o e ;;
  do_ node_set (get_attribute k_id e) k_parallel_multiple (VStr (attribute_or k_parallel_multiple "false" e)) ;;
  import_event_definition_elements e catch_event_types.
(** bpmn_diagram_import.py:637-653. *)
Definition import_end_event_to_graph (o : owner) (e : dom) : MD unit :=
  do_ import_flow_node_to_graph o e ;;
  import_event_definition_elements e end_event_types.
(** bpmn_diagram_import.py:656-673. *)
Definition import_intermediate_throw_event_to_graph (o : owner) (e : dom) : MD unit :=
  do_ import_flow_node_to_graph o e ;;
  import_event_definition_elements e throw_event_types.
(** bpmn_diagram_import.py:676-704. *)
Definition import_boundary_event_to_graph (o : owner) (e : dom) : MD unit :=
  let id := get_attribute k_id e in
  do_ import_flow_node_to_graph o e ;;
  do_ node_set id k_parallel_multiple (VStr (attribute_or k_parallel_multiple "false" e)) ;;
  do_ node_set id k_cancel_activity (VStr (attribute_or k_cancel_activity "true" e)) ;;
  do_ node_set id k_attached_to_ref (VStr (get_attribute k_attached_to_ref e)) ;;
  import_event_definition_elements e boundary_event_types.

(** * Flows *)

(** bpmn_diagram_import.py:752-762 and 800-810, for one end of the flow. *)
Definition register_flow (n k f : string) : MD unit :=
  do a <- gread (fun g => match gnode g n with Some a => Ok a | None => Err (KeyError n) end) ;;
  do_ (if dhas k a then mret tt else node_set n k (VList [])) ;;
  do v <- gread (get_node_attr n k) ;;
  match v with
  | VList l => if smem f l then mret tt else ggraph (append_node_attr n k f)
  | VNone => mraise TypeError
  | _ => mraise Unmodelled
  end.

(** bpmn_diagram_import.py:707-762. *)
Definition import_sequence_flow_to_graph (o : owner) (e : dom) : MD unit :=
  let f := get_attribute k_id e in
  let name := attribute_or k_name "" e in
  let s := get_attribute k_source_ref e in
  let t := get_attribute k_target_ref e in
  do_ mmodify (fun d => with_flows d (dset f (mkFlow name s t) (seq_flows d))) ;;
  do_ ggraph (fun g => Ok (add_edge s t g)) ;;
  do_ edge_set s t k_id (VStr f) ;;
  do_ edge_set s t k_process (VStr (owner_id o)) ;;
  do_ edge_set s t k_name (VStr name) ;;
  do_ edge_set s t k_source_ref (VStr s) ;;
  do_ edge_set s t k_target_ref (VStr t) ;;
  do_ each_element (d_kids e) (fun x =>
        if String.eqb (d_local x) k_condition_expression then
          do text <- mread (fun _ => first_value x) ;;
          edge_set s t k_condition_expression (VCond (get_attribute k_id x) text)
        else mret tt) ;;
  do_ register_flow s k_outgoing f ;;
  register_flow t k_incoming f.

(** bpmn_diagram_import.py:765-810; the dictionary of message flows belongs to the
    collaboration. *)
Definition set_message (f : string) (r : flow_rec) (d : diagram) : diagram :=
  match collaboration d with
  | None => d
  | Some c => with_collab d (Some (mkCollab (co_id c) (co_participants c) (dset f r (co_messages c))))
  end.
Definition import_message_flow_to_graph (e : dom) : MD unit :=
  let f := get_attribute k_id e in
  let name := attribute_or k_name "" e in
  let s := get_attribute k_source_ref e in
  let t := get_attribute k_target_ref e in
  do_ mmodify (set_message f (mkFlow name s t)) ;;
  do_ ggraph (fun g => Ok (add_edge s t g)) ;;
  do_ edge_set s t k_id (VStr f) ;;
  do_ edge_set s t k_name (VStr name) ;;
  do_ edge_set s t k_source_ref (VStr s) ;;
  do_ edge_set s t k_target_ref (VStr t) ;;
  do_ register_flow s k_outgoing f ;;
  register_flow t k_incoming f.

(** * Dispatch *)

(** bpmn_diagram_import.py:178-213 for everything but the contents of a subprocess
    (lines 409-418 only). *)
Definition import_node (o : owner) (e : dom) : MD unit :=
  let t := d_local e in
  if smem t [t_task; t_user_task; t_service_task; t_manual_task] then import_activity_to_graph o e
  else if String.eqb t t_subprocess then
    let id := get_attribute k_id e in
    do_ import_activity_to_graph o e ;;
    do_ node_set id k_triggered_by_event (VStr (attribute_or k_triggered_by_event "false" e)) ;;
    node_set id k_node_ids (VList [])
  else if String.eqb t t_data_object then import_data_object_to_graph o e
  else if String.eqb t t_inclusive_gateway || String.eqb t t_exclusive_gateway
  then import_gateway_with_default_to_graph o e
  else if String.eqb t t_parallel_gateway then import_gateway_to_graph o e
  else if String.eqb t t_event_based_gateway then import_event_based_gateway_to_graph o e
  else if String.eqb t t_complex_gateway then import_gateway_with_default_to_graph o e
  else if String.eqb t t_start_event then import_start_event_to_graph o e
  else if String.eqb t t_end_event then import_end_event_to_graph o e
  else if String.eqb t t_intermediate_catch_event then import_intermediate_catch_event_to_graph o e
  else if String.eqb t t_intermediate_throw_event then import_intermediate_throw_event_to_graph o e
  else if String.eqb t t_boundary_event then import_boundary_event_to_graph o e
  else mret tt.

(** bpmn_diagram_import.py:170-175 and 425-430. *)
Definition import_flows (o : owner) (e : dom) : MD unit :=
  each_element (d_kids e) (fun x =>
    if String.eqb (d_local x) t_sequence_flow then import_sequence_flow_to_graph o x else mret tt).

(** bpmn_diagram_import.py:178-213 with 396-430: the contents of a subprocess follow. *)
Fixpoint import_element (o : owner) (e : dom) {struct e} : MD unit :=
  match e with
  | DText _ => mret tt
  | DOther _ => mraise AttributeError
  | DElem tag a kids =>
      do_ import_node o e ;;
      if String.eqb (local_name tag) t_subprocess then
        let sub := InSubprocess (get_attribute k_id e) in
        do_ (fix all (l : list dom) : MD unit :=
               match l with [] => mret tt | x :: r => do_ import_element sub x ;; all r end) kids ;;
        import_flows sub e
      else mret tt
  end.

(** * Lanes *)

(** bpmn_diagram_import.py:286-296: the last child of the plane that refers to the lane. *)
Definition lane_shape (plane : dom) (id : string) : res (option dom) :=
  fold_elements (d_kids plane) (fun s x => Ok (if String.eqb (get_attribute k_bpmn_element x) id then Some x else s)) None.
Definition first_bounds (e : dom) : res dom :=
  match elements_in "Bounds" e with b :: _ => Ok b | [] => Err IndexError end.
Definition lane_di (plane : dom) (id : string) : res (option (string * (string * string * string * string))) :=
  let* s := lane_shape plane id in
  match s with
  | None => Ok None
  | Some e => let* b := first_bounds e in
              Ok (Some (get_attribute k_is_horizontal e,
                        (get_attribute k_width b, get_attribute k_height b, get_attribute k_x b, get_attribute k_y b)))
  end.

(** bpmn_diagram_import.py:262-297 with 240-259 (child lane sets): [import_lane] on a
    lane element.  A lane set without lanes is a non-empty dictionary. *)
Fixpoint import_lane (plane : dom) (e : dom) {struct e} : res lane :=
  match e with
  | DElem _ _ kids =>
      let* p :=
        (fix all (l : list dom) (acc : option (string * list (string * lane)) * list string)
           : res (option (string * list (string * lane)) * list string) :=
           match l with
           | [] => Ok acc
           | DText _ :: r => all r acc
           | DOther _ :: _ => Err AttributeError
           | (DElem _ _ sub as x) :: r =>
               if String.eqb (d_local x) k_child_lane_set then
                 let* lanes :=
                   (fix inner (l : list dom) (out : list (string * lane)) : res (list (string * lane)) :=
                      match l with
                      | [] => Ok out
                      | DText _ :: r => inner r out
                      | DOther _ :: _ => Err AttributeError
                      | (DElem _ _ _ as y) :: r =>
                          if String.eqb (d_local y) t_lane
                          then let* v := import_lane plane y in inner r (dset (get_attribute k_id y) v out)
                          else inner r out
                      end) sub [] in
                 all r (Some (get_attribute k_id x, lanes), snd acc)
               else if String.eqb (d_local x) t_flow_node_ref then
                 let* v := first_value x in all r (fst acc, snd acc ++ [v])
               else all r acc
           end) kids (None, []) in
      let* di := lane_di plane (get_attribute k_id e) in
      Ok (Lane (get_attribute k_name e) (fst p) (snd p) di)
  | _ => Err Unmodelled
  end.
(** bpmn_diagram_import.py:216-237, the lanes. *)
Definition import_lanes (plane : dom) (e : dom) : res (list (string * lane)) :=
  fold_elements (d_kids e) (fun out x =>
    if String.eqb (d_local x) t_lane then let* v := import_lane plane x in Ok (dset (get_attribute k_id x) v out)
    else Ok out) [].

(** * Processes *)

(** bpmn_diagram_import.py:300-328. *)
Definition process_attributes (e : dom) : attrs :=
  [(k_id, VStr (get_attribute k_id e)); (k_name, VStr (attribute_or k_name "" e));
   (k_is_closed, VStr (attribute_or k_is_closed "false" e));
   (k_is_executable, VStr (attribute_or k_is_executable "false" e));
   (k_process_type, VStr (attribute_or k_process_type "None" e)); (k_node_ids, VList [])].
Definition import_process_element (e : dom) : MD unit :=
  mmodify (fun d => with_procs d (dset (get_attribute k_id e) (process_attributes e) (procs d))).
(** bpmn_diagram_import.py:158-162, 236-237. *)
Definition import_lane_sets (plane e : dom) : MD unit :=
  match elements_in k_lane_set e with
  | [] => mret tt
  | ls :: _ =>
      do lanes <- mread (fun _ => import_lanes plane ls) ;;
      let pid := get_attribute k_id e in
      mtry (fun d => let* a := dgetE pid (procs d) in
                     Ok (with_procs d (dset pid (dset k_lane_set (VLaneSet (get_attribute k_id ls) lanes) a) (procs d))))
  end.
(** bpmn_diagram_import.py:153-175. *)
Definition import_process (plane e : dom) : MD unit :=
  let o := InProcess (get_attribute k_id e) in
  do_ import_process_element e ;;
  do_ import_lane_sets plane e ;;
  do_ mfor (d_kids e) (import_element o) ;;
  import_flows o e.
(** bpmn_diagram_import.py:141-175. *)
Definition import_process_elements (root plane : dom) : MD unit :=
  mfor (document_elements k_process root) (import_process plane).

(** * Collaboration *)

(** bpmn_diagram_import.py:95-111. *)
Definition set_participant (id : string) (a : attrs) (d : diagram) : diagram :=
  match collaboration d with
  | None => d
  | Some c => with_collab d (Some (mkCollab (co_id c) (dset id a (co_participants c)) (co_messages c)))
  end.
Definition import_participant_element (e : dom) : MD unit :=
  let id := get_attribute k_id e in
  do_ (if String.eqb (get_attribute k_process_ref e) "" then
         do_ ggraph (fun g => Ok (add_node id g)) ;;
         do_ node_set id k_type (VStr t_participant) ;;
         node_set id k_process (VStr id)
       else mret tt) ;;
  mmodify (set_participant id [(k_name, VStr (get_attribute k_name e));
                               (k_process_ref, VStr (get_attribute k_process_ref e))]).
(** bpmn_diagram_import.py:70-92. *)
Definition import_collaboration_element (e : dom) : MD unit :=
  do_ mmodify (fun d => with_collab d (Some (mkCollab (get_attribute k_id e) [] []))) ;;
  each_element (d_kids e) (fun x =>
    if String.eqb (d_local x) t_participant then import_participant_element x
    else if String.eqb (d_local x) t_message_flow then import_message_flow_to_graph x
    else mret tt).

(** * Diagram interchange *)

(** bpmn_diagram_import.py:813-848. *)
Definition import_shape_di (e : dom) : MD unit :=
  let id := get_attribute k_bpmn_element e in
  do b <- mread (fun _ => first_bounds e) ;;
  let at_ k := VStr (get_attribute k b) in
  do known <- gread (fun g => Ok (has_node g id)) ;;
  do_ (if (known : bool) then
         do_ node_set id k_width (at_ k_width) ;;
         do_ node_set id k_height (at_ k_height) ;;
         do t <- gread (get_node_attr id k_type) ;;
         do_ (if veqs t t_subprocess then node_set id k_is_expanded (VStr (attribute_or k_is_expanded "false" e))
              else mret tt) ;;
         do_ node_set id k_x (at_ k_x) ;;
         node_set id k_y (at_ k_y)
       else mret tt) ;;
  mmodify (fun d =>
    match collaboration d with
    | None => d
    | Some c =>
        match dget id (co_participants c) with
        | None => d
        | Some a => set_participant id (dset k_y (at_ k_y) (dset k_x (at_ k_x) (dset k_height (at_ k_height)
                      (dset k_width (at_ k_width) (dset k_is_horizontal (VStr (get_attribute k_is_horizontal e)) a))))) d
        end
    end).

(** bpmn_diagram_import.py:867-875. *)
Definition imported_waypoints (e : dom) : list (string * string) :=
  map (fun x => (get_attribute k_x x, get_attribute k_y x)) (elements_in t_waypoint e).
(** bpmn_diagram_import.py:877-881. *)
Definition known_flow (d : diagram) (f : string) : option flow_rec :=
  match dget f (seq_flows d) with
  | Some r => Some r
  | None => match collaboration d with Some c => dget f (co_messages c) | None => None end
  end.
(** bpmn_diagram_import.py:851-888. *)
Definition import_flow_di (e : dom) : MD unit :=
  do r <- mread (fun d => Ok (known_flow d (get_attribute k_bpmn_element e))) ;;
  match r with
  | None => mret tt
  | Some r =>
      do_ edge_set (fl_src r) (fl_tgt r) k_waypoints (VPoints (imported_waypoints e)) ;;
      edge_set (fl_src r) (fl_tgt r) k_name (VStr (fl_name r))
  end.

(** * The document *)

(** bpmn_diagram_import.py:114-138. *)
Definition import_diagram_and_plane_attributes (de pe : dom) : MD unit :=
  do_ mmodify (fun d => with_diag d (dset k_name (VStr (attribute_or k_name "" de))
                                    (dset k_id (VStr (get_attribute k_id de)) (diag_attrs d)))) ;;
  mmodify (fun d => with_plane d (dset k_bpmn_element (VStr (get_attribute k_bpmn_element pe))
                                 (dset k_id (VStr (get_attribute k_id pe)) (plane_attrs d)))).
Definition list_first (l : list dom) : res dom := match l with x :: _ => Ok x | [] => Err IndexError end.

(** bpmn_diagram_import.py:61-67. *)
Definition import_di (plane : dom) : MD unit :=
  each_element (d_kids plane) (fun x =>
    if String.eqb (d_local x) t_bpmn_shape then import_shape_di x
    else if String.eqb (d_local x) t_bpmn_edge then import_flow_di x
    else mret tt).

(** bpmn_diagram_import.py:21-67. *)
Definition load_diagram_from_xml (root : dom) : MD unit :=
  do de <- mread (fun _ => list_first (document_elements "BPMNDiagram" root)) ;;
  do pe <- mread (fun _ => list_first (elements_in "BPMNPlane" de)) ;;
  do_ import_diagram_and_plane_attributes de pe ;;
  do_ import_process_elements root pe ;;
  do_ (match document_elements t_collaboration root with
       | [] => mret tt
       | c :: _ => import_collaboration_element c
       end) ;;
  import_di pe.

End Import.
