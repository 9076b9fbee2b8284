(** Model of bpmn_python/bpmn_diagram_export.py: the functions return the XML tree
    they build.  The attribute dictionaries passed to them are the ones stored in the
    graph.  Creating the directory (lines 509-513, 548-552) always succeeds in the model. *)
From Coq Require Import String List Bool Arith.
From Verif Require Import Py Consts Nx Rep Xml.
Import ListNotations.
Open Scope string_scope.
Open Scope list_scope.

(** [element.set(k, params[k])]. *)
Definition copied (k : string) (a : attrs) : res (string * pyval) :=
  let* v := dgetE k a in Ok (k, v).
(** [if default in params and params[default] is not None: element.set(...)], e.g.
    bpmn_diagram_export.py:33-34. *)
Definition default_attribute (a : attrs) : attrs :=
  match dget k_default a with
  | None | Some VNone => []
  | Some v => [(k_default, v)]
  end.

(** [for definition in definitions]: bpmn_diagram_export.py:132-137 and three copies.
    Other values than lists of definitions are outside the model. *)
Definition definition_element (e : string * string) : etree :=
  elem (snd e) (if String.eqb (fst e) "" then [] else [(k_id, VStr (fst e))]) [].
Definition definition_elements (v : pyval) : res (list etree) :=
  match v with
  | VDefs l => Ok (map definition_element l)
  | VList [] => Ok []
  | VNone => Err TypeError
  | _ => Err Unmodelled
  end.
(** [params[event_definitions]]. *)
Definition event_definition_elements (a : attrs) : res (list etree) :=
  let* v := dgetE k_event_definitions a in definition_elements v.
(** [params.get(k)]. *)
Definition get_or_none (k : string) (a : attrs) : pyval :=
  match dget k a with Some v => v | None => VNone end.

(** What the functions of bpmn_diagram_export.py:26-34 and 63-190 add to the element:
    attributes and children. *)
Definition additions : Type := (attrs * list etree)%type.
(** bpmn_diagram_export.py:26-34. *)
Definition export_task_info (a : attrs) : res additions := Ok (default_attribute a, []).
(** bpmn_diagram_export.py:64-72. *)
Definition export_data_object_info (a : attrs) : res additions :=
  let* c := copied k_is_collection a in Ok ([c], []).
(** bpmn_diagram_export.py:77-86; 101-110 is the same code. *)
Definition export_complex_gateway_info (a : attrs) : res additions :=
  let* g := copied k_gateway_direction a in Ok (g :: default_attribute a, []).
Definition export_inclusive_exclusive_gateway_info (a : attrs) : res additions :=
  let* g := copied k_gateway_direction a in Ok (g :: default_attribute a, []).
(** bpmn_diagram_export.py:89-98. *)
Definition export_event_based_gateway_info (a : attrs) : res additions :=
  let* g := copied k_gateway_direction a in
  let* i := copied k_instantiate a in
  let* t := copied k_event_gateway_type a in
  Ok ([g; i; t], []).
(** bpmn_diagram_export.py:113-120. *)
Definition export_parallel_gateway_info (a : attrs) : res additions :=
  let* g := copied k_gateway_direction a in Ok ([g], []).
(** bpmn_diagram_export.py:123-137. *)
Definition export_catch_event_info (a : attrs) : res additions :=
  let* p := copied k_parallel_multiple a in
  let* l := event_definition_elements a in
  Ok ([p], l).
(** bpmn_diagram_export.py:140-155. *)
Definition export_start_event_info (a : attrs) : res additions :=
  let* l := definition_elements (get_or_none k_event_definitions a) in
  Ok ([(k_parallel_multiple, get_or_none k_parallel_multiple a);
       (k_is_interrupting, get_or_none k_is_interrupting a)], l).
(** bpmn_diagram_export.py:158-171. *)
Definition export_throw_event_info (a : attrs) : res additions :=
  let* l := event_definition_elements a in Ok ([], l).
(** bpmn_diagram_export.py:174-190. *)
Definition export_boundary_event_info (a : attrs) : res additions :=
  let* p := copied k_parallel_multiple a in
  let* c := copied k_cancel_activity a in
  let* r := copied k_attached_to_ref a in
  let* l := event_definition_elements a in
  Ok ([p; c; r], l).

(** [for flow in params[incoming]: ...text = flow], bpmn_diagram_export.py:324-329. *)
Definition reference_elements (k : string) (a : attrs) : res (list etree) :=
  let* v := dgetE k a in
  match v with
  | VList l => Ok (map (text_elem k) l)
  | VNone => Err TypeError
  | _ => Err Unmodelled
  end.

(** [params[k] + "_gui"]. *)
Definition gui (v : pyval) : res pyval :=
  match v with VStr s => Ok (VStr (s ++ "_gui")) | _ => Err TypeError end.

(** bpmn_diagram_export.py:379-397.  The condition is a dictionary with an id and a
    text; other values are outside the model. *)
Definition export_flow_process_data (a : attrs) : res etree :=
  let* id := copied k_id a in
  let* name := copied k_name a in
  let* src := copied k_source_ref a in
  let* tgt := copied k_target_ref a in
  let base := [id; name; src; tgt] in
  match dget k_condition_expression a with
  | None => Ok (elem t_sequence_flow base [])
  | Some (VCond cid text) =>
      Ok (elem t_sequence_flow (dset k_name (VStr text) base)
            [E k_condition_expression [(k_id, VStr cid)] (Some text) None []])
  | Some _ => Err Unmodelled
  end.

(** The types handled by the same branch of bpmn_diagram_export.py:331-335. *)
Definition task_types : list string := [t_task; t_user_task; t_service_task; t_manual_task].

(** bpmn_diagram_export.py:309-355 with 36-61; the fuel bounds the nesting of
    subprocesses.  A type that is not a string is outside the model. *)
Fixpoint export_node_data (fuel : nat) (d : diagram) (node : string * attrs) {struct fuel} : res etree :=
  match fuel with
  | O => Err OutOfFuel
  | S fuel' =>
      let a := snd node in
      let* tv := dgetE k_type a in
      let* t := match tv with VStr t => Ok t | _ => Err Unmodelled end in
      let* name := dgetE k_node_name a in
      let* ins := reference_elements k_incoming a in
      let* outs := reference_elements k_outgoing a in
      let* more :=
        (if smem t task_types then export_task_info a
         else if String.eqb t t_subprocess then
           let* tr := copied k_triggered_by_event a in
           let* sid := dgetE k_id a in
           let* s := match sid with VStr s => Ok s | _ => Err Unmodelled end in
           let* nodes := get_nodes_list_by_process_id s d in
           let* es := rmap (export_node_data fuel' d) nodes in
           let* fs := rmap (fun f => export_flow_process_data (snd f)) (get_flows_list_by_process_id s d) in
           Ok (tr :: default_attribute a, es ++ fs)
         else if String.eqb t t_data_object then export_data_object_info a
         else if String.eqb t t_complex_gateway then export_complex_gateway_info a
         else if String.eqb t t_event_based_gateway then export_event_based_gateway_info a
         else if String.eqb t t_inclusive_gateway || String.eqb t t_exclusive_gateway
         then export_inclusive_exclusive_gateway_info a
         else if String.eqb t t_parallel_gateway then export_parallel_gateway_info a
         else if String.eqb t t_start_event then export_start_event_info a
         else if String.eqb t t_intermediate_catch_event then export_catch_event_info a
         else if String.eqb t t_end_event || String.eqb t t_intermediate_throw_event
         then export_throw_event_info a
         else if String.eqb t t_boundary_event then export_boundary_event_info a
         else Ok ([], [])) in
      Ok (elem t ([(k_id, VStr (fst node)); (k_name, name)] ++ fst more) (ins ++ outs ++ snd more))
  end.

(** bpmn_diagram_export.py:193-210. *)
Definition definitions_attributes : attrs :=
  [("xmlns", VStr "http://www.omg.org/spec/BPMN/20100524/MODEL");
   ("xmlns:bpmndi", VStr "http://www.omg.org/spec/BPMN/20100524/DI");
   ("xmlns:omgdc", VStr "http://www.omg.org/spec/DD/20100524/DC");
   ("xmlns:omgdi", VStr "http://www.omg.org/spec/DD/20100524/DI");
   ("xmlns:xsi", VStr "http://www.w3.org/2001/XMLSchema-instance");
   ("targetNamespace", VStr "http://www.signavio.com/bpmn20");
   ("typeLanguage", VStr "http://www.w3.org/2001/XMLSchema");
   ("expressionLanguage", VStr "http://www.w3.org/1999/XPath");
   ("xmlns:xsd", VStr "http://www.w3.org/2001/XMLSchema")].

(** bpmn_diagram_export.py:213-228: the attributes of the process element. *)
Definition export_process_element (pid : string) (a : attrs) : res attrs :=
  let* c := copied k_is_closed a in
  let* e := copied k_is_executable a in
  let* t := copied k_process_type a in
  Ok [(k_id, VStr pid); c; e; t].

Definition shape_tag : string := "bpmndi:" ++ t_bpmn_shape.
Definition edge_tag : string := "bpmndi:" ++ t_bpmn_edge.
(** [bounds.set(...)] four times. *)
Definition bounds_element (a : attrs) : res etree :=
  let* w := copied k_width a in
  let* h := copied k_height a in
  let* x := copied k_x a in
  let* y := copied k_y a in
  Ok (elem "omgdc:Bounds" [w; h; x; y] []).

(** bpmn_diagram_export.py:256-287: the lane element and the shapes added to the plane
    (those of its child lanes first).  The lane set id is not written (lines 231-254). *)
Fixpoint export_lane (id : string) (l : lane) : res (etree * list etree) :=
  match l with
  | Lane name child refs di =>
      let* sub :=
        match child with
        | None => Ok ([], [])
        | Some (_, lanes) =>
            let* p := (fix all (ls : list (string * lane)) : res (list etree * list etree) :=
                         match ls with
                         | [] => Ok ([], [])
                         | (i, x) :: r => let* p := export_lane i x in
                                          let* q := all r in
                                          Ok (fst p :: fst q, snd p ++ snd q)
                         end) lanes in
            Ok ([elem k_lane_set [] (fst p)], snd p)
        end in
      let* shape :=
        match di with
        | None => Err (KeyError k_is_horizontal)
        | Some (hor, (w, h, x, y)) =>
            Ok (elem shape_tag [(k_id, VStr (id ++ "_gui")); (k_bpmn_element, VStr id);
                                (k_is_horizontal, VStr hor)]
                  [elem "omgdc:Bounds" [(k_width, VStr w); (k_height, VStr h); (k_x, VStr x); (k_y, VStr y)] []])
        end in
      Ok (elem t_lane [(k_id, VStr id); (k_name, VStr name)] (fst sub ++ map (text_elem t_flow_node_ref) refs),
          snd sub ++ [shape])
  end.
(** bpmn_diagram_export.py:230-241. *)
Definition export_lane_set (lanes : list (string * lane)) : res (etree * list etree) :=
  let* ps := rmap (fun p => export_lane (fst p) (snd p)) lanes in
  Ok (elem k_lane_set [] (map fst ps), flat_map snd ps).

(** bpmn_diagram_export.py:357-376. *)
Definition export_node_di_data (node : string * attrs) : res etree :=
  let a := snd node in
  let* b := bounds_element a in
  let* t := dgetE k_type a in
  let* x := (if veqs t t_subprocess then let* e := copied k_is_expanded a in Ok [e] else Ok []) in
  Ok (elem shape_tag ([(k_id, VStr (fst node ++ "_gui")); (k_bpmn_element, VStr (fst node))] ++ x) [b]).

(** The waypoints of a flow, bpmn_diagram_export.py:410-414. *)
Definition waypoint_elements (a : attrs) : res (list etree) :=
  let* v := dgetE k_waypoints a in
  match v with
  | VPoints l => Ok (map (fun p => elem "omgdi:waypoint" [(k_x, VStr (fst p)); (k_y, VStr (snd p))] []) l)
  | VList [] => Ok []
  | VNone => Err TypeError
  | _ => Err Unmodelled
  end.
(** bpmn_diagram_export.py:399-414. *)
Definition export_flow_di_data (a : attrs) : res etree :=
  let* id := dgetE k_id a in
  let* g := gui id in
  let* w := waypoint_elements a in
  Ok (elem edge_tag [(k_id, g); (k_bpmn_element, id)] w).

(** bpmn_diagram_export.py:440-455: the messageFlow element and its edge. *)
Definition export_message_flow (d : diagram) (m : string * flow_rec) : res (etree * etree) :=
  let* f := get_flow_by_id (fst m) d in
  let* a := match f with Some e => Ok (snd e) | None => Err TypeError end in
  let* w := waypoint_elements a in
  Ok (elem t_message_flow [(k_id, VStr (fst m)); (k_name, VStr (fl_name (snd m)));
                           (k_source_ref, VStr (fl_src (snd m))); (k_target_ref, VStr (fl_tgt (snd m)))] [],
      elem edge_tag [(k_id, VStr (fst m ++ "_gui")); (k_bpmn_element, VStr (fst m))] w).
(** bpmn_diagram_export.py:457-472. *)
Definition export_participant (p : string * attrs) : res (etree * etree) :=
  let a := snd p in
  let* name := copied k_name a in
  let* ref := copied k_process_ref a in
  let* hor := copied k_is_horizontal a in
  let* b := bounds_element a in
  Ok (elem t_participant [(k_id, VStr (fst p)); name; ref] [],
      elem shape_tag [(k_id, VStr (fst p ++ "_gui")); (k_bpmn_element, VStr (fst p)); hor] [b]).
(** bpmn_diagram_export.py:434-472: the collaboration element (if any) and the
    additions to the plane. *)
Definition export_collaboration (d : diagram) : res (list etree * list etree) :=
  match collaboration d with
  | None => Ok ([], [])
  | Some c =>
      let* ms := rmap (export_message_flow d) (co_messages c) in
      let* ps := rmap export_participant (co_participants c) in
      Ok ([elem t_collaboration [(k_id, VStr (co_id c))] (map fst ms ++ map fst ps)], map snd ms ++ map snd ps)
  end.

(** bpmn_diagram_export.py:475-493: a process element and the shapes of its lanes. *)
Definition export_process (fuel : nat) (d : diagram) (p : string * attrs) : res (etree * list etree) :=
  let* pa := export_process_element (fst p) (snd p) in
  let* ls := match dget k_lane_set (snd p) with
             | None => Ok ([], [])
             | Some (VLaneSet _ lanes) => let* q := export_lane_set lanes in Ok ([fst q], snd q)
             | Some _ => Err Unmodelled
             end in
  let* nodes := get_nodes_list_by_process_id (fst p) d in
  let* es := rmap (export_node_data fuel d) nodes in
  let* fs := rmap (fun f => export_flow_process_data (snd f)) (get_flows_list_by_process_id (fst p) d) in
  Ok (elem k_process pa (fst ls ++ es ++ fs), snd ls).

(** bpmn_diagram_export.py:425-505, the tree.  The diagram element is created first, the
    plane is filled on the way. *)
Definition export_tree (fuel : nat) (d : diagram) : res etree :=
  let* did := copied k_id (diag_attrs d) in
  let* dname := copied k_name (diag_attrs d) in
  let* plid := copied k_id (plane_attrs d) in
  let* plel := copied k_bpmn_element (plane_attrs d) in
  let* co := export_collaboration d in
  let* ps := rmap (export_process fuel d) (procs d) in
  let* shapes := rmap export_node_di_data (nodes_view (dgraph d)) in
  let* edges := rmap (fun f => export_flow_di_data (snd f)) (get_flows d) in
  let plane := elem "bpmndi:BPMNPlane" [plid; plel] (snd co ++ flat_map snd ps ++ shapes ++ edges) in
  Ok (elem t_definitions definitions_attributes
        (elem "bpmndi:BPMNDiagram" [did; dname] [plane] :: fst co ++ map fst ps)).
(** bpmn_diagram_export.py:417-514: the written document. *)
Definition export_xml_file (fuel : nat) (d : diagram) : res dom :=
  let* t := export_tree fuel d in document (indent 0 t).

(** bpmn_diagram_export.py:525-544. *)
Definition export_tree_no_di (fuel : nat) (d : diagram) : res etree :=
  let* ps := rmap (fun p => let* pa := export_process_element (fst p) (snd p) in
                            let* es := rmap (export_node_data fuel d) (nodes_view (dgraph d)) in
                            let* fs := rmap (fun f => export_flow_process_data (snd f)) (edges_view (dgraph d)) in
                            Ok (elem k_process pa (es ++ fs))) (procs d) in
  Ok (elem t_definitions definitions_attributes ps).
(** bpmn_diagram_export.py:517-553. *)
Definition export_xml_file_no_di (fuel : nat) (d : diagram) : res dom :=
  let* t := export_tree_no_di fuel d in document (indent 0 t).
