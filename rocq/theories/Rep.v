(** Model of bpmn_python/bpmn_diagram_rep.py: the diagram object, its queries and
    its construction methods.  Values drawn by [uuid.uuid4()] are explicit string
    arguments (named [u], [u1], [u2]). *)
From Coq Require Import String List Bool.
From Verif Require Import Py Consts Nx.
Import ListNotations.
Open Scope string_scope.
Open Scope list_scope.

(** A value of the sequence_flows / message flows dictionaries
    (bpmn_diagram_rep.py:516-518; the three keys are always written together). *)
Record flow_rec : Type := mkFlow { fl_name : string; fl_src : string; fl_tgt : string }.

(** bpmn_diagram_rep.py:29-34.  The Python object is a dict that is either empty
    or holds the three keys id, participants, messageFlows
    (bpmn_diagram_import.py:80-84); here [None] or a record. *)
Record collab : Type := mkCollab {
  co_id : string;
  co_participants : dict attrs;
  co_messages : dict flow_rec }.

(** bpmn_diagram_rep.py:46-55. *)
Record diagram : Type := mkDiagram {
  dgraph : graph;
  seq_flows : dict flow_rec;
  procs : dict attrs;
  diag_attrs : attrs;
  plane_attrs : attrs;
  collaboration : option collab }.

Definition with_graph (d : diagram) (g : graph) : diagram :=
  mkDiagram g (seq_flows d) (procs d) (diag_attrs d) (plane_attrs d) (collaboration d).
Definition with_flows (d : diagram) (f : dict flow_rec) : diagram :=
  mkDiagram (dgraph d) f (procs d) (diag_attrs d) (plane_attrs d) (collaboration d).
Definition with_procs (d : diagram) (p : dict attrs) : diagram :=
  mkDiagram (dgraph d) (seq_flows d) p (diag_attrs d) (plane_attrs d) (collaboration d).
Definition with_diag (d : diagram) (a : attrs) : diagram :=
  mkDiagram (dgraph d) (seq_flows d) (procs d) a (plane_attrs d) (collaboration d).
Definition with_plane (d : diagram) (a : attrs) : diagram :=
  mkDiagram (dgraph d) (seq_flows d) (procs d) (diag_attrs d) a (collaboration d).
Definition with_collab (d : diagram) (c : option collab) : diagram :=
  mkDiagram (dgraph d) (seq_flows d) (procs d) (diag_attrs d) (plane_attrs d) c.

Definition MD := M diagram.

(** Statement-level access to the graph of the diagram. *)
Definition ggraph (f : graph -> res graph) : MD unit :=
  mtry (fun d => let* g := f (dgraph d) in Ok (with_graph d g)).
Definition gread {A} (f : graph -> res A) : MD A := mread (fun d => f (dgraph d)).

(** bpmn_diagram_rep.py:46-55 [__init__]. *)
Definition empty_diagram : diagram := mkDiagram empty_graph [] [] [] [] None.

(** bpmn_diagram_rep.py:43 [id_prefix + str(uuid4())]. *)
Definition fresh_id (u : string) : string := "id" ++ u.

(** * Queries *)

(** The loop bodies compare an attribute with the argument (lines 118, 132, 158). *)
Definition attr_is (k : string) (v : option string) (n : string * attrs) : res bool :=
  let* x := dgetE k (snd n) in
  Ok (match v with Some s => veqs x s | None => match x with VNone => true | _ => false end end).

(** bpmn_diagram_rep.py:105-120 [get_nodes(node_type)].  [None] is Python's None,
    passed by bpmn_diagram_metrics.get_nodes_count. *)
Definition get_nodes (node_type : option string) (d : diagram) : res (list (string * attrs)) :=
  match node_type with
  | Some "" => Ok (nodes_view (dgraph d))
  | _ => rfilter (attr_is k_type node_type) (nodes_view (dgraph d))
  end.

(** bpmn_diagram_rep.py:122-134. *)
Definition get_nodes_list_by_process_id (pid : string) (d : diagram) : res (list (string * attrs)) :=
  rfilter (attr_is k_process (Some pid)) (nodes_view (dgraph d)).

(** bpmn_diagram_rep.py:136-146; [None] when the loop finds nothing. *)
Definition get_node_by_id (nid : string) (d : diagram) : option (string * attrs) :=
  find (fun n => String.eqb (fst n) nid) (nodes_view (dgraph d)).

(** bpmn_diagram_rep.py:148-160. *)
Definition get_nodes_id_list_by_type (node_type : string) (d : diagram) : res (list string) :=
  let* l := rfilter (attr_is k_type (Some node_type)) (nodes_view (dgraph d)) in
  Ok (map fst l).

(** bpmn_diagram_rep.py:162-168. *)
Definition get_flows (d : diagram) : list (string * string * attrs) := edges_view (dgraph d).

(** bpmn_diagram_rep.py:170-180: first flow with the given id, [None] otherwise;
    [KeyError] when an edge without id is met before. *)
Fixpoint first_flow (fid : string) (l : list (string * string * attrs))
  : res (option (string * string * attrs)) :=
  match l with
  | [] => Ok None
  | e :: t => let* v := dgetE k_id (snd e) in
              if veqs v fid then Ok (Some e) else first_flow fid t
  end.
Definition get_flow_by_id (fid : string) (d : diagram) : res (option (string * string * attrs)) :=
  first_flow fid (get_flows d).

(** bpmn_diagram_rep.py:182-194. *)
Definition get_flows_list_by_process_id (pid : string) (d : diagram)
  : list (string * string * attrs) :=
  filter (fun e => match dget k_process (snd e) with
                   | Some v => veqs v pid
                   | None => false
                   end) (get_flows d).

(** * Construction *)

(** bpmn_diagram_rep.py:197-212. *)
Definition create_new_diagram_graph (name u : string) : MD unit :=
  mput (with_diag empty_diagram [(k_id, VStr (fresh_id u)); (k_name, VStr name)]).

(** bpmn_diagram_rep.py:214-244. *)
Definition add_process_to_diagram (name : string) (closed executable : bool) (ptype u1 u2 : string)
  : MD string :=
  let plane_id := fresh_id u1 in
  let process_id := fresh_id u2 in
  do_ mmodify (fun d => with_procs d (dset process_id
        [(k_name, VStr name); (k_is_closed, VStr (bool_str closed));
         (k_is_executable, VStr (bool_str executable)); (k_process_type, VStr ptype)] (procs d))) ;;
  do_ mmodify (fun d => with_plane d (dset k_id (VStr plane_id) (plane_attrs d))) ;;
  do_ mmodify (fun d => with_plane d (dset k_bpmn_element (VStr process_id) (plane_attrs d))) ;;
  mret process_id.

(** [self.diagram_graph.node[n][k] = v]. *)
Definition node_set (n k : string) (v : pyval) : MD unit := ggraph (set_node_attr n k v).

(** bpmn_diagram_rep.py:246-271.  The returned attribute dictionary is the node
    itself; only the id is returned here. *)
Definition add_flow_node_to_diagram (pid ntype name : string) (nid : option string) (u : string)
  : MD string :=
  let id := match nid with Some i => i | None => fresh_id u end in
  do_ ggraph (fun g => Ok (add_node id g)) ;;
  do_ node_set id k_id (VStr id) ;;
  do_ node_set id k_type (VStr ntype) ;;
  do_ node_set id k_node_name (VStr name) ;;
  do_ node_set id k_incoming (VList []) ;;
  do_ node_set id k_outgoing (VList []) ;;
  do_ node_set id k_process (VStr pid) ;;
  do_ node_set id k_width (VStr "100") ;;
  do_ node_set id k_height (VStr "100") ;;
  do_ node_set id k_x (VStr "100") ;;
  do_ node_set id k_y (VStr "100") ;;
  mret id.

(** bpmn_diagram_rep.py:273-286. *)
Definition add_task_to_diagram (pid name : string) (nid : option string) (u : string) : MD string :=
  add_flow_node_to_diagram pid t_task name nid u.

(** bpmn_diagram_rep.py:288-310. *)
Definition add_subprocess_to_diagram (pid name : string) (expanded triggered : bool)
           (nid : option string) (u : string) : MD string :=
  do id <- add_flow_node_to_diagram pid t_subprocess name nid u ;;
  do_ node_set id k_is_expanded (VStr (bool_str expanded)) ;;
  do_ node_set id k_triggered_by_event (VStr (bool_str triggered)) ;;
  mret id.

(** bpmn_diagram_rep.py:403-414: [event_definitions[event_type]] of the literal
    dictionary, [KeyError] otherwise. *)
Definition add_event_definition_element (event_type u : string) (defs : dict string)
  : res (string * string) :=
  let* t := dgetE event_type defs in Ok (fresh_id u, t).

(** bpmn_diagram_rep.py:343-345. *)
Definition start_event_definitions : dict string :=
  [("message", "messageEventDefinition"); ("timer", "timerEventDefinition");
   ("conditional", "conditionalEventDefinition"); ("signal", "signalEventDefinition");
   ("escalation", "escalationEventDefinition")].

(** bpmn_diagram_rep.py:383-385. *)
Definition end_event_definitions : dict string :=
  [("terminate", "terminateEventDefinition"); ("escalation", "escalationEventDefinition");
   ("message", "messageEventDefinition"); ("compensate", "compensateEventDefinition");
   ("signal", "signalEventDefinition"); ("error", "errorEventDefinition")].

(** The if/elif chains bpmn_diagram_rep.py:346-356 and 386-398: the tested names in
    order, each appending one definition. *)
Fixpoint event_def_list (tests : list string) (arg : option string) (u : string)
         (defs : dict string) : res (list (string * string)) :=
  match tests with
  | [] => Ok []
  | t :: ts =>
      if match arg with Some a => String.eqb a t | None => false end
      then let* e := add_event_definition_element t u defs in Ok [e]
      else event_def_list ts arg u defs
  end.

(** bpmn_diagram_rep.py:312-359; [u1] names the node (if no id is given), [u2] the
    event definition. *)
Definition add_start_event_to_diagram (pid name : string) (def : option string)
           (parallel interrupting : bool) (nid : option string) (u1 u2 : string) : MD string :=
  do id <- add_flow_node_to_diagram pid t_start_event name nid u1 ;;
  do_ node_set id k_parallel_multiple (VStr (bool_str parallel)) ;;
  do_ node_set id k_is_interrupting (VStr (bool_str interrupting)) ;;
  do l <- mread (fun _ => event_def_list ["message"; "timer"; "conditional"; "signal"; "escalation"]
                                         def u2 start_event_definitions) ;;
  do_ node_set id k_event_definitions (VDefs l) ;;
  mret id.

(** bpmn_diagram_rep.py:361-401. *)
Definition add_end_event_to_diagram (pid name : string) (def : option string)
           (nid : option string) (u1 u2 : string) : MD string :=
  do id <- add_flow_node_to_diagram pid t_end_event name nid u1 ;;
  do l <- mread (fun _ => event_def_list
                   ["terminate"; "escalation"; "message"; "compensate"; "signal"; "error"]
                   def u2 end_event_definitions) ;;
  do_ node_set id k_event_definitions (VDefs l) ;;
  mret id.

(** bpmn_diagram_rep.py:416-435. *)
Definition add_gateway_to_diagram (pid gtype name dir : string) (nid : option string) (u : string)
  : MD string :=
  do id <- add_flow_node_to_diagram pid gtype name nid u ;;
  do_ (if smem dir ["Unspecified"; "Converging"; "Diverging"; "Mixed"] then mret tt
       else mraise (BpmnPythonError
         ("Invalid value passed as gatewayDirection parameter. Value passed: " ++ dir))) ;;
  do_ node_set id k_gateway_direction (VStr dir) ;;
  mret id.

Definition opt_val (o : option string) : pyval :=
  match o with Some s => VStr s | None => VNone end.

(** bpmn_diagram_rep.py:437-457. *)
Definition add_exclusive_gateway_to_diagram (pid name dir : string) (default nid : option string)
           (u : string) : MD string :=
  do id <- add_gateway_to_diagram pid t_exclusive_gateway name dir nid u ;;
  do_ node_set id k_default (opt_val default) ;;
  mret id.

(** bpmn_diagram_rep.py:459-479. *)
Definition add_inclusive_gateway_to_diagram (pid name dir : string) (default nid : option string)
           (u : string) : MD string :=
  do id <- add_gateway_to_diagram pid t_inclusive_gateway name dir nid u ;;
  do_ node_set id k_default (opt_val default) ;;
  mret id.

(** bpmn_diagram_rep.py:481-499. *)
Definition add_parallel_gateway_to_diagram (pid name dir : string) (nid : option string)
           (u : string) : MD string :=
  add_gateway_to_diagram pid t_parallel_gateway name dir nid u.

(** A coordinate pair of the waypoint list (bpmn_diagram_rep.py:529-530): the two
    attribute values as stored.  Coordinates that are not strings are outside the
    model. *)
Definition vstr (v : pyval) : res string :=
  match v with VStr s => Ok s | _ => Err Unmodelled end.

Definition edge_set (s t k : string) (v : pyval) : MD unit := ggraph (set_edge_attr s t k v).

(** bpmn_diagram_rep.py:501-537. *)
Definition add_sequence_flow_to_diagram (pid src tgt name u : string) : MD string :=
  let fid := fresh_id u in
  do_ mmodify (fun d => with_flows d (dset fid (mkFlow name src tgt) (seq_flows d))) ;;
  do_ ggraph (fun g => Ok (add_edge src tgt g)) ;;
  do_ edge_set src tgt k_id (VStr fid) ;;
  do_ edge_set src tgt k_name (VStr name) ;;
  do_ edge_set src tgt k_process (VStr pid) ;;
  do_ edge_set src tgt k_source_ref (VStr src) ;;
  do_ edge_set src tgt k_target_ref (VStr tgt) ;;
  do sx <- gread (get_node_attr src k_x) ;;
  do sy <- gread (get_node_attr src k_y) ;;
  do tx <- gread (get_node_attr tgt k_x) ;;
  do ty <- gread (get_node_attr tgt k_y) ;;
  do sx' <- mread (fun _ => vstr sx) ;;
  do sy' <- mread (fun _ => vstr sy) ;;
  do tx' <- mread (fun _ => vstr tx) ;;
  do ty' <- mread (fun _ => vstr ty) ;;
  do_ edge_set src tgt k_waypoints (VPoints [(sx', sy'); (tx', ty')]) ;;
  do_ ggraph (append_node_attr src k_outgoing fid) ;;
  do_ ggraph (append_node_attr tgt k_incoming fid) ;;
  mret fid.

(** bpmn_diagram_rep.py:539-549.  [pyfloat] stands for [float(...)] on strings
    ([None] = ValueError); the values are arbitrary. *)
Definition to_float {F} (pyfloat : string -> option F) (v : pyval) : res F :=
  match v with
  | VStr s => match pyfloat s with Some f => Ok f | None => Err ValueError end
  | _ => Err TypeError
  end.

Definition get_nodes_positions {F} (pyfloat : string -> option F) (d : diagram)
  : res (dict (F * F)) :=
  let* nodes := get_nodes (Some "") d in
  rfold (fun out n =>
           let* vx := dgetE k_x (snd n) in
           let* fx := to_float pyfloat vx in
           let* vy := dgetE k_y (snd n) in
           let* fy := to_float pyfloat vy in
           Ok (dset (fst n) (fx, fy) out)) nodes [].

(** * Histories of API calls (no counterpart in /repo: the environment) *)
Inductive op : Type :=
| ONew (name u : string)
| OProcess (name : string) (closed executable : bool) (ptype u1 u2 : string)
| OTask (pid name : string) (nid : option string) (u : string)
| OSubprocess (pid name : string) (expanded triggered : bool) (nid : option string) (u : string)
| OStart (pid name : string) (def : option string) (parallel interrupting : bool)
         (nid : option string) (u1 u2 : string)
| OEnd (pid name : string) (def : option string) (nid : option string) (u1 u2 : string)
| OExclusive (pid name dir : string) (default nid : option string) (u : string)
| OInclusive (pid name dir : string) (default nid : option string) (u : string)
| OParallel (pid name dir : string) (nid : option string) (u : string)
| OFlow (pid src tgt name u : string).

Definition step (o : op) : MD string :=
  match o with
  | ONew name u => do_ create_new_diagram_graph name u ;; mret ""
  | OProcess n c e t u1 u2 => add_process_to_diagram n c e t u1 u2
  | OTask p n i u => add_task_to_diagram p n i u
  | OSubprocess p n e t i u => add_subprocess_to_diagram p n e t i u
  | OStart p n d pm ii i u1 u2 => add_start_event_to_diagram p n d pm ii i u1 u2
  | OEnd p n d i u1 u2 => add_end_event_to_diagram p n d i u1 u2
  | OExclusive p n dir df i u => add_exclusive_gateway_to_diagram p n dir df i u
  | OInclusive p n dir df i u => add_inclusive_gateway_to_diagram p n dir df i u
  | OParallel p n dir i u => add_parallel_gateway_to_diagram p n dir i u
  | OFlow p s t n u => add_sequence_flow_to_diagram p s t n u
  end.

(** Exceptions of one call do not stop the client: the next call sees the state
    the failing one left behind. *)
Definition run1 (d : diagram) (o : op) : diagram := fst (step o d).
Definition run (d : diagram) (l : list op) : diagram := fold_left run1 l d.
