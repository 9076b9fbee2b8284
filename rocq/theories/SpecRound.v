(** Specification vocabulary for writing a diagram to XML and reading it back. *)
From Coq Require Import String List Bool.
From Verif Require Import Py Nx NxFacts Rep SpecRep Xml Export Import SpecXml.
Import ListNotations.
Open Scope string_scope.
Open Scope list_scope.

(** [p] is the id of a process, or of a subprocess node placed in a process, directly or
    inside other subprocesses. *)
Inductive placed (d : diagram) : string -> Prop :=
| placed_process : forall p, In p (map fst (procs d)) -> placed d p
| placed_sub : forall n p, attr d n "type" = Some (VStr "subProcess") -> attr d n "process" = Some (VStr p) ->
    placed d p -> placed d n.

(** The connection [e] is the sequence flow [f] from [u] to [v] in the scope [p]. *)
Definition flow_edge (e : edge) (f u v p : string) : Prop :=
  dget "id" (eat e) = Some (VStr f) /\ dget "sourceRef" (eat e) = Some (VStr u) /\ dget "targetRef" (eat e) = Some (VStr v) /\
  dget "process" (eat e) = Some (VStr p).

(** Diagrams that the file format can represent. *)
Record storable (d : diagram) : Prop := {
  sb_graph : gwf (dgraph d);
  sb_processes : NoDup (map fst (procs d));
  sb_collaboration : forall c, collaboration d = Some c -> NoDup (map fst (co_participants c)) /\ NoDup (map fst (co_messages c));
  (** every node has a type the library knows *)
  sb_types : forall n, is_node d n -> exists t, attr d n "type" = Some (VStr t) /\ In t ("participant" :: node_kinds);
  (** subprocesses store their own id, which is not the id of a process *)
  sb_subs : forall n, attr d n "type" = Some (VStr "subProcess") -> attr d n "id" = Some (VStr n) /\ ~ In n (map fst (procs d));
  (** event definitions are of the kinds that the event may have *)
  sb_definitions : forall n t ds x, attr d n "type" = Some (VStr t) -> attr d n "event_definitions" = Some (VDefs ds) -> In x ds ->
    exists ts, event_kinds (DElem t [] []) = Some ts /\ In (snd x) ts;
  (** the lists of flows have no repetitions and no empty ids *)
  sb_lists : forall n k l, k = "incoming" \/ k = "outgoing" -> attr d n k = Some (VList l) -> NoDup l /\ ~ In "" l;
  (** connections with a process are sequence flows registered at both ends *)
  sb_flows : forall e p, In e (gedges (dgraph d)) -> dget "process" (eat e) = Some (VStr p) ->
    exists f u v, flow_edge e f u v p /\ same_pair (eu e) (ev e) u v /\ In f (outgoing_of d u) /\ In f (incoming_of d v);
  (** connections have their own ids *)
  sb_edge_ids : forall e e' f, In e (gedges (dgraph d)) -> In e' (gedges (dgraph d)) ->
    dget "id" (eat e) = Some (VStr f) -> dget "id" (eat e') = Some (VStr f) -> e = e';
  (** message flows are registered at both ends and are not over the connection of a sequence flow *)
  sb_messages : forall c m r, collaboration d = Some c -> In (m, r) (co_messages c) ->
    In m (outgoing_of d (fl_src r)) /\ In m (incoming_of d (fl_tgt r)) /\
    (forall e p, In e (gedges (dgraph d)) -> dget "process" (eat e) = Some (VStr p) -> ~ same_pair (eu e) (ev e) (fl_src r) (fl_tgt r));
  (** participants without a process do not have the id of a flow node *)
  sb_participants : forall c p a t, collaboration d = Some c -> In (p, a) (co_participants c) -> dget "processRef" a = Some (VStr "") ->
    attr d p "type" = Some (VStr t) -> ~ In t node_kinds }.

(** Same attribute. *)
Definition kept (d d' : diagram) (n k : string) : Prop := attr d' n k = attr d n k.
(** The attributes that each type of node has besides the common ones, without "default". *)
Definition own_attributes (t : string) : list string :=
  match t with
  | "subProcess" => ["triggeredByEvent"]
  | "dataObject" => ["isCollection"]
  | "startEvent" => ["parallelMultiple"; "isInterrupting"]
  | "intermediateCatchEvent" => ["parallelMultiple"]
  | "boundaryEvent" => ["parallelMultiple"; "cancelActivity"; "attachedToRef"]
  | "complexGateway" | "inclusiveGateway" | "exclusiveGateway" | "parallelGateway" => ["gatewayDirection"]
  | "eventBasedGateway" => ["gatewayDirection"; "instantiate"; "eventGatewayType"]
  | _ => []
  end.
Definition has_default (t : string) : bool :=
  match t with
  | "task" | "userTask" | "serviceTask" | "manualTask" | "subProcess"
  | "complexGateway" | "inclusiveGateway" | "exclusiveGateway" => true
  | _ => false
  end.
Definition has_definitions (t : string) : bool :=
  match t with
  | "startEvent" | "intermediateCatchEvent" | "endEvent" | "intermediateThrowEvent" | "boundaryEvent" => true
  | _ => false
  end.

(** Diagrams of which everything is written: every node is in a process or is a
    participant without a process; every connection is a sequence flow in a process or a
    message flow. *)
Definition in_process (d : diagram) (n : string) : Prop :=
  exists t p, attr d n "type" = Some (VStr t) /\ In t node_kinds /\ attr d n "process" = Some (VStr p) /\ placed d p.
Definition black_box (d : diagram) (n : string) : Prop :=
  exists c a, collaboration d = Some c /\ In (n, a) (co_participants c) /\ dget "processRef" a = Some (VStr "").
Record complete (d : diagram) : Prop := {
  cp_nodes : forall n, is_node d n <-> in_process d n \/ black_box d n;
  cp_flows : forall e, In e (gedges (dgraph d)) ->
    (exists p, dget "process" (eat e) = Some (VStr p) /\ placed d p) \/
    (exists c m r, collaboration d = Some c /\ In (m, r) (co_messages c) /\ same_pair (eu e) (ev e) (fl_src r) (fl_tgt r));
  cp_messages : forall c m r, collaboration d = Some c -> In (m, r) (co_messages c) ->
    exists e, In e (gedges (dgraph d)) /\ same_pair (eu e) (ev e) (fl_src r) (fl_tgt r) /\ dget "id" (eat e) = Some (VStr m) }.

(** The flow nodes that stand directly in [p], in the order of the graph. *)
Definition nodes_in (d : diagram) (p : string) : list string :=
  flat_map (fun na => match dget "process" (snd na), dget "type" (snd na) with
                      | Some (VStr q), Some (VStr t) => if in_dec string_dec t node_kinds then if string_dec p q then [fst na] else [] else []
                      | _, _ => []
                      end) (gnodes (dgraph d)).
(** What a missing default flow is read as. *)
Definition default_of (d : diagram) (n : string) : pyval :=
  match attr d n "default" with Some (VStr s) => VStr s | _ => VNone end.
Definition definitions_of (d : diagram) (n : string) : list (string * string) :=
  match attr d n "event_definitions" with Some (VDefs l) => l | _ => [] end.

(** [d] is written to a file and a new diagram reads the file. *)
Definition round_trip (set_order : list string -> list string) (fuel : nat) (d d' : diagram) : Prop :=
  exists file, export_xml_file fuel d = Ok file /\ load_diagram_from_xml set_order file empty_diagram = (d', Ok tt).

(** The points of a drawn flow. *)
Definition points_of (a : attrs) (ps : list (string * string)) : Prop :=
  dget "waypoints" a = Some (VPoints ps) \/ (dget "waypoints" a = Some (VList []) /\ ps = []).

(** The lane [l] with the id [i] is in the lanes [ls], directly or inside other lanes. *)
Inductive lane_in : list (string * lane) -> string -> lane -> Prop :=
| lane_here : forall ls i l, In (i, l) ls -> lane_in ls i l
| lane_below : forall ls j name s sub refs di i l, In (j, Lane name (Some (s, sub)) refs di) ls -> lane_in sub i l -> lane_in ls i l.
Definition lane_of (d : diagram) (i : string) (l : lane) : Prop :=
  exists p a s ls, In (p, a) (procs d) /\ dget "laneSet" a = Some (VLaneSet s ls) /\ lane_in ls i l.
Definition lane_geometry (l : lane) : option (string * (string * string * string * string)) :=
  match l with Lane _ _ _ di => di end.
(** A lane without the lanes inside it. *)
Definition outer_lane (l : lane) : lane := match l with Lane name _ refs di => Lane name None refs di end.
