(** Specification vocabulary: diagrams that have everything the XML exporter writes. *)
From Coq Require Import String List Bool.
From Verif Require Import Py Nx NxFacts Rep SpecRep Xml Export Import SpecXml SpecRound.
Import ListNotations.
Open Scope string_scope.
Open Scope list_scope.

(** The attribute [k] is present and is a string; a list. *)
Definition text (a : attrs) (k : string) : Prop := exists s, dget k a = Some (VStr s).
Definition listed (a : attrs) (k : string) : Prop := exists l, dget k a = Some (VList l).
(** The attributes that its type makes necessary. *)
Definition node_writable (a : attrs) : Prop :=
  exists t, dget "type" a = Some (VStr t) /\ In t ("participant" :: node_kinds) /\ text a "node_name" /\ listed a "incoming" /\ listed a "outgoing" /\
    (forall k, In k (own_attributes t) -> text a k) /\
    (has_default t = true -> dget "default" a = None \/ dget "default" a = Some VNone \/ text a "default") /\
    (has_definitions t = true -> exists l, dget "event_definitions" a = Some (VDefs l)).
Definition boxed (a : attrs) : Prop := text a "width" /\ text a "height" /\ text a "x" /\ text a "y".
Definition node_drawn (a : attrs) : Prop :=
  boxed a /\ text a "type" /\ (dget "type" a = Some (VStr "subProcess") -> text a "isExpanded").
Definition flow_writable (a : attrs) : Prop :=
  text a "id" /\ text a "name" /\ text a "sourceRef" /\ text a "targetRef" /\
  (dget "conditionExpression" a = None \/ exists i c, dget "conditionExpression" a = Some (VCond i c)).
(** A subprocess is not inside itself: everything in a subprocess is of a lower rank. *)
Definition nesting (d : diagram) (rank : string -> nat) : Prop :=
  forall n m, attr d n "type" = Some (VStr "subProcess") -> attr d m "type" = Some (VStr "subProcess") ->
    attr d m "process" = Some (VStr n) -> rank m < rank n.

(** Nodes and flows stand in a process or a subprocess with the id [p]. *)
Definition is_scope (d : diagram) (p : string) : Prop := In p (map fst (procs d)) \/ attr d p "type" = Some (VStr "subProcess").
(** What the nodes and flows need in both kinds of export. *)
Record parts_writable (d : diagram) : Prop := {
  pw_process : forall n a, In (n, a) (gnodes (dgraph d)) -> exists v, dget "process" a = Some v;
  pw_nodes : forall n a p, In (n, a) (gnodes (dgraph d)) -> dget "process" a = Some (VStr p) -> is_scope d p -> node_writable a;
  pw_subs : forall n a, In (n, a) (gnodes (dgraph d)) -> dget "type" a = Some (VStr "subProcess") -> dget "id" a = Some (VStr n);
  pw_flows : forall e p, In e (gedges (dgraph d)) -> dget "process" (eat e) = Some (VStr p) -> is_scope d p -> flow_writable (eat e);
  pw_processes : forall p a, In (p, a) (procs d) -> text a "isClosed" /\ text a "isExecutable" /\ text a "processType" }.
(** What the export with diagram interchange needs. *)
Record writable (d : diagram) : Prop := {
  wr_parts : parts_writable d;
  wr_diagram : text (diag_attrs d) "id" /\ text (diag_attrs d) "name";
  wr_plane : text (plane_attrs d) "id" /\ text (plane_attrs d) "bpmnElement";
  wr_nodes : forall n a, In (n, a) (gnodes (dgraph d)) -> node_drawn a;
  wr_flows : forall e, In e (gedges (dgraph d)) -> text (eat e) "id" /\ exists ps, points_of (eat e) ps;
  wr_lanes : forall p a, In (p, a) (procs d) -> dget "laneSet" a = None \/
    exists s ls, dget "laneSet" a = Some (VLaneSet s ls) /\ forall i l, lane_in ls i l -> lane_geometry l <> None;
  wr_participants : forall c p a, collaboration d = Some c -> In (p, a) (co_participants c) ->
    text a "name" /\ text a "processRef" /\ text a "isHorizontal" /\ boxed a;
  wr_messages : forall c m r, collaboration d = Some c -> In (m, r) (co_messages c) ->
    exists e, In e (gedges (dgraph d)) /\ dget "id" (eat e) = Some (VStr m) }.
(** What can be read again: conditions and references are not empty, lanes do not have
    the id of a flow. *)
Record rereadable (d : diagram) : Prop := {
  rr_conditions : forall e i, In e (gedges (dgraph d)) -> dget "conditionExpression" (eat e) <> Some (VCond i "");
  rr_references : forall i name child refs di, lane_of d i (Lane name child refs di) -> ~ In "" refs;
  rr_lanes : forall i l e, lane_of d i l -> In e (gedges (dgraph d)) -> dget "id" (eat e) <> Some (VStr i) }.
