(** Specification vocabulary: when two diagrams look the same to the metrics. *)
From Coq Require Import String List Bool.
From Verif Require Import Py Nx Rep SpecRep SpecLayoutMetrics.
Import ListNotations.
Open Scope string_scope.
Open Scope list_scope.

(** The same nodes with the same types, and the same pairs of nodes are connected. *)
Record same_shape (d d' : diagram) : Prop := {
  sh_nodes : forall n, is_node d' n <-> is_node d n;
  sh_types : forall n, attr d' n "type" = attr d n "type";
  sh_links : forall u v, linked d' u v <-> linked d u v }.

(** The same nodes and types, the same flows, the same nodes without incoming and without
    outgoing flows. *)
Record same_ways (d d' : diagram) : Prop := {
  sw_nodes : forall n, is_node d' n <-> is_node d n;
  sw_types : forall n, attr d' n "type" = attr d n "type";
  sw_first : forall n, incoming_of d' n = [] <-> incoming_of d n = [];
  sw_last : forall n, outgoing_of d' n = [] <-> outgoing_of d n = [];
  sw_next : forall n m, next d' n m <-> next d n m }.

(** Every connection is drawn through the same points. *)
Record same_lines (d d' : diagram) : Prop := {
  sl_links : forall u v, linked d' u v <-> linked d u v;
  sl_points : forall u v l, link_attr d u v "waypoints" (VPoints l) -> link_attr d' u v "waypoints" (VPoints l) }.

(** The calls since the last one that started a new diagram. *)
Definition recent (l : list op) : list op :=
  fold_left (fun acc o => match o with ONew _ _ => [] | _ => acc ++ [o] end) l [].
(** The type of the node a call adds. *)
Definition call_type (o : op) : string :=
  match o with
  | OTask _ _ _ _ => "task"
  | OSubprocess _ _ _ _ _ _ => "subProcess"
  | OStart _ _ _ _ _ _ _ _ => "startEvent"
  | OEnd _ _ _ _ _ _ => "endEvent"
  | OExclusive _ _ _ _ _ _ => "exclusiveGateway"
  | OInclusive _ _ _ _ _ _ => "inclusiveGateway"
  | OParallel _ _ _ _ _ => "parallelGateway"
  | _ => ""
  end.
(** The connection of every message flow knows its target. *)
Definition messages_aimed (d : diagram) : Prop := forall c m r, collaboration d = Some c -> In (m, r) (co_messages c) ->
  link_attr d (fl_src r) (fl_tgt r) "targetRef" (VStr (fl_tgt r)).
