(** Specification vocabulary: what of a diagram a spreadsheet shows. *)
From Coq Require Import String List Bool.
From Verif Require Import Py Nx NxFacts Rep SpecRep SpecLayout.
Import ListNotations.
Open Scope string_scope.
Open Scope list_scope.

(** A missing attribute is read like Python's None. *)
Definition shown (o : option pyval) : pyval := match o with Some v => v | None => VNone end.
(** The connection with the id [f] has the target [t] and the name [x]. *)
Definition labelled (d : diagram) (f : string) (t : option pyval) (x : pyval) : Prop :=
  exists e, In e (gedges (dgraph d)) /\ dget "id" (eat e) = Some (VStr f) /\ dget "targetRef" (eat e) = t /\ shown (dget "name" (eat e)) = x.
(** The event definitions of a node. *)
Definition defined_by (d : diagram) (n : string) (l : list (string * string)) : Prop :=
  attr d n "event_definitions" = Some (VDefs l) \/
  (l = [] /\ In (attr d n "event_definitions") [None; Some VNone; Some (VList [])]).
Definition event_types : list string := ["startEvent"; "endEvent"].

(** Every connection has an id of its own; every node has a type and its two lists. *)
Record orderly (d : diagram) : Prop := {
  or_graph : gwf (dgraph d);
  or_lists : listed d;
  or_ids : forall e, In e (gedges (dgraph d)) -> exists f, dget "id" (eat e) = Some (VStr f);
  or_distinct : forall e e' f, In e (gedges (dgraph d)) -> In e' (gedges (dgraph d)) ->
    dget "id" (eat e) = Some (VStr f) -> dget "id" (eat e') = Some (VStr f) -> e = e' }.

(** The same nodes with the same types, names and lists of flows, the same default flows, the
    same kind of events, and the same targets and names of flows.  The order in which nodes
    and connections are kept, ids of processes, places and all other attributes may differ. *)
Record same_sheet (d d' : diagram) : Prop := {
  ss_nodes : forall n, is_node d' n <-> is_node d n;
  ss_attrs : forall n k, In k ["type"; "node_name"; "incoming"; "outgoing"] -> attr d' n k = attr d n k;
  ss_default : forall n t f, attr d n "type" = Some (VStr t) -> ~ In t ("parallelGateway" :: event_types) ->
    (attr d' n "default" = Some (VStr f) <-> attr d n "default" = Some (VStr f));
  ss_events : forall n t, attr d n "type" = Some (VStr t) -> In t event_types ->
    exists l l', defined_by d n l /\ defined_by d' n l' /\ map snd (firstn 1 l') = map snd (firstn 1 l);
  ss_flows : forall f t x, labelled d' f t x <-> labelled d f t x }.
(** The definitions of start and end events are kept as the library keeps them. *)
Definition with_events (d : diagram) : Prop := forall n t, attr d n "type" = Some (VStr t) -> In t event_types ->
  exists l, defined_by d n l.
(** Start and end events have one definition or none. *)
Definition plain_events (d : diagram) : Prop := forall n t, attr d n "type" = Some (VStr t) -> In t event_types ->
  exists l, defined_by d n l /\ length l <= 1.
(** A flow with a condition is named like the condition. *)
Definition named_by_condition (d : diagram) : Prop := forall e c text, In e (gedges (dgraph d)) ->
  dget "conditionExpression" (eat e) = Some (VCond c text) -> dget "name" (eat e) = Some (VStr text).
