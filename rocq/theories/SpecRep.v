(** Specification vocabulary for the diagram API: how a client observes a diagram,
    independent of how the model's operations are written. *)
From Coq Require Import String List Bool.
From Verif Require Import Py Nx Rep.
Import ListNotations.
Open Scope string_scope.
Open Scope list_scope.

Definition node_of (d : diagram) (n : string) : option attrs := dget n (gnodes (dgraph d)).
Definition is_node (d : diagram) (n : string) : Prop := In n (map fst (gnodes (dgraph d))).

(** Attribute [k] of node [n]. *)
Definition attr (d : diagram) (n k : string) : option pyval :=
  match node_of d n with Some a => dget k a | None => None end.

(** The same unordered pair. *)
Definition same_pair (a b c e : string) : Prop := (a = c /\ b = e) \/ (a = e /\ b = c).

(** Attribute [k] of the connection between [u] and [v], whatever its orientation. *)
Definition link_attr (d : diagram) (u v k : string) (x : pyval) : Prop :=
  exists e, In e (gedges (dgraph d)) /\ same_pair (eu e) (ev e) u v /\ dget k (eat e) = Some x.
Definition linked (d : diagram) (u v : string) : Prop :=
  exists e, In e (gedges (dgraph d)) /\ same_pair (eu e) (ev e) u v.

Definition outgoing_of (d : diagram) (n : string) : list string :=
  match attr d n "outgoing" with Some (VList l) => l | _ => [] end.
Definition incoming_of (d : diagram) (n : string) : list string :=
  match attr d n "incoming" with Some (VList l) => l | _ => [] end.

(** Everything but the graph is the same. *)
Definition same_rest (d d' : diagram) : Prop :=
  seq_flows d' = seq_flows d /\ procs d' = procs d /\ diag_attrs d' = diag_attrs d /\
  plane_attrs d' = plane_attrs d /\ collaboration d' = collaboration d.

(** * What adding a node must produce: id and attributes *)
Definition given (nid : option string) (u : string) : string :=
  match nid with Some i => i | None => ("id" ++ u)%string end.

Definition tf (b : bool) : pyval := VStr (if b then "true" else "false").

Definition common (id ty name pid : string) : list (string * pyval) :=
  [("id", VStr id); ("type", VStr ty); ("node_name", VStr name);
   ("incoming", VList []); ("outgoing", VList []); ("process", VStr pid);
   ("width", VStr "100"); ("height", VStr "100"); ("x", VStr "100"); ("y", VStr "100")].

Definition start_kinds : list (string * string) :=
  [("message", "messageEventDefinition"); ("timer", "timerEventDefinition");
   ("conditional", "conditionalEventDefinition"); ("signal", "signalEventDefinition");
   ("escalation", "escalationEventDefinition")].
Definition end_kinds : list (string * string) :=
  [("terminate", "terminateEventDefinition"); ("signal", "signalEventDefinition");
   ("error", "errorEventDefinition"); ("escalation", "escalationEventDefinition");
   ("message", "messageEventDefinition"); ("compensate", "compensateEventDefinition")].

(** The definitions an event must carry. *)
Definition definitions_for (kinds : list (string * string)) (def : option string) (u : string)
  : list (string * string) :=
  match def with
  | None => []
  | Some s => match find (fun p => String.eqb (fst p) s) kinds with
              | Some p => [(("id" ++ u)%string, snd p)]
              | None => []
              end
  end.

Definition directions : list string := ["Unspecified"; "Converging"; "Diverging"; "Mixed"].

(** [Some (id, attributes)] for calls that add a node and are accepted. *)
Definition expected_node (o : op) : option (string * list (string * pyval)) :=
  match o with
  | OTask p n i u => Some (given i u, common (given i u) "task" n p)
  | OSubprocess p n e t i u =>
      Some (given i u, common (given i u) "subProcess" n p
                       ++ [("isExpanded", tf e); ("triggeredByEvent", tf t)])
  | OStart p n df pm ii i u1 u2 =>
      Some (given i u1, common (given i u1) "startEvent" n p
                        ++ [("parallelMultiple", tf pm); ("isInterrupting", tf ii);
                            ("event_definitions", VDefs (definitions_for start_kinds df u2))])
  | OEnd p n df i u1 u2 =>
      Some (given i u1, common (given i u1) "endEvent" n p
                        ++ [("event_definitions", VDefs (definitions_for end_kinds df u2))])
  | OExclusive p n dir df i u =>
      if in_dec string_dec dir directions
      then Some (given i u, common (given i u) "exclusiveGateway" n p
              ++ [("gatewayDirection", VStr dir);
                  ("default", match df with Some x => VStr x | None => VNone end)])
      else None
  | OInclusive p n dir df i u =>
      if in_dec string_dec dir directions
      then Some (given i u, common (given i u) "inclusiveGateway" n p
              ++ [("gatewayDirection", VStr dir);
                  ("default", match df with Some x => VStr x | None => VNone end)])
      else None
  | OParallel p n dir i u =>
      if in_dec string_dec dir directions
      then Some (given i u, common (given i u) "parallelGateway" n p ++ [("gatewayDirection", VStr dir)])
      else None
  | _ => None
  end.

(** The id a call uses for its node, if it adds one at all, and the gateway
    direction it is given. *)
Definition node_id_of (o : op) : option string :=
  match o with
  | OTask _ _ i u => Some (given i u)
  | OSubprocess _ _ _ _ i u => Some (given i u)
  | OStart _ _ _ _ _ i u1 _ => Some (given i u1)
  | OEnd _ _ _ i u1 _ => Some (given i u1)
  | OExclusive _ _ _ _ i u => Some (given i u)
  | OInclusive _ _ _ _ i u => Some (given i u)
  | OParallel _ _ _ i u => Some (given i u)
  | _ => None
  end.
Definition direction_of (o : op) : option string :=
  match o with
  | OExclusive _ _ dir _ _ _ => Some dir
  | OInclusive _ _ dir _ _ _ => Some dir
  | OParallel _ _ dir _ _ => Some dir
  | _ => None
  end.

(** * Histories *)
(** A call is admissible when node ids are new, flow ids are new and flow ends
    exist.  Generated ids are new by the uniqueness of uuid4. *)
Definition admissible (d : diagram) (o : op) : Prop :=
  match o with
  | OFlow _ s t _ u => is_node d s /\ is_node d t /\ dget ("id" ++ u) (seq_flows d) = None
  | _ => match node_id_of o with Some i => ~ is_node d i | None => True end
  end.

Inductive history : list op -> diagram -> Prop :=
| h_nil : history [] empty_diagram
| h_snoc : forall l d o, history l d -> admissible d o -> history (l ++ [o]) (fst (step o d)).

(** * Flow bookkeeping *)
Definition count (s : string) (l : list string) : nat := count_occ string_dec l s.

Definition bookkeeping (d : diagram) : Prop :=
  (forall f r, dget f (seq_flows d) = Some r ->
     is_node d (fl_src r) /\ is_node d (fl_tgt r) /\
     count f (outgoing_of d (fl_src r)) = 1 /\ count f (incoming_of d (fl_tgt r)) = 1) /\
  (forall n f, In f (outgoing_of d n) -> exists r, dget f (seq_flows d) = Some r /\ fl_src r = n) /\
  (forall n f, In f (incoming_of d n) -> exists r, dget f (seq_flows d) = Some r /\ fl_tgt r = n).

(** A recorded flow is live when no flow recorded later connects the same pair. *)
Definition live (d : diagram) (f : string) (r : flow_rec) : Prop :=
  exists pre post, seq_flows d = pre ++ (f, r) :: post /\
    forall f' r', In (f', r') post -> ~ same_pair (fl_src r') (fl_tgt r') (fl_src r) (fl_tgt r).

(** No two recorded flows connect the same unordered pair. *)
Definition distinct_pairs (d : diagram) : Prop :=
  forall f1 r1 f2 r2, dget f1 (seq_flows d) = Some r1 -> dget f2 (seq_flows d) = Some r2 ->
    same_pair (fl_src r1) (fl_tgt r1) (fl_src r2) (fl_tgt r2) -> f1 = f2.

(** A reported flow [(a, b, attributes)] shows a stored connection, possibly with
    its ends swapped. *)
Definition shows (t : string * string * attrs) (e : edge) : Prop :=
  snd t = eat e /\ same_pair (fst (fst t)) (snd (fst t)) (eu e) (ev e).

(** Every node carries a string type. *)
Definition typed (d : diagram) : Prop :=
  forall n, is_node d n -> exists ty, attr d n "type" = Some (VStr ty).

(** No two entries of the node list share an id (guaranteed by networkx). *)
Definition unique_ids (d : diagram) : Prop := NoDup (map fst (gnodes (dgraph d))).

(** The numeric value of attribute [k] of a node, for a given meaning of float(). *)
Definition num_attr {F} (pyfloat : string -> option F) (d : diagram) (n k : string) : option F :=
  match attr d n k with Some (VStr s) => pyfloat s | _ => None end.
