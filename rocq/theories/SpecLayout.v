(** Specification vocabulary for the layouter. *)
From Coq Require Import String List Bool Arith ZArith.
From Verif Require Import Py Nx Rep SpecRep.
Import ListNotations.
Open Scope string_scope.
Open Scope list_scope.

(** The types a node must have to take part in the layout. *)
Definition laid_out (t : string) : Prop :=
  In t ["task"; "subProcess"; "complexGateway"; "eventBasedGateway"; "inclusiveGateway";
        "exclusiveGateway"; "parallelGateway"; "startEvent"; "intermediateCatchEvent";
        "endEvent"; "intermediateThrowEvent"].

(** Every node has a type and two lists of flow ids. *)
Definition listed (d : diagram) : Prop :=
  unique_ids d /\
  forall n, is_node d n -> (exists t, attr d n "type" = Some (VStr t)) /\
                           (exists l, attr d n "incoming" = Some (VList l)) /\
                           (exists l, attr d n "outgoing" = Some (VList l)).

Definition all_laid_out (d : diagram) : Prop :=
  forall n, is_node d n -> exists t, attr d n "type" = Some (VStr t) /\ laid_out t.

(** The flow with id [f] goes from [n] to [m]. *)
Definition flow_goes (d : diagram) (f n m : string) : Prop :=
  exists t, get_flow_by_id f d = Ok (Some t) /\
            dget "sourceRef" (snd t) = Some (VStr n) /\ dget "targetRef" (snd t) = Some (VStr m).

(** The lists at the nodes and the flows agree. *)
Definition coherent (d : diagram) : Prop :=
  listed d /\
  (forall n, is_node d n -> NoDup (incoming_of d n) /\ NoDup (outgoing_of d n)) /\
  (forall n f, In f (outgoing_of d n) -> exists m, flow_goes d f n m /\ In f (incoming_of d m)) /\
  (forall m f, In f (incoming_of d m) -> exists n, flow_goes d f n m /\ In f (outgoing_of d n)).

(** There is a flow [f] from [n] to [m] (recorded at both ends). *)
Definition flow (d : diagram) (f n m : string) : Prop :=
  In f (outgoing_of d n) /\ In f (incoming_of d m) /\ flow_goes d f n m.

(** Paths along flows and cycles. *)
Inductive path (d : diagram) : string -> list string -> string -> Prop :=
| path_one : forall f n m, flow d f n m -> path d n [n] m
| path_more : forall f n m l k, flow d f n m -> path d m l k -> path d n (n :: l) k.
(** [l] are the nodes of a cycle. *)
Definition cycle (d : diagram) (l : list string) : Prop := exists n, path d n l n.
Definition acyclic (d : diagram) : Prop := forall l, ~ cycle d l.

(** [n] is strictly before [m] in the list. *)
Definition before (l : list string) (n m : string) : Prop :=
  exists i j, i < j /\ nth_error l i = Some n /\ nth_error l j = Some m.

(** A node with at least two incoming flows. *)
Definition join_node (d : diagram) (n : string) : Prop := 2 <= length (incoming_of d n).
Definition split_node (d : diagram) (n : string) : Prop := 2 <= length (outgoing_of d n).

(** What drawing may change: x and y of nodes and the waypoints of flows. *)
Definition only_drawing (d d' : diagram) : Prop :=
  map fst (gnodes (dgraph d')) = map fst (gnodes (dgraph d)) /\
  (forall n k, k <> "x" -> k <> "y" -> attr d' n k = attr d n k) /\
  Forall2 (fun t t' => fst t' = fst t /\ forall k, k <> "waypoints" -> dget k (snd t') = dget k (snd t))
          (get_flows d) (get_flows d') /\
  same_rest d d'.

(** The position of a node. *)
Definition at_xy (d : diagram) (n : string) (x y : Z) : Prop :=
  attr d n "x" = Some (VStr (zstr x)) /\ attr d n "y" = Some (VStr (zstr y)).

(** The boxes have size 100 x 100; the point is on the border of the box at (x, y) or
    inside. *)
Definition on_box (x y px py : Z) : Prop := (x <= px <= x + 100 /\ y <= py <= y + 100)%Z.

(** Consecutive points differ in one coordinate only. *)
Fixpoint axis_parallel (l : list (Z * Z)) : Prop :=
  match l with
  | p :: ((q :: _) as rest) => (fst p = fst q \/ snd p = snd q) /\ axis_parallel rest
  | _ => True
  end.

(** Every flow names two existing nodes. *)
Definition drawable (d : diagram) : Prop :=
  forall t, In t (get_flows d) -> exists s m, dget "sourceRef" (snd t) = Some (VStr s) /\
    dget "targetRef" (snd t) = Some (VStr m) /\ is_node d s /\ is_node d m.

(** The nodes [ns], one after the other, are the whole diagram. *)
Definition linear (d : diagram) (ns : list string) : Prop :=
  NoDup ns /\ (forall n, is_node d n <-> In n ns) /\
  (forall n, length (incoming_of d n) <= 1 /\ length (outgoing_of d n) <= 1) /\
  (forall n m, (exists f, flow d f n m) <-> exists a b, ns = a ++ n :: m :: b).

(** The labels a node must get. *)
Definition right_labels (d : diagram) (n : string) (l : list string) : Prop :=
  NoDup l /\
  forall x, In x l <->
    x = "Element" \/
    (x = "Start Event" /\ attr d n "type" = Some (VStr "startEvent")) \/
    (x = "End Event" /\ attr d n "type" = Some (VStr "endEvent")) \/
    (x = "Join" /\ join_node d n) \/ (x = "Split" /\ split_node d n).
