(** Specification vocabulary for the layout metrics. *)
From Coq Require Import String List Bool Arith QArith.
From Verif Require Import Py Nx Rep SpecRep LayoutMetrics.
Import ListNotations.
Open Scope string_scope.
Open Scope list_scope.

(** * Geometry *)
(** [p] is a point of the closed segment [s]. *)
Definition on_segment (s : segment) (p : point) : Prop :=
  exists t : Q, (0 <= t /\ t <= 1 /\
    px p == (1 - t) * px (ssrc s) + t * px (stgt s) /\
    py p == (1 - t) * py (ssrc s) + t * py (stgt s))%Q.

(** Two segments have a common point. *)
Definition meet (s1 s2 : segment) : Prop := exists p, on_segment s1 p /\ on_segment s2 p.

Definition same_point (p q : point) : Prop := (px p == px q /\ py p == py q)%Q.
Definition share_end (s1 s2 : segment) : Prop :=
  same_point (ssrc s1) (ssrc s2) \/ same_point (ssrc s1) (stgt s2) \/
  same_point (stgt s1) (ssrc s2) \/ same_point (stgt s1) (stgt s2).

(** Segments number [i] and [j] cross. *)
Definition cross (s1 s2 : segment) : Prop := ~ share_end s1 s2 /\ meet s1 s2.
Definition crossing_pair (segs : list segment) (i j : nat) : Prop :=
  (i < j)%nat /\ exists s1 s2, nth_error segs i = Some s1 /\ nth_error segs j = Some s2 /\ cross s1 s2.

(** [k] unordered pairs of segments cross. *)
Definition crossings (segs : list segment) (k : nat) : Prop :=
  exists l, NoDup l /\ length l = k /\ forall i j, In (i, j) l <-> crossing_pair segs i j.

(** The polyline through the given points. *)
Fixpoint polyline (w : list point) : list segment :=
  match w with
  | p :: ((q :: _) as rest) => mkSeg p q :: polyline rest
  | _ => []
  end.

(** The flow has the waypoints [w], with numeric coordinates [ps]. *)
Definition drawn (pyfloat : string -> option Q) (f : string * string * attrs) (ps : list point) : Prop :=
  exists w, dget "waypoints" (snd f) = Some (VPoints w) /\
    Forall2 (fun c p => pyfloat (fst c) = Some (px p) /\ pyfloat (snd c) = Some (py p)) w ps.

(** * Paths *)
(** The flow with id [f] leads to [m]. *)
Definition leads_to (d : diagram) (f m : string) : Prop :=
  exists t, get_flow_by_id f d = Ok (Some t) /\ dget "targetRef" (snd t) = Some (VStr m).

(** There is a flow from [n] to [m]. *)
Definition next (d : diagram) (n m : string) : Prop :=
  exists f, In f (outgoing_of d n) /\ leads_to d f m.

(** Every node has its two lists and a type, every outgoing flow can be looked up
    and leads to a node. *)
Definition consistent (d : diagram) : Prop :=
  unique_ids d /\
  (forall n, is_node d n -> (exists l, attr d n "incoming" = Some (VList l)) /\
                            (exists l, attr d n "outgoing" = Some (VList l)) /\
                            (exists t, attr d n "type" = Some (VStr t))) /\
  (forall n f, In f (outgoing_of d n) -> exists m, leads_to d f m /\ is_node d m).

Fixpoint walk (d : diagram) (n : string) (l : list string) : Prop :=
  match l with
  | [] => True
  | m :: t => next d n m /\ walk d m t
  end.

(** [l] is a path along flows that starts in a node without incoming flows and
    visits no node twice. *)
Definition source_path (d : diagram) (l : list string) : Prop :=
  match l with
  | [] => False
  | n :: t => is_node d n /\ incoming_of d n = [] /\ walk d n t /\ NoDup l
  end.

(** ... and ends in a node without outgoing flows. *)
Definition full_path (d : diagram) (l : list string) : Prop :=
  source_path d l /\ exists p n, l = p ++ [n] /\ outgoing_of d n = [].

Definition no_self_loops (d : diagram) : Prop := forall n, ~ next d n n.

(** Activities. *)
Definition activity (d : diagram) (n : string) : bool :=
  match attr d n "type" with
  | Some (VStr t) => String.eqb t "task" || String.eqb t "subProcess"
  | _ => false
  end.
