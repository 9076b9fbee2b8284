(** Specification vocabulary: two diagrams with the same plan, the same picture. *)
From Coq Require Import String List Bool.
From Verif Require Import Py Nx Rep SpecRep SpecLayout SpecBlocks SpecFlat SpecPlan SpecSame.
Import ListNotations.
Open Scope string_scope.
Open Scope list_scope.

(** The nodes of this type, in the order of the diagram. *)
Definition nodes_of (d : diagram) (t : string) : list string :=
  map fst (filter (fun n => match dget "type" (snd n) with Some (VStr s) => String.eqb s t | _ => false end)
                  (gnodes (dgraph d))).
(** The same nodes of each type in the same order, and the same pairs of nodes are
    connected.  The ids and the order of the flows, names, positions and everything
    else may differ. *)
Definition same_plan (d d' : diagram) : Prop :=
  (forall t, nodes_of d' t = nodes_of d t) /\ forall n m, goes d' n m <-> goes d n m.

(** The nodes stand at the same places, and flows that join the same nodes follow the same
    points. *)
Definition drawn_alike (d d' : diagram) : Prop :=
  (forall n x y, at_xy d' n x y <-> at_xy d n x y) /\
  (forall t t' s m, In t (get_flows d) -> In t' (get_flows d') ->
     dget "sourceRef" (snd t) = Some (VStr s) -> dget "targetRef" (snd t) = Some (VStr m) ->
     dget "sourceRef" (snd t') = Some (VStr s) -> dget "targetRef" (snd t') = Some (VStr m) ->
     dget "waypoints" (snd t') = dget "waypoints" (snd t)).

(** * Calls of the API *)
(** The ids of the nodes of type [t] that the calls add, in order. *)
Definition called (l : list op) (t : string) : list string :=
  flat_map (fun o => match node_id_of o with Some n => if String.eqb (call_type o) t then [n] else [] | None => [] end) l.
(** One of the calls connects [s] with [t]. *)
Definition connected (l : list op) (s t : string) : Prop := exists p name u, In (OFlow p s t name u) l.
