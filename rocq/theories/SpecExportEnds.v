(** Specification vocabulary: which diagrams the CSV exporter can finish. *)
From Coq Require Import String List Arith.
From Verif Require Import Py Nx Rep SpecRep SpecLayout SpecCsvExport.
Import ListNotations.
Open Scope string_scope.
Open Scope list_scope.

Definition activity (d : diagram) (n : string) : Prop := typed d n "task" \/ typed d n "subProcess".
(** Neither a start event nor an end event. *)
Definition inner (d : diagram) (n : string) : Prop := ~ typed d n "startEvent" /\ ~ typed d n "endEvent".

(** Every flow the exporter asks for is there, and the letters suffice: start events and
    meeting points that are no activities lead on, no node has more than 26 branches. *)
Definition fit (d : diagram) : Prop :=
  (forall n, typed d n "startEvent" -> outgoing_of d n <> []) /\
  (forall n, is_node d n -> inner d n -> join_node d n -> ~ activity d n -> outgoing_of d n <> []) /\
  (forall n, is_node d n -> inner d n -> length (outgoing_of d n) <= 26).

(** The lines of the nodes from [n] to the meeting point [m], which is not included: a
    line for each start event and each activity, none for gateways and intermediate
    events.  A start event is left over its first flow. *)
Inductive way_lines (d : diagram) : nat -> string -> list (list string) -> string -> Prop :=
| way_stop : forall i m, way_lines d i m [] m
| way_start : forall i n f fs x l ls m, typed d n "startEvent" -> outgoing_of d n = f :: fs -> flow_goes d f n x ->
    chain_line d i n l -> way_lines d (S i) x ls m -> way_lines d i n (l :: ls) m
| way_line : forall i n f x l ls m, activity d n -> ~ join_node d n -> outgoing_of d n = [f] -> flow_goes d f n x ->
    chain_line d i n l -> way_lines d (S i) x ls m -> way_lines d i n (l :: ls) m
| way_skip : forall i n f x ls m, inner d n -> ~ activity d n -> ~ join_node d n -> outgoing_of d n = [f] -> flow_goes d f n x ->
    way_lines d (S i) x ls m -> way_lines d i n ls m.

(** The last branch of the split [g] starts with a node that is no meeting point and goes
    straight to [j]. *)
Definition last_branch (d : diagram) (g j : string) : Prop :=
  inner d g /\ ~ join_node d g /\ split_node d g /\
  exists fs f y, outgoing_of d g = fs ++ [f] /\ flow_goes d f g y /\ ~ join_node d y /\ straight_to d y j.
(** The exporter goes on at [x] behind the meeting point [j]: at [j] itself if it is an
    activity, otherwise where its first flow leads. *)
Definition meets (d : diagram) (j x : string) : Prop :=
  inner d j /\ join_node d j /\
  ((activity d j /\ x = j) \/
   (~ activity d j /\ exists f fs, outgoing_of d j = f :: fs /\ flow_goes d f j x)).
(** A way without splits and, except for [x], without meeting points. *)
Definition behind (d : diagram) (x g : string) : Prop :=
  straight_to d x g \/
  exists f y, outgoing_of d x = [f] /\ flow_goes d f x y /\ ~ typed d x "endEvent" /\ straight_to d y g.
(** From [n] a straight way leads to the split [g0]; its last branch ends at [j]; behind
    [j] a way without splits leads to the split [g], whose last branch leads back to [j]. *)
Definition closed_loop (d : diagram) (n g0 j x g : string) : Prop :=
  straight_to d n g0 /\ last_branch d g0 j /\ meets d j x /\ behind d x g /\ last_branch d g j.
