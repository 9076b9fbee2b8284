(** What is asked of a diagram so that its file can be written again from what was loaded (C102, C103). *)
From Coq Require Import String List Bool Permutation.
From Verif Require Import Py Consts Nx Rep SpecRep Xml Export Import SpecXml SpecRound Prop_XmlLanes SpecOrder Prop_Order.
Import ListNotations.
Open Scope string_scope.
Open Scope list_scope.

(** Events have one definition or none. *)
Definition plain_definitions (d : diagram) : Prop := forall n, length (definitions_of d n) <= 1.
(** Lanes are not divided again, and nothing else is drawn under their ids. *)
Definition level_lanes (d : diagram) : Prop := forall p a s ls, In (p, a) (procs d) -> dget "laneSet" a = Some (VLaneSet s ls) ->
  NoDup (map fst ls) /\ (forall i l, In (i, l) ls -> drawn_alone d i l) /\
  (forall i l, In (i, l) ls -> exists name refs di, l = Lane name None refs di).
(** Pools do not have the ids of nodes. *)
Definition own_pools (d : diagram) : Prop := forall c p a, collaboration d = Some c -> In (p, a) (co_participants c) -> ~ is_node d p.

(** Both ends of every flow stand where the flow stands. *)
Definition scoped_flows (d : diagram) : Prop := forall e q, In e (gedges (dgraph d)) -> dget "process" (eat e) = Some (VStr q) ->
  attr d (eu e) "process" = Some (VStr q) /\ attr d (ev e) "process" = Some (VStr q).

(** A diagram with one process [p], no subprocess contents and no message flows. *)
Record simple (d : diagram) (p : string) : Prop := {
  si_storable : storable d;
  si_complete : complete d;
  si_silent : no_messages d;
  si_inside : all_in d p;
  si_definitions : plain_definitions d;
  si_lanes : level_lanes d;
  si_pools : own_pools d }.

(** Any number of processes and of subprocesses with contents; every node stands in a
    process or in a subprocess, and so do the sequence flows, between nodes of the same.
    Message flows may join any two nodes. *)
Record tidy (d : diagram) : Prop := {
  ti_storable : storable d;
  ti_complete : complete d;
  ti_nodes : forall n, is_node d n -> in_process d n;
  ti_flows : scoped_flows d;
  ti_definitions : plain_definitions d;
  ti_lanes : level_lanes d;
  ti_pools : own_pools d }.

(** Two files that differ only in the order in which the shapes and edges of the picture are
    written (and in the white space between them). *)
Definition elements (l : list dom) : list dom := filter (fun x => match x with DElem _ _ _ => true | _ => false end) l.
Inductive same_but_order : dom -> dom -> Prop :=
| redrawn_file : forall g a w dg da w1 pg pa ks ks' w2 rest, local_name dg = "BPMNDiagram" -> local_name pg = "BPMNPlane" ->
    Permutation (elements ks) (elements ks') ->
    same_but_order (DElem g a (w :: DElem dg da [w1; DElem pg pa ks; w2] :: rest))
                   (DElem g a (w :: DElem dg da [w1; DElem pg pa ks'; w2] :: rest)).

(** [d'] is what one gets from [d] by saving and loading [k] times. *)
Inductive saved_times (set_order : list string -> list string) (fuel : nat) : nat -> diagram -> diagram -> Prop :=
| saved_never : forall d, saved_times set_order fuel 0 d d
| saved_more : forall k d d1 d2, round_trip set_order fuel d d1 -> saved_times set_order fuel k d1 d2 ->
    saved_times set_order fuel (S k) d d2.
