(** Specification vocabulary for processes whose branches may meet at an activity: as in SpecBlocks, but the meeting point of a block is a
    gateway or the activity that comes after the block. *)
From Coq Require Import String List ZArith Arith.
From Verif Require Import Py Nx Rep SpecRep SpecLayout SpecCsv SpecCsvExport SpecBlocks.
Import ListNotations.
Open Scope string_scope.
Open Scope list_scope.

(** Behind the meeting point: the node after the gateway, or the activity itself. *)
Definition goes_on (d : diagram) (j z : string) : Prop :=
  (gateway_node d j /\ only_to d j z) \/ (activity_node d j /\ z = j).
Fixpoint route (d : diagram) (x : string) (ps : list part) (y : string) : Prop :=
  match ps with
  | [] => x = y
  | Act n :: qs => x = n /\ exists z, only_to d n z /\ route d z qs y
  | Block g j _ :: qs => x = g /\ exists z, goes_on d j z /\ route d z qs y
  end.
(** The flow [f] opens the branch [b] of the block from [g] to [j]. *)
Definition opens_route (d : diagram) (g j f : string) (b : branch_t) : Prop :=
  (exists x, is_node d x /\ flow_goes d f g x /\ route d x (fst b) (arrives j b)) /\
  (snd b = None -> calm_end (fst b)) /\
  (forall e, snd b = Some e -> end_node d e /\ ~ join_node d e).
Definition forks (d : diagram) (g j : string) (bs : list branch_t) : Prop :=
  gateway_node d g /\ ~ join_node d g /\ split_node d g /\ length bs <= 26 /\ join_node d j /\
  Forall2 (opens_route d g j) (outgoing_of d g) bs /\
  (exists b, In b bs /\ snd b = None /\ fst b <> []).
(** The parts of a sequence. *)
Inductive loosely (d : diagram) : list part -> Prop :=
| lo_none : loosely d []
| lo_act : forall n qs, activity_node d n -> ~ join_node d n -> loosely d qs -> loosely d (Act n :: qs)
| lo_block : forall g j bs qs, forks d g j bs -> gateway_node d j -> (forall b, In b bs -> loosely d (fst b)) -> loosely d qs ->
    loosely d (Block g j bs :: qs)
| lo_meet : forall g n bs qs, forks d g n bs -> activity_node d n -> (forall b, In b bs -> loosely d (fst b)) -> loosely d qs ->
    loosely d (Block g n bs :: Act n :: qs).
(** The whole process. *)
Definition loose_process (d : diagram) (s : string) (ps : list part) (e : string) : Prop :=
  coherent d /\ well_named d /\ labelled d /\
  (forall n, entry_node d n <-> n = s) /\ typed d s "startEvent" /\
  (exists x, only_to d s x /\ route d x ps e) /\ end_node d e /\ loosely d ps.

(** * Processes that end with a decision: every branch of the last gateway goes to an end event, and branches may share one. *)
Definition opens_end (d : diagram) (g f : string) (b : branch_t) : Prop :=
  exists x e, is_node d x /\ flow_goes d f g x /\ snd b = Some e /\ end_node d e /\ route d x (fst b) e.
Definition fan_process (d : diagram) (s : string) (ps : list part) (g : string) (bs : list branch_t) : Prop :=
  coherent d /\ well_named d /\ labelled d /\
  (forall n, entry_node d n <-> n = s) /\ typed d s "startEvent" /\
  (exists x, only_to d s x /\ route d x ps g) /\ loosely d ps /\
  gateway_node d g /\ ~ join_node d g /\ split_node d g /\ length bs <= 26 /\
  Forall2 (opens_end d g) (outgoing_of d g) bs /\ (forall b, In b bs -> loosely d (fst b)).
(** The lines of a branch: one that goes straight to a shared end event is a jump to the number after the block. *)
Definition shared (d : diagram) (e : string) : bool := Nat.leb 2 (length (incoming_of d e)).
Definition fan_branch (d : diagram) (k : Z) (g : string) (i : nat) (f : string) (b : branch_t) : list (list string) :=
  let bp := (zstr k ++ branch_letter i)%string in
  match b with
  | ([], Some e) => if shared d e then [jump_line "" bp k (condition_text d g f)] else [end_line d bp 1 (branch_mark d g f) e]
  | (us, stop) => sequence_lines d bp 1 (branch_mark d g f) us stop
  end.
Fixpoint fan_branches (d : diagram) (k : Z) (g : string) (i : nat) (fs : list string) (bs : list branch_t) : list (list string) :=
  match fs, bs with f :: fs', b :: bs' => fan_branch d k g i f b ++ fan_branches d k g (S i) fs' bs' | _, _ => [] end.
Definition fan_lines (d : diagram) (s : string) (ps : list part) (g : string) (bs : list branch_t) : list (list string) :=
  start_line d s :: sequence_lines d "" 1 "" ps None ++ fan_branches d (Z.of_nat (S (length ps))) g 0 (outgoing_of d g) bs.
