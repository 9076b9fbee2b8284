(** Specification vocabulary for the metrics of block-structured processes: numbers computed by
    recursion over the structure of the process, with nested blocks, branches that stop in an end
    event and direct flows. *)
From Coq Require Import String List Bool Arith ZArith.
From Verif Require Import Py Nx Rep SpecRep SpecLayout SpecBlocks SpecFlat SpecPlan.
Import ListNotations.
Open Scope string_scope.
Open Scope list_scope.
Open Scope nat_scope.

Definition meets (b : branch_t) : bool := match snd b with None => true | Some _ => false end.
(** The number of branches that meet at the end of the block. *)
Definition meeting (bs : list branch_t) : nat := length (filter meets bs).
(** The branch is a direct flow to the end of the block. *)
Definition bare (b : branch_t) : bool := meets b && match fst b with [] => true | _ => false end.

(** In every block some branch goes on, and at most one branch is a direct flow. *)
Inductive sound : part -> Prop :=
| sound_act : forall n, sound (Act n)
| sound_block : forall g j bs, 1 <= meeting bs -> length (filter bare bs) <= 1 ->
    (forall b p, In b bs -> In p (fst b) -> sound p) -> sound (Block g j bs).

(** * Counts *)
(** The blocks in a part, inner ones included. *)
Fixpoint blocks (p : part) : nat :=
  match p with
  | Act _ => 0
  | Block _ _ bs => 1 + list_sum (map (fun b => list_sum (map blocks (fst b))) bs)
  end.
(** Each block adds as many flows as it has branches that meet, minus one. *)
Fixpoint extra (p : part) : nat :=
  match p with
  | Act _ => 0
  | Block _ _ bs => (meeting bs - 1) + list_sum (map (fun b => list_sum (map extra (fst b))) bs)
  end.
(** The flow ends at the two gateways of each block: one flow comes in, one goes on, and the
    branches leave the one and meet in the other. *)
Fixpoint gate_ends (p : part) : nat :=
  match p with
  | Act _ => 0
  | Block _ _ bs => (2 + length bs + meeting bs) + list_sum (map (fun b => list_sum (map gate_ends (fst b))) bs)
  end.

(** * Ways through the process *)
Section Reach.
(** What an activity, a gateway and an end event count. *)
Variables act gate stop : nat.
(** The most that can be collected from the first node of the part on, if [rest] can be collected
    after it: at a block one of the branches is taken. *)
Fixpoint reach (p : part) (rest : nat) : nat :=
  match p with
  | Act _ => act + rest
  | Block _ _ bs =>
      gate + list_max (map (fun b => fold_right (fun q r => reach q r)
        (match snd b with Some _ => stop | None => gate + rest end) (fst b)) bs)
  end.
Definition reach_all (ps : list part) (rest : nat) : nat := fold_right reach rest ps.
End Reach.
(** The number of nodes on a longest way, and the largest number of activities on a way. *)
Definition longest_way (ps : list part) : nat := 1 + reach_all 1 1 1 ps 1.
Definition most_steps (ps : list part) : nat := reach_all 1 0 0 ps 0.

(** * Kinds of the nodes *)
Fixpoint part_gates (p : part) : list string :=
  match p with
  | Act _ => []
  | Block g j bs => g :: j :: flat_map (fun b => flat_map part_gates (fst b)) bs
  end.
(** The nodes have the types that fit the structure. *)
Definition kinds_fit (d : diagram) (s : string) (ps : list part) (e : string) : Prop :=
  attr d s "type" = Some (VStr "startEvent") /\
  (forall n, In n (e :: flat_map part_ends ps) -> attr d n "type" = Some (VStr "endEvent")) /\
  (forall n, In n (flat_map part_acts ps) -> attr d n "type" = Some (VStr "task") \/ attr d n "type" = Some (VStr "subProcess")) /\
  (forall n, In n (flat_map part_gates ps) -> exists t, attr d n "type" = Some (VStr t) /\ In t gateway_types).
(** The diagram, made with the API, has exactly the nodes and the flows of the process. *)
Definition made_of (d : diagram) (s : string) (ps : list part) (e : string) : Prop :=
  NoDup (all_nodes s ps e) /\ (forall p, In p ps -> sound p) /\
  (forall n, is_node d n <-> In n (all_nodes s ps e)) /\
  (forall x y, (exists f r, dget f (seq_flows d) = Some r /\ fl_src r = x /\ fl_tgt r = y) <-> In (x, y) (path_flows s ps e)).
