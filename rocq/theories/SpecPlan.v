(** Specification vocabulary for the layout of processes with blocks: a plan of rows and
    columns, and the picture of a process whose blocks are not nested. *)
From Coq Require Import String List Bool Arith ZArith Permutation.
From Verif Require Import Py Nx Rep SpecRep SpecLayout SpecBlocks SpecFlat.
Import ListNotations.
Open Scope string_scope.
Open Scope list_scope.

Definition goes (d : diagram) (x y : string) : Prop := exists f, flow d f x y.
(** No two flows join the same two nodes in the same direction. *)
Definition single_flows (d : diagram) : Prop := forall f g x y, flow d f x y -> flow d g x y -> f = g.
(** [l] lists what satisfies [P]. *)
Definition lists (P : string -> Prop) (l : list string) : Prop := NoDup l /\ forall x, In x l <-> P x.

(** The node [n] is drawn in this row and column. *)
Definition in_cell (d : diagram) (n : string) (row col : Z) : Prop := at_xy d n (150 * col + 50) (100 * row + 50).

(** * Processes whose blocks are not nested *)
(** A branch is a sequence of one or more activities that leads to the end of the block. *)
Definition plain_branch (b : branch_t) : Prop := (forall p, In p (fst b) -> is_act p) /\ fst b <> [] /\ snd b = None.
Definition plain_part (p : part) : Prop :=
  match p with
  | Act _ => True
  | Block _ _ bs => 2 <= length bs /\ forall b, In b bs -> plain_branch b
  end.
Definition all_nodes (s : string) (ps : list part) (e : string) : list string := s :: flat_map part_nodes ps ++ [e].
(** The diagram consists of these nodes and flows. *)
Definition consists (d : diagram) (s : string) (ps : list part) (e : string) : Prop :=
  NoDup (all_nodes s ps e) /\ (forall n, is_node d n <-> In n (all_nodes s ps e)) /\
  (forall x y, goes d x y <-> In (x, y) (path_flows s ps e)) /\ single_flows d.

(** The rows of [k] branches of a block that stands in row 2: one for each, two apart and
    evenly above and below; the row of the block itself is used if [k] is odd. *)
Definition fan (k : nat) : list Z :=
  (map (fun i => 2 + 2 * (Z.of_nat i + 1)) (seq 0 (k / 2)) ++ (if Nat.odd k then [2] else []) ++
   map (fun i => 2 - 2 * (Z.of_nat i + 1)) (seq 0 (k / 2)))%Z.
(** The length of the longest branch. *)
Definition longest (bs : list branch_t) : Z := Z.of_nat (list_max (map (fun b => length (fst b)) bs)).
(** Activities side by side from this column on. *)
Fixpoint in_line (d : diagram) (row col : Z) (ps : list part) : Prop :=
  match ps with
  | [] => True
  | p :: qs => in_cell d (first_of p) row col /\ in_line d row (col + 1) qs
  end.
(** The picture from this column on: everything in row 2 except the activities of the
    branches; a block is as wide as its longest branch. *)
Fixpoint picture (d : diagram) (col : Z) (ps : list part) (e : string) : Prop :=
  match ps with
  | [] => in_cell d e 2 col
  | Act n :: qs => in_cell d n 2 col /\ picture d (col + 1) qs e
  | Block g j bs :: qs =>
      in_cell d g 2 col /\ in_cell d j 2 (col + longest bs + 1) /\
      (exists rows, Permutation rows (fan (length bs)) /\
                    Forall2 (fun b r => in_line d r (col + 1) (fst b)) bs rows) /\
      picture d (col + longest bs + 2) qs e
  end.
