(** Specification vocabulary for exporting a process with blocks to CSV and loading the
    file: the nodes and flows of a structure, and the structure with the names the
    importer gives to its nodes.  Blocks are not nested here. *)
From Coq Require Import String Ascii List Bool Arith ZArith.
From Verif Require Import Py Nx Rep SpecRep SpecLayout SpecCsv SpecFlow SpecCsvExport SpecBlocks.
Import ListNotations.
Open Scope string_scope.
Open Scope list_scope.

(** * Nodes and flows of a structure *)
Definition stops (b : branch_t) : list string := match snd b with Some e => [e] | None => [] end.
Fixpoint part_nodes (p : part) : list string :=
  match p with
  | Act n => [n]
  | Block g j bs =>
      g :: j :: flat_map (fun b => flat_map part_nodes (fst b) ++ match snd b with Some e => [e] | None => [] end) bs
  end.
(** The flows along a sequence from [x] to [y], inside blocks too. *)
Fixpoint inner_flows (p : part) : list (string * string) :=
  match p with
  | Act _ => []
  | Block g j bs =>
      flat_map (fun b : list part * option string =>
        (fix path (x : string) (ps : list part) : list (string * string) :=
           match ps with
           | [] => [(x, match snd b with Some e => e | None => j end)]
           | q :: qs => (x, first_of q) :: inner_flows q ++ path (last_of q) qs
           end) g (fst b)) bs
  end.
Fixpoint path_flows (x : string) (ps : list part) (y : string) : list (string * string) :=
  match ps with
  | [] => [(x, y)]
  | q :: qs => (x, first_of q) :: inner_flows q ++ path_flows (last_of q) qs y
  end.
(** The activities of a part, and the end events inside it, in the order of the lines. *)
Fixpoint part_acts (p : part) : list string :=
  match p with
  | Act n => [n]
  | Block _ _ bs => flat_map (fun b => flat_map part_acts (fst b)) bs
  end.
Fixpoint part_ends (p : part) : list string :=
  match p with
  | Act _ => []
  | Block _ _ bs => flat_map (fun b => flat_map part_ends (fst b) ++ match snd b with Some e => [e] | None => [] end) bs
  end.

(** * Flat processes *)
Definition is_act (p : part) : Prop := exists n, p = Act n.
Definition is_block (p : part) : Prop := exists g j bs, p = Block g j bs.
(** The number of lines of a branch of activities. *)
Definition branch_rows (b : branch_t) : nat := length (fst b) + length (stops b).
(** A branch of activities with one to ten lines. *)
Definition flat_branch (b : branch_t) : Prop :=
  (forall p, In p (fst b) -> is_act p) /\ 1 <= branch_rows b <= 10.
(** At least two branches meet at the end of a block. *)
Definition two_meet (bs : list branch_t) : Prop :=
  exists i i' b b', i <> i' /\ nth_error bs i = Some b /\ nth_error bs i' = Some b' /\ snd b = None /\ snd b' = None.
Definition flat_part (p : part) : Prop :=
  match p with
  | Act _ => True
  | Block _ _ bs => two_meet bs /\ forall b, In b bs -> flat_branch b
  end.
(** No two blocks follow each other. *)
Definition flat (ps : list part) : Prop :=
  (forall p, In p ps -> flat_part p) /\
  (forall k p q, nth_error ps k = Some p -> nth_error ps (S k) = Some q -> is_block p -> is_act q).

(** * The names in the loaded diagram *)
Definition num (k : nat) : string := zstr (Z.of_nat k).
Definition row_label (k i m : nat) : string := (num k ++ branch_letter i ++ num m)%string.
(** Branch [i] of the block with number [k]. *)
Definition relabel_branch (k i : nat) (b : branch_t) : branch_t :=
  (map (fun m => Act (row_label k i m)) (seq 1 (length (fst b))),
   match snd b with Some _ => Some (row_label k i (S (length (fst b)))) | None => None end).
Fixpoint relabel_branches (k i : nat) (bs : list branch_t) : list branch_t :=
  match bs with [] => [] | b :: bs' => relabel_branch k i b :: relabel_branches k (S i) bs' end.
(** The gateways are named after the rows before and after the block. *)
Definition relabel_part (k : nat) (p : part) : part :=
  match p with
  | Act _ => Act (num k)
  | Block _ _ bs => Block (split_of (num (k - 1))) (join_of (num (S k))) (relabel_branches k 0 bs)
  end.
Fixpoint relabel (k : nat) (ps : list part) : list part :=
  match ps with [] => [] | p :: qs => relabel_part k p :: relabel (S k) qs end.

(** The texts of the nodes can be written and read as they are and are no jumps. *)
Definition readable (s : string) : Prop := verbatim s /\ ~ goto_text s.
