(** Specification vocabulary for the layout of processes whose decisions may have a direct flow
    to the node where their branches meet ("if" without "else"). *)
From Coq Require Import String List Bool Arith ZArith Permutation.
From Verif Require Import Py Nx Rep SpecRep SpecLayout SpecBlocks SpecFlat SpecPlan.
Import ListNotations.
Open Scope string_scope.
Open Scope list_scope.

(** One branch has no activity, it is a direct flow; each of the others has exactly one. *)
Definition skippable (bs : list branch_t) : Prop :=
  exists l r, bs = l ++ ([], None) :: r /\ forall b, In b (l ++ r) -> exists n, b = ([Act n], None).
(** A part is an activity, a block whose branches all have activities, or one with a direct flow
    beside branches of one activity each. *)
Definition loose_part (p : part) : Prop :=
  match p with
  | Act _ => True
  | Block _ _ bs => 2 <= length bs /\ ((forall b, In b bs -> plain_branch b) \/ skippable bs)
  end.
Definition has_steps (b : branch_t) : bool := match fst b with [] => false | _ => true end.
(** Some branch is a direct flow. *)
Definition direct (bs : list branch_t) : bool := existsb (fun b => negb (has_steps b)) bs.

(** The row where the [k] branches of a block in this row meet if one of them is a direct flow:
    the lowest of the rows of the branches belongs to the node where they meet; if that is row
    0, they meet at the average of the rows before instead. *)
Definition meet_row (row : Z) (k : nat) : Z :=
  let r := (row - 2 * Z.of_nat (k / 2))%Z in
  if Z.eqb r 0 then (if Nat.odd k then row else row + 1)%Z else r.
(** The row in which the process goes on after a block in this row. *)
Definition row_after (row : Z) (bs : list branch_t) : Z := if direct bs then meet_row row (length bs) else row.
(** The rows of the activities of a block in this row. *)
Definition rows_of (row : Z) (bs : list branch_t) : list Z :=
  map (fun r => row + (r - 2))%Z (if direct bs then removelast (fan (length bs)) else fan (length bs)).

Section Picture.
(** [at_ n r c]: the node [n] is in row [r] and column [c]. *)
Variable at_ : string -> Z -> Z -> Prop.
Fixpoint line_at (row col : Z) (ps : list part) : Prop :=
  match ps with
  | [] => True
  | p :: qs => at_ (first_of p) row col /\ line_at row (col + 1) qs
  end.
(** The picture from this row and column on. *)
Fixpoint picture_at (row col : Z) (ps : list part) (e : string) : Prop :=
  match ps with
  | [] => at_ e row col
  | Act n :: qs => at_ n row col /\ picture_at row (col + 1) qs e
  | Block g j bs :: qs =>
      at_ g row col /\ at_ j (row_after row bs) (col + longest bs + 1) /\
      (exists rows, Permutation rows (rows_of row bs) /\
                    Forall2 (fun b r => line_at r (col + 1) (fst b)) (filter has_steps bs) rows) /\
      picture_at (row_after row bs) (col + longest bs + 2) qs e
  end.
End Picture.

(** The part is a decision between one activity and a direct flow: an optional step. *)
Definition optional (p : part) : bool :=
  match p with Act _ => false | Block _ _ bs => direct bs && Nat.eqb (length bs) 2 end.
