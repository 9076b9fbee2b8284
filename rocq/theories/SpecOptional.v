(** Specification vocabulary for processes with optional steps that go through a CSV file:
    blocks whose branches are activities, one of them possibly a direct flow from the gateway
    that splits to the gateway where the branches meet. *)
From Coq Require Import String Ascii List Bool Arith ZArith.
From Verif Require Import Py Nx Rep SpecRep SpecLayout SpecCsv SpecFlow SpecCsvExport SpecBlocks SpecFlat SpecPlan.
Import ListNotations.
Open Scope string_scope.
Open Scope list_scope.

Definition direct (b : branch_t) : Prop := b = ([], None).
(** The branch has activities and meets the others. *)
Definition meets (b : branch_t) : Prop := snd b = None /\ fst b <> [].
Definition optional_part (p : part) : Prop :=
  match p with
  | Act _ => True
  | Block _ _ bs => two_meet bs /\ (exists b, In b bs /\ meets b) /\
      (forall b, In b bs -> flat_branch b \/ direct b) /\
      (forall i i' b b', nth_error bs i = Some b -> nth_error bs i' = Some b' -> direct b -> direct b' -> i = i')
  end.
(** No two blocks follow each other. *)
Definition optional (ps : list part) : Prop :=
  (forall p, In p ps -> optional_part p) /\
  (forall k p q, nth_error ps k = Some p -> nth_error ps (S k) = Some q -> is_block p -> is_act q).

(** * The loaded diagram *)
(** Numbers that are the order of a line, blocks and branches; parts are counted from 0. *)
Definition line_no (ps : list part) (k : nat) : Prop :=
  k = 0 \/ k = S (length ps) \/ exists k' n, k = S k' /\ nth_error ps k' = Some (Act n).
Definition block_no (ps : list part) (k : nat) (bs : list branch_t) : Prop := exists g j, nth_error ps k = Some (Block g j bs).
Definition branch_no (ps : list part) (k i : nat) (b : branch_t) : Prop := exists bs, block_no ps k bs /\ nth_error bs i = Some b.
(** Only one branch with activities meets the direct flow. *)
Definition lone (bs : list branch_t) : Prop :=
  forall i i' b b', nth_error bs i = Some b -> nth_error bs i' = Some b' -> meets b -> meets b' -> i = i'.

(** The nodes: a gateway in front of the block, one behind it if two branches with activities meet. *)
Definition optional_node (ps : list part) (n : string) : Prop :=
  (exists k, line_no ps k /\ n = num k) \/
  (exists k i b m, branch_no ps k i b /\ m < branch_rows b /\ n = row_label (S k) i (S m)) \/
  (exists k bs, block_no ps k bs /\ n = split_of (num k)) \/
  (exists k bs, block_no ps k bs /\ ~ lone bs /\ n = join_of (num (S (S k)))).
(** The flows: the direct flow leads past the gateway to the line after the block. *)
Inductive optional_flow (ps : list part) : string -> string -> Prop :=
| op_next : forall k, k <= length ps -> line_no ps k -> line_no ps (S k) -> optional_flow ps (num k) (num (S k))
| op_split : forall k bs, block_no ps k bs -> optional_flow ps (num k) (split_of (num k))
| op_branch : forall k i b, branch_no ps k i b -> ~ direct b -> optional_flow ps (split_of (num k)) (row_label (S k) i 1)
| op_direct : forall k i b, branch_no ps k i b -> direct b -> optional_flow ps (split_of (num k)) (num (S (S k)))
| op_inner : forall k i b m, branch_no ps k i b -> S m < branch_rows b ->
    optional_flow ps (row_label (S k) i (S m)) (row_label (S k) i (S (S m)))
| op_meet : forall k i b bs, block_no ps k bs -> nth_error bs i = Some b -> meets b -> ~ lone bs ->
    optional_flow ps (row_label (S k) i (branch_rows b)) (join_of (num (S (S k))))
| op_join : forall k bs, block_no ps k bs -> ~ lone bs -> optional_flow ps (join_of (num (S (S k)))) (num (S (S k)))
| op_lone : forall k i b bs, block_no ps k bs -> nth_error bs i = Some b -> meets b -> lone bs ->
    optional_flow ps (row_label (S k) i (branch_rows b)) (num (S (S k))).

(** * The loaded diagram as a structure *)
Definition has_direct (bs : list branch_t) : bool := existsb (fun b : branch_t => match b with ([], None) => true | _ => false end) bs.
(** Blocks whose branches all have activities and meet, and optional steps: one activity beside a direct flow. *)
Definition step_part (p : part) : Prop :=
  match p with
  | Act _ => True
  | Block _ _ bs => (2 <= length bs /\ forall b, In b bs -> plain_branch b) \/
      exists a, bs = [([Act a], None); ([], None)] \/ bs = [([], None); ([Act a], None)]
  end.
(** Optional steps are followed by an activity. *)
Definition steps_followed (ps : list part) : Prop :=
  forall k g j bs, nth_error ps k = Some (Block g j bs) -> has_direct bs = true -> S k < length ps.
(** The activity after an optional step takes the place of the gateway where the branches met. *)
Fixpoint drawn (k : nat) (ps : list part) : list part :=
  match ps with
  | [] => []
  | Act _ :: qs => Act (num k) :: drawn (S k) qs
  | Block g j bs :: qs =>
      if has_direct bs then
        match qs with
        | Act _ :: rest => Block (split_of (num (k - 1))) (num (S k)) (relabel_branches k 0 bs) :: drawn (S (S k)) rest
        | _ => []
        end
      else Block (split_of (num (k - 1))) (join_of (num (S k))) (relabel_branches k 0 bs) :: drawn (S k) qs
  end.

(** * Gateways that do not come back *)
(** The branch has activities and meets the others. *)
Definition lasting (b : branch_t) : bool := match b with (_ :: _, None) => true | _ => false end.
(** At most one branch with activities meets: the gateway behind the block is lost. *)
Definition gone (p : part) : bool := match p with Act _ => false | Block _ _ bs => Nat.leb (length (filter lasting bs)) 1 end.
Definition lost (ps : list part) : nat := length (filter gone ps).
