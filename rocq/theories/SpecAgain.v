(** Specification vocabulary: a process with optional steps after a trip through a CSV file, as a structure. *)
From Coq Require Import String List Bool Arith.
From Verif Require Import Py Nx Rep SpecRep SpecLayout SpecCsv SpecFlow SpecCsvExport SpecBlocks SpecFlat SpecOptional.
Import ListNotations.
Open Scope string_scope.
Open Scope list_scope.

Definition is_direct (b : branch_t) : bool := match b with ([], None) => true | _ => false end.
(** The direct flow comes last. *)
Definition direct_last (bs : list branch_t) : list branch_t := filter (fun b => negb (is_direct b)) bs ++ filter is_direct bs.
Definition move_direct (p : part) : part := match p with Act n => Act n | Block g j bs => Block g j (direct_last bs) end.
(** Beside a direct flow one branch with activities meets. *)
Definition single_steps (ps : list part) : Prop :=
  forall k g j bs, nth_error ps k = Some (Block g j bs) -> has_direct bs = true -> lone bs.
(** The parts of the loaded diagram: the activity after an optional step is where its branches meet. *)
Definition reload_part (k : nat) (p : part) : part :=
  match p with
  | Act _ => Act (num k)
  | Block _ _ bs => Block (split_of (num (k - 1))) (if has_direct bs then num (S k) else join_of (num (S k))) (direct_last (relabel_branches k 0 bs))
  end.
Fixpoint reloaded (k : nat) (ps : list part) : list part :=
  match ps with [] => [] | p :: qs => reload_part k p :: reloaded (S k) qs end.
(** Every direct flow is already the last branch of its block. *)
Definition direct_ends (ps : list part) : Prop :=
  forall k g j bs i b, nth_error ps k = Some (Block g j bs) -> nth_error bs i = Some b -> direct b -> S i = length bs.
