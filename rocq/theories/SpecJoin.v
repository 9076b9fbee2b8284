(** The row whose branches meet in front of a row. *)
From Coq Require Import String List ZArith.
From Verif Require Import Py Nx Rep SpecRep CsvImport SpecCsv SpecFlow.
Import ListNotations.
Open Scope string_scope.
Open Scope list_scope.

(** [a] stands before [b] in the list. *)
Definition precedes (l : list string) (a b : string) : Prop := exists l1 l2, l = l1 ++ b :: l2 /\ In a l1.

(** Branches numbered [k] are opened by row [k - 1] and meet in front of row [k + 1].
    [s] opens the branches that meet in front of [m], and is listed before they are closed. *)
Definition opener (rows : dict row) (m s : string) : Prop :=
  s = zstr (value m - 2) /\ splits rows s /\ forall o, merges rows o m -> precedes (orders rows) s o.
