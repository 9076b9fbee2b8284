(** What can be counted in the rows of a table.
    [rows] is the table under its cleaned orders. *)
From Coq Require Import String List Bool Arith.
From Verif Require Import Py CsvImport SpecFlow SpecGoto.
Import ListNotations.
Open Scope string_scope.
Open Scope list_scope.

(** [l] lists the things with the property [P], each once. *)
Definition listing {A : Type} (P : A -> Prop) (l : list A) : Prop := NoDup l /\ forall x, In x l <-> P x.

(** The rows that are not goto rows: the start, the ends, and the steps. *)
Definition begins (rows : dict row) (o : string) : Prop :=
  exists r, In (o, r) rows /\ ~ goto_row r /\ o = "0".
Definition finishes (rows : dict row) (o : string) : Prop :=
  exists r, In (o, r) rows /\ ~ goto_row r /\ o <> "0" /\ r_terminated r = "yes".
Definition works (rows : dict row) (o : string) : Prop :=
  exists r, In (o, r) rows /\ ~ goto_row r /\ o <> "0" /\ r_terminated r <> "yes".

(** The gateways that are not left out. *)
Definition gateway_left (rows : dict row) (g : string) : Prop := gateway_of rows g /\ ~ passed rows g.

(** Rows that are not goto rows and do not end the process. *)
Definition leads_on (rows : dict row) (o : string) : Prop := onward rows o /\ ~ goto_order rows o.
(** Joins that are not left out. *)
Definition join_left (rows : dict row) (g : string) : Prop :=
  exists o m, merges rows o m /\ g = join_of m /\ ~ passed rows g.
(** Branches of the splits that are not left out. *)
Definition branch_left (rows : dict row) (p : string * string) : Prop :=
  splits rows (fst p) /\ ~ passed rows (split_of (fst p)) /\ branch rows (fst p) (snd p).
(** Rows that go into a gateway that is not left out. *)
Definition enters (rows : dict row) (o : string) : Prop :=
  ~ goto_order rows o /\
  ((splits rows o /\ ~ passed rows (split_of o)) \/ exists m, merges rows o m /\ ~ passed rows (join_of m)).
