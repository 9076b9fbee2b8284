(** Specification vocabulary: a file taken through the importer and the exporter again and again. *)
From Coq Require Import String List.
From Verif Require Import Py Nx Rep CsvImport CsvExport SpecCsvExport SpecBlocks SpecAgain.

(** The file is read, loaded into an empty diagram and the diagram exported. *)
Definition trip (fuel : nat) (text text' : string) : Prop :=
  exists table d', reads text table /\ load_diagram_from_csv table empty_diagram = (d', Ok tt) /\
    export_process_to_csv fuel d' None = (Some text', Ok tt).
Inductive trips (fuel : nat) : nat -> string -> string -> Prop :=
| trips_none : forall t, trips fuel 0 t t
| trips_more : forall n t t' t'', trip fuel t t' -> trips fuel n t' t'' -> trips fuel (S n) t t''.

(** The condition written for a branch: the default branch is marked unless it is the direct flow. *)
Definition written_mark (d : diagram) (g f : string) (b : branch_t) : string :=
  if is_direct b then condition_text d g f else branch_mark d g f.
