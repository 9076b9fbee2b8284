(** What a table of rows says about the flows of the process: the specification of the
    importer for orders of the documented form (numbers, and numbers and letters of
    nested branches).  [rows] is the table under its cleaned orders. *)
From Coq Require Import String Ascii List Bool Arith ZArith.
From Verif Require Import Py Nx Rep SpecRep CsvImport SpecCsv.
Import ListNotations.
Open Scope string_scope.
Open Scope list_scope.

(** An order: a number, or a position inside branches. *)
Definition label (s : string) : Prop := number s \/ exists l m, branch_label l m s.

Definition next (p n : string) : string := (p ++ zstr (value n + 1))%string.

Definition orders (rows : dict row) : list string := map fst rows.
Definition onward (rows : dict row) (o : string) : Prop :=
  exists r, In (o, r) rows /\ r_terminated r <> "yes".

(** The next row of the sequence. *)
Definition follows (rows : dict row) (o m : string) : Prop :=
  exists p n, numbered o p n /\ m = next p n /\ In m (orders rows).
(** A branch called a is there. *)
Definition opens (rows : dict row) (o : string) : Prop :=
  exists p n, numbered o p n /\
    (In (next p n ++ "a")%string (orders rows) \/ In (next p n ++ "a1")%string (orders rows)).
Definition branch (rows : dict row) (o b : string) : Prop :=
  exists p n, numbered o p n /\ branch_of (next p n) b /\ In b (orders rows).
(** The number after the number of an enclosing branch. *)
Definition closes (rows : dict row) (o m : string) : Prop :=
  exists l k q c, branch_label l k o /\ In (q, c) l /\ m = zstr (value q + 1) /\ In m (orders rows).

(** A row continues in the first possible way. *)
Definition goes_on (rows : dict row) (o m : string) : Prop := onward rows o /\ follows rows o m.
Definition splits (rows : dict row) (o : string) : Prop :=
  onward rows o /\ (forall m, ~ follows rows o m) /\ opens rows o.
Definition merges (rows : dict row) (o m : string) : Prop :=
  onward rows o /\ (forall x, ~ follows rows o x) /\ ~ opens rows o /\ closes rows o m.

Definition split_of (o : string) : string := (o ++ "_split")%string.
Definition join_of (m : string) : string := (m ++ "_join")%string.

(** The flows between rows, splits and joins. *)
Inductive raw_flow (rows : dict row) : string -> string -> Prop :=
| rf_sequence : forall o m, goes_on rows o m -> raw_flow rows o m
| rf_split : forall o, splits rows o -> raw_flow rows o (split_of o)
| rf_branch : forall o b, splits rows o -> branch rows o b -> raw_flow rows (split_of o) b
| rf_join : forall o m, merges rows o m -> raw_flow rows o (join_of m)
| rf_after : forall o m, merges rows o m -> raw_flow rows (join_of m) m.

Definition gateway_of (rows : dict row) (g : string) : Prop :=
  (exists o, splits rows o /\ g = split_of o) \/ (exists o m, merges rows o m /\ g = join_of m).

(** Gateways with one flow in and one flow out are left out. *)
Definition dissolved (rows : dict row) (g : string) : Prop :=
  gateway_of rows g /\
  (forall x y, raw_flow rows x g -> raw_flow rows y g -> x = y) /\
  (forall x y, raw_flow rows g x -> raw_flow rows g y -> x = y).

Definition table_node (rows : dict row) (n : string) : Prop :=
  (In n (orders rows) \/ gateway_of rows n) /\ ~ dissolved rows n.
Definition table_flow (rows : dict row) (s t : string) : Prop :=
  ~ dissolved rows s /\ ~ dissolved rows t /\
  (raw_flow rows s t \/ exists g, dissolved rows g /\ raw_flow rows s g /\ raw_flow rows g t).

(** A row that only says where to go: its activity begins with goto in any case. *)
Definition goto_row (r : row) : Prop :=
  exists c1 c2 c3 c4 rest, r_activity r = String c1 (String c2 (String c3 (String c4 rest))) /\
    In c1 ["g"; "G"]%char /\ In c2 ["o"; "O"]%char /\ In c3 ["t"; "T"]%char /\ In c4 ["o"; "O"]%char.
