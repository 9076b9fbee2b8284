(** What goto rows say: the flow into such a row leads to the row it names.
    [rows] is the table under its cleaned orders. *)
From Coq Require Import String Ascii List Bool Arith ZArith.
From Verif Require Import Py Nx Rep SpecRep CsvImport SpecCsv SpecFlow.
Import ListNotations.
Open Scope string_scope.
Open Scope list_scope.

Definition solid (s : string) : Prop := s <> "" /\ all_chars (fun c => ~ blank_char c) s.
(** [t] is the second of the words of [a]. *)
Definition second_word (a t : string) : Prop :=
  exists w sp rest, a = (w ++ sp ++ t ++ rest)%string /\ solid w /\ sp <> "" /\ all_chars blank_char sp /\ solid t /\
    (rest = "" \/ exists c u, rest = String c u /\ blank_char c).

Definition goto_order (rows : dict row) (o : string) : Prop := exists r, In (o, r) rows /\ goto_row r.

(** [o] is a goto row that takes the flow from [x] to [t]. *)
Definition redirects (rows : dict row) (o x t : string) : Prop :=
  exists r, In (o, r) rows /\ goto_row r /\ raw_flow rows x o /\ second_word (r_activity r) t.

(** The flows with goto rows followed. *)
Definition way (rows : dict row) (s t : string) : Prop :=
  (raw_flow rows s t /\ ~ goto_order rows s /\ ~ goto_order rows t) \/ exists o, redirects rows o s t.

(** Gateways with one way in and one way out are left out. *)
Definition passed (rows : dict row) (g : string) : Prop :=
  gateway_of rows g /\
  (forall x y, way rows x g -> way rows y g -> x = y) /\
  (forall x y, way rows g x -> way rows g y -> x = y).

Definition goto_node (rows : dict row) (n : string) : Prop :=
  (In n (orders rows) \/ gateway_of rows n) /\ ~ goto_order rows n /\ ~ passed rows n.
Definition step_to (rows : dict row) (s t : string) : Prop :=
  way rows s t \/ exists g, passed rows g /\ way rows s g /\ way rows g t.
Definition goto_flow (rows : dict row) (s t : string) : Prop :=
  ~ passed rows s /\ ~ passed rows t /\ step_to rows s t.

(** Goto rows that can be followed one by one: they name other rows, are reached from one
    place, not from each other, and no two flows from a place have the same goal. *)
Record neat_jumps (rows : dict row) : Prop := mkNeat {
  nj_goal : forall o r t, In (o, r) rows -> goto_row r -> second_word (r_activity r) t ->
    In t (orders rows) /\ ~ goto_order rows t;
  nj_single : forall o x y, goto_order rows o -> raw_flow rows x o -> raw_flow rows y o -> x = y;
  nj_apart : forall x o, raw_flow rows x o -> goto_order rows x -> ~ goto_order rows o;
  nj_new : forall o x t, redirects rows o x t -> ~ raw_flow rows x t;
  nj_distinct : forall o o' x t, redirects rows o x t -> redirects rows o' x t -> o = o' }.

(** No two flows go back and forth between two nodes. *)
Definition one_way (rows : dict row) : Prop := forall s t, step_to rows s t -> ~ step_to rows t s.
