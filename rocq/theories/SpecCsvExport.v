(** Specification vocabulary for the CSV exporter. *)
From Coq Require Import String Ascii List Bool Arith ZArith.
From Verif Require Import Py Nx Rep SpecRep SpecLayout SpecCsv CsvImport.
Import ListNotations.
Open Scope string_scope.
Open Scope list_scope.

(** * Texts of comma separated values *)
(** A line: the fields with commas between them, and a line feed. *)
Definition csv_line (fields : list string) : string := (String.concat "," fields ++ line_feed)%string.
Definition csv_text (lines : list (list string)) : string := String.concat "" (map csv_line lines).
Definition csv_columns : list string := ["Order"; "Activity"; "Condition"; "Who"; "Subprocess"; "Terminated"].
(** A field that needs no quoting. *)
Definition plain_field (s : string) : Prop :=
  ~ is_in ","%char s /\ ~ is_in (ascii_of_nat 10) s.
(** How often a character occurs. *)
Definition occurrences (c : ascii) (s : string) : nat :=
  length (filter (Ascii.eqb c) (list_ascii_of_string s)).

(** * Nodes *)
Definition entry_node (d : diagram) (n : string) : Prop := is_node d n /\ incoming_of d n = [].
Definition typed (d : diagram) (n t : string) : Prop := attr d n "type" = Some (VStr t).
Definition named (d : diagram) (n s : string) : Prop := attr d n "node_name" = Some (VStr s).

(** Every node has a name; event definitions are lists if they are there at all. *)
Definition well_named (d : diagram) : Prop :=
  forall n, is_node d n -> (exists s, named d n s) /\
    (attr d n "event_definitions" = None \/ exists l, attr d n "event_definitions" = Some (VDefs l)).

(** The word put before the name of a message or timer event. *)
Definition first_event (d : diagram) (n t : string) : Prop :=
  exists i l, attr d n "event_definitions" = Some (VDefs ((i, t) :: l)).
Definition marked (d : diagram) (n w : string) : Prop :=
  (w = "message " /\ (typed d n "startEvent" \/ typed d n "endEvent") /\ first_event d n "messageEventDefinition") \/
  (w = "timer " /\ typed d n "startEvent" /\ first_event d n "timerEventDefinition") \/
  (w = "" /\ ~ ((typed d n "startEvent" \/ typed d n "endEvent") /\ first_event d n "messageEventDefinition")
          /\ ~ (typed d n "startEvent" /\ first_event d n "timerEventDefinition")).

(** * Chains: start event, activities, end event, nothing else *)
Definition chain (d : diagram) (s : string) (acts : list string) (e : string) : Prop :=
  coherent d /\ linear d (s :: acts ++ [e]) /\ well_named d /\
  typed d s "startEvent" /\ typed d e "endEvent" /\
  forall n, In n acts -> typed d n "task" \/ typed d n "subProcess".

(** The line of the node at place [i] of a chain. *)
Definition yes_iff (P : Prop) (s : string) : Prop := (P /\ s = "yes") \/ (~ P /\ s = "").
Definition chain_line (d : diagram) (i : nat) (n : string) (fields : list string) : Prop :=
  exists w nm sub ter,
    marked d n w /\ named d n nm /\
    yes_iff (typed d n "subProcess") sub /\ yes_iff (typed d n "endEvent") ter /\
    fields = [zstr (Z.of_nat i); (w ++ nm)%string; ""; ""; sub; ter].

(** * Straight ways *)
(** From [n] to [m] over nodes with one outgoing flow, none of them a Join or an end event. *)
Inductive straight_to (d : diagram) : string -> string -> Prop :=
| st_here : forall n, straight_to d n n
| st_step : forall n f x m, outgoing_of d n = [f] -> flow_goes d f n x -> ~ join_node d n ->
    ~ typed d n "endEvent" -> straight_to d x m -> straight_to d n m.

(** * Reading a file back *)
(** A field that a reader takes as it is: no separator, no quotation mark.  (pandas also
    turns some words such as NA into missing values and numbers into numbers; that is not
    part of the model.) *)
Definition verbatim (s : string) : Prop :=
  plain_field s /\ ~ is_in (ascii_of_nat 34) s /\ ~ is_in (ascii_of_nat 13) s.
(** The label of a row: the text of the first field or the integer it denotes. *)
Definition label_text (o : order_label) (s : string) : Prop :=
  o = OStr s \/ exists z, o = OInt z /\ s = zstr z.
Definition line_row (fields : list string) (p : order_label * row) : Prop :=
  exists o a c w s t, fields = [o; a; c; w; s; t] /\ label_text (fst p) o /\ snd p = mkRow a c w s t.
Definition reads (text : string) (table : list (order_label * row)) : Prop :=
  exists lines, text = csv_text (csv_columns :: lines) /\
    (forall l, In l lines -> Forall verbatim l) /\ Forall2 line_row lines table.

(** The activity column would be taken for a jump. *)
Definition goto_text (s : string) : Prop :=
  exists c1 c2 c3 c4 rest, s = String c1 (String c2 (String c3 (String c4 rest))) /\
    In c1 ["g"; "G"]%char /\ In c2 ["o"; "O"]%char /\ In c3 ["t"; "T"]%char /\ In c4 ["o"; "O"]%char.

(** The names of the flows are texts. *)
Definition labelled (d : diagram) : Prop :=
  forall t v, In t (get_flows d) -> dget "name" (snd t) = Some v -> v = VNone \/ exists s, v = VStr s.
(** No name needs quoting. *)
Definition plain_names (d : diagram) : Prop :=
  (forall n v, is_node d n -> attr d n "node_name" = Some v -> exists s, v = VStr s /\ plain_field s) /\
  (forall t v, In t (get_flows d) -> dget "name" (snd t) = Some v -> v = VNone \/ exists s, v = VStr s /\ plain_field s).
