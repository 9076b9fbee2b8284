(** Specification vocabulary for the CSV importer and exporter: what order labels
    look like, what a table says, what a chain is.  Nothing here refers to the
    regular expressions or to the model's helper functions. *)
From Coq Require Import String Ascii List Bool Arith ZArith.
From Verif Require Import Py Nx Rep SpecRep.
Import ListNotations.
Open Scope string_scope.
Open Scope list_scope.

(** * Characters and numbers *)
Definition is_in (c : ascii) (s : string) : Prop := In c (list_ascii_of_string s).
Definition digit (c : ascii) : Prop := is_in c "0123456789".
Definition latin (c : ascii) : Prop := is_in c "abcdefghijklmnopqrstuvwxyzABCDEFGHIJKLMNOPQRSTUVWXYZ".
(** What the importer accepts as a branch letter. *)
Definition branch_char (c : ascii) : Prop := latin c \/ c = "|"%char.
Definition line_feed : string := String (ascii_of_nat 10) "".

Definition all_chars (P : ascii -> Prop) (s : string) : Prop := forall c, is_in c s -> P c.
(** A non-empty string of digits. *)
Definition number (n : string) : Prop := n <> "" /\ all_chars digit n.
(** Its value, most significant digit first. *)
Fixpoint value_from (acc : Z) (n : string) : Z :=
  match n with
  | "" => acc
  | String c t => value_from (10 * acc + (Z.of_nat (nat_of_ascii c) - 48)) t
  end.
Definition value (n : string) : Z := value_from 0 n.

Definition no_line_feed (s : string) : Prop := ~ is_in (ascii_of_nat 10) s.

(** * Order labels *)

(** [s] is prefix [p] followed by number [n] (and possibly one line feed): the prefix
    is empty, one character that is no digit, or ends in a branch letter. *)
Definition numbered (s p n : string) : Prop :=
  number n /\
  (s = (p ++ n)%string \/ s = (p ++ n ++ line_feed)%string) /\
  (p = "" \/ (exists c, p = String c "" /\ ~ digit c) \/
   (exists q c, p = (q ++ String c "")%string /\ no_line_feed q /\ branch_char c)).

(** [e] is the order of a branch of the split before order [next]. *)
Definition branch_of (next e : string) : Prop :=
  exists c k, branch_char c /\
    (e = (next ++ String c (String.concat "" (repeat "1" k)))%string \/
     e = (next ++ String c (String.concat "" (repeat "1" k)) ++ line_feed)%string).

(** Characters with a special meaning in regular expressions. *)
Definition special (c : ascii) : Prop := is_in c ".^$*+?{}[]\|()".

(** Nested branches: number, letter, number, letter, ..., then the position in the
    innermost branch (possibly missing). *)
Definition pairs_text (l : list (string * ascii)) : string :=
  String.concat "" (map (fun p => (fst p ++ String (snd p) "")%string) l).
Definition branch_label (l : list (string * ascii)) (m s : string) : Prop :=
  l <> [] /\ (forall n c, In (n, c) l -> number n /\ latin c) /\ (m = "" \/ number m) /\
  s = (pairs_text l ++ m)%string.

(** * White space (ASCII) *)
Definition blank_char (c : ascii) : Prop :=
  In (nat_of_ascii c) [9; 10; 11; 12; 13; 28; 29; 30; 31; 32].
(** [t] is [s] without the white space around it. *)
Definition trimmed (s t : string) : Prop :=
  exists a b, s = (a ++ t ++ b)%string /\ all_chars blank_char a /\ all_chars blank_char b /\
    (forall c u, t = String c u -> ~ blank_char c) /\
    (forall c u, t = (u ++ String c "")%string -> ~ blank_char c).

(** * Splits *)
(** [r] lists the elements of [l] with property [P], in the order of [l]. *)
Definition chosen (P : string -> Prop) (l r : list string) : Prop :=
  exists f, (forall x, f x = true <-> P x) /\ r = filter f l.

(** Two branches told apart by yes/no, or with an else branch. *)
Definition decision (conditions : list string) : Prop :=
  exists a b, conditions = [a; b] /\
    ((a = "yes" /\ b = "no") \/ (a = "no" /\ b = "yes") \/ a = "else" \/ b = "else").
