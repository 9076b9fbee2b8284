(** The regular expressions of bpmn_process_csv_import.py:17-22 and the order label
    functions built on them.  Python's [re] module is an external library: the engine
    below is a backtracking matcher with Python's order of choices (greedy repetition
    tries more first, lazy repetition tries to stop first, alternatives from left to
    right).  Characters are bytes. *)
From Coq Require Import String Ascii List Bool Arith ZArith.
From Verif Require Import Py.
Import ListNotations.
Open Scope string_scope.
Open Scope list_scope.

(** * Strings *)
Definition between (lo hi : ascii) (c : ascii) : bool :=
  Nat.leb (nat_of_ascii lo) (nat_of_ascii c) && Nat.leb (nat_of_ascii c) (nat_of_ascii hi).
(** [[0-9]] *)
Definition is_digit : ascii -> bool := between "0" "9".
(** [[a-zA-Z]] *)
Definition is_alpha (c : ascii) : bool := between "a" "z" c || between "A" "Z" c.
(** [[a-z|A-Z]]: the bar is a literal inside the class. *)
Definition is_letter (c : ascii) : bool := is_alpha c || Ascii.eqb c "|".
(** [[a-z,A-Z]] *)
Definition is_letter_comma (c : ascii) : bool := is_alpha c || Ascii.eqb c ",".
Definition nl : ascii := ascii_of_nat 10.
(** [.] *)
Definition not_nl (c : ascii) : bool := negb (Ascii.eqb c nl).

(** [str.isspace] for ASCII characters. *)
Definition is_space (c : ascii) : bool :=
  let n := nat_of_ascii c in
  (Nat.leb 9 n && Nat.leb n 13) || (Nat.leb 28 n && Nat.leb n 32).

(** [s[0 : length s - length t]] for a suffix [t] of [s]. *)
Fixpoint upto (n : nat) (s : string) : string :=
  match n, s with
  | S n', String c s' => String c (upto n' s')
  | _, _ => ""
  end.

(** * Patterns *)
Inductive rx : Type :=
| RChr (p : ascii -> bool)
| REmpty
| RSeq (a b : rx)
| RAlt (a b : rx)
| RStar (greedy : bool) (a : rx)
| RGroup (n : nat) (a : rx)
| RBol
| REol.

(** Position, rest of the subject and captured groups (latest first). *)
Record mstate : Type := mkMS { mpos : nat; mrest : string; mcaps : list (nat * string) }.

Definition group (n : nat) (st : mstate) : string :=
  match find (fun c => Nat.eqb (fst c) n) (mcaps st) with Some c => snd c | None => "" end.

Definition orelse {A} (a b : option A) : option A := match a with Some _ => a | None => b end.

(** Matching in continuation passing style.  A repetition makes progress in every
    round, so the length of the rest bounds the number of rounds. *)
Fixpoint rmatch (r : rx) (k : mstate -> option mstate) (st : mstate) {struct r} : option mstate :=
  match r with
  | RChr p =>
      match mrest st with
      | String c rest => if p c then k (mkMS (S (mpos st)) rest (mcaps st)) else None
      | EmptyString => None
      end
  | REmpty => k st
  | RSeq a b => rmatch a (rmatch b k) st
  | RAlt a b => orelse (rmatch a k st) (rmatch b k st)
  | RStar greedy a =>
      (fix star (n : nat) (st : mstate) {struct n} : option mstate :=
         match n with
         | O => k st
         | S n' =>
             let more := rmatch a (fun st' => if Nat.ltb (String.length (mrest st')) (String.length (mrest st))
                                              then star n' st' else None) st in
             if greedy then orelse more (k st) else orelse (k st) more
         end) (String.length (mrest st)) st
  | RGroup n a =>
      rmatch a (fun st' => k (mkMS (mpos st') (mrest st')
                 ((n, upto (String.length (mrest st) - String.length (mrest st')) (mrest st)) :: mcaps st'))) st
  | RBol => if Nat.eqb (mpos st) 0 then k st else None
  | REol => if String.eqb (mrest st) "" || String.eqb (mrest st) (String nl "") then k st else None
  end.

(** [re.match(r, s)]. *)
Definition re_match (r : rx) (s : string) : option mstate := rmatch r Some (mkMS 0 s []).

(** [re.finditer(r, s)]: leftmost match, then on from its end.  The patterns used
    never match the empty string. *)
Fixpoint re_finditer (fuel : nat) (r : rx) (pos : nat) (s : string) : list mstate :=
  match fuel with
  | O => []
  | S fuel' =>
      match rmatch r Some (mkMS pos s []) with
      | Some st => st :: re_finditer fuel' r (mpos st) (mrest st)
      | None => match s with
                | EmptyString => []
                | String _ t => re_finditer fuel' r (S pos) t
                end
      end
  end.

Definition RPlus (a : rx) : rx := RSeq a (RStar true a).
Definition ROpt (a : rx) : rx := RAlt a REmpty.

(** bpmn_process_csv_import.py:17. *)
Definition rx_trailing_number : rx :=
  RSeq RBol
   (RSeq (RGroup 1 (RAlt (RSeq (RStar true (RChr not_nl)) (RChr is_letter))
                         (ROpt (RChr (fun c => negb (is_digit c))))))
   (RSeq (RGroup 2 (RPlus (RChr is_digit))) REol)).
(** bpmn_process_csv_import.py:18. *)
Definition rx_trailing_letter : rx :=
  RSeq (RGroup 1 (RPlus (RChr not_nl))) (RGroup 2 (RChr is_letter)).
(** bpmn_process_csv_import.py:19. *)
Definition rx_merge_node_finder : rx :=
  RSeq (RGroup 1 (RStar false (RChr not_nl)))
   (RSeq (RGroup 2 (RSeq (RPlus (RChr is_digit)) (RChr is_letter)))
         (RGroup 3 (RStar false (RChr not_nl)))).
(** bpmn_process_csv_import.py:20. *)
Definition rx_num_let : rx :=
  RSeq (RGroup 1 (RPlus (RChr is_digit))) (RGroup 2 (RChr is_letter_comma)).
(** A literal string. *)
Fixpoint rx_literal (s : string) : rx :=
  match s with
  | EmptyString => REmpty
  | String c t => RSeq (RChr (Ascii.eqb c)) (rx_literal t)
  end.
(** bpmn_process_csv_import.py:21-22, 206: prefix, next order, suffix. *)
Definition rx_split_succ (next : string) : rx :=
  RSeq RBol
   (RSeq (rx_literal next)
   (RSeq (RGroup 1 (RAlt (RChr is_letter) (RSeq (RChr is_letter) (RPlus (RChr (Ascii.eqb "1"))))))
         REol)).

(** Characters with a special meaning in a pattern. *)
Definition is_meta (c : ascii) : bool :=
  existsb (Ascii.eqb c) ["."; "^"; "$"; "*"; "+"; "?"; "{"; "}"; "["; "]"; "\"; "|"; "("; ")"]%char.
Fixpoint sexists (p : ascii -> bool) (s : string) : bool :=
  match s with
  | EmptyString => false
  | String c t => p c || sexists p t
  end.

(** [int(s)] on a string of digits. *)
Definition py_int (s : string) : res Z :=
  match zparse s with Some z => Ok z | None => Err ValueError end.

(** bpmn_process_csv_import.py:97-111. *)
Definition get_possible_sequence_continuation_successor (node_id : string) : res (list string) :=
  match re_match rx_trailing_number node_id with
  | Some m => let* n := py_int (group 2 m) in Ok [group 1 m ++ zstr (n + 1)]%string
  | None => Ok []
  end.

(** bpmn_process_csv_import.py:114-128. *)
Definition get_possible_split_continuation_successor (node_id : string) : res (list string) :=
  match re_match rx_trailing_number node_id with
  | Some m => let* n := py_int (group 2 m) in
              let new_node_id := (group 1 m ++ zstr (n + 1))%string in
              Ok [new_node_id ++ "a"; new_node_id ++ "a1"]%string
  | None => Ok []
  end.

(** bpmn_process_csv_import.py:145-151, one round: [num_let_result] is None when the
    pair ends in a bar. *)
Definition merge_candidate (m : mstate) : res string :=
  match re_match rx_num_let (group 2 m) with
  | Some r => let* n := py_int (group 1 r) in Ok (group 1 m ++ zstr (n + 1))%string
  | None => Err AttributeError
  end.
(** bpmn_process_csv_import.py:131-154. *)
Definition get_possible_merge_continuation_successors (node_id_arg : string) : res (list string) :=
  let node_id := match re_match rx_trailing_number node_id_arg with
                 | Some m => group 1 m
                 | None => node_id_arg
                 end in
  match re_match rx_trailing_letter node_id with
  | Some _ => rmap merge_candidate (re_finditer (S (String.length node_id)) rx_merge_node_finder 0 node_id)
  | None => Ok []
  end.

(** bpmn_process_csv_import.py:191-211.  The computed order is spliced into the
    pattern unescaped; orders with special characters are outside the model. *)
Definition get_all_split_successors (node_id : string) (nodes_ids : list string) : res (list string) :=
  match re_match rx_trailing_number node_id with
  | None => Err (BpmnPythonError ("Something wrong in program - look for " ++ node_id))
  | Some m =>
      let* n := py_int (group 2 m) in
      let next_node_id := (group 1 m ++ zstr (n + 1))%string in
      if sexists is_meta next_node_id then Err Unmodelled
      else Ok (filter (fun e => match re_match (rx_split_succ next_node_id) e with
                                | Some _ => true
                                | None => false
                                end) nodes_ids)
  end.
