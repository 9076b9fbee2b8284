(** Python-level infrastructure of the model: exceptions as values, the result
    monad, a state-and-exception monad, insertion ordered dictionaries and the
    attribute values that bpmn-python stores.  Nothing in this file models a
    particular function of /repo; it gives meaning to the Python constructs
    (dict access, [list.append], [raise]) the other files use. *)
From Coq Require Import String List Bool ZArith QArith DecimalString Decimal DecimalZ.
Import ListNotations.
Open Scope string_scope.
Open Scope list_scope.

(** Exceptions raised by the code of /repo, or by Python on its behalf.
    [OutOfFuel] stands for "the fuelled loop did not finish within the given
    fuel"; [RecursionError] is not distinguished from it.  [Unmodelled] marks
    inputs outside the modelled fragment. *)
Inductive exc : Type :=
| KeyError (k : string)
| TypeError
| AttributeError
| IndexError
| ValueError
| StopIteration
| ZeroDivisionError
| NetworkXError
| BpmnPythonError (msg : string)
| OutOfFuel
| Unmodelled.

Inductive res (A : Type) : Type :=
| Ok (a : A)
| Err (e : exc).
Arguments Ok {A} _.
Arguments Err {A} _.

Definition rbind {A B} (m : res A) (f : A -> res B) : res B :=
  match m with Ok a => f a | Err e => Err e end.

Notation "'let*' x ':=' m 'in' k" := (rbind m (fun x => k))
  (at level 200, x pattern, m at level 100, k at level 200, right associativity).

Definition is_ok {A} (m : res A) : bool :=
  match m with Ok _ => true | Err _ => false end.

(** Mapping a raising function over a list, left to right, first error wins
    (a Python [for] loop or list comprehension). *)
Fixpoint rmap {A B} (f : A -> res B) (l : list A) : res (list B) :=
  match l with
  | [] => Ok []
  | a :: t => let* b := f a in let* bs := rmap f t in Ok (b :: bs)
  end.

(** Filtering with a raising test, left to right (loop with [append]). *)
Fixpoint rfilter {A} (f : A -> res bool) (l : list A) : res (list A) :=
  match l with
  | [] => Ok []
  | a :: t => let* b := f a in let* r := rfilter f t in Ok (if b then a :: r else r)
  end.

(** Folding with a raising step, left to right. *)
Fixpoint rfold {A S} (f : S -> A -> res S) (l : list A) (s : S) : res S :=
  match l with
  | [] => Ok s
  | a :: t => let* s' := f s a in rfold f t s'
  end.

(** State-and-exception monad: the state survives an exception, so that the
    partial effects of a raising method are visible. *)
Definition M (S A : Type) : Type := S -> S * res A.

Definition mret {S A} (a : A) : M S A := fun s => (s, Ok a).
Definition mraise {S A} (e : exc) : M S A := fun s => (s, Err e).
Definition mbind {S A B} (m : M S A) (f : A -> M S B) : M S B :=
  fun s => match m s with
           | (s', Ok a) => f a s'
           | (s', Err e) => (s', Err e)
           end.
Definition mget {S} : M S S := fun s => (s, Ok s).
Definition mput {S} (s : S) : M S unit := fun _ => (s, Ok tt).
Definition mmodify {S} (f : S -> S) : M S unit := fun s => (f s, Ok tt).
(** A state update that may raise; on an exception the state is unchanged
    (a single Python statement). *)
Definition mtry {S} (f : S -> res S) : M S unit :=
  fun s => match f s with Ok s' => (s', Ok tt) | Err e => (s, Err e) end.
(** Reading the state with a computation that may raise. *)
Definition mread {S A} (f : S -> res A) : M S A := fun s => (s, f s).

Notation "'do' x '<-' m ';;' k" := (mbind m (fun x => k))
  (at level 200, x pattern, m at level 100, k at level 200, right associativity).
Notation "'do_' m ';;' k" := (mbind m (fun _ => k))
  (at level 200, m at level 100, k at level 200, right associativity).

Fixpoint mfor {S A} (l : list A) (f : A -> M S unit) : M S unit :=
  match l with
  | [] => mret tt
  | a :: t => do_ f a ;; mfor t f
  end.

(** * Insertion ordered dictionaries with string keys *)
Definition dict (V : Type) : Type := list (string * V).

Fixpoint dget {V} (k : string) (d : dict V) : option V :=
  match d with
  | [] => None
  | (k', v) :: t => if String.eqb k k' then Some v else dget k t
  end.

(** [d[k]]: raises [KeyError]. *)
Definition dgetE {V} (k : string) (d : dict V) : res V :=
  match dget k d with Some v => Ok v | None => Err (KeyError k) end.

(** [d[k] = v]: an existing key keeps its position. *)
Fixpoint dset {V} (k : string) (v : V) (d : dict V) : dict V :=
  match d with
  | [] => [(k, v)]
  | (k', v') :: t => if String.eqb k k' then (k', v) :: t else (k', v') :: dset k v t
  end.

Definition dhas {V} (k : string) (d : dict V) : bool :=
  match dget k d with Some _ => true | None => false end.

Definition ddel {V} (k : string) (d : dict V) : dict V :=
  filter (fun p => negb (String.eqb k (fst p))) d.

Definition dkeys {V} (d : dict V) : list string := map fst d.

(** * Lanes (values stored below a process' laneSet) *)
Inductive lane : Type :=
| Lane (name : string)
       (child : option (string * list (string * lane)))
       (refs : list string)
       (di : option (string * (string * string * string * string))).

(** * Attribute values *)
Inductive pyval : Type :=
| VNone
| VStr (s : string)
| VList (l : list string)
| VDefs (l : list (string * string))
| VPoints (l : list (string * string))
| VCond (id text : string)
| VLaneSet (id : string) (lanes : list (string * lane)).

Notation attrs := (dict pyval).

(** [v == s] for a Python value and a string. *)
Definition veqs (v : pyval) (s : string) : bool :=
  match v with VStr s' => String.eqb s' s | _ => false end.

(** ["true" if b else "false"]. *)
Definition bool_str (b : bool) : string := if b then "true" else "false".

(** [l in strings]. *)
Definition smem (s : string) (l : list string) : bool := existsb (String.eqb s) l.

(** Decimal printing of integers, [str(z)]. *)
Definition zstr (z : Z) : string := NilZero.string_of_int (Z.to_int z).
Definition nstr (n : nat) : string := zstr (Z.of_nat n).

(** Strict decimal parsing, left inverse of [zstr]. *)
Definition zparse (s : string) : option Z :=
  option_map Z.of_int (NilZero.int_of_string s).
