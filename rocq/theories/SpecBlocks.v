(** Specification vocabulary for the CSV exporter on block-structured processes: a process
    is a sequence of activities and of blocks; a block is a gateway that splits, its
    branches, and a gateway where the branches meet again.  Written in
    terms of the numbering scheme of the file format, by recursion over the structure of
    the process and not over the diagram. *)
From Coq Require Import String Ascii List Bool Arith ZArith.
From Verif Require Import Py Nx Rep SpecRep SpecLayout SpecCsv SpecCsvExport.
Import ListNotations.
Open Scope string_scope.
Open Scope list_scope.

(** * The structure *)
(** A branch is a sequence of parts; it either meets the other branches of its block
    ([None]) or stops in an end event of its own. *)
Inductive part : Type :=
| Act (n : string)
| Block (g j : string) (branches : list (list part * option string)).
Definition branch_t : Type := list part * option string.

(** The node a part starts with and the node it is left from. *)
Definition first_of (p : part) : string := match p with Act n => n | Block g _ _ => g end.
Definition last_of (p : part) : string := match p with Act n => n | Block _ j _ => j end.

(** The only outgoing flow of [n] goes to the node [m]. *)
Definition only_to (d : diagram) (n m : string) : Prop :=
  is_node d m /\ exists f, outgoing_of d n = [f] /\ flow_goes d f n m.
(** From [x] one passes the parts in this order and arrives at [y]. *)
Fixpoint way (d : diagram) (x : string) (ps : list part) (y : string) : Prop :=
  match ps with
  | [] => x = y
  | p :: qs => x = first_of p /\ exists z, only_to d (last_of p) z /\ way d z qs y
  end.

Definition gateway_types : list string :=
  ["exclusiveGateway"; "inclusiveGateway"; "parallelGateway"; "eventBasedGateway"; "complexGateway"].
Definition gateway_node (d : diagram) (n : string) : Prop :=
  is_node d n /\ exists t, typed d n t /\ In t gateway_types.
Definition activity_node (d : diagram) (n : string) : Prop :=
  is_node d n /\ (typed d n "task" \/ typed d n "subProcess").
Definition end_node (d : diagram) (n : string) : Prop := is_node d n /\ typed d n "endEvent".

(** Where a branch of a block with the meeting point [j] arrives. *)
Definition arrives (j : string) (b : branch_t) : string := match snd b with Some e => e | None => j end.
(** A branch that meets the others is empty or ends with an activity. *)
Definition calm_end (ps : list part) : Prop := ps = [] \/ exists qs n, ps = qs ++ [Act n].

(** The flow [f] opens the branch [b] of the block from [g] to [j]. *)
Definition opens_branch (d : diagram) (g j f : string) (b : branch_t) : Prop :=
  (exists x, is_node d x /\ flow_goes d f g x /\ way d x (fst b) (arrives j b)) /\
  (snd b = None -> calm_end (fst b)) /\
  (forall e, snd b = Some e -> end_node d e /\ ~ join_node d e).

(** The diagram contains the part.  A block has a branch for each outgoing flow of its
    first gateway, at most 26, and one of those that meet is not empty. *)
Inductive contains (d : diagram) : part -> Prop :=
| in_act : forall n, activity_node d n -> ~ join_node d n -> contains d (Act n)
| in_block : forall g j bs,
    gateway_node d g -> ~ join_node d g -> split_node d g -> length bs <= 26 ->
    gateway_node d j -> join_node d j ->
    Forall2 (opens_branch d g j) (outgoing_of d g) bs ->
    (exists b, In b bs /\ snd b = None /\ fst b <> []) ->
    (forall b p, In b bs -> In p (fst b) -> contains d p) ->
    contains d (Block g j bs).

(** The whole process: one start event, the parts, one end event. *)
Definition structured (d : diagram) (s : string) (ps : list part) (e : string) : Prop :=
  coherent d /\ well_named d /\ labelled d /\
  (forall n, entry_node d n <-> n = s) /\ typed d s "startEvent" /\
  (exists x, only_to d s x /\ way d x ps e) /\ end_node d e /\
  (forall p, In p ps -> contains d p).

(** * The lines *)
(** Texts of a node and of a flow; the empty text where there is none. *)
Definition node_text (d : diagram) (n : string) : string :=
  match attr d n "node_name" with Some (VStr s) => s | _ => "" end.
Definition flow_text (d : diagram) (f : string) : string :=
  match get_flow_by_id f d with
  | Ok (Some t) => match dget "name" (snd t) with Some (VStr s) => s | _ => "" end
  | _ => ""
  end.
(** Kind of an event: the first event definition decides. *)
Definition event_word (d : diagram) (n : string) : string :=
  match attr d n "event_definitions", attr d n "type" with
  | Some (VDefs ((_, t) :: _)), Some (VStr ty) =>
      if String.eqb t "messageEventDefinition" then "message "
      else if String.eqb t "timerEventDefinition" && String.eqb ty "startEvent" then "timer "
      else ""
  | _, _ => ""
  end.
Definition is_type (d : diagram) (n t : string) : bool :=
  match attr d n "type" with Some (VStr x) => String.eqb x t | _ => false end.
Definition default_branch (d : diagram) (g f : string) : bool :=
  match attr d g "default" with Some (VStr x) => String.eqb x f | _ => false end.

(** The condition under which a branch is taken: none behind a parallel gateway, else the
    text at the flow. *)
Definition condition_text (d : diagram) (g f : string) : string :=
  if is_type d g "parallelGateway" then "" else flow_text d f.
(** The same with the default branch marked. *)
Definition branch_mark (d : diagram) (g f : string) : string :=
  if negb (is_type d g "parallelGateway") && default_branch d g f then "else" else condition_text d g f.

Definition branch_letter (i : nat) : string := String (ascii_of_nat (97 + i)) "".

Definition act_line (d : diagram) (prefix : string) (k : Z) (cond n : string) : list string :=
  [(prefix ++ zstr k)%string; node_text d n; cond; ""; if is_type d n "subProcess" then "yes" else ""; ""].
Definition end_line (d : diagram) (prefix : string) (k : Z) (cond n : string) : list string :=
  [(prefix ++ zstr k)%string; (event_word d n ++ node_text d n)%string; cond; ""; ""; "yes"].
Definition start_line (d : diagram) (n : string) : list string :=
  ["0"; (event_word d n ++ node_text d n)%string; ""; ""; ""; ""].
(** The line of a branch without a node of its own: a jump to the number after the block. *)
Definition jump_line (prefix branch_prefix : string) (k : Z) (cond : string) : list string :=
  [(branch_prefix ++ "1")%string; ("goto " ++ prefix ++ zstr (k + 1))%string; cond; ""; ""; ""].

(** The lines of a part with number [k] behind the prefix: an activity has one line; the
    lines of the branches of a block carry the prefix, the number of the block and a
    letter and are numbered from 1.  A block itself has no line. *)
Fixpoint part_lines (d : diagram) (prefix : string) (k : Z) (cond : string) (p : part) {struct p}
  : list (list string) :=
  match p with
  | Act n => [act_line d prefix k cond n]
  | Block g j bs =>
      (fix branches (i : nat) (fs : list string) (bs : list (list part * option string)) {struct bs} : list (list string) :=
         match fs, bs with
         | f :: fs', (ps, stop) :: bs' =>
             let bp := (prefix ++ zstr k ++ branch_letter i)%string in
             (match ps, stop with
              | [], None => [jump_line prefix bp k (condition_text d g f)]
              | _, _ =>
                  (fix steps (m : Z) (c : string) (ps : list part) : list (list string) :=
                     match ps with
                     | [] => match stop with Some e => [end_line d bp m c e] | None => [] end
                     | q :: qs => part_lines d bp m c q ++ steps (m + 1)%Z "" qs
                     end) 1%Z (branch_mark d g f) ps
              end) ++ branches (S i) fs' bs'
         | _, _ => []
         end) 0 (outgoing_of d g) bs
  end.
(** The lines of a sequence numbered from [k], up to the end event if it has one. *)
Fixpoint sequence_lines (d : diagram) (prefix : string) (k : Z) (cond : string) (ps : list part) (stop : option string)
  : list (list string) :=
  match ps with
  | [] => match stop with Some e => [end_line d prefix k cond e] | None => [] end
  | q :: qs => part_lines d prefix k cond q ++ sequence_lines d prefix (k + 1) "" qs stop
  end.
Definition process_lines (d : diagram) (s : string) (ps : list part) (e : string) : list (list string) :=
  start_line d s :: sequence_lines d "" 1 "" ps (Some e).

(** The number of nested calls that suffice. *)
Fixpoint part_size (p : part) : nat :=
  match p with
  | Act _ => 1
  | Block _ _ bs => S (S (list_sum (map (fun b => S (list_sum (map part_size (fst b)))) bs)))
  end.
Definition size (ps : list part) : nat := list_sum (map part_size ps).
