(** Specification vocabulary: what a line of an exported CSV file may say about a diagram. *)
From Coq Require Import String Ascii List Bool Arith ZArith.
From Verif Require Import Py Nx Rep SpecRep SpecLayout SpecCsvExport SpecExportEnds.
Import ListNotations.
Open Scope string_scope.
Open Scope list_scope.

Definition reached (d : diagram) (s n : string) : Prop := n = s \/ exists l, path d s l n.
(** The name of the flow [f], the empty text when it has none. *)
Definition flow_text (d : diagram) (f c : string) : Prop :=
  exists t, get_flow_by_id f d = Ok (Some t) /\
    (dget "name" (snd t) = Some (VStr c) \/ ((dget "name" (snd t) = None \/ dget "name" (snd t) = Some VNone) /\ c = "")).
Definition is_default_of (d : diagram) (g f : string) : Prop := attr d g "default" = Some (VStr f).
Definition letter (b : ascii) : Prop := exists i, i < 26 /\ b = ascii_of_nat (97 + i).

(** The condition of the branch [f] of the split [g], before an activity and before a meeting
    point. *)
Definition branch_text (d : diagram) (g f c : string) : Prop :=
  (typed d g "parallelGateway" /\ c = "") \/
  (~ typed d g "parallelGateway" /\ ((is_default_of d g f /\ c = "else") \/ (~ is_default_of d g f /\ flow_text d f c))).
Definition jump_text (d : diagram) (g f c : string) : Prop :=
  (typed d g "parallelGateway" /\ c = "") \/ (~ typed d g "parallelGateway" /\ flow_text d f c).

(** The order and the condition of the line of [m]: the first of a branch, which carries the
    condition of the branch, or not, and then without a condition. *)
Definition first_of_branch (d : diagram) (s m o c : string) : Prop :=
  exists p b g f, o = (p ++ String b "1")%string /\ letter b /\
    reached d s g /\ flow d f g m /\ inner d g /\ split_node d g /\ branch_text d g f c.
Definition later_line (o c : string) : Prop :=
  exists p i, o = (p ++ zstr i)%string /\ ((p = "" /\ 0 <= i) \/ 2 <= i)%Z /\ c = "".

(** The line of the node [m], reached from [s]. *)
Definition line_of_node (d : diagram) (s m : string) (l : list string) : Prop :=
  exists o w nm c sub ter, l = [o; (w ++ nm)%string; c; ""; sub; ter] /\
    reached d s m /\ (typed d m "startEvent" \/ activity d m \/ typed d m "endEvent") /\
    marked d m w /\ named d m nm /\ yes_iff (typed d m "subProcess") sub /\ yes_iff (typed d m "endEvent") ter /\
    (later_line o c \/ first_of_branch d s m o c).

(** The line of a branch from the split [g] right to the meeting point [m]: the number after
    the one in the order of the branch, and the name of the flow. *)
Definition line_of_jump (d : diagram) (s g m : string) (l : list string) : Prop :=
  exists p i b c f, l = [(p ++ zstr i ++ String b "1")%string; ("goto " ++ p ++ zstr (i + 1))%string; c; ""; ""; ""] /\
    letter b /\ (0 <= i)%Z /\ reached d s g /\ flow d f g m /\ inner d g /\ split_node d g /\ join_node d m /\ jump_text d g f c.
