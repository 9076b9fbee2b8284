(** Specification vocabulary for the layout metrics of automatically laid out processes. *)
From Coq Require Import String List Bool Arith ZArith QArith Permutation.
From Verif Require Import Py Nx Rep SpecRep SpecLayout SpecBlocks SpecFlat SpecPlan.
Import ListNotations.
Open Scope string_scope.
Open Scope list_scope.
Open Scope nat_scope.

(** The flows of the diagram join these pairs of nodes, each once. *)
Definition flows_are (d : diagram) (l : list (string * string)) : Prop :=
  exists l', Forall2 (fun t p => dget "sourceRef" (snd t) = Some (VStr (fst p)) /\ dget "targetRef" (snd t) = Some (VStr (snd p)))
                     (get_flows d) l' /\ Permutation l' l.
(** The three usual kinds of gateways. *)
Definition usual_gateway (d : diagram) (n : string) : Prop :=
  exists t, attr d n "type" = Some (VStr t) /\ In t ["exclusiveGateway"; "inclusiveGateway"; "parallelGateway"].
(** Gateways at both ends of every block; the start and the activities are none. *)
Definition gateways_fit (d : diagram) (s : string) (ps : list part) : Prop :=
  (forall g j bs, In (Block g j bs) ps -> usual_gateway d g /\ usual_gateway d j) /\
  (forall n, In n (s :: flat_map part_acts ps) -> ~ usual_gateway d n).
(** The conversion of texts to numbers understands whole numbers. *)
Definition reads_integers (pyfloat : string -> option Q) : Prop := forall z, pyfloat (zstr z) = Some (inject_Z z).

(** The crossings reported for a part. *)
Definition part_crossings (p : part) : nat :=
  match p with Act _ => 0 | Block _ _ bs => let h := length bs / 2 in 2 * h * h end.
(** Two for each block of two or three branches, eight for four or five, ... *)
Definition process_crossings (ps : list part) : nat := list_sum (map part_crossings ps).
(** A flow is drawn as one segment; as two, if it leaves a gateway or comes to a gateway from
    another row. *)
Definition part_segments (p : part) : nat :=
  match p with
  | Act _ => 1
  | Block _ _ bs => 2 * length bs + list_sum (map (fun b : branch_t => length (fst b)) bs) + 2 * (length bs / 2) + 2
  end.
Definition process_segments (ps : list part) : nat := 1 + list_sum (map part_segments ps).

(** The way a flow is drawn: from the middle of its source (a box of 100 x 100 at (sx, sy)) to
    the middle of the left side of its target. A flow that leaves a gateway first runs up or
    down to the row of the target. A flow from another row to a gateway first runs
    sideways to the column of the gateway, and ends in the middle of its upper side. *)
Definition corners (from_gateway to_gateway : bool) (sx sy tx ty : Z) : list (Z * Z) :=
  let middle := ((sx + 50)%Z, (sy + 50)%Z) in
  let left_side := (tx, (ty + 50)%Z) in
  if from_gateway then [middle; ((sx + 50)%Z, (ty + 50)%Z); left_side]
  else if to_gateway && negb (Z.eqb sy ty) then [middle; ((tx + 50)%Z, (sy + 50)%Z); ((tx + 50)%Z, ty)]
  else [middle; left_side].
Definition usual_gateway_b (d : diagram) (n : string) : bool :=
  match attr d n "type" with
  | Some (VStr t) => existsb (String.eqb t) ["exclusiveGateway"; "inclusiveGateway"; "parallelGateway"]
  | _ => false
  end.
