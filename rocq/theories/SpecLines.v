(** Specification vocabulary for the lines the layouter draws (C107). *)
From Coq Require Import String List Bool Arith ZArith QArith.
From Verif Require Import Py Nx Rep SpecRep SpecCrossing.
Import ListNotations.
Open Scope string_scope.
Open Scope list_scope.

(** The two nodes stand in the same row. *)
Definition level (d : diagram) (s m : string) : bool :=
  match attr d s "y", attr d m "y" with Some (VStr a), Some (VStr b) => String.eqb a b | _, _ => false end.
(** The flow leaves a gateway, or it comes to a gateway from another row. *)
Definition bent (d : diagram) (t : string * string * attrs) : bool :=
  match dget "sourceRef" (snd t), dget "targetRef" (snd t) with
  | Some (VStr s), Some (VStr m) => usual_gateway_b d s || usual_gateway_b d m && negb (level d s m)
  | _, _ => false
  end.
