(** Specification vocabulary for the metrics: cardinalities of sets of nodes. *)
From Coq Require Import String List Bool Arith.
From Verif Require Import Py Nx Rep SpecRep.
Import ListNotations.
Open Scope string_scope.
Open Scope list_scope.
Open Scope nat_scope.

(** Exactly [k] nodes of [d] have a type satisfying [P]. *)
Definition number (d : diagram) (P : string -> Prop) (k : nat) : Prop :=
  exists l, NoDup l /\ length l = k /\
    forall n, In n l <-> exists t, attr d n "type" = Some (VStr t) /\ P t.

Definition is_activity (t : string) : Prop := t = "task" \/ t = "subProcess".
Definition is_gateway (t : string) : Prop :=
  t = "inclusiveGateway" \/ t = "exclusiveGateway" \/ t = "parallelGateway" \/
  t = "eventBasedGateway" \/ t = "complexGateway".
Definition is_event (t : string) : Prop :=
  t = "startEvent" \/ t = "endEvent" \/ t = "intermediateCatchEvent" \/ t = "intermediateThrowEvent".

(** Exactly [k] distinct non-empty type names satisfy [P] and are the type of a node. *)
Definition distinct_types (d : diagram) (P : string -> Prop) (k : nat) : Prop :=
  exists l, NoDup l /\ length l = k /\
    forall t, In t l <-> P t /\ exists n, attr d n "type" = Some (VStr t).

(** At least [m] different types occur at least [m] times each. *)
Definition durfee_ok (d : diagram) (m : nat) : Prop :=
  exists ts, NoDup ts /\ length ts = m /\
    forall t, In t ts -> t <> "" /\ exists k, number d (eq t) k /\ m <= k.

(** Some [p] different types that occur in the diagram have together at least [p*p]
    occurrences (then in particular the [p] most frequent ones have). *)
Definition perfect_ok (d : diagram) (p : nat) : Prop :=
  exists ts ks, NoDup ts /\ length ts = p /\
    Forall2 (fun t k => t <> "" /\ 1 <= k /\ number d (eq t) k) ts ks /\
    p * p <= fold_right plus 0 ks.

(** Number of flow ends at node [n] (a self-loop has two). *)
Definition flow_ends (d : diagram) (n : string) : nat :=
  count_occ string_dec (flat_map (fun e => [eu e; ev e]) (gedges (dgraph d))) n.
