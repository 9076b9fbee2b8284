(** C100: the turn of three points (diagram_layout_metrics.py:28-47, 130-149). *)
From Coq Require Import String List Bool Arith QArith Qminmax Lqa Lia.
From Verif Require Import Py PyFacts Nx Rep LayoutMetrics SpecLayoutMetrics GeomFacts.
Import ListNotations.
Open Scope string_scope.
Open Scope Q_scope.

(** * Specification *)
(** The three points are on one line. *)
Definition on_a_line (p q r : point) : Prop :=
  exists a b c : Q, ~ (a == 0 /\ b == 0) /\
    a * px p + b * py p == c /\ a * px q + b * py q == c /\ a * px r + b * py r == c.
(** The vector from [p] to [q]. *)
Definition vx (p q : point) : Q := px q - px p.
Definition vy (p q : point) : Q := py q - py p.
(** Seen from the way [p] to [q], [r] is to the left: it lies in the direction that is the way turned
    by a right angle (y upwards). *)
Definition to_the_left (p q r : point) : Prop := 0 < - vy p q * vx p r + vx p q * vy p r.
Definition to_the_right (p q r : point) : Prop := - vy p q * vx p r + vx p q * vy p r < 0.
Definition moved (dx dy : Q) (p : point) : point := mkPt (px p + dx) (py p + dy).
(** The conversion of the pair gives the point. *)
Definition converts (pyfloat : string -> option Q) (w : string * string) (p : point) : Prop :=
  pyfloat (fst w) = Some (px p) /\ pyfloat (snd w) = Some (py p).

Lemma det_turn : forall p q r, det p q r == - (- vy p q * vx p r + vx p q * vy p r).
Proof. intros p q r. unfold det, vx, vy. ring. Qed.

(** * The classification *)
Theorem C100_orientation : forall p q r,
  (orientation p q r = 0%nat <-> on_a_line p q r) /\
  (orientation p q r = 1%nat <-> to_the_right p q r) /\
  (orientation p q r = 2%nat <-> to_the_left p q r).
Proof.
  intros p q r. pose proof (det_turn p q r) as T. unfold to_the_left, to_the_right. set (v := - vy p q * vx p r + vx p q * vy p r) in *.
  assert (L : det p q r == 0 <-> on_a_line p q r).
  { clear T. split.
    - intro D. unfold det in D. destruct (Qeq_dec (px p) (px q)) as [Ex|Ex], (Qeq_dec (py p) (py q)) as [Ey|Ey].
      + (* p and q coincide *)
        destruct (Qeq_dec (px p) (px r)) as [Fx|Fx].
        * exists 1, 0, (px p). split; [lra|]. split; [lra|]. split; lra.
        * exists (py r - py p), (px p - px r), ((py r - py p) * px p + (px p - px r) * py p). split; [lra|]. split; [ring|]. split; [rewrite Ex, Ey; ring|ring].
      + exists (py q - py p), (px p - px q), ((py q - py p) * px p + (px p - px q) * py p). split; [lra|]. split; [ring|]. split; [ring|].
        setoid_replace ((py q - py p) * px r + (px p - px q) * py r) with ((py q - py p) * px p + (px p - px q) * py p + ((py q - py p) * (px r - px q) - (px q - px p) * (py r - py q))) by ring. rewrite D. ring.
      + exists (py q - py p), (px p - px q), ((py q - py p) * px p + (px p - px q) * py p). split; [lra|]. split; [ring|]. split; [ring|].
        setoid_replace ((py q - py p) * px r + (px p - px q) * py r) with ((py q - py p) * px p + (px p - px q) * py p + ((py q - py p) * (px r - px q) - (px q - px p) * (py r - py q))) by ring. rewrite D. ring.
      + exists (py q - py p), (px p - px q), ((py q - py p) * px p + (px p - px q) * py p). split; [lra|]. split; [ring|]. split; [ring|].
        setoid_replace ((py q - py p) * px r + (px p - px q) * py r) with ((py q - py p) * px p + (px p - px q) * py p + ((py q - py p) * (px r - px q) - (px q - px p) * (py r - py q))) by ring. rewrite D. ring.
    - intros (a & b & c & N & A & B & C). 
      assert (Ha : a * det p q r == 0).
      { unfold det. setoid_replace (a * ((py q - py p) * (px r - px q) - (px q - px p) * (py r - py q))) with
          ((py q - py p) * ((a * px r + b * py r) - (a * px q + b * py q)) - (py r - py q) * ((a * px q + b * py q) - (a * px p + b * py p))) by ring. rewrite A, B, C. ring. }
      assert (Hb : b * det p q r == 0).
      { unfold det. setoid_replace (b * ((py q - py p) * (px r - px q) - (px q - px p) * (py r - py q))) with
          ((px r - px q) * ((a * px q + b * py q) - (a * px p + b * py p)) - (px q - px p) * ((a * px r + b * py r) - (a * px q + b * py q))) by ring. rewrite A, B, C. ring. }
      apply Qmult_integral in Ha. apply Qmult_integral in Hb. destruct Ha as [Ha|Ha]; [|exact Ha]. destruct Hb as [Hb|Hb]; [|exact Hb]. exfalso. apply N. split; assumption. }
  rewrite <- L. destruct (orient_cases p q r) as [[D E]|[[D E]|[D E]]]; rewrite E; split; [split; intro Z| |split; intro Z| |split; intro Z|]; try reflexivity; try exact D; try discriminate; try (exfalso; lra);
    (split; split; intro Z; try reflexivity; try discriminate; lra).
Qed.
(** Turning the three points round, moving them together, exchanging two of them. *)
Theorem C100_symmetry : forall p q r dx dy,
  orientation q r p = orientation p q r /\
  orientation (moved dx dy p) (moved dx dy q) (moved dx dy r) = orientation p q r /\
  (orientation q p r = 0%nat <-> orientation p q r = 0%nat) /\
  (orientation q p r = 1%nat <-> orientation p q r = 2%nat).
Proof.
  assert (Q3 : forall p q r p' q' r', det p q r == det p' q' r' -> orientation p q r = orientation p' q' r').
  { intros p q r p' q' r' E. destruct (orient_cases p q r) as [[D1 ->]|[[D1 ->]|[D1 ->]]], (orient_cases p' q' r') as [[D2 ->]|[[D2 ->]|[D2 ->]]]; try reflexivity; exfalso; lra. }
  intros p q r dx dy. split; [apply Q3; unfold det; ring|]. split; [apply Q3; unfold det, moved; cbn [px py]; ring|].
  assert (E : det q p r == - det p q r) by (unfold det; ring).
  destruct (orient_cases p q r) as [[D1 ->]|[[D1 ->]|[D1 ->]]], (orient_cases q p r) as [[D2 ->]|[[D2 ->]|[D2 ->]]]; try (exfalso; lra); split; split; intro Z; try reflexivity; discriminate.
Qed.
(** The determinant of three waypoints is positive if they turn to the left, negative if they turn to the
    right and 0 if they are on a line; the sign test is true unless they turn to the right. *)
Theorem C100_determinant : forall pyfloat w1 w2 w3 p q r, converts pyfloat w1 p -> converts pyfloat w2 q -> converts pyfloat w3 r ->
  exists v, compute_determinant pyfloat w1 w2 w3 = Ok v /\
    (v == 0 <-> on_a_line p q r) /\ (0 < v <-> to_the_left p q r) /\ (v < 0 <-> to_the_right p q r) /\
    (check_integer_sign v = true <-> orientation p q r <> 1%nat).
Proof.
  intros pf [x1 y1] [x2 y2] [x3 y3] p q r [A1 A2] [B1 B2] [C1 C2]. cbn [fst snd] in *. unfold compute_determinant, floatE. cbn [fst snd]. rewrite A1, A2, B1, B2, C1, C2. cbn [rbind].
  eexists. split; [reflexivity|]. set (v := (px p * py q + px q * py r + px r * py p - (px p * py r + px q * py p + px r * py q))).
  assert (E : v == - det p q r) by (unfold v, det; ring). clearbody v.
  destruct (C100_orientation p q r) as (L & R & W). pose proof (det_turn p q r) as T. unfold to_the_left, to_the_right in *. set (u := - vy p q * vx p r + vx p q * vy p r) in *.
  split; [|split; [|split]].
  - rewrite <- L. destruct (orient_cases p q r) as [[D O]|[[D O]|[D O]]]; rewrite O; split; intro Z; try reflexivity; try discriminate; lra.
  - split; intro Z; lra.
  - split; intro Z; lra.
  - unfold check_integer_sign. rewrite Qle_bool_iff. destruct (orient_cases p q r) as [[D O]|[[D O]|[D O]]]; rewrite O; split; intro Z; try discriminate; try lra. exfalso. apply Z. reflexivity.
Qed.
(** A coordinate that is no number raises. *)
Theorem C100_no_number : forall pyfloat w1 w2 w3, (exists w, In w [w1; w2; w3] /\ (pyfloat (fst w) = None \/ pyfloat (snd w) = None)) ->
  compute_determinant pyfloat w1 w2 w3 = Err ValueError.
Proof.
  intros pf [x1 y1] [x2 y2] [x3 y3] (w & I & N). unfold compute_determinant, floatE. cbn [fst snd].
  destruct (pf x1) eqn:A1; [|reflexivity]. cbn [rbind]. destruct (pf y2) eqn:A2; [|reflexivity]. cbn [rbind]. destruct (pf x2) eqn:A3; [|reflexivity]. cbn [rbind].
  destruct (pf y3) eqn:A4; [|reflexivity]. cbn [rbind]. destruct (pf x3) eqn:A5; [|reflexivity]. cbn [rbind]. destruct (pf y1) eqn:A6; [|reflexivity]. cbn [rbind].
  exfalso. destruct I as [<-|[<-|[<-|[]]]]; cbn [fst snd] in N; destruct N; congruence.
Qed.
(** From (0, 0) to (2, 1) the point (1, 2) is to the left. *)
Example C100_example : let p := mkPt 0 0 in let q := mkPt 2 1 in let r := mkPt 1 2 in
  to_the_left p q r /\ orientation p q r = 2%nat /\ orientation p q (mkPt 4 2) = 0%nat /\ on_a_line p q (mkPt 4 2) /\
  compute_determinant (fun s => if String.eqb s "2" then Some 2 else if String.eqb s "1" then Some 1 else if String.eqb s "0" then Some 0 else None) ("0", "0") ("2", "1") ("1", "2") = Ok 3.
Proof.
  cbv zeta. split; [reflexivity|]. split; [reflexivity|]. split; [reflexivity|]. split; [|vm_compute; reflexivity]. exists 1, (-(2)), 0. repeat split; try reflexivity. intros [A _]. discriminate A.
Qed.
Print Assumptions C100_orientation.
Print Assumptions C100_symmetry.
Print Assumptions C100_determinant.
Print Assumptions C100_no_number.
