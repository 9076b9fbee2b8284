(** Correctness of the segment intersection test. *)
From Coq Require Import String List Bool Arith QArith Qminmax Lqa Lia.
From Verif Require Import Py PyFacts Nx Rep SpecRep LayoutMetrics SpecLayoutMetrics.
Open Scope Q_scope.

Definition det (p1 p2 p3 : point) : Q :=
  (py p2 - py p1) * (px p3 - px p2) - (px p2 - px p1) * (py p3 - py p2).

Lemma orient_cases : forall p1 p2 p3,
  (det p1 p2 p3 == 0 /\ orientation p1 p2 p3 = 0%nat) \/
  (0 < det p1 p2 p3 /\ orientation p1 p2 p3 = 1%nat) \/
  (det p1 p2 p3 < 0 /\ orientation p1 p2 p3 = 2%nat).
Proof.
  intros. unfold orientation. fold (det p1 p2 p3). set (v := det p1 p2 p3).
  destruct (Qeq_bool v 0) eqn:E.
  - left. split; auto. apply Qeq_bool_iff; auto.
  - right. assert (N : ~ v == 0) by (apply Qeq_bool_neq; auto).
    unfold Qgt_bool. destruct (Qle_bool v 0) eqn:L; simpl.
    + right. split; auto. apply Qle_bool_iff in L. destruct (Qlt_le_dec v 0); auto.
      exfalso. apply N. apply Qle_antisym; auto.
    + left. split; auto. destruct (Qlt_le_dec 0 v); auto. apply Qle_bool_iff in q. congruence.
Qed.

Lemma lies_iff : forall p1 p2 p3, lies_on_segment p1 p2 p3 = true <->
  ((px p1 <= px p3 /\ px p3 <= px p2) \/ (px p2 <= px p3 /\ px p3 <= px p1)) /\
  ((py p1 <= py p3 /\ py p3 <= py p2) \/ (py p2 <= py p3 /\ py p3 <= py p1)).
Proof.
  assert (G : forall a b c, (Qle_bool (Qmin a b) c && Qle_bool c (Qmax a b) = true)%bool <->
                            (a <= c /\ c <= b) \/ (b <= c /\ c <= a)).
  { intros a b c. rewrite andb_true_iff, !Qle_bool_iff.
    destruct (Qlt_le_dec a b).
    - rewrite Q.min_l, Q.max_r by lra. split; [intros; left; lra|]. intros [H|H]; lra.
    - rewrite Q.min_r, Q.max_l by lra. split; [intros; right; lra|]. intros [H|H]; lra. }
  intros. unfold lies_on_segment. rewrite andb_true_iff, !G. tauto.
Qed.

(** A point collinear with, and in the bounding box of, a segment is on it. *)
Lemma box_on : forall a b p, det a b p == 0 -> lies_on_segment a b p = true -> on_segment (mkSeg a b) p.
Proof.
  intros a b p D L. apply lies_iff in L. unfold det in D. destruct L as [Lx Ly].
  destruct (Qeq_dec (px a) (px b)) as [Ex|Ex].
  - destruct (Qeq_dec (py a) (py b)) as [Ey|Ey].
    + exists 0. simpl. split; [lra|]. split; [lra|]. split; lra.
    + exists ((py p - py a) / (py b - py a)). simpl.
      assert (N : ~ py b - py a == 0) by lra.
      assert (T : 0 <= (py p - py a) / (py b - py a) <= 1).
      { destruct Ly as [Ly|Ly].
        - split; [apply Qle_shift_div_l; lra|apply Qle_shift_div_r; lra].
        - setoid_replace ((py p - py a) / (py b - py a)) with ((py a - py p) / (py a - py b)) by (field; lra).
          split; [apply Qle_shift_div_l; lra|apply Qle_shift_div_r; lra]. }
      split; [tauto|]. split; [tauto|]. split; [|field; auto].
      assert (Px : px p == px a) by lra. rewrite Px, <- Ex. ring.
  - exists ((px p - px a) / (px b - px a)). simpl.
    assert (N : ~ px b - px a == 0) by lra.
    assert (T : 0 <= (px p - px a) / (px b - px a) <= 1).
    { destruct Lx as [Lx|Lx].
      - split; [apply Qle_shift_div_l; lra|apply Qle_shift_div_r; lra].
      - setoid_replace ((px p - px a) / (px b - px a)) with ((px a - px p) / (px a - px b)) by (field; lra).
        split; [apply Qle_shift_div_l; lra|apply Qle_shift_div_r; lra]. }
    split; [tauto|]. split; [tauto|]. split; [field; auto|].
    assert (E : (py p - py a) * (px b - px a) == (px p - px a) * (py b - py a)) by lra.
    assert (E2 : py p - py a == (px p - px a) * (py b - py a) / (px b - px a)).
    { rewrite <- E. field. auto. }
    assert (E3 : py p == py a + (px p - px a) * (py b - py a) / (px b - px a)) by lra.
    rewrite E3. field. auto.
Qed.

Lemma on_end_l : forall a b, on_segment (mkSeg a b) a.
Proof. intros. exists 0. simpl. split; [lra|]. split; [lra|]. split; lra. Qed.
Lemma on_end_r : forall a b, on_segment (mkSeg a b) b.
Proof. intros. exists 1. simpl. split; [lra|]. split; [lra|]. split; lra. Qed.

Lemma ratio_unit : forall d1 d2, ~ d1 == d2 -> (0 <= d1 /\ d2 <= 0) \/ (d1 <= 0 /\ 0 <= d2) ->
  0 <= d1 / (d1 - d2) /\ d1 / (d1 - d2) <= 1.
Proof.
  intros d1 d2 N [H|H].
  - split; [apply Qle_shift_div_l; lra|apply Qle_shift_div_r; lra].
  - setoid_replace (d1 / (d1 - d2)) with ((- d1) / (d2 - d1)) by (field; lra).
    split; [apply Qle_shift_div_l; lra|apply Qle_shift_div_r; lra].
Qed.

(** Proper case: the end points lie on different sides, both ways. *)
Lemma proper_meet : forall a b c e,
  ~ det a b c == det a b e -> ~ det c e a == det c e b ->
  (0 <= det a b c /\ det a b e <= 0) \/ (det a b c <= 0 /\ 0 <= det a b e) ->
  (0 <= det c e a /\ det c e b <= 0) \/ (det c e a <= 0 /\ 0 <= det c e b) ->
  meet (mkSeg a b) (mkSeg c e).
Proof.
  intros a b c e N1 N2 S1 S2.
  pose proof (ratio_unit _ _ N1 S1) as T. pose proof (ratio_unit _ _ N2 S2) as U.
  set (s := det c e a / (det c e a - det c e b)) in *.
  set (t := det a b c / (det a b c - det a b e)) in *.
  exists (mkPt ((1 - s) * px a + s * px b) ((1 - s) * py a + s * py b)). split.
  - exists s. simpl. split; [tauto|]. split; [tauto|]. split; reflexivity.
  - exists t. simpl. split; [tauto|]. split; [tauto|].
    assert (K : ~ (py b - py a) * (px e - px c) - (px b - px a) * (py e - py c) == 0).
    { intro K. apply N1. unfold det. lra. }
    assert (Ks : det c e a - det c e b == (py b - py a) * (px e - px c) - (px b - px a) * (py e - py c)).
    { unfold det. ring. }
    assert (Kt : det a b c - det a b e == - ((py b - py a) * (px e - px c) - (px b - px a) * (py e - py c))).
    { unfold det. ring. }
    unfold s, t. rewrite Ks, Kt. unfold det.
    split; field; repeat split; intro Z; apply K; lra.
Qed.

Lemma sides : forall a b c e, orientation a b c <> orientation a b e ->
  ~ det a b c == det a b e /\
  ((0 <= det a b c /\ det a b e <= 0) \/ (det a b c <= 0 /\ 0 <= det a b e)).
Proof.
  intros a b c e N.
  destruct (orient_cases a b c) as [[D1 O1]|[[D1 O1]|[D1 O1]]];
  destruct (orient_cases a b e) as [[D2 O2]|[[D2 O2]|[D2 O2]]];
    try (exfalso; congruence); (split; [lra|]); lra.
Qed.

Lemma do_intersect_sound : forall s1 s2, do_intersect s1 s2 = true -> meet s1 s2.
Proof.
  intros [a b] [c e] H. unfold do_intersect in H. simpl in H.
  destruct (Nat.eqb_spec (orientation a b c) (orientation a b e)) as [E1|E1];
  destruct (Nat.eqb_spec (orientation c e a) (orientation c e b)) as [E2|E2]; simpl in H;
  try (destruct (sides _ _ _ _ E1); destruct (sides _ _ _ _ E2); apply proper_meet; auto; fail);
  clear E1 E2;
  (destruct (Nat.eqb_spec (orientation a b c) 0) as [Z1|Z1]; simpl in H;
   [destruct (lies_on_segment a b c) eqn:L1; simpl in H;
    [exists c; split; [apply box_on; auto; destruct (orient_cases a b c) as [[D O]|[[D O]|[D O]]]; auto; congruence
                      |apply on_end_l]|]|]);
  (destruct (Nat.eqb_spec (orientation a b e) 0) as [Z2|Z2]; simpl in H;
   [destruct (lies_on_segment a b e) eqn:L2; simpl in H;
    [exists e; split; [apply box_on; auto; destruct (orient_cases a b e) as [[D O]|[[D O]|[D O]]]; auto; congruence
                      |apply on_end_r]|]|]);
  (destruct (Nat.eqb_spec (orientation c e a) 0) as [Z3|Z3]; simpl in H;
   [destruct (lies_on_segment c e a) eqn:L3; simpl in H;
    [exists a; split; [apply on_end_l|
       apply box_on; auto; destruct (orient_cases c e a) as [[D O]|[[D O]|[D O]]]; auto; congruence]|]|]);
  (destruct (Nat.eqb_spec (orientation c e b) 0) as [Z4|Z4]; simpl in H;
   [destruct (lies_on_segment c e b) eqn:L4; simpl in H;
    [exists b; split; [apply on_end_r|
       apply box_on; auto; destruct (orient_cases c e b) as [[D O]|[[D O]|[D O]]]; auto; congruence]|]|]);
  discriminate.
Qed.

(** ** Completeness *)
Lemma orient_zero : forall a b c, orientation a b c = 0%nat <-> det a b c == 0.
Proof.
  intros. destruct (orient_cases a b c) as [[D O]|[[D O]|[D O]]]; rewrite O; split; intros; auto; try discriminate; lra.
Qed.

(** The four tests of the special cases. *)
Definition touches (a b c e : point) : Prop :=
  (det a b c == 0 /\ lies_on_segment a b c = true) \/ (det a b e == 0 /\ lies_on_segment a b e = true) \/
  (det c e a == 0 /\ lies_on_segment c e a = true) \/ (det c e b == 0 /\ lies_on_segment c e b = true).

Lemma touches_true : forall a b c e, touches a b c e -> do_intersect (mkSeg a b) (mkSeg c e) = true.
Proof.
  intros a b c e H. unfold do_intersect. simpl.
  destruct (negb _ && negb _)%bool; auto.
  destruct H as [[D L]|[[D L]|[[D L]|[D L]]]]; apply orient_zero in D; rewrite D, L; simpl; auto;
  repeat match goal with |- (if ?x then _ else _) = _ => destruct x; auto end.
Qed.

Lemma same_side : forall a b c e, orientation a b c = orientation a b e ->
  (det a b c == 0 /\ det a b e == 0) \/ (0 < det a b c /\ 0 < det a b e) \/ (det a b c < 0 /\ det a b e < 0).
Proof.
  intros a b c e N.
  destruct (orient_cases a b c) as [[D1 O1]|[[D1 O1]|[D1 O1]]];
  destruct (orient_cases a b e) as [[D2 O2]|[[D2 O2]|[D2 O2]]];
    try (exfalso; congruence); auto.
Qed.

(** All four points on one line and the segments meet. *)
Lemma between_box : forall a b p, on_segment (mkSeg a b) p -> lies_on_segment a b p = true.
Proof.
  intros a b p [t [T0 [T1 [X Y]]]]. simpl in *. apply lies_iff. rewrite X, Y. split.
  - destruct (Qlt_le_dec (px a) (px b)); [left|right]; split; nra.
  - destruct (Qlt_le_dec (py a) (py b)); [left|right]; split; nra.
Qed.

Lemma on_det : forall a b p, on_segment (mkSeg a b) p -> det a b p == 0.
Proof.
  intros a b p [t [T0 [T1 [X Y]]]]. simpl in *. unfold det. rewrite X, Y. ring.
Qed.

Lemma det_affine : forall a b c e p t, px p == (1 - t) * px c + t * px e ->
  py p == (1 - t) * py c + t * py e -> det a b p == (1 - t) * det a b c + t * det a b e.
Proof. intros. unfold det. rewrite H, H0. ring. Qed.

(** Interval overlap on one axis. *)
Lemma overlap : forall a b c e p : Q,
  ((a <= p /\ p <= b) \/ (b <= p /\ p <= a)) -> ((c <= p /\ p <= e) \/ (e <= p /\ p <= c)) ->
  ((a <= c /\ c <= b) \/ (b <= c /\ c <= a)) \/ ((a <= e /\ e <= b) \/ (b <= e /\ e <= a)) \/
  (((c <= a /\ a <= e) \/ (e <= a /\ a <= c)) /\ ((c <= b /\ b <= e) \/ (e <= b /\ b <= c))).
Proof.
  intros a b c e p H1 H2.
  destruct (Qlt_le_dec c a), (Qlt_le_dec c b), (Qlt_le_dec e a), (Qlt_le_dec e b); lra.
Qed.

(** On a line that is not vertical, between in x implies between in y. *)
Lemma line_between_x : forall a b c, ~ px a == px b -> det a b c == 0 ->
  ((px a <= px c /\ px c <= px b) \/ (px b <= px c /\ px c <= px a)) ->
  ((py a <= py c /\ py c <= py b) \/ (py b <= py c /\ py c <= py a)).
Proof.
  intros a b c N D H. unfold det in D.
  destruct H as [[H1 H2]|[H1 H2]]; destruct (Qlt_le_dec (py a) (py b)) as [L|L].
  - left. split; nra.
  - right. split; nra.
  - left. split; nra.
  - right. split; nra.
Qed.
Lemma line_between_y : forall a b c, ~ py a == py b -> det a b c == 0 ->
  ((py a <= py c /\ py c <= py b) \/ (py b <= py c /\ py c <= py a)) ->
  ((px a <= px c /\ px c <= px b) \/ (px b <= px c /\ px c <= px a)).
Proof.
  intros a b c N D H. unfold det in D.
  destruct H as [[H1 H2]|[H1 H2]]; destruct (Qlt_le_dec (px a) (px b)) as [L|L].
  - left. split; nra.
  - right. split; nra.
  - left. split; nra.
  - right. split; nra.
Qed.

Lemma collinear_touch : forall a b c e p,
  on_segment (mkSeg a b) p -> on_segment (mkSeg c e) p ->
  det a b c == 0 -> det a b e == 0 -> touches a b c e.
Proof.
  intros a b c e p P1 P2 D1 D2.
  pose proof (between_box _ _ _ P1) as B1. pose proof (between_box _ _ _ P2) as B2.
  pose proof (on_det _ _ _ P2) as DP.
  apply lies_iff in B1. apply lies_iff in B2. destruct B1 as [B1x B1y], B2 as [B2x B2y].
  destruct (Qeq_dec (px a) (px b)) as [Ex|Ex].
  - destruct (Qeq_dec (py a) (py b)) as [Ey|Ey].
    + assert (X : px p == px a) by lra. assert (Y : py p == py a) by lra.
      right. right. left. unfold det in *. rewrite X, Y in DP. split; auto.
      apply lies_iff. rewrite X in B2x. rewrite Y in B2y. auto.
    + assert (Z : det c e a == 0).
      { assert (M : (py b - py a) * det c e a == - (py e - py a) * det a b c + (py c - py a) * det a b e)
          by (unfold det; ring).
        rewrite D1, D2 in M. assert (M' : (py b - py a) * det c e a == 0) by lra.
        apply Qmult_integral in M'. destruct M' as [M'|M']; auto. exfalso. lra. }
      destruct (overlap _ _ _ _ _ B1y B2y) as [H|[H|[Ha Hb]]].
      * left. split; auto. apply lies_iff. split; auto. apply (line_between_y a b c); auto.
      * right. left. split; auto. apply lies_iff. split; auto. apply (line_between_y a b e); auto.
      * right. right. left. split; auto. apply lies_iff. split; auto.
        apply (line_between_y c e a); auto. intro E. apply Ey. lra.
  - assert (Z : det c e a == 0).
    { assert (M : (px b - px a) * det c e a == - (px e - px a) * det a b c + (px c - px a) * det a b e)
        by (unfold det; ring).
      rewrite D1, D2 in M. assert (M' : (px b - px a) * det c e a == 0) by lra.
      apply Qmult_integral in M'. destruct M' as [M'|M']; auto. exfalso. lra. }
    destruct (overlap _ _ _ _ _ B1x B2x) as [H|[H|[Ha Hb]]].
    + left. split; auto. apply lies_iff. split; auto. apply (line_between_x a b c); auto.
    + right. left. split; auto. apply lies_iff. split; auto. apply (line_between_x a b e); auto.
    + right. right. left. split; auto. apply lies_iff. split; auto.
      apply (line_between_x c e a); auto. intro E. apply Ex. lra.
Qed.

Lemma meet_collinear : forall a b c e p,
  on_segment (mkSeg a b) p -> on_segment (mkSeg c e) p ->
  orientation a b c = orientation a b e -> touches a b c e.
Proof.
  intros a b c e p P1 P2 O. apply (collinear_touch a b c e p); auto;
  pose proof (on_det _ _ _ P1) as D; destruct P2 as [t [T0 [T1 [X Y]]]]; simpl in X, Y;
  rewrite (det_affine a b c e p t X Y) in D;
  destruct (same_side a b c e O) as [[D1 D2]|[[D1 D2]|[D1 D2]]]; auto; exfalso; nra.
Qed.

Lemma do_intersect_complete : forall s1 s2, meet s1 s2 -> do_intersect s1 s2 = true.
Proof.
  intros [a b] [c e] [p [P1 P2]].
  destruct (Nat.eq_dec (orientation a b c) (orientation a b e)) as [E1|E1].
  - apply touches_true. eapply meet_collinear; eauto.
  - destruct (Nat.eq_dec (orientation c e a) (orientation c e b)) as [E2|E2].
    + apply touches_true. pose proof (meet_collinear c e a b p P2 P1 E2) as H.
      unfold touches in *. tauto.
    + unfold do_intersect. simpl. apply Nat.eqb_neq in E1. apply Nat.eqb_neq in E2. rewrite E1, E2. reflexivity.
Qed.

Theorem do_intersect_iff : forall s1 s2, do_intersect s1 s2 = true <-> meet s1 s2.
Proof. split; [apply do_intersect_sound|apply do_intersect_complete]. Qed.

Lemma points_equal_iff : forall p q, points_are_equal p q = true <-> same_point p q.
Proof. intros. unfold points_are_equal, same_point. rewrite andb_true_iff, !Qeq_bool_iff. tauto. Qed.

Lemma common_iff : forall s1 s2, segments_common_points s1 s2 = true <-> share_end s1 s2.
Proof.
  intros. unfold segments_common_points, share_end. rewrite !orb_true_iff, !points_equal_iff. tauto.
Qed.

Definition crossb (s1 s2 : segment) : bool := (negb (segments_common_points s1 s2) && do_intersect s1 s2)%bool.

Lemma crossb_iff : forall s1 s2, crossb s1 s2 = true <-> cross s1 s2.
Proof.
  intros. unfold crossb, cross. rewrite andb_true_iff, negb_true_iff, do_intersect_iff.
  rewrite <- common_iff. destruct (segments_common_points s1 s2); intuition congruence.
Qed.

Lemma cross_sym : forall s1 s2, cross s1 s2 -> cross s2 s1.
Proof.
  intros s1 s2 [N [p [A B]]]. split.
  - intro C. apply N. unfold share_end, same_point in *.
    destruct C as [[X Y]|[[X Y]|[[X Y]|[X Y]]]]; symmetry in X; symmetry in Y; tauto.
  - exists p. auto.
Qed.

Lemma crossb_sym : forall s1 s2, crossb s1 s2 = crossb s2 s1.
Proof.
  intros. destruct (crossb s1 s2) eqn:A, (crossb s2 s1) eqn:B; auto;
  [apply crossb_iff in A; apply cross_sym in A; apply crossb_iff in A; congruence
  |apply crossb_iff in B; apply cross_sym in B; apply crossb_iff in B; congruence].
Qed.
