(** Counting crossings of axis-parallel segments with integer coordinates. *)
From Coq Require Import String List Bool Arith ZArith QArith Qminmax Lia Permutation.
From Verif Require Import Py PyFacts LayoutMetrics SpecLayoutMetrics GeomFacts CrossFacts SpecBlocks SpecPlan.
Import ListNotations.
Open Scope list_scope.
Open Scope nat_scope.

(** * Segments with integer coordinates *)
Definition zseg : Type := (Z * Z) * (Z * Z).
Definition qpt (p : Z * Z) : point := mkPt (inject_Z (fst p)) (inject_Z (snd p)).
Definition qseg (s : zseg) : segment := mkSeg (qpt (fst s)) (qpt (snd s)).
Definition straight (s : zseg) : Prop := fst (fst s) = fst (snd s) \/ snd (fst s) = snd (snd s).
Definition zeqb (p q : Z * Z) : bool := Z.eqb (fst p) (fst q) && Z.eqb (snd p) (snd q).
Definition zcross (s t : zseg) : bool :=
  let '((a1, b1), (a2, b2)) := s in let '((c1, d1), (c2, d2)) := t in
  (Z.leb (Z.max (Z.min a1 a2) (Z.min c1 c2)) (Z.min (Z.max a1 a2) (Z.max c1 c2)) &&
   Z.leb (Z.max (Z.min b1 b2) (Z.min d1 d2)) (Z.min (Z.max b1 b2) (Z.max d1 d2))) &&
  negb (zeqb (a1, b1) (c1, d1) || zeqb (a1, b1) (c2, d2) || zeqb (a2, b2) (c1, d1) || zeqb (a2, b2) (c2, d2)).
Lemma zeqb_iff : forall p q, zeqb p q = true <-> p = q.
Proof. intros [a b] [c d]. unfold zeqb. cbn. rewrite andb_true_iff, !Z.eqb_eq. split; [intros [-> ->]; reflexivity|intro H; injection H as -> ->; auto]. Qed.
Lemma zcross_iff : forall a1 b1 a2 b2 c1 d1 c2 d2, zcross ((a1, b1), (a2, b2)) ((c1, d1), (c2, d2)) = true <->
  (Z.max (Z.min a1 a2) (Z.min c1 c2) <= Z.min (Z.max a1 a2) (Z.max c1 c2) /\
   Z.max (Z.min b1 b2) (Z.min d1 d2) <= Z.min (Z.max b1 b2) (Z.max d1 d2) /\
   ~ (a1 = c1 /\ b1 = d1) /\ ~ (a1 = c2 /\ b1 = d2) /\ ~ (a2 = c1 /\ b2 = d1) /\ ~ (a2 = c2 /\ b2 = d2))%Z.
Proof.
  intros. unfold zcross. rewrite !andb_true_iff, negb_true_iff, !orb_false_iff, !Z.leb_le.
  assert (E : forall p q, zeqb p q = false <-> ~ (fst p = fst q /\ snd p = snd q)).
  { clear. intros p q. unfold zeqb. rewrite andb_false_iff, !Z.eqb_neq. lia. }
  rewrite !E. cbn [fst snd]. tauto.
Qed.
Lemma qpt_same : forall p q, same_point (qpt p) (qpt q) <-> p = q.
Proof.
  intros [a b] [c d]. unfold same_point, qpt. cbn [px py fst snd]. split.
  - intros [A B]. apply (proj1 (inject_Z_injective a c)) in A. apply (proj1 (inject_Z_injective b d)) in B. subst. reflexivity.
  - intro H. injection H as -> ->. split; reflexivity.
Qed.
Lemma det_straight : forall a b p, straight (a, b) -> 
  (Z.min (fst a) (fst b) <= fst p <= Z.max (fst a) (fst b))%Z -> (Z.min (snd a) (snd b) <= snd p <= Z.max (snd a) (snd b))%Z ->
  on_segment (mkSeg (qpt a) (qpt b)) (qpt p).
Proof.
  intros [a1 a2] [b1 b2] [p1 p2] S X Y. unfold straight in S. cbn [fst snd] in *. apply box_on.
  - unfold det, qpt. cbn. destruct S as [->| ->].
    + assert (p1 = b1) by lia. subst. ring.
    + assert (p2 = b2) by lia. subst. ring.
  - apply lies_iff. unfold qpt. cbn [px py fst snd].
    rewrite <- !Zle_Qle. lia.
Qed.

Lemma on_straight : forall a b p, on_segment (mkSeg (qpt a) (qpt b)) p ->
  (inject_Z (Z.min (fst a) (fst b)) <= px p <= inject_Z (Z.max (fst a) (fst b)) /\
   inject_Z (Z.min (snd a) (snd b)) <= py p <= inject_Z (Z.max (snd a) (snd b)))%Q.
Proof.
  intros [a1 a2] [b1 b2] p H. apply between_box, lies_iff in H. unfold qpt in H. cbn [px py fst snd] in *.
  assert (M : forall u v w, (inject_Z u <= w /\ w <= inject_Z v \/ inject_Z v <= w /\ w <= inject_Z u -> inject_Z (Z.min u v) <= w <= inject_Z (Z.max u v))%Q).
  { clear. intros u v w H. destruct (Z.le_gt_cases u v) as [L|L].
    - rewrite Z.min_l, Z.max_r by lia. assert (inject_Z u <= inject_Z v)%Q by (rewrite <- Zle_Qle; exact L).
      destruct H as [[A B]|[A B]]; [split; assumption|]. split; [apply Qle_trans with (inject_Z v); assumption|apply Qle_trans with (inject_Z u); assumption].
    - rewrite Z.min_r, Z.max_l by lia. assert (inject_Z v <= inject_Z u)%Q by (rewrite <- Zle_Qle; lia).
      destruct H as [[A B]|[A B]]; [|split; assumption]. split; [apply Qle_trans with (inject_Z u); assumption|apply Qle_trans with (inject_Z v); assumption]. }
  destruct H as [A B]. split; apply M; assumption.
Qed.
(** Two axis-parallel segments cross iff their boxes overlap and no ends coincide. *)
Lemma cross_zcross : forall s t, straight s -> straight t -> crossb (qseg s) (qseg t) = zcross s t.
Proof.
  intros [[a1 b1] [a2 b2]] [[c1 d1] [c2 d2]] S T. apply eq_true_iff_eq. rewrite crossb_iff, zcross_iff. unfold cross, share_end, qseg. cbn [ssrc stgt fst snd].
  rewrite !qpt_same.
  assert (E : forall a b c d : Z, (a, b) = (c, d) <-> a = c /\ b = d) by (intros; split; [intro H; injection H; auto|intros [-> ->]; reflexivity]). rewrite !E.
  assert (M : meet (mkSeg (qpt (a1, b1)) (qpt (a2, b2))) (mkSeg (qpt (c1, d1)) (qpt (c2, d2))) <->
    (Z.max (Z.min a1 a2) (Z.min c1 c2) <= Z.min (Z.max a1 a2) (Z.max c1 c2))%Z /\ (Z.max (Z.min b1 b2) (Z.min d1 d2) <= Z.min (Z.max b1 b2) (Z.max d1 d2))%Z).
  { split.
    - intros [p [P1 P2]]. apply on_straight in P1, P2. cbn [fst snd] in *. destruct P1 as [[X1 X2] [Y1 Y2]], P2 as [[X3 X4] [Y3 Y4]].
      assert (Q : forall u v w, (inject_Z u <= w -> w <= inject_Z v -> (u <= v)%Z)%Q) by (intros u v w A B; rewrite Zle_Qle; apply Qle_trans with w; assumption).
      pose proof (Q _ _ _ X1 X2). pose proof (Q _ _ _ X1 X4). pose proof (Q _ _ _ X3 X2). pose proof (Q _ _ _ X3 X4).
      pose proof (Q _ _ _ Y1 Y2). pose proof (Q _ _ _ Y1 Y4). pose proof (Q _ _ _ Y3 Y2). pose proof (Q _ _ _ Y3 Y4). 
      split; apply Z.max_lub; apply Z.min_glb; assumption.
    - intros [X Y]. exists (qpt (Z.max (Z.min a1 a2) (Z.min c1 c2), Z.max (Z.min b1 b2) (Z.min d1 d2))%Z).
      split; apply det_straight; auto; cbn [fst snd]; split; try lia. }
  rewrite M. tauto.
Qed.

(** * Counting pairs *)
Section Pairs.
Variable A : Type.
Variable R : A -> A -> bool.
Fixpoint pairs (l : list A) : nat := match l with [] => 0 | a :: r => length (filter (R a) r) + pairs r end.
Fixpoint between (l m : list A) : nat := match l with [] => 0 | a :: r => length (filter (R a) m) + between r m end.
Lemma pairs_app : forall l m, pairs (l ++ m) = pairs l + between l m + pairs m.
Proof. induction l as [|a l IH]; intro m; [reflexivity|]. cbn [pairs between app]. rewrite filter_app, app_length, IH. lia. Qed.
Lemma between_app_l : forall l m k, between (l ++ m) k = between l k + between m k.
Proof. induction l as [|a l IH]; intros m k; [reflexivity|]. cbn [between app]. rewrite IH. lia. Qed.
Lemma between_app_r : forall l m k, between l (m ++ k) = between l m + between l k.
Proof. induction l as [|a l IH]; intros m k; [reflexivity|]. cbn [between]. rewrite filter_app, app_length, IH. lia. Qed.
Lemma between_nil : forall l, between l [] = 0.
Proof. induction l as [|a l IH]; [reflexivity|exact IH]. Qed.
Lemma filter_none : forall (P : A -> bool) l, (forall x, In x l -> P x = false) -> filter P l = [].
Proof. intros P. induction l as [|a l IH]; intro H; [reflexivity|]. cbn [filter]. rewrite (H a (or_introl eq_refl)). apply IH. intros x Hx. apply H. right. exact Hx. Qed.
Lemma between_zero : forall l m, (forall a b, In a l -> In b m -> R a b = false) -> between l m = 0.
Proof.
  induction l as [|a l IH]; intros m H; [reflexivity|]. cbn [between]. rewrite filter_none by (intros x Hx; apply H; [left; reflexivity|exact Hx]).
  apply IH. intros x y Hx Hy. apply H; [right; exact Hx|exact Hy].
Qed.
Lemma pairs_perm : (forall a b, R a b = R b a) -> forall l m, Permutation l m -> pairs l = pairs m.
Proof.
  intros Sy l m P. induction P as [|x l m P IH|x y l|l m k P IH P' IH']; [reflexivity| | |lia].
  - cbn [pairs]. rewrite (filter_perm_len _ _ _ _ P). lia.
  - cbn [pairs filter]. rewrite (Sy y x). destruct (R x y); cbn [length]; lia.
Qed.
End Pairs.
Arguments pairs {A} R l.
Arguments between {A} R l m.
Lemma pairs_map : forall A B (f : A -> B) (R : B -> B -> bool) l, pairs R (map f l) = pairs (fun a b => R (f a) (f b)) l.
Proof.
  intros A B f R. induction l as [|a l IH]; [reflexivity|]. cbn [pairs map]. rewrite IH. f_equal. clear IH. induction l as [|b l IH]; [reflexivity|].
  cbn [map filter]. destruct (R (f a) (f b)); cbn [length]; rewrite IH; reflexivity.
Qed.
Lemma pairs_ext : forall A (R R' : A -> A -> bool) l, (forall a b, In a l -> In b l -> R a b = R' a b) -> pairs R l = pairs R' l.
Proof.
  intros A R R'. induction l as [|a l IH]; intro H; [reflexivity|]. cbn [pairs]. rewrite IH by (intros x y Hx Hy; apply H; right; assumption).
  f_equal. f_equal. apply filter_ext_in. intros b Hb. apply H; [left; reflexivity|right; exact Hb].
Qed.
(** Groups without pairs inside and at most one pair between any two. *)
Lemma pairs_groups : forall A B (R : B -> B -> bool) (Q : A -> A -> bool) (G : A -> list B) l, (forall a, In a l -> pairs R (G a) = 0) ->
  ForallOrdPairs (fun a b => between R (G a) (G b) = if Q a b then 1 else 0) l -> pairs R (flat_map G l) = pairs Q l.
Proof.
  intros A B R Q G. induction l as [|a l IH]; intros Z F; [reflexivity|]. inversion F as [|x y F1 F2]; subst. cbn [flat_map pairs].
  rewrite pairs_app, (Z a (or_introl eq_refl)), IH by (auto; intros b Hb; apply Z; right; exact Hb). cbn [Nat.add]. f_equal. clear IH F F2 Z.
  induction l as [|b l IH]; [apply between_nil|]. inversion F1 as [|x y H1 H2]; subst. cbn [flat_map filter]. rewrite between_app_r, H1, (IH H2). destruct (Q a b); cbn [length]; lia.
Qed.
Lemma between_groups : forall A B (R : B -> B -> bool) (G : A -> list B) (w : A -> nat) m l, (forall a, In a l -> between R (G a) m = w a) ->
  between R (flat_map G l) m = list_sum (map w l).
Proof.
  intros A B R G w m. induction l as [|a l IH]; intro H; [reflexivity|]. cbn [flat_map map list_sum fold_right]. rewrite between_app_l, (H a (or_introl eq_refl)), IH; [reflexivity|].
  intros b Hb. apply H. right. exact Hb.
Qed.

(** * Rows on the same side of row 2 *)
Definition beside (r r' : Z) : bool := Z.ltb 0 ((r - 2) * (r' - 2)).
Lemma beside_iff : forall r r', beside r r' = true <-> (2 < r /\ 2 < r' \/ r < 2 /\ r' < 2)%Z.
Proof. intros r r'. unfold beside. rewrite Z.ltb_lt, Z.lt_0_mul. lia. Qed.
Lemma beside_sym : forall r r', beside r r' = beside r' r.
Proof. intros r r'. unfold beside. rewrite Z.mul_comm. reflexivity. Qed.
Lemma pairs_all : forall A (R : A -> A -> bool) l, (forall a b, In a l -> In b l -> R a b = true) -> 2 * pairs R l = length l * (length l - 1).
Proof.
  intros A R. induction l as [|a l IH]; intro H; [reflexivity|]. cbn [pairs length].
  assert (E : filter (R a) l = l).
  { assert (X : forall x, In x l -> R a x = true) by (intros x Hx; apply H; [left; reflexivity|right; exact Hx]). clear - X. induction l as [|b l IH]; [reflexivity|].
    cbn [filter]. rewrite (X b (or_introl eq_refl)). f_equal. apply IH. intros x Hx. apply X. right. exact Hx. }
  rewrite E. assert (IH' : 2 * pairs R l = length l * (length l - 1)) by (apply IH; intros x y Hx Hy; apply H; right; assumption).
  destruct l as [|b l]; [reflexivity|]. cbn [length] in *. nia.
Qed.
Lemma beside_fan : forall k, pairs beside (fan k) = (k / 2) * (k / 2 - 1).
Proof.
  intro k. unfold fan. set (h := k / 2).
  set (up := map (fun i => (2 + 2 * (Z.of_nat i + 1))%Z) (seq 0 h)). set (dn := map (fun i => (2 - 2 * (Z.of_nat i + 1))%Z) (seq 0 h)). set (mid := if Nat.odd k then [2%Z] else []).
  assert (U : forall r, In r up -> (2 < r)%Z) by (intros r H; apply in_map_iff in H; destruct H as [i [<- _]]; lia).
  assert (D : forall r, In r dn -> (r < 2)%Z) by (intros r H; apply in_map_iff in H; destruct H as [i [<- _]]; lia).
  assert (M : forall r, In r mid -> r = 2%Z) by (unfold mid; destruct (Nat.odd k); intros r H; [destruct H as [<-|[]]; reflexivity|destruct H]).
  assert (Lu : length up = h) by (unfold up; rewrite map_length, seq_length; reflexivity).
  assert (Ld : length dn = h) by (unfold dn; rewrite map_length, seq_length; reflexivity).
  rewrite !pairs_app. rewrite !between_app_r.
  rewrite (between_zero _ beside up mid), (between_zero _ beside up dn), (between_zero _ beside mid dn).
  2:{ intros a b Ha Hb. apply not_true_is_false. rewrite beside_iff. specialize (M a Ha). specialize (D b Hb). lia. }
  2:{ intros a b Ha Hb. apply not_true_is_false. rewrite beside_iff. specialize (U a Ha). specialize (D b Hb). lia. }
  2:{ intros a b Ha Hb. apply not_true_is_false. rewrite beside_iff. specialize (U a Ha). specialize (M b Hb). lia. }
  assert (Em : pairs beside mid = 0) by (unfold mid; destruct (Nat.odd k); reflexivity). rewrite Em.
  assert (Eu : 2 * pairs beside up = h * (h - 1)) by (rewrite <- Lu at 1 2; apply pairs_all; intros a b Ha Hb; apply beside_iff; left; split; apply U; assumption).
  assert (Ed : 2 * pairs beside dn = h * (h - 1)) by (rewrite <- Ld at 1 2; apply pairs_all; intros a b Ha Hb; apply beside_iff; right; split; apply D; assumption).
  lia.
Qed.
Lemma below_fan : forall k, list_sum (map (fun r => if Z.ltb 2 r then 2 else 0) (fan k)) = 2 * (k / 2).
Proof.
  intro k. unfold fan. set (h := k / 2). rewrite !map_app, !list_sum_app, !map_map.
  assert (U : forall l, list_sum (map (fun i => if Z.ltb 2 (2 + 2 * (Z.of_nat i + 1)) then 2 else 0) l) = 2 * length l).
  { induction l as [|i l IH]; [reflexivity|]. cbn [map list_sum fold_right length]. unfold list_sum in IH. rewrite IH. destruct (Z.ltb_spec 2 (2 + 2 * (Z.of_nat i + 1))); lia. }
  assert (D : forall l, list_sum (map (fun i => if Z.ltb 2 (2 - 2 * (Z.of_nat i + 1)) then 2 else 0) l) = 0).
  { induction l as [|i l IH]; [reflexivity|]. cbn [map list_sum fold_right length]. unfold list_sum in IH. rewrite IH. destruct (Z.ltb_spec 2 (2 - 2 * (Z.of_nat i + 1))); lia. }
  rewrite U, D, seq_length. destruct (Nat.odd k); cbn; lia.
Qed.
Lemma sum_perm : forall l m, Permutation l m -> list_sum l = list_sum m.
Proof. intros l m P. unfold list_sum. induction P; cbn [fold_right]; lia. Qed.

(** * The segments of a block *)
Definition cx (k : Z) : Z := (150 * k + 100)%Z.
Definition lx (k : Z) : Z := (150 * k + 50)%Z.
Definition yy (r : Z) : Z := (100 * r + 100)%Z.
Fixpoint line_segs (k : Z) (n : nat) (r : Z) : list zseg :=
  match n with
  | S (S _ as m) => ((cx k, yy r), (lx (k + 1), yy r)) :: line_segs (k + 1) m r
  | _ => []
  end.
Lemma in_line_segs : forall n k r s, In s (line_segs k n r) -> exists i, (k <= i /\ i + 1 < k + Z.of_nat n)%Z /\ s = ((cx i, yy r), (lx (i + 1), yy r)).
Proof.
  induction n as [|[|n] IH]; intros k r s H; [destruct H|destruct H|]. cbn [line_segs In] in H. destruct H as [<-|H].
  - exists k. split; [lia|reflexivity].
  - destruct (IH (k + 1)%Z r s H) as (i & Hi & ->). exists i. split; [lia|reflexivity].
Qed.
Lemma apart_x : forall a1 b1 a2 b2 c1 d1 c2 d2 : Z, (Z.max a1 a2 < Z.min c1 c2)%Z -> zcross ((a1, b1), (a2, b2)) ((c1, d1), (c2, d2)) = false.
Proof. intros. apply not_true_is_false. rewrite zcross_iff. intros (A & _). lia. Qed.
Lemma apart_y : forall a1 b1 a2 b2 c1 d1 c2 d2 : Z, (Z.max b1 b2 < Z.min d1 d2 \/ Z.max d1 d2 < Z.min b1 b2)%Z -> zcross ((a1, b1), (a2, b2)) ((c1, d1), (c2, d2)) = false.
Proof. intros. apply not_true_is_false. rewrite zcross_iff. intros (_ & A & _). lia. Qed.
(** A vertical segment and a horizontal one that starts on the same line. *)
Lemma upright : forall x x' y1 y2 y : Z, x <> x' -> zcross ((x, y1), (x, y2)) ((x, y), (x', y)) = Z.ltb (Z.min y1 y2) y && Z.ltb y (Z.max y1 y2).
Proof.
  intros x x' y1 y2 y N. apply eq_true_iff_eq. rewrite zcross_iff, andb_true_iff, !Z.ltb_lt. split.
  - intros (A & B & C1 & C2 & C3 & C4). clear C2 C4. assert (y1 <> y) by tauto. assert (y2 <> y) by tauto. lia.
  - intros [A B]. split; [lia|]. split; [lia|]. assert (y1 <> y) by lia. assert (y2 <> y) by lia. tauto.
Qed.
Lemma zcross_sym : forall s t, zcross s t = zcross t s.
Proof. intros [[a1 b1] [a2 b2]] [[c1 d1] [c2 d2]]. apply eq_true_iff_eq. rewrite !zcross_iff. rewrite (Z.max_comm (Z.min a1 a2)), (Z.min_comm (Z.max a1 a2)), (Z.max_comm (Z.min b1 b2)), (Z.min_comm (Z.max b1 b2)).
  assert (E : forall a b : Z, a = b <-> b = a) by (intros; split; intro; subst; reflexivity). rewrite (E a1 c1), (E b1 d1), (E a1 c2), (E b1 d2), (E a2 c1), (E b2 d1), (E a2 c2), (E b2 d2). tauto. Qed.
Lemma line_alone : forall n k r, pairs zcross (line_segs k n r) = 0.
Proof.
  induction n as [|[|n] IH]; intros k r; [reflexivity|reflexivity|]. change (line_segs k (S (S n)) r) with (((cx k, yy r), (lx (k + 1), yy r)) :: line_segs (k + 1) (S n) r).
  cbn [pairs]. rewrite IH, filter_none; [reflexivity|]. intros s Hs. destruct (in_line_segs _ _ _ _ Hs) as (i & Hi & ->). apply apart_x. unfold cx, lx. lia.
Qed.

Section Block.
Variables c w : Z.
Definition out_segs (r : Z) : list zseg := [((cx c, yy 2), (cx c, yy r)); ((cx c, yy r), (lx (c + 1), yy r))].
Definition home_segs (n : nat) (r : Z) : list zseg :=
  if Z.eqb r 2 then [((cx (c + Z.of_nat n), yy r), (lx (c + w + 1), yy 2))]
  else [((cx (c + Z.of_nat n), yy r), (cx (c + w + 1), yy r)); ((cx (c + w + 1), yy r), (cx (c + w + 1), 250%Z))].
Definition branch_segs (it : nat * Z) : list zseg := line_segs (c + 1) (fst it) (snd it) ++ home_segs (fst it) (snd it).
Definition leave_segs : list zseg := [((cx (c + w + 1), yy 2), (cx (c + w + 1), yy 2)); ((cx (c + w + 1), yy 2), (lx (c + w + 2), yy 2))].
Definition block_segs (items : list (nat * Z)) : list zseg := flat_map (fun it => out_segs (snd it)) items ++ flat_map branch_segs items ++ leave_segs.
Definition fits (it : nat * Z) : Prop := 1 <= fst it /\ (Z.of_nat (fst it) <= w)%Z.

Lemma out_alone : forall r, pairs zcross (out_segs r) = 0.
Proof. intro r. unfold out_segs. cbn [pairs filter]. rewrite upright by (unfold cx, lx; lia). destruct (Z.ltb_spec (Z.min (yy 2) (yy r)) (yy r)), (Z.ltb_spec (yy r) (Z.max (yy 2) (yy r))); try reflexivity; lia. Qed.
Lemma upright_rows : forall x x' r r', x <> x' -> zcross ((x, yy 2), (x, yy r)) ((x, yy r'), (x', yy r')) = Z.ltb (Z.min 2 r) r' && Z.ltb r' (Z.max 2 r).
Proof. intros x x' r r' N. rewrite upright by exact N. apply eq_true_iff_eq. rewrite !andb_true_iff, !Z.ltb_lt. unfold yy. lia. Qed.
Lemma one_side : forall r r', r <> r' -> (if Z.ltb (Z.min 2 r) r' && Z.ltb r' (Z.max 2 r) then 1 else 0) + (if Z.ltb (Z.min 2 r') r && Z.ltb r (Z.max 2 r') then 1 else 0) = if beside r r' then 1 else 0.
Proof.
  intros r r' N. destruct (beside r r') eqn:B; [apply beside_iff in B|assert (B' : ~ (2 < r /\ 2 < r' \/ r < 2 /\ r' < 2)%Z) by (rewrite <- beside_iff, B; discriminate)];
  destruct (Z.ltb_spec (Z.min 2 r) r'), (Z.ltb_spec r' (Z.max 2 r)), (Z.ltb_spec (Z.min 2 r') r), (Z.ltb_spec r (Z.max 2 r')); cbn; try reflexivity; lia.
Qed.
Lemma out_two : forall r r', r <> r' -> between zcross (out_segs r) (out_segs r') = if beside r r' then 1 else 0.
Proof.
  intros r r' N. rewrite <- (one_side r r' N). unfold out_segs. cbn [between filter].
  assert (E1 : zcross (cx c, yy 2, (cx c, yy r)) (cx c, yy 2, (cx c, yy r')) = false) by (apply not_true_is_false; rewrite zcross_iff; tauto).
  assert (E2 : zcross (cx c, yy r, (lx (c + 1), yy r)) (cx c, yy r', (lx (c + 1), yy r')) = false) by (apply apart_y; unfold yy; lia).
  rewrite E1, E2, (zcross_sym (cx c, yy r, (lx (c + 1), yy r))), !upright_rows by (unfold cx, lx; lia).
  destruct (Z.ltb (Z.min 2 r) r' && Z.ltb r' (Z.max 2 r)); destruct (Z.ltb (Z.min 2 r') r && Z.ltb r (Z.max 2 r')); reflexivity.
Qed.
Lemma upright_end : forall x x' y1 y2 y : Z, x <> x' -> zcross ((x, y1), (x, y2)) ((x', y), (x, y)) = Z.ltb (Z.min y1 y2) y && Z.ltb y (Z.max y1 y2).
Proof.
  intros x x' y1 y2 y N. apply eq_true_iff_eq. rewrite zcross_iff, andb_true_iff, !Z.ltb_lt. split.
  - intros (A & B & C1 & C2 & C3 & C4). clear C1 C3. assert (y1 <> y) by tauto. assert (y2 <> y) by tauto. lia.
  - intros [A B]. split; [lia|]. split; [lia|]. assert (y1 <> y) by lia. assert (y2 <> y) by lia. tauto.
Qed.
Lemma home_rows : forall x x' r r', x <> x' -> r <> 2%Z -> r' <> 2%Z ->
  zcross ((x, yy r), (x, 250%Z)) ((x', yy r'), (x, yy r')) = Z.ltb (Z.min 2 r) r' && Z.ltb r' (Z.max 2 r).
Proof. intros x x' r r' N R R'. rewrite upright_end by exact N. apply eq_true_iff_eq. rewrite !andb_true_iff, !Z.ltb_lt. unfold yy. lia. Qed.
Lemma home_alone : forall n r, (Z.of_nat n <= w)%Z -> pairs zcross (home_segs n r) = 0.
Proof.
  intros n r L. unfold home_segs. destruct (Z.eqb_spec r 2) as [->|N]; [reflexivity|]. cbn [pairs filter].
  rewrite zcross_sym, home_rows by (unfold cx; lia). destruct (Z.ltb_spec (Z.min 2 r) r), (Z.ltb_spec r (Z.max 2 r)); try reflexivity; lia.
Qed.
Lemma line_home : forall n r n' r', (Z.of_nat n <= w)%Z -> (r = r' -> n = n') -> between zcross (line_segs (c + 1) n r) (home_segs n' r') = 0.
Proof.
  intros n r n' r' L E. apply between_zero. intros a b Ha Hb. destruct (in_line_segs _ _ _ _ Ha) as (i & Hi & ->).
  unfold home_segs in Hb. destruct (Z.eq_dec r r') as [Er|Er].
  - specialize (E Er). subst n' r'. destruct (Z.eqb_spec r 2) as [->|N]; [destruct Hb as [<-|[]]|destruct Hb as [<-|[<-|[]]]]; apply apart_x; unfold cx, lx; lia.
  - destruct (Z.eqb_spec r' 2) as [->|N]; [destruct Hb as [<-|[]]|destruct Hb as [<-|[<-|[]]]]; [apply apart_y; unfold yy; lia|apply apart_y; unfold yy; lia|apply apart_x; unfold cx, lx; lia].
Qed.
Lemma between_sym : forall l m, between zcross l m = between zcross m l.
Proof.
  induction l as [|a l IH]; intro m; [symmetry; apply between_nil|]. cbn [between]. rewrite IH. clear IH. induction m as [|b m IH]; [reflexivity|].
  cbn [between filter]. rewrite (zcross_sym b a). destruct (zcross a b); cbn [length]; lia.
Qed.
Lemma branch_alone : forall it, fits it -> pairs zcross (branch_segs it) = 0.
Proof.
  intros [n r] [F1 F2]. cbn [fst snd] in *. unfold branch_segs. cbn [fst snd]. rewrite pairs_app, line_alone, home_alone, line_home by auto. reflexivity.
Qed.
Lemma home_two : forall n r n' r', (Z.of_nat n <= w)%Z -> (Z.of_nat n' <= w)%Z -> r <> r' -> between zcross (home_segs n r) (home_segs n' r') = if beside r r' then 1 else 0.
Proof.
  intros n r n' r' L L' N. unfold home_segs. destruct (Z.eqb_spec r 2) as [->|R], (Z.eqb_spec r' 2) as [->|R'].
  - congruence.
  - cbn [between filter]. rewrite apart_y, apart_x by (unfold yy, cx, lx; lia). reflexivity.
  - cbn [between filter]. rewrite apart_y, (zcross_sym _ (cx (c + Z.of_nat n'), yy 2, (lx (c + w + 1), yy 2))), apart_x by (unfold yy, cx, lx; lia).
    destruct (beside r 2) eqn:B; [apply beside_iff in B; lia|reflexivity].
  - rewrite <- (one_side r r' N). cbn [between filter].
    assert (E1 : zcross (cx (c + w + 1), yy r, (cx (c + w + 1), 250%Z)) (cx (c + w + 1), yy r', (cx (c + w + 1), 250%Z)) = false) by (apply not_true_is_false; rewrite zcross_iff; tauto).
    rewrite apart_y by (unfold yy; lia). rewrite E1, (zcross_sym (cx (c + Z.of_nat n), yy r, (cx (c + w + 1), yy r))), !home_rows by (auto; unfold cx; lia).
    destruct (Z.ltb (Z.min 2 r) r' && Z.ltb r' (Z.max 2 r)); destruct (Z.ltb (Z.min 2 r') r && Z.ltb r (Z.max 2 r')); reflexivity.
Qed.
Lemma line_two : forall n r n' r', r <> r' -> between zcross (line_segs (c + 1) n r) (line_segs (c + 1) n' r') = 0.
Proof.
  intros n r n' r' N. apply between_zero. intros a b Ha Hb. destruct (in_line_segs _ _ _ _ Ha) as (i & Hi & ->). destruct (in_line_segs _ _ _ _ Hb) as (i' & Hi' & ->).
  apply apart_y. unfold yy. lia.
Qed.
Lemma branch_two : forall a b, fits a -> fits b -> snd a <> snd b -> between zcross (branch_segs a) (branch_segs b) = if beside (snd a) (snd b) then 1 else 0.
Proof.
  intros [n r] [n' r'] [F1 F2] [F3 F4] N. cbn [fst snd] in *. unfold branch_segs. cbn [fst snd]. rewrite between_app_l, !between_app_r.
  rewrite line_two, line_home, (between_sym (home_segs n r)), line_home, home_two; auto; intro; congruence.
Qed.
Lemma branch_leave : forall it, fits it -> between zcross (branch_segs it) leave_segs = if Z.ltb 2 (snd it) then 2 else 0.
Proof.
  intros [n r] [F1 F2]. cbn [fst snd] in *. unfold branch_segs. cbn [fst snd]. rewrite between_app_l, (between_zero _ _ (line_segs _ _ _)).
  2:{ intros a b Ha Hb. destruct (in_line_segs _ _ _ _ Ha) as (i & Hi & ->). unfold leave_segs in Hb. destruct Hb as [<-|[<-|[]]]; apply apart_x; unfold cx, lx; lia. }
  unfold home_segs, leave_segs. destruct (Z.eqb_spec r 2) as [->|N]; cbn [between filter Nat.add].
  - rewrite !apart_x by (unfold cx, lx; lia). reflexivity.
  - rewrite !(apart_y _ (yy r) _ (yy r)) by (unfold yy; lia). cbn [length Nat.add].
    rewrite (upright (cx (c + w + 1)) (lx (c + w + 2))) by (unfold cx, lx; lia).
    destruct (Z.ltb_spec 2 r).
    + assert (E : zcross (cx (c + w + 1), yy r, (cx (c + w + 1), 250%Z)) (cx (c + w + 1), yy 2, (cx (c + w + 1), yy 2)) = true).
      { apply zcross_iff. split; [lia|]. split; [unfold yy; lia|]. assert (yy r <> yy 2) by (unfold yy; lia). assert (250 <> yy 2)%Z by (unfold yy; lia). tauto. }
      rewrite E. destruct (Z.ltb_spec (Z.min (yy r) 250) (yy 2)), (Z.ltb_spec (yy 2) (Z.max (yy r) 250)); try reflexivity; unfold yy in *; lia.
    + rewrite apart_y by (unfold yy; lia).
      destruct (Z.ltb_spec (Z.min (yy r) 250) (yy 2)), (Z.ltb_spec (yy 2) (Z.max (yy r) 250)); try reflexivity; unfold yy in *; lia.
Qed.
Lemma nodup_pairs : forall A (P : A -> A -> Prop) (f : A -> Z) l, NoDup (map f l) -> (forall a b, In a l -> In b l -> f a <> f b -> P a b) -> ForallOrdPairs P l.
Proof.
  intros A P f. induction l as [|a l IH]; intros N H; [constructor|]. cbn [map] in N. inversion N as [|x y N1 N2]; subst. constructor.
  - apply Forall_forall. intros b Hb. apply H; [left; reflexivity|right; exact Hb|]. intro E. apply N1. rewrite E. apply in_map. exact Hb.
  - apply IH; [exact N2|]. intros x y Hx Hy. apply H; right; assumption.
Qed.
(** A block of [k] branches has 2 h h crossings, where h is half of [k]. *)
Lemma block_pairs : forall items k, Permutation (map snd items) (fan k) -> NoDup (fan k) -> (forall it, In it items -> fits it) ->
  pairs zcross (block_segs items) = 2 * (k / 2) * (k / 2).
Proof.
  intros items k P N F. unfold block_segs. rewrite !pairs_app, between_app_r.
  assert (Ni : NoDup (map snd items)) by (eapply Permutation_NoDup; [symmetry; exact P|exact N]).
  rewrite (pairs_groups _ _ zcross (fun a b => beside (snd a) (snd b)) (fun it => out_segs (snd it))).
  2:{ intros a _. apply out_alone. }
  2:{ apply (nodup_pairs _ _ snd); [exact Ni|]. intros a b _ _ E. apply out_two. exact E. }
  rewrite (pairs_groups _ _ zcross (fun a b => beside (snd a) (snd b)) branch_segs).
  2:{ intros a Ha. apply branch_alone. auto. }
  2:{ apply (nodup_pairs _ _ snd); [exact Ni|]. intros a b Ha Hb E. apply branch_two; auto. }
  rewrite <- (pairs_map _ _ snd beside), (pairs_perm _ beside beside_sym _ _ P), beside_fan.
  rewrite (between_groups _ _ zcross branch_segs (fun it => if Z.ltb 2 (snd it) then 2 else 0) leave_segs) by (intros a Ha; apply branch_leave; auto).
  rewrite <- (map_map snd (fun r => if Z.ltb 2 r then 2 else 0)), (sum_perm _ _ (Permutation_map _ P)), below_fan.
  assert (Z1 : between zcross (flat_map (fun it : nat * Z => out_segs (snd it)) items) (flat_map branch_segs items) = 0).
  { apply between_zero. intros a b Ha Hb. apply in_flat_map in Ha, Hb. destruct Ha as [x [_ Ha]], Hb as [[n r] [Hy Hb]]. destruct (F _ Hy) as [G1 G2]. cbn [fst snd] in *.
    unfold branch_segs in Hb. cbn [fst snd] in Hb. apply in_app_or in Hb. unfold out_segs in Ha.
    destruct Hb as [Hb|Hb]; [destruct (in_line_segs _ _ _ _ Hb) as (i & Hi & ->)|unfold home_segs in Hb; destruct (Z.eqb r 2); [destruct Hb as [<-|[]]|destruct Hb as [<-|[<-|[]]]]];
      destruct Ha as [<-|[<-|[]]]; apply apart_x; unfold cx, lx; lia. }
  assert (Z2 : between zcross (flat_map (fun it : nat * Z => out_segs (snd it)) items) leave_segs = 0).
  { apply between_zero. intros a b Ha Hb. apply in_flat_map in Ha. destruct Ha as [x [Hx Ha]]. unfold out_segs in Ha. destruct (F _ Hx) as [G1 G2].
    destruct Hb as [<-|[<-|[]]]; destruct Ha as [<-|[<-|[]]]; apply apart_x; unfold cx, lx; lia. }
  rewrite Z1, Z2. assert (E : pairs zcross leave_segs = 0).
  { unfold leave_segs. cbn [pairs filter]. destruct (zcross _ _) eqn:E; [|reflexivity]. apply zcross_iff in E. tauto. }
  rewrite E. set (h := k / 2). destruct h; [reflexivity|]. nia.
Qed.
(** Everything is drawn between the middle of the first column and the column after the block. *)
Lemma block_range : forall items s, (forall it, In it items -> fits it) -> items <> [] -> In s (block_segs items) ->
  (cx c <= fst (fst s) /\ cx c <= fst (snd s) /\ fst (fst s) <= lx (c + w + 2) /\ fst (snd s) <= lx (c + w + 2))%Z /\ straight s.
Proof.
  intros items s F Ne Hs. assert (W : (1 <= w)%Z) by (destruct items as [|it items]; [congruence|]; destruct (F it (or_introl eq_refl)); lia).
  unfold block_segs in Hs. apply in_app_or in Hs. destruct Hs as [Hs|Hs].
  - apply in_flat_map in Hs. destruct Hs as [x [_ Hs]]. unfold out_segs in Hs. unfold straight. destruct Hs as [<-|[<-|[]]]; cbn [fst snd]; unfold cx, lx; split; try lia; tauto.
  - apply in_app_or in Hs. destruct Hs as [Hs|Hs].
    + apply in_flat_map in Hs. destruct Hs as [[n r] [Hx Hs]]. destruct (F _ Hx) as [G1 G2]. cbn [fst snd] in *. unfold branch_segs in Hs. cbn [fst snd] in Hs. apply in_app_or in Hs.
      destruct Hs as [Hs|Hs]; [destruct (in_line_segs _ _ _ _ Hs) as (i & Hi & ->)|unfold home_segs in Hs; destruct (Z.eqb_spec r 2) as [->|]; [destruct Hs as [<-|[]]|destruct Hs as [<-|[<-|[]]]]];
        unfold straight; cbn [fst snd]; unfold cx, lx; split; try lia; tauto.
    + unfold leave_segs in Hs. destruct Hs as [<-|[<-|[]]]; unfold straight; cbn [fst snd]; unfold cx, lx; split; try lia; tauto.
Qed.
End Block.
