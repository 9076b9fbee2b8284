(** The plan for a process whose blocks are not nested. *)
From Coq Require Import String List Bool Arith ZArith Lia Permutation.
From Verif Require Import Py PyFacts Consts Nx NxFacts Rep SpecRep RepFacts MetricsFacts Classify Layouter
  SpecLayout ClassifyFacts TopoFacts GridFacts LayoutFacts SpecBlocks SpecFlat SpecPlan PlanFacts.
Import ListNotations.
Open Scope string_scope.
Open Scope list_scope.

(** * Rows of the branches *)
Definition zsum (l : list Z) : Z := fold_right Z.add 0%Z l.
Lemma zsum_perm : forall l l', Permutation l l' -> zsum l = zsum l'.
Proof. unfold zsum. induction 1; cbn [fold_right]; lia. Qed.
Lemma zsum_app : forall l l', zsum (l ++ l') = (zsum l + zsum l')%Z.
Proof. unfold zsum. induction l; intros l'; cbn [app fold_right]; [|rewrite IHl]; lia. Qed.

Lemma half : forall k, k = 2 * (k / 2) + (if Nat.odd k then 1 else 0).
Proof. intro k. pose proof (Nat.div2_odd k) as E. rewrite Nat.div2_div in E. destruct (Nat.odd k); cbn [Nat.b2n] in E; lia. Qed.

Lemma fan_split : forall k, map (fun i => split_row k i 2) (seq 0 k) = fan k.
Proof.
  intro k. unfold fan. pose proof (half k) as H. set (c := k / 2) in *.
  assert (Lo : forall i, i < c -> split_row k i 2 = (2 + 2 * (Z.of_nat i + 1))%Z).
  { intros i L. unfold split_row. fold c. replace (Nat.ltb i c) with true by (symmetry; apply Nat.ltb_lt; auto).
    unfold grid_column_width. destruct (Nat.odd k); lia. }
  assert (Hi : forall i, i < c -> split_row k (k - c + i) 2 = (2 - 2 * (Z.of_nat i + 1))%Z).
  { intros i L. unfold split_row. fold c. replace (Nat.ltb (k - c + i) c) with false by (symmetry; apply Nat.ltb_ge; lia).
    unfold grid_column_width. destruct (Nat.odd k); [|lia].
    replace (Nat.eqb (k - c + i) c) with false by (symmetry; apply Nat.eqb_neq; lia). lia. }
  assert (Mi : Nat.odd k = true -> split_row k c 2 = 2%Z).
  { intros O. unfold split_row. fold c. rewrite O, Nat.ltb_irrefl, Nat.eqb_refl. reflexivity. }
  assert (Sh : forall u n, map (fun i => split_row k i 2) (seq u n) = map (fun i => split_row k (u + i) 2) (seq 0 n)).
  { intros u n. rewrite <- (Nat.add_0_r u) at 1. generalize 0. induction n as [|n IH]; intros z; cbn [seq map]; auto.
    f_equal. rewrite <- Nat.add_succ_r. apply IH. }
  assert (Es : seq 0 k = seq 0 (c + ((if Nat.odd k then 1 else 0) + c))) by (f_equal; lia). rewrite Es, !seq_app, !map_app. f_equal; [|f_equal].
  - apply map_ext_in. intros i Hx. apply in_seq in Hx. apply Lo. lia.
  - destruct (Nat.odd k); cbn [seq map Nat.add]; [|reflexivity]. rewrite Mi; auto.
  - rewrite Sh. apply map_ext_in. intros i Hx. apply in_seq in Hx. rewrite <- Hi by lia. f_equal. cbn [Nat.add]. lia.
Qed.
Lemma fan_sum : forall k, zsum (fan k) = (2 * Z.of_nat k)%Z.
Proof.
  intro k. unfold fan. rewrite !zsum_app. pose proof (half k) as H.
  assert (E : forall l, (zsum (map (fun i => 2 + 2 * (Z.of_nat i + 1))%Z l) + zsum (map (fun i => 2 - 2 * (Z.of_nat i + 1))%Z l) = 4 * Z.of_nat (length l))%Z).
  { unfold zsum. induction l as [|a l IH]; cbn [map fold_right length]; lia. }
  specialize (E (seq 0 (k / 2))). rewrite seq_length in E. destruct (Nat.odd k); unfold zsum in *; cbn [fold_right] in *; lia.
Qed.
Lemma fan_nodup : forall k, NoDup (fan k).
Proof.
  intro k. unfold fan. apply NoDup_app; [|apply NoDup_app|].
  - apply FinFun.Injective_map_NoDup; [intros a b E; lia|apply seq_NoDup].
  - destruct (Nat.odd k); repeat constructor; auto.
  - apply FinFun.Injective_map_NoDup; [intros a b E; lia|apply seq_NoDup].
  - intros x Hx C. apply in_map_iff in C. destruct C as [i [E _]]. destruct (Nat.odd k); [destruct Hx as [<-|[]]; lia|contradiction].
  - intros x Hx C. apply in_map_iff in Hx. destruct Hx as [i [E _]]. apply in_app_or in C. destruct C as [C|C].
    + destruct (Nat.odd k); [destruct C as [<-|[]]; lia|contradiction].
    + apply in_map_iff in C. destruct C as [j [E' _]]. lia.
Qed.

(** The first place of a string in a list. *)
Fixpoint index (a : string) (l : list string) : nat :=
  match l with [] => 0 | x :: t => if String.eqb a x then 0 else S (index a t) end.
Lemma index_nth : forall a l, In a l -> nth_error l (index a l) = Some a.
Proof.
  induction l as [|x t IH]; intros H; [contradiction|]. cbn [index]. destruct (String.eqb_spec a x) as [->|N]; [reflexivity|].
  destruct H as [->|H]; [congruence|]. cbn [nth_error]. auto.
Qed.
Lemma index_seq : forall l, NoDup l -> map (fun a => index a l) l = seq 0 (length l).
Proof.
  assert (G : forall l pre, NoDup (pre ++ l) -> map (fun a => index a (pre ++ l)) l = seq (length pre) (length l)).
  { induction l as [|x t IH]; intros pre N; [reflexivity|]. cbn [map length seq]. f_equal.
    - apply (proj1 (NoDup_nth_error (pre ++ x :: t)) N).
      + apply nth_error_Some. rewrite index_nth by (apply in_or_app; right; left; auto). discriminate.
      + rewrite index_nth by (apply in_or_app; right; left; auto). rewrite nth_error_app2, Nat.sub_diag by lia. reflexivity.
    - replace (pre ++ x :: t) with ((pre ++ [x]) ++ t) in * by (rewrite <- app_assoc; reflexivity). rewrite (IH (pre ++ [x]) N).
      rewrite app_length. cbn [length]. rewrite Nat.add_1_r. reflexivity. }
  intros l N. apply (G l []). auto.
Qed.

(** * The plan *)
Definition names (b : branch_t) : list string := map first_of (fst b).
Definition first (b : branch_t) : string := hd "" (names b).
Definition firsts (bs : list branch_t) : list string := map first bs.
Definition row_in (order : list string) (bs : list branch_t) (a : string) : Z :=
  split_row (length bs) (index a (filter (fun x => smem x (firsts bs)) order)) 2.

Lemma rows_fan : forall order bs, NoDup order -> NoDup (firsts bs) -> incl (firsts bs) order ->
  Permutation (map (row_in order bs) (firsts bs)) (fan (length bs)).
Proof.
  intros order bs No Nf I. set (F := filter (fun x => smem x (firsts bs)) order).
  assert (P : Permutation (firsts bs) F).
  { apply NoDup_Permutation; [auto|apply NoDup_filter; auto|]. intro x. unfold F. rewrite filter_In, smem_In. split; [auto|tauto]. }
  assert (Lf : length F = length bs) by (rewrite <- (Permutation_length P); apply map_length).
  rewrite (Permutation_map (row_in order bs) P). unfold row_in. fold F. rewrite <- fan_split.
  rewrite <- (map_map (fun a => index a F) (fun i => split_row (length bs) i 2)), index_seq, Lf; [reflexivity|].
  apply NoDup_filter. auto.
Qed.

Fixpoint line (row col : Z) (ns : list string) : list (string * (Z * Z)) :=
  match ns with [] => [] | n :: t => (n, (row, col)) :: line row (col + 1) t end.
Fixpoint plan (order : list string) (col : Z) (ps : list part) (e : string) : list (string * (Z * Z)) :=
  match ps with
  | [] => [(e, (2, col)%Z)]
  | Act n :: qs => (n, (2, col)%Z) :: plan order (col + 1) qs e
  | Block g j bs :: qs =>
      (g, (2, col)%Z) :: (j, (2, col + longest bs + 1)%Z) ::
      flat_map (fun b => line (row_in order bs (first b)) (col + 1) (names b)) bs ++ plan order (col + longest bs + 2) qs e
  end.

Lemma line_nth : forall row ns col m n, nth_error ns m = Some n -> In (n, (row, (col + Z.of_nat m)%Z)) (line row col ns).
Proof.
  induction ns as [|a t IH]; intros col m n H; [destruct m; discriminate|]. destruct m as [|m]; cbn [nth_error] in H.
  - injection H as ->. left. f_equal. f_equal. lia.
  - right. replace (col + Z.of_nat (S m))%Z with (col + 1 + Z.of_nat m)%Z by lia. apply IH. auto.
Qed.
Lemma line_in : forall row ns col n r k, In (n, (r, k)) (line row col ns) -> r = row /\ exists m, nth_error ns m = Some n /\ k = (col + Z.of_nat m)%Z.
Proof.
  induction ns as [|a t IH]; intros col n r k H; [contradiction|]. destruct H as [H|H].
  - injection H as <- <- <-. split; auto. exists 0. split; [reflexivity|lia].
  - destruct (IH _ _ _ _ H) as [-> [m [A ->]]]. split; auto. exists (S m). split; auto. lia.
Qed.
Lemma line_fst : forall row ns col, map fst (line row col ns) = ns.
Proof. induction ns as [|a t IH]; intros col; cbn; auto. f_equal. auto. Qed.

Lemma names_len : forall b, length (names b) = length (fst b).
Proof. intro b. apply map_length. Qed.
Lemma longest_ge : forall bs b, In b bs -> (Z.of_nat (length (names b)) <= longest bs)%Z.
Proof.
  intros bs b H. rewrite names_len. unfold longest. apply Nat2Z.inj_le.
  assert (F : Forall (fun k => k <= list_max (map (fun b : branch_t => length (fst b)) bs)) (map (fun b : branch_t => length (fst b)) bs))
    by (apply list_max_le; lia).
  rewrite Forall_forall in F. apply F. apply (in_map (fun b : branch_t => length (fst b)) bs b H).
Qed.
Lemma longest_nonneg : forall bs, (0 <= longest bs)%Z.
Proof. intro bs. unfold longest. lia. Qed.
Lemma longest_reached : forall bs, bs <> [] -> exists b, In b bs /\ longest bs = Z.of_nat (length (names b)).
Proof.
  intros bs H. unfold longest.
  assert (G : exists b, In b bs /\ list_max (map (fun b : branch_t => length (fst b)) bs) = length (fst b)).
  { induction bs as [|a t IH]; [congruence|]. cbn [map list_max fold_right]. fold (list_max (map (fun b : branch_t => length (fst b)) t)).
    destruct t as [|a' t].
    - exists a. split; [left; auto|]. cbn. lia.
    - destruct IH as [b [Hb Eb]]; [discriminate|]. rewrite Eb. destruct (Nat.max_spec (length (fst a)) (length (fst b))) as [[_ ->]|[_ ->]]; [exists b|exists a]; split; auto; [right|left]; auto. }
  destruct G as [b [Hb Eb]]. exists b. split; auto. rewrite names_len. apply f_equal. exact Eb.
Qed.

(** ** What the parts look like when blocks are not nested *)
Fixpoint chain (x : string) (ns : list string) (y : string) : list (string * string) :=
  match ns with [] => [(x, y)] | n :: t => (x, n) :: chain n t y end.
Lemma chain_in : forall ns x y a b, In (a, b) (chain x ns y) <->
  exists i, nth_error (x :: ns) i = Some a /\ nth_error (ns ++ [y]) i = Some b.
Proof.
  induction ns as [|n t IH]; intros x y a b; cbn [chain].
  - split.
    + intros [H|[]]. injection H as <- <-. exists 0. auto.
    + intros [[|i] [A B]]; cbn in A, B; [left; congruence|destruct i; discriminate].
  - split.
    + intros [H|H]; [injection H as <- <-; exists 0; auto|]. apply IH in H. destruct H as [i [A B]]. exists (S i). auto.
    + intros [[|i] [A B]]; cbn [nth_error app] in A, B; [left; congruence|]. right. apply IH. exists i. auto.
Qed.

Lemma plain_nodes : forall g j bs, plain_part (Block g j bs) -> part_nodes (Block g j bs) = g :: j :: flat_map names bs.
Proof.
  intros g j bs [_ P]. cbn [part_nodes]. f_equal. f_equal. induction bs as [|b t IH]; [reflexivity|]. cbn [flat_map].
  rewrite IH by (intros x Hx; apply P; right; auto). f_equal. destruct (P b (or_introl eq_refl)) as [A [_ S]]. rewrite S, app_nil_r.
  unfold names. clear - A. induction (fst b) as [|p q IHq]; [reflexivity|]. cbn [flat_map map].
  destruct (A p (or_introl eq_refl)) as [n ->]. cbn [part_nodes first_of app]. f_equal. apply IHq. intros x Hx. apply A. right; auto.
Qed.
Lemma plain_flows : forall g j bs, plain_part (Block g j bs) -> inner_flows (Block g j bs) = flat_map (fun b => chain g (names b) j) bs.
Proof.
  intros g j bs [_ P]. cbn [inner_flows]. induction bs as [|b t IH]; [reflexivity|]. cbn [flat_map].
  rewrite IH by (intros x Hx; apply P; right; auto). f_equal. destruct (P b (or_introl eq_refl)) as [A [_ S]]. rewrite S.
  unfold names. clear - A. generalize g. induction (fst b) as [|p q IHq]; intros x; [reflexivity|]. cbn [map chain].
  destruct (A p (or_introl eq_refl)) as [n ->]. cbn [first_of last_of inner_flows app]. f_equal. apply IHq. intros y Hy. apply A. right; auto.
Qed.
Lemma plain_first : forall b, plain_branch b -> nth_error (names b) 0 = Some (first b).
Proof. intros b [_ [N _]]. unfold first, names. destruct (fst b); [congruence|reflexivity]. Qed.

Definition nodes (ps : list part) (e : string) : list string := flat_map part_nodes ps ++ [e].
Lemma path_ends : forall ps x e a b, (forall p, In p ps -> plain_part p) -> In (a, b) (path_flows x ps e) ->
  In a (x :: flat_map part_nodes ps) /\ In b (nodes ps e).
Proof.
  unfold nodes. induction ps as [|p qs IH]; intros x e a b P H; cbn [path_flows flat_map app] in *.
  - destruct H as [H|[]]. injection H as <- <-. split; left; auto.
  - destruct H as [H|H]; [injection H as <- <-; split; [left; auto|destruct p; left; auto]|].
    assert (L : In (last_of p) (part_nodes p)) by (destruct p; cbn; auto).
    apply in_app_or in H. destruct H as [H|H].
    + destruct p as [n|g j bs]; [contradiction|]. specialize (P _ (or_introl eq_refl)). rewrite plain_flows in H by auto.
      rewrite plain_nodes by auto. apply in_flat_map in H. destruct H as [c [Hc H]]. apply chain_in in H. destruct H as [i [A B]].
      split.
      * destruct i as [|i]; cbn [nth_error] in A; [injection A as <-; right; left; auto|]. right. apply in_or_app. left. right. right.
        apply in_flat_map. exists c. split; auto. eapply nth_error_In; eauto.
      * apply nth_error_In in B. apply in_app_or in B. rewrite <- app_assoc. apply in_or_app. left. destruct B as [B|[<-|[]]]; [|right; left; auto].
        right. right. apply in_flat_map. exists c. auto.
    + apply IH in H; [|intros q Hq; apply P; right; auto]. destruct H as [[<-|A] B]; split.
      * right. apply in_or_app. left. auto.
      * rewrite <- app_assoc. apply in_or_app. auto.
      * right. apply in_or_app. auto.
      * rewrite <- app_assoc. apply in_or_app. auto.
Qed.

Lemma flat_unique : forall A B (f : A -> list B) l i i' b b' n, NoDup (flat_map f l) -> nth_error l i = Some b -> nth_error l i' = Some b' ->
  In n (f b) -> In n (f b') -> i = i'.
Proof.
  intros A B f. induction l as [|a t IH]; intros i i' b b' n N H H' I I'; [destruct i; discriminate|].
  cbn [flat_map] in N. assert (D : forall x, In x (f a) -> In x (flat_map f t) -> False).
  { clear - N. intros x Hx Ht. induction (f a) as [|y u IHu]; [contradiction|]. cbn [app] in N. inv N. destruct Hx as [->|Hx]; [apply H1, in_or_app; auto|auto]. }
  destruct i as [|i], i' as [|i']; cbn [nth_error] in H, H'; auto.
  - exfalso. injection H as ->. apply (D n I). apply in_flat_map. exists b'. split; auto. eapply nth_error_In; eauto.
  - exfalso. injection H' as ->. apply (D n I'). apply in_flat_map. exists b. split; auto. eapply nth_error_In; eauto.
  - f_equal. eapply IH; eauto. eapply nodup_r; eauto.
Qed.
Lemma flat_nodup : forall A B (f : A -> list B) l b, NoDup (flat_map f l) -> In b l -> NoDup (f b).
Proof.
  intros A B f. induction l as [|a t IH]; intros b N H; [contradiction|]. cbn [flat_map] in N.
  destruct H as [->|H]; [eapply nodup_l; eauto|]. apply IH; auto. eapply nodup_r; eauto.
Qed.

(** * Columns and cells *)
Lemma plan_cols : forall order ps col e n r k, In (n, (r, k)) (plan order col ps e) -> (col <= k)%Z.
Proof.
  induction ps as [|[m|g j bs] qs IH]; intros col e n r k H; cbn [plan] in H.
  - destruct H as [H|[]]. injection H as _ _ <-. lia.
  - destruct H as [H|H]; [injection H as _ _ <-; lia|]. apply IH in H. lia.
  - pose proof (longest_nonneg bs). destruct H as [H|[H|H]]; [injection H as _ _ <-; lia|injection H as _ _ <-; lia|].
    apply in_app_or in H. destruct H as [H|H]; [|apply IH in H; lia].
    apply in_flat_map in H. destruct H as [b [_ H]]. apply line_in in H. destruct H as [_ [m [_ ->]]]. lia.
Qed.

Lemma lines_fst : forall (f : branch_t -> Z) c bs, map fst (flat_map (fun b => line (f b) c (names b)) bs) = flat_map names bs.
Proof. intros f c. induction bs as [|b t IH]; [reflexivity|]. cbn [flat_map]. rewrite map_app, line_fst, IH. reflexivity. Qed.
Lemma plan_fst : forall order ps col e, (forall p, In p ps -> plain_part p) ->
  map fst (plan order col ps e) = nodes ps e.
Proof.
  unfold nodes. induction ps as [|[m|g j bs] qs IH]; intros col e P; cbn [plan flat_map app map fst]; [reflexivity| |].
  - cbn [part_nodes app]. f_equal. apply IH. intros p Hp. apply P. right; auto.
  - rewrite plain_nodes by (apply P; left; auto). cbn [app]. f_equal. f_equal. rewrite map_app, IH by (intros p Hp; apply P; right; auto).
    rewrite <- app_assoc. f_equal. apply (lines_fst (fun b => row_in order bs (first b))).
Qed.

(** Different nodes have different cells. *)
Lemma plan_cells : forall order ps col e, NoDup order -> NoDup (nodes ps e) -> incl (nodes ps e) order ->
  (forall p, In p ps -> plain_part p) ->
  forall n n' c, In (n, c) (plan order col ps e) -> In (n', c) (plan order col ps e) -> n = n'.
Proof.
  intros order. induction ps as [|[m|g j bs] qs IH]; intros col e No Nn Io P n n' [r k] H H'; cbn [plan] in H, H'.
  - destruct H as [H|[]], H' as [H'|[]]. congruence.
  - unfold nodes in Nn, Io. cbn [flat_map part_nodes app] in Nn, Io. inv Nn.
    destruct H as [H|H], H' as [H'|H'].
    + congruence.
    + injection H as <- <- <-. apply plan_cols in H'. lia.
    + injection H' as <- <- <-. apply plan_cols in H. lia.
    + eapply (IH (col + 1)%Z e); eauto; [intros x Hx; apply Io; right; auto|intros p Hp; apply P; right; auto].
  - change (list branch_t) in (type of bs). pose proof (P _ (or_introl eq_refl)) as Pb. unfold nodes in Nn, Io. cbn [flat_map] in Nn, Io. rewrite plain_nodes in Nn, Io by auto.
    rewrite <- app_assoc in Nn, Io. cbn [app] in Nn, Io.
    assert (Nt : NoDup (flat_map part_nodes qs ++ [e])) by (do 2 (apply NoDup_cons_iff in Nn; destruct Nn as [_ Nn]); eapply nodup_r; eauto).
    assert (Nb : NoDup (flat_map names bs)) by (do 2 (apply NoDup_cons_iff in Nn; destruct Nn as [_ Nn]); eapply nodup_l; eauto).
    assert (Ib : incl (flat_map names bs) order) by (intros x Hx; apply Io; right; right; apply in_or_app; auto).
    assert (If : incl (firsts bs) (flat_map names bs)).
    { intros x Hx. apply in_map_iff in Hx. destruct Hx as [b [<- Hb]]. apply in_flat_map. exists b. split; auto.
      eapply nth_error_In. apply plain_first. apply Pb. auto. }
    assert (Nf : NoDup (firsts bs)).
    { apply NoDup_nth_error. intros i i' Hi E. unfold firsts in *. rewrite map_length in Hi. rewrite !nth_error_map in E.
      destruct (nth_error bs i) as [b|] eqn:Eb; [|apply nth_error_None in Eb; exfalso; exact (Nat.lt_irrefl _ (Nat.lt_le_trans _ _ _ Hi Eb))]. cbn [option_map] in E.
      destruct (nth_error bs i') as [b'|] eqn:Eb'; [|discriminate]. cbn [option_map] in E. injection E as E.
      eapply (flat_unique _ _ names bs i i' b b' (first b)); eauto.
      - eapply nth_error_In. apply plain_first. apply Pb. eapply nth_error_In; eauto.
      - rewrite E. eapply nth_error_In. apply plain_first. apply Pb. eapply nth_error_In; eauto. }
    assert (Nr : NoDup (map (row_in order bs) (firsts bs))).
    { eapply Permutation_NoDup; [symmetry; apply rows_fan; auto|apply fan_nodup]. intros x Hx. auto. }
    assert (Br : forall x, In x (flat_map (fun b => line (row_in order bs (first b)) (col + 1) (names b)) bs) ->
       exists i b m, nth_error bs i = Some b /\ nth_error (names b) m = Some (fst x) /\ snd x = (row_in order bs (first b), (col + 1 + Z.of_nat m)%Z) /\
          (col + 1 + Z.of_nat m <= col + longest bs)%Z).
    { intros [a [u v]] Hx. apply in_flat_map in Hx. destruct Hx as [b [Hb Hx]]. apply line_in in Hx. destruct Hx as [-> [m [Hm ->]]].
      destruct (In_nth_error _ _ Hb) as [i Hi]. exists i, b, m. cbn [fst snd]. split; auto. split; auto. split; auto.
      pose proof (longest_ge bs b Hb). assert (m < length (names b)) by (apply nth_error_Some; congruence). lia. }
    pose proof (longest_nonneg bs) as L0.
    assert (Cases : forall x, In (x, (r, k)) ((g, (2, col)%Z) :: (j, (2, col + longest bs + 1)%Z) ::
      flat_map (fun b => line (row_in order bs (first b)) (col + 1) (names b)) bs ++ plan order (col + longest bs + 2) qs e) ->
      (x = g /\ k = col) \/ (x = j /\ k = col + longest bs + 1)%Z \/
      (In (x, (r, k)) (flat_map (fun b => line (row_in order bs (first b)) (col + 1) (names b)) bs) /\ (col < k < col + longest bs + 1)%Z) \/
      (In (x, (r, k)) (plan order (col + longest bs + 2) qs e) /\ (col + longest bs + 1 < k)%Z)).
    { intros x [Hx|[Hx|Hx]]; [left; injection Hx; auto|right; left; injection Hx; auto|]. apply in_app_or in Hx. destruct Hx as [Hx|Hx].
      - right. right. left. split; auto. destruct (Br _ Hx) as [i [b [m [_ [_ [E L]]]]]]. cbn [snd] in E. injection E as _ ->. lia.
      - right. right. right. split; auto. apply plan_cols in Hx. lia. }
    apply Cases in H. apply Cases in H'.
    destruct H as [[-> E1]|[[-> E1]|[[H E1]|[H E1]]]], H' as [[-> E2]|[[-> E2]|[[H' E2]|[H' E2]]]]; try lia; auto.
    + destruct (Br _ H) as [i [b [m [Hb [Hm [E _]]]]]]. destruct (Br _ H') as [i' [b' [m' [Hb' [Hm' [E' _]]]]]]. cbn [fst snd] in *.
      rewrite E' in E. injection E as Er Em. assert (m' = m) by lia. subst m'.
      assert (i = i').
      { apply (proj1 (NoDup_nth_error (map (row_in order bs) (firsts bs))) Nr).
        - unfold firsts. rewrite !map_length. apply nth_error_Some. congruence.
        - unfold firsts. rewrite !nth_error_map, Hb, Hb'. cbn [option_map]. congruence. }
      subst i'. congruence.
    + eapply (IH (col + longest bs + 2)%Z e); eauto.
      * intros x Hx. apply Io. right. right. apply in_or_app. right. auto.
      * intros p Hp. apply P. right; auto.
Qed.
