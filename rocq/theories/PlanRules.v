(** The plan for a process whose blocks are not nested obeys the rules of the layouter. *)
From Coq Require Import String List Bool Arith ZArith Lia Permutation.
From Verif Require Import Py PyFacts Consts Nx NxFacts Rep SpecRep RepFacts MetricsFacts Classify Layouter
  SpecLayout ClassifyFacts TopoFacts GridFacts LayoutFacts SpecBlocks SpecFlat SpecPlan PlanFacts PlanBlocks.
Import ListNotations.
Open Scope string_scope.
Open Scope list_scope.

Lemma lists_one : forall (P : string -> Prop) y, (forall a, P a <-> a = y) -> lists P [y].
Proof.
  intros P y H. split; [repeat constructor; auto|]. intro x. rewrite H. split; [intros [<-|[]]; auto|intros ->; left; auto].
Qed.

Lemma nth_names : forall (l : list string) z m n, nth_error (l ++ [z]) m = Some n -> (m < length l /\ nth_error l m = Some n) \/ (m = length l /\ n = z).
Proof.
  intros l z m n H. destruct (Nat.lt_ge_cases m (length l)) as [L|L].
  - left. rewrite nth_error_app1 in H by auto. auto.
  - right. rewrite nth_error_app2 in H by auto. destruct (m - length l) as [|q] eqn:E; [|destruct q; discriminate].
    cbn in H. split; [lia|congruence].
Qed.

Section Rules.
Variable d : diagram.
Variable s0 : list cnode.
Variable pos : string -> Z * Z.
Let order : list string := map cid s0.
Hypothesis No : NoDup order.

(** The first flow of a sequence is the only one at its ends. *)
Lemma link_rule : forall x y R col, (forall a, goes d a y <-> In (a, y) ((x, y) :: R)) -> (forall b, goes d x b <-> In (x, b) ((x, y) :: R)) ->
  (forall a, ~ In (a, y) R) -> (forall b, ~ In (x, b) R) -> pos x = (2, col - 1)%Z -> pos y = (2, col)%Z -> ruled d s0 pos y.
Proof.
  intros x y R col H1 H2 R1 R2 Px Py. apply (r_step _ _ _ _ x).
  - apply lists_one. intro a. rewrite H1. split; [intros [E|C]; [congruence|destruct (R1 a C)]|intros ->; left; auto].
  - apply lists_one. intro a. rewrite H2. split; [intros [E|C]; [congruence|destruct (R2 a C)]|intros ->; left; auto].
  - rewrite Px, Py. cbn. f_equal. lia.
Qed.

Section Block.
Variables (g j : string) (bs : list branch_t) (col : Z).
Hypothesis C1 : (1 <= col)%Z.
Hypothesis Pb : plain_part (Block g j bs).
Hypothesis Nb : NoDup (g :: j :: flat_map names bs).
Hypothesis Ib : incl (flat_map names bs) order.
Hypothesis To : forall a b, In b (flat_map names bs) \/ b = j -> (goes d a b <-> In (a, b) (flat_map (fun b => chain g (names b) j) bs)).
Hypothesis From : forall a b, In a (flat_map names bs) \/ a = g -> (goes d a b <-> In (a, b) (flat_map (fun b => chain g (names b) j) bs)).
Hypothesis Pg : pos g = (2, col)%Z.
Hypothesis Pj : pos j = (2, col + longest bs + 1)%Z.
Hypothesis Pi : forall b m n, In b bs -> nth_error (names b) m = Some n -> pos n = (row_in order bs (first b), (col + 1 + Z.of_nat m)%Z).

Lemma blk_in : forall b m n, In b bs -> nth_error (names b) m = Some n -> In n (flat_map names bs).
Proof using All. intros b m n Hb H. apply in_flat_map. exists b. split; auto. eapply nth_error_In; eauto. Qed.
Lemma blk_g : ~ In g (flat_map names bs) /\ g <> j /\ ~ In j (flat_map names bs).
Proof using All.
  pose proof Nb as N. apply NoDup_cons_iff in N. destruct N as [A B]. apply NoDup_cons_iff in B. destruct B as [B _].
  split; [intro C; apply A; right; auto|]. split; [intros ->; apply A; left; auto|auto].
Qed.
Lemma blk_nodup : NoDup (flat_map names bs).
Proof using All. pose proof Nb as N. do 2 (apply NoDup_cons_iff in N; destruct N as [_ N]). auto. Qed.
(** A node of a branch determines the branch and its place. *)
Lemma blk_place : forall i i' b b' m m' n, nth_error bs i = Some b -> nth_error bs i' = Some b' ->
  nth_error (names b) m = Some n -> nth_error (names b') m' = Some n -> i = i' /\ b = b' /\ m = m'.
Proof using All.
  intros i i' b b' m m' n H H' A A'. assert (i = i').
  { eapply (flat_unique _ _ names bs i i' b b' n); eauto; [apply blk_nodup|eapply nth_error_In; eauto|eapply nth_error_In; eauto]. }
  subst i'. assert (b' = b) by congruence. subst b'. split; auto. split; auto.
  pose proof (flat_nodup _ _ names bs b blk_nodup (nth_error_In _ _ H)) as N.
  apply (proj1 (NoDup_nth_error (names b)) N); [apply nth_error_Some; congruence|congruence].
Qed.

Lemma blk_flow : forall a b, In (a, b) (flat_map (fun b => chain g (names b) j) bs) <->
  exists i c m, nth_error bs i = Some c /\ nth_error (g :: names c) m = Some a /\ nth_error (names c ++ [j]) m = Some b.
Proof using All.
  intros a b. rewrite in_flat_map. split.
  - intros [c [Hc H]]. apply chain_in in H. destruct H as [m [A B]]. destruct (In_nth_error _ _ Hc) as [i Hi]. exists i, c, m. auto.
  - intros [i [c [m [Hi [A B]]]]]. exists c. split; [eapply nth_error_In; eauto|]. apply chain_in. exists m. auto.
Qed.

(** What leads to a node of a branch, and where it leads. *)
Lemma blk_pred : forall b m n, In b bs -> nth_error (names b) m = Some n ->
  forall a, goes d a n <-> nth_error (g :: names b) m = Some a.
Proof using All.
  intros b m n Hb Hm a. rewrite To by (left; eapply blk_in; eauto). rewrite blk_flow. destruct (In_nth_error _ _ Hb) as [i Hi]. split.
  - intros [i' [b' [m' [Hi' [A B]]]]]. apply nth_names in B. destruct B as [[_ B]|[_ ->]].
    + destruct (blk_place i i' b b' m m' n Hi Hi' Hm B) as [_ [<- <-]]. exact A.
    + exfalso. apply (proj2 (proj2 blk_g)). eapply blk_in; eauto.
  - intros A. exists i, b, m. split; auto. split; auto. rewrite nth_error_app1; auto. apply nth_error_Some. congruence.
Qed.
Lemma blk_succ : forall b m n, In b bs -> nth_error (names b) m = Some n ->
  forall a, goes d n a <-> nth_error (names b ++ [j]) (S m) = Some a.
Proof using All.
  intros b m n Hb Hm a. rewrite From by (left; eapply blk_in; eauto). rewrite blk_flow. destruct (In_nth_error _ _ Hb) as [i Hi]. split.
  - intros [i' [b' [m' [Hi' [A B]]]]]. destruct m' as [|m']; cbn [nth_error] in A.
    + exfalso. injection A as <-. apply (proj1 blk_g). eapply blk_in; eauto.
    + destruct (blk_place i i' b b' m m' n Hi Hi' Hm A) as [_ [<- <-]]. exact B.
  - intros A. exists i, b, (S m). auto.
Qed.
Lemma blk_firsts : lists (goes d g) (firsts bs).
Proof using All.
  split.
  - apply NoDup_nth_error. intros i i' Hi E. unfold firsts in *. rewrite map_length in Hi. rewrite !nth_error_map in E.
    destruct (nth_error bs i) as [b|] eqn:Eb; [|apply nth_error_None in Eb; lia]. cbn [option_map] in E.
    destruct (nth_error bs i') as [b'|] eqn:Eb'; [|discriminate]. cbn [option_map] in E. injection E as E.
    assert (F : nth_error (names b) 0 = Some (first b)) by (apply plain_first, Pb; eapply nth_error_In; eauto).
    assert (F' : nth_error (names b') 0 = Some (first b)) by (rewrite E; apply plain_first, Pb; eapply nth_error_In; eauto).
    destruct (blk_place i i' b b' 0 0 _ Eb Eb' F F') as [R _]. exact R.
  - intro x. rewrite From by auto. rewrite blk_flow. split.
    + intro H. apply in_map_iff in H. destruct H as [b [<- Hb]]. destruct (In_nth_error _ _ Hb) as [i Hi].
      exists i, b, 0. split; auto. split; auto. pose proof (plain_first b (proj2 Pb b Hb)) as F.
      rewrite nth_error_app1; auto. apply nth_error_Some. congruence.
    + intros [i [b [m [Hi [A B]]]]]. assert (Hb : In b bs) by (eapply nth_error_In; eauto). pose proof (plain_first b (proj2 Pb b Hb)) as F.
      destruct m as [|m]; cbn [nth_error] in A.
      * rewrite nth_error_app1 in B by (apply nth_error_Some; congruence). rewrite F in B. injection B as <-. apply in_map. auto.
      * exfalso. apply (proj1 blk_g). eapply blk_in; eauto.
Qed.
Lemma firsts_in : incl (firsts bs) (flat_map names bs).
Proof using All.
  intros x H. apply in_map_iff in H. destruct H as [b [<- Hb]]. eapply blk_in; eauto. apply plain_first. apply Pb. auto.
Qed.
Lemma blk_len : 2 <= length (firsts bs) /\ length (firsts bs) = length bs.
Proof using All. assert (E : length (firsts bs) = length bs) by apply map_length. rewrite E. split; [apply Pb|auto]. Qed.

(** The last nodes of the branches. *)
Definition lastn (b : branch_t) : string := nth (length (names b) - 1) (names b) "".
Lemma lastn_nth : forall b, In b bs -> nth_error (names b) (length (names b) - 1) = Some (lastn b) /\ 1 <= length (names b).
Proof using All.
  intros b Hb. pose proof (plain_first b (proj2 Pb b Hb)) as F. assert (L : 0 < length (names b)) by (apply nth_error_Some; congruence).
  split; [|lia]. apply nth_error_nth'. lia.
Qed.
Lemma blk_lasts : lists (fun p => goes d p j) (map lastn bs).
Proof using All.
  split.
  - apply NoDup_nth_error. intros i i' Hi E. rewrite map_length in Hi. rewrite !nth_error_map in E.
    destruct (nth_error bs i) as [b|] eqn:Eb; [|apply nth_error_None in Eb; lia]. cbn [option_map] in E.
    destruct (nth_error bs i') as [b'|] eqn:Eb'; [|discriminate]. cbn [option_map] in E. injection E as E.
    destruct (lastn_nth b (nth_error_In _ _ Eb)) as [F _]. destruct (lastn_nth b' (nth_error_In _ _ Eb')) as [F' _]. rewrite <- E in F'.
    destruct (blk_place i i' b b' _ _ _ Eb Eb' F F') as [R _]. exact R.
  - intro x. rewrite To by auto. rewrite blk_flow. split.
    + intro H. apply in_map_iff in H. destruct H as [b [<- Hb]]. destruct (In_nth_error _ _ Hb) as [i Hi]. destruct (lastn_nth b Hb) as [F L].
      exists i, b, (length (names b)). split; auto. split.
      * destruct (length (names b)) as [|q]; [lia|]. cbn [nth_error]. replace (S q - 1) with q in F by lia. auto.
      * rewrite nth_error_app2, Nat.sub_diag by lia. reflexivity.
    + intros [i [b [m [Hi [A B]]]]]. assert (Hb : In b bs) by (eapply nth_error_In; eauto). destruct (lastn_nth b Hb) as [F L].
      apply nth_names in B. destruct B as [[_ B]|[-> _]]; [exfalso; apply (proj2 (proj2 blk_g)); eapply blk_in; eauto|].
      destruct (length (names b)) as [|q]; [lia|]. cbn [nth_error] in A. replace (S q - 1) with q in F by lia. rewrite F in A. injection A as <-. apply in_map. auto.
Qed.

Lemma inner_rule : forall b m n, In b bs -> nth_error (names b) m = Some n -> ruled d s0 pos n.
Proof using All.
  intros b m n Hb Hm. pose proof (blk_pred b m n Hb Hm) as Hp. pose proof (blk_succ b m n Hb Hm) as Hs.
  destruct m as [|m]; cbn [nth_error] in Hp.
  - pose proof (plain_first b (proj2 Pb b Hb)) as F. rewrite F in Hm. injection Hm as <-.
    apply (r_branch _ _ _ _ g (firsts bs) (index (first b) (filter (fun x => smem x (firsts bs)) order))).
    + apply lists_one. intro a. rewrite Hp. split; congruence.
    + apply blk_firsts.
    + apply blk_len.
    + apply index_nth. apply filter_In. assert (Hf : In (first b) (firsts bs)) by (apply in_map; auto). split; [|apply smem_In; auto].
      apply Ib. apply firsts_in. auto.
    + intros x y Hx Hy. apply Hs in Hx, Hy. congruence.
    + rewrite (Pi b 0 _ Hb F), Pg. unfold row_in. rewrite (proj2 blk_len). cbn [fst snd]. f_equal. lia.
  - destruct (nth_error (names b) m) as [p|] eqn:Ep.
    + apply (r_step _ _ _ _ p).
      * apply lists_one. intro a. rewrite Hp. split; congruence.
      * apply lists_one. intro a. rewrite (blk_succ b m p Hb Ep a). rewrite nth_error_app1 by (apply nth_error_Some; congruence). rewrite Hm. split; congruence.
      * rewrite (Pi b (S m) n Hb Hm), (Pi b m p Hb Ep). cbn [fst snd]. f_equal. lia.
    + exfalso. apply nth_error_None in Ep. assert (S m < length (names b)) by (apply nth_error_Some; congruence). lia.
Qed.

Lemma join_rule : ruled d s0 pos j.
Proof using All.
  assert (Lp : forall b, In b bs -> pos (lastn b) = (row_in order bs (first b), (col + Z.of_nat (length (names b)))%Z)).
  { intros b Hb. destruct (lastn_nth b Hb) as [F L]. rewrite (Pi b _ _ Hb F). f_equal. lia. }
  assert (Rs : rowsum pos (map lastn bs) = zsum (map (row_in order bs) (firsts bs))).
  { unfold firsts. clear - Lp. assert (G : forall l, incl l bs -> rowsum pos (map lastn l) = zsum (map (row_in order bs) (map first l))).
    { induction l as [|b l IH]; intros I; [reflexivity|]. unfold rowsum, zsum in *. cbn [map fold_right].
      rewrite IH by (intros x Hx; apply I; right; auto). rewrite Lp by (apply I; left; auto). reflexivity. }
    apply G. apply incl_refl. }
  rewrite (zsum_perm _ _ (rows_fan order bs No (proj1 blk_firsts) (fun x H => Ib x (firsts_in x H)))), fan_sum in Rs.
  assert (Cm : colmax pos (map lastn bs) = (col + longest bs)%Z \/ bs = []).
  { destruct bs as [|b0 t] eqn:Ebs; [right; auto|]. left. rewrite <- Ebs in *.
    assert (U : (colmax pos (map lastn bs) <= Z.max 0 (col + longest bs))%Z /\ forall b, In b bs -> (col + Z.of_nat (length (names b)) <= colmax pos (map lastn bs))%Z).
    { assert (G : forall l, incl l bs -> (colmax pos (map lastn l) <= Z.max 0 (col + longest bs))%Z /\ forall b, In b l -> (col + Z.of_nat (length (names b)) <= colmax pos (map lastn l))%Z).
      { induction l as [|b l IH]; intros I; [split; [cbn; lia|intros ? []]|]. destruct IH as [A B]; [intros x Hx; apply I; right; auto|].
        assert (Hb : In b bs) by (apply I; left; auto). pose proof (longest_ge bs b Hb). unfold colmax in *. cbn [map fold_right]. rewrite (Lp b Hb). cbn [snd].
        split; [lia|]. intros x [<-|Hx]; [lia|]. specialize (B x Hx). lia. }
      apply G. apply incl_refl. }
    destruct U as [U1 U2]. destruct (longest_reached bs) as [b [Hb Eb]]; [rewrite Ebs; discriminate|]. specialize (U2 b Hb). rewrite <- Eb in U2.
    assert (0 <= colmax pos (map lastn bs))%Z by (unfold colmax; clear; induction (map lastn bs); cbn [fold_right]; lia).
    pose proof (longest_nonneg bs). lia. }
  assert (K2 : 2 <= length bs) by apply Pb. assert (Nz : length bs <> 0) by lia.
  destruct Cm as [Cm|E]; [|rewrite E in Nz; cbn in Nz; lia].
  apply (r_join _ _ _ _ (map lastn bs)).
  - apply blk_lasts.
  - rewrite map_length. apply Pb.
  - intros p Hp. apply in_map_iff in Hp. destruct Hp as [b [<- Hb]]. destruct (lastn_nth b Hb) as [F L]. apply lists_one. intro a.
    rewrite (blk_succ b _ _ Hb F a). rewrite nth_error_app2 by lia. replace (S (length (names b) - 1) - length (names b)) with 0 by lia.
    cbn. split; congruence.
  - rewrite Pj, Rs, Cm, map_length. f_equal. symmetry. apply Z.div_mul. lia.
Qed.
End Block.

(** * All nodes *)
Lemma rules : forall ps x col e, (1 <= col)%Z -> (forall p, In p ps -> plain_part p) -> NoDup (x :: nodes ps e) -> incl (nodes ps e) order ->
  (forall a b, In b (nodes ps e) -> (goes d a b <-> In (a, b) (path_flows x ps e))) ->
  (forall a b, In a (x :: nodes ps e) -> (goes d a b <-> In (a, b) (path_flows x ps e))) ->
  pos x = (2, col - 1)%Z -> (forall n c, In (n, c) (plan order col ps e) -> pos n = c) ->
  forall n, In n (nodes ps e) -> ruled d s0 pos n.
Proof using No.
  induction ps as [|[m|g j bs] qs IH]; intros x col e Hc P Nn Io H1 H2 Px Pl n Hn.
  - destruct Hn as [<-|[]]. cbn [path_flows] in *. apply (link_rule x e [] col); auto.
    + intro a. apply H1. left; auto.
    + intro b. apply H2. left; auto.
    + apply Pl. left; auto.
  - assert (Pq : forall p, In p qs -> plain_part p) by (intros p Hp; apply P; right; auto).
    unfold nodes in Nn, Io, H1, H2, Hn. cbn [flat_map part_nodes app path_flows first_of last_of inner_flows] in Nn, Io, H1, H2, Hn. cbn [plan] in Pl.
    fold (nodes qs e) in *. apply NoDup_cons_iff in Nn. destruct Nn as [Nx Nn]. pose proof Nn as Nn'. apply NoDup_cons_iff in Nn'. destruct Nn' as [Nm Nq].
    assert (Pm : pos m = (2, col)%Z) by (apply Pl; left; auto).
    destruct Hn as [<-|Hn].
    + apply (link_rule x m (path_flows m qs e) col); auto.
      * intro a. apply H1. left; auto.
      * intro b. apply H2. left; auto.
      * intros a C. apply path_ends in C; auto. destruct C as [_ C]. auto.
      * intros b C. apply path_ends in C; auto. destruct C as [C _]. apply Nx. destruct C as [<-|C]; [left; auto|right; apply in_or_app; auto].
    + apply (IH m (col + 1)%Z e); auto.
      * lia.
      * intros y Hy. apply Io. right; auto.
      * intros a b Hb. rewrite H1 by (right; auto). split; [|intro; right; auto]. intros [E|E]; auto. exfalso. apply Nm. injection E as _ <-. auto.
      * intros a b Ha. rewrite H2 by (right; destruct Ha as [<-|Ha]; [left|right]; auto). split; [|intro; right; auto].
        intros [E|E]; auto. exfalso. apply Nx. injection E as <- _. destruct Ha as [<-|Ha]; [left; auto|right; auto].
      * rewrite Pm. f_equal. lia.
      * intros y c Hy. apply Pl. right; auto.
  - change (list branch_t) in (type of bs). assert (Pq : forall p, In p qs -> plain_part p) by (intros p Hp; apply P; right; auto).
    pose proof (P _ (or_introl eq_refl)) as Pb.
    unfold nodes in Nn, Io, H1, H2, Hn. cbn [flat_map path_flows first_of last_of] in Nn, Io, H1, H2, Hn.
    rewrite plain_nodes in Nn, Io, H1, H2, Hn by auto. rewrite plain_flows in H1, H2 by auto. rewrite <- app_assoc in Nn, Io, H1, H2, Hn.
    cbn [app] in Nn, Io, H1, H2, Hn. cbn [plan] in Pl. fold (nodes qs e) in *.
    set (inner := flat_map (fun b => chain g (names b) j) bs) in *.
    apply NoDup_cons_iff in Nn. destruct Nn as [Nx Nn]. pose proof Nn as Nn'. apply NoDup_cons_iff in Nn'. destruct Nn' as [Ng Nj].
    pose proof Nj as Nj'. apply NoDup_cons_iff in Nj'. destruct Nj' as [Njj Nr].
    assert (Disj : forall y, In y (flat_map names bs) -> In y (nodes qs e) -> False).
    { clear - Nr. intros y Hy Hq. induction (flat_map names bs) as [|a l IHl]; [contradiction|]. cbn [app] in Nr. inv Nr.
      destruct Hy as [->|Hy]; [apply H1, in_or_app; auto|auto]. }
    assert (Inn : forall a b, In (a, b) inner -> (a = g \/ In a (flat_map names bs)) /\ (b = j \/ In b (flat_map names bs))).
    { intros a b H. apply in_flat_map in H. destruct H as [c [Hcb H]]. apply chain_in in H. destruct H as [i [A B]]. split.
      - destruct i as [|i]; cbn [nth_error] in A; [left; congruence|right]. apply in_flat_map. exists c. split; auto. eapply nth_error_In; eauto.
      - apply nth_error_In in B. apply in_app_or in B. destruct B as [B|[<-|[]]]; [right|left; auto]. apply in_flat_map. exists c. auto. }
    assert (Rst : forall a b, In (a, b) (path_flows j qs e) -> (a = j \/ In a (nodes qs e)) /\ In b (nodes qs e)).
    { intros a b H. apply path_ends in H; auto. destruct H as [[<-|H] B]; split; auto. right. unfold nodes. apply in_or_app. auto. }
    pose proof (longest_nonneg bs) as L0.
    assert (Pg : pos g = (2, col)%Z) by (apply Pl; left; auto).
    assert (Pj : pos j = (2, col + longest bs + 1)%Z) by (apply Pl; right; left; auto).
    assert (Pi : forall b m n, In b bs -> nth_error (names b) m = Some n -> pos n = (row_in order bs (first b), (col + 1 + Z.of_nat m)%Z)).
    { intros b m y Hb Hm. apply Pl. right. right. apply in_or_app. left. apply in_flat_map. exists b. split; auto. apply line_nth. auto. }
    assert (Gq : ~ In g (nodes qs e) /\ ~ In g (flat_map names bs) /\ g <> j).
    { split; [|split]; intro C; apply Ng; [right; apply in_or_app; auto|right; apply in_or_app; auto|left; auto]. }
    assert (Jq : ~ In j (nodes qs e) /\ ~ In j (flat_map names bs)).
    { split; intro C; apply Njj; apply in_or_app; auto. }
    assert (Xq : x <> g /\ x <> j /\ ~ In x (flat_map names bs) /\ ~ In x (nodes qs e)).
    { split; [intros ->; apply Nx; left; auto|]. split; [intros ->; apply Nx; right; left; auto|].
      split; intro C; apply Nx; right; right; apply in_or_app; auto. }
    destruct Gq as [G1 [G2 G3]]. destruct Jq as [J1 J2]. destruct Xq as [X1 [X2 [X3 X4]]].
    assert (To : forall a b, In b (flat_map names bs) \/ b = j -> (goes d a b <-> In (a, b) inner)).
    { intros a b Hb. rewrite H1 by (right; destruct Hb as [Hb|Hb]; [right; apply in_or_app; auto|left; auto]).
      split; [|intro H; right; apply in_or_app; auto]. intros [E|H].
      - exfalso. injection E as _ <-. destruct Hb as [Hb|Hb]; auto.
      - apply in_app_or in H. destruct H as [H|H]; auto. exfalso. apply Rst in H. destruct H as [_ H]. destruct Hb as [Hb| ->]; eauto. }
    assert (From : forall a b, In a (flat_map names bs) \/ a = g -> (goes d a b <-> In (a, b) inner)).
    { intros a b Ha. rewrite H2 by (right; destruct Ha as [Ha|Ha]; [right; right; apply in_or_app; auto|left; auto]).
      split; [|intro H; right; apply in_or_app; auto]. intros [E|H].
      - exfalso. injection E as <- _. destruct Ha as [Ha|Ha]; auto.
      - apply in_app_or in H. destruct H as [H|H]; auto. exfalso. apply Rst in H. destruct H as [[->|H] _]; destruct Ha as [Ha|Ha]; subst; eauto. }
    assert (Nb : NoDup (g :: j :: flat_map names bs)).
    { constructor; [intros [C|C]; auto|]. constructor; [auto|]. eapply nodup_l; eauto. }
    assert (Ib : incl (flat_map names bs) order) by (intros y Hy; apply Io; right; right; apply in_or_app; auto).
    destruct Hn as [<-|[<-|Hn]].
    + apply (link_rule x g (inner ++ path_flows j qs e) col); auto.
      * intro a. apply H1. left; auto.
      * intro b. apply H2. left; auto.
      * intros a C. apply in_app_or in C. destruct C as [C|C]; [apply Inn in C|apply Rst in C]; destruct C as [_ C]; [destruct C|]; auto.
      * intros b C. apply in_app_or in C. destruct C as [C|C]; [apply Inn in C|apply Rst in C]; destruct C as [C _]; destruct C; auto.
    + apply (join_rule g j bs col); auto.
    + apply in_app_or in Hn. destruct Hn as [Hn|Hn].
      * apply in_flat_map in Hn. destruct Hn as [b [Hb Hn]]. destruct (In_nth_error _ _ Hn) as [m Hm].
        apply (inner_rule g j bs col Hc Pb Nb Ib To From Pg Pj Pi b m n Hb Hm).
      * apply (IH j (col + longest bs + 2)%Z e); auto.
        -- lia.
        -- constructor; [auto|]. eapply nodup_r; eauto.
        -- intros y Hy. apply Io. right. right. apply in_or_app. auto.
        -- intros a b Hb. rewrite H1 by (right; right; apply in_or_app; auto). split; [|intro H; right; apply in_or_app; auto]. intros [E|H].
           ++ exfalso. injection E as _ <-. auto.
           ++ apply in_app_or in H. destruct H as [H|H]; auto. exfalso. apply Inn in H. destruct H as [_ [->|H]]; eauto.
        -- intros a b Ha. rewrite H2 by (right; right; destruct Ha as [<-|Ha]; [left; auto|right; apply in_or_app; auto]).
           split; [|intro H; right; apply in_or_app; auto]. intros [E|H].
           ++ exfalso. injection E as <- _. destruct Ha as [Ha|Ha]; auto.
           ++ apply in_app_or in H. destruct H as [H|H]; auto. exfalso. apply Inn in H. destruct H as [[->|H] _]; destruct Ha as [Ha|Ha]; subst; eauto.
        -- rewrite Pj. f_equal. lia.
        -- intros y c Hy. apply Pl. right. right. apply in_or_app. auto.
Qed.
End Rules.
