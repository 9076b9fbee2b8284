(** Where the nodes of a process are planned whose blocks may have a direct flow. *)
From Coq Require Import String List Bool Arith ZArith Lia Permutation.
From Verif Require Import Py PyFacts Consts Nx NxFacts Rep SpecRep RepFacts MetricsFacts Classify Layouter
  SpecLayout ClassifyFacts TopoFacts GridFacts LayoutFacts SpecBlocks SpecFlat SpecPlan PlanFacts PlanBlocks PlanRules
  SpecCells CellFacts CellPlan Prop_Cells SpecDraw DrawFacts DrawTree Prop_Draw SpecOptions OptionShape.
Import ListNotations.
Open Scope string_scope.
Open Scope list_scope.

(** Among the nodes after a split, those earlier in the order are drawn earlier. *)
Lemma dw_siblings : forall d o, NoDup o -> forall k n l, length l <= k -> drawn_with d o n l ->
  forall g x y, In g l -> split_node d g -> goes d g x -> goes d g y -> before o x y -> before l x y.
Proof.
  intros d o No. induction k as [|k IH]; intros n l L H g x y Hg Sg Gx Gy B.
  - destruct l; [destruct Hg|cbn in L; lia].
  - destruct H as [n Nn|n ks ls Sn Lk Ok F]; [destruct Hg as [<-|[]]; contradiction|]. cbn [length] in L. apply before_cons.
    destruct (string_dec g n) as [->|Ne].
    + assert (Bk : before ks x y) by (apply (order_kept o ks x y No Ok); [apply Lk; exact Gx|apply Lk; exact Gy|exact B]).
      destruct (concat_before (drawn_with d o) ks ls F) with (r := x) (h := y) as (l & W & Bl);
        [intros h l W; destruct (dw_head _ _ _ _ W) as [t ->]; left; reflexivity|apply Lk|exact Bk|].
      apply Bl. destruct (dw_head _ _ _ _ W) as [t ->]. left; reflexivity.
    + destruct Hg as [<-|Hg]; [contradiction|]. apply in_concat in Hg. destruct Hg as [l [Hl Hg]].
      destruct (Forall2_in_r _ _ _ _ _ l F Hl) as [m [_ W]]. apply (before_concat ls l); [exact Hl|].
      apply (IH m l) with (g := g); auto. pose proof (concat_len ls l Hl). lia.
Qed.
Lemma siblings : forall d o q, NoDup o -> drawing d o q -> forall g x y, split_node d g -> goes d g x -> goes d g y -> before o x y -> before q x y.
Proof.
  intros d o q No D g x y Sg Gx Gy B. destruct (dr_turns _ _ _ D) as (hs & ls & Lh & Oh & F & E).
  assert (Hg : In g q) by (apply (dr_all _ _ _ D), (goes_nodes d g x Gx)). rewrite E in Hg |- *. apply in_concat in Hg. destruct Hg as [l [Hl Hg]].
  destruct (Forall2_in_r _ _ _ _ _ l F Hl) as [m [_ W]]. apply (before_concat ls l); [exact Hl|].
  exact (dw_siblings d o No (length l) m l (le_n _) W g x y Hg Sg Gx Gy B).
Qed.
(** An element that comes after all others is the last one. *)
Lemma last_one : forall l y, NoDup l -> In y l -> (forall x, In x l -> x <> y -> before l x y) -> exists l', l = l' ++ [y].
Proof.
  induction l as [|a l IH]; intros y N H B; [destruct H|]. inv N. destruct H as [->|H].
  - destruct l as [|b l]; [exists []; reflexivity|exfalso]. assert (Ne : b <> y) by (intros ->; apply H2; left; reflexivity).
    destruct (B b (or_intror (or_introl eq_refl)) Ne) as (i & j & L & A & C). destruct j as [|j]; [lia|]. cbn [nth_error] in C. apply nth_error_In in C. contradiction.
  - destruct (IH y H3 H) as [l' ->]; [|exists (a :: l'); reflexivity]. intros x Hx Ne.
    apply (before_tail a l x y); [assumption|apply B; [right; exact Hx|exact Ne]|exact Hx].
Qed.

(** * A block *)
Definition steps_of (bs : list branch_t) : list branch_t := filter has_steps bs.
Lemma in_steps : forall bs b, In b (steps_of bs) <-> In b bs /\ 1 <= length (names b).
Proof.
  intros bs b. unfold steps_of. rewrite filter_In, names_len. unfold has_steps. destruct (fst b); cbn [length]; split; intros [A B]; split; auto; try lia; discriminate.
Qed.
Lemma direct_iff : forall bs, direct bs = true <-> exists b, In b bs /\ names b = [].
Proof.
  intro bs. unfold direct. rewrite existsb_exists. unfold has_steps, names.
  split; intros [b [A B]]; exists b; split; auto; destruct (fst b); cbn in *; auto; discriminate.
Qed.
Lemma plain_steps : forall bs, (forall b, In b bs -> plain_branch b) -> steps_of bs = bs /\ direct bs = false.
Proof.
  induction bs as [|b bs IH]; intros P; [split; reflexivity|]. destruct IH as [A B]; [intros x Hx; apply P; right; exact Hx|].
  destruct (P b (or_introl eq_refl)) as (_ & Ne & _). unfold steps_of, direct in *. cbn [filter existsb].
  assert (E : has_steps b = true) by (unfold has_steps; destruct (fst b); [congruence|reflexivity]). rewrite E. cbn [negb orb]. split; [f_equal; exact A|exact B].
Qed.
Lemma single_steps : forall l, (forall b, In b l -> exists n, b = ([Act n], None)) -> steps_of l = l.
Proof.
  induction l as [|b l IH]; intros P; [reflexivity|]. destruct (P b (or_introl eq_refl)) as [n ->]. change (([Act n], None) :: steps_of l = ([Act n], None) :: l). f_equal.
  apply IH. intros x Hx. apply P. right; exact Hx.
Qed.
Lemma skip_steps : forall bs, skippable bs -> direct bs = true /\ length bs = S (length (steps_of bs)) /\
  forall b, In b (steps_of bs) -> exists n, names b = [n].
Proof.
  intros bs (l & r & -> & P). assert (E : steps_of (l ++ ([], None) :: r) = l ++ r).
  { unfold steps_of. rewrite filter_app. change (steps_of l ++ steps_of r = l ++ r).
    rewrite (single_steps l) by (intros b Hb; apply P, in_or_app; auto). rewrite (single_steps r) by (intros b Hb; apply P, in_or_app; auto). reflexivity. }
  split; [|split].
  - apply direct_iff. exists ([], None). split; [apply in_or_app; right; left; reflexivity|reflexivity].
  - rewrite E, !app_length. cbn [length]. lia.
  - rewrite E. intros b Hb. destruct (P b Hb) as [n ->]. exists n. reflexivity.
Qed.
Lemma loose_len : forall g j (bs : list branch_t), loose_part (Block g j bs) -> length bs = length (steps_of bs) + (if direct bs then 1 else 0).
Proof.
  intros g j bs [_ [P|P]].
  - destruct (plain_steps bs P) as [-> ->]. symmetry. apply Nat.add_0_r.
  - destruct (skip_steps bs P) as [-> [E _]]. rewrite Nat.add_1_r. exact E.
Qed.
Lemma skip_longest : forall bs, 2 <= length bs -> skippable bs -> longest bs = 1%Z.
Proof.
  intros bs K P. destruct (skip_steps bs P) as [_ [E S]]. destruct (longest_reached bs) as [b [Hb Eb]]; [intros ->; cbn in K; lia|].
  assert (L1 : forall c, In c (steps_of bs) -> length (names c) = 1) by (intros c Hc; destruct (S c Hc) as [n ->]; reflexivity).
  assert (Lo : (longest bs <= 1)%Z).
  { rewrite Eb. destruct (le_lt_dec 1 (length (names b))) as [G|G]; [|lia]. rewrite (L1 b); [lia|]. apply in_steps. auto. }
  destruct (steps_of bs) as [|c cs] eqn:Es; [cbn in E; lia|]. pose proof (L1 c (or_introl eq_refl)) as Lc.
  assert (Hc : In c bs) by (apply (in_steps bs c); rewrite Es; left; reflexivity). pose proof (longest_ge bs c Hc). lia.
Qed.

Section Block.
Variable d : diagram.
Variables (g j : string) (bs : list branch_t).
Hypothesis B : block d g j bs.
Let Nb := bk_nodup _ _ _ _ B.
Let To := bk_to _ _ _ _ B.
Let From := bk_from _ _ _ _ B.
Notation ne := (steps_of bs).

Lemma bk_in : forall b m n, In b bs -> nth_error (names b) m = Some n -> In n (flat_map names bs).
Proof using. intros b m n Hb H. apply in_flat_map. exists b. split; auto. eapply nth_error_In; eauto. Qed.
Lemma bk_g : ~ In g (flat_map names bs) /\ g <> j /\ ~ In j (flat_map names bs).
Proof using B.
  pose proof Nb as N. apply NoDup_cons_iff in N. destruct N as [A X]. apply NoDup_cons_iff in X. destruct X as [X _].
  split; [intro C; apply A; right; auto|]. split; [intros ->; apply A; left; auto|auto].
Qed.
Lemma bk_inner : NoDup (flat_map names bs).
Proof using B. pose proof Nb as N. do 2 (apply NoDup_cons_iff in N; destruct N as [_ N]). auto. Qed.
Lemma bk_place : forall i i' b b' m m' n, nth_error bs i = Some b -> nth_error bs i' = Some b' ->
  nth_error (names b) m = Some n -> nth_error (names b') m' = Some n -> i = i' /\ b = b' /\ m = m'.
Proof using B.
  intros i i' b b' m m' n H H' A A'. assert (i = i').
  { eapply (flat_unique _ _ names bs i i' b b' n); eauto; [apply bk_inner|eapply nth_error_In; eauto|eapply nth_error_In; eauto]. }
  subst i'. assert (b' = b) by congruence. subst b'. split; auto. split; auto.
  pose proof (flat_nodup _ _ names bs b bk_inner (nth_error_In _ _ H)) as N.
  apply (proj1 (NoDup_nth_error (names b)) N); [apply nth_error_Some; congruence|congruence].
Qed.
Lemma bk_flow : forall a b, In (a, b) (flat_map (fun b => chain g (names b) j) bs) <->
  exists c m, In c bs /\ nth_error (g :: names c) m = Some a /\ nth_error (names c ++ [j]) m = Some b.
Proof using.
  intros a b. rewrite in_flat_map. split.
  - intros [c [Hc H]]. apply chain_in in H. destruct H as [m [A X]]. exists c, m. auto.
  - intros [c [m [Hc [A X]]]]. exists c. split; [exact Hc|]. apply chain_in. exists m. auto.
Qed.
Lemma bk_same : forall b b' m m' n, In b bs -> In b' bs -> nth_error (names b) m = Some n -> nth_error (names b') m' = Some n -> b = b' /\ m = m'.
Proof using B.
  intros b b' m m' n Hb Hb' A A'. destruct (In_nth_error _ _ Hb) as [i Hi], (In_nth_error _ _ Hb') as [i' Hi'].
  destruct (bk_place i i' b b' m m' n Hi Hi' A A') as [_ E]. exact E.
Qed.
Lemma bk_pred : forall b m n, In b bs -> nth_error (names b) m = Some n -> forall a, goes d a n <-> nth_error (g :: names b) m = Some a.
Proof using B.
  intros b m n Hb Hm a. rewrite To by (left; eapply bk_in; eauto). rewrite bk_flow. split.
  - intros [b' [m' [Hb' [A X]]]]. apply nth_names in X. destruct X as [[_ X]|[_ ->]].
    + destruct (bk_same b b' m m' n Hb Hb' Hm X) as [<- <-]. exact A.
    + exfalso. apply (proj2 (proj2 bk_g)). exact (bk_in b m j Hb Hm).
  - intros A. exists b, m. split; auto. split; auto. rewrite nth_error_app1; auto. apply nth_error_Some. congruence.
Qed.
Lemma bk_succ : forall b m n, In b bs -> nth_error (names b) m = Some n -> forall a, goes d n a <-> nth_error (names b ++ [j]) (S m) = Some a.
Proof using B.
  intros b m n Hb Hm a. rewrite From by (left; eapply bk_in; eauto). rewrite bk_flow. split.
  - intros [b' [m' [Hb' [A X]]]]. destruct m' as [|m']; cbn [nth_error] in A.
    + exfalso. injection A as <-. apply (proj1 bk_g). exact (bk_in b m g Hb Hm).
    + destruct (bk_same b b' m m' n Hb Hb' Hm A) as [<- <-]. exact X.
  - intros A. exists b, (S m). auto.
Qed.
Lemma one_list : forall (P : string -> Prop) o, (forall a, P a <-> o = Some a) -> exists l, lists P l /\ length l <= 1.
Proof using.
  intros P [y|] H.
  - exists [y]. split; [|cbn; lia]. apply PlanRules.lists_one. intro a. rewrite H. split; congruence.
  - exists []. split; [|cbn; lia]. split; [constructor|]. intro a. rewrite H. split; [intros []|discriminate].
Qed.
(** The nodes after the split and before the end of the block. *)
Lemma first_nth : forall b, In b ne -> nth_error (names b) 0 = Some (first b).
Proof using. intros b Hb. apply in_steps in Hb. unfold first. destruct (names b); cbn in *; [lia|reflexivity]. Qed.
Lemma last_nth : forall b, In b ne -> nth_error (names b) (length (names b) - 1) = Some (lastn b).
Proof using. intros b Hb. apply in_steps in Hb. unfold lastn. apply nth_error_nth'. lia. Qed.
Lemma steps_nodup : forall (f : branch_t -> string), (forall b, In b ne -> In (f b) (names b)) -> NoDup (map f ne).
Proof using B.
  intros f Hf. assert (G : forall l, (forall b, In b l -> In (f b) (names b)) -> NoDup (flat_map names l) -> NoDup (map f l)).
  { clear. induction l as [|b l IH]; intros Hf N; [constructor|]. cbn [map flat_map] in *. constructor.
    - intro C. apply in_map_iff in C. destruct C as [b' [E Hb']]. assert (A : In (f b) (names b)) by (apply Hf; left; reflexivity).
      assert (A' : In (f b) (flat_map names l)) by (apply in_flat_map; exists b'; split; [exact Hb'|rewrite <- E; apply Hf; right; exact Hb']).
      clear - N A A'. induction (names b) as [|x u IHu]; [contradiction|]. cbn [app] in N. inv N. destruct A as [->|A]; [apply H1, in_or_app; auto|auto].
    - apply IH; [intros x Hx; apply Hf; right; exact Hx|eapply nodup_r; eauto]. }
  apply G; [exact Hf|]. pose proof bk_inner as N. clear - N. unfold steps_of. induction bs as [|b l IH]; [constructor|]. cbn [filter flat_map] in *.
  destruct (has_steps b) eqn:E; [|apply IH; eapply nodup_r; eauto]. cbn [flat_map]. apply NoDup_app; [eapply nodup_l; eauto|apply IH; eapply nodup_r; eauto|].
  intros x Hx C. apply in_flat_map in C. destruct C as [b' [Hb' C]]. apply filter_In in Hb'.
  assert (A' : In x (flat_map names l)) by (apply in_flat_map; exists b'; split; [apply Hb'|exact C]).
  clear - N Hx A'. induction (names b) as [|y u IHu]; [contradiction|]. cbn [app] in N. inv N. destruct Hx as [->|Hx]; [apply H1, in_or_app; auto|auto].
Qed.
Lemma in_names : forall b x, In b bs -> In x (names b) -> In x (flat_map names bs).
Proof using. intros b x Hb Hx. apply in_flat_map. exists b. auto. Qed.
Lemma bk_succs : lists (goes d g) (firsts ne ++ if direct bs then [j] else []).
Proof using B.
  assert (Fi : forall b, In b ne -> In (first b) (names b)) by (intros b Hb; eapply nth_error_In; apply first_nth; exact Hb).
  split.
  - apply NoDup_app; [apply steps_nodup; exact Fi|destruct (direct bs); repeat constructor; auto|].
    intros x Hx C. apply in_map_iff in Hx. destruct Hx as [b [<- Hb]]. assert (first b = j) by (destruct (direct bs); [destruct C as [<-|[]]; reflexivity|destruct C]).
    apply (proj2 (proj2 bk_g)). rewrite <- H. apply (in_names b); [apply in_steps, Hb|apply Fi; exact Hb].
  - intro x. rewrite From by auto. rewrite bk_flow, in_app_iff. split.
    + intros [H|H].
      * apply in_map_iff in H. destruct H as [b [<- Hb]]. exists b, 0. split; [apply in_steps, Hb|]. split; [reflexivity|].
        pose proof (first_nth b Hb) as F. rewrite nth_error_app1; [exact F|]. apply nth_error_Some. congruence.
      * destruct (direct bs) eqn:Ed; [|destruct H]. destruct H as [<-|[]]. apply direct_iff in Ed. destruct Ed as [b [Hb E]]. exists b, 0. rewrite E. auto.
    + intros [b [m [Hb [A X]]]]. destruct m as [|m]; cbn [nth_error] in A; [|exfalso; apply (proj1 bk_g); exact (bk_in b m g Hb A)].
      destruct (names b) as [|y t] eqn:En.
      * right. cbn in X. injection X as <-. replace (direct bs) with true; [left; reflexivity|]. symmetry. apply direct_iff. exists b. auto.
      * left. cbn in X. injection X as <-. apply in_map_iff. exists b. split; [unfold first; rewrite En; reflexivity|]. apply in_steps. rewrite En. cbn. split; [exact Hb|lia].
Qed.
Lemma bk_preds : lists (fun p => goes d p j) (map lastn ne ++ if direct bs then [g] else []).
Proof using B.
  assert (Fi : forall b, In b ne -> In (lastn b) (names b)) by (intros b Hb; eapply nth_error_In; apply last_nth; exact Hb).
  split.
  - apply NoDup_app; [apply steps_nodup; exact Fi|destruct (direct bs); repeat constructor; auto|].
    intros x Hx C. apply in_map_iff in Hx. destruct Hx as [b [<- Hb]]. assert (lastn b = g) by (destruct (direct bs); [destruct C as [<-|[]]; reflexivity|destruct C]).
    apply (proj1 bk_g). rewrite <- H. apply (in_names b); [apply in_steps, Hb|apply Fi; exact Hb].
  - intro x. rewrite To by auto. rewrite bk_flow, in_app_iff. split.
    + intros [H|H].
      * apply in_map_iff in H. destruct H as [b [<- Hb]]. exists b, (length (names b)). split; [apply in_steps, Hb|].
        pose proof (last_nth b Hb) as F. apply in_steps in Hb. split; [|rewrite nth_error_app2, Nat.sub_diag by lia; reflexivity].
        destruct (length (names b)) as [|q]; [lia|]. cbn [nth_error]. replace (S q - 1) with q in F by lia. exact F.
      * destruct (direct bs) eqn:Ed; [|destruct H]. destruct H as [<-|[]]. apply direct_iff in Ed. destruct Ed as [b [Hb E]]. exists b, 0. rewrite E. auto.
    + intros [b [m [Hb [A X]]]]. apply nth_names in X. destruct X as [[_ X]|[-> _]]; [exfalso; apply (proj2 (proj2 bk_g)); exact (bk_in b m j Hb X)|].
      destruct (names b) as [|y t] eqn:En.
      * right. cbn in A. injection A as <-. replace (direct bs) with true; [left; reflexivity|]. symmetry. apply direct_iff. exists b. auto.
      * left. apply in_map_iff. exists b. assert (Hn : In b ne) by (apply in_steps; rewrite En; cbn; split; [exact Hb|lia]). split; [|exact Hn].
        pose proof (last_nth b Hn) as F. rewrite En in F. cbn [length nth_error Nat.sub] in A, F. rewrite Nat.sub_0_r in F. congruence.
Qed.
End Block.

(** * Numbers *)
Lemma fan_len : forall k, length (fan k) = k.
Proof. intro k. rewrite <- fan_split, map_length, seq_length. reflexivity. Qed.
Lemma fan_last : forall k, 2 <= k -> fan k = removelast (fan k) ++ [2 - 2 * Z.of_nat (k / 2)]%Z.
Proof.
  intros k K. assert (H : exists q, k / 2 = S q) by (assert (X : 2 / 2 <= k / 2) by (apply Nat.div_le_mono; lia); change (2 / 2) with 1 in X; exists (k / 2 - 1); lia).
  destruct H as [q E]. assert (X : exists F, fan k = F ++ [2 - 2 * Z.of_nat (k / 2)]%Z).
  { unfold fan. rewrite E, seq_S, !map_app. cbn [map Nat.add]. eexists. rewrite !app_assoc. f_equal. f_equal. lia. }
  destruct X as [F X]. rewrite X at 2. rewrite removelast_last. exact X.
Qed.
Lemma shift_sum : forall row l, zsum (map (fun r => row + (r - 2))%Z l) = (zsum l + Z.of_nat (length l) * (row - 2))%Z.
Proof. intros row l. unfold zsum. induction l as [|a l IH]; cbn [map fold_right length]; lia. Qed.
Lemma rows_sum : forall row bs, zsum (rows_of row bs) =
  (Z.of_nat (length bs) * row - (if direct bs then row - 2 * Z.of_nat (length bs / 2) else 0))%Z \/ length bs < 2.
Proof.
  intros row bs. destruct (le_lt_dec 2 (length bs)) as [K|K]; [left|right; exact K]. unfold rows_of.
  pose proof (fan_sum (length bs)) as Fs. pose proof (fan_len (length bs)) as Fl. pose proof (fan_last (length bs) K) as Fe.
  destruct (direct bs); rewrite shift_sum.
  - rewrite Fe in Fs, Fl. rewrite zsum_app in Fs. rewrite app_length in Fl. cbn [length] in Fl. unfold zsum in Fs at 2. cbn [fold_right] in Fs.
    assert (El : Z.of_nat (length (removelast (fan (length bs)))) = (Z.of_nat (length bs) - 1)%Z) by (rewrite <- Fl at 2; lia). rewrite El. lia.
  - rewrite Fl, Fs. lia.
Qed.
Lemma max_is : forall l M, (0 <= M)%Z -> (forall x, In x l -> (x <= M)%Z) -> In M l -> fold_right Z.max 0%Z l = M.
Proof.
  intros l M M0 U I. assert (A : (fold_right Z.max 0 l <= M)%Z).
  { clear I. induction l as [|a l IH]; cbn [fold_right]; [lia|]. pose proof (U a (or_introl eq_refl)). specialize (IH (fun x Hx => U x (or_intror Hx))). lia. }
  assert (C : (M <= fold_right Z.max 0 l)%Z).
  { clear U A. induction l as [|a l IH]; [destruct I|]. cbn [fold_right]. destruct I as [->|I]; [lia|]. specialize (IH I). lia. }
  lia.
Qed.
Lemma map_by_nth : forall (A B C : Type) (f : A -> C) (h : B -> C) l m, length l = length m ->
  (forall i x y, nth_error l i = Some x -> nth_error m i = Some y -> f x = h y) -> map f l = map h m.
Proof.
  intros A B C f h. induction l as [|a l IH]; intros [|b m] L H; cbn in L; try lia; [reflexivity|]. cbn [map]. f_equal.
  - apply (H 0); reflexivity.
  - apply IH; [lia|]. intros i x y X Y. apply (H (S i)); assumption.
Qed.

(** * Places *)
Section Places.
Variable d : diagram.
Hypothesis Co : coherent d.
Hypothesis AL : all_laid_out d.
Hypothesis Sg : single_flows d.

Lemma few_succs : forall n l, is_node d n -> lists (goes d n) l -> length l <= 1 -> ~ split_node d n.
Proof using Co AL Sg. intros n l Hn L K S. apply (split_len d Co AL Sg (classified d) (Permutation_refl _) n l Hn L) in S. lia. Qed.
Lemma few_preds : forall n l, is_node d n -> lists (fun p => goes d p n) l -> length l <= 1 -> ~ join_node d n.
Proof using Co AL Sg. intros n l Hn L K J. apply (join_len d Co AL Sg (classified d) (Permutation_refl _) n l Hn L) in J. lia. Qed.
Lemma link_goes : forall x y, link d x y -> goes d x y.
Proof using. intros x y [A _]. apply A. reflexivity. Qed.
Lemma link_not : forall x y, link d x y -> ~ split_node d x /\ ~ join_node d y.
Proof using Co AL Sg.
  intros x y L. pose proof (link_goes x y L) as G. destruct (goes_nodes d x y G) as [Nx Ny]. destruct L as [A B]. split.
  - apply (few_succs x [y]); [exact Nx|apply PlanRules.lists_one; exact B|cbn; lia].
  - apply (few_preds y [x]); [exact Ny|apply PlanRules.lists_one; exact A|cbn; lia].
Qed.
Lemma bk_node : forall g j bs b m n, block d g j bs -> In b bs -> nth_error (names b) m = Some n -> is_node d n.
Proof using.
  intros g j bs b m n B Hb Hm. assert (L : m < length (names b)) by (apply nth_error_Some; congruence).
  destruct (nth_error (g :: names b) m) as [a|] eqn:E; [|apply nth_error_None in E; cbn in E; lia].
  apply (bk_pred d g j bs B b m n Hb Hm a) in E. apply (goes_nodes d a n E).
Qed.
Lemma bk_not : forall g j bs b m n, block d g j bs -> In b bs -> nth_error (names b) m = Some n -> ~ split_node d n /\ ~ join_node d n.
Proof using Co AL Sg.
  intros g j bs b m n B Hb Hm. pose proof (bk_node g j bs b m n B Hb Hm) as Nn.
  destruct (one_list (goes d n) _ (bk_succ d g j bs B b m n Hb Hm)) as (l & L & K).
  destruct (one_list (fun p => goes d p n) _ (bk_pred d g j bs B b m n Hb Hm)) as (l' & L' & K').
  split; [exact (few_succs n l Nn L K)|exact (few_preds n l' Nn L' K')].
Qed.
(** No node comes after two splits. *)
Lemma shape_one : forall x ps e, shape d x ps e -> (forall p, In p ps -> act_part p) ->
  forall n, In n (nodes ps e) -> forall p q, split_node d p -> split_node d q -> goes d p n -> goes d q n -> p = q.
Proof using Co AL Sg.
  assert (Li : forall x y p q, link d x y -> goes d p y -> goes d q y -> p = q).
  { intros x y p q [A _] G G'. apply A in G, G'. congruence. }
  intros x ps e H. induction H as [x e L|x m qs e L H IH|x g j bs qs e L B H IH]; intros P n Hn p q Sp Sq Gp Gq.
  - destruct Hn as [<-|[]]. exact (Li x e p q L Gp Gq).
  - unfold nodes in Hn. cbn [flat_map part_nodes app] in Hn. destruct Hn as [<-|Hn]; [exact (Li x m p q L Gp Gq)|].
    apply (IH (fun r Hr => P r (or_intror Hr)) n Hn p q); assumption.
  - unfold nodes in Hn. cbn [flat_map] in Hn. rewrite act_nodes in Hn by (apply (P (Block g j bs)); left; reflexivity). rewrite <- app_assoc in Hn. cbn [app] in Hn.
    destruct Hn as [<-|[<-|Hn]]; [exact (Li x g p q L Gp Gq)| |].
    + assert (X : forall r, split_node d r -> goes d r j -> r = g).
      { intros r Sr Gr. apply (bk_preds d g j bs B) in Gr. apply in_app_or in Gr. destruct Gr as [Gr|Gr].
        - exfalso. apply in_map_iff in Gr. destruct Gr as [b [<- Hb]]. pose proof (last_nth bs b Hb) as F. apply in_steps in Hb. destruct Hb as [Hb _].
          destruct (bk_not g j bs b _ _ B Hb F) as [Ns _]. contradiction.
        - destruct (direct bs); [destruct Gr as [<-|[]]; reflexivity|destruct Gr]. }
      rewrite (X p Sp Gp), (X q Sq Gq). reflexivity.
    + apply in_app_or in Hn. destruct Hn as [Hn|Hn]; [|apply (IH (fun r Hr => P r (or_intror Hr)) n Hn p q); assumption].
      apply in_flat_map in Hn. destruct Hn as [b [Hb Hn]]. destruct (In_nth_error _ _ Hn) as [m Hm]. destruct (bk_not g j bs b m n B Hb Hm) as [_ J].
      exact (not_join_one d n p q J Gp Gq).
Qed.

Variables (order sq : list string) (pos : string -> Z * Z).
Hypothesis Lo : lists (is_node d) order.
Hypothesis Oa : forall x y, goes d x y -> before order x y.
Hypothesis Dr : drawing d order sq.
Hypothesis P : layout_plan d order sq pos.
Notation place := (fun n r c => pos n = (r, c)).

Lemma link_pos : forall x y, link d x y -> pos y = (fst (pos x), snd (pos x) + 1)%Z.
Proof using Co AL Sg P.
  intros x y L. destruct (link_not x y L) as [Sx Jy]. pose proof (link_goes x y L) as G. destruct (goes_nodes d x y G) as [_ Ny]. destruct L as [A _].
  destruct (P y Ny) as [fs i F1 F2 F3 Ep|p F1 F2 F3 Ep|p r F1 F2 F3 Ep|F1|r m F1]; try contradiction.
  - exfalso. apply nth_error_In in F3. apply F1 in F3. exact (proj2 F3 x G).
  - rewrite Ep. apply A in F2. rewrite F2. reflexivity.
  - exfalso. destruct F2 as [F2 F4]. apply A in F4. subst p. contradiction.
Qed.

Section OneBlock.
Variables (x g j : string) (bs : list branch_t) (row col : Z).
Hypothesis L : link d x g.
Hypothesis B : block d g j bs.
Hypothesis Lb : loose_part (Block g j bs).
Hypothesis Pg : pos g = (row, col).
Hypothesis C1 : (1 <= col)%Z.
Notation ne := (steps_of bs).

Lemma ob_len : length (firsts ne ++ if direct bs then [j] else []) = length bs /\ length (map lastn ne ++ if direct bs then [g] else []) = length bs.
Proof using Lb.
  unfold firsts. rewrite !app_length, !map_length, (loose_len g j bs Lb). destruct (direct bs); split; reflexivity.
Qed.
Lemma ob_two : 2 <= length bs. Proof using Lb. apply Lb. Qed.
Lemma ob_nodes : is_node d g /\ is_node d j.
Proof using L B Lb.
  split; [apply (goes_nodes d x g (link_goes x g L))|]. pose proof (bk_preds d g j bs B) as [_ Hp]. pose proof (proj2 ob_len) as K. pose proof ob_two as K2.
  destruct (map lastn ne ++ if direct bs then [g] else []) as [|p l]; [cbn in K; lia|].
  assert (G : goes d p j) by (apply Hp; left; reflexivity). apply (goes_nodes d p j G).
Qed.
Lemma ob_split : split_node d g.
Proof using Co AL Sg L B Lb. apply (split_len d Co AL Sg (classified d) (Permutation_refl _) g _ (proj1 ob_nodes) (bk_succs d g j bs B)). rewrite (proj1 ob_len). exact ob_two. Qed.
Lemma ob_join : join_node d j.
Proof using Co AL Sg L B Lb. apply (join_len d Co AL Sg (classified d) (Permutation_refl _) j _ (proj2 ob_nodes) (bk_preds d g j bs B)). rewrite (proj2 ob_len). exact ob_two. Qed.
Lemma ob_spread : forall r, spread_row d sq pos g r -> r = row.
Proof using Co AL Sg L Pg.
  destruct (link_not x g L) as [Sx Jg]. intros r [J _|q _ [Sq Gq] _|_ _ ->]; [contradiction| |rewrite Pg; reflexivity].
  exfalso. apply (proj1 L) in Gq. subst q. contradiction.
Qed.
Lemma ob_row : forall l i n r, lists (goes d g) l -> same_order order l -> nth_error l i = Some n -> branch_row d order sq pos n r ->
  exists o, nth_error (fan (length bs)) i = Some o /\ r = (row + (o - 2))%Z.
Proof using Co AL Sg L B Lb Pg Dr Lo.
  intros l i n r Ll Ol E (p & l' & i' & o & r0 & D & L' & O' & E' & S & F & ->).
  assert (Gn : goes d g n) by (apply Ll; eapply nth_error_In; eauto).
  assert (p = g) by (apply (dr_one _ _ _ Dr p g n D); split; [exact ob_split|exact Gn]). subst p.
  assert (l' = l) by (exact (lists_eq order _ _ _ (proj1 Lo) L' Ll O' Ol)). subst l'.
  assert (i' = i) by (apply (proj1 (NoDup_nth_error l) (proj1 Ll)); [apply nth_error_Some; congruence|congruence]). subst i'.
  assert (K : length l = length bs) by (rewrite <- (proj1 ob_len); exact (Permutation_length (lists_perm _ _ _ Ll (bk_succs d g j bs B)))).
  rewrite K in F. exists o. split; [exact F|]. rewrite (ob_spread r0 S). reflexivity.
Qed.
Lemma ob_sorted : exists l, lists (goes d g) l /\ same_order order l.
Proof using Lo B.
  destruct (select (goes d g) order (proj1 Lo)) as (l & N & O & H).
  { intros y _. pose proof (bk_succs d g j bs B) as [_ Hs]. destruct (in_dec string_dec y (firsts ne ++ if direct bs then [j] else [])) as [I|I]; [left; apply Hs; exact I|right; intro G; apply I, Hs; exact G]. }
  exists l. split; [|exact O]. split; [exact N|]. intro y. rewrite H. split; [tauto|]. intro G. split; [apply Lo, (goes_nodes d g y G)|exact G].
Qed.
Lemma ob_branch : forall l i n o, lists (goes d g) l -> same_order order l -> nth_error l i = Some n -> n <> j -> nth_error (fan (length bs)) i = Some o ->
  pos n = (row + (o - 2), col + 1)%Z.
Proof using Co AL Sg L B Lb Pg Dr Lo P.
  intros l i n o Ll Ol E Ne Fo. assert (Gn : goes d g n) by (apply Ll; eapply nth_error_In; eauto).
  assert (X : exists b, In b ne /\ n = first b).
  { pose proof Gn as G. apply (bk_succs d g j bs B) in G. apply in_app_or in G. destruct G as [G|G].
    - apply in_map_iff in G. destruct G as [b [<- Hb]]. exists b. auto.
    - exfalso. destruct (direct bs); [destruct G as [<-|[]]; congruence|destruct G]. }
  destruct X as (b & Hb & En). pose proof (first_nth bs b Hb) as Fb. rewrite <- En in Fb. apply in_steps in Hb. destruct Hb as [Hb _].
  destruct (bk_not g j bs b 0 n B Hb Fb) as [Sn Jn].
  destruct (P n (bk_node g j bs b 0 n B Hb Fb)) as [fs q F1 F2 F3 Ep|p F1 F2 F3 Ep|p r F1 F2 F3 Ep|F1|r m F1]; try contradiction.
  - exfalso. apply nth_error_In in F3. apply F1 in F3. exact (proj2 F3 g Gn).
  - exfalso. assert (p = g) by (exact (not_join_one d n p g Jn F2 Gn)). subst p. exact (F3 ob_split).
  - destruct (ob_row l i n r Ll Ol E F3) as (o' & Fo' & ->). assert (o' = o) by congruence. subst o'.
    assert (p = g) by (exact (not_join_one d n p g Jn (proj2 F2) Gn)). subst p. rewrite Ep, Pg. reflexivity.
Qed.
(** The activities of a branch stand side by side. *)
Lemma ob_line : forall b m n, In b ne -> nth_error (names b) m = Some n -> pos n = (fst (pos (first b)), col + 1 + Z.of_nat m)%Z.
Proof using Co AL Sg L B Lb Pg Dr Lo P.
  intros b m. induction m as [|m IH]; intros n Hb Hm.
  - rewrite (first_nth bs b Hb) in Hm. injection Hm as <-. destruct ob_sorted as (l & Ll & Ol).
    assert (Gf : In (first b) l) by (apply Ll, (bk_succs d g j bs B), in_or_app; left; apply in_map; exact Hb).
    destruct (In_nth_error _ _ Gf) as [i Ei].
    assert (K : length l = length bs) by (rewrite <- (proj1 ob_len); exact (Permutation_length (lists_perm _ _ _ Ll (bk_succs d g j bs B)))).
    destruct (fan_some (length bs) i) as [o Fo]; [rewrite <- K; apply nth_error_Some; congruence|].
    assert (Ne : first b <> j).
    { intro E. apply (proj2 (proj2 (bk_g d g j bs B))). rewrite <- E. apply (in_names bs b); [apply in_steps, Hb|eapply nth_error_In; apply (first_nth bs b Hb)]. }
    rewrite (ob_branch l i (first b) o Ll Ol Ei Ne Fo). cbn [fst]. f_equal. lia.
  - pose proof Hb as Hb'. apply in_steps in Hb'. destruct Hb' as [Hb' _]. assert (Lm : S m < length (names b)) by (apply nth_error_Some; congruence).
    destruct (nth_error (names b) m) as [y|] eqn:Ey; [|apply nth_error_None in Ey; lia].
    assert (Lk : link d y n).
    { split; intro a.
      - rewrite (bk_pred d g j bs B b (S m) n Hb' Hm a). cbn [nth_error]. rewrite Ey. split; congruence.
      - rewrite (bk_succ d g j bs B b m y Hb' Ey a). rewrite nth_error_app1 by exact Lm. rewrite Hm. split; congruence. }
    rewrite (link_pos y n Lk), (IH y Hb eq_refl). cbn [fst snd]. f_equal. lia.
Qed.
(** The rows of the branches. *)
Lemma ob_rows : Permutation (map (fun b => fst (pos (first b))) ne) (rows_of row bs).
Proof using All.
  destruct ob_sorted as (l & Ll & Ol). pose proof (lists_perm _ _ _ Ll (bk_succs d g j bs B)) as Pl.
  assert (K : length l = length bs) by (rewrite <- (proj1 ob_len); exact (Permutation_length Pl)).
  assert (Ej : ~ In j (firsts ne)).
  { intro C. apply in_map_iff in C. destruct C as [b [E Hb]]. apply (proj2 (proj2 (bk_g d g j bs B))). rewrite <- E.
    apply (in_names bs b); [apply in_steps, Hb|eapply nth_error_In; apply (first_nth bs b Hb)]. }
  replace (map (fun b => fst (pos (first b))) ne) with (map (fun n => fst (pos n)) (firsts ne)) by (unfold firsts; rewrite map_map; reflexivity).
  unfold rows_of. destruct (direct bs) eqn:Ed.
  - destruct (last_one l j (proj1 Ll)) as [l' El].
    { apply (Permutation_in _ (Permutation_sym Pl)). apply in_or_app. right. left. reflexivity. }
    { intros y Hy Ne. apply (order_kept order l y j (proj1 Lo) Ol); [exact Hy| |].
      - apply (Permutation_in _ (Permutation_sym Pl)). apply in_or_app. right. left. reflexivity.
      - apply (Permutation_in _ Pl) in Hy. apply in_app_or in Hy. destruct Hy as [Hy|[<-|[]]]; [|congruence].
        apply in_map_iff in Hy. destruct Hy as [b [<- Hb]]. apply Oa. destruct Lb as [_ [Pb|Sk]]; [destruct (plain_steps bs Pb); congruence|].
        destruct (skip_steps bs Sk) as (_ & _ & One). destruct (One b Hb) as [n En]. apply in_steps in Hb. destruct Hb as [Hb _].
        apply (bk_succ d g j bs B b 0 (first b) Hb); [unfold first; rewrite En; reflexivity|]. rewrite En. reflexivity. }
    rewrite El in Pl, K. assert (Pf : Permutation l' (firsts ne)).
    { apply Permutation_sym, (Permutation_app_inv_r [j]). apply Permutation_sym. exact Pl. }
    rewrite <- (Permutation_map (fun n => fst (pos n)) Pf).
    assert (E : map (fun n => fst (pos n)) l' = map (fun r => row + (r - 2))%Z (removelast (fan (length bs)))); [|rewrite E; apply Permutation_refl].
    pose proof (fan_last (length bs) ob_two) as Fe. pose proof (fan_len (length bs)) as Fl. rewrite Fe, app_length in Fl. rewrite app_length in K. cbn [length] in K, Fl.
    apply map_by_nth; [lia|]. intros i n o En Eo. assert (Li : i < length l') by (apply nth_error_Some; congruence).
    rewrite (ob_branch l i n o Ll Ol); [reflexivity|rewrite El, nth_error_app1 by exact Li; exact En| |].
    + intros ->. apply Ej. apply (Permutation_in _ Pf). eapply nth_error_In; eauto.
    + rewrite Fe, nth_error_app1; [exact Eo|]. apply nth_error_Some. congruence.
  - rewrite app_nil_r in Pl. rewrite <- (Permutation_map (fun n => fst (pos n)) Pl).
    assert (E : map (fun n => fst (pos n)) l = map (fun r => row + (r - 2))%Z (fan (length bs))); [|rewrite E; apply Permutation_refl].
    apply map_by_nth; [rewrite fan_len; exact K|]. intros i n o En Eo. rewrite (ob_branch l i n o Ll Ol En); [reflexivity| |exact Eo].
    intros ->. apply Ej. apply (Permutation_in _ Pl). eapply nth_error_In; eauto.
Qed.
(** All the nodes before the end of the block are drawn before it. *)
Lemma ob_drawn : forall p, goes d p j -> before sq p j.
Proof using All.
  intros p G. pose proof G as Gp. apply (bk_preds d g j bs B) in Gp. destruct Lb as [_ [Pb|Sk]].
  - destruct (plain_steps bs Pb) as [En Ed]. apply (dr_order _ _ _ Dr); [|apply Oa; exact G].
    split; [apply (goes_nodes d p j G)|]. intros q [Sq Gq]. apply (bk_preds d g j bs B) in Gq. rewrite Ed, app_nil_r in Gq.
    apply in_map_iff in Gq. destruct Gq as [b [<- Hb]]. pose proof (last_nth bs b Hb) as F. apply in_steps in Hb. destruct Hb as [Hb _].
    destruct (bk_not g j bs b _ _ B Hb F) as [Ns _]. contradiction.
  - destruct (skip_steps bs Sk) as (Ed & _ & One). assert (Gj : goes d g j) by (apply (bk_succs d g j bs B), in_or_app; right; rewrite Ed; left; reflexivity).
    rewrite Ed in Gp. apply in_app_or in Gp. destruct Gp as [Gp|[<-|[]]]; [|apply (draws_then d order sq Dr); split; [exact ob_split|exact Gj]].
    apply in_map_iff in Gp. destruct Gp as [b [<- Hb]]. apply (siblings d order sq (proj1 Lo) Dr g); [exact ob_split| |exact Gj|apply Oa; exact G].
    apply (bk_succs d g j bs B), in_or_app. left. apply in_map_iff. exists b. split; [|exact Hb]. destruct (One b Hb) as [n En]. unfold first, lastn. rewrite En. reflexivity.
Qed.
Lemma ob_mean : forall m, mean_row d sq pos j m -> m = ((zsum (rows_of row bs) + (if direct bs then row else 0)) / Z.of_nat (length bs))%Z.
Proof using All.
  intros m (l & l1 & Ll & L1 & ->). pose proof (bk_preds d g j bs B) as Lp.
  assert (El : length l = length bs) by (rewrite <- (proj2 ob_len); exact (Permutation_length (lists_perm _ _ _ Ll Lp))). rewrite El. f_equal.
  assert (L1' : lists (fun p => goes d p j) l1).
  { split; [apply L1|]. intro y. rewrite (proj2 L1 y). split; [tauto|]. intro G. split; [exact G|apply ob_drawn; exact G]. }
  rewrite (add_perm _ _ (Permutation_map (fun p => fst (pos p)) (lists_perm _ _ _ L1' Lp))). rewrite map_app. fold zsum.
  change (fold_right Z.add 0%Z (map (fun p => fst (pos p)) (map lastn ne) ++ map (fun p => fst (pos p)) (if direct bs then [g] else []))) with
    (zsum (map (fun p => fst (pos p)) (map lastn ne) ++ map (fun p => fst (pos p)) (if direct bs then [g] else []))). rewrite zsum_app. f_equal.
  - rewrite <- (zsum_perm _ _ ob_rows), map_map. f_equal. apply map_ext_in. intros b Hb. rewrite (ob_line b _ _ Hb (last_nth bs b Hb)). reflexivity.
  - destruct (direct bs); [|reflexivity]. unfold zsum. cbn [map fold_right]. rewrite Pg. cbn [fst]. lia.
Qed.
Lemma ob_col : forall c, next_col d sq pos j c -> c = (col + longest bs + 1)%Z.
Proof using All.
  intros c (l1 & L1 & ->). f_equal. pose proof (bk_preds d g j bs B) as Lp. pose proof (longest_nonneg bs) as L0.
  assert (L1' : lists (fun p => goes d p j) l1).
  { split; [apply L1|]. intro y. rewrite (proj2 L1 y). split; [tauto|]. intro G. split; [exact G|apply ob_drawn; exact G]. }
  rewrite (max_perm _ _ (Permutation_map (fun p => snd (pos p)) (lists_perm _ _ _ L1' Lp))).
  assert (Pl : forall b, In b ne -> snd (pos (lastn b)) = (col + Z.of_nat (length (names b)))%Z).
  { intros b Hb. rewrite (ob_line b _ _ Hb (last_nth bs b Hb)). cbn [snd]. apply in_steps in Hb. lia. }
  apply max_is; [lia| |].
  - intros y Hy. apply in_map_iff in Hy. destruct Hy as [p [<- Hp]]. apply in_app_or in Hp. destruct Hp as [Hp|Hp].
    + apply in_map_iff in Hp. destruct Hp as [b [<- Hb]]. rewrite (Pl b Hb). apply in_steps in Hb. destruct Hb as [Hb _]. pose proof (longest_ge bs b Hb). lia.
    + destruct (direct bs); [destruct Hp as [<-|[]]; rewrite Pg; cbn [snd]; lia|destruct Hp].
  - destruct (longest_reached bs) as [b [Hb Eb]]; [intro E; pose proof ob_two as K; rewrite E in K; cbn in K; lia|].
    assert (Hn : In b ne).
    { apply in_steps. split; [exact Hb|]. assert (1 <= longest bs)%Z; [|lia]. destruct Lb as [K [Pb|Sk]]; [|rewrite (skip_longest bs K Sk); lia].
      destruct (plain_steps bs Pb) as [En _]. pose proof (longest_ge bs b Hb). assert (X : In b ne) by (rewrite En; exact Hb). apply in_steps in X. lia. }
    rewrite Eb, <- (Pl b Hn). apply in_map_iff. exists (lastn b). split; [reflexivity|]. apply in_or_app. left. apply in_map. exact Hn.
Qed.
Lemma ob_end : pos j = (row_after row bs, col + longest bs + 1)%Z.
Proof using All.
  pose proof ob_two as K. assert (Kz : (0 < Z.of_nat (length bs))%Z) by (clear - K; lia). pose proof ob_join as Jj. pose proof (proj2 ob_nodes) as Nj.
  assert (Ew : exists p, goes d p j).
  { pose proof (bk_preds d g j bs B) as [_ Hp]. pose proof (proj2 ob_len) as K'.
    destruct (map lastn ne ++ if direct bs then [g] else []) as [|p l]; [cbn in K'; lia|]. exists p. apply Hp. left; reflexivity. }
  destruct (rows_sum row bs) as [Rs|Rs]; [|clear - K Rs; lia].
  assert (Q : pos j = (fst (pos j), snd (pos j))) by (destruct (pos j); reflexivity). rewrite Q.
  destruct (P j Nj) as [fs i F1 F2 F3 Ep|p F1 F2 F3 Ep|p r F1 F2 F3 Ep|F1 F2 F3 F4|r m F1 F2 F3 F4 F5]; try contradiction.
  - exfalso. destruct Ew as [p G]. apply nth_error_In in F3. apply F1 in F3. exact (proj2 F3 p G).
  - apply ob_mean in F3. apply ob_col in F4. rewrite F4. f_equal. rewrite F3, Rs. unfold row_after.
    destruct (direct bs) eqn:Ed.
    + exfalso. apply (proj2 F2 g). split; [exact ob_split|]. apply (bk_succs d g j bs B), in_or_app. right. rewrite Ed. left; reflexivity.
    + rewrite Z.sub_0_r, Z.add_0_r, Z.mul_comm. apply Z.div_mul. lia.
  - apply ob_col in F5. rewrite F5. f_equal. rewrite F4. apply ob_mean in F3. unfold row_after.
    assert (Ed : direct bs = true).
    { destruct F2 as (q & l & i & o & r0 & [Sq Gq] & _). apply (bk_preds d g j bs B) in Gq. destruct (direct bs); [reflexivity|exfalso].
      rewrite app_nil_r in Gq. apply in_map_iff in Gq. destruct Gq as [b [<- Hb]]. pose proof (last_nth bs b Hb) as F. apply in_steps in Hb. destruct Hb as [Hb _].
      destruct (bk_not g j bs b _ _ B Hb F) as [Ns _]. contradiction. }
    rewrite Ed in *. assert (Er : r = (row - 2 * Z.of_nat (length bs / 2))%Z).
    { destruct ob_sorted as (l & Ll & Ol). assert (Gj : goes d g j) by (apply (bk_succs d g j bs B), in_or_app; right; rewrite Ed; left; reflexivity).
      destruct (last_one l j (proj1 Ll)) as [l' El]; [apply Ll; exact Gj| |].
      - intros y Hy Ne. apply (order_kept order l y j (proj1 Lo) Ol); [exact Hy|apply Ll; exact Gj|]. apply Ll in Hy. apply (bk_succs d g j bs B) in Hy. apply in_app_or in Hy.
        rewrite Ed in Hy. destruct Hy as [Hy|[<-|[]]]; [|congruence]. apply in_map_iff in Hy. destruct Hy as [b [<- Hb]]. apply Oa.
        destruct Lb as [_ [Pb|Sk]]; [destruct (plain_steps bs Pb); congruence|]. destruct (skip_steps bs Sk) as (_ & _ & One). destruct (One b Hb) as [n En].
        apply in_steps in Hb. destruct Hb as [Hb _]. apply (bk_succ d g j bs B b 0 (first b) Hb); [unfold first; rewrite En; reflexivity|]. rewrite En. reflexivity.
      - assert (Ej : nth_error l (length l') = Some j) by (rewrite El, nth_error_app2, Nat.sub_diag by lia; reflexivity).
        destruct (ob_row l _ j r Ll Ol Ej F2) as (o & Fo & ->).
        assert (Kl : length l = length bs) by (rewrite <- (proj1 ob_len); exact (Permutation_length (lists_perm _ _ _ Ll (bk_succs d g j bs B)))).
        pose proof (fan_last (length bs) K) as Fe. pose proof (fan_len (length bs)) as Fl. rewrite Fe, app_length in Fl. rewrite El, app_length in Kl. cbn [length] in Fl, Kl.
        rewrite Fe, nth_error_app2 in Fo by lia. replace (length l' - length (removelast (fan (length bs)))) with 0 in Fo by lia. cbn [nth_error] in Fo. assert (Eo : o = (2 - 2 * Z.of_nat (length bs / 2))%Z) by congruence. rewrite Eo. lia. }
    unfold meet_row. rewrite <- Er. destruct (Z.eqb r 0); [|reflexivity]. rewrite F3, Rs. pose proof (half (length bs)) as Hh. set (k := length bs) in *. set (q := k / 2) in *.
    assert (En : (Z.of_nat k * row - (row - 2 * Z.of_nat q) + row = row * Z.of_nat k + 2 * Z.of_nat q)%Z) by lia. rewrite En, Z.div_add_l by lia.
    destruct (Nat.odd k).
    + rewrite Z.div_small by lia. lia.
    + replace (2 * Z.of_nat q)%Z with (Z.of_nat k) by lia. rewrite Z.div_same by lia. reflexivity.
Qed.
Lemma ob_branches : exists rows, Permutation rows (rows_of row bs) /\ Forall2 (fun b r => line_at place r (col + 1) (fst b)) ne rows.
Proof using All.
  exists (map (fun b => fst (pos (first b))) ne). split; [exact ob_rows|].
  assert (Ln : forall b ps m, In b ne -> (forall i n, nth_error (map first_of ps) i = Some n -> nth_error (names b) (m + i) = Some n) ->
     line_at place (fst (pos (first b))) (col + 1 + Z.of_nat m) ps).
  { intros b ps. induction ps as [|p ps IHp]; intros m Hb H; cbn [line_at]; [exact I|]. split.
    - apply (ob_line b m (first_of p) Hb). rewrite <- (Nat.add_0_r m). apply (H 0). reflexivity.
    - replace (col + 1 + Z.of_nat m + 1)%Z with (col + 1 + Z.of_nat (S m))%Z by lia. apply IHp; [exact Hb|]. intros i n E. rewrite Nat.add_succ_comm. apply (H (S i)). exact E. }
  assert (G : forall l, incl l ne -> Forall2 (fun (b : branch_t) r => line_at place r (col + 1) (fst b)) l (map (fun b => fst (pos (first b))) l)).
  { induction l as [|b l IHl]; intros I; cbn [map]; constructor; [|apply IHl; intros y Hy; apply I; right; exact Hy].
    assert (Hb : In b ne) by (apply I; left; reflexivity). specialize (Ln b (fst b) 0 Hb). rewrite Z.add_0_r in Ln. apply Ln. intros i n E. exact E. }
  apply G. apply incl_refl.
Qed.
End OneBlock.

(** The whole process. *)
Lemma shape_picture : forall x ps e, shape d x ps e -> (forall p, In p ps -> loose_part p) -> forall row col, (1 <= col)%Z -> pos x = (row, col - 1)%Z ->
  picture_at place row col ps e.
Proof using Co AL Sg Lo Oa Dr P.
  intros x ps e H. induction H as [x e L|x m qs e L H IH|x g j bs qs e L B H IH]; intros Pl row col C Px; cbn [picture_at];
    pose proof (link_pos _ _ L) as Pn; rewrite Px in Pn; cbn [fst snd] in Pn; replace (col - 1 + 1)%Z with col in Pn by lia.
  - exact Pn.
  - split; [exact Pn|]. apply IH; [intros p Hp; apply Pl; right; exact Hp|lia|]. rewrite Pn. f_equal. lia.
  - pose proof (Pl (Block g j bs) (or_introl eq_refl)) as Lb. pose proof (ob_end x g j bs row col L B Lb Pn C) as Pj.
    split; [exact Pn|]. split; [exact Pj|]. split; [exact (ob_branches x g j bs row col L B Lb Pn C)|].
    change (list branch_t) in (type of bs). pose proof (longest_nonneg bs) as L0.
    apply IH; [intros p Hp; apply Pl; right; exact Hp|lia|]. rewrite Pj. f_equal. lia.
Qed.
End Places.

(** * No two nodes in one cell *)
Lemma picture_ext : forall (p q : string -> Z -> Z -> Prop) ps row col e, (forall r, In r ps -> act_part r) ->
  (forall n r c, In n (nodes ps e) -> p n r c -> q n r c) -> picture_at p row col ps e -> picture_at q row col ps e.
Proof.
  intros p q. induction ps as [|[m|g j bs] qs IH]; intros row col e Pa H X; cbn [picture_at] in *.
  - apply H; [left; reflexivity|exact X].
  - destruct X as [X1 X2]. split; [apply H; [left; reflexivity|exact X1]|]. apply IH; [intros r Hr; apply Pa; right; exact Hr| |exact X2].
    intros n r c Hn. apply H. right. exact Hn.
  - change (list branch_t) in (type of bs). assert (Hn : forall n, In n (g :: j :: flat_map names bs) \/ In n (nodes qs e) -> In n (nodes (Block g j bs :: qs) e)).
    { intros n Hn. unfold nodes. cbn [flat_map]. rewrite act_nodes by (apply (Pa (Block g j bs)); left; reflexivity). rewrite <- app_assoc. apply in_or_app. exact Hn. }
    destruct X as (X1 & X2 & (rows & X3 & X4) & X5). split; [apply H; [apply Hn; left; left; reflexivity|exact X1]|]. split; [apply H; [apply Hn; left; right; left; reflexivity|exact X2]|]. split.
    + exists rows. split; [exact X3|]. assert (G : forall l, incl l bs -> forall rs, Forall2 (fun (b : branch_t) r => line_at p r (col + 1) (fst b)) l rs -> Forall2 (fun (b : branch_t) r => line_at q r (col + 1) (fst b)) l rs).
      { intros l I rs F. induction F as [|b r l rs W F IHF]; constructor; [|apply IHF; intros y Hy; apply I; right; exact Hy].
        assert (Hb : In b bs) by (apply I; left; reflexivity). assert (Q : forall n, In n (map first_of (fst b)) -> In n (nodes (Block g j bs :: qs) e)).
        { intros n Hx. apply Hn. left. right. right. apply in_flat_map. exists b. split; [exact Hb|exact Hx]. }
        revert W Q. clear - H. generalize (col + 1)%Z. induction (fst b) as [|y ys IHy]; intros c W Q; cbn [line_at] in *; [exact I|].
        destruct W as [W1 W2]. split; [apply H; [apply Q; left; reflexivity|exact W1]|]. apply IHy; [exact W2|]. intros n Hx. apply Q. right. exact Hx. }
      apply G; [|exact X4]. intros y Hy. apply filter_In in Hy. apply Hy.
    + apply IH; [intros r Hr; apply Pa; right; exact Hr| |exact X5]. intros n r c Hx. apply H. apply Hn. right. exact Hx.
Qed.

Section Cells.
Variable pos : string -> Z * Z.
Notation place := (fun n r c => pos n = (r, c)).
Lemma line_place : forall ps r c, line_at place r c ps -> forall m n, nth_error (map first_of ps) m = Some n -> pos n = (r, c + Z.of_nat m)%Z.
Proof.
  induction ps as [|p ps IH]; intros r c H m n E; [destruct m; discriminate|]. destruct H as [H1 H2]. destruct m as [|m]; cbn in E.
  - injection E as <-. rewrite H1. f_equal. lia.
  - rewrite (IH r (c + 1)%Z H2 m n E). f_equal. lia.
Qed.
Lemma rows_nodup : forall row bs, NoDup (rows_of row bs).
Proof.
  intros row bs. unfold rows_of. apply FinFun.Injective_map_NoDup; [intros a b E; lia|]. destruct (direct bs); [|apply fan_nodup].
  destruct (le_lt_dec 2 (length bs)) as [K|K].
  - pose proof (fan_nodup (length bs)) as N. rewrite (fan_last (length bs) K) in N. eapply nodup_l; eauto.
  - assert (X : length bs = 0 \/ length bs = 1) by lia. destruct X as [-> | ->]; constructor.
Qed.
Definition apart (l : list string) : Prop := forall a b, In a l -> In b l -> pos a = pos b -> a = b.
Lemma picture_apart : forall ps row col e, (forall p, In p ps -> act_part p) -> picture_at place row col ps e ->
  (forall n, In n (nodes ps e) -> (col <= snd (pos n))%Z) /\ apart (nodes ps e).
Proof.
  induction ps as [|[m|g j bs] qs IH]; intros row col e Pa X; cbn [picture_at] in X.
  - split; [intros n [<-|[]]; rewrite X; cbn; lia|]. intros a b [<-|[]] [<-|[]] _. reflexivity.
  - destruct X as [X1 X2]. destruct (IH row (col + 1)%Z e (fun p Hp => Pa p (or_intror Hp)) X2) as [C A]. unfold nodes in *. cbn [flat_map part_nodes app]. split.
    + intros n [<-|Hn]; [rewrite X1; cbn; lia|]. specialize (C n Hn). lia.
    + intros a b [<-|Ha] [<-|Hb] E; auto; exfalso.
      * specialize (C b Hb). rewrite <- E, X1 in C. cbn in C. lia.
      * specialize (C a Ha). rewrite E, X1 in C. cbn in C. lia.
  - change (list branch_t) in (type of bs). destruct X as (X1 & X2 & (rows & X3 & X4) & X5). pose proof (longest_nonneg bs) as L0.
    destruct (IH _ _ e (fun p Hp => Pa p (or_intror Hp)) X5) as [C A].
    assert (Br : forall n, In n (flat_map names bs) -> exists i b m r, nth_error (filter has_steps bs) i = Some b /\ nth_error rows i = Some r /\
       nth_error (names b) m = Some n /\ pos n = (r, col + 1 + Z.of_nat m)%Z /\ (col + 1 + Z.of_nat m <= col + longest bs)%Z).
    { intros n Hn. apply in_flat_map in Hn. destruct Hn as [b [Hb Hn]]. destruct (In_nth_error _ _ Hn) as [m Hm]. assert (Lm : m < length (names b)) by (apply nth_error_Some; congruence).
      assert (Hs : In b (filter has_steps bs)) by (apply in_steps; split; [exact Hb|lia]). destruct (In_nth_error _ _ Hs) as [i Hi].
      assert (R : exists r, nth_error rows i = Some r /\ line_at place r (col + 1) (fst b)).
      { clear - X4 Hi. revert i Hi. induction X4 as [|b0 r l rs W F IHF]; intros i Hi; [destruct i; discriminate|]. destruct i as [|i]; [injection Hi as ->; exists r; split; [reflexivity|exact W]|exact (IHF i Hi)]. }
      destruct R as (r & Er & W). exists i, b, m, r. split; [exact Hi|]. split; [exact Er|]. split; [exact Hm|]. split; [exact (line_place _ _ _ W m n Hm)|].
      pose proof (longest_ge bs b Hb). lia. }
    assert (Nr : NoDup rows) by (eapply Permutation_NoDup; [apply Permutation_sym; exact X3|apply rows_nodup]).
    assert (Cs : forall n, In n (nodes (Block g j bs :: qs) e) ->
      (n = g /\ snd (pos n) = col) \/ (n = j /\ snd (pos n) = col + longest bs + 1)%Z \/
      (In n (flat_map names bs) /\ (col < snd (pos n) <= col + longest bs)%Z) \/ (In n (nodes qs e) /\ (col + longest bs + 2 <= snd (pos n))%Z)).
    { intros n Hn. unfold nodes in Hn. cbn [flat_map] in Hn. rewrite act_nodes in Hn by (apply (Pa (Block g j bs)); left; reflexivity). rewrite <- app_assoc in Hn. cbn [app] in Hn.
      destruct Hn as [<-|[<-|Hn]]; [left; rewrite X1; auto|right; left; rewrite X2; auto|]. apply in_app_or in Hn. destruct Hn as [Hn|Hn].
      - right. right. left. split; [exact Hn|]. destruct (Br n Hn) as (i & b & m & r & _ & _ & _ & E & Lm). rewrite E. cbn [snd]. lia.
      - right. right. right. split; [exact Hn|apply C; exact Hn]. }
    split.
    + intros n Hn. destruct (Cs n Hn) as [[_ E]|[[_ E]|[[_ E]|[_ E]]]]; lia.
    + intros a b Ha Hb E. assert (Es : snd (pos a) = snd (pos b)) by (rewrite E; reflexivity).
      destruct (Cs a Ha) as [[Ea E1]|[[Ea E1]|[[Ia E1]|[Ia E1]]]], (Cs b Hb) as [[Eb E2]|[[Eb E2]|[[Ib E2]|[Ib E2]]]]; try lia; try congruence.
      * destruct (Br a Ia) as (i & c & m & r & A1 & A2 & A3 & A4 & _), (Br b Ib) as (i' & c' & m' & r' & B1 & B2 & B3 & B4 & _).
        rewrite A4, B4 in E. assert (Er : r = r') by congruence. assert (Em : m = m') by (apply (f_equal snd) in E; cbn [snd] in E; lia). subst r' m'.
        assert (i = i') by (apply (proj1 (NoDup_nth_error rows) Nr); [apply nth_error_Some; congruence|congruence]). subst i'. congruence.
      * apply A; assumption.
Qed.
End Cells.
