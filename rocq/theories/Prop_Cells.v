(** C95: exactly which diagrams the grid accepts. *)
From Coq Require Import String List Bool Arith ZArith Lia Permutation.
From Verif Require Import Py PyFacts Consts Nx NxFacts Rep SpecRep RepFacts MetricsFacts Classify Layouter
  SpecLayout ClassifyFacts TopoFacts GridFacts LayoutFacts LayoutFacts2 Prop_Layout Prop_LayoutMetrics Prop_Splits
  SpecBlocks SpecFlat SpecPlan PlanFacts PlanBlocks SpecCells CellFacts CellPlan.
Import ListNotations.
Open Scope string_scope.
Open Scope list_scope.

Lemma layout_raises : forall fuel d cls s b e, generate_elements_clasification d = Ok cls ->
  topological_sort fuel d cls = Ok (s, b) -> grid_layout fuel d s = Err e -> generate_layout fuel d = (d, Err e).
Proof.
  intros fuel d cls s b e E1 E2 E3. unfold generate_layout, mbind, mread. rewrite E1, E2. cbn [fst]. rewrite E3. reflexivity.
Qed.

Lemma vstr_inj : forall a b, Some (VStr (zstr a)) = Some (VStr (zstr b)) -> a = b.
Proof. intros a b H. injection H as H. apply zstr_inj. exact H. Qed.

(** The outcome of the layout.  There is an order of the nodes and exactly one plan that puts
    every node where it belongs.  If the plan gives no cell to two nodes, the diagram is drawn
    according to the plan; otherwise TypeError is raised and nothing is changed. *)
Theorem C95_outcome : forall d fuel, coherent d -> all_laid_out d -> gwf (dgraph d) -> drawable d -> single_flows d ->
  no_join_after_split d -> loops_joined d -> sort_bound d <= fuel ->
  exists order pos, layout_order d order /\ plan_of d order pos /\
    (forall pos', plan_of d order pos' -> forall n, is_node d n -> pos' n = pos n) /\
    ((one_cell_each d pos /\ exists d', generate_layout fuel d = (d', Ok tt) /\
        forall n, is_node d n -> in_cell d' n (fst (pos n)) (snd (pos n))) \/
     ((exists a b, is_node d a /\ is_node d b /\ a <> b /\ pos a = pos b) /\ generate_layout fuel d = (d, Err TypeError))).
Proof.
  intros d fuel Co AL W Dr Sg Nj Lj F.
  destruct (proj1 (C27_terminates_iff d Co AL) Lj fuel F) as [s [b Es]]. pose proof Es as Es'.
  pose proof Co as [L _]. rewrite (elements_eq d L) in Es. cbn [rbind] in Es.
  pose proof (topo_ok d Co AL fuel s b Es) as I. destruct (final_facts d Co AL s b I) as [Ps [Ns [Os Ob]]].
  assert (Oj : forall x y, goes d x y -> ~ join_node d y -> before (map cid s) x y).
  { intros x y [f G] J. apply (Os f x y G). intro Hb. destruct (Ob f Hb) as [n [m [[_ [_ F1]] J']]]. destruct G as [_ [_ F2]].
    destruct (goes_fun d _ _ _ _ _ F1 F2) as [_ ->]. contradiction. }
  destruct (plan_exists d Co AL Sg Nj s Ps Ns Oj) as [pos P]. exists (map cid s), pos.
  split; [split; [split; [exact Ns|intro n; symmetry; apply (s_node d Co AL s Ps)]|exact Oj]|].
  split; [exact P|]. split; [intros pos' P' n Hn; exact (plan_unique d Co AL Sg Nj s Ps Ns Oj pos pos' P P' n Hn)|].
  assert (Lf : length (map cid s) <= fuel).
  { rewrite map_length, (Permutation_length Ps). change (orig d) with (classified d). unfold sort_bound in F. lia. }
  destruct (grid_or d Co AL Sg Nj s Ps Ns Oj pos P fuel Lf) as [[ids [Eg Hid]]|[Eg C]].
  - left. destruct (C90_only_the_grid_fails d fuel s b _ Co AL W Dr Es' Eg) as [d' Ed].
    destruct (layout_facts _ d d' Co Ed) as [_ [s' [b' [g [d1 [A1 [_ [A3 [_ [Ng [_ [_ [A8 _]]]]]]]]]]]]].
    rewrite Es in A1. injection A1 as <- <-. rewrite Eg in A3. injection A3 as <-.
    assert (Cell : forall n, is_node d n -> in_cell d' n (fst (pos n)) (snd (pos n))).
    { intros n Hn. destruct (A8 n Hn) as [c [_ [_ [Gc [_ At]]]]]. rewrite gfind_plan in Gc by (apply Hid; exact Hn). injection Gc as <-.
      cbn [ccol crow cellof] in At. unfold in_cell. rewrite (Z.mul_comm 150), (Z.mul_comm 100). exact At. }
    split; [|exists d'; split; [exact Ed|exact Cell]].
    intros a c Ha Hc E. pose proof (Cell a Ha) as Ca. rewrite E in Ca. exact (C28_no_overlap fuel d d' a c _ _ Co Ed Ha Hc Ca (Cell c Hc)).
  - right. split; [exact C|]. apply (layout_raises fuel d (classified d) s b); [apply elements_eq; exact L|exact Es|exact Eg].
Qed.

(** * Sequences side by side *)
(** A diagram without splits and joins, that is, one or more separate sequences, is always
    laid out: the sequences stand in rows of their own, two rows apart, and start in column 1. *)
Theorem C95_sequences : forall d fuel, coherent d -> all_laid_out d -> gwf (dgraph d) -> drawable d ->
  (forall n, ~ split_node d n /\ ~ join_node d n) -> acyclic d -> sort_bound d <= fuel ->
  exists d' firsts, generate_layout fuel d = (d', Ok tt) /\ lists (first_node d) firsts /\
    (forall i n, nth_error firsts i = Some n -> in_cell d' n (2 * (Z.of_nat i + 1)) 1) /\
    (forall f n m row col, flow d f n m -> in_cell d' n row col -> in_cell d' m row (col + 1)).
Proof.
  intros d fuel Co AL W Dr Nn Ac F.
  assert (One : forall f g x y z, flow d f x y -> flow d g x z -> f = g).
  { intros f g x y z [A _] [B _]. destruct (Nn x) as [Sx _]. unfold split_node in Sx. destruct (outgoing_of d x) as [|a [|b l]]; cbn in *; try tauto; [|lia].
    destruct A as [<-|[]], B as [<-|[]]. reflexivity. }
  assert (Sg : single_flows d) by (intros f g x y A B; eapply One; eauto).
  assert (Nj : no_join_after_split d) by (intros f p n _ S; destruct (Nn p); contradiction).
  assert (Lj : loops_joined d) by (intros l C; exfalso; exact (Ac l C)).
  destruct (C95_outcome d fuel Co AL W Dr Sg Nj Lj F) as (order & pos & [Lo Oo] & P & _ & Out).
  assert (Cases : forall n, is_node d n ->
    (exists fs i, lists (first_node d) fs /\ same_order order fs /\ nth_error fs i = Some n /\ pos n = (2 * (Z.of_nat i + 1), 1)%Z) \/
    (exists p, lists (fun x => goes d x n) [p] /\ pos n = (fst (pos p), snd (pos p) + 1)%Z)).
  { intros n Hn. destruct (P n Hn) as [fs i A B C D|p A B D|p l i row r A B|l l1 A B C D].
    - left. exists fs, i. auto.
    - right. exists p. auto.
    - exfalso. destruct (Nn p). contradiction.
    - exfalso. destruct (Nn n) as [_ J]. apply J. destruct l as [|x [|y l]]; cbn in B; try lia. unfold join_node.
      assert (Gx : goes d x n) by (apply A; left; reflexivity). assert (Gy : goes d y n) by (apply A; right; left; reflexivity).
      destruct Gx as [f Fx], Gy as [g Fy]. pose proof Fx as [_ [Ix Gx]]. pose proof Fy as [_ [Iy Gy]].
      destruct (incoming_of d n) as [|a [|c t]]; cbn in *; try tauto; [|lia]. destruct Ix as [->|[]], Iy as [->|[]].
      destruct (goes_fun d _ _ _ _ _ Gx Gy) as [-> _]. pose proof (proj1 A) as Nd. inversion Nd as [|? ? X _]. exfalso. apply X. left; reflexivity. }
  assert (Pos1 : forall i n, nth_error order i = Some n -> (1 <= snd (pos n))%Z).
  { induction i as [i IH] using lt_wf_ind. intros n E. assert (Hn : is_node d n) by (apply Lo; eapply nth_error_In; eauto).
    destruct (Cases n Hn) as [(fs & j & _ & _ & _ & Ep)|(p & Lp & Ep)]; rewrite Ep; cbn [snd]; [lia|].
    assert (G : goes d p n) by (apply Lp; left; reflexivity). destruct (Oo p n G (proj2 (Nn n))) as (a & c & L & A & B).
    assert (c = i) by (apply (proj1 (NoDup_nth_error _) (proj1 Lo)); [apply nth_error_Some; congruence|congruence]). subst c.
    specialize (IH a L p A). lia. }
  assert (Pos : forall n, is_node d n -> (1 <= snd (pos n))%Z).
  { intros n Hn. apply Lo in Hn. destruct (In_nth_error _ _ Hn) as [i E]. eapply Pos1; eauto. }
  assert (Inj : forall k a b, is_node d a -> is_node d b -> (snd (pos a) <= Z.of_nat k)%Z -> pos a = pos b -> a = b).
  { induction k as [|k IH]; intros a b Ha Hb Lk E; [pose proof (Pos a Ha); lia|].
    destruct (Cases a Ha) as [(fs & i & A1 & A2 & A3 & A4)|(p & A1 & A2)], (Cases b Hb) as [(fs' & j & B1 & B2 & B3 & B4)|(q & B1 & B2)].
    - rewrite A4, B4 in E. assert (i = j) by (apply (f_equal fst) in E; cbn [fst] in E; lia). subst j. assert (fs = fs') by (eapply (lists_eq order); eauto; apply Lo). congruence.
    - exfalso. assert (Nq : is_node d q) by (apply (goes_nodes d q b), B1; left; reflexivity). pose proof (Pos q Nq). rewrite A4, B2 in E. apply (f_equal snd) in E. cbn [snd] in E. lia.
    - exfalso. assert (Np : is_node d p) by (apply (goes_nodes d p a), A1; left; reflexivity). pose proof (Pos p Np). rewrite B4, A2 in E. apply (f_equal snd) in E. cbn [snd] in E. lia.
    - assert (Gp : goes d p a) by (apply A1; left; reflexivity). assert (Gq : goes d q b) by (apply B1; left; reflexivity).
      assert (p = q).
      { apply IH; [apply (goes_nodes d p a Gp)|apply (goes_nodes d q b Gq)| |].
        - rewrite A2 in Lk. cbn [snd] in Lk. lia.
        - rewrite A2, B2 in E. pose proof (f_equal fst E) as E1. pose proof (f_equal snd E) as E2. destruct (pos p), (pos q). cbn [fst snd] in *. f_equal; [exact E1|lia]. }
      subst q. destruct Gp as [f Fp], Gq as [g Gq]. assert (f = g) by (eapply One; eauto). subst g.
      destruct Fp as [_ [_ F1]], Gq as [_ [_ F2]]. apply (goes_fun d _ _ _ _ _ F1 F2). }
  destruct Out as [[_ [d' [Ed Cell]]]|[(a & b & Ha & Hb & Ne & E) _]].
  - assert (Lf : exists fs, lists (first_node d) fs /\ same_order order fs).
    { exists (filter (firstb d) order). split; [|apply same_order_filter; apply Lo].
      split; [apply NoDup_filter; apply Lo|]. intro x. rewrite filter_In. split.
      - intros [A B]. apply (firstb_iff d Co); [apply Lo; exact A|exact B].
      - intros A. split; [apply Lo, A|]. apply (firstb_iff d Co); [apply A|exact A]. }
    destruct Lf as [fs [Lf Of]]. exists d', fs. split; [exact Ed|]. split; [exact Lf|]. split.
    + intros i n E. assert (Fn : first_node d n) by (apply Lf; eapply nth_error_In; eauto). pose proof (Cell n (proj1 Fn)) as C.
      destruct (Cases n (proj1 Fn)) as [(fs' & j & B1 & B2 & B3 & B4)|(q & B1 & B2)].
      * assert (fs = fs') by (eapply (lists_eq order); eauto; apply Lo). subst fs'.
        assert (i = j) by (apply (proj1 (NoDup_nth_error _) (proj1 Lf)); [apply nth_error_Some; congruence|congruence]). subst j.
        rewrite B4 in C. exact C.
      * exfalso. apply (proj2 Fn q). apply B1. left; reflexivity.
    + intros f n m row col Fl C. assert (Nn' : is_node d n) by (eapply outgoing_node; apply Fl). assert (Nm : is_node d m) by (eapply incoming_node; apply Fl).
      pose proof (Cell n Nn') as Cn. pose proof (Cell m Nm) as Cm.
      assert (Ep : pos m = (fst (pos n), snd (pos n) + 1)%Z).
      { destruct (Cases m Nm) as [(fs' & j & B1 & B2 & B3 & B4)|(q & B1 & B2)].
        - exfalso. apply nth_error_In in B3. apply B1 in B3. apply (proj2 B3 n). exists f. exact Fl.
        - assert (In n [q]) by (apply B1; exists f; exact Fl). destruct H as [->|[]]. exact B2. }
      rewrite Ep in Cm. cbn [fst snd] in Cm. unfold in_cell, at_xy in *. destruct C as [X Y], Cn as [X' Y'].
      rewrite X in X'. rewrite Y in Y'. apply vstr_inj in X'. apply vstr_inj in Y'.
      assert (fst (pos n) = row) by lia. assert (snd (pos n) = col) by lia. subst row col. exact Cm.
  - exfalso. apply Ne. apply (Inj (Z.to_nat (snd (pos a))) a b Ha Hb); [|exact E]. pose proof (Pos a Ha). lia.
Qed.

(** * Decisions of the same depth *)
(** From [x] the flows lead over [k] steps to [y], without splits and joins on the way. *)
Inductive steps (d : diagram) : nat -> string -> string -> Prop :=
| st_here : forall x, steps d 0 x x
| st_next : forall k x y z, goes d x y -> ~ split_node d x -> ~ join_node d y -> steps d k y z -> steps d (S k) x z.
(** Exactly two flows leave [n]. *)
Definition two_ways (d : diagram) (n : string) : Prop := exists a b, lists (goes d n) [a; b].

Section Depth.
Variables (d : diagram) (order : list string) (pos : string -> Z * Z).
Hypothesis Nj : no_join_after_split d.
Hypothesis Nd : NoDup order.
Hypothesis P : plan_of d order pos.
Lemma two_ne : forall Q (a b : string) l, lists Q (a :: b :: l) -> Q a /\ Q b /\ a <> b.
Proof.
  intros Q a b l [N H]. split; [apply H; left; reflexivity|]. split; [apply H; right; left; reflexivity|].
  inversion N as [|? ? X _]. intros ->. apply X. left; reflexivity.
Qed.
Lemma join_two : forall n x y, goes d x n -> goes d y n -> x <> y -> join_node d n.
Proof.
  intros n x y [f Fx] [g Fy] Ne. pose proof Fx as [_ [Ix Gx]]. pose proof Fy as [_ [Iy Gy]]. unfold join_node.
  destruct (incoming_of d n) as [|a [|c t]]; cbn in *; try tauto; [|lia]. destruct Ix as [->|[]], Iy as [->|[]].
  destruct (goes_fun d _ _ _ _ _ Gx Gy) as [-> _]. congruence.
Qed.
Lemma split_two : forall n x y, goes d n x -> goes d n y -> x <> y -> split_node d n.
Proof.
  intros n x y [f Fx] [g Fy] Ne. pose proof Fx as [Ix [_ Gx]]. pose proof Fy as [Iy [_ Gy]]. unfold split_node.
  destruct (outgoing_of d n) as [|a [|c t]]; cbn in *; try tauto; [|lia]. destruct Ix as [->|[]], Iy as [->|[]].
  destruct (goes_fun d _ _ _ _ _ Gx Gy) as [_ ->]. congruence.
Qed.
Lemma not_join_one : forall n x y, ~ join_node d n -> goes d x n -> goes d y n -> x = y.
Proof. intros n x y J A B. destruct (string_dec x y) as [|Ne]; [assumption|]. exfalso. apply J. exact (join_two n x y A B Ne). Qed.
Lemma step_pos : forall x y, goes d x y -> ~ split_node d x -> ~ join_node d y -> pos y = (fst (pos x), snd (pos x) + 1)%Z.
Proof.
  intros x y G S J. assert (Ny : is_node d y) by (apply (goes_nodes d x y G)).
  destruct (P y Ny) as [fs i A B C D|p A B D|p l i row r A B|l l1 A B C D].
  - exfalso. apply nth_error_In in C. apply A in C. exact (proj2 C x G).
  - assert (X : In x [p]) by (apply A; exact G). destruct X as [->|[]]. exact D.
  - exfalso. apply A in G. destruct G as [->|[]]. contradiction.
  - exfalso. destruct l as [|a [|b l]]; cbn in B; try lia. destruct (two_ne _ _ _ _ A) as (Ga & Gb & Ne). apply J. exact (join_two y a b Ga Gb Ne).
Qed.
Lemma steps_pos : forall k x y, steps d k x y -> pos y = (fst (pos x), snd (pos x) + Z.of_nat k)%Z.
Proof.
  intros k x y H. induction H as [x|k x y z G S J H IH].
  - destruct (pos x) as [a b]. cbn [fst snd]. f_equal. lia.
  - rewrite IH, (step_pos x y G S J). cbn [fst snd]. f_equal. lia.
Qed.
Lemma steps_last : forall k x y, steps d (S k) x y -> exists z, goes d z y /\ ~ split_node d z /\ ~ join_node d y.
Proof.
  induction k as [|k IH]; intros x y H; inversion H as [|? ? z ? G S J H']; subst.
  - inversion H'; subst. exists x. auto.
  - eapply IH; eauto.
Qed.
(** The place of a node right after a split. *)
Lemma branch_pos : forall n x row, goes d n x -> split_node d n -> fan_row d pos n row ->
  exists l i r, lists (goes d n) l /\ same_order order l /\ nth_error l i = Some x /\ nth_error (fan (length l)) i = Some r /\
    pos x = (row + (r - 2), snd (pos n) + 1)%Z.
Proof.
  intros n x row G S Fr. assert (J : ~ join_node d x) by (destruct G as [f F]; exact (Nj f _ _ F S)).
  assert (Nx : is_node d x) by (apply (goes_nodes d n x G)).
  destruct (P x Nx) as [fs i A B C D|p A B D|p l i row' r A B C D E F0 G0 H|l l1 A B C D].
  - exfalso. apply nth_error_In in C. apply A in C. exact (proj2 C n G).
  - exfalso. assert (X : In n [p]) by (apply A; exact G). destruct X as [->|[]]. contradiction.
  - assert (X : In n [p]) by (apply A; exact G). destruct X as [->|[]].
    assert (Row : row' = row).
    { destruct F0 as [(q & G1 & S1 & ->)|[T ->]], Fr as [(q' & G2 & S2 & ->)|[T' ->]]; auto.
      - f_equal. f_equal. assert (Jn : ~ join_node d n) by (destruct G1 as [f F]; exact (Nj f _ _ F S1)). eapply not_join_one; eauto.
      - exfalso. exact (T' q G1 S1).
      - exfalso. exact (T q' G2 S2). }
    subst row'. exists l, i, r. auto 10.
  - exfalso. destruct l as [|a [|b l]]; cbn in B; try lia. destruct (two_ne _ _ _ _ A) as (Ga & Gb & Ne). apply J. exact (join_two x a b Ga Gb Ne).
Qed.
Lemma two_pos : forall n row, two_ways d n -> fan_row d pos n row ->
  exists a b, lists (goes d n) [a; b] /\ pos a = (row + 2, snd (pos n) + 1)%Z /\ pos b = (row - 2, snd (pos n) + 1)%Z.
Proof.
  intros n row (a & b & L) Fr. destruct (two_ne _ _ _ _ L) as (Ga & Gb & Ne). assert (S : split_node d n) by (exact (split_two n a b Ga Gb Ne)).
  destruct (branch_pos n a row Ga S Fr) as (l & i & r & Ll & Ol & _).
  assert (X : length l = 2) by (rewrite (Permutation_length (lists_perm _ _ _ Ll L)); reflexivity).
  destruct l as [|x [|y [|? ?]]]; try discriminate. destruct (two_ne _ _ _ _ Ll) as (Gx & Gy & Ne').
  exists x, y. split; [exact Ll|]. split.
  - destruct (branch_pos n x row Gx S Fr) as (l & j & r' & L1 & O1 & E1 & E2 & ->).
    assert (l = [x; y]) by (exact (lists_eq order _ _ _ Nd L1 Ll O1 Ol)). subst l.
    destruct j as [|[|j]]; cbn in E1; [|congruence|destruct j; discriminate]. apply some_inj in E2. subst r'. f_equal; lia.
  - destruct (branch_pos n y row Gy S Fr) as (l & j & r' & L1 & O1 & E1 & E2 & ->).
    assert (l = [x; y]) by (exact (lists_eq order _ _ _ Nd L1 Ll O1 Ol)). subst l.
    destruct j as [|[|j]]; cbn in E1; [congruence| |destruct j; discriminate]. apply some_inj in E2. subst r'. f_equal; lia.
Qed.
End Depth.

(** A decision whose two branches both reach a decision with two branches after the same
    number of steps cannot be laid out: two of the four inner branches would stand in one
    cell. *)
Theorem C95_equal_depth_fails : forall d fuel g a b k ga gb, coherent d -> all_laid_out d -> gwf (dgraph d) -> drawable d -> single_flows d ->
  no_join_after_split d -> loops_joined d -> sort_bound d <= fuel ->
  lists (goes d g) [a; b] -> steps d k a ga -> steps d k b gb -> two_ways d ga -> two_ways d gb ->
  generate_layout fuel d = (d, Err TypeError).
Proof.
  intros d fuel g a b k ga gb Co AL W Dr Sg Nj Lj F Tg Sa Sb Ta Tb.
  destruct (C95_outcome d fuel Co AL W Dr Sg Nj Lj F) as (order & pos & [Lo Oo] & P & _ & [[O _]|[_ E]]); [exfalso|exact E].
  destruct (two_ne _ _ _ _ Tg) as (Ga & Gb & Ne). pose proof (split_two d g a b Ga Gb Ne) as Sp.
  assert (Fr : exists row, fan_row d pos g row).
  { destruct (goes_nodes d g a Ga) as [Ng _].
    assert (Dec : (exists q, goes d q g /\ split_node d q) \/ forall q, goes d q g -> ~ split_node d q).
    { destruct (P g Ng) as [fs i A B C D|p A B D|p l i row r A B|l l1 A B C D].
      - right. intros q G. apply nth_error_In in C. apply A in C. exfalso. exact (proj2 C q G).
      - right. intros q G. apply A in G. destruct G as [->|[]]. exact B.
      - left. exists p. split; [apply A; left; reflexivity|exact B].
      - right. intros q G Sq. destruct G as [f Fq]. apply (Nj f _ _ Fq Sq). destruct l as [|x [|y l]]; cbn in B; try lia.
        destruct (two_ne _ _ _ _ A) as (Gx & Gy & N). exact (join_two d g x y Gx Gy N). }
    destruct Dec as [(q & G & S)|T]; [exists (fst (pos q)); left; eauto|exists (fst (pos g)); right; auto]. }
  destruct Fr as [row Fr].
  assert (Rows : exists a' b', goes d g a' /\ goes d g b' /\ pos a' = (row + 2, snd (pos g) + 1)%Z /\ pos b' = (row - 2, snd (pos g) + 1)%Z /\
     exists ga' gb', steps d k a' ga' /\ steps d k b' gb' /\ two_ways d ga' /\ two_ways d gb').
  { destruct (two_pos d order pos Nj (proj1 Lo) P g row (ex_intro _ a (ex_intro _ b Tg)) Fr) as (x & y & L & Px & Py).
    destruct (two_ne _ _ _ _ L) as (Gx & Gy & N). exists x, y. split; [exact Gx|]. split; [exact Gy|]. split; [exact Px|]. split; [exact Py|].
    apply Tg in Gx. apply Tg in Gy. destruct Gx as [<-|[<-|[]]], Gy as [<-|[<-|[]]]; try congruence; [exists ga, gb|exists gb, ga]; auto. }
  clear a b ga gb Tg Sa Sb Ta Tb Ga Gb Ne.
  destruct Rows as (a & b & Ga & Gb & Pa & Pb & ga & gb & Sa & Sb & Ta & Tb).
  pose proof (steps_pos d order pos P k a ga Sa) as Pga. pose proof (steps_pos d order pos P k b gb Sb) as Pgb.
  rewrite Pa in Pga. rewrite Pb in Pgb. cbn [fst snd] in Pga, Pgb.
  assert (Clash : exists ra rb, fan_row d pos ga ra /\ fan_row d pos gb rb /\ (ra = rb \/ ra = rb + 4)%Z).
  { destruct k as [|k].
    - inversion Sa; subst ga. inversion Sb; subst gb. exists (fst (pos g)), (fst (pos g)). split; [left; eauto|]. split; [left; eauto|]. left; reflexivity.
    - destruct (steps_last d k a ga Sa) as (u & Gu & Su & Ju). destruct (steps_last d k b gb Sb) as (v & Gv & Sv & Jv).
      exists (row + 2)%Z, (row - 2)%Z. split; [|split; [|right; lia]].
      + right. split; [|rewrite Pga; reflexivity]. intros q G. rewrite (not_join_one d ga q u Ju G Gu). exact Su.
      + right. split; [|rewrite Pgb; reflexivity]. intros q G. rewrite (not_join_one d gb q v Jv G Gv). exact Sv. }
  destruct Clash as (ra & rb & Fa & Fb & Eq).
  destruct (two_pos d order pos Nj (proj1 Lo) P ga ra Ta Fa) as (x1 & x2 & Lx & P1 & P2).
  destruct (two_pos d order pos Nj (proj1 Lo) P gb rb Tb Fb) as (y1 & y2 & Ly & Q1 & Q2).
  destruct (two_ne _ _ _ _ Lx) as (X1 & X2 & Nx). destruct (two_ne _ _ _ _ Ly) as (Y1 & Y2 & Ny).
  assert (Hit : exists x y, goes d ga x /\ goes d gb y /\ pos x = pos y).
  { rewrite Pga, Pgb in *. cbn [snd] in *. destruct Eq as [Eq|Eq].
    - exists x1, y1. split; [exact X1|]. split; [exact Y1|]. rewrite P1, Q1, Eq. reflexivity.
    - exists x2, y1. split; [exact X2|]. split; [exact Y1|]. rewrite P2, Q1, Eq. f_equal. lia. }
  destruct Hit as (x & y & Gx & Gy & E).
  assert (x = y) by (apply O; [apply (goes_nodes d ga x Gx)|apply (goes_nodes d gb y Gy)|exact E]). subst y.
  pose proof (split_two d ga x1 x2 X1 X2 Nx) as Sga.
  assert (J : ~ join_node d x) by (destruct Gx as [f Fx]; exact (Nj f _ _ Fx Sga)).
  pose proof (not_join_one d x ga gb J Gx Gy) as ->.
  rewrite Pga in Pgb. apply (f_equal fst) in Pgb. cbn [fst] in Pgb. lia.
Qed.

(** * Examples *)
Lemma path_head : forall d n l k, path d n l k -> In n l.
Proof. intros d n l k H. destruct H; left; reflexivity. Qed.
(** The position of an element in a list. *)
Fixpoint place_in (l : list string) (n : string) : nat :=
  match l with [] => 0 | x :: t => if String.eqb x n then 0 else S (place_in t n) end.
Lemma path_up : forall d o, (forall f n m, flow d f n m -> place_in o n < place_in o m \/ join_node d m) ->
  forall n l k, path d n l k -> ~ join_node d k -> (forall x, In x l -> ~ join_node d x) -> place_in o n < place_in o k.
Proof.
  intros d o U n l k H. induction H as [f n m F|f n m l k F H IH]; intros J Jl.
  - destruct (U f n m F); [assumption|contradiction].
  - apply Nat.lt_trans with (place_in o m).
    + destruct (U f n m F) as [X|X]; [exact X|]. exfalso. exact (Jl m (or_intror (path_head _ _ _ _ H)) X).
    + apply IH; [exact J|]. intros x Hx. apply Jl. right. exact Hx.
Qed.
Lemma lists_dec_join : forall d l, (exists n, In n l /\ join_node d n) \/ forall x, In x l -> ~ join_node d x.
Proof.
  induction l as [|a l IH]; [right; intros x []|]. destruct IH as [[n [A B]]|IH]; [left; exists n; split; [right; exact A|exact B]|].
  destruct (join_b d a) eqn:E; [left; exists a; split; [left; reflexivity|apply Nat.leb_le; exact E]|].
  right. intros x [<-|Hx]; [apply join_b_no; exact E|auto].
Qed.
(** All flows lead on in the order [o] or into a join, and none from a split into a join. *)
Definition cells_b (o : list string) (d : diagram) : bool :=
  forallb (fun p => (Nat.ltb (place_in o (fl_src (snd p))) (place_in o (fl_tgt (snd p))) || join_b d (fl_tgt (snd p))) &&
    negb (split_b d (fl_src (snd p)) && join_b d (fl_tgt (snd p)))) (seq_flows d).
Lemma api_cells : forall l d o, history l d -> distinct_pairs d -> cells_b o d = true ->
  coherent d /\ all_laid_out d /\ gwf (dgraph d) /\ drawable d /\ single_flows d /\ no_join_after_split d /\ loops_joined d.
Proof.
  intros l d o H P C. destruct (C26_api_diagrams_coherent l d H P) as [Co [AL [W [Dr _]]]].
  split; [exact Co|]. split; [exact AL|]. split; [exact W|]. split; [exact Dr|]. unfold cells_b in C. rewrite forallb_forall in C.
  split; [|split].
  - intros f g x y A B. destruct (C26_api_diagrams_coherent l d H P) as [_ [_ [_ [_ X]]]]. apply X in A. apply X in B.
    destruct A as [r [E1 [A1 A2]]], B as [r' [E2 [B1 B2]]]. apply (P f r g r' E1 E2). left. split; congruence.
  - intros f p n F S J. destruct (only_flow l d f p n H P F) as (r & I & <- & <-). specialize (C _ I). cbn [snd] in C.
    apply andb_true_iff in C. destruct C as [_ C]. apply negb_true_iff in C.
    assert (X : split_b d (fl_src r) = true) by (apply Nat.leb_le; exact S). assert (Y : join_b d (fl_tgt r) = true) by (apply Nat.leb_le; exact J).
    rewrite X, Y in C. discriminate.
  - intros c [n Cy]. destruct (lists_dec_join d c) as [X|X]; [exact X|]. exfalso.
    assert (U : forall f a b, flow d f a b -> place_in o a < place_in o b \/ join_node d b).
    { intros f a b F. destruct (only_flow l d f a b H P F) as (r & I & <- & <-). specialize (C _ I). cbn [snd] in C.
      apply andb_true_iff in C. destruct C as [C _]. apply orb_true_iff in C. destruct C as [C|C]; [left; apply Nat.ltb_lt; exact C|right; apply Nat.leb_le; exact C]. }
    pose proof (path_up d o U n c n Cy (X n (path_head _ _ _ _ Cy)) X). lia.
Qed.
(** A loop with a task on the way back is accepted; the decisions of C65 are not. *)
Example C95_outcome_example :
  (coherent redo /\ all_laid_out redo /\ gwf (dgraph redo) /\ drawable redo /\ single_flows redo /\ no_join_after_split redo /\ loops_joined redo) /\
  sort_bound redo <= 60 /\ (exists d', generate_layout 60 redo = (d', Ok tt)) /\
  (let t := run empty_diagram tree_ops in
   (coherent t /\ all_laid_out t /\ gwf (dgraph t) /\ drawable t /\ single_flows t /\ no_join_after_split t /\ loops_joined t) /\
   sort_bound t <= 60 /\ generate_layout 60 t = (t, Err TypeError)).
Proof.
  split; [apply (api_cells redo_ops redo ["s"; "a"; "b"; "g"; "e"; "c"] redo_history redo_pairs); vm_compute; reflexivity|].
  split; [apply Nat.leb_le; vm_compute; reflexivity|]. split; [eexists; vm_compute; reflexivity|]. cbv zeta.
  split; [|split; [apply Nat.leb_le; vm_compute; reflexivity|vm_compute; reflexivity]].
  apply (api_cells tree_ops _ ["x"; "a"; "b"; "c"; "d"; "e"; "f"]); [apply checked_history|apply pairs_checked_ok|]; vm_compute; reflexivity.
Qed.

(** Two sequences of tasks in one diagram. *)
Definition lanes_ops : list op :=
  [ONew "m" "0"; OTask "id2" "a" (Some "a") ""; OTask "id2" "b" (Some "b") ""; OTask "id2" "c" (Some "c") "";
   OTask "id2" "x" (Some "x") ""; OTask "id2" "y" (Some "y") "";
   OFlow "id2" "a" "b" "" "10"; OFlow "id2" "x" "y" "" "11"; OFlow "id2" "b" "c" "" "12"].
Definition lanes : diagram := run empty_diagram lanes_ops.
Example C95_sequences_example : coherent lanes /\ all_laid_out lanes /\ gwf (dgraph lanes) /\ drawable lanes /\
  (forall n, ~ split_node lanes n /\ ~ join_node lanes n) /\ acyclic lanes /\ sort_bound lanes <= 60 /\
  positions 60 lanes = Ok [("a", Some (VStr "200"), Some (VStr "450")); ("b", Some (VStr "350"), Some (VStr "450"));
    ("c", Some (VStr "500"), Some (VStr "450")); ("x", Some (VStr "200"), Some (VStr "250")); ("y", Some (VStr "350"), Some (VStr "250"))].
Proof.
  assert (H : history lanes_ops lanes) by (apply checked_history; vm_compute; reflexivity).
  assert (P : distinct_pairs lanes) by (apply pairs_checked_ok; vm_compute; reflexivity).
  assert (C : cells_b ["a"; "b"; "c"; "x"; "y"] lanes = true) by (vm_compute; reflexivity).
  destruct (api_cells _ _ _ H P C) as (Co & AL & W & Dr & _ & _ & Lj).
  assert (N : forall n, ~ split_node lanes n /\ ~ join_node lanes n).
  { intro n. assert (Z : forallb (fun n => negb (split_b lanes n) && negb (join_b lanes n)) (node_keys lanes) = true) by (vm_compute; reflexivity).
    rewrite forallb_forall in Z.
    assert (D : forall f, In f (outgoing_of lanes n) \/ In f (incoming_of lanes n) -> negb (split_b lanes n) && negb (join_b lanes n) = true).
    { intros f [X|X]; apply Z; [exact (outgoing_node _ _ _ X)|exact (incoming_node _ _ _ X)]. }
    unfold split_node, join_node. split; intro X.
    - destruct (outgoing_of lanes n) as [|f l] eqn:E; [cbn in X; lia|]. specialize (D f (or_introl (or_introl eq_refl))). apply andb_true_iff in D.
      destruct D as [D _]. apply negb_true_iff, Nat.leb_gt in D. rewrite E in D. lia.
    - destruct (incoming_of lanes n) as [|f l] eqn:E; [cbn in X; lia|]. specialize (D f (or_intror (or_introl eq_refl))). apply andb_true_iff in D.
      destruct D as [_ D]. apply negb_true_iff, Nat.leb_gt in D. rewrite E in D. lia. }
  split; [exact Co|]. split; [exact AL|]. split; [exact W|]. split; [exact Dr|]. split; [exact N|].
  split; [intros l C'; destruct (Lj l C') as [n [_ J]]; exact (proj2 (N n) J)|]. split; [apply Nat.leb_le; vm_compute; reflexivity|].
  vm_compute; reflexivity.
Qed.

(** A decision with a task and a further decision on both branches. *)
Definition depth_ops : list op :=
  [ONew "m" "0"; OExclusive "id2" "g" "Diverging" None (Some "g") ""; OTask "id2" "a" (Some "a") ""; OTask "id2" "b" (Some "b") "";
   OExclusive "id2" "h" "Diverging" None (Some "h") ""; OExclusive "id2" "k" "Diverging" None (Some "k") "";
   OTask "id2" "p" (Some "p") ""; OTask "id2" "q" (Some "q") ""; OTask "id2" "r" (Some "r") ""; OTask "id2" "t" (Some "t") "";
   OFlow "id2" "g" "a" "" "10"; OFlow "id2" "g" "b" "" "11"; OFlow "id2" "a" "h" "" "12"; OFlow "id2" "b" "k" "" "13";
   OFlow "id2" "h" "p" "" "14"; OFlow "id2" "h" "q" "" "15"; OFlow "id2" "k" "r" "" "16"; OFlow "id2" "k" "t" "" "17"].
Definition depth : diagram := run empty_diagram depth_ops.
Lemma lists_known : forall l d n xs, history l d -> distinct_pairs d -> NoDup xs ->
  forallb (fun p => negb (String.eqb (fl_src (snd p)) n) || smem (fl_tgt (snd p)) xs) (seq_flows d) = true ->
  (forall x, In x xs -> exists f, flow d f n x) -> lists (goes d n) xs.
Proof.
  intros l d n xs H P Nx C K. split; [exact Nx|]. intro x. split; [intro Hx; apply K; exact Hx|]. intros [f F].
  destruct (only_flow l d f n x H P F) as (r & I & E & <-). rewrite forallb_forall in C. specialize (C _ I). cbn [snd] in C.
  rewrite E, eqb_refl' in C. cbn [negb orb] in C. apply smem_In. exact C.
Qed.
Example C95_equal_depth_fails_example : coherent depth /\ all_laid_out depth /\ gwf (dgraph depth) /\ drawable depth /\ single_flows depth /\
  no_join_after_split depth /\ loops_joined depth /\ sort_bound depth <= 80 /\
  lists (goes depth "g") ["a"; "b"] /\ steps depth 1 "a" "h" /\ steps depth 1 "b" "k" /\ two_ways depth "h" /\ two_ways depth "k".
Proof.
  assert (H : history depth_ops depth) by (apply checked_history; vm_compute; reflexivity).
  assert (P : distinct_pairs depth) by (apply pairs_checked_ok; vm_compute; reflexivity).
  assert (C : cells_b ["g"; "a"; "b"; "h"; "k"; "p"; "q"; "r"; "t"] depth = true) by (vm_compute; reflexivity).
  destruct (api_cells _ _ _ H P C) as (Co & AL & W & Dr & Sg & Nj & Lj).
  pose proof (flow_known _ _ "id10" "g" "a" H P ltac:(vm_compute; reflexivity)) as F0.
  pose proof (flow_known _ _ "id11" "g" "b" H P ltac:(vm_compute; reflexivity)) as F1.
  pose proof (flow_known _ _ "id12" "a" "h" H P ltac:(vm_compute; reflexivity)) as F2.
  pose proof (flow_known _ _ "id13" "b" "k" H P ltac:(vm_compute; reflexivity)) as F3.
  pose proof (flow_known _ _ "id14" "h" "p" H P ltac:(vm_compute; reflexivity)) as F4.
  pose proof (flow_known _ _ "id15" "h" "q" H P ltac:(vm_compute; reflexivity)) as F5.
  pose proof (flow_known _ _ "id16" "k" "r" H P ltac:(vm_compute; reflexivity)) as F6.
  pose proof (flow_known _ _ "id17" "k" "t" H P ltac:(vm_compute; reflexivity)) as F7.
  assert (Na : split_b depth "a" = false) by (vm_compute; reflexivity). assert (Nb : split_b depth "b" = false) by (vm_compute; reflexivity).
  assert (Jh : join_b depth "h" = false) by (vm_compute; reflexivity). assert (Jk : join_b depth "k" = false) by (vm_compute; reflexivity).
  assert (Bd : Nat.leb (sort_bound depth) 80 = true) by (vm_compute; reflexivity).
  assert (Lg : lists (goes depth "g") ["a"; "b"]).
  { apply (lists_known _ _ _ _ H P); [repeat constructor; cbn; intuition discriminate|vm_compute; reflexivity|].
    intros x [<-|[<-|[]]]; eexists; eassumption. }
  assert (Lh : lists (goes depth "h") ["p"; "q"]).
  { apply (lists_known _ _ _ _ H P); [repeat constructor; cbn; intuition discriminate|vm_compute; reflexivity|].
    intros x [<-|[<-|[]]]; eexists; eassumption. }
  assert (Lk : lists (goes depth "k") ["r"; "t"]).
  { apply (lists_known _ _ _ _ H P); [repeat constructor; cbn; intuition discriminate|vm_compute; reflexivity|].
    intros x [<-|[<-|[]]]; eexists; eassumption. }
  generalize dependent depth. intros d H P C Co AL W Dr Sg Nj Lj F0 F1 F2 F3 F4 F5 F6 F7 Na Nb Jh Jk Bd Lg Lh Lk.
  split; [exact Co|]. split; [exact AL|]. split; [exact W|]. split; [exact Dr|]. split; [exact Sg|]. split; [exact Nj|]. split; [exact Lj|].
  split; [apply Nat.leb_le; exact Bd|]. split; [exact Lg|].
  split; [apply (st_next d 0 "a" "h" "h"); [exists "id12"; exact F2|apply split_b_no; exact Na|apply join_b_no; exact Jh|apply st_here]|].
  split; [apply (st_next d 0 "b" "k" "k"); [exists "id13"; exact F3|apply split_b_no; exact Nb|apply join_b_no; exact Jk|apply st_here]|].
  split; [exists "p", "q"; exact Lh|exists "r", "t"; exact Lk].
Qed.

(** * Processes side by side *)
(** A decision with two branches that meet again, and a sequence. *)
Definition part1_ops : list op :=
  [OStart "id2" "s" None false true (Some "s") "" ""; OExclusive "id2" "g" "Diverging" None (Some "g") "";
   OTask "id2" "a" (Some "a") ""; OTask "id2" "b" (Some "b") ""; OExclusive "id2" "j" "Converging" None (Some "j") "";
   OFlow "id2" "s" "g" "" "10"; OFlow "id2" "g" "a" "" "11"; OFlow "id2" "g" "b" "" "12"; OFlow "id2" "a" "j" "" "13"; OFlow "id2" "b" "j" "" "14"].
Definition part2_ops : list op :=
  [OStart "id2" "x" None false true (Some "x") "" ""; OTask "id2" "y" (Some "y") ""; OTask "id2" "z" (Some "z") "";
   OFlow "id2" "x" "y" "" "20"; OFlow "id2" "y" "z" "" "21"].
(** Two diagrams that can both be laid out may not be laid out together, although no flow
    connects them. *)
Theorem C95_side_by_side_refuted : exists o l1 l2 d1 d2 d,
  history (o :: l1) d1 /\ history (o :: l2) d2 /\ history (o :: l1 ++ l2) d /\
  (forall n, is_node d n <-> is_node d1 n \/ is_node d2 n) /\ (forall n, ~ (is_node d1 n /\ is_node d2 n)) /\
  seq_flows d = seq_flows d1 ++ seq_flows d2 /\
  (exists d1', generate_layout 60 d1 = (d1', Ok tt)) /\ (exists d2', generate_layout 60 d2 = (d2', Ok tt)) /\
  generate_layout 60 d = (d, Err TypeError).
Proof.
  set (o := ONew "m" "0"). exists o, part1_ops, part2_ops, (run empty_diagram (o :: part1_ops)), (run empty_diagram (o :: part2_ops)), (run empty_diagram (o :: part1_ops ++ part2_ops)).
  split; [apply checked_history; vm_compute; reflexivity|]. split; [apply checked_history; vm_compute; reflexivity|].
  split; [apply checked_history; vm_compute; reflexivity|].
  assert (E1 : node_keys (run empty_diagram (o :: part1_ops)) = ["s"; "g"; "a"; "b"; "j"]) by (vm_compute; reflexivity).
  assert (E2 : node_keys (run empty_diagram (o :: part2_ops)) = ["x"; "y"; "z"]) by (vm_compute; reflexivity).
  assert (E3 : node_keys (run empty_diagram (o :: part1_ops ++ part2_ops)) = ["s"; "g"; "a"; "b"; "j"] ++ ["x"; "y"; "z"]) by (vm_compute; reflexivity).
  split; [intro n; unfold is_node; unfold node_keys in *; rewrite E1, E2, E3; apply in_app_iff|].
  split; [intros n [A B]; unfold is_node in A, B; unfold node_keys in *; rewrite E1 in A; rewrite E2 in B; cbn in A, B; intuition congruence|].
  split; [vm_compute; reflexivity|]. split; [eexists; vm_compute; reflexivity|]. split; [eexists; vm_compute; reflexivity|]. vm_compute. reflexivity.
Qed.

Print Assumptions C95_outcome.
Print Assumptions C95_sequences.
Print Assumptions C95_equal_depth_fails.
Print Assumptions C95_side_by_side_refuted.
