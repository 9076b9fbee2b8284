(** The grid placement against the rules of SpecCells: either every node gets its place or
    two nodes belong to the same cell and the placement raises TypeError. *)
From Coq Require Import String List Bool Arith ZArith Lia Permutation.
From Verif Require Import Py PyFacts Consts Nx NxFacts Rep SpecRep RepFacts MetricsFacts Classify Layouter
  SpecLayout ClassifyFacts TopoFacts GridFacts LayoutFacts SpecBlocks SpecFlat SpecPlan PlanFacts PlanBlocks SpecCells.
Import ListNotations.
Open Scope string_scope.
Open Scope list_scope.

(** * Lists *)
Lemma before_cons : forall a l x y, before l x y -> before (a :: l) x y.
Proof. intros a l x y (i & j & L & A & B). exists (S i), (S j). split; [lia|]. split; assumption. Qed.
Lemma before_head : forall a l y, In y l -> before (a :: l) a y.
Proof. intros a l y H. destruct (In_nth_error _ _ H) as [j E]. exists 0, (S j). split; [lia|]. split; [reflexivity|exact E]. Qed.
Lemma before_tail : forall a l x y, ~ In a l -> before (a :: l) x y -> In x l -> before l x y.
Proof.
  intros a l x y Na (i & j & L & A & B) Hx. destruct i as [|i]; cbn [nth_error] in A; [injection A as ->; contradiction|].
  destruct j as [|j]; [lia|]. exists i, j. split; [lia|]. split; assumption.
Qed.
Lemma before_total : forall l x y, In x l -> In y l -> x <> y -> before l x y \/ before l y x.
Proof.
  intros l x y Hx Hy N. destruct (In_nth_error _ _ Hx) as [i A]. destruct (In_nth_error _ _ Hy) as [j B].
  destruct (lt_eq_lt_dec i j) as [[L|E]|L].
  - left. exists i, j. auto.
  - subst. congruence.
  - right. exists j, i. auto.
Qed.
Lemma before_asym : forall l x y, NoDup l -> before l x y -> before l y x -> False.
Proof. intros l x y N A B. exact (before_irrefl l x N (before_trans l x y x N A B)). Qed.
Lemma before_ne : forall l x y, NoDup l -> before l x y -> x <> y.
Proof. intros l x y N B ->. exact (before_irrefl l y N B). Qed.
Lemma same_order_cons : forall o a l, same_order o (a :: l) -> same_order o l.
Proof. intros o a l H x y B. apply H, before_cons, B. Qed.
Lemma ordered_eq : forall o l l', NoDup o -> NoDup l -> NoDup l' -> (forall x, In x l <-> In x l') ->
  same_order o l -> same_order o l' -> l = l'.
Proof.
  intros o. induction l as [|a l IH]; intros l' No N N' E O O'.
  - destruct l' as [|b l']; [reflexivity|]. exfalso. apply (E b). left; reflexivity.
  - destruct l' as [|b l']; [exfalso; apply (E a); left; reflexivity|].
    assert (a = b).
    { destruct (string_dec a b) as [|Ne]; [assumption|exfalso].
      assert (Hb : In b l). { destruct (proj2 (E b) (or_introl eq_refl)) as [C|C]; [contradiction|exact C]. }
      assert (Ha : In a l'). { destruct (proj1 (E a) (or_introl eq_refl)) as [C|C]; [symmetry in C; contradiction|exact C]. }
      apply (before_asym o a b No); [apply O, before_head, Hb|apply O', before_head, Ha]. }
    subst b. f_equal. inv N. inv N'. apply IH; auto.
    + intro x. split; intro H.
      * destruct (proj1 (E x) (or_intror H)) as [<- |C]; [contradiction|exact C].
      * destruct (proj2 (E x) (or_intror H)) as [<- |C]; [contradiction|exact C].
    + eapply same_order_cons; eauto.
    + eapply same_order_cons; eauto.
Qed.
Lemma lists_eq : forall o P l l', NoDup o -> lists P l -> lists P l' -> same_order o l -> same_order o l' -> l = l'.
Proof.
  intros o P l l' No [N A] [N' B] O O'. apply (ordered_eq o); auto. intro x. rewrite A, B. reflexivity.
Qed.
Lemma same_order_filter : forall o p, NoDup o -> same_order o (filter p o).
Proof.
  intros o p. induction o as [|a o IH]; intros N x y B; [destruct B as (i & j & _ & A & _); destruct i; discriminate|].
  inv N. cbn [filter] in B. destruct (p a).
  - destruct B as (i & j & L & A & B). destruct j as [|j]; [lia|]. cbn [nth_error] in B. destruct i as [|i]; cbn [nth_error] in A.
    + injection A as <-. apply before_head. apply nth_error_In in B. apply filter_In in B. tauto.
    + apply before_cons, IH; auto. exists i, j. split; [lia|]. auto.
  - apply before_cons, IH; auto.
Qed.

Lemma nth_error_firstn_lt : forall A (l : list A) i j, j < i -> nth_error (firstn i l) j = nth_error l j.
Proof.
  induction l as [|a l IH]; intros [|i] j L; try lia; [reflexivity|]. destruct j as [|j]; [reflexivity|]. cbn [firstn nth_error]. apply IH. lia.
Qed.

(** * Rows of branches *)
Lemma split_shift : forall k i row, split_row k i row = (split_row k i 2 + (row - 2))%Z.
Proof. intros k i row. unfold split_row. destruct (Nat.odd k), (Nat.ltb i (Nat.div k 2)); try lia. destruct (Nat.eqb i (Nat.div k 2)); lia. Qed.
Lemma fan_nth : forall k i r row, nth_error (fan k) i = Some r -> (row + (r - 2))%Z = split_row k i row.
Proof.
  intros k i r row H. rewrite <- fan_split in H. rewrite nth_error_map in H.
  assert (L : i < k). { destruct (Nat.lt_ge_cases i k); auto. rewrite (proj2 (nth_error_None _ _)) in H; [discriminate|]. rewrite seq_length. exact H0. }
  assert (E : nth_error (seq 0 k) i = Some i) by (rewrite (nth_error_nth' _ 0) by (rewrite seq_length; exact L); rewrite seq_nth by exact L; reflexivity).
  rewrite E in H. cbn [option_map] in H. assert (r = split_row k i 2) by congruence. subst r. rewrite (split_shift k i row). lia.
Qed.
Lemma fan_some : forall k i, i < k -> exists r, nth_error (fan k) i = Some r.
Proof.
  intros k i L. destruct (nth_error (fan k) i) as [r|] eqn:E; [exists r; reflexivity|]. exfalso. rewrite <- fan_split, nth_error_map in E.
  rewrite (nth_error_nth' _ 0) in E by (rewrite seq_length; exact L). discriminate.
Qed.

Section Cells.
Variable d : diagram.
Hypothesis Co : coherent d.
Hypothesis AL : all_laid_out d.
Hypothesis Sg : single_flows d.
Hypothesis Nj : no_join_after_split d.
Variable s : list cnode.
Hypothesis Ps : Permutation s (classified d).
Hypothesis Ns : NoDup (map cid s).
Let order := map cid s.
Hypothesis Oj : forall x y, goes d x y -> ~ join_node d y -> before order x y.

Lemma node_s : forall n, is_node d n -> exists c, In c s /\ cid c = n.
Proof. intros n H. apply (s_node d Co AL s Ps) in H. apply in_map_iff in H. destruct H as [c [E H]]. exists c. auto. Qed.
Lemma goes_nodes : forall x y, goes d x y -> is_node d x /\ is_node d y.
Proof. intros x y [f F]. split; [eapply outgoing_node; apply F|eapply incoming_node; apply F]. Qed.
Lemma goes_order : forall x y, goes d x y -> In x order /\ In y order.
Proof. intros x y G. destruct (goes_nodes x y G). split; apply (s_node d Co AL s Ps); assumption. Qed.
Lemma join_len : forall n l, is_node d n -> lists (fun p => goes d p n) l -> (join_node d n <-> 2 <= length l).
Proof.
  intros n l Hn L. destruct (node_s n Hn) as [c [Hc <-]]. destruct (preds_list d Co Sg s Ps c Hc) as [l' [_ [L' E]]].
  destruct (orig_cin d Co c (s_orig d s Ps c Hc)) as [Ei _]. rewrite (Permutation_length (lists_perm _ _ _ L L')), E, Ei. reflexivity.
Qed.
Lemma split_len : forall n l, is_node d n -> lists (goes d n) l -> (split_node d n <-> 2 <= length l).
Proof.
  intros n l Hn L. destruct (node_s n Hn) as [c [Hc <-]]. destruct (succs_list d Co Sg s Ps c Hc) as [l' [_ [L' E]]].
  destruct (orig_cin d Co c (s_orig d s Ps c Hc)) as [_ Eo]. rewrite (Permutation_length (lists_perm _ _ _ L L')), E, Eo. reflexivity.
Qed.
Lemma split_dec : forall n, split_node d n \/ ~ split_node d n.
Proof. intro n. unfold split_node. destruct (le_dec 2 (length (outgoing_of d n))); [left|right]; assumption. Qed.
Lemma join_dec : forall n, join_node d n \/ ~ join_node d n.
Proof. intro n. unfold join_node. destruct (le_dec 2 (length (incoming_of d n))); [left|right]; assumption. Qed.
(** The node after a split has no other predecessor. *)
Lemma after_split : forall p n q, goes d p n -> split_node d p -> goes d q n -> q = p.
Proof.
  intros p n q [f F] Sp [g G]. assert (J : ~ join_node d n) by (exact (Nj f p n F Sp)).
  destruct (string_dec q p) as [|Ne]; [assumption|exfalso]. apply J.
  assert (Hn : is_node d n) by (eapply incoming_node; apply F). destruct (node_s n Hn) as [c [Hc <-]].
  destruct (preds_list d Co Sg s Ps c Hc) as [l [_ [L _]]]. apply (join_len _ l Hn L).
  assert (Hq : In q l) by (apply L; exists g; exact G). assert (Hp : In p l) by (apply L; exists f; exact F).
  destruct l as [|a [|b l]]; cbn [length]; [contradiction| |lia]. destruct Hq as [<-|[]], Hp as [<-|[]]. congruence.
Qed.
Lemma after_split_before : forall p n, goes d p n -> split_node d p -> before order p n.
Proof. intros p n G S. apply Oj; auto. destruct G as [f F]. exact (Nj f p n F S). Qed.

(** Reached from [h] through splits only. *)
Inductive desc (h : string) : string -> Prop :=
| de_refl : desc h h
| de_step : forall y x, desc h y -> split_node d y -> goes d y x -> desc h x.
Lemma desc_before : forall h x, desc h x -> h = x \/ before order h x.
Proof.
  intros h x D. induction D as [|y x D IH S G]; [left; reflexivity|]. right. pose proof (after_split_before y x G S) as B.
  destruct IH as [->|IH]; [exact B|]. eapply before_trans; eauto.
Qed.
Lemma desc_drawn : forall h x n, desc h x -> before order h n -> drawn_before d order n x.
Proof. intros h x n D B. induction D as [|y x D IH S G]; [constructor; exact B|]. eapply db_branch; eauto. Qed.

(** * The list of nodes still to be placed *)
Notation rest := (rest s).
Lemma rest_ext : forall a b, (forall x, In x a <-> In x b) -> rest a = rest b.
Proof. intros a b H. unfold PlanFacts.rest. apply filter_ext. intro c. f_equal. apply smem_ext. apply H. Qed.
Lemma rest_split : forall ids n t, rest ids = n :: t -> exists u v, s = u ++ n :: v /\ (forall c, In c u -> In (cid c) ids) /\ incl t v.
Proof.
  unfold PlanFacts.rest. clear. induction s as [|a u IH]; intros ids n t E; [discriminate|]. cbn [filter] in E.
  destruct (smem (cid a) ids) eqn:Sa; cbn [negb] in E.
  - destruct (IH ids n t E) as (u' & v & Es & H & I). exists (a :: u'), v. split; [rewrite Es; reflexivity|]. split; [|exact I].
    intros c [<-|Hc]; [apply smem_In; exact Sa|auto].
  - injection E as -> <-. exists [], u. split; [reflexivity|]. split; [intros c []|]. intros c Hc. apply filter_In in Hc. tauto.
Qed.
Lemma head_before : forall ids n t x, rest ids = n :: t -> before order x (cid n) -> In x ids.
Proof.
  intros ids n t x E B. destruct (rest_split ids n t E) as (u & v & Es & H & _). unfold order in B.
  assert (Nd : NoDup (map cid u ++ cid n :: map cid v)) by (rewrite Es, map_app in Ns; exact Ns).
  rewrite Es, map_app in B. cbn [map] in B. destruct B as (i & j & L & A & B).
  assert (j = length (map cid u)).
  { apply (proj1 (NoDup_nth_error _) Nd); [apply nth_error_Some; congruence|]. rewrite B, nth_error_app2, Nat.sub_diag by lia. reflexivity. }
  subst j. rewrite nth_error_app1 in A by lia. apply nth_error_In in A. apply in_map_iff in A. destruct A as [c [<- Hc]]. auto.
Qed.
Lemma tail_after : forall ids n t c, rest ids = n :: t -> In c t -> before order (cid n) (cid c).
Proof.
  intros ids n t c E Hc. destruct (rest_split ids n t E) as (u & v & Es & _ & I). unfold order. rewrite Es, map_app. cbn [map].
  assert (Hv : In (cid c) (map cid v)) by (apply in_map; auto). destruct (In_nth_error _ _ Hv) as [j Ej].
  exists (length (map cid u)), (length (map cid u) + S j). split; [lia|]. split.
  - rewrite nth_error_app2, Nat.sub_diag by lia. reflexivity.
  - rewrite nth_error_app2 by lia. replace (length (map cid u) + S j - length (map cid u)) with (S j) by lia. exact Ej.
Qed.

(** * Places *)
Variable pos : string -> Z * Z.
Hypothesis Pl : plan_of d order pos.
Notation cellof := (cellof pos).
Definition clash : Prop := exists a b, is_node d a /\ is_node d b /\ a <> b /\ pos a = pos b.

Lemma fan_row_fun : forall p r r', fan_row d pos p r -> fan_row d pos p r' -> r = r'.
Proof.
  intros p r r' [(q & G & S & ->)|[N ->]] [(q' & G' & S' & ->)|[N' ->]]; auto.
  - rewrite (after_split q p q' G S G'). reflexivity.
  - exfalso. exact (N' q G S).
  - exfalso. exact (N q' G' S').
Qed.

Lemma insert_or : forall ids n, incl ids order -> In n order -> ~ In n ids ->
  insert_into_grid (map cellof ids) (fst (pos n)) (snd (pos n)) n = Ok (map cellof (ids ++ [n])) \/
  (insert_into_grid (map cellof ids) (fst (pos n)) (snd (pos n)) n = Err TypeError /\ clash).
Proof.
  intros ids n I Hn X. unfold insert_into_grid. destruct (find _ _) as [x|] eqn:F.
  - right. split; [reflexivity|]. apply find_some in F. destruct F as [Hx E]. apply in_map_iff in Hx. destruct Hx as [m [<- Hm]].
    apply andb_true_iff in E. destruct E as [E1 E2]. apply Z.eqb_eq in E1, E2. cbn [crow ccol PlanFacts.cellof] in E1, E2.
    exists m, n. split; [apply (s_node d Co AL s Ps), I, Hm|]. split; [apply (s_node d Co AL s Ps), Hn|].
    split; [intros ->; contradiction|]. destruct (pos m), (pos n); cbn in *; congruence.
  - left. rewrite map_app. reflexivity.
Qed.

(** * One element and what is placed with it *)
Definition closed (ids : list string) : Prop := forall x y, goes d x y -> ~ join_node d y -> In y ids -> In x ids.
Definition new (ids ids' : list string) (x : string) : Prop := In x ids' /\ ~ In x ids.
Record state_ok (ids gone : list string) : Prop := {
  so_nodup : NoDup ids; so_in : incl ids order; so_closed : closed ids; so_gone : incl gone ids }.
(** After placing [ns] and what belongs to them. *)
Record grown (ns ids ids' : list string) : Prop := {
  gr_nodup : NoDup ids'; gr_in : incl ids' order; gr_closed : closed ids'; gr_incl : incl ids ids'; gr_ns : incl ns ids';
  gr_split : forall x y, new ids ids' x -> split_node d x -> goes d x y -> In y ids';
  gr_desc : forall x, new ids ids' x -> exists n, In n ns /\ desc n x }.

Definition place_spec (fuel : nat) : Prop := forall c enforced ids gone lr lr1 row i,
  In c s -> ~ In (cid c) ids -> NoDup ids -> incl ids order -> closed ids -> incl gone (cid c :: ids) ->
  (forall x, goes d x (cid c) -> ~ join_node d (cid c) -> In x ids) ->
  nth_error order i = Some (cid c) -> length order - i <= fuel ->
  choose_cell d c (map cellof ids) lr enforced = Ok (row, pos (cid c), lr1) -> fan_row d pos (cid c) row ->
  (exists ids' gone', place_element fuel d c enforced (map cellof ids, lr, rest gone) = Ok (map cellof ids', lr1, rest gone') /\
     grown [cid c] ids ids' /\ (forall x, In x gone' <-> In x gone \/ (new ids ids' x /\ x <> cid c))) \/
  (place_element fuel d c enforced (map cellof ids, lr, rest gone) = Err TypeError /\ clash).

Lemma new_dec : forall ids ids' x, In x ids' -> In x ids \/ new ids ids' x.
Proof. intros ids ids' x H. destruct (in_dec string_dec x ids) as [I|I]; [left; exact I|right; split; assumption]. Qed.

Lemma idx_lt : forall i j x y, nth_error order i = Some x -> nth_error order j = Some y -> before order x y -> i < j.
Proof.
  intros i j x y A B (i' & j' & L & A' & B'). assert (i = i') by (apply (proj1 (NoDup_nth_error _) Ns); [apply nth_error_Some; unfold order in *; congruence|unfold order in *; congruence]).
  assert (j = j') by (apply (proj1 (NoDup_nth_error _) Ns); [apply nth_error_Some; unfold order in *; congruence|unfold order in *; congruence]). lia.
Qed.

Lemma child_cell : forall n c cs row i grid lr, In n s -> In c s -> split_node d (cid n) -> lists (goes d (cid n)) (map cid cs) ->
  same_order order (map cid cs) -> nth_error cs i = Some c -> fan_row d pos (cid n) row ->
  (forall p, In p [cid n] -> gfind p grid = Ok (cellof p)) ->
  choose_cell d c grid lr (Some (split_row (length cs) i row)) = Ok (fst (pos (cid n)), pos (cid c), lr).
Proof.
  intros n c cs row i grid lr Hn Hc Sn Ll Oc Nt Fr Gf.
  assert (Gc : goes d (cid n) (cid c)) by (apply Ll, in_map; eapply nth_error_In; eauto).
  assert (Jc : ~ join_node d (cid c)) by (destruct Gc as [f F]; exact (Nj f _ _ F Sn)).
  assert (Nc : is_node d (cid c)) by (apply (goes_nodes _ _ Gc)).
  assert (Ep : pos (cid c) = (split_row (length cs) i row, snd (pos (cid n)) + 1)%Z).
  { destruct (Pl (cid c) Nc) as [fs j Lf Of Nf Ep|p Lp Sp Ep|p l j row' r Lp Sp Lo Ol Nl Fr' Fn Ep|l l1 Lp L2 _ Ep].
    - exfalso. destruct (proj1 (proj2 Lf (cid c)) (nth_error_In _ _ Nf)) as [_ X]. exact (X _ Gc).
    - exfalso. apply (proj2 Lp) in Gc. destruct Gc as [->|[]]. contradiction.
    - pose proof Gc as Gc'. apply (proj2 Lp) in Gc'. destruct Gc' as [->|[]].
      assert (l = map cid cs) by (eapply (lists_eq order); eauto). subst l. rewrite map_length in Fn.
      rewrite (fan_row_fun _ _ _ Fr Fr'). rewrite Ep. f_equal.
      assert (j = i).
      { apply (proj1 (NoDup_nth_error _) (proj1 Ll)); [apply nth_error_Some; congruence|]. rewrite Nl, nth_error_map, Nt. reflexivity. }
      subst j. apply fan_nth. exact Fn.
    - exfalso. apply Jc. apply (join_len _ l Nc Lp). exact L2. }
  assert (Lp : lists (fun p => goes d p (cid c)) [cid n]).
  { split; [constructor; [intros []|constructor]|]. intro x. split; [intros [<-|[]]; exact Gc|]. intro G. left. symmetry. eapply after_split; eauto. }
  destruct (preds_list d Co Sg s Ps c Hc) as [l [El [Lc Le]]].
  pose proof (lists_perm _ _ _ Lc Lp) as P. apply Permutation_sym, Permutation_length_1_inv in P. subst l.
  unfold choose_cell. rewrite (is_join_eq d Co Sg s Ps c _ Hc Lp). cbn [length Nat.leb].
  destruct (cin c) as [|f [|? ?]]; try discriminate. cbn [rmap] in El.
  destruct (flow_ref d f k_source_ref) as [q|] eqn:Eq; [|discriminate]. cbn [rbind] in El. injection El as ->. cbn [rbind].
  rewrite (Gf (cid n)) by (left; reflexivity). cbn [rbind crow ccol PlanFacts.cellof enforced_given]. rewrite Ep. reflexivity.
Qed.

Lemma children_or : forall fuel, place_spec fuel -> forall n cs todo don ids gone lr row i,
  In n s -> split_node d (cid n) -> lists (goes d (cid n)) (map cid cs) -> cs = don ++ todo -> incl cs s -> same_order order (map cid cs) ->
  fan_row d pos (cid n) row -> nth_error order i = Some (cid n) -> length order - i <= S fuel ->
  state_ok ids gone -> In (cid n) ids -> (forall c, In c todo -> ~ In (cid c) ids) ->
  let run := rfold (fun st index =>
                 match nth_error cs index with
                 | None => Err IndexError
                 | Some s0 =>
                     let* st1 := place_element fuel d s0 (Some (split_row (length cs) index row)) st in
                     let* tmp' := cremove (cid s0) (snd st1) in
                     Ok (fst st1, tmp')
                 end) (seq (length don) (length todo)) (map cellof ids, lr, rest gone) in
  (exists ids' gone', run = Ok (map cellof ids', lr, rest gone') /\ grown (map cid todo) ids ids' /\
     (forall x, In x gone' <-> In x gone \/ new ids ids' x)) \/
  (run = Err TypeError /\ clash).
Proof.
  intros fuel IHf n cs todo. induction todo as [|c todo IH]; intros don ids gone lr row i Hn Sn Ll Ec Ic Oc Fr Ni Lf [N1 I1 C1 G1] Hid Xt run.
  - left. exists ids, gone. split; [reflexivity|]. split; [|intro x; unfold new; tauto].
    constructor; auto; [intros x Hx; exact Hx|intros x []|intros x y [A B]; contradiction|intros x [A B]; contradiction].
  - unfold run. cbn [length seq rfold].
    assert (Nt : nth_error cs (length don) = Some c) by (rewrite Ec, nth_error_app2, Nat.sub_diag by lia; reflexivity).
    rewrite Nt. assert (Hc : In c cs) by (eapply nth_error_In; eauto). pose proof (Ic c Hc) as Hs.
    assert (Gc : goes d (cid n) (cid c)) by (apply Ll, in_map; auto).
    assert (Jc : ~ join_node d (cid c)) by (destruct Gc as [f F]; exact (Nj f _ _ F Sn)).
    pose proof (after_split_before _ _ Gc Sn) as Bc.
    assert (Oi : In (cid c) order) by (apply in_map; auto). destruct (In_nth_error _ _ Oi) as [j Ej].
    pose proof (idx_lt i j _ _ Ni Ej Bc) as Lij. assert (Lj : j < length order) by (apply nth_error_Some; congruence).
    destruct (IHf c (Some (split_row (length cs) (length don) row)) ids gone lr lr (fst (pos (cid n))) j) as [(ids1 & gone1 & E1 & Gr & M1)|[E1 Cl]]; auto.
    + apply Xt. left; reflexivity.
    + intros x Hx. right. auto.
    + intros x G _. rewrite (after_split _ _ _ Gc Sn G). exact Hid.
    + lia.
    + eapply child_cell; eauto. intros p [<-|[]]. apply gfind_plan. exact Hid.
    + left. exists (cid n). auto.
    + rewrite E1. cbn [rbind snd fst]. destruct Gr as [N2 I2 C2 X2 H2 S2 D2].
      assert (Xg : ~ In (cid c) gone1).
      { intro C. apply M1 in C. destruct C as [C|[_ C]]; [|congruence]. exact (Xt c (or_introl eq_refl) (G1 _ C)). }
      rewrite (rest_remove s Ns gone1 c Hs Xg). cbn [rbind].
      assert (M1' : forall x, In x (gone1 ++ [cid c]) <-> In x gone \/ new ids ids1 x).
      { intro x. rewrite in_app_iff, M1. cbn [In]. split.
        - intros [[A|[A _]]|[<-|[]]]; [left; exact A|right; exact A|]. right. split; [apply H2; left; reflexivity|apply Xt; left; reflexivity].
        - intros [A|A]; [left; left; exact A|]. destruct (string_dec x (cid c)) as [->|Ne]; [right; left; reflexivity|left; right; auto]. }
      destruct (IH (don ++ [c]) ids1 (gone1 ++ [cid c]) lr row i) as [(ids2 & gone2 & E2 & Gr2 & M2)|[E2 Cl]]; auto.
      * rewrite <- app_assoc. exact Ec.
      * constructor; auto. intros x Hx. apply M1' in Hx. destruct Hx as [Hx|[Hx _]]; auto.
      * intros c2 Hc2 C. destruct (new_dec ids ids1 _ C) as [A|A]; [exact (Xt c2 (or_intror Hc2) A)|].
        destruct (D2 _ A) as [m [[<-|[]] D]]. inversion D as [E|y x D' S G E].
        -- pose proof (proj1 Ll) as Nd. rewrite Ec, map_app in Nd. cbn [map] in Nd. apply NoDup_remove_2 in Nd. apply Nd.
           apply in_or_app. right. rewrite E. apply in_map. exact Hc2.
        -- subst x. assert (G2 : goes d (cid n) (cid c2)) by (apply Ll, in_map; rewrite Ec; apply in_or_app; right; right; exact Hc2).
           rewrite (after_split _ _ _ G2 Sn G) in D'. destruct (desc_before _ _ D') as [E'|B'].
           ++ rewrite E' in Bc. exact (before_irrefl _ _ Ns Bc).
           ++ exact (before_asym _ _ _ Ns Bc B').
      * left. exists ids2, gone2. rewrite app_length, Nat.add_1_r in E2. split; [exact E2|]. destruct Gr2 as [N3 I3 C3 X3 H3 S3 D3].
        assert (Nw : forall x, new ids ids2 x -> new ids ids1 x \/ new ids1 ids2 x).
        { intros x [A B]. destruct (new_dec ids1 ids2 x A) as [A'|A']; [left; split; assumption|right; exact A']. }
        split.
        -- constructor; auto.
           ++ intros x Hx. auto.
           ++ cbn [map]. intros x [<-|Hx]; [apply X3, H2; left; reflexivity|auto].
           ++ intros x y Hx S G. destruct (Nw x Hx) as [A|A]; [apply X3; eauto|eauto].
           ++ intros x Hx. cbn [map]. destruct (Nw x Hx) as [A|A].
              ** destruct (D2 x A) as [m [[<-|[]] D]]. exists (cid c). split; [left; reflexivity|exact D].
              ** destruct (D3 x A) as [m [Hm D]]. exists m. split; [right; exact Hm|exact D].
        -- intro x. rewrite M2, M1'. split.
           ++ intros [[A|[A B]]|[A B]]; [left; exact A|right; split; auto|right; split; auto].
           ++ intros [A|A]; [left; left; exact A|]. destruct (Nw x A) as [B|B]; [left; right; exact B|right; exact B].
      * right. rewrite app_length, Nat.add_1_r in E2. split; assumption.
    + rewrite E1. right. split; [reflexivity|exact Cl].
Qed.

Lemma place_or : forall fuel, place_spec fuel.
Proof.
  induction fuel as [|fuel IH]; intros c enforced ids gone lr lr1 row i Hc Xc Nd Ii Cl Gi Pc Ni Lf Ch Fr.
  - exfalso. assert (i < length order) by (apply nth_error_Some; congruence). lia.
  - assert (Oc : In (cid c) order) by (apply in_map; auto).
    cbn [place_element]. rewrite Ch. destruct (pos (cid c)) as [r k] eqn:Ep. cbn [rbind].
    destruct (insert_or ids (cid c) Ii Oc Xc) as [Ins|[Ins Cx]]; rewrite Ep in Ins; cbn [fst snd] in Ins; rewrite Ins; cbn [rbind]; [|right; split; [reflexivity|exact Cx]].
    assert (N1 : NoDup (ids ++ [cid c])).
    { apply NoDup_app; [auto|constructor; [intros []|constructor]|]. intros x Hx [<-|[]]. auto. }
    assert (I1 : incl (ids ++ [cid c]) order) by (intros x Hx; apply in_app_or in Hx; destruct Hx as [Hx|[<-|[]]]; auto).
    assert (C1 : closed (ids ++ [cid c])).
    { intros x y G J Hy. apply in_or_app. left. apply in_app_or in Hy. destruct Hy as [Hy|[<-|[]]]; eauto. }
    destruct (succs_list d Co Sg s Ps c Hc) as [l [El [Ll Le]]]. rewrite (is_split_eq d Co Sg s Ps c l Hc Ll).
    assert (Nc : is_node d (cid c)) by (apply (s_node d Co AL s Ps); exact Oc).
    destruct (Nat.leb_spec 2 (length l)) as [K2|K2].
    + assert (Sc : split_node d (cid c)) by (apply (split_len _ l Nc Ll); exact K2). rewrite El. cbn [rbind].
      assert (Xl : forall y, In y l -> ~ In y (ids ++ [cid c])).
      { intros y Hy C. apply Ll in Hy. apply in_app_or in C. destruct C as [C|[<-|[]]].
        - apply Xc. apply (Cl (cid c) y); auto. destruct Hy as [f F]. exact (Nj f _ _ F Sc).
        - exact (before_irrefl _ _ Ns (after_split_before _ _ Hy Sc)). }
      set (cs := filter (fun c0 => smem (cid c0) l) (rest gone)).
      assert (Xg : forall y, In y l -> ~ In y gone).
      { intros y Hy C. apply Gi in C. apply (Xl y Hy). apply in_or_app. destruct C as [<-|C]; [right; left; reflexivity|left; exact C]. }
      assert (Cs : cs = filter (fun c0 => smem (cid c0) l) s).
      { unfold cs, PlanFacts.rest. clear - Xg. induction s as [|a u IHu]; [reflexivity|]. cbn [filter].
        destruct (smem (cid a) l) eqn:Sm.
        - rewrite (proj2 (smem_notIn (cid a) gone)) by (apply Xg, smem_In; auto). cbn [negb filter]. rewrite Sm, IHu. reflexivity.
        - destruct (negb _); [cbn [filter]; rewrite Sm|]; exact IHu. }
      assert (Mc : map cid cs = filter (fun x => smem x l) order).
      { rewrite Cs. unfold order. clear. induction s as [|a u IHu]; [reflexivity|]. cbn [filter map]. destruct (smem (cid a) l); cbn [map]; rewrite IHu; reflexivity. }
      assert (Lc : lists (goes d (cid c)) (map cid cs)).
      { rewrite Mc. split; [apply NoDup_filter; auto|]. intro x. rewrite filter_In, smem_In. split; [intros [_ H]; apply Ll; auto|].
        intro G. split; [apply (goes_order _ _ G)|apply Ll; auto]. }
      assert (Lk : length l = length cs). { rewrite <- (map_length cid cs). apply Permutation_length. exact (lists_perm _ _ _ Ll Lc). }
      assert (Oo : same_order order (map cid cs)) by (rewrite Mc; apply same_order_filter; exact Ns).
      assert (Ic : incl cs s) by (rewrite Cs; intros x Hx; apply filter_In in Hx; tauto).
      rewrite Lk.
      destruct (children_or fuel IH c cs cs [] (ids ++ [cid c]) gone lr1 row i Hc Sc Lc eq_refl Ic Oo Fr Ni ltac:(lia)) as [(ids' & gone' & E & Gr & M)|[E X]].
      * constructor; auto. intros x Hx. apply Gi in Hx. apply in_or_app. destruct Hx as [<-|Hx]; [right; left; reflexivity|left; exact Hx].
      * apply in_or_app. right. left. reflexivity.
      * intros y Hy. apply Xl. apply Ll. apply Lc. apply in_map. exact Hy.
      * left. exists ids', gone'. split; [exact E|]. destruct Gr as [N2 I2 C2 X2 H2 S2 D2].
        assert (Nw : forall x, new ids ids' x <-> x = cid c \/ new (ids ++ [cid c]) ids' x).
        { intro x. unfold new. rewrite in_app_iff. cbn [In]. split.
          - intros [A B]. destruct (string_dec x (cid c)) as [->|Ne]; [left; reflexivity|]. right. split; auto. intros [C|[C|[]]]; congruence.
          - intros [->|[A B]]; [split; [apply X2, in_or_app; right; left; reflexivity|exact Xc]|]. split; [exact A|tauto]. }
        split.
        -- constructor; auto.
           ++ intros x Hx. apply X2. apply in_or_app. left. exact Hx.
           ++ intros x [<-|[]]. apply X2. apply in_or_app. right. left. reflexivity.
           ++ intros x y Hx S G. apply Nw in Hx. destruct Hx as [->|Hx]; [|eauto]. apply H2. apply Lc. exact G.
           ++ intros x Hx. exists (cid c). split; [left; reflexivity|]. apply Nw in Hx. destruct Hx as [->|Hx]; [constructor|].
              destruct (D2 x Hx) as [m [Hm D]]. apply Lc in Hm. clear - D Hm Sc. induction D as [|y x D IHD S G]; [eapply de_step; [constructor|exact Sc|exact Hm]|].
              eapply de_step; eauto.
        -- intro x. rewrite M, Nw. unfold new. rewrite in_app_iff. cbn [In]. split.
           ++ intros [A|[A B]]; [left; exact A|]. right. split; [right; split; [exact A|tauto]|]. intros ->. apply B. right. left. reflexivity.
           ++ intros [A|[[->|[A B]] C]]; [left; exact A|congruence|right; split; [exact A|tauto]].
      * right. split; assumption.
    + left. exists (ids ++ [cid c]), gone. split; [reflexivity|].
      assert (Nw : forall x, new ids (ids ++ [cid c]) x -> x = cid c).
      { intros x [A B]. apply in_app_or in A. destruct A as [A|[<-|[]]]; [contradiction|reflexivity]. }
      split.
      * constructor; auto.
        -- intros x Hx. apply in_or_app. left. exact Hx.
        -- intros x [<-|[]]. apply in_or_app. right. left. reflexivity.
        -- intros x y Hx S _. exfalso. rewrite (Nw x Hx) in S. apply (split_len _ l Nc Ll) in S. lia.
        -- intros x Hx. rewrite (Nw x Hx). exists (cid c). split; [left; reflexivity|constructor].
      * intro x. split; [auto|]. intros [A|[A B]]; [exact A|]. exfalso. apply B. exact (Nw x A).
Qed.

(** * The loop *)
Definition firstb (x : string) : bool := match incoming_of d x with [] => true | _ :: _ => false end.
Lemma firstb_iff : forall x, is_node d x -> (firstb x = true <-> first_node d x).
Proof.
  intros x Hx. unfold firstb, first_node. destruct (incoming_of d x) as [|f fs] eqn:E.
  - split; [|reflexivity]. intros _. split; [exact Hx|]. intros p [f [_ [Hf _]]]. rewrite E in Hf. contradiction.
  - split; [discriminate|]. intros [_ H]. exfalso. destruct (in_flow d Co x f) as [p F]; [rewrite E; left; reflexivity|]. apply (H p). exists f. exact F.
Qed.
Record loop_ok (ids : list string) (lr : Z) : Prop := {
  lo_state : state_ok ids ids;
  lo_split : forall x y, In x ids -> split_node d x -> goes d x y -> In y ids;
  lo_head : forall x, In x ids -> exists h, desc h x /\ forall c, In c (rest ids) -> before order h (cid c);
  lo_row : lr = (2 * (Z.of_nat (length (filter firstb ids)) + 1))%Z }.

Lemma desc_first : forall h x, desc h x -> first_node d x -> h = x.
Proof. intros h x D [_ F]. destruct D as [|y x D S G]; [reflexivity|]. exfalso. exact (F y G). Qed.

(** The first nodes that are placed are those before the head. *)
Lemma firsts_placed : forall ids lr n t firsts i, loop_ok ids lr -> rest ids = n :: t ->
  lists (first_node d) firsts -> same_order order firsts -> nth_error firsts i = Some (cid n) -> length (filter firstb ids) = i.
Proof.
  intros ids lr n t firsts i [[Nd Ii Cl _] Sp He _] E [Nf Lf] Of Ni.
  assert (Hr : In n (rest ids)) by (rewrite E; left; reflexivity).
  assert (Li : i < length firsts) by (apply nth_error_Some; congruence).
  assert (Lk : length (firstn i firsts) = i) by (apply firstn_length_le; lia).
  rewrite <- Lk . apply Permutation_length. apply NoDup_Permutation; [apply NoDup_filter; exact Nd| |].
  - rewrite <- (firstn_skipn i firsts) in Nf. eapply nodup_l; eauto.
  - intro x. rewrite filter_In. split.
    + intros [Hx Fx]. assert (Nx : is_node d x) by (apply (s_node d Co AL s Ps), Ii, Hx). apply firstb_iff in Fx; [|exact Nx].
      destruct (He x Hx) as [h [D B]]. rewrite (desc_first h x D Fx) in B. specialize (B n Hr).
      apply Lf in Fx. destruct (In_nth_error _ _ Fx) as [j Ej].
      destruct (Nat.lt_ge_cases j i) as [L|L].
      * apply (nth_error_In (firstn i firsts) j). rewrite nth_error_firstn_lt by exact L. exact Ej.
      * exfalso. destruct (Nat.eq_dec i j) as [->|Ne]; [assert (x = cid n) by congruence; subst; exact (before_irrefl _ _ Ns B)|].
        apply (before_asym _ _ _ Ns B). apply Of. exists i, j. split; [lia|]. split; assumption.
    + intros Hx. apply In_nth_error in Hx. destruct Hx as [j Ej]. assert (j < i) by (rewrite <- Lk; apply nth_error_Some; congruence).
      rewrite nth_error_firstn_lt in Ej by assumption. assert (Fx : first_node d x) by (apply Lf; eapply nth_error_In; eauto).
      split; [|apply firstb_iff; [apply Fx|exact Fx]]. apply (head_before ids n t x E). apply Of. exists j, i. split; [assumption|]. split; assumption.
Qed.
Lemma sum_rows : forall l, rowsum pos l = fold_right Z.add 0%Z (map (fun p => fst (pos p)) l).
Proof. induction l as [|a l IH]; [reflexivity|]. cbn. unfold rowsum in IH. rewrite <- IH. reflexivity. Qed.
Lemma max_cols : forall l, colmax pos l = fold_right Z.max 0%Z (map (fun p => snd (pos p)) l).
Proof. induction l as [|a l IH]; [reflexivity|]. cbn. unfold colmax in IH. rewrite <- IH. reflexivity. Qed.
Lemma join_some : forall ids l l1, NoDup ids -> NoDup l1 -> (forall x, In x l1 <-> In x l /\ In x ids) ->
  join_position l (map cellof ids) = (rowsum pos l1, colmax pos l1).
Proof.
  intros ids l l1 N N1 I. unfold join_position. rewrite join_position_plan by auto. cbn [fst snd].
  assert (P : Permutation (filter (fun x => smem x l) ids) l1).
  { apply NoDup_Permutation; auto; [apply NoDup_filter; auto|]. intro x. rewrite filter_In, smem_In, I. tauto. }
  rewrite (rowsum_perm pos _ _ P). fold (colmax pos (filter (fun x => smem x l) ids)). rewrite (colmax_perm pos _ _ P).
  assert (0 <= colmax pos l1)%Z by (clear; unfold colmax; induction l1; cbn [fold_right]; lia). f_equal; lia.
Qed.

Lemma head_drawn : forall ids lr n t x, loop_ok ids lr -> rest ids = n :: t -> (drawn_before d order (cid n) x <-> In x ids).
Proof.
  intros ids lr n t x [_ Sp He _] E. split.
  - intro D. induction D as [x B|y x S G D IH]; [exact (head_before ids n t x E B)|]. eapply Sp; eauto.
  - intro Hx. destruct (He x Hx) as [h [D B]]. apply (desc_drawn h x (cid n) D). apply B. rewrite E. left; reflexivity.
Qed.

Lemma choose_head : forall ids lr n t, loop_ok ids lr -> rest ids = n :: t ->
  choose_cell d n (map cellof ids) lr None = Ok (fst (pos (cid n)), pos (cid n), if firstb (cid n) then (lr + 2)%Z else lr) /\
  fan_row d pos (cid n) (fst (pos (cid n))).
Proof.
  intros ids lr n t I E. assert (Hr : In n (rest ids)) by (rewrite E; left; reflexivity). apply rest_in in Hr. destruct Hr as [Hn X].
  assert (Nn : is_node d (cid n)) by (apply (s_node d Co AL s Ps), in_map; auto).
  pose proof I as [[Nd Ii Cl _] Sp He Lr].
  assert (NoS : forall q, goes d q (cid n) -> ~ split_node d q).
  { intros q G S. apply X. apply (Sp q); auto. apply (head_before ids n t q E). apply after_split_before; auto. }
  split; [|right; split; [exact NoS|reflexivity]].
  destruct (preds_list d Co Sg s Ps n Hn) as [l [El [Ll Le]]]. destruct (orig_cin d Co n (s_orig d s Ps n Hn)) as [Ei _].
  unfold choose_cell. pose proof (is_join_eq d Co Sg s Ps n l Hn Ll) as J.
  destruct (Pl (cid n) Nn) as [fs i Lf Of Nf Ep|p Lp Sq Ep|p l' i row r Lp Sq _ _ _ _ _ Ep|l' l1 Lp L2 L1 Ep].
  - assert (Fb : firstb (cid n) = true) by (apply firstb_iff; [exact Nn|apply Lf; eapply nth_error_In; eauto]).
    rewrite Fb. unfold firstb in Fb. rewrite Ei. destruct (incoming_of d (cid n)); [|discriminate].
    rewrite Ep, Lr, (firsts_placed ids lr n t fs i I E Lf Of Nf). reflexivity.
  - pose proof (lists_perm _ _ _ Ll Lp) as P. apply Permutation_sym, Permutation_length_1_inv in P. subst l.
    rewrite J. cbn [length Nat.leb].
    assert (Fb : firstb (cid n) = false). { unfold firstb. rewrite <- Ei. destruct (cin n); [discriminate|reflexivity]. }
    rewrite Fb. destruct (cin n) as [|f [|? ?]]; try discriminate. cbn [rmap] in El.
    destruct (flow_ref d f k_source_ref) as [q|] eqn:Eq; [|discriminate]. cbn [rbind] in El. injection El as ->. cbn [rbind].
    assert (Gp : goes d p (cid n)) by (apply Lp; left; reflexivity).
    rewrite gfind_plan.
    + cbn [rbind crow ccol PlanFacts.cellof enforced_given]. rewrite Ep. reflexivity.
    + apply (head_before ids n t p E). apply Oj; [exact Gp|]. intro C. apply (join_len _ _ Nn Lp) in C. cbn in C. lia.
  - exfalso. exact (NoS p (proj1 (proj2 Lp p) (or_introl eq_refl)) Sq).
  - pose proof (lists_perm _ _ _ Ll Lp) as P. pose proof (Permutation_length P) as Pl'.
    assert (L2' : Nat.leb 2 (length l) = true) by (apply Nat.leb_le; lia). rewrite J, L2', El. cbn [rbind].
    assert (Fb : firstb (cid n) = false). { unfold firstb. rewrite <- Ei. destruct (cin n); [cbn in Le; lia|reflexivity]. }
    rewrite Fb. destruct (cin n) as [|f fs]; [cbn in Le; lia|].
    rewrite (join_some ids l l1 Nd (proj1 L1)).
    + cbn [fst snd enforced_truthy]. rewrite Ep, sum_rows, max_cols, Pl'. reflexivity.
    + intro x. rewrite (proj2 L1 x), (proj2 Ll x), (head_drawn ids lr n t x I E). reflexivity.
Qed.

Lemma step_or : forall fuel ids lr n t, loop_ok ids lr -> rest ids = n :: t -> length order <= fuel ->
  (exists ids' lr', place_element fuel d n None (map cellof ids, lr, t) = Ok (map cellof ids', lr', rest ids') /\
    loop_ok ids' lr' /\ incl (cid n :: ids) ids') \/
  (place_element fuel d n None (map cellof ids, lr, t) = Err TypeError /\ clash).
Proof.
  intros fuel ids lr n t I E Lf. destruct (choose_head ids lr n t I E) as [Ch Fr].
  assert (Hr : In n (rest ids)) by (rewrite E; left; reflexivity). apply rest_in in Hr. destruct Hr as [Hn X].
  pose proof (rest_tail s Ns _ _ _ E) as Et. pose proof I as [[Nd Ii Cl _] Sp He Lr].
  assert (On : In (cid n) order) by (apply in_map; exact Hn). destruct (In_nth_error _ _ On) as [i Ei].
  assert (Ig : incl (ids ++ [cid n]) (cid n :: ids)).
  { intros x Hx. apply in_app_or in Hx. destruct Hx as [Hx|[<-|[]]]; [right; exact Hx|left; reflexivity]. }
  assert (Pp : forall x, goes d x (cid n) -> ~ join_node d (cid n) -> In x ids).
  { intros x G J. apply (head_before ids n t x E). apply Oj; assumption. }
  destruct (place_or fuel n None ids (ids ++ [cid n]) lr _ _ i Hn X Nd Ii Cl Ig Pp Ei ltac:(lia) Ch Fr) as [(ids' & gone' & Ep & Gr & M)|[Ep Cx]].
  - left. destruct Gr as [N2 I2 C2 X2 H2 S2 D2].
    assert (Re : rest gone' = rest ids').
    { apply rest_ext. intro x. rewrite M, in_app_iff. cbn [In]. split.
      - intros [[A|[<-|[]]]|[[A _] _]]; [apply X2; exact A|apply H2; left; reflexivity|exact A].
      - intro A. destruct (new_dec ids ids' x A) as [B|B]; [left; left; exact B|]. destruct (string_dec x (cid n)) as [->|Ne]; [left; right; left; reflexivity|right; split; assumption]. }
    rewrite Re in Ep. eexists ids', _. split; [rewrite Et; exact Ep|]. split.
    + assert (Rs : forall c, In c (rest ids') -> In c (rest ids)). { intros c Hc. apply rest_in in Hc. apply rest_in. split; [tauto|]. intro C. apply (proj2 Hc). apply X2, C. }
      constructor.
      * constructor; auto. intros x Hx. exact Hx.
      * intros x y Hx S G. destruct (new_dec ids ids' x Hx) as [A|A]; [apply X2; eauto|eauto].
      * intros x Hx. destruct (new_dec ids ids' x Hx) as [A|A].
        -- destruct (He x A) as [h [D B]]. exists h. split; [exact D|]. intros c Hc. apply B. apply Rs. exact Hc.
        -- destruct (D2 x A) as [m [[<-|[]] D]]. exists (cid n). split; [exact D|]. intros c Hc.
           apply (tail_after ids n t c E). pose proof (Rs c Hc) as Hc'. rewrite E in Hc'. destruct Hc' as [<-|Hc']; [|exact Hc'].
           exfalso. apply rest_in in Hc. apply (proj2 Hc). apply H2. left; reflexivity.
      * assert (P : Permutation (filter firstb ids') (filter firstb ids ++ (if firstb (cid n) then [cid n] else []))).
        { apply NoDup_Permutation; [apply NoDup_filter; exact N2| |].
          - apply NoDup_app; [apply NoDup_filter; exact Nd|destruct (firstb (cid n)); constructor; [intros []|constructor]|].
            intros x Hx Hx'. apply filter_In in Hx. destruct (firstb (cid n)); [|contradiction]. destruct Hx' as [<-|[]]. apply X. tauto.
          - intro x. rewrite in_app_iff, !filter_In. split.
            + intros [A F]. destruct (new_dec ids ids' x A) as [B|B]; [left; split; assumption|right].
              destruct (D2 x B) as [m [[<-|[]] D]]. rewrite (desc_first (cid n) x D).
              * rewrite F. left; reflexivity.
              * apply firstb_iff; [apply (s_node d Co AL s Ps), I2, A|exact F].
            + intros [[A F]|A]; [split; [apply X2; exact A|exact F]|]. destruct (firstb (cid n)) eqn:Fn; [|contradiction]. destruct A as [<-|[]].
              split; [apply H2; left; reflexivity|exact Fn]. }
        rewrite (Permutation_length P), app_length. destruct (firstb (cid n)); cbn [length]; lia.
    + intros x [<-|Hx]; [apply H2; left; reflexivity|apply X2; exact Hx].
  - right. rewrite Et. split; assumption.
Qed.

Lemma loop_or : forall fuel rounds ids lr, length order <= fuel -> loop_ok ids lr -> length (rest ids) <= rounds ->
  (exists ids', grid_loop rounds fuel d (map cellof ids, lr, rest ids) = Ok (map cellof ids') /\ forall n, is_node d n -> In n ids') \/
  (grid_loop rounds fuel d (map cellof ids, lr, rest ids) = Err TypeError /\ clash).
Proof.
  intros fuel. 
  assert (Full : forall ids, rest ids = [] -> forall n, is_node d n -> In n ids).
  { intros ids E n Hn. destruct (node_s n Hn) as [c [Hc <-]].
    destruct (smem (cid c) ids) eqn:Sc; [apply smem_In; auto|]. apply smem_notIn in Sc. exfalso.
    assert (H : In c (rest ids)) by (apply rest_in; auto). rewrite E in H. contradiction. }
  induction rounds as [|rounds IH]; intros ids lr Lf I L.
  - destruct (rest ids) as [|n t] eqn:E; [|cbn in L; lia]. left. exists ids. split; [reflexivity|]. apply Full, E.
  - destruct (rest ids) as [|n t] eqn:E; cbn [grid_loop snd fst].
    + left. exists ids. split; [reflexivity|]. apply Full, E.
    + destruct (step_or fuel ids lr n t I E Lf) as [(ids' & lr' & Ep & I' & Ic)|[Ep Cx]]; rewrite Ep; cbn [rbind]; [|right; split; [reflexivity|exact Cx]].
      apply IH; auto. pose proof (rest_shrinks s Ns ids ids' n t E Ic). cbn in L. lia.
Qed.

Theorem grid_or : forall fuel, length order <= fuel ->
  (exists ids, grid_layout fuel d s = Ok (map cellof ids) /\ forall n, is_node d n -> In n ids) \/
  (grid_layout fuel d s = Err TypeError /\ clash).
Proof.
  intros fuel Lf. unfold grid_layout.
  assert (R : rest [] = s). { unfold PlanFacts.rest. clear. induction s as [|a u IH]; [reflexivity|]. cbn. f_equal. exact IH. }
  pose proof (loop_or fuel (length s) [] grid_column_width Lf) as P. rewrite R in P. apply P; auto.
  constructor.
  - constructor; [constructor|intros x []|intros x y _ _ []|intros x []].
  - intros x y [].
  - intros x [].
  - reflexivity.
Qed.
End Cells.
