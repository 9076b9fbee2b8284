(** The rules of SpecCells determine the place of every node: there is exactly one plan. *)
From Coq Require Import String List Bool Arith ZArith Lia Permutation.
From Verif Require Import Py PyFacts Consts Nx NxFacts Rep SpecRep RepFacts MetricsFacts Classify Layouter
  SpecLayout ClassifyFacts TopoFacts GridFacts LayoutFacts SpecBlocks SpecFlat SpecPlan PlanFacts PlanBlocks SpecCells CellFacts.
Import ListNotations.
Open Scope string_scope.
Open Scope list_scope.

Section Plan.
Variable d : diagram.
Hypothesis Co : coherent d.
Hypothesis AL : all_laid_out d.
Hypothesis Sg : single_flows d.
Hypothesis Nj : no_join_after_split d.
Variable s : list cnode.
Hypothesis Ps : Permutation s (classified d).
Hypothesis Ns : NoDup (map cid s).
Let order := map cid s.
Hypothesis Oj : forall x y, goes d x y -> ~ join_node d y -> before order x y.
Let after_split := after_split d Co AL Sg Nj s Ps.
Let N := length order.
Definition idx (x : string) : nat := index x order.

Lemma idx_before : forall x y, before order x y <-> In x order /\ In y order /\ idx x < idx y.
Proof.
  intros x y. split.
  - intro B. destruct (before_In _ _ _ B) as [A C]. split; [exact A|]. split; [exact C|].
    apply (idx_lt s Ns (idx x) (idx y) x y); [apply index_nth; exact A|apply index_nth; exact C|exact B].
  - intros (A & C & L). exists (idx x), (idx y). split; [exact L|]. split; apply index_nth; assumption.
Qed.
Lemma idx_bound : forall x, In x order -> idx x < N.
Proof. intros x H. apply nth_error_Some. unfold idx. rewrite (index_nth x order H). discriminate. Qed.
Lemma node_order : forall x, is_node d x <-> In x order.
Proof. exact (s_node d Co AL s Ps). Qed.

Lemma preds_of : forall n, is_node d n -> exists l, lists (fun p => goes d p n) l.
Proof. intros n H. destruct (node_s d Co AL s Ps n H) as [c [Hc <-]]. destruct (preds_list d Co Sg s Ps c Hc) as [l [_ [L _]]]. exists l. exact L. Qed.
Lemma succs_of : forall n, is_node d n -> exists l, lists (goes d n) l.
Proof. intros n H. destruct (node_s d Co AL s Ps n H) as [c [Hc <-]]. destruct (succs_list d Co Sg s Ps c Hc) as [l [_ [L _]]]. exists l. exact L. Qed.
(** Not right after a split. *)
Definition top (h : string) : Prop := forall q, goes d q h -> ~ split_node d q.
Lemma top_dec : forall n, is_node d n -> top n \/ exists q, goes d q n /\ split_node d q.
Proof.
  intros n H. destruct (preds_of n H) as [l [_ L]].
  assert (G : forall l, (forall q, In q l -> ~ split_node d q) \/ exists q, In q l /\ split_node d q).
  { clear. induction l as [|a l [IH|[q [A B]]]]; [left; intros q []| |right; exists q; split; [right|]; assumption].
    destruct (split_dec d a) as [S|S]; [right; exists a; split; [left; reflexivity|exact S]|]. left. intros q [<-|Hq]; auto. }
  destruct (G l) as [A|[q [A B]]]; [left; intros q Hq; apply A, L, Hq|right; exists q; split; [apply L, A|exact B]].
Qed.
Lemma top_exists : forall k n, is_node d n -> idx n < k -> exists h, top h /\ desc d h n.
Proof.
  induction k as [|k IH]; intros n H L; [lia|]. destruct (top_dec n H) as [T|[q [G S]]]; [exists n; split; [exact T|constructor]|].
  pose proof (after_split_before d Nj s Oj q n G S) as B. apply idx_before in B. destruct B as (A & C & L').
  destruct (IH q) as [h [T D]]; [apply node_order; exact A|lia|]. exists h. split; [exact T|]. eapply de_step; eauto.
Qed.
Lemma top_unique : forall h h' n, top h -> top h' -> desc d h n -> desc d h' n -> h = h'.
Proof.
  intros h h' n T T' D. revert h' T'. induction D as [|y x D IH S G]; intros h' T' D'.
  - inversion D' as [|y x D2 S2 G2]; [reflexivity|]. exfalso. exact (T y G2 S2).
  - inversion D' as [E|y' x' D2 S2 G2 E]; subst.
    + exfalso. exact (T' y G S).
    + apply IH; [exact T'|]. rewrite <- (after_split y x y' G S G2). exact D2.
Qed.
Lemma desc_node : forall h n, desc d h n -> is_node d n -> is_node d h.
Proof. intros h n D. induction D as [|y x D IH S G]; intros H; [exact H|]. apply IH. apply (goes_nodes _ _ _ G). Qed.
Lemma desc_idx : forall h n, desc d h n -> idx h <= idx n.
Proof.
  intros h n D. destruct (desc_before d Nj s Ns Oj h n D) as [->|B]; [lia|]. apply idx_before in B. lia.
Qed.
Lemma desc_trans : forall a b c, desc d a b -> desc d b c -> desc d a c.
Proof. intros a b c D E. induction E as [|y x E IH S G]; [exact D|]. eapply de_step; eauto. Qed.

(** The rank of a node: nodes are drawn in the order of the ranks. *)
Definition rank (n : string) (k : nat) : Prop := exists h, top h /\ desc d h n /\ k = idx h * N + idx n.
Lemma rank_exists : forall n, is_node d n -> exists k, rank n k.
Proof. intros n H. destruct (top_exists (S (idx n)) n H ltac:(lia)) as [h [T D]]. eexists. exists h. split; [exact T|]. split; [exact D|reflexivity]. Qed.
Lemma rank_fun : forall n k k', rank n k -> rank n k' -> k = k'.
Proof. intros n k k' (h & T & D & ->) (h' & T' & D' & ->). rewrite (top_unique h h' n T T' D D'). reflexivity. Qed.
Lemma idx_inj : forall x y, In x order -> In y order -> idx x = idx y -> x = y.
Proof.
  intros x y A B E. pose proof (index_nth x order A) as X. pose proof (index_nth y order B) as Y. unfold idx in E. rewrite E in X. congruence.
Qed.
Lemma rank_inj : forall a b k, is_node d a -> is_node d b -> rank a k -> rank b k -> a = b.
Proof.
  intros a b k Ha Hb (h & T & D & E) (h' & T' & D' & E'). apply node_order in Ha, Hb. apply idx_inj; auto.
  pose proof (idx_bound a Ha). pose proof (idx_bound b Hb). assert (idx h = idx h') by nia. nia.
Qed.

(** What the place of a node depends on. *)
Definition dep (n x : string) : Prop :=
  (goes d x n /\ ~ join_node d n) \/ (exists p, goes d p n /\ split_node d p /\ goes d x p /\ split_node d x) \/
  (goes d x n /\ drawn_before d order n x).
Lemma step_rank : forall n x k k', goes d x n -> ~ join_node d n -> rank x k -> rank n k' -> k < k'.
Proof.
  intros n x k k' G J (h & T & D & ->) R'. pose proof (Oj x n G J) as B. apply idx_before in B. destruct B as (A & C & L).
  pose proof (idx_bound n C) as Bn. destruct (split_dec d x) as [S|S].
  - assert (R : rank n (idx h * N + idx n)) by (exists h; split; [exact T|]; split; [eapply de_step; eauto|reflexivity]).
    rewrite (rank_fun n _ _ R' R). lia.
  - assert (Tn : top n).
    { intros q Gq Sq. apply S. rewrite (after_split q n x Gq Sq G). exact Sq. }
    assert (R : rank n (idx n * N + idx n)) by (exists n; split; [exact Tn|]; split; [constructor|reflexivity]).
    rewrite (rank_fun n _ _ R' R). pose proof (desc_idx h x D). nia.
Qed.
Lemma drawn_desc : forall n x, drawn_before d order n x -> exists y, before order y n /\ desc d y x.
Proof.
  intros n x D. induction D as [x B|y x S G D (z & B & Z)]; [exists x; split; [exact B|constructor]|]. exists z. split; [exact B|]. eapply de_step; eauto.
Qed.
Lemma drawn_iff : forall n x h, top h -> desc d h x -> (drawn_before d order n x <-> before order h n).
Proof.
  intros n x h T D. split; [|intro B; eapply desc_drawn; eauto]. intro W. destruct (drawn_desc n x W) as (y & B & Y).
  pose proof B as B'. apply idx_before in B'. destruct B' as (A & C & L).
  destruct (top_exists (S (idx y)) y) as [h' [T' D']]; [apply node_order; exact A|lia|].
  rewrite (top_unique h h' x T T' D (desc_trans _ _ _ D' Y)). pose proof (desc_idx _ _ D'). apply idx_before. split; [|split; [exact C|lia]].
  apply node_order. eapply desc_node; [exact D'|]. apply node_order. exact A.
Qed.
Lemma dep_rank : forall n x k k', dep n x -> rank x k -> rank n k' -> k < k'.
Proof.
  intros n x k k' [[G J]|[(p & G & S & Gx & Sx)|[G W]]] R R'.
  - eapply step_rank; eauto.
  - assert (Np : is_node d p) by (apply (goes_nodes _ _ _ G)). destruct (rank_exists p Np) as [kp Rp].
    assert (k < kp) by (apply (step_rank p x); auto; destruct Gx as [f F]; exact (Nj f _ _ F Sx)).
    assert (kp < k') by (apply (step_rank n p); auto; destruct G as [f F]; exact (Nj f _ _ F S)). lia.
  - destruct (join_dec d n) as [J|J]; [|eapply step_rank; eauto].
    assert (Tn : top n). { intros q [f F] Sq. exact (Nj f _ _ F Sq J). }
    assert (Rn : rank n (idx n * N + idx n)) by (exists n; split; [exact Tn|]; split; [constructor|reflexivity]).
    rewrite (rank_fun n _ _ R' Rn). destruct R as (h & T & D & ->). apply (drawn_iff n x h T D) in W. apply idx_before in W.
    assert (Hx : In x order) by (apply node_order; apply (goes_nodes _ _ _ G)). pose proof (idx_bound x Hx). nia.
Qed.
Lemma dep_node : forall n x, dep n x -> is_node d x.
Proof. intros n x [[G _]|[(p & _ & _ & G & _)|[G _]]]; apply (goes_nodes _ _ _ G). Qed.

(** * The place depends on nothing else *)
Lemma fan_row_ext : forall pos pos' p row, (forall q, goes d q p -> split_node d q -> pos' q = pos q) -> pos' p = pos p -> fan_row d pos p row -> fan_row d pos' p row.
Proof.
  intros pos pos' p row H E [(q & G & S & ->)|[T ->]]; [left; exists q; rewrite (H q G S); auto|right; rewrite E; auto].
Qed.
Lemma map_same : forall (A : Type) (f g : string -> A) l, (forall x, In x l -> f x = g x) -> map f l = map g l.
Proof. intros A f g l H. apply map_ext_in. exact H. Qed.
Lemma belongs_ext : forall pos pos' n c, is_node d n -> (forall x, dep n x -> pos' x = pos x) -> belongs d order pos n c -> belongs d order pos' n c.
Proof.
  intros pos pos' n c Hn H [fs i Lf Of Nf E|p Lp S E|p l i row r Lp S Lo Ol Nl Fr Fn E|l l1 Lp L2 L1 E].
  - eapply b_start; eauto.
  - assert (G : goes d p n) by (apply Lp; left; reflexivity).
    eapply b_step; eauto. rewrite H; [exact E|]. left. split; [exact G|]. intro J. apply (join_len d Co AL Sg s Ps n [p] Hn Lp) in J. cbn in J. lia.
  - assert (G : goes d p n) by (apply Lp; left; reflexivity).
    assert (J : ~ join_node d n) by (destruct G as [f F]; exact (Nj f _ _ F S)).
    assert (Ep : pos' p = pos p) by (apply H; left; split; assumption).
    apply (b_branch d order pos' n c p l i row r); auto; [|rewrite Ep; exact E].
    apply (fan_row_ext pos); auto. intros q Gq Sq. apply H. right. left. exists p. auto.
  - apply (b_join d order pos' n c l l1); auto.
    assert (Q : forall x, In x l1 -> pos' x = pos x) by (intros x Hx; apply H; right; right; apply L1; exact Hx).
    rewrite (map_same _ (fun p => fst (pos' p)) (fun p => fst (pos p))) by (intros x Hx; rewrite Q by exact Hx; reflexivity).
    rewrite (map_same _ (fun p => snd (pos' p)) (fun p => snd (pos p))) by (intros x Hx; rewrite Q by exact Hx; reflexivity). exact E.
Qed.
Lemma lists_one : forall P (a b : string), lists P [a] -> lists P [b] -> a = b.
Proof. intros P a b A B. pose proof (lists_perm _ _ _ A B) as Q. apply Permutation_length_1 in Q. exact Q. Qed.
Lemma fold_perm_add : forall l l', Permutation l l' -> fold_right Z.add 0%Z l = fold_right Z.add 0%Z l'.
Proof. induction 1; cbn [fold_right]; lia. Qed.
Lemma fold_perm_max : forall l l', Permutation l l' -> fold_right Z.max 0%Z l = fold_right Z.max 0%Z l'.
Proof. induction 1; cbn [fold_right]; lia. Qed.
Lemma belongs_fun : forall pos n c c', belongs d order pos n c -> belongs d order pos n c' -> c = c'.
Proof.
  intros pos n c c' [fs i Lf Of Nf ->|p Lp S ->|p l i row r Lp S Lo Ol Nl Fr Fn ->|l l1 Lp L2 L1 ->]
    [fs' i' Lf' Of' Nf' ->|p' Lp' S' ->|p' l' i' row' r' Lp' S' Lo' Ol' Nl' Fr' Fn' ->|l' l1' Lp' L2' L1' ->].
  - assert (fs = fs') by (eapply (lists_eq order); eauto). subst fs'.
    assert (i = i') by (apply (proj1 (NoDup_nth_error _) (proj1 Lf)); [apply nth_error_Some; congruence|congruence]). subst. reflexivity.
  - exfalso. apply nth_error_In in Nf. apply Lf in Nf. apply (proj2 Nf p'), Lp'. left; reflexivity.
  - exfalso. apply nth_error_In in Nf. apply Lf in Nf. apply (proj2 Nf p'), Lp'. left; reflexivity.
  - exfalso. apply nth_error_In in Nf. apply Lf in Nf. destruct l' as [|x l']; [cbn in L2'; lia|]. apply (proj2 Nf x), Lp'. left; reflexivity.
  - exfalso. apply nth_error_In in Nf'. apply Lf' in Nf'. apply (proj2 Nf' p), Lp. left; reflexivity.
  - rewrite (lists_one _ _ _ Lp Lp'). reflexivity.
  - exfalso. rewrite (lists_one _ _ _ Lp Lp') in S. contradiction.
  - exfalso. pose proof (Permutation_length (lists_perm _ _ _ Lp Lp')) as Q. cbn in Q. lia.
  - exfalso. apply nth_error_In in Nf'. apply Lf' in Nf'. apply (proj2 Nf' p), Lp. left; reflexivity.
  - exfalso. rewrite (lists_one _ _ _ Lp Lp') in S. contradiction.
  - pose proof (lists_one _ _ _ Lp Lp') as E. subst p'. assert (l = l') by (eapply (lists_eq order); eauto). subst l'.
    assert (i = i') by (apply (proj1 (NoDup_nth_error _) (proj1 Lo)); [apply nth_error_Some; congruence|congruence]). subst i'.
    rewrite (fan_row_fun d Co AL Sg Nj s Ps pos p row row' Fr Fr'). assert (r = r') by congruence. subst. reflexivity.
  - exfalso. pose proof (Permutation_length (lists_perm _ _ _ Lp Lp')) as Q. cbn in Q. lia.
  - exfalso. apply nth_error_In in Nf'. apply Lf' in Nf'. destruct l as [|x l]; [cbn in L2; lia|]. apply (proj2 Nf' x), Lp. left; reflexivity.
  - exfalso. pose proof (Permutation_length (lists_perm _ _ _ Lp Lp')) as Q. cbn in Q. lia.
  - exfalso. pose proof (Permutation_length (lists_perm _ _ _ Lp Lp')) as Q. cbn in Q. lia.
  - rewrite (Permutation_length (lists_perm _ _ _ Lp Lp')).
    rewrite (fold_perm_add _ _ (Permutation_map (fun p => fst (pos p)) (lists_perm _ _ _ L1 L1'))).
    rewrite (fold_perm_max _ _ (Permutation_map (fun p => snd (pos p)) (lists_perm _ _ _ L1 L1'))). reflexivity.
Qed.
Theorem plan_unique : forall pos pos', plan_of d order pos -> plan_of d order pos' -> forall n, is_node d n -> pos' n = pos n.
Proof.
  intros pos pos' P P'. assert (G : forall k n k', is_node d n -> rank n k' -> k' < k -> pos' n = pos n).
  { induction k as [|k IH]; intros n k' Hn R L; [lia|]. symmetry.
    apply (belongs_fun pos' n); [|apply P'; exact Hn]. apply (belongs_ext pos); [exact Hn| |apply P; exact Hn].
    intros x D. pose proof (dep_node n x D) as Hx. destruct (rank_exists x Hx) as [kx Rx]. apply (IH x kx Hx Rx).
    pose proof (dep_rank n x kx k' D Rx R). lia. }
  intros n Hn. destruct (rank_exists n Hn) as [k R]. apply (G (S k) n k); auto.
Qed.

(** * There is a plan *)
Lemma belongs_some : forall pos n, is_node d n -> exists c, belongs d order pos n c.
Proof.
  intros pos n Hn. destruct (preds_of n Hn) as [l L]. assert (On : In n order) by (apply node_order; exact Hn).
  destruct l as [|p [|q l]].
  - set (fs := filter (firstb d) order).
    assert (Lf : lists (first_node d) fs).
    { split; [apply NoDup_filter; exact Ns|]. intro x. unfold fs. rewrite filter_In. split.
      - intros [A B]. apply (firstb_iff d Co); [apply node_order; exact A|exact B].
      - intros F. split; [apply node_order, F|]. apply (firstb_iff d Co); [apply F|exact F]. }
    assert (Hf : In n fs). { apply Lf. split; [exact Hn|]. intros p G. apply L in G. contradiction. }
    destruct (In_nth_error _ _ Hf) as [i Ei]. eexists. eapply b_start; eauto. apply same_order_filter. exact Ns.
  - assert (G : goes d p n) by (apply L; left; reflexivity). destruct (split_dec d p) as [S|S].
    + assert (Np : is_node d p) by (apply (goes_nodes _ _ _ G)). destruct (succs_of p Np) as [l0 L0].
      set (l := filter (fun x => smem x l0) order).
      assert (Ll : lists (goes d p) l).
      { split; [apply NoDup_filter; exact Ns|]. intro x. unfold l. rewrite filter_In, smem_In. split; [intros [_ H]; apply L0, H|].
        intro Gx. split; [apply node_order; apply (goes_nodes _ _ _ Gx)|apply L0, Gx]. }
      destruct (In_nth_error l n (proj2 (proj2 Ll n) G)) as [i Ei]. destruct (fan_some (length l) i) as [r Er]; [apply nth_error_Some; congruence|].
      assert (F : exists row, fan_row d pos p row).
      { destruct (top_dec p Np) as [T|[q [Gq Sq]]]; [exists (fst (pos p)); right; split; [exact T|reflexivity]|].
        exists (fst (pos q)). left. exists q. auto. }
      destruct F as [row Fr]. eexists. eapply b_branch; eauto. apply same_order_filter. exact Ns.
    + eexists. eapply b_step; eauto.
  - assert (F : forall l0, NoDup l0 -> (forall x, In x l0 -> goes d x n) -> exists l1, lists (fun x => In x l0 /\ drawn_before d order n x) l1).
    { induction l0 as [|a l0 IH]; intros Nd H.
      - exists []. split; [constructor|]. intro x. split; [intros []|intros [[] _]].
      - inv Nd. destruct IH as [l1 [N1 L1]]; [assumption|intros x Hx; apply H; right; exact Hx|].
        assert (Na : is_node d a) by (apply (goes_nodes d a n), H; left; reflexivity).
        destruct (top_exists (S (idx a)) a Na ltac:(lia)) as [h [T D]]. pose proof (drawn_iff n a h T D) as Di.
        assert (Nh : is_node d h) by (eapply desc_node; eauto).
        destruct (lt_dec (idx h) (idx n)) as [Lt|Lt].
        + assert (W : drawn_before d order n a) by (apply Di, idx_before; split; [apply node_order; exact Nh|split; assumption]).
          exists (a :: l1). split; [constructor; [intro C; apply L1 in C; tauto|exact N1]|]. intro x. cbn [In]. rewrite L1. split.
          * intros [<-|[A B]]; [split; [left; reflexivity|exact W]|split; [right; exact A|exact B]].
          * intros [[<-|A] B]; [left; reflexivity|right; split; assumption].
        + exists l1. split; [exact N1|]. intro x. rewrite L1. cbn [In]. split; [intros [A B]; split; [right; exact A|exact B]|].
          intros [[<-|A] B]; [|split; assumption]. exfalso. apply Di in B. apply idx_before in B. lia. }
    destruct (F (p :: q :: l) (proj1 L)) as [l1 [N1 L1]]; [intros x Hx; apply L, Hx|].
    eexists. apply (b_join d order pos n _ (p :: q :: l) l1 L); [cbn; lia| |reflexivity].
    split; [exact N1|]. intro x. rewrite L1, (proj2 L x). reflexivity.
Qed.
Theorem plan_exists : exists pos, plan_of d order pos.
Proof.
  assert (G : forall k, exists pos, forall n k', is_node d n -> rank n k' -> k' < k -> belongs d order pos n (pos n)).
  { induction k as [|k [pos IH]]; [exists (fun _ => (0, 0)%Z); intros; lia|].
    assert (F : forall l, incl l order -> (exists n, In n l /\ rank n k) \/ forall n, In n l -> ~ rank n k).
    { induction l as [|a l IHl]; intros I; [right; intros n []|].
      destruct IHl as [[n [A B]]|IHl]; [intros x Hx; apply I; right; exact Hx|left; exists n; split; [right; exact A|exact B]|].
      destruct (rank_exists a) as [ka Ra]; [apply node_order, I; left; reflexivity|]. destruct (Nat.eq_dec ka k) as [->|Ne].
      - left. exists a. split; [left; reflexivity|exact Ra].
      - right. intros n [<-|Hn]; [|auto]. intro R. apply Ne. eapply rank_fun; eauto. }
    destruct (F order (incl_refl _)) as [[n0 [O0 R0]]|F0].
    - assert (H0 : is_node d n0) by (apply node_order; exact O0). destruct (belongs_some pos n0 H0) as [c Hc].
      set (pos' := fun x => if String.eqb x n0 then c else pos x).
      assert (Eo : forall x, x <> n0 -> pos' x = pos x) by (intros x Ne; unfold pos'; rewrite (eqb_neq' x n0) by exact Ne; reflexivity).
      assert (E0 : pos' n0 = c) by (unfold pos'; rewrite String.eqb_refl; reflexivity).
      exists pos'. intros n k' Hn R L.
      assert (De : forall x, dep n x -> x <> n0).
      { intros x D ->. pose proof (dep_rank n n0 k k' D R0 R). lia. }
      destruct (string_dec n n0) as [->|Ne].
      + rewrite E0. apply (belongs_ext pos); [exact H0| |exact Hc]. intros x D. apply Eo, De, D.
      + rewrite (Eo n Ne). apply (belongs_ext pos); [exact Hn|intros x D; apply Eo, De, D|]. apply (IH n k' Hn R).
        assert (k' <> k) by (intros ->; apply Ne; eapply rank_inj; eauto). lia.
    - exists pos. intros n k' Hn R L. apply (IH n k' Hn R). assert (k' <> k) by (intros ->; apply (F0 n); [apply node_order; exact Hn|exact R]). lia. }
  destruct (G (N * N + N)) as [pos P]. exists pos. intros n Hn. destruct (rank_exists n Hn) as [k R]. apply (P n k Hn R).
  destruct R as (h & T & D & ->). pose proof (desc_idx h n D). assert (In n order) by (apply node_order; exact Hn). pose proof (idx_bound n H0). nia.
Qed.
End Plan.
