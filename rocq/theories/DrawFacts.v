(** The layout follows the plan of SpecDraw as long as no cell is needed twice. *)
From Coq Require Import String List Bool Arith ZArith Lia Permutation.
From Verif Require Import Py PyFacts Consts Nx NxFacts Rep SpecRep RepFacts MetricsFacts Classify Layouter
  SpecLayout ClassifyFacts TopoFacts GridFacts LayoutFacts SpecBlocks SpecFlat SpecPlan PlanFacts PlanBlocks SpecCells CellFacts CellPlan SpecDraw.
Import ListNotations.
Open Scope string_scope.
Open Scope list_scope.

Lemma before_prefix : forall ids n v x, NoDup (ids ++ n :: v) -> (before (ids ++ n :: v) x n <-> In x ids).
Proof.
  intros ids n v x Nd. split.
  - intros (i & j & L & A & B).
    assert (j = length ids).
    { apply (proj1 (NoDup_nth_error _) Nd); [apply nth_error_Some; congruence|]. rewrite B, nth_error_app2, Nat.sub_diag by lia. reflexivity. }
    subst j. rewrite nth_error_app1 in A by lia. eapply nth_error_In; eauto.
  - intro H. destruct (In_nth_error _ _ H) as [i A]. assert (i < length ids) by (apply nth_error_Some; congruence).
    exists i, (length ids). split; [assumption|]. split; [rewrite nth_error_app1; assumption|].
    rewrite nth_error_app2, Nat.sub_diag by lia. reflexivity.
Qed.
Lemma before_app_l : forall u v x y, before u x y -> before (u ++ v) x y.
Proof.
  intros u v x y (i & j & L & A & B). exists i, j. split; [exact L|].
  split; rewrite nth_error_app1; try assumption; apply nth_error_Some; congruence.
Qed.
Lemma before_app_r : forall u v x y, before v x y -> before (u ++ v) x y.
Proof. induction u as [|a u IH]; intros v x y H; [exact H|]. cbn [app]. apply before_cons. auto. Qed.
Lemma before_concat : forall ls l x y, In l ls -> before l x y -> before (concat ls) x y.
Proof.
  induction ls as [|a ls IH]; intros l x y H B; [destruct H|]. cbn [concat]. destruct H as [->|H]; [apply before_app_l; exact B|apply before_app_r; eauto].
Qed.
Lemma concat_len : forall (ls : list (list string)) l, In l ls -> length l <= length (concat ls).
Proof.
  induction ls as [|a ls IH]; intros l H; [destruct H|]. cbn [concat]. rewrite app_length. destruct H as [->|H]; [lia|]. specialize (IH l H). lia.
Qed.
Lemma dw_head : forall d o n l, drawn_with d o n l -> exists t, l = n :: t.
Proof. intros d o n l H. destruct H; eexists; reflexivity. Qed.
(** The nodes drawn by a split follow it. *)
Lemma dw_children : forall d o k n l, length l <= k -> drawn_with d o n l -> forall p x, In p l -> draws d p x -> before l p x.
Proof.
  induction k as [|k IH]; intros n l L H p x Hp [Sp G].
  - destruct l; [destruct Hp|cbn in L; lia].
  - destruct H as [n Nn|n ks ls S Lk Ok F].
    + destruct Hp as [<-|[]]. contradiction.
    + cbn [length] in L. destruct Hp as [<-|Hp].
      * apply before_head. apply Lk in G. destruct (Forall2_in_l _ _ _ _ _ x F G) as [l [Hl D]]. destruct (dw_head _ _ _ _ D) as [t ->].
        apply in_concat. exists (x :: t). split; [exact Hl|left; reflexivity].
      * apply before_cons. apply in_concat in Hp. destruct Hp as [l [Hl Hp]].
        destruct (Forall2_in_r _ _ _ _ _ l F Hl) as [m [_ D]]. apply (before_concat ls l); [exact Hl|].
        apply (IH m l); [pose proof (concat_len ls l Hl); lia|exact D|exact Hp|split; assumption].
Qed.
(** A node drawn in the turn of another one was drawn by a split. *)
Lemma dw_tail : forall d o k n l, length l <= k -> drawn_with d o n l -> forall x, In x (tl l) -> exists p, In p l /\ draws d p x.
Proof.
  induction k as [|k IH]; intros n l L H x Hx.
  - destruct l; [destruct Hx|cbn in L; lia].
  - destruct H as [n Nn|n ks ls S Lk Ok F]; cbn [tl] in Hx; [destruct Hx|]. cbn [length] in L.
    apply in_concat in Hx. destruct Hx as [l [Hl Hx]]. destruct (Forall2_in_r _ _ _ _ _ l F Hl) as [m [Hm D]].
    destruct (dw_head _ _ _ _ D) as [t ->]. destruct Hx as [<-|Hx].
    + exists n. split; [left; reflexivity|]. split; [exact S|apply Lk; exact Hm].
    + destruct (IH m (m :: t)) with (x := x) as [p [Hp Dp]]; [pose proof (concat_len ls _ Hl); lia|exact D|exact Hx|].
      exists p. split; [right; apply in_concat; exists (m :: t); auto|exact Dp].
Qed.

Lemma add_perm : forall l l', Permutation l l' -> fold_right Z.add 0%Z l = fold_right Z.add 0%Z l'.
Proof. induction 1; cbn [fold_right]; lia. Qed.
Lemma max_perm : forall l l', Permutation l l' -> fold_right Z.max 0%Z l = fold_right Z.max 0%Z l'.
Proof. induction 1; cbn [fold_right]; lia. Qed.

Section Draw.
Variable d : diagram.
Hypothesis Co : coherent d.
Hypothesis AL : all_laid_out d.
Hypothesis Sg : single_flows d.
Variable s : list cnode.
Hypothesis Ps : Permutation s (classified d).
Hypothesis Ns : NoDup (map cid s).
Let order := map cid s.
Hypothesis Oj : forall x y, goes d x y -> ~ join_node d y -> before order x y.
Variable sq : list string.
Hypothesis Dr : drawing d order sq.

Lemma pred_one : forall n p q, ~ join_node d n -> goes d p n -> goes d q n -> p = q.
Proof using Co AL Sg Ps.
  intros n p q J G G'. assert (Hn : is_node d n) by (apply (goes_nodes d p n G)).
  destruct (preds_of d Co AL Sg s Ps n Hn) as [l L]. assert (K : length l <= 1).
  { destruct (le_lt_dec 2 (length l)) as [X|X]; [|lia]. exfalso. apply J. apply (join_len d Co AL Sg s Ps n l Hn L). exact X. }
  apply L in G. apply L in G'. destruct l as [|a [|b l]]; cbn in K; [destruct G| |lia]. destruct G as [<-|[]], G' as [<-|[]]. reflexivity.
Qed.
Lemma own_dec : forall n, is_node d n -> own_turn d n \/ exists p, draws d p n.
Proof using Co AL Sg Ps.
  intros n Hn. destruct (preds_of d Co AL Sg s Ps n Hn) as [l L].
  assert (X : (exists p, In p l /\ split_node d p) \/ forall p, In p l -> ~ split_node d p).
  { clear L. induction l as [|a l IH]; [right; intros p []|]. destruct IH as [[p [A B]]|IH]; [left; exists p; split; [right; exact A|exact B]|].
    destruct (split_dec d a) as [S|S]; [left; exists a; split; [left; reflexivity|exact S]|right; intros p [<-|Hp]; auto]. }
  destruct X as [[p [A B]]|X]; [right; exists p; split; [exact B|apply L; exact A]|]. left. split; [exact Hn|]. intros p [S G]. apply L in G. exact (X p G S).
Qed.
Lemma sq_nodup : NoDup sq. Proof using Dr. apply (dr_all _ _ _ Dr). Qed.
Lemma sq_node : forall n, is_node d n <-> In n sq.
Proof using Dr. intro n. symmetry. apply (dr_all _ _ _ Dr). Qed.
Lemma draws_before : forall p n, draws d p n -> before sq p n.
Proof using Dr.
  intros p n D. assert (Hp : In p sq) by (apply sq_node, (goes_nodes d p n); apply D).
  destruct (dr_turns _ _ _ Dr) as (hs & ls & Lh & Oh & F & E). rewrite E in Hp |- *. apply in_concat in Hp. destruct Hp as [l [Hl Hp]].
  destruct (Forall2_in_r _ _ _ _ _ l F Hl) as [h [_ W]]. apply (before_concat ls l _ _ Hl). exact (dw_children d order (length l) h l (le_n _) W p n Hp D).
Qed.
(** The predecessors that are drawn already, as a list. *)
Lemma before_dec : forall x y, before sq x y \/ ~ before sq x y.
Proof using Dr.
  intros x y. destruct (in_dec string_dec y sq) as [Hy|Hy].
  - destruct (in_split _ _ Hy) as (u & v & E). destruct (in_dec string_dec x u) as [Hx|Hx].
    + left. rewrite E. apply before_prefix; [rewrite <- E; exact sq_nodup|exact Hx].
    + right. intro B. apply Hx. rewrite E in B. apply before_prefix in B; [exact B|rewrite <- E; exact sq_nodup].
  - right. intro B. apply Hy. apply (before_In _ _ _ B).
Qed.
Lemma drawn_preds : forall n, is_node d n -> exists l1, lists (fun p => goes d p n /\ before sq p n) l1.
Proof using Co AL Sg Ps Dr.
  intros n Hn. destruct (preds_of d Co AL Sg s Ps n Hn) as [l [N L]].
  assert (X : exists l1, NoDup l1 /\ forall x, In x l1 <-> In x l /\ before sq x n).
  { clear L. induction l as [|a l IH]; [exists []; split; [constructor|]; intro x; split; [intros []|intros [[] _]]|].
    inv N. destruct (IH H2) as [l1 [N1 L1]]. destruct (before_dec a n) as [B|B].
    - exists (a :: l1). split; [constructor; [intro C; apply L1 in C; tauto|exact N1]|]. intro x. cbn [In]. rewrite L1. split.
      + intros [<-|[A C]]; auto.
      + intros [[<-|A] C]; auto.
    - exists l1. split; [exact N1|]. intro x. rewrite L1. cbn [In]. split; [tauto|]. intros [[<-|A] C]; [contradiction|auto]. }
  destruct X as [l1 [N1 L1]]. exists l1. split; [exact N1|]. intro x. rewrite L1, (L x). reflexivity.
Qed.

(** * The rules are functions *)
Section Pos.
Variable pos : string -> Z * Z.
Lemma mean_fun : forall n m m', mean_row d sq pos n m -> mean_row d sq pos n m' -> m = m'.
Proof using.
  intros n m m' (l & l1 & A & B & ->) (l' & l1' & A' & B' & ->).
  rewrite (Permutation_length (lists_perm _ _ _ A A')). f_equal. apply add_perm, Permutation_map. exact (lists_perm _ _ _ B B').
Qed.
Lemma col_fun : forall n m m', next_col d sq pos n m -> next_col d sq pos n m' -> m = m'.
Proof using.
  intros n m m' (l1 & B & ->) (l1' & B' & ->). f_equal. apply max_perm, Permutation_map. exact (lists_perm _ _ _ B B').
Qed.
Lemma spread_fun : forall n m m', spread_row d sq pos n m -> spread_row d sq pos n m' -> m = m'.
Proof using Dr.
  intros n m m' [J M|q J D ->|J O ->] [J' M'|q' J' D' ->|J' O' ->]; try contradiction; auto.
  - exact (mean_fun n m m' M M').
  - rewrite (dr_one _ _ _ Dr q q' n D D'). reflexivity.
  - exfalso. exact (proj2 O' q D).
  - exfalso. exact (proj2 O q' D').
Qed.
Lemma branch_fun : forall n m m', branch_row d order sq pos n m -> branch_row d order sq pos n m' -> m = m'.
Proof using Dr Ns.
  intros n m m' (p & l & i & o & row & D & L & O & E & S & F & ->) (p' & l' & i' & o' & row' & D' & L' & O' & E' & S' & F' & ->).
  assert (p' = p) by (exact (dr_one _ _ _ Dr p' p n D' D)). subst p'.
  assert (l' = l) by (exact (lists_eq order _ _ _ Ns L' L O' O)). subst l'.
  assert (i' = i) by (apply (proj1 (NoDup_nth_error _) (proj1 L)); [apply nth_error_Some; congruence|congruence]). subst i'.
  rewrite (spread_fun p row row' S S'). congruence.
Qed.
Lemma placed_fun : forall n c c', placed_at d order sq pos n c -> placed_at d order sq pos n c' -> c = c'.
Proof using Co AL Sg Ps Ns Dr.
  assert (NF : forall n fs i p, lists (first_node d) fs -> nth_error fs i = Some n -> goes d p n -> False).
  { intros n fs i p L E G. apply nth_error_In, L in E. exact (proj2 E p G). }
  assert (NJ : forall n fs i, lists (first_node d) fs -> nth_error fs i = Some n -> join_node d n -> False).
  { intros n fs i L E J. apply nth_error_In, L in E. destruct E as [Hn E]. destruct (preds_of d Co AL Sg s Ps n Hn) as [l Ll].
    apply (join_len d Co AL Sg s Ps n l Hn Ll) in J. destruct l as [|a l]; cbn in J; [lia|]. apply (E a). apply Ll. left; reflexivity. }
  assert (BD : forall n r, branch_row d order sq pos n r -> exists p, draws d p n) by (intros n r (p & _ & _ & _ & _ & D & _); eauto).
  intros n c c' H H'.
  destruct H as [fs i A B C ->|p A B C ->|p r A B C ->|A B C D|r m A B C D E];
  destruct H' as [fs' i' A' B' C' ->|p' A' B' C' ->|p' r' A' B' C' ->|A' B' C' D'|r' m' A' B' C' D' E']; try contradiction;
  try (exfalso; eapply NF; [| |eassumption]; eassumption); try (exfalso; eapply NJ; eassumption).
  - assert (fs' = fs) by (exact (lists_eq order _ _ _ Ns A' A B' B)). subst fs'.
    assert (i' = i) by (apply (proj1 (NoDup_nth_error _) (proj1 A)); [apply nth_error_Some; congruence|congruence]). congruence.
  - exfalso. destruct B' as [_ G]. exact (NF n fs i p' A C G).
  - rewrite (pred_one n p p' A B B'). reflexivity.
  - exfalso. destruct B' as [S G]. rewrite (pred_one n p' p A G B) in S. contradiction.
  - exfalso. destruct B as [_ G]. exact (NF n fs' i' p A' C' G).
  - exfalso. destruct B as [S G]. rewrite (pred_one n p p' A G B') in S. contradiction.
  - rewrite (dr_one _ _ _ Dr p p' n B B'), (branch_fun n r r' C C'). reflexivity.
  - destruct c, c'. cbn [fst snd] in *. f_equal; [exact (mean_fun _ _ _ C C')|exact (col_fun _ _ _ D D')].
  - exfalso. destruct (BD n r' B') as [p X]. exact (proj2 B p X).
  - exfalso. destruct (BD n r B) as [p X]. exact (proj2 B' p X).
  - destruct c, c'. cbn [fst snd] in *. rewrite (mean_fun _ _ _ C C') in D. rewrite (branch_fun _ _ _ B B') in D. rewrite (col_fun _ _ _ E E'). congruence.
Qed.

(** * Every node has a place *)
Lemma mean_some : forall n, is_node d n -> exists m, mean_row d sq pos n m.
Proof using Co AL Sg Ps Dr. intros n Hn. destruct (preds_of d Co AL Sg s Ps n Hn) as [l L]. destruct (drawn_preds n Hn) as [l1 L1]. eexists. exists l, l1. split; [exact L|]. split; [exact L1|reflexivity]. Qed.
Lemma col_some : forall n, is_node d n -> exists m, next_col d sq pos n m.
Proof using Co AL Sg Ps Dr. intros n Hn. destruct (drawn_preds n Hn) as [l1 L1]. eexists. exists l1. split; [exact L1|reflexivity]. Qed.
Lemma spread_some : forall n, is_node d n -> exists m, spread_row d sq pos n m.
Proof using Co AL Sg Ps Dr.
  intros n Hn. destruct (join_dec d n) as [J|J]; [destruct (mean_some n Hn) as [m M]; exists m; apply sr_join; assumption|].
  destruct (own_dec n Hn) as [O|[p D]]; [exists (fst (pos n)); apply sr_own; auto|exists (fst (pos p)); eapply sr_inner; eauto].
Qed.
Lemma branch_some : forall p n, draws d p n -> exists r, branch_row d order sq pos n r.
Proof using Co AL Sg Ps Ns Dr.
  intros p n D. pose proof D as [S G]. destruct (goes_nodes d p n G) as [Np Nn]. destruct (succs_of d Co AL Sg s Ps p Np) as [l0 L0].
  set (l := filter (fun x => smem x l0) order).
  assert (Ll : lists (goes d p) l).
  { split; [apply NoDup_filter; exact Ns|]. intro x. unfold l. rewrite filter_In, smem_In. split; [intros [_ H]; apply L0, H|].
    intro Gx. split; [apply (goes_order d Co AL s Ps p x Gx)|apply L0, Gx]. }
  destruct (In_nth_error l n (proj2 (proj2 Ll n) G)) as [i Ei]. destruct (fan_some (length l) i) as [o Eo]; [apply nth_error_Some; congruence|].
  destruct (spread_some p Np) as [row R]. eexists. exists p, l, i, o, row. split; [exact D|]. split; [exact Ll|].
  split; [apply same_order_filter; exact Ns|]. split; [exact Ei|]. split; [exact R|]. split; [exact Eo|reflexivity].
Qed.
Lemma placed_some : forall n, is_node d n -> exists c, placed_at d order sq pos n c.
Proof using Co AL Sg Ps Ns Dr.
  intros n Hn. destruct (mean_some n Hn) as [m M]. destruct (col_some n Hn) as [k K]. destruct (join_dec d n) as [J|J].
  - destruct (own_dec n Hn) as [O|[p D]]; [exists (m, k); apply p_join; assumption|]. destruct (branch_some p n D) as [r R].
    exists (if Z.eqb r 0 then m else r, k). eapply p_skip; eauto.
  - destruct (preds_of d Co AL Sg s Ps n Hn) as [l L]. destruct l as [|p l].
    + set (fs := filter (firstb d) order).
      assert (Lf : lists (first_node d) fs).
      { split; [apply NoDup_filter; exact Ns|]. intro x. unfold fs. rewrite filter_In. split.
        - intros [A B]. apply (firstb_iff d Co); [apply (s_node d Co AL s Ps); exact A|exact B].
        - intros F. split; [apply (s_node d Co AL s Ps), F|]. apply (firstb_iff d Co); [apply F|exact F]. }
      assert (Hf : In n fs). { apply Lf. split; [exact Hn|]. intros p G. apply L in G. contradiction. }
      destruct (In_nth_error _ _ Hf) as [i Ei]. eexists. eapply p_start; eauto. apply same_order_filter. exact Ns.
    + assert (G : goes d p n) by (apply L; left; reflexivity). destruct (split_dec d p) as [S|S].
      * destruct (branch_some p n (conj S G)) as [r R]. eexists. eapply p_branch; [exact J|exact (conj S G)|exact R|reflexivity].
      * eexists. eapply p_step; eauto.
Qed.
End Pos.

(** * A place depends on the nodes drawn before *)
Section Ext.
Variables (pos pos' : string -> Z * Z) (n : string).
Hypothesis E : forall x, before sq x n -> pos' x = pos x.
Lemma mean_ext : forall m r, m = n \/ before sq m n -> mean_row d sq pos m r -> mean_row d sq pos' m r.
Proof using E Dr.
  intros m r B (l & l1 & A & C & ->). exists l, l1. split; [exact A|]. split; [exact C|]. f_equal. f_equal. apply map_same.
  intros x Hx. apply C in Hx. rewrite E; [reflexivity|]. destruct B as [->|B]; [apply Hx|eapply before_trans; [apply sq_nodup|apply Hx|exact B]].
Qed.
Lemma col_ext : forall r, next_col d sq pos n r -> next_col d sq pos' n r.
Proof using E Dr.
  intros r (l1 & C & ->). exists l1. split; [exact C|]. f_equal. f_equal. apply map_same. intros x Hx. apply C in Hx. rewrite E; [reflexivity|apply Hx].
Qed.
Lemma spread_ext : forall p r, before sq p n -> spread_row d sq pos p r -> spread_row d sq pos' p r.
Proof using E Dr.
  intros p r B [J M|q J D ->|J O ->].
  - apply sr_join; [exact J|]. apply mean_ext; auto.
  - eapply sr_inner; [exact J|exact D|]. rewrite E; [reflexivity|]. eapply before_trans; [apply sq_nodup|apply draws_before; exact D|exact B].
  - apply sr_own; [exact J|exact O|]. rewrite E; [reflexivity|exact B].
Qed.
Lemma branch_ext : forall r, branch_row d order sq pos n r -> branch_row d order sq pos' n r.
Proof using E Dr.
  intros r (p & l & i & o & row & D & L & O & X & S & F & ->). exists p, l, i, o, row. split; [exact D|]. split; [exact L|]. split; [exact O|]. split; [exact X|].
  split; [apply spread_ext; [apply draws_before; exact D|exact S]|]. auto.
Qed.
Lemma placed_ext : forall c, placed_at d order sq pos n c -> placed_at d order sq pos' n c.
Proof using E Co AL Sg Ps Oj Dr.
  intros c [fs i A B C ->|p A B C ->|p r A B C ->|A B C D|r m A B C D F].
  - eapply p_start; eauto.
  - eapply p_step; eauto. rewrite E; [reflexivity|]. apply (dr_order _ _ _ Dr); [|apply Oj; assumption].
    split; [apply (goes_nodes d p n B)|]. intros q [S G]. rewrite (pred_one n q p A G B) in S. contradiction.
  - eapply p_branch; [exact A|exact B|apply branch_ext; exact C|]. rewrite E; [reflexivity|apply draws_before; exact B].
  - apply p_join; auto; [apply mean_ext; auto|apply col_ext; auto].
  - apply p_skip with (r := r) (m := m); auto; [apply branch_ext; auto|apply mean_ext; auto|apply col_ext; auto].
Qed.
End Ext.

(** * There is exactly one plan *)
Theorem draw_unique : forall pos pos', layout_plan d order sq pos -> layout_plan d order sq pos' -> forall n, is_node d n -> pos' n = pos n.
Proof using Co AL Sg Ps Ns Oj Dr.
  intros pos pos' P P'. assert (G : forall k i n, i < k -> nth_error sq i = Some n -> pos' n = pos n).
  { induction k as [|k IH]; intros i n L X; [lia|]. assert (Hn : is_node d n) by (apply sq_node; eapply nth_error_In; eauto).
    symmetry. apply (placed_fun pos' n); [|apply P'; exact Hn]. apply (placed_ext pos); [|apply P; exact Hn].
    intros x (a & b & Lab & A & B). assert (b = i) by (apply (proj1 (NoDup_nth_error _) sq_nodup); [apply nth_error_Some; congruence|congruence]). subst b.
    apply (IH a); [lia|exact A]. }
  intros n Hn. apply sq_node in Hn. destruct (In_nth_error _ _ Hn) as [i X]. apply (G (S i) i); auto.
Qed.
Theorem draw_exists : exists pos, layout_plan d order sq pos.
Proof using Co AL Sg Ps Ns Oj Dr.
  assert (G : forall u v, sq = u ++ v -> exists pos, forall n, In n u -> placed_at d order sq pos n (pos n)).
  { induction u as [|n u IH] using rev_ind; intros v X; [exists (fun _ => (0, 0)%Z); intros n []|].
    rewrite <- app_assoc in X. cbn [app] in X. destruct (IH (n :: v) X) as [pos P].
    assert (Nd : NoDup (u ++ n :: v)) by (rewrite <- X; exact sq_nodup).
    assert (Hn : is_node d n) by (apply sq_node; rewrite X; apply in_or_app; right; left; reflexivity).
    destruct (placed_some pos n Hn) as [c C]. set (pos' := fun x => if String.eqb x n then c else pos x).
    assert (Eo : forall x, x <> n -> pos' x = pos x) by (intros x Ne; unfold pos'; rewrite (eqb_neq' x n) by exact Ne; reflexivity).
    assert (E0 : pos' n = c) by (unfold pos'; rewrite String.eqb_refl; reflexivity).
    assert (Xn : ~ In n u) by (intro C'; apply NoDup_remove_2 in Nd; apply Nd; apply in_or_app; left; exact C').
    exists pos'. intros x Hx. apply in_app_or in Hx. destruct Hx as [Hx|[<-|[]]].
    - rewrite Eo by (intros ->; contradiction). apply (placed_ext pos); [|apply P; exact Hx].
      intros y B. apply Eo. intros ->. destruct (in_split _ _ Hx) as (a & b & Eu).
      rewrite X, Eu, <- app_assoc in B. cbn [app] in B. apply before_prefix in B; [|rewrite X, Eu, <- app_assoc in Nd || rewrite Eu, <- app_assoc in Nd; exact Nd].
      apply Xn. rewrite Eu. apply in_or_app. left. exact B.
    - rewrite E0. apply (placed_ext pos); [|exact C]. intros y B. apply Eo. intros ->. exact (before_irrefl _ _ sq_nodup B). }
  destruct (G sq []) as [pos P]; [rewrite app_nil_r; reflexivity|]. exists pos. intros n Hn. apply P, sq_node, Hn.
Qed.
End Draw.
