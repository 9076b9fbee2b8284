(** C96: exactly which diagrams are laid out, and where, without any restriction on how splits
    and joins follow each other. *)
From Coq Require Import String List Bool Arith ZArith Lia Permutation.
From Verif Require Import Py PyFacts Consts Nx NxFacts Rep SpecRep RepFacts MetricsFacts Classify Layouter
  SpecLayout ClassifyFacts TopoFacts GridFacts LayoutFacts LayoutFacts2 Prop_Layout Prop_LayoutMetrics Prop_Splits
  SpecBlocks SpecFlat SpecPlan PlanFacts PlanBlocks SpecCells CellFacts CellPlan Prop_Cells SpecDraw DrawFacts DrawRun DrawBack DrawTree.
Import ListNotations.
Open Scope string_scope.
Open Scope list_scope.

(** The sequence is determined by the order. *)
Lemma dw_fun : forall d o, NoDup o -> forall k n l l', length l <= k -> drawn_with d o n l -> drawn_with d o n l' -> l = l'.
Proof.
  intros d o No. induction k as [|k IH]; intros n l l' L H H'.
  - destruct (dw_head _ _ _ _ H) as [t ->]. cbn in L. lia.
  - inversion H as [n1 Nn E1 E2|n1 ks ls Sn Lk Ok F E1 E2]; subst n1 l; inversion H' as [n2 Nn' E1' E2'|n2 ks' ls' Sn' Lk' Ok' F' E1' E2']; subst n2 l'; try contradiction; [reflexivity|].
    assert (ks = ks') by (exact (lists_eq o _ _ _ No Lk Lk' Ok Ok')). subst ks'. f_equal. f_equal. cbn [length] in L.
    assert (Le : length (concat ls) <= k) by lia. clear - IH F F' Le.
    revert ls' F'. induction F as [|n l ks ls W F IHF]; intros ls' F'; inversion F' as [|q1 l2 q2 ls2 W' F2]; subst; [reflexivity|].
    cbn [concat] in Le. rewrite app_length in Le. f_equal; [apply (IH n); [lia|exact W|exact W']|apply IHF; [lia|exact F2]].
Qed.
Lemma drawing_fun : forall d o, NoDup o -> forall q q', drawing d o q -> drawing d o q' -> q = q'.
Proof.
  intros d o No q q' D D'. destruct (dr_turns _ _ _ D) as (hs & ls & Lh & Oh & F & ->). destruct (dr_turns _ _ _ D') as (hs' & ls' & Lh' & Oh' & F' & ->).
  assert (hs = hs') by (exact (lists_eq o _ _ _ No Lh Lh' Oh Oh')). subst hs'. f_equal. clear - F F' No.
  revert ls' F'. induction F as [|n l ks ls W F IHF]; intros ls' F'; inversion F' as [|q1 l2 q2 ls2 W' F2]; subst; [reflexivity|].
  f_equal; [exact (dw_fun d o No (length l) n l l2 (le_n _) W W')|apply IHF; exact F2].
Qed.

(** A diagram that is laid out has no two flows between the same nodes, and no node after two splits. *)
Lemma laid_single : forall fuel d d', coherent d -> generate_layout fuel d = (d', Ok tt) -> single_flows d.
Proof.
  intros fuel d d' Co H f g x y F G. destruct (split_dec d x) as [Sx|Sx]; [exact (C89_one_split fuel d d' f g x x y Co H Sx Sx F G)|].
  destruct F as [Hf _], G as [Hg _]. unfold split_node in Sx. destruct (outgoing_of d x) as [|a [|b l]]; cbn in *; try tauto; [|lia].
  destruct Hf as [<-|[]], Hg as [<-|[]]. reflexivity.
Qed.
Lemma laid_one : forall fuel d d', coherent d -> generate_layout fuel d = (d', Ok tt) -> forall p q n, draws d p n -> draws d q n -> p = q.
Proof.
  intros fuel d d' Co H p q n [Sp [f F]] [Sq [g G]]. pose proof (C89_one_split fuel d d' f g p q n Co H Sp Sq F G). subst g.
  destruct F as [_ [_ F]], G as [_ [_ G]]. apply (goes_fun d _ _ _ _ _ F G).
Qed.

Lemma clash_dec : forall (l : list string) (pos : string -> Z * Z),
  (exists a b, In a l /\ In b l /\ a <> b /\ pos a = pos b) \/ forall a b, In a l -> In b l -> pos a = pos b -> a = b.
Proof.
  intros l pos.
  assert (G : forall a m, (exists b, In b m /\ a <> b /\ pos a = pos b) \/ forall b, In b m -> pos a = pos b -> a = b).
  { intros a. induction m as [|b m IH]; [right; intros b []|]. destruct IH as [(b' & A & B)|IH]; [left; exists b'; split; [right; exact A|exact B]|].
    destruct (string_dec a b) as [Eab|Ne]; [right; intros b' [<-|Hb]; auto|].
    destruct (pos a) as [r c] eqn:Ea, (pos b) as [r' c'] eqn:Eb. destruct (Z.eq_dec r r') as [->|Nr]; [destruct (Z.eq_dec c c') as [->|Nc]|].
    - left. exists b. split; [left; reflexivity|]. split; [exact Ne|]. symmetry. exact Eb.
    - right. intros b' [<-|Hb] E; [rewrite Eb in E; congruence|exact (IH b' Hb E)].
    - right. intros b' [<-|Hb] E; [rewrite Eb in E; congruence|exact (IH b' Hb E)]. }
  assert (K : forall m, (exists a b, In a m /\ In b l /\ a <> b /\ pos a = pos b) \/ forall a b, In a m -> In b l -> pos a = pos b -> a = b).
  { induction m as [|a m IH]; [right; intros a b []|]. destruct IH as [(x & y & A & B)|IH]; [left; exists x, y; split; [right; exact A|exact B]|].
    destruct (G a l) as [(b & A & B)|H]; [left; exists a, b; split; [left; reflexivity|]; split; assumption|].
    right. intros x y [<-|Hx] Hy E; [exact (H y Hy E)|exact (IH x y Hx Hy E)]. }
  exact (K l).
Qed.
(** The outcome of the layout.  There is an order of the nodes which determines the sequence in
    which the nodes are drawn, if there is one, and the place of every node.  The diagram is laid
    out if and only if no two flows connect the same nodes, there is such a sequence, and the
    plan gives no cell to two nodes; then every node is where the plan says.  If two nodes need
    the same cell, TypeError is raised.  Whatever is raised, nothing is changed. *)
Theorem C96_outcome : forall d fuel, coherent d -> all_laid_out d -> gwf (dgraph d) -> drawable d -> loops_joined d -> sort_bound d <= fuel ->
  exists order, layout_order d order /\ (acyclic d -> forall x y, goes d x y -> before order x y) /\
    (forall seq seq', drawing d order seq -> drawing d order seq' -> seq = seq') /\
    (single_flows d -> forall seq, drawing d order seq -> exists pos, layout_plan d order seq pos /\
      forall pos', layout_plan d order seq pos' -> forall n, is_node d n -> pos' n = pos n) /\
    ((exists d', generate_layout fuel d = (d', Ok tt)) <->
     (single_flows d /\ exists seq pos, drawing d order seq /\ layout_plan d order seq pos /\ one_cell_each d pos)) /\
    (forall d' seq pos, generate_layout fuel d = (d', Ok tt) -> drawing d order seq -> layout_plan d order seq pos ->
       forall n, is_node d n -> in_cell d' n (fst (pos n)) (snd (pos n))) /\
    (forall seq pos a b, single_flows d -> drawing d order seq -> layout_plan d order seq pos ->
       is_node d a -> is_node d b -> a <> b -> pos a = pos b -> generate_layout fuel d = (d, Err TypeError)) /\
    (forall d' e, generate_layout fuel d = (d', Err e) -> d' = d).
Proof.
  intros d fuel Co AL W Dr Lj F.
  destruct (proj1 (C27_terminates_iff d Co AL) Lj fuel F) as [s [b Es]]. pose proof Es as Es'.
  pose proof Co as [L _]. rewrite (elements_eq d L) in Es. cbn [rbind] in Es.
  pose proof (topo_ok d Co AL fuel s b Es) as I. destruct (final_facts d Co AL s b I) as [Ps [Ns [Os Ob]]].
  assert (Oj : forall x y, goes d x y -> ~ join_node d y -> before (map cid s) x y).
  { intros x y [f G] J. apply (Os f x y G). intro Hb. destruct (Ob f Hb) as [n [m [[_ [_ F1]] J']]]. destruct G as [_ [_ F2]].
    destruct (goes_fun d _ _ _ _ _ F1 F2) as [_ ->]. contradiction. }
  assert (Lf : length (map cid s) <= fuel).
  { rewrite map_length, (Permutation_length Ps). change (orig d) with (classified d). unfold sort_bound in F. lia. }
  assert (Run : forall seq pos, single_flows d -> drawing d (map cid s) seq -> layout_plan d (map cid s) seq pos ->
    (exists d', generate_layout fuel d = (d', Ok tt) /\ forall n, is_node d n -> in_cell d' n (fst (pos n)) (snd (pos n))) \/
    ((exists a b, is_node d a /\ is_node d b /\ a <> b /\ pos a = pos b) /\ generate_layout fuel d = (d, Err TypeError))).
  { intros seq pos Sg D P. destruct (draw_or d Co AL Sg s Ps Ns Oj seq D pos P fuel Lf) as [Eg|[Eg C]].
    - left. destruct (C90_only_the_grid_fails d fuel s b _ Co AL W Dr Es' Eg) as [d' Ed]. exists d'. split; [exact Ed|].
      destruct (layout_facts _ d d' Co Ed) as [_ [s' [b' [g [d1 [A1 [_ [A3 [_ [Ng [_ [_ [A8 _]]]]]]]]]]]]].
      rewrite Es in A1. injection A1 as <- <-. rewrite Eg in A3. injection A3 as <-.
      intros n Hn. destruct (A8 n Hn) as [c [_ [_ [Gc [_ At]]]]]. rewrite gfind_plan in Gc by (apply (sq_node d s seq D); exact Hn). injection Gc as <-.
      cbn [ccol crow cellof] in At. unfold in_cell. rewrite (Z.mul_comm 150), (Z.mul_comm 100). exact At.
    - right. split; [exact C|]. apply (layout_raises fuel d (classified d) s b); [apply elements_eq; exact L|exact Es|exact Eg]. }
  exists (map cid s). split; [split; [split; [exact Ns|intro n; symmetry; apply (s_node d Co AL s Ps)]|exact Oj]|].
  split; [intros Ac x y [f G]; apply (Os f x y G); assert (Eb : b = []) by (eapply loop_acyclic; eauto; apply inv_init; auto); rewrite Eb; intros []|].
  split; [exact (drawing_fun d (map cid s) Ns)|].
  split; [intros Sg seq D; destruct (draw_exists d Co AL Sg s Ps Ns Oj seq D) as [pos P]; exists pos; split; [exact P|];
          intros pos' P'; exact (draw_unique d Co AL Sg s Ps Ns Oj seq D pos pos' P P')|].
  split; [split|split; [|split]].
  - intros [d' Ed]. pose proof (laid_single fuel d d' Co Ed) as Sg. split; [exact Sg|].
    destruct (layout_facts _ d d' Co Ed) as [_ [s' [b' [g [d1 [A1 [_ [A3 [_ [Ng [_ [Pg _]]]]]]]]]]]]. rewrite Es in A1. injection A1 as <- <-.
    pose proof (back_drawing d Co AL Sg s Ps Ns fuel g A3 Pg (laid_one fuel d d' Co Ed)) as D.
    destruct (draw_exists d Co AL Sg s Ps Ns Oj _ D) as [pos P]. exists (map cnid g), pos. split; [exact D|]. split; [exact P|].
    destruct (Run _ pos Sg D P) as [(d2 & Ed2 & Cell)|[_ E]]; [|congruence]. rewrite Ed in Ed2. injection Ed2 as <-.
    intros x y Hx Hy E. pose proof (Cell x Hx) as Cx. rewrite E in Cx. exact (C28_no_overlap fuel d d' x y _ _ Co Ed Hx Hy Cx (Cell y Hy)).
  - intros [Sg (seq & pos & D & P & O)]. destruct (Run seq pos Sg D P) as [(d' & Ed & _)|[(x & y & Hx & Hy & Ne & E) _]]; [exists d'; exact Ed|].
    exfalso. apply Ne. exact (O x y Hx Hy E).
  - intros d' seq pos Ed D P. destruct (Run seq pos (laid_single fuel d d' Co Ed) D P) as [(d2 & Ed2 & Cell)|[_ E]]; [|congruence].
    rewrite Ed in Ed2. injection Ed2 as <-. exact Cell.
  - intros seq pos x y Sg D P Hx Hy Ne E. destruct (Run seq pos Sg D P) as [(d' & Ed & Cell)|[_ E']]; [|exact E'].
    exfalso. apply Ne. pose proof (Cell x Hx) as Cx. rewrite E in Cx. exact (C28_no_overlap fuel d d' x y _ _ Co Ed Hx Hy Cx (Cell y Hy)).
  - intros d' e Ed. destruct (grid_layout fuel d s) as [g|e'] eqn:Eg.
    + destruct (C90_only_the_grid_fails d fuel s b g Co AL W Dr Es' Eg) as [d2 Ed2]. congruence.
    + rewrite (layout_raises fuel d (classified d) s b e' (elements_eq d L) Es Eg) in Ed. congruence.
Qed.

(** * Diagrams without loops *)
(** No node comes right after two splits. *)
Definition one_split_before (d : diagram) : Prop := forall p q n, split_node d p -> split_node d q -> goes d p n -> goes d q n -> p = q.
(** Without loops there always is such a sequence, unless a node comes right after two splits. *)
Theorem C96_acyclic : forall d fuel, coherent d -> all_laid_out d -> gwf (dgraph d) -> drawable d -> acyclic d -> sort_bound d <= fuel ->
  exists order, lists (is_node d) order /\ (forall x y, goes d x y -> before order x y) /\
    (single_flows d -> one_split_before d -> exists seq pos, drawing d order seq /\ layout_plan d order seq pos /\
       ((one_cell_each d pos /\ exists d', generate_layout fuel d = (d', Ok tt) /\ forall n, is_node d n -> in_cell d' n (fst (pos n)) (snd (pos n))) \/
        ((exists a b, is_node d a /\ is_node d b /\ a <> b /\ pos a = pos b) /\ generate_layout fuel d = (d, Err TypeError)))) /\
    (~ (single_flows d /\ one_split_before d) -> exists e, generate_layout fuel d = (d, Err e)).
Proof.
  intros d fuel Co AL W Dr Ac F. assert (Lj : loops_joined d) by (intros l C; exfalso; exact (Ac l C)).
  destruct (C96_outcome d fuel Co AL W Dr Lj F) as (order & Lo & Oa & _ & Un & [Acc Suf] & Cell & Cl & Un').
  exists order. split; [apply Lo|]. split; [exact (Oa Ac)|]. split.
  - intros Sg One. destruct (drawing_exists d Co AL Sg order (proj1 Lo) (Oa Ac)) as [seq D]; [intros p q n [A B] [A' B']; exact (One p q n A A' B B')|].
    destruct (Un Sg seq D) as (pos & P & U). exists seq, pos. split; [exact D|]. split; [exact P|].
    destruct (generate_layout fuel d) as [d' [[]|e]] eqn:Ed.
    + left. split; [|exists d'; split; [reflexivity|exact (Cell d' seq pos eq_refl D P)]].
      intros a b Ha Hb E. pose proof (Cell d' seq pos eq_refl D P a Ha) as Ca. rewrite E in Ca.
      exact (C28_no_overlap fuel d d' a b _ _ Co Ed Ha Hb Ca (Cell d' seq pos eq_refl D P b Hb)).
    + right. assert (X : (exists a b, is_node d a /\ is_node d b /\ a <> b /\ pos a = pos b) \/ one_cell_each d pos).
      { destruct (clash_dec order pos) as [(a & b & Ha & Hb & Ne & E)|O].
        - left. exists a, b. split; [apply Lo; exact Ha|]. split; [apply Lo; exact Hb|]. split; assumption.
        - right. intros a b Ha Hb. apply O; apply Lo; assumption. }
      destruct X as [(a & b & Ha & Hb & Ne & E)|O].
      * split; [exists a, b; auto|]. exact (Cl seq pos a b Sg D P Ha Hb Ne E).
      * exfalso. destruct Suf as [d2 E2]; [split; [exact Sg|exists seq, pos; auto]|]. congruence.
  - intros No. destruct (generate_layout fuel d) as [d' [[]|e]] eqn:Ed.
    + exfalso. apply No. split; [exact (laid_single fuel d d' Co Ed)|]. intros p q n A A' B B'. exact (laid_one fuel d d' Co Ed p q n (conj A B) (conj A' B')).
    + exists e. f_equal. exact (Un' d' e eq_refl).
Qed.

(** * A branch that skips some steps *)
Section Skip.
Variables (d : diagram) (order sq : list string) (pos : string -> Z * Z).
Hypothesis Lo : layout_order d order.
Hypothesis Dr : drawing d order sq.
Hypothesis P : layout_plan d order sq pos.
Let Nd : NoDup sq := proj1 (dr_all _ _ _ Dr).
Lemma draws_then : forall p n, draws d p n -> before sq p n.
Proof using Dr.
  intros p n D. destruct (dr_turns _ _ _ Dr) as (hs & ls & Lh & Oh & F & E). assert (Hp : In p sq) by (apply (dr_all _ _ _ Dr), (goes_nodes d p n (proj2 D))).
  rewrite E in Hp |- *. apply in_concat in Hp. destruct Hp as [l [Hl Hp]]. destruct (Forall2_in_r _ _ _ _ _ l F Hl) as [m [_ W]].
  apply (before_concat ls l); [exact Hl|]. exact (dw_children d order (length l) m l (le_n _) W p n Hp D).
Qed.
Lemma step_own : forall p n, ~ join_node d n -> goes d p n -> ~ split_node d p -> own_turn d n.
Proof using. intros p n J G Sp. split; [apply (goes_nodes d p n G)|]. intros q [Sq Gq]. rewrite (not_join_one d n q p J Gq G) in Sq. contradiction. Qed.
Lemma cols_pos : forall n, is_node d n -> (1 <= snd (pos n))%Z.
Proof using Lo Dr P.
  assert (G : forall i n, nth_error sq i = Some n -> (1 <= snd (pos n))%Z).
  { induction i as [i IH] using lt_wf_ind. intros n E. assert (Hn : is_node d n) by (apply (dr_all _ _ _ Dr); eapply nth_error_In; eauto).
    assert (Bf : forall p, before sq p n -> (1 <= snd (pos p))%Z).
    { intros p (a & c & Lac & A & C). assert (c = i) by (apply (proj1 (NoDup_nth_error _) Nd); [apply nth_error_Some; congruence|congruence]). subst c. exact (IH a Lac p A). }
    assert (Max : forall k, next_col d sq pos n k -> (1 <= k)%Z).
    { intros k (l1 & _ & ->). clear. assert (0 <= fold_right Z.max 0 (map (fun p => snd (pos p)) l1))%Z by (induction l1; cbn [map fold_right]; lia). lia. }
    destruct (P n Hn) as [fs j A B C Ep|p A B C Ep|p r A B C Ep|A B C K|r m A B C K1 K]; try (apply Max; exact K).
    - rewrite Ep. cbn [snd]. lia.
    - rewrite Ep. cbn [snd]. assert (1 <= snd (pos p))%Z; [|lia]. apply Bf. apply (dr_order _ _ _ Dr); [exact (step_own p n A B C)|]. apply Lo; assumption.
    - rewrite Ep. cbn [snd]. assert (1 <= snd (pos p))%Z; [|lia]. apply Bf. apply draws_then. exact B. }
  intros n Hn. apply (dr_all _ _ _ Dr) in Hn. destruct (In_nth_error _ _ Hn) as [i E]. exact (G i n E).
Qed.
Lemma step_col : forall x y, goes d x y -> ~ join_node d y -> snd (pos y) = (snd (pos x) + 1)%Z.
Proof using P.
  intros x y G J. assert (Ny : is_node d y) by (apply (goes_nodes d x y G)).
  destruct (P y Ny) as [fs j A B C Ep|p A B C Ep|p r A B C Ep|A B C K|r m A B C K1 K]; try contradiction.
  - exfalso. apply nth_error_In in C. apply A in C. exact (proj2 C x G).
  - rewrite Ep, (not_join_one d y x p J G B). reflexivity.
  - rewrite Ep, (not_join_one d y x p J G (proj2 B)). reflexivity.
Qed.
Lemma steps_col : forall k x y, steps d k x y -> snd (pos y) = (snd (pos x) + Z.of_nat k)%Z.
Proof using P.
  intros k x y H. induction H as [x|k x y z G Sx J H IH]; [lia|]. rewrite IH, (step_col x y G J). lia.
Qed.
(** The nodes drawn by a split are drawn before any later turn. *)
Lemma drawn_first : forall g j h, draws d g j -> own_turn d h -> before sq g h -> before sq j h.
Proof using Dr.
  intros g j h D Oh B. destruct (dr_turns _ _ _ Dr) as (hs & ls & Lh & Os & F & E). apply Lh in Oh.
  destruct (Forall2_in_l _ _ _ _ _ h F Oh) as [l [Hl W]]. destruct (dw_head _ _ _ _ W) as [t Et].
  apply in_split in Hl. destruct Hl as (ls1 & ls2 & El). assert (Es : sq = concat ls1 ++ h :: (t ++ concat ls2)).
  { rewrite E, El, concat_app, Et. cbn [concat]. rewrite <- app_comm_cons. reflexivity. }
  assert (Nd' : NoDup (concat ls1 ++ h :: (t ++ concat ls2))) by (rewrite <- Es; exact Nd).
  rewrite Es in B |- *. apply before_prefix in B; [|exact Nd']. apply before_prefix; [exact Nd'|].
  apply in_concat in B. destruct B as [l1 [Hl1 Hg]]. assert (Hi : In l1 ls) by (rewrite El; apply in_or_app; left; exact Hl1).
  destruct (Forall2_in_r _ _ _ _ _ l1 F Hi) as [m [_ W1]]. destruct (dw_children d order (length l1) m l1 (le_n _) W1 g j Hg D) as (a & c & _ & _ & C).
  apply in_concat. exists l1. split; [exact Hl1|eapply nth_error_In; eauto].
Qed.
Lemma skip_cols : forall g a b j k, split_node d g -> goes d g j -> goes d g a -> ~ join_node d a -> steps d (S k) a b ->
  lists (fun p => goes d p j) [g; b] -> snd (pos j) = (snd (pos g) + 1)%Z /\ snd (pos b) = (snd (pos g) + 2 + Z.of_nat k)%Z.
Proof using Lo Dr P.
  intros g a b j k Sg Gj Ga Ja St Lj.
  assert (Ord : forall m x y, steps d m x y -> x = y \/ before order x y).
  { intros m x y H. induction H as [x|m x y z G Sx J H IH]; [left; reflexivity|]. right. assert (B : before order x y) by (apply Lo; assumption).
    destruct IH as [<-|IH]; [exact B|]. exact (before_trans order x y z (proj1 (proj1 Lo)) B IH). }
  destruct (steps_last d k a b St) as (z & Gz & Sz & Jb).
  assert (Ob : own_turn d b) by (exact (step_own z b Jb Gz Sz)).
  assert (Bgb : before order g b).
  { assert (B : before order g a) by (apply Lo; assumption). destruct (Ord _ _ _ St) as [<-|B']; [exact B|]. exact (before_trans order g a b (proj1 (proj1 Lo)) B B'). }
  assert (Bs : before sq j b) by (apply (drawn_first g j b); [split; assumption|exact Ob|apply (dr_order _ _ _ Dr); assumption]).
  assert (Bg : before sq g j) by (apply draws_then; split; assumption).
  assert (Jj : join_node d j).
  { destruct (two_ne _ _ _ _ Lj) as (G1 & G2 & Ne). exact (join_two d j g b G1 G2 Ne). }
  assert (L1 : lists (fun p => goes d p j /\ before sq p j) [g]).
  { split; [constructor; [intros []|constructor]|]. intro x. split.
    - intros [<-|[]]. split; assumption.
    - intros [Gx Bx]. apply Lj in Gx. destruct Gx as [<-|[<-|[]]]; [left; reflexivity|]. exfalso. exact (before_asym _ _ _ Nd Bs Bx). }
  assert (Col : forall c, next_col d sq pos j c -> c = (snd (pos g) + 1)%Z).
  { intros c (l1 & L1' & ->). pose proof (lists_perm _ _ _ L1 L1') as Pm. apply Permutation_length_1_inv in Pm. subst l1. cbn [map fold_right].
    pose proof (cols_pos g (proj1 (goes_nodes d g j Gj))). lia. }
  split.
  - assert (Nj : is_node d j) by (apply (goes_nodes d g j Gj)).
    destruct (P j Nj) as [fs i A B C Ep|p A B C Ep|p r A B C Ep|A B C K|r m A B C K1 K]; try contradiction; try (apply Col; exact K).
    exfalso. apply nth_error_In in C. apply A in C. exact (proj2 C g Gj).
  - rewrite (steps_col (S k) a b St), (step_col g a Ga Ja). lia.
Qed.
End Skip.

(** A decision with one flow directly to the node where the branches meet, and a branch of two or
    more steps.  If the diagram is laid out, that node is drawn right after the decision, and the
    last step of the branch to the right of it: the flow between them leads to the left. *)
Theorem C96_skipping_branch : forall d d' fuel g a b j k row col, coherent d -> gwf (dgraph d) -> drawable d -> loops_joined d -> sort_bound d <= fuel ->
  goes d g j -> goes d g a -> a <> j -> ~ join_node d a -> steps d (S k) a b -> lists (fun p => goes d p j) [g; b] ->
  generate_layout fuel d = (d', Ok tt) -> in_cell d' g row col ->
  exists r r', in_cell d' j r (col + 1) /\ in_cell d' b r' (col + 2 + Z.of_nat k).
Proof.
  intros d d' fuel g a b j k row col Co W Dr Lj F Gj Ga Ne Ja St Lp Ed Cg.
  pose proof (C29_only_classified_types fuel d d' Co Ed) as AL.
  destruct (C96_outcome d fuel Co AL W Dr Lj F) as (order & Lo & _ & _ & _ & [Acc _] & Cell & _ & _).
  destruct (Acc (ex_intro _ d' Ed)) as [Sg (seq & pos & D & P & O)]. specialize (Cell d' seq pos Ed D P).
  destruct (skip_cols d order seq pos Lo D P g a b j k (split_two d g a j Ga Gj Ne) Gj Ga Ja St Lp) as [E1 E2].
  assert (Ec : snd (pos g) = col).
  { pose proof (Cell g (proj1 (goes_nodes d g j Gj))) as C. unfold in_cell, at_xy in *. destruct C as [X _], Cg as [X' _]. rewrite X in X'. apply vstr_inj in X'. lia. }
  exists (fst (pos j)), (fst (pos b)). rewrite <- Ec, <- E1, <- E2. split; apply Cell; [apply (goes_nodes d g j Gj)|].
  assert (Gb : goes d b j) by (apply Lp; right; left; reflexivity). apply (goes_nodes d b j Gb).
Qed.

(** * Examples *)
(** All flows lead on in the order [o] or into a join. *)
Definition order_b (o : list string) (d : diagram) : bool :=
  forallb (fun p => Nat.ltb (place_in o (fl_src (snd p))) (place_in o (fl_tgt (snd p))) || join_b d (fl_tgt (snd p))) (seq_flows d).
Lemma api_order : forall l d o, history l d -> distinct_pairs d -> order_b o d = true ->
  coherent d /\ all_laid_out d /\ gwf (dgraph d) /\ drawable d /\ loops_joined d.
Proof.
  intros l d o H P C. destruct (C26_api_diagrams_coherent l d H P) as [Co [AL [W [Dr _]]]].
  split; [exact Co|]. split; [exact AL|]. split; [exact W|]. split; [exact Dr|]. unfold order_b in C. rewrite forallb_forall in C.
  intros c [n Cy]. destruct (lists_dec_join d c) as [X|X]; [exact X|]. exfalso.
  assert (U : forall f a b, flow d f a b -> place_in o a < place_in o b \/ join_node d b).
  { intros f a b F. destruct (only_flow l d f a b H P F) as (r & I & <- & <-). specialize (C _ I). cbn [snd] in C.
    apply orb_true_iff in C. destruct C as [C|C]; [left; apply Nat.ltb_lt; exact C|right; apply Nat.leb_le; exact C]. }
  pose proof (path_up d o U n c n Cy (X n (path_head _ _ _ _ Cy)) X). lia.
Qed.
(** A node after two decisions: no sequence draws it once, and the layout fails. *)
Definition shared_ops : list op :=
  [ONew "m" "0"; OExclusive "id2" "g" "Diverging" None (Some "g") ""; OExclusive "id2" "h" "Diverging" None (Some "h") "";
   OTask "id2" "a" (Some "a") ""; OTask "id2" "b" (Some "b") ""; OExclusive "id2" "j" "Converging" None (Some "j") "";
   OFlow "id2" "g" "h" "" "10"; OFlow "id2" "g" "j" "" "11"; OFlow "id2" "h" "a" "" "12"; OFlow "id2" "h" "j" "" "13"; OFlow "id2" "j" "b" "" "14"].
Definition shared : diagram := run empty_diagram shared_ops.
Example C96_outcome_example :
  (coherent detour /\ all_laid_out detour /\ gwf (dgraph detour) /\ drawable detour /\ loops_joined detour) /\ sort_bound detour <= 60 /\
  (exists d', generate_layout 60 detour = (d', Ok tt)) /\
  (coherent shared /\ all_laid_out shared /\ gwf (dgraph shared) /\ drawable shared /\ loops_joined shared) /\ sort_bound shared <= 60 /\
  generate_layout 60 shared = (shared, Err ValueError).
Proof.
  split; [apply (api_order detour_ops detour ["s"; "a"; "b"; "j"] detour_history detour_pairs); vm_compute; reflexivity|].
  split; [apply Nat.leb_le; vm_compute; reflexivity|]. split; [eexists; vm_compute; reflexivity|].
  split; [apply (api_order shared_ops shared ["g"; "h"; "a"; "j"; "b"]); [apply checked_history|apply pairs_checked_ok|]; vm_compute; reflexivity|].
  split; [apply Nat.leb_le; vm_compute; reflexivity|]. vm_compute. reflexivity.
Qed.
(** No two flows from different splits into one node. *)
Definition one_split_b (d : diagram) : bool :=
  forallb (fun p => forallb (fun q => negb (String.eqb (fl_tgt (snd p)) (fl_tgt (snd q))) || String.eqb (fl_src (snd p)) (fl_src (snd q)) ||
    negb (split_b d (fl_src (snd p))) || negb (split_b d (fl_src (snd q)))) (seq_flows d)) (seq_flows d).
Lemma api_one_split : forall l d, history l d -> distinct_pairs d -> one_split_b d = true -> single_flows d /\ one_split_before d.
Proof.
  intros l d H P C. split.
  - intros f g x y A B. destruct (C26_api_diagrams_coherent l d H P) as [_ [_ [_ [_ X]]]]. apply X in A. apply X in B.
    destruct A as [r [E1 [A1 A2]]], B as [r' [E2 [B1 B2]]]. apply (P f r g r' E1 E2). left. split; congruence.
  - intros p q n Sp Sq [f F] [g G]. destruct (only_flow l d f p n H P F) as (r & I & Er & Et). destruct (only_flow l d g q n H P G) as (r' & I' & Er' & Et').
    unfold one_split_b in C. rewrite forallb_forall in C. specialize (C _ I). rewrite forallb_forall in C. specialize (C _ I'). cbn [snd] in C.
    rewrite Er, Er', Et, Et', eqb_refl' in C. cbn [negb orb] in C.
    assert (X : split_b d p = true) by (apply Nat.leb_le; exact Sp). assert (Y : split_b d q = true) by (apply Nat.leb_le; exact Sq).
    rewrite X, Y in C. cbn [negb] in C. rewrite !orb_false_r in C. apply String.eqb_eq in C. exact C.
Qed.
Example C96_acyclic_example :
  (coherent detour /\ all_laid_out detour /\ gwf (dgraph detour) /\ drawable detour /\ loops_joined detour) /\ acyclic detour /\ sort_bound detour <= 60 /\
  (single_flows detour /\ one_split_before detour) /\ acyclic shared /\ ~ one_split_before shared.
Proof.
  split; [apply (api_order detour_ops detour ["s"; "a"; "b"; "j"] detour_history detour_pairs); vm_compute; reflexivity|].
  split; [apply (ranked_acyclic _ _ (place_in ["s"; "a"; "b"; "j"]) detour_history); vm_compute; reflexivity|].
  split; [apply Nat.leb_le; vm_compute; reflexivity|].
  split; [apply (api_one_split _ _ detour_history detour_pairs); vm_compute; reflexivity|].
  assert (H : history shared_ops shared) by (apply checked_history; vm_compute; reflexivity).
  assert (P : distinct_pairs shared) by (apply pairs_checked_ok; vm_compute; reflexivity).
  split; [apply (ranked_acyclic _ _ (place_in ["g"; "h"; "a"; "j"; "b"]) H); vm_compute; reflexivity|].
  pose proof (flow_known _ _ "id11" "g" "j" H P ltac:(vm_compute; reflexivity)) as F1.
  pose proof (flow_known _ _ "id13" "h" "j" H P ltac:(vm_compute; reflexivity)) as F2.
  assert (Sg : split_b shared "g" = true) by (vm_compute; reflexivity). assert (Sh : split_b shared "h" = true) by (vm_compute; reflexivity).
  intro O. assert (X : "g" = "h"); [|discriminate]. apply (O "g" "h" "j"); [apply split_b_ok; exact Sg|apply split_b_ok; exact Sh|exists "id11"; exact F1|exists "id13"; exact F2].
Qed.
Example C96_skipping_branch_example : (coherent detour /\ gwf (dgraph detour) /\ drawable detour /\ loops_joined detour /\ sort_bound detour <= 60) /\
  goes detour "s" "j" /\ goes detour "s" "a" /\ ~ join_node detour "a" /\ steps detour 1 "a" "b" /\ lists (fun p => goes detour p "j") ["s"; "b"] /\
  positions 60 detour = Ok [("s", Some (VStr "200"), Some (VStr "250")); ("a", Some (VStr "350"), Some (VStr "450"));
    ("b", Some (VStr "500"), Some (VStr "450")); ("j", Some (VStr "350"), Some (VStr "150"))].
Proof.
  pose proof detour_history as H. pose proof detour_pairs as Pp.
  assert (C : order_b ["s"; "a"; "b"; "j"] detour = true) by (vm_compute; reflexivity).
  destruct (api_order _ _ _ H Pp C) as (Co & AL & W & Dr & Lj).
  assert (Ps : positions 60 detour = Ok [("s", Some (VStr "200"), Some (VStr "250")); ("a", Some (VStr "350"), Some (VStr "450"));
    ("b", Some (VStr "500"), Some (VStr "450")); ("j", Some (VStr "350"), Some (VStr "150"))]) by (vm_compute; reflexivity).
  assert (Bd : Nat.leb (sort_bound detour) 60 = true) by (vm_compute; reflexivity).
  pose proof (flow_known _ _ "id10" "s" "a" H Pp ltac:(vm_compute; reflexivity)) as F0.
  pose proof (flow_known _ _ "id11" "s" "j" H Pp ltac:(vm_compute; reflexivity)) as F1.
  pose proof (flow_known _ _ "id12" "a" "b" H Pp ltac:(vm_compute; reflexivity)) as F2.
  pose proof (flow_known _ _ "id13" "b" "j" H Pp ltac:(vm_compute; reflexivity)) as F3.
  assert (Na : split_b detour "a" = false) by (vm_compute; reflexivity). assert (Ja : join_b detour "a" = false) by (vm_compute; reflexivity).
  assert (Jb : join_b detour "b" = false) by (vm_compute; reflexivity).
  assert (Into : forallb (fun p => negb (String.eqb (fl_tgt (snd p)) "j") || smem (fl_src (snd p)) ["s"; "b"]) (seq_flows detour) = true) by (vm_compute; reflexivity).
  generalize dependent detour. intros d H Pp C Co AL W Dr Lj Ps Bd F0 F1 F2 F3 Na Ja Jb Into.
  split; [split; [exact Co|]; split; [exact W|]; split; [exact Dr|]; split; [exact Lj|apply Nat.leb_le; exact Bd]|].
  split; [exists "id11"; exact F1|]. split; [exists "id10"; exact F0|]. split; [apply join_b_no; exact Ja|].
  split; [apply (st_next d 0 "a" "b" "b"); [exists "id12"; exact F2|apply split_b_no; exact Na|apply join_b_no; exact Jb|apply st_here]|].
  split; [|exact Ps]. split; [repeat constructor; cbn; intuition discriminate|]. intro x. split.
  - intros [<-|[<-|[]]]; [exists "id11"; exact F1|exists "id13"; exact F3].
  - intros [f F]. destruct (only_flow _ _ _ _ _ H Pp F) as (r & I & E & E'). rewrite forallb_forall in Into. specialize (Into _ I). cbn [snd] in Into.
    rewrite E', eqb_refl' in Into. cbn [negb orb] in Into. rewrite <- E. apply smem_In. exact Into.
Qed.

Print Assumptions C96_outcome.
Print Assumptions C96_acyclic.
Print Assumptions C96_skipping_branch.
