(** Without loops the sequence of SpecDraw exists as soon as no node comes after two splits. *)
From Coq Require Import String List Bool Arith ZArith Lia Permutation.
From Verif Require Import Py PyFacts Consts Nx NxFacts Rep SpecRep RepFacts MetricsFacts Classify Layouter
  SpecLayout ClassifyFacts TopoFacts GridFacts LayoutFacts SpecBlocks SpecFlat SpecPlan PlanFacts PlanBlocks SpecCells CellFacts CellPlan SpecDraw DrawFacts.
Import ListNotations.
Open Scope string_scope.
Open Scope list_scope.

(** The elements of a list with a property, in the same order. *)
Lemma select : forall (P : string -> Prop) o, NoDup o -> (forall x, In x o -> P x \/ ~ P x) ->
  exists l, NoDup l /\ same_order o l /\ forall x, In x l <-> In x o /\ P x.
Proof.
  intros P o N D. assert (X : exists p : string -> bool, forall x, In x o -> (p x = true <-> P x)).
  { clear N. induction o as [|a o IH]; [exists (fun _ => true); intros x []|].
    destruct IH as [p Hp]; [intros x Hx; apply D; right; exact Hx|].
    destruct (D a (or_introl eq_refl)) as [Pa|Pa].
    - exists (fun x => String.eqb x a || p x). intros x Hx. destruct (String.eqb_spec x a) as [->|Ne]; [split; auto|].
      destruct Hx as [->|Hx]; [contradiction|]. cbn [orb]. apply Hp. exact Hx.
    - exists (fun x => negb (String.eqb x a) && p x). intros x Hx. destruct (String.eqb_spec x a) as [->|Ne]; [split; [discriminate|contradiction]|].
      destruct Hx as [->|Hx]; [contradiction|]. cbn [negb andb]. apply Hp. exact Hx. }
  destruct X as [p Hp]. exists (filter p o). split; [apply NoDup_filter; exact N|]. split; [apply same_order_filter; exact N|].
  intro x. rewrite filter_In. split; intros [A B]; split; auto; apply (Hp x A); exact B.
Qed.
Lemma order_kept : forall o l x y, NoDup o -> same_order o l -> In x l -> In y l -> before o x y -> before l x y.
Proof.
  intros o l x y N S Hx Hy B. assert (Ne : x <> y) by (intros ->; exact (before_irrefl _ _ N B)).
  destruct (before_total l x y Hx Hy Ne) as [Q|Q]; [exact Q|]. exfalso. exact (before_asym _ _ _ N B (S _ _ Q)).
Qed.
Lemma concat_nodup : forall (R : string -> list string -> Prop) hs ls, Forall2 R hs ls -> NoDup hs -> (forall l, In l ls -> NoDup l) ->
  (forall h l h' l' x, In h hs -> In h' hs -> R h l -> R h' l' -> In x l -> In x l' -> h = h') -> NoDup (concat ls).
Proof.
  intros R hs ls F. induction F as [|h l hs ls W F IH]; intros N Nl D; [constructor|]. cbn [concat]. inv N.
  assert (N2 : NoDup (concat ls)). { apply IH; [assumption|intros l' Hl; apply Nl; right; exact Hl|]. intros h1 l1 h2 l2 x A B. apply D; right; assumption. }
  assert (N1 : NoDup l) by (apply Nl; left; reflexivity).
  assert (Dis : forall x, In x l -> ~ In x (concat ls)).
  { intros x Hx C. apply in_concat in C. destruct C as [l' [Hl Hx']]. destruct (Forall2_in_r _ _ _ _ _ l' F Hl) as [h' [Hh W']].
    assert (h = h') by (apply (D h l h' l' x); auto; [left; reflexivity|right; exact Hh]). subst h'. contradiction. }
  clear - N1 N2 Dis. induction l as [|a l IHl]; [exact N2|]. inv N1. cbn [app]. constructor.
  - intro C. apply in_app_or in C. destruct C as [C|C]; [contradiction|]. apply (Dis a); [left; reflexivity|exact C].
  - apply IHl; [assumption|]. intros x Hx. apply Dis. right. exact Hx.
Qed.
Lemma concat_before : forall (R : string -> list string -> Prop) hs ls, Forall2 R hs ls -> (forall h l, R h l -> In h l) ->
  NoDup hs -> forall r h, before hs r h -> exists l, R r l /\ forall x, In x l -> before (concat ls) x h.
Proof.
  intros R hs ls F Hd. induction F as [|h0 l0 hs ls W F IH]; intros N r h B; [destruct B as (i & j & _ & A & _); destruct i; discriminate|].
  inv N. destruct B as (i & j & L & A & C). destruct j as [|j]; [lia|]. cbn [nth_error] in C.
  assert (Hh : In h hs) by (eapply nth_error_In; eauto). destruct i as [|i]; cbn [nth_error] in A.
  - injection A as ->. exists l0. split; [exact W|]. intros x Hx. destruct (Forall2_in_l _ _ _ _ _ h F Hh) as [l [Hl Wl]].
    assert (Hc : In h (concat ls)) by (apply in_concat; exists l; split; [exact Hl|exact (Hd _ _ Wl)]). cbn [concat].
    destruct (In_nth_error _ _ Hx) as [a Ea], (In_nth_error _ _ Hc) as [b Eb]. assert (La : a < length l0) by (apply nth_error_Some; congruence).
    exists a, (length l0 + b). split; [lia|]. split; [rewrite nth_error_app1 by exact La; exact Ea|].
    rewrite nth_error_app2 by lia. replace (length l0 + b - length l0) with b by lia. exact Eb.
  - destruct (IH H2 r h) as (l & Wl & Bl); [exists i, j; split; [lia|]; split; assumption|]. exists l. split; [exact Wl|].
    intros x Hx. cbn [concat]. apply before_app_r. auto.
Qed.
Lemma forall2_some : forall (R : string -> list string -> Prop) ks, (forall k, In k ks -> exists l, R k l) -> exists ls, Forall2 R ks ls.
Proof.
  induction ks as [|k ks IH]; intro H; [exists []; constructor|]. destruct (H k (or_introl eq_refl)) as [l Hl].
  destruct IH as [ls F]; [intros k' Hk; apply H; right; exact Hk|]. exists (l :: ls). constructor; assumption.
Qed.

Section Tree.
Variable d : diagram.
Hypothesis Co : coherent d.
Hypothesis AL : all_laid_out d.
Hypothesis Sg : single_flows d.
Variable order : list string.
Hypothesis Lo : lists (is_node d) order.
Hypothesis Oa : forall x y, goes d x y -> before order x y.
Hypothesis One : forall p q n, draws d p n -> draws d q n -> p = q.
Let Ns : NoDup order := proj1 Lo.

Inductive under (r : string) : string -> Prop :=
| u_here : under r r
| u_next : forall p x, under r p -> draws d p x -> under r x.
Lemma under_order : forall r x, under r x -> r = x \/ before order r x.
Proof using Lo Oa.
  intros r x U. induction U as [|p x U IH D]; [left; reflexivity|]. right. destruct IH as [<-|B]; [apply Oa; apply D|].
  exact (before_trans _ _ _ _ Ns B (Oa _ _ (proj2 D))).
Qed.
(** The nodes above a node form a line. *)
Lemma under_line : forall r r' x, under r x -> under r' x -> under r r' \/ under r' r.
Proof using One.
  intros r r' x U. revert r'. induction U as [|p x U IH D]; intros r' U'; [right; exact U'|].
  inversion U' as [|q y Uq Dq]; subst; [left; eapply u_next; eauto|]. rewrite (One q p x Dq D) in Uq. exact (IH r' Uq).
Qed.
Lemma under_last : forall r x, under r x -> r <> x -> exists p, under r p /\ draws d p x.
Proof using. intros r x U Ne. destruct U as [|p x U D]; [contradiction|]. exists p. auto. Qed.
Lemma turn_under : forall k n l, length l <= k -> drawn_with d order n l -> forall x, In x l -> under n x.
Proof using.
  induction k as [|k IH]; intros n l L H x Hx.
  - destruct l; [destruct Hx|cbn in L; lia].
  - destruct H as [n Nn|n ks ls Sn Lk Ok F]; [destruct Hx as [<-|[]]; constructor|]. cbn [length] in L. destruct Hx as [<-|Hx]; [constructor|].
    apply in_concat in Hx. destruct Hx as [l [Hl Hx]]. destruct (Forall2_in_r _ _ _ _ _ l F Hl) as [m [Hm D]].
    assert (U : under m x) by (apply (IH m l); auto; pose proof (concat_len ls l Hl); lia). apply Lk in Hm.
    clear - U Hm Sn. induction U as [|p x U IHU Dx]; [eapply u_next; [constructor|split; assumption]|eapply u_next; eauto].
Qed.
Lemma turn_all : forall n l, drawn_with d order n l -> forall x, under n x -> In x l.
Proof using.
  intros n l W x U. induction U as [|p x U IH D]; [destruct (dw_head _ _ _ _ W) as [t ->]; left; reflexivity|].
  destruct (dw_children d order (length l) n l (le_n _) W p x IH D) as (i & j & _ & _ & B). eapply nth_error_In; eauto.
Qed.
Lemma turn_nodup : forall k n l, length l <= k -> drawn_with d order n l -> NoDup l.
Proof using Lo Oa One.
  induction k as [|k IH]; intros n l L H.
  - destruct l; [constructor|cbn in L; lia].
  - destruct H as [n Nn|n ks ls Sn Lk Ok F]; [constructor; [intros []|constructor]|]. cbn [length] in L.
    assert (Up : forall m x, In m ks -> under m x -> before order n x).
    { intros m x Hm U. apply Lk in Hm. apply Oa in Hm. destruct (under_order m x U) as [<-|B]; [exact Hm|exact (before_trans _ _ _ _ Ns Hm B)]. }
    constructor.
    + intro C. apply in_concat in C. destruct C as [l [Hl Hx]]. destruct (Forall2_in_r _ _ _ _ _ l F Hl) as [m [Hm D]].
      apply (before_irrefl order n Ns). apply (Up m n Hm). exact (turn_under (length l) m l (le_n _) D n Hx).
    + apply (concat_nodup _ ks ls F (proj1 Lk)).
      * intros l Hl. destruct (Forall2_in_r _ _ _ _ _ l F Hl) as [m [Hm D]]. apply (IH m l); [pose proof (concat_len ls l Hl); lia|exact D].
      * assert (Y : forall h h', In h ks -> In h' ks -> under h h' -> h = h').
        { intros h h' Hh Hh' U. destruct (string_dec h h') as [|Ne]; [assumption|exfalso]. destruct (under_last h h' U Ne) as (p & Up' & Dp).
          assert (p = n) by (apply (One p n h' Dp); split; [exact Sn|apply Lk; exact Hh']). subst p. exact (before_irrefl order n Ns (Up h n Hh Up')). }
        intros h l h' l' x Hh Hh' D D' Hx Hx'. destruct (under_line h h' x) as [U|U]; [eapply turn_under; eauto|eapply turn_under; eauto|exact (Y h h' Hh Hh' U)|symmetry; exact (Y h' h Hh' Hh U)].
Qed.
Lemma turn_some : forall n, is_node d n -> exists l, drawn_with d order n l.
Proof using Co AL Sg Lo Oa.
  assert (G : forall k i n, length order - i <= k -> nth_error order i = Some n -> exists l, drawn_with d order n l).
  { induction k as [|k IH]; intros i n L E; [assert (i < length order) by (apply nth_error_Some; congruence); lia|].
    assert (Hn : is_node d n) by (apply Lo; eapply nth_error_In; eauto).
    destruct (split_dec d n) as [Sn|Sn]; [|exists [n]; apply dw_plain; exact Sn].
    destruct (succs_of d Co AL Sg (classified d) (Permutation_refl _) n Hn) as [l0 L0].
    destruct (select (fun x => In x l0) order Ns) as (ks & Nk & Ok & Hk); [intros x _; destruct (in_dec string_dec x l0); auto|].
    assert (Lk : lists (goes d n) ks).
    { split; [exact Nk|]. intro x. rewrite Hk, (proj2 L0 x). split; [tauto|]. intro Gx. split; [apply Lo, (goes_nodes d n x Gx)|exact Gx]. }
    destruct (forall2_some (drawn_with d order) ks) as [ls F].
    { intros y Hy. apply Lk in Hy. apply Oa in Hy. destruct Hy as (a & b & Lab & A & B).
      assert (a = i) by (apply (proj1 (NoDup_nth_error _) Ns); [apply nth_error_Some; congruence|congruence]). subst a. apply (IH b y); [lia|exact B]. }
    exists (n :: concat ls). eapply dw_split; eauto. }
  intros n Hn. apply Lo in Hn. destruct (In_nth_error _ _ Hn) as [i E]. exact (G _ i n (le_n _) E).
Qed.
Lemma own_above : forall x, is_node d x -> exists r, own_turn d r /\ under r x.
Proof using Co AL Sg Lo Oa.
  assert (G : forall i x, nth_error order i = Some x -> exists r, own_turn d r /\ under r x).
  { induction i as [i IH] using lt_wf_ind. intros x E. assert (Hx : is_node d x) by (apply Lo; eapply nth_error_In; eauto).
    destruct (own_dec d Co AL Sg (classified d) (Permutation_refl _) x Hx) as [O|[p D]]; [exists x; split; [exact O|constructor]|].
    destruct (Oa p x (proj2 D)) as (a & b & Lab & A & B).
    assert (b = i) by (apply (proj1 (NoDup_nth_error _) Ns); [apply nth_error_Some; congruence|congruence]). subst b.
    destruct (IH a Lab p A) as (r & Or & U). exists r. split; [exact Or|eapply u_next; eauto]. }
  intros x Hx. apply Lo in Hx. destruct (In_nth_error _ _ Hx) as [i E]. exact (G i x E).
Qed.

Theorem drawing_exists : exists seq, drawing d order seq.
Proof using Co AL Sg Lo Oa One.
  destruct (select (own_turn d) order Ns) as (hs & Nh & Oh & Hh).
  { intros x Hx. apply Lo in Hx. destruct (own_dec d Co AL Sg (classified d) (Permutation_refl _) x Hx) as [O|[p D]]; [left; exact O|right; intro O; exact (proj2 O p D)]. }
  assert (Lh : lists (own_turn d) hs) by (split; [exact Nh|]; intro x; rewrite Hh; split; [tauto|]; intro O; split; [apply Lo, O|exact O]).
  destruct (forall2_some (drawn_with d order) hs) as [ls F]; [intros h H; apply turn_some; apply Lh; exact H|].
  assert (Y : forall h h', In h hs -> In h' hs -> under h h' -> h = h').
  { intros h h' H H' U. destruct (string_dec h h') as [|Ne]; [assumption|exfalso]. destruct (under_last h h' U Ne) as (p & _ & Dp). apply Lh in H'. exact (proj2 H' p Dp). }
  exists (concat ls). constructor.
  - exists hs, ls. auto.
  - split.
    + apply (concat_nodup _ hs ls F Nh).
      * intros l Hl. destruct (Forall2_in_r _ _ _ _ _ l F Hl) as [m [Hm D]]. exact (turn_nodup (length l) m l (le_n _) D).
      * intros h l h' l' x H H' D D' Hx Hx'. destruct (under_line h h' x) as [U|U]; [eapply turn_under; eauto|eapply turn_under; eauto|exact (Y h h' H H' U)|symmetry; exact (Y h' h H' H U)].
    + intro x. split.
      * intro Hx. apply in_concat in Hx. destruct Hx as [l [Hl Hx]]. destruct (Forall2_in_r _ _ _ _ _ l F Hl) as [m [Hm D]].
        pose proof (turn_under (length l) m l (le_n _) D x Hx) as U. destruct U as [|p x U Dx]; [apply Lh; exact Hm|apply (goes_nodes d p x (proj2 Dx))].
      * intro Hx. destruct (own_above x Hx) as (r & Or & U). apply Lh in Or. destruct (Forall2_in_l _ _ _ _ _ r F Or) as [l [Hl W]].
        apply in_concat. exists l. split; [exact Hl|exact (turn_all r l W x U)].
  - exact One.
  - intros h x Oh' B. assert (Hx : is_node d x) by (apply Lo; apply (before_In _ _ _ B)). destruct (own_above x Hx) as (r & Or & U).
    assert (Br : before order r h) by (destruct (under_order r x U) as [<-|Q]; [exact B|exact (before_trans _ _ _ _ Ns Q B)]).
    assert (Bh : before hs r h) by (apply (order_kept order); [exact Ns|exact Oh|apply Lh; exact Or|apply Lh; exact Oh'|exact Br]).
    destruct (concat_before _ hs ls F (fun h l W => turn_all h l W h (u_here h)) Nh r h Bh) as (l & W & Bl). apply Bl. exact (turn_all r l W x U).
Qed.
End Tree.
