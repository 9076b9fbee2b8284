(** The flows around the parts of a process whose blocks may have a direct flow. *)
From Coq Require Import String List Bool Arith ZArith Lia Permutation.
From Verif Require Import Py PyFacts Consts Nx NxFacts Rep SpecRep RepFacts MetricsFacts Classify Layouter
  SpecLayout ClassifyFacts TopoFacts GridFacts LayoutFacts SpecBlocks SpecFlat SpecPlan PlanFacts PlanBlocks PlanRules Prop_BlockLayout SpecCells SpecOptions.
Import ListNotations.
Open Scope string_scope.
Open Scope list_scope.

(** Branches are sequences of activities, possibly empty. *)
Definition act_branch (b : branch_t) : Prop := (forall p, In p (fst b) -> is_act p) /\ snd b = None.
Definition act_part (p : part) : Prop := match p with Act _ => True | Block _ _ bs => forall b, In b bs -> act_branch b end.
Lemma loose_act : forall p, loose_part p -> act_part p.
Proof.
  intros [n|g j bs]; cbn; auto. intros [_ [P|[l [r [-> P]]]]] b Hb.
  - destruct (P b Hb) as (A & _ & B). split; assumption.
  - assert (X : b = ([], None) \/ In b (l ++ r)).
    { apply in_app_or in Hb. destruct Hb as [Hb|[<-|Hb]]; [right; apply in_or_app; auto|left; reflexivity|right; apply in_or_app; auto]. }
    destruct X as [->|X]; [split; [intros p []|reflexivity]|]. destruct (P b X) as [n ->]. split; [|reflexivity].
    intros p [<-|[]]. exists n. reflexivity.
Qed.
Lemma act_nodes : forall g j bs, act_part (Block g j bs) -> part_nodes (Block g j bs) = g :: j :: flat_map names bs.
Proof.
  intros g j bs P. cbn [part_nodes act_part] in *. f_equal. f_equal. induction bs as [|b t IH]; [reflexivity|]. cbn [flat_map].
  rewrite IH by (intros x Hx; apply P; right; auto). f_equal. destruct (P b (or_introl eq_refl)) as [A S]. rewrite S, app_nil_r.
  unfold names. clear - A. induction (fst b) as [|p q IHq]; [reflexivity|]. cbn [flat_map map].
  destruct (A p (or_introl eq_refl)) as [n ->]. cbn [part_nodes first_of app]. f_equal. apply IHq. intros x Hx. apply A. right; auto.
Qed.
Lemma act_flows : forall g j bs, act_part (Block g j bs) -> inner_flows (Block g j bs) = flat_map (fun b => chain g (names b) j) bs.
Proof.
  intros g j bs P. cbn [inner_flows act_part] in *. induction bs as [|b t IH]; [reflexivity|]. cbn [flat_map].
  rewrite IH by (intros x Hx; apply P; right; auto). f_equal. destruct (P b (or_introl eq_refl)) as [A S]. rewrite S.
  unfold names. clear - A. generalize g. induction (fst b) as [|p q IHq]; intros x; [reflexivity|]. cbn [map chain].
  destruct (A p (or_introl eq_refl)) as [n ->]. cbn [first_of last_of inner_flows app]. f_equal. apply IHq. intros y Hy. apply A. right; auto.
Qed.
Lemma act_ends : forall ps x e a b, (forall p, In p ps -> act_part p) -> In (a, b) (path_flows x ps e) ->
  In a (x :: flat_map part_nodes ps) /\ In b (nodes ps e).
Proof.
  unfold nodes. induction ps as [|p qs IH]; intros x e a b P H; cbn [path_flows flat_map app] in *.
  - destruct H as [H|[]]. injection H as <- <-. split; left; auto.
  - destruct H as [H|H]; [injection H as <- <-; split; [left; auto|destruct p; left; auto]|].
    assert (L : In (last_of p) (part_nodes p)) by (destruct p; cbn; auto).
    apply in_app_or in H. destruct H as [H|H].
    + destruct p as [n|g j bs]; [contradiction|]. specialize (P _ (or_introl eq_refl)). rewrite act_flows in H by auto.
      rewrite act_nodes by auto. apply in_flat_map in H. destruct H as [c [Hc H]]. apply chain_in in H. destruct H as [i [A B]].
      split.
      * destruct i as [|i]; cbn [nth_error] in A; [injection A as <-; right; left; auto|]. right. apply in_or_app. left. right. right.
        apply in_flat_map. exists c. split; auto. eapply nth_error_In; eauto.
      * apply nth_error_In in B. apply in_app_or in B. rewrite <- app_assoc. apply in_or_app. left. destruct B as [B|[<-|[]]]; [|right; left; auto].
        right. right. apply in_flat_map. exists c. auto.
    + apply IH in H; [|intros q Hq; apply P; right; auto]. destruct H as [[<-|A] B]; split.
      * right. apply in_or_app. left. auto.
      * rewrite <- app_assoc. apply in_or_app. auto.
      * right. apply in_or_app. auto.
      * rewrite <- app_assoc. apply in_or_app. auto.
Qed.

(** * No loops *)
Lemma act_plan_fst : forall order ps col e, (forall p, In p ps -> act_part p) -> map fst (plan order col ps e) = nodes ps e.
Proof.
  unfold nodes. induction ps as [|[m|g j bs] qs IH]; intros col e P; cbn [plan flat_map app map fst]; [reflexivity| |].
  - cbn [part_nodes app]. f_equal. apply IH. intros p Hp. apply P. right; auto.
  - rewrite act_nodes by (apply (P _ (or_introl eq_refl))). cbn [app]. f_equal. f_equal. rewrite map_app, IH by (intros p Hp; apply P; right; auto).
    rewrite <- app_assoc. f_equal. apply (lines_fst (fun b => row_in order bs (first b))).
Qed.
Lemma act_cols_up : forall cf ps x col e, (forall p, In p ps -> act_part p) -> (cf x < col)%Z ->
  (forall n r k, In (n, (r, k)) (plan [] col ps e) -> cf n = k) ->
  forall a b, In (a, b) (path_flows x ps e) -> (cf a < cf b)%Z.
Proof.
  intros cf. induction ps as [|[m|g j bs] qs IH]; intros x col e P Hx Pl a b H; cbn [path_flows first_of last_of] in H.
  - destruct H as [H|[]]. injection H as <- <-. rewrite (Pl e 2%Z col) by (left; auto). lia.
  - cbn [inner_flows app] in H. assert (Pm : cf m = col) by (apply (Pl m 2%Z); left; auto). destruct H as [H|H]; [injection H as <- <-; lia|].
    apply (IH m (col + 1)%Z e); auto; [intros p Hp; apply P; right; auto|lia|]. intros n r k Hn. apply (Pl n r). right; auto.
  - change (list branch_t) in (type of bs). pose proof (P _ (or_introl eq_refl)) as Pb. pose proof (longest_nonneg bs) as L0.
    assert (Pg : cf g = col) by (apply (Pl g 2%Z); left; auto).
    assert (Pj : cf j = (col + longest bs + 1)%Z) by (apply (Pl j 2%Z); right; left; auto).
    destruct H as [H|H]; [injection H as <- <-; lia|]. apply in_app_or in H. destruct H as [H|H].
    + rewrite act_flows in H by auto. apply in_flat_map in H. destruct H as [c [Hc H]]. apply chain_in in H. destruct H as [i [A B]].
      assert (Pi : forall m n, nth_error (names c) m = Some n -> cf n = (col + 1 + Z.of_nat m)%Z).
      { intros m n Hm. apply (Pl n (row_in [] bs (first c))). right. right. apply in_or_app. left. apply in_flat_map. exists c. split; auto. apply line_nth. auto. }
      pose proof (longest_ge bs c Hc) as Lc.
      assert (Ea : cf a = (col + Z.of_nat i)%Z /\ i <= length (names c)).
      { destruct i as [|i]; cbn [nth_error] in A; [injection A as <-; split; lia|]. pose proof (nth_error_Some (names c) i) as Q.
        split; [rewrite (Pi i a A); lia|]. apply Q. congruence. }
      destruct Ea as [Ea Li]. apply nth_names in B. destruct B as [[_ B]|[-> ->]]; [rewrite (Pi i b B); lia|lia].
    + apply (IH j (col + longest bs + 2)%Z e); auto; [intros p Hp; apply P; right; auto|lia|].
      intros n r k Hn. apply (Pl n r). right. right. apply in_or_app. auto.
Qed.
Lemma act_acyclic : forall d s ps e, consists d s ps e -> (forall p, In p ps -> act_part p) -> acyclic d.
Proof.
  intros d s ps e [N [_ [Fl _]]] P l [n Hp].
  set (full := (s, (2, 1)%Z) :: plan [] 2 ps e).
  assert (Nf : NoDup (map fst full)). { unfold full. cbn [map fst]. rewrite act_plan_fst by auto. exact N. }
  set (cf := fun n => snd (cell_in full n)).
  assert (Up : forall a b, goes d a b -> (cf a < cf b)%Z).
  { intros a b G. apply Fl in G. apply (act_cols_up cf ps s 2%Z e); auto.
    - unfold cf. rewrite (cell_in_ok full s (2, 1)%Z); auto; [cbn; lia|left; auto].
    - intros x r k Hx. unfold cf. rewrite (cell_in_ok full x (r, k)); auto. right; auto. }
  assert (K : forall a l b, path d a l b -> (cf a < cf b)%Z).
  { induction 1 as [f a b F|f a b l0 c F P' IH]; [apply Up; exists f; auto|]. assert (cf a < cf b)%Z by (apply Up; exists f; auto). lia. }
  specialize (K _ _ _ Hp). lia.
Qed.

(** * The flows at each node *)
Section Shape.
Variable d : diagram.
(** The only flow from [x] is the only flow to [y]. *)
Definition link (x y : string) : Prop := (forall a, goes d a y <-> a = x) /\ (forall b, goes d x b <-> b = y).
Record block (g j : string) (bs : list branch_t) : Prop := {
  bk_nodup : NoDup (g :: j :: flat_map names bs);
  bk_to : forall a b, In b (flat_map names bs) \/ b = j -> (goes d a b <-> In (a, b) (flat_map (fun b => chain g (names b) j) bs));
  bk_from : forall a b, In a (flat_map names bs) \/ a = g -> (goes d a b <-> In (a, b) (flat_map (fun b => chain g (names b) j) bs)) }.
Inductive shape : string -> list part -> string -> Prop :=
| sh_end : forall x e, link x e -> shape x [] e
| sh_act : forall x n qs e, link x n -> shape n qs e -> shape x (Act n :: qs) e
| sh_block : forall x g j bs qs e, link x g -> block g j bs -> shape j qs e -> shape x (Block g j bs :: qs) e.

Lemma link_of : forall x y R, (forall a, goes d a y <-> In (a, y) ((x, y) :: R)) -> (forall b, goes d x b <-> In (x, b) ((x, y) :: R)) ->
  (forall a, ~ In (a, y) R) -> (forall b, ~ In (x, b) R) -> link x y.
Proof.
  intros x y R H1 H2 R1 R2. split.
  - intro a. rewrite H1. split; [intros [E|C]; [congruence|destruct (R1 a C)]|intros ->; left; auto].
  - intro a. rewrite H2. split; [intros [E|C]; [congruence|destruct (R2 a C)]|intros ->; left; auto].
Qed.
Lemma shape_of : forall ps x e, (forall p, In p ps -> act_part p) -> NoDup (x :: nodes ps e) ->
  (forall a b, In b (nodes ps e) -> (goes d a b <-> In (a, b) (path_flows x ps e))) ->
  (forall a b, In a (x :: nodes ps e) -> (goes d a b <-> In (a, b) (path_flows x ps e))) -> shape x ps e.
Proof.
  induction ps as [|[m|g j bs] qs IH]; intros x e P Nn H1 H2.
  - apply sh_end. cbn [path_flows] in *. apply (link_of x e []); auto.
    + intro a. apply H1. left; auto.
    + intro b. apply H2. left; auto.
  - assert (Pq : forall p, In p qs -> act_part p) by (intros p Hp; apply P; right; auto).
    unfold nodes in Nn, H1, H2. cbn [flat_map part_nodes app path_flows first_of last_of inner_flows] in Nn, H1, H2.
    fold (nodes qs e) in *. apply NoDup_cons_iff in Nn. destruct Nn as [Nx Nn]. pose proof Nn as Nn'. apply NoDup_cons_iff in Nn'. destruct Nn' as [Nm Nq].
    apply sh_act.
    + apply (link_of x m (path_flows m qs e)); auto.
      * intro a. apply H1. left; auto.
      * intro b. apply H2. left; auto.
      * intros a C. apply act_ends in C; auto. destruct C as [_ C]. auto.
      * intros b C. apply act_ends in C; auto. destruct C as [C _]. apply Nx. destruct C as [<-|C]; [left; auto|right; apply in_or_app; auto].
    + apply IH; auto.
      * intros a b Hb. rewrite H1 by (right; auto). split; [|intro; right; auto]. intros [E|E]; auto. exfalso. apply Nm. injection E as _ <-. auto.
      * intros a b Ha. rewrite H2 by (right; destruct Ha as [<-|Ha]; [left|right]; auto). split; [|intro; right; auto].
        intros [E|E]; auto. exfalso. apply Nx. injection E as <- _. destruct Ha as [<-|Ha]; [left; auto|right; auto].
  - change (list branch_t) in (type of bs). assert (Pq : forall p, In p qs -> act_part p) by (intros p Hp; apply P; right; auto).
    pose proof (P _ (or_introl eq_refl)) as Pb.
    unfold nodes in Nn, H1, H2. cbn [flat_map path_flows first_of last_of] in Nn, H1, H2.
    rewrite act_nodes in Nn, H1, H2 by auto. rewrite act_flows in H1, H2 by auto. rewrite <- app_assoc in Nn, H1, H2.
    cbn [app] in Nn, H1, H2. fold (nodes qs e) in *.
    set (inner := flat_map (fun b => chain g (names b) j) bs) in *.
    apply NoDup_cons_iff in Nn. destruct Nn as [Nx Nn]. pose proof Nn as Nn'. apply NoDup_cons_iff in Nn'. destruct Nn' as [Ng Nj].
    pose proof Nj as Nj'. apply NoDup_cons_iff in Nj'. destruct Nj' as [Njj Nr].
    assert (Disj : forall y, In y (flat_map names bs) -> In y (nodes qs e) -> False).
    { clear - Nr. intros y Hy Hq. induction (flat_map names bs) as [|a l IHl]; [contradiction|]. cbn [app] in Nr. inv Nr.
      destruct Hy as [->|Hy]; [apply H1, in_or_app; auto|auto]. }
    assert (Inn : forall a b, In (a, b) inner -> (a = g \/ In a (flat_map names bs)) /\ (b = j \/ In b (flat_map names bs))).
    { intros a b H. apply in_flat_map in H. destruct H as [c [Hcb H]]. apply chain_in in H. destruct H as [i [A B]]. split.
      - destruct i as [|i]; cbn [nth_error] in A; [left; congruence|right]. apply in_flat_map. exists c. split; auto. eapply nth_error_In; eauto.
      - apply nth_error_In in B. apply in_app_or in B. destruct B as [B|[<-|[]]]; [right|left; auto]. apply in_flat_map. exists c. auto. }
    assert (Rst : forall a b, In (a, b) (path_flows j qs e) -> (a = j \/ In a (nodes qs e)) /\ In b (nodes qs e)).
    { intros a b H. apply act_ends in H; auto. destruct H as [[<-|H] B]; split; auto. right. unfold nodes. apply in_or_app. auto. }
    assert (Gq : ~ In g (nodes qs e) /\ ~ In g (flat_map names bs) /\ g <> j).
    { split; [|split]; intro C; apply Ng; [right; apply in_or_app; auto|right; apply in_or_app; auto|left; auto]. }
    assert (Jq : ~ In j (nodes qs e) /\ ~ In j (flat_map names bs)).
    { split; intro C; apply Njj; apply in_or_app; auto. }
    assert (Xq : x <> g /\ x <> j /\ ~ In x (flat_map names bs) /\ ~ In x (nodes qs e)).
    { split; [intros ->; apply Nx; left; auto|]. split; [intros ->; apply Nx; right; left; auto|].
      split; intro C; apply Nx; right; right; apply in_or_app; auto. }
    destruct Gq as [G1 [G2 G3]]. destruct Jq as [J1 J2]. destruct Xq as [X1 [X2 [X3 X4]]].
    apply sh_block.
    + apply (link_of x g (inner ++ path_flows j qs e)); auto.
      * intro a. apply H1. left; auto.
      * intro b. apply H2. left; auto.
      * intros a C. apply in_app_or in C. destruct C as [C|C]; [apply Inn in C|apply Rst in C]; destruct C as [_ C]; [destruct C|]; auto.
      * intros b C. apply in_app_or in C. destruct C as [C|C]; [apply Inn in C|apply Rst in C]; destruct C as [C _]; destruct C; auto.
    + split.
      * constructor; [intros [C|C]; auto|]. constructor; [auto|]. eapply nodup_l; eauto.
      * intros a b Hb. rewrite H1 by (right; destruct Hb as [Hb|Hb]; [right; apply in_or_app; auto|left; auto]).
        fold inner. split; [|intro H; right; apply in_or_app; auto]. intros [E|H].
        -- exfalso. injection E as _ <-. destruct Hb as [Hb|Hb]; auto.
        -- apply in_app_or in H. destruct H as [H|H]; auto. exfalso. apply Rst in H. destruct H as [_ H]. destruct Hb as [Hb| ->]; eauto.
      * intros a b Ha. rewrite H2 by (right; destruct Ha as [Ha|Ha]; [right; right; apply in_or_app; auto|left; auto]).
        fold inner. split; [|intro H; right; apply in_or_app; auto]. intros [E|H].
        -- exfalso. injection E as <- _. destruct Ha as [Ha|Ha]; auto.
        -- apply in_app_or in H. destruct H as [H|H]; auto. exfalso. apply Rst in H. destruct H as [[->|H] _]; destruct Ha as [Ha|Ha]; subst; eauto.
    + apply IH; auto.
      * constructor; [auto|]. eapply nodup_r; eauto.
      * intros a b Hb. rewrite H1 by (right; right; apply in_or_app; auto). split; [|intro H; right; apply in_or_app; auto]. intros [E|H].
        -- exfalso. injection E as _ <-. auto.
        -- apply in_app_or in H. destruct H as [H|H]; auto. exfalso. apply Inn in H. destruct H as [_ [->|H]]; eauto.
      * intros a b Ha. rewrite H2 by (right; right; destruct Ha as [<-|Ha]; [left; auto|right; apply in_or_app; auto]).
        split; [|intro H; right; apply in_or_app; auto]. intros [E|H].
        -- exfalso. injection E as <- _. destruct Ha as [Ha|Ha]; auto.
        -- apply in_app_or in H. destruct H as [H|H]; auto. exfalso. apply Inn in H. destruct H as [[->|H] _]; destruct Ha as [Ha|Ha]; subst; eauto.
Qed.
Lemma chain_last : forall ns x y, exists a, In (a, y) (chain x ns y).
Proof. induction ns as [|n ns IH]; intros x y; [exists x; left; reflexivity|]. destruct (IH n y) as [a Ha]. exists a. right. exact Ha. Qed.
Lemma entered : forall e a qs x, In a (nodes qs e) -> (forall p, In p qs -> loose_part p) -> exists b, In (b, a) (path_flows x qs e).
Proof.
  intros e a. induction qs as [|p qs IH]; intros x Ha P; unfold nodes in Ha; cbn [flat_map app path_flows] in *.
  - destruct Ha as [<-|[]]. exists x. left; reflexivity.
  - rewrite <- app_assoc in Ha. apply in_app_or in Ha. destruct Ha as [Ha|Ha].
    + destruct p as [n|g j bs]; [destruct Ha as [<-|[]]; exists x; left; reflexivity|].
      pose proof (P _ (or_introl eq_refl)) as Pl. pose proof (loose_act _ Pl) as Pb. rewrite act_nodes in Ha by exact Pb. rewrite act_flows by exact Pb.
      destruct Ha as [<-|[<-|Ha]]; [exists x; left; reflexivity| |].
      * destruct Pl as [K _]. destruct bs as [|b bs]; [cbn in K; lia|]. destruct (chain_last (names b) g j) as [y Hy]. exists y. right.
        apply in_or_app. left. cbn [flat_map]. apply in_or_app. left. exact Hy.
      * apply in_flat_map in Ha. destruct Ha as [b [Hb Ha]]. destruct (In_nth_error _ _ Ha) as [m Hm].
        destruct (nth_error (g :: names b) m) as [y|] eqn:Ey.
        -- exists y. right. apply in_or_app. left. apply in_flat_map. exists b. split; [exact Hb|]. apply chain_in. exists m. split; [exact Ey|].
           rewrite nth_error_app1 by (apply nth_error_Some; congruence). exact Hm.
        -- exfalso. apply nth_error_None in Ey. assert (m < length (names b)) by (apply nth_error_Some; congruence). cbn [length] in Ey. lia.
    + destruct (IH (last_of p) Ha (fun q Hq => P q (or_intror Hq))) as [b Hb]. exists b. right. apply in_or_app. right. exact Hb.
Qed.
Lemma consists_shape : forall s ps e, consists d s ps e -> (forall p, In p ps -> loose_part p) ->
  shape s ps e /\ lists (first_node d) [s].
Proof.
  intros s ps e (Nn & Hn & Fl & _) P. unfold all_nodes in *. fold (nodes ps e) in *.
  assert (Pa : forall p, In p ps -> act_part p) by (intros p Hp; apply loose_act; auto). split.
  - apply shape_of; auto.
  - apply lists_one. intro a. split.
    + intros [Na Np]. apply Hn in Na. destruct Na as [<-|Na]; [reflexivity|exfalso].
      destruct (entered e a ps s Na P) as [b Hb]. apply (Np b). apply Fl. exact Hb.
    + intros ->. split; [apply Hn; left; reflexivity|]. intros p G. apply Fl in G. apply act_ends in G; auto. destruct G as [_ G].
      apply NoDup_cons_iff in Nn. tauto.
Qed.
End Shape.
