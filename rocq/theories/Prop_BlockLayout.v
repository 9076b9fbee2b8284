(** Layout of processes with blocks (C85). *)
From Coq Require Import String Ascii List Bool Arith ZArith Lia Permutation.
From Verif Require Import Py PyFacts Consts Nx NxFacts Rep SpecRep RepFacts MetricsFacts Prop_LayoutMetrics Classify Layouter
  SpecLayout ClassifyFacts TopoFacts GridFacts LayoutFacts Prop_Layout.
From Verif Require Import ClassFacts SpecBlocks SpecFlat SpecPlan PlanFacts PlanBlocks PlanRules.
Import ListNotations.
Open Scope string_scope.
Open Scope list_scope.

(** Columns grow along the flows. *)
Lemma cols_up : forall cf ps x col e, (forall p, In p ps -> plain_part p) -> (cf x < col)%Z ->
  (forall n r k, In (n, (r, k)) (plan [] col ps e) -> cf n = k) ->
  forall a b, In (a, b) (path_flows x ps e) -> (cf a < cf b)%Z.
Proof.
  intros cf. induction ps as [|[m|g j bs] qs IH]; intros x col e P Hx Pl a b H; cbn [path_flows first_of last_of] in H.
  - destruct H as [H|[]]. injection H as <- <-. rewrite (Pl e 2%Z col) by (left; auto). lia.
  - cbn [inner_flows app] in H. assert (Pm : cf m = col) by (apply (Pl m 2%Z); left; auto). destruct H as [H|H]; [injection H as <- <-; lia|].
    apply (IH m (col + 1)%Z e); auto; [intros p Hp; apply P; right; auto|lia|]. intros n r k Hn. apply (Pl n r). right; auto.
  - change (list branch_t) in (type of bs). pose proof (P _ (or_introl eq_refl)) as Pb. pose proof (longest_nonneg bs) as L0.
    assert (Pg : cf g = col) by (apply (Pl g 2%Z); left; auto).
    assert (Pj : cf j = (col + longest bs + 1)%Z) by (apply (Pl j 2%Z); right; left; auto).
    destruct H as [H|H]; [injection H as <- <-; lia|]. apply in_app_or in H. destruct H as [H|H].
    + rewrite plain_flows in H by auto. apply in_flat_map in H. destruct H as [c [Hc H]]. apply chain_in in H. destruct H as [i [A B]].
      assert (Pi : forall m n, nth_error (names c) m = Some n -> cf n = (col + 1 + Z.of_nat m)%Z).
      { intros m n Hm. apply (Pl n (row_in [] bs (first c))). right. right. apply in_or_app. left. apply in_flat_map. exists c. split; auto. apply line_nth. auto. }
      pose proof (longest_ge bs c Hc) as Lc.
      assert (Ea : cf a = (col + Z.of_nat i)%Z /\ i <= length (names c)).
      { destruct i as [|i]; cbn [nth_error] in A; [injection A as <-; split; lia|]. pose proof (nth_error_Some (names c) i) as Q.
        split; [rewrite (Pi i a A); lia|]. apply Q. congruence. }
      destruct Ea as [Ea Li]. apply nth_names in B. destruct B as [[_ B]|[-> ->]]; [rewrite (Pi i b B); lia|lia].
    + apply (IH j (col + longest bs + 2)%Z e); auto; [intros p Hp; apply P; right; auto|lia|].
      intros n r k Hn. apply (Pl n r). right. right. apply in_or_app. auto.
Qed.

Definition cell_in (l : list (string * (Z * Z))) (n : string) : Z * Z := match dget n l with Some c => c | None => (0, 0)%Z end.
Lemma cell_in_ok : forall l n c, NoDup (map fst l) -> In (n, c) l -> cell_in l n = c.
Proof. intros l n c N H. unfold cell_in. rewrite (In_dget _ _ _ N H). reflexivity. Qed.

Lemma consists_acyclic : forall d s ps e, consists d s ps e -> (forall p, In p ps -> plain_part p) -> acyclic d.
Proof.
  intros d s ps e [N [_ [Fl _]]] P l [n Hp].
  set (full := (s, (2, 1)%Z) :: plan [] 2 ps e).
  assert (Nf : NoDup (map fst full)). { unfold full. cbn [map fst]. rewrite plan_fst by auto. exact N. }
  set (cf := fun n => snd (cell_in full n)).
  assert (Up : forall a b, goes d a b -> (cf a < cf b)%Z).
  { intros a b G. apply Fl in G. apply (cols_up cf ps s 2%Z e); auto.
    - unfold cf. rewrite (cell_in_ok full s (2, 1)%Z); auto; [cbn; lia|left; auto].
    - intros x r k Hx. unfold cf. rewrite (cell_in_ok full x (r, k)); auto. right; auto. }
  assert (K : forall a l b, path d a l b -> (cf a < cf b)%Z).
  { induction 1 as [f a b F|f a b l0 c F P' IH]; [apply Up; exists f; auto|]. assert (cf a < cf b)%Z by (apply Up; exists f; auto). lia. }
  specialize (K _ _ _ Hp). lia.
Qed.

Lemma picture_drawn : forall d order, NoDup order -> forall ps col e, (forall p, In p ps -> plain_part p) -> NoDup (nodes ps e) -> incl (nodes ps e) order ->
  (forall n r k, In (n, (r, k)) (plan order col ps e) -> in_cell d n r k) -> picture d col ps e.
Proof.
  intros d order No. induction ps as [|[m|g j bs] qs IH]; intros col e P Nn Io H; cbn [picture plan] in *.
  - apply H. left; auto.
  - unfold nodes in Nn, Io. cbn [flat_map part_nodes app] in Nn, Io. apply NoDup_cons_iff in Nn. split; [apply H; left; auto|]. apply IH.
    + intros p Hp. apply P. right; auto.
    + apply Nn.
    + intros x Hx. apply Io. right; auto.
    + intros n r k Hn. apply H. right; auto.
  - change (list branch_t) in (type of bs). pose proof (P _ (or_introl eq_refl)) as Pb.
    unfold nodes in Nn, Io. cbn [flat_map] in Nn, Io. rewrite plain_nodes in Nn, Io by auto. rewrite <- app_assoc in Nn, Io. cbn [app] in Nn, Io.
    do 2 (apply NoDup_cons_iff in Nn; destruct Nn as [_ Nn]).
    split; [apply H; left; auto|]. split; [apply H; right; left; auto|]. split.
    + exists (map (row_in order bs) (firsts bs)). split.
      * apply rows_fan; auto.
        -- pose proof (nodup_l _ _ _ Nn) as Nb. apply NoDup_nth_error. intros i i' Hi E. unfold firsts in *. rewrite map_length in Hi. rewrite !nth_error_map in E.
           destruct (nth_error bs i) as [b|] eqn:Eb; [|apply nth_error_None in Eb; lia]. cbn [option_map] in E.
           destruct (nth_error bs i') as [b'|] eqn:Eb'; [|discriminate]. cbn [option_map] in E. injection E as E.
           eapply (flat_unique _ _ names bs i i' b b' (first b)); eauto.
           ++ eapply nth_error_In. apply plain_first. apply Pb. eapply nth_error_In; eauto.
           ++ rewrite E. eapply nth_error_In. apply plain_first. apply Pb. eapply nth_error_In; eauto.
        -- intros x Hx. apply Io. right. right. apply in_or_app. left. apply in_map_iff in Hx. destruct Hx as [b [<- Hb]]. apply in_flat_map. exists b. split; auto.
           eapply nth_error_In. apply plain_first. apply Pb. auto.
      * unfold firsts. rewrite map_map.
        assert (L : forall ps' c r, (forall n k, In (n, (r, k)) (line r c (map first_of ps')) -> in_cell d n r k) -> in_line d r c ps').
        { induction ps' as [|p qs' IHp]; intros c r Hl; cbn [in_line]; auto. split; [apply Hl; left; auto|]. apply IHp. intros n k Hn. apply Hl. right; auto. }
        assert (G : forall l, incl l bs -> Forall2 (fun (b : branch_t) r => in_line d r (col + 1) (fst b)) l (map (fun b => row_in order bs (first b)) l)).
        { induction l as [|b l IHl]; intros I; cbn [map]; constructor; [|apply IHl; intros x Hx; apply I; right; auto].
          apply L. intros n k Hn. apply H. right. right. apply in_or_app. left. apply in_flat_map. exists b. split; [apply I; left; auto|exact Hn]. }
        apply G. apply incl_refl.
    + apply IH.
      * intros p Hp. apply P. right; auto.
      * eapply nodup_r; eauto.
      * intros x Hx. apply Io. right. right. apply in_or_app. auto.
      * intros n r k Hn. apply H. right. right. apply in_or_app. auto.
Qed.

(** * C85 *)
(** A process of activities and blocks, whose branches are sequences of activities, can
    be laid out.  The main line stands in one row; the branches of a block stand evenly
    above and below it, each in its own row, and the end of the block comes after its
    longest branch. *)
Theorem C85_picture : forall d s ps e fuel, coherent d -> all_laid_out d -> gwf (dgraph d) -> drawable d ->
  consists d s ps e -> (forall p, In p ps -> plain_part p) -> sort_bound d <= fuel ->
  exists d', generate_layout fuel d = (d', Ok tt) /\ in_cell d' s 2 1 /\ picture d' 2 ps e.
Proof.
  intros d s ps e fuel Co AL W Dr Cs P F. pose proof (consists_acyclic d s ps e Cs P) as Ac.
  destruct (C65_only_the_grid_fails d fuel Co AL Ac W Dr F) as [s0 [Es Gr]].
  pose proof Co as [L _]. rewrite (elements_eq d L) in Es. cbn [rbind] in Es.
  pose proof (topo_ok d Co AL fuel s0 [] Es) as I. destruct (final_facts d Co AL s0 [] I) as [Ps [Ns [Os _]]].
  set (order := map cid s0). destruct Cs as [Nn [Hn [Fl Sg]]].
  assert (Ord : forall n, In n order <-> In n (all_nodes s ps e)).
  { intro n. rewrite <- Hn. symmetry. apply (s_node d Co AL s0 Ps). }
  set (full := (s, (2, 1)%Z) :: plan order 2 ps e).
  assert (Nf : NoDup (map fst full)). { unfold full. cbn [map fst]. rewrite plan_fst by auto. exact Nn. }
  assert (Kf : map fst full = all_nodes s ps e). { unfold full. cbn [map fst]. rewrite plan_fst by auto. reflexivity. }
  set (pos := cell_in full).
  assert (Pin : forall n c, In (n, c) full -> pos n = c) by (intros n c H; apply cell_in_ok; auto).
  assert (Has : forall n, is_node d n -> In (n, pos n) full).
  { intros n H. apply Hn in H. rewrite <- Kf in H. apply in_map_iff in H. destruct H as [[m c] [<- H]]. cbn [fst]. rewrite (Pin m c H). exact H. }
  unfold all_nodes in Nn. pose proof Nn as Nn'. apply NoDup_cons_iff in Nn'. destruct Nn' as [Nsx Nps]. fold (nodes ps e) in Nsx, Nps.
  assert (Io : incl (nodes ps e) order) by (intros x Hx; apply Ord; right; exact Hx).
  assert (Ru : forall n, is_node d n -> ruled d s0 pos n).
  { intros n H. apply Hn in H. destruct H as [<-|H].
    - apply r_start; [|apply Pin; left; auto]. split; [constructor|]. intro x. split; [intros []|]. intros G. apply Fl in G.
      apply path_ends in G; auto. destruct G as [_ G]. exact (Nsx G).
    - apply (rules d s0 pos Ns ps s 2%Z e); auto.
      + lia.
      + apply Pin. left; auto.
      + intros x c Hx. apply Pin. right; auto. }
  assert (Inj : forall a b, is_node d a -> is_node d b -> pos a = pos b -> a = b).
  { intros a b Ha Hb E. pose proof (Has a Ha) as A. pose proof (Has b Hb) as B. rewrite E in A. destruct (pos b) as [r k].
    destruct A as [A|A], B as [B|B].
    - congruence.
    - injection A as <- <- <-. apply plan_cols in B. lia.
    - injection B as <- <- <-. apply plan_cols in A. lia.
    - exact (plan_cells order ps 2%Z e Ns Nps Io P a b (r, k) A B). }
  assert (F2 : exists fu, fuel = S (S fu)).
  { unfold sort_bound in F. assert (2 <= length (classified d)).
    { assert (Q0 : length s0 = length (classified d)) by (apply Permutation_length; exact Ps). rewrite <- Q0, <- (map_length cid s0). fold order.
      assert (Q : Permutation (all_nodes s ps e) order) by (apply NoDup_Permutation; auto; intro; symmetry; apply Ord).
      rewrite <- (Permutation_length Q). unfold all_nodes. cbn [length]. rewrite app_length. cbn [length]. lia. }
    destruct fuel as [|[|fu]]; [lia|lia|eauto]. }
  destruct F2 as [fu ->].
  destruct (grid_plan d Co AL Sg s0 Ps Ns (fun x y G => let 'ex_intro _ f Hf := G in Os f x y Hf (fun Z => Z)) pos Ru Inj fu) as [ids [Eg Hid]].
  destruct (Gr _ Eg) as [d' Ed]. exists d'. split; auto.
  destruct (layout_facts _ d d' Co Ed) as [_ [s' [b' [g [d1 [A1 [_ [A3 [_ [Ng [_ [_ [A8 _]]]]]]]]]]]]].
  rewrite Es in A1. injection A1 as <- <-. rewrite Eg in A3. injection A3 as <-.
  assert (Cell : forall n r k, In (n, (r, k)) full -> in_cell d' n r k).
  { intros n r k H. pose proof (Pin n (r, k) H) as E. assert (Hnn : is_node d n). { apply Hn. rewrite <- Kf. apply (in_map fst) in H. exact H. }
    destruct (A8 n Hnn) as [c [_ [_ [Gc [_ At]]]]]. rewrite gfind_plan in Gc by (apply Hid; auto). injection Gc as <-.
    cbn [ccol crow cellof] in At. rewrite E in At. cbn [fst snd] in At. unfold in_cell. rewrite (Z.mul_comm 150), (Z.mul_comm 100). exact At. }
  split; [apply Cell; left; auto|]. apply (picture_drawn d' order); auto. intros n r k H. apply Cell. right; auto.
Qed.

(** The same for diagrams built with the API. *)
Theorem C85_api : forall l d s ps e fuel, history l d -> distinct_pairs d -> NoDup (all_nodes s ps e) ->
  (forall n, is_node d n <-> In n (all_nodes s ps e)) ->
  (forall x y, (exists f r, dget f (seq_flows d) = Some r /\ fl_src r = x /\ fl_tgt r = y) <-> In (x, y) (path_flows s ps e)) ->
  (forall p, In p ps -> plain_part p) -> sort_bound d <= fuel ->
  exists d', generate_layout fuel d = (d', Ok tt) /\ in_cell d' s 2 1 /\ picture d' 2 ps e.
Proof.
  intros l d s ps e fuel H D N Nd Fl P F. destruct (C26_api_diagrams_coherent l d H D) as [Co [AL [W [Dr Ff]]]].
  apply C85_picture; auto. split; [exact N|]. split; [exact Nd|]. split.
  - intros x y. rewrite <- Fl. unfold goes. split; intros [f X].
    + apply Ff in X. destruct X as [r X]. eauto.
    + destruct X as [r X]. exists f. apply Ff. eauto.
  - intros f g x y A B. apply Ff in A, B. destruct A as [r [A1 [A2 A3]]], B as [r' [B1 [B2 B3]]]. apply (D f r g r' A1 B1). left. split; congruence.
Qed.

(** * The canvas *)
Lemma fan_small : forall k r, k <= 3 -> In r (fan k) -> (0 <= r)%Z.
Proof.
  intros k r K H. assert (C : k = 0 \/ k = 1 \/ k = 2 \/ k = 3) by lia.
  destruct C as [-> |[-> |[-> | ->]]]; cbn in H; lia.
Qed.
Lemma fan_large : forall k, 4 <= k -> In (-2)%Z (fan k).
Proof.
  intros k K. unfold fan. apply in_or_app. right. apply in_or_app. right. apply in_map_iff. exists 1. split; [reflexivity|].
  apply in_seq. split; [lia|]. cbn [plus]. assert (X : 4 / 2 <= k / 2) by (apply Nat.div_le_mono; lia). change (4 / 2) with 2 in X. lia.
Qed.
Lemma Forall2_right : forall (A B : Type) (R : A -> B -> Prop) l m y, Forall2 R l m -> In y m -> exists x, In x l /\ R x y.
Proof. induction 1 as [|a b l m Hab F IH]; intros H; [contradiction|]. destruct H as [<-|H]; [exists a; split; [left|]; auto|]. destruct (IH H) as [x [A1 A2]]. exists x. split; [right|]; auto. Qed.
Lemma Forall2_left : forall (A B : Type) (R : A -> B -> Prop) l m x, Forall2 R l m -> In x l -> exists y, In y m /\ R x y.
Proof. induction 1 as [|a b l m Hab F IH]; intros H; [contradiction|]. destruct H as [<-|H]; [exists b; split; [left|]; auto|]. destruct (IH H) as [y [A1 A2]]. exists y. split; [right|]; auto. Qed.
Lemma in_line_in : forall d row ps col n, in_line d row col ps -> In n (map first_of ps) -> exists c, (col <= c)%Z /\ in_cell d n row c.
Proof.
  intros d row. induction ps as [|p qs IH]; intros col n H I; [contradiction|]. destruct H as [H1 H2]. destruct I as [<-|I].
  - exists col. split; [lia|auto].
  - destruct (IH _ _ H2 I) as [c [A B]]. exists c. split; [lia|auto].
Qed.
Definition few_branches (p : part) : Prop := match p with Act _ => True | Block _ _ bs => length bs <= 3 end.
Lemma picture_in : forall d ps col e n, (0 <= col)%Z -> (forall p, In p ps -> plain_part p) -> (forall p, In p ps -> few_branches p) ->
  picture d col ps e -> In n (nodes ps e) -> exists r c, (0 <= r)%Z /\ (0 <= c)%Z /\ in_cell d n r c.
Proof.
  intros d. induction ps as [|[m|g j bs] qs IH]; intros col e n C P Fw H I; cbn [picture] in H; unfold nodes in I.
  - destruct I as [<-|[]]. exists 2%Z, col. repeat split; try lia; apply H.
  - destruct I as [<-|I]; [exists 2%Z, col; repeat split; try lia; apply H|]. apply (IH (col + 1)%Z e n); auto; try lia; try apply H; intros p Hp; [apply P|apply Fw]; right; auto.
  - change (list branch_t) in (type of bs). pose proof (P _ (or_introl eq_refl)) as Pb. pose proof (Fw _ (or_introl eq_refl)) as Fb. cbn [few_branches] in Fb.
    pose proof (longest_nonneg bs) as L0. cbn [flat_map] in I. rewrite plain_nodes in I by auto. rewrite <- app_assoc in I. cbn [app] in I.
    destruct H as [Hg [Hj [[rows [Pr F2]] H]]]. destruct I as [<-|[<-|I]].
    + exists 2%Z, col. repeat split; try lia; apply Hg.
    + exists 2%Z, (col + longest bs + 1)%Z. repeat split; try lia; apply Hj.
    + apply in_app_or in I. destruct I as [I|I].
      * apply in_flat_map in I. destruct I as [b [Hb I]]. destruct (Forall2_left _ _ _ _ _ b F2 Hb) as [r [Hr Hl]].
        destruct (in_line_in _ _ _ _ _ Hl I) as [c [Hc Hi]]. exists r, c. split; [|split; [lia|exact Hi]].
        apply (fan_small (length bs)); auto. eapply Permutation_in; eauto.
      * apply (IH (col + longest bs + 2)%Z e n); auto; try lia; intros p Hp; [apply P|apply Fw]; right; auto.
Qed.
Lemma picture_out : forall d ps col e g j bs, (forall p, In p ps -> plain_part p) -> picture d col ps e ->
  In (Block g j bs) ps -> 4 <= length bs -> exists n c, In n (flat_map names bs) /\ in_cell d n (-2) c.
Proof.
  intros d. induction ps as [|[m|g0 j0 bs0] qs IH]; intros col e g j bs P H I K; cbn [picture] in H; [contradiction| |].
  - destruct I as [I|I]; [discriminate|]. eapply IH; eauto; [intros p Hp; apply P; right; auto|apply H].
  - destruct I as [I|I].
    + injection I as -> -> ->. destruct H as [_ [_ [[rows [Pr F2]] _]]].
      assert (R : In (-2)%Z rows) by (eapply Permutation_in; [apply Permutation_sym; exact Pr|apply fan_large; auto]).
      destruct (Forall2_right _ _ _ _ _ _ F2 R) as [b [Hb Hl]].
      destruct (P _ (or_introl eq_refl)) as [_ Pb]. specialize (Pb b Hb). pose proof (plain_first b Pb) as Hf. apply nth_error_In in Hf.
      destruct (in_line_in _ _ _ _ _ Hl Hf) as [c [_ Hc]]. exists (first b), c. split; [apply in_flat_map; eauto|exact Hc].
    + eapply IH; eauto; [intros p Hp; apply P; right; auto|apply H].
Qed.

(** Blocks with two or three branches: the whole picture lies to the right of and below
    the origin. *)
Theorem C85_on_canvas : forall d s ps e fuel, coherent d -> all_laid_out d -> gwf (dgraph d) -> drawable d ->
  consists d s ps e -> (forall p, In p ps -> plain_part p) -> (forall p, In p ps -> few_branches p) -> sort_bound d <= fuel ->
  exists d', generate_layout fuel d = (d', Ok tt) /\ forall n, is_node d n -> exists x y, at_xy d' n x y /\ (50 <= x)%Z /\ (50 <= y)%Z.
Proof.
  intros d s ps e fuel Co AL W Dr Cs P Fw F. destruct (C85_picture d s ps e fuel Co AL W Dr Cs P F) as [d' [E [S Pi]]]. exists d'. split; auto.
  intros n Hn. destruct Cs as [_ [Nd _]]. apply Nd in Hn. destruct Hn as [<-|Hn].
  - exists (150 * 1 + 50)%Z, (100 * 2 + 50)%Z. split; [exact S|]. lia.
  - destruct (picture_in d' ps 2%Z e n) as [r [c [R [C I]]]]; auto; [lia|]. exists (150 * c + 50)%Z, (100 * r + 50)%Z. split; [exact I|]. lia.
Qed.

(** A block with four or more branches: an activity is always drawn above the origin. *)
Theorem C85_off_canvas : forall d s ps e fuel g j bs, coherent d -> all_laid_out d -> gwf (dgraph d) -> drawable d ->
  consists d s ps e -> (forall p, In p ps -> plain_part p) -> In (Block g j bs) ps -> 4 <= length bs -> sort_bound d <= fuel ->
  exists d', generate_layout fuel d = (d', Ok tt) /\ exists n x y, is_node d n /\ at_xy d' n x y /\ (y < 0)%Z.
Proof.
  intros d s ps e fuel g j bs Co AL W Dr Cs P B K F. destruct (C85_picture d s ps e fuel Co AL W Dr Cs P F) as [d' [E [S Pi]]]. exists d'. split; auto.
  destruct (picture_out d' ps 2%Z e g j bs P Pi B K) as [n [c [I H]]]. exists n, (150 * c + 50)%Z, (100 * -2 + 50)%Z. split; [|split; [exact H|lia]].
  destruct Cs as [_ [Nd _]]. apply Nd. right. apply in_or_app. left. apply in_flat_map. exists (Block g j bs). split; auto.
  change (list branch_t) in (type of bs). rewrite plain_nodes by (apply (P _ B)). right. right. exact I.
Qed.

(** * Examples *)
Definition pair_eqb (p q : string * string) : bool := String.eqb (fst p) (fst q) && String.eqb (snd p) (snd q).
Definition pmem (p : string * string) (l : list (string * string)) : bool := existsb (pair_eqb p) l.
Lemma pmem_In : forall p l, pmem p l = true <-> In p l.
Proof.
  intros p l. unfold pmem. rewrite existsb_exists. split.
  - intros [q [H E]]. unfold pair_eqb in E. apply andb_true_iff in E. destruct E as [E1 E2]. apply String.eqb_eq in E1, E2. destruct p, q. cbn in *. subst. exact H.
  - intros H. exists p. split; auto. unfold pair_eqb. rewrite !String.eqb_refl. reflexivity.
Qed.
Definition consists_b (d : diagram) (s : string) (ps : list part) (e : string) : bool :=
  nodupb (all_nodes s ps e) && nodupb (map fst (seq_flows d)) && pairs_checked (seq_flows d) &&
  forallb (fun n => smem n (all_nodes s ps e)) (map fst (gnodes (dgraph d))) &&
  forallb (fun n => smem n (map fst (gnodes (dgraph d)))) (all_nodes s ps e) &&
  forallb (fun p => pmem (fl_src (snd p), fl_tgt (snd p)) (path_flows s ps e)) (seq_flows d) &&
  forallb (fun p => pmem p (map (fun q => (fl_src (snd q), fl_tgt (snd q))) (seq_flows d))) (path_flows s ps e).
Lemma consists_ok : forall l d s ps e, history l d -> consists_b d s ps e = true ->
  coherent d /\ all_laid_out d /\ gwf (dgraph d) /\ drawable d /\ consists d s ps e.
Proof.
  intros l d s ps e H B. unfold consists_b in B. rewrite !andb_true_iff in B. destruct B as [[[[[[B1 B2] B3] B4] B5] B6] B7].
  apply nodupb_ok in B1. apply nodupb_ok in B2. apply pairs_checked_ok in B3. rewrite forallb_forall in B4, B5, B6, B7.
  destruct (C26_api_diagrams_coherent l d H B3) as [Co [AL [W [Dr Ff]]]]. do 4 (split; [assumption|]). split; [exact B1|]. split.
  { intro n. split; intro I; [apply B4 in I|apply B5 in I]; apply smem_In; auto. } split.
  - intros x y. unfold goes. split.
    + intros [f X]. apply Ff in X. destruct X as [r [X [<- <-]]]. apply dget_In in X. apply B6 in X. apply pmem_In in X. exact X.
    + intros I. apply B7 in I. apply pmem_In in I. apply in_map_iff in I. destruct I as [[f r] [E I]]. cbn [snd] in E. injection E as <- <-.
      exists f. apply Ff. exists r. split; auto. apply In_dget; auto.
  - intros f g x y A B. apply Ff in A, B. destruct A as [r [A1 [A2 A3]]], B as [r' [C1 [C2 C3]]]. apply (B3 f r g r' A1 C1). left. split; congruence.
Qed.
(** API calls that build a process; g, h, j and k are gateways. *)
Definition build_ops (s : string) (ps : list part) (e : string) : list op :=
  [ONew "m" "0"; OStart "id2" s None false true (Some s) "" ""] ++ map (fun n => if smem n ["g"; "h"] then OParallel "id2" n "Diverging" (Some n) "" else if smem n ["j"; "k"] then OParallel "id2" n "Converging" (Some n) ""
                 else OTask "id2" n (Some n) "") (flat_map part_nodes ps) ++
  [OEnd "id2" e None (Some e) "" ""] ++ map (fun p => OFlow "id2" (fst p) (snd p) "" (fst p ++ snd p)%string) (path_flows s ps e).
Definition build (s : string) (ps : list part) (e : string) : diagram := run empty_diagram (build_ops s ps e).
Definition plain_b (p : part) : bool :=
  match p with
  | Act _ => true
  | Block _ _ bs => Nat.leb 2 (length bs) && forallb (fun b : branch_t => forallb (fun q => match q with Act _ => true | _ => false end) (fst b) &&
                      negb (Nat.eqb (length (fst b)) 0) && match snd b with None => true | _ => false end) bs
  end.
Lemma plain_ok : forall ps, forallb plain_b ps = true -> forall p, In p ps -> plain_part p.
Proof.
  intros ps H p Hp. rewrite forallb_forall in H. specialize (H p Hp). destruct p as [m|g j bs]; cbn [plain_part plain_b] in *; auto.
  apply andb_true_iff in H. destruct H as [H1 H2]. split; [apply Nat.leb_le; auto|]. intros b Hb. rewrite forallb_forall in H2. specialize (H2 b Hb).
  rewrite !andb_true_iff in H2. destruct H2 as [[H2 H3] H4]. rewrite forallb_forall in H2. split; [|split].
  - intros q Hq. specialize (H2 q Hq). destruct q as [m|]; [exists m; reflexivity|discriminate].
  - intro E. rewrite E in H3. discriminate.
  - destruct (snd b); [discriminate|reflexivity].
Qed.

Definition order_parts : list part :=
  [Act "read"; Block "g" "j" [([Act "a1"; Act "a2"], None); ([Act "b"], None); ([Act "c1"; Act "c2"; Act "c3"], None)]; Act "pay";
   Block "h" "k" [([Act "l"], None); ([Act "r"], None)]].
Lemma order_ok : history (build_ops "s" order_parts "e") (build "s" order_parts "e") /\
  (coherent (build "s" order_parts "e") /\ all_laid_out (build "s" order_parts "e") /\ gwf (dgraph (build "s" order_parts "e")) /\
   drawable (build "s" order_parts "e") /\ consists (build "s" order_parts "e") "s" order_parts "e") /\
  (forall p, In p order_parts -> plain_part p) /\ (forall p, In p order_parts -> few_branches p) /\ sort_bound (build "s" order_parts "e") <= 80.
Proof.
  assert (H : history (build_ops "s" order_parts "e") (build "s" order_parts "e")) by (apply checked_history; vm_compute; reflexivity).
  split; auto. split; [eapply consists_ok; [exact H|vm_compute; reflexivity]|]. split; [apply plain_ok; reflexivity|]. split.
  - intros p [<-|[<-|[<-|[<-|[]]]]]; cbn; lia.
  - apply Nat.leb_le. vm_compute. reflexivity.
Qed.
Definition drawn_at (d : diagram) : list (string * option pyval * option pyval) :=
  map (fun n => (fst n, dget "x" (snd n), dget "y" (snd n))) (gnodes (dgraph d)).
Example C85_picture_example : let r := generate_layout 80 (build "s" order_parts "e") in
  snd r = Ok tt /\ fan 3 = [4; 2; 0]%Z /\ fan 2 = [4; 0]%Z /\
  map (fun x => match x with (n, Some (VStr a), Some (VStr b)) => (n, a, b) | (n, _, _) => (n, "", "") end) (drawn_at (fst r)) =
  [("s", "200", "250"); ("read", "350", "250"); ("g", "500", "250"); ("j", "1100", "250"); ("a1", "650", "50"); ("a2", "800", "50");
   ("b", "650", "250"); ("c1", "650", "450"); ("c2", "800", "450"); ("c3", "950", "450"); ("pay", "1250", "250"); ("h", "1400", "250");
   ("k", "1700", "250"); ("l", "1550", "50"); ("r", "1550", "450"); ("e", "1850", "250")].
Proof. vm_compute. repeat split; reflexivity. Qed.
Example C85_picture_applies : exists d', generate_layout 80 (build "s" order_parts "e") = (d', Ok tt) /\ in_cell d' "s" 2 1 /\ picture d' 2 order_parts "e".
Proof. destruct order_ok as [_ [[Co [AL [W [Dr Cs]]]] [P [_ F]]]]. apply C85_picture; auto. Qed.

(** Four branches: the first is above the origin and the third below the fourth. *)
Definition wide_parts : list part := [Block "g" "j" [([Act "a"], None); ([Act "b"], None); ([Act "c"], None); ([Act "f"], None)]].
Theorem C85_always_on_canvas_refuted : exists ops d ps d', history ops d /\ consists d "s" ps "e" /\ (forall p, In p ps -> plain_part p) /\
  generate_layout 80 d = (d', Ok tt) /\ at_xy d' "a" 500 (-150) /\ at_xy d' "c" 500 650 /\ at_xy d' "f" 500 450.
Proof.
  exists (build_ops "s" wide_parts "e"), (build "s" wide_parts "e"), wide_parts, (fst (generate_layout 80 (build "s" wide_parts "e"))).
  assert (H : history (build_ops "s" wide_parts "e") (build "s" wide_parts "e")) by (apply checked_history; vm_compute; reflexivity).
  split; auto. split; [eapply consists_ok; [exact H|vm_compute; reflexivity]|]. split; [apply plain_ok; reflexivity|].
  split; [vm_compute; reflexivity|]. repeat split; vm_compute; reflexivity.
Qed.

(** Blocks inside blocks: the layout raises an exception, because an activity of the inner
    block and one of the other branch get the same cell. *)
Definition inner_parts : list part :=
  [Block "g" "j" [([Block "h" "k" [([Act "p"], None); ([Act "q"], None)]], None); ([Act "b"; Act "c"], None)]].
Theorem C85_nested_refuted : exists ops d ps d', history ops d /\ consists d "s" ps "e" /\
  sort_bound d <= 80 /\ generate_layout 80 d = (d', Err TypeError).
Proof.
  exists (build_ops "s" inner_parts "e"), (build "s" inner_parts "e"), inner_parts, (fst (generate_layout 80 (build "s" inner_parts "e"))).
  assert (H : history (build_ops "s" inner_parts "e") (build "s" inner_parts "e")) by (apply checked_history; vm_compute; reflexivity).
  split; auto. split; [eapply consists_ok; [exact H|vm_compute; reflexivity]|]. split; [apply Nat.leb_le; vm_compute; reflexivity|].
  vm_compute. reflexivity.
Qed.

(** A branch that stops and is longer than the others: the same. *)
Definition stopping_parts : list part :=
  [Block "g" "j" [([Act "a"], None); ([Act "x"; Act "y"; Act "z"], Some "w"); ([Act "c"], None)]].
Theorem C85_stopping_refuted : exists ops d ps d', history ops d /\ consists d "s" ps "e" /\
  sort_bound d <= 80 /\ generate_layout 80 d = (d', Err TypeError).
Proof.
  exists (build_ops "s" stopping_parts "e"), (build "s" stopping_parts "e"), stopping_parts, (fst (generate_layout 80 (build "s" stopping_parts "e"))).
  assert (H : history (build_ops "s" stopping_parts "e") (build "s" stopping_parts "e")) by (apply checked_history; vm_compute; reflexivity).
  split; auto. split; [eapply consists_ok; [exact H|vm_compute; reflexivity]|]. split; [apply Nat.leb_le; vm_compute; reflexivity|].
  vm_compute. reflexivity.
Qed.
Print Assumptions C85_picture.
Print Assumptions C85_api.
Print Assumptions C85_on_canvas.
Print Assumptions C85_off_canvas.
Print Assumptions C85_always_on_canvas_refuted.
Print Assumptions C85_nested_refuted.
Print Assumptions C85_stopping_refuted.
