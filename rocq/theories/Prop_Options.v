(** C97: the layout of processes with optional steps. *)
From Coq Require Import String List Bool Arith ZArith Lia Permutation.
From Verif Require Import Py PyFacts Consts Nx NxFacts Rep SpecRep RepFacts MetricsFacts Classify Layouter
  SpecLayout ClassifyFacts TopoFacts GridFacts LayoutFacts Prop_Layout Prop_LayoutMetrics SpecBlocks SpecFlat SpecPlan PlanFacts PlanBlocks PlanRules Prop_BlockLayout
  SpecCells CellFacts CellPlan Prop_Cells SpecDraw DrawFacts DrawTree Prop_Draw SpecOptions OptionShape OptionPlan.
Import ListNotations.
Open Scope string_scope.
Open Scope list_scope.

(** Where the nodes are placed. *)
Lemma option_places : forall d s ps e fuel, coherent d -> all_laid_out d -> gwf (dgraph d) -> drawable d ->
  consists d s ps e -> (forall p, In p ps -> loose_part p) -> sort_bound d <= fuel ->
  exists d' pos, generate_layout fuel d = (d', Ok tt) /\ (forall n, is_node d n -> in_cell d' n (fst (pos n)) (snd (pos n))) /\
    pos s = (2, 1)%Z /\ picture_at (fun n r c => pos n = (r, c)) 2 2 ps e.
Proof.
  intros d s ps e fuel Co AL W Dr Cs Pl F. assert (Pa : forall p, In p ps -> act_part p) by (intros p Hp; apply loose_act; auto).
  pose proof (act_acyclic d s ps e Cs Pa) as Ac. destruct (consists_shape d s ps e Cs Pl) as [Sh Fi].
  pose proof Cs as (_ & Hn & _ & Sg). unfold all_nodes in Hn. fold (nodes ps e) in Hn.
  destruct (C96_acyclic d fuel Co AL W Dr Ac F) as (order & Lo & Oa & Out & _).
  assert (One : one_split_before d).
  { intros p q n Sp Sq Gp Gq. assert (Nn : is_node d n) by (apply (goes_nodes d p n Gp)). apply Hn in Nn. destruct Nn as [<-|Nn].
    - exfalso. assert (Fs : first_node d s) by (apply Fi; left; reflexivity). exact (proj2 Fs p Gp).
    - exact (shape_one d Co AL Sg s ps e Sh Pa n Nn p q Sp Sq Gp Gq). }
  destruct (Out Sg One) as (sq & pos & D & P & O).
  assert (Ps : pos s = (2, 1)%Z).
  { assert (Fs : first_node d s) by (apply Fi; left; reflexivity). destruct Fs as [Ns Np].
    destruct (P s Ns) as [fs i F1 F2 F3 Ep|p F1 F2 F3 Ep|p r F1 F2 F3 Ep|F1 F2 F3 F4|r m F1 F2 F3 F4 F5].
    - assert (Ef : fs = [s]) by (apply Permutation_length_1_inv; exact (lists_perm _ _ _ Fi F1)). subst fs.
      destruct i as [|[|i]]; [|discriminate|destruct i; discriminate]. exact Ep.
    - exfalso. exact (Np p F2).
    - exfalso. exact (Np p (proj2 F2)).
    - exfalso. apply (few_preds d Co AL Sg s [] Ns); [|cbn; lia|exact F1]. split; [constructor|]. intro x. split; [intros []|]. intro G. exact (Np x G).
    - exfalso. destruct F2 as (p & l & i & o & r0 & [_ G] & _). exact (Np p G). }
  pose proof (shape_picture d Co AL Sg order sq pos Lo Oa D P s ps e Sh Pl 2%Z 2%Z ltac:(lia) Ps) as Pic.
  destruct (picture_apart pos ps 2%Z 2%Z e Pa Pic) as [Cl Ap].
  destruct O as [[_ (d' & Ed & At)]|[(a & b & Na & Nb & Ne & E) _]].
  - exists d', pos. split; [exact Ed|]. split; [intros m Hm; pose proof (At m) as A; destruct (pos m); exact (A Hm)|]. split; [exact Ps|exact Pic].
  - exfalso. apply Ne. apply Hn in Na. apply Hn in Nb. destruct Na as [<-|Na], Nb as [<-|Nb].
    + reflexivity.
    + specialize (Cl b Nb). rewrite <- E, Ps in Cl. cbn in Cl. lia.
    + specialize (Cl a Na). rewrite E, Ps in Cl. cbn in Cl. lia.
    + exact (Ap a b Na Nb E).
Qed.

(** A process of activities and blocks can always be laid out, where the branches of a block
    are sequences of activities or one of them is a direct flow and the others are single
    activities; the picture is known. *)
Theorem C97_picture : forall d s ps e fuel, coherent d -> all_laid_out d -> gwf (dgraph d) -> drawable d ->
  consists d s ps e -> (forall p, In p ps -> loose_part p) -> sort_bound d <= fuel ->
  exists d', generate_layout fuel d = (d', Ok tt) /\ in_cell d' s 2 1 /\ picture_at (in_cell d') 2 2 ps e.
Proof.
  intros d s ps e fuel Co AL W Dr Cs Pl F. assert (Pa : forall p, In p ps -> act_part p) by (intros p Hp; apply loose_act; auto).
  pose proof Cs as (_ & Hn & _). destruct (option_places d s ps e fuel Co AL W Dr Cs Pl F) as (d' & pos & Ed & At & Ps & Pic).
  exists d'. split; [exact Ed|]. split; [pose proof (At s) as As; rewrite Ps in As; apply As; apply Hn; left; reflexivity|].
  apply (picture_ext (fun n r c => pos n = (r, c))); [exact Pa| |exact Pic]. intros n r c Hin Ep. pose proof (At n) as A. rewrite Ep in A. apply A. apply Hn. right. exact Hin.
Qed.

(** The same for diagrams built with the API. *)
Theorem C97_api : forall l d s ps e fuel, history l d -> distinct_pairs d -> NoDup (all_nodes s ps e) ->
  (forall n, is_node d n <-> In n (all_nodes s ps e)) ->
  (forall x y, (exists f r, dget f (seq_flows d) = Some r /\ fl_src r = x /\ fl_tgt r = y) <-> In (x, y) (path_flows s ps e)) ->
  (forall p, In p ps -> loose_part p) -> sort_bound d <= fuel ->
  exists d', generate_layout fuel d = (d', Ok tt) /\ in_cell d' s 2 1 /\ picture_at (in_cell d') 2 2 ps e.
Proof.
  intros l d s ps e fuel H D N Nd Fl P F. destruct (C26_api_diagrams_coherent l d H D) as [Co [AL [W [Dr Ff]]]].
  apply C97_picture; auto. split; [exact N|]. split; [exact Nd|]. split.
  - intros x y. rewrite <- Fl. unfold goes. split; intros [f X].
    + apply Ff in X. destruct X as [r X]. eauto.
    + destruct X as [r X]. exists f. apply Ff. eauto.
  - intros f g x y A B. apply Ff in A, B. destruct A as [r [A1 [A2 A3]]], B as [r' [B1 [B2 B3]]]. apply (D f r g r' A1 B1). left. split; congruence.
Qed.

(** * Optional steps *)
(** Blocks with a direct flow are optional steps. *)
Definition only_options (p : part) : Prop := match p with Act _ => True | Block _ _ bs => direct bs = true -> length bs = 2 end.
Definition options (ps : list part) : nat := length (filter optional ps).
Lemma after_two : forall row bs, direct bs = true -> length bs = 2 -> row_after row bs = meet_row row 2.
Proof. intros row bs E L. unfold row_after. rewrite E, L. reflexivity. Qed.
Lemma rows_two : forall row bs, direct bs = true -> length bs = 2 -> rows_of row bs = [row + 2]%Z.
Proof. intros row bs E L. unfold rows_of. rewrite E, L. reflexivity. Qed.
Lemma iter_in : forall (f : Z -> Z) n x, Nat.iter (S n) f (f x) = Nat.iter (S (S n)) f x.
Proof. intros f n x. induction n as [|n IH]; [reflexivity|]. change (f (Nat.iter (S n) f (f x)) = f (Nat.iter (S (S n)) f x)). rewrite IH. reflexivity. Qed.
Lemma drift : forall (at_ : string -> Z -> Z -> Prop) ps1 row col ps2 g j bs e, picture_at at_ row col (ps1 ++ Block g j bs :: ps2) e ->
  (forall p, In p ps1 -> only_options p) -> optional (Block g j bs) = true ->
  exists c, at_ j (Nat.iter (S (options ps1)) (fun r => meet_row r 2) row) c.
Proof.
  intros at_. induction ps1 as [|[m|g0 j0 bs0] ps1 IH]; intros row col ps2 g j bs e X Po Op; cbn [app picture_at] in X.
  - cbn [optional] in Op. apply andb_true_iff in Op. destruct Op as [Ed El]. apply Nat.eqb_eq in El. destruct X as (_ & X & _).
    rewrite (after_two row bs Ed El) in X. eexists. exact X.
  - destruct X as [_ X]. destruct (IH row (col + 1)%Z ps2 g j bs e X (fun p Hp => Po p (or_intror Hp)) Op) as [c H]. exists c. exact H.
  - destruct X as (_ & _ & _ & X). destruct (IH _ _ ps2 g j bs e X (fun p Hp => Po p (or_intror Hp)) Op) as [c H]. exists c.
    pose proof (Po _ (or_introl eq_refl)) as P0. cbn [only_options] in P0. unfold options in *. cbn [filter optional].
    destruct (direct bs0) eqn:Ed; cbn [andb].
    + rewrite (after_two row bs0 Ed (P0 eq_refl)) in H. rewrite (P0 eq_refl). cbn [Nat.eqb length]. rewrite <- (iter_in (fun r => meet_row r 2)). exact H.
    + unfold row_after in H. rewrite Ed in H. exact H.
Qed.
Lemma meet_two : forall n, Nat.iter (S n) (fun r => meet_row r 2) 2%Z = (3 - 2 * Z.of_nat n)%Z.
Proof.
  induction n as [|n IH]; [reflexivity|]. change (Nat.iter (S (S n)) (fun r => meet_row r 2) 2%Z) with (meet_row (Nat.iter (S n) (fun r => meet_row r 2) 2%Z) 2).
  rewrite IH. unfold meet_row. change (2 / 2) with 1. change (Nat.odd 2) with false. destruct (Z.eqb_spec (3 - 2 * Z.of_nat n - 2 * Z.of_nat 1) 0); lia.
Qed.

(** Each optional step after the first moves the process up by two rows: the node where the
    optional step number [n + 1] ends is drawn at height 350 - 200 n. *)
Theorem C97_drift : forall d s ps1 g j bs ps2 e fuel, coherent d -> all_laid_out d -> gwf (dgraph d) -> drawable d ->
  consists d s (ps1 ++ Block g j bs :: ps2) e -> (forall p, In p (ps1 ++ Block g j bs :: ps2) -> loose_part p) ->
  (forall p, In p ps1 -> only_options p) -> optional (Block g j bs) = true -> sort_bound d <= fuel ->
  exists d' x, generate_layout fuel d = (d', Ok tt) /\ at_xy d' j x (350 - 200 * Z.of_nat (options ps1)).
Proof.
  intros d s ps1 g j bs ps2 e fuel Co AL W Dr Cs Pl Po Op F. destruct (C97_picture d s _ e fuel Co AL W Dr Cs Pl F) as (d' & Ed & _ & X).
  destruct (drift (in_cell d') ps1 2%Z 2%Z ps2 g j bs e X Po Op) as [c H]. rewrite meet_two in H. unfold in_cell in H.
  exists d'. eexists. split; [exact Ed|]. replace (350 - 200 * Z.of_nat (options ps1))%Z with (100 * (3 - 2 * Z.of_nat (options ps1)) + 50)%Z by lia. exact H.
Qed.

(** Three optional steps: something is always drawn above the canvas. *)
Theorem C97_off_canvas : forall d s ps e fuel, coherent d -> all_laid_out d -> gwf (dgraph d) -> drawable d ->
  consists d s ps e -> (forall p, In p ps -> loose_part p) -> (forall p, In p ps -> only_options p) -> 3 <= options ps -> sort_bound d <= fuel ->
  exists d' n x y, generate_layout fuel d = (d', Ok tt) /\ is_node d n /\ at_xy d' n x y /\ (y < 0)%Z.
Proof.
  intros d s ps e fuel Co AL W Dr Cs Pl Po K F.
  assert (X : forall n qs, n < options qs -> exists ps1 p ps2, qs = ps1 ++ p :: ps2 /\ optional p = true /\ options ps1 = n).
  { clear. intros n qs. revert n. unfold options. induction qs as [|p qs IH]; intros n H; cbn [filter] in H; [cbn in H; lia|].
    destruct (optional p) eqn:Ep.
    - destruct n as [|n]; [exists [], p, qs; auto|]. cbn [length] in H. destruct (IH n) as (a & q & b & -> & E1 & E2); [lia|].
      exists (p :: a), q, b. split; [reflexivity|]. split; [exact E1|]. cbn [filter]. rewrite Ep. cbn [length]. rewrite E2. reflexivity.
    - destruct (IH n H) as (a & q & b & -> & E1 & E2). exists (p :: a), q, b. split; [reflexivity|]. split; [exact E1|]. cbn [filter]. rewrite Ep. exact E2. }
  destruct (X 2 ps K) as (ps1 & [m|g j bs] & ps2 & -> & Op & E2); [discriminate|].
  destruct (C97_drift d s ps1 g j bs ps2 e fuel Co AL W Dr Cs Pl) as (d' & x & Ed & H); auto; [intros p Hp; apply Po, in_or_app; left; exact Hp|].
  exists d', j, x, (350 - 200 * Z.of_nat (options ps1))%Z. split; [exact Ed|]. split; [|split; [exact H|rewrite E2; lia]].
  destruct Cs as (_ & Hn & _). apply Hn. right. apply in_or_app. left. apply in_flat_map. exists (Block g j bs). split; [apply in_or_app; right; left; reflexivity|right; left; reflexivity].
Qed.

(** At most two optional steps and no other blocks: everything is on the canvas. *)
Definition calm (p : part) : Prop := match p with Act _ => True | Block _ _ _ => optional p = true end.
Lemma calm_rows : forall (at_ : string -> Z -> Z -> Prop) ps row col e, (forall p, In p ps -> act_part p) -> (forall p, In p ps -> calm p) ->
  (1 <= col)%Z -> (row = 2%Z /\ options ps <= 2 \/ row = 3%Z /\ options ps <= 1 \/ row = 1%Z /\ options ps = 0) ->
  picture_at at_ row col ps e -> forall n, In n (nodes ps e) -> exists r c, (0 <= r)%Z /\ (0 <= c)%Z /\ at_ n r c.
Proof.
  intros at_. induction ps as [|[m|g j bs] qs IH]; intros row col e Pa Pc C St X n Hn; cbn [picture_at] in X.
  - destruct Hn as [<-|[]]. exists row, col. split; [lia|]. split; [lia|exact X].
  - destruct X as [X1 X2]. destruct Hn as [<-|Hn]; [exists row, col; split; [lia|]; split; [lia|exact X1]|].
    apply (IH row (col + 1)%Z e); auto; [intros p Hp; apply Pa; right; exact Hp|intros p Hp; apply Pc; right; exact Hp|lia].
  - change (list branch_t) in (type of bs). destruct X as (X1 & X2 & (rows & X3 & X4) & X5). pose proof (Pc _ (or_introl eq_refl)) as Op. cbn [calm] in Op.
    assert (Eo : options (Block g j bs :: qs) = S (options qs)) by (unfold options; cbn [filter]; rewrite Op; reflexivity). rewrite Eo in St.
    cbn [optional] in Op. apply andb_true_iff in Op. destruct Op as [Ed El]. apply Nat.eqb_eq in El. pose proof (longest_nonneg bs) as L0.
    assert (Er : row_after row bs = 3%Z /\ row = 2%Z \/ row_after row bs = 1%Z /\ row = 3%Z).
    { rewrite (after_two row bs Ed El). destruct St as [[-> _]|[[-> _]|[_ St]]]; [left; split; reflexivity|right; split; reflexivity|lia]. }
    unfold nodes in Hn. cbn [flat_map] in Hn. rewrite act_nodes in Hn by (apply (Pa (Block g j bs)); left; reflexivity). rewrite <- app_assoc in Hn. cbn [app] in Hn.
    destruct Hn as [<-|[<-|Hn]].
    + exists row, col. split; [lia|]. split; [lia|exact X1].
    + exists (row_after row bs), (col + longest bs + 1)%Z. split; [lia|]. split; [lia|exact X2].
    + apply in_app_or in Hn. destruct Hn as [Hn|Hn].
      * apply in_flat_map in Hn. destruct Hn as [b [Hb Hn]]. assert (Hs : In b (filter has_steps bs)) by (apply in_steps; split; [exact Hb|destruct (names b); [destruct Hn|cbn; lia]]).
        destruct (Forall2_left _ _ _ _ _ b X4 Hs) as [r [Hr Wl]]. apply (Permutation_in _ X3) in Hr. rewrite (rows_two row bs Ed El) in Hr.
        assert (G : forall l c n, (1 <= c)%Z -> line_at at_ r c l -> In n (map first_of l) -> exists c', (0 <= c')%Z /\ at_ n r c').
        { clear. induction l as [|y l IHl]; intros c n C W H; [destruct H|]. destruct W as [W1 W2]. destruct H as [<-|H]; [exists c; split; [lia|exact W1]|apply (IHl (c + 1)%Z); auto; lia]. }
        destruct (G (fst b) (col + 1)%Z n ltac:(lia) Wl Hn) as (c' & C' & A). exists r, c'. split; [destruct Hr as [<-|[]]; lia|]. split; [exact C'|exact A].
      * apply (IH (row_after row bs) (col + longest bs + 2)%Z e); auto; [intros p Hp; apply Pa; right; exact Hp|intros p Hp; apply Pc; right; exact Hp|lia|].
        destruct Er as [[E1 E2]|[E1 E2]]; rewrite E1; lia.
Qed.
Theorem C97_on_canvas : forall d s ps e fuel, coherent d -> all_laid_out d -> gwf (dgraph d) -> drawable d ->
  consists d s ps e -> (forall p, In p ps -> loose_part p) -> (forall p, In p ps -> calm p) -> options ps <= 2 -> sort_bound d <= fuel ->
  exists d', generate_layout fuel d = (d', Ok tt) /\ forall n, is_node d n -> exists x y, at_xy d' n x y /\ (50 <= x)%Z /\ (50 <= y)%Z.
Proof.
  intros d s ps e fuel Co AL W Dr Cs Pl Pc K F. destruct (C97_picture d s ps e fuel Co AL W Dr Cs Pl F) as (d' & Ed & S & X). exists d'. split; [exact Ed|].
  intros n Hn. destruct Cs as (_ & Nd & _). apply Nd in Hn. destruct Hn as [<-|Hn].
  - exists (150 * 1 + 50)%Z, (100 * 2 + 50)%Z. split; [exact S|]. lia.
  - destruct (calm_rows (in_cell d') ps 2%Z 2%Z e) with (n := n) as (r & c & R & C & I); auto; [intros p Hp; apply loose_act; auto|lia|].
    exists (150 * c + 50)%Z, (100 * r + 50)%Z. split; [exact I|]. lia.
Qed.

(** * Examples *)
Definition loose_b (p : part) : bool :=
  match p with
  | Act _ => true
  | Block _ _ bs => plain_b p || (Nat.leb 2 (length bs) && Nat.eqb (length (filter (fun b : branch_t => negb (has_steps b)) bs)) 1 &&
      forallb (fun b : branch_t => match b with ([], None) => true | ([Act _], None) => true | _ => false end) bs)
  end.
Lemma loose_ok : forall ps, forallb loose_b ps = true -> forall p, In p ps -> loose_part p.
Proof.
  intros ps H p Hp. rewrite forallb_forall in H. specialize (H p Hp). destruct p as [m|g j bs]; [exact I|]. change (list branch_t) in (type of bs). cbn [loose_b] in H.
  apply orb_true_iff in H. destruct H as [H|H].
  - destruct (plain_ok [Block g j bs]) with (p := Block g j bs) as [A B]; [cbn [forallb]; rewrite H; reflexivity|left; reflexivity|]. split; [exact A|left; exact B].
  - rewrite !andb_true_iff in H. destruct H as [[H1 H2] H3]. split; [apply Nat.leb_le; exact H1|right]. apply Nat.eqb_eq in H2. clear H1 Hp. rewrite forallb_forall in H3.
    assert (Z : forall l, length (filter (fun b : branch_t => negb (has_steps b)) l) = 0 -> (forall b, In b l -> In b bs) -> forall b, In b l -> exists n, b = ([Act n], None)).
    { intros l E I b Hb. specialize (H3 b (I b Hb)). destruct b as [[|[n|] [|]] [|]]; try discriminate; [|exists n; reflexivity].
      exfalso. assert (C : In ([], None) (filter (fun b : branch_t => negb (has_steps b)) l)) by (apply filter_In; split; [exact Hb|reflexivity]).
      destruct (filter (fun b : branch_t => negb (has_steps b)) l); [destruct C|cbn in E; lia]. }
    assert (X : forall l, length (filter (fun b : branch_t => negb (has_steps b)) l) = 1 -> (forall b, In b l -> In b bs) ->
       exists u v, l = u ++ ([], None) :: v /\ forall b, In b (u ++ v) -> exists n, b = ([Act n], None)).
    { induction l as [|b l IH]; intros E I; [discriminate|]. cbn [filter] in E. specialize (H3 b (I b (or_introl eq_refl))). destruct (has_steps b) eqn:Eb; cbn [negb] in E.
      - destruct (IH E (fun b Hb => I b (or_intror Hb))) as (u & v & -> & Q). exists (b :: u), v. split; [reflexivity|]. intros c [<-|Hc]; [|exact (Q c Hc)].
        destruct b as [[|[n|] [|]] [|]]; try discriminate. exists n. reflexivity.
      - exists [], l. destruct b as [[|[n|] [|]] [|]]; try discriminate. split; [reflexivity|]. cbn [app]. apply Z; [cbn [length] in E; lia|intros c Hc; apply I; right; exact Hc]. }
    apply X; auto.
Qed.
Definition option_ops (s : string) (ps : list part) (e : string) : list op :=
  [ONew "m" "0"; OStart "id2" s None false true (Some s) "" ""] ++
  map (fun n => if smem n ["g1"; "g2"; "g3"] then OExclusive "id2" n "Diverging" None (Some n) "" else if smem n ["j1"; "j2"; "j3"] then OExclusive "id2" n "Converging" None (Some n) ""
                else OTask "id2" n (Some n) "") (flat_map part_nodes ps) ++
  [OEnd "id2" e None (Some e) "" ""] ++ map (fun p => OFlow "id2" (fst p) (snd p) "" (fst p ++ snd p)%string) (path_flows s ps e).
Definition option_of (s : string) (ps : list part) (e : string) : diagram := run empty_diagram (option_ops s ps e).
Definition places (d : diagram) : list (string * string * string) :=
  map (fun x => match x with (n, Some (VStr a), Some (VStr b)) => (n, a, b) | (n, _, _) => (n, "", "") end) (drawn_at d).

Definition three_parts : list part :=
  [Block "g1" "j1" [([], None); ([Act "a"], None)]; Act "b"; Block "g2" "j2" [([Act "c"], None); ([], None)]; Block "g3" "j3" [([Act "f"], None); ([], None)]].
Lemma three_ok : history (option_ops "s" three_parts "e") (option_of "s" three_parts "e") /\
  (coherent (option_of "s" three_parts "e") /\ all_laid_out (option_of "s" three_parts "e") /\ gwf (dgraph (option_of "s" three_parts "e")) /\
   drawable (option_of "s" three_parts "e") /\ consists (option_of "s" three_parts "e") "s" three_parts "e") /\
  (forall p, In p three_parts -> loose_part p) /\ sort_bound (option_of "s" three_parts "e") <= 80.
Proof.
  assert (H : history (option_ops "s" three_parts "e") (option_of "s" three_parts "e")) by (apply checked_history; vm_compute; reflexivity).
  split; [exact H|]. split; [eapply consists_ok; [exact H|vm_compute; reflexivity]|]. split; [apply loose_ok; reflexivity|].
  apply Nat.leb_le. vm_compute. reflexivity.
Qed.
Example C97_picture_example : let r := generate_layout 80 (option_of "s" three_parts "e") in
  snd r = Ok tt /\ places (fst r) =
  [("s", "200", "250"); ("g1", "350", "250"); ("j1", "650", "350"); ("a", "500", "450"); ("b", "800", "350");
   ("g2", "950", "350"); ("j2", "1250", "150"); ("c", "1100", "550"); ("g3", "1400", "150"); ("j3", "1700", "-50"); ("f", "1550", "350"); ("e", "1850", "-50")].
Proof. vm_compute. split; reflexivity. Qed.
Example C97_picture_applies : exists d', generate_layout 80 (option_of "s" three_parts "e") = (d', Ok tt) /\ in_cell d' "s" 2 1 /\ picture_at (in_cell d') 2 2 three_parts "e".
Proof. destruct three_ok as [_ [[Co [AL [W [Dr Cs]]]] [P F]]]. apply C97_picture; auto. Qed.
Example C97_off_canvas_applies : options three_parts = 3 /\
  exists d' n x y, generate_layout 80 (option_of "s" three_parts "e") = (d', Ok tt) /\ is_node (option_of "s" three_parts "e") n /\ at_xy d' n x y /\ (y < 0)%Z.
Proof.
  split; [reflexivity|]. destruct three_ok as [_ [[Co [AL [W [Dr Cs]]]] [P F]]]. apply (C97_off_canvas _ "s" three_parts "e"); auto.
  intros p [<-|[<-|[<-|[<-|[]]]]]; cbn; auto.
Qed.
Example C97_drift_applies : exists d' x, generate_layout 80 (option_of "s" three_parts "e") = (d', Ok tt) /\ at_xy d' "j3" x (-50).
Proof.
  destruct three_ok as [_ [[Co [AL [W [Dr Cs]]]] [P F]]].
  apply (C97_drift _ "s" (firstn 3 three_parts) "g3" "j3" [([Act "f"], None); ([], None)] [] "e"); auto.
  intros p [<-|[<-|[<-|[]]]]; cbn; auto.
Qed.
(** A choice between two activities and a direct flow, then a block without one. *)
Definition mixed_parts : list part :=
  [Block "g1" "j1" [([Act "a"], None); ([Act "b"], None); ([], None)]; Act "x"; Block "g2" "j2" [([Act "c"; Act "k"], None); ([Act "f"], None)]; Block "g3" "j3" [([Act "h"], None); ([], None)]].
Example C97_mixed_example : (forall p, In p mixed_parts -> loose_part p) /\ snd (generate_layout 90 (option_of "s" mixed_parts "e")) = Ok tt /\
  places (fst (generate_layout 90 (option_of "s" mixed_parts "e"))) =
  [("s", "200", "250"); ("g1", "350", "250"); ("j1", "650", "250"); ("a", "500", "250"); ("b", "500", "450"); ("x", "800", "250");
   ("g2", "950", "250"); ("j2", "1400", "250"); ("c", "1100", "50"); ("k", "1250", "50"); ("f", "1100", "450"); ("g3", "1550", "250"); ("j3", "1850", "350"); ("h", "1700", "450"); ("e", "2000", "350")].
Proof. split; [apply loose_ok; reflexivity|]. vm_compute. split; reflexivity. Qed.
Example C97_on_canvas_applies : exists ps d, history (option_ops "s" ps "e") d /\ consists d "s" ps "e" /\ options ps = 2 /\
  exists d', generate_layout 80 d = (d', Ok tt) /\ forall n, is_node d n -> exists x y, at_xy d' n x y /\ (50 <= x)%Z /\ (50 <= y)%Z.
Proof.
  exists (firstn 3 three_parts), (option_of "s" (firstn 3 three_parts) "e").
  assert (H : history (option_ops "s" (firstn 3 three_parts) "e") (option_of "s" (firstn 3 three_parts) "e")) by (apply checked_history; vm_compute; reflexivity).
  destruct (consists_ok _ _ "s" (firstn 3 three_parts) "e" H) as (Co & AL & W & Dr & Cs); [vm_compute; reflexivity|].
  split; [exact H|]. split; [exact Cs|]. split; [reflexivity|]. apply (C97_on_canvas _ "s" (firstn 3 three_parts) "e"); auto; [apply loose_ok; reflexivity| |apply Nat.leb_le; vm_compute; reflexivity].
  intros p [<-|[<-|[<-|[]]]]; cbn; auto.
Qed.
Print Assumptions C97_picture.
Print Assumptions C97_api.
Print Assumptions C97_drift.
Print Assumptions C97_off_canvas.
Print Assumptions C97_on_canvas.
