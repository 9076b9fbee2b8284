(** Lists of the nodes and branches of the diagram loaded from the file of a process with
    optional steps. *)
From Coq Require Import String Ascii List Bool Arith ZArith Lia Permutation.
From Verif Require Import Py PyFacts Consts Nx NxFacts Rep SpecRep RepFacts SpecLayout TopoFacts ClassifyFacts.
From Verif Require Import CsvRegex CsvImport SpecCsv RegexFacts CsvFacts CsvTable SpecFlow CsvGhost CsvFill CsvExport SpecCsvExport CsvOrders.
From Verif Require Import SpecBlocks BlockExport SpecFlat FlatTable FlatLines SpecPlan SpecMeasure SpecOptional OptionalTable Prop_CsvFlat Prop_BlockCsv MeasureFacts Prop_Measure.
Import ListNotations.
Open Scope string_scope.
Open Scope list_scope.
Open Scope nat_scope.

(** * Which gateways are lost *)
Lemma lasting_iff : forall b, lasting b = true <-> SpecOptional.meets b.
Proof.
  intros [[|q u] [x|]]; unfold lasting, SpecOptional.meets; cbn [fst snd]; split; intros H; first [discriminate H|reflexivity|split; [reflexivity|discriminate]|destruct H as [H1 H2]; first [discriminate H1|elim H2; reflexivity]].
Qed.
Lemma two_found : forall A (f : A -> bool) l, 2 <= length (filter f l) ->
  exists i i' b b', i <> i' /\ nth_error l i = Some b /\ nth_error l i' = Some b' /\ f b = true /\ f b' = true.
Proof.
  intros A f. induction l as [|b l IH]; cbn [filter]; [cbn; lia|]. intros H. destruct (f b) eqn:E.
  - cbn [length] in H. destruct (filter f l) as [|c m] eqn:F; [cbn in H; lia|]. assert (I : In c (filter f l)) by (rewrite F; left; auto).
    apply filter_In in I. destruct I as [I Fc]. apply In_nth_error in I. destruct I as [i Hi]. exists 0, (S i), b, c. repeat split; auto.
  - destruct (IH H) as (i & i' & c & c' & N & H1 & H2 & F1 & F2). exists (S i), (S i'), c, c'. repeat split; auto.
Qed.
Lemma one_found : forall A (f : A -> bool) l i b, nth_error l i = Some b -> f b = true -> 1 <= length (filter f l).
Proof.
  intros A f l i b H F. assert (I : In b (filter f l)) by (apply filter_In; split; [eapply nth_error_In; eauto|auto]). destruct (filter f l); [contradiction|cbn; lia].
Qed.
Lemma two_there : forall A (f : A -> bool) l i i' b b', i < i' -> nth_error l i = Some b -> nth_error l i' = Some b' -> f b = true -> f b' = true ->
  2 <= length (filter f l).
Proof.
  intros A f. induction l as [|c l IH]; intros [|i] [|i'] b b' N H H' F F'; try lia; try discriminate; cbn [nth_error] in *.
  - injection H as ->. cbn [filter]. rewrite F. cbn [length]. pose proof (one_found A f l i' b' H' F'). lia.
  - cbn [filter]. assert (2 <= length (filter f l)) by (eapply (IH i i'); eauto; lia). destruct (f c); cbn [length]; lia.
Qed.
Lemma lone_iff : forall bs, lone bs <-> length (filter lasting bs) <= 1.
Proof.
  intros bs. split.
  - intros L. destruct (le_lt_dec (length (filter lasting bs)) 1) as [|H]; auto. exfalso.
    destruct (two_found _ _ _ H) as (i & i' & b & b' & N & H1 & H2 & F1 & F2). apply N. eapply L; eauto; apply lasting_iff; auto.
  - intros H i i' b b' H1 H2 M1 M2. apply lasting_iff in M1, M2. destruct (lt_eq_lt_dec i i') as [[C|C]|C]; auto; exfalso.
    + pose proof (two_there _ _ _ _ _ _ _ C H1 H2 M1 M2). lia.
    + pose proof (two_there _ _ _ _ _ _ _ C H2 H1 M2 M1). lia.
Qed.

(** * Lists *)
Definition shallow (p : part) : Prop := match p with Act _ => True | Block _ _ bs => forall b q, In b bs -> In q (fst b) -> is_act q end.
Lemma optional_shallow : forall ps, optional ps -> forall p, In p ps -> shallow p.
Proof.
  intros ps Op [n|g j bs] H; cbn [shallow]; auto. intros b q Hb Hq. apply (proj1 Op) in H. destruct H as [_ [_ [H _]]].
  destruct (H b Hb) as [F| ->]; [apply F; auto|contradiction].
Qed.
Lemma acts_none : forall (f : part -> list string) l, (forall n, f (Act n) = []) -> (forall q, In q l -> is_act q) -> flat_map f l = [].
Proof. intros f l F. induction l as [|q l IH]; intros H; cbn [flat_map]; auto. destruct (H q (or_introl eq_refl)) as [n ->]. rewrite F, IH by (intros; apply H; right; auto). reflexivity. Qed.
Lemma acts_zero : forall (f : part -> nat) l, (forall n, f (Act n) = 0) -> (forall q, In q l -> is_act q) -> list_sum (map f l) = 0.
Proof. intros f l F. induction l as [|q l IH]; intros H; cbn; auto. destruct (H q (or_introl eq_refl)) as [n ->]. rewrite F. cbn. apply IH. intros; apply H; right; auto. Qed.
Lemma sum_zero : forall A (f : A -> nat) l, (forall x, In x l -> f x = 0) -> list_sum (map f l) = 0.
Proof. intros A f l H. induction l as [|x l IH]; cbn; auto. rewrite (H x) by (left; auto). cbn. apply IH. intros; apply H; right; auto. Qed.

Fixpoint split_list (k : nat) (ps : list part) : list string :=
  match ps with [] => [] | Act _ :: qs => split_list (S k) qs | Block _ _ _ :: qs => split_of (num (k - 1)) :: split_list (S k) qs end.
Fixpoint join_list (k : nat) (ps : list part) : list string :=
  match ps with [] => [] | p :: qs => match p with Act _ => [] | Block _ _ _ => if gone p then [] else [join_of (num (S k))] end ++ join_list (S k) qs end.
Fixpoint branch_list (k : nat) (ps : list part) : list (string * string) :=
  match ps with
  | [] => []
  | Act _ :: qs => branch_list (S k) qs
  | Block _ _ bs :: qs => map (fun i => (num (k - 1), row_label k i 1)) (seq 0 (length bs)) ++ branch_list (S k) qs
  end.
Definition width (p : part) : nat := match p with Act _ => 0 | Block _ _ bs => length bs end.

Lemma split_list_in : forall ps k x, In x (split_list (S k) ps) <-> exists i bs, block_no ps i bs /\ x = split_of (num (k + i)).
Proof.
  induction ps as [|[n|g j bs] qs IH]; intros k x; cbn [split_list In].
  - split; [intros []|]. intros (i & bs & [g [j B]] & _). destruct i; discriminate.
  - rewrite IH. split; intros (i & bs & [g [j B]] & ->).
    + exists (S i), bs. split; [exists g, j; exact B|f_equal; f_equal; lia].
    + destruct i as [|i]; [discriminate|]. exists i, bs. split; [exists g, j; exact B|f_equal; f_equal; lia].
  - rewrite IH. split.
    + intros [<- |(i & bs' & [g' [j' B]] & ->)].
      * exists 0, bs. split; [exists g, j; reflexivity|f_equal; f_equal; lia].
      * exists (S i), bs'. split; [exists g', j'; exact B|f_equal; f_equal; lia].
    + intros (i & bs' & [g' [j' B]] & ->). destruct i as [|i]; [left; f_equal; f_equal; lia|]. right. exists i, bs'. split; [exists g', j'; exact B|f_equal; f_equal; lia].
Qed.
Lemma join_list_in : forall ps k x, In x (join_list (S k) ps) <-> exists i bs, block_no ps i bs /\ ~ lone bs /\ x = join_of (num (S (S (k + i)))).
Proof.
  induction ps as [|[n|g j bs] qs IH]; intros k x; cbn [join_list app].
  - split; [intros []|]. intros (i & bs & [g [j B]] & _). destruct i; discriminate.
  - rewrite IH. split; intros (i & bs & [g [j B]] & L & ->).
    + exists (S i), bs. split; [exists g, j; exact B|split; [exact L|f_equal; f_equal; lia]].
    + destruct i as [|i]; [discriminate|]. exists i, bs. split; [exists g, j; exact B|split; [exact L|f_equal; f_equal; lia]].
  - rewrite in_app_iff, IH. assert (Hg : gone (Block g j bs) = true <-> lone bs) by (cbn [gone]; rewrite Nat.leb_le; symmetry; apply lone_iff). split.
    + intros [H|(i & bs' & [g' [j' B]] & L & ->)].
      * destruct (gone (Block g j bs)) eqn:E; [contradiction|]. destruct H as [<- |[]]. exists 0, bs. split; [exists g, j; reflexivity|].
        split; [intros C; apply Hg in C; congruence|f_equal; f_equal; lia].
      * exists (S i), bs'. split; [exists g', j'; exact B|split; [exact L|f_equal; f_equal; lia]].
    + intros (i & bs' & [g' [j' B]] & L & ->). destruct i as [|i].
      * left. cbn [nth_error] in B. injection B as <- <- <-. destruct (gone (Block g j bs)) eqn:E; [elim L; apply Hg; reflexivity|]. left. f_equal. f_equal. lia.
      * right. exists i, bs'. split; [exists g', j'; exact B|split; [exact L|f_equal; f_equal; lia]].
Qed.
Lemma branch_list_in : forall ps k x, In x (branch_list (S k) ps) <-> exists i m b, branch_no ps i m b /\ x = (num (k + i), row_label (S (k + i)) m 1).
Proof.
  induction ps as [|[n|g j bs] qs IH]; intros k x; cbn [branch_list].
  - split; [intros []|]. intros (i & m & b & [bs [[g [j B]] _]] & _). destruct i; discriminate.
  - rewrite IH. split; intros (i & m & b & [bs [[g [j B]] H]] & ->).
    + exists (S i), m, b. split; [exists bs; split; [exists g, j; exact B|exact H]|]. replace (k + S i) with (S k + i) by lia. reflexivity.
    + destruct i as [|i]; [discriminate|]. exists i, m, b. split; [exists bs; split; [exists g, j; exact B|exact H]|]. replace (k + S i) with (S k + i) by lia. reflexivity.
  - rewrite in_app_iff, IH, in_map_iff. split.
    + intros [(m & <- & I)|(i & m & b & [bs' [[g' [j' B]] H]] & ->)].
      * apply in_seq in I. destruct (nth_error bs m) as [b|] eqn:E; [|apply nth_error_None in E; unfold branch_t in *; lia].
        exists 0, m, b. split; [exists bs; split; [exists g, j; reflexivity|exact E]|]. rewrite Nat.sub_succ, Nat.sub_0_r, Nat.add_0_r. reflexivity.
      * exists (S i), m, b. split; [exists bs'; split; [exists g', j'; exact B|exact H]|]. replace (k + S i) with (S k + i) by lia. reflexivity.
    + intros (i & m & b & [bs' [[g' [j' B]] H]] & ->). destruct i as [|i].
      * left. cbn [nth_error] in B. injection B as <- <- <-. exists m. split; [rewrite Nat.sub_succ, Nat.sub_0_r, Nat.add_0_r; reflexivity|].
        apply in_seq. apply nth_lt in H. unfold branch_t in *. lia.
      * right. exists i, m, b. split; [exists bs'; split; [exists g', j'; exact B|exact H]|]. replace (k + S i) with (S k + i) by lia. reflexivity.
Qed.
Lemma branch_list_distinct : forall ps k, (forall p, In p ps -> letters_enough p) -> NoDup (branch_list (S k) ps).
Proof.
  induction ps as [|[n|g j bs] qs IH]; intros k L; cbn [branch_list]; [constructor|apply IH; intros; apply L; right; auto|].
  apply NoDup_app.
  - pose proof (L _ (or_introl eq_refl)) as Lb. cbn [letters_enough] in Lb. apply (NoDup_map_inv snd). rewrite map_map. cbn [snd].
    assert (X : forall a l, (forall i, In i l -> i < 26) -> NoDup l -> NoDup (map (fun i => row_label (S a) i 1) l)).
    { intros a l H N. induction N as [|i l Hi N IHn]; cbn [map]; constructor.
      - intro I. apply in_map_iff in I. destruct I as [i' [E I]]. apply row_inj in E; [|apply H; right; auto|apply H; left; auto]. destruct E as [_ [-> _]]. auto.
      - apply IHn. intros; apply H; right; auto. }
    apply X; [|apply seq_NoDup]. intros i I. apply in_seq in I. lia.
  - apply IH. intros; apply L; right; auto.
  - intros x I J. apply in_map_iff in I. destruct I as [i [<- I]]. apply branch_list_in in J. destruct J as (i' & m & b & _ & E). injection E as E _.
    rewrite Nat.sub_0_r in E. apply num_inj in E. lia.
Qed.
Lemma labelled_gates : forall k g j bs, part_gates (relabel_part k (Block g j bs)) = [split_of (num (k - 1)); join_of (num (S k))].
Proof.
  intros k g j bs. cbn [relabel_part part_gates]. f_equal. f_equal.
  assert (X : forall l i, flat_map (fun b : branch_t => flat_map part_gates (fst b)) (relabel_branches k i l) = []).
  { induction l as [|b l IH]; intros i; cbn [relabel_branches flat_map]; auto. rewrite IH, app_nil_r. apply acts_none; auto.
    intros q H. unfold relabel_branch in H. cbn [fst] in H. apply in_map_iff in H. destruct H as [m [<- _]]. red. eauto. }
  apply X.
Qed.
Lemma gates_shuffle : forall ps k, exists l, Permutation ((split_list k ps ++ join_list k ps) ++ l) (flat_map part_gates (relabel k ps)).
Proof.
  induction ps as [|[n|g j bs] qs IH]; intros k.
  - exists []. constructor.
  - destruct (IH (S k)) as [l P]. exists l. cbn [split_list join_list relabel relabel_part flat_map part_gates app]. exact P.
  - destruct (IH (S k)) as [l P]. cbn [relabel flat_map]. rewrite labelled_gates. cbn [split_list join_list]. destruct (gone (Block g j bs)).
    + exists (join_of (num (S k)) :: l). cbn [app]. constructor. rewrite <- Permutation_middle. constructor. exact P.
    + exists l. cbn [app]. constructor. rewrite <- Permutation_middle. cbn [app]. constructor. exact P.
Qed.
Lemma gates_listed : forall ps, (forall p, In p ps -> letters_enough p) -> NoDup (split_list 1 ps ++ join_list 1 ps) /\ NoDup (join_list 1 ps) /\
  NoDup (flat_map part_acts (relabel 1 ps)) /\ NoDup (num (S (length ps)) :: flat_map part_ends (relabel 1 ps)).
Proof.
  intros ps L. pose proof (labels_distinct ps L) as N. rewrite (kinds_perm "0" (relabel 1 ps) (num (S (length ps)))) in N.
  inversion N as [|? ? _ N1]; subst. change (NoDup ((num (S (length ps)) :: flat_map part_ends (relabel 1 ps)) ++ flat_map part_acts (relabel 1 ps) ++ flat_map part_gates (relabel 1 ps))) in N1.
  pose proof (nodup_l _ _ _ N1) as A. pose proof (nodup_r _ _ _ N1) as B.
  pose proof (nodup_l _ _ _ B) as C. pose proof (nodup_r _ _ _ B) as D. destruct (gates_shuffle ps 1) as [l P]. rewrite <- P in D.
  apply nodup_l in D. split; auto. split; [eapply nodup_r; exact D|]. split; auto.
Qed.
Lemma split_len : forall ps k, (forall p, In p ps -> shallow p) -> length (split_list k ps) = list_sum (map blocks ps).
Proof.
  induction ps as [|[n|g j bs] qs IH]; intros k S; cbn [split_list]; auto.
  - cbn [map list_sum fold_right blocks]. apply IH. intros; apply S; right; auto.
  - cbn [length map]. rewrite (IH _ (fun p Hp => S p (or_intror Hp))). pose proof (S _ (or_introl eq_refl)) as Sb. cbn [shallow] in Sb.
    change (list_sum (blocks (Block g j bs) :: map blocks qs)) with (blocks (Block g j bs) + list_sum (map blocks qs)). cbn [blocks].
    rewrite (sum_zero _ _ bs); [lia|]. intros b Hb. apply acts_zero; auto. intros q Hq. eapply Sb; eauto.
Qed.
Lemma join_len : forall ps k, (forall p, In p ps -> shallow p) -> length (join_list k ps) + lost ps = list_sum (map blocks ps).
Proof.
  intros ps k S. rewrite <- (split_len ps k S). unfold lost. clear S. revert k. induction ps as [|[n|g j bs] qs IH]; intros k; cbn [split_list join_list]; auto.
  - cbn [filter gone app]. apply IH.
  - cbn [filter]. destruct (gone (Block g j bs)); cbn [app length]; rewrite <- (IH (S k)); lia.
Qed.
Lemma branch_len : forall ps k, length (branch_list k ps) = list_sum (map width ps).
Proof.
  induction ps as [|[n|g j bs] qs IH]; intros k; cbn [branch_list]; [reflexivity|exact (IH (S k))|].
  rewrite app_length, map_length, seq_length, IH. reflexivity.
Qed.
Lemma block_width : forall g j bs, optional_part (Block g j bs) -> shallow (Block g j bs) ->
  length bs = length (part_ends (Block g j bs)) + extra (Block g j bs) + 1 /\ (gone (Block g j bs) = true -> 1 <= extra (Block g j bs)).
Proof.
  intros g j bs [[i [i' [b [b' [Ne [H [H' [S1 S2]]]]]]]] [_ [_ U]]] Sh. cbn [shallow] in Sh. cbn [part_ends extra].
  rewrite (sum_zero _ _ bs) by (intros c Hc; apply acts_zero; auto; intros q Hq; eapply Sh; eauto).
  assert (M : 2 <= meeting bs).
  { unfold meeting. assert (F : SpecMeasure.meets b = true /\ SpecMeasure.meets b' = true) by (unfold SpecMeasure.meets; rewrite S1, S2; auto). destruct F as [F F'].
    destruct (lt_eq_lt_dec i i') as [[C|C]|C]; [|contradiction|].
    - exact (two_there _ _ _ _ _ _ _ C H H' F F').
    - exact (two_there _ _ _ _ _ _ _ C H' H F' F). }
  split; [|intros _; lia].
  assert (X : forall l : list branch_t, (forall c q, In c l -> In q (fst c) -> is_act q) ->
    length l = length (flat_map (fun c : branch_t => flat_map part_ends (fst c) ++ match snd c with Some e => [e] | None => [] end) l) + meeting l).
  { induction l as [|c l IH]; intros Hl; auto. unfold meeting in *. cbn [length flat_map filter]. rewrite app_length.
    rewrite (acts_none part_ends (fst c)); auto; [|intros q Hq; eapply Hl; [left; reflexivity|exact Hq]].
    specialize (IH (fun d q Hd => Hl d q (or_intror Hd))). assert (Em : SpecMeasure.meets c = match snd c with None => true | Some _ => false end) by reflexivity. rewrite Em.
    unfold branch_t in *. destruct (snd c); cbn [app length]; lia. }
  specialize (X bs Sh). unfold branch_t, meeting in *. lia.
Qed.
Lemma all_width : forall ps, optional ps -> list_sum (map width ps) = length (flat_map part_ends ps) + list_sum (map extra ps) + list_sum (map blocks ps) /\
  (0 < lost ps -> 1 <= list_sum (map extra ps)).
Proof.
  intros ps Op. assert (P : forall p, In p ps -> shallow p /\ optional_part p) by (intros p Hp; split; [eapply optional_shallow; eauto|apply Op; auto]).
  clear Op. unfold lost. induction ps as [|p qs IH]; [split; [reflexivity|cbn; lia]|]. destruct (IH (fun q Hq => P q (or_intror Hq))) as [A B]. destruct (P p (or_introl eq_refl)) as [Sh Op].
  assert (E : forall (f : part -> nat), list_sum (map f (p :: qs)) = f p + list_sum (map f qs)) by reflexivity. rewrite !E. cbn [flat_map]. rewrite app_length.
  destruct p as [n|g j bs].
  - cbn [width extra blocks part_ends length filter gone]. split; lia.
  - destruct (block_width g j bs Op Sh) as [W G]. cbn [width].
    assert (Bl : blocks (Block g j bs) = 1).
    { cbn [blocks]. rewrite (sum_zero _ _ bs); auto. intros b Hb. apply acts_zero; auto. intros q Hq. eapply Sh; eauto. }
    rewrite Bl. split; [lia|]. cbn [filter]. destruct (gone (Block g j bs)); [intros _; specialize (G eq_refl); lia|]. intros Z. specialize (B Z). lia.
Qed.
