(** The diagram loaded from the file of a process with optional steps consists of the parts of
    [drawn]. *)
From Coq Require Import String Ascii List Bool Arith ZArith Lia Permutation.
From Verif Require Import Py PyFacts Consts Nx NxFacts Rep SpecRep RepFacts SpecLayout.
From Verif Require Import CsvRegex CsvImport SpecCsv RegexFacts CsvFacts CsvTable SpecFlow CsvGhost CsvFill CsvExport SpecCsvExport CsvOrders.
From Verif Require Import SpecBlocks BlockExport SpecFlat FlatTable FlatLines SpecPlan TopoFacts SpecOptional OptionalTable Prop_BlockCsv.
Import ListNotations.
Open Scope string_scope.
Open Scope list_scope.

(** * Branches *)
Lemma labels_path : forall k i n a g j x y, 1 <= n ->
  (In (x, y) (path_flows g (map (fun m => Act (row_label k i m)) (seq a n)) j) <->
   (x = g /\ y = row_label k i a) \/ (exists m, a <= m /\ S m < a + n /\ x = row_label k i m /\ y = row_label k i (S m)) \/
   (x = row_label k i (a + n - 1) /\ y = j)).
Proof.
  intros k i n. induction n as [|n IH]; intros a g j x y H; [lia|]. cbn [seq map path_flows In first_of last_of inner_flows app].
  destruct n as [|n].
  - cbn [seq map path_flows In]. replace (a + 1 - 1) with a by lia. split.
    + intros [E|[E|[]]]; injection E as <- <-; auto.
    + intros [[-> ->]|[[m [A [B _]]]|[-> ->]]]; auto. lia.
  - rewrite IH by lia. replace (S a + S n - 1) with (a + S (S n) - 1) by lia. split.
    + intros [E|[[-> ->]|[[m [A [B [-> ->]]]]|[-> ->]]]].
      * injection E as <- <-. auto.
      * right. left. exists a. repeat split; lia.
      * right. left. exists m. repeat split; lia.
      * auto.
    + intros [[-> ->]|[[m [A [B [-> ->]]]]|[-> ->]]]; auto.
      destruct (Nat.eq_dec m a) as [-> |Ne]; [right; left; auto|]. right. right. left. exists m. repeat split; lia.
Qed.
Lemma plain_rows : forall b, plain_branch b -> branch_rows b = length (fst b) /\ 1 <= branch_rows b /\ meets b.
Proof.
  intros [us st] [A [B C]]. cbn [fst snd] in *. subst st. unfold branch_rows, stops, meets. cbn [fst snd length]. destruct us; [contradiction|]. cbn [length].
  split; [lia|]. split; [lia|]. split; [auto|discriminate].
Qed.
Lemma has_direct_spec : forall bs, has_direct bs = true <-> exists i b, nth_error bs i = Some b /\ direct b.
Proof.
  intros bs. unfold has_direct. rewrite existsb_exists. split.
  - intros [b [I H]]. apply In_nth_error in I. destruct I as [i I]. exists i, b. split; auto. destruct b as [[|q u] [x|]]; try discriminate. reflexivity.
  - intros [i [b [I D]]]. exists b. split; [eapply nth_error_In; eauto|]. rewrite D. reflexivity.
Qed.
Lemma plain_no_direct : forall bs, (forall b, In b bs -> plain_branch b) -> has_direct bs = false.
Proof.
  intros bs H. destruct (has_direct bs) eqn:E; auto. apply has_direct_spec in E. destruct E as [i [b [I D]]]. apply nth_error_In in I.
  destruct (H b I) as [_ [C _]]. rewrite D in C. contradiction.
Qed.

Section Drawn.
  Variable ps : list part.
  Hypothesis Op : optional ps.
  Hypothesis Sp : forall p, In p ps -> step_part p.
  Hypothesis Sf : steps_followed ps.
  Let z := num (S (length ps)).

  (** The flows and nodes with the number of their part. *)
  Inductive flow_in (k : nat) : string -> string -> Prop :=
  | fi_next : k <= length ps -> line_no ps k -> line_no ps (S k) -> flow_in k (num k) (num (S k))
  | fi_split : forall bs, block_no ps k bs -> flow_in k (num k) (split_of (num k))
  | fi_branch : forall i b, branch_no ps k i b -> ~ direct b -> flow_in k (split_of (num k)) (row_label (S k) i 1)
  | fi_direct : forall i b, branch_no ps k i b -> direct b -> flow_in k (split_of (num k)) (num (S (S k)))
  | fi_inner : forall i b m, branch_no ps k i b -> S m < branch_rows b -> flow_in k (row_label (S k) i (S m)) (row_label (S k) i (S (S m)))
  | fi_meet : forall i b bs, block_no ps k bs -> nth_error bs i = Some b -> meets b -> ~ lone bs ->
      flow_in k (row_label (S k) i (branch_rows b)) (join_of (num (S (S k))))
  | fi_join : forall bs, block_no ps k bs -> ~ lone bs -> flow_in k (join_of (num (S (S k)))) (num (S (S k)))
  | fi_lone : forall i b bs, block_no ps k bs -> nth_error bs i = Some b -> meets b -> lone bs ->
      flow_in k (row_label (S k) i (branch_rows b)) (num (S (S k))).
  Lemma flow_in_iff : forall x y, optional_flow ps x y <-> exists k, flow_in k x y.
  Proof using All.
    intros x y. split.
    - intros [k L T T'|k bs B|k i b B D|k i b B D|k i b m B M|k i b bs B H M L|k bs B L|k i b bs B H M L]; exists k.
      + apply fi_next; auto.
      + eapply fi_split; eauto.
      + eapply fi_branch; eauto.
      + eapply fi_direct; eauto.
      + eapply fi_inner; eauto.
      + eapply fi_meet; eauto.
      + eapply fi_join; eauto.
      + eapply fi_lone; eauto.
    - intros [k [L T T'|bs B|i b B D|i b B D|i b m B M|i b bs B H M L|bs B L|i b bs B H M L]].
      + apply op_next; auto.
      + eapply op_split; eauto.
      + eapply op_branch; eauto.
      + eapply op_direct; eauto.
      + eapply op_inner; eauto.
      + eapply op_meet; eauto.
      + eapply op_join; eauto.
      + eapply op_lone; eauto.
  Qed.
  Lemma late_none : forall k x y, length ps < k -> ~ flow_in k x y.
  Proof using All.
    intros k x y H F.
    assert (B0 : forall bs, ~ block_no ps k bs) by (intros bs [g [j X]]; apply nth_lt in X; lia).
    assert (B1 : forall i b, ~ branch_no ps k i b) by (intros i b [bs [X _]]; eapply B0; eauto).
    destruct F; try lia; try (eapply B0; eauto; fail); eapply B1; eauto.
  Qed.
  Lemma act_flows : forall k n x y, nth_error ps k = Some (Act n) -> (flow_in k x y <-> line_no ps k /\ x = num k /\ y = num (S k)).
  Proof using All.
    intros k n x y H.
    assert (B0 : forall bs, ~ block_no ps k bs) by (intros bs [g [j X]]; congruence).
    assert (B1 : forall i b, ~ branch_no ps k i b) by (intros i b [bs [X _]]; eapply B0; eauto). split.
    - intros F. destruct F; try (exfalso; eapply B0; eauto; fail); try (exfalso; eapply B1; eauto; fail). auto.
    - intros [L [-> ->]]. apply fi_next; auto; [apply nth_lt in H; lia|]. right. right. eauto.
  Qed.
  Lemma last_flows : forall x y, line_no ps (length ps) -> (flow_in (length ps) x y <-> x = num (length ps) /\ y = z).
  Proof using All.
    intros x y L.
    assert (B0 : forall bs, ~ block_no ps (length ps) bs) by (intros bs [g [j X]]; apply nth_lt in X; lia).
    assert (B1 : forall i b, ~ branch_no ps (length ps) i b) by (intros i b [bs [X _]]; eapply B0; eauto). split.
    - intros F. destruct F; try (exfalso; eapply B0; eauto; fail); try (exfalso; eapply B1; eauto; fail). auto.
    - intros [-> ->]. apply fi_next; auto. right. left. auto.
  Qed.
  Lemma between : forall k bs, block_no ps k bs -> ~ line_no ps (S k) /\ line_no ps (S (S k)).
  Proof using All.
    intros k bs B. assert (X : block_at (fill ps) k (map fill_branch bs)) by (apply fill_block; eauto).
    destruct (block_tops (fill ps) (fill_flat ps Op) k _ X) as [_ [T T']]. split.
    - intros C. apply T. exact (proj2 (fill_top ps (S k)) C).
    - exact (proj1 (fill_top ps (S (S k))) T').
  Qed.
  (** The flows of a block with activities in all branches. *)
  Lemma block_plain_flows : forall k bs x y, block_no ps k bs -> 2 <= length bs -> (forall b, In b bs -> plain_branch b) ->
    (flow_in k x y <-> (x = num k /\ y = split_of (num k)) \/
      In (x, y) (inner_flows (Block (split_of (num k)) (join_of (num (S (S k)))) (relabel_branches (S k) 0 bs))) \/
      (x = join_of (num (S (S k))) /\ y = num (S (S k)))).
  Proof using All.
    intros k bs x y B L2 Pl. pose proof (between k bs B) as [N1 _].
    assert (Nl : ~ lone bs).
    { destruct bs as [|b0 [|b1 bs']]; cbn [length] in L2; try lia. apply (not_lone _ 0 1 b0 b1); auto; apply plain_rows, Pl; cbn [In]; auto. }
    assert (Bn : forall i b, branch_no ps k i b -> nth_error bs i = Some b) by (intros i b [bs' [B' H]]; rewrite (block_no_fun ps k _ _ B' B) in H; auto).
    assert (Bp : forall i b, nth_error bs i = Some b -> branch_no ps k i b /\ plain_branch b) by (intros i b H; split; [exists bs; auto|apply Pl; eapply nth_error_In; eauto]).
    assert (Nd : forall i b, nth_error bs i = Some b -> ~ direct b) by (intros i b H; apply meets_not_direct, plain_rows, (Bp i b H)).
    assert (Inn : In (x, y) (inner_flows (Block (split_of (num k)) (join_of (num (S (S k)))) (relabel_branches (S k) 0 bs))) <->
      exists i b, nth_error bs i = Some b /\ ((x = split_of (num k) /\ y = row_label (S k) i 1) \/
        (exists m, 1 <= m /\ S m < 1 + branch_rows b /\ x = row_label (S k) i m /\ y = row_label (S k) i (S m)) \/
        (x = row_label (S k) i (branch_rows b) /\ y = join_of (num (S (S k)))))).
    { rewrite inner_block, in_flat_map. split.
      - intros [c [Hc I]]. apply in_branches in Hc. destruct Hc as [i [b [Hb ->]]]. exists i, b. split; auto. destruct (Bp i b Hb) as [_ P].
        pose proof (plain_rows b P) as [R [R1 [M1 _]]]. unfold relabel_branch, arrives in I. rewrite M1 in I. cbn [fst snd] in I.
        rewrite labels_path in I by lia. rewrite R. replace (1 + length (fst b) - 1) with (length (fst b)) in I by lia. exact I.
      - intros [i [b [Hb I]]]. exists (relabel_branch (S k) i b). split; [apply in_branches; eauto|]. destruct (Bp i b Hb) as [_ P].
        pose proof (plain_rows b P) as [R [R1 [M1 _]]]. unfold relabel_branch, arrives. rewrite M1. cbn [fst snd].
        rewrite labels_path by lia. rewrite R in I. replace (1 + length (fst b) - 1) with (length (fst b)) by lia. exact I. }
    rewrite Inn. split.
    - intros F. destruct F as [L T T'|bs' B'|i b B' D|i b B' D|i b m B' M|i b bs' B' H M L|bs' B' L|i b bs' B' H M L].
      + contradiction.
      + auto.
      + right. left. exists i, b. split; auto.
      + exfalso. apply (Nd i b (Bn i b B') D).
      + right. left. exists i, b. split; auto. right. left. exists (S m). repeat split; lia.
      + rewrite (block_no_fun ps k _ _ B' B) in H. right. left. exists i, b. auto.
      + auto.
      + exfalso. apply Nl. rewrite <- (block_no_fun ps k _ _ B' B). auto.
    - intros [[-> ->]|[[i [b [Hb [[-> ->]|[[m [M1 [M2 [-> ->]]]]|[-> ->]]]]]]|[-> ->]]].
      + eapply fi_split; eauto.
      + eapply fi_branch; [apply Bp; eauto|eauto].
      + destruct m as [|m]; [lia|]. eapply fi_inner; [apply Bp; eauto|lia].
      + eapply fi_meet; eauto. apply plain_rows, (Bp i b Hb).
      + eapply fi_join; eauto.
  Qed.
  (** The flows of an optional step. *)
  Lemma block_step_flows : forall k bs a x y, block_no ps k bs -> bs = [([Act a], None); ([], None)] \/ bs = [([], None); ([Act a], None)] ->
    (flow_in k x y <-> (x = num k /\ y = split_of (num k)) \/
      In (x, y) (inner_flows (Block (split_of (num k)) (num (S (S k))) (relabel_branches (S k) 0 bs)))).
  Proof using All.
    intros k bs a x y B Sh. pose proof (between k bs B) as [N1 _].
    set (u := ([Act a], None) : branch_t) in *.
    assert (Dd : direct ([], None)) by reflexivity. assert (Du : ~ direct u) by (intros C; red in C; discriminate C).
    assert (Mu : meets u) by (split; [auto|discriminate]).
    assert (Cs : exists i i', nth_error bs i = Some u /\ nth_error bs i' = Some ([], None) /\
      (forall m b, nth_error bs m = Some b -> (m = i /\ b = u) \/ (m = i' /\ b = ([], None))) /\
      (In (x, y) (inner_flows (Block (split_of (num k)) (num (S (S k))) (relabel_branches (S k) 0 bs))) <->
       (x = split_of (num k) /\ y = row_label (S k) i 1) \/ (x = row_label (S k) i 1 /\ y = num (S (S k))) \/ (x = split_of (num k) /\ y = num (S (S k))))).
    { destruct Sh as [-> | ->]; [exists 0, 1|exists 1, 0]; (split; [reflexivity|]); (split; [reflexivity|]); (split; [intros [|[|[|m]]] b H; cbn in H; try discriminate; injection H as <-; auto|]).
      - cbn. split; [intros [E|[E|[E|[]]]]; injection E as <- <-; auto|]. intros [[-> ->]|[[-> ->]|[-> ->]]]; auto.
      - cbn. split; [intros [E|[E|[E|[]]]]; injection E as <- <-; auto|]. intros [[-> ->]|[[-> ->]|[-> ->]]]; auto. }
    destruct Cs as [i [i' [Hu [Hd [Only ->]]]]].
    assert (Bn : forall m b, branch_no ps k m b -> (m = i /\ b = u) \/ (m = i' /\ b = ([], None))) by (intros m b [bs' [B' H]]; rewrite (block_no_fun ps k _ _ B' B) in H; auto).
    assert (Ln : lone bs).
    { intros m m' b b' H H' M M'. destruct (Only _ _ H) as [[-> ->]|[-> ->]]; [|elim (proj2 M); reflexivity].
      destruct (Only _ _ H') as [[-> ->]|[-> ->]]; [reflexivity|elim (proj2 M'); reflexivity]. }
    split.
    - intros F. destruct F as [L T T'|bs' B'|m b B' D|m b B' D|m b q B' M|m b bs' B' H M L|bs' B' L|m b bs' B' H M L].
      + contradiction.
      + auto.
      + destruct (Bn _ _ B') as [[-> ->]|[-> ->]]; [|contradiction]. auto.
      + auto.
      + exfalso. destruct (Bn _ _ B') as [[-> ->]|[-> ->]]; cbn in M; lia.
      + exfalso. apply L. rewrite (block_no_fun ps k _ _ B' B). auto.
      + exfalso. apply L. rewrite (block_no_fun ps k _ _ B' B). auto.
      + rewrite (block_no_fun ps k _ _ B' B) in H. destruct (Only _ _ H) as [[-> ->]|[-> ->]]; [|elim (proj2 M); reflexivity]. auto.
    - intros [[-> ->]|[[-> ->]|[[-> ->]|[-> ->]]]].
      + eapply fi_split; eauto.
      + apply (fi_branch k i u); [exists bs; auto|exact Du].
      + exact (fi_lone k i u bs B Hu Mu Ln).
      + apply (fi_direct k i' ([], None)); [exists bs; auto|exact Dd].
  Qed.
  Lemma gap_none : forall k bs x y, block_no ps k bs -> ~ flow_in (S k) x y.
  Proof using All.
    intros k bs x y B F. destruct (between k bs B) as [N1 _].
    destruct B as [g [j B]].
    assert (B0 : forall bs', ~ block_no ps (S k) bs').
    { intros bs' [g' [j' X]]. destruct (proj2 Op k _ _ B X) as [n C]; [red; eauto|]. discriminate. }
    assert (B1 : forall i b, ~ branch_no ps (S k) i b) by (intros i b [bs' [X _]]; eapply B0; eauto).
    destruct F; try contradiction; try (eapply B0; eauto; fail); eapply B1; eauto.
  Qed.

  Lemma skip_cons : forall m (p : part) qs, skipn m ps = p :: qs -> nth_error ps m = Some p /\ skipn (S m) ps = qs.
  Proof using All.
    clear. intros m p qs. revert ps. induction m as [|m IH]; intros [|p' ps'] H; cbn in H; try discriminate; [injection H as -> ->; auto|].
    apply IH in H. exact H.
  Qed.
  Lemma skip_nil : forall m, skipn m ps = [] -> length ps <= m.
  Proof using All. intros m H. pose proof (skipn_length m ps) as L. rewrite H in L. cbn in L. lia. Qed.

  Lemma drawn_flows_from : forall n m suf x y, length suf <= n -> m <= length ps -> skipn m ps = suf -> line_no ps m ->
    (In (x, y) (path_flows (num m) (drawn (S m) suf) z) <-> exists k, m <= k /\ flow_in k x y).
  Proof using All.
    induction n as [n IH] using lt_wf_ind. intros m suf x y Hn Hm Sk Lm.
    assert (Split : forall (P : Prop), (exists k, m <= k /\ flow_in k x y) <-> flow_in m x y \/ exists k, S m <= k /\ flow_in k x y).
    { intros _. split.
      - intros [k [K F]]. destruct (Nat.eq_dec k m) as [-> |]; [auto|]. right. exists k. split; auto. lia.
      - intros [F|[k [K F]]]; eauto. exists k. split; auto. lia. }
    rewrite (Split True). clear Split. destruct suf as [|p suf].
    - pose proof (skip_nil m Sk) as L. assert (m = length ps) by lia. subst m. cbn [drawn path_flows In]. rewrite (last_flows x y Lm). split.
      + intros [E|[]]. injection E as <- <-. auto.
      + intros [[-> ->]|[k [K F]]]; auto. exfalso. eapply late_none; [|exact F]. lia.
    - destruct (skip_cons m p suf Sk) as [Hp Sk']. pose proof (nth_lt _ _ _ _ Hp) as Lp. pose proof (Sp p (nth_error_In _ _ Hp)) as Pp.
      cbn [length] in Hn. destruct p as [a|g j bs].
      + cbn [drawn path_flows first_of last_of inner_flows app In].
        assert (T : line_no ps (S m)) by (right; right; eauto).
        rewrite (IH (length suf) ltac:(lia) (S m) suf x y (le_n _) Lp Sk' T). rewrite (act_flows m a x y Hp). split.
        * intros [E|H]; [injection E as <- <-; auto|auto].
        * intros [[_ [-> ->]]|H]; auto.
      + assert (B : block_no ps m bs) by (exists g, j; auto). destruct (between m bs B) as [_ T2].
        assert (Nx : (exists k, S m <= k /\ flow_in k x y) <-> exists k, S (S m) <= k /\ flow_in k x y).
        { split; intros [k [K F]]; exists k; (split; [|exact F]); [|lia]. destruct (Nat.eq_dec k (S m)) as [-> |]; [|lia]. exfalso. eapply gap_none; eauto. }
        rewrite Nx. cbn [drawn]. rewrite Nat.sub_succ, Nat.sub_0_r. destruct Pp as [[L2 Pl]|[a Sh]].
        * rewrite (plain_no_direct bs Pl). rewrite (block_plain_flows m bs x y B L2 Pl).
          destruct suf as [|q suf].
          { pose proof (skip_nil (S m) Sk') as L. assert (S m = length ps) by lia. cbn [drawn path_flows first_of last_of In app].
            rewrite in_app_iff. cbn [In]. replace z with (num (S (S m))) by (unfold z; congruence). split.
            - intros [E|[I|[E|[]]]]; [injection E as <- <-; auto|auto|injection E as <- <-; auto].
            - intros [[[-> ->]|[I|[-> ->]]]|[k [K F]]]; auto. exfalso. eapply late_none; [|exact F]. lia. }
          destruct (skip_cons (S m) q suf Sk') as [Hq Sk2]. destruct (proj2 Op m _ _ Hp Hq) as [c ->]; [red; eauto|].
          cbn [drawn]. pose proof (IH (length suf) ltac:(cbn [length] in Hn; lia) (S (S m)) suf x y (le_n _) (nth_lt _ _ _ _ Hq) Sk2 T2) as R.
          remember (Block (split_of (num m)) (join_of (num (S (S m)))) (relabel_branches (S m) 0 bs)) as blk eqn:Eb.
          assert (Fo : first_of blk = split_of (num m) /\ last_of blk = join_of (num (S (S m)))) by (subst blk; auto). destruct Fo as [Fo La].
          cbn [path_flows In]. rewrite Fo, La, in_app_iff. cbn [In first_of last_of inner_flows app]. rewrite R. split.
          { intros [E|[I|[E|I]]]; [injection E as <- <-; auto|auto|injection E as <- <-; auto|auto]. }
          { intros [[[-> ->]|[I|[-> ->]]]|I]; auto. }
        * assert (Hd : has_direct bs = true) by (destruct Sh as [-> | ->]; reflexivity). rewrite Hd. rewrite (block_step_flows m bs a x y B Sh).
          pose proof (Sf m g j bs Hp Hd) as Lf. destruct suf as [|q suf]; [pose proof (skip_nil (S m) Sk'); lia|].
          destruct (skip_cons (S m) q suf Sk') as [Hq Sk2]. destruct (proj2 Op m _ _ Hp Hq) as [c ->]; [red; eauto|].
          pose proof (IH (length suf) ltac:(cbn [length] in Hn; lia) (S (S m)) suf x y (le_n _) (nth_lt _ _ _ _ Hq) Sk2 T2) as R.
          remember (Block (split_of (num m)) (num (S (S m))) (relabel_branches (S m) 0 bs)) as blk eqn:Eb.
          assert (Fo : first_of blk = split_of (num m) /\ last_of blk = num (S (S m))) by (subst blk; auto). destruct Fo as [Fo La].
          cbn [path_flows In]. rewrite Fo, La, in_app_iff. rewrite R. split.
          { intros [E|[I|I]]; [injection E as <- <-; auto|auto|auto]. }
          { intros [[[-> ->]|I]|I]; auto. }
  Qed.
  Lemma drawn_flows : forall x y, In (x, y) (path_flows "0" (drawn 1 ps) z) <-> optional_flow ps x y.
  Proof using All.
    intros x y. change "0" with (num 0). rewrite (drawn_flows_from (length ps) 0 ps x y (le_n _) (Nat.le_0_l _) eq_refl (or_introl eq_refl)).
    rewrite flow_in_iff. split; intros [k H]; exists k; [apply H|split; [lia|auto]].
  Qed.

  (** Every node but the first is entered. *)
  Lemma node_entered : forall n, optional_node ps n -> n = "0" \/ exists x, optional_flow ps x n.
  Proof using All.
    assert (Met : forall k bs, block_no ps k bs -> exists i b, nth_error bs i = Some b /\ meets b).
    { intros k bs [g [j H]]. pose proof (proj1 Op _ (nth_error_In _ _ H)) as P. cbn [optional_part] in P. destruct P as [_ [[b [Ib M]] _]].
      apply In_nth_error in Ib. destruct Ib as [i Hi]. eauto. }
    intros n [[k [L ->]]|[[k [i [b [m [B [M ->]]]]]]|[[k [bs [B ->]]]|[k [bs [B [L ->]]]]]]].
    - destruct k as [|[|q]]; [left; reflexivity| |].
      + right. exists (num 0). apply op_next; [lia|left; reflexivity|exact L].
      + right. destruct (nth_error ps q) as [[a|g j bs]|] eqn:E.
        * exists (num (S q)). apply op_next; [apply nth_lt in E; lia|right; right; eauto|exact L].
        * assert (B : block_no ps q bs) by (exists g, j; auto). destruct (Met q bs B) as [i [b [Hb M]]].
          destruct (lone_dec bs) as [Ln|[i1 [i2 [b1 [b2 [Ne [H1 [H2 [M1 M2]]]]]]]]]; eexists; [eapply op_lone; eauto|eapply op_join; [exact B|eapply not_lone; eauto]].
        * apply nth_error_None in E. exfalso. destruct L as [L|[L|[k' [a [L H]]]]]; [discriminate|lia|]. injection L as <-. apply nth_lt in H. lia.
    - right. destruct m as [|m]; [|eexists; eapply op_inner; eauto]. eexists. eapply op_branch; eauto. intros D. rewrite D in M. cbn in M. lia.
    - right. eexists. eapply op_split; eauto.
    - right. destruct (Met k bs B) as [i [b [Hb M]]]. eexists. eapply op_meet; eauto.
  Qed.
End Drawn.

(** * The names are distinct *)
Lemma drawn_shuffle : forall n ps k, length ps <= n ->
  exists l, Permutation (flat_map part_nodes (drawn k ps) ++ l) (flat_map part_nodes (relabel k ps)).
Proof.
  induction n as [n IH] using lt_wf_ind. intros ps k Hn. destruct ps as [|[a|g j bs] qs].
  - exists []. constructor.
  - cbn [length] in Hn. destruct (IH (length qs) ltac:(lia) qs (S k) (le_n _)) as [l P]. exists l. cbn [drawn relabel relabel_part flat_map part_nodes app]. constructor. exact P.
  - cbn [length] in Hn. cbn [drawn relabel]. destruct (has_direct bs).
    + destruct qs as [|[a|g' j' bs'] rest].
      * exists (flat_map part_nodes (relabel_part k (Block g j bs) :: relabel (S k) [])). reflexivity.
      * cbn [length] in Hn. destruct (IH (length rest) ltac:(lia) rest (S (S k)) (le_n _)) as [l P]. exists (join_of (num (S k)) :: l).
        cbn [relabel relabel_part flat_map part_nodes app].
        match goal with |- context [flat_map ?f (relabel_branches k 0 bs)] => set (B := flat_map f (relabel_branches k 0 bs)) end. constructor.
        rewrite <- app_assoc. rewrite <- (Permutation_middle (flat_map part_nodes (drawn (S (S k)) rest)) l).
        rewrite P. set (R := flat_map part_nodes (relabel (S (S k)) rest)).
        rewrite <- (Permutation_middle B R (join_of (num (S k)))), <- (Permutation_middle B R (num (S k))). apply perm_swap.
      * exists (flat_map part_nodes (relabel_part k (Block g j bs) :: relabel (S k) (Block g' j' bs' :: rest))). reflexivity.
    + destruct (IH (length qs) ltac:(lia) qs (S k) (le_n _)) as [l P]. exists l. cbn [relabel_part flat_map]. rewrite <- app_assoc. apply Permutation_app_head. exact P.
Qed.
Lemma drawn_distinct : forall ps, (forall p, In p ps -> letters_enough p) -> NoDup (all_nodes "0" (drawn 1 ps) (num (S (length ps)))).
Proof.
  intros ps L. pose proof (labels_distinct ps L) as N. destruct (drawn_shuffle (length ps) ps 1 (le_n _)) as [l P]. unfold all_nodes in *.
  rewrite <- P in N. apply (TopoFacts.nodup_l _ _ l). eapply Permutation_NoDup; [|exact N]. cbn [app]. constructor. rewrite <- !app_assoc. apply Permutation_app_head.
  apply Permutation_app_comm.
Qed.
