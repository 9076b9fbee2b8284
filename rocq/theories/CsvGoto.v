(** The goto phase of the importer and the import of a table with goto rows. *)
From Coq Require Import String Ascii List Bool Arith ZArith Lia Permutation.
From Verif Require Import Py PyFacts Consts Nx NxFacts Rep SpecRep RepFacts.
From Verif Require Import CsvRegex CsvImport SpecCsv RegexFacts CsvFacts CsvTable SpecFlow SpecGoto CsvGhost CsvFill CsvLast CsvTotal GotoFacts.
Import ListNotations.
Open Scope string_scope.
Open Scope list_scope.

(** The goto rows already followed. *)
Definition gone (done : dict row) (x : string) : Prop := exists r, In (x, r) done /\ goto_row r.

Record jumped (rows : dict row) (d0 : diagram) (done : dict row) (st : cstate) (L : flows_of) : Prop := mkJumped {
  ju_books : books (fst st) L;
  ju_nodup : NoDup L;
  ju_nodes : forall x, is_node (fst st) x <-> is_node d0 x /\ ~ gone done x;
  ju_attr : forall x k, is_node (fst st) x -> k <> "outgoing" -> k <> "incoming" -> attr (fst st) x k = attr d0 x k;
  ju_flows : forall x y, In (x, y) L <-> (raw_flow rows x y /\ ~ gone done x /\ ~ gone done y) \/
     exists o r, In (o, r) done /\ goto_row r /\ raw_flow rows x o /\ second_word (r_activity r) y;
  ju_meta : same_meta d0 (fst st);
  ju_rows : forall o, ~ gone done o -> dget o (snd st) = dget o rows;
  ju_edges : (forall s t, way rows s t -> ~ way rows t s) -> edged rows (fst st) L }.

Lemma gone_order : forall rows done todo x, rows = done ++ todo -> gone done x -> goto_order rows x.
Proof. intros rows done todo x -> [r [H G]]. exists r. split; auto. apply in_app_iff. auto. Qed.
Lemma goto_in : forall rows o, goto_order rows o -> In o (orders rows).
Proof. intros rows o [r [H _]]. apply in_map_iff. exists (o, r). auto. Qed.

(** A node that is taken out has flows on both sides. *)
Lemma spliced_flows : forall n s t d d' L, books d L -> spliced n s t d d' ->
  1 <= length (filter (into n) L) /\ 1 <= length (filter (from n) L).
Proof.
  intros n s t d d' L B S. destruct (sp_flows _ _ _ _ _ S) as [f1 [l1 [r1 [lo [f2 [l2 [r2 [li X]]]]]]]].
  destruct X as [I1 [D1 [Es [R1 [I2 _]]]]]. split.
  - rewrite (bk_in _ _ B) in I1. apply (f_equal (@length string)) in I1. rewrite map_length in I1. simpl in I1. lia.
  - destruct (String.eqb_spec n s) as [<- |N].
    + apply list_remove_ok in R1. destruct R1 as [u [v [R1 _]]]. rewrite (bk_out _ _ B) in R1.
      apply (f_equal (@length string)) in R1. rewrite map_length, app_length in R1. simpl in R1. lia.
    + rewrite (bk_out _ _ B) in I2. apply (f_equal (@length string)) in I2. rewrite map_length in I2. simpl in I2. lia.
Qed.

(** The flows around a goto row that is not followed yet. *)
Lemma jumped_into : forall rows d0 done todo o r st L, neat_jumps rows -> NoDup (orders rows) ->
  rows = done ++ (o, r) :: todo -> goto_row r -> jumped rows d0 done st L ->
  (forall x, In (x, o) L <-> raw_flow rows x o) /\ (forall y, In (o, y) L <-> raw_flow rows o y) /\ ~ gone done o.
Proof.
  intros rows d0 done todo o r st L NJ ND E G J.
  assert (Ho : goto_order rows o) by (exists r; split; auto; rewrite E; apply in_app_iff; right; left; auto).
  assert (Nd : ~ gone done o).
  { intros [r' [H _]]. rewrite E in ND. unfold orders in ND. rewrite map_app in ND. cbn [map fst] in ND.
    apply NoDup_remove_2 in ND. apply ND, in_app_iff. left. apply in_map_iff. exists (o, r'). auto. }
  assert (In_d : forall a b, In (a, b) done -> In (a, b) rows) by (intros a b H; rewrite E; apply in_app_iff; auto).
  split; [|split]; auto.
  - intros x. rewrite (ju_flows _ _ _ _ _ J). split.
    + intros [[H _]|[o' [r' [H1 [H2 [H3 H4]]]]]]; auto. exfalso. eapply (nj_goal _ NJ o' r' o); eauto.
    + intros H. left. split; auto. split; auto. intros C. apply (gone_order rows done ((o, r) :: todo)) in C; auto.
      eapply (nj_apart _ NJ); eauto.
  - intros y. rewrite (ju_flows _ _ _ _ _ J). split.
    + intros [[H _]|[o' [r' [H1 [H2 [H3 H4]]]]]]; auto. exfalso. apply (nj_apart _ NJ o o'); auto. exists r'. auto.
    + intros H. left. split; auto. split; auto. intros C. apply (gone_order rows done ((o, r) :: todo)) in C; auto.
      eapply (nj_apart _ NJ); eauto.
Qed.

Definition follow (p : string * row) : MC unit :=
  if is_goto (snd p) then
    do st <- csv_remove_node (fst p) ;;
    do t <- mread (fun _ => goto_target (snd p)) ;;
    add_connection (fst st) t
  else mret tt.

Lemma goto_dec : forall r, goto_row r \/ ~ goto_row r.
Proof.
  intros r. destruct (is_goto r) eqn:E; [left; apply is_goto_spec; auto|]. right. intros C. apply is_goto_spec in C. congruence.
Qed.

(** The row leads nowhere but to one place. *)
Definition row_onward (rows : dict row) : Prop :=
  forall o m m', merges rows o m -> merges rows o m' -> m = m'.

(** The flow of a goto row is taken out, and the one to its goal comes last. *)
Lemma goto_step : forall rows d0 done todo o r st st' L, good_rows rows -> row_onward rows -> neat_jumps rows ->
  rows = done ++ (o, r) :: todo -> jumped rows d0 done st L -> follow (o, r) st = (st', Ok tt) ->
  exists L', (jumped rows d0 (done ++ [(o, r)]) st' L' /\
    (goto_row r -> (exists t, second_word (r_activity r) t) /\ (exists x, raw_flow rows x o) /\ exists y, raw_flow rows o y)) /\
    ((~ goto_row r /\ L' = L) \/
     (goto_row r /\ exists s t, L' = filter (apart o) L ++ [(s, t)] /\ raw_flow rows s o /\ second_word (r_activity r) t)).
Proof.
  intros rows d0 done todo o r [d tb] st' L GR RO NJ E J H. unfold follow in H. cbn [fst snd] in H.
  pose proof (proj1 GR) as ND.
  destruct (is_goto r) eqn:Eg.
  2: { inv H. exists L. assert (Ng : ~ goto_row r) by (intros C; apply is_goto_spec in C; congruence).
    split; [|left; auto]. split; [|intros C; contradiction].
    assert (X : forall x, gone (done ++ [(o, r)]) x <-> gone done x).
    { intros x. unfold gone. split; intros [r' [H1 H2]]; exists r'; split; auto.
      - apply in_app_iff in H1. destruct H1 as [H1|[H1|[]]]; auto. inv H1. contradiction.
      - apply in_app_iff. auto. }
    constructor; try apply J.
    - intros x. rewrite X. apply J.
    - intros x y. rewrite !X, (ju_flows _ _ _ _ _ J). split; (intros [Q|[o' [r' [Q1 Q2]]]]; [auto|right; exists o', r'; split; auto]).
      + apply in_app_iff. auto.
      + apply in_app_iff in Q1. destruct Q1 as [Q1|[Q1|[]]]; auto. inv Q1. tauto.
    - intros x. rewrite X. apply J. }
  apply is_goto_spec in Eg. rename Eg into G.
  apply mbind_ok in H. destruct H as [[d1 tb1] [[s u] [H1 H2]]]. cbn [fst snd] in *.
  rewrite mbind_read in H2. destruct (goto_target r) as [t|] eqn:Et; [|discriminate].
  apply (goto_target_spec r t G) in Et.
  pose proof (ju_books _ _ _ _ _ J) as B. cbn [fst snd] in B.
  apply csv_remove_inv in H1. destruct H1 as [T1 S1]. cbn [fst snd] in *.
  apply add_connection_inv in H2; [|eapply spliced_wf; eauto; apply B]. destruct H2 as [N1 [N2 [T2 C]]].
  destruct (jumped_into rows d0 done todo o r (d, tb) L NJ ND E G J) as [FI [FO Nd]].
  assert (Ho : goto_order rows o) by (exists r; split; auto; rewrite E; apply in_app_iff; right; left; auto).
  assert (Hr : In (o, r) rows) by (rewrite E; apply in_app_iff; right; left; auto).
  assert (In_d : forall a b, In (a, b) done -> In (a, b) rows) by (intros a b H; rewrite E; apply in_app_iff; auto).
  destruct (spliced_flows _ _ _ _ _ _ B S1) as [C1 C2].
  assert (L1 : length (filter (into o) L) = 1).
  { assert (Q : length (filter (into o) L) < 2); [|lia]. apply short_unique; [apply J|].
    intros [x1 x2] [y1 y2] X1 X2 X3 X4. apply into_true in X2. apply into_true in X4. cbn [snd] in *. subst.
    apply FI in X1. apply FI in X3. f_equal. eapply (nj_single _ NJ); eauto. }
  assert (L2 : length (filter (from o) L) = 1).
  { assert (Q : length (filter (from o) L) < 2); [|lia]. apply short_unique; [apply J|].
    intros [x1 x2] [y1 y2] X1 X2 X3 X4. apply from_true in X2. apply from_true in X4. cbn [fst] in *. subst.
    apply FO in X1. apply FO in X3. f_equal. eapply row_source_one; eauto. apply goto_in. auto. }
  destruct (books_splice _ _ _ _ _ _ B L1 L2 S1) as [Ns [Nu [EI [EO B1]]]].
  assert (Rs : raw_flow rows s o).
  { apply FI. assert (A : In (s, o) (filter (into o) L)) by (rewrite EI; left; auto). apply filter_In in A. tauto. }
  assert (Ru : raw_flow rows o u).
  { apply FO. assert (A : In (o, u) (filter (from o) L)) by (rewrite EO; left; auto). apply filter_In in A. tauto. }
  assert (Ngt : ~ goto_order rows t) by (eapply (nj_goal _ NJ); eauto).
  assert (Ngs : ~ goto_order rows s) by (intros Q; apply (nj_apart _ NJ s o); auto).
  assert (Gd : forall x, gone done x -> goto_order rows x) by (intros x; eapply gone_order; eauto).
  assert (Nto : t <> o) by (intros ->; contradiction).
  assert (Re : redirects rows o s t) by (exists r; auto).
  assert (Dn : forall x y o' r', In (o', r') done -> goto_row r' -> raw_flow rows x o' -> second_word (r_activity r') y ->
     redirects rows o' x y /\ o' <> o).
  { intros x y o' r' Q1 Q2 Q3 Q4. split; [exists r'; auto|]. intros ->. apply Nd. exists r'. auto. }
  exists (filter (apart o) L ++ [(s, t)]). split; [|right; split; [auto|]; exists s, t; auto].
  split; [|intros _; split; [exists t; auto|split; [exists s; auto|exists u; auto]]].
  assert (X : forall x, gone (done ++ [(o, r)]) x <-> gone done x \/ x = o).
  { intros x. unfold gone. split.
    - intros [r' [Q1 Q2]]. apply in_app_iff in Q1. destruct Q1 as [Q1|[Q1|[]]]; [left; eauto|]. inv Q1. auto.
    - intros [[r' [Q1 Q2]]| ->]; [exists r'|exists r]; split; auto; apply in_app_iff; simpl; auto. }
  assert (Nn : forall m, is_node (fst st') m <-> is_node d m /\ m <> o).
  { intros m. rewrite (connected_is_node _ _ _ _ _ _ C). apply (spliced_is_node _ _ _ _ _ _ S1). }
  constructor.
  - eapply books_connect; eauto.
  - apply NoDup_app_intro; [apply NoDup_filter; apply J|repeat constructor; auto|]. intros p Hp [<- |[]].
    apply filter_In in Hp. destruct Hp as [Hp _]. apply (ju_flows _ _ _ _ _ J) in Hp.
    destruct Hp as [[Hp _]|[o' [r' [Q1 [Q2 [Q3 Q4]]]]]].
    + eapply (nj_new _ NJ); eauto.
    + destruct (Dn _ _ _ _ Q1 Q2 Q3 Q4) as [Q5 Q6]. apply Q6. eapply (nj_distinct _ NJ); eauto.
  - intros x. rewrite Nn, X. pose proof (ju_nodes _ _ _ _ _ J x) as Q. cbn [fst] in Q. rewrite Q. tauto.
  - intros x k Hx K1 K2. apply Nn in Hx. rewrite (cn_attr _ _ _ _ _ C).
    rewrite (eqb_neq' _ _ K1), (eqb_neq' _ _ K2), !andb_false_r.
    destruct (sp_flows _ _ _ _ _ S1) as [f1 [l1 [r1 [lo [f2 [l2 [r2 [li Y]]]]]]]].
    destruct Y as [_ [_ [_ [_ [_ [_ [_ [_ [_ A]]]]]]]]]. rewrite A by tauto.
    rewrite (eqb_neq' _ _ K1), (eqb_neq' _ _ K2), !andb_false_r. apply (ju_attr _ _ _ _ _ J); tauto.
  - intros x y. rewrite in_app_iff, filter_In, apart_true, (ju_flows _ _ _ _ _ J), !X. cbn [fst snd]. split.
    + intros [[[Q|[o' [r' Q]]] [E1 E2]]|[Q|[]]].
      * left. tauto.
      * right. exists o', r'. rewrite in_app_iff. tauto.
      * inv Q. right. exists o, r. rewrite in_app_iff. simpl. auto.
    + intros [Q|[o' [r' [Q1 [Q2 [Q3 Q4]]]]]].
      * left. tauto.
      * apply in_app_iff in Q1. destruct Q1 as [Q1|[Q1|[]]].
        -- left. split; [right; exists o', r'; auto|]. split.
           ++ intros ->. apply (nj_apart _ NJ o o'); auto. exists r'. auto.
           ++ intros ->. eapply (nj_goal _ NJ o' r' o); eauto.
        -- inv Q1. right. left. f_equal; [eapply (nj_single _ NJ); eauto|eapply second_unique; eauto].
  - eapply same_meta_trans; [apply J|]. eapply same_meta_trans; [apply S1|apply C].
  - intros x. rewrite X. intros Nx. rewrite T2, T1, dget_ddel. rewrite eqb_neq' by tauto.
    apply (ju_rows _ _ _ _ _ J). tauto.
  - intros W. eapply edged_connect; [eapply edged_splice; [apply (ju_edges _ _ _ _ _ J W)|exact S1]|exact C| |].
    + subst tb1. unfold connection_condition. rewrite dget_ddel, (eqb_neq' _ _ Nto).
      pose proof (ju_rows _ _ _ _ _ J t) as Q. cbn [snd] in Q. rewrite Q; auto.
    + intros Q. apply filter_In in Q. destruct Q as [Q _]. apply (W s t); [right; eauto|].
      apply (ju_flows _ _ _ _ _ J) in Q. destruct Q as [[Q _]|[o' [r' [Q1 [Q2 [Q3 Q4]]]]]].
      * left. auto.
      * right. exists o'. exists r'. auto.
Qed.

Lemma goto_all : forall rows d0 st' L0, good_rows rows -> row_onward rows -> neat_jumps rows ->
  jumped rows d0 [] (d0, rows) L0 -> remove_goto_nodes (d0, rows) = (st', Ok tt) ->
  exists L, jumped rows d0 rows st' L /\ forall o r, In (o, r) rows -> goto_row r ->
    (exists t, second_word (r_activity r) t) /\ (exists x, raw_flow rows x o) /\ exists y, raw_flow rows o y.
Proof.
  intros rows d0 st' L0 GR RO NJ J H. unfold remove_goto_nodes in H. rewrite mbind_read in H. cbn [snd] in H.
  assert (X : forall todo done st L, rows = done ++ todo -> jumped rows d0 done st L ->
    mfor todo follow st = (st', Ok tt) -> exists L', jumped rows d0 rows st' L' /\ forall o r, In (o, r) todo -> goto_row r ->
    (exists t, second_word (r_activity r) t) /\ (exists x, raw_flow rows x o) /\ exists y, raw_flow rows o y).
  { induction todo as [|[o r] todo IH]; intros done st L E T X.
    - inv X. rewrite app_nil_r in *. exists L. split; auto. intros o r [].
    - cbn [mfor] in X. apply mbind_ok in X. destruct X as [st1 [[] [X1 X2]]].
      destruct (goto_step rows d0 done todo o r st st1 L GR RO NJ E T X1) as [L1 [[J1 K1] _]].
      destruct (IH (done ++ [(o, r)]) st1 L1) as [L2 [J2 K2]]; auto; [rewrite <- app_assoc; exact E|].
      exists L2. split; auto. intros o' r' [Q|Q]; [inv Q; auto|eauto]. }
  apply (X rows [] (d0, rows) L0); auto.
Qed.

(** When the phase succeeds. *)
Lemma goto_total : forall rows d0 L0, good_rows rows -> row_onward rows -> neat_jumps rows ->
  jumped rows d0 [] (d0, rows) L0 ->
  (forall x, In x (orders rows) -> is_node d0 x) ->
  (forall o r, In (o, r) rows -> goto_row r ->
    (exists t, second_word (r_activity r) t) /\ (exists x, raw_flow rows x o) /\ exists y, raw_flow rows o y) ->
  exists st', remove_goto_nodes (d0, rows) = (st', Ok tt).
Proof.
  intros rows d0 L0 GR RO NJ J Nodes K. unfold remove_goto_nodes. rewrite mbind_read. cbn [snd].
  assert (X : forall todo done st L, rows = done ++ todo -> jumped rows d0 done st L ->
    exists st', mfor todo follow st = (st', Ok tt)).
  { induction todo as [|[o r] todo IH]; intros done st L E T; [eexists; reflexivity|].
    assert (Y : exists st1, follow (o, r) st = (st1, Ok tt)).
    { unfold follow. cbn [fst snd]. destruct (is_goto r) eqn:Eg; [|eexists; reflexivity].
      apply is_goto_spec in Eg.
      assert (Hr : In (o, r) rows) by (rewrite E; apply in_app_iff; right; left; auto).
      assert (Ho : goto_order rows o) by (exists r; auto).
      destruct (K o r Hr Eg) as [[t Ht] [[s Hs] [u Hu]]].
      destruct (jumped_into rows d0 done todo o r st L NJ (proj1 GR) E Eg T) as [FI [FO Nd]].
      pose proof (ju_books _ _ _ _ _ T) as B.
      assert (F1 : filter (into o) L = [(s, o)]).
      { assert (Q : length (filter (into o) L) < 2).
        { apply short_unique; [apply T|].
          intros [x1 x2] [y1 y2] X1 X2 X3 X4. apply into_true in X2. apply into_true in X4. cbn [snd] in *. subst.
          apply FI in X1. apply FI in X3. f_equal. eapply (nj_single _ NJ); eauto. }
        assert (A : In (s, o) (filter (into o) L)) by (apply filter_In; split; [apply FI; auto|apply into_true; auto]).
        destruct (filter (into o) L) as [|a [|b v]]; [contradiction| |simpl in Q; lia]. destruct A as [-> |[]]. reflexivity. }
      assert (F2 : filter (from o) L = [(o, u)]).
      { assert (Q : length (filter (from o) L) < 2).
        { apply short_unique; [apply T|].
          intros [x1 x2] [y1 y2] X1 X2 X3 X4. apply from_true in X2. apply from_true in X4. cbn [fst] in *. subst.
          apply FO in X1. apply FO in X3. f_equal. eapply row_source_one; eauto. apply goto_in. auto. }
        assert (A : In (o, u) (filter (from o) L)) by (apply filter_In; split; [apply FO; auto|apply from_true; auto]).
        destruct (filter (from o) L) as [|a [|b v]]; [contradiction| |simpl in Q; lia]. destruct A as [-> |[]]. reflexivity. }
      destruct st as [d tb]. cbn [fst snd] in *.
      assert (Nso : s <> o) by (intros ->; eapply (raw_antisym rows o o); eauto).
      assert (Nuo : u <> o) by (intros ->; eapply (raw_antisym rows o o); eauto).
      assert (Nsu : s <> u) by (intros ->; eapply (raw_antisym rows u o); eauto).
      destruct (remove_total o s u d tb L B F1 F2 Nso Nuo Nsu) as [[d1 tb1] E1].
      rewrite (mbind_eq _ _ _ _ _ _ _ _ E1). rewrite mbind_read. cbn [fst snd].
      rewrite (proj2 (goto_target_spec r t Eg) Ht).
      apply csv_remove_inv in E1. destruct E1 as [T1 S1]. cbn [fst snd] in *.
      destruct (nj_goal _ NJ o r t Hr Eg Ht) as [Gt Gn].
      destruct (add_connection_spec s t d1 tb1) as [d2 [E2 _]].
      - eapply spliced_wf; eauto. apply B.
      - apply (spliced_is_node _ _ _ _ _ _ S1). split; auto. apply (bk_ends _ _ B s o). apply FI. auto.
      - apply (spliced_is_node _ _ _ _ _ _ S1). split.
        + apply (ju_nodes _ _ _ _ _ T). split; auto. intros C. apply Gn. eapply gone_order; eauto.
        + intros ->. contradiction.
      - eauto. }
    destruct Y as [st1 E1]. cbn [mfor]. rewrite (mbind_eq _ _ _ _ _ _ _ _ E1).
    destruct (goto_step rows d0 done todo o r st st1 L GR RO NJ E T E1) as [L1 [[J1 _] _]].
    apply (IH (done ++ [(o, r)]) st1 L1); auto. rewrite <- app_assoc. exact E. }
  apply (X rows [] (d0, rows) L0); auto.
Qed.
