(** Tables with chains of jumps: conditions, and saving of the drawn diagram (C123).
    Each theorem is followed by a concrete case of its hypotheses. *)
From Coq Require Import String Ascii List Bool Arith ZArith Lia Permutation Relations.
From Verif Require Import Py PyFacts Consts Nx NxFacts Rep SpecRep RepFacts SpecLayout Classify Layouter LayoutFacts Prop_Layout.
From Verif Require Import CsvRegex CsvImport SpecCsv RegexFacts CsvFacts CsvTable SpecFlow SpecGoto CsvGhost CsvFill CsvLast CsvCoherent CsvTotal GotoFacts CsvGoto CsvJump.
From Verif Require Import Xml Export Import SpecXml SpecRound SpecWrite Prop_XmlRound Prop_XmlWrites Prop_XmlDrawn.
From Verif Require Import Prop_CsvRows Prop_CsvImport Prop_CsvLayout Prop_CsvGoto Prop_CsvAcyclic Prop_CsvAnyGoto Prop_CsvChains Prop_ChainLoops Prop_ChainLayout.
Import ListNotations.
Open Scope string_scope.
Open Scope list_scope.

(** No node lists a flow twice, and where a flow leads no flow comes back. *)
Definition one_direction (d : diagram) : Prop := (forall n, NoDup (outgoing_of d n)) /\ (forall x y, flow_to d x y -> ~ flow_to d y x).

(** * Edges with one flow *)
Definition joins (u v : string) (p : string * string) : bool :=
  (String.eqb (fst p) u && String.eqb (snd p) v) || (String.eqb (fst p) v && String.eqb (snd p) u).
Lemma joins_true : forall u v s t, joins u v (s, t) = true <-> same_pair u v s t.
Proof.
  intros u v s t. unfold joins, same_pair. cbn [fst snd]. rewrite orb_true_iff, !andb_true_iff, !String.eqb_eq. intuition congruence.
Qed.
(** An edge that stands for one flow carries the attributes of this flow. *)
Definition cleared (tb : dict row) (d : diagram) (L : flows_of) : Prop := forall e, In e (gedges (dgraph d)) ->
  length (filter (joins (eu e) (ev e)) L) = 1 -> In (eu e, ev e) L /\ eat e = conn_attrs (eu e) (ev e) (connection_condition (ev e) tb) [].
Definition tidy (rows : dict row) (st : cstate) (L : flows_of) : Prop :=
  cleared rows (fst st) L /\ forall x, is_node (fst st) x -> dget x (snd st) = dget x rows.
Lemma cleared_connect : forall tb tb' s t d d' L, books d L -> cleared tb d L -> connected tb' s t d d' ->
  connection_condition t tb' = connection_condition t tb -> cleared tb d' (L ++ [(s, t)]).
Proof.
  intros tb tb' s t d d' L B H C Ec e He Hc. rewrite (cn_edges _ _ _ _ _ C), Ec in He. unfold upd_edges in He. apply in_map_iff in He. destruct He as [e0 [<- He]].
  assert (Old : In e0 (gedges (dgraph d)) -> connects s t e0 = true -> False).
  { intros I K. rewrite K in Hc. cbn [eu ev] in Hc. rewrite filter_app, app_length in Hc. cbn [filter] in Hc. apply same_pair_connects in K.
    rewrite (proj2 (joins_true _ _ _ _) K) in Hc. cbn [length] in Hc.
    assert (Z : linked d (eu e0) (ev e0)) by (exists e0; split; [exact I|left; auto]). apply (bk_linked _ _ B) in Z.
    assert (Y : exists p, In p (filter (joins (eu e0) (ev e0)) L)).
    { destruct Z as [Z|Z]; [exists (eu e0, ev e0)|exists (ev e0, eu e0)]; (apply filter_In; split; [exact Z|apply joins_true; unfold same_pair; auto]). }
    destruct Y as [p Y]. destruct (filter (joins (eu e0) (ev e0)) L); [contradiction|cbn [length] in Hc; lia]. }
  unfold edge_base in He. assert (Hd : In e0 (gedges (dgraph d)) \/ e0 = mkEdge s t []).
  { destruct (has_edge s t (dgraph d)); [left; exact He|]. apply in_app_iff in He. destruct He as [He|[<- |[]]]; auto. }
  destruct Hd as [I| ->].
  - destruct (connects s t e0) eqn:K; [elim (Old I eq_refl)|]. rewrite filter_app, app_length in Hc. cbn [filter] in Hc.
    assert (J : joins (eu e0) (ev e0) (s, t) = false).
    { destruct (joins (eu e0) (ev e0) (s, t)) eqn:J; auto. apply joins_true, same_pair_connects in J. congruence. }
    rewrite J in Hc. cbn [length] in Hc. rewrite Nat.add_0_r in Hc. destruct (H e0 I Hc) as [A1 A2]. split; [apply in_app_iff; left; exact A1|exact A2].
  - assert (K : connects s t (mkEdge s t []) = true) by (unfold connects; cbn [eu ev]; rewrite !eqb_refl'; reflexivity). rewrite K. cbn [eu ev eat].
    split; [apply in_app_iff; right; left; reflexivity|reflexivity].
Qed.
Lemma cleared_splice : forall tb n s t d d' L, cleared tb d L -> spliced n s t d d' -> cleared tb d' (filter (apart n) L).
Proof.
  intros tb n s t d d' L H S e He Hc. rewrite (sp_edges _ _ _ _ _ S) in He. rewrite !filter_In in He. destruct He as [[[He _] _] K].
  apply negb_true_iff, orb_false_iff in K. rewrite !String.eqb_neq in K. destruct K as [K1 K2].
  assert (E : filter (joins (eu e) (ev e)) (filter (apart n) L) = filter (joins (eu e) (ev e)) L).
  { rewrite filter_filter. apply filter_ext_in'. intros [a b] _. destruct (joins (eu e) (ev e) (a, b)) eqn:J; [|apply andb_false_r].
    rewrite andb_true_r. apply apart_true. cbn [fst snd]. apply joins_true in J. unfold same_pair in J. intuition congruence. }
  rewrite E in Hc. destruct (H e He Hc) as [I A]. split; [|exact A]. apply filter_In. split; [exact I|]. apply apart_true. auto.
Qed.
Lemma tidy_step : forall rows n s u t st st' d1 L, books (fst st) L -> length (filter (into n) L) = 1 -> length (filter (from n) L) = 1 ->
  spliced n s u (fst st) d1 -> is_node d1 s -> is_node d1 t -> connected (ddel n (snd st)) s t d1 (fst st') -> snd st' = ddel n (snd st) ->
  tidy rows st L -> tidy rows st' (filter (apart n) L ++ [(s, t)]).
Proof.
  intros rows n s u t st st' d1 L B L1 L2 S N1 N2 C T [Cl Ro]. destruct (books_splice _ _ _ _ _ _ B L1 L2 S) as [_ [_ [_ [_ B1]]]].
  assert (R1 : forall x, is_node d1 x -> dget x (ddel n (snd st)) = dget x rows).
  { intros x Hx. apply (spliced_is_node _ _ _ _ _ x S) in Hx. destruct Hx as [Hx Nx]. rewrite dget_ddel, (eqb_neq' _ _ Nx). apply Ro. exact Hx. }
  split.
  - eapply cleared_connect; [exact B1|eapply cleared_splice; eauto|exact C|]. unfold connection_condition. rewrite R1 by exact N2. reflexivity.
  - intros x Hx. rewrite T. apply R1. apply (connected_is_node _ _ _ _ _ x C). exact Hx.
Qed.

(** * Through the phases *)
Lemma clear_step : forall rows L0 done todo o r st st' L, good_rows rows -> row_onward rows -> one_entry rows -> NoDup L0 ->
  (forall s t, In (s, t) L0 <-> raw_flow rows s t) -> rows = done ++ (o, r) :: todo ->
  chained_to rows L0 done (fst st) L -> follow (o, r) st = (st', Ok tt) -> exists L', chained_to rows L0 (done ++ [(o, r)]) (fst st') L' /\
  (tidy rows st L -> tidy rows st' L').
Proof.
  intros rows L0 done todo o r [d tb] st' L GR RO OE NL FL E [B Ci Co Cg Cf] H. unfold follow in H. cbn [fst snd] in *. pose proof (proj1 GR) as ND.
  destruct (is_goto r) eqn:Eg.
  2:{ inv H. exists L. split; [|auto]. assert (Ng : ~ goto_row r) by (intros C; apply is_goto_spec in C; congruence).
      assert (X : forall x, gone (done ++ [(o, r)]) x <-> gone done x) by (intros x; rewrite gone_more; tauto).
      constructor; auto.
      - intros x. rewrite filter_app, app_length. specialize (Ci x). lia.
      - intros x. rewrite X. apply Cg.
      - intros x y. rewrite !X, Cf. split; intros [A1 [A2 [m [A3 A4]]]]; (split; [auto|split; [auto|exists m; split; auto]]).
        + apply chase_more. auto.
        + destruct (chase_split _ _ _ _ _ A4) as [Q|[_ [Q _]]]; [auto|contradiction]. }
  apply is_goto_spec in Eg. rename Eg into G. apply mbind_ok in H. destruct H as [[d1 tb1] [[s u] [H1 H2]]]. cbn [fst snd] in *.
  rewrite mbind_read in H2. destruct (goto_target r) as [t|] eqn:Et; [|discriminate]. apply (goto_target_spec r t G) in Et.
  apply csv_remove_inv in H1. destruct H1 as [T1' S1]. cbn [fst snd] in *.
  apply add_connection_inv in H2; [|eapply spliced_wf; eauto; apply B]. destruct H2 as [N1 [N2 [T2' C]]].
  assert (Ho : goto_order rows o) by (exists r; split; auto; rewrite E; apply in_app_iff; right; left; auto).
  destruct (spliced_flows _ _ _ _ _ _ B S1) as [C1 C2].
  pose proof (one_found rows done ((o, r) :: todo) L0 o OE ND E NL FL Ho) as O1.
  assert (L1 : length (filter (into o) L) = 1) by (specialize (Ci o); lia).
  assert (O2 : length (filter (from o) L0) < 2).
  { apply short_unique; auto. intros [x1 x2] [y1 y2] X1 X2 X3 X4. apply from_true in X2. apply from_true in X4. cbn [fst] in *. subst.
    apply FL in X1. apply FL in X3. f_equal. eapply row_source_one; eauto. apply goto_in. auto. }
  assert (L2 : length (filter (from o) L) = 1) by (specialize (Co o); lia).
  destruct (books_splice _ _ _ _ _ _ B L1 L2 S1) as [Ns [Nu [EI [EO B1]]]].
  assert (Is : In (s, o) L). { assert (A : In (s, o) (filter (into o) L)) by (rewrite EI; left; auto). apply filter_In in A. tauto. }
  exists (filter (apart o) L ++ [(s, t)]). split.
  2:{ intros Ti. apply (tidy_step rows o s u t (d, tb) st' d1 L B L1 L2 S1 N1 N2); [cbn [snd]; rewrite <- T1'; exact C|cbn [snd]; rewrite <- T1'; exact T2'|exact Ti]. }
  constructor.
  - eapply books_connect; eauto.
  - intros x. rewrite !filter_app, !app_length. pose proof (filter_less _ (into x) (apart o) L) as Q. specialize (Ci x). cbn [filter].
    destruct (into x (s, t)) eqn:T; cbn [length]; [|lia]. apply into_true in T. cbn [snd] in T. subst x.
    rewrite (proj2 (names_ok t o r) (conj G Et)). cbn [length]. lia.
  - intros x. rewrite filter_app, app_length. specialize (Co x). cbn [filter]. destruct (from x (s, t)) eqn:T; cbn [length].
    + apply from_true in T. cbn [fst] in T. subst x.
      assert (Q : length (filter (from s) (filter (apart o) L)) < length (filter (from s) L)).
      { apply (filter_lesser _ _ _ _ (s, o) Is); [apply from_true; reflexivity|]. unfold apart. rewrite (proj2 (into_true o (s, o))) by reflexivity. rewrite orb_true_r. reflexivity. }
      lia.
    + pose proof (filter_less _ (from x) (apart o) L). lia.
  - intros x. rewrite gone_more, (connected_is_node _ _ _ _ _ x C), (spliced_is_node _ _ _ _ _ x S1). intros [Q|[-> _]]; [|tauto]. intros [Q2 _]. exact (Cg x Q Q2).
  - assert (No : ~ gone done o).
    { intros [r' [Q _]]. rewrite E in ND. unfold orders in ND. rewrite map_app in ND. cbn [map fst] in ND.
      apply NoDup_remove_2 in ND. apply ND, in_app_iff. left. apply in_map_iff. exists (o, r'). auto. }
    apply (spliced_is_node _ _ _ _ _ t S1) in N2. destruct N2 as [N2 Nto].
    assert (Nt : ~ gone done t) by (intros Q; exact (Cg t Q N2)).
    intros x y. rewrite in_app_iff, filter_In, apart_true, !gone_more. cbn [fst snd]. split.
    + intros [[Q [A1 A2]]|[Q|[]]].
      * apply Cf in Q. destruct Q as [B2 [B3 [m [B4 B5]]]]. split; [tauto|]. split; [tauto|]. exists m. split; auto. apply chase_more. auto.
      * inv Q. apply Cf in Is. destruct Is as [B2 [_ [m [B4 B5]]]]. split; [tauto|]. split; [tauto|]. exists m. split; auto.
        eapply chase_on; [apply chase_more; exact B5|]. eapply ch_jump; [|constructor]. exists r. split; [apply in_app_iff; right; left; auto|auto].
    + intros [A1 [A2 [m [A3 A4]]]]. destruct (chase_split _ _ _ _ _ A4) as [Q|[Q [_ [t' [Q1 Q2]]]]].
      * left. split; [apply Cf; split; [tauto|split; [tauto|eauto]]|]. split; intros ->; tauto.
      * right. left. assert (Ix : In (x, o) L) by (apply Cf; split; [tauto|split; [auto|eauto]]).
        assert (Ix' : In (x, o) (filter (into o) L)) by (apply filter_In; split; auto; apply into_true; reflexivity). rewrite EI in Ix'. destruct Ix' as [Ix'|[]].
        rewrite (second_unique _ _ _ G Q1 Et) in Q2. apply chase_stays in Q2; [congruence|]. rewrite gone_more. tauto.
Qed.
Lemma clear_all : forall rows L0, good_rows rows -> row_onward rows -> one_entry rows -> NoDup L0 ->
  (forall s t, In (s, t) L0 <-> raw_flow rows s t) -> forall todo done st st' L, rows = done ++ todo ->
  chained_to rows L0 done (fst st) L -> tidy rows st L -> mfor todo follow st = (st', Ok tt) ->
  exists L', books (fst st') L' /\ tidy rows st' L'.
Proof.
  intros rows L0 GR RO OE NL FL. induction todo as [|[o r] todo IH]; intros done st st' L E Ch Ti H.
  - inv H. exists L. split; [apply Ch|exact Ti].
  - cbn [mfor] in H. apply mbind_ok in H. destruct H as [st1 [[] [H1 H2]]].
    destruct (clear_step rows L0 done todo o r st st1 L GR RO OE NL FL E Ch H1) as [L1 [C1 T1]].
    eapply (IH (done ++ [(o, r)])); eauto. rewrite <- app_assoc. exact E.
Qed.
Lemma last_tidy : forall rows st st' L, books (fst st) L -> tidy rows st L -> remove_unnecessary_merge_gateways st = (st', Ok tt) ->
  exists L', books (fst st') L' /\ tidy rows st' L'.
Proof.
  intros rows st st' L B M H. unfold remove_unnecessary_merge_gateways in H. rewrite mbind_read in H.
  refine (mfor_inv _ _ (fun z => exists L', books (fst z) L' /\ tidy rows z L') _ _ _ _ _ _ H); [|eauto].
  intros n y y' _ [Ly [By My]] E. apply gateway_round in E; [|apply By].
  destruct (books_gateway_step _ _ _ _ By E) as [[-> _]|[L' [Q [_ [Sc _]]]]]; [eauto|].
  destruct E as [-> _|s t d1 _ _ _ S N1 N2 C T]; [eauto|].
  destruct Sc as [s' [t' [_ [_ [FI [FO _]]]]]].
  assert (L1 : length (filter (into n) Ly) = 1) by (rewrite FI; reflexivity). assert (L2 : length (filter (from n) Ly) = 1) by (rewrite FO; reflexivity).
  destruct (books_splice _ _ _ _ _ _ By L1 L2 S) as [_ [_ [_ [_ B1]]]].
  exists (filter (apart n) Ly ++ [(s, t)]). split; [eapply books_connect; eauto|eapply tidy_step; eauto].
Qed.
Lemma import_tidy : forall table d d', fresh d -> documented table -> one_entry (rows_of table) ->
  load_diagram_from_csv table d = (d', Ok tt) -> exists L, books d' L /\ cleared (rows_of table) d' L.
Proof.
  intros table d d' Fr D OE H. pose proof (rows_cleaned table (proj1 D)) as Cl. set (rows := rows_of table) in *.
  assert (G : good_rows rows) by exact D. assert (Bl : blank d) by exact Fr.
  destruct (import_phases _ _ _ H) as [d0 [s1 [s2 [d3 [s4 [s5 [P0 [P1 [P2 [P3 [P4 [P5 ->]]]]]]]]]]]]. rewrite Cl in P0, P1.
  assert (Bl0 : blank d0).
  { destruct (populate_eq (d, rows)) as [dd [Q [Gd [Fd _]]]]. cbn [fst snd] in *. rewrite P0 in Q. inv Q. destruct Bl. split; congruence. }
  destruct (rows_imported rows d0 Bl0 (proj1 G)) as [d1 [Q1 [R M1]]].
  { intros o Ho. eapply good_plain; eauto. }
  rewrite Q1 in P1. injection P1 as <-.
  destruct (fill_all rows d1 s2 G R P2) as [T2 [L F]]. pose proof (fi_books _ _ _ _ _ F) as B2.
  destruct (legacy_inv _ _ (bk_wf _ _ B2) P3) as [W3 [A3 [K3 [E3 R3]]]].
  assert (B3 : books d3 L).
  { destruct R3 as [R3 _]. eapply books_frame; eauto. intros m k [-> | ->]; apply A3; discriminate. }
  assert (Md : edged rows d3 L) by (eapply edged_frame; [apply F|exact E3]).
  assert (FL : forall s t, In (s, t) L <-> raw_flow rows s t).
  { intros s t. rewrite (fi_flows _ _ _ _ _ F). apply raw_by_all. }
  assert (RO : row_onward rows).
  { intros o m m' M. eapply (fi_merge _ _ _ _ _ F); eauto. apply onward_in, M. }
  assert (NL : NoDup L) by apply F.
  rewrite T2 in P4. unfold remove_goto_nodes in P4. rewrite mbind_read in P4. cbn [snd] in P4. fold follow in P4.
  destruct (clear_all rows L G RO OE NL FL rows [] (d3, rows) s4 L eq_refl) as [L4 [B4 T4]].
  { constructor; auto; cbn [fst]; [intros o; cbn [filter length]; lia|intros x [r [[] _]]|].
    assert (Ng : forall x, ~ gone [] x) by (intros x [r [[] _]]). intros x y. rewrite FL. split.
    - intros Q. split; [apply Ng|]. split; [apply Ng|]. exists y. split; [auto|constructor].
    - intros [_ [_ [m [Q Ch]]]]. apply chase_stays in Ch; [congruence|apply Ng]. }
  { split; [intros e He _; apply Md; exact He|reflexivity]. }
  { exact P4. }
  destruct (last_tidy rows s4 s5 L4 B4 T4 P5) as [L5 [B5 [T5 _]]]. exists L5. split; [exact B5|exact T5].
Qed.
Lemma import_edged : forall table d, documented table -> one_entry (rows_of table) ->
  load_diagram_from_csv table empty_diagram = (d, Ok tt) -> one_direction d ->
  exists L, books d L /\ NoDup L /\ edged (rows_of table) d L /\ (forall s t, In (s, t) L -> ~ In (t, s) L) /\ (forall s t, flow_to d s t <-> In (s, t) L).
Proof.
  intros table d D OE H [On Od]. destruct (import_tidy table _ d fresh_empty D OE H) as [L [B C]]. exists L.
  assert (NL : NoDup L) by (apply nodup_parts; intros n; rewrite <- (bk_out _ _ B); apply On).
  assert (FL : forall s t, flow_to d s t <-> In (s, t) L).
  { intros s t. split.
    - intros [f [r [Q [<- <-]]]]. apply (bk_flows _ _ B) in Q. destruct Q as [u [v [I [_ ->]]]]. exact I.
    - intros I. exists (get_flow_id s t), (mkFlow (get_flow_id s t) s t). split; [apply (bk_flows _ _ B); eauto|auto]. }
  assert (Bk : forall s t, In (s, t) L -> ~ In (t, s) L) by (intros s t I J; apply FL in I; apply FL in J; exact (Od s t I J)).
  split; [exact B|]. split; [exact NL|]. split; [|split; [exact Bk|exact FL]]. intros e He. apply (C e He).
  assert (U : length (filter (joins (eu e) (ev e)) L) < 2).
  { apply short_unique; auto. intros [a b] [a' b'] I J I' J'. apply joins_true in J. apply joins_true in J'. unfold same_pair in *.
    assert (X : (a = a' /\ b = b') \/ (a = b' /\ b = a')) by intuition congruence. destruct X as [[-> ->]|[-> ->]]; [reflexivity|]. elim (Bk _ _ I I'). }
  assert (Z : linked d (eu e) (ev e)) by (exists e; split; [exact He|left; auto]). apply (bk_linked _ _ B) in Z.
  assert (Y : exists p, In p (filter (joins (eu e) (ev e)) L)).
  { destruct Z as [Z|Z]; [exists (eu e, ev e)|exists (ev e, eu e)]; (apply filter_In; split; [exact Z|apply joins_true; unfold same_pair; auto]). }
  destruct Y as [p Y]. destruct (filter (joins (eu e) (ev e)) L) as [|q k]; [contradiction|cbn [length] in *; lia].
Qed.

(** * The theorems *)
(** A flow of the loaded diagram [d] that the reread diagram [d2] lists at both of its ends. *)
Definition kept_flow (d d2 : diagram) (s t : string) : Prop := exists f r, dget f (seq_flows d) = Some r /\ fl_src r = s /\ fl_tgt r = t /\
  In f (outgoing_of d2 s) /\ In f (incoming_of d2 t).

(** A flow that leads to the node of a row carries the condition of this row, also where chains
    of jumps were followed and gateways were taken out; other flows carry none. *)
Theorem C123_conditions : forall table d, documented table -> one_entry (rows_of table) ->
  load_diagram_from_csv table empty_diagram = (d, Ok tt) -> one_direction d -> forall s t, flow_to d s t ->
  (forall r, In (t, r) (rows_of table) -> r_condition r <> "" ->
     exists i, link_attr d s t "conditionExpression" (VCond i (r_condition r))) /\
  (forall v, link_attr d s t "conditionExpression" v ->
     exists r i, In (t, r) (rows_of table) /\ r_condition r <> "" /\ v = VCond i (r_condition r)).
Proof.
  intros table d D OE H Od s t Fl. destruct (import_edged table d D OE H Od) as [L [B [NL [Ed [Bk FL]]]]]. apply FL in Fl.
  assert (K : forall e, In e (gedges (dgraph d)) -> same_pair (eu e) (ev e) s t -> eu e = s /\ ev e = t).
  { intros e He [X|[X1 X2]]; [exact X|]. destruct (Ed e He) as [I _]. rewrite X1, X2 in I. elim (Bk _ _ Fl I). }
  split.
  - intros r Hr Ne. assert (Z : linked d s t) by (apply (bk_linked _ _ B); auto). destruct Z as [e [He Sp]]. destruct (K e He Sp) as [Es Et].
    destruct (Ed e He) as [_ A]. rewrite Es, Et in A. unfold connection_condition in A. rewrite (In_dget t r _ (proj1 D) Hr) in A. cbn [option_map] in A.
    unfold conn_attrs in A. rewrite (eqb_neq' _ _ Ne) in A. exists (get_flow_id s t ++ "_cond")%string, e. split; [exact He|]. split; [exact Sp|]. rewrite A. reflexivity.
  - intros v [e [He [Sp Hv]]]. destruct (K e He Sp) as [Es Et]. destruct (Ed e He) as [_ A]. rewrite Es, Et in A. rewrite A in Hv.
    unfold connection_condition in Hv. destruct (dget t (rows_of table)) as [r|] eqn:Er; cbn [option_map] in Hv; [|discriminate].
    unfold conn_attrs in Hv. destruct (String.eqb (r_condition r) "") eqn:Ec; [discriminate|]. apply String.eqb_neq in Ec.
    exists r, (get_flow_id s t ++ "_cond")%string. split; [apply dget_In; exact Er|]. split; [exact Ec|]. injection Hv as <-. reflexivity.
Qed.
Print Assumptions C123_conditions.

(** A table with chains of jumps that was loaded and laid out can be saved when its flows have
    one direction, and the file gives back the drawing and the ways of the table. *)
Theorem C123_table_saved : forall set_order table fuel d d1, any_order set_order -> documented table -> one_entry (rows_of table) ->
  load_diagram_from_csv table empty_diagram = (d, Ok tt) -> one_direction d -> generate_layout fuel d = (d1, Ok tt) ->
  exists bound, forall fuel', bound <= fuel' -> exists d2, round_trip set_order fuel' d1 d2 /\
    (forall n, is_node d2 n <-> is_node d n) /\
    (forall n, is_node d2 n -> exists x y, at_xy d1 n x y /\ at_xy d2 n x y /\
       attr d2 n "type" = attr d n "type" /\ attr d2 n "node_name" = attr d n "node_name") /\
    (forall s t, flow_to d s t -> exists w, link_attr d1 s t "waypoints" (VPoints w) /\ link_attr d2 s t "waypoints" (VPoints w)) /\
    (forall x y, is_node d2 x -> is_node d2 y ->
       (clos_trans string (kept_flow d d2) x y <-> clos_trans string (goes_to (rows_of table)) x y)).
Proof.
  intros so table fuel d d1 Po D OE H Od Hl. destruct (import_edged table d D OE H Od) as [L [B [NL [Ed [Bk FL]]]]].
  destruct (booked_saved so table fuel d d1 _ L Po H B NL Ed Bk Hl) as [b Bd]. exists b. intros fuel' Lf.
  destruct (Bd fuel' Lf) as [d2 [R [N [A P]]]]. exists d2. split; [exact R|]. split; [exact N|]. split; [|split].
  - intros n Hn. destruct (A n Hn) as (x & y & A1 & A2 & A3 & A4 & _). exists x, y. auto.
  - intros s t Fl. apply P, FL, Fl.
  - intros x y Nx Ny. apply N in Nx. apply N in Ny. rewrite <- (C120_ways table _ d fresh_empty D OE H x y Nx Ny).
    assert (E : forall s t, kept_flow d d2 s t <-> flow_to d s t).
    { intros s t. split; [intros (f & r & Q & E1 & E2 & _); exists f, r; auto|]. intros Fl. pose proof Fl as Fl'. apply FL in Fl'.
      destruct (bk_ends _ _ B _ _ Fl') as [Ns Nt].
      destruct (A s (proj2 (N s) Ns)) as (_ & _ & _ & _ & _ & _ & O & _). destruct (A t (proj2 (N t) Nt)) as (_ & _ & _ & _ & _ & _ & _ & I).
      exists (get_flow_id s t), (mkFlow (get_flow_id s t) s t). split; [apply (bk_flows _ _ B); eauto|]. split; [reflexivity|]. split; [reflexivity|].
      rewrite O, I. split; [rewrite (bk_out _ _ B)|rewrite (bk_in _ _ B)]; apply in_map_iff; exists (s, t); (split; [reflexivity|]); apply filter_In; (split; [exact Fl'|]);
      [apply from_true|apply into_true]; reflexivity. }
    clear Nx Ny. split; intros T; induction T as [a c T|a c e _ I1 _ I2]; try (apply t_step, E, T); eapply t_trans; eauto.
Qed.
Print Assumptions C123_table_saved.

(** * Cases *)
Definition one_way_b (d : diagram) : bool :=
  single_b d && forallb (fun p => negb (String.eqb (fl_src (snd p)) (fl_tgt (snd p)))) (seq_flows d).
Lemma one_way_b_ok : forall d, one_way_b d = true -> one_direction d.
Proof.
  intros d H. unfold one_way_b in H. apply andb_true_iff in H. destruct H as [H1 H2]. apply single_b_ok in H1. destruct H1 as [A B]. split; [exact A|].
  intros x y F G. destruct (string_dec x y) as [E|E]; [|exact (B x y E F G)]. subst y. destruct F as [f [r [Q [E1 E2]]]]. apply dget_In in Q.
  rewrite forallb_forall in H2. specialize (H2 _ Q). cbn [snd] in H2. rewrite E1, E2, eqb_refl' in H2. discriminate.
Qed.
(** The table of C121 with a chain of two jumps, the second to a row with a condition. *)
Definition gated_table : list (order_label * row) :=
  [rw "0" "begin" ""; rw "1" "write" ""; rw "2" "review" ""; jump "3a1" "6"; (OStr "3b1", mkRow "publish" "fine" "" "" "");
   rw "4" "done" "yes"; (OStr "6", mkRow "goto 8" "" "" "" ""); rw "7" "file" ""; (OStr "8", mkRow "close" "late" "" "" "yes")].
Definition gated_diagram : diagram := fst (load_diagram_from_csv gated_table empty_diagram).
Example C123_conditions_example : documented gated_table /\ one_entry (rows_of gated_table) /\
  load_diagram_from_csv gated_table empty_diagram = (gated_diagram, Ok tt) /\ one_direction gated_diagram /\
  flow_to gated_diagram "2_split" "8" /\ In ("8", mkRow "close" "late" "" "" "yes") (rows_of gated_table).
Proof.
  assert (D : documented gated_table) by (apply check_documented; vm_compute; reflexivity).
  split; [exact D|]. split; [apply one_entry_ok; [exact D|vm_compute; reflexivity|vm_compute; reflexivity]|]. clear D. split; [vm_compute; reflexivity|].
  split; [apply one_way_b_ok; vm_compute; reflexivity|]. split; [|vm_compute; tauto].
  exists "2_split__8", (mkFlow "2_split__8" "2_split" "8"). split; [vm_compute; reflexivity|]. split; reflexivity.
Qed.
Example C123_table_saved_example : documented gated_table /\ one_entry (rows_of gated_table) /\
  load_diagram_from_csv gated_table empty_diagram = (gated_diagram, Ok tt) /\ one_direction gated_diagram /\
  exists d1, generate_layout 60 gated_diagram = (d1, Ok tt).
Proof.
  destruct C123_conditions_example as [D [OE [Ld [Od _]]]]. split; [exact D|]. split; [exact OE|]. split; [exact Ld|]. split; [exact Od|]. clear.
  exists (fst (generate_layout 60 gated_diagram)). vm_compute. reflexivity.
Qed.

(** Without [one_direction]: the second branch jumps back to the row before the branching.  The
    edge between this row and the gateway stands for two flows, and the flow to the gateway has
    the condition of the row. *)
Definition back_table : list (order_label * row) :=
  [rw "0" "begin" ""; rw "1" "write" ""; (OStr "2", mkRow "review" "again" "" "" ""); jump "3a1" "2";
   (OStr "3b1", mkRow "publish" "fine" "" "" ""); rw "4" "done" "yes"].
Definition back_diagram : diagram := fst (load_diagram_from_csv back_table empty_diagram).
Theorem C123_both_directions_refuted : exists table d s t v, documented table /\ one_entry (rows_of table) /\
  load_diagram_from_csv table empty_diagram = (d, Ok tt) /\ flow_to d s t /\ flow_to d t s /\
  (forall n, NoDup (outgoing_of d n)) /\ link_attr d s t "conditionExpression" v /\ ~ In t (dkeys (rows_of table)).
Proof.
  exists back_table, back_diagram, "2", "2_split", (VCond "2_split__2_cond" "again").
  assert (D : documented back_table) by (apply check_documented; vm_compute; reflexivity).
  split; [exact D|]. split; [apply one_entry_ok; [exact D|vm_compute; reflexivity|vm_compute; reflexivity]|]. clear D. split; [vm_compute; reflexivity|].
  split; [exists "2__2_split", (mkFlow "2__2_split" "2" "2_split"); split; [vm_compute; reflexivity|split; reflexivity]|].
  split; [exists "2_split__2", (mkFlow "2_split__2" "2_split" "2"); split; [vm_compute; reflexivity|split; reflexivity]|]. split.
  { intros n. destruct (in_dec string_dec n (node_keys back_diagram)) as [I|I].
    - assert (X : forall m, In m (node_keys back_diagram) -> (if list_eq_dec string_dec (nodup string_dec (outgoing_of back_diagram m)) (outgoing_of back_diagram m) then true else false) = true).
      { apply forallb_forall. clear. vm_compute. reflexivity. }
      specialize (X n I). destruct (list_eq_dec string_dec (nodup string_dec (outgoing_of back_diagram n)) (outgoing_of back_diagram n)) as [E|]; [|discriminate].
      rewrite <- E. apply NoDup_nodup.
    - unfold outgoing_of. destruct (attr back_diagram n "outgoing") as [v|] eqn:E; [elim I; exact (attr_is_node _ _ _ _ E)|constructor]. }
  split.
  - assert (E : exists e, nth_error (gedges (dgraph back_diagram)) 2 = Some e /\ eu e = "2" /\ ev e = "2_split" /\ dget "conditionExpression" (eat e) = Some (VCond "2_split__2_cond" "again")).
    { eexists. split; [vm_compute; reflexivity|]. split; [reflexivity|]. split; [reflexivity|]. vm_compute. reflexivity. }
    destruct E as [e [E1 [E2 [E3 E4]]]]. exists e. split; [eapply nth_error_In; exact E1|]. split; [left; auto|exact E4].
  - intros C. vm_compute in C. repeat (destruct C as [C|C]; [discriminate C|]). contradiction.
Qed.
Print Assumptions C123_both_directions_refuted.
