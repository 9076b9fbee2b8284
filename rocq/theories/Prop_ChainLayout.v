(** Tables with chains of jumps, seen by the layouter (C122).
    Each theorem is followed by a concrete case of its hypotheses. *)
From Coq Require Import String Ascii List Bool Arith ZArith Lia Permutation Relations.
From Verif Require Import Py PyFacts Consts Nx NxFacts Rep SpecRep RepFacts SpecLayout Classify Layouter Prop_Layout.
From Verif Require Import CsvRegex CsvImport SpecCsv RegexFacts CsvFacts CsvTable SpecFlow SpecGoto CsvGhost CsvFill CsvLast CsvTotal GotoFacts CsvGoto CsvJump.
From Verif Require Import Prop_CsvRows Prop_CsvImport Prop_CsvLayout Prop_CsvGoto Prop_CsvAcyclic Prop_CsvAnyGoto Prop_CsvChains Prop_ChainLoops.
Import ListNotations.
Open Scope string_scope.
Open Scope list_scope.

(** No node lists a flow twice, and no two flows lead to and fro between two different nodes. *)
Definition single_flows (d : diagram) : Prop := (forall n, NoDup (outgoing_of d n)) /\
  (forall x y, x <> y -> flow_to d x y -> ~ flow_to d y x).

(** * Every edge carries the attributes of a recorded flow between its ends *)
Definition marks (d : diagram) (e : edge) (s t : string) : Prop :=
  same_pair (eu e) (ev e) s t /\ dget "id" (eat e) = Some (VStr (get_flow_id s t)) /\ dget "sourceRef" (eat e) = Some (VStr s) /\
  dget "targetRef" (eat e) = Some (VStr t) /\ dget (get_flow_id s t) (seq_flows d) = Some (mkFlow (get_flow_id s t) s t).
Definition marked (d : diagram) : Prop := forall e, In e (gedges (dgraph d)) -> exists s t, marks d e s t.

Lemma conn_marks : forall s t c a, dget "id" (conn_attrs s t c a) = Some (VStr (get_flow_id s t)) /\
  dget "sourceRef" (conn_attrs s t c a) = Some (VStr s) /\ dget "targetRef" (conn_attrs s t c a) = Some (VStr t).
Proof.
  intros s t c a. unfold conn_attrs. assert (X : forall k, k <> "conditionExpression" -> forall (v : pyval) b, dget k (dset k_condition_expression v b) = dget k b).
  { intros k N v b. unfold k_condition_expression. rewrite dget_dset, eqb_neq'; auto. }
  destruct c as [c|]; [destruct (String.eqb c "")|]; rewrite ?X by discriminate; unfold k_target_ref, k_source_ref, k_name, k_process, k_id;
    rewrite ?dget_dset; repeat split; reflexivity.
Qed.
Lemma edge_nodes : forall d L e, books d L -> In e (gedges (dgraph d)) -> is_node d (eu e) /\ is_node d (ev e).
Proof.
  intros d L e B He. assert (K : linked d (eu e) (ev e)) by (exists e; split; [exact He|left; auto]).
  apply (bk_linked _ _ B) in K. destruct K as [K|K]; apply (bk_ends _ _ B) in K; tauto.
Qed.
Lemma marked_step : forall tb n s u t d d1 d2 L, books d L -> spliced n s u d d1 -> is_node d1 s -> connected tb s t d1 d2 -> marked d -> marked d2.
Proof.
  intros tb n s u t d d1 d2 L B S N1 C M e He.
  assert (M1 : forall e0, In e0 (gedges (dgraph d1)) -> is_node d (eu e0) /\ is_node d (ev e0) /\ exists a b, marks d1 e0 a b).
  { intros e0 H0. rewrite (sp_edges _ _ _ _ _ S), !filter_In in H0. destruct H0 as [[[H0 _] _] K]. apply negb_true_iff, orb_false_iff in K.
    rewrite !String.eqb_neq in K. destruct (edge_nodes _ _ _ B H0) as [E1 E2]. split; [exact E1|]. split; [exact E2|].
    destruct (M e0 H0) as [a [b [P [Q1 [Q2 [Q3 Q4]]]]]]. exists a, b. split; [exact P|]. split; [exact Q1|]. split; [exact Q2|]. split; [exact Q3|].
    destruct (sp_flows _ _ _ _ _ S) as [f1 [l1 [r1 [lo [f2 [l2 [r2 [li X]]]]]]]]. destruct X as [I1 [D1 [Es [R1 [I2 [D2 [Et [R2 [F _]]]]]]]]].
    assert (T1 : fl_tgt r1 = n).
    { assert (J : In f1 (incoming_of d n)) by (rewrite I1; left; reflexivity). rewrite (bk_in _ _ B) in J. apply in_map_iff in J. destruct J as [[x y] [Ej J]].
      apply filter_In in J. destruct J as [J Jn]. apply into_true in Jn. cbn [snd] in Jn. subst y.
      assert (Z : dget f1 (seq_flows d) = Some (mkFlow f1 x n)) by (apply (bk_flows _ _ B); exists x, n; split; [exact J|split; [symmetry; exact Ej|reflexivity]]).
      rewrite D1 in Z. injection Z as ->. reflexivity. }
    assert (T2 : fl_src r2 = n).
    { assert (J : In f2 (outgoing_of d n)).
      { destruct (String.eqb_spec n s) as [<- |]; [|rewrite I2; left; reflexivity].
        apply list_remove_ok in R1. destruct R1 as [p [q [R1 [R1' _]]]]. rewrite R1. rewrite R1' in I2. assert (J : In f2 (p ++ q)) by (rewrite I2; left; reflexivity).
        apply in_app_iff in J. apply in_app_iff. destruct J; [left|right; right]; assumption. }
      rewrite (bk_out _ _ B) in J. apply in_map_iff in J. destruct J as [[x y] [Ej J]].
      apply filter_In in J. destruct J as [J Jn]. apply from_true in Jn. cbn [fst] in Jn. subst x.
      assert (Z : dget f2 (seq_flows d) = Some (mkFlow f2 n y)) by (apply (bk_flows _ _ B); exists n, y; split; [exact J|split; [symmetry; exact Ej|reflexivity]]).
      rewrite dget_ddel in D2. destruct (String.eqb f2 f1); [discriminate|]. rewrite D2 in Z. injection Z as ->. reflexivity. }
    rewrite F, dget_ddel. destruct (String.eqb_spec (get_flow_id a b) f2) as [<- |].
    { rewrite dget_ddel in D2. destruct (String.eqb _ _); [discriminate|]. rewrite Q4 in D2. injection D2 as <-. cbn [fl_src] in T2. subst a.
      unfold same_pair in P. intuition congruence. }
    rewrite dget_ddel. destruct (String.eqb_spec (get_flow_id a b) f1) as [<- |]; [|exact Q4].
    rewrite Q4 in D1. injection D1 as <-. cbn [fl_tgt] in T1. subst b. unfold same_pair in P. intuition congruence. }
  assert (Hs : is_node d s) by (apply (spliced_is_node _ _ _ _ _ s S) in N1; tauto).
  assert (New : dget (get_flow_id s t) (seq_flows d2) = Some (mkFlow (get_flow_id s t) s t)) by (rewrite (cn_flows _ _ _ _ _ C), dget_dset, eqb_refl'; reflexivity).
  rewrite (cn_edges _ _ _ _ _ C) in He. unfold upd_edges in He. apply in_map_iff in He. destruct He as [e0 [<- He]].
  destruct (connects s t e0) eqn:K.
  - exists s, t. destruct (conn_marks s t (connection_condition t tb) (eat e0)) as [A1 [A2 A3]]. apply same_pair_connects in K.
    split; [exact K|]. split; [exact A1|]. split; [exact A2|]. split; [exact A3|exact New].
  - assert (H0 : In e0 (gedges (dgraph d1))).
    { unfold edge_base in He. destruct (has_edge s t (dgraph d1)); [exact He|]. apply in_app_iff in He. destruct He as [He|[<- |[]]]; [exact He|].
      unfold connects in K. cbn [eu ev] in K. rewrite !eqb_refl' in K. discriminate. }
    destruct (M1 e0 H0) as [E1 [E2 [a [b [P [Q1 [Q2 [Q3 Q4]]]]]]]]. exists a, b. split; [exact P|]. split; [exact Q1|]. split; [exact Q2|]. split; [exact Q3|].
    rewrite (cn_flows _ _ _ _ _ C), dget_dset. destruct (String.eqb_spec (get_flow_id a b) (get_flow_id s t)) as [E|]; [|exact Q4].
    assert (Ha : is_node d a) by (unfold same_pair in P; intuition congruence).
    apply flow_id_inj in E; [|apply (bk_simple _ _ B); exact Ha|apply (bk_simple _ _ B); exact Hs]. destruct E as [-> ->]. reflexivity.
Qed.
Lemma edged_marked : forall rows d L, books d L -> edged rows d L -> marked d.
Proof.
  intros rows d L B E e He. destruct (E e He) as [I A]. exists (eu e), (ev e). destruct (conn_marks (eu e) (ev e) (connection_condition (ev e) rows) []) as [A1 [A2 A3]].
  split; [left; auto|]. rewrite A. split; [exact A1|]. split; [exact A2|]. split; [exact A3|]. apply (bk_flows _ _ B). exists (eu e), (ev e). auto.
Qed.

(** * Through the phases *)
Lemma chain_marked : forall rows L0, good_rows rows -> row_onward rows -> one_entry rows -> NoDup L0 ->
  (forall s t, In (s, t) L0 <-> raw_flow rows s t) -> forall todo done st st' L, rows = done ++ todo ->
  chained_to rows L0 done (fst st) L -> marked (fst st) -> mfor todo follow st = (st', Ok tt) ->
  (exists L', chained_to rows L0 rows (fst st') L') /\ marked (fst st').
Proof.
  intros rows L0 GR RO OE NL FL. induction todo as [|[o r] todo IH]; intros done st st' L E Ch M H.
  - rewrite app_nil_r in E. inv H. split; [exists L; exact Ch|exact M].
  - cbn [mfor] in H. apply mbind_ok in H. destruct H as [st1 [[] [H1 H2]]].
    destruct (chain_step rows L0 done todo o r st st1 L GR RO OE NL FL E Ch H1) as [L1 C1].
    assert (M1 : marked (fst st1)).
    { destruct st as [d tb]. unfold follow in H1. cbn [fst snd] in *. destruct (is_goto r) eqn:Eg; [|inv H1; exact M].
      apply mbind_ok in H1. destruct H1 as [[d1 tb1] [[s u] [H1 H3]]]. cbn [fst snd] in *.
      rewrite mbind_read in H3. destruct (goto_target r) as [t|]; [|discriminate]. pose proof (ct_books _ _ _ _ _ Ch) as B.
      apply csv_remove_inv in H1. destruct H1 as [_ S1]. cbn [fst snd] in *.
      apply add_connection_inv in H3; [|eapply spliced_wf; eauto; apply B]. destruct H3 as [N1 [N2 [_ C]]]. eapply marked_step; eauto. }
    eapply (IH (done ++ [(o, r)])); eauto. rewrite <- app_assoc. exact E.
Qed.
Lemma last_marked : forall st st' L, books (fst st) L -> marked (fst st) -> remove_unnecessary_merge_gateways st = (st', Ok tt) ->
  (exists L', books (fst st') L') /\ marked (fst st').
Proof.
  intros st st' L B M H. unfold remove_unnecessary_merge_gateways in H. rewrite mbind_read in H.
  refine (mfor_inv _ _ (fun z => (exists L', books (fst z) L') /\ marked (fst z)) _ _ _ _ _ _ H); [|eauto].
  intros n y y' _ [[Ly By] My] E. apply gateway_round in E; [|apply By].
  assert (My' : marked (fst y')) by (destruct E as [-> _|s t d1 _ _ _ S N1 _ C _]; [exact My|eapply marked_step; eauto]). split; [|exact My'].
  destruct (books_gateway_step _ _ _ _ By E) as [[-> _]|[L' [Q _]]]; eauto.
Qed.
Lemma import_marked : forall table d d', fresh d -> documented table -> one_entry (rows_of table) ->
  load_diagram_from_csv table d = (d', Ok tt) -> (exists L, books d' L) /\ marked d'.
Proof.
  intros table d d' Fr D OE H. pose proof (rows_cleaned table (proj1 D)) as Cl. set (rows := rows_of table) in *.
  assert (G : good_rows rows) by exact D. assert (Bl : blank d) by exact Fr.
  destruct (import_phases _ _ _ H) as [d0 [s1 [s2 [d3 [s4 [s5 [P0 [P1 [P2 [P3 [P4 [P5 ->]]]]]]]]]]]]. rewrite Cl in P0, P1.
  assert (Bl0 : blank d0).
  { destruct (populate_eq (d, rows)) as [dd [Q [Gd [Fd _]]]]. cbn [fst snd] in *. rewrite P0 in Q. inv Q. destruct Bl. split; congruence. }
  destruct (rows_imported rows d0 Bl0 (proj1 G)) as [d1 [Q1 [R M1]]].
  { intros o Ho. eapply good_plain; eauto. }
  rewrite Q1 in P1. injection P1 as <-.
  destruct (fill_all rows d1 s2 G R P2) as [T2 [L F]]. pose proof (fi_books _ _ _ _ _ F) as B2.
  destruct (legacy_inv _ _ (bk_wf _ _ B2) P3) as [W3 [A3 [K3 [E3 R3]]]].
  assert (B3 : books d3 L).
  { destruct R3 as [R3 _]. eapply books_frame; eauto. intros m k [-> | ->]; apply A3; discriminate. }
  assert (Md : marked d3).
  { eapply edged_marked; [exact B3|]. eapply edged_frame; [apply F|exact E3]. }
  assert (FL : forall s t, In (s, t) L <-> raw_flow rows s t).
  { intros s t. rewrite (fi_flows _ _ _ _ _ F). apply raw_by_all. }
  assert (RO : row_onward rows).
  { intros o m m' M. eapply (fi_merge _ _ _ _ _ F); eauto. apply onward_in, M. }
  assert (NL : NoDup L) by apply F.
  rewrite T2 in P4. unfold remove_goto_nodes in P4. rewrite mbind_read in P4. cbn [snd] in P4. fold follow in P4.
  destruct (chain_marked rows L G RO OE NL FL rows [] (d3, rows) s4 L eq_refl) as [[L4 C4] M4].
  { constructor; auto; cbn [fst]; [intros o; cbn [filter length]; lia|intros x [r [[] _]]|].
    assert (Ng : forall x, ~ gone [] x) by (intros x [r [[] _]]). intros x y. rewrite FL. split.
    - intros Q. split; [apply Ng|]. split; [apply Ng|]. exists y. split; [auto|constructor].
    - intros [_ [_ [m [Q Ch]]]]. apply chase_stays in Ch; [congruence|apply Ng]. }
  { exact Md. }
  { exact P4. }
  exact (last_marked s4 s5 L4 (ct_books _ _ _ _ _ C4) M4 P5).
Qed.

(** * The diagram for the layouter *)
Section Ready.
Variables (d : diagram) (L : flows_of).
Hypothesis B : books d L.
Hypothesis M : marked d.
Hypothesis W : gwf (dgraph d).
Hypothesis Sf : single_flows d.

Lemma flow_to_in : forall s t, flow_to d s t <-> In (s, t) L.
Proof using All.
  intros s t. split.
  - intros [f [r [Q [<- <-]]]]. apply (bk_flows _ _ B) in Q. destruct Q as [u [v [I [_ ->]]]]. exact I.
  - intros I. exists (get_flow_id s t), (mkFlow (get_flow_id s t) s t). split; [apply (bk_flows _ _ B); eauto|auto].
Qed.
Lemma nodup_parts : forall l : flows_of, (forall n, NoDup (map gid (filter (from n) l))) -> NoDup l.
Proof using.
  induction l as [|[s t] l IH]; intros H; constructor.
  - intros C. specialize (H s). cbn [filter] in H. rewrite (proj2 (from_true s (s, t)) eq_refl) in H. cbn [map] in H. inversion H as [|x k N _]; subst.
    apply N. apply (in_map gid _ (s, t)). apply filter_In. split; [exact C|apply from_true; reflexivity].
  - apply IH. intros n. specialize (H n). cbn [filter] in H. destruct (from n (s, t)); [inversion H; assumption|exact H].
Qed.
Lemma ready_nodup : NoDup L.
Proof using All. apply nodup_parts. intros n. rewrite <- (bk_out _ _ B). apply Sf. Qed.
Lemma ready_gid : forall p q, In p L -> In q L -> gid p = gid q -> p = q.
Proof using All.
  intros [s t] [s' t'] P Q E. destruct (bk_ends _ _ B _ _ P), (bk_ends _ _ B _ _ Q).
  unfold gid in E. cbn [fst snd] in E. apply flow_id_inj in E; try (apply (bk_simple _ _ B); assumption). destruct E as [-> ->]. reflexivity.
Qed.
Lemma ready_edge : forall e, In e (gedges (dgraph d)) -> exists s t, In (s, t) L /\ marks d e s t.
Proof using All. intros e He. destruct (M e He) as [s [t Q]]. exists s, t. split; [|exact Q]. apply flow_to_in. exists (get_flow_id s t), (mkFlow (get_flow_id s t) s t). split; [apply Q|split; reflexivity]. Qed.
Lemma ready_goes : forall s t, In (s, t) L -> flow_goes d (gid (s, t)) s t.
Proof using All.
  intros s t I. assert (K : linked d s t) by (apply (bk_linked _ _ B); left; exact I). destruct K as [e [He K]].
  assert (Me : marks d e s t).
  { destruct (ready_edge e He) as [a [b [Iab Q]]]. pose proof Q as [P _].
    assert (X : (a = s /\ b = t) \/ (a = t /\ b = s)) by (unfold same_pair in *; intuition congruence). destruct X as [[-> ->]|[-> ->]]; [exact Q|].
    destruct (string_dec s t) as [<- |N]; [exact Q|]. exfalso. apply (proj2 Sf s t N); apply flow_to_in; assumption. }
  assert (X : forall l, (forall v, In v l -> exists e', In e' (gedges (dgraph d)) /\ snd v = eat e') -> (exists v, In v l /\ snd v = eat e) ->
    exists v, first_flow (gid (s, t)) l = Ok (Some v) /\ dget "sourceRef" (snd v) = Some (VStr s) /\ dget "targetRef" (snd v) = Some (VStr t)).
  { induction l as [|v l IH]; intros A [v0 [I0 E0]]; [contradiction|]. cbn [first_flow]. destruct (A v (or_introl eq_refl)) as [e' [He' Ee']].
    destruct (ready_edge e' He') as [a [b [Iab [_ [Id [Sr [Tr _]]]]]]]. unfold k_id. assert (Id' : dget "id" (snd v) = Some (VStr (gid (a, b)))) by (rewrite Ee'; exact Id).
    unfold dgetE. rewrite Id'. cbn [rbind veqs]. destruct (String.eqb (gid (a, b)) (gid (s, t))) eqn:Q.
    - apply String.eqb_eq in Q. apply ready_gid in Q; auto. injection Q as Q1 Q2. subst a b. exists v. split; [reflexivity|]. rewrite Ee'. split; [exact Sr|exact Tr].
    - apply IH; [intros; apply A; right; assumption|]. destruct I0 as [-> |I0]; [|exists v0; auto]. exfalso.
      destruct Me as [_ [Id2 _]]. rewrite <- E0, Ee', Id in Id2. injection Id2 as Id2. unfold gid in Q. cbn [fst snd] in Q. rewrite Id2, eqb_refl' in Q. discriminate. }
  destruct (X (get_flows d)) as [v [E [A A2]]].
  - intros v Hv. destruct (view_in_edge _ _ W Hv) as [e' [He' R]]. exists e'. split; [exact He'|apply R].
  - destruct (edge_in_view _ _ W He) as [v [Hv R]]. exists v. split; [exact Hv|apply R].
  - exists v. auto.
Qed.
Lemma ready_nodup_part : forall f, NoDup (map gid (filter f L)).
Proof using All.
  intros f. assert (X : forall l, incl l L -> NoDup l -> NoDup (map gid l)).
  { induction l as [|p l IH]; intros Hi N; cbn [map]; [constructor|]. inv N. constructor.
    - intros C. apply in_map_iff in C. destruct C as [q [E C]]. apply H1. replace p with q; auto. apply ready_gid; auto; apply Hi; [right|left]; auto.
    - apply IH; auto. intros x Hx. apply Hi. right; auto. }
  apply X; [intros x Hx; apply filter_In in Hx; tauto|]. apply NoDup_filter. exact ready_nodup.
Qed.
Lemma ready_coherent : coherent d.
Proof using All.
  split; [|split; [|split]].
  - split; [apply W|]. intros n Hn. destruct (proj2 (bk_wf _ _ B) n Hn) as [O [N T]]. auto.
  - intros n _. rewrite (bk_out _ _ B), (bk_in _ _ B). split; apply ready_nodup_part.
  - intros n f Hf. rewrite (bk_out _ _ B) in Hf. apply in_map_iff in Hf. destruct Hf as [[s t] [<- Hf]]. apply filter_In in Hf.
    destruct Hf as [Hf F]. apply from_true in F. cbn in F. subst s. exists t. split; [apply ready_goes; auto|].
    rewrite (bk_in _ _ B). apply in_map_iff. exists (n, t). split; auto. apply filter_In. split; auto. apply into_true. reflexivity.
  - intros m f Hf. rewrite (bk_in _ _ B) in Hf. apply in_map_iff in Hf. destruct Hf as [[s t] [<- Hf]]. apply filter_In in Hf.
    destruct Hf as [Hf F]. apply into_true in F. cbn in F. subst t. exists s. split; [apply ready_goes; auto|].
    rewrite (bk_out _ _ B). apply in_map_iff. exists (s, m). split; auto. apply filter_In. split; auto. apply from_true. reflexivity.
Qed.
Lemma ready_drawable : drawable d.
Proof using All.
  intros t Ht. destruct (view_in_edge _ _ W Ht) as [e [He [Hs _]]]. destruct (ready_edge e He) as [a [b [I [_ [_ [A [C _]]]]]]]. rewrite Hs.
  exists a, b. split; auto. split; auto. apply (bk_ends _ _ B _ _ I).
Qed.
End Ready.
Lemma first_in : forall f l t, first_flow f l = Ok (Some t) -> In t l.
Proof.
  induction l as [|x l IH]; intros t H; [discriminate|]. cbn [first_flow] in H. destruct (dgetE k_id (snd x)) as [v|]; [|discriminate]. cbn [rbind] in H.
  destruct (veqs v f); [injection H as <-; left; reflexivity|right; auto].
Qed.
Lemma coherent_single : forall d L, books d L -> marked d -> gwf (dgraph d) -> coherent d -> single_flows d.
Proof.
  intros d L B M W [_ [N [O _]]]. split.
  - intros n. destruct (in_dec string_dec n (node_keys d)) as [I|I]; [apply (N n I)|].
    unfold outgoing_of. destruct (attr d n "outgoing") as [v|] eqn:E; [elim I; exact (attr_is_node _ _ _ _ E)|constructor].
  - assert (In_L : forall s t, flow_to d s t -> In (s, t) L).
    { intros s t [f [r [Q [<- <-]]]]. apply (bk_flows _ _ B) in Q. destruct Q as [u [v [I [_ ->]]]]. exact I. }
    assert (X : forall x y, In (x, y) L -> exists e, In e (gedges (dgraph d)) /\ same_pair (eu e) (ev e) x y /\ dget "sourceRef" (eat e) = Some (VStr x)).
    { intros x y I. assert (J : In (gid (x, y)) (outgoing_of d x)).
      { rewrite (bk_out _ _ B). apply in_map. apply filter_In. split; [exact I|apply from_true; reflexivity]. }
      destruct (O _ _ J) as [m [[v [E [S T]]] Im]]. apply first_in in E. destruct (view_in_edge _ _ W E) as [e [He [R _]]]. exists e. split; [exact He|].
      rewrite <- R. split; [|exact S]. destruct (M e He) as [a [b [P [_ [A1 [A2 _]]]]]]. rewrite R in S, T. rewrite A1 in S. rewrite A2 in T. injection S as ->. injection T as ->.
      assert (Ey : m = y); [|subst m; exact P]. rewrite (bk_in _ _ B) in Im. apply in_map_iff in Im. destruct Im as [[c m'] [Eg Im]]. apply filter_In in Im.
      destruct Im as [Im Jm]. apply into_true in Jm. cbn [snd] in Jm. subst m'. unfold gid in Eg. cbn [fst snd] in Eg.
      apply flow_id_inj in Eg; [tauto|apply (bk_simple _ _ B), (bk_ends _ _ B _ _ Im)|apply (bk_simple _ _ B), (bk_ends _ _ B _ _ I)]. }
    intros x y Nxy F1 F2. destruct (X x y (In_L _ _ F1)) as [e [He [P S]]]. destruct (X y x (In_L _ _ F2)) as [e' [He' [P' S']]].
    assert (E : e = e'); [|subst e'; rewrite S in S'; injection S' as S'; exact (Nxy S')].
    apply (gwf_unique (dgraph d)); auto. apply same_pair_connects. unfold same_pair in *. intuition congruence.
Qed.

(** * C122 *)
(** Everything the layouter needs: C26 - C33, C89 and C90 apply. *)
Theorem C122_ready_for_layout : forall table d, documented table -> one_entry (rows_of table) ->
  load_diagram_from_csv table empty_diagram = (d, Ok tt) -> single_flows d ->
  coherent d /\ all_laid_out d /\ gwf (dgraph d) /\ drawable d.
Proof.
  intros table d D OE H Sf. pose proof (load_gwf _ _ _ H) as W. destruct (import_marked table _ d fresh_empty D OE H) as [[L B] M].
  split; [eapply ready_coherent; eauto|]. split; [|split; [exact W|eapply ready_drawable; eauto]].
  destruct (any_import table _ d fresh_empty D H) as [d3 [L3 [_ [_ [N3 [RT [GW [_ [P1 [_ P3]]]]]]]]]].
  intros n Hn. destruct (P1 n Hn) as [Hn3 _]. rewrite (P3 n "type" Hn) by discriminate. apply N3 in Hn3. destruct Hn3 as [O|O].
  - unfold orders in O. apply in_map_iff in O. destruct O as [[o r] [<- O]]. exists (row_type o r). split; [apply (RT o r O)|].
    unfold row_type. repeat destruct (String.eqb _ _); vm_compute; tauto.
  - apply GW in O. destruct O as [ty [T Th]]. exists ty. split; [exact T|]. unfold three_gateways in Th. intuition subst; vm_compute; tauto.
Qed.
(** The layouter can rely on the diagram in no other case. *)
Theorem C122_coherent_exactly : forall table d, documented table -> one_entry (rows_of table) ->
  load_diagram_from_csv table empty_diagram = (d, Ok tt) -> (coherent d <-> single_flows d).
Proof.
  intros table d D OE H. split; [|intros Sf; apply (C122_ready_for_layout table d D OE H Sf)].
  pose proof (load_gwf _ _ _ H) as W. destruct (import_marked table _ d fresh_empty D OE H) as [[L B] M]. eapply coherent_single; eauto.
Qed.
(** If the jumps lead forward, the layouter finds an order without flows back, and whatever goes wrong then goes wrong in
    the grid. *)
Theorem C122_layout_order : forall table d fuel, documented table -> one_entry (rows_of table) -> block_ends (rows_of table) ->
  jumps_ahead (rows_of table) -> load_diagram_from_csv table empty_diagram = (d, Ok tt) -> single_flows d -> sort_bound d <= fuel ->
  exists s, (let* cls := generate_elements_clasification d in topological_sort fuel d cls) = Ok (s, []) /\
    forall g, grid_layout fuel d s = Ok g -> exists d', generate_layout fuel d = (d', Ok tt).
Proof.
  intros table d fuel D OE Be A H Sf F. destruct (C122_ready_for_layout table d D OE H Sf) as [Co [AL [W Dr]]].
  apply C65_only_the_grid_fails; auto. exact (proj2 (C121_no_loops table _ d fresh_empty D OE Be A H)).
Qed.

(** * Checker for the examples *)
Definition single_b (d : diagram) : bool :=
  forallb (fun n => if list_eq_dec string_dec (nodup string_dec (outgoing_of d n)) (outgoing_of d n) then true else false) (node_keys d) &&
  forallb (fun p => negb (existsb (fun q => negb (String.eqb (fl_src (snd p)) (fl_tgt (snd p))) && String.eqb (fl_src (snd p)) (fl_tgt (snd q)) && String.eqb (fl_tgt (snd p)) (fl_src (snd q))) (seq_flows d))) (seq_flows d).
Lemma single_b_ok : forall d, single_b d = true -> single_flows d.
Proof.
  intros d H. unfold single_b in H. apply andb_true_iff in H. destruct H as [H1 H2]. rewrite forallb_forall in H1, H2. split.
  - intros n. destruct (in_dec string_dec n (node_keys d)) as [I|I].
    + specialize (H1 n I). cbv beta in H1. destruct (list_eq_dec string_dec (nodup string_dec (outgoing_of d n)) (outgoing_of d n)) as [E|]; [|discriminate].
      rewrite <- E. apply NoDup_nodup.
    + unfold outgoing_of. destruct (attr d n "outgoing") as [v|] eqn:E; [elim I; exact (attr_is_node _ _ _ _ E)|constructor].
  - intros x y N [f [r [Q1 [<- <-]]]] [g [q [Q2 [E1 E2]]]]. apply dget_In in Q1. apply dget_In in Q2. specialize (H2 _ Q1). apply negb_true_iff in H2.
    assert (X : existsb (fun q => negb (String.eqb (fl_src (snd (f, r))) (fl_tgt (snd (f, r)))) && String.eqb (fl_src (snd (f, r))) (fl_tgt (snd q)) && String.eqb (fl_tgt (snd (f, r))) (fl_src (snd q))) (seq_flows d) = true); [|congruence].
    apply existsb_exists. exists (g, q). split; [exact Q2|]. cbn [snd]. rewrite E1, E2, !eqb_refl', (eqb_neq' _ _ N). reflexivity.
Qed.

(** The tables of C120 and C121: with a jump back, and with jumps forward. *)
Example C122_ready_for_layout_example : documented relay /\ one_entry (rows_of relay) /\
  load_diagram_from_csv relay empty_diagram = (relay_diagram, Ok tt) /\ single_flows relay_diagram.
Proof.
  destruct relay_loop as [D [OE [_ [Ld _]]]]. split; [exact D|]. split; [exact OE|]. split; [exact Ld|]. apply single_b_ok. vm_compute. reflexivity.
Qed.
Example C122_layout_order_example : documented onward_table /\ one_entry (rows_of onward_table) /\ block_ends (rows_of onward_table) /\
  jumps_ahead (rows_of onward_table) /\ load_diagram_from_csv onward_table empty_diagram = (onward_diagram, Ok tt) /\ single_flows onward_diagram /\
  sort_bound onward_diagram <= 60 /\ snd (generate_layout 60 onward_diagram) = Ok tt.
Proof.
  destruct C121_no_loops_example as [D [OE [BE [A [_ [_ [Ld _]]]]]]]. split; [exact D|]. split; [exact OE|]. split; [exact BE|]. split; [exact A|]. split; [exact Ld|].
  clear. split; [apply single_b_ok; vm_compute; reflexivity|]. split; [|vm_compute; reflexivity].
  assert (E : sort_bound onward_diagram = 16) by (vm_compute; reflexivity). rewrite E. lia.
Qed.

(** Two branches that jump to the same row: the gateway lists the flow twice, and the layout fails. *)
Definition twice_diagram : diagram := fst (load_diagram_from_csv (chained "1") empty_diagram).
Theorem C122_every_chain_refuted : exists table d, documented table /\ one_entry (rows_of table) /\
  load_diagram_from_csv table empty_diagram = (d, Ok tt) /\ ~ coherent d /\ snd (generate_layout 60 d) = Err IndexError.
Proof.
  exists (chained "1"), twice_diagram. assert (D : documented (chained "1")) by (apply check_documented; vm_compute; reflexivity).
  split; [exact D|]. split; [apply one_entry_ok; [exact D|vm_compute; reflexivity|vm_compute; reflexivity]|]. clear D. split; [vm_compute; reflexivity|]. split; [|vm_compute; reflexivity].
  intros [_ [N _]]. assert (I : is_node twice_diagram "2_split") by (clear; vm_compute; tauto). specialize (N "2_split" I). destruct N as [_ N].
  assert (E : outgoing_of twice_diagram "2_split" = ["2_split__3c1"; "2_split__1"; "2_split__1"]) by (clear; vm_compute; reflexivity). rewrite E in N.
  inversion N as [|a l _ N1]. subst. inversion N1 as [|a l N2 _]. subst. apply N2. left. reflexivity.
Qed.

(** One table for each side of [C122_coherent_exactly]. *)
Example C122_coherent_exactly_example : coherent relay_diagram /\ single_flows relay_diagram /\
  exists table d, documented table /\ one_entry (rows_of table) /\ load_diagram_from_csv table empty_diagram = (d, Ok tt) /\ ~ coherent d /\ ~ single_flows d.
Proof.
  destruct C122_ready_for_layout_example as [D [OE [Ld Sf]]]. split; [exact (proj1 (C122_ready_for_layout relay relay_diagram D OE Ld Sf))|]. split; [exact Sf|].
  clear. destruct C122_every_chain_refuted as [table [d [D [OE [Ld [N _]]]]]]. exists table, d. split; [exact D|]. split; [exact OE|]. split; [exact Ld|]. split; [exact N|].
  intros C. apply N. exact (proj2 (C122_coherent_exactly table d D OE Ld) C).
Qed.

Print Assumptions C122_ready_for_layout.
Print Assumptions C122_coherent_exactly.
Print Assumptions C122_layout_order.
Print Assumptions C122_every_chain_refuted.
