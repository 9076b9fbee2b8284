(** The import of a whole table with goto rows. *)
From Coq Require Import String Ascii List Bool Arith ZArith Lia Permutation.
From Verif Require Import Py PyFacts Consts Nx NxFacts Rep SpecRep RepFacts.
From Verif Require Import CsvRegex CsvImport SpecCsv RegexFacts CsvFacts CsvTable SpecFlow SpecGoto CsvGhost CsvFill CsvLast CsvTotal GotoFacts CsvGoto.
Import ListNotations.
Open Scope string_scope.
Open Scope list_scope.

Lemma edged_table : forall tb tb' d L, edged tb d L -> (forall s t, In (s, t) L -> dget t tb' = dget t tb) -> edged tb' d L.
Proof.
  intros tb tb' d L H E e He. destruct (H e He) as [I A]. split; auto. rewrite A. unfold connection_condition.
  rewrite (E _ _ I). reflexivity.
Qed.

(** * A gateway that is taken out lies between two nodes *)
Lemma remove_outgoing_edge : forall b d d' t, remove_outgoing_connection b d = (d', Ok t) ->
  has_edge b t (dgraph d) = true.
Proof.
  intros b d d' t H. unfold remove_outgoing_connection, mbind, gread, mread in H.
  destruct (node_list b k_outgoing (dgraph d)) as [l|] eqn:E1; [|discriminate].
  destruct l as [|f l]; [discriminate|]. cbn [list_head] in H.
  unfold dgetE in H. destruct (dget f (seq_flows d)) as [r|] eqn:E2; [|discriminate].
  destruct (node_list (fl_tgt r) k_incoming (dgraph d)) as [li|] eqn:E3; [|discriminate].
  destruct (list_remove f li) as [li'|] eqn:E4; [|discriminate].
  apply node_list_ok in E3.
  destruct (node_set_attr (fl_tgt r) k_incoming (VList li') d (attr_is_node _ _ _ _ E3)) as [d1 [S1 [A1 [K1 [G1 R1]]]]].
  rewrite S1 in H. unfold mmodify, ggraph, mtry, remove_edge in H. cbn [dgraph with_flows] in H.
  destruct (has_edge b (fl_tgt r) (dgraph d1)) eqn:X; [|discriminate]. inv H.
  apply has_edge_true. apply has_edge_true in X. rewrite G1 in X. exact X.
Qed.
Lemma remove_between : forall n d tb st s t, csv_remove_node n (d, tb) = (st, Ok (s, t)) -> s <> t.
Proof.
  intros n d tb st s t H <-. unfold csv_remove_node, mbind, on_diagram in H. cbn [fst snd] in H.
  destruct (remove_incoming_connection n d) as [d1 [s1|]] eqn:E1; cbn [fst snd] in H; [|discriminate].
  destruct (remove_outgoing_connection n d1) as [d2 [t1|]] eqn:E2; cbn [fst snd] in H; [|discriminate].
  destruct (ggraph (remove_node n) d2) as [d3 [[]|]] eqn:E3; cbn [fst snd] in H; [|discriminate].
  unfold mmodify, mret in H. cbn [fst snd] in H. inv H.
  apply remove_outgoing_edge in E2.
  apply remove_incoming_inv in E1. destruct E1 as [f1 [l1 [r1 [lo0 [lo [I1 [D1 [S1 [O1 [L1 [A1 [K1 [F1 [G1 M1]]]]]]]]]]]]]].
  apply has_edge_true in E2. destruct E2 as [e [He C]]. rewrite G1 in He. apply filter_In in He. destruct He as [_ He].
  apply negb_true_iff in He. apply same_pair_connects in C.
  assert (X : connects s n e = true) by (apply same_pair_connects; unfold same_pair in *; tauto). congruence.
Qed.

Lemma thin_between : forall d0 tb L0 st', books d0 L0 ->
  (forall x y, In (x, y) L0 -> ~ (is_gateway d0 x /\ is_gateway d0 y)) ->
  remove_unnecessary_merge_gateways (d0, tb) = (st', Ok tt) ->
  forall g, thin d0 L0 g -> exists s t, In (s, g) L0 /\ In (g, t) L0 /\ s <> t.
Proof.
  intros d0 tb L0 st' B Alt H. unfold remove_unnecessary_merge_gateways in H. rewrite mbind_read in H. cbn [fst] in H.
  change (dkeys (gnodes (dgraph d0))) with (node_keys d0) in H.
  assert (G : forall todo done st L, node_keys d0 = done ++ todo -> thinned d0 tb L0 done st L ->
    mfor todo remove_gateway_if_unnecessary st = (st', Ok tt) ->
    forall g, In g todo -> thin d0 L0 g -> exists s t, In (s, g) L0 /\ In (g, t) L0 /\ s <> t).
  { induction todo as [|n todo IH]; intros done st L E T X g Hg Th; [destruct Hg|].
    cbn [mfor] in X. apply mbind_ok in X. destruct X as [st1 [[] [X1 X2]]].
    assert (Nd : ~ In n done).
    { assert (N : NoDup (node_keys d0)) by (apply B). rewrite E in N. apply NoDup_remove_2 in N.
      intros C. apply N, in_app_iff. auto. }
    assert (Hn : is_node d0 n) by (unfold is_node; fold (node_keys d0); rewrite E; apply in_app_iff; right; left; auto).
    destruct Hg as [<- |Hg].
    2: { destruct (thin_step d0 tb L0 done st L n st1 Alt T Nd Hn X1) as [L1 [T1 _]].
      eapply (IH (done ++ [n]) st1 L1); eauto. rewrite <- app_assoc. exact E. }
    clear IH X2. destruct Th as [G0 [Li Lo]].
    assert (Nn : is_node (fst st) n) by (apply (th_nodes _ _ _ _ _ _ T); tauto).
    rewrite <- (th_into _ _ _ _ _ _ T) in Li by tauto. rewrite <- (th_from _ _ _ _ _ _ T) in Lo by tauto.
    assert (Gw : is_gateway (fst st) n).
    { unfold is_gateway in *. rewrite (th_attr _ _ _ _ _ _ T) by (auto; discriminate). exact G0. }
    pose proof (th_books _ _ _ _ _ _ T) as Bs. destruct st as [d tbs]. cbn [fst snd] in *.
    destruct (wf_lists d n (bk_wf _ _ Bs) Nn) as [A1 A2].
    unfold remove_gateway_if_unnecessary in X1. rewrite mbind_read in X1. cbn [fst] in X1.
    rewrite (proj2 (removable_spec n d) Gw) in X1.
    rewrite mbind_read in X1. cbn [fst] in X1. rewrite (flow_count_spec n k_incoming d _ A2) in X1.
    rewrite (bk_in _ _ Bs), map_length in X1. rewrite (proj2 (Nat.ltb_lt _ 2) Li) in X1.
    rewrite mbind_read in X1. cbn [fst] in X1. rewrite (flow_count_spec n k_outgoing d _ A1) in X1.
    rewrite (bk_out _ _ Bs), map_length in X1. rewrite (proj2 (Nat.ltb_lt _ 2) Lo) in X1.
    apply mbind_ok in X1. destruct X1 as [[d1 tb1] [[s t] [X1 _]]].
    pose proof (remove_between _ _ _ _ _ _ X1) as Ne. apply csv_remove_inv in X1. destruct X1 as [_ S1]. cbn [fst] in S1.
    destruct (spliced_flows _ _ _ _ _ _ Bs S1) as [C1 C2].
    assert (L1 : length (filter (into n) L) = 1) by lia. assert (L2 : length (filter (from n) L) = 1) by lia.
    destruct (books_splice _ _ _ _ _ _ Bs L1 L2 S1) as [_ [_ [EI [EO _]]]].
    rewrite (th_into _ _ _ _ _ _ T) in EI by tauto. rewrite (th_from _ _ _ _ _ _ T) in EO by tauto.
    exists s, t. split; [|split; [|exact Ne]].
    - assert (Q : In (s, n) (filter (into n) L0)) by (rewrite EI; left; auto). apply filter_In in Q. tauto.
    - assert (Q : In (n, t) (filter (from n) L0)) by (rewrite EO; left; auto). apply filter_In in Q. tauto. }
  intros g Th. eapply (G (node_keys d0) [] (d0, tb) L0); eauto.
  - apply thinned_start; auto.
  - apply (gateway_node d0 g). apply Th.
Qed.

(** * The whole table *)
(** What a goto row and a gateway that is left out need. *)
Record followable (rows : dict row) : Prop := mkFollowable {
  fo_rows : forall o r, In (o, r) rows -> goto_row r ->
    (exists t, second_word (r_activity r) t) /\ (exists x, raw_flow rows x o) /\ exists y, raw_flow rows o y;
  fo_gates : forall g, passed rows g -> exists s t, way rows s g /\ way rows g t /\ s <> t }.

(** The diagram before the last phase. *)
Record prepared (rows : dict row) (st : cstate) (L : flows_of) : Prop := mkPrepared {
  pr_books : books (fst st) L;
  pr_nodup : NoDup L;
  pr_flows : forall s t, In (s, t) L <-> way rows s t;
  pr_nodes : forall x, is_node (fst st) x <-> (In x (orders rows) \/ gateway_of rows x) /\ ~ goto_order rows x;
  pr_gates : forall g, is_gateway (fst st) g <-> gateway_of rows g;
  pr_apart : forall x y, In (x, y) L -> ~ (is_gateway (fst st) x /\ is_gateway (fst st) y);
  pr_thin : forall g, thin (fst st) L g <-> passed rows g;
  pr_lone : lone (fst st) L;
  pr_rows : forall o, ~ goto_order rows o -> dget o (snd st) = dget o rows;
  pr_edges : (forall s t, way rows s t -> ~ way rows t s) -> edged rows (fst st) L }.

Lemma jumped_start : forall rows d L, books d L -> NoDup L -> (forall s t, In (s, t) L <-> raw_flow rows s t) ->
  edged rows d L -> jumped rows d [] (d, rows) L.
Proof.
  intros rows d L B N F E.
  assert (X : forall x, ~ gone [] x) by (intros x [r [[] _]]).
  constructor; cbn [fst snd]; auto.
  - intros x. split; [|tauto]. intros H. split; auto.
  - intros x y. rewrite F. split; [auto|]. intros [H|[o [r [[] _]]]]. tauto.
  - repeat split.
Qed.

Lemma way_ends : forall rows s t, neat_jumps rows -> way rows s t -> ~ goto_order rows s /\ ~ goto_order rows t.
Proof.
  intros rows s t NJ [[_ H]|[o [r [H1 [H2 [H3 H4]]]]]]; auto. split.
  - intros C. apply (nj_apart _ NJ s o); auto. exists r. auto.
  - eapply (nj_goal _ NJ); eauto.
Qed.

Lemma row_goto_one : forall rows s a b, good_rows rows -> row_onward rows -> In s (orders rows) ->
  way rows s a -> way rows s b -> a = b.
Proof.
  intros rows s a b G RO Hs A B.
  assert (One : forall x y, raw_flow rows s x -> raw_flow rows s y -> x = y).
  { intros x y. eapply row_source_one; eauto. }
  destruct A as [[A1 [A2 A3]]|[o [r [A1 [A2 [A3 A4]]]]]], B as [[B1 [B2 B3]]|[o' [r' [B1 [B2 [B3 B4]]]]]].
  - auto.
  - exfalso. apply A3. rewrite (One a o'); auto. exists r'. auto.
  - exfalso. apply B3. rewrite (One b o); auto. exists r. auto.
  - assert (o = o') by auto. subst o'. assert (r = r').
    { apply (In_dget _ _ _ (proj1 G)) in A1. apply (In_dget _ _ _ (proj1 G)) in B1. congruence. }
    subst r'. eapply second_unique; eauto.
Qed.

Lemma prepare : forall rows d3 st L0 L, good_rows rows -> row_onward rows -> neat_jumps rows -> books d3 L0 ->
  (forall g, is_gateway d3 g <-> gateway_of rows g) ->
  (forall x, is_node d3 x <-> In x (orders rows) \/ gateway_of rows x) ->
  jumped rows d3 rows st L -> prepared rows st L.
Proof.
  intros rows d3 st L0 L G RO NJ B3 GW N3 J.
  assert (FL : forall s t, In (s, t) L <-> way rows s t).
  { intros s t. rewrite (ju_flows _ _ _ _ _ J). unfold way, redirects. split; (intros [H|H]; [left; exact H|right]).
    - destruct H as [o [r H]]. exists o, r. exact H.
    - destruct H as [o [r H]]. exists o, r. exact H. }
  assert (Nn : forall x, is_node (fst st) x <-> (In x (orders rows) \/ gateway_of rows x) /\ ~ goto_order rows x).
  { intros x. rewrite (ju_nodes _ _ _ _ _ J), N3. reflexivity. }
  assert (GN : forall g, gateway_of rows g -> ~ goto_order rows g).
  { intros g Hg C. apply (gateway_not_row rows g G Hg). apply goto_in. exact C. }
  assert (GW4 : forall g, is_gateway (fst st) g <-> gateway_of rows g).
  { intros g. rewrite <- GW. split; intros H.
    - unfold is_gateway in *. rewrite <- (ju_attr _ _ _ _ _ J); try discriminate; auto. apply gateway_node. exact H.
    - assert (Q : is_node (fst st) g) by (apply Nn; apply GW in H; auto).
      unfold is_gateway in *. rewrite (ju_attr _ _ _ _ _ J); try discriminate; auto. }
  assert (Alt : forall x y, In (x, y) L -> ~ (is_gateway (fst st) x /\ is_gateway (fst st) y)).
  { intros x y Hxy [C1 C2]. apply FL in Hxy. apply GW4 in C1. apply GW4 in C2.
    destruct Hxy as [[H _]|[o [r [H1 [H2 [H3 H4]]]]]]; [eapply raw_alternates; eauto|].
    apply (gateway_not_row rows y G C2). eapply (nj_goal _ NJ); eauto. }
  constructor; auto; try apply J.
  - intros g. unfold thin, passed. rewrite GW4, !short_unique by apply J. split.
    + intros [Q1 [Q2 Q3]]. split; auto. split; intros x y X1 X2.
      * assert (E : (x, g) = (y, g)) by (apply Q2; try apply FL; auto; apply into_true; auto). congruence.
      * assert (E : (g, x) = (g, y)) by (apply Q3; try apply FL; auto; apply from_true; auto). congruence.
    + intros [Q1 [Q2 Q3]]. split; auto. split.
      * intros [x1 x2] [y1 y2] X1 X2 X3 X4. apply into_true in X2. apply into_true in X4. cbn [snd] in *. subst.
        apply FL in X1. apply FL in X3. f_equal. eauto.
      * intros [x1 x2] [y1 y2] X1 X2 X3 X4. apply from_true in X2. apply from_true in X4. cbn [fst] in *. subst.
        apply FL in X1. apply FL in X3. f_equal. eauto.
  - intros s a b Gs A C.
    assert (Hs : is_node (fst st) s) by apply (bk_ends _ _ (ju_books _ _ _ _ _ J) _ _ A).
    apply Nn in Hs. destruct Hs as [[Hs|Hs] _]; [|exfalso; apply Gs, GW4, Hs].
    apply FL in A. apply FL in C. eapply row_goto_one; eauto.
Qed.

(** What the whole import gives. *)
Record rerouted (rows : dict row) (d d' : diagram) (L : flows_of) : Prop := mkRerouted {
  re_books : books d' L;
  re_nodup : NoDup L;
  re_flows : forall s t, In (s, t) L <-> goto_flow rows s t;
  re_nodes : forall n, is_node d' n <-> goto_node rows n;
  re_type : forall o r, In (o, r) rows -> ~ goto_row r -> attr d' o "type" = Some (VStr (row_type o r));
  re_name : forall o r, In (o, r) rows -> ~ goto_row r -> attr d' o "node_name" = Some (VStr (row_name o r));
  re_split : forall o, splits rows o -> goto_node rows (split_of o) ->
    exists ty, get_gateway_type o (orders rows) rows = Ok ty /\ attr d' (split_of o) "type" = Some (VStr ty);
  re_join : forall o m, merges rows o m -> goto_node rows (join_of m) ->
    exists ty, three_gateways ty /\ attr d' (join_of m) "type" = Some (VStr ty);
  re_merge : row_onward rows;
  re_follow : followable rows;
  re_edges : one_way rows -> edged rows d' L;
  re_meta : exists d1, populate_dicts (d, rows) = ((d1, rows), Ok tt) /\ same_meta d1 d' }.

Theorem goto_import : forall table d d',
  let rows := remove_white_spaces_in_orders table in
  blank d -> good_rows rows -> neat_jumps rows ->
  load_diagram_from_csv table d = (d', Ok tt) -> exists L, rerouted rows d d' L.
Proof.
  intros table d d' rows Bl G NJ H.
  destruct (import_phases _ _ _ H) as [d0 [s1 [s2 [d3 [s4 [s5 [P0 [P1 [P2 [P3 [P4 [P5 ->]]]]]]]]]]]].
  fold rows in P0, P1.
  assert (Bl0 : blank d0).
  { destruct (populate_eq (d, rows)) as [dd [Q [Gd [Fd _]]]]. cbn [fst snd] in *. rewrite P0 in Q. inv Q.
    destruct Bl. split; congruence. }
  destruct (rows_imported rows d0 Bl0 (proj1 G)) as [d1 [Q1 [R M1]]].
  { intros o Ho. eapply good_plain; eauto. }
  rewrite Q1 in P1. injection P1 as <-.
  destruct (fill_all rows d1 s2 G R P2) as [T2 [L F]].
  pose proof (fi_books _ _ _ _ _ F) as B2.
  destruct (legacy_inv _ _ (bk_wf _ _ B2) P3) as [W3 [A3 [K3 [E3 R3]]]].
  assert (B3 : books d3 L).
  { destruct R3 as [R3 _]. eapply books_frame; eauto. intros m k [-> | ->]; apply A3; discriminate. }
  assert (GW : forall g, is_gateway d3 g <-> gateway_of rows g).
  { intros g. rewrite <- (filled_gateways _ _ _ _ G R F). unfold is_gateway. rewrite A3 by discriminate. tauto. }
  assert (FL : forall s t, In (s, t) L <-> raw_flow rows s t).
  { intros s t. rewrite (fi_flows _ _ _ _ _ F). apply raw_by_all. }
  assert (RO : row_onward rows).
  { intros o m m' M. eapply (fi_merge _ _ _ _ _ F); eauto. apply onward_in, M. }
  assert (N3 : forall x, is_node d3 x <-> In x (orders rows) \/ gateway_of rows x).
  { intros x. unfold is_node. fold (node_keys d3). rewrite K3. change (In x (node_keys (fst s2))) with (is_node (fst s2) x).
    rewrite (fi_nodes _ _ _ _ _ F). unfold gateway_of. split; (intros [Q|[[o Q]|[o [m Q]]]] || intros [Q|[[o Q]|[o [m Q]]]]); auto.
    - right. left. exists o. tauto.
    - right. right. exists o, m. tauto.
    - right. left. exists o. pose proof (onward_in _ _ (proj1 (proj1 Q))). tauto.
    - right. right. exists o, m. pose proof (onward_in _ _ (proj1 (proj1 Q))). tauto. }
  rewrite T2 in P4.
  assert (J0 : jumped rows d3 [] (d3, rows) L).
  { apply jumped_start; auto; [apply F|]. eapply edged_frame; [|exact E3]. apply F. }
  destruct (goto_all rows d3 s4 L G RO NJ J0 P4) as [L4 [J Fo]].
  pose proof (prepare rows d3 s4 L L4 G RO NJ B3 GW N3 J) as P.
  destruct s4 as [d4 t4]. cbn [fst snd] in *.
  destruct (thin_all d4 t4 L4 s5 (pr_books _ _ _ P) (pr_apart _ _ _ P) P5) as [L' [T [Un Kp]]].
  pose proof (thin_between d4 t4 L4 s5 (pr_books _ _ _ P) (pr_apart _ _ _ P) P5) as Be.
  assert (TH : forall g, (In g (node_keys d4) /\ thin d4 L4 g) <-> passed rows g).
  { intros g. rewrite <- (pr_thin _ _ _ P). split; [tauto|]. intros Q. split; auto. apply (gateway_node d4 g). apply Q. }
  assert (N5 : forall x, is_node (fst s5) x <-> goto_node rows x).
  { intros x. rewrite (th_nodes _ _ _ _ _ _ T), TH. pose proof (pr_nodes _ _ _ P x) as Q. cbn [fst] in Q. rewrite Q.
    unfold goto_node. tauto. }
  assert (FL5 : forall s t, In (s, t) L' <-> goto_flow rows s t).
  { intros s t. rewrite (th_flows _ _ _ _ _ _ T), !TH. unfold goto_flow, step_to. rewrite (pr_flows _ _ _ P).
    split; (intros [X1 [X2 X3]]; split; [auto|]; split; [auto|]; destruct X3 as [X3|[g X3]]; [auto|right; exists g]).
    + destruct X3 as [X3 [X4 [X5 X6]]]. rewrite <- !(pr_flows _ _ _ P). split; auto. apply TH. auto.
    + destruct X3 as [X3 [X4 X5]]. apply TH in X3. rewrite !(pr_flows _ _ _ P). tauto. }
  assert (Rk : forall o r k, In (o, r) rows -> ~ goto_row r -> k <> "outgoing" -> k <> "incoming" -> k <> "event_definitions" ->
     attr (fst s5) o k = attr d1 o k).
  { intros o r k Hr Ng X1 X2 X3. assert (Ho : In o (orders rows)) by (apply in_map_iff; exists (o, r); auto).
    assert (Nr : ~ goto_order rows o).
    { intros [r' [Hr' Gr]]. apply (In_dget _ _ _ (proj1 G)) in Hr. apply (In_dget _ _ _ (proj1 G)) in Hr'. congruence. }
    assert (Nn : goto_node rows o).
    { split; auto. split; auto. intros C. apply (gateway_not_row rows o G); auto. apply C. }
    rewrite (th_attr _ _ _ _ _ _ T) by (auto; apply N5; auto).
    pose proof (ju_attr _ _ _ _ _ J o k) as Q. cbn [fst] in Q.
    rewrite Q by (auto; apply (pr_nodes _ _ _ P); auto). rewrite A3 by auto. apply (fi_rows _ _ _ _ _ F); auto. }
  assert (Gk : forall g, gateway_of rows g -> goto_node rows g -> attr (fst s5) g "type" = attr (fst s2) g "type").
  { intros g Hg Hn. rewrite (th_attr _ _ _ _ _ _ T) by (try discriminate; apply N5; auto).
    pose proof (ju_attr _ _ _ _ _ J g "type") as Q. cbn [fst] in Q.
    rewrite Q; try discriminate; [apply A3; discriminate|]. apply (pr_nodes _ _ _ P). split; [auto|apply Hn]. }
  exists L'. constructor.
  - apply T.
  - apply Un; apply P.
  - exact FL5.
  - exact N5.
  - intros o r Hr Ng. rewrite (Rk o r); try discriminate; auto. apply R; auto.
  - intros o r Hr Ng. rewrite (Rk o r); try discriminate; auto. apply R; auto.
  - intros o S Nn. rewrite Gk; auto; [|left; eauto]. apply F; auto. apply onward_in, S.
  - intros o m S Nn. rewrite Gk; auto; [|right; eauto]. eapply fi_join; eauto. apply onward_in, S.
  - exact RO.
  - constructor; [exact Fo|]. intros g Hg. apply (pr_thin _ _ _ P) in Hg. destruct (Be g Hg) as [s [t [X1 [X2 X3]]]].
    exists s, t. rewrite <- !(pr_flows _ _ _ P). auto.
  - intros OW.
    assert (W : forall s t, way rows s t -> ~ way rows t s).
    { intros s t X1 X2. apply (OW s t); left; auto. }
    assert (Ra : forall x y, reach d4 L4 x y -> step_to rows x y).
    { intros x y [Q|[g [Q1' [Q2 Q3]]]]; [left; apply (pr_flows _ _ _ P); auto|]. right. exists g.
      rewrite <- !(pr_flows _ _ _ P). split; auto. apply (pr_thin _ _ _ P). auto. }
    assert (Tg : tight d4 L4).
    { split; [apply P|]. intros x y _ _ A B. apply (OW x y); auto. }
    assert (K0 : kept t4 d4 L4).
    { split; [apply P|]. eapply edged_table; [apply (pr_edges _ _ _ P W)|]. intros s t Hst.
      apply (pr_rows _ _ _ P). apply (way_ends rows s t NJ). apply (pr_flows _ _ _ P). auto. }
    destruct (Kp Tg K0) as [_ Eg]. eapply edged_table; [exact Eg|]. intros s t Hst. symmetry. apply (pr_rows _ _ _ P).
    apply FL5 in Hst. destruct Hst as [_ [_ [Q|[g [_ [_ Q]]]]]]; eapply way_ends; eauto.
  - exists d0. split; auto. eapply same_meta_trans; [exact M1|]. eapply same_meta_trans; [apply (fi_meta _ _ _ _ _ F)|].
    eapply same_meta_trans; [|apply (th_meta _ _ _ _ _ _ T)]. eapply same_meta_trans; [|apply (ju_meta _ _ _ _ _ J)].
    destruct R3 as [_ R3]. exact R3.
Qed.

(** When the import succeeds. *)
Theorem goto_loads : forall table d,
  let rows := remove_white_spaces_in_orders table in
  blank d -> good_rows rows -> neat_jumps rows ->
  ((exists d', load_diagram_from_csv table d = (d', Ok tt)) <->
   (forall o, In o (orders rows) -> row_fine rows o) /\ followable rows).
Proof.
  intros table d rows Bl G NJ. split.
  - intros [d' H]. split.
    + destruct (load_outcome table d Bl G) as [[A _]|[d2 [msg [A _]]]]; [exact A|]. rewrite A in H. discriminate.
    + destruct (goto_import table d d' Bl G NJ H) as [L I]. apply I.
  - intros [Fine Fo].
    destruct (populate_eq (d, rows)) as [d0 [P0 [Gd [Fd _]]]]. cbn [fst snd] in *.
    assert (Bl0 : blank d0) by (destruct Bl; split; congruence).
    destruct (rows_imported rows d0 Bl0 (proj1 G)) as [d1 [P1 [R M1]]].
    { intros o Ho. eapply good_plain; eauto. }
    unfold load_diagram_from_csv, import_table. fold rows.
    rewrite (mbind_eq _ _ _ _ _ _ _ _ P0), (mbind_eq _ _ _ _ _ _ _ _ P1).
    assert (FE : fill_graph_connections (d1, rows) = mfor (orders rows) (connect_node (orders rows)) (d1, rows)).
    { unfold fill_graph_connections. rewrite mbind_read. cbn [fst]. change (dkeys (gnodes (dgraph d1))) with (node_keys d1).
      rewrite (ri_keys _ _ R). reflexivity. }
    destruct (fill_outcome rows d1 (orders rows) [] d1 [] G eq_refl (filled_start _ _ R))
      as [[d2 [L [E2 [F _]]]]|[st [msg [E2 FB]]]]; rewrite <- FE in E2.
    2: { exfalso. destruct FB as [pre [o [post [E [_ [Nf _]]]]]]. apply Nf, Fine. rewrite E. apply in_app_iff. right. left. auto. }
    rewrite (mbind_eq _ _ _ _ _ _ _ _ E2).
    pose proof (fi_books _ _ _ _ _ F) as B2.
    destruct (legacy_total d2 (bk_wf _ _ B2)) as [d3 E3].
    assert (E3' : on_diagram legacy_adjustment (d2, rows) = ((d3, rows), Ok tt)).
    { unfold on_diagram. cbn [fst snd]. rewrite E3. reflexivity. }
    rewrite (mbind_eq _ _ _ _ _ _ _ _ E3').
    destruct (legacy_inv _ _ (bk_wf _ _ B2) E3) as [W3 [A3 [K3 [Ed3 R3]]]].
    assert (B3 : books d3 L).
    { destruct R3 as [R3 _]. eapply books_frame; eauto. intros m k [-> | ->]; apply A3; discriminate. }
    assert (GW : forall g, is_gateway d3 g <-> gateway_of rows g).
    { intros g. rewrite <- (filled_gateways _ _ _ _ G R F). unfold is_gateway. rewrite A3 by discriminate. tauto. }
    assert (FL : forall s t, In (s, t) L <-> raw_flow rows s t).
    { intros s t. rewrite (fi_flows _ _ _ _ _ F). apply raw_by_all. }
    assert (RO : row_onward rows).
    { intros o m m' M. eapply (fi_merge _ _ _ _ _ F); eauto. apply onward_in, M. }
    assert (N3 : forall x, is_node d3 x <-> In x (orders rows) \/ gateway_of rows x).
    { intros x. unfold is_node. fold (node_keys d3). rewrite K3. change (In x (node_keys d2)) with (is_node d2 x).
      rewrite (fi_nodes _ _ _ _ _ F). unfold gateway_of. split; (intros [Q|[[o Q]|[o [m Q]]]] || intros [Q|[[o Q]|[o [m Q]]]]); auto.
      - right. left. exists o. tauto.
      - right. right. exists o, m. tauto.
      - right. left. exists o. pose proof (onward_in _ _ (proj1 (proj1 Q))). tauto.
      - right. right. exists o, m. pose proof (onward_in _ _ (proj1 (proj1 Q))). tauto. }
    assert (J0 : jumped rows d3 [] (d3, rows) L).
    { apply jumped_start; auto; [apply F|]. eapply edged_frame; [|exact Ed3]. apply F. }
    destruct (goto_total rows d3 L G RO NJ J0) as [s4 E4]; [intros x Hx; apply N3; auto|apply Fo|].
    rewrite (mbind_eq _ _ _ _ _ _ _ _ E4).
    destruct (goto_all rows d3 s4 L G RO NJ J0 E4) as [L4 [J _]].
    pose proof (prepare rows d3 s4 L L4 G RO NJ B3 GW N3 J) as P. destruct s4 as [d4 t4]. cbn [fst snd] in *.
    destruct (thin_total d4 t4 L4 (pr_books _ _ _ P) (pr_apart _ _ _ P)) as [s5 E5].
    { intros g Hg. apply (pr_thin _ _ _ P) in Hg. destruct (fo_gates _ Fo g Hg) as [s [t [X1 [X2 X3]]]].
      exists s, t. rewrite !(pr_flows _ _ _ P). auto. }
    rewrite E5. cbn [fst snd]. eauto.
Qed.
