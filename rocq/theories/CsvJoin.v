(** The kind of the gateway where branches meet: the importer takes the kind of the gateway
    at which the branches were opened, if that gateway is in the diagram when the first
    branch is connected. *)
From Coq Require Import String Ascii List Bool Arith ZArith Lia.
From Verif Require Import Py PyFacts Consts Nx NxFacts Rep SpecRep RepFacts.
From Verif Require Import CsvRegex CsvImport SpecCsv RegexFacts CsvFacts CsvTable SpecFlow CsvGhost CsvFill CsvLast SpecGoto GotoFacts CsvGoto CsvJump.
Import ListNotations.
Open Scope string_scope.
Open Scope list_scope.


(** The kind of the join in front of row [m], when the rows [done] are connected. *)
Definition joined_kind (rows : dict row) (done : list string) (m ty : string) : Prop :=
  exists l1 o l2, done = l1 ++ o :: l2 /\ merges rows o m /\ (forall x, In x l1 -> ~ merges rows x m) /\
    let s := zstr (value m - 2) in
    ((In s l1 /\ splits rows s /\ get_gateway_type s (orders rows) rows = Ok ty) \/
     (~ (In s l1 /\ splits rows s) /\ ty = "inclusiveGateway")).
Definition joined (rows : dict row) (done : list string) (d : diagram) : Prop :=
  forall o m, In o done -> merges rows o m ->
  exists ty, attr d (join_of m) "type" = Some (VStr ty) /\ joined_kind rows done m ty.

Lemma joined_more : forall rows done n m ty, joined_kind rows done m ty -> joined_kind rows (done ++ [n]) m ty.
Proof.
  intros rows done n m ty [l1 [o [l2 [-> H]]]]. exists l1, o, (l2 ++ [n]). rewrite <- app_assoc. auto.
Qed.

(** What connecting a row does to the nodes. *)
Lemma connect_nodes : forall rows base done d L n st, good_rows rows -> filled rows base done d L ->
  In n (orders rows) -> ~ In n done -> connect_node (orders rows) n (d, rows) = (st, Ok tt) ->
  (forall x, is_node d x -> attr (fst st) x "type" = attr d x "type") /\
  (forall m, is_node (fst st) (join_of m) -> is_node d (join_of m) \/
     (number m -> exists ty, get_merge_node_type m d = Ok (Some ty) /\ attr (fst st) (join_of m) "type" = Some (VStr ty))).
Proof.
  intros rows base done d L n st G F Hn Nd H.
  pose proof (good_plain _ _ G Hn) as Pn. pose proof (proj2 G n Hn) as Ln.
  apply connect_inv in H. destruct H as
    [E1 -> | l s E1 E2 E3 E4 E5 | l succs ty st1 st2 E1 E2 E3 E4 E5 E6 E7 E8 E9
    | l s E1 E2 E3 E4 E5 E6 E7 E8 | l s ty st1 st2 E1 E2 E3 E4 E5 E6 E7 E8 E9 E10 E11]; cbn [fst snd] in *.
  - auto.
  - apply add_connection_inv in E5; [|apply (fi_books _ _ _ _ _ F)]. destruct E5 as [N1 [N2 [T C]]]. split.
    + intros x _. apply (connected_attr _ _ _ _ _ _ _ C); discriminate.
    + intros m Hm. left. apply (connected_is_node _ _ _ _ _ _ C). exact Hm.
  - assert (Ng : ~ is_node d (split_of n)).
    { intros C. apply (fi_nodes _ _ _ _ _ F) in C. destruct C as [C|[[o [C [_ X]]]|[o [m [C [_ X]]]]]].
      - apply (split_not_plain n). eapply good_plain; eauto.
      - apply split_inj in X. subst. auto.
      - eapply split_join; eauto. }
    apply on_diagram_ok in E7. cbn [fst snd] in E7. destruct E7 as [E7 T1].
    destruct (node_info_new (split_id n) (Some ty) "" default_process_id d Ng) as [d1 [X1 A1]].
    rewrite X1 in E7. injection E7 as E7. change (split_id n) with (split_of n) in *.
    destruct st1 as [d1' tb1]. cbn [fst snd] in *. subst d1' tb1.
    assert (B1 : books d1 L) by (eapply books_add; eauto; [apply F|apply split_simple; auto]).
    apply add_connection_inv in E8; [|apply B1]. destruct E8 as [N1 [N2 [T2 C2]]].
    destruct st2 as [d2 tb2]. cbn [fst snd] in *. subst tb2.
    assert (B2 : books d2 (L ++ [(n, split_of n)])) by (eapply books_connect; eauto).
    assert (Ng2 : is_node d2 (split_of n)) by (apply (connected_is_node _ _ _ _ _ _ C2); auto).
    destruct (fan_out _ _ _ _ _ _ B2 Ng2 E9) as [T3' [B3 [K3 [A3 [N3 [M3 Ed3]]]]]]. split.
    + intros x Hx. rewrite A3, (connected_attr _ _ _ _ _ _ _ C2) by discriminate. apply A1. intros ->. auto.
    + intros m Hm. left. unfold is_node in Hm. fold (node_keys (fst st)) in Hm. rewrite K3 in Hm.
      apply (connected_is_node _ _ _ _ _ _ C2) in Hm. apply (added_is_node _ _ _ _ _ A1) in Hm.
      destruct Hm as [Hm|Hm]; auto. symmetry in Hm. exfalso. eapply split_join; eauto.
  - apply add_connection_inv in E8; [|apply (fi_books _ _ _ _ _ F)]. destruct E8 as [N1 [N2 [T C]]]. split.
    + intros x _. apply (connected_attr _ _ _ _ _ _ _ C); discriminate.
    + intros m Hm. left. apply (connected_is_node _ _ _ _ _ _ C). exact Hm.
  - change (join_id s) with (join_of s) in *.
    destruct (the_succ _ _ _ E6) as [S1 [S2 S3]].
    assert (Cl : closes rows n s) by (apply (closes_iff rows n l Ln E4 s); auto).
    assert (Num : number s) by (eapply closes_number; exact Cl).
    destruct (merge_type_three _ _ _ _ _ _ _ G F Num E8) as [t [-> T3]].
    apply on_diagram_ok in E9. cbn [fst snd] in E9. destruct E9 as [E9 T1].
    destruct (node_info_new (join_of s) (Some t) "" default_process_id d E7) as [d1 [X1 A1]].
    rewrite X1 in E9. injection E9 as E9. rewrite (three_kept _ T3) in A1.
    destruct st1 as [d1' tb1]. cbn [fst snd] in *. subst d1' tb1.
    assert (B1 : books d1 L).
    { eapply books_add; eauto; [apply F|]. apply join_simple. apply number_plain; auto. }
    apply add_connection_inv in E10; [|apply B1]. destruct E10 as [N1 [N2 [T2 C2]]].
    destruct st2 as [d2 tb2]. cbn [fst snd] in *. subst tb2.
    assert (B2 : books d2 (L ++ [(join_of s, s)])) by (eapply books_connect; eauto).
    apply add_connection_inv in E11; [|apply B2]. destruct E11 as [N3 [N4 [T4 C3]]]. split.
    + intros x Hx. rewrite (connected_attr _ _ _ _ _ _ _ C3), (connected_attr _ _ _ _ _ _ _ C2) by discriminate.
      apply A1. intros ->. auto.
    + intros m Hm. apply (connected_is_node _ _ _ _ _ _ C3) in Hm. apply (connected_is_node _ _ _ _ _ _ C2) in Hm.
      apply (added_is_node _ _ _ _ _ A1) in Hm. destruct Hm as [Hm|Hm]; auto. apply join_inj in Hm. subst m.
      right. intros _. exists t. split; auto.
      rewrite (connected_attr _ _ _ _ _ _ _ C3), (connected_attr _ _ _ _ _ _ _ C2) by discriminate. apply A1.
Qed.

(** The kind that is looked up. *)
Lemma merge_type_value : forall rows base done d L m ty, good_rows rows -> filled rows base done d L ->
  number m -> get_merge_node_type m d = Ok (Some ty) ->
  let s := zstr (value m - 2) in
  ((In s done /\ splits rows s /\ get_gateway_type s (orders rows) rows = Ok ty) \/
   (~ (In s done /\ splits rows s) /\ ty = "inclusiveGateway")).
Proof.
  intros rows base done d L m ty G F N H s. unfold get_merge_node_type in H.
  destruct (trailing_number_numbered _ _ _ (number_numbered m N)) as [r [E [G1 G2]]]. rewrite E, G1, G2 in H.
  rewrite py_int_value in H by auto. cbn [rbind] in H. destruct (Z.ltb _ _); [discriminate|].
  change (("" ++ zstr (value m - 2))%string) with s in H.
  destruct (gnode (dgraph d) (split_id s)) as [a|] eqn:Ga.
  - assert (Hn : is_node d (split_of s)) by (apply is_node_of; exists a; exact Ga).
    apply (fi_nodes _ _ _ _ _ F) in Hn. destruct Hn as [Hn|[[o [Ho [So Eo]]]|[o [m' [Ho [Mo Eo]]]]]].
    + exfalso. apply (split_not_plain s). eapply good_plain; eauto.
    + apply split_inj in Eo. subst o. destruct (fi_split _ _ _ _ _ F s Ho So) as [t [Gt At]].
      unfold attr, node_of in At. unfold gnode in Ga. change (split_id s) with (split_of s) in Ga. rewrite Ga in At. unfold dgetE in H.
      change k_type with "type" in H. rewrite At in H. cbn [rbind] in H. inv H. left. split; auto. split; auto.
      apply gateway_type_three in Gt as T3. destruct T3 as [-> |[-> | ->]]; exact Gt.
    + exfalso. eapply split_join. exact Eo.
  - inv H. right. split; auto. intros [A B].
    assert (Hn : is_node d (split_of s)) by (apply (fi_nodes _ _ _ _ _ F); right; left; eauto).
    apply is_node_of in Hn. destruct Hn as [b Hb]. change (split_id s) with (split_of s) in Ga.
    unfold gnode in Ga. unfold node_of in Hb. congruence.
Qed.

Lemma join_step : forall rows base done d L n st, good_rows rows -> filled rows base done d L -> joined rows done d ->
  In n (orders rows) -> ~ In n done -> connect_node (orders rows) n (d, rows) = (st, Ok tt) ->
  joined rows (done ++ [n]) (fst st).
Proof.
  intros rows base done d L n st G F J Hn Nd H.
  destruct (fill_step _ _ _ _ _ _ _ G F Hn Nd H) as [_ [L' F']].
  destruct (connect_nodes _ _ _ _ _ _ _ G F Hn Nd H) as [K A].
  assert (Old : forall o m, In o done -> merges rows o m ->
    exists ty, attr (fst st) (join_of m) "type" = Some (VStr ty) /\ joined_kind rows (done ++ [n]) m ty).
  { intros o m Ho M. destruct (J o m Ho M) as [ty [T Q]]. exists ty. split; [|apply joined_more; auto].
    rewrite K; auto. apply (fi_nodes _ _ _ _ _ F). right. right. eauto. }
  intros o m Ho M.
  assert (Nm : is_node (fst st) (join_of m)) by (apply (fi_nodes _ _ _ _ _ F'); right; right; eauto).
  assert (Back : is_node d (join_of m) -> exists o', In o' done /\ merges rows o' m).
  { intros X. apply (fi_nodes _ _ _ _ _ F) in X. destruct X as [X|[[o' [_ [_ X]]]|[o' [m' [X [Y Z]]]]]].
    - exfalso. apply (join_not_plain m). eapply good_plain; eauto.
    - exfalso. symmetry in X. eapply split_join; eauto.
    - apply join_inj in Z. subst m'. eauto. }
  destruct (in_dec string_dec (join_of m) (node_keys d)) as [D|D].
  - destruct (Back D) as [o' [A1 A2]]. eapply Old; eauto.
  - assert (Fi : forall x, In x done -> ~ merges rows x m).
    { intros x Hx Q. apply D. change (is_node d (join_of m)). apply (fi_nodes _ _ _ _ _ F). right. right. eauto. }
    apply in_app_iff in Ho. destruct Ho as [Ho|[<- |[]]]; [exfalso; eapply Fi; eauto|].
    destruct (A m Nm) as [C|C]; [contradiction|]. assert (Num : number m) by (eapply closes_number; apply M).
    destruct (C Num) as [ty [Gt T]]. exists ty. split; auto. exists done, n, []. split; auto. split; auto. split; auto.
    eapply merge_type_value; eauto.
Qed.

Lemma joined_rows : forall rows base todo done d L st, good_rows rows -> orders rows = done ++ todo ->
  filled rows base done d L -> joined rows done d ->
  mfor todo (connect_node (orders rows)) (d, rows) = (st, Ok tt) -> joined rows (orders rows) (fst st).
Proof.
  intros rows base. induction todo as [|n todo IH]; intros done d L st G E F J H.
  - inv H. rewrite app_nil_r in E. rewrite E. exact J.
  - cbn [mfor] in H. apply mbind_ok in H. destruct H as [[d1 tb1] [[] [H1 H2]]].
    assert (I : In n (orders rows)) by (rewrite E; apply in_app_iff; right; left; auto).
    assert (Nd : ~ In n done).
    { pose proof (proj1 G) as N. rewrite E in N. apply NoDup_remove_2 in N. intros C. apply N, in_app_iff. auto. }
    destruct (fill_step rows base done d L n (d1, tb1) G F) as [T [L1 F1]]; auto.
    pose proof (join_step _ _ _ _ _ _ _ G F J I Nd H1) as J1.
    cbn [fst snd] in *. subst tb1. apply (IH (done ++ [n]) d1 L1); auto. rewrite <- app_assoc. exact E.
Qed.
Lemma joined_all : forall rows d st, good_rows rows -> rows_in rows d ->
  fill_graph_connections (d, rows) = (st, Ok tt) -> joined rows (orders rows) (fst st).
Proof.
  intros rows d st G R H. unfold fill_graph_connections in H. rewrite mbind_read in H. cbn [fst] in H.
  change (dkeys (gnodes (dgraph d))) with (node_keys d) in H. rewrite (ri_keys _ _ R) in H.
  eapply (joined_rows rows d (orders rows) []); eauto; [apply filled_start; auto|intros ? ? []].
Qed.

(** * The whole table *)
Theorem joined_import : forall table d d',
  let rows := remove_white_spaces_in_orders table in
  blank d -> good_rows rows -> neat_jumps rows -> load_diagram_from_csv table d = (d', Ok tt) ->
  forall o m, merges rows o m -> is_node d' (join_of m) ->
  exists ty, attr d' (join_of m) "type" = Some (VStr ty) /\ joined_kind rows (orders rows) m ty.
Proof.
  intros table d d' rows Bl G NJ H.
  destruct (import_phases _ _ _ H) as [d0 [s1 [s2 [d3 [s4 [s5 [P0 [P1 [P2 [P3 [P4 [P5 ->]]]]]]]]]]]].
  fold rows in P0, P1.
  assert (Bl0 : blank d0).
  { destruct (populate_eq (d, rows)) as [dd [Q [Gd [Fd _]]]]. cbn [fst snd] in *. rewrite P0 in Q. inv Q.
    destruct Bl. split; congruence. }
  destruct (rows_imported rows d0 Bl0 (proj1 G)) as [d1 [Q1 [R M1]]].
  { intros o Ho. eapply good_plain; eauto. }
  rewrite Q1 in P1. injection P1 as <-.
  destruct (fill_all rows d1 s2 G R P2) as [T2 [L F]].
  pose proof (joined_all rows d1 s2 G R P2) as J2.
  pose proof (fi_books _ _ _ _ _ F) as B2.
  destruct (legacy_inv _ _ (bk_wf _ _ B2) P3) as [W3 [A3 [K3 [E3 R3]]]].
  assert (B3 : books d3 L).
  { destruct R3 as [R3 _]. eapply books_frame; eauto. intros m k [-> | ->]; apply A3; discriminate. }
  assert (GW : forall g, is_gateway d3 g <-> gateway_of rows g).
  { intros g. rewrite <- (filled_gateways _ _ _ _ G R F). unfold is_gateway. rewrite A3 by discriminate. tauto. }
  assert (FL : forall s t, In (s, t) L <-> raw_flow rows s t).
  { intros s t. rewrite (fi_flows _ _ _ _ _ F). apply raw_by_all. }
  assert (RO : row_onward rows).
  { intros o m m' M. eapply (fi_merge _ _ _ _ _ F); eauto. apply onward_in, M. }
  assert (N3 : forall x, is_node d3 x <-> In x (orders rows) \/ gateway_of rows x).
  { intros x. unfold is_node. fold (node_keys d3). rewrite K3. change (In x (node_keys (fst s2))) with (is_node (fst s2) x).
    rewrite (fi_nodes _ _ _ _ _ F). unfold gateway_of. split; (intros [Q|[[o Q]|[o [m Q]]]] || intros [Q|[[o Q]|[o [m Q]]]]); auto.
    - right. left. exists o. tauto.
    - right. right. exists o, m. tauto.
    - right. left. exists o. pose proof (onward_in _ _ (proj1 (proj1 Q))). tauto.
    - right. right. exists o, m. pose proof (onward_in _ _ (proj1 (proj1 Q))). tauto. }
  rewrite T2 in P4.
  assert (J0 : jumped rows d3 [] (d3, rows) L).
  { apply jumped_start; auto; [apply F|]. eapply edged_frame; [|exact E3]. apply F. }
  destruct (goto_all rows d3 s4 L G RO NJ J0 P4) as [L4 [J Fo]].
  pose proof (prepare rows d3 s4 L L4 G RO NJ B3 GW N3 J) as P.
  destruct s4 as [d4 t4]. cbn [fst snd] in *.
  destruct (thin_all d4 t4 L4 s5 (pr_books _ _ _ P) (pr_apart _ _ _ P) P5) as [L' [T [Un Kp]]].
  intros o m M Hn. destruct (J2 o m (onward_in _ _ (proj1 M)) M) as [ty [At Q]]. exists ty. split; auto.
  rewrite (th_attr _ _ _ _ _ _ T) by (try discriminate; auto).
  pose proof (ju_attr _ _ _ _ _ J (join_of m) "type") as X. cbn [fst] in X.
  rewrite X; try discriminate; [rewrite A3 by discriminate; exact At|]. apply (th_nodes _ _ _ _ _ _ T). exact Hn.
Qed.
