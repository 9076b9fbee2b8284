(** The order of the flows at a gateway: the importer connects a splitting gateway with the
    first rows of its branches in the order of the rows. *)
From Coq Require Import String Ascii List Bool Arith ZArith Lia.
From Verif Require Import Py PyFacts Consts Nx NxFacts Rep SpecRep RepFacts SpecLayout.
From Verif Require Import CsvRegex CsvImport SpecCsv RegexFacts CsvFacts CsvTable SpecFlow CsvGhost CsvFill CsvLast.
Import ListNotations.
Open Scope string_scope.
Open Scope list_scope.

(** When the rows [done] are connected. *)
Definition fanned (rows : dict row) (done : list string) (d : diagram) : Prop :=
  forall o, In o done -> splits rows o ->
  exists bs, get_all_split_successors o (orders rows) = Ok bs /\
    outgoing_of d (split_of o) = map (get_flow_id (split_of o)) bs.

Lemma fan_gids : forall g bs, map gid (filter (from g) (map (fun b => (g, b)) bs)) = map (get_flow_id g) bs.
Proof.
  intros g. induction bs as [|b bs IH]; [reflexivity|]. cbn [map filter]. unfold from at 1. cbn [fst]. rewrite eqb_refl'.
  cbn [map]. rewrite IH. reflexivity.
Qed.
Lemma fan_none : forall g x bs, x <> g -> filter (from g) (map (fun b : string => (x, b)) bs) = [].
Proof.
  intros g x bs N. apply filter_nil. intros p H. apply in_map_iff in H. destruct H as [b [<- _]]. unfold from. cbn [fst].
  apply String.eqb_neq. exact N.
Qed.

(** One row. *)
Lemma fan_step : forall rows base done d L n st, good_rows rows -> filled rows base done d L -> fanned rows done d ->
  In n (orders rows) -> ~ In n done -> connect_node (orders rows) n (d, rows) = (st, Ok tt) ->
  fanned rows (done ++ [n]) (fst st).
Proof.
  intros rows base done d L n st G F J Hn Nd H.
  pose proof (good_plain _ _ G Hn) as Pn.
  assert (B : books d L) by apply F.
  destruct (onward_iff rows n (proj1 G) Hn) as [bE [EE Eon]].
  assert (Np : forall o, split_of o <> n) by (intros o E; apply (split_not_plain o); rewrite E; exact Pn).
  assert (Old : (forall o, In o done -> outgoing_of (fst st) (split_of o) = outgoing_of d (split_of o)) -> ~ splits rows n ->
    fanned rows (done ++ [n]) (fst st)).
  { intros X Sn o Ho So. apply in_app_iff in Ho. destruct Ho as [Ho|[<- |[]]]; [rewrite X by auto; apply J; auto|contradiction]. }
  assert (Sj : forall o m, split_of o <> join_of m) by (intros; apply split_join).
  assert (Nop : is_there_split_continuation n (orders rows) = Ok false -> ~ splits rows n).
  { intros X [_ [_ Op]]. unfold is_there_split_continuation in X. destruct (get_possible_split_continuation_successor n) eqn:E; [|discriminate].
    apply (opens_iff rows n _ E) in Op. cbn [rbind] in X. congruence. }
  apply connect_inv in H. destruct H as
    [E1 E0 | l s E1 E2 E3 E4 E5 | l succs ty st1 st2 E1 E2 E3 E4 E5 E6 E7 E8 E9
    | l s E1 E2 E3 E4 E5 E6 E7 E8 | l s ty st1 st2 E1 E2 E3 E4 E5 E6 E7 E8 E9 E10 E11]; cbn [fst snd] in *;
    rewrite E1 in EE; injection EE as <-.
  - rewrite E0 in Old |- *. apply Old; auto. intros [On _]. apply Eon in On. discriminate.
  - apply add_connection_inv in E5; [|apply B]. destruct E5 as [N1 [N2 [T C]]]. apply Old.
    + intros o _. rewrite (connected_out _ _ _ _ _ _ C). rewrite eqb_neq'; auto.
    + intros [_ [Nf _]]. destruct (the_succ _ _ _ E4) as [S1 [S2 _]]. apply (Nf s). apply (follows_iff rows n l E2); auto.
  - assert (Ng : ~ is_node d (split_of n)).
    { intros C. apply (fi_nodes _ _ _ _ _ F) in C. destruct C as [C|[[o [C [_ X]]]|[o [m [C [_ X]]]]]].
      - apply (split_not_plain n). eapply good_plain; eauto.
      - apply split_inj in X. subst. auto.
      - eapply split_join; eauto. }
    apply on_diagram_ok in E7. cbn [fst snd] in E7. destruct E7 as [E7 T1].
    destruct (node_info_new (split_id n) (Some ty) "" default_process_id d Ng) as [d1 [X1 A1]].
    rewrite X1 in E7. injection E7 as E7. change (split_id n) with (split_of n) in *.
    destruct st1 as [d1' tb1]. cbn [fst snd] in *. subst d1' tb1.
    assert (B1 : books d1 L) by (eapply books_add; eauto; apply split_simple; auto).
    apply add_connection_inv in E8; [|apply B1]. destruct E8 as [N1 [N2 [T2 C2]]].
    destruct st2 as [d2 tb2]. cbn [fst snd] in *. subst tb2.
    assert (B2 : books d2 (L ++ [(n, split_of n)])) by (eapply books_connect; eauto).
    assert (Ng2 : is_node d2 (split_of n)) by (apply (connected_is_node _ _ _ _ _ _ C2); auto).
    destruct (fan_out _ _ _ _ _ _ B2 Ng2 E9) as [_ [B3 _]].
    intros o Ho So. rewrite (bk_out _ _ B3), !filter_app.
    assert (Z : filter (from (split_of o)) [(n, split_of n)] = []).
    { apply filter_nil. intros p [<- |[]]. apply String.eqb_neq. cbn [fst]. intros X. apply (Np o). auto. }
    rewrite Z, app_nil_r. apply in_app_iff in Ho. destruct Ho as [Ho|[<- |[]]].
    + rewrite fan_none by (intros X; apply split_inj in X; subst; auto). rewrite app_nil_r, <- (bk_out _ _ B). apply J; auto.
    + exists succs. split; auto. rewrite map_app, fan_gids, (filter_nil _ (from (split_of n)) L); [reflexivity|].
      intros [a b] Hp. apply String.eqb_neq. cbn [fst]. intros ->. apply Ng. apply (bk_ends _ _ B _ _ Hp).
  - apply add_connection_inv in E8; [|apply B]. destruct E8 as [N1 [N2 [T C]]]. apply Old.
    + intros o _. rewrite (connected_out _ _ _ _ _ _ C). rewrite eqb_neq'; auto.
    + exact (Nop E3).
  - change (join_id s) with (join_of s) in *.
    apply on_diagram_ok in E9. cbn [fst snd] in E9. destruct E9 as [E9 T1].
    destruct (node_info_new (join_of s) ty "" default_process_id d E7) as [d1 [X1 A1]].
    rewrite X1 in E9. injection E9 as E9. destruct st1 as [d1' tb1]. cbn [fst snd] in *. subst d1' tb1.
    assert (W1 : wf d1) by (eapply added_wf; eauto; apply B).
    apply add_connection_inv in E10; [|exact W1]. destruct E10 as [N1 [N2 [T2 C2]]].
    destruct st2 as [d2 tb2]. cbn [fst snd] in *. subst tb2.
    assert (W2 : wf d2) by (eapply connected_wf; eauto).
    apply add_connection_inv in E11; [|exact W2]. destruct E11 as [N3 [N4 [T4 C3]]]. apply Old.
    + intros o _. rewrite (connected_out _ _ _ _ _ _ C3), (eqb_neq' (split_of o) n), (connected_out _ _ _ _ _ _ C2), (eqb_neq' (split_of o) (join_of s)); auto.
      unfold outgoing_of. rewrite (ad_other _ _ _ _ A1); auto.
    + exact (Nop E3).
Qed.

Lemma fanned_rows : forall rows base todo done d L st, good_rows rows -> orders rows = done ++ todo ->
  filled rows base done d L -> fanned rows done d ->
  mfor todo (connect_node (orders rows)) (d, rows) = (st, Ok tt) -> fanned rows (orders rows) (fst st).
Proof.
  intros rows base. induction todo as [|n todo IH]; intros done d L st G E F J H.
  - inv H. rewrite app_nil_r in E. rewrite E. exact J.
  - cbn [mfor] in H. apply mbind_ok in H. destruct H as [[d1 tb1] [[] [H1 H2]]].
    assert (I : In n (orders rows)) by (rewrite E; apply in_app_iff; right; left; auto).
    assert (Nd : ~ In n done).
    { pose proof (proj1 G) as N. rewrite E in N. apply NoDup_remove_2 in N. intros C. apply N, in_app_iff. auto. }
    destruct (fill_step rows base done d L n (d1, tb1) G F) as [T [L1 F1]]; auto.
    pose proof (fan_step _ _ _ _ _ _ _ G F J I Nd H1) as J1.
    cbn [fst snd] in *. subst tb1. apply (IH (done ++ [n]) d1 L1); auto. rewrite <- app_assoc. exact E.
Qed.
Lemma fanned_all : forall rows d st, good_rows rows -> rows_in rows d ->
  fill_graph_connections (d, rows) = (st, Ok tt) -> fanned rows (orders rows) (fst st).
Proof.
  intros rows d st G R H. unfold fill_graph_connections in H. rewrite mbind_read in H. cbn [fst] in H.
  change (dkeys (gnodes (dgraph d))) with (node_keys d) in H. rewrite (ri_keys _ _ R) in H.
  eapply (fanned_rows rows d (orders rows) []); eauto; [apply filled_start; auto|intros ? []].
Qed.

(** The rows found are those of the list of rows that open a branch, in its order. *)
Lemma branches_ordered : forall rows o bs, plain o -> get_all_split_successors o (orders rows) = Ok bs ->
  exists p, bs = filter p (orders rows) /\ forall b, In b (orders rows) -> (p b = true <-> branch rows o b).
Proof.
  intros rows o bs P E. pose proof (branches_found rows o bs P E) as [Bf _].
  destruct (re_match rx_trailing_number o) as [r|] eqn:R.
  - pose proof (trailing_number_some _ _ R) as N.
    rewrite (all_split_numbered _ _ _ (orders rows) N) in E.
    2: { intros c Hc. apply plain_special. apply (numbered_plain _ _ _ N P). exact Hc. }
    injection E as E. eexists. split; [symmetry; exact E|]. intros b Hb. rewrite <- Bf, <- E, filter_In. tauto.
  - rewrite all_split_none in E by (apply trailing_number_none; auto). discriminate.
Qed.

(** * The whole table *)
Theorem fan_import : forall table d d',
  let rows := remove_white_spaces_in_orders table in
  blank d -> good_rows rows -> (forall o r, In (o, r) rows -> is_goto r = false) ->
  load_diagram_from_csv table d = (d', Ok tt) ->
  forall o, splits rows o -> is_node d' (split_of o) ->
  exists p, (forall b, In b (orders rows) -> (p b = true <-> branch rows o b)) /\
    outgoing_of d' (split_of o) = map (get_flow_id (split_of o)) (filter p (orders rows)).
Proof.
  intros table d d' rows Bl G NG H.
  destruct (import_phases _ _ _ H) as [d0 [s1 [s2 [d3 [s4 [s5 [P0 [P1 [P2 [P3 [P4 [P5 ->]]]]]]]]]]]].
  fold rows in P0, P1.
  assert (Bl0 : blank d0).
  { destruct (populate_eq (d, rows)) as [dd [Q [Gd [Fd _]]]]. cbn [fst snd] in *. rewrite P0 in Q. inv Q.
    destruct Bl. split; congruence. }
  destruct (rows_imported rows d0 Bl0 (proj1 G)) as [d1 [Q1 [R M1]]].
  { intros o Ho. eapply good_plain; eauto. }
  rewrite Q1 in P1. injection P1 as <-.
  destruct (fill_all rows d1 s2 G R P2) as [T2 [L F]].
  pose proof (fanned_all rows d1 s2 G R P2) as J2.
  pose proof (fi_books _ _ _ _ _ F) as B2.
  destruct (legacy_inv _ _ (bk_wf _ _ B2) P3) as [W3 [A3 [K3 [E3 R3]]]].
  assert (B3 : books d3 L).
  { destruct R3 as [R3 _]. eapply books_frame; eauto. intros m k [-> | ->]; apply A3; discriminate. }
  assert (E4 : s4 = (d3, snd s2)) by (eapply (no_goto rows); eauto). subst s4.
  assert (GW : forall g, is_gateway d3 g <-> gateway_of rows g).
  { intros g. rewrite <- (filled_gateways _ _ _ _ G R F). unfold is_gateway. rewrite A3 by discriminate. tauto. }
  assert (Alt : forall x y, In (x, y) L -> ~ (is_gateway d3 x /\ is_gateway d3 y)).
  { intros x y Hxy [C1 C2]. apply (fi_flows _ _ _ _ _ F) in Hxy. rewrite raw_by_all in Hxy. apply GW in C1. apply GW in C2. eapply raw_alternates; eauto. }
  destruct (thin_all d3 (snd s2) L s5 B3 Alt P5) as [L' [T _]].
  intros o So Nn. assert (Ho : In o (orders rows)) by (apply onward_in, So).
  destruct (J2 o Ho So) as [bs [Gb Ob]].
  destruct (branches_ordered rows o bs (good_plain _ _ G Ho) Gb) as [p [-> Pp]]. exists p. split; auto.
  assert (Gs : is_gateway d3 (split_of o)) by (apply GW; left; eauto).
  rewrite (bk_out _ _ (th_books _ _ _ _ _ _ T)), (th_from _ _ _ _ _ _ T); auto.
  - rewrite <- (bk_out _ _ B2). exact Ob.
  - intros [X Y]. apply (th_nodes _ _ _ _ _ _ T) in Nn. tauto.
Qed.
