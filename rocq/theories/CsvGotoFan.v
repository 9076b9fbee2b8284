(** The order of the flows at a gateway of a table with goto rows: the branches in the order of the rows, then the goals of the
    goto rows in their order. *)
From Coq Require Import String Ascii List Bool Arith ZArith Lia.
From Verif Require Import Py PyFacts Consts Nx NxFacts Rep SpecRep RepFacts SpecLayout.
From Verif Require Import CsvRegex CsvImport SpecCsv RegexFacts CsvFacts CsvTable SpecFlow SpecGoto CsvGhost CsvFill CsvLast CsvTotal GotoFacts CsvGoto CsvJump CsvFan.
Import ListNotations.
Open Scope string_scope.
Open Scope list_scope.

Lemma prefix_cancel : forall a b c, (a ++ b = a ++ c)%string -> b = c.
Proof. induction a as [|x a IH]; intros b c H; [exact H|]. cbn in H. injection H as H. auto. Qed.
Lemma fan_list : forall g bs l, (forall p, In p l -> fst p = g) -> map gid l = map (get_flow_id g) bs -> l = map (pair g) bs.
Proof.
  intros g. induction bs as [|b bs IH]; intros [|[x y] l] F H; try discriminate; [reflexivity|]. cbn [map] in *.
  assert (x = g) by (apply (F (x, y)); left; reflexivity). subst x.
  pose proof (f_equal (hd "") H) as H1. pose proof (f_equal (@tl string) H) as H2. cbn [hd tl] in H1, H2. unfold gid, get_flow_id in H1. cbn [fst snd] in H1.
  apply prefix_cancel in H1. apply (prefix_cancel "__") in H1. subst y. f_equal. apply IH; auto. intros p Hp. apply F. right. exact Hp.
Qed.

(** The goto rows followed so far. *)
Definition goto_among (done : dict row) (x : string) : bool := existsb (fun q => is_goto (snd q) && String.eqb (fst q) x) done.
Definition listed (l : flows_of) (x y : string) : bool := existsb (fun p => String.eqb (fst p) x && String.eqb (snd p) y) l.
Definition fan_goto_row (L0 : flows_of) (g : string) (q : string * row) : bool := is_goto (snd q) && listed L0 g (fst q).
Lemma listed_true : forall l x y, listed l x y = true <-> In (x, y) l.
Proof.
  intros l x y. unfold listed. rewrite existsb_exists. split.
  - intros [[a b] [H E]]. apply andb_true_iff in E. rewrite !String.eqb_eq in E. cbn [fst snd] in E. destruct E as [-> ->]. exact H.
  - intros H. exists (x, y). split; auto. cbn [fst snd]. rewrite !String.eqb_refl. reflexivity.
Qed.

Definition in_order (L0 : flows_of) (g : string) (done : dict row) (L : flows_of) : Prop :=
  exists T, filter (from g) L = filter (fun p => negb (goto_among done (snd p))) (filter (from g) L0) ++ map (pair g) T /\
    Forall2 (fun q y => second_word (r_activity (snd q)) y) (filter (fan_goto_row L0 g) done) T.

Lemma filter_swap : forall A (p q : A -> bool) l, filter p (filter q l) = filter q (filter p l).
Proof.
  intros A p q. induction l as [|x l IH]; [reflexivity|]. cbn [filter]. destruct (q x) eqn:Q, (p x) eqn:P; cbn [filter]; rewrite ?Q, ?P, ?IH; reflexivity.
Qed.
Lemma filter_both : forall A (p q : A -> bool) l, filter p (filter q l) = filter (fun x => q x && p x) l.
Proof. intros A p q. induction l as [|x l IH]; [reflexivity|]. cbn [filter]. destruct (q x) eqn:Q; cbn [filter andb]; rewrite IH; reflexivity. Qed.
Lemma filter_agree : forall A (p q : A -> bool) l, (forall x, In x l -> p x = q x) -> filter p l = filter q l.
Proof.
  intros A p q. induction l as [|x l IH]; intros H; [reflexivity|]. cbn [filter]. rewrite (H x) by (left; auto).
  rewrite IH by (intros; apply H; right; auto). reflexivity.
Qed.

Lemma order_step : forall rows L0 g done todo o r L L', neat_jumps rows -> (forall x y, In (x, y) L0 <-> raw_flow rows x y) ->
  ~ goto_order rows g -> rows = done ++ (o, r) :: todo -> in_order L0 g done L ->
  (~ goto_row r /\ L' = L) \/
  (goto_row r /\ exists s t, L' = filter (apart o) L ++ [(s, t)] /\ raw_flow rows s o /\ second_word (r_activity r) t) ->
  in_order L0 g (done ++ [(o, r)]) L'.
Proof.
  intros rows L0 g done todo o r L L' NJ FL Ng E [T [Ef Fw]] [[Nr ->]|[Gr [s [t [-> [Rs Sw]]]]]].
  - assert (Ig : is_goto r = false) by (destruct (is_goto r) eqn:C; auto; apply is_goto_spec in C; contradiction).
    exists T. split.
    + rewrite Ef. f_equal. apply filter_agree. intros p _. unfold goto_among. rewrite existsb_app. cbn [existsb fst snd]. rewrite Ig, !orb_false_r. reflexivity.
    + rewrite filter_app. cbn [filter]. unfold fan_goto_row at 2. cbn [fst snd]. rewrite Ig, app_nil_r. exact Fw.
  - assert (Ig : is_goto r = true) by (apply is_goto_spec; exact Gr).
    assert (Hr : In (o, r) rows) by (rewrite E; apply in_app_iff; right; left; auto).
    assert (Ho : goto_order rows o) by (exists r; auto).
    assert (Gn : g <> o) by (intros ->; contradiction).
    assert (Sg : listed L0 g o = String.eqb s g).
    { destruct (String.eqb_spec s g) as [<- |N].
      - apply listed_true, FL. exact Rs.
      - destruct (listed L0 g o) eqn:C; auto. exfalso. apply listed_true in C. apply FL in C. apply N. eapply (nj_single _ NJ); eauto. }
    assert (Tn : forall y, In y T -> y <> o).
    { intros y Hy ->. assert (X : forall qs T, Forall2 (fun (q : string * row) y => second_word (r_activity (snd q)) y) qs T -> forall y, In y T -> exists q, In q qs /\ second_word (r_activity (snd q)) y).
      { clear. intros qs T H. induction H as [|q w qs T H1 H IH]; intros v Hv; [contradiction|]. destruct Hv as [<- |Hv]; [exists q; split; auto; left; auto|].
        destruct (IH v Hv) as [q' [A B]]. exists q'. split; auto. right. auto. }
      destruct (X _ _ Fw o Hy) as [[a b] [Ha Hb]]. apply filter_In in Ha. destruct Ha as [Ha Hc]. unfold fan_goto_row in Hc. apply andb_true_iff in Hc. cbn [fst snd] in *.
      apply (nj_goal _ NJ a b o); auto; [rewrite E; apply in_app_iff; auto|apply is_goto_spec; apply Hc]. }
    exists (T ++ (if String.eqb s g then [t] else [])). split.
    + rewrite filter_app, filter_swap, Ef, filter_app.
      assert (A1 : filter (apart o) (map (pair g) T) = map (pair g) T).
      { clear - Tn Gn. induction T as [|y T IH]; [reflexivity|]. cbn [map filter]. assert (A : apart o (g, y) = true) by (apply apart_true; cbn [fst snd]; split; auto; apply Tn; left; auto).
        rewrite A, IH; auto. intros; apply Tn; right; auto. }
      rewrite A1, map_app, app_assoc. f_equal.
      * f_equal. rewrite filter_both. apply filter_agree. intros [x y] Hp. apply filter_In in Hp. destruct Hp as [_ Hp]. apply from_true in Hp. cbn [fst snd] in *. subst x.
        unfold goto_among. rewrite existsb_app. cbn [existsb fst snd]. rewrite Ig, orb_false_r. cbn [andb]. rewrite negb_orb. f_equal.
        unfold apart, from, into. cbn [fst snd]. rewrite (proj2 (String.eqb_neq _ _) Gn). cbn [orb]. rewrite String.eqb_sym. reflexivity.
      * cbn [filter]. unfold from. cbn [fst]. destruct (String.eqb_spec s g) as [-> |N]; reflexivity.
    + rewrite filter_app. cbn [filter]. unfold fan_goto_row at 2. cbn [fst snd]. rewrite Ig, Sg. cbn [andb].
      destruct (String.eqb s g); [|rewrite !app_nil_r; exact Fw]. apply Forall2_app; [exact Fw|]. constructor; [exact Sw|constructor].
Qed.

Lemma order_all : forall rows d0 st' L0 g, good_rows rows -> row_onward rows -> neat_jumps rows -> (forall x y, In (x, y) L0 <-> raw_flow rows x y) ->
  ~ goto_order rows g -> jumped rows d0 [] (d0, rows) L0 -> remove_goto_nodes (d0, rows) = (st', Ok tt) ->
  exists L, jumped rows d0 rows st' L /\ in_order L0 g rows L.
Proof.
  intros rows d0 st' L0 g GR RO NJ FL Ng J H. unfold remove_goto_nodes in H. rewrite mbind_read in H. cbn [snd] in H.
  assert (X : forall todo done st L, rows = done ++ todo -> jumped rows d0 done st L -> in_order L0 g done L ->
    mfor todo follow st = (st', Ok tt) -> exists L', jumped rows d0 rows st' L' /\ in_order L0 g rows L').
  { induction todo as [|[o r] todo IH]; intros done st L E T Io X.
    - inv X. rewrite app_nil_r in *. exists L. split; auto.
    - cbn [mfor] in X. apply mbind_ok in X. destruct X as [st1 [[] [X1 X2]]].
      destruct (goto_step rows d0 done todo o r st st1 L GR RO NJ E T X1) as [L1 [[J1 _] K1]].
      apply (IH (done ++ [(o, r)]) st1 L1); auto; [rewrite <- app_assoc; exact E|]. eapply order_step; eauto. }
  apply (X rows [] (d0, rows) L0); auto. exists []. split; [|constructor]. cbn [map]. rewrite app_nil_r.
  induction (filter (from g) L0) as [|p l IH]; [reflexivity|]. cbn [filter]. rewrite <- IH. reflexivity.
Qed.

Lemma filter_map : forall A C (f : A -> C) (p : C -> bool) l, filter p (map f l) = map f (filter (fun x => p (f x)) l).
Proof. intros A C f p. induction l as [|x l IH]; [reflexivity|]. cbn [map filter]. destruct (p (f x)); cbn [map]; rewrite IH; reflexivity. Qed.

(** * The whole table *)
Theorem goto_fan_import : forall table d d',
  let rows := remove_white_spaces_in_orders table in
  blank d -> good_rows rows -> neat_jumps rows ->
  load_diagram_from_csv table d = (d', Ok tt) ->
  forall o, splits rows o -> is_node d' (split_of o) ->
  exists p q goals, (forall b, In b (orders rows) -> (p b = true <-> branch rows o b /\ ~ goto_order rows b)) /\
    (forall b r, In (b, r) rows -> (q (b, r) = true <-> branch rows o b /\ goto_row r)) /\
    Forall2 (fun x y => second_word (r_activity (snd x)) y) (filter q rows) goals /\
    outgoing_of d' (split_of o) = map (get_flow_id (split_of o)) (filter p (orders rows) ++ goals).
Proof.
  intros table d d' rows Bl G NJ H.
  destruct (import_phases _ _ _ H) as [d0 [s1 [s2 [d3 [s4 [s5 [P0 [P1 [P2 [P3 [P4 [P5 ->]]]]]]]]]]]].
  fold rows in P0, P1.
  assert (Bl0 : blank d0).
  { destruct (populate_eq (d, rows)) as [dd [Q [Gd [Fd _]]]]. cbn [fst snd] in *. rewrite P0 in Q. inv Q.
    destruct Bl. split; congruence. }
  destruct (rows_imported rows d0 Bl0 (proj1 G)) as [d1 [Q1 [R M1]]].
  { intros o Ho. eapply good_plain; eauto. }
  rewrite Q1 in P1. injection P1 as <-.
  destruct (fill_all rows d1 s2 G R P2) as [T2 [L F]].
  pose proof (fanned_all rows d1 s2 G R P2) as J2.
  pose proof (fi_books _ _ _ _ _ F) as B2.
  destruct (legacy_inv _ _ (bk_wf _ _ B2) P3) as [W3 [A3 [K3 [E3 R3]]]].
  assert (B3 : books d3 L).
  { destruct R3 as [R3 _]. eapply books_frame; eauto. intros m k [-> | ->]; apply A3; discriminate. }
  assert (GW : forall g, is_gateway d3 g <-> gateway_of rows g).
  { intros g. rewrite <- (filled_gateways _ _ _ _ G R F). unfold is_gateway. rewrite A3 by discriminate. tauto. }
  assert (FL : forall s t, In (s, t) L <-> raw_flow rows s t).
  { intros s t. rewrite (fi_flows _ _ _ _ _ F). apply raw_by_all. }
  assert (RO : row_onward rows).
  { intros o m m' M. eapply (fi_merge _ _ _ _ _ F); eauto. apply onward_in, M. }
  assert (N3 : forall x, is_node d3 x <-> In x (orders rows) \/ gateway_of rows x).
  { intros x. unfold is_node. fold (node_keys d3). rewrite K3. change (In x (node_keys (fst s2))) with (is_node (fst s2) x).
    rewrite (fi_nodes _ _ _ _ _ F). unfold gateway_of. split; (intros [Q|[[o Q]|[o [m Q]]]] || intros [Q|[[o Q]|[o [m Q]]]]); auto.
    - right. left. exists o. tauto.
    - right. right. exists o, m. tauto.
    - right. left. exists o. pose proof (onward_in _ _ (proj1 (proj1 Q))). tauto.
    - right. right. exists o, m. pose proof (onward_in _ _ (proj1 (proj1 Q))). tauto. }
  rewrite T2 in P4.
  assert (J0 : jumped rows d3 [] (d3, rows) L).
  { apply jumped_start; auto; [apply F|]. eapply edged_frame; [|exact E3]. apply F. }
  intros o So Nn. assert (Ho : In o (orders rows)) by (apply onward_in, So).
  assert (Gs : gateway_of rows (split_of o)) by (left; eauto).
  assert (Ng : ~ goto_order rows (split_of o)).
  { intros C. apply goto_in in C. exact (gateway_not_row rows _ G Gs C). }
  destruct (order_all rows d3 s4 L (split_of o) G RO NJ FL Ng J0 P4) as [L4 [J [T [Et Fw]]]].
  pose proof (prepare rows d3 s4 L L4 G RO NJ B3 GW N3 J) as P.
  destruct s4 as [d4 t4]. cbn [fst snd] in *.
  destruct (thin_all d4 t4 L4 s5 (pr_books _ _ _ P) (pr_apart _ _ _ P) P5) as [L' [Th _]].
  destruct (J2 o Ho So) as [bs [Gb Ob]].
  destruct (branches_ordered rows o bs (good_plain _ _ G Ho) Gb) as [p [Eb Pp]].
  assert (Fl : filter (from (split_of o)) L = map (pair (split_of o)) bs).
  { apply fan_list; [intros x Hx; apply filter_In in Hx; apply from_true; tauto|]. rewrite <- (bk_out _ _ B2). exact Ob. }
  assert (Br : forall b, In (split_of o, b) L <-> branch rows o b).
  { intros b. split; intros X.
    - assert (Y : In (split_of o, b) (filter (from (split_of o)) L)) by (apply filter_In; split; auto; apply from_true; reflexivity).
      rewrite Fl in Y. apply in_map_iff in Y. destruct Y as [b' [Y1 Y2]]. injection Y1 as ->. rewrite Eb in Y2. apply filter_In in Y2. apply Pp; tauto.
    - apply FL. apply rf_branch; auto. }
  assert (Ga : forall b, In b (orders rows) -> (goto_among rows b = true <-> goto_order rows b)).
  { intros b _. unfold goto_among, goto_order. rewrite existsb_exists. split.
    - intros [[x r] [X Y]]. apply andb_true_iff in Y. cbn [fst snd] in Y. destruct Y as [Y1 Y2]. apply String.eqb_eq in Y2. subst x. exists r. split; auto. apply is_goto_spec. exact Y1.
    - intros [r [X Y]]. exists (b, r). split; auto. cbn [fst snd]. rewrite String.eqb_refl. apply is_goto_spec in Y. rewrite Y. reflexivity. }
  exists (fun b => p b && negb (goto_among rows b)), (fan_goto_row L (split_of o)), T. split; [|split; [|split; [exact Fw|]]].
  - intros b Hb. rewrite andb_true_iff, negb_true_iff, (Pp b Hb), <- (Ga b Hb). destruct (goto_among rows b); intuition congruence.
  - intros b r Hr. unfold fan_goto_row. cbn [fst snd]. rewrite andb_true_iff, listed_true, Br. rewrite (is_goto_spec r). tauto.
  - rewrite (bk_out _ _ (th_books _ _ _ _ _ _ Th)), (th_from _ _ _ _ _ _ Th).
    + rewrite Et, Fl, filter_map, map_app, !map_map. cbn [snd]. rewrite Eb, filter_both, map_app. reflexivity.
    + apply (pr_gates _ _ _ P). exact Gs.
    + intros [X Y]. apply (th_nodes _ _ _ _ _ _ Th) in Nn. tauto.
Qed.
