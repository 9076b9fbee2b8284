(** Tables with goto rows, laid out and saved (C91).
    Each theorem is followed by a concrete case of its hypotheses. *)
From Coq Require Import String Ascii List Bool Arith ZArith Lia.
From Verif Require Import Py PyFacts Consts Nx NxFacts Rep SpecRep RepFacts SpecLayout Layouter Classify LayoutFacts TopoFacts Prop_LayoutMetrics Prop_Layout Prop_Splits.
From Verif Require Import CsvRegex CsvImport SpecCsv RegexFacts CsvFacts SpecFlow SpecGoto CsvGhost CsvFill CsvLast CsvCoherent.
From Verif Require Import GotoFacts CsvGoto CsvJump Prop_CsvRows Prop_CsvImport Prop_CsvGoto.
From Verif Require Import Xml Export Import SpecXml SpecRound SpecWrite Prop_XmlRound Prop_XmlWrites Prop_CsvLayout Prop_CsvAcyclic Prop_XmlDrawn.
Import ListNotations.
Open Scope string_scope.
Open Scope list_scope.

Section Goto.
Variables (rows : dict row) (d d' : diagram) (L : flows_of).
Hypothesis G : good_rows rows.
Hypothesis NJ : neat_jumps rows.
Hypothesis OW : one_way rows.
Hypothesis I : rerouted rows d d' L.
Hypothesis W : gwf (dgraph d').

Lemma goto_back : forall s t, In (s, t) L -> ~ In (t, s) L.
Proof using All.
  intros s t A B. apply (re_flows _ _ _ _ I) in A. apply (re_flows _ _ _ _ I) in B. destruct A as [_ [_ A]], B as [_ [_ B]]. eapply OW; eauto.
Qed.
Lemma goto_coherent : coherent d'.
Proof using All. eapply booked_coherent; try apply I; auto using goto_back. Qed.
Lemma goto_drawable : drawable d'.
Proof using All. eapply booked_drawable; try apply I; auto using goto_back. Qed.
Lemma goto_flows : forall f s t, flow d' f s t <-> goto_flow rows s t /\ f = gid (s, t).
Proof using All.
  intros f s t. rewrite <- (re_flows _ _ _ _ I). eapply booked_flow; try apply I; auto using goto_back.
Qed.
Lemma goto_laid_out : all_laid_out d'.
Proof using All.
  intros n Hn. apply (re_nodes _ _ _ _ I) in Hn. pose proof Hn as [[O|[[o [S ->]]|[o [m [M ->]]]]] [Ng _]].
  - unfold orders in O. apply in_map_iff in O. destruct O as [[o r] [<- O]]. eexists.
    split; [apply (re_type _ _ _ _ I _ _ O); intros C; apply Ng; exists r; auto|].
    unfold row_type. cbn [fst]. repeat destruct (String.eqb _ _); vm_compute; tauto.
  - destruct (re_split _ _ _ _ I o S Hn) as [ty [Gt T]]. exists ty. split; auto. unfold get_gateway_type in Gt.
    destruct (get_all_split_successors _ _); [|discriminate]. cbn [rbind] in Gt. destruct (get_node_conditions _ _); [|discriminate].
    cbn [rbind] in Gt. injection Gt as <-. destruct (_ && _); [vm_compute; tauto|]. destruct (no_conditions _); vm_compute; tauto.
  - destruct (re_join _ _ _ _ I o m M Hn) as [ty [Gt T]]. exists ty. split; auto. unfold three_gateways in Gt. intuition subst; vm_compute; tauto.
Qed.

(** * The shape of the ways *)
Lemma row_not_passed : forall n, In n (orders rows) -> ~ passed rows n.
Proof using All. intros n Hn [C _]. eapply gateway_not_row; eauto. Qed.
Lemma jump_goal : forall o x t, redirects rows o x t -> In t (orders rows) /\ ~ goto_order rows t.
Proof using All. intros o x t (r & A & B & _ & C). eapply (nj_goal _ NJ); eauto. Qed.
Lemma raw_start : forall x y, raw_flow rows x y -> In x (orders rows) \/ gateway_of rows x.
Proof using All.
  intros x y [o m [[r [H _]] _]|o [[r [H _]] _]|o b S _|o m [[r [H _]] _]|o m M]; try (left; apply in_map_iff; exists (o, r); auto; fail).
  - right. left. eauto.
  - right. right. eauto.
Qed.
Lemma way_start : forall x y, way rows x y -> In x (orders rows) \/ gateway_of rows x.
Proof using All. intros x y [[H _]|(o & r & _ & _ & H & _)]; eapply raw_start; eauto. Qed.
Lemma way_alternates : forall x y, way rows x y -> gateway_of rows x -> ~ gateway_of rows y.
Proof using All.
  intros x y [[H _]|[o H]] A B; [eapply raw_alternates; eauto|]. apply (gateway_not_row rows y G B). eapply jump_goal; eauto.
Qed.
Lemma before_gateway : forall x g, way rows x g -> gateway_of rows g -> In x (orders rows).
Proof using All. intros x g H Hg. destruct (way_start _ _ H) as [A|A]; auto. exfalso. eapply way_alternates; eauto. Qed.
Lemma one_way_on : forall s a b, In s (orders rows) -> way rows s a -> way rows s b -> a = b.
Proof using All. intros s a b. eapply row_goto_one; eauto. apply I. Qed.

(** Different ways into a row are different flows. *)
Lemma way_flow : forall x t, passed rows x \/ ~ passed rows x -> In t (orders rows) -> way rows x t ->
  exists s, goto_flow rows s t /\ ((s = x /\ ~ passed rows x) \/ (passed rows x /\ way rows s x)).
Proof using All.
  intros x t D Ht H. destruct D as [P|P].
  - destruct (fo_gates _ (re_follow _ _ _ _ I) x P) as (s & t' & A & B & _). pose proof P as [Gx [_ U]]. pose proof (before_gateway _ _ A Gx) as Rs.
    exists s. split; [|right; auto]. split; [apply row_not_passed; exact Rs|]. split; [apply row_not_passed; exact Ht|]. right. exists x. auto.
  - exists x. split; [|left; auto]. split; [exact P|]. split; [apply row_not_passed; exact Ht|]. left. exact H.
Qed.
Lemma either : forall P : Prop, (P \/ ~ P -> False) -> False.
Proof using. tauto. Qed.
Lemma two_flows_join : forall s s' t, s <> s' -> goto_flow rows s t -> goto_flow rows s' t -> join_node d' t.
Proof using All.
  intros s s' t N A B. pose proof (proj2 (goto_flows _ s t) (conj A eq_refl)) as FA. pose proof (proj2 (goto_flows _ s' t) (conj B eq_refl)) as FB.
  unfold join_node. apply (NoDup_incl_length (l := [gid (s, t); gid (s', t)])).
  - constructor; [intros [E|[]]|constructor; [intros []|constructor]]. apply N.
    assert (E' : (s', t) = (s, t)); [|congruence]. apply (re_flows _ _ _ _ I) in A. apply (re_flows _ _ _ _ I) in B.
    apply (booked_gid_same rows d' L (re_books _ _ _ _ I) (re_nodup _ _ _ _ I) (re_edges _ _ _ _ I OW) goto_back W); auto.
  - intros z [<- |[<- |[]]]; [apply FA|apply FB].
Qed.
Lemma two_ways_join : forall x x' t, In t (orders rows) -> x <> x' -> way rows x t -> way rows x' t -> join_node d' t.
Proof using All.
  intros x x' t Ht N A B. unfold join_node. destruct (le_dec 2 (length (incoming_of d' t))) as [J|J]; [exact J|exfalso].
  apply (either (passed rows x)). intros Dx. apply (either (passed rows x')). intros Dx'.
  destruct (way_flow x t Dx Ht A) as (s & Fs & Es). destruct (way_flow x' t Dx' Ht B) as (s' & Fs' & Es').
  apply J. apply (two_flows_join s s' t); auto. intros <-.
  destruct Es as [[-> P]|[P Q]], Es' as [[E' P']|[P' Q']].
  - congruence.
  - pose proof P' as [Gx' _]. apply (gateway_not_row rows x' G Gx').
    rewrite (one_way_on x x' t (before_gateway _ _ Q' Gx') Q' A). exact Ht.
  - subst s. pose proof P as [Gx _]. apply (gateway_not_row rows x G Gx).
    rewrite (one_way_on x' x t (before_gateway _ _ Q Gx) Q B). exact Ht.
  - apply N. pose proof P as [Gx _]. apply (one_way_on s x x'); auto. exact (before_gateway _ _ Q Gx).
Qed.

(** * Loops *)
(** The goal of each goto row is also reached in another way. *)
Definition goals_reached (rows : dict row) : Prop :=
  forall o x t, redirects rows o x t -> exists y, raw_flow rows y t /\ ~ goto_order rows y.
Hypothesis Be : block_ends rows.

Lemma jump_join : forall o x t, goals_reached rows -> redirects rows o x t -> join_node d' t.
Proof using All.
  intros o x t Gr R. destruct (Gr o x t R) as (y & Ry & Ny). destruct (jump_goal _ _ _ R) as [Ht Nt].
  apply (two_ways_join y x t Ht).
  - intros ->. eapply (nj_new _ NJ); eauto.
  - left. auto.
  - right. eauto.
Qed.
Lemma way_up : forall s t, way rows s t -> lexlt (rank s) (rank t) \/ exists o, redirects rows o s t.
Proof using All.
  intros s t [[H _]|H]; [left|right; exact H]. eapply (raw_up rows); eauto; [apply G|apply (re_merge _ _ _ _ I)].
Qed.
Lemma flow_up : forall s t, goto_flow rows s t -> lexlt (rank s) (rank t) \/ exists o x, redirects rows o x t.
Proof using All.
  intros s t [_ [_ [H|(g & [Gg _] & A & B)]]].
  - destruct (way_up _ _ H) as [U|[o U]]; [left; auto|right; eauto].
  - destruct (way_up _ _ A) as [U|[o U]]; [|exfalso; eapply (gateway_not_row rows g); eauto; eapply jump_goal; eauto].
    destruct (way_up _ _ B) as [V|[o V]]; [left; eapply lex_trans; eauto|right; eauto].
Qed.
Lemma loop_join : forall l, goals_reached rows -> cycle d' l -> exists n, In n l /\ join_node d' n.
Proof using All.
  intros l Gr [a P].
  assert (X : forall a l b, path d' a l b -> lexlt (rank a) (rank b) \/ exists n o x, In n (tl l ++ [b]) /\ redirects rows o x n).
  { clear P. induction 1 as [f n m F|f n m l1 k F P IH].
    - apply goto_flows in F. destruct F as [F _]. destruct (flow_up _ _ F) as [U|(o & x & R)]; [left; exact U|right].
      exists m, o, x. split; [left; reflexivity|exact R].
    - apply goto_flows in F. destruct F as [F _]. destruct (flow_up _ _ F) as [U|(o & x & R)].
      + destruct IH as [V|(z & o & x & A & R)]; [left; eapply lex_trans; eauto|right]. exists z, o, x. split; [|exact R].
        cbn [tl]. apply in_app_or in A. apply in_or_app. destruct A as [A|A]; [left|right; exact A]. destruct l1; [destruct A|right; exact A].
      + right. exists m, o, x. split; [|exact R]. cbn [tl]. apply in_or_app. left. inversion P; subst; left; reflexivity. }
  destruct (X a l a P) as [U|(n & o & x & A & R)]; [exfalso; eapply lex_irrefl; eauto|].
  exists n. split; [|eapply jump_join; eauto]. apply in_app_or in A. destruct A as [A|[<- |[]]].
  - destruct l; [destruct A|right; exact A].
  - inversion P; subst; left; reflexivity.
Qed.
End Goto.

(** * C91 *)
(** Everything the layouter needs: C26 - C33 and C89, C90 apply. *)
Theorem C91_ready_for_layout : forall table d, documented table -> neat_jumps (rows_of table) -> one_way (rows_of table) ->
  load_diagram_from_csv table empty_diagram = (d, Ok tt) ->
  coherent d /\ all_laid_out d /\ gwf (dgraph d) /\ drawable d /\
  forall s t, (exists f, flow d f s t) <-> goto_flow (rows_of table) s t.
Proof.
  intros table d D NJ OW H. pose proof (load_gwf _ _ _ H) as W. destruct (table_rerouted _ _ _ fresh_empty D NJ H) as [L I].
  assert (G : good_rows (rows_of table)) by exact D.
  split; [eapply goto_coherent; eauto|]. split; [eapply goto_laid_out; eauto|]. split; [exact W|]. split; [eapply goto_drawable; eauto|].
  intros s t. split.
  - intros [f F]. eapply goto_flows in F; eauto. apply F.
  - intros F. exists (gid (s, t)). eapply goto_flows; eauto.
Qed.
(** If the goal of each goto row is also reached in another way, the layouter finds an
    order, and whatever goes wrong then goes wrong in the grid. *)
Theorem C91_layout_order : forall table d fuel, documented table -> neat_jumps (rows_of table) -> one_way (rows_of table) ->
  block_ends (rows_of table) -> goals_reached (rows_of table) ->
  load_diagram_from_csv table empty_diagram = (d, Ok tt) -> sort_bound d <= fuel ->
  exists s b, (let* cls := generate_elements_clasification d in topological_sort fuel d cls) = Ok (s, b) /\
    forall g, grid_layout fuel d s = Ok g -> exists d', generate_layout fuel d = (d', Ok tt).
Proof.
  intros table d fuel D NJ OW Be Gr H F. destruct (C91_ready_for_layout table d D NJ OW H) as [Co [AL [W [Dr _]]]].
  destruct (table_rerouted _ _ _ fresh_empty D NJ H) as [L I]. assert (G : good_rows (rows_of table)) by exact D.
  destruct (proj1 (C27_terminates_iff d Co AL)) with (fuel := fuel) as (s & b & E); auto.
  { intros l C. eapply loop_join; eauto. }
  exists s, b. split; [exact E|]. intros g Eg. eapply C90_only_the_grid_fails; eauto.
Qed.
(** A table with goto rows that was loaded and laid out can be saved, and the file gives
    back the process of the table with its drawing. *)
Theorem C91_table_saved : forall set_order table fuel d d1, any_order set_order -> documented table ->
  neat_jumps (rows_of table) -> one_way (rows_of table) ->
  load_diagram_from_csv table empty_diagram = (d, Ok tt) -> generate_layout fuel d = (d1, Ok tt) ->
  exists bound, forall fuel', bound <= fuel' -> exists d2, round_trip set_order fuel' d1 d2 /\
    (forall n, is_node d2 n <-> goto_node (rows_of table) n) /\
    (forall n, is_node d2 n -> exists x y, at_xy d1 n x y /\ at_xy d2 n x y /\
       attr d2 n "type" = attr d n "type" /\ attr d2 n "node_name" = attr d n "node_name") /\
    (forall o r, In (o, r) (rows_of table) -> ~ goto_row r ->
       attr d2 o "type" = Some (VStr (row_type o r)) /\ attr d2 o "node_name" = Some (VStr (row_name o r))) /\
    (forall s t, (exists f, flow d f s t /\ In f (outgoing_of d2 s) /\ In f (incoming_of d2 t)) <-> goto_flow (rows_of table) s t) /\
    (forall s t, goto_flow (rows_of table) s t ->
       exists w, link_attr d1 s t "waypoints" (VPoints w) /\ link_attr d2 s t "waypoints" (VPoints w)).
Proof.
  intros so table fuel d d1 Po D NJ OW H Hl. pose proof (load_gwf _ _ _ H) as W. destruct (table_rerouted _ _ _ fresh_empty D NJ H) as [L I].
  assert (G : good_rows (rows_of table)) by exact D.
  destruct (booked_saved so table fuel d d1 _ L Po H (re_books _ _ _ _ I) (re_nodup _ _ _ _ I) (re_edges _ _ _ _ I OW) (goto_back _ _ _ _ G NJ OW I W) Hl) as [b B].
  exists b. intros fuel' Lf. destruct (B fuel' Lf) as [d2 [R [N [A' P]]]]. exists d2. split; [exact R|].
  destruct (C91_ready_for_layout table d D NJ OW H) as [_ [_ [_ [_ F]]]].
  split; [intros n; rewrite N; apply (re_nodes _ _ _ _ I)|]. split; [|split; [|split]].
  - intros n Hn. destruct (A' n Hn) as (x & y & A1 & A2 & A3 & A4 & _). exists x, y. auto.
  - intros o r Ho Ng. assert (Hn : is_node d2 o) by (apply N; eapply attr_is_node; apply (re_type _ _ _ _ I o r Ho Ng)).
    destruct (A' o Hn) as (x & y & _ & _ & A3 & A4 & _). rewrite A3, A4, (re_type _ _ _ _ I o r Ho Ng), (re_name _ _ _ _ I o r Ho Ng). auto.
  - intros s t. rewrite <- F. split; [intros [f [Hf _]]; eauto|]. intros [f Hf]. exists f. split; auto. pose proof Hf as [O [In' _]].
    assert (Hs : is_node d s /\ is_node d t) by (apply (bk_ends _ _ (re_books _ _ _ _ I)), (re_flows _ _ _ _ I), F; eauto).
    destruct (A' s) as (_ & _ & _ & _ & _ & _ & E1 & _); [apply N; tauto|].
    destruct (A' t) as (_ & _ & _ & _ & _ & _ & _ & E2); [apply N; tauto|].
    rewrite E1, E2. auto.
  - intros s t Hst. apply P. apply (re_flows _ _ _ _ I). exact Hst.
Qed.

(** A row that leads straight on to another row: no other way leads to the rows after it. *)
Inductive straight (rows : dict row) (t : string) : string -> Prop :=
| straight_here : In t (orders rows) -> straight rows t t
| straight_next : forall k m, straight rows t k -> In m (orders rows) -> way rows k m -> (forall x, way rows x m -> x = k) -> straight rows t m.
(** A goto row that is the first row of a branch and leads straight back cannot be laid out. *)
Theorem C91_jump_from_branch_fails : forall table d o k t, documented table -> neat_jumps (rows_of table) -> one_way (rows_of table) ->
  load_diagram_from_csv table empty_diagram = (d, Ok tt) ->
  redirects (rows_of table) o (split_of k) t -> ~ passed (rows_of table) (split_of k) -> straight (rows_of table) t k ->
  forall fuel, snd (generate_layout fuel d) <> Ok tt.
Proof.
  intros table d o k t D NJ OW H R Np St fuel E. pose proof (load_gwf _ _ _ H) as W. destruct (table_rerouted _ _ _ fresh_empty D NJ H) as [L I].
  assert (G : good_rows (rows_of table)) by exact D. set (rows := rows_of table) in *.
  assert (Hl : generate_layout fuel d = (fst (generate_layout fuel d), Ok tt)) by (destruct (generate_layout fuel d); cbn in *; congruence).
  set (d1 := fst (generate_layout fuel d)) in *. destruct (C91_ready_for_layout table d D NJ OW H) as [Co [_ [_ [_ F]]]].
  pose proof (fun f s t => goto_flows rows empty_diagram d L G NJ OW I W f s t) as FL.
  pose proof (row_not_passed rows empty_diagram d L G NJ OW I W) as Rp.
  assert (Sk : splits rows k).
  { destruct R as (r & _ & _ & R & _). inversion R as [z m [On _] Ez Em|z Sz Ez Em|z b Sz Bz Ez Em|z m [On _] Ez Em|z m M Ez Em].
    - exfalso. apply (split_not_plain k). apply (good_plain rows); auto. destruct On as [r0 [On _]]. exact (in_map fst _ _ On).
    - exfalso. apply (split_not_plain k). apply (good_plain rows); auto. destruct Sz as [[r0 [On _]] _]. exact (in_map fst _ _ On).
    - apply split_inj in Ez. subst z. exact Sz.
    - exfalso. apply (split_not_plain k). apply (good_plain rows); auto. destruct On as [r0 [On _]]. exact (in_map fst _ _ On).
    - exfalso. eapply split_join. symmetry. exact Ez. }
  assert (Gk : gateway_of rows (split_of k)) by (left; eauto).
  assert (Hk : In k (orders rows)) by (inversion St; auto).
  assert (Ngk : ~ goto_order rows k).
  { inversion St as [Ht E0|k0 m _ _ Wk _ E0]; [subst k; eapply (jump_goal rows empty_diagram d L G NJ OW I W); eauto|]. apply (way_ends rows k0 k NJ Wk). }
  assert (Wk : way rows k (split_of k)).
  { left. split; [apply rf_split; exact Sk|]. split; auto. intros C. apply (gateway_not_row rows _ G Gk). apply goto_in. exact C. }
  assert (Ok1 : forall x, way rows x (split_of k) -> x = k).
  { intros x [[Q _]|[o' Q]].
    - inversion Q as [z m On Ez Em|z Sz Ez Em|z b Sz [p [n [_ [_ Bz]]]] Ez Em|z m On Ez Em|z m (_ & _ & _ & _ & _ & _ & _ & _ & _ & _ & M) Ez Em].
      + exfalso. apply (gateway_not_row rows _ G Gk). destruct On as [_ (p & n & _ & _ & On)]. exact On.
      + apply split_inj in Em. congruence.
      + exfalso. apply (gateway_not_row rows _ G Gk). exact Bz.
      + exfalso. eapply split_join. symmetry. exact Em.
      + exfalso. apply (gateway_not_row rows _ G Gk). exact M.
    - exfalso. apply (gateway_not_row rows _ G Gk). eapply (jump_goal rows empty_diagram d L G NJ OW I W); eauto. }
  assert (One : forall a m, In a (orders rows) -> (forall x, way rows x m -> x = a) -> ~ join_node d m).
  { intros a m Ha U J. destruct Co as [_ [Nd [_ In']]]. assert (X : incl (incoming_of d m) [gid (a, m)]).
    { intros f Hf. destruct (In' m f Hf) as (s & Gs & Os). assert (Fs : flow d f s m) by (split; auto). apply FL in Fs. destruct Fs as [[Ps [_ S]] ->]. left.
      destruct S as [S|(g & Pg & _ & S)]; [rewrite (U _ S); reflexivity|]. exfalso. apply (Rp a Ha). rewrite <- (U _ S). exact Pg. }
    unfold join_node in J. apply NoDup_incl_length in X; [cbn in X; lia|]. destruct (incoming_of d m) as [|f l] eqn:Ei; [constructor|].
    rewrite <- Ei. apply Nd. eapply incoming_node. rewrite Ei. left. reflexivity. }
  assert (Fk : flow d (gid (k, split_of k)) k (split_of k)).
  { apply FL. split; [|reflexivity]. split; [apply Rp; exact Hk|]. split; [exact Np|]. left. exact Wk. }
  destruct (step_right fuel d d1 _ _ _ Co Hl Fk) as (x1 & y1 & x2 & y2 & A1 & A2 & A3); [right; apply (One k); auto|].
  assert (Ht : In t (orders rows)) by (eapply (jump_goal rows empty_diagram d L G NJ OW I W); eauto).
  assert (Ft : flow d (gid (split_of k, t)) (split_of k) t).
  { apply FL. split; [|reflexivity]. split; [exact Np|]. split; [apply Rp; exact Ht|]. left. right. eauto. }
  assert (Sp : split_node d (split_of k)).
  { unfold split_node. destruct (le_dec 2 (length (outgoing_of d (split_of k)))) as [X|X]; [exact X|exfalso]. apply Np. split; [exact Gk|].
    split; [intros x y Px Py; rewrite (Ok1 _ Px), (Ok1 _ Py); reflexivity|]. intros x y Px Py.
    assert (Q : forall z, way rows (split_of k) z -> In (gid (split_of k, z)) (outgoing_of d (split_of k)) /\ In (split_of k, z) L).
    { intros z Pz. assert (Gf : goto_flow rows (split_of k) z).
      { split; [exact Np|]. split; [|left; exact Pz]. intros [Gz _]. eapply (way_alternates rows empty_diagram d L G NJ OW I W); eauto. }
      split; [|apply (re_flows _ _ _ _ I); exact Gf]. assert (Fz : flow d (gid (split_of k, z)) (split_of k) z) by (apply FL; auto). apply Fz. }
    destruct (Q x Px) as [Qx Lx], (Q y Py) as [Qy Ly].
    assert (Z : gid (split_of k, x) = gid (split_of k, y)).
    { destruct (outgoing_of d (split_of k)) as [|f [|f' l]]; [destruct Qx| |cbn in X; lia]. destruct Qx as [Qx|[]], Qy as [Qy|[]]. congruence. }
    assert (Z' : (split_of k, x) = (split_of k, y)); [|congruence].
    apply (booked_gid_same rows d L (re_books _ _ _ _ I) (re_nodup _ _ _ _ I) (re_edges _ _ _ _ I OW) (goto_back _ _ _ _ G NJ OW I W) W); auto. }
  destruct (step_right fuel d d1 _ _ _ Co Hl Ft) as (x3 & y3 & x4 & y4 & B1 & B2 & B3); [left; exact Sp|].
  assert (Le : forall m, straight rows t m -> forall x y x' y', at_xy d1 t x y -> at_xy d1 m x' y' -> (x <= x')%Z).
  { assert (Same : forall n x y x' y', at_xy d1 n x y -> at_xy d1 n x' y' -> x = x').
    { intros n x y x' y' [Q _] [Q' _]. rewrite Q in Q'. injection Q' as Q'. apply zstr_inj in Q'. auto. }
    induction 1 as [|k0 m S0 IH Hm Wm U]; intros x y x' y' X Y; [rewrite (Same _ _ _ _ _ X Y); lia|].
    assert (H0 : In k0 (orders rows)) by (inversion S0; auto).
    assert (F0 : flow d (gid (k0, m)) k0 m). { apply FL. split; [|reflexivity]. split; [apply Rp; exact H0|]. split; [apply Rp; exact Hm|]. left. exact Wm. }
    destruct (step_right fuel d d1 _ _ _ Co Hl F0) as (u & v & u' & v' & C1 & C2 & C3); [right; apply (One k0); auto|].
    specialize (IH _ _ _ _ X C1). rewrite (Same _ _ _ _ _ Y C2). lia. }
  pose proof (Le k St _ _ _ _ B2 A1) as Q. destruct A2 as [A2 _], B1 as [B1 _]. rewrite A2 in B1. injection B1 as B1. apply zstr_inj in B1. lia.
Qed.

(** * Examples *)
Lemma straight_end : forall rows t m, straight rows t m -> In m (orders rows).
Proof. intros rows t m H. inversion H; auto. Qed.
Definition straight_b (rows : dict row) (l : list string) : bool :=
  match snd (made rows) with Ok _ => true | Err _ => false end &&
  forallb (fun n => smem n (orders rows)) l &&
  forallb (fun p => pair_b p (Prop_CsvGoto.ways rows) && forallb (fun q => negb (String.eqb (snd q) (snd p)) || String.eqb (fst q) (fst p)) (Prop_CsvGoto.ways rows))
    (combine l (tl l)).
Lemma straight_b_ok : forall rows t l, good_rows rows -> straight_b rows (t :: l) = true -> straight rows t (last l t).
Proof.
  intros rows t l G H. unfold straight_b in H. rewrite !andb_true_iff in H. destruct H as [[M H1] H2].
  assert (M' : snd (made rows) = Ok tt) by (destruct (snd (made rows)) as [[]|]; [reflexivity|discriminate]). clear M.
  assert (X : forall l a, straight rows t a -> forallb (fun n => smem n (orders rows)) (a :: l) = true ->
    forallb (fun p => pair_b p (Prop_CsvGoto.ways rows) && forallb (fun q => negb (String.eqb (snd q) (snd p)) || String.eqb (fst q) (fst p)) (Prop_CsvGoto.ways rows))
      (combine (a :: l) l) = true -> straight rows t (last l a)).
  { clear l H1 H2. induction l as [|b l IH]; intros a S H1 H2; [exact S|]. cbn [combine forallb] in H1, H2. rewrite !andb_true_iff in H1, H2.
    destruct H1 as [_ H1]. destruct H2 as [[A B] H2]. replace (last (b :: l) a) with (last l b) by (clear; revert b; induction l as [|c l IH]; intros b; [reflexivity|]; cbn; destruct l; auto; apply IH).
    apply IH; [|cbn [forallb]; rewrite andb_true_iff; exact H1|exact H2]. destruct H1 as [H1 _].
    apply (straight_next rows t a b S); [apply smem_In; exact H1|apply (ways_ok rows G M'); apply pair_b_ok; exact A|].
    intros x Wx. apply (ways_ok rows G M') in Wx. rewrite forallb_forall in B. specialize (B _ Wx). cbn [fst snd] in B. rewrite eqb_refl' in B. cbn [negb orb] in B.
    apply String.eqb_eq. exact B. }
  apply X; auto. constructor. cbn [forallb] in H1. apply andb_true_iff in H1. apply smem_In. apply H1.
Qed.
Definition reached_b (rows : dict row) : bool :=
  match snd (made rows) with Ok _ => true | Err _ => false end &&
  forallb (fun j => existsb (fun q => String.eqb (snd q) (snd (snd j)) && negb (goto_b rows (fst q))) (made_flows rows)) (jumps rows).
Lemma reached_b_ok : forall rows, good_rows rows -> reached_b rows = true -> goals_reached rows.
Proof.
  intros rows G H o x t R. unfold reached_b in H. apply andb_true_iff in H. destruct H as [M H].
  assert (M' : snd (made rows) = Ok tt) by (destruct (snd (made rows)) as [[]|]; [reflexivity|discriminate]). clear M.
  apply (jumps_ok rows G M') in R. rewrite forallb_forall in H. specialize (H _ R). apply existsb_exists in H. destruct H as [[s q] [A B]].
  cbn [fst snd] in B. apply andb_true_iff in B. destruct B as [B C]. apply String.eqb_eq in B. subst q. exists s. split; [apply (made_ok rows G M'); exact A|].
  intros Q. apply goto_b_ok in Q. rewrite Q in C. discriminate.
Qed.

(** The text goes back with remarks. *)
Definition revise : list (order_label * row) :=
  [rw "0" "begin" ""; rw "1" "write" ""; rw "2" "review" "";
   (OStr "3a1", mkRow "remark" "no" "" "" ""); (OStr "3a2", mkRow "goto 1" "" "" "" "");
   (OStr "3b1", mkRow "publish" "yes" "" "" ""); rw "4" "end" "yes"].
Definition revise_diagram : diagram := fst (load_diagram_from_csv revise empty_diagram).
Lemma revise_documented : documented revise.
Proof. apply check_documented; vm_compute; reflexivity. Qed.
Example C91_example : documented revise /\ neat_jumps (rows_of revise) /\ one_way (rows_of revise) /\ block_ends (rows_of revise) /\
  goals_reached (rows_of revise) /\ load_diagram_from_csv revise empty_diagram = (revise_diagram, Ok tt) /\ sort_bound revise_diagram <= 30 /\
  (exists d1, generate_layout 30 revise_diagram = (d1, Ok tt)) /\
  positions 30 revise_diagram = Ok [("0", Some (VStr "200"), Some (VStr "250")); ("1", Some (VStr "350"), Some (VStr "150"));
    ("2", Some (VStr "500"), Some (VStr "150")); ("3a1", Some (VStr "800"), Some (VStr "-50")); ("3b1", Some (VStr "800"), Some (VStr "350"));
    ("4", Some (VStr "950"), Some (VStr "350")); ("2_split", Some (VStr "650"), Some (VStr "150"))].
Proof.
  split; [exact revise_documented|]. split; [apply neat_b_ok; [exact revise_documented|vm_compute; reflexivity]|].
  split; [apply one_way_b_ok; [exact revise_documented|vm_compute; reflexivity]|].
  split.
  { intros o q c p l k I B. destruct (branch_pieces _ _ _ _ _ B) as [r E]. clear B. revert E. generalize (value q) (code c). intros v x E.
    vm_compute in I. repeat (destruct I as [<- |I]; [vm_compute in E; first [discriminate E|injection E as <- _ _; vm_compute; tauto]|]). contradiction. }
  split; [apply reached_b_ok; [exact revise_documented|vm_compute; reflexivity]|]. split; [vm_compute; reflexivity|].
  split; [assert (E : sort_bound revise_diagram = 15) by (vm_compute; reflexivity); rewrite E; lia|].
  split; [eexists; vm_compute; reflexivity|]. vm_compute. reflexivity.
Qed.
(** The review of C86 cannot be laid out, whatever the fuel: its goto row is the first row
    of its branch. *)
Example C91_jump_from_branch_fails_example : redirects (rows_of review) "3a1" (split_of "2") "1" /\ ~ passed (rows_of review) (split_of "2") /\
  straight (rows_of review) "1" "2" /\ snd (generate_layout 60 review_diagram) = Err IndexError /\
  forall fuel, snd (generate_layout fuel review_diagram) <> Ok tt.
Proof.
  assert (R : redirects (rows_of review) "3a1" (split_of "2") "1").
  { apply (jumps_ok (rows_of review)); [exact review_documented|vm_compute; reflexivity|vm_compute; tauto]. }
  assert (S : straight (rows_of review) "1" "2").
  { apply (straight_b_ok (rows_of review) "1" ["2"]); [exact review_documented|vm_compute; reflexivity]. }
  assert (Lo : load_diagram_from_csv review empty_diagram = (review_diagram, Ok tt)) by (vm_compute; reflexivity).
  assert (P : ~ passed (rows_of review) (split_of "2")).
  { assert (Hn : is_node review_diagram (split_of "2")) by (vm_compute; tauto).
    destruct (C86_nodes_and_flows review empty_diagram review_diagram fresh_empty review_documented (proj1 review_neat) Lo) as [Nn _].
    exact (proj2 (proj2 (proj1 (Nn (split_of "2")) Hn))). }
  split; [exact R|]. split; [exact P|]. split; [exact S|]. split; [vm_compute; reflexivity|].
  apply (C91_jump_from_branch_fails review review_diagram "3a1" "2" "1" review_documented (proj1 review_neat) (proj2 review_neat) Lo R P S).
Qed.

(** A goto row that leads back to the start, to which nothing else leads: the layouter
    never returns. *)
Definition restart : list (order_label * row) :=
  [rw "0" "begin" ""; rw "1" "write" ""; rw "2" "review" "";
   (OStr "3a1", mkRow "remark" "no" "" "" ""); (OStr "3a2", mkRow "goto 0" "" "" "" "");
   (OStr "3b1", mkRow "publish" "yes" "" "" ""); rw "4" "end" "yes"].
Definition restart_diagram : diagram := fst (load_diagram_from_csv restart empty_diagram).
Theorem C91_layout_order_refuted : exists table d, documented table /\ neat_jumps (rows_of table) /\ one_way (rows_of table) /\
  block_ends (rows_of table) /\ load_diagram_from_csv table empty_diagram = (d, Ok tt) /\
  forall fuel, (let* cls := generate_elements_clasification d in topological_sort fuel d cls) = Err OutOfFuel.
Proof.
  assert (D : documented restart) by (apply check_documented; vm_compute; reflexivity).
  assert (NJ : neat_jumps (rows_of restart)) by (apply neat_b_ok; [exact D|vm_compute; reflexivity]).
  assert (OW : one_way (rows_of restart)) by (apply one_way_b_ok; [exact D|vm_compute; reflexivity]).
  assert (Lo : load_diagram_from_csv restart empty_diagram = (restart_diagram, Ok tt)) by (vm_compute; reflexivity).
  exists restart, restart_diagram. split; [exact D|]. split; [exact NJ|]. split; [exact OW|]. split.
  { intros o q c p l k I B. destruct (branch_pieces _ _ _ _ _ B) as [r E]. clear B. revert E. generalize (value q) (code c). intros v x E.
    vm_compute in I. repeat (destruct I as [<- |I]; [vm_compute in E; first [discriminate E|injection E as <- _ _; vm_compute; tauto]|]). contradiction. }
  split; [exact Lo|]. destruct (C91_ready_for_layout restart restart_diagram D NJ OW Lo) as [Co [AL [_ [_ F]]]].
  destruct (C86_nodes_and_flows restart empty_diagram restart_diagram fresh_empty D NJ Lo) as [_ [Fb _]].
  assert (X : forall s t, dget (get_flow_id s t) (seq_flows restart_diagram) = Some (mkFlow (get_flow_id s t) s t) -> exists f, flow restart_diagram f s t).
  { intros s t E. apply F. apply Fb. eexists. exact E. }
  destruct (X "0" "1" ltac:(vm_compute; reflexivity)) as [f0 F0]. destruct (X "1" "2" ltac:(vm_compute; reflexivity)) as [f1 F1].
  destruct (X "2" "2_split" ltac:(vm_compute; reflexivity)) as [f2 F2]. destruct (X "2_split" "3a1" ltac:(vm_compute; reflexivity)) as [f3 F3].
  destruct (X "3a1" "0" ltac:(vm_compute; reflexivity)) as [f4 F4].
  assert (Jn : forallb (fun n => negb (join_b restart_diagram n)) ["0"; "1"; "2"; "2_split"; "3a1"] = true) by (vm_compute; reflexivity).
  clear X F Fb Lo. generalize dependent restart_diagram. intros d Co AL F0 F1 F2 F3 F4 Jn.
  apply (proj2 (C27_terminates_iff d Co AL)). exists ["0"; "1"; "2"; "2_split"; "3a1"]. split.
  - exists "0". eapply path_more; [exact F0|]. eapply path_more; [exact F1|]. eapply path_more; [exact F2|]. eapply path_more; [exact F3|].
    eapply path_one. exact F4.
  - intros n Hn. apply join_b_no. rewrite forallb_forall in Jn. apply negb_true_iff. apply Jn. exact Hn.
Qed.

Print Assumptions C91_ready_for_layout.
Print Assumptions C91_layout_order.
Print Assumptions C91_table_saved.
Print Assumptions C91_jump_from_branch_fails.
Print Assumptions C91_layout_order_refuted.
