(** Tables and histories, laid out, saved and loaded again (C83). *)
From Coq Require Import String Ascii List Bool Arith ZArith Lia.
From Verif Require Import Py PyFacts Consts Nx NxFacts Rep SpecRep RepFacts SpecLayout Layouter Prop_LayoutMetrics Prop_Layout.
From Verif Require Import CsvRegex CsvImport SpecCsv RegexFacts CsvFacts SpecFlow CsvGhost CsvFill CsvLast CsvGraph CsvCoherent Prop_CsvImport.
From Verif Require Import Xml Export Import SpecXml SpecRound SpecWrite CsvXml Prop_CsvXml LayoutSave Prop_XmlRound Prop_XmlDrawn Prop_XmlWrites ApiSave Prop_XmlApi.
Import ListNotations.
Open Scope string_scope.
Open Scope list_scope.

(** * Diagrams that were laid out *)
(** Whatever could be saved but for coordinates and waypoints can be saved once it is laid
    out; the loaded diagram has the same nodes and connections, each node where the layout
    placed it and each connection drawn as the layout drew it. *)
Theorem C83_laid_out_and_saved : forall set_order fuel d d1, any_order set_order ->
  coherent d -> storable d -> complete d -> nearly_writable d -> rereadable d ->
  generate_layout fuel d = (d1, Ok tt) ->
  exists bound, forall fuel', bound <= fuel' -> exists d2, round_trip set_order fuel' d1 d2 /\
    (forall n, is_node d2 n <-> is_node d n) /\ (forall u v, linked d2 u v <-> linked d u v) /\
    (forall n, SpecRound.in_process d n -> exists x y, at_xy d1 n x y /\ at_xy d2 n x y /\
       attr d2 n "type" = attr d n "type" /\ attr d2 n "node_name" = attr d n "node_name" /\ attr d2 n "process" = attr d n "process" /\
       attr d2 n "incoming" = attr d n "incoming" /\ attr d2 n "outgoing" = attr d n "outgoing" /\
       attr d2 n "width" = attr d n "width" /\ attr d2 n "height" = attr d n "height") /\
    (forall e f u v p, In e (gedges (dgraph d1)) -> flow_edge e f u v p -> placed d p ->
       exists w, dget "waypoints" (eat e) = Some (VPoints w) /\ link_attr d2 u v "waypoints" (VPoints w)).
Proof.
  intros so fuel d d1 Po Co SB CP NW RR H. pose proof (sb_graph _ SB) as W.
  pose proof (laid_storable fuel d d1 Co W H SB) as SB1. pose proof (laid_complete fuel d d1 Co W H CP) as CP1.
  pose proof (laid_writable fuel d d1 Co W H NW) as WR1. pose proof (laid_rereadable fuel d d1 Co W H RR) as RR1.
  destruct (C74_same_diagram so d1 Po SB1 CP1 WR1 RR1) as [b B]. exists b. intros fuel' L. destruct (B fuel' L) as [d2 [R [N [K [_ A]]]]].
  exists d2. split; [exact R|]. split; [|split; [|split]].
  - intros n. rewrite N. apply (laid_keys fuel d d1 Co W H).
  - intros u v. rewrite K. split; intros [e [Ie P]].
    + destruct (laid_edge fuel d d1 Co W H e Ie) as [e0 [I0 [Eu [Ev _]]]]. exists e0. rewrite <- Eu, <- Ev. auto.
    + destruct (laid_edge_back fuel d d1 Co W H e Ie) as [e0 [I0 [Eu [Ev _]]]]. exists e0. rewrite Eu, Ev. auto.
  - intros n P. pose proof (proj2 (laid_in_process fuel d d1 Co W H n) P) as P1. destruct (A n P1) as [A1 [A2 [A3 [A4 A5]]]].
    destruct (C39_nodes so fuel' d1 d2 n Po SB1 R P1) as [X [Y [Wd [Ht _]]]]. unfold kept in *.
    destruct P as [t [p [T _]]]. pose proof (attr_is_node _ _ _ _ T) as Hn. destruct (laid_place fuel d d1 Co W H n Hn) as [x [y At]].
    exists x, y. split; [exact At|]. split; [destruct At as [B1 B2]; split; congruence|].
    rewrite A1, A2, A3, A4, A5, Wd, Ht. rewrite !(laid_attr fuel d d1 Co W H) by discriminate. auto 8.
  - intros e f u v p Ie FE Pl. apply (laid_placed fuel d d1 Co W H) in Pl. destruct (C39_flows so fuel' d1 d2 e f u v p SB1 R Ie FE Pl) as [w [Hw Lk]].
    destruct (laid_points fuel d d1 Co W H e Ie) as [w' Hw']. exists w. split; auto. destruct Hw as [Hw|[Hw _]]; congruence.
Qed.

(** * Tables *)
Lemma load_gwf : forall table d r, load_diagram_from_csv table empty_diagram = (d, r) -> gwf (dgraph d).
Proof. intros table d r H. eapply gwf_loaded; [|exact H]. apply gwf_empty. Qed.
Lemma fresh_empty : fresh empty_diagram.
Proof. split; reflexivity. Qed.

(** What the layouter needs: C26 - C33 and C65 apply to every table without goto rows. *)
Theorem C83_ready_for_layout : forall table d, documented table -> goto_free table ->
  load_diagram_from_csv table empty_diagram = (d, Ok tt) ->
  coherent d /\ all_laid_out d /\ gwf (dgraph d) /\ drawable d /\
  forall s t, (exists f, flow d f s t) <-> table_flow (rows_of table) s t.
Proof.
  intros table d D G H. pose proof (load_gwf _ _ _ H) as W. destruct (table_loaded _ _ _ fresh_empty D G H) as [L I].
  split; [eapply imported_coherent; eauto|]. split; [eapply imported_laid_out; eauto|]. split; [exact W|]. split; [eapply imported_drawable; eauto|].
  intros s t. rewrite <- (im_flows _ _ _ _ I). split.
  - intros [f Hf]. apply (imported_flow _ _ _ _ I W) in Hf. tauto.
  - intros Hs. exists (gid (s, t)). apply (imported_flow _ _ _ _ I W). auto.
Qed.

Section Table.
Variables (table : list (order_label * row)) (d : diagram).
Hypothesis D : documented table.
Hypothesis G : goto_free table.
Hypothesis H : load_diagram_from_csv table empty_diagram = (d, Ok tt).

Lemma table_procs : map fst (procs d) = ["process_1"] /\ collaboration d = None /\ forall p a, In (p, a) (procs d) -> dget "laneSet" a = None.
Proof using H.
  destruct (imported_inv table d H) as (d0 & I & C0 & _ & _ & l & P0). destruct I as (_ & _ & _ & _ & M1 & _ & _ & M4).
  rewrite M1, M4, P0. repeat split; auto. intros p a [E|[]]. injection E as <- <-. reflexivity.
Qed.
Lemma table_types : forall n, is_node d n -> csv_node d n.
Proof using H. destruct (imported_inv table d H) as (d0 & I & _). apply I. Qed.
Lemma table_scope : forall n, is_node d n -> SpecRound.in_process d n.
Proof using H.
  intros n Hn. destruct (table_types n Hn) as (t & T & K & _ & P & _). exists t, "process_1". split; auto. split; [|split; auto].
  - simpl in K. repeat destruct K as [<- |K]; try contradiction; apply smem_In; reflexivity.
  - apply placed_process. rewrite (proj1 table_procs). left. reflexivity.
Qed.
Lemma csv_edges : forall e, In e (gedges (dgraph d)) -> csv_edge (eat e).
Proof using H. destruct (imported_inv table d H) as (d0 & I & _). apply I. Qed.
Lemma booked_storable : forall rows L, books d L -> NoDup L -> edged rows d L -> (forall s t, In (s, t) L -> ~ In (t, s) L) -> storable d.
Proof using H.
  intros rows L B Nd Ed Bk. pose proof (load_gwf _ _ _ H) as W. destruct table_procs as [P [C _]]. constructor.
  - exact W.
  - rewrite P. repeat constructor. intros [].
  - rewrite C. discriminate.
  - intros n Hn. destruct (table_scope n Hn) as (t & p & T & K & _). exists t. split; auto. right. exact K.
  - intros n T. destruct (table_types n (attr_is_node _ _ _ _ T)) as (_ & _ & _ & _ & _ & Id & _). split; auto. rewrite P. intros [<- |[]].
    destruct (imported_inv table d H) as (d0 & J & _). apply J. exact T.
  - intros n t ds x T E Ix. destruct (table_types n (attr_is_node _ _ _ _ T)) as (_ & _ & _ & _ & _ & _ & _ & _ & _ & Z).
    destruct Z as [Z|Z]; rewrite E in Z; [discriminate|]. injection Z as ->. contradiction.
  - intros n k l Hk Hl. assert (X : exists f, l = map gid (filter f L)).
    { pose proof (bk_out _ _ B n) as O. pose proof (bk_in _ _ B n) as N. unfold outgoing_of, incoming_of in O, N.
      destruct Hk as [-> | ->]; rewrite Hl in *; eauto. }
    destruct X as [f ->]. split; [eapply booked_flows_nodup; eauto|]. intros E. apply in_map_iff in E. destruct E as [[s t] [E _]].
    unfold gid, get_flow_id in E. cbn [fst snd] in E. destruct s; discriminate.
  - intros e p Ie Pe. destruct (booked_edge_attrs rows d L B Nd Ed Bk W e Ie) as [Q [A1 [A2 A3]]]. exists (gid (eu e, ev e)), (eu e), (ev e).
    split; [unfold flow_edge; auto|]. split; [left; auto|]. pose proof (proj2 (booked_flow rows d L B Nd Ed Bk W _ _ _) (conj Q eq_refl)) as F. split; apply F.
  - intros e e' f Ie Ie' A A'. destruct (booked_edge_attrs rows d L B Nd Ed Bk W e Ie) as [Q [A1 _]]. destruct (booked_edge_attrs rows d L B Nd Ed Bk W e' Ie') as [Q' [A1' _]].
    assert (E : (eu e, ev e) = (eu e', ev e')) by (eapply (booked_gid_same rows d L B Nd Ed Bk W); eauto; congruence). injection E as E1 E2.
    apply (gwf_unique (dgraph d)); auto. unfold connects. rewrite E1, E2, !eqb_refl'. reflexivity.
  - rewrite C. discriminate.
  - rewrite C. discriminate.
Qed.
Lemma table_storable : storable d.
Proof using All. destruct (table_loaded _ _ _ fresh_empty D G H) as [L I]. eapply booked_storable; apply I. Qed.
Lemma table_complete : complete d.
Proof using H.
  destruct table_procs as [P [C _]]. constructor.
  - intros n. split; [intros Hn; left; apply table_scope; exact Hn|]. intros [(t & p & T & _)|(c & a & X & _)]; [eapply attr_is_node; eauto|congruence].
  - intros e Ie. left. exists "process_1". destruct (csv_edges e Ie) as (_ & _ & _ & _ & X & _). split; auto. apply placed_process. rewrite P. left. reflexivity.
  - rewrite C. discriminate.
Qed.
Lemma table_rereadable : rereadable d.
Proof using H.
  destruct table_procs as [P [C N]]. assert (NL : forall i l, ~ lane_of d i l).
  { intros i l (p & a & s & ls & Ip & E & _). rewrite (N p a Ip) in E. discriminate. }
  constructor.
  - intros e i Ie. destruct (csv_edges e Ie) as (_ & _ & _ & _ & _ & [X|(j & c & X & Y)] & _); rewrite X; [discriminate|congruence].
  - intros i name child refs di X. exfalso. eapply NL; eauto.
  - intros i l e X. exfalso. eapply NL; eauto.
Qed.
Lemma table_nearly : nearly_writable d.
Proof using H.
  destruct table_procs as [P [C N]]. destruct (imported_inv table d H) as (d0 & I & C0 & A0 & L0 & P0). constructor.
  - eapply loaded_parts; eauto.
  - destruct I as (_ & _ & _ & _ & _ & M2 & _). rewrite M2, A0. split; eexists; reflexivity.
  - destruct I as (_ & _ & _ & _ & _ & _ & M3 & _). rewrite M3, L0. split; eexists; reflexivity.
  - intros n a J. destruct (loaded_drawn d0 d I n a J) as [[X [Y _]] [Z1 Z2]]. auto.
  - intros e Ie. apply (csv_edges e Ie).
  - intros p a Ip. left. eapply N; eauto.
  - rewrite C. discriminate.
  - rewrite C. discriminate.
Qed.
End Table.

Lemma booked_saved : forall so table fuel d d1 rows L, any_order so -> load_diagram_from_csv table empty_diagram = (d, Ok tt) ->
  books d L -> NoDup L -> edged rows d L -> (forall s t, In (s, t) L -> ~ In (t, s) L) -> generate_layout fuel d = (d1, Ok tt) ->
  exists bound, forall fuel', bound <= fuel' -> exists d2, round_trip so fuel' d1 d2 /\
    (forall n, is_node d2 n <-> is_node d n) /\
    (forall n, is_node d2 n -> exists x y, at_xy d1 n x y /\ at_xy d2 n x y /\
       attr d2 n "type" = attr d n "type" /\ attr d2 n "node_name" = attr d n "node_name" /\
       outgoing_of d2 n = outgoing_of d n /\ incoming_of d2 n = incoming_of d n) /\
    (forall s t, In (s, t) L -> exists w, link_attr d1 s t "waypoints" (VPoints w) /\ link_attr d2 s t "waypoints" (VPoints w)).
Proof.
  intros so table fuel d d1 rows L Po H Bo Nd Ed Bk Hl. pose proof (load_gwf _ _ _ H) as W.
  pose proof (booked_coherent rows d L Bo Nd Ed Bk W) as Co. pose proof (booked_storable table d H rows L Bo Nd Ed Bk) as SB.
  destruct (C83_laid_out_and_saved so fuel d d1 Po Co SB (table_complete table d H) (table_nearly table d H) (table_rereadable table d H) Hl) as [b B].
  exists b. intros fuel' Lf. destruct (B fuel' Lf) as [d2 [R [N [K [A P]]]]]. exists d2. split; [exact R|]. split; [exact N|]. split.
  - intros n Hn. apply N in Hn. destruct (A n (table_scope table d H n Hn)) as (x & y & A1 & A2 & A3 & A4 & _ & A5 & A6 & _).
    exists x, y. unfold outgoing_of, incoming_of. rewrite A5, A6. auto 8.
  - intros s t Hst. destruct (booked_listed_edge rows d L Bo Nd Ed Bk W s t Hst) as [e [Ie [Eu Ev]]].
    destruct (laid_edge_back fuel d d1 Co W Hl e Ie) as [e1 [I1 [Eu1 [Ev1 X]]]].
    destruct (booked_edge_attrs rows d L Bo Nd Ed Bk W e Ie) as [_ [Q1 [Q2 Q3]]]. destruct (csv_edges table d H e Ie) as (_ & _ & _ & _ & Pr & _).
    rewrite <- X in Q1, Q2, Q3, Pr by discriminate. rewrite Eu in Q2. rewrite Ev in Q3.
    destruct (P e1 _ s t "process_1" I1 (conj Q1 (conj Q2 (conj Q3 Pr)))) as [w [Hw Lk]].
    { apply placed_process. rewrite (proj1 (table_procs table d H)). left. reflexivity. }
    exists w. split; auto. exists e1. split; auto. split; auto. left. rewrite Eu1, Ev1. auto.
Qed.

(** A table without goto rows that was loaded and laid out can be saved, and the file gives
    back the process of the table with its drawing.  (Without the layout it cannot be saved:
    C55.) *)
Theorem C83_table_saved : forall set_order table fuel d d1, any_order set_order -> documented table -> goto_free table ->
  load_diagram_from_csv table empty_diagram = (d, Ok tt) -> generate_layout fuel d = (d1, Ok tt) ->
  exists bound, forall fuel', bound <= fuel' -> exists d2, round_trip set_order fuel' d1 d2 /\
    (forall n, is_node d2 n <-> table_node (rows_of table) n) /\
    (forall n, is_node d2 n -> exists x y, at_xy d1 n x y /\ at_xy d2 n x y /\
       attr d2 n "type" = attr d n "type" /\ attr d2 n "node_name" = attr d n "node_name") /\
    (forall o r, In (o, r) (rows_of table) -> attr d2 o "type" = Some (VStr (row_type o r)) /\ attr d2 o "node_name" = Some (VStr (row_name o r))) /\
    (forall s t, (exists f, flow d f s t /\ In f (outgoing_of d2 s) /\ In f (incoming_of d2 t)) <-> table_flow (rows_of table) s t) /\
    (forall s t, table_flow (rows_of table) s t ->
       exists w, link_attr d1 s t "waypoints" (VPoints w) /\ link_attr d2 s t "waypoints" (VPoints w)).
Proof.
  intros so table fuel d d1 Po D G H Hl. destruct (table_loaded _ _ _ fresh_empty D G H) as [Lf I].
  destruct (booked_saved so table fuel d d1 _ Lf Po H (im_books _ _ _ _ I) (im_nodup _ _ _ _ I) (im_edges _ _ _ _ I) (im_back _ _ _ _ I) Hl) as [b B].
  exists b. intros fuel' L. destruct (B fuel' L) as [d2 [R [N [A' P]]]]. exists d2. split; [exact R|]. pose proof (load_gwf _ _ _ H) as W.
  destruct (C83_ready_for_layout table d D G H) as [_ [_ [_ [_ F]]]].
  split; [intros n; rewrite N; apply (im_nodes _ _ _ _ I)|]. split; [|split; [|split]].
  - intros n Hn. destruct (A' n Hn) as (x & y & A1 & A2 & A3 & A4 & _). exists x, y. auto.
  - intros o r Ho. assert (Hn : is_node d2 o) by (apply N; eapply attr_is_node; apply (im_type _ _ _ _ I o r Ho)).
    destruct (A' o Hn) as (x & y & _ & _ & A3 & A4 & _). rewrite A3, A4, (im_type _ _ _ _ I o r Ho), (im_name _ _ _ _ I o r Ho). auto.
  - intros s t. rewrite <- F. split; [intros [f [Hf _]]; eauto|]. intros [f Hf]. exists f. split; auto. pose proof Hf as [O [In' _]].
    assert (Hs : is_node d s /\ is_node d t).
    { apply (imported_flow _ _ _ _ I W) in Hf. apply (bk_ends _ _ (im_books _ _ _ _ I)). tauto. }
    destruct (A' s) as (_ & _ & _ & _ & _ & _ & E1 & _); [apply N; tauto|]. destruct (A' t) as (_ & _ & _ & _ & _ & _ & _ & E2); [apply N; tauto|].
    rewrite E1, E2. auto.
  - intros s t Hst. apply (im_flows _ _ _ _ I) in Hst. apply P. exact Hst.
Qed.

(** * Linear tables: the whole way from the table to the loaded file *)
Theorem C83_linear_table : forall set_order table n, any_order set_order -> goto_free table ->
  orders (rows_of table) = steps n ->
  (forall i r, In (step i, r) (rows_of table) -> (r_terminated r = "yes" <-> i = n)) ->
  exists d bound, load_diagram_from_csv table empty_diagram = (d, Ok tt) /\
    forall fuel, bound <= fuel -> exists d1 bound', generate_layout fuel d = (d1, Ok tt) /\
      forall fuel', bound' <= fuel' -> exists d2, round_trip set_order fuel' d1 d2 /\
        (forall x, is_node d2 x <-> exists i, i <= n /\ x = step i) /\
        (forall u v, linked d2 u v <-> exists i, i < n /\ same_pair u v (step i) (step (S i))) /\
        (forall i, i <= n -> at_xy d2 (step i) (150 * (Z.of_nat i + 1) + 50) 250).
Proof.
  intros so table n Po G Eo Et. assert (D : documented table).
  { split; [rewrite Eo; apply steps_distinct|]. intros o Ho. rewrite Eo in Ho. apply in_steps in Ho.
    destruct Ho as [i [_ ->]]. left. apply step_number. }
  destruct (C49_linear_table table empty_diagram n fresh_empty G Eo Et) as [d [H [Nd [Fl [O [I0 I1]]]]]]. exists d, (sort_bound d). split; [exact H|].
  destruct (C83_ready_for_layout table d D G H) as [Co [AL [W [Dr F]]]].
  destruct (C66_nodes_and_flows table empty_diagram d fresh_empty D G H) as [_ [Fb Lk]].
  assert (Nth : forall i x, nth_error (steps n) i = Some x <-> i <= n /\ x = step i).
  { intros i x. unfold steps. split.
    - intros E. assert (Hi : i < length (map step (seq 0 (S n)))) by (apply nth_error_Some; congruence). rewrite map_length, seq_length in Hi.
      split; [lia|]. rewrite nth_error_map in E. rewrite (nth_error_nth' _ 0) in E by (rewrite seq_length; exact Hi). cbn [option_map] in E.
      rewrite seq_nth in E by exact Hi. injection E as <-. reflexivity.
    - intros [Hi ->]. rewrite nth_error_map. rewrite (nth_error_nth' _ 0) by (rewrite seq_length; lia). cbn [option_map].
      rewrite seq_nth by lia. reflexivity. }
  assert (Li : linear d (steps n)).
  { split; [apply steps_distinct|]. split; [intros x; rewrite Nd, in_steps; tauto|]. split.
    - intros x. split.
      + destruct (in_dec string_dec x (steps n)) as [J|J].
        * apply in_steps in J. destruct J as [[|i] [_ ->]]; [rewrite I1; cbn; lia|rewrite I0; destruct (Nat.ltb i n); cbn; lia].
        * assert (Z : incoming_of d x = []); [|rewrite Z; cbn; lia]. unfold incoming_of. destruct (attr d x "incoming") as [v|] eqn:E; [|reflexivity].
          exfalso. apply J. apply in_steps. apply Nd. eapply attr_is_node; eauto.
      + destruct (in_dec string_dec x (steps n)) as [J|J].
        * apply in_steps in J. destruct J as [i [_ ->]]. rewrite O. destruct (Nat.ltb i n); cbn; lia.
        * assert (Z : outgoing_of d x = []); [|rewrite Z; cbn; lia]. unfold outgoing_of. destruct (attr d x "outgoing") as [v|] eqn:E; [|reflexivity].
          exfalso. apply J. apply in_steps. apply Nd. eapply attr_is_node; eauto.
    - intros s t. rewrite F, <- Fb, Fl. split.
      + intros [i [Hi [-> ->]]]. exists (map step (seq 0 i)), (map step (seq (S (S i)) (n - S i))). unfold steps.
        replace (S n) with (i + (2 + (n - S i))) by lia. rewrite seq_app, map_app. reflexivity.
      + intros [a [b E]]. exists (length a). assert (A : nth_error (steps n) (length a) = Some s).
        { rewrite E, nth_error_app2, Nat.sub_diag by lia. reflexivity. }
        assert (B : nth_error (steps n) (S (length a)) = Some t).
        { rewrite E, nth_error_app2 by lia. replace (S (length a) - length a) with 1 by lia. reflexivity. }
        apply Nth in A, B. destruct A as [_ ->]. destruct B as [B ->]. auto. }
  intros fuel L. destruct (C33_linear_layout d (steps n) fuel Co AL W Dr Li L) as [d1 [E1 At]].
  destruct (C83_table_saved so table fuel d d1 Po D G H E1) as [b B]. exists d1, b. split; [exact E1|]. intros fuel' L'. destruct (B fuel' L') as [d2 [R [N [A _]]]].
  exists d2. split; [exact R|].
  destruct (C83_laid_out_and_saved so fuel d d1 Po Co (table_storable table d D G H) (table_complete table d H) (table_nearly table d H) (table_rereadable table d H) E1) as [b2 B2].
  assert (N' : forall x, is_node d2 x <-> exists i, i <= n /\ x = step i).
  { intros x. rewrite N. destruct (table_loaded _ _ _ fresh_empty D G H) as [Lf I]. rewrite <- (im_nodes _ _ _ _ I). apply Nd. }
  split; [exact N'|]. split.
  - intros u v. rewrite (C35_same_connections so fuel' d1 d2 (laid_storable fuel d d1 Co W E1 (table_storable table d D G H))
      (laid_complete fuel d d1 Co W E1 (table_complete table d H)) R u v).
    transitivity (linked d u v).
    { split; intros [e [Ie P]].
      + destruct (laid_edge fuel d d1 Co W E1 e Ie) as [e0 [J0 [Eu [Ev _]]]]. exists e0. rewrite <- Eu, <- Ev. auto.
      + destruct (laid_edge_back fuel d d1 Co W E1 e Ie) as [e0 [J0 [Eu [Ev _]]]]. exists e0. rewrite Eu, Ev. auto. }
    rewrite Lk, <- !Fb, !Fl. unfold same_pair. split.
    + intros [[i [Hi [-> ->]]]|[i [Hi [-> ->]]]]; exists i; auto.
    + intros [i [Hi [[-> ->]|[-> ->]]]]; [left|right]; eauto.
  - intros i Hi. assert (Hn : is_node d2 (step i)) by (apply N'; eauto). destruct (A _ Hn) as (x & y & A1 & A2 & _).
    specialize (At i (step i) (proj2 (Nth i (step i)) (conj Hi eq_refl))). destruct At as [T1 T2]. destruct A1 as [U1 U2]. destruct A2 as [V1 V2].
    split; congruence.
Qed.

(** * Diagrams built with the API *)
(** The layout does not take away what C76 promises. *)
Theorem C83_api_saved : forall set_order fuel l d d1, any_order set_order -> proper_history l d -> distinct_pairs d ->
  (exists name u, In (ONew name u) l) -> procs d <> [] -> generate_layout fuel d = (d1, Ok tt) ->
  exists bound, forall fuel', bound <= fuel' -> exists d2, round_trip set_order fuel' d1 d2 /\
    (forall n, is_node d2 n <-> is_node d n) /\ (forall u v, linked d2 u v <-> linked d u v) /\
    (forall n, is_node d n -> exists x y, at_xy d1 n x y /\ at_xy d2 n x y /\
       attr d2 n "type" = attr d n "type" /\ attr d2 n "node_name" = attr d n "node_name" /\ attr d2 n "process" = attr d n "process" /\
       attr d2 n "incoming" = attr d n "incoming" /\ attr d2 n "outgoing" = attr d n "outgoing") /\
    (forall f r, dget f (seq_flows d) = Some r -> exists w, link_attr d1 (fl_src r) (fl_tgt r) "waypoints" (VPoints w) /\
       link_attr d2 (fl_src r) (fl_tgt r) "waypoints" (VPoints w)).
Proof.
  intros so fuel l d d1 Po H Dp N P E. pose proof (history_built l d H) as B. pose proof (proper_is_history _ _ H) as Hi.
  destruct (C26_api_diagrams_coherent l d Hi Dp) as [Co [AL [W _]]].
  assert (WR : writable d) by (apply api_writable; auto; apply (diag_named l d Hi N)).
  assert (NW : nearly_writable d).
  { destruct WR as [w1 w2 w3 w4 w5 w6 w7 w8]. constructor; auto.
    - intros n a J. destruct (w4 n a J) as [[X [Y _]] [Z1 Z2]]. auto.
    - intros e J. apply (w5 e J). }
  destruct (C83_laid_out_and_saved so fuel d d1 Po Co (api_storable d B) (api_complete d B) NW (api_rereadable d B) E) as [b Bd].
  exists b. intros fuel' L. destruct (Bd fuel' L) as [d2 [R [Nn [K [A F]]]]]. exists d2. split; [exact R|]. split; [exact Nn|]. split; [exact K|]. split.
  - intros n Hn. destruct (A n (api_in_process d B n Hn)) as (x & y & A1 & A2 & A3 & A4 & A5 & A6 & A7 & _). exists x, y. auto 8.
  - intros f r Hr. pose proof (inv_history l d Hi) as I. pose proof (distinct_live d f r (inv_f d I) Dp Hr) as Lv.
    destruct (proj2 (inv_e d I) f r Hr) as (e & Ie & Sp). destruct (proj1 (inv_e d I) e Ie) as (f' & r' & p & w0 & _ & Sp' & H1 & H2 & H3 & H4 & H5 & _).
    destruct (laid_edge_back fuel d d1 Co W E e Ie) as [e1 [I1 [Eu [Ev X]]]]. rewrite <- X in H1, H3, H4, H5 by discriminate.
    destruct (F e1 f' (fl_src r') (fl_tgt r') p I1) as [w [Hw Lk]].
    + unfold flow_edge. auto.
    + rewrite X in H5 by discriminate. apply (bu_flows d B e p Ie H5).
    + exists w. split; [exists e1; rewrite Eu, Ev; auto|]. destruct Lk as [e2 [I2 [S2 D2]]]. exists e2. split; auto. split; auto.
      revert Sp Sp' S2. clear. unfold same_pair. intros. intuition congruence.
Qed.

(** * Examples *)
(** The table of C66 with a split inside a branch is laid out, saved and loaded. *)
Definition file_of (d : diagram) : dom := match export_xml_file 5 d with Ok f => f | Err _ => DText "" end.
Definition sample_laid : diagram := fst (generate_layout 60 sample_diagram).
Definition sample_back : diagram := fst (load_diagram_from_xml (fun l => l) (file_of sample_laid) empty_diagram).
Example C83_table_example : documented sample /\ goto_free sample /\ load_diagram_from_csv sample empty_diagram = (sample_diagram, Ok tt) /\
  generate_layout 60 sample_diagram = (sample_laid, Ok tt) /\ round_trip (fun l => l) 5 sample_laid sample_back /\
  at_xy sample_back "2b2b" 950 650 /\ attr sample_back "2b1" "type" = Some (VStr "subProcess") /\
  table_flow (rows_of sample) "2a1" "3_join" /\
  link_attr sample_back "2a1" "3_join" "waypoints" (VPoints [("700", "100"); ("1150", "100"); ("1150", "250")]).
Proof.
  split; [apply sample_documented|]. split; [apply sample_documented|]. split; [exact sample_loads|]. split; [vm_compute; reflexivity|].
  split; [exists (file_of sample_laid); split; vm_compute; reflexivity|]. split; [split; vm_compute; reflexivity|]. split; [vm_compute; reflexivity|].
  split.
  - apply (C66_nodes_and_flows sample empty_diagram sample_diagram fresh_empty (proj1 sample_documented) (proj1 (proj2 sample_documented)) sample_loads).
    exists (get_flow_id "2a1" "3_join"). vm_compute. reflexivity.
  - destruct (find (fun e => String.eqb (eu e) "2a1" && String.eqb (ev e) "3_join") (gedges (dgraph sample_back))) as [e|] eqn:X; [|vm_compute in X; discriminate].
    pose proof (find_some _ _ X) as [Ie _]. exists e. split; [exact Ie|]. clear Ie. vm_compute in X. injection X as <-. split; [left; split; reflexivity|reflexivity].
Qed.
(** A linear table. *)
Definition line_table : list (order_label * row) :=
  [(OInt 0, mkRow "begin" "" "" "" ""); (OStr "1 ", mkRow "check" "" "" "" ""); (OInt 2, mkRow "pay" "" "" "yes" ""); (OInt 3, mkRow "end" "" "" "" "yes")].
Example C83_linear_example : goto_free line_table /\ orders (rows_of line_table) = steps 3 /\
  (forall i r, In (step i, r) (rows_of line_table) -> (r_terminated r = "yes" <-> i = 3)).
Proof.
  split; [apply check_goto_free; vm_compute; reflexivity|]. split; [vm_compute; reflexivity|].
  intros i r I. change (rows_of line_table) with (combine (map step [0; 1; 2; 3]) (map snd line_table)) in I. cbn [map combine snd line_table] in I.
  repeat (destruct I as [I|I]; [injection I as I <-; apply step_inj in I; subst i; cbn; split; (discriminate || reflexivity)|]). contradiction.
Qed.
(** A history with a gateway, laid out. *)
Definition saved2_ops : list op :=
  [ONew "m" "0"; OProcess "orders" false true "None" "1" "2";
   OStart "id2" "s" (Some "message") false true (Some "s") "" "7"; OExclusive "id2" "g" "Diverging" (Some "id12") (Some "g") "";
   OSubprocess "id2" "pack" false false (Some "u") ""; OTask "id2" "weigh" (Some "a") "";
   OExclusive "id2" "j" "Converging" None (Some "j") ""; OEnd "id2" "e" (Some "terminate") (Some "e") "" "8";
   OFlow "id2" "s" "g" "" "10"; OFlow "id2" "g" "u" "large" "11"; OFlow "id2" "g" "a" "" "12"; OFlow "id2" "a" "j" "" "13";
   OFlow "id2" "u" "j" "" "14"; OFlow "id2" "j" "e" "" "15"].
Definition saved2 : diagram := run empty_diagram saved2_ops.
Definition saved2_laid : diagram := fst (generate_layout 60 saved2).
Example C83_api_example : proper_history saved2_ops saved2 /\ distinct_pairs saved2 /\ (exists name u, In (ONew name u) saved2_ops) /\ procs saved2 <> [] /\
  generate_layout 60 saved2 = (saved2_laid, Ok tt) /\ at_xy saved2_laid "j" 650 250 /\ attr saved2 "j" "x" <> attr saved2_laid "j" "x" /\
  exists d2, round_trip (fun l => l) 5 saved2_laid d2 /\ at_xy d2 "j" 650 250.
Proof.
  split; [apply (pcheck_history saved2_ops [] empty_diagram ph_nil); vm_compute; reflexivity|].
  split; [apply pairs_checked_ok; vm_compute; reflexivity|]. split; [exists "m", "0"; left; reflexivity|]. split; [vm_compute; discriminate|].
  split; [vm_compute; reflexivity|]. split; [split; vm_compute; reflexivity|]. split; [vm_compute; discriminate|].
  exists (fst (load_diagram_from_xml (fun l => l) (file_of saved2_laid) empty_diagram)).
  split; [exists (file_of saved2_laid); split; vm_compute; reflexivity|]. split; vm_compute; reflexivity.
Qed.

Print Assumptions C83_laid_out_and_saved.
Print Assumptions C83_ready_for_layout.
Print Assumptions C83_table_saved.
Print Assumptions C83_linear_table.
Print Assumptions C83_api_saved.
