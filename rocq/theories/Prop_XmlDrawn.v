(** Positions, sizes and waypoints after writing and reading a diagram; the collaboration. *)
From Coq Require Import String List Bool Arith Lia Permutation.
From Verif Require Import Py PyFacts Consts Nx NxFacts Rep SpecRep RepFacts CsvRegex CsvImport CsvFacts Xml Export Import XmlOps
  ImportFacts SpecXml XmlScopes ActionFacts DiFacts LoadFacts Prop_XmlImport XmlLayout Prop_XmlLayout ExportFacts ExportTree Prop_XmlExported
  SpecRound ExportScopes RoundNodes RoundLoad RoundBack RoundDi Prop_XmlRound RoundDemo.
Import ListNotations.
Open Scope string_scope.
Open Scope list_scope.

(** * C39: shapes of nodes *)
Theorem C39_nodes : forall set_order fuel d d' n, any_order set_order -> storable d -> round_trip set_order fuel d d' -> in_process d n ->
  kept d d' n "x" /\ kept d d' n "y" /\ kept d d' n "width" /\ kept d d' n "height" /\
  (attr d n "type" = Some (VStr "subProcess") -> kept d d' n "isExpanded").
Proof.
  intros so fuel d d' n Po SB R IP. destruct (C34_nodes so fuel d d' n Po SB R IP) as (Nd & _ & Ty & _). unfold kept in Ty.
  destruct (round_dom so fuel d d' SB R) as (t & TP & ST & LD). destruct (load_loaded _ _ _ _ LD) as (de & pe & mid & L).
  destruct IP as (tt & p & T & K & P & Pl). destruct (node_in d _ _ _ T) as [a [I Ta]].
  assert (Sub : is_sub mid n = (tt =? "subProcess")%string).
  { unfold is_sub. assert (Q : attr mid n "type" = attr d' n "type").
    { rewrite (ds_attr _ _ _ _ (lo_di _ _ _ _ _ _ _ L)). symmetry. apply shapes_other. simpl. intuition discriminate. }
    rewrite Q, Ty, T. reflexivity. }
  assert (A : forall k, In k ["width"; "height"; "x"; "y"] -> kept d d' n k).
  { intros k Ik. destruct (shapes_last d SB fuel t TP ST so de pe mid d' n a k L I Nd) as (b & ty & B & Sb & Tb & v & E). cbv zeta in E.
    unfold kept. rewrite E, (in_node d SB _ _ _ I). rewrite (shape_box a b ([("id", VStr (n ++ "_gui")); ("bpmnElement", VStr n)] ++ expanded_of ty a) B Sb k Ik).
    set (x := dom_of _). unfold overlay, shape_fields. rewrite Sub. simpl in Ik.
    destruct (tt =? "subProcess"); destruct Ik as [<- |[<- |[<- |[<- |[]]]]]; reflexivity. }
  do 4 (split; [apply A; simpl; tauto|]).
  intros Ts. rewrite T in Ts. injection Ts as ->. destruct (shapes_last d SB fuel t TP ST so de pe mid d' n a "isExpanded" L I Nd) as (b & ty & B & Sb & Tb & v & E). cbv zeta in E.
  unfold kept. rewrite E, (in_node d SB _ _ _ I). rewrite Ta in Tb. injection Tb as <-. unfold overlay, shape_fields. rewrite Sub, eqb_refl'. cbn [rev app dget].
  cbn [String.eqb Ascii.eqb Bool.eqb]. destruct (plane_of d fuel t TP de pe (lo_heads _ _ _ _ _ _ _ L)) as (dia & plane & co & cosh & ps & sh & ed & _ & -> & _ & _ & _ & Pp).
  destruct (rmap_from _ _ _ _ _ (pl_shapes _ _ _ _ _ _ _ _ _ Pp) _ I) as [own [Io Ho]]. destruct (node_di_inv _ _ _ Ho) as (b' & ty & B' & Tb & Ex & Eo).
  rewrite Ta in Tb. injection Tb as <-. destruct (Ex eq_refl) as [w Dw]. rewrite Dw.
  assert (Wo : within own t).
  { eapply within_kid; [apply (pl_within _ _ _ _ _ _ _ _ _ Pp)|]. rewrite (pl_in _ _ _ _ _ _ _ _ _ Pp). apply in_or_app. right. apply in_or_app. right. apply in_or_app. left. exact Io. }
  assert (W : dget "isExpanded" (e_atts own) = Some w) by (rewrite Eo; unfold expanded_of; rewrite Dw; reflexivity).
  pose proof (strings_att _ _ _ (strings_within _ ST _ Wo) W) as Sw. rewrite Sw. unfold attribute_or. unfold expanded_of. rewrite Dw. reflexivity.
Qed.

(** * C39: waypoints of flows *)
Lemma line_edge : forall fuel d t plane co cosh ps sh ed x, storable d -> export_tree fuel d = Ok t ->
  plane_parts d fuel t plane co cosh ps sh ed -> In x (d_kids (dom_of plane)) -> d_local x = "BPMNEdge" ->
  exists e l, In e (gedges (dgraph d)) /\ dget "id" (eat e) = Some (VStr (elt x)) /\ points_of (eat e) l /\ imported_waypoints x = l.
Proof.
  intros fuel d t plane co cosh ps sh ed x SB TP P I N. rewrite (pl_kids _ _ _ _ _ _ _ _ _ P) in I. apply in_map_iff in I. destruct I as [k [<- I]].
  assert (Wp : forall a w l m, waypoint_elements a = Ok w -> exists ps, points_of a ps /\ imported_waypoints (dom_of (elem edge_tag (l :: m) w)) = ps).
  { intros a w l m W. destruct (waypoints_inv _ _ W) as (qs & Q & ->). exists qs. split; [exact Q|]. unfold imported_waypoints.
    rewrite elements_dom. cbn [e_kids elem]. clear. induction qs as [|[x y] qs IH]; [reflexivity|]. cbn [map flat_map app]. rewrite map_app, IH. reflexivity. }
  apply in_app_or in I. destruct I as [I|I].
  - destruct (collaboration_inv _ _ _ (pl_collab _ _ _ _ _ _ _ _ _ P)) as [(_ & _ & ->)|(cc & ms & qs & Hc & M & Q & _ & ->)]; [destruct I|].
    apply in_app_or in I. destruct I as [I|I]; apply in_map_iff in I; destruct I as [q [<- Iq]].
    + destruct (rmap_out _ _ _ _ _ M q Iq) as [[m r] [_ Hm]]. destruct (message_inv _ _ _ Hm) as (v & w & G & W & ->). cbn [fst snd] in *.
      apply first_flow_some in G. destruct G as [Iv Idv]. destruct (view_in_edge _ _ (sb_graph _ SB) Iv) as [e [Ie Rv]].
      assert (Ea : snd v = eat e) by (unfold reports in Rv; tauto). rewrite Ea in *.
      destruct (Wp _ _ ("id", VStr (m ++ "_gui")) [("bpmnElement", VStr m)] W) as (l & L1 & L2). exists e, l. auto.
    + destruct (rmap_out _ _ _ _ _ Q q Iq) as [[p a] [_ Hp]]. destruct (participant_inv _ _ Hp) as (? & ? & ? & ? & _ & _ & _ & _ & ->). discriminate N.
  - apply in_app_or in I. destruct I as [I|I].
    + exfalso. apply in_flat_map in I. destruct I as [[e sh'] [J1 J2]]. destruct (rmap_out _ _ _ _ _ (pl_procs _ _ _ _ _ _ _ _ _ P) _ J1) as [[q a] [_ Hq]].
      apply process_inv in Hq. destruct Hq as [(c & x & u & ls & ns & es & fs & _ & _ & _ & L & _)]. cbn [snd] in *.
      pose proof (proj2 (fine_lanes_out _ _ _ L) k J2) as F. pose proof (fine_inside _ _ F "BPMNEdge" _ (inside_here _)) as Z.
      assert (Nk : named "BPMNEdge" (dom_of k)) by (apply named_dom; rewrite <- local_dom; exact N). specialize (Z Nk). unfold shape_tags in Z. intuition discriminate.
    + apply in_app_or in I. destruct I as [I|I].
      * destruct (rmap_out _ _ _ _ _ (pl_shapes _ _ _ _ _ _ _ _ _ P) _ I) as [[n a] [_ H]]. destruct (node_di_inv _ _ _ H) as (? & ? & _ & _ & _ & ->). discriminate N.
      * destruct (rmap_out _ _ _ _ _ (pl_edges _ _ _ _ _ _ _ _ _ P) _ I) as [v [Iv H]]. destruct (flow_di_inv _ _ H) as (i & w & Di & W & ->).
        destruct (view_in_edge _ _ (sb_graph _ SB) Iv) as [e [Ie Rv]]. assert (Ea : snd v = eat e) by (unfold reports in Rv; tauto). rewrite Ea in *.
        destruct (Wp _ _ ("id", VStr (i ++ "_gui")) [("bpmnElement", VStr i)] W) as (l & L1 & L2). exists e, l. auto.
Qed.
Lemma lines_fold : forall mid X u v l w, (forall x r, In x X -> d_local x = "BPMNEdge" -> known_flow mid (elt x) = Some r -> same_pair u v (fl_src r) (fl_tgt r) ->
     imported_waypoints x = l) ->
  (w = Some (VPoints l) \/ exists x r, In x X /\ d_local x = "BPMNEdge" /\ known_flow mid (elt x) = Some r /\ same_pair u v (fl_src r) (fl_tgt r)) ->
  fold_left (fun y x => line_attr mid x u v "waypoints" y) X w = Some (VPoints l).
Proof.
  intros mid X u v l. induction X as [|x X IH]; intros w H E; cbn [fold_left].
  - destruct E as [->|(x & r & [] & _)]. reflexivity.
  - assert (HX : forall y r, In y X -> d_local y = "BPMNEdge" -> known_flow mid (elt y) = Some r -> same_pair u v (fl_src r) (fl_tgt r) -> imported_waypoints y = l)
      by (intros; eapply H; eauto; right; assumption).
    apply IH; [exact HX|]. unfold line_attr. destruct E as [->|(y & r & [->|Iy] & N & K & S)].
    + left. destruct (String.eqb_spec (d_local x) "BPMNEdge") as [N|_]; [|reflexivity]. destruct (known_flow mid (elt x)) as [r|] eqn:K; [|reflexivity].
      destruct (pair_b u v (fl_src r) (fl_tgt r)) eqn:S; [|reflexivity]. apply pair_b_spec in S. unfold overlay, line_fields. cbn [rev app dget String.eqb Ascii.eqb Bool.eqb].
      rewrite (H x r) by (auto; left; reflexivity). reflexivity.
    + left. rewrite N, eqb_refl', K. assert (Q : pair_b u v (fl_src r) (fl_tgt r) = true) by (apply pair_b_spec; exact S). rewrite Q.
      unfold overlay, line_fields. cbn [rev app dget String.eqb Ascii.eqb Bool.eqb]. rewrite (H y r) by (auto; left; reflexivity). reflexivity.
    + right. exists y, r. auto.
Qed.
Lemma own_line : forall fuel d t plane co cosh ps sh ed e f, storable d -> plane_parts d fuel t plane co cosh ps sh ed -> In e (gedges (dgraph d)) ->
  dget "id" (eat e) = Some (VStr f) -> exists x, In x (d_kids (dom_of plane)) /\ d_local x = "BPMNEdge" /\ elt x = f.
Proof.
  intros fuel d t plane co cosh ps sh ed e f SB P Ie D. destruct (edge_in_view _ _ (sb_graph _ SB) Ie) as [v [Iv Rv]].
  assert (Ea : snd v = eat e) by (unfold reports in Rv; tauto). destruct (rmap_from _ _ _ _ _ (pl_edges _ _ _ _ _ _ _ _ _ P) _ Iv) as [k [Ik Hk]].
  destruct (flow_di_inv _ _ Hk) as (i & w & Di & _ & Ek). rewrite Ea, D in Di. injection Di as <-. exists (dom_of k). split.
  - rewrite (pl_kids _ _ _ _ _ _ _ _ _ P). apply in_map. apply in_or_app. right. apply in_or_app. right. apply in_or_app. right. exact Ik.
  - rewrite Ek. split; reflexivity.
Qed.
(** Which records the importer knows. *)
Lemma known_cases : forall so fuel d t de pe mid d' f r, storable d -> export_tree fuel d = Ok t -> strings t ->
  loaded so (dom_of t) de pe empty_diagram mid d' -> known_flow mid f = Some r ->
  (exists e p, In e (gedges (dgraph d)) /\ dget "id" (eat e) = Some (VStr f) /\ dget "process" (eat e) = Some (VStr p) /\
     same_pair (eu e) (ev e) (fl_src r) (fl_tgt r)) \/
  (exists cc, collaboration d = Some cc /\ In (f, r) (co_messages cc)).
Proof.
  intros so fuel d t de pe mid d' f r SB TP ST L K. unfold known_flow in K. destruct (loaded_flows _ _ _ _ _ _ _ L f) as [(s & x & F & Ex & Rx)|[No Q]].
  - left. rewrite (ds_flows _ _ _ _ (lo_di _ _ _ _ _ _ _ L)) in Rx. rewrite Rx in K. injection K as <-.
    destruct (flow_declared_edge d SB fuel t TP ST s x F) as (e & q & k' & c' & Ie & Pe & _ & _ & -> & X).
    destruct (sb_flows _ SB e q Ie Pe) as (f' & u & v & (F1 & F2 & F3 & _) & S & _). pose proof (fe_id _ _ X) as G1. pose proof (fe_src _ _ X) as G2. pose proof (fe_tgt _ _ X) as G3.
    exists e, q. split; [exact Ie|]. split; [rewrite G1, Ex; reflexivity|]. split; [exact Pe|]. rewrite F2 in G2. rewrite F3 in G3. injection G2 as G2. injection G3 as G3.
    unfold flow_record. cbn [fl_src fl_tgt]. rewrite <- G2, <- G3. exact S.
  - right. rewrite (ds_flows _ _ _ _ (lo_di _ _ _ _ _ _ _ L)) in Q. rewrite Q in K. cbn [seq_flows empty_diagram dget] in K.
    destruct (collaboration d) as [cc|] eqn:Hc.
    + destruct (sb_collaboration _ SB _ Hc) as [N1 N2]. rewrite (collab_read d SB fuel t TP ST so de pe mid d' cc L Hc N1 N2) in K. cbn [co_messages] in K.
      exists cc. split; [reflexivity|]. apply dget_In. exact K.
    + exfalso. rewrite (collab_mid t so de pe mid d' L) in K. destruct (collaboration_of (dom_of t)) as [c|] eqn:Ec; [|discriminate K].
      destruct (collab_of d SB fuel t TP c Ec) as (cc & _ & _ & _ & H & _). congruence.
Qed.
Theorem C39_flows : forall set_order fuel d d' e f u v p, storable d -> round_trip set_order fuel d d' ->
  In e (gedges (dgraph d)) -> flow_edge e f u v p -> placed d p ->
  exists l, points_of (eat e) l /\ link_attr d' u v "waypoints" (VPoints l).
Proof.
  intros so fuel d d' e f u v p SB R Ie FE Pl. destruct (C35_flows so fuel d d' e f u v p SB R Ie FE Pl) as (Lid & _ & _ & _ & _ & nm & _ & Rec & _).
  destruct (round_dom so fuel d d' SB R) as (t & TP & ST & LD). destruct (load_loaded _ _ _ _ LD) as (de & pe & mid & L).
  assert (G : gwf (dgraph d')) by (pose proof (gwf_load so (dom_of t) empty_diagram gwf_empty) as W; rewrite LD in W; exact W).
  destruct (plane_of d fuel t TP de pe (lo_heads _ _ _ _ _ _ _ L)) as (dia & plane & co & cosh & ps & sh & ed & _ & Epe & _ & _ & _ & P). subst pe.
  destruct FE as (F1 & F2 & F3 & F4). destruct (sb_flows _ SB e p Ie F4) as (f0 & u0 & v0 & (E1 & E2 & E3 & _) & S0 & _).
  rewrite F1 in E1. rewrite F2 in E2. rewrite F3 in E3. injection E1 as <-. injection E2 as <-. injection E3 as <-.
  destruct (own_line _ _ _ _ _ _ _ _ _ _ _ SB P Ie F1) as (x0 & Ix0 & N0 & El0).
  destruct (line_edge _ _ _ _ _ _ _ _ _ _ SB TP P Ix0 N0) as (e0 & l & Ie0 & Id0 & Pt & Wp). rewrite El0 in Id0.
  assert (e0 = e) by (eapply (sb_edge_ids _ SB); eauto). subst e0. exists l. split; [exact Pt|].
  assert (Q : edge_attr d' u v "waypoints" = Some (VPoints l)).
  { rewrite (ds_edge _ _ _ _ (lo_di _ _ _ _ _ _ _ L)). apply lines_fold.
    - intros x r Ix N K S. destruct (line_edge _ _ _ _ _ _ _ _ _ _ SB TP P Ix N) as (e1 & l1 & Ie1 & Id1 & Pt1 & Wp1).
      destruct (known_cases so fuel d t de _ mid d' (elt x) r SB TP ST L K) as [(e2 & q & Ie2 & Id2 & _ & S2)|(cc & Hc & Im)].
      + assert (e2 = e).
        { apply (gwf_unique _ e2 e (sb_graph _ SB) Ie2 Ie). apply same_pair_connects. clear -S S0 S2. unfold same_pair in *. intuition congruence. }
        subst e2. assert (e1 = e) by (eapply (sb_edge_ids _ SB); eauto). subst e1. rewrite Wp1. clear -Pt Pt1. unfold points_of in *. intuition congruence.
      + exfalso. destruct (sb_messages _ SB _ _ _ Hc Im) as (_ & _ & No). apply (No e p Ie F4). clear -S S0. unfold same_pair in *. intuition congruence.
    - right. exists x0, (mkFlow nm u v). split; [exact Ix0|]. split; [exact N0|]. split; [|apply same_pair_refl]. unfold known_flow. rewrite El0.
      rewrite (ds_flows _ _ _ _ (lo_di _ _ _ _ _ _ _ L)) in Rec. rewrite Rec. reflexivity. }
  apply edge_attr_link; assumption.
Qed.

(** The same for message flows. *)
Theorem C39_messages : forall set_order fuel d d' c m r, storable d -> complete d -> round_trip set_order fuel d d' ->
  collaboration d = Some c -> In (m, r) (co_messages c) ->
  exists e l, In e (gedges (dgraph d)) /\ same_pair (eu e) (ev e) (fl_src r) (fl_tgt r) /\ points_of (eat e) l /\
    link_attr d' (fl_src r) (fl_tgt r) "waypoints" (VPoints l).
Proof.
  intros so fuel d d' c m r SB CP R Hc Im.
  destruct (round_dom so fuel d d' SB R) as (t & TP & ST & LD). destruct (load_loaded _ _ _ _ LD) as (de & pe & mid & L).
  assert (G : gwf (dgraph d')) by (pose proof (gwf_load so (dom_of t) empty_diagram gwf_empty) as W; rewrite LD in W; exact W).
  destruct (plane_of d fuel t TP de pe (lo_heads _ _ _ _ _ _ _ L)) as (dia & plane & co & cosh & ps & sh & ed & _ & Epe & _ & _ & _ & P). subst pe.
  destruct (cp_messages _ CP _ _ _ Hc Im) as (e & Ie & S0 & F1).
  destruct (own_line _ _ _ _ _ _ _ _ _ _ _ SB P Ie F1) as (x0 & Ix0 & N0 & El0).
  destruct (line_edge _ _ _ _ _ _ _ _ _ _ SB TP P Ix0 N0) as (e0 & l & Ie0 & Id0 & Pt & Wp). rewrite El0 in Id0.
  assert (e0 = e) by (eapply (sb_edge_ids _ SB); eauto). subst e0. exists e, l. split; [exact Ie|]. split; [exact S0|]. split; [exact Pt|].
  destruct (sb_messages _ SB _ _ _ Hc Im) as (_ & _ & No).
  apply edge_attr_link; [exact G|]. rewrite (ds_edge _ _ _ _ (lo_di _ _ _ _ _ _ _ L)). apply lines_fold.
  - intros x r' Ix N K S. destruct (line_edge _ _ _ _ _ _ _ _ _ _ SB TP P Ix N) as (e1 & l1 & Ie1 & Id1 & Pt1 & Wp1).
    destruct (known_cases so fuel d t de _ mid d' (elt x) r' SB TP ST L K) as [(e2 & q & Ie2 & Id2 & Pr & S2)|(cc & Hcc & Im')].
    + exfalso. apply (No e2 q Ie2 Pr). clear -S S2. unfold same_pair in *. intuition congruence.
    + rewrite Hc in Hcc. injection Hcc as <-. destruct (cp_messages _ CP _ _ _ Hc Im') as (e2 & Ie2 & S2 & Id2).
      assert (e2 = e).
      { apply (gwf_unique _ e2 e (sb_graph _ SB) Ie2 Ie). apply same_pair_connects. clear -S S0 S2. unfold same_pair in *. intuition congruence. }
      subst e2. assert (e1 = e) by (eapply (sb_edge_ids _ SB); eauto). subst e1. rewrite Wp1. clear -Pt Pt1. unfold points_of in *. intuition congruence.
  - right. exists x0, r. split; [exact Ix0|]. split; [exact N0|]. split; [|apply same_pair_refl]. unfold known_flow. rewrite El0.
    destruct (loaded_flows _ _ _ _ _ _ _ L m) as [(s & x & F & Ex & Rx)|[_ Q]].
    + exfalso. destruct (flow_declared_edge d SB fuel t TP ST s x F) as (e2 & q & k' & c' & Ie2 & Pe & _ & _ & -> & X).
      pose proof (fe_id _ _ X) as G1. rewrite Ex in G1. assert (e2 = e) by (eapply (sb_edge_ids _ SB); eauto). subst e2. exact (No e q Ie Pe S0).
    + rewrite (ds_flows _ _ _ _ (lo_di _ _ _ _ _ _ _ L)) in Q. rewrite Q. cbn [seq_flows empty_diagram dget].
      destruct (sb_collaboration _ SB _ Hc) as [N1 N2]. rewrite (collab_read d SB fuel t TP ST so de _ mid d' c L Hc N1 N2). cbn [co_messages].
      apply In_dget; assumption.
Qed.

(** * C73: the collaboration *)
Definition box_fields (x : dom) : attrs :=
  [("isHorizontal", VStr (get_attribute "isHorizontal" x)); ("width", VStr (get_attribute "width" (bounds_of x)));
   ("height", VStr (get_attribute "height" (bounds_of x))); ("x", VStr (get_attribute "x" (bounds_of x))); ("y", VStr (get_attribute "y" (bounds_of x)))].
Definition part_attr (p k : string) (v : option pyval) (x : dom) : option pyval :=
  if (d_local x =? "BPMNShape") && (elt x =? p) then overlay (box_fields x) k v else v.
Lemma parts_shapes : forall X c, exists c', fold_left (fun c x => part_shape x c) X (Some c) = Some c' /\ co_id c' = co_id c /\
  co_messages c' = co_messages c /\ map fst (co_participants c') = map fst (co_participants c) /\
  forall p a, dget p (co_participants c) = Some a -> exists a', dget p (co_participants c') = Some a' /\
    forall k, dget k a' = fold_left (part_attr p k) X (dget k a).
Proof.
  induction X as [|x X IH]; intros c; cbn [fold_left].
  - exists c. do 4 (split; [reflexivity|]). intros p a H. exists a. auto.
  - assert (Q : exists c1, part_shape x (Some c) = Some c1 /\ co_id c1 = co_id c /\ co_messages c1 = co_messages c /\
       map fst (co_participants c1) = map fst (co_participants c) /\
       forall p a, dget p (co_participants c) = Some a -> exists a', dget p (co_participants c1) = Some a' /\ forall k, dget k a' = part_attr p k (dget k a) x).
    { unfold part_shape, part_attr. destruct (d_local x =? "BPMNShape") eqn:N; cbn [andb].
      2: { exists c. do 4 (split; [reflexivity|]). intros p a H. exists a. auto. }
      cbn [option_map]. destruct (dget (elt x) (co_participants c)) as [b|] eqn:B.
      - eexists. split; [reflexivity|]. cbn [co_id co_messages co_participants]. do 2 (split; [reflexivity|]). split; [apply dkeys_dset_in; eapply dget_key_In; eauto|].
        intros p a H. rewrite dget_dset. rewrite (String.eqb_sym p (elt x)). destruct (String.eqb_spec (elt x) p) as [<-|Ne].
        + rewrite B in H. injection H as <-. eexists. split; [reflexivity|]. intros k. rewrite !dget_dset. unfold overlay, box_fields. cbn [rev app dget].
          repeat match goal with |- context [if ?b then _ else _] => destruct b end; reflexivity.
        + exists a. auto.
      - exists c. do 4 (split; [reflexivity|]). intros p a H. exists a. split; [exact H|]. intros k. destruct (String.eqb_spec (elt x) p) as [<-|Ne]; [congruence|reflexivity]. }
    destruct Q as (c1 & E & Q1 & Q2 & Q3 & Q4). rewrite E. destruct (IH c1) as (c' & E' & R1 & R2 & R3 & R4). exists c'. rewrite E'.
    split; [reflexivity|]. split; [congruence|]. split; [congruence|]. split; [congruence|]. intros p a H. destruct (Q4 p a H) as (a1 & H1 & K1).
    destruct (R4 p a1 H1) as (a' & H' & K'). exists a'. split; [exact H'|]. intros k. rewrite K', K1. reflexivity.
Qed.
Lemma part_other : forall p k X v, ~ In k ["isHorizontal"; "width"; "height"; "x"; "y"] -> fold_left (part_attr p k) X v = v.
Proof.
  intros p k X. induction X as [|x X IH]; intros v H; [reflexivity|]. cbn [fold_left]. rewrite IH by exact H. unfold part_attr.
  destruct (_ && _); [|reflexivity]. unfold overlay, box_fields. cbn [rev app dget].
  repeat match goal with |- context [(k =? ?s)] => destruct (String.eqb_spec k s) as [->|_]; [exfalso; apply H; simpl; tauto|] end. reflexivity.
Qed.
Lemma part_fold : forall p k X v w, (forall x, In x X -> d_local x = "BPMNShape" -> elt x = p -> forall v, overlay (box_fields x) k v = w) ->
  (v = w \/ exists x, In x X /\ d_local x = "BPMNShape" /\ elt x = p) -> fold_left (part_attr p k) X v = w.
Proof.
  intros p k X. induction X as [|x X IH]; intros v w H E; cbn [fold_left].
  - destruct E as [->|(x & [] & _)]. reflexivity.
  - apply IH; [intros; apply H; auto; right; assumption|]. unfold part_attr. destruct E as [->|(y & [->|Iy] & N & S)].
    + left. destruct (String.eqb_spec (d_local x) "BPMNShape") as [N|_]; [|reflexivity]. destruct (String.eqb_spec (elt x) p) as [S|_]; [|reflexivity].
      cbn [andb]. apply H; auto. left. reflexivity.
    + left. rewrite N, S, !eqb_refl'. cbn [andb]. apply H; auto. left. reflexivity.
    + right. exists y. auto.
Qed.
(** Shapes of lanes. *)
Lemma lane_shapes : forall l id r, export_lane id l = Ok r -> forall k, In k (snd r) -> exists i l', lane_in [(id, l)] i l' /\ lane_shape_out i (lane_geometry l') = Ok k.
Proof.
  induction l as [name child refs di IH] using lane_ind'. intros id r H k I. rewrite export_lane_unfold in H.
  destruct (match child with Some (_, lanes) => _ | None => _ end) as [sub|] eqn:Es; [|discriminate]. cbn [rbind] in H.
  destruct (lane_shape_out id di) as [sh|] eqn:Esh; [|discriminate]. inv H. cbn [snd] in I. apply in_app_or in I. destruct I as [I|[<-|[]]].
  - destruct child as [[j ls]|]; [|inv Es; destruct I]. destruct (lanes_list ls) as [p|] eqn:Ep; [|discriminate]. inv Es. cbn [snd] in I.
    assert (Q : forall ls' p, lanes_list ls' = Ok p -> incl ls' ls -> In k (snd p) -> exists i l', lane_in ls i l' /\ lane_shape_out i (lane_geometry l') = Ok k).
    { clear p Ep I. induction ls' as [|[q x] ls' IHl]; intros p Hp Hi I; cbn [lanes_list] in Hp; [inv Hp; destruct I|].
      destruct (export_lane q x) as [u|] eqn:Eu; [|discriminate]. cbn [rbind] in Hp. destruct (lanes_list ls') as [u'|] eqn:Eu'; [|discriminate]. inv Hp. cbn [snd] in I.
      apply in_app_or in I. destruct I as [I|I].
      - destruct (IH j ls q x eq_refl (Hi _ (or_introl eq_refl)) q u Eu k I) as (i & l' & J & K). exists i, l'. split; [|exact K].
        inversion J as [? ? ? J1|? ? ? ? ? ? ? ? ? J1 J2]; subst.
        + destruct J1 as [J1|[]]. injection J1 as <- <-. apply lane_here. apply Hi. left. reflexivity.
        + destruct J1 as [J1|[]]. injection J1 as <- ->. eapply lane_below; [|exact J2]. apply Hi. left. reflexivity.
      - eapply IHl; eauto. intros z Iz. apply Hi. right. exact Iz. }
    destruct (Q ls p Ep (incl_refl _) I) as (i & l' & J & K). exists i, l'. split; [|exact K]. eapply lane_below; [left; reflexivity|exact J].
  - exists id, (Lane name child refs di). split; [apply lane_here; left; reflexivity|exact Esh].
Qed.
Lemma lane_in_incl : forall ls ls' i l, incl ls ls' -> lane_in ls i l -> lane_in ls' i l.
Proof.
  intros ls ls' i l Hi J. inversion J as [? ? ? J1|? ? ? ? ? ? ? ? ? J1 J2]; subst; [apply lane_here; auto|eapply lane_below; [apply Hi; exact J1|exact J2]].
Qed.
Lemma process_shapes : forall fuel d p a e sh k, export_process fuel d (p, a) = Ok (e, sh) -> In (p, a) (procs d) -> In k sh ->
  exists i l, lane_of d i l /\ lane_shape_out i (lane_geometry l) = Ok k.
Proof.
  intros fuel d p a e sh k H Ip I. apply process_inv in H. destruct H as [(c & x & u & ls & ns & es & fs & _ & _ & _ & L & _)]. cbn [snd] in *.
  unfold lanes_out in L. change k_lane_set with "laneSet" in L. destruct (dget "laneSet" a) as [v|] eqn:D; [|inv L; destruct I].
  destruct v as [| | | | | |s lanes]; try discriminate. unfold export_lane_set in L. destruct (rmap _ lanes) as [qs|] eqn:Q; [|discriminate]. inv L.
  apply in_flat_map in I. destruct I as [q [Iq Ik]]. destruct (rmap_out _ _ _ _ _ Q q Iq) as [[i l] [Il El]]. cbn [fst snd] in El.
  destruct (lane_shapes _ _ _ El k Ik) as (i' & l' & J & K). exists i', l'. split; [|exact K]. exists p, a, s, lanes. split; [exact Ip|]. split; [exact D|].
  eapply lane_in_incl; [|exact J]. intros z [<-|[]]. exact Il.
Qed.
Lemma lane_shape_elt : forall i di k, lane_shape_out i di = Ok k -> elt (dom_of k) = i /\ exists h w g x y, di = Some (h, (w, g, x, y)) /\
  k = elem shape_tag [("id", VStr (i ++ "_gui")); ("bpmnElement", VStr i); ("isHorizontal", VStr h)]
        [elem "omgdc:Bounds" [("width", VStr w); ("height", VStr g); ("x", VStr x); ("y", VStr y)] []].
Proof.
  intros i di k H. unfold lane_shape_out in H. destruct di as [[h [[[w g] x] y]]|]; [|discriminate]. inv H. split; [reflexivity|].
  exists h, w, g, x, y. split; reflexivity.
Qed.
(** What the shapes on the plane are drawn for. *)
Lemma shape_of : forall fuel d t plane co cosh ps sh ed x, export_tree fuel d = Ok t ->
  plane_parts d fuel t plane co cosh ps sh ed -> In x (d_kids (dom_of plane)) -> d_local x = "BPMNShape" ->
  (exists c p a nm ref hor b, collaboration d = Some c /\ In (p, a) (co_participants c) /\ elt x = p /\ dget "name" a = Some nm /\ dget "processRef" a = Some ref /\
     dget "isHorizontal" a = Some hor /\ bounds_element a = Ok b /\
     x = dom_of (elem shape_tag [("id", VStr (p ++ "_gui")); ("bpmnElement", VStr p); ("isHorizontal", hor)] [b]) /\ within (elem shape_tag [("id", VStr (p ++ "_gui")); ("bpmnElement", VStr p); ("isHorizontal", hor)] [b]) t) \/
  (exists i l k, lane_of d i l /\ elt x = i /\ lane_shape_out i (lane_geometry l) = Ok k /\ x = dom_of k) \/
  (exists a, In (elt x, a) (gnodes (dgraph d))).
Proof.
  intros fuel d t plane co cosh ps sh ed x TP P I N. pose proof (pl_kids _ _ _ _ _ _ _ _ _ P) as K. rewrite K in I. apply in_map_iff in I. destruct I as [k [<- I]].
  assert (Wk : within k t) by (eapply within_kid; [apply (pl_within _ _ _ _ _ _ _ _ _ P)|]; rewrite (pl_in _ _ _ _ _ _ _ _ _ P); exact I).
  apply in_app_or in I. destruct I as [I|I].
  - destruct (collaboration_inv _ _ _ (pl_collab _ _ _ _ _ _ _ _ _ P)) as [(_ & _ & ->)|(cc & ms & qs & Hc & M & Q & _ & ->)]; [destruct I|].
    apply in_app_or in I. destruct I as [I|I]; apply in_map_iff in I; destruct I as [q [<- Iq]].
    + destruct (rmap_out _ _ _ _ _ M q Iq) as [[m r] [_ Hm]]. destruct (message_inv _ _ _ Hm) as (v & w & G & W & ->). discriminate N.
    + left. destruct (rmap_out _ _ _ _ _ Q q Iq) as [[p a] [Ip Hp]]. destruct (participant_inv _ _ Hp) as (nm & ref & hor & b & D1 & D2 & D3 & B & E).
      rewrite E in *. cbn [fst snd] in *. exists cc, p, a, nm, ref, hor, b. repeat (split; [first [assumption|reflexivity]|]). exact Wk.
  - apply in_app_or in I. destruct I as [I|I].
    + right. left. apply in_flat_map in I. destruct I as [[e sh'] [J1 J2]]. destruct (rmap_out _ _ _ _ _ (pl_procs _ _ _ _ _ _ _ _ _ P) _ J1) as [[q a] [Iq Hq]].
      cbn [snd] in J2. destruct (process_shapes _ _ _ _ _ _ _ Hq Iq J2) as (i & l & A & B). exists i, l, k. split; [exact A|].
      split; [apply (lane_shape_elt _ _ _ B)|]. auto.
    + right. right. apply in_app_or in I. destruct I as [I|I].
      * destruct (rmap_out _ _ _ _ _ (pl_shapes _ _ _ _ _ _ _ _ _ P) _ I) as [[n a] [In H]]. destruct (node_di_inv _ _ _ H) as (? & ? & _ & _ & _ & ->). exists a. exact In.
      * destruct (rmap_out _ _ _ _ _ (pl_edges _ _ _ _ _ _ _ _ _ P) _ I) as [v [Iv H]]. destruct (flow_di_inv _ _ H) as (i & w & Di & W & ->). discriminate N.
Qed.
(** Participants, their pools and the message flows are kept.  The pool of a participant is
    kept when its id is not also the id of a node or a lane. *)
Theorem C73_collaboration : forall set_order fuel d d' c, storable d -> round_trip set_order fuel d d' -> collaboration d = Some c ->
  exists c', collaboration d' = Some c' /\ co_id c' = co_id c /\ co_messages c' = co_messages c /\
    map fst (co_participants c') = map fst (co_participants c) /\
    forall p a, dget p (co_participants c) = Some a -> exists a', dget p (co_participants c') = Some a' /\
      dget "name" a' = dget "name" a /\ dget "processRef" a' = dget "processRef" a /\
      (~ is_node d p -> (forall l, ~ lane_of d p l) ->
       forall k, In k ["isHorizontal"; "width"; "height"; "x"; "y"] -> dget k a' = dget k a).
Proof.
  intros so fuel d d' c SB R Hc. destruct (round_dom so fuel d d' SB R) as (t & TP & ST & LD). destruct (load_loaded _ _ _ _ LD) as (de & pe & mid & L).
  destruct (plane_of d fuel t TP de pe (lo_heads _ _ _ _ _ _ _ L)) as (dia & plane & co & cosh & ps & sh & ed & _ & Epe & _ & _ & _ & P). subst pe.
  destruct (sb_collaboration _ SB _ Hc) as [N1 N2]. pose proof (ds_collab _ _ _ _ (lo_di _ _ _ _ _ _ _ L)) as D.
  rewrite (collab_read d SB fuel t TP ST so de _ mid d' c L Hc N1 N2) in D.
  destruct (parts_shapes (d_kids (dom_of plane)) (mkCollab (co_id c) (map bare (co_participants c)) (co_messages c))) as (c' & E & Q1 & Q2 & Q3 & Q4).
  cbn [co_id co_messages co_participants] in Q1, Q2, Q3, Q4. rewrite E in D. exists c'. split; [exact D|]. split; [exact Q1|]. split; [exact Q2|].
  split; [rewrite Q3; etransitivity; [apply map_map|reflexivity]|]. intros p a H.
  assert (Hb : dget p (map bare (co_participants c)) = Some (snd (bare (p, a)))).
  { apply In_dget; [unfold dkeys; erewrite map_map; exact N1|]. apply dget_In in H. apply in_map_iff. exists (p, a). split; [reflexivity|exact H]. }
  destruct (Q4 p _ Hb) as (a' & H' & K). exists a'. split; [exact H'|].
  (* the pool *)
  assert (Own : exists nm ref hor b, dget "name" a = Some nm /\ dget "processRef" a = Some ref /\ dget "isHorizontal" a = Some hor /\ bounds_element a = Ok b /\
      In (dom_of (elem shape_tag [("id", VStr (p ++ "_gui")); ("bpmnElement", VStr p); ("isHorizontal", hor)] [b])) (d_kids (dom_of plane))).
  { destruct (collaboration_inv _ _ _ (pl_collab _ _ _ _ _ _ _ _ _ P)) as [(Z & _)|(cc & ms & qs & Hc' & M & Q & _ & Es)]; [congruence|].
    rewrite Hc in Hc'. injection Hc' as <-. destruct (rmap_from _ _ _ _ _ Q _ (dget_In _ _ _ H)) as [q [Iq Hq]].
    destruct (participant_inv _ _ Hq) as (nm & ref & hor & b & D1 & D2 & D3 & B & Eq). cbn [fst snd] in *. exists nm, ref, hor, b.
    do 4 (split; [assumption|]). rewrite (pl_kids _ _ _ _ _ _ _ _ _ P). apply in_map. rewrite Es. apply in_or_app. left. apply in_or_app. right. apply in_map_iff. exists q. split; [rewrite Eq; reflexivity|exact Iq]. }
  destruct Own as (nm & ref & hor & b & D1 & D2 & D3 & B & Io).
  split; [rewrite K, part_other by (simpl; intuition discriminate); unfold bare; cbn [fst snd dget String.eqb Ascii.eqb Bool.eqb]; rewrite D1; reflexivity|].
  split; [rewrite K, part_other by (simpl; intuition discriminate); unfold bare; cbn [fst snd dget String.eqb Ascii.eqb Bool.eqb]; rewrite D2; reflexivity|].
  intros Nn Nl k Ik. rewrite K. apply part_fold; [|right; eexists; split; [exact Io|]; split; reflexivity].
  intros x Ix N S v. destruct (shape_of _ _ _ _ _ _ _ _ _ _ TP P Ix N) as [(c2 & p2 & a2 & nm2 & ref2 & hor2 & b2 & Hc2 & Ip2 & El & _ & _ & D6 & B2 & -> & W2)|[(i & l & q & Lo & El & _)|(a2 & In2)]].
  - rewrite Hc in Hc2. injection Hc2 as <-. rewrite El in S. subst p2. apply In_dget in Ip2; [|exact N1]. rewrite H in Ip2. injection Ip2 as <-. clear El.
    pose proof (strings_within _ ST _ W2) as Sx.
    assert (Sb : strings b2) by (eapply strings_within; [exact ST|]; eapply within_kid; [exact W2|]; left; reflexivity).
    simpl in Ik. destruct Ik as [<-|Ik].
    + pose proof (strings_att _ "isHorizontal" hor2 Sx eq_refl) as Q. rewrite D6. unfold overlay, box_fields. cbn [rev app dget String.eqb Ascii.eqb Bool.eqb].
      rewrite Q. reflexivity.
    + rewrite (shape_box a b2 [("id", VStr (p ++ "_gui")); ("bpmnElement", VStr p); ("isHorizontal", hor2)] B2 Sb k Ik). unfold overlay, box_fields. cbn [rev app dget].
      destruct Ik as [<-|[<-|[<-|[<-|[]]]]]; reflexivity.
  - exfalso. rewrite El in S. subst i. exact (Nl _ Lo).
  - exfalso. apply Nn. rewrite S in In2. unfold is_node. apply in_map_iff. exists (p, a2). auto.
Qed.
Theorem C73_no_collaboration : forall set_order fuel d d', storable d -> round_trip set_order fuel d d' -> collaboration d = None -> collaboration d' = None.
Proof.
  intros so fuel d d' SB R Hc. destruct (round_dom so fuel d d' SB R) as (t & TP & ST & LD). destruct (load_loaded _ _ _ _ LD) as (de & pe & mid & L).
  rewrite (ds_collab _ _ _ _ (lo_di _ _ _ _ _ _ _ L)). rewrite (collab_mid t so de pe mid d' L).
  destruct (collaboration_of (dom_of t)) as [c|] eqn:Ec; [destruct (collab_of d SB fuel t TP c Ec) as (cc & _ & _ & _ & H & _); congruence|].
  generalize (d_kids pe). induction l as [|x l IH]; [reflexivity|]. cbn [fold_left]. unfold part_shape at 2. destruct (d_local x =? "BPMNShape"); exact IH.
Qed.
(** The connection of a message flow. *)
Lemma lines_name : forall mid X u v nm w, (forall x r, In x X -> d_local x = "BPMNEdge" -> known_flow mid (elt x) = Some r -> same_pair u v (fl_src r) (fl_tgt r) ->
     fl_name r = nm) ->
  (w = Some (VStr nm) \/ exists x r, In x X /\ d_local x = "BPMNEdge" /\ known_flow mid (elt x) = Some r /\ same_pair u v (fl_src r) (fl_tgt r)) ->
  fold_left (fun y x => line_attr mid x u v "name" y) X w = Some (VStr nm).
Proof.
  intros mid X u v nm. induction X as [|x X IH]; intros w H E; cbn [fold_left].
  - destruct E as [->|(x & r & [] & _)]. reflexivity.
  - apply IH; [intros; eapply H; eauto; right; assumption|]. unfold line_attr. destruct E as [->|(y & r & [->|Iy] & N & K & S)].
    + left. destruct (String.eqb_spec (d_local x) "BPMNEdge") as [N|_]; [|reflexivity]. destruct (known_flow mid (elt x)) as [r|] eqn:K; [|reflexivity].
      destruct (pair_b u v (fl_src r) (fl_tgt r)) eqn:S; [|reflexivity]. apply pair_b_spec in S. unfold overlay, line_fields. cbn [rev app dget String.eqb Ascii.eqb Bool.eqb].
      rewrite (H x r) by (auto; left; reflexivity). reflexivity.
    + left. rewrite N, eqb_refl', K. assert (Q : pair_b u v (fl_src r) (fl_tgt r) = true) by (apply pair_b_spec; exact S). rewrite Q.
      unfold overlay, line_fields. cbn [rev app dget String.eqb Ascii.eqb Bool.eqb]. rewrite (H y r) by (auto; left; reflexivity). reflexivity.
    + right. exists y, r. auto.
Qed.
Theorem C73_messages : forall set_order fuel d d' c m r, storable d -> complete d -> round_trip set_order fuel d d' ->
  collaboration d = Some c -> In (m, r) (co_messages c) ->
  link_attr d' (fl_src r) (fl_tgt r) "id" (VStr m) /\ link_attr d' (fl_src r) (fl_tgt r) "sourceRef" (VStr (fl_src r)) /\
  link_attr d' (fl_src r) (fl_tgt r) "targetRef" (VStr (fl_tgt r)) /\ link_attr d' (fl_src r) (fl_tgt r) "name" (VStr (fl_name r)) /\
  dget m (seq_flows d') = None.
Proof.
  intros so fuel d d' c m r SB CP R Hc Im.
  destruct (round_dom so fuel d d' SB R) as (t & TP & ST & LD). destruct (load_loaded _ _ _ _ LD) as (de & pe & mid & L).
  assert (G : gwf (dgraph d')) by (pose proof (gwf_load so (dom_of t) empty_diagram gwf_empty) as W; rewrite LD in W; exact W).
  destruct (plane_of d fuel t TP de pe (lo_heads _ _ _ _ _ _ _ L)) as (dia & plane & co & cosh & ps & sh & ed & _ & Epe & _ & _ & _ & P). subst pe.
  destruct (cp_messages _ CP _ _ _ Hc Im) as (e & Ie & S0 & F1). destruct (sb_messages _ SB _ _ _ Hc Im) as (_ & _ & No).
  destruct (sb_collaboration _ SB _ Hc) as [N1 N2]. pose proof (In_dget _ _ _ N2 Im) as Dm.
  assert (Same : forall m' r', In (m', r') (co_messages c) -> same_pair (fl_src r) (fl_tgt r) (fl_src r') (fl_tgt r') -> m' = m /\ r' = r).
  { intros m' r' I' S. destruct (cp_messages _ CP _ _ _ Hc I') as (e2 & Ie2 & S2 & Id2). assert (e2 = e).
    { apply (gwf_unique _ e2 e (sb_graph _ SB) Ie2 Ie). apply same_pair_connects. clear -S S0 S2. unfold same_pair in *. intuition congruence. }
    subst e2. assert (m' = m) by congruence. subst m'. split; [reflexivity|]. apply In_dget in I'; [|exact N2]. congruence. }
  assert (NoSeq : dget m (seq_flows mid) = None).
  { destruct (loaded_flows _ _ _ _ _ _ _ L m) as [(s & x & F & Ex & Rx)|[_ Q]].
    - exfalso. destruct (flow_declared_edge d SB fuel t TP ST s x F) as (e2 & q & k' & c' & Ie2 & Pe & _ & _ & -> & X).
      pose proof (fe_id _ _ X) as G1. rewrite Ex in G1. assert (e2 = e) by (eapply (sb_edge_ids _ SB); eauto). subst e2. exact (No e q Ie Pe S0).
    - rewrite (ds_flows _ _ _ _ (lo_di _ _ _ _ _ _ _ L)) in Q. exact Q. }
  destruct (message_there d SB fuel t TP c m r Hc Im) as (f & M & Fi & Sr & Tr & _).
  destruct (loaded_edge _ _ _ _ _ _ _ L (fl_src r) (fl_tgt r)) as (a & Ia & Na & Fl).
  { exists (AMessage f). split; [apply message_action; exact M|]. cbn [edge_new]. apply pair_b_spec. rewrite Sr, Tr. apply same_pair_refl. }
  assert (A : exists g, a = AMessage g /\ get_attribute "id" g = m /\ get_attribute "sourceRef" g = fl_src r /\ get_attribute "targetRef" g = fl_tgt r).
  { pose proof (core_explained (dom_of t)) as X. rewrite Forall_forall in X. specialize (X a Ia).
    destruct a as [y|o y|o g| |y|g|g]; try discriminate; cbn [edge_new] in Na; apply pair_b_spec in Na; cbn [explained] in X.
    - exfalso. destruct X as [s [F _]]. destruct (flow_declared_edge d SB fuel t TP ST s g F) as (e2 & q & k' & c' & Ie2 & Pe & _ & _ & -> & X).
      destruct (sb_flows _ SB e2 q Ie2 Pe) as (f' & u & v & (E1 & E2 & E3 & _) & S & _). pose proof (fe_src _ _ X) as G2. pose proof (fe_tgt _ _ X) as G3.
      rewrite E2 in G2. rewrite E3 in G3. injection G2 as ->. injection G3 as ->. apply (No e2 q Ie2 Pe). clear -S Na. unfold same_pair in *. intuition congruence.
    - destruct (message_of d SB fuel t TP g X) as (cc & m' & rr & Hc' & Im' & Id & Sr' & Tr' & _). rewrite Hc in Hc'. injection Hc' as <-.
      rewrite Sr', Tr' in Na. destruct (Same m' rr Im' Na) as [-> ->]. exists g. auto. }
  destruct A as (g & -> & Gi & Gs & Gt). cbn [edge_fields] in Fl.
  assert (V : forall k y, k <> "waypoints" -> k <> "name" -> dget k (rev (message_fields g)) = Some y -> link_attr d' (fl_src r) (fl_tgt r) k y).
  { intros k y K1 K2 H. apply edge_attr_link; [exact G|]. apply Fl; assumption. }
  split; [apply V; [discriminate|discriminate|]; rewrite <- Gi; reflexivity|].
  split; [apply V; [discriminate|discriminate|]; rewrite <- Gs; reflexivity|].
  split; [apply V; [discriminate|discriminate|]; rewrite <- Gt; reflexivity|].
  split; [|rewrite (ds_flows _ _ _ _ (lo_di _ _ _ _ _ _ _ L)); exact NoSeq].
  apply edge_attr_link; [exact G|]. rewrite (ds_edge _ _ _ _ (lo_di _ _ _ _ _ _ _ L)).
  destruct (own_line _ _ _ _ _ _ _ _ _ _ _ SB P Ie F1) as (x0 & Ix0 & N0 & El0). apply lines_name.
  - intros x r' Ix N K S. destruct (known_cases so fuel d t de _ mid d' (elt x) r' SB TP ST L K) as [(e2 & q & Ie2 & Id2 & Pr & S2)|(cc & Hcc & Im')].
    + exfalso. apply (No e2 q Ie2 Pr). clear -S S2. unfold same_pair in *. intuition congruence.
    + rewrite Hc in Hcc. injection Hcc as <-. destruct (Same _ _ Im' S) as [_ ->]. reflexivity.
  - right. exists x0, r. split; [exact Ix0|]. split; [exact N0|]. split; [|apply same_pair_refl]. unfold known_flow. rewrite El0, NoSeq.
    rewrite (collab_read d SB fuel t TP ST so de _ mid d' c L Hc N1 N2). cbn [co_messages]. exact Dm.
Qed.
(** The attributes of the diagram and of the plane. *)
Theorem C73_diagram_attributes : forall set_order fuel d d', storable d -> round_trip set_order fuel d d' ->
  dget "id" (diag_attrs d') = dget "id" (diag_attrs d) /\ dget "name" (diag_attrs d') = dget "name" (diag_attrs d) /\
  dget "id" (plane_attrs d') = dget "id" (plane_attrs d) /\ dget "bpmnElement" (plane_attrs d') = dget "bpmnElement" (plane_attrs d).
Proof.
  intros so fuel d d' SB R. destruct (round_dom so fuel d d' SB R) as (t & TP & ST & LD). destruct (load_loaded _ _ _ _ LD) as (de & pe & mid & L).
  destruct (plane_of d fuel t TP de pe (lo_heads _ _ _ _ _ _ _ L)) as (dia & plane & co & cosh & ps & sh & ed & Ede & Epe & Wd & (v1 & D1 & A1) & (v2 & D2 & A2) & P). subst de pe.
  pose proof (strings_within _ ST _ Wd) as Sd. pose proof (strings_within _ ST _ (pl_within _ _ _ _ _ _ _ _ _ P)) as Sp.
  destruct (pl_id _ _ _ _ _ _ _ _ _ P) as (v3 & D3 & A3). destruct (pl_element _ _ _ _ _ _ _ _ _ P) as (v4 & D4 & A4).
  pose proof (strings_att _ _ _ Sd A1) as B1. pose proof (strings_att _ _ _ Sd A2) as B2. pose proof (strings_att _ _ _ Sp A3) as B3. pose proof (strings_att _ _ _ Sp A4) as B4.
  rewrite (ds_diag _ _ _ _ (lo_di _ _ _ _ _ _ _ L)), (ds_plane _ _ _ _ (lo_di _ _ _ _ _ _ _ L)).
  rewrite (es_diag _ _ _ _ _ (lo_effs _ _ _ _ _ _ _ L)), (es_plane _ _ _ _ _ (lo_effs _ _ _ _ _ _ _ L)). rewrite D1, D2, D3, D4.
  rewrite B1 in A1. rewrite B2 in A2. rewrite B3 in A3. rewrite B4 in A4.
  unfold start. cbn [diag_attrs plane_attrs with_plane with_diag empty_diagram dset dget String.eqb Ascii.eqb Bool.eqb].
  change k_id with "id". change k_name with "name". change k_bpmn_element with "bpmnElement". cbn [diag_attrs plane_attrs with_plane with_diag empty_diagram dset dget String.eqb Ascii.eqb Bool.eqb].
  unfold attribute_or. rewrite (get_dom _ _ _ A1), (get_dom _ _ _ A3), (get_dom _ _ _ A4).
  assert (Q : dget "name" (d_atts (dom_of dia)) = Some (string_of v2)) by (rewrite atts_dom, A2; reflexivity). rewrite Q. rewrite <- B1, <- B2, <- B3, <- B4. auto.
Qed.
(** A pool that is also a node of the graph (a participant without a process) loses its
    orientation: its shape is written a second time without it. *)
Theorem C73_black_box : forall set_order fuel d d' c p a, storable d -> round_trip set_order fuel d d' -> collaboration d = Some c ->
  dget p (co_participants c) = Some a -> is_node d p ->
  exists c' a', collaboration d' = Some c' /\ dget p (co_participants c') = Some a' /\ dget "isHorizontal" a' = Some (VStr "").
Proof.
  intros so fuel d d' c p a SB R Hc H Nd. destruct (round_dom so fuel d d' SB R) as (t & TP & ST & LD). destruct (load_loaded _ _ _ _ LD) as (de & pe & mid & L).
  destruct (plane_of d fuel t TP de pe (lo_heads _ _ _ _ _ _ _ L)) as (dia & plane & co & cosh & ps & sh & ed & _ & Epe & _ & _ & _ & P). subst pe.
  destruct (sb_collaboration _ SB _ Hc) as [N1 N2]. pose proof (ds_collab _ _ _ _ (lo_di _ _ _ _ _ _ _ L)) as D.
  rewrite (collab_read d SB fuel t TP ST so de _ mid d' c L Hc N1 N2) in D.
  destruct (parts_shapes (d_kids (dom_of plane)) (mkCollab (co_id c) (map bare (co_participants c)) (co_messages c))) as (c' & E & _ & _ & _ & Q4).
  cbn [co_id co_messages co_participants] in Q4. rewrite E in D. exists c'.
  assert (Hb : dget p (map bare (co_participants c)) = Some (snd (bare (p, a)))).
  { apply In_dget; [unfold dkeys; erewrite map_map; exact N1|]. apply dget_In in H. apply in_map_iff. exists (p, a). split; [reflexivity|exact H]. }
  destruct (Q4 p _ Hb) as (a' & H' & K). exists a'. split; [exact D|]. split; [exact H'|]. rewrite K.
  unfold is_node in Nd. apply in_map_iff in Nd. destruct Nd as [[n b] [Hn Ib]]. cbn [fst] in Hn. subst n.
  pose proof (pl_shapes _ _ _ _ _ _ _ _ _ P) as Sh. destruct (in_split _ _ Ib) as (l1 & l2 & El). rewrite El in Sh.
  destruct (rmap_split _ _ _ _ _ _ _ Sh) as (s1 & own & s2 & Es & _ & Ow & S2).
  destruct (node_di_inv _ _ _ Ow) as (bo & ty & B & Ty & _ & Eo).
  rewrite (pl_kids _ _ _ _ _ _ _ _ _ P), Es. rewrite <- !app_assoc. cbn [app].
  rewrite map_app, fold_left_app, map_app, fold_left_app, map_app, fold_left_app. cbn [map fold_left].
  assert (X : forall X v, (forall x, In x X -> (d_local x =? "BPMNShape") && (elt x =? p) = false) -> fold_left (part_attr p "isHorizontal") X v = v).
  { induction X as [|x X IH]; intros v F; [reflexivity|]. cbn [fold_left]. unfold part_attr at 2. rewrite (F x (or_introl eq_refl)). apply IH. intros; apply F; right; assumption. }
  rewrite X.
  - unfold part_attr. rewrite Eo. assert (Z : (d_local (dom_of (elem shape_tag ([("id", VStr (p ++ "_gui")); ("bpmnElement", VStr p)] ++ expanded_of ty b) [bo])) =? "BPMNShape") = true) by reflexivity.
    rewrite Z. assert (Z' : elt (dom_of (elem shape_tag ([("id", VStr (p ++ "_gui")); ("bpmnElement", VStr p)] ++ expanded_of ty b) [bo])) = p) by reflexivity.
    rewrite Z', eqb_refl'. cbn [andb]. unfold overlay, box_fields. cbn [rev app dget String.eqb Ascii.eqb Bool.eqb]. f_equal. f_equal.
    unfold expanded_of. destruct (veqs ty _); [destruct (dget "isExpanded" b) as [w|]; [destruct w; reflexivity|reflexivity]|reflexivity].
  - intros x I. rewrite map_app in I. apply in_app_or in I. destruct I as [I|I]; apply in_map_iff in I; destruct I as [k [<- I]].
    + destruct (rmap_out _ _ _ _ _ S2 k I) as [[n z] [Iz Hz]]. destruct (node_di_inv _ _ _ Hz) as (? & ? & _ & _ & _ & ->).
      apply andb_false_iff. right. apply String.eqb_neq. change (n <> p). intros ->.
      pose proof (gwf_nodup _ (sb_graph _ SB)) as N. rewrite El in N. unfold dkeys in N. rewrite map_app in N. cbn [map fst] in N. apply NoDup_remove_2 in N.
      apply N. apply in_or_app. right. apply in_map_iff. exists (p, z). auto.
    + destruct (rmap_out _ _ _ _ _ (pl_edges _ _ _ _ _ _ _ _ _ P) _ I) as [v [Iv Hv]]. destruct (flow_di_inv _ _ Hv) as (i & w & Di & W & ->). reflexivity.
Qed.

(** * Examples *)
Example C39_example : points_of (eat (nth 1 (gedges (dgraph drawn)) (mkEdge "" "" []))) [("3", "4"); ("5", "9"); ("9", "10")] /\
  edge_attr redrawn "sub" "e" "waypoints" = Some (VPoints [("3", "4"); ("5", "9"); ("9", "10")]) /\
  edge_attr redrawn "t" "R" "waypoints" = Some (VPoints [("11", "12"); ("0", "400")]) /\
  attr redrawn "sub" "isExpanded" = Some (VStr "true") /\ attr redrawn "u" "x" = Some (VStr "5") /\ attr redrawn "u" "height" = Some (VStr "80").
Proof. split; [left; reflexivity|]. vm_compute. auto 6. Qed.
Example C73_example : ~ is_node drawn "Q" /\ is_node drawn "R" /\ diag_attrs redrawn = diag_attrs drawn /\ plane_attrs redrawn = plane_attrs drawn /\
  exists c, collaboration redrawn = Some c /\ co_messages c = [("m", mkFlow "order" "e" "t"); ("m2", mkFlow "parcel" "t" "R")] /\
    dget "Q" (co_participants c) = Some ([("name", VStr "Buyer"); ("processRef", VStr "q"); ("isHorizontal", VStr "false")] ++ box "0" "200").
Proof.
  split; [unfold is_node; cbn; intuition discriminate|]. split; [unfold is_node; cbn; tauto|]. split; [vm_compute; reflexivity|]. split; [vm_compute; reflexivity|].
  eexists. split; [vm_compute; reflexivity|]. split; reflexivity.
Qed.
(** The orientation of a pool without a process is lost. *)
Theorem C73_orientation_refuted : exists set_order fuel d d' c c' p a a', storable d /\ complete d /\ round_trip set_order fuel d d' /\
  collaboration d = Some c /\ collaboration d' = Some c' /\ dget p (co_participants c) = Some a /\ dget p (co_participants c') = Some a' /\
  dget "isHorizontal" a' <> dget "isHorizontal" a.
Proof.
  exists (fun l => l), 5, drawn, redrawn. do 2 eexists. exists "R". do 2 eexists. split; [exact drawn_storable|]. split; [exact drawn_complete|].
  split; [exact drawn_round|]. split; [reflexivity|]. split; [vm_compute; reflexivity|]. split; [reflexivity|]. split; [reflexivity|]. vm_compute. discriminate.
Qed.

Print Assumptions C39_nodes.
Print Assumptions C39_flows.
Print Assumptions C39_messages.
Print Assumptions C73_collaboration.
Print Assumptions C73_no_collaboration.
Print Assumptions C73_messages.
Print Assumptions C73_diagram_attributes.
Print Assumptions C73_black_box.
Print Assumptions C73_orientation_refuted.
