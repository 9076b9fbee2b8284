(** The exported document can be loaded. *)
From Coq Require Import String List Bool Arith Lia Permutation.
From Verif Require Import Py PyFacts Consts Nx NxFacts Rep SpecRep RepFacts CsvRegex CsvImport CsvFacts Xml Export Import XmlOps
  ImportFacts SpecXml XmlScopes ActionFacts DiFacts LoadFacts Prop_XmlImport XmlLayout Prop_XmlLayout ExportFacts ExportTree Prop_XmlExported
  SpecRound ExportScopes RoundNodes RoundLoad RoundBack RoundDi Prop_XmlDrawn Prop_XmlLanes Prop_XmlLoads SpecWrite.
Import ListNotations.
Open Scope string_scope.
Open Scope list_scope.

Lemma plain_dom : forall k, plain (dom_of k).
Proof. intros k c I. destruct (kids_dom _ _ I) as [[s E]|(z & _ & E)]; [discriminate|]. destruct z. discriminate. Qed.
Lemma plain_kid : forall k x, In x (d_kids (dom_of k)) -> plain x.
Proof. intros k x I. destruct (kids_dom _ _ I) as [[s ->]|(z & _ & ->)]; [intros c []|apply plain_dom]. Qed.
Lemma text_has : forall g s, s <> "" -> has_text (dom_of (text_elem g s)).
Proof. intros g [|c s] N; [congruence|]. exists (String c s), []. left. reflexivity. Qed.
Lemma shape_bounds : forall a b atts, bounds_element a = Ok b -> has_bounds (dom_of (elem shape_tag atts [b])).
Proof. intros a b atts B. destruct (fine_bounds _ _ B) as (w & h & x & y & _ & _ & _ & _ & ->). eexists _, _. reflexivity. Qed.
Lemma last_in : forall A (l : list A) x, last_of l = Some x -> In x l.
Proof. intros A l x H. unfold last_of in H. destruct (rev l) as [|y r] eqn:E; [discriminate|]. inv H. apply in_rev. rewrite E. left. reflexivity. Qed.

Section Round.
Variable d : diagram.
Hypothesis SB : storable d.
Hypothesis CP : complete d.
Hypothesis RR : rereadable d.
Variables (fuel : nat) (t : etree).
Hypothesis TP : export_tree fuel d = Ok t.
Hypothesis ST : strings t.
Notation root := (dom_of t).

Lemma node_introduced : forall n, is_node d n -> introduced root n.
Proof using SB CP TP ST.
  intros n I. apply (cp_nodes d CP) in I. destruct I as [(ty & p & T & K & P & Pl)|(c & a & Hc & Ip & R)].
  - left. destruct (declared_node d SB fuel t TP n p ty T K P Pl) as (a & k & x & _ & _ & _ & Nx & _ & Dx). exists (dom_of k), (dom_of x). split; [exact Dx|].
    apply get_dom. apply (node_elem_name d SB _ _ Nx).
  - right. destruct (participant_there d SB fuel t TP ST c n a Hc Ip) as (y & Py & Iy & Ry & _). exists y. split; [exact Py|]. split; [|exact Iy]. congruence.
Qed.
Lemma registered : forall n f, In f (outgoing_of d n) \/ In f (incoming_of d n) -> is_node d n.
Proof using.
  clear. intros n f I. unfold outgoing_of, incoming_of, attr, node_of in I. destruct (dget n (gnodes (dgraph d))) as [a|] eqn:E; [|destruct I as [[]|[]]].
  apply dget_In in E. unfold is_node. apply in_map_iff. exists (n, a). auto.
Qed.
Lemma mentioned_node : forall n, mentioned root n -> is_node d n.
Proof using SB TP ST.
  intros n [(s & f & F & E)|(f & F & E)].
  - destruct (flow_declared_edge d SB fuel t TP ST s f F) as (e & p & k & c & Ie & Pr & _ & _ & -> & Fe).
    destruct (sb_flows _ SB e p Ie Pr) as (i & u & v & (_ & Eu & Ev & _) & _ & O & I). pose proof (fe_src _ _ Fe) as A. pose proof (fe_tgt _ _ Fe) as B.
    rewrite Eu in A. rewrite Ev in B. injection A as A. injection B as B. destruct E as [E|E]; eapply registered; [left; rewrite <- E, <- A; exact O|right; rewrite <- E, <- B; exact I].
  - destruct (message_of d SB fuel t TP f F) as (cc & m & r & Hc & Im & _ & A & B & _). destruct (sb_messages _ SB cc m r Hc Im) as (O & I & _).
    destruct E as [E|E]; eapply registered; [left; rewrite <- E, A; exact O|right; rewrite <- E, B; exact I].
Qed.

Lemma lists_text : forall s x k, declared root s x -> In k (d_kids x) -> named "incoming" k \/ named "outgoing" k -> has_text k.
Proof using SB TP ST.
  intros s x k D I N. destruct (declared_of d SB fuel t TP s x D) as (p & sk & [n a] & c & Sk & W & -> & Nc & Ic & -> & P).
  pose proof Nc as [In' [f H]]. destruct (node_inv _ _ _ _ _ H) as (f' & ty & name & li & lo & m & _ & [Ht Hn Hi Ho Hm He]).
  destruct (kids_dom _ _ I) as [[q ->]|(z & Iz & ->)]; [destruct N as [[]|[]]|]. rewrite He in Iz. cbn [e_kids node_elem elem] in Iz.
  assert (L : forall g l, g = "incoming" \/ g = "outgoing" -> dget g a = Some (VList l) -> In z (map (text_elem g) l) -> has_text (dom_of z)).
  { intros g l G E J. apply in_map_iff in J. destruct J as [q [<- J]]. apply text_has. intros ->. rewrite <- (in_node d SB _ _ _ In') in E.
    apply (proj2 (sb_lists _ SB n g l G E)). exact J. }
  apply in_app_or in Iz. destruct Iz as [Iz|Iz]; [exact (L "incoming" li (or_introl eq_refl) Hi Iz)|].
  apply in_app_or in Iz. destruct Iz as [Iz|Iz]; [exact (L "outgoing" lo (or_intror eq_refl) Ho Iz)|]. exfalso.
  assert (Q : In (local_name (e_tag z)) ("sequenceFlow" :: "participant" :: node_kinds ++ definition_kinds)).
  { destruct (more_kids _ _ _ _ _ Hm z Iz) as [(_ & ds & y & E & Iy & ->)|(_ & s0 & _ & [(na & Nz & _)|(e & Fz & _)])].
    - rewrite <- (in_node d SB _ _ _ In') in Ht. rewrite <- (in_node d SB _ _ _ In') in E. destruct (sb_definitions _ SB n ty ds y Ht E Iy) as (ts & Et & Iy').
      pose proof (event_kinds_known _ _ _ Et Iy') as K. unfold definition_element. cbn [e_tag elem]. rewrite (definition_local _ K).
      right. right. apply in_or_app. right. exact K.
    - right. destruct (node_elem_name d SB _ _ Nz) as (_ & K & _). destruct K as [K|K]; [left; exact K|right; apply in_or_app; left; exact K].
    - left. symmetry. apply (flow_elem_name d _ _ Fz). }
  assert (G : local_name (e_tag z) = "incoming" \/ local_name (e_tag z) = "outgoing") by (destruct N as [N|N]; apply named_dom in N; auto).
  generalize dependent (local_name (e_tag z)). clear. intros g Q G. simpl in Q. destruct G as [-> | ->]; intuition discriminate.
Qed.
Lemma conditions_text : forall s f k, flow_in root s f -> In k (d_kids f) -> named "conditionExpression" k -> has_text k.
Proof using SB RR TP.
  intros s f k F I N. destruct (flow_of d SB fuel t TP s f F) as (p & sk & v & c & Sk & W & -> & Fc & Ic & -> & Pr).
  destruct (kids_dom _ _ I) as [[q ->]|(z & Iz & ->)]; [destruct N|]. destruct Fc as [Iv Hc].
  destruct (view_in_edge _ _ (sb_graph _ SB) Iv) as [e [Ie R]]. assert (Ea : snd v = eat e) by (unfold reports in R; tauto). rewrite Ea in Hc.
  destruct (flow_inv _ _ Hc) as [(id & nm & sr & tr & _ & _ & _ & _ & [[_ ->]|(cid & text & Dc & ->)])]; [destruct Iz|]. cbn [e_kids elem] in Iz.
  destruct Iz as [<- |[]]. destruct text as [|ch s0]; [exfalso; exact (rr_conditions _ RR e cid Ie Dc)|]. exists (String ch s0), []. left. reflexivity.
Qed.

(** Everything on the plane has bounds, except the lines of flows. *)
Lemma plane_shapes : forall plane co cosh ps sh ed x, plane_parts d fuel t plane co cosh ps sh ed -> In x (d_kids (dom_of plane)) ->
  (d_local x = "BPMNShape" /\ has_bounds x) \/ (d_local x = "BPMNEdge" /\ exists e, In e (gedges (dgraph d)) /\ dget "id" (eat e) = Some (VStr (elt x))).
Proof using SB TP.
  intros plane co cosh ps sh ed x P Ix. rewrite (pl_kids _ _ _ _ _ _ _ _ _ P) in Ix. apply in_map_iff in Ix. destruct Ix as [k [<- I]]. apply in_app_or in I. destruct I as [I|I].
  - destruct (collaboration_inv _ _ _ (pl_collab _ _ _ _ _ _ _ _ _ P)) as [(_ & _ & ->)|(cc & ms & qs & Hc & M & Q & _ & ->)]; [destruct I|].
    apply in_app_or in I. destruct I as [I|I]; apply in_map_iff in I; destruct I as [q [<- Iq]].
    + right. destruct (rmap_out _ _ _ _ _ M q Iq) as [[m r] [_ Hm]]. destruct (message_inv _ _ _ Hm) as (v & w & G & W & ->). split; [reflexivity|].
      cbn [fst snd] in *. unfold get_flow_by_id in G. destruct (first_flow_some _ _ _ G) as [Iv Dv].
      destruct (view_in_edge _ _ (sb_graph _ SB) Iv) as [e [Ie R]]. assert (Ea : snd v = eat e) by (unfold reports in R; tauto). rewrite Ea in Dv.
      exists e. split; [exact Ie|exact Dv].
    + left. destruct (rmap_out _ _ _ _ _ Q q Iq) as [[p a] [_ Hp]]. destruct (participant_inv _ _ Hp) as (? & ? & ? & ? & _ & _ & _ & B & ->).
      split; [reflexivity|]. eapply shape_bounds; eauto.
  - apply in_app_or in I. destruct I as [I|I].
    + left. apply in_flat_map in I. destruct I as [[e sh'] [J1 J2]]. destruct (rmap_out _ _ _ _ _ (pl_procs _ _ _ _ _ _ _ _ _ P) _ J1) as [[q a] [Iq Hq]].
      destruct (process_shapes _ _ _ _ _ _ _ Hq Iq J2) as (i' & l' & _ & B). destruct (lane_shape_elt _ _ _ B) as (_ & h & w & g & u & v & _ & ->).
      split; [reflexivity|]. eexists _, _. reflexivity.
    + apply in_app_or in I. destruct I as [I|I].
      * left. destruct (rmap_out _ _ _ _ _ (pl_shapes _ _ _ _ _ _ _ _ _ P) _ I) as [[n a] [_ Hn]]. destruct (node_di_inv _ _ _ Hn) as (? & ? & B & _ & _ & ->).
        split; [reflexivity|]. eapply shape_bounds; eauto.
      * right. destruct (rmap_out _ _ _ _ _ (pl_edges _ _ _ _ _ _ _ _ _ P) _ I) as [v [Iv Hv]]. destruct (flow_di_inv _ _ Hv) as (? & ? & Dv & _ & ->).
        split; [reflexivity|]. destruct (view_in_edge _ _ (sb_graph _ SB) Iv) as [e [Ie R]]. assert (Ea : snd v = eat e) by (unfold reports in R; tauto). rewrite Ea in Dv.
        exists e. split; [exact Ie|exact Dv].
Qed.
Lemma lanes_loadable : forall plane co cosh ps sh ed, plane_parts d fuel t plane co cosh ps sh ed ->
  forall p ls r, inside p root -> named "process" p -> elements_in "laneSet" p = ls :: r ->
  forall b e, lane_part ASet ls b e -> part_loadable (dom_of plane) b e.
Proof using SB RR TP.
  intros plane co cosh ps sh ed P p ls r Ip Np El b e LP.
  destruct (process_in_root d SB fuel t TP p Ip Np) as (q & k & Pe & _ & ->). destruct Pe as (a & shp & Iq & H).
  destruct (process_inv _ _ _ _ _ H) as [(c0 & x0 & u & lx & ns & es & fs & _ & _ & _ & Lo & N & Es & Fs & E)]. cbn [fst snd] in *.
  unfold lanes_out in Lo. change k_lane_set with "laneSet" in Lo. destruct (dget "laneSet" a) as [v|] eqn:D.
  - destruct v as [| | | | | |s ls0]; try discriminate Lo. unfold export_lane_set in Lo.
    destruct (rmap _ ls0) as [qs|] eqn:Q; [|discriminate]. cbn [rbind] in Lo. injection Lo as <- _.
    assert (Els : ls = dom_of (elem k_lane_set [] (map fst qs))).
    { rewrite E, elements_dom in El. cbn [e_kids elem app flat_map] in El. injection El as <- _. reflexivity. }
    subst ls. clear El. inversion LP as [|? y ? ? Iy Ny LP'|]; subst; [split; [apply plain_dom|exact Logic.I]|].
    destruct (kids_dom _ _ Iy) as [[z ->]|(z & Iz & ->)]; [destruct Ny|]. cbn [e_kids elem] in Iz. apply in_map_iff in Iz. destruct Iz as [w [<- Iw]].
    destruct (rmap_out _ _ _ _ _ Q w Iw) as [[i l] [Il Hl]]. cbn [fst snd] in Hl.
    assert (LO : lane_of d i l) by (exists q, a, s, ls0; repeat split; auto; apply lane_here; exact Il).
    destruct (lane_inv _ _ _ Hl) as (name & child & refs & di & sub & subs & sho & -> & Sub & _ & Ew & _). rewrite Ew in *.
    assert (Kid : forall y, In y (d_kids (dom_of (elem "lane" [("id", VStr i); ("name", VStr name)] (sub ++ map (text_elem "flowNodeRef") refs)))) ->
      named "laneSet" y \/ named "flowNodeRef" y /\ has_text y).
    { intros y' J. destruct (kids_dom _ _ J) as [[z ->]|(z & Jz & ->)]; [cbn in J; apply in_map_iff in J; destruct J as [[g' a' x' t' k'] [J _]]; discriminate|].
      cbn [e_kids elem] in Jz. apply in_app_or in Jz. destruct Jz as [Jz|Jz].
      - left. destruct Sub as [-> |[ks ->]]; [destruct Jz|]. destruct Jz as [<- |[]]. reflexivity.
      - right. apply in_map_iff in Jz. destruct Jz as [s' [<- Js]]. split; [reflexivity|]. apply text_has. intros ->. exact (rr_references _ RR _ _ _ _ _ LO Js). }
    inversion LP' as [| |? y ? ? Jy Nyy LP'']; subst.
    + split; [apply plain_dom|]. split.
      * intros y' J Ny'. destruct (Kid y' J) as [K|[_ K]]; [|exact K]. destruct y' as [g' a' k'| |]; [|destruct K|destruct K]. cbn in K, Ny'. congruence.
      * change (get_attribute "id" (dom_of (elem "lane" [("id", VStr i); ("name", VStr name)] (sub ++ map (text_elem "flowNodeRef") refs)))) with i.
        intros s' Hs. unfold shape_for in Hs. apply last_in in Hs. apply filter_In in Hs. destruct Hs as [Js Rs].
        destruct (plane_shapes _ _ _ _ _ _ s' P Js) as [[_ B]|[_ (e' & Ie & De)]]; [exact B|]. exfalso.
        apply (rr_lanes _ RR _ _ e' LO Ie). rewrite De. do 2 f_equal. destruct s' as [g' a' k'| |]; try discriminate. cbn [refers] in Rs. apply String.eqb_eq in Rs. exact Rs.
    + exfalso. destruct (Kid y Jy) as [K|[K _]]; destruct y as [g' a' k'| |]; try contradiction; cbn in K, Nyy; congruence.
  - injection Lo as <- _. exfalso.
    assert (I : In ls (elements_in "laneSet" (dom_of k))) by (rewrite El; left; reflexivity). rewrite elements_dom in I. apply in_flat_map in I. destruct I as [c [Ic If]].
    assert (J : inside ls (dom_of c) /\ named "laneSet" ls).
    { apply in_document. unfold document_elements. unfold found in If. destruct c as [g b' tx tl ks]. exact If. }
    destruct J as [J Nx]. rewrite E in Ic. cbn [e_kids elem app] in Ic.
    apply in_app_or in Ic. destruct Ic as [Ic|Ic].
    + destruct (rmap_out _ _ _ _ _ Es c Ic) as [na [J1 J2]]. apply (nodes_by_process _ _ _ N) in J1. destruct J1 as [J1 _].
      pose proof (fine_inside _ _ (fine_node_tags d SB na c (conj J1 (ex_intro _ _ J2))) _ _ J Nx) as Q. simpl in Q. intuition discriminate.
    + destruct (rmap_out _ _ _ _ _ Fs c Ic) as [e' [J1 J2]]. apply flows_by_process in J1. destruct J1 as [J1 _].
      pose proof (fine_inside _ _ (fine_flow_tags d e' c (conj J1 J2)) _ _ J Nx) as Q. simpl in Q. intuition discriminate.
Qed.
Lemma exported_loadable : exists dia plane r1 r2, document_elements "BPMNDiagram" root = dia :: r1 /\ elements_in "BPMNPlane" dia = plane :: r2 /\ loadable root plane.
Proof using SB CP RR TP ST.
  assert (H : exists de pe r1 r2, document_elements "BPMNDiagram" root = de :: r1 /\ elements_in "BPMNPlane" de = pe :: r2).
  { destruct (tree_inv _ _ _ TP) as [(did & dname & plid & plel & co & cosh & ps & sh & ed & _ & _ & _ & _ & _ & _ & _ & _ & ->)].
    eexists _, _, _, _. split; [reflexivity|]. reflexivity. }
  destruct H as (de & pe & r1 & r2 & H1 & H2). exists de, pe, r1, r2. split; [exact H1|]. split; [exact H2|].
  assert (HD : heads root de pe) by (split; [rewrite H1|rewrite H2]; reflexivity).
  destruct (plane_of d fuel t TP de pe HD) as (dia & plane & co & cosh & ps & sh & ed & Ed & Ep & _ & _ & _ & P). subst de pe. constructor.
  - intros e W. destruct W as [s S|s x (S & I & _)|s x (S & I & _)|c C|g p q1 q2 Q1 Q2].
    + destruct (scope_of d SB fuel t TP s S) as (p & k & _ & _ & ->). apply plain_dom.
    + destruct (scope_of d SB fuel t TP s S) as (p & k & _ & _ & ->). eapply plain_kid; eauto.
    + destruct (scope_of d SB fuel t TP s S) as (p & k & _ & _ & ->). eapply plain_kid; eauto.
    + destruct (collab_of d SB fuel t TP c C) as (cc & ms & qs & k & _ & _ & _ & _ & _ & ->). apply plain_dom.
    + rewrite H1 in Q1. injection Q1 as <- _. rewrite H2 in Q2. injection Q2 as <- _. apply plain_dom.
  - exact lists_text.
  - exact conditions_text.
  - exact (lanes_loadable _ _ _ _ _ _ P).
  - intros x I N. split.
    + destruct (plane_shapes _ _ _ _ _ _ x P I) as [[_ B]|[B _]]; [exact B|]. exfalso. destruct x as [g a k| |]; try contradiction. cbn in N, B. congruence.
    + intros M. apply node_introduced. apply mentioned_node. exact M.
Qed.
End Round.
