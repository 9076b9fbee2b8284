(** A diagram and what is read back after it was saved. *)
From Coq Require Import String List Bool Arith Lia Permutation.
From Verif Require Import Py PyFacts Consts Nx NxFacts Rep SpecRep RepFacts CsvRegex CsvImport CsvFacts Xml Export Import XmlOps
  ImportFacts SpecXml XmlScopes ActionFacts DiFacts LoadFacts Prop_XmlImport XmlLayout Prop_XmlLayout ExportFacts ExportTree Prop_XmlExported
  SpecRound ExportScopes RoundNodes RoundLoad RoundBack Prop_XmlRound Prop_XmlDrawn LayoutMetrics SpecLayoutMetrics Prop_LayoutMetrics SpecSame SameFacts.
Import ListNotations.
Open Scope string_scope.
Open Scope list_scope.

(** * Participants without a process *)
Lemma loaded_part : forall so root de pe d mid d', loaded so root de pe d mid d' ->
  forall y, participant_in root y -> get_attribute "processRef" y = "" ->
  (forall s x, declared root s x -> eid x <> eid y) -> attr d' (eid y) "type" = Some (VStr "participant").
Proof.
  intros so root de pe d mid d' [_ E _ D _] y Hy Ry Hx. set (n := eid y) in *.
  destruct (last_split _ (part_action n) (core_actions root)) as (A1 & a & A2 & EA & Ha & Last).
  { apply existsb_exists. exists (APart y). split; [apply participant_action; exact Hy|]. cbn [part_action]. rewrite Ry. unfold n. rewrite !eqb_refl'. reflexivity. }
  destruct a as [e|o e|o e| |e|e|e]; try discriminate.
  rewrite (ds_attr _ _ _ _ D). rewrite shapes_other by (simpl; intuition discriminate).
  rewrite (es_attr _ _ _ _ _ E) by discriminate. rewrite EA, fold_left_app. cbn [fold_left].
  rewrite attr_effs_other; [|simpl; intuition discriminate| |exact Last].
  - cbn [ActionFacts.attr_eff]. cbn [part_action] in Ha. rewrite Ha. reflexivity.
  - intros b Hb. destruct (node_action n b) eqn:Pb; [|reflexivity]. exfalso.
    destruct b as [c|oo c|oo c| |c|c|c]; try discriminate. cbn [node_action] in Pb. apply String.eqb_eq in Pb.
    assert (Pc : explained root (ANode oo c)).
    { eapply Forall_forall; [apply core_explained|]. rewrite EA. apply in_or_app. right. right. exact Hb. }
    destruct Pc as [s [Q1 _]]. apply (Hx _ _ Q1). symmetry. exact Pb.
Qed.
Lemma round_gwf : forall so fuel d d', storable d -> round_trip so fuel d d' -> gwf (dgraph d').
Proof.
  intros so fuel d d' SB R. destruct (round_dom so fuel d d' SB R) as (t & TP & ST & LD).
  pose proof (gwf_load so (dom_of t) empty_diagram gwf_empty) as W. rewrite LD in W. exact W.
Qed.
Lemma round_types : forall so fuel d d', any_order so -> storable d -> complete d -> round_trip so fuel d d' ->
  forall n, attr d' n "type" = attr d n "type".
Proof.
  intros so fuel d d' Po SB CP R n. pose proof (C34_same_nodes so fuel d d' SB CP R n) as N.
  destruct (in_dec string_dec n (map fst (gnodes (dgraph d)))) as [I|I].
  - destruct (proj1 (cp_nodes _ CP n) I) as [IP|(c & a & Hc & Ia & Ra)].
    + destruct (C34_nodes so fuel d d' n Po SB R IP) as (_ & _ & T & _). exact T.
    + destruct (sb_types _ SB n I) as (t0 & T & K).
      assert (t0 = "participant").
      { destruct K as [<-|K]; [reflexivity|]. exfalso. eapply (sb_participants _ SB); eauto. }
      subst t0. rewrite T. destruct (round_dom so fuel d d' SB R) as (t & TP & ST & LD). destruct (load_loaded _ _ _ _ LD) as (de & pe & mid & L).
      destruct (participant_there d SB fuel t TP ST c n a Hc Ia) as (y & Py & Iy & Ry & _). rewrite Ra in Ry. injection Ry as Ry.
      rewrite <- Iy. apply (loaded_part so (dom_of t) de pe empty_diagram mid d' L y Py (eq_sym Ry)).
      intros s x D E. destruct (declared_of d SB fuel t TP _ _ D) as (p & k & [m b] & z & Sk & W & -> & Nc & Ic & -> & P).
      destruct (node_elem_name d SB _ _ Nc) as (Tm & _ & Id & _). cbn [fst snd] in *.
      change (eid y) with (get_attribute "id" y) in E. change (eid (dom_of z)) with (get_attribute "id" (dom_of z)) in E.
      rewrite (get_dom _ _ _ Id) in E. rewrite Iy in E. cbn [string_of] in E. subst m.
      destruct Nc as [Im _]. rewrite <- (in_node d SB _ _ _ Im) in Tm. refine (sb_participants _ SB _ _ _ _ Hc Ia Ra Tm _).
      destruct D as (_ & _ & w & Iw & Nw). apply named_dom in Nw. rewrite Nw. exact Iw.
  - destruct (attr d n "type") as [v|] eqn:A; [exfalso; apply I; eapply is_node_attr; eauto|].
    destruct (attr d' n "type") as [v|] eqn:A'; auto. exfalso. apply I. apply N. eapply is_node_attr; eauto.
Qed.
Lemma round_shape : forall so fuel d d', any_order so -> storable d -> complete d -> round_trip so fuel d d' -> same_shape d d'.
Proof.
  intros so fuel d d' Po SB CP R. constructor.
  - apply (C34_same_nodes so fuel d d' SB CP R).
  - apply (round_types so fuel d d' Po SB CP R).
  - apply (C35_same_connections so fuel d d' SB CP R).
Qed.
Lemma link_pair : forall d u v u' v' k x, same_pair u v u' v' -> link_attr d u v k x -> link_attr d u' v' k x.
Proof. intros d u v u' v' k x S (e & I & J & D). exists e. split; [exact I|]. split; [eapply same_pair_tr; eauto|exact D]. Qed.
Lemma round_lines : forall so fuel d d', storable d -> complete d -> round_trip so fuel d d' -> same_lines d d'.
Proof.
  intros so fuel d d' SB CP R. constructor; [apply (C35_same_connections so fuel d d' SB CP R)|].
  intros u v l (e & I & S & D). destruct (cp_flows _ CP e I) as [(p & P & Pl)|(c & m & r & Hc & Im & Sr)].
  - destruct (sb_flows _ SB e p I P) as (f & a & b & FE & Sp & _).
    destruct (C39_flows so fuel d d' e f a b p SB R I FE Pl) as (l' & [Q|[Q _]] & L); rewrite D in Q; [|discriminate]. inv Q.
    eapply link_pair; [|exact L]. eapply same_pair_tr; [apply same_pair_swap; exact Sp|exact S].
  - destruct (C39_messages so fuel d d' c m r SB CP R Hc Im) as (e' & l' & I' & S' & Q & L).
    assert (e' = e).
    { apply (gwf_unique (dgraph d)); auto; [apply (sb_graph _ SB)|]. apply connects_same. eapply same_pair_tr; [exact S'|apply same_pair_swap; exact Sr]. }
    subst e'. destruct Q as [Q|[Q _]]; rewrite D in Q; [|discriminate]. inv Q.
    eapply link_pair; [|exact L]. eapply same_pair_tr; [apply same_pair_swap; exact Sr|exact S].
Qed.

(** * Following flows *)
Definition all_ids (d : diagram) : Prop :=
  (forall e, In e (gedges (dgraph d)) -> exists f, dget "id" (eat e) = Some (VStr f)) /\
  (forall e e' f, In e (gedges (dgraph d)) -> In e' (gedges (dgraph d)) -> dget "id" (eat e) = Some (VStr f) -> dget "id" (eat e') = Some (VStr f) -> e = e').
Lemma first_find : forall l f, (forall t, In t l -> exists g, dget "id" (snd t) = Some (VStr g)) -> first_flow f l = Ok (find (id_is f) l).
Proof.
  induction l as [|t l IH]; intros f H; auto. cbn [first_flow find]. destruct (H t (or_introl eq_refl)) as [g Hg].
  unfold dgetE. change k_id with "id". rewrite Hg. cbn [rbind]. unfold id_is at 1. rewrite Hg. destruct (veqs (VStr g) f) eqn:V; auto.
  apply IH. intros x I. apply H. right. exact I.
Qed.
Lemma leads_edge : forall d f m, gwf (dgraph d) -> all_ids d ->
  (leads_to d f m <-> exists e, In e (gedges (dgraph d)) /\ dget "id" (eat e) = Some (VStr f) /\ dget "targetRef" (eat e) = Some (VStr m)).
Proof.
  intros d f m W [A U]. unfold leads_to, get_flow_by_id, get_flows.
  assert (V : forall t, In t (edges_view (dgraph d)) -> exists e, In e (gedges (dgraph d)) /\ eat e = snd t).
  { destruct (edges_view_reports (dgraph d) W) as (l & P & F). intros t I. destruct (Forall2_in_l _ _ _ _ _ _ F I) as (e & Ie & Re & _). exists e.
    split; [eapply Permutation_in; [exact P|exact Ie]|]. symmetry. exact Re. }
  rewrite first_find.
  2:{ intros t I. destruct (V t I) as (e & Ie & E). rewrite <- E. apply A. exact Ie. }
  split.
  - intros (t & Et & T). inv Et. apply find_some in H0. destruct H0 as [I B]. destruct (V t I) as (e & Ie & E).
    exists e. split; [exact Ie|]. rewrite E. split; [|exact T]. unfold id_is in B. destruct (A e Ie) as [g G]. rewrite E in G. rewrite G in *.
    simpl in B. apply String.eqb_eq in B. subst. reflexivity.
  - intros (e & Ie & Id & T). destruct (edge_in_view _ _ W Ie) as (t & It & Ea & _).
    destruct (find (id_is f) (edges_view (dgraph d))) as [t'|] eqn:Ef.
    + exists t'. split; [reflexivity|]. apply find_some in Ef. destruct Ef as [I B]. destruct (V t' I) as (e' & Ie' & E).
      assert (e' = e); [|subst; rewrite <- E; exact T]. destruct (A e' Ie') as [g G]. apply (U e' e f Ie' Ie); [|exact Id].
      rewrite E in *. unfold id_is in B. rewrite G in *. simpl in B. apply String.eqb_eq in B. subst. reflexivity.
    + exfalso. pose proof (find_none _ _ Ef t It) as C. unfold id_is in C. rewrite Ea, Id in C. simpl in C. rewrite eqb_refl' in C. discriminate.
Qed.
(** Ids and targets of connections are the same. *)
Lemma same_leads : forall d d', gwf (dgraph d) -> gwf (dgraph d') -> all_ids d -> (forall u v, linked d' u v <-> linked d u v) ->
  (forall e, In e (gedges (dgraph d)) -> exists m, dget "targetRef" (eat e) = Some (VStr m)) ->
  (forall u v k x, k = "id" \/ k = "targetRef" -> link_attr d u v k x -> link_attr d' u v k x) ->
  forall f m, leads_to d' f m <-> leads_to d f m.
Proof.
  intros d d' W W' [A U] L T K.
  assert (M : forall e', In e' (gedges (dgraph d')) -> exists e, In e (gedges (dgraph d)) /\ same_pair (eu e) (ev e) (eu e') (ev e') /\
            forall k, k = "id" \/ k = "targetRef" -> dget k (eat e') = dget k (eat e)).
  { intros e' I'. destruct (proj1 (L (eu e') (ev e'))) as (e & I & S); [exists e'; split; [exact I'|apply same_pair_refl]|].
    exists e. split; [exact I|]. split; [exact S|]. intros k Hk.
    assert (Q : exists x, dget k (eat e) = Some x) by (destruct Hk as [-> | ->]; [destruct (A e I)|destruct (T e I)]; eauto).
    destruct Q as [x Q]. destruct (K (eu e') (ev e') k x Hk) as (e2 & I2 & S2 & D2); [exists e; auto|].
    assert (e2 = e') by (apply (gwf_unique (dgraph d')); auto; apply connects_same; exact S2). subst. congruence. }
  assert (A' : all_ids d').
  { split.
    - intros e' I'. destruct (M e' I') as (e & I & _ & Q). rewrite (Q "id") by auto. apply A. exact I.
    - intros e1 e2 f I1 I2 D1 D2. destruct (M e1 I1) as (a & Ia & Sa & Qa). destruct (M e2 I2) as (b & Ib & Sb & Qb).
      rewrite (Qa "id") in D1 by auto. rewrite (Qb "id") in D2 by auto. pose proof (U a b f Ia Ib D1 D2). subst b.
      apply (gwf_unique (dgraph d')); auto. apply connects_same. eapply same_pair_tr; [apply same_pair_swap; exact Sa|exact Sb]. }
  intros f m. rewrite (leads_edge d' f m W' A'), (leads_edge d f m W (conj A U)). split.
  - intros (e' & I' & D1 & D2). destruct (M e' I') as (e & I & _ & Q). exists e. rewrite <- !Q by auto. auto.
  - intros (e & I & D1 & D2). destruct (K (eu e) (ev e) "id" (VStr f) (or_introl eq_refl)) as (e' & I' & S' & D'); [exists e; split; [exact I|split; [apply same_pair_refl|exact D1]]|].
    exists e'. split; [exact I'|]. split; [exact D'|].
    destruct (K (eu e) (ev e) "targetRef" (VStr m) (or_intror eq_refl)) as (e2 & I2 & S2 & E2); [exists e; split; [exact I|split; [apply same_pair_refl|exact D2]]|].
    assert (e2 = e') by (apply (gwf_unique (dgraph d')); auto; apply connects_same; eapply same_pair_tr; [exact S2|apply same_pair_swap; exact S']).
    subst. exact E2.
Qed.
(** Saved connections. *)
Lemma saved_edge : forall so fuel d d', storable d -> complete d -> messages_aimed d -> round_trip so fuel d d' ->
  forall e, In e (gedges (dgraph d)) -> exists f u v, same_pair (eu e) (ev e) u v /\ dget "id" (eat e) = Some (VStr f) /\ dget "targetRef" (eat e) = Some (VStr v) /\
    link_attr d' u v "id" (VStr f) /\ link_attr d' u v "targetRef" (VStr v).
Proof.
  intros so fuel d d' SB CP MA R e I. destruct (cp_flows _ CP e I) as [(p & P & Pl)|(c & m & r & Hc & Im & Sr)].
  - destruct (sb_flows _ SB e p I P) as (f & a & b & FE & Sp & _). destruct (C35_flows so fuel d d' e f a b p SB R I FE Pl) as (L1 & _ & _ & L2 & _).
    destruct FE as (F1 & _ & F2 & _). exists f, a, b. auto 6.
  - destruct (C73_messages so fuel d d' c m r SB CP R Hc Im) as (L1 & _ & L2 & _).
    destruct (cp_messages _ CP c m r Hc Im) as (e1 & I1 & S1 & D1). destruct (MA c m r Hc Im) as (e2 & I2 & S2 & D2).
    assert (e1 = e) by (apply (gwf_unique (dgraph d)); auto; [apply (sb_graph _ SB)|]; apply connects_same; eapply same_pair_tr; [exact S1|apply same_pair_swap; exact Sr]).
    assert (e2 = e) by (apply (gwf_unique (dgraph d)); auto; [apply (sb_graph _ SB)|]; apply connects_same; eapply same_pair_tr; [exact S2|apply same_pair_swap; exact Sr]).
    subst. exists m, (fl_src r), (fl_tgt r). auto 6.
Qed.
Lemma round_leads : forall so fuel d d', storable d -> complete d -> messages_aimed d -> round_trip so fuel d d' ->
  forall f m, leads_to d' f m <-> leads_to d f m.
Proof.
  intros so fuel d d' SB CP MA R. pose proof (saved_edge so fuel d d' SB CP MA R) as SE. apply same_leads.
  - apply (sb_graph _ SB).
  - apply (round_gwf so fuel d d' SB R).
  - split; [|apply (sb_edge_ids _ SB)]. intros e I. destruct (SE e I) as (f & u & v & _ & D & _). eauto.
  - apply (C35_same_connections so fuel d d' SB CP R).
  - intros e I. destruct (SE e I) as (f & u & v & _ & _ & D & _). eauto.
  - intros u v k x Hk (e & I & S & D). destruct (SE e I) as (f & a & b & S' & D1 & D2 & L1 & L2).
    assert (SP : same_pair a b u v) by (eapply same_pair_tr; [apply same_pair_swap; exact S'|exact S]).
    destruct Hk as [-> | ->]; [rewrite D1 in D|rewrite D2 in D]; inv D; (eapply link_pair; [exact SP|assumption]).
Qed.
Lemma round_lists : forall so fuel d d', storable d -> complete d -> (forall n, is_node d n -> in_process d n) -> round_trip so fuel d d' ->
  forall n k, k = "incoming" \/ k = "outgoing" -> attr d' n k = attr d n k.
Proof.
  intros so fuel d d' SB CP AP R n k Hk. destruct (in_dec string_dec n (map fst (gnodes (dgraph d)))) as [I|I].
  - destruct (C34_flow_lists so fuel d d' n SB R (AP n I)) as [A B]. destruct Hk as [-> | ->]; assumption.
  - destruct (attr d n k) as [v|] eqn:A; [exfalso; apply I; eapply is_node_attr; eauto|].
    destruct (attr d' n k) as [v|] eqn:A'; auto. exfalso. apply I. apply (C34_same_nodes so fuel d d' SB CP R n). eapply is_node_attr; eauto.
Qed.
Lemma round_ways : forall so fuel d d', any_order so -> storable d -> complete d -> messages_aimed d -> (forall n, is_node d n -> in_process d n) ->
  round_trip so fuel d d' -> same_ways d d' /\ (consistent d -> consistent d').
Proof.
  intros so fuel d d' Po SB CP MA AP R. pose proof (round_lists so fuel d d' SB CP AP R) as Ls. pose proof (round_leads so fuel d d' SB CP MA R) as Ld.
  pose proof (round_types so fuel d d' Po SB CP R) as Ty. pose proof (C34_same_nodes so fuel d d' SB CP R) as Nd.
  assert (Out : forall n, outgoing_of d' n = outgoing_of d n) by (intros n; unfold outgoing_of; rewrite Ls by auto; reflexivity).
  assert (Inc : forall n, incoming_of d' n = incoming_of d n) by (intros n; unfold incoming_of; rewrite Ls by auto; reflexivity).
  split.
  - constructor; auto.
    + intros n. rewrite Inc. reflexivity.
    + intros n. rewrite Out. reflexivity.
    + intros n m. unfold next. rewrite Out. split; intros (f & I & L); exists f; (split; [exact I|]); apply Ld; exact L.
  - intros (_ & C2 & C3). split; [apply (gwf_nodup _ (round_gwf so fuel d d' SB R))|]. split.
    + intros n I. rewrite !Ls, Ty by auto. apply C2. apply Nd. exact I.
    + intros n f I. rewrite Out in I. destruct (C3 n f I) as (m & L & N). exists m. split; [apply Ld; exact L|apply Nd; exact N].
Qed.
