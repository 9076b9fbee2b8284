(** Writing a diagram to XML and reading it back. *)
From Coq Require Import String List Bool Arith Lia Permutation.
From Verif Require Import Py PyFacts Consts Nx NxFacts Rep SpecRep RepFacts CsvRegex CsvImport CsvFacts Xml Export Import XmlOps
  ImportFacts SpecXml XmlScopes ActionFacts DiFacts LoadFacts Prop_XmlImport XmlLayout Prop_XmlLayout ExportFacts ExportTree Prop_XmlExported
  SpecRound ExportScopes RoundNodes RoundLoad RoundBack RoundDemo.
Import ListNotations.
Open Scope string_scope.
Open Scope list_scope.

Definition any_order (set_order : list string -> list string) : Prop := forall l, Permutation (set_order l) l.

(** * C34: nodes *)
Lemma in_process_declared : forall fuel d t n, storable d -> export_tree fuel d = Ok t -> strings t -> in_process d n ->
  exists a p k c tt, In (n, a) (gnodes (dgraph d)) /\ attr d n "process" = Some (VStr p) /\ scope_elem d fuel p k /\ is_node_elem d (n, a) c /\
    element_of n a tt c /\ declared (dom_of t) (dom_of k) (dom_of c).
Proof.
  intros fuel d t n SB TP ST (tt & p & T & K & P & Pl). destruct (declared_node d SB fuel t TP n p tt T K P Pl) as (a & k & c & I & Sk & W & Nc & Ic & D).
  destruct (element_node d SB t ST n a c Nc W) as [tt' E].
  { rewrite <- (in_node d SB _ _ _ I). intros Q. rewrite T in Q. inv Q. simpl in K. intuition discriminate. }
  exists a, p, k, c, tt'. repeat (split; [assumption|]). assumption.
Qed.
Lemma declared_described : forall so fuel d d' t s x, any_order so -> storable d -> export_tree fuel d = Ok t -> strings t ->
  load_diagram_from_xml so (dom_of t) empty_diagram = (d', Ok tt) -> declared (dom_of t) s x -> described d' s x.
Proof.
  intros so fuel d d' t s x Po SB TP ST LD D. eapply C44_attributes; eauto.
  - intros s' x' D' E. destruct (declared_unique d SB fuel t TP _ _ _ _ D D' (eq_sym E)). auto.
  - intros y Py R E. destruct (participant_of d SB fuel t TP ST y Py) as (cc & q & b & Hc & Ib & Iq & Rq & _). rewrite R in Rq.
    destruct (declared_of d SB fuel t TP _ _ D) as (p & k & [n a] & c & Sk & W & -> & Nc & Ic & -> & P).
    destruct (node_elem_name d SB _ _ Nc) as (T & _ & Id & _). cbn [fst snd] in *. rewrite (get_dom _ _ _ Id) in E.
    destruct Nc as [I _]. rewrite <- (in_node d SB _ _ _ I) in T. rewrite Iq in E. subst q. refine (sb_participants _ SB _ _ _ _ Hc Ib Rq T _).
    destruct D as (_ & _ & z & Iz & Nz). apply named_dom in Nz. rewrite Nz. exact Iz.
Qed.

Theorem C34_nodes : forall set_order fuel d d' n, any_order set_order -> storable d -> round_trip set_order fuel d d' -> in_process d n ->
  is_node d' n /\ attr d' n "id" = Some (VStr n) /\
  kept d d' n "type" /\ kept d d' n "node_name" /\ kept d d' n "process" /\
  forall t, attr d n "type" = Some (VStr t) ->
    (forall k, In k (own_attributes t) -> kept d d' n k) /\
    (has_default t = true -> attr d' n "default" = Some (default_of d n)) /\
    (has_definitions t = true -> exists l, attr d' n "event_definitions" = Some (VDefs l) /\ Permutation l (definitions_of d n)).
Proof.
  intros so fuel d d' n Po SB R IP. destruct (round_dom so fuel d d' SB R) as (t & TP & ST & LD).
  destruct (in_process_declared fuel d t n SB TP ST IP) as (a & p & k & c & tt & I & P & Sk & Nc & E & D).
  pose proof (declared_described so fuel d d' t _ _ Po SB TP ST LD D) as Q. unfold described in Q. cbv zeta in Q.
  rewrite (eo_id _ _ _ _ E) in Q. destruct Q as (Q1 & Q2 & Q3 & Q4 & Q5 & Q6). rewrite (eo_local _ _ _ _ E) in Q2.
  rewrite (scope_id d SB fuel _ _ Sk) in Q4. unfold kept. rewrite Q2, Q3, Q4, P.
  split.
  { refine (proj2 (C42_nodes _ _ _ _ LD n) _). right. left. exists (dom_of k), (dom_of c). split; [exact D|apply (eo_id _ _ _ _ E)]. }
  split; [exact Q1|]. rewrite !(in_node d SB _ _ _ I). rewrite (eo_type _ _ _ _ E). split; [reflexivity|]. split; [symmetry; apply (eo_name _ _ _ _ E)|].
  split; [reflexivity|]. intros t' T. inv T. split; [|split].
  - intros j J. destruct (eo_own _ _ _ _ E j J) as (v & V1 & V2). rewrite (in_node d SB _ _ _ I), V1. apply Q5. exact V2.
  - intros Hd. unfold default_of. rewrite (in_node d SB _ _ _ I). apply Q5. apply (eo_default _ _ _ _ E Hd).
  - intros Hd. destruct (eo_defs _ _ _ _ E Hd) as (ts & Et & Pt). destruct (Q6 ts Et) as (l & Al & Pl). exists l. split; [exact Al|].
    eapply perm_trans; [exact Pl|]. eapply perm_trans; [exact Pt|]. unfold definitions_of. rewrite (in_node d SB _ _ _ I). unfold get_or_none.
    destruct (dget "event_definitions" a) as [[]|]; cbn [defs_of]; apply Permutation_refl.
Qed.

(** The lists of incoming and outgoing flows come back unchanged. *)
Lemma list_back : forall so fuel d d' n out, storable d -> round_trip so fuel d d' -> in_process d n -> kept d d' n (list_key out).
Proof.
  intros so fuel d d' n out SB R IP. destruct (round_dom so fuel d d' SB R) as (t & TP & ST & LD).
  destruct (in_process_declared fuel d t n SB TP ST IP) as (a & p & k & c & tt & I & P & Sk & Nc & E & D).
  destruct (lists_clean_both out so (dom_of t) empty_diagram d' _ _ LD D) as (r & Al & Nd & Or).
  { intros s' y D' Ey. destruct (declared_unique d SB fuel t TP _ _ _ _ D D' (eq_sym Ey)). auto. }
  rewrite (eo_id _ _ _ _ E) in *. unfold kept. rewrite Al.
  assert (L : attr d n (list_key out) = Some (VList (child_texts (list_key out) (dom_of c)))).
  { rewrite (in_node d SB _ _ _ I). destruct out; [apply (eo_out _ _ _ _ E)|apply (eo_in _ _ _ _ E)]. }
  assert (N : NoDup (child_texts (list_key out) (dom_of c))).
  { eapply (sb_lists _ SB n (list_key out)); [destruct out; auto|exact L]. }
  specialize (Nd N). rewrite L. destruct r as [|g r]; [rewrite app_nil_r; reflexivity|]. exfalso.
  assert (Ng : ~ In g (child_texts (list_key out) (dom_of c))).
  { intros Q. apply NoDup_remove_2 in Nd. apply Nd. apply in_or_app. left. exact Q. }
  apply Ng. destruct (Or g (or_introl eq_refl)) as [(s & f & F & Ef & Ig)|[(f & F & Ef & Ig)|Q]]; [| |exact Q].
  - destruct (flow_declared_edge d SB fuel t TP ST s f F) as (e & q & k' & c' & Ie & Pe & _ & _ & -> & X).
    destruct (sb_flows _ SB e q Ie Pe) as (f & u & v & (F1 & F2 & F3 & _) & _ & Ou & Iv).
    pose proof (fe_id _ _ X) as G1. pose proof (fe_src _ _ X) as G2. pose proof (fe_tgt _ _ X) as G3. rewrite F1 in G1. rewrite F2 in G2. rewrite F3 in G3.
    injection G1 as G1. injection G2 as G2. injection G3 as G3. rewrite G1, Ig in Ou, Iv. destruct out; cbn [end_of list_key] in *.
    + unfold outgoing_of in Ou. rewrite G2, Ef, L in Ou. exact Ou.
    + unfold incoming_of in Iv. rewrite G3, Ef, L in Iv. exact Iv.
  - destruct (message_of d SB fuel t TP f F) as (cc & m & rr & Hc & Im & Id & Sr & Tr & _).
    destruct (sb_messages _ SB _ _ _ Hc Im) as (Ou & Iv & _). rewrite <- Id, Ig, <- Sr in Ou. rewrite <- Id, Ig, <- Tr in Iv.
    destruct out; cbn [end_of list_key] in *.
    + unfold outgoing_of in Ou. rewrite Ef, L in Ou. exact Ou.
    + unfold incoming_of in Iv. rewrite Ef, L in Iv. exact Iv.
Qed.
Theorem C34_flow_lists : forall set_order fuel d d' n, storable d -> round_trip set_order fuel d d' -> in_process d n ->
  kept d d' n "incoming" /\ kept d d' n "outgoing".
Proof. intros so fuel d d' n SB R IP. split; [apply (list_back so fuel d d' n false)|apply (list_back so fuel d d' n true)]; assumption. Qed.

(** A subprocess lists the nodes that stand in it. *)
Theorem C34_subprocess : forall set_order fuel d d' n, storable d -> round_trip set_order fuel d d' -> in_process d n ->
  attr d n "type" = Some (VStr "subProcess") -> attr d' n "node_ids" = Some (VList (nodes_in d n)).
Proof.
  intros so fuel d d' n SB R IP T. destruct (round_dom so fuel d d' SB R) as (t & TP & ST & LD).
  destruct IP as (tt & p & T' & K & P & Pl). rewrite T in T'. inv T'. destruct (placed_scope d SB fuel t TP n) as (k & Sk & W & Sc).
  { eapply placed_sub; eauto. }
  assert (Nk : named "subProcess" (dom_of k)).
  { destruct Sk as [(b & sh & J & _)|Se]; [exfalso; apply (proj2 (sb_subs _ SB n T)); apply in_map_iff; exists (n, b); auto|].
    apply named_dom. rewrite (proj1 (sub_name d SB _ _ Se)). reflexivity. }
  pose proof (C70_subprocess_lists so (dom_of t) empty_diagram d' (dom_of k) LD Sc Nk) as Q.
  rewrite (scope_id d SB fuel _ _ Sk), (scope_nodes d SB fuel _ _ Sk) in Q. apply Q.
  intros y Sy Ny Ey. destruct (scope_of d SB fuel t TP y Sy) as (q & k' & Sk' & _ & ->). rewrite (scope_id d SB fuel _ _ Sk') in Ey. subst q.
  rewrite (scope_unique d SB fuel _ _ _ Sk Sk'). reflexivity.
Qed.

(** No node is lost and none appears. *)
Theorem C34_same_nodes : forall set_order fuel d d', storable d -> complete d -> round_trip set_order fuel d d' ->
  forall n, is_node d' n <-> is_node d n.
Proof.
  intros so fuel d d' SB CP R n. destruct (round_dom so fuel d d' SB R) as (t & TP & ST & LD).
  pose proof (C42_nodes _ _ _ _ LD n) as Q.
  assert (Ends : forall e u v, In e (gedges (dgraph d)) -> same_pair (eu e) (ev e) u v -> is_node d u /\ is_node d v).
  { intros e u v Ie S. destruct (gwf_ends _ (sb_graph _ SB) e Ie) as [A B]. unfold is_node. destruct S as [[<- <-]|[<- <-]]; auto. }
  split.
  - intros N. apply Q in N. destruct N as [[]|[(s & x & D & <-)|[(s & f & F & Ef)|[(y & Py & Ry & Iy)|(f & F & Ef)]]]].
    + destruct (declared_of d SB fuel t TP _ _ D) as (p & k & [m a] & c & Sk & W & _ & Nc & Ic & -> & _).
      destruct (node_elem_name d SB _ _ Nc) as (_ & _ & Id & _). cbn [fst] in Id. rewrite (get_dom _ _ _ Id). destruct Nc as [I _]. eapply in_is_node; eauto.
    + destruct (flow_declared_edge d SB fuel t TP ST s f F) as (e & q & k' & c' & Ie & Pe & _ & _ & -> & X).
      destruct (sb_flows _ SB e q Ie Pe) as (f & u & v & (F1 & F2 & F3 & _) & S & _).
      pose proof (fe_src _ _ X) as G2. pose proof (fe_tgt _ _ X) as G3. rewrite F2 in G2. rewrite F3 in G3. inv G2. inv G3.
      destruct (Ends e _ _ Ie S) as [A B]. destruct Ef as [<- | <-]; assumption.
    + destruct (participant_of d SB fuel t TP ST y Py) as (cc & q & b & Hc & Ib & Iq & Rq & _). rewrite Ry in Rq. rewrite Iy in Iq. subst q.
      apply (cp_nodes _ CP). right. exists cc, b. auto.
    + destruct (message_of d SB fuel t TP f F) as (cc & m & rr & Hc & Im & Id & Sr & Tr & _).
      destruct (cp_messages _ CP _ _ _ Hc Im) as (e & Ie & S & _). destruct (Ends e _ _ Ie S) as [A B]. rewrite Sr, Tr in Ef. destruct Ef as [<- | <-]; assumption.
  - intros N. apply Q. right. apply (cp_nodes _ CP) in N. destruct N as [IP|(cc & b & Hc & Ib & Rb)].
    + destruct (in_process_declared fuel d t n SB TP ST IP) as (a & p & k & c & tt & I & P & Sk & Nc & E & D).
      left. exists (dom_of k), (dom_of c). split; [exact D|apply (eo_id _ _ _ _ E)].
    + right. right. left. destruct (participant_there d SB fuel t TP ST cc n b Hc Ib) as (y & Py & Iy & Ry & _). rewrite Rb in Ry. inv Ry.
      exists y. auto.
Qed.

(** * C35: sequence flows *)
(** The name that is written for a flow: the text of its condition, if it has one. *)
Definition written_as (e : edge) (name : string) : Prop :=
  match dget "conditionExpression" (eat e) with
  | Some (VCond _ text) => name = text
  | _ => dget "name" (eat e) = Some (VStr name)
  end.
Lemma condition_text : forall so root d d' s f g a, load_diagram_from_xml so root d = (d', Ok tt) -> flow_in root s f ->
  In (DElem g a []) (d_kids f) -> local_name g <> "conditionExpression".
Proof.
  intros so root d d' s f g a H F I N. destruct (load_loaded _ _ _ _ H) as (de & pe & mid & [_ _ _ _ Run]).
  destruct (Run _ (flow_action _ _ _ F)) as [d0 [cs [C _]]]. clear -C I N. revert cs C. induction (d_kids f) as [|x ks IH]; intros cs C; [destruct I|].
  destruct I as [->|I].
  - cbn [collect] in C. unfold condition_of at 1, d_local in C. cbn [d_tag] in C. change k_condition_expression with "conditionExpression" in C.
    rewrite N, eqb_refl' in C. discriminate C.
  - cbn [collect] in C. destruct x as [g' a' kk|s|s]; [| |discriminate].
    + destruct (condition_of (DElem g' a' kk)); [|discriminate]. cbn [rbind] in C. destruct (collect condition_of ks); [|discriminate]. eapply IH; eauto.
    + eapply IH; eauto.
Qed.
Theorem C35_flows : forall set_order fuel d d' e f u v p, storable d -> round_trip set_order fuel d d' ->
  In e (gedges (dgraph d)) -> flow_edge e f u v p -> placed d p ->
  link_attr d' u v "id" (VStr f) /\ link_attr d' u v "process" (VStr p) /\
  link_attr d' u v "sourceRef" (VStr u) /\ link_attr d' u v "targetRef" (VStr v) /\
  (forall x, link_attr d' u v "conditionExpression" x <-> dget "conditionExpression" (eat e) = Some x) /\
  exists name, written_as e name /\ dget f (seq_flows d') = Some (mkFlow name u v) /\ link_attr d' u v "name" (VStr name).
Proof.
  intros so fuel d d' e f u v p SB R Ie FE Pl. destruct (round_dom so fuel d d' SB R) as (t & TP & ST & LD).
  destruct FE as (F1 & F2 & F3 & F4). destruct (flow_declared d SB fuel t TP ST e p Ie F4 Pl) as (k & c & Sk & W & F & X & Ek).
  pose proof (fe_id _ _ X) as G1. pose proof (fe_src _ _ X) as G2. pose proof (fe_tgt _ _ X) as G3. rewrite F1 in G1. rewrite F2 in G2. rewrite F3 in G3.
  inv G1. inv G2. inv G3.
  assert (FD : flow_described d' (dom_of k) (dom_of c)).
  { eapply C71_flows; [exact LD|exact F| |].
    - intros s' g Fg Eg. destruct (flow_unique d SB fuel t TP ST _ _ _ _ F Fg (eq_sym Eg)). auto.
    - split.
      + intros s' g Fg Sg. destruct (flow_declared_edge d SB fuel t TP ST s' g Fg) as (e' & q & k' & c' & Ie' & Pe' & _ & _ & -> & X').
        destruct (sb_flows _ SB e' q Ie' Pe') as (f' & u' & v' & (E1 & E2 & E3 & _) & S & _).
        destruct (sb_flows _ SB e _ Ie F4) as (f0 & u0 & v0 & (E4 & E5 & E6 & _) & S0 & _).
        pose proof (fe_src _ _ X') as H2. pose proof (fe_tgt _ _ X') as H3. rewrite E2 in H2. rewrite E3 in H3. rewrite F2 in E5. rewrite F3 in E6. inv H2. inv H3. inv E5. inv E6.
        assert (e' = e).
        { apply (gwf_unique _ e' e (sb_graph _ SB) Ie' Ie). apply same_pair_connects. clear -S S0 Sg. unfold same_pair in *. intuition congruence. }
        subst e'. pose proof (fe_id _ _ X') as H1. rewrite F1 in H1.
        assert (H1' : get_attribute "id" (dom_of c') = get_attribute "id" (dom_of c)) by congruence.
        destruct (flow_unique d SB fuel t TP ST _ _ _ _ Fg F H1'). auto.
      + intros g Mg Sg. destruct (message_of d SB fuel t TP g Mg) as (cc & m & rr & Hc & Im & Id & Sr & Tr & _).
        destruct (sb_messages _ SB _ _ _ Hc Im) as (_ & _ & No). apply (No e _ Ie F4).
        destruct (sb_flows _ SB e _ Ie F4) as (f0 & u0 & v0 & (E4 & E5 & E6 & _) & S0 & _). rewrite F2 in E5. rewrite F3 in E6. inv E5. inv E6.
        rewrite Sr, Tr in Sg. clear -Sg S0. unfold same_pair in *. intuition congruence. }
  unfold flow_described in FD. cbv zeta in FD. destruct FD as (D1 & D2 & D3 & D4 & D5 & D6 & D7).
  split; [exact D2|]. split; [exact D3|]. split; [exact D5|]. split; [exact D6|].
  destruct (fe_name _ _ X) as (nm & N1 & N2). rewrite N1 in *.
  split.
  - intros x. rewrite (D7 x). destruct (fe_cond _ _ X) as [C|[cid C]].
    + rewrite C. destruct (last_of (flow_conditions (dom_of c))) as [y|]; cbn [option_map]; split.
      * intros (z & Z & ->). inv Z. reflexivity.
      * intros Q. inv Q. eauto.
      * intros (z & Z & _). discriminate.
      * discriminate.
    + exfalso. destruct (flow_of d SB fuel t TP _ _ F) as (q & k' & v & c' & _ & W' & _ & [Iv Hv] & Ic' & Ec & Pv).
      destruct (view_in_edge _ _ (sb_graph _ SB) Iv) as [e' [Ie' Rv]]. assert (Ea : snd v = eat e') by (unfold reports in Rv; tauto).
      assert (Fc : is_flow_elem d v c') by (split; assumption).
      pose proof (fe_id _ _ (flow_elem_facts d t ST _ _ Fc (within_kid _ _ _ W' Ic'))) as H1. rewrite <- Ec, Ea in H1.
      assert (e' = e) by (eapply (sb_edge_ids _ SB e' e); eauto). subst e'. rewrite Ea in Hv.
      destruct (flow_inv _ _ Hv) as [(i & n & s & g & _ & _ & _ & _ & [[C' _]|(cid' & x' & C' & E)])]; [congruence|]. rewrite C in C'. inv C'.
      assert (Q : exists a, In (DElem "conditionExpression" a []) (d_kids (dom_of c))) by (rewrite Ec; eexists; cbn; left; reflexivity).
      destruct Q as [a Q]. exact (condition_text _ _ _ _ _ _ _ _ LD F Q eq_refl).
  - exists nm. split; [|split; assumption]. unfold written_as. unfold written_name in N2.
    destruct (dget "conditionExpression" (eat e)) as [[]|]; try exact N2. inv N2. reflexivity.
Qed.
(** No connection is lost and none appears. *)
Lemma loaded_links : forall so root d' u v, load_diagram_from_xml so root empty_diagram = (d', Ok tt) ->
  linked d' u v <-> (exists s f, flow_in root s f /\ same_pair (get_attribute "sourceRef" f) (get_attribute "targetRef" f) u v) \/
                    (exists f, message_in root f /\ same_pair (get_attribute "sourceRef" f) (get_attribute "targetRef" f) u v).
Proof.
  intros so root d' u v H. destruct (load_loaded _ _ _ _ H) as (de & pe & mid & L). rewrite <- edge_b_linked.
  rewrite (ds_link _ _ _ _ (lo_di _ _ _ _ _ _ _ L)). rewrite (es_link _ _ _ _ _ (lo_effs _ _ _ _ _ _ _ L)). split.
  - intros [Q|[a [I Q]]]; [discriminate Q|]. pose proof (core_explained root) as X. rewrite Forall_forall in X. specialize (X a I).
    destruct a as [e|o e|o x| |c|x|x]; cbn [edge_new explained] in *; try discriminate; apply pair_b_spec in Q; apply same_pair_sym in Q.
    + destruct X as [s [X _]]. left. exists s, x. auto.
    + right. exists x. auto.
  - intros [(s & f & F & S)|(f & M & S)]; right.
    + exists (AFlow (owner_of s) f). split; [apply flow_action; exact F|]. apply pair_b_spec. apply same_pair_sym. exact S.
    + exists (AMessage f). split; [apply message_action; exact M|]. apply pair_b_spec. apply same_pair_sym. exact S.
Qed.
Theorem C35_same_connections : forall set_order fuel d d', storable d -> complete d -> round_trip set_order fuel d d' ->
  forall u v, linked d' u v <-> linked d u v.
Proof.
  intros so fuel d d' SB CP R u v. destruct (round_dom so fuel d d' SB R) as (t & TP & ST & LD). rewrite (loaded_links _ _ _ u v LD). split.
  - intros [(s & f & F & S)|(f & M & S)].
    + destruct (flow_declared_edge d SB fuel t TP ST s f F) as (e & q & k' & c' & Ie & Pe & _ & _ & -> & X).
      destruct (sb_flows _ SB e q Ie Pe) as (f & u' & v' & (F1 & F2 & F3 & _) & S' & _).
      pose proof (fe_src _ _ X) as G2. pose proof (fe_tgt _ _ X) as G3. rewrite F2 in G2. rewrite F3 in G3. inv G2. inv G3.
      exists e. split; [exact Ie|]. clear -S S'. unfold same_pair in *. intuition congruence.
    + destruct (message_of d SB fuel t TP f M) as (cc & m & rr & Hc & Im & Id & Sr & Tr & _).
      destruct (cp_messages _ CP _ _ _ Hc Im) as (e & Ie & S' & _). exists e. split; [exact Ie|]. rewrite Sr, Tr in S. clear -S S'. unfold same_pair in *. intuition congruence.
  - intros (e & Ie & S). destruct (cp_flows _ CP e Ie) as [(p & P & Pl)|(cc & m & rr & Hc & Im & S')].
    + left. destruct (flow_declared d SB fuel t TP ST e p Ie P Pl) as (k & c & Sk & W & F & X & Ek). exists (dom_of k), (dom_of c). split; [exact F|].
      destruct (sb_flows _ SB e p Ie P) as (f & u' & v' & (F1 & F2 & F3 & _) & S' & _).
      pose proof (fe_src _ _ X) as G2. pose proof (fe_tgt _ _ X) as G3. rewrite F2 in G2. rewrite F3 in G3. inv G2. inv G3.
      clear -S S'. unfold same_pair in *. intuition congruence.
    + right. destruct (message_there d SB fuel t TP cc m rr Hc Im) as (f & M & _ & Sr & Tr & _). exists f. split; [exact M|]. rewrite Sr, Tr.
      clear -S S'. unfold same_pair in *. intuition congruence.
Qed.

(** * C45: names of flows *)
Theorem C45_name_kept : forall set_order fuel d d' e f u v p, storable d -> round_trip set_order fuel d d' ->
  In e (gedges (dgraph d)) -> flow_edge e f u v p -> placed d p -> dget "conditionExpression" (eat e) = None ->
  exists name, dget "name" (eat e) = Some (VStr name) /\ dget f (seq_flows d') = Some (mkFlow name u v) /\ link_attr d' u v "name" (VStr name).
Proof.
  intros so fuel d d' e f u v p SB R Ie FE Pl C. destruct (C35_flows so fuel d d' e f u v p SB R Ie FE Pl) as (_ & _ & _ & _ & _ & name & W & Q).
  exists name. unfold written_as in W. rewrite C in W. split; [exact W|exact Q].
Qed.
Theorem C45_name_overwritten : forall set_order fuel d d' e f u v p c text, storable d -> round_trip set_order fuel d d' ->
  In e (gedges (dgraph d)) -> flow_edge e f u v p -> placed d p -> dget "conditionExpression" (eat e) = Some (VCond c text) ->
  dget f (seq_flows d') = Some (mkFlow text u v) /\ link_attr d' u v "name" (VStr text).
Proof.
  intros so fuel d d' e f u v p c text SB R Ie FE Pl C. destruct (C35_flows so fuel d d' e f u v p SB R Ie FE Pl) as (_ & _ & _ & _ & _ & name & W & Q).
  unfold written_as in W. rewrite C in W. subst name. exact Q.
Qed.

(** * C36: processes *)
Theorem C36_processes : forall set_order fuel d d' p a, storable d -> round_trip set_order fuel d d' -> In (p, a) (procs d) ->
  exists a', dget p (procs d') = Some a' /\ dget "id" a' = Some (VStr p) /\
    dget "isClosed" a' = dget "isClosed" a /\ dget "isExecutable" a' = dget "isExecutable" a /\ dget "processType" a' = dget "processType" a /\
    dget "node_ids" a' = Some (VList (nodes_in d p)) /\ dget "name" a' = Some (VStr "").
Proof.
  intros so fuel d d' p a SB R Ip. destruct (round_dom so fuel d d' SB R) as (t & TP & ST & LD).
  assert (Pl : placed d p) by (apply placed_process; apply in_map_iff; exists (p, a); auto).
  destruct (placed_scope d SB fuel t TP p Pl) as (k & Sk & W & Sc).
  assert (Pe : process_elem d fuel p k).
  { destruct Sk as [?|(b & (J & _) & T)]; [assumption|]. exfalso. rewrite <- (in_node d SB _ _ _ J) in T. apply (proj2 (sb_subs _ SB p T)).
    apply in_map_iff. exists (p, a). auto. }
  destruct (process_name _ _ _ _ Pe) as [Tk Idk].
  assert (Ik : inside (dom_of k) (dom_of t) /\ named "process" (dom_of k)).
  { inversion Sc as [q I N|s x S I N]; subst; [auto|]. exfalso. apply named_dom in N. rewrite Tk in N. discriminate N. }
  destruct Ik as [Ik Nk].
  destruct (C70_process_lists so (dom_of t) empty_diagram d' (dom_of k) LD Ik Nk) as (a' & A1 & A2 & A3 & A4 & A5 & A6 & A7).
  { intros q Iq Nq Eq. destruct (process_in_root d SB fuel t TP q Iq Nq) as (q' & k' & Pe' & _ & ->).
    rewrite (get_dom _ _ _ (proj2 (process_name _ _ _ _ Pe'))), (get_dom _ _ _ Idk) in Eq. subst q'.
    rewrite (scope_unique d SB fuel p k k' Sk (or_introl Pe')). reflexivity. }
  rewrite (get_dom _ _ _ Idk) in *. rewrite (scope_nodes d SB fuel _ _ Sk) in A2. exists a'.
  pose proof (strings_within _ ST _ W) as Sk'. destruct Pe as (b & sh & Jb & Hb).
  assert (b = a).
  { pose proof (sb_processes _ SB) as N. apply (In_dget p a) in Ip; [|exact N]. apply (In_dget p b) in Jb; [|exact N]. congruence. }
  subst b. destruct (process_inv _ _ _ _ _ Hb) as [(c & x & u & ls & ns & es & fs & C1 & C2 & C3 & _ & _ & _ & _ & E)]. cbn [fst] in E.
  assert (V : forall j v dflt, dget j (e_atts k) = Some v -> att j dflt (dom_of k) = v).
  { intros j v dflt Q. pose proof (strings_att _ _ _ Sk' Q) as S. rewrite S in Q. rewrite (att_of k j (string_of v) dflt Q). symmetry. exact S. }
  split; [exact A1|]. split; [exact A3|]. rewrite C1, C2, C3, A5, A6, A7. rewrite (V "isClosed" c), (V "isExecutable" x), (V "processType" u) by (rewrite E; reflexivity).
  do 4 (split; [auto|]). rewrite A4. f_equal. unfold att. rewrite E. reflexivity.
Qed.
Theorem C36_same_processes : forall set_order fuel d d', storable d -> round_trip set_order fuel d d' ->
  forall p, In p (map fst (procs d')) <-> In p (map fst (procs d)).
Proof.
  intros so fuel d d' SB R p. split.
  - intros I. destruct (round_dom so fuel d d' SB R) as (t & TP & ST & LD). destruct (load_loaded _ _ _ _ LD) as (de & pe & mid & L).
    rewrite (ds_procs _ _ _ _ (lo_di _ _ _ _ _ _ _ L)) in I. pose proof (proj1 (es_procs _ _ _ _ _ (lo_effs _ _ _ _ _ _ _ L) p) I) as Q.
    destruct Q as [[]|[a [Ia Q]]]. pose proof (core_explained (dom_of t)) as X. rewrite Forall_forall in X. specialize (X a Ia).
    destruct a as [e|o e|o x| |c|x|x]; cbn [proc_new explained] in *; try contradiction. subst p. destruct X as [X1 X2].
    destruct (process_in_root d SB fuel t TP e X1 X2) as (q & k & Pe & _ & ->). rewrite (get_dom _ _ _ (proj2 (process_name _ _ _ _ Pe))).
    destruct Pe as (a & sh & J & _). apply in_map_iff. exists (q, a). auto.
  - intros I. apply in_map_iff in I. destruct I as [[q a] [<- I]]. destruct (C36_processes so fuel d d' q a SB R I) as (a' & H & _).
    apply dget_In in H. apply in_map_iff. exists (q, a'). auto.
Qed.

(** * The example diagram meets the hypotheses *)
Fixpoint single (es : list edge) : bool :=
  match es with [] => true | e :: r => forallb (fun x => negb (connects (eu e) (ev e) x)) r && single r end.
Lemma gwf_check : forall g, NoDup (dkeys (gnodes g)) ->
  forallb (fun e => existsb (String.eqb (eu e)) (dkeys (gnodes g)) && existsb (String.eqb (ev e)) (dkeys (gnodes g))) (gedges g) = true ->
  single (gedges g) = true -> gwf g.
Proof.
  intros g N E S. constructor; [exact N| |].
  - intros e I. rewrite forallb_forall in E. specialize (E e I). apply andb_true_iff in E. destruct E as [E1 E2].
    apply existsb_exists in E1. apply existsb_exists in E2. destruct E1 as (x & I1 & E1). destruct E2 as (y & I2 & E2).
    apply String.eqb_eq in E1. apply String.eqb_eq in E2. subst. auto.
  - revert S. generalize (gedges g). clear. intros es S l1 e1 l2 e2 l3 ->. induction l1 as [|x l1 IH]; cbn [app single] in S; apply andb_true_iff in S; destruct S as [S1 S2].
    + rewrite forallb_forall in S1. specialize (S1 e2). rewrite <- negb_true_iff. apply S1. apply in_or_app. right. left. reflexivity.
    + auto.
Qed.
Lemma drawn_attr : forall n k v, attr drawn n k = Some v -> exists a, In (n, a) (gnodes (dgraph drawn)) /\ dget k a = Some v.
Proof. intros. apply node_in. assumption. Qed.
Example drawn_placed : placed drawn "p" /\ placed drawn "q" /\ placed drawn "sub".
Proof.
  assert (P : placed drawn "p") by (apply placed_process; left; reflexivity).
  split; [exact P|]. split; [apply placed_process; right; left; reflexivity|].
  apply (placed_sub drawn "sub" "p"); [reflexivity|reflexivity|exact P].
Qed.
Ltac nodes_of H := let a := fresh "a" in let I := fresh "I" in let D := fresh "D" in
  destruct (drawn_attr _ _ _ H) as (a & I & D); cbn [gnodes dgraph drawn] in I;
  repeat (destruct I as [I|I]; [injection I as <- <-|]); [..|destruct I]; cbn in D; try discriminate D.
Ltac edges_of I := cbn [gedges dgraph drawn] in I; repeat (destruct I as [<-|I]); [..|destruct I].
Example drawn_storable : storable drawn.
Proof.
  constructor.
  - apply gwf_check; [vm_compute; repeat (constructor; [simpl; intuition discriminate|]); constructor|vm_compute; reflexivity|vm_compute; reflexivity].
  - vm_compute. repeat (constructor; [simpl; intuition discriminate|]). constructor.
  - intros c H. injection H as <-. split; vm_compute; repeat (constructor; [simpl; intuition discriminate|]); constructor.
  - intros n N. unfold is_node in N. cbn in N. unfold node_kinds. repeat (destruct N as [<-|N]; [eexists; split; [reflexivity|simpl; tauto]|]). destruct N.
  - intros n H. nodes_of H. split; [reflexivity|]. cbn. intuition discriminate.
  - intros n t ds x T D I. nodes_of D; injection D0 as <-; injection T as <-; destruct I as [<-|[]]; eexists; (split; [reflexivity|]); simpl; tauto.
  - intros n k l [->| ->] H; nodes_of H; injection D as <-; (split; [repeat (constructor; [simpl; intuition discriminate|]); constructor|simpl; intuition discriminate]).
  - intros e p I P. edges_of I; cbn in P; try discriminate P; injection P as <-.
    + exists "f1", "s", "sub". vm_compute. tauto.
    + exists "f2", "sub", "e". vm_compute. tauto.
    + exists "f5", "sub", "v". vm_compute. tauto.
    + exists "f3", "g", "u". vm_compute. tauto.
  - intros e e' f I I' E E'. edges_of I; edges_of I'; cbn in E, E'; congruence.
  - intros c m r H I. injection H as <-. cbn in I. destruct I as [I|[I|[]]]; injection I as <- <-; (split; [vm_compute; tauto|]; split; [vm_compute; tauto|]);
    intros e p Ie P S; edges_of Ie; cbn in P; try discriminate P; cbn in S; unfold same_pair in S; intuition discriminate.
  - intros c p a t H I R T. injection H as <-. cbn in I. destruct I as [I|[I|[I|[]]]]; injection I as <- <-; try discriminate R.
    vm_compute in T. injection T as <-. unfold node_kinds. simpl. intuition discriminate.
Qed.
Example drawn_complete : complete drawn.
Proof.
  destruct drawn_placed as (P1 & P2 & P3). constructor.
  - intros n. split.
    + intros N. unfold is_node in N. cbn in N. unfold in_process, node_kinds.
      repeat (destruct N as [<-|N]; [left; do 2 eexists; split; [reflexivity|]; split; [simpl; tauto|]; split; [reflexivity|assumption]|]).
      destruct N as [<-|[]]. right. do 2 eexists. split; [reflexivity|]. split; [right; right; left; reflexivity|reflexivity].
    + intros [(t & p & T & _)|(c & a & H & I & Z)].
      * unfold is_node. nodes_of T; vm_compute; tauto.
      * injection H as <-. cbn in I. destruct I as [I|[I|[I|[]]]]; injection I as <- <-; try discriminate Z. vm_compute. tauto.
  - intros e I. edges_of I; try (left; eexists; split; [reflexivity|assumption]); right; do 3 eexists; (split; [reflexivity|]).
    + split; [left; reflexivity|]. left. split; reflexivity.
    + split; [right; left; reflexivity|]. left. split; reflexivity.
  - intros c m r H I. injection H as <-. cbn in I. destruct I as [I|[I|[]]]; injection I as <- <-.
    + exists (nth 4 (gedges (dgraph drawn)) (mkEdge "" "" [])). split; [vm_compute; tauto|]. split; [left; split; reflexivity|reflexivity].
    + exists (nth 5 (gedges (dgraph drawn)) (mkEdge "" "" [])). split; [vm_compute; tauto|]. split; [left; split; reflexivity|reflexivity].
Qed.
Example drawn_round : round_trip (fun l => l) 5 drawn redrawn.
Proof. exists drawn_file. split; [apply (proj2 drawn_exported)|exact drawn_loaded]. Qed.
Example same_order : any_order (fun l => l).
Proof. intros l. apply Permutation_refl. Qed.

Example C34_example : in_process drawn "u" /\ in_process drawn "s" /\ attr redrawn "u" "type" = Some (VStr "userTask") /\
  attr redrawn "s" "event_definitions" = Some (VDefs [("m1", "messageEventDefinition")]) /\
  attr redrawn "sub" "outgoing" = Some (VList ["f2"; "f5"]) /\ attr redrawn "sub" "node_ids" = Some (VList ["u"; "g"]).
Proof.
  destruct drawn_placed as (P1 & P2 & P3). unfold in_process, node_kinds.
  split; [do 2 eexists; split; [reflexivity|]; split; [simpl; tauto|]; split; [reflexivity|exact P3]|].
  split; [do 2 eexists; split; [reflexivity|]; split; [simpl; tauto|]; split; [reflexivity|exact P1]|]. vm_compute. auto.
Qed.
Example C35_example : exists e, In e (gedges (dgraph drawn)) /\ flow_edge e "f3" "g" "u" "sub" /\ eu e = "u" /\
  link_attr redrawn "g" "u" "id" (VStr "f3") /\ dget "f3" (seq_flows redrawn) = Some (mkFlow "again" "g" "u").
Proof.
  exists (mkEdge "u" "g" (flow_atts "f3" "sub" "again" "g" "u" [("7", "8"); ("5", "6")])). split; [vm_compute; tauto|].
  split; [vm_compute; auto|]. split; [reflexivity|].
  destruct (C45_name_kept (fun l => l) 5 drawn redrawn (mkEdge "u" "g" (flow_atts "f3" "sub" "again" "g" "u" [("7", "8"); ("5", "6")])) "f3" "g" "u" "sub"
    drawn_storable drawn_round) as (name & N & R & _); [vm_compute; tauto|vm_compute; auto|exact (proj2 (proj2 drawn_placed))|reflexivity|].
  injection N as <-. split; [|exact R].
  refine (proj1 (C35_flows (fun l => l) 5 drawn redrawn (mkEdge "u" "g" (flow_atts "f3" "sub" "again" "g" "u" [("7", "8"); ("5", "6")])) "f3" "g" "u" "sub"
    drawn_storable drawn_round _ _ _)); [vm_compute; tauto|vm_compute; auto|exact (proj2 (proj2 drawn_placed))].
Qed.
Example C36_example : dget "q" (procs redrawn) = Some [("id", VStr "q"); ("name", VStr ""); ("isClosed", VStr "true"); ("isExecutable", VStr "false");
            ("processType", VStr "Private"); ("node_ids", VList ["t"])].
Proof. vm_compute. reflexivity. Qed.

(** * What is lost *)
Theorem C36_name_refuted : exists set_order fuel d d' p a a', storable d /\ complete d /\ round_trip set_order fuel d d' /\
  dget p (procs d) = Some a /\ dget p (procs d') = Some a' /\ dget "name" a <> dget "name" a'.
Proof.
  exists (fun l => l), 5, drawn, redrawn, "p". do 2 eexists. split; [exact drawn_storable|]. split; [exact drawn_complete|]. split; [exact drawn_round|].
  split; [reflexivity|]. split; [vm_compute; reflexivity|]. vm_compute. discriminate.
Qed.
Theorem C45_name_refuted : exists set_order fuel d d' e f u v p, storable d /\ complete d /\ round_trip set_order fuel d d' /\
  In e (gedges (dgraph d)) /\ flow_edge e f u v p /\ placed d p /\
  forall name, dget "name" (eat e) = Some (VStr name) -> ~ link_attr d' u v "name" (VStr name) /\ dget f (seq_flows d') <> Some (mkFlow name u v).
Proof.
  exists (fun l => l), 5, drawn, redrawn, (nth 1 (gedges (dgraph drawn)) (mkEdge "" "" [])), "f2", "sub", "e", "p".
  split; [exact drawn_storable|]. split; [exact drawn_complete|]. split; [exact drawn_round|]. split; [vm_compute; tauto|]. split; [vm_compute; auto|].
  split; [exact (proj1 drawn_placed)|]. intros name N. cbn in N. injection N as <-. split; [|vm_compute; discriminate].
  intros L. apply edge_attr_link in L.
  - vm_compute in L. discriminate L.
  - pose proof (gwf_load (fun l => l) drawn_file empty_diagram gwf_empty) as W. exact W.
Qed.

Print Assumptions C34_nodes.
Print Assumptions C34_flow_lists.
Print Assumptions C34_subprocess.
Print Assumptions C34_same_nodes.
Print Assumptions C35_flows.
Print Assumptions C35_same_connections.
Print Assumptions C45_name_kept.
Print Assumptions C45_name_overwritten.
Print Assumptions C36_processes.
Print Assumptions C36_same_processes.
Print Assumptions C36_name_refuted.
Print Assumptions C45_name_refuted.
