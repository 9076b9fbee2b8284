(** The exported document, seen by the importer. *)
From Coq Require Import String List Bool Arith Lia Permutation.
From Verif Require Import Py PyFacts Consts Nx NxFacts Rep SpecRep RepFacts CsvRegex CsvImport CsvFacts Xml Export Import XmlOps
  ImportFacts SpecXml XmlScopes XmlLayout Prop_XmlLayout ExportFacts ExportTree SpecRound ExportScopes RoundNodes.
Import ListNotations.
Open Scope string_scope.
Open Scope list_scope.

Section Round.
Variable d : diagram.
Hypothesis SB : storable d.
Variables (fuel : nat) (t : etree).
Hypothesis TP : export_tree fuel d = Ok t.
Hypothesis ST : strings t.
Notation root := (dom_of t).

(** * The collaboration *)
Lemma inside_process : forall p k x n, process_elem d fuel p k -> inside x (dom_of k) -> named n x -> x = dom_of k \/ In n ("lane" :: "laneSet" :: "flowNodeRef" :: node_tags).
Proof using SB.
  intros p k x n Pe J N. destruct (inside_dom _ _ J) as [->|[[s ->]|(c & Ic & J')]]; [auto|destruct N|]. right.
  destruct (scope_elem_kids d SB fuel p k (or_introl Pe) c Ic) as [F|[(g & s & G & ->)|[(na & Na & _)|(e & Fe & _)]]].
  - pose proof (fine_inside _ _ F _ _ J' N) as Q. unfold lane_tag in Q. simpl. intuition.
  - destruct (inside_dom _ _ J') as [->|[[s' ->]|(z & [] & _)]]; [|destruct N]. apply named_dom in N. destruct G as [-> | ->]; simpl; tauto.
  - pose proof (fine_inside _ _ (fine_node_tags d SB _ _ Na) _ _ J' N) as Q. simpl in *. tauto.
  - pose proof (fine_inside _ _ (fine_flow_tags d _ _ Fe) _ _ J' N) as Q. simpl in *. tauto.
Qed.
Lemma collab_of : forall c, collaboration_of root = Some c -> exists cc ms ps k, collaboration d = Some cc /\
  rmap (export_message_flow d) (co_messages cc) = Ok ms /\ rmap export_participant (co_participants cc) = Ok ps /\
  k = elem "collaboration" [("id", VStr (co_id cc))] (map fst ms ++ map fst ps) /\ within k t /\ c = dom_of k.
Proof using SB TP.
  intros c H. unfold collaboration_of in H. destruct (document_elements "collaboration" root) as [|c' r] eqn:E; [discriminate|]. inv H.
  assert (I : In c (document_elements "collaboration" root)) by (rewrite E; left; reflexivity). apply in_document in I. destruct I as [I N]. clear E r.
  destruct (tree_kids d fuel t TP) as (dia & co & cosh & ps & Et & Ek & C & Ps & _ & Fd).
  destruct (inside_dom _ _ I) as [->|[[s ->]|(k & Ik & J)]].
  - apply named_dom in N. rewrite Et in N. discriminate N.
  - destruct N.
  - rewrite Ek in Ik. destruct Ik as [<- |Ik].
    { pose proof (fine_inside _ _ Fd _ _ J N) as Q. cbn beta in Q. unfold shape_tags, line_tags in Q. intuition discriminate. }
    assert (W : within k t) by (eapply within_below; [rewrite Ek; right; exact Ik|apply within_here]).
    apply in_app_or in Ik. destruct Ik as [Ik|Ik].
    + destruct (collaboration_inv _ _ _ C) as [(_ & -> & _)|(cc & ms & ps' & Hc & M & P & Ec & _)]; [destruct Ik|].
      rewrite Ec in Ik. destruct Ik as [Ik|[]]. exists cc, ms, ps', k. do 4 (split; [auto|]). split; [exact W|].
      destruct (inside_dom _ _ J) as [->|[[s ->]|(z & Iz & J')]]; [reflexivity|destruct N|]. exfalso. subst k. cbn [e_kids elem] in Iz.
      apply in_app_or in Iz. destruct Iz as [Iz|Iz]; apply in_map_iff in Iz; destruct Iz as [q [<- Iq]].
      * destruct (rmap_out _ _ _ _ _ M q Iq) as [m [_ Em]]. destruct (message_inv _ _ _ Em) as (e & w & _ & _ & ->). cbn [fst] in J'.
        destruct (inside_dom _ _ J') as [->|[[s' ->]|(z & [] & _)]]; [discriminate N|destruct N].
      * destruct (rmap_out _ _ _ _ _ P q Iq) as [m [_ Em]]. destruct (participant_inv _ _ Em) as (a1 & a2 & a3 & a4 & _ & _ & _ & _ & ->). cbn [fst] in J'.
        destruct (inside_dom _ _ J') as [->|[[s' ->]|(z & [] & _)]]; [discriminate N|destruct N].
    + exfalso. apply in_map_iff in Ik. destruct Ik as [[k0 sh] [Ekk Ik]]. cbn [fst] in Ekk. subst k0.
      destruct (rmap_out _ _ _ _ _ Ps _ Ik) as [[q a] [Iq Hq]].
      assert (Pe : process_elem d fuel q k) by (exists a, sh; auto).
      destruct (inside_process _ _ _ _ Pe J N) as [->|Q]; [|simpl in Q; intuition discriminate].
      apply named_dom in N. rewrite (proj1 (process_name _ _ _ _ Pe)) in N. discriminate N.
Qed.
Lemma collab_exists : forall cc, collaboration d = Some cc -> exists c, collaboration_of root = Some c.
Proof using TP.
  intros cc H. destruct (tree_kids d fuel t TP) as (dia & co & cosh & ps & Et & Ek & C & Ps & _ & Fd).
  destruct (collaboration_inv _ _ _ C) as [(H' & _)|(cc' & ms & ps' & Hc & M & P & Ec & _)]; [congruence|].
  unfold collaboration_of. destruct (document_elements "collaboration" root) as [|c r] eqn:E; [|eauto]. exfalso.
  assert (J : In (hd dia co) (e_kids t)) by (rewrite Ek, Ec; right; left; reflexivity).
  assert (I : In (dom_of (hd dia co)) (document_elements "collaboration" root)); [|rewrite E in I; destruct I].
  apply in_document. split.
  - pose proof (dom_kid _ _ J) as D. destruct (dom_of t) as [g at_ ks|?|?]; cbn [d_kids] in D; try destruct D. eapply inside_below; [exact D|apply inside_here].
  - rewrite Ec. reflexivity.
Qed.
Lemma message_of : forall f, message_in root f -> exists cc m r, collaboration d = Some cc /\ In (m, r) (co_messages cc) /\
  get_attribute "id" f = m /\ get_attribute "sourceRef" f = fl_src r /\ get_attribute "targetRef" f = fl_tgt r /\ dget "name" (d_atts f) = Some (fl_name r).
Proof using SB TP.
  intros f (c & Hc & If & Nf). destruct (collab_of c Hc) as (cc & ms & ps & k & Hcc & M & P & -> & W & ->).
  destruct (kids_dom _ _ If) as [[s ->]|(z & Iz & ->)]; [destruct Nf|]. cbn [e_kids elem] in Iz.
  apply in_app_or in Iz. destruct Iz as [Iz|Iz]; apply in_map_iff in Iz; destruct Iz as [q [<- Iq]].
  - destruct (rmap_out _ _ _ _ _ M q Iq) as [[m r] [Im Em]]. destruct (message_inv _ _ _ Em) as (e & w & _ & _ & ->).
    exists cc, m, r. split; [exact Hcc|]. split; [exact Im|]. repeat split.
  - destruct (rmap_out _ _ _ _ _ P q Iq) as [m [_ Em]]. destruct (participant_inv _ _ Em) as (a1 & a2 & a3 & a4 & _ & _ & _ & _ & ->). discriminate Nf.
Qed.
Lemma participant_of : forall y, participant_in root y -> exists cc p a, collaboration d = Some cc /\ In (p, a) (co_participants cc) /\
  get_attribute "id" y = p /\ dget "processRef" a = Some (VStr (get_attribute "processRef" y)) /\ dget "name" a = Some (VStr (get_attribute "name" y)).
Proof using SB TP ST.
  intros y (c & Hc & If & Nf). destruct (collab_of c Hc) as (cc & ms & ps & k & Hcc & M & P & -> & W & ->).
  destruct (kids_dom _ _ If) as [[s ->]|(z & Iz & ->)]; [destruct Nf|]. pose proof (within_kid _ _ _ W Iz) as Wz. cbn [e_kids elem] in Iz.
  apply in_app_or in Iz. destruct Iz as [Iz|Iz]; apply in_map_iff in Iz; destruct Iz as [q [<- Iq]].
  - destruct (rmap_out _ _ _ _ _ M q Iq) as [[m r] [Im Em]]. destruct (message_inv _ _ _ Em) as (e & w & _ & _ & ->). discriminate Nf.
  - destruct (rmap_out _ _ _ _ _ P q Iq) as [[p a] [Ip Em]]. destruct (participant_inv _ _ Em) as (nm & ref & ho & b & D1 & D2 & _ & _ & ->). cbn [fst snd] in *.
    pose proof (strings_within _ ST _ Wz) as Sz. exists cc, p, a. split; [exact Hcc|]. split; [exact Ip|]. split; [reflexivity|]. split.
    + rewrite D2. f_equal. rewrite (strings_att _ "processRef" ref Sz eq_refl). reflexivity.
    + rewrite D1. f_equal. rewrite (strings_att _ "name" nm Sz eq_refl). reflexivity.
Qed.
Lemma message_there : forall cc m r, collaboration d = Some cc -> In (m, r) (co_messages cc) -> exists f, message_in root f /\
  get_attribute "id" f = m /\ get_attribute "sourceRef" f = fl_src r /\ get_attribute "targetRef" f = fl_tgt r /\ dget "name" (d_atts f) = Some (fl_name r).
Proof using SB TP.
  intros cc m r H I. destruct (collab_exists cc H) as [c Hc]. destruct (collab_of c Hc) as (cc' & ms & ps & k & Hcc & M & P & -> & W & ->).
  rewrite H in Hcc. inv Hcc. destruct (rmap_from _ _ _ _ _ M _ I) as [q [Iq Em]]. destruct (message_inv _ _ _ Em) as (e & w & _ & _ & Eq).
  exists (dom_of (fst q)). split.
  - eexists. split; [exact Hc|]. split; [apply dom_kid; cbn [e_kids elem]; apply in_or_app; left; apply in_map; exact Iq|rewrite Eq; reflexivity].
  - rewrite Eq. repeat split.
Qed.
Lemma participant_there : forall cc p a, collaboration d = Some cc -> In (p, a) (co_participants cc) -> exists y, participant_in root y /\
  get_attribute "id" y = p /\ dget "processRef" a = Some (VStr (get_attribute "processRef" y)) /\ dget "name" a = Some (VStr (get_attribute "name" y)).
Proof using SB TP ST.
  intros cc p a H I. destruct (collab_exists cc H) as [c Hc]. destruct (collab_of c Hc) as (cc' & ms & ps & k & Hcc & M & P & Ek & W & Ec).
  rewrite H in Hcc. inv Hcc. destruct (rmap_from _ _ _ _ _ P _ I) as [q [Iq Em]]. destruct (participant_inv _ _ Em) as (nm & ref & ho & b & D1 & D2 & _ & _ & Eq).
  cbn [fst snd] in *.
  assert (Iz : In (fst q) (e_kids (elem "collaboration" [("id", VStr (co_id cc'))] (map fst ms ++ map fst ps)))).
  { cbn [e_kids elem]. apply in_or_app. right. apply in_map. exact Iq. }
  pose proof (strings_within _ ST _ (within_kid _ _ _ W Iz)) as Sz.
  exists (dom_of (fst q)). split.
  - eexists. split; [exact Hc|]. split; [apply dom_kid; exact Iz|rewrite Eq; reflexivity].
  - rewrite Eq in *. cbn [fst] in *. split; [reflexivity|]. split.
    + rewrite D2. f_equal. rewrite (strings_att _ "processRef" ref Sz eq_refl). reflexivity.
    + rewrite D1. f_equal. rewrite (strings_att _ "name" nm Sz eq_refl). reflexivity.
Qed.

(** * Sequence flows *)
Lemma dget_cons_ne : forall (k j : string) (v : pyval) a, k <> j -> dget k ((j, v) :: a) = dget k a.
Proof using. clear. intros. cbn [dget]. rewrite eqb_neq'; auto. Qed.
(** The name written for a flow. *)
Definition written_name (a : attrs) : option pyval :=
  match dget "conditionExpression" a with Some (VCond _ text) => Some (VStr text) | _ => dget "name" a end.
Record flow_element (a : attrs) (c : etree) : Prop := mkFlowElement {
  fe_id : dget "id" a = Some (VStr (get_attribute "id" (dom_of c)));
  fe_src : dget "sourceRef" a = Some (VStr (get_attribute "sourceRef" (dom_of c)));
  fe_tgt : dget "targetRef" a = Some (VStr (get_attribute "targetRef" (dom_of c)));
  fe_name : exists nm, dget "name" (d_atts (dom_of c)) = Some nm /\ written_name a = Some (VStr nm);
  fe_named : exists nm, dget "name" a = Some nm;
  fe_cond : dget "conditionExpression" a = option_map (fun c => VCond (fst c) (snd c)) (last_of (flow_conditions (dom_of c)))
            \/ exists cid, dget "conditionExpression" a = Some (VCond cid "") }.
Lemma flow_elem_facts : forall e c, is_flow_elem d e c -> within c t -> flow_element (snd e) c.
Proof using ST.
  intros [[x y] a] c [Ie Hc] W. cbn [snd] in *. pose proof (strings_within _ ST _ W) as Sc.
  destruct (flow_inv _ _ Hc) as [(id & nm & sr & tr & D1 & D2 & D3 & D4 & Q)].
  assert (A1 : id = VStr (string_of id) /\ sr = VStr (string_of sr) /\ tr = VStr (string_of tr)).
  { destruct Q as [[_ ->]|(cid & text & _ & ->)]; (split; [|split]);
      [apply (strings_att _ "id" id Sc)|apply (strings_att _ "sourceRef" sr Sc)|apply (strings_att _ "targetRef" tr Sc)
      |apply (strings_att _ "id" id Sc)|apply (strings_att _ "sourceRef" sr Sc)|apply (strings_att _ "targetRef" tr Sc)]; reflexivity. }
  destruct A1 as (Ei & Es & Er).
  assert (A2 : get_attribute "id" (dom_of c) = string_of id /\ get_attribute "sourceRef" (dom_of c) = string_of sr /\
               get_attribute "targetRef" (dom_of c) = string_of tr).
  { destruct Q as [[_ ->]|(cid & text & _ & ->)]; repeat split; apply get_dom; cbn [e_atts elem dget]; cbn; congruence. }
  destruct A2 as (Gi & Gs & Gr). constructor.
  - rewrite D1, Gi, <- Ei. reflexivity.
  - rewrite D3, Gs, <- Es. reflexivity.
  - rewrite D4, Gr, <- Er. reflexivity.
  - unfold written_name. destruct Q as [[Dc ->]|(cid & text & Dc & ->)]; rewrite Dc.
    + exists (string_of nm). rewrite D2. split; [reflexivity|]. f_equal. apply (strings_att _ "name" nm Sc eq_refl).
    + exists text. split; reflexivity.
  - eauto.
  - destruct Q as [[Dc ->]|(cid & text & Dc & ->)]; rewrite Dc; [left; reflexivity|].
    destruct text as [|ch s]; [right; eauto|]. left. reflexivity.
Qed.
Lemma flow_declared : forall e p, In e (gedges (dgraph d)) -> dget "process" (eat e) = Some (VStr p) -> placed d p ->
  exists k c, scope_elem d fuel p k /\ within c t /\ flow_in root (dom_of k) (dom_of c) /\ flow_element (eat e) c /\ get_attribute "id" (dom_of k) = p.
Proof using SB TP ST.
  intros e p I Pr Pl. destruct (placed_scope d SB fuel t TP p Pl) as (k & Sk & W & Sc).
  destruct (edge_in_view _ _ (sb_graph _ SB) I) as [v [Iv R]].
  assert (Ea : snd v = eat e) by (unfold reports in R; tauto). rewrite <- Ea in Pr.
  destruct (proj2 (scope_complete d SB fuel p k Sk) v Iv Pr) as [c [Ic Fc]].
  pose proof (within_kid _ _ _ W Ic) as Wc. exists k, c. split; [exact Sk|]. split; [exact Wc|]. split; [|split].
  - split; [exact Sc|]. split; [apply dom_kid; exact Ic|]. apply named_dom. apply (flow_elem_name _ _ _ Fc).
  - rewrite <- Ea. apply flow_elem_facts; assumption.
  - apply (scope_id d SB fuel). exact Sk.
Qed.
Lemma flow_declared_edge : forall s x, flow_in root s x -> exists e p k c, In e (gedges (dgraph d)) /\ dget "process" (eat e) = Some (VStr p) /\
  scope_elem d fuel p k /\ s = dom_of k /\ x = dom_of c /\ flow_element (eat e) c.
Proof using SB TP ST.
  intros s x F. destruct (flow_of d SB fuel t TP s x F) as (p & k & v & c & Sk & W & -> & Fc & Ic & -> & Pr).
  destruct Fc as [Iv Hc]. destruct (view_in_edge _ _ (sb_graph _ SB) Iv) as [e [Ie R]].
  assert (Ea : snd v = eat e) by (unfold reports in R; tauto).
  exists e, p, k, c. split; [exact Ie|]. split; [rewrite <- Ea; exact Pr|]. split; [exact Sk|]. split; [reflexivity|]. split; [reflexivity|].
  rewrite <- Ea. apply flow_elem_facts; [split; assumption|]. eapply within_kid; eauto.
Qed.
End Round.
