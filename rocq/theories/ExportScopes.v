(** The scopes, nodes and flows of the document that the exporter writes. *)
From Coq Require Import String List Bool Arith Lia Permutation.
From Verif Require Import Py PyFacts Consts Nx NxFacts Rep SpecRep RepFacts CsvRegex CsvImport CsvFacts Xml Export Import XmlOps
  ImportFacts SpecXml XmlScopes XmlLayout Prop_XmlLayout ExportFacts ExportTree SpecRound.
Import ListNotations.
Open Scope string_scope.
Open Scope list_scope.

(** * Elements and attributes of [dom_of] *)
Lemma kids_dom : forall t x, In x (d_kids (dom_of t)) -> (exists s, x = DText s) \/ exists k, In k (e_kids t) /\ x = dom_of k.
Proof.
  intros [g a tx l ks] x I. cbn in I. apply in_app_or in I. destruct I as [I|I].
  - left. apply text_in in I. exact I.
  - right. apply in_map_iff in I. destruct I as [k [<- I]]. eauto.
Qed.
Lemma dom_kid : forall t k, In k (e_kids t) -> In (dom_of k) (d_kids (dom_of t)).
Proof. intros [g a tx l ks] k I. cbn. apply in_or_app. right. apply in_map. exact I. Qed.
Lemma local_dom : forall t, d_local (dom_of t) = local_name (e_tag t).
Proof. intros [g a tx l ks]. reflexivity. Qed.
Lemma named_dom : forall n t, named n (dom_of t) <-> local_name (e_tag t) = n.
Proof. intros n [g a tx l ks]. reflexivity. Qed.
Definition string_of (v : pyval) : string := match v with VStr s => s | _ => "" end.
Lemma dget_text_of : forall a k, dget k (map text_of a) = option_map string_of (dget k a).
Proof.
  induction a as [|[j v] a IH]; intros k; [reflexivity|]. cbn [map text_of fst snd dget]. destruct (k =? j); [reflexivity|apply IH].
Qed.
Lemma atts_dom : forall t k, dget k (d_atts (dom_of t)) = option_map string_of (dget k (e_atts t)).
Proof. intros [g a tx l ks] k. cbn. apply dget_text_of. Qed.
Lemma get_dom : forall t k s, dget k (e_atts t) = Some (VStr s) -> get_attribute k (dom_of t) = s.
Proof. intros t k s H. unfold get_attribute. rewrite atts_dom, H. reflexivity. Qed.

Inductive within : etree -> etree -> Prop :=
| within_here : forall t, within t t
| within_below : forall x k t, In k (e_kids t) -> within x k -> within x t.
Lemma within_kid : forall x k t, within k t -> In x (e_kids k) -> within x t.
Proof. intros x k t W I. induction W; [eapply within_below; [exact I|apply within_here]|eapply within_below; eauto]. Qed.
Lemma strings_within : forall t, strings t -> forall x, within x t -> strings x.
Proof.
  intros t S x W. revert S. induction W as [|x k t I W IH]; intros S; [exact S|]. apply IH. inversion S; subst. auto.
Qed.
Lemma strings_att : forall t k v, strings t -> dget k (e_atts t) = Some v -> v = VStr (string_of v).
Proof.
  intros t k v S H. inversion S as [g a x l ks Sa _]; subst. cbn in H.
  assert (exists j, In (j, v) a) as [j I].
  { clear -H. induction a as [|[j w] a IH]; [discriminate|]. cbn [dget] in H. destruct (k =? j).
    - inv H. exists j. left. reflexivity.
    - destruct (IH H) as [j' I]. exists j'. right. exact I. }
  destruct (Sa _ I) as [s Es]. cbn in Es. subst v. reflexivity.
Qed.

(** * Names *)
Lemma known_local : forall t, In t ("participant" :: node_kinds) -> local_name t = t.
Proof. intros t I. simpl in I. repeat (destruct I as [<- |I]; [reflexivity|]). destruct I. Qed.
Definition definition_kinds : list string :=
  ["messageEventDefinition"; "timerEventDefinition"; "conditionalEventDefinition"; "escalationEventDefinition"; "signalEventDefinition";
   "errorEventDefinition"; "compensateEventDefinition"; "terminateEventDefinition"].
Lemma event_kinds_known : forall t ts k, event_kinds (DElem t [] []) = Some ts -> In k ts -> In k definition_kinds.
Proof.
  intros t ts k H I. unfold event_kinds in H. cbn [d_local d_tag] in H.
  repeat match type of H with context[match ?s with EmptyString => _ | String _ _ => _ end] => destruct s; try discriminate H
       | context[match ?c with Ascii.Ascii _ _ _ _ _ _ _ _ => _ end] => destruct c; try discriminate H
       | context[if ?b then _ else _] => destruct b; try discriminate H end; inv H;
  simpl in I; repeat (destruct I as [<- |I]; [simpl; tauto|]); destruct I.
Qed.
Lemma definition_local : forall k, In k definition_kinds -> local_name k = k.
Proof. intros t I. simpl in I. repeat (destruct I as [<- |I]; [reflexivity|]). destruct I. Qed.
Definition node_tags : list string :=
  "participant" :: node_kinds ++ definition_kinds ++ ["incoming"; "outgoing"; "sequenceFlow"; "conditionExpression"].

(** A subprocess element. *)
Lemma sub_inv : forall f d a m, node_more f d "subProcess" a = Ok m ->
  exists s ns es fs tr, dget "id" a = Some (VStr s) /\ dget "triggeredByEvent" a = Some tr /\ get_nodes_list_by_process_id s d = Ok ns /\
    rmap (export_node_data f d) ns = Ok es /\
    rmap (fun e => export_flow_process_data (snd e)) (get_flows_list_by_process_id s d) = Ok fs /\
    m = (("triggeredByEvent", tr) :: default_attribute a, es ++ fs).
Proof.
  intros f d a m H. unfold node_more in H. cbn in H. unfold copied in H.
  destruct (dgetE k_triggered_by_event a) as [tr|] eqn:Dt; [|discriminate]. cbn [rbind] in H. apply dgetE_ok in Dt.
  destruct (dgetE k_id a) as [sid|] eqn:Ds; [|discriminate]. cbn [rbind] in H. destruct sid as [|s| | | | |]; try discriminate. cbn [rbind] in H.
  apply dgetE_ok in Ds.
  destruct (get_nodes_list_by_process_id s d) as [ns|] eqn:N; [|discriminate]. cbn [rbind] in H.
  destruct (rmap (export_node_data f d) ns) as [es|] eqn:Es; [|discriminate]. cbn [rbind] in H.
  destruct (rmap _ (get_flows_list_by_process_id s d)) as [fs|] eqn:Fs; [|discriminate]. cbn [rbind] in H. inv H.
  exists s, ns, es, fs, tr. repeat split; try assumption.
Qed.

Section Scopes.
Variable d : diagram.
Hypothesis SB : storable d.
Variables (fuel : nat) (t : etree).
Hypothesis TP : export_tree fuel d = Ok t.
Notation root := (dom_of t).

Lemma in_node : forall n a k, In (n, a) (gnodes (dgraph d)) -> attr d n k = dget k a.
Proof using SB. intros n a k I. apply nodes_attr; [exact (gwf_nodup _ (sb_graph _ SB))|exact I]. Qed.
Lemma in_is_node : forall n a, In (n, a) (gnodes (dgraph d)) -> is_node d n.
Proof using. clear. intros n a I. unfold is_node. apply in_map_iff. exists (n, a). auto. Qed.
Lemma node_in : forall n k v, attr d n k = Some v -> exists a, In (n, a) (gnodes (dgraph d)) /\ dget k a = Some v.
Proof using. clear. intros n k v H. unfold attr, node_of in H. destruct (dget n (gnodes (dgraph d))) as [a|] eqn:G; [|discriminate]. exists a.
  split; [apply dget_In; exact G|exact H]. Qed.
Lemma node_fun : forall n a a', In (n, a) (gnodes (dgraph d)) -> In (n, a') (gnodes (dgraph d)) -> a = a'.
Proof using SB. intros n a a' I J. pose proof (gwf_nodup _ (sb_graph _ SB)) as N. apply (In_dget n a) in I; [|exact N]. apply (In_dget n a') in J; [|exact N]. congruence. Qed.
Lemma type_of : forall n a s, In (n, a) (gnodes (dgraph d)) -> dget "type" a = Some (VStr s) -> In s ("participant" :: node_kinds).
Proof using SB.
  intros n a s I H. destruct (sb_types _ SB n (in_is_node _ _ I)) as [s' [H' K]]. rewrite (in_node _ _ _ I), H in H'. inv H'. exact K.
Qed.
Lemma fine_node_tags : forall na k, is_node_elem d na k -> fine (fun s => In s node_tags) k.
Proof using SB.
  intros na k [I [f H]]. eapply (fine_node d (fun s => In s node_tags)); eauto.
  - intros n a s J T. pose proof (type_of _ _ _ J T) as K. rewrite (known_local _ K). split.
    + unfold node_tags. destruct K as [K|K]; [left; exact K|right; apply in_or_app; left; exact K].
    + intros Q. simpl in K, Q. intuition (subst; discriminate).
  - intros n a ds x J D Ix. destruct (sb_types _ SB n (in_is_node _ _ J)) as [s [T K]].
    rewrite <- (in_node _ _ _ J) in D. destruct (sb_definitions _ SB n s ds x T D Ix) as (ts & Et & It).
    pose proof (event_kinds_known _ _ _ Et It) as Q. rewrite (definition_local _ Q). unfold node_tags. right. apply in_or_app. right.
    apply in_or_app. left. exact Q.
  - unfold node_tags. simpl. tauto.
  - unfold node_tags. simpl. tauto.
  - unfold node_tags. simpl. tauto.
  - unfold node_tags. simpl. tauto.
Qed.
Lemma fine_flow_tags : forall e k, is_flow_elem d e k -> fine (fun s => In s ["sequenceFlow"; "conditionExpression"]) k.
Proof using. intros e k [_ H]. eapply fine_flow; eauto; simpl; auto. Qed.
Lemma flow_elem_name : forall e k, is_flow_elem d e k -> local_name (e_tag k) = "sequenceFlow".
Proof using. intros e k [_ H]. destruct (flow_inv _ _ H) as [(id & nm & sr & tr & _ & _ & _ & _ & [[_ ->]|(cid & text & _ & ->)])]; reflexivity. Qed.
Lemma node_elem_name : forall na k, is_node_elem d na k -> dget "type" (snd na) = Some (VStr (local_name (e_tag k))) /\
  In (local_name (e_tag k)) ("participant" :: node_kinds) /\ dget "id" (e_atts k) = Some (VStr (fst na)) /\ e_tag k = local_name (e_tag k).
Proof using SB.
  intros [n a] k [I [f H]]. destruct (node_inv _ _ _ _ _ H) as (f' & s & name & li & lo & more & _ & [Ht _ _ _ _ ->]).
  cbn [e_tag node_elem elem e_atts]. pose proof (type_of _ _ _ I Ht) as K. rewrite (known_local _ K). cbn [snd fst]. split; [exact Ht|]. split; [exact K|].
  split; reflexivity.
Qed.

Lemma tree_kids : exists dia co cosh ps, e_tag t = "definitions" /\ e_kids t = dia :: co ++ map fst ps /\
  export_collaboration d = Ok (co, cosh) /\ rmap (export_process fuel d) (procs d) = Ok ps /\ t = elem "definitions" definitions_attributes (e_kids t) /\
  fine (fun s => s = "BPMNDiagram" \/ s = "BPMNPlane" \/ shape_tags s \/ line_tags s) dia.
Proof using TP.
  destruct (tree_inv _ _ _ TP) as [(did & dname & plid & plel & co & cosh & ps & shapes & edges & _ & _ & _ & _ & C & Ps & Sh & Ed & Et)].
  destruct (fine_collaboration _ _ _ C) as [C1 C2]. eexists _, co, cosh, ps. split; [rewrite Et; reflexivity|].
  split; [rewrite Et; reflexivity|]. split; [exact C|]. split; [exact Ps|]. split; [rewrite Et; reflexivity|].
  apply fine_kids; [left; reflexivity|simpl; intuition discriminate|].
  intros k [<- |[]]. apply fine_kids; [right; left; reflexivity|simpl; intuition discriminate|]. intros k I.
  apply in_app_or in I. destruct I as [I|I]; [eapply fine_mono; [|eauto]; intros s [Q|Q]; auto|]. apply in_app_or in I. destruct I as [I|I].
  - apply in_flat_map in I. destruct I as [p [I J]]. destruct (rmap_out _ _ _ _ _ Ps p I) as [[q a] [J1 J2]].
    destruct (process_inv _ _ _ _ _ J2) as [(c & x & u & ls & ns & es & fs & _ & _ & _ & L & _)].
    eapply fine_mono; [|apply (fine_lanes_out _ _ _ L); exact J]. auto.
  - apply in_app_or in I. destruct I as [I|I].
    + destruct (rmap_out _ _ _ _ _ Sh k I) as [na [_ J]]. eapply fine_mono; [|eapply fine_node_di, J]. auto.
    + destruct (rmap_out _ _ _ _ _ Ed k I) as [e [_ J]]. eapply fine_mono; [|eapply fine_flow_di, J]. auto.
Qed.

(** * Scopes *)
Definition process_elem (p : string) (k : etree) : Prop :=
  exists a sh, In (p, a) (procs d) /\ export_process fuel d (p, a) = Ok (k, sh).
Definition sub_elem (p : string) (k : etree) : Prop :=
  exists a, is_node_elem d (p, a) k /\ dget "type" a = Some (VStr "subProcess").
Definition scope_elem (p : string) (k : etree) : Prop := process_elem p k \/ sub_elem p k.

Lemma process_name : forall p k, process_elem p k -> e_tag k = "process" /\ dget "id" (e_atts k) = Some (VStr p).
Proof using.
  intros p k (a & sh & _ & H). destruct (process_inv _ _ _ _ _ H) as [(c & x & u & ls & ns & es & fs & _ & _ & _ & _ & _ & _ & _ & E)].
  cbn [fst] in E. subst k. split; reflexivity.
Qed.
Lemma sub_name : forall p k, sub_elem p k -> e_tag k = "subProcess" /\ dget "id" (e_atts k) = Some (VStr p).
Proof using SB.
  intros p k (a & I & H). destruct (node_elem_name _ _ I) as (T & _ & Id & L). cbn [fst snd] in *. split; [|exact Id].
  rewrite H in T. inv T. congruence.
Qed.
Lemma scope_id : forall p k, scope_elem p k -> get_attribute "id" (dom_of k) = p.
Proof using SB. intros p k [H|H]; apply get_dom; [apply process_name|apply sub_name]; exact H. Qed.

Lemma scope_elem_kids : forall p k, scope_elem p k -> forall c, In c (e_kids k) ->
  fine lane_tag c \/ (exists g s, (g = "incoming" \/ g = "outgoing") /\ c = text_elem g s) \/ scope_child d p c.
Proof using SB.
  intros p k [(a & sh & _ & H)|(a & (I & f & H) & T)] c J.
  - apply process_inv in H. destruct (process_kids _ _ _ _ _ _ H c J); auto.
  - destruct (node_inv _ _ _ _ _ H) as (f' & s & name & li & lo & more & _ & [Ht _ _ _ Hm ->]). rewrite T in Ht. inv Ht.
    cbn [e_kids node_elem elem] in J. apply in_app_or in J. destruct J as [J|J].
    { apply in_map_iff in J. destruct J as [s [<- _]]. right. left. eauto. }
    apply in_app_or in J. destruct J as [J|J].
    { apply in_map_iff in J. destruct J as [s [<- _]]. right. left. eauto. }
    destruct (more_kids _ _ _ _ _ Hm c J) as [[Q _]|(_ & s & Ds & Sc)]; [contradiction|]. right. right.
    pose proof (sb_subs _ SB p) as Q. rewrite !(in_node _ _ _ I) in Q. destruct (Q T) as [Q1 _]. rewrite Ds in Q1. inv Q1. exact Sc.
Qed.
Lemma scope_complete : forall p k, scope_elem p k ->
  (forall na, In na (gnodes (dgraph d)) -> dget "process" (snd na) = Some (VStr p) -> exists c, In c (e_kids k) /\ is_node_elem d na c) /\
  (forall e, In e (edges_view (dgraph d)) -> dget "process" (snd e) = Some (VStr p) -> exists c, In c (e_kids k) /\ is_flow_elem d e c).
Proof using SB.
  intros p k [(a & sh & _ & H)|(a & (I & f & H) & T)].
  - apply process_inv in H. destruct H as [(c & x & u & ls & ns & es & fs & _ & _ & _ & _ & N & Es & Fs & E)]. cbn [fst] in E. subst k. cbn [e_kids elem].
    split.
    + intros na J Q. assert (J' : In na ns) by (apply (nodes_by_process _ _ _ N); auto). destruct (rmap_from _ _ _ _ _ Es na J') as [c' [K1 K2]].
      exists c'. split; [apply in_or_app; right; apply in_or_app; left; exact K1|]. split; [exact J|eauto].
    + intros e J Q. assert (J' : In e (get_flows_list_by_process_id p d)) by (apply flows_by_process; auto).
      destruct (rmap_from _ _ _ _ _ Fs e J') as [c' [K1 K2]].
      exists c'. split; [apply in_or_app; right; apply in_or_app; right; exact K1|]. split; assumption.
  - destruct (node_inv _ _ _ _ _ H) as (f' & s & name & li & lo & more & _ & [Ht _ _ _ Hm ->]). rewrite T in Ht. inv Ht.
    destruct (sub_inv _ _ _ _ Hm) as (s & ns & es & fs & tr & Ds & _ & N & Es & Fs & ->).
    pose proof (sb_subs _ SB p) as Q. rewrite !(in_node _ _ _ I) in Q. destruct (Q T) as [Q1 _]. rewrite Ds in Q1. inv Q1.
    cbn [e_kids node_elem elem snd]. split.
    + intros na J Q2. assert (J' : In na ns) by (apply (nodes_by_process _ _ _ N); auto). destruct (rmap_from _ _ _ _ _ Es na J') as [c' [K1 K2]].
      exists c'. split; [apply in_or_app; right; apply in_or_app; right; apply in_or_app; left; exact K1|]. split; [exact J|eauto].
    + intros e J Q2. assert (J' : In e (get_flows_list_by_process_id p d)) by (apply flows_by_process; auto).
      destruct (rmap_from _ _ _ _ _ Fs e J') as [c' [K1 K2]].
      exists c'. split; [apply in_or_app; right; apply in_or_app; right; apply in_or_app; right; exact K1|]. split; assumption.
Qed.
Lemma scope_unique : forall p k k', scope_elem p k -> scope_elem p k' -> k = k'.
Proof using SB.
  assert (X : forall p k k', process_elem p k -> sub_elem p k' -> False).
  { intros p k k' (a & sh & I & _) (b & (J & _) & T). rewrite <- (in_node _ _ "type" J) in T. destruct (sb_subs _ SB p T) as [_ N]. apply N.
    apply in_map_iff. exists (p, a). auto. }
  intros p k k' [H|H] [H'|H'].
  - destruct H as (a & sh & I & H), H' as (a' & sh' & I' & H').
    assert (a = a').
    { pose proof (sb_processes _ SB) as N. apply (In_dget p a) in I; [|exact N]. apply (In_dget p a') in I'; [|exact N]. congruence. }
    subst a'. congruence.
  - destruct (X _ _ _ H H').
  - destruct (X _ _ _ H' H).
  - destruct H as (a & (I & f & H) & _), H' as (a' & (I' & f' & H') & _). pose proof (node_fun _ _ _ I I'). subst a'. eapply node_unique; eauto.
Qed.

(** Processes of the document. *)
Lemma process_in_root : forall p, inside p root -> named "process" p -> exists q k, process_elem q k /\ within k t /\ p = dom_of k.
Proof using SB TP.
  intros p I N. destruct tree_kids as (dia & co & cosh & ps & Et & Ek & C & Ps & _ & Fd).
  destruct (inside_dom _ _ I) as [->|[[s ->]|(k & Ik & J)]].
  - apply named_dom in N. rewrite Et in N. discriminate N.
  - destruct N.
  - rewrite Ek in Ik. destruct Ik as [<- |Ik].
    { pose proof (fine_inside _ _ Fd _ _ J N) as Q. cbn beta in Q. unfold shape_tags, line_tags in Q. intuition discriminate. }
    assert (W : In k (e_kids t)) by (rewrite Ek; right; exact Ik).
    apply in_app_or in Ik. destruct Ik as [Ik|Ik].
    { destruct (fine_collaboration _ _ _ C) as [C1 _]. pose proof (fine_inside _ _ (C1 k Ik) _ _ J N) as Q. unfold part_tags in Q. intuition discriminate. }
    apply in_map_iff in Ik. destruct Ik as [[k0 sh] [Ekk Ik]]. cbn [fst] in Ekk. subst k0.
    destruct (rmap_out _ _ _ _ _ Ps _ Ik) as [[q a] [Iq Hq]].
    assert (Pe : process_elem q k) by (exists a, sh; auto).
    destruct (inside_dom _ _ J) as [->|[[s ->]|(c & Ic & J')]]; [|destruct N|].
    + exists q, k. split; [exact Pe|]. split; [|reflexivity]. eapply within_below; [exact W|apply within_here].
    + exfalso. destruct (scope_elem_kids q k (or_introl Pe) c Ic) as [F|[(g & s & G & ->)|[(na & Na & _)|(e & Fe & _)]]].
      * pose proof (fine_inside _ _ F _ _ J' N) as Q. unfold lane_tag in Q. intuition discriminate.
      * destruct (inside_dom _ _ J') as [->|[[s' ->]|(z & [] & _)]]; [|destruct N]. apply named_dom in N. destruct G as [-> | ->]; discriminate N.
      * pose proof (fine_inside _ _ (fine_node_tags _ _ Na) _ _ J' N) as Q. simpl in Q. intuition discriminate.
      * pose proof (fine_inside _ _ (fine_flow_tags _ _ Fe) _ _ J' N) as Q. simpl in Q. intuition discriminate.
Qed.
(** A named child of a scope element. *)
Lemma scope_kid_named : forall p k x n, scope_elem p k -> In x (d_kids (dom_of k)) -> named n x ->
  In n ["lane"; "laneSet"; "flowNodeRef"; "incoming"; "outgoing"] \/
  exists c, In c (e_kids k) /\ x = dom_of c /\
    ((exists na, is_node_elem d na c /\ dget "process" (snd na) = Some (VStr p) /\ dget "type" (snd na) = Some (VStr n)) \/
     (n = "sequenceFlow" /\ exists e, is_flow_elem d e c /\ dget "process" (snd e) = Some (VStr p))).
Proof using SB.
  intros p k x n S I N. destruct (kids_dom _ _ I) as [[s ->]|(c & Ic & ->)]; [destruct N|].
  destruct (scope_elem_kids p k S c Ic) as [F|[(g & s & G & ->)|[(na & Na & P)|(e & Fe & P)]]].
  - left. pose proof (fine_inside _ _ F _ _ (inside_here _) N) as Q. unfold lane_tag in Q. simpl. intuition.
  - left. apply named_dom in N. destruct G as [-> | ->]; cbn in N; subst n; simpl; tauto.
  - right. exists c. split; [exact Ic|]. split; [reflexivity|]. left. exists na. apply named_dom in N.
    destruct (node_elem_name _ _ Na) as (T & _). rewrite N in T. auto.
  - right. exists c. split; [exact Ic|]. split; [reflexivity|]. right. apply named_dom in N. rewrite (flow_elem_name _ _ Fe) in N. subst n. split; [reflexivity|]. exists e. auto.
Qed.
Lemma scope_of : forall s, scope root s -> exists p k, scope_elem p k /\ within k t /\ s = dom_of k.
Proof using SB TP.
  intros s S. induction S as [p I N|s x S (p & k & Sk & W & ->) I N].
  - destruct (process_in_root p I N) as (q & k & Pe & W & ->). exists q, k. split; [left; exact Pe|auto].
  - destruct (scope_kid_named _ _ _ _ Sk I N) as [Q|(c & Ic & -> & [(na & Na & _ & T)|[Q _]])]; [simpl in Q; intuition discriminate| |discriminate Q].
    destruct na as [n a]. exists n, c. split; [right; exists a; auto|]. split; [|reflexivity]. eapply within_kid; eauto.
Qed.
Lemma placed_scope : forall p, placed d p -> exists k, scope_elem p k /\ within k t /\ scope root (dom_of k).
Proof using SB TP.
  intros p P. induction P as [p I|n p T Pr P (k & Sk & W & Sc)].
  - destruct tree_kids as (dia & co & cosh & ps & Et & Ek & C & Ps & _ & _). apply in_map_iff in I. destruct I as [[q a] [Eq I]]. cbn [fst] in Eq. subst q.
    destruct (rmap_from _ _ _ _ _ Ps _ I) as [[k sh] [Ik Hk]].
    assert (Pe : process_elem p k) by (exists a, sh; auto).
    assert (J : In k (e_kids t)) by (rewrite Ek; right; apply in_or_app; right; apply in_map_iff; exists (k, sh); auto).
    exists k. split; [left; exact Pe|]. split; [eapply within_below; [exact J|apply within_here]|].
    apply scope_process.
    + pose proof (dom_kid _ _ J) as D. destruct (dom_of t) as [g at_ ks|?|?]; cbn [d_kids] in D; try destruct D. eapply inside_below; [exact D|apply inside_here].
    + apply named_dom. rewrite (proj1 (process_name _ _ Pe)). reflexivity.
  - destruct (node_in _ _ _ T) as [a [I Ta]]. rewrite (in_node _ _ _ I) in Pr.
    destruct (proj1 (scope_complete p k Sk) (n, a) I Pr) as [c [Ic Nc]].
    exists c. split; [right; exists a; auto|]. split; [eapply within_kid; eauto|].
    eapply scope_sub; [exact Sc|apply dom_kid; exact Ic|]. apply named_dom. assert (Se : sub_elem n c) by (exists a; auto).
    rewrite (proj1 (sub_name _ _ Se)). reflexivity.
Qed.

(** * Declared nodes and flows *)
Lemma declared_of : forall s x, declared root s x -> exists p k na c, scope_elem p k /\ within k t /\ s = dom_of k /\
  is_node_elem d na c /\ In c (e_kids k) /\ x = dom_of c /\ dget "process" (snd na) = Some (VStr p).
Proof using SB TP.
  intros s x (S & I & n & K & N). destruct (scope_of s S) as (p & k & Sk & W & ->).
  destruct (scope_kid_named _ _ _ _ Sk I N) as [Q|(c & Ic & -> & [(na & Na & P & T)|[Q _]])].
  - exfalso. simpl in K, Q. intuition (subst; discriminate).
  - exists p, k, na, c. repeat (split; [assumption || reflexivity|]). exact P.
  - exfalso. subst n. simpl in K. intuition discriminate.
Qed.
Lemma flow_of : forall s x, flow_in root s x -> exists p k e c, scope_elem p k /\ within k t /\ s = dom_of k /\
  is_flow_elem d e c /\ In c (e_kids k) /\ x = dom_of c /\ dget "process" (snd e) = Some (VStr p).
Proof using SB TP.
  intros s x (S & I & N). destruct (scope_of s S) as (p & k & Sk & W & ->).
  destruct (scope_kid_named _ _ _ _ Sk I N) as [Q|(c & Ic & -> & [(na & Na & P & T)|[_ (e & Fe & P)]])].
  - exfalso. simpl in Q. intuition discriminate.
  - exfalso. destruct na as [n a]. destruct Na as [J _]. apply (type_of _ _ _ J) in T. simpl in T. intuition discriminate.
  - exists p, k, e, c. repeat (split; [assumption || reflexivity|]). exact P.
Qed.
Lemma declared_unique : forall s x s' x', declared root s x -> declared root s' x' -> get_attribute "id" x = get_attribute "id" x' -> s = s' /\ x = x'.
Proof using SB TP.
  intros s x s' x' D D' E. destruct (declared_of _ _ D) as (p & k & [n a] & c & Sk & _ & -> & Nc & _ & -> & P).
  destruct (declared_of _ _ D') as (p' & k' & [n' a'] & c' & Sk' & _ & -> & Nc' & _ & -> & P'). cbn [snd fst] in *.
  destruct (node_elem_name _ _ Nc) as (_ & _ & Id & _). destruct (node_elem_name _ _ Nc') as (_ & _ & Id' & _).
  rewrite (get_dom _ _ _ Id), (get_dom _ _ _ Id') in E. cbn [fst] in E. subst n'. destruct Nc as [I [f H]], Nc' as [I' [f' H']].
  pose proof (node_fun _ _ _ I I'). subst a'. rewrite P in P'. inv P'. rewrite (scope_unique _ _ _ Sk Sk').
  rewrite (node_unique _ _ _ _ _ _ H H'). auto.
Qed.
Lemma declared_node : forall n p tt, attr d n "type" = Some (VStr tt) -> In tt node_kinds -> attr d n "process" = Some (VStr p) -> placed d p ->
  exists a k c, In (n, a) (gnodes (dgraph d)) /\ scope_elem p k /\ within c t /\ is_node_elem d (n, a) c /\ In c (e_kids k) /\
    declared root (dom_of k) (dom_of c).
Proof using SB TP.
  intros n p tt T K P Pl. destruct (placed_scope p Pl) as (k & Sk & W & Sc). destruct (node_in _ _ _ T) as [a [I Ta]].
  rewrite (in_node _ _ _ I) in P. destruct (proj1 (scope_complete p k Sk) (n, a) I P) as [c [Ic Nc]].
  exists a, k, c. split; [exact I|]. split; [exact Sk|]. split; [eapply within_kid; eauto|]. split; [exact Nc|]. split; [exact Ic|].
  split; [exact Sc|]. split; [apply dom_kid; exact Ic|]. exists tt. split; [exact K|]. apply named_dom.
  destruct (node_elem_name _ _ Nc) as (T' & _). cbn [snd] in T'. rewrite Ta in T'. inv T'. congruence.
Qed.
End Scopes.
