(** What reading the exported document gives. *)
From Coq Require Import String List Bool Arith Lia Permutation.
From Verif Require Import Py PyFacts Consts Nx NxFacts Rep SpecRep RepFacts CsvRegex CsvImport CsvFacts Xml Export Import XmlOps
  ImportFacts SpecXml XmlScopes ActionFacts DiFacts LoadFacts Prop_XmlImport XmlLayout Prop_XmlLayout ExportFacts ExportTree Prop_XmlExported
  SpecRound ExportScopes RoundNodes RoundLoad.
Import ListNotations.
Open Scope string_scope.
Open Scope list_scope.

Lemma storable_ordinary : forall d, storable d -> ordinary_types d.
Proof.
  intros d SB n a s I H Q. pose proof (type_of d SB _ _ _ I H) as K. rewrite (known_local _ K) in Q. simpl in K, Q. intuition (subst; discriminate).
Qed.
Lemma round_dom : forall so fuel d d', storable d -> round_trip so fuel d d' ->
  exists t, export_tree fuel d = Ok t /\ strings t /\ load_diagram_from_xml so (dom_of t) empty_diagram = (d', Ok tt).
Proof.
  intros so fuel d d' SB (file & H & L). destruct (C38_exported so fuel d file empty_diagram (storable_ordinary d SB) H) as (t & plain & X & Y & Z).
  assert (N : neat t) by (eapply neat_tree; [apply storable_ordinary; exact SB|exact X]).
  destruct (document_neat _ _ N Y) as [-> S]. exists t. rewrite <- Z. auto.
Qed.
Lemma rmap_map : forall A B C (f : A -> res B) (g : A -> list C) (h : B -> list C) l r, (forall x y, In x l -> f x = Ok y -> h y = g x) -> rmap f l = Ok r ->
  flat_map h r = flat_map g l.
Proof.
  intros A B C f g h. induction l as [|x l IH]; intros r F H; cbn [rmap] in H; [inv H; reflexivity|].
  destruct (f x) as [y|] eqn:E; [|discriminate]. cbn [rbind] in H. destruct (rmap f l) as [r'|] eqn:E'; [|discriminate]. inv H. cbn [flat_map].
  rewrite (F x y) by (simpl; auto). rewrite (IH r'); [reflexivity| |reflexivity]. intros. apply F; simpl; auto.
Qed.
Lemma filter_process : forall p d l (g : string * attrs -> list string), get_nodes_list_by_process_id p d = Ok l ->
  flat_map g l = flat_map (fun na => match dget "process" (snd na) with Some (VStr q) => if string_dec p q then g na else [] | _ => [] end) (gnodes (dgraph d)).
Proof.
  intros p d l g H. unfold get_nodes_list_by_process_id, nodes_view in H. revert l H.
  induction (gnodes (dgraph d)) as [|[n a] ns IH]; intros l H; cbn [rfilter] in H; [inv H; reflexivity|].
  unfold attr_is at 1 in H. cbn [snd] in H. destruct (dgetE k_process a) as [v|] eqn:D; [|discriminate]. apply dgetE_ok in D. change k_process with "process" in D.
  cbn [rbind] in H. destruct (rfilter _ ns) as [r|]; [|discriminate]. cbn [rbind] in H. specialize (IH _ eq_refl).
  cbn [flat_map snd]. rewrite D. destruct v as [|q| | | | |]; try (cbn in H; inv H; exact IH).
  cbn [veqs] in H. destruct (string_dec p q) as [<- |N].
  - rewrite eqb_refl' in H. inv H. cbn [flat_map]. rewrite IH. reflexivity.
  - destruct (String.eqb_spec q p) as [->|_]; [contradiction|]. inv H. exact IH.
Qed.
Definition kind_child (x : dom) : list string :=
  match x with DElem g _ _ => if in_dec string_dec (local_name g) node_kinds then [get_attribute "id" x] else [] | _ => [] end.
Lemma node_children_unfold : forall e, node_children e = flat_map kind_child (d_kids e).
Proof. reflexivity. Qed.
Lemma kind_child_none : forall c, ~ In (local_name (e_tag c)) node_kinds -> kind_child (dom_of c) = [].
Proof. intros [g a x tl ks] N. cbn [dom_of kind_child e_tag] in *. destruct (in_dec _ _ _); [contradiction|reflexivity]. Qed.
Lemma kind_child_some : forall c, In (local_name (e_tag c)) node_kinds -> kind_child (dom_of c) = [get_attribute "id" (dom_of c)].
Proof. intros [g a x tl ks] N. cbn [dom_of kind_child e_tag] in *. destruct (in_dec _ _ _); [reflexivity|contradiction]. Qed.
Lemma kind_children : forall k, flat_map kind_child (d_kids (dom_of k)) = flat_map (fun c => kind_child (dom_of c)) (e_kids k).
Proof.
  intros [g a x tl ks]. cbn [dom_of d_kids e_kids]. rewrite flat_map_app.
  assert (T : flat_map kind_child (text_nodes x) = []) by (destruct x as [[|? ?]|]; reflexivity). rewrite T. cbn [app].
  induction ks as [|c ks IH]; [reflexivity|]. cbn [map flat_map]. rewrite IH. reflexivity.
Qed.
Lemma flat_map_nil : forall A B (f : A -> list B) l, (forall x, In x l -> f x = []) -> flat_map f l = [].
Proof. intros A B f. induction l as [|x l IH]; intros H; [reflexivity|]. cbn [flat_map]. rewrite (H x) by (left; reflexivity). apply IH. intros y I. apply H. right. exact I. Qed.

Section Round.
Variable d : diagram.
Hypothesis SB : storable d.
Variables (fuel : nat) (t : etree).
Hypothesis TP : export_tree fuel d = Ok t.
Hypothesis ST : strings t.
Notation root := (dom_of t).

Lemma nodes_children : forall p ns es f, get_nodes_list_by_process_id p d = Ok ns -> rmap (export_node_data f d) ns = Ok es ->
  flat_map (fun c => kind_child (dom_of c)) es = nodes_in d p.
Proof using SB.
  intros p ns es f N Es. pose (g := fun na : string * attrs => match dget "type" (snd na) with
      | Some (VStr t) => if in_dec string_dec t node_kinds then [fst na] else [] | _ => [] end).
  rewrite (rmap_map _ _ _ (export_node_data f d) g (fun c => kind_child (dom_of c)) ns es); [|intros na c I H|exact Es].
  - rewrite (filter_process p d ns g N). unfold nodes_in, g. apply flat_map_ext. intros na.
    destruct (dget "process" (snd na)) as [[|q| | | | |]|]; try reflexivity. destruct (dget "type" (snd na)) as [[|tt| | | | |]|]; destruct (string_dec p q); try reflexivity;
    destruct (in_dec _ _ _); reflexivity.
  - apply (nodes_by_process _ _ _ N) in I. destruct I as [I _]. assert (Nc : is_node_elem d na c) by (split; [exact I|eauto]).
    destruct (node_elem_name d SB _ _ Nc) as (T & _ & Id & _). unfold g. rewrite T.
    destruct (in_dec _ _ _) as [Y|Y]; [rewrite kind_child_some by exact Y; rewrite (get_dom _ _ _ Id); reflexivity|apply kind_child_none; exact Y].
Qed.
Lemma flows_children : forall p fs, rmap (fun e => export_flow_process_data (snd e)) (get_flows_list_by_process_id p d) = Ok fs ->
  flat_map (fun c => kind_child (dom_of c)) fs = [].
Proof using.
  clear. intros p fs H. apply flat_map_nil. intros c I. destruct (rmap_out _ _ _ _ _ H c I) as [e [_ E]]. apply kind_child_none.
  destruct (flow_inv _ _ E) as [(i & n & s & g & _ & _ & _ & _ & [[_ ->]|(cid & x & _ & ->)])]; simpl; intuition discriminate.
Qed.
Lemma scope_nodes : forall p k, scope_elem d fuel p k -> node_children (dom_of k) = nodes_in d p.
Proof using SB.
  intros p k Sk. rewrite node_children_unfold, kind_children. destruct Sk as [(a & sh & _ & H)|(a & (I & f & H) & T)].
  - apply process_inv in H. destruct H as [(c & x & u & ls & ns & es & fs & _ & _ & _ & L & N & Es & Fs & E)]. cbn [fst] in E. subst k. cbn [e_kids elem].
    rewrite !flat_map_app. rewrite (nodes_children _ _ _ _ N Es), (flows_children _ _ Fs), app_nil_r.
    rewrite (flat_map_nil _ _ _ ls); [reflexivity|]. intros z Iz. apply kind_child_none. intros Q.
    pose proof (proj1 (fine_lanes_out _ _ _ L) z Iz) as F. pose proof (fine_inside _ _ F _ _ (inside_here _) (proj2 (named_dom _ _) eq_refl)) as Q'.
    unfold lane_tag in Q'. simpl in Q. intuition congruence.
  - destruct (node_inv _ _ _ _ _ H) as (f' & s & name & li & lo & more & _ & [Ht _ _ _ Hm ->]). rewrite T in Ht. inv Ht.
    destruct (sub_inv _ _ _ _ Hm) as (s & ns & es & fs & tr & Ds & _ & N & Es & Fs & ->).
    pose proof (sb_subs _ SB p) as Q. rewrite !(in_node d SB _ _ _ I) in Q. destruct (Q T) as [Q1 _]. rewrite Ds in Q1. inv Q1.
    cbn [e_kids node_elem elem snd]. rewrite !flat_map_app. rewrite (nodes_children _ _ _ _ N Es), (flows_children _ _ Fs), app_nil_r.
    rewrite !flat_map_nil; [reflexivity| |]; intros z Iz; apply in_map_iff in Iz; destruct Iz as [s [<- _]]; reflexivity.
Qed.
Lemma flow_unique : forall s f s' g, flow_in root s f -> flow_in root s' g -> get_attribute "id" f = get_attribute "id" g -> s = s' /\ f = g.
Proof using SB TP ST.
  intros s f s' g F G E. destruct (flow_of d SB fuel t TP s f F) as (p & k & v & c & Sk & W & -> & Fc & Ic & -> & Pr).
  destruct (flow_of d SB fuel t TP s' g G) as (p' & k' & v' & c' & Sk' & W' & -> & Fc' & Ic' & -> & Pr').
  pose proof (flow_elem_facts d t ST _ _ Fc (within_kid _ _ _ W Ic)) as X. pose proof (flow_elem_facts d t ST _ _ Fc' (within_kid _ _ _ W' Ic')) as X'.
  destruct Fc as [Iv Hc], Fc' as [Iv' Hc'].
  destruct (view_in_edge _ _ (sb_graph _ SB) Iv) as [e [Ie R]], (view_in_edge _ _ (sb_graph _ SB) Iv') as [e' [Ie' R']].
  assert (Ea : snd v = eat e) by (unfold reports in R; tauto). assert (Ea' : snd v' = eat e') by (unfold reports in R'; tauto).
  pose proof (fe_id _ _ X) as D. pose proof (fe_id _ _ X') as D'. rewrite <- E in D'. rewrite Ea in *. rewrite Ea' in *.
  pose proof (sb_edge_ids _ SB e e' _ Ie Ie' D D'). subst e'. rewrite Pr in Pr'. inv Pr'. rewrite (scope_unique d SB fuel _ _ _ Sk Sk').
  rewrite Hc in Hc'. inv Hc'. auto.
Qed.
End Round.
