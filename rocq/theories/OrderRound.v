(** Saving and loading a diagram with one process: the order of the nodes, and the conditions of
    the layouter. *)
From Coq Require Import String List Bool Arith Lia Permutation.
From Verif Require Import Py PyFacts Consts Nx NxFacts Rep SpecRep RepFacts CsvRegex CsvImport CsvFacts Xml Export Import XmlOps
  ImportFacts SpecXml XmlScopes ActionFacts DiFacts LoadFacts Prop_XmlImport XmlLayout Prop_XmlLayout ExportFacts ExportTree Prop_XmlExported
  SpecRound ExportScopes RoundNodes RoundLoad RoundBack Prop_XmlRound SpecLayout SpecPlan SpecSame SameFacts SameRound SpecOrder KeyOrder.
Import ListNotations.
Open Scope string_scope.
Open Scope list_scope.

Lemma firsts_same : forall l, NoDup l -> firsts l = l.
Proof.
  induction l as [|x l IH]; intros N; [reflexivity|]. inv N. cbn [firsts]. f_equal. rewrite IH by assumption. clear -H1.
  induction l as [|y l IH]; [reflexivity|]. cbn [filter]. destruct (string_dec y x) as [->|]; [exfalso; apply H1; left; reflexivity|].
  f_equal. apply IH. intros I. apply H1. right. exact I.
Qed.
Lemma add_all_same : forall (l : list dom) x ks, (forall y, In y l -> y = x) -> incl (below x) ks -> add_all ks (flat_map below l) = ks.
Proof.
  intros l x ks H I. apply add_all_in. intros n J. apply in_flat_map in J. destruct J as (y & Iy & Jn). rewrite (H y Iy) in Jn. apply I. exact Jn.
Qed.

Section One.
Variable d : diagram.
Hypothesis SB : storable d.
Hypothesis CP : complete d.
Variables (fuel : nat) (t : etree).
Hypothesis TP : export_tree fuel d = Ok t.
Hypothesis ST : strings t.
Notation root := (dom_of t).
Variable p : string.
Hypothesis AI : all_in d p.

Lemma one_kind : forall n, is_node d n -> exists s, attr d n "type" = Some (VStr s) /\ In s node_kinds /\ attr d n "process" = Some (VStr p).
Proof using AI.
  intros n I. destruct AI as (_ & A & _). destruct (A n I) as (P & s & T & K). eauto.
Qed.
Lemma one_nodes : nodes_in d p = node_order d.
Proof using SB AI.
  unfold nodes_in, node_order. assert (U := gwf_nodup _ (sb_graph _ SB)). unfold dkeys in U.
  assert (H : forall na, In na (gnodes (dgraph d)) -> exists s, dget "type" (snd na) = Some (VStr s) /\ In s node_kinds /\ dget "process" (snd na) = Some (VStr p)).
  { intros [n a] I. destruct (one_kind n (in_is_node _ _ _ I)) as (s & T & K & P). rewrite !(in_node d SB _ _ _ I) in *. exists s. auto. }
  clear U. induction (gnodes (dgraph d)) as [|na l IH]; [reflexivity|]. cbn [flat_map map]. rewrite IH by (intros x I; apply H; right; exact I).
  destruct (H na (or_introl eq_refl)) as (s & T & K & P). rewrite P, T. destruct (in_dec _ _ _); [|contradiction]. destruct (string_dec p p); [reflexivity|contradiction].
Qed.
Lemma one_empty : forall q, q <> p -> nodes_in d q = [].
Proof using SB AI.
  intros q N. unfold nodes_in. apply flat_map_nil. intros [n a] I. destruct (one_kind n (in_is_node _ _ _ I)) as (s & T & K & P).
  rewrite !(in_node d SB _ _ _ I) in *. cbn [snd]. rewrite P, T. destruct (in_dec _ _ _); [|reflexivity]. destruct (string_dec q p); [contradiction|reflexivity].
Qed.
(** A scope of the document: its nodes. *)
Lemma empty_below : forall e, node_children e = [] -> below e = [].
Proof using.
  clear. intros [g a ks|s|s] H; try reflexivity. rewrite below_own. rewrite node_children_unfold in H. apply flat_map_nil. intros x I.
  assert (K : kind_child x = []).
  { destruct (kind_child x) as [|y l] eqn:E; [reflexivity|]. exfalso. assert (In y (flat_map kind_child (d_kids (DElem g a ks)))) by (apply in_flat_map; exists x; split; [exact I|rewrite E; left; reflexivity]).
    rewrite H in H0. destruct H0. }
  destruct x as [g' a' k'|s|s]; try reflexivity. cbn [kind_child] in K. unfold own.
  destruct (in_dec string_dec (local_name g') node_kinds) as [J|J]; [discriminate|]. destruct (string_dec _ _) as [E|E]; [|reflexivity].
  exfalso. apply J. rewrite E. simpl. tauto.
Qed.
Lemma sub_empty : forall s x, scope root s -> In x (d_kids s) -> named "subProcess" x -> below x = [].
Proof using SB TP AI.
  intros s x Sc I N. apply empty_below. destruct (scope_of d SB fuel t TP x (scope_sub _ _ _ Sc I N)) as (q & k & Sk & W & E). subst x.
  rewrite (scope_nodes d SB fuel q k Sk). apply one_empty. intros ->. destruct Sk as [Pe|(a & Ne & T)].
  - apply process_name in Pe. destruct Pe as [Pt _]. apply named_dom in N. rewrite Pt in N. discriminate.
  - destruct Ne as [In_ _]. destruct (sb_subs _ SB p) as [_ Q]; [rewrite (in_node d SB _ _ _ In_); exact T|]. apply Q. destruct AI as (-> & _). left. reflexivity.
Qed.
Lemma scope_below : forall q k, scope_elem d fuel q k -> scope root (dom_of k) -> below (dom_of k) = nodes_in d q.
Proof using SB TP AI.
  intros q k Sk Sc. rewrite <- (scope_nodes d SB fuel q k Sk). rewrite below_own, node_children_unfold. 
  assert (H : forall x, In x (d_kids (dom_of k)) -> own x = kind_child x).
  { intros x I. destruct x as [g a ks|s|s]; try reflexivity. unfold own, kind_child. destruct (string_dec (local_name g) "subProcess") as [E|E].
    - rewrite (sub_empty (dom_of k) (DElem g a ks) Sc I E), app_nil_r. reflexivity.
    - rewrite app_nil_r. reflexivity. }
  induction (d_kids (dom_of k)) as [|x l IH]; [reflexivity|]. cbn [flat_map]. rewrite H by (left; reflexivity). f_equal. apply IH. intros y I. apply H. right. exact I.
Qed.
Lemma one_flows : flows_inside root.
Proof using SB CP TP ST AI.
  intros s x F. pose proof (proj1 F) as Sc. destruct (flow_declared_edge d SB fuel t TP ST s x F) as (e & q & k & c & Ie & Pe & Sk & -> & -> & X).
  destruct (sb_flows _ SB e q Ie Pe) as (f & u & v & (F1 & F2 & F3 & _) & S & _).
  pose proof (fe_src _ _ X) as G2. pose proof (fe_tgt _ _ X) as G3. rewrite F2 in G2. rewrite F3 in G3. inv G2. inv G3.
  destruct AI as (_ & _ & AF). pose proof (AF e q Ie Pe). subst q.
  rewrite (scope_below p k Sk Sc), one_nodes. destruct (gwf_ends _ (sb_graph _ SB) e Ie) as [A B]. unfold node_order, dkeys in *.
  destruct S as [[<- <-]|[<- <-]]; auto.
Qed.
Lemma one_partners : incl (partners root) (node_order d).
Proof using SB CP TP ST AI.
  intros n I. unfold partners in I. destruct (collaboration_of root) as [c|] eqn:Hc; [|destruct I]. apply in_flat_map in I. destruct I as (x & Ix & I).
  destruct x as [g a ks|s|s]; try contradiction. destruct (string_dec (local_name g) "participant") as [E|E].
  - destruct (string_dec _ "") as [R|R]; [|destruct I]. destruct I as [<-|[]].
    destruct (participant_of d SB fuel t TP ST (DElem g a ks)) as (cc & q & b & Hcc & Ib & Iq & Rq & _); [exists c; auto|]. rewrite R in Rq. rewrite Iq.
    apply (cp_nodes _ CP). right. exists cc, b. auto.
  - destruct (string_dec (local_name g) "messageFlow") as [E'|E']; [|destruct I].
    destruct (message_of d SB fuel t TP (DElem g a ks)) as (cc & m & rr & Hcc & Im & Id & Sr & Tr & _); [exists c; auto|].
    destruct (cp_messages _ CP _ _ _ Hcc Im) as (e & Ie & S & _). rewrite Sr, Tr in I.
    destruct (gwf_ends _ (sb_graph _ SB) e Ie) as [A B]. unfold node_order, dkeys in *. destruct S as [[S1 S2]|[S1 S2]]; destruct I as [<-|[<-|[]]]; congruence.
Qed.
Lemma one_order : firsts (flat_map below (document_elements "process" root) ++ partners root) = node_order d.
Proof using SB CP TP ST AI.
  destruct (placed_scope d SB fuel t TP p) as (k & Sk & W & Sc); [apply placed_process; destruct AI as (-> & _); left; reflexivity|].
  assert (H : forall x, In x (document_elements "process" root) -> x = dom_of k).
  { intros x I. apply in_document in I. destruct I as [I N]. destruct (process_in_root d SB fuel t TP x I N) as (q & k' & Pe & _ & ->).
    assert (q = p). { destruct Pe as (a & sh & Ip & _). apply (in_map fst) in Ip. destruct AI as (E & _). rewrite E in Ip. destruct Ip as [Ip|[]]. symmetry. exact Ip. }
    subst q. f_equal. apply (scope_unique d SB fuel p k' k); [left; exact Pe|exact Sk]. }
  assert (Ne : document_elements "process" root <> []).
  { intros E. assert (J : In (dom_of k) (document_elements "process" root)); [|rewrite E in J; destruct J]. apply in_document.
    inversion Sc as [y I N Ey|s y S I N Ey]; [auto|]. exfalso. destruct Sk as [Pe|(a & Na & T)].
    - apply process_name in Pe. destruct Pe as [Pt _]. apply named_dom in N. rewrite Pt in N. discriminate.
    - destruct Na as [In_ _]. destruct (sb_subs _ SB p) as [_ Q]; [rewrite (in_node d SB _ _ _ In_); exact T|]. apply Q. destruct AI as (-> & _). left. reflexivity. }
  rewrite <- firsts_start, add_all_app. destruct (document_elements "process" root) as [|x l]; [congruence|]. cbn [flat_map]. rewrite add_all_app.
  rewrite (H x (or_introl eq_refl)), firsts_start, (scope_below p k Sk Sc), one_nodes, firsts_same by exact (gwf_nodup _ (sb_graph _ SB)).
  rewrite (add_all_same l (dom_of k)); [apply add_all_in, one_partners|intros y I; apply H; right; exact I|].
  rewrite (scope_below p k Sk Sc), one_nodes. apply incl_refl.
Qed.
End One.

Lemma round_order : forall so fuel d d' p, storable d -> complete d -> all_in d p -> round_trip so fuel d d' -> node_order d' = node_order d.
Proof.
  intros so fuel d d' p SB CP AI R. destruct (round_dom so fuel d d' SB R) as (t & TP & ST & LD).
  rewrite (load_order so _ _ _ LD), (core_order _ _ (one_flows d SB CP fuel t TP ST p AI)). 
  change (node_order empty_diagram) with (@nil string). rewrite firsts_start. apply (one_order d SB CP fuel t TP ST p AI).
Qed.

(** * The conditions of the layouter *)
Lemma goes_edge : forall d f n m, gwf (dgraph d) -> all_ids d ->
  (flow_goes d f n m <-> exists e, In e (gedges (dgraph d)) /\ dget "id" (eat e) = Some (VStr f) /\ dget "sourceRef" (eat e) = Some (VStr n) /\
     dget "targetRef" (eat e) = Some (VStr m)).
Proof.
  intros d f n m W [A U]. unfold flow_goes, get_flow_by_id, get_flows.
  assert (V : forall t, In t (edges_view (dgraph d)) -> exists e, In e (gedges (dgraph d)) /\ eat e = snd t).
  { intros t I. destruct (view_in_edge _ _ W I) as [e [Ie R]]. exists e. split; [exact Ie|]. unfold reports in R. symmetry. tauto. }
  rewrite first_find.
  2:{ intros t I. destruct (V t I) as (e & Ie & E). rewrite <- E. apply A. exact Ie. }
  split.
  - intros (t & Et & T). inv Et. apply find_some in H0. destruct H0 as [I B]. destruct (V t I) as (e & Ie & E).
    exists e. split; [exact Ie|]. rewrite E. split; [|exact T]. unfold id_is in B. destruct (A e Ie) as [g G]. rewrite E in G. rewrite G in *.
    simpl in B. apply String.eqb_eq in B. subst. reflexivity.
  - intros (e & Ie & Id & T). destruct (edge_in_view _ _ W Ie) as (t & It & Ea & _).
    destruct (find (id_is f) (edges_view (dgraph d))) as [t'|] eqn:Ef.
    + exists t'. split; [reflexivity|]. apply find_some in Ef. destruct Ef as [I B]. destruct (V t' I) as (e' & Ie' & E).
      assert (e' = e); [|subst; rewrite <- E; exact T]. destruct (A e' Ie') as [g G]. apply (U e' e f Ie' Ie); [|exact Id].
      rewrite E in *. unfold id_is in B. rewrite G in *. simpl in B. apply String.eqb_eq in B. subst. reflexivity.
    + exfalso. pose proof (find_none _ _ Ef t It) as C. unfold id_is in C. rewrite Ea, Id in C. simpl in C. rewrite eqb_refl' in C. discriminate.
Qed.

Section Again.
Variables (so : list string -> list string) (fuel : nat) (d d' : diagram).
Hypothesis Po : any_order so.
Hypothesis SB : storable d.
Hypothesis CP : complete d.
Hypothesis PF : forall e, In e (gedges (dgraph d)) -> exists p, dget "process" (eat e) = Some (VStr p) /\ placed d p.
Hypothesis AP : forall n, is_node d n -> in_process d n.
Hypothesis R : round_trip so fuel d d'.

Definition same_flow (e e' : edge) : Prop :=
  same_pair (eu e) (ev e) (eu e') (ev e') /\ exists f u v, same_pair (eu e) (ev e) u v /\
  dget "id" (eat e) = Some (VStr f) /\ dget "sourceRef" (eat e) = Some (VStr u) /\ dget "targetRef" (eat e) = Some (VStr v) /\
  dget "id" (eat e') = Some (VStr f) /\ dget "sourceRef" (eat e') = Some (VStr u) /\ dget "targetRef" (eat e') = Some (VStr v).
Let W' : gwf (dgraph d') := round_gwf so fuel d d' SB R.
Lemma edge_there : forall e, In e (gedges (dgraph d)) -> exists e', In e' (gedges (dgraph d')) /\ same_flow e e'.
Proof using SB PF R.
  intros e I. destruct (PF e I) as (p & P & Pl). destruct (sb_flows _ SB e p I P) as (f & u & v & FE & S & _).
  destruct (C35_flows so fuel d d' e f u v p SB R I FE Pl) as ((e1 & I1 & S1 & D1) & _ & (e2 & I2 & S2 & D2) & (e3 & I3 & S3 & D3) & _).
  assert (e2 = e1) by (apply (gwf_unique (dgraph d')); auto; apply connects_same; eapply same_pair_tr; [exact S2|apply same_pair_swap; exact S1]).
  assert (e3 = e1) by (apply (gwf_unique (dgraph d')); auto; apply connects_same; eapply same_pair_tr; [exact S3|apply same_pair_swap; exact S1]).
  subst. destruct FE as (F1 & F2 & F3 & _). exists e1. split; [exact I1|]. split; [eapply same_pair_tr; [exact S|apply same_pair_swap; exact S1]|].
  exists f, u, v. auto 10.
Qed.
Lemma edge_back : forall e', In e' (gedges (dgraph d')) -> exists e, In e (gedges (dgraph d)) /\ same_flow e e'.
Proof using SB CP PF R.
  intros e' I'. destruct (proj1 (C35_same_connections so fuel d d' SB CP R (eu e') (ev e'))) as (e & I & S).
  { exists e'. split; [exact I'|]. apply same_pair_refl. }
  destruct (edge_there e I) as (e1 & I1 & F). assert (e1 = e').
  { apply (gwf_unique (dgraph d')); auto. apply connects_same. eapply same_pair_tr; [apply same_pair_swap; exact (proj1 F)|exact S]. }
  subst. eauto.
Qed.
Lemma ids_there : all_ids d.
Proof using SB PF R.
  split; [|apply (sb_edge_ids _ SB)]. intros e I. destruct (edge_there e I) as (e' & _ & _ & f & u & v & _ & D & _). eauto.
Qed.
Lemma ids_back : all_ids d'.
Proof using SB CP PF R.
  split.
  - intros e' I'. destruct (edge_back e' I') as (e & I & _ & f & u & v & _ & _ & _ & _ & D & _). eauto.
  - intros e1 e2 f I1 I2 D1 D2. destruct (edge_back e1 I1) as (a & Ia & Sa & g & u & v & _ & Ga & _ & _ & G & _).
    destruct (edge_back e2 I2) as (b & Ib & Sb & g' & u' & v' & _ & Gb & _ & _ & G' & _).
    rewrite D1 in G. inv G. rewrite D2 in G'. inv G'. pose proof (sb_edge_ids _ SB a b _ Ia Ib Ga Gb). subst b.
    apply (gwf_unique (dgraph d')); auto. apply connects_same. eapply same_pair_tr; [apply same_pair_swap; exact Sa|exact Sb].
Qed.
Lemma round_goes : forall f n m, flow_goes d' f n m <-> flow_goes d f n m.
Proof using SB CP PF R.
  intros f n m. rewrite (goes_edge d' f n m W' ids_back), (goes_edge d f n m (sb_graph _ SB) ids_there). split.
  - intros (e' & I' & D1 & D2 & D3). destruct (edge_back e' I') as (e & I & _ & g & u & v & _ & A & B & C & A' & B' & C').
    exists e. rewrite D1 in A'. rewrite D2 in B'. rewrite D3 in C'. inv A'. inv B'. inv C'. auto.
  - intros (e & I & D1 & D2 & D3). destruct (edge_there e I) as (e' & I' & _ & g & u & v & _ & A & B & C & A' & B' & C').
    exists e'. rewrite D1 in A. rewrite D2 in B. rewrite D3 in C. inv A. inv B. inv C. auto.
Qed.
Lemma round_out : forall n, outgoing_of d' n = outgoing_of d n.
Proof using SB CP AP R. intros n. unfold outgoing_of. rewrite (round_lists so fuel d d' SB CP AP R) by auto. reflexivity. Qed.
Lemma round_inc : forall n, incoming_of d' n = incoming_of d n.
Proof using SB CP AP R. intros n. unfold incoming_of. rewrite (round_lists so fuel d d' SB CP AP R) by auto. reflexivity. Qed.
Lemma round_flow : forall f n m, flow d' f n m <-> flow d f n m.
Proof using SB CP PF AP R. intros f n m. unfold flow. rewrite round_out, round_inc, round_goes. tauto. Qed.
Lemma round_coherent : coherent d -> coherent d'.
Proof using Po SB CP PF AP R.
  pose proof (round_lists so fuel d d' SB CP AP R) as Ls. pose proof (round_types so fuel d d' Po SB CP R) as Ty.
  pose proof (C34_same_nodes so fuel d d' SB CP R) as Nd.
  intros [[U L] [N [C1 C2]]]. split; [split|split; [|split]].
  - exact (gwf_nodup _ W').
  - intros n Hn. apply Nd in Hn. rewrite Ty, !Ls by auto. apply (L n Hn).
  - intros n Hn. apply Nd in Hn. rewrite round_out, round_inc. auto.
  - intros n f. rewrite round_out. intros H. destruct (C1 n f H) as [m [H1 H2]]. exists m. rewrite round_inc. split; auto. apply round_goes. auto.
  - intros m f. rewrite round_inc. intros H. destruct (C2 m f H) as [n [H1 H2]]. exists n. rewrite round_out. split; auto. apply round_goes. auto.
Qed.
Lemma round_laid_out : all_laid_out d -> all_laid_out d'.
Proof using Po SB CP R.
  intros A n Hn. apply (C34_same_nodes so fuel d d' SB CP R) in Hn. rewrite (round_types so fuel d d' Po SB CP R). auto.
Qed.
Lemma round_drawable : drawable d'.
Proof using SB CP PF R.
  intros t It. unfold get_flows in It. destruct (view_in_edge _ _ W' It) as [e' [Ie Re]]. destruct (edge_back e' Ie) as (e & I & _ & f & u & v & S & _ & _ & _ & _ & D2 & D3).
  assert (E : snd t = eat e') by (unfold reports in Re; tauto). rewrite E. exists u, v. split; [exact D2|]. split; [exact D3|].
  rewrite !(C34_same_nodes so fuel d d' SB CP R). destruct (gwf_ends _ (sb_graph _ SB) e I) as [A B]. unfold is_node. unfold dkeys in *.
  destruct S as [[<- <-]|[<- <-]]; auto.
Qed.
Lemma round_single : single_flows d -> single_flows d'.
Proof using SB CP PF AP R. intros S f g x y F G. apply round_flow in F. apply round_flow in G. eapply S; eauto. Qed.
End Again.
