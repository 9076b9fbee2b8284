(** The message flows of a diagram that was saved and loaded. *)
From Coq Require Import String List Bool Arith Lia Permutation.
From Verif Require Import Py PyFacts Consts Nx NxFacts Rep SpecRep RepFacts CsvRegex CsvImport CsvFacts Xml Export Import XmlOps
  ImportFacts ActionFacts DiFacts LoadFacts SpecXml XmlScopes Prop_XmlImport ExportFacts ExportTree ExportScopes SpecRound RoundNodes RoundLoad RoundBack RoundLoads
  Prop_XmlRound Prop_XmlLanes Prop_XmlDrawn SpecOrder KeyOrder OrderRound SameRound.
Import ListNotations.
Open Scope string_scope.
Open Scope list_scope.

Lemma edge_source : forall u v k A x0 x, fold_left (fun x a => edge_eff a u v k x) A x0 = Some x ->
  x0 = Some x \/ exists a, In a A /\ edge_new a u v = true /\ dget k (rev (edge_fields a)) = Some x.
Proof.
  intros u v k. induction A as [|a A IH]; intros x0 x H; [left; exact H|]. cbn [fold_left] in H. apply IH in H.
  destruct H as [H|(b & I & N & D)]; [|right; exists b; split; [right; exact I|auto]]. unfold edge_eff in H. destruct (edge_new a u v) eqn:N; [|left; exact H].
  unfold overlay in H. destruct (dget k (rev (edge_fields a))) as [y|] eqn:D; [|left; exact H]. right. exists a. split; [left; reflexivity|]. split; [exact N|congruence].
Qed.
Lemma first_flow_id : forall l f t, first_flow f l = Ok (Some t) -> In t l /\ dget "id" (snd t) = Some (VStr f).
Proof.
  induction l as [|x l IH]; intros f t H; [discriminate|]. cbn [first_flow] in H. unfold dgetE in H. change k_id with "id" in H.
  destruct (dget "id" (snd x)) as [v|] eqn:D; [|discriminate]. cbn [rbind] in H. destruct (veqs v f) eqn:V.
  - injection H as <-. split; [left; reflexivity|]. unfold veqs in V. destruct v; try discriminate. apply String.eqb_eq in V. subst. exact D.
  - destruct (IH f t H) as [I E]. split; [right; exact I|exact E].
Qed.

(** [e] carries the message flow [m] with the record [r]. *)
Definition carries (d : diagram) (e : edge) (m : string) (r : flow_rec) : Prop :=
  exists c, collaboration d = Some c /\ In (m, r) (co_messages c) /\ same_pair (eu e) (ev e) (fl_src r) (fl_tgt r) /\ dget "id" (eat e) = Some (VStr m).

Lemma carried : forall d e, complete d -> storable d -> In e (gedges (dgraph d)) ->
  (exists p, dget "process" (eat e) = Some (VStr p) /\ placed d p) \/ exists m r, carries d e m r.
Proof.
  intros d e CP SB I. destruct (cp_flows _ CP e I) as [H|(c & m & r & Hc & Im & S)]; [left; exact H|]. right. exists m, r, c. split; [exact Hc|]. split; [exact Im|]. split; [exact S|].
  destruct (cp_messages _ CP c m r Hc Im) as (e0 & I0 & S0 & D0). assert (e0 = e); [|subst; exact D0]. apply (gwf_unique _ _ _ (sb_graph _ SB) I0 I). apply same_pair_connects.
  clear -S S0. unfold same_pair in *. intuition congruence.
Qed.

Section Back.
Variables (so : list string -> list string) (fuel : nat) (d d' : diagram).
Hypothesis SB : storable d.
Hypothesis CP : complete d.
Hypothesis R : round_trip so fuel d d'.
Let W' : gwf (dgraph d') := round_gwf so fuel d d' SB R.

Lemma attr_here : forall u v k x e', link_attr d' u v k x -> In e' (gedges (dgraph d')) -> same_pair (eu e') (ev e') u v -> dget k (eat e') = Some x.
Proof using SB R.
  intros u v k x e' (e & I & S & D) I' E. assert (e = e'); [|congruence]. apply (gwf_unique _ _ _ W' I I'). apply same_pair_connects.
  clear -S E. unfold same_pair in *. intuition congruence.
Qed.
(** Only sequence flows have a process or a condition. *)
Lemma flow_source : forall k, k = "process" \/ k = "conditionExpression" -> forall e' v, In e' (gedges (dgraph d')) -> dget k (eat e') = Some v ->
  exists e q, In e (gedges (dgraph d)) /\ dget "process" (eat e) = Some (VStr q) /\ same_pair (eu e) (ev e) (eu e') (ev e').
Proof using SB R.
  intros k Hk e' v I' D. destruct (round_dom so fuel d d' SB R) as (t & TP & ST & LD). destruct (load_loaded _ _ _ _ LD) as (de & pe & mid & [_ E _ Di _]).
  assert (A : edge_attr d' (eu e') (ev e') k = Some v). { apply edge_attr_link; [exact W'|]. exists e'. split; [exact I'|]. split; [apply same_pair_refl|exact D]. }
  rewrite (ds_edge _ _ _ _ Di) in A.
  assert (L : forall X y, fold_left (fun v0 x => line_attr mid x (eu e') (ev e') k v0) X y = y).
  { induction X as [|x X IHX]; intros y0; [reflexivity|]. cbn [fold_left]. rewrite IHX. unfold line_attr.
    destruct (_ =? _); [|reflexivity]. destruct (known_flow mid (elt x)) as [r|]; [|reflexivity]. destruct (pair_b _ _ _ _); [|reflexivity]. destruct Hk as [-> | ->]; reflexivity. }
  rewrite L, (es_edge _ _ _ _ _ E) in A. change (edge_attr (start de pe empty_diagram) (eu e') (ev e') k) with (@None pyval) in A.
  apply edge_source in A. destruct A as [A|(a & Ia & Na & F)]; [discriminate|].
  pose proof (core_explained (dom_of t)) as X. rewrite Forall_forall in X. specialize (X a Ia). destruct a as [x|o x|o g| |x|g|g]; try discriminate; [|destruct Hk as [-> | ->]; discriminate].
  cbn [edge_new] in Na. apply pair_b_spec in Na. cbn [explained] in X. destruct X as [s [Fl _]].
  destruct (flow_declared_edge d SB fuel t TP ST s g Fl) as (e & q & k' & c' & Ie & Pe & _ & _ & -> & X).
  destruct (sb_flows _ SB e q Ie Pe) as (f' & u & w & (E1 & E2 & E3 & _) & S & _). pose proof (fe_src _ _ X) as G2. pose proof (fe_tgt _ _ X) as G3.
  rewrite E2 in G2. rewrite E3 in G3. injection G2 as ->. injection G3 as ->. exists e, q. split; [exact Ie|]. split; [exact Pe|].
  clear -S Na. unfold same_pair, src, tgt in *. intuition congruence.
Qed.
(** Every connection that was loaded is a sequence flow or a message flow that was saved. *)
Lemma edge_cases : forall e', In e' (gedges (dgraph d')) ->
  (exists e i u v p, In e (gedges (dgraph d)) /\ flow_edge e i u v p /\ placed d p /\ same_pair (eu e) (ev e) u v /\
    same_pair (eu e') (ev e') u v /\ flow_edge e' i u v p) \/
  (exists e m r, In e (gedges (dgraph d)) /\ carries d e m r /\ carries d' e' m r /\ dget "process" (eat e') = None /\ dget "conditionExpression" (eat e') = None /\
    exists l, points_of (eat e) l /\ dget "waypoints" (eat e') = Some (VPoints l)).
Proof using SB CP R.
  intros e' I'. destruct (proj1 (C35_same_connections so fuel d d' SB CP R (eu e') (ev e'))) as (e & I & S).
  { exists e'. split; [exact I'|]. apply same_pair_refl. }
  destruct (carried d e CP SB I) as [(p & P & Pl)|(m & r & c & Hc & Im & Sm & Id)].
  - left. destruct (sb_flows _ SB e p I P) as (i & u & v & FE & Se & _). exists e, i, u, v, p. split; [exact I|]. split; [exact FE|]. split; [exact Pl|]. split; [exact Se|].
    assert (S' : same_pair (eu e') (ev e') u v) by (clear -S Se; unfold same_pair in *; intuition congruence). split; [exact S'|].
    destruct (C35_flows so fuel d d' e i u v p SB R I FE Pl) as (L1 & L2 & L3 & L4 & _).
    split; [apply (attr_here u v); assumption|]. split; [apply (attr_here u v); assumption|]. split; apply (attr_here u v); assumption.
  - right. exists e, m, r. assert (S' : same_pair (eu e') (ev e') (fl_src r) (fl_tgt r)) by (clear -S Sm; unfold same_pair in *; intuition congruence).
    split; [exact I|]. split; [exists c; auto|]. destruct (C73_messages so fuel d d' c m r SB CP R Hc Im) as (L1 & _).
    destruct (C73_collaboration so fuel d d' c SB R Hc) as (c' & Hc' & _ & Em & _). split.
    { exists c'. split; [exact Hc'|]. split; [rewrite Em; exact Im|]. split; [exact S'|]. apply (attr_here (fl_src r) (fl_tgt r)); assumption. }
    assert (Bare : forall k, k = "process" \/ k = "conditionExpression" -> dget k (eat e') = None).
    { intros k Hk. destruct (dget k (eat e')) as [v|] eqn:D; [|reflexivity]. exfalso. destruct (flow_source k Hk e' v I' D) as (e1 & q & I1 & P1 & S1).
      destruct (sb_messages _ SB c m r Hc Im) as (_ & _ & No). apply (No e1 q I1 P1). clear -S1 S'. unfold same_pair in *. intuition congruence. }
    split; [apply Bare; auto|]. split; [apply Bare; auto|].
    destruct (C39_messages so fuel d d' c m r SB CP R Hc Im) as (e1 & l & I1 & S1 & Pt & Lw). assert (e1 = e).
      { apply (gwf_unique _ _ _ (sb_graph _ SB) I1 I). apply same_pair_connects. clear -Sm S1. unfold same_pair in *. intuition congruence. }
      subst e1. exists l. split; [exact Pt|]. apply (attr_here (fl_src r) (fl_tgt r)); assumption.
Qed.
Lemma every_id : all_ids d'.
Proof using SB CP R.
  assert (K : forall e', In e' (gedges (dgraph d')) -> exists e f, In e (gedges (dgraph d)) /\ same_pair (eu e) (ev e) (eu e') (ev e') /\ dget "id" (eat e) = Some (VStr f) /\ dget "id" (eat e') = Some (VStr f)).
  { intros e' I'. destruct (edge_cases e' I') as [(e & i & u & v & p & I & (F & _) & _ & S & S' & (F' & _))|(e & m & r & I & (c & _ & _ & S & F) & (c' & _ & _ & S' & F') & _)].
    - exists e, i. split; [exact I|]. split; [clear -S S'; unfold same_pair in *; intuition congruence|auto].
    - exists e, m. split; [exact I|]. split; [clear -S S'; unfold same_pair in *; intuition congruence|auto]. }
  split.
  - intros e' I'. destruct (K e' I') as (e & f & _ & _ & _ & F). eauto.
  - intros e1 e2 f I1 I2 D1 D2. destruct (K e1 I1) as (a & g & Ia & Sa & Ga & G). destruct (K e2 I2) as (b & g' & Ib & Sb & Gb & G').
    rewrite D1 in G. injection G as <-. rewrite D2 in G'. injection G' as <-. pose proof (sb_edge_ids _ SB a b f Ia Ib Ga Gb). subst b.
    apply (gwf_unique (dgraph d')); auto. apply same_pair_connects. clear -Sa Sb. unfold same_pair in *. intuition congruence.
Qed.
(** A message flow is written like it was before. *)
Lemma message_again : forall c m x, collaboration d = Some c -> In m (co_messages c) -> export_message_flow d m = Ok x -> export_message_flow d' m = Ok x.
Proof using SB CP R.
  intros c [m r] x Hc Im H. destruct (message_inv _ _ _ H) as (t & w & F & Wp & ->). cbn [fst snd] in *. unfold get_flow_by_id, get_flows in F. apply first_flow_id in F. destruct F as [It Et].
  destruct (view_in_edge _ _ (sb_graph _ SB) It) as [e [Ie [Ea _]]]. destruct (C73_messages so fuel d d' c m r SB CP R Hc Im) as ((e' & I' & S' & D') & _).
  destruct (edge_cases e' I') as [(e0 & i & u & v & p & I0 & FE & _ & S0 & S1 & (F' & _))|(e0 & m0 & r0 & I0 & (c0 & _ & _ & _ & F0) & (c1 & _ & _ & _ & F1) & _ & _ & l & Pt & Lw)].
  { exfalso. destruct FE as (_ & _ & _ & P). destruct (sb_messages _ SB c m r Hc Im) as (_ & _ & No). apply (No e0 p I0 P). clear -S' S0 S1. unfold same_pair in *. intuition congruence. }
  rewrite D' in F1. injection F1 as <-. rewrite Ea in Et. assert (e0 = e) by (eapply (sb_edge_ids _ SB); eauto). subst e0.
  destruct (edge_in_view _ _ W' I') as (t' & It' & Ea' & _).
  unfold export_message_flow, get_flow_by_id, get_flows. cbn [fst snd].
  assert (V : forall t, In t (edges_view (dgraph d')) -> exists e, In e (gedges (dgraph d')) /\ eat e = snd t).
  { intros t0 I. destruct (view_in_edge _ _ W' I) as [e1 [Ie1 R1]]. exists e1. split; [exact Ie1|]. unfold reports in R1. symmetry. tauto. }
  rewrite first_find.
  2:{ intros t0 I. destruct (V t0 I) as (e1 & Ie1 & E1). rewrite <- E1. apply (proj1 every_id). exact Ie1. }
  cbn [rbind]. destruct (find (id_is m) (edges_view (dgraph d'))) as [t1|] eqn:Ef.
  - apply find_some in Ef. destruct Ef as [I1 B]. destruct (V t1 I1) as (e1 & Ie1 & E1). destruct (proj1 every_id e1 Ie1) as [g G].
    assert (e1 = e'); [|subst e1; rewrite <- E1].
    { apply (proj2 every_id e1 e' m Ie1 I'); [|exact D']. unfold id_is in B. rewrite <- E1, G in B. simpl in B. apply String.eqb_eq in B. subst. exact G. }
    cbn [rbind]. unfold waypoint_elements in *. change k_waypoints with "waypoints" in *. rewrite (proj2 (dgetE_ok _ _ _) Lw). rewrite Ea in Wp.
    destruct Pt as [Pt|[Pt ->]]; rewrite (proj2 (dgetE_ok _ _ _) Pt) in Wp; cbn [rbind] in *; injection Wp as <-; reflexivity.
  - exfalso. pose proof (find_none _ _ Ef t' It') as C. unfold id_is in C. rewrite Ea', D' in C. simpl in C. rewrite String.eqb_refl in C. discriminate.
Qed.
End Back.
