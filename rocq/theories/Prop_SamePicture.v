(** C92: the picture depends on the plan of the diagram only. *)
From Coq Require Import String List Bool Arith ZArith Lia Permutation.
From Verif Require Import Py PyFacts Consts Nx NxFacts Rep SpecRep RepFacts MetricsFacts Classify Layouter
  SpecLayout ClassifyFacts TopoFacts GridFacts LayoutFacts LayoutFacts2 Prop_Layout SpecBlocks SpecFlat SpecPlan SpecSame SameApi
  Prop_Stable Prop_LayoutMetrics SpecPicture SameLayout.
Import ListNotations.
Open Scope string_scope.
Open Scope list_scope.

(** ** Waypoints after a layout *)
Lemma layout_points : forall fuel d d1 t, coherent d -> gwf (dgraph d) -> generate_layout fuel d = (d1, Ok tt) -> In t (get_flows d1) ->
  exists w, wpa (gnodes (dgraph d1)) (snd t) = Ok w /\ dget "waypoints" (snd t) = Some (VPoints w).
Proof.
  intros fuel d d1 t Co W H Ht.
  destruct (layout_facts fuel d d1 Co H) as [_ [s [b [g [d0 [_ [_ [_ [_ [_ [_ [_ [_ [K [Ed E5]]]]]]]]]]]]]]].
  assert (W0 : gwf (dgraph d0)) by (apply (gwf_same_ends (dgraph d)); auto; rewrite Ed; reflexivity).
  destruct (waypoints_ok d0 d1 W0 E5) as [En F].
  unfold get_flows, edges_view, dkeys in Ht. rewrite En in Ht.
  pose proof (edges_from_rel _ (map fst (gnodes (dgraph d0))) [] _ _ F) as F'.
  destruct (Forall2_in_r _ _ _ _ _ _ F' Ht) as [t0 [_ [_ [Sb [w [Ew Dw]]]]]]. exists w. split; auto.
  rewrite En. rewrite <- Ew. unfold wpa, dgetE. change k_source_ref with "sourceRef". change k_target_ref with "targetRef".
  rewrite (Sb "sourceRef"), (Sb "targetRef"); auto; intros [C|[]]; discriminate C.
Qed.
Lemma way_same : forall sa ta sb tb, (forall k, k = "type" \/ k = "x" \/ k = "y" -> dget k sb = dget k sa) ->
  (forall k, k = "type" \/ k = "x" \/ k = "y" -> dget k tb = dget k ta) -> waypoints_for sb tb = waypoints_for sa ta.
Proof.
  intros sa ta sb tb A B. unfold waypoints_for, icoord, dgetE. change k_type with "type". change k_x with "x". change k_y with "y".
  rewrite (A "type"), (A "x"), (A "y"), (B "type"), (B "x"), (B "y") by auto. reflexivity.
Qed.
Lemma points_same : forall d d' a a' s m, dget "sourceRef" a = Some (VStr s) -> dget "targetRef" a = Some (VStr m) ->
  dget "sourceRef" a' = Some (VStr s) -> dget "targetRef" a' = Some (VStr m) ->
  (forall n, is_node d' n <-> is_node d n) ->
  (forall n k, k = "type" \/ k = "x" \/ k = "y" -> attr d' n k = attr d n k) ->
  wpa (gnodes (dgraph d')) a' = wpa (gnodes (dgraph d)) a.
Proof.
  intros d d' a a' s m S1 T1 S2 T2 N A. unfold wpa, dgetE. change k_source_ref with "sourceRef". change k_target_ref with "targetRef".
  rewrite S1, T1, S2, T2. cbn [rbind]. rewrite !find_dget.
  assert (Q : forall n, match dget n (gnodes (dgraph d)), dget n (gnodes (dgraph d')) with
     | Some x, Some x' => forall k, k = "type" \/ k = "x" \/ k = "y" -> dget k x' = dget k x
     | None, None => True | _, _ => False end).
  { intros n. pose proof (A n) as An. specialize (N n). unfold attr, node_of in An. unfold is_node in N.
    destruct (dget n (gnodes (dgraph d))) as [x|] eqn:E, (dget n (gnodes (dgraph d'))) as [x'|] eqn:E'; auto.
    - apply dget_None_keys in E'. apply E'. apply N. eapply dget_key_In; eauto.
    - apply dget_None_keys in E. apply E. apply N. eapply dget_key_In; eauto. }
  pose proof (Q s) as Qs. pose proof (Q m) as Qm.
  destruct (dget s (gnodes (dgraph d))) as [x|], (dget s (gnodes (dgraph d'))) as [x'|]; try contradiction; auto.
  cbn [rbind snd]. destruct (dget m (gnodes (dgraph d))) as [y|], (dget m (gnodes (dgraph d'))) as [y'|]; try contradiction; auto.
  cbn [rbind snd]. apply way_same; auto.
Qed.

(** ** C92 *)
(** Diagrams the layouter can work with. *)
Definition ready (d : diagram) : Prop :=
  coherent d /\ all_laid_out d /\ gwf (dgraph d) /\ drawable d /\ single_flows d.

Theorem C92_same_picture : forall fuel d d', ready d -> ready d' -> same_plan d d' ->
  match generate_layout fuel d with
  | (d1, Ok _) => exists d1', generate_layout fuel d' = (d1', Ok tt) /\ drawn_alike d1 d1'
  | (_, Err e) => snd (generate_layout fuel d') = Err e
  end.
Proof.
  intros fuel d d' [Co [AL [W [Dr Sf]]]] [Co' [AL' [W' [Dr' Sf']]]] SP.
  pose proof (planned_layout fuel d Co AL W Dr) as P. pose proof (planned_layout fuel d' Co' AL' W' Dr') as P'.
  rewrite (planned_same d d' Co Co' AL AL' Sf Sf' SP fuel) in P'.
  destruct (planned d fuel) as [g|e]; [|rewrite P, P'; reflexivity].
  destruct P as [d1 [E1 A1]]. destruct P' as [d1' [E1' A1']]. rewrite E1. exists d1'. split; auto.
  pose proof (C29_only_drawing fuel d) as O. rewrite E1 in O. cbn [fst] in O. destruct O as [K [Ka _]].
  pose proof (C29_only_drawing fuel d') as O'. rewrite E1' in O'. cbn [fst] in O'. destruct O' as [K' [Ka' _]].
  assert (Nd : forall n, is_node d1' n <-> is_node d1 n).
  { intros n. unfold is_node. rewrite K, K'. apply (same_nodes d d' Co Co' SP n). }
  assert (At : forall n k, k = "type" \/ k = "x" \/ k = "y" -> attr d1' n k = attr d1 n k).
  { intros n k Hk. destruct (in_dec string_dec n (map fst (gnodes (dgraph d1)))) as [Hn|Hn].
    - destruct Hk as [->|Hk].
      + rewrite Ka, Ka' by discriminate. apply (same_types d d' Co Co' SP).
      + assert (Hd : is_node d n) by (unfold is_node; rewrite <- K; exact Hn).
        assert (Hd' : is_node d' n) by (apply (same_nodes d d' Co Co' SP n); exact Hd).
        destruct (A1 n Hd) as [c [G [X Y]]]. destruct (A1' n Hd') as [c' [G' [X' Y']]].
        rewrite G in G'. injection G' as <-. destruct Hk as [->| ->]; congruence.
    - assert (Hn' : ~ is_node d1' n) by (rewrite Nd; exact Hn).
      assert (Z : forall d0, ~ is_node d0 n -> attr d0 n k = None).
      { intros d0 H0. unfold attr, node_of. destruct (dget n (gnodes (dgraph d0))) eqn:E; auto. exfalso. apply H0. eapply dget_key_In; eauto. }
      rewrite !Z; auto. }
  split.
  - intros n x y. unfold at_xy. rewrite !At by auto. tauto.
  - intros t t' s m Ht Ht' S1 T1 S2 T2.
    destruct (layout_points fuel d d1 t Co W E1 Ht) as [w [Ew ->]].
    destruct (layout_points fuel d' d1' t' Co' W' E1' Ht') as [w' [Ew' ->]].
    rewrite (points_same d1 d1' (snd t) (snd t') s m S1 T1 S2 T2 Nd At), Ew in Ew'. injection Ew' as ->. reflexivity.
Qed.

(** ** Laying out again changes nothing *)
Lemma nodes_of_keys : forall d t, unique_ids d -> nodes_of d t =
  filter (fun n => match attr d n "type" with Some (VStr s) => String.eqb s t | _ => false end) (map fst (gnodes (dgraph d))).
Proof.
  intros d t U. unfold nodes_of, attr, node_of. unfold unique_ids in U.
  assert (G : forall l, incl l (gnodes (dgraph d)) ->
    map fst (filter (fun n : string * attrs => match dget "type" (snd n) with Some (VStr s) => String.eqb s t | _ => false end) l) =
    filter (fun n => match (match dget n (gnodes (dgraph d)) with Some a => dget "type" a | None => None end) with Some (VStr s) => String.eqb s t | _ => false end) (map fst l)).
  { induction l as [|[n a] r IH]; intros Hi; auto. cbn [map filter fst snd].
    assert (Eg : dget n (gnodes (dgraph d)) = Some a) by (apply In_dget; [exact U|apply Hi; left; auto]). rewrite Eg.
    assert (IH' := IH (fun x Hx => Hi x (or_intror Hx))).
    destruct (dget "type" a) as [[]|]; try exact IH'. destruct (s =? t); cbn [map fst]; [f_equal|]; exact IH'. }
  apply G. apply incl_refl.
Qed.
Lemma drawing_goes_by : forall d d', only_drawing d d' -> forall f n m, flow_goes d' f n m <-> flow_goes d f n m.
Proof.
  intros d d' (_ & _ & F & _) f n m. pose proof (ids_first f _ _ F) as Q. unfold flow_goes, get_flow_by_id.
  destruct (first_flow f (get_flows d)) as [[t|]|], (first_flow f (get_flows d')) as [[t'|]|]; try contradiction; split;
    intros (x & E & S & T); inv E; eexists; (split; [reflexivity|]); [rewrite <- !Q by discriminate|rewrite !Q by discriminate]; auto.
Qed.
Lemma drawing_keeps : forall d d', only_drawing d d' -> coherent d -> gwf (dgraph d) -> drawable d ->
  map (fun e => (eu e, ev e)) (gedges (dgraph d')) = map (fun e => (eu e, ev e)) (gedges (dgraph d)) ->
  coherent d' /\ gwf (dgraph d') /\ drawable d' /\ (forall f n m, flow d' f n m <-> flow d f n m).
Proof.
  intros d d' O Co W Dr Ee. pose proof (drawing_goes_by d d' O) as G. pose proof O as (K & A & F & _).
  assert (Out : forall n, outgoing_of d' n = outgoing_of d n) by (intros n; unfold outgoing_of; rewrite A by discriminate; reflexivity).
  assert (Inc : forall n, incoming_of d' n = incoming_of d n) by (intros n; unfold incoming_of; rewrite A by discriminate; reflexivity).
  assert (N : forall n, is_node d' n <-> is_node d n) by (intro n; unfold is_node; rewrite K; tauto).
  split; [|split; [|split]].
  - destruct Co as [[U L] [Nd [C1 C2]]]. split; [split|split; [|split]].
    + unfold unique_ids. rewrite K. exact U.
    + intros n Hn. apply N in Hn. destruct (L n Hn) as [X [Y Z]]. rewrite !A by discriminate. auto.
    + intros n Hn. apply N in Hn. rewrite Out, Inc. auto.
    + intros n f. rewrite Out. intros H. destruct (C1 n f H) as [m [H1 H2]]. exists m. rewrite Inc. split; auto. apply G. auto.
    + intros m f. rewrite Inc. intros H. destruct (C2 m f H) as [n [H1 H2]]. exists n. rewrite Out. split; auto. apply G. auto.
  - apply (gwf_same_ends (dgraph d)); auto.
  - intros t Ht. destruct (Forall2_in_r _ _ _ _ _ _ F Ht) as [t0 [H0 [_ Hk]]]. destruct (Dr t0 H0) as [s [m [A1 [A2 [A3 A4]]]]].
    exists s, m. rewrite !Hk by discriminate. repeat split; auto; apply N; auto.
  - intros f n m. unfold flow. rewrite Out, Inc, G. tauto.
Qed.
Lemma layout_ends : forall fuel d d1, coherent d -> gwf (dgraph d) -> generate_layout fuel d = (d1, Ok tt) ->
  map (fun e => (eu e, ev e)) (gedges (dgraph d1)) = map (fun e => (eu e, ev e)) (gedges (dgraph d)).
Proof.
  intros fuel d d1 Co W H.
  destruct (layout_facts fuel d d1 Co H) as [_ [s [b [g [d0 [_ [_ [_ [_ [_ [_ [_ [_ [K [Ed E5]]]]]]]]]]]]]]].
  assert (W0 : gwf (dgraph d0)) by (apply (gwf_same_ends (dgraph d)); auto; rewrite Ed; reflexivity).
  destruct (waypoints_ok d0 d1 W0 E5) as [_ F]. rewrite <- Ed. clear - F.
  induction F as [|e e' l l' [A [B _]] F IH]; auto. cbn [map]. rewrite IH. f_equal. congruence.
Qed.
Lemma laid_ready : forall fuel d d1, ready d -> generate_layout fuel d = (d1, Ok tt) -> ready d1 /\ same_plan d d1.
Proof.
  intros fuel d d1 [Co [AL [W [Dr Sf]]]] H. pose proof (C29_only_drawing fuel d) as O. rewrite H in O. cbn [fst] in O.
  destruct (drawing_keeps d d1 O Co W Dr (layout_ends fuel d d1 Co W H)) as [Co1 [W1 [Dr1 Fl]]]. pose proof O as (K & A & _).
  split; [repeat (split; [assumption|])|split].
  - split; [|split; [exact W1|split; [exact Dr1|]]].
    + intros n Hn. rewrite A by discriminate. apply AL. unfold is_node in *. rewrite <- K. exact Hn.
    + intros f f' x y F1 F2. apply Fl in F1. apply Fl in F2. eapply Sf; eauto.
  - intros t. destruct Co as [[U _] _]. destruct Co1 as [[U1 _] _]. rewrite !nodes_of_keys by auto. rewrite K. apply filter_ext.
    intro n. rewrite A by discriminate. reflexivity.
  - intros n m. unfold goes. split; intros [f F]; exists f; apply Fl; exact F.
Qed.

Lemma dset_same : forall V k (v : V) l, dget k l = Some v -> dset k v l = l.
Proof.
  induction l as [|[j w] t IH]; intros H; [discriminate|]. simpl in *. destruct (String.eqb_spec k j) as [->|].
  - injection H as ->. reflexivity.
  - rewrite IH by auto. reflexivity.
Qed.
Lemma with_same : forall d, with_graph d (mkGraph (gnodes (dgraph d)) (gedges (dgraph d))) = d.
Proof. intros []. unfold with_graph. simpl. destruct dgraph. reflexivity. Qed.
Lemma node_set_same : forall n k v d, attr d n k = Some v -> node_set n k v d = (d, Ok tt).
Proof.
  intros n k v d H. unfold attr, node_of in H. unfold node_set, ggraph, mtry, set_node_attr, gnode.
  destruct (dget n (gnodes (dgraph d))) as [a|] eqn:E; [|discriminate]. cbn [rbind].
  rewrite (dset_same _ k v a H), (dset_same _ n a _ E), with_same. reflexivity.
Qed.
Lemma edge_set_same : forall d f k v, gwf (dgraph d) -> In f (get_flows d) -> dget k (snd f) = Some v ->
  edge_set (fst (fst f)) (snd (fst f)) k v d = (d, Ok tt).
Proof.
  intros d f k v W Hf H. destruct (view_in_edge _ f W Hf) as [e [He Hr]].
  rewrite edge_set_eq. pose proof (reports_connects f e Hr) as C.
  assert (X : has_edge (fst (fst f)) (snd (fst f)) (dgraph d) = true) by (apply has_edge_true; eauto). rewrite X.
  assert (U : upd_edges (fst (fst f)) (snd (fst f)) (dset k v) (gedges (dgraph d)) = gedges (dgraph d)).
  { unfold upd_edges. rewrite <- (map_id (gedges (dgraph d))) at 2. apply map_ext_in. intros e' He'.
    destruct (connects (fst (fst f)) (snd (fst f)) e') eqn:Ec; auto.
    assert (e = e').
    { apply (gwf_unique (dgraph d)); auto. apply connects_true. apply connects_true in Ec.
      destruct Hr as [_ [[A B]|[A B]]]; rewrite A, B in Ec; tauto. }
    subst e'. destruct Hr as [Hs _]. rewrite Hs in H. rewrite (dset_same _ k v _ H). destruct e; reflexivity. }
  rewrite U, with_same. reflexivity.
Qed.

Theorem C92_again : forall fuel d d1, ready d -> generate_layout fuel d = (d1, Ok tt) -> generate_layout fuel d1 = (d1, Ok tt).
Proof.
  intros fuel d d1 R H. destruct (laid_ready fuel d d1 R H) as [R1 SP]. pose proof (C92_same_picture fuel d d1 R R1 SP) as P.
  rewrite H in P. destruct P as [d2 [E2 [Pos _]]].
  destruct R as [Co [AL [W [Dr Sf]]]]. destruct R1 as [Co1 [AL1 [W1 [Dr1 Sf1]]]].
  destruct (layout_facts fuel d1 d2 Co1 E2) as [_ [s [b [g [d0 [A1 [_ [A3 [_ [_ [_ [_ [A8 _]]]]]]]]]]]]].
  eapply layout_does; [apply elements_eq; apply Co1|exact A1|exact A3| |].
  - unfold set_coordinates_for_nodes. erewrite mbind_eq by reflexivity.
    assert (G : forall ns, (forall n, In n ns -> is_node d1 n) -> mfor ns (coord_body g) d1 = (d1, Ok tt)).
    { induction ns as [|n t IH]; intros Hn; [reflexivity|]. cbn [mfor].
      destruct (A8 n (Hn n (or_introl eq_refl))) as [c [_ [_ [Gc [_ At]]]]]. apply Pos in At. destruct At as [X Y].
      assert (E : coord_body g n d1 = (d1, Ok tt)).
      { unfold coord_body, mread, mbind. rewrite Gc. change k_x with "x". change k_y with "y".
        rewrite (node_set_same n "x" _ d1 X), (node_set_same n "y" _ d1 Y). reflexivity. }
      rewrite (mbind_eq _ _ _ _ _ _ _ _ E). apply IH. intros m Hm. apply Hn. right; auto. }
    apply G. intros n Hn. exact Hn.
  - unfold set_flows_waypoints. erewrite mbind_eq by reflexivity.
    assert (G : forall fs, incl fs (get_flows d1) -> mfor fs way_body d1 = (d1, Ok tt)).
    { induction fs as [|f t IH]; intros Hi; [reflexivity|]. cbn [mfor].
      destruct (layout_points fuel d d1 f Co W H (Hi f (or_introl eq_refl))) as [w [Ew Dw]].
      assert (E : way_body f d1 = (d1, Ok tt)).
      { rewrite way_body_eq, Ew. change k_waypoints with "waypoints". apply edge_set_same; auto. apply Hi. left; auto. }
      rewrite (mbind_eq _ _ _ _ _ _ _ _ E). apply IH. intros x Hx. apply Hi. right; auto. }
    apply G. apply incl_refl.
Qed.

(** ** Diagrams built with the API *)
Lemma nodes_of_put : forall d n a t s, ~ is_node d n -> dget "type" a = Some (VStr s) ->
  nodes_of (put d n a) t = nodes_of d t ++ (if String.eqb s t then [n] else []).
Proof.
  intros d n a t s Hn Ht. unfold nodes_of, put. cbn [dgraph with_graph gnodes put_node]. rewrite dset_new by exact Hn.
  rewrite filter_app, map_app. f_equal. cbn [filter snd]. rewrite Ht. destruct (s =? t); reflexivity.
Qed.
Lemma called_snoc : forall l o t, called (l ++ [o]) t = called l t ++
  match node_id_of o with Some n => if String.eqb (call_type o) t then [n] else [] | None => [] end.
Proof. intros l o t. unfold called. rewrite flat_map_app. cbn [flat_map]. rewrite app_nil_r. reflexivity. Qed.
Lemma history_order : forall l d, history l d -> forall t, nodes_of d t = called (recent l) t.
Proof.
  induction 1 as [|l d o H IH A]; intros ty; [reflexivity|].
  assert (X : forall id, node_id_of o = Some id -> ~ is_node d id -> (forall x y, o <> ONew x y) ->
    nodes_of (fst (step o d)) ty = called (recent (l ++ [o])) ty).
  { intros id Hid Hn Ho. destruct (node_call o id d Hid) as (a & -> & Ha). rewrite (nodes_of_put d id a ty _ Hn Ha), IH.
    replace (recent (l ++ [o])) with (recent l ++ [o]) by (rewrite recent_snoc; destruct o; try reflexivity; exfalso; eapply Ho; reflexivity).
    rewrite called_snoc, Hid. reflexivity. }
  destruct o; simpl in A; try (eapply X; [reflexivity|exact A|intros x y; discriminate]); rewrite recent_snoc.
  - reflexivity.
  - rewrite called_snoc. cbn [node_id_of]. rewrite app_nil_r, <- IH. reflexivity.
  - rewrite called_snoc. cbn [node_id_of]. rewrite app_nil_r, <- IH. pose proof (inv_history _ _ H) as Inv.
    destruct A as (Hs & Ht & Hf). change (dget ("id" ++ u)%string (seq_flows d) = None) in Hf.
    destruct (inv_flow d pid src tgt name u Inv Hs Ht Hf) as [w [E [_ I2]]]. rewrite E. cbn [fst].
    destruct (inv_n d Inv src Hs) as (_ & _ & _ & [lo Ho] & _). destruct (inv_n d Inv tgt Ht) as (_ & _ & [li Hi] & _).
    pose proof (keys_flow_result d pid src tgt name u (VPoints w)) as K.
    assert (U : unique_ids d) by exact (gwf_nodup _ (inv_g _ Inv)).
    rewrite !nodes_of_keys; auto; [|change (NoDup (node_keys (flow_result d pid src tgt name u (VPoints w)))); rewrite K; exact U].
    change (map fst (gnodes (dgraph (flow_result d pid src tgt name u (VPoints w))))) with (node_keys (flow_result d pid src tgt name u (VPoints w))).
    rewrite K. apply filter_ext. intro n.
    rewrite (attr_flow_result d pid src tgt name u (VPoints w) lo li n "type" Ho Hi).
    replace ("type" =? "outgoing") with false by reflexivity. replace ("type" =? "incoming") with false by reflexivity.
    rewrite !andb_false_r. reflexivity.
Qed.
Lemma api_ready : forall l d, history l d -> distinct_pairs d -> ready d.
Proof.
  intros l d H D. destruct (C26_api_diagrams_coherent l d H D) as [Co [AL [W [Dr Fl]]]].
  repeat (split; [assumption|]). intros f g x y F G. apply Fl in F. apply Fl in G.
  destruct F as [r [Hr [R1 R2]]]. destruct G as [q [Hq [Q1 Q2]]]. eapply D; eauto. left. split; congruence.
Qed.
Lemma api_goes : forall l d, history l d -> distinct_pairs d -> forall n m, goes d n m <-> connected (recent l) n m.
Proof.
  intros l d H D n m. destruct (C26_api_diagrams_coherent l d H D) as [_ [_ [_ [_ Fl]]]].
  destruct (history_calls l d H) as [_ F]. split.
  - intros [f Hf]. apply Fl in Hf. destruct Hf as [[nm s t] [Hr [<- <-]]]. apply F in Hr. destruct Hr as (p & u & I & _).
    exists p, nm, u. exact I.
  - intros (p & nm & u & I). exists ("id" ++ u)%string. apply Fl. exists (mkFlow nm n m). split; auto. apply F. exists p, u. auto.
Qed.

(** The order in which flows are added, their ids and names, the other parameters of the
    calls, and the order of nodes of different types do not matter. *)
Theorem C92_call_order : forall fuel l l' d d', history l d -> history l' d' -> distinct_pairs d -> distinct_pairs d' ->
  (forall t, called (recent l') t = called (recent l) t) ->
  (forall s t, connected (recent l') s t <-> connected (recent l) s t) ->
  match generate_layout fuel d with
  | (d1, Ok _) => exists d1', generate_layout fuel d' = (d1', Ok tt) /\ drawn_alike d1 d1'
  | (_, Err e) => snd (generate_layout fuel d') = Err e
  end.
Proof.
  intros fuel l l' d d' H H' D D' N C. apply C92_same_picture; [eapply api_ready; eauto|eapply api_ready; eauto|]. split.
  - intros t. rewrite (history_order l d H), (history_order l' d' H'). apply N.
  - intros n m. rewrite (api_goes l d H D), (api_goes l' d' H' D'). apply C.
Qed.

(** ** Examples *)
(** The diagram of the examples for C25 with other names and ids, built in another order. *)
Definition other_ops : list op :=
  [ONew "model" "9"; OProcess "q" false true "Private" "3" "4";
   OTask "id4" "cook" (Some "a") ""; OExclusive "id4" "" "Unspecified" None (Some "g") ""; OTask "id4" "eat" (Some "b") "";
   OEnd "id4" "full" (Some "message") (Some "e") "" "7";
   OExclusive "id4" "" "Unspecified" None (Some "j") ""; OStart "id4" "hungry" None true false (Some "s") "" "";
   OFlow "id4" "j" "e" "x" "1"; OFlow "id4" "b" "j" "" "2"; OFlow "id4" "g" "b" "" "30";
   OFlow "id4" "g" "a" "" "40"; OFlow "id4" "a" "j" "" "50"; OFlow "id4" "s" "g" "" "60"].
Definition other : diagram := run empty_diagram other_ops.
Definition connected_b (l : list op) : list (string * string) :=
  flat_map (fun o => match o with OFlow _ s t _ _ => [(s, t)] | _ => [] end) l.
Lemma connected_spec : forall l s t, connected l s t <-> In (s, t) (connected_b l).
Proof.
  intros l s t. unfold connected, connected_b. rewrite in_flat_map. split.
  - intros (p & n & u & I). exists (OFlow p s t n u). split; auto. left; auto.
  - intros (o & I & Ho). destruct o; try contradiction. destruct Ho as [E|[]]. inv E. eauto.
Qed.
Lemma called_types : forall l t, ~ In t ["task"; "subProcess"; "startEvent"; "endEvent"; "exclusiveGateway"; "inclusiveGateway"; "parallelGateway"] ->
  called l t = [].
Proof.
  intros l t H. unfold called. induction l as [|o r IH]; auto. cbn [flat_map]. rewrite IH, app_nil_r.
  destruct o; cbn [node_id_of call_type]; auto;
    match goal with |- (if ?s =? t then _ else _) = _ => destruct (String.eqb_spec s t) as [E|]; [|reflexivity] end;
    exfalso; apply H; rewrite <- E; simpl; tauto.
Qed.
Lemma called_same : forall l l', forallb (fun t => if list_eq_dec string_dec (called l' t) (called l t) then true else false)
  ["task"; "subProcess"; "startEvent"; "endEvent"; "exclusiveGateway"; "inclusiveGateway"; "parallelGateway"] = true ->
  forall t, called l' t = called l t.
Proof.
  intros l l' B t. destruct (in_dec string_dec t ["task"; "subProcess"; "startEvent"; "endEvent"; "exclusiveGateway"; "inclusiveGateway"; "parallelGateway"]) as [I|I].
  - rewrite forallb_forall in B. specialize (B t I). destruct (list_eq_dec string_dec (called l' t) (called l t)); [auto|discriminate].
  - rewrite !called_types by exact I. reflexivity.
Qed.
Definition pair_in (x : string * string) (l : list (string * string)) : bool :=
  existsb (fun y => String.eqb (fst x) (fst y) && String.eqb (snd x) (snd y)) l.
Lemma connected_same : forall l l', forallb (fun x => pair_in x (connected_b l)) (connected_b l') &&
  forallb (fun x => pair_in x (connected_b l')) (connected_b l) = true -> forall s t, connected l' s t <-> connected l s t.
Proof.
  assert (Q : forall a b, forallb (fun x => pair_in x a) b = true -> forall x, In x b -> In x a).
  { intros a b B x I. rewrite forallb_forall in B. specialize (B x I). unfold pair_in in B. apply existsb_exists in B.
    destruct B as [[u v] [J E]]. apply andb_true_iff in E. destruct E as [E1 E2]. apply String.eqb_eq in E1, E2.
    destruct x. simpl in *. subst. exact J. }
  intros l l' B s t. apply andb_true_iff in B. destruct B as [B1 B2]. rewrite !connected_spec. split; apply Q; auto.
Qed.
Example C92_example : history sdemo_ops sdemo /\ history other_ops other /\ distinct_pairs sdemo /\ distinct_pairs other /\
  (forall t, called (recent other_ops) t = called (recent sdemo_ops) t) /\
  (forall s t, connected (recent other_ops) s t <-> connected (recent sdemo_ops) s t) /\
  ready sdemo /\ ready other /\ same_plan sdemo other /\ snd (generate_layout 20 sdemo) = Ok tt /\
  positions 20 other =
    Ok [("a", Some (VStr "500"), Some (VStr "50")); ("g", Some (VStr "350"), Some (VStr "250"));
        ("b", Some (VStr "500"), Some (VStr "450")); ("e", Some (VStr "800"), Some (VStr "250"));
        ("j", Some (VStr "650"), Some (VStr "250")); ("s", Some (VStr "200"), Some (VStr "250"))].
Proof.
  assert (H : history other_ops other) by (apply checked_history; vm_compute; reflexivity).
  assert (D : distinct_pairs other) by (apply pairs_checked_ok; vm_compute; reflexivity).
  assert (N : forall t, called (recent other_ops) t = called (recent sdemo_ops) t) by (apply called_same; vm_compute; reflexivity).
  assert (C : forall s t, connected (recent other_ops) s t <-> connected (recent sdemo_ops) s t) by (apply connected_same; vm_compute; reflexivity).
  split; [exact sdemo_history|]. split; [exact H|]. split; [exact sdemo_pairs|]. split; [exact D|]. split; [exact N|]. split; [exact C|].
  split; [exact (api_ready _ _ sdemo_history sdemo_pairs)|]. split; [exact (api_ready _ _ H D)|].
  split; [|split; vm_compute; reflexivity]. split.
  - intros t. rewrite (history_order _ _ sdemo_history), (history_order _ _ H). apply N.
  - intros n m. rewrite (api_goes _ _ sdemo_history sdemo_pairs), (api_goes _ _ H D). apply C.
Qed.

(** The order of nodes of the same type does matter: here the two tasks change places. *)
Definition swapped_ops : list op :=
  [ONew "m" "0"; OProcess "p" false true "None" "1" "2";
   OStart "id2" "s" None false true (Some "s") "" "";
   OExclusive "id2" "g" "Diverging" None (Some "g") "";
   OTask "id2" "b" (Some "b") ""; OTask "id2" "a" (Some "a") "";
   OExclusive "id2" "j" "Converging" None (Some "j") "";
   OEnd "id2" "e" None (Some "e") "" "";
   OFlow "id2" "s" "g" "" "10"; OFlow "id2" "g" "a" "" "11"; OFlow "id2" "g" "b" "" "12";
   OFlow "id2" "a" "j" "" "13"; OFlow "id2" "b" "j" "" "14"; OFlow "id2" "j" "e" "" "15"].
Definition at_b (r : diagram * res unit) (n x y : string) : bool :=
  match attr (fst r) n "x", attr (fst r) n "y", snd r with
  | Some (VStr a), Some (VStr b), Ok _ => String.eqb a x && String.eqb b y
  | _, _, _ => false
  end.
Theorem C92_node_order_refuted : exists fuel l l' d d' d1 d1', history l d /\ history l' d' /\ distinct_pairs d /\ distinct_pairs d' /\
  Permutation (recent l) (recent l') /\ generate_layout fuel d = (d1, Ok tt) /\ generate_layout fuel d' = (d1', Ok tt) /\
  at_xy d1 "a" 500 50 /\ at_xy d1 "b" 500 450 /\ at_xy d1' "a" 500 450 /\ at_xy d1' "b" 500 50.
Proof.
  exists 20, sdemo_ops, swapped_ops, sdemo, (run empty_diagram swapped_ops), (fst (generate_layout 20 sdemo)),
    (fst (generate_layout 20 (run empty_diagram swapped_ops))).
  split; [exact sdemo_history|]. split; [apply checked_history; vm_compute; reflexivity|]. split; [exact sdemo_pairs|].
  split; [apply pairs_checked_ok; vm_compute; reflexivity|]. split; [vm_compute; do 3 apply perm_skip; apply perm_swap|].
  assert (S1 : snd (generate_layout 20 sdemo) = Ok tt) by (vm_compute; reflexivity).
  assert (S2 : snd (generate_layout 20 (run empty_diagram swapped_ops)) = Ok tt) by (vm_compute; reflexivity).
  assert (B : at_b (generate_layout 20 sdemo) "a" "500" "50" && at_b (generate_layout 20 sdemo) "b" "500" "450" &&
    at_b (generate_layout 20 (run empty_diagram swapped_ops)) "a" "500" "450" && at_b (generate_layout 20 (run empty_diagram swapped_ops)) "b" "500" "50" = true)
    by (vm_compute; reflexivity).
  generalize dependent (generate_layout 20 sdemo). generalize dependent (generate_layout 20 (run empty_diagram swapped_ops)).
  intros [d2 r2] S2 [d1 r1] S1 B. cbn [fst snd] in *. subst r1 r2. split; [reflexivity|]. split; [reflexivity|].
  assert (Q : forall d n x y, at_b (d, Ok tt) n (zstr x) (zstr y) = true -> at_xy d n x y).
  { intros d n x y E. unfold at_b in E. cbn [fst snd] in E. unfold at_xy.
    destruct (attr d n "x") as [[]|]; try discriminate. destruct (attr d n "y") as [[]|]; try discriminate.
    apply andb_true_iff in E. destruct E as [E1 E2]. apply String.eqb_eq in E1, E2. subst. auto. }
  rewrite !andb_true_iff in B. destruct B as [[[B1 B2] B3] B4]. split; [apply (Q d1 "a" 500%Z 50%Z B1)|].
  split; [apply (Q d1 "b" 500%Z 450%Z B2)|]. split; [apply (Q d2 "a" 500%Z 450%Z B3)|apply (Q d2 "b" 500%Z 50%Z B4)].
Qed.

Print Assumptions C92_same_picture.
Print Assumptions C92_again.
Print Assumptions C92_call_order.
Print Assumptions C92_node_order_refuted.
