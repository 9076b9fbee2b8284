(** The exact waypoints of the flows after the automatic layout. *)
From Coq Require Import String List Bool Arith ZArith Lia Permutation.
From Verif Require Import Py PyFacts Consts Nx NxFacts Rep SpecRep RepFacts MetricsFacts Classify Layouter
  SpecLayout ClassifyFacts TopoFacts GridFacts LayoutFacts LayoutFacts2 Prop_Layout SpecCrossing.
Import ListNotations.
Open Scope string_scope.
Open Scope list_scope.

Lemma waypoints_exact : forall s t sx sy tx ty st tt,
  dget "x" s = Some (VStr (zstr sx)) -> dget "y" s = Some (VStr (zstr sy)) ->
  dget "x" t = Some (VStr (zstr tx)) -> dget "y" t = Some (VStr (zstr ty)) ->
  dget "type" s = Some st -> dget "type" t = Some tt ->
  waypoints_for s t = Ok (map zpt (corners (routed_gateway st) (routed_gateway tt) sx sy tx ty)).
Proof.
  intros s t sx sy tx ty st ttt A1 A2 A3 A4 A5 A6. unfold waypoints_for.
  rewrite (icoord_zstr s k_x sx A1), (icoord_zstr s k_y sy A2), (icoord_zstr t k_x tx A3), (icoord_zstr t k_y ty A4).
  unfold dgetE. change k_type with "type". change k_y with "y". rewrite A5, A6, A2, A4. cbn [rbind].
  assert (Sv : same_value (VStr (zstr sy)) (VStr (zstr ty)) = Z.eqb sy ty).
  { simpl. destruct (Z.eqb_spec sy ty) as [->|N]; [apply String.eqb_refl|].
    apply eqb_neq'. intro C. apply N. apply zstr_inj. auto. }
  rewrite Sv. unfold pt, corners. destruct (routed_gateway st); [reflexivity|]. destruct (Z.eqb sy ty); [rewrite andb_false_r; reflexivity|].
  destruct (routed_gateway ttt); reflexivity.
Qed.
Lemma routed_usual : forall d n v, attr d n "type" = Some v -> routed_gateway v = usual_gateway_b d n.
Proof.
  intros d n v E. unfold usual_gateway_b. rewrite E. destruct v as [|t| | | | |]; try reflexivity. unfold routed_gateway. cbn [veqs existsb].
  change t_parallel_gateway with "parallelGateway". change t_inclusive_gateway with "inclusiveGateway". change t_exclusive_gateway with "exclusiveGateway".
  destruct (String.eqb t "parallelGateway"), (String.eqb t "inclusiveGateway"), (String.eqb t "exclusiveGateway"); reflexivity.
Qed.
Lemma at_xy_same : forall d n x y x' y', at_xy d n x y -> at_xy d n x' y' -> x = x' /\ y = y'.
Proof. intros d n x y x' y' [A B] [A' B']. rewrite A in A'. rewrite B in B'. injection A' as A'. injection B' as B'. split; apply zstr_inj; assumption. Qed.

Lemma layout_routes : forall fuel d d' t s m sx sy tx ty, coherent d -> gwf (dgraph d) -> generate_layout fuel d = (d', Ok tt) ->
  In t (get_flows d') -> dget "sourceRef" (snd t) = Some (VStr s) -> dget "targetRef" (snd t) = Some (VStr m) ->
  at_xy d' s sx sy -> at_xy d' m tx ty ->
  dget "waypoints" (snd t) = Some (VPoints (map zpt (corners (usual_gateway_b d' s) (usual_gateway_b d' m) sx sy tx ty))).
Proof.
  intros fuel d d' t s m sx sy tx ty Co W H Ht Es Et As At.
  destruct (layout_facts fuel d d' Co H) as [_ [s0 [b [g [d1 [_ [_ [_ [B [N [Pg [_ [P [K [Ed E5]]]]]]]]]]]]]]].
  assert (W1 : gwf (dgraph d1)) by (apply (gwf_same_ends (dgraph d)); auto; rewrite Ed; reflexivity).
  destruct (waypoints_ok d1 d' W1 E5) as [En F].
  unfold get_flows, edges_view in Ht. unfold dkeys in Ht. rewrite En in Ht.
  pose proof (edges_from_rel _ (map fst (gnodes (dgraph d1))) [] _ _ F) as F'.
  destruct (Forall2_in_r _ _ _ _ _ _ F' Ht) as [t0 [_ [_ [S [w [Ew Dw]]]]]]. rewrite Dw. do 2 f_equal.
  unfold same_but in S. rewrite !S in Es, Et by (intros [C|[]]; discriminate).
  unfold wpa, dgetE in Ew. change k_source_ref with "sourceRef" in Ew. change k_target_ref with "targetRef" in Ew. rewrite Es, Et in Ew. cbn [rbind] in Ew. rewrite !find_dget in Ew.
  rewrite <- En in Ew. destruct As as [Xs Ys], At as [Xt Yt].
  destruct (dget s (gnodes (dgraph d'))) as [sa|] eqn:Gs; [|discriminate]. destruct (dget m (gnodes (dgraph d'))) as [ta|] eqn:Gt; [|discriminate]. cbn [rbind snd] in Ew.
  assert (As : forall k, attr d' s k = dget k sa) by (intro k; unfold attr, node_of; rewrite Gs; reflexivity).
  assert (At : forall k, attr d' m k = dget k ta) by (intro k; unfold attr, node_of; rewrite Gt; reflexivity).
  rewrite As in Xs, Ys. rewrite At in Xt, Yt.
  assert (Ts : exists v, dget "type" sa = Some v).
  { unfold waypoints_for, dgetE in Ew. change k_type with "type" in Ew. destruct (dget "type" sa); [eauto|discriminate]. }
  assert (Tt : exists v, dget "type" ta = Some v).
  { destruct Ts as [v Ts]. unfold waypoints_for, dgetE in Ew. change k_type with "type" in Ew. rewrite Ts in Ew. cbn [rbind] in Ew. destruct (dget "type" ta); [eauto|discriminate]. }
  destruct Ts as [vs Ts], Tt as [vt Tt]. rewrite (waypoints_exact sa ta sx sy tx ty vs vt Xs Ys Xt Yt Ts Tt) in Ew. injection Ew as <-.
  rewrite (routed_usual d' s vs), (routed_usual d' m vt); [reflexivity|rewrite At; exact Tt|rewrite As; exact Ts].
Qed.
