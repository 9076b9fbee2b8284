(** What the layout writes. *)
From Coq Require Import String List Bool Arith ZArith Lia Permutation.
From Verif Require Import Py PyFacts Consts Nx NxFacts Rep SpecRep RepFacts MetricsFacts Classify Layouter
  SpecLayout ClassifyFacts TopoFacts GridFacts.
Import ListNotations.
Open Scope string_scope.
Open Scope list_scope.

(** ** Views of graphs with the same ends *)
Definition ends_rel (Q : attrs -> attrs -> Prop) (e e' : edge) : Prop :=
  eu e' = eu e /\ ev e' = ev e /\ Q (eat e) (eat e').
Lemma Forall2_flat_map : forall A B C D (R : A -> B -> Prop) (Q : C -> D -> Prop) f g l l',
  Forall2 R l l' -> (forall a b, R a b -> Forall2 Q (f a) (g b)) -> Forall2 Q (flat_map f l) (flat_map g l').
Proof. induction 1; intros F; simpl; [constructor|]. apply Forall2_app; auto. Qed.
Lemma Forall2_filter : forall A B (R : A -> B -> Prop) p q l l', Forall2 R l l' ->
  (forall a b, R a b -> p a = q b) -> Forall2 R (filter p l) (filter q l').
Proof.
  induction 1 as [|a b t t' H T IH]; intros F; simpl; [constructor|]. rewrite (F a b H). destruct (q b); auto.
Qed.
Lemma Forall2_map2 : forall A B C D (R : A -> B -> Prop) (Q : C -> D -> Prop) f g l l', Forall2 R l l' ->
  (forall a b, R a b -> Q (f a) (g b)) -> Forall2 Q (map f l) (map g l').
Proof. induction 1; intros F; simpl; constructor; auto. Qed.
Lemma Forall2_impl : forall A B (R Q : A -> B -> Prop) l l', (forall a b, R a b -> Q a b) -> Forall2 R l l' -> Forall2 Q l l'.
Proof. induction 2; constructor; auto. Qed.
Lemma Forall2_same : forall A (R : A -> A -> Prop) l, (forall a, R a a) -> Forall2 R l l.
Proof. induction l; constructor; auto. Qed.
Lemma Forall2_comp : forall A (R : A -> A -> Prop), (forall a b c, R a b -> R b c -> R a c) ->
  forall l1 l2 l3, Forall2 R l1 l2 -> Forall2 R l2 l3 -> Forall2 R l1 l3.
Proof. intros A R T l1 l2 l3 H. revert l3. induction H; intros l3 H'; inv H'; constructor; eauto. Qed.

Lemma edges_from_rel : forall Q ns seen es es', Forall2 (ends_rel Q) es es' ->
  Forall2 (fun t t' => fst t' = fst t /\ Q (snd t) (snd t')) (edges_from ns seen es) (edges_from ns seen es').
Proof.
  intros Q. induction ns as [|n t IH]; intros seen es es' H; simpl; [constructor|].
  apply Forall2_app; [|apply IH; auto].
  apply (Forall2_map2 _ _ _ _ (fun p p' : string * attrs => fst p' = fst p /\ Q (snd p) (snd p'))).
  - apply Forall2_filter; [|intros a b [-> _]; reflexivity]. unfold incident. eapply Forall2_flat_map; [exact H|].
    intros e e' [-> [-> Hq]]. destruct (String.eqb (eu e) n); [repeat constructor; auto|].
    destruct (String.eqb (ev e) n); repeat constructor; auto.
  - intros a b [E Hq]. simpl. rewrite E. auto.
Qed.

(** ** Only drawing *)
Definition same_but (ks : list string) (a b : attrs) : Prop := forall k, ~ In k ks -> dget k b = dget k a.
Definition kept (d d' : diagram) : Prop :=
  map fst (gnodes (dgraph d')) = map fst (gnodes (dgraph d)) /\
  (forall n k, k <> "x" -> k <> "y" -> attr d' n k = attr d n k) /\
  Forall2 (ends_rel (same_but ["waypoints"])) (gedges (dgraph d)) (gedges (dgraph d')) /\
  same_rest d d'.
Lemma kept_refl : forall d, kept d d.
Proof.
  intros d. split; auto. split; auto. split; [|repeat split].
  apply Forall2_same. intro e. repeat split; auto.
Qed.
Lemma kept_trans : forall d1 d2 d3, kept d1 d2 -> kept d2 d3 -> kept d1 d3.
Proof.
  intros d1 d2 d3 [A1 [A2 [A3 [B1 [B2 [B3 [B4 B5]]]]]]] [A1' [A2' [A3' [B1' [B2' [B3' [B4' B5']]]]]]].
  split; [congruence|]. split; [intros; rewrite A2', A2; auto|]. split; [|repeat split; congruence].
  eapply Forall2_comp; [|exact A3|exact A3'].
  intros a b c [E1 [E2 Q]] [E1' [E2' Q']]. split; [congruence|]. split; [congruence|].
  intros k Hk. rewrite Q', Q; auto.
Qed.
Lemma kept_drawing : forall d d', kept d d' -> only_drawing d d'.
Proof.
  intros d d' [A [B [E S]]]. split; auto. split; auto. split; auto.
  unfold get_flows, edges_view, dkeys. rewrite A.
  eapply Forall2_impl; [|apply edges_from_rel; exact E].
  intros t t' [F Q]. split; auto. intros k Hk. apply Q. intros [C|[]]. congruence.
Qed.
Lemma kept_node : forall n k v d, k = "x" \/ k = "y" -> kept d (fst (node_set n k v d)).
Proof.
  intros n k v d Hk. unfold node_set, ggraph, mtry. unfold set_node_attr, gnode.
  destruct (dget n (gnodes (dgraph d))) as [a|] eqn:E; simpl; [|apply kept_refl].
  split; [|split; [|split; [|repeat split]]].
  - simpl. apply dkeys_dset_get with a. auto.
  - intros m k' H1 H2. unfold attr, node_of. simpl. rewrite dget_dset.
    destruct (String.eqb_spec m n) as [->|]; auto. rewrite dget_dset.
    destruct (String.eqb_spec k' k) as [->|]; [destruct Hk; congruence|]. rewrite E. reflexivity.
  - simpl. apply Forall2_same. intro e. repeat split; auto.
Qed.
Lemma kept_edge : forall s t v d, kept d (fst (edge_set s t "waypoints" v d)).
Proof.
  intros s t v d. unfold edge_set, ggraph, mtry, set_edge_attr.
  destruct (has_edge s t (dgraph d)); simpl; [|apply kept_refl].
  split; [reflexivity|]. split; [reflexivity|]. split; [|repeat split].
  simpl. unfold upd_edges. rewrite <- (map_id (gedges (dgraph d))) at 1.
  eapply Forall2_map2; [apply (Forall2_same _ eq); auto|]. intros e e' <-.
  destruct (connects s t e); repeat split; auto. simpl. intros k Hk. rewrite dget_dset, eqb_neq'; auto. intro C. apply Hk. left. auto.
Qed.
Lemma kept_bind : forall A B (m : MD A) (f : A -> MD B) d,
  kept d (fst (m d)) -> (forall a d', kept d' (fst (f a d'))) -> kept d (fst (mbind m f d)).
Proof.
  intros A B m f d H F. unfold mbind. destruct (m d) as [d1 [a|e]]; simpl in *; auto.
  eapply kept_trans; [exact H|apply F].
Qed.
Lemma kept_read : forall A (f : diagram -> res A) d, kept d (fst (mread f d)).
Proof. intros. apply kept_refl. Qed.
Lemma kept_for : forall A (l : list A) (f : A -> MD unit) d, (forall a d', kept d' (fst (f a d'))) -> kept d (fst (mfor l f d)).
Proof.
  intros A l f. induction l as [|a t IH]; intros d F; [apply kept_refl|]. cbn [mfor]. apply kept_bind; auto.
Qed.
Lemma kept_coords : forall g d, kept d (fst (set_coordinates_for_nodes g d)).
Proof.
  intros g d. apply kept_bind; [apply kept_read|]. intros ns d1. apply kept_for. intros n d2.
  apply kept_bind; [apply kept_read|]. intros c d3. apply kept_bind; [apply kept_node; auto|].
  intros _ d4. apply kept_node; auto.
Qed.
Lemma kept_waypoints : forall d, kept d (fst (set_flows_waypoints d)).
Proof.
  intros d. apply kept_bind; [apply kept_read|]. intros ns d1. apply kept_for. intros n d2.
  apply kept_bind; [apply kept_read|]. intros s d3. apply kept_bind; [apply kept_read|]. intros t d4.
  apply kept_bind; [apply kept_read|]. intros w d5. apply kept_edge.
Qed.
Lemma kept_layout : forall fuel d, kept d (fst (generate_layout fuel d)).
Proof.
  intros fuel d. unfold generate_layout. repeat (apply kept_bind; [apply kept_read|]; intros ? ?).
  apply kept_bind; [apply kept_coords|]. intros _ dz. apply kept_waypoints.
Qed.

(** ** Coordinates *)
Lemma mbind_ok_inv : forall S A B (m : M S A) (f : A -> M S B) s s' b, mbind m f s = (s', Ok b) ->
  exists s1 a, m s = (s1, Ok a) /\ f a s1 = (s', Ok b).
Proof. intros S A B m f s s' b H. unfold mbind in H. destruct (m s) as [s1 [a|e]]; [eauto|discriminate]. Qed.
Lemma mread_ok_inv : forall S A (f : S -> res A) s s' a, mread f s = (s', Ok a) -> s' = s /\ f s = Ok a.
Proof. intros S A f s s' a H. unfold mread in H. inv H. auto. Qed.

Lemma node_set_ok : forall n k v d d' u, node_set n k v d = (d', Ok u) ->
  is_node d n /\ edges_view (dgraph d') = edges_view (dgraph d) /\ gedges (dgraph d') = gedges (dgraph d) /\
  map fst (gnodes (dgraph d')) = map fst (gnodes (dgraph d)) /\
  forall m j, attr d' m j = if String.eqb m n && String.eqb j k then Some v else attr d m j.
Proof.
  intros n k v d d' u H. unfold node_set, ggraph, mtry, set_node_attr, gnode in H.
  destruct (dget n (gnodes (dgraph d))) as [a|] eqn:E; simpl in H; [|discriminate]. inv H.
  assert (K : dkeys (dset n (dset k v a) (gnodes (dgraph d))) = dkeys (gnodes (dgraph d))) by (apply dkeys_dset_get with a; auto).
  split; [eapply dget_key_In; eauto|]. split; [unfold edges_view; simpl; rewrite K; reflexivity|].
  split; [reflexivity|]. split; [exact K|].
  intros m j. unfold attr, node_of. simpl. rewrite dget_dset.
  destruct (String.eqb_spec m n) as [->|]; auto. rewrite dget_dset, E. simpl. reflexivity.
Qed.
Lemma node_set_does : forall n k v d, is_node d n -> exists d', node_set n k v d = (d', Ok tt).
Proof.
  intros n k v d H. unfold node_set, ggraph, mtry, set_node_attr, gnode.
  destruct (dget n (gnodes (dgraph d))) as [a|] eqn:E; simpl; [eauto|].
  apply dget_None_keys in E. contradiction.
Qed.

Definition coord_body (grid : list cell) (n : string) : MD unit :=
  do c <- mread (fun _ => gfind n grid) ;;
  do_ node_set n k_x (VStr (zstr (ccol c * 150 + 50))) ;;
  node_set n k_y (VStr (zstr (crow c * 100 + 50))).
Lemma coord_body_ok : forall grid n d d', coord_body grid n d = (d', Ok tt) ->
  exists c, gfind n grid = Ok c /\ is_node d n /\ map fst (gnodes (dgraph d')) = map fst (gnodes (dgraph d)) /\
    gedges (dgraph d') = gedges (dgraph d) /\
    forall m j, attr d' m j = if String.eqb m n && String.eqb j "y" then Some (VStr (zstr (crow c * 100 + 50)))
                             else if String.eqb m n && String.eqb j "x" then Some (VStr (zstr (ccol c * 150 + 50)))
                             else attr d m j.
Proof.
  intros grid n d d' H. apply mbind_ok_inv in H. destruct H as [d1 [c [H1 H2]]].
  apply mread_ok_inv in H1. destruct H1 as [-> Ec]. apply mbind_ok_inv in H2. destruct H2 as [d2 [u [H2 H3]]].
  apply node_set_ok in H2. destruct H2 as [N [_ [E1 [K1 A1]]]].
  apply node_set_ok in H3. destruct H3 as [_ [_ [E2 [K2 A2]]]].
  exists c. split; auto. split; auto. split; [congruence|]. split; [congruence|].
  intros m j. rewrite A2, A1. reflexivity.
Qed.
Lemma coords_loop : forall grid ns d d', mfor ns (coord_body grid) d = (d', Ok tt) ->
  map fst (gnodes (dgraph d')) = map fst (gnodes (dgraph d)) /\ gedges (dgraph d') = gedges (dgraph d) /\
  (forall n, In n ns -> exists c, gfind n grid = Ok c /\ at_xy d' n (ccol c * 150 + 50) (crow c * 100 + 50)) /\
  (forall n, ~ In n ns -> forall k, attr d' n k = attr d n k).
Proof.
  intros grid. induction ns as [|n t IH]; intros d d' H; cbn [mfor] in H.
  - inv H. split; auto. split; auto. split; [intros n []|auto].
  - apply mbind_ok_inv in H. destruct H as [d1 [[] [H1 H2]]].
    apply coord_body_ok in H1. destruct H1 as [c [Ec [N [K [E A]]]]].
    destruct (IH d1 d' H2) as [K2 [E2 [P Q]]]. split; [congruence|]. split; [congruence|]. split.
    + intros m [<-|Hm]; [|auto]. destruct (in_dec string_dec n t) as [Hi|Hi]; [auto|].
      exists c. split; auto. unfold at_xy. rewrite !(Q n Hi), !A, !eqb_refl'. simpl. auto.
    + intros m Hm k. rewrite Q by (intro; apply Hm; right; auto). rewrite A.
      rewrite (eqb_neq' m n) by (intro C; apply Hm; left; auto). reflexivity.
Qed.
Lemma coords_ok : forall grid d d', set_coordinates_for_nodes grid d = (d', Ok tt) ->
  map fst (gnodes (dgraph d')) = map fst (gnodes (dgraph d)) /\ gedges (dgraph d') = gedges (dgraph d) /\
  forall n, is_node d n -> exists c, gfind n grid = Ok c /\ at_xy d' n (ccol c * 150 + 50) (crow c * 100 + 50).
Proof.
  intros grid d d' H. unfold set_coordinates_for_nodes in H. apply mbind_ok_inv in H.
  destruct H as [d1 [ns [H1 H2]]]. apply mread_ok_inv in H1. destruct H1 as [-> E]. simpl in E. inv E.
  destruct (coords_loop grid _ d d' H2) as [K [Ed [P _]]]. auto.
Qed.
Lemma coords_does : forall grid d, (forall n, is_node d n -> exists c, gfind n grid = Ok c) ->
  exists d', set_coordinates_for_nodes grid d = (d', Ok tt).
Proof.
  intros grid d H. unfold set_coordinates_for_nodes. erewrite mbind_eq by reflexivity.
  assert (G : forall ns d1, (forall n, In n ns -> is_node d1 n /\ exists c, gfind n grid = Ok c) ->
    exists d', mfor ns (coord_body grid) d1 = (d', Ok tt)).
  { clear. induction ns as [|n t IH]; intros d1 H; cbn [mfor]; [eexists; reflexivity|].
    destruct (H n (or_introl eq_refl)) as [N [c Ec]].
    destruct (node_set_does n k_x (VStr (zstr (ccol c * 150 + 50))) d1 N) as [d2 E2].
    pose proof (node_set_ok _ _ _ _ _ _ E2) as [_ [_ [_ [K2 _]]]].
    destruct (node_set_does n k_y (VStr (zstr (crow c * 100 + 50))) d2) as [d3 E3].
    { unfold is_node. rewrite K2. exact N. }
    pose proof (node_set_ok _ _ _ _ _ _ E3) as [_ [_ [_ [K3 _]]]].
    assert (E : coord_body grid n d1 = (d3, Ok tt)).
    { unfold coord_body. unfold mread, mbind. rewrite Ec, E2, E3. reflexivity. }
    rewrite (mbind_eq _ _ _ _ _ _ _ _ E). apply IH. intros m Hm. destruct (H m (or_intror Hm)) as [Nm Hc].
    split; auto. unfold is_node. rewrite K3, K2. exact Nm. }
  apply G. intros n Hn. split; auto.
Qed.

(** ** Waypoints *)
Definition wpa (ns : dict attrs) (a : attrs) : res (list (string * string)) :=
  let get k := let* v := dgetE k a in
               match v with
               | VStr n => match find (fun x : string * attrs => String.eqb (fst x) n) ns with Some x => Ok (snd x) | None => Err TypeError end
               | _ => Err TypeError
               end in
  let* s := get k_source_ref in
  let* t := get k_target_ref in
  waypoints_for s t.
Definition way_body (f : string * string * attrs) : MD unit :=
  do s <- mread (fun d => flow_end d (snd f) k_source_ref) ;;
  do t <- mread (fun d => flow_end d (snd f) k_target_ref) ;;
  do w <- mread (fun _ => waypoints_for s t) ;;
  edge_set (fst (fst f)) (snd (fst f)) k_waypoints (VPoints w).
Lemma way_body_eq : forall f d, way_body f d =
  match wpa (gnodes (dgraph d)) (snd f) with
  | Ok w => edge_set (fst (fst f)) (snd (fst f)) "waypoints" (VPoints w) d
  | Err e => (d, Err e)
  end.
Proof.
  intros f d. unfold way_body, wpa, flow_end, get_node_by_id, nodes_view. unfold mbind at 1, mread at 1.
  destruct (dgetE k_source_ref (snd f)) as [[]|]; cbn [rbind]; try reflexivity.
  destruct (find _ _); cbn [rbind]; try reflexivity. unfold mbind at 1, mread at 1.
  destruct (dgetE k_target_ref (snd f)) as [[]|]; cbn [rbind]; try reflexivity.
  destruct (find _ _); cbn [rbind]; try reflexivity.
Qed.
Lemma edge_set_eq : forall s t k v d, edge_set s t k v d =
  if has_edge s t (dgraph d) then (with_graph d (mkGraph (gnodes (dgraph d)) (upd_edges s t (dset k v) (gedges (dgraph d)))), Ok tt)
  else (d, Err (KeyError t)).
Proof.
  intros. unfold edge_set, ggraph, mtry, set_edge_attr. destruct (has_edge s t (dgraph d)); reflexivity.
Qed.

(** [e1]: original edge, [e]: edge after the flows in [done] were treated. *)
Definition treated (ns : dict attrs) (done : list (string * string * attrs)) (e1 e : edge) : Prop :=
  eu e = eu e1 /\ ev e = ev e1 /\ same_but ["waypoints"] (eat e1) (eat e) /\
  ((exists f, In f done /\ reports f e1) ->
   exists w, wpa ns (eat e1) = Ok w /\ dget "waypoints" (eat e) = Some (VPoints w)).

Lemma reports_connects : forall f e, reports f e -> connects (fst (fst f)) (snd (fst f)) e = true.
Proof. intros f e [_ H]. apply connects_true. destruct H as [[A B]|[A B]]; rewrite A, B; auto. Qed.

Lemma way_loop : forall g, gwf g -> forall fs done d d',
  gnodes (dgraph d) = gnodes g -> (forall f, In f fs -> In f (edges_view g)) ->
  Forall2 (treated (gnodes g) done) (gedges g) (gedges (dgraph d)) ->
  mfor fs way_body d = (d', Ok tt) ->
  gnodes (dgraph d') = gnodes g /\ Forall2 (treated (gnodes g) (rev fs ++ done)) (gedges g) (gedges (dgraph d')).
Proof.
  intros g W. induction fs as [|f t IH]; intros done d d' En Hf T H; cbn [mfor] in H.
  - inv H. auto.
  - apply mbind_ok_inv in H. destruct H as [d1 [[] [H1 H2]]]. rewrite way_body_eq, En in H1.
    destruct (wpa (gnodes g) (snd f)) as [w|] eqn:Ew; [|discriminate]. rewrite edge_set_eq in H1.
    destruct (has_edge _ _ (dgraph d)); [|discriminate]. inv H1.
    simpl rev. rewrite <- app_assoc. simpl. eapply (IH _ _ _); [| | |exact H2]; [exact En| |].
    + intros x Hx. apply Hf. right; auto.
    + simpl. destruct (view_in_edge g f W (Hf f (or_introl eq_refl))) as [ef [He Hr]].
      assert (U : forall e1, In e1 (gedges g) -> connects (fst (fst f)) (snd (fst f)) e1 = true -> e1 = ef).
      { intros e1 H1 Hc. apply (gwf_unique g); auto. apply reports_connects in Hr.
        apply connects_true in Hc. apply connects_true in Hr. apply connects_true. intuition congruence. }
      clear - T Ew Hr U. revert U. induction T as [|e1 e l l' Te Tl IHl]; intros U; simpl; constructor.
      * destruct Te as [A [B [S D]]].
        assert (Cc : connects (fst (fst f)) (snd (fst f)) e = connects (fst (fst f)) (snd (fst f)) e1)
          by (unfold connects; rewrite A, B; reflexivity).
        rewrite Cc. destruct (connects (fst (fst f)) (snd (fst f)) e1) eqn:Ec.
        -- assert (e1 = ef) by (apply U; [left; auto|auto]). subst ef. destruct Hr as [Hs _]. rewrite Hs in Ew.
           split; [auto|]. split; [auto|]. split.
           ++ intros k Hk. simpl. rewrite dget_dset, eqb_neq' by (intro C; apply Hk; left; auto). apply S; auto.
           ++ intros _. exists w. split; auto. simpl. rewrite dget_dset, eqb_refl'. reflexivity.
        -- split; auto. split; auto. split; auto. intros [f' [[<-|Hf'] Hr']]; [|eauto].
           apply reports_connects in Hr'. congruence.
      * apply IHl. intros x Hx. apply U. right; auto.
Qed.

Lemma waypoints_ok : forall d d', gwf (dgraph d) -> set_flows_waypoints d = (d', Ok tt) ->
  gnodes (dgraph d') = gnodes (dgraph d) /\
  Forall2 (ends_rel (fun a a' => same_but ["waypoints"] a a' /\
             exists w, wpa (gnodes (dgraph d)) a = Ok w /\ dget "waypoints" a' = Some (VPoints w)))
          (gedges (dgraph d)) (gedges (dgraph d')).
Proof.
  intros d d' W H. unfold set_flows_waypoints in H. apply mbind_ok_inv in H. destruct H as [d1 [fs [H1 H2]]].
  apply mread_ok_inv in H1. destruct H1 as [-> E]. inv E.
  destruct (way_loop (dgraph d) W (get_flows d) [] d d') as [A B]; auto.
  - apply Forall2_same. intro e. repeat split; auto. intros [f [[] _]].
  - split; auto. rewrite app_nil_r in B.
    assert (Cv : forall e1, In e1 (gedges (dgraph d)) -> exists f, In f (rev (get_flows d)) /\ reports f e1).
    { intros e1 He. destruct (edge_in_view _ e1 W He) as [f [Hf Hr]]. exists f. split; auto. apply in_rev in Hf. auto. }
    clear - B Cv. induction B as [|e1 e l l' T Tl IH]; constructor.
    + destruct T as [X [Y [S D]]]. split; auto. split; auto. split; auto. apply D. apply Cv. left; auto.
    + apply IH. intros x Hx. apply Cv. right; auto.
Qed.

Lemma waypoints_does : forall d, gwf (dgraph d) ->
  (forall f, In f (get_flows d) -> exists w, wpa (gnodes (dgraph d)) (snd f) = Ok w) ->
  exists d', set_flows_waypoints d = (d', Ok tt).
Proof.
  intros d W H. unfold set_flows_waypoints. erewrite mbind_eq by reflexivity.
  assert (G : forall fs d1, (forall f, In f fs -> (exists w, wpa (gnodes (dgraph d1)) (snd f) = Ok w) /\
      has_edge (fst (fst f)) (snd (fst f)) (dgraph d1) = true) -> exists d', mfor fs way_body d1 = (d', Ok tt)).
  { clear. induction fs as [|f t IH]; intros d1 H; cbn [mfor]; [eexists; reflexivity|].
    destruct (H f (or_introl eq_refl)) as [[w Ew] He].
    assert (E : way_body f d1 = (with_graph d1 (mkGraph (gnodes (dgraph d1))
        (upd_edges (fst (fst f)) (snd (fst f)) (dset "waypoints" (VPoints w)) (gedges (dgraph d1)))), Ok tt)).
    { rewrite way_body_eq, Ew, edge_set_eq, He. reflexivity. }
    rewrite (mbind_eq _ _ _ _ _ _ _ _ E). apply IH. intros x Hx. destruct (H x (or_intror Hx)) as [A B].
    split; auto. simpl. rewrite has_edge_upd. destruct (dgraph d1); exact B. }
  apply G. intros f Hf. split; auto. destruct (view_in_edge _ f W Hf) as [e [He Hr]].
  apply has_edge_true. exists e. split; auto. apply reports_connects. auto.
Qed.

Lemma gwf_same_ends : forall g g', gwf g -> map fst (gnodes g') = map fst (gnodes g) ->
  map (fun e => (eu e, ev e)) (gedges g') = map (fun e => (eu e, ev e)) (gedges g) -> gwf g'.
Proof.
  intros g g' [A B C] K E. constructor.
  - unfold dkeys. rewrite K. exact A.
  - intros e He. assert (Hi : In (eu e, ev e) (map (fun e => (eu e, ev e)) (gedges g))) by (rewrite <- E; apply in_map_iff; eauto).
    apply in_map_iff in Hi. destruct Hi as [e0 [Ee H0]]. injection Ee as X Y. unfold dkeys. rewrite K, <- X, <- Y. apply B. auto.
  - intros l1 e1 l2 e2 l3 El. rewrite El in E. rewrite map_app in E. simpl in E. rewrite map_app in E. simpl in E.
    symmetry in E. apply map_eq_app in E. destruct E as [m1 [m2 [Em [M1 M2]]]].
    destruct m2 as [|e1' m2]; [discriminate|]. simpl in M2. inversion M2 as [[X1 X2 X3]].
    apply map_eq_app in X3. destruct X3 as [m3 [m4 [Em' [M3 M4]]]].
    destruct m4 as [|e2' m4]; [discriminate|]. simpl in M4. inversion M4 as [[Y1 Y2 Y3]].
    subst m2. specialize (C m1 e1' m3 e2' m4 Em). unfold connects in *. congruence.
Qed.

(** ** The whole layout *)
Lemma layout_steps : forall fuel d d', generate_layout fuel d = (d', Ok tt) ->
  exists cls s b g d1, generate_elements_clasification d = Ok cls /\ topological_sort fuel d cls = Ok (s, b) /\
    grid_layout fuel d s = Ok g /\ set_coordinates_for_nodes g d = (d1, Ok tt) /\ set_flows_waypoints d1 = (d', Ok tt).
Proof.
  intros fuel d d' H. unfold generate_layout in H.
  apply mbind_ok_inv in H. destruct H as [d1 [cls [H1 H]]]. apply mread_ok_inv in H1. destruct H1 as [-> E1].
  apply mbind_ok_inv in H. destruct H as [d1 [[s b] [H1 H]]]. apply mread_ok_inv in H1. destruct H1 as [-> E2].
  apply mbind_ok_inv in H. destruct H as [d1 [g [H1 H]]]. apply mread_ok_inv in H1. destruct H1 as [-> E3].
  apply mbind_ok_inv in H. destruct H as [d1 [[] [H1 H]]]. cbn [fst] in E3. exists cls, s, b, g, d1. auto.
Qed.
Lemma layout_does : forall fuel d cls s b g d1 d', generate_elements_clasification d = Ok cls ->
  topological_sort fuel d cls = Ok (s, b) -> grid_layout fuel d s = Ok g ->
  set_coordinates_for_nodes g d = (d1, Ok tt) -> set_flows_waypoints d1 = (d', Ok tt) ->
  generate_layout fuel d = (d', Ok tt).
Proof.
  intros fuel d cls s b g d1 d' E1 E2 E3 E4 E5. unfold generate_layout, mbind, mread.
  rewrite E1, E2. cbn [fst]. rewrite E3, E4, E5. reflexivity.
Qed.

(** A successful layout of a coherent diagram. *)
Lemma layout_facts : forall fuel d d', coherent d -> generate_layout fuel d = (d', Ok tt) ->
  all_laid_out d /\ exists s b g d1,
    topological_sort fuel d (classified d) = Ok (s, b) /\ Permutation s (classified d) /\
    grid_layout fuel d s = Ok g /\ built d (classified d) g /\ NoDup (map cnid g) /\
    Permutation (map cnid g) (map fst (gnodes (dgraph d))) /\ Permutation (map cnid g) (map cid s) /\
    (forall n, is_node d n -> exists c, In c g /\ cnid c = n /\ gfind n g = Ok c /\
       at_xy d1 n (ccol c * 150 + 50) (crow c * 100 + 50) /\ at_xy d' n (ccol c * 150 + 50) (crow c * 100 + 50)) /\
    map fst (gnodes (dgraph d1)) = map fst (gnodes (dgraph d)) /\ gedges (dgraph d1) = gedges (dgraph d) /\
    set_flows_waypoints d1 = (d', Ok tt).
Proof.
  intros fuel d d' Co H. destruct (layout_steps _ _ _ H) as [cls [s [b [g [d1 [E1 [E2 [E3 [E4 E5]]]]]]]]].
  pose proof Co as [L _]. rewrite (elements_eq d L) in E1. inv E1.
  assert (Is : incl s (classified d)). { eapply topo_in_orig; [exact E2|]. intros x []. }
  unfold grid_layout in E3.
  destruct (grid_loop_ok d (classified d) _ _ _ _ E3) as [B [new [G1 G2]]]; [exact Is|constructor|].
  cbn [fst snd app] in G1, G2. subst new.
  destruct (coords_ok g d d1 E4) as [K [Ed P]].
  assert (AL : all_laid_out d).
  { intros n Hn. destruct (P n Hn) as [c [Ec _]]. destruct (gfind_ok _ _ _ Ec) as [Hc Ecn].
    assert (Hi : In n (map cid s)). { eapply Permutation_in; [exact G2|]. rewrite <- Ecn. apply in_map. auto. }
    apply in_map_iff in Hi. destruct Hi as [x [Ex Hx]]. apply Is in Hx. apply classified_char in Hx; auto.
    destruct Hx as [t [base [Ht [Hb _]]]]. rewrite Ex in Ht. exists t. split; auto. apply types_laid_out. eauto. }
  split; auto.
  pose proof (topo_ok d Co AL fuel s b E2) as I. destruct (final_facts d Co AL s b I) as [Ps [Ns _]].
  assert (Ng : NoDup (map cnid g)) by (eapply Permutation_NoDup; [symmetry; exact G2|exact Ns]).
  exists s, b, g, d1. split; auto. split; auto. split; auto. split; auto. split; auto. split; [|split; [exact G2|]].
  - rewrite G2, Ps. apply NoDup_Permutation.
    + apply classified_nodup. auto.
    + apply L.
    + intro n. split.
      * intro Hn. apply in_map_iff in Hn. destruct Hn as [c [<- Hc]]. apply orig_node in Hc; auto.
      * intro Hn. apply node_in_orig; auto.
  - split; [|auto]. intros n Hn. destruct (P n Hn) as [c [Ec A]]. destruct (gfind_ok _ _ _ Ec) as [Hc Ecn].
    exists c. split; auto. split; auto. split; auto. split; auto.
    pose proof (kept_waypoints d1) as Kw. rewrite E5 in Kw. simpl in Kw. clear - E5 A.
    unfold set_flows_waypoints in E5.
    assert (Nn : gnodes (dgraph d') = gnodes (dgraph d1)).
    { apply mbind_ok_inv in E5. destruct E5 as [d2 [fs [H1 H2]]]. apply mread_ok_inv in H1. destruct H1 as [-> _].
      revert d1 H2 A. induction fs as [|f t IH]; intros d1 H2 A; cbn [mfor] in H2; [inv H2; auto|].
      apply mbind_ok_inv in H2. destruct H2 as [d3 [[] [H3 H4]]].
      change (way_body f d1 = (d3, Ok tt)) in H3. rewrite way_body_eq in H3.
      destruct (wpa _ _); [|discriminate]. rewrite edge_set_eq in H3. destruct (has_edge _ _ _); [|discriminate].
      inv H3. rewrite (IH _ H4); auto. }
    unfold at_xy, attr, node_of in *. rewrite Nn. exact A.
Qed.
