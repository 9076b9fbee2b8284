(** Effects of the graph operations in terms of what can be observed: nodes, node
    attributes, connections, connection attributes. *)
From Coq Require Import String List Bool Arith Lia.
From Verif Require Import Py PyFacts Consts Nx NxFacts Rep SpecRep RepFacts CsvRegex CsvImport CsvFacts Xml Import.
Import ListNotations.
Open Scope string_scope.
Open Scope list_scope.

(** * Sequencing *)
Lemma mbind_assoc : forall S A B C (m : M S A) (f : A -> M S B) (g : B -> M S C) s,
  mbind (mbind m f) g s = mbind m (fun x => mbind (f x) g) s.
Proof. intros. unfold mbind. destruct (m s) as [s1 [a|e]]; reflexivity. Qed.
Lemma mbind_ret_r : forall S (m : M S unit) s, mbind m (fun _ => mret tt) s = m s.
Proof. intros. unfold mbind. destruct (m s) as [s1 [[]|e]]; reflexivity. Qed.
Lemma mbind_modify : forall S B (g : S -> S) (f : unit -> M S B) s, mbind (mmodify g) f s = f tt (g s).
Proof. reflexivity. Qed.
Lemma mbind_ext : forall S A B (m m' : M S A) (f f' : A -> M S B) s,
  m s = m' s -> (forall a s1, f a s1 = f' a s1) -> mbind m f s = mbind m' f' s.
Proof. intros. unfold mbind. rewrite H. destruct (m' s) as [s1 [a|e]]; auto. Qed.
Lemma mfor_app : forall S A (f : A -> M S unit) l1 l2 s,
  mfor (l1 ++ l2) f s = mbind (mfor l1 f) (fun _ => mfor l2 f) s.
Proof.
  induction l1 as [|a l1 IH]; intros l2 s; [reflexivity|].
  simpl. rewrite mbind_assoc. apply mbind_ext; auto.
Qed.
Lemma mfor_ext : forall S A (f g : A -> M S unit) l, (forall a s, In a l -> f a s = g a s) ->
  forall s, mfor l f s = mfor l g s.
Proof.
  induction l as [|a l IH]; intros H s; [reflexivity|].
  simpl. apply mbind_ext; [apply H; left; reflexivity|].
  intros. apply IH. intros. apply H. right. assumption.
Qed.
Lemma mfor_flat_map : forall S A B (h : A -> list B) (f : B -> M S unit) l s,
  mfor (flat_map h l) f s = mfor l (fun a => mfor (h a) f) s.
Proof.
  induction l as [|a l IH]; intros s; [reflexivity|].
  simpl. rewrite mfor_app. apply mbind_ext; auto.
Qed.
Lemma mfor_map : forall S A B (h : A -> B) (f : B -> M S unit) l s,
  mfor (map h l) f s = mfor l (fun a => f (h a)) s.
Proof. induction l as [|a l IH]; intros s; [reflexivity|]. simpl. apply mbind_ext; auto. Qed.
Lemma mfor_one : forall S A (f : A -> M S unit) a s, mfor [a] f s = f a s.
Proof. intros. simpl. apply mbind_ret_r. Qed.

(** * Observations *)
Definition pair_b (a b c e : string) : bool :=
  (String.eqb a c && String.eqb b e) || (String.eqb a e && String.eqb b c).
Lemma pair_b_spec : forall a b c e, pair_b a b c e = true <-> same_pair a b c e.
Proof.
  intros. unfold pair_b, same_pair. rewrite orb_true_iff, !andb_true_iff, !String.eqb_eq. tauto.
Qed.
Lemma pair_b_refl : forall a b, pair_b a b a b = true.
Proof. intros. apply pair_b_spec. apply same_pair_refl. Qed.

Definition edge_attr (d : diagram) (u v k : string) : option pyval :=
  match find_edge u v (dgraph d) with Some e => dget k (eat e) | None => None end.
Definition edge_b (d : diagram) (u v : string) : bool := has_edge u v (dgraph d).
Definition proc_attr (d : diagram) (p k : string) : option pyval :=
  match dget p (procs d) with Some a => dget k a | None => None end.

Lemma edge_b_linked : forall d u v, edge_b d u v = true <-> linked d u v.
Proof.
  intros. unfold edge_b, linked. rewrite has_edge_true. split; intros [e [H1 H2]]; exists e; split; auto.
  - apply same_pair_connects; auto.
  - apply same_pair_connects; auto.
Qed.
Lemma edge_attr_link : forall d u v k x, gwf (dgraph d) ->
  edge_attr d u v k = Some x <-> link_attr d u v k x.
Proof.
  intros d u v k x W. unfold edge_attr, link_attr. split.
  - destruct (find_edge u v (dgraph d)) as [e|] eqn:F; [|discriminate]. intros H.
    apply find_edge_some in F. destruct F as [F1 F2]. exists e. split; auto. split; auto.
    apply same_pair_connects; auto.
  - intros [e [I [P G]]]. apply same_pair_connects in P.
    destruct (find_edge u v (dgraph d)) as [e'|] eqn:F.
    + apply find_edge_some in F. destruct F as [F1 F2].
      rewrite <- (gwf_unique _ _ _ W I F1); auto.
      apply same_pair_connects. apply same_pair_connects in P. apply same_pair_connects in F2.
      eapply same_pair_trans; [exact F2|]. apply same_pair_sym. exact P.
    + unfold find_edge in F. eapply find_none in F; [|exact I]. congruence.
Qed.

Lemma connects_pair : forall u v a b e, pair_b a b u v = true -> connects u v e = connects a b e.
Proof.
  intros. apply pair_b_spec in H. destruct (connects u v e) eqn:X; destruct (connects a b e) eqn:Y; auto.
  - apply same_pair_connects in X. assert (same_pair (eu e) (ev e) a b).
    { eapply same_pair_trans; [exact X|apply same_pair_sym; exact H]. }
    apply same_pair_connects in H0. congruence.
  - apply same_pair_connects in Y. assert (same_pair (eu e) (ev e) u v) by (eapply same_pair_trans; eauto).
    apply same_pair_connects in H0. congruence.
Qed.
Lemma connects_both : forall u v a b e, connects u v e = true -> connects a b e = true -> pair_b a b u v = true.
Proof.
  intros. apply pair_b_spec. apply same_pair_connects in H, H0.
  eapply same_pair_trans; [apply same_pair_sym; exact H0|exact H].
Qed.

Lemma edge_b_graph : forall d d', gedges (dgraph d') = gedges (dgraph d) ->
  (forall a b, edge_b d' a b = edge_b d a b) /\ (forall a b k, edge_attr d' a b k = edge_attr d a b k).
Proof. intros. unfold edge_b, edge_attr, has_edge, find_edge. rewrite H. auto. Qed.
Lemma attr_graph : forall d d', gnodes (dgraph d') = gnodes (dgraph d) ->
  (forall n k, attr d' n k = attr d n k) /\ (forall n, is_node d' n <-> is_node d n).
Proof. intros. unfold attr, node_of, is_node. rewrite H. split; [auto|tauto]. Qed.

Lemma find_upd : forall u v f a b es,
  find (connects a b) (upd_edges u v f es) =
  match find (connects a b) es with
  | Some e => Some (if pair_b a b u v then mkEdge (eu e) (ev e) (f (eat e)) else e)
  | None => None
  end.
Proof.
  induction es as [|e es IH]; [reflexivity|].
  simpl. unfold upd_edges in *. cbn [map].
  destruct (connects u v e) eqn:X.
  - cbn [find]. assert (Q : connects a b (mkEdge (eu e) (ev e) (f (eat e))) = connects a b e) by reflexivity.
    rewrite Q. destruct (connects a b e) eqn:Y; auto.
    rewrite (connects_both _ _ _ _ _ X Y). reflexivity.
  - cbn [find]. destruct (connects a b e) eqn:Y; auto.
    destruct (pair_b a b u v) eqn:P; auto. rewrite (connects_pair _ _ _ _ e P) in X. congruence.
Qed.

Lemma edge_set_spec : forall s t k v d, edge_b d s t = true ->
  exists d', edge_set s t k v d = (d', Ok tt) /\
    (forall a b k', edge_attr d' a b k' = if pair_b a b s t && String.eqb k' k then Some v else edge_attr d a b k') /\
    (forall a b, edge_b d' a b = edge_b d a b) /\
    gnodes (dgraph d') = gnodes (dgraph d) /\ same_rest d d'.
Proof.
  intros s t k v d H. unfold edge_b in *.
  exists (with_graph d (mkGraph (gnodes (dgraph d)) (upd_edges s t (dset k v) (gedges (dgraph d))))).
  split; [|split; [|split; [|split]]].
  - unfold edge_set, ggraph, mtry, set_edge_attr. rewrite H. reflexivity.
  - intros a b k'. unfold edge_attr, find_edge. simpl. rewrite find_upd.
    destruct (find (connects a b) (gedges (dgraph d))) as [e|] eqn:F.
    + destruct (pair_b a b s t); simpl; auto. apply dget_dset.
    + destruct (pair_b a b s t) eqn:P; simpl; auto.
      apply has_edge_true in H. destruct H as [e [I C]].
      eapply find_none in F; [|exact I]. rewrite (connects_pair _ _ _ _ e P) in C. congruence.
  - intros a b. unfold has_edge, find_edge. simpl. rewrite find_upd.
    destruct (find (connects a b) (gedges (dgraph d))); reflexivity.
  - reflexivity.
  - repeat split.
Qed.

Lemma add_edge_spec : forall s t d,
  exists d', ggraph (fun g => Ok (add_edge s t g)) d = (d', Ok tt) /\
    (forall n k, attr d' n k = attr d n k) /\
    (forall n, is_node d' n <-> is_node d n \/ n = s \/ n = t) /\
    (forall a b k, edge_attr d' a b k = edge_attr d a b k) /\
    (forall a b, edge_b d' a b = edge_b d a b || pair_b a b s t) /\
    same_rest d d'.
Proof.
  intros s t d. exists (with_graph d (add_edge s t (dgraph d))). split; [reflexivity|].
  assert (N : forall n, gnode (add_edge s t (dgraph d)) n =
     match gnode (dgraph d) n with Some a => Some a
     | None => if String.eqb n s || String.eqb n t then Some [] else None end).
  { intros n. rewrite add_edge_ghost. rewrite upd_edges_id.
    pose proof (ghost_node s t (dgraph d) n) as G. exact G. }
  assert (Ed : gedges (add_edge s t (dgraph d)) = edge_base s t (dgraph d)).
  { unfold add_edge, edge_base.
    assert (Q : gedges (add_node t (add_node s (dgraph d))) = gedges (dgraph d)).
    { unfold add_node. destruct (has_node _ s); destruct (has_node _ t); reflexivity. }
    assert (Q2 : has_edge s t (add_node t (add_node s (dgraph d))) = has_edge s t (dgraph d)).
    { unfold has_edge, find_edge. rewrite Q. reflexivity. }
    rewrite Q2. destruct (has_edge s t (dgraph d)); simpl; rewrite Q; reflexivity. }
  split; [|split; [|split; [|split]]].
  - intros n k. unfold attr, node_of. simpl.
    change (match gnode (add_edge s t (dgraph d)) n with Some a => dget k a | None => None end =
            match gnode (dgraph d) n with Some a => dget k a | None => None end).
    rewrite N. destruct (gnode (dgraph d) n); auto. destruct (_ || _); reflexivity.
  - intros n. rewrite !is_node_of. unfold node_of. simpl.
    change ((exists a, gnode (add_edge s t (dgraph d)) n = Some a) <->
            (exists a, gnode (dgraph d) n = Some a) \/ n = s \/ n = t).
    rewrite N. destruct (gnode (dgraph d) n) as [a|].
    + split; eauto.
    + destruct (String.eqb_spec n s); destruct (String.eqb_spec n t); simpl;
        (split; [intros [a Ha]; try discriminate; auto | eauto]).
      intros [[a Ha]|[?|?]]; congruence.
  - intros a b k. unfold edge_attr, find_edge. simpl. rewrite Ed. unfold edge_base.
    destruct (has_edge s t (dgraph d)) eqn:H; auto.
    destruct (find (connects a b) (gedges (dgraph d))) as [e|] eqn:F.
    + assert (find (connects a b) (gedges (dgraph d) ++ [mkEdge s t []]) = Some e) as ->.
      { clear - F. induction (gedges (dgraph d)) as [|x l IH]; simpl in *; [discriminate|].
        destruct (connects a b x); auto. }
      reflexivity.
    + assert (find (connects a b) (gedges (dgraph d) ++ [mkEdge s t []]) = find (connects a b) [mkEdge s t []]) as ->.
      { clear - F. induction (gedges (dgraph d)) as [|x l IH]; simpl in *; auto.
        destruct (connects a b x); [discriminate|auto]. }
      simpl. destruct (connects a b _); reflexivity.
  - intros a b. unfold edge_b, has_edge, find_edge. simpl. rewrite Ed. unfold edge_base.
    assert (Cp : connects a b (mkEdge s t []) = pair_b a b s t).
    { unfold connects, pair_b. simpl. rewrite (String.eqb_sym s a), (String.eqb_sym t b),
        (String.eqb_sym s b), (String.eqb_sym t a).
      destruct (a =? s), (b =? t), (b =? s), (a =? t); reflexivity. }
    destruct (has_edge s t (dgraph d)) eqn:H.
    + destruct (find (connects a b) (gedges (dgraph d))) as [e|] eqn:F; auto. simpl.
      destruct (pair_b a b s t) eqn:P; auto. apply has_edge_true in H. destruct H as [e [I C]].
      eapply find_none in F; [|exact I]. rewrite (connects_pair _ _ _ _ e P) in C. congruence.
    + assert (G : forall l, find (connects a b) (l ++ [mkEdge s t []]) =
         match find (connects a b) l with Some e => Some e | None => if pair_b a b s t then Some (mkEdge s t []) else None end).
      { induction l as [|x l IH]; simpl; [rewrite Cp; reflexivity|]. destruct (connects a b x); auto. }
      rewrite G. destruct (find (connects a b) (gedges (dgraph d))); auto. simpl.
      destruct (pair_b a b s t); reflexivity.
  - repeat split.
Qed.

Lemma add_node_spec : forall n d,
  exists d', ggraph (fun g => Ok (add_node n g)) d = (d', Ok tt) /\
    (forall m k, attr d' m k = attr d m k) /\
    (forall m, is_node d' m <-> is_node d m \/ m = n) /\
    gedges (dgraph d') = gedges (dgraph d) /\ same_rest d d'.
Proof.
  intros n d. exists (put d n (node_or_empty n (dgraph d))). split; [apply add_node_diag|].
  assert (A : forall m k, attr (put d n (node_or_empty n (dgraph d))) m k = attr d m k).
  { intros. rewrite attr_put. destruct (String.eqb_spec m n); auto. subst.
    unfold node_or_empty, attr, node_of, gnode. destruct (dget n (gnodes (dgraph d))); reflexivity. }
  split; [exact A|]. split; [|split].
  - intros m. rewrite !is_node_of. unfold node_of, put. simpl.
    rewrite dget_dset. destruct (String.eqb_spec m n); subst.
    + split; eauto.
    + split; [auto|]. intros [?|?]; [auto|congruence].
  - reflexivity.
  - repeat split.
Qed.

(** * Setting several attributes of one node *)
Definition set_all (n : string) (l : list (string * pyval)) : MD unit :=
  mfor l (fun p => node_set n (fst p) (snd p)).

Lemma same_rest_refl : forall d, same_rest d d.
Proof. intros. repeat split. Qed.
Lemma same_rest_trans : forall a b c, same_rest a b -> same_rest b c -> same_rest a c.
Proof. unfold same_rest. intros a b c (A1&A2&A3&A4&A5) (B1&B2&B3&B4&B5). repeat split; congruence. Qed.

Lemma is_node_keys : forall d d', node_keys d' = node_keys d -> forall n, is_node d' n <-> is_node d n.
Proof. intros d d' H n. unfold is_node. unfold node_keys, dkeys in H. rewrite H. tauto. Qed.

Lemma set_all_spec : forall n l d, is_node d n ->
  exists d', set_all n l d = (d', Ok tt) /\
    (forall m k, attr d' m k = if String.eqb m n
                               then match dget k (rev l) with Some v => Some v | None => attr d m k end
                               else attr d m k) /\
    (forall m, is_node d' m <-> is_node d m) /\
    gedges (dgraph d') = gedges (dgraph d) /\ same_rest d d'.
Proof.
  induction l as [|[k0 v0] l IH]; intros d Hn.
  - exists d. split; [reflexivity|]. split; [intros; destruct (_ =? _); reflexivity|].
    split; [tauto|]. split; [reflexivity|apply same_rest_refl].
  - destruct (node_set_attr n k0 v0 d Hn) as [d1 [E1 [A1 [K1 [G1 R1]]]]].
    assert (Hn1 : is_node d1 n) by (apply (is_node_keys _ _ K1); exact Hn).
    destruct (IH d1 Hn1) as [d2 [E2 [A2 [N2 [G2 R2]]]]]. exists d2. split; [|split; [|split; [|split]]].
    + unfold set_all in *. simpl. rewrite (mbind_eq _ _ _ _ _ _ _ _ E1). exact E2.
    + intros m k. rewrite A2. simpl rev. rewrite dget_app. rewrite A1.
      destruct (String.eqb_spec m n); auto. subst.
      destruct (dget k (rev l)); auto. simpl. destruct (k =? k0); reflexivity.
    + intros m. rewrite N2. apply (is_node_keys _ _ K1).
    + congruence.
    + eapply same_rest_trans; eauto.
Qed.

(** * Well-formedness of the graph is kept *)
Definition keeps (P : diagram -> Prop) {A} (m : MD A) : Prop := forall d, P d -> P (fst (m d)).
Lemma keeps_ret : forall P A (a : A), keeps P (mret a).
Proof. intros P A a d H. exact H. Qed.
Lemma keeps_raise : forall P A e, keeps P (@mraise diagram A e).
Proof. intros P A e d H. exact H. Qed.
Lemma keeps_read : forall P A (f : diagram -> res A), keeps P (mread f).
Proof. intros P A f d H. exact H. Qed.
Lemma keeps_bind : forall P A B (m : MD A) (f : A -> MD B),
  keeps P m -> (forall a, keeps P (f a)) -> keeps P (mbind m f).
Proof.
  intros P A B m f Hm Hf d H. unfold mbind. specialize (Hm d H). destruct (m d) as [d1 [a|e]]; simpl in *; auto.
  apply Hf. exact Hm.
Qed.
Lemma keeps_for : forall P A (f : A -> MD unit) l, (forall a, keeps P (f a)) -> keeps P (mfor l f).
Proof.
  induction l as [|a l IH]; intros H; [apply keeps_ret|].
  simpl. apply keeps_bind; auto.
Qed.
Lemma keeps_modify : forall (P : diagram -> Prop) f, (forall d, P d -> P (f d)) -> keeps P (mmodify f).
Proof. intros P f H d Hd. apply H. exact Hd. Qed.
Lemma keeps_each : forall P (f : dom -> MD unit) l, (forall a, keeps P (f a)) -> keeps P (each_element l f).
Proof. intros. apply keeps_for. intros [g a k|s|s]; [apply H|apply keeps_ret|apply keeps_raise]. Qed.

Definition gwf_d (d : diagram) : Prop := gwf (dgraph d).
Lemma gwf_node_set : forall n k v, keeps gwf_d (node_set n k v).
Proof.
  intros n k v d H. unfold node_set, ggraph, mtry, set_node_attr.
  destruct (gnode (dgraph d) n) eqn:G; auto. simpl. apply (gwf_put n _ _ H).
Qed.
Lemma gwf_edge_set : forall s t k v, keeps gwf_d (edge_set s t k v).
Proof.
  intros s t k v d H. unfold edge_set, ggraph, mtry, set_edge_attr.
  destruct (has_edge s t (dgraph d)); auto. simpl. apply gwf_upd. unfold gwf_d in H. destruct (dgraph d). exact H.
Qed.
Lemma gwf_add_node : forall n, keeps gwf_d (ggraph (fun g => Ok (add_node n g))).
Proof. intros n d H. rewrite add_node_diag. simpl. apply gwf_put. exact H. Qed.
Lemma gwf_append : forall n k s, keeps gwf_d (ggraph (append_node_attr n k s)).
Proof.
  intros n k s d H. unfold ggraph, mtry, append_node_attr.
  destruct (get_node_attr n k (dgraph d)) as [v|e]; auto. simpl. destruct v; auto.
  unfold set_node_attr. destruct (gnode (dgraph d) n); auto. simpl. apply (gwf_put n _ _ H).
Qed.
Lemma gwf_add_edge : forall s t, keeps gwf_d (ggraph (fun g => Ok (add_edge s t g))).
Proof.
  intros s t d H. unfold ggraph, mtry. simpl. unfold gwf_d in *. simpl. unfold add_edge.
  assert (W : gwf (add_node t (add_node s (dgraph d)))).
  { rewrite add_node_put. apply gwf_put. rewrite add_node_put. apply gwf_put. exact H. }
  destruct (has_edge s t (add_node t (add_node s (dgraph d)))) eqn:E; auto.
  apply gwf_add_new_edge; auto.
  - destruct (add_node t (add_node s (dgraph d))); exact W.
  - rewrite add_node_put. simpl. apply in_dkeys_dset. right. rewrite add_node_put. simpl.
    apply in_dkeys_dset. auto.
  - rewrite add_node_put. simpl. apply in_dkeys_dset. auto.
Qed.
