(** Facts about the graph library model Nx.v. *)
From Coq Require Import String List Bool Arith Lia Permutation.
From Verif Require Import Py PyFacts Nx.
Import ListNotations.
Open Scope string_scope.
Open Scope list_scope.

(** Put the attribute dictionary of a node in place (new nodes go last). *)
Definition put_node (n : string) (a : attrs) (g : graph) : graph :=
  mkGraph (dset n a (gnodes g)) (gedges g).

Definition node_or_empty (n : string) (g : graph) : attrs :=
  match gnode g n with Some a => a | None => [] end.

Lemma add_node_put : forall n g, add_node n g = put_node n (node_or_empty n g) g.
Proof.
  intros n g. unfold add_node, put_node, node_or_empty, has_node, gnode, dhas.
  destruct (dget n (gnodes g)) eqn:E.
  - rewrite dset_get_id by auto. destruct g; reflexivity.
  - rewrite dset_new; auto. apply dget_None_keys; auto.
Qed.

Lemma gnode_put : forall n m a g,
  gnode (put_node n a g) m = if String.eqb m n then Some a else gnode g m.
Proof. intros. unfold gnode, put_node. simpl. apply dget_dset. Qed.

Lemma gnode_put_eq : forall n a g, gnode (put_node n a g) n = Some a.
Proof. intros. rewrite gnode_put, eqb_refl'. reflexivity. Qed.

Lemma put_put : forall n a b g, put_node n a (put_node n b g) = put_node n a g.
Proof. intros. unfold put_node. simpl. rewrite dset_dset. reflexivity. Qed.

Lemma set_node_attr_put : forall n k x a g,
  set_node_attr n k x (put_node n a g) = Ok (put_node n (dset k x a) g).
Proof.
  intros. unfold set_node_attr. rewrite gnode_put_eq. f_equal. apply put_put.
Qed.

Lemma set_node_attr_some : forall n k x a g, gnode g n = Some a ->
  set_node_attr n k x g = Ok (put_node n (dset k x a) g).
Proof. intros. unfold set_node_attr. rewrite H. reflexivity. Qed.

Lemma gnode_In : forall g n a, gnode g n = Some a -> In n (dkeys (gnodes g)).
Proof. intros. eapply dget_key_In; eauto. Qed.

(** * Edges *)
Lemma connects_true : forall u v e,
  connects u v e = true <-> (eu e = u /\ ev e = v) \/ (eu e = v /\ ev e = u).
Proof.
  intros u v e. unfold connects. rewrite orb_true_iff, !andb_true_iff, !String.eqb_eq. tauto.
Qed.

Lemma connects_sym : forall u v e, connects u v e = connects v u e.
Proof. intros. unfold connects. rewrite orb_comm. reflexivity. Qed.

Lemma find_edge_some : forall u v g e, find_edge u v g = Some e ->
  In e (gedges g) /\ connects u v e = true.
Proof. intros u v g e H. apply find_some in H. exact H. Qed.

Lemma has_edge_true : forall u v g,
  has_edge u v g = true <-> exists e, In e (gedges g) /\ connects u v e = true.
Proof.
  intros u v g. unfold has_edge, find_edge. split.
  - destruct (find _ _) eqn:E; [|discriminate]. intros _. apply find_some in E. eauto.
  - intros [e [Hin H]]. destruct (find (connects u v) (gedges g)) eqn:E; auto.
    rewrite (find_none _ _ E e Hin) in H. discriminate.
Qed.

Lemma has_edge_false : forall u v g,
  has_edge u v g = false <-> forall e, In e (gedges g) -> connects u v e = false.
Proof.
  intros u v g. split; intros H.
  - intros e Hin. destruct (connects u v e) eqn:E; auto.
    assert (has_edge u v g = true) by (apply has_edge_true; eauto). congruence.
  - destruct (has_edge u v g) eqn:E; auto. apply has_edge_true in E.
    destruct E as [e [Hin E]]. rewrite H in E; auto.
Qed.

Lemma upd_edges_compose : forall u v f h es,
  upd_edges u v f (upd_edges u v h es) = upd_edges u v (fun a => f (h a)) es.
Proof.
  intros. unfold upd_edges. rewrite map_map. apply map_ext. intros e.
  destruct (connects u v e) eqn:E.
  - replace (connects u v (mkEdge (eu e) (ev e) (h (eat e)))) with true by
      (unfold connects in *; simpl; congruence). reflexivity.
  - rewrite E. reflexivity.
Qed.

Lemma has_edge_upd : forall u v a b f ns es,
  has_edge u v (mkGraph ns (upd_edges a b f es)) = has_edge u v (mkGraph ns es).
Proof.
  intros. unfold has_edge, find_edge. simpl. unfold upd_edges.
  induction es as [|e t IH]; simpl; auto.
  assert (E : connects u v (if connects a b e then mkEdge (eu e) (ev e) (f (eat e)) else e)
              = connects u v e) by (destruct (connects a b e); reflexivity).
  rewrite E. destruct (connects u v e); auto.
Qed.

(** Well-formed graphs: what networkx guarantees. *)
Record gwf (g : graph) : Prop := mkGwf {
  gwf_nodup : NoDup (dkeys (gnodes g));
  gwf_ends : forall e, In e (gedges g) -> In (eu e) (dkeys (gnodes g)) /\ In (ev e) (dkeys (gnodes g));
  gwf_simple : forall l1 e1 l2 e2 l3, gedges g = l1 ++ e1 :: l2 ++ e2 :: l3 ->
               connects (eu e1) (ev e1) e2 = false }.

Lemma gwf_empty : gwf empty_graph.
Proof.
  constructor; simpl.
  - constructor.
  - contradiction.
  - intros. destruct l1; discriminate.
Qed.

Lemma gwf_put : forall n a g, gwf g -> gwf (put_node n a g).
Proof.
  intros n a g [H1 H2 H3]. constructor; simpl.
  - apply nodup_dset; auto.
  - intros e Hin. rewrite !in_dkeys_dset. destruct (H2 e Hin); auto.
  - exact H3.
Qed.

(** ** The edge view lists every stored edge exactly once *)
Definition reports (t : string * string * attrs) (e : edge) : Prop :=
  snd t = eat e /\
  ((fst (fst t) = eu e /\ snd (fst t) = ev e) \/ (fst (fst t) = ev e /\ snd (fst t) = eu e)).

Lemma filter_partition_perm : forall A (P Q : A -> bool) l,
  Permutation (filter P l) (filter (fun x => P x && Q x) l ++ filter (fun x => P x && negb (Q x)) l).
Proof.
  induction l as [|a t IH]; simpl; auto.
  destruct (P a); simpl; auto. destruct (Q a); simpl.
  - apply perm_skip; auto.
  - apply Permutation_cons_app; auto.
Qed.

Definition in_view (ns seen : list string) (e : edge) : bool :=
  (smem (eu e) ns || smem (ev e) ns) && negb (smem (eu e) seen) && negb (smem (ev e) seen).

Lemma smem_cons : forall a b l, smem a (b :: l) = String.eqb a b || smem a l.
Proof. reflexivity. Qed.

Lemma incident_reports : forall n seen es, smem n seen = false ->
  exists l, Permutation l (filter (fun e => (String.eqb (eu e) n || String.eqb (ev e) n)
                                    && negb (smem (eu e) seen) && negb (smem (ev e) seen)) es) /\
    Forall2 reports (map (fun p => (n, fst p, snd p))
          (filter (fun p => negb (smem (fst p) seen)) (incident n es))) l.
Proof.
  intros n seen es Hn. induction es as [|e t [l [Hp Hf]]].
  - exists []. simpl. split; auto.
  - unfold incident in *. simpl. rewrite filter_app, map_app.
    destruct (String.eqb_spec (eu e) n) as [E|E]; simpl.
    + rewrite E, Hn. simpl. destruct (smem (ev e) seen) eqn:Es; simpl.
      * exists l. auto.
      * exists (e :: l). split; [constructor; auto|]. constructor; auto.
        split; simpl; auto.
    + destruct (String.eqb_spec (ev e) n) as [E'|E']; simpl.
      * rewrite E', Hn. simpl. rewrite andb_true_r. destruct (smem (eu e) seen) eqn:Es; simpl.
        -- exists l. auto.
        -- exists (e :: l). split; [constructor; auto|]. constructor; auto.
           split; simpl; auto.
      * exists l. auto.
Qed.

Lemma edges_from_reports : forall ns seen es, NoDup ns -> (forall n, In n ns -> ~ In n seen) ->
  exists l, Permutation l (filter (in_view ns seen) es) /\
            Forall2 reports (edges_from ns seen es) l.
Proof.
  induction ns as [|n t IH]; intros seen es Hd Hs; simpl.
  - exists []. split; auto.
    replace (filter (in_view [] seen) es) with (@nil edge); auto.
    induction es; simpl; auto.
  - inv Hd.
    assert (Hn : smem n seen = false) by (apply smem_notIn; apply Hs; simpl; auto).
    destruct (incident_reports n seen es Hn) as [l1 [P1 F1]].
    destruct (IH (n :: seen) es) as [l2 [P2 F2]]; auto.
    { intros m Hm [->|Hm']; [auto|]. apply (Hs m); simpl; auto. }
    exists (l1 ++ l2). split.
    + etransitivity; [|symmetry; apply (filter_partition_perm _ (in_view (n :: t) seen)
              (fun e => String.eqb (eu e) n || String.eqb (ev e) n))].
      apply Permutation_app.
      * etransitivity; [exact P1|].
        match goal with |- Permutation ?a ?b => replace b with a; auto end.
        apply filter_ext. intros e. unfold in_view. rewrite !smem_cons.
        destruct (String.eqb (eu e) n), (String.eqb (ev e) n), (smem (eu e) t), (smem (ev e) t),
          (smem (eu e) seen), (smem (ev e) seen); reflexivity.
      * etransitivity; [exact P2|].
        match goal with |- Permutation ?a ?b => replace b with a; auto end.
        apply filter_ext. intros e. unfold in_view. rewrite !smem_cons.
        destruct (String.eqb (eu e) n), (String.eqb (ev e) n), (smem (eu e) t), (smem (ev e) t),
          (smem (eu e) seen), (smem (ev e) seen); reflexivity.
    + apply Forall2_app; auto.
Qed.

Lemma filter_all_true : forall A (P : A -> bool) l, (forall x, In x l -> P x = true) -> filter P l = l.
Proof.
  induction l as [|a t IH]; simpl; intros H; auto.
  rewrite H by auto. f_equal. auto.
Qed.

Theorem edges_view_reports : forall g, gwf g ->
  exists l, Permutation l (gedges g) /\ Forall2 reports (edges_view g) l.
Proof.
  intros g [Hd He _]. unfold edges_view.
  destruct (edges_from_reports (dkeys (gnodes g)) [] (gedges g) Hd) as [l [P F]]; auto.
  exists l. split; auto. rewrite filter_all_true in P; auto.
  intros e Hin. unfold in_view. simpl. destruct (He e Hin) as [H1 _].
  apply smem_In in H1. rewrite H1. reflexivity.
Qed.

Lemma Forall2_len : forall A B (R : A -> B -> Prop) l1 l2, Forall2 R l1 l2 -> length l1 = length l2.
Proof. induction 1; simpl; auto. Qed.

Lemma edges_view_length : forall g, gwf g -> length (edges_view g) = length (gedges g).
Proof.
  intros g H. destruct (edges_view_reports g H) as [l [P F]].
  rewrite (Permutation_length (Permutation_sym P)). eapply Forall2_len; eauto.
Qed.

Lemma Forall2_in_l : forall A B (R : A -> B -> Prop) l1 l2 a,
  Forall2 R l1 l2 -> In a l1 -> exists b, In b l2 /\ R a b.
Proof.
  induction 1; simpl; intros Hin; [contradiction|].
  destruct Hin as [->|Hin]; eauto. destruct (IHForall2 Hin) as [b [H1 H2]]; eauto.
Qed.

Lemma Forall2_in_r : forall A B (R : A -> B -> Prop) l1 l2 b,
  Forall2 R l1 l2 -> In b l2 -> exists a, In a l1 /\ R a b.
Proof.
  induction 1; simpl; intros Hin; [contradiction|].
  destruct Hin as [->|Hin]; eauto. destruct (IHForall2 Hin) as [a [H1 H2]]; eauto.
Qed.

Lemma view_in_edge : forall g t, gwf g -> In t (edges_view g) ->
  exists e, In e (gedges g) /\ reports t e.
Proof.
  intros g t H Hin. destruct (edges_view_reports g H) as [l [P F]].
  destruct (Forall2_in_l _ _ _ _ _ _ F Hin) as [e [He Hr]].
  exists e. split; auto. eapply Permutation_in; eauto.
Qed.

Lemma edge_in_view : forall g e, gwf g -> In e (gedges g) ->
  exists t, In t (edges_view g) /\ reports t e.
Proof.
  intros g e H Hin. destruct (edges_view_reports g H) as [l [P F]].
  apply (Permutation_in _ (Permutation_sym P)) in Hin.
  destruct (Forall2_in_r _ _ _ _ _ _ F Hin) as [t [Ht Hr]]. eauto.
Qed.

(** Simple: two stored edges over the same unordered pair are the same edge. *)
Lemma gwf_unique : forall g e1 e2, gwf g -> In e1 (gedges g) -> In e2 (gedges g) ->
  connects (eu e1) (ev e1) e2 = true -> e1 = e2.
Proof.
  intros g e1 e2 [_ _ Hs] H1 H2 Hc.
  apply in_split in H1. destruct H1 as [l1 [l2 E]].
  rewrite E in H2. apply in_app_or in H2. destruct H2 as [H2|[H2|H2]]; auto.
  - apply in_split in H2. destruct H2 as [l3 [l4 E2]]. subst l1.
    assert (C : connects (eu e2) (ev e2) e1 = false).
    { apply (Hs l3 e2 l4 e1 l2). rewrite E, <- app_assoc. reflexivity. }
    apply connects_true in Hc.
    assert (connects (eu e2) (ev e2) e1 = true) by (apply connects_true; intuition).
    congruence.
  - apply in_split in H2. destruct H2 as [l3 [l4 E2]]. subst l2.
    rewrite (Hs l1 e1 l3 e2 l4) in Hc; [discriminate|]. exact E.
Qed.

(** ** Adding and updating edges keeps well-formedness *)
Lemma upd_edges_in : forall u v f es e, In e (upd_edges u v f es) ->
  exists e0, In e0 es /\ eu e = eu e0 /\ ev e = ev e0 /\
             eat e = (if connects u v e0 then f (eat e0) else eat e0).
Proof.
  intros u v f es e H. unfold upd_edges in H. apply in_map_iff in H.
  destruct H as [e0 [E Hin]]. exists e0. split; auto.
  destruct (connects u v e0); subst e; simpl; auto.
Qed.

Lemma gwf_upd : forall ns es u v f, gwf (mkGraph ns es) -> gwf (mkGraph ns (upd_edges u v f es)).
Proof.
  intros ns es u v f [H1 H2 H3]. constructor; simpl in *; auto.
  - intros e Hin. apply upd_edges_in in Hin. destruct Hin as [e0 [Hin [-> [-> _]]]]. auto.
  - intros l1 e1 l2 e2 l3 E. unfold upd_edges in E.
    apply map_eq_app in E. destruct E as [m1 [m2 [E [M1 M2]]]].
    destruct m2 as [|e1' m2]; [discriminate|]. simpl in M2. inversion M2 as [[A1 A2]].
    apply map_eq_app in A2. destruct A2 as [m3 [m4 [E' [M3 M4]]]].
    destruct m4 as [|e2' m4]; [discriminate|]. simpl in M4. inversion M4 as [[B1 B2]].
    subst m2. specialize (H3 m1 e1' m3 e2' m4 E).
    destruct (connects u v e1'), (connects u v e2'); simpl in *; auto.
Qed.

Lemma gwf_add_new_edge : forall ns es s t a,
  gwf (mkGraph ns es) -> In s (dkeys ns) -> In t (dkeys ns) ->
  has_edge s t (mkGraph ns es) = false ->
  gwf (mkGraph ns (es ++ [mkEdge s t a])).
Proof.
  intros ns es s t a [H1 H2 H3] Hs Ht Hh. rewrite has_edge_false in Hh. simpl in *.
  constructor; simpl; auto.
  - intros e Hin. apply in_app_or in Hin. destruct Hin as [Hin|[<-|[]]]; auto.
  - intros l1 e1 l2 e2 l3 E.
    destruct (exists_last (l := e2 :: l3)) as [l' [z Ez]]; [discriminate|].
    assert (E' : es ++ [mkEdge s t a] = (l1 ++ e1 :: l2 ++ l') ++ [z]).
    { rewrite E, Ez, <- app_assoc. simpl. rewrite <- app_assoc. reflexivity. }
    apply app_inj_tail in E'. destruct E' as [E1 E2]. destruct l' as [|y l'].
    + simpl in Ez. inv Ez.
      assert (Hin : In e1 (l1 ++ e1 :: l2 ++ [])) by (apply in_or_app; right; left; auto).
      specialize (Hh e1 Hin). unfold connects in *. simpl.
      rewrite (String.eqb_sym s (eu e1)), (String.eqb_sym t (ev e1)),
        (String.eqb_sym s (ev e1)), (String.eqb_sym t (eu e1)).
      destruct (String.eqb (eu e1) s), (String.eqb (ev e1) t), (String.eqb (eu e1) t),
        (String.eqb (ev e1) s); simpl in *; auto.
    + simpl in Ez. inv Ez. apply (H3 l1 e1 l2 y l'). reflexivity.
Qed.

(** ** Degrees *)
Lemma degree_sum_aux : forall ns es, NoDup ns ->
  (forall e, In e es -> In (eu e) ns /\ In (ev e) ns) ->
  fold_right (fun n acc => fold_right (fun e acc => (if String.eqb (eu e) n then 1 else 0)
                           + (if String.eqb (ev e) n then 1 else 0) + acc) 0 es + acc) 0 ns
  = 2 * length es.
Proof.
  intros ns es Hd. induction es as [|e t IH]; intros Hin.
  - simpl. clear. induction ns; simpl; auto.
  - assert (E : forall (l : list string) (F G : string -> nat),
        fold_right (fun n acc => (F n + G n) + acc) 0 l
        = fold_right (fun n acc => F n + acc) 0 l + fold_right (fun n acc => G n + acc) 0 l).
    { clear. induction l; intros; simpl; auto. rewrite IHl. lia. }
    simpl fold_right at 2.
    rewrite (E ns (fun n => (if String.eqb (eu e) n then 1 else 0) + (if String.eqb (ev e) n then 1 else 0))).
    rewrite IH by (intros; apply Hin; simpl; auto).
    rewrite (E ns (fun n => if String.eqb (eu e) n then 1 else 0)).
    assert (One : forall x l, NoDup l -> In x l ->
       fold_right (fun n acc => (if String.eqb x n then 1 else 0) + acc) 0 l = 1).
    { clear. induction l as [|y l IH]; intros Hn Hin; [contradiction|].
      inv Hn. simpl. destruct (String.eqb_spec x y).
      - subst. assert (Z : fold_right (fun n acc => (if String.eqb y n then 1 else 0) + acc) 0 l = 0).
        { clear - H1. induction l as [|z l IH]; simpl; auto.
          rewrite eqb_neq' by (intro; subst; apply H1; simpl; auto).
          simpl. apply IH. intro; apply H1; simpl; auto. }
        rewrite Z. lia.
      - destruct Hin; [congruence|]. rewrite IH by auto. lia. }
    destruct (Hin e (or_introl eq_refl)) as [Hu Hv].
    rewrite !One by auto. simpl length. lia.
Qed.
