(** Diagrams loaded from CSV tables without goto rows, seen by the layouter. *)
From Coq Require Import String Ascii List Bool Arith ZArith Lia Permutation.
From Verif Require Import Py PyFacts Consts Nx NxFacts Rep SpecRep RepFacts SpecLayout.
From Verif Require Import CsvRegex CsvImport SpecCsv RegexFacts CsvFacts SpecFlow CsvGhost CsvFill CsvLast CsvGraph.
Import ListNotations.
Open Scope string_scope.
Open Scope list_scope.

Section Booked.
Variables (rows : dict row) (d' : diagram) (L : flows_of).
Hypothesis B : books d' L.
Hypothesis Nd : NoDup L.
Hypothesis Ed : edged rows d' L.
Hypothesis Bk : forall s t, In (s, t) L -> ~ In (t, s) L.
Hypothesis W : gwf (dgraph d').
Lemma booked_gid_same : forall p q, In p L -> In q L -> gid p = gid q -> p = q.
Proof using All.
  intros [s t] [s' t'] P Q E. destruct (bk_ends _ _ B _ _ P), (bk_ends _ _ B _ _ Q).
  unfold gid in E. cbn [fst snd] in E. apply flow_id_inj in E; try (apply (bk_simple _ _ B); auto). destruct E as [-> ->]. reflexivity.
Qed.
Lemma booked_flows_nodup : forall f, NoDup (map gid (filter f L)).
Proof using All.
  intros f. assert (X : forall l, incl l L -> NoDup l -> NoDup (map gid l)).
  { induction l as [|p l IH]; intros Hi N; cbn [map]; [constructor|]. inv N. constructor.
    - intros C. apply in_map_iff in C. destruct C as [q [E C]]. apply H1. replace p with q; auto. apply booked_gid_same; auto; apply Hi; [right|left]; auto.
    - apply IH; auto. intros x Hx. apply Hi. right; auto. }
  apply X; [intros x Hx; apply filter_In in Hx; tauto|]. apply NoDup_filter. exact Nd.
Qed.
Lemma booked_edge_attrs : forall e, In e (gedges (dgraph d')) -> In (eu e, ev e) L /\ dget "id" (eat e) = Some (VStr (gid (eu e, ev e))) /\
  dget "sourceRef" (eat e) = Some (VStr (eu e)) /\ dget "targetRef" (eat e) = Some (VStr (ev e)).
Proof using All.
  intros e He. destruct (Ed e He) as [A A']. split; auto. rewrite A'. unfold conn_attrs, gid. cbn [fst snd].
  destruct (connection_condition _ _) as [c|]; [destruct (String.eqb c "")|]; repeat split; reflexivity.
Qed.
Lemma booked_listed_edge : forall s t, In (s, t) L -> exists e, In e (gedges (dgraph d')) /\ eu e = s /\ ev e = t.
Proof using All.
  intros s t H. assert (K : linked d' s t) by (apply (bk_linked _ _ B); auto).
  destruct K as [e [He [[A A2]|[A A2]]]]; [eauto|]. exfalso. destruct (booked_edge_attrs e He) as [C _]. rewrite A, A2 in C.
  eapply Bk; eauto.
Qed.
Lemma booked_listed_goes : forall s t, In (s, t) L -> flow_goes d' (gid (s, t)) s t.
Proof using All.
  intros s t H. destruct (booked_listed_edge s t H) as [e [He [Eu Ev]]].
  assert (X : forall l, (forall v, In v l -> exists e', In e' (gedges (dgraph d')) /\ snd v = eat e') ->
    (exists v, In v l /\ snd v = eat e) -> exists v, first_flow (gid (s, t)) l = Ok (Some v) /\
      dget "sourceRef" (snd v) = Some (VStr s) /\ dget "targetRef" (snd v) = Some (VStr t)).
  { induction l as [|v l IH]; intros A [v0 [I0 E0]]; [contradiction|]. cbn [first_flow]. destruct (A v (or_introl eq_refl)) as [e' [He' Ee']].
    destruct (booked_edge_attrs e' He') as [L' [Id [Sr Tr]]]. unfold k_id. assert (Id' : dget "id" (snd v) = Some (VStr (gid (eu e', ev e')))) by (rewrite Ee'; exact Id). unfold dgetE. rewrite Id'. cbn [rbind veqs].
    destruct (String.eqb _ (gid (s, t))) eqn:Q.
    - apply String.eqb_eq in Q. apply booked_gid_same in Q; auto. injection Q as Q1 Q2. exists v. split; auto. rewrite Ee', Sr, Tr, Q1, Q2. auto.
    - apply IH; [intros; apply A; right; auto|]. destruct I0 as [-> |I0]; [|eauto]. exfalso.
      destruct (booked_edge_attrs e He) as [_ [Id2 _]]. rewrite <- E0, Ee', Id in Id2. injection Id2 as Id2. rewrite Eu, Ev in Id2. rewrite Id2 in Q.
      rewrite eqb_refl' in Q. discriminate. }
  destruct (X (get_flows d')) as [v [E [A A2]]].
  - intros v Hv. destruct (view_in_edge _ _ W Hv) as [e' [He' R]]. exists e'. split; auto. apply R.
  - destruct (edge_in_view _ _ W He) as [v [Hv R]]. exists v. split; auto. apply R.
  - exists v. auto.
Qed.
Lemma booked_coherent : coherent d'.
Proof using All.
  split; [|split; [|split]].
  - split; [apply W|]. intros n Hn. destruct (proj2 (bk_wf _ _ B) n Hn) as [O [N T]]. auto.
  - intros n _. rewrite (bk_out _ _ B), (bk_in _ _ B). split; apply booked_flows_nodup.
  - intros n f Hf. rewrite (bk_out _ _ B) in Hf. apply in_map_iff in Hf. destruct Hf as [[s t] [<- Hf]]. apply filter_In in Hf.
    destruct Hf as [Hf F]. apply from_true in F. cbn in F. subst s. exists t. split; [apply booked_listed_goes; auto|].
    rewrite (bk_in _ _ B). apply in_map_iff. exists (n, t). split; auto. apply filter_In. split; auto. apply into_true. reflexivity.
  - intros m f Hf. rewrite (bk_in _ _ B) in Hf. apply in_map_iff in Hf. destruct Hf as [[s t] [<- Hf]]. apply filter_In in Hf.
    destruct Hf as [Hf F]. apply into_true in F. cbn in F. subst t. exists s. split; [apply booked_listed_goes; auto|].
    rewrite (bk_out _ _ B). apply in_map_iff. exists (s, m). split; auto. apply filter_In. split; auto. apply from_true. reflexivity.
Qed.
Lemma booked_drawable : drawable d'.
Proof using All.
  intros t Ht. destruct (view_in_edge _ _ W Ht) as [e [He [Hs _]]]. destruct (booked_edge_attrs e He) as [Q [_ [A C]]]. rewrite Hs.
  exists (eu e), (ev e). split; auto. split; auto. apply (bk_ends _ _ B _ _ Q).
Qed.
Lemma booked_flow : forall f s t, flow d' f s t <-> In (s, t) L /\ f = gid (s, t).
Proof using All.
  intros f s t. split.
  - intros [O [N _]]. rewrite (bk_out _ _ B) in O. rewrite (bk_in _ _ B) in N. apply in_map_iff in O, N.
    destruct O as [[a b] [E1 O]]. destruct N as [[a' b'] [E2 N]]. apply filter_In in O, N. destruct O as [O1 O2]. destruct N as [N1 N2].
    apply from_true in O2. apply into_true in N2. cbn in O2, N2. subst a b'. assert (Q : (s, b) = (a', t)) by (apply booked_gid_same; auto; congruence).
    injection Q as -> ->. auto.
  - intros [H ->]. split; [|split; [|apply booked_listed_goes; auto]].
    + rewrite (bk_out _ _ B). apply in_map_iff. exists (s, t). split; auto. apply filter_In. split; auto. apply from_true. reflexivity.
    + rewrite (bk_in _ _ B). apply in_map_iff. exists (s, t). split; auto. apply filter_In. split; auto. apply into_true. reflexivity.
Qed.
End Booked.

Section Imported.
Variables (rows : dict row) (d d' : diagram) (L : flows_of).
Hypothesis I : imported rows d d' L.
Hypothesis W : gwf (dgraph d').

Lemma gid_same : forall p q, In p L -> In q L -> gid p = gid q -> p = q.
Proof using All. eapply booked_gid_same; apply I || exact W. Qed.
Lemma flows_nodup : forall f, NoDup (map gid (filter f L)).
Proof using All. eapply booked_flows_nodup; apply I || exact W. Qed.
Lemma edge_attrs : forall e, In e (gedges (dgraph d')) -> In (eu e, ev e) L /\ dget "id" (eat e) = Some (VStr (gid (eu e, ev e))) /\
  dget "sourceRef" (eat e) = Some (VStr (eu e)) /\ dget "targetRef" (eat e) = Some (VStr (ev e)).
Proof using All. eapply booked_edge_attrs; apply I || exact W. Qed.
Lemma listed_edge : forall s t, In (s, t) L -> exists e, In e (gedges (dgraph d')) /\ eu e = s /\ ev e = t.
Proof using All. eapply booked_listed_edge; apply I || exact W. Qed.
Lemma listed_goes : forall s t, In (s, t) L -> flow_goes d' (gid (s, t)) s t.
Proof using All. eapply booked_listed_goes; apply I || exact W. Qed.
Lemma imported_coherent : coherent d'.
Proof using All. eapply booked_coherent; apply I || exact W. Qed.
Lemma imported_drawable : drawable d'.
Proof using All. eapply booked_drawable; apply I || exact W. Qed.
Lemma imported_flow : forall f s t, flow d' f s t <-> In (s, t) L /\ f = gid (s, t).
Proof using All. eapply booked_flow; apply I || exact W. Qed.
Lemma imported_laid_out : all_laid_out d'.
Proof using All.
  intros n Hn. apply (im_nodes _ _ _ _ I) in Hn. pose proof Hn as [[O|[[o [S ->]]|[o [m [M ->]]]]] _].
  - unfold orders in O. apply in_map_iff in O. destruct O as [[o r] [<- O]]. eexists. split; [apply (im_type _ _ _ _ I _ _ O)|].
    unfold row_type. cbn [fst]. repeat destruct (String.eqb _ _); vm_compute; tauto.
  - destruct (im_split _ _ _ _ I o S Hn) as [ty [G T]]. exists ty. split; auto. unfold get_gateway_type in G.
    destruct (get_all_split_successors _ _); [|discriminate]. cbn [rbind] in G. destruct (get_node_conditions _ _); [|discriminate].
    cbn [rbind] in G. injection G as <-. destruct (_ && _); [vm_compute; tauto|]. destruct (no_conditions _); vm_compute; tauto.
  - destruct (im_join _ _ _ _ I o m M Hn) as [ty [G T]]. exists ty. split; auto. unfold three_gateways in G. intuition subst; vm_compute; tauto.
Qed.
End Imported.
