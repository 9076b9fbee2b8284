From Coq Require Import String List Bool Arith Lia Permutation.
From Verif Require Import Py PyFacts Consts Nx NxFacts Rep SpecRep RepFacts MetricsFacts Classify SpecLayout.
Import ListNotations.
Open Scope string_scope.
Open Scope list_scope.

Definition lst (k : string) (a : attrs) : list string :=
  match dget k a with Some (VList l) => l | _ => [] end.
Definition has_type (ty : string) (n : string * attrs) : bool :=
  match dget "type" (snd n) with Some v => veqs v ty | None => false end.
Definition mk (base : list string) (n : string * attrs) : cnode :=
  mkCN (fst n) (lst "incoming" (snd n)) (lst "outgoing" (snd n))
    (base ++ (if Nat.leb 2 (length (lst "incoming" (snd n))) then [c_join] else [])
          ++ (if Nat.leb 2 (length (lst "outgoing" (snd n))) then [c_split] else [])).
Definition classified (d : diagram) : list cnode :=
  flat_map (fun tb => map (mk (snd tb)) (filter (has_type (fst tb)) (gnodes (dgraph d)))) classified_types.

Section D.
Variable d : diagram.
Hypothesis L : listed d.

Lemma entry : forall n a, In (n, a) (gnodes (dgraph d)) ->
  is_node d n /\ (exists t, dget "type" a = Some (VStr t)) /\
  dget "incoming" a = Some (VList (lst "incoming" a)) /\ dget "outgoing" a = Some (VList (lst "outgoing" a)) /\
  (forall k, attr d n k = dget k a).
Proof.
  intros n a H. destruct L as [U P].
  assert (N : is_node d n) by (apply in_map_iff; exists (n, a); auto).
  destruct (P n N) as [[t Ht] [[i Hi] [o Ho]]].
  pose proof (fun k => nodes_attr d n a k U H) as E. rewrite E in Ht, Hi, Ho.
  unfold lst. rewrite Hi, Ho. eauto 6.
Qed.

Lemma get_type : forall ty, ty <> "" -> get_nodes (Some ty) d = Ok (filter (has_type ty) (gnodes (dgraph d))).
Proof.
  intros ty H. unfold get_nodes. destruct ty as [|c s]; [congruence|]. unfold nodes_view.
  apply rfilter_eq. intros [n a] Hn. destruct (entry n a Hn) as [_ [[t Ht] _]].
  unfold attr_is, has_type, dgetE. simpl. change k_type with "type". rewrite Ht. reflexivity.
Qed.

Lemma rmap_map : forall A B (f : A -> res B) (g : A -> B) l, (forall x, In x l -> f x = Ok (g x)) -> rmap f l = Ok (map g l).
Proof.
  induction l as [|a t IH]; intros H; auto. simpl. rewrite H by (left; auto). simpl.
  rewrite IH by (intros; apply H; right; auto). reflexivity.
Qed.

Lemma classify_mk : forall base n, In n (gnodes (dgraph d)) -> classify base n = Ok (mk base n).
Proof.
  intros base [n a] H. destruct (entry n a H) as [_ [_ [Hi [Ho _]]]].
  unfold classify, flow_list, dgetE. simpl. change k_incoming with "incoming". change k_outgoing with "outgoing".
  rewrite Hi. simpl. rewrite Ho. simpl. reflexivity.
Qed.

Lemma types_nonempty : forall tb, In tb classified_types -> fst tb <> "".
Proof.
  intros tb H. assert (E : forallb (fun tb => negb (String.eqb (fst tb) "")) classified_types = true) by reflexivity.
  rewrite forallb_forall in E. specialize (E tb H). intro C. rewrite C in E. discriminate.
Qed.

Lemma elements_eq : generate_elements_clasification d = Ok (classified d).
Proof.
  unfold generate_elements_clasification, classified.
  assert (G : forall l acc, (forall tb, In tb l -> fst tb <> "") ->
    rfold (fun acc tb => let* ns := get_nodes (Some (fst tb)) d in
                         let* cs := rmap (classify (snd tb)) ns in Ok (acc ++ cs)) l acc
    = Ok (acc ++ flat_map (fun tb => map (mk (snd tb)) (filter (has_type (fst tb)) (gnodes (dgraph d)))) l)).
  { induction l as [|tb t IH]; intros acc H; [simpl; rewrite app_nil_r; reflexivity|].
    cbn [rfold flat_map]. rewrite get_type by (apply H; left; auto). cbn [rbind].
    rewrite (rmap_map _ _ _ (mk (snd tb))).
    - cbn [rbind]. rewrite IH by (intros; apply H; right; auto). rewrite <- app_assoc. reflexivity.
    - intros x Hx. apply filter_In in Hx. apply classify_mk. tauto. }
  rewrite (G classified_types []); [reflexivity|exact types_nonempty].
Qed.

Lemma has_type_fun : forall t1 t2 n, has_type t1 n = true -> has_type t2 n = true -> t1 = t2.
Proof.
  intros t1 t2 n. unfold has_type. destruct (dget "type" (snd n)) as [v|]; try discriminate.
  destruct v; simpl; try discriminate. intros H1 H2. apply String.eqb_eq in H1, H2. congruence.
Qed.

Lemma in_classified : forall c l,
  In c (flat_map (fun tb => map (mk (snd tb)) (filter (has_type (fst tb)) (gnodes (dgraph d)))) l) <->
  exists tb n, In tb l /\ In n (gnodes (dgraph d)) /\ has_type (fst tb) n = true /\ c = mk (snd tb) n.
Proof.
  intros c l. rewrite in_flat_map. split.
  - intros [tb [H1 H2]]. apply in_map_iff in H2. destruct H2 as [n [E H2]]. apply filter_In in H2.
    exists tb, n. intuition.
  - intros [tb [n [H1 [H2 [H3 E]]]]]. exists tb. split; auto. apply in_map_iff. exists n. rewrite filter_In. auto.
Qed.

Lemma NoDup_app : forall A (l1 l2 : list A), NoDup l1 -> NoDup l2 -> (forall x, In x l1 -> ~ In x l2) -> NoDup (l1 ++ l2).
Proof.
  induction l1 as [|a t IH]; intros l2 H1 H2 H; auto. inv H1. simpl. constructor.
  - intro C. apply in_app_or in C. destruct C; [contradiction|]. eapply H; eauto. left; auto.
  - apply IH; auto. intros x Hx. apply H. right; auto.
Qed.

Lemma classified_nodup : NoDup (map cid (classified d)).
Proof.
  unfold classified.
  assert (G : forall l, NoDup (map fst l) ->
    NoDup (map cid (flat_map (fun tb => map (mk (snd tb)) (filter (has_type (fst tb)) (gnodes (dgraph d)))) l))).
  { induction l as [|tb t IH]; intros N; [constructor|]. inv N. cbn [flat_map]. rewrite map_app.
    apply NoDup_app; auto.
    - rewrite map_map. simpl. apply NoDup_map_filter. apply L.
    - intros x Hx Hy. apply in_map_iff in Hx. destruct Hx as [c [<- Hc]]. apply in_map_iff in Hc.
      destruct Hc as [n [<- Hn]]. apply filter_In in Hn. destruct Hn as [Hn1 Hn2].
      apply in_map_iff in Hy. destruct Hy as [c [Ec Hc]]. apply in_classified in Hc.
      destruct Hc as [tb' [n' [H5 [H6 [H7 ->]]]]]. simpl in Ec.
      destruct n as [n a], n' as [n' a']. simpl in Ec. subst n'.
      destruct L as [U _].
      assert (a = a').
      { apply In_dget in Hn1; [|exact U]. apply In_dget in H6; [|exact U]. congruence. }
      subst a'. apply H1. rewrite (has_type_fun _ _ _ Hn2 H7). apply in_map. auto. }
  apply G. vm_compute. nodup.
Qed.

Lemma nodes_eq : generate_nodes_clasification d = Ok (map (fun c => (cid c, ccls c)) (classified d)).
Proof.
  assert (E : generate_nodes_clasification d =
              Ok (fold_left (fun acc c => dset (cid c) (ccls c) acc) (classified d) [])).
  { unfold generate_nodes_clasification, classified.
    assert (G : forall l acc, (forall tb, In tb l -> fst tb <> "") ->
      rfold (fun acc tb => let* ns := get_nodes (Some (fst tb)) d in
        rfold (fun acc n => let* c := classify (snd tb) n in Ok (dset (cid c) (ccls c) acc)) ns acc) l acc
      = Ok (fold_left (fun acc c => dset (cid c) (ccls c) acc)
             (flat_map (fun tb => map (mk (snd tb)) (filter (has_type (fst tb)) (gnodes (dgraph d)))) l) acc)).
    { induction l as [|tb t IH]; intros acc H; [reflexivity|].
      cbn [rfold flat_map]. rewrite get_type by (apply H; left; auto). cbn [rbind].
      rewrite fold_left_app.
      assert (K : forall ns acc, (forall n, In n ns -> In n (gnodes (dgraph d))) ->
        rfold (fun acc n => let* c := classify (snd tb) n in Ok (dset (cid c) (ccls c) acc)) ns acc
        = Ok (fold_left (fun acc c => dset (cid c) (ccls c) acc) (map (mk (snd tb)) ns) acc)).
      { induction ns as [|n ns IHn]; intros acc0 Hn; [reflexivity|]. cbn [rfold map fold_left].
        rewrite classify_mk by (apply Hn; left; auto). cbn [rbind]. apply IHn. intros; apply Hn; right; auto. }
      rewrite K by (intros n Hn; apply filter_In in Hn; tauto). cbn [rbind]. apply IH. intros; apply H; right; auto. }
    apply (G classified_types []). exact types_nonempty. }
  rewrite E. f_equal.
  assert (G : forall (l : list cnode) acc, NoDup (map fst acc ++ map cid l) ->
    fold_left (fun acc c => dset (cid c) (ccls c) acc) l acc = acc ++ map (fun c => (cid c, ccls c)) l).
  { induction l as [|c t IH]; intros acc N; [simpl; rewrite app_nil_r; reflexivity|].
    cbn [fold_left map]. rewrite dset_new.
    - rewrite IH; [rewrite <- app_assoc; reflexivity|]. rewrite map_app, <- app_assoc. exact N.
    - apply NoDup_remove_2 in N. intro C. apply N. apply in_or_app. left. exact C. }
  apply (G _ []). simpl. exact classified_nodup.
Qed.

(** What each classified node looks like. *)
Lemma classified_char : forall c, In c (classified d) <->
  exists t base, attr d (cid c) "type" = Some (VStr t) /\ In (t, base) classified_types /\
    cin c = incoming_of d (cid c) /\ cout c = outgoing_of d (cid c) /\
    ccls c = base ++ (if Nat.leb 2 (length (incoming_of d (cid c))) then [c_join] else [])
                  ++ (if Nat.leb 2 (length (outgoing_of d (cid c))) then [c_split] else []).
Proof.
  intro c. unfold classified. rewrite in_classified. split.
  - intros [[t base] [[n a] [H1 [H2 [H3 ->]]]]]. destruct (entry n a H2) as [_ [[t' Ht] [Hi [Ho At]]]].
    exists t, base. cbn [fst snd] in *. unfold has_type in H3. cbn [snd] in H3. rewrite Ht in H3. simpl in H3. apply String.eqb_eq in H3. subst t'.
    unfold mk, incoming_of, outgoing_of. cbn [cid cin cout ccls fst snd].
    rewrite !At, Hi, Ho. auto 6.
  - intros [t [base [Ht [H1 [Hi [Ho Hc]]]]]]. exists (t, base).
    unfold attr in Ht. destruct (node_of d (cid c)) as [a|] eqn:E; [|discriminate].
    assert (Hn : In (cid c, a) (gnodes (dgraph d))) by (apply dget_In; exact E).
    exists (cid c, a). split; auto. split; auto.
    destruct (entry _ a Hn) as [_ [_ [Ei [Eo At]]]]. split.
    + unfold has_type. simpl. rewrite Ht. simpl. apply eqb_refl'.
    + unfold mk. cbn [fst snd]. unfold incoming_of in *. unfold outgoing_of in *. rewrite !At, Ei, Eo in *.
      destruct c as [i ci co cc]. cbn [cid cin cout ccls] in *. subst. reflexivity.
Qed.

Lemma types_laid_out : forall t, laid_out t <-> exists base, In (t, base) classified_types.
Proof.
  intro t. unfold laid_out. split.
  - intro H. destruct H as [<-|[<-|[<-|[<-|[<-|[<-|[<-|[<-|[<-|[<-|[<-|[]]]]]]]]]]]]; eexists;
      unfold classified_types; simpl; eauto 20.
  - intros [b H]. unfold classified_types in H. simpl in H.
    repeat (destruct H as [H|H]; [inv H; simpl; tauto|]). contradiction.
Qed.
End D.
