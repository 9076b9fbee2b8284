(** Properties C20-C24: layout metrics. *)
From Coq Require Import String List Bool Arith QArith Qminmax Lia Permutation.
From Verif Require Import Py PyFacts Consts Nx NxFacts Rep SpecRep RepFacts LayoutMetrics SpecLayoutMetrics
  MetricsFacts GeomFacts CrossFacts PathFacts.
Import ListNotations.
Open Scope string_scope.
Open Scope list_scope.
Open Scope nat_scope.

(** A float parser for the coordinates that occur in the examples. *)
Definition digit (s : string) : option Q :=
  if String.eqb s "0" then Some (0 # 1)%Q else if String.eqb s "1" then Some (1 # 1)%Q
  else if String.eqb s "2" then Some (2 # 1)%Q else if String.eqb s "4" then Some (4 # 1)%Q else None.

(** Three flows: a square's two diagonals and a bent flow that meets the first one. *)
Definition wp (l : list (string * string)) : attrs := [("waypoints", VPoints l)].
Definition xdemo : diagram :=
  mkDiagram (mkGraph [("a", []); ("b", []); ("c", []); ("d", [])]
    [mkEdge "a" "b" (wp [("0","0"); ("4","4")]);
     mkEdge "c" "d" (wp [("0","4"); ("4","0")]);
     mkEdge "a" "c" (wp [("0","0"); ("2","0"); ("2","1"); ("4","1")])]) [] [] [] [] None.
Definition xpoints : list (list point) :=
  [[mkPt 0 0; mkPt (4 # 1) (4 # 1)];
   [mkPt 0 0; mkPt (2 # 1) 0; mkPt (2 # 1) (1 # 1); mkPt (4 # 1) (1 # 1)];
   [mkPt 0 (4 # 1); mkPt (4 # 1) 0]]%Q.

(** C20 *)
Theorem C20_count_segments : forall pf d pss, Forall2 (drawn pf) (get_flows d) pss ->
  (forall ps, In ps pss -> ps <> []) ->
  get_flows_segments pf (get_flows d) = Ok (concat (map polyline pss)) /\
  count_segments pf d = Ok (fold_right (fun ps acc => (length ps - 1) + acc) 0 pss).
Proof.
  intros pf d pss F N. pose proof (flows_segments_ok pf _ _ F N) as E. split; auto.
  unfold count_segments. rewrite E. cbn [rbind]. rewrite segments_sum. reflexivity.
Qed.
Theorem C20_no_waypoints_raises : forall pf d pre f post pss, get_flows d = pre ++ f :: post ->
  Forall2 (drawn pf) pre pss -> (forall ps, In ps pss -> ps <> []) ->
  dget "waypoints" (snd f) = Some (VPoints []) ->
  count_segments pf d = Err IndexError /\ count_crossing_points pf d = Err IndexError.
Proof.
  intros pf d pre f post pss E F N H. unfold count_segments, count_crossing_points.
  rewrite E, (flows_segments_empty pf pre f post pss F N H). auto.
Qed.
Example C20_example : Forall2 (drawn digit) (get_flows xdemo) xpoints /\
  (forall ps, In ps xpoints -> ps <> []) /\ count_segments digit xdemo = Ok 5.
Proof.
  split; [|split].
  - vm_compute. repeat constructor; eexists; (split; [reflexivity|repeat constructor]).
  - intros ps H. vm_compute in H. intuition (subst; discriminate).
  - vm_compute. reflexivity.
Qed.

(** C21 *)
Theorem C21_intersection : forall s1 s2, do_intersect s1 s2 = true <-> meet s1 s2.
Proof. exact do_intersect_iff. Qed.
Example C21_example :
  do_intersect (mkSeg (mkPt 0 0) (mkPt 4 4)) (mkSeg (mkPt 0 4) (mkPt 4 0)) = true /\
  do_intersect (mkSeg (mkPt 0 0) (mkPt 2 0)) (mkSeg (mkPt 1 0) (mkPt 4 0)) = true /\
  do_intersect (mkSeg (mkPt 0 0) (mkPt 1 0)) (mkSeg (mkPt 2 0) (mkPt 4 0)) = false.
Proof. vm_compute. auto. Qed.

(** C22 *)
Theorem C22_crossing_count : forall pf d pss, Forall2 (drawn pf) (get_flows d) pss ->
  (forall ps, In ps pss -> ps <> []) ->
  exists k, count_crossing_points pf d = Ok k /\ crossings (concat (map polyline pss)) k.
Proof.
  intros pf d pss F N. unfold count_crossing_points. rewrite (flows_segments_ok pf _ _ F N). cbn [rbind].
  eexists. split; [reflexivity|]. apply crossing_count.
Qed.
Theorem C22_count_determined : forall segs k1 k2, crossings segs k1 -> crossings segs k2 -> k1 = k2.
Proof. exact crossings_unique. Qed.
Theorem C22_order_irrelevant : forall pf d1 d2 k, Permutation (get_flows d1) (get_flows d2) ->
  count_crossing_points pf d1 = Ok k -> count_crossing_points pf d2 = Ok k.
Proof. exact count_crossings_perm. Qed.
Example C22_example : count_crossing_points digit xdemo = Ok 2.
Proof. vm_compute. reflexivity. Qed.

(** C23 *)
Theorem C23_terminates : forall d fuel, consistent d -> 2 * length (gnodes (dgraph d)) < fuel ->
  exists p, compute_longest_path fuel d = Ok p.
Proof. intros d fuel C F. apply longest_total; auto. Qed.
Theorem C23_longest_path : forall d fuel p, consistent d -> no_self_loops d ->
  2 * length (gnodes (dgraph d)) < fuel -> compute_longest_path fuel d = Ok p ->
  (forall x, In x p -> node_of d (fst x) = Some (snd x)) /\
  (p = [] \/ full_path d (map fst p)) /\
  (forall l, full_path d l -> length l <= length p).
Proof.
  intros d fuel p C N F E. destruct (longest_correct d C N fuel p F E) as [H1 H2].
  split; auto. intros x Hx. rewrite Forall_forall in H1. exact (H1 x Hx).
Qed.

(** Diagrams built with the API, one flow per pair of nodes, are consistent, and
    their flows are the recorded ones. *)
Lemma next_recorded : forall l d, history l d -> distinct_pairs d -> forall n m,
  next d n m <-> exists f r, dget f (seq_flows d) = Some r /\ fl_src r = n /\ fl_tgt r = m.
Proof.
  intros l d H D n m. pose proof (inv_history l d H) as I.
  assert (K : forall f r, dget f (seq_flows d) = Some r -> leads_to d f (fl_tgt r)).
  { intros f r Hr. destruct (flow_by_id_live d f r I (distinct_live d f r (inv_f d I) D Hr))
      as [a [b [at_ [E [_ [_ [_ [_ T]]]]]]]]. exists (a, b, at_). auto. }
  destruct (inv_b d I) as [B1 [B2 _]]. split.
  - intros [f [Hf [t [E T]]]]. destruct (B2 n f Hf) as [r [Hr Hs]]. exists f, r. split; auto. split; auto.
    destruct (K f r Hr) as [t' [E' T']]. congruence.
  - intros [f [r [Hr [<- <-]]]]. exists f. split; [|apply K; auto].
    destruct (B1 f r Hr) as [_ [_ [Cn _]]]. unfold count in Cn.
    apply (count_occ_In string_dec). rewrite Cn. auto.
Qed.
Theorem C23_api_diagrams_consistent : forall l d, history l d -> distinct_pairs d ->
  consistent d /\ (forall n m, next d n m <-> exists f r,
    dget f (seq_flows d) = Some r /\ fl_src r = n /\ fl_tgt r = m).
Proof.
  intros l d H D. split; [|exact (next_recorded l d H D)]. pose proof (inv_history l d H) as I. split; [|split].
  - exact (gwf_nodup _ (inv_g _ I)).
  - intros n Hn. destruct (inv_n _ I n Hn) as [_ [T [In_ [Out _]]]]. auto.
  - intros n f Hf. destruct (inv_b d I) as [B1 [B2 _]]. destruct (B2 n f Hf) as [r [Hr Hs]].
    exists (fl_tgt r). split; [|apply (B1 f r Hr)].
    destruct (flow_by_id_live d f r I (distinct_live d f r (inv_f d I) D Hr))
      as [a [b [at_ [E [_ [_ [_ [_ T]]]]]]]]. exists (a, b, at_). auto.
Qed.

(** S -> A -> B -> E with a shortcut A -> E and a loop B -> C -> A. *)
Definition pdemo_ops : list op :=
  [ONew "m" "0"; OProcess "p" false true "None" "1" "2";
   OStart "id2" "s" None false true (Some "s") "" "";
   OTask "id2" "a" (Some "a") ""; OTask "id2" "b" (Some "b") ""; OTask "id2" "c" (Some "c") "";
   OEnd "id2" "e" None (Some "e") "" "";
   OFlow "id2" "s" "a" "" "10"; OFlow "id2" "a" "e" "" "11"; OFlow "id2" "a" "b" "" "12";
   OFlow "id2" "b" "c" "" "13"; OFlow "id2" "c" "a" "" "14"; OFlow "id2" "b" "e" "" "15"].
Definition pdemo : diagram := run empty_diagram pdemo_ops.
Lemma pdemo_history : history pdemo_ops pdemo.
Proof. apply checked_history. vm_compute. reflexivity. Qed.

(** Decidable version of [distinct_pairs], to check examples. *)
Fixpoint pairs_checked (l : list (string * flow_rec)) : bool :=
  match l with
  | [] => true
  | (_, r) :: t =>
      forallb (fun x => negb ((String.eqb (fl_src r) (fl_src (snd x)) && String.eqb (fl_tgt r) (fl_tgt (snd x)))
                          || (String.eqb (fl_src r) (fl_tgt (snd x)) && String.eqb (fl_tgt r) (fl_src (snd x))))) t
      && pairs_checked t
  end.
Lemma pairs_checked_ok : forall d, pairs_checked (seq_flows d) = true -> distinct_pairs d.
Proof.
  intros d H f1 r1 f2 r2 H1 H2 P. apply dget_In in H1. apply dget_In in H2.
  induction (seq_flows d) as [|[f r] t IH]; [contradiction|]. cbn [pairs_checked] in H.
  apply andb_true_iff in H. destruct H as [Hf Ht]. rewrite forallb_forall in Hf.
  assert (G : forall f' r', In (f', r') t -> ~ same_pair (fl_src r) (fl_tgt r) (fl_src r') (fl_tgt r')).
  { intros f' r' Hin Q. specialize (Hf _ Hin). simpl in Hf. apply negb_true_iff, orb_false_iff in Hf.
    destruct Hf as [Ha Hb]. destruct Q as [[Q1 Q2]|[Q1 Q2]]; rewrite Q1, Q2, !eqb_refl' in *; discriminate. }
  destruct H1 as [H1|H1], H2 as [H2|H2].
  - congruence.
  - inv H1. exfalso. eapply G; eauto.
  - inv H2. exfalso. apply (G _ _ H1). destruct P as [[P1 P2]|[P1 P2]]; [left|right]; auto.
  - auto.
Qed.
Lemma pdemo_pairs : distinct_pairs pdemo.
Proof. apply pairs_checked_ok. vm_compute. reflexivity. Qed.
Lemma pdemo_no_loops : no_self_loops pdemo.
Proof.
  intros n H. apply (next_recorded _ _ pdemo_history pdemo_pairs) in H. destruct H as [f [r [Hr [Hs Ht]]]].
  apply dget_In in Hr.
  assert (E : forallb (fun x => negb (String.eqb (fl_src (snd x)) (fl_tgt (snd x)))) (seq_flows pdemo) = true)
    by (vm_compute; reflexivity).
  rewrite forallb_forall in E. specialize (E _ Hr). simpl in E. rewrite Hs, Ht, eqb_refl' in E. discriminate.
Qed.
Example C23_example : consistent pdemo /\ no_self_loops pdemo /\
  (let* p := compute_longest_path 11 pdemo in Ok (map fst p)) = Ok ["s"; "a"; "b"; "e"].
Proof.
  split; [|split]; [|exact pdemo_no_loops|vm_compute; reflexivity].
  exact (proj1 (C23_api_diagrams_consistent _ _ pdemo_history pdemo_pairs)).
Qed.

(** With a self-loop the result is not a simple path. *)
Definition loop_ops : list op :=
  [ONew "m" "0"; OProcess "p" false true "None" "1" "2";
   OStart "id2" "s" None false true (Some "s") "" ""; OTask "id2" "a" (Some "a") "";
   OEnd "id2" "e" None (Some "e") "" "";
   OFlow "id2" "s" "a" "" "10"; OFlow "id2" "a" "a" "" "11"; OFlow "id2" "a" "e" "" "12"].
Theorem C23_self_loop_refuted : exists l d p, history l d /\ consistent d /\
  compute_longest_path 7 d = Ok p /\ ~ NoDup (map fst p).
Proof.
  exists loop_ops, (run empty_diagram loop_ops).
  assert (H : history loop_ops (run empty_diagram loop_ops)) by (apply checked_history; vm_compute; reflexivity).
  eexists. split; [exact H|]. split; [|split].
  - apply (C23_api_diagrams_consistent _ _ H). apply pairs_checked_ok. vm_compute. reflexivity.
  - vm_compute. reflexivity.
  - intro N. vm_compute in N. inversion N; subst. inversion H3; subst. apply H4. left. reflexivity.
Qed.

(** With two flows over one pair of nodes the computation fails. *)
Theorem C23_parallel_flows_refuted : exists l d, history l d /\
  compute_longest_path 7 d = Err TypeError /\ compute_longest_path_tasks 7 d = Err TypeError.
Proof.
  exists (loop_ops ++ [OFlow "id2" "s" "a" "" "13"]), (run empty_diagram (loop_ops ++ [OFlow "id2" "s" "a" "" "13"])).
  split; [apply checked_history; vm_compute; reflexivity|]. vm_compute. auto.
Qed.

(** C24 *)
Theorem C24_terminates : forall d fuel, consistent d -> 2 * length (gnodes (dgraph d)) < fuel ->
  exists p, compute_longest_path_tasks fuel d = Ok p.
Proof. intros d fuel C F. apply tasks_total; auto. Qed.
Theorem C24_most_activities : forall d fuel q, consistent d -> no_self_loops d ->
  2 * length (gnodes (dgraph d)) < fuel -> compute_longest_path_tasks fuel d = Ok q ->
  (forall x, In x q -> node_of d (fst x) = Some (snd x) /\ activity d (fst x) = true) /\
  (q = [] \/ exists l, source_path d l /\ map fst q = filter (activity d) l) /\
  (forall l, source_path d l -> length (filter (activity d) l) <= length q).
Proof.
  intros d fuel q C N F E. destruct (tasks_correct d C N fuel q F E) as [H1 [H2 H3]].
  split; [|split; auto]. intros x Hx. rewrite Forall_forall in H1. split; [exact (H1 x Hx)|].
  destruct H2 as [->|[l [_ El]]]; [contradiction|].
  assert (In (fst x) (ids q)) by (apply in_map; auto). rewrite El in H. apply filter_In in H. tauto.
Qed.
Theorem C24_bounds_full_paths : forall d fuel q l, consistent d -> no_self_loops d ->
  2 * length (gnodes (dgraph d)) < fuel -> compute_longest_path_tasks fuel d = Ok q ->
  full_path d l -> length (filter (activity d) l) <= length q.
Proof.
  intros d fuel q l C N F E [Hl _]. destruct (C24_most_activities d fuel q C N F E) as [_ [_ H]]. auto.
Qed.
Example C24_example : consistent pdemo /\ no_self_loops pdemo /\
  (let* p := compute_longest_path_tasks 11 pdemo in Ok (map fst p)) = Ok ["a"; "b"; "c"].
Proof.
  split; [|split]; [|exact pdemo_no_loops|vm_compute; reflexivity].
  exact (proj1 (C23_api_diagrams_consistent _ _ pdemo_history pdemo_pairs)).
Qed.
(** The counted path need not be one that ends in a node without outgoing flows:
    in [pdemo] every such path has at most two activities. *)
Theorem C24_full_path_refuted : exists l d q, history l d /\ consistent d /\ no_self_loops d /\
  compute_longest_path_tasks 11 d = Ok q /\
  forall p, full_path d p -> map fst q <> filter (activity d) p.
Proof.
  assert (C : consistent pdemo) by exact (proj1 (C23_api_diagrams_consistent _ _ pdemo_history pdemo_pairs)).
  exists pdemo_ops, pdemo. eexists. split; [exact pdemo_history|]. split; [exact C|].
  split; [exact pdemo_no_loops|]. split; [vm_compute; reflexivity|].
  intros p P H.
  destruct (longest_total pdemo C 11) as [lp E]; [vm_compute; auto|].
  assert (L : (let* p := compute_longest_path 11 pdemo in Ok (length p)) = Ok 4) by (vm_compute; reflexivity).
  rewrite E in L. cbn [rbind] in L. injection L as L.
  destruct (longest_correct pdemo C pdemo_no_loops 11 lp ltac:(vm_compute; auto) E) as [_ [_ M]].
  specialize (M p P). rewrite L in M. clear - P H M.
  destruct P as [S [q [n [Ep O]]]].
  destruct p as [|x t]; [destruct S|]. destruct S as [Sn [Si _]].
  assert (Ex : x = "s").
  { unfold is_node in Sn.
    assert (K : map fst (gnodes (dgraph pdemo)) = ["s"; "a"; "b"; "c"; "e"]) by (vm_compute; reflexivity).
    rewrite K in Sn. assert (I : incoming_of pdemo "a" <> [] /\ incoming_of pdemo "b" <> [] /\
                incoming_of pdemo "c" <> [] /\ incoming_of pdemo "e" <> [])
      by (vm_compute; repeat split; discriminate).
    clear - Sn Si I. revert Si I. generalize pdemo. intros d Si [I1 [I2 [I3 I4]]].
    destruct Sn as [E|[E|[E|[E|[E|[]]]]]]; rewrite <- E in *; [reflexivity|contradiction..]. }
  subst x. assert (A : activity pdemo "s" = false) by (vm_compute; reflexivity).
  cbn [filter] in H. rewrite A in H. cbn [map fst] in H. cbn [length] in M.
  assert (Et : t = ["a"; "b"; "c"]).
  { clear - H M. assert (G : forall l, length l <= length (filter (activity pdemo) l) -> filter (activity pdemo) l = l).
    { clear. intro l. induction l as [|z zs IH]; auto. cbn [filter length].
      assert (length (filter (activity pdemo) zs) <= length zs).
      { clear. induction zs as [|u us IHu]; auto. cbn [filter]. destruct (activity pdemo u); cbn [length]; lia. }
      destruct (activity pdemo z); cbn [length]; intro L; [|lia]. f_equal. apply IH. lia. }
    rewrite H. symmetry. apply G. rewrite <- H. cbn [length]. lia. }
  subst t. assert (En : n = "c").
  { assert (E2 : last ["s"; "a"; "b"; "c"] "" = last (q ++ [n]) "") by (rewrite Ep; reflexivity).
    rewrite last_last in E2. symmetry. exact E2. }
  subst n. vm_compute in O. discriminate O.
Qed.

Print Assumptions C20_count_segments.
Print Assumptions C20_no_waypoints_raises.
Print Assumptions C21_intersection.
Print Assumptions C22_crossing_count.
Print Assumptions C22_count_determined.
Print Assumptions C22_order_irrelevant.
Print Assumptions C23_terminates.
Print Assumptions C23_longest_path.
Print Assumptions C23_api_diagrams_consistent.
Print Assumptions C23_self_loop_refuted.
Print Assumptions C23_parallel_flows_refuted.
Print Assumptions C24_terminates.
Print Assumptions C24_most_activities.
Print Assumptions C24_bounds_full_paths.
Print Assumptions C24_full_path_refuted.
