(** Diagrams that look the same have the same metrics. *)
From Coq Require Import String List Bool Arith ZArith QArith Lia Permutation.
From Verif Require Import Py PyFacts Consts Nx NxFacts Rep SpecRep RepFacts Metrics SpecMetrics MetricsFacts MetricsFacts2
  LayoutMetrics SpecLayoutMetrics CrossFacts SpecSame.
Import ListNotations.
Open Scope string_scope.
Open Scope list_scope.
Open Scope nat_scope.

(** * Matching the connections of two graphs *)
Lemma same_pair_refl : forall a b, same_pair a b a b.
Proof. intros. left. auto. Qed.
Lemma same_pair_swap : forall a b c e, same_pair a b c e -> same_pair c e a b.
Proof. intros a b c e [[-> ->]|[-> ->]]; [left|right]; auto. Qed.
Lemma same_pair_tr : forall a b c e x y, same_pair a b c e -> same_pair c e x y -> same_pair a b x y.
Proof. intros a b c e x y [[-> ->]|[-> ->]] [[-> ->]|[-> ->]]; unfold same_pair; auto. Qed.
Lemma connects_same : forall u v e, connects u v e = true <-> same_pair u v (eu e) (ev e).
Proof.
  intros u v e. unfold connects, same_pair. rewrite orb_true_iff, !andb_true_iff, !String.eqb_eq. intuition congruence.
Qed.

Definition simple (es : list edge) : Prop := forall l1 e1 l2 e2 l3, es = l1 ++ e1 :: l2 ++ e2 :: l3 ->
  connects (eu e1) (ev e1) e2 = false.
Definition joins_same (e e' : edge) : Prop := same_pair (eu e) (ev e) (eu e') (ev e').
Lemma simple_other : forall e es e2, simple (e :: es) -> In e2 es -> ~ joins_same e e2.
Proof.
  intros e es e2 S I J. apply in_split in I. destruct I as (l2 & l3 & ->).
  specialize (S [] e l2 e2 l3 eq_refl). apply connects_same in J. congruence.
Qed.
Lemma simple_tail : forall e es, simple (e :: es) -> simple es.
Proof. intros e es S l1 e1 l2 e2 l3 E. apply (S (e :: l1) e1 l2 e2 l3). rewrite E. reflexivity. Qed.
Ltac lists := subst; rewrite ?app_nil_r; repeat (progress (rewrite <- ?app_assoc; cbn [app])); rewrite ?app_nil_r; reflexivity.
Lemma simple_drop : forall a e b, simple (a ++ e :: b) -> simple (a ++ b).
Proof.
  intros a e b S l1 e1 l2 e2 l3 E.
  apply app_eq_app in E. destruct E as [m [[E1 E2]|[E1 E2]]].
  - destruct m as [|x m]; cbn [app] in E2.
    + apply (S (a ++ [e]) e1 l2 e2 l3). rewrite <- E2. lists.
    + injection E2 as <- E2. symmetry in E2. apply app_eq_app in E2. destruct E2 as [k [[F1 F2]|[F1 F2]]].
      * destruct k as [|y k]; cbn [app] in F2.
        -- apply (S l1 e1 (l2 ++ [e]) e2 l3). rewrite F2. lists.
        -- injection F2 as <- F2. apply (S l1 e1 l2 e2 (k ++ e :: b)). lists.
      * apply (S l1 e1 (m ++ e :: k) e2 l3). lists.
  - apply (S (a ++ e :: m) e1 l2 e2 l3). lists.
Qed.
Lemma match_edges : forall es es', simple es -> simple es' ->
  (forall e, In e es -> exists e', In e' es' /\ joins_same e e') ->
  (forall e', In e' es' -> exists e, In e es /\ joins_same e e') ->
  exists es2, Permutation es2 es' /\ Forall2 joins_same es es2.
Proof.
  induction es as [|e es IH]; intros es' S S' F B.
  - destruct es' as [|x es']; [exists []; auto|]. destruct (B x (or_introl eq_refl)) as [? [[] _]].
  - destruct (F e (or_introl eq_refl)) as (e' & I & J). apply in_split in I. destruct I as (a & b & ->).
    assert (Ab : forall z, In z (a ++ b) -> ~ joins_same e z).
    { intros z Iz Jz. assert (Q : joins_same e' z) by (eapply same_pair_tr; [apply same_pair_swap; exact J|exact Jz]).
      apply in_app_or in Iz. destruct Iz as [Iz|Iz].
      - apply in_split in Iz. destruct Iz as (p & q & ->). specialize (S' p z q e' b). rewrite <- app_assoc in S'. cbn [app] in S'.
        specialize (S' eq_refl). apply same_pair_swap in Q. apply connects_same in Q. congruence.
      - apply in_split in Iz. destruct Iz as (p & q & ->). specialize (S' a e' p z q eq_refl). apply connects_same in Q. congruence. }
    destruct (IH (a ++ b)) as (es2 & P & M).
    + eapply simple_tail; eauto.
    + eapply simple_drop; eauto.
    + intros z Iz. destruct (F z (or_intror Iz)) as (z' & Iz' & Jz). exists z'. split; [|exact Jz].
      apply in_app_or in Iz'. apply in_or_app. destruct Iz' as [Iz'|[<-|Iz']]; auto.
      exfalso. apply (simple_other e es z S Iz). eapply same_pair_tr; [exact J|apply same_pair_swap; exact Jz].
    + intros z Iz. destruct (B z) as (x & [<-|Ix] & Jx).
      * apply in_app_or in Iz. apply in_or_app. destruct Iz; [left|right; right]; auto.
      * exfalso. apply (Ab z Iz Jx).
      * exists x. auto.
    + exists (e' :: es2). split; [|constructor; assumption]. apply Permutation_cons_app. exact P.
Qed.
Lemma gwf_simple_list : forall g, gwf g -> simple (gedges g).
Proof. intros g [_ _ S] l1 e1 l2 e2 l3 E. eapply S; eauto. Qed.
Lemma linked_match : forall d d', (forall u v, linked d' u v <-> linked d u v) ->
  forall e, In e (gedges (dgraph d)) -> exists e', In e' (gedges (dgraph d')) /\ joins_same e e'.
Proof.
  intros d d' L e I. assert (Q : linked d (eu e) (ev e)) by (exists e; split; [exact I|apply same_pair_refl]).
  apply L in Q. destruct Q as (e' & I' & J). exists e'. split; [exact I'|]. apply same_pair_swap. exact J.
Qed.
Lemma graphs_match : forall d d', gwf (dgraph d) -> gwf (dgraph d') -> (forall u v, linked d' u v <-> linked d u v) ->
  exists es2, Permutation es2 (gedges (dgraph d')) /\ Forall2 joins_same (gedges (dgraph d)) es2.
Proof.
  intros d d' W W' L. apply match_edges.
  - apply gwf_simple_list; auto.
  - apply gwf_simple_list; auto.
  - apply linked_match; exact L.
  - intros e' I. destruct (linked_match d' d) with (e := e') as (e & Ie & J); auto.
    + intros u v. symmetry. apply L.
    + exists e. split; auto. apply same_pair_swap. exact J.
Qed.

(** * Counting *)
Lemma same_number : forall d d' P k, (forall n, attr d' n "type" = attr d n "type") -> number d P k -> number d' P k.
Proof.
  intros d d' P k T (l & N & L & H). exists l. split; auto. split; auto. intros n. rewrite H. rewrite T. reflexivity.
Qed.
Lemma same_distinct : forall d d' P k, (forall n, attr d' n "type" = attr d n "type") -> distinct_types d P k -> distinct_types d' P k.
Proof.
  intros d d' P k T (l & N & L & H). exists l. split; auto. split; auto. intros t. rewrite H.
  split; intros [A [n B]]; (split; [exact A|]); exists n; [rewrite T|rewrite <- T]; exact B.
Qed.
Lemma distinct_unique : forall d P k1 k2, distinct_types d P k1 -> distinct_types d P k2 -> k1 = k2.
Proof.
  intros d P k1 k2 (l1 & N1 & <- & H1) (l2 & N2 & <- & H2). apply Permutation_length. apply NoDup_Permutation; auto.
  intros t. rewrite H1, H2. reflexivity.
Qed.
Lemma same_durfee : forall d d' m, (forall n, attr d' n "type" = attr d n "type") -> durfee_ok d m -> durfee_ok d' m.
Proof.
  intros d d' m T (ts & N & L & H). exists ts. split; auto. split; auto. intros t I. destruct (H t I) as (A & k & B & C).
  split; auto. exists k. split; auto. eapply same_number; eauto.
Qed.
Lemma same_perfect : forall d d' m, (forall n, attr d' n "type" = attr d n "type") -> perfect_ok d m -> perfect_ok d' m.
Proof.
  intros d d' m T (ts & ks & N & L & H & S). exists ts, ks. split; auto. split; auto. split; auto.
  clear S N L. induction H as [|t k ts ks (A & B & C) F IH]; constructor; auto. split; auto. split; auto. eapply same_number; eauto.
Qed.
Lemma same_typed : forall d d', same_shape d d' -> typed d -> typed d'.
Proof. intros d d' S T n I. rewrite (sh_types _ _ S). apply T. apply (sh_nodes _ _ S). exact I. Qed.

Lemma ends_count : forall es es2 n, Forall2 joins_same es es2 ->
  count_occ string_dec (flat_map (fun e => [eu e; ev e]) es) n = count_occ string_dec (flat_map (fun e => [eu e; ev e]) es2) n.
Proof.
  intros es es2 n. induction 1 as [|e e' es es2 J F IH]; auto. cbn [flat_map]. rewrite !count_occ_app, IH. f_equal.
  destruct J as [[-> ->]|[-> ->]]; auto. cbn [count_occ].
  destruct (string_dec (ev e') n), (string_dec (eu e') n); reflexivity.
Qed.
Lemma ends_perm : forall es es2 n, Permutation es es2 ->
  count_occ string_dec (flat_map (fun e => [eu e; ev e]) es) n = count_occ string_dec (flat_map (fun e => [eu e; ev e]) es2) n.
Proof.
  intros es es2 n. induction 1 as [|x l l' P IH|x y l|l l' l'' P1 IH1 P2 IH2]; auto; cbn [flat_map]; rewrite ?count_occ_app.
  - rewrite IH. reflexivity.
  - lia.
  - congruence.
Qed.
Lemma same_ends : forall d d' n, gwf (dgraph d) -> gwf (dgraph d') -> (forall u v, linked d' u v <-> linked d u v) ->
  flow_ends d' n = flow_ends d n.
Proof.
  intros d d' n W W' L. destruct (graphs_match d d' W W' L) as (es2 & P & F). unfold flow_ends.
  rewrite (ends_count _ _ n F). symmetry. apply ends_perm. exact P.
Qed.
Lemma same_edge_count : forall d d', gwf (dgraph d) -> gwf (dgraph d') -> (forall u v, linked d' u v <-> linked d u v) ->
  length (gedges (dgraph d')) = length (gedges (dgraph d)).
Proof.
  intros d d' W W' L. destruct (graphs_match d d' W W' L) as (es2 & P & F). rewrite <- (Permutation_length P).
  symmetry. clear P. induction F; simpl; auto.
Qed.
Lemma same_node_count : forall d d', gwf (dgraph d) -> gwf (dgraph d') -> (forall n, is_node d' n <-> is_node d n) ->
  length (gnodes (dgraph d')) = length (gnodes (dgraph d)).
Proof.
  intros d d' [N _ _] [N' _ _] H. rewrite <- (map_length fst (gnodes (dgraph d'))), <- (map_length fst (gnodes (dgraph d))).
  apply Permutation_length. apply NoDup_Permutation; auto.
Qed.
Lemma sum_perm : forall l l', Permutation l l' -> fold_right plus 0 l = fold_right plus 0 l'.
Proof. induction 1; simpl; lia. Qed.

Lemma avg_form : forall d, unique_ids d -> typed d -> exists gs, NoDup gs /\
  (forall n, In n gs <-> exists t, attr d n "type" = Some (VStr t) /\ is_gateway t) /\
  AverageGatewayDegree_metric d = fdiv (fold_right plus 0 (map (flow_ends d) gs)) (length gs).
Proof.
  intros d Hu Ht. destruct (gateway_nodes d Hu Ht) as [gs [E [N H]]]. exists (map fst gs).
  split; auto. split; auto. unfold AverageGatewayDegree_metric. rewrite E. cbn [rbind].
  rewrite (rmap_map _ _ _ (degree_of d) fst). rewrite degrees_ok.
  - cbn [rbind]. rewrite map_length. reflexivity.
  - intros n Hn. apply H in Hn. destruct Hn as [t [Hn _]]. unfold attr, node_of in Hn.
    destruct (dget n (gnodes (dgraph d))) eqn:En; [|discriminate]. eapply dget_key_In; eauto.
Qed.

Section Same.
Variables (d d' : diagram).
Hypothesis W : gwf (dgraph d).
Hypothesis W' : gwf (dgraph d').
Hypothesis T : typed d.
Hypothesis S : same_shape d d'.
Let U : unique_ids d := gwf_nodup _ W.
Let U' : unique_ids d' := gwf_nodup _ W'.
Let T' : typed d' := same_typed _ _ S T.

Lemma same_counts :
  TNSE_metric d' = TNSE_metric d /\ TNIE_metric d' = TNIE_metric d /\ TNEE_metric d' = TNEE_metric d /\
  TNE_metric d' = TNE_metric d /\ NOA_metric d' = NOA_metric d /\ NOAC_metric d' = NOAC_metric d /\
  NOAJS_metric d' = NOAJS_metric d /\ NumberOfNodes_metric d' = NumberOfNodes_metric d.
Proof using W W' T S.
  destruct (count_metrics d U T) as (s & i & e & v & a & g & N1 & N2 & N3 & N4 & N5 & N6 & E1 & E2 & E3 & E4 & _ & _ & E5 & _ & _ & _ & E6 & E7 & E8).
  destruct (count_metrics d' U' T') as (s' & i' & e' & v' & a' & g' & N1' & N2' & N3' & N4' & N5' & N6' & E1' & E2' & E3' & E4' & _ & _ & E5' & _ & _ & _ & E6' & E7' & E8').
  pose proof (sh_types _ _ S) as Ty.
  pose proof (number_unique _ _ _ _ N1' (same_number _ _ _ _ Ty N1)). pose proof (number_unique _ _ _ _ N2' (same_number _ _ _ _ Ty N2)).
  pose proof (number_unique _ _ _ _ N3' (same_number _ _ _ _ Ty N3)). pose proof (number_unique _ _ _ _ N4' (same_number _ _ _ _ Ty N4)).
  pose proof (number_unique _ _ _ _ N5' (same_number _ _ _ _ Ty N5)). pose proof (number_unique _ _ _ _ N6' (same_number _ _ _ _ Ty N6)).
  subst. repeat split; congruence.
Qed.
Lemma same_type_count : forall t, t <> "" -> get_nodes_count (Some t) d' = get_nodes_count (Some t) d.
Proof using W W' T S.
  intros t H. destruct (type_count d U T t H) as (k & E & N). destruct (type_count d' U' T' t H) as (k' & E' & N').
  rewrite E, E'. f_equal. apply (number_unique _ _ _ _ N' (same_number _ _ _ _ (sh_types _ _ S) N)).
Qed.
Lemma same_squares : GatewayHeterogenity_metric d' = GatewayHeterogenity_metric d /\
  DurfeeSquare_metric d' = DurfeeSquare_metric d /\ PerfectSquare_metric d' = PerfectSquare_metric d.
Proof using W W' T S.
  pose proof (sh_types _ _ S) as Ty. assert (Ty' : forall n, attr d n "type" = attr d' n "type") by (intros; symmetry; apply Ty).
  split; [|split].
  - destruct (hetero_spec d U T) as (k & E & N). destruct (hetero_spec d' U' T') as (k' & E' & N').
    rewrite E, E'. f_equal. apply (distinct_unique _ _ _ _ N' (same_distinct _ _ _ _ Ty N)).
  - destruct (durfee_spec d U T) as (k & E & N & M). destruct (durfee_spec d' U' T') as (k' & E' & N' & M').
    rewrite E, E'. f_equal. apply Nat.le_antisymm; [apply M|apply M']; eapply same_durfee; eauto.
  - destruct (perfect_spec d U T) as (k & E & N & M). destruct (perfect_spec d' U' T') as (k' & E' & N' & M').
    rewrite E, E'. f_equal. apply Nat.le_antisymm; [apply M|apply M']; eapply same_perfect; eauto.
Qed.
Lemma same_ratios : CoefficientOfNetworkComplexity_metric d' = CoefficientOfNetworkComplexity_metric d /\
  AverageGatewayDegree_metric d' = AverageGatewayDegree_metric d.
Proof using W W' T S.
  split.
  - unfold CoefficientOfNetworkComplexity_metric. cbn [get_nodes rbind]. unfold nodes_view, get_flows.
    rewrite !edges_view_length by auto. rewrite (same_edge_count d d' W W' (sh_links _ _ S)), (same_node_count d d' W W' (sh_nodes _ _ S)). reflexivity.
  - destruct (avg_form d U T) as (gs & N & H & E). destruct (avg_form d' U' T') as (gs' & N' & H' & E'). rewrite E, E'.
    assert (P : Permutation gs' gs).
    { apply NoDup_Permutation; auto. intros n. rewrite H, H'. rewrite (sh_types _ _ S). reflexivity. }
    rewrite (Permutation_length P), (sum_perm _ _ (Permutation_map (flow_ends d') P)). f_equal.
    f_equal. apply map_ext. intros n. apply same_ends; auto. apply (sh_links _ _ S).
Qed.
End Same.

(** * Paths *)
Lemma same_walk : forall d d', same_ways d d' -> forall l n, walk d n l -> walk d' n l.
Proof. intros d d' S. induction l as [|m l IH]; intros n H; auto. destruct H as [H1 H2]. split; [apply (sw_next _ _ S); exact H1|apply IH; exact H2]. Qed.
Lemma same_source_path : forall d d', same_ways d d' -> forall l, source_path d l -> source_path d' l.
Proof.
  intros d d' S [|n l] H; auto. destruct H as (A & B & C & D). split; [apply (sw_nodes _ _ S); exact A|].
  split; [apply (sw_first _ _ S); exact B|]. split; [eapply same_walk; eauto|exact D].
Qed.
Lemma same_full_path : forall d d', same_ways d d' -> forall l, full_path d l -> full_path d' l.
Proof.
  intros d d' S l (A & p & n & E & O). split; [eapply same_source_path; eauto|]. exists p, n. split; auto. apply (sw_last _ _ S). exact O.
Qed.
Lemma same_ways_sym : forall d d', same_ways d d' -> same_ways d' d.
Proof. intros d d' [A B C D E]. constructor; intros; symmetry; auto. Qed.
Lemma same_activity : forall d d', same_ways d d' -> forall n, activity d' n = activity d n.
Proof. intros d d' S n. unfold activity. rewrite (sw_types _ _ S). reflexivity. Qed.

(** * Lines *)
Definition seg_of (pf : string -> option Q) (w : option pyval) : res (list segment) :=
  match w with
  | None => Err (KeyError "waypoints")
  | Some (VPoints []) => Err IndexError
  | Some (VPoints (source :: rest)) => segments_from pf source rest
  | Some _ => Err Unmodelled
  end.
Definition lines_of (d : diagram) : list (option pyval) := map (fun f => dget "waypoints" (snd f)) (get_flows d).
Lemma seg_of_flow : forall pf f, flow_segments pf f = seg_of pf (dget "waypoints" (snd f)).
Proof. intros pf f. unfold flow_segments, dgetE, seg_of. change k_waypoints with "waypoints". destruct (dget "waypoints" (snd f)) as [[]|]; reflexivity. Qed.
Lemma segments_lines : forall pf d, get_flows_segments pf (get_flows d) =
  rfold (fun acc w => let* s := seg_of pf w in Ok (acc ++ s)) (lines_of d) [].
Proof.
  intros pf d. unfold get_flows_segments, lines_of. generalize (@nil segment) as acc.
  induction (get_flows d) as [|f l IH]; intros acc; auto. cbn [map rfold]. rewrite seg_of_flow.
  destruct (seg_of pf (dget "waypoints" (snd f))); cbn [rbind]; auto.
Qed.
Lemma lines_edges : forall d, gwf (dgraph d) -> Permutation (lines_of d) (map (fun e => dget "waypoints" (eat e)) (gedges (dgraph d))).
Proof.
  intros d W. destruct (edges_view_reports (dgraph d) W) as (l & P & F). rewrite <- (Permutation_map _ P).
  unfold lines_of, get_flows. clear P. induction F as [|t e ts es R F IH]; auto. cbn [map].
  replace (dget "waypoints" (snd t)) with (dget "waypoints" (eat e)); [constructor; exact IH|].
  destruct R as [R _]. rewrite R. reflexivity.
Qed.
Lemma rfold_all_ok : forall A B (f : A -> res (list B)) l acc r,
  rfold (fun acc x => let* s := f x in Ok (acc ++ s)) l acc = Ok r -> forall x, In x l -> exists s, f x = Ok s.
Proof.
  intros A B f. induction l as [|a l IH]; intros acc r H x I; [destruct I|]. cbn [rfold] in H.
  destruct (f a) as [s|] eqn:E; cbn [rbind] in H; [|discriminate]. destruct I as [<-|I]; eauto.
Qed.
Lemma Forall2_and_in : forall A B (R : A -> B -> Prop) (G : A -> Prop) (G' : B -> Prop) l l', Forall2 R l l' ->
  (forall x, In x l -> G x) -> (forall x, In x l' -> G' x) -> Forall2 (fun x y => R x y /\ G x /\ G' y) l l'.
Proof. intros A B R G G' l l' F. induction F; intros K K'; constructor; auto with datatypes. Qed.
Lemma Forall2_map_eq : forall A B C (f : A -> C) (g : B -> C) (R : A -> B -> Prop) l l', Forall2 R l l' ->
  (forall x y, R x y -> f x = g y) -> map f l = map g l'.
Proof. intros A B C f g R l l' F K. induction F; cbn [map]; auto. rewrite IHF, (K x y); auto. Qed.
Lemma same_lines_perm : forall pf d d' segs, gwf (dgraph d) -> gwf (dgraph d') -> same_lines d d' ->
  get_flows_segments pf (get_flows d) = Ok segs ->
  exists segs', get_flows_segments pf (get_flows d') = Ok segs' /\ Permutation segs segs'.
Proof.
  intros pf d d' segs W W' S H. rewrite segments_lines in *. apply (rfold_app_perm _ _ _ (lines_of d)); [|exact H].
  destruct (graphs_match d d' W W' (sl_links _ _ S)) as (es2 & P & F).
  rewrite (lines_edges d W), (lines_edges d' W'), <- (Permutation_map _ P).
  assert (Q : Forall2 (fun e e' => joins_same e e' /\ In e (gedges (dgraph d)) /\ In e' (gedges (dgraph d'))) (gedges (dgraph d)) es2).
  { apply Forall2_and_in; [exact F|auto|]. intros x. apply Permutation_in. exact P. }
  assert (E : map (fun e => dget "waypoints" (eat e)) (gedges (dgraph d)) = map (fun e => dget "waypoints" (eat e)) es2).
  { apply (Forall2_map_eq _ _ _ _ _ _ _ _ Q). intros e e' (J & I & I').
    assert (In (dget "waypoints" (eat e)) (lines_of d)) as Il.
    { eapply Permutation_in; [symmetry; apply lines_edges; exact W|]. apply in_map_iff. exists e. auto. }
    destruct (rfold_all_ok _ _ _ _ _ _ H _ Il) as [s E]. unfold seg_of in E.
    destruct (dget "waypoints" (eat e)) as [w|] eqn:D; [|discriminate]. destruct w as [| | | |ps| |]; try discriminate.
    destruct (sl_points _ _ S (eu e) (ev e) ps) as (x & Ix & Jx & Dx); [exists e; split; [exact I|split; [apply same_pair_refl|exact D]]|].
    assert (x = e'); [|subst; symmetry; exact Dx]. apply (gwf_unique (dgraph d') x e' W' Ix I').
    apply connects_same. eapply same_pair_tr; [exact Jx|exact J]. }
  rewrite E. reflexivity.
Qed.
Lemma same_segments : forall pf d d' k, gwf (dgraph d) -> gwf (dgraph d') -> same_lines d d' ->
  count_segments pf d = Ok k -> count_segments pf d' = Ok k.
Proof.
  intros pf d d' k W W' S H. unfold count_segments in *.
  destruct (get_flows_segments pf (get_flows d)) as [s1|e] eqn:E1; simpl in H; [|discriminate].
  destruct (same_lines_perm pf d d' s1 W W' S E1) as (s2 & E2 & P). rewrite E2. cbn [rbind]. inv H. f_equal. symmetry. apply Permutation_length. exact P.
Qed.
Lemma same_crossings : forall pf d d' k, gwf (dgraph d) -> gwf (dgraph d') -> same_lines d d' ->
  count_crossing_points pf d = Ok k -> count_crossing_points pf d' = Ok k.
Proof.
  intros pf d d' k W W' S H. unfold count_crossing_points in *.
  destruct (get_flows_segments pf (get_flows d)) as [s1|e] eqn:E1; simpl in H; [|discriminate].
  destruct (same_lines_perm pf d d' s1 W W' S E1) as (s2 & E2 & P). rewrite E2. cbn [rbind]. inv H. f_equal.
  rewrite !loop_pc. apply pc_perm. rewrite <- !Permutation_rev. symmetry. exact P.
Qed.
