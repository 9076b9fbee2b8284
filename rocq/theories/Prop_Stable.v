(** The metrics depend only on the types of the nodes and on the connections. *)
From Coq Require Import String List Bool Arith ZArith QArith Lia Permutation.
From Verif Require Import Py PyFacts Consts Nx NxFacts Rep SpecRep RepFacts Metrics SpecMetrics LayoutMetrics SpecLayoutMetrics Prop_LayoutMetrics
  SpecLayout Layouter.
From Verif Require LayoutFacts Prop_Layout.
From Verif Require Import Xml Export Import SpecXml SpecRound Prop_XmlRound ApiSave Prop_XmlApi SpecSame SameFacts SameApi SameRound RoundDemo.
Import ListNotations.
Open Scope string_scope.
Open Scope list_scope.
Open Scope nat_scope.

(** All metrics of bpmn_diagram_metrics.py are equal. *)
Definition same_figures (d d' : diagram) : Prop :=
  TNSE_metric d' = TNSE_metric d /\ TNIE_metric d' = TNIE_metric d /\ TNEE_metric d' = TNEE_metric d /\
  TNE_metric d' = TNE_metric d /\ NOA_metric d' = NOA_metric d /\ NOAC_metric d' = NOAC_metric d /\
  NOAJS_metric d' = NOAJS_metric d /\ NumberOfNodes_metric d' = NumberOfNodes_metric d /\
  GatewayHeterogenity_metric d' = GatewayHeterogenity_metric d /\ CoefficientOfNetworkComplexity_metric d' = CoefficientOfNetworkComplexity_metric d /\
  AverageGatewayDegree_metric d' = AverageGatewayDegree_metric d /\ DurfeeSquare_metric d' = DurfeeSquare_metric d /\
  PerfectSquare_metric d' = PerfectSquare_metric d.
(** The two computations of longest paths give paths of equal lengths. *)
Definition same_lengths (d d' : diagram) : Prop :=
  forall fuel fuel', 2 * length (gnodes (dgraph d)) < fuel -> 2 * length (gnodes (dgraph d')) < fuel' ->
  exists p p' q q', compute_longest_path fuel d = Ok p /\ compute_longest_path fuel' d' = Ok p' /\ length p' = length p /\
    compute_longest_path_tasks fuel d = Ok q /\ compute_longest_path_tasks fuel' d' = Ok q' /\ length q' = length q.
(** The counts of segments and crossings are the same when they can be computed. *)
Definition same_picture (d d' : diagram) : Prop := forall pyfloat k,
  (count_segments pyfloat d = Ok k -> count_segments pyfloat d' = Ok k) /\
  (count_crossing_points pyfloat d = Ok k -> count_crossing_points pyfloat d' = Ok k).

Theorem C87_metrics : forall d d', gwf (dgraph d) -> gwf (dgraph d') -> typed d -> same_shape d d' -> same_figures d d'.
Proof.
  intros d d' W W' T S. destruct (same_counts d d' W W' T S) as (A1 & A2 & A3 & A4 & A5 & A6 & A7 & A8).
  destruct (same_squares d d' W W' T S) as (B1 & B2 & B3). destruct (same_ratios d d' W W' T S) as (C1 & C2).
  unfold same_figures. auto 15.
Qed.
Theorem C87_lines : forall d d', gwf (dgraph d) -> gwf (dgraph d') -> same_lines d d' -> same_picture d d'.
Proof. intros d d' W W' S pf k. split; [apply same_segments|apply same_crossings]; auto. Qed.

Lemma longest_le : forall d d' fuel fuel' p p', consistent d -> consistent d' -> no_self_loops d -> no_self_loops d' -> same_ways d d' ->
  2 * length (gnodes (dgraph d)) < fuel -> 2 * length (gnodes (dgraph d')) < fuel' ->
  compute_longest_path fuel d = Ok p -> compute_longest_path fuel' d' = Ok p' -> length p <= length p'.
Proof.
  intros d d' fuel fuel' p p' C C' N N' S F F' E E'. destruct (C23_longest_path d fuel p C N F E) as (_ & [-> |Q] & _); [simpl; lia|].
  destruct (C23_longest_path d' fuel' p' C' N' F' E') as (_ & _ & M). rewrite <- (map_length fst p). apply M. eapply same_full_path; eauto.
Qed.
Lemma tasks_le : forall d d' fuel fuel' p p', consistent d -> consistent d' -> no_self_loops d -> no_self_loops d' -> same_ways d d' ->
  2 * length (gnodes (dgraph d)) < fuel -> 2 * length (gnodes (dgraph d')) < fuel' ->
  compute_longest_path_tasks fuel d = Ok p -> compute_longest_path_tasks fuel' d' = Ok p' -> length p <= length p'.
Proof.
  intros d d' fuel fuel' p p' C C' N N' S F F' E E'. destruct (C24_most_activities d fuel p C N F E) as (_ & [-> |(l & Q1 & Q2)] & _); [simpl; lia|].
  destruct (C24_most_activities d' fuel' p' C' N' F' E') as (_ & _ & M). rewrite <- (map_length fst p), Q2.
  rewrite (filter_ext _ _ (fun n => eq_sym (same_activity d d' S n))). apply M. eapply same_source_path; eauto.
Qed.
Theorem C87_longest_paths : forall d d', consistent d -> consistent d' -> no_self_loops d -> same_ways d d' -> same_lengths d d'.
Proof.
  intros d d' C C' N S fuel fuel' F F'.
  assert (N' : no_self_loops d') by (intros n H; apply (N n); apply (sw_next _ _ S); exact H).
  pose proof (same_ways_sym _ _ S) as S'.
  destruct (C23_terminates d fuel C F) as [p E]. destruct (C23_terminates d' fuel' C' F') as [p' E'].
  destruct (C24_terminates d fuel C F) as [q G]. destruct (C24_terminates d' fuel' C' F') as [q' G'].
  exists p, p', q, q'. repeat (split; [assumption|]). split.
  - apply Nat.le_antisymm; [apply (longest_le d' d fuel' fuel)|apply (longest_le d d' fuel fuel')]; auto.
  - do 2 (split; [assumption|]). apply Nat.le_antisymm; [apply (tasks_le d' d fuel' fuel)|apply (tasks_le d d' fuel fuel')]; auto.
Qed.

(** * The same calls in another order *)
Lemma history_typed : forall l d, history l d -> typed d.
Proof. intros l d H n I. apply (inv_n _ (inv_history _ _ H) n I). Qed.
Theorem C87_call_order : forall l l' d d', history l d -> history l' d' -> Permutation (recent l) (recent l') ->
  same_figures d d' /\ (distinct_pairs d -> no_self_loops d -> same_lengths d d').
Proof.
  intros l l' d d' H H' P. split.
  - apply C87_metrics; [apply (inv_g _ (inv_history _ _ H))|apply (inv_g _ (inv_history _ _ H'))|apply (history_typed l d H)|apply (order_shape l l'); auto].
  - intros D N. destruct (order_ways l l' d d' H H' P D) as [S D'].
    apply C87_longest_paths; [apply (C23_api_diagrams_consistent _ _ H D)|apply (C23_api_diagrams_consistent _ _ H' D')|exact N|exact S].
Qed.
(** Two branches of the same length, added in either order. *)
Definition front : list op :=
  [ONew "m" "0"; OProcess "p" false true "None" "1" "2"; OStart "id2" "s" None false true (Some "s") "" "";
   OExclusive "id2" "g" "Diverging" None (Some "g") ""; OTask "id2" "a" (Some "a") ""; OTask "id2" "b" (Some "b") "";
   OEnd "id2" "e" None (Some "e") "" ""; OFlow "id2" "s" "g" "" "10"; OFlow "id2" "a" "e" "" "13"; OFlow "id2" "b" "e" "" "14"].
Definition upper : op := OFlow "id2" "g" "a" "x" "11".
Definition lower : op := OFlow "id2" "g" "b" "y" "12".
Definition names (r : res (list (string * attrs))) : res (list string) := let* p := r in Ok (map fst p).
Example C87_order_example : let d := run empty_diagram (front ++ [upper; lower]) in
  history (front ++ [upper; lower]) d /\ history (front ++ [lower; upper]) (run empty_diagram (front ++ [lower; upper])) /\
  Permutation (recent (front ++ [upper; lower])) (recent (front ++ [lower; upper])) /\ distinct_pairs d /\ no_self_loops d /\
  names (compute_longest_path 11 d) = Ok ["s"; "g"; "a"; "e"] /\ AverageGatewayDegree_metric d = fdiv 3 1.
Proof.
  cbv zeta. assert (H : history (front ++ [upper; lower]) (run empty_diagram (front ++ [upper; lower]))) by (apply checked_history; vm_compute; reflexivity).
  assert (D : distinct_pairs (run empty_diagram (front ++ [upper; lower]))) by (apply pairs_checked_ok; vm_compute; reflexivity).
  split; [exact H|]. split; [apply checked_history; vm_compute; reflexivity|].
  split; [vm_compute; do 9 apply perm_skip; apply perm_swap|]. split; [exact D|]. split; [|split; vm_compute; reflexivity].
  intros n Q. apply (next_recorded _ _ H D) in Q. destruct Q as (f & r & G & E1 & E2). apply dget_In in G.
  assert (B : forallb (fun x => negb (String.eqb (fl_src (snd x)) (fl_tgt (snd x)))) (seq_flows (run empty_diagram (front ++ [upper; lower]))) = true)
    by (vm_compute; reflexivity).
  rewrite forallb_forall in B. specialize (B _ G). cbn [snd] in B. rewrite E1, E2, eqb_refl' in B. discriminate.
Qed.
(** The path itself may be another one. *)
Theorem C87_path_refuted : exists l l' d d', history l d /\ history l' d' /\ Permutation (recent l) (recent l') /\ distinct_pairs d /\
  names (compute_longest_path 11 d) = Ok ["s"; "g"; "a"; "e"] /\ names (compute_longest_path 11 d') = Ok ["s"; "g"; "b"; "e"].
Proof.
  exists (front ++ [upper; lower]), (front ++ [lower; upper]). do 2 eexists. destruct C87_order_example as (A & B & C & D & _ & E & _).
  split; [exact A|]. split; [exact B|]. split; [exact C|]. split; [exact D|]. split; [exact E|]. vm_compute. reflexivity.
Qed.

(** * Saved and loaded *)
Theorem C87_saved : forall set_order fuel d d', any_order set_order -> storable d -> complete d -> round_trip set_order fuel d d' ->
  same_figures d d' /\ same_picture d d' /\
  ((forall n, is_node d n -> in_process d n) -> messages_aimed d -> consistent d -> no_self_loops d -> same_lengths d d').
Proof.
  intros so fuel d d' Po SB CP R. pose proof (sb_graph _ SB) as W. pose proof (round_gwf so fuel d d' SB R) as W'. split; [|split].
  - apply C87_metrics; auto; [|apply (round_shape so fuel d d' Po SB CP R)]. intros n I. destruct (sb_types _ SB n I) as (t & T & _). eauto.
  - apply C87_lines; auto. apply (round_lines so fuel d d' SB CP R).
  - intros AP MA C N. destruct (round_ways so fuel d d' Po SB CP MA AP R) as [S C']. apply C87_longest_paths; auto.
Qed.
Lemma built_in_process : forall l d, proper_history l d -> (forall n, is_node d n -> in_process d n) /\ messages_aimed d.
Proof.
  intros l d H. pose proof (history_built l d H) as B. split; [apply (api_in_process d B)|].
  intros c m r Hc. exfalso. destruct B. congruence.
Qed.
Theorem C87_saved_api : forall set_order fuel l d d', any_order set_order -> proper_history l d -> round_trip set_order fuel d d' ->
  same_figures d d' /\ same_picture d d' /\ (distinct_pairs d -> no_self_loops d -> same_lengths d d').
Proof.
  intros so fuel l d d' Po H R. pose proof (history_built l d H) as B.
  destruct (C87_saved so fuel d d' Po (api_storable d B) (api_complete d B) R) as (A1 & A2 & A3). split; [exact A1|]. split; [exact A2|].
  intros D N. destruct (built_in_process l d H) as [P M]. apply A3; auto. apply (C23_api_diagrams_consistent l d (proper_is_history _ _ H) D).
Qed.

(** * Laid out *)
Lemma ids_first : forall f l l', Forall2 (fun t t' => fst t' = fst t /\ forall k, k <> "waypoints" -> dget k (snd t') = dget k (snd t)) l l' ->
  match first_flow f l, first_flow f l' with
  | Ok (Some t), Ok (Some t') => forall k, k <> "waypoints" -> dget k (snd t') = dget k (snd t)
  | Ok None, Ok None => True
  | Err _, Err _ => True
  | _, _ => False
  end.
Proof.
  intros f l l'. induction 1 as [|t t' l l' [A B] F IH]; [exact I|]. cbn [first_flow]. unfold dgetE. change k_id with "id".
  rewrite (B "id") by discriminate. destruct (dget "id" (snd t)) as [v|]; cbn [rbind]; [|exact I]. destruct (veqs v f); [exact B|exact IH].
Qed.
Lemma drawing_leads : forall d d', only_drawing d d' -> forall f m, leads_to d' f m <-> leads_to d f m.
Proof.
  intros d d' (_ & _ & F & _) f m. pose proof (ids_first f _ _ F) as Q. unfold leads_to, get_flow_by_id.
  destruct (first_flow f (get_flows d)) as [[t|]|], (first_flow f (get_flows d')) as [[t'|]|]; try contradiction; split;
    intros (x & E & T); inv E; eexists; (split; [reflexivity|]); [rewrite <- Q by discriminate|rewrite Q by discriminate]; exact T.
Qed.
Lemma drawing_ways : forall d d', only_drawing d d' -> same_ways d d'.
Proof.
  intros d d' O. pose proof (drawing_leads d d' O) as L. destruct O as (K & A & _ & _).
  assert (Out : forall n, outgoing_of d' n = outgoing_of d n) by (intros n; unfold outgoing_of; rewrite A by discriminate; reflexivity).
  assert (Inc : forall n, incoming_of d' n = incoming_of d n) by (intros n; unfold incoming_of; rewrite A by discriminate; reflexivity).
  constructor.
  - intros n. unfold is_node. rewrite K. tauto.
  - intros n. apply A; discriminate.
  - intros n. rewrite Inc. tauto.
  - intros n. rewrite Out. tauto.
  - intros n m. unfold next. rewrite Out. split; intros (f & I & Q); exists f; (split; [exact I|]); apply L; exact Q.
Qed.
Theorem C87_laid_out : forall fuel d, gwf (dgraph d) -> typed d ->
  same_figures d (fst (generate_layout fuel d)) /\
  (consistent d -> no_self_loops d -> same_lengths d (fst (generate_layout fuel d))).
Proof.
  intros fuel d W T. pose proof (LayoutFacts.kept_layout fuel d) as K. pose proof (Prop_Layout.C29_only_drawing fuel d) as O.
  set (d' := fst (generate_layout fuel d)) in *. pose proof (drawing_ways d d' O) as S.
  assert (W' : gwf (dgraph d')).
  { destruct K as [K [_ [F _]]]. apply (LayoutFacts.gwf_same_ends (dgraph d)); auto.
    clear - F. induction F as [|e e' l l' [A [B _]] F IH]; cbn; [reflexivity|]. rewrite A, B, IH. reflexivity. }
  split.
  - apply C87_metrics; auto. constructor; [apply (sw_nodes _ _ S)|apply (sw_types _ _ S)|].
    destruct K as [_ [_ [F _]]]. intros u v. split; intros (e & I & J).
    + destruct (Forall2_in_r _ _ _ _ _ _ F I) as (e0 & I0 & A & B & _). exists e0. split; [exact I0|]. rewrite <- A, <- B. exact J.
    + destruct (Forall2_in_l _ _ _ _ _ _ F I) as (e0 & I0 & A & B & _). exists e0. split; [exact I0|]. rewrite A, B. exact J.
  - intros C N. apply C87_longest_paths; auto. pose proof (drawing_leads d d' O) as L. destruct C as (_ & C2 & C3). destruct O as (_ & A & _).
    split; [apply (gwf_nodup _ W')|]. split.
    + intros n I. rewrite !A by discriminate. apply C2. apply (sw_nodes _ _ S). exact I.
    + intros n f I. unfold outgoing_of in I. rewrite A in I by discriminate. destruct (C3 n f I) as (m & Q & M). exists m.
      split; [apply L; exact Q|apply (sw_nodes _ _ S); exact M].
Qed.

(** The diagram of [front] saved, loaded and laid out. *)
Example C87_saved_example : let l := front ++ [upper; lower] in let d := run empty_diagram l in proper_history l d /\
  (exists d', round_trip (fun l => l) 9 d d' /\ names (compute_longest_path 11 d') = Ok ["s"; "g"; "a"; "e"]) /\
  snd (generate_layout 30 d) = Ok tt /\ (let* k := count_segments (fun _ => Some 0%Q) d in Ok k) = Ok 5.
Proof.
  cbv zeta. split; [apply (pcheck_history _ [] empty_diagram ph_nil); vm_compute; reflexivity|]. split; [|split; vm_compute; reflexivity].
  destruct (export_xml_file 9 (run empty_diagram (front ++ [upper; lower]))) as [file|] eqn:F; [|vm_compute in F; discriminate].
  exists (fst (load_diagram_from_xml (fun l => l) file empty_diagram)). split.
  - exists file. split; [exact F|]. vm_compute in F. injection F as <-. vm_compute. reflexivity.
  - vm_compute in F. injection F as <-. vm_compute. reflexivity.
Qed.
(** A diagram with participants and a message flow. *)
Example C87_participants_example : storable drawn /\ complete drawn /\ round_trip (fun l => l) 5 drawn redrawn.
Proof. split; [exact drawn_storable|]. split; [exact drawn_complete|]. exact drawn_round. Qed.

Print Assumptions C87_metrics.
Print Assumptions C87_lines.
Print Assumptions C87_longest_paths.
Print Assumptions C87_call_order.
Print Assumptions C87_path_refuted.
Print Assumptions C87_saved.
Print Assumptions C87_saved_api.
Print Assumptions C87_laid_out.
