(** CSV export of block-structured processes (C81).  Each theorem is followed by a concrete
    case of its hypotheses. *)
From Coq Require Import String Ascii List Bool Arith ZArith Lia.
From Verif Require Import Py PyFacts Consts Nx NxFacts Rep SpecRep RepFacts MetricsFacts Classify SpecLayout ClassifyFacts.
From Verif Require Import CsvRegex CsvImport SpecCsv RegexFacts CsvFacts CsvTable CsvExport SpecCsvExport CsvExportFacts CsvChain.
From Verif Require Import SpecBlocks BlockExport.
From Verif Require Import Prop_LayoutMetrics Prop_Layout Prop_CsvExport.
Import ListNotations.
Open Scope string_scope.
Open Scope list_scope.

(** * C81 *)
Theorem C81_lines : forall d s ps e fuel, structured d s ps e -> size ps + 1 < fuel ->
  export_process_to_csv fuel d None = (Some (csv_text (csv_columns :: process_lines d s ps e)), Ok tt).
Proof. exact structured_export. Qed.

(** Checking the hypotheses for a concrete diagram. *)
Definition node_b (d : diagram) (n : string) : bool := smem n (node_keys d).
Lemma node_ok : forall d n, node_b d n = true -> is_node d n.
Proof. intros d n H. apply smem_In. exact H. Qed.
Definition goes_b (d : diagram) (f n m : string) : bool :=
  match get_flow_by_id f d with
  | Ok (Some t) => match dget "sourceRef" (snd t), dget "targetRef" (snd t) with
                   | Some (VStr a), Some (VStr b) => String.eqb a n && String.eqb b m
                   | _, _ => false
                   end
  | _ => false
  end.
Lemma goes_ok : forall d f n m, goes_b d f n m = true -> flow_goes d f n m.
Proof.
  intros d f n m H. unfold goes_b in H. unfold flow_goes. destruct (get_flow_by_id f d) as [[t|]|]; try discriminate.
  destruct (dget "sourceRef" (snd t)) as [[]|] eqn:A; try discriminate. destruct (dget "targetRef" (snd t)) as [[]|] eqn:B; try discriminate.
  apply andb_true_iff in H. destruct H as [H1 H2]. apply String.eqb_eq in H1, H2. subst. exists t. auto.
Qed.
Definition target_b (d : diagram) (f : string) : string :=
  match get_flow_by_id f d with
  | Ok (Some t) => match dget "targetRef" (snd t) with Some (VStr b) => b | _ => "" end
  | _ => ""
  end.
Fixpoint way_b (d : diagram) (x : string) (ps : list part) (y : string) : bool :=
  match ps with
  | [] => String.eqb x y
  | p :: qs => String.eqb x (first_of p) &&
      match outgoing_of d (last_of p) with
      | [f] => node_b d (target_b d f) && goes_b d f (last_of p) (target_b d f) && way_b d (target_b d f) qs y
      | _ => false
      end
  end.
Lemma way_ok : forall d ps x y, way_b d x ps y = true -> way d x ps y.
Proof.
  induction ps as [|p qs IH]; intros x y H; cbn [way_b way] in *; [apply String.eqb_eq; auto|].
  apply andb_true_iff in H. destruct H as [H1 H2]. apply String.eqb_eq in H1. split; auto.
  destruct (outgoing_of d (last_of p)) as [|f [|]] eqn:E; try discriminate.
  apply andb_true_iff in H2. destruct H2 as [H2 H3]. apply andb_true_iff in H2. destruct H2 as [H2 H4].
  exists (target_b d f). split; auto. split; [apply node_ok; auto|]. exists f. split; auto. apply goes_ok; auto.
Qed.
Definition typed_b (d : diagram) (n t : string) : bool := match attr d n "type" with Some v => veqs v t | None => false end.
Lemma typed_ok : forall d n t, typed_b d n t = true -> typed d n t.
Proof.
  intros d n t H. unfold typed_b, typed in *. destruct (attr d n "type") as [[]|]; try discriminate.
  cbn [veqs] in H. apply String.eqb_eq in H. subst. reflexivity.
Qed.
Definition gateway_b (d : diagram) (n : string) : bool := node_b d n && existsb (typed_b d n) gateway_types.
Lemma gateway_ok : forall d n, gateway_b d n = true -> gateway_node d n.
Proof.
  intros d n H. apply andb_true_iff in H. destruct H as [H1 H2]. split; [apply node_ok; auto|].
  apply existsb_exists in H2. destruct H2 as [t [A B]]. exists t. split; auto. apply typed_ok; auto.
Qed.
Definition end_b (d : diagram) (n : string) : bool := node_b d n && typed_b d n "endEvent".
Lemma end_ok : forall d n, end_b d n = true -> end_node d n.
Proof. intros d n H. apply andb_true_iff in H. destruct H. split; [apply node_ok|apply typed_ok]; auto. Qed.
Definition calm_b (ps : list part) : bool := match rev ps with [] | Act _ :: _ => true | _ => false end.
Lemma calm_ok : forall ps, calm_b ps = true -> calm_end ps.
Proof.
  intros ps H. unfold calm_b in H. destruct (rev ps) as [|[n|] r] eqn:E; try discriminate.
  - left. rewrite <- (rev_involutive ps), E. reflexivity.
  - right. exists (rev r), n. rewrite <- (rev_involutive ps), E. reflexivity.
Qed.
Definition join_b (d : diagram) (n : string) : bool := Nat.leb 2 (length (incoming_of d n)).
Lemma join_ok : forall d n, join_b d n = true -> join_node d n.
Proof. intros d n H. apply Nat.leb_le in H. exact H. Qed.
Lemma join_no : forall d n, negb (join_b d n) = true -> ~ join_node d n.
Proof. intros d n H C. apply negb_true_iff, Nat.leb_gt in H. unfold join_node in C. lia. Qed.
Definition opens_b (d : diagram) (g j f : string) (b : branch_t) : bool :=
  node_b d (target_b d f) && goes_b d f g (target_b d f) && way_b d (target_b d f) (fst b) (arrives j b) &&
  match snd b with None => calm_b (fst b) | Some e => end_b d e && negb (join_b d e) end.
Lemma opens_ok : forall d g j f b, opens_b d g j f b = true -> opens_branch d g j f b.
Proof.
  intros d g j f b H. unfold opens_b in H. rewrite !andb_true_iff in H. destruct H as [[[H1 H2] H3] H4]. split; [|split].
  - exists (target_b d f). split; [apply node_ok; auto|]. split; [apply goes_ok; auto|apply way_ok; auto].
  - intros E. rewrite E in H4. apply calm_ok; auto.
  - intros e E. rewrite E in H4. apply andb_true_iff in H4. destruct H4. split; [apply end_ok|apply join_no]; auto.
Qed.
Fixpoint all2 {A B} (f : A -> B -> bool) (l : list A) (m : list B) : bool :=
  match l, m with [], [] => true | a :: l', b :: m' => f a b && all2 f l' m' | _, _ => false end.
Lemma all2_ok : forall A B (f : A -> B -> bool) (P : A -> B -> Prop) l m, (forall a b, f a b = true -> P a b) -> all2 f l m = true -> Forall2 P l m.
Proof.
  induction l as [|a l IH]; intros [|b m] H E; try discriminate; constructor; apply andb_true_iff in E; destruct E; auto.
Qed.
Fixpoint contains_b (depth : nat) (d : diagram) (p : part) : bool :=
  match depth with
  | O => false
  | S depth' =>
      match p with
      | Act n => node_b d n && (typed_b d n "task" || typed_b d n "subProcess") && negb (join_b d n)
      | Block g j bs =>
          gateway_b d g && negb (join_b d g) && Nat.leb 2 (length (outgoing_of d g)) && Nat.leb (length bs) 26 &&
          gateway_b d j && join_b d j && all2 (opens_b d g j) (outgoing_of d g) bs &&
          existsb (fun b => match b with (_ :: _, None) => true | _ => false end) bs &&
          forallb (fun b => forallb (contains_b depth' d) (fst b)) bs
      end
  end.
Lemma contains_ok : forall depth d p, contains_b depth d p = true -> contains d p.
Proof.
  induction depth as [|k IH]; intros d p H; [discriminate|]. destruct p as [n|g j bs]; cbn [contains_b] in H; rewrite !andb_true_iff in H.
  - destruct H as [[H1 H2] H3]. constructor; [|apply join_no; auto]. split; [apply node_ok; auto|].
    apply orb_true_iff in H2. destruct H2 as [H2|H2]; apply typed_ok in H2; auto.
  - destruct H as [[[[[[[[H1 H2] H3] H4] H5] H6] H7] H8] H9]. constructor.
    + apply gateway_ok; auto.
    + apply join_no; auto.
    + apply Nat.leb_le; auto.
    + apply Nat.leb_le; auto.
    + apply gateway_ok; auto.
    + apply join_ok; auto.
    + eapply all2_ok; [|exact H7]. intros. apply opens_ok; auto.
    + apply existsb_exists in H8. destruct H8 as [[[|p ps] [e|]] [A B]]; try discriminate. exists (p :: ps, None).
      split; auto. split; auto. discriminate.
    + intros b p Hb Hp. rewrite forallb_forall in H9. specialize (H9 b Hb). rewrite forallb_forall in H9. auto.
Qed.
(** For diagrams built with the API. *)
Definition structured_b (d : diagram) (s : string) (ps : list part) (e : string) : bool :=
  well_named_b d && labelled_b d && all2 String.eqb (map fst (filter no_incoming (gnodes (dgraph d)))) [s] &&
  typed_b d s "startEvent" &&
  match outgoing_of d s with
  | [f] => node_b d (target_b d f) && goes_b d f s (target_b d f) && way_b d (target_b d f) ps e
  | _ => false
  end && end_b d e && forallb (contains_b (S (size ps)) d) ps.
Lemma structured_ok : forall d s ps e, coherent d -> structured_b d s ps e = true -> structured d s ps e.
Proof.
  intros d s ps e Co H. unfold structured_b in H. rewrite !andb_true_iff in H. destruct H as [[[[[[H1 H2] H3] H4] H5] H6] H7].
  pose proof (proj1 Co) as L.
  split; auto. split; [apply well_named_ok; auto|]. split; [apply labelled_ok; auto|]. split; [|split; [apply typed_ok; auto|split; [|split]]].
  - intros n. rewrite (entry_iff d n L). apply (all2_ok _ _ _ eq) in H3; [|intros a b E; apply String.eqb_eq; auto].
    assert (E : map fst (filter no_incoming (gnodes (dgraph d))) = [s]).
    { inversion H3 as [|x y l m A B]; subst. inversion B. reflexivity. }
    rewrite E. cbn [In]. intuition.
  - destruct (outgoing_of d s) as [|f [|]] eqn:E; try discriminate. rewrite !andb_true_iff in H5. destruct H5 as [[A B] C].
    exists (target_b d f). split; [|apply way_ok; auto]. split; [apply node_ok; auto|]. exists f. split; auto. apply goes_ok; auto.
  - apply end_ok; auto.
  - intros p Hp. rewrite forallb_forall in H7. eapply contains_ok; eauto.
Qed.

(** A process with a decision: two branches with activities, one of them with two parallel
    branches inside, one without any node, and one that stops on its own.  The second one
    is the default. *)
Definition nested_ops : list op :=
  [ONew "m" "0"; OStart "id2" "begin" (Some "message") false true (Some "s") "90" "91"; OTask "id2" "check" (Some "a") "";
   OExclusive "id2" "g" "Diverging" (Some "id13") (Some "g") ""; OTask "id2" "pack" (Some "b") "";
   OSubprocess "id2" "weigh" false false (Some "c") "";
   OTask "id2" "call" (Some "h") ""; OParallel "id2" "g2" "Diverging" (Some "g2") ""; OTask "id2" "left" (Some "l") "";
   OTask "id2" "right" (Some "r") ""; OParallel "id2" "j2" "Converging" (Some "j2") ""; OTask "id2" "sum up" (Some "k") "";
   OTask "id2" "refuse" (Some "x") ""; OEnd "id2" "over" None (Some "e2") "" "";
   OExclusive "id2" "j" "Converging" None (Some "j") ""; OTask "id2" "close" (Some "m") ""; OEnd "id2" "done" (Some "message") (Some "e") "92" "93";
   OFlow "id2" "s" "a" "" "10"; OFlow "id2" "a" "g" "" "11";
   OFlow "id2" "g" "b" "small" "12"; OFlow "id2" "g" "h" "large" "13"; OFlow "id2" "g" "j" "none" "14"; OFlow "id2" "g" "x" "bad" "15";
   OFlow "id2" "b" "c" "" "16"; OFlow "id2" "c" "j" "" "17";
   OFlow "id2" "h" "g2" "" "18"; OFlow "id2" "g2" "l" "ignored" "19"; OFlow "id2" "g2" "r" "" "20"; OFlow "id2" "l" "j2" "" "21";
   OFlow "id2" "r" "j2" "" "22"; OFlow "id2" "j2" "k" "" "23"; OFlow "id2" "k" "j" "" "24";
   OFlow "id2" "x" "e2" "" "25"; OFlow "id2" "j" "m" "" "26"; OFlow "id2" "m" "e" "" "27"].
Definition nested_demo : diagram := run empty_diagram nested_ops.
Definition nested_parts : list part :=
  [Act "a";
   Block "g" "j" [([Act "b"; Act "c"], None);
                  ([Act "h"; Block "g2" "j2" [([Act "l"], None); ([Act "r"], None)]; Act "k"], None);
                  ([], None);
                  ([Act "x"], Some "e2")];
   Act "m"].
Lemma nested_coherent : coherent nested_demo.
Proof.
  assert (H : history nested_ops nested_demo) by (apply checked_history; vm_compute; reflexivity).
  assert (D : distinct_pairs nested_demo) by (apply pairs_checked_ok; vm_compute; reflexivity).
  exact (proj1 (C26_api_diagrams_coherent _ _ H D)).
Qed.
Example C81_example : structured nested_demo "s" nested_parts "e" /\ size nested_parts = 19 /\
  process_lines nested_demo "s" nested_parts "e" =
    [["0"; "message begin"; ""; ""; ""; ""]; ["1"; "check"; ""; ""; ""; ""];
     ["2a1"; "pack"; "small"; ""; ""; ""]; ["2a2"; "weigh"; ""; ""; "yes"; ""];
     ["2b1"; "call"; "else"; ""; ""; ""]; ["2b2a1"; "left"; ""; ""; ""; ""]; ["2b2b1"; "right"; ""; ""; ""; ""]; ["2b3"; "sum up"; ""; ""; ""; ""];
     ["2c1"; "goto 3"; "none"; ""; ""; ""];
     ["2d1"; "refuse"; "bad"; ""; ""; ""]; ["2d2"; "over"; ""; ""; ""; "yes"];
     ["3"; "close"; ""; ""; ""; ""]; ["4"; "message done"; ""; ""; ""; "yes"]] /\
  export_process_to_csv 21 nested_demo None = (Some (csv_text (csv_columns :: process_lines nested_demo "s" nested_parts "e")), Ok tt).
Proof.
  split; [apply structured_ok; [exact nested_coherent|vm_compute; reflexivity]|].
  split; [vm_compute; reflexivity|]. split; vm_compute; reflexivity.
Qed.
Print Assumptions C81_lines.

(** Without the condition on the ends of branches an activity may have several lines: a
    block inside a block that is followed by the meeting point of the outer block makes the
    exporter go on behind the outer block in the numbering of the branch. *)
Lemma only_named : forall d n s m,
  forallb (fun p => negb (match dget "node_name" (snd p) with Some v => veqs v s | None => false end) || String.eqb (fst p) m) (gnodes (dgraph d)) = true ->
  named d n s -> n = m.
Proof.
  intros d n s m X N. unfold named, attr, node_of in N. destruct (dget n (gnodes (dgraph d))) as [a|] eqn:E; [|discriminate].
  apply dget_In in E. rewrite forallb_forall in X. specialize (X _ E). cbn [fst snd] in X. rewrite N in X. cbn [veqs] in X.
  rewrite String.eqb_refl in X. apply String.eqb_eq. exact X.
Qed.
Definition twice_ops : list op :=
  [ONew "m" "0"; OStart "id2" "s" None false true (Some "s") "" ""; OParallel "id2" "g" "Diverging" (Some "g") "";
   OTask "id2" "a" (Some "a") ""; OTask "id2" "b" (Some "b") ""; OParallel "id2" "g2" "Diverging" (Some "g2") "";
   OTask "id2" "l" (Some "l") ""; OTask "id2" "r" (Some "r") ""; OParallel "id2" "j2" "Converging" (Some "j2") "";
   OParallel "id2" "j" "Converging" (Some "j") ""; OTask "id2" "close" (Some "m") ""; OEnd "id2" "e" None (Some "e") "" "";
   OFlow "id2" "s" "g" "" "10"; OFlow "id2" "g" "a" "" "11"; OFlow "id2" "g" "b" "" "12"; OFlow "id2" "b" "g2" "" "13";
   OFlow "id2" "g2" "l" "" "14"; OFlow "id2" "g2" "r" "" "15"; OFlow "id2" "l" "j2" "" "16"; OFlow "id2" "r" "j2" "" "17";
   OFlow "id2" "j2" "j" "" "18"; OFlow "id2" "a" "j" "" "19"; OFlow "id2" "j" "m" "" "20"; OFlow "id2" "m" "e" "" "21"].
Definition twice_demo : diagram := run empty_diagram twice_ops.
Theorem C81_one_line_each_refuted : exists ops d lines o o', history ops d /\ coherent d /\ acyclic d /\
  export_process_to_csv 30 d None = (Some (csv_text (csv_columns :: lines)), Ok tt) /\
  (forall n, named d n "close" -> n = "m") /\ o <> o' /\
  In [o; "close"; ""; ""; ""; ""] lines /\ In [o'; "close"; ""; ""; ""; ""] lines.
Proof.
  assert (H : history twice_ops twice_demo) by (apply checked_history; vm_compute; reflexivity).
  assert (D : distinct_pairs twice_demo) by (apply pairs_checked_ok; vm_compute; reflexivity).
  exists twice_ops, twice_demo,
    [["0"; "s"; ""; ""; ""; ""]; ["1a1"; "a"; ""; ""; ""; ""]; ["1b1"; "b"; ""; ""; ""; ""]; ["1b2a1"; "l"; ""; ""; ""; ""];
     ["1b2b1"; "r"; ""; ""; ""; ""]; ["1b4"; "close"; ""; ""; ""; ""]; ["1b5"; "e"; ""; ""; ""; "yes"]; ["2"; "close"; ""; ""; ""; ""];
     ["3"; "e"; ""; ""; ""; "yes"]], "1b4", "2".
  split; auto. split; [exact (proj1 (C26_api_diagrams_coherent _ _ H D))|]. split.
  { apply (ranked_acyclic _ _ (pos ["s"; "g"; "a"; "b"; "g2"; "l"; "r"; "j2"; "j"; "m"; "e"]) H). vm_compute. reflexivity. }
  split; [vm_compute; reflexivity|]. split.
  { intros n N. apply (only_named twice_demo n "close" "m"); [vm_compute; reflexivity|exact N]. }
  split; [discriminate|]. cbn [In]. tauto.
Qed.
Print Assumptions C81_one_line_each_refuted.

(** A branch that starts with a block loses its condition. *)
Definition lost_ops : list op :=
  [ONew "m" "0"; OStart "id2" "s" None false true (Some "s") "" ""; OExclusive "id2" "g" "Diverging" None (Some "g") "";
   OTask "id2" "a" (Some "a") ""; OParallel "id2" "g2" "Diverging" (Some "g2") "";
   OTask "id2" "l" (Some "l") ""; OTask "id2" "r" (Some "r") ""; OParallel "id2" "j2" "Converging" (Some "j2") ""; OTask "id2" "b" (Some "b") "";
   OExclusive "id2" "j" "Converging" None (Some "j") ""; OEnd "id2" "e" None (Some "e") "" "";
   OFlow "id2" "s" "g" "" "10"; OFlow "id2" "g" "a" "small" "11"; OFlow "id2" "g" "g2" "large" "12";
   OFlow "id2" "g2" "l" "" "14"; OFlow "id2" "g2" "r" "" "15"; OFlow "id2" "l" "j2" "" "16"; OFlow "id2" "r" "j2" "" "17";
   OFlow "id2" "j2" "b" "" "18"; OFlow "id2" "b" "j" "" "19"; OFlow "id2" "a" "j" "" "20"; OFlow "id2" "j" "e" "" "21"].
Definition lost_demo : diagram := run empty_diagram lost_ops.
Definition lost_parts : list part :=
  [Block "g" "j" [([Act "a"], None); ([Block "g2" "j2" [([Act "l"], None); ([Act "r"], None)]; Act "b"], None)]].
Theorem C81_conditions_kept_refuted : exists ops d ps f lines, history ops d /\ structured d "s" ps "e" /\
  In f (outgoing_of d "g") /\ typed d "g" "exclusiveGateway" /\ flow_text d f = "large" /\
  export_process_to_csv 30 d None = (Some (csv_text (csv_columns :: lines)), Ok tt) /\
  forall l, In l lines -> ~ In "large" l.
Proof.
  assert (H : history lost_ops lost_demo) by (apply checked_history; vm_compute; reflexivity).
  assert (D : distinct_pairs lost_demo) by (apply pairs_checked_ok; vm_compute; reflexivity).
  exists lost_ops, lost_demo, lost_parts, "id12",
    [["0"; "s"; ""; ""; ""; ""]; ["1a1"; "a"; "small"; ""; ""; ""]; ["1b1a1"; "l"; ""; ""; ""; ""];
     ["1b1b1"; "r"; ""; ""; ""; ""]; ["1b2"; "b"; ""; ""; ""; ""]; ["2"; "e"; ""; ""; ""; "yes"]].
  split; auto. split.
  { apply structured_ok; [exact (proj1 (C26_api_diagrams_coherent _ _ H D))|vm_compute; reflexivity]. }
  split; [vm_compute; tauto|]. split; [vm_compute; reflexivity|]. split; [vm_compute; reflexivity|]. split; [vm_compute; reflexivity|].
  intros l Hl. cbn [In] in Hl. repeat (destruct Hl as [<- |Hl]; [cbn [In]; intuition discriminate|]). contradiction.
Qed.
Print Assumptions C81_conditions_kept_refuted.
