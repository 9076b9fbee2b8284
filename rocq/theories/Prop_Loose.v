(** CSV export of processes whose branches may meet at an activity (C113).  Each theorem is followed by a concrete case of its hypotheses. *)
From Coq Require Import String Ascii List Bool Arith ZArith Lia.
From Verif Require Import Py PyFacts Consts Nx NxFacts Rep SpecRep RepFacts MetricsFacts Classify SpecLayout ClassifyFacts.
From Verif Require Import CsvRegex CsvImport SpecCsv RegexFacts CsvFacts CsvTable CsvExport SpecCsvExport CsvExportFacts CsvChain.
From Verif Require Import SpecBlocks BlockExport SpecLoose LooseExport.
From Verif Require Import Prop_LayoutMetrics Prop_Layout Prop_CsvExport Prop_CsvBlocks Prop_CsvFlat.
Import ListNotations.
Open Scope string_scope.
Open Scope list_scope.

(** The file. *)
Theorem C113_lines : forall d s ps e fuel, loose_process d s ps e -> size ps + 1 < fuel ->
  export_process_to_csv fuel d None = (Some (csv_text (csv_columns :: process_lines d s ps e)), Ok tt).
Proof. exact loose_export. Qed.

(** Processes whose branches meet at gateways are covered. *)
Lemma way_route : forall d ps x y, (forall p, In p ps -> contains d p) -> way d x ps y -> route d x ps y.
Proof.
  intros d. induction ps as [|p qs IH]; intros x y C W; [exact W|]. cbn [way] in W. destruct W as [-> [z [O W]]].
  assert (R : route d z qs y) by (apply IH; auto; intros q Hq; apply C; right; exact Hq).
  pose proof (C p (or_introl eq_refl)) as P. destruct p as [n|g j bs]; cbn [route first_of last_of] in *; (split; [reflexivity|]); exists z; split; auto.
  inversion P. left. auto.
Qed.
Lemma contained_loosely : forall d p, contains d p -> forall qs, loosely d qs -> loosely d (p :: qs).
Proof.
  intros d p H. induction H as [n A J|g j bs Gg Ng Sg Lg Gj Jj Ob Mt Hc IH]; intros qs Q; [constructor; auto|].
  apply lo_block; auto.
  - split; [exact Gg|]. split; [exact Ng|]. split; [exact Sg|]. split; [exact Lg|]. split; [exact Jj|]. split; [|exact Mt].
    assert (X : forall fs cs, (forall b p, In b cs -> In p (fst b) -> contains d p) -> Forall2 (opens_branch d g j) fs cs -> Forall2 (opens_route d g j) fs cs).
    { intros fs cs C O. induction O as [|f b fs cs [[x [Nx [Fx W]]] R] O IHO]; constructor.
      - split; [|exact R]. exists x. split; auto. split; auto. apply way_route; auto. intros p Hp. apply (C b p); auto. left; reflexivity.
      - apply IHO. intros c p Hc' Hp. apply (C c p); auto. right; exact Hc'. }
    apply X; auto.
  - intros b Hb. assert (Y : forall us, (forall p, In p us -> forall qs, loosely d qs -> loosely d (p :: qs)) -> loosely d us).
    { induction us as [|u us IHu]; intros K; [constructor|]. apply K; [left; reflexivity|]. apply IHu. intros p Hp. apply K. right. exact Hp. }
    apply Y. intros p Hp. apply (IH b p Hb Hp).
Qed.
Theorem C113_covers : forall d s ps e, structured d s ps e -> loose_process d s ps e.
Proof.
  intros d s ps e (Co & Wn & Lb & En & Ts & [x [Ox W]] & Ee & Hc). do 5 (split; [assumption|]). split; [|split; auto].
  - exists x. split; auto. apply way_route; auto.
  - clear - Hc. induction ps as [|p qs IH]; [constructor|]. apply contained_loosely; [apply Hc; left; reflexivity|]. apply IH. intros q Hq. apply Hc. right. exact Hq.
Qed.

(** Checking the hypotheses for a concrete diagram. *)
Definition activity_b (d : diagram) (n : string) : bool := node_b d n && (typed_b d n "task" || typed_b d n "subProcess").
Lemma activity_ok : forall d n, activity_b d n = true -> activity_node d n.
Proof.
  intros d n H. apply andb_true_iff in H. destruct H as [H1 H2]. split; [apply node_ok; auto|].
  apply orb_true_iff in H2. destruct H2 as [H2|H2]; apply typed_ok in H2; auto.
Qed.
Definition only_b (d : diagram) (n : string) : option string :=
  match outgoing_of d n with [f] => if node_b d (target_b d f) && goes_b d f n (target_b d f) then Some (target_b d f) else None | _ => None end.
Lemma only_ok : forall d n z, only_b d n = Some z -> only_to d n z.
Proof.
  intros d n z H. unfold only_b in H. destruct (outgoing_of d n) as [|f [|]] eqn:E; try discriminate. destruct (node_b _ _ && _) eqn:B; [|discriminate].
  injection H as <-. apply andb_true_iff in B. destruct B. split; [apply node_ok; auto|]. exists f. split; auto. apply goes_ok; auto.
Qed.
Fixpoint route_b (d : diagram) (x : string) (ps : list part) (y : string) : bool :=
  match ps with
  | [] => String.eqb x y
  | Act n :: qs => String.eqb x n && match only_b d n with Some z => route_b d z qs y | None => false end
  | Block g j _ :: qs => String.eqb x g &&
      (if gateway_b d j then match only_b d j with Some z => route_b d z qs y | None => false end else activity_b d j && route_b d j qs y)
  end.
Lemma route_ok : forall d ps x y, route_b d x ps y = true -> route d x ps y.
Proof.
  intros d. induction ps as [|[n|g j bs] qs IH]; intros x y H; cbn [route_b route] in *; [apply String.eqb_eq; exact H| |].
  - apply andb_true_iff in H. destruct H as [E H]. apply String.eqb_eq in E. split; auto. destruct (only_b d n) as [z|] eqn:O; [|discriminate].
    exists z. split; [apply only_ok; auto|apply IH; auto].
  - apply andb_true_iff in H. destruct H as [E H]. apply String.eqb_eq in E. split; auto. destruct (gateway_b d j) eqn:G.
    + destruct (only_b d j) as [z|] eqn:O; [|discriminate]. exists z. split; [left; split; [apply gateway_ok; auto|apply only_ok; auto]|apply IH; auto].
    + apply andb_true_iff in H. destruct H as [A H]. exists j. split; [right; split; [apply activity_ok; auto|reflexivity]|apply IH; auto].
Qed.
Definition opens_route_b (d : diagram) (g j f : string) (b : branch_t) : bool :=
  node_b d (target_b d f) && goes_b d f g (target_b d f) && route_b d (target_b d f) (fst b) (arrives j b) &&
  match snd b with None => calm_b (fst b) | Some e => end_b d e && negb (join_b d e) end.
Lemma opens_route_ok : forall d g j f b, opens_route_b d g j f b = true -> opens_route d g j f b.
Proof.
  intros d g j f b H. unfold opens_route_b in H. rewrite !andb_true_iff in H. destruct H as [[[H1 H2] H3] H4]. split; [|split].
  - exists (target_b d f). split; [apply node_ok; auto|]. split; [apply goes_ok; auto|apply route_ok; auto].
  - intros E. rewrite E in H4. apply calm_ok; auto.
  - intros e E. rewrite E in H4. apply andb_true_iff in H4. destruct H4. split; [apply end_ok|apply join_no]; auto.
Qed.
Definition forks_b (d : diagram) (g j : string) (bs : list branch_t) : bool :=
  gateway_b d g && negb (join_b d g) && Nat.leb 2 (length (outgoing_of d g)) && Nat.leb (length bs) 26 && join_b d j &&
  all2 (opens_route_b d g j) (outgoing_of d g) bs && existsb (fun b => match b with (_ :: _, None) => true | _ => false end) bs.
Lemma forks_ok : forall d g j bs, forks_b d g j bs = true -> forks d g j bs.
Proof.
  intros d g j bs H. unfold forks_b in H. rewrite !andb_true_iff in H. destruct H as [[[[[[H1 H2] H3] H4] H5] H6] H7].
  split; [apply gateway_ok; auto|]. split; [apply join_no; auto|]. split; [apply Nat.leb_le; auto|]. split; [apply Nat.leb_le; auto|]. split; [apply join_ok; auto|].
  split; [eapply all2_ok; [|exact H6]; intros; apply opens_route_ok; auto|].
  apply existsb_exists in H7. destruct H7 as [[[|p ps] [e|]] [A B]]; try discriminate. exists (p :: ps, None). split; auto. split; auto. discriminate.
Qed.
Fixpoint loosely_b (depth : nat) (d : diagram) (ps : list part) : bool :=
  match depth with
  | O => false
  | S k =>
      match ps with
      | [] => true
      | Act n :: qs => activity_b d n && negb (join_b d n) && loosely_b k d qs
      | Block g j bs :: qs => forks_b d g j bs && forallb (fun b => loosely_b k d (fst b)) bs &&
          (if gateway_b d j then loosely_b k d qs
           else activity_b d j && match qs with Act n :: rs => String.eqb n j && loosely_b k d rs | _ => false end)
      end
  end.
Lemma loosely_ok : forall k d ps, loosely_b k d ps = true -> loosely d ps.
Proof.
  induction k as [|k IH]; intros d ps H; [discriminate|]. destruct ps as [|[n|g j bs] qs]; cbn [loosely_b] in H; [constructor| |]; rewrite !andb_true_iff in H.
  - destruct H as [[H1 H2] H3]. constructor; [apply activity_ok|apply join_no|]; auto.
  - destruct H as [[H1 H2] H3]. assert (B : forall b, In b bs -> loosely d (fst b)) by (intros b Hb; rewrite forallb_forall in H2; auto).
    destruct (gateway_b d j) eqn:G; [apply lo_block; auto; [apply forks_ok; auto|apply gateway_ok; auto]|].
    apply andb_true_iff in H3. destruct H3 as [A H3]. destruct qs as [|[n|] rs]; try discriminate. apply andb_true_iff in H3. destruct H3 as [E H3].
    apply String.eqb_eq in E. subst n. apply lo_meet; auto; [apply forks_ok; auto|apply activity_ok; auto].
Qed.
Definition loose_b (d : diagram) (s : string) (ps : list part) (e : string) : bool :=
  well_named_b d && labelled_b d && all2 String.eqb (map fst (filter no_incoming (gnodes (dgraph d)))) [s] &&
  typed_b d s "startEvent" && match only_b d s with Some x => route_b d x ps e | None => false end && end_b d e && loosely_b (S (S (size ps))) d ps.
Lemma loose_ok : forall d s ps e, coherent d -> loose_b d s ps e = true -> loose_process d s ps e.
Proof.
  intros d s ps e Co H. unfold loose_b in H. rewrite !andb_true_iff in H. destruct H as [[[[[[H1 H2] H3] H4] H5] H6] H7].
  pose proof (proj1 Co) as L.
  split; auto. split; [apply well_named_ok; auto|]. split; [apply labelled_ok; auto|]. split; [|split; [apply typed_ok; auto|split; [|split]]].
  - intros n. rewrite (entry_iff d n L). apply (all2_ok _ _ _ eq) in H3; [|intros a b E; apply String.eqb_eq; auto].
    assert (E : map fst (filter no_incoming (gnodes (dgraph d))) = [s]).
    { inversion H3 as [|x y l m A B]; subst. inversion B. reflexivity. }
    rewrite E. cbn [In]. intuition.
  - destruct (only_b d s) as [x|] eqn:O; [|discriminate]. exists x. split; [apply only_ok; auto|apply route_ok; auto].
  - apply end_ok; auto.
  - eapply loosely_ok; eauto.
Qed.

(** A decision whose branches meet at the activity "m"; one of them has parallel branches that meet at the activity "k", one has no node. *)
Definition meet_ops : list op :=
  [ONew "m" "0"; OStart "id2" "begin" None false true (Some "s") "" "";
   OExclusive "id2" "g" "Diverging" None (Some "g") ""; OTask "id2" "pack" (Some "b") "";
   OTask "id2" "call" (Some "h") ""; OParallel "id2" "g2" "Diverging" (Some "g2") ""; OTask "id2" "left" (Some "l") "";
   OTask "id2" "right" (Some "r") ""; OTask "id2" "sum up" (Some "k") ""; OTask "id2" "close" (Some "m") ""; OEnd "id2" "done" None (Some "e") "" "";
   OFlow "id2" "s" "g" "" "10"; OFlow "id2" "g" "b" "small" "11"; OFlow "id2" "g" "h" "large" "12"; OFlow "id2" "g" "m" "none" "13";
   OFlow "id2" "b" "m" "" "14"; OFlow "id2" "h" "g2" "" "15"; OFlow "id2" "g2" "l" "" "16"; OFlow "id2" "g2" "r" "" "17"; OFlow "id2" "l" "k" "" "18";
   OFlow "id2" "r" "k" "" "19"; OFlow "id2" "k" "m" "" "20"; OFlow "id2" "m" "e" "" "21"].
Definition meet_demo : diagram := run empty_diagram meet_ops.
Definition meet_parts : list part :=
  [Block "g" "m" [([Act "b"], None); ([Act "h"; Block "g2" "k" [([Act "l"], None); ([Act "r"], None)]; Act "k"], None); ([], None)]; Act "m"].
Example C113_lines_example : history meet_ops meet_demo /\ loose_process meet_demo "s" meet_parts "e" /\ size meet_parts + 1 < 40 /\
  process_lines meet_demo "s" meet_parts "e" =
    [["0"; "begin"; ""; ""; ""; ""]; ["1a1"; "pack"; "small"; ""; ""; ""]; ["1b1"; "call"; "large"; ""; ""; ""]; ["1b2a1"; "left"; ""; ""; ""; ""];
     ["1b2b1"; "right"; ""; ""; ""; ""]; ["1b3"; "sum up"; ""; ""; ""; ""]; ["1c1"; "goto 2"; "none"; ""; ""; ""]; ["2"; "close"; ""; ""; ""; ""]; ["3"; "done"; ""; ""; ""; "yes"]].
Proof.
  assert (H : history meet_ops meet_demo /\ coherent meet_demo) by (apply built; vm_compute; reflexivity). destruct H as [H C].
  split; auto. split; [apply loose_ok; [exact C|vm_compute; reflexivity]|]. split; [apply Nat.ltb_lt; vm_compute; reflexivity|vm_compute; reflexivity].
Qed.
Example C113_covers_example : structured nested_demo "s" nested_parts "e".
Proof. apply structured_ok; [exact nested_coherent|vm_compute; reflexivity]. Qed.
Print Assumptions C113_lines.
Print Assumptions C113_covers.

(** Every branch of the last gateway goes to an end event: a branch with activities has a line of its own for the end event even if the event is
    shared, and a branch straight to a shared end event is a jump to a number after the block. *)
Theorem C113_shared_end : forall d s ps g bs fuel, fan_process d s ps g bs ->
  size ps + list_sum (map (fun b : branch_t => S (size (fst b))) bs) + 2 < fuel ->
  export_process_to_csv fuel d None = (Some (csv_text (csv_columns :: fan_lines d s ps g bs)), Ok tt).
Proof. exact fan_export. Qed.
Definition opens_end_b (d : diagram) (g f : string) (b : branch_t) : bool :=
  node_b d (target_b d f) && goes_b d f g (target_b d f) && match snd b with Some e => end_b d e && route_b d (target_b d f) (fst b) e | None => false end.
Lemma opens_end_ok : forall d g f b, opens_end_b d g f b = true -> opens_end d g f b.
Proof.
  intros d g f b H. unfold opens_end_b in H. rewrite !andb_true_iff in H. destruct H as [[H1 H2] H3]. destruct (snd b) as [e|] eqn:E; [|discriminate].
  apply andb_true_iff in H3. destruct H3 as [H3 H4]. exists (target_b d f), e. split; [apply node_ok; auto|]. split; [apply goes_ok; auto|]. split; [exact E|].
  split; [apply end_ok; auto|apply route_ok; auto].
Qed.
Definition fan_b (d : diagram) (s : string) (ps : list part) (g : string) (bs : list branch_t) : bool :=
  well_named_b d && labelled_b d && all2 String.eqb (map fst (filter no_incoming (gnodes (dgraph d)))) [s] &&
  typed_b d s "startEvent" && match only_b d s with Some x => route_b d x ps g | None => false end && loosely_b (S (S (size ps))) d ps &&
  (gateway_b d g && negb (join_b d g) && Nat.leb 2 (length (outgoing_of d g)) && Nat.leb (length bs) 26 &&
   all2 (opens_end_b d g) (outgoing_of d g) bs && forallb (fun b : branch_t => loosely_b (S (S (size (fst b)))) d (fst b)) bs).
Lemma fan_ok : forall d s ps g bs, coherent d -> fan_b d s ps g bs = true -> fan_process d s ps g bs.
Proof.
  intros d s ps g bs Co H. unfold fan_b in H. rewrite !andb_true_iff in H. destruct H as [[[[[[H1 H2] H3] H4] H5] H6] [[[[[K1 K2] K3] K4] K5] K6]].
  pose proof (proj1 Co) as L.
  split; auto. split; [apply well_named_ok; auto|]. split; [apply labelled_ok; auto|]. split; [|split; [apply typed_ok; auto|split; [|split]]].
  - intros n. rewrite (entry_iff d n L). apply (all2_ok _ _ _ eq) in H3; [|intros a b E; apply String.eqb_eq; auto].
    assert (E : map fst (filter no_incoming (gnodes (dgraph d))) = [s]).
    { inversion H3 as [|x y l m A B]; subst. inversion B. reflexivity. }
    rewrite E. cbn [In]. intuition.
  - destruct (only_b d s) as [x|] eqn:O; [|discriminate]. exists x. split; [apply only_ok; auto|apply route_ok; auto].
  - eapply loosely_ok; eauto.
  - split; [apply gateway_ok; auto|]. split; [apply join_no; auto|]. split; [apply Nat.leb_le; auto|]. split; [apply Nat.leb_le; auto|]. split.
    + eapply all2_ok; [|exact K5]. intros. apply opens_end_ok; auto.
    + intros b Hb. rewrite forallb_forall in K6. eapply loosely_ok. apply K6. exact Hb.
Qed.
(** Two branches share the end event "e": with [direct] the second one has no activity. *)
Definition end_ops (direct : bool) : list op :=
  [ONew "m" "0"; OStart "id2" "begin" None false true (Some "s") "" ""; OTask "id2" "check" (Some "a") "";
   OExclusive "id2" "g" "Diverging" None (Some "g") ""; OTask "id2" "pack" (Some "b") "";
   OEnd "id2" "done" None (Some "e") "" ""; OFlow "id2" "s" "a" "" "9"; OFlow "id2" "a" "g" "" "10"; OFlow "id2" "g" "b" "small" "11"; OFlow "id2" "b" "e" "" "12"] ++
  (if direct then [OFlow "id2" "g" "e" "none" "13"]
   else [OTask "id2" "call" (Some "c") ""; OFlow "id2" "g" "c" "large" "13"; OFlow "id2" "c" "e" "" "14"]).
Definition end_demo (direct : bool) : diagram := run empty_diagram (end_ops direct).
Definition end_branches (direct : bool) : list branch_t :=
  [([Act "b"], Some "e"); if direct then ([], Some "e") else ([Act "c"], Some "e")].
Lemma end_demo_ok : forall direct, history (end_ops direct) (end_demo direct) /\ fan_process (end_demo direct) "s" [Act "a"] "g" (end_branches direct).
Proof.
  intros direct. assert (H : history (end_ops direct) (end_demo direct) /\ coherent (end_demo direct)) by (apply built; destruct direct; vm_compute; reflexivity).
  destruct H as [H C]. split; auto. apply fan_ok; [exact C|destruct direct; vm_compute; reflexivity].
Qed.
Example C113_shared_end_example :
  fan_process (end_demo false) "s" [Act "a"] "g" (end_branches false) /\ fan_process (end_demo true) "s" [Act "a"] "g" (end_branches true) /\
  size [Act "a"] + list_sum (map (fun b : branch_t => S (size (fst b))) (end_branches false)) + 2 < 40 /\
  fan_lines (end_demo false) "s" [Act "a"] "g" (end_branches false) =
    [["0"; "begin"; ""; ""; ""; ""]; ["1"; "check"; ""; ""; ""; ""]; ["2a1"; "pack"; "small"; ""; ""; ""]; ["2a2"; "done"; ""; ""; ""; "yes"];
     ["2b1"; "call"; "large"; ""; ""; ""]; ["2b2"; "done"; ""; ""; ""; "yes"]] /\
  fan_lines (end_demo true) "s" [Act "a"] "g" (end_branches true) =
    [["0"; "begin"; ""; ""; ""; ""]; ["1"; "check"; ""; ""; ""; ""]; ["2a1"; "pack"; "small"; ""; ""; ""]; ["2a2"; "done"; ""; ""; ""; "yes"]; ["2b1"; "goto 3"; "none"; ""; ""; ""]].
Proof.
  split; [apply end_demo_ok|]. split; [apply end_demo_ok|]. split; [apply Nat.ltb_lt; vm_compute; reflexivity|]. split; vm_compute; reflexivity.
Qed.
(** One end event becomes two. *)
Theorem C113_one_end_event_refuted : exists ops d text table d', history ops d /\ fan_process d "s" [Act "a"] "g" (end_branches false) /\
  (forall n, end_node d n -> n = "e") /\
  export_process_to_csv 40 d None = (Some text, Ok tt) /\ reads text table /\ load_diagram_from_csv table empty_diagram = (d', Ok tt) /\
  end_node d' "2a2" /\ end_node d' "2b2".
Proof.
  exists (end_ops false), (end_demo false), (csv_text (csv_columns :: fan_lines (end_demo false) "s" [Act "a"] "g" (end_branches false))),
    (table_of (fan_lines (end_demo false) "s" [Act "a"] "g" (end_branches false))),
    (fst (load_diagram_from_csv (table_of (fan_lines (end_demo false) "s" [Act "a"] "g" (end_branches false))) empty_diagram)).
  split; [apply end_demo_ok|]. split; [apply end_demo_ok|]. split.
  { intros n [_ T]. unfold typed, attr, node_of in T. destruct (dget n (gnodes (dgraph (end_demo false)))) as [a|] eqn:E; [|discriminate]. apply dget_In in E.
    assert (X : forallb (fun p => negb (match dget "type" (snd p) with Some v => veqs v "endEvent" | None => false end) || String.eqb (fst p) "e")
      (gnodes (dgraph (end_demo false))) = true) by (vm_compute; reflexivity).
    rewrite forallb_forall in X. specialize (X _ E). cbn [fst snd] in X. rewrite T in X. apply String.eqb_eq. exact X. }
  split; [vm_compute; reflexivity|]. split; [apply table_reads; vm_compute; reflexivity|]. split; [vm_compute; reflexivity|].
  split; (split; [apply node_ok; vm_compute; reflexivity|vm_compute; reflexivity]).
Qed.
(** The file of a process in which a branch goes straight to a shared end event cannot be loaded. *)
Theorem C113_readable_again_refuted : exists ops d text table, history ops d /\ fan_process d "s" [Act "a"] "g" (end_branches true) /\
  export_process_to_csv 40 d None = (Some text, Ok tt) /\ reads text table /\
  snd (load_diagram_from_csv table empty_diagram) = Err (BpmnPythonError "Something wrong in csv file syntax - look for 2b1").
Proof.
  exists (end_ops true), (end_demo true), (csv_text (csv_columns :: fan_lines (end_demo true) "s" [Act "a"] "g" (end_branches true))),
    (table_of (fan_lines (end_demo true) "s" [Act "a"] "g" (end_branches true))).
  split; [apply end_demo_ok|]. split; [apply end_demo_ok|]. split; [vm_compute; reflexivity|]. split; [apply table_reads; vm_compute; reflexivity|].
  vm_compute. reflexivity.
Qed.
(** The file does not tell whether the branches meet at a gateway: the same process with and without the gateway "j". *)
Definition gate_ops (gate : bool) : list op :=
  [ONew "m" "0"; OStart "id2" "begin" None false true (Some "s") "" "";
   OParallel "id2" "g" "Diverging" (Some "g") ""; OTask "id2" "pack" (Some "b") ""; OTask "id2" "call" (Some "c") ""; OTask "id2" "close" (Some "m") "";
   OEnd "id2" "done" None (Some "e") "" ""; OFlow "id2" "s" "g" "" "10"; OFlow "id2" "g" "b" "" "11"; OFlow "id2" "g" "c" "" "12"; OFlow "id2" "m" "e" "" "13"] ++
  (if gate then [OParallel "id2" "j" "Converging" (Some "j") ""; OFlow "id2" "b" "j" "" "14"; OFlow "id2" "c" "j" "" "15"; OFlow "id2" "j" "m" "" "16"]
   else [OFlow "id2" "b" "m" "" "14"; OFlow "id2" "c" "m" "" "15"]).
Lemma node_no : forall d n, node_b d n = false -> ~ is_node d n.
Proof. intros d n H C. apply smem_In in C. unfold node_b, node_keys in H. rewrite C in H. discriminate. Qed.
Definition gate_demo (gate : bool) : diagram := run empty_diagram (gate_ops gate).
Definition gate_parts (gate : bool) : list part := [Block "g" (if gate then "j" else "m") [([Act "b"], None); ([Act "c"], None)]; Act "m"].
Theorem C113_gateway_told_refuted : exists ops1 ops2 d1 d2 ps1 ps2 text, history ops1 d1 /\ history ops2 d2 /\
  loose_process d1 "s" ps1 "e" /\ loose_process d2 "s" ps2 "e" /\
  export_process_to_csv 40 d1 None = (Some text, Ok tt) /\ export_process_to_csv 40 d2 None = (Some text, Ok tt) /\
  gateway_node d1 "j" /\ ~ is_node d2 "j" /\ join_node d2 "m" /\ ~ join_node d1 "m".
Proof.
  assert (H : forall gate, history (gate_ops gate) (gate_demo gate) /\ coherent (gate_demo gate)) by (intros [|]; apply built; vm_compute; reflexivity).
  assert (P : forall gate, loose_process (gate_demo gate) "s" (gate_parts gate) "e") by (intros gate; apply loose_ok; [apply H|destruct gate; vm_compute; reflexivity]).
  exists (gate_ops true), (gate_ops false), (gate_demo true), (gate_demo false), (gate_parts true), (gate_parts false),
    (csv_text (csv_columns :: process_lines (gate_demo true) "s" (gate_parts true) "e")).
  split; [apply H|]. split; [apply H|]. split; [apply P|]. split; [apply P|]. split; [vm_compute; reflexivity|]. split; [vm_compute; reflexivity|].
  split; [apply gateway_ok; vm_compute; reflexivity|]. split; [|split; [apply join_ok; vm_compute; reflexivity|apply join_no; vm_compute; reflexivity]].
  apply node_no. vm_compute. reflexivity.
Qed.
Print Assumptions C113_shared_end.
Print Assumptions C113_one_end_event_refuted.
Print Assumptions C113_readable_again_refuted.
Print Assumptions C113_gateway_told_refuted.
