(** The CSV file depends on the sheet only: places, saving and loading do not change it (C101). *)
From Coq Require Import String List Bool Arith Lia ZArith Permutation.
From Verif Require Import Py PyFacts Consts Nx NxFacts Rep SpecRep RepFacts CsvExport SpecCsvExport Xml Export Import
  SpecXml SpecRound RoundNodes RoundLoad RoundBack Prop_XmlRound ApiSave Prop_XmlApi Layouter SpecLayout LayoutFacts LayoutSave Prop_Layout Prop_LayoutMetrics
  SpecSame SpecPicture SameFacts SameRound Prop_SamePicture OrderRound Prop_Order Prop_CsvExport SpecSheet SheetFacts.
Import ListNotations.
Open Scope string_scope.
Open Scope list_scope.

(** ** C101 *)
(** Diagrams with the same sheet give the same file, or fail in the same way. *)
Theorem C101_same_file : forall d d', orderly d -> orderly d' -> same_sheet d d' -> forall fuel o,
  export_process_to_csv fuel d' o = export_process_to_csv fuel d o.
Proof. intros d d' O O' S. apply same_file; assumption. Qed.

(** *** Layout *)
Section Laid.
Variables (d d' : diagram).
Hypothesis K : LayoutFacts.kept d d'.
Let KA : forall n k, k <> "x" -> k <> "y" -> attr d' n k = attr d n k := proj1 (proj2 K).
Lemma moved_node : forall n, is_node d' n <-> is_node d n.
Proof. intros n. unfold is_node. rewrite (proj1 K). tauto. Qed.
Lemma moved_edge : forall e, In e (gedges (dgraph d)) -> exists e', In e' (gedges (dgraph d')) /\ ends_rel (same_but ["waypoints"]) e e'.
Proof. intros e I. destruct (Forall2_in_l _ _ _ _ _ _ (proj1 (proj2 (proj2 K))) I) as (e' & I' & Q). eauto. Qed.
Lemma moved_back : forall e', In e' (gedges (dgraph d')) -> exists e, In e (gedges (dgraph d)) /\ ends_rel (same_but ["waypoints"]) e e'.
Proof. intros e' I. destruct (Forall2_in_r _ _ _ _ _ _ (proj1 (proj2 (proj2 K))) I) as (e & I' & Q). eauto. Qed.
Lemma moved_attr : forall e e' k, ends_rel (same_but ["waypoints"]) e e' -> k <> "waypoints" -> dget k (eat e') = dget k (eat e).
Proof. intros e e' k (_ & _ & Q) N. apply Q. intros [E|[]]. congruence. Qed.
Lemma moved_orderly : orderly d -> orderly d'.
Proof using K KA.
  intros [W [U L] I D]. constructor.
  - apply (gwf_same_ends (dgraph d)); [exact W|exact (proj1 K)|].
    pose proof (proj1 (proj2 (proj2 K))) as F. clear - F. induction F as [|e e' l l' Q F IH]; [reflexivity|].
    destruct Q as (Q1 & Q2 & _). cbn [map]. rewrite IH, Q1, Q2. reflexivity.
  - split; [unfold unique_ids in *; rewrite (proj1 K); exact U|]. intros n N. rewrite !KA by discriminate. apply L. apply moved_node. exact N.
  - intros e' J. destruct (moved_back e' J) as (e & Ie & Q). rewrite (moved_attr e e' "id" Q) by discriminate. apply I. exact Ie.
  - intros e1 e2 f J1 J2 D1 D2. destruct (moved_back e1 J1) as (a & Ia & Qa). destruct (moved_back e2 J2) as (b & Ib & Qb).
    rewrite (moved_attr a e1 "id" Qa) in D1 by discriminate. rewrite (moved_attr b e2 "id" Qb) in D2 by discriminate.
    pose proof (D a b f Ia Ib D1 D2). subst b. apply (gwf_unique (dgraph d')); auto.
    + apply (gwf_same_ends (dgraph d)); [exact W|exact (proj1 K)|].
      pose proof (proj1 (proj2 (proj2 K))) as F. clear - F. induction F as [|e e' l l' Q F IH]; [reflexivity|].
      destruct Q as (Q1 & Q2 & _). cbn [map]. rewrite IH, Q1, Q2. reflexivity.
    + apply connects_same. destruct Qa as (A1 & A2 & _). destruct Qb as (B1 & B2 & _). rewrite A1, A2, B1, B2. apply same_pair_refl.
Qed.
Lemma moved_sheet : with_events d -> same_sheet d d'.
Proof using K KA.
  intros E. constructor.
  - exact moved_node.
  - intros n k Hk. apply KA; intros ->; simpl in Hk; intuition discriminate.
  - intros n t f _ _. rewrite KA by discriminate. tauto.
  - intros n t T It. destruct (E n t T It) as [l D]. exists l, l. split; [exact D|]. split; [|reflexivity].
    unfold defined_by in *. rewrite KA by discriminate. exact D.
  - intros f t x. split; intros (e & I & A & B & C).
    + destruct (moved_back e I) as (e0 & I0 & Q). exists e0. rewrite !(moved_attr e0 e _ Q) in * by discriminate. auto.
    + destruct (moved_edge e I) as (e0 & I0 & Q). exists e0. rewrite !(moved_attr e e0 _ Q) by discriminate. auto.
Qed.
End Laid.

(** A layout, finished or failed, does not change the file. *)
Theorem C101_layout : forall d, orderly d -> with_events d -> forall fuel fuel' o,
  export_process_to_csv fuel' (fst (generate_layout fuel d)) o = export_process_to_csv fuel' d o.
Proof.
  intros d O E fuel fuel' o. pose proof (kept_layout fuel d) as K. apply C101_same_file; [exact O|eapply moved_orderly; eauto|apply moved_sheet; auto].
Qed.

(** *** Saving and loading *)
(** Types of nodes whose default flow is written to the file or not read. *)
Definition sheet_types (d : diagram) : Prop := forall n t, attr d n "type" = Some (VStr t) ->
  has_default t = true \/ In t ("parallelGateway" :: event_types).
Lemma defined_list : forall d n l, defined_by d n l -> definitions_of d n = l.
Proof.
  intros d n l [D|[-> D]]; unfold definitions_of; [rewrite D; reflexivity|].
  destruct D as [<- |[<- |[<- |[]]]]; reflexivity.
Qed.
Section Saved.
Variables (so : list string -> list string) (fuel : nat) (d d' : diagram).
Hypothesis Po : any_order so.
Hypothesis SB : storable d.
Hypothesis CP : complete d.
Hypothesis NM : no_messages d.
Hypothesis AP : forall n, is_node d n -> in_process d n.
Hypothesis LI : listed d.
Hypothesis R : round_trip so fuel d d'.
Let PF := flows_placed d CP NM.
Lemma saved_before : orderly d.
Proof using SB PF R LI.
  destruct (ids_there so fuel d d' SB PF R) as [I D]. constructor; auto. apply (sb_graph _ SB).
Qed.
Lemma saved_after : orderly d'.
Proof using All.
  destruct (ids_back so fuel d d' SB CP PF R) as [I D]. pose proof (round_gwf so fuel d d' SB R) as W. constructor; auto.
  split; [apply W|]. intros n N. pose proof (proj1 (C34_same_nodes so fuel d d' SB CP R n) N) as Nd.
  rewrite (round_types so fuel d d' Po SB CP R), !(round_lists so fuel d d' SB CP AP R) by auto. apply LI. exact Nd.
Qed.
Lemma saved_attr : forall n k, In k ["type"; "node_name"; "incoming"; "outgoing"] -> attr d' n k = attr d n k.
Proof using All.
  intros n k H. simpl in H. destruct H as [<- |[<- |[<- |[<- |[]]]]].
  - apply (round_types so fuel d d' Po SB CP R).
  - destruct (in_dec string_dec n (map fst (gnodes (dgraph d)))) as [I|I].
    + apply (C34_nodes so fuel d d' n Po SB R (AP n I)).
    + destruct (attr d n "node_name") as [v|] eqn:A; [exfalso; apply I; eapply is_node_attr; eauto|].
      destruct (attr d' n "node_name") as [v|] eqn:A'; auto. exfalso. apply I. apply (C34_same_nodes so fuel d d' SB CP R n). eapply is_node_attr; eauto.
  - apply (round_lists so fuel d d' SB CP AP R). auto.
  - apply (round_lists so fuel d d' SB CP AP R). auto.
Qed.
Lemma saved_named : named_by_condition d -> forall e e', In e (gedges (dgraph d)) -> In e' (gedges (dgraph d')) -> same_flow e e' ->
  dget "name" (eat e') = dget "name" (eat e).
Proof using All.
  intros NC e e' I I' F. destruct (PF e I) as (p & P & Pl). destruct (sb_flows _ SB e p I P) as (f & u & v & FE & S & _).
  destruct (C35_flows so fuel d d' e f u v p SB R I FE Pl) as (_ & _ & _ & _ & _ & name & Wr & _ & (e1 & I1 & S1 & D1)).
  assert (e1 = e').
  { apply (gwf_unique (dgraph d')); auto; [apply (round_gwf so fuel d d' SB R)|]. apply connects_same.
    eapply same_pair_tr; [exact S1|]. eapply same_pair_tr; [apply same_pair_swap; exact S|exact (proj1 F)]. }
  subst e1. rewrite D1. symmetry. unfold written_as in Wr.
  destruct (dget "conditionExpression" (eat e)) as [c|] eqn:C; [|exact Wr].
  destruct c; try exact Wr. subst name. eapply NC; eauto.
Qed.
Lemma saved_sheet : sheet_types d -> plain_events d -> named_by_condition d -> same_sheet d d'.
Proof using All.
  intros ST PE NC. constructor.
  - apply (C34_same_nodes so fuel d d' SB CP R).
  - exact saved_attr.
  - intros n t f T Nt. destruct (ST n t T) as [Hd|Hd]; [|contradiction]. pose proof (is_node_attr _ _ _ _ T) as N.
    destruct (C34_nodes so fuel d d' n Po SB R (AP n N)) as (_ & _ & _ & _ & _ & Q). destruct (Q t T) as (_ & Df & _). rewrite (Df Hd).
    unfold default_of. destruct (attr d n "default") as [v|]; [destruct v|]; split; intros X; inv X; auto.
  - intros n t T It. destruct (PE n t T It) as (l & D & Le). pose proof (is_node_attr _ _ _ _ T) as N.
    destruct (C34_nodes so fuel d d' n Po SB R (AP n N)) as (_ & _ & _ & _ & _ & Q). destruct (Q t T) as (_ & _ & Ev).
    destruct Ev as (l' & A' & P'); [destruct It as [<- |[<- |[]]]; reflexivity|]. rewrite (defined_list d n l D) in P'.
    exists l, l'. split; [exact D|]. split; [left; exact A'|].
    destruct l as [|x [|y l]]; [apply Permutation_sym, Permutation_nil in P'; subst; reflexivity| |simpl in Le; lia].
    apply Permutation_sym, Permutation_length_1_inv in P'. subst. reflexivity.
  - intros f t x. split; intros (e & I & A & B & C).
    + destruct (edge_back so fuel d d' SB CP PF R e I) as (e0 & I0 & F). pose proof (saved_named NC e0 e I0 I F) as Nm.
      destruct F as (_ & g & u & v & _ & G1 & _ & G3 & G1' & _ & G3'). exists e0. rewrite <- Nm, G1, G3. rewrite G1' in A. rewrite G3' in B. auto.
    + destruct (edge_there so fuel d d' SB PF R e I) as (e0 & I0 & F). pose proof (saved_named NC e e0 I I0 F) as Nm.
      destruct F as (_ & g & u & v & _ & G1 & _ & G3 & G1' & _ & G3'). exists e0. rewrite Nm, G1', G3'. rewrite G1 in A. rewrite G3 in B. auto.
Qed.
End Saved.

(** The diagram read back from its XML file gives the same CSV file. *)
Theorem C101_saved : forall set_order fuel d d', any_order set_order -> storable d -> complete d -> no_messages d ->
  (forall n, is_node d n -> in_process d n) -> listed d -> sheet_types d -> plain_events d -> named_by_condition d ->
  round_trip set_order fuel d d' -> forall fuel' o, export_process_to_csv fuel' d' o = export_process_to_csv fuel' d o.
Proof.
  intros so fuel d d' Po SB CP NM AP LI ST PE NC R. apply C101_same_file.
  - eapply saved_before; eauto.
  - eapply saved_after; eauto.
  - eapply saved_sheet; eauto.
Qed.

(** *** Diagrams built with the API *)
Lemma api_listed : forall d, built d -> listed d.
Proof.
  intros d B. destruct (bu_inv d B) as [W N _ _ _]. split; [apply W|]. intros n I. destruct (N n I) as (_ & T & L1 & L2 & _). auto.
Qed.
Lemma api_no_messages : forall d, built d -> no_messages d.
Proof. intros d B c C. rewrite (bu_collab d B) in C. discriminate. Qed.
Lemma api_named : forall d, built d -> named_by_condition d.
Proof. intros d B e c x I C. rewrite (api_no_condition d B e I) in C. discriminate. Qed.
Lemma api_sheet_types : forall d, built d -> sheet_types d.
Proof.
  intros d B n t T. pose proof (is_node_attr _ _ _ _ T) as N. destruct (bu_nodes d B n N) as (o & ex & E & K). rewrite K in T by discriminate.
  destruct o; cbn [expected_node] in E; try discriminate; try match type of E with context [in_dec ?a ?b ?c] => destruct (in_dec a b c); [|discriminate] end;
    inv E; cbn in T; inv T; (left; reflexivity) || (right; simpl; auto).
Qed.
Lemma api_plain_events : forall d, built d -> plain_events d.
Proof.
  intros d B n t T It. pose proof (is_node_attr _ _ _ _ T) as N. destruct (bu_nodes d B n N) as (o & ex & E & K). rewrite K in T by discriminate.
  unfold defined_by. rewrite K by discriminate.
  assert (DF : forall kinds df u, length (definitions_for kinds df u) <= 1).
  { intros kinds [s|] u; unfold definitions_for; [|simpl; lia]. destruct (find _ kinds); simpl; lia. }
  destruct o; cbn [expected_node] in E; try discriminate; try match type of E with context [in_dec ?a ?b ?c] => destruct (in_dec a b c); [|discriminate] end;
    inv E; cbn in T; inv T; simpl in It; destruct It as [It|[It|[]]]; try discriminate;
    eexists; (split; [left; cbn; reflexivity|apply DF]).
Qed.
Theorem C101_api : forall set_order fuel l d d', any_order set_order -> proper_history l d ->
  round_trip set_order fuel d d' -> forall fuel' o, export_process_to_csv fuel' d' o = export_process_to_csv fuel' d o.
Proof.
  intros so fuel l d d' Po H R. pose proof (history_built l d H) as B.
  apply (C101_saved so fuel d d'); auto using api_storable, api_complete, api_no_messages, api_in_process, api_listed, api_sheet_types, api_plain_events, api_named.
Qed.
(** Built, laid out, saved and loaded: the CSV file is that of the diagram as it was built. *)
Theorem C101_laid_out_and_saved : forall set_order fuel l d n d1 d', any_order set_order -> proper_history l d -> distinct_pairs d ->
  generate_layout n d = (d1, Ok tt) -> round_trip set_order fuel d1 d' ->
  forall fuel' o, export_process_to_csv fuel' d' o = export_process_to_csv fuel' d o.
Proof.
  intros so fuel l d n d1 d' Po H DP L R fuel' o. pose proof (history_built l d H) as B.
  destruct (api_ready l d (proper_is_history _ _ H) DP) as (Co & _ & W & _).
  pose proof (kept_layout n d) as K. rewrite L in K. cbn [fst] in K.
  assert (KA : forall m k, k <> "x" -> k <> "y" -> attr d1 m k = attr d m k) by (apply K).
  assert (KN : forall m, is_node d1 m <-> is_node d m) by (apply moved_node; exact K).
  assert (O : orderly d).
  { constructor; [apply (inv_g d (bu_inv d B))|apply api_listed; exact B| |apply (sb_edge_ids _ (api_storable d B))].
    intros e I. destruct (proj1 (inv_e d (bu_inv d B)) e I) as (f & r & p & w & _ & _ & F & _). eauto. }
  assert (O1 : orderly d1) by (eapply moved_orderly; eauto).
  assert (Ev : with_events d).
  { intros m t T It. destruct (api_plain_events d B m t T It) as (x & D & _). eauto. }
  rewrite (C101_saved so fuel d1 d' Po); auto.
  - replace d1 with (fst (generate_layout n d)) by (rewrite L; reflexivity). apply C101_layout; assumption.
  - apply (laid_storable n d d1 Co W L). apply api_storable. exact B.
  - apply (laid_complete n d d1 Co W L). apply api_complete. exact B.
  - intros c C. destruct K as (_ & _ & _ & _ & _ & _ & _ & Kc). rewrite Kc in C. exact (api_no_messages d B c C).
  - intros m I. apply (laid_in_process n d d1 Co W L). apply api_in_process; auto. apply KN. exact I.
  - apply (or_lists _ O1).
  - intros m t T. rewrite KA in T by discriminate. apply (api_sheet_types d B m t T).
  - intros m t T It. rewrite KA in T by discriminate. unfold defined_by. rewrite KA by discriminate. apply (api_plain_events d B m t T It).
  - intros e c x I C. destruct (moved_back d d1 K e I) as (e0 & I0 & Q).
    rewrite (moved_attr e0 e "conditionExpression" Q) in C by discriminate. rewrite (api_no_condition d B e0 I0) in C. discriminate.
Qed.

(** ** Examples *)
(** A message start, a split with a default branch, a join and an end. *)
Definition sheet_ops : list op :=
  [ONew "m" "0"; OProcess "orders" false true "None" "1" "2"; OStart "id2" "s" (Some "message") false true (Some "s") "" "7";
   OExclusive "id2" "g" "Diverging" (Some "id12") (Some "g") "";
   OTask "id2" "a" (Some "a") ""; OTask "id2" "b" (Some "b") ""; OExclusive "id2" "j" "Converging" None (Some "j") "";
   OTask "id2" "c" (Some "c") ""; OEnd "id2" "e" None (Some "e") "" "8";
   OFlow "id2" "s" "g" "" "10"; OFlow "id2" "g" "a" "small" "11"; OFlow "id2" "g" "b" "large" "12"; OFlow "id2" "a" "j" "" "13";
   OFlow "id2" "b" "j" "" "14"; OFlow "id2" "j" "c" "" "15"; OFlow "id2" "c" "e" "" "16"].
Definition sheet_demo : diagram := run empty_diagram sheet_ops.
Definition sheet_laid : diagram := fst (generate_layout 20 sheet_demo).
Definition reloaded (so : list string -> list string) (d : diagram) : diagram :=
  match export_xml_file 5 d with Ok file => fst (load_diagram_from_xml so file empty_diagram) | Err _ => empty_diagram end.
Definition reloads (so : list string -> list string) (d : diagram) : bool :=
  match export_xml_file 5 d with
  | Ok file => match snd (load_diagram_from_xml so file empty_diagram) with Ok _ => true | Err _ => false end
  | Err _ => false
  end.
Lemma reloads_ok : forall so d, reloads so d = true -> round_trip so 5 d (reloaded so d).
Proof.
  intros so d H. unfold reloads, reloaded in *. destruct (export_xml_file 5 d) as [file|] eqn:F; [|discriminate]. exists file. split; [exact F|].
  destruct (load_diagram_from_xml so file empty_diagram) as [d' [[]|]]; [reflexivity|discriminate].
Qed.
Definition csv_of (d : diagram) : option string * res unit := export_process_to_csv 9 d None.
Example C101_example : proper_history sheet_ops sheet_demo /\ distinct_pairs sheet_demo /\ snd (generate_layout 20 sheet_demo) = Ok tt /\
  round_trip (fun l => l) 5 sheet_laid (reloaded (fun l => l) sheet_laid) /\
  csv_of (reloaded (fun l => l) sheet_laid) = csv_of sheet_demo /\
  csv_of sheet_demo = (Some (csv_text [csv_columns; ["0"; "message s"; ""; ""; ""; ""]; ["1a1"; "a"; "small"; ""; ""; ""];
    ["1b1"; "b"; "else"; ""; ""; ""]; ["2"; "c"; ""; ""; ""; ""]; ["3"; "e"; ""; ""; ""; "yes"]]), Ok tt).
Proof.
  assert (H : proper_history sheet_ops sheet_demo) by (apply (pcheck_history sheet_ops [] empty_diagram ph_nil); vm_compute; reflexivity).
  assert (D : distinct_pairs sheet_demo) by (apply pairs_checked_ok; vm_compute; reflexivity).
  assert (S : snd (generate_layout 20 sheet_demo) = Ok tt) by (vm_compute; reflexivity).
  assert (R : round_trip (fun l => l) 5 sheet_laid (reloaded (fun l => l) sheet_laid)) by (apply reloads_ok; vm_compute; reflexivity).
  split; [exact H|]. split; [exact D|]. split; [exact S|]. split; [exact R|]. split; [|vm_compute; reflexivity].
  refine (C101_laid_out_and_saved (fun l => l) 5 sheet_ops sheet_demo 20 sheet_laid _ (fun l => Permutation_refl l) H D _ R 9 None).
  rewrite <- S. unfold sheet_laid. apply surjective_pairing.
Qed.

(** A file of another tool, in which a flow has a condition and a name, and the start has two definitions. *)
Definition box_of (n x y : string) : dom := DElem "BPMNShape" [("id", (n ++ "_gui")%string); ("bpmnElement", n)]
  [DElem "Bounds" [("x", x); ("y", y); ("width", "100"); ("height", "100")] []].
Definition way_of (f : string) : dom := DElem "BPMNEdge" [("id", (f ++ "_gui")%string); ("bpmnElement", f)]
  [DElem "waypoint" [("x", "1"); ("y", "2")] []; DElem "waypoint" [("x", "5"); ("y", "6")] []].
Definition line_of (f u v name : string) (ks : list dom) : dom := DElem "sequenceFlow" [("id", f); ("sourceRef", u); ("targetRef", v); ("name", name)] ks.
Definition ref_of (k f : string) : dom := DElem k [] [DText f].
Definition other_tool : dom := DElem "definitions" []
  [DElem "process" [("id", "p"); ("isClosed", "false"); ("isExecutable", "false"); ("processType", "None")]
     [DElem "startEvent" [("id", "s"); ("name", "s"); ("parallelMultiple", "false"); ("isInterrupting", "true")]
        [DElem "messageEventDefinition" [("id", "m")] []; DElem "timerEventDefinition" [("id", "t")] []; ref_of "outgoing" "f1"];
      DElem "exclusiveGateway" [("id", "g"); ("name", "g"); ("gatewayDirection", "Diverging")]
        [ref_of "incoming" "f1"; ref_of "outgoing" "f2"; ref_of "outgoing" "f3"];
      DElem "endEvent" [("id", "a"); ("name", "a")] [ref_of "incoming" "f2"];
      DElem "endEvent" [("id", "b"); ("name", "b")] [ref_of "incoming" "f3"];
      line_of "f1" "s" "g" "" []; line_of "f2" "g" "a" "large" [DElem "conditionExpression" [("id", "c")] [DText "x > 1"]];
      line_of "f3" "g" "b" "small" []];
   DElem "BPMNDiagram" [("id", "dia"); ("name", "dia")] [DElem "BPMNPlane" [("id", "plane"); ("bpmnElement", "p")]
     [box_of "s" "10" "10"; box_of "g" "200" "10"; box_of "a" "400" "10"; box_of "b" "400" "200"; way_of "f1"; way_of "f2"; way_of "f3"]]].
Definition opened : diagram := fst (load_diagram_from_xml (fun l => l) other_tool empty_diagram).
(** Saving replaces the name of a flow by its condition, so the file changes. *)
Theorem C101_condition_refuted : exists file d d' text text', load_diagram_from_xml (fun l => l) file empty_diagram = (d, Ok tt) /\
  round_trip (fun l => l) 5 d d' /\ export_process_to_csv 9 d None = (Some text, Ok tt) /\ export_process_to_csv 9 d' None = (Some text', Ok tt) /\
  text' <> text.
Proof.
  exists other_tool, opened, (reloaded (fun l => l) opened),
    (csv_text [csv_columns; ["0"; "message s"; ""; ""; ""; ""]; ["1a1"; "a"; "large"; ""; ""; "yes"]; ["1b1"; "b"; "small"; ""; ""; "yes"]]),
    (csv_text [csv_columns; ["0"; "message s"; ""; ""; ""; ""]; ["1a1"; "a"; "x > 1"; ""; ""; "yes"]; ["1b1"; "b"; "small"; ""; ""; "yes"]]).
  split; [vm_compute; reflexivity|]. split; [apply reloads_ok; vm_compute; reflexivity|]. split; [vm_compute; reflexivity|].
  split; [vm_compute; reflexivity|vm_compute; discriminate].
Qed.
(** With two definitions of an event the order in which Python iterates over a set decides about the text, even without saving. *)
Theorem C101_two_definitions_refuted : exists file so d d' text text', any_order so /\
  load_diagram_from_xml (fun l => l) file empty_diagram = (d, Ok tt) /\ load_diagram_from_xml so file empty_diagram = (d', Ok tt) /\
  export_process_to_csv 9 d None = (Some text, Ok tt) /\ export_process_to_csv 9 d' None = (Some text', Ok tt) /\ text' <> text.
Proof.
  exists other_tool, (fun l => rev l), opened, (fst (load_diagram_from_xml (fun l => rev l) other_tool empty_diagram)),
    (csv_text [csv_columns; ["0"; "message s"; ""; ""; ""; ""]; ["1a1"; "a"; "large"; ""; ""; "yes"]; ["1b1"; "b"; "small"; ""; ""; "yes"]]),
    (csv_text [csv_columns; ["0"; "timer s"; ""; ""; ""; ""]; ["1a1"; "a"; "large"; ""; ""; "yes"]; ["1b1"; "b"; "small"; ""; ""; "yes"]]).
  split; [intros l; apply Permutation_sym, Permutation_rev|]. split; [vm_compute; reflexivity|]. split; [vm_compute; reflexivity|].
  split; [vm_compute; reflexivity|]. split; [vm_compute; reflexivity|vm_compute; discriminate].
Qed.

Print Assumptions C101_same_file.
Print Assumptions C101_layout.
Print Assumptions C101_saved.
Print Assumptions C101_api.
Print Assumptions C101_laid_out_and_saved.
Print Assumptions C101_condition_refuted.
Print Assumptions C101_two_definitions_refuted.
