(** The order of the nodes of a file, and the picture of a diagram that was saved and loaded (C93). *)
From Coq Require Import String List Bool Arith Lia ZArith Permutation.
From Verif Require Import Py PyFacts Consts Nx NxFacts Rep SpecRep RepFacts CsvRegex CsvImport CsvFacts Xml Export Import XmlOps
  ImportFacts SpecXml XmlScopes ActionFacts DiFacts LoadFacts Prop_XmlImport XmlLayout Prop_XmlLayout ExportFacts ExportTree Prop_XmlExported
  SpecRound ExportScopes RoundNodes RoundLoad RoundBack Prop_XmlRound ApiSave Prop_XmlApi Prop_Stable Layouter SpecLayout LayoutFacts LayoutSave
  SpecBlocks SpecFlat SpecPlan SpecSame SpecPicture SameFacts SameRound
  Prop_Layout Prop_LayoutMetrics Prop_SamePicture SpecOrder KeyOrder OrderRound.
Import ListNotations.
Open Scope string_scope.
Open Scope list_scope.

(** ** C93 *)
(** Nodes that were there before keep their places; the nodes of the file follow in the order
    of the document, those of a subprocess after the subprocess, and then what only the
    collaboration mentions. *)
Theorem C93_document_order : forall set_order root d d', load_diagram_from_xml set_order root d = (d', Ok tt) -> flows_inside root ->
  node_order d' = node_order d ++ filter (fun n => if in_dec string_dec n (node_order d) then false else true)
                                         (firsts (flat_map below (document_elements "process" root) ++ partners root)).
Proof. intros so root d d' H F. rewrite (load_order so root d d' H), (core_order root _ F). apply add_all_firsts. Qed.

(** Saving and loading a diagram with one process keeps the order. *)
Theorem C93_saved_order : forall set_order fuel d d' p, storable d -> complete d -> all_in d p -> round_trip set_order fuel d d' ->
  node_order d' = node_order d.
Proof. exact round_order. Qed.

Definition no_messages (d : diagram) : Prop := forall c, collaboration d = Some c -> co_messages c = [].
Lemma all_in_process : forall d p, all_in d p -> forall n, is_node d n -> in_process d n.
Proof.
  intros d p (P & N & _) n I. destruct (N n I) as (Q & t & T & K). exists t, p. split; [exact T|]. split; [exact K|]. split; [exact Q|].
  apply placed_process. rewrite P. left. reflexivity.
Qed.
Lemma flows_placed : forall d, complete d -> no_messages d -> forall e, In e (gedges (dgraph d)) ->
  exists p, dget "process" (eat e) = Some (VStr p) /\ placed d p.
Proof.
  intros d CP NM e I. destruct (cp_flows _ CP e I) as [H|(c & m & r & C & J & _)]; [exact H|]. rewrite (NM c C) in J. destruct J.
Qed.
Lemma saved_ready : forall so fuel d d', any_order so -> storable d -> complete d -> no_messages d ->
  (forall n, is_node d n -> in_process d n) -> round_trip so fuel d d' -> ready d -> ready d' /\ forall n m, goes d' n m <-> goes d n m.
Proof.
  intros so fuel d d' Po SB CP NM AP R (Co & AL & W & Dr & Sf). pose proof (flows_placed d CP NM) as PF.
  split; [split; [|split; [|split; [|split]]]|].
  - eapply round_coherent; eauto.
  - eapply round_laid_out; eauto.
  - eapply round_gwf; eauto.
  - eapply round_drawable; eauto.
  - eapply round_single; eauto.
  - intros n m. split; intros [f F]; exists f; eapply (round_flow so fuel d d'); eauto.
Qed.
(** Laying out what was loaded gives the same picture. *)
Theorem C93_saved_picture : forall set_order fuel d d' p, any_order set_order -> storable d -> complete d -> no_messages d ->
  all_in d p -> round_trip set_order fuel d d' -> ready d -> forall fuel',
  match generate_layout fuel' d with
  | (d1, Ok _) => exists d1', generate_layout fuel' d' = (d1', Ok tt) /\ drawn_alike d1 d1'
  | (_, Err e) => snd (generate_layout fuel' d') = Err e
  end.
Proof.
  intros so fuel d d' p Po SB CP NM AI R Rd fuel'. destruct (saved_ready so fuel d d' Po SB CP NM (all_in_process d p AI) R Rd) as [Rd' G].
  apply C92_same_picture; auto. split; [|exact G]. intros t.
  rewrite (nodes_of_keys d' t (gwf_nodup _ (round_gwf so fuel d d' SB R))), (nodes_of_keys d t (gwf_nodup _ (sb_graph _ SB))).
  change (map fst (gnodes (dgraph d'))) with (node_order d'). change (map fst (gnodes (dgraph d))) with (node_order d).
  rewrite (C93_saved_order so fuel d d' p SB CP AI R). apply filter_ext. intros n. rewrite (round_types so fuel d d' Po SB CP R). reflexivity.
Qed.
(** A picture that was saved is found again: laying out the loaded diagram once more puts every
    node and every flow where it was. *)
Theorem C93_picture_kept : forall set_order fuel fuel' d d1 d1' p, any_order set_order -> storable d -> complete d -> no_messages d ->
  all_in d p -> ready d -> generate_layout fuel' d = (d1, Ok tt) -> round_trip set_order fuel d1 d1' ->
  exists d2, generate_layout fuel' d1' = (d2, Ok tt) /\ drawn_alike d1 d2.
Proof.
  intros so fuel fuel' d d1 d1' p Po SB CP NM AI Rd L R. pose proof Rd as (Co & AL & W & Dr & Sf).
  pose proof (laid_storable fuel' d d1 Co W L SB) as SB1. pose proof (laid_complete fuel' d d1 Co W L CP) as CP1.
  pose proof (laid_rest fuel' d d1 Co W L) as Rs. destruct (laid_ready fuel' d d1 Rd L) as [Rd1 _].
  assert (NM1 : no_messages d1) by (intros c C; apply NM; destruct Rs as (_ & _ & _ & _ & E); congruence).
  assert (AI1 : all_in d1 p).
  { destruct AI as (A & B & C). split; [destruct Rs as (_ & E & _); congruence|]. split.
    - intros n I. apply (laid_keys fuel' d d1 Co W L) in I. rewrite !(laid_attr fuel' d d1 Co W L) by discriminate. apply B. exact I.
    - intros e q I Q. destruct (laid_edge fuel' d d1 Co W L e I) as (e0 & I0 & _ & _ & K). apply (C e0 q I0). rewrite <- K by discriminate. exact Q. }
  pose proof (C93_saved_picture so fuel d1 d1' p Po SB1 CP1 NM1 AI1 R Rd1 fuel') as P.
  rewrite (C92_again fuel' d d1 Rd L) in P. exact P.
Qed.
(** For everything the API builds in one process. *)
Theorem C93_saved_api : forall set_order fuel l d d' p, any_order set_order -> proper_history l d -> distinct_pairs d -> all_in d p ->
  round_trip set_order fuel d d' -> node_order d' = node_order d /\ forall fuel',
  match generate_layout fuel' d with
  | (d1, Ok _) => exists d1', generate_layout fuel' d' = (d1', Ok tt) /\ drawn_alike d1 d1'
  | (_, Err e) => snd (generate_layout fuel' d') = Err e
  end.
Proof.
  intros so fuel l d d' p Po H D AI R. pose proof (history_built l d H) as B. pose proof (api_storable d B) as SB. pose proof (api_complete d B) as CP.
  split; [eapply C93_saved_order; eauto|]. eapply C93_saved_picture; eauto.
  - intros c C. exfalso. destruct B. congruence.
  - apply (api_ready l d (proper_is_history _ _ H) D).
Qed.

(** ** Examples *)
Definition all_in_b (d : diagram) (p : string) : bool :=
  match map fst (procs d) with [q] => String.eqb q p | _ => false end &&
  forallb (fun na => match dget "process" (snd na), dget "type" (snd na) with
                     | Some (VStr q), Some (VStr t) => String.eqb q p && (if in_dec string_dec t node_kinds then true else false)
                     | _, _ => false
                     end) (gnodes (dgraph d)) &&
  forallb (fun e => match dget "process" (eat e) with Some (VStr q) => String.eqb q p | _ => true end) (gedges (dgraph d)).
Lemma all_in_ok : forall d p, unique_ids d -> all_in_b d p = true -> all_in d p.
Proof.
  intros d p U H. unfold all_in_b in H. rewrite !andb_true_iff in H. destruct H as [[H1 H2] H3].
  split; [destruct (map fst (procs d)) as [|q [|? ?]]; try discriminate; apply String.eqb_eq in H1; subst; reflexivity|]. split.
  - intros n I. unfold is_node in I. apply in_map_iff in I. destruct I as [[m a] [E I]]. cbn [fst] in E. subst m.
    rewrite !(nodes_attr d n a _ U I). rewrite forallb_forall in H2. specialize (H2 _ I). cbn [snd] in H2.
    destruct (dget "process" a) as [[]|]; try discriminate. destruct (dget "type" a) as [[]|]; try discriminate.
    apply andb_true_iff in H2. destruct H2 as [Q K]. apply String.eqb_eq in Q. subst. split; [reflexivity|]. eexists. split; [reflexivity|].
    destruct (in_dec _ _ _); [assumption|discriminate].
  - intros e q I Q. rewrite forallb_forall in H3. specialize (H3 e I). rewrite Q in H3. apply String.eqb_eq in H3. exact H3.
Qed.
(** A split with two branches: the nodes stay in order and are drawn at the same places. *)
Example C93_example : proper_history sdemo_ops sdemo /\ distinct_pairs sdemo /\ all_in sdemo "id2" /\
  (exists d', round_trip (fun l => l) 5 sdemo d' /\ node_order d' = ["s"; "g"; "a"; "b"; "j"; "e"]) /\
  snd (generate_layout 20 sdemo) = Ok tt.
Proof.
  split; [apply (pcheck_history sdemo_ops [] empty_diagram ph_nil); vm_compute; reflexivity|]. split; [exact sdemo_pairs|].
  split; [pose proof (api_ready _ _ sdemo_history sdemo_pairs) as (((U & _) & _) & _); apply all_in_ok; [exact U|vm_compute; reflexivity]|].
  split; [|vm_compute; reflexivity].
  destruct (export_xml_file 5 sdemo) as [file|] eqn:F; [|vm_compute in F; discriminate].
  exists (fst (load_diagram_from_xml (fun l => l) file empty_diagram)). split.
  - exists file. split; [exact F|]. vm_compute in F. injection F as <-. vm_compute. reflexivity.
  - vm_compute in F. injection F as <-. vm_compute. reflexivity.
Qed.
(** A file with a subprocess. *)
Definition order_file : dom :=
  DElem "definitions" []
    [DElem "process" [("id", "p")]
       [DElem "startEvent" [("id", "s")] []; DElem "sequenceFlow" [("id", "f"); ("sourceRef", "s"); ("targetRef", "u")] [];
        DElem "subProcess" [("id", "u")] [DElem "task" [("id", "w")] []; DElem "task" [("id", "v")] [];
                                          DElem "sequenceFlow" [("id", "h"); ("sourceRef", "v"); ("targetRef", "w")] []];
        DElem "task" [("id", "a")] []; DElem "sequenceFlow" [("id", "g"); ("sourceRef", "u"); ("targetRef", "a")] []];
     DElem "BPMNDiagram" [("id", "d")] [DElem "BPMNPlane" [("id", "pl")] []]].
Definition flows_inside_b (s : dom) : bool :=
  forallb (fun x => if String.eqb (d_local x) "sequenceFlow" then
                      smem (get_attribute "sourceRef" x) (below s) && smem (get_attribute "targetRef" x) (below s) else true) (d_kids s).
Example C93_order_example : flows_inside order_file /\
  exists d', load_diagram_from_xml (fun l => l) order_file empty_diagram = (d', Ok tt) /\ node_order d' = ["s"; "u"; "w"; "v"; "a"].
Proof.
  split; [|eexists; vm_compute; split; reflexivity].
  assert (A : forall s, scope order_file s -> s = hd (DText "") (d_kids order_file) \/ s = nth 2 (d_kids (hd (DText "") (d_kids order_file))) (DText "")).
  { intros s S. induction S as [q I N|s x S [->| ->] I N].
    - left. assert (J : In q (document_elements "process" order_file)) by (apply in_document; auto). vm_compute in J. destruct J as [<-|[]]. reflexivity.
    - right. cbn in I. repeat (destruct I as [<-|I]; [first [discriminate N|reflexivity]|]). destruct I.
    - exfalso. cbn in I. repeat (destruct I as [<-|I]; [discriminate N|]). destruct I. }
  assert (B : forall s x, flows_inside_b s = true -> In x (d_kids s) -> named "sequenceFlow" x ->
    In (get_attribute "sourceRef" x) (below s) /\ In (get_attribute "targetRef" x) (below s)).
  { intros s x H I N. unfold flows_inside_b in H. rewrite forallb_forall in H. specialize (H x I). rewrite (named_local _ _ N), eqb_refl' in H.
    apply andb_true_iff in H. destruct H as [H1 H2]. apply smem_In in H1, H2. auto. }
  intros s x (S & I & N). apply B; auto. destruct (A s S) as [-> | ->]; vm_compute; reflexivity.
Qed.

(** With two processes the order changes, and with it the picture: the two tasks change places. *)
Definition two_ops : list op :=
  [ONew "m" "0"; OProcess "p" false true "None" "1" "2"; OProcess "q" false true "None" "1" "3";
   OStart "id2" "s" None false true (Some "s") "" "";
   OExclusive "id2" "g" "Diverging" None (Some "g") "";
   OTask "id3" "a" (Some "a") ""; OTask "id2" "b" (Some "b") "";
   OExclusive "id2" "j" "Converging" None (Some "j") "";
   OEnd "id2" "e" None (Some "e") "" "";
   OFlow "id2" "s" "g" "" "10"; OFlow "id2" "g" "a" "" "11"; OFlow "id2" "g" "b" "" "12";
   OFlow "id2" "a" "j" "" "13"; OFlow "id2" "b" "j" "" "14"; OFlow "id2" "j" "e" "" "15"].
Definition two : diagram := run empty_diagram two_ops.
Definition two_back : diagram :=
  match export_xml_file 5 two with Ok file => fst (load_diagram_from_xml (fun l => l) file empty_diagram) | Err _ => empty_diagram end.
Theorem C93_two_processes_refuted : exists fuel l d d' d1 d1', proper_history l d /\ distinct_pairs d /\ round_trip (fun x => x) 5 d d' /\
  generate_layout fuel d = (d1, Ok tt) /\ generate_layout fuel d' = (d1', Ok tt) /\
  at_xy d1 "a" 500 50 /\ at_xy d1 "b" 500 450 /\ at_xy d1' "a" 500 450 /\ at_xy d1' "b" 500 50.
Proof.
  exists 20, two_ops, two, two_back, (fst (generate_layout 20 two)), (fst (generate_layout 20 two_back)).
  split; [apply (pcheck_history two_ops [] empty_diagram ph_nil); vm_compute; reflexivity|].
  split; [apply pairs_checked_ok; vm_compute; reflexivity|]. split.
  { unfold two_back. destruct (export_xml_file 5 two) as [file|] eqn:F; [|vm_compute in F; discriminate]. exists file. split; [exact F|].
    vm_compute in F. injection F as <-. vm_compute. reflexivity. }
  assert (S1 : snd (generate_layout 20 two) = Ok tt) by (vm_compute; reflexivity).
  assert (S2 : snd (generate_layout 20 two_back) = Ok tt) by (vm_compute; reflexivity).
  assert (B : at_b (generate_layout 20 two) "a" "500" "50" && at_b (generate_layout 20 two) "b" "500" "450" &&
    at_b (generate_layout 20 two_back) "a" "500" "450" && at_b (generate_layout 20 two_back) "b" "500" "50" = true)
    by (vm_compute; reflexivity).
  generalize dependent (generate_layout 20 two). generalize dependent (generate_layout 20 two_back).
  intros [d2 r2] S2 [d1 r1] S1 B. cbn [fst snd] in *. subst r1 r2. split; [reflexivity|]. split; [reflexivity|].
  assert (Q : forall d n x y, at_b (d, Ok tt) n (zstr x) (zstr y) = true -> at_xy d n x y).
  { intros d n x y E. unfold at_b in E. cbn [fst snd] in E. unfold at_xy.
    destruct (attr d n "x") as [[]|]; try discriminate. destruct (attr d n "y") as [[]|]; try discriminate.
    apply andb_true_iff in E. destruct E as [E1 E2]. apply String.eqb_eq in E1, E2. subst. auto. }
  rewrite !andb_true_iff in B. destruct B as [[[B1 B2] B3] B4]. split; [apply (Q d1 "a" 500%Z 50%Z B1)|].
  split; [apply (Q d1 "b" 500%Z 450%Z B2)|]. split; [apply (Q d2 "a" 500%Z 450%Z B3)|apply (Q d2 "b" 500%Z 50%Z B4)].
Qed.

Print Assumptions C93_document_order.
Print Assumptions C93_saved_order.
Print Assumptions C93_saved_picture.
Print Assumptions C93_picture_kept.
Print Assumptions C93_saved_api.
Print Assumptions C93_two_processes_refuted.
