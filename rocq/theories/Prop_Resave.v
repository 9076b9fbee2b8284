(** Saving what was loaded writes the same file (C102). *)
From Coq Require Import String List Bool Arith Lia ZArith Permutation.
From Verif Require Import Py PyFacts Consts Nx NxFacts Rep SpecRep RepFacts CsvRegex CsvImport SpecCsv SpecFlow SpecGoto CsvFacts CsvGhost CsvFill CsvLast CsvGraph CsvCoherent GotoFacts CsvGoto CsvJump Prop_CsvRows Xml Export Import XmlOps
  ImportFacts SpecXml XmlScopes ExportFacts ExportTree Prop_XmlExported SpecRound ExportScopes RoundBack RoundDemo Prop_XmlRound Prop_XmlLanes
  ApiSave Prop_XmlApi Layouter SpecLayout LayoutFacts LayoutSave CsvXml Prop_CsvXml Prop_CsvImport Prop_CsvLayout Prop_CsvGoto Prop_GotoLayout
  Prop_Layout Prop_Splits Prop_LayoutMetrics Prop_XmlLayout Prop_Stable Prop_SamePicture SpecOrder Prop_Order SpecResave ResaveFacts.
Import ListNotations.
Open Scope string_scope.
Open Scope list_scope.

(** ** C102 *)
(** A diagram with one process is saved and loaded.  Saving what was loaded writes the file
    that was read: the same elements in the same order with the same attributes and texts. *)
Theorem C102_same_file : forall set_order fuel d d' p, any_order set_order -> simple d p -> round_trip set_order fuel d d' ->
  exists file, export_xml_file fuel d = Ok file /\ export_xml_file fuel d' = Ok file.
Proof.
  intros so fuel d d' p Po [SB CP NM AI PD LL OP] R. destruct (round_dom so fuel d d' SB R) as (t & TP & ST & _).
  pose proof (same_tree so fuel d d' p Po SB CP NM AI R PD LL OP t TP ST) as T. destruct R as (file & F & _). exists file. split; [exact F|].
  unfold export_xml_file in *. rewrite TP in F. rewrite T. exact F.
Qed.
(** So the second and every later turn of saving and loading changes nothing at all. *)
Theorem C102_settled : forall set_order fuel d d' p, any_order set_order -> simple d p -> round_trip set_order fuel d d' ->
  forall k d2, saved_times set_order fuel k d' d2 <-> d2 = d'.
Proof.
  intros so fuel d d' p Po S R. destruct (C102_same_file so fuel d d' p Po S R) as (file & F & F'). destruct R as (f0 & F0 & L). rewrite F in F0. injection F0 as <-.
  assert (R' : round_trip so fuel d' d') by (exists file; auto).
  assert (U : forall x, round_trip so fuel d' x -> x = d').
  { intros x (f & Fx & Lx). rewrite F' in Fx. injection Fx as <-. rewrite L in Lx. injection Lx as <-. reflexivity. }
  induction k as [|k IH]; intros d2; split; intros H.
  - inversion H. reflexivity.
  - subst. constructor.
  - inversion H as [|k0 x d1 y R1 Hk]. subst. rewrite (U _ R1) in Hk. apply IH. exact Hk.
  - econstructor; [exact R'|]. apply IH. exact H.
Qed.

(** Laying out a diagram leaves it of this kind. *)
Lemma laid_simple : forall fuel d d1 p, coherent d -> generate_layout fuel d = (d1, Ok tt) -> simple d p -> simple d1 p.
Proof.
  intros fuel d d1 p Co L [SB CP NM AI PD LL OP]. pose proof (sb_graph _ SB) as W. pose proof (laid_rest fuel d d1 Co W L) as (_ & Ep & _ & _ & Ec).
  pose proof (laid_keys fuel d d1 Co W L) as K.
  constructor.
  - exact (laid_storable fuel d d1 Co W L SB).
  - exact (laid_complete fuel d d1 Co W L CP).
  - intros c C. apply NM. congruence.
  - destruct AI as (A & B & C). split; [congruence|]. split.
    + intros n I. apply K in I. rewrite !(laid_attr fuel d d1 Co W L) by discriminate. apply B. exact I.
    + intros e q I Q. destruct (laid_edge fuel d d1 Co W L e I) as (e0 & I0 & _ & _ & X). apply (C e0 q I0). rewrite <- X by discriminate. exact Q.
  - intros n. unfold definitions_of. rewrite (laid_attr fuel d d1 Co W L) by discriminate. apply PD.
  - intros q a s ls I E. rewrite Ep in I. destruct (LL q a s ls I E) as (A & B & C). split; [exact A|]. split; [|exact C].
    intros i l J. destruct (B i l J) as (B1 & B2 & B3 & B4). split; [intros N; apply B1, K; exact N|]. split; [|split].
    + intros e Ie. destruct (laid_edge fuel d d1 Co W L e Ie) as (e0 & I0 & _ & _ & X). rewrite X by discriminate. apply B2. exact I0.
    + intros c b C0. apply B3. congruence.
    + intros l' (q' & a' & s' & ls' & I' & E' & H'). apply B4. rewrite Ep in I'. exists q', a', s', ls'. auto.
  - intros c q a C I N. rewrite Ec in C. apply (OP c q a C I). apply K. exact N.
Qed.
(** Diagrams built with the API in one process. *)
Lemma few_definitions : forall o n ex, expected_node o = Some (n, ex) ->
  length (match dget "event_definitions" ex with Some (VDefs l) => l | _ => [] end) <= 1.
Proof.
  assert (X : forall k df u, length (definitions_for k df u) <= 1).
  { intros k [s|] u; cbn [definitions_for]; [|cbn; lia]. destruct (find _ k); cbn; lia. }
  intros o n ex H. destruct o; unfold expected_node in H; try discriminate; try (destruct (in_dec string_dec dir directions); [|discriminate]);
    injection H as <- <-; cbn; try lia; apply X.
Qed.
Lemma api_simple : forall l d p, proper_history l d -> all_in d p -> simple d p.
Proof.
  intros l d p H AI. pose proof (history_built l d H) as B. constructor.
  - exact (api_storable d B).
  - exact (api_complete d B).
  - intros c C. rewrite (bu_collab d B) in C. discriminate.
  - exact AI.
  - intros n. unfold definitions_of. destruct (attr d n "event_definitions") eqn:E; [|cbn; lia].
    destruct (bu_nodes d B n) as (o & ex & Eo & K); [eapply is_node_attr; eauto|]. rewrite K in E by discriminate. pose proof (few_definitions o n ex Eo) as F.
    rewrite E in F. exact F.
  - intros q a s ls I E. destruct (bu_procs d B q a I) as (n & c & e & t & ->). discriminate.
  - intros c q a C. rewrite (bu_collab d B) in C. discriminate.
Qed.
Theorem C102_api : forall set_order fuel l d d' p, any_order set_order -> proper_history l d -> all_in d p -> round_trip set_order fuel d d' ->
  exists file, export_xml_file fuel d = Ok file /\ export_xml_file fuel d' = Ok file.
Proof. intros so fuel l d d' p Po H AI R. apply (C102_same_file so fuel d d' p Po (api_simple l d p H AI) R). Qed.
Theorem C102_api_laid_out : forall set_order fuel fuel' l d d1 d1' p, any_order set_order -> proper_history l d -> distinct_pairs d -> all_in d p ->
  generate_layout fuel' d = (d1, Ok tt) -> round_trip set_order fuel d1 d1' ->
  exists file, export_xml_file fuel d1 = Ok file /\ export_xml_file fuel d1' = Ok file.
Proof.
  intros so fuel fuel' l d d1 d1' p Po H D AI L R. destruct (api_ready l d (proper_is_history _ _ H) D) as (Co & _).
  apply (C102_same_file so fuel d1 d1' p Po (laid_simple fuel' d d1 p Co L (api_simple l d p H AI)) R).
Qed.
(** Tables: loaded, laid out, saved and loaded from the file. *)
Lemma table_simple : forall table d rows L, load_diagram_from_csv table empty_diagram = (d, Ok tt) ->
  books d L -> NoDup L -> edged rows d L -> (forall s t, In (s, t) L -> ~ In (t, s) L) -> simple d "process_1".
Proof.
  intros table d rows L H Bo Nd Ed Bk. destruct (table_procs table d H) as (Pr & Co & La). constructor.
  - exact (booked_storable table d H rows L Bo Nd Ed Bk).
  - exact (table_complete table d H).
  - intros c C. congruence.
  - split; [exact Pr|]. split.
    + intros n N. destruct (table_types table d H n N) as (t & T & K & _ & P & _). split; [exact P|]. exists t. split; [exact T|].
      simpl in K. repeat destruct K as [<- |K]; try contradiction; apply smem_In; reflexivity.
    + intros e q I Q. destruct (csv_edges table d H e I) as (_ & _ & _ & _ & X & _). congruence.
  - intros n. unfold definitions_of. destruct (attr d n "event_definitions") eqn:E; [|cbn; lia].
    destruct (table_types table d H n (is_node_attr _ _ _ _ E)) as (t & _ & _ & _ & _ & _ & _ & _ & _ & [X|X]); rewrite X in E; inversion E; cbn; lia.
  - intros q a s ls I E. rewrite (La q a I) in E. discriminate.
  - intros c q a C. congruence.
Qed.
Theorem C102_table : forall set_order table fuel fuel' d d1 d2, any_order set_order -> documented table -> goto_free table ->
  load_diagram_from_csv table empty_diagram = (d, Ok tt) -> generate_layout fuel d = (d1, Ok tt) -> round_trip set_order fuel' d1 d2 ->
  exists file, export_xml_file fuel' d1 = Ok file /\ export_xml_file fuel' d2 = Ok file.
Proof.
  intros so table fuel fuel' d d1 d2 Po D G H Hl R. destruct (table_loaded _ _ _ fresh_empty D G H) as [Lf I]. pose proof (load_gwf _ _ _ H) as W.
  pose proof (table_simple table d _ Lf H (im_books _ _ _ _ I) (im_nodup _ _ _ _ I) (im_edges _ _ _ _ I) (im_back _ _ _ _ I)) as S.
  pose proof (booked_coherent _ d Lf (im_books _ _ _ _ I) (im_nodup _ _ _ _ I) (im_edges _ _ _ _ I) (im_back _ _ _ _ I) W) as Co.
  apply (C102_same_file so fuel' d1 d2 "process_1" Po (laid_simple fuel d d1 _ Co Hl S) R).
Qed.
Theorem C102_goto_table : forall set_order table fuel fuel' d d1 d2, any_order set_order -> documented table -> neat_jumps (rows_of table) -> one_way (rows_of table) ->
  load_diagram_from_csv table empty_diagram = (d, Ok tt) -> generate_layout fuel d = (d1, Ok tt) -> round_trip set_order fuel' d1 d2 ->
  exists file, export_xml_file fuel' d1 = Ok file /\ export_xml_file fuel' d2 = Ok file.
Proof.
  intros so table fuel fuel' d d1 d2 Po D NJ OW H Hl R. pose proof (load_gwf _ _ _ H) as W. destruct (table_rerouted _ _ _ fresh_empty D NJ H) as [L I].
  assert (G : good_rows (rows_of table)) by exact D. pose proof (goto_back _ _ _ _ G NJ OW I W) as Bk.
  pose proof (table_simple table d _ L H (re_books _ _ _ _ I) (re_nodup _ _ _ _ I) (re_edges _ _ _ _ I OW) Bk) as S.
  pose proof (booked_coherent _ d L (re_books _ _ _ _ I) (re_nodup _ _ _ _ I) (re_edges _ _ _ _ I OW) Bk W) as Co.
  apply (C102_same_file so fuel' d1 d2 "process_1" Po (laid_simple fuel d d1 _ Co Hl S) R).
Qed.

(** ** Examples *)
(** A pool with a lane, a message that starts it, and a condition on a flow. *)
Definition sold (definitions : list (string * string)) (part : option (string * list (string * lane))) : diagram := {|
  dgraph := {|
    gnodes :=
      [("s", flow_node "s" "startEvent" "Begin" "p" [] ["f1"] ++
             [("parallelMultiple", VStr "false"); ("isInterrupting", VStr "true"); ("event_definitions", VDefs definitions)] ++ box "1" "2");
       ("u", flow_node "u" "userTask" "Check" "p" ["f1"] ["f2"; "f3"] ++ [("default", VStr "f3")] ++ box "5" "6");
       ("e", flow_node "e" "endEvent" "" "p" ["f2"] [] ++ [("event_definitions", VDefs [("t1", "terminateEventDefinition")])] ++ box "9" "10");
       ("v", flow_node "v" "endEvent" "" "p" ["f3"] [] ++ [("event_definitions", VDefs [])] ++ box "9" "20")];
    gedges :=
      [mkEdge "s" "u" (flow_atts "f1" "p" "" "s" "u" [("1", "2"); ("5", "6")]);
       mkEdge "v" "u" (flow_atts "f3" "p" "otherwise" "u" "v" [("5", "6"); ("9", "20")]);
       mkEdge "u" "e" (flow_atts "f2" "p" "large" "u" "e" [("5", "6"); ("9", "10")] ++ [("conditionExpression", VCond "c" "x > 1")])] |};
  seq_flows := [("f1", mkFlow "" "s" "u"); ("f2", mkFlow "large" "u" "e"); ("f3", mkFlow "otherwise" "u" "v")];
  procs :=
    [("p", [("id", VStr "p"); ("name", VStr "Selling"); ("isClosed", VStr "false"); ("isExecutable", VStr "true");
            ("processType", VStr "None"); ("node_ids", VList ["s"; "u"; "e"; "v"]);
            ("laneSet", VLaneSet "" [("l1", Lane "Sales" part ["s"; "u"; "e"; "v"] (Some ("true", ("30", "40", "10", "20"))))])])];
  diag_attrs := [("id", VStr "dia"); ("name", VStr "Example")];
  plane_attrs := [("id", VStr "plane"); ("bpmnElement", VStr "C")];
  collaboration := Some (mkCollab "C" [("P", [("name", VStr "Seller"); ("processRef", VStr "p"); ("isHorizontal", VStr "true")] ++ box "0" "0")] []) |}.
Definition one_message : list (string * string) := [("m1", "messageEventDefinition")].
Definition two_triggers : list (string * string) := [("m1", "messageEventDefinition"); ("t0", "timerEventDefinition")].
Definition desk : option (string * list (string * lane)) := Some ("", [("l2", Lane "Desk" None ["v"] (Some ("true", ("15", "20", "10", "20"))))]).
Definition reload (set_order : list string -> list string) (d : diagram) : diagram :=
  match export_xml_file 5 d with Ok file => fst (load_diagram_from_xml set_order file empty_diagram) | Err _ => empty_diagram end.

Ltac sold_nodes H := let a := fresh "a" in let I := fresh "I" in let D := fresh "D" in
  destruct (node_in _ _ _ _ H) as (a & I & D); cbn [gnodes dgraph sold] in I;
  repeat (destruct I as [I|I]; [injection I as <- <-|]); [..|destruct I]; cbn in D; try discriminate D.
Ltac sold_edges I := cbn [gedges dgraph sold] in I; repeat (destruct I as [<-|I]); [..|destruct I].
Lemma sold_storable : forall ds part, incl ds two_triggers -> storable (sold ds part).
Proof.
  intros ds part Ds. constructor.
  - apply gwf_check; [cbn; repeat (constructor; [simpl; intuition discriminate|]); constructor|reflexivity|reflexivity].
  - cbn. repeat (constructor; [simpl; intuition discriminate|]). constructor.
  - intros c H. injection H as <-. split; cbn; repeat (constructor; [simpl; intuition discriminate|]); constructor.
  - intros n N. unfold is_node in N. cbn in N. unfold node_kinds. repeat (destruct N as [<-|N]; [eexists; split; [reflexivity|simpl; tauto]|]). destruct N.
  - intros n H. sold_nodes H.
  - intros n t ds' x T D I. sold_nodes D; injection D0 as <-; injection T as <-;
      [apply Ds in I; destruct I as [<-|[<-|[]]]|destruct I as [<-|[]]|destruct I]; eexists; (split; [reflexivity|]); simpl; tauto.
  - intros n k l [->| ->] H; sold_nodes H; injection D as <-; (split; [repeat (constructor; [simpl; intuition discriminate|]); constructor|simpl; intuition discriminate]).
  - intros e p I P. sold_edges I; cbn in P; try discriminate P; injection P as <-.
    + exists "f1", "s", "u". unfold flow_edge, same_pair. cbn. intuition (try discriminate).
    + exists "f3", "u", "v". unfold flow_edge, same_pair. cbn. intuition (try discriminate).
    + exists "f2", "u", "e". unfold flow_edge, same_pair. cbn. intuition (try discriminate).
  - intros e e' f I I' E E'. sold_edges I; sold_edges I'; cbn in E, E'; congruence.
  - intros c m r H I. injection H as <-. destruct I.
  - intros c p a t H I R T. injection H as <-. cbn in I. destruct I as [I|[]]; injection I as <- <-; discriminate R.
Qed.
Lemma sold_process : forall ds part, all_in (sold ds part) "p".
Proof.
  intros ds part. split; [reflexivity|]. split.
  - intros n N. unfold is_node in N. cbn in N. unfold node_kinds. repeat (destruct N as [<-|N]; [split; [reflexivity|]; eexists; split; [reflexivity|simpl; tauto]|]). destruct N.
  - intros e q I Q. sold_edges I; cbn in Q; congruence.
Qed.
Lemma sold_complete : forall ds part, complete (sold ds part).
Proof.
  intros ds part. constructor.
  - intros n. split; [intros N; left; apply (all_in_process _ "p" (sold_process ds part) n N)|].
    intros [(t & p & T & _)|(c & a & H & I & Z)]; [eapply is_node_attr; exact T|]. injection H as <-. cbn in I. destruct I as [I|[]]; injection I as <- <-; discriminate Z.
  - intros e I. left. sold_edges I; (eexists; split; [reflexivity|apply placed_process; left; reflexivity]).
  - intros c m r H I. injection H as <-. destruct I.
Qed.
Lemma sold_silent : forall ds part, no_messages (sold ds part) /\ own_pools (sold ds part).
Proof.
  intros ds part. split; [intros c H; injection H as <-; reflexivity|]. intros c p a H I. injection H as <-. cbn in I. destruct I as [I|[]]. injection I as <- <-.
  unfold is_node. cbn. intuition discriminate.
Qed.
Lemma sold_definitions : forall ds part, length ds <= 1 -> plain_definitions (sold ds part).
Proof.
  intros ds part L n. unfold definitions_of. destruct (attr (sold ds part) n "event_definitions") eqn:H; [|cbn; lia]. sold_nodes H; inversion D; subst; cbn; lia.
Qed.
Lemma sold_lanes : forall ds, level_lanes (sold ds None).
Proof.
  intros ds p a s ls I E. cbn in I. destruct I as [I|[]]. injection I as <- <-. cbn in E. injection E as <- <-.
  split; [repeat constructor; intros []|]. split; [|intros i l [J|[]]; injection J as <- <-; repeat eexists].
  intros i l [J|[]]. injection J as <- <-. split; [unfold is_node; cbn; intuition discriminate|]. split; [|split].
  - intros e Ie. sold_edges Ie; cbn; discriminate.
  - intros c b H J. injection H as <-. cbn in J. destruct J as [J|[]]. discriminate.
  - intros l' (q & b & s' & ls' & I' & E' & H'). cbn in I'. destruct I' as [I'|[]]. injection I' as <- <-. cbn in E'. injection E' as <- <-.
    inversion H' as [? ? ? J|? ? ? ? ? ? ? ? ? J K]; subst; destruct J as [J|[]]; inversion J; reflexivity.
Qed.
Lemma reload_round : forall so d, (match export_xml_file 5 d with Ok file => snd (load_diagram_from_xml so file empty_diagram) | Err e => Err e end) = Ok tt ->
  round_trip so 5 d (reload so d).
Proof.
  intros so d H. unfold reload. destruct (export_xml_file 5 d) as [file|] eqn:F; [|discriminate]. exists file. split; [exact F|].
  destruct (load_diagram_from_xml so file empty_diagram) as [d' r]. cbn in *. subst. reflexivity.
Qed.
Example C102_example : simple (sold one_message None) "p" /\ round_trip (fun l => l) 5 (sold one_message None) (reload (fun l => l) (sold one_message None)) /\
  reload (fun l => l) (sold one_message None) <> sold one_message None.
Proof.
  split; [|split; [apply reload_round; vm_compute; reflexivity|vm_compute; discriminate]].
  constructor; [apply sold_storable; intros x [<-|[]]; left; reflexivity|apply sold_complete|apply sold_silent|apply sold_process|apply sold_definitions; cbn; lia|
    apply sold_lanes|apply sold_silent].
Qed.
Example C102_api_example : proper_history sdemo_ops sdemo /\ all_in sdemo "id2" /\ distinct_pairs sdemo /\ round_trip (fun l => l) 5 sdemo (reload (fun l => l) sdemo) /\
  exists d1, generate_layout 20 sdemo = (d1, Ok tt) /\ round_trip (fun l => l) 5 d1 (reload (fun l => l) d1).
Proof.
  destruct C93_example as (H & D & A & _). split; [exact H|]. split; [exact A|]. split; [exact D|].
  split; [apply reload_round; vm_compute; reflexivity|]. exists (fst (generate_layout 20 sdemo)). split; [vm_compute; reflexivity|apply reload_round; vm_compute; reflexivity].
Qed.
Example C102_table_example : documented sample /\ goto_free sample /\ load_diagram_from_csv sample empty_diagram = (sample_diagram, Ok tt) /\
  generate_layout 60 sample_diagram = (sample_laid, Ok tt) /\ round_trip (fun l => l) 5 sample_laid sample_back.
Proof. destruct C83_table_example as (A & B & C & D & E & _). auto. Qed.
Example C102_goto_table_example : documented revise /\ neat_jumps (rows_of revise) /\ one_way (rows_of revise) /\
  load_diagram_from_csv revise empty_diagram = (revise_diagram, Ok tt) /\
  exists d1, generate_layout 30 revise_diagram = (d1, Ok tt) /\ round_trip (fun l => l) 5 d1 (reload (fun l => l) d1).
Proof.
  destruct C91_example as (A & B & C & _ & _ & D & _). split; [exact A|]. split; [exact B|]. split; [exact C|]. split; [exact D|].
  exists (fst (generate_layout 30 revise_diagram)). split; [vm_compute; reflexivity|apply reload_round; vm_compute; reflexivity].
Qed.

(** Without these conditions the second file differs: *)
Definition file_kept (set_order : list string -> list string) (d : diagram) : Prop :=
  exists file, export_xml_file 5 d = Ok file /\ export_xml_file 5 (reload set_order d) = Ok file.
Lemma other_file : forall so d, (match export_xml_file 5 d, export_xml_file 5 (reload so d) with Ok a, Ok b => a <> b | _, _ => False end) -> ~ file_kept so d.
Proof. intros so d H (file & F & G). rewrite F, G in H. apply H. reflexivity. Qed.
(** an event with two definitions may have them in another order (the importer goes through a
    Python set), *)
Theorem C102_two_definitions_refuted : exists set_order d p, any_order set_order /\ storable d /\ complete d /\ no_messages d /\ all_in d p /\
  level_lanes d /\ own_pools d /\ round_trip set_order 5 d (reload set_order d) /\ ~ file_kept set_order d.
Proof.
  exists (@rev string), (sold two_triggers None), "p". split; [intros l; apply Permutation_sym, Permutation_rev|].
  split; [apply sold_storable, incl_refl|]. split; [apply sold_complete|]. split; [apply sold_silent|]. split; [apply sold_process|]. split; [apply sold_lanes|].
  split; [apply sold_silent|]. split; [apply reload_round; vm_compute; reflexivity|]. apply other_file. vm_compute. discriminate.
Qed.
(** lanes inside lanes are lost, *)
Theorem C102_divided_lanes_refuted : exists d p, storable d /\ complete d /\ no_messages d /\ all_in d p /\
  plain_definitions d /\ own_pools d /\ round_trip (fun l => l) 5 d (reload (fun l => l) d) /\ ~ file_kept (fun l => l) d.
Proof.
  exists (sold one_message desk), "p".
  split; [apply sold_storable; intros x [<-|[]]; left; reflexivity|]. split; [apply sold_complete|]. split; [apply sold_silent|]. split; [apply sold_process|].
  split; [apply sold_definitions; cbn; lia|].
  split; [apply sold_silent|]. split; [apply reload_round; vm_compute; reflexivity|]. apply other_file. vm_compute. discriminate.
Qed.
(** and with two processes the nodes come back in another order. *)
Theorem C102_two_processes_refuted : exists l d, proper_history l d /\ distinct_pairs d /\
  round_trip (fun l => l) 5 d (reload (fun l => l) d) /\ ~ file_kept (fun l => l) d.
Proof.
  exists two_ops, two. split; [apply (pcheck_history two_ops [] empty_diagram ph_nil); vm_compute; reflexivity|].
  split; [apply pairs_checked_ok; vm_compute; reflexivity|]. split; [apply reload_round; vm_compute; reflexivity|].
  apply other_file. vm_compute. discriminate.
Qed.

Print Assumptions C102_same_file.
Print Assumptions C102_settled.
Print Assumptions C102_api.
Print Assumptions C102_api_laid_out.
Print Assumptions C102_table.
Print Assumptions C102_goto_table.
Print Assumptions C102_two_definitions_refuted.
Print Assumptions C102_divided_lanes_refuted.
Print Assumptions C102_two_processes_refuted.
