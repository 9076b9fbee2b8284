(** What a file written from a loaded file looks like (C103). *)
From Coq Require Import String List Bool Arith Lia ZArith Permutation.
From Verif Require Import Py PyFacts Consts Nx NxFacts Rep SpecRep RepFacts CsvRegex CsvImport CsvFacts Xml Export Import XmlOps
  ImportFacts SpecXml XmlScopes ExportFacts ExportTree Prop_XmlExported SpecRound ExportScopes RoundBack RoundDemo Prop_XmlRound SpecWrite Prop_XmlLanes
  ApiSave Prop_XmlApi Layouter SpecLayout LayoutFacts LayoutSave
  Prop_Layout Prop_Splits Prop_LayoutMetrics Prop_XmlLayout Prop_Stable Prop_SamePicture SpecOrder Prop_Order ProcOrder MessageBack SpecResave ResaveFacts ScopeOrder RoundTidy
  ResaveScopes Settled Prop_Resave.
Import ListNotations.
Open Scope string_scope.
Open Scope list_scope.

(** ** What the two trees look like as documents *)
Lemma elements_app : forall l m, elements (l ++ m) = elements l ++ elements m.
Proof. intros. unfold elements. apply filter_app. Qed.
Lemma elements_text : forall o, elements (text_nodes o) = [].
Proof. intros [[|c s]|]; reflexivity. Qed.
Lemma written_head : forall t l, written t = Ok l -> exists g a ks tl, l = DElem g a ks :: tl /\ elements tl = [].
Proof.
  intros [g a x tl ks] l H. rewrite written_unfold in H. destruct (rmap written_attribute a); [|discriminate]. cbn [rbind] in H.
  destruct (written_list ks); [|discriminate]. cbn [rbind] in H. injection H as <-. do 4 eexists. split; [reflexivity|apply elements_text].
Qed.
Lemma written_swap : forall l l', Permutation l l' -> forall r, written_list l = Ok r -> exists r', written_list l' = Ok r' /\ Permutation (elements r) (elements r').
Proof.
  intros l l' P. induction P; intros r H.
  - exists r. auto.
  - cbn [written_list] in *. destruct (written x) as [y|]; [|discriminate]. cbn [rbind] in *. destruct (written_list l) as [z|]; [|discriminate]. cbn [rbind] in *.
    injection H as <-. destruct (IHP z eq_refl) as (z' & E & Q). rewrite E. cbn [rbind]. eexists. split; [reflexivity|]. rewrite !elements_app. apply Permutation_app_head. exact Q.
  - cbn [written_list] in *. destruct (written y) as [y1|]; [|discriminate]. cbn [rbind] in *. destruct (written x) as [x1|]; [|discriminate]. cbn [rbind] in *.
    destruct (written_list l) as [z|]; [|discriminate]. cbn [rbind] in *. injection H as <-. eexists. split; [reflexivity|]. rewrite !elements_app.
    rewrite !app_assoc. apply Permutation_app_tail, Permutation_app_comm.
  - destruct (IHP1 r H) as (r1 & H1 & Q1). destruct (IHP2 r1 H1) as (r2 & H2 & Q2). exists r2. split; [exact H2|]. eapply Permutation_trans; eauto.
Qed.
Lemma plane_swap : forall g a X Y n l, Permutation X Y -> written (indent (S n) (elem g a X)) = Ok l ->
  exists a' ks ks' w, l = [DElem g a' ks; w] /\ written (indent (S n) (elem g a Y)) = Ok [DElem g a' ks'; w] /\ Permutation (elements ks) (elements ks').
Proof.
  intros g a X Y n l P H. unfold elem in *. cbn [indent] in *. destruct X as [|x X].
  - apply Permutation_nil in P. subst Y. rewrite H. rewrite written_unfold in H. destruct (rmap written_attribute a) as [a1|]; [|discriminate]. cbn [rbind written_list] in H.
    injection H as <-. do 4 eexists. split; [reflexivity|]. split; [reflexivity|apply Permutation_refl].
  - destruct Y as [|y Y]; [apply Permutation_sym, Permutation_nil in P; discriminate|].
    set (b := blank_text (if blank_text None then Some (line_break (S n)) else None)) in *. clearbody b. rewrite written_unfold in *. destruct (rmap written_attribute a) as [a1|]; [|discriminate].
    cbn [rbind] in *. destruct (written_list (map (indent (S (S n))) (x :: X))) as [r|] eqn:Er; [|discriminate]. cbn [rbind] in H. injection H as <-.
    destruct (written_swap _ _ (Permutation_map (indent (S (S n))) P) r Er) as (r' & Er' & Q). rewrite Er'. cbn [rbind].
    destruct b; (do 4 eexists; split; [reflexivity|]; split; [reflexivity|exact Q]).
Qed.
Lemma redrawn_document : forall di pl co cosh ps sh ed sh' ed' file, Permutation sh sh' -> Permutation ed ed' ->
  document (indent 0 (tree_of di pl co cosh ps sh ed)) = Ok file ->
  exists file', document (indent 0 (tree_of di pl co cosh ps sh' ed')) = Ok file' /\ same_but_order file file'.
Proof.
  intros di pl co cosh ps sh ed sh' ed' file P1 P2 H. unfold tree_of, document in *.
  set (X := cosh ++ flat_map snd ps ++ sh ++ ed) in *. set (Y := cosh ++ flat_map snd ps ++ sh' ++ ed').
  assert (P : Permutation X Y) by (unfold X, Y; do 2 apply Permutation_app_head; apply Permutation_app; assumption). clearbody X Y.
  pose proof (plane_swap "bpmndi:BPMNPlane" pl X Y 1) as PS. revert H PS.
  generalize (elem "bpmndi:BPMNPlane" pl X) (elem "bpmndi:BPMNPlane" pl Y). intros U V H PS.
  unfold elem in *. cbn [indent map blank_text] in *. rewrite written_unfold in *.
  destruct (rmap written_attribute definitions_attributes) as [a0|]; [|discriminate]. cbn [rbind written_list] in *. rewrite written_unfold in *.
  destruct (rmap written_attribute di) as [a1|]; [|discriminate]. cbn [rbind written_list] in *.
  destruct (written (indent 2 U)) as [l|] eqn:E; [|discriminate]. destruct (PS _ P eq_refl) as (a2 & ks & ks' & w & -> & E' & Q).
  rewrite E'. cbn [rbind] in *.
  destruct (written_list (map (indent 1) (co ++ map fst ps))) as [r|]; [|discriminate]. cbn [rbind] in *. injection H as <-.
  eexists. split; [reflexivity|]. cbn [app]. apply redrawn_file; [reflexivity|reflexivity|exact Q].
Qed.

(** ** C103 *)
(** A diagram with any number of processes, subprocesses with contents, pools, lanes and
    message flows is saved and loaded.  The file written from what was loaded has the same collaboration and
    process elements as the file that was read; only the shapes and edges of the picture may
    come in another order. *)
Theorem C103_second_file : forall set_order fuel d d1, any_order set_order -> tidy d -> round_trip set_order fuel d d1 ->
  exists file file1, export_xml_file fuel d = Ok file /\ export_xml_file fuel d1 = Ok file1 /\ same_but_order file file1.
Proof.
  intros so fuel d d1 Po T R. destruct (round_dom so fuel d d1 (ti_storable d T) R) as (t & TP & ST & _).
  destruct (next_tree so fuel d d1 Po T R t TP ST) as (di & pl & co & cosh & ps & sh & ed & sh' & ed' & -> & TP1 & P1 & P2 & _).
  destruct R as (file & F & _). unfold export_xml_file in *. rewrite TP in F. cbn [rbind] in F. destruct (redrawn_document _ _ _ _ _ _ _ _ _ _ P1 P2 F) as (file1 & F1 & Q).
  exists file, file1. rewrite TP, TP1. cbn [rbind]. auto.
Qed.
(** From the second file on nothing changes any more: the third is the second. *)
Theorem C103_third_file : forall set_order fuel d d1 d2, any_order set_order -> tidy d -> round_trip set_order fuel d d1 -> round_trip set_order fuel d1 d2 ->
  exists file, export_xml_file fuel d1 = Ok file /\ export_xml_file fuel d2 = Ok file.
Proof.
  intros so fuel d d1 d2 Po T R1 R2. pose proof (round_tidy so fuel d d1 Po T R1) as T1. destruct (round_dom so fuel d1 d2 (ti_storable d1 T1) R2) as (t & TP & ST & _).
  pose proof (third_tree so fuel d d1 d2 Po T R1 R2 t TP ST) as TP2. destruct R2 as (file & F & _). exists file. split; [exact F|].
  unfold export_xml_file in *. rewrite TP in F. rewrite TP2. exact F.
Qed.
(** So saving and loading once more succeeds, and the diagram then stays the same for ever. *)
Theorem C103_settled : forall set_order fuel d d1, any_order set_order -> tidy d -> rereadable d -> round_trip set_order fuel d d1 ->
  exists d2, forall k x, saved_times set_order fuel (S k) d1 x <-> x = d2.
Proof.
  intros so fuel d d1 Po T RR R1. destruct (tidy_again so fuel d d1 Po T RR R1) as [d2 R2]. exists d2.
  destruct (C103_third_file so fuel d d1 d2 Po T R1 R2) as (file & F & F'). destruct R2 as (f0 & F0 & L). rewrite F in F0. injection F0 as <-.
  assert (U : forall y x, export_xml_file fuel y = Ok file -> round_trip so fuel y x <-> x = d2).
  { intros y x Fy. split; [intros (f & Fx & Lx); rewrite Fy in Fx; injection Fx as <-; rewrite L in Lx; injection Lx as <-; reflexivity|intros ->; exists file; auto]. }
  assert (K : forall k x, saved_times so fuel k d2 x <-> x = d2).
  { induction k as [|k IH]; intros x; split; intros H.
    - inversion H. reflexivity.
    - subst. constructor.
    - inversion H as [|k0 y z w R' Hk]. subst. apply (U _ _ F') in R'. subst z. apply IH. exact Hk.
    - econstructor; [apply (U _ _ F'); reflexivity|]. apply IH. exact H. }
  intros k x. split; intros H.
  - inversion H as [|k0 y z w R' Hk]. subst. apply (U _ _ F) in R'. subst z. apply K in Hk. exact Hk.
  - econstructor; [apply (U _ _ F); reflexivity|]. apply K. exact H.
Qed.
(** In every process and in every subprocess the nodes keep their order, and so do the processes. *)
Theorem C103_scopes : forall set_order fuel d d1, any_order set_order -> tidy d -> round_trip set_order fuel d d1 ->
  (forall q, nodes_in d1 q = nodes_in d q) /\ map fst (procs d1) = map fst (procs d).
Proof. intros so fuel d d1 Po T R. split; [exact (nodes_in_back so fuel d d1 Po T R)|exact (procs_kept so fuel d d1 T R)]. Qed.

(** Diagrams built with the API whose flows stay inside their processes, also after layout. *)
Lemma api_tidy : forall l d, proper_history l d -> scoped_flows d -> tidy d.
Proof.
  intros l d H SF. pose proof (history_built l d H) as B. constructor.
  - exact (api_storable d B).
  - exact (api_complete d B).
  - exact (proj1 (built_in_process l d H)).
  - exact SF.
  - intros n. unfold definitions_of. destruct (attr d n "event_definitions") eqn:E; [|cbn; lia].
    destruct (bu_nodes d B n) as (o & ex & Eo & K); [eapply is_node_attr; eauto|]. rewrite K in E by discriminate. pose proof (few_definitions o n ex Eo) as F.
    rewrite E in F. exact F.
  - intros q a s ls I E. destruct (bu_procs d B q a I) as (n & c & e & t & ->). discriminate.
  - intros c q a C. rewrite (bu_collab d B) in C. discriminate.
Qed.
Lemma laid_tidy : forall fuel d d1, coherent d -> generate_layout fuel d = (d1, Ok tt) -> tidy d -> tidy d1.
Proof.
  intros fuel d d1 Co L [SB CP AP SF PD LL OP]. pose proof (sb_graph _ SB) as W. pose proof (laid_rest fuel d d1 Co W L) as (_ & Ep & _ & _ & Ec).
  pose proof (laid_keys fuel d d1 Co W L) as K.
  assert (PL : forall q, placed d q -> placed d1 q).
  { intros q P. induction P as [q I|n q T A _ IH]; [apply placed_process; congruence|].
    apply (placed_sub d1 n q); [rewrite (laid_attr fuel d d1 Co W L) by discriminate; exact T|rewrite (laid_attr fuel d d1 Co W L) by discriminate; exact A|exact IH]. }
  constructor.
  - exact (laid_storable fuel d d1 Co W L SB).
  - exact (laid_complete fuel d d1 Co W L CP).
  - intros n N. apply K in N. destruct (AP n N) as (t & q & T & I & P & Q). exists t, q. rewrite !(laid_attr fuel d d1 Co W L) by discriminate. auto.
  - intros e q I Q. destruct (laid_edge fuel d d1 Co W L e I) as (e0 & I0 & Eu & Ev & X). rewrite X in Q by discriminate. rewrite Eu, Ev, !(laid_attr fuel d d1 Co W L) by discriminate.
    exact (SF e0 q I0 Q).
  - intros n. unfold definitions_of. rewrite (laid_attr fuel d d1 Co W L) by discriminate. apply PD.
  - intros q a s ls I E. rewrite Ep in I. destruct (LL q a s ls I E) as (A & B & C). split; [exact A|]. split; [|exact C].
    intros i l J. destruct (B i l J) as (B1 & B2 & B3 & B4). split; [intros N; apply B1, K; exact N|]. split; [|split].
    + intros e Ie. destruct (laid_edge fuel d d1 Co W L e Ie) as (e0 & I0 & _ & _ & X). rewrite X by discriminate. apply B2. exact I0.
    + intros c b C0. apply B3. congruence.
    + intros l' (q' & a' & s' & ls' & I' & E' & H'). apply B4. rewrite Ep in I'. exists q', a', s', ls'. auto.
  - intros c q a C I N. rewrite Ec in C. apply (OP c q a C I). apply K. exact N.
Qed.
Theorem C103_api : forall set_order fuel l d d1, any_order set_order -> proper_history l d -> scoped_flows d -> round_trip set_order fuel d d1 ->
  (exists file file1, export_xml_file fuel d = Ok file /\ export_xml_file fuel d1 = Ok file1 /\ same_but_order file file1) /\
  exists d2, forall k x, saved_times set_order fuel (S k) d1 x <-> x = d2.
Proof.
  intros so fuel l d d1 Po H SF R. pose proof (api_tidy l d H SF) as T. split; [exact (C103_second_file so fuel d d1 Po T R)|].
  exact (C103_settled so fuel d d1 Po T (api_rereadable d (history_built l d H)) R).
Qed.
Theorem C103_api_laid_out : forall set_order fuel fuel' l d d1 d2, any_order set_order -> proper_history l d -> distinct_pairs d -> scoped_flows d ->
  generate_layout fuel' d = (d1, Ok tt) -> round_trip set_order fuel d1 d2 ->
  (exists file file1, export_xml_file fuel d1 = Ok file /\ export_xml_file fuel d2 = Ok file1 /\ same_but_order file file1) /\
  exists d3, forall k x, saved_times set_order fuel (S k) d2 x <-> x = d3.
Proof.
  intros so fuel fuel' l d d1 d2 Po H D SF L R. destruct (api_ready l d (proper_is_history _ _ H) D) as (Co & _). pose proof (sb_graph _ (api_storable d (history_built l d H))) as W.
  pose proof (laid_tidy fuel' d d1 Co L (api_tidy l d H SF)) as T. split; [exact (C103_second_file so fuel d1 d2 Po T R)|].
  exact (C103_settled so fuel d1 d2 Po T (laid_rereadable fuel' d d1 Co W L (api_rereadable d (history_built l d H))) R).
Qed.

(** ** Examples *)
(** Two pools with a message flow, a lane, and a subprocess whose contents were added in between. *)
Definition mixed : diagram := {|
  dgraph := {|
    gnodes :=
      [("t", flow_node "t" "task" "Receive" "q" ["m"] ["f4"] ++ [("default", VNone)] ++ box "11" "12");
       ("u", flow_node "u" "userTask" "Check" "sub" ["f3"] [] ++ [("default", VNone)] ++ box "5" "6");
       ("s", flow_node "s" "startEvent" "Begin" "p" [] ["f1"] ++
             [("parallelMultiple", VStr "false"); ("isInterrupting", VStr "true"); ("event_definitions", VDefs one_message)] ++ box "1" "2");
       ("sub", flow_node "sub" "subProcess" "Inner" "p" ["f1"] ["f2"] ++
             [("default", VStr "f2"); ("triggeredByEvent", VStr "false"); ("node_ids", VList ["u"; "g"])] ++ [("isExpanded", VStr "true")] ++ box "3" "4");
       ("w", flow_node "w" "endEvent" "" "q" ["f4"] [] ++ [("event_definitions", VDefs [])] ++ box "20" "12");
       ("g", flow_node "g" "eventBasedGateway" "" "sub" [] ["f3"] ++
             [("gatewayDirection", VStr "Diverging"); ("instantiate", VStr "true"); ("eventGatewayType", VStr "Parallel")] ++ box "7" "8");
       ("e", flow_node "e" "endEvent" "" "p" ["f2"] ["m"] ++ [("event_definitions", VDefs [("t1", "terminateEventDefinition")])] ++ box "9" "10")];
    gedges :=
      [mkEdge "t" "e" [("id", VStr "m"); ("name", VStr "order"); ("sourceRef", VStr "e"); ("targetRef", VStr "t"); ("waypoints", VPoints [("9", "10"); ("11", "12")])];
       mkEdge "w" "t" (flow_atts "f4" "q" "" "t" "w" [("11", "12"); ("20", "12")]);
       mkEdge "u" "g" (flow_atts "f3" "sub" "again" "g" "u" [("7", "8"); ("5", "6")]);
       mkEdge "s" "sub" (flow_atts "f1" "p" "" "s" "sub" [("1", "2"); ("3", "4")]);
       mkEdge "sub" "e" (flow_atts "f2" "p" "large" "sub" "e" [("3", "4"); ("5", "9"); ("9", "10")] ++ [("conditionExpression", VCond "c" "x > 1")])] |};
  seq_flows := [("f1", mkFlow "" "s" "sub"); ("f2", mkFlow "large" "sub" "e"); ("f3", mkFlow "again" "g" "u"); ("f4", mkFlow "" "t" "w")];
  procs :=
    [("p", [("id", VStr "p"); ("name", VStr "Selling"); ("isClosed", VStr "false"); ("isExecutable", VStr "true");
            ("processType", VStr "None"); ("node_ids", VList ["s"; "sub"; "e"]);
            ("laneSet", VLaneSet "" [("l1", Lane "Sales" None ["s"; "sub"; "e"] (Some ("true", ("30", "40", "10", "20"))))])]);
     ("q", [("id", VStr "q"); ("name", VStr ""); ("isClosed", VStr "true"); ("isExecutable", VStr "false");
            ("processType", VStr "Private"); ("node_ids", VList ["t"; "w"])])];
  diag_attrs := [("id", VStr "dia"); ("name", VStr "Example")];
  plane_attrs := [("id", VStr "plane"); ("bpmnElement", VStr "C")];
  collaboration := Some (mkCollab "C"
    [("P", [("name", VStr "Seller"); ("processRef", VStr "p"); ("isHorizontal", VStr "true")] ++ box "0" "0");
     ("Q", [("name", VStr "Buyer"); ("processRef", VStr "q"); ("isHorizontal", VStr "false")] ++ box "0" "200")] [("m", mkFlow "order" "e" "t")]) |}.
Ltac mixed_nodes H := let a := fresh "a" in let I := fresh "I" in let D := fresh "D" in
  destruct (node_in _ _ _ _ H) as (a & I & D); cbn [gnodes dgraph mixed] in I;
  repeat (destruct I as [I|I]; [injection I as <- <-|]); [..|destruct I]; cbn in D; try discriminate D.
Ltac mixed_edges I := cbn [gedges dgraph mixed] in I; repeat (destruct I as [<-|I]); [..|destruct I].
Lemma mixed_placed : placed mixed "p" /\ placed mixed "q" /\ placed mixed "sub".
Proof.
  assert (P : placed mixed "p") by (apply placed_process; left; reflexivity).
  split; [exact P|]. split; [apply placed_process; right; left; reflexivity|].
  apply (placed_sub mixed "sub" "p"); [reflexivity|reflexivity|exact P].
Qed.
Lemma mixed_storable : storable mixed.
Proof.
  constructor.
  - apply gwf_check; [cbn; repeat (constructor; [simpl; intuition discriminate|]); constructor|reflexivity|reflexivity].
  - cbn. repeat (constructor; [simpl; intuition discriminate|]). constructor.
  - intros c H. injection H as <-. split; cbn; repeat (constructor; [simpl; intuition discriminate|]); constructor.
  - intros n N. unfold is_node in N. cbn in N. unfold node_kinds. repeat (destruct N as [<-|N]; [eexists; split; [reflexivity|simpl; tauto]|]). destruct N.
  - intros n H. mixed_nodes H. split; [reflexivity|]. cbn. intuition discriminate.
  - intros n t ds x T D I. mixed_nodes D; injection D0 as <-; injection T as <-; try destruct I as [<-|[]]; try (destruct I; fail); eexists; (split; [reflexivity|]); simpl; tauto.
  - intros n k l [->| ->] H; mixed_nodes H; injection D as <-; (split; [repeat (constructor; [simpl; intuition discriminate|]); constructor|simpl; intuition discriminate]).
  - intros e p I P. mixed_edges I; cbn in P; try discriminate P; injection P as <-.
    + exists "f4", "t", "w". unfold flow_edge, same_pair. cbn. intuition (try discriminate).
    + exists "f3", "g", "u". unfold flow_edge, same_pair. cbn. intuition (try discriminate).
    + exists "f1", "s", "sub". unfold flow_edge, same_pair. cbn. intuition (try discriminate).
    + exists "f2", "sub", "e". unfold flow_edge, same_pair. cbn. intuition (try discriminate).
  - intros e e' f I I' E E'. mixed_edges I; mixed_edges I'; cbn in E, E'; congruence.
  - intros c m r H I. injection H as <-. destruct I as [I|[]]. injection I as <- <-. split; [left; reflexivity|]. split; [left; reflexivity|].
    intros e p I P. mixed_edges I; cbn in P; try discriminate P; unfold same_pair; cbn; intuition discriminate.
  - intros c p a t H I R T. injection H as <-. cbn in I. destruct I as [I|[I|[]]]; injection I as <- <-; discriminate R.
Qed.
Lemma mixed_inside : forall n, is_node mixed n -> in_process mixed n.
Proof.
  destruct mixed_placed as (P1 & P2 & P3). intros n N. unfold is_node in N. cbn in N. unfold in_process, node_kinds.
  repeat (destruct N as [<-|N]; [do 2 eexists; split; [reflexivity|]; split; [simpl; tauto|]; split; [reflexivity|assumption]|]). destruct N.
Qed.
Lemma mixed_complete : complete mixed.
Proof.
  destruct mixed_placed as (P1 & P2 & P3). constructor.
  - intros n. split; [intros N; left; exact (mixed_inside n N)|].
    intros [(t & p & T & _)|(c & a & H & I & Z)]; [eapply is_node_attr; exact T|]. injection H as <-. cbn in I. destruct I as [I|[I|[]]]; injection I as <- <-; discriminate Z.
  - intros e I. mixed_edges I; [right; do 3 eexists; split; [reflexivity|]; split; [left; reflexivity|right; split; reflexivity]|left..]; (eexists; split; [reflexivity|assumption]).
  - intros c m r H I. injection H as <-. destruct I as [I|[]]. injection I as <- <-. eexists. split; [left; reflexivity|]. split; [right; split; reflexivity|reflexivity].
Qed.
Lemma mixed_lane : forall i l, lane_of mixed i l -> i = "l1" /\ l = Lane "Sales" None ["s"; "sub"; "e"] (Some ("true", ("30", "40", "10", "20"))).
Proof.
  intros i l (q & b & s' & ls' & I' & E' & H'). cbn in I'. destruct I' as [I'|[I'|[]]]; injection I' as <- <-; [|discriminate E']. cbn in E'. injection E' as <- <-.
  inversion H' as [? ? ? J|? ? ? ? ? ? ? ? ? J K]; subst; destruct J as [J|[]]; inversion J; auto.
Qed.
Lemma mixed_lanes : level_lanes mixed.
Proof.
  intros p a s ls I E. cbn in I. destruct I as [I|[I|[]]]; injection I as <- <-; [|discriminate E]. cbn in E. injection E as <- <-.
  split; [repeat constructor; intros []|]. split; [|intros i l [J|[]]; injection J as <- <-; repeat eexists].
  intros i l [J|[]]. injection J as <- <-. split; [unfold is_node; cbn; intuition discriminate|]. split; [|split].
  - intros e Ie. mixed_edges Ie; cbn; discriminate.
  - intros c b H J. injection H as <-. cbn in J. destruct J as [J|[J|[]]]; discriminate.
  - intros l' L. apply mixed_lane in L. destruct L as [_ ->]. reflexivity.
Qed.
Lemma mixed_tidy : tidy mixed.
Proof.
  constructor.
  - exact mixed_storable.
  - exact mixed_complete.
  - exact mixed_inside.
  - intros e q I Q. mixed_edges I; cbn in Q; try discriminate Q; injection Q as <-; (split; reflexivity).
  - intros n. unfold definitions_of. destruct (attr mixed n "event_definitions") eqn:H; [|cbn; lia]. mixed_nodes H; inversion D; subst; cbn; lia.
  - exact mixed_lanes.
  - intros c p a H I. injection H as <-. cbn in I. destruct I as [I|[I|[]]]; injection I as <- <-; unfold is_node; cbn; intuition discriminate.
Qed.
Lemma mixed_rereadable : rereadable mixed.
Proof.
  constructor.
  - intros e i I. mixed_edges I; discriminate.
  - intros i name child refs di L. apply mixed_lane in L. destruct L as [_ L]. injection L as -> -> -> ->. simpl. intuition discriminate.
  - intros i l e L I. apply mixed_lane in L. destruct L as [-> _]. mixed_edges I; discriminate.
Qed.
Definition back (d : diagram) : diagram := reload (fun l => l) d.
Example C103_example : tidy mixed /\ rereadable mixed /\ round_trip (fun l => l) 5 mixed (back mixed) /\ round_trip (fun l => l) 5 (back mixed) (back (back mixed)) /\
  node_order (back mixed) = ["s"; "sub"; "u"; "g"; "e"; "t"; "w"] /\ ~ file_kept (fun l => l) mixed /\ nodes_in mixed "sub" = ["u"; "g"].
Proof.
  split; [exact mixed_tidy|]. split; [exact mixed_rereadable|]. split; [apply reload_round; vm_compute; reflexivity|]. split; [apply reload_round; vm_compute; reflexivity|].
  split; [vm_compute; reflexivity|]. split; [apply other_file; vm_compute; discriminate|vm_compute; reflexivity].
Qed.
(** Two processes side by side built with the API, their nodes added in turn. *)
Definition apart_ops : list op :=
  [ONew "m" "0"; OProcess "p" false true "None" "1" "2"; OProcess "q" false true "None" "1" "3";
   OStart "id3" "s" None false true (Some "s") "" ""; OStart "id2" "s2" None false true (Some "s2") "" "";
   OTask "id2" "a" (Some "a") ""; OTask "id3" "b" (Some "b") "";
   OEnd "id2" "e2" None (Some "e2") "" ""; OEnd "id3" "e" None (Some "e") "" "";
   OFlow "id3" "s" "b" "" "10"; OFlow "id2" "s2" "a" "" "11"; OFlow "id3" "b" "e" "" "12"; OFlow "id2" "a" "e2" "" "13"].
Definition both_parts : diagram := run empty_diagram apart_ops.
Definition flow_scoped (d : diagram) (e : edge) : bool :=
  match dget "process" (eat e), attr d (eu e) "process", attr d (ev e) "process" with
  | Some (VStr q), Some (VStr a), Some (VStr b) => String.eqb a q && String.eqb b q | _, _, _ => false end.
Lemma flows_checked : forall d, forallb (flow_scoped d) (gedges (dgraph d)) = true -> scoped_flows d.
Proof.
  intros d H e q I Q. rewrite forallb_forall in H. specialize (H e I). unfold flow_scoped in H. rewrite Q in H.
  destruct (attr d (eu e) "process") as [v|]; [destruct v|]; try discriminate. destruct (attr d (ev e) "process") as [v|]; [destruct v|]; try discriminate.
  apply andb_true_iff in H. destruct H as [A B]. apply String.eqb_eq in A, B. subst. auto.
Qed.
Example C103_api_example : proper_history apart_ops both_parts /\ distinct_pairs both_parts /\ scoped_flows both_parts /\
  round_trip (fun l => l) 5 both_parts (back both_parts) /\ ~ file_kept (fun l => l) both_parts /\
  exists d1, generate_layout 20 both_parts = (d1, Ok tt) /\ round_trip (fun l => l) 5 d1 (back d1).
Proof.
  split; [apply (pcheck_history apart_ops [] empty_diagram ph_nil); vm_compute; reflexivity|].
  split; [apply pairs_checked_ok; vm_compute; reflexivity|]. split; [apply flows_checked; vm_compute; reflexivity|].
  split; [apply reload_round; vm_compute; reflexivity|]. split; [apply other_file; vm_compute; discriminate|].
  exists (fst (generate_layout 20 both_parts)). split; [vm_compute; reflexivity|apply reload_round; vm_compute; reflexivity].
Qed.

(** When a flow leaves its process, the flows of a process may come in another order. *)
Definition after_picture (x : dom) : list dom := match x with DElem _ _ (_ :: _ :: r) => r | _ => [] end.
Lemma same_after : forall x y, same_but_order x y -> after_picture x = after_picture y.
Proof. intros x y [g a w dg da w1 pg pa ks ks' w2 rest _ _ _]. reflexivity. Qed.
Theorem C103_crossing_flow_refuted : exists l d, proper_history l d /\ distinct_pairs d /\ round_trip (fun l => l) 5 d (back d) /\
  ~ exists file file1, export_xml_file 5 d = Ok file /\ export_xml_file 5 (back d) = Ok file1 /\ same_but_order file file1.
Proof.
  exists two_ops, two. split; [apply (pcheck_history two_ops [] empty_diagram ph_nil); vm_compute; reflexivity|].
  split; [apply pairs_checked_ok; vm_compute; reflexivity|]. split; [apply reload_round; vm_compute; reflexivity|].
  assert (H : match export_xml_file 5 two, export_xml_file 5 (back two) with Ok a, Ok b => after_picture a <> after_picture b | _, _ => False end)
    by (vm_compute; discriminate).
  intros (file & file1 & F & F1 & S). rewrite F, F1 in H. apply H. apply same_after. exact S.
Qed.

(** A pool without a process loses its orientation (C73), so its shape is written differently. *)
Definition with_procs (d : diagram) (ps : dict attrs) : diagram :=
  mkDiagram (dgraph d) (seq_flows d) ps (diag_attrs d) (plane_attrs d) (collaboration d).
Lemma placed_procs : forall d ps p, map fst ps = map fst (procs d) -> placed d p <-> placed (with_procs d ps) p.
Proof.
  intros d ps p E. split; intros P.
  - induction P as [p I|n p T A P IH]; [apply placed_process; cbn [procs with_procs]; rewrite E; exact I|exact (placed_sub (with_procs d ps) n p T A IH)].
  - induction P as [p I|n p T A P IH]; [apply placed_process; cbn [procs with_procs] in I; rewrite <- E; exact I|exact (placed_sub d n p T A IH)].
Qed.
Lemma storable_procs : forall d ps, map fst ps = map fst (procs d) -> storable d -> storable (with_procs d ps).
Proof.
  intros d ps E [A B C D F G H I J K L]. constructor; try assumption; cbn [procs with_procs]; rewrite E; [exact B|]. intros n T. exact (F n T).
Qed.
Lemma complete_procs : forall d ps, map fst ps = map fst (procs d) -> complete d -> complete (with_procs d ps).
Proof.
  intros d ps E [A B C]. constructor; [| |exact C].
  - intros n. change (is_node (with_procs d ps) n) with (is_node d n). rewrite (A n). unfold in_process. change (collaboration (with_procs d ps)) with (collaboration d).
    setoid_rewrite <- (placed_procs d ps _ E). reflexivity.
  - intros e I. destruct (B e I) as [(p & P & Pl)|H]; [left; exists p; split; [exact P|apply placed_procs; auto]|right; exact H].
Qed.
Definition pooled : diagram := with_procs drawn (map (fun p => (fst p, filter (fun x => negb (String.eqb (fst x) "laneSet")) (snd p))) (procs drawn)).
Definition turned (x : dom) : bool := match x with DElem _ a _ => match dget "isHorizontal" a with Some v => String.eqb v "true" | None => false end | _ => false end.
Definition picture (x : dom) : list dom := match x with DElem _ _ (_ :: DElem _ _ [_; DElem _ _ ks; _] :: _) => ks | _ => [] end.
Definition turned_shapes (x : dom) : nat := length (filter turned (elements (picture x))).
Lemma same_turned : forall x y, same_but_order x y -> turned_shapes x = turned_shapes y.
Proof.
  intros x y [g a w dg da w1 pg pa ks ks' w2 rest _ _ P]. unfold turned_shapes. cbn [picture]. apply Permutation_length. revert P. generalize (elements ks) (elements ks').
  intros l l' P. induction P as [|z l l' P IH|z z' l|l l' l'' P1 IH1 P2 IH2]; cbn [filter].
  - constructor.
  - destruct (turned z); [apply perm_skip|]; exact IH.
  - destruct (turned z), (turned z'); try apply Permutation_refl; apply perm_swap.
  - eapply Permutation_trans; eauto.
Qed.
Theorem C103_empty_pool_refuted : exists d, storable d /\ complete d /\ scoped_flows d /\ plain_definitions d /\ level_lanes d /\ round_trip (fun l => l) 5 d (back d) /\
  ~ exists file file1, export_xml_file 5 d = Ok file /\ export_xml_file 5 (back d) = Ok file1 /\ same_but_order file file1.
Proof.
  exists pooled. split; [apply storable_procs; [reflexivity|exact drawn_storable]|]. split; [apply complete_procs; [reflexivity|exact drawn_complete]|].
  split. { intros e q I Q. cbn [gedges dgraph pooled with_procs drawn] in I. repeat (destruct I as [<-|I]); [..|destruct I]; cbn in Q; try discriminate Q; injection Q as <-; (split; reflexivity). }
  split. { intros n. unfold definitions_of. destruct (attr pooled n "event_definitions") eqn:H; [|cbn; lia]. destruct (node_in _ _ _ _ H) as (a & I & D). cbn [gnodes dgraph pooled with_procs drawn] in I.
    repeat (destruct I as [I|I]; [injection I as <- <-|]); [..|destruct I]; cbn in D; try discriminate D; injection D as <-; cbn; lia. }
  split. { intros p a s ls I E. cbn in I. destruct I as [I|[I|[]]]; injection I as <- <-; discriminate E. }
  split; [apply reload_round; vm_compute; reflexivity|].
  assert (H : match export_xml_file 5 pooled, export_xml_file 5 (back pooled) with Ok a, Ok b => turned_shapes a <> turned_shapes b | _, _ => False end)
    by (vm_compute; discriminate).
  intros (file & file1 & F & F1 & S). rewrite F, F1 in H. apply H. apply same_turned. exact S.
Qed.

Print Assumptions C103_second_file.
Print Assumptions C103_third_file.
Print Assumptions C103_settled.
Print Assumptions C103_scopes.
Print Assumptions C103_api.
Print Assumptions C103_api_laid_out.
Print Assumptions C103_crossing_flow_refuted.
Print Assumptions C103_empty_pool_refuted.
