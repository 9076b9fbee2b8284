(** XML export of diagrams that were loaded from CSV (C55). *)
From Coq Require Import String Ascii List Bool Arith ZArith Lia.
From Verif Require Import Py PyFacts Consts Nx NxFacts Rep SpecRep RepFacts CsvRegex CsvImport CsvFacts Xml Export Import SpecXml ExportFacts SpecRound SpecWrite ExportOk CsvXml.
Import ListNotations.
Open Scope string_scope.
Open Scope list_scope.

Section Loaded.
Variables d0 d : diagram.
Hypothesis I : csv_inv d0 False d.
Hypothesis C0 : collaboration d0 = None.
Hypothesis A0 : diag_attrs d0 = [("id", VStr "diagram1"); ("name", VStr "diagram_name")].
Hypothesis L0 : plane_attrs d0 = [("id", VStr "plane_1"); ("bpmnElement", VStr "process_1")].
Hypothesis P0 : exists l, procs d0 = [("process_1", [("id", VStr "process_1"); ("name", VStr ""); ("isClosed", VStr "false");
                 ("isExecutable", VStr "false"); ("processType", VStr "None"); ("node_ids", VList l)])].

Lemma loaded_node : forall n a, In (n, a) (gnodes (dgraph d)) -> csv_node d n /\ node_fine d n /\ forall k, attr d n k = dget k a.
Proof.
  destruct I as (W & N & _). intros n a J.
  assert (H : is_node d n) by (apply in_map_iff; exists (n, a); auto).
  split; [auto|]. split; [apply W; exact H|]. intros k. unfold attr, node_of. rewrite (In_dget n a (gnodes (dgraph d))); [reflexivity|apply W|exact J].
Qed.
Lemma loaded_writable : forall n a, In (n, a) (gnodes (dgraph d)) -> node_writable a.
Proof.
  intros n a J. destruct (loaded_node n a J) as ((t & T & K & W & P & Id & D & V & S & _) & (O & N & _) & E).
  unfold has_text in W. setoid_rewrite E in W. setoid_rewrite E in O. setoid_rewrite E in N. rewrite E in T, D. setoid_rewrite E in V.
  exists t. split; [exact T|]. split; [|split; [apply W; left; reflexivity|split; [exact N|split; [exact O|split; [|split; [|exact V]]]]]].
  - right. simpl in K. repeat destruct K as [<- |K]; try contradiction; apply smem_In; reflexivity.
  - intros k Hk. apply W. apply in_or_app. right. exact Hk.
  - intros _. tauto.
Qed.
Lemma loaded_drawn : forall n a, In (n, a) (gnodes (dgraph d)) -> node_drawn a.
Proof.
  intros n a J. destruct (loaded_node n a J) as ((t & T & K & W & P & Id & D & V & S & _) & _ & E).
  unfold has_text in W, S. setoid_rewrite E in W. setoid_rewrite E in S. rewrite E in T.
  split; [|split; [exists t; exact T|]].
  - repeat split; apply W; simpl; tauto.
  - intros H. apply S. congruence.
Qed.
Lemma loaded_process : forall n a, In (n, a) (gnodes (dgraph d)) -> dget "process" a = Some (VStr "process_1") /\ dget "id" a = Some (VStr n).
Proof. intros n a J. destruct (loaded_node n a J) as ((t & T & K & W & P & Id & _) & _ & E). rewrite E in P, Id. auto. Qed.
Lemma loaded_flow : forall e, In e (gedges (dgraph d)) -> flow_writable (eat e).
Proof. intros e J. destruct I as (_ & _ & E & _). destruct (E e J) as (A & B & C & D & _ & F & _). repeat split; auto. destruct F as [F|[i [c [F _]]]]; eauto. Qed.
Lemma loaded_parts : parts_writable d.
Proof.
  constructor.
  - intros n a J. exists (VStr "process_1"). eapply loaded_process; eauto.
  - intros n a p J _ _. eapply loaded_writable; eauto.
  - intros n a J _. eapply loaded_process; eauto.
  - intros e p J _ _. apply loaded_flow. exact J.
  - destruct I as (_ & _ & _ & _ & M & _). rewrite M. destruct P0 as [l ->]. intros p a [J|[]]. injection J as <- <-. repeat split; eexists; reflexivity.
Qed.
Lemma loaded_nesting : nesting d (fun _ => 0).
Proof.
  intros n m Tn Tm P. exfalso. destruct I as (_ & N & _ & X & _). pose proof (attr_is_node _ _ _ _ Tm) as Hm.
  destruct (N m Hm) as (t & _ & _ & _ & P' & _). assert (n = "process_1") by congruence. subst n. exact (X Tn).
Qed.
Lemma loaded_deep : forall fuel, 2 <= fuel -> deep d (fun _ => 0) fuel.
Proof. intros fuel L. split; [lia|]. intros. lia. Qed.
Lemma loaded_no_di : forall fuel, 2 <= fuel -> exists file, export_xml_file_no_di fuel d = Ok file.
Proof.
  intros fuel L. eapply no_di_succeeds; [exact loaded_parts|apply I|exact loaded_nesting|apply loaded_deep; exact L|exact loaded_writable|exact loaded_flow].
Qed.
Lemma loaded_di : forall fuel, 2 <= fuel ->
  (get_flows d = [] -> exists file, export_xml_file fuel d = Ok file) /\
  (get_flows d <> [] -> export_xml_file fuel d = Err (KeyError "waypoints")).
Proof.
  intros fuel L. destruct I as (W & _ & E & _ & M1 & M2 & M3 & M4).
  assert (LA : forall p a, In (p, a) (procs d) -> dget "laneSet" a = None \/
    exists s ls, dget "laneSet" a = Some (VLaneSet s ls) /\ forall i l, lane_in ls i l -> lane_geometry l <> None).
  { rewrite M1. destruct P0 as [l ->]. intros p a [J|[]]. injection J as <- <-. left. reflexivity. }
  destruct (processes_made d _ fuel loaded_parts (proj1 W) loaded_nesting (loaded_deep fuel L) LA) as [ps [Eps Sps]].
  destruct (rmap_strings _ export_node_di_data (nodes_view (dgraph d))) as [sh [Esh Ssh]].
  { intros [n a] J. apply shape_make. eapply loaded_drawn; eauto. }
  unfold export_xml_file, export_tree, export_collaboration. rewrite M2, M3, M4, A0, L0, C0, Eps, Esh.
  cbn [copied dgetE dget rbind String.eqb Ascii.eqb Bool.eqb k_id k_name k_bpmn_element]. split; intros F.
  - rewrite F. cbn [rmap rbind]. apply document_some.
    apply strings_elem'; [unfold definitions_attributes; repeat apply strung_cons; apply strung_nil|]. intros k [<- |J].
    + apply strings_elem'; [repeat apply strung_cons; apply strung_nil|]. intros k [<- |[]]. apply strings_elem'; [repeat apply strung_cons; apply strung_nil|].
      intros k J. simpl in J. apply in_app_or in J. destruct J as [J|J].
      * apply in_flat_map in J. destruct J as [q [Iq J]]. apply (Sps q Iq). exact J.
      * rewrite app_nil_r in J. auto.
    + simpl in J. apply in_map_iff in J. destruct J as [q [<- J]]. apply (proj1 (Sps q J)).
  - destruct (get_flows d) as [|f l] eqn:G; [congruence|].
    assert (Jf : In f (edges_view (dgraph d))) by (unfold get_flows in G; rewrite G; left; reflexivity).
    destruct (view_edge _ _ Jf) as [e [Ie Ee]]. destruct (E e Ie) as ([i Id] & _ & _ & _ & _ & _ & Wp). rewrite <- Ee in Id, Wp.
    cbn [rmap]. unfold export_flow_di_data at 1, waypoint_elements. unfold k_id, k_waypoints. rewrite (proj2 (dgetE_ok _ _ _) Id). cbn [rbind gui].
    unfold dgetE. rewrite Wp. reflexivity.
Qed.
End Loaded.

(** C55.  Every table that loads at all — goto rows included — gives a diagram that can be
    exported without diagram interchange.  (A subprocess row with the order [process_1]
    would be its own process, but such a row has no successor and does not load.) *)
Theorem C55_export_without_di : forall table d fuel, load_diagram_from_csv table empty_diagram = (d, Ok tt) ->
  2 <= fuel ->
  exists file, export_xml_file_no_di fuel d = Ok file.
Proof.
  intros table d fuel H L. destruct (imported_inv table d H) as (d0 & I & C0 & A0 & L0 & P0). eapply loaded_no_di; eauto.
Qed.

(** The export with diagram interchange stops at the first flow: connections made by the
    CSV importer have no waypoints. *)
Theorem C55_export_with_di : forall table d fuel, load_diagram_from_csv table empty_diagram = (d, Ok tt) ->
  2 <= fuel ->
  (get_flows d = [] -> exists file, export_xml_file fuel d = Ok file) /\
  (get_flows d <> [] -> export_xml_file fuel d = Err (KeyError "waypoints")).
Proof.
  intros table d fuel H L. destruct (imported_inv table d H) as (d0 & I & C0 & A0 & L0 & P0). eapply loaded_di; eauto.
Qed.

(** A table with a split, a join, a subprocess and a goto row. *)
Definition orders_table : list (order_label * row) :=
  [(OInt 0, mkRow "start" "" "" "" ""); (OInt 1, mkRow "check" "" "clerk" "" "");
   (OStr "2a", mkRow "ship" "yes" "" "yes" ""); (OStr "2b", mkRow "goto 1" "no" "" "" "");
   (OInt 3, mkRow "archive" "" "" "" ""); (OInt 4, mkRow "done" "" "" "" "yes")].
Example C55_example : exists d, load_diagram_from_csv orders_table empty_diagram = (d, Ok tt) /\ get_flows d <> [] /\
  (exists file, export_xml_file_no_di 2 d = Ok file) /\ export_xml_file 2 d = Err (KeyError "waypoints").
Proof.
  destruct (load_diagram_from_csv orders_table empty_diagram) as [d r] eqn:E. exists d.
  assert (Er : r = Ok tt) by (vm_compute in E; injection E as _ <-; reflexivity). subst r.
  assert (F : get_flows d <> []).
  { replace d with (fst (load_diagram_from_csv orders_table empty_diagram)) by (rewrite E; reflexivity). vm_compute. discriminate. }
  split; [reflexivity|]. split; [exact F|]. split.
  - eapply C55_export_without_di; eauto.
  - eapply C55_export_with_di; eauto.
Qed.
(** A table without flows. *)
Example C55_single : exists d, load_diagram_from_csv [(OInt 0, mkRow "start" "" "" "" "yes")] empty_diagram = (d, Ok tt) /\
  exists file, export_xml_file 2 d = Ok file.
Proof. eexists. split; [vm_compute; reflexivity|]. vm_compute. eexists. reflexivity. Qed.

(** The full claim fails for the export with diagram interchange. *)
Theorem C55_export_refuted : exists table d, load_diagram_from_csv table empty_diagram = (d, Ok tt) /\
  forall fuel, 2 <= fuel -> forall file, export_xml_file fuel d <> Ok file.
Proof.
  exists orders_table. destruct C55_example as (d & E & F & _). exists d. split; [exact E|]. intros fuel L file.
  destruct (C55_export_with_di orders_table d fuel E L) as [_ X]. rewrite (X F). discriminate.
Qed.
Print Assumptions C55_export_without_di.
Print Assumptions C55_export_with_di.
Print Assumptions C55_export_refuted.
