(** Layout metrics of processes that went through a CSV file (C106).
    Each theorem is followed by a concrete case of its hypotheses. *)
From Coq Require Import String Ascii List Bool Arith ZArith QArith Lia Permutation.
From Verif Require Import Py PyFacts Consts Nx NxFacts Rep SpecRep RepFacts Classify Layouter SpecLayout ClassifyFacts TopoFacts Prop_Layout.
From Verif Require Import CsvRegex CsvImport CsvExport SpecCsv SpecFlow SpecCsvExport SpecBlocks SpecFlat CsvFacts CsvGhost CsvGraph CsvFill CsvLast CsvCoherent FlatTable FlatLines FlatAgain
  Prop_CsvImport Prop_CsvBlocks Prop_CsvFlat Prop_CsvLayout Prop_CsvAgain.
From Verif Require Import SpecPlan PlanBlocks Prop_BlockLayout Prop_BlockCsv SpecCrossing LayoutMetrics Prop_Crossing SpecMeasure MeasureFacts Prop_Measure CsvMeasure Prop_CsvMeasure.
Import ListNotations.
Open Scope string_scope.
Open Scope list_scope.
Open Scope nat_scope.

Section Loaded.
Variables (rows : dict row) (d0 d' : diagram) (L : flows_of).
Hypothesis I : imported rows d0 d' L.
Hypothesis W : gwf (dgraph d').
Lemma loaded_flows_are : forall fs, Permutation L fs -> flows_are d' fs.
Proof.
  intros fs P. destruct (edges_view_reports _ W) as [es [Pe Fe]]. exists (map both es). split.
  - assert (Ie : forall e, In e es -> In e (gedges (dgraph d'))) by (intros e He; apply (Permutation_in _ Pe); exact He).
    unfold get_flows. clear - Fe Ie I W. induction Fe as [|t e ts es R F IH]; cbn [map]; constructor.
    + destruct (edge_attrs _ _ _ _ I W e (Ie e (or_introl eq_refl))) as (_ & _ & A & B). destruct R as [R _]. rewrite R. split; [exact A|exact B].
    + apply IH. intros e' He'. apply Ie. right. exact He'.
  - eapply Permutation_trans; [apply Permutation_map; exact Pe|]. eapply Permutation_trans; [apply (loaded_edges _ _ _ _ I W)|exact P].
Qed.
Lemma loaded_usual : forall n t, is_node d' n -> attr d' n "type" = Some (VStr t) -> In t gateway_types -> usual_gateway d' n.
Proof.
  intros n t Hn E T. exists t. split; [exact E|]. apply (im_nodes _ _ _ _ I) in Hn. pose proof Hn as [[O|[[o [S ->]]|[o [m [M ->]]]]] _].
  - exfalso. unfold orders in O. apply in_map_iff in O. destruct O as [[o r] [<- O]]. cbn [fst] in *. rewrite (im_type _ _ _ _ I _ _ O) in E. injection E as <-.
    unfold row_type in T. repeat destruct (String.eqb _ _); cbn in T; intuition discriminate.
  - destruct (im_split _ _ _ _ I o S Hn) as [ty [G X]]. rewrite X in E. injection E as <-. unfold get_gateway_type in G.
    destruct (get_all_split_successors _ _); [|discriminate]. cbn [rbind] in G. destruct (get_node_conditions _ _); [|discriminate].
    cbn [rbind] in G. injection G as <-. destruct (_ && _); [vm_compute; tauto|]. destruct (no_conditions _); vm_compute; tauto.
  - destruct (im_join _ _ _ _ I o m M Hn) as [ty [G X]]. rewrite X in E. injection E as <-. unfold three_gateways in G. intuition subst; vm_compute; tauto.
Qed.
End Loaded.

Lemma alike_drawn : forall ps qs, map erase ps = map erase qs -> process_crossings ps = process_crossings qs /\ process_segments ps = process_segments qs.
Proof.
  assert (Lb : forall p q, erase p = erase q -> part_crossings p = part_crossings q /\ part_segments p = part_segments q).
  { intros [n|g j bs] [n'|g' j' bs'] E; cbn [erase] in E; try discriminate; [auto|]. injection E as E. cbn [part_crossings part_segments]. unfold branch_t.
    assert (Ln : length bs = length bs') by (rewrite <- (map_length (fun b : list part * option string => (map erase (fst b), option_map (fun _ => "") (snd b))) bs), E, map_length; reflexivity).
    rewrite Ln. split; [reflexivity|]. do 2 f_equal. f_equal. f_equal.
    clear Ln. revert bs' E. induction bs as [|b t IH]; intros [|b' t'] E; cbn [map] in E; try discriminate; [reflexivity|]. injection E as E1 _ E3. cbn [map]. f_equal; [|apply IH; exact E3].
    rewrite <- (map_length erase (fst b)), E1, map_length. reflexivity. }
  intros ps qs E. revert qs E. unfold process_crossings, process_segments. induction ps as [|p t IH]; intros [|q t'] E; cbn [map] in E; try discriminate; [auto|]. injection E as E1 E2.
  destruct (Lb p q E1) as [A B], (IH t' E2) as [C D]. cbn [map]. change (list_sum (part_crossings p :: map part_crossings t)) with (part_crossings p + list_sum (map part_crossings t)).
  change (list_sum (part_crossings q :: map part_crossings t')) with (part_crossings q + list_sum (map part_crossings t')).
  change (list_sum (part_segments p :: map part_segments t)) with (part_segments p + list_sum (map part_segments t)).
  change (list_sum (part_segments q :: map part_segments t')) with (part_segments q + list_sum (map part_segments t')). lia.
Qed.

(** The crossings and segments of the loaded and laid out process follow from the structure
    that was exported. *)
Theorem C106_loaded_picture : forall d s ps e fuel text table d' fuel' pyfloat, structured d s ps e -> flat ps -> (forall p, In p ps -> plain_part p) ->
  texts_readable d s ps e -> size ps + 1 < fuel ->
  export_process_to_csv fuel d None = (Some text, Ok tt) -> reads text table -> load_diagram_from_csv table empty_diagram = (d', Ok tt) ->
  reads_integers pyfloat -> sort_bound d' <= fuel' ->
  exists d2, generate_layout fuel' d' = (d2, Ok tt) /\
    count_crossing_points pyfloat d2 = Ok (process_crossings ps) /\ count_segments pyfloat d2 = Ok (process_segments ps).
Proof.
  intros d s ps e fuel text table d' fuel' pf St Fl Pl Tx Fu Ex Rd Ld Rf F2. set (qs := relabel 1 ps). set (z := num (S (length ps))).
  destruct (loaded_made d s ps e fuel text table d' St Fl Tx Fu Ex Rd Ld) as (M & K & Sd & _). fold qs z in M, K. destruct M as (N & So & Nd & Fr).
  rewrite (C81_lines d s ps e fuel St Fu) in Ex. injection Ex as <-.
  assert (D : documented table) by (eapply (table_documented d s e ps fuel); eauto).
  assert (G : goto_free table) by (eapply (table_no_goto d s e ps fuel); eauto).
  destruct (C83_ready_for_layout table d' D G Ld) as (Co & AL & W & Dr & Tf).
  destruct (table_loaded table empty_diagram d' fresh_empty D G Ld) as [L Im].
  assert (Lf : forall x y, In (x, y) L <-> In (x, y) (path_flows "0" qs z)) by (intros x y; rewrite <- Fr; symmetry; apply (loaded_records _ _ _ _ Im)).
  assert (P : Permutation L (path_flows "0" qs z)) by (apply NoDup_Permutation; [apply Im|apply process_nodup; assumption|intros [x y]; apply Lf]).
  assert (Cs : consists d' "0" qs z).
  { split; [exact N|]. split; [exact Nd|]. split.
    - intros x y. rewrite <- Lf. unfold goes. split.
      + intros [f Hf]. apply (imported_flow _ _ _ _ Im W) in Hf. apply Hf.
      + intro H. exists (gid (x, y)). apply (imported_flow _ _ _ _ Im W). auto.
    - intros f g x y A B. apply (imported_flow _ _ _ _ Im W) in A, B. destruct A, B. congruence. }
  assert (Gf : gateways_fit d' "0" qs).
  { destruct K as (K1 & _ & K3 & K4). split.
    - intros g j bs Hb.
      assert (U : forall n, In n (part_gates (Block g j bs)) -> In n (part_nodes (Block g j bs)) -> usual_gateway d' n).
      { intros n Hn Hp. destruct (K4 n) as (t & Et & It); [apply in_flat_map; eauto|]. apply (loaded_usual _ _ _ _ Im n t); auto. apply Nd. right. apply in_or_app. left. apply in_flat_map. eauto. }
      split; apply U; cbn [part_gates part_nodes]; auto using in_eq, in_cons.
    - intros n [<-|Hn] (t & Et & It).
      + rewrite K1 in Et. injection Et as <-. cbn in It. intuition discriminate.
      + destruct (K3 n Hn) as [X|X]; rewrite X in Et; injection Et as <-; cbn in It; intuition discriminate. }
  destruct (alike_drawn _ _ (eq_sym (relabel_alike ps 1 (proj1 Fl)))) as [A1 A2]. rewrite A1, A2. fold qs.
  apply (C98_metrics d' "0" qs z fuel' pf Co AL W Dr Cs (relabel_plain ps 1 Pl) (loaded_flows_are _ _ _ _ Im W _ P) Gf Rf F2).
Qed.

(** So the process gets the same numbers, drawn as it was made with the API or after the way through the file. *)
Theorem C106_same_picture_numbers : forall l d s ps e fuel text table d' fuel' pyfloat, history l d -> distinct_pairs d -> made_of d s ps e ->
  structured d s ps e -> flat ps -> (forall p, In p ps -> plain_part p) -> gateways_fit d s ps ->
  texts_readable d s ps e -> size ps + 1 < fuel ->
  export_process_to_csv fuel d None = (Some text, Ok tt) -> reads text table -> load_diagram_from_csv table empty_diagram = (d', Ok tt) ->
  reads_integers pyfloat -> sort_bound d <= fuel' -> sort_bound d' <= fuel' ->
  exists d1 d2 c n, generate_layout fuel' d = (d1, Ok tt) /\ generate_layout fuel' d' = (d2, Ok tt) /\
    count_crossing_points pyfloat d1 = Ok c /\ count_crossing_points pyfloat d2 = Ok c /\
    count_segments pyfloat d1 = Ok n /\ count_segments pyfloat d2 = Ok n.
Proof.
  intros l d s ps e fuel text table d' fuel' pf H D (N & So & Nd & Fr) St Fl Pl Gf Tx Fu Ex Rd Ld Rf F1 F2.
  destruct (C98_api l d s ps e fuel' pf H D N Nd Fr Pl Gf Rf F1) as (d1 & E1 & C1 & S1).
  destruct (C106_loaded_picture d s ps e fuel text table d' fuel' pf St Fl Pl Tx Fu Ex Rd Ld Rf F2) as (d2 & E2 & C2 & S2).
  exists d1, d2, (process_crossings ps), (process_segments ps). auto 10.
Qed.

(** * Example *)
Lemma sale_made : history (build_ops "s" sale_parts "e") sale /\ distinct_pairs sale /\ made_of sale "s" sale_parts "e".
Proof.
  assert (H : history (build_ops "s" sale_parts "e") sale /\ coherent sale) by (apply built; vm_compute; reflexivity). destruct H as [H _]. split; [exact H|].
  assert (Fl : flat sale_parts) by (apply flat_ok; vm_compute; reflexivity).
  apply (made_ok _ _ "s" sale_parts "e" H); [vm_compute; reflexivity|]. intros p Hp. apply flat_sound. exact (proj1 Fl p Hp).
Qed.
Definition sale_loaded : diagram := fst (load_diagram_from_csv sale_table empty_diagram).
Example C106_example : process_crossings sale_parts = 2 /\
  count_crossing_points read_integer (fst (generate_layout 90 sale)) = Ok 2 /\
  count_crossing_points read_integer (fst (generate_layout 90 sale_loaded)) = Ok 2 /\
  count_segments read_integer (fst (generate_layout 90 sale_loaded)) = Ok (process_segments sale_parts).
Proof. vm_compute. repeat split. Qed.
Example C106_applies : exists d1 d2 c n, generate_layout 90 sale = (d1, Ok tt) /\ generate_layout 90 sale_loaded = (d2, Ok tt) /\
    count_crossing_points read_integer d1 = Ok c /\ count_crossing_points read_integer d2 = Ok c /\
    count_segments read_integer d1 = Ok n /\ count_segments read_integer d2 = Ok n.
Proof.
  destruct sale_made as (H & D & M). destruct C85_csv_example as (St & Fl & Pl & Tx & Fu & Rd & _).
  assert (Ex : export_process_to_csv 40 sale None = (Some sale_text, Ok tt)) by (vm_compute; reflexivity).
  assert (Ld : load_diagram_from_csv sale_table empty_diagram = (sale_loaded, Ok tt)) by (vm_compute; reflexivity).
  assert (Gf : gateways_fit sale "s" sale_parts) by (apply fit_ok; vm_compute; reflexivity).
  exact (C106_same_picture_numbers _ sale "s" sale_parts "e" 40 sale_text sale_table sale_loaded 90 read_integer H D M St Fl Pl Gf Tx Fu Ex Rd Ld read_integer_ok
    (proj1 (Nat.leb_le (sort_bound sale) 90) ltac:(vm_compute; reflexivity)) (proj1 (Nat.leb_le (sort_bound sale_loaded) 90) ltac:(vm_compute; reflexivity))).
Qed.
Print Assumptions C106_loaded_picture.
Print Assumptions C106_same_picture_numbers.
