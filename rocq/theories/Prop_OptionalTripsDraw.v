(** The drawing of processes with optional steps after any number of CSV trips (C119).
    Each theorem is followed by a concrete case of its hypotheses. *)
From Coq Require Import String Ascii List Bool Arith ZArith Lia Permutation.
From Verif Require Import Py PyFacts Consts Nx NxFacts Rep SpecRep RepFacts MetricsFacts Classify Layouter SpecLayout ClassifyFacts TopoFacts LayoutFacts.
From Verif Require Import SpecBlocks SpecFlat SpecPlan PlanBlocks Prop_BlockLayout SpecOptions OptionShape OptionPlan Prop_Options.
From Verif Require Import CsvRegex CsvImport SpecCsv RegexFacts CsvFacts CsvTable SpecFlow CsvGhost CsvFill CsvLast CsvTotal CsvExport SpecCsvExport CsvExportFacts CsvChain CsvOrders.
From Verif Require Import BlockExport FlatTable FlatLines GotoFacts OptionalTable OptionalDraw.
From Verif Require Import Xml Export Import SpecXml SpecRound SpecWrite Prop_XmlRound Prop_XmlWrites Prop_XmlDrawn.
From Verif Require Import Prop_LayoutMetrics Prop_Layout Prop_CsvRows Prop_CsvImport Prop_CsvExport Prop_CsvBlocks Prop_CsvFlat SpecGoto Prop_CsvGoto Prop_CsvLayout Prop_GotoLayout Prop_BlockCsv Prop_CsvOptional.
From Verif Require Import OptionalAgain OptionalTidy SpecTrips Prop_OptionalDraw Prop_OptionalAgain Prop_OptionalTrips.
From Verif Require Import SpecOptional SpecAgain.
Import ListNotations.
Open Scope string_scope.
Open Scope list_scope.

(** The nodes outside the branches. *)
Definition main_line (ps : list part) : list string :=
  flat_map (fun p => match p with Act n => [n] | Block g j _ => [g; j] end) ps.

(** * Moving the direct flows *)
Lemma plain_stays : forall bs, (forall b, In b bs -> plain_branch b) -> direct_last bs = bs /\ has_direct bs = false.
Proof.
  intros bs P. assert (N : forall b, In b bs -> is_direct b = false).
  { intros b Hb. destruct (P b Hb) as [_ [A _]]. destruct b as [[|q l] o]; [elim A; reflexivity|reflexivity]. }
  assert (Q : filter (fun b => negb (is_direct b)) bs = bs /\ filter is_direct bs = []).
  { induction bs as [|b bs IH]; auto. cbn [filter]. rewrite (N b) by (left; auto). cbn [negb]. destruct IH as [A B]; [intros c Hc; apply P; right; auto|intros c Hc; apply N; right; auto|].
    rewrite A, B. auto. }
  unfold direct_last. destruct Q as [-> ->]. rewrite app_nil_r. split; auto.
  apply plain_no_direct. exact P.
Qed.
Lemma moved_step : forall p, step_part p -> step_part (move_direct p).
Proof.
  intros [n|g j bs] H; [exact I|]. cbn [move_direct step_part] in *. destruct H as [[L P]|[a [-> | ->]]].
  - left. rewrite (proj1 (plain_stays bs P)). auto.
  - right. exists a. left. reflexivity.
  - right. exists a. left. reflexivity.
Qed.
Lemma steps_single : forall ps, (forall p, In p ps -> step_part p) -> single_steps ps.
Proof.
  intros ps P k g j bs H D. apply nth_error_In in H. destruct (P _ H) as [[_ Q]|[a [-> | ->]]].
  - rewrite (proj2 (plain_stays bs Q)) in D. discriminate.
  - apply lone_count. cbn. lia.
  - apply lone_count. cbn. lia.
Qed.

(** * The same places *)
Lemma moved_places : forall A B n ps k row col e, length ps <= n -> (forall p, In p ps -> step_part p) -> steps_followed ps ->
  (forall k p q, nth_error ps k = Some p -> nth_error ps (S k) = Some q -> SpecFlat.is_block p -> is_act q) ->
  picture_at A row col (drawn k ps) e -> picture_at B row col (drawn k (map move_direct ps)) e ->
  (forall x, In x (main_line (drawn k ps) ++ [e]) -> exists r c, A x r c /\ B x r c) /\
  (forall m g j bs i a, nth_error ps m = Some (Block g j bs) -> has_direct bs = true -> nth_error bs i = Some ([Act a], None) ->
     exists r c, A (row_label (k + m) i 1) r c /\ B (row_label (k + m) 0 1) r c).
Proof.
  intros A B. induction n as [n IH] using lt_wf_ind. intros ps k row col e Hn P Sf Nb HA HB.
  assert (Tail : forall p qs, ps = p :: qs -> (forall q, In q qs -> step_part q) /\ steps_followed qs /\
    forall k p q, nth_error qs k = Some p -> nth_error qs (S k) = Some q -> SpecFlat.is_block p -> is_act q).
  { intros p qs ->. split; [intros q Hq; apply P; right; auto|]. split.
    - intros m g j bs H D. specialize (Sf (S m) g j bs H D). cbn [length] in Sf. lia.
    - intros m x y H H'. apply (Nb (S m)); auto. }
  destruct ps as [|[a|g j bs] qs].
  - cbn in HA, HB. split; [intros x [<- |[]]; eauto|]. intros [|m] g j bs i a H; discriminate.
  - cbn [length] in Hn. destruct (Tail _ _ eq_refl) as [P' [Sf' Nb']]. cbn [drawn map move_direct picture_at] in HA, HB.
    destruct HA as [A1 A2], HB as [B1 B2]. destruct (IH (length qs) ltac:(lia) qs (S k) row (col + 1)%Z e (le_n _) P' Sf' Nb' A2 B2) as [X Y]. split.
    + intros x Hx. cbn [drawn main_line flat_map app] in Hx. destruct Hx as [<- |Hx]; eauto.
    + intros [|m] g j bs i b H D Hi; [discriminate|]. replace (k + S m) with (S k + m) by lia. eapply Y; eauto.
  - cbn [length] in Hn. destruct (Tail _ _ eq_refl) as [P' [Sf' Nb']]. pose proof (P _ (or_introl eq_refl)) as Pb. cbn [step_part] in Pb.
    destruct Pb as [[L Pl]|Pb].
    + destruct (plain_stays bs Pl) as [M D]. cbn [drawn map move_direct] in HA, HB |- *. rewrite M in HB. rewrite D in HA, HB |- *. cbn [picture_at] in HA, HB.
      destruct HA as [A1 [A2 [_ A3]]], HB as [B1 [B2 [_ B3]]].
      destruct (IH (length qs) ltac:(lia) qs (S k) _ _ e (le_n _) P' Sf' Nb' A3 B3) as [X Y]. split.
      * intros x Hx. cbn [main_line flat_map app] in Hx. destruct Hx as [<- |[<- |Hx]]; eauto.
      * intros [|m] g0 j0 bs0 i b H D0 Hi; [injection H as <- <- <-; congruence|]. replace (k + S m) with (S k + m) by lia. eapply Y; eauto.
    + assert (D : has_direct bs = true) by (destruct Pb as [a [-> | ->]]; reflexivity).
      pose proof (Sf 0 g j bs eq_refl D) as Lq. destruct qs as [|q rest]; [cbn in Lq; lia|].
      destruct (Nb 0 _ q eq_refl eq_refl) as [b ->]; [red; eauto|]. cbn [length] in Hn.
      assert (P2 : forall q, In q rest -> step_part q) by (intros q Hq; apply P'; right; auto).
      assert (Sf2 : steps_followed rest) by (intros m g0 j0 bs0 H D0; specialize (Sf' (S m) g0 j0 bs0 H D0); cbn [length] in Sf'; lia).
      assert (Nb2 : forall k p q, nth_error rest k = Some p -> nth_error rest (S k) = Some q -> SpecFlat.is_block p -> is_act q) by (intros m x y H H'; apply (Nb' (S m)); auto).
      assert (St : forall (l l' : list branch_t) a i, bs = l -> direct_last l = l' -> l' = [([Act a], None); ([], None)] ->
        SpecOptions.rows_of row (relabel_branches k 0 l) = SpecOptions.rows_of row (relabel_branches k 0 l') -> filter has_steps (relabel_branches k 0 l) = [([Act (row_label k i 1)], None)] ->
        SpecOptions.direct (relabel_branches k 0 l) = true -> length l = 2 -> longest (relabel_branches k 0 l) = 1%Z ->
        (forall i' a', nth_error l i' = Some ([Act a'], None) -> i' = i) ->
        (forall x, In x (main_line (drawn k (Block g j bs :: Act b :: rest)) ++ [e]) -> exists r c, A x r c /\ B x r c) /\
        (forall m g0 j0 bs0 i0 a0, nth_error (Block g j bs :: Act b :: rest) m = Some (Block g0 j0 bs0) -> has_direct bs0 = true -> nth_error bs0 i0 = Some ([Act a0], None) ->
          exists r c, A (row_label (k + m) i0 1) r c /\ B (row_label (k + m) 0 1) r c)).
      { intros l l' a i E1 E2 E3 Er Ef Ed El Eg Ei. subst bs. cbn [drawn map move_direct] in HA, HB |- *. rewrite E2, E3 in HB. change (has_direct [([Act a], None); ([], None)]) with true in HB.
        rewrite D in HA |- *. cbn [picture_at] in HA, HB. destruct HA as [A1 [A2 [[ra [Pa Fa]] A3]]], HB as [B1 [B2 [[rb [Pb' Fb]] B3]]].
        assert (Ra : row_after row (relabel_branches k 0 l) = row_after row (relabel_branches k 0 [([Act a], None); ([], None)])).
        { unfold row_after. rewrite Ed, (labelled_len k l 0), El. reflexivity. }
        rewrite Ra, Eg in A2, A3. change (longest (relabel_branches k 0 [([Act a], None); ([], None)])) with 1%Z in B2, B3.
        destruct (IH (length rest) ltac:(lia) rest (S (S k)) _ _ e (le_n _) P2 Sf2 Nb2 A3 B3) as [X Y]. split.
        - intros x Hx. cbn [main_line flat_map app] in Hx. destruct Hx as [<- |[<- |Hx]]; eauto.
        - intros [|[|m]] g0 j0 bs0 i0 a0 H D0 Hi; [|discriminate|].
          + injection H as <- <- <-. apply Ei in Hi. subst i0. rewrite Nat.add_0_r. rewrite Ef in Fa.
            rewrite Er, E3 in Pa. cbn in Pa, Pb'. apply Permutation_sym, Permutation_length_1_inv in Pa. apply Permutation_sym, Permutation_length_1_inv in Pb'. subst ra rb.
            inversion Fa as [|? ? ? ? Fa1 _]; subst. cbn in Fb. inversion Fb as [|? ? ? ? Fb1 _]; subst. cbn in Fa1, Fb1. destruct Fa1 as [Fa1 _], Fb1 as [Fb1 _]. eauto.
          + replace (k + S (S m)) with (S (S k) + m) by lia. eapply Y; eauto. }
      destruct Pb as [a [E|E]].
      * eapply (St _ _ a 0 E); try reflexivity. intros [|[|i']] a' H; auto; try discriminate. destruct i'; discriminate.
      * eapply (St _ _ a 1 E); try reflexivity. intros [|[|i']] a' H; auto; try discriminate. destruct i'; discriminate.
Qed.

Lemma cell_unique : forall d n r c r' c', in_cell d n r c -> in_cell d n r' c' -> r = r' /\ c = c'.
Proof.
  intros d n r c r' c' [X Y] [X' Y']. rewrite X in X'. rewrite Y in Y'.
  assert (Inj : forall a b, Some (VStr (zstr a)) = Some (VStr (zstr b)) -> a = b) by (intros a b E; apply zstr_inj; congruence).
  apply Inj in X', Y'. lia.
Qed.
Lemma shared_cell : forall d d' n n', (exists r c, in_cell d n r c /\ in_cell d' n' r c) -> forall r c, in_cell d n r c <-> in_cell d' n' r c.
Proof.
  intros d d' n n' [r0 [c0 [A B]]] r c. split; intros H.
  - destruct (cell_unique _ _ _ _ _ _ H A) as [-> ->]. exact B.
  - destruct (cell_unique _ _ _ _ _ _ H B) as [-> ->]. exact A.
Qed.

(** * C119 *)
(** The diagram loaded from any later file has the picture of the process with the direct flows last; XML keeps it. *)
Theorem C119_picture : forall d s ps e fuel text n text' table, structured d s ps e -> SpecOptional.optional ps -> (forall p, In p ps -> step_part p) -> steps_followed ps ->
  texts_readable d s ps e -> size ps + 1 < fuel -> export_process_to_csv fuel d None = (Some text, Ok tt) ->
  trips fuel (S n) text text' -> reads text' table ->
  let qs := drawn 1 (map move_direct ps) in let z := num (S (length ps)) in
  exists d1 bound, load_diagram_from_csv table empty_diagram = (d1, Ok tt) /\
    forall fuel1, bound <= fuel1 -> exists d2, generate_layout fuel1 d1 = (d2, Ok tt) /\
      in_cell d2 "0" 2 1 /\ picture_at (in_cell d2) 2 2 qs z /\
      forall set_order, any_order set_order -> exists bound', forall fuel2, bound' <= fuel2 ->
      exists d3, round_trip set_order fuel2 d2 d3 /\ (forall n, is_node d3 n <-> In n (all_nodes "0" qs z)) /\
        in_cell d3 "0" 2 1 /\ picture_at (in_cell d3) 2 2 qs z.
Proof.
  intros d s ps e fuel text n text' table St Op Sp Sf Tx Fu Ex Tr Rd. pose proof (steps_single ps Sp) as Sg.
  pose proof (second_text_is d s ps e fuel text n text' St Op Sg Sf Tx Fu Ex Tr) as E2.
  assert (Fu' : size (map move_direct ps) + 1 < fuel) by (rewrite move_size; exact Fu).
  pose proof (second_is_file d s ps e fuel St Op Fu) as Ex'. rewrite <- E2 in Ex'.
  assert (Sp' : forall p, In p (map move_direct ps) -> step_part p) by (intros p Hp; apply in_map_iff in Hp; destruct Hp as [q [<- Hq]]; apply moved_step; auto).
  destruct (C111_csv (tidy d) s (map move_direct ps) e fuel (tidy_structured d s ps e St Op) (move_optional ps Op) Sp' (move_followed ps Sf) (move_texts d s ps e St Tx) Fu')
    as [t [Et [_ H]]]. assert (t = text') by congruence. subst t. specialize (H table Rd). rewrite map_length in H. exact H.
Qed.

(** Every node outside the branches is drawn in the same place whichever file the diagram was loaded from, and so is the
    activity of every optional step, whose branch is the first one in later files. *)
Theorem C119_places : forall d s ps e fuel text table d1 fuel1 d2 n text' table' d1' fuel1' d2',
  structured d s ps e -> SpecOptional.optional ps -> (forall p, In p ps -> step_part p) -> steps_followed ps ->
  texts_readable d s ps e -> size ps + 1 < fuel -> export_process_to_csv fuel d None = (Some text, Ok tt) ->
  reads text table -> load_diagram_from_csv table empty_diagram = (d1, Ok tt) -> sort_bound d1 <= fuel1 -> generate_layout fuel1 d1 = (d2, Ok tt) ->
  trips fuel (S n) text text' -> reads text' table' -> load_diagram_from_csv table' empty_diagram = (d1', Ok tt) ->
  sort_bound d1' <= fuel1' -> generate_layout fuel1' d1' = (d2', Ok tt) ->
  (forall x, In x ("0" :: main_line (drawn 1 ps) ++ [num (S (length ps))]) -> forall r c, in_cell d2 x r c <-> in_cell d2' x r c) /\
  (forall k g j bs i a, nth_error ps k = Some (Block g j bs) -> has_direct bs = true -> nth_error bs i = Some ([Act a], None) ->
     forall r c, in_cell d2 (row_label (S k) i 1) r c <-> in_cell d2' (row_label (S k) 0 1) r c).
Proof.
  intros d s ps e fuel text table d1 fuel1 d2 n text' table' d1' fuel1' d2' St Op Sp Sf Tx Fu Ex Rd Ld F1 Ly Tr Rd' Ld' F1' Ly'.
  pose proof (steps_single ps Sp) as Sg. pose proof (second_text_is d s ps e fuel text n text' St Op Sg Sf Tx Fu Ex Tr) as E2.
  rewrite (C81_lines d s ps e fuel St Fu) in Ex. injection Ex as <-. rewrite <- tidy_lines in E2 by auto. subst text'.
  assert (Fu' : size (map move_direct ps) + 1 < fuel) by (rewrite move_size; exact Fu).
  assert (Sp' : forall p, In p (map move_direct ps) -> step_part p) by (intros p Hp; apply in_map_iff in Hp; destruct Hp as [q [<- Hq]]; apply moved_step; auto).
  destruct (loaded_consists d s e ps fuel table d1 St Op Sp Sf Tx Fu Rd Ld) as [_ [_ [_ [Co [AL [W [Dr Cs]]]]]]].
  destruct (loaded_consists (tidy d) s e (map move_direct ps) fuel table' d1' (tidy_structured d s ps e St Op) (move_optional ps Op) Sp' (move_followed ps Sf)
    (move_texts d s ps e St Tx) Fu' Rd' Ld') as [_ [_ [_ [Co' [AL' [W' [Dr' Cs']]]]]]]. rewrite map_length in Cs'.
  destruct (C97_picture d1 "0" _ _ fuel1 Co AL W Dr Cs (drawn_loose (length ps) ps 1 (le_n _) Sp) F1) as [d3 [L3 [S3 Pi]]].
  destruct (C97_picture d1' "0" _ _ fuel1' Co' AL' W' Dr' Cs' (drawn_loose _ _ 1 (le_n _) Sp') F1') as [d4 [L4 [S4 Pi']]].
  assert (d3 = d2) by congruence. assert (d4 = d2') by congruence. subst d3 d4.
  destruct (moved_places (in_cell d2) (in_cell d2') (length ps) ps 1 2 2 _ (le_n _) Sp Sf (proj2 Op) Pi Pi') as [X Y]. split.
  - intros x [<- |Hx]; apply shared_cell; eauto.
  - intros k g j bs i a H D Hi. apply shared_cell. change (S k) with (1 + k). eapply Y; eauto.
Qed.

(** * Example: the three optional steps *)
Definition step_drawn : diagram := fst (generate_layout 200 step_loaded).
Definition step_drawn_again : diagram := fst (generate_layout 200 step_again).
Definition cells (d : diagram) (l : list string) : list (option pyval * option pyval) := map (fun n => (attr d n "x", attr d n "y")) l.
Example C119_picture_example : structured step_demo "s" step_parts "e" /\ SpecOptional.optional step_parts /\ (forall p, In p step_parts -> step_part p) /\ steps_followed step_parts /\
  texts_readable step_demo "s" step_parts "e" /\ size step_parts + 1 < 40 /\ trips 40 1 (csv_text (csv_columns :: process_lines step_demo "s" step_parts "e")) step_second /\
  reads step_second step_again_table /\
  drawn 1 (map move_direct step_parts) =
    [Act "1"; Block "1_split" "3" [([Act "2a1"], None); ([], None)]; Block "3_split" "5" [([Act "4a1"], None); ([], None)]; Block "5_split" "7" [([Act "6a1"], None); ([], None)]].
Proof.
  destruct step_demo_ok as [A [B [C _]]]. destruct step_parts_ok as [D [E F]]. repeat (split; [assumption|]).
  split; [eapply trips_more; [exact step_first_trip|apply trips_none]|]. split; [exact step_again_reads|]. vm_compute. reflexivity.
Qed.
Example C119_places_example : load_diagram_from_csv step_table empty_diagram = (step_loaded, Ok tt) /\ load_diagram_from_csv step_again_table empty_diagram = (step_again, Ok tt) /\
  sort_bound step_loaded <= 200 /\ sort_bound step_again <= 200 /\
  generate_layout 200 step_loaded = (step_drawn, Ok tt) /\ generate_layout 200 step_again = (step_drawn_again, Ok tt) /\
  main_line (drawn 1 step_parts) = ["1"; "1_split"; "3"; "3_split"; "5"; "5_split"; "7"] /\
  cells step_drawn ["0"; "1"; "1_split"; "3"; "3_split"; "5"; "5_split"; "7"; "8"; "2a1"; "4b1"; "6a1"] =
  cells step_drawn_again ["0"; "1"; "1_split"; "3"; "3_split"; "5"; "5_split"; "7"; "8"; "2a1"; "4a1"; "6a1"] /\
  attr step_drawn "4b1" "node_name" = Some (VStr "do x") /\ attr step_drawn_again "4a1" "node_name" = Some (VStr "do x").
Proof.
  split; [vm_compute; reflexivity|]. split; [vm_compute; reflexivity|]. split; [apply Nat.leb_le; vm_compute; reflexivity|]. split; [apply Nat.leb_le; vm_compute; reflexivity|].
  split; [vm_compute; reflexivity|]. split; [vm_compute; reflexivity|]. repeat split; vm_compute; reflexivity.
Qed.

Print Assumptions C119_picture.
Print Assumptions C119_places.
