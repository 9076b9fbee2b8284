(** CSV: exporting, loading and exporting again (C94).  Each theorem is followed by a
    concrete case of its hypotheses. *)
From Coq Require Import String Ascii List Bool Arith ZArith Lia Permutation.
From Verif Require Import Py PyFacts Consts Nx NxFacts Rep SpecRep RepFacts MetricsFacts Classify SpecLayout ClassifyFacts.
From Verif Require Import CsvRegex CsvImport SpecCsv RegexFacts CsvFacts CsvTable SpecFlow CsvGhost CsvFill CsvLast CsvExport SpecCsvExport CsvExportFacts CsvChain CsvOrders CsvFan.
From Verif Require Import SpecBlocks BlockExport SpecFlat FlatTable FlatLines FlatAgain.
From Verif Require Import Prop_CsvRows Prop_CsvImport Prop_CsvExport Prop_CsvBlocks Prop_CsvFlat Prop_CsvLayout.
Import ListNotations.
Open Scope string_scope.
Open Scope list_scope.

(** What a line keeps: its number, the name unless it ends the process, and the marks for
    subprocesses and ends; the condition is dropped. *)
Definition kept_line (l : list string) : list string :=
  match l with
  | [o; a; c; w; sb; te] => [o; if String.eqb te "yes" then "" else a; ""; w; sb; te]
  | _ => l
  end.
Lemma kept_act : forall d p k c n, kept_line (act_line d p k c n) = act_line d p k "" n.
Proof. reflexivity. Qed.
Lemma kept_end : forall d p k c n, kept_line (end_line d p k c n) = [(p ++ zstr k)%string; ""; ""; ""; ""; "yes"].
Proof. reflexivity. Qed.
Lemma kept_twice : forall l, kept_line (kept_line l) = kept_line l.
Proof.
  intros [|o [|a [|c [|w [|sb [|te [|]]]]]]]; try reflexivity. cbn [kept_line]. destruct (String.eqb te "yes"); reflexivity.
Qed.

(** * The second file *)
Section Second.
  Variables (d d' : diagram).
  Definition same_act (n l : string) : Prop :=
    attr d' l "type" = attr d n "type" /\ attr d' l "node_name" = attr d n "node_name".
  Definition bare (l : string) : Prop := event_word d' l = "" /\ node_text d' l = "".
  Lemma same_act_line : forall prefix k c n l, same_act n l -> act_line d' prefix k "" l = kept_line (act_line d prefix k c n).
  Proof. intros prefix k c n l [T N]. unfold act_line, kept_line, node_text, is_type. rewrite T, N. reflexivity. Qed.
  Lemma bare_line : forall prefix k c n l, bare l -> end_line d' prefix k "" l = kept_line (end_line d prefix k c n).
  Proof. intros prefix k c n l [T N]. unfold end_line, kept_line. rewrite T, N. reflexivity. Qed.

  Lemma branch_again : forall prefix lab qs m0 c stop, (forall q, In q qs -> is_act q) ->
    (forall m n, nth_error qs m = Some (Act n) -> same_act n (lab (m0 + m))) ->
    (stop <> None -> bare (lab (m0 + length qs))) ->
    sequence_lines d' prefix (Z.of_nat m0) "" (map (fun m => Act (lab m)) (seq m0 (length qs)))
      (match stop with Some _ => Some (lab (m0 + length qs)) | None => None end) =
    map kept_line (sequence_lines d prefix (Z.of_nat m0) c qs stop).
  Proof.
    intros prefix lab. induction qs as [|q qs IH]; intros m0 c stop A H S.
    - cbn [length seq map sequence_lines]. destruct stop as [x|]; [|reflexivity]. cbn [map]. f_equal. apply bare_line, S. discriminate.
    - destruct (A q (or_introl eq_refl)) as [n ->]. cbn [length seq map sequence_lines part_lines]. rewrite map_app.
      replace (Z.of_nat m0 + 1)%Z with (Z.of_nat (Datatypes.S m0)) by lia. rewrite <- Nat.add_succ_comm in *.
      rewrite <- (IH (Datatypes.S m0) "" stop).
      + cbn [map app]. f_equal. apply same_act_line. specialize (H 0 n eq_refl). rewrite Nat.add_0_r in H. exact H.
      + intros. apply A. right. auto.
      + intros m n' Hm. rewrite Nat.add_succ_comm. apply (H (Datatypes.S m) n' Hm).
      + cbn [length] in S. rewrite <- Nat.add_succ_comm in S. exact S.
  Qed.
  Lemma branches_again : forall K g g' bs fs fs' i, length fs = length bs -> length fs' = length bs ->
    (forall f, branch_mark d' g' f = "") -> (forall b, In b bs -> flat_branch b) ->
    (forall i' b m n, nth_error bs i' = Some b -> nth_error (fst b) m = Some (Act n) -> same_act n (row_label K (i + i') (S m))) ->
    (forall i' b x, nth_error bs i' = Some b -> snd b = Some x -> bare (row_label K (i + i') (S (length (fst b))))) ->
    branches_lines d' "" (Z.of_nat K) g' i fs' (relabel_branches K i bs) =
    map kept_line (branches_lines d "" (Z.of_nat K) g i fs bs).
  Proof.
    intros K g g'. induction bs as [|b bs IH]; intros fs fs' i L L' M F Ha He; destruct fs as [|f fs], fs' as [|f' fs']; try discriminate; [reflexivity|].
    cbn [relabel_branches branches_lines]. rewrite map_app. injection L as L. injection L' as L'.
    destruct (F b (or_introl eq_refl)) as [A [R R']]. 
    rewrite <- (IH fs fs' (S i)); auto.
    - f_equal. assert (Rr : 1 <= branch_rows (relabel_branch K i b)).
      { unfold branch_rows, stops, relabel_branch in *. cbn [fst snd]. rewrite map_length, seq_length. destruct (snd b); simpl in *; lia. }
      rewrite !branch_sequence by auto. rewrite M. unfold relabel_branch. cbn [fst snd].
      change 1%Z with (Z.of_nat 1). apply (branch_again _ (row_label K i) (fst b) 1); auto.
      + intros m n Hm. specialize (Ha 0 b m n eq_refl Hm). rewrite Nat.add_0_r in Ha. exact Ha.
      + intros N. destruct (snd b) as [x|] eqn:E; [|congruence]. specialize (He 0 b x eq_refl E). rewrite Nat.add_0_r in He. exact He.
    - intros b' Hb. apply F. right. auto.
    - intros i' b' m n Hb Hm. rewrite Nat.add_succ_comm. apply (Ha (S i') b' m n Hb Hm).
    - intros i' b' x Hb Hx. rewrite Nat.add_succ_comm. apply (He (S i') b' x Hb Hx).
  Qed.
End Second.

Section Twice.
  Variables (d : diagram) (s e : string) (ps : list part) (fuel : nat).
  Hypothesis St : structured d s ps e.
  Hypothesis Fl : flat ps.
  Hypothesis Fu : size ps + 1 < fuel.
  Hypothesis Tx : texts_readable d s ps e.
  Variable table : list (order_label * row).
  Hypothesis Rd : reads (csv_text (csv_columns :: process_lines d s ps e)) table.
  Variable d' : diagram.
  Hypothesis Ld : load_diagram_from_csv table empty_diagram = (d', Ok tt).
  Let qs := relabel 1 ps.
  Let z := num (S (length ps)).

  Lemma no_event : forall n, is_node d' n -> event_word d' n = "".
  Proof using All.
    intros n Hn. destruct (again_text d s e ps fuel St Fl Fu Tx table Rd d' Ld n Hn) as [_ [[E|E] _]]; unfold event_word; rewrite E; reflexivity.
  Qed.
  Lemma no_flow_text : forall f, flow_text d' f = "".
  Proof using All.
    intros f. unfold flow_text, get_flow_by_id.
    assert (X : forall l, (forall t, In t l -> In t (get_flows d')) -> forall t, first_flow f l = Ok (Some t) -> In t (get_flows d')).
    { induction l as [|t l IH]; intros I t' E; [discriminate|]. cbn [first_flow] in E. unfold dgetE in E.
      destruct (dget _ (snd t)) as [v|]; [|discriminate]. cbn [rbind] in E. destruct (veqs v f); [inv E; apply I; left; auto|].
      apply IH; auto. intros. apply I. right. auto. }
    destruct (first_flow f (get_flows d')) as [[t|]|] eqn:E; auto. apply X in E; auto.
    rewrite (again_names d s e ps fuel St Fl Fu Tx table Rd d' Ld t E). reflexivity.
  Qed.
  Lemma no_mark : forall g f, is_node d' g -> branch_mark d' g f = "".
  Proof using All.
    intros g f Hg. unfold branch_mark, condition_text, default_branch. rewrite no_flow_text.
    destruct (again_text d s e ps fuel St Fl Fu Tx table Rd d' Ld g Hg) as [_ [_ [E|E]]]; rewrite E, andb_false_r; destruct (is_type _ _ _); reflexivity.
  Qed.
  Lemma named_bare : forall l, typed d' l "endEvent" -> named d' l "" -> bare d' l.
  Proof using All.
    intros l T N. split; [apply no_event; eapply attr_is_node; eauto|]. unfold node_text. unfold named in N. rewrite N. reflexivity.
  Qed.
  Lemma second_lines : process_lines d' "0" qs z = map kept_line (process_lines d s ps e).
  Proof using All.
    unfold process_lines. cbn [map]. f_equal.
    - destruct (again_start d s e ps fuel St Fl Fu Tx table Rd d' Ld) as [T N]. unfold start_line.
      rewrite no_event by (eapply attr_is_node; eauto). unfold node_text at 1. unfold named in N. rewrite N. reflexivity.
    - change 1%Z with (Z.of_nat 1).
      assert (X : forall ps0 k0, (forall i p, nth_error ps0 i = Some p -> nth_error ps (k0 + i) = Some p) -> k0 + length ps0 = length ps ->
        sequence_lines d' "" (Z.of_nat (S k0)) "" (relabel (S k0) ps0) (Some z) = map kept_line (sequence_lines d "" (Z.of_nat (S k0)) "" ps0 (Some e))).
      { induction ps0 as [|p ps0 IH]; intros k0 H L.
        - cbn [relabel sequence_lines map]. f_equal. apply bare_line. destruct (again_end d s e ps fuel St Fl Fu Tx table Rd d' Ld). apply named_bare; auto.
        - cbn [relabel sequence_lines]. rewrite map_app. replace (Z.of_nat (S k0) + 1)%Z with (Z.of_nat (S (S k0))) by lia.
          rewrite <- IH; [|intros i q Hq; rewrite Nat.add_succ_comm; apply (H (S i) q Hq)|simpl in L; lia]. f_equal.
          specialize (H 0 p eq_refl). rewrite Nat.add_0_r in H. destruct p as [n|g j bs].
          + cbn [relabel_part part_lines map]. f_equal. apply same_act_line. exact (again_act d s e ps fuel St Fl Fu Tx table Rd d' Ld k0 n H).
          + cbn [relabel_part]. rewrite !block_lines, Nat.sub_succ, Nat.sub_0_r.
            assert (B : block_at ps k0 bs) by (exists g, j; auto).
            apply branches_again.
            * eapply (block_facts d s e ps fuel); eauto.
            * rewrite (again_out d s e ps fuel St Fl Fu Tx table Rd d' Ld k0 g j bs H), map_length, seq_length. reflexivity.
            * intros f. apply no_mark. apply (again_gateways d s e ps fuel St Fl Fu Tx table Rd d' Ld k0 bs B).
            * apply (proj1 Fl _ (nth_error_In _ _ H)).
            * intros i b m n Hb Hm. destruct (again_inner d s e ps fuel St Fl Fu Tx table Rd d' Ld k0 g j bs i b m n H Hb Hm) as [A1 [A2 _]]. split; auto.
            * intros i b x Hb Hx. destruct (again_stop d s e ps fuel St Fl Fu Tx table Rd d' Ld k0 g j bs i b x H Hb Hx). apply named_bare; auto. }
      apply (X ps 0); auto.
  Qed.

  Lemma relabel_flat : flat qs.
  Proof using Fl.
    clear - Fl. unfold qs. split.
    - intros q Hq. apply in_relabel in Hq. destruct Hq as [k [p [H ->]]]. pose proof (proj1 Fl _ (nth_error_In _ _ H)) as F.
      destruct p as [n|g j bs]; [exact I|]. destruct F as [[i [i' [b [b' [Ne [Hi [Hi' [Sb Sb']]]]]]]] Fb]. split.
      + exists i, i', (relabel_branch (S k) i b), (relabel_branch (S k) i' b'). split; auto.
        rewrite !branches_nth. cbn [Nat.add]. unfold branch_t in *. rewrite Hi, Hi'. unfold relabel_branch. cbn [snd option_map]. rewrite Sb, Sb'. auto.
      + intros c Hc. apply in_branches in Hc. destruct Hc as [i0 [b0 [Hb ->]]]. destruct (Fb b0 (nth_error_In _ _ Hb)) as [A R]. split.
        * intros p Hp. unfold relabel_branch in Hp. cbn [fst] in Hp. apply in_map_iff in Hp. destruct Hp as [m [<- _]]. red. eauto.
        * unfold branch_rows, stops, relabel_branch in *. cbn [fst snd]. rewrite map_length, seq_length. destruct (snd b0); exact R.
    - intros k p q Hp Hq [g [j [bs ->]]]. rewrite relabel_nth in Hp, Hq.
      destruct (nth_error ps k) as [[n|g1 j1 bs1]|] eqn:E; try discriminate. destruct (nth_error ps (S k)) as [p2|] eqn:E2; [|discriminate].
      destruct (proj2 Fl k _ _ E E2) as [n ->]; [red; eauto|]. cbn [option_map relabel_part] in Hq. inv Hq. red. eauto.
  Qed.
  Lemma relabel_size : size qs = size ps.
  Proof using Fl.
    clear - Fl. unfold qs, size. assert (X : forall l k, (forall p, In p l -> flat_part p) -> map part_size (relabel k l) = map part_size l).
    { induction l as [|p l IH]; intros k F; [reflexivity|]. cbn [relabel map]. f_equal; [|apply IH; intros; apply F; right; auto].
      specialize (F p (or_introl eq_refl)). destruct p as [n|g j bs]; [reflexivity|]. destruct F as [_ F]. cbn [relabel_part part_size]. do 3 f_equal.
      generalize 0. induction bs as [|b bs IHb]; intros i; [reflexivity|]. cbn [relabel_branches map]. f_equal; [|apply IHb; intros; apply F; right; auto].
      destruct (F b (or_introl eq_refl)) as [A _]. f_equal. unfold relabel_branch. cbn [fst]. clear - A. generalize 1 as m0. revert A. generalize (fst b).
      induction l as [|q l IHl]; intros A m0; [reflexivity|]. destruct (A q (or_introl eq_refl)) as [n ->]. cbn [length seq map list_sum fold_right part_size].
      f_equal. apply IHl. intros; apply A; right; auto. }
    rewrite X; auto. apply Fl.
  Qed.
  Lemma readable_nil : readable "".
  Proof. split; [apply verbatim_nil|]. intros [c1 [c2 [c3 [c4 [r [E _]]]]]]. discriminate. Qed.
  Lemma again_readable : texts_readable d' "0" qs z.
  Proof using All.
    split; [|intros; rewrite no_flow_text; apply verbatim_nil]. destruct Tx as [T _].
    assert (Nt : forall l t, named d' l t -> node_text d' l = t) by (intros l t N; unfold node_text; unfold named in N; rewrite N; reflexivity).
    assert (Ne : forall n l, attr d' l "node_name" = attr d n "node_name" -> node_text d' l = node_text d n) by (intros n l E; unfold node_text; rewrite E; reflexivity).
    intros l [<- |Hl].
    - destruct (again_start d s e ps fuel St Fl Fu Tx table Rd d' Ld) as [_ N]. rewrite (Nt _ _ N). apply event_readable, T. left. auto.
    - apply in_app_iff in Hl. destruct Hl as [Hl|Hl].
      + apply in_flat_map in Hl. destruct Hl as [q [Hq Hl]]. apply in_relabel in Hq. destruct Hq as [k [p [H ->]]]. destruct p as [n|g j bs].
        * destruct Hl as [<- |[]]. rewrite (Ne n) by (apply (again_act d s e ps fuel St Fl Fu Tx table Rd d' Ld k n H)). apply T. right.
          rewrite !in_app_iff. left. apply in_flat_map. exists (Act n). split; [eapply nth_error_In; eauto|left; auto].
        * cbn [relabel_part part_acts] in Hl. apply in_flat_map in Hl. destruct Hl as [c [Hc Hl]]. apply in_branches in Hc. destruct Hc as [i [b [Hb ->]]].
          unfold relabel_branch in Hl. cbn [fst] in Hl. apply in_flat_map in Hl. destruct Hl as [p [Hp Hl]]. apply in_map_iff in Hp. destruct Hp as [m [<- Hm]].
          destruct Hl as [<- |[]]. apply in_seq in Hm. destruct m as [|m]; [lia|].
          destruct (nth_error (fst b) m) as [q|] eqn:Hn; [|apply nth_error_None in Hn; lia].
          destruct (proj2 (proj1 Fl _ (nth_error_In _ _ H)) b (nth_error_In _ _ Hb)) as [Ac _]. destruct (Ac q (nth_error_In _ _ Hn)) as [n ->].
          rewrite (Ne n) by (apply (again_inner d s e ps fuel St Fl Fu Tx table Rd d' Ld k g j bs i b m n H Hb Hn)). apply T. right.
          rewrite !in_app_iff. left. eapply (acts_in d s e ps fuel); eauto.
      + apply in_app_iff in Hl. destruct Hl as [Hl|[<- |[]]].
        * apply ends_relabelled in Hl. destruct Hl as [k [g [j [bs [i [b [x [H [B [Ex ->]]]]]]]]]].
          rewrite (Nt _ ""); [apply readable_nil|]. eapply (again_stop d s e ps fuel St Fl Fu Tx table Rd d' Ld); eauto.
        * rewrite (Nt _ ""); [apply readable_nil|]. eapply (again_end d s e ps fuel St Fl Fu Tx table Rd d' Ld).
  Qed.
End Twice.

(** * C94 *)
(** Loading a table: the flows behind a gateway that splits stand in the order of the rows
    they lead to. *)
Theorem C94_branch_order : forall table d d', fresh d -> documented table -> goto_free table ->
  load_diagram_from_csv table d = (d', Ok tt) ->
  let rows := rows_of table in
  forall o, splits rows o -> is_node d' (split_of o) ->
  exists opens, (forall b, In b (orders rows) -> (opens b = true <-> branch rows o b)) /\
    outgoing_of d' (split_of o) = map (get_flow_id (split_of o)) (filter opens (orders rows)).
Proof.
  intros table d d' F D G H rows. pose proof (fan_import table d d') as X. cbv zeta in X.
  rewrite (rows_cleaned table (proj1 D)) in X. apply X; auto. apply free_rows; auto.
Qed.
(** The loaded diagram has the structure of the exported one, part by part and branch by
    branch. *)
Theorem C94_structure : forall d s ps e fuel text table d', structured d s ps e -> flat ps -> texts_readable d s ps e -> size ps + 1 < fuel ->
  export_process_to_csv fuel d None = (Some text, Ok tt) -> reads text table -> load_diagram_from_csv table empty_diagram = (d', Ok tt) ->
  structured d' "0" (relabel 1 ps) (num (S (length ps))).
Proof.
  intros d s ps e fuel text table d' St Fl Tx Fu Ex Rd Ld. rewrite (C81_lines d s ps e fuel St Fu) in Ex. injection Ex as <-.
  eapply (again_structured d s e ps fuel); eauto.
Qed.
(** Exported again it gives the same lines without the conditions and without the names of
    the end events. *)
Theorem C94_second_export : forall d s ps e fuel text table d', structured d s ps e -> flat ps -> texts_readable d s ps e -> size ps + 1 < fuel ->
  export_process_to_csv fuel d None = (Some text, Ok tt) -> reads text table -> load_diagram_from_csv table empty_diagram = (d', Ok tt) ->
  exists lines, text = csv_text (csv_columns :: lines) /\ Forall2 line_row lines table /\
    export_process_to_csv fuel d' None = (Some (csv_text (csv_columns :: map kept_line lines)), Ok tt).
Proof.
  intros d s ps e fuel text table d' St Fl Tx Fu Ex Rd Ld. rewrite (C81_lines d s ps e fuel St Fu) in Ex. injection Ex as <-.
  exists (process_lines d s ps e). split; auto. split; [eapply (same_lines d s e ps fuel); eauto|].
  rewrite <- (second_lines d s e ps fuel St Fl Fu Tx table Rd d' Ld). apply C81_lines.
  - eapply (again_structured d s e ps fuel); eauto.
  - rewrite relabel_size; auto.
Qed.
(** From then on nothing changes. *)
Theorem C94_stable : forall d s ps e fuel text table d' text' table' d'', structured d s ps e -> flat ps -> texts_readable d s ps e -> size ps + 1 < fuel ->
  export_process_to_csv fuel d None = (Some text, Ok tt) -> reads text table -> load_diagram_from_csv table empty_diagram = (d', Ok tt) ->
  export_process_to_csv fuel d' None = (Some text', Ok tt) -> reads text' table' -> load_diagram_from_csv table' empty_diagram = (d'', Ok tt) ->
  export_process_to_csv fuel d'' None = (Some text', Ok tt).
Proof.
  intros d s ps e fuel text table d' text' table' d'' St Fl Tx Fu Ex Rd Ld Ex' Rd' Ld'. rewrite (C81_lines d s ps e fuel St Fu) in Ex. injection Ex as <-.
  assert (St' : structured d' "0" (relabel 1 ps) (num (S (length ps)))) by (eapply (again_structured d s e ps fuel); eauto).
  assert (Fu' : size (relabel 1 ps) + 1 < fuel) by (rewrite relabel_size; auto).
  assert (Tx' : texts_readable d' "0" (relabel 1 ps) (num (S (length ps)))) by (eapply (again_readable d s e ps fuel); eauto).
  rewrite (C81_lines d' _ _ _ fuel St' Fu') in Ex'. injection Ex' as <-.
  assert (Ls : process_lines d' "0" (relabel 1 ps) (num (S (length ps))) = map kept_line (process_lines d s ps e)) by (eapply second_lines; eauto).
  pose proof (relabel_flat ps Fl) as Fl'.
  assert (Ls' : process_lines d'' "0" (relabel 1 (relabel 1 ps)) (num (S (length (relabel 1 ps)))) = map kept_line (process_lines d' "0" (relabel 1 ps) (num (S (length ps))))) by (eapply second_lines; eauto).
  rewrite Ls in Ls'. rewrite map_map in Ls'. rewrite (map_ext _ kept_line kept_twice) in Ls'. rewrite Ls, <- Ls'. apply C81_lines.
  - eapply (again_structured d' "0" (num (S (length ps))) (relabel 1 ps) fuel); eauto.
  - rewrite relabel_size; auto.
Qed.
(** In the diagram of the second file every gateway that splits is parallel. *)
Theorem C94_decisions_lost : forall d s ps e fuel text table d' text' table' d'', structured d s ps e -> flat ps -> texts_readable d s ps e -> size ps + 1 < fuel ->
  export_process_to_csv fuel d None = (Some text, Ok tt) -> reads text table -> load_diagram_from_csv table empty_diagram = (d', Ok tt) ->
  export_process_to_csv fuel d' None = (Some text', Ok tt) -> reads text' table' -> load_diagram_from_csv table' empty_diagram = (d'', Ok tt) ->
  forall k g j bs, nth_error ps k = Some (Block g j bs) -> typed d'' (split_of (num k)) "parallelGateway".
Proof.
  intros d s ps e fuel text table d' text' table' d'' St Fl Tx Fu Ex Rd Ld Ex' Rd' Ld' k g j bs H. rewrite (C81_lines d s ps e fuel St Fu) in Ex. injection Ex as <-.
  assert (St' : structured d' "0" (relabel 1 ps) (num (S (length ps)))) by (eapply (again_structured d s e ps fuel); eauto).
  assert (Fu' : size (relabel 1 ps) + 1 < fuel) by (rewrite relabel_size; auto).
  assert (Tx' : texts_readable d' "0" (relabel 1 ps) (num (S (length ps)))) by (eapply (again_readable d s e ps fuel); eauto).
  pose proof (relabel_flat ps Fl) as Fl'.
  assert (H' : nth_error (relabel 1 ps) k = Some (Block (split_of (num k)) (join_of (num (S (S k)))) (relabel_branches (S k) 0 bs))).
  { rewrite relabel_nth, H. cbn [option_map relabel_part Nat.add]. rewrite Nat.sub_succ, Nat.sub_0_r. reflexivity. }
  destruct (C82_gateways d' "0" (relabel 1 ps) (num (S (length ps))) fuel text' table' empty_diagram d'' St' Fl' Tx' Fu' Ex' Rd' fresh_empty Ld' k _ _ _
    (map (fun _ => "") (outgoing_of d' (split_of (num k)))) H') as [t [T [_ [P _]]]].
  { assert (M : forall f, branch_mark d' (split_of (num k)) f = "").
    { intros f. eapply (no_mark d s e ps fuel); eauto. eapply (again_gateways d s e ps fuel St Fl Fu Tx table Rd d' Ld k bs). exists g, j. auto. }
    induction (outgoing_of d' (split_of (num k))) as [|f l IH]; cbn [map]; constructor; auto. rewrite M. exists "", "".
    split; auto. split; [intros c []|]. split; [intros c []|]. split; intros c u E; [discriminate|destruct u; discriminate]. }
  rewrite (proj2 P) in T; auto. split.
  - intros [a [b [E D]]]. assert (X : forall c, In c [a; b] -> c = "").
    { intros c Hc. rewrite <- E in Hc. apply in_map_iff in Hc. destruct Hc as [_ [<- _]]. auto. }
    pose proof (X a (or_introl eq_refl)). pose proof (X b (or_intror (or_introl eq_refl))). subst. cbn in D. intuition discriminate.
  - intros c Hc. apply in_map_iff in Hc. destruct Hc as [_ [<- _]]. auto.
Qed.

(** * Examples *)
Definition first_lines : list (list string) := process_lines flat_demo "s" flat_parts "e".
Definition second_text : string := csv_text (csv_columns :: map kept_line first_lines).
Definition second_table : list (order_label * row) := table_of (map kept_line first_lines).
Definition second_loaded : diagram := fst (load_diagram_from_csv second_table empty_diagram).
Lemma second_reads : reads second_text second_table.
Proof. apply table_reads; vm_compute; reflexivity. Qed.
Example C94_second_export_example :
  structured flat_demo "s" flat_parts "e" /\ flat flat_parts /\ texts_readable flat_demo "s" flat_parts "e" /\ size flat_parts + 1 < 40 /\
  export_process_to_csv 40 flat_demo None = (Some (csv_text (csv_columns :: first_lines)), Ok tt) /\
  reads (csv_text (csv_columns :: first_lines)) flat_table /\
  load_diagram_from_csv flat_table empty_diagram = (flat_loaded, Ok tt) /\
  first_lines =
    [["0"; "timer begin"; ""; ""; ""; ""]; ["1a1"; "pack"; "small"; ""; ""; ""]; ["1a2"; "weigh"; ""; ""; "yes"; ""];
     ["1b1"; "call"; "else"; ""; ""; ""]; ["1c1"; "refuse"; "bad"; ""; ""; ""]; ["1c2"; "over"; ""; ""; ""; "yes"];
     ["2"; "close"; ""; ""; ""; ""]; ["3a1"; "left"; ""; ""; ""; ""]; ["3b1"; "right"; ""; ""; ""; ""]; ["4"; "message done"; ""; ""; ""; "yes"]] /\
  map kept_line first_lines =
    [["0"; "timer begin"; ""; ""; ""; ""]; ["1a1"; "pack"; ""; ""; ""; ""]; ["1a2"; "weigh"; ""; ""; "yes"; ""];
     ["1b1"; "call"; ""; ""; ""; ""]; ["1c1"; "refuse"; ""; ""; ""; ""]; ["1c2"; ""; ""; ""; ""; "yes"];
     ["2"; "close"; ""; ""; ""; ""]; ["3a1"; "left"; ""; ""; ""; ""]; ["3b1"; "right"; ""; ""; ""; ""]; ["4"; ""; ""; ""; ""; "yes"]] /\
  export_process_to_csv 40 flat_loaded None = (Some second_text, Ok tt).
Proof.
  destruct flat_demo_ok as [_ [S [F [T [L [E [R _]]]]]]]. split; [exact S|]. split; [exact F|]. split; [exact T|]. split; [exact L|]. split; [exact E|]. split; [exact R|].
  do 3 (split; [vm_compute; reflexivity|]). vm_compute. reflexivity.
Qed.
Example C94_stable_example :
  export_process_to_csv 40 flat_loaded None = (Some second_text, Ok tt) /\ reads second_text second_table /\
  load_diagram_from_csv second_table empty_diagram = (second_loaded, Ok tt) /\
  export_process_to_csv 40 second_loaded None = (Some second_text, Ok tt) /\
  map (fun l => attr flat_loaded l "type") ["0_split"; "2_split"] = [Some (VStr "inclusiveGateway"); Some (VStr "parallelGateway")] /\
  map (fun l => attr second_loaded l "type") ["0_split"; "2_split"] = [Some (VStr "parallelGateway"); Some (VStr "parallelGateway")].
Proof.
  split; [vm_compute; reflexivity|]. split; [apply second_reads|]. do 3 (split; [vm_compute; reflexivity|]). vm_compute. reflexivity.
Qed.
Lemma block_splits : forall d s e ps fuel table, structured d s ps e -> flat ps -> size ps + 1 < fuel -> texts_readable d s ps e ->
  reads (csv_text (csv_columns :: process_lines d s ps e)) table ->
  forall k g j bs, nth_error ps k = Some (Block g j bs) -> splits (rows_of table) (num k).
Proof.
  intros d s e ps fuel table S F L T R k g j bs H.
  apply (splits_iff ps F (few d s e ps fuel S F L T table R) _ (orders_iff d s e ps fuel S F L T table R) (onward_top d s e ps fuel S F L T table R)).
  exists k, bs. split; auto. exists g, j. auto.
Qed.
Example C94_branch_order_example : splits (rows_of flat_table) "0" /\ is_node flat_loaded "0_split" /\
  outgoing_of flat_loaded "0_split" = ["0_split__1a1"; "0_split__1b1"; "0_split__1c1"].
Proof.
  destruct flat_demo_ok as [_ [S [F [T [L [E [R _]]]]]]].
  split; [|split; [apply node_ok; vm_compute; reflexivity|vm_compute; reflexivity]].
  change "0" with (num 0). exact (block_splits flat_demo "s" "e" flat_parts 40 flat_table S F L T R 0 _ _ _ eq_refl).
Qed.

(** Exporting what was loaded does not give the file back. *)
Theorem C94_file_kept_refuted : exists ops d ps text table d' text', history ops d /\ structured d "s" ps "e" /\ flat ps /\
  texts_readable d "s" ps "e" /\ export_process_to_csv 40 d None = (Some text, Ok tt) /\ reads text table /\
  load_diagram_from_csv table empty_diagram = (d', Ok tt) /\ export_process_to_csv 40 d' None = (Some text', Ok tt) /\ text' <> text.
Proof.
  destruct flat_demo_ok as [H [S [F [T [_ [E [R _]]]]]]].
  exists flat_ops, flat_demo, flat_parts. eexists. exists flat_table, flat_loaded, second_text.
  split; [exact H|]. split; [exact S|]. split; [exact F|]. split; [exact T|]. split; [exact E|]. split; [exact R|]. split; [vm_compute; reflexivity|]. split; [vm_compute; reflexivity|].
  vm_compute. discriminate.
Qed.
Print Assumptions C94_branch_order.
Print Assumptions C94_structure.
Print Assumptions C94_second_export.
Print Assumptions C94_stable.
Print Assumptions C94_decisions_lost.
Print Assumptions C94_file_kept_refuted.
