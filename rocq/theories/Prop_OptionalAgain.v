(** Processes with optional steps exported to CSV, loaded and exported again (C114).
    Each theorem is followed by a concrete case of its hypotheses. *)
From Coq Require Import String Ascii List Bool Arith ZArith Lia.
From Verif Require Import Py PyFacts Consts Nx NxFacts Rep SpecRep RepFacts MetricsFacts SpecLayout.
From Verif Require Import CsvRegex CsvImport SpecCsv RegexFacts CsvFacts CsvTable SpecFlow CsvGhost CsvFill CsvLast CsvTotal CsvExport SpecCsvExport CsvExportFacts CsvChain CsvOrders.
From Verif Require Import SpecBlocks BlockExport SpecFlat FlatTable FlatLines GotoFacts CsvGotoFan SpecOptional OptionalTable SpecAgain SpecLoose OptionalAgain.
From Verif Require Import Prop_CsvRows Prop_CsvImport Prop_CsvExport Prop_CsvBlocks Prop_CsvFlat SpecGoto Prop_CsvGoto Prop_CsvLayout Prop_CsvOptional Prop_CsvAgain Prop_Loose Prop_OptionalDraw.
From Verif Require Import SpecOptional SpecAgain.
Import ListNotations.
Open Scope string_scope.
Open Scope list_scope.

(** * The order of the branches of a table with jumps *)
(** The flows out of a gateway: the branches that start with an element in the order of their rows, then the
    goals of the jumps in the order of theirs. *)
Theorem C114_branch_order : forall table d d', fresh d -> documented table -> neat_jumps (rows_of table) ->
  load_diagram_from_csv table d = (d', Ok tt) ->
  let rows := rows_of table in
  forall o, splits rows o -> is_node d' (split_of o) ->
  exists opens jumps goals,
    (forall b, In b (orders rows) -> (opens b = true <-> branch rows o b /\ ~ goto_order rows b)) /\
    (forall b r, In (b, r) rows -> (jumps (b, r) = true <-> branch rows o b /\ goto_row r)) /\
    Forall2 (fun x y => second_word (r_activity (snd x)) y) (filter jumps rows) goals /\
    outgoing_of d' (split_of o) = map (get_flow_id (split_of o)) (filter opens (orders rows) ++ goals).
Proof.
  intros table d d' F D NJ H rows. pose proof (goto_fan_import table d d') as X. cbv zeta in X.
  rewrite (rows_cleaned table (proj1 D)) in X. exact (X F D NJ H).
Qed.

(** * The loaded diagram and the second file *)
Lemma acts_size : forall lab l m0, (forall q, In q l -> is_act q) -> map part_size (map (fun m => Act (lab m)) (seq m0 (length l))) = map part_size l.
Proof.
  intros lab. induction l as [|q l IH]; intros m0 A; [reflexivity|]. destruct (A q (or_introl eq_refl)) as [n ->]. cbn [length seq map part_size].
  f_equal. apply IH. intros; apply A; right; auto.
Qed.
Lemma direct_last_sum : forall (h : branch_t -> nat) bs, list_sum (map h (direct_last bs)) = list_sum (map h bs).
Proof.
  intros h bs. unfold direct_last. rewrite map_app, list_sum_app. induction bs as [|b bs IH]; [reflexivity|]. cbn [filter].
  destruct (is_direct b); cbn [negb map list_sum fold_right] in *; unfold list_sum in *; lia.
Qed.
Lemma reloaded_size : forall ps, optional ps -> size (reloaded 1 ps) = size ps.
Proof.
  intros ps [Op _]. unfold size. f_equal. generalize 1 as k. revert Op. induction ps as [|p ps IH]; intros Op k; [reflexivity|]. cbn [reloaded map]. f_equal.
  2: { apply IH. intros; apply Op; right; auto. }
  specialize (Op p (or_introl eq_refl)). destruct p as [n|g j bs]; [reflexivity|]. destruct Op as [_ [_ [F _]]]. cbn [reload_part part_size]. do 2 f_equal.
  rewrite direct_last_sum. f_equal. generalize 0. induction bs as [|b bs IHb]; intros i; [reflexivity|]. cbn [relabel_branches map].
  f_equal; [|apply IHb; intros; apply F; right; auto]. do 2 f_equal. unfold relabel_branch. cbn [fst]. apply acts_size.
  destruct (F b (or_introl eq_refl)) as [[A _]|D]; [exact A|red in D; subst b; intros q []].
Qed.
Theorem C114_structure : forall d s ps e fuel text table d', structured d s ps e -> optional ps -> single_steps ps -> steps_followed ps ->
  texts_readable d s ps e -> size ps + 1 < fuel ->
  export_process_to_csv fuel d None = (Some text, Ok tt) -> reads text table -> load_diagram_from_csv table empty_diagram = (d', Ok tt) ->
  loose_process d' "0" (reloaded 1 ps) (num (S (length ps))).
Proof.
  intros d s ps e fuel text table d' St Op Sg Sf Tx Fu Ex Rd Ld. rewrite (C81_lines d s ps e fuel St Fu) in Ex. injection Ex as <-.
  exact (oa_process d s e ps fuel St Op Fu Tx table Rd d' Ld Sg Sf).
Qed.
(** Exported again: the lines of the process in which the direct flow is the last branch of its block, without conditions
    and without the names of end events. *)
Theorem C114_second_export : forall d s ps e fuel text table d', structured d s ps e -> optional ps -> single_steps ps -> steps_followed ps ->
  texts_readable d s ps e -> size ps + 1 < fuel ->
  export_process_to_csv fuel d None = (Some text, Ok tt) -> reads text table -> load_diagram_from_csv table empty_diagram = (d', Ok tt) ->
  export_process_to_csv fuel d' None = (Some (csv_text (csv_columns :: map kept_line (process_lines d s (map move_direct ps) e))), Ok tt).
Proof.
  intros d s ps e fuel text table d' St Op Sg Sf Tx Fu Ex Rd Ld. rewrite (C81_lines d s ps e fuel St Fu) in Ex. injection Ex as <-.
  rewrite <- (oa_second d s e ps fuel St Op Fu Tx table Rd d' Ld Sg Sf). apply C113_lines; [exact (oa_process d s e ps fuel St Op Fu Tx table Rd d' Ld Sg Sf)|].
  rewrite reloaded_size; auto.
Qed.
(** With every direct flow last already, the second file has the lines of the first. *)
Lemma ends_last : forall bs, (forall i b, nth_error bs i = Some b -> direct b -> S i = length bs) -> direct_last bs = bs.
Proof.
  induction bs as [|b bs IH]; intros H; [reflexivity|]. unfold direct_last. cbn [filter]. destruct (is_direct b) eqn:E.
  - apply is_direct_spec in E. specialize (H 0 b eq_refl E). destruct bs; [reflexivity|discriminate].
  - cbn [negb app]. f_equal. apply IH. intros i c Hc D. specialize (H (S i) c Hc D). cbn [length] in H. lia.
Qed.
Theorem C114_lines_kept : forall d s ps e fuel text table d', structured d s ps e -> optional ps -> single_steps ps -> steps_followed ps -> direct_ends ps ->
  texts_readable d s ps e -> size ps + 1 < fuel ->
  export_process_to_csv fuel d None = (Some text, Ok tt) -> reads text table -> load_diagram_from_csv table empty_diagram = (d', Ok tt) ->
  exists lines, text = csv_text (csv_columns :: lines) /\ Forall2 line_row lines table /\
    export_process_to_csv fuel d' None = (Some (csv_text (csv_columns :: map kept_line lines)), Ok tt).
Proof.
  intros d s ps e fuel text table d' St Op Sg Sf De Tx Fu Ex Rd Ld. pose proof (C114_second_export d s ps e fuel text table d' St Op Sg Sf Tx Fu Ex Rd Ld) as X.
  rewrite (C81_lines d s ps e fuel St Fu) in Ex. injection Ex as <-. exists (process_lines d s ps e). split; auto.
  split; [exact (osame_lines d s e ps fuel St Op Fu Tx table Rd)|].
  assert (Em : map move_direct ps = ps); [|rewrite Em in X; exact X].
  rewrite <- (map_id ps) at 2. apply map_ext_in. intros p Hp. apply In_nth_error in Hp. destruct Hp as [k Hk]. destruct p as [n|g j bs]; [reflexivity|].
  cbn [move_direct]. rewrite ends_last; auto. intros i b Hb D. eapply De; eauto.
Qed.

(** * Example: three optional steps, one of them with the direct flow first *)
Definition step_loaded : diagram := fst (load_diagram_from_csv step_table empty_diagram).
Lemma single_lone : forall n, lone [([Act n], None); ([], None)] /\ lone [([], None); ([Act n], None)].
Proof.
  intros n. split; intros [|[|i]] [|[|i']] b b' H H' M M'; cbn in H, H'; auto; try (injection H as <-; elim (proj2 M); reflexivity);
    try (injection H' as <-; elim (proj2 M'); reflexivity); try (destruct i; discriminate); try (destruct i'; discriminate).
Qed.
Lemma step_single : single_steps step_parts.
Proof.
  intros [|[|[|[|[|[|[|k]]]]]]] g j bs H _; cbn in H; try discriminate; try (injection H as _ _ <-; apply single_lone). destruct k; discriminate.
Qed.
Example C114_structure_example : structured step_demo "s" step_parts "e" /\ optional step_parts /\ single_steps step_parts /\ steps_followed step_parts /\
  texts_readable step_demo "s" step_parts "e" /\ size step_parts + 1 < 40 /\ load_diagram_from_csv step_table empty_diagram = (step_loaded, Ok tt) /\
  reloaded 1 step_parts = [Act "1"; Block "1_split" "3" [([Act "2a1"], None); ([], None)]; Act "3"; Block "3_split" "5" [([Act "4b1"], None); ([], None)]; Act "5";
    Block "5_split" "7" [([Act "6a1"], None); ([], None)]; Act "7"].
Proof.
  destruct step_demo_ok as [S [T [L _]]]. destruct step_parts_ok as [O [_ F]]. split; [exact S|]. split; [exact O|]. split; [exact step_single|]. split; [exact F|].
  split; [exact T|]. split; [exact L|]. split; [vm_compute; reflexivity|]. reflexivity.
Qed.
Example C114_second_export_example :
  process_lines step_demo "s" step_parts "e" =
    [["0"; "begin"; ""; ""; ""; ""]; ["1"; "do a"; ""; ""; ""; ""]; ["2a1"; "do b"; "if b"; ""; ""; ""]; ["2b1"; "goto 3"; "if j1"; ""; ""; ""]; ["3"; "do c"; ""; ""; ""; ""];
     ["4a1"; "goto 5"; ""; ""; ""; ""]; ["4b1"; "do x"; ""; ""; ""; ""]; ["5"; "do h"; ""; ""; ""; ""]; ["6a1"; "do y"; ""; ""; ""; ""]; ["6b1"; "goto 7"; ""; ""; ""; ""];
     ["7"; "do k"; ""; ""; ""; ""]; ["8"; "done"; ""; ""; ""; "yes"]] /\
  map kept_line (process_lines step_demo "s" (map move_direct step_parts) "e") =
    [["0"; "begin"; ""; ""; ""; ""]; ["1"; "do a"; ""; ""; ""; ""]; ["2a1"; "do b"; ""; ""; ""; ""]; ["2b1"; "goto 3"; ""; ""; ""; ""]; ["3"; "do c"; ""; ""; ""; ""];
     ["4a1"; "do x"; ""; ""; ""; ""]; ["4b1"; "goto 5"; ""; ""; ""; ""]; ["5"; "do h"; ""; ""; ""; ""]; ["6a1"; "do y"; ""; ""; ""; ""]; ["6b1"; "goto 7"; ""; ""; ""; ""];
     ["7"; "do k"; ""; ""; ""; ""]; ["8"; ""; ""; ""; ""; "yes"]].
Proof. split; vm_compute; reflexivity. Qed.
Example C114_branch_order_example : documented step_table /\ neat_jumps (rows_of step_table) /\ splits (rows_of step_table) "3" /\ is_node step_loaded "3_split" /\
  outgoing_of step_loaded "3_split" = ["3_split__4b1"; "3_split__5"].
Proof.
  destruct step_demo_ok as [S [T [L [_ [_ R]]]]]. destruct step_parts_ok as [O _].
  split; [exact (odocumented step_demo "s" "e" step_parts 40 S O L T step_table R)|]. split; [exact (oneat step_demo "s" "e" step_parts 40 S O L T step_table R)|].
  split; [|split; [apply node_ok; vm_compute; reflexivity|vm_compute; reflexivity]]. change "3" with (num 3).
  apply (proj2 (splits_iff (fill step_parts) (fill_flat step_parts O) (fill_few step_parts (ofew step_demo "s" "e" step_parts 40 S O L T step_table R)) _
    (oorders_iff step_demo "s" "e" step_parts 40 S O L T step_table R) (oonward_top step_demo "s" "e" step_parts 40 S O L T step_table R) (num 3))).
  exists 3, (map fill_branch [([], None); ([Act "x"], None)]). split; [exists "g2", "j2"; reflexivity|reflexivity].
Qed.
(** Two optional steps whose direct flow is last. *)
Definition tail_parts : list part :=
  [Block "g1" "j1" [([Act "b"; Act "f"], None); ([], Some "e2"); ([], None)]; Act "c"; Block "g2" "j2" [([Act "x"], None); ([Act "y"], None)]].
Definition tail_ops : list op :=
  [ONew "m" "0"; OStart "id2" "begin" None false true (Some "s") "" ""] ++
  map (fun n => OTask "id2" ("do " ++ n)%string (Some n) "") ["b"; "f"; "c"; "x"; "y"] ++
  flat_map (fun n => [OExclusive "id2" "g" "Diverging" None (Some ("g" ++ n)%string) ""; OExclusive "id2" "j" "Converging" None (Some ("j" ++ n)%string) ""]) ["1"; "2"] ++
  [OEnd "id2" "over" None (Some "e2") "" ""; OEnd "id2" "done" None (Some "e") "" ""] ++
  map (fun p => OFlow "id2" (fst p) (snd p) (if String.eqb (fst p) "g1" then "if " ++ snd p else "")%string (fst p ++ snd p)%string) (path_flows "s" tail_parts "e").
Definition tail_demo : diagram := run empty_diagram tail_ops.
Definition tail_table : list (order_label * row) := table_of (process_lines tail_demo "s" tail_parts "e").
Lemma tail_parts_ok : optional tail_parts /\ single_steps tail_parts /\ steps_followed tail_parts /\ direct_ends tail_parts.
Proof.
  split; [split|split; [|split]].
  - intros p [<- |[<- |[<- |[]]]]; [| exact I |].
    + split; [exists 0, 2, ([Act "b"; Act "f"], None), ([], None); repeat split; discriminate|].
      split; [exists ([Act "b"; Act "f"], None); split; [left; auto|split; [auto|discriminate]]|]. split.
      * intros b [<- |[<- |[<- |[]]]]; [left; split; [intros p [<- |[<- |[]]]; red; eauto|cbn; lia]|left; split; [intros p []|cbn; lia]|right; reflexivity].
      * intros [|[|[|i]]] [|[|[|i']]] b b' H H' D D'; cbn in H, H'; auto; try (injection H as <-; red in D; discriminate D); try (injection H' as <-; red in D'; discriminate D');
          try (destruct i; discriminate); try (destruct i'; discriminate).
    + split; [exists 0, 1, ([Act "x"], None), ([Act "y"], None); repeat split; discriminate|].
      split; [exists ([Act "x"], None); split; [left; auto|split; [auto|discriminate]]|]. split.
      * intros b [<- |[<- |[]]]; left; (split; [intros p [<- |[]]; red; eauto|cbn; lia]).
      * intros [|[|i]] [|[|i']] b b' H H' D D'; cbn in H, H'; auto; try (injection H as <-; red in D; discriminate D); try (injection H' as <-; red in D'; discriminate D');
          try (destruct i; discriminate); try (destruct i'; discriminate).
  - intros [|[|[|k]]] p q Hp Hq [g [j [bs B]]]; cbn in Hp, Hq; try (destruct k; discriminate); injection Hp as <-; try discriminate; injection Hq as <-; red; eauto.
  - intros [|[|[|k]]] g j bs H Hd; cbn in H; try discriminate; try (destruct k; discriminate); injection H as _ _ <-; [|discriminate].
    intros [|[|[|i]]] [|[|[|i']]] b b' H H' M M'; cbn in H, H'; auto; try (injection H as <-; elim (proj2 M); reflexivity); try (injection H' as <-; elim (proj2 M'); reflexivity);
      try (destruct i; discriminate); try (destruct i'; discriminate).
  - intros [|[|[|k]]] g j bs Hp D; cbn in Hp; try discriminate; try (destruct k; discriminate); [cbn; lia|]. injection Hp as _ _ <-. discriminate.
  - intros [|[|[|k]]] g j bs [|[|[|i]]] b Hp Hb D; cbn in Hp; try discriminate; try (destruct k; discriminate); injection Hp as _ _ <-; cbn in Hb; try reflexivity;
      try (destruct i; discriminate); try discriminate; injection Hb as <-; red in D; discriminate.
Qed.
Example C114_lines_kept_example : history tail_ops tail_demo /\ structured tail_demo "s" tail_parts "e" /\ texts_readable tail_demo "s" tail_parts "e" /\ size tail_parts + 1 < 40 /\
  reads (csv_text (csv_columns :: process_lines tail_demo "s" tail_parts "e")) tail_table /\
  snd (load_diagram_from_csv tail_table empty_diagram) = Ok tt /\
  process_lines tail_demo "s" tail_parts "e" =
    [["0"; "begin"; ""; ""; ""; ""]; ["1a1"; "do b"; "if b"; ""; ""; ""]; ["1a2"; "do f"; ""; ""; ""; ""]; ["1b1"; "over"; "if e2"; ""; ""; "yes"]; ["1c1"; "goto 2"; "if j1"; ""; ""; ""];
     ["2"; "do c"; ""; ""; ""; ""]; ["3a1"; "do x"; ""; ""; ""; ""]; ["3b1"; "do y"; ""; ""; ""; ""]; ["4"; "done"; ""; ""; ""; "yes"]].
Proof.
  assert (H : history tail_ops tail_demo /\ coherent tail_demo) by (apply built; vm_compute; reflexivity). destruct H as [H C]. split; [exact H|].
  split; [apply structured_ok; [exact C|vm_compute; reflexivity]|]. split; [apply texts_ok; vm_compute; reflexivity|].
  split; [apply Nat.ltb_lt; vm_compute; reflexivity|]. split; [apply table_reads; vm_compute; reflexivity|]. split; vm_compute; reflexivity.
Qed.

(** Without that the letters of the second file are not those of the first. *)
Theorem C114_letters_kept_refuted : exists d ps lines table d' text', structured d "s" ps "e" /\ optional ps /\ single_steps ps /\ steps_followed ps /\
  texts_readable d "s" ps "e" /\ export_process_to_csv 40 d None = (Some (csv_text (csv_columns :: lines)), Ok tt) /\ reads (csv_text (csv_columns :: lines)) table /\
  load_diagram_from_csv table empty_diagram = (d', Ok tt) /\ export_process_to_csv 40 d' None = (Some text', Ok tt) /\
  text' <> csv_text (csv_columns :: map kept_line lines).
Proof.
  destruct step_demo_ok as [S [T [_ [_ [E R]]]]]. destruct step_parts_ok as [O [_ F]].
  exists step_demo, step_parts, (process_lines step_demo "s" step_parts "e"), step_table, step_loaded. eexists.
  split; [exact S|]. split; [exact O|]. split; [exact step_single|]. split; [exact F|]. split; [exact T|]. split; [exact E|]. split; [exact R|].
  split; [vm_compute; reflexivity|]. split; [vm_compute; reflexivity|]. vm_compute. discriminate.
Qed.
Print Assumptions C114_branch_order.
Print Assumptions C114_structure.
Print Assumptions C114_second_export.
Print Assumptions C114_lines_kept.
Print Assumptions C114_letters_kept_refuted.
