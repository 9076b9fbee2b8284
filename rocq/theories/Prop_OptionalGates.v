(** Kinds of the gateways of processes with optional steps after CSV (C116).
    Each theorem is followed by a concrete case of its hypotheses. *)
From Coq Require Import String Ascii List Bool Arith ZArith Lia Permutation.
From Verif Require Import Py PyFacts Consts Nx NxFacts Rep SpecRep RepFacts MetricsFacts Classify SpecLayout ClassifyFacts.
From Verif Require Import CsvRegex CsvImport SpecCsv RegexFacts CsvFacts CsvTable SpecFlow CsvGhost CsvFill CsvLast CsvTotal CsvExport SpecCsvExport CsvExportFacts CsvChain CsvOrders CsvJump.
From Verif Require Import SpecBlocks BlockExport SpecFlat FlatTable FlatLines GotoFacts SpecOptional OptionalTable SpecAgain SpecLoose OptionalAgain OptionalTidy SpecTrips.
From Verif Require Import Prop_CsvRows Prop_CsvImport Prop_CsvExport Prop_CsvBlocks Prop_CsvFlat SpecGoto Prop_CsvGoto Prop_CsvLayout Prop_CsvOptional Prop_CsvAgain Prop_OptionalDraw Prop_OptionalAgain Prop_OptionalTrips.
From Verif Require Import SpecOptional SpecAgain.
Import ListNotations.
Open Scope string_scope.
Open Scope list_scope.

(** * Tables with jumps *)
(** The kind of a gateway that splits depends on the conditions of all its branches, those that only jump among them. *)
Theorem C116_split_type : forall table d d', fresh d -> documented table -> neat_jumps (rows_of table) ->
  load_diagram_from_csv table d = (d', Ok tt) ->
  let rows := rows_of table in
  forall o bs conds, splits rows o -> is_node d' (split_of o) ->
  chosen (branch rows o) (orders rows) bs ->
  Forall2 (fun b c => exists r, In (b, r) rows /\ trimmed (r_condition r) c) bs conds ->
  exists t, attr d' (split_of o) "type" = Some (VStr t) /\
    (t = "exclusiveGateway" <-> decision conds) /\
    (t = "parallelGateway" <-> ~ decision conds /\ forall c, In c conds -> c = "") /\
    (t = "inclusiveGateway" <-> ~ decision conds /\ exists c, In c conds /\ c <> "").
Proof.
  intros table d d' F D NJ H rows o bs conds S Nn [f [Hf ->]] C.
  destruct (table_rerouted _ _ _ F D NJ H) as [L I]. fold rows in I.
  destruct (re_split _ _ _ _ I o S) as [ty [E A]]; [apply (re_nodes _ _ _ _ I); auto|]. exists ty. split; auto.
  assert (Ho : In o (orders rows)) by (apply onward_in, S).
  assert (Gr : good_rows rows) by exact D.
  destruct (gateway_type_total rows o Gr Ho) as [ty' [succs [E' Es]]]; [apply S|].
  destruct (branches_found rows o succs (good_plain _ _ Gr Ho) Es) as [Br _].
  assert (X : succs = filter f (orders rows)).
  { assert (P := S). destruct P as [_ [_ [p [n [N _]]]]].
    rewrite (all_split_numbered _ _ _ (orders rows) N) in Es.
    2: { intros c Hc. apply plain_special. apply (numbered_plain _ _ _ N (good_plain _ _ Gr Ho)). exact Hc. }
    inv Es. apply filter_ext_in'. intros x Hx. specialize (Br x). rewrite filter_In in Br. specialize (Hf x).
    destruct (is_branch (p ++ zstr (value n + 1)) x), (f x); intuition congruence. }
  rewrite X in Es.
  assert (K : get_gateway_type o (orders rows) rows = Ok (gateway_kind conds)).
  { eapply gateway_type_ok; [exact Es|]. clear - C Gr. induction C as [|b c bs cs [r [Hr T]] C IH]; constructor; auto.
    exists r. split; auto. apply In_dget; auto. apply Gr. }
  rewrite E in K. inv K. apply gateway_kind_spec.
Qed.

(** * Processes with optional steps *)
Lemma ofirst_row : forall d s ps e fuel table, structured d s ps e -> optional ps -> texts_readable d s ps e -> size ps + 1 < fuel ->
  reads (csv_text (csv_columns :: process_lines d s ps e)) table ->
  forall k g j bs i b f, nth_error ps k = Some (Block g j bs) -> nth_error bs i = Some b -> nth_error (outgoing_of d g) i = Some f ->
  exists r, In (row_label (S k) i 1, r) (rows_of table) /\ r_condition r = written_mark d g f b.
Proof.
  intros d s ps e fuel table St Op Tx Fu Rd k g j bs i b f H B F. unfold written_mark. destruct (is_direct b) eqn:D.
  - apply is_direct_spec in D. eexists. split; [apply (orows_iff d s e ps fuel St Op Fu Tx table Rd); eapply or_jump; eauto|reflexivity].
  - assert (Nd : ~ direct b) by (intros Q; apply is_direct_spec in Q; congruence).
    assert (Bt : branch_no ps k i b) by (exists bs; split; auto; exists g, j; auto). assert (R : 0 < branch_rows b) by (apply rows_pos; exact Nd).
    destruct (oact_or_stop d s e ps fuel St Op Fu Tx table Rd k i 0 b Bt R) as [[n N]|[E [x X]]].
    + eexists. split; [apply (orows_iff d s e ps fuel St Op Fu Tx table Rd); apply or_flat; eapply fr_inner; eauto|reflexivity].
    + exists (mkRow (event_word d x ++ node_text d x) (branch_mark d g f) "" "" "yes"). split; [|reflexivity].
      apply (orows_iff d s e ps fuel St Op Fu Tx table Rd), or_flat. pose proof (fr_stop d s e ps k g j bs i b f x H B F X) as Q. rewrite <- E in Q. exact Q.
Qed.
(** The kind of the gateway of a block follows from the conditions written for its branches. *)
Theorem C116_gateways : forall d s ps e fuel text table d0 d', structured d s ps e -> optional ps -> texts_readable d s ps e ->
  size ps + 1 < fuel -> export_process_to_csv fuel d None = (Some text, Ok tt) -> reads text table -> fresh d0 ->
  load_diagram_from_csv table d0 = (d', Ok tt) ->
  forall k g j bs conds, nth_error ps k = Some (Block g j bs) ->
  Forall2 (fun fb c => trimmed (written_mark d g (fst fb) (snd fb)) c) (combine (outgoing_of d g) bs) conds ->
  exists t, typed d' (split_of (num k)) t /\
    (t = "exclusiveGateway" <-> decision conds) /\
    (t = "parallelGateway" <-> ~ decision conds /\ forall c, In c conds -> c = "") /\
    (t = "inclusiveGateway" <-> ~ decision conds /\ exists c, In c conds /\ c <> "").
Proof.
  intros d s ps e fuel text table d0 d' St Op Tx Fu Ex Rd Fr Ld k g j bs conds H Cs.
  rewrite (C81_lines d s ps e fuel St Fu) in Ex. injection Ex as <-.
  assert (Lb : length (outgoing_of d g) = length bs) by (eapply (oblock_facts d s e ps fuel); eauto).
  pose proof (odocumented d s e ps fuel St Op Fu Tx table Rd) as Dc. pose proof (oneat d s e ps fuel St Op Fu Tx table Rd) as Nj.
  pose proof (ofew d s e ps fuel St Op Fu Tx table Rd) as Few0. pose proof (fill_few ps Few0) as Few. pose proof (fill_flat ps Op) as Fl.
  pose proof (oorders_iff d s e ps fuel St Op Fu Tx table Rd) as Or. pose proof (oonward_top d s e ps fuel St Op Fu Tx table Rd) as Ot.
  assert (Bk : block_no ps k bs) by (exists g, j; auto).
  assert (Bf : block_at (fill ps) k (map fill_branch bs)) by (apply fill_block; eauto).
  set (rows := rows_of table) in *.
  set (labels := map (fun i => row_label (S k) i 1) (seq 0 (length bs))).
  assert (Br : forall x, branch rows (num k) x <-> In x labels).
  { intros x. rewrite (branch_top (fill ps) Fl Few rows Or). unfold labels. rewrite in_map_iff. split.
    - intros [i [b [[bs' [B' Hb]] ->]]]. exists i. split; auto. apply in_seq. destruct Bf as [g0 [j0 Bf]]. destruct B' as [g' [j' B']]. rewrite Bf in B'. inv B'.
      apply nth_lt in Hb. rewrite map_length in Hb. unfold branch_t in *. lia.
    - intros [i [<- Hi]]. apply in_seq in Hi. destruct (nth_error bs i) as [b|] eqn:Eb; [|apply nth_error_None in Eb; unfold branch_t in *; lia].
      exists i, (fill_branch b). split; auto. exists (map fill_branch bs). split; auto. apply map_nth_error. exact Eb. }
  set (f := fun x => existsb (String.eqb x) labels).
  assert (Hf : forall x, f x = true <-> branch rows (num k) x).
  { intros x. rewrite Br. unfold f. rewrite existsb_exists. split; [intros [y [Hy E]]; apply String.eqb_eq in E; subst; auto|].
    intros I. exists x. split; auto. apply String.eqb_refl. }
  assert (Nl : NoDup labels).
  { unfold labels. apply NoDup_nth_error. intros a b La E. rewrite map_length, seq_length in La.
    destruct (Nat.lt_ge_cases b (length bs)) as [Lbb|Lbb].
    - rewrite !nth_error_map, !(nth_error_nth' (seq 0 (length bs)) 0), !seq_nth in E by (rewrite ?seq_length; auto). cbn [option_map Nat.add] in E.
      injection E as E. pose proof (Few0 k bs Bk). unfold branch_t in *. apply row_inj in E; lia.
    - rewrite (proj2 (nth_error_None _ b)) in E by (rewrite map_length, seq_length; auto).
      apply nth_error_None in E. rewrite map_length, seq_length in E. lia. }
  assert (Pm : Permutation (filter f (orders rows)) labels).
  { apply NoDup_Permutation; auto; [apply NoDup_filter, Dc|]. intros x. rewrite filter_In, Hf, Br. split; [tauto|]. intros I. split; auto.
    apply Br in I. destruct I as [p [n [_ [_ I]]]]. exact I. }
  set (h := fun x => match dget x rows with Some r => strip (r_condition r) | None => "" end).
  assert (Hc : conds = map h labels).
  { assert (X : forall i, nth_error conds i = nth_error (map h labels) i); [|].
    { intros i. unfold labels. rewrite map_map, nth_error_map.
      destruct (nth_error (combine (outgoing_of d g) bs) i) as [[fl b]|] eqn:Ef.
      - assert (Ec : nth_error (outgoing_of d g) i = Some fl /\ nth_error bs i = Some b).
        { clear - Ef. revert i bs Ef. induction (outgoing_of d g) as [|a l IH]; intros [|i] [|c bs] Ef; cbn [combine nth_error] in *; try discriminate; [inv Ef; auto|auto]. }
        destruct Ec as [Efl Eb]. assert (Li : i < length bs) by (eapply nth_lt; eauto).
        rewrite (nth_error_nth' (seq 0 (length bs)) 0), seq_nth by (rewrite ?seq_length; auto). cbn [option_map Nat.add].
        destruct (ofirst_row d s ps e fuel table St Op Tx Fu Rd k g j bs i b fl H Eb Efl) as [r [Ir Er]].
        unfold h, rows. rewrite (In_dget _ _ _ (proj1 Dc) Ir), Er.
        assert (Y : exists c, nth_error conds i = Some c /\ trimmed (written_mark d g fl b) c).
        { clear - Cs Ef. revert i Ef. induction Cs as [|a c la lc T Cs IH]; intros i Ef; [destruct i; discriminate|].
          destruct i as [|i]; cbn [nth_error] in *; [inv Ef; eauto|eauto]. }
        destruct Y as [c [-> T]]. apply strip_unique in T. congruence.
      - apply nth_error_None in Ef. assert (Li : length bs <= i) by (rewrite combine_length, Lb in Ef; lia).
        rewrite (proj2 (nth_error_None (seq 0 (length bs)) i)) by (rewrite seq_length; auto). cbn [option_map].
        apply nth_error_None. rewrite <- (Forall2_len _ _ _ _ _ Cs). exact Ef. }
    clear - X. revert X. generalize (map h labels). induction conds as [|c cs IH]; intros [|x l] X; auto; try (specialize (X 0); discriminate).
    f_equal; [specialize (X 0); cbn in X; congruence|]. apply IH. intros i. apply (X (S i)). }
  assert (Sp : splits rows (num k)) by (apply (splits_iff (fill ps) Fl Few rows Or Ot); eauto).
  assert (Nd : is_node d' (split_of (num k))).
  { apply (oloaded_nodes d s e ps fuel St Op Fu Tx table Rd d0 d' Fr Ld). right. right. left. eauto. }
  destruct (C116_split_type table d0 d' Fr Dc Nj Ld (num k) (filter f (orders rows)) (map h (filter f (orders rows))) Sp Nd) as [t [T1 T2]].
  - exists f. auto.
  - fold rows. assert (G : forall l, (forall x, In x l -> In x (orders rows)) ->
      Forall2 (fun b c => exists r, In (b, r) rows /\ trimmed (r_condition r) c) l (map h l)).
    { induction l as [|x l IH]; intros Hx; cbn [map]; constructor; [|apply IH; intros; apply Hx; right; auto].
      assert (I : In x (orders rows)) by (apply Hx; left; auto). unfold orders in I. apply in_map_iff in I. destruct I as [[x' r] [E I]]. cbn [fst] in E. subst x'.
      exists r. split; auto. unfold h, rows. rewrite (In_dget _ _ _ (proj1 Dc) I). apply strip_trimmed. }
    apply G. intros x I. apply filter_In in I. tauto.
  - exists t. split; [exact T1|]. pose proof (Permutation_map h Pm) as Q. rewrite <- Hc in Q.
    assert (D : decision (map h (filter f (orders rows))) <-> decision conds).
    { split; apply decision_perm; auto. apply Permutation_sym. auto. }
    assert (I : forall c, In c (map h (filter f (orders rows))) <-> In c conds).
    { intros c. split; apply Permutation_in; auto. apply Permutation_sym. auto. }
    destruct T2 as [A [B C]]. rewrite A, B, C, D. split; [tauto|]. split.
    + split; intros [X Y]; split; auto; intros c Hx; apply Y; apply I; auto.
    + split; intros [X [c [Y Z]]]; split; auto; exists c; split; auto; apply I; auto.
Qed.

Lemma trimmed_nil : trimmed "" "".
Proof. exists "", "". split; auto. split; [intros c []|]. split; [intros c []|]. split; intros c u E; [discriminate|destruct u; discriminate]. Qed.
Lemma no_conditions_parallel : forall d s ps e fuel text table d0 d', structured d s ps e -> optional ps -> texts_readable d s ps e ->
  size ps + 1 < fuel -> export_process_to_csv fuel d None = (Some text, Ok tt) -> reads text table -> fresh d0 ->
  load_diagram_from_csv table d0 = (d', Ok tt) ->
  forall k g j bs, nth_error ps k = Some (Block g j bs) -> (forall f b, written_mark d g f b = "") -> typed d' (split_of (num k)) "parallelGateway".
Proof.
  intros d s ps e fuel text table d0 d' St Op Tx Fu Ex Rd Fr Ld k g j bs H Mk.
  destruct (C116_gateways d s ps e fuel text table d0 d' St Op Tx Fu Ex Rd Fr Ld k g j bs (map (fun _ => "") (combine (outgoing_of d g) bs)) H) as [t [T [_ [P _]]]].
  - induction (combine (outgoing_of d g) bs) as [|f l IH]; cbn [map]; constructor; auto. rewrite Mk. apply trimmed_nil.
  - assert (X : forall c, In c (map (fun _ => "") (combine (outgoing_of d g) bs)) -> c = "") by (intros c I; apply in_map_iff in I; destruct I as [x [<- _]]; auto).
    rewrite <- (proj2 P); auto. split; auto. intros [a [b [E D]]]. rewrite E in X.
    assert (a = "") by (apply X; left; auto). assert (b = "") by (apply X; right; left; auto). subst. intuition discriminate.
Qed.
(** Parallel gateways stay parallel, direct flow or not. *)
Theorem C116_parallel_kept : forall d s ps e fuel text table d0 d', structured d s ps e -> optional ps -> texts_readable d s ps e ->
  size ps + 1 < fuel -> export_process_to_csv fuel d None = (Some text, Ok tt) -> reads text table -> fresh d0 ->
  load_diagram_from_csv table d0 = (d', Ok tt) ->
  forall k g j bs, nth_error ps k = Some (Block g j bs) -> typed d g "parallelGateway" -> typed d' (split_of (num k)) "parallelGateway".
Proof.
  intros d s ps e fuel text table d0 d' St Op Tx Fu Ex Rd Fr Ld k g j bs H Ty. eapply no_conditions_parallel; eauto.
  assert (P : is_type d g "parallelGateway" = true) by (unfold is_type; red in Ty; rewrite Ty; reflexivity).
  intros f b. unfold written_mark, branch_mark, condition_text. rewrite P. destruct (is_direct b); reflexivity.
Qed.
(** A decision of two branches comes back as a decision if the step, not the direct flow, is the default. *)
Theorem C116_exclusive_kept : forall d s ps e fuel text table d0 d', structured d s ps e -> optional ps -> texts_readable d s ps e ->
  size ps + 1 < fuel -> export_process_to_csv fuel d None = (Some text, Ok tt) -> reads text table -> fresh d0 ->
  load_diagram_from_csv table d0 = (d', Ok tt) ->
  forall k g j bs i b f, nth_error ps k = Some (Block g j bs) -> length bs = 2 -> ~ typed d g "parallelGateway" ->
  nth_error bs i = Some b -> ~ direct b -> nth_error (outgoing_of d g) i = Some f -> attr d g "default" = Some (VStr f) ->
  typed d' (split_of (num k)) "exclusiveGateway".
Proof.
  intros d s ps e fuel text table d0 d' St Op Tx Fu Ex Rd Fr Ld k g j bs i b f H L2 Np Hb Nd Hf Df.
  assert (Lb : length (outgoing_of d g) = length bs) by (eapply (oblock_facts d s e ps fuel); eauto).
  set (m := fun fb : string * branch_t => strip (written_mark d g (fst fb) (snd fb))).
  destruct (C116_gateways d s ps e fuel text table d0 d' St Op Tx Fu Ex Rd Fr Ld k g j bs (map m (combine (outgoing_of d g) bs)) H) as [t [T [P _]]].
  - induction (combine (outgoing_of d g) bs) as [|x l IH]; cbn [map]; constructor; auto. apply strip_trimmed.
  - assert (M : m (f, b) = "else").
    { unfold m, written_mark. cbn [fst snd]. destruct (is_direct b) eqn:D; [elim Nd; apply is_direct_spec; exact D|].
      unfold branch_mark, default_branch. rewrite Df, String.eqb_refl.
      assert (Pn : is_type d g "parallelGateway" = false).
      { unfold is_type, typed in *. destruct (attr d g "type") as [[]|]; auto. destruct (String.eqb_spec s0 "parallelGateway"); auto. subst. contradiction. }
      rewrite Pn. reflexivity. }
    rewrite <- (proj2 P); auto. destruct (outgoing_of d g) as [|f1 [|f2 [|]]]; destruct bs as [|b1 [|b2 [|]]]; try discriminate. cbn [combine map].
    exists (m (f1, b1)), (m (f2, b2)). split; auto. destruct i as [|[|i]]; cbn [nth_error] in Hb, Hf; try (destruct i; discriminate); injection Hb as ->; injection Hf as ->; rewrite M; tauto.
Qed.
(** From the second file on every gateway that splits is parallel: what was optional is done always. *)
Theorem C116_decisions_lost : forall d s ps e fuel text n text' table d', structured d s ps e -> optional ps -> single_steps ps -> steps_followed ps ->
  texts_readable d s ps e -> size ps + 1 < fuel -> export_process_to_csv fuel d None = (Some text, Ok tt) ->
  trips fuel (S n) text text' -> reads text' table -> load_diagram_from_csv table empty_diagram = (d', Ok tt) ->
  forall k g j bs, nth_error ps k = Some (Block g j bs) -> typed d' (split_of (num k)) "parallelGateway".
Proof.
  intros d s ps e fuel text n text' table d' St Op Sg Sf Tx Fu Ex Tr Rd Ld k g j bs H.
  pose proof (second_text_is d s ps e fuel text n text' St Op Sg Sf Tx Fu Ex Tr) as E2.
  assert (Fu' : size (map move_direct ps) + 1 < fuel) by (rewrite move_size; exact Fu).
  pose proof (second_is_file d s ps e fuel St Op Fu) as Ex'. rewrite <- E2 in Ex'.
  assert (H' : nth_error (map move_direct ps) k = Some (Block g j (direct_last bs))) by (rewrite nth_error_map, H; reflexivity).
  apply (no_conditions_parallel (tidy d) s (map move_direct ps) e fuel text' table empty_diagram d' (tidy_structured d s ps e St Op) (move_optional ps Op)
    (move_texts d s ps e St Tx) Fu' Ex' Rd fresh_empty Ld k g j (direct_last bs) H').
  intros f b. unfold written_mark. destruct (tidy_marks d g f) as [M1 M2]. rewrite M1, M2. destruct (is_direct b); reflexivity.
Qed.

(** * Examples: three optional steps; the direct flow is the default flow, the gateway is parallel, the step is the default flow *)
Definition gate_ops : list op :=
  [ONew "m" "0"; OStart "id2" "begin" None false true (Some "s") "" ""] ++
  map (fun n => OTask "id2" ("do " ++ n)%string (Some n) "") ["a"; "b"; "c"; "x"; "h"; "y"; "k"] ++
  [OExclusive "id2" "g" "Diverging" (Some "idg1j1") (Some "g1") ""; OParallel "id2" "g" "Diverging" (Some "g2") "";
   OExclusive "id2" "g" "Diverging" (Some "idg3y") (Some "g3") ""] ++
  map (fun n => OExclusive "id2" "j" "Converging" None (Some ("j" ++ n)%string) "") ["1"; "2"; "3"] ++
  [OEnd "id2" "done" None (Some "e") "" ""] ++
  map (fun p => OFlow "id2" (fst p) (snd p) (if String.eqb (snd p) "b" then "if b" else if String.eqb (snd p) "j3" && String.eqb (fst p) "g3" then "not y" else "")%string (fst p ++ snd p)%string) (path_flows "s" step_parts "e").
Definition gate_demo : diagram := run empty_diagram gate_ops.
Definition gate_table : list (order_label * row) := table_of (process_lines gate_demo "s" step_parts "e").
Definition gate_loaded : diagram := fst (load_diagram_from_csv gate_table empty_diagram).
Lemma gate_demo_ok : history gate_ops gate_demo /\ structured gate_demo "s" step_parts "e" /\ texts_readable gate_demo "s" step_parts "e" /\ size step_parts + 1 < 40 /\
  export_process_to_csv 40 gate_demo None = (Some (csv_text (csv_columns :: process_lines gate_demo "s" step_parts "e")), Ok tt) /\
  reads (csv_text (csv_columns :: process_lines gate_demo "s" step_parts "e")) gate_table /\ load_diagram_from_csv gate_table empty_diagram = (gate_loaded, Ok tt).
Proof.
  assert (H : history gate_ops gate_demo /\ coherent gate_demo) by (apply built; vm_compute; reflexivity). destruct H as [H C]. split; [exact H|].
  split; [apply structured_ok; [exact C|vm_compute; reflexivity]|]. split; [apply texts_ok; vm_compute; reflexivity|].
  split; [apply Nat.ltb_lt; vm_compute; reflexivity|]. split; [vm_compute; reflexivity|]. split; [apply table_reads; vm_compute; reflexivity|]. vm_compute. reflexivity.
Qed.
Lemma gate_splits : documented gate_table /\ neat_jumps (rows_of gate_table) /\ splits (rows_of gate_table) "1" /\ is_node gate_loaded "1_split".
Proof.
  destruct gate_demo_ok as [_ [S [T [L [_ [R _]]]]]]. destruct step_parts_ok as [O _].
  split; [exact (odocumented gate_demo "s" "e" step_parts 40 S O L T gate_table R)|]. split; [exact (oneat gate_demo "s" "e" step_parts 40 S O L T gate_table R)|].
  split; [|apply node_ok; vm_compute; reflexivity]. change "1" with (num 1).
  apply (proj2 (splits_iff (fill step_parts) (fill_flat step_parts O) (fill_few step_parts (ofew gate_demo "s" "e" step_parts 40 S O L T gate_table R)) _
    (oorders_iff gate_demo "s" "e" step_parts 40 S O L T gate_table R) (oonward_top gate_demo "s" "e" step_parts 40 S O L T gate_table R) (num 1))).
  exists 1, (map fill_branch [([Act "b"], None); ([], None)]). split; [exists "g1", "j1"; reflexivity|reflexivity].
Qed.
Example C116_split_type_example : documented gate_table /\ neat_jumps (rows_of gate_table) /\ splits (rows_of gate_table) "1" /\ is_node gate_loaded "1_split" /\
  map (fun o => match dget o (rows_of gate_table) with Some r => (r_activity r, r_condition r) | None => ("", "") end) ["2a1"; "2b1"] = [("do b", "if b"); ("goto 3", "")] /\
  attr gate_loaded "1_split" "type" = Some (VStr "inclusiveGateway").
Proof.
  destruct gate_splits as [A [B [C D]]]. split; [exact A|]. split; [exact B|]. split; [exact C|]. split; [exact D|]. split; vm_compute; reflexivity.
Qed.
(** A step taken by default (third block), a parallel gateway (second block) and a direct flow taken by default (first block). *)
Example C116_gateways_example : structured gate_demo "s" step_parts "e" /\ optional step_parts /\ texts_readable gate_demo "s" step_parts "e" /\
  map (fun x => match x with (g, bs) => map (fun fb => written_mark gate_demo g (fst fb) (snd fb)) (combine (outgoing_of gate_demo g) bs) end)
    [("g1", [([Act "b"], None); ([], None)]); ("g2", [([], None); ([Act "x"], None)]); ("g3", [([Act "y"], None); ([], None)])] = [["if b"; ""]; [""; ""]; ["else"; "not y"]] /\
  map (fun g => attr gate_demo g "type") ["g1"; "g2"; "g3"] = map (fun t => Some (VStr t)) ["exclusiveGateway"; "parallelGateway"; "exclusiveGateway"] /\
  attr gate_demo "g3" "default" = Some (VStr "idg3y") /\ outgoing_of gate_demo "g3" = ["idg3y"; "idg3j3"] /\
  map (fun g => attr gate_loaded g "type") ["1_split"; "3_split"; "5_split"] = map (fun t => Some (VStr t)) ["inclusiveGateway"; "parallelGateway"; "exclusiveGateway"].
Proof.
  destruct gate_demo_ok as [_ [S [T _]]]. destruct step_parts_ok as [O _]. split; [exact S|]. split; [exact O|]. split; [exact T|].
  do 4 (split; [vm_compute; reflexivity|]). vm_compute. reflexivity.
Qed.
Example C116_decisions_lost_example :
  map (fun g => attr step_loaded g "type") ["1_split"; "3_split"; "5_split"] = map (fun t => Some (VStr t)) ["inclusiveGateway"; "parallelGateway"; "parallelGateway"] /\
  map (fun g => attr step_again g "type") ["1_split"; "3_split"; "5_split"] = map (fun t => Some (VStr t)) ["parallelGateway"; "parallelGateway"; "parallelGateway"].
Proof. split; vm_compute; reflexivity. Qed.
(** If the direct flow is the default of a decision, the decision comes back as an inclusive gateway: the exporter marks a default
    branch only if it has a node of its own. *)
Theorem C116_default_kept_refuted : exists ops d ps text table d' k g j bs i f, history ops d /\ structured d "s" ps "e" /\ optional ps /\ texts_readable d "s" ps "e" /\
  export_process_to_csv 40 d None = (Some text, Ok tt) /\ reads text table /\ load_diagram_from_csv table empty_diagram = (d', Ok tt) /\
  nth_error ps k = Some (Block g j bs) /\ length bs = 2 /\ typed d g "exclusiveGateway" /\ nth_error (outgoing_of d g) i = Some f /\ nth_error bs i = Some ([], None) /\
  attr d g "default" = Some (VStr f) /\ typed d' (split_of (num k)) "inclusiveGateway".
Proof.
  destruct gate_demo_ok as [H [S [T [_ [E [R L]]]]]]. destruct step_parts_ok as [O _].
  exists gate_ops, gate_demo, step_parts, (csv_text (csv_columns :: process_lines gate_demo "s" step_parts "e")), gate_table, gate_loaded, 1, "g1", "j1", [([Act "b"], None); ([], None)], 1, "idg1j1".
  split; [exact H|]. split; [exact S|]. split; [exact O|]. split; [exact T|]. split; [exact E|]. split; [exact R|]. split; [exact L|]. split; [reflexivity|]. split; [reflexivity|].
  split; [vm_compute; reflexivity|]. split; [vm_compute; reflexivity|]. split; [reflexivity|]. split; vm_compute; reflexivity.
Qed.
Print Assumptions C116_split_type.
Print Assumptions C116_gateways.
Print Assumptions C116_parallel_kept.
Print Assumptions C116_exclusive_kept.
Print Assumptions C116_decisions_lost.
Print Assumptions C116_default_kept_refuted.
