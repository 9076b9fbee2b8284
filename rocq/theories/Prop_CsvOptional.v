(** CSV: exporting a process with optional steps and loading the file (C110).  Each theorem
    is followed by a concrete case of its hypotheses. *)
From Coq Require Import String Ascii List Bool Arith ZArith Lia Permutation.
From Verif Require Import Py PyFacts Consts Nx NxFacts Rep SpecRep RepFacts MetricsFacts Classify SpecLayout ClassifyFacts.
From Verif Require Import CsvRegex CsvImport SpecCsv RegexFacts CsvFacts CsvTable SpecFlow CsvGhost CsvFill CsvLast CsvTotal CsvExport SpecCsvExport CsvExportFacts CsvChain CsvOrders.
From Verif Require Import SpecBlocks BlockExport SpecFlat FlatTable FlatLines GotoFacts SpecOptional OptionalTable.
From Verif Require Import Prop_LayoutMetrics Prop_Layout Prop_CsvRows Prop_CsvImport Prop_CsvExport Prop_CsvBlocks Prop_CsvFlat SpecGoto Prop_CsvGoto.
Import ListNotations.
Open Scope string_scope.
Open Scope list_scope.

Lemma number_solid : forall k, solid (num k).
Proof.
  intros k. destruct (num_number k) as [Ne D]. split; auto. intros c H B. apply D in H. unfold SpecCsv.digit, blank_char in *. revert B.
  cbn [list_ascii_of_string In] in H. repeat (destruct H as [<- |H]; [vm_compute; lia|]). contradiction.
Qed.
Lemma jump_goto : forall k c, goto_row (mkRow ("goto " ++ num k) c "" "" "").
Proof. intros k c. exists "g"%char, "o"%char, "t"%char, "o"%char. eexists. split; [reflexivity|]. cbn. tauto. Qed.
Lemma jump_word : forall k, second_word ("goto " ++ num k) (num k).
Proof.
  intros k. exists "goto", " ", "". rewrite sapp_nil. split; [reflexivity|]. split.
  - split; [discriminate|]. intros c H B. cbn in H. unfold blank_char in B. revert B. repeat (destruct H as [<- |H]; [vm_compute; lia|]). contradiction.
  - split; [discriminate|]. split; [|split; [apply number_solid|left; auto]]. intros c [<- |[]]. vm_compute. lia.
Qed.

Section Loaded.
  Variables (d : diagram) (s e : string) (ps : list part) (fuel : nat).
  Hypothesis St : structured d s ps e.
  Hypothesis Op : optional ps.
  Hypothesis Fu : size ps + 1 < fuel.
  Hypothesis Tx : texts_readable d s ps e.
  Let orow := opt_row d s e ps.

  Lemma oblock_facts : forall k g j bs, nth_error ps k = Some (Block g j bs) ->
    length bs <= 26 /\ length (outgoing_of d g) = length bs.
  Proof using All.
    intros k g j bs H. destruct St as [_ [_ [_ [_ [_ [_ [_ Hc]]]]]]]. specialize (Hc _ (nth_error_In _ _ H)). inversion Hc; subst.
    split; auto. match goal with F : Forall2 _ (outgoing_of d g) bs |- _ => apply (Forall2_len _ _ _ _ _ F) end.
  Qed.
  Lemma obranch_flow : forall k g j bs i b, nth_error ps k = Some (Block g j bs) -> nth_error bs i = Some b ->
    exists f, nth_error (outgoing_of d g) i = Some f.
  Proof using All.
    intros k g j bs i b H Hi. destruct (oblock_facts k g j bs H) as [_ L]. destruct (nth_error (outgoing_of d g) i) eqn:E; eauto.
    apply nth_error_None in E. rewrite L in E. apply nth_lt in Hi. unfold branch_t in Hi. lia.
  Qed.
  Lemma oacts_in : forall k g j bs i b m n, nth_error ps k = Some (Block g j bs) -> nth_error bs i = Some b ->
    nth_error (fst b) m = Some (Act n) -> In n (flat_map part_acts ps).
  Proof using All.
    intros k g j bs i b m n H B N. apply in_flat_map. exists (Block g j bs). split; [eapply nth_error_In; eauto|].
    cbn [part_acts]. apply in_flat_map. exists b. split; [eapply nth_error_In; eauto|]. apply in_flat_map. exists (Act n).
    split; [eapply nth_error_In; eauto|]. left. auto.
  Qed.
  Lemma oends_in : forall k g j bs i b x, nth_error ps k = Some (Block g j bs) -> nth_error bs i = Some b ->
    snd b = Some x -> In x (flat_map part_ends ps).
  Proof using All.
    intros k g j bs i b x H B N. apply in_flat_map. exists (Block g j bs). split; [eapply nth_error_In; eauto|].
    cbn [part_ends]. apply in_flat_map. exists b. split; [eapply nth_error_In; eauto|]. apply in_app_iff. right. rewrite N. left. auto.
  Qed.
  Lemma obound : forall k g j bs i b, nth_error ps k = Some (Block g j bs) -> nth_error bs i = Some b -> i < 26.
  Proof using All.
    intros k g j bs i b B Hb. apply nth_lt in Hb. pose proof (proj1 (oblock_facts k g j bs B)). unfold branch_t in Hb. lia.
  Qed.
  Lemma flat_row_fine : forall o r, flat_row d s e ps o r -> label o /\ Forall verbatim (line_of o r) /\ ~ goto_row r.
  Proof using All.
    intros o r H. destruct Tx as [T1 T2].
    assert (Tn : forall n, In n (s :: flat_map part_acts ps ++ flat_map part_ends ps ++ [e]) -> readable (node_text d n)) by exact T1.
    assert (Vs : forall n, verbatim (sub_mark d n)).
    { intros n. unfold sub_mark. destruct (is_type d n "subProcess"); [verbatim_lit|apply verbatim_nil]. }
    assert (Vc : forall k g j bs f m, nth_error ps k = Some (Block g j bs) -> In f (outgoing_of d g) -> verbatim (cond_at (branch_mark d g f) m)).
    { intros k g j bs f m B F. destruct m as [|m]; [|apply verbatim_nil]. cbn [cond_at]. unfold branch_mark, condition_text.
      destruct (negb (is_type d g "parallelGateway") && default_branch d g f); [verbatim_lit|].
      destruct (is_type d g "parallelGateway"); [apply verbatim_nil|]. eapply T2; eauto. eapply nth_error_In; eauto. }
    assert (Vy : verbatim "yes") by verbatim_lit. pose proof verbatim_nil as V0.
    assert (G : forall o a c sb te, label o -> readable a -> verbatim c -> verbatim sb -> verbatim te ->
      label o /\ Forall verbatim (line_of o (mkRow a c "" sb te)) /\ ~ goto_row (mkRow a c "" sb te)).
    { intros o' a c sb te Lo [Ra Rg] Rc Rs Rt. split; auto. split; [|exact Rg]. unfold line_of. cbn [r_activity r_condition r_who r_subprocess r_terminated].
      repeat (apply Forall_cons; [auto using label_verbatim|]). apply Forall_nil. }
    pose proof obound as Bd.
    destruct H as [| |k n H|k g j bs i b f m n H B F Hn|k g j bs i b f x H B F Hx]; apply G; auto;
      try apply num_label; try apply row_is_label; eauto using nth_error_In.
    - apply event_readable, Tn. left. auto.
    - apply event_readable, Tn. right. rewrite !in_app_iff. right. right. left. auto.
    - apply Tn. right. rewrite !in_app_iff. left. apply in_flat_map. exists (Act n). split; [eapply nth_error_In; eauto|]. left. auto.
    - apply Tn. right. rewrite !in_app_iff. left. eapply oacts_in; eauto.
    - apply event_readable, Tn. right. rewrite !in_app_iff. right. left. eapply oends_in; eauto.
  Qed.
  Lemma opt_row_fine : forall o r, orow o r -> label o /\ Forall verbatim (line_of o r).
  Proof using All.
    intros o r H. destruct H as [o r H|k g j bs i b f H B F D]; [destruct (flat_row_fine o r H) as [X [Y _]]; auto|].
    assert (Lo : label (row_label (S k) i 1)) by (apply row_is_label; eapply obound; eauto). split; auto.
    pose proof verbatim_nil as V0. unfold line_of. cbn [r_activity r_condition r_who r_subprocess r_terminated].
    apply Forall_cons; [apply label_verbatim; auto|]. apply Forall_cons; [apply verbatim_app; [verbatim_lit|apply label_verbatim, num_label]|].
    apply Forall_cons; [|repeat (apply Forall_cons; [auto|]); apply Forall_nil].
    unfold condition_text. destruct (is_type d g "parallelGateway"); [auto|]. destruct Tx as [_ T2]. eapply T2; eapply nth_error_In; eauto.
  Qed.
  Lemma opt_verbatim : forall l, In l (process_lines d s ps e) -> l <> [] /\ length l = 6 /\ Forall verbatim l.
  Proof using All.
    intros l H. apply (opt_lines_iff d s e ps Op) in H. destruct H as [o [r [H ->]]]. split; [discriminate|]. split; [reflexivity|].
    apply (opt_row_fine o r H).
  Qed.
  Lemma opt_table : exists table, reads (csv_text (csv_columns :: process_lines d s ps e)) table.
  Proof using All.
    exists (map (fun l => (OStr (nth 0 l ""), mkRow (nth 1 l "") (nth 2 l "") (nth 3 l "") (nth 4 l "") (nth 5 l ""))) (process_lines d s ps e)).
    exists (process_lines d s ps e). split; auto. split; [intros l H; apply opt_verbatim; auto|].
    assert (L6 : forall l, In l (process_lines d s ps e) -> length l = 6) by (intros; apply opt_verbatim; auto).
    revert L6. generalize (process_lines d s ps e). induction l as [|l ls IH]; intros L6; cbn [map]; constructor; [|apply IH; intros; apply L6; right; auto].
    specialize (L6 l (or_introl eq_refl)). destruct l as [|f1 [|f2 [|f3 [|f4 [|f5 [|f6 [|]]]]]]]; try discriminate.
    exists f1, f2, f3, f4, f5, f6. split; auto. split; [left; reflexivity|reflexivity].
  Qed.

  Variable table : list (order_label * row).
  Hypothesis Rd : reads (csv_text (csv_columns :: process_lines d s ps e)) table.

  Lemma osame_lines : Forall2 line_row (process_lines d s ps e) table.
  Proof using All.
    destruct Rd as [lines [Et [Vl R]]].
    assert (X : csv_columns :: process_lines d s ps e = csv_columns :: lines).
    { apply text_unique; auto; intros l [<- |Hx]; try apply columns_plain.
      - destruct (opt_verbatim l Hx) as [A [_ B]]. split; auto. apply verbatim_plain; auto.
      - split; [|apply verbatim_plain; auto]. destruct (Forall2_in_l _ _ _ _ _ _ R Hx) as [p [_ [o [a [c [w [s0 [t0 [-> _]]]]]]]]]. discriminate. }
    injection X as ->. exact R.
  Qed.
  Lemma orows_iff : forall o r, In (o, r) (rows_of table) <-> orow o r.
  Proof using All.
    pose proof osame_lines as R. intros o r. split.
    - intros H. apply in_map_iff in H. destruct H as [[ol r'] [E H]]. cbn [fst snd] in E. injection E as Eo ->.
      destruct (Forall2_in_r _ _ _ _ _ _ R H) as [l [Hl [o1 [a [c [w [sb [te [El [Lt Er]]]]]]]]]]. cbn [fst snd] in Lt, Er.
      apply (opt_lines_iff d s e ps Op) in Hl. destruct Hl as [o2 [r2 [Hf E2]]]. rewrite El in E2. unfold line_of in E2.
      destruct (opt_row_fine o2 r2 Hf) as [Lo _]. destruct r2 as [a2 c2 w2 s2 t2]. cbn [r_activity r_condition r_who r_subprocess r_terminated] in E2. inv E2.
      rewrite (clean_label_text ol o2 Lo Lt). exact Hf.
    - intros H. destruct (opt_row_fine o r H) as [Lo _].
      assert (Hl : In (line_of o r) (process_lines d s ps e)) by (apply (opt_lines_iff d s e ps Op); eauto).
      destruct (Forall2_in_l _ _ _ _ _ _ R Hl) as [[ol r'] [Hp [o1 [a [c [w [sb [te [El [Lt Er]]]]]]]]]]. cbn [fst snd] in Lt, Er.
      unfold line_of in El. inv El. apply in_map_iff. exists (ol, mkRow (r_activity r) (r_condition r) (r_who r) (r_subprocess r) (r_terminated r)).
      split; auto. cbn [fst snd]. rewrite (clean_label_text ol o1 Lo Lt). destruct r; reflexivity.
  Qed.
  Lemma odocumented : documented table.
  Proof using All.
    destruct (structured_rows d s ps e fuel St Fu) as [rows [E S]]. destruct (rows_good _ _ _ E) as [[G1 G2 G3] _].
    pose proof osame_lines as R.
    assert (M : orders (rows_of table) = map e_order rows).
    { unfold orders, rows_of. rewrite map_map. cbn [fst]. revert S R. generalize (process_lines d s ps e). clear - G3. intros lines S. revert table.
      induction S as [|r l rows lines [a [c [_ [_ ->]]]] S IH]; intros table R; inversion R; subst; [reflexivity|].
      cbn [map]. rewrite IH; auto; [|intros; apply G3; right; auto]. f_equal.
      destruct H1 as [o [a1 [c1 [w1 [s1 [t1 [El [Lt _]]]]]]]]. inv El. apply clean_label_text; auto. apply G3. left. auto. }
    split; [rewrite M; auto|]. intros o Ho. rewrite M in Ho. apply in_map_iff in Ho. destruct Ho as [r [<- Hr]]. auto.
  Qed.

  (** The facts needed about the rows. *)
  Let rows := rows_of table.
  Let qs := fill ps.
  Lemma ofew : forall k bs, block_no ps k bs -> length bs <= 26.
  Proof using All. intros k bs [g [j H]]. apply (oblock_facts k g j bs H). Qed.
  Lemma oact_or_stop : forall k i m b, branch_no ps k i b -> m < branch_rows b ->
    (exists n, nth_error (fst b) m = Some (Act n)) \/ (m = length (fst b) /\ exists x, snd b = Some x).
  Proof using All.
    intros k i m b [bs [[g [j B]] Hb]] H. pose proof (opt_acts_only ps Op k g j bs b B (nth_error_In _ _ Hb)) as A.
    destruct (nth_error (fst b) m) as [q|] eqn:E.
    - left. destruct (A q (nth_error_In _ _ E)) as [n ->]. eauto.
    - apply nth_error_None in E. right. destruct b as [us st]. unfold branch_rows, stops in H. cbn [fst snd] in *.
      destruct st as [x|]; simpl in H; [|lia]. split; eauto. lia.
  Qed.
  Lemma oorders_iff : forall o, In o (orders rows) <->
    (exists k, top_row qs k /\ o = num k) \/ (exists k i m, inner_row qs k i m /\ o = row_label (S k) i (S m)).
  Proof using All.
    intros o. unfold orders. rewrite in_map_iff. split.
    - assert (I1 : forall k g j bs i b m, nth_error ps k = Some (Block g j bs) -> nth_error bs i = Some b -> m < branch_rows (fill_branch b) ->
        exists k' i' m', inner_row qs k' i' m' /\ row_label (S k) i (S m) = row_label (S k') i' (S m')).
      { intros k g j bs i b m H B M. exists k, i, m. split; auto. exists (fill_branch b). split; auto. apply fill_at. exists b. split; auto.
        exists bs. split; auto. exists g, j. auto. }
      intros [[o' r] [<- H]]. cbn [fst]. apply orows_iff in H. destruct H as [o r H|k g j bs i b f H B F D].
      2:{ right. apply (I1 k g j bs i b 0 H B). rewrite (fill_direct b D). cbn. lia. }
      destruct H as [| |k n H|k g j bs i b f m n H B F Hn|k g j bs i b f x H B F Hx].
      + left. exists 0. split; auto. left. auto.
      + left. exists (S (length ps)). split; auto. right. left. unfold qs. rewrite fill_len. auto.
      + left. exists (S k). split; auto. apply (proj2 (fill_top ps (S k))). right. right. eauto.
      + right. eapply I1; eauto. assert (D : ~ direct b) by (intros ->; destruct m; discriminate Hn).
        rewrite (fill_other b D). unfold branch_rows. apply nth_lt in Hn. lia.
      + right. eapply I1; eauto. assert (D : ~ direct b) by (intros ->; discriminate Hx).
        rewrite (fill_other b D). unfold branch_rows, stops. rewrite Hx. simpl. lia.
    - assert (X : forall o r, orow o r -> exists y, fst y = o /\ In y rows) by (intros o' r H; exists (o', r); split; auto; apply orows_iff; auto).
      intros [[k [T ->]]|[k [i [m [[b' [B M]] ->]]]]].
      + apply (fun k => proj1 (fill_top ps k)) in T.
        destruct T as [-> |[-> |[k' [n [-> H]]]]]; eapply X, or_flat; [apply fr_start|apply fr_end|eapply fr_act; eauto].
      + apply fill_at in B. destruct B as [b [B ->]]. pose proof B as [bs [[g [j H]] Hb]]. destruct (obranch_flow k g j bs i b H Hb) as [f F].
        destruct (direct_dec b) as [D|D].
        * rewrite (fill_direct b D) in M. cbn in M. assert (m = 0) by lia. subst m. eapply X, or_jump; eauto.
        * rewrite (fill_other b D) in M.
          destruct (oact_or_stop k i m b B M) as [[n Hn]|[-> [x Hx]]]; eapply X, or_flat; [eapply fr_inner; eauto|eapply fr_stop; eauto].
  Qed.
  Lemma orow_unique : forall o r r', In (o, r) rows -> In (o, r') rows -> r = r'.
  Proof using All.
    intros o r r' H H'. destruct odocumented as [N _]. apply (In_dget _ _ _ N) in H. apply (In_dget _ _ _ N) in H'. congruence.
  Qed.
  Lemma oonward : forall o r, orow o r -> (onward rows o <-> r_terminated r <> "yes").
  Proof using All.
    intros o r H. apply orows_iff in H. split; [|intros; exists r; auto]. intros [r' [H' N]]. rewrite (orow_unique o r r' H H'). auto.
  Qed.
  Lemma oonward_top : forall k, top_row qs k -> (onward rows (num k) <-> k <> S (length qs)).
  Proof using All.
    intros k T. unfold qs. rewrite fill_len. apply (fun k => proj1 (fill_top ps k)) in T. destruct T as [-> |[-> |[k' [n [-> H]]]]].
    - rewrite (oonward _ _ (or_flat _ _ _ _ _ _ (fr_start d s e ps))). cbn [r_terminated]. split; intros _; [lia|discriminate].
    - rewrite (oonward _ _ (or_flat _ _ _ _ _ _ (fr_end d s e ps))). cbn [r_terminated]. split; intros C; exfalso; apply C; auto.
    - rewrite (oonward _ _ (or_flat _ _ _ _ _ _ (fr_act d s e ps k' n H))). cbn [r_terminated]. split; intros _; [|discriminate].
      apply nth_lt in H. lia.
  Qed.
  Lemma oonward_row : forall k i m, inner_row qs k i m -> (onward rows (row_label (S k) i (S m)) <-> ~ stop_row qs k i m).
  Proof using All.
    intros k i m [b' [B' M]]. pose proof B' as B. apply fill_at in B. destruct B as [b [B ->]].
    pose proof B as [bs [[g [j H]] Hb]]. destruct (obranch_flow k g j bs i b H Hb) as [f F].
    assert (Sr : stop_row qs k i m <-> S m = branch_rows (fill_branch b) /\ snd b <> None).
    { split.
      - intros [c [C [E Sn]]]. rewrite (branch_fun qs k i c _ C B') in *. rewrite fill_stop in Sn. auto.
      - intros [E Sn]. exists (fill_branch b). split; auto. rewrite fill_stop. auto. }
    rewrite Sr. destruct (direct_dec b) as [D|D].
    - assert (m = 0) by (rewrite (fill_direct b D) in M; cbn in M; lia). subst m.
      rewrite (oonward _ _ (or_jump d s e ps k g j bs i b f H Hb F D)). cbn [r_terminated]. split; [|discriminate].
      intros _ [_ C]. apply C. rewrite D. reflexivity.
    - rewrite (fill_other b D) in *. destruct (oact_or_stop k i m b B M) as [[n Hn]|[-> [x Hx]]].
      + rewrite (oonward _ _ (or_flat _ _ _ _ _ _ (fr_inner d s e ps k g j bs i b f m n H Hb F Hn))). cbn [r_terminated].
        split; intros _; [|discriminate]. intros [E Sn]. apply nth_lt in Hn.
        unfold branch_rows, stops in E. destruct (snd b); [simpl in E; lia|congruence].
      + rewrite (oonward _ _ (or_flat _ _ _ _ _ _ (fr_stop d s e ps k g j bs i b f x H Hb F Hx))). cbn [r_terminated].
        split; intros C; exfalso; apply C; auto. unfold branch_rows, stops. rewrite Hx. simpl. split; [lia|discriminate].
  Qed.
  Lemma ogo : forall o, goto_order rows o <-> exists k i b, branch_no ps k i b /\ direct b /\ o = row_label (S k) i 1.
  Proof using All.
    intros o. split.
    - intros [r [I G]]. apply orows_iff in I. destruct I as [o r H|k g j bs i b f H B F D].
      + exfalso. apply (flat_row_fine o r H). auto.
      + exists k, i, b. split; auto. exists bs. split; auto. exists g, j. auto.
    - intros [k [i [b [[bs [[g [j H]] B]] [D ->]]]]]. destruct (obranch_flow k g j bs i b H B) as [f F].
      eexists. split; [apply orows_iff; eapply or_jump; eauto|]. apply jump_goto.
  Qed.
  Lemma ogoal : forall k i b r t, branch_no ps k i b -> direct b -> In (row_label (S k) i 1, r) rows -> goto_row r ->
    (second_word (r_activity r) t <-> t = num (S (S k))).
  Proof using All.
    intros k i b r t [bs [[g [j H]] B]] D I G. destruct (obranch_flow k g j bs i b H B) as [f F].
    assert (E : r = mkRow ("goto " ++ num (S (S k))) (condition_text d g f) "" "" "").
    { eapply orow_unique; [exact I|]. apply orows_iff. eapply or_jump; eauto. }
    pose proof (jump_word (S (S k))) as J. split.
    - intros W. eapply second_unique; eauto. rewrite E. exact J.
    - intros ->. rewrite E. exact J.
  Qed.

  Lemma oneat : neat_jumps rows.
  Proof using All. exact (opt_neat ps Op ofew rows oorders_iff oonward_top oonward_row ogo ogoal). Qed.
  Lemma oloads : forall d0, fresh d0 -> exists d', load_diagram_from_csv table d0 = (d', Ok tt).
  Proof using All.
    intros d0 F. apply C86_loads; auto; [apply odocumented|apply oneat|]. split.
    - intros o Ho On. apply (opt_connectable ps Op ofew rows oorders_iff oonward_top o Ho On).
    - split; [exact (opt_followed_1 ps Op ofew rows oorders_iff oonward_top oonward_row ogo ogoal)|
              exact (opt_followed_2 ps Op ofew rows oorders_iff oonward_top oonward_row ogo ogoal)].
  Qed.
  Variables d0 d' : diagram.
  Hypothesis Fr : fresh d0.
  Hypothesis Ld : load_diagram_from_csv table d0 = (d', Ok tt).

  Lemma oloaded_nodes : forall n, is_node d' n <-> optional_node ps n.
  Proof using All.
    intros n. destruct (C86_nodes_and_flows table d0 d' Fr odocumented oneat Ld) as [N _]. rewrite N.
    apply (opt_nodes ps Op ofew rows oorders_iff oonward_top oonward_row ogo ogoal).
  Qed.
  Lemma oloaded_flows : forall x y, flow_between d' x y <-> optional_flow ps x y.
  Proof using All.
    intros x y. destruct (C86_nodes_and_flows table d0 d' Fr odocumented oneat Ld) as [_ [N _]]. rewrite N.
    apply (opt_flows ps Op ofew rows oorders_iff oonward_top oonward_row ogo ogoal).
  Qed.
  Lemma oelements : forall o r, flat_row d s e ps o r ->
    (o = "0" -> attr d' o "type" = Some (VStr "startEvent")) /\
    (o <> "0" -> r_terminated r = "yes" -> attr d' o "type" = Some (VStr "endEvent")) /\
    (o <> "0" -> r_terminated r <> "yes" -> r_subprocess r = "yes" -> attr d' o "type" = Some (VStr "subProcess")) /\
    (o <> "0" -> r_terminated r <> "yes" -> r_subprocess r <> "yes" -> attr d' o "type" = Some (VStr "task")) /\
    (attr d' o "type" <> Some (VStr "endEvent") -> attr d' o "node_name" = Some (VStr (r_activity r))) /\
    (attr d' o "type" = Some (VStr "endEvent") -> attr d' o "node_name" = Some (VStr "")).
  Proof using All.
    intros o r H. apply (C86_row_elements table d0 d' Fr odocumented oneat Ld); [apply orows_iff, or_flat; exact H|apply (flat_row_fine o r H)].
  Qed.
  Lemma onum_0 : forall k, num (S k) <> "0".
  Proof using All. intros k E. apply (num_inj (S k) 0) in E. discriminate. Qed.
  Lemma orow_0 : forall k i m, i < 26 -> row_label k i m <> "0".
  Proof using All. intros k i m Hi E. eapply (top_not_row 0); [exact Hi|]. symmetry. exact E. Qed.
  Lemma oact_elements : forall n l, activity_node d n -> l <> "0" -> forall c, flat_row d s e ps l (mkRow (node_text d n) c "" (sub_mark d n) "") ->
    attr d' l "type" = attr d n "type" /\ attr d' l "node_name" = attr d n "node_name".
  Proof using All.
    intros n l [Nn Ty] L0 c H. destruct (oelements _ _ H) as [_ [_ [R3 [R4 [R5 _]]]]]. cbn [r_terminated r_subprocess r_activity] in *.
    assert (Nm : attr d n "node_name" = Some (VStr (node_text d n))).
    { destruct St as [_ [Wn _]]. destruct (Wn n Nn) as [[t Ht] _]. unfold node_text, named in *. rewrite Ht. reflexivity. }
    rewrite Nm. unfold sub_mark, is_type, typed in *. destruct Ty as [Ty|Ty]; rewrite Ty in *.
    - cbn [String.eqb Ascii.eqb Bool.eqb] in *. assert (T : attr d' l "type" = Some (VStr "task")) by (apply R4; auto; discriminate).
      split; auto. apply R5. rewrite T. discriminate.
    - assert (T : attr d' l "type" = Some (VStr "subProcess")) by (apply R3; auto; discriminate).
      split; auto. apply R5. rewrite T. discriminate.
  Qed.
  Lemma oend_elements : forall l a c, l <> "0" -> flat_row d s e ps l (mkRow a c "" "" "yes") ->
    typed d' l "endEvent" /\ named d' l "".
  Proof using All.
    intros l a c L0 H. destruct (oelements _ _ H) as [_ [R2 [_ [_ [_ R6]]]]]. cbn [r_terminated] in *.
    assert (T : attr d' l "type" = Some (VStr "endEvent")) by auto. split; [exact T|]. apply R6. exact T.
  Qed.
  (** The edges. *)
  Lemma oedge : forall x y, optional_flow ps x y -> exists ed, In ed (gedges (dgraph d')) /\ eu ed = x /\ ev ed = y /\
    forall r, In (y, r) rows ->
      (r_condition r <> "" -> exists id, dget "conditionExpression" (eat ed) = Some (VCond id (r_condition r))) /\
      (r_condition r = "" -> dget "conditionExpression" (eat ed) = None).
  Proof using All.
    intros x y H. apply oloaded_flows in H. destruct H as [f Hf].
    destruct (C86_edges table d0 d' Fr odocumented oneat (opt_one_way ps Op ofew rows oorders_iff oonward_top oonward_row ogo ogoal) Ld) as [E _].
    destruct (E f x y Hf) as [ed [Ie [Eu [Ev [_ [_ [_ [C1 C2]]]]]]]]. exists ed. split; auto. split; auto. split; auto.
    intros r Ir. split; [intros Ne; eexists; apply C1; auto|]. intros Em. apply C2. intros r' Ir'. rewrite (orow_unique y r' r Ir' Ir). auto.
  Qed.
  Lemma top_condition : forall k, line_no ps k -> exists r, In (num k, r) rows /\ r_condition r = "".
  Proof using All.
    intros k [-> |[-> |[k' [n [-> H]]]]]; eexists; (split; [apply orows_iff, or_flat|]); [apply fr_start|reflexivity|apply fr_end|reflexivity|apply fr_act; eauto|reflexivity].
  Qed.
  Lemma first_condition : forall k g j bs i b f, nth_error ps k = Some (Block g j bs) -> nth_error bs i = Some b -> nth_error (outgoing_of d g) i = Some f ->
    ~ direct b -> exists r, In (row_label (S k) i 1, r) rows /\ r_condition r = branch_mark d g f.
  Proof using All.
    intros k g j bs i b f H B F D. assert (Bn : branch_no ps k i b) by (exists bs; split; auto; exists g, j; auto).
    destruct (oact_or_stop k i 0 b Bn (rows_pos b D)) as [[n N]|[E [x X]]].
    - eexists. split; [apply orows_iff, or_flat; eapply fr_inner; eauto|reflexivity].
    - exists (mkRow (event_word d x ++ node_text d x) (branch_mark d g f) "" "" "yes"). split; [|reflexivity].
      apply orows_iff, or_flat. pose proof (fr_stop d s e ps k g j bs i b f x H B F X) as Q. rewrite <- E in Q. exact Q.
  Qed.
End Loaded.

(** * C110 *)
(** A process with optional steps comes back from its file with its activities and the
    flows between them.  A direct flow past a block leads to the line after the block; the
    gateway where the branches meet is kept if two branches with activities meet there. *)
Theorem C110_round_trip : forall d s ps e fuel, structured d s ps e -> optional ps -> texts_readable d s ps e -> size ps + 1 < fuel ->
  exists text, export_process_to_csv fuel d None = (Some text, Ok tt) /\
    (exists table, reads text table) /\
    forall table d0, reads text table -> fresh d0 ->
    let qs := relabel 1 ps in let z := num (S (length ps)) in
    exists d', load_diagram_from_csv table d0 = (d', Ok tt) /\
      (forall n, is_node d' n <-> optional_node ps n) /\
      (forall x y, flow_between d' x y <-> optional_flow ps x y) /\
      typed d' "0" "startEvent" /\ named d' "0" (event_word d s ++ node_text d s)%string /\
      Forall2 (fun n l => attr d' l "type" = attr d n "type" /\ attr d' l "node_name" = attr d n "node_name")
        (flat_map part_acts ps) (flat_map part_acts qs) /\
      (forall l, In l (flat_map part_ends qs ++ [z]) -> typed d' l "endEvent" /\ named d' l "").
Proof.
  intros d s ps e fuel St Op Tx Fu. exists (csv_text (csv_columns :: process_lines d s ps e)).
  split; [apply C81_lines; auto|]. split; [eapply (opt_table d s e ps fuel); eauto|]. intros table d0 Rd Fr qs z.
  destruct (oloads d s e ps fuel St Op Fu Tx table Rd d0 Fr) as [d' Ld]. exists d'. split; auto.
  assert (Ac : forall p, In p ps -> contains d p) by apply St.
  assert (An : forall n, contains d (Act n) -> activity_node d n) by (intros n H; inversion H; auto).
  pose proof (obound d s e ps fuel St Op Fu Tx) as Bd.
  split; [eapply oloaded_nodes; eauto|]. split; [eapply oloaded_flows; eauto|].
  destruct (oelements d s e ps fuel St Op Fu Tx table Rd d0 d' Fr Ld _ _ (fr_start d s e ps)) as [R1 [_ [_ [_ [R5 _]]]]].
  specialize (R1 eq_refl). split; [exact R1|]. split; [apply R5; rewrite R1; discriminate|]. split.
  - apply acts_matched.
    + intros p Hp. destruct p as [n|g j bs]; auto. intros b q Hb Hq. apply In_nth_error in Hp. destruct Hp as [k Hp].
      eapply (opt_acts_only ps Op); eauto.
    + intros i n H. eapply (oact_elements d s e ps fuel); eauto; [apply An, Ac; eapply nth_error_In; eauto|eapply (onum_0 d s e ps fuel); eauto|apply fr_act; auto].
    + intros k g j bs i b m n H B N. assert (X : exists f, nth_error (outgoing_of d g) i = Some f) by (eapply (obranch_flow d s e ps fuel); eauto). destruct X as [f F].
      eapply (oact_elements d s e ps fuel); eauto; [|eapply (orow_0 d s e ps fuel); eauto|eapply fr_inner; eauto].
      apply An. specialize (Ac _ (nth_error_In _ _ H)). inversion Ac; subst.
      match goal with Q : forall b p, In b bs -> In p (fst b) -> contains d p |- _ => apply (Q b (Act n)); eapply nth_error_In; eauto end.
  - intros l H. apply in_app_iff in H. destruct H as [H|[<- |[]]].
    + apply ends_relabelled in H. destruct H as [k [g [j [bs [i [b [x [H [B [Ex ->]]]]]]]]]]. assert (X : exists f, nth_error (outgoing_of d g) i = Some f) by (eapply (obranch_flow d s e ps fuel); eauto). destruct X as [f F].
      eapply (oend_elements d s e ps fuel); eauto; [eapply (orow_0 d s e ps fuel); eauto|eapply fr_stop; eauto].
    + eapply (oend_elements d s e ps fuel); eauto; [eapply (onum_0 d s e ps fuel); eauto|apply fr_end].
Qed.

(** The flow into a branch keeps its text; a direct flow loses it. *)
Theorem C110_conditions : forall d s ps e fuel text table d0 d', structured d s ps e -> optional ps -> texts_readable d s ps e ->
  size ps + 1 < fuel -> export_process_to_csv fuel d None = (Some text, Ok tt) -> reads text table -> fresh d0 ->
  load_diagram_from_csv table d0 = (d', Ok tt) ->
  forall k g j bs i b f, nth_error ps k = Some (Block g j bs) -> nth_error bs i = Some b -> nth_error (outgoing_of d g) i = Some f ->
  (~ direct b -> exists ed, In ed (gedges (dgraph d')) /\ eu ed = split_of (num k) /\ ev ed = row_label (S k) i 1 /\
    (branch_mark d g f <> "" -> exists id, dget "conditionExpression" (eat ed) = Some (VCond id (branch_mark d g f))) /\
    (branch_mark d g f = "" -> dget "conditionExpression" (eat ed) = None)) /\
  (direct b -> exists ed, In ed (gedges (dgraph d')) /\ eu ed = split_of (num k) /\ ev ed = num (S (S k)) /\
    dget "conditionExpression" (eat ed) = None).
Proof.
  intros d s ps e fuel text table d0 d' St Op Tx Fu Ex Rd Fr Ld k g j bs i b f H B F.
  rewrite (C81_lines d s ps e fuel St Fu) in Ex. injection Ex as <-.
  assert (Bn : branch_no ps k i b) by (exists bs; split; auto; exists g, j; auto). split; intros D.
  - destruct (oedge d s e ps fuel St Op Fu Tx table Rd d0 d' Fr Ld _ _ (op_branch ps k i b Bn D)) as [ed [Ie [Eu [Ev C]]]].
    destruct (first_condition d s e ps fuel St Op Fu Tx table Rd d0 d' Fr Ld k g j bs i b f H B F D) as [r [Ir Er]].
    exists ed. split; auto. split; auto. split; auto. rewrite <- Er. apply C. auto.
  - destruct (oedge d s e ps fuel St Op Fu Tx table Rd d0 d' Fr Ld _ _ (op_direct ps k i b Bn D)) as [ed [Ie [Eu [Ev C]]]].
    assert (T : line_no ps (S (S k))).
    { apply (proj1 (fill_top ps (S (S k)))). eapply (block_tops (fill ps) (fill_flat ps Op) k (map fill_branch bs)). apply fill_block.
      exists bs. split; auto. exists g, j. auto. }
    destruct (top_condition d s e ps fuel St Op Fu Tx table Rd d0 d' Fr Ld _ T) as [r [Ir Er]].
    exists ed. split; auto. split; auto. split; auto. apply (C r Ir). auto.
Qed.

(** An optional step or sequence of steps: the gateway behind it is gone, and the line after the block
    is entered by two flows. *)
Theorem C110_gateway_gone : forall d s ps e fuel text table d0 d', structured d s ps e -> optional ps -> texts_readable d s ps e ->
  size ps + 1 < fuel -> export_process_to_csv fuel d None = (Some text, Ok tt) -> reads text table -> fresh d0 ->
  load_diagram_from_csv table d0 = (d', Ok tt) ->
  forall k g j bs, nth_error ps k = Some (Block g j bs) -> lone bs ->
  ~ is_node d' (join_of (num (S (S k)))) /\
  exists i b, nth_error bs i = Some b /\ meets b /\
    forall x, flow_between d' x (num (S (S k))) <-> x = split_of (num k) \/ x = row_label (S k) i (branch_rows b).
Proof.
  intros d s ps e fuel text table d0 d' St Op Tx Fu Ex Rd Fr Ld k g j bs H L.
  rewrite (C81_lines d s ps e fuel St Fu) in Ex. injection Ex as <-.
  pose proof (oloaded_nodes d s e ps fuel St Op Fu Tx table Rd d0 d' Fr Ld) as N.
  pose proof (oloaded_flows d s e ps fuel St Op Fu Tx table Rd d0 d' Fr Ld) as W.
  assert (Few : forall k bs, block_no ps k bs -> length bs <= 26) by (apply (ofew d s e ps fuel St Op Fu Tx table Rd)).
  assert (Lt : forall k i b, branch_no ps k i b -> i < 26) by (intros; eapply (letter_of ps); eauto).
  assert (B : block_no ps k bs) by (exists g, j; auto).
  pose proof (proj1 Op _ (nth_error_In _ _ H)) as P. cbn [optional_part] in P. destruct P as [Tm [[b [Ib M]] [Fb U]]].
  apply In_nth_error in Ib. destruct Ib as [i Hi].
  assert (Di : exists i' b', nth_error bs i' = Some b' /\ direct b').
  { destruct Tm as [i1 [i2 [b1 [b2 [Ne [H1 [H2 [S1 S2]]]]]]]].
    destruct (direct_dec b1) as [D1|D1]; [eauto|]. destruct (direct_dec b2) as [D2|D2]; [eauto|].
    exfalso. apply Ne. eapply L; eauto; apply not_direct_meets; auto. }
  destruct Di as [i' [b' [Hi' D']]]. split.
  - intros X. apply N in X. destruct X as [[k' [_ E]]|[[k' [i1 [b1 [m [B1 [_ E]]]]]]|[[k' [bs' [_ E]]]|[k' [bs' [B' [L' E]]]]]]].
    + eapply join_not_plain. rewrite E. apply label_plain, num_label.
    + eapply join_not_plain. rewrite E. apply label_plain, row_is_label. eauto.
    + symmetry in E. eapply split_join; eauto.
    + apply join_inj, num_inj in E. assert (k' = k) by lia. subst k'. apply L'. rewrite (block_no_fun ps k _ _ B' B). auto.
  - exists i, b. split; auto. split; auto. intros x. rewrite W. split.
    + intros X. inversion X as [k' Lk T T' E1 E2|k' bs1 B1 E1 E2|k' i1 b1 B1 D1 E1 E2|k' i1 b1 B1 D1 E1 E2|k' i1 b1 m1 B1 M1 E1 E2|k' i1 b1 bs1 B1 H1 M1 L1 E1 E2|k' bs1 B1 L1 E1 E2|k' i1 b1 bs1 B1 H1 M1 L1 E1 E2].
      * exfalso. apply num_inj in E2. assert (k' = S k) by lia. subst k'. destruct T as [T|[T|[k2 [n [T Q]]]]]; [lia| |].
        { apply nth_lt in H. lia. }
        { injection T as <-. congruence. }
      * exfalso. eapply split_not_plain. rewrite E2. apply label_plain, num_label.
      * exfalso. symmetry in E2. unfold row_label in E2. revert E2. apply top_not_row. eauto.
      * apply num_inj in E2. assert (k' = k) by lia. subst k'. auto.
      * exfalso. symmetry in E2. unfold row_label in E2. revert E2. apply top_not_row. eauto.
      * exfalso. eapply join_not_plain. rewrite E2. apply label_plain, num_label.
      * exfalso. apply num_inj in E2. assert (k' = k) by lia. subst k'. apply L1. rewrite (block_no_fun ps k _ _ B1 B). auto.
      * apply num_inj in E2. assert (k' = k) by lia. subst k'. rewrite (block_no_fun ps k _ _ B1 B) in H1. right.
        pose proof (L _ _ _ _ Hi H1 M M1) as E0. rewrite <- E0 in *. assert (E3 : Some b1 = Some b) by (rewrite <- H1; exact Hi). injection E3 as ->. reflexivity.
    + intros [-> | ->]; [apply (op_direct ps k i' b'); auto; exists bs; auto|]. exact (op_lone ps k i b bs B Hi M L).
Qed.

(** A decision with an optional step; later two branches with activities, one that stops and a direct flow. *)
Definition opt_ops : list op :=
  [ONew "m" "0"; OStart "id2" "begin" None false true (Some "s") "" "";
   OExclusive "id2" "g" "Diverging" None (Some "g") ""; OTask "id2" "pack" (Some "b") "";
   OSubprocess "id2" "weigh" false false (Some "c") "";
   OExclusive "id2" "j" "Converging" None (Some "j") ""; OTask "id2" "close" (Some "m") "";
   OInclusive "id2" "g2" "Diverging" None (Some "g2") ""; OTask "id2" "left" (Some "l") "";
   OTask "id2" "right" (Some "r") ""; OEnd "id2" "over" None (Some "e2") "" ""; OInclusive "id2" "j2" "Converging" None (Some "j2") "";
   OEnd "id2" "done" None (Some "e") "" "";
   OFlow "id2" "s" "g" "" "10"; OFlow "id2" "g" "b" "small" "11"; OFlow "id2" "b" "c" "" "12"; OFlow "id2" "c" "j" "" "13";
   OFlow "id2" "g" "j" "none" "14"; OFlow "id2" "j" "m" "" "15"; OFlow "id2" "m" "g2" "" "16";
   OFlow "id2" "g2" "l" "x" "17"; OFlow "id2" "g2" "j2" "y" "18"; OFlow "id2" "g2" "r" "z" "19"; OFlow "id2" "g2" "e2" "w" "20";
   OFlow "id2" "l" "j2" "" "21"; OFlow "id2" "r" "j2" "" "22"; OFlow "id2" "j2" "e" "" "23"].
Definition opt_demo : diagram := run empty_diagram opt_ops.
Definition opt_parts : list part :=
  [Block "g" "j" [([Act "b"; Act "c"], None); ([], None)]; Act "m";
   Block "g2" "j2" [([Act "l"], None); ([], None); ([Act "r"], None); ([], Some "e2")]].
Definition opt_tab : list (order_label * row) := table_of (process_lines opt_demo "s" opt_parts "e").
Lemma opt_parts_ok : optional opt_parts.
Proof.
  assert (Fb : forall us st, (forall p, In p us -> is_act p) -> 1 <= branch_rows (us, st) <= 10 -> flat_branch (us, st)) by (intros us st A B; split; auto).
  assert (Ua : forall n p, In p [Act n] -> is_act p) by (intros n p [<- |[]]; exists n; auto).
  split.
  - intros p [<- |[<- |[<- |[]]]]; [| exact I |].
    + split; [exists 0, 1, ([Act "b"; Act "c"], None), ([], None); repeat split; discriminate|].
      split; [exists ([Act "b"; Act "c"], None); split; [left; auto|split; [auto|discriminate]]|]. split.
      * intros b [<- |[<- |[]]]; [left; apply Fb; [intros p [<- |[<- |[]]]; red; eauto|cbn; lia]|right; reflexivity].
      * intros [|[|i]] [|[|i']] b b' H H' D D'; cbn in H, H'; auto; try (injection H as <-; red in D; discriminate D); try (injection H' as <-; red in D'; discriminate D');
          try (destruct i; discriminate); try (destruct i'; discriminate).
    + split; [exists 0, 1, ([Act "l"], None), ([], None); repeat split; discriminate|].
      split; [exists ([Act "l"], None); split; [left; auto|split; [auto|discriminate]]|]. split.
      * intros b [<- |[<- |[<- |[<- |[]]]]]; [left; apply Fb; [apply Ua|cbn; lia]|right; reflexivity|left; apply Fb; [apply Ua|cbn; lia]|left; apply Fb; [intros p []|cbn; lia]].
      * intros [|[|[|[|i]]]] [|[|[|[|i']]]] b b' H H' D D'; cbn in H, H'; auto; try (injection H as <-; red in D; discriminate D); try (injection H' as <-; red in D'; discriminate D');
          try (destruct i; discriminate); try (destruct i'; discriminate).
  - intros [|[|[|k]]] p q Hp Hq Bp; cbn in Hp, Hq.
    + injection Hq as <-. exists "m". auto.
    + injection Hp as <-. destruct Bp as [g [j [bs X]]]. discriminate.
    + discriminate.
    + destruct k; discriminate.
Qed.
Lemma opt_demo_ok : history opt_ops opt_demo /\ structured opt_demo "s" opt_parts "e" /\
  texts_readable opt_demo "s" opt_parts "e" /\ size opt_parts + 1 < 40 /\
  export_process_to_csv 40 opt_demo None = (Some (csv_text (csv_columns :: process_lines opt_demo "s" opt_parts "e")), Ok tt) /\
  reads (csv_text (csv_columns :: process_lines opt_demo "s" opt_parts "e")) opt_tab /\ fresh empty_diagram.
Proof.
  assert (H : history opt_ops opt_demo /\ coherent opt_demo) by (apply built; vm_compute; reflexivity). destruct H as [H C].
  assert (S : structured opt_demo "s" opt_parts "e") by (apply structured_ok; [exact C|vm_compute; reflexivity]).
  split; auto. split; auto. split; [apply texts_ok; vm_compute; reflexivity|].
  split; [apply Nat.ltb_lt; vm_compute; reflexivity|]. split; [vm_compute; reflexivity|].
  split; [apply table_reads; vm_compute; reflexivity|]. split; reflexivity.
Qed.
Definition opt_loaded : diagram := fst (load_diagram_from_csv opt_tab empty_diagram).
Example C110_round_trip_example :
  load_diagram_from_csv opt_tab empty_diagram = (opt_loaded, Ok tt) /\
  map snd opt_tab = [mkRow "begin" "" "" "" ""; mkRow "pack" "small" "" "" ""; mkRow "weigh" "" "" "yes" ""; mkRow "goto 2" "none" "" "" ""; mkRow "close" "" "" "" "";
    mkRow "left" "x" "" "" ""; mkRow "goto 4" "y" "" "" ""; mkRow "right" "z" "" "" ""; mkRow "over" "w" "" "" "yes"; mkRow "done" "" "" "" "yes"] /\
  node_keys opt_loaded = ["0"; "1a1"; "1a2"; "2"; "3a1"; "3c1"; "3d1"; "4"; "0_split"; "2_split"; "4_join"] /\
  map (fun f => (fl_src (snd f), fl_tgt (snd f))) (seq_flows opt_loaded) =
    [("0", "0_split"); ("0_split", "1a1"); ("1a1", "1a2"); ("2", "2_split"); ("2_split", "3a1"); ("2_split", "3c1");
     ("2_split", "3d1"); ("4_join", "4"); ("3a1", "4_join"); ("3c1", "4_join"); ("0_split", "2"); ("2_split", "4"); ("1a2", "2")].
Proof. repeat (split; [vm_compute; reflexivity|]). vm_compute. reflexivity. Qed.
Example C110_gateway_gone_example : nth_error opt_parts 0 = Some (Block "g" "j" [([Act "b"; Act "c"], None); ([], None)]) /\
  lone [([Act "b"; Act "c"], None); ([], None)] /\ ~ lone [([Act "l"], None); ([], None); ([Act "r"], None); ([], Some "e2")] /\
  is_node opt_demo "j" /\ incoming_of opt_demo "m" = ["id15"] /\ incoming_of opt_loaded "2" = ["0_split__2"; "1a2__2"].
Proof.
  split; [reflexivity|]. split.
  - intros [|[|i]] [|[|i']] b b' H H' M M'; cbn in H, H'; auto; try (injection H as <-; elim (proj2 M); reflexivity);
      try (injection H' as <-; elim (proj2 M'); reflexivity); try (destruct i; discriminate); try (destruct i'; discriminate).
  - split; [|split; [|split; vm_compute; reflexivity]].
    + apply (not_lone _ 0 2 ([Act "l"], None) ([Act "r"], None)); try reflexivity; [discriminate|split; [auto|discriminate]|split; [auto|discriminate]].
    + unfold is_node. vm_compute. tauto.
Qed.
Example C110_conditions_example :
  map (fun e => (ev e, dget "conditionExpression" (eat e))) (filter (fun e => String.eqb (eu e) "0_split") (gedges (dgraph opt_loaded))) =
    [("1a1", Some (VCond "0_split__1a1_cond" "small")); ("2", None)] /\
  map (branch_mark opt_demo "g") (outgoing_of opt_demo "g") = ["small"; "none"].
Proof. split; vm_compute; reflexivity. Qed.
Print Assumptions C110_round_trip.
Print Assumptions C110_conditions.
Print Assumptions C110_gateway_gone.

(** The text of a direct flow appears nowhere in the loaded diagram. *)
Theorem C110_condition_refuted : exists ops d ps text table d', history ops d /\ structured d "s" ps "e" /\ optional ps /\
  texts_readable d "s" ps "e" /\ export_process_to_csv 40 d None = (Some text, Ok tt) /\ reads text table /\
  load_diagram_from_csv table empty_diagram = (d', Ok tt) /\
  exists g f, In f (outgoing_of d g) /\ flow_text d f = "none" /\
    forall ed i, In ed (gedges (dgraph d')) -> dget "conditionExpression" (eat ed) <> Some (VCond i "none").
Proof.
  destruct opt_demo_ok as [H [S [T [_ [E [R _]]]]]].
  exists opt_ops, opt_demo, opt_parts. eexists. exists opt_tab, opt_loaded.
  split; [exact H|]. split; [exact S|]. split; [exact opt_parts_ok|]. split; [exact T|]. split; [exact E|]. split; [exact R|]. split; [vm_compute; reflexivity|].
  exists "g", "id14". split; [vm_compute; tauto|]. split; [vm_compute; reflexivity|].
  intros ed i He. vm_compute in He.
  repeat (destruct He as [<- |He]; [vm_compute; intros X; discriminate X|]). contradiction.
Qed.
Print Assumptions C110_condition_refuted.
