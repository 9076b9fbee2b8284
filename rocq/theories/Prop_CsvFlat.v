(** CSV: exporting a process with blocks and loading the file (C82).  Each theorem is
    followed by a concrete case of its hypotheses. *)
From Coq Require Import String Ascii List Bool Arith ZArith Lia Permutation.
From Verif Require Import Py PyFacts Consts Nx NxFacts Rep SpecRep RepFacts MetricsFacts Classify SpecLayout ClassifyFacts.
From Verif Require Import CsvRegex CsvImport SpecCsv RegexFacts CsvFacts CsvTable SpecFlow CsvGhost CsvFill CsvLast CsvTotal CsvExport SpecCsvExport CsvExportFacts CsvChain CsvOrders.
From Verif Require Import SpecBlocks BlockExport SpecFlat FlatTable FlatLines.
From Verif Require Import Prop_LayoutMetrics Prop_Layout Prop_CsvRows Prop_CsvImport Prop_CsvExport Prop_CsvBlocks.
Import ListNotations.
Open Scope string_scope.
Open Scope list_scope.

(** The texts that end up in the file. *)
Definition texts_readable (d : diagram) (s : string) (ps : list part) (e : string) : Prop :=
  (forall n, In n (s :: flat_map part_acts ps ++ flat_map part_ends ps ++ [e]) -> readable (node_text d n)) /\
  (forall g j bs f, In (Block g j bs) ps -> In f (outgoing_of d g) -> verbatim (flow_text d f)).

Lemma verbatim_app : forall a b, verbatim a -> verbatim b -> verbatim (a ++ b)%string.
Proof.
  intros a b [[A1 A2] [A3 A4]] [[B1 B2] [B3 B4]].
  repeat split; intros C; apply is_in_app in C; tauto.
Qed.
Lemma event_readable : forall d n t, readable t -> readable (event_word d n ++ t)%string.
Proof.
  intros d n t R. unfold event_word.
  assert (M : readable ("message " ++ t)%string).
  { split; [apply verbatim_app; [verbatim_lit|apply R]|]. intros [c1 [c2 [c3 [c4 [r [E [C _]]]]]]]. injection E as <- _. cbn [In] in C. intuition discriminate. }
  assert (T : readable ("timer " ++ t)%string).
  { split; [apply verbatim_app; [verbatim_lit|apply R]|]. intros [c1 [c2 [c3 [c4 [r [E [C _]]]]]]]. injection E as <- _. cbn [In] in C. intuition discriminate. }
  destruct (attr d n "event_definitions") as [[]|]; auto. destruct l as [|[i x] l]; auto.
  destruct (attr d n "type") as [[]|]; auto. destruct (String.eqb x "messageEventDefinition"); auto.
  destruct (String.eqb x "timerEventDefinition" && String.eqb s "startEvent"); auto.
Qed.
Lemma label_verbatim : forall s, label s -> verbatim s.
Proof.
  intros s H. split; [apply label_chars; auto|].
  assert (D : forall c, is_in c s -> latin c \/ SpecCsv.digit c) by exact (label_plain s H).
  split; intros C; apply D in C; unfold latin, SpecCsv.digit, is_in in C; cbn [list_ascii_of_string In] in C;
    destruct C as [C|C]; repeat (destruct C as [C|C]; [discriminate C|]); contradiction.
Qed.
Lemma verbatim_nil : verbatim "".
Proof. repeat split; intros []. Qed.

Section Loaded.
  Variables (d : diagram) (s e : string) (ps : list part) (fuel : nat).
  Hypothesis St : structured d s ps e.
  Hypothesis Fl : flat ps.
  Hypothesis Fu : size ps + 1 < fuel.
  Hypothesis Tx : texts_readable d s ps e.
  Let frow := flat_row d s e ps.

  Lemma block_facts : forall k g j bs, nth_error ps k = Some (Block g j bs) ->
    length bs <= 26 /\ length (outgoing_of d g) = length bs.
  Proof using All.
    intros k g j bs H. destruct St as [_ [_ [_ [_ [_ [_ [_ Hc]]]]]]]. specialize (Hc _ (nth_error_In _ _ H)). inversion Hc; subst.
    split; auto. match goal with F : Forall2 _ (outgoing_of d g) bs |- _ => apply (Forall2_len _ _ _ _ _ F) end.
  Qed.
  Lemma branch_flow : forall k g j bs i b, nth_error ps k = Some (Block g j bs) -> nth_error bs i = Some b ->
    exists f, nth_error (outgoing_of d g) i = Some f.
  Proof using All.
    intros k g j bs i b H Hi. destruct (block_facts k g j bs H) as [_ L]. destruct (nth_error (outgoing_of d g) i) eqn:E; eauto.
    apply nth_error_None in E. rewrite L in E. apply nth_lt in Hi. unfold branch_t in Hi. lia.
  Qed.
  Lemma acts_in : forall k g j bs i b m n, nth_error ps k = Some (Block g j bs) -> nth_error bs i = Some b ->
    nth_error (fst b) m = Some (Act n) -> In n (flat_map part_acts ps).
  Proof using All.
    intros k g j bs i b m n H B N. apply in_flat_map. exists (Block g j bs). split; [eapply nth_error_In; eauto|].
    cbn [part_acts]. apply in_flat_map. exists b. split; [eapply nth_error_In; eauto|]. apply in_flat_map. exists (Act n).
    split; [eapply nth_error_In; eauto|]. left. auto.
  Qed.
  Lemma ends_in : forall k g j bs i b x, nth_error ps k = Some (Block g j bs) -> nth_error bs i = Some b ->
    snd b = Some x -> In x (flat_map part_ends ps).
  Proof using All.
    intros k g j bs i b x H B N. apply in_flat_map. exists (Block g j bs). split; [eapply nth_error_In; eauto|].
    cbn [part_ends]. apply in_flat_map. exists b. split; [eapply nth_error_In; eauto|]. apply in_app_iff. right. rewrite N. left. auto.
  Qed.
  Lemma row_fine : forall o r, frow o r -> label o /\ Forall verbatim (line_of o r) /\ ~ goto_row r.
  Proof using All.
    intros o r H. destruct Tx as [T1 T2].
    assert (Tn : forall n, In n (s :: flat_map part_acts ps ++ flat_map part_ends ps ++ [e]) -> readable (node_text d n)) by exact T1.
    assert (Vs : forall n, verbatim (sub_mark d n)).
    { intros n. unfold sub_mark. destruct (is_type d n "subProcess"); [verbatim_lit|apply verbatim_nil]. }
    assert (Vc : forall k g j bs f m, nth_error ps k = Some (Block g j bs) -> In f (outgoing_of d g) -> verbatim (cond_at (branch_mark d g f) m)).
    { intros k g j bs f m B F. destruct m as [|m]; [|apply verbatim_nil]. cbn [cond_at]. unfold branch_mark, condition_text.
      destruct (negb (is_type d g "parallelGateway") && default_branch d g f); [verbatim_lit|].
      destruct (is_type d g "parallelGateway"); [apply verbatim_nil|]. eapply T2; eauto. eapply nth_error_In; eauto. }
    assert (Vy : verbatim "yes") by verbatim_lit. pose proof verbatim_nil as V0.
    assert (G : forall o a c sb te, label o -> readable a -> verbatim c -> verbatim sb -> verbatim te ->
      label o /\ Forall verbatim (line_of o (mkRow a c "" sb te)) /\ ~ goto_row (mkRow a c "" sb te)).
    { intros o' a c sb te Lo [Ra Rg] Rc Rs Rt. split; auto. split; [|exact Rg]. unfold line_of. cbn [r_activity r_condition r_who r_subprocess r_terminated].
      repeat (apply Forall_cons; [auto using label_verbatim|]). apply Forall_nil. }
    assert (Bd : forall k g j bs i b, nth_error ps k = Some (Block g j bs) -> nth_error bs i = Some b -> i < 26).
    { intros k g j bs i b B Hb. apply nth_lt in Hb. pose proof (proj1 (block_facts k g j bs B)). unfold branch_t in Hb. lia. }
    destruct H as [| |k n H|k g j bs i b f m n H B F Hn|k g j bs i b f x H B F Hx]; apply G; auto;
      try apply num_label; try apply row_is_label; eauto using nth_error_In.
    - apply event_readable, Tn. left. auto.
    - apply event_readable, Tn. right. rewrite !in_app_iff. right. right. left. auto.
    - apply Tn. right. rewrite !in_app_iff. left. apply in_flat_map. exists (Act n). split; [eapply nth_error_In; eauto|]. left. auto.
    - apply Tn. right. rewrite !in_app_iff. left. eapply acts_in; eauto.
    - apply event_readable, Tn. right. rewrite !in_app_iff. right. left. eapply ends_in; eauto.
  Qed.
  Lemma lines_verbatim : forall l, In l (process_lines d s ps e) -> l <> [] /\ length l = 6 /\ Forall verbatim l.
  Proof using All.
    intros l H. apply (lines_iff d s e ps Fl) in H. destruct H as [o [r [H ->]]]. split; [discriminate|]. split; [reflexivity|].
    apply (row_fine o r H).
  Qed.
  Lemma some_table : exists table, reads (csv_text (csv_columns :: process_lines d s ps e)) table.
  Proof using All.
    exists (map (fun l => (OStr (nth 0 l ""), mkRow (nth 1 l "") (nth 2 l "") (nth 3 l "") (nth 4 l "") (nth 5 l ""))) (process_lines d s ps e)).
    exists (process_lines d s ps e). split; auto. split; [intros l H; apply lines_verbatim; auto|].
    assert (L6 : forall l, In l (process_lines d s ps e) -> length l = 6) by (intros; apply lines_verbatim; auto).
    revert L6. generalize (process_lines d s ps e). induction l as [|l ls IH]; intros L6; cbn [map]; constructor; [|apply IH; intros; apply L6; right; auto].
    specialize (L6 l (or_introl eq_refl)). destruct l as [|f1 [|f2 [|f3 [|f4 [|f5 [|f6 [|]]]]]]]; try discriminate.
    exists f1, f2, f3, f4, f5, f6. split; auto. split; [left; reflexivity|reflexivity].
  Qed.

  Variable table : list (order_label * row).
  Hypothesis Rd : reads (csv_text (csv_columns :: process_lines d s ps e)) table.

  Lemma same_lines : Forall2 line_row (process_lines d s ps e) table.
  Proof using All.
    destruct Rd as [lines [Et [Vl R]]].
    assert (X : csv_columns :: process_lines d s ps e = csv_columns :: lines).
    { apply text_unique; auto; intros l [<- |Hx]; try apply columns_plain.
      - destruct (lines_verbatim l Hx) as [A [_ B]]. split; auto. apply verbatim_plain; auto.
      - split; [|apply verbatim_plain; auto]. destruct (Forall2_in_l _ _ _ _ _ _ R Hx) as [p [_ [o [a [c [w [s0 [t0 [-> _]]]]]]]]]. discriminate. }
    injection X as ->. exact R.
  Qed.
  Lemma rows_iff : forall o r, In (o, r) (rows_of table) <-> frow o r.
  Proof using All.
    pose proof same_lines as R. intros o r. split.
    - intros H. apply in_map_iff in H. destruct H as [[ol r'] [E H]]. cbn [fst snd] in E. injection E as Eo ->.
      destruct (Forall2_in_r _ _ _ _ _ _ R H) as [l [Hl [o1 [a [c [w [sb [te [El [Lt Er]]]]]]]]]]. cbn [fst snd] in Lt, Er.
      apply (lines_iff d s e ps Fl) in Hl. destruct Hl as [o2 [r2 [Hf E2]]]. rewrite El in E2. unfold line_of in E2.
      destruct (row_fine o2 r2 Hf) as [Lo _]. destruct r2 as [a2 c2 w2 s2 t2]. cbn [r_activity r_condition r_who r_subprocess r_terminated] in E2. inv E2.
      rewrite (clean_label_text ol o2 Lo Lt). exact Hf.
    - intros H. destruct (row_fine o r H) as [Lo _].
      assert (Hl : In (line_of o r) (process_lines d s ps e)) by (apply (lines_iff d s e ps Fl); eauto).
      destruct (Forall2_in_l _ _ _ _ _ _ R Hl) as [[ol r'] [Hp [o1 [a [c [w [sb [te [El [Lt Er]]]]]]]]]]. cbn [fst snd] in Lt, Er.
      unfold line_of in El. inv El. apply in_map_iff. exists (ol, mkRow (r_activity r) (r_condition r) (r_who r) (r_subprocess r) (r_terminated r)).
      split; auto. cbn [fst snd]. rewrite (clean_label_text ol o1 Lo Lt). destruct r; reflexivity.
  Qed.
  Lemma table_documented : documented table.
  Proof using All.
    destruct (structured_rows d s ps e fuel St Fu) as [rows [E S]]. destruct (rows_good _ _ _ E) as [[G1 G2 G3] _].
    pose proof same_lines as R.
    assert (M : orders (rows_of table) = map e_order rows).
    { unfold orders, rows_of. rewrite map_map. cbn [fst]. revert S R. generalize (process_lines d s ps e). clear - G3. intros lines S. revert table.
      induction S as [|r l rows lines [a [c [_ [_ ->]]]] S IH]; intros table R; inversion R; subst; [reflexivity|].
      cbn [map]. rewrite IH; auto; [|intros; apply G3; right; auto]. f_equal.
      destruct H1 as [o [a1 [c1 [w1 [s1 [t1 [El [Lt _]]]]]]]]. inv El. apply clean_label_text; auto. apply G3. left. auto. }
    split; [rewrite M; auto|]. intros o Ho. rewrite M in Ho. apply in_map_iff in Ho. destruct Ho as [r [<- Hr]]. auto.
  Qed.
  Lemma table_no_goto : goto_free table.
  Proof using All.
    intros ol r H. assert (I : In (clean_order ol, r) (rows_of table)) by (apply in_map_iff; exists (ol, r); auto).
    apply rows_iff in I. apply (row_fine _ _ I).
  Qed.

  (** The facts needed about the rows. *)
  Lemma few : forall k g j bs, nth_error ps k = Some (Block g j bs) -> length bs <= 26.
  Proof using All. intros k g j bs H. apply (block_facts k g j bs H). Qed.
  Lemma act_or_stop : forall k i m b, branch_at ps k i b -> m < branch_rows b ->
    (exists n, nth_error (fst b) m = Some (Act n)) \/ (m = length (fst b) /\ exists x, snd b = Some x).
  Proof using All.
    intros k i m b B H. pose proof (proj1 (branch_flat ps Fl k i b B)) as A. destruct (nth_error (fst b) m) as [q|] eqn:E.
    - left. destruct (A q (nth_error_In _ _ E)) as [n ->]. eauto.
    - apply nth_error_None in E. right. destruct b as [qs st]. unfold branch_rows, stops in H. cbn [fst snd] in *.
      destruct st as [x|]; simpl in H; [|lia]. split; eauto. lia.
  Qed.
  Lemma orders_iff : forall o, In o (orders (rows_of table)) <->
    (exists k, top_row ps k /\ o = num k) \/ (exists k i m, inner_row ps k i m /\ o = row_label (S k) i (S m)).
  Proof using All.
    intros o. unfold orders. rewrite in_map_iff. split.
    - intros [[o' r] [<- H]]. cbn [fst]. apply rows_iff in H. destruct H as [| |k n H|k g j bs i b f m n H B F Hn|k g j bs i b f x H B F Hx].
      + left. exists 0. split; auto. left. auto.
      + left. exists (S (length ps)). split; auto. right. left. auto.
      + left. exists (S k). split; auto. right. right. eauto.
      + right. exists k, i, m. split; auto. exists b. split; [exists bs; split; auto; exists g, j; auto|]. unfold branch_rows.
        apply nth_lt in Hn. lia.
      + right. exists k, i, (length (fst b)). split; auto. exists b. split; [exists bs; split; auto; exists g, j; auto|]. unfold branch_rows, stops.
        rewrite Hx. simpl. lia.
    - assert (X : forall o r, frow o r -> exists y, fst y = o /\ In y (rows_of table)) by (intros o' r H; exists (o', r); split; auto; apply rows_iff; auto).
      intros [[k [T ->]]|[k [i [m [[b [B M]] ->]]]]].
      + destruct T as [-> |[-> |[k' [n [-> H]]]]]; eapply X; [apply fr_start|apply fr_end|eapply fr_act; eauto].
      + pose proof B as [bs [[g [j H]] Hb]]. destruct (branch_flow k g j bs i b H Hb) as [f F].
        destruct (act_or_stop k i m b B M) as [[n Hn]|[-> [x Hx]]]; eapply X; [eapply fr_inner; eauto|eapply fr_stop; eauto].
  Qed.
  Lemma row_unique : forall o r r', In (o, r) (rows_of table) -> In (o, r') (rows_of table) -> r = r'.
  Proof using All.
    intros o r r' H H'. destruct table_documented as [N _]. apply (In_dget _ _ _ N) in H. apply (In_dget _ _ _ N) in H'. congruence.
  Qed.
  Lemma onward_of : forall o r, In (o, r) (rows_of table) -> (onward (rows_of table) o <-> r_terminated r <> "yes").
  Proof using All.
    intros o r H. split; [|intros; exists r; auto]. intros [r' [H' N]]. rewrite (row_unique o r r' H H'). auto.
  Qed.
  Lemma onward_top : forall k, top_row ps k -> (onward (rows_of table) (num k) <-> k <> S (length ps)).
  Proof using All.
    intros k [-> |[-> |[k' [n [-> H]]]]].
    - rewrite (onward_of _ _ (proj2 (rows_iff _ _) (fr_start d s e ps))). cbn [r_terminated]. split; intros _; [lia|discriminate].
    - rewrite (onward_of _ _ (proj2 (rows_iff _ _) (fr_end d s e ps))). cbn [r_terminated]. split; intros C; exfalso; apply C; auto.
    - rewrite (onward_of _ _ (proj2 (rows_iff _ _) (fr_act d s e ps k' n H))). cbn [r_terminated]. split; intros _; [|discriminate].
      apply nth_lt in H. lia.
  Qed.
  Lemma onward_row : forall k i m, inner_row ps k i m -> (onward (rows_of table) (row_label (S k) i (S m)) <-> ~ stop_row ps k i m).
  Proof using All.
    intros k i m [b [B M]]. pose proof B as [bs [[g [j H]] Hb]]. destruct (branch_flow k g j bs i b H Hb) as [f F].
    destruct (act_or_stop k i m b B M) as [[n Hn]|[-> [x Hx]]].
    - rewrite (onward_of _ _ (proj2 (rows_iff _ _) (fr_inner d s e ps k g j bs i b f m n H Hb F Hn))). cbn [r_terminated].
      split; intros _; [|discriminate]. intros [b' [B' [E Sn]]]. rewrite (branch_fun ps k i b' b B' B) in *. apply nth_lt in Hn.
      unfold branch_rows, stops in E. destruct (snd b); [simpl in E; lia|congruence].
    - rewrite (onward_of _ _ (proj2 (rows_iff _ _) (fr_stop d s e ps k g j bs i b f x H Hb F Hx))). cbn [r_terminated].
      split; intros C; exfalso; apply C; auto. exists b. split; auto. unfold branch_rows, stops. rewrite Hx. simpl. split; [lia|discriminate].
  Qed.

  Let rows := rows_of table.
  Lemma loads : forall d0, fresh d0 -> exists d', load_diagram_from_csv table d0 = (d', Ok tt).
  Proof using All.
    intros d0 F. apply C51_success; auto; [apply table_documented|apply table_no_goto|]. intros o Ho On.
    apply (all_connectable ps Fl few rows orders_iff onward_top o Ho On).
  Qed.
  Variables d0 d' : diagram.
  Hypothesis Fr : fresh d0.
  Hypothesis Ld : load_diagram_from_csv table d0 = (d', Ok tt).

  Lemma loaded_nodes : forall n, is_node d' n <-> In n ("0" :: flat_map part_nodes (relabel 1 ps) ++ [num (S (length ps))]).
  Proof using All.
    intros n. destruct (C66_nodes_and_flows table d0 d' Fr table_documented table_no_goto Ld) as [N _]. rewrite N.
    rewrite (table_nodes_iff ps Fl few (rows_of table) orders_iff onward_top onward_row), orders_iff, structure_nodes by auto. tauto.
  Qed.
  Lemma loaded_flows : forall x y, flow_between d' x y <-> In (x, y) (path_flows "0" (relabel 1 ps) (num (S (length ps)))).
  Proof using All.
    intros x y. destruct (C66_nodes_and_flows table d0 d' Fr table_documented table_no_goto Ld) as [_ [N _]]. rewrite N.
    rewrite (table_flows_iff ps Fl few (rows_of table) orders_iff onward_top onward_row), structure_flows by auto. tauto.
  Qed.
  Lemma elements : forall o r, frow o r ->
    (o = "0" -> attr d' o "type" = Some (VStr "startEvent")) /\
    (o <> "0" -> r_terminated r = "yes" -> attr d' o "type" = Some (VStr "endEvent")) /\
    (o <> "0" -> r_terminated r <> "yes" -> r_subprocess r = "yes" -> attr d' o "type" = Some (VStr "subProcess")) /\
    (o <> "0" -> r_terminated r <> "yes" -> r_subprocess r <> "yes" -> attr d' o "type" = Some (VStr "task")) /\
    (attr d' o "type" <> Some (VStr "endEvent") -> attr d' o "node_name" = Some (VStr (r_activity r))) /\
    (attr d' o "type" = Some (VStr "endEvent") -> attr d' o "node_name" = Some (VStr "")).
  Proof using All.
    intros o r H. apply (C66_row_elements table d0 d' Fr table_documented table_no_goto Ld). apply rows_iff. exact H.
  Qed.
  Lemma num_0 : forall k, num (S k) <> "0".
  Proof using All. intros k E. apply (num_inj (S k) 0) in E. discriminate. Qed.
  Lemma row_0 : forall k i m, i < 26 -> row_label k i m <> "0".
  Proof using All. intros k i m Hi E. eapply (top_not_row 0); [exact Hi|]. symmetry. exact E. Qed.
  Lemma act_elements : forall n l, activity_node d n -> l <> "0" -> forall c, frow l (mkRow (node_text d n) c "" (sub_mark d n) "") ->
    attr d' l "type" = attr d n "type" /\ attr d' l "node_name" = attr d n "node_name".
  Proof using All.
    intros n l [Nn Ty] L0 c H. destruct (elements _ _ H) as [_ [_ [R3 [R4 [R5 _]]]]]. cbn [r_terminated r_subprocess r_activity] in *.
    assert (Nm : attr d n "node_name" = Some (VStr (node_text d n))).
    { destruct St as [_ [Wn _]]. destruct (Wn n Nn) as [[t Ht] _]. unfold node_text, named in *. rewrite Ht. reflexivity. }
    rewrite Nm. unfold sub_mark, is_type, typed in *. destruct Ty as [Ty|Ty]; rewrite Ty in *.
    - cbn [String.eqb Ascii.eqb Bool.eqb] in *. assert (T : attr d' l "type" = Some (VStr "task")) by (apply R4; auto; discriminate).
      split; auto. apply R5. rewrite T. discriminate.
    - assert (T : attr d' l "type" = Some (VStr "subProcess")) by (apply R3; auto; discriminate).
      split; auto. apply R5. rewrite T. discriminate.
  Qed.
  Lemma end_elements : forall l a c, l <> "0" -> frow l (mkRow a c "" "" "yes") ->
    typed d' l "endEvent" /\ named d' l "".
  Proof using All.
    intros l a c L0 H. destruct (elements _ _ H) as [_ [R2 [_ [_ [_ R6]]]]]. cbn [r_terminated] in *.
    assert (T : attr d' l "type" = Some (VStr "endEvent")) by auto. split; [exact T|]. apply R6. exact T.
  Qed.
End Loaded.

(** Matching the activities of a structure with those of the relabelled one. *)
Lemma Forall2_flat : forall A B (P : string -> string -> Prop) (f : A -> list string) (g : B -> list string) la lb,
  Forall2 (fun a b => Forall2 P (f a) (g b)) la lb -> Forall2 P (flat_map f la) (flat_map g lb).
Proof. intros A B P f g la lb H. induction H; cbn [flat_map]; [constructor|]. apply Forall2_app; auto. Qed.
Lemma acts_matched : forall (P : string -> string -> Prop) ps k,
  (forall p, In p ps -> match p with Act _ => True | Block _ _ bs => forall b q, In b bs -> In q (fst b) -> is_act q end) ->
  (forall i n, nth_error ps i = Some (Act n) -> P n (num (k + i))) ->
  (forall i g j bs i' b m n, nth_error ps i = Some (Block g j bs) -> nth_error bs i' = Some b -> nth_error (fst b) m = Some (Act n) ->
     P n (row_label (k + i) i' (S m))) ->
  Forall2 P (flat_map part_acts ps) (flat_map part_acts (relabel k ps)).
Proof.
  intros P ps k Fl H1 H2. apply Forall2_flat. revert k H1 H2. induction ps as [|p ps IH]; intros k H1 H2; cbn [relabel]; constructor.
  - specialize (Fl p (or_introl eq_refl)). destruct p as [n|g j bs]; cbn [relabel_part part_acts].
    + constructor; [|constructor]. specialize (H1 0 n eq_refl). rewrite Nat.add_0_r in H1. auto.
    + apply Forall2_flat.
      assert (H3 : forall i' b m n, nth_error bs i' = Some b -> nth_error (fst b) m = Some (Act n) -> P n (row_label k (0 + i') (S m))).
      { intros i' b m n B N. specialize (H2 0 g j bs i' b m n eq_refl B N). rewrite Nat.add_0_r in H2. auto. }
      clear H1 H2 IH. revert Fl H3. generalize 0 as i0. induction bs as [|b bs IHb]; intros i0 Fl H3; cbn [relabel_branches]; constructor.
      * assert (H4 : forall m n, nth_error (fst b) m = Some (Act n) -> P n (row_label k i0 (1 + m))).
        { intros m n N. specialize (H3 0 b m n eq_refl N). rewrite Nat.add_0_r in H3. auto. }
        specialize (Fl b). unfold relabel_branch. cbn [fst]. apply Forall2_flat.
        assert (A : forall q, In q (fst b) -> is_act q) by (intros; apply (Fl q); [left; auto|auto]).
        clear - H4 A. revert A H4. generalize (fst b) as qs. generalize 1 as m0. intros m0 qs. revert m0.
        induction qs as [|q qs IHq]; intros m0 A H4; cbn [length seq map]; constructor.
        { destruct (A q (or_introl eq_refl)) as [n ->]. constructor; [|constructor]. specialize (H4 0 n eq_refl). rewrite Nat.add_0_r in H4. auto. }
        { apply IHq; [intros; apply A; right; auto|]. intros m n N. rewrite Nat.add_succ_comm. apply (H4 (S m) n N). }
      * apply IHb; [intros b' q Hb; apply Fl; right; auto|]. intros i' b' m n B N. rewrite Nat.add_succ_comm. apply (H3 (S i') b' m n B N).
  - apply IH; [intros; apply Fl; right; auto| |].
    + intros i n N. rewrite Nat.add_succ_comm. apply (H1 (S i) n N).
    + intros i g j bs i' b m n N B Q. rewrite Nat.add_succ_comm. apply (H2 (S i) g j bs i' b m n N B Q).
Qed.
Lemma ends_relabelled : forall ps l, In l (flat_map part_ends (relabel 1 ps)) ->
  exists k g j bs i b x, nth_error ps k = Some (Block g j bs) /\ nth_error bs i = Some b /\ snd b = Some x /\
    l = row_label (S k) i (S (length (fst b))).
Proof.
  intros ps l H. apply in_flat_map in H. destruct H as [q [Hq I]]. apply in_relabel in Hq. destruct Hq as [k [p [Hp ->]]].
  destruct p as [n|g j bs]; [contradiction|]. cbn [relabel_part part_ends] in I. apply in_flat_map in I. destruct I as [c [Hc I]].
  apply in_branches in Hc. destruct Hc as [i [b [Hb ->]]]. exists k, g, j, bs, i, b. unfold relabel_branch in I. cbn [fst snd] in I.
  apply in_app_iff in I. destruct I as [I|I].
  - exfalso. apply in_flat_map in I. destruct I as [q [Hq I]]. apply in_map_iff in Hq. destruct Hq as [m [<- _]]. contradiction.
  - destruct (snd b) as [x|] eqn:Ex; [|contradiction]. exists x. destruct I as [<- |[]]. auto.
Qed.

(** * C82 *)
(** A process of activities and blocks of activities comes back from its file with the
    same structure.  The nodes are called after their lines; the start event and the
    activities keep kind and name, end events keep their kind. *)
Theorem C82_round_trip : forall d s ps e fuel, structured d s ps e -> flat ps -> texts_readable d s ps e -> size ps + 1 < fuel ->
  exists text, export_process_to_csv fuel d None = (Some text, Ok tt) /\
    (exists table, reads text table) /\
    forall table d0, reads text table -> fresh d0 ->
    let qs := relabel 1 ps in let z := num (S (length ps)) in
    exists d', load_diagram_from_csv table d0 = (d', Ok tt) /\
      (forall n, is_node d' n <-> In n ("0" :: flat_map part_nodes qs ++ [z])) /\
      (forall x y, flow_between d' x y <-> In (x, y) (path_flows "0" qs z)) /\
      typed d' "0" "startEvent" /\ named d' "0" (event_word d s ++ node_text d s)%string /\
      Forall2 (fun n l => attr d' l "type" = attr d n "type" /\ attr d' l "node_name" = attr d n "node_name")
        (flat_map part_acts ps) (flat_map part_acts qs) /\
      (forall l, In l (flat_map part_ends qs ++ [z]) -> typed d' l "endEvent" /\ named d' l "").
Proof.
  intros d s ps e fuel St Fl Tx Fu. exists (csv_text (csv_columns :: process_lines d s ps e)).
  split; [apply C81_lines; auto|]. split; [eapply (some_table d s e ps fuel); eauto|]. intros table d0 Rd Fr qs z.
  destruct (loads d s e ps fuel St Fl Fu Tx table Rd d0 Fr) as [d' Ld]. exists d'. split; auto.
  assert (Ac : forall p, In p ps -> contains d p) by apply St.
  assert (An : forall n, contains d (Act n) -> activity_node d n) by (intros n H; inversion H; auto).
  assert (Bd : forall k g j bs i b, nth_error ps k = Some (Block g j bs) -> nth_error bs i = Some b -> i < 26).
  { intros k g j bs i b B Hb. eapply (letter_bound ps (few d s e ps fuel St Fl Fu Tx table Rd) k i b). exists bs. split; auto. exists g, j. auto. }
  split; [eapply loaded_nodes; eauto|]. split; [eapply loaded_flows; eauto|].
  destruct (elements d s e ps fuel St Fl Fu Tx table Rd d0 d' Fr Ld _ _ (fr_start d s e ps)) as [R1 [_ [_ [_ [R5 _]]]]].
  specialize (R1 eq_refl). split; [exact R1|]. split; [apply R5; rewrite R1; discriminate|]. split.
  - apply acts_matched.
    + intros p Hp. pose proof (proj1 Fl p Hp) as X. destruct p; auto. intros b q Hb Hq. apply (proj2 X b Hb). auto.
    + intros i n H. eapply (act_elements d s e ps fuel); eauto; [apply An, Ac; eapply nth_error_In; eauto|eapply (num_0 d s e ps fuel); eauto|apply fr_act; auto].
    + intros k g j bs i b m n H B N. assert (X : exists f, nth_error (outgoing_of d g) i = Some f) by (eapply (branch_flow d s e ps fuel); eauto). destruct X as [f F].
      eapply (act_elements d s e ps fuel); eauto; [|eapply (row_0 d s e ps fuel); eauto|eapply fr_inner; eauto].
      apply An. specialize (Ac _ (nth_error_In _ _ H)). inversion Ac; subst.
      match goal with Q : forall b p, In b bs -> In p (fst b) -> contains d p |- _ => apply (Q b (Act n)); eapply nth_error_In; eauto end.
  - intros l H. apply in_app_iff in H. destruct H as [H|[<- |[]]].
    + apply ends_relabelled in H. destruct H as [k [g [j [bs [i [b [x [H [B [Ex ->]]]]]]]]]]. assert (X : exists f, nth_error (outgoing_of d g) i = Some f) by (eapply (branch_flow d s e ps fuel); eauto). destruct X as [f F].
      eapply (end_elements d s e ps fuel); eauto; [eapply (row_0 d s e ps fuel); eauto|eapply fr_stop; eauto].
    + eapply (end_elements d s e ps fuel); eauto; [eapply (num_0 d s e ps fuel); eauto|apply fr_end].
Qed.

(** The first row of a branch. *)
Lemma first_row : forall d s ps e fuel table, structured d s ps e -> flat ps -> texts_readable d s ps e -> size ps + 1 < fuel ->
  reads (csv_text (csv_columns :: process_lines d s ps e)) table ->
  forall k g j bs i b f, nth_error ps k = Some (Block g j bs) -> nth_error bs i = Some b -> nth_error (outgoing_of d g) i = Some f ->
  exists r, In (row_label (S k) i 1, r) (rows_of table) /\ r_condition r = branch_mark d g f.
Proof.
  intros d s ps e fuel table St Fl Tx Fu Rd k g j bs i b f H B F.
  assert (Bt : branch_at ps k i b) by (exists bs; split; auto; exists g, j; auto).
  assert (R : 0 < branch_rows b) by (apply (branch_flat ps Fl k i b Bt)).
  destruct (act_or_stop d s e ps fuel St Fl Fu Tx table Rd k i 0 b Bt R) as [[n N]|[E [x X]]].
  - eexists. split; [eapply (rows_iff d s e ps fuel); eauto; eapply fr_inner; eauto|reflexivity].
  - exists (mkRow (event_word d x ++ node_text d x) (branch_mark d g f) "" "" "yes"). split; [|reflexivity].
    eapply (rows_iff d s e ps fuel); eauto. pose proof (fr_stop d s e ps k g j bs i b f x H B F X) as Q. rewrite <- E in Q. exact Q.
Qed.

(** The flow into a branch is drawn from the gateway and carries the text of the flow it
    comes from, "else" for the default flow. *)
Theorem C82_conditions : forall d s ps e fuel text table d0 d', structured d s ps e -> flat ps -> texts_readable d s ps e ->
  size ps + 1 < fuel -> export_process_to_csv fuel d None = (Some text, Ok tt) -> reads text table -> fresh d0 ->
  load_diagram_from_csv table d0 = (d', Ok tt) ->
  forall k g j bs i f, nth_error ps k = Some (Block g j bs) -> nth_error (outgoing_of d g) i = Some f ->
  exists ed, In ed (gedges (dgraph d')) /\ eu ed = split_of (num k) /\ ev ed = row_label (S k) i 1 /\
    (branch_mark d g f <> "" -> exists id, dget "conditionExpression" (eat ed) = Some (VCond id (branch_mark d g f))) /\
    (branch_mark d g f = "" -> dget "conditionExpression" (eat ed) = None).
Proof.
  intros d s ps e fuel text table d0 d' St Fl Tx Fu Ex Rd Fr Ld k g j bs i f H F.
  rewrite (C81_lines d s ps e fuel St Fu) in Ex. injection Ex as <-.
  assert (Lb : length (outgoing_of d g) = length bs) by (eapply (block_facts d s e ps fuel); eauto).
  assert (B : exists b, nth_error bs i = Some b).
  { destruct (nth_error bs i) eqn:E; eauto. apply nth_error_None in E. rewrite <- Lb in E. apply nth_lt in F. lia. }
  destruct B as [b B]. assert (Bt : branch_at ps k i b) by (exists bs; split; auto; exists g, j; auto).
  assert (Fw : flow_between d' (split_of (num k)) (row_label (S k) i 1)).
  { eapply (loaded_flows d s e ps fuel); eauto. apply structure_flows; auto. eapply ff_branch; eauto. }
  destruct Fw as [fl Fw].
  assert (Dc : documented table) by (eapply (table_documented d s e ps fuel); eauto).
  assert (Gf : goto_free table) by (eapply (table_no_goto d s e ps fuel); eauto).
  destruct (C67_edges_of_flows table d0 d' Fr Dc Gf Ld _ _ _ Fw) as [ed [Ie [Eu [Ev [_ [_ [_ [C1 C2]]]]]]]].
  destruct (first_row d s ps e fuel table St Fl Tx Fu Rd k g j bs i b f H B F) as [r [Ir Er]].
  exists ed. split; auto. split; auto. split; auto. rewrite <- Er. split.
  - intros Ne. eexists. apply C1; auto.
  - intros Em. apply C2. intros r' Ir'. assert (r' = r) as ->; [|auto]. eapply (row_unique d s e ps fuel); eauto.
Qed.

Lemma decision_perm : forall l l', Permutation l l' -> decision l -> decision l'.
Proof.
  intros l l' P [a [b [-> D]]]. apply Permutation_length_2_inv in P. destruct P as [-> | ->]; [exists a, b|exists b, a]; split; auto; tauto.
Qed.
(** The kind of the gateway follows from the conditions. *)
Theorem C82_gateways : forall d s ps e fuel text table d0 d', structured d s ps e -> flat ps -> texts_readable d s ps e ->
  size ps + 1 < fuel -> export_process_to_csv fuel d None = (Some text, Ok tt) -> reads text table -> fresh d0 ->
  load_diagram_from_csv table d0 = (d', Ok tt) ->
  forall k g j bs conds, nth_error ps k = Some (Block g j bs) ->
  Forall2 (fun f c => trimmed (branch_mark d g f) c) (outgoing_of d g) conds ->
  exists t, typed d' (split_of (num k)) t /\
    (t = "exclusiveGateway" <-> decision conds) /\
    (t = "parallelGateway" <-> ~ decision conds /\ forall c, In c conds -> c = "") /\
    (t = "inclusiveGateway" <-> ~ decision conds /\ exists c, In c conds /\ c <> "").
Proof.
  intros d s ps e fuel text table d0 d' St Fl Tx Fu Ex Rd Fr Ld k g j bs conds H Cs.
  rewrite (C81_lines d s ps e fuel St Fu) in Ex. injection Ex as <-.
  assert (Lb : length (outgoing_of d g) = length bs) by (eapply (block_facts d s e ps fuel); eauto).
  assert (Dc : documented table) by (eapply (table_documented d s e ps fuel); eauto).
  assert (Gf : goto_free table) by (eapply (table_no_goto d s e ps fuel); eauto).
  pose proof (few d s e ps fuel St Fl Fu Tx table Rd) as Few.
  assert (Or := fun o => orders_iff d s e ps fuel St Fl Fu Tx table Rd o).
  assert (Ot := onward_top d s e ps fuel St Fl Fu Tx table Rd). assert (Ow := onward_row d s e ps fuel St Fl Fu Tx table Rd).
  assert (Bk : block_at ps k bs) by (exists g, j; auto).
  set (rows := rows_of table) in *.
  set (labels := map (fun i => row_label (S k) i 1) (seq 0 (length bs))).
  assert (Br : forall x, branch rows (num k) x <-> In x labels).
  { intros x. rewrite (branch_top ps Fl Few rows Or). unfold labels. rewrite in_map_iff. split.
    - intros [i [b [[bs' [B' Hb]] ->]]]. exists i. split; auto. apply in_seq. destruct B' as [g' [j' B']]. rewrite H in B'. inv B'.
      apply nth_lt in Hb. unfold branch_t in Hb. lia.
    - intros [i [<- Hi]]. apply in_seq in Hi. destruct (nth_error bs i) as [b|] eqn:Eb; [|apply nth_error_None in Eb; lia].
      exists i, b. split; auto. exists bs. auto. }
  set (f := fun x => existsb (String.eqb x) labels).
  assert (Hf : forall x, f x = true <-> branch rows (num k) x).
  { intros x. rewrite Br. unfold f. rewrite existsb_exists. split; [intros [y [Hy E]]; apply String.eqb_eq in E; subst; auto|].
    intros I. exists x. split; auto. apply String.eqb_refl. }
  assert (Nl : NoDup labels).
  { unfold labels. apply NoDup_nth_error. intros a b La E. rewrite map_length, seq_length in La.
    destruct (Nat.lt_ge_cases b (length bs)) as [Lbb|Lbb].
    - rewrite !nth_error_map, !(nth_error_nth' (seq 0 (length bs)) 0), !seq_nth in E by (rewrite ?seq_length; auto). cbn [option_map Nat.add] in E.
      injection E as E. pose proof (Few k g j bs H). apply row_inj in E; lia.
    - rewrite (proj2 (nth_error_None _ b)) in E by (rewrite map_length, seq_length; auto).
      apply nth_error_None in E. rewrite map_length, seq_length in E. lia. }
  assert (Pm : Permutation (filter f (orders rows)) labels).
  { apply NoDup_Permutation; auto; [apply NoDup_filter, Dc|]. intros x. rewrite filter_In, Hf, Br. split; [tauto|]. intros I. split; auto.
    apply Br in I. destruct I as [p [n [_ [_ I]]]]. exact I. }
  set (h := fun x => match dget x rows with Some r => strip (r_condition r) | None => "" end).
  assert (Hc : conds = map h labels).
  { assert (X : forall i, nth_error conds i = nth_error (map h labels) i); [|].
    { intros i. unfold labels. rewrite map_map, nth_error_map.
      destruct (nth_error (outgoing_of d g) i) as [fl|] eqn:Ef.
      - assert (Li : i < length bs) by (rewrite <- Lb; eapply nth_lt; eauto).
        rewrite (nth_error_nth' (seq 0 (length bs)) 0), seq_nth by (rewrite ?seq_length; auto). cbn [option_map Nat.add].
        destruct (nth_error bs i) as [b|] eqn:Eb; [|apply nth_error_None in Eb; lia].
        destruct (first_row d s ps e fuel table St Fl Tx Fu Rd k g j bs i b fl H Eb Ef) as [r [Ir Er]].
        unfold h, rows. rewrite (In_dget _ _ _ (proj1 Dc) Ir), Er.
        assert (Y : exists c, nth_error conds i = Some c /\ trimmed (branch_mark d g fl) c).
        { clear - Cs Ef. revert i Ef. induction Cs as [|a c la lc T Cs IH]; intros i Ef; [destruct i; discriminate|].
          destruct i as [|i]; cbn [nth_error] in *; [inv Ef; eauto|eauto]. }
        destruct Y as [c [-> T]]. apply strip_unique in T. congruence.
      - assert (Li : length bs <= i) by (rewrite <- Lb; apply nth_error_None; auto).
        rewrite (proj2 (nth_error_None (seq 0 (length bs)) i)) by (rewrite seq_length; auto). cbn [option_map].
        apply nth_error_None. rewrite <- (Forall2_len _ _ _ _ _ Cs), Lb. exact Li. }
    clear - X. revert X. generalize (map h labels). induction conds as [|c cs IH]; intros [|x l] X; auto; try (specialize (X 0); discriminate).
    f_equal; [specialize (X 0); cbn in X; congruence|]. apply IH. intros i. apply (X (S i)). }
  assert (Sp : splits rows (num k)) by (apply (splits_iff ps Fl Few rows Or Ot); eauto).
  assert (Nd : is_node d' (split_of (num k))).
  { eapply (loaded_nodes d s e ps fuel); eauto. apply structure_nodes; auto. right. right. exists k, bs. auto. }
  destruct (C66_split_type table d0 d' Fr Dc Gf Ld (num k) (filter f (orders rows)) (map h (filter f (orders rows))) Sp Nd) as [t [T1 T2]].
  - exists f. auto.
  - fold rows. assert (G : forall l, (forall x, In x l -> In x (orders rows)) ->
      Forall2 (fun b c => exists r, In (b, r) rows /\ trimmed (r_condition r) c) l (map h l)).
    { induction l as [|x l IH]; intros Hx; cbn [map]; constructor; [|apply IH; intros; apply Hx; right; auto].
      assert (I : In x (orders rows)) by (apply Hx; left; auto). unfold orders in I. apply in_map_iff in I. destruct I as [[x' r] [E I]]. cbn [fst] in E. subst x'.
      exists r. split; auto. unfold h, rows. rewrite (In_dget _ _ _ (proj1 Dc) I). apply strip_trimmed. }
    apply G. intros x I. apply filter_In in I. tauto.
  - exists t. split; [exact T1|]. pose proof (Permutation_map h Pm) as Q. rewrite <- Hc in Q.
    assert (D : decision (map h (filter f (orders rows))) <-> decision conds).
    { split; apply decision_perm; auto. apply Permutation_sym. auto. }
    assert (I : forall c, In c (map h (filter f (orders rows))) <-> In c conds).
    { intros c. split; apply Permutation_in; auto. apply Permutation_sym. auto. }
    destruct T2 as [A [B C]]. rewrite A, B, C, D. split; [tauto|]. split.
    + split; intros [X Y]; split; auto; intros c Hx; apply Y; apply I; auto.
    + split; intros [X [c [Y Z]]]; split; auto; exists c; split; auto; apply I; auto.
Qed.
(** Parallel gateways stay parallel. *)
Theorem C82_parallel : forall d s ps e fuel text table d0 d', structured d s ps e -> flat ps -> texts_readable d s ps e ->
  size ps + 1 < fuel -> export_process_to_csv fuel d None = (Some text, Ok tt) -> reads text table -> fresh d0 ->
  load_diagram_from_csv table d0 = (d', Ok tt) ->
  forall k g j bs, nth_error ps k = Some (Block g j bs) -> typed d g "parallelGateway" ->
  typed d' (split_of (num k)) "parallelGateway".
Proof.
  intros d s ps e fuel text table d0 d' St Fl Tx Fu Ex Rd Fr Ld k g j bs H Ty.
  assert (Mk : forall f, branch_mark d g f = "").
  { intros f. unfold branch_mark, condition_text, is_type. unfold typed in Ty. rewrite Ty. reflexivity. }
  destruct (C82_gateways d s ps e fuel text table d0 d' St Fl Tx Fu Ex Rd Fr Ld k g j bs (map (fun _ => "") (outgoing_of d g)) H) as [t [T [_ [P _]]]].
  - induction (outgoing_of d g) as [|f l IH]; cbn [map]; constructor; auto. rewrite Mk. exists "", "". 
    split; auto. split; [intros c []|]. split; [intros c []|]. split; intros c u E; [discriminate|destruct u; discriminate].
  - assert (X : forall c, In c (map (fun _ => "") (outgoing_of d g)) -> c = "") by (intros c I; apply in_map_iff in I; destruct I as [x [<- _]]; auto).
    rewrite <- (proj2 P); auto. split; auto. intros [a [b [E D]]]. rewrite E in X.
    assert (a = "") by (apply X; left; auto). assert (b = "") by (apply X; right; left; auto). subst. intuition discriminate.
Qed.

(** Checking the hypotheses for a concrete diagram. *)
Definition act_b (p : part) : bool := match p with Act _ => true | _ => false end.
Lemma act_ok : forall p, act_b p = true -> is_act p.
Proof. intros [n|] H; [exists n; auto|discriminate]. Qed.
Definition branch_b (b : branch_t) : bool :=
  forallb act_b (fst b) && Nat.leb 1 (branch_rows b) && Nat.leb (branch_rows b) 10.
Definition meets_b (b : branch_t) : bool := match snd b with None => true | Some _ => false end.
Definition part_b (p : part) : bool :=
  match p with Act _ => true | Block _ _ bs => Nat.leb 2 (length (filter meets_b bs)) && forallb branch_b bs end.
Fixpoint apart_b (ps : list part) : bool :=
  match ps with
  | p :: ((q :: _) as qs) => (act_b p || act_b q) && apart_b qs
  | _ => true
  end.
Lemma two_meet_ok : forall bs, 2 <= length (filter meets_b bs) -> two_meet bs.
Proof.
  assert (One : forall bs, 1 <= length (filter meets_b bs) -> exists i b, nth_error bs i = Some b /\ snd b = None).
  { induction bs as [|b bs IH]; cbn [filter]; intros H; [cbn in H; lia|]. destruct (meets_b b) eqn:E.
    - exists 0, b. split; auto. unfold meets_b in E. destruct (snd b); [discriminate|auto].
    - destruct (IH H) as [i [b' [A B]]]. exists (S i), b'. auto. }
  induction bs as [|b bs IH]; cbn [filter]; intros H; [cbn in H; lia|]. destruct (meets_b b) eqn:E.
  - destruct (One bs) as [i [b' [A B]]]; [cbn [length] in H; lia|]. exists 0, (S i), b, b'. split; [lia|]. split; auto. split; auto.
    split; auto. unfold meets_b in E. destruct (snd b); [discriminate|auto].
  - destruct (IH H) as [i [i' [c [c' [A [B [C D]]]]]]]. exists (S i), (S i'), c, c'. split; [lia|]. auto.
Qed.
Lemma flat_ok : forall ps, forallb part_b ps && apart_b ps = true -> flat ps.
Proof.
  intros ps H. apply andb_true_iff in H. destruct H as [H1 H2]. split.
  - intros p Hp. rewrite forallb_forall in H1. specialize (H1 p Hp). destruct p as [n|g j bs]; [exact I|].
    cbn [part_b] in H1. apply andb_true_iff in H1. destruct H1 as [A B]. split; [apply two_meet_ok, Nat.leb_le; auto|].
    intros b Hb. rewrite forallb_forall in B. specialize (B b Hb). unfold branch_b in B. rewrite !andb_true_iff in B.
    destruct B as [[B1 B2] B3]. split; [|split; apply Nat.leb_le; auto]. intros p Hp'. rewrite forallb_forall in B1. apply act_ok; auto.
  - clear H1. induction ps as [|p ps IH]; intros k a b Ha Hb Bl; [destruct k; discriminate|].
    destruct ps as [|q qs]; [destruct k as [|[|k]]; discriminate|]. cbn [apart_b] in H2. apply andb_true_iff in H2. destruct H2 as [A B].
    destruct k as [|k].
    + cbn [nth_error] in *. inv Ha. inv Hb. destruct Bl as [g [j [bs ->]]]. apply act_ok. exact A.
    + apply (IH B k a b); auto.
Qed.
Definition verbatim_b (s : string) : bool :=
  forallb (fun c => negb (existsb (Ascii.eqb c) [","%char; ascii_of_nat 10; ascii_of_nat 34; ascii_of_nat 13])) (list_ascii_of_string s).
Lemma verbatim_ok : forall s, verbatim_b s = true -> verbatim s.
Proof.
  intros s H. unfold verbatim_b in H. rewrite forallb_forall in H.
  assert (X : forall c, is_in c s -> In c [","%char; ascii_of_nat 10; ascii_of_nat 34; ascii_of_nat 13] -> False).
  { intros c Hc I. specialize (H c Hc). apply negb_true_iff in H. assert (Y : existsb (Ascii.eqb c) [","%char; ascii_of_nat 10; ascii_of_nat 34; ascii_of_nat 13] = true).
    { apply existsb_exists. exists c. split; auto. apply Ascii.eqb_refl. } congruence. }
  repeat split; intros C; eapply X; eauto; cbn [In]; auto.
Qed.
Definition readable_b (s : string) : bool := verbatim_b s && negb (is_goto (mkRow s "" "" "" "")).
Lemma readable_ok : forall s, readable_b s = true -> readable s.
Proof.
  intros s H. apply andb_true_iff in H. destruct H as [A B]. split; [apply verbatim_ok; auto|]. intros C.
  assert (X : is_goto (mkRow s "" "" "" "") = true) by (apply is_goto_spec; exact C). rewrite X in B. discriminate.
Qed.
Definition texts_b (d : diagram) (s : string) (ps : list part) (e : string) : bool :=
  forallb (fun n => readable_b (node_text d n)) (s :: flat_map part_acts ps ++ flat_map part_ends ps ++ [e]) &&
  forallb (fun p => match p with Act _ => true | Block g _ _ => forallb (fun f => verbatim_b (flow_text d f)) (outgoing_of d g) end) ps.
Lemma texts_ok : forall d s ps e, texts_b d s ps e = true -> texts_readable d s ps e.
Proof.
  intros d s ps e H. apply andb_true_iff in H. destruct H as [A B]. rewrite forallb_forall in A, B. split.
  - intros n Hn. apply readable_ok. auto.
  - intros g j bs f Hb Hf. specialize (B _ Hb). cbn in B. rewrite forallb_forall in B. apply verbatim_ok. auto.
Qed.
(** The table a reader makes of lines when it takes all fields as texts. *)
Definition table_of (lines : list (list string)) : list (order_label * row) :=
  map (fun l => (OStr (nth 0 l ""), mkRow (nth 1 l "") (nth 2 l "") (nth 3 l "") (nth 4 l "") (nth 5 l ""))) lines.
Lemma table_reads : forall lines, forallb (fun l => Nat.eqb (length l) 6 && forallb verbatim_b l) lines = true ->
  reads (csv_text (csv_columns :: lines)) (table_of lines).
Proof.
  intros lines H. exists lines. split; auto. rewrite forallb_forall in H. split.
  - intros l Hl. specialize (H l Hl). apply andb_true_iff in H. destruct H as [_ H]. rewrite forallb_forall in H. apply Forall_forall.
    intros x Hx. apply verbatim_ok. auto.
  - unfold table_of. induction lines as [|l ls IH]; cbn [map]; constructor; [|apply IH; intros; apply H; right; auto].
    specialize (H l (or_introl eq_refl)). apply andb_true_iff in H. destruct H as [H _]. apply Nat.eqb_eq in H.
    destruct l as [|f1 [|f2 [|f3 [|f4 [|f5 [|f6 [|]]]]]]]; try discriminate.
    exists f1, f2, f3, f4, f5, f6. split; auto. split; [left; reflexivity|reflexivity].
Qed.

(** A decision with three branches, one of which stops, and later two parallel branches. *)
Definition flat_ops : list op :=
  [ONew "m" "0"; OStart "id2" "begin" (Some "timer") false true (Some "s") "90" "91";
   OExclusive "id2" "g" "Diverging" (Some "id13") (Some "g") ""; OTask "id2" "pack" (Some "b") "";
   OSubprocess "id2" "weigh" false false (Some "c") ""; OTask "id2" "call" (Some "h") "";
   OTask "id2" "refuse" (Some "x") ""; OEnd "id2" "over" None (Some "e2") "" "";
   OExclusive "id2" "j" "Converging" None (Some "j") ""; OTask "id2" "close" (Some "m") "";
   OParallel "id2" "g2" "Diverging" (Some "g2") ""; OTask "id2" "left" (Some "l") "";
   OTask "id2" "right" (Some "r") ""; OParallel "id2" "j2" "Converging" (Some "j2") "";
   OEnd "id2" "done" (Some "message") (Some "e") "92" "93";
   OFlow "id2" "s" "g" "" "10";
   OFlow "id2" "g" "b" "small" "12"; OFlow "id2" "g" "h" "large" "13"; OFlow "id2" "g" "x" "bad" "15";
   OFlow "id2" "b" "c" "" "16"; OFlow "id2" "c" "j" "" "17"; OFlow "id2" "h" "j" "" "18"; OFlow "id2" "x" "e2" "" "25";
   OFlow "id2" "j" "m" "" "26"; OFlow "id2" "m" "g2" "" "27"; OFlow "id2" "g2" "l" "ignored" "19"; OFlow "id2" "g2" "r" "" "20";
   OFlow "id2" "l" "j2" "" "21"; OFlow "id2" "r" "j2" "" "22"; OFlow "id2" "j2" "e" "" "23"].
Definition flat_demo : diagram := run empty_diagram flat_ops.
Definition flat_parts : list part :=
  [Block "g" "j" [([Act "b"; Act "c"], None); ([Act "h"], None); ([Act "x"], Some "e2")]; Act "m";
   Block "g2" "j2" [([Act "l"], None); ([Act "r"], None)]].
Lemma built : forall ops d, run empty_diagram ops = d -> check empty_diagram ops = true -> pairs_checked (seq_flows (run empty_diagram ops)) = true ->
  history ops d /\ coherent d.
Proof.
  intros ops d <- H D. assert (Hh : history ops (run empty_diagram ops)) by (apply checked_history; auto). split; auto.
  apply (proj1 (C26_api_diagrams_coherent _ _ Hh (pairs_checked_ok _ D))).
Qed.
Definition flat_table : list (order_label * row) := table_of (process_lines flat_demo "s" flat_parts "e").
Lemma flat_demo_ok : history flat_ops flat_demo /\ structured flat_demo "s" flat_parts "e" /\ flat flat_parts /\
  texts_readable flat_demo "s" flat_parts "e" /\ size flat_parts + 1 < 40 /\
  export_process_to_csv 40 flat_demo None = (Some (csv_text (csv_columns :: process_lines flat_demo "s" flat_parts "e")), Ok tt) /\
  reads (csv_text (csv_columns :: process_lines flat_demo "s" flat_parts "e")) flat_table /\ fresh empty_diagram.
Proof.
  assert (H : history flat_ops flat_demo /\ coherent flat_demo) by (apply built; vm_compute; reflexivity). destruct H as [H C].
  assert (S : structured flat_demo "s" flat_parts "e") by (apply structured_ok; [exact C|vm_compute; reflexivity]).
  split; auto. split; auto. split; [apply flat_ok; vm_compute; reflexivity|]. split; [apply texts_ok; vm_compute; reflexivity|].
  split; [apply Nat.ltb_lt; vm_compute; reflexivity|]. split; [vm_compute; reflexivity|].
  split; [apply table_reads; vm_compute; reflexivity|]. split; reflexivity.
Qed.
Definition flat_loaded : diagram := fst (load_diagram_from_csv flat_table empty_diagram).
Example C82_round_trip_example :
  load_diagram_from_csv flat_table empty_diagram = (flat_loaded, Ok tt) /\
  node_keys flat_loaded = ["0"; "1a1"; "1a2"; "1b1"; "1c1"; "1c2"; "2"; "3a1"; "3b1"; "4"; "0_split"; "2_join"; "2_split"; "4_join"] /\
  relabel 1 flat_parts =
    [Block "0_split" "2_join" [([Act "1a1"; Act "1a2"], None); ([Act "1b1"], None); ([Act "1c1"], Some "1c2")]; Act "2";
     Block "2_split" "4_join" [([Act "3a1"], None); ([Act "3b1"], None)]] /\
  path_flows "0" (relabel 1 flat_parts) "4" =
    [("0", "0_split"); ("0_split", "1a1"); ("1a1", "1a2"); ("1a2", "2_join"); ("0_split", "1b1"); ("1b1", "2_join");
     ("0_split", "1c1"); ("1c1", "1c2"); ("2_join", "2"); ("2", "2_split"); ("2_split", "3a1"); ("3a1", "4_join");
     ("2_split", "3b1"); ("3b1", "4_join"); ("4_join", "4")] /\
  map (fun l => (attr flat_loaded l "type", attr flat_loaded l "node_name")) ["0"; "1a2"; "1c2"; "2"] =
    [(Some (VStr "startEvent"), Some (VStr "timer begin")); (Some (VStr "subProcess"), Some (VStr "weigh"));
     (Some (VStr "endEvent"), Some (VStr "")); (Some (VStr "task"), Some (VStr "close"))].
Proof. repeat (split; [vm_compute; reflexivity|]). vm_compute. reflexivity. Qed.
Example C82_gateways_example :
  map (branch_mark flat_demo "g") (outgoing_of flat_demo "g") = ["small"; "else"; "bad"] /\
  map (fun l => attr flat_loaded l "type") ["0_split"; "2_split"] = [Some (VStr "inclusiveGateway"); Some (VStr "parallelGateway")] /\
  map (fun e => (ev e, dget "conditionExpression" (eat e))) (filter (fun e => String.eqb (eu e) "0_split") (gedges (dgraph flat_loaded))) =
  [("1a1", Some (VCond "0_split__1a1_cond" "small")); ("1b1", Some (VCond "0_split__1b1_cond" "else")); ("1c1", Some (VCond "0_split__1c1_cond" "bad"))].
Proof. repeat (split; [vm_compute; reflexivity|]). vm_compute. reflexivity. Qed.
Print Assumptions C82_round_trip.
Print Assumptions C82_conditions.
Print Assumptions C82_gateways.
Print Assumptions C82_parallel.

(** The kind of a gateway is not kept: a decision between three ways becomes inclusive. *)
Theorem C82_kinds_kept_refuted : exists ops d ps text table d', history ops d /\ structured d "s" ps "e" /\ flat ps /\
  texts_readable d "s" ps "e" /\ export_process_to_csv 40 d None = (Some text, Ok tt) /\ reads text table /\
  load_diagram_from_csv table empty_diagram = (d', Ok tt) /\
  exists g j bs, nth_error ps 0 = Some (Block g j bs) /\ typed d g "exclusiveGateway" /\ typed d' (split_of (num 0)) "inclusiveGateway".
Proof.
  destruct flat_demo_ok as [H [S [F [T [_ [E [R _]]]]]]].
  exists flat_ops, flat_demo, flat_parts. eexists. exists flat_table, flat_loaded.
  split; auto. split; auto. split; auto. split; auto. split; [exact E|]. split; [exact R|]. split; [vm_compute; reflexivity|].
  eexists. eexists. eexists. split; [reflexivity|]. split; vm_compute; reflexivity.
Qed.
Print Assumptions C82_kinds_kept_refuted.

(** Blocks one after the other: the file cannot be loaded. *)
Definition adjacent_ops : list op :=
  [ONew "m" "0"; OStart "id2" "s" None false true (Some "s") "" ""; OParallel "id2" "g" "Diverging" (Some "g") "";
   OTask "id2" "a" (Some "a") ""; OTask "id2" "b" (Some "b") ""; OParallel "id2" "j" "Converging" (Some "j") "";
   OParallel "id2" "g2" "Diverging" (Some "g2") ""; OTask "id2" "l" (Some "l") "";
   OTask "id2" "r" (Some "r") ""; OParallel "id2" "j2" "Converging" (Some "j2") ""; OEnd "id2" "e" None (Some "e") "" "";
   OFlow "id2" "s" "g" "" "10"; OFlow "id2" "g" "a" "" "11"; OFlow "id2" "g" "b" "" "12"; OFlow "id2" "a" "j" "" "13"; OFlow "id2" "b" "j" "" "14";
   OFlow "id2" "j" "g2" "" "15"; OFlow "id2" "g2" "l" "" "16"; OFlow "id2" "g2" "r" "" "17"; OFlow "id2" "l" "j2" "" "18";
   OFlow "id2" "r" "j2" "" "19"; OFlow "id2" "j2" "e" "" "20"].
Definition adjacent_demo : diagram := run empty_diagram adjacent_ops.
Definition adjacent_parts : list part :=
  [Block "g" "j" [([Act "a"], None); ([Act "b"], None)]; Block "g2" "j2" [([Act "l"], None); ([Act "r"], None)]].
Theorem C82_adjacent_blocks_refuted : exists ops d ps text table d', history ops d /\ structured d "s" ps "e" /\
  (forall p, In p ps -> flat_part p) /\ texts_readable d "s" ps "e" /\
  export_process_to_csv 40 d None = (Some text, Ok tt) /\ reads text table /\
  load_diagram_from_csv table empty_diagram = (d', Err (BpmnPythonError "Something wrong in csv file syntax - look for 1a1")).
Proof.
  assert (H : history adjacent_ops adjacent_demo /\ coherent adjacent_demo) by (apply built; vm_compute; reflexivity). destruct H as [H C].
  exists adjacent_ops, adjacent_demo, adjacent_parts. eexists. exists (table_of (process_lines adjacent_demo "s" adjacent_parts "e")). eexists.
  split; auto. split; [apply structured_ok; [exact C|vm_compute; reflexivity]|]. split.
  { intros p [<- |[<- |[]]]; (assert (X : forall q, flat [q] -> flat_part q) by (intros q Q; apply Q; left; auto)); apply X, flat_ok; vm_compute; reflexivity. }
  split; [apply texts_ok; vm_compute; reflexivity|]. split; [apply (C81_lines adjacent_demo "s" adjacent_parts "e" 40); [apply structured_ok; [exact C|vm_compute; reflexivity]|apply Nat.ltb_lt; vm_compute; reflexivity]|].
  split; [apply table_reads; vm_compute; reflexivity|]. vm_compute. reflexivity.
Qed.
Print Assumptions C82_adjacent_blocks_refuted.

(** Blocks inside blocks: what follows the inner block is not reached any more. *)
Theorem C82_nested_blocks_refuted : exists ops d ps text table d', history ops d /\ structured d "s" ps "e" /\
  texts_readable d "s" ps "e" /\ export_process_to_csv 40 d None = (Some text, Ok tt) /\ reads text table /\
  load_diagram_from_csv table empty_diagram = (d', Ok tt) /\
  exists n l nm, named d n nm /\ (exists x f, flow_goes d f x n) /\ named d' l nm /\
    (forall l', named d' l' nm -> l' = l) /\ forall x, ~ flow_between d' x l.
Proof.
  assert (H : history lost_ops lost_demo /\ coherent lost_demo) by (apply built; vm_compute; reflexivity). destruct H as [H C].
  assert (S : structured lost_demo "s" lost_parts "e") by (apply structured_ok; [exact C|vm_compute; reflexivity]).
  exists lost_ops, lost_demo, lost_parts. eexists. exists (table_of (process_lines lost_demo "s" lost_parts "e")).
  exists (fst (load_diagram_from_csv (table_of (process_lines lost_demo "s" lost_parts "e")) empty_diagram)).
  split; auto. split; auto. split; [apply texts_ok; vm_compute; reflexivity|].
  split; [apply (C81_lines lost_demo "s" lost_parts "e" 40); [exact S|apply Nat.ltb_lt; vm_compute; reflexivity]|].
  split; [apply table_reads; vm_compute; reflexivity|]. split; [vm_compute; reflexivity|].
  exists "b", "1b2", "b". split; [vm_compute; reflexivity|]. split.
  { exists "j2", "id18". apply goes_ok. vm_compute. reflexivity. }
  split; [vm_compute; reflexivity|]. split.
  { intros l' N. eapply only_named; [|exact N]. vm_compute. reflexivity. }
  intros x [f F]. apply dget_In in F.
  assert (X : forallb (fun p => negb (String.eqb (fl_tgt (snd p)) "1b2"))
    (seq_flows (fst (load_diagram_from_csv (table_of (process_lines lost_demo "s" lost_parts "e")) empty_diagram))) = true) by (vm_compute; reflexivity).
  rewrite forallb_forall in X. specialize (X _ F). discriminate X.
Qed.
Print Assumptions C82_nested_blocks_refuted.

(** A branch with more than ten activities: the gateway is also connected to the eleventh. *)
Definition long_acts : list string := ["a1"; "a2"; "a3"; "a4"; "a5"; "a6"; "a7"; "a8"; "a9"; "aa"; "ab"].
Definition long_ops : list op :=
  [ONew "m" "0"; OStart "id2" "s" None false true (Some "s") "" ""; OParallel "id2" "g" "Diverging" (Some "g") ""] ++
  map (fun a => OTask "id2" a (Some a) "") long_acts ++
  [OTask "id2" "b" (Some "b") ""; OParallel "id2" "j" "Converging" (Some "j") ""; OEnd "id2" "e" None (Some "e") "" "";
   OFlow "id2" "s" "g" "" "10"; OFlow "id2" "g" "a1" "" "11"; OFlow "id2" "g" "b" "" "12"; OFlow "id2" "b" "j" "" "13"] ++
  map (fun p => OFlow "id2" (fst p) (snd p) "" (fst p)) (combine long_acts (tl long_acts ++ ["j"])) ++
  [OFlow "id2" "j" "e" "" "14"].
Definition long_demo : diagram := run empty_diagram long_ops.
Definition long_parts : list part := [Block "g" "j" [(map Act long_acts, None); ([Act "b"], None)]].
Theorem C82_long_branch_refuted : exists ops d ps text table d', history ops d /\ structured d "s" ps "e" /\
  texts_readable d "s" ps "e" /\ export_process_to_csv 40 d None = (Some text, Ok tt) /\ reads text table /\
  load_diagram_from_csv table empty_diagram = (d', Ok tt) /\
  flow_between d' "0_split" "1a11" /\ ~ In ("0_split", "1a11") (path_flows "0" (relabel 1 ps) "2").
Proof.
  assert (H : history long_ops long_demo /\ coherent long_demo) by (apply built; vm_compute; reflexivity). destruct H as [H C].
  assert (S : structured long_demo "s" long_parts "e") by (apply structured_ok; [exact C|vm_compute; reflexivity]).
  exists long_ops, long_demo, long_parts. eexists. exists (table_of (process_lines long_demo "s" long_parts "e")).
  eexists. split; auto. split; auto. split; [apply texts_ok; vm_compute; reflexivity|].
  split; [apply (C81_lines long_demo "s" long_parts "e" 40); [exact S|apply Nat.ltb_lt; vm_compute; reflexivity]|].
  split; [apply table_reads; vm_compute; reflexivity|]. split; [vm_compute; reflexivity|]. split.
  - exists "0_split__1a11". vm_compute. reflexivity.
  - vm_compute. intros X. repeat (destruct X as [X|X]; [discriminate X|]). exact X.
Qed.
Print Assumptions C82_long_branch_refuted.
