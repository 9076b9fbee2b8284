(** Loading tables with goto rows of any kind: chains of jumps, jumps to gateways, several jumps to one row (C118).
    Each theorem is followed by a concrete case of its hypotheses. *)
From Coq Require Import String Ascii List Bool Arith ZArith Lia Permutation.
From Verif Require Import Py PyFacts Consts Nx NxFacts Rep SpecRep RepFacts.
From Verif Require Import CsvRegex CsvImport SpecCsv RegexFacts CsvFacts CsvTable SpecFlow SpecGoto CsvGhost CsvFill CsvLast CsvTotal GotoFacts CsvGoto CsvJump.
From Verif Require Import Prop_CsvRows Prop_CsvImport Prop_CsvGoto.
Import ListNotations.
Open Scope string_scope.
Open Scope list_scope.

(** * The goto phase *)
(** What holds after the jumps [done] were followed, starting from [d0]. *)
Record hopped (d0 : diagram) (done : dict row) (d : diagram) : Prop := mkHopped {
  ho_wf : wf d;
  ho_nodes : forall x, is_node d x <-> is_node d0 x /\ ~ gone done x;
  ho_attr : forall x k, is_node d x -> k <> "outgoing" -> k <> "incoming" -> attr d x k = attr d0 x k;
  ho_out : forall x, outgoing_of d x <> [] -> outgoing_of d0 x <> [];
  ho_in : forall x, incoming_of d x <> [] -> incoming_of d0 x <> [] \/ exists o r, In (o, r) done /\ goto_row r /\ second_word (r_activity r) x }.
(** What one jump needs. *)
Definition hop_fine (d0 : diagram) (done : dict row) (o : string) (r : row) : Prop :=
  (exists t, second_word (r_activity r) t /\ is_node d0 t /\ ~ gone done t /\ t <> o) /\ outgoing_of d0 o <> [] /\
  (incoming_of d0 o <> [] \/ exists o' r', In (o', r') done /\ goto_row r' /\ second_word (r_activity r') o).

Lemma gone_more : forall done o r x, gone (done ++ [(o, r)]) x <-> gone done x \/ (x = o /\ goto_row r).
Proof.
  intros done o r x. unfold gone. split.
  - intros [r' [H G]]. apply in_app_iff in H. destruct H as [H|[H|[]]]; [left; eauto|]. inv H. auto.
  - intros [[r' [H G]]|[-> G]]; [exists r'; split; auto; apply in_app_iff; auto|]. exists r. split; auto. apply in_app_iff. right. left. auto.
Qed.
Lemma spliced_attr : forall n s t d d' x k, spliced n s t d d' -> x <> n -> k <> "outgoing" -> k <> "incoming" -> attr d' x k = attr d x k.
Proof.
  intros n s t d d' x k S N K1 K2. destruct (sp_flows _ _ _ _ _ S) as [f1 [l1 [r1 [lo [f2 [l2 [r2 [li H]]]]]]]].
  destruct H as [_ [_ [_ [_ [_ [_ [_ [_ [_ A]]]]]]]]]. rewrite A by auto.
  apply String.eqb_neq in K1, K2. rewrite K1, K2, !andb_false_r. reflexivity.
Qed.
Lemma connected_attr : forall tb s t d d' x k, connected tb s t d d' -> k <> "outgoing" -> k <> "incoming" -> attr d' x k = attr d x k.
Proof.
  intros tb s t d d' x k C K1 K2. rewrite (cn_attr _ _ _ _ _ C). apply String.eqb_neq in K1, K2. rewrite K1, K2, !andb_false_r. reflexivity.
Qed.
Lemma remove_some : forall f l l', list_remove f l = Ok l' -> l <> [].
Proof. intros f [|x l] l' H; [discriminate|]. discriminate. Qed.
(** Taking a node out leaves no list longer than before. *)
Lemma spliced_lists : forall n s t d d' x, spliced n s t d d' ->
  (outgoing_of d' x <> [] -> outgoing_of d x <> []) /\ (incoming_of d' x <> [] -> incoming_of d x <> []).
Proof.
  intros n s t d d' x S. destruct (string_dec x n) as [-> |N].
  - assert (Q : ~ is_node d' n) by (rewrite (spliced_is_node _ _ _ _ _ n S); tauto).
    assert (A : forall k, attr d' n k = None). { intros k. destruct (attr d' n k) as [v|] eqn:E; auto. elim Q. eapply attr_is_node; eauto. }
    unfold outgoing_of, incoming_of. rewrite !A. split; intros C; elim C; reflexivity.
  - destruct (sp_flows _ _ _ _ _ S) as [f1 [l1 [r1 [lo [f2 [l2 [r2 [li H]]]]]]]].
    destruct H as [_ [_ [_ [R1 [_ [_ [_ [R2 [_ A]]]]]]]]]. apply remove_some in R1, R2.
    unfold outgoing_of at 1. unfold incoming_of at 1. rewrite !A by auto. change (String.eqb "outgoing" "outgoing") with true. change (String.eqb "incoming" "outgoing") with false.
    change (String.eqb "outgoing" "incoming") with false. change (String.eqb "incoming" "incoming") with true. rewrite !andb_true_r, !andb_false_r. split.
    + destruct (String.eqb_spec x s) as [-> |]; auto.
    + destruct (String.eqb_spec x t) as [-> |]; auto.
Qed.

Lemma hop : forall d0 done o r st st', hopped d0 done (fst st) -> follow (o, r) st = (st', Ok tt) ->
  hopped d0 (done ++ [(o, r)]) (fst st') /\ (goto_row r -> hop_fine d0 done o r).
Proof.
  intros d0 done o r [d tb] st' H E. unfold follow in E. cbn [fst snd] in *. destruct (is_goto r) eqn:Gt.
  2:{ inv E. assert (Ng : ~ goto_row r) by (intros C; apply is_goto_spec in C; congruence). cbn [fst]. split; [|contradiction].
      destruct H as [A B C D F]. constructor; auto.
      - intros x. rewrite B, gone_more. tauto.
      - intros x Q. destruct (F x Q) as [|[o' [r' [I [G S]]]]]; auto. right. exists o', r'. split; auto. apply in_app_iff. auto. }
  apply is_goto_spec in Gt. apply mbind_ok in E. destruct E as [[d1 tb1] [[s u] [E1 E2]]]. cbn [fst snd] in *.
  pose proof (wf_remove _ _ _ _ _ (ho_wf _ _ _ H : cwf (d, tb)) E1) as W1.
  apply csv_remove_inv in E1. destruct E1 as [_ S]. cbn [fst snd] in *. unfold cwf in W1. cbn [fst] in W1.
  rewrite mbind_read in E2. destruct (goto_target r) as [t|] eqn:Tg; [|discriminate].
  apply (goto_target_spec r t Gt) in Tg.
  apply add_connection_inv in E2; [|exact W1]. destruct E2 as [Ns [Nt [_ C]]].
  destruct (sp_ends _ _ _ _ _ S) as [_ [_ No]].
  assert (Ln : outgoing_of d o <> [] /\ incoming_of d o <> []).
  { destruct (sp_flows _ _ _ _ _ S) as [f1 [l1 [r1 [lo [f2 [l2 [r2 [li X]]]]]]]]. destruct X as [I1 [_ [_ [R1 [I2 _]]]]]. split; [|rewrite I1; discriminate].
    destruct (String.eqb_spec o s) as [-> |]; [eapply remove_some; eauto|]. rewrite I2. discriminate. }
  assert (Out : outgoing_of d s <> []).
  { destruct (sp_flows _ _ _ _ _ S) as [f1 [l1 [r1 [lo [f2 [l2 [r2 [li X]]]]]]]]. destruct X as [_ [_ [_ [R1 _]]]]. eapply remove_some; eauto. }
  split.
  - constructor.
    + eapply connected_wf; eauto.
    + intros x. rewrite (connected_is_node _ _ _ _ _ x C), (spliced_is_node _ _ _ _ _ x S), (ho_nodes _ _ _ H), gone_more. tauto.
    + intros x k Nx K1 K2. rewrite (connected_is_node _ _ _ _ _ x C) in Nx. rewrite (connected_attr _ _ _ _ _ x k C K1 K2).
      rewrite (spliced_is_node _ _ _ _ _ x S) in Nx. destruct Nx as [Nx Nn]. rewrite (spliced_attr _ _ _ _ _ x k S Nn K1 K2). apply (ho_attr _ _ _ H); auto.
    + intros x. rewrite (connected_out _ _ _ _ _ x C). destruct (String.eqb_spec x s) as [-> |N].
      * intros _. apply (ho_out _ _ _ H). exact Out.
      * intros Q. apply (ho_out _ _ _ H). apply (spliced_lists _ _ _ _ _ x S). exact Q.
    + intros x Q. destruct (string_dec x t) as [-> |N].
      * right. exists o, r. split; auto. apply in_app_iff. right. left. reflexivity.
      * assert (Q' : incoming_of d x <> []).
        { apply (spliced_lists _ _ _ _ _ x S). unfold incoming_of in *. rewrite (cn_attr _ _ _ _ _ C) in Q. apply String.eqb_neq in N. rewrite N in Q.
          change (String.eqb "incoming" "outgoing") with false in Q. rewrite andb_false_r in Q. exact Q. }
        destruct (ho_in _ _ _ H x Q') as [|[o' [r' [I X]]]]; auto. right. exists o', r'. split; auto. apply in_app_iff. auto.
  - intros _. split; [|split].
    + exists t. split; auto. apply (spliced_is_node _ _ _ _ _ t S) in Nt. destruct Nt as [Nt N]. apply (ho_nodes _ _ _ H) in Nt. tauto.
    + apply (ho_out _ _ _ H), Ln.
    + apply (ho_in _ _ _ H), Ln.
Qed.
Lemma hops : forall d0 todo done st st', hopped d0 done (fst st) -> mfor todo follow st = (st', Ok tt) ->
  hopped d0 (done ++ todo) (fst st') /\
  forall l1 o r l2, todo = l1 ++ (o, r) :: l2 -> goto_row r -> hop_fine d0 (done ++ l1) o r.
Proof.
  intros d0. induction todo as [|[o r] todo IH]; intros done st st' H E.
  - inv E. rewrite app_nil_r. split; auto. intros [|x l1] o r l2 Q; discriminate.
  - simpl in E. apply mbind_ok in E. destruct E as [st1 [[] [E1 E2]]]. destruct (hop _ _ _ _ _ _ H E1) as [H1 F1].
    destruct (IH _ _ _ H1 E2) as [H2 F2]. rewrite <- app_assoc in H2. split; auto.
    intros [|x l1] o' r' l2 Q G; cbn [app] in Q; inv Q; [rewrite app_nil_r; auto|].
    specialize (F2 l1 o' r' l2 eq_refl G). rewrite <- app_assoc in F2. exact F2.
Qed.

(** * The last phase leaves all nodes that are no gateways *)
Lemma last_keeps : forall st st', cwf st -> remove_unnecessary_merge_gateways st = (st', Ok tt) ->
  cwf st' /\ (forall x, is_node (fst st') x -> is_node (fst st) x) /\
  (forall x, is_node (fst st) x -> ~ CsvFacts.is_gateway (fst st) x -> is_node (fst st') x) /\
  (forall x k, is_node (fst st') x -> k <> "outgoing" -> k <> "incoming" -> attr (fst st') x k = attr (fst st) x k).
Proof.
  intros st st' W H. unfold remove_unnecessary_merge_gateways in H. rewrite mbind_read in H.
  refine (mfor_inv _ _ (fun y => cwf y /\ (forall x, is_node (fst y) x -> is_node (fst st) x) /\
    (forall x, is_node (fst st) x -> ~ CsvFacts.is_gateway (fst st) x -> is_node (fst y) x) /\
    (forall x k, is_node (fst y) x -> k <> "outgoing" -> k <> "incoming" -> attr (fst y) x k = attr (fst st) x k)) _ _ _ _ _ _ H); [|auto].
  intros n y y' _ [Wy [A [B C]]] E. apply gateway_round in E; auto. pose proof (gateway_step_wf _ _ _ Wy E) as Wy'. split; auto.
  destruct E as [-> _|s t d1 G _ _ S _ _ Cn _]; auto.
  assert (Nd : forall x, is_node (fst y') x <-> is_node (fst y) x /\ x <> n).
  { intros x. rewrite (connected_is_node _ _ _ _ _ x Cn). apply (spliced_is_node _ _ _ _ _ x S). }
  split; [intros x Q; apply A, Nd, Q|]. split.
  - intros x Q Ng. apply Nd. split; auto. intros ->. apply Ng. destruct G as [ty [T Th]]. exists ty. split; auto.
    rewrite <- T. symmetry. apply C; [eapply attr_is_node; eauto|discriminate|discriminate].
  - intros x k Q K1 K2. apply Nd in Q. rewrite (connected_attr _ _ _ _ _ x k Cn K1 K2), (spliced_attr _ _ _ _ _ x k S (proj2 Q) K1 K2). apply C; tauto.
Qed.

(** * The import *)
Lemma any_import : forall table d d', fresh d -> documented table -> load_diagram_from_csv table d = (d', Ok tt) ->
  let rows := rows_of table in
  exists d3 L, books d3 L /\ (forall s t, In (s, t) L <-> raw_flow rows s t) /\
    (forall x, is_node d3 x <-> In x (orders rows) \/ gateway_of rows x) /\
    (forall o r, In (o, r) rows -> attr d3 o "type" = Some (VStr (row_type o r)) /\ attr d3 o "node_name" = Some (VStr (row_name o r))) /\
    (forall g, CsvFacts.is_gateway d3 g <-> gateway_of rows g) /\
    (forall l1 o r l2, rows = l1 ++ (o, r) :: l2 -> goto_row r -> hop_fine d3 l1 o r) /\
    (forall x, is_node d' x -> is_node d3 x /\ ~ goto_order rows x) /\
    (forall x, is_node d3 x -> ~ goto_order rows x -> ~ gateway_of rows x -> is_node d' x) /\
    (forall x k, is_node d' x -> k <> "outgoing" -> k <> "incoming" -> attr d' x k = attr d3 x k).
Proof.
  intros table d d' Fr D H rows. pose proof (rows_cleaned table (proj1 D)) as Cl. fold rows in Cl.
  assert (G : good_rows rows) by exact D. assert (Bl : blank d) by exact Fr.
  destruct (import_phases _ _ _ H) as [d0 [s1 [s2 [d3 [s4 [s5 [P0 [P1 [P2 [P3 [P4 [P5 ->]]]]]]]]]]]]. rewrite Cl in P0, P1.
  assert (Bl0 : blank d0).
  { destruct (populate_eq (d, rows)) as [dd [Q [Gd [Fd _]]]]. cbn [fst snd] in *. rewrite P0 in Q. inv Q. destruct Bl. split; congruence. }
  destruct (rows_imported rows d0 Bl0 (proj1 G)) as [d1 [Q1 [R M1]]].
  { intros o Ho. eapply good_plain; eauto. }
  rewrite Q1 in P1. injection P1 as <-.
  destruct (fill_all rows d1 s2 G R P2) as [T2 [L F]].
  pose proof (fi_books _ _ _ _ _ F) as B2.
  destruct (legacy_inv _ _ (bk_wf _ _ B2) P3) as [W3 [A3 [K3 [E3 R3]]]].
  assert (B3 : books d3 L).
  { destruct R3 as [R3 _]. eapply books_frame; eauto. intros m k [-> | ->]; apply A3; discriminate. }
  assert (GW : forall g, CsvFacts.is_gateway d3 g <-> gateway_of rows g).
  { intros g. rewrite <- (filled_gateways _ _ _ _ G R F). unfold CsvFacts.is_gateway. rewrite A3 by discriminate. tauto. }
  assert (FL : forall s t, In (s, t) L <-> raw_flow rows s t).
  { intros s t. rewrite (fi_flows _ _ _ _ _ F). apply raw_by_all. }
  assert (N3 : forall x, is_node d3 x <-> In x (orders rows) \/ gateway_of rows x).
  { intros x. unfold is_node. fold (node_keys d3). rewrite K3. change (In x (node_keys (fst s2))) with (is_node (fst s2) x).
    rewrite (fi_nodes _ _ _ _ _ F). unfold gateway_of. split; (intros [Q|[[o Q]|[o [m Q]]]] || intros [Q|[[o Q]|[o [m Q]]]]); auto.
    - right. left. exists o. tauto.
    - right. right. exists o, m. tauto.
    - right. left. exists o. pose proof (onward_in _ _ (proj1 (proj1 Q))). tauto.
    - right. right. exists o, m. pose proof (onward_in _ _ (proj1 (proj1 Q))). tauto. }
  rewrite T2 in P4. unfold remove_goto_nodes in P4. rewrite mbind_read in P4. cbn [snd] in P4. fold follow in P4.
  assert (H0 : hopped d3 [] (fst (d3, rows))).
  { cbn [fst]. constructor; auto. intros x. split; [intros Q; split; auto; intros [r [[] _]]|tauto]. }
  destruct (hops d3 rows [] (d3, rows) s4 H0 P4) as [H4 F4]. cbn [app] in H4, F4.
  destruct (last_keeps s4 s5 (ho_wf _ _ _ H4) P5) as [_ [L1 [L2 L3]]].
  exists d3, L. split; [exact B3|]. split; [exact FL|]. split; [exact N3|]. split; [|split; [exact GW|split; [exact F4|split; [|split]]]].
  - intros o r Hr. assert (Ho : In o (orders rows)) by (apply in_map_iff; exists (o, r); auto).
    rewrite !A3 by discriminate. rewrite !(fi_rows _ _ _ _ _ F) by (auto; discriminate). split; apply R; auto.
  - intros x Q. apply L1 in Q. apply (ho_nodes _ _ _ H4) in Q. exact Q.
  - intros x Q Ng Gw. apply L2; [apply (ho_nodes _ _ _ H4); split; auto|]. intros [ty [T Th]]. apply Gw, GW. exists ty. split; auto.
    rewrite <- T. symmetry. apply (ho_attr _ _ _ H4); [apply (ho_nodes _ _ _ H4); split; auto|discriminate|discriminate].
  - intros x k Q K1 K2. rewrite L3 by auto. apply (ho_attr _ _ _ H4); auto.
Qed.

Lemma leaves : forall d L rows x, books d L -> (forall s t, In (s, t) L <-> raw_flow rows s t) -> outgoing_of d x <> [] -> exists y, raw_flow rows x y.
Proof.
  intros d L rows x B FL Q. rewrite (bk_out _ _ B) in Q. destruct (filter (from x) L) as [|[a b] l] eqn:E; [elim Q; reflexivity|].
  assert (I : In (a, b) (filter (from x) L)) by (rewrite E; left; auto). apply filter_In in I. destruct I as [I1 I2].
  apply String.eqb_eq in I2. cbn [fst] in I2. subst a. exists b. apply FL. exact I1.
Qed.
Lemma enters : forall d L rows x, books d L -> (forall s t, In (s, t) L <-> raw_flow rows s t) -> incoming_of d x <> [] -> exists y, raw_flow rows y x.
Proof.
  intros d L rows x B FL Q. rewrite (bk_in _ _ B) in Q. destruct (filter (into x) L) as [|[a b] l] eqn:E; [elim Q; reflexivity|].
  assert (I : In (a, b) (filter (into x) L)) by (rewrite E; left; auto). apply filter_In in I. destruct I as [I1 I2].
  apply String.eqb_eq in I2. cbn [snd] in I2. subst b. exists a. apply FL. exact I1.
Qed.

(** * C118 *)
(** A review whose first branch jumps to a later goto row. *)
Definition jump (o goal : string) : order_label * row := (OStr o, mkRow ("goto " ++ goal)%string "again" "" "" "").
Definition chained (goal : string) : list (order_label * row) :=
  [rw "0" "begin" ""; rw "1" "write" ""; rw "2" "review" ""; jump "3a1" goal; jump "3b1" "1";
   (OStr "3c1", mkRow "publish" "fine" "" "" ""); rw "4" "end" "yes"].
Definition chained_diagram : diagram := fst (load_diagram_from_csv (chained "3b1") empty_diagram).
Lemma chained_documented : forall goal, documented (chained goal).
Proof. intros goal. apply check_documented; vm_compute; reflexivity. Qed.
Lemma jump_goes : forall o goal t, goto_target (snd (jump o goal)) = Ok t -> is_goto (snd (jump o goal)) = true ->
  goto_row (snd (jump o goal)) /\ second_word (r_activity (snd (jump o goal))) t.
Proof. intros o goal t H G. apply is_goto_spec in G. split; auto. apply (goto_target_spec _ _ G). exact H. Qed.

(** A table that loads has jumps that lead somewhere: every goto row names another row or a
    gateway between the rows, and no goto row that was followed before; something leads to
    the goto row, a row or an earlier jump, and something follows it. *)
Theorem C118_jumps : forall table d d', fresh d -> documented table -> load_diagram_from_csv table d = (d', Ok tt) ->
  let rows := rows_of table in
  forall before o r after, rows = before ++ (o, r) :: after -> goto_row r ->
  (exists t, second_word (r_activity r) t /\ (In t (orders rows) \/ gateway_of rows t) /\ t <> o /\
     forall r', In (t, r') before -> ~ goto_row r') /\
  (exists y, raw_flow rows o y) /\
  ((exists x, raw_flow rows x o) \/ exists o' r', In (o', r') before /\ goto_row r' /\ second_word (r_activity r') o).
Proof.
  intros table d d' F D H rows before o r after E G. destruct (any_import _ _ _ F D H) as [d3 [L [B [FL [N3 [_ [_ [Hop _]]]]]]]].
  fold rows in FL, N3, Hop. destruct (Hop _ _ _ _ E G) as [[t [T1 [T2 [T3 T4]]]] [Ho Hi]]. split; [|split].
  - exists t. split; auto. split; [apply N3; auto|]. split; auto. intros r' I Q. apply T3. exists r'. auto.
  - eapply leaves; eauto.
  - destruct Hi as [Hi|Hi]; [left; eapply enters; eauto|right; exact Hi].
Qed.
Example C118_jumps_example : fresh empty_diagram /\ documented (chained "3b1") /\
  load_diagram_from_csv (chained "3b1") empty_diagram = (chained_diagram, Ok tt) /\
  (exists before after, rows_of (chained "3b1") = before ++ ("3a1", snd (jump "3a1" "3b1")) :: after) /\
  goto_row (snd (jump "3a1" "3b1")) /\ second_word (r_activity (snd (jump "3a1" "3b1"))) "3b1" /\
  map (fun p => (fl_src (snd p), fl_tgt (snd p))) (seq_flows chained_diagram) =
    [("0", "1"); ("1", "2"); ("2", "2_split"); ("2_split", "3c1"); ("2_split", "1"); ("3c1", "4")].
Proof.
  split; [split; reflexivity|]. split; [apply chained_documented|]. split; [vm_compute; reflexivity|].
  split; [exists (firstn 3 (rows_of (chained "3b1"))), (skipn 4 (rows_of (chained "3b1"))); vm_compute; reflexivity|].
  assert (J : goto_row (snd (jump "3a1" "3b1")) /\ second_word (r_activity (snd (jump "3a1" "3b1"))) "3b1") by (apply jump_goes; vm_compute; reflexivity).
  split; [apply J|]. split; [apply J|vm_compute; reflexivity].
Qed.

(** So a jump to a place that is not in the table makes the import fail. *)
Theorem C118_unknown_goal : forall table d o r t, fresh d -> documented table ->
  In (o, r) (rows_of table) -> goto_row r -> second_word (r_activity r) t ->
  ~ In t (orders (rows_of table)) -> ~ gateway_of (rows_of table) t ->
  exists e, snd (load_diagram_from_csv table d) = Err e.
Proof.
  intros table d o r t F D I G S N1 N2. destruct (load_diagram_from_csv table d) as [d' [[]|e]] eqn:E; [|exists e; reflexivity].
  apply in_split in I. destruct I as [l1 [l2 E2]]. destruct (C118_jumps _ _ _ F D E _ _ _ _ E2 G) as [[t' [S' [T _]]] _].
  rewrite (second_unique _ _ _ G S S') in N1, N2. tauto.
Qed.
Example C118_unknown_goal_example : In ("3a1", snd (jump "3a1" "7")) (rows_of (chained "7")) /\
  goto_row (snd (jump "3a1" "7")) /\ second_word (r_activity (snd (jump "3a1" "7"))) "7" /\
  ~ In "7" (orders (rows_of (chained "7"))) /\ ~ gateway_of (rows_of (chained "7")) "7" /\
  snd (load_diagram_from_csv (chained "7") empty_diagram) = Err (KeyError "7").
Proof.
  split; [vm_compute; auto 10|].
  assert (J : goto_row (snd (jump "3a1" "7")) /\ second_word (r_activity (snd (jump "3a1" "7"))) "7") by (apply jump_goes; vm_compute; reflexivity).
  split; [apply J|]. split; [apply J|]. split; [vm_compute; intuition discriminate|]. split; [|vm_compute; reflexivity].
  intros [[o [_ E]]|[o [m [_ E]]]]; [destruct o as [|a [|b o]]|destruct m as [|a [|b m]]]; discriminate E.
Qed.
(** The same holds for a row that jumps to itself and for a jump back to a goto row. *)
Theorem C118_circle : forall table d before o r after t, fresh d -> documented table ->
  rows_of table = before ++ (o, r) :: after -> goto_row r -> second_word (r_activity r) t ->
  t = o \/ goto_order before t -> exists e, snd (load_diagram_from_csv table d) = Err e.
Proof.
  intros table d before o r after t F D E2 G S C. destruct (load_diagram_from_csv table d) as [d' [[]|e]] eqn:E; [|exists e; reflexivity].
  exfalso. destruct (C118_jumps _ _ _ F D E _ _ _ _ E2 G) as [[t' [S' [_ [T1 T2]]]] _].
  rewrite <- (second_unique _ _ _ G S S') in T1, T2. destruct C as [C|[r' [C1 C2]]]; [auto|]. exact (T2 _ C1 C2).
Qed.
Example C118_circle_example : (exists after, rows_of (chained "3a1") = firstn 3 (rows_of (chained "3a1")) ++ ("3a1", snd (jump "3a1" "3a1")) :: after) /\
  snd (load_diagram_from_csv (chained "3a1") empty_diagram) = Err (KeyError "3a1") /\
  let back := [rw "0" "begin" ""; rw "1" "write" ""; rw "2" "review" ""; jump "3a1" "1"; jump "3b1" "3a1"; rw "3c1" "publish" ""; rw "4" "end" "yes"] in
  documented back /\ (exists after, rows_of back = firstn 4 (rows_of back) ++ ("3b1", snd (jump "3b1" "3a1")) :: after) /\
  goto_order (firstn 4 (rows_of back)) "3a1" /\ snd (load_diagram_from_csv back empty_diagram) = Err (KeyError "3a1").
Proof.
  split; [exists (skipn 4 (rows_of (chained "3a1"))); vm_compute; reflexivity|]. split; [vm_compute; reflexivity|].
  cbv zeta. split; [apply check_documented; vm_compute; reflexivity|]. split; [eexists; vm_compute; reflexivity|].
  split; [apply goto_b_ok; vm_compute; reflexivity|vm_compute; reflexivity].
Qed.

(** Goto rows never show up in the result, all other rows do, as the elements they describe,
    and nothing else does but gateways between the rows. *)
Theorem C118_left : forall table d d', fresh d -> documented table -> load_diagram_from_csv table d = (d', Ok tt) ->
  let rows := rows_of table in
  (forall o r, In (o, r) rows -> goto_row r -> ~ is_node d' o) /\
  (forall o r, In (o, r) rows -> ~ goto_row r ->
     is_node d' o /\
     (o = "0" -> attr d' o "type" = Some (VStr "startEvent")) /\
     (o <> "0" -> r_terminated r = "yes" -> attr d' o "type" = Some (VStr "endEvent")) /\
     (o <> "0" -> r_terminated r <> "yes" -> r_subprocess r = "yes" -> attr d' o "type" = Some (VStr "subProcess")) /\
     (o <> "0" -> r_terminated r <> "yes" -> r_subprocess r <> "yes" -> attr d' o "type" = Some (VStr "task")) /\
     (attr d' o "type" <> Some (VStr "endEvent") -> attr d' o "node_name" = Some (VStr (r_activity r))) /\
     (attr d' o "type" = Some (VStr "endEvent") -> attr d' o "node_name" = Some (VStr ""))) /\
  (forall x, is_node d' x -> In x (orders rows) \/ gateway_of rows x).
Proof.
  intros table d d' F D H rows. destruct (any_import _ _ _ F D H) as [d3 [L [B [FL [N3 [RT [GW [_ [P1 [P2 P3]]]]]]]]]].
  fold rows in N3, RT, GW, P1, P2. split; [|split].
  - intros o r I G Q. apply P1 in Q. apply (proj2 Q). exists r. auto.
  - intros o r I G. assert (Ho : In o (orders rows)) by (apply in_map_iff; exists (o, r); auto).
    assert (Nd : is_node d' o).
    { apply P2; [apply N3; auto| |].
      - intros [r' [I' G']]. assert (r' = r); [|subst; auto]. pose proof (proj1 D) as ND. fold rows in ND.
        apply (In_dget _ _ _ ND) in I. apply (In_dget _ _ _ ND) in I'. congruence.
      - intros Q. apply GW in Q. destruct Q as [ty [T Th]]. rewrite (proj1 (RT o r I)) in T. injection T as <-.
        destruct (row_type_cases o r) as [Q|[Q|[Q|Q]]]; rewrite Q in Th; destruct Th as [Th|[Th|Th]]; discriminate. }
    split; [exact Nd|]. rewrite !(P3 o) by (auto; discriminate). rewrite (proj1 (RT o r I)), (proj2 (RT o r I)). unfold row_name, row_type.
    split; [intros ->; reflexivity|].
    assert (X : forall a b : string, a <> b -> String.eqb a b = false) by (intros; apply String.eqb_neq; auto).
    split; [intros A ->; rewrite (X _ _ A); reflexivity|].
    split; [intros A Q ->; rewrite (X _ _ A), (X _ _ Q); reflexivity|].
    split; [intros A Q C; rewrite (X _ _ A), (X _ _ Q), (X _ _ C); reflexivity|].
    destruct (String.eqb o "0"); [|destruct (String.eqb (r_terminated r) "yes"); [|destruct (String.eqb (r_subprocess r) "yes")]].
    all: split; intros Y; try reflexivity; try discriminate. exfalso. apply Y. reflexivity.
  - intros x Q. apply N3, P1, Q.
Qed.
Example C118_left_example : node_keys chained_diagram = ["0"; "1"; "2"; "3c1"; "4"; "2_split"] /\
  map (fun o => (attr chained_diagram o "type", attr chained_diagram o "node_name")) ["0"; "2"; "3c1"; "4"] =
  [(Some (VStr "startEvent"), Some (VStr "begin")); (Some (VStr "task"), Some (VStr "review"));
   (Some (VStr "task"), Some (VStr "publish")); (Some (VStr "endEvent"), Some (VStr ""))].
Proof. split; vm_compute; reflexivity. Qed.

(** Not every jump to a later goto row is followed to its end: when the later row is also
    reached on its own, the first flow ends at a place that is gone, and the rows behind it
    stay without a way in. *)
Definition lost : list (order_label * row) :=
  [rw "0" "begin" ""; rw "1" "write" ""; rw "2" "review" ""; jump "3a1" "5"; (OStr "3b1", mkRow "publish" "fine" "" "" "");
   rw "4" "proof" ""; (OStr "5", mkRow "goto 1" "" "" "" ""); rw "6" "end" "yes"].
Theorem C118_chains_followed_refuted : exists table d' f r e, documented table /\
  load_diagram_from_csv table empty_diagram = (d', Ok tt) /\
  dget f (seq_flows d') = Some r /\ goto_order (rows_of table) (fl_tgt r) /\ ~ is_node d' (fl_tgt r) /\
  is_node d' e /\ incoming_of d' e = [] /\ exists x, raw_flow (rows_of table) x e.
Proof.
  exists lost, (fst (load_diagram_from_csv lost empty_diagram)), "2_split__5", (mkFlow "2_split__5" "2_split" "5"), "6".
  assert (D : documented lost) by (apply check_documented; vm_compute; reflexivity).
  split; [exact D|]. split; [vm_compute; reflexivity|]. split; [vm_compute; reflexivity|].
  split; [apply goto_b_ok; vm_compute; reflexivity|]. split; [vm_compute; intuition discriminate|].
  split; [vm_compute; auto 20|]. split; [vm_compute; reflexivity|]. exists "5".
  apply (made_ok _ D); [vm_compute; reflexivity|]. vm_compute. auto 20.
Qed.

Print Assumptions C118_jumps.
Print Assumptions C118_unknown_goal.
Print Assumptions C118_circle.
Print Assumptions C118_left.
Print Assumptions C118_chains_followed_refuted.
