(** CSV export (C57 - C61, C68, C69).  Each theorem is followed by a concrete case of its
    hypotheses. *)
From Coq Require Import String Ascii List Bool Arith ZArith Lia Permutation.
From Verif Require Import Py PyFacts Consts Nx NxFacts Rep SpecRep RepFacts MetricsFacts Classify SpecLayout ClassifyFacts.
From Verif Require Import CsvRegex CsvImport SpecCsv RegexFacts CsvFacts CsvTable SpecFlow CsvGhost CsvFill CsvTotal.
From Verif Require Import CsvExport SpecCsvExport CsvExportFacts CsvChain CsvOrders.
From Verif Require TopoFacts.
From Verif Require Import Prop_LayoutMetrics Prop_Layout Prop_CsvImport.
Import ListNotations.
Open Scope string_scope.
Open Scope list_scope.

(** * C57: exactly one entry node *)
Theorem C57_one_entry : forall d fuel o, listed d ->
  ((exists m, snd (export_process_to_csv fuel d o) = Err (BpmnPythonError m)) <->
   ~ exists n, forall m, entry_node d m <-> m = n).
Proof.
  intros d fuel o L. rewrite <- (entry_unique d L). unfold export_process_to_csv. rewrite mbind_read.
  unfold export_rows. rewrite (entry_nodes_eq d L). cbn [rbind].
  destruct (filter no_incoming (gnodes (dgraph d))) as [|n [|n2 l]].
  - split; [|intros _; eexists; reflexivity]. intros _ [x E]. discriminate.
  - split; [|intros H; exfalso; apply H; eauto]. intros [m E]. exfalso. revert E.
    rewrite (nodes_eq d L). cbn [rbind].
    pose proof (quiet_export fuel d (map (fun c => (cid c, ccls c)) (classified d)) (Some n) 0 "" (VStr "") "" false []) as Q.
    destruct (export_node fuel d _ (Some n) 0 "" (VStr "") "" false []) as [r|e]; cbn [rbind].
    + unfold mbind, fwrite, mmodify. generalize (match o with Some t => (t ++ csv_header)%string | None => csv_header end).
      induction (fst r) as [|x l IH]; intros t; cbn [write_export_node_to_file mfor]; [discriminate|].
      unfold mbind, mread, fwrite, mmodify. unfold row_line. destruct (e_activity x); cbn [field rbind]; try discriminate.
      destruct (e_condition x); cbn [field rbind]; try discriminate. apply IH.
    + cbn [snd]. intros E. inv E. exact (Q m eq_refl).
  - split; [|intros _; eexists; reflexivity]. intros _ [x E]. discriminate.
Qed.
Theorem C57_nothing_written : forall d fuel o, listed d ->
  ~ (exists n, forall m, entry_node d m <-> m = n) ->
  export_process_to_csv fuel d o = (o, Err (BpmnPythonError "Exporting to CSV format accepts only one start event")).
Proof.
  intros d fuel o L H. rewrite <- (entry_unique d L) in H. unfold export_process_to_csv. rewrite mbind_read.
  unfold export_rows. rewrite (entry_nodes_eq d L). cbn [rbind].
  destruct (filter no_incoming (gnodes (dgraph d))) as [|n [|n2 l]]; try reflexivity. exfalso. apply H. eauto.
Qed.

(** A chain of four nodes (C33) and a diagram with two starts. *)
Lemma ldemo_coherent : coherent ldemo.
Proof. exact (proj1 (C26_api_diagrams_coherent _ _ ldemo_history ldemo_pairs)). Qed.
Definition two_starts_ops : list op :=
  [ONew "m" "0"; OStart "id2" "s" None false true (Some "s") "" ""; OStart "id2" "t" None false true (Some "t") "" "";
   OEnd "id2" "e" None (Some "e") "" ""; OFlow "id2" "s" "e" "" "10"; OFlow "id2" "t" "e" "" "11"].
Definition two_starts : diagram := run empty_diagram two_starts_ops.
Example C57_example : listed ldemo /\ entry_node ldemo "s" /\
  snd (export_process_to_csv 10 ldemo None) = Ok tt /\
  export_process_to_csv 10 two_starts None = (None, Err (BpmnPythonError "Exporting to CSV format accepts only one start event")).
Proof.
  split; [exact (proj1 ldemo_coherent)|]. split; [split; [|vm_compute; reflexivity]|split; vm_compute; reflexivity].
  unfold is_node. assert (E : map fst (gnodes (dgraph ldemo)) = ["b"; "s"; "a"; "e"]) by (vm_compute; reflexivity).
  rewrite E. simpl. tauto.
Qed.

(** * C58: chains *)
Theorem C58_chain : forall d s acts e fuel, chain d s acts e -> length acts + 1 < fuel ->
  exists lines, export_process_to_csv fuel d None = (Some (csv_text (csv_columns :: lines)), Ok tt) /\
    length lines = length acts + 2 /\
    forall i x, nth_error (s :: acts ++ [e]) i = Some x -> exists l, nth_error lines i = Some l /\ chain_line d i x l.
Proof.
  intros d s acts e fuel H F. destruct (chain_export d s acts e H fuel F) as [lines [A [B C]]].
  exists lines. split; auto. split; auto. rewrite B. simpl. rewrite app_length. simpl. lia.
Qed.

(** Checking the hypotheses of a concrete diagram. *)
Definition well_named_b (d : diagram) : bool :=
  forallb (fun n => match dget "node_name" (snd n) with Some (VStr _) => true | _ => false end &&
                    match dget "event_definitions" (snd n) with None | Some (VDefs _) => true | _ => false end)
          (gnodes (dgraph d)).
Lemma well_named_ok : forall d, listed d -> well_named_b d = true -> well_named d.
Proof.
  intros d L H n N. apply in_map_iff in N. destruct N as [[m a] [<- N]]. cbn [fst].
  unfold well_named_b in H. rewrite forallb_forall in H. specialize (H _ N). cbn [snd] in H. apply andb_true_iff in H.
  destruct (entry d L m a N) as [_ [_ [_ [_ At]]]]. unfold named. rewrite !At. destruct H as [H1 H2].
  destruct (dget "node_name" a) as [[]|]; try discriminate. split; [eauto|].
  destruct (dget "event_definitions" a) as [[]|]; try discriminate; eauto.
Qed.
Lemma ldemo_chain : chain ldemo "s" ["a"; "b"] "e".
Proof.
  split; [exact ldemo_coherent|]. split; [exact ldemo_linear|].
  split; [apply well_named_ok; [exact (proj1 ldemo_coherent)|vm_compute; reflexivity]|].
  split; [vm_compute; reflexivity|]. split; [vm_compute; reflexivity|].
  intros n [<- |[<- |[]]]; left; vm_compute; reflexivity.
Qed.
Example C58_example : chain ldemo "s" ["a"; "b"] "e" /\
  export_process_to_csv 4 ldemo None =
    (Some (csv_text [csv_columns; ["0"; "s"; ""; ""; ""; ""]; ["1"; "a"; ""; ""; ""; ""]; ["2"; "b"; ""; ""; ""; ""];
                     ["3"; "e"; ""; ""; ""; "yes"]]), Ok tt).
Proof. split; [exact ldemo_chain|vm_compute; reflexivity]. Qed.

(** * C61: six fields *)
Lemma occ_app : forall c a b, occurrences c (a ++ b)%string = occurrences c a + occurrences c b.
Proof.
  intros c a b. unfold occurrences. induction a as [|x a IH]; [reflexivity|]. cbn [append list_ascii_of_string filter].
  destruct (Ascii.eqb c x); cbn [length]; rewrite IH; reflexivity.
Qed.
(** A text up to the first separator. *)
Lemma field_split : forall a b c c' x y, plain_field a -> plain_field b ->
  c = ","%char \/ c = ascii_of_nat 10 -> c' = ","%char \/ c' = ascii_of_nat 10 ->
  (a ++ String c x = b ++ String c' y)%string -> a = b /\ c = c' /\ x = y.
Proof.
  assert (T : forall u a, plain_field (String u a) -> u <> ","%char /\ u <> ascii_of_nat 10 /\ plain_field a).
  { intros u a [A B]. split; [intros ->; apply A; left; auto|]. split; [intros ->; apply B; left; auto|].
    split; intros C; [apply A|apply B]; right; auto. }
  induction a as [|u a IH]; intros [|v b] c c' x y A B C C' E; cbn [append] in E.
  - injection E as -> ->. auto.
  - exfalso. injection E as -> _. apply T in B. tauto.
  - exfalso. injection E as -> _. apply T in A. tauto.
  - injection E as -> E. apply T in A, B. destruct (IH b c c' x y) as [-> [-> ->]]; tauto.
Qed.
Lemma line_split : forall f g x y, f <> [] -> g <> [] -> Forall plain_field f -> Forall plain_field g ->
  (csv_line f ++ x = csv_line g ++ y)%string -> f = g /\ x = y.
Proof.
  assert (C1 : forall a l, l <> [] -> csv_line (a :: l) = (a ++ String "," (csv_line l))%string).
  { intros a [|b l] H; [congruence|]. unfold csv_line. cbn [String.concat]. rewrite !sapp_assoc. reflexivity. }
  assert (C2 : forall a x, (csv_line [a] ++ x)%string = (a ++ String (ascii_of_nat 10) x)%string).
  { intros a x. unfold csv_line. cbn [String.concat]. rewrite sapp_assoc. reflexivity. }
  induction f as [|a f IH]; intros g x y F G Pf Pg E; [congruence|]. destruct g as [|b g]; [congruence|].
  inversion Pf; subst. inversion Pg; subst.
  assert (A1 : forall a l z, l <> [] -> (csv_line (a :: l) ++ z)%string = (a ++ String "," (csv_line l ++ z))%string).
  { intros u l z Hl. rewrite C1 by auto. rewrite sapp_assoc. reflexivity. }
  destruct f as [|a' f]; destruct g as [|b' g].
  - rewrite !C2 in E. apply field_split in E; auto. destruct E as [-> [_ ->]]. auto.
  - rewrite C2, A1 in E by discriminate. apply field_split in E; auto. destruct E as [_ [E _]]. discriminate.
  - rewrite C2, A1 in E by discriminate. apply field_split in E; auto. destruct E as [_ [E _]]. discriminate.
  - rewrite (A1 a), (A1 b) in E by discriminate. apply field_split in E; auto. destruct E as [-> [_ E]].
    apply IH in E; auto; try discriminate. destruct E as [-> ->]. auto.
Qed.
Lemma text_unique : forall ls ls', (forall l, In l ls -> l <> [] /\ Forall plain_field l) ->
  (forall l, In l ls' -> l <> [] /\ Forall plain_field l) -> csv_text ls = csv_text ls' -> ls = ls'.
Proof.
  assert (Ne : forall l x, (csv_line l ++ x)%string <> "").
  { intros l x E. unfold csv_line in E. rewrite sapp_assoc in E. destruct (String.concat "," l); discriminate. }
  induction ls as [|l ls IH]; intros [|l' ls'] A B E; auto.
  - exfalso. rewrite csv_text_cons in E. symmetry in E. apply (Ne _ _ E).
  - exfalso. rewrite csv_text_cons in E. apply (Ne _ _ E).
  - rewrite !csv_text_cons in E. destruct (A l) as [A1 A2]; [left; auto|]. destruct (B l') as [B1 B2]; [left; auto|].
    apply line_split in E; auto. destruct E as [-> E]. f_equal. apply IH; auto; intros z Hz; [apply A|apply B]; right; auto.
Qed.
Lemma columns_plain : csv_columns <> [] /\ Forall plain_field csv_columns.
Proof. split; [discriminate|]. unfold csv_columns. repeat (apply Forall_cons; [plain_lit|]). apply Forall_nil. Qed.

Lemma rows_written : forall rows o o' u, write_export_node_to_file rows (Some o) = (o', Ok u) ->
  exists lines, Forall2 shows rows lines.
Proof.
  induction rows as [|r rows IH]; intros o o' u H; [exists []; constructor|].
  unfold write_export_node_to_file in H. cbn [mfor] in H. unfold mbind, mread, fwrite, mmodify in H.
  destruct (row_line r) as [s|] eqn:E; [|discriminate]. apply row_line_inv in E. destruct E as [l [S _]].
  apply IH in H. destruct H as [lines H]. exists (l :: lines). constructor; auto.
Qed.
Lemma export_inv : forall fuel d o, export_process_to_csv fuel d None = (o, Ok tt) ->
  exists rows lines, export_rows fuel d = Ok rows /\ Forall2 shows rows lines /\ o = Some (csv_text (csv_columns :: lines)).
Proof.
  intros fuel d o H. pose proof H as H0. unfold export_process_to_csv in H0. rewrite mbind_read in H0.
  destruct (export_rows fuel d) as [rows|] eqn:E; [|discriminate]. unfold mbind, fwrite, mmodify in H0.
  destruct (rows_written _ _ _ _ H0) as [lines S]. exists rows, lines. split; auto. split; auto.
  rewrite (exported_text fuel d rows lines E S) in H. congruence.
Qed.
Theorem C61_file : forall fuel d o, export_process_to_csv fuel d None = (o, Ok tt) ->
  exists lines, o = Some (csv_text (csv_columns :: lines)) /\ forall l, In l lines -> length l = 6.
Proof.
  intros fuel d o H. destruct (export_inv _ _ _ H) as [rows [lines [_ [S ->]]]]. exists lines. split; auto.
  intros l Hl. destruct (Forall2_in_r _ _ _ _ _ _ S Hl) as [r [_ [a [c [_ [_ ->]]]]]]. reflexivity.
Qed.
Lemma plain_names_texts : forall d, unique_ids d -> plain_names d -> plain_texts d.
Proof.
  intros d U [A B]. split; auto. intros n a v H E. apply (A n v).
  - apply in_map_iff. exists (n, a). auto.
  - rewrite (nodes_attr d n a _ U H). exact E.
Qed.
(** Every way to read the text gives the six fields of each row. *)
Theorem C61_six_fields : forall fuel d text, unique_ids d -> plain_names d ->
  export_process_to_csv fuel d None = (Some text, Ok tt) ->
  exists lines,
    (forall ls, (forall l, In l ls -> l <> [] /\ Forall plain_field l) -> (text = csv_text ls <-> ls = csv_columns :: lines)) /\
    forall l, In l lines -> length l = 6 /\ Forall plain_field l /\
      occurrences "," (csv_line l) = 5 /\ occurrences (ascii_of_nat 10) (csv_line l) = 1.
Proof.
  intros fuel d text U P H. destruct (export_inv _ _ _ H) as [rows [lines [E [S T]]]]. inv T. exists lines.
  destruct (rows_good _ _ _ E) as [G Pr]. specialize (Pr (plain_names_texts d U P)).
  assert (Pl : forall l, In l lines -> length l = 6 /\ Forall plain_field l).
  { intros l Hl. destruct (Forall2_in_r _ _ _ _ _ _ S Hl) as [r [Hr [a [c [Ea [Ec ->]]]]]].
    destruct (Pr r Hr) as [[a' [A1 A2]] [[c' [C1 C2]] [W [Sb Te]]]]. rewrite Ea in A1. rewrite Ec in C1. inv A1. inv C1.
    split; [reflexivity|]. repeat (apply Forall_cons; [auto|]); [|apply Forall_nil]. apply label_chars. apply (gd_label _ _ _ G). auto. }
  split.
  - intros ls Hls. split.
    + intros Et. symmetry. apply text_unique; auto. intros l [<- |Hl]; [apply columns_plain|].
      destruct (Pl l Hl) as [X Y]. split; auto. intros ->. discriminate.
    + intros ->. reflexivity.
  - intros l Hl. destruct (Pl l Hl) as [X Y]. split; auto. split; auto.
    assert (Z0 : forall f, plain_field f -> occurrences "," f = 0 /\ occurrences (ascii_of_nat 10) f = 0).
    { intros f [F1 F2]. unfold occurrences.
      assert (Q : forall c, ~ is_in c f -> length (filter (Ascii.eqb c) (list_ascii_of_string f)) = 0).
      { intros c Hc. unfold is_in in Hc. induction (list_ascii_of_string f) as [|u t IH]; [reflexivity|]. cbn [filter].
        destruct (Ascii.eqb c u) eqn:Eu; [apply Ascii.eqb_eq in Eu; subst; exfalso; apply Hc; left; auto|].
        apply IH. intros C. apply Hc. right. auto. }
      split; apply Q; auto. }
    destruct l as [|f1 [|f2 [|f3 [|f4 [|f5 [|f6 [|]]]]]]]; try discriminate.
    unfold csv_line. cbn [String.concat]. rewrite !occ_app.
    repeat match goal with X : Forall plain_field (_ :: _) |- _ => inversion X; subst; clear X end.
    repeat match goal with X : plain_field ?f |- _ => destruct (Z0 f X) as [? ?]; clear X end.
    repeat match goal with X : occurrences _ _ = 0 |- _ => rewrite X end.
    split; reflexivity.
Qed.
Definition plain_names_b (d : diagram) : bool :=
  let ok s := negb (existsb (Ascii.eqb ","%char) (list_ascii_of_string s)) &&
              negb (existsb (Ascii.eqb (ascii_of_nat 10)) (list_ascii_of_string s)) in
  forallb (fun n => match dget "node_name" (snd n) with Some (VStr s) => ok s | None => true | _ => false end) (gnodes (dgraph d)) &&
  forallb (fun t => match dget "name" (snd t) with Some (VStr s) => ok s | None => true | Some VNone => true | _ => false end) (get_flows d).
Lemma plain_names_ok : forall d, unique_ids d -> plain_names_b d = true -> plain_names d.
Proof.
  intros d U H. unfold plain_names_b in H. apply andb_true_iff in H. destruct H as [A B].
  assert (Ok_ : forall s, negb (existsb (Ascii.eqb ","%char) (list_ascii_of_string s)) &&
              negb (existsb (Ascii.eqb (ascii_of_nat 10)) (list_ascii_of_string s)) = true -> plain_field s).
  { intros s H. apply andb_true_iff in H. destruct H as [X Y]. apply negb_true_iff in X, Y.
    split; intros C; unfold is_in in C.
    - assert (Z : existsb (Ascii.eqb ","%char) (list_ascii_of_string s) = true) by (apply existsb_exists; exists ","%char; split; auto).
      congruence.
    - assert (Z : existsb (Ascii.eqb (ascii_of_nat 10)) (list_ascii_of_string s) = true) by (apply existsb_exists; exists (ascii_of_nat 10); split; auto).
      congruence. }
  rewrite forallb_forall in A, B. split.
  - intros n v N E. apply in_map_iff in N. destruct N as [[m a] [<- N]]. cbn [fst] in E. specialize (A _ N). cbn [snd] in A.
    rewrite (nodes_attr d m a _ U N) in E. rewrite E in A. destruct v; try discriminate. eauto.
  - intros t v T E. specialize (B _ T). rewrite E in B. destruct v; try discriminate; eauto.
Qed.
Example C61_six_fields_example : unique_ids ldemo /\ plain_names ldemo /\ exists text, export_process_to_csv 4 ldemo None = (Some text, Ok tt).
Proof.
  assert (U : unique_ids ldemo) by exact (proj1 (proj1 ldemo_coherent)). split; auto.
  split; [apply plain_names_ok; [auto|vm_compute; reflexivity]|]. eexists. vm_compute. reflexivity.
Qed.
(** A comma in the name of a task is not quoted. *)
Definition comma_ops : list op :=
  [ONew "m" "0"; OStart "id2" "s" None false true (Some "s") "" ""; OTask "id2" "weigh, pack" (Some "a") ""; OEnd "id2" "e" None (Some "e") "" "";
   OFlow "id2" "s" "a" "" "10"; OFlow "id2" "a" "e" "" "11"].
Definition comma_demo : diagram := run empty_diagram comma_ops.
Theorem C61_every_name_refuted : exists ops d text lines l, history ops d /\
  export_process_to_csv 4 d None = (Some text, Ok tt) /\ text = csv_text lines /\ Forall (Forall plain_field) lines /\
  In l lines /\ length l = 7.
Proof.
  exists comma_ops, comma_demo. eexists.
  exists [csv_columns; ["0"; "s"; ""; ""; ""; ""]; ["1"; "weigh"; " pack"; ""; ""; ""; ""]; ["2"; "e"; ""; ""; ""; "yes"]].
  exists ["1"; "weigh"; " pack"; ""; ""; ""; ""].
  split; [apply checked_history; vm_compute; reflexivity|]. split; [vm_compute; reflexivity|]. split; [vm_compute; reflexivity|].
  split; [repeat (apply Forall_cons; [repeat (apply Forall_cons; [plain_lit|]); apply Forall_nil|]); apply Forall_nil|]. split; [right; right; left; reflexivity|reflexivity].
Qed.

(** * C68: the orders *)
Theorem C68_orders : forall fuel d text, export_process_to_csv fuel d None = (Some text, Ok tt) ->
  exists lines, text = csv_text (csv_columns :: lines) /\
    NoDup (map (fun l => nth 0 l "") lines) /\ forall l, In l lines -> label (nth 0 l "").
Proof.
  intros fuel d text H. destruct (export_inv _ _ _ H) as [rows [lines [E [S T]]]]. inv T. exists lines. split; auto.
  destruct (rows_good _ _ _ E) as [[G1 G2 G3] _].
  assert (M : map (fun l => nth 0 l "") lines = map e_order rows).
  { clear - S. induction S as [|r l rows lines [a [c [_ [_ ->]]]] S IH]; [reflexivity|]. cbn [map nth]. rewrite IH. reflexivity. }
  split; [rewrite M; auto|]. intros l Hl. destruct (Forall2_in_r _ _ _ _ _ _ S Hl) as [r [Hr [a [c [_ [_ ->]]]]]]. apply G3. auto.
Qed.
Definition split_ops : list op :=
  [ONew "m" "0"; OStart "id2" "s" None false true (Some "s") "" ""; OExclusive "id2" "g" "Diverging" None (Some "g") "";
   OTask "id2" "a" (Some "a") ""; OTask "id2" "b" (Some "b") ""; OExclusive "id2" "j" "Converging" None (Some "j") "";
   OTask "id2" "c" (Some "c") ""; OEnd "id2" "e" None (Some "e") "" "";
   OFlow "id2" "s" "g" "" "10"; OFlow "id2" "g" "a" "small" "11"; OFlow "id2" "g" "b" "large" "12"; OFlow "id2" "a" "j" "" "13";
   OFlow "id2" "b" "j" "" "14"; OFlow "id2" "j" "c" "" "15"; OFlow "id2" "c" "e" "" "16"].
Definition split_demo : diagram := run empty_diagram split_ops.
Example C68_example : export_process_to_csv 9 split_demo None =
  (Some (csv_text [csv_columns; ["0"; "s"; ""; ""; ""; ""]; ["1a1"; "a"; "small"; ""; ""; ""]; ["1b1"; "b"; "large"; ""; ""; ""];
                   ["2"; "c"; ""; ""; ""; ""]; ["3"; "e"; ""; ""; ""; "yes"]]), Ok tt).
Proof. vm_compute. reflexivity. Qed.

(** * C59: chains come back *)
Lemma strip_plain : forall s, (forall c, is_in c s -> ~ blank_char c) -> strip s = s.
Proof.
  intros s H. symmetry. apply strip_unique. exists "", "". cbn [append]. rewrite sapp_nil.
  split; [reflexivity|]. split; [intros c []|]. split; [intros c []|]. split; intros c u ->; apply H.
  - left. auto.
  - apply in_app_str. left. auto.
Qed.
Lemma clean_label : forall o z, label_text o (zstr z) -> clean_order o = zstr z.
Proof.
  intros o z [-> |[y [-> E]]]; [|auto]. rewrite clean_order_str. apply strip_plain. intros c H. eapply zstr_no_space; eauto.
Qed.
Lemma verbatim_plain : forall l, Forall verbatim l -> Forall plain_field l.
Proof. intros l H. eapply Forall_impl; [|exact H]. intros x Hx. apply Hx. Qed.

Theorem C59_chain_round_trip : forall d s acts e fuel, chain d s acts e -> length acts + 1 < fuel ->
  (forall n nm, In n (s :: acts ++ [e]) -> named d n nm -> verbatim nm /\ ~ goto_text nm) ->
  exists text, export_process_to_csv fuel d None = (Some text, Ok tt) /\
    (exists table, reads text table) /\
    forall table d0, reads text table -> fresh d0 ->
    let ns := s :: acts ++ [e] in
    exists d', load_diagram_from_csv table d0 = (d', Ok tt) /\
      (forall x, is_node d' x <-> exists i, i < length ns /\ x = step i) /\
      (forall x y, flow_between d' x y <-> exists i, S i < length ns /\ x = step i /\ y = step (S i)) /\
      (forall i n, nth_error ns i = Some n ->
         attr d' (step i) "type" = attr d n "type" /\
         forall nm w, named d n nm -> marked d n w ->
         (n <> e -> named d' (step i) (w ++ nm)%string) /\ (n = e -> named d' (step i) "")).
Proof.
  intros d s acts e fuel H F V. destruct (chain_export d s acts e H fuel F) as [lines [Ex [Ln Hl]]].
  exists (csv_text (csv_columns :: lines)). split; auto.
  set (ns := s :: acts ++ [e]) in *.
  assert (Ly : forall i l, nth_error lines i = Some l -> exists n, nth_error ns i = Some n /\ In n ns /\ chain_line d i n l).
  { intros i l Hi. assert (X : i < length ns) by (rewrite <- Ln; apply nth_error_Some; congruence).
    apply nth_error_Some in X. destruct (nth_error ns i) as [n|] eqn:En; [|congruence]. exists n. split; auto.
    split; [eapply nth_error_In; eauto|]. destruct (Hl i n En) as [l' [A B]]. congruence. }
  assert (Nd : NoDup ns) by apply H.
  assert (Mk : forall n w nm, In n ns -> marked d n w -> named d n nm -> verbatim (w ++ nm)%string /\ ~ goto_text (w ++ nm)%string).
  { intros n w nm Hn M N. destruct (V n nm Hn N) as [[[V1 V2] [V3 V4]] V5].
    assert (Ap : forall c u, is_in c (u ++ nm)%string -> is_in c u \/ is_in c nm) by (intros; apply is_in_app; auto).
    destruct M as [[-> _]|[[-> _]|[-> _]]].
    - split; [|intros [c1 [c2 [c3 [c4 [r [E [C _]]]]]]]; injection E as <- _; cbn [In] in C; intuition discriminate].
      repeat split; intros C; apply Ap in C; (destruct C as [C|C]; [|tauto]); unfold is_in in C; cbn [list_ascii_of_string In] in C; intuition discriminate.
    - split; [|intros [c1 [c2 [c3 [c4 [r [E [C _]]]]]]]; injection E as <- _; cbn [In] in C; intuition discriminate].
      repeat split; intros C; apply Ap in C; (destruct C as [C|C]; [|tauto]); unfold is_in in C; cbn [list_ascii_of_string In] in C; intuition discriminate.
    - repeat split; auto. }
  assert (Vl : forall l, In l lines -> l <> [] /\ Forall verbatim l).
  { intros l Hl0. destruct (In_nth_error _ _ Hl0) as [i Hi]. destruct (Ly i l Hi) as [n [_ [Hn [w [nm [sb [te [M [N [Sb [Te ->]]]]]]]]]]].
    split; [discriminate|]. destruct (Mk n w nm Hn M N) as [Va _].
    assert (V0 : verbatim "") by (repeat split; intros []).
    assert (Vy : verbatim "yes") by (repeat split; unfold is_in; cbn [list_ascii_of_string In]; intuition discriminate).
    assert (Vs : forall P x, yes_iff P x -> verbatim x) by (intros P x [[_ ->]|[_ ->]]; auto).
    repeat (apply Forall_cons; [eauto|]); [|apply Forall_nil].
    assert (Nz : number (zstr (Z.of_nat i))) by (apply zstr_number; lia).
    split; [apply label_chars; left; auto|]. split; intros C; apply (proj2 Nz) in C; clear - C; unfold digit, is_in in C; cbn [list_ascii_of_string In] in C;
      repeat (destruct C as [C|C]; [discriminate C|]); exact C. }
  split.
  { exists (map (fun l => (OStr (nth 0 l ""), mkRow (nth 1 l "") (nth 2 l "") (nth 3 l "") (nth 4 l "") (nth 5 l ""))) lines).
    exists lines. split; auto. split; [intros l Hx; apply Vl; auto|].
    assert (L6 : forall l, In l lines -> length l = 6).
    { intros l Hx. destruct (In_nth_error _ _ Hx) as [i Hi]. destruct (Ly i l Hi) as [n [_ [Hn [w [nm [sb [te [M [N [Sb [Te ->]]]]]]]]]]]. reflexivity. }
    clear - L6. induction lines as [|l ls IH]; cbn [map]; constructor; [|apply IH; intros; apply L6; right; auto].
    specialize (L6 l (or_introl eq_refl)). destruct l as [|f1 [|f2 [|f3 [|f4 [|f5 [|f6 [|]]]]]]]; try discriminate.
    exists f1, f2, f3, f4, f5, f6. split; auto. split; [left; reflexivity|reflexivity]. }
  intros table d0 [lines' [Et [Vl' Rd]]] Fr ns'. fold ns in ns'. subst ns'.
  assert (lines' = lines).
  { assert (Cols : forall x, In x [csv_columns] -> x <> [] /\ Forall plain_field x) by (intros x [<- |[]]; apply columns_plain).
    assert (L6 : forall l, In l lines' -> l <> []).
    { intros l Hx. destruct (Forall2_in_l _ _ _ _ _ _ Rd Hx) as [p [_ [o [a [c [w [s0 [t0 [-> _]]]]]]]]]. discriminate. }
    assert (X : csv_columns :: lines = csv_columns :: lines').
    { apply text_unique; auto; intros l [<- |Hx]; try apply columns_plain.
      - destruct (Vl l Hx). split; auto. apply verbatim_plain; auto.
      - split; [apply L6; auto|]. apply verbatim_plain; auto. }
    congruence. }
  subst lines'.
  (* the table *)
  set (n := S (length acts)).
  assert (Lns : length ns = S n) by (unfold ns, n; simpl; rewrite app_length; simpl; lia).
  assert (Row : forall i x, nth_error ns i = Some x -> exists o w nm sub ter,
    nth_error table i = Some (o, mkRow (w ++ nm)%string "" "" sub ter) /\ clean_order o = step i /\
    marked d x w /\ named d x nm /\ yes_iff (typed d x "subProcess") sub /\ yes_iff (typed d x "endEvent") ter).
  { intros i x Hx. destruct (Hl i x Hx) as [l [Hi [w [nm [sub [ter [M [N [Sb [Te ->]]]]]]]]]].
    assert (Q : exists p, nth_error table i = Some p /\ line_row [zstr (Z.of_nat i); (w ++ nm)%string; ""; ""; sub; ter] p).
    { clear - Rd Hi. revert Hi. generalize [zstr (Z.of_nat i); (w ++ nm)%string; ""; ""; sub; ter] as q. revert i.
      induction Rd as [|l p ls ps R Rd IH]; intros i q Hi; [destruct i; discriminate|].
      destruct i as [|i]; cbn [nth_error] in *; [inv Hi; eauto|]. eauto. }
    destruct Q as [[o r] [Hp [o' [a [c [w' [s0 [t0 [El [Lt Er]]]]]]]]]]. cbn [fst snd] in *. inv El.
    exists o, w, nm, s0, t0. split; auto. split; [apply clean_label; auto|]. auto. }
  assert (Lt : length table = S n) by (rewrite <- (Forall2_len _ _ _ _ _ Rd), Ln; exact Lns).
  assert (Nth : forall i p, nth_error table i = Some p -> exists x, nth_error ns i = Some x).
  { intros i p Hi. destruct (nth_error ns i) eqn:E; eauto. apply nth_error_None in E. rewrite Lns, <- Lt in E.
    apply nth_error_None in E. congruence. }
  assert (Eo : orders (rows_of table) = steps n).
  { unfold orders, rows_of. rewrite map_map. cbn [fst]. unfold steps. rewrite <- Lt.
    assert (G : forall k t, (forall i p, nth_error t i = Some p -> clean_order (fst p) = step (k + i)) ->
      map (fun p : order_label * row => clean_order (fst p)) t = map step (seq k (length t))).
    { intros k t. revert k. induction t as [|p t IH]; intros k Hk; [reflexivity|]. cbn [map length seq]. f_equal.
      - rewrite (Hk 0 p eq_refl). f_equal. lia.
      - apply IH. intros i q Hi. rewrite (Hk (S i) q Hi). f_equal. lia. }
    apply G. intros i p Hi. destruct (Nth i p Hi) as [x Hx]. destruct (Row i x Hx) as [o [w [nm [sub [ter [A [B _]]]]]]].
    rewrite Hi in A. inv A. exact B. }
  assert (Last : forall i x, nth_error ns i = Some x -> (typed d x "endEvent" <-> i = n)).
  { intros i x Hx. pose proof H as [_ [_ [_ [Ts [Te Ta]]]]].
    assert (En : nth_error ns n = Some e).
    { unfold ns, n. cbn [nth_error]. rewrite nth_error_app2, Nat.sub_diag by lia. reflexivity. }
    split.
    - intros T. assert (Xe : x = e).
      { destruct (nth_error_In _ _ Hx) as [<- |I]; [pose proof (typed_fun _ _ _ _ Ts T); discriminate|].
        apply in_app_iff in I. destruct I as [I|[<- |[]]]; auto.
        destruct (Ta x I) as [A|A]; pose proof (typed_fun _ _ _ _ A T); discriminate. }
      subst x. apply (proj1 (NoDup_nth_error ns) Nd); [apply nth_error_Some; congruence|congruence].
    - intros ->. rewrite En in Hx. inv Hx. exact Te. }
  assert (InT : forall i r, In (step i, r) (rows_of table) -> exists o, nth_error table i = Some (o, r)).
  { intros i r Hr. apply in_map_iff in Hr. destruct Hr as [[o r'] [E Hr]]. injection E as E ->. cbn [fst] in E.
    destruct (In_nth_error _ _ Hr) as [j Hj]. destruct (Nth j _ Hj) as [x Hx]. destruct (Row j x Hx) as [o' [w [nm [sub [ter [A [B _]]]]]]].
    rewrite Hj in A. inv A. rewrite B in E. apply step_inj in E. subst j. eauto. }
  assert (Gf : goto_free table).
  { intros o r Hr [c1 [c2 [c3 [c4 [rest [E C]]]]]]. destruct (In_nth_error _ _ Hr) as [j Hj]. destruct (Nth j _ Hj) as [x Hx].
    destruct (Row j x Hx) as [o' [w [nm [sub [ter [A [_ [M [N _]]]]]]]]]. rewrite Hj in A. inv A. cbn [r_activity] in E.
    destruct (Mk x w nm (nth_error_In _ _ Hx) M N) as [_ X]. apply X. exists c1, c2, c3, c4, rest. auto. }
  destruct (C49_linear_table table d0 n Fr Gf Eo) as [d' [Ld [Nn [Fl _]]]].
  { intros i r Hr. destruct (InT i r Hr) as [o Ho]. destruct (Nth i _ Ho) as [x Hx].
    destruct (Row i x Hx) as [o' [w [nm [sub [ter [A [_ [_ [_ [_ Te]]]]]]]]]]. rewrite Ho in A. inv A. cbn [r_terminated].
    rewrite <- (Last i x Hx). destruct Te as [[T ->]|[T ->]]; split; auto; [discriminate|tauto]. }
  exists d'. split; auto. split; [intros x; rewrite Nn, Lns; split; intros [i [A B]]; exists i; split; auto; lia|].
  split; [intros x y; rewrite Fl, Lns; split; intros [i [A B]]; exists i; split; auto; lia|].
  intros i x Hx. destruct (Row i x Hx) as [o [w [nm [sub [ter [A [B [M [N [Sb Te]]]]]]]]]].
  assert (D : documented table).
  { split; [rewrite Eo; apply steps_distinct|]. intros z Hz. rewrite Eo in Hz. apply in_steps in Hz.
    destruct Hz as [j [_ ->]]. left. apply step_number. }
  assert (Hr : In (step i, mkRow (w ++ nm)%string "" "" sub ter) (rows_of table)).
  { apply in_map_iff. eexists. split; [|eapply nth_error_In; exact A]. cbn [fst snd]. rewrite B. reflexivity. }
  destruct (C66_row_elements table d0 d' Fr D Gf Ld (step i) _ Hr) as [R1 [R2 [R3 [R4 [R5 R6]]]]].
  cbn [r_terminated r_subprocess r_activity] in *.
  assert (S0 : step i = "0" <-> i = 0) by (split; [intros E; apply (step_inj i 0 E)|intros ->; reflexivity]).
  pose proof H as [_ [_ [_ [Ts [Tend Ta]]]]].
  assert (Ty : attr d' (step i) "type" = attr d x "type").
  { destruct i as [|i].
    - inv Hx. rewrite R1 by (apply S0; auto). symmetry. exact Ts.
    - assert (Ne : step (S i) <> "0") by (intros C; apply S0 in C; discriminate).
      destruct Te as [[T ->]|[T ->]]; [rewrite R2; auto|].
      unfold ns in Hx. cbn [nth_error] in Hx. apply nth_error_In in Hx. apply in_app_iff in Hx. destruct Hx as [I|[<- |[]]]; [|tauto].
      destruct Sb as [[T' ->]|[T' ->]].
      + rewrite R3; auto; discriminate.
      + rewrite R4; auto; try discriminate. destruct (Ta x I); [symmetry; auto|tauto]. }
  split; auto. intros nm' w' N' M'.
  assert (nm' = nm) by (unfold named in *; congruence). subst nm'.
  assert (w' = w).
  { destruct M as [[-> M]|[[-> M]|[-> M]]], M' as [[-> M']|[[-> M']|[-> M']]]; auto; try tauto.
    - destruct M as [_ [i1 [l1 Q1]]], M' as [_ [i2 [l2 Q2]]]. congruence.
    - destruct M as [_ [i1 [l1 Q1]]], M' as [_ [i2 [l2 Q2]]]. congruence. }
  subst w'. unfold named. split.
  - intros Nx. apply R5. rewrite Ty. intros C. apply (Last i x Hx) in C. subst i.
    assert (En : nth_error ns n = Some e).
    { unfold ns, n. cbn [nth_error]. rewrite nth_error_app2, Nat.sub_diag by lia. reflexivity. }
    congruence.
  - intros ->. apply R6. rewrite Ty. exact Tend.
Qed.
Definition ldemo_table : list (order_label * row) :=
  [(OInt 0, mkRow "s" "" "" "" ""); (OInt 1, mkRow "a" "" "" "" ""); (OInt 2, mkRow "b" "" "" "" ""); (OInt 3, mkRow "e" "" "" "" "yes")].
Ltac verbatim_lit := repeat split; unfold is_in; cbn [list_ascii_of_string In]; intros C; repeat (destruct C as [C|C]; [discriminate C|]); exact C.
Lemma ldemo_reads : reads (csv_text [csv_columns; ["0"; "s"; ""; ""; ""; ""]; ["1"; "a"; ""; ""; ""; ""]; ["2"; "b"; ""; ""; ""; ""];
                     ["3"; "e"; ""; ""; ""; "yes"]]) ldemo_table.
Proof.
  eexists. split; [reflexivity|]. split.
  - intros l Hl. repeat (destruct Hl as [<- |Hl]; [repeat (apply Forall_cons; [verbatim_lit|]); apply Forall_nil|]). contradiction.
  - assert (Z : forall o z a c w s t, o = zstr z -> line_row [o; a; c; w; s; t] (OInt z, mkRow a c w s t)).
    { intros o z a c w s t ->. exists (zstr z), a, c, w, s, t. split; auto. split; auto. right. exists z. auto. }
    repeat (apply Forall2_cons; [apply Z; reflexivity|]). apply Forall2_nil.
Qed.
Example C59_example : chain ldemo "s" ["a"; "b"] "e" /\
  (forall n nm, In n ["s"; "a"; "b"; "e"] -> named ldemo n nm -> verbatim nm /\ ~ goto_text nm) /\
  exists d', load_diagram_from_csv ldemo_table empty_diagram = (d', Ok tt) /\
    map (fun i => (attr d' i "type", attr d' i "node_name")) ["0"; "1"; "2"; "3"] =
    [(Some (VStr "startEvent"), Some (VStr "s")); (Some (VStr "task"), Some (VStr "a"));
     (Some (VStr "task"), Some (VStr "b")); (Some (VStr "endEvent"), Some (VStr ""))].
Proof.
  split; [exact ldemo_chain|]. split.
  - intros n nm Hn N.
    assert (E : forall x, In x ["s"; "a"; "b"; "e"] -> attr ldemo x "node_name" = Some (VStr x)).
    { intros x Hx. repeat (destruct Hx as [<- |Hx]; [vm_compute; reflexivity|]). contradiction. }
    unfold named in N. rewrite (E n Hn) in N. inv N.
    repeat (destruct Hn as [<- |Hn]; [split; [verbatim_lit|intros [c1 [c2 [c3 [c4 [r [X _]]]]]]; discriminate X]|]). contradiction.
  - eexists. split; [vm_compute; reflexivity|vm_compute; reflexivity].
Qed.
(** Not the identity: the name of the end event is lost. *)
Theorem C59_identity_refuted : exists d s acts e table d', chain d s acts e /\
  (exists text, export_process_to_csv 10 d None = (Some text, Ok tt) /\ reads text table) /\
  load_diagram_from_csv table empty_diagram = (d', Ok tt) /\ named d e "e" /\
  forall n, is_node d' n -> typed d' n "endEvent" -> ~ named d' n "e".
Proof.
  exists ldemo, "s", ["a"; "b"], "e", ldemo_table. eexists. split; [exact ldemo_chain|].
  split; [eexists; split; [vm_compute; reflexivity|exact ldemo_reads]|]. split; [vm_compute; reflexivity|].
  split; [vm_compute; reflexivity|]. intros n N T C. revert N T C. unfold is_node, typed, named, attr, node_of.
  vm_compute (map fst _). intros N. repeat (destruct N as [<- |N]; [vm_compute; discriminate|]). contradiction.
Qed.

(** * C60: at most 26 branches *)
Lemma branch_count : forall fuel' d classes prefix order ntype dflt who outs rs nxt i st,
  rfold (fun (st : list erow * option node_t * nat) f =>
           let '(rs, next, i) := st in
           let* flow := flow_of d f in
           let* target := target_node d flow in
           let* suffix := ascii_lowercase i in
           let next_prefix := (prefix ++ zstr order ++ suffix)%string in
           let cond := branch_condition ntype flow in
           let* tid := match target with Some t => Ok (fst t) | None => Err TypeError end in
           let* tlabels := dgetE tid classes in
           if smem c_join tlabels then
             Ok (rs ++ [mkERow (next_prefix ++ "1")%string (VStr ("goto " ++ prefix ++ zstr (order + 1))) cond who "" ""], next, S i)
           else
             let* r := export_node fuel' d classes target 1 next_prefix (if is_default f dflt then VStr "else" else cond) who false rs in
             Ok (fst r, match snd r with Some n => Some n | None => next end, S i)) outs (rs, nxt, i) = Ok st ->
  i <= 26 -> i + length outs <= 26.
Proof.
  induction outs as [|f outs IH]; intros rs nxt i st H I; [simpl; lia|]. cbn [rfold] in H.
  apply rbind_ok in H. destruct H as [[[r1 n1] i1] [Eb H]].
  apply rbind_ok in Eb. destruct Eb as [fa [_ Eb]]. apply rbind_ok in Eb. destruct Eb as [tg [_ Eb]].
  apply rbind_ok in Eb. destruct Eb as [sfx [Es Eb]]. apply letter_ok in Es. destruct Es as [I1 _]. cbv zeta in Eb.
  apply rbind_ok in Eb. destruct Eb as [tid [_ Eb]]. apply rbind_ok in Eb. destruct Eb as [tls [_ Eb]].
  assert (i1 = S i).
  { destruct (smem c_join tls); [inv Eb; auto|]. apply rbind_ok in Eb. destruct Eb as [r [_ Eb]]. inv Eb. auto. }
  subst i1. apply IH in H; [simpl; lia|lia].
Qed.
Lemma labels_of : forall d n ls, listed d -> dget n (map (fun c => (cid c, ccls c)) (classified d)) = Some ls ->
  smem c_join ls = Nat.leb 2 (length (incoming_of d n)) /\ smem c_split ls = Nat.leb 2 (length (outgoing_of d n)).
Proof.
  intros d n ls L H. apply dget_In in H. apply in_map_iff in H. destruct H as [c [E H]]. inv E.
  pose proof H as H0. apply (classified_char d L) in H0. destruct H0 as [t [base [Ht [Hb [_ [_ _]]]]]].
  assert (O : laid_out t) by (apply types_laid_out; eauto).
  destruct (class_of d (cid c) t L Ht O) as [ls [E [J S]]].
  assert (ls = ccls c).
  { assert (X : dget (cid c) (map (fun c => (cid c, ccls c)) (classified d)) = Some (ccls c)).
    { apply In_dget; [unfold dkeys; rewrite map_map; apply classified_nodup; auto|]. apply in_map_iff. exists c. auto. }
    congruence. }
  subst ls. auto.
Qed.
Lemma veqs_typed : forall d n a t, (forall k, attr d n k = dget k a) -> (exists t', attr d n "type" = Some (VStr t')) ->
  exists v, dgetE k_type a = Ok v /\ (veqs v t = true <-> typed d n t).
Proof.
  intros d n a t At [t' T]. exists (VStr t'). unfold dgetE. change k_type with "type". rewrite <- At, T. split; auto.
  unfold typed. rewrite T. cbn [veqs]. rewrite String.eqb_eq. split; congruence.
Qed.
Theorem C60_never_exported : forall d n g fuel, coherent d ->
  (forall m, entry_node d m <-> m = n) -> straight_to d n g ->
  ~ join_node d g -> ~ typed d g "startEvent" -> ~ typed d g "endEvent" -> 26 < length (outgoing_of d g) ->
  exists e, export_process_to_csv fuel d None = (None, Err e).
Proof.
  intros d n g fuel Co En St Jg Sg Eg Big. pose proof Co as [L [_ [Cf _]]].
  set (classes := map (fun c => (cid c, ccls c)) (classified d)).
  assert (Main : forall x m, straight_to d x m -> m = g -> forall fuel a order prefix cond who rows res,
    get_node_by_id x d = Some (x, a) -> is_node d x ->
    export_node fuel d classes (Some (x, a)) order prefix cond who false rows <> Ok res).
  { intros x m S. induction S as [x|x f y m Ho Gf Jx Ex S IH]; intros Em fl a order prefix cond who rows res G N H.
    - subst x. destruct fl as [|fl]; [discriminate|]. destruct (node_entry d g L N) as [a' [G' [_ [At [_ Ho]]]]]. rewrite G in G'. inv G'.
      cbn [export_node] in H. destruct (proj2 L g N) as [[t T] _].
      unfold dgetE in H at 1. change k_type with "type" in H. rewrite <- At, T in H. cbn [rbind veqs] in H.
      destruct (String.eqb t t_start_event) eqn:X1; [apply String.eqb_eq in X1; subst t; apply Sg; exact T|].
      destruct (String.eqb t t_end_event) eqn:X2; [apply String.eqb_eq in X2; subst t; apply Eg; exact T|].
      apply rbind_ok in H. destruct H as [ls [El H]]. unfold dgetE in El. destruct (dget g classes) as [ls'|] eqn:Ec; inv El.
      destruct (labels_of d g ls L Ec) as [J Sp]. rewrite J, Sp in H.
      assert (J0 : Nat.leb 2 (length (incoming_of d g)) = false) by (apply Nat.leb_gt; unfold join_node in Jg; lia).
      assert (S0 : Nat.leb 2 (length (outgoing_of d g)) = true) by (apply Nat.leb_le; lia).
      rewrite J0, S0 in H. cbn [andb] in H. unfold outgoing_list in H. change k_outgoing with "outgoing" in H. rewrite Ho in H. cbn [rbind] in H.
      apply rbind_ok in H. destruct H as [rows1 [_ H]]. apply rbind_ok in H. destruct H as [st [H _]].
      apply branch_count in H; lia.
    - specialize (IH Em). destruct fl as [|fl]; [discriminate|].
      destruct (node_entry d x L N) as [a' [G' [_ [At [_ Ho']]]]]. rewrite G in G'. inv G'. rewrite Ho in Ho'.
      assert (Ny : is_node d y).
      { destruct (Cf x f) as [z [Gz Iz]]; [rewrite Ho; left; auto|]. assert (z = y).
        { destruct Gf as [t1 [A1 [_ B1]]], Gz as [t2 [A2 [_ B2]]]. congruence. }
        subst z. apply (TopoFacts.incoming_node d y f Iz). }
      destruct (node_entry d y L Ny) as [ay [Gy _]].
      destruct (flow_of_goes d f x y Gf) as [fa [Efa Tfa]].
      assert (Etg : target_node d fa = Ok (Some (y, ay))).
      { unfold target_node, dgetE. change k_target_ref with "targetRef". rewrite Tfa. cbn [rbind]. rewrite Gy. reflexivity. }
      cbn [export_node] in H. destruct (proj2 L x N) as [[t T] _].
      unfold dgetE in H at 1. change k_type with "type" in H. rewrite <- At, T in H. cbn [rbind veqs] in H.
      destruct (String.eqb t t_start_event) eqn:X1.
      { apply rbind_ok in H. destruct H as [act [_ H]]. unfold dgetE in H. change k_outgoing with "outgoing" in H. rewrite Ho' in H. cbn [rbind] in H.
        rewrite Efa in H. cbn [rbind] in H. rewrite Etg in H. cbn [rbind] in H. eapply IH; eauto. }
      destruct (String.eqb t t_end_event) eqn:X2; [apply String.eqb_eq in X2; subst t; apply Ex; exact T|].
      apply rbind_ok in H. destruct H as [ls [El H]]. unfold dgetE in El. destruct (dget x classes) as [ls'|] eqn:Ec; inv El.
      destruct (labels_of d x ls L Ec) as [J Sp]. rewrite J, Sp in H.
      assert (J0 : Nat.leb 2 (length (incoming_of d x)) = false) by (apply Nat.leb_gt; unfold join_node in Jx; lia).
      rewrite J0, Ho in H. cbn [andb length Nat.leb] in H. unfold outgoing_list in H. change k_outgoing with "outgoing" in H. rewrite Ho' in H. cbn [rbind] in H.
      apply rbind_ok in H. destruct H as [rows1 [_ H]]. rewrite Efa in H. cbn [rbind] in H. rewrite Etg in H. cbn [rbind] in H.
      eapply IH; eauto. }
  unfold export_process_to_csv. rewrite mbind_read. destruct (export_rows fuel d) as [rows|e] eqn:E; [|eauto]. exfalso.
  unfold export_rows in E. rewrite (entry_nodes_eq d L) in E. cbn [rbind] in E.
  destruct (filter no_incoming (gnodes (dgraph d))) as [|[s a] [|]] eqn:Ef; try discriminate.
  assert (Es : s = n) by (apply En, entry_iff; auto; rewrite Ef; left; auto). subst s.
  assert (Hn : In (n, a) (gnodes (dgraph d))).
  { assert (X : In (n, a) (filter no_incoming (gnodes (dgraph d)))) by (rewrite Ef; left; auto). apply filter_In in X. apply X. }
  assert (Nn : is_node d n) by (apply in_map_iff; exists (n, a); auto).
  destruct (node_entry d n L Nn) as [a' [G [Ha _]]].
  assert (a' = a). { destruct L as [U _]. apply In_dget in Hn; [|exact U]. apply In_dget in Ha; [|exact U]. congruence. }
  subst a'. rewrite (nodes_eq d L) in E. cbn [rbind] in E. apply rbind_ok in E. destruct E as [res [E _]].
  eapply (Main n g St eq_refl); eauto.
Qed.

(** With end events behind the split nothing else can go wrong. *)
Definition stringy (r : erow) : Prop := exists fields, shows r fields.
Lemma stringy_mk : forall o a c w s t, stringy (mkERow o (VStr a) (VStr c) w s t).
Proof. intros. eexists. exists a, c. split; [reflexivity|]. split; reflexivity. Qed.
Lemma stringy_text : forall rows, Forall stringy rows -> exists lines, Forall2 shows rows lines.
Proof. induction 1 as [|r rows [l S] _ [ls IH]]; [exists []; constructor|]. exists (l :: ls). constructor; auto. Qed.
Section Star.
  Variable d : diagram.
  Hypothesis Co : coherent d.
  Hypothesis AL : all_laid_out d.
  Hypothesis WN : well_named d.
  Hypothesis LB : labelled d.
  Let classes := map (fun c => (cid c, ccls c)) (classified d).
  Let L : listed d := proj1 Co.

  Lemma star_target : forall x f, In f (outgoing_of d x) -> exists y ay fa, flow d f x y /\ is_node d y /\
    get_node_by_id y d = Some (y, ay) /\ flow_of d f = Ok fa /\ target_node d fa = Ok (Some (y, ay)).
  Proof.
    intros x f Hf. pose proof Co as [_ [_ [Cf _]]]. destruct (Cf x f Hf) as [y [Gf If]].
    assert (Ny : is_node d y) by (apply (TopoFacts.incoming_node d y f If)).
    destruct (node_entry d y L Ny) as [ay [Gy _]]. destruct (flow_of_goes d f x y Gf) as [fa [Efa Tfa]].
    exists y, ay, fa. split; [split; auto|]. split; auto. split; auto. split; auto.
    unfold target_node, dgetE. change k_target_ref with "targetRef". rewrite Tfa. cbn [rbind]. rewrite Gy. reflexivity.
  Qed.
  Lemma star_condition : forall f fa ty, flow_of d f = Ok fa -> exists c, branch_condition ty fa = VStr c.
  Proof.
    intros f fa ty E. destruct (flow_in _ _ _ E) as [t [H <-]]. unfold branch_condition.
    destruct (veqs ty t_parallel_gateway); [eauto|]. destruct (dget k_name (snd t)) as [v|] eqn:X; [|eauto].
    destruct (LB t v H X) as [-> |[s ->]]; eauto.
  Qed.
  Lemma star_end : forall m am fuel order prefix c who aj rows, get_node_by_id m d = Some (m, am) -> is_node d m ->
    typed d m "endEvent" -> exists r, stringy r /\
    export_node (S fuel) d classes (Some (m, am)) order prefix (VStr c) who aj rows = Ok (rows ++ [r], None).
  Proof.
    intros m am fuel order prefix c who aj rows G N T. destruct (node_entry d m L N) as [a' [G' [_ [At _]]]]. rewrite G in G'. inv G'.
    destruct (WN m N) as [[nm Nm] Df]. destruct (end_activity_of d m a' nm At T Nm Df) as [w [_ Ea]].
    cbn [export_node]. unfold dgetE. change k_type with "type". rewrite <- At. unfold typed in T. rewrite T. cbn [rbind veqs].
    change (String.eqb "endEvent" t_start_event) with false. change (String.eqb "endEvent" t_end_event) with true. cbv iota.
    rewrite Ea. cbn [rbind]. eexists. split; [|reflexivity]. apply stringy_mk.
  Qed.

  Lemma star_rows : forall g fuel' prefix order ntype dflt who outs rs i,
    (forall f, In f outs -> In f (outgoing_of d g)) -> (forall f m, flow d f g m -> typed d m "endEvent") ->
    Forall stringy rs -> i <= 26 ->
    let fold := rfold (fun (st : list erow * option node_t * nat) f =>
           let '(rs, next, i) := st in
           let* flow := flow_of d f in
           let* target := target_node d flow in
           let* suffix := ascii_lowercase i in
           let next_prefix := (prefix ++ zstr order ++ suffix)%string in
           let cond := branch_condition ntype flow in
           let* tid := match target with Some t => Ok (fst t) | None => Err TypeError end in
           let* tlabels := dgetE tid classes in
           if smem c_join tlabels then
             Ok (rs ++ [mkERow (next_prefix ++ "1")%string (VStr ("goto " ++ prefix ++ zstr (order + 1))) cond who "" ""], next, S i)
           else
             let* r := export_node (S fuel') d classes target 1 next_prefix (if is_default f dflt then VStr "else" else cond) who false rs in
             Ok (fst r, match snd r with Some n => Some n | None => next end, S i)) outs (rs, None, i) in
    (26 < i + length outs -> fold = Err IndexError) /\
    (i + length outs <= 26 -> exists rs', fold = Ok (rs', None, i + length outs) /\ Forall stringy rs').
  Proof.
    intros g fuel' prefix order ntype dflt who outs. induction outs as [|f outs IH]; intros rs i Ho He Hr Hi; cbn [rfold length].
    - split; [lia|]. intros _. exists rs. rewrite Nat.add_0_r. auto.
    - destruct (star_target g f) as [m [am [fa [Fl [Nm [Gm [Efa Etg]]]]]]]; [apply Ho; left; auto|].
      assert (Tm : typed d m "endEvent") by (eapply He; eauto).
      rewrite Efa. cbn [rbind]. rewrite Etg. cbn [rbind].
      destruct (star_condition f fa ntype Efa) as [c Ec]. rewrite Ec.
      destruct (Nat.eq_dec i 26) as [-> |Ni].
      { split; [intros _; reflexivity|]. intros X. lia. }
      assert (El : ascii_lowercase i = Ok (letter i)).
      { unfold ascii_lowercase. destruct (Nat.ltb i 26) eqn:X; auto. apply Nat.ltb_ge in X. lia. }
      rewrite El. cbn [rbind fst].
      assert (O : laid_out "endEvent") by (unfold laid_out; simpl; tauto).
      destruct (class_of d m "endEvent" L Tm O) as [ls [Els [J _]]]. fold classes in Els. unfold dgetE. rewrite Els. cbn [rbind].
      assert (Step : exists r, stringy r /\
        (if smem c_join ls
         then Ok (rs ++ [mkERow ((prefix ++ zstr order ++ letter i) ++ "1")%string (VStr ("goto " ++ prefix ++ zstr (order + 1))) (VStr c) who "" ""], @None node_t, S i)
         else let* r := export_node (S fuel') d classes (Some (m, am)) 1 (prefix ++ zstr order ++ letter i)%string
                          (if is_default f dflt then VStr "else" else VStr c) who false rs in
              Ok (fst r, match snd r with Some n => Some n | None => None end, S i)) = Ok (rs ++ [r], None, S i)).
      { destruct (smem c_join ls); [eexists; split; [apply stringy_mk|reflexivity]|].
        assert (Cv : exists c', (if is_default f dflt then VStr "else" else VStr c) = VStr c') by (destruct (is_default f dflt); eauto).
        destruct Cv as [c' ->].
        destruct (star_end m am fuel' 1%Z (prefix ++ zstr order ++ letter i)%string c' who false rs Gm Nm Tm) as [r [Sr E]].
        exists r. split; auto. rewrite E. reflexivity. }
      destruct Step as [r [Sr E]]. rewrite E. cbn [rbind].
      destruct (IH (rs ++ [r]) (S i)) as [I1 I2]; auto; [intros; apply Ho; right; auto|apply Forall_app; auto|lia|].
      replace (i + S (length outs)) with (S i + length outs) by lia. split; auto.
  Qed.

  Lemma star_path : forall x g, straight_to d x g -> is_node d x ->
    ~ join_node d g -> ~ typed d g "startEvent" -> ~ typed d g "endEvent" -> split_node d g ->
    (forall f m, flow d f g m -> typed d m "endEvent") ->
    exists N, forall fuel, N <= fuel -> forall a order prefix c who rows, get_node_by_id x d = Some (x, a) -> Forall stringy rows ->
      (26 < length (outgoing_of d g) ->
         export_node fuel d classes (Some (x, a)) order prefix (VStr c) who false rows = Err IndexError) /\
      (length (outgoing_of d g) <= 26 -> exists rows',
         export_node fuel d classes (Some (x, a)) order prefix (VStr c) who false rows = Ok (rows', None) /\ Forall stringy rows').
  Proof.
    intros x g St. induction St as [g|x f y g Ho Gf Jx Ex St IH]; intros N Jg Sg Eg Sp He.
    - exists 2. intros fuel F a order prefix c who rows G Hr. destruct fuel as [|[|fuel]]; [lia|lia|].
      destruct (node_entry d g L N) as [a' [G' [_ [At [_ Ho]]]]]. rewrite G in G'. inv G'.
      destruct (AL g N) as [t [T O]]. destruct (WN g N) as [[nm Nm] _]. unfold named in Nm.
      destruct (class_of d g t L T O) as [ls [Els [J Sl]]]. fold classes in Els.
      assert (Dt : dgetE k_type a' = Ok (VStr t)) by (unfold dgetE; change k_type with "type"; rewrite <- At, T; reflexivity).
      assert (Dn : dgetE k_node_name a' = Ok (VStr nm)) by (unfold dgetE; change k_node_name with "node_name"; rewrite <- At, Nm; reflexivity).
      assert (Dl : dgetE g classes = Ok ls) by (unfold dgetE; rewrite Els; reflexivity).
      remember (S fuel) as fuel1 eqn:Ef1. cbn [export_node]. rewrite Dt, Dn, Dl. cbn [rbind veqs].
      destruct (String.eqb t t_start_event) eqn:X1; [apply String.eqb_eq in X1; subst t; exfalso; apply Sg; exact T|].
      destruct (String.eqb t t_end_event) eqn:X2; [apply String.eqb_eq in X2; subst t; exfalso; apply Eg; exact T|].
      unfold outgoing_list. change k_outgoing with "outgoing". rewrite Ho. cbn [rbind].
      assert (J0 : Nat.leb 2 (length (incoming_of d g)) = false) by (apply Nat.leb_gt; unfold join_node in Jg; lia).
      assert (S0 : Nat.leb 2 (length (outgoing_of d g)) = true) by (apply Nat.leb_le; exact Sp).
      rewrite J, Sl, J0, S0. cbn [andb].
      assert (R1 : exists rows1, (if String.eqb t t_task then Ok (rows ++ [mkERow (prefix ++ zstr order)%string (VStr nm) (VStr c) who "" ""])
        else if String.eqb t t_subprocess then Ok (rows ++ [mkERow (prefix ++ zstr order)%string (VStr nm) (VStr c) who "yes" ""]) else Ok rows) = Ok rows1 /\
        Forall stringy rows1).
      { destruct (String.eqb t t_task); [|destruct (String.eqb t t_subprocess)]; eexists; (split; [reflexivity|]); auto;
          apply Forall_app; split; auto; constructor; auto; apply stringy_mk. }
      destruct R1 as [rows1 [-> Hr1]]. cbn [rbind]. subst fuel1.
      destruct (star_rows g fuel prefix order (VStr t) (default_flow (VStr t) a') who (outgoing_of d g) rows1 0) as [S1 S2]; auto; [lia|].
      cbn [veqs] in *. cbv zeta in S1, S2. split.
      + intros Big. rewrite S1 by exact Big. reflexivity.
      + intros Small. destruct (S2 Small) as [rs' [E F']]. rewrite E. cbn [rbind fst snd]. eauto.
    - assert (Hf : In f (outgoing_of d x)) by (rewrite Ho; left; auto).
      destruct (star_target x f Hf) as [y' [ay [fa [Fl [Ny [Gy [Efa Etg]]]]]]].
      assert (y' = y).
      { destruct Fl as [_ [_ [t2 [A2 [_ B2]]]]], Gf as [t1 [A1 [_ B1]]]. congruence. }
      subst y'. destruct (IH Ny Jg Sg Eg Sp He) as [M IHM]. exists (S M). intros fuel F a order prefix c who rows G Hr.
      destruct fuel as [|fuel]; [lia|].
      destruct (node_entry d x L N) as [a' [G' [_ [At [_ Ho']]]]]. rewrite G in G'. inv G'. rewrite Ho in Ho'.
      destruct (AL x N) as [t [T O]]. destruct (WN x N) as [[nm Nm] Df].
      destruct (class_of d x t L T O) as [ls [Els [J Sl]]]. fold classes in Els.
      assert (J0 : Nat.leb 2 (length (incoming_of d x)) = false) by (apply Nat.leb_gt; unfold join_node in Jx; lia).
      assert (Dt : dgetE k_type a' = Ok (VStr t)) by (unfold dgetE; change k_type with "type"; rewrite <- At, T; reflexivity).
      assert (Dn : dgetE k_node_name a' = Ok (VStr nm)) by (unfold dgetE; change k_node_name with "node_name"; rewrite <- At, Nm; reflexivity).
      assert (Do : dgetE k_outgoing a' = Ok (VList [f])) by (unfold dgetE; change k_outgoing with "outgoing"; rewrite Ho'; reflexivity).
      assert (Dl : dgetE x classes = Ok ls) by (unfold dgetE; rewrite Els; reflexivity).
      assert (Q : exists rows1 c1 who1, Forall stringy rows1 /\
        export_node (S fuel) d classes (Some (x, a')) order prefix (VStr c) who false rows =
        export_node fuel d classes (Some (y, ay)) (order + 1) prefix (VStr c1) who1 false rows1).
      { cbn [export_node]. rewrite Dt. cbn [rbind veqs].
        destruct (String.eqb t t_start_event) eqn:X1.
        { apply String.eqb_eq in X1. subst t. destruct (start_activity_of d x a' nm At T Nm Df) as [w [_ Ea]]. rewrite Ea. cbn [rbind].
          rewrite Do. cbn [rbind]. rewrite Efa. cbn [rbind]. rewrite Etg. cbn [rbind]. eexists. eexists. eexists. split; [|reflexivity].
          apply Forall_app; split; auto. constructor; auto. apply stringy_mk. }
        destruct (String.eqb t t_end_event) eqn:X2; [apply String.eqb_eq in X2; subst t; exfalso; apply Ex; exact T|].
        rewrite Dl. cbn [rbind]. unfold outgoing_list. change k_outgoing with "outgoing". rewrite Ho'. cbn [rbind].
        rewrite J, Sl, J0, Ho. cbn [andb length Nat.leb]. rewrite Dn. cbn [rbind].
        assert (R1 : exists rows1, (if String.eqb t t_task then Ok (rows ++ [mkERow (prefix ++ zstr order)%string (VStr nm) (VStr c) who "" ""])
          else if String.eqb t t_subprocess then Ok (rows ++ [mkERow (prefix ++ zstr order)%string (VStr nm) (VStr c) who "yes" ""]) else Ok rows) = Ok rows1 /\
          Forall stringy rows1).
        { destruct (String.eqb t t_task); [|destruct (String.eqb t t_subprocess)]; eexists; (split; [reflexivity|]); auto;
            apply Forall_app; split; auto; constructor; auto; apply stringy_mk. }
        destruct R1 as [rows1 [-> Hr1]]. cbn [rbind]. rewrite Efa. cbn [rbind]. rewrite Etg. cbn [rbind].
        exists rows1, "", who. split; auto. }
      destruct Q as [rows1 [c1 [who1 [S1 Q]]]]. rewrite Q. apply (IHM fuel); auto. lia.
  Qed.
End Star.

Theorem C60_index_error : forall d n g, coherent d -> all_laid_out d -> well_named d -> labelled d ->
  (forall m, entry_node d m <-> m = n) -> straight_to d n g ->
  ~ join_node d g -> ~ typed d g "startEvent" -> ~ typed d g "endEvent" -> split_node d g ->
  (forall f m, flow d f g m -> typed d m "endEvent") ->
  exists N, forall fuel, N <= fuel ->
    (26 < length (outgoing_of d g) -> export_process_to_csv fuel d None = (None, Err IndexError)) /\
    (length (outgoing_of d g) <= 26 -> exists text, export_process_to_csv fuel d None = (Some text, Ok tt)).
Proof.
  intros d n g Co AL WN LB En St Jg Sg Eg Sp He. pose proof Co as [L _].
  assert (Hn : entry_node d n) by (apply En; auto). destruct (star_path d Co AL WN LB n g St (proj1 Hn) Jg Sg Eg Sp He) as [N H].
  exists N. intros fuel F. destruct (node_entry d n L (proj1 Hn)) as [a [G [Ha _]]].
  destruct (proj2 (entry_unique d L)) as [x Ex]; [eauto|].
  assert (Xa : x = (n, a)).
  { destruct x as [s b]. assert (s = n) by (apply En, entry_iff; auto; rewrite Ex; left; auto). subst s. f_equal.
    assert (X : In (n, b) (filter no_incoming (gnodes (dgraph d)))) by (rewrite Ex; left; auto). apply filter_In in X. destruct X as [X _].
    destruct L as [U _]. apply In_dget in X; [|exact U]. apply In_dget in Ha; [|exact U]. congruence. }
  subst x. destruct (H fuel F a 0%Z "" "" "" [] G (Forall_nil _)) as [H1 H2].
  assert (Er : export_rows fuel d = let* r := export_node fuel d (map (fun c => (cid c, ccls c)) (classified d)) (Some (n, a)) 0 "" (VStr "") "" false [] in Ok (fst r)).
  { unfold export_rows. rewrite (entry_nodes_eq d L), Ex. cbn [rbind]. rewrite (nodes_eq d L). reflexivity. }
  split.
  - intros Big. unfold export_process_to_csv. rewrite mbind_read, Er, (H1 Big). reflexivity.
  - intros Small. destruct (H2 Small) as [rows [E S]]. rewrite E in Er. cbn [rbind fst] in Er.
    destruct (stringy_text _ S) as [lines Sl]. eexists. eapply exported_text; eauto.
Qed.

(** A start event, a parallel gateway and [k] end events. *)
Definition star_ops (k : nat) : list op :=
  [ONew "m" "0"; OStart "id2" "s" None false true (Some "s") "" ""; OParallel "id2" "g" "Diverging" (Some "g") ""] ++
  map (fun i => OEnd "id2" "done" None (Some ("e" ++ zstr (Z.of_nat i))%string) "" "") (seq 0 k) ++
  OFlow "id2" "s" "g" "" "s" :: map (fun i => OFlow "id2" "g" ("e" ++ zstr (Z.of_nat i))%string "" (zstr (Z.of_nat i))) (seq 0 k).
Definition star27 : diagram := run empty_diagram (star_ops 27).
Lemma star27_history : history (star_ops 27) star27.
Proof. apply checked_history. vm_compute. reflexivity. Qed.
Lemma star27_pairs : distinct_pairs star27.
Proof. apply pairs_checked_ok. vm_compute. reflexivity. Qed.
Lemma star27_coherent : coherent star27 /\ all_laid_out star27.
Proof. destruct (C26_api_diagrams_coherent _ _ star27_history star27_pairs) as [A [B _]]. auto. Qed.
Lemma star27_entry : forall m, entry_node star27 m <-> m = "s".
Proof.
  intros m. rewrite (entry_iff star27 m (proj1 (proj1 star27_coherent))).
  assert (E : map fst (filter no_incoming (gnodes (dgraph star27))) = ["s"]) by (vm_compute; reflexivity).
  rewrite E. simpl. intuition.
Qed.
Lemma star27_straight : straight_to star27 "s" "g".
Proof.
  apply (st_step star27 "s" "ids" "g" "g").
  - vm_compute. reflexivity.
  - eexists. split; [vm_compute; reflexivity|]. split; vm_compute; reflexivity.
  - unfold join_node. assert (E : incoming_of star27 "s" = []) by (vm_compute; reflexivity). rewrite E. simpl. lia.
  - unfold typed. assert (E : attr star27 "s" "type" = Some (VStr "startEvent")) by (vm_compute; reflexivity). rewrite E. discriminate.
  - apply st_here.
Qed.
Definition labelled_b (d : diagram) : bool :=
  forallb (fun t => match dget "name" (snd t) with None | Some VNone | Some (VStr _) => true | _ => false end) (get_flows d).
Lemma labelled_ok : forall d, labelled_b d = true -> labelled d.
Proof.
  intros d H t v T E. unfold labelled_b in H. rewrite forallb_forall in H. specialize (H t T). rewrite E in H.
  destruct v; try discriminate; eauto.
Qed.
Example C60_example :
  coherent star27 /\ all_laid_out star27 /\ well_named star27 /\ labelled star27 /\ (forall m, entry_node star27 m <-> m = "s") /\
  straight_to star27 "s" "g" /\ ~ join_node star27 "g" /\ typed star27 "g" "parallelGateway" /\
  split_node star27 "g" /\ 26 < length (outgoing_of star27 "g") /\
  (forall f m, flow star27 f "g" m -> typed star27 m "endEvent") /\
  export_process_to_csv 10 star27 None = (None, Err IndexError) /\
  snd (export_process_to_csv 10 (run empty_diagram (star_ops 26)) None) = Ok tt.
Proof.
  destruct star27_coherent as [A B]. split; auto. split; auto.
  split; [apply well_named_ok; [exact (proj1 A)|vm_compute; reflexivity]|]. split; [apply labelled_ok; vm_compute; reflexivity|].
  split; [exact star27_entry|]. split; [exact star27_straight|].
  assert (Ei : length (incoming_of star27 "g") = 1) by (vm_compute; reflexivity).
  assert (Eo : length (outgoing_of star27 "g") = 27) by (vm_compute; reflexivity).
  unfold join_node, split_node. rewrite Ei, Eo. split; [lia|]. split; [vm_compute; reflexivity|]. split; [lia|]. split; [lia|].
  split; [|split; vm_compute; reflexivity].
  intros f m [Hf [Hi _]].
  assert (X : forallb (fun n => forallb (fun f => negb (smem f (outgoing_of star27 "g")) || 
                         match dget "type" (snd n) with Some v => veqs v "endEvent" | None => false end) (lst "incoming" (snd n)))
                      (gnodes (dgraph star27)) = true) by (vm_compute; reflexivity).
  assert (Nm : is_node star27 m) by (apply (TopoFacts.incoming_node star27 m f Hi)).
  destruct (node_entry star27 m (proj1 A) Nm) as [a [_ [Ha [At [Hin _]]]]].
  rewrite forallb_forall in X. specialize (X _ Ha). cbn [snd] in X. rewrite forallb_forall in X.
  unfold lst in X. rewrite Hin in X. specialize (X f Hi). unfold typed. rewrite At.
  apply orb_true_iff in X. destruct X as [X|X].
  - exfalso. apply negb_true_iff in X. assert (Y : smem f (outgoing_of star27 "g") = true); [|congruence].
    apply existsb_exists. exists f. split; [exact Hf|exact (String.eqb_refl f)].
  - clear - X. destruct (dget "type" a) as [[]|]; try discriminate X. cbn [veqs] in X. apply String.eqb_eq in X. subst. reflexivity.
Qed.

(** * C69: loading an exported file *)
Lemma label_no_blank : forall s c, label s -> is_in c s -> ~ blank_char c.
Proof.
  assert (D : forall c, SpecCsv.digit c -> ~ blank_char c).
  { intros c H B. unfold SpecCsv.digit, is_in in H. cbn [list_ascii_of_string In] in H. unfold blank_char in B.
    repeat (destruct H as [<- |H]; [vm_compute in B; intuition discriminate|]). contradiction. }
  assert (T : forall c, latin c -> ~ blank_char c).
  { intros c H B. unfold latin, is_in in H. cbn [list_ascii_of_string In] in H. unfold blank_char in B.
    repeat (destruct H as [<- |H]; [vm_compute in B; intuition discriminate|]). contradiction. }
  assert (Nu : forall s c, (s = "" \/ number s) -> is_in c s -> ~ blank_char c).
  { intros s c [-> |[_ H]] Hc; [contradiction|]. apply D, H, Hc. }
  intros s c [H|[l [m [_ [P [M ->]]]]]] Hc; [eapply Nu; eauto|].
  apply is_in_app in Hc. destruct Hc as [Hc|Hc]; [|eapply Nu; eauto]. clear M.
  induction l as [|[n x] l IH]; [contradiction|]. rewrite pairs_text_cons in Hc.
  destruct (P n x (or_introl eq_refl)) as [Hn Hx].
  apply is_in_app in Hc. destruct Hc as [Hc|Hc]; [eapply Nu; eauto|].
  destruct Hc as [<- |Hc]; [apply T; auto|]. apply IH; auto. intros; apply P; right; auto.
Qed.
Lemma clean_label_text : forall o s, label s -> label_text o s -> clean_order o = s.
Proof.
  intros o s Hs [-> |[z [-> ->]]]; [|reflexivity]. rewrite clean_order_str. apply strip_plain. intros c Hc. eapply label_no_blank; eauto.
Qed.
Theorem C69_documented : forall fuel d text table, unique_ids d -> plain_names d ->
  export_process_to_csv fuel d None = (Some text, Ok tt) -> reads text table -> documented table.
Proof.
  intros fuel d text table U P H [lines [Et [Vl Rd]]].
  destruct (C61_six_fields fuel d text U P H) as [lines1 [Un _]]. destruct (C68_orders fuel d text H) as [lines2 [E2 [N2 L2]]].
  assert (Cols : forall x ls, (forall l, In l ls -> l <> [] /\ Forall plain_field l) -> In x (csv_columns :: ls) -> x <> [] /\ Forall plain_field x).
  { intros x ls Hx [<- |I]; [apply columns_plain|auto]. }
  assert (A1 : csv_columns :: lines = csv_columns :: lines1).
  { apply Un; auto. intros l. apply Cols. intros x Hx. split; [|apply verbatim_plain; auto].
    destruct (Forall2_in_l _ _ _ _ _ _ Rd Hx) as [p [_ [o [a [c [w [s0 [t0 [-> _]]]]]]]]]. discriminate. }
  destruct (export_inv _ _ _ H) as [rows [lines3 [E [S T]]]].
  assert (A2 : csv_columns :: lines3 = csv_columns :: lines1).
  { apply Un; [|congruence]. intros l. apply Cols. intros x Hx.
    destruct (Forall2_in_r _ _ _ _ _ _ S Hx) as [r [Hr [a [c [Ea [Ec ->]]]]]]. split; [discriminate|].
    destruct (rows_good _ _ _ E) as [G Pr]. destruct (Pr (plain_names_texts d U P) r Hr) as [[a' [X1 X2]] [[c' [Y1 Y2]] [W [Sb Te]]]].
    rewrite Ea in X1. rewrite Ec in Y1. inv X1. inv Y1. repeat (apply Forall_cons; [auto|]); [|apply Forall_nil].
    apply label_chars. apply (gd_label _ _ _ G). auto. }
  assert (lines3 = lines) by congruence. subst lines3.
  destruct (rows_good _ _ _ E) as [[G1 G2 G3] _].
  assert (M : orders (rows_of table) = map e_order rows).
  { unfold orders, rows_of. rewrite map_map. cbn [fst]. clear - S Rd G3. revert table Rd.
    induction S as [|r l rows lines [a [c [_ [_ ->]]]] S IH]; intros table Rd; inversion Rd; subst; [reflexivity|].
    cbn [map]. rewrite IH; auto; [|intros; apply G3; right; auto]. f_equal.
    destruct H1 as [o [a1 [c1 [w1 [s1 [t1 [El [Lt _]]]]]]]]. inv El. apply clean_label_text; auto. apply G3. left. auto. }
  split; [rewrite M; auto|]. intros o Ho. rewrite M in Ho. apply in_map_iff in Ho. destruct Ho as [r [<- Hr]]. auto.
Qed.
Theorem C69_loads_iff : forall fuel d text table d0, unique_ids d -> plain_names d -> fresh d0 ->
  export_process_to_csv fuel d None = (Some text, Ok tt) -> reads text table -> goto_free table ->
  ((exists d', load_diagram_from_csv table d0 = (d', Ok tt)) <->
   forall o, In o (orders (rows_of table)) -> connectable (rows_of table) o).
Proof. intros fuel d text table d0 U P F H R GF. apply C51_success; auto. eapply C69_documented; eauto. Qed.
Example C69_example : exists text, export_process_to_csv 10 ldemo None = (Some text, Ok tt) /\ reads text ldemo_table /\ goto_free ldemo_table.
Proof.
  eexists. split; [vm_compute; reflexivity|]. split; [exact ldemo_reads|]. apply check_goto_free. vm_compute. reflexivity.
Qed.
(** A task with two outgoing flows: the rows of the branches cannot be connected. *)
Definition fork_ops : list op :=
  [ONew "m" "0"; OStart "id2" "s" None false true (Some "s") "" ""; OTask "id2" "t" (Some "t") "";
   OEnd "id2" "e" None (Some "e") "" ""; OEnd "id2" "f" None (Some "f") "" "";
   OFlow "id2" "s" "t" "" "10"; OFlow "id2" "t" "e" "" "11"; OFlow "id2" "t" "f" "" "12"].
Definition fork_table : list (order_label * row) :=
  [(OStr "0", mkRow "s" "" "" "" ""); (OStr "1", mkRow "t" "" "" "" ""); (OStr "1a1", mkRow "e" "" "" "" "yes"); (OStr "1b1", mkRow "f" "" "" "" "yes")].
Theorem C69_every_export_loads_refuted : exists ops d text table, history ops d /\ coherent d /\ plain_names d /\
  export_process_to_csv 10 d None = (Some text, Ok tt) /\ reads text table /\
  snd (load_diagram_from_csv table empty_diagram) = Err (BpmnPythonError "Something wrong in csv file syntax - look for 1").
Proof.
  assert (H : history fork_ops (run empty_diagram fork_ops)) by (apply checked_history; vm_compute; reflexivity).
  assert (D : distinct_pairs (run empty_diagram fork_ops)) by (apply pairs_checked_ok; vm_compute; reflexivity).
  destruct (C26_api_diagrams_coherent _ _ H D) as [Co _].
  exists fork_ops, (run empty_diagram fork_ops).
  exists (csv_text [csv_columns; ["0"; "s"; ""; ""; ""; ""]; ["1"; "t"; ""; ""; ""; ""]; ["1a1"; "e"; ""; ""; ""; "yes"]; ["1b1"; "f"; ""; ""; ""; "yes"]]).
  exists fork_table. split; [exact H|]. split; [exact Co|].
  split; [apply plain_names_ok; [exact (proj1 (proj1 Co))|vm_compute; reflexivity]|].
  split; [vm_compute; reflexivity|]. split; [|vm_compute; reflexivity].
  eexists. split; [reflexivity|]. split.
  - intros l Hl. repeat (destruct Hl as [<- |Hl]; [repeat (apply Forall_cons; [verbatim_lit|]); apply Forall_nil|]). contradiction.
  - assert (Z : forall o a c w s t, line_row [o; a; c; w; s; t] (OStr o, mkRow a c w s t)).
    { intros o a c w s t. exists o, a, c, w, s, t. split; auto. split; auto. left. auto. }
    repeat (apply Forall2_cons; [apply Z|]). apply Forall2_nil.
Qed.

Print Assumptions C57_one_entry.
Print Assumptions C57_nothing_written.
Print Assumptions C58_chain.
Print Assumptions C59_chain_round_trip.
Print Assumptions C59_identity_refuted.
Print Assumptions C60_never_exported.
Print Assumptions C60_index_error.
Print Assumptions C61_file.
Print Assumptions C61_six_fields.
Print Assumptions C61_every_name_refuted.
Print Assumptions C68_orders.
Print Assumptions C69_documented.
Print Assumptions C69_loads_iff.
Print Assumptions C69_every_export_loads_refuted.
