(** Layout of processes with blocks loaded from CSV files (C85). *)
From Coq Require Import String Ascii List Bool Arith ZArith Lia Permutation.
From Verif Require Import Py PyFacts Consts Nx NxFacts Rep SpecRep RepFacts Classify Layouter SpecLayout ClassifyFacts TopoFacts Prop_Layout.
From Verif Require Import Xml Export Import SpecXml SpecRound SpecWrite Prop_XmlRound.
From Verif Require Import CsvImport CsvExport SpecCsv SpecFlow SpecCsvExport SpecBlocks SpecFlat CsvFacts CsvFill CsvCoherent FlatTable FlatLines
  Prop_CsvImport Prop_CsvBlocks Prop_CsvFlat Prop_CsvLayout.
From Verif Require Import SpecPlan PlanBlocks Prop_BlockLayout.
Import ListNotations.
Open Scope string_scope.
Open Scope list_scope.

(** Every name in the loaded diagram belongs to one part. *)
Inductive own (k : nat) : string -> Prop :=
| own_num : own k (num k)
| own_row : forall i m, i < 26 -> own k (row_label k i m)
| own_split : own k (split_of (num (k - 1)))
| own_join : own k (join_of (num (S k))).
Lemma own_unique : forall k k' n, 1 <= k -> 1 <= k' -> own k n -> own k' n -> k = k'.
Proof.
  intros k k' n K K' H H'.
  assert (NP : forall x, plain (num x)) by (intro; apply label_plain, num_label).
  assert (RP : forall x i m, i < 26 -> plain (row_label x i m)) by (intros; apply label_plain, row_is_label; auto).
  inversion H as [E|i m Hi E|E|E]; inversion H' as [E'|i' m' Hi' E'|E'|E']; rewrite <- E in E'; clear E.
  - apply num_inj in E'. auto.
  - exfalso. eapply top_not_row; [|symmetry; exact E']. auto.
  - exfalso. eapply split_not_plain. rewrite E'. auto.
  - exfalso. eapply join_not_plain. rewrite E'. auto.
  - exfalso. eapply top_not_row; [|exact E']. auto.
  - apply row_inj in E'; auto. destruct E'; auto.
  - exfalso. eapply split_not_plain. rewrite E'. auto.
  - exfalso. eapply join_not_plain. rewrite E'. auto.
  - exfalso. eapply split_not_plain. rewrite <- E'. auto.
  - exfalso. eapply split_not_plain. rewrite <- E'. auto.
  - apply split_inj, num_inj in E'. lia.
  - exfalso. eapply split_join. symmetry. exact E'.
  - exfalso. eapply join_not_plain. rewrite <- E'. auto.
  - exfalso. eapply join_not_plain. rewrite <- E'. auto.
  - exfalso. eapply split_join. exact E'.
  - apply join_inj, num_inj in E'. lia.
Qed.

Lemma rows_distinct : forall k i l, i < 26 -> NoDup l -> NoDup (map (row_label k i) l).
Proof.
  intros k i l Hi N. induction N as [|m l Hm N IH]; cbn [map]; constructor; auto.
  intro I. apply in_map_iff in I. destruct I as [m' [E I]]. apply row_inj in E; auto. destruct E as [_ [_ ->]]. auto.
Qed.
(** The names in a branch. *)
Lemma branch_labels : forall k i b, flat_map part_nodes (fst (relabel_branch k i b)) ++ stops (relabel_branch k i b) =
  map (row_label k i) (seq 1 (length (fst b) + length (stops b))).
Proof.
  intros k i b. unfold relabel_branch, stops. cbn [fst snd]. rewrite seq_app, map_app. f_equal.
  - induction (seq 1 (length (fst b))) as [|m l IH]; cbn [map flat_map part_nodes app]; auto. f_equal. exact IH.
  - destruct (snd b); reflexivity.
Qed.
Lemma branches_distinct : forall k bs i, i + length bs <= 26 ->
  NoDup (flat_map (fun b => flat_map part_nodes (fst b) ++ stops b) (relabel_branches k i bs)) /\
  forall n, In n (flat_map (fun b => flat_map part_nodes (fst b) ++ stops b) (relabel_branches k i bs)) ->
    exists i' m, i <= i' < 26 /\ n = row_label k i' m.
Proof.
  intros k. induction bs as [|b bs IH]; intros i L; cbn [relabel_branches flat_map length] in *; [split; [constructor|intros n []]|].
  destruct (IH (S i)) as [A B]; [lia|]. rewrite branch_labels. split.
  - apply NoDup_app; auto.
    + apply rows_distinct; [lia|]. apply seq_NoDup.
    + intros n I J. apply B in J. destruct J as [i' [m' [Hi' ->]]]. apply in_map_iff in I. destruct I as [m [E I]]. apply row_inj in E; lia.
  - intros n I. apply in_app_or in I. destruct I as [I|I].
    + apply in_map_iff in I. destruct I as [m [<- _]]. exists i, m. split; [lia|auto].
    + apply B in I. destruct I as [i' [m' [Hi' ->]]]. exists i', m'. split; [lia|auto].
Qed.
Definition letters_enough (p : part) : Prop := match p with Act _ => True | Block _ _ bs => length bs <= 26 end.
Lemma part_own : forall k p n, letters_enough p -> In n (part_nodes (relabel_part k p)) -> own k n.
Proof.
  intros k [m|g j bs] n L I; cbn [relabel_part part_nodes] in I.
  - destruct I as [<-|[]]. constructor.
  - destruct I as [<-|[<-|I]]; [constructor..|]. destruct (branches_distinct k bs 0 L) as [_ B]. apply B in I. destruct I as [i [m [Hi ->]]]. constructor. lia.
Qed.
Lemma part_distinct : forall k p, letters_enough p -> NoDup (part_nodes (relabel_part k p)).
Proof.
  intros k [m|g j bs] L; cbn [relabel_part part_nodes]; [constructor; [intros []|constructor]|].
  destruct (branches_distinct k bs 0 L) as [A B].
  assert (P : forall n, In n (flat_map (fun b : branch_t => flat_map part_nodes (fst b) ++ stops b) (relabel_branches k 0 bs)) -> plain n).
  { intros n I. apply B in I. destruct I as [i [m [Hi ->]]]. apply label_plain, row_is_label. lia. }
  constructor; [intros [E|I]|constructor; auto].
  - eapply split_join. symmetry. exact E.
  - apply P in I. exact (split_not_plain _ I).
  - intros I. apply P in I. exact (join_not_plain _ I).
Qed.
Lemma parts_own : forall ps k n, (forall p, In p ps -> letters_enough p) -> In n (flat_map part_nodes (relabel k ps)) ->
  exists k', k <= k' < k + length ps /\ own k' n.
Proof.
  induction ps as [|p ps IH]; intros k n L I; cbn [relabel flat_map length] in *; [contradiction|]. apply in_app_or in I. destruct I as [I|I].
  - exists k. split; [lia|]. eapply part_own; eauto. apply L. left; auto.
  - destruct (IH (S k) n) as [k' [K O]]; auto; [intros q Hq; apply L; right; auto|]. exists k'. split; [lia|auto].
Qed.
Lemma parts_distinct : forall ps k, 1 <= k -> (forall p, In p ps -> letters_enough p) -> NoDup (flat_map part_nodes (relabel k ps)).
Proof.
  induction ps as [|p ps IH]; intros k K L; cbn [relabel flat_map]; [constructor|]. apply NoDup_app.
  - apply part_distinct. apply L. left; auto.
  - apply IH; [lia|]. intros q Hq. apply L. right; auto.
  - intros n I J. apply part_own in I; [|apply L; left; auto]. apply parts_own in J; [|intros q Hq; apply L; right; auto].
    destruct J as [k' [K' O]]. assert (k = k') by (eapply own_unique; eauto; lia). lia.
Qed.
Lemma labels_distinct : forall ps, (forall p, In p ps -> letters_enough p) ->
  NoDup (all_nodes "0" (relabel 1 ps) (num (S (length ps)))).
Proof.
  intros ps L. unfold all_nodes. constructor.
  - intros I. apply in_app_or in I. destruct I as [I|[I|[]]].
    + apply parts_own in I; auto. destruct I as [k [K O]]. change "0" with (num 0) in O.
      inversion O as [E|i m Hi E|E|E].
      * apply num_inj in E. lia.
      * eapply top_not_row; [|symmetry; exact E]. auto.
      * eapply split_not_plain. rewrite E. apply label_plain, num_label.
      * eapply join_not_plain. rewrite E. apply label_plain, num_label.
    + change "0" with (num 0) in I. apply num_inj in I. lia.
  - apply NoDup_app; [apply parts_distinct; auto|constructor; [intros []|constructor]|].
    intros n I [<-|[]]. apply parts_own in I; auto. destruct I as [k [K O]]. assert (k = S (length ps)); [|lia].
    eapply own_unique; [| |exact O|constructor]; lia.
Qed.
Lemma relabel_plain : forall ps k, (forall p, In p ps -> plain_part p) -> forall q, In q (relabel k ps) -> plain_part q.
Proof.
  induction ps as [|p ps IH]; intros k P q I; cbn [relabel] in I; [contradiction|]. destruct I as [<-|I].
  - specialize (P p (or_introl eq_refl)). destruct p as [m|g j bs]; cbn [relabel_part plain_part] in *; auto. destruct P as [P1 P2].
    assert (R : forall bs i, length (relabel_branches k i bs) = length bs) by (induction bs0 as [|b0 bs0 IHb]; intros i; cbn; auto).
    split; [rewrite R; auto|]. intros b Hb. apply in_branches in Hb. destruct Hb as [i [b0 [Hb ->]]]. apply nth_error_In in Hb. destruct (P2 b0 Hb) as [_ [A B]].
    unfold relabel_branch. split; [|split]; cbn [fst snd].
    + intros p Hp. apply in_map_iff in Hp. destruct Hp as [m [<- _]]. exists (row_label k i m). auto.
    + destruct (fst b0); [congruence|discriminate].
    + rewrite B. auto.
  - apply (IH (S k)); auto. intros p' Hp. apply P. right; auto.
Qed.

(** Pictures of diagrams with the same coordinates are the same. *)
Lemma in_line_same : forall d d' row ps col, (forall n x y, In n (map first_of ps) -> at_xy d n x y -> at_xy d' n x y) ->
  in_line d row col ps -> in_line d' row col ps.
Proof.
  intros d d' row. induction ps as [|p qs IH]; intros col H P; cbn [in_line] in *; auto. split; [apply H; [left; auto|apply P]|].
  apply IH; [|apply P]. intros n x y I. apply H. right; auto.
Qed.
Lemma picture_same : forall d d' ps col e, (forall p, In p ps -> plain_part p) ->
  (forall n x y, In n (nodes ps e) -> at_xy d n x y -> at_xy d' n x y) -> picture d col ps e -> picture d' col ps e.
Proof.
  intros d d'. induction ps as [|[m|g j bs] qs IH]; intros col e Pl H P; cbn [picture] in *; unfold nodes in H.
  - apply H; [left; auto|exact P].
  - split; [apply H; [left; auto|apply P]|]. apply IH; [intros p Hp; apply Pl; right; auto| |apply P]. intros n x y I. apply H. right; auto.
  - change (list branch_t) in (type of bs). pose proof (Pl _ (or_introl eq_refl)) as Pb. cbn [flat_map] in H. rewrite plain_nodes in H by auto.
    rewrite <- app_assoc in H. cbn [app] in H. destruct P as [P1 [P2 [[rows [P3 P4]] P5]]].
    split; [apply H; [left; auto|exact P1]|]. split; [apply H; [right; left; auto|exact P2]|]. split.
    + exists rows. split; auto.
      assert (K : forall l m, incl l bs -> Forall2 (fun (b : branch_t) r => in_line d r (col + 1) (fst b)) l m ->
                  Forall2 (fun (b : branch_t) r => in_line d' r (col + 1) (fst b)) l m).
      { intros l m I F2. induction F2 as [|b r l m Hl F2 IHf]; constructor; [|apply IHf; intros x Hx; apply I; right; auto].
        eapply in_line_same; [|exact Hl]. intros n x y J. apply H. right. right. apply in_or_app. left. apply in_flat_map. exists b. split; [apply I; left; auto|exact J]. }
      apply K; auto. apply incl_refl.
    + apply IH; [intros p Hp; apply Pl; right; auto| |exact P5]. intros n x y I. apply H. right. right. apply in_or_app. auto.
Qed.

(** A process exported to CSV, loaded and laid out; then saved as XML and loaded. *)
Theorem C85_csv : forall d s ps e fuel, structured d s ps e -> flat ps -> (forall p, In p ps -> plain_part p) ->
  texts_readable d s ps e -> size ps + 1 < fuel ->
  exists text, export_process_to_csv fuel d None = (Some text, Ok tt) /\ (exists table, reads text table) /\
    forall table, reads text table ->
    let qs := relabel 1 ps in let z := num (S (length ps)) in
    exists d1 bound, load_diagram_from_csv table empty_diagram = (d1, Ok tt) /\
      forall fuel1, bound <= fuel1 -> exists d2, generate_layout fuel1 d1 = (d2, Ok tt) /\
        in_cell d2 "0" 2 1 /\ picture d2 2 qs z /\
        forall set_order, any_order set_order -> exists bound', forall fuel2, bound' <= fuel2 ->
        exists d3, round_trip set_order fuel2 d2 d3 /\ (forall n, is_node d3 n <-> In n (all_nodes "0" qs z)) /\
          in_cell d3 "0" 2 1 /\ picture d3 2 qs z.
Proof.
  intros d s ps e fuel St Fl P Tx Fu. destruct (C82_round_trip d s ps e fuel St Fl Tx Fu) as [text [Ex [Rt R]]].
  exists text. split; auto. split; auto. intros table Rd qs z. destruct (R table empty_diagram Rd fresh_empty) as [d1 [Ld [Nd [Fb _]]]]. fold qs z in Nd, Fb.
  rewrite (C81_lines d s ps e fuel St Fu) in Ex. injection Ex as <-.
  assert (D : documented table) by (eapply (table_documented d s e ps fuel); eauto).
  assert (G : goto_free table) by (eapply (table_no_goto d s e ps fuel); eauto).
  exists d1, (sort_bound d1). split; auto. intros fuel1 F1.
  destruct (C83_ready_for_layout table d1 D G Ld) as [Co [AL [W [Dr Tf]]]].
  destruct (table_loaded table empty_diagram d1 fresh_empty D G Ld) as [L Im].
  destruct (C66_nodes_and_flows table empty_diagram d1 fresh_empty D G Ld) as [Tn [Tb _]].
  assert (Ls : forall p, In p ps -> letters_enough p).
  { intros p Hp. destruct p as [m|g j bs]; cbn [letters_enough]; auto. apply In_nth_error in Hp. destruct Hp as [k Hk].
    eapply (few d s e ps fuel); eauto. }
  assert (Cs : consists d1 "0" qs z).
  { split; [apply labels_distinct; auto|]. split; [exact Nd|]. split.
    - intros x y. rewrite <- Fb, Tb. apply Tf.
    - intros f g x y A B. apply (imported_flow _ _ _ _ Im W) in A, B. destruct A, B. congruence. }
  destruct (C85_picture d1 "0" qs z fuel1 Co AL W Dr Cs (relabel_plain ps 1 P) F1) as [d2 [Lo [S Pi]]].
  exists d2. split; auto. split; auto. split; auto. intros so Ao.
  destruct (C83_table_saved so table fuel1 d1 d2 Ao D G Ld Lo) as [bound' B]. exists bound'. intros fuel2 F2.
  destruct (B fuel2 F2) as [d3 [Rt3 [N3 [A3 _]]]]. exists d3. split; auto.
  assert (N : forall n, is_node d3 n <-> In n (all_nodes "0" qs z)) by (intro n; rewrite N3, <- Tn; apply Nd). split; auto.
  assert (Same : forall n x y, In n (all_nodes "0" qs z) -> at_xy d2 n x y -> at_xy d3 n x y).
  { intros n x y I [X Y]. apply N in I. destruct (A3 n I) as [x' [y' [[X2 Y2] [[X3 Y3] _]]]]. rewrite X2 in X. rewrite Y2 in Y. split; congruence. }
  split; [apply Same; [left; auto|exact S]|]. eapply picture_same; [apply relabel_plain; auto| |exact Pi].
  intros n x y I. apply Same. right. exact I.
Qed.

(** * Example *)
Definition sale_parts : list part :=
  [Act "read"; Block "g" "j" [([Act "a1"; Act "a2"], None); ([Act "b"], None); ([Act "c1"; Act "c2"; Act "c3"], None)]; Act "pay"].
Definition sale : diagram := build "s" sale_parts "e".
Definition sale_text : string := csv_text (csv_columns :: process_lines sale "s" sale_parts "e").
Definition sale_table : list (order_label * row) := table_of (process_lines sale "s" sale_parts "e").
Example C85_csv_example : structured sale "s" sale_parts "e" /\ flat sale_parts /\ (forall p, In p sale_parts -> plain_part p) /\
  texts_readable sale "s" sale_parts "e" /\ size sale_parts + 1 < 40 /\ reads sale_text sale_table /\
  let r := generate_layout 80 (fst (load_diagram_from_csv sale_table empty_diagram)) in
  snd r = Ok tt /\
  map (fun x => match x with (n, Some (VStr a), Some (VStr b)) => (n, a, b) | (n, _, _) => (n, "", "") end) (drawn_at (fst r)) =
  [("0", "200", "250"); ("1", "350", "250"); ("2a1", "650", "50"); ("2a2", "800", "50"); ("2b1", "650", "250"); ("2c1", "650", "450");
   ("2c2", "800", "450"); ("2c3", "950", "450"); ("3", "1250", "250"); ("4", "1400", "250"); ("1_split", "500", "250"); ("3_join", "1100", "250")].
Proof.
  assert (H : history (build_ops "s" sale_parts "e") sale /\ coherent sale) by (apply built; vm_compute; reflexivity). destruct H as [_ C].
  split; [apply structured_ok; [exact C|vm_compute; reflexivity]|]. split; [apply flat_ok; vm_compute; reflexivity|].
  split; [apply plain_ok; reflexivity|]. split; [apply texts_ok; vm_compute; reflexivity|]. split; [apply Nat.ltb_lt; vm_compute; reflexivity|].
  split; [apply table_reads; vm_compute; reflexivity|]. split; vm_compute; reflexivity.
Qed.
Print Assumptions C85_csv.
