(** The diagram loaded from the file of a flat process has the relabelled structure, with
    the branches in the same order. *)
From Coq Require Import String Ascii List Bool Arith ZArith Lia Permutation.
From Verif Require Import Py PyFacts Consts Nx NxFacts Rep SpecRep RepFacts MetricsFacts Classify SpecLayout ClassifyFacts.
From Verif Require Import CsvRegex CsvImport SpecCsv RegexFacts CsvFacts CsvTable SpecFlow CsvGhost CsvFill CsvLast CsvGraph CsvTotal CsvExport SpecCsvExport CsvExportFacts CsvChain CsvOrders CsvXml CsvCoherent CsvFan.
From Verif Require Import SpecBlocks BlockExport SpecFlat FlatTable FlatLines.
From Verif Require Import Prop_CsvRows Prop_CsvImport Prop_CsvExport Prop_CsvBlocks Prop_CsvFlat Prop_CsvLayout.
Import ListNotations.
Open Scope string_scope.
Open Scope list_scope.

(** * Labels of the lines *)
Definition label_of (l : list string) : string := nth 0 l "".
Fixpoint letter_rows (k i : nat) (bs : list branch_t) : list string :=
  match bs with [] => [] | b :: bs' => map (row_label k i) (seq 1 (branch_rows b)) ++ letter_rows k (S i) bs' end.
Definition part_labels (k : nat) (p : part) : list string :=
  match p with Act _ => [num k] | Block _ _ bs => letter_rows k 0 bs end.
Fixpoint all_labels (k : nat) (ps : list part) : list string :=
  match ps with [] => [] | p :: qs => part_labels k p ++ all_labels (S k) qs end.

Lemma acts_labels : forall d prefix qs k c stop, (forall q, In q qs -> is_act q) ->
  map label_of (sequence_lines d prefix (Z.of_nat k) c qs stop) = map (fun m => prefix ++ num m)%string (seq k (branch_rows (qs, stop))).
Proof.
  intros d prefix. induction qs as [|q qs IH]; intros k c stop A.
  - destruct stop; reflexivity.
  - destruct (A q (or_introl eq_refl)) as [n ->]. cbn [sequence_lines part_lines]. rewrite map_app.
    replace (Z.of_nat k + 1)%Z with (Z.of_nat (S k)) by lia. rewrite IH by (intros; apply A; right; auto). reflexivity.
Qed.
Lemma letters_labels : forall d g k bs fs i, length fs = length bs -> (forall b, In b bs -> flat_branch b) ->
  map label_of (branches_lines d "" (Z.of_nat k) g i fs bs) = letter_rows k i bs.
Proof.
  intros d g k. induction bs as [|b bs IH]; intros fs i L F; destruct fs as [|f fs]; try discriminate; [reflexivity|].
  cbn [branches_lines letter_rows]. rewrite map_app. injection L as L. rewrite IH by (auto; intros; apply F; right; auto). f_equal.
  destruct (F b (or_introl eq_refl)) as [A [R _]]. rewrite branch_sequence by auto. destruct b as [qs st]. cbn [fst snd] in *.
  change 1%Z with (Z.of_nat 1). rewrite acts_labels by auto. apply map_ext. intros m. unfold branch_prefix, row_label. cbn [append].
  rewrite sapp_assoc. reflexivity.
Qed.
Lemma process_labels : forall d s ps e, flat ps ->
  (forall k g j bs, nth_error ps k = Some (Block g j bs) -> length (outgoing_of d g) = length bs) ->
  map label_of (process_lines d s ps e) = "0" :: all_labels 1 ps ++ [num (S (length ps))].
Proof.
  intros d s ps e [Fl _] Lo. unfold process_lines. cbn [map]. f_equal. change 1%Z with (Z.of_nat 1).
  assert (X : forall qs k, (forall q, In q qs -> flat_part q /\ forall g j bs, q = Block g j bs -> length (outgoing_of d g) = length bs) ->
    map label_of (sequence_lines d "" (Z.of_nat k) "" qs (Some e)) = all_labels k qs ++ [num (k + length qs)]).
  { induction qs as [|q qs IH]; intros k H; cbn [sequence_lines all_labels length].
    - rewrite Nat.add_0_r. reflexivity.
    - rewrite map_app. replace (Z.of_nat k + 1)%Z with (Z.of_nat (S k)) by lia. rewrite IH by (intros; apply H; right; auto).
      rewrite <- Nat.add_succ_comm, app_assoc. f_equal. destruct (H q (or_introl eq_refl)) as [F L]. f_equal. destruct q as [n|g j bs]; [reflexivity|].
      rewrite block_lines. apply letters_labels; [eapply L; eauto|apply F]. }
  rewrite X; [reflexivity|]. intros q Hq. split; [apply Fl; auto|]. intros g j bs ->. apply In_nth_error in Hq. destruct Hq as [k Hk]. eauto.
Qed.

(** The first rows of the branches of one block. *)
Lemma filter_all_false : forall A (p : A -> bool) l, (forall x, In x l -> p x = false) -> filter p l = [].
Proof. intros. apply filter_nil; auto. Qed.
Lemma branch_firsts : forall p k bs i, 
  (forall i' m, i <= i' < i + length bs -> In (row_label k i' (S m)) (letter_rows k i bs) -> (p (row_label k i' (S m)) = true <-> m = 0)) ->
  (forall b, In b bs -> 1 <= branch_rows b) ->
  filter p (letter_rows k i bs) = map (fun i' => row_label k i' 1) (seq i (length bs)).
Proof.
  intros p k. induction bs as [|b bs IH]; intros i H R; [reflexivity|]. cbn [letter_rows length seq map]. rewrite filter_app.
  rewrite IH; [|intros; apply H; [simpl; lia|cbn [letter_rows]; apply in_app_iff; auto]|intros; apply R; right; auto].
  specialize (R b (or_introl eq_refl)). cbn [letter_rows length] in H. destruct (branch_rows b) as [|r]; [lia|]. cbn [seq map filter] in H |- *.
  assert (E : p (row_label k i 1) = true) by (apply (H i 0); [lia|left; auto|auto]). rewrite E.
  rewrite filter_all_false; [reflexivity|]. intros x Hx. pose proof Hx as Ix. apply in_map_iff in Hx. destruct Hx as [m [<- Hm]]. apply in_seq in Hm.
  destruct m as [|m]; [lia|]. destruct (p (row_label k i (S m))) eqn:Q; auto. apply H in Q; [lia|lia|]. right. apply in_app_iff. auto.
Qed.
Lemma in_letter_rows : forall x k bs i, In x (letter_rows k i bs) -> exists i' m, i <= i' < i + length bs /\ x = row_label k i' m.
Proof.
  intros x k. induction bs as [|b bs IH]; intros i H; [contradiction|]. cbn [letter_rows length] in *. apply in_app_iff in H. destruct H as [H|H].
  - apply in_map_iff in H. destruct H as [m [<- _]]. exists i, m. split; [lia|auto].
  - apply IH in H. destruct H as [i' [m [H ->]]]. exists i', m. split; [lia|auto].
Qed.
Lemma firsts_of_block : forall ps k g j bs p, flat ps ->
  (forall k g j bs, nth_error ps k = Some (Block g j bs) -> length bs <= 26) ->
  nth_error ps k = Some (Block g j bs) ->
  (forall o, In o ("0" :: all_labels 1 ps ++ [num (S (length ps))]) -> (p o = true <-> exists i, i < length bs /\ o = row_label (S k) i 1)) ->
  filter p ("0" :: all_labels 1 ps ++ [num (S (length ps))]) = map (fun i => row_label (S k) i 1) (seq 0 (length bs)).
Proof.
  intros ps k g j bs p Fl Few Hk Hp. pose proof (Few _ _ _ _ Hk) as Lb.
  assert (Top : forall a, In (num a) ("0" :: all_labels 1 ps ++ [num (S (length ps))]) -> p (num a) = false).
  { intros a I. destruct (p (num a)) eqn:E; auto. apply Hp in E; auto. destruct E as [i [Hi E]]. exfalso. eapply top_not_row; [|exact E]. unfold branch_t in *; lia. }
  cbn [filter]. change "0" with (num 0) at 1. rewrite Top by (left; reflexivity). rewrite filter_app. cbn [filter].
  rewrite Top by (right; apply in_app_iff; right; left; auto). rewrite app_nil_r.
  assert (Hp' : forall o, In o (all_labels 1 ps) -> (p o = true <-> exists i, i < length bs /\ o = row_label (S k) i 1)).
  { intros o Ho. apply Hp. right. apply in_app_iff. auto. }
  clear Hp Top. replace (S k) with (1 + k) in * by lia.
  assert (X : forall qs q0, (forall q, In q qs -> flat_part q /\ forall g j bs, q = Block g j bs -> length bs <= 26) ->
    (forall o, In o (all_labels q0 qs) -> (p o = true <-> exists i, i < length bs /\ o = row_label (1 + k) i 1)) ->
    (forall q, nth_error qs q = Some (Block g j bs) -> q0 + q = 1 + k ->
       filter p (all_labels q0 qs) = map (fun i => row_label (1 + k) i 1) (seq 0 (length bs))) /\
    (1 + k < q0 -> filter p (all_labels q0 qs) = [])).
  { induction qs as [|q qs IH]; intros q0 F P; [split; [intros [|q] C; discriminate|reflexivity]|].
    assert (Ne : q0 <> 1 + k -> filter p (part_labels q0 q) = []).
    { intros N. apply filter_all_false. intros x Hx. destruct (p x) eqn:E; auto. apply P in E; [|apply in_app_iff; auto].
      destruct E as [i [Hi ->]]. exfalso. destruct q as [n|g' j' bs'].
      - destruct Hx as [Hx|[]]. eapply top_not_row; [|exact Hx]. unfold branch_t in *; lia.
      - cbn [part_labels] in Hx. apply in_letter_rows in Hx. destruct Hx as [i' [m [Hi' Hx]]]. destruct (F _ (or_introl eq_refl)) as [_ L].
        specialize (L _ _ _ eq_refl). apply row_inj in Hx; [|unfold branch_t in *; lia|unfold branch_t in *; lia]. destruct Hx. congruence. }
    destruct (IH (S q0)) as [IH1 IH2]; [intros; apply F; right; auto|intros; apply P; apply in_app_iff; auto|].
    cbn [all_labels]. rewrite filter_app. split.
    - intros m Hm E. destruct m as [|m]; cbn [nth_error] in Hm.
      + injection Hm as ->. rewrite IH2, app_nil_r by lia. cbn [part_labels]. assert (E' : q0 = 1 + k) by lia. subst q0.
        destruct (F _ (or_introl eq_refl)) as [[_ Fb] _]. apply branch_firsts; [|intros b Hb; apply (Fb b Hb)].
        intros i m Hi I. assert (Hi' : i < 26) by (unfold branch_t in *; lia). rewrite P by (apply in_app_iff; auto). split.
        * intros [i' [Hl E2]]. apply row_inj in E2; [|auto|unfold branch_t in *; lia]. lia.
        * intros ->. exists i. split; [unfold branch_t in *; lia|auto].
      + rewrite Ne by lia. apply (IH1 m Hm). lia.
    - intros L. rewrite Ne, IH2 by lia. reflexivity. }
  apply (proj1 (X ps 1 ltac:(intros q Hq; split; [apply Fl; auto|]; intros g' j' bs' ->; apply In_nth_error in Hq; destruct Hq as [m Hm]; eauto) Hp') k Hk eq_refl).
Qed.

(** * The flows of the table *)
Section Flows.
  Variable ps : list part.
  Hypothesis Fl : flat ps.
  Hypothesis Few : forall k g j bs, nth_error ps k = Some (Block g j bs) -> length bs <= 26.

  Lemma num_plain : forall k, plain (num k).
  Proof. intro. apply label_plain, num_label. Qed.
  Lemma row_plain : forall k i m, i < 26 -> plain (row_label k i m).
  Proof. intros. apply label_plain, row_is_label; auto. Qed.
  Lemma inner_letter : forall k i m, inner_row ps k i m -> i < 26.
  Proof. intros k i m H. eapply inner_bound; eauto. Qed.
  Ltac letter := first [eapply inner_letter; eassumption | eapply letter_bound; eassumption].
  Ltac absurd_name E :=
    first [ exact (split_join _ _ E) | exact (split_join _ _ (eq_sym E))
          | refine (split_not_plain _ (eq_ind _ plain _ _ (eq_sym E))); (apply num_plain || (apply row_plain; letter))
          | refine (split_not_plain _ (eq_ind _ plain _ _ E)); (apply num_plain || (apply row_plain; letter))
          | refine (join_not_plain _ (eq_ind _ plain _ _ (eq_sym E))); (apply num_plain || (apply row_plain; letter))
          | refine (join_not_plain _ (eq_ind _ plain _ _ E)); (apply num_plain || (apply row_plain; letter))
          | eapply top_not_row; [|exact E]; letter | eapply top_not_row; [|symmetry; exact E]; letter ].
  Ltac tell E :=
    first [ exfalso; absurd_name E
          | apply num_inj in E | apply split_inj, num_inj in E | apply join_inj, num_inj in E
          | apply row_inj in E; [destruct E as [? [? ?]]|letter|letter] ].

  Lemma flow_target : forall x y y', flat_flow ps x y -> flat_flow ps x y' -> (forall k, x <> split_of (num k)) -> y = y'.
  Proof using All.
    intros x y y' H H' N.
    assert (BT : forall k bs, block_at ps k bs -> ~ top_row ps (S k)) by (intros k bs B; apply (block_tops ps Fl k bs B)).
    destruct H as [k Lk T T'|k bs B|k i b B|k i m I I'|k i b B Sb|k bs B];
      inversion H' as [k1 Lk1 T1 T1' E E'|k1 bs1 B1 E E'|k1 i1 b1 B1 E E'|k1 i1 m1 I1 I1' E E'|k1 i1 b1 B1 Sb1 E E'|k1 bs1 B1 E E'];
      clear H' E'; try tell E; try congruence.
    - subst. exfalso. eapply BT; eauto.
    - subst. exfalso. eapply BT; eauto.
    - exfalso. eapply N. reflexivity.
    - exfalso. assert (k1 = k) by lia. subst. destruct I' as [b2 [B2 L2]]. rewrite (branch_fun ps _ _ _ _ B1 B2) in *. lia.
    - exfalso. assert (k1 = k) by lia. subst. destruct I1' as [b2 [B2 L2]]. rewrite (branch_fun ps _ _ _ _ B B2) in *. lia.
  Qed.
  Lemma flow_source : forall x x' y, flat_flow ps x y -> flat_flow ps x' y -> (forall k, y <> join_of (num k)) -> x = x'.
  Proof using All.
    intros x x' y H H' N.
    assert (BT : forall k bs, block_at ps k bs -> ~ top_row ps (S k)) by (intros k bs B; apply (block_tops ps Fl k bs B)).
    destruct H as [k Lk T T'|k bs B|k i b B|k i m I I'|k i b B Sb|k bs B];
      inversion H' as [k1 Lk1 T1 T1' E' E|k1 bs1 B1 E' E|k1 i1 b1 B1 E' E|k1 i1 m1 I1 I1' E' E|k1 i1 b1 B1 Sb1 E' E|k1 bs1 B1 E' E];
      clear H' E'; try tell E; try congruence; try lia.
    all: try (exfalso; eapply N; reflexivity).
    all: try (exfalso; match goal with B : block_at ps ?k ?bs |- _ => apply (BT k bs B); replace (S k) with k1 by lia; assumption end).
    all: try (exfalso; match goal with B : block_at ps ?k ?bs, T : top_row ps ?q |- _ => apply (BT k bs B); replace (S k) with q by lia; assumption end).
  Qed.
End Flows.

(** * Ways *)
Lemma Forall2_nth : forall A C (R : A -> C -> Prop) l l', length l = length l' ->
  (forall i x y, nth_error l i = Some x -> nth_error l' i = Some y -> R x y) -> Forall2 R l l'.
Proof.
  intros A C R. induction l as [|x l IH]; intros [|y l'] L H; try discriminate; constructor.
  - apply (H 0); reflexivity.
  - apply IH; [simpl in L; lia|]. intros i a b Ha Hb. apply (H (S i)); auto.
Qed.
Lemma path_way : forall d qs a z,
  (forall m, m < length qs -> only_to d (leaving a qs (S m)) (entering qs z (S m))) -> way d (entering qs z 0) qs z.
Proof.
  intros d. induction qs as [|q qs IH]; intros a z H; [reflexivity|]. cbn [way]. split; [reflexivity|].
  exists (entering qs z 0). split; [apply (H 0); simpl; lia|]. apply (IH (last_of q)). intros m Hm.
  apply (H (S m)). simpl. lia.
Qed.
Lemma only_one : forall A (a : A) l, NoDup l -> In a l -> (forall x, In x l -> x = a) -> l = [a].
Proof.
  intros A a [|x [|y l]] N I H; [contradiction| |].
  - rewrite (H x) by (left; auto). reflexivity.
  - exfalso. inv N. apply H2. left. rewrite (H x), (H y) by (cbn; auto). reflexivity.
Qed.

(** * The loaded diagram *)
Section Again.
  Variables (d : diagram) (s e : string) (ps : list part) (fuel : nat).
  Hypothesis St : structured d s ps e.
  Hypothesis Fl : flat ps.
  Hypothesis Fu : size ps + 1 < fuel.
  Hypothesis Tx : texts_readable d s ps e.
  Variable table : list (order_label * row).
  Hypothesis Rd : reads (csv_text (csv_columns :: process_lines d s ps e)) table.
  Variable d' : diagram.
  Hypothesis Ld : load_diagram_from_csv table empty_diagram = (d', Ok tt).
  Let rows := rows_of table.
  Let qs := relabel 1 ps.
  Let z := num (S (length ps)).
  Let Few := few d s e ps fuel St Fl Fu Tx table Rd.

  Lemma again_loaded : exists L, imported rows empty_diagram d' L /\ gwf (dgraph d') /\ forall x y, In (x, y) L <-> flat_flow ps x y.
  Proof using All.
    assert (D : documented table) by (eapply (table_documented d s e ps fuel); eauto).
    assert (G : goto_free table) by (eapply (table_no_goto d s e ps fuel); eauto).
    destruct (table_loaded table empty_diagram d' fresh_empty D G Ld) as [L I]. exists L. split; [exact I|].
    split; [exact (load_gwf _ _ _ Ld)|]. intros x y. rewrite (im_flows _ _ _ _ I).
    apply (table_flows_iff ps Fl Few rows (orders_iff d s e ps fuel St Fl Fu Tx table Rd) (onward_top d s e ps fuel St Fl Fu Tx table Rd)
      (onward_row d s e ps fuel St Fl Fu Tx table Rd)).
  Qed.
  Lemma again_node : forall n, is_node d' n <-> 
    (exists k, top_row ps k /\ n = num k) \/ (exists k i m, inner_row ps k i m /\ n = row_label (S k) i (S m)) \/
    exists k bs, block_at ps k bs /\ (n = split_of (num k) \/ n = join_of (num (S (S k)))).
  Proof using All.
    intros n. destruct again_loaded as [L [I _]]. rewrite (im_nodes _ _ _ _ I).
    rewrite (table_nodes_iff ps Fl Few rows (orders_iff d s e ps fuel St Fl Fu Tx table Rd) (onward_top d s e ps fuel St Fl Fu Tx table Rd)
      (onward_row d s e ps fuel St Fl Fu Tx table Rd)). pose proof (orders_iff d s e ps fuel St Fl Fu Tx table Rd n) as O. fold rows in O. rewrite O. tauto.
  Qed.
  Lemma again_only : forall x y, flat_flow ps x y -> (forall k, x <> split_of (num k)) -> only_to d' x y.
  Proof using All.
    intros x y H N. destruct again_loaded as [L [I [W F]]]. pose proof (proj2 (F x y) H) as Hl.
    split; [apply (bk_ends _ _ (im_books _ _ _ _ I) _ _ Hl)|]. exists (gid (x, y)). split; [|eapply listed_goes; eauto].
    rewrite (bk_out _ _ (im_books _ _ _ _ I)). change [gid (x, y)] with (map gid [(x, y)]). f_equal. apply only_one.
    - apply NoDup_filter. apply I.
    - apply filter_In. split; auto. apply from_true. reflexivity.
    - intros [a b] Hab. apply filter_In in Hab. destruct Hab as [Hab Fr]. apply from_true in Fr. cbn in Fr. subst a. f_equal.
      symmetry. eapply (flow_target ps Fl Few); eauto. apply F. auto.
  Qed.
  Lemma again_no_join : forall n, (forall k, n <> join_of (num k)) -> ~ join_node d' n.
  Proof using All.
    intros n N J. destruct again_loaded as [L [I [W F]]]. unfold join_node in J. rewrite (bk_in _ _ (im_books _ _ _ _ I)), map_length in J.
    destruct (filter (into n) L) as [|p [|q l]] eqn:E; simpl in J; try lia.
    assert (X : forall p, In p (filter (into n) L) -> flat_flow ps (fst p) n).
    { intros [a b] Hab. apply filter_In in Hab. destruct Hab as [Hab Fr]. apply into_true in Fr. cbn in Fr |- *. subst b. apply F. auto. }
    assert (Y : forall p, In p (filter (into n) L) -> snd p = n) by (intros x Hx; apply filter_In in Hx; apply into_true; tauto).
    assert (Nd : NoDup (filter (into n) L)) by (apply NoDup_filter; apply I).
    rewrite E in *. assert (p = q).
    { destruct p as [a b], q as [a' b']. pose proof (Y (a, b) (or_introl eq_refl)). pose proof (Y (a', b') (or_intror (or_introl eq_refl))). cbn in *. subst b b'.
      f_equal. eapply (flow_source ps Fl Few); [apply (X (a, n)); auto|apply (X (a', n)); auto|auto]. }
    subst q. inv Nd. apply H1. left. auto.
  Qed.
  Lemma again_join : forall k bs, block_at ps k bs -> join_node d' (join_of (num (S (S k)))).
  Proof using All.
    intros k bs B. destruct again_loaded as [L [I [W F]]]. unfold join_node. rewrite (bk_in _ _ (im_books _ _ _ _ I)), map_length.
    pose proof B as [g [j H]]. pose proof (proj1 Fl _ (nth_error_In _ _ H)) as [[i [i' [b [b' [Ne [Hi [Hi' [Sb Sb']]]]]]]] _].
    assert (Bi : branch_at ps k i b) by (exists bs; auto). assert (Bi' : branch_at ps k i' b') by (exists bs; auto).
    assert (X : forall i b, branch_at ps k i b -> snd b = None -> In (row_label (S k) i (branch_rows b), join_of (num (S (S k)))) (filter (into (join_of (num (S (S k))))) L)).
    { intros i0 b0 B0 S0. apply filter_In. split; [apply F; apply ff_meet; auto|]. apply into_true. reflexivity. }
    pose proof (X i b Bi Sb) as X1. pose proof (X i' b' Bi' Sb') as X2.
    destruct (filter (into (join_of (num (S (S k))))) L) as [|p [|q l]]; [contradiction| |simpl; lia].
    exfalso. destruct X1 as [X1|[]]. destruct X2 as [X2|[]]. rewrite X1 in X2. assert (X3 : row_label (S k) i (branch_rows b) = row_label (S k) i' (branch_rows b')) by congruence.
    apply row_inj in X3; [apply Ne; apply X3| |]; eapply letter_bound; eauto.
  Qed.
  Lemma again_out : forall k g j bs, nth_error ps k = Some (Block g j bs) ->
    outgoing_of d' (split_of (num k)) = map (fun i => get_flow_id (split_of (num k)) (row_label (S k) i 1)) (seq 0 (length bs)).
  Proof using All.
    intros k g j bs H.
    assert (D : documented table) by (eapply (table_documented d s e ps fuel); eauto).
    assert (G : goto_free table) by (eapply (table_no_goto d s e ps fuel); eauto).
    assert (Ec : remove_white_spaces_in_orders table = rows) by (apply rows_cleaned; apply D).
    assert (Sp : splits rows (num k)).
    { apply (splits_iff ps Fl Few rows (orders_iff d s e ps fuel St Fl Fu Tx table Rd) (onward_top d s e ps fuel St Fl Fu Tx table Rd)).
      exists k, bs. split; auto. exists g, j. auto. }
    assert (Nn : is_node d' (split_of (num k))).
    { apply again_node. right. right. exists k, bs. split; [exists g, j; auto|auto]. }
    pose proof (fan_import table empty_diagram d') as X. cbv zeta in X. rewrite Ec in X.
    destruct (X fresh_empty D (free_rows _ G) Ld (num k) Sp Nn) as [p [Hp Eo]]. rewrite Eo, <- (map_map (fun i => row_label (S k) i 1) (get_flow_id (split_of (num k)))). f_equal.
    assert (Eo2 : orders rows = "0" :: all_labels 1 ps ++ [num (S (length ps))]).
    { rewrite <- (process_labels d s ps e Fl); [|intros; eapply (block_facts d s e ps fuel); eauto].
      pose proof (same_lines d s e ps fuel St Fl Fu Tx table Rd) as R.
      assert (Lb : forall l, In l (process_lines d s ps e) -> label (label_of l)).
      { intros l Hl. apply (lines_iff d s e ps Fl) in Hl. destruct Hl as [o [r [Hf ->]]]. apply (row_fine d s e ps fuel St Fl Fu Tx o r Hf). }
      unfold orders, rows, rows_of. rewrite map_map. cbn [fst]. clear - R Lb. induction R as [|l p lines t Hl R IH]; [reflexivity|].
      cbn [map]. f_equal; [|apply IH; intros; apply Lb; right; auto]. specialize (Lb l (or_introl eq_refl)).
      destruct Hl as [o [a [c [w [s1 [t1 [-> [Lt _]]]]]]]]. apply clean_label_text; auto. }
    rewrite Eo2 in *. apply (firsts_of_block ps k g j bs p Fl Few H). intros o Ho. rewrite (Hp o Ho).
    rewrite (branch_top ps Fl Few rows (orders_iff d s e ps fuel St Fl Fu Tx table Rd)). split.
    - intros [i [b [[bs' [[g' [j' H']] Hb]] ->]]]. rewrite H in H'. injection H' as _ _ <-. exists i. split; auto. eapply nth_lt; eauto.
    - intros [i [Hi ->]]. destruct (nth_error bs i) as [b|] eqn:E; [|apply nth_error_None in E; lia].
      exists i, b. split; auto. exists bs. split; auto. exists g, j. auto.
  Qed.

  Lemma not_split : forall o, plain o -> forall k, o <> split_of (num k).
  Proof. intros o P k ->. exact (split_not_plain _ P). Qed.
  Lemma not_join : forall o, plain o -> forall k, o <> join_of (num k).
  Proof. intros o P k ->. exact (join_not_plain _ P). Qed.
  Lemma again_spine : forall m, m <= length ps -> only_to d' (leaving "0" qs m) (entering qs z m).
  Proof using All.
    intros m Hm. apply again_only.
    - apply (structure_flows ps _ _ Fl). apply path_in. left. exists m. unfold qs. rewrite relabel_len. auto.
    - intros k. unfold leaving, qs. destruct m as [|m]; [apply (not_split "0" (num_plain 0))|]. rewrite relabel_nth.
      destruct (nth_error ps m) as [[n|g j bs]|]; cbn [option_map relabel_part last_of].
      + apply not_split, num_plain.
      + intros C. exact (split_join _ _ (eq_sym C)).
      + intros C. destruct (num k); discriminate C.
  Qed.
  Lemma again_way : forall k g j bs i b, nth_error ps k = Some (Block g j bs) -> nth_error bs i = Some b ->
    way d' (row_label (S k) i 1) (fst (relabel_branch (S k) i b)) (arrives (join_of (num (S (S k)))) (relabel_branch (S k) i b)).
  Proof using All.
    intros k g j bs i b H Hb. set (c := relabel_branch (S k) i b).
    assert (Bt : branch_at ps k i b) by (exists bs; split; auto; exists g, j; auto).
    assert (Hi : i < 26) by (eapply (letter_bound ps Few); eauto).
    assert (Lc : length (fst c) = length (fst b)) by (unfold c, relabel_branch; cbn [fst]; rewrite map_length, seq_length; auto).
    assert (E0 : entering (fst c) (arrives (join_of (num (S (S k)))) c) 0 = row_label (S k) i 1).
    { destruct (branch_flat ps Fl k i b Bt) as [_ [R _]]. unfold branch_rows, stops in R. unfold entering, c, relabel_branch, arrives. cbn [fst snd].
      destruct (length (fst b)) as [|n] eqn:El; [|rewrite acts_nth by lia; reflexivity]. cbn [seq map nth_error]. destruct (snd b); [reflexivity|simpl in R; lia]. }
    rewrite <- E0. apply (path_way d' (fst c) (split_of (num k))). intros m Hm. apply again_only.
    - eapply (branch_flows ps k i b); eauto. fold c. apply path_in. left. exists (S m). split; [lia|auto].
    - unfold leaving, c, relabel_branch. cbn [fst]. rewrite acts_nth by lia. cbn [last_of]. apply not_split, row_plain. auto.
  Qed.
  Lemma again_act : forall k n, nth_error ps k = Some (Act n) ->
    attr d' (num (S k)) "type" = attr d n "type" /\ attr d' (num (S k)) "node_name" = attr d n "node_name".
  Proof using All.
    intros k n H. eapply (act_elements d s e ps fuel St Fl Fu Tx table Rd empty_diagram d' fresh_empty Ld).
    - pose proof St as [_ [_ [_ [_ [_ [_ [_ Hc]]]]]]]. specialize (Hc _ (nth_error_In _ _ H)). inversion Hc; auto.
    - eapply (num_0 d s e ps fuel); eauto using fresh_empty.
    - apply fr_act. auto.
  Qed.
  Lemma again_inner : forall k g j bs i b m n, nth_error ps k = Some (Block g j bs) -> nth_error bs i = Some b -> nth_error (fst b) m = Some (Act n) ->
    attr d' (row_label (S k) i (S m)) "type" = attr d n "type" /\ attr d' (row_label (S k) i (S m)) "node_name" = attr d n "node_name" /\ activity_node d n.
  Proof using All.
    intros k g j bs i b m n H Hb Hn.
    assert (An : activity_node d n).
    { pose proof St as [_ [_ [_ [_ [_ [_ [_ Hc]]]]]]]. specialize (Hc _ (nth_error_In _ _ H)). inversion Hc; subst.
      match goal with Q : forall b p, In b bs -> In p (fst b) -> contains d p |- _ => pose proof (Q b (Act n) (nth_error_In _ _ Hb) (nth_error_In _ _ Hn)) as X end.
      inversion X; auto. }
    destruct (branch_flow d s e ps fuel St Fl Fu Tx k g j bs i b H Hb) as [f F].
    destruct (act_elements d s e ps fuel St Fl Fu Tx table Rd empty_diagram d' fresh_empty Ld n (row_label (S k) i (S m)) An
      ltac:(eapply (row_0 d s e ps fuel); eauto using fresh_empty; eapply (letter_bound ps Few k i b); exists bs; split; auto; exists g, j; auto)
      (cond_at (branch_mark d g f) m)) as [A B]; [eapply fr_inner; eauto|auto].
  Qed.
  Lemma again_stop : forall k g j bs i b x, nth_error ps k = Some (Block g j bs) -> nth_error bs i = Some b -> snd b = Some x ->
    typed d' (row_label (S k) i (S (length (fst b)))) "endEvent" /\ named d' (row_label (S k) i (S (length (fst b)))) "".
  Proof using All.
    intros k g j bs i b x H Hb Hx. destruct (branch_flow d s e ps fuel St Fl Fu Tx k g j bs i b H Hb) as [f F].
    eapply (end_elements d s e ps fuel St Fl Fu Tx table Rd empty_diagram d' fresh_empty Ld); [|eapply fr_stop; eauto].
    eapply (row_0 d s e ps fuel); eauto using fresh_empty. eapply (letter_bound ps Few k i b). exists bs. split; auto. exists g, j. auto.
  Qed.
  Lemma again_end : typed d' z "endEvent" /\ named d' z "".
  Proof using All.
    eapply (end_elements d s e ps fuel St Fl Fu Tx table Rd empty_diagram d' fresh_empty Ld); [|eapply fr_end; eauto].
    eapply (num_0 d s e ps fuel); eauto using fresh_empty.
  Qed.
  Lemma again_start : typed d' "0" "startEvent" /\ named d' "0" (event_word d s ++ node_text d s)%string.
  Proof using All.
    destruct (elements d s e ps fuel St Fl Fu Tx table Rd empty_diagram d' fresh_empty Ld _ _ (fr_start d s e ps)) as [R1 [_ [_ [_ [R5 _]]]]].
    specialize (R1 eq_refl). split; [exact R1|]. apply R5. rewrite R1. discriminate.
  Qed.
  Lemma again_text : forall n, is_node d' n -> (exists t, named d' n t) /\
    (attr d' n "event_definitions" = None \/ attr d' n "event_definitions" = Some (VDefs [])) /\
    (attr d' n "default" = None \/ attr d' n "default" = Some VNone).
  Proof using All.
    intros n Hn. destruct (imported_inv table d' Ld) as [d0 [[_ [N _]] _]]. destruct (N n Hn) as (t & T & K & X & _ & _ & D & _ & _ & V).
    split; auto. apply (X "node_name"). left. auto.
  Qed.
  Lemma again_names : forall t, In t (get_flows d') -> dget "name" (snd t) = Some (VStr "").
  Proof using All.
    intros t Ht. destruct again_loaded as [L [I [W F]]]. destruct (view_in_edge _ _ W Ht) as [ed [He [Hs _]]]. rewrite Hs.
    destruct (im_edges _ _ _ _ I ed He) as [_ ->]. unfold conn_attrs, k_name, k_target_ref, k_source_ref, k_condition_expression.
    destruct (connection_condition _ _) as [c|]; [destruct (String.eqb c "")|]; rewrite !dget_dset; reflexivity.
  Qed.
  Lemma again_entry : forall n, entry_node d' n <-> n = "0".
  Proof using All.
    intros n. destruct again_loaded as [L [I [W F]]].
    assert (X : forall x, flat_flow ps x n -> incoming_of d' n <> []).
    { intros x Hx. rewrite (bk_in _ _ (im_books _ _ _ _ I)). apply F in Hx.
      assert (Y : In (x, n) (filter (into n) L)) by (apply filter_In; split; auto; apply into_true; reflexivity).
      intros C. destruct (filter (into n) L); [contradiction|discriminate]. }
    split.
    - intros [Hn Em]. apply again_node in Hn. destruct Hn as [[k [T ->]]|[[k [i [m [[b [Bt M]] ->]]]]|[k [bs [B [-> | ->]]]]]].
      + destruct k as [|k]; [reflexivity|]. exfalso. assert (Lk : k <= length ps).
        { destruct T as [T|[T|[k' [n [T H]]]]]; [lia|lia|]. injection T as ->. apply nth_lt in H. lia. }
        destruct k as [|k].
        { apply (X (num 0)); auto. apply ff_next; auto. left. auto. }
        destruct (top_or_block ps k) as [T'|[bs B]]; [lia| |].
        * apply (X (num (S k))); auto. apply ff_next; auto.
        * apply (X (join_of (num (S (S k))))); auto. eapply ff_join; eauto.
      + exfalso. destruct m as [|m].
        * apply (X (split_of (num k))); auto. eapply ff_branch; eauto.
        * apply (X (row_label (S k) i (S m))); auto. apply ff_inner; exists b; split; auto. lia.
      + exfalso. apply (X (num k)); auto. eapply ff_split; eauto.
      + exfalso. pose proof (again_join k bs B) as J. unfold join_node in J. rewrite Em in J. simpl in J. lia.
    - intros ->. split; [apply again_node; left; exists 0; split; auto; left; auto|].
      rewrite (bk_in _ _ (im_books _ _ _ _ I)). rewrite filter_all_false; [reflexivity|]. intros [a b] Hab. destruct (into "0" (a, b)) eqn:E; auto.
      apply into_true in E. cbn in E. subst b. apply F in Hab. exfalso. change "0" with (num 0) in Hab.
      inversion Hab as [k1 Lk1 T1 T1' E' E|k1 bs1 B1 E' E|k1 i1 b1 B1 E' E|k1 i1 m1 I1 I1' E' E|k1 i1 b1 B1 Sb1 E' E|k1 bs1 B1 E' E].
      + apply (num_inj (S k1) 0) in E. discriminate.
      + apply (split_not_plain (num k1)). rewrite E. apply (num_plain 0).
      + eapply (top_not_row 0); [eapply (letter_bound ps Few); exact B1|symmetry; exact E].
      + eapply (top_not_row 0); [eapply (inner_letter ps Fl Few); exact I1|symmetry; exact E].
      + eapply join_not_plain. rewrite E. apply (num_plain 0).
      + apply (num_inj (S (S k1)) 0) in E. discriminate.
  Qed.
  Lemma top_is_node : forall k, top_row ps k -> is_node d' (num k).
  Proof using All. intros k H. apply again_node. left. eauto. Qed.
  Lemma row_is_node : forall k i b m, branch_at ps k i b -> m < branch_rows b -> is_node d' (row_label (S k) i (S m)).
  Proof using All. intros k i b m B H. apply again_node. right. left. exists k, i, m. split; auto. exists b. auto. Qed.
  Lemma again_gateways : forall k bs, block_at ps k bs -> gateway_node d' (split_of (num k)) /\ gateway_node d' (join_of (num (S (S k)))).
  Proof using All.
    intros k bs B. destruct again_loaded as [L [I [W F]]].
    assert (Sp : splits rows (num k)).
    { apply (splits_iff ps Fl Few rows (orders_iff d s e ps fuel St Fl Fu Tx table Rd) (onward_top d s e ps fuel St Fl Fu Tx table Rd)).
      eauto. }
    assert (N1 : is_node d' (split_of (num k))) by (apply again_node; eauto 10).
    assert (N2 : is_node d' (join_of (num (S (S k))))) by (apply again_node; eauto 10).
    assert (Mg : exists o, merges rows o (num (S (S k)))).
    { pose proof B as [g [j B']]. pose proof (proj1 Fl _ (nth_error_In _ _ B')) as [[i [i' [b [b' [_ [H [_ [E _]]]]]]]] _].
      exists (row_label (S k) i (branch_rows b)).
      apply (merges_iff ps Fl Few rows (orders_iff d s e ps fuel St Fl Fu Tx table Rd)
        (onward_row d s e ps fuel St Fl Fu Tx table Rd)). exists k, i, b. split; auto. exists bs. auto. }
    destruct Mg as [o Mg]. split; split; auto.
    - destruct (im_split _ _ _ _ I _ Sp) as [ty [G T]]; [apply (im_nodes _ _ _ _ I); auto|]. exists ty. split; [exact T|].
      unfold get_gateway_type in G. destruct (get_all_split_successors _ _); [|discriminate]. cbn [rbind] in G. destruct (get_node_conditions _ _); [|discriminate].
      cbn [rbind] in G. injection G as <-. destruct (_ && _); [vm_compute; tauto|]. destruct (no_conditions _); vm_compute; tauto.
    - destruct (im_join _ _ _ _ I _ _ Mg) as [ty [G T]]; [apply (im_nodes _ _ _ _ I); auto|]. exists ty. split; [exact T|].
      unfold three_gateways in G. intuition subst; vm_compute; tauto.
  Qed.
  Lemma again_activity : forall l n, is_node d' l -> activity_node d n -> attr d' l "type" = attr d n "type" -> activity_node d' l.
  Proof using All. intros l n Hl [_ T] E. split; auto. unfold typed in *. rewrite E. auto. Qed.
  Lemma again_contains : forall p, In p qs -> contains d' p.
  Proof using All.
    intros q Hq. apply in_relabel in Hq. destruct Hq as [k [p [H ->]]]. destruct p as [n|g j bs].
    - cbn [relabel_part]. destruct (again_act k n H) as [T _].
      assert (Tk : top_row ps (S k)) by (right; right; eauto).
      apply in_act; [|apply again_no_join, not_join, num_plain]. eapply again_activity; eauto using top_is_node.
      pose proof St as [_ [_ [_ [_ [_ [_ [_ Hc]]]]]]]. specialize (Hc _ (nth_error_In _ _ H)). inversion Hc; auto.
    - cbn [relabel_part]. rewrite Nat.sub_succ, Nat.sub_0_r. assert (B : block_at ps k bs) by (exists g, j; auto).
      destruct (again_gateways k bs B) as [G1 G2]. pose proof (proj1 Fl _ (nth_error_In _ _ H)) as [Tm Fb].
      pose proof (again_out k g j bs H) as Eo.
      assert (Lr : length (relabel_branches (S k) 0 bs) = length bs) by (clear; generalize 0; induction bs; intros; simpl; auto).
      apply in_block; auto.
      + apply again_no_join. intros k' C. exact (split_join _ _ C).
      + unfold split_node. rewrite Eo, map_length, seq_length. destruct Tm as [i [i' [b [b' [Ne [Hi [Hi' _]]]]]]]. apply nth_lt in Hi, Hi'. unfold branch_t in *; lia.
      + unfold branch_t in *. rewrite Lr. eapply Few; eauto.
      + eapply again_join; eauto.
      + rewrite Eo. apply Forall2_nth; [rewrite map_length, seq_length; auto|]. intros i f c Hf Hc.
        rewrite branches_nth in Hc. cbn [Nat.add] in Hc.
        match type of Hc with context [@nth_error ?T bs i] => destruct (@nth_error T bs i) as [b|] eqn:Hb end; [|discriminate Hc].
        cbn [option_map] in Hc. injection Hc as <-.
        assert (Bt : branch_at ps k i b) by (exists bs; auto). destruct (Fb b (nth_error_In _ _ Hb)) as [Ac [R1 R10]].
        rewrite nth_error_map in Hf. pose proof (nth_lt _ _ _ _ Hb) as Li. rewrite (nth_error_nth' (seq 0 (length bs)) 0) in Hf by (rewrite seq_length; auto).
        rewrite seq_nth in Hf by auto. cbn [option_map Nat.add] in Hf. injection Hf as <-.
        split; [|split].
        * exists (row_label (S k) i 1). split; [eapply row_is_node; eauto|]. split; [|eapply again_way; eauto].
          destruct again_loaded as [L [I [W F]]]. change (get_flow_id (split_of (num k)) (row_label (S k) i 1)) with (gid (split_of (num k), row_label (S k) i 1)).
          eapply listed_goes; eauto. apply F. eapply ff_branch; eauto.
        * intros E. right. unfold relabel_branch in *. cbn [fst snd] in *. destruct (snd b) eqn:Sb; [discriminate|].
          unfold branch_rows, stops in R1. rewrite Sb in R1. simpl in R1. destruct (length (fst b)) as [|n]; [lia|].
          exists (map (fun m => Act (row_label (S k) i m)) (seq 1 n)), (row_label (S k) i (1 + n)). rewrite seq_S, map_app. reflexivity.
        * intros x E. unfold relabel_branch in E. cbn [snd] in E. destruct (snd b) as [w|] eqn:Sb; [|discriminate]. injection E as <-.
          assert (M : length (fst b) < branch_rows b) by (unfold branch_rows, stops; rewrite Sb; simpl; lia).
          split; [split; [eapply row_is_node; eauto|]|].
          { eapply again_stop; eauto. }
          { apply again_no_join, not_join, row_plain. eapply (letter_bound ps Few); eauto. }
      + destruct Tm as [i [_ [b [_ [_ [Hi [_ [Sb _]]]]]]]]. exists (relabel_branch (S k) i b). split; [apply in_branches; eauto|].
        unfold relabel_branch. cbn [fst snd]. rewrite Sb. split; auto. destruct (Fb b (nth_error_In _ _ Hi)) as [_ [R1 _]].
        unfold branch_rows, stops in R1. rewrite Sb in R1. simpl in R1. destruct (length (fst b)); [lia|]. discriminate.
      + intros c p Hc Hp. apply in_branches in Hc. destruct Hc as [i [b [Hb ->]]]. unfold relabel_branch in Hp. cbn [fst] in Hp.
        assert (Bt : branch_at ps k i b) by (exists bs; auto).
        apply in_map_iff in Hp. destruct Hp as [m [<- Hm]]. apply in_seq in Hm. destruct m as [|m]; [lia|].
        destruct (nth_error (fst b) m) as [q|] eqn:Hn; [|apply nth_error_None in Hn; lia].
        destruct (Fb b (nth_error_In _ _ Hb)) as [Ac _]. destruct (Ac q (nth_error_In _ _ Hn)) as [n ->].
        destruct (again_inner k g j bs i b m n H Hb Hn) as [T [_ An]].
        apply in_act; [|apply again_no_join, not_join, row_plain; eapply (letter_bound ps Few); eauto].
        eapply again_activity; eauto. eapply row_is_node; eauto. unfold branch_rows. lia.
  Qed.
  Lemma again_structured : structured d' "0" qs z.
  Proof using All.
    destruct again_loaded as [L [I [W F]]].
    split; [eapply imported_coherent; eauto|]. split; [|split; [|split; [|split; [|split; [|split]]]]].
    - intros n Hn. destruct (again_text n Hn) as [A [B _]]. split; auto. destruct B as [B|B]; eauto.
    - intros t v Ht Hv. rewrite (again_names t Ht) in Hv. injection Hv as <-. right. eauto.
    - apply again_entry.
    - apply again_start.
    - exists (entering qs z 0). split; [apply (again_spine 0); lia|]. apply (path_way d' qs "0" z). intros m Hm. unfold qs in Hm. rewrite relabel_len in Hm.
      apply (again_spine (S m)). lia.
    - split; [apply top_is_node; right; left; auto|]. apply again_end.
    - apply again_contains.
  Qed.
End Again.
