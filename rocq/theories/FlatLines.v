(** The lines of an exported flat process, and the nodes and flows of its relabelled
    structure. *)
From Coq Require Import String Ascii List Bool Arith ZArith Lia.
From Verif Require Import Py PyFacts Consts Nx NxFacts Rep SpecRep RepFacts SpecLayout.
From Verif Require Import CsvRegex CsvImport SpecCsv RegexFacts CsvFacts CsvTable SpecFlow CsvGhost CsvFill CsvExport SpecCsvExport CsvOrders.
From Verif Require Import SpecBlocks BlockExport SpecFlat FlatTable.
Import ListNotations.
Open Scope string_scope.
Open Scope list_scope.

(** * Lines *)
Definition cond_at (c : string) (m : nat) : string := match m with O => c | S _ => "" end.
Lemma cond_at_nil : forall m, cond_at "" m = "".
Proof. intros [|m]; reflexivity. Qed.
Lemma sequence_in : forall d prefix l ps k c stop,
  In l (sequence_lines d prefix k c ps stop) <->
  (exists i p, nth_error ps i = Some p /\ In l (part_lines d prefix (k + Z.of_nat i) (cond_at c i) p)) \/
  (exists x, stop = Some x /\ l = end_line d prefix (k + Z.of_nat (length ps)) (cond_at c (length ps)) x).
Proof.
  intros d prefix l. induction ps as [|q qs IH]; intros k c stop.
  - cbn [sequence_lines length cond_at]. rewrite Z.add_0_r. destruct stop as [x|]; cbn [In].
    + split; [intros [<- |[]]; right; eauto|]. intros [[i [p [H _]]]|[x' [H ->]]]; [destruct i; discriminate|]. inv H. auto.
    + split; [intros []|]. intros [[i [p [H _]]]|[x' [H _]]]; [destruct i|]; discriminate.
  - cbn [sequence_lines]. rewrite in_app_iff, IH.
    assert (Z : forall n, (k + 1 + Z.of_nat n = k + Z.of_nat (S n))%Z) by (intros; lia). split.
    + intros [H|[[i [p [H I]]]|[x [-> ->]]]].
      * left. exists 0, q. split; auto. cbn [cond_at]. rewrite Z.add_0_r. auto.
      * left. exists (S i), p. split; auto. rewrite cond_at_nil, Z in I. exact I.
      * right. exists x. split; auto. cbn [length cond_at]. rewrite cond_at_nil, Z. reflexivity.
    + intros [[i [p [H I]]]|[x [-> ->]]].
      * destruct i as [|i]; cbn [nth_error cond_at] in *.
        { inv H. left. rewrite Z.add_0_r in I. auto. }
        { right. left. exists i, p. split; auto. rewrite cond_at_nil, Z. exact I. }
      * right. right. exists x. split; auto. cbn [length cond_at]. rewrite cond_at_nil, Z. reflexivity.
Qed.
Lemma branches_in : forall d prefix k g l bs fs i0,
  In l (branches_lines d prefix k g i0 fs bs) <->
  exists i f b, nth_error fs i = Some f /\ nth_error bs i = Some b /\ In l (branch_lines d prefix k g (i0 + i) f b).
Proof.
  intros d prefix k g l. induction bs as [|b bs IH]; intros fs i0.
  - destruct fs; (split; [intros []|]); intros [i [f [b [_ [H _]]]]]; destruct i; discriminate.
  - destruct fs as [|f fs].
    + split; [intros []|]. intros [i [f [b' [H _]]]]; destruct i; discriminate.
    + cbn [branches_lines]. rewrite in_app_iff, IH. split.
      * intros [H|[i [f' [b' [H1 [H2 H3]]]]]].
        { exists 0, f, b. rewrite Nat.add_0_r. auto. }
        { exists (S i), f', b'. rewrite Nat.add_succ_r. auto. }
      * intros [i [f' [b' [H1 [H2 H3]]]]]. destruct i as [|i]; cbn [nth_error] in *.
        { inv H1. inv H2. rewrite Nat.add_0_r in H3. auto. }
        { right. exists i, f', b'. rewrite Nat.add_succ_r in H3. auto. }
Qed.
Lemma branch_sequence : forall d prefix k g i f b, 1 <= branch_rows b ->
  branch_lines d prefix k g i f b = sequence_lines d (branch_prefix prefix k i) 1 (branch_mark d g f) (fst b) (snd b).
Proof.
  intros d prefix k g i f [[|p qs] [x|]] H; try reflexivity. exfalso. unfold branch_rows in H. simpl in H. lia.
Qed.

Definition sub_mark (d : diagram) (n : string) : string := if is_type d n "subProcess" then "yes" else "".
Definition line_of (o : string) (r : row) : list string :=
  [o; r_activity r; r_condition r; r_who r; r_subprocess r; r_terminated r].

Section Lines.
  Variables (d : diagram) (s e : string) (ps : list part).
  Hypothesis Fl : flat ps.

  Inductive flat_row : string -> row -> Prop :=
  | fr_start : flat_row (num 0) (mkRow (event_word d s ++ node_text d s) "" "" "" "")
  | fr_end : flat_row (num (S (length ps))) (mkRow (event_word d e ++ node_text d e) "" "" "" "yes")
  | fr_act : forall k n, nth_error ps k = Some (Act n) ->
      flat_row (num (S k)) (mkRow (node_text d n) "" "" (sub_mark d n) "")
  | fr_inner : forall k g j bs i b f m n, nth_error ps k = Some (Block g j bs) -> nth_error bs i = Some b ->
      nth_error (outgoing_of d g) i = Some f -> nth_error (fst b) m = Some (Act n) ->
      flat_row (row_label (S k) i (S m)) (mkRow (node_text d n) (cond_at (branch_mark d g f) m) "" (sub_mark d n) "")
  | fr_stop : forall k g j bs i b f x, nth_error ps k = Some (Block g j bs) -> nth_error bs i = Some b ->
      nth_error (outgoing_of d g) i = Some f -> snd b = Some x ->
      flat_row (row_label (S k) i (S (length (fst b))))
        (mkRow (event_word d x ++ node_text d x) (cond_at (branch_mark d g f) (length (fst b))) "" "" "yes").

  Lemma num_z : forall k, (1 + Z.of_nat k)%Z = Z.of_nat (S k).
  Proof. intros. lia. Qed.
  Lemma part_acts_only : forall k g j bs b, nth_error ps k = Some (Block g j bs) -> In b bs ->
    (forall p, In p (fst b) -> is_act p) /\ 1 <= branch_rows b.
  Proof.
    intros k g j bs b H Hb. apply nth_error_In in H. apply (proj1 Fl) in H. destruct H as [_ H]. destruct (H b Hb). split; auto. lia.
  Qed.
  Lemma lines_iff : forall l, In l (process_lines d s ps e) <-> exists o r, flat_row o r /\ l = line_of o r.
  Proof.
    intros l. unfold process_lines. cbn [In]. rewrite sequence_in. split.
    - intros [<- |[[k [p [H I]]]|[x [E ->]]]].
      + exists (num 0). eexists. split; [apply fr_start|reflexivity].
      + rewrite cond_at_nil in I. destruct p as [n|g j bs].
        * cbn [part_lines In] in I. destruct I as [<- |[]]. eexists. eexists. split; [apply (fr_act k n H)|].
          unfold act_line. rewrite num_z. reflexivity.
        * rewrite block_lines in I. apply branches_in in I. destruct I as [i [f [b [F [B I]]]]]. cbn [Nat.add] in I.
          destruct (part_acts_only k g j bs b H (nth_error_In _ _ B)) as [A L].
          rewrite branch_sequence in I by auto. apply sequence_in in I. rewrite num_z in I. destruct I as [[m [q [Hq I]]]|[x [E ->]]].
          { destruct (A q (nth_error_In _ _ Hq)) as [n ->]. cbn [part_lines In] in I. destruct I as [<- |[]].
            eexists. eexists. split; [eapply fr_inner; eauto|]. unfold act_line, line_of, row_label, branch_prefix. cbn [append].
            rewrite num_z, sapp_assoc. reflexivity. }
          { eexists. eexists. split; [eapply fr_stop; eauto|]. unfold end_line, line_of, row_label, branch_prefix. cbn [append].
            rewrite num_z, sapp_assoc. reflexivity. }
      + inv E. eexists. eexists. split; [apply fr_end|]. unfold end_line. rewrite num_z, cond_at_nil. reflexivity.
    - intros [o [r [H ->]]]. destruct H as [| |k n H|k g j bs i b f m n H B F Hn|k g j bs i b f x H B F Hx].
      + left. reflexivity.
      + right. right. exists e. split; auto. unfold end_line. rewrite num_z, cond_at_nil. reflexivity.
      + right. left. exists k, (Act n). split; auto. left. unfold act_line. rewrite num_z, cond_at_nil. reflexivity.
      + right. left. exists k, (Block g j bs). split; auto. rewrite cond_at_nil, block_lines. apply branches_in. exists i, f, b. split; auto. split; auto.
        destruct (part_acts_only k g j bs b H (nth_error_In _ _ B)) as [A L]. rewrite branch_sequence by auto. apply sequence_in.
        left. exists m, (Act n). split; auto. left. unfold act_line, line_of, row_label, branch_prefix. cbn [append Nat.add].
        rewrite !num_z, sapp_assoc. reflexivity.
      + right. left. exists k, (Block g j bs). split; auto. rewrite cond_at_nil, block_lines. apply branches_in. exists i, f, b. split; auto. split; auto.
        destruct (part_acts_only k g j bs b H (nth_error_In _ _ B)) as [A L]. rewrite branch_sequence by auto. apply sequence_in.
        right. exists x. split; auto. unfold end_line, line_of, row_label, branch_prefix. cbn [append Nat.add].
        rewrite !num_z, sapp_assoc. reflexivity.
  Qed.
End Lines.

(** * The relabelled structure *)
Lemma relabel_nth : forall ps k i, nth_error (relabel k ps) i = option_map (relabel_part (k + i)) (nth_error ps i).
Proof.
  induction ps as [|p ps IH]; intros k i; destruct i as [|i]; try reflexivity; cbn [relabel nth_error].
  - rewrite Nat.add_0_r. reflexivity.
  - rewrite IH, Nat.add_succ_r. reflexivity.
Qed.
Lemma relabel_len : forall ps k, length (relabel k ps) = length ps.
Proof. induction ps as [|p ps IH]; intros k; cbn [relabel length]; auto. Qed.
Lemma branches_nth : forall bs k i0 i, nth_error (relabel_branches k i0 bs) i = option_map (relabel_branch k (i0 + i)) (nth_error bs i).
Proof.
  induction bs as [|p bs IH]; intros k i0 i; destruct i as [|i]; try reflexivity; cbn [relabel_branches nth_error].
  - rewrite Nat.add_0_r. reflexivity.
  - rewrite IH, Nat.add_succ_r. reflexivity.
Qed.
Lemma in_nth : forall A (x : A) l, In x l <-> exists i, nth_error l i = Some x.
Proof. intros A x l. split; [apply In_nth_error|]. intros [i H]. eapply nth_error_In; eauto. Qed.
Lemma in_relabel : forall q ps, In q (relabel 1 ps) <-> exists k p, nth_error ps k = Some p /\ q = relabel_part (S k) p.
Proof.
  intros q ps. rewrite in_nth. split; intros [k H].
  - rewrite relabel_nth in H. destruct (nth_error ps k) as [p|] eqn:E; [|discriminate]. inv H. eauto.
  - destruct H as [p [H ->]]. exists k. rewrite relabel_nth, H. reflexivity.
Qed.
Lemma in_branches : forall c k bs, In c (relabel_branches k 0 bs) <-> exists i b, nth_error bs i = Some b /\ c = relabel_branch k i b.
Proof.
  intros c k bs. rewrite in_nth. split; intros [i H].
  - rewrite branches_nth in H. destruct (nth_error bs i) as [p|] eqn:E; [|discriminate]. inv H. eauto.
  - destruct H as [p [H ->]]. exists i. rewrite branches_nth, H. reflexivity.
Qed.

(** Nodes. *)
Lemma branch_nodes : forall k i b n,
  In n (flat_map part_nodes (fst (relabel_branch k i b)) ++ match snd (relabel_branch k i b) with Some e => [e] | None => [] end) <->
  exists m, m < branch_rows b /\ n = row_label k i (S m).
Proof.
  intros k i [qs st] n. unfold relabel_branch, branch_rows, stops. cbn [fst snd]. rewrite in_app_iff.
  assert (A : In n (flat_map part_nodes (map (fun m => Act (row_label k i m)) (seq 1 (length qs)))) <->
    exists m, m < length qs /\ n = row_label k i (S m)).
  { rewrite in_flat_map. split.
    - intros [p [H I]]. apply in_map_iff in H. destruct H as [m [<- H]]. apply in_seq in H. destruct I as [<- |[]].
      exists (m - 1). split; [lia|]. f_equal. lia.
    - intros [m [H ->]]. exists (Act (row_label k i (S m))). split; [|left; reflexivity]. apply in_map_iff. exists (S m). split; auto.
      apply in_seq. lia. }
  rewrite A. destruct st as [x|]; cbn [In length].
  - split.
    + intros [[m [H ->]]|[<- |[]]]; [exists m|exists (length qs)]; split; auto; lia.
    + intros [m [H ->]]. destruct (Nat.eq_dec m (length qs)) as [-> |Ne]; [auto|]. left. exists m. split; auto. lia.
  - split.
    + intros [[m [H ->]]|[]]. exists m. split; auto; lia.
    + intros [m [H ->]]. left. exists m. split; auto. lia.
Qed.
Lemma structure_nodes : forall ps n, flat ps ->
  (In n ("0" :: flat_map part_nodes (relabel 1 ps) ++ [num (S (length ps))]) <->
   (exists k, top_row ps k /\ n = num k) \/ (exists k i m, inner_row ps k i m /\ n = row_label (S k) i (S m)) \/
   exists k bs, block_at ps k bs /\ (n = split_of (num k) \/ n = join_of (num (S (S k))))).
Proof.
  intros ps n Fl. cbn [In]. rewrite in_app_iff, in_flat_map. split.
  - intros [<- |[[q [Hq I]]|[<- |[]]]].
    + left. exists 0. split; [left; auto|reflexivity].
    + apply in_relabel in Hq. destruct Hq as [k [p [Hp ->]]]. destruct p as [x|g j bs]; cbn [relabel_part part_nodes In] in I.
      * destruct I as [<- |[]]. left. exists (S k). split; auto. right. right. eauto.
      * destruct I as [<- |[<- |I]].
        { right. right. exists k, bs. split; [exists g, j; auto|]. left. rewrite Nat.sub_succ, Nat.sub_0_r. reflexivity. }
        { right. right. exists k, bs. split; [exists g, j; auto|]. auto. }
        { apply in_flat_map in I. destruct I as [c [Hc I]]. apply in_branches in Hc. destruct Hc as [i [b [Hb ->]]].
          apply branch_nodes in I. destruct I as [m [Hm ->]]. right. left. exists k, i, m. split; auto.
          exists b. split; auto. exists bs. split; auto. exists g, j. auto. }
    + left. exists (S (length ps)). split; auto. right. left. auto.
  - intros [[k [T ->]]|[[k [i [m [I ->]]]]|[k [bs [[g [j B]] G]]]]].
    + destruct T as [-> |[-> |[k' [x [-> H]]]]]; [left; reflexivity|right; right; left; reflexivity|]. right. left. exists (Act (num (S k'))). split; [|left; auto].
      apply in_relabel. exists k', (Act x). auto.
    + destruct I as [b [[bs [[g [j B]] Hb]] Hm]]. right. left. exists (relabel_part (S k) (Block g j bs)).
      split; [apply in_relabel; eauto|]. cbn [relabel_part part_nodes]. right. right. apply in_flat_map.
      exists (relabel_branch (S k) i b). split; [apply in_branches; eauto|]. apply branch_nodes. eauto.
    + right. left. exists (relabel_part (S k) (Block g j bs)). split; [apply in_relabel; eauto|].
      cbn [relabel_part part_nodes]. rewrite Nat.sub_succ, Nat.sub_0_r. destruct G as [-> | ->]; [left|right; left]; auto.
Qed.

(** Flows. *)
Lemma inner_block : forall g j bs, inner_flows (Block g j bs) = flat_map (fun b => path_flows g (fst b) (arrives j b)) bs.
Proof.
  intros g j bs. cbn [inner_flows]. induction bs as [|b bs IH]; [reflexivity|]. cbn [flat_map]. f_equal; [|exact IH].
  clear IH. generalize g. generalize (fst b). induction l as [|q qs IH]; intros x; [reflexivity|].
  cbn [path_flows]. rewrite <- IH. reflexivity.
Qed.
Definition leaving (a : string) (qs : list part) (i : nat) : string :=
  match i with O => a | S i' => match nth_error qs i' with Some q => last_of q | None => "" end end.
Definition entering (qs : list part) (z : string) (i : nat) : string :=
  match nth_error qs i with Some q => first_of q | None => z end.
Lemma path_in : forall qs a z x y, In (x, y) (path_flows a qs z) <->
  (exists i, i <= length qs /\ x = leaving a qs i /\ y = entering qs z i) \/ exists q, In q qs /\ In (x, y) (inner_flows q).
Proof.
  induction qs as [|q qs IH]; intros a z x y; cbn [path_flows In length].
  - split.
    + intros [E|[]]. inv E. left. exists 0. auto.
    + intros [[i [H [-> ->]]]|[q [[] _]]]. assert (i = 0) by lia. subst. auto.
  - rewrite in_app_iff, IH. split.
    + intros [E|[I|[[i [H [-> ->]]]|[q' [H I]]]]].
      * inv E. left. exists 0. split; [lia|auto].
      * right. exists q. auto.
      * left. exists (S i). split; [lia|]. split; [destruct i; reflexivity|reflexivity].
      * right. exists q'. auto.
    + intros [[i [H [-> ->]]]|[q' [[<- |H] I]]].
      * destruct i as [|i]; [left; reflexivity|]. right. right. left. exists i. split; [lia|]. split; [destruct i; reflexivity|reflexivity].
      * auto.
      * right. right. right. eauto.
Qed.
Lemma acts_nth : forall k i n m, m < n -> nth_error (map (fun m => Act (row_label k i m)) (seq 1 n)) m = Some (Act (row_label k i (S m))).
Proof.
  intros k i n m H. rewrite nth_error_map. rewrite (nth_error_nth' (seq 1 n) 0) by (rewrite seq_length; auto).
  rewrite seq_nth by auto. reflexivity.
Qed.
Lemma acts_none : forall k i n, nth_error (map (fun m => Act (row_label k i m)) (seq 1 n)) n = None.
Proof. intros k i n. apply nth_error_None. rewrite map_length, seq_length. auto. Qed.
Lemma branch_flows : forall ps k i b x y, flat ps -> branch_at ps k i b ->
  let c := relabel_branch (S k) i b in
  In (x, y) (path_flows (split_of (num k)) (fst c) (arrives (join_of (num (S (S k)))) c)) ->
  flat_flow ps x y.
Proof.
  intros ps k i [qs st] x y Fl B c H. apply path_in in H. unfold c, relabel_branch in H. cbn [fst snd] in H.
  destruct H as [[m [Hm [-> ->]]]|[q [Hq I]]].
  - rewrite map_length, seq_length in Hm. unfold leaving, entering.
    assert (R : branch_rows (qs, st) = length qs + match st with Some _ => 1 | None => 0 end) by (destruct st; reflexivity).
    pose proof (branch_flat ps Fl k i _ B) as [_ [R1 _]]. rewrite R in R1.
    destruct (Nat.eq_dec m (length qs)) as [-> |Ne].
    + rewrite acts_none. unfold arrives. cbn [snd].
      destruct (length qs) as [|m] eqn:El.
      * destruct st as [w|]; [|lia]. eapply ff_branch; eauto.
      * rewrite acts_nth by lia. cbn [last_of]. destruct st as [w|].
        { apply ff_inner; exists (qs, Some w); (split; [exact B|]); rewrite R; lia. }
        { replace (S m) with (branch_rows (qs, None)) by (rewrite R; lia). apply ff_meet; auto. }
    + rewrite acts_nth by lia. cbn [first_of]. destruct m as [|m]; [eapply ff_branch; eauto|].
      rewrite acts_nth by lia. cbn [last_of]. apply ff_inner; exists (qs, st); (split; [exact B|]); rewrite R; lia.
  - apply in_map_iff in Hq. destruct Hq as [m [<- _]]. contradiction.
Qed.
Lemma branch_flows_back : forall k i qs st m, 
  let c := relabel_branch (S k) i (qs, st) in
  let I x y := In (x, y) (path_flows (split_of (num k)) (fst c) (arrives (join_of (num (S (S k)))) c)) in
  (1 <= branch_rows (qs, st) -> I (split_of (num k)) (row_label (S k) i 1)) /\
  (S m < branch_rows (qs, st) -> I (row_label (S k) i (S m)) (row_label (S k) i (S (S m)))) /\
  (1 <= branch_rows (qs, st) -> st = None -> I (row_label (S k) i (branch_rows (qs, st))) (join_of (num (S (S k))))).
Proof.
  intros k i qs st m c I.
  assert (R : branch_rows (qs, st) = length qs + match st with Some _ => 1 | None => 0 end) by (destruct st; reflexivity).
  rewrite R. unfold I, c, relabel_branch. cbn [fst snd]. split; [|split].
  - intros H. apply path_in. left. exists 0. split; [lia|]. split; [reflexivity|]. unfold entering.
    destruct (length qs) as [|n] eqn:El; [|rewrite acts_nth by lia; reflexivity]. destruct st; [|lia]. reflexivity.
  - intros H. apply path_in. left. exists (S m). rewrite map_length, seq_length. split; [destruct st; lia|].
    unfold leaving, entering. rewrite acts_nth by (destruct st; lia). split; [reflexivity|].
    destruct (Nat.eq_dec (S m) (length qs)) as [E|Ne].
    + rewrite E, acts_none, <- E. destruct st; [|lia]. reflexivity.
    + rewrite acts_nth by (destruct st; lia). reflexivity.
  - intros H ->. apply path_in. left. exists (length qs). rewrite map_length, seq_length. split; [lia|].
    unfold entering. rewrite acts_none. split; [|reflexivity]. destruct (length qs) as [|n]; [lia|]. unfold leaving.
    rewrite acts_nth by lia. cbn [last_of]. f_equal. lia.
Qed.
Lemma structure_flows : forall ps x y, flat ps ->
  (In (x, y) (path_flows "0" (relabel 1 ps) (num (S (length ps)))) <-> flat_flow ps x y).
Proof.
  intros ps x y Fl. rewrite path_in, relabel_len.
  assert (Lv : forall i p, nth_error ps i = Some p -> leaving "0" (relabel 1 ps) (S i) = match p with Act _ => num (S i) | Block _ _ _ => join_of (num (S (S i))) end).
  { intros i p H. unfold leaving. rewrite relabel_nth, H. destruct p; reflexivity. }
  assert (En : forall i, entering (relabel 1 ps) (num (S (length ps))) i = match nth_error ps i with
    Some (Act _) => num (S i) | Some (Block _ _ _) => split_of (num i) | None => num (S (length ps)) end).
  { intros i. unfold entering. rewrite relabel_nth. destruct (nth_error ps i) as [[]|]; try reflexivity.
    cbn [option_map relabel_part first_of Nat.add]. rewrite Nat.sub_succ, Nat.sub_0_r. reflexivity. }
  split.
  - intros [[i [Hi [-> ->]]]|[q [Hq I]]].
    + rewrite En. destruct i as [|i].
      * change (leaving "0" (relabel 1 ps) 0) with (num 0). assert (T0 : top_row ps 0) by (left; auto).
        destruct (nth_error ps 0) as [[n|g j bs]|] eqn:E.
        { apply ff_next; auto. right. right. eauto. }
        { eapply ff_split. exists g, j. eauto. }
        { apply nth_error_None in E. assert (X : length ps = 0) by lia. rewrite X. apply ff_next; auto. right. left. lia. }
      * destruct (nth_error ps i) as [p|] eqn:Ei; [|apply nth_error_None in Ei; lia]. rewrite (Lv i p Ei).
        destruct p as [n|g j bs].
        { assert (T : top_row ps (S i)) by (right; right; eauto).
          destruct (nth_error ps (S i)) as [[n'|g j bs]|] eqn:E.
          - apply ff_next; auto. right. right. eauto.
          - eapply ff_split. exists g, j. eauto.
          - apply nth_error_None in E. assert (X : length ps = S i) by lia. rewrite X. apply ff_next; auto; try lia. right. left. lia. }
        { assert (B : block_at ps i bs) by (exists g, j; auto). pose proof (ff_join ps i bs B) as J.
          destruct (nth_error ps (S i)) as [[n'|g' j' bs']|] eqn:E.
          - exact J.
          - exfalso. destruct (proj2 Fl i _ _ Ei E) as [z C]; [red; eauto|]. discriminate.
          - apply nth_error_None in E. assert (X : length ps = S i) by lia. rewrite X. exact J. }
    + apply in_relabel in Hq. destruct Hq as [k [p [Hp ->]]]. destruct p as [n|g j bs]; [contradiction|].
      cbn [relabel_part] in I. rewrite inner_block in I. apply in_flat_map in I. destruct I as [c [Hc I]].
      apply in_branches in Hc. destruct Hc as [i [b [Hb ->]]]. rewrite Nat.sub_succ, Nat.sub_0_r in I.
      eapply (branch_flows ps k i b); eauto. exists bs. split; auto. exists g, j. auto.
  - intros H.
    assert (Inner : forall k i b x y, branch_at ps k i b ->
      In (x, y) (path_flows (split_of (num k)) (fst (relabel_branch (S k) i b)) (arrives (join_of (num (S (S k)))) (relabel_branch (S k) i b))) ->
      exists q, In q (relabel 1 ps) /\ In (x, y) (inner_flows q)).
    { clear. intros k i b x y [bs [[g [j B]] Hb]] H. exists (relabel_part (S k) (Block g j bs)). split; [apply in_relabel; eauto|].
      cbn [relabel_part]. rewrite inner_block, Nat.sub_succ, Nat.sub_0_r. apply in_flat_map. exists (relabel_branch (S k) i b).
      split; auto. apply in_branches. eauto. }
    assert (Rows : forall k i b, branch_at ps k i b -> 1 <= branch_rows b) by (intros k i b B; apply (branch_flat ps Fl k i b B)).
    destruct H as [k Lk T T'|k bs B|k i b B|k i m I I'|k i b B E|k bs B].
    + left. exists k. split; auto. rewrite En. split.
      * destruct k as [|k]; [reflexivity|]. destruct T as [T|[T|[k' [n [T H]]]]]; [lia|lia|]. injection T as <-. rewrite (Lv k _ H). reflexivity.
      * destruct T' as [T'|[T'|[k' [n [T' H]]]]]; [lia| |].
        { injection T' as ->. rewrite (proj2 (nth_error_None ps (length ps)) (le_n _)). reflexivity. }
        { injection T' as <-. rewrite H. reflexivity. }
    + left. exists k. pose proof B as [g [j H]]. pose proof (nth_lt _ _ _ _ H) as Lk. split; [lia|]. rewrite En, H. split; [|reflexivity].
      destruct (block_tops ps Fl k bs B) as [T _]. destruct k as [|k]; [reflexivity|]. destruct T as [T|[T|[k' [n [T H']]]]]; [lia|lia|].
      injection T as <-. rewrite (Lv k _ H'). reflexivity.
    + right. destruct b as [qs st]. apply (Inner k i _ _ _ B). apply (branch_flows_back k i qs st 0). eauto.
    + right. destruct I' as [[qs st] [B L]]. apply (Inner k i _ _ _ B). apply (branch_flows_back k i qs st m). auto.
    + right. destruct b as [qs st]. apply (Inner k i _ _ _ B). apply (branch_flows_back k i qs st 0); eauto.
    + left. exists (S k). pose proof B as [g [j H]]. pose proof (nth_lt _ _ _ _ H) as Lk. split; [lia|]. rewrite (Lv k _ H), En. split; [reflexivity|].
      destruct (block_tops ps Fl k bs B) as [_ [_ T]]. destruct T as [T|[T|[k' [n [T H']]]]]; [lia| |].
      * injection T as T. rewrite <- T, (proj2 (nth_error_None ps (S k))) by lia. rewrite T. reflexivity.
      * injection T as <-. rewrite H'. reflexivity.
Qed.
