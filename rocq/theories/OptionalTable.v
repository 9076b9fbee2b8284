(** The file of a process with optional steps: its lines, and the nodes and flows its table
    means. *)
From Coq Require Import String Ascii List Bool Arith ZArith Lia.
From Verif Require Import Py PyFacts Consts Nx NxFacts Rep SpecRep RepFacts SpecLayout.
From Verif Require Import CsvRegex CsvImport SpecCsv RegexFacts CsvFacts CsvTable SpecFlow SpecGoto GotoFacts CsvGhost CsvFill CsvExport SpecCsvExport CsvOrders.
From Verif Require Import SpecBlocks BlockExport SpecFlat FlatTable FlatLines SpecOptional SpecGoto.
Import ListNotations.
Open Scope string_scope.
Open Scope list_scope.

(** * A row in the place of each direct flow *)
Definition fill_branch (b : branch_t) : branch_t := match b with ([], None) => ([Act ""], None) | _ => b end.
Definition fill_part (p : part) : part := match p with Act n => Act n | Block g j bs => Block g j (map fill_branch bs) end.
Definition fill (ps : list part) : list part := map fill_part ps.

Lemma fill_direct : forall b, direct b -> fill_branch b = ([Act ""], None).
Proof. intros b ->. reflexivity. Qed.
Lemma fill_other : forall b, ~ direct b -> fill_branch b = b.
Proof. intros [[|q qs] [x|]] H; try reflexivity. elim H. reflexivity. Qed.
Lemma direct_dec : forall b, direct b \/ ~ direct b.
Proof. intros [[|q qs] [x|]]; unfold direct; [right|left|right|right]; congruence. Qed.
Lemma fill_rows : forall b, branch_rows (fill_branch b) = if (branch_rows b =? 0)%nat then 1 else branch_rows b.
Proof. intros [[|q qs] [x|]]; reflexivity. Qed.
Lemma fill_stop : forall b, snd (fill_branch b) = snd b.
Proof. intros [[|q qs] [x|]]; reflexivity. Qed.
Lemma rows_pos : forall b, ~ direct b -> 1 <= branch_rows b.
Proof.
  intros [[|q qs] [x|]] H; unfold branch_rows, stops; cbn [fst snd length]; try lia. elim H. reflexivity.
Qed.

Section Fill.
  Variable ps : list part.
  Hypothesis Op : optional ps.
  Let qs := fill ps.

  Lemma fill_nth : forall k, nth_error qs k = option_map fill_part (nth_error ps k).
  Proof. intros k. apply nth_error_map. Qed.
  Lemma fill_len : length qs = length ps.
  Proof. apply map_length. Qed.
  Lemma fill_top : forall k, top_row qs k <-> line_no ps k.
  Proof.
    intros k. unfold top_row, line_no. rewrite fill_len. split; (intros [H|[H|[k' [n [E H]]]]]; [auto|auto|]); right; right; exists k'.
    - rewrite fill_nth in H. destruct (nth_error ps k') as [[m|g j bs]|]; try discriminate. exists m. auto.
    - exists n. rewrite fill_nth, H. auto.
  Qed.
  Lemma fill_block : forall k bs', block_at qs k bs' <-> exists bs, block_no ps k bs /\ bs' = map fill_branch bs.
  Proof.
    intros k bs'. split.
    - intros [g [j H]]. rewrite fill_nth in H. destruct (nth_error ps k) as [[m|g' j' bs]|] eqn:E; try discriminate.
      injection H as <- <- <-. exists bs. split; auto. exists g', j'. auto.
    - intros [bs [[g [j H]] ->]]. exists g, j. rewrite fill_nth, H. reflexivity.
  Qed.
  Lemma fill_at : forall k i b', branch_at qs k i b' <-> exists b, branch_no ps k i b /\ b' = fill_branch b.
  Proof.
    intros k i b'. split.
    - intros [bs' [B H]]. apply fill_block in B. destruct B as [bs [B ->]]. rewrite nth_error_map in H.
      destruct (nth_error bs i) as [b|] eqn:E; [|discriminate]. injection H as <-. exists b. split; auto. exists bs. auto.
    - intros [b [[bs [B H]] ->]]. exists (map fill_branch bs). split; [apply fill_block; eauto|]. rewrite nth_error_map, H. reflexivity.
  Qed.
  Lemma fill_flat : flat qs.
  Proof.
    destruct Op as [P A]. split.
    - intros p H. apply in_map_iff in H. destruct H as [[n|g j bs] [<- H]]; [exact I|]. destruct (P _ H) as [Tm [_ [Fb _]]]. cbn [fill_part flat_part]. split.
      + destruct Tm as [i [i' [b [b' [Ne [H1 [H2 [S1 S2]]]]]]]]. exists i, i', (fill_branch b), (fill_branch b').
        rewrite !nth_error_map, H1, H2, !fill_stop. auto.
      + intros b H'. apply in_map_iff in H'. destruct H' as [c [<- Hc]]. destruct (direct_dec c) as [D|D].
        * rewrite (fill_direct c D). split; [intros q [<- |[]]; exists ""; auto|]. cbn. lia.
        * rewrite (fill_other c D). destruct (Fb c Hc); [auto|contradiction].
    - intros k p q Hp Hq Bp. rewrite fill_nth in Hp, Hq. destruct (nth_error ps k) as [p'|] eqn:E; [|discriminate].
      destruct (nth_error ps (S k)) as [q'|] eqn:E'; [|discriminate]. injection Hp as <-. injection Hq as <-.
      assert (B : is_block p') by (destruct p' as [n|g j bs]; [destruct Bp as [g [j [bs X]]]; discriminate|red; eauto]).
      destruct (A k p' q' E E' B) as [n ->]. exists n. reflexivity.
  Qed.
  Lemma branch_no_fun : forall k i b b', branch_no ps k i b -> branch_no ps k i b' -> b = b'.
  Proof. intros k i b b' [bs [[g [j H]] Hi]] [bs' [[g' [j' H']] Hi']]. congruence. Qed.
  Lemma block_no_fun : forall k bs bs', block_no ps k bs -> block_no ps k bs' -> bs = bs'.
  Proof. intros k bs bs' [g [j H]] [g' [j' H']]. congruence. Qed.
End Fill.

(** * Lines *)
Section Lines.
  Variables (d : diagram) (s e : string) (ps : list part).
  Hypothesis Op : optional ps.

  Inductive opt_row : string -> row -> Prop :=
  | or_flat : forall o r, flat_row d s e ps o r -> opt_row o r
  | or_jump : forall k g j bs i b f, nth_error ps k = Some (Block g j bs) -> nth_error bs i = Some b ->
      nth_error (outgoing_of d g) i = Some f -> direct b ->
      opt_row (row_label (S k) i 1) (mkRow ("goto " ++ num (S (S k))) (condition_text d g f) "" "" "").

  Lemma opt_acts_only : forall k g j bs b, nth_error ps k = Some (Block g j bs) -> In b bs -> forall p, In p (fst b) -> is_act p.
  Proof.
    intros k g j bs b H Hb p Hp. apply nth_error_In in H. apply (proj1 Op) in H. destruct H as [_ [_ [H _]]].
    destruct (H b Hb) as [F| ->]; [apply F; auto|contradiction].
  Qed.
  Lemma opt_lines_iff : forall l, In l (process_lines d s ps e) <-> exists o r, opt_row o r /\ l = line_of o r.
  Proof.
    intros l. unfold process_lines. cbn [In]. rewrite sequence_in. split.
    - intros [<- |[[k [p [H I]]]|[x [E ->]]]].
      + exists (num 0). eexists. split; [apply or_flat, fr_start|reflexivity].
      + rewrite cond_at_nil in I. destruct p as [n|g j bs].
        * cbn [part_lines In] in I. destruct I as [<- |[]]. eexists. eexists. split; [apply or_flat, (fr_act d s e ps k n H)|].
          unfold act_line. rewrite num_z. reflexivity.
        * rewrite block_lines in I. apply branches_in in I. destruct I as [i [f [b [F [B I]]]]]. cbn [Nat.add] in I.
          pose proof (opt_acts_only k g j bs b H (nth_error_In _ _ B)) as A. destruct (direct_dec b) as [D|D].
          { pose proof D as D'. red in D'. subst b. cbn [branch_lines In] in I. destruct I as [<- |[]].
            exists (row_label (S k) i 1). eexists. split; [eapply or_jump; eauto|]. unfold jump_line, line_of, row_label, branch_prefix. cbn [append].
            rewrite num_z. cbn [r_activity r_condition r_who r_subprocess r_terminated]. rewrite sapp_assoc.
            replace (zstr (Z.of_nat (S k) + 1)) with (num (S (S k))) by (unfold num; f_equal; lia). reflexivity. }
          rewrite branch_sequence in I by (apply rows_pos; auto). apply sequence_in in I. rewrite num_z in I. destruct I as [[m [q [Hq I]]]|[x [E ->]]].
          { destruct (A q (nth_error_In _ _ Hq)) as [n ->]. cbn [part_lines In] in I. destruct I as [<- |[]].
            eexists. eexists. split; [eapply or_flat, fr_inner; eauto|]. unfold act_line, line_of, row_label, branch_prefix. cbn [append].
            rewrite num_z, sapp_assoc. reflexivity. }
          { eexists. eexists. split; [eapply or_flat, fr_stop; eauto|]. unfold end_line, line_of, row_label, branch_prefix. cbn [append].
            rewrite num_z, sapp_assoc. reflexivity. }
      + injection E as <-. eexists. eexists. split; [apply or_flat, fr_end|]. unfold end_line. rewrite num_z, cond_at_nil. reflexivity.
    - intros [o [r [H ->]]]. destruct H as [o r H|k g j bs i b f H B F D].
      2:{ right. left. exists k, (Block g j bs). split; auto. rewrite cond_at_nil, block_lines. apply branches_in. exists i, f, b. split; auto. split; auto.
        red in D. subst b. left. unfold jump_line, line_of, row_label, branch_prefix. cbn [append Nat.add].
        rewrite num_z. cbn [r_activity r_condition r_who r_subprocess r_terminated]. rewrite sapp_assoc.
        replace (zstr (Z.of_nat (S k) + 1)) with (num (S (S k))) by (unfold num; f_equal; lia). reflexivity. }
      destruct H as [| |k n H|k g j bs i b f m n H B F Hn|k g j bs i b f x H B F Hx].
      + left. reflexivity.
      + right. right. exists e. split; auto. unfold end_line. rewrite num_z, cond_at_nil. reflexivity.
      + right. left. exists k, (Act n). split; auto. left. unfold act_line. rewrite num_z, cond_at_nil. reflexivity.
      + right. left. exists k, (Block g j bs). split; auto. rewrite cond_at_nil, block_lines. apply branches_in. exists i, f, b. split; auto. split; auto.
        rewrite branch_sequence by (unfold branch_rows; apply nth_lt in Hn; lia). apply sequence_in.
        left. exists m, (Act n). split; auto. left. unfold act_line, line_of, row_label, branch_prefix. cbn [append Nat.add].
        rewrite !num_z, sapp_assoc. reflexivity.
      + right. left. exists k, (Block g j bs). split; auto. rewrite cond_at_nil, block_lines. apply branches_in. exists i, f, b. split; auto. split; auto.
        rewrite branch_sequence by (unfold branch_rows, stops; rewrite Hx; cbn [length]; lia). apply sequence_in.
        right. exists x. split; auto. unfold end_line, line_of, row_label, branch_prefix. cbn [append Nat.add].
        rewrite !num_z, sapp_assoc. reflexivity.
  Qed.
End Lines.

(** * The table *)
Section Table.
  Variable ps : list part.
  Hypothesis Op : optional ps.
  Hypothesis Few : forall k bs, block_no ps k bs -> length bs <= 26.
  Let qs := fill ps.
  Variable rows : dict row.
  Hypothesis Ord : forall o, In o (orders rows) <->
    (exists k, top_row qs k /\ o = num k) \/ (exists k i m, inner_row qs k i m /\ o = row_label (S k) i (S m)).
  Hypothesis On_top : forall k, top_row qs k -> (onward rows (num k) <-> k <> S (length qs)).
  Hypothesis On_row : forall k i m, inner_row qs k i m -> (onward rows (row_label (S k) i (S m)) <-> ~ stop_row qs k i m).
  (** The goto rows. *)
  Hypothesis Go : forall o, goto_order rows o <-> exists k i b, branch_no ps k i b /\ direct b /\ o = row_label (S k) i 1.
  Hypothesis Goal : forall k i b r t, branch_no ps k i b -> direct b -> In (row_label (S k) i 1, r) rows -> goto_row r ->
    (second_word (r_activity r) t <-> t = num (S (S k))).

  Lemma fill_few : forall k g j bs, nth_error qs k = Some (Block g j bs) -> length bs <= 26.
  Proof.
    intros k g j bs H. assert (B : block_at qs k bs) by (exists g, j; auto). apply fill_block in B. destruct B as [bs0 [B ->]].
    rewrite map_length. eapply Few; eauto.
  Qed.
  Lemma letter_of : forall k i b, branch_no ps k i b -> i < 26.
  Proof. intros k i b [bs [B H]]. apply nth_lt in H. specialize (Few k bs B). unfold branch_t in *. lia. Qed.
  Let raw := raw_iff qs (fill_flat ps Op) fill_few rows Ord On_top On_row.

  Lemma row_plain : forall k i m, i < 26 -> plain (row_label k i m).
  Proof. intros k i m H. apply label_plain, row_is_label. auto. Qed.
  Lemma num_plain : forall k, plain (num k).
  Proof. intros k. apply label_plain, num_label. Qed.

  (** The flows with the goto rows followed. *)
  Inductive opt_way : string -> string -> Prop :=
  | ow_next : forall k, k <= length ps -> line_no ps k -> line_no ps (S k) -> opt_way (num k) (num (S k))
  | ow_split : forall k bs, block_no ps k bs -> opt_way (num k) (split_of (num k))
  | ow_branch : forall k i b, branch_no ps k i b -> ~ direct b -> opt_way (split_of (num k)) (row_label (S k) i 1)
  | ow_direct : forall k i b, branch_no ps k i b -> direct b -> opt_way (split_of (num k)) (num (S (S k)))
  | ow_inner : forall k i b m, branch_no ps k i b -> S m < branch_rows b ->
      opt_way (row_label (S k) i (S m)) (row_label (S k) i (S (S m)))
  | ow_meet : forall k i b, branch_no ps k i b -> meets b -> opt_way (row_label (S k) i (branch_rows b)) (join_of (num (S (S k))))
  | ow_join : forall k bs, block_no ps k bs -> opt_way (join_of (num (S (S k)))) (num (S (S k))).

  Lemma go_row : forall k i b m, branch_no ps k i b -> goto_order rows (row_label (S k) i (S m)) <-> direct b /\ m = 0.
  Proof.
    intros k i b m B. rewrite Go. split.
    - intros [k' [i' [b' [B' [D E]]]]]. apply row_inj in E; [|eapply letter_of; eauto|eapply letter_of; eauto].
      destruct E as [E1 [-> E2]]. assert (k = k') by lia. assert (m = 0) by lia. subst. rewrite (branch_no_fun ps _ _ _ _ B B'). auto.
    - intros [D ->]. eauto 6.
  Qed.
  Lemma go_top : forall k, ~ goto_order rows (num k).
  Proof.
    intros k H. apply Go in H. destruct H as [k' [i' [b' [B' [D E]]]]]. unfold row_label in E. revert E. apply top_not_row. eapply letter_of; eauto.
  Qed.
  Lemma go_split : forall o, ~ goto_order rows (split_of o).
  Proof.
    intros o H. apply Go in H. destruct H as [k' [i' [b' [B' [D E]]]]]. apply (split_not_plain o). rewrite E. apply row_plain. eapply letter_of; eauto.
  Qed.
  Lemma go_join : forall o, ~ goto_order rows (join_of o).
  Proof.
    intros o H. apply Go in H. destruct H as [k' [i' [b' [B' [D E]]]]]. apply (join_not_plain o). rewrite E. apply row_plain. eapply letter_of; eauto.
  Qed.
  Lemma meets_not_direct : forall b, meets b -> ~ direct b.
  Proof. intros b [_ H] D. apply H. rewrite D. reflexivity. Qed.
  Lemma not_direct_meets : forall b, ~ direct b -> snd b = None -> meets b.
  Proof. intros [[|q u] [x|]] D H; try discriminate; [elim D; reflexivity|]. split; auto. discriminate. Qed.
  Lemma direct_unique : forall k i i' b b', branch_no ps k i b -> branch_no ps k i' b' -> direct b -> direct b' -> i = i'.
  Proof.
    intros k i i' b b' [bs [B H]] [bs' [B' H']] D D'. rewrite <- (block_no_fun ps _ _ _ B B') in H'. destruct B as [g [j B]].
    apply nth_error_In in B. apply (proj1 Op) in B. destruct B as [_ [_ [_ U]]]. eapply U; eauto.
  Qed.
  (** Who leads to a goto row. *)
  Lemma into_go : forall x k i b, branch_no ps k i b -> direct b -> raw_flow rows x (row_label (S k) i 1) <-> x = split_of (num k).
  Proof.
    intros x k i b B D. rewrite raw. pose proof (letter_of _ _ _ B) as Li. split.
    - intros H. inversion H as [k' L T T' E1 E2|k' bs' B' E1 E2|k' i' b' B' E1 E2|k' i' m' I I' E1 E2|k' i' b' B' E' E1 E2|k' bs' B' E1 E2].
      + exfalso. unfold row_label in E2. revert E2. apply top_not_row. auto.
      + exfalso. apply (split_not_plain (num k')). rewrite E2. apply row_plain. auto.
      + apply row_inj in E2; auto; [|apply fill_at in B'; destruct B' as [? [B' _]]; eapply letter_of; eauto]. destruct E2 as [E2 _]. injection E2 as ->. reflexivity.
      + exfalso. apply row_inj in E2; auto; [lia|]. destruct I as [? [B' _]]. apply fill_at in B'. destruct B' as [? [B' _]]. eapply letter_of; eauto.
      + exfalso. apply (join_not_plain (num (S (S k')))). rewrite E2. apply row_plain. auto.
      + exfalso. unfold row_label in E2. revert E2. apply top_not_row. auto.
    - intros ->. eapply ff_branch. apply fill_at. eauto.
  Qed.
  Lemma redirects_iff : forall o x t, redirects rows o x t <->
    exists k i b, branch_no ps k i b /\ direct b /\ o = row_label (S k) i 1 /\ x = split_of (num k) /\ t = num (S (S k)).
  Proof.
    intros o x t. split.
    - intros [r [I [G [F W]]]]. assert (X : goto_order rows o) by (exists r; auto). apply Go in X. destruct X as [k [i [b [B [D ->]]]]].
      exists k, i, b. split; auto. split; auto. split; auto. split; [apply (into_go x k i b B D); auto|]. eapply Goal; eauto.
    - intros [k [i [b [B [D [-> [-> ->]]]]]]]. assert (X : goto_order rows (row_label (S k) i 1)) by (apply Go; eauto 6).
      destruct X as [r [I G]]. exists r. split; auto. split; auto. split; [apply (into_go _ k i b B D); auto|]. eapply Goal; eauto.
  Qed.
  Lemma rows_fill : forall b, ~ direct b -> branch_rows (fill_branch b) = branch_rows b.
  Proof. intros b D. rewrite (fill_other b D). reflexivity. Qed.
  Lemma way_iff : forall x y, way rows x y <-> opt_way x y.
  Proof.
    intros x y. unfold way. split.
    - intros [[H [Nx Ny]]|[o H]].
      + apply raw in H. destruct H as [k L T T'|k bs B|k i b B|k i m I I'|k i b B E|k bs B].
        * unfold qs in *. rewrite fill_len in L. apply (fun k => proj1 (fill_top ps k)) in T. apply (fun k => proj1 (fill_top ps k)) in T'. apply ow_next; auto.
        * apply fill_block in B. destruct B as [bs0 [B _]]. eapply ow_split; eauto.
        * apply fill_at in B. destruct B as [b0 [B ->]]. eapply ow_branch; eauto. intros D. apply Ny. apply (go_row k i b0 0 B). auto.
        * destruct I' as [b [B M]]. apply fill_at in B. destruct B as [b0 [B ->]]. destruct (direct_dec b0) as [D|D].
          { rewrite (fill_direct b0 D) in M. cbn in M. lia. }
          rewrite (rows_fill b0 D) in M. eapply ow_inner; eauto.
        * apply fill_at in B. destruct B as [b0 [B ->]]. rewrite fill_stop in E. destruct (direct_dec b0) as [D|D].
          { exfalso. rewrite (fill_direct b0 D) in Nx. apply Nx. change (branch_rows ([Act ""], None)) with 1. apply (go_row k i b0 0 B). auto. }
          rewrite (rows_fill b0 D). apply ow_meet; auto. apply not_direct_meets; auto.
        * apply fill_block in B. destruct B as [bs0 [B _]]. eapply ow_join; eauto.
      + apply redirects_iff in H. destruct H as [k [i [b [B [D [_ [-> ->]]]]]]]. eapply ow_direct; eauto.
    - assert (Ty : forall k, ~ goto_order rows (num k)) by apply go_top.
      intros [k L T T'|k bs B|k i b B D|k i b B D|k i b m B M|k i b B M|k bs B].
      + left. split; auto. apply raw. apply ff_next; [unfold qs; rewrite fill_len; auto|apply fill_top; auto|apply fill_top; auto].
      + left. split; [|split; [auto|apply go_split]]. apply raw. eapply ff_split. apply fill_block. eauto.
      + left. split; [|split; [apply go_split|]]. { apply raw. eapply ff_branch. apply fill_at. eauto. }
        intros G. apply (go_row k i b 0 B) in G. tauto.
      + right. exists (row_label (S k) i 1). apply redirects_iff. eauto 10.
      + assert (D : ~ direct b) by (intros ->; cbn in M; lia).
        left. split; [|split; intros G; apply (go_row k i b _ B) in G; tauto]. apply raw.
        apply ff_inner; (exists (fill_branch b); split; [apply fill_at; eauto|rewrite (rows_fill b D); lia]).
      + pose proof (meets_not_direct b M) as D. left. split; [|split; [|apply go_join]].
        * apply raw. rewrite <- (rows_fill b D). apply ff_meet; [apply fill_at; eauto|rewrite fill_stop; apply M].
        * pose proof (rows_pos b D) as P. destruct (branch_rows b) as [|m] eqn:E; [lia|]. intros G. apply (go_row k i b m B) in G. tauto.
      + left. split; [|split; [apply go_join|auto]]. apply raw. eapply ff_join. apply fill_block. eauto.
  Qed.

  Lemma opt_neat : neat_jumps rows.
  Proof.
    constructor.
    - intros o r t I G W. assert (X : goto_order rows o) by (exists r; auto). apply Go in X. destruct X as [k [i [b [B [D ->]]]]].
      apply (Goal k i b r t B D I G) in W. subst t. split; [|apply go_top].
      apply Ord. left. exists (S (S k)). split; auto. destruct B as [bs [B _]].
      eapply (block_tops qs (fill_flat ps Op)). apply fill_block. eauto.
    - intros o x y G Hx Hy. apply Go in G. destruct G as [k [i [b [B [D ->]]]]]. apply (into_go x k i b B D) in Hx. apply (into_go y k i b B D) in Hy. congruence.
    - intros x o H Gx Go'. apply Go in Go'. destruct Go' as [k [i [b [B [D ->]]]]]. apply (into_go x k i b B D) in H. subst x. apply go_split in Gx. auto.
    - intros o x t H F. apply redirects_iff in H. destruct H as [k [i [b [B [D [-> [-> ->]]]]]]]. apply raw in F. pose proof (letter_of _ _ _ B) as Li.
      inversion F as [k' L T T' E1 E2|k' bs' B' E1 E2|k' i' b' B' E1 E2|k' i' m' I I' E1 E2|k' i' b' B' E' E1 E2|k' bs' B' E1 E2].
      + apply (split_not_plain (num k)). rewrite <- E1. apply num_plain.
      + apply (split_not_plain (num k')). rewrite E2. apply num_plain.
      + symmetry in E2. unfold row_label in E2. revert E2. apply top_not_row. apply fill_at in B'. destruct B' as [? [B' _]]. eapply letter_of; eauto.
      + apply (split_not_plain (num k)). rewrite <- E1. apply row_plain. destruct I as [? [B' _]]. apply fill_at in B'. destruct B' as [? [B' _]]. eapply letter_of; eauto.
      + apply (split_not_plain (num k)). rewrite <- E1. apply row_plain. apply fill_at in B'. destruct B' as [? [B' _]]. eapply letter_of; eauto.
      + symmetry in E1. apply split_join in E1. auto.
    - intros o o' x t H H'. apply redirects_iff in H, H'. destruct H as [k [i [b [B [D [-> [-> ->]]]]]]]. destruct H' as [k' [i' [b' [B' [D' [-> [E _]]]]]]].
      apply split_inj, num_inj in E. subst k'. rewrite (direct_unique _ _ _ _ _ B B' D D'). reflexivity.
  Qed.

  (** * Gateways that are left out *)
  Lemma meets_dec : forall b, meets b \/ ~ meets b.
  Proof. intros [[|q u] [x|]]; unfold meets; cbn [fst snd]; [right; intuition congruence|right; intuition congruence|right; intuition congruence|left; intuition congruence]. Qed.
  Lemma some_meets_dec : forall bs, (exists i b, nth_error bs i = Some b /\ meets b) \/ ~ exists i b, nth_error bs i = Some b /\ meets b.
  Proof.
    induction bs as [|b bs [H|H]].
    - right. intros [[|i] [b [E _]]]; discriminate.
    - left. destruct H as [i [c H]]. exists (S i), c. auto.
    - destruct (meets_dec b) as [M|M]; [left; exists 0, b; auto|]. right. intros [[|i] [c [E C]]]; [injection E as ->; auto|]. apply H. exists i, c. auto.
  Qed.
  (** Either one branch or two. *)
  Lemma lone_dec : forall bs, lone bs \/ exists i i' b b', i <> i' /\ nth_error bs i = Some b /\ nth_error bs i' = Some b' /\ meets b /\ meets b'.
  Proof.
    induction bs as [|b bs IH].
    - left. intros [|i] i' b b' E; discriminate.
    - destruct IH as [IH|[i [i' [c [c' [Ne [H [H' [M M']]]]]]]]]; [|right; exists (S i), (S i'), c, c'; repeat split; auto; apply M || apply M'].
      destruct (meets_dec b) as [M|M].
      + destruct (some_meets_dec bs) as [[i [c [H C]]]|N]; [right; exists 0, (S i), b, c; repeat split; auto; apply M || apply C|].
        left. intros [|i] [|i'] c c' E E' C C'; auto; exfalso; apply N; [exists i', c'; auto|exists i, c; auto|exists i, c; auto].
      + left. intros [|i] [|i'] c c' E E' C C'; auto; [injection E as ->; contradiction|injection E' as ->; contradiction|].
        f_equal. eapply IH; eauto.
  Qed.
  Lemma not_lone : forall bs i i' b b', i <> i' -> nth_error bs i = Some b -> nth_error bs i' = Some b' -> meets b -> meets b' -> ~ lone bs.
  Proof. intros bs i i' b b' Ne H H' M M' L. apply Ne. eapply L; eauto. Qed.

  Lemma out_split : forall k y, opt_way (split_of (num k)) y <->
    (exists i b, branch_no ps k i b /\ ~ direct b /\ y = row_label (S k) i 1) \/ (exists i b, branch_no ps k i b /\ direct b /\ y = num (S (S k))).
  Proof.
    intros k y. split.
    - intros H. inversion H as [k' L T T' E1 E2|k' bs' B' E1 E2|k' i' b' B' D' E1 E2|k' i' b' B' D' E1 E2|k' i' b' m' B' M' E1 E2|k' i' b' B' M' E1 E2|k' bs' B' E1 E2].
      + exfalso. apply (split_not_plain (num k)). rewrite <- E1. apply num_plain.
      + exfalso. apply (split_not_plain (num k)). rewrite <- E1. apply num_plain.
      + apply split_inj, num_inj in E1. subst k'. eauto 6.
      + apply split_inj, num_inj in E1. subst k'. eauto 6.
      + exfalso. apply (split_not_plain (num k)). rewrite <- E1. apply row_plain. eapply letter_of; eauto.
      + exfalso. apply (split_not_plain (num k)). rewrite <- E1. apply row_plain. eapply letter_of; eauto.
      + exfalso. symmetry in E1. apply split_join in E1. auto.
    - intros [[i [b [B [D ->]]]]|[i [b [B [D ->]]]]]; [eapply ow_branch|eapply ow_direct]; eauto.
  Qed.
  Lemma in_join : forall k x, opt_way x (join_of (num (S (S k)))) <->
    exists i b, branch_no ps k i b /\ meets b /\ x = row_label (S k) i (branch_rows b).
  Proof.
    intros k x. split.
    - intros H. inversion H as [k' L T T' E1 E2|k' bs' B' E1 E2|k' i' b' B' D' E1 E2|k' i' b' B' D' E1 E2|k' i' b' m' B' M' E1 E2|k' i' b' B' M' E1 E2|k' bs' B' E1 E2].
      + exfalso. apply (join_not_plain (num (S (S k)))). rewrite <- E2. apply num_plain.
      + exfalso. apply split_join in E2. auto.
      + exfalso. apply (join_not_plain (num (S (S k)))). rewrite <- E2. apply row_plain. eapply letter_of; eauto.
      + exfalso. apply (join_not_plain (num (S (S k)))). rewrite <- E2. apply num_plain.
      + exfalso. apply (join_not_plain (num (S (S k)))). rewrite <- E2. apply row_plain. eapply letter_of; eauto.
      + apply join_inj, num_inj in E2. assert (k' = k) by lia. subst k'. eauto 6.
      + exfalso. apply (join_not_plain (num (S (S k)))). rewrite <- E2. apply num_plain.
    - intros [i [b [B [M ->]]]]. apply ow_meet; auto.
  Qed.
  Lemma out_join : forall k y, opt_way (join_of (num (S (S k)))) y -> y = num (S (S k)).
  Proof.
    intros k y H. inversion H as [k' L T T' E1 E2|k' bs' B' E1 E2|k' i' b' B' D' E1 E2|k' i' b' B' D' E1 E2|k' i' b' m' B' M' E1 E2|k' i' b' B' M' E1 E2|k' bs' B' E1 E2].
    - exfalso. apply (join_not_plain (num (S (S k)))). rewrite <- E1. apply num_plain.
    - exfalso. apply (join_not_plain (num (S (S k)))). rewrite <- E1. apply num_plain.
    - exfalso. apply split_join in E1. auto.
    - exfalso. apply split_join in E1. auto.
    - exfalso. apply (join_not_plain (num (S (S k)))). rewrite <- E1. apply row_plain. eapply letter_of; eauto.
    - exfalso. apply (join_not_plain (num (S (S k)))). rewrite <- E1. apply row_plain. eapply letter_of; eauto.
    - apply join_inj, num_inj in E1. congruence.
  Qed.
  Lemma opt_gateways : forall g, gateway_of rows g <-> exists k bs, block_no ps k bs /\ (g = split_of (num k) \/ g = join_of (num (S (S k)))).
  Proof.
    intros g. rewrite (gateways_iff qs (fill_flat ps Op) fill_few rows Ord On_top On_row). split; intros [k [bs [B G]]].
    - apply fill_block in B. destruct B as [bs0 [B _]]. eauto 6.
    - exists k, (map fill_branch bs). split; auto. apply fill_block. eauto.
  Qed.
  Lemma passed_iff : forall g, passed rows g <-> exists k bs, block_no ps k bs /\ lone bs /\ g = join_of (num (S (S k))).
  Proof.
    intros g. unfold passed. rewrite opt_gateways. split.
    - intros [[k [bs [B [-> | ->]]]] [In1 Out1]].
      + exfalso. pose proof B as [g' [j B']]. pose proof (proj1 Op _ (nth_error_In _ _ B')) as [[i [i' [b [b' [Ne [H [H' [E E']]]]]]]] _].
        assert (X : branch_no ps k i b) by (exists bs; auto). assert (X' : branch_no ps k i' b') by (exists bs; auto).
        pose proof (letter_of _ _ _ X) as Li. pose proof (letter_of _ _ _ X') as Li'.
        assert (W : forall i b, branch_no ps k i b -> exists y, way rows (split_of (num k)) y /\
          ((direct b /\ y = num (S (S k))) \/ (~ direct b /\ y = row_label (S k) i 1))).
        { intros i0 b0 B0. destruct (direct_dec b0) as [D|D]; eexists; (split; [apply way_iff|]);
            [eapply ow_direct; eauto|left; eauto|eapply ow_branch; eauto|right; eauto]. }
        destruct (W _ _ X) as [y [Wy Cy]], (W _ _ X') as [y' [Wy' Cy']]. pose proof (Out1 _ _ Wy Wy') as Y.
        destruct Cy as [[D ->]|[D ->]], Cy' as [[D' ->]|[D' ->]].
        * apply Ne. eapply direct_unique; eauto.
        * unfold row_label in Y. revert Y. apply top_not_row. auto.
        * symmetry in Y. unfold row_label in Y. revert Y. apply top_not_row. auto.
        * apply row_inj in Y; auto. tauto.
      + exists k, bs. split; auto. split; auto. intros i i' b b' H H' M M'.
        assert (X : branch_no ps k i b) by (exists bs; auto). assert (X' : branch_no ps k i' b') by (exists bs; auto).
        assert (Y : row_label (S k) i (branch_rows b) = row_label (S k) i' (branch_rows b')) by (apply In1; apply way_iff, ow_meet; auto).
        apply row_inj in Y; [tauto|eapply letter_of; eauto|eapply letter_of; eauto].
    - intros [k [bs [B [L ->]]]]. split; [eauto 6|]. split.
      + intros x y Hx Hy. apply way_iff, in_join in Hx. apply way_iff, in_join in Hy.
        destruct Hx as [i [b [[bs1 [B1 H1]] [M1 ->]]]], Hy as [i' [b' [[bs2 [B2 H2]] [M2 ->]]]].
        rewrite (block_no_fun ps _ _ _ B1 B) in H1. rewrite (block_no_fun ps _ _ _ B2 B) in H2.
        pose proof (L _ _ _ _ H1 H2 M1 M2) as ->. congruence.
      + intros x y Hx Hy. apply way_iff, out_join in Hx. apply way_iff, out_join in Hy. congruence.
  Qed.

  Lemma join_here : forall k bs, block_no ps k bs -> forall k' bs', block_no ps k' bs' -> join_of (num (S (S k))) = join_of (num (S (S k'))) -> bs = bs'.
  Proof.
    intros k bs B k' bs' B' E. apply join_inj, num_inj in E. assert (k = k') by lia. subst. eapply block_no_fun; eauto.
  Qed.
  Lemma not_passed_plain : forall n, plain n -> ~ passed rows n.
  Proof. intros n P H. apply passed_iff in H. destruct H as [k [bs [_ [_ ->]]]]. eapply join_not_plain; eauto. Qed.
  Lemma not_passed_split : forall o, ~ passed rows (split_of o).
  Proof. intros o H. apply passed_iff in H. destruct H as [k [bs [_ [_ H]]]]. eapply split_join; eauto. Qed.
  Lemma passed_join : forall k bs, block_no ps k bs -> (passed rows (join_of (num (S (S k)))) <-> lone bs).
  Proof.
    intros k bs B. rewrite passed_iff. split.
    - intros [k' [bs' [B' [L E]]]]. rewrite (join_here _ _ B _ _ B' E). auto.
    - intros L. eauto 6.
  Qed.
  Lemma opt_nodes : forall n, goto_node rows n <-> optional_node ps n.
  Proof.
    intros n. unfold goto_node, optional_node. rewrite Ord, opt_gateways. split.
    - intros [[[[k [T ->]]|[k [i [m [[b' [B M]] ->]]]]]|[k [bs [B [-> | ->]]]]] [Ng Np]].
      + left. exists k. split; auto. exact (proj1 (fill_top ps k) T).
      + right. left. apply fill_at in B. destruct B as [b [B ->]]. destruct (direct_dec b) as [D|D].
        { exfalso. apply Ng. rewrite (fill_direct b D) in M. cbn in M. apply (go_row k i b m B). split; auto. lia. }
        rewrite (rows_fill b D) in M. exists k, i, b, m. auto.
      + right. right. left. eauto.
      + right. right. right. exists k, bs. split; auto. split; auto. intros L. apply Np. apply (passed_join k bs B). auto.
    - intros [[k [T ->]]|[[k [i [b [m [B [M ->]]]]]]|[[k [bs [B ->]]]|[k [bs [B [L ->]]]]]]].
      + split; [left; left; exists k; split; auto; exact (proj2 (fill_top ps k) T)|]. split; [apply go_top|apply not_passed_plain, num_plain].
      + assert (D : ~ direct b) by (intros ->; cbn in M; lia). split.
        { left. right. exists k, i, m. split; auto. exists (fill_branch b). split; [apply fill_at; eauto|]. rewrite (rows_fill b D). auto. }
        split; [intros G; apply (go_row k i b m B) in G; tauto|apply not_passed_plain, row_plain; eapply letter_of; eauto].
      + split; [right; eauto 6|]. split; [apply go_split|apply not_passed_split].
      + split; [right; eauto 6|]. split; [apply go_join|]. intros P. apply L. apply (passed_join k bs B). auto.
  Qed.
  Lemma opt_flows : forall x y, goto_flow rows x y <-> optional_flow ps x y.
  Proof.
    intros x y. unfold goto_flow, step_to. split.
    - intros [Nx [Ny [W|[g [P [W1 W2]]]]]].
      + apply way_iff in W. destruct W as [k L T T'|k bs B|k i b B D|k i b B D|k i b m B M|k i b B M|k bs B].
        * apply op_next; auto.
        * eapply op_split; eauto.
        * eapply op_branch; eauto.
        * eapply op_direct; eauto.
        * eapply op_inner; eauto.
        * destruct B as [bs [B H]]. eapply op_meet; eauto. intros L. apply Ny. apply (passed_join k bs B). auto.
        * eapply op_join; eauto. intros L. apply Nx. apply (passed_join k bs B). auto.
      + apply passed_iff in P. destruct P as [k [bs [B [L ->]]]]. apply way_iff, in_join in W1. apply way_iff, out_join in W2. subst y.
        destruct W1 as [i [b [[bs' [B' H]] [M ->]]]]. rewrite (block_no_fun ps _ _ _ B' B) in H. exact (op_lone ps k i b bs B H M L).
    - assert (Pn : forall k, ~ passed rows (num k)) by (intros; apply not_passed_plain, num_plain).
      assert (Pr : forall k i b m, branch_no ps k i b -> ~ passed rows (row_label (S k) i m)) by (intros; apply not_passed_plain, row_plain; eapply letter_of; eauto).
      assert (Pj : forall k bs, block_no ps k bs -> ~ lone bs -> ~ passed rows (join_of (num (S (S k))))) by (intros k bs B L P; apply L; apply (passed_join k bs B); auto).
      intros [k L T T'|k bs B|k i b B D|k i b B D|k i b m B M|k i b bs B H M L|k bs B L|k i b bs B H M L].
      + split; auto. split; auto. left. apply way_iff, ow_next; auto.
      + split; auto. split; [apply not_passed_split|]. left. eapply way_iff, ow_split; eauto.
      + split; [apply not_passed_split|]. split; [eauto|]. left. eapply way_iff, ow_branch; eauto.
      + split; [apply not_passed_split|]. split; [eauto|]. left. eapply way_iff, ow_direct; eauto.
      + split; [eauto|]. split; [eauto|]. left. eapply way_iff, ow_inner; eauto.
      + assert (X : branch_no ps k i b) by (exists bs; auto). split; [eauto|]. split; [eauto|]. left. apply way_iff, ow_meet; auto.
      + split; [eauto|]. split; [eauto|]. left. eapply way_iff, ow_join; eauto.
      + assert (X : branch_no ps k i b) by (exists bs; auto). split; [eauto|]. split; [eauto|]. right. exists (join_of (num (S (S k)))).
        split; [apply (passed_join k bs B); auto|]. split; apply way_iff; [apply ow_meet; auto|eapply ow_join; eauto].
  Qed.
  Lemma opt_followed_1 : forall o r, In (o, r) rows -> goto_row r ->
    (exists t, second_word (r_activity r) t) /\ (exists x, raw_flow rows x o) /\ exists y, raw_flow rows o y.
  Proof.
    intros o r I G. assert (X : goto_order rows o) by (exists r; auto). apply Go in X. destruct X as [k [i [b [B [D ->]]]]].
    split; [exists (num (S (S k))); eapply Goal; eauto|]. split; [exists (split_of (num k)); apply (into_go _ k i b B D); auto|].
    exists (join_of (num (S (S k)))). apply raw.
    apply (ff_meet qs k i ([Act ""], None)); auto. apply fill_at. exists b. split; auto. symmetry. apply fill_direct. auto.
  Qed.
  Lemma opt_followed_2 : forall g, passed rows g -> exists x y, way rows x g /\ way rows g y /\ x <> y.
  Proof.
    intros g P. apply passed_iff in P. destruct P as [k [bs [B [L ->]]]]. pose proof B as [g' [j B']].
    pose proof (proj1 Op _ (nth_error_In _ _ B')) as [_ [[b [Ib M]] _]]. apply In_nth_error in Ib. destruct Ib as [i Hi].
    assert (X : branch_no ps k i b) by (exists bs; auto).
    exists (row_label (S k) i (branch_rows b)), (num (S (S k))). split; [apply way_iff, ow_meet; auto|]. split; [eapply way_iff, ow_join; eauto|].
    intros E. symmetry in E. unfold row_label in E. revert E. apply top_not_row. eapply letter_of; eauto.
  Qed.
  (** No two flows go back and forth. *)
  Definition place (n : string) (p : nat * (nat * nat)) : Prop :=
    (exists k, n = num k /\ p = (k, (0, 0))) \/ (exists k, n = split_of (num k) /\ p = (k, (1, 0))) \/
    (exists k i m, i < 26 /\ n = row_label (S k) i m /\ p = (k, (2, m))) \/ (exists k, n = join_of (num (S (S k))) /\ p = (k, (3, 0))).
  Lemma place_fun : forall n p q, place n p -> place n q -> p = q.
  Proof.
    intros n p q [[k [E P]]|[[k [E P]]|[[k [i [m [Li [E P]]]]]|[k [E P]]]]] [[k' [E' Q]]|[[k' [E' Q]]|[[k' [i' [m' [Li' [E' Q]]]]]|[k' [E' Q]]]]]; subst p q; rewrite E in E'.
    - apply num_inj in E'. congruence.
    - exfalso. eapply split_not_plain. rewrite <- E'. apply num_plain.
    - exfalso. revert E'. apply top_not_row. auto.
    - exfalso. eapply join_not_plain. rewrite <- E'. apply num_plain.
    - exfalso. eapply split_not_plain. rewrite E'. apply num_plain.
    - apply split_inj, num_inj in E'. congruence.
    - exfalso. eapply split_not_plain. rewrite E'. apply row_plain. auto.
    - exfalso. eapply split_join; eauto.
    - exfalso. symmetry in E'. revert E'. apply top_not_row. auto.
    - exfalso. eapply split_not_plain. rewrite <- E'. apply row_plain. auto.
    - apply row_inj in E'; auto. destruct E' as [E1 [_ E2]]. injection E1 as ->. congruence.
    - exfalso. eapply join_not_plain. rewrite <- E'. apply row_plain. auto.
    - exfalso. eapply join_not_plain. rewrite E'. apply num_plain.
    - exfalso. eapply split_join. symmetry. eauto.
    - exfalso. eapply join_not_plain. rewrite E'. apply row_plain. auto.
    - apply join_inj, num_inj in E'. injection E' as ->. congruence.
  Qed.
  Definition before (p q : nat * (nat * nat)) : Prop :=
    fst p < fst q \/ (fst p = fst q /\ (fst (snd p) < fst (snd q) \/ (fst (snd p) = fst (snd q) /\ snd (snd p) < snd (snd q)))).
  Lemma way_before : forall x y, opt_way x y -> exists p q, place x p /\ place y q /\ before p q.
  Proof.
    unfold place, before. intros x y [k L T T'|k bs B|k i b B D|k i b B D|k i b m B M|k i b B M|k bs B];
      try (pose proof (letter_of _ _ _ B)).
    - exists (k, (0, 0)), (S k, (0, 0)). split; [left; eauto|]. split; [left; eauto|]. cbn; lia.
    - exists (k, (0, 0)), (k, (1, 0)). split; [left; eauto|]. split; [right; left; eauto|]. cbn; lia.
    - exists (k, (1, 0)), (k, (2, 1)). split; [right; left; eauto|]. split; [right; right; left; eauto 6|]. cbn; lia.
    - exists (k, (1, 0)), (S (S k), (0, 0)). split; [right; left; eauto|]. split; [left; eauto|]. cbn; lia.
    - exists (k, (2, S m)), (k, (2, S (S m))). split; [right; right; left; eauto 6|]. split; [right; right; left; eauto 6|]. cbn; lia.
    - exists (k, (2, branch_rows b)), (k, (3, 0)). split; [right; right; left; eauto 6|]. split; [right; right; right; eauto|]. cbn; lia.
    - exists (k, (3, 0)), (S (S k), (0, 0)). split; [right; right; right; eauto|]. split; [left; eauto|]. cbn; lia.
  Qed.
  Lemma step_before : forall x y, step_to rows x y -> exists p q, place x p /\ place y q /\ before p q.
  Proof.
    intros x y [W|[g [_ [W1 W2]]]]; [apply way_before, way_iff; auto|].
    apply way_iff, way_before in W1. apply way_iff, way_before in W2. destruct W1 as [p [q [P [Q B]]]], W2 as [q' [r [Q' [R B']]]].
    rewrite (place_fun _ _ _ Q' Q) in B'. exists p, r. split; auto. split; auto. unfold before in *. lia.
  Qed.
  Lemma opt_one_way : one_way rows.
  Proof.
    intros x y H H'. apply step_before in H. apply step_before in H'. destruct H as [p [q [P [Q B]]]], H' as [q' [p' [Q' [P' B']]]].
    rewrite (place_fun _ _ _ Q' Q), (place_fun _ _ _ P' P) in B'. unfold before in *. lia.
  Qed.
  Lemma opt_connectable : forall o, In o (orders rows) -> onward rows o -> (exists m, follows rows o m) \/ opens rows o \/
    exists m, closes rows o m /\ (forall m', closes rows o m' -> m' = m) /\ (2 <= value m)%Z.
  Proof. exact (all_connectable qs (fill_flat ps Op) fill_few rows Ord On_top). Qed.
End Table.
