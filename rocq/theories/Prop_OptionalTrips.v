(** Processes with optional steps taken through CSV any number of times (C115).
    Each theorem is followed by a concrete case of its hypotheses. *)
From Coq Require Import String Ascii List Bool Arith ZArith Lia Permutation.
From Verif Require Import Py PyFacts Consts Nx NxFacts Rep SpecRep RepFacts MetricsFacts SpecLayout.
From Verif Require Import CsvRegex CsvImport SpecCsv CsvExport SpecCsvExport CsvExportFacts.
From Verif Require Import SpecBlocks BlockExport SpecFlat SpecOptional SpecAgain SpecLoose OptionalAgain OptionalTidy SpecTrips.
From Verif Require Import Prop_CsvExport Prop_CsvBlocks Prop_CsvFlat Prop_CsvLayout Prop_CsvOptional Prop_CsvAgain Prop_Loose Prop_OptionalDraw Prop_OptionalAgain.
From Verif Require Import Prop_CsvImport SpecOptional SpecAgain.
Import ListNotations.
Open Scope string_scope.
Open Scope list_scope.

(** * The process of the second file *)
Lemma move_nth : forall ps k g j bs, nth_error (map move_direct ps) k = Some (Block g j bs) ->
  exists bs0, nth_error ps k = Some (Block g j bs0) /\ bs = direct_last bs0.
Proof.
  intros ps k g j bs H. rewrite nth_error_map in H. destruct (nth_error ps k) as [[n|g0 j0 bs0]|]; try discriminate. injection H as -> -> <-. eauto.
Qed.
Lemma move_direct_has : forall bs, has_direct (direct_last bs) = has_direct bs.
Proof.
  intros bs. apply eq_true_iff_eq. rewrite !has_direct_is. split; intros [i [b [H D]]]; apply nth_error_In in H; [apply (proj1 (direct_last_in b bs)) in H|apply (proj2 (direct_last_in b bs)) in H];
    apply In_nth_error in H; destruct H as [i' H]; eauto.
Qed.
(** Branches at different places stay apart. *)
Lemma filter_count : forall A (f : A -> bool) l, (forall i i' b b', nth_error l i = Some b -> nth_error l i' = Some b' -> f b = true -> f b' = true -> i = i') <-> length (filter f l) <= 1.
Proof.
  intros A f. induction l as [|x l [IH1 IH2]]; [split; [cbn; lia|intros _ [|i] i' b b' H; discriminate]|]. cbn [filter]. destruct (f x) eqn:E; split.
  - intros U. cbn [length]. enough (filter f l = []) as -> by auto. destruct (filter f l) as [|y t] eqn:Q; auto. assert (I : In y (filter f l)) by (rewrite Q; left; auto).
    apply filter_In in I. destruct I as [I Fy]. apply In_nth_error in I. destruct I as [i I]. pose proof (U 0 (S i) x y eq_refl I E Fy). discriminate.
  - cbn [length]. intros L i i' b b' H H' Fb Fb'. assert (Q : filter f l = []) by (destruct (filter f l); auto; cbn in L; lia).
    assert (N : forall k c, nth_error l k = Some c -> f c = true -> False).
    { intros k c Hk Fc. assert (I : In c (filter f l)) by (apply filter_In; split; auto; eapply nth_error_In; eauto). rewrite Q in I. destruct I. }
    destruct i as [|i], i' as [|i']; auto; exfalso; cbn [nth_error] in *; eauto.
  - intros U. apply IH1. intros i i' b b' H H' Fb Fb'. pose proof (U (S i) (S i') b b' H H' Fb Fb'). lia.
  - intros L i i' b b' H H' Fb Fb'. destruct i as [|i], i' as [|i']; cbn [nth_error] in *; auto; try (injection H as <-; congruence); try (injection H' as <-; congruence).
    f_equal. eapply IH2; eauto.
Qed.
Lemma direct_last_perm : forall bs, Permutation (direct_last bs) bs.
Proof.
  intros l. unfold direct_last. induction l as [|f l IH]; [constructor|]. cbn [filter]. destruct (is_direct f); cbn [negb].
  - apply Permutation_sym, Permutation_cons_app, Permutation_sym, IH.
  - cbn [app]. constructor. exact IH.
Qed.
Lemma perm_filter : forall A (f : A -> bool) l l', Permutation l l' -> length (filter f l) = length (filter f l').
Proof.
  intros A f l l' P. induction P as [|x l l' P IH|x y l|l l' l'' P IH P' IH']; auto; try congruence; cbn [filter].
  - destruct (f x); cbn [length]; auto.
  - destruct (f x), (f y); reflexivity.
Qed.
Definition works (b : branch_t) : bool := match b with (_ :: _, None) => true | _ => false end.
Lemma works_spec : forall b, works b = true <-> meets b.
Proof. intros [[|p l] [x|]]; unfold meets; cbn; split; intros H; try discriminate; auto; try (destruct H; discriminate); try (elim (proj2 H); auto). split; auto; discriminate. Qed.
Definition meeting (b : branch_t) : bool := match snd b with None => true | _ => false end.
Lemma two_meet_count : forall bs, two_meet bs <-> ~ length (filter meeting bs) <= 1.
Proof.
  assert (Sp : forall b, meeting b = true <-> snd b = None) by (intros [l [x|]]; cbn; split; auto; discriminate).
  intros bs. split.
  - intros [i [i' [b [b' [N [H [H' [M M']]]]]]]] L. apply N. eapply (proj2 (filter_count _ meeting bs) L); eauto; apply Sp; auto.
  - intros L. destruct (filter meeting bs) as [|x [|y t]] eqn:E; cbn in L; try lia. clear L.
    revert x y t E. induction bs as [|b bs IH]; intros x y t E; [discriminate|]. cbn [filter] in E. destruct (meeting b) eqn:Mb.
    + injection E as -> E. assert (I : In y (filter meeting bs)) by (rewrite E; left; auto). apply filter_In in I. destruct I as [I My]. apply In_nth_error in I.
      destruct I as [i I]. exists 0, (S i), x, y. split; auto. split; auto. split; auto. split; apply Sp; auto.
    + destruct (IH x y t E) as [i [i' [c [c' [N [H [H' Q]]]]]]]. exists (S i), (S i'), c, c'. split; [lia|]. auto.
Qed.
Lemma lone_count : forall bs, lone bs <-> length (filter works bs) <= 1.
Proof.
  intros bs. rewrite <- filter_count. unfold lone. split; intros U i i' b b' H H' M M'; apply (U i i' b b' H H'); apply works_spec; auto.
Qed.
Lemma move_optional_part : forall p, optional_part p -> optional_part (move_direct p).
Proof.
  intros [n|g j bs] H; [exact H|]. destruct H as [T [[b [B M]] [F U]]]. cbn [move_direct optional_part]. split; [|split; [|split]].
  - apply two_meet_count. rewrite (perm_filter _ meeting _ _ (direct_last_perm bs)). apply two_meet_count. exact T.
  - exists b. split; auto. apply direct_last_in. exact B.
  - intros c C. apply F. apply (proj1 (direct_last_in c bs)). exact C.
  - assert (L : length (filter is_direct (direct_last bs)) <= 1).
    { rewrite (perm_filter _ is_direct _ _ (direct_last_perm bs)). apply filter_count. intros i i' c c' Hc Hc' D D'. apply (U i i' c c' Hc Hc'); apply is_direct_spec; auto. }
    intros i i' c c' Hc Hc' D D'. apply (proj2 (filter_count _ is_direct _) L i i' c c' Hc Hc'); apply is_direct_spec; auto.
Qed.
Lemma move_optional : forall ps, optional ps -> optional (map move_direct ps).
Proof.
  intros ps [O N]. split.
  - intros p H. apply in_map_iff in H. destruct H as [q [<- H]]. apply move_optional_part. auto.
  - intros k p q H H' B. rewrite nth_error_map in H, H'. destruct (nth_error ps k) as [p0|] eqn:E; [|discriminate]. destruct (nth_error ps (S k)) as [q0|] eqn:E'; [|discriminate].
    injection H as <-. injection H' as <-. assert (B0 : is_block p0) by (destruct p0; [destruct B as [? [? [? ?]]]; discriminate|]; red; eauto).
    destruct (N k p0 q0 E E' B0) as [n ->]. exists n. reflexivity.
Qed.
Lemma move_single : forall ps, single_steps ps -> single_steps (map move_direct ps).
Proof.
  intros ps S k g j bs H D. destruct (move_nth ps k g j bs H) as [bs0 [E ->]]. rewrite move_direct_has in D. apply lone_count.
  rewrite (perm_filter _ works _ _ (direct_last_perm bs0)). apply lone_count. eapply S; eauto.
Qed.
Lemma move_followed : forall ps, steps_followed ps -> steps_followed (map move_direct ps).
Proof.
  intros ps S k g j bs H D. destruct (move_nth ps k g j bs H) as [bs0 [E ->]]. rewrite move_direct_has in D. rewrite map_length. eapply S; eauto.
Qed.
Lemma move_size : forall ps, size (map move_direct ps) = size ps.
Proof.
  intros ps. unfold size. rewrite map_map. f_equal. apply map_ext. intros [n|g j bs]; [reflexivity|]. cbn [move_direct part_size]. do 2 f_equal. apply direct_last_sum.
Qed.
Lemma move_twice : forall ps, map move_direct (map move_direct ps) = map move_direct ps.
Proof.
  intros ps. rewrite map_map. apply map_ext. intros [n|g j bs]; [reflexivity|]. cbn [move_direct]. f_equal. unfold direct_last. rewrite !filter_app.
  assert (E1 : forall l, filter is_direct (filter (fun b => negb (is_direct b)) l) = []) by (induction l as [|b l IH]; [reflexivity|]; cbn [filter]; destruct (is_direct b) eqn:Q; cbn [negb filter]; rewrite ?Q; auto).
  assert (E2 : forall l, filter (fun b => negb (is_direct b)) (filter is_direct l) = []) by (induction l as [|b l IH]; [reflexivity|]; cbn [filter]; destruct (is_direct b) eqn:Q; cbn [negb filter]; rewrite ?Q; auto).
  assert (E3 : forall (f : branch_t -> bool) l, filter f (filter f l) = filter f l) by (intros f; induction l as [|b l IH]; [reflexivity|]; cbn [filter]; destruct (f b) eqn:Q; cbn [filter]; rewrite ?Q, ?IH; auto).
  rewrite E1, E2, !E3, app_nil_r. reflexivity.
Qed.
Lemma move_texts : forall d s ps e, structured d s ps e -> texts_readable d s ps e -> texts_readable (tidy d) s (map move_direct ps) e.
Proof.
  intros d s ps e St [T _]. split.
  - assert (I : forall f n, (forall b, f b = part_acts b) \/ (forall b, f b = part_ends b) -> In n (flat_map f (map move_direct ps)) -> In n (flat_map f ps)).
    { intros f n Q H. apply in_flat_map in H. destruct H as [p [H N]]. apply in_map_iff in H. destruct H as [q [<- H]]. apply in_flat_map. exists q. split; auto.
      destruct Q as [Q|Q]; rewrite Q in *; destruct q as [m|g j bs]; auto; cbn [move_direct part_acts part_ends] in *; apply in_flat_map in N; destruct N as [b [B N]];
        apply (proj1 (direct_last_in b bs)) in B; apply in_flat_map; eauto. }
    intros n H. assert (H' : In n (s :: flat_map part_acts ps ++ flat_map part_ends ps ++ [e])).
    { destruct H as [H|H]; [left; auto|right]. apply in_app_or in H. apply in_or_app. destruct H as [H|H]; [left; apply I; auto|right]. apply in_app_or in H. apply in_or_app.
      destruct H as [H|H]; [left; apply I; auto|right; auto]. }
    destruct (end_dec d n) as [E|E].
    + unfold node_text. rewrite (proj1 (tidy_bare d n E)). apply readable_ok. reflexivity.
    + unfold node_text. rewrite tidy_names by auto. exact (T n H').
  - intros. rewrite tidy_flow_text. apply verbatim_nil.
Qed.

(** * C115 *)
(** The second file is the file of a structured process that has its direct flows last. *)
Lemma second_is_file : forall d s ps e fuel, structured d s ps e -> optional ps -> size ps + 1 < fuel ->
  export_process_to_csv fuel (tidy d) None = (Some (csv_text (csv_columns :: map kept_line (process_lines d s (map move_direct ps) e))), Ok tt).
Proof.
  intros d s ps e fuel St Op Fu. rewrite <- tidy_lines by auto. apply C81_lines; [apply tidy_structured; auto|]. rewrite move_size. exact Fu.
Qed.
(** Every trip from the first file on succeeds, and all give the same file. *)
Theorem C115_stable : forall d s ps e fuel text, structured d s ps e -> optional ps -> single_steps ps -> steps_followed ps ->
  texts_readable d s ps e -> size ps + 1 < fuel -> export_process_to_csv fuel d None = (Some text, Ok tt) ->
  exists second, (forall n, trips fuel (S n) text second) /\ (forall n t, trips fuel (S n) text t -> t = second).
Proof.
  assert (One : forall d s ps e fuel, structured d s ps e -> optional ps -> single_steps ps -> steps_followed ps -> texts_readable d s ps e -> size ps + 1 < fuel ->
    forall text, export_process_to_csv fuel d None = (Some text, Ok tt) ->
    let t2 := csv_text (csv_columns :: map kept_line (process_lines d s (map move_direct ps) e)) in trip fuel text t2 /\ forall t, trip fuel text t -> t = t2).
  { intros d s ps e fuel St Op Sg Sf Tx Fu text Ex t2. split.
    - destruct (C110_round_trip d s ps e fuel St Op Tx Fu) as [text' [Ex' [[table Rd] H]]]. assert (text' = text) by congruence. subst text'.
      destruct (H table empty_diagram Rd fresh_empty) as [d' [Ld _]]. exists table, d'. split; auto. split; auto.
      exact (C114_second_export d s ps e fuel text table d' St Op Sg Sf Tx Fu Ex Rd Ld).
    - intros t [table [d' [Rd [Ld E]]]]. pose proof (C114_second_export d s ps e fuel text table d' St Op Sg Sf Tx Fu Ex Rd Ld) as X. unfold t2. congruence. }
  intros d s ps e fuel text St Op Sg Sf Tx Fu Ex. destruct (One d s ps e fuel St Op Sg Sf Tx Fu text Ex) as [A1 A2]. cbv zeta in A1, A2.
  set (t2 := csv_text (csv_columns :: map kept_line (process_lines d s (map move_direct ps) e))) in *.
  assert (B : trip fuel t2 t2 /\ forall t, trip fuel t2 t -> t = t2).
  { assert (Fu' : size (map move_direct ps) + 1 < fuel) by (rewrite move_size; exact Fu).
    pose proof (One (tidy d) s (map move_direct ps) e fuel (tidy_structured d s ps e St Op) (move_optional ps Op) (move_single ps Sg) (move_followed ps Sf)
      (move_texts d s ps e St Tx) Fu' t2 (second_is_file d s ps e fuel St Op Fu)) as X. cbv zeta in X.
    rewrite move_twice, tidy_lines, map_map, (map_ext _ kept_line kept_twice) in X by auto. exact X. }
  destruct B as [B1 B2]. exists t2.
  assert (C1 : forall n, trips fuel n t2 t2) by (induction n as [|n IH]; [constructor|apply (trips_more fuel n t2 t2 t2); auto]).
  assert (C2 : forall n t, trips fuel n t2 t -> t = t2).
  { induction n as [|n IH]; intros t H; inversion H as [|n0 u t' t'' H1 H2]; subst; auto. apply B2 in H1. subst t'. auto. }
  split.
  - intros n. apply (trips_more fuel n text t2 t2); auto.
  - intros n t H. inversion H as [|n0 u t' t'' H1 H2]; subst. apply A2 in H1. subst t'. eapply C2; eauto.
Qed.
Lemma second_text_is : forall d s ps e fuel text n text', structured d s ps e -> optional ps -> single_steps ps -> steps_followed ps ->
  texts_readable d s ps e -> size ps + 1 < fuel -> export_process_to_csv fuel d None = (Some text, Ok tt) -> trips fuel (S n) text text' ->
  text' = csv_text (csv_columns :: map kept_line (process_lines d s (map move_direct ps) e)).
Proof.
  intros d s ps e fuel text n text' St Op Sg Sf Tx Fu Ex Tr. destruct (C115_stable d s ps e fuel text St Op Sg Sf Tx Fu Ex) as [t2 [H1 H2]]. rewrite (H2 n text' Tr). specialize (H1 0).
  inversion H1 as [|n0 u t' t'' [tb [d2 [R2 [L2 X2]]]] H0]; subst. inversion H0; subst.
  pose proof (C114_second_export d s ps e fuel text tb d2 St Op Sg Sf Tx Fu Ex R2 L2). congruence.
Qed.
(** Every diagram loaded from the second file on has the same shape: the numbers of the process with the direct flows last. *)
Theorem C115_later_shape : forall d s ps e fuel text n text' table d', structured d s ps e -> optional ps -> single_steps ps -> steps_followed ps ->
  texts_readable d s ps e -> size ps + 1 < fuel -> export_process_to_csv fuel d None = (Some text, Ok tt) ->
  trips fuel (S n) text text' -> reads text' table -> load_diagram_from_csv table empty_diagram = (d', Ok tt) ->
  let qs := map move_direct ps in
  (forall m, is_node d' m <-> optional_node qs m) /\ (forall x y, flow_between d' x y <-> optional_flow qs x y) /\
  loose_process d' "0" (reloaded 1 qs) (num (S (length ps))) /\
  (forall l, In l (flat_map part_ends (relabel 1 qs) ++ [num (S (length ps))]) -> typed d' l "endEvent" /\ named d' l "").
Proof.
  intros d s ps e fuel text n text' table d' St Op Sg Sf Tx Fu Ex Tr Rd Ld qs.
  pose proof (second_text_is d s ps e fuel text n text' St Op Sg Sf Tx Fu Ex Tr) as E2.
  assert (Fu' : size qs + 1 < fuel) by (unfold qs; rewrite move_size; exact Fu).
  pose proof (tidy_structured d s ps e St Op) as St'. pose proof (move_optional ps Op) as Op'. pose proof (move_texts d s ps e St Tx) as Tx'.
  pose proof (second_is_file d s ps e fuel St Op Fu) as Ex'. rewrite <- E2 in Ex'. fold qs in St', Op', Tx'.
  destruct (C110_round_trip (tidy d) s qs e fuel St' Op' Tx' Fu') as [t [Et [_ H]]]. assert (t = text') by congruence. subst t.
  destruct (H table empty_diagram Rd fresh_empty) as [d2 [L2 [Hn [Hf [_ [_ [_ He]]]]]]]. assert (d2 = d') by congruence. subst d2.
  assert (Lq : length qs = length ps) by apply map_length. rewrite Lq in He.
  split; auto. split; auto. split; auto. rewrite <- Lq.
  exact (C114_structure (tidy d) s qs e fuel text' table d' St' Op' (move_single ps Sg) (move_followed ps Sf) Tx' Fu' Ex' Rd Ld).
Qed.

(** * Example: the three optional steps *)
Definition step_second : string := csv_text (csv_columns :: map kept_line (process_lines step_demo "s" (map move_direct step_parts) "e")).
Definition step_again_table : list (order_label * row) := table_of (map kept_line (process_lines step_demo "s" (map move_direct step_parts) "e")).
Definition step_again : diagram := fst (load_diagram_from_csv step_again_table empty_diagram).
Lemma step_again_reads : reads step_second step_again_table.
Proof. apply table_reads; vm_compute; reflexivity. Qed.
Lemma step_first_trip : trip 40 (csv_text (csv_columns :: process_lines step_demo "s" step_parts "e")) step_second.
Proof.
  destruct step_demo_ok as [_ [_ [_ [_ [_ R]]]]]. exists step_table, step_loaded. split; [exact R|]. split; vm_compute; reflexivity.
Qed.
Example C115_stable_example : structured step_demo "s" step_parts "e" /\ optional step_parts /\ single_steps step_parts /\ steps_followed step_parts /\
  texts_readable step_demo "s" step_parts "e" /\ size step_parts + 1 < 40 /\
  export_process_to_csv 40 step_demo None = (Some (csv_text (csv_columns :: process_lines step_demo "s" step_parts "e")), Ok tt) /\
  trip 40 (csv_text (csv_columns :: process_lines step_demo "s" step_parts "e")) step_second /\ trip 40 step_second step_second.
Proof.
  destruct step_demo_ok as [S [T [L [_ [E _]]]]]. destruct step_parts_ok as [O [_ F]]. split; [exact S|]. split; [exact O|]. split; [exact step_single|]. split; [exact F|].
  split; [exact T|]. split; [exact L|]. split; [exact E|]. split; [exact step_first_trip|].
  exists step_again_table, step_again. split; [exact step_again_reads|]. split; vm_compute; reflexivity.
Qed.
Example C115_later_shape_example : trips 40 1 (csv_text (csv_columns :: process_lines step_demo "s" step_parts "e")) step_second /\
  reads step_second step_again_table /\ load_diagram_from_csv step_again_table empty_diagram = (step_again, Ok tt) /\
  map fst (gnodes (dgraph step_again)) = ["0"; "1"; "2a1"; "3"; "4a1"; "5"; "6a1"; "7"; "8"; "1_split"; "3_split"; "5_split"] /\
  reloaded 1 (map move_direct step_parts) = [Act "1"; Block "1_split" "3" [([Act "2a1"], None); ([], None)]; Act "3"; Block "3_split" "5" [([Act "4a1"], None); ([], None)]; Act "5";
    Block "5_split" "7" [([Act "6a1"], None); ([], None)]; Act "7"].
Proof.
  split; [eapply trips_more; [exact step_first_trip|constructor]|]. split; [exact step_again_reads|]. split; [vm_compute; reflexivity|]. split; vm_compute; reflexivity.
Qed.
(** The node of a step does not keep its number from the first to the second trip if the direct flow came before it. *)
Theorem C115_numbers_kept_refuted : exists d ps text table d' text' table' d'' n, structured d "s" ps "e" /\ optional ps /\ single_steps ps /\ steps_followed ps /\
  texts_readable d "s" ps "e" /\ export_process_to_csv 40 d None = (Some text, Ok tt) /\ reads text table /\ load_diagram_from_csv table empty_diagram = (d', Ok tt) /\
  export_process_to_csv 40 d' None = (Some text', Ok tt) /\ reads text' table' /\ load_diagram_from_csv table' empty_diagram = (d'', Ok tt) /\
  is_node d' n /\ ~ is_node d'' n.
Proof.
  destruct step_demo_ok as [S [T [_ [_ [E R]]]]]. destruct step_parts_ok as [O [_ F]].
  exists step_demo, step_parts, (csv_text (csv_columns :: process_lines step_demo "s" step_parts "e")), step_table, step_loaded, step_second, step_again_table, step_again, "4b1".
  split; [exact S|]. split; [exact O|]. split; [exact step_single|]. split; [exact F|]. split; [exact T|]. split; [exact E|]. split; [exact R|].
  split; [vm_compute; reflexivity|]. split; [vm_compute; reflexivity|]. split; [exact step_again_reads|]. split; [vm_compute; reflexivity|].
  split; [apply node_ok; vm_compute; reflexivity|]. unfold is_node. replace (map fst (gnodes (dgraph step_again))) with ["0"; "1"; "2a1"; "3"; "4a1"; "5"; "6a1"; "7"; "8"; "1_split"; "3_split"; "5_split"] by (vm_compute; reflexivity).
  cbn [In]. intuition discriminate.
Qed.
Print Assumptions C115_stable.
Print Assumptions C115_later_shape.
Print Assumptions C115_numbers_kept_refuted.
