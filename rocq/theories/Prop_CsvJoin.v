(** CSV import: the kind of the gateway where branches meet (C88).
    Each theorem is followed by a concrete case of its hypotheses. *)
From Coq Require Import String Ascii List Bool Arith ZArith Lia Permutation.
From Verif Require Import Py PyFacts Consts Nx NxFacts Rep SpecRep RepFacts.
From Verif Require Import CsvRegex CsvImport SpecCsv RegexFacts CsvFacts CsvTable SpecFlow SpecGoto SpecJoin CsvGhost CsvFill CsvLast CsvTotal.
From Verif Require Import GotoFacts CsvGoto CsvJump CsvJoin Prop_CsvRows Prop_CsvImport Prop_CsvGoto.
Import ListNotations.
Open Scope string_scope.
Open Scope list_scope.

Lemma free_neat : forall table, goto_free table -> neat_jumps (rows_of table).
Proof.
  intros table GF.
  assert (X : forall o r, In (o, r) (rows_of table) -> ~ goto_row r).
  { intros o r H C. apply is_goto_spec in C. rewrite (free_rows table GF o r H) in C. discriminate. }
  constructor.
  - intros o r t H C. exfalso. eapply X; eauto.
  - intros o x y [r [H C]]. exfalso. eapply X; eauto.
  - intros x o _ [r [H C]]. exfalso. eapply X; eauto.
  - intros o x t [r [H [C _]]]. exfalso. eapply X; eauto.
  - intros o o' x t [r [H [C _]]]. exfalso. eapply X; eauto.
Qed.

Lemma table_joined : forall table d d', fresh d -> documented table -> neat_jumps (rows_of table) ->
  load_diagram_from_csv table d = (d', Ok tt) ->
  forall o m, merges (rows_of table) o m -> is_node d' (join_of m) ->
  exists ty, attr d' (join_of m) "type" = Some (VStr ty) /\ joined_kind (rows_of table) (orders (rows_of table)) m ty.
Proof.
  intros table d d' F [N D] NJ H. pose proof (joined_import table d d' F) as X.
  rewrite (rows_cleaned table N) in X. apply X; auto. split; auto.
Qed.

Lemma split_at : forall (l l1 l2 : list string) o l1' l2', NoDup l -> l = l1 ++ o :: l2 -> l = l1' ++ o :: l2' -> l1 = l1'.
Proof.
  intros l l1 l2 o l1' l2' N E. subst l. revert l1' N. induction l1 as [|a l1 IH]; intros [|b l1'] N E; auto.
  - inv E. exfalso. inversion N as [|? ? Q]; subst. apply Q, in_app_iff. right. left. auto.
  - inv E. exfalso. inversion N as [|? ? Q]; subst. apply Q, in_app_iff. right. left. auto.
  - cbn [app] in *. inversion E as [[E1 E2]]. subst b. f_equal. inversion N; subst. apply IH; auto.
Qed.

Lemma opener_first : forall rows l1 o l2 m s, NoDup (orders rows) -> orders rows = l1 ++ o :: l2 -> merges rows o m ->
  (forall x, In x l1 -> ~ merges rows x m) -> s = zstr (value m - 2) ->
  (opener rows m s <-> In s l1 /\ splits rows s).
Proof.
  intros rows l1 o l2 m s N E M F Es. split.
  - intros [_ [S P]]. split; auto. destruct (P o M) as [a [b [E' I]]]. rewrite (split_at _ _ _ _ _ _ N E E'). auto.
  - intros [I S]. split; auto. split; auto. intros o' M'.
    assert (H : In o' (orders rows)) by (apply onward_in, M'). rewrite E in H. apply in_app_iff in H.
    destruct H as [H|[<- |H]]; [exfalso; eapply F; eauto|exists l1, l2; auto|].
    apply in_split in H. destruct H as [a [b ->]]. exists (l1 ++ o :: a), b. rewrite E, <- app_assoc. split; auto.
    apply in_app_iff. auto.
Qed.

Lemma join_cases : forall table d d', fresh d -> documented table -> neat_jumps (rows_of table) ->
  load_diagram_from_csv table d = (d', Ok tt) ->
  let rows := rows_of table in
  forall o m, merges rows o m -> is_node d' (join_of m) ->
  exists ty, attr d' (join_of m) "type" = Some (VStr ty) /\
    ((exists s, opener rows m s /\ get_gateway_type s (orders rows) rows = Ok ty) \/
     ((forall s, ~ opener rows m s) /\ ty = "inclusiveGateway")).
Proof.
  intros table d d' F D NJ H rows o m M Hn.
  destruct (table_joined _ _ _ F D NJ H o m M Hn) as [ty [A [l1 [o1 [l2 [E [M1 [F1 Q]]]]]]]]. fold rows in E, M1, F1, Q.
  exists ty. split; auto. cbv zeta in Q.
  pose proof (opener_first rows l1 o1 l2 m (zstr (value m - 2)) (proj1 D) E M1 F1 eq_refl) as O.
  destruct Q as [[Q1 [Q2 Q3]]|[Q1 Q2]].
  - left. exists (zstr (value m - 2)). split; auto. apply O. auto.
  - right. split; auto. intros s Hs. pose proof Hs as [-> _]. apply Q1, O, Hs.
Qed.

(** * C88 *)
(** The gateway where branches meet has the kind of the gateway that opened them. *)
Theorem C88_like_its_split : forall table d d', fresh d -> documented table -> neat_jumps (rows_of table) ->
  load_diagram_from_csv table d = (d', Ok tt) ->
  forall o m s, merges (rows_of table) o m -> is_node d' (join_of m) -> opener (rows_of table) m s ->
  is_node d' (split_of s) ->
  attr d' (join_of m) "type" = attr d' (split_of s) "type" /\
  exists t, attr d' (split_of s) "type" = Some (VStr t) /\ In t ["exclusiveGateway"; "parallelGateway"; "inclusiveGateway"].
Proof.
  intros table d d' F D NJ H o m s M Hn O Hs.
  destruct (join_cases _ _ _ F D NJ H o m M Hn) as [ty [A [[s' [O' T]]|[C _]]]]; [|exfalso; eapply C; eauto].
  assert (s' = s) by (destruct O as [-> _], O' as [-> _]; auto). subst s'.
  destruct (table_rerouted _ _ _ F D NJ H) as [L R].
  destruct (re_split _ _ _ _ R s (proj1 (proj2 O))) as [t [T' A']]; [apply R; auto|].
  rewrite T in T'. injection T' as <-. split; [congruence|]. exists ty. split; auto.
  apply gateway_type_three in T. destruct T as [-> |[-> | ->]]; simpl; auto.
Qed.

(** Also when the opening gateway is left out, the conditions of the branches decide. *)
Theorem C88_kind : forall table d d', fresh d -> documented table -> neat_jumps (rows_of table) ->
  load_diagram_from_csv table d = (d', Ok tt) ->
  let rows := rows_of table in
  forall o m s bs conds, merges rows o m -> is_node d' (join_of m) -> opener rows m s ->
  chosen (branch rows s) (orders rows) bs ->
  Forall2 (fun b c => exists r, In (b, r) rows /\ trimmed (r_condition r) c) bs conds ->
  exists t, attr d' (join_of m) "type" = Some (VStr t) /\
    (t = "exclusiveGateway" <-> decision conds) /\
    (t = "parallelGateway" <-> ~ decision conds /\ forall c, In c conds -> c = "") /\
    (t = "inclusiveGateway" <-> ~ decision conds /\ exists c, In c conds /\ c <> "").
Proof.
  intros table d d' F D NJ H rows o m s bs conds M Hn O [f [Hf ->]] C.
  destruct (join_cases _ _ _ F D NJ H o m M Hn) as [ty [A [[s' [O' T]]|[Q _]]]]; [|exfalso; eapply Q; eauto].
  assert (s' = s) by (destruct O as [-> _], O' as [-> _]; auto). subst s'. fold rows in T.
  exists ty. split; auto. pose proof (proj1 (proj2 O)) as S.
  assert (Ho : In s (orders rows)) by (apply onward_in, S).
  assert (Gr : good_rows rows) by exact D.
  destruct (gateway_type_total rows s Gr Ho) as [ty' [succs [E' Es]]]; [apply S|].
  destruct (branches_found rows s succs (good_plain _ _ Gr Ho) Es) as [Br _].
  assert (X : succs = filter f (orders rows)).
  { assert (P := S). destruct P as [_ [_ [p [n [N _]]]]].
    rewrite (all_split_numbered _ _ _ (orders rows) N) in Es.
    2: { intros c Hc. apply plain_special. apply (numbered_plain _ _ _ N (good_plain _ _ Gr Ho)). exact Hc. }
    inv Es. apply filter_ext_in'. intros x Hx. specialize (Br x). rewrite filter_In in Br. specialize (Hf x).
    destruct (is_branch (p ++ zstr (value n + 1)) x), (f x); intuition congruence. }
  rewrite X in Es.
  assert (K : get_gateway_type s (orders rows) rows = Ok (gateway_kind conds)).
  { eapply gateway_type_ok; [exact Es|]. clear - C Gr. induction C as [|b c bs cs [r [Hr T]] C IH]; constructor; auto.
    exists r. split; auto. apply In_dget; auto. apply Gr. }
  rewrite T in K. inv K. apply gateway_kind_spec.
Qed.

(** Without such a row the gateway is inclusive. *)
Theorem C88_otherwise : forall table d d', fresh d -> documented table -> neat_jumps (rows_of table) ->
  load_diagram_from_csv table d = (d', Ok tt) ->
  forall o m, merges (rows_of table) o m -> is_node d' (join_of m) -> (forall s, ~ opener (rows_of table) m s) ->
  attr d' (join_of m) "type" = Some (VStr "inclusiveGateway").
Proof.
  intros table d d' F D NJ H o m M Hn O.
  destruct (join_cases _ _ _ F D NJ H o m M Hn) as [ty [A [[s [O' _]]|[_ ->]]]]; auto. exfalso. eapply O; eauto.
Qed.

(** * Examples *)
Lemma raw_merges : forall rows o m, good_rows rows -> raw_flow rows o (join_of m) -> merges rows o m.
Proof.
  intros rows o m G H.
  assert (X : forall x, In x (orders rows) -> x <> join_of m).
  { intros x Hx Ex. apply (join_not_plain m). rewrite <- Ex. eapply good_plain; eauto. }
  remember (join_of m) as j eqn:E. revert E X. destruct H as [a b Q|a Q|a b Q Q'|a b Q|a b Q].
  - intros E X. exfalso. eapply X; [|reflexivity]. eapply follows_in. apply Q.
  - intros E X. exfalso. eapply split_join. exact E.
  - intros E X. exfalso. eapply X; [|reflexivity]. eapply branch_in. exact Q'.
  - intros E X. apply join_inj in E. subst. exact Q.
  - intros E X. exfalso. eapply X; [|reflexivity]. destruct Q as [_ [_ [_ [l [k [q [c [_ [_ [_ Q]]]]]]]]]]. exact Q.
Qed.
Lemma raw_splits : forall rows o, good_rows rows -> In o (orders rows) -> raw_flow rows o (split_of o) -> splits rows o.
Proof.
  intros rows o G Ho H. rewrite <- raw_by_all in H. apply row_source in H; [|eapply good_plain; eauto].
  destruct H as [_ [[_ H]|[[H _]|[m [_ E]]]]]; auto.
  - exfalso. apply (split_not_plain o). eapply good_plain; eauto. eapply follows_in. exact H.
  - exfalso. eapply split_join. exact E.
Qed.
Fixpoint before_b (l : list string) (a b : string) : bool :=
  match l with
  | [] => false
  | x :: l' => if String.eqb x a then smem b l' else before_b l' a b
  end.
Lemma before_b_ok : forall l a b, before_b l a b = true -> precedes l a b.
Proof.
  induction l as [|x l IH]; intros a b H; [discriminate|]. cbn [before_b] in H. destruct (String.eqb_spec x a) as [-> |N].
  - apply smem_In in H. apply in_split in H. destruct H as [l1 [l2 ->]]. exists (a :: l1), l2. split; auto. left. auto.
  - destruct (IH _ _ H) as [l1 [l2 [-> I]]]. exists (x :: l1), l2. split; auto. right. auto.
Qed.
Definition opener_b (rows : dict row) (m s : string) : bool :=
  String.eqb s (zstr (value m - 2)) && smem s (orders rows) && pair_b (s, split_of s) (made_flows rows) &&
  forallb (fun p => if String.eqb (snd p) (join_of m) then before_b (orders rows) s (fst p) else true) (made_flows rows).
Lemma opener_ok : forall rows m s, good_rows rows -> snd (made rows) = Ok tt -> opener_b rows m s = true -> opener rows m s.
Proof.
  intros rows m s G O H. unfold opener_b in H. repeat (apply andb_true_iff in H; destruct H as [H ?]).
  apply String.eqb_eq in H. pose proof (made_ok rows G O) as R. split; auto. split.
  - apply raw_splits; [exact G|apply smem_In; auto|]. apply R, pair_b_ok. auto.
  - intros o M. rewrite forallb_forall in H0. specialize (H0 (o, join_of m)). cbn [fst snd] in H0. rewrite String.eqb_refl in H0.
    apply before_b_ok, H0, R, rf_join, M.
Qed.
Lemma merges_ok : forall rows o m, good_rows rows -> snd (made rows) = Ok tt ->
  pair_b (o, join_of m) (made_flows rows) = true -> merges rows o m.
Proof. intros rows o m G O H. apply raw_merges; auto. apply (made_ok rows G O), pair_b_ok, H. Qed.

(** A review that sends the text back and has two ways of publishing. *)
Definition paper : list (order_label * row) :=
  [rw "0" "begin" ""; rw "1" "write" ""; rw "2" "review" "";
   (OStr "3a1", mkRow "goto 1" "no" "" "" ""); (OStr "3b1", mkRow "format" "print" "" "" "");
   (OStr "3c1", mkRow "upload" "web" "" "" ""); rw "4" "archive" "";
   (OStr "5a", mkRow "tell" "" "" "" ""); (OStr "5b", mkRow "pay" "" "" "" ""); rw "6" "end" "yes"].
Definition paper_diagram : diagram := fst (load_diagram_from_csv paper empty_diagram).
Lemma paper_documented : documented paper.
Proof. apply check_documented; vm_compute; reflexivity. Qed.
Example C88_example : fresh empty_diagram /\ documented paper /\ neat_jumps (rows_of paper) /\
  load_diagram_from_csv paper empty_diagram = (paper_diagram, Ok tt) /\
  merges (rows_of paper) "3b1" "4" /\ is_node paper_diagram (join_of "4") /\ opener (rows_of paper) "4" "2" /\
  is_node paper_diagram (split_of "2") /\ attr paper_diagram (join_of "4") "type" = Some (VStr "inclusiveGateway") /\
  merges (rows_of paper) "5a" "6" /\ is_node paper_diagram (join_of "6") /\ opener (rows_of paper) "6" "4" /\
  is_node paper_diagram (split_of "4") /\ attr paper_diagram (join_of "6") "type" = Some (VStr "parallelGateway").
Proof.
  split; [split; reflexivity|]. split; [exact paper_documented|].
  split; [apply neat_b_ok; [exact paper_documented|vm_compute; reflexivity]|]. split; [vm_compute; reflexivity|].
  assert (M : forall o m, pair_b (o, join_of m) (made_flows (rows_of paper)) = true -> merges (rows_of paper) o m).
  { intros o m. apply merges_ok; [exact paper_documented|vm_compute; reflexivity]. }
  assert (O : forall m s, opener_b (rows_of paper) m s = true -> opener (rows_of paper) m s).
  { intros m s. apply opener_ok; [exact paper_documented|vm_compute; reflexivity]. }
  assert (N : forall x, smem x (node_keys paper_diagram) = true -> is_node paper_diagram x) by (intros x; apply smem_In).
  split; [apply M; vm_compute; reflexivity|]. split; [apply N; vm_compute; reflexivity|]. split; [apply O; vm_compute; reflexivity|].
  split; [apply N; vm_compute; reflexivity|]. split; [vm_compute; reflexivity|].
  split; [apply M; vm_compute; reflexivity|]. split; [apply N; vm_compute; reflexivity|]. split; [apply O; vm_compute; reflexivity|].
  split; [apply N; vm_compute; reflexivity|]. vm_compute. reflexivity.
Qed.
Lemma chosen_found : forall rows o bs, good_rows rows -> In o (orders rows) -> get_all_split_successors o (orders rows) = Ok bs ->
  bs = filter (fun x => smem x bs) (orders rows) -> chosen (branch rows o) (orders rows) bs.
Proof.
  intros rows o bs G Ho E F. destruct (branches_found rows o bs (good_plain _ _ G Ho) E) as [B _].
  exists (fun x => smem x bs). split; auto. intros x. rewrite <- B. apply smem_In.
Qed.
Example C88_kind_example : opener (rows_of paper) "4" "2" /\ chosen (branch (rows_of paper) "2") (orders (rows_of paper)) ["3a1"; "3b1"; "3c1"] /\
  Forall2 (fun b c => exists r, In (b, r) (rows_of paper) /\ trimmed (r_condition r) c) ["3a1"; "3b1"; "3c1"] ["no"; "print"; "web"].
Proof.
  destruct C88_example as [_ [_ [_ [_ [_ [_ [O _]]]]]]]. split; [exact O|]. split.
  - apply chosen_found; [exact paper_documented|apply smem_In; vm_compute; reflexivity|vm_compute; reflexivity|vm_compute; reflexivity].
  - assert (T : forall b c, (exists r, dget b (rows_of paper) = Some r /\ c = strip (r_condition r)) ->
      exists r, In (b, r) (rows_of paper) /\ trimmed (r_condition r) c).
    { intros b c [r [E ->]]. exists r. split; [apply dget_In; auto|apply strip_trimmed]. }
    constructor; [|constructor; [|constructor; [|constructor]]]; apply T; eexists; (split; vm_compute; reflexivity).
Qed.

(** The rows of the branches before the row that opens them. *)
Definition upside_down : list (order_label * row) :=
  [rw "0" "begin" ""; (OStr "2a", mkRow "pay" "yes" "" "" ""); (OStr "2b", mkRow "cancel" "no" "" "" "");
   rw "1" "check" ""; rw "3" "close" ""; rw "4" "end" "yes"].
Definition upside_diagram : diagram := fst (load_diagram_from_csv upside_down empty_diagram).
Definition flow_list (d : diagram) : flows_of := map (fun p => (fl_src (snd p), fl_tgt (snd p))) (seq_flows d).
Lemma listed_flows : forall d, distinct (dkeys (seq_flows d)) && forallb (fun p => String.eqb (fl_name (snd p)) (fst p)) (seq_flows d) = true ->
  forall s t, flow_between d s t <-> In (s, t) (flow_list d).
Proof.
  intros d H s t. apply andb_true_iff in H. destruct H as [N H]. apply distinct_ok in N. rewrite forallb_forall in H. split.
  - intros [f Hf]. apply dget_In in Hf. apply in_map_iff. exists (f, mkFlow f s t). auto.
  - intros I. apply in_map_iff in I. destruct I as [[f r] [E I]]. exists f. specialize (H _ I). cbn [fst snd] in *.
    apply String.eqb_eq in H. destruct r as [nm a b]. cbn [fl_name fl_src fl_tgt] in *. inv E. apply In_dget; auto.
Qed.
Lemma same_ends : forall (l : flows_of) j g, map fst (filter (into j) l) = map snd (filter (from g) l) ->
  forall x, In (x, j) l <-> In (g, x) l.
Proof.
  intros l j g E x. split; intros H.
  - assert (I : In x (map fst (filter (into j) l))).
    { apply in_map_iff. exists (x, j). split; auto. apply filter_In. split; auto. apply into_true. auto. }
    rewrite E in I. apply in_map_iff in I. destruct I as [[a b] [<- I]]. apply filter_In in I. destruct I as [I Q].
    apply from_true in Q. cbn [fst snd] in *. subst. exact I.
  - assert (I : In x (map snd (filter (from g) l))).
    { apply in_map_iff. exists (g, x). split; auto. apply filter_In. split; auto. apply from_true. auto. }
    rewrite <- E in I. apply in_map_iff in I. destruct I as [[a b] [<- I]]. apply filter_In in I. destruct I as [I Q].
    apply into_true in Q. cbn [fst snd] in *. subst. exact I.
Qed.
Theorem C88_any_order_refuted : exists table d' m s, documented table /\ goto_free table /\
  load_diagram_from_csv table empty_diagram = (d', Ok tt) /\
  (forall x, flow_between d' x (join_of m) <-> flow_between d' (split_of s) x) /\
  (exists x, flow_between d' x (join_of m)) /\
  attr d' (split_of s) "type" = Some (VStr "exclusiveGateway") /\ attr d' (join_of m) "type" = Some (VStr "inclusiveGateway").
Proof.
  exists upside_down, upside_diagram, "3", "1". split; [apply check_documented; vm_compute; reflexivity|].
  split; [apply check_goto_free; vm_compute; reflexivity|]. split; [vm_compute; reflexivity|].
  pose proof (listed_flows upside_diagram) as X. split.
  - intros x. rewrite !X by (vm_compute; reflexivity). apply same_ends. vm_compute. reflexivity.
  - split; [exists "2a"; rewrite X by (vm_compute; reflexivity); rewrite <- pair_b_ok; vm_compute; reflexivity|]. split; vm_compute; reflexivity.
Qed.
Print Assumptions C88_like_its_split.
Print Assumptions C88_kind.
Print Assumptions C88_otherwise.
Print Assumptions C88_any_order_refuted.
