(** C108: which diagrams the CSV exporter can finish. *)
From Coq Require Import String Ascii List Bool Arith ZArith Lia Permutation.
From Verif Require Import Py PyFacts Consts Nx NxFacts Rep SpecRep RepFacts MetricsFacts Classify SpecLayout ClassifyFacts.
From Verif Require Import CsvRegex CsvImport SpecCsv CsvFacts.
From Verif Require Import CsvExport SpecCsvExport CsvExportFacts CsvChain CsvOrders SpecExportEnds.
From Verif Require TopoFacts.
From Verif Require Import ApiSave Prop_LayoutMetrics Prop_Layout Prop_CsvExport.
Import ListNotations.
Open Scope string_scope.
Open Scope list_scope.

Section Ends.
  Variable d : diagram.
  Hypothesis Co : coherent d.
  Hypothesis AL : all_laid_out d.
  Hypothesis WN : well_named d.
  Hypothesis LB : labelled d.
  Let classes := map (fun c => (cid c, ccls c)) (classified d).
  Let L : listed d := proj1 Co.
  Variable rank : string -> nat.
  Definition falling : Prop := forall f n m, flow d f n m -> rank m < rank n.

  Definition found (m : string) (o : node_t) : Prop := fst o = m /\ is_node d m /\ get_node_by_id m d = Some o.
  Definition outcome (fuel : nat) (n : string) (r : eres) : Prop :=
    (exists rows nx, r = Ok (rows, nx) /\ Forall stringy rows /\
       (forall o, nx = Some o -> exists m, found m o /\ (falling -> rank m <= rank n))) \/
    (r = Err IndexError /\ ~ fit d) \/
    (r = Err OutOfFuel /\ ~ (falling /\ rank n < fuel)).

  Lemma outcome_step : forall fuel n m r, (falling -> rank m < rank n) -> outcome fuel m r -> outcome (S fuel) n r.
  Proof.
    intros fuel n m r F [[rows [nx [E [S H]]]]|[H|[E H]]].
    - left. exists rows, nx. split; auto. split; auto. intros o Ho. destruct (H o Ho) as [k [Fk R]]. exists k. split; auto.
      intros Fa. specialize (R Fa). specialize (F Fa). lia.
    - right. left. auto.
    - right. right. split; auto. intros [Fa Lt]. apply H. split; auto. specialize (F Fa). lia.
  Qed.

  Lemma target_found : forall n f, In f (outgoing_of d n) -> exists m am fa, flow d f n m /\ found m (m, am) /\
    flow_of d f = Ok fa /\ target_node d fa = Ok (Some (m, am)).
  Proof.
    intros n f Hf. destruct (star_target d Co n f Hf) as [m [am [fa [Fl [N [G [E T]]]]]]].
    exists m, am, fa. split; auto. split; [repeat split; auto|]. auto.
  Qed.

  (** The loop over the branches. *)
  Definition bstep (fuel : nat) (prefix : string) (order : Z) (ntype : pyval) (dflt : option pyval) (who : string)
      (st : list erow * option node_t * nat) (f : string) : res (list erow * option node_t * nat) :=
    let '(rs, next, i) := st in
    let* flow := flow_of d f in
    let* target := target_node d flow in
    let* suffix := ascii_lowercase i in
    let next_prefix := (prefix ++ zstr order ++ suffix)%string in
    let cond := branch_condition ntype flow in
    let* tid := match target with Some t => Ok (fst t) | None => Err TypeError end in
    let* tlabels := dgetE tid classes in
    if smem c_join tlabels then
      Ok (rs ++ [mkERow (next_prefix ++ "1")%string (VStr ("goto " ++ prefix ++ zstr (order + 1))) cond who "" ""], next, S i)
    else
      let* r := export_node fuel d classes target 1 next_prefix (if is_default f dflt then VStr "else" else cond) who false rs in
      Ok (fst r, match snd r with Some n => Some n | None => next end, S i).
  Definition branches (fuel : nat) (prefix : string) (order : Z) (ntype : pyval) (dflt : option pyval) (who : string)
      (outs : list string) (st : list erow * option node_t * nat) : res (list erow * option node_t * nat) :=
    rfold (bstep fuel prefix order ntype dflt who) outs st.

  Lemma branches_outcome : forall fuel n, is_node d n -> inner d n ->
    (forall m o order prefix c who aj rows, found m o -> Forall stringy rows ->
       outcome fuel m (export_node fuel d classes (Some o) order prefix (VStr c) who aj rows)) ->
    forall prefix order ntype dflt who outs rs nx i,
    (forall f, In f outs -> In f (outgoing_of d n)) -> i + length outs = length (outgoing_of d n) ->
    Forall stringy rs -> (forall o, nx = Some o -> exists m, found m o /\ (falling -> rank m < rank n)) ->
    (exists rs' nx' i', branches fuel prefix order ntype dflt who outs (rs, nx, i) = Ok (rs', nx', i') /\ Forall stringy rs' /\
       (forall o, nx' = Some o -> exists m, found m o /\ (falling -> rank m < rank n))) \/
    (branches fuel prefix order ntype dflt who outs (rs, nx, i) = Err IndexError /\ ~ fit d) \/
    (branches fuel prefix order ntype dflt who outs (rs, nx, i) = Err OutOfFuel /\ ~ (falling /\ rank n < S fuel)).
  Proof.
    intros fuel n Nn In_n IH prefix order ntype dflt who outs. unfold branches.
    induction outs as [|f outs IHo]; intros rs nx i Ho Hi Hr Hn; cbn [rfold].
    - left. exists rs, nx, i. auto.
    - cbn [length] in Hi.
      assert (St : (exists rs' nx', bstep fuel prefix order ntype dflt who (rs, nx, i) f = Ok (rs', nx', S i) /\ Forall stringy rs' /\
          (forall o, nx' = Some o -> exists m, found m o /\ (falling -> rank m < rank n))) \/
        (bstep fuel prefix order ntype dflt who (rs, nx, i) f = Err IndexError /\ ~ fit d) \/
        (bstep fuel prefix order ntype dflt who (rs, nx, i) f = Err OutOfFuel /\ ~ (falling /\ rank n < S fuel))).
      { destruct (target_found n f) as [m [am [fa [Fl [Fm [E1 E2]]]]]]; [apply Ho; left; auto|].
        destruct (star_condition d LB f fa ntype E1) as [c Ec].
        unfold bstep. rewrite E1. cbn [rbind]. rewrite E2. cbn [rbind]. rewrite Ec.
        unfold ascii_lowercase. destruct (Nat.ltb i 26) eqn:X.
        2:{ right. left. split; [reflexivity|]. intros [_ [_ Ft]]. specialize (Ft n Nn In_n). apply Nat.ltb_ge in X. lia. }
        cbn [rbind fst]. pose proof Fm as [_ [Nm Gm]].
        destruct (AL m Nm) as [t [T O]]. destruct (class_of d m t L T O) as [ls [Els [J _]]]. fold classes in Els.
        unfold dgetE. rewrite Els. cbn [rbind].
        assert (Rk : falling -> rank m < rank n) by (intros Fa; eapply Fa; eauto).
        destruct (smem c_join ls).
        { left. eexists. exists nx. split; [reflexivity|]. split; auto.
          apply Forall_app. split; auto. constructor; auto. apply stringy_mk. }
        assert (Cv : exists c', (if is_default f dflt then VStr "else" else VStr c) = VStr c') by (destruct (is_default f dflt); eauto).
        destruct Cv as [c' ->].
        destruct (IH m (m, am) 1%Z (prefix ++ zstr order ++ String (ascii_of_nat (97 + i)) "")%string c' who false rs Fm Hr)
          as [[rows [x [E [Sr Hx]]]]|[[E H]|[E H]]]; unfold node_t in *; rewrite E; cbn [rbind fst snd].
        - left. eexists. eexists. split; [reflexivity|]. split; auto.
          intros o Eo. destruct x as [o'|]; [inv Eo|eauto]. destruct (Hx o eq_refl) as [k [Fk R]]. exists k. split; auto.
          intros Fa. specialize (R Fa). specialize (Rk Fa). lia.
        - right. left. auto.
        - right. right. split; auto. intros [Fa Lt]. apply H. split; auto. specialize (Rk Fa). lia. }
      destruct St as [[rs' [nx' [E [Sr Hx]]]]|[[E H]|[E H]]]; rewrite E; cbn [rbind].
      + apply IHo; auto; [intros; apply Ho; right; auto|lia].
      + right. left. auto.
      + right. right. auto.
  Qed.

  Lemma export_outcome : forall fuel m o order prefix c who aj rows, found m o -> Forall stringy rows ->
    outcome fuel m (export_node fuel d classes (Some o) order prefix (VStr c) who aj rows).
  Proof.
    induction fuel as [|fuel IH]; intros n [n' a] order prefix c who aj rows [En [N G]] Hr.
    { right. right. split; [reflexivity|]. intros [_ X]. lia. }
    cbn [fst] in En. subst n'.
    destruct (node_entry d n L N) as [a' [G' [_ [At [_ Ho]]]]]. rewrite G in G'. injection G' as <-.
    destruct (AL n N) as [t [T O]]. destruct (WN n N) as [[nm Nm] Df].
    destruct (class_of d n t L T O) as [ls [Els [J Sl]]]. fold classes in Els.
    assert (Dt : dgetE k_type a = Ok (VStr t)) by (unfold dgetE; change k_type with "type"; rewrite <- At, T; reflexivity).
    assert (Dn : dgetE k_node_name a = Ok (VStr nm)) by (unfold dgetE; change k_node_name with "node_name"; rewrite <- At, Nm; reflexivity).
    assert (Do : dgetE k_outgoing a = Ok (VList (outgoing_of d n))) by (unfold dgetE; change k_outgoing with "outgoing"; rewrite Ho; reflexivity).
    assert (Dl : dgetE n classes = Ok ls) by (unfold dgetE; rewrite Els; reflexivity).
    cbn [export_node]. rewrite Dt. cbn [rbind veqs].
    destruct (String.eqb t t_start_event) eqn:X1.
    { apply String.eqb_eq in X1. subst t. destruct (start_activity_of d n a nm At T Nm Df) as [w [_ Ea]]. rewrite Ea. cbn [rbind].
      rewrite Do. cbn [rbind]. destruct (outgoing_of d n) as [|f fs] eqn:Eo; cbn [rbind].
      { right. left. split; auto. intros [Ft _]. apply (Ft n T Eo). }
      destruct (target_found n f) as [m [am [fa [Fl [Fm [E1 E2]]]]]]; [rewrite Eo; left; auto|].
      rewrite E1. cbn [rbind]. rewrite E2. cbn [rbind]. apply (outcome_step fuel n m); [intros Fa; eapply Fa; eauto|].
      apply IH; auto. apply Forall_app. split; auto. constructor; auto. apply stringy_mk. }
    destruct (String.eqb t t_end_event) eqn:X2.
    { apply String.eqb_eq in X2. subst t. destruct (end_activity_of d n a nm At T Nm Df) as [w [_ Ea]]. rewrite Ea. cbn [rbind].
      left. eexists. exists None. split; [reflexivity|]. split; [|discriminate].
      apply Forall_app. split; auto. constructor; auto. apply stringy_mk. }
    assert (In_n : inner d n).
    { unfold inner, typed. rewrite T. split; intro X; injection X as ->; discriminate. }
    rewrite Dl. cbn [rbind]. unfold outgoing_list. change k_outgoing with "outgoing". rewrite Ho. cbn [rbind].
    destruct (smem c_join ls && negb aj) eqn:Xj.
    { destruct (String.eqb t t_task || String.eqb t t_subprocess) eqn:Xa.
      { left. exists rows, (Some (n, a)). split; [reflexivity|]. split; auto. intros o Eo. injection Eo as <-.
        exists n. split; [repeat split; auto|]. auto. }
      destruct (outgoing_of d n) as [|f fs] eqn:Eo; cbn [rbind].
      { right. left. split; [reflexivity|]. intros [_ [Ft _]]. apply (Ft n N In_n); auto.
        - apply andb_true_iff in Xj. destruct Xj as [Xj _]. rewrite J in Xj. apply Nat.leb_le in Xj. exact Xj.
        - intros [H|H]; unfold typed in H; rewrite T in H; injection H as ->; discriminate. }
      destruct (target_found n f) as [m [am [fa [Fl [Fm [E1 E2]]]]]]; [rewrite Eo; left; auto|].
      rewrite E1. cbn [rbind]. rewrite E2. cbn [rbind]. left. exists rows, (Some (m, am)). split; [reflexivity|]. split; auto.
      intros o Eq. injection Eq as <-. exists m. split; auto. intros Fa. apply Nat.lt_le_incl. eapply Fa; eauto. }
    rewrite Dn. cbn [rbind].
    assert (R1 : exists rows1, (if String.eqb t t_task then Ok (rows ++ [mkERow (prefix ++ zstr order)%string (VStr nm) (VStr c) who "" ""])
      else if String.eqb t t_subprocess then Ok (rows ++ [mkERow (prefix ++ zstr order)%string (VStr nm) (VStr c) who "yes" ""]) else Ok rows) = Ok rows1 /\
      Forall stringy rows1).
    { destruct (String.eqb t t_task); [|destruct (String.eqb t t_subprocess)]; eexists; (split; [reflexivity|]); auto;
        apply Forall_app; split; auto; constructor; auto; apply stringy_mk. }
    destruct R1 as [rows1 [-> Hr1]]. cbn [rbind].
    destruct (smem c_split ls).
    - destruct (branches_outcome fuel n N In_n IH prefix order (VStr t) (default_flow (VStr t) a) who (outgoing_of d n) rows1 None 0)
        as [[rs' [nx [i [E [Sr Hx]]]]]|[[E H]|[E H]]]; auto; [discriminate| | |]; unfold branches, bstep in E; cbn [veqs] in E; rewrite E; cbn [rbind fst snd].
      + destruct nx as [o|].
        * destruct (Hx o eq_refl) as [m [Fm R]]. apply (outcome_step fuel n m); auto.
        * left. exists rs', None. split; auto. split; auto. discriminate.
      + right. left. auto.
      + right. right. auto.
    - destruct (outgoing_of d n) as [|f [|f' fs]] eqn:Eo.
      + left. exists rows1, None. split; auto. split; auto. discriminate.
      + destruct (target_found n f) as [m [am [fa [Fl [Fm [E1 E2]]]]]]; [rewrite Eo; left; auto|].
        rewrite E1. cbn [rbind]. rewrite E2. cbn [rbind]. apply (outcome_step fuel n m); [intros Fa; eapply Fa; eauto|].
        apply IH; auto.
      + left. exists rows1, None. split; auto. split; auto. discriminate.
  Qed.

  (** The whole export. *)
  Lemma entry_found : forall n, (forall m, entry_node d m <-> m = n) -> exists a, found n (n, a) /\
    forall fuel, export_rows fuel d = let* r := export_node fuel d classes (Some (n, a)) 0 "" (VStr "") "" false [] in Ok (fst r).
  Proof.
    intros n En. assert (Hn : entry_node d n) by (apply En; auto). destruct (node_entry d n L (proj1 Hn)) as [a [G [Ha _]]].
    destruct (proj2 (entry_unique d L)) as [x Ex]; [eauto|].
    assert (Xa : x = (n, a)).
    { destruct x as [s b]. assert (s = n) by (apply En, entry_iff; auto; rewrite Ex; left; auto). subst s. f_equal.
      assert (X : In (n, b) (filter no_incoming (gnodes (dgraph d)))) by (rewrite Ex; left; auto). apply filter_In in X. destruct X as [X _].
      destruct L as [U _]. apply In_dget in X; [|exact U]. apply In_dget in Ha; [|exact U]. congruence. }
    subst x. exists a. split; [repeat split; auto; apply Hn|]. intros fuel.
    unfold export_rows. rewrite (entry_nodes_eq d L), Ex. cbn [rbind]. rewrite (nodes_eq d L). reflexivity.
  Qed.
  Lemma file_outcome : forall n fuel, (forall m, entry_node d m <-> m = n) ->
    (exists lines, export_process_to_csv fuel d None = (Some (csv_text (csv_columns :: lines)), Ok tt)) \/
    (export_process_to_csv fuel d None = (None, Err IndexError) /\ ~ fit d) \/
    (export_process_to_csv fuel d None = (None, Err OutOfFuel) /\ ~ (falling /\ rank n < fuel)).
  Proof.
    intros n fuel En. destruct (entry_found n En) as [a [Fn Er]]. specialize (Er fuel).
    destruct (export_outcome fuel n (n, a) 0%Z "" "" "" false [] Fn (Forall_nil _)) as [[rows [nx [E [Sr _]]]]|[[E H]|[E H]]];
      unfold node_t in *; rewrite E in Er; cbn [rbind fst] in Er.
    - left. destruct (stringy_text _ Sr) as [lines Sl]. exists lines. eapply exported_text; eauto.
    - right. left. split; auto. unfold export_process_to_csv. rewrite mbind_read, Er. reflexivity.
    - right. right. split; auto. unfold export_process_to_csv. rewrite mbind_read, Er. reflexivity.
  Qed.
End Ends.

(** A position in a list that increases along the flows. *)
Lemma before_pos : forall l n m, NoDup l -> before l n m -> pos l n < pos l m /\ pos l m < length l.
Proof.
  assert (P : forall l i n, NoDup l -> nth_error l i = Some n -> pos l n = i).
  { induction l as [|x l IH]; intros i n N H; [destruct i; discriminate|]. inversion N; subst. destruct i as [|i]; cbn [nth_error] in H.
    - injection H as ->. cbn [pos]. rewrite String.eqb_refl. reflexivity.
    - cbn [pos]. destruct (String.eqb_spec x n) as [-> |_].
      + exfalso. apply nth_error_In in H. contradiction.
      + f_equal. auto. }
  intros l n m N [i [j [Lt [Hi Hj]]]]. rewrite (P l i n N Hi), (P l j m N Hj). split; auto.
  apply nth_error_Some. congruence.
Qed.
Lemma acyclic_ranked : forall d, coherent d -> all_laid_out d -> acyclic d -> exists rank, falling d rank /\
  forall n, rank n <= length (gnodes (dgraph d)).
Proof.
  intros d Co AL Ac. destruct (C26_acyclic_no_backward d Co AL Ac (sort_bound d) (le_n _)) as [s E].
  destruct (C26_topological_order d _ s [] Co AL E) as [P [_ [B _]]].
  exists (fun n => length (map cid s) - pos (map cid s) n). split.
  - intros f n m F. assert (N : NoDup (map cid s)).
    { eapply Permutation_NoDup; [symmetry; exact P|]. apply (proj1 Co). }
    destruct (before_pos _ n m N (B f n m F (fun H => H))). lia.
  - intros n. apply Permutation_length in P. rewrite map_length in P. rewrite map_length in P. rewrite map_length. lia.
Qed.

(** * A diagram without loops *)
(** The export returns: it writes a file or, if a flow or a letter is missing, stops with an
    IndexError.  The calls are nested as deep as there are nodes at most. *)
Theorem C108_without_loops : forall d n fuel, coherent d -> all_laid_out d -> well_named d -> labelled d -> acyclic d ->
  (forall m, entry_node d m <-> m = n) -> length (gnodes (dgraph d)) < fuel ->
  (exists lines, export_process_to_csv fuel d None = (Some (csv_text (csv_columns :: lines)), Ok tt)) \/
  (~ fit d /\ export_process_to_csv fuel d None = (None, Err IndexError)).
Proof.
  intros d n fuel Co AL WN LB Ac En F. destruct (acyclic_ranked d Co AL Ac) as [rank [Fa Le]].
  destruct (file_outcome d Co AL WN LB rank n fuel En) as [H|[[H N]|[_ N]]]; auto.
  exfalso. apply N. split; auto. specialize (Le n). lia.
Qed.
Theorem C108_written : forall d n fuel, coherent d -> all_laid_out d -> well_named d -> labelled d -> acyclic d -> fit d ->
  (forall m, entry_node d m <-> m = n) -> length (gnodes (dgraph d)) < fuel ->
  exists lines, export_process_to_csv fuel d None = (Some (csv_text (csv_columns :: lines)), Ok tt).
Proof.
  intros d n fuel Co AL WN LB Ac Ft En F. destruct (C108_without_loops d n fuel Co AL WN LB Ac En F) as [H|[N _]]; [exact H|contradiction].
Qed.

(** * With loops *)
(** Nothing but an endless recursion can then happen. *)
Theorem C108_file_or_endless : forall d n fuel, coherent d -> all_laid_out d -> well_named d -> labelled d -> fit d ->
  (forall m, entry_node d m <-> m = n) ->
  (exists lines, export_process_to_csv fuel d None = (Some (csv_text (csv_columns :: lines)), Ok tt)) \/
  export_process_to_csv fuel d None = (None, Err OutOfFuel).
Proof.
  intros d n fuel Co AL WN LB Ft En.
  destruct (file_outcome d Co AL WN LB (fun _ => 0) n fuel En) as [H|[[_ N]|[H _]]]; auto. contradiction.
Qed.

Section Endless.
  Variable d : diagram.
  Hypothesis Co : coherent d.
  Let classes := map (fun c => (cid c, ccls c)) (classified d).
  Let L : listed d := proj1 Co.
  Notation found := (found d).

  Lemma next_found : forall n f x, In f (outgoing_of d n) -> flow_goes d f n x ->
    exists ax fa, found x (x, ax) /\ flow_of d f = Ok fa /\ target_node d fa = Ok (Some (x, ax)).
  Proof.
    intros n f x Hf G. destruct (target_found d Co n f Hf) as [m [am [fa [Fl [Fm [E1 E2]]]]]].
    assert (m = x). { destruct Fl as [_ [_ [t1 [A1 [_ B1]]]]], G as [t2 [A2 [_ B2]]]. congruence. }
    subst m. exists am, fa. auto.
  Qed.
  Lemma found_fun : forall n o o', found n o -> found n o' -> o = o'.
  Proof. intros n o o' [_ [_ A]] [_ [_ B]]. congruence. Qed.

  (** What is known about the exporter's view of a node. *)
  Lemma view : forall n o, found n o -> exists t a, o = (n, a) /\ attr d n "type" = Some (VStr t) /\
    dgetE k_type a = Ok (VStr t) /\ dgetE k_outgoing a = Ok (VList (outgoing_of d n)) /\ outgoing_list a = Ok (Some (outgoing_of d n)) /\
    forall ls, dgetE n classes = Ok ls -> smem c_join ls = Nat.leb 2 (length (incoming_of d n)) /\ smem c_split ls = Nat.leb 2 (length (outgoing_of d n)).
  Proof.
    intros n [n' a] [E [N G]]. cbn [fst] in E. subst n'. destruct (node_entry d n L N) as [a' [G' [_ [At [_ Ho]]]]].
    rewrite G in G'. injection G' as <-. destruct (proj2 L n N) as [[t T] _]. exists t, a. split; auto. split; auto.
    split; [unfold dgetE; change k_type with "type"; rewrite <- At, T; reflexivity|].
    split; [unfold dgetE; change k_outgoing with "outgoing"; rewrite Ho; reflexivity|].
    split; [unfold outgoing_list; change k_outgoing with "outgoing"; rewrite Ho; reflexivity|].
    intros ls H. unfold dgetE in H. destruct (dget n classes) as [ls'|] eqn:Ec; [|discriminate]. injection H as <-.
    exact (labels_of d n ls' L Ec).
  Qed.

  (** A finished call goes over a node with one outgoing flow. *)
  Lemma one_step : forall x f y, outgoing_of d x = [f] -> flow_goes d f x y -> ~ typed d x "endEvent" ->
    forall fuel o order prefix cond who aj rows res, aj = true \/ ~ join_node d x ->
    found x o -> export_node fuel d classes (Some o) order prefix cond who aj rows = Ok res ->
    exists oy fuel' order' cond' who' rows', found y oy /\ fuel' < fuel /\
      export_node fuel' d classes (Some oy) order' prefix cond' who' false rows' = Ok res.
  Proof.
    intros x f y Ho Gf Ex fuel o order prefix cond who aj rows res Jx Fx H.
    destruct fuel as [|fuel]; [discriminate|]. destruct (view x o Fx) as [t [a [-> [T [Dt [Do [Dl Lb]]]]]]].
    destruct (next_found x f y) as [ay [fa [Fy [E1 E2]]]]; [rewrite Ho; left; auto|exact Gf|].
    exists (y, ay), fuel.
    assert (Q : exists order' cond' who' rows', export_node fuel d classes (Some (y, ay)) order' prefix cond' who' false rows' = Ok res).
    { cbn [export_node] in H. rewrite Dt in H. cbn [rbind veqs] in H.
      destruct (String.eqb t t_start_event) eqn:X1.
      { apply rbind_ok in H. destruct H as [act [_ H]]. rewrite Do, Ho in H. cbn [rbind] in H.
        rewrite E1 in H. cbn [rbind] in H. rewrite E2 in H. cbn [rbind] in H. eauto. }
      destruct (String.eqb t t_end_event) eqn:X2; [apply String.eqb_eq in X2; subst t; exfalso; apply Ex; exact T|].
      apply rbind_ok in H. destruct H as [ls [El H]]. destruct (Lb ls El) as [J Sp].
      assert (J0 : smem c_join ls && negb aj = false).
      { destruct Jx as [-> |Jx]; [apply andb_false_r|]. rewrite J. apply andb_false_iff. left. apply Nat.leb_gt. unfold join_node in Jx. lia. }
      rewrite Dl in H. cbn [rbind] in H. rewrite J0, Sp, Ho in H. cbn [length Nat.leb] in H.
      apply rbind_ok in H. destruct H as [rows1 [_ H]]. rewrite E1 in H. cbn [rbind] in H. rewrite E2 in H. cbn [rbind] in H. eauto. }
    destruct Q as [order' [cond' [who' [rows' Q]]]]. exists order', cond', who', rows'. split; auto.
  Qed.
  (** A finished call goes over straight ways. *)
  Lemma straight_call : forall x g, straight_to d x g -> forall fuel o order prefix cond who aj rows res,
    found x o -> export_node fuel d classes (Some o) order prefix cond who aj rows = Ok res ->
    exists og fuel' order' cond' who' aj' rows', found g og /\ fuel' <= fuel /\ (aj = false -> aj' = false) /\
      export_node fuel' d classes (Some og) order' prefix cond' who' aj' rows' = Ok res.
  Proof.
    intros x g S. induction S as [x|x f y g Ho Gf Jx Ex S IH]; intros fuel o order prefix cond who aj rows res Fx H.
    - exists o, fuel, order, cond, who, aj, rows. auto.
    - destruct (one_step x f y Ho Gf Ex _ _ _ _ _ _ _ _ _ (or_intror Jx) Fx H) as [oy [f1 [o1 [c1 [w1 [r1 [Fy [Lt Q]]]]]]]].
      destruct (IH _ _ _ _ _ _ _ _ _ Fy Q) as [og [fuel' [o2 [c2 [w2 [aj2 [r2 [A [B [C D]]]]]]]]]].
      exists og, fuel', o2, c2, w2, aj2, r2. split; auto. split; [lia|]. split; auto.
  Qed.
  Lemma behind_call : forall x g, behind d x g -> forall fuel o order prefix cond who rows res,
    found x o -> export_node fuel d classes (Some o) order prefix cond who true rows = Ok res ->
    exists og fuel' order' cond' who' aj' rows', found g og /\ fuel' <= fuel /\
      export_node fuel' d classes (Some og) order' prefix cond' who' aj' rows' = Ok res.
  Proof.
    intros x g [S|[f [y [Ho [Gf [Ex S]]]]]] fuel o order prefix cond who rows res Fx H.
    - destruct (straight_call x g S _ _ _ _ _ _ _ _ _ Fx H) as [og [f2 [o2 [c2 [w2 [aj2 [r2 [A [B [_ D]]]]]]]]]].
      exists og, f2, o2, c2, w2, aj2, r2. auto.
    - destruct (one_step x f y Ho Gf Ex _ _ _ _ _ _ _ _ _ (or_introl eq_refl) Fx H) as [oy [f1 [o1 [c1 [w1 [r1 [Fy [Lt Q]]]]]]]].
      destruct (straight_call y g S _ _ _ _ _ _ _ _ _ Fy Q) as [og [f2 [o2 [c2 [w2 [aj2 [r2 [A [B [_ D]]]]]]]]]].
      exists og, f2, o2, c2, w2, aj2, r2. split; auto. split; auto. lia.
  Qed.

  (** What a meeting point hands over. *)
  Lemma meeting_call : forall j x, meets d j x -> forall fuel o order prefix cond who rows res,
    found j o -> export_node fuel d classes (Some o) order prefix cond who false rows = Ok res ->
    exists ox, found x ox /\ snd res = Some ox.
  Proof.
    intros j x [[I1 I2] [J Q]] fuel o order prefix cond who rows res Fj H.
    destruct fuel as [|fuel]; [discriminate|]. destruct (view j o Fj) as [t [a [-> [T [Dt [_ [Dl Lb]]]]]]].
    cbn [export_node] in H. rewrite Dt in H. cbn [rbind veqs] in H.
    destruct (String.eqb t t_start_event) eqn:X1; [apply String.eqb_eq in X1; subst t; contradiction|].
    destruct (String.eqb t t_end_event) eqn:X2; [apply String.eqb_eq in X2; subst t; contradiction|].
    apply rbind_ok in H. destruct H as [ls [El H]]. destruct (Lb ls El) as [Jl _].
    assert (J0 : Nat.leb 2 (length (incoming_of d j)) = true) by (apply Nat.leb_le; exact J).
    rewrite Dl, Jl, J0 in H. cbn [rbind andb negb] in H.
    destruct (String.eqb t t_task || String.eqb t t_subprocess) eqn:Xa; destruct Q as [[Ac ->]|[Na [f [fs [Ho Gf]]]]].
    - injection H as <-. exists (j, a). auto.
    - exfalso. apply Na. apply orb_true_iff in Xa. destruct Xa as [X|X]; apply String.eqb_eq in X; subst t; [left|right]; exact T.
    - exfalso. destruct Ac as [X|X]; unfold typed in X; rewrite T in X; injection X as ->; discriminate.
    - destruct (next_found j f x) as [ax [fa [Fx [E1 E2]]]]; [rewrite Ho; left; auto|exact Gf|].
      rewrite Ho in H. cbn [rbind] in H. rewrite E1 in H. cbn [rbind] in H. rewrite E2 in H. cbn [rbind] in H. injection H as <-. exists (x, ax). auto.
  Qed.

  Lemma fold_last : forall A B (f : A -> B -> res A) l x a b, rfold f (l ++ [x]) a = Ok b -> exists c, rfold f l a = Ok c /\ f c x = Ok b.
  Proof.
    induction l as [|y l IH]; intros x a b H; cbn [app rfold] in H.
    - exists a. split; [reflexivity|]. apply rbind_ok in H. destruct H as [c [H E]]. cbn [rfold] in E. congruence.
    - apply rbind_ok in H. destruct H as [c [H E]]. apply IH in E. destruct E as [c' [E1 E2]]. exists c'. split; auto.
      cbn [rfold]. rewrite H. exact E1.
  Qed.
  (** A finished call at the split goes on behind the meeting point of the last branch. *)
  Lemma split_call : forall g j x, last_branch d g j -> meets d j x -> forall fuel o order prefix cond who aj rows res,
    found g o -> export_node fuel d classes (Some o) order prefix cond who aj rows = Ok res ->
    exists ox fuel' order' cond' who' rows', found x ox /\ fuel' < fuel /\
      export_node fuel' d classes (Some ox) order' prefix cond' who' true rows' = Ok res.
  Proof.
    intros g j x [[I1 I2] [Jg [Sg [fs [f [y [Ho [Gf [Jy St]]]]]]]]] M fuel o order prefix cond who aj rows res Fg H.
    destruct fuel as [|fuel]; [discriminate|]. destruct (view g o Fg) as [t [a [-> [T [Dt [_ [Dl Lb]]]]]]].
    destruct (next_found g f y) as [ay [fa [Fy [E1 E2]]]]; [rewrite Ho; apply in_or_app; right; left; auto|exact Gf|].
    cbn [export_node] in H. rewrite Dt in H. cbn [rbind veqs] in H.
    destruct (String.eqb t t_start_event) eqn:X1; [apply String.eqb_eq in X1; subst t; contradiction|].
    destruct (String.eqb t t_end_event) eqn:X2; [apply String.eqb_eq in X2; subst t; contradiction|].
    apply rbind_ok in H. destruct H as [ls [El H]]. destruct (Lb ls El) as [Jl Sl].
    assert (J0 : Nat.leb 2 (length (incoming_of d g)) = false) by (apply Nat.leb_gt; unfold join_node in Jg; lia).
    assert (S0 : Nat.leb 2 (length (outgoing_of d g)) = true) by (apply Nat.leb_le; exact Sg).
    rewrite Dl, Jl, Sl, J0, S0 in H. cbn [rbind andb] in H.
    apply rbind_ok in H. destruct H as [rows1 [_ H]]. apply rbind_ok in H. destruct H as [st [H K]].
    rewrite Ho in H. apply fold_last in H. destruct H as [[[rs nx] i] [_ H]].
    rewrite E1 in H. cbn [rbind] in H. rewrite E2 in H. cbn [rbind] in H.
    apply rbind_ok in H. destruct H as [suffix [_ H]]. cbn [rbind fst] in H.
    apply rbind_ok in H. destruct H as [ly [Ely H]].
    destruct (view y _ Fy) as [ty [ay' [_ [_ [_ [_ [_ Lby]]]]]]]. destruct (Lby ly Ely) as [Jly _]. rewrite Jly in H.
    assert (J1 : Nat.leb 2 (length (incoming_of d y)) = false) by (apply Nat.leb_gt; unfold join_node in Jy; lia).
    rewrite J1 in H. apply rbind_ok in H. destruct H as [r [H E]].
    destruct (straight_call y j St _ _ _ _ _ _ _ _ _ Fy H) as [oj [fuel' [o2 [c2 [w2 [aj2 [r2 [A [B [C D]]]]]]]]]].
    rewrite (C eq_refl) in D. destruct (meeting_call j x M _ _ _ _ _ _ _ _ A D) as [ox [Fx Er]].
    rewrite Er in E. injection E as <-. cbn [fst snd] in K. exists ox, fuel, (order + 1)%Z, (VStr ""), who, (fst r). split; auto.
  Qed.
  Lemma never : forall j x g, meets d j x -> behind d x g -> last_branch d g j ->
    forall fuel o order prefix cond who aj rows res, found g o ->
    export_node fuel d classes (Some o) order prefix cond who aj rows <> Ok res.
  Proof.
    intros j x g M S B. induction fuel as [fuel IH] using (well_founded_induction lt_wf). intros o order prefix cond who aj rows res Fg H.
    destruct (split_call g j x B M _ _ _ _ _ _ _ _ _ Fg H) as [ox [fuel' [o' [c' [w' [r' [Fx [Lt H']]]]]]]].
    destruct (behind_call x g S _ _ _ _ _ _ _ _ Fx H') as [og [f2 [o2 [c2 [w2 [aj2 [r2 [A [Le H2]]]]]]]]].
    eapply (IH f2); eauto. lia.
  Qed.
End Endless.

(** A loop behind a block, in which the last branch leads back to the meeting point of the
    block, is never exported: no depth of recursion suffices. *)
Theorem C108_loop_never_written : forall d n g0 j x g fuel, coherent d -> (forall m, entry_node d m <-> m = n) ->
  closed_loop d n g0 j x g -> exists e, export_process_to_csv fuel d None = (None, Err e).
Proof.
  intros d n g0 j x g fuel Co En (S0 & B0 & M & S1 & B1). destruct (entry_found d Co n En) as [a [Fn Er]]. specialize (Er fuel).
  unfold export_process_to_csv. rewrite mbind_read. destruct (export_rows fuel d) as [rows|e] eqn:E; [|eauto]. exfalso.
  symmetry in Er. apply rbind_ok in Er. destruct Er as [res [H _]].
  destruct (straight_call d Co n g0 S0 _ _ _ _ _ _ _ _ _ Fn H) as [o0 [f0 [? [? [? [? [? [F0 [_ [_ H0]]]]]]]]]].
  destruct (split_call d Co g0 j x B0 M _ _ _ _ _ _ _ _ _ F0 H0) as [ox [f1 [? [? [? [? [Fx [_ H1]]]]]]]].
  destruct (behind_call d Co x g S1 _ _ _ _ _ _ _ _ Fx H1) as [og [f2 [? [? [? [? [? [Fg [_ H2]]]]]]]]].
  exact (never d Co j x g M S1 B1 _ _ _ _ _ _ _ _ _ Fg H2).
Qed.
Theorem C108_endless : forall d n g0 j x g fuel, coherent d -> all_laid_out d -> well_named d -> labelled d -> fit d ->
  (forall m, entry_node d m <-> m = n) -> closed_loop d n g0 j x g ->
  export_process_to_csv fuel d None = (None, Err OutOfFuel).
Proof.
  intros d n g0 j x g fuel Co AL WN LB Ft En C.
  destruct (C108_file_or_endless d n fuel Co AL WN LB Ft En) as [[lines H]|H]; [|exact H].
  destruct (C108_loop_never_written d n g0 j x g fuel Co En C) as [e H']. congruence.
Qed.

(** * Meeting points without a split before them *)
Lemma marked_fun : forall d n w w', marked d n w -> marked d n w' -> w = w'.
Proof.
  intros d n w w' [[-> [T1 E1]]|[[-> [T1 E1]]|[-> [N1 N2]]]] [[-> [T2 E2]]|[[-> [T2 E2]]|[-> [N3 N4]]]]; auto; try (exfalso; tauto).
  - exfalso. destruct E1 as [i [l E1]], E2 as [i' [l' E2]]. congruence.
  - exfalso. destruct E1 as [i [l E1]], E2 as [i' [l' E2]]. congruence.
Qed.
Lemma typed_fun : forall d n t t', typed d n t -> typed d n t' -> t = t'.
Proof. unfold typed. congruence. Qed.
Section Cut.
  Variable d : diagram.
  Hypothesis Co : coherent d.
  Hypothesis AL : all_laid_out d.
  Hypothesis WN : well_named d.
  Let classes := map (fun c => (cid c, ccls c)) (classified d).
  Let L : listed d := proj1 Co.
  Notation found := (found d).

  Lemma labels_there : forall n, is_node d n -> exists ls, dgetE n classes = Ok ls /\
    smem c_join ls = Nat.leb 2 (length (incoming_of d n)) /\ smem c_split ls = Nat.leb 2 (length (outgoing_of d n)).
  Proof.
    intros n N. destruct (AL n N) as [t [T O]]. destruct (class_of d n t L T O) as [ls [E H]]. fold classes in E.
    exists ls. unfold dgetE. rewrite E. auto.
  Qed.

  Lemma cut_call : forall i n ls m, way_lines d i n ls m -> inner d m -> join_node d m -> activity d m \/ outgoing_of d m <> [] ->
    exists N, forall fuel o rows, N <= fuel -> found n o ->
    exists rows' nx, export_node fuel d classes (Some o) (Z.of_nat i) "" (VStr "") "" false rows = Ok (rows ++ rows', nx) /\ Forall2 shows rows' ls.
  Proof.
    intros i n ls m W Im Jm Om. induction W as [i m|i n f fs x l ls m Ts Ho Gf Cl W IH|i n f x l ls m Ac Jn Ho Gf Cl W IH|i n f x ls m In_n Na Jn Ho Gf W IH].
    - exists 1. intros fuel o rows F Fm. destruct fuel as [|fuel]; [lia|].
      destruct (view d Co m o Fm) as [t [a [-> [T [Dt [_ [Dl _]]]]]]]. pose proof Fm as [_ [Nm _]].
      destruct (labels_there m Nm) as [lb [El [Jl _]]]. destruct Im as [I1 I2].
      cbn [export_node]. rewrite Dt. cbn [rbind veqs].
      destruct (String.eqb t t_start_event) eqn:X1; [apply String.eqb_eq in X1; subst t; contradiction|].
      destruct (String.eqb t t_end_event) eqn:X2; [apply String.eqb_eq in X2; subst t; contradiction|].
      rewrite El, Dl. cbn [rbind]. assert (J0 : Nat.leb 2 (length (incoming_of d m)) = true) by (apply Nat.leb_le; exact Jm).
      rewrite Jl, J0. cbn [andb negb].
      destruct (String.eqb t t_task || String.eqb t t_subprocess) eqn:Xa.
      { exists [], (Some (m, a)). rewrite app_nil_r. split; [reflexivity|constructor]. }
      destruct Om as [[X|X]|Om]; [unfold typed in X; rewrite T in X; injection X as ->; discriminate ..|].
      destruct (outgoing_of d m) as [|f fs] eqn:Eo; [congruence|]. cbn [rbind].
      destruct (target_found d Co m f) as [x [ax [fa [_ [_ [E1 E2]]]]]]; [rewrite Eo; left; auto|].
      rewrite E1. cbn [rbind]. rewrite E2. cbn [rbind]. exists [], (Some (x, ax)). rewrite app_nil_r. split; [reflexivity|constructor].
    - destruct (IH Im Jm Om) as [N H]. exists (S N). intros fuel o rows F Fn. destruct fuel as [|fuel]; [lia|].
      destruct (view d Co n o Fn) as [t [a [-> [T [Dt [Do [Dl _]]]]]]]. pose proof Fn as [_ [Nn Gn]].
      destruct (next_found d Co n f x) as [ax [fa [Fx [E1 E2]]]]; [rewrite Ho; left; auto|exact Gf|].
      destruct (node_entry d n L Nn) as [a' [G' [_ [At _]]]]. rewrite Gn in G'. injection G' as <-.
      destruct Cl as [w [nm [sub [ter [M [Nm [Sub [Ter ->]]]]]]]].
      destruct (WN n Nn) as [_ Df]. destruct (start_activity_of d n a nm At Ts Nm Df) as [w' [M' Ea]].
      assert (w' = w) by (eapply marked_fun; eauto). subst w'.
      assert (t = "startEvent") by (eapply typed_fun; eauto). subst t.
      cbn [export_node]. rewrite Dt. cbn [rbind veqs]. change (String.eqb "startEvent" t_start_event) with true. cbv iota.
      rewrite Ea, Do, Ho. cbn [rbind]. rewrite E1. cbn [rbind]. rewrite E2. cbn [rbind].
      assert (F' : N <= fuel) by lia.
      destruct (H fuel (x, ax) (rows ++ [mkERow ("" ++ zstr (Z.of_nat i))%string (VStr (w ++ nm)%string) (VStr "") "" "" ""]) F' Fx)
        as [rows' [nx [E Sh]]]. replace (Z.of_nat i + 1)%Z with (Z.of_nat (S i)) by lia. unfold node_t in *. rewrite E.
      eexists. exists nx. rewrite <- app_assoc. split; [reflexivity|]. constructor; [|exact Sh].
      exists (w ++ nm)%string, "". split; auto. split; auto. cbn [e_order e_who e_subprocess e_terminated append].
      assert (sub = ""). { destruct Sub as [[X _]|[_ X]]; auto. pose proof (typed_fun _ _ _ _ Ts X). discriminate. }
      assert (ter = ""). { destruct Ter as [[X _]|[_ X]]; auto. pose proof (typed_fun _ _ _ _ Ts X). discriminate. }
      subst. reflexivity.
    - destruct (IH Im Jm Om) as [N H]. exists (S N). intros fuel o rows F Fn. destruct fuel as [|fuel]; [lia|].
      destruct (view d Co n o Fn) as [t [a [-> [T [Dt [Do [Dl _]]]]]]]. pose proof Fn as [_ [Nn Gn]].
      destruct (next_found d Co n f x) as [ax [fa [Fx [E1 E2]]]]; [rewrite Ho; left; auto|exact Gf|].
      destruct (node_entry d n L Nn) as [a' [G' [_ [At _]]]]. rewrite Gn in G'. injection G' as <-.
      destruct Cl as [w [nm [sub [ter [M [Nm [Sub [Ter ->]]]]]]]].
      destruct (labels_there n Nn) as [lb [El [Jl Sl]]].
      assert (J0 : Nat.leb 2 (length (incoming_of d n)) = false) by (apply Nat.leb_gt; unfold join_node in Jn; lia).
      assert (Dn : dgetE k_node_name a = Ok (VStr nm)) by (unfold dgetE; change k_node_name with "node_name"; rewrite <- At, Nm; reflexivity).
      assert (Tt : t = "task" \/ t = "subProcess") by (destruct Ac as [X|X]; [left|right]; eapply typed_fun; eauto).
      assert (w = "").
      { destruct M as [[_ [[X|X] _]]|[[_ [X _]]|[-> _]]]; auto; pose proof (typed_fun _ _ _ _ T X); subst t; destruct Tt; discriminate. }
      assert (ter = ""). { destruct Ter as [[X _]|[_ X]]; auto. pose proof (typed_fun _ _ _ _ T X). subst t. destruct Tt; discriminate. }
      assert (Es : sub = if String.eqb t t_task then "" else "yes").
      { destruct Sub as [[X ->]|[X ->]].
        - pose proof (typed_fun _ _ _ _ T X). subst t. reflexivity.
        - destruct Tt as [-> | ->]; [reflexivity|]. contradiction. }
      assert (F' : N <= fuel) by lia.
      destruct (H fuel (x, ax) (rows ++ [mkERow ("" ++ zstr (Z.of_nat i))%string (VStr nm) (VStr "") "" sub ""]) F' Fx) as [rows' [nx [E Sh]]].
      exists (mkERow ("" ++ zstr (Z.of_nat i))%string (VStr nm) (VStr "") "" sub "" :: rows'), nx. split.
      + rewrite <- app_assoc in E. cbn [app] in E. rewrite <- E. replace (Z.of_nat (S i)) with (Z.of_nat i + 1)%Z by lia.
        cbn [export_node]. rewrite Dt. cbn [rbind veqs].
        assert (X1 : String.eqb t t_start_event = false) by (destruct Tt as [-> | ->]; reflexivity).
        assert (X2 : String.eqb t t_end_event = false) by (destruct Tt as [-> | ->]; reflexivity).
        rewrite X1, X2, El, Dl. cbn [rbind]. rewrite Jl, Sl, J0, Ho. cbn [andb length Nat.leb]. rewrite Dn. cbn [rbind].
        destruct Tt as [-> | ->]; subst sub; change (String.eqb "task" t_task) with true; change (String.eqb "subProcess" t_task) with false;
          change (String.eqb "subProcess" t_subprocess) with true; cbv iota; cbn [rbind]; rewrite E1; cbn [rbind]; rewrite E2; cbn [rbind]; reflexivity.
      + constructor; [|exact Sh]. exists nm, "". split; auto. split; auto. cbn [e_order e_who e_subprocess e_terminated append]. subst. reflexivity.
    - destruct (IH Im Jm Om) as [N H]. exists (S N). intros fuel o rows F Fn. destruct fuel as [|fuel]; [lia|].
      destruct (view d Co n o Fn) as [t [a [-> [T [Dt [Do [Dl _]]]]]]]. pose proof Fn as [_ [Nn Gn]].
      destruct (next_found d Co n f x) as [ax [fa [Fx [E1 E2]]]]; [rewrite Ho; left; auto|exact Gf|].
      destruct (labels_there n Nn) as [lb [El [Jl Sl]]].
      assert (J0 : Nat.leb 2 (length (incoming_of d n)) = false) by (apply Nat.leb_gt; unfold join_node in Jn; lia).
      assert (F' : N <= fuel) by lia. destruct (H fuel (x, ax) rows F' Fx) as [rows' [nx [E Sh]]].
      exists rows', nx. split; [|exact Sh]. rewrite <- E. replace (Z.of_nat (S i)) with (Z.of_nat i + 1)%Z by lia. destruct In_n as [I1 I2].
      cbn [export_node]. rewrite Dt. cbn [rbind veqs].
      destruct (String.eqb t t_start_event) eqn:X1; [apply String.eqb_eq in X1; subst t; contradiction|].
      destruct (String.eqb t t_end_event) eqn:X2; [apply String.eqb_eq in X2; subst t; contradiction|].
      rewrite El, Dl. cbn [rbind]. rewrite Jl, Sl, J0, Ho. cbn [andb length Nat.leb].
      destruct (String.eqb t t_task) eqn:X3; [exfalso; apply Na; left; apply String.eqb_eq in X3; subst t; exact T|].
      destruct (String.eqb t t_subprocess) eqn:X4; [exfalso; apply Na; right; apply String.eqb_eq in X4; subst t; exact T|].
      cbn [rbind]. rewrite E1. cbn [rbind]. rewrite E2. cbn [rbind]. reflexivity.
  Qed.
End Cut.

(** The file stops before the first meeting point that is reached without a split. *)
Theorem C108_cut : forall d n lines m, coherent d -> all_laid_out d -> well_named d ->
  (forall k, entry_node d k <-> k = n) -> way_lines d 0 n lines m ->
  inner d m -> join_node d m -> activity d m \/ outgoing_of d m <> [] ->
  exists N, forall fuel, N <= fuel -> export_process_to_csv fuel d None = (Some (csv_text (csv_columns :: lines)), Ok tt).
Proof.
  intros d n lines m Co AL WN En W Im Jm Om. destruct (entry_found d Co n En) as [a [Fn Er]].
  destruct (cut_call d Co AL WN 0 n lines m W Im Jm Om) as [N H]. exists N. intros fuel F.
  destruct (H fuel (n, a) [] F Fn) as [rows [nx [E Sh]]]. specialize (Er fuel). unfold node_t in *. cbn [Z.of_nat] in E. rewrite E in Er. cbn [rbind fst app] in Er.
  eapply exported_text; eauto.
Qed.

(** * Diagrams built with the API *)
Lemma api_named : forall l d, proper_history l d -> well_named d.
Proof.
  intros l d H n N. destruct (bu_nodes d (history_built l d H) n N) as (o & ex & E & K). unfold named.
  rewrite !K by discriminate.
  destruct o; unfold expected_node in E; try discriminate; try (destruct (in_dec string_dec dir directions); [|discriminate]);
    injection E as _ <-; (split; [eexists; reflexivity|]); (left; reflexivity) || (right; eexists; reflexivity).
Qed.
Lemma api_labelled : forall l d, history l d -> labelled d.
Proof.
  intros l d H t v T E. pose proof (inv_history l d H) as I. destruct (view_in_edge _ t (inv_g d I) T) as [e [He [Hs _]]].
  destruct (inv_e d I) as [E1 _]. destruct (E1 e He) as [f [r [p [w [_ [_ [_ [X _]]]]]]]]. rewrite Hs in E. right. exists (fl_name r). congruence.
Qed.
Theorem C108_api : forall l d n fuel, proper_history l d -> distinct_pairs d -> acyclic d -> fit d ->
  (forall m, entry_node d m <-> m = n) -> length (gnodes (dgraph d)) < fuel ->
  exists lines, export_process_to_csv fuel d None = (Some (csv_text (csv_columns :: lines)), Ok tt).
Proof.
  intros l d n fuel H D Ac Ft En F. pose proof (proper_is_history l d H) as H0.
  destruct (C26_api_diagrams_coherent l d H0 D) as [Co [AL _]].
  apply (C108_written d n fuel Co AL (api_named l d H) (api_labelled l d H0) Ac Ft En F).
Qed.

(** * Concrete cases *)
Definition fit_b (d : diagram) : bool :=
  forallb (fun p =>
    let n := fst p in
    let is t := match attr d n "type" with Some v => veqs v t | None => false end in
    let k := length (outgoing_of d n) in
    if is "startEvent" then negb (Nat.eqb k 0)
    else if is "endEvent" then true
    else (is "task" || is "subProcess" || Nat.ltb (length (incoming_of d n)) 2 || negb (Nat.eqb k 0)) && Nat.leb k 26)
  (gnodes (dgraph d)).
Lemma typed_b : forall d n t, match attr d n "type" with Some v => veqs v t | None => false end = true <-> typed d n t.
Proof.
  intros d n t. unfold typed. destruct (attr d n "type") as [v|]; [|split; discriminate]. destruct v; cbn [veqs]; try (split; discriminate).
  rewrite String.eqb_eq. split; congruence.
Qed.
Lemma fit_ok : forall d, fit_b d = true -> fit d.
Proof.
  intros d H. unfold fit_b in H. rewrite forallb_forall in H.
  assert (P : forall n, is_node d n -> exists a, In (n, a) (gnodes (dgraph d))).
  { intros n N. apply in_map_iff in N. destruct N as [[m a] [<- N]]. eauto. }
  assert (NZ : forall (l : list string), negb (Nat.eqb (length l) 0) = true -> l <> []) by (intros [|x l]; [discriminate|congruence]).
  split; [|split].
  - intros n T. assert (N : is_node d n) by (eapply is_node_attr; exact T). destruct (P n N) as [a Ha]. specialize (H _ Ha). cbn [fst] in H.
    cbv zeta in H. rewrite (proj2 (typed_b d n "startEvent") T) in H. auto.
  - intros n N [I1 I2] J Na. destruct (P n N) as [a Ha]. specialize (H _ Ha). cbn [fst] in H. cbv zeta in H.
    destruct (match attr d n "type" with Some v => veqs v "startEvent" | None => false end) eqn:X1; [apply typed_b in X1; contradiction|].
    destruct (match attr d n "type" with Some v => veqs v "endEvent" | None => false end) eqn:X2; [apply typed_b in X2; contradiction|].
    apply andb_true_iff in H. destruct H as [H _].
    destruct (match attr d n "type" with Some v => veqs v "task" | None => false end) eqn:X3; [apply typed_b in X3; elim Na; left; exact X3|].
    destruct (match attr d n "type" with Some v => veqs v "subProcess" | None => false end) eqn:X4; [apply typed_b in X4; elim Na; right; exact X4|].
    cbn [orb] in H. apply orb_true_iff in H. destruct H as [H|H]; auto. apply Nat.ltb_lt in H. unfold join_node in J. lia.
  - intros n N [I1 I2]. destruct (P n N) as [a Ha]. specialize (H _ Ha). cbn [fst] in H. cbv zeta in H.
    destruct (match attr d n "type" with Some v => veqs v "startEvent" | None => false end) eqn:X1; [apply typed_b in X1; contradiction|].
    destruct (match attr d n "type" with Some v => veqs v "endEvent" | None => false end) eqn:X2; [apply typed_b in X2; contradiction|].
    apply andb_true_iff in H. destruct H as [_ H]. apply Nat.leb_le in H. exact H.
Qed.
Definition goes_b (d : diagram) (f n m : string) : bool :=
  match get_flow_by_id f d with
  | Ok (Some t) => match dget "sourceRef" (snd t), dget "targetRef" (snd t) with Some a, Some b => veqs a n && veqs b m | _, _ => false end
  | _ => false
  end.
Lemma goes_ok : forall d f n m, goes_b d f n m = true -> flow_goes d f n m.
Proof.
  intros d f n m H. unfold goes_b in H. destruct (get_flow_by_id f d) as [[t|]|] eqn:E; try discriminate. exists t. split; auto.
  destruct (dget "sourceRef" (snd t)) as [a|]; [|discriminate]. destruct (dget "targetRef" (snd t)) as [b|]; [|discriminate].
  apply andb_true_iff in H. destruct H as [A B]. destruct a, b; try discriminate. cbn [veqs] in A, B.
  apply String.eqb_eq in A, B. subst. auto.
Qed.
Definition is_b (d : diagram) (n t : string) : bool := match attr d n "type" with Some v => veqs v t | None => false end.
Lemma is_not : forall d n t, is_b d n t = false -> ~ typed d n t.
Proof. intros d n t H C. apply typed_b in C. unfold is_b in H. congruence. Qed.
(** The nodes of the way and the id of the flow each is left over. *)
Fixpoint straight_b (d : diagram) (n : string) (l : list (string * string)) (m : string) : bool :=
  match l with
  | [] => String.eqb n m
  | (f, x) :: l => match outgoing_of d n with [f'] => String.eqb f' f | _ => false end && goes_b d f n x &&
      Nat.ltb (length (incoming_of d n)) 2 && negb (is_b d n "endEvent") && straight_b d x l m
  end.
Lemma straight_ok : forall d l n m, straight_b d n l m = true -> straight_to d n m.
Proof.
  intros d. induction l as [|[f x] l IH]; intros n m H; cbn [straight_b] in H.
  - apply String.eqb_eq in H. subst m. constructor.
  - repeat (apply andb_true_iff in H; destruct H as [H ?]). destruct (outgoing_of d n) as [|f' [|]] eqn:E; try discriminate.
    apply String.eqb_eq in H. subst f'. apply st_step with f x; auto.
    + apply goes_ok; auto.
    + apply Nat.ltb_lt in H2. unfold join_node. lia.
    + apply is_not. apply negb_true_iff. auto.
Qed.
Definition last_branch_b (d : diagram) (g : string) (fs : list string) (f y : string) (l : list (string * string)) (j : string) : bool :=
  negb (is_b d g "startEvent") && negb (is_b d g "endEvent") && Nat.ltb (length (incoming_of d g)) 2 && Nat.leb 2 (length (outgoing_of d g)) &&
  (if list_eq_dec string_dec (outgoing_of d g) (fs ++ [f]) then true else false) && goes_b d f g y &&
  Nat.ltb (length (incoming_of d y)) 2 && straight_b d y l j.
Lemma last_branch_ok : forall d g fs f y l j, last_branch_b d g fs f y l j = true -> last_branch d g j.
Proof.
  intros d g fs f y l j H. unfold last_branch_b in H. repeat (apply andb_true_iff in H; destruct H as [H ?]).
  apply negb_true_iff in H, H6. apply is_not in H, H6. apply Nat.ltb_lt in H5, H1. apply Nat.leb_le in H4.
  destruct (list_eq_dec string_dec (outgoing_of d g) (fs ++ [f])) as [E|]; [|discriminate]. apply goes_ok in H2. apply straight_ok in H0.
  split; [split; auto|]. split; [unfold join_node; lia|]. split; [exact H4|]. exists fs, f, y. split; auto. split; auto. split; auto. unfold join_node. lia.
Qed.

(** Two splits, one meeting point: no structure of blocks. *)
Definition tangle_ops : list op :=
  [ONew "m" "0"; OProcess "p" false true "None" "1" "2"; OStart "id2" "s" None false true (Some "s") "" "";
   OExclusive "id2" "g" "Diverging" None (Some "g") ""; OTask "id2" "a" (Some "a") ""; OTask "id2" "b" (Some "b") "";
   OExclusive "id2" "g2" "Diverging" None (Some "g2") ""; OTask "id2" "c" (Some "c") "";
   OExclusive "id2" "j" "Converging" None (Some "j") ""; OTask "id2" "m" (Some "m") ""; OEnd "id2" "e" None (Some "e") "" "";
   OFlow "id2" "s" "g" "" "10"; OFlow "id2" "g" "a" "yes" "11"; OFlow "id2" "g" "b" "no" "12"; OFlow "id2" "a" "g2" "" "13";
   OFlow "id2" "g2" "c" "long" "14"; OFlow "id2" "g2" "j" "short" "15"; OFlow "id2" "c" "j" "" "16"; OFlow "id2" "b" "j" "" "17";
   OFlow "id2" "j" "m" "" "18"; OFlow "id2" "m" "e" "" "19"].
Definition tangle : diagram := run empty_diagram tangle_ops.
Lemma entries_ok : forall d n, listed d -> map fst (filter no_incoming (gnodes (dgraph d))) = [n] -> forall m, entry_node d m <-> m = n.
Proof. intros d n L E m. rewrite (entry_iff d m L), E. simpl. intuition. Qed.
Example C108_api_example : proper_history tangle_ops tangle /\ distinct_pairs tangle /\ acyclic tangle /\ fit tangle /\
  (forall m, entry_node tangle m <-> m = "s") /\ length (gnodes (dgraph tangle)) = 9 /\
  export_process_to_csv 10 tangle None =
    (Some (csv_text [csv_columns; ["0"; "s"; ""; ""; ""; ""]; ["1a1"; "a"; "yes"; ""; ""; ""];
       ["1a2a1"; "c"; "long"; ""; ""; ""]; ["1a2b1"; "goto 1a3"; "short"; ""; ""; ""]; ["1a3"; "m"; ""; ""; ""; ""]; ["1a4"; "e"; ""; ""; ""; "yes"];
       ["1b1"; "b"; "no"; ""; ""; ""]; ["2"; "m"; ""; ""; ""; ""]; ["3"; "e"; ""; ""; ""; "yes"]]), Ok tt).
Proof.
  assert (H : proper_history tangle_ops tangle) by (apply (pcheck_history tangle_ops [] empty_diagram ph_nil); vm_compute; reflexivity).
  assert (D : distinct_pairs tangle) by (apply pairs_checked_ok; vm_compute; reflexivity).
  pose proof (proper_is_history _ _ H) as H0. destruct (C26_api_diagrams_coherent _ _ H0 D) as [Co _].
  split; auto. split; auto. split; [apply (ranked_acyclic _ _ (pos ["s"; "g"; "a"; "b"; "g2"; "c"; "j"; "m"; "e"]) H0); vm_compute; reflexivity|].
  split; [apply fit_ok; vm_compute; reflexivity|]. split; [apply entries_ok; [exact (proj1 Co)|vm_compute; reflexivity]|].
  split; vm_compute; reflexivity.
Qed.
Print Assumptions C108_without_loops.
Print Assumptions C108_written.
Print Assumptions C108_api.

(** A block followed by a check that may lead back to its meeting point. *)
Definition again_ops (meet : op) : list op :=
  [ONew "m" "0"; OProcess "p" false true "None" "1" "2"; OStart "id2" "s" None false true (Some "s") "" "";
   OParallel "id2" "g0" "Diverging" (Some "g0") ""; OTask "id2" "a" (Some "a") ""; OTask "id2" "b" (Some "b") "";
   meet; OTask "id2" "check" (Some "x") "";
   OExclusive "id2" "g" "Diverging" None (Some "g") ""; OEnd "id2" "e" None (Some "e") "" ""; OTask "id2" "repair" (Some "c") "";
   OFlow "id2" "s" "g0" "" "10"; OFlow "id2" "g0" "a" "" "11"; OFlow "id2" "g0" "b" "" "12"; OFlow "id2" "a" "j" "" "13";
   OFlow "id2" "b" "j" "" "14"; OFlow "id2" "j" "x" "" "15"; OFlow "id2" "x" "g" "" "16"; OFlow "id2" "g" "e" "good" "17";
   OFlow "id2" "g" "c" "bad" "18"; OFlow "id2" "c" "j" "" "19"].
Definition again : diagram := run empty_diagram (again_ops (OInclusive "id2" "j" "Converging" None (Some "j") "")).
Definition again_task : diagram := run empty_diagram (again_ops (OTask "id2" "collect" (Some "j") "")).
Lemma again_ok : forall d, d = again \/ d = again_task ->
  (exists l, proper_history l d) /\ distinct_pairs d /\ fit d /\ coherent d /\ all_laid_out d /\ well_named d /\ labelled d /\ (forall m, entry_node d m <-> m = "s").
Proof.
  assert (Q : forall l, pcheck empty_diagram l = true -> pairs_checked (seq_flows (run empty_diagram l)) = true -> fit_b (run empty_diagram l) = true ->
    map fst (filter no_incoming (gnodes (dgraph (run empty_diagram l)))) = ["s"] -> let d := run empty_diagram l in
    (exists l, proper_history l d) /\ distinct_pairs d /\ fit d /\ coherent d /\ all_laid_out d /\ well_named d /\ labelled d /\ (forall m, entry_node d m <-> m = "s")).
  { intros l A B C E d. assert (H : proper_history l d) by (apply (pcheck_history l [] empty_diagram ph_nil); exact A).
    assert (D : distinct_pairs d) by (apply pairs_checked_ok; exact B). pose proof (proper_is_history _ _ H) as H0.
    destruct (C26_api_diagrams_coherent _ _ H0 D) as [Co [AL _]]. split; [eauto|]. split; auto. split; [apply fit_ok; exact C|]. split; auto. split; auto.
    split; [apply (api_named l); auto|]. split; [apply (api_labelled l); auto|]. apply entries_ok; [exact (proj1 Co)|exact E]. }
  intros d [-> | ->]; apply Q; vm_compute; reflexivity.
Qed.
Example C108_loop_example : closed_loop again "s" "g0" "j" "x" "g" /\ closed_loop again_task "s" "g0" "j" "j" "g".
Proof.
  split; (split; [apply straight_ok with [("id10", "g0")]; vm_compute; reflexivity|]);
    (split; [apply last_branch_ok with ["id11"] "id12" "b" [("id14", "j")]; vm_compute; reflexivity|]).
  - split; [split; [split; apply is_not; vm_compute; reflexivity|]|].
    { split; [unfold join_node; apply Nat.leb_le; vm_compute; reflexivity|]. right. split.
      - intros [X|X]; revert X; apply is_not; vm_compute; reflexivity.
      - exists "id15", []. split; [vm_compute; reflexivity|]. apply goes_ok. vm_compute. reflexivity. }
    split; [left; apply straight_ok with [("id16", "g")]; vm_compute; reflexivity|].
    apply last_branch_ok with ["id17"] "id18" "c" [("id19", "j")]. vm_compute. reflexivity.
  - split; [split; [split; apply is_not; vm_compute; reflexivity|]|].
    { split; [unfold join_node; apply Nat.leb_le; vm_compute; reflexivity|]. left. split; [left; apply typed_b; vm_compute; reflexivity|reflexivity]. }
    split.
    { right. exists "id15", "x". split; [vm_compute; reflexivity|]. split; [apply goes_ok; vm_compute; reflexivity|].
      split; [apply is_not; vm_compute; reflexivity|]. apply straight_ok with [("id16", "g")]. vm_compute. reflexivity. }
    apply last_branch_ok with ["id17"] "id18" "c" [("id19", "j")]. vm_compute. reflexivity.
Qed.
(** So not every diagram can be exported. *)
Theorem C108_every_diagram_refuted : exists l d, proper_history l d /\ distinct_pairs d /\ fit d /\ (forall m, entry_node d m <-> m = "s") /\
  forall fuel, export_process_to_csv fuel d None = (None, Err OutOfFuel).
Proof.
  destruct (again_ok again (or_introl eq_refl)) as [[l H] [D [Ft [Co [AL [WN [LB En]]]]]]]. exists l, again.
  split; auto. split; auto. split; auto. split; auto. intros fuel.
  exact (C108_endless again "s" "g0" "j" "x" "g" fuel Co AL WN LB Ft En (proj1 C108_loop_example)).
Qed.
Print Assumptions C108_file_or_endless.
Print Assumptions C108_loop_never_written.
Print Assumptions C108_endless.
Print Assumptions C108_every_diagram_refuted.

(** A loop that is entered without a split before it. *)
Definition repeat_ops : list op :=
  [ONew "m" "0"; OProcess "p" false true "None" "1" "2"; OStart "id2" "s" (Some "timer") false true (Some "s") "" "3";
   OSubprocess "id2" "prepare" false false (Some "w") ""; OExclusive "id2" "j" "Converging" None (Some "j") "";
   OTask "id2" "work" (Some "x") ""; OExclusive "id2" "g" "Diverging" None (Some "g") ""; OEnd "id2" "e" None (Some "e") "" "";
   OFlow "id2" "s" "w" "" "10"; OFlow "id2" "w" "j" "" "11"; OFlow "id2" "j" "x" "" "12"; OFlow "id2" "x" "g" "" "13";
   OFlow "id2" "g" "e" "good" "14"; OFlow "id2" "g" "j" "bad" "15"].
Definition repeat : diagram := run empty_diagram repeat_ops.
Lemma repeat_ok : proper_history repeat_ops repeat /\ distinct_pairs repeat /\ fit repeat /\ coherent repeat /\ all_laid_out repeat /\ well_named repeat /\
  forall m, entry_node repeat m <-> m = "s".
Proof.
  assert (H : proper_history repeat_ops repeat) by (apply (pcheck_history repeat_ops [] empty_diagram ph_nil); vm_compute; reflexivity).
  assert (D : distinct_pairs repeat) by (apply pairs_checked_ok; vm_compute; reflexivity).
  pose proof (proper_is_history _ _ H) as H0. destruct (C26_api_diagrams_coherent _ _ H0 D) as [Co [AL _]].
  split; auto. split; auto. split; [apply fit_ok; vm_compute; reflexivity|]. split; auto. split; auto. split; [apply (api_named repeat_ops); auto|].
  apply entries_ok; [exact (proj1 Co)|vm_compute; reflexivity].
Qed.
Definition repeat_lines : list (list string) := [["0"; "timer s"; ""; ""; ""; ""]; ["1"; "prepare"; ""; ""; "yes"; ""]].
Example C108_cut_example : way_lines repeat 0 "s" repeat_lines "j" /\ inner repeat "j" /\ join_node repeat "j" /\ outgoing_of repeat "j" <> [].
Proof.
  split; [|split; [split; apply is_not; vm_compute; reflexivity|split; [unfold join_node; apply Nat.leb_le; vm_compute; reflexivity|vm_compute; discriminate]]].
  apply way_start with "id10" [] "w"; [apply typed_b; vm_compute; reflexivity|vm_compute; reflexivity|apply goes_ok; vm_compute; reflexivity| |].
  { exists "timer ", "s", "", "". split.
    - right. left. split; [reflexivity|]. split; [apply typed_b; vm_compute; reflexivity|]. exists "id3", []. vm_compute. reflexivity.
    - split; [vm_compute; reflexivity|]. split; [right|split; [right|reflexivity]]; (split; [apply is_not; vm_compute; reflexivity|reflexivity]). }
  apply way_line with "id11" "j"; [right; apply typed_b; vm_compute; reflexivity|unfold join_node; apply Nat.lt_nge, Nat.ltb_lt; vm_compute; reflexivity|
    vm_compute; reflexivity|apply goes_ok; vm_compute; reflexivity| |apply way_stop].
  exists "", "prepare", "yes", "". split.
  { right. right. split; [reflexivity|]. split; intros [T _]; [destruct T as [T|T]|]; revert T; apply is_not; vm_compute; reflexivity. }
  split; [vm_compute; reflexivity|]. split; [left; split; [apply typed_b; vm_compute; reflexivity|reflexivity]|].
  split; [right; split; [apply is_not; vm_compute; reflexivity|reflexivity]|reflexivity].
Qed.
(** So not every activity gets a line: the file has the start event and the activity before
    the loop and ends there, without an end event. *)
Theorem C108_every_activity_refuted : exists l d n lines, proper_history l d /\ distinct_pairs d /\ fit d /\
  (forall m, entry_node d m <-> m = "s") /\ activity d n /\ named d n "work" /\
  (exists N, forall fuel, N <= fuel -> export_process_to_csv fuel d None = (Some (csv_text (csv_columns :: lines)), Ok tt)) /\
  forall o c w s t, ~ In [o; "work"; c; w; s; t] lines.
Proof.
  destruct repeat_ok as [H [D [Ft [Co [AL [WN En]]]]]]. exists repeat_ops, repeat, "x", repeat_lines.
  split; auto. split; auto. split; auto. split; auto. split; [left; apply typed_b; vm_compute; reflexivity|]. split; [vm_compute; reflexivity|].
  split.
  - destruct C108_cut_example as [W [I [J O]]]. exact (C108_cut repeat "s" repeat_lines "j" Co AL WN En W I J (or_intror O)).
  - intros o c w s t [X|[X|[]]]; discriminate.
Qed.
Print Assumptions C108_cut.
Print Assumptions C108_every_activity_refuted.
