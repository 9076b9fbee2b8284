(** C109: every line of an exported CSV file is true of the diagram. *)
From Coq Require Import String Ascii List Bool Arith ZArith Lia Permutation.
From Verif Require Import Py PyFacts Consts Nx NxFacts Rep SpecRep RepFacts MetricsFacts Classify SpecLayout ClassifyFacts.
From Verif Require Import CsvRegex RegexFacts CsvImport SpecCsv CsvFacts.
From Verif Require Import CsvExport SpecCsvExport CsvExportFacts CsvChain CsvOrders SpecExportEnds SpecTruth.
From Verif Require Import ApiSave Prop_LayoutMetrics Prop_Layout Prop_CsvExport Prop_ExportEnds.
Import ListNotations.
Open Scope string_scope.
Open Scope list_scope.

Lemma reached_step : forall d s n m f, reached d s n -> flow d f n m -> reached d s m.
Proof.
  assert (A : forall d s l n f m, path d s l n -> flow d f n m -> exists l', path d s l' m).
  { intros d s l n f m P. induction P as [g a b F|g a b l c F P IH]; intros F'.
    - exists [a; b]. apply path_more with g b; auto. apply path_one with f. exact F'.
    - destruct (IH F') as [l' P']. exists (a :: l'). apply path_more with g b; auto. }
  intros d s n m f [-> |[l P]] F; right.
  - exists [s]. apply path_one with f. exact F.
  - eapply A; eauto.
Qed.

Section Truth.
  Variable d : diagram.
  Hypothesis Co : coherent d.
  Hypothesis WN : well_named d.
  Hypothesis LB : labelled d.
  Variable s : string.
  Let classes := map (fun c => (cid c, ccls c)) (classified d).
  Let L : listed d := proj1 Co.
  Notation found := (found d).

  Definition true_row (r : erow) : Prop :=
    exists l, shows r l /\ ((exists m, line_of_node d s m l) \/ exists g m, line_of_jump d s g m l).
  (** The order and condition a call is given for the node [m]. *)
  Definition given_for (m prefix : string) (order : Z) (c : string) : Prop :=
    (((prefix = "" /\ 0 <= order) \/ 2 <= order)%Z /\ c = "") \/
    (order = 1%Z /\ exists p b g f, prefix = (p ++ String b "")%string /\ letter b /\
      reached d s g /\ flow d f g m /\ inner d g /\ split_node d g /\ branch_text d g f c).
  Lemma given_shown : forall m prefix order c, given_for m prefix order c ->
    later_line (prefix ++ zstr order) c \/ first_of_branch d s m (prefix ++ zstr order) c.
  Proof.
    intros m prefix order c [[H ->]|[-> [p [b [g [f [-> H]]]]]]]; [left; exists prefix, order; auto|right].
    exists p, b, g, f. split; auto. rewrite sapp_assoc. reflexivity.
  Qed.
  Lemma given_next : forall m m' prefix order c, given_for m prefix order c -> given_for m' prefix (order + 1) "".
  Proof. intros m m' prefix order c [[[[-> H]|H] _]|[-> _]]; left; (split; [|reflexivity]); [left; split; [reflexivity|lia]|right; lia|right; lia]. Qed.
  Lemma given_pos : forall m prefix order c, given_for m prefix order c -> (0 <= order)%Z.
  Proof. intros m prefix order c [[[[_ H]|H] _]|[-> _]]; lia. Qed.

  Lemma condition_named : forall f fa t, flow_of d f = Ok fa -> exists c, branch_condition (VStr t) fa = VStr c /\
    ((t = "parallelGateway" /\ c = "") \/ (t <> "parallelGateway" /\ flow_text d f c)).
  Proof.
    intros f fa t E. unfold branch_condition. cbn [veqs]. destruct (String.eqb t t_parallel_gateway) eqn:X.
    { apply String.eqb_eq in X. exists "". auto. }
    apply String.eqb_neq in X. unfold flow_of in E. destruct (get_flow_by_id f d) as [[e|]|] eqn:G; cbn [rbind] in E; try discriminate.
    injection E as <-. change k_name with "name". destruct (dget "name" (snd e)) as [v|] eqn:N; [|exists ""; split; auto; right; split; auto; exists e; auto].
    destruct (LB e v) as [-> |[c ->]]; auto.
    { unfold get_flow_by_id in G. clear - G. revert G. induction (get_flows d) as [|h l IH]; cbn; [discriminate|].
      unfold rbind, dgetE. destruct (dget _ (snd h)) as [v|]; [|discriminate]. destruct (veqs v f); [intros X; injection X as <-; left; auto|].
      intros X. right. apply IH. exact X. }
    - exists "". split; auto. right. split; auto. exists e. auto.
    - exists c. split; auto. right. split; auto. exists e. auto.
  Qed.

  Definition extends (rows rows' : list erow) : Prop := exists more, rows' = rows ++ more /\ Forall true_row more.
  Lemma extends_refl : forall rows, extends rows rows.
  Proof. intros rows. exists []. rewrite app_nil_r. auto. Qed.
  Lemma extends_trans : forall a b c, extends a b -> extends b c -> extends a c.
  Proof.
    intros a b c [x [-> X]] [y [-> Y]]. exists (x ++ y). rewrite app_assoc. split; auto. apply Forall_app. auto.
  Qed.
  Lemma extends_one : forall rows r, true_row r -> extends rows (rows ++ [r]).
  Proof. intros rows r H. exists [r]. auto. Qed.

  Lemma truth : forall fuel m o order prefix c who aj rows rows' nx, found m o -> reached d s m -> who = "" -> given_for m prefix order c ->
    export_node fuel d classes (Some o) order prefix (VStr c) who aj rows = Ok (rows', nx) ->
    extends rows rows' /\ (forall o', nx = Some o' -> exists k, found k o' /\ reached d s k).
  Proof.
    induction fuel as [|fuel IH]; intros n o order prefix c who aj rows rows' nx Fn Rn -> Gc H; [discriminate|].
    destruct (view d Co n o Fn) as [t [a [-> [T [Dt [Do [Dl Lb]]]]]]]. pose proof Fn as [_ [N G]].
    destruct (node_entry d n L N) as [a' [G' [_ [At _]]]]. rewrite G in G'. injection G' as <-.
    destruct (WN n N) as [[nm Nm] Df].
    cbn [export_node] in H. rewrite Dt in H. cbn [rbind veqs] in H.
    assert (NT : forall u, t <> u -> ~ typed d n u) by (intros u Ne Y; unfold typed in Y; rewrite T in Y; congruence).
    destruct (String.eqb t t_start_event) eqn:X1.
    { apply String.eqb_eq in X1. subst t. destruct (start_activity_of d n a nm At T Nm Df) as [w [M Ea]]. rewrite Ea, Do in H. cbn [rbind] in H.
      destruct (outgoing_of d n) as [|f fs] eqn:Eo; cbn [rbind] in H; [discriminate|].
      destruct (target_found d Co n f) as [m [am [fa [Fl [Fm [E1 E2]]]]]]; [rewrite Eo; left; auto|].
      rewrite E1 in H. cbn [rbind] in H. rewrite E2 in H. cbn [rbind] in H.
      assert (Gm : given_for m prefix (order + 1) "") by (eapply given_next; exact Gc).
      destruct (IH m (m, am) _ _ _ _ _ _ _ _ Fm (reached_step _ _ _ _ _ Rn Fl) eq_refl Gm H) as [Ex K]. split; auto.
      eapply extends_trans; [|exact Ex]. apply extends_one.
      exists [(prefix ++ zstr order)%string; (w ++ nm)%string; c; ""; ""; ""]. split; [exists (w ++ nm)%string, c; auto|].
      left. exists n, (prefix ++ zstr order)%string, w, nm, c, "", "". split; auto. split; auto. split; [left; exact T|].
      split; auto. split; auto. split; [right; split; auto; apply NT; discriminate|]. split; [right; split; auto; apply NT; discriminate|]. exact (given_shown _ _ _ _ Gc). }
    destruct (String.eqb t t_end_event) eqn:X2.
    { apply String.eqb_eq in X2. subst t. destruct (end_activity_of d n a nm At T Nm Df) as [w [M Ea]]. rewrite Ea in H. cbn [rbind] in H.
      injection H as <- <-. split; [|discriminate]. apply extends_one.
      exists [(prefix ++ zstr order)%string; (w ++ nm)%string; c; ""; ""; "yes"]. split; [exists (w ++ nm)%string, c; auto|].
      left. exists n, (prefix ++ zstr order)%string, w, nm, c, "", "yes". split; auto. split; auto. split; [right; right; exact T|].
      split; auto. split; auto. split; [right; split; auto; apply NT; discriminate|]. split; [left; split; auto; exact T|]. exact (given_shown _ _ _ _ Gc). }
    apply String.eqb_neq in X1, X2.
    assert (In_n : inner d n) by (split; apply NT; auto).
    apply rbind_ok in H. destruct H as [ls [El H]]. destruct (Lb ls El) as [J Sp]. rewrite Dl in H. cbn [rbind] in H.
    destruct (smem c_join ls && negb aj).
    { destruct (String.eqb t t_task || String.eqb t t_subprocess).
      { injection H as <- <-. split; [apply extends_refl|]. intros o' Eo. injection Eo as <-. exists n. auto. }
      destruct (outgoing_of d n) as [|f fs] eqn:Eo; cbn [rbind] in H; [discriminate|].
      destruct (target_found d Co n f) as [m [am [fa [Fl [Fm [E1 E2]]]]]]; [rewrite Eo; left; auto|].
      rewrite E1 in H. cbn [rbind] in H. rewrite E2 in H. cbn [rbind] in H. injection H as <- <-. split; [apply extends_refl|].
      intros o' Eq. injection Eq as <-. exists m. split; auto. eapply reached_step; eauto. }
    apply rbind_ok in H. destruct H as [rows1 [R1 H]].
    assert (Ex1 : extends rows rows1).
    { assert (Dn : dgetE k_node_name a = Ok (VStr nm)) by (unfold dgetE; change k_node_name with "node_name"; rewrite <- At, Nm; reflexivity).
      rewrite Dn in R1. cbn [rbind] in R1.
      assert (Mk : marked d n "").
      { right. right. split; auto. split; [intros [[Y|Y] _]|intros [Y _]]; revert Y; apply NT; auto. }
      destruct (String.eqb t t_task) eqn:X3; [|destruct (String.eqb t t_subprocess) eqn:X4]; injection R1 as <-; [| |apply extends_refl]; apply extends_one.
      - apply String.eqb_eq in X3. subst t. exists [(prefix ++ zstr order)%string; nm; c; ""; ""; ""]. split; [exists nm, c; auto|].
        left. exists n, (prefix ++ zstr order)%string, "", nm, c, "", "". split; auto. split; auto. split; [right; left; left; exact T|].
        split; auto. split; auto. split; [right; split; auto; apply NT; discriminate|]. split; [right; split; auto|]. exact (given_shown _ _ _ _ Gc).
      - apply String.eqb_eq in X4. subst t. exists [(prefix ++ zstr order)%string; nm; c; ""; "yes"; ""]. split; [exists nm, c; auto|].
        left. exists n, (prefix ++ zstr order)%string, "", nm, c, "yes", "". split; auto. split; auto. split; [right; left; right; exact T|].
        split; auto. split; auto. split; [left; split; auto; exact T|]. split; [right; split; auto|]. exact (given_shown _ _ _ _ Gc). }
    rewrite Sp in H. destruct (Nat.leb 2 (length (outgoing_of d n))) eqn:Xs.
    - apply Nat.leb_le in Xs. apply rbind_ok in H. destruct H as [[[rs k] i] [H K]]. cbn [fst snd] in K.
      assert (Step : forall f rs nx' i st', In f (outgoing_of d n) ->
        bstep d fuel prefix order (VStr t) (default_flow (VStr t) a) "" (rs, nx', i) f = Ok st' ->
        (forall o', nx' = Some o' -> exists k, found k o' /\ reached d s k) ->
        extends rs (fst (fst st')) /\ (forall o', snd (fst st') = Some o' -> exists k, found k o' /\ reached d s k)).
      { clear H K rs k i. intros f rs nx' i st' Hf H1 Nx.
        destruct (target_found d Co n f Hf) as [m [am [fa [Fl [Fm [E1 E2]]]]]].
        destruct (condition_named f fa t E1) as [cc [Ec Cn]]. unfold bstep in H1.
        rewrite E1 in H1. cbn [rbind] in H1. rewrite E2 in H1. cbn [rbind] in H1. rewrite Ec in H1.
        apply rbind_ok in H1. destruct H1 as [sf [Es H1]]. cbn [rbind fst] in H1.
        apply rbind_ok in H1. destruct H1 as [lm [Elm H1]].
        destruct (view d Co m _ Fm) as [tm [am' [_ [_ [_ [_ [_ Lbm]]]]]]]. destruct (Lbm lm Elm) as [Jm _]. rewrite Jm in H1.
        destruct (Nat.leb 2 (length (incoming_of d m))) eqn:Xj.
        - injection H1 as <-. cbn [fst snd]. split; [|exact Nx]. apply extends_one. apply Nat.leb_le in Xj.
          unfold ascii_lowercase in Es. destruct (Nat.ltb i 26) eqn:Li; [|discriminate]. apply Nat.ltb_lt in Li. injection Es as <-.
          eexists. split; [eexists; exists cc; split; [reflexivity|]; split; reflexivity|]. right. exists n, m.
          exists prefix, order, (ascii_of_nat (97 + i)), cc, f. cbn [e_order e_who e_subprocess e_terminated]. split.
          { rewrite !sapp_assoc. reflexivity. }
          split; [exists i; split; auto|]. split; [eapply given_pos; exact Gc|]. split; auto. split; auto. split; auto. split; auto. split; auto.
          destruct Cn as [[-> ->]|[Np Fnm]]; [left; auto|right; split; auto].
        - apply rbind_ok in H1. destruct H1 as [[r1 r2] [H1 E]]. injection E as <-. cbn [fst snd].
          unfold ascii_lowercase in Es. destruct (Nat.ltb i 26) eqn:Li; [|discriminate]. apply Nat.ltb_lt in Li. injection Es as <-.
          assert (Gm : exists c', (if is_default f (default_flow (VStr t) a) then VStr "else" else VStr cc) = VStr c' /\ branch_text d n f c').
          { unfold default_flow. cbn [veqs]. destruct (String.eqb t t_parallel_gateway) eqn:Xp.
            - apply String.eqb_eq in Xp. cbn [is_default]. exists cc. split; auto. destruct Cn as [[_ ->]|[Np _]]; [|contradiction]. subst t. left; auto.
            - apply String.eqb_neq in Xp. change k_default with "default". rewrite <- At.
              match goal with |- context [is_default f ?v] => assert (Ds : is_default f v = true <-> attr d n "default" = Some (VStr f)) end.
              { destruct (attr d n "default") as [[]|]; cbn [is_default veqs]; try (split; discriminate). rewrite String.eqb_eq. split; congruence. }
              match goal with |- context [is_default f ?v] => destruct (is_default f v) end.
              + exists "else". split; auto. right. split; [apply NT; auto|]. left. split; [apply Ds; auto|reflexivity].
              + exists cc. split; auto. destruct Cn as [[-> _]|[_ Fnm]]; [elim Xp; reflexivity|]. right.
                split; [apply NT; auto|]. right. split; auto. intros Y. apply Ds in Y. discriminate. }
          destruct Gm as [c' [Ec' Bt]]. rewrite Ec' in H1.
          assert (Gm : given_for m (prefix ++ zstr order ++ String (ascii_of_nat (97 + i)) "")%string 1 c').
          { right. split; auto. exists (prefix ++ zstr order)%string, (ascii_of_nat (97 + i)), n, f. rewrite sapp_assoc.
            split; auto. split; [exists i; auto|]. auto. }
          destruct (IH m (m, am) _ _ _ _ _ _ _ _ Fm (reached_step _ _ _ _ _ Rn Fl) eq_refl Gm H1) as [Ex' Nx']. split; auto.
          intros o' Eo. destruct r2 as [o2|]; auto. }
      assert (Fold : forall outs st st', (forall f, In f outs -> In f (outgoing_of d n)) ->
        rfold (bstep d fuel prefix order (VStr t) (default_flow (VStr t) a) "") outs st = Ok st' ->
        (forall o', snd (fst st) = Some o' -> exists k, found k o' /\ reached d s k) ->
        extends (fst (fst st)) (fst (fst st')) /\ (forall o', snd (fst st') = Some o' -> exists k, found k o' /\ reached d s k)).
      { clear - Step. induction outs as [|f outs IHo]; intros [[rs nx'] i] st' Ho H Nx; cbn [rfold] in H; [injection H as <-; split; auto; apply extends_refl|].
        apply rbind_ok in H. destruct H as [st1 [H1 H]]. destruct (Step f rs nx' i st1) as [E1 N1]; auto; [apply Ho; left; auto|].
        destruct (IHo st1 st') as [E2 N2]; auto; [intros; apply Ho; right; auto|]. split; auto. eapply extends_trans; eauto. }
      destruct (Fold (outgoing_of d n) (rows1, None, 0) (rs, k, i)) as [E2 N2]; auto; [discriminate|]. cbn [fst snd] in *.
      destruct k as [o2|].
      + destruct (N2 o2 eq_refl) as [q [Fq Rq]]. assert (Gq : given_for q prefix (order + 1) "") by (eapply given_next; exact Gc).
        destruct (IH q o2 _ _ _ _ _ _ _ _ Fq Rq eq_refl Gq K) as [E3 N3]. split; auto.
        eapply extends_trans; [exact Ex1|]. eapply extends_trans; eauto.
      + injection K as <- <-. split; [|discriminate]. eapply extends_trans; eauto.
    - destruct (outgoing_of d n) as [|f [|f' fs]] eqn:Eo; try (injection H as <- <-; split; [exact Ex1|discriminate]).
      destruct (target_found d Co n f) as [m [am [fa [Fl [Fm [E1 E2]]]]]]; [rewrite Eo; left; auto|].
      rewrite E1 in H. cbn [rbind] in H. rewrite E2 in H. cbn [rbind] in H.
      assert (Gm : given_for m prefix (order + 1) "") by (eapply given_next; exact Gc).
      destruct (IH m (m, am) _ _ _ _ _ _ _ _ Fm (reached_step _ _ _ _ _ Rn Fl) eq_refl Gm H) as [E3 N3]. split; auto.
      eapply extends_trans; eauto.
  Qed.
End Truth.

(** * The file *)
Lemma true_rows : forall d s rows lines, Forall (true_row d s) rows -> Forall2 shows rows lines ->
  forall l, In l lines -> (exists m, line_of_node d s m l) \/ exists g m, line_of_jump d s g m l.
Proof.
  intros d s rows lines T S l Hl. destruct (Forall2_in_r _ _ _ _ _ _ S Hl) as [r [Hr [a [c [Ea [Ec El]]]]]].
  rewrite Forall_forall in T. destruct (T r Hr) as [l' [[a' [c' [Ea' [Ec' El']]]] H]]. rewrite Ea in Ea'. rewrite Ec in Ec'.
  injection Ea' as <-. injection Ec' as <-. subst l l'. exact H.
Qed.
(** Whatever the shape of the diagram, loops included: when a file is written, every line of
    it is the line of a node that the flows reach from the entry, with its name and marks and the
    condition of a branch that leads to it, or the line of a branch that leads right to a meeting
    point. *)
Theorem C109_lines : forall d n fuel text, coherent d -> well_named d -> labelled d -> (forall m, entry_node d m <-> m = n) ->
  export_process_to_csv fuel d None = (Some text, Ok tt) ->
  exists lines, text = csv_text (csv_columns :: lines) /\
    forall l, In l lines -> (exists m, line_of_node d n m l) \/ exists g m, line_of_jump d n g m l.
Proof.
  intros d n fuel text Co WN LB En H. destruct (export_inv _ _ _ H) as [rows [lines [E [S T]]]]. injection T as ->.
  exists lines. split; auto. destruct (entry_found d Co n En) as [a [Fn Er]]. rewrite Er in E.
  apply rbind_ok in E. destruct E as [[rows' nx] [E X]]. cbn [fst] in X. injection X as <-.
  assert (G0 : given_for d n n "" 0 "") by (left; split; [left; split; [reflexivity|lia]|reflexivity]).
  destruct (truth d Co WN LB n fuel n (n, a) _ _ _ _ _ _ _ _ Fn (or_introl eq_refl) eq_refl G0 E) as [[more [-> Tm]] _].
  exact (true_rows d n _ lines Tm S).
Qed.
(** The first line is the one of the entry when that is a start event. *)
Theorem C109_first : forall d n fuel text, coherent d -> well_named d -> labelled d -> (forall m, entry_node d m <-> m = n) ->
  typed d n "startEvent" -> export_process_to_csv fuel d None = (Some text, Ok tt) ->
  exists w nm lines, marked d n w /\ named d n nm /\
    text = csv_text (csv_columns :: ["0"; (w ++ nm)%string; ""; ""; ""; ""] :: lines).
Proof.
  intros d n fuel text Co WN LB En Ty H. destruct (export_inv _ _ _ H) as [rows [lines [E [S T]]]]. injection T as ->.
  destruct (entry_found d Co n En) as [a [Fn Er]]. rewrite Er in E.
  apply rbind_ok in E. destruct E as [[rows' nx] [E X]]. cbn [fst] in X. injection X as <-.
  destruct fuel as [|fuel]; [discriminate|]. pose proof Fn as [_ [N G]].
  destruct (view d Co n _ Fn) as [t [b [Eb [Tn [Dt [Do _]]]]]]. injection Eb as <-.
  destruct (node_entry d n (proj1 Co) N) as [a' [G' [_ [At _]]]]. rewrite G in G'. injection G' as <-.
  destruct (WN n N) as [[nm Nm] Df]. assert (t = "startEvent") by (unfold typed in Ty; congruence). subst t.
  destruct (start_activity_of d n a nm At Ty Nm Df) as [w [M Ea]].
  cbn [export_node] in E. rewrite Dt in E. cbn [rbind veqs] in E. change (String.eqb "startEvent" t_start_event) with true in E. cbn iota in E.
  rewrite Ea, Do in E. cbn [rbind] in E. destruct (outgoing_of d n) as [|f fs] eqn:Eo; cbn [rbind] in E; [discriminate|].
  destruct (target_found d Co n f) as [m [am [fa [Fl [Fm [E1 E2]]]]]]; [rewrite Eo; left; auto|].
  rewrite E1 in E. cbn [rbind] in E. rewrite E2 in E. cbn [rbind] in E.
  assert (G0 : given_for d n m "" (0 + 1) "") by (left; split; [left; split; [reflexivity|lia]|reflexivity]).
  destruct (truth d Co WN LB n fuel m (m, am) _ _ _ _ _ _ _ _ Fm (reached_step _ _ _ _ _ (or_introl eq_refl) Fl) eq_refl G0 E) as [[more [-> _]] _].
  cbn [app] in S. inversion S as [|r l rs ls Sr Sl]; subst. destruct Sr as [x [c [Ex [Ec ->]]]]. cbn in Ex, Ec. injection Ex as <-. injection Ec as <-.
  exists w, nm, ls. split; auto.
Qed.
(** The same for the diagrams of the API. *)
Theorem C109_api : forall ops d n fuel text, proper_history ops d -> distinct_pairs d -> (forall m, entry_node d m <-> m = n) ->
  export_process_to_csv fuel d None = (Some text, Ok tt) ->
  exists lines, text = csv_text (csv_columns :: lines) /\
    forall l, In l lines -> (exists m, line_of_node d n m l) \/ exists g m, line_of_jump d n g m l.
Proof.
  intros ops d n fuel text H D En E. pose proof (proper_is_history ops d H) as H0.
  destruct (C26_api_diagrams_coherent ops d H0 D) as [Co _].
  apply (C109_lines d n fuel text Co (api_named ops d H) (api_labelled ops d H0) En E).
Qed.

(** * Concrete cases *)
Lemma flow_ok : forall d f n m, goes_b d f n m && smem f (outgoing_of d n) && smem f (incoming_of d m) = true -> flow d f n m.
Proof.
  intros d f n m H. apply andb_true_iff in H. destruct H as [H C]. apply andb_true_iff in H. destruct H as [A B].
  apply goes_ok in A. apply smem_In in B, C. split; auto.
Qed.
(** Two splits and a meeting point; one branch leads right to it.  One line of each kind. *)
Example C109_lines_example : proper_history tangle_ops tangle /\ distinct_pairs tangle /\ typed tangle "s" "startEvent" /\
  (forall m, entry_node tangle m <-> m = "s") /\ (exists text, export_process_to_csv 10 tangle None = (Some text, Ok tt)) /\
  line_of_node tangle "s" "c" ["1a2a1"; "c"; "long"; ""; ""; ""] /\ line_of_jump tangle "s" "g2" "j" ["1a2b1"; "goto 1a3"; "short"; ""; ""; ""].
Proof.
  destruct C108_api_example as [H [D [_ [_ [En [_ E]]]]]]. split; auto. split; auto. split; [apply typed_b; vm_compute; reflexivity|]. split; auto.
  split; [eauto|]. pose proof (proper_is_history _ _ H) as H0.
  pose proof (flow_ok tangle) as G.
  assert (R : reached tangle "s" "g2").
  { apply reached_step with "a" "id13"; [|apply G; vm_compute; reflexivity]. apply reached_step with "g" "id11"; [|apply G; vm_compute; reflexivity].
    apply reached_step with "s" "id10"; [left; reflexivity|apply G; vm_compute; reflexivity]. }
  assert (F : flow tangle "id14" "g2" "c") by (apply G; vm_compute; reflexivity).
  assert (F' : flow tangle "id15" "g2" "j") by (apply G; vm_compute; reflexivity).
  assert (I : inner tangle "g2") by (split; apply is_not; vm_compute; reflexivity).
  assert (S : split_node tangle "g2") by (unfold split_node; apply Nat.leb_le; vm_compute; reflexivity).
  assert (P : ~ typed tangle "g2" "parallelGateway") by (apply is_not; vm_compute; reflexivity).
  split.
  - exists "1a2a1", "", "c", "long", "", "". split; auto. split; [apply reached_step with "g2" "id14"; auto|].
    split; [right; left; left; apply typed_b; vm_compute; reflexivity|].
    split; [right; right; split; auto; split; [intros [[T|T] _]|intros [T _]]; revert T; apply is_not; vm_compute; reflexivity|].
    split; [vm_compute; reflexivity|]. split; [right; split; [apply is_not; vm_compute; reflexivity|reflexivity]|].
    split; [right; split; [apply is_not; vm_compute; reflexivity|reflexivity]|].
    right. exists "1a2", "a"%char, "g2", "id14". split; [reflexivity|]. split; [exists 0; split; [lia|reflexivity]|].
    split; auto. split; auto. split; auto. split; auto. right. split; auto. right.
    split; [vm_compute; discriminate|]. eexists. split; [vm_compute; reflexivity|left; vm_compute; reflexivity].
  - exists "1a", 2%Z, "b"%char, "short", "id15". split; [vm_compute; reflexivity|].
    split; [exists 1; split; [lia|reflexivity]|]. split; [lia|]. split; auto. split; auto. split; auto. split; auto.
    split; [unfold join_node; apply Nat.leb_le; vm_compute; reflexivity|]. right. split; auto. eexists. split; [vm_compute; reflexivity|left; vm_compute; reflexivity].
Qed.

(** The converse fails without any loop: a split with two meeting points.  Only what follows
    the second is written; the activity after the first has no line. *)
Definition pairs_ops : list op :=
  [ONew "m" "0"; OProcess "p" false true "None" "1" "2"; OStart "id2" "s" None false true (Some "s") "" "";
   OExclusive "id2" "g" "Diverging" None (Some "g") ""; OTask "id2" "a" (Some "a") ""; OTask "id2" "b" (Some "b") "";
   OTask "id2" "c" (Some "c") ""; OTask "id2" "d" (Some "d") "";
   OExclusive "id2" "j1" "Converging" None (Some "j1") ""; OExclusive "id2" "j2" "Converging" None (Some "j2") "";
   OTask "id2" "weigh" (Some "m1") ""; OTask "id2" "pack" (Some "m2") "";
   OEnd "id2" "e1" None (Some "e1") "" ""; OEnd "id2" "e2" None (Some "e2") "" "";
   OFlow "id2" "s" "g" "" "10"; OFlow "id2" "g" "a" "1" "11"; OFlow "id2" "g" "b" "2" "12"; OFlow "id2" "g" "c" "3" "13"; OFlow "id2" "g" "d" "4" "14";
   OFlow "id2" "a" "j1" "" "15"; OFlow "id2" "b" "j1" "" "16"; OFlow "id2" "c" "j2" "" "17"; OFlow "id2" "d" "j2" "" "18";
   OFlow "id2" "j1" "m1" "" "19"; OFlow "id2" "j2" "m2" "" "20"; OFlow "id2" "m1" "e1" "" "21"; OFlow "id2" "m2" "e2" "" "22"].
Definition pairs_demo : diagram := run empty_diagram pairs_ops.
Theorem C109_every_activity_refuted : exists ops d n lines, proper_history ops d /\ distinct_pairs d /\ acyclic d /\ fit d /\
  (forall m, entry_node d m <-> m = "s") /\ reached d "s" n /\ activity d n /\ named d n "weigh" /\
  export_process_to_csv 20 d None = (Some (csv_text (csv_columns :: lines)), Ok tt) /\
  forall o c w s t, ~ In [o; "weigh"; c; w; s; t] lines.
Proof.
  assert (H : proper_history pairs_ops pairs_demo) by (apply (pcheck_history pairs_ops [] empty_diagram ph_nil); vm_compute; reflexivity).
  assert (D : distinct_pairs pairs_demo) by (apply pairs_checked_ok; vm_compute; reflexivity).
  pose proof (proper_is_history _ _ H) as H0. destruct (C26_api_diagrams_coherent _ _ H0 D) as [Co _].
  exists pairs_ops, pairs_demo, "m1",
    [["0"; "s"; ""; ""; ""; ""]; ["1a1"; "a"; "1"; ""; ""; ""]; ["1b1"; "b"; "2"; ""; ""; ""]; ["1c1"; "c"; "3"; ""; ""; ""]; ["1d1"; "d"; "4"; ""; ""; ""];
     ["2"; "pack"; ""; ""; ""; ""]; ["3"; "e2"; ""; ""; ""; "yes"]].
  split; auto. split; auto.
  split; [apply (ranked_acyclic _ _ (pos ["s"; "g"; "a"; "b"; "c"; "d"; "j1"; "j2"; "m1"; "m2"; "e1"; "e2"]) H0); vm_compute; reflexivity|].
  split; [apply fit_ok; vm_compute; reflexivity|]. split; [apply entries_ok; [exact (proj1 Co)|vm_compute; reflexivity]|].
  split.
  { apply reached_step with "j1" "id19"; [|apply flow_ok; vm_compute; reflexivity]. apply reached_step with "a" "id15"; [|apply flow_ok; vm_compute; reflexivity].
    apply reached_step with "g" "id11"; [|apply flow_ok; vm_compute; reflexivity]. apply reached_step with "s" "id10"; [left; reflexivity|apply flow_ok; vm_compute; reflexivity]. }
  split; [left; apply typed_b; vm_compute; reflexivity|]. split; [vm_compute; reflexivity|]. split; [vm_compute; reflexivity|].
  intros o c w s t X. repeat (destruct X as [X|X]; [discriminate|]). exact X.
Qed.
Print Assumptions C109_lines.
Print Assumptions C109_first.
Print Assumptions C109_api.
Print Assumptions C109_every_activity_refuted.
