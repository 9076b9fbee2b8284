(** The rows of chains and of straight ways, and the written text. *)
From Coq Require Import String Ascii List Bool Arith ZArith Lia Permutation.
From Verif Require Import Py PyFacts Consts Nx NxFacts Rep SpecRep RepFacts MetricsFacts Classify SpecLayout ClassifyFacts.
From Verif Require Import CsvRegex CsvImport SpecCsv RegexFacts CsvFacts CsvTable CsvExport SpecCsvExport CsvExportFacts.
Import ListNotations.
Open Scope string_scope.
Open Scope list_scope.

(** * Writing *)
Definition shows (r : erow) (fields : list string) : Prop :=
  exists a c, e_activity r = VStr a /\ e_condition r = VStr c /\
    fields = [e_order r; a; c; e_who r; e_subprocess r; e_terminated r].
Lemma row_line_shows : forall r fields, shows r fields -> row_line r = Ok (csv_line fields).
Proof.
  intros r fields [a [c [A [C ->]]]]. unfold row_line. rewrite A, C. cbn [field rbind].
  unfold csv_line. cbn [String.concat]. rewrite !sapp_assoc. reflexivity.
Qed.
Lemma row_line_inv : forall r s, row_line r = Ok s -> exists fields, shows r fields /\ s = csv_line fields.
Proof.
  intros r s H. unfold row_line in H. destruct (e_activity r) eqn:A; try discriminate.
  destruct (e_condition r) eqn:C; try discriminate. inv H.
  eexists. split; [exists s0, s1; eauto|]. unfold csv_line. cbn [String.concat]. rewrite !sapp_assoc. reflexivity.
Qed.
Lemma csv_text_cons : forall l t, csv_text (l :: t) = (csv_line l ++ csv_text t)%string.
Proof. intros l [|x t]; unfold csv_text; cbn [map String.concat]; [rewrite sapp_nil; reflexivity|reflexivity]. Qed.
Lemma written : forall rows lines o, Forall2 shows rows lines ->
  write_export_node_to_file rows (Some o) = (Some (o ++ csv_text lines)%string, Ok tt).
Proof.
  intros rows lines o H. revert o. unfold write_export_node_to_file. induction H as [|r l rows lines S H IH]; intros o.
  - simpl. unfold csv_text. simpl. rewrite sapp_nil. reflexivity.
  - cbn [mfor]. unfold mbind, mread. rewrite (row_line_shows _ _ S).
    unfold fwrite at 1. unfold mmodify. cbn [fst snd]. rewrite IH, csv_text_cons, sapp_assoc. reflexivity.
Qed.
Lemma header_text : csv_header = csv_text [csv_columns].
Proof. reflexivity. Qed.
Lemma exported_text : forall fuel d rows lines, export_rows fuel d = Ok rows -> Forall2 shows rows lines ->
  export_process_to_csv fuel d None = (Some (csv_text (csv_columns :: lines)), Ok tt).
Proof.
  intros fuel d rows lines E S. unfold export_process_to_csv. rewrite mbind_read, E.
  unfold mbind, fwrite, mmodify. rewrite (written _ lines) by auto. rewrite header_text, !csv_text_cons.
  change (csv_text []) with "". rewrite sapp_nil. reflexivity.
Qed.

(** * Names *)
Lemma first_definition_of : forall d n a, (forall k, attr d n k = dget k a) ->
  (attr d n "event_definitions" = None \/ exists l, attr d n "event_definitions" = Some (VDefs l)) ->
  exists o, first_definition a = Ok o /\ (forall t, first_event d n t <-> o = Some t).
Proof.
  intros d n a At H. unfold first_definition, first_event. change k_event_definitions with "event_definitions".
  rewrite <- At. destruct H as [H|[l H]]; rewrite H.
  - exists None. split; auto. intros t. split; [intros [i [l E]]; discriminate|discriminate].
  - destruct l as [|[i t] l].
    + exists None. split; auto. intros t. split; [intros [i [l E]]; discriminate|discriminate].
    + exists (Some t). split; auto. intros t'. split; [intros [i' [l' E]]; congruence|intros E; inv E; eauto].
Qed.
Lemma typed_fun : forall d n t t', typed d n t -> typed d n t' -> t = t'.
Proof. unfold typed. intros. congruence. Qed.
Lemma start_activity_of : forall d n a nm, (forall k, attr d n k = dget k a) -> typed d n "startEvent" -> named d n nm ->
  (attr d n "event_definitions" = None \/ exists l, attr d n "event_definitions" = Some (VDefs l)) ->
  exists w, marked d n w /\ start_activity a = Ok (VStr (w ++ nm)%string).
Proof.
  intros d n a nm At T N H. destruct (first_definition_of d n a At H) as [o [E F]].
  unfold start_activity. rewrite E. cbn [rbind]. unfold dgetE. change k_node_name with "node_name". rewrite <- At, N. cbn [rbind].
  assert (X : forall t, (first_event d n t -> False) <-> o <> Some t) by (intros t; rewrite F; tauto).
  destruct o as [t|].
  - destruct (String.eqb t "messageEventDefinition") eqn:E1.
    + apply String.eqb_eq in E1. subst t. exists "message ". split; [left; split; auto; split; [auto|apply F; auto]|reflexivity].
    + destruct (String.eqb t "timerEventDefinition") eqn:E2.
      * apply String.eqb_eq in E2. subst t. exists "timer ". split; [right; left; split; auto; split; [auto|apply F; auto]|reflexivity].
      * apply String.eqb_neq in E1, E2. exists "". split; [|reflexivity]. right. right. split; auto.
        split; intros [_ C]; apply F in C; congruence.
  - exists "". split; [|reflexivity]. right. right. split; auto. split; intros [_ C]; apply F in C; congruence.
Qed.
Lemma end_activity_of : forall d n a nm, (forall k, attr d n k = dget k a) -> typed d n "endEvent" -> named d n nm ->
  (attr d n "event_definitions" = None \/ exists l, attr d n "event_definitions" = Some (VDefs l)) ->
  exists w, marked d n w /\ end_activity a = Ok (VStr (w ++ nm)%string).
Proof.
  intros d n a nm At T N H. destruct (first_definition_of d n a At H) as [o [E F]].
  unfold end_activity. rewrite E. cbn [rbind]. unfold dgetE. change k_node_name with "node_name". rewrite <- At, N. cbn [rbind].
  assert (NS : ~ typed d n "startEvent") by (intros C; pose proof (typed_fun _ _ _ _ T C); discriminate).
  destruct o as [t|].
  - destruct (String.eqb t "messageEventDefinition") eqn:E1.
    + apply String.eqb_eq in E1. subst t. exists "message ". split; [left; split; auto; split; [auto|apply F; auto]|reflexivity].
    + apply String.eqb_neq in E1. exists "". split; [|reflexivity]. right. right. split; auto.
      split; [intros [_ C]; apply F in C; congruence|tauto].
  - exists "". split; [|reflexivity]. right. right. split; auto. split; [intros [_ C]; apply F in C; congruence|tauto].
Qed.

(** * Chains *)
Section Chain.
  Variables (d : diagram) (s : string) (acts : list string) (e : string).
  Hypothesis H : chain d s acts e.
  Let ns := s :: acts ++ [e].
  Let classes := map (fun c => (cid c, ccls c)) (classified d).

  Lemma ch_listed : listed d.
  Proof. apply H. Qed.
  Lemma ch_nodes : forall n, is_node d n <-> In n ns.
  Proof. apply H. Qed.
  Lemma ch_next : forall a n m b, ns = a ++ n :: m :: b -> exists f, outgoing_of d n = [f] /\ flow_goes d f n m.
  Proof.
    intros a n m b E. destruct H as [_ [[_ [_ [D F]]] _]]. destruct (proj2 (F n m)) as [f [Fo [_ G]]]; [eauto|].
    exists f. split; auto. destruct (D n) as [_ Do]. destruct (outgoing_of d n) as [|f' [|]]; [contradiction| |simpl in Do; lia].
    destruct Fo as [-> |[]]. reflexivity.
  Qed.
  Lemma ch_labels : forall n t, typed d n t -> laid_out t -> exists ls, dget n classes = Some ls /\
    smem c_join ls = false /\ smem c_split ls = false.
  Proof.
    intros n t T O. destruct (class_of d n t ch_listed T O) as [ls [E [J S]]]. exists ls. split; auto.
    destruct H as [_ [[_ [_ [D F]]] _]]. destruct (D n) as [D1 D2].
    rewrite J, S. split; apply Nat.leb_gt; lia.
  Qed.

  (** The rows from an activity or the end event on. *)
  Lemma chain_rest : forall rest pre n a fuel rows, ns = s :: pre ++ n :: rest -> get_node_by_id n d = Some (n, a) ->
    length rest < fuel ->
    exists out lines, export_node fuel d classes (Some (n, a)) (Z.of_nat (S (length pre))) "" (VStr "") "" false rows = Ok (rows ++ out, None) /\
      Forall2 shows out lines /\
      (forall i x, nth_error (n :: rest) i = Some x -> exists l, nth_error lines i = Some l /\ chain_line d (S (length pre) + i) x l) /\
      length lines = S (length rest).
  Proof.
    induction rest as [|m rest IH]; intros pre n a fuel rows E G F.
    - destruct fuel as [|fuel]; [simpl in F; lia|].
      assert (n = e). { unfold ns in E. inv E. apply app_inj_tail in H1. symmetry. tauto. } subst n.
      destruct H as [_ [_ [W [_ [Te _]]]]].
      destruct (node_entry d e ch_listed) as [a' [G' [_ [At _]]]].
      { apply ch_nodes. unfold ns. right. apply in_or_app. right. left. auto. }
      rewrite G in G'. inv G'. destruct (W e) as [[nm N] Df].
      { apply ch_nodes. unfold ns. right. apply in_or_app. right. left. auto. }
      destruct (end_activity_of d e a' nm At Te N Df) as [w [M Ea]].
      cbn [export_node]. unfold dgetE. change k_type with "type". rewrite <- At, Te. cbn [rbind veqs].
      change (String.eqb "endEvent" t_start_event) with false. change (String.eqb "endEvent" t_end_event) with true. cbv iota.
      rewrite Ea. cbn [rbind]. eexists. eexists. split; [reflexivity|]. split; [constructor; [|constructor]; exists (w ++ nm)%string, ""; auto|].
      split; [|reflexivity]. intros [|i] x Hx; [|destruct i; discriminate]. inv Hx. eexists. split; [reflexivity|].
      exists w, nm, "", "yes". split; auto. split; auto. split.
      { right. split; auto. intros C. pose proof (typed_fun _ _ _ _ Te C). discriminate. }
      split; [left; auto|]. rewrite Nat.add_0_r. reflexivity.
    - destruct fuel as [|fuel]; [simpl in F; lia|]. cbn [length] in F.
      assert (Hin : In n ns) by (rewrite E; right; apply in_or_app; right; left; auto).
      assert (Ha : In n acts).
      { unfold ns in E. inv E. clear - H1. destruct (@exists_last _ (m :: rest)) as [r [z Z]]; [discriminate|]. rewrite Z in H1.
        change (acts ++ [e] = pre ++ (n :: r) ++ [z]) in H1. rewrite app_assoc in H1. apply app_inj_tail in H1. destruct H1 as [-> _].
        apply in_or_app. right. left. auto. }
      destruct (ch_next (s :: pre) n m rest) as [f [Ef Gf]]; [exact E|].
      assert (Nm : is_node d m) by (apply ch_nodes; rewrite E; right; apply in_or_app; right; right; left; auto).
      destruct (target_of d f n m ch_listed Nm Gf) as [fa [am [E1 [E2 E3]]]].
      destruct (node_entry d n ch_listed) as [a' [G' [_ [At [_ Ho]]]]]; [apply ch_nodes; auto|].
      rewrite G in G'. inv G'. rewrite Ef in Ho.
      destruct (node_entry d m ch_listed Nm) as [am' [Gm [Hm _]]].
      assert (am' = am).
      { destruct ch_listed as [U _]. apply In_dget in Hm; [|exact U]. apply In_dget in E3; [|exact U]. congruence. }
      subst am'.
      assert (W : exists nm, named d n nm) by (destruct H as [_ [_ [W _]]]; apply W, ch_nodes; auto).
      destruct W as [nm N].
      assert (T : typed d n "task" \/ typed d n "subProcess") by (apply H; auto).
      assert (Q : exists t, typed d n t /\ (t = "task" \/ t = "subProcess")) by (destruct T; eauto).
      destruct Q as [t [Tt Dt]].
      assert (O : laid_out t) by (unfold laid_out; destruct Dt as [-> | ->]; simpl; auto).
      destruct (ch_labels n t Tt O) as [ls [Els [J Sp]]].
      set (sub := if String.eqb t "subProcess" then "yes" else "").
      assert (Hsub : yes_iff (typed d n "subProcess") sub).
      { unfold sub. destruct Dt as [-> | ->]; [right|left]; split; auto. intros C. pose proof (typed_fun _ _ _ _ Tt C). discriminate. }
      set (row := mkERow (zstr (Z.of_nat (S (length pre)))) (VStr nm) (VStr "") "" sub "").
      specialize (IH (pre ++ [n]) m am fuel (rows ++ [row])).
      destruct IH as [out [lines [Ex [Fs [Hl Ln]]]]]; auto; [rewrite <- app_assoc; exact E|lia|].
      exists (row :: out), ([zstr (Z.of_nat (S (length pre))); nm; ""; ""; sub; ""] :: lines). split.
      + replace (rows ++ row :: out) with ((rows ++ [row]) ++ out) by (rewrite <- app_assoc; reflexivity). rewrite <- Ex.
        cbn [export_node]. unfold dgetE. change k_type with "type". rewrite <- At. unfold typed in Tt. rewrite Tt. cbn [rbind veqs].
        assert (Zo : (Z.of_nat (S (length pre)) + 1 = Z.of_nat (S (length (pre ++ [n]))))%Z) by (rewrite app_length; simpl length; lia).
        unfold outgoing_list. change k_outgoing with "outgoing". rewrite Ho, Els. cbn [rbind]. rewrite J, Sp. cbn [andb].
        unfold dgetE. change k_node_name with "node_name". rewrite <- At. unfold named in N. rewrite N. cbn [rbind].
        unfold row, sub. destruct Dt as [-> | ->]; vm_compute (String.eqb _ _); cbv iota; cbn [rbind];
          rewrite E1; cbn [rbind]; rewrite E2; cbn [rbind]; rewrite Zo; reflexivity.
      + split; [constructor; auto; exists nm, ""; auto|]. split; [|simpl; lia].
        intros [|i] x Hx.
        * inv Hx. eexists. split; [reflexivity|]. exists "", nm, sub, "". split.
          { right. right. split; auto. split; intros [[C|C] _] || intros [C _];
              destruct Dt as [-> | ->]; pose proof (typed_fun _ _ _ _ Tt C); discriminate. }
          split; auto. split; auto. split; [right; split; auto; intros C; destruct Dt as [-> | ->]; pose proof (typed_fun _ _ _ _ Tt C); discriminate|].
          rewrite Nat.add_0_r. reflexivity.
        * cbn [nth_error] in *. destruct (Hl i x Hx) as [l [A B]]. exists l. split; auto.
          rewrite app_length in B. replace (S (length pre) + S i) with (S (length pre + length [n]) + i) by (simpl; lia). exact B.
  Qed.

  Lemma ch_first : incoming_of d s = [].
  Proof.
    destruct (incoming_of d s) as [|f r] eqn:Ei; auto. exfalso.
    destruct H as [[_ [_ [_ Co]]] [[Nd [_ [D Fl]]] _]]. destruct (Co s f) as [x [Gx Fx]]; [rewrite Ei; left; auto|].
    destruct (proj1 (Fl x s)) as [l0 [l1 E']].
    { exists f. split; auto. split; auto. rewrite Ei. left. auto. }
    inversion Nd as [|? ? N1 N2]; subst. destruct l0 as [|y l0]; injection E' as E1 E2.
    - apply N1. rewrite E2. left. auto.
    - apply N1. rewrite E2. apply in_or_app. right. right. left. auto.
  Qed.

  Lemma chain_export : forall fuel, length acts + 1 < fuel -> exists lines,
    export_process_to_csv fuel d None = (Some (csv_text (csv_columns :: lines)), Ok tt) /\
    length lines = length ns /\
    forall i x, nth_error ns i = Some x -> exists l, nth_error lines i = Some l /\ chain_line d i x l.
  Proof.
    intros fuel F. destruct fuel as [|fuel]; [lia|].
    assert (Ns : is_node d s) by (apply ch_nodes; left; auto).
    destruct (node_entry d s ch_listed Ns) as [a [G [Hs [At [_ Ho]]]]].
    assert (En : filter no_incoming (gnodes (dgraph d)) = [(s, a)]).
    { destruct (proj2 (entry_unique d ch_listed)) as [[n b] E].
      - exists s. intros m. split.
        + intros [Nm Im]. apply ch_nodes in Nm. destruct (In_nth_error _ _ Nm) as [[|i] Hi]; [inv Hi; auto|]. exfalso.
          destruct (nth_error_split _ _ Hi) as [l1 [l2 [E L]]]. destruct (@exists_last _ l1) as [l0 [x ->]]; [destruct l1; [simpl in L; lia|discriminate]|].
          destruct H as [_ [[_ [_ [D Fl]]] _]]. destruct (proj2 (Fl x m)) as [f [_ [Fi _]]].
          { exists l0, l2. fold ns. rewrite E, <- app_assoc. reflexivity. }
          rewrite Im in Fi. contradiction.
        + intros ->. split; auto. apply ch_first.
      - assert (I : In (s, a) (filter no_incoming (gnodes (dgraph d)))).
        { apply filter_In. split; auto. pose proof ch_first as Y.
          unfold no_incoming, lst. cbn [snd]. unfold incoming_of in Y. rewrite At in Y. destruct (dget "incoming" a) as [[]|]; auto. rewrite Y. auto. }
        rewrite E in *. destruct I as [I|[]]. rewrite I. reflexivity. }
    assert (Er : entry_nodes d = Ok [(s, a)]) by (rewrite (entry_nodes_eq d ch_listed), En; reflexivity).
    destruct (H) as [_ [_ [W [Ts _]]]]. destruct (W s Ns) as [[nm N] Df].
    destruct (start_activity_of d s a nm At Ts N Df) as [w [M Ea]].
    assert (Ex : exists m rest, acts ++ [e] = m :: rest) by (destruct acts; simpl; eauto).
    destruct Ex as [m [rest Em]].
    destruct (ch_next [] s m rest) as [f [Ef Gf]]; [unfold ns; rewrite Em; reflexivity|].
    assert (Nm : is_node d m) by (apply ch_nodes; unfold ns; rewrite Em; right; left; auto).
    destruct (target_of d f s m ch_listed Nm Gf) as [fa [am [E1 [E2 E3]]]].
    destruct (node_entry d m ch_listed Nm) as [am' [Gm [Hm _]]].
    assert (am' = am).
    { destruct ch_listed as [U _]. apply In_dget in Hm; [|exact U]. apply In_dget in E3; [|exact U]. congruence. }
    subst am'. rewrite Ef in Ho.
    set (row := mkERow "0" (VStr (w ++ nm)%string) (VStr "") "" "" "").
    assert (Len : length rest = length acts).
    { apply (f_equal (@length string)) in Em. rewrite app_length in Em. simpl in Em. lia. }
    destruct (chain_rest rest [] m am fuel [row]) as [out [lines [Eo [Fs [Hl Ln]]]]]; auto; [unfold ns; rewrite Em; reflexivity|lia|].
    exists (["0"; (w ++ nm)%string; ""; ""; ""; ""] :: lines). split; [|split].
    - apply (exported_text (S fuel) d (row :: out)).
      + unfold export_rows. rewrite Er. cbn [rbind]. rewrite (nodes_eq d ch_listed). cbn [rbind]. fold classes.
        cbn [export_node]. unfold dgetE. change k_type with "type". rewrite <- At. unfold typed in Ts. rewrite Ts. cbn [rbind veqs].
        change (String.eqb "startEvent" t_start_event) with true. cbv iota.
        rewrite Ea. cbn [rbind]. change k_outgoing with "outgoing". rewrite Ho. cbn [rbind]. rewrite E1. cbn [rbind]. rewrite E2. cbn [rbind].
        change (rbind (export_node fuel d classes (Some (m, am)) (Z.of_nat (S (length (@nil string)))) "" (VStr "") "" false [row])
                  (fun r => Ok (fst r)) = Ok (row :: out)). rewrite Eo. reflexivity.
      + constructor; auto. exists (w ++ nm)%string, "". auto.
    - simpl. rewrite Ln, Len, app_length. simpl. lia.
    - intros [|i] x Hx.
      + inv Hx. eexists. split; [reflexivity|]. exists w, nm, "", "". split; auto. split; auto. split; [|split; [|reflexivity]].
        * right. split; auto. intros C. pose proof (typed_fun _ _ _ _ Ts C). discriminate.
        * right. split; auto. intros C. pose proof (typed_fun _ _ _ _ Ts C). discriminate.
      + cbn [nth_error ns] in Hx. unfold ns in Hx. cbn [nth_error] in Hx. rewrite Em in Hx. destruct (Hl i x Hx) as [l [A B]].
        exists l. split; auto.
  Qed.
End Chain.
