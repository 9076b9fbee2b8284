(** The rows the CSV exporter makes for block-structured processes. *)
From Coq Require Import String Ascii List Bool Arith ZArith Lia.
From Verif Require Import Py PyFacts Consts Nx NxFacts Rep SpecRep RepFacts MetricsFacts Classify SpecLayout ClassifyFacts.
From Verif Require Import CsvRegex CsvImport SpecCsv RegexFacts CsvFacts CsvTable CsvExport SpecCsvExport CsvExportFacts CsvChain SpecBlocks.
Import ListNotations.
Open Scope string_scope.
Open Scope list_scope.

Definition branch_prefix (prefix : string) (k : Z) (i : nat) : string := (prefix ++ zstr k ++ branch_letter i)%string.
Definition branch_lines (d : diagram) (prefix : string) (k : Z) (g : string) (i : nat) (f : string) (b : branch_t) : list (list string) :=
  match b with
  | ([], None) => [jump_line prefix (branch_prefix prefix k i) k (condition_text d g f)]
  | (ps, stop) => sequence_lines d (branch_prefix prefix k i) 1 (branch_mark d g f) ps stop
  end.
Fixpoint branches_lines (d : diagram) (prefix : string) (k : Z) (g : string) (i : nat) (fs : list string) (bs : list branch_t)
  : list (list string) :=
  match fs, bs with
  | f :: fs', b :: bs' => branch_lines d prefix k g i f b ++ branches_lines d prefix k g (S i) fs' bs'
  | _, _ => []
  end.
Lemma block_lines : forall d prefix k c g j bs,
  part_lines d prefix k c (Block g j bs) = branches_lines d prefix k g 0 (outgoing_of d g) bs.
Proof.
  intros d prefix k c g j bs. cbn [part_lines]. generalize (outgoing_of d g) 0. induction bs as [|[ps stop] bs IH]; intros fs i.
  - destruct fs; reflexivity.
  - destruct fs as [|f fs]; [reflexivity|]. cbn [branches_lines]. rewrite <- IH. f_equal.
    assert (G : forall qs m c',
      (fix steps (m : Z) (c : string) (ps : list part) : list (list string) :=
         match ps with
         | [] => match stop with Some e => [end_line d (prefix ++ zstr k ++ branch_letter i)%string m c e] | None => [] end
         | q :: qs => part_lines d (prefix ++ zstr k ++ branch_letter i)%string m c q ++ steps (m + 1)%Z "" qs
         end) m c' qs = sequence_lines d (branch_prefix prefix k i) m c' qs stop).
    { induction qs as [|q qs IHq]; intros m c'; [reflexivity|]. cbn [sequence_lines]. rewrite <- IHq. reflexivity. }
    destruct ps as [|p ps]; [destruct stop; reflexivity|].
    unfold branch_lines. rewrite <- G. reflexivity.
Qed.

Section Structured.
  Variable d : diagram.
  Hypotheses (Co : coherent d) (Wn : well_named d) (Lb : labelled d).
  Let classes := map (fun c => (cid c, ccls c)) (classified d).
  Let L : listed d := proj1 Co.

  Lemma text_of_node : forall n a, is_node d n -> (forall k, attr d n k = dget k a) ->
    dget "node_name" a = Some (VStr (node_text d n)).
  Proof.
    intros n a N At. destruct (Wn n N) as [[s Hs] _]. unfold node_text, named in *. rewrite <- At, Hs. reflexivity.
  Qed.
  Lemma word_of : forall n w, is_node d n -> marked d n w -> (typed d n "startEvent" \/ typed d n "endEvent") -> w = event_word d n.
  Proof.
    intros n w N M T. destruct (Wn n N) as [_ Df]. unfold marked, first_event, event_word, typed in *.
    destruct Df as [E|[l E]]; rewrite E in *.
    - destruct M as [[_ [_ [i [l C]]]]|[[_ [_ [i [l C]]]]|[-> _]]]; try discriminate. reflexivity.
    - destruct l as [|[i t] l].
      + destruct M as [[_ [_ [i [l C]]]]|[[_ [_ [i [l C]]]]|[-> _]]]; try discriminate. reflexivity.
      + destruct M as [[-> [_ [i' [l' C]]]]|[[-> [T' [i' [l' C]]]]|[-> [N1 N2]]]].
        * injection C as _ -> _. destruct T as [T|T]; rewrite T; reflexivity.
        * injection C as _ -> _. rewrite T'. reflexivity.
        * destruct (String.eqb t "messageEventDefinition") eqn:E1.
          { apply String.eqb_eq in E1. subst t. exfalso. apply N1. split; eauto. }
          destruct (String.eqb t "timerEventDefinition") eqn:E2; cbn [andb].
          { apply String.eqb_eq in E2. subst t. destruct T as [T|T]; rewrite T; [|reflexivity].
            exfalso. apply N2. split; eauto. }
          destruct T as [T|T]; rewrite T; reflexivity.
  Qed.
  Lemma is_type_typed : forall n t t', typed d n t -> is_type d n t' = String.eqb t t'.
  Proof. intros n t t' T. unfold is_type, typed in *. rewrite T. reflexivity. Qed.

  Lemma flow_in : forall l f t, first_flow f l = Ok (Some t) -> In t l.
  Proof.
    induction l as [|e l IH]; intros f t H; [discriminate|]. cbn [first_flow] in H.
    unfold rbind, dgetE in H. destruct (dget _ (snd e)) as [v|]; [|discriminate].
    destruct (veqs v f); [inv H; left; auto|right; eauto].
  Qed.
  (** The target of a flow, and its condition. *)
  Lemma opened : forall f g x a, is_node d x -> flow_goes d f g x -> get_node_by_id x d = Some (x, a) ->
    exists fa, flow_of d f = Ok fa /\ target_node d fa = Ok (Some (x, a)) /\
      forall t, typed d g t -> branch_condition (VStr t) fa = VStr (condition_text d g f).
  Proof.
    intros f g x a N F G. pose proof F as F0. destruct F0 as [t [E [_ T]]]. exists (snd t).
    assert (Ef : flow_of d f = Ok (snd t)) by (unfold flow_of; rewrite E; reflexivity).
    split; auto. split.
    - unfold target_node, dgetE. change k_target_ref with "targetRef". rewrite T. cbn [rbind]. rewrite G. reflexivity.
    - intros ty Ty. unfold branch_condition, condition_text. cbn [veqs]. rewrite (is_type_typed g ty _ Ty).
      change t_parallel_gateway with "parallelGateway". destruct (String.eqb ty "parallelGateway"); [reflexivity|].
      unfold flow_text. rewrite E. change k_name with "name". destruct (dget "name" (snd t)) as [v|] eqn:V; [|reflexivity].
      destruct (Lb t v) as [-> |[s ->]]; auto. unfold get_flow_by_id in E. eapply flow_in; eauto.
  Qed.

  Lemma end_step : forall e a fuel k prefix c aj rows, end_node d e -> get_node_by_id e d = Some (e, a) ->
    exists row, shows row (end_line d prefix k c e) /\
      export_node (S fuel) d classes (Some (e, a)) k prefix (VStr c) "" aj rows = Ok (rows ++ [row], None).
  Proof.
    intros e a fuel k prefix c aj rows [N T] G. destruct (node_entry d e L N) as [a' [G' [_ [At _]]]].
    rewrite G in G'. inv G'. destruct (Wn e N) as [[nm Nm] Df].
    destruct (end_activity_of d e a' nm At T Nm Df) as [w [M Ea]].
    exists (mkERow (prefix ++ zstr k)%string (VStr (w ++ nm)%string) (VStr c) "" "" "yes"). split.
    - exists (w ++ nm)%string, c. split; auto. split; auto. unfold end_line. cbn [e_order e_who e_subprocess e_terminated].
      rewrite <- (word_of e w N M (or_intror T)). unfold node_text. unfold named in Nm. rewrite Nm. reflexivity.
    - cbn [export_node]. unfold dgetE. change k_type with "type". rewrite <- At. unfold typed in T. rewrite T. cbn [rbind veqs].
      change (String.eqb "endEvent" t_start_event) with false. change (String.eqb "endEvent" t_end_event) with true. cbv iota.
      rewrite Ea. reflexivity.
  Qed.

  Lemma gateway_laid : forall t, In t gateway_types -> laid_out t.
  Proof. intros t H. unfold laid_out, gateway_types in *. simpl in *. intuition. Qed.
  Lemma gateway_not : forall t, In t gateway_types -> String.eqb t t_start_event = false /\ String.eqb t t_end_event = false /\
    String.eqb t t_task = false /\ String.eqb t t_subprocess = false.
  Proof.
    intros t H. unfold gateway_types in H. simpl in H. repeat match type of H with _ \/ _ => destruct H as [<- |H] end; try contradiction; repeat split; reflexivity.
  Qed.
  Lemma same_entry : forall x (a b : attrs), get_node_by_id x d = Some (x, a) -> In (x, b) (gnodes (dgraph d)) -> a = b.
  Proof.
    intros x a b G I. destruct L as [U _]. unfold get_node_by_id, nodes_view in G. apply find_some in G. destruct G as [G _].
    apply In_dget in G; [|exact U]. apply In_dget in I; [|exact U]. congruence.
  Qed.

  (** At a meeting point the exporter answers with the node behind it. *)
  Lemma join_step : forall j a y b fuel k prefix c rows, gateway_node d j -> join_node d j -> only_to d j y ->
    get_node_by_id j d = Some (j, a) -> get_node_by_id y d = Some (y, b) ->
    export_node (S fuel) d classes (Some (j, a)) k prefix c "" false rows = Ok (rows, Some (y, b)).
  Proof.
    intros j a y b fuel k prefix c rows [N [t [T Gt]]] J [Ny [f [Eo F]]] G Gy.
    destruct (node_entry d j L N) as [a' [G' [_ [At [_ Ho]]]]]. rewrite G in G'. inv G'. rewrite Eo in Ho.
    destruct (class_of d j t L T (gateway_laid t Gt)) as [ls [El [Jl _]]].
    assert (J2 : Nat.leb 2 (length (incoming_of d j)) = true) by (apply Nat.leb_le; exact J).
    rewrite J2 in Jl. destruct (opened f j y b Ny F Gy) as [fa [E1 [E2 _]]].
    destruct (gateway_not t Gt) as [A1 [A2 [A3 A4]]].
    cbn [export_node]. unfold dgetE. change k_type with "type". rewrite <- At. unfold typed in T. rewrite T. cbn [rbind veqs].
    rewrite A1, A2. unfold outgoing_list. change k_outgoing with "outgoing". fold classes in El. rewrite El, Ho. cbn [rbind].
    rewrite Jl, A3, A4. cbn [negb andb orb rbind]. rewrite E1. cbn [rbind]. rewrite E2. reflexivity.
  Qed.

  Definition is_block (p : part) : bool := match p with Act _ => false | Block _ _ _ => true end.
  (** What holds of a part wherever it stands. *)
  Definition part_claim (p : part) : Prop :=
    forall y b, only_to d (last_of p) y -> get_node_by_id y d = Some (y, b) ->
    forall prefix k c, exists er, Forall2 shows er (part_lines d prefix k c p) /\
      forall fuel aj rows a, part_size p <= fuel -> get_node_by_id (first_of p) d = Some (first_of p, a) ->
        export_node (S fuel) d classes (Some (first_of p, a)) k prefix (VStr c) "" aj rows =
        export_node fuel d classes (Some (y, b)) (k + 1) prefix (VStr "") "" (is_block p) (rows ++ er).

  Lemma act_claim : forall n, activity_node d n -> ~ join_node d n -> part_claim (Act n).
  Proof.
    intros n [N T] J y b [Ny [f [Eo F]]] Gy prefix k c. cbn [last_of] in *. eexists. split.
    - cbn [part_lines]. constructor; [|constructor].
      exists (node_text d n), c.
      instantiate (1 := mkERow (prefix ++ zstr k)%string (VStr (node_text d n)) (VStr c) "" (if is_type d n "subProcess" then "yes" else "") "").
      auto.
    - cbn [first_of last_of is_block]. intros fuel aj rows a _ G.
      destruct (node_entry d n L N) as [a' [G' [_ [At [_ Ho]]]]]. rewrite G in G'. inv G'. rewrite Eo in Ho.
      assert (Q : exists t, typed d n t /\ (t = "task" \/ t = "subProcess")) by (destruct T; eauto).
      destruct Q as [t [Tt Dt]].
      assert (O : laid_out t) by (unfold laid_out; destruct Dt as [-> | ->]; simpl; auto).
      destruct (class_of d n t L Tt O) as [ls [El [Jl Sl]]].
      assert (J2 : Nat.leb 2 (length (incoming_of d n)) = false) by (apply Nat.leb_gt; unfold join_node in J; lia).
      rewrite J2 in Jl. rewrite Eo in Sl. cbn [length Nat.leb] in Sl.
      destruct (opened f n y b Ny F Gy) as [fa [E1 [E2 _]]].
      rewrite (is_type_typed n t _ Tt). pose proof (text_of_node n a' N At) as Nm.
      cbn [export_node]. unfold dgetE. change k_type with "type". rewrite <- At. unfold typed in Tt. rewrite Tt. cbn [rbind veqs].
      unfold outgoing_list. change k_outgoing with "outgoing". fold classes in El. rewrite El, Ho. cbn [rbind]. rewrite Jl, Sl. cbn [andb].
      change k_node_name with "node_name". rewrite Nm. cbn [rbind].
      destruct Dt as [-> | ->]; vm_compute (String.eqb _ _); cbv iota; cbn [rbind]; rewrite E1; cbn [rbind]; rewrite E2; reflexivity.
  Qed.

  Fixpoint leaves_join (aj : bool) (ps : list part) : bool :=
    match ps with [] => aj | p :: qs => leaves_join (is_block p) qs end.
  Definition left_mark (c : string) (ps : list part) : string := match ps with [] => c | _ => "" end.

  Lemma size_pos : forall p, 1 <= part_size p.
  Proof. intros [n|g j bs]; cbn [part_size]; lia. Qed.
  Lemma size_len : forall ps, length ps <= size ps.
  Proof. unfold size. induction ps as [|p ps IH]; cbn [length map list_sum fold_right]; [lia|]. pose proof (size_pos p). unfold list_sum in IH. lia. Qed.

  Lemma first_node : forall p, contains d p -> is_node d (first_of p) /\ ~ join_node d (first_of p).
  Proof. intros p H. destruct H as [n [N _] J|g j bs [N _] J]; auto. Qed.
  Lemma some_entry : forall x, is_node d x -> exists a, get_node_by_id x d = Some (x, a).
  Proof. intros x N. destruct (node_entry d x L N) as [a [G _]]. eauto. Qed.

  Lemma sequence_claim : forall ps, (forall p, In p ps -> contains d p) -> (forall p, In p ps -> part_claim p) ->
    forall x y b, way d x ps y -> is_node d y -> get_node_by_id y d = Some (y, b) -> forall prefix k c,
    exists er, Forall2 shows er (sequence_lines d prefix k c ps None) /\
      forall fuel aj rows a, size ps < fuel -> get_node_by_id x d = Some (x, a) ->
        export_node fuel d classes (Some (x, a)) k prefix (VStr c) "" aj rows =
        export_node (fuel - length ps) d classes (Some (y, b)) (k + Z.of_nat (length ps)) prefix (VStr (left_mark c ps)) ""
          (leaves_join aj ps) (rows ++ er).
  Proof.
    induction ps as [|p qs IH]; intros Hc Hp x y b W Ny Gy prefix k c.
    - exists []. split; [constructor|]. intros fuel aj rows a F Gx. cbn [way] in W. subst y.
      rewrite Gx in Gy. inv Gy. cbn [length left_mark leaves_join]. rewrite Nat.sub_0_r, Z.add_0_r, app_nil_r. reflexivity.
    - cbn [way] in W. destruct W as [-> [z [O W]]].
      assert (Nz : is_node d z) by apply O. destruct (some_entry z Nz) as [az Gz].
      destruct (IH (fun p H => Hc p (or_intror H)) (fun p H => Hp p (or_intror H)) z y b W Ny Gy prefix (k + 1)%Z "") as [er2 [S2 E2]].
      destruct (Hp p (or_introl eq_refl) z az O Gz prefix k c) as [er1 [S1 E1]].
      exists (er1 ++ er2). split; [cbn [sequence_lines]; apply Forall2_app; auto|].
      intros fuel aj rows a F Gx.
      destruct fuel as [|fuel]; [lia|]. unfold size in F. cbn [map list_sum fold_right] in F. pose proof (size_pos p) as P.
      rewrite (E1 fuel aj rows a) by (auto; unfold list_sum in *; lia).
      rewrite (E2 fuel (is_block p) (rows ++ er1) az); auto; [|unfold size, list_sum; lia].
      cbn [length leaves_join left_mark]. rewrite Nat.sub_succ. replace (k + 1 + Z.of_nat (length qs))%Z with (k + Z.of_nat (S (length qs)))%Z by lia.
      rewrite app_assoc. f_equal. destruct qs; reflexivity.
  Qed.
  Lemma sequence_stop : forall ps prefix k c e,
    sequence_lines d prefix k c ps (Some e) = sequence_lines d prefix k c ps None ++ [end_line d prefix (k + Z.of_nat (length ps)) (left_mark c ps) e].
  Proof.
    induction ps as [|p qs IH]; intros prefix k c e; cbn [sequence_lines].
    - cbn [length left_mark app]. rewrite Z.add_0_r. reflexivity.
    - rewrite IH. cbn [length left_mark]. replace (k + 1 + Z.of_nat (length qs))%Z with (k + Z.of_nat (S (length qs)))%Z by lia.
      rewrite <- app_assoc. repeat f_equal. destruct qs; reflexivity.
  Qed.
  Lemma leaves_calm : forall ps n aj, leaves_join aj (ps ++ [Act n]) = false.
  Proof. induction ps as [|p ps IH]; intros n aj; [reflexivity|]. cbn [app leaves_join]. apply IH. Qed.

  (** A branch. *)
  Lemma branch_claim : forall g j f b y by_ (prefix : string) (k : Z) (i : nat), opens_branch d g j f b ->
    gateway_node d j -> join_node d j -> only_to d j y -> get_node_by_id y d = Some (y, by_) ->
    (forall p, In p (fst b) -> contains d p) -> (forall p, In p (fst b) -> part_claim p) ->
    gateway_node d g -> i < 26 -> forall ag, get_node_by_id g d = Some (g, ag) ->
    exists er, Forall2 shows er (branch_lines d prefix k g i f b) /\
      forall t fuel rows next, typed d g t -> size (fst b) < fuel ->
      (let* flow := flow_of d f in
       let* target := target_node d flow in
       let* suffix := ascii_lowercase i in
       let next_prefix := (prefix ++ zstr k ++ suffix)%string in
       let cond := branch_condition (VStr t) flow in
       let* tid := match target with Some t => Ok (fst t) | None => Err TypeError end in
       let* tlabels := dgetE tid classes in
       if smem c_join tlabels then
         Ok (rows ++ [mkERow (next_prefix ++ "1")%string
                      (VStr ("goto " ++ prefix ++ zstr (k + 1))) cond "" "" ""],
             next, S i)
       else
         let* r := export_node fuel d classes target 1 next_prefix
                     (if is_default f (default_flow (VStr t) ag) then VStr "else" else cond) "" false rows in
         Ok (fst r, match snd r with Some n => Some n | None => next end, S i))
      = Ok (rows ++ er, match b with (_ :: _, None) => Some (y, by_) | _ => next end, S i).
  Proof.
    intros g j f [ps stop] y by_ prefix k i [[x [Nx [Fx W]]] [Calm Stop]] Gj Jj Oy Gy Hc Hp Gg Hi ag Ga. cbn [fst snd arrives] in *.
    destruct (some_entry x Nx) as [ax Gx].
    destruct (opened f g x ax Nx Fx Gx) as [fa [E1 [E2 E3]]].
    assert (Low : ascii_lowercase i = Ok (branch_letter i)) by (unfold ascii_lowercase; apply Nat.ltb_lt in Hi; rewrite Hi; reflexivity).
    assert (Mark : forall t, typed d g t ->
      (if is_default f (default_flow (VStr t) ag) then VStr "else" else branch_condition (VStr t) fa) = VStr (branch_mark d g f)).
    { intros t T. rewrite (E3 t T). unfold branch_mark. rewrite (is_type_typed g t _ T).
      unfold default_flow, default_branch. cbn [veqs]. change t_parallel_gateway with "parallelGateway".
      destruct Gg as [Ng _]. destruct (node_entry d g L Ng) as [ag' [G' [_ [At _]]]]. rewrite Ga in G'. inv G'.
      change k_default with "default". rewrite At. destruct (String.eqb t "parallelGateway"); [reflexivity|]. cbn [negb andb].
      destruct (dget "default" ag') as [[]|]; cbn [is_default veqs]; try reflexivity.
      destruct (String.eqb s f); reflexivity. }
    assert (Lab : forall t, typed d x t -> laid_out t -> exists ls, dget x classes = Some ls /\ smem c_join ls = Nat.leb 2 (length (incoming_of d x))).
    { intros t T O. destruct (class_of d x t L T O) as [ls [El [Jl _]]]. eauto. }
    assert (Nj : forall p, contains d p -> exists t, typed d (first_of p) t /\ laid_out t).
    { intros p P. destruct P as [n [N T] _|gg jj bs [N [t [T Tg]]] _ _ _ _ _ _ _ _]; cbn [first_of].
      - destruct T as [T|T]; [exists "task"|exists "subProcess"]; split; auto; unfold laid_out; simpl; auto.
      - exists t. split; auto. apply gateway_laid; auto. }
    assert (Ar : exists z az, (z = match stop with Some e => e | None => j end) /\ is_node d z /\ get_node_by_id z d = Some (z, az)).
    { destruct stop as [e|]; [destruct (Stop e eq_refl) as [[Ne _] _]; destruct (some_entry e Ne) as [ae Ge]; eauto|].
      destruct Gj as [Njn _]. destruct (some_entry j Njn) as [aj Ge]. eauto. }
    destruct Ar as [z [az [Ez [Nz Gz]]]]. change (way d x ps (match stop with Some e => e | None => j end)) in W. rewrite <- Ez in W.
    destruct (sequence_claim ps Hc Hp x z az W Nz Gz (branch_prefix prefix k i) 1 (branch_mark d g f)) as [er [Ser Eer]].
    destruct ps as [|p ps].
    - cbn [way] in W. destruct stop as [e|]; subst z.
      + (* straight into an end event *)
        subst x. destruct (Stop e eq_refl) as [[Ne Te] Je].
        destruct (Lab "endEvent" Te) as [ls [El Jl]]; [unfold laid_out; simpl; tauto|].
        assert (J2 : Nat.leb 2 (length (incoming_of d e)) = false) by (apply Nat.leb_gt; unfold join_node in Je; lia). rewrite J2 in Jl.
        destruct (end_step e ax 0 1 (branch_prefix prefix k i) (branch_mark d g f) false [] (conj Ne Te) Gx) as [row [Sr _]].
        exists [row]. split; [cbn [branch_lines sequence_lines]; constructor; auto|].
        intros t fuel rows next T F. rewrite E1. cbn [rbind]. rewrite E2. cbn [rbind]. rewrite Low. cbn [rbind fst].
        unfold dgetE. rewrite El. cbn [rbind]. rewrite Jl. destruct fuel as [|fuel]; [cbn in F; lia|].
        rewrite (Mark t T).
        destruct (end_step e ax fuel 1 (branch_prefix prefix k i) (branch_mark d g f) false rows (conj Ne Te) Gx) as [row' [Sr' Er']].
        fold (branch_prefix prefix k i). rewrite Er'. cbn [rbind fst snd].
        assert (row' = row).
        { destruct Sr as [a1 [c1 [A1 [C1 L1]]]], Sr' as [a2 [c2 [A2 [C2 L2]]]]. destruct row, row'. cbn in *. unfold end_line in *. congruence. }
        subst row'. reflexivity.
      + (* straight to the meeting point *)
        subst x. destruct Gj as [Nj' [tj [Tj Tg]]]. destruct (Lab tj Tj (gateway_laid tj Tg)) as [ls [El Jl]].
        assert (J2 : Nat.leb 2 (length (incoming_of d j)) = true) by (apply Nat.leb_le; exact Jj). rewrite J2 in Jl.
        exists [mkERow (branch_prefix prefix k i ++ "1")%string (VStr ("goto " ++ prefix ++ zstr (k + 1))%string) (VStr (condition_text d g f)) "" "" ""].
        split.
        { cbn [branch_lines]. constructor; [|constructor]. eexists. eexists. split; [reflexivity|]. split; reflexivity. }
        intros t fuel rows next T F. rewrite E1. cbn [rbind]. rewrite E2. cbn [rbind]. rewrite Low. cbn [rbind fst].
        unfold dgetE. rewrite El. cbn [rbind]. rewrite Jl, (E3 t T). reflexivity.
    - pose proof (Hc p (or_introl eq_refl)) as Cp.
      assert (X : x = first_of p) by apply W. destruct (Nj p Cp) as [t0 [T0 O0]]. rewrite <- X in T0.
      destruct (Lab t0 T0 O0) as [ls [El Jl]].
      assert (J2 : Nat.leb 2 (length (incoming_of d x)) = false).
      { apply Nat.leb_gt. destruct (first_node p Cp) as [_ J]. rewrite <- X in J. unfold join_node in J. lia. }
      rewrite J2 in Jl. destruct stop as [e|]; subst z.
      + destruct (Stop e eq_refl) as [[Ne Te] Je]. rename az into ae, Gz into Ge.
        destruct (end_step e ae 0 (1 + Z.of_nat (length (p :: ps))) (branch_prefix prefix k i) (left_mark (branch_mark d g f) (p :: ps)) false [] (conj Ne Te) Ge) as [row [Sr _]].
        exists (er ++ [row]). split.
        { cbn [branch_lines]. rewrite sequence_stop. apply Forall2_app; auto. }
        intros t fuel rows next T F. rewrite E1. cbn [rbind]. rewrite E2. cbn [rbind]. rewrite Low. cbn [rbind fst].
        unfold dgetE. rewrite El. cbn [rbind]. rewrite Jl, (Mark t T). fold (branch_prefix prefix k i).
        rewrite (Eer fuel false rows ax) by auto.
        pose proof (size_len (p :: ps)) as Sl. destruct (fuel - length (p :: ps)) as [|f2] eqn:Ef; [lia|].
        destruct (end_step e ae f2 (1 + Z.of_nat (length (p :: ps))) (branch_prefix prefix k i) (left_mark (branch_mark d g f) (p :: ps)) (leaves_join false (p :: ps)) (rows ++ er) (conj Ne Te) Ge) as [row' [Sr' Er']].
        rewrite Er'. cbn [rbind fst snd].
        assert (row' = row).
        { destruct Sr as [a1 [c1 [A1 [C1 L1]]]], Sr' as [a2 [c2 [A2 [C2 L2]]]]. destruct row, row'. cbn in *. unfold end_line in *. congruence. }
        subst row'. rewrite app_assoc. reflexivity.
      + exists er. split; [exact Ser|].
        intros t fuel rows next T F. rewrite E1. cbn [rbind]. rewrite E2. cbn [rbind]. rewrite Low. cbn [rbind fst].
        unfold dgetE. rewrite El. cbn [rbind]. rewrite Jl, (Mark t T). fold (branch_prefix prefix k i).
        rewrite (Eer fuel false rows ax) by auto.
        pose proof (size_len (p :: ps)) as Sl. destruct (fuel - length (p :: ps)) as [|f2] eqn:Ef; [lia|].
        assert (Lj : leaves_join false (p :: ps) = false).
        { destruct (Calm eq_refl) as [C|[qs [n C]]]; [discriminate|]. rewrite C. apply leaves_calm. }
        rewrite Lj, (join_step j az y by_) by auto. reflexivity.
  Qed.

  (** The branches of a block. *)
  Definition branch_fold (prefix : string) (k : Z) (t : string) (ag : attrs) (fuel : nat)
    := fun (st : list erow * option node_t * nat) f =>
         let '(rs, next, i) := st in
         let* flow := flow_of d f in
         let* target := target_node d flow in
         let* suffix := ascii_lowercase i in
         let next_prefix := (prefix ++ zstr k ++ suffix)%string in
         let cond := branch_condition (VStr t) flow in
         let* tid := match target with Some t => Ok (fst t) | None => Err TypeError end in
         let* tlabels := dgetE tid classes in
         if smem c_join tlabels then
           Ok (rs ++ [mkERow (next_prefix ++ "1")%string
                        (VStr ("goto " ++ prefix ++ zstr (k + 1))) cond "" "" ""],
               next, S i)
         else
           let* r := export_node fuel d classes target 1 next_prefix
                       (if is_default f (default_flow (VStr t) ag) then VStr "else" else cond) "" false rs in
           Ok (fst r, match snd r with Some n => Some n | None => next end, S i).
  Fixpoint met (next v : option node_t) (bs : list branch_t) : option node_t :=
    match bs with
    | [] => next
    | b :: bs' => met (match b with (_ :: _, None) => v | _ => next end) v bs'
    end.
  Lemma met_some : forall bs next v, (next = v \/ exists b, In b bs /\ snd b = None /\ fst b <> []) -> met next v bs = v.
  Proof.
    induction bs as [|[[|p ps] [e|]] bs IH]; intros next v H; cbn [met].
    - destruct H as [H|[b [[] _]]]. exact H.
    - apply IH. destruct H as [H|[b [[<- |I] [B1 B2]]]]; auto; [discriminate|]. right. eauto.
    - apply IH. destruct H as [H|[b [[<- |I] [B1 B2]]]]; auto; [cbn in B2; congruence|]. right. eauto.
    - apply IH. destruct H as [H|[b [[<- |I] [B1 B2]]]]; auto; [discriminate|]. right. eauto.
    - apply IH. auto.
  Qed.
  Lemma branches_claim : forall g j y by_ prefix k, gateway_node d j -> join_node d j -> only_to d j y -> get_node_by_id y d = Some (y, by_) ->
    gateway_node d g -> forall ag, get_node_by_id g d = Some (g, ag) ->
    forall fs bs i, Forall2 (opens_branch d g j) fs bs -> i + length bs <= 26 ->
    (forall b p, In b bs -> In p (fst b) -> contains d p) -> (forall b p, In b bs -> In p (fst b) -> part_claim p) ->
    exists er, Forall2 shows er (branches_lines d prefix k g i fs bs) /\
      forall t fuel rows next, typed d g t -> (forall b, In b bs -> size (fst b) < fuel) ->
        rfold (branch_fold prefix k t ag fuel) fs (rows, next, i) = Ok (rows ++ er, met next (Some (y, by_)) bs, i + length bs).
  Proof.
    intros g j y by_ prefix k Gj Jj Oy Gy Gg ag Ga fs bs. revert fs. induction bs as [|b bs IH]; intros fs i Ob Hi Hc Hp; inversion Ob as [|f0 b0 fs0 bs0 Ob1 Ob2]; subst.
    - exists []. split; [constructor|]. intros. cbn [rfold met length]. rewrite app_nil_r, Nat.add_0_r. reflexivity.
    - cbn [length] in Hi. destruct (IH fs0 (S i)) as [er2 [S2 E2]]; auto; [lia|intros b0 p0 I; apply Hc; right; auto|intros b0 p0 I; apply Hp; right; auto|].
      assert (Hi' : i < 26) by lia.
      destruct (branch_claim g j f0 b y by_ prefix k i Ob1 Gj Jj Oy Gy (fun p => Hc b p (or_introl eq_refl)) (fun p => Hp b p (or_introl eq_refl)) Gg Hi' ag Ga)
        as [er1 [S1 E1]].
      exists (er1 ++ er2). split; [cbn [branches_lines]; apply Forall2_app; auto|].
      intros t fuel rows next T F.
      assert (St : branch_fold prefix k t ag fuel (rows, next, i) f0 = Ok (rows ++ er1, match b with (_ :: _, None) => Some (y, by_) | _ => next end, S i))
        by (apply (E1 t fuel rows next T); apply F; left; auto).
      cbn [rfold]. rewrite St. cbn [rbind].
      rewrite E2; auto; [|intros b' I; apply F; right; auto]. cbn [met length]. rewrite app_assoc, Nat.add_succ_r. reflexivity.
  Qed.

  Lemma size_branch : forall (bs : list branch_t) b, In b bs -> size (fst b) < list_sum (map (fun b => S (list_sum (map part_size (fst b)))) bs).
  Proof.
    induction bs as [|b0 bs IH]; intros b I; [contradiction|]. destruct I as [<- |I]; cbn [map list_sum fold_right]; [unfold size, list_sum; lia|].
    specialize (IH b I). unfold list_sum in *. lia.
  Qed.

  Lemma block_claim : forall g j bs, contains d (Block g j bs) -> (forall b p, In b bs -> In p (fst b) -> part_claim p) -> part_claim (Block g j bs).
  Proof.
    intros g j bs H Hp y by_ Oy Gy prefix k c. inversion H as [|g' j' bs' Gg Ng Sg Lg Gj Jj Ob Mt Hc]; subst.
    rewrite block_lines. cbn [first_of last_of is_block] in *.
    assert (Ngn : is_node d g) by apply Gg. destruct (node_entry d g L Ngn) as [ag [Ga [_ [At [_ Ho]]]]].
    destruct (branches_claim g j y by_ prefix k Gj Jj Oy Gy Gg ag Ga (outgoing_of d g) bs 0 Ob Lg Hc Hp) as [er [Ser Eer]].
    exists er. split; auto. intros fuel aj rows a F G.
    rewrite Ga in G. inv G.
    destruct Gg as [_ [t [T Tg]]]. destruct (gateway_not t Tg) as [A1 [A2 [A3 A4]]].
    destruct (class_of d g t L T (gateway_laid t Tg)) as [ls [El [Jl Sl]]].
    assert (J2 : Nat.leb 2 (length (incoming_of d g)) = false) by (apply Nat.leb_gt; unfold join_node in Ng; lia). rewrite J2 in Jl.
    assert (S2 : Nat.leb 2 (length (outgoing_of d g)) = true) by (apply Nat.leb_le; exact Sg). rewrite S2 in Sl.
    assert (Ff : rfold (branch_fold prefix k t a fuel) (outgoing_of d g) (rows, None, 0) = Ok (rows ++ er, Some (y, by_), 0 + length bs)).
    { rewrite Eer; auto.
      - rewrite met_some by auto. reflexivity.
      - intros b I. cbn [part_size] in F. pose proof (size_branch bs b I). lia. }
    cbn [export_node]. unfold dgetE at 1. change k_type with "type". rewrite <- At. unfold typed in T. rewrite T. cbn [rbind veqs].
    rewrite A1, A2. unfold dgetE at 1. unfold outgoing_list. change k_outgoing with "outgoing". fold classes in El. rewrite El, Ho. cbn [rbind].
    rewrite Jl, Sl, A3, A4. cbn [andb rbind].
    change (rbind (rfold (branch_fold prefix k t a fuel) (outgoing_of d g) (rows, None, 0))
              (fun st => match snd (fst st) with
                         | Some n => export_node fuel d classes (Some n) (k + 1) prefix (VStr "") "" true (fst (fst st))
                         | None => Ok (fst (fst st), None)
                         end) = export_node fuel d classes (Some (y, by_)) (k + 1) prefix (VStr "") "" true (rows ++ er)).
    rewrite Ff. reflexivity.
  Qed.

  Lemma every_part : forall p, contains d p -> part_claim p.
  Proof.
    intros p H. induction H as [n A J|g j bs Gg Ng Sg Lg Gj Jj Ob Mt Hc IH]; [apply act_claim; auto|].
    apply block_claim; auto. econstructor; eauto.
  Qed.
End Structured.

Lemma structured_rows : forall d s ps e fuel, structured d s ps e -> size ps + 1 < fuel ->
  exists rows, export_rows fuel d = Ok rows /\ Forall2 shows rows (process_lines d s ps e).
Proof.
  intros d s ps e fuel [Co [Wn [Lb [En [Ts [[x [Ox W]] [Ee Hc]]]]]]] F. pose proof (proj1 Co) as L.
  destruct fuel as [|fuel]; [lia|].
  destruct (proj2 (En s) eq_refl) as [Ns Is].
  destruct (node_entry d s L Ns) as [a [G [Hs [At [_ Ho]]]]].
  assert (En1 : filter no_incoming (gnodes (dgraph d)) = [(s, a)]).
  { destruct (proj2 (entry_unique d L)) as [[n b] E]; [exists s; auto|].
    assert (I : In (s, a) (filter no_incoming (gnodes (dgraph d)))).
    { apply filter_In. split; auto. unfold no_incoming, lst. cbn [snd]. unfold incoming_of in Is. rewrite At in Is.
      destruct (dget "incoming" a) as [[]|]; auto. rewrite Is. auto. }
    rewrite E in *. destruct I as [I|[]]. rewrite I. reflexivity. }
  assert (Er : entry_nodes d = Ok [(s, a)]) by (rewrite (entry_nodes_eq d L), En1; reflexivity).
  destruct (Wn s Ns) as [[nm N] Df].
  destruct (start_activity_of d s a nm At Ts N Df) as [w [M Ea]].
  destruct Ox as [Nx [f [Ef Fx]]]. rewrite Ef in Ho.
  destruct (some_entry d Co x Nx) as [ax Gx]. destruct Ee as [Ne Te]. destruct (some_entry d Co e Ne) as [ae Ge].
  destruct (opened d Lb f s x ax Nx Fx Gx) as [fa [E1 [E2 _]]].
  destruct (sequence_claim d Co ps Hc (fun p I => every_part d Co Wn Lb p (Hc p I)) x e ae W Ne Ge "" 1 "") as [er [Ser Eer]].
  set (classes := map (fun c => (cid c, ccls c)) (classified d)) in *.
  set (row := mkERow "0" (VStr (w ++ nm)%string) (VStr "") "" "" "").
  pose proof (size_len ps) as Sl. destruct (fuel - length ps) as [|f2] eqn:Ff; [lia|].
  destruct (end_step d Co Wn e ae f2 (1 + Z.of_nat (length ps)) "" (left_mark "" ps) (leaves_join false ps) ([row] ++ er) (conj Ne Te) Ge) as [rw [Srw Erw]].
  exists (row :: er ++ [rw]). split.
  - unfold export_rows. rewrite Er. cbn [rbind]. rewrite (nodes_eq d L). cbn [rbind]. fold classes.
    cbn [export_node]. unfold dgetE. change k_type with "type". rewrite <- At. unfold typed in Ts. rewrite Ts. cbn [rbind veqs].
    change (String.eqb "startEvent" t_start_event) with true. cbv iota.
    rewrite Ea. cbn [rbind]. change k_outgoing with "outgoing". rewrite Ho. cbn [rbind]. rewrite E1. cbn [rbind]. rewrite E2. cbn [rbind].
    change (rbind (export_node fuel d classes (Some (x, ax)) 1 "" (VStr "") "" false [row]) (fun r => Ok (fst r)) = Ok (row :: er ++ [rw])).
    rewrite (Eer fuel false [row] ax) by (auto; lia). rewrite Ff. fold classes in Erw. rewrite Erw. reflexivity.
  - unfold process_lines. constructor.
    + exists (w ++ nm)%string, "". split; auto. split; auto. unfold start_line, row. cbn [e_order e_who e_subprocess e_terminated].
      rewrite <- (word_of d Wn s w Ns M (or_introl Ts)). unfold node_text. unfold named in N. rewrite N. reflexivity.
    + rewrite sequence_stop. apply Forall2_app; auto.
Qed.
Lemma structured_export : forall d s ps e fuel, structured d s ps e -> size ps + 1 < fuel ->
  export_process_to_csv fuel d None = (Some (csv_text (csv_columns :: process_lines d s ps e)), Ok tt).
Proof.
  intros d s ps e fuel H F. destruct (structured_rows d s ps e fuel H F) as [rows [E S]]. eapply exported_text; eauto.
Qed.
