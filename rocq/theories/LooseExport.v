(** The rows the CSV exporter makes for processes whose branches may meet at an activity. *)
From Coq Require Import String Ascii List Bool Arith ZArith Lia.
From Verif Require Import Py PyFacts Consts Nx NxFacts Rep SpecRep RepFacts MetricsFacts Classify SpecLayout ClassifyFacts.
From Verif Require Import CsvRegex CsvImport SpecCsv RegexFacts CsvFacts CsvTable CsvExport SpecCsvExport CsvExportFacts CsvChain SpecBlocks BlockExport SpecLoose.
Import ListNotations.
Open Scope string_scope.
Open Scope list_scope.

Section Loose.
  Variable d : diagram.
  Hypotheses (Co : coherent d) (Wn : well_named d) (Lb : labelled d).
  Let classes := map (fun c => (cid c, ccls c)) (classified d).
  Let L : listed d := proj1 Co.

  Lemma activity_type : forall n, activity_node d n -> exists t, typed d n t /\ (t = "task" \/ t = "subProcess") /\ laid_out t.
  Proof using. intros n [_ [T|T]]; [exists "task"|exists "subProcess"]; repeat split; auto; unfold laid_out; simpl; auto. Qed.
  Lemma meeting_type : forall j, gateway_node d j \/ activity_node d j -> exists t, typed d j t /\ laid_out t.
  Proof using.
    intros j [[_ [t [T G]]]|A]; [exists t; split; auto; apply gateway_laid; auto|]. destruct (activity_type j A) as [t [T [_ O]]]. eauto.
  Qed.
  Lemma goes_on_kind : forall j z, goes_on d j z -> gateway_node d j \/ activity_node d j.
  Proof using. intros j z [[G _]|[A _]]; auto. Qed.
  Lemma goes_on_node : forall j z, goes_on d j z -> is_node d j /\ is_node d z.
  Proof using. intros j z [[G O]|[A ->]]; [split; [apply G|apply O]|split; apply A]. Qed.

  (** At a meeting point the exporter answers with the node behind it. *)
  Lemma meet_step : forall j a y b fuel k prefix c rows, goes_on d j y -> join_node d j ->
    get_node_by_id j d = Some (j, a) -> get_node_by_id y d = Some (y, b) ->
    export_node (S fuel) d classes (Some (j, a)) k prefix c "" false rows = Ok (rows, Some (y, b)).
  Proof using Co Lb.
    intros j a y b fuel k prefix c rows [[G O]|[A ->]] J Gj Gy; [apply (join_step d Co Lb); auto|].
    rewrite Gj in Gy. inv Gy. destruct (activity_type j A) as [t [T [Dt O]]]. destruct A as [N _].
    destruct (node_entry d j L N) as [a' [G' [_ [At [_ Ho]]]]]. rewrite Gj in G'. inv G'.
    destruct (class_of d j t L T O) as [ls [El [Jl _]]].
    assert (J2 : Nat.leb 2 (length (incoming_of d j)) = true) by (apply Nat.leb_le; exact J). rewrite J2 in Jl.
    cbn [export_node]. unfold dgetE. change k_type with "type". rewrite <- At. unfold typed in T. rewrite T. cbn [rbind veqs].
    unfold outgoing_list. change k_outgoing with "outgoing". fold classes in El. rewrite El, Ho. cbn [rbind]. rewrite Jl. cbn [negb andb].
    destruct Dt as [-> | ->]; vm_compute (String.eqb _ _); cbv iota; reflexivity.
  Qed.

  Lemma act_step : forall n y b prefix k c, activity_node d n -> only_to d n y -> get_node_by_id y d = Some (y, b) ->
    exists row, shows row (act_line d prefix k c n) /\
      forall fuel aj rows a, (join_node d n -> aj = true) -> get_node_by_id n d = Some (n, a) ->
        export_node (S fuel) d classes (Some (n, a)) k prefix (VStr c) "" aj rows =
        export_node fuel d classes (Some (y, b)) (k + 1) prefix (VStr "") "" false (rows ++ [row]).
  Proof using Co Wn Lb.
    intros n y b prefix k c A [Ny [f [Eo F]]] Gy. destruct (activity_type n A) as [t [Tt [Dt O]]]. destruct A as [N _].
    exists (mkERow (prefix ++ zstr k)%string (VStr (node_text d n)) (VStr c) "" (if is_type d n "subProcess" then "yes" else "") "").
    split; [exists (node_text d n), c; auto|]. intros fuel aj rows a J G.
    destruct (node_entry d n L N) as [a' [G' [_ [At [_ Ho]]]]]. rewrite G in G'. inv G'. rewrite Eo in Ho.
    destruct (class_of d n t L Tt O) as [ls [El [Jl Sl]]].
    assert (J2 : Nat.leb 2 (length (incoming_of d n)) && negb aj = false).
    { destruct (Nat.leb 2 (length (incoming_of d n))) eqn:E; [|reflexivity]. rewrite J; [reflexivity|]. apply Nat.leb_le. exact E. }
    rewrite Eo in Sl. cbn [length Nat.leb] in Sl.
    destruct (opened d Lb f n y b Ny F Gy) as [fa [E1 [E2 _]]].
    rewrite (is_type_typed d n t _ Tt). pose proof (text_of_node d Wn n a' N At) as Nm.
    cbn [export_node]. unfold dgetE. change k_type with "type". rewrite <- At. unfold typed in Tt. rewrite Tt. cbn [rbind veqs].
    unfold outgoing_list. change k_outgoing with "outgoing". fold classes in El. rewrite El, Ho. cbn [rbind]. rewrite Jl, Sl, J2.
    change k_node_name with "node_name". rewrite Nm. cbn [rbind].
    destruct Dt as [-> | ->]; vm_compute (String.eqb _ _); cbv iota; cbn [rbind]; rewrite E1; cbn [rbind]; rewrite E2; reflexivity.
  Qed.

  Definition seq_claim (ps : list part) : Prop :=
    forall x y b, route d x ps y -> is_node d y -> get_node_by_id y d = Some (y, b) -> forall prefix k c,
    exists er, Forall2 shows er (sequence_lines d prefix k c ps None) /\
      forall fuel aj rows a, size ps < fuel -> get_node_by_id x d = Some (x, a) ->
        export_node fuel d classes (Some (x, a)) k prefix (VStr c) "" aj rows =
        export_node (fuel - length ps) d classes (Some (y, b)) (k + Z.of_nat (length ps)) prefix (VStr (left_mark c ps)) ""
          (leaves_join aj ps) (rows ++ er).

  Lemma first_calm : forall p qs, loosely d (p :: qs) -> ~ join_node d (first_of p) /\ exists t, typed d (first_of p) t /\ laid_out t.
  Proof using.
    intros p qs H. inversion H as [|n qs' A J _|g j bs qs' F _ _ _|g n bs qs' F _ _ _]; subst; cbn [first_of].
    - split; auto. apply meeting_type. auto.
    - destruct F as (G & J & _). split; auto. apply meeting_type. auto.
    - destruct F as (G & J & _). split; auto. apply meeting_type. auto.
  Qed.

  (** A branch. *)
  Lemma route_claim : forall g j f b y by_ (prefix : string) (k : Z) (i : nat), opens_route d g j f b ->
    goes_on d j y -> join_node d j -> get_node_by_id y d = Some (y, by_) ->
    loosely d (fst b) -> seq_claim (fst b) ->
    gateway_node d g -> i < 26 -> forall ag, get_node_by_id g d = Some (g, ag) ->
    exists er, Forall2 shows er (branch_lines d prefix k g i f b) /\
      forall t fuel rows next, typed d g t -> size (fst b) < fuel ->
      branch_fold d prefix k t ag fuel (rows, next, i) f
      = Ok (rows ++ er, match b with (_ :: _, None) => Some (y, by_) | _ => next end, S i).
  Proof using Co Wn Lb.
    intros g j f [ps stop] y by_ prefix k i [[x [Nx [Fx W]]] [Calm Stop]] Oy Jj Gy Lo Hp Gg Hi ag Ga. cbn [fst snd arrives] in *.
    destruct (some_entry d Co x Nx) as [ax Gx].
    destruct (opened d Lb f g x ax Nx Fx Gx) as [fa [E1 [E2 E3]]].
    assert (Low : ascii_lowercase i = Ok (branch_letter i)) by (unfold ascii_lowercase; apply Nat.ltb_lt in Hi; rewrite Hi; reflexivity).
    assert (Mark : forall t, typed d g t ->
      (if is_default f (default_flow (VStr t) ag) then VStr "else" else branch_condition (VStr t) fa) = VStr (branch_mark d g f)).
    { intros t T. rewrite (E3 t T). unfold branch_mark. rewrite (is_type_typed d g t _ T).
      unfold default_flow, default_branch. cbn [veqs]. change t_parallel_gateway with "parallelGateway".
      destruct Gg as [Ng _]. destruct (node_entry d g L Ng) as [ag' [G' [_ [At _]]]]. rewrite Ga in G'. inv G'.
      change k_default with "default". rewrite At. destruct (String.eqb t "parallelGateway"); [reflexivity|]. cbn [negb andb].
      destruct (dget "default" ag') as [[]|]; cbn [is_default veqs]; try reflexivity.
      destruct (String.eqb s f); reflexivity. }
    assert (Lab : forall t, typed d x t -> laid_out t -> exists ls, dget x classes = Some ls /\ smem c_join ls = Nat.leb 2 (length (incoming_of d x))).
    { intros t T O. destruct (class_of d x t L T O) as [ls [El [Jl _]]]. eauto. }
    destruct (goes_on_node j y Oy) as [Njn _].
    assert (Ar : exists z az, (z = match stop with Some e => e | None => j end) /\ is_node d z /\ get_node_by_id z d = Some (z, az)).
    { destruct stop as [e|]; [destruct (Stop e eq_refl) as [[Ne _] _]; destruct (some_entry d Co e Ne) as [ae Ge]; eauto|].
      destruct (some_entry d Co j Njn) as [aj Ge]. eauto. }
    destruct Ar as [z [az [Ez [Nz Gz]]]]. change (route d x ps (match stop with Some e => e | None => j end)) in W. rewrite <- Ez in W.
    destruct (Hp x z az W Nz Gz (branch_prefix prefix k i) 1%Z (branch_mark d g f)) as [er [Ser Eer]].
    destruct ps as [|p ps].
    - cbn [route] in W. destruct stop as [e|]; subst z.
      + subst x. destruct (Stop e eq_refl) as [[Ne Te] Je].
        destruct (Lab "endEvent" Te) as [ls [El Jl]]; [unfold laid_out; simpl; tauto|].
        assert (J2 : Nat.leb 2 (length (incoming_of d e)) = false) by (apply Nat.leb_gt; unfold join_node in Je; lia). rewrite J2 in Jl.
        destruct (end_step d Co Wn e ax 0 1 (branch_prefix prefix k i) (branch_mark d g f) false [] (conj Ne Te) Gx) as [row [Sr _]].
        exists [row]. split; [cbn [branch_lines sequence_lines]; constructor; auto|].
        intros t fuel rows next T F. unfold branch_fold. rewrite E1. cbn [rbind]. rewrite E2. cbn [rbind]. rewrite Low. cbn [rbind fst].
        unfold dgetE. fold classes. rewrite El. cbn [rbind]. rewrite Jl. destruct fuel as [|fuel]; [cbn in F; lia|].
        rewrite (Mark t T).
        destruct (end_step d Co Wn e ax fuel 1 (branch_prefix prefix k i) (branch_mark d g f) false rows (conj Ne Te) Gx) as [row' [Sr' Er']].
        fold (branch_prefix prefix k i). fold classes in Er'. rewrite Er'. cbn [rbind fst snd].
        assert (row' = row).
        { destruct Sr as [a1 [c1 [A1 [C1 L1]]]], Sr' as [a2 [c2 [A2 [C2 L2]]]]. destruct row, row'. cbn in *. unfold end_line in *. congruence. }
        subst row'. reflexivity.
      + subst x. destruct (meeting_type j (goes_on_kind j y Oy)) as [tj [Tj Oj]]. destruct (Lab tj Tj Oj) as [ls [El Jl]].
        assert (J2 : Nat.leb 2 (length (incoming_of d j)) = true) by (apply Nat.leb_le; exact Jj). rewrite J2 in Jl.
        exists [mkERow (branch_prefix prefix k i ++ "1")%string (VStr ("goto " ++ prefix ++ zstr (k + 1))%string) (VStr (condition_text d g f)) "" "" ""].
        split.
        { cbn [branch_lines]. constructor; [|constructor]. eexists. eexists. split; [reflexivity|]. split; reflexivity. }
        intros t fuel rows next T F. unfold branch_fold. rewrite E1. cbn [rbind]. rewrite E2. cbn [rbind]. rewrite Low. cbn [rbind fst].
        unfold dgetE. fold classes. rewrite El. cbn [rbind]. rewrite Jl, (E3 t T). reflexivity.
    - destruct (first_calm p ps Lo) as [Jp [t0 [T0 O0]]].
      assert (X : x = first_of p) by (destruct p; apply W). rewrite <- X in T0, Jp.
      destruct (Lab t0 T0 O0) as [ls [El Jl]].
      assert (J2 : Nat.leb 2 (length (incoming_of d x)) = false) by (apply Nat.leb_gt; unfold join_node in Jp; lia).
      rewrite J2 in Jl. destruct stop as [e|]; subst z.
      + destruct (Stop e eq_refl) as [[Ne Te] Je]. rename az into ae, Gz into Ge.
        destruct (end_step d Co Wn e ae 0 (1 + Z.of_nat (length (p :: ps))) (branch_prefix prefix k i) (left_mark (branch_mark d g f) (p :: ps)) false [] (conj Ne Te) Ge) as [row [Sr _]].
        exists (er ++ [row]). split.
        { cbn [branch_lines]. rewrite sequence_stop. apply Forall2_app; auto. }
        intros t fuel rows next T F. unfold branch_fold. rewrite E1. cbn [rbind]. rewrite E2. cbn [rbind]. rewrite Low. cbn [rbind fst].
        unfold dgetE. fold classes. rewrite El. cbn [rbind]. rewrite Jl, (Mark t T). fold (branch_prefix prefix k i).
        rewrite (Eer fuel false rows ax) by auto.
        pose proof (size_len (p :: ps)) as Sl. destruct (fuel - length (p :: ps)) as [|f2] eqn:Ef; [lia|].
        destruct (end_step d Co Wn e ae f2 (1 + Z.of_nat (length (p :: ps))) (branch_prefix prefix k i) (left_mark (branch_mark d g f) (p :: ps)) (leaves_join false (p :: ps)) (rows ++ er) (conj Ne Te) Ge) as [row' [Sr' Er']].
        fold classes in Er'. rewrite Er'. cbn [rbind fst snd].
        assert (row' = row).
        { destruct Sr as [a1 [c1 [A1 [C1 L1]]]], Sr' as [a2 [c2 [A2 [C2 L2]]]]. destruct row, row'. cbn in *. unfold end_line in *. congruence. }
        subst row'. rewrite app_assoc. reflexivity.
      + exists er. split; [exact Ser|].
        intros t fuel rows next T F. unfold branch_fold. rewrite E1. cbn [rbind]. rewrite E2. cbn [rbind]. rewrite Low. cbn [rbind fst].
        unfold dgetE. fold classes. rewrite El. cbn [rbind]. rewrite Jl, (Mark t T). fold (branch_prefix prefix k i).
        rewrite (Eer fuel false rows ax) by auto.
        pose proof (size_len (p :: ps)) as Sl. destruct (fuel - length (p :: ps)) as [|f2] eqn:Ef; [lia|].
        assert (Lj : leaves_join false (p :: ps) = false).
        { destruct (Calm eq_refl) as [C|[qs [n C]]]; [discriminate|]. rewrite C. apply leaves_calm. }
        rewrite Lj, (meet_step j az y by_) by auto. reflexivity.
  Qed.
  Lemma routes_claim : forall g j y by_ prefix k, goes_on d j y -> join_node d j -> get_node_by_id y d = Some (y, by_) ->
    gateway_node d g -> forall ag, get_node_by_id g d = Some (g, ag) ->
    forall fs bs i, Forall2 (opens_route d g j) fs bs -> i + length bs <= 26 ->
    (forall b, In b bs -> loosely d (fst b)) -> (forall b, In b bs -> seq_claim (fst b)) ->
    exists er, Forall2 shows er (branches_lines d prefix k g i fs bs) /\
      forall t fuel rows next, typed d g t -> (forall b, In b bs -> size (fst b) < fuel) ->
        rfold (branch_fold d prefix k t ag fuel) fs (rows, next, i) = Ok (rows ++ er, met next (Some (y, by_)) bs, i + length bs).
  Proof using Co Wn Lb.
    intros g j y by_ prefix k Oy Jj Gy Gg ag Ga fs bs. revert fs. induction bs as [|b bs IH]; intros fs i Ob Hi Hc Hp; inversion Ob as [|f0 b0 fs0 bs0 Ob1 Ob2]; subst.
    - exists []. split; [constructor|]. intros. cbn [rfold met length]. rewrite app_nil_r, Nat.add_0_r. reflexivity.
    - cbn [length] in Hi. destruct (IH fs0 (S i)) as [er2 [S2 E2]]; auto; [lia|intros b0 I; apply Hc; right; auto|intros b0 I; apply Hp; right; auto|].
      assert (Hi' : i < 26) by lia.
      destruct (route_claim g j f0 b y by_ prefix k i Ob1 Oy Jj Gy (Hc b (or_introl eq_refl)) (Hp b (or_introl eq_refl)) Gg Hi' ag Ga)
        as [er1 [S1 E1]].
      exists (er1 ++ er2). split; [cbn [branches_lines]; apply Forall2_app; auto|].
      intros t fuel rows next T F.
      cbn [rfold]. rewrite E1 by (auto; apply F; left; auto). cbn [rbind].
      rewrite E2; auto; [|intros b' I; apply F; right; auto]. cbn [met length]. rewrite app_assoc, Nat.add_succ_r. reflexivity.
  Qed.
  Lemma fork_claim : forall g j bs y by_, forks d g j bs -> goes_on d j y -> get_node_by_id y d = Some (y, by_) ->
    (forall b, In b bs -> loosely d (fst b)) -> (forall b, In b bs -> seq_claim (fst b)) -> forall prefix k c,
    exists er, Forall2 shows er (part_lines d prefix k c (Block g j bs)) /\
      forall fuel aj rows a, part_size (Block g j bs) <= fuel -> get_node_by_id g d = Some (g, a) ->
        export_node (S fuel) d classes (Some (g, a)) k prefix (VStr c) "" aj rows =
        export_node fuel d classes (Some (y, by_)) (k + 1) prefix (VStr "") "" true (rows ++ er).
  Proof using Co Wn Lb.
    intros g j bs y by_ (Gg & Ng & Sg & Lg & Jj & Ob & Mt) Oy Gy Hc Hp prefix k c. rewrite block_lines.
    assert (Ngn : is_node d g) by apply Gg. destruct (node_entry d g L Ngn) as [ag [Ga [_ [At [_ Ho]]]]].
    destruct (routes_claim g j y by_ prefix k Oy Jj Gy Gg ag Ga (outgoing_of d g) bs 0 Ob Lg Hc Hp) as [er [Ser Eer]].
    exists er. split; auto. intros fuel aj rows a F G.
    rewrite Ga in G. inv G.
    destruct Gg as [_ [t [T Tg]]]. destruct (gateway_not t Tg) as [A1 [A2 [A3 A4]]].
    destruct (class_of d g t L T (gateway_laid t Tg)) as [ls [El [Jl Sl]]].
    assert (J2 : Nat.leb 2 (length (incoming_of d g)) = false) by (apply Nat.leb_gt; unfold join_node in Ng; lia). rewrite J2 in Jl.
    assert (S2 : Nat.leb 2 (length (outgoing_of d g)) = true) by (apply Nat.leb_le; exact Sg). rewrite S2 in Sl.
    assert (Ff : rfold (branch_fold d prefix k t a fuel) (outgoing_of d g) (rows, None, 0) = Ok (rows ++ er, Some (y, by_), 0 + length bs)).
    { rewrite Eer; auto.
      - rewrite met_some by auto. reflexivity.
      - intros b I. cbn [part_size] in F. pose proof (size_branch bs b I). lia. }
    cbn [export_node]. unfold dgetE at 1. change k_type with "type". rewrite <- At. unfold typed in T. rewrite T. cbn [rbind veqs].
    rewrite A1, A2. unfold dgetE at 1. unfold outgoing_list. change k_outgoing with "outgoing". fold classes in El. rewrite El, Ho. cbn [rbind].
    rewrite Jl, Sl, A3, A4. cbn [andb rbind].
    change (rbind (rfold (branch_fold d prefix k t a fuel) (outgoing_of d g) (rows, None, 0))
              (fun st => match snd (fst st) with
                         | Some n => export_node fuel d classes (Some n) (k + 1) prefix (VStr "") "" true (fst (fst st))
                         | None => Ok (fst (fst st), None)
                         end) = export_node fuel d classes (Some (y, by_)) (k + 1) prefix (VStr "") "" true (rows ++ er)).
    rewrite Ff. reflexivity.
  Qed.

  (** Sequences. *)
  Lemma sequence_export : forall ps, loosely d ps -> seq_claim ps.
  Proof using Co Wn Lb.
    intros ps H. induction H as [|n qs A J _ IH|g j bs qs Fk Gj Hc Hp _ IH|g n bs qs Fk An Hc Hp _ IH]; intros x y b W Ny Gy prefix k c.
    - exists []. split; [constructor|]. intros fuel aj rows a F Gx. cbn [route] in W. subst y.
      rewrite Gx in Gy. inv Gy. cbn [length left_mark leaves_join]. rewrite Nat.sub_0_r, Z.add_0_r, app_nil_r. reflexivity.
    - cbn [route] in W. destruct W as [-> [z [O W]]].
      assert (Nz : is_node d z) by apply O. destruct (some_entry d Co z Nz) as [az Gz].
      destruct (IH z y b W Ny Gy prefix (k + 1)%Z "") as [er2 [S2 E2]].
      destruct (act_step n z az prefix k c A O Gz) as [row [S1 E1]].
      exists (row :: er2). split; [cbn [sequence_lines part_lines app]; constructor; auto|].
      intros fuel aj rows a F Gx. destruct fuel as [|fuel]; [lia|]. unfold size in F. cbn [map list_sum fold_right part_size] in F.
      rewrite (E1 fuel aj rows a) by (auto; intro C; contradiction).
      rewrite (E2 fuel false (rows ++ [row]) az); auto; [|unfold size, list_sum; lia].
      cbn [length leaves_join left_mark is_block]. rewrite Nat.sub_succ. replace (k + 1 + Z.of_nat (length qs))%Z with (k + Z.of_nat (S (length qs)))%Z by lia.
      rewrite <- app_assoc. f_equal. destruct qs; reflexivity.
    - cbn [route] in W. destruct W as [-> [z [O W]]].
      destruct (goes_on_node j z O) as [_ Nz]. destruct (some_entry d Co z Nz) as [az Gz].
      destruct (IH z y b W Ny Gy prefix (k + 1)%Z "") as [er2 [S2 E2]].
      destruct (fork_claim g j bs z az Fk O Gz Hc Hp prefix k c) as [er1 [S1 E1]].
      exists (er1 ++ er2). split; [cbn [sequence_lines]; apply Forall2_app; auto|].
      intros fuel aj rows a F Gx. destruct fuel as [|fuel]; [lia|]. unfold size in F. cbn [map list_sum fold_right] in F.
      pose proof (size_pos (Block g j bs)) as P. rewrite (E1 fuel aj rows a) by (auto; unfold list_sum in *; lia).
      rewrite (E2 fuel true (rows ++ er1) az); auto; [|unfold size, list_sum; lia].
      cbn [length leaves_join left_mark is_block]. rewrite Nat.sub_succ. replace (k + 1 + Z.of_nat (length qs))%Z with (k + Z.of_nat (S (length qs)))%Z by lia.
      rewrite app_assoc. f_equal. destruct qs; reflexivity.
    - cbn [route] in W. destruct W as [-> [w [Ow [Ew [z [O W]]]]]]. subst w.
      assert (Nz : is_node d z) by apply O. destruct (some_entry d Co z Nz) as [az Gz].
      assert (Nn : is_node d n) by apply An. destruct (some_entry d Co n Nn) as [an Gn].
      destruct (IH z y b W Ny Gy prefix (k + 1 + 1)%Z "") as [er2 [S2 E2]].
      destruct (act_step n z az prefix (k + 1) "" An O Gz) as [row [S1 E1]].
      destruct (fork_claim g n bs n an Fk Ow Gn Hc Hp prefix k c) as [er0 [S0 E0]].
      exists (er0 ++ row :: er2). split; [cbn [sequence_lines]; apply Forall2_app; auto; cbn [part_lines app]; constructor; auto|].
      intros fuel aj rows a F Gx. destruct fuel as [|fuel]; [lia|]. unfold size in F. cbn [map list_sum fold_right] in F.
      pose proof (size_pos (Block g n bs)) as P. rewrite (E0 fuel aj rows a) by (auto; unfold list_sum in *; lia).
      change (part_size (Act n)) with 1 in F. destruct fuel as [|fuel]; [lia|]. rewrite (E1 fuel true (rows ++ er0) an) by auto.
      rewrite (E2 fuel false ((rows ++ er0) ++ [row]) az); auto; [|unfold size, list_sum; lia].
      cbn [length leaves_join left_mark is_block]. rewrite !Nat.sub_succ. replace (k + 1 + 1 + Z.of_nat (length qs))%Z with (k + Z.of_nat (S (S (length qs))))%Z by lia.
      rewrite <- !app_assoc. f_equal. destruct qs; reflexivity.
  Qed.
  (** A branch that goes to an end event. *)
  Lemma ending_claim : forall g f b k i, opens_end d g f b -> loosely d (fst b) -> gateway_node d g -> i < 26 ->
    forall ag, get_node_by_id g d = Some (g, ag) ->
    exists er, Forall2 shows er (fan_branch d k g i f b) /\
      forall t fuel rows next, typed d g t -> size (fst b) < fuel ->
      branch_fold d "" k t ag fuel (rows, next, i) f = Ok (rows ++ er, next, S i).
  Proof using Co Wn Lb.
    intros g f [ps stop] k i (x & e & Nx & Fx & Es & [Ne Te] & W) Lo Gg Hi ag Ga. cbn [fst snd] in *. subst stop.
    pose proof (sequence_export ps Lo) as Hp.
    destruct (some_entry d Co x Nx) as [ax Gx]. destruct (some_entry d Co e Ne) as [ae Ge].
    destruct (opened d Lb f g x ax Nx Fx Gx) as [fa [E1 [E2 E3]]].
    assert (Low : ascii_lowercase i = Ok (branch_letter i)) by (unfold ascii_lowercase; apply Nat.ltb_lt in Hi; rewrite Hi; reflexivity).
    assert (Mark : forall t, typed d g t ->
      (if is_default f (default_flow (VStr t) ag) then VStr "else" else branch_condition (VStr t) fa) = VStr (branch_mark d g f)).
    { intros t T. rewrite (E3 t T). unfold branch_mark. rewrite (is_type_typed d g t _ T).
      unfold default_flow, default_branch. cbn [veqs]. change t_parallel_gateway with "parallelGateway".
      destruct Gg as [Ng _]. destruct (node_entry d g L Ng) as [ag' [G' [_ [At _]]]]. rewrite Ga in G'. inv G'.
      change k_default with "default". rewrite At. destruct (String.eqb t "parallelGateway"); [reflexivity|]. cbn [negb andb].
      destruct (dget "default" ag') as [[]|]; cbn [is_default veqs]; try reflexivity.
      destruct (String.eqb s f); reflexivity. }
    assert (Lab : forall t, typed d x t -> laid_out t -> exists ls, dget x classes = Some ls /\ smem c_join ls = Nat.leb 2 (length (incoming_of d x))).
    { intros t T O. destruct (class_of d x t L T O) as [ls [El [Jl _]]]. eauto. }
    destruct (Hp x e ae W Ne Ge (branch_prefix "" k i) 1%Z (branch_mark d g f)) as [er [Ser Eer]].
    destruct ps as [|p ps].
    - cbn [route] in W. subst x. destruct (Lab "endEvent" Te) as [ls [El Jl]]; [unfold laid_out; simpl; tauto|].
      destruct (shared d e) eqn:Sh.
      + exists [mkERow (branch_prefix "" k i ++ "1")%string (VStr ("goto " ++ "" ++ zstr (k + 1))%string) (VStr (condition_text d g f)) "" "" ""].
        split.
        { unfold fan_branch. rewrite Sh. constructor; [|constructor]. eexists. eexists. split; [reflexivity|]. split; reflexivity. }
        intros t fuel rows next T F. unfold branch_fold. rewrite E1. cbn [rbind]. rewrite E2. cbn [rbind]. rewrite Low. cbn [rbind fst].
        unfold dgetE. fold classes. rewrite El. cbn [rbind]. unfold shared in Sh. rewrite Jl, Sh, (E3 t T). reflexivity.
      + destruct (end_step d Co Wn e ax 0 1 (branch_prefix "" k i) (branch_mark d g f) false [] (conj Ne Te) Gx) as [row [Sr _]].
        exists [row]. split; [unfold fan_branch; rewrite Sh; constructor; auto|].
        intros t fuel rows next T F. unfold branch_fold. rewrite E1. cbn [rbind]. rewrite E2. cbn [rbind]. rewrite Low. cbn [rbind fst].
        unfold dgetE. fold classes. rewrite El. cbn [rbind]. unfold shared in Sh. rewrite Jl, Sh. destruct fuel as [|fuel]; [cbn in F; lia|].
        rewrite (Mark t T).
        destruct (end_step d Co Wn e ax fuel 1 (branch_prefix "" k i) (branch_mark d g f) false rows (conj Ne Te) Gx) as [row' [Sr' Er']].
        fold (branch_prefix "" k i). fold classes in Er'. rewrite Er'. cbn [rbind fst snd].
        assert (row' = row).
        { destruct Sr as [a1 [c1 [A1 [C1 L1]]]], Sr' as [a2 [c2 [A2 [C2 L2]]]]. destruct row, row'. cbn in *. unfold end_line in *. congruence. }
        subst row'. reflexivity.
    - destruct (first_calm p ps Lo) as [Jp [t0 [T0 O0]]].
      assert (X : x = first_of p) by (destruct p; apply W). rewrite <- X in T0, Jp.
      destruct (Lab t0 T0 O0) as [ls [El Jl]].
      assert (J2 : Nat.leb 2 (length (incoming_of d x)) = false) by (apply Nat.leb_gt; unfold join_node in Jp; lia).
      rewrite J2 in Jl.
      destruct (end_step d Co Wn e ae 0 (1 + Z.of_nat (length (p :: ps))) (branch_prefix "" k i) (left_mark (branch_mark d g f) (p :: ps)) false [] (conj Ne Te) Ge) as [row [Sr _]].
      exists (er ++ [row]). split.
      { unfold fan_branch. rewrite sequence_stop. apply Forall2_app; auto. }
      intros t fuel rows next T F. unfold branch_fold. rewrite E1. cbn [rbind]. rewrite E2. cbn [rbind]. rewrite Low. cbn [rbind fst].
      unfold dgetE. fold classes. rewrite El. cbn [rbind]. rewrite Jl, (Mark t T). fold (branch_prefix "" k i).
      rewrite (Eer fuel false rows ax) by auto.
      pose proof (size_len (p :: ps)) as Sl. destruct (fuel - length (p :: ps)) as [|f2] eqn:Ef; [lia|].
      destruct (end_step d Co Wn e ae f2 (1 + Z.of_nat (length (p :: ps))) (branch_prefix "" k i) (left_mark (branch_mark d g f) (p :: ps)) (leaves_join false (p :: ps)) (rows ++ er) (conj Ne Te) Ge) as [row' [Sr' Er']].
      fold classes in Er'. rewrite Er'. cbn [rbind fst snd].
      assert (row' = row).
      { destruct Sr as [a1 [c1 [A1 [C1 L1]]]], Sr' as [a2 [c2 [A2 [C2 L2]]]]. destruct row, row'. cbn in *. unfold end_line in *. congruence. }
      subst row'. rewrite app_assoc. reflexivity.
  Qed.
  Lemma endings_claim : forall g k, gateway_node d g -> forall ag, get_node_by_id g d = Some (g, ag) ->
    forall fs bs i, Forall2 (opens_end d g) fs bs -> i + length bs <= 26 -> (forall b, In b bs -> loosely d (fst b)) ->
    exists er, Forall2 shows er (fan_branches d k g i fs bs) /\
      forall t fuel rows next, typed d g t -> (forall b, In b bs -> size (fst b) < fuel) ->
        rfold (branch_fold d "" k t ag fuel) fs (rows, next, i) = Ok (rows ++ er, next, i + length bs).
  Proof using Co Wn Lb.
    intros g k Gg ag Ga fs bs. revert fs. induction bs as [|b bs IH]; intros fs i Ob Hi Hc; inversion Ob as [|f0 b0 fs0 bs0 Ob1 Ob2]; subst.
    - exists []. split; [constructor|]. intros. cbn [rfold length]. rewrite app_nil_r, Nat.add_0_r. reflexivity.
    - cbn [length] in Hi. destruct (IH fs0 (S i)) as [er2 [S2 E2]]; auto; [lia|intros b0 I; apply Hc; right; auto|].
      assert (Hi' : i < 26) by lia.
      destruct (ending_claim g f0 b k i Ob1 (Hc b (or_introl eq_refl)) Gg Hi' ag Ga) as [er1 [S1 E1]].
      exists (er1 ++ er2). split; [cbn [fan_branches]; apply Forall2_app; auto|].
      intros t fuel rows next T F.
      cbn [rfold]. rewrite E1 by (auto; apply F; left; auto). cbn [rbind].
      rewrite E2; auto; [|intros b' I; apply F; right; auto]. cbn [length]. rewrite app_assoc, Nat.add_succ_r. reflexivity.
  Qed.
  Lemma fan_claim : forall g bs k, gateway_node d g -> ~ join_node d g -> split_node d g -> length bs <= 26 ->
    Forall2 (opens_end d g) (outgoing_of d g) bs -> (forall b, In b bs -> loosely d (fst b)) ->
    exists er, Forall2 shows er (fan_branches d k g 0 (outgoing_of d g) bs) /\
      forall fuel c aj rows a, (forall b, In b bs -> size (fst b) < fuel) -> get_node_by_id g d = Some (g, a) ->
        export_node (S fuel) d classes (Some (g, a)) k "" c "" aj rows = Ok (rows ++ er, None).
  Proof using Co Wn Lb.
    intros g bs k Gg Ng Sg Lg Ob Hc.
    assert (Ngn : is_node d g) by apply Gg. destruct (node_entry d g L Ngn) as [ag [Ga [_ [At [_ Ho]]]]].
    destruct (endings_claim g k Gg ag Ga (outgoing_of d g) bs 0 Ob Lg Hc) as [er [Ser Eer]].
    exists er. split; auto. intros fuel c aj rows a F G.
    rewrite Ga in G. inv G.
    destruct Gg as [_ [t [T Tg]]]. destruct (gateway_not t Tg) as [A1 [A2 [A3 A4]]].
    destruct (class_of d g t L T (gateway_laid t Tg)) as [ls [El [Jl Sl]]].
    assert (J2 : Nat.leb 2 (length (incoming_of d g)) = false) by (apply Nat.leb_gt; unfold join_node in Ng; lia). rewrite J2 in Jl.
    assert (S2 : Nat.leb 2 (length (outgoing_of d g)) = true) by (apply Nat.leb_le; exact Sg). rewrite S2 in Sl.
    pose proof (Eer t fuel rows None T F) as Ff.
    cbn [export_node]. unfold dgetE at 1. change k_type with "type". rewrite <- At. unfold typed in T. rewrite T. cbn [rbind veqs].
    rewrite A1, A2. unfold dgetE at 1. unfold outgoing_list. change k_outgoing with "outgoing". fold classes in El. rewrite El, Ho. cbn [rbind].
    rewrite Jl, Sl, A3, A4. cbn [andb rbind].
    change (rbind (rfold (branch_fold d "" k t a fuel) (outgoing_of d g) (rows, None, 0))
              (fun st => match snd (fst st) with
                         | Some n => export_node fuel d classes (Some n) (k + 1) "" (VStr "") "" true (fst (fst st))
                         | None => Ok (fst (fst st), None)
                         end) = Ok (rows ++ er, None)).
    rewrite Ff. reflexivity.
  Qed.
End Loose.

Lemma loose_rows : forall d s ps e fuel, loose_process d s ps e -> size ps + 1 < fuel ->
  exists rows, export_rows fuel d = Ok rows /\ Forall2 shows rows (process_lines d s ps e).
Proof.
  intros d s ps e fuel [Co [Wn [Lb [En [Ts [[x [Ox W]] [Ee Hc]]]]]]] F. pose proof (proj1 Co) as L.
  destruct fuel as [|fuel]; [lia|].
  destruct (proj2 (En s) eq_refl) as [Ns Is].
  destruct (node_entry d s L Ns) as [a [G [Hs [At [_ Ho]]]]].
  assert (En1 : filter no_incoming (gnodes (dgraph d)) = [(s, a)]).
  { destruct (proj2 (entry_unique d L)) as [[n b] E]; [exists s; auto|].
    assert (I : In (s, a) (filter no_incoming (gnodes (dgraph d)))).
    { apply filter_In. split; auto. unfold no_incoming, lst. cbn [snd]. unfold incoming_of in Is. rewrite At in Is.
      destruct (dget "incoming" a) as [[]|]; auto. rewrite Is. auto. }
    rewrite E in *. destruct I as [I|[]]. rewrite I. reflexivity. }
  assert (Er : entry_nodes d = Ok [(s, a)]) by (rewrite (entry_nodes_eq d L), En1; reflexivity).
  destruct (Wn s Ns) as [[nm N] Df].
  destruct (start_activity_of d s a nm At Ts N Df) as [w [M Ea]].
  destruct Ox as [Nx [f [Ef Fx]]]. rewrite Ef in Ho.
  destruct (some_entry d Co x Nx) as [ax Gx]. destruct Ee as [Ne Te]. destruct (some_entry d Co e Ne) as [ae Ge].
  destruct (opened d Lb f s x ax Nx Fx Gx) as [fa [E1 [E2 _]]].
  destruct (sequence_export d Co Wn Lb ps Hc x e ae W Ne Ge "" 1%Z "") as [er [Ser Eer]].
  set (classes := map (fun c => (cid c, ccls c)) (classified d)) in *.
  set (row := mkERow "0" (VStr (w ++ nm)%string) (VStr "") "" "" "").
  pose proof (size_len ps) as Sl. destruct (fuel - length ps) as [|f2] eqn:Ff; [lia|].
  destruct (end_step d Co Wn e ae f2 (1 + Z.of_nat (length ps)) "" (left_mark "" ps) (leaves_join false ps) ([row] ++ er) (conj Ne Te) Ge) as [rw [Srw Erw]].
  exists (row :: er ++ [rw]). split.
  - unfold export_rows. rewrite Er. cbn [rbind]. rewrite (nodes_eq d L). cbn [rbind]. fold classes.
    cbn [export_node]. unfold dgetE. change k_type with "type". rewrite <- At. unfold typed in Ts. rewrite Ts. cbn [rbind veqs].
    change (String.eqb "startEvent" t_start_event) with true. cbv iota.
    rewrite Ea. cbn [rbind]. change k_outgoing with "outgoing". rewrite Ho. cbn [rbind]. rewrite E1. cbn [rbind]. rewrite E2. cbn [rbind].
    change (rbind (export_node fuel d classes (Some (x, ax)) 1 "" (VStr "") "" false [row]) (fun r => Ok (fst r)) = Ok (row :: er ++ [rw])).
    rewrite (Eer fuel false [row] ax) by (auto; lia). rewrite Ff. fold classes in Erw. rewrite Erw. reflexivity.
  - unfold process_lines. constructor.
    + exists (w ++ nm)%string, "". split; auto. split; auto. unfold start_line, row. cbn [e_order e_who e_subprocess e_terminated].
      rewrite <- (word_of d Wn s w Ns M (or_introl Ts)). unfold node_text. unfold named in N. rewrite N. reflexivity.
    + rewrite sequence_stop. apply Forall2_app; auto.
Qed.
Lemma loose_export : forall d s ps e fuel, loose_process d s ps e -> size ps + 1 < fuel ->
  export_process_to_csv fuel d None = (Some (csv_text (csv_columns :: process_lines d s ps e)), Ok tt).
Proof.
  intros d s ps e fuel H F. destruct (loose_rows d s ps e fuel H F) as [rows [E S]]. eapply exported_text; eauto.
Qed.

Lemma fan_rows : forall d s ps g bs fuel, fan_process d s ps g bs -> size ps + list_sum (map (fun b : branch_t => S (size (fst b))) bs) + 2 < fuel ->
  exists rows, export_rows fuel d = Ok rows /\ Forall2 shows rows (fan_lines d s ps g bs).
Proof.
  intros d s ps g bs fuel (Co & Wn & Lb & En & Ts & [x [Ox W]] & Hc & Gg & Ng & Sg & Lg & Ob & Hb) F. pose proof (proj1 Co) as L.
  destruct fuel as [|fuel]; [lia|].
  destruct (proj2 (En s) eq_refl) as [Ns Is].
  destruct (node_entry d s L Ns) as [a [G [Hs [At [_ Ho]]]]].
  assert (En1 : filter no_incoming (gnodes (dgraph d)) = [(s, a)]).
  { destruct (proj2 (entry_unique d L)) as [[n b] E]; [exists s; auto|].
    assert (I : In (s, a) (filter no_incoming (gnodes (dgraph d)))).
    { apply filter_In. split; auto. unfold no_incoming, lst. cbn [snd]. unfold incoming_of in Is. rewrite At in Is.
      destruct (dget "incoming" a) as [[]|]; auto. rewrite Is. auto. }
    rewrite E in *. destruct I as [I|[]]. rewrite I. reflexivity. }
  assert (Er : entry_nodes d = Ok [(s, a)]) by (rewrite (entry_nodes_eq d L), En1; reflexivity).
  destruct (Wn s Ns) as [[nm N] Df].
  destruct (start_activity_of d s a nm At Ts N Df) as [w [M Ea]].
  destruct Ox as [Nx [f [Ef Fx]]]. rewrite Ef in Ho.
  assert (Ngn : is_node d g) by apply Gg.
  destruct (some_entry d Co x Nx) as [ax Gx]. destruct (some_entry d Co g Ngn) as [ag Ga].
  destruct (opened d Lb f s x ax Nx Fx Gx) as [fa [E1 [E2 _]]].
  destruct (sequence_export d Co Wn Lb ps Hc x g ag W Ngn Ga "" 1%Z "") as [er [Ser Eer]].
  destruct (fan_claim d Co Wn Lb g bs (Z.of_nat (S (length ps))) Gg Ng Sg Lg Ob Hb) as [ef [Sef Eef]].
  set (classes := map (fun c => (cid c, ccls c)) (classified d)) in *.
  set (row := mkERow "0" (VStr (w ++ nm)%string) (VStr "") "" "" "").
  pose proof (size_len ps) as Sl. destruct (fuel - length ps) as [|f2] eqn:Ff; [lia|].
  assert (Sb : forall b, In b bs -> size (fst b) < f2).
  { intros b Hi. assert (X : S (size (fst b)) <= list_sum (map (fun b : branch_t => S (size (fst b))) bs)); [|lia].
    clear - Hi. induction bs as [|c bs IH]; [contradiction|]. cbn [map list_sum fold_right]. destruct Hi as [<- |Hi]; [unfold list_sum; lia|]. specialize (IH Hi). unfold list_sum in *. lia. }
  exists (row :: er ++ ef). split.
  - unfold export_rows. rewrite Er. cbn [rbind]. rewrite (nodes_eq d L). cbn [rbind]. fold classes.
    cbn [export_node]. unfold dgetE. change k_type with "type". rewrite <- At. unfold typed in Ts. rewrite Ts. cbn [rbind veqs].
    change (String.eqb "startEvent" t_start_event) with true. cbv iota.
    rewrite Ea. cbn [rbind]. change k_outgoing with "outgoing". rewrite Ho. cbn [rbind]. rewrite E1. cbn [rbind]. rewrite E2. cbn [rbind].
    change (rbind (export_node fuel d classes (Some (x, ax)) 1 "" (VStr "") "" false [row]) (fun r => Ok (fst r)) = Ok (row :: er ++ ef)).
    rewrite (Eer fuel false [row] ax) by (auto; lia). rewrite Ff. replace (1 + Z.of_nat (length ps))%Z with (Z.of_nat (S (length ps))) by lia.
    rewrite (Eef f2 _ _ _ ag Sb Ga). reflexivity.
  - unfold fan_lines. constructor.
    + exists (w ++ nm)%string, "". split; auto. split; auto. unfold start_line, row. cbn [e_order e_who e_subprocess e_terminated].
      rewrite <- (word_of d Wn s w Ns M (or_introl Ts)). unfold node_text. unfold named in N. rewrite N. reflexivity.
    + apply Forall2_app; auto.
Qed.
Lemma fan_export : forall d s ps g bs fuel, fan_process d s ps g bs -> size ps + list_sum (map (fun b : branch_t => S (size (fst b))) bs) + 2 < fuel ->
  export_process_to_csv fuel d None = (Some (csv_text (csv_columns :: fan_lines d s ps g bs)), Ok tt).
Proof.
  intros d s ps g bs fuel H F. destruct (fan_rows d s ps g bs fuel H F) as [rows [E S]]. eapply exported_text; eauto.
Qed.
