(** Tables whose goto rows are each reached in one way, by a row or by another jump (C120).
    Each theorem is followed by a concrete case of its hypotheses. *)
From Coq Require Import String Ascii List Bool Arith ZArith Lia Permutation Relations.
From Verif Require Import Py PyFacts Consts Nx NxFacts Rep SpecRep RepFacts.
From Verif Require Import CsvRegex CsvImport SpecCsv RegexFacts CsvFacts CsvTable SpecFlow SpecGoto CsvGhost CsvFill CsvLast CsvTotal GotoFacts CsvGoto CsvJump.
From Verif Require Import Prop_CsvRows Prop_CsvImport Prop_CsvGoto Prop_CsvAnyGoto.
Import ListNotations.
Open Scope string_scope.
Open Scope list_scope.

(** The goto row [a] jumps to [o]. *)
Definition jumps_to (rows : dict row) (a o : string) : Prop :=
  exists r, In (a, r) rows /\ goto_row r /\ second_word (r_activity r) o.
(** One thing leads to each goto row: a flow or a jump. *)
Definition one_entry (rows : dict row) : Prop := forall o, goto_order rows o ->
  (forall x y, raw_flow rows x o -> raw_flow rows y o -> x = y) /\
  (forall a b, jumps_to rows a o -> jumps_to rows b o -> a = b) /\
  (forall x a, raw_flow rows x o -> ~ jumps_to rows a o).

(** What is sent to a place arrives there, or where the jump of that place goes. *)
Inductive lands (rows : dict row) : string -> string -> Prop :=
| la_here : forall y, ~ goto_order rows y -> lands rows y y
| la_jump : forall o t y, jumps_to rows o t -> lands rows t y -> lands rows o y.
(** The flows with all jumps followed to their ends. *)
Definition goes_to (rows : dict row) (x y : string) : Prop :=
  ~ goto_order rows x /\ exists m, raw_flow rows x m /\ lands rows m y.
(** A flow of the diagram. *)
Definition flow_to (d : diagram) (x y : string) : Prop := exists f r, dget f (seq_flows d) = Some r /\ fl_src r = x /\ fl_tgt r = y.

(** * Counting the ways in *)
Definition names (o : string) (p : string * row) : bool :=
  is_goto (snd p) && match goto_target (snd p) with Ok t => String.eqb t o | Err _ => false end.
Lemma names_ok : forall o a r, names o (a, r) = true <-> goto_row r /\ second_word (r_activity r) o.
Proof.
  intros o a r. unfold names. cbn [snd]. rewrite andb_true_iff. split.
  - intros [G T]. apply is_goto_spec in G. split; auto. apply (goto_target_spec r o G). destruct (goto_target r); [|discriminate]. apply String.eqb_eq in T. congruence.
  - intros [G T]. split; [apply is_goto_spec; auto|]. apply (goto_target_spec r o G) in T. rewrite T. apply String.eqb_refl.
Qed.
Lemma none_found : forall A (f : A -> bool) l, (forall x, In x l -> f x = true -> False) -> length (filter f l) = 0.
Proof. intros A f l H. rewrite filter_nil; auto. intros x Hx. destruct (f x) eqn:E; auto. elim (H x Hx E). Qed.
Lemma one_found : forall rows done todo L o, one_entry rows -> NoDup (orders rows) -> rows = done ++ todo -> NoDup L ->
  (forall s t, In (s, t) L <-> raw_flow rows s t) -> goto_order rows o ->
  length (filter (into o) L) + length (filter (names o) done) <= 1.
Proof.
  intros rows done todo L o OE ND E NL FL G. destruct (OE o G) as [A [B C]].
  assert (Jd : forall a r, In (a, r) done -> names o (a, r) = true -> jumps_to rows a o).
  { intros a r I N. apply names_ok in N. exists r. split; [rewrite E; apply in_app_iff; auto|exact N]. }
  assert (NR : NoDup rows) by (eapply NoDup_map_inv; exact ND).
  assert (Nd : NoDup done) by (rewrite E in NR; clear - NR; induction done as [|p l IH]; [constructor|]; inversion NR; subst; constructor; [intros Q; apply H1, in_app_iff; auto|auto]).
  assert (U1 : length (filter (into o) L) < 2).
  { apply short_unique; auto. intros [x1 x2] [y1 y2] X1 X2 X3 X4. apply into_true in X2. apply into_true in X4. cbn [snd] in *. subst.
    apply FL in X1. apply FL in X3. f_equal. eauto. }
  assert (U2 : length (filter (names o) done) < 2).
  { apply short_unique; auto. intros [a r] [b r'] X1 X2 X3 X4. assert (a = b) by (apply B; eauto). subst b. f_equal.
    assert (I1 : In (a, r) rows) by (rewrite E; apply in_app_iff; auto). assert (I2 : In (a, r') rows) by (rewrite E; apply in_app_iff; auto).
    apply (In_dget _ _ _ ND) in I1. apply (In_dget _ _ _ ND) in I2. congruence. }
  destruct (filter (into o) L) as [|[x y] l] eqn:F; [cbn [length]; lia|].
  assert (I : In (x, y) (filter (into o) L)) by (rewrite F; left; auto). apply filter_In in I. destruct I as [I1 I2]. apply into_true in I2. cbn [snd] in I2. subst y.
  apply FL in I1. rewrite (none_found _ (names o) done); [lia|]. intros [a r] Q N. eapply C; eauto.
Qed.

(** * Following the jumps of some rows *)
Inductive chase (done : dict row) : string -> string -> Prop :=
| ch_here : forall y, chase done y y
| ch_jump : forall o t y, jumps_to done o t -> chase done t y -> chase done o y.
Lemma chase_more : forall done p m y, chase done m y -> chase (done ++ [p]) m y.
Proof.
  intros done p m y H. induction H as [y|o t y [r [I J]] _ IH]; [constructor|]. apply (ch_jump _ o t y); auto. exists r. split; [apply in_app_iff; auto|exact J].
Qed.
Lemma chase_on : forall done m y z, chase done m y -> chase done y z -> chase done m z.
Proof. intros done m y z H. induction H as [y|o t y J _ IH]; auto. intros Q. apply (ch_jump _ o t z); auto. Qed.
Lemma chase_split : forall done o r m y, chase (done ++ [(o, r)]) m y ->
  chase done m y \/ (chase done m o /\ goto_row r /\ exists t, second_word (r_activity r) t /\ chase (done ++ [(o, r)]) t y).
Proof.
  intros done o r m y H. induction H as [y|a t y [r' [I [G S]]] Q IH]; [left; constructor|].
  apply in_app_iff in I. destruct I as [I|[I|[]]].
  - assert (J : jumps_to done a t) by (exists r'; auto). destruct IH as [IH|[A B]]; [left; eapply ch_jump; eauto|]. right. split; [eapply ch_jump; eauto|exact B].
  - inv I. right. split; [constructor|]. split; eauto.
Qed.
Lemma chase_stays : forall done m y, chase done m y -> ~ gone done m -> y = m.
Proof. intros done m y H N. destruct H as [y|o t y [r [I [G _]]] _]; auto. elim N. exists r. auto. Qed.
Lemma chase_lands : forall rows m y, chase rows m y /\ ~ goto_order rows y <-> lands rows m y.
Proof.
  intros rows m y. split.
  - intros [H N]. induction H as [y|o t y J _ IH]; [constructor; auto|]. eapply la_jump; eauto.
  - intros H. induction H as [y N|o t y J _ [IH N]]; [split; auto; constructor|]. split; auto. eapply ch_jump; eauto.
Qed.

(** * The goto phase *)
Record chained_to (rows : dict row) (L0 : flows_of) (done : dict row) (d : diagram) (L : flows_of) : Prop := mkChained {
  ct_books : books d L;
  ct_in : forall o, length (filter (into o) L) <= length (filter (into o) L0) + length (filter (names o) done);
  ct_out : forall o, length (filter (from o) L) <= length (filter (from o) L0);
  ct_gone : forall x, gone done x -> ~ is_node d x;
  ct_flows : forall x y, In (x, y) L <-> ~ gone done x /\ ~ gone done y /\ exists m, raw_flow rows x m /\ chase done m y }.

Lemma filter_less : forall A (f g : A -> bool) l, length (filter f (filter g l)) <= length (filter f l).
Proof. intros A f g. induction l as [|a l IH]; cbn [filter]; auto. destruct (g a); cbn [filter]; destruct (f a); cbn [length]; lia. Qed.
Lemma filter_lesser : forall A (f g : A -> bool) l x, In x l -> f x = true -> g x = false -> length (filter f (filter g l)) < length (filter f l).
Proof.
  intros A f g. induction l as [|a l IH]; intros x I F G; [contradiction|]. cbn [filter]. destruct I as [-> |I].
  - rewrite F, G. cbn [length]. pose proof (filter_less _ f g l). lia.
  - specialize (IH x I F G). destruct (g a); cbn [filter]; destruct (f a); cbn [length]; lia.
Qed.

Lemma chain_step : forall rows L0 done todo o r st st' L, good_rows rows -> row_onward rows -> one_entry rows -> NoDup L0 ->
  (forall s t, In (s, t) L0 <-> raw_flow rows s t) -> rows = done ++ (o, r) :: todo ->
  chained_to rows L0 done (fst st) L -> follow (o, r) st = (st', Ok tt) -> exists L', chained_to rows L0 (done ++ [(o, r)]) (fst st') L'.
Proof.
  intros rows L0 done todo o r [d tb] st' L GR RO OE NL FL E [B Ci Co Cg Cf] H. unfold follow in H. cbn [fst snd] in *. pose proof (proj1 GR) as ND.
  destruct (is_goto r) eqn:Eg.
  2:{ inv H. exists L. assert (Ng : ~ goto_row r) by (intros C; apply is_goto_spec in C; congruence).
      assert (X : forall x, gone (done ++ [(o, r)]) x <-> gone done x) by (intros x; rewrite gone_more; tauto).
      constructor; auto.
      - intros x. rewrite filter_app, app_length. specialize (Ci x). lia.
      - intros x. rewrite X. apply Cg.
      - intros x y. rewrite !X, Cf. split; intros [A1 [A2 [m [A3 A4]]]]; (split; [auto|split; [auto|exists m; split; auto]]).
        + apply chase_more. auto.
        + destruct (chase_split _ _ _ _ _ A4) as [Q|[_ [Q _]]]; [auto|contradiction]. }
  apply is_goto_spec in Eg. rename Eg into G. apply mbind_ok in H. destruct H as [[d1 tb1] [[s u] [H1 H2]]]. cbn [fst snd] in *.
  rewrite mbind_read in H2. destruct (goto_target r) as [t|] eqn:Et; [|discriminate]. apply (goto_target_spec r t G) in Et.
  apply csv_remove_inv in H1. destruct H1 as [_ S1]. cbn [fst snd] in *.
  apply add_connection_inv in H2; [|eapply spliced_wf; eauto; apply B]. destruct H2 as [N1 [N2 [_ C]]].
  assert (Ho : goto_order rows o) by (exists r; split; auto; rewrite E; apply in_app_iff; right; left; auto).
  destruct (spliced_flows _ _ _ _ _ _ B S1) as [C1 C2].
  pose proof (one_found rows done ((o, r) :: todo) L0 o OE ND E NL FL Ho) as O1.
  assert (L1 : length (filter (into o) L) = 1) by (specialize (Ci o); lia).
  assert (O2 : length (filter (from o) L0) < 2).
  { apply short_unique; auto. intros [x1 x2] [y1 y2] X1 X2 X3 X4. apply from_true in X2. apply from_true in X4. cbn [fst] in *. subst.
    apply FL in X1. apply FL in X3. f_equal. eapply row_source_one; eauto. apply goto_in. auto. }
  assert (L2 : length (filter (from o) L) = 1) by (specialize (Co o); lia).
  destruct (books_splice _ _ _ _ _ _ B L1 L2 S1) as [Ns [Nu [EI [EO B1]]]].
  assert (Is : In (s, o) L). { assert (A : In (s, o) (filter (into o) L)) by (rewrite EI; left; auto). apply filter_In in A. tauto. }
  exists (filter (apart o) L ++ [(s, t)]). constructor.
  - eapply books_connect; eauto.
  - intros x. rewrite !filter_app, !app_length. pose proof (filter_less _ (into x) (apart o) L) as Q. specialize (Ci x). cbn [filter].
    destruct (into x (s, t)) eqn:T; cbn [length]; [|lia]. apply into_true in T. cbn [snd] in T. subst x.
    rewrite (proj2 (names_ok t o r) (conj G Et)). cbn [length]. lia.
  - intros x. rewrite filter_app, app_length. specialize (Co x). cbn [filter]. destruct (from x (s, t)) eqn:T; cbn [length].
    + apply from_true in T. cbn [fst] in T. subst x.
      assert (Q : length (filter (from s) (filter (apart o) L)) < length (filter (from s) L)).
      { apply (filter_lesser _ _ _ _ (s, o) Is); [apply from_true; reflexivity|]. unfold apart. rewrite (proj2 (into_true o (s, o))) by reflexivity. rewrite orb_true_r. reflexivity. }
      lia.
    + pose proof (filter_less _ (from x) (apart o) L). lia.
  - intros x. rewrite gone_more, (connected_is_node _ _ _ _ _ x C), (spliced_is_node _ _ _ _ _ x S1). intros [Q|[-> _]]; [|tauto]. intros [Q2 _]. exact (Cg x Q Q2).
  - assert (No : ~ gone done o).
    { intros [r' [Q _]]. rewrite E in ND. unfold orders in ND. rewrite map_app in ND. cbn [map fst] in ND.
      apply NoDup_remove_2 in ND. apply ND, in_app_iff. left. apply in_map_iff. exists (o, r'). auto. }
    apply (spliced_is_node _ _ _ _ _ t S1) in N2. destruct N2 as [N2 Nto].
    assert (Nt : ~ gone done t) by (intros Q; exact (Cg t Q N2)).
    intros x y. rewrite in_app_iff, filter_In, apart_true, !gone_more. cbn [fst snd]. split.
    + intros [[Q [A1 A2]]|[Q|[]]].
      * apply Cf in Q. destruct Q as [B2 [B3 [m [B4 B5]]]]. split; [tauto|]. split; [tauto|]. exists m. split; auto. apply chase_more. auto.
      * inv Q. apply Cf in Is. destruct Is as [B2 [_ [m [B4 B5]]]]. split; [tauto|]. split; [tauto|]. exists m. split; auto.
        eapply chase_on; [apply chase_more; exact B5|]. eapply ch_jump; [|constructor]. exists r. split; [apply in_app_iff; right; left; auto|auto].
    + intros [A1 [A2 [m [A3 A4]]]]. destruct (chase_split _ _ _ _ _ A4) as [Q|[Q [_ [t' [Q1 Q2]]]]].
      * left. split; [apply Cf; split; [tauto|split; [tauto|eauto]]|]. split; intros ->; tauto.
      * right. left. assert (Ix : In (x, o) L) by (apply Cf; split; [tauto|split; [auto|eauto]]).
        assert (Ix' : In (x, o) (filter (into o) L)) by (apply filter_In; split; auto; apply into_true; reflexivity). rewrite EI in Ix'. destruct Ix' as [Ix'|[]].
        rewrite (second_unique _ _ _ G Q1 Et) in Q2. apply chase_stays in Q2; [congruence|]. rewrite gone_more. tauto.
Qed.
Lemma chain_all : forall rows L0, good_rows rows -> row_onward rows -> one_entry rows -> NoDup L0 ->
  (forall s t, In (s, t) L0 <-> raw_flow rows s t) -> forall todo done st st' L, rows = done ++ todo ->
  chained_to rows L0 done (fst st) L -> mfor todo follow st = (st', Ok tt) -> exists L', chained_to rows L0 rows (fst st') L'.
Proof.
  intros rows L0 GR RO OE NL FL. induction todo as [|[o r] todo IH]; intros done st st' L E Ch H.
  - rewrite app_nil_r in E. inv H. exists L. exact Ch.
  - cbn [mfor] in H. apply mbind_ok in H. destruct H as [st1 [[] [H1 H2]]].
    destruct (chain_step rows L0 done todo o r st st1 L GR RO OE NL FL E Ch H1) as [L1 C1].
    eapply (IH (done ++ [(o, r)])); eauto. rewrite <- app_assoc. exact E.
Qed.
(** Taking out a gateway with one flow on each side keeps who reaches whom. *)
Definition over (L : flows_of) : string -> string -> Prop := clos_trans string (fun x y => In (x, y) L).
Lemma shortcut_over : forall n L L', shortcut n L L' -> forall x y, x <> n -> y <> n -> (over L x y <-> over L' x y).
Proof.
  intros n L L' [s [t [Ns [Nt [FI [FO ->]]]]]].
  assert (U1 : forall x, In (x, n) L -> x = s).
  { intros x Q. assert (X : In (x, n) (filter (into n) L)) by (apply filter_In; split; auto; apply into_true; reflexivity). rewrite FI in X. destruct X as [X|[]]. congruence. }
  assert (U2 : forall y, In (n, y) L -> y = t).
  { intros y Q. assert (X : In (n, y) (filter (from n) L)) by (apply filter_In; split; auto; apply from_true; reflexivity). rewrite FO in X. destruct X as [X|[]]. congruence. }
  assert (I1 : In (s, n) L). { assert (X : In (s, n) (filter (into n) L)) by (rewrite FI; left; auto). apply filter_In in X. tauto. }
  assert (I2 : In (n, t) L). { assert (X : In (n, t) (filter (from n) L)) by (rewrite FO; left; auto). apply filter_In in X. tauto. }
  assert (K : forall a b, In (a, b) L -> a <> n -> b <> n -> In (a, b) (filter (apart n) L ++ [(s, t)])).
  { intros a b Q A B. apply in_app_iff. left. apply filter_In. split; auto. apply apart_true. auto. }
  assert (N : In (s, t) (filter (apart n) L ++ [(s, t)])) by (apply in_app_iff; right; left; auto).
  intros x y Nx Ny. split; intros H.
  - assert (X : (y <> n -> over (filter (apart n) L ++ [(s, t)]) x y) /\ (y = n -> x = s \/ over (filter (apart n) L ++ [(s, t)]) x s)); [|tauto].
    clear Ny. apply clos_trans_tn1 in H. induction H as [y H|y z H _ [IH1 IH2]].
    + split; [intros Ny; apply t_step; auto|intros ->; left; auto].
    + destruct (string_dec y n) as [-> |Ny].
      * pose proof (U2 _ H). subst z. split; [intros _|intros; contradiction].
        destruct (IH2 eq_refl) as [-> |Q]; [apply t_step; auto|]. eapply t_trans; [exact Q|apply t_step; auto].
      * specialize (IH1 Ny). split; [intros Nz; eapply t_trans; [exact IH1|apply t_step; auto]|]. intros ->. apply U1 in H. subst y. auto.
  - clear Nx Ny. induction H as [a b H|a b c _ IH1 _ IH2]; [|eapply t_trans; eauto].
    apply in_app_iff in H. destruct H as [H|[H|[]]]; [apply filter_In in H; apply t_step; tauto|]. injection H as <- <-.
    eapply t_trans; apply t_step; eauto.
Qed.
Lemma last_books : forall st st' L, books (fst st) L -> remove_unnecessary_merge_gateways st = (st', Ok tt) ->
  exists L', books (fst st') L' /\ forall x y, is_node (fst st') x -> is_node (fst st') y -> (over L x y <-> over L' x y).
Proof.
  intros st st' L B H. unfold remove_unnecessary_merge_gateways in H. rewrite mbind_read in H.
  refine (mfor_inv _ _ (fun z => exists L', books (fst z) L' /\ forall x y, is_node (fst z) x -> is_node (fst z) y -> (over L x y <-> over L' x y)) _ _ _ _ _ _ H).
  2:{ exists L. split; auto. tauto. }
  intros n y y' _ [Ly [By Ov]] E. apply gateway_round in E; [|apply By].
  destruct (books_gateway_step _ _ _ _ By E) as [[-> _]|[L' [Q [_ [Sc [_ [Nd _]]]]]]]; [eauto|].
  exists L'. split; auto. intros a b Ha Hb. apply Nd in Ha, Hb. rewrite (Ov a b) by tauto. apply (shortcut_over n); tauto.
Qed.
Lemma chain_import : forall table d d', fresh d -> documented table -> one_entry (rows_of table) ->
  load_diagram_from_csv table d = (d', Ok tt) -> exists L L4, books d' L /\ (forall x y, In (x, y) L4 <-> goes_to (rows_of table) x y) /\
  forall x y, is_node d' x -> is_node d' y -> (over L4 x y <-> over L x y).
Proof.
  intros table d d' Fr D OE H. pose proof (rows_cleaned table (proj1 D)) as Cl. set (rows := rows_of table) in *.
  assert (G : good_rows rows) by exact D. assert (Bl : blank d) by exact Fr.
  destruct (import_phases _ _ _ H) as [d0 [s1 [s2 [d3 [s4 [s5 [P0 [P1 [P2 [P3 [P4 [P5 ->]]]]]]]]]]]]. rewrite Cl in P0, P1.
  assert (Bl0 : blank d0).
  { destruct (populate_eq (d, rows)) as [dd [Q [Gd [Fd _]]]]. cbn [fst snd] in *. rewrite P0 in Q. inv Q. destruct Bl. split; congruence. }
  destruct (rows_imported rows d0 Bl0 (proj1 G)) as [d1 [Q1 [R M1]]].
  { intros o Ho. eapply good_plain; eauto. }
  rewrite Q1 in P1. injection P1 as <-.
  destruct (fill_all rows d1 s2 G R P2) as [T2 [L F]]. pose proof (fi_books _ _ _ _ _ F) as B2.
  destruct (legacy_inv _ _ (bk_wf _ _ B2) P3) as [W3 [A3 [K3 [E3 R3]]]].
  assert (B3 : books d3 L).
  { destruct R3 as [R3 _]. eapply books_frame; eauto. intros m k [-> | ->]; apply A3; discriminate. }
  assert (FL : forall s t, In (s, t) L <-> raw_flow rows s t).
  { intros s t. rewrite (fi_flows _ _ _ _ _ F). apply raw_by_all. }
  assert (RO : row_onward rows).
  { intros o m m' M. eapply (fi_merge _ _ _ _ _ F); eauto. apply onward_in, M. }
  assert (NL : NoDup L) by apply F.
  rewrite T2 in P4. unfold remove_goto_nodes in P4. rewrite mbind_read in P4. cbn [snd] in P4. fold follow in P4.
  destruct (chain_all rows L G RO OE NL FL rows [] (d3, rows) s4 L eq_refl) as [L4 C4].
  { constructor; auto; cbn [fst]; [intros o; cbn [filter length]; lia|intros x [r [[] _]]|].
    assert (Ng : forall x, ~ gone [] x) by (intros x [r [[] _]]). intros x y. rewrite FL. split.
    - intros Q. split; [apply Ng|]. split; [apply Ng|]. exists y. split; [auto|constructor].
    - intros [_ [_ [m [Q Ch]]]]. apply chase_stays in Ch; [congruence|apply Ng]. }
  { exact P4. }
  destruct (last_books s4 s5 L4 (ct_books _ _ _ _ _ C4) P5) as [L5 [B5 O5]]. exists L5, L4. split; auto. split; auto.
  intros x y. rewrite (ct_flows _ _ _ _ _ C4). change (gone rows) with (goto_order rows). unfold goes_to. split.
  - intros [A [B [m [M Ch]]]]. split; auto. exists m. split; auto. apply chase_lands. auto.
  - intros [A [m [M La]]]. apply chase_lands in La. destruct La as [La Ny]. split; auto. split; auto. eauto.
Qed.

(** * Checker for the examples *)
Definition one_entry_b (rows : dict row) : bool :=
  forallb (fun p => negb (is_goto (snd p)) || Nat.leb (length (filter (into (fst p)) (made_flows rows)) + length (filter (names (fst p)) rows)) 1) rows.
Lemma one_of : forall A (f : A -> bool) l x y, length (filter f l) <= 1 -> In x l -> f x = true -> In y l -> f y = true -> x = y.
Proof.
  intros A f l x y H X Fx Y Fy. assert (X' : In x (filter f l)) by (apply filter_In; auto). assert (Y' : In y (filter f l)) by (apply filter_In; auto).
  destruct (filter f l) as [|a [|b k]]; [contradiction| |cbn [length] in H; lia]. destruct X' as [<- |[]]. destruct Y' as [<- |[]]. reflexivity.
Qed.
Lemma one_entry_ok : forall rows, good_rows rows -> snd (made rows) = Ok tt -> one_entry_b rows = true -> one_entry rows.
Proof.
  intros rows G M H o [r0 [I0 G0]]. unfold one_entry_b in H. rewrite forallb_forall in H. specialize (H _ I0). cbn [fst snd] in H.
  rewrite (proj2 (is_goto_spec r0) G0) in H. cbn [negb orb] in H. apply Nat.leb_le in H.
  assert (Fl : forall x, raw_flow rows x o -> In (x, o) (made_flows rows) /\ into o (x, o) = true).
  { intros x Q. split; [apply (made_ok rows G M); exact Q|apply into_true; reflexivity]. }
  assert (Jt : forall a, jumps_to rows a o -> exists r, In (a, r) rows /\ names o (a, r) = true) by (intros a [r [A B]]; exists r; split; auto; apply names_ok; exact B).
  split; [|split].
  - intros x y X Y. destruct (Fl x X) as [X1 X2], (Fl y Y) as [Y1 Y2]. assert (E : (x, o) = (y, o)) by (eapply (one_of _ (into o)); eauto; lia). congruence.
  - intros a b A B. destruct (Jt a A) as [r [A1 A2]], (Jt b B) as [r' [B1 B2]]. assert (E : (a, r) = (b, r')) by (eapply (one_of _ (names o)); eauto; lia). congruence.
  - intros x a X A. destruct (Fl x X) as [X1 X2], (Jt a A) as [r [A1 A2]].
    assert (N1 : In (x, o) (filter (into o) (made_flows rows))) by (apply filter_In; auto). assert (N2 : In (a, r) (filter (names o) rows)) by (apply filter_In; auto).
    destruct (filter (into o) (made_flows rows)); [contradiction|]. destruct (filter (names o) rows); [contradiction|]. cbn [length] in H. lia.
Qed.

(** * C120 *)
(** If each goto row is reached in one way, by a flow or by a jump, the loaded diagram hangs together: every flow joins two
    nodes that list it, and the lists of the nodes name no other flows. *)
Theorem C120_flows_consistent : forall table d d', fresh d -> documented table -> one_entry (rows_of table) ->
  load_diagram_from_csv table d = (d', Ok tt) ->
  (forall f r, dget f (seq_flows d') = Some r ->
     fl_name r = f /\ is_node d' (fl_src r) /\ is_node d' (fl_tgt r) /\
     In f (outgoing_of d' (fl_src r)) /\ In f (incoming_of d' (fl_tgt r)) /\ linked d' (fl_src r) (fl_tgt r)) /\
  (forall n f, In f (outgoing_of d' n) -> exists t, dget f (seq_flows d') = Some (mkFlow f n t)) /\
  (forall n f, In f (incoming_of d' n) -> exists s, dget f (seq_flows d') = Some (mkFlow f s n)) /\
  (forall x y, linked d' x y -> exists f r, dget f (seq_flows d') = Some r /\ ((fl_src r = x /\ fl_tgt r = y) \/ (fl_src r = y /\ fl_tgt r = x))).
Proof.
  intros table d d' F D OE H. destruct (chain_import _ _ _ F D OE H) as [L [_ [B _]]]. split; [|split; [|split]].
  - intros f r Hf. apply (bk_flows _ _ B) in Hf. destruct Hf as [s [t [Hst [-> ->]]]]. cbn [fl_name fl_src fl_tgt].
    destruct (bk_ends _ _ B _ _ Hst). split; auto. split; auto. split; auto. split; [|split].
    + rewrite (bk_out _ _ B). apply (in_map gid _ (s, t)). apply filter_In. split; auto. apply from_true; auto.
    + rewrite (bk_in _ _ B). apply (in_map gid _ (s, t)). apply filter_In. split; auto. apply into_true; auto.
    + apply (bk_linked _ _ B). auto.
  - intros n f Hf. rewrite (bk_out _ _ B) in Hf. apply in_map_iff in Hf. destruct Hf as [[s t] [<- Hf]].
    apply filter_In in Hf. destruct Hf as [Hf E]. apply from_true in E. cbn [fst] in E. subst s.
    exists t. apply (bk_flows _ _ B). eauto.
  - intros n f Hf. rewrite (bk_in _ _ B) in Hf. apply in_map_iff in Hf. destruct Hf as [[s t] [<- Hf]].
    apply filter_In in Hf. destruct Hf as [Hf E]. apply into_true in E. cbn [snd] in E. subst t.
    exists s. apply (bk_flows _ _ B). eauto.
  - intros x y Hl. apply (bk_linked _ _ B) in Hl. destruct Hl as [Hl|Hl].
    + exists (get_flow_id x y), (mkFlow (get_flow_id x y) x y). split; [apply (bk_flows _ _ B); eauto|left; auto].
    + exists (get_flow_id y x), (mkFlow (get_flow_id y x) y x). split; [apply (bk_flows _ _ B); eauto|right; auto].
Qed.

(** Between the nodes of the diagram flows lead from one to another exactly if the rows do so when every jump is followed to
    its end. *)
Theorem C120_ways : forall table d d', fresh d -> documented table -> one_entry (rows_of table) ->
  load_diagram_from_csv table d = (d', Ok tt) -> forall x y, is_node d' x -> is_node d' y ->
  (clos_trans string (flow_to d') x y <-> clos_trans string (goes_to (rows_of table)) x y).
Proof.
  intros table d d' F D OE H x y Nx Ny. destruct (chain_import _ _ _ F D OE H) as [L [L4 [B [Fl Ov]]]]. specialize (Ov x y Nx Ny).
  assert (X : forall R Q : string -> string -> Prop, (forall a b, R a b <-> Q a b) -> forall a b, clos_trans string R a b -> clos_trans string Q a b).
  { intros R Q E a b T. induction T as [a b T|a b c _ I1 _ I2]; [apply t_step, E, T|eapply t_trans; eauto]. }
  assert (E : forall a b, flow_to d' a b <-> In (a, b) L).
  { intros a b. split.
    - intros [f [r [Q [<- <-]]]]. apply (bk_flows _ _ B) in Q. destruct Q as [u [v [I [_ ->]]]]. exact I.
    - intros I. exists (get_flow_id a b), (mkFlow (get_flow_id a b) a b). split; [apply (bk_flows _ _ B); eauto|auto]. }
  split; intros T.
  - apply (X (fun a b => In (a, b) L4)); [exact Fl|]. apply Ov. apply (X (flow_to d')); [exact E|exact T].
  - apply (X (fun a b => In (a, b) L)); [intros a b; symmetry; apply E|]. apply Ov. apply (X (goes_to (rows_of table))); [intros a b; symmetry; apply Fl|exact T].
Qed.

(** A jump to a row that jumps on. *)
Definition relay : list (order_label * row) :=
  [rw "0" "begin" ""; rw "1" "write" ""; rw "2" "review" ""; jump "3a1" "6"; (OStr "3b1", mkRow "publish" "fine" "" "" "");
   rw "4" "done" "yes"; (OStr "6", mkRow "goto 1" "" "" "" ""); rw "7" "file" "yes"].
Definition relay_diagram : diagram := fst (load_diagram_from_csv relay empty_diagram).
Example C120_flows_consistent_example : documented relay /\ one_entry (rows_of relay) /\ ~ neat_jumps (rows_of relay) /\
  load_diagram_from_csv relay empty_diagram = (relay_diagram, Ok tt) /\
  map (fun p => (fl_src (snd p), fl_tgt (snd p))) (seq_flows relay_diagram) =
    [("0", "1"); ("1", "2"); ("2", "2_split"); ("2_split", "3b1"); ("2_split", "1"); ("3b1", "4")] /\
  outgoing_of relay_diagram "2_split" = ["2_split__3b1"; "2_split__1"].
Proof.
  assert (D : documented relay) by (apply check_documented; vm_compute; reflexivity).
  split; [exact D|]. split; [apply one_entry_ok; [exact D|vm_compute; reflexivity|vm_compute; reflexivity]|]. split.
  { intros NJ. destruct (jump_goes "3a1" "6" "6" eq_refl eq_refl) as [J1 J2].
    destruct (nj_goal _ NJ "3a1" (snd (jump "3a1" "6")) "6") as [_ Q]; [vm_compute; auto 10|exact J1|exact J2|]. apply Q. apply goto_b_ok. vm_compute. reflexivity. }
  split; [vm_compute; reflexivity|]. split; vm_compute; reflexivity.
Qed.
(** The first branch of the review leads back to the writing, over two jumps. *)
Example C120_ways_example : is_node relay_diagram "2" /\ is_node relay_diagram "1" /\ clos_trans string (goes_to (rows_of relay)) "2" "1" /\
  lands (rows_of relay) "3a1" "1".
Proof.
  assert (N2 : is_node relay_diagram "2") by (vm_compute; auto 10). assert (N1 : is_node relay_diagram "1") by (clear; vm_compute; auto 10).
  assert (J1 : In ("3a1", snd (jump "3a1" "6")) (rows_of relay)) by (clear; vm_compute; auto 10).
  assert (J2 : In ("6", mkRow "goto 1" "" "" "" "") (rows_of relay)) by (clear; vm_compute; auto 10).
  assert (Ld : load_diagram_from_csv relay empty_diagram = (relay_diagram, Ok tt)) by (vm_compute; reflexivity).
  destruct C120_flows_consistent_example as [D [OE _]].
  split; [exact N2|]. split; [exact N1|]. split.
  - assert (Fr : fresh empty_diagram) by (split; reflexivity).
    refine (proj1 (C120_ways relay empty_diagram relay_diagram Fr D OE Ld "2" "1" N2 N1) _).
    assert (X : forall f r, dget f (seq_flows relay_diagram) = Some r -> flow_to relay_diagram (fl_src r) (fl_tgt r)) by (clear; intros f r Q; exists f, r; split; [exact Q|split; reflexivity]).
    assert (A : dget "2__2_split" (seq_flows relay_diagram) = Some (mkFlow "2__2_split" "2" "2_split")) by (vm_compute; reflexivity).
    assert (B : dget "2_split__1" (seq_flows relay_diagram) = Some (mkFlow "2_split__1" "2_split" "1")) by (vm_compute; reflexivity).
    apply X in A. apply X in B. cbn [fl_src fl_tgt] in A, B. exact (t_trans _ _ _ _ _ (t_step _ _ _ _ A) (t_step _ _ _ _ B)).
  - apply (la_jump _ _ "6"); [|apply (la_jump _ _ "1")].
    + exists (snd (jump "3a1" "6")). split; [exact J1|]. apply jump_goes; vm_compute; reflexivity.
    + exists (mkRow "goto 1" "" "" "" ""). split; [exact J2|]. apply (proj1 (names_ok "1" "6" (mkRow "goto 1" "" "" "" ""))). vm_compute. reflexivity.
    + constructor. intros C. apply goto_b_ok in C. vm_compute in C. discriminate.
Qed.

(** With a second way in the lists of the nodes can name a flow that is gone, even if all flows join nodes. *)
Theorem C120_two_entries_refuted : exists table d' n f, documented table /\ load_diagram_from_csv table empty_diagram = (d', Ok tt) /\
  (forall g r, dget g (seq_flows d') = Some r -> is_node d' (fl_src r) /\ is_node d' (fl_tgt r)) /\
  is_node d' n /\ In f (outgoing_of d' n) /\ dget f (seq_flows d') = None.
Proof.
  exists (chained "3b1"), chained_diagram, "2_split", "2_split__3b1". split; [apply chained_documented|]. split; [vm_compute; reflexivity|]. split.
  - assert (Q : forallb (fun p => existsb (String.eqb (fl_src (snd p))) (node_keys chained_diagram) && existsb (String.eqb (fl_tgt (snd p))) (node_keys chained_diagram)) (seq_flows chained_diagram) = true)
      by (vm_compute; reflexivity).
    intros g r H. apply dget_In in H. rewrite forallb_forall in Q. specialize (Q _ H). cbn [snd] in Q. apply andb_true_iff in Q. destruct Q as [Q1 Q2].
    apply existsb_exists in Q1, Q2. destruct Q1 as [x [X1 X2]], Q2 as [y [Y1 Y2]]. apply String.eqb_eq in X2, Y2. subst x y. split; assumption.
  - split; [vm_compute; auto 10|]. split; vm_compute; auto.
Qed.

Print Assumptions C120_flows_consistent.
Print Assumptions C120_ways.
Print Assumptions C120_two_entries_refuted.
