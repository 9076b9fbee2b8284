(** White space, cleaned tables, split branches and gateway types. *)
From Coq Require Import String Ascii List Bool Arith ZArith Lia.
From Verif Require Import Py PyFacts Consts Nx Rep SpecRep CsvRegex CsvImport SpecCsv RegexFacts.
Import ListNotations.
Open Scope string_scope.
Open Scope list_scope.

(** * strip *)
Lemma is_space_spec : forall c, is_space c = true <-> blank_char c.
Proof.
  intros c. unfold is_space, blank_char. cbv zeta. generalize (nat_of_ascii c). intros n.
  rewrite orb_true_iff, !andb_true_iff, !Nat.leb_le. simpl. lia.
Qed.
Lemma is_space_false : forall c, is_space c = false <-> ~ blank_char c.
Proof. intros c. rewrite <- is_space_spec. destruct (is_space c); split; congruence. Qed.

Lemma all_chars_nil : forall P, all_chars P "".
Proof. intros P c []. Qed.
Lemma all_chars_cons : forall P c s, all_chars P (String c s) <-> P c /\ all_chars P s.
Proof.
  intros. unfold all_chars, is_in. simpl. split.
  - intros H. split; auto.
  - intros [A B] x [<- |H]; auto.
Qed.

Lemma all_chars_app : forall P a b, all_chars P a -> all_chars P b -> all_chars P (a ++ b)%string.
Proof.
  induction a as [|x a IH]; simpl; intros b A B; auto. apply all_chars_cons in A. apply all_chars_cons.
  split; [tauto|]. apply IH; tauto.
Qed.

Lemma lstrip_spec : forall s, exists a, s = (a ++ lstrip s)%string /\ all_chars blank_char a /\
  (forall c u, lstrip s = String c u -> ~ blank_char c).
Proof.
  induction s as [|c s [a [E [A N]]]]; simpl.
  - exists "". split; auto. split; [apply all_chars_nil|discriminate].
  - destruct (is_space c) eqn:S.
    + exists (String c a). simpl. split; [congruence|]. split; auto. apply all_chars_cons. split; auto.
      apply is_space_spec; auto.
    + exists "". split; auto. split; [apply all_chars_nil|]. intros c' u H. inv H. apply is_space_false; auto.
Qed.
Lemma rstrip_spec : forall s, exists b, s = (rstrip_nonempty s ++ b)%string /\ all_chars blank_char b /\
  (forall c u, rstrip_nonempty s = (u ++ String c "")%string -> ~ blank_char c).
Proof.
  induction s as [|c s [b [E [A N]]]]; simpl.
  - exists "". split; auto. split; [apply all_chars_nil|]. intros c [|]; discriminate.
  - destruct (String.eqb_spec (rstrip_nonempty s) "") as [Z|Z].
    + simpl. destruct (is_space c) eqn:S.
      * exists (String c s). split; auto. split; [|intros x [|]; discriminate].
        apply all_chars_cons. split; [apply is_space_spec; auto|]. rewrite Z in E. simpl in E. rewrite E. exact A.
      * exists b. simpl. split; [congruence|]. split; auto. intros x u H. rewrite Z in H.
        destruct u as [|y u]; simpl in H; inversion H; subst; [apply is_space_false; auto|]. destruct u; discriminate.
    + simpl. exists b. simpl. split; [congruence|]. split; auto. intros x u H.
      destruct u as [|y u]; simpl in H; inversion H; subst; [congruence|]. eapply N; eauto.
Qed.
Lemma rstrip_head : forall s c u, rstrip_nonempty s = String c u -> exists v, s = String c v.
Proof.
  intros [|x s] c u H; simpl in H; [discriminate|].
  destruct (String.eqb (rstrip_nonempty s) "" && is_space x); [discriminate|]. inv H. eauto.
Qed.
Lemma strip_trimmed : forall s, trimmed s (strip s).
Proof.
  intros s. destruct (lstrip_spec s) as [a [E [A N]]]. destruct (rstrip_spec (lstrip s)) as [b [E' [B M]]].
  exists a, b. split; [unfold strip; rewrite <- E'; exact E|]. split; auto. split; auto. split; auto.
  intros c u H. apply rstrip_head in H. destruct H as [v H]. eapply N; eauto.
Qed.

Lemma trimmed_front : forall a t a' t', (a ++ t)%string = (a' ++ t')%string ->
  all_chars blank_char a -> all_chars blank_char a' ->
  (forall c u, t = String c u -> ~ blank_char c) -> (forall c u, t' = String c u -> ~ blank_char c) -> t = t'.
Proof.
  induction a as [|x a IH]; intros t [|y a'] t' E A A' N N'; simpl in E; subst; auto.
  - exfalso. apply all_chars_cons in A'. eapply N; [reflexivity|]. tauto.
  - exfalso. apply all_chars_cons in A. eapply N'; [reflexivity|]. tauto.
  - inv E. apply all_chars_cons in A. apply all_chars_cons in A'. eapply IH; eauto; tauto.
Qed.
Lemma trimmed_back : forall t b t' b', (t ++ b)%string = (t' ++ b')%string ->
  all_chars blank_char b -> all_chars blank_char b' ->
  (forall c u, t = (u ++ String c "")%string -> ~ blank_char c) ->
  (forall c u, t' = (u ++ String c "")%string -> ~ blank_char c) -> t = t'.
Proof.
  induction t as [|x t IH]; intros b [|y t'] b' E A A' N N'; simpl in E; auto.
  - exfalso. subst b. destruct (last_char (String y t')) as [L|[u [c L]]]; [discriminate|].
    eapply N'; [exact L|]. apply A.
    change (is_in c (String y t' ++ b')%string). rewrite L. unfold is_in.
    clear. induction u as [|z u IH]; simpl; auto.
  - exfalso. subst b'. destruct (last_char (String x t)) as [L|[u [c L]]]; [discriminate|].
    eapply N; [exact L|]. apply A'.
    change (is_in c (String x t ++ b)%string). rewrite L. unfold is_in.
    clear. induction u as [|z u IH]; simpl; auto.
  - inversion E; subst. f_equal. eapply IH; eauto.
    + intros c u H. apply (N c (String y u)). simpl. congruence.
    + intros c u H. apply (N' c (String y u)). simpl. congruence.
Qed.
Lemma trimmed_unique : forall s t t', trimmed s t -> trimmed s t' -> t = t'.
Proof.
  intros s t t' [a [b [E [A [B [N M]]]]]] [a' [b' [E' [A' [B' [N' M']]]]]].
  destruct t as [|x t], t' as [|x' t']; auto.
  - exfalso. simpl in E. assert (H : all_chars blank_char s).
    { rewrite E. apply all_chars_app; auto. }
    eapply (N' x' t'); auto. apply H. rewrite E'. unfold is_in. clear. induction a'; simpl; auto.
  - exfalso. simpl in E'. assert (H : all_chars blank_char s).
    { rewrite E'. apply all_chars_app; auto. }
    eapply (N x t); auto. apply H. rewrite E. unfold is_in. clear. induction a; simpl; auto.
  - eapply trimmed_back; [|exact B|exact B'| |]; auto.
    eapply trimmed_front; [|exact A|exact A'| |]; [congruence| |];
      intros c u H; simpl in H; inv H; [eapply N|eapply N']; reflexivity.
Qed.
Lemma strip_unique : forall s t, trimmed s t <-> t = strip s.
Proof.
  intros. split; [intros H; eapply trimmed_unique; [exact H|apply strip_trimmed]|intros ->; apply strip_trimmed].
Qed.
Lemma clean_order_str : forall s, clean_order (OStr s) = strip s.
Proof. intros. simpl. destruct (String.eqb_spec (strip s) s); auto. Qed.

(** * Cleaning the table *)
Lemma label_eqb_spec : forall a b, reflect (a = b) (label_eqb a b).
Proof.
  intros [s|z] [t|y]; simpl; try (constructor; congruence).
  - destruct (String.eqb_spec s t); constructor; congruence.
  - destruct (Z.eqb_spec z y); constructor; congruence.
Qed.
Lemma strip_strip : forall s, strip (strip s) = strip s.
Proof.
  intros s. symmetry. apply strip_unique. exists "", "". rewrite sapp_nil. split; auto.
  destruct (strip_trimmed s) as [a [b [E [A [B [N M]]]]]].
  split; [apply all_chars_nil|]. split; [apply all_chars_nil|]. auto.
Qed.
Lemma zstr_no_space : forall z c, is_in c (zstr z) -> ~ blank_char c.
Proof.
  intros z c H. unfold zstr in H.
  assert (D : forall u, is_in c (DecimalString.NilEmpty.string_of_uint u) -> ~ blank_char c).
  { intros u Hu B. pose proof (uint_digits u) as U. apply sall_spec with (c := c) in U; auto.
    apply digit_cases in U. unfold blank_char in B.
    repeat (destruct U as [U|U]; [subst c; vm_compute in B; intuition discriminate|]).
    subst c; vm_compute in B; intuition discriminate. }
  destruct z; simpl in H.
  - apply (D (Decimal.D0 Decimal.Nil)). exact H.
  - apply (D (Pos.to_uint p)). unfold DecimalString.NilZero.string_of_uint in H.
    destruct (Pos.to_uint p) eqn:E; auto. 
    pose proof (DecimalPos.Unsigned.to_uint_nonnil p). congruence.
  - destruct H as [<- |H].
    + intros B. vm_compute in B. intuition discriminate.
    + apply (D (Pos.to_uint p)). unfold DecimalString.NilZero.string_of_uint in H.
      destruct (Pos.to_uint p) eqn:E; auto. 
      pose proof (DecimalPos.Unsigned.to_uint_nonnil p). congruence.
Qed.
Lemma clean_clean : forall o, clean_order (OStr (clean_order o)) = clean_order o.
Proof.
  intros [s|z]; rewrite clean_order_str.
  - rewrite clean_order_str. apply strip_strip.
  - symmetry. apply strip_unique. exists "", "". cbn [clean_order]. rewrite sapp_nil. split; auto.
    split; [apply all_chars_nil|]. split; [apply all_chars_nil|]. split.
    + intros c u H. apply (zstr_no_space z). rewrite H. left; auto.
    + intros c u H. apply (zstr_no_space z). rewrite H. unfold is_in. clear. induction u; simpl; auto.
Qed.

Definition lab (p : order_label * row) : order_label * row := (OStr (clean_order (fst p)), snd p).
Lemma ldel_id : forall k l, ~ In k (map fst l) -> ldel k l = l.
Proof.
  induction l as [|[k' v] l IH]; simpl; intros H; auto.
  destruct (label_eqb_spec k k'); [exfalso; subst; auto|]. rewrite IH; auto.
Qed.
Lemma lset_new : forall k v l, ~ In k (map fst l) -> lset k v l = l ++ [(k, v)].
Proof.
  induction l as [|[k' v'] l IH]; simpl; intros H; auto.
  destruct (label_eqb_spec k k'); [exfalso; subst; auto|]. rewrite IH; auto.
Qed.
Lemma clean_fold : forall todo done, NoDup (map fst todo) ->
  NoDup (map (fun p => clean_order (fst p)) (done ++ todo)) ->
  fold_left (fun d p => lset (OStr (clean_order (fst p))) (snd p) (ldel (fst p) d)) todo (todo ++ map lab done) =
  map lab (done ++ todo).
Proof.
  induction todo as [|[k v] todo IH]; intros done U N.
  - simpl. rewrite app_nil_r. reflexivity.
  - simpl. destruct (label_eqb_spec k k) as [_|C]; [|congruence].
    inversion U as [|? ? Hk U']; subst.
    assert (N' : NoDup (map (fun p => clean_order (fst p)) (done ++ todo)) /\
                 ~ In (clean_order k) (map (fun p => clean_order (fst p)) (done ++ todo))).
    { rewrite map_app in N |- *. simpl in N. apply NoDup_remove in N. exact N. }
    destruct N' as [N1 N2].
    assert (Hd : ~ In k (map fst (todo ++ map lab done))).
    { rewrite map_app, in_app_iff. intros [C|C]; [auto|].
      apply in_map_iff in C. destruct C as [p [<- C]]. apply in_map_iff in C. destruct C as [[k2 v2] [<- C]].
      apply N2. rewrite map_app, in_app_iff. left. apply in_map_iff. exists (k2, v2). split; auto.
      cbn [lab fst]. symmetry. apply clean_clean. }
    rewrite ldel_id by auto.
    assert (Hs : ~ In (OStr (clean_order k)) (map fst (todo ++ map lab done))).
    { rewrite map_app, in_app_iff. intros [C|C].
      - apply in_map_iff in C. destruct C as [[k2 v2] [E C]]. cbn [fst] in E.
        apply N2. rewrite map_app, in_app_iff. right. apply in_map_iff. exists (k2, v2). split; auto.
        cbn [fst]. subst k2. apply clean_clean.
      - apply in_map_iff in C. destruct C as [p [E C]]. apply in_map_iff in C. destruct C as [[k2 v2] [<- C]].
        cbn [lab fst] in E. injection E as E.
        apply N2. rewrite map_app, in_app_iff. left. apply in_map_iff. exists (k2, v2). auto. }
    rewrite lset_new by auto. rewrite <- app_assoc.
    replace (map lab done ++ [(OStr (clean_order k), v)]) with (map lab (done ++ [(k, v)])).
    + rewrite IH; auto.
      * rewrite <- app_assoc. reflexivity.
      * rewrite <- app_assoc. exact N.
    + rewrite map_app. reflexivity.
Qed.
Theorem clean_distinct : forall table, NoDup (map fst table) ->
  NoDup (map (fun p => clean_order (fst p)) table) ->
  remove_white_spaces_in_orders table = map (fun p => (clean_order (fst p), snd p)) table.
Proof.
  intros table U N. unfold remove_white_spaces_in_orders.
  pose proof (clean_fold table [] U) as H. simpl in H. rewrite app_nil_r in H. rewrite H by exact N.
  rewrite map_map. reflexivity.
Qed.

(** The cleaned keys are distinct whatever the labels. *)
Lemma ldel_keys : forall k l x, In x (map fst (ldel k l)) -> In x (map fst l) /\ x <> k.
Proof.
  induction l as [|[k' v] l IH]; simpl; intros x H; [contradiction|].
  destruct (label_eqb_spec k k') as [-> |N].
  - destruct (IH x H). auto.
  - destruct H as [<- |H]; [auto|]. destruct (IH x H). auto.
Qed.
Lemma ldel_NoDup : forall k l, NoDup (map fst l) -> NoDup (map fst (ldel k l)).
Proof.
  induction l as [|[k' v] l IH]; simpl; intros H; auto. inversion H; subst.
  destruct (label_eqb_spec k k'); auto. simpl. constructor; auto. intros C. apply ldel_keys in C. tauto.
Qed.
Lemma lset_keys : forall k v l x, In x (map fst (lset k v l)) <-> In x (map fst l) \/ x = k.
Proof.
  induction l as [|[k' v'] l IH]; simpl; intros x; [intuition|].
  destruct (label_eqb_spec k k') as [-> |N]; simpl; [intuition|]. rewrite IH. intuition.
Qed.
Lemma lset_NoDup : forall k v l, NoDup (map fst l) -> NoDup (map fst (lset k v l)).
Proof.
  induction l as [|[k' v'] l IH]; simpl; intros H; [repeat constructor; auto|]. inversion H; subst.
  destruct (label_eqb_spec k k') as [-> |N]; simpl; constructor; auto.
  intros C. apply lset_keys in C. destruct C as [C|C]; auto.
Qed.
Theorem clean_keys : forall table, NoDup (map fst table) -> NoDup (dkeys (remove_white_spaces_in_orders table)).
Proof.
  intros table U. unfold remove_white_spaces_in_orders, dkeys. rewrite map_map. cbn [fst].
  assert (G : forall todo l, NoDup (map fst l) ->
    (forall x, In x (map fst l) -> In x (map fst todo) \/ exists s, x = OStr s) ->
    let r := fold_left (fun d p => lset (OStr (clean_order (fst p))) (snd p) (ldel (fst p) d)) todo l in
    NoDup (map fst r) /\ forall x, In x (map fst r) -> exists s, x = OStr s).
  { induction todo as [|[k v] todo IH]; intros l N K; cbn [fold_left].
    - split; auto. intros x Hx. destruct (K x Hx) as [[]|H]; auto.
    - apply IH.
      + apply lset_NoDup, ldel_NoDup, N.
      + intros x Hx. apply lset_keys in Hx. destruct Hx as [Hx| ->]; [|eauto].
        apply ldel_keys in Hx. cbn [fst] in Hx. destruct Hx as [Hx Nx]. destruct (K x Hx) as [H|H]; auto.
        simpl in H. destruct H as [H|H]; [congruence|auto]. }
  destruct (G table table U) as [N K]; auto. set (r := fold_left _ table table) in *.
  clearbody r. clear - N K.
  assert (H : map (fun x => label_str (fst x)) r = map label_str (map fst r)) by (rewrite map_map; auto).
  rewrite H. clear H. revert N K. generalize (map fst r). intros l N K.
  induction l as [|a l IH]; simpl; constructor; inversion N; subst.
  - intros C. apply in_map_iff in C. destruct C as [b [E C]].
    destruct (K a) as [s ->]; [left; auto|]. destruct (K b) as [s' ->]; [right; auto|]. simpl in E. congruence.
  - apply IH; auto. intros x Hx. apply K. right; auto.
Qed.

(** * Branches of a split *)
Definition is_branch (next e : string) : bool :=
  match re_match (rx_split_succ next) e with Some _ => true | None => false end.
Lemma meta_none : forall s, (forall c, is_in c s -> ~ special c) -> sexists is_meta s = false.
Proof.
  intros s H. apply sexists_false. intros c Hc. destruct (is_meta c) eqn:E; auto. exfalso.
  apply (H c Hc). apply is_meta_spec. exact E.
Qed.
Lemma all_split_numbered : forall s p n ids, numbered s p n ->
  (forall c, is_in c p -> ~ special c) ->
  get_all_split_successors s ids = Ok (filter (is_branch (p ++ zstr (value n + 1))) ids).
Proof.
  intros s p n ids H S. destruct (trailing_number_numbered _ _ _ H) as [m [E [Gp Gn]]].
  unfold get_all_split_successors. rewrite E, Gp, Gn. rewrite py_int_value by apply H. cbn [rbind].
  rewrite meta_none; [reflexivity|]. intros c Hc. unfold is_in in Hc.
  assert (X : is_in c p \/ is_in c (zstr (value n + 1))).
  { revert Hc. clear. induction p; simpl; intros Hc; [right; exact Hc|].
    destruct Hc as [Hc|Hc]; [left; left; auto|]. destruct (IHp Hc); [left; right; auto|right; auto]. }
  destruct X as [X|X]; [auto|]. intros Sp.
  assert (N : number (zstr (value n + 1))).
  { apply zstr_number. pose proof (value_nonneg n (proj1 H)). lia. }
  destruct N as [_ N]. specialize (N c X). unfold digit, is_in in N. unfold special, is_in in Sp. simpl in N, Sp.
  intuition congruence.
Qed.
Lemma all_split_none : forall s ids, (forall p n, ~ numbered s p n) ->
  get_all_split_successors s ids = Err (BpmnPythonError ("Something wrong in program - look for " ++ s)).
Proof.
  intros s ids H. apply trailing_number_none in H. unfold get_all_split_successors. rewrite H. reflexivity.
Qed.

(** * Gateway types *)
Lemma yes_no_pair : forall a b, yes_no_conditions [a; b] = true <-> (a = "yes" /\ b = "no") \/ (a = "no" /\ b = "yes").
Proof.
  intros a b. unfold yes_no_conditions. simpl.
  repeat seq_case; simpl; subst; intuition congruence.
Qed.
Lemma else_pair : forall a b, sth_else_conditions [a; b] = true <-> a = "else" \/ b = "else".
Proof.
  intros a b. unfold sth_else_conditions. simpl. rewrite !orb_true_iff, !String.eqb_eq. intuition congruence.
Qed.

Lemma decision_spec : forall conds,
  (Nat.eqb (length conds) 2 && (yes_no_conditions conds || sth_else_conditions conds))%bool = true <-> decision conds.
Proof.
  intros conds. rewrite andb_true_iff, Nat.eqb_eq, orb_true_iff. unfold decision. split.
  - intros [L H]. destruct conds as [|a [|b [|c conds]]]; try discriminate.
    rewrite yes_no_pair, else_pair in H. exists a, b. intuition.
  - intros [a [b [-> H]]]. split; auto. rewrite yes_no_pair, else_pair. intuition.
Qed.
Lemma no_conditions_spec : forall conds, no_conditions conds = true <-> forall c, In c conds -> c = "".
Proof.
  intros. unfold no_conditions. rewrite forallb_forall. split; intros H c Hc; apply H in Hc.
  - apply String.eqb_eq. exact Hc.
  - subst. reflexivity.
Qed.
Definition gateway_kind (conds : list string) : string :=
  if (Nat.eqb (length conds) 2 && (yes_no_conditions conds || sth_else_conditions conds))%bool
  then "exclusiveGateway" else if no_conditions conds then "parallelGateway" else "inclusiveGateway".
Lemma gateway_kind_spec : forall conds,
  (gateway_kind conds = "exclusiveGateway" <-> decision conds) /\
  (gateway_kind conds = "parallelGateway" <-> ~ decision conds /\ forall c, In c conds -> c = "") /\
  (gateway_kind conds = "inclusiveGateway" <-> ~ decision conds /\ exists c, In c conds /\ c <> "").
Proof.
  intros conds. unfold gateway_kind.
  destruct (Nat.eqb (length conds) 2 && (yes_no_conditions conds || sth_else_conditions conds))%bool eqn:D.
  - apply decision_spec in D. repeat split; try discriminate; auto; intros [N _]; contradiction.
  - assert (N : ~ decision conds) by (rewrite <- decision_spec; congruence).
    destruct (no_conditions conds) eqn:B.
    + assert (A : forall c, In c conds -> c = "") by (apply no_conditions_spec; auto).
      repeat split; auto; try discriminate; try contradiction.
      intros [_ [c [Hc Nc]]]. exfalso. auto.
    + assert (A : ~ forall c, In c conds -> c = "") by (rewrite <- no_conditions_spec; congruence).
      repeat split; auto; try discriminate; try contradiction; try (intros [_ H]; contradiction).
      clear - B. induction conds as [|c conds IH]; [discriminate|]. simpl in B.
      destruct (String.eqb_spec c "") as [-> |Nc].
      * destruct IH as [x [Hx Nx]]; [exact B|]. exists x. split; auto. right; auto.
      * exists c. split; auto. left; auto.
Qed.
Lemma conditions_ok : forall tb bs conds,
  Forall2 (fun b c => exists r, dget b tb = Some r /\ trimmed (r_condition r) c) bs conds ->
  get_node_conditions bs tb = Ok conds.
Proof.
  intros tb bs conds F. unfold get_node_conditions. apply rmap_ok_forall2.
  induction F as [|b c bs conds [r [G T]] F IH]; constructor; auto.
  unfold dgetE. rewrite G. cbn [rbind]. f_equal. symmetry. apply strip_unique. exact T.
Qed.
Lemma gateway_type_ok : forall s bs ids tb conds, get_all_split_successors s ids = Ok bs ->
  Forall2 (fun b c => exists r, dget b tb = Some r /\ trimmed (r_condition r) c) bs conds ->
  get_gateway_type s ids tb = Ok (gateway_kind conds).
Proof.
  intros s bs ids tb conds E F. unfold get_gateway_type. rewrite E. cbn [rbind].
  apply conditions_ok in F. rewrite F. cbn [rbind].
  unfold get_node_conditions in F. rewrite <- (rmap_ok_length _ _ _ _ _ F). reflexivity.
Qed.
