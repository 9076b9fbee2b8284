(** Correctness of the matcher and characterisation of the order label functions. *)
From Coq Require Import String Ascii List Bool Arith ZArith Lia DecimalString.
From Verif Require Import Py PyFacts CsvRegex SpecCsv.
Import ListNotations.
Open Scope string_scope.
Open Scope list_scope.

(** * Strings *)
Lemma sapp_assoc : forall a b c, ((a ++ b) ++ c = a ++ b ++ c)%string.
Proof. induction a; simpl; intros; f_equal; auto. Qed.
Lemma sapp_nil : forall a, (a ++ "" = a)%string.
Proof. induction a; simpl; f_equal; auto. Qed.
Lemma slen_app : forall a b, String.length (a ++ b) = String.length a + String.length b.
Proof. induction a; simpl; intros; auto. Qed.
Lemma sapp_inv_head : forall a b c, (a ++ b = a ++ c)%string -> b = c.
Proof. induction a; simpl; intros; auto. inversion H. auto. Qed.
Lemma slen_zero : forall s, String.length s = 0 -> s = "".
Proof. destruct s; simpl; intros; auto; discriminate. Qed.
Lemma sapp_inv_tail : forall a b c, (a ++ c = b ++ c)%string -> a = b.
Proof.
  induction a as [|x a IH]; destruct b as [|y b]; simpl; intros c H; auto.
  - exfalso. assert (L : String.length c = String.length (String y (b ++ c))) by (rewrite <- H; auto).
    simpl in L. rewrite slen_app in L. lia.
  - exfalso. assert (L : String.length (String x (a ++ c)) = String.length c) by (rewrite H; auto).
    simpl in L. rewrite slen_app in L. lia.
  - inversion H. f_equal. eauto.
Qed.
Lemma upto_app : forall a b, upto (String.length a) (a ++ b) = a.
Proof. induction a; simpl; intros; [destruct b; auto | f_equal; auto]. Qed.
Lemma upto_diff : forall a b, upto (String.length (a ++ b) - String.length b) (a ++ b) = a.
Proof.
  intros. rewrite slen_app. replace (String.length a + String.length b - String.length b)
    with (String.length a) by lia. apply upto_app.
Qed.

Lemma in_list_app : forall c a b, is_in c (a ++ b) <-> is_in c a \/ is_in c b.
Proof.
  unfold is_in. induction a; simpl; intros; [tauto|]. rewrite IHa. tauto.
Qed.

Fixpoint sall (p : ascii -> bool) (s : string) : bool :=
  match s with "" => true | String c t => p c && sall p t end.
Lemma sall_app : forall p a b, sall p (a ++ b) = sall p a && sall p b.
Proof. induction a; simpl; intros; auto. rewrite IHa. apply andb_assoc. Qed.
Lemma sall_spec : forall p s, sall p s = true <-> forall c, is_in c s -> p c = true.
Proof.
  unfold is_in. induction s as [|a s IH]; simpl.
  - split; intros; [contradiction | auto].
  - rewrite andb_true_iff, IH. split.
    + intros [A B] c [-> | H]; auto.
    + intros H. split; auto.
Qed.
Lemma sexists_false : forall p s, sexists p s = false <-> forall c, is_in c s -> p c = false.
Proof.
  unfold is_in. induction s as [|a s IH]; simpl.
  - split; intros; [contradiction | auto].
  - rewrite orb_false_iff, IH. split.
    + intros [A B] c [-> | H]; auto.
    + intros H. split; auto.
Qed.

(** * Character classes *)
Ltac all_ascii c := destruct c as [b0 b1 b2 b3 b4 b5 b6 b7];
  destruct b0, b1, b2, b3, b4, b5, b6, b7; vm_compute.
Definition in_b (c : ascii) (s : string) : bool := existsb (Ascii.eqb c) (list_ascii_of_string s).
Lemma in_b_spec : forall c s, in_b c s = true <-> is_in c s.
Proof.
  unfold in_b, is_in. intros. rewrite existsb_exists. split.
  - intros [x [A B]]. apply Ascii.eqb_eq in B. subst. auto.
  - intros. exists c. split; auto. apply Ascii.eqb_refl.
Qed.
Lemma is_digit_b : forall c, is_digit c = in_b c "0123456789".
Proof. intros c. all_ascii c; reflexivity. Qed.
Lemma is_alpha_b : forall c, is_alpha c = in_b c "abcdefghijklmnopqrstuvwxyzABCDEFGHIJKLMNOPQRSTUVWXYZ".
Proof. intros c. all_ascii c; reflexivity. Qed.
Lemma is_digit_spec : forall c, is_digit c = true <-> digit c.
Proof. intros. rewrite is_digit_b. apply in_b_spec. Qed.
Lemma is_alpha_spec : forall c, is_alpha c = true <-> latin c.
Proof. intros. rewrite is_alpha_b. apply in_b_spec. Qed.
Lemma is_letter_spec : forall c, is_letter c = true <-> branch_char c.
Proof.
  intros. unfold is_letter, branch_char. rewrite orb_true_iff, is_alpha_spec, Ascii.eqb_eq. tauto.
Qed.
Lemma is_meta_spec : forall c, is_meta c = true <-> special c.
Proof.
  intros. unfold special. rewrite <- in_b_spec.
  replace (is_meta c) with (in_b c ".^$*+?{}[]\|()"); [tauto|]. all_ascii c; reflexivity.
Qed.
Lemma letter_not_digit : forall c, is_letter c = true -> is_digit c = false.
Proof. intros c. all_ascii c; congruence. Qed.
Lemma digit_not_nl : forall c, is_digit c = true -> not_nl c = true.
Proof. intros c. all_ascii c; congruence. Qed.
Lemma letter_not_nl : forall c, is_letter c = true -> not_nl c = true.
Proof. intros c. all_ascii c; congruence. Qed.
Lemma alpha_letter : forall c, is_alpha c = true -> is_letter c = true.
Proof. intros c H. unfold is_letter. rewrite H. reflexivity. Qed.
Lemma alpha_comma : forall c, is_alpha c = true -> is_letter_comma c = true.
Proof. intros c H. unfold is_letter_comma. rewrite H. reflexivity. Qed.

(** * Declarative matching *)
Inductive star_rel (R : mstate -> mstate -> Prop) : mstate -> mstate -> Prop :=
| sr_nil : forall st, star_rel R st st
| sr_step : forall st st1 st2, R st st1 ->
    String.length (mrest st1) < String.length (mrest st) -> star_rel R st1 st2 -> star_rel R st st2.

Fixpoint mrel (r : rx) (st st' : mstate) {struct r} : Prop :=
  match r with
  | RChr p => exists c rest, mrest st = String c rest /\ p c = true /\
                st' = mkMS (S (mpos st)) rest (mcaps st)
  | REmpty => st' = st
  | RSeq a b => exists st1, mrel a st st1 /\ mrel b st1 st'
  | RAlt a b => mrel a st st' \/ mrel b st st'
  | RStar _ a => star_rel (mrel a) st st'
  | RGroup n a => exists st1, mrel a st st1 /\
       st' = mkMS (mpos st1) (mrest st1)
               ((n, upto (String.length (mrest st) - String.length (mrest st1)) (mrest st)) :: mcaps st1)
  | RBol => mpos st = 0 /\ st' = st
  | REol => (mrest st = "" \/ mrest st = String nl "") /\ st' = st
  end.

Lemma orelse_some : forall A (a b : option A) x, orelse a b = Some x -> a = Some x \/ b = Some x.
Proof. intros A [y|] b x H; simpl in H; auto. Qed.
Lemma orelse_none : forall A (a b : option A), orelse a b = None -> a = None /\ b = None.
Proof. intros A [y|] b H; simpl in H; auto; discriminate. Qed.

Definition star_loop (m : (mstate -> option mstate) -> mstate -> option mstate) (g : bool)
         (k : mstate -> option mstate) : nat -> mstate -> option mstate :=
  fix star (n : nat) (st : mstate) {struct n} : option mstate :=
  match n with
  | O => k st
  | S n' =>
      let more := m (fun st' => if Nat.ltb (String.length (mrest st')) (String.length (mrest st))
                                then star n' st' else None) st in
      if g then orelse more (k st) else orelse (k st) more
  end.
Lemma rmatch_star : forall g a k st,
  rmatch (RStar g a) k st = star_loop (rmatch a) g k (String.length (mrest st)) st.
Proof. reflexivity. Qed.

Lemma rmatch_sound : forall r k st x, rmatch r k st = Some x ->
  exists st', mrel r st st' /\ k st' = Some x.
Proof.
  induction r as [p| |a IHa b IHb|a IHa b IHb|g a IHa|n a IHa| |]; intros k st x H;
    try rewrite rmatch_star in H; simpl in H.
  - destruct (mrest st) as [|c rest] eqn:E; [discriminate|].
    destruct (p c) eqn:P; [|discriminate]. eexists; split; [|exact H]. simpl. eauto.
  - exists st. split; auto. reflexivity.
  - apply IHa in H. destruct H as [s1 [A B]]. apply IHb in B. destruct B as [s2 [B C]].
    exists s2. split; auto. simpl. eauto.
  - apply orelse_some in H. destruct H as [H|H]; [apply IHa in H|apply IHb in H];
      destruct H as [s1 [A B]]; exists s1; simpl; auto.
  - revert H. generalize (String.length (mrest st)). intros n. revert st.
    induction n as [|n IHn]; intros st H.
    + exists st. split; auto. constructor.
    + simpl in H.
      assert (D : k st = Some x \/ exists st1, mrel a st st1 /\
                   (if Nat.ltb (String.length (mrest st1)) (String.length (mrest st))
                    then star_loop (rmatch a) g k n st1 else None) = Some x).
      { destruct g; apply orelse_some in H; destruct H as [H|H]; auto;
          apply IHa in H; destruct H as [s1 [A B]]; eauto. }
      destruct D as [D|[st1 [A B]]].
      * exists st. split; auto. constructor.
      * destruct (Nat.ltb_spec (String.length (mrest st1)) (String.length (mrest st))); [|discriminate].
        apply IHn in B. destruct B as [s2 [B C]]. exists s2. split; auto.
        simpl. econstructor; eauto.
  - apply IHa in H. destruct H as [s1 [A B]]. eexists. split; [|exact B]. simpl. eauto.
  - destruct (Nat.eqb_spec (mpos st) 0); [|discriminate]. exists st. simpl. auto.
  - destruct (String.eqb_spec (mrest st) ""); simpl in H.
    + exists st. simpl. auto.
    + destruct (String.eqb_spec (mrest st) (String nl "")); [|discriminate]. exists st. simpl. auto.
Qed.

Lemma rmatch_complete : forall r k st st', mrel r st st' -> k st' <> None -> rmatch r k st <> None.
Proof.
  induction r as [p| |a IHa b IHb|a IHa b IHb|g a IHa|n a IHa| |]; intros k st st' H Hk;
    try rewrite rmatch_star; simpl in *.
  - destruct H as [c [rest [E [P ->]]]]. rewrite E, P. exact Hk.
  - subst. exact Hk.
  - destruct H as [s1 [A B]]. eapply IHa; eauto.
  - intros C. apply orelse_none in C. destruct C as [C1 C2].
    destruct H as [H|H]; [eapply IHa in H|eapply IHb in H]; eauto.
  - assert (G : String.length (mrest st) <= String.length (mrest st)) by auto.
    revert G. generalize (String.length (mrest st)) at 2 3. intros n. revert H.
    revert st. induction n as [|n IHn]; intros st H L; simpl.
    + inversion H; subst; auto. lia.
    + intros C.
      assert (D : k st = None /\ rmatch a (fun st1 =>
                   if Nat.ltb (String.length (mrest st1)) (String.length (mrest st))
                   then star_loop (rmatch a) g k n st1 else None) st = None).
      { destruct g; apply orelse_none in C; tauto. }
      destruct D as [D1 D2]. inversion H as [|? s1 ? R1 Lt R2]; subst; auto.
      revert D2. eapply IHa; eauto. simpl.
      destruct (Nat.ltb_spec (String.length (mrest s1)) (String.length (mrest st))); [|lia].
      apply IHn; auto. lia.
  - destruct H as [s1 [A ->]]. eapply IHa; eauto.
  - destruct H as [E ->]. rewrite E. simpl. auto.
  - destruct H as [[E|E] ->]; rewrite E; simpl; auto.
Qed.

Lemma re_match_some : forall r s m, re_match r s = Some m -> mrel r (mkMS 0 s []) m.
Proof. intros r s m H. apply rmatch_sound in H. destruct H as [st [A B]]. inv B. auto. Qed.
Lemma re_match_none : forall r s m, re_match r s = None -> ~ mrel r (mkMS 0 s []) m.
Proof. intros r s m H C. apply (rmatch_complete _ Some) in C; [|discriminate]. apply C. exact H. Qed.

(** Repetitions of a character class. *)
Lemma star_chr : forall p st st', star_rel (mrel (RChr p)) st st' <->
  exists w, mrest st = (w ++ mrest st')%string /\ sall p w = true /\
            st' = mkMS (mpos st + String.length w) (mrest st') (mcaps st).
Proof.
  intros p st st'. split.
  - induction 1 as [st|st s1 s2 H L R IH].
    + exists "". simpl. rewrite Nat.add_0_r. destruct st. auto.
    + destruct IH as [w [A [B C]]]. simpl in H. destruct H as [c [rest [E [P ->]]]]. simpl in *.
      exists (String c w). simpl. rewrite P, E, A. split; auto. split; auto.
      rewrite C. simpl. f_equal. lia.
  - intros [w [A [B ->]]]. simpl in *. revert st A. induction w as [|c w IH]; simpl; intros st A.
    + rewrite Nat.add_0_r. destruct st; simpl in *. subst. constructor.
    + simpl in B. apply andb_true_iff in B. destruct B as [B1 B2]. eapply sr_step.
      * simpl. exists c. eexists. eauto.
      * simpl. rewrite A. simpl. lia.
      * replace (mpos st + S (String.length w)) with (mpos (mkMS (S (mpos st)) (w ++ mrest st') (mcaps st)) + String.length w) by (simpl; lia).
        specialize (IH B2 (mkMS (S (mpos st)) (w ++ mrest st') (mcaps st)) eq_refl). simpl in *. exact IH.
Qed.

Lemma plus_chr : forall p st st', mrel (RPlus (RChr p)) st st' <->
  exists w, w <> "" /\ mrest st = (w ++ mrest st')%string /\ sall p w = true /\
            st' = mkMS (mpos st + String.length w) (mrest st') (mcaps st).
Proof.
  intros p st st'. unfold RPlus. split.
  - intros [s1 [[c [rest [E [P ->]]]] B]]. simpl in B. apply star_chr in B. simpl in B.
    destruct B as [w [A [B C]]]. exists (String c w). split; [discriminate|]. simpl.
    rewrite E, A, P. split; auto. split; auto. rewrite C. simpl. f_equal. lia.
  - intros [w [N [A [B ->]]]]. destruct w as [|c w]; [congruence|]. simpl in *.
    apply andb_true_iff in B. destruct B as [B1 B2].
    eexists. split; [exists c; eexists; eauto|]. apply star_chr. simpl.
    exists w. split; auto. split; auto. f_equal. lia.
Qed.

(** * The trailing number *)
Definition prefix_ok (p : string) : Prop :=
  p = "" \/ (exists c, p = String c "" /\ is_digit c = false) \/
  (exists q c, p = (q ++ String c "")%string /\ sall not_nl q = true /\ is_letter c = true).

Definition tail_ok (tl : string) : Prop := tl = "" \/ tl = String nl "".

Lemma mrel_prefix : forall st st',
  mrel (RAlt (RSeq (RStar true (RChr not_nl)) (RChr is_letter)) (ROpt (RChr (fun c => negb (is_digit c))))) st st' <->
  exists p, prefix_ok p /\ mrest st = (p ++ mrest st')%string /\
            st' = mkMS (mpos st + String.length p) (mrest st') (mcaps st).
Proof.
  intros st st'. split.
  - intros [[s1 [A [c [rest [E [P ->]]]]]]|[[c [rest [E [P ->]]]]|H]].
    + change (star_rel (mrel (RChr not_nl)) st s1) in A. apply star_chr in A.
      destruct A as [w [A [B C]]]. exists (w ++ String c "")%string. split.
      { right. right. exists w, c. auto. }
      simpl. rewrite A, E, sapp_assoc. simpl. split; auto. rewrite C, slen_app. simpl. f_equal. lia.
    + exists (String c ""). split.
      { right. left. exists c. rewrite negb_true_iff in P. auto. }
      simpl. split; auto. f_equal. lia.
    + simpl in H. subst. exists "". split; [left; auto|]. simpl. split; auto.
      rewrite Nat.add_0_r. destruct st; auto.
  - intros [p [[-> |[[c [-> P]]|[q [c [-> [Q L]]]]]] [E ->]]]; simpl in *.
    + right. right. rewrite Nat.add_0_r. rewrite <- E. destruct st; reflexivity.
    + right. left. exists c. eexists. rewrite P. repeat split; eauto. f_equal. lia.
    + left. rewrite sapp_assoc in E. simpl in E.
      exists (mkMS (mpos st + String.length q) (String c (mrest st')) (mcaps st)). split.
      * change (star_rel (mrel (RChr not_nl)) st
                  (mkMS (mpos st + String.length q) (String c (mrest st')) (mcaps st))).
        apply star_chr. simpl. eauto.
      * simpl. exists c. eexists. repeat split; eauto. rewrite slen_app. simpl. f_equal. lia.
Qed.

Lemma mrel_trailing_number : forall s m, mrel rx_trailing_number (mkMS 0 s []) m <->
  exists p n tl, prefix_ok p /\ n <> "" /\ sall is_digit n = true /\ tail_ok tl /\
    s = (p ++ n ++ tl)%string /\ m = mkMS (String.length p + String.length n) tl [(2, n); (1, p)].
Proof.
  intros s m. split.
  - intros [s0 [[_ ->] [s1 [[s1' [A ->]] [s2 [[s2' [B ->]] [C ->]]]]]]].
    apply mrel_prefix in A. destruct A as [p [P [E1 F1]]].
    apply plus_chr in B. destruct B as [n [N [E2 [D F2]]]]. simpl in *.
    destruct s1' as [i1 r1 c1], s2' as [i2 r2 c2]. simpl in *.
    injection F1 as X1 X2. injection F2 as X3 X4. subst.
    exists p, n, r2. repeat split; auto. rewrite !upto_diff. reflexivity.
  - intros [p [n [tl [P [N [D [T [-> ->]]]]]]]].
    eexists. split; [split; reflexivity|].
    exists (mkMS (String.length p) (n ++ tl) [(1, p)]). split.
    { exists (mkMS (String.length p) (n ++ tl) []). split.
      - apply mrel_prefix. exists p. auto.
      - simpl. rewrite upto_diff. reflexivity. }
    exists (mkMS (String.length p + String.length n) tl [(2, n); (1, p)]). split.
    { exists (mkMS (String.length p + String.length n) tl [(1, p)]). split.
      - apply plus_chr. exists n. auto.
      - simpl. rewrite upto_diff. reflexivity. }
    simpl. split; auto.
Qed.

Lemma last_char : forall s, s = "" \/ exists q c, s = (q ++ String c "")%string.
Proof.
  induction s as [|c s [-> |[q [d ->]]]]; auto; right.
  - exists "", c. reflexivity.
  - exists (String c q), d. reflexivity.
Qed.
Lemma snoc_inj : forall a c b d, (a ++ String c "" = b ++ String d "")%string -> a = b /\ c = d.
Proof.
  induction a as [|x a IH]; destruct b as [|y b]; simpl; intros d H; inversion H; subst; auto.
  - destruct b; discriminate.
  - destruct a; discriminate.
  - apply IH in H2. destruct H2; subst; auto.
Qed.
Definition ends_digit (s : string) : Prop := exists q c, s = (q ++ String c "")%string /\ is_digit c = true.
Lemma prefix_no_digit : forall p, prefix_ok p -> ~ ends_digit p.
Proof.
  intros p [-> |[[c [-> P]]|[q [c [-> [Q L]]]]]] [q' [c' [E D]]].
  - destruct q'; discriminate.
  - change (String c "") with ("" ++ String c "")%string in E. apply snoc_inj in E. destruct E. subst. congruence.
  - apply snoc_inj in E. destruct E. subst. apply letter_not_digit in L. congruence.
Qed.

(** Two ways to split a string into a part not ending in a digit and digits. *)
Lemma digits_split_unique : forall n p n' p', sall is_digit n = true -> sall is_digit n' = true ->
  ~ ends_digit p -> ~ ends_digit p' -> (p ++ n = p' ++ n')%string -> p = p' /\ n = n'.
Proof.
  intros n. remember (String.length n) as k eqn:K. revert n K.
  induction k as [|k IH]; intros n K p n' p' D D' P P' E.
  - symmetry in K. apply slen_zero in K. subst n. rewrite sapp_nil in E.
    destruct (last_char n') as [-> |[q [c ->]]]; [rewrite sapp_nil in E; auto|].
    exfalso. apply P. exists (p' ++ q)%string, c. rewrite sall_app in D'. simpl in D'.
    rewrite !andb_true_iff in D'. rewrite sapp_assoc. tauto.
  - destruct (last_char n) as [-> |[q [c ->]]]; [discriminate|].
    rewrite sall_app in D. simpl in D. rewrite !andb_true_iff in D. destruct D as [D [Dc _]].
    destruct (last_char n') as [-> |[q' [c' ->]]].
    + exfalso. apply P'. rewrite sapp_nil in E. exists (p ++ q)%string, c. rewrite sapp_assoc. auto.
    + rewrite <- !sapp_assoc in E. apply snoc_inj in E. destruct E as [E ->].
      rewrite sall_app in D'. rewrite !andb_true_iff in D'. destruct D' as [D' _].
      rewrite slen_app in K. simpl in K.
      assert (Kq : k = String.length q) by lia.
      destruct (IH q Kq p q' p' D D' P P' E) as [-> ->]. auto.
Qed.

Lemma numbered_split_unique : forall p n tl p' n' tl',
  prefix_ok p -> n <> "" -> sall is_digit n = true -> tail_ok tl ->
  prefix_ok p' -> n' <> "" -> sall is_digit n' = true -> tail_ok tl' ->
  (p ++ n ++ tl = p' ++ n' ++ tl')%string -> p = p' /\ n = n' /\ tl = tl'.
Proof.
  assert (X : forall p n p' n', n <> "" -> sall is_digit n = true ->
    (p ++ n ++ "" = p' ++ n' ++ String nl "")%string -> False).
  { intros p n p' n' N D E. rewrite sapp_nil in E.
    destruct (last_char n) as [-> |[q [c ->]]]; [congruence|].
    rewrite <- !sapp_assoc in E. apply snoc_inj in E. destruct E as [_ ->].
    rewrite sall_app in D. apply andb_true_iff in D. destruct D as [_ D]. discriminate. }
  intros p n tl p' n' tl' P N D T P' N' D' T' E.
  assert (tl = tl').
  { destruct T as [-> | ->], T' as [-> | ->]; auto; exfalso.
    - eapply (X p n p' n'); eauto.
    - symmetry in E. eapply (X p' n' p n); eauto. }
  subst tl'. rewrite <- !sapp_assoc in E. apply sapp_inv_tail in E.
  apply digits_split_unique in E; auto using prefix_no_digit. tauto.
Qed.

Lemma number_spec : forall n, number n <-> n <> "" /\ sall is_digit n = true.
Proof.
  intros n. unfold number, all_chars. rewrite sall_spec. split; intros [A B]; split; auto; intros c H;
    apply is_digit_spec; auto.
Qed.
Lemma no_lf_spec : forall q, no_line_feed q <-> sall not_nl q = true.
Proof.
  intros q. unfold no_line_feed. rewrite sall_spec. split.
  - intros H c Hc. unfold not_nl. destruct (Ascii.eqb_spec c nl); auto. subst. contradiction.
  - intros H C. apply H in C. discriminate.
Qed.
Lemma prefix_spec : forall p, prefix_ok p <->
  (p = "" \/ (exists c, p = String c "" /\ ~ digit c) \/
   (exists q c, p = (q ++ String c "")%string /\ no_line_feed q /\ branch_char c)).
Proof.
  intros p. unfold prefix_ok.
  assert (A : forall c, is_digit c = false <-> ~ digit c).
  { intros c. rewrite <- is_digit_spec. destruct (is_digit c); split; congruence. }
  split; (intros [H|[[c [H1 H2]]|[q [c [H1 [H2 H3]]]]]]; [left; auto|right; left; exists c; split; auto; apply A; auto|
    right; right; exists q, c; split; auto; split; [apply no_lf_spec; auto | apply is_letter_spec; auto]]).
Qed.
Lemma numbered_spec : forall s p n, numbered s p n <->
  prefix_ok p /\ n <> "" /\ sall is_digit n = true /\ exists tl, tail_ok tl /\ s = (p ++ n ++ tl)%string.
Proof.
  intros s p n. unfold numbered. rewrite number_spec, <- prefix_spec. unfold tail_ok. split.
  - intros [[A B] [[-> | ->] P]]; repeat (split; auto); [exists ""|exists (String nl "")];
      rewrite ?sapp_nil; auto.
  - intros [P [A [B [tl [[-> | ->] ->]]]]]; repeat (split; auto). rewrite sapp_nil. auto.
Qed.

Theorem numbered_unique : forall s p n p' n', numbered s p n -> numbered s p' n' -> p = p' /\ n = n'.
Proof.
  intros s p n p' n' H H'. apply numbered_spec in H. apply numbered_spec in H'.
  destruct H as [P [N [D [tl [T E]]]]], H' as [P' [N' [D' [tl' [T' E']]]]].
  rewrite E in E'. apply numbered_split_unique in E'; tauto.
Qed.

(** * [int] and [str] *)
Lemma digit_cases : forall c, is_digit c = true ->
  c = "0"%char \/ c = "1"%char \/ c = "2"%char \/ c = "3"%char \/ c = "4"%char \/
  c = "5"%char \/ c = "6"%char \/ c = "7"%char \/ c = "8"%char \/ c = "9"%char.
Proof.
  intros c H. rewrite is_digit_b in H. apply in_b_spec in H. unfold is_in in H. simpl in H.
  repeat (destruct H as [H|H]; [subst; tauto|]). contradiction.
Qed.

Lemma uint_acc : forall s acc, sall is_digit s = true ->
  exists u, NilEmpty.uint_of_string s = Some u /\ Zpos (Pos.of_uint_acc u acc) = value_from (Zpos acc) s.
Proof.
  induction s as [|c t IH]; intros acc H.
  - exists Decimal.Nil. auto.
  - simpl in H. apply andb_true_iff in H. destruct H as [D H].
    apply digit_cases in D.
    repeat (destruct D as [-> |D]); try subst c;
    match goal with |- exists u, NilEmpty.uint_of_string (String ?c t) = _ /\ _ =>
      let k := eval vm_compute in (Z.of_nat (nat_of_ascii c) - 48)%Z in
      let q := lazymatch k with 0%Z => constr:((10 * acc)%positive) | Zpos ?q => constr:((q + 10 * acc)%positive) end in
      destruct (IH q H) as [u [A B]]; cbn [NilEmpty.uint_of_string]; rewrite A; eexists;
      split; [reflexivity|]; transitivity (value_from (Zpos q) t); [exact B|];
      cbn [value_from]; change (Z.of_nat (nat_of_ascii c) - 48)%Z with k; f_equal; lia
    end.
Qed.

Lemma uint_value : forall s, sall is_digit s = true ->
  exists u, NilEmpty.uint_of_string s = Some u /\ Z.of_uint u = value s.
Proof.
  unfold value. induction s as [|c t IH]; intros H.
  - exists Decimal.Nil. auto.
  - simpl in H. apply andb_true_iff in H. destruct H as [D H].
    apply digit_cases in D.
    destruct D as [-> |D].
    { destruct (IH H) as [u [A B]]. cbn [NilEmpty.uint_of_string]. rewrite A. eexists.
      split; [reflexivity|]. exact B. }
    repeat (destruct D as [-> |D]); try subst c;
    match goal with |- exists u, NilEmpty.uint_of_string (String ?c t) = _ /\ _ =>
      let k := eval vm_compute in (Z.of_nat (nat_of_ascii c) - 48)%Z in
      let q := lazymatch k with Zpos ?q => q end in
      destruct (uint_acc t q H) as [u [A B]]; cbn [NilEmpty.uint_of_string]; rewrite A; eexists;
      split; [reflexivity|]; exact B
    end.
Qed.

(** [int] of a number. *)
Lemma py_int_value : forall s, number s -> py_int s = Ok (value s).
Proof.
  intros s H. apply number_spec in H. destruct H as [N D].
  destruct (uint_value s D) as [u [A B]].
  unfold py_int, zparse, NilZero.int_of_string. destruct s as [|c t]; [congruence|].
  assert (C : c <> "-"%char).
  { intros ->. simpl in D. discriminate. }
  simpl in D. apply andb_true_iff in D. destruct D as [D _].
  unfold NilZero.uint_of_string. rewrite A. apply Ascii.eqb_neq in C. rewrite C. simpl.
  rewrite <- B. reflexivity.
Qed.
Lemma value_from_nonneg : forall s acc, sall is_digit s = true -> (0 <= acc)%Z -> (0 <= value_from acc s)%Z.
Proof.
  induction s as [|c t IH]; intros acc H A; cbn [value_from]; auto.
  simpl in H. apply andb_true_iff in H. destruct H as [D H].
  assert (L : (0 <= Z.of_nat (nat_of_ascii c) - 48)%Z).
  { apply digit_cases in D. repeat (destruct D as [-> |D]); try subst c; vm_compute; discriminate. }
  apply IH; auto. lia.
Qed.
Lemma value_nonneg : forall s, number s -> (0 <= value s)%Z.
Proof. intros s H. apply number_spec in H. apply value_from_nonneg; [tauto | lia]. Qed.

Lemma uint_digits : forall u, sall is_digit (NilEmpty.string_of_uint u) = true.
Proof. induction u; simpl; auto. Qed.
Lemma zstr_number : forall z, (0 <= z)%Z -> number (zstr z).
Proof.
  intros z H. apply number_spec. unfold zstr. destruct z as [|p|p]; [split; [discriminate|reflexivity]| |lia].
  simpl. unfold NilZero.string_of_uint.
  destruct (Pos.to_uint p) eqn:E; (split; [discriminate|]); try reflexivity; try exact (uint_digits u).
Qed.
Lemma value_zstr : forall z, (0 <= z)%Z -> value (zstr z) = z.
Proof.
  intros z H. pose proof (py_int_value _ (zstr_number z H)) as P.
  unfold py_int in P. rewrite zparse_zstr in P. congruence.
Qed.

(** * Captured groups *)
Lemma trailing_number_some : forall s m, re_match rx_trailing_number s = Some m ->
  numbered s (group 1 m) (group 2 m).
Proof.
  intros s m H. apply re_match_some, mrel_trailing_number in H.
  destruct H as [p [n [tl [P [N [D [T [-> ->]]]]]]]]. apply numbered_spec.
  change (group 1 _) with p. change (group 2 _) with n. eauto 10.
Qed.
Lemma trailing_number_numbered : forall s p n, numbered s p n ->
  exists m, re_match rx_trailing_number s = Some m /\ group 1 m = p /\ group 2 m = n.
Proof.
  intros s p n H. destruct (re_match rx_trailing_number s) as [m|] eqn:E.
  - exists m. split; auto. apply trailing_number_some in E. apply (numbered_unique _ _ _ _ _ E H).
  - exfalso. apply numbered_spec in H. destruct H as [P [N [D [tl [T F]]]]].
    apply (re_match_none _ _ (mkMS (String.length p + String.length n) tl [(2, n); (1, p)]) E).
    apply mrel_trailing_number. exists p, n, tl. auto 10.
Qed.
Lemma trailing_number_none : forall s, re_match rx_trailing_number s = None <->
  forall p n, ~ numbered s p n.
Proof.
  intros s. split.
  - intros E p n H. apply trailing_number_numbered in H. destruct H as [m [H _]]. congruence.
  - intros H. destruct (re_match rx_trailing_number s) as [m|] eqn:E; auto.
    apply trailing_number_some in E. exfalso. eapply H; eauto.
Qed.

(** * Sequence and split successors *)
Lemma seq_succ_numbered : forall s p n, numbered s p n ->
  get_possible_sequence_continuation_successor s = Ok [p ++ zstr (value n + 1)]%string.
Proof.
  intros s p n H. destruct (trailing_number_numbered _ _ _ H) as [m [E [<- <-]]].
  unfold get_possible_sequence_continuation_successor. rewrite E.
  rewrite py_int_value by apply H. reflexivity.
Qed.
Lemma seq_succ_none : forall s, (forall p n, ~ numbered s p n) ->
  get_possible_sequence_continuation_successor s = Ok [].
Proof.
  intros s H. apply trailing_number_none in H.
  unfold get_possible_sequence_continuation_successor. rewrite H. reflexivity.
Qed.
Lemma split_succ_numbered : forall s p n, numbered s p n ->
  get_possible_split_continuation_successor s =
  Ok [p ++ zstr (value n + 1) ++ "a"; p ++ zstr (value n + 1) ++ "a1"]%string.
Proof.
  intros s p n H. destruct (trailing_number_numbered _ _ _ H) as [m [E [<- <-]]].
  unfold get_possible_split_continuation_successor. rewrite E.
  rewrite py_int_value by apply H. simpl. rewrite !sapp_assoc. reflexivity.
Qed.
Lemma split_succ_none : forall s, (forall p n, ~ numbered s p n) ->
  get_possible_split_continuation_successor s = Ok [].
Proof.
  intros s H. apply trailing_number_none in H.
  unfold get_possible_split_continuation_successor. rewrite H. reflexivity.
Qed.

(** * Literals and branch orders *)
Lemma mrel_literal : forall t st st', mrel (rx_literal t) st st' <->
  mrest st = (t ++ mrest st')%string /\ st' = mkMS (mpos st + String.length t) (mrest st') (mcaps st).
Proof.
  induction t as [|c t IH]; intros st st'; simpl.
  - split.
    + intros ->. rewrite Nat.add_0_r. destruct st; auto.
    + intros [A ->]. rewrite Nat.add_0_r, <- A. destruct st; auto.
  - split.
    + intros [s1 [[c' [rest [E [P ->]]]] B]]. apply IH in B. simpl in B. destruct B as [B C].
      apply Ascii.eqb_eq in P. subst c'. rewrite E, B. split; auto. rewrite C. simpl. f_equal. lia.
    + intros [A ->]. simpl in *. eexists. split.
      * exists c. eexists. repeat split; eauto. apply Ascii.eqb_refl.
      * apply IH. simpl. split; auto. f_equal. lia.
Qed.

Fixpoint ones (k : nat) : string := match k with O => "" | S k' => String "1" (ones k') end.
Lemma ones_concat : forall k, String.concat "" (repeat "1" k) = ones k.
Proof.
  induction k as [|k IH]; auto. simpl repeat. destruct k; auto.
  cbn [repeat] in *. change (String.concat "" ("1" :: "1" :: repeat "1" k)) with
    ("1" ++ "" ++ String.concat "" ("1" :: repeat "1" k))%string. rewrite IH. reflexivity.
Qed.
Lemma sall_ones : forall w, sall (Ascii.eqb "1") w = true <-> exists k, w = ones k.
Proof.
  induction w as [|c w IH]; cbn [sall].
  - split; auto. exists 0. reflexivity.
  - rewrite andb_true_iff, IH. split.
    + intros [A [k ->]]. apply Ascii.eqb_eq in A. subst. exists (S k). reflexivity.
    + intros [[|k] E]; [discriminate|]. simpl in E. inversion E. split; [reflexivity|eauto].
Qed.
Lemma branch_of_spec : forall next e, branch_of next e <->
  exists c k tl, is_letter c = true /\ tail_ok tl /\ e = (next ++ String c (ones k) ++ tl)%string.
Proof.
  intros. unfold branch_of, tail_ok. split.
  - intros [c [k [L [-> | ->]]]]; rewrite ones_concat; exists c, k; [exists ""|exists (String nl "")];
      rewrite ?sapp_nil; repeat split; auto; apply is_letter_spec; auto.
  - intros [c [k [tl [L [[-> | ->] ->]]]]]; exists c, k; rewrite ones_concat; rewrite ?sapp_nil;
      split; auto; apply is_letter_spec; auto.
Qed.

Lemma mrel_split_succ : forall next e,
  (exists m, mrel (rx_split_succ next) (mkMS 0 e []) m) <-> branch_of next e.
Proof.
  intros next e. rewrite branch_of_spec. split.
  - intros [m [s0 [[_ ->] [s1 [A [s2 [[s2' [B ->]] [C ->]]]]]]]].
    apply mrel_literal in A. destruct A as [A A']. destruct s1 as [i1 r1 c1]. simpl in *.
    destruct B as [[c [rest [E [P ->]]]]|[s3 [[c [rest [E [P ->]]]] B]]].
    + simpl in *. subst. exists c, 0, rest. repeat split; auto.
    + apply plus_chr in B. simpl in *. destruct B as [w [W [E2 [S2 F2]]]].
      apply sall_ones in S2. destruct S2 as [k ->]. exists c, k, (mrest s2').
      rewrite A, E, E2. repeat split; auto.
  - intros [c [k [tl [L [T ->]]]]].
    eexists. eexists. split; [split; reflexivity|].
    exists (mkMS (String.length next) (String c (ones k) ++ tl) []). split.
    { apply mrel_literal. simpl. auto. }
    eexists. split.
    { exists (mkMS (String.length next + 1 + k) tl []). split; [|reflexivity].
      destruct k as [|k].
      - left. simpl. exists c. eexists. repeat split; eauto. f_equal. lia.
      - right. eexists. split; [exists c; eexists; repeat split; eauto|].
        apply plus_chr. exists (ones (S k)). split; [discriminate|]. split; [reflexivity|].
        split; [apply sall_ones; eauto|]. cbn [mpos mrest mcaps]. f_equal.
        replace (String.length (ones (S k))) with (S k); [lia|].
        generalize (S k). induction n; simpl; auto. }
    simpl. split; auto.
Qed.

Lemma split_match : forall next e,
  (match re_match (rx_split_succ next) e with Some _ => true | None => false end) = true <-> branch_of next e.
Proof.
  intros next e. rewrite <- mrel_split_succ. destruct (re_match (rx_split_succ next) e) as [m|] eqn:E.
  - apply re_match_some in E. split; eauto.
  - split; [discriminate|]. intros [m H]. exfalso. eapply re_match_none; eauto.
Qed.

(** * Merge successors *)
Lemma rmatch_seq : forall a b k st, rmatch (RSeq a b) k st = rmatch a (rmatch b k) st.
Proof. reflexivity. Qed.
Lemma rmatch_group : forall n a k st, rmatch (RGroup n a) k st =
  rmatch a (fun st' => k (mkMS (mpos st') (mrest st')
    ((n, upto (String.length (mrest st) - String.length (mrest st')) (mrest st)) :: mcaps st'))) st.
Proof. reflexivity. Qed.
Lemma rmatch_chr : forall p k st, rmatch (RChr p) k st =
  match mrest st with
  | String c rest => if p c then k (mkMS (S (mpos st)) rest (mcaps st)) else None
  | EmptyString => None
  end.
Proof. reflexivity. Qed.
Lemma star_loop_S : forall m g k n st, star_loop m g k (S n) st =
  let more := m (fun st' => if Nat.ltb (String.length (mrest st')) (String.length (mrest st))
                            then star_loop m g k n st' else None) st in
  if g then orelse more (k st) else orelse (k st) more.
Proof. reflexivity. Qed.
Lemma greedy_star : forall p k w t pos caps x,
  sall p w = true -> (forall c t', t = String c t' -> p c = false) ->
  k (mkMS (pos + String.length w) t caps) = Some x ->
  rmatch (RStar true (RChr p)) k (mkMS pos (w ++ t) caps) = Some x.
Proof.
  intros p k w t pos caps x W T K. rewrite rmatch_star. cbn [mrest].
  assert (L : String.length w <= String.length (w ++ t)) by (rewrite slen_app; lia).
  revert L. generalize (String.length (w ++ t)) as n. intros n. revert w pos W K.
  induction n as [|n IH]; intros w pos W K L.
  - destruct w; [|simpl in L; lia]. simpl in *. rewrite Nat.add_0_r in K. exact K.
  - rewrite star_loop_S. destruct w as [|c w]; cbn [append].
    + simpl in K. rewrite Nat.add_0_r in K. cbv zeta. rewrite rmatch_chr. cbn [mrest].
      destruct t as [|c t']; [exact K|]. rewrite (T _ _ eq_refl). exact K.
    + cbn [sall] in W. apply andb_true_iff in W. destruct W as [P W].
      cbv zeta. rewrite rmatch_chr. cbn [mrest mpos mcaps]. rewrite P. cbn [mrest String.length].
      replace (Nat.ltb _ _) with true by (symmetry; apply Nat.ltb_lt; lia).
      cbn [String.length] in K, L. rewrite (IH w (S pos)); auto; [|lia].
      replace (S pos + String.length w) with (pos + S (String.length w)) by lia. exact K.
Qed.
Lemma greedy_plus : forall p k w t pos caps x, w <> "" ->
  sall p w = true -> (forall c t', t = String c t' -> p c = false) ->
  k (mkMS (pos + String.length w) t caps) = Some x ->
  rmatch (RPlus (RChr p)) k (mkMS pos (w ++ t) caps) = Some x.
Proof.
  intros p k w t pos caps x N W T K. destruct w as [|c w]; [congruence|].
  cbn [sall] in W. apply andb_true_iff in W. destruct W as [P W].
  unfold RPlus. cbn [rmatch]. cbn [append mrest]. rewrite P. cbn [mpos mcaps].
  apply greedy_star; auto. cbn [String.length] in K.
  replace (S pos + String.length w) with (pos + S (String.length w)) by lia. exact K.
Qed.
Lemma lazy_star : forall r k st x, k st = Some x -> rmatch (RStar false r) k st = Some x.
Proof.
  intros r k st x K. rewrite rmatch_star. destruct (String.length (mrest st)); simpl; auto.
  rewrite K. reflexivity.
Qed.

Lemma finder_step : forall n c rest pos, number n -> is_alpha c = true ->
  rmatch rx_merge_node_finder Some (mkMS pos (n ++ String c rest) []) =
  Some (mkMS (pos + String.length n + 1) rest [(3, ""); (2, n ++ String c ""); (1, "")])%string.
Proof.
  intros n c rest pos N A. apply number_spec in N. destruct N as [N D].
  unfold rx_merge_node_finder. rewrite rmatch_seq, rmatch_group.
  apply lazy_star. cbn [mrest mpos mcaps]. rewrite Nat.sub_diag.
  replace (upto 0 (n ++ String c rest)) with "" by (destruct (n ++ String c rest)%string; reflexivity).
  rewrite rmatch_seq, rmatch_group, rmatch_seq.
  apply greedy_plus; auto.
  { intros c' t' H. inversion H; subst. apply letter_not_digit. apply alpha_letter. auto. }
  rewrite rmatch_chr. cbn [mrest mpos mcaps]. rewrite (alpha_letter _ A). cbn [mrest mpos mcaps].
  rewrite rmatch_group.
  apply lazy_star. cbn [mrest mpos mcaps]. rewrite Nat.sub_diag.
  replace (upto 0 rest) with "" by (destruct rest; reflexivity).
  replace (n ++ String c rest)%string with ((n ++ String c "") ++ rest)%string by (rewrite sapp_assoc; reflexivity).
  rewrite upto_diff. f_equal. f_equal. lia.
Qed.
Lemma num_let_step : forall n c, number n -> is_alpha c = true ->
  exists r, re_match rx_num_let (n ++ String c "") = Some r /\ group 1 r = n.
Proof.
  intros n c N A. apply number_spec in N. destruct N as [N D].
  exists (mkMS (String.length n + 1) "" [(2, String c ""); (1, n)]). split; [|reflexivity].
  unfold re_match, rx_num_let. rewrite rmatch_seq, rmatch_group.
  apply greedy_plus; auto.
  { intros c' t' H. inversion H; subst. apply letter_not_digit. apply alpha_letter. auto. }
  rewrite rmatch_group, rmatch_chr. cbn [mrest mpos mcaps]. rewrite (alpha_comma _ A). rewrite upto_diff.
  cbn [mrest mpos mcaps String.length upto Nat.sub].
  f_equal. f_equal. lia.
Qed.

Lemma pairs_text_cons : forall n c l, pairs_text ((n, c) :: l) = (n ++ String c (pairs_text l))%string.
Proof.
  intros. unfold pairs_text. cbn [map fst snd]. destruct l as [|q l].
  - reflexivity.
  - cbn [map]. change (String.concat "" ((n ++ String c "")%string :: (fst q ++ String (snd q) "")%string ::
       map (fun p => (fst p ++ String (snd p) "")%string) l)) with
     ((n ++ String c "") ++ "" ++ String.concat "" ((fst q ++ String (snd q) "")%string ::
       map (fun p => (fst p ++ String (snd p) "")%string) l))%string.
    rewrite sapp_assoc. reflexivity.
Qed.
Lemma pairs_text_last : forall l, l <> [] -> (forall n c, In (n, c) l -> number n /\ latin c) ->
  exists q c, pairs_text l = (q ++ String c "")%string /\ q <> "" /\ sall not_nl q = true /\ is_alpha c = true.
Proof.
  induction l as [|[n c] l IH]; intros N H; [congruence|]. rewrite pairs_text_cons.
  destruct (H n c) as [Hn Hc]; [left; auto|]. apply number_spec in Hn. destruct Hn as [Hn1 Hn2].
  apply is_alpha_spec in Hc.
  assert (X : sall not_nl n = true).
  { apply sall_spec. intros d Hd. apply digit_not_nl. revert d Hd. apply sall_spec. auto. }
  destruct l as [|p l].
  - exists n, c. auto.
  - destruct IH as [q [c' [E [Nq [S C]]]]]; [discriminate|intros; apply H; right; auto|].
    exists (n ++ String c q)%string, c'. rewrite E, sapp_assoc. simpl. split; auto. split.
    { destruct n; discriminate. }
    split; auto. rewrite sall_app. cbn [sall]. rewrite X, S. rewrite (letter_not_nl c); auto. apply alpha_letter; auto.
Qed.

Lemma finditer_pairs : forall l fuel pos,
  (forall n c, In (n, c) l -> number n /\ latin c) -> String.length (pairs_text l) < fuel ->
  rmap merge_candidate (re_finditer fuel rx_merge_node_finder pos (pairs_text l)) =
  Ok (map (fun p => zstr (value (fst p) + 1)) l).
Proof.
  induction l as [|[n c] l IH]; intros fuel pos H F.
  - destruct fuel; [lia|]. reflexivity.
  - destruct fuel as [|fuel]; [lia|]. rewrite pairs_text_cons in *.
    destruct (H n c) as [Hn Hc]; [left; auto|]. apply is_alpha_spec in Hc.
    cbn [re_finditer]. rewrite finder_step by auto. cbn [rmap mpos mrest].
    unfold merge_candidate at 1. change (group 2 _) with (n ++ String c "")%string.
    destruct (num_let_step n c Hn Hc) as [r [E G]]. rewrite E, G, py_int_value by auto.
    cbn [rbind]. rewrite IH.
    + reflexivity.
    + intros; apply H; right; auto.
    + rewrite slen_app in F. simpl in F. lia.
Qed.

Theorem merge_successors : forall l m s, branch_label l m s ->
  get_possible_merge_continuation_successors s = Ok (map (fun p => zstr (value (fst p) + 1)) l).
Proof.
  intros l m s [N [H [M ->]]].
  destruct (pairs_text_last l N H) as [q [c [E [Nq [Sq C]]]]].
  assert (X : (match re_match rx_trailing_number (pairs_text l ++ m) with
               | Some r => group 1 r | None => (pairs_text l ++ m)%string end) = pairs_text l).
  { destruct M as [-> |M].
    - rewrite sapp_nil. destruct (re_match rx_trailing_number (pairs_text l)) as [r|] eqn:R; auto.
      exfalso. apply trailing_number_some in R. apply numbered_spec in R.
      destruct R as [_ [Nn [D [tl [T F]]]]]. rewrite E in F.
      destruct T as [-> | ->].
      + rewrite sapp_nil in F. destruct (last_char (group 2 r)) as [G|[q' [c' G]]]; [congruence|].
        rewrite G, <- sapp_assoc in F. apply snoc_inj in F. destruct F as [_ ->].
        rewrite G, sall_app in D. cbn [sall] in D. rewrite !andb_true_iff in D. destruct D as [_ [D _]].
        apply alpha_letter, letter_not_digit in C. congruence.
      + rewrite <- sapp_assoc in F. apply snoc_inj in F. destruct F as [_ ->]. discriminate.
    - destruct (trailing_number_numbered (pairs_text l ++ m) (pairs_text l) m) as [r [R [G _]]].
      + split; auto. split; [left; auto|]. right. right. exists q, c. split; auto.
        split; [apply no_lf_spec; auto | left; apply is_alpha_spec; auto].
      + rewrite R. auto. }
  unfold get_possible_merge_continuation_successors. rewrite X.
  destruct (re_match rx_trailing_letter (pairs_text l)) eqn:R.
  - apply finditer_pairs; auto.
  - exfalso. apply (re_match_none _ _ (mkMS (String.length q + 1) "" [(2, String c ""); (1, q)]) R).
    rewrite E. unfold rx_trailing_letter.
    exists (mkMS (String.length q) (String c "") [(1, q)]). split.
    + exists (mkMS (String.length q) (String c "") []). split.
      * apply plus_chr. exists q. auto.
      * cbn [mrest mpos mcaps]. rewrite upto_diff. reflexivity.
    + exists (mkMS (String.length q + 1) "" [(1, q)]). split.
      * exists c, "". cbn [mrest mpos mcaps]. rewrite (alpha_letter _ C). repeat split. f_equal. lia.
      * reflexivity.
Qed.
