(** The goal of a goto row, and one round of the goto phase. *)
From Coq Require Import String Ascii List Bool Arith ZArith Lia Permutation.
From Verif Require Import Py PyFacts Consts Nx NxFacts Rep SpecRep RepFacts.
From Verif Require Import CsvRegex CsvImport SpecCsv RegexFacts CsvFacts CsvTable SpecFlow SpecGoto CsvGhost CsvFill CsvLast CsvTotal.
Import ListNotations.
Open Scope string_scope.
Open Scope list_scope.

(** * Words *)
Definition hard (s : string) : Prop := all_chars (fun c => ~ blank_char c) s.

Lemma words_hard : forall u w s, hard u -> split_words w (u ++ s)%string = split_words (w ++ u)%string s.
Proof.
  induction u as [|c u IH]; intros w s H; [simpl; rewrite sapp_nil; reflexivity|].
  apply all_chars_cons in H. destruct H as [Hc H]. cbn [append split_words].
  apply is_space_false in Hc. rewrite Hc, IH by exact H. rewrite sapp_assoc. reflexivity.
Qed.
Lemma words_blanks : forall b s, all_chars blank_char b -> split_words "" (b ++ s)%string = split_words "" s.
Proof.
  induction b as [|c b IH]; intros s H; [reflexivity|]. apply all_chars_cons in H. destruct H as [Hc H].
  cbn [append split_words]. apply is_space_spec in Hc. rewrite Hc. cbn [String.eqb app]. apply IH. exact H.
Qed.
Lemma words_gap : forall b w s, b <> "" -> w <> "" -> all_chars blank_char b ->
  split_words w (b ++ s)%string = w :: split_words "" s.
Proof.
  intros [|c b] w s N Nw H; [congruence|]. apply all_chars_cons in H. destruct H as [Hc H].
  cbn [append split_words]. apply is_space_spec in Hc. rewrite Hc.
  destruct (String.eqb_spec w ""); [congruence|]. cbn [app]. f_equal. apply words_blanks. exact H.
Qed.
Lemma words_tail : forall s w b, all_chars blank_char b -> split_words w (s ++ b)%string = split_words w s.
Proof.
  induction s as [|c s IH]; intros w b H.
  - cbn [append]. destruct b as [|c b]; [reflexivity|]. cbn [split_words]. apply all_chars_cons in H. destruct H as [Hc H].
    apply is_space_spec in Hc. rewrite Hc. pose proof (words_blanks b "" H) as X. rewrite sapp_nil in X. rewrite X. cbn [split_words String.eqb].
    apply app_nil_r.
  - cbn [append split_words]. destruct (is_space c); rewrite IH by exact H; reflexivity.
Qed.

Lemma hard_prefix : forall s, exists u v, s = (u ++ v)%string /\ hard u /\
  (v = "" \/ exists c v', v = String c v' /\ blank_char c).
Proof.
  induction s as [|c s [u [v [E [H T]]]]].
  - exists "", "". split; auto. split; [apply all_chars_nil|auto].
  - destruct (is_space c) eqn:Sc.
    + exists "", (String c s). split; auto. split; [apply all_chars_nil|]. right. exists c, s. split; auto.
      apply is_space_spec. exact Sc.
    + exists (String c u), v. rewrite E. split; auto. split; auto. apply all_chars_cons. split; auto.
      apply is_space_false. exact Sc.
Qed.
Lemma blank_prefix : forall s, exists u v, s = (u ++ v)%string /\ all_chars blank_char u /\
  (v = "" \/ exists c v', v = String c v' /\ ~ blank_char c).
Proof.
  induction s as [|c s [u [v [E [H T]]]]].
  - exists "", "". split; auto. split; [apply all_chars_nil|auto].
  - destruct (is_space c) eqn:Sc.
    + exists (String c u), v. rewrite E. split; auto. split; auto. apply all_chars_cons. split; auto.
      apply is_space_spec. exact Sc.
    + exists "", (String c s). split; auto. split; [apply all_chars_nil|]. right. exists c, s. split; auto.
      apply is_space_false. exact Sc.
Qed.

Lemma second_word_spec : forall c s t, ~ blank_char c ->
  (nth_error (split_words "" (String c s)) 1 = Some t <-> second_word (String c s) t).
Proof.
  intros c s t Hc. split.
  - intros H. destruct (hard_prefix (String c s)) as [w [v [E [Hw V]]]]. rewrite E in *.
    assert (Nw : w <> "").
    { intros ->. cbn [append] in E. destruct V as [-> |[c' [v' [-> Hb]]]]; [discriminate|]. inv E. contradiction. }
    rewrite words_hard in H by exact Hw. cbn [append] in H.
    destruct V as [-> |[c' [v' [-> Hb]]]].
    { cbn [split_words] in H. destruct (String.eqb w ""); discriminate. }
    destruct (blank_prefix (String c' v')) as [sp [v2 [E2 [Hs V2]]]]. rewrite E2 in *.
    assert (Ns : sp <> "").
    { intros ->. cbn [append] in E2. destruct V2 as [-> |[c2 [v3 [-> Hn]]]]; [discriminate|]. inv E2. contradiction. }
    rewrite words_gap in H by auto. cbn [nth_error] in H.
    destruct V2 as [-> |[c2 [v3 [-> Hn]]]]; [discriminate|].
    destruct (hard_prefix (String c2 v3)) as [t' [rest [E3 [Ht V3]]]]. rewrite E3 in *.
    assert (Nt : t' <> "").
    { intros ->. cbn [append] in E3. destruct V3 as [-> |[c4 [v4 [-> Hb4]]]]; [discriminate|]. inv E3. contradiction. }
    rewrite words_hard in H by exact Ht. cbn [append] in H.
    assert (t' = t).
    { destruct V3 as [-> |[c4 [v4 [-> Hb4]]]].
      - cbn [split_words] in H. destruct (String.eqb_spec t' ""); [contradiction|]. inv H. reflexivity.
      - cbn [split_words] in H. apply is_space_spec in Hb4. rewrite Hb4 in H.
        destruct (String.eqb_spec t' ""); [contradiction|]. inv H. reflexivity. }
    subst t'. exists w, sp, rest. split; auto. split; [split; auto|]. split; auto. split; auto. split; [split; auto|]. exact V3.
  - intros [w [sp [rest [-> [[Nw Hw] [Ns [Hs [[Nt Ht] V]]]]]]]].
    rewrite words_hard by exact Hw. cbn [append]. rewrite words_gap by auto. cbn [nth_error].
    rewrite words_hard by exact Ht. cbn [append].
    destruct V as [-> |[c4 [v4 [-> Hb4]]]]; cbn [split_words].
    + destruct (String.eqb_spec t ""); [contradiction|]. reflexivity.
    + apply is_space_spec in Hb4. rewrite Hb4. destruct (String.eqb_spec t ""); [contradiction|]. reflexivity.
Qed.

Lemma goto_starts : forall r, goto_row r -> exists c s, r_activity r = String c s /\ ~ blank_char c.
Proof.
  intros r [c1 [c2 [c3 [c4 [rest [E [H _]]]]]]]. exists c1, (String c2 (String c3 (String c4 rest))). split; auto.
  apply is_space_false. destruct H as [<- |[<- |[]]]; reflexivity.
Qed.
Lemma goto_target_spec : forall r t, goto_row r -> (goto_target r = Ok t <-> second_word (r_activity r) t).
Proof.
  intros r t G. destruct (goto_starts r G) as [c [s [E N]]]. unfold goto_target, py_split.
  assert (X : split_words "" (strip (r_activity r)) = split_words "" (r_activity r)).
  { rewrite E. unfold strip. cbn [lstrip]. rewrite (proj2 (is_space_false c) N).
    destruct (rstrip_spec (String c s)) as [b [Eb [Hb _]]]. rewrite Eb at 2. symmetry. apply words_tail. exact Hb. }
  rewrite X, E, <- (second_word_spec c s t N). destruct (nth_error _ 1); split; intros H; inv H; reflexivity.
Qed.
Lemma goto_target_none : forall r, goto_row r -> (forall t, ~ second_word (r_activity r) t) -> goto_target r = Err IndexError.
Proof.
  intros r G N. pose proof (fun t => goto_target_spec r t G) as X. unfold goto_target in *.
  destruct (nth_error (py_split (strip (r_activity r))) 1) as [t|]; auto. exfalso. apply (N t). apply X. reflexivity.
Qed.
Lemma second_unique : forall r t t', goto_row r -> second_word (r_activity r) t -> second_word (r_activity r) t' -> t = t'.
Proof.
  intros r t t' G A B. apply (goto_target_spec r _ G) in A. apply (goto_target_spec r _ G) in B. congruence.
Qed.
