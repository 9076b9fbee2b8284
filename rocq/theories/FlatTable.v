(** The table of an exported flat process: what its rows say about nodes and flows. *)
From Coq Require Import String Ascii List Bool Arith ZArith Lia.
From Verif Require Import Py PyFacts Consts Nx NxFacts Rep SpecRep RepFacts SpecLayout.
From Verif Require Import CsvRegex CsvImport SpecCsv RegexFacts CsvFacts CsvTable SpecFlow CsvGhost CsvFill CsvExport SpecCsvExport CsvOrders SpecBlocks SpecFlat.
Import ListNotations.
Open Scope string_scope.
Open Scope list_scope.

(** * Labels *)
Lemma num_number : forall k, number (num k).
Proof. intros k. apply zstr_number. lia. Qed.
Lemma num_inj : forall a b, num a = num b -> a = b.
Proof. intros a b H. apply zstr_inj in H. lia. Qed.
Lemma num_value : forall k, value (num k) = Z.of_nat k.
Proof. intros k. apply value_zstr. lia. Qed.
Lemma num_next : forall k, zstr (value (num k) + 1) = num (S k).
Proof. intros k. rewrite num_value. unfold num. f_equal. lia. Qed.
Lemma letter_not_digit : forall i r, i < 26 -> no_digit_first (branch_letter i ++ r)%string.
Proof. intros i r Hi c t E. cbn [branch_letter append] in E. injection E as <- _. apply letter_latin. auto. Qed.
Lemma nil_not_digit : no_digit_first "".
Proof. intros c t E. discriminate. Qed.
Lemma num_split : forall a b r r', no_digit_first r -> no_digit_first r' ->
  (num a ++ r = num b ++ r')%string -> a = b /\ r = r'.
Proof.
  intros a b r r' R R' E. destruct (digits_split (num a) (num b) r r') as [X Y]; auto; try apply num_number.
  split; auto. apply num_inj; auto.
Qed.
Lemma row_split : forall k i r k' i' r', i < 26 -> i' < 26 ->
  (num k ++ branch_letter i ++ r = num k' ++ branch_letter i' ++ r')%string -> k = k' /\ i = i' /\ r = r'.
Proof.
  intros k i r k' i' r' Hi Hi' E. apply num_split in E; try (apply letter_not_digit; auto).
  destruct E as [-> E]. split; auto. cbn [branch_letter append] in E. injection E as E ->.
  split; auto. apply letter_inj; auto.
Qed.
Lemma row_inj : forall k i m k' i' m', i < 26 -> i' < 26 -> row_label k i m = row_label k' i' m' -> k = k' /\ i = i' /\ m = m'.
Proof.
  intros k i m k' i' m' Hi Hi' E. apply row_split in E; auto. destruct E as [-> [-> E]]. apply num_inj in E. auto.
Qed.
Lemma top_not_row : forall a k i r, i < 26 -> num a <> (num k ++ branch_letter i ++ r)%string.
Proof.
  intros a k i r Hi E. assert (X : (num a ++ "" = num k ++ branch_letter i ++ r)%string) by (rewrite sapp_nil; auto).
  apply num_split in X; [|apply nil_not_digit|apply letter_not_digit; auto]. destruct X as [_ X]. discriminate.
Qed.
Lemma row_branch_label : forall k i m, i < 26 ->
  branch_label [(num k, ascii_of_nat (97 + i))] (num m) (row_label k i m).
Proof.
  intros k i m Hi. split; [discriminate|]. split.
  - intros n c [E|[]]. inv E. split; [apply num_number|apply letter_latin; auto].
  - split; [right; apply num_number|]. rewrite pairs_text_cons. cbn [pairs_text map String.concat].
    unfold row_label, branch_letter. rewrite sapp_assoc. reflexivity.
Qed.
Lemma row_numbered : forall k i m, i < 26 -> numbered (row_label k i m) (num k ++ branch_letter i)%string (num m).
Proof.
  intros k i m Hi. split; [apply num_number|]. split; [left; unfold row_label; rewrite sapp_assoc; reflexivity|].
  right. right. exists (num k), (ascii_of_nat (97 + i)). split; [reflexivity|]. split.
  - apply no_line_feed_plain, number_plain, num_number.
  - left. apply letter_latin. auto.
Qed.
Lemma num_label : forall k, label (num k).
Proof. intros k. left. apply num_number. Qed.
Lemma row_is_label : forall k i m, i < 26 -> label (row_label k i m).
Proof. intros k i m Hi. right. eexists. eexists. apply row_branch_label. auto. Qed.
Lemma nothing_more : forall m r c, latin c -> (num m ++ String c r)%string <> num m /\ forall m', num m' <> (num m ++ String c r)%string.
Proof.
  intros m r c L. assert (X : forall m', num m' <> (num m ++ String c r)%string).
  { intros m' E. apply (proj2 (not_digits (num m') c "" (num_number m') L)). rewrite E. apply in_app_str. left. auto. }
  split; [|exact X]. intros E. apply (X m). auto.
Qed.
Lemma ones_le : forall m k, num m = ones k -> m <= 10 -> m = 1.
Proof.
  intros m k E H.
  assert (O : forall j, forallb (Ascii.eqb "1") (list_ascii_of_string (ones j)) = true).
  { induction j as [|j IH]; [reflexivity|exact IH]. }
  specialize (O k). rewrite <- E in O. clear E.
  do 11 (destruct m as [|m]; [first [reflexivity | vm_compute in O; discriminate O]|]). lia.
Qed.
Lemma branch_of_num : forall k i m, i < 26 -> m <= 10 -> branch_of (num k) (row_label k i m) <-> m = 1.
Proof.
  intros k i m Hi Hm. split.
  - intros B. apply branch_plain_eq in B; [|apply label_plain, row_is_label; auto].
    destruct B as [c [n [L E]]]. unfold row_label in E. apply sapp_inv_head in E. cbn [branch_letter append] in E.
    injection E as _ E. apply (ones_le m n); auto.
  - intros ->. exists (ascii_of_nat (97 + i)), 1. split; [left; apply letter_latin; auto|]. left. reflexivity.
Qed.
Lemma branch_of_inv : forall k o, plain o -> branch_of (num k) o -> exists c r, latin c /\ o = (num k ++ String c r)%string.
Proof. intros k o P B. apply branch_plain_eq in B; auto. destruct B as [c [n [L E]]]. eauto. Qed.

Lemma nth_lt : forall A (l : list A) i x, nth_error l i = Some x -> i < length l.
Proof. intros A l i x H. apply nth_error_Some. congruence. Qed.

(** * The table *)
Section Table.
  Variable ps : list part.
  Hypothesis Fl : flat ps.
  Hypothesis Few : forall k g j bs, nth_error ps k = Some (Block g j bs) -> length bs <= 26.

  (** Numbers that are the order of a row. *)
  Definition top_row (k : nat) : Prop :=
    k = 0 \/ k = S (length ps) \/ exists k' n, k = S k' /\ nth_error ps k' = Some (Act n).
  Definition block_at (k : nat) (bs : list branch_t) : Prop := exists g j, nth_error ps k = Some (Block g j bs).
  Definition branch_at (k i : nat) (b : branch_t) : Prop := exists bs, block_at k bs /\ nth_error bs i = Some b.
  (** Row [m] of branch [i] of the part [k]; all of them counted from 0. *)
  Definition inner_row (k i m : nat) : Prop := exists b, branch_at k i b /\ m < branch_rows b.
  Definition stop_row (k i m : nat) : Prop := exists b, branch_at k i b /\ S m = branch_rows b /\ snd b <> None.

  Lemma letter_bound : forall k i b, branch_at k i b -> i < 26.
  Proof.
    intros k i b [bs [[g [j H]] Hi]]. eapply Nat.lt_le_trans; [|exact (Few k g j bs H)]. eapply nth_lt; exact Hi.
  Qed.
  Lemma branch_flat : forall k i b, branch_at k i b -> flat_branch b.
  Proof.
    intros k i b [bs [[g [j H]] Hi]]. apply nth_error_In in H. apply Fl in H. apply H. eapply nth_error_In; eauto.
  Qed.
  Lemma inner_bound : forall k i m, inner_row k i m -> i < 26 /\ m < 10.
  Proof.
    intros k i m [b [B M]]. split; [eapply letter_bound; eauto|]. pose proof (proj2 (branch_flat _ _ _ B)). lia.
  Qed.
  Lemma branch_fun : forall k i b b', branch_at k i b -> branch_at k i b' -> b = b'.
  Proof. intros k i b b' [bs [[g [j H]] Hi]] [bs' [[g' [j' H']] Hi']]. congruence. Qed.
  Lemma block_tops : forall k bs, block_at k bs -> top_row k /\ ~ top_row (S k) /\ top_row (S (S k)).
  Proof.
    intros k bs [g [j H]]. assert (Lk : k < length ps) by (apply nth_error_Some; congruence). split; [|split].
    - destruct k as [|k]; [left; auto|]. right. right.
      destruct (nth_error ps k) as [[n|g' j' bs']|] eqn:E.
      + exists k, n. auto.
      + exfalso. destruct (proj2 Fl k _ _ E H) as [n C]; [red; eauto|]. discriminate.
      + apply nth_error_None in E. lia.
    - intros [C|[C|[k' [n [C D]]]]]; [lia|lia|]. injection C as <-. congruence.
    - destruct (nth_error ps (S k)) as [p|] eqn:E.
      + destruct (proj2 Fl k _ _ H E) as [n ->]; [red; eauto|]. right. right. eauto.
      + apply nth_error_None in E. right. left. lia.
  Qed.
  Lemma top_or_block : forall k, k <= length ps -> top_row (S k) \/ exists bs, block_at k bs.
  Proof.
    intros k H. destruct (nth_error ps k) as [[n|g j bs]|] eqn:E.
    - left. right. right. eauto.
    - right. exists bs, g, j. auto.
    - apply nth_error_None in E. left. right. left. lia.
  Qed.

  Variable rows : dict row.
  Hypothesis Ord : forall o, In o (orders rows) <->
    (exists k, top_row k /\ o = num k) \/ (exists k i m, inner_row k i m /\ o = row_label (S k) i (S m)).
  Hypothesis On_top : forall k, top_row k -> (onward rows (num k) <-> k <> S (length ps)).
  Hypothesis On_row : forall k i m, inner_row k i m -> (onward rows (row_label (S k) i (S m)) <-> ~ stop_row k i m).

  Lemma in_top : forall k, In (num k) (orders rows) <-> top_row k.
  Proof.
    intros k. rewrite Ord. split; [|eauto]. intros [[k' [T E]]|[k' [i [m [I E]]]]].
    - apply num_inj in E. subst. auto.
    - exfalso. eapply top_not_row; [|exact E]. eapply inner_bound; eauto.
  Qed.
  Lemma in_row : forall k i m, i < 26 -> (In (row_label (S k) i (S m)) (orders rows) <-> inner_row k i m).
  Proof.
    intros k i m Hi. rewrite Ord. split; [|right; eauto 6]. intros [[k' [T E]]|[k' [i' [m' [I E]]]]].
    - exfalso. eapply top_not_row; [|symmetry; exact E]. auto.
    - destruct (inner_bound _ _ _ I). apply row_inj in E; auto. destruct E as [E1 [-> E2]]. injection E1 as ->. injection E2 as ->. auto.
  Qed.
  Lemma order_plain : forall o, In o (orders rows) -> label o.
  Proof.
    intros o H. apply Ord in H. destruct H as [[k [_ ->]]|[k [i [m [I ->]]]]]; [apply num_label|].
    apply row_is_label. eapply inner_bound; eauto.
  Qed.

  Lemma follows_top : forall k m, follows rows (num k) m <-> top_row (S k) /\ m = num (S k).
  Proof.
    intros k m. split.
    - intros [p [n [N [-> I]]]]. apply numbered_number in N; [|apply num_number]. destruct N as [-> ->].
      unfold next in *. rewrite num_next in *. cbn [append] in *. split; auto. apply in_top; auto.
    - intros [T ->]. exists "", (num k). split; [apply number_numbered, num_number|]. unfold next. rewrite num_next. split; auto.
      apply in_top; auto.
  Qed.
  Lemma follows_row : forall k i m o, inner_row k i m ->
    (follows rows (row_label (S k) i (S m)) o <-> inner_row k i (S m) /\ o = row_label (S k) i (S (S m))).
  Proof.
    intros k i m o I. destruct (inner_bound _ _ _ I) as [Hi _]. split.
    - intros [p [n [N [-> J]]]]. destruct (numbered_unique _ _ _ _ _ N (row_numbered _ _ _ Hi)) as [-> ->].
      unfold next in *. rewrite num_next, sapp_assoc in *. split; [|reflexivity]. apply in_row; auto.
    - intros [J ->]. eexists. eexists. split; [apply row_numbered; auto|]. unfold next. rewrite num_next, sapp_assoc. split; [reflexivity|].
      apply in_row in J; auto.
  Qed.
  Lemma branch_top : forall k o, branch rows (num k) o <-> exists i b, branch_at k i b /\ o = row_label (S k) i 1.
  Proof.
    intros k o. split.
    - intros [p [n [N [B I]]]]. apply numbered_number in N; [|apply num_number]. destruct N as [-> ->].
      unfold next in *. rewrite num_next in *. cbn [append] in *.
      pose proof (branch_of_inv _ _ (label_plain _ (order_plain _ I)) B) as [c [r [L E]]].
      apply Ord in I. destruct I as [[k' [T E']]|[k' [i [m [I E']]]]].
      + exfalso. rewrite E in E'. eapply (nothing_more (S k) r c L). symmetry. exact E'.
      + destruct (inner_bound _ _ _ I) as [Hi Hm]. rewrite E in E'. unfold row_label in E'. apply num_split in E'.
        * destruct E' as [E1 E2]. injection E1 as ->. rewrite E2 in E. change (o = row_label (S k') i (S m)) in E. rewrite E in B.
          apply (branch_of_num (S k') i (S m)) in B; [|auto|lia]. injection B as ->. destruct I as [b [Bt _]]. eauto.
        * intros x t X. injection X as <- _. intros C. eapply latin_digit; eauto.
        * apply letter_not_digit; auto.
    - intros [i [b [B ->]]]. exists "", (num k). split; [apply number_numbered, num_number|]. unfold next. rewrite num_next. cbn [append].
      pose proof (letter_bound _ _ _ B) as Hi. split; [apply branch_of_num; auto; lia|]. apply in_row; auto. exists b. split; auto.
      pose proof (proj2 (branch_flat _ _ _ B)). lia.
  Qed.
  Lemma opens_top : forall k, opens rows (num k) <-> exists bs, block_at k bs.
  Proof.
    intros k. split.
    - intros [p [n [N I]]]. apply numbered_number in N; [|apply num_number]. destruct N as [-> ->].
      unfold next in *. rewrite num_next in *. cbn [append] in *.
      assert (X : exists r, In (num (S k) ++ String "a" r)%string (orders rows)) by (destruct I; eauto). clear I. destruct X as [r I].
      assert (La : latin "a") by (left; reflexivity).
      apply Ord in I. destruct I as [[k' [T E']]|[k' [i [m [I E']]]]].
      + exfalso. eapply (nothing_more (S k) r _ La). symmetry. exact E'.
      + destruct (inner_bound _ _ _ I) as [Hi Hm]. unfold row_label in E'. apply num_split in E'.
        * destruct E' as [E1 _]. injection E1 as ->. destruct I as [b [[bs [B _]] _]]. eauto.
        * intros x t X. injection X as <- _. intros C. eapply latin_digit; eauto.
        * apply letter_not_digit; auto.
    - intros [bs B]. exists "", (num k). split; [apply number_numbered, num_number|]. unfold next. rewrite num_next. cbn [append].
      right. change (In (row_label (S k) 0 1) (orders rows)). apply in_row; [lia|].
      destruct B as [g [j B]]. pose proof (proj1 Fl _ (nth_error_In _ _ B)) as [[i [i' [b [b' [_ [H _]]]]]] _].
      destruct bs as [|b0 bs]; [destruct i; discriminate|].
      assert (B0 : branch_at k 0 b0) by (exists (b0 :: bs); split; [exists g, j; auto|reflexivity]).
      exists b0. split; auto. pose proof (proj2 (branch_flat _ _ _ B0)). lia.
  Qed.
  Lemma opens_row : forall k i m, inner_row k i m -> ~ opens rows (row_label (S k) i (S m)).
  Proof.
    intros k i m I [p [n [N J]]]. destruct (inner_bound _ _ _ I) as [Hi _].
    destruct (numbered_unique _ _ _ _ _ N (row_numbered _ _ _ Hi)) as [-> ->].
    unfold next in J. rewrite num_next, sapp_assoc in J.
    assert (X : exists r, In (num (S k) ++ branch_letter i ++ num (S (S m)) ++ String "a" r)%string (orders rows)).
    { destruct J as [J|J]; rewrite !sapp_assoc in J; eauto. }
    destruct X as [r X]. assert (La : latin "a") by (left; reflexivity).
    apply Ord in X. destruct X as [[k' [T E']]|[k' [i' [m' [I' E']]]]].
    - exfalso. eapply top_not_row; [|symmetry; exact E']; auto.
    - destruct (inner_bound _ _ _ I') as [Hi' _]. apply row_split in E'; auto. destruct E' as [_ [_ E']].
      eapply (nothing_more (S (S m)) r _ La). symmetry. exact E'.
  Qed.
  Lemma closes_row : forall k i m o, inner_row k i m ->
    (closes rows (row_label (S k) i (S m)) o <-> o = num (S (S k))).
  Proof.
    intros k i m o I. destruct (inner_bound _ _ _ I) as [Hi _]. pose proof (row_branch_label (S k) i (S m) Hi) as B. split.
    - intros [l [j [q [x [B' [Q [-> _]]]]]]]. apply merge_successors in B'. apply merge_successors in B. rewrite B' in B. injection B as B.
      cbn [map fst] in B. assert (X : In (zstr (value q + 1)) (map (fun p : string * ascii => zstr (value (fst p) + 1)) l)).
      { apply in_map_iff. exists (q, x). auto. }
      rewrite B in X. destruct X as [X|[]]. rewrite <- X. apply num_next.
    - intros ->. eexists. eexists. exists (num (S k)). eexists. split; [exact B|]. split; [left; reflexivity|]. split; [symmetry; apply num_next|].
      apply in_top. destruct I as [b [[bs [Bk _]] _]]. apply (block_tops k bs Bk).
  Qed.

  (** * Flows *)
  Inductive flat_flow : string -> string -> Prop :=
  | ff_next : forall k, k <= length ps -> top_row k -> top_row (S k) -> flat_flow (num k) (num (S k))
  | ff_split : forall k bs, block_at k bs -> flat_flow (num k) (split_of (num k))
  | ff_branch : forall k i b, branch_at k i b -> flat_flow (split_of (num k)) (row_label (S k) i 1)
  | ff_inner : forall k i m, inner_row k i m -> inner_row k i (S m) ->
      flat_flow (row_label (S k) i (S m)) (row_label (S k) i (S (S m)))
  | ff_meet : forall k i b, branch_at k i b -> snd b = None ->
      flat_flow (row_label (S k) i (branch_rows b)) (join_of (num (S (S k))))
  | ff_join : forall k bs, block_at k bs -> flat_flow (join_of (num (S (S k)))) (num (S (S k))).

  Lemma goes_iff : forall o m, goes_on rows o m <->
    (exists k, k <= length ps /\ top_row k /\ top_row (S k) /\ o = num k /\ m = num (S k)) \/
    (exists k i j, inner_row k i j /\ inner_row k i (S j) /\ o = row_label (S k) i (S j) /\ m = row_label (S k) i (S (S j))).
  Proof.
    intros o m. split.
    - intros [On F]. pose proof (onward_in _ _ On) as I. apply Ord in I. destruct I as [[k [T ->]]|[k [i [j [I ->]]]]].
      + apply follows_top in F. destruct F as [F ->]. left. exists k. repeat (split; auto).
        destruct F as [F|[F|[k' [n [F H]]]]]; [lia|lia|]. injection F as <-. apply Nat.lt_le_incl, nth_error_Some. congruence.
      + apply follows_row in F; auto. destruct F as [F ->]. right. exists k, i, j. auto.
    - intros [[k [Lk [T [T' [-> ->]]]]]|[k [i [j [I [I' [-> ->]]]]]]]; split.
      + apply On_top; auto. lia.
      + apply follows_top. auto.
      + apply On_row; auto. intros [b [B [E _]]]. destruct I' as [b' [B' L']]. rewrite (branch_fun _ _ _ _ B' B) in L'. lia.
      + apply follows_row; auto.
  Qed.
  Lemma splits_iff : forall o, splits rows o <-> exists k bs, block_at k bs /\ o = num k.
  Proof.
    intros o. split.
    - intros [On [Nf Op]]. pose proof (onward_in _ _ On) as I. apply Ord in I. destruct I as [[k [T ->]]|[k [i [j [I ->]]]]].
      + apply opens_top in Op. destruct Op as [bs B]. eauto.
      + exfalso. eapply opens_row; eauto.
    - intros [k [bs [B ->]]]. destruct (block_tops k bs B) as [T1 [T2 T3]]. split; [|split].
      + apply On_top; auto. destruct B as [g [j B]]. assert (k < length ps) by (apply nth_error_Some; congruence). lia.
      + intros m F. apply follows_top in F. tauto.
      + apply opens_top. eauto.
  Qed.
  Lemma merges_iff : forall o m, merges rows o m <->
    exists k i b, branch_at k i b /\ snd b = None /\ o = row_label (S k) i (branch_rows b) /\ m = num (S (S k)).
  Proof.
    intros o m. split.
    - intros [On [Nf [Nop C]]]. pose proof (onward_in _ _ On) as I. apply Ord in I. destruct I as [[k [T ->]]|[k [i [j [I ->]]]]].
      + exfalso. apply (closes_branch _ _ _ C). apply num_number.
      + apply closes_row in C; auto. pose proof I as [b [B Lt]].
        assert (E : S j = branch_rows b).
        { destruct (Nat.eq_dec (S j) (branch_rows b)) as [E|E]; auto. exfalso. apply (Nf (row_label (S k) i (S (S j)))).
          apply follows_row; auto. split; auto. exists b. split; auto. lia. }
        exists k, i, b. split; auto. split; [|rewrite <- E; auto]. destruct (snd b) eqn:Es; auto. exfalso.
        apply (On_row k i j I); auto. exists b. split; auto. split; auto. congruence.
    - intros [k [i [b [B [E [-> ->]]]]]].
      pose proof (proj2 (branch_flat _ _ _ B)) as Bd. destruct (branch_rows b) as [|m] eqn:Em; [lia|].
      assert (I : inner_row k i m) by (exists b; split; auto; lia). split; [|split; [|split]].
      + apply On_row; auto. intros [b' [B' [_ C]]]. rewrite (branch_fun _ _ _ _ B' B) in C. auto.
      + intros x F. apply follows_row in F; auto. destruct F as [[b' [B' C]] _]. rewrite (branch_fun _ _ _ _ B' B) in C. lia.
      + apply opens_row; auto.
      + apply closes_row; auto.
  Qed.
  Lemma raw_iff : forall x y, raw_flow rows x y <-> flat_flow x y.
  Proof.
    intros x y. split.
    - intros [o m H|o H|o b H B|o m H|o m H].
      + apply goes_iff in H. destruct H as [[k [L [T [T' [-> ->]]]]]|[k [i [j [I [I' [-> ->]]]]]]]; [apply ff_next|apply ff_inner]; auto.
      + apply splits_iff in H. destruct H as [k [bs [H ->]]]. eapply ff_split; eauto.
      + apply splits_iff in H. destruct H as [k [bs [H ->]]]. apply branch_top in B. destruct B as [i [b' [B ->]]]. eapply ff_branch; eauto.
      + apply merges_iff in H. destruct H as [k [i [b [B [E [-> ->]]]]]]. apply ff_meet; auto.
      + apply merges_iff in H. destruct H as [k [i [b [[bs [B _]] [E [-> ->]]]]]]. eapply ff_join; eauto.
    - assert (Sp : forall k bs, block_at k bs -> splits rows (num k)) by (intros; apply splits_iff; eauto).
      intros [k L T T'|k bs B|k i b B|k i m I I'|k i b B E|k bs B].
      + apply rf_sequence, goes_iff. left. eauto 10.
      + apply rf_split. eauto.
      + apply rf_branch; [destruct B as [bs [B _]]; eauto|]. apply branch_top. eauto.
      + apply rf_sequence, goes_iff. right. eauto 10.
      + apply rf_join, merges_iff. eauto 10.
      + pose proof B as [g [j B']]. pose proof (proj1 Fl _ (nth_error_In _ _ B')) as [[i [i' [b [b' [_ [H [_ [E _]]]]]]]] _].
        apply rf_after with (o := row_label (S k) i (branch_rows b)). apply merges_iff. exists k, i, b. split; auto. exists bs. auto.
  Qed.

  (** * Nothing is left out *)
  Lemma gateways_iff : forall g, gateway_of rows g <->
    exists k bs, block_at k bs /\ (g = split_of (num k) \/ g = join_of (num (S (S k)))).
  Proof.
    intros g. split.
    - intros [[o [H ->]]|[o [m [H ->]]]].
      + apply splits_iff in H. destruct H as [k [bs [H ->]]]. eauto 6.
      + apply merges_iff in H. destruct H as [k [i [b [[bs [B _]] [E [-> ->]]]]]]. eauto 6.
    - intros [k [bs [B [-> | ->]]]].
      + left. exists (num k). split; auto. apply splits_iff. eauto.
      + right. pose proof B as [g [j B']]. pose proof (proj1 Fl _ (nth_error_In _ _ B')) as [[i [i' [b [b' [_ [H [_ [E _]]]]]]]] _].
        exists (row_label (S k) i (branch_rows b)), (num (S (S k))). split; auto. apply merges_iff. exists k, i, b. split; auto. exists bs. auto.
  Qed.
  Lemma none_dissolved : forall g, ~ dissolved rows g.
  Proof.
    intros g [G [In1 Out1]]. apply gateways_iff in G. destruct G as [k [bs [B G]]].
    pose proof B as [g' [j B']]. pose proof (proj1 Fl _ (nth_error_In _ _ B')) as [[i [i' [b [b' [Ne [H [H' [E E']]]]]]]] _].
    assert (X : branch_at k i b) by (exists bs; auto). assert (X' : branch_at k i' b') by (exists bs; auto).
    pose proof (letter_bound _ _ _ X). pose proof (letter_bound _ _ _ X').
    destruct G as [-> | ->].
    - assert (Y : row_label (S k) i 1 = row_label (S k) i' 1).
      { apply Out1; apply raw_iff; eapply ff_branch; eauto. }
      apply row_inj in Y; auto. tauto.
    - assert (Y : row_label (S k) i (branch_rows b) = row_label (S k) i' (branch_rows b')).
      { apply In1; apply raw_iff; eapply ff_meet; eauto. }
      apply row_inj in Y; auto. tauto.
  Qed.
  Lemma table_nodes_iff : forall n, table_node rows n <->
    In n (orders rows) \/ exists k bs, block_at k bs /\ (n = split_of (num k) \/ n = join_of (num (S (S k)))).
  Proof. intros n. unfold table_node. rewrite gateways_iff. pose proof (none_dissolved n). tauto. Qed.
  Lemma table_flows_iff : forall x y, table_flow rows x y <-> flat_flow x y.
  Proof.
    intros x y. unfold table_flow. rewrite raw_iff. pose proof (none_dissolved x). pose proof (none_dissolved y).
    split; [|auto]. intros [_ [_ [F|[g [G _]]]]]; auto. exfalso. eapply none_dissolved; eauto.
  Qed.
  Lemma all_connectable : forall o, In o (orders rows) -> onward rows o -> (exists m, follows rows o m) \/ opens rows o \/
    exists m, closes rows o m /\ (forall m', closes rows o m' -> m' = m) /\ (2 <= value m)%Z.
  Proof.
    intros o I On. apply Ord in I. destruct I as [[k [T ->]]|[k [i [j [I ->]]]]].
    - assert (L : k <= length ps).
      { apply (On_top k T) in On. destruct T as [T|[T|[k' [n [-> H]]]]]; [lia|lia|]. apply nth_error_Some. congruence. }
      destruct (top_or_block k L) as [H|H].
      + left. exists (num (S k)). apply follows_top. auto.
      + right. left. apply opens_top. auto.
    - right. right. exists (num (S (S k))). split; [apply closes_row; auto|]. split.
      + intros m' C. apply closes_row in C; auto.
      + rewrite num_value. lia.
  Qed.
End Table.
