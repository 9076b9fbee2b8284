(** Durfee square, perfect square, heterogeneity and ratio metrics. *)
From Coq Require Import String List Bool Arith ZArith QArith Lia Permutation.
From Verif Require Import Py PyFacts Consts Nx NxFacts Rep SpecRep RepFacts Metrics SpecMetrics MetricsFacts.
Import ListNotations.
Open Scope string_scope.
Open Scope list_scope.
Open Scope nat_scope.

(** ** The counter of truthy types *)
Definition keep (s : string) : bool := negb (String.eqb s "").

Lemma truthy_eq : forall l, (forall x, In x l -> exists t, dget "type" (snd x) = Some (VStr t)) ->
  truthy_types l = Ok (filter keep (flat_map type_of l)).
Proof.
  induction l as [|x t IH]; intros H; auto. cbn [truthy_types flat_map].
  destruct (H x (or_introl eq_refl)) as [s E]. unfold type_of at 1. rewrite E.
  unfold dgetE. change k_type with "type". rewrite E. cbn [rbind app filter].
  rewrite IH by (intros; apply H; right; auto). destruct s as [|c s']; reflexivity.
Qed.

Lemma counter_spec : forall l c t, dget t (fold_left counter_add l c) =
  match count_occ string_dec l t, dget t c with
  | O, o => o
  | S k, None => Some (S k)
  | S k, Some n => Some (S k + n)
  end.
Proof.
  induction l as [|a r IH]; intros c t; [simpl; destruct (dget t c); reflexivity|].
  cbn [fold_left]. rewrite IH. unfold counter_add. rewrite dget_dset. cbn [count_occ].
  destruct (string_dec a t) as [->|N].
  - rewrite eqb_refl'. destruct (count_occ string_dec r t), (dget t c); auto; f_equal; lia.
  - rewrite eqb_neq' by congruence. reflexivity.
Qed.

Lemma counter_nodup : forall l c, NoDup (dkeys c) -> NoDup (dkeys (fold_left counter_add l c)).
Proof.
  induction l as [|a r IH]; intros c H; auto. simpl. apply IH. apply nodup_dset. auto.
Qed.

Lemma count_keep : forall l t, t <> "" -> count_occ string_dec (filter keep l) t = count_occ string_dec l t.
Proof.
  induction l as [|a r IH]; intros t H; auto. simpl. unfold keep at 1.
  destruct (String.eqb_spec a "") as [->|N]; simpl.
  - destruct t; [congruence|apply IH; auto].
  - destruct (string_dec a t); rewrite IH; auto.
Qed.

Lemma count_keep_empty : forall l, count_occ string_dec (filter keep l) "" = 0.
Proof.
  intro l. apply count_occ_not_In. intro C. apply filter_In in C. destruct C as [_ C]. discriminate.
Qed.

(** A table that represents the frequencies of the types. *)
Definition table (d : diagram) (c : dict nat) : Prop :=
  NoDup (dkeys c) /\ forall t k, dget t c = Some k <-> (t <> "" /\ 1 <= k /\ freq d t = k).

Lemma all_types_table : forall d, unique_ids d -> typed d ->
  exists c, all_types_count d = Ok c /\ table d c.
Proof.
  intros d Hu Ht. unfold all_types_count. cbn [get_nodes rbind]. unfold nodes_view.
  rewrite truthy_eq by (apply typed_entry; auto). cbn [rbind].
  eexists. split; [reflexivity|]. split.
  - apply counter_nodup. constructor.
  - intros t k. rewrite counter_spec. cbn [dget].
    destruct (string_dec t "") as [->|N].
    + rewrite count_keep_empty. split; [discriminate|]. intros [C _]. congruence.
    + rewrite count_keep by auto. change (count_occ string_dec (flat_map type_of (gnodes (dgraph d))) t) with (freq d t).
      destruct (freq d t) as [|j]; split.
      * discriminate.
      * intros [_ [A B]]. lia.
      * intro E. inv E. repeat split; auto. lia.
      * intros [_ [A B]]. congruence.
Qed.

(** ** Durfee *)
Definition ge_count (i : nat) (cs : list nat) : nat := length (filter (Nat.leb i) cs).

Lemma incr_nth : forall h i j, i < length h ->
  nth j (incr i h) 0 = (if Nat.eqb i j then 1 else 0) + nth j h 0.
Proof.
  induction h as [|x t IH]; intros i j H; simpl in H; [lia|].
  destruct i as [|i]; destruct j as [|j]; simpl; auto.
  apply IH. lia.
Qed.
Lemma incr_length : forall h i, length (incr i h) = length h.
Proof. induction h; intros [|i]; simpl; auto. Qed.

Lemma hist_spec : forall cs len h, length h = S len ->
  length (fold_left (fun h c => incr (Nat.min c len) h) cs h) = S len /\
  forall j, nth j (fold_left (fun h c => incr (Nat.min c len) h) cs h) 0
            = length (filter (fun c => Nat.eqb (Nat.min c len) j) cs) + nth j h 0.
Proof.
  induction cs as [|c r IH]; intros len h H; [simpl; auto|]. cbn [fold_left].
  destruct (IH len (incr (Nat.min c len) h)) as [H1 H2]; [rewrite incr_length; auto|].
  split; auto. intro j. rewrite H2. rewrite incr_nth by lia. cbn [filter].
  destruct (Nat.eqb (Nat.min c len) j); cbn [length]; lia.
Qed.

Definition tail_sum (h : list nat) (i : nat) : nat := nsum (skipn i h).

Lemma combine_snoc : forall A B (a : list A) (b : list B) x y, length a = length b ->
  combine (a ++ [x]) (b ++ [y]) = combine a b ++ [(x, y)].
Proof.
  induction a as [|a0 a IH]; intros [|b0 b] x y H; simpl in *; try lia; auto.
  rewrite IH; auto.
Qed.

(** Scan of a histogram whose upper part (sum [s]) was already consumed. *)
Lemma scan_spec : forall h s,
  let r := durfee_scan (rev (combine (seq 0 (length h)) h)) s in
  (h = [] -> r = 0) /\
  (h <> [] -> r < length h /\ r <= tail_sum h r + s /\
      forall j, r < j -> j < length h -> tail_sum h j + s < j).
Proof.
  intro h. pattern h. apply rev_ind; clear h.
  - intros s r. split; [reflexivity|congruence].
  - intros x h IH s r. split; [intro C; destruct h; discriminate|]. intros _.
    assert (E : r = durfee_scan ((length h, x) :: rev (combine (seq 0 (length h)) h)) s).
    { unfold r. rewrite app_length. simpl (length [x]). rewrite seq_app. simpl (seq (0 + length h) 1).
      rewrite combine_snoc by apply seq_length. rewrite rev_app_distr. reflexivity. }
    cbn [durfee_scan] in E. rewrite app_length. simpl (length [x]).
    assert (T : forall j, j <= length h -> tail_sum (h ++ [x]) j = tail_sum h j + x).
    { intros j Hj. unfold tail_sum. rewrite skipn_app.
      replace (j - length h) with 0 by lia. simpl skipn at 2. unfold nsum. rewrite fold_right_app. simpl.
      clear. rewrite Nat.add_0_r. induction (skipn j h); simpl; lia. }
    destruct (Nat.leb_spec (length h) (s + x)) as [Hc|Hc].
    + rewrite E. split; [lia|]. split.
      * rewrite T by lia. unfold tail_sum. rewrite skipn_all. simpl. lia.
      * intros j H1 H2. lia.
    + destruct (IH (s + x)) as [I0 I1]. destruct h as [|y h'].
      * simpl in Hc. lia.
      * destruct I1 as [A [B C]]; [discriminate|]. rewrite <- E in A, B, C.
        split; [lia|]. split.
        -- rewrite T by lia. lia.
        -- intros j H1 H2. rewrite T by lia.
           destruct (Nat.eq_dec j (length (y :: h'))) as [->|Nj].
           ++ unfold tail_sum. rewrite skipn_all. simpl nsum. lia.
           ++ specialize (C j H1). lia.
Qed.

Lemma filter_ext_len : forall A (f g : A -> bool) l, (forall x, f x = g x) -> length (filter f l) = length (filter g l).
Proof. intros. rewrite (filter_ext f g) by auto. reflexivity. Qed.

Lemma tail_hist : forall len cs h i, length h = S len -> i <= len ->
  (forall j, nth j h 0 = length (filter (fun c => Nat.eqb (Nat.min c len) j) cs)) ->
  tail_sum h i = ge_count i cs.
Proof.
  intros len cs h i Hl Hi Hh. remember (S len - i) as m. revert i Hi Heqm.
  induction m as [|m IH]; intros i Hi Em; [lia|].
  assert (S1 : skipn i h = nth i h 0 :: skipn (S i) h).
  { assert (Hlt : i < length h) by lia. clear - Hlt. revert i Hlt.
    induction h as [|x t IH]; simpl; intros i H; [lia|]. destruct i; auto. apply (IH i). lia. }
  unfold tail_sum. rewrite S1. change (nth i h 0 + tail_sum h (S i) = ge_count i cs). rewrite Hh.
  destruct (Nat.eq_dec i len) as [->|Ni].
  - assert (Z : tail_sum h (S len) = 0).
    { unfold tail_sum. rewrite <- Hl. rewrite skipn_all. reflexivity. }
    rewrite Z, Nat.add_0_r. unfold ge_count. apply filter_ext_len. intro c.
    destruct (Nat.leb_spec len c); destruct (Nat.eqb_spec (Nat.min c len) len); lia.
  - rewrite IH by lia. unfold ge_count. clear - Hi Ni. induction cs as [|c r IHc]; auto.
    cbn [filter].
    destruct (Nat.eqb_spec (Nat.min c len) i); destruct (Nat.leb_spec i c);
      destruct (Nat.leb_spec (S i) c); cbn [length]; lia.
Qed.

Lemma ge_count_le : forall i cs, ge_count i cs <= length cs.
Proof. intros. unfold ge_count. induction cs; simpl; auto. destruct (Nat.leb i a); simpl; lia. Qed.

Lemma durfee_of_counts_spec : forall cs,
  durfee_of_counts cs <= ge_count (durfee_of_counts cs) cs /\
  forall j, j <= ge_count j cs -> j <= durfee_of_counts cs.
Proof.
  intro cs. unfold durfee_of_counts. set (len := length cs).
  destruct (hist_spec cs len (repeat 0 (S len))) as [Hl Hn]; [apply repeat_length|].
  set (h := fold_left (fun h c => incr (Nat.min c len) h) cs (repeat 0 (S len))) in *.
  assert (Hn' : forall j, nth j h 0 = length (filter (fun c => Nat.eqb (Nat.min c len) j) cs)).
  { intro j. rewrite Hn. replace (nth j (repeat 0 (S len)) 0) with 0; [lia|].
    clear. generalize (S len) as m. intro m. revert j. induction m; intros [|j]; simpl; auto. }
  pose proof (scan_spec h 0) as [_ S]. rewrite Hl in S.
  destruct S as [A [B C]]; [intro E; rewrite E in Hl; discriminate|].
  set (r := durfee_scan _ 0) in *. split.
  - rewrite (tail_hist len cs h r) in B; auto; lia.
  - intros j Hj. destruct (le_lt_dec j r); auto. exfalso.
    assert (j <= len) by (pose proof (ge_count_le j cs); unfold len; lia).
    specialize (C j l). rewrite (tail_hist len cs h j) in C; auto. lia.
Qed.

Lemma NoDup_firstn : forall A n (l : list A), NoDup l -> NoDup (firstn n l).
Proof.
  intros A n l H. rewrite <- (firstn_skipn n l) in H. revert H. generalize (skipn n l).
  induction (firstn n l) as [|a t IH]; intros r H; [constructor|]. simpl in H. inv H.
  constructor; eauto. intro C. apply H2. apply in_or_app. auto.
Qed.
Lemma In_firstn : forall A n (l : list A) x, In x (firstn n l) -> In x l.
Proof.
  intros A n l x H. rewrite <- (firstn_skipn n l). apply in_or_app. auto.
Qed.

Lemma durfee_ok_table : forall d c m, unique_ids d -> table d c ->
  (durfee_ok d m <-> m <= ge_count m (map snd c)).
Proof.
  intros d c m Hu [Hn Hc].
  assert (L : ge_count m (map snd c) = length (filter (fun p => Nat.leb m (snd p)) c)).
  { unfold ge_count. clear. induction c as [|[k v] t IH]; simpl; auto. destruct (Nat.leb m v); simpl; auto. }
  rewrite L. split.
  - intros [ts [N [Hl H]]]. destruct m as [|m']; [lia|]. rewrite <- Hl.
    rewrite <- (map_length fst). apply NoDup_incl_length; auto. intros t Ht.
    destruct (H t Ht) as [Hne [k [Hk Hge]]]. apply in_map_iff. exists (t, k). split; auto.
    apply filter_In. split; [|simpl; apply Nat.leb_le; lia]. apply dget_In. apply Hc.
    split; auto. split; [lia|]. eapply number_unique; [apply number_freq; auto|exact Hk].
  - intros Hge. set (f := filter (fun p => Nat.leb m (snd p)) c) in *.
    exists (firstn m (map fst f)). split; [|split].
    + apply NoDup_firstn. unfold f. apply NoDup_map_filter. exact Hn.
    + rewrite firstn_length, map_length. lia.
    + intros t Ht. apply In_firstn in Ht. apply in_map_iff in Ht. destruct Ht as [[t' k] [E Hin]].
      simpl in E. subst t'. apply filter_In in Hin. destruct Hin as [Hin Hle]. simpl in Hle.
      apply Nat.leb_le in Hle. apply In_dget in Hin; auto. apply Hc in Hin. destruct Hin as [A [B C]].
      split; auto. exists k. split; auto. rewrite <- C. apply number_freq; auto.
Qed.

Lemma durfee_spec : forall d, unique_ids d -> typed d ->
  exists m, DurfeeSquare_metric d = Ok m /\ durfee_ok d m /\ forall j, durfee_ok d j -> j <= m.
Proof.
  intros d Hu Ht. destruct (all_types_table d Hu Ht) as [c [E T]].
  exists (durfee_of_counts (map snd c)). split; [unfold DurfeeSquare_metric; rewrite E; reflexivity|].
  destruct (durfee_of_counts_spec (map snd c)) as [A B]. split.
  - apply (durfee_ok_table d c); auto.
  - intros j Hj. apply B. apply (durfee_ok_table d c); auto.
Qed.

(** ** Perfect square *)
Fixpoint desc (l : list nat) : Prop :=
  match l with
  | [] => True
  | x :: t => (forall y, In y t -> y <= x) /\ desc t
  end.

Lemma insert_perm : forall x l, Permutation (insert_desc x l) (x :: l).
Proof.
  induction l as [|y t IH]; simpl; auto. destruct (Nat.leb x y); auto.
  rewrite IH. apply perm_swap.
Qed.
Lemma insert_desc_desc : forall x l, desc l -> desc (insert_desc x l).
Proof.
  induction l as [|y t IH]; simpl; intros H; [split; [contradiction|auto]|].
  destruct H as [H1 H2]. destruct (Nat.leb_spec x y); simpl.
  - split; auto. intros z Hz. apply (Permutation_in _ (insert_perm x t)) in Hz.
    destruct Hz as [->|Hz]; auto.
  - split; [|split; auto]. intros z [->|Hz]; [lia|]. specialize (H1 z Hz). lia.
Qed.
Lemma sort_desc_spec : forall l, Permutation (sort_desc l) l /\ desc (sort_desc l).
Proof.
  intro l. unfold sort_desc.
  assert (G : forall l acc, desc acc -> Permutation (fold_left (fun acc x => insert_desc x acc) l acc) (acc ++ l)
              /\ desc (fold_left (fun acc x => insert_desc x acc) l acc)).
  { clear. induction l as [|x t IH]; intros acc H; simpl; [rewrite app_nil_r; auto|].
    destruct (IH (insert_desc x acc) (insert_desc_desc x acc H)) as [A B]. split; auto.
    rewrite A. rewrite insert_perm. simpl. apply Permutation_cons_app. reflexivity. }
  apply (G l [] I).
Qed.

Lemma nsum_perm : forall a b, Permutation a b -> nsum a = nsum b.
Proof. induction 1; simpl; unfold nsum in *; simpl; lia. Qed.
Lemma nsum_app : forall a b, nsum (a ++ b) = nsum a + nsum b.
Proof. induction a; intros; unfold nsum in *; simpl; auto. rewrite IHa. lia. Qed.

(** The first entries of a descending list dominate any choice. *)
Lemma top_max : forall l, desc l -> forall s r, Permutation (s ++ r) l -> nsum s <= nsum (firstn (length s) l).
Proof.
  induction l as [|x t IH]; intros Hd s r P.
  - apply Permutation_sym, Permutation_nil in P. apply app_eq_nil in P. destruct P; subst. simpl. lia.
  - destruct Hd as [Hx Hd]. assert (Hin : In x (s ++ r)).
    { apply (Permutation_in _ (Permutation_sym P)). left; auto. }
    apply in_app_or in Hin. destruct Hin as [Hin|Hin].
    + apply in_split in Hin. destruct Hin as [s1 [s2 ->]].
      rewrite app_length. simpl length. rewrite Nat.add_succ_r. cbn [firstn].
      assert (P' : Permutation ((s1 ++ s2) ++ r) t).
      { apply (Permutation_cons_inv (a := x)). rewrite <- P. rewrite <- !app_assoc. simpl.
        apply Permutation_middle. }
      specialize (IH Hd (s1 ++ s2) r P'). rewrite app_length in IH.
      rewrite nsum_app in *. unfold nsum in *. simpl. lia.
    + apply in_split in Hin. destruct Hin as [r1 [r2 ->]].
      assert (P' : Permutation (s ++ r1 ++ r2) t).
      { apply (Permutation_cons_inv (a := x)). rewrite <- P.
        rewrite !app_assoc. apply Permutation_middle. }
      destruct s as [|y s]; [simpl; lia|]. simpl length. cbn [firstn].
      assert (Py : y <= x).
      { apply Hx. apply (Permutation_in _ P'). left; auto. }
      assert (P2 : Permutation (s ++ (y :: r1 ++ r2)) t).
      { rewrite <- P'. simpl. symmetry. apply Permutation_middle. }
      specialize (IH Hd s _ P2). unfold nsum in *. simpl. lia.
Qed.

Lemma perfect_scan_spec : forall sorted p,
  let r := perfect_scan sorted p p in
  r <= p /\ r * r <= nsum (firstn r sorted) /\
  forall j, r < j -> j <= p -> nsum (firstn j sorted) < j * j.
Proof.
  intros sorted p. induction p as [|p IH].
  - simpl. split; [lia|]. split; [lia|]. intros. lia.
  - intro r. assert (E : r = perfect_scan sorted (S p) (S p)) by reflexivity. clearbody r. cbn [perfect_scan] in E.
    destruct (Nat.leb_spec (S p * S p) (nsum (firstn (S p) sorted))) as [H|H].
    + rewrite E. split; [lia|]. split; [exact H|]. intros; lia.
    + replace (S p - 1) with p in E by lia. rewrite <- E in IH. simpl in IH. destruct IH as [A [B C]].
      split; [lia|]. split; [exact B|]. intros j H1 H2.
      destruct (Nat.eq_dec j (S p)) as [->|N]; [exact H|]. apply C; lia.
Qed.

Lemma nsum_firstn_le : forall j l, nsum (firstn j l) <= nsum l.
Proof.
  intros. rewrite <- (firstn_skipn j l) at 2. rewrite nsum_app. lia.
Qed.

Lemma perfect_of_counts_spec : forall cs,
  let r := perfect_of_counts cs in
  r <= length cs /\ r * r <= nsum (firstn r (sort_desc cs)) /\
  forall j, j <= length cs -> j * j <= nsum (firstn j (sort_desc cs)) -> j <= r.
Proof.
  intros cs r. unfold perfect_of_counts in r.
  destruct (sort_desc_spec cs) as [P D].
  pose proof (Permutation_length P) as L.
  destruct (perfect_scan_spec (sort_desc cs)
              (Nat.min (length (sort_desc cs)) (Nat.sqrt (nsum (sort_desc cs))))) as [A [B C]].
  fold r in A, B, C. split; [lia|]. split; auto.
  intros j Hj Hs. destruct (le_lt_dec j r) as [|Hlt]; auto. exfalso.
  specialize (C j Hlt). assert (j <= Nat.sqrt (nsum (sort_desc cs))).
  { apply Nat.sqrt_le_square. pose proof (nsum_firstn_le j (sort_desc cs)). lia. }
  assert (j <= Nat.min (length (sort_desc cs)) (Nat.sqrt (nsum (sort_desc cs)))) by lia.
  specialize (C H0). lia.
Qed.

Lemma sublist_perm : forall (c : dict nat) ts, NoDup ts -> incl ts (dkeys c) -> NoDup (dkeys c) ->
  exists rest, Permutation (map (fun t => match dget t c with Some k => k | None => 0 end) ts ++ rest) (map snd c).
Proof.
  intros c ts N I Nc.
  assert (E : map snd c = map (fun t => match dget t c with Some k => k | None => 0 end) (dkeys c)).
  { unfold dkeys. rewrite map_map. apply map_ext_in. intros [t k] H. simpl.
    rewrite (In_dget t k); auto. }
  rewrite E.
  assert (G : forall ts ks : list string, NoDup ts -> NoDup ks -> incl ts ks -> exists r, Permutation (ts ++ r) ks).
  { clear. induction ts as [|t r IH]; intros ks N Nk I; [exists ks; auto|].
    inv N. assert (Hin : In t ks) by (apply I; left; auto). apply in_split in Hin.
    destruct Hin as [k1 [k2 ->]]. destruct (IH (k1 ++ k2)) as [rest P]; auto.
    - eapply NoDup_remove_1; eauto.
    - intros x Hx. specialize (I x (or_intror Hx)). apply in_app_or in I. apply in_or_app.
      destruct I as [I|[I|I]]; auto. subst. contradiction.
    - exists rest. simpl. rewrite P. apply Permutation_middle. }
  destruct (G ts (dkeys c) N Nc I) as [rest P].
  exists (map (fun t => match dget t c with Some k => k | None => 0 end) rest).
  rewrite <- map_app. apply Permutation_map. exact P.
Qed.

Lemma perfect_ok_table : forall d c m, unique_ids d -> table d c ->
  (perfect_ok d m <-> m <= length (map snd c) /\ m * m <= nsum (firstn m (sort_desc (map snd c)))).
Proof.
  intros d c m Hu [Hn Hc]. destruct (sort_desc_spec (map snd c)) as [P D]. split.
  - intros [ts [ks [N [Hl [F S]]]]].
    assert (Q : forall t k, In (t, k) (combine ts ks) -> dget t c = Some k).
    { clear - F Hc Hu. induction F as [|t k ts ks [A [B C]] F IH]; simpl; intros t0 k0 H; [contradiction|].
      destruct H as [H|H]; auto. inv H. apply Hc. repeat split; auto.
      eapply number_unique; [apply number_freq; auto|exact C]. }
    assert (Hk : ks = map (fun t => match dget t c with Some k => k | None => 0 end) ts).
    { clear - F Q. induction F as [|t k ts ks H F IH]; auto. simpl. rewrite (Q t k) by (simpl; auto).
      f_equal. apply IH. intros; apply Q; simpl; auto. }
    assert (I : incl ts (dkeys c)).
    { intros t Ht. clear - F Q Ht. induction F as [|t0 k ts ks H F IH]; [contradiction|].
      destruct Ht as [->|Ht]; [eapply dget_key_In; apply Q; simpl; eauto|].
      apply IH; auto. intros; apply Q; simpl; auto. }
    split.
    + rewrite <- Hl, map_length. rewrite <- (map_length fst c). apply NoDup_incl_length; auto.
    + destruct (sublist_perm c ts N I Hn) as [rest Pr]. rewrite <- Hk in Pr.
      assert (Lk : length ks = m) by (rewrite Hk, map_length; auto).
      etransitivity; [exact S|]. change (fold_right plus 0 ks) with (nsum ks). rewrite <- Lk.
      apply (top_max _ D ks rest). rewrite Pr. symmetry. exact P.
  - intros [Hl Hs].
    (* choose the keys in sorted order *)
    assert (X : exists ts, Permutation ts (dkeys c) /\
                map (fun t => match dget t c with Some k => k | None => 0 end) ts = sort_desc (map snd c)).
    { assert (E : map snd c = map (fun t => match dget t c with Some k => k | None => 0 end) (dkeys c)).
      { unfold dkeys. rewrite map_map. apply map_ext_in. intros [t k] H. simpl.
        rewrite (In_dget t k); auto. }
      assert (PP : Permutation (sort_desc (map snd c)) (map (fun t => match dget t c with Some k => k | None => 0 end) (dkeys c))).
      { rewrite <- E. exact P. }
      apply Permutation_map_inv in PP. destruct PP as [ts [A B]]. exists ts. split; [symmetry|symmetry]; auto. }
    destruct X as [ts [Pt Et]].
    exists (firstn m ts), (firstn m (sort_desc (map snd c))).
    assert (Nt : NoDup ts) by (eapply Permutation_NoDup; [symmetry; exact Pt|auto]).
    split; [apply NoDup_firstn; auto|]. split.
    { rewrite firstn_length. rewrite (Permutation_length Pt). unfold dkeys. rewrite map_length in *. lia. }
    split; [|exact Hs].
    rewrite <- Et.
    assert (K : forall t, In t ts -> exists k, dget t c = Some k).
    { intros t Ht. apply dget_Some_keys. apply (Permutation_in _ Pt). auto. }
    clear - K Hc Hu. revert m. induction ts as [|t r IH]; intros [|m]; simpl; constructor.
    + destruct (K t (or_introl eq_refl)) as [k Ek]. rewrite Ek. pose proof Ek as Ek2. apply Hc in Ek2.
      destruct Ek2 as [A [B C]]. repeat split; auto. rewrite <- C. apply number_freq; auto.
    + apply IH. intros; apply K; right; auto.
Qed.

Lemma perfect_spec : forall d, unique_ids d -> typed d ->
  exists m, PerfectSquare_metric d = Ok m /\ perfect_ok d m /\ forall j, perfect_ok d j -> j <= m.
Proof.
  intros d Hu Ht. destruct (all_types_table d Hu Ht) as [c [E T]].
  exists (perfect_of_counts (map snd c)). split; [unfold PerfectSquare_metric; rewrite E; reflexivity|].
  destruct (perfect_of_counts_spec (map snd c)) as [A [B C]]. split.
  - apply (perfect_ok_table d c); auto.
  - intros j Hj. apply (perfect_ok_table d c) in Hj; auto. destruct Hj. apply C; auto.
Qed.

(** ** Heterogeneity *)
Lemma freq_pos : forall d t, unique_ids d -> (0 < freq d t <-> exists n, attr d n "type" = Some (VStr t)).
Proof.
  intros d t Hu. destruct (number_freq d t Hu) as [l [N [L H]]]. rewrite <- L. split.
  - intros Hl. destruct l as [|n r]; [simpl in Hl; lia|]. destruct (proj1 (H n) (or_introl eq_refl)) as [t' [A B]].
    subst t'. eauto.
  - intros [n Hn]. assert (In n l) by (apply H; eauto). destruct l; [contradiction|simpl; lia].
Qed.

Lemma hetero_spec : forall d, unique_ids d -> typed d ->
  exists k, GatewayHeterogenity_metric d = Ok k /\ distinct_types d is_gateway k.
Proof.
  intros d Hu Ht. unfold GatewayHeterogenity_metric. rewrite gateways_eq by auto. cbn [rbind].
  eexists. split; [reflexivity|].
  exists (filter (fun t => Nat.ltb 0 (freq d t)) GATEWAY_TYPES). split; [|split].
  - apply NoDup_filter. nodup.
  - clear. induction GATEWAY_TYPES as [|t r IH]; auto. cbn [filter map snd].
    destruct (Nat.ltb 0 (freq d t)); cbn [length]; auto.
  - intro t. rewrite filter_In, Nat.ltb_lt, freq_pos by auto.
    assert (G : In t GATEWAY_TYPES <-> is_gateway t) by (unfold is_gateway; simpl; intuition congruence).
    rewrite G. tauto.
Qed.

(** ** Ratios *)
Lemma cnc_spec : forall d, gwf (dgraph d) ->
  (gnodes (dgraph d) = [] -> CoefficientOfNetworkComplexity_metric d = Err ZeroDivisionError) /\
  (gnodes (dgraph d) <> [] -> exists q, CoefficientOfNetworkComplexity_metric d = Ok q /\
     (q * inject_Z (Z.of_nat (length (gnodes (dgraph d)))) == inject_Z (Z.of_nat (length (gedges (dgraph d)))))%Q).
Proof.
  intros d W. unfold CoefficientOfNetworkComplexity_metric. cbn [get_nodes rbind]. unfold nodes_view, get_flows.
  rewrite edges_view_length by auto. split.
  - intros ->. reflexivity.
  - intros H. destruct (gnodes (dgraph d)) as [|x t]; [congruence|]. cbn [length fdiv].
    eexists. split; [reflexivity|]. unfold Qeq. simpl. lia.
Qed.

Lemma degree_ends : forall n d, degree n (dgraph d) = flow_ends d n.
Proof.
  intros n d. unfold degree, flow_ends. induction (gedges (dgraph d)) as [|e t IH]; auto.
  cbn [fold_right flat_map app count_occ]. rewrite IH.
  destruct (string_dec (eu e) n) as [E1|E1], (string_dec (ev e) n) as [E2|E2];
    rewrite ?E1, ?E2, ?eqb_refl'; rewrite ?(eqb_neq' (eu e)), ?(eqb_neq' (ev e)) by auto; lia.
Qed.

Lemma gateway_nodes : forall d, unique_ids d -> typed d ->
  exists gs, get_all_gateways d = Ok gs /\ NoDup (map fst gs) /\
    (forall n, In n (map fst gs) <-> exists t, attr d n "type" = Some (VStr t) /\ is_gateway t).
Proof.
  intros d Hu Ht. unfold get_all_gateways. cbn [get_nodes rbind]. unfold nodes_view.
  rewrite (rfilter_eq _ _ (has_p (fun t => smem t GATEWAY_TYPES))).
  - eexists. split; [reflexivity|]. split; [apply NoDup_map_filter; exact Hu|].
    intro n. rewrite in_map_iff. split.
    + intros [[n' a] [E H]]. simpl in E. subst n'. apply filter_In in H. destruct H as [Hin Hp].
      unfold has_p, type_of in Hp. cbn [snd] in Hp.
      destruct (dget "type" a) as [[]|] eqn:Et; cbn [existsb] in Hp; try discriminate.
      rewrite orb_false_r in Hp. exists s. split.
      * unfold attr, node_of. rewrite (In_dget n a) by auto. exact Et.
      * apply smem_In in Hp. unfold is_gateway. simpl in Hp. intuition congruence.
    + intros [t [Hty Hp]]. unfold attr, node_of in Hty.
      destruct (dget n (gnodes (dgraph d))) as [a|] eqn:E; [|discriminate].
      exists (n, a). split; auto. apply filter_In. split; [apply dget_In; auto|].
      unfold has_p, type_of. cbn [snd]. change (dget "type" a = Some (VStr t)) in Hty.
      rewrite Hty. cbn [existsb]. rewrite orb_false_r. apply smem_In. unfold is_gateway in Hp. simpl.
      intuition congruence.
  - intros x Hx. destruct (typed_entry d Hu Ht x Hx) as [t E].
    unfold type_in, has_p, type_of, dgetE. change k_type with "type". rewrite E. cbn [rbind existsb veqs].
    rewrite orb_false_r. unfold smem. f_equal.
Qed.

Lemma degrees_ok : forall d l, (forall n, In n l -> In n (map fst (gnodes (dgraph d)))) ->
  rmap (degree_of d) l = Ok (map (flow_ends d) l).
Proof.
  induction l as [|n t IH]; intros H; auto. cbn [rmap map]. unfold degree_of at 1.
  unfold has_node. rewrite (proj2 (dhas_true n (gnodes (dgraph d)))) by (apply H; left; auto).
  cbn [rbind]. rewrite IH by (intros; apply H; right; auto). cbn [rbind]. rewrite degree_ends. reflexivity.
Qed.

Lemma rmap_map : forall A B C (f : B -> res C) (g : A -> B) l, rmap (fun x => f (g x)) l = rmap f (map g l).
Proof. induction l; simpl; auto. destruct (f (g a)); simpl; auto. rewrite IHl. reflexivity. Qed.

Lemma avg_spec : forall d, unique_ids d -> typed d -> exists gs, NoDup gs /\
  (forall n, In n gs <-> exists t, attr d n "type" = Some (VStr t) /\ is_gateway t) /\
  (gs = [] -> AverageGatewayDegree_metric d = Err ZeroDivisionError) /\
  (gs <> [] -> exists q, AverageGatewayDegree_metric d = Ok q /\
    (q * inject_Z (Z.of_nat (length gs)) ==
     inject_Z (Z.of_nat (fold_right (fun n acc => flow_ends d n + acc)%nat 0%nat gs)))%Q).
Proof.
  intros d Hu Ht. destruct (gateway_nodes d Hu Ht) as [gs [E [N H]]]. exists (map fst gs).
  split; auto. split; auto. unfold AverageGatewayDegree_metric. rewrite E. cbn [rbind].
  rewrite (rmap_map _ _ _ (degree_of d) fst).
  rewrite degrees_ok.
  - cbn [rbind]. rewrite map_length. split.
    + intros ->. reflexivity.
    + intros Hne. assert (S : fold_right plus 0 (map (flow_ends d) (map fst gs)) =
                    fold_right (fun n acc => flow_ends d n + acc) 0 (map fst gs)).
      { clear. induction (map fst gs); simpl; auto. }
      rewrite S. destruct (map fst gs) as [|g r] eqn:Eg; [congruence|]. cbn [length fdiv].
      eexists. split; [reflexivity|]. unfold Qeq. simpl. lia.
  - intros n Hn. apply H in Hn. destruct Hn as [t [Hn _]]. unfold attr, node_of in Hn.
    destruct (dget n (gnodes (dgraph d))) eqn:En; [|discriminate]. eapply dget_key_In; eauto.
Qed.

Lemma handshake : forall d, gwf (dgraph d) ->
  fold_right (fun n acc => flow_ends d n + acc) 0 (map fst (gnodes (dgraph d))) = 2 * length (gedges (dgraph d)).
Proof.
  intros d [N E _]. rewrite <- (degree_sum_aux (dkeys (gnodes (dgraph d)))) by auto.
  unfold dkeys. clear. induction (map fst (gnodes (dgraph d))) as [|n t IH]; auto.
  cbn [fold_right]. rewrite IH. f_equal. symmetry. apply degree_ends.
Qed.

(** ** Assembly *)
Lemma count_metrics : forall d, unique_ids d -> typed d ->
  exists start inter end_ events acts gates,
    number d (eq "startEvent") start /\
    number d (fun t => t = "intermediateCatchEvent" \/ t = "intermediateThrowEvent") inter /\
    number d (eq "endEvent") end_ /\ number d is_event events /\
    number d is_activity acts /\ number d is_gateway gates /\
    TNSE_metric d = Ok start /\ TNIE_metric d = Ok inter /\ TNEE_metric d = Ok end_ /\
    TNE_metric d = Ok events /\ all_events_count d = Ok events /\
    events = start + inter + end_ /\
    NOA_metric d = Ok acts /\ all_activities_count d = Ok acts /\
    all_gateways_count d = Ok gates /\
    all_control_flow_elements_count d = Ok (gates + events) /\
    NOAC_metric d = Ok (acts + gates + events) /\
    NumberOfNodes_metric d = Ok (acts + gates + events) /\
    NOAJS_metric d = Ok (acts + gates).
Proof.
  intros d Hu Ht.
  destruct (type_count d Hu Ht "startEvent") as [st [S1 S2]]; [discriminate|].
  destruct (type_count d Hu Ht "endEvent") as [en [E1 E2]]; [discriminate|].
  destruct (tnie_count d Hu Ht) as [it [I1 I2]].
  destruct (events_count d Hu Ht) as [ev [V1 [V2 V3]]].
  destruct (activities_count d Hu Ht) as [ac [A1 [A2 A3]]].
  destruct (gateways_count d Hu Ht) as [ga [G1 G2]].
  destruct (control_count d Hu Ht) as [g [e [C1 [C2 C3]]]].
  rewrite (number_unique _ _ _ _ C1 G2), (number_unique _ _ _ _ C2 V3) in C3. clear g e C1 C2.
  assert (Sum : ev = st + it + en).
  { apply (number_unique d is_event); auto.
    rewrite (number_unique _ _ _ _ S2 (number_freq d _ Hu)), (number_unique _ _ _ _ E2 (number_freq d _ Hu)).
    assert (I3 : it = freq d "intermediateCatchEvent" + freq d "intermediateThrowEvent").
    { unfold TNIE_metric in I1. rewrite !count_query in I1 by (auto; discriminate). simpl in I1. congruence. }
    rewrite I3. pose proof (number_events d Hu) as NE. unfold EVENT_TYPES in NE. cbn [map sum_counts fold_right snd] in NE.
    eapply eq_ind; [exact NE|]. lia. }
  exists st, it, en, ev, ac, ga. do 16 (split; [assumption|]).
  split; [|split].
  - unfold NOAC_metric. rewrite A1, C3. simpl. f_equal. lia.
  - unfold NumberOfNodes_metric. rewrite A1, C3. simpl. f_equal. lia.
  - unfold NOAJS_metric. rewrite A1, G1. reflexivity.
Qed.

Lemma count_untyped : forall d t n, unique_ids d -> t <> "" -> is_node d n ->
  attr d n "type" = None -> get_nodes_count (Some t) d = Err (KeyError "type").
Proof.
  intros d t n Hu Ht Hn Ha. unfold get_nodes_count, get_nodes.
  pose proof (attr_filter_err d k_type (Some t) n Hu Hn Ha) as H.
  destruct t; [congruence|]. rewrite H. reflexivity.
Qed.

Lemma count_none : forall d, unique_ids d -> typed d -> get_nodes_count None d = Ok 0.
Proof.
  intros d Hu Ht. unfold get_nodes_count, get_nodes.
  rewrite (rfilter_eq _ _ (fun _ => false)).
  - simpl. f_equal. induction (nodes_view (dgraph d)); auto.
  - intros x Hx. destruct (typed_entry d Hu Ht x Hx) as [t E].
    unfold attr_is, dgetE. change k_type with "type". rewrite E. reflexivity.
Qed.

Lemma durfee_others : forall d m, unique_ids d -> typed d -> DurfeeSquare_metric d = Ok m ->
  forall ts, NoDup ts -> (forall t, In t ts -> t <> "" /\ exists k, number d (eq t) k /\ m < k) ->
  length ts <= m.
Proof.
  intros d m Hu Ht E ts N H. destruct (durfee_spec d Hu Ht) as [m' [E' [_ B]]].
  assert (m' = m) by congruence. subst m'. destruct (le_lt_dec (length ts) m) as [|Hl]; auto.
  exfalso. assert (O : durfee_ok d (S m)).
  { exists (firstn (S m) ts). split; [apply NoDup_firstn; auto|]. split; [rewrite firstn_length; lia|].
    intros t Hin. apply In_firstn in Hin. destruct (H t Hin) as [A [k [B1 B2]]]. eauto. }
  apply B in O. lia.
Qed.
