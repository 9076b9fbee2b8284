(** Segments of flows and the number of crossings. *)
From Coq Require Import String List Bool Arith QArith Lia Permutation.
From Verif Require Import Py PyFacts Consts Nx NxFacts Rep SpecRep LayoutMetrics SpecLayoutMetrics GeomFacts.
Import ListNotations.
Open Scope string_scope.
Open Scope list_scope.
Open Scope nat_scope.

Section Float.
Variable pf : string -> option Q.

Lemma to_point_ok : forall c p, pf (fst c) = Some (px p) -> pf (snd c) = Some (py p) -> to_point pf c = Ok p.
Proof. intros c [x y] H1 H2. unfold to_point, floatE. rewrite H1, H2. reflexivity. Qed.

Lemma segments_from_ok : forall w c ps p,
  Forall2 (fun c p => pf (fst c) = Some (px p) /\ pf (snd c) = Some (py p)) w ps ->
  pf (fst c) = Some (px p) -> pf (snd c) = Some (py p) ->
  segments_from pf c w = Ok (polyline (p :: ps)).
Proof.
  induction w as [|c' w IH]; intros c ps p F H1 H2; inversion F; subst; [reflexivity|].
  destruct H3 as [H3 H3']. cbn [segments_from].
  rewrite (to_point_ok c p), (to_point_ok c' y) by auto. cbn [rbind].
  rewrite (IH c' l' y) by auto. reflexivity.
Qed.

Lemma flow_segments_ok : forall f ps, drawn pf f ps -> ps <> [] -> flow_segments pf f = Ok (polyline ps).
Proof.
  intros f ps [w [E F]] N. unfold flow_segments, dgetE. change k_waypoints with "waypoints". rewrite E. cbn [rbind].
  inversion F; subst; [congruence|]. destruct H as [H1 H2]. apply segments_from_ok; auto.
Qed.

Lemma flows_segments_ok : forall fs pss, Forall2 (drawn pf) fs pss -> (forall ps, In ps pss -> ps <> []) ->
  get_flows_segments pf fs = Ok (concat (map polyline pss)).
Proof.
  intros fs pss F N. unfold get_flows_segments.
  assert (G : forall acc, rfold (fun acc f => let* s := flow_segments pf f in Ok (acc ++ s)) fs acc
              = Ok (acc ++ concat (map polyline pss))).
  { induction F as [|f ps fs pss H F IH]; intros acc; [rewrite app_nil_r; reflexivity|].
    cbn [rfold map concat]. rewrite (flow_segments_ok f ps) by (auto; apply N; left; auto). cbn [rbind].
    rewrite IH by (intros; apply N; right; auto). rewrite app_assoc. reflexivity. }
  apply (G []).
Qed.

Lemma flows_segments_empty : forall pre f post pss, Forall2 (drawn pf) pre pss ->
  (forall ps, In ps pss -> ps <> []) -> dget "waypoints" (snd f) = Some (VPoints []) ->
  get_flows_segments pf (pre ++ f :: post) = Err IndexError.
Proof.
  intros pre f post pss F N E. unfold get_flows_segments. generalize (@nil segment) as acc.
  induction F as [|g ps fs pss H F IH]; intros acc; cbn [rfold app].
  - unfold flow_segments, dgetE. change k_waypoints with "waypoints". rewrite E. reflexivity.
  - rewrite (flow_segments_ok g ps) by (auto; apply N; left; auto). cbn [rbind].
    apply IH. intros; apply N; right; auto.
Qed.
End Float.

Lemma polyline_length : forall ps, length (polyline ps) = length ps - 1.
Proof.
  induction ps as [|p [|q r] IH]; auto. cbn [polyline length] in *. rewrite IH. lia.
Qed.

Lemma concat_length_sum : forall A (l : list (list A)), length (concat l) = fold_right (fun x acc => length x + acc) 0 l.
Proof. induction l; simpl; auto. rewrite app_length, IHl. reflexivity. Qed.

Lemma segments_sum : forall pss, length (concat (map polyline pss)) =
  fold_right (fun ps acc => (length ps - 1) + acc) 0 pss.
Proof.
  induction pss as [|ps r IH]; auto. cbn [map concat fold_right]. rewrite app_length, IH, polyline_length. reflexivity.
Qed.

(** Raising is independent of the order as well. *)
Lemma rfold_app_perm : forall A B (f : A -> res (list B)) l1 l2, Permutation l1 l2 ->
  forall r1, rfold (fun acc x => let* s := f x in Ok (acc ++ s)) l1 [] = Ok r1 ->
  exists r2, rfold (fun acc x => let* s := f x in Ok (acc ++ s)) l2 [] = Ok r2 /\ Permutation r1 r2.
Proof.
  intros A B f l1 l2 P.
  assert (G : forall l acc r, rfold (fun acc x => let* s := f x in Ok (acc ++ s)) l acc = Ok r <->
              exists ss, rmap f l = Ok ss /\ r = acc ++ concat ss).
  { induction l as [|a t IH]; intros acc r; simpl.
    - split; [intro H; inv H; exists []; rewrite app_nil_r; auto|].
      intros [ss [H ->]]. inv H. rewrite app_nil_r. auto.
    - destruct (f a) as [s|e]; simpl; [|split; [discriminate|intros [ss [H _]]; discriminate]].
      rewrite IH. split.
      + intros [ss [H ->]]. exists (s :: ss). rewrite H. simpl. rewrite app_assoc. auto.
      + intros [ss [H ->]]. destruct (rmap f t) as [ss'|e]; simpl in H; [|discriminate]. inv H.
        exists ss'. split; auto. simpl. rewrite app_assoc. reflexivity. }
  assert (Q : forall ss1, rmap f l1 = Ok ss1 -> exists ss2, rmap f l2 = Ok ss2 /\ Permutation ss1 ss2).
  { clear G. induction P; intros ss1 H.
    - inv H. exists []. auto.
    - simpl in H. simpl. destruct (f x) as [s|e]; simpl in *; [|discriminate].
      destruct (rmap f l) as [ss|e] eqn:E; simpl in *; [|discriminate]. inv H.
      destruct (IHP ss eq_refl) as [ss2 [E2 P2]]. rewrite E2. simpl. eauto.
    - simpl in *. destruct (f y) as [a|e]; simpl in *; [|discriminate].
      destruct (f x) as [b|e]; simpl in *; [|discriminate].
      destruct (rmap f l) as [ss|e]; simpl in *; [|discriminate]. inv H.
      eexists. split; [reflexivity|]. constructor.
    - destruct (IHP1 _ H) as [s2 [E2 Q2]]. destruct (IHP2 _ E2) as [s3 [E3 Q3]].
      exists s3. split; auto. etransitivity; eauto. }
  intros r1 H. apply G in H. destruct H as [ss1 [H ->]]. destruct (Q ss1 H) as [ss2 [E2 P2]].
  exists (concat ss2). split.
  - apply G. exists ss2. auto.
  - simpl. clear - P2. induction P2; simpl; auto.
    + apply Permutation_app_head. auto.
    + rewrite !app_assoc. apply Permutation_app_tail. apply Permutation_app_comm.
    + etransitivity; eauto.
Qed.

(** ** Counting pairs *)
Fixpoint pc (l : list segment) : nat :=
  match l with
  | [] => 0
  | s :: r => length (filter (crossb s) r) + pc r
  end.

Lemma filter_perm_len : forall A (f : A -> bool) l1 l2, Permutation l1 l2 -> length (filter f l1) = length (filter f l2).
Proof. induction 1; simpl; auto; try (destruct (f x); simpl; auto); try (destruct (f y); simpl; auto); lia. Qed.

Lemma loop_pc : forall l, crossing_loop l = pc l.
Proof.
  induction l as [|s r IH]; auto. simpl. rewrite IH. unfold crossings_with. f_equal.
  apply filter_perm_len. symmetry. apply Permutation_rev.
Qed.

Lemma pc_perm : forall l1 l2, Permutation l1 l2 -> pc l1 = pc l2.
Proof.
  induction 1; simpl; auto.
  - rewrite (filter_perm_len _ _ _ _ H). lia.
  - rewrite (crossb_sym y x). destruct (crossb x y); simpl; lia.
  - lia.
Qed.

Lemma crossing_count : forall segs, crossings segs (crossing_loop (rev segs)).
Proof.
  intro segs. rewrite loop_pc, (pc_perm (rev segs) segs) by (symmetry; apply Permutation_rev).
  induction segs as [|s r IH].
  - exists []. simpl. split; [constructor|]. split; auto. intros i j. split; [contradiction|].
    intros [_ [s1 [s2 [H _]]]]. destruct i; discriminate.
  - destruct IH as [l [N [L H]]].
    set (hits := filter (fun j => match nth_error r j with Some x => crossb s x | None => false end) (seq 0 (length r))).
    exists (map (fun j => (0, S j)) hits ++ map (fun p => (S (fst p), S (snd p))) l).
    assert (Lh : length hits = length (filter (crossb s) r)).
    { unfold hits. clear. 
      assert (G : forall r off pre, length pre = off ->
         length (filter (fun j => match nth_error (pre ++ r) j with Some x => crossb s x | None => false end) (seq off (length r)))
         = length (filter (crossb s) r)).
      { clear. intro r. induction r as [|x r IH]; intros off pre E; auto. cbn [length seq filter].
        rewrite nth_error_app2 by lia. rewrite E, Nat.sub_diag. cbn [nth_error].
        specialize (IH (S off) (pre ++ [x])). rewrite <- app_assoc in IH. simpl app in IH.
        rewrite app_length in IH. simpl in IH.
        destruct (crossb s x); cbn [length]; rewrite IH by lia; reflexivity. }
      apply (G r 0 []). reflexivity. }
    split; [|split].
    + assert (NH : NoDup (map (fun j => (0, S j)) hits)).
      { apply FinFun.Injective_map_NoDup; [intros a b E; congruence|]. apply NoDup_filter. apply seq_NoDup. }
      assert (NL : NoDup (map (fun p : nat * nat => (S (fst p), S (snd p))) l)).
      { apply FinFun.Injective_map_NoDup; auto. intros [a b] [c e] E. simpl in E. congruence. }
      clear - NH NL. induction hits as [|h t IH]; simpl; auto. inv NH. constructor; auto.
      intro C. apply in_app_or in C. destruct C as [C|C]; [contradiction|].
      apply in_map_iff in C. destruct C as [p [E _]]. discriminate.
    + rewrite app_length, !map_length. simpl. lia.
    + intros i j. rewrite in_app_iff, !in_map_iff. split.
      * intros [[k [E Hk]]|[[a b] [E Hin]]].
        -- inv E. unfold hits in Hk. apply filter_In in Hk. destruct Hk as [Hs Hk].
           destruct (nth_error r k) as [x|] eqn:En; [|discriminate].
           split; [lia|]. exists s, x. split; [reflexivity|]. split; [exact En|]. apply crossb_iff; auto.
        -- simpl in E. inv E. apply H in Hin. destruct Hin as [Hlt [s1 [s2 [A [B C]]]]].
           split; [lia|]. exists s1, s2. auto.
      * intros [Hlt [s1 [s2 [A [B C]]]]]. destruct j as [|j]; [lia|]. destruct i as [|i].
        -- simpl in A. inv A. left. exists j. split; auto. simpl in B. unfold hits. apply filter_In.
           split; [apply in_seq; split; [lia|]; simpl; apply nth_error_Some; congruence|].
           rewrite B. apply crossb_iff; auto.
        -- right. exists (i, j). split; auto. apply H. split; [lia|]. exists s1, s2. auto.
Qed.

Lemma crossings_unique : forall segs k1 k2, crossings segs k1 -> crossings segs k2 -> k1 = k2.
Proof.
  intros segs k1 k2 [l1 [N1 [L1 H1]]] [l2 [N2 [L2 H2]]]. subst.
  apply Permutation_length. apply NoDup_Permutation; auto.
  intros [i j]. rewrite H1, H2. tauto.
Qed.

Lemma count_crossings_perm : forall pf d1 d2 k, Permutation (get_flows d1) (get_flows d2) ->
  count_crossing_points pf d1 = Ok k -> count_crossing_points pf d2 = Ok k.
Proof.
  intros pf d1 d2 k P H. unfold count_crossing_points in *.
  destruct (get_flows_segments pf (get_flows d1)) as [s1|e] eqn:E1; simpl in H; [|discriminate].
  destruct (rfold_app_perm _ _ _ _ _ P _ E1) as [s2 [E2 P2]].
  unfold get_flows_segments. rewrite E2. simpl. inv H. f_equal.
  rewrite !loop_pc. apply pc_perm. rewrite <- !Permutation_rev. symmetry. exact P2.
Qed.
