(** Longest paths: termination and optimality. *)
From Coq Require Import String List Bool Arith QArith Lia Permutation.
From Verif Require Import Py PyFacts Consts Nx NxFacts Rep SpecRep RepFacts LayoutMetrics SpecLayoutMetrics MetricsFacts.
Import ListNotations.
Open Scope string_scope.
Open Scope list_scope.
Open Scope nat_scope.

Local Notation node_t := (string * attrs)%type.
Definition ids (l : list node_t) : list string := map fst l.

(** ** A fold that keeps the best candidate *)
Section Best.
Context {A : Type} (m : A -> nat) (cand : string -> res (option A)).
Definition best_step (acc : A) (f : string) : res A :=
  let* c := cand f in
  Ok (match c with Some c => if Nat.ltb (m acc) (m c) then c else acc | None => acc end).

Lemma best_spec : forall out acc p, rfold best_step out acc = Ok p ->
  m acc <= m p /\
  (p = acc \/ exists f, In f out /\ cand f = Ok (Some p)) /\
  (forall f, In f out -> exists c, cand f = Ok c /\ forall q, c = Some q -> m q <= m p).
Proof.
  induction out as [|f t IH]; intros acc p H.
  - inv H. split; auto. split; auto. intros f [].
  - cbn [rfold] in H. unfold best_step at 1 in H. destruct (cand f) as [c|e] eqn:E; cbn [rbind] in H; [|discriminate].
    apply IH in H. destruct H as [H1 [H2 H3]].
    set (acc' := match c with Some c => if Nat.ltb (m acc) (m c) then c else acc | None => acc end) in *.
    assert (L : m acc <= m acc' /\ (forall q, c = Some q -> m q <= m acc')).
    { unfold acc'. destruct c as [c|]; [|split; [auto|discriminate]].
      destruct (Nat.ltb_spec (m acc) (m c)); split; try lia; intros q Eq; inv Eq; lia. }
    destruct L as [L1 L2]. split; [lia|]. split.
    + destruct H2 as [->|[g [Hg Hc]]]; [|right; exists g; split; [right; auto|auto]].
      unfold acc'. destruct c as [c|]; auto. destruct (Nat.ltb (m acc) (m c)); auto.
      right. exists f. split; [left; auto|auto].
    + intros g [->|Hg]; [|auto]. exists c. split; auto. intros q Eq. specialize (L2 q Eq). lia.
Qed.

Lemma best_total : forall out acc, (forall f, In f out -> exists c, cand f = Ok c) ->
  exists p, rfold best_step out acc = Ok p.
Proof.
  induction out as [|f t IH]; intros acc H; [eauto using eq_refl|].
  destruct (H f (or_introl eq_refl)) as [c E]. cbn [rfold]. unfold best_step at 1. rewrite E. cbn [rbind].
  apply IH. intros; apply H; right; auto.
Qed.
End Best.

Lemma rfold_ext : forall A S (f g : S -> A -> res S) l s, (forall s a, f s a = g s a) -> rfold f l s = rfold g l s.
Proof. induction l as [|a t IH]; intros s H; auto. simpl. rewrite H. destruct (g s a); simpl; auto. Qed.

(** The candidates of the two searches. *)
Definition cand_path (fuel : nat) (d : diagram) (prev : list node_t) (x : node_t) (f : string)
  : res (option (list node_t)) :=
  let* y := flow_target_node d f in
  if node_in y prev then Ok None
  else let* p := find_longest_path fuel d (prev ++ [x]) y in Ok (Some p).

Lemma find_unfold : forall fuel d prev x,
  find_longest_path (S fuel) d prev x =
  let* v := dgetE k_outgoing (snd x) in
  let* out := vlistE v in
  match out with
  | [] => Ok (prev ++ [x])
  | _ :: _ => rfold (best_step (@length node_t) (cand_path fuel d prev x)) out []
  end.
Proof.
  intros. cbn [find_longest_path]. destruct (dgetE k_outgoing (snd x)) as [v|]; cbn [rbind]; auto.
  destruct (vlistE v) as [[|f out]|]; cbn [rbind]; auto. apply rfold_ext. intros s a.
  unfold best_step, cand_path. destruct (flow_target_node d a) as [y|]; cbn [rbind]; auto.
  destruct (node_in y prev); cbn [rbind]; auto.
  unfold longer. destruct (find_longest_path fuel d (prev ++ [x]) y); cbn [rbind]; auto.
Qed.

Definition cand_tasks (fuel : nat) (d : diagram) (path quals : list node_t) (x : node_t) (f : string)
  : res (option (list node_t * list node_t)) :=
  let* y := flow_target_node d f in
  let* q := qualify quals x in
  let* c := (if node_in y path then Ok (path ++ [x], q)
             else find_longest_path_tasks fuel d (path ++ [x]) q y) in
  Ok (Some c).

Definition m2 (p : list node_t * list node_t) : nat := length (snd p).

Lemma find_tasks_unfold : forall fuel d path quals x,
  find_longest_path_tasks (S fuel) d path quals x =
  let* v := dgetE k_outgoing (snd x) in
  let* out := vlistE v in
  match out with
  | [] => let* q := qualify quals x in Ok (path ++ [x], q)
  | _ :: _ => rfold (best_step m2 (cand_tasks fuel d path quals x)) out (path ++ [x], [])
  end.
Proof.
  intros. cbn [find_longest_path_tasks]. destruct (dgetE k_outgoing (snd x)) as [v|]; cbn [rbind]; auto.
  destruct (vlistE v) as [[|f out]|]; cbn [rbind]; auto. apply rfold_ext. intros s a.
  unfold best_step, cand_tasks. destruct (flow_target_node d a) as [y|]; cbn [rbind]; auto.
  destruct (qualify quals x) as [q|]; cbn [rbind]; auto.
  destruct (if node_in y path then _ else _) as [c|]; cbn [rbind]; auto.
Qed.

Section D.
Variable d : diagram.
Hypothesis C : consistent d.

Definition real (x : node_t) : Prop := node_of d (fst x) = Some (snd x).

Lemma real_is_node : forall x, real x -> is_node d (fst x).
Proof. intros x H. unfold real, node_of in H. apply dget_key_In in H. exact H. Qed.

Lemma attr_real : forall x k, real x -> attr d (fst x) k = dget k (snd x).
Proof. intros x k H. unfold attr. unfold real in H. rewrite H. reflexivity. Qed.

Lemma out_real : forall x, real x ->
  dgetE k_outgoing (snd x) = Ok (VList (outgoing_of d (fst x))).
Proof.
  intros x H. destruct C as [_ [C2 _]]. destruct (C2 _ (real_is_node x H)) as [_ [[l E] _]].
  unfold outgoing_of. rewrite E. rewrite attr_real in E by auto. unfold dgetE. change k_outgoing with "outgoing".
  rewrite E. reflexivity.
Qed.

Lemma target_ok : forall f m, leads_to d f m -> is_node d m ->
  exists y, flow_target_node d f = Ok y /\ fst y = m /\ real y.
Proof.
  intros f m [t [E H]] Hm. unfold flow_target_node. rewrite E. cbn [rbind].
  unfold dgetE. change k_target_ref with "targetRef". rewrite H. cbn [rbind].
  rewrite get_node_by_id_spec. apply dget_Some_keys in Hm. destruct Hm as [a Ha].
  unfold node_of. rewrite Ha. exists (m, a). split; auto.
Qed.

Lemma target_of : forall n f, In f (outgoing_of d n) ->
  exists y, flow_target_node d f = Ok y /\ leads_to d f (fst y) /\ next d n (fst y) /\ real y.
Proof.
  intros n f H. destruct C as [_ [_ C3]]. destruct (C3 n f H) as [m [L M]].
  destruct (target_ok f m L M) as [y [E [Ey R]]]. exists y. subst m. split; auto. split; auto. split; auto.
  exists f. auto.
Qed.

Lemma leads_fun : forall f m m', leads_to d f m -> leads_to d f m' -> m = m'.
Proof. intros f m m' [t [E H]] [t' [E' H']]. congruence. Qed.

Lemma node_in_true : forall y l, node_in y l = true <-> In (fst y) (ids l).
Proof.
  intros y l. unfold node_in, ids. rewrite existsb_exists, in_map_iff. split.
  - intros [z [Hz E]]. apply String.eqb_eq in E. exists z. auto.
  - intros [z [E Hz]]. exists z. split; auto. rewrite E. apply eqb_refl'.
Qed.
Lemma node_in_false : forall y l, node_in y l = false <-> ~ In (fst y) (ids l).
Proof. intros. rewrite <- node_in_true. destruct (node_in y l); intuition congruence. Qed.

(** ** Termination *)
Definition unvisited (l : list node_t) : nat :=
  length (filter (fun n => negb (smem n (ids l))) (map fst (gnodes (dgraph d)))).
Definition measure (prev : list node_t) (x : node_t) : nat :=
  if node_in x prev then S (2 * unvisited prev) else 2 * unvisited prev.

Lemma unvisited_new : forall prev x, real x -> ~ In (fst x) (ids prev) ->
  S (unvisited (prev ++ [x])) = unvisited prev.
Proof.
  intros prev x R N. apply real_is_node in R. unfold is_node in R. destruct C as [U _]. unfold unique_ids in U.
  unfold unvisited. induction (map fst (gnodes (dgraph d))) as [|n t IH]; [contradiction|]. inv U.
  cbn [filter]. unfold ids in *. rewrite map_app. cbn [map].
  assert (S1 : forall n, smem n (map fst prev ++ [fst x]) = smem n (map fst prev) || String.eqb n (fst x)).
  { intro k. unfold smem. rewrite existsb_app. simpl. rewrite orb_false_r. reflexivity. }
  rewrite S1. destruct R as [->|R].
  - rewrite eqb_refl', orb_true_r. rewrite (proj2 (smem_notIn _ _) N). simpl.
    f_equal. f_equal. apply filter_ext_in. intros k Hk. rewrite S1.
    rewrite (eqb_neq' k (fst x)) by (intro; subst; contradiction). rewrite orb_false_r. reflexivity.
  - specialize (IH R H2). rewrite map_app in IH. cbn [map] in IH.
    assert (n <> fst x) by (intro; subst; contradiction).
    rewrite (eqb_neq' n (fst x)) by auto. rewrite orb_false_r.
    destruct (smem n (map fst prev)); simpl; lia.
Qed.

Lemma unvisited_old : forall prev x, In (fst x) (ids prev) -> unvisited (prev ++ [x]) = unvisited prev.
Proof.
  intros prev x H. unfold unvisited. f_equal. apply filter_ext. intro n. unfold ids. rewrite map_app.
  f_equal. unfold smem. rewrite existsb_app. simpl. rewrite orb_false_r.
  destruct (String.eqb_spec n (fst x)) as [->|]; [|apply orb_false_r].
  rewrite orb_true_r. symmetry. apply smem_In. exact H.
Qed.

Lemma measure_step : forall prev x y, real x -> ~ In (fst y) (ids prev) ->
  measure (prev ++ [x]) y < measure prev x.
Proof.
  intros prev x y R N. unfold measure.
  destruct (node_in x prev) eqn:E.
  - apply node_in_true in E. rewrite (unvisited_old prev x E).
    assert (F : node_in y (prev ++ [x]) = false).
    { apply node_in_false. unfold ids. rewrite map_app. intro H. apply in_app_or in H.
      destruct H as [H|[H|[]]]; [contradiction|]. simpl in H. rewrite <- H in N. contradiction. }
    rewrite F. lia.
  - apply node_in_false in E. pose proof (unvisited_new prev x R E). destruct (node_in y (prev ++ [x])); lia.
Qed.

Lemma find_total : forall fuel prev x, real x -> measure prev x < fuel ->
  exists p, find_longest_path fuel d prev x = Ok p.
Proof.
  induction fuel as [|fuel IH]; intros prev x R L; [lia|].
  rewrite find_unfold, out_real by auto. cbn [rbind vlistE].
  destruct (outgoing_of d (fst x)) as [|f0 out0] eqn:Eo; [eauto|]. rewrite <- Eo.
  apply best_total. intros f Hf. destruct (target_of _ f Hf) as [y [E [_ [_ Ry]]]].
  unfold cand_path. rewrite E. cbn [rbind]. destruct (node_in y prev) eqn:En; [eauto|].
  apply node_in_false in En.
  destruct (IH (prev ++ [x]) y Ry) as [p Hp].
  - pose proof (measure_step prev x y R En). lia.
  - rewrite Hp. cbn [rbind]. eauto.
Qed.

(** Visited nodes never repeat except directly after themselves; in the tasks
    search the same measure works. *)
Lemma qualify_total : forall q x, real x -> exists q', qualify q x = Ok q' /\
  q' = (if activity d (fst x) then q ++ [x] else q).
Proof.
  intros q x R. destruct C as [_ [C2 _]]. destruct (C2 _ (real_is_node x R)) as [_ [_ [t E]]].
  unfold qualify, qualified, dgetE, activity. rewrite E. rewrite attr_real in E by auto.
  change k_type with "type". rewrite E. cbn [rbind veqs]. eauto.
Qed.

Lemma find_tasks_total : forall fuel path quals x, real x -> measure path x < fuel ->
  exists p, find_longest_path_tasks fuel d path quals x = Ok p.
Proof.
  induction fuel as [|fuel IH]; intros path quals x R L; [lia|].
  rewrite find_tasks_unfold, out_real by auto. cbn [rbind vlistE].
  destruct (qualify_total quals x R) as [q [Eq _]].
  destruct (outgoing_of d (fst x)) as [|f0 out0] eqn:Eo; [rewrite Eq; cbn [rbind]; eauto|]. rewrite <- Eo.
  apply best_total. intros f Hf. destruct (target_of _ f Hf) as [y [E [_ [_ Ry]]]].
  unfold cand_tasks. rewrite E. cbn [rbind]. rewrite Eq. cbn [rbind].
  destruct (node_in y path) eqn:En; [cbn [rbind]; eauto|]. apply node_in_false in En.
  destruct (IH (path ++ [x]) q y Ry) as [p Hp].
  - pose proof (measure_step path x y R En). lia.
  - rewrite Hp. cbn [rbind]. eauto.
Qed.

(** ** Optimality *)
Hypothesis NL : no_self_loops d.

Definition sink_end (n : string) (l : list string) : Prop := outgoing_of d (last l n) = [].

Lemma ids_app : forall a b, ids (a ++ b) = ids a ++ ids b.
Proof. intros. apply map_app. Qed.

Lemma nodup_extend : forall prev x y, NoDup (ids (prev ++ [x])) -> ~ In (fst y) (ids prev) ->
  next d (fst x) (fst y) -> NoDup (ids ((prev ++ [x]) ++ [y])).
Proof.
  intros prev x y N Ny Hn. rewrite ids_app. simpl. apply NoDup_snoc; auto.
  rewrite ids_app. intro H. apply in_app_or in H. destruct H as [H|[H|[]]]; [contradiction|].
  apply (NL (fst x)). rewrite H at 2. exact Hn.
Qed.

Lemma last_cons : forall A (r : list A) m n, last (m :: r) n = last r m.
Proof. induction r as [|a t IH]; intros; auto. change (last (a :: t) n = last (a :: t) m). rewrite !IH. reflexivity. Qed.

Lemma sink_end_cons : forall n m r, sink_end n (m :: r) <-> sink_end m r.
Proof. intros. unfold sink_end. rewrite last_cons. tauto. Qed.

Lemma nodup_disj : forall A (a b : list A) x, NoDup (a ++ b) -> In x a -> ~ In x b.
Proof.
  induction a as [|h t IH]; intros b x N H; [contradiction|]. inv N. destruct H as [->|H].
  - intro Hb. apply H2. apply in_or_app. auto.
  - apply IH; auto.
Qed.

Lemma find_correct : forall fuel prev x p, find_longest_path fuel d prev x = Ok p -> real x ->
  NoDup (ids (prev ++ [x])) ->
  (p = [] \/ exists rest, p = prev ++ x :: rest /\ Forall real rest /\ walk d (fst x) (ids rest) /\
                          NoDup (ids p) /\ sink_end (fst x) (ids rest)) /\
  (forall rest, walk d (fst x) rest -> NoDup (ids prev ++ fst x :: rest) -> sink_end (fst x) rest ->
     length prev + S (length rest) <= length p).
Proof.
  induction fuel as [|fuel IH]; intros prev x p H R N; [discriminate|].
  rewrite find_unfold, out_real in H by auto. cbn [rbind vlistE] in H.
  destruct (outgoing_of d (fst x)) as [|f0 out0] eqn:Eo.
  - inv H. split.
    + right. exists []. split; auto. split; [constructor|]. split; [exact I|]. split; [exact N|exact Eo].
    + intros rest W _ _. destruct rest as [|m r]; [rewrite app_length; simpl; lia|].
      destruct W as [[f [Hf _]] _]. rewrite Eo in Hf. contradiction.
  - rewrite <- Eo in H. apply best_spec in H. destruct H as [_ [H2 H3]]. split.
    + destruct H2 as [->|[f [Hf Hc]]]; [left; reflexivity|].
      destruct (target_of _ f Hf) as [y [E [_ [Hn Ry]]]]. unfold cand_path in Hc. rewrite E in Hc. cbn [rbind] in Hc.
      destruct (node_in y prev) eqn:En; [discriminate|]. apply node_in_false in En.
      destruct (find_longest_path fuel d (prev ++ [x]) y) as [q|] eqn:Eq; cbn [rbind] in Hc; [|discriminate].
      inv Hc. destruct (IH _ _ _ Eq Ry (nodup_extend prev x y N En Hn)) as [[->|[rest [-> [F [W [N2 S]]]]]] _]; auto.
      right. exists (y :: rest). rewrite <- app_assoc in *. split; auto. split; [constructor; auto|].
      split; [split; auto|]. split; [exact N2|]. cbn [ids map]. apply sink_end_cons. exact S.
    + intros rest W Nd Sk. destruct rest as [|m r].
      { unfold sink_end in Sk. simpl in Sk. congruence. }
      destruct W as [[f [Hf Lf]] W]. destruct (H3 f Hf) as [c [Hc Hq]].
      destruct (target_of _ f Hf) as [y [E [Ly [Hn Ry]]]].
      assert (fst y = m) by (eapply leads_fun; eauto). subst m.
      unfold cand_path in Hc. rewrite E in Hc. cbn [rbind] in Hc.
      assert (En : ~ In (fst y) (ids prev)).
      { intro Hin. eapply nodup_disj; eauto. right. left. reflexivity. }
      rewrite (proj2 (node_in_false _ _) En) in Hc.
      destruct (find_longest_path fuel d (prev ++ [x]) y) as [q|] eqn:Eq; cbn [rbind] in Hc; [|discriminate].
      inv Hc. specialize (Hq q eq_refl).
      destruct (IH _ _ _ Eq Ry (nodup_extend prev x y N En Hn)) as [_ B].
      specialize (B r W). rewrite app_length in B. simpl in B |- *.
      cut (length prev + 1 + S (length r) <= length q); [lia|]. apply B.
      * rewrite ids_app, <- app_assoc. exact Nd.
      * apply sink_end_cons in Sk. exact Sk.
Qed.

Definition acts (l : list string) : list string := filter (activity d) l.
Definition actn (l : list node_t) : list node_t := filter (fun x => activity d (fst x)) l.

Lemma actn_ids : forall l, ids (actn l) = acts (ids l).
Proof.
  induction l as [|x t IH]; auto. simpl. destruct (activity d (fst x)); simpl; rewrite IH; auto.
Qed.
Lemma actn_len : forall l, length (actn l) = length (acts (ids l)).
Proof. intros. rewrite <- actn_ids. unfold ids. rewrite map_length. reflexivity. Qed.
Lemma acts_app : forall a b, acts (a ++ b) = acts a ++ acts b.
Proof. intros. apply filter_app. Qed.
Lemma actn_app : forall a b, actn (a ++ b) = actn a ++ actn b.
Proof. intros. apply filter_app. Qed.

Lemma find_tasks_correct : forall fuel path x p, find_longest_path_tasks fuel d path (actn path) x = Ok p ->
  real x -> NoDup (ids (path ++ [x])) ->
  (exists rest, fst p = path ++ x :: rest /\ Forall real rest /\ walk d (fst x) (ids rest) /\
                NoDup (ids (fst p)) /\ snd p = actn (fst p)) /\
  (forall rest, walk d (fst x) rest -> NoDup (ids path ++ fst x :: rest) ->
     length (acts (ids path ++ fst x :: rest)) <= length (snd p)).
Proof.
  induction fuel as [|fuel IH]; intros path x p H R N; [discriminate|].
  rewrite find_tasks_unfold, out_real in H by auto. cbn [rbind vlistE] in H.
  destruct (qualify_total (actn path) x R) as [q [Eq Hq]].
  assert (Q : q = actn (path ++ [x])).
  { rewrite Hq, actn_app. unfold actn at 3. simpl. destruct (activity d (fst x)); [reflexivity|].
    symmetry. apply app_nil_r. }
  destruct (outgoing_of d (fst x)) as [|f0 out0] eqn:Eo.
  - rewrite Eq in H. cbn [rbind] in H. inv H. cbn [fst snd]. split.
    + exists []. repeat split; auto.
    + intros rest W _. destruct rest as [|m r].
      * rewrite Q, actn_len, ids_app. auto.
      * destruct W as [[f [Hf _]] _]. rewrite Eo in Hf. contradiction.
  - assert (Hf0 : In f0 (outgoing_of d (fst x))) by (rewrite Eo; left; reflexivity).
    rewrite <- Eo in H. apply best_spec in H. destruct H as [_ [H2 H3]].
    assert (K : forall f, In f (outgoing_of d (fst x)) -> exists y c,
              flow_target_node d f = Ok y /\ leads_to d f (fst y) /\ next d (fst x) (fst y) /\ real y /\
              cand_tasks fuel d path (actn path) x f = Ok (Some c) /\
              length (snd c) <= length (snd p) /\ length (actn (path ++ [x])) <= length (snd c) /\
              (if node_in y path then c = (path ++ [x], q)
               else find_longest_path_tasks fuel d (path ++ [x]) (actn (path ++ [x])) y = Ok c)).
    { intros f Hf. destruct (H3 f Hf) as [c [Hc Hm]].
      destruct (target_of _ f Hf) as [y [E [Ly [Hn Ry]]]].
      pose proof Hc as Hc2.
      unfold cand_tasks in Hc. rewrite E in Hc. cbn [rbind] in Hc. rewrite Eq in Hc. cbn [rbind] in Hc.
      destruct (node_in y path) eqn:En.
      - cbn [rbind] in Hc. injection Hc as <-. exists y, (path ++ [x], actn (path ++ [x])).
        specialize (Hm _ eq_refl). rewrite En. rewrite Q in Hm. rewrite Q in Hc2. unfold m2 in Hm. simpl in Hm.
        repeat (split; [solve [auto]|]). rewrite Q. reflexivity.
      - rewrite Q in Hc. destruct (find_longest_path_tasks fuel d (path ++ [x]) (actn (path ++ [x])) y) as [c'|] eqn:Ec;
          cbn [rbind] in Hc; [|discriminate]. inv Hc. exists y, c'. specialize (Hm _ eq_refl). rewrite En.
        repeat split; auto. apply node_in_false in En.
        destruct (IH _ _ _ Ec Ry (nodup_extend path x y N En Hn)) as [[rest [E1 [_ [_ [_ E2]]]]] _].
        rewrite E2, E1. rewrite (actn_app (path ++ [x])), app_length. lia. }
    destruct (K f0 Hf0) as [_ [c0 [_ [_ [_ [_ [_ [L0 [L1 _]]]]]]]]].
    split.
    + destruct H2 as [->|[f [Hf Hc]]].
      * simpl in *. exists []. repeat split; auto. destruct (actn (path ++ [x])); auto. simpl in *. lia.
      * destruct (K f Hf) as [y [c [E [Ly [Hn [Ry [Hc' [_ [_ Hk]]]]]]]]]. rewrite Hc' in Hc. inv Hc.
        destruct (node_in y path) eqn:En.
        -- subst p. exists []. repeat split; auto.
        -- apply node_in_false in En.
           destruct (IH _ _ _ Hk Ry (nodup_extend path x y N En Hn)) as [[rest [E1 [F [W [N2 E2]]]]] _].
           exists (y :: rest). rewrite <- app_assoc in E1. repeat split; auto.
    + intros rest W Nd. destruct rest as [|m r].
      { change [fst x] with (ids [x]). rewrite <- ids_app, <- actn_len. lia. }
      destruct W as [[f [Hf Lf]] W].
      destruct (K f Hf) as [y [c [E [Ly [Hn [Ry [Hc' [L2 [L3 Hk]]]]]]]]].
      assert (fst y = m) by (eapply leads_fun; eauto). subst m.
      assert (En : ~ In (fst y) (ids path)).
      { intro Hin. eapply nodup_disj; eauto. right. left. reflexivity. }
      rewrite (proj2 (node_in_false _ _) En) in Hk.
      destruct (IH _ _ _ Hk Ry (nodup_extend path x y N En Hn)) as [_ B].
      specialize (B r W). rewrite ids_app, <- app_assoc in B. specialize (B Nd). simpl in B. lia.
Qed.
End D.

(** ** The start nodes *)
Section Top.
Variable d : diagram.
Hypothesis C : consistent d.

Lemma node_real : forall x, In x (gnodes (dgraph d)) -> real d x.
Proof.
  intros [n a] H. destruct C as [U _]. unfold real, node_of. simpl. apply In_dget; auto.
Qed.

Lemma starts_ok : exists starts,
  (let* nodes := get_nodes (Some "") d in rfilter no_incoming nodes) = Ok starts /\
  (forall x, In x starts <-> real d x /\ incoming_of d (fst x) = []).
Proof.
  cbn [get_nodes rbind].
  rewrite (rfilter_eq _ no_incoming (fun x => match incoming_of d (fst x) with [] => true | _ => false end)).
  - eexists. split; [reflexivity|]. intro x. rewrite filter_In. split.
    + intros [H E]. split; [apply node_real; auto|]. destruct (incoming_of d (fst x)); congruence.
    + intros [H E]. split; [|rewrite E; auto]. unfold real, node_of in H. apply dget_In in H.
      destruct x; auto.
  - intros x Hx. apply node_real in Hx. destruct C as [_ [C2 _]].
    destruct (C2 _ (real_is_node d x Hx)) as [[l E] _]. unfold no_incoming, incoming_of. rewrite E.
    rewrite attr_real in E by auto. unfold dgetE. change k_incoming with "incoming". rewrite E. reflexivity.
Qed.

Lemma unvisited_le : forall l, unvisited d l <= length (gnodes (dgraph d)).
Proof.
  intro l. unfold unvisited. rewrite <- (map_length fst (gnodes (dgraph d))).
  induction (map fst (gnodes (dgraph d))) as [|n t IH]; simpl; auto. destruct (negb _); simpl; lia.
Qed.

Definition enough (fuel : nat) : Prop := 2 * length (gnodes (dgraph d)) < fuel.

Lemma measure_start : forall fuel x, enough fuel -> measure d [] x < fuel.
Proof. intros fuel x H. unfold measure, enough in *. simpl. pose proof (unvisited_le []). lia. Qed.

(** The outer loops are also "keep the best" loops, over nodes. *)
Section BestN.
Context {A B : Type} (m : A -> nat) (cand : B -> res A).
Definition best_stepn (acc : A) (n : B) : res A :=
  let* p := cand n in Ok (if Nat.ltb (m acc) (m p) then p else acc).
Lemma bestn_spec : forall l acc, (forall n, In n l -> exists q, cand n = Ok q) ->
  exists p, rfold best_stepn l acc = Ok p /\ m acc <= m p /\
    (p = acc \/ exists n, In n l /\ cand n = Ok p) /\
    (forall n q, In n l -> cand n = Ok q -> m q <= m p).
Proof.
  induction l as [|n t IH]; intros acc H.
  - exists acc. split; auto. split; auto. split; auto. intros ? ? [].
  - destruct (H n (or_introl eq_refl)) as [q Eq]. cbn [rfold]. unfold best_stepn at 1. rewrite Eq. cbn [rbind].
    set (acc' := if Nat.ltb (m acc) (m q) then q else acc).
    destruct (IH acc') as [p [E [L [P M]]]]; [intros; apply H; right; auto|].
    assert (m acc <= m acc' /\ m q <= m acc' /\ (acc' = acc \/ acc' = q)) as [L1 [L2 L3]].
    { unfold acc'. destruct (Nat.ltb_spec (m acc) (m q)); split; try lia; split; auto; lia. }
    exists p. split; auto. split; [lia|]. split.
    + destruct P as [->|[k [Hk Ek]]]; [|right; exists k; split; [right; auto|auto]].
      destruct L3 as [->|E3]; auto. right. exists n. rewrite E3. split; [left; auto|auto].
    + intros k q' [->|Hk] Ek; [rewrite Eq in Ek; inv Ek; lia|]. eapply M; eauto.
Qed.
End BestN.

Lemma sink_last : forall n l, sink_end d n l <-> exists p k, n :: l = p ++ [k] /\ outgoing_of d k = [].
Proof.
  intros n l. unfold sink_end. split.
  - intro H. exists (removelast (n :: l)), (last l n). split; auto.
    rewrite <- (last_cons _ l n n). apply app_removelast_last. discriminate.
  - intros [p [k [E H]]]. rewrite <- (last_cons _ l n n), E, last_last. exact H.
Qed.

Lemma longest_total : forall fuel, enough fuel -> exists p, compute_longest_path fuel d = Ok p.
Proof.
  intros fuel F. unfold compute_longest_path. destruct (starts_ok) as [starts [E St]].
  cbn [get_nodes rbind] in *. rewrite E. cbn [rbind].
  destruct (bestn_spec (@length node_t) (find_longest_path fuel d []) starts []) as [p [P _]].
  - intros n Hn. apply St in Hn. apply find_total; auto; [tauto|apply measure_start; auto].
  - exists p. exact P.
Qed.

Lemma tasks_total : forall fuel, enough fuel -> exists p, compute_longest_path_tasks fuel d = Ok p.
Proof.
  intros fuel F. unfold compute_longest_path_tasks. destruct (starts_ok) as [starts [E St]].
  cbn [get_nodes rbind] in *. rewrite E. cbn [rbind].
  destruct (bestn_spec (@length node_t) (fun n => let* r := find_longest_path_tasks fuel d [] [] n in Ok (snd r)) starts []) as [p [P _]].
  - intros n Hn. apply St in Hn. destruct Hn as [Hn _].
    destruct (find_tasks_total d C fuel [] [] n Hn (measure_start fuel n F)) as [r Er]. rewrite Er. cbn [rbind]. eauto.
  - exists p. rewrite <- P. apply rfold_ext. intros s a. unfold best_stepn, longer.
    destruct (find_longest_path_tasks fuel d [] [] a); reflexivity.
Qed.

Hypothesis NL : no_self_loops d.

Lemma longest_correct : forall fuel p, enough fuel -> compute_longest_path fuel d = Ok p ->
  Forall (real d) p /\ (p = [] \/ full_path d (ids p)) /\ (forall l, full_path d l -> length l <= length p).
Proof.
  intros fuel p F H. unfold compute_longest_path in H. destruct (starts_ok) as [starts [E St]].
  cbn [get_nodes rbind] in *. rewrite E in H. cbn [rbind] in H.
  destruct (bestn_spec (@length node_t) (find_longest_path fuel d []) starts []) as [p' [P [_ [Q M]]]].
  { intros n Hn. apply St in Hn. apply find_total; auto; [tauto|apply measure_start; auto]. }
  assert (p' = p). { change (rfold (best_stepn (@length node_t) (find_longest_path fuel d [])) starts [] = Ok p) in H. congruence. }
  subst p'.
  assert (K : forall x q, In x starts -> find_longest_path fuel d [] x = Ok q ->
     Forall (real d) q /\ (q = [] \/ full_path d (ids q)) /\
     (forall rest, full_path d (fst x :: rest) -> S (length rest) <= length q)).
  { intros x q Hx Eq. apply St in Hx. destruct Hx as [Rx Ix].
    destruct (find_correct d C NL fuel [] x q Eq Rx) as [A B].
    { simpl. constructor; [auto|constructor]. }
    split; [|split].
    - destruct A as [->|[rest [-> [Fr _]]]]; auto. simpl. constructor; auto.
    - destruct A as [->|[rest [-> [Fr [W [N2 Sk]]]]]]; auto. right. simpl. split.
      + split; [apply real_is_node; auto|]. split; auto.
      + apply sink_last. auto.
    - intros rest [[Hn [Hi [W N2]]] Sk]. apply (B rest W N2). apply sink_last. auto. }
  split; [|split].
  - destruct Q as [->|[x [Hx Eq]]]; auto. destruct (K x p Hx Eq); auto.
  - destruct Q as [->|[x [Hx Eq]]]; auto. destruct (K x p Hx Eq) as [_ [A _]]; auto.
  - intros l Hl. destruct l as [|n rest]; [destruct Hl as [[] _]|].
    pose proof Hl as Hl2. destruct Hl as [[Hn [Hi _]] _]. apply dget_Some_keys in Hn. destruct Hn as [a Ha].
    assert (Hx : In (n, a) starts) by (apply St; split; auto).
    destruct (find_total d C fuel [] (n, a)) as [q Eq]; [exact Ha|apply measure_start; auto|].
    destruct (K _ _ Hx Eq) as [_ [_ B]]. specialize (B rest Hl2). specialize (M _ _ Hx Eq). simpl. lia.
Qed.

Lemma tasks_correct : forall fuel q, enough fuel -> compute_longest_path_tasks fuel d = Ok q ->
  Forall (real d) q /\
  (q = [] \/ exists l, source_path d l /\ ids q = filter (activity d) l) /\
  (forall l, source_path d l -> length (filter (activity d) l) <= length q).
Proof.
  intros fuel p F H. unfold compute_longest_path_tasks in H. destruct (starts_ok) as [starts [E St]].
  cbn [get_nodes rbind] in *. rewrite E in H. cbn [rbind] in H.
  set (cand := fun n => let* r := find_longest_path_tasks fuel d [] [] n in Ok (snd r)).
  destruct (bestn_spec (@length node_t) cand starts []) as [p' [P [_ [Q M]]]].
  { intros n Hn. apply St in Hn. destruct Hn as [Hn _]. unfold cand.
    destruct (find_tasks_total d C fuel [] [] n Hn (measure_start fuel n F)) as [r Er]. rewrite Er. cbn [rbind]. eauto. }
  assert (p' = p).
  { rewrite (rfold_ext _ _ _ (best_stepn (@length node_t) cand)) in H.
    - congruence.
    - intros s a. unfold best_stepn, longer, cand. destruct (find_longest_path_tasks fuel d [] [] a); reflexivity. }
  subst p'.
  assert (K : forall x r, In x starts -> find_longest_path_tasks fuel d [] [] x = Ok r ->
     Forall (real d) (snd r) /\ (exists l, source_path d l /\ ids (snd r) = filter (activity d) l) /\
     (forall rest, source_path d (fst x :: rest) -> length (filter (activity d) (fst x :: rest)) <= length (snd r))).
  { intros x r Hx Er. apply St in Hx. destruct Hx as [Rx Ix].
    destruct (find_tasks_correct d C NL fuel [] x r Er Rx) as [[rest [A1 [A2 [A3 [A4 A5]]]]] B].
    { simpl. constructor; [auto|constructor]. }
    rewrite A1 in A4, A5. rewrite app_nil_l in A4, A5. split; [|split].
    - rewrite A5. unfold actn. apply Forall_forall. intros y Hy. apply filter_In in Hy. destruct Hy as [Hy _].
      destruct Hy as [<-|Hy]; auto. rewrite Forall_forall in A2. auto.
    - exists (ids (x :: rest)). split.
      + simpl. split; [apply real_is_node; auto|]. split; auto.
      + rewrite A5. apply actn_ids.
    - intros rest' [Hn [Hi [W N2]]]. apply (B rest' W N2). }
  split; [|split].
  - destruct Q as [->|[x [Hx Eq]]]; auto. unfold cand in Eq.
    destruct (find_longest_path_tasks fuel d [] [] x) as [r|] eqn:Er; cbn [rbind] in Eq; [|discriminate]. inv Eq.
    destruct (K x r Hx Er); auto.
  - destruct Q as [->|[x [Hx Eq]]]; auto. unfold cand in Eq. right.
    destruct (find_longest_path_tasks fuel d [] [] x) as [r|] eqn:Er; cbn [rbind] in Eq; [|discriminate]. inv Eq.
    destruct (K x r Hx Er) as [_ [A _]]; auto.
  - intros l Hl. destruct l as [|n rest]; [destruct Hl|].
    pose proof Hl as Hl2. destruct Hl as [Hn [Hi _]]. apply dget_Some_keys in Hn. destruct Hn as [a Ha].
    assert (Hx : In (n, a) starts) by (apply St; split; auto).
    destruct (find_tasks_total d C fuel [] [] (n, a)) as [r Er]; [exact Ha|apply measure_start; auto|].
    destruct (K _ _ Hx Er) as [_ [_ B]]. specialize (B rest Hl2).
    assert (Ec : cand (n, a) = Ok (snd r)) by (unfold cand; rewrite Er; reflexivity).
    specialize (M _ _ Hx Ec). cbn [fst] in B. eapply Nat.le_trans; [exact B|exact M].
Qed.
End Top.
