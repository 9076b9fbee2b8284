(** Lemmas about the infrastructure of Py.v (no model content). *)
From Coq Require Import String List Bool ZArith Lia Permutation.
From Coq Require Import DecimalString DecimalPos DecimalZ.
From Verif Require Import Py.
Import ListNotations.
Open Scope string_scope.
Open Scope list_scope.

(** Comparisons of a literal with a variable are left folded by [simpl]. *)
#[global] Arguments String.eqb : simpl nomatch.

Ltac inv H := inversion H; subst; clear H.

(** Case split on a string comparison occurring in the goal or a hypothesis. *)
Ltac seq_case :=
  match goal with
  | |- context [String.eqb ?a ?b] => destruct (String.eqb_spec a b)
  | H : context [String.eqb ?a ?b] |- _ => destruct (String.eqb_spec a b)
  end.

Lemma eqb_refl' : forall s, String.eqb s s = true.
Proof. apply String.eqb_refl. Qed.

Lemma eqb_neq' : forall a b, a <> b -> String.eqb a b = false.
Proof. intros a b H. destruct (String.eqb_spec a b); congruence. Qed.

(** * Results *)
Lemma rbind_ok : forall A B (m : res A) (f : A -> res B) b,
  rbind m f = Ok b -> exists a, m = Ok a /\ f a = Ok b.
Proof. intros A B [a|e] f b H; simpl in H; [eauto | discriminate]. Qed.

Ltac rinv H :=
  let a := fresh "a" in let H1 := fresh "E" in let H2 := fresh "E" in
  apply rbind_ok in H; destruct H as [a [H1 H2]].

Lemma rmap_ok_length : forall A B (f : A -> res B) l r, rmap f l = Ok r -> length r = length l.
Proof.
  induction l as [|a t IH]; simpl; intros r H.
  - inv H; reflexivity.
  - rinv H. rinv E0. inv E2. simpl. f_equal. eauto.
Qed.

Lemma rmap_ok_forall2 : forall A B (f : A -> res B) l r,
  rmap f l = Ok r <-> Forall2 (fun a b => f a = Ok b) l r.
Proof.
  induction l as [|a t IH]; simpl; intros r; split; intros H.
  - inv H; constructor.
  - inv H; reflexivity.
  - rinv H. rinv E0. inv E2. constructor; auto. apply IH; auto.
  - inv H. rewrite H2. simpl. apply IH in H4. rewrite H4. reflexivity.
Qed.

Lemma rfilter_total : forall A (f : A -> res bool) (p : A -> bool) l,
  (forall a, In a l -> f a = Ok (p a)) -> rfilter f l = Ok (filter p l).
Proof.
  induction l as [|a t IH]; simpl; intros H; auto.
  rewrite (H a) by auto. simpl. rewrite IH by auto. reflexivity.
Qed.

Lemma rfilter_ok_inv : forall A (f : A -> res bool) l r,
  rfilter f l = Ok r -> forall a, In a l -> exists b, f a = Ok b.
Proof.
  induction l as [|a t IH]; simpl; intros r H x Hin; [contradiction|].
  rinv H. rinv E0. destruct Hin as [->|Hin]; eauto.
Qed.

(** * Dictionaries *)
Section Dict.
Context {V : Type}.
Implicit Types d : dict V.

Lemma dget_dset : forall k k' v d,
  dget k (dset k' v d) = if String.eqb k k' then Some v else dget k d.
Proof.
  induction d as [|[a x] t IH]; simpl.
  - reflexivity.
  - destruct (String.eqb_spec k' a); subst; simpl.
    + destruct (String.eqb_spec k a); reflexivity.
    + destruct (String.eqb_spec k a); subst; simpl.
      * rewrite eqb_neq'; auto.
      * exact IH.
Qed.

Lemma dget_dset_eq : forall k v d, dget k (dset k v d) = Some v.
Proof. intros. rewrite dget_dset, eqb_refl'. reflexivity. Qed.

Lemma dget_dset_ne : forall k k' v d, k <> k' -> dget k (dset k' v d) = dget k d.
Proof. intros. rewrite dget_dset, eqb_neq'; auto. Qed.

Lemma dget_app : forall k d1 d2,
  dget k (d1 ++ d2) = match dget k d1 with Some v => Some v | None => dget k d2 end.
Proof. induction d1 as [|[a x] t IH]; simpl; intros; auto. seq_case; auto. Qed.

Lemma dget_In : forall k v d, dget k d = Some v -> In (k, v) d.
Proof.
  induction d as [|[a x] t IH]; simpl; intros H; [discriminate|].
  destruct (String.eqb_spec k a); [inv H; auto | auto].
Qed.

Lemma dget_key_In : forall k v d, dget k d = Some v -> In k (dkeys d).
Proof. intros k v d H. apply dget_In in H. apply (in_map fst) in H. exact H. Qed.

Lemma dget_None_keys : forall k d, dget k d = None <-> ~ In k (dkeys d).
Proof.
  induction d as [|[a x] t IH]; simpl.
  - tauto.
  - destruct (String.eqb_spec k a); subst; split; intros H.
    + discriminate.
    + exfalso; apply H; auto.
    + intros [->|H']; [congruence|]. apply IH in H. auto.
    + apply IH. auto.
Qed.

Lemma dget_Some_keys : forall k d, In k (dkeys d) -> exists v, dget k d = Some v.
Proof.
  intros k d H. destruct (dget k d) eqn:E; [eauto|].
  apply dget_None_keys in E. contradiction.
Qed.

Lemma dhas_true : forall k d, dhas k d = true <-> In k (dkeys d).
Proof.
  intros k d. unfold dhas. destruct (dget k d) eqn:E; split; intros H; try discriminate; auto.
  - eapply dget_key_In; eauto.
  - apply dget_None_keys in E. contradiction.
Qed.

Lemma dhas_false : forall k d, dhas k d = false <-> ~ In k (dkeys d).
Proof.
  intros k d. rewrite <- dhas_true. destruct (dhas k d); split; intros; try congruence.
Qed.

Lemma dset_new : forall k v d, ~ In k (dkeys d) -> dset k v d = d ++ [(k, v)].
Proof.
  induction d as [|[a x] t IH]; simpl; intros H; auto.
  destruct (String.eqb_spec k a); [subst; exfalso; auto|].
  rewrite IH; auto.
Qed.

Lemma dkeys_dset_in : forall k v d, In k (dkeys d) -> dkeys (dset k v d) = dkeys d.
Proof.
  induction d as [|[a x] t IH]; simpl; intros H; [contradiction|].
  destruct (String.eqb_spec k a); simpl; auto.
  rewrite IH; auto. destruct H; [congruence|auto].
Qed.

Lemma dkeys_dset_new : forall k v d, ~ In k (dkeys d) -> dkeys (dset k v d) = dkeys d ++ [k].
Proof. intros. rewrite dset_new by auto. unfold dkeys. rewrite map_app. reflexivity. Qed.

Lemma in_dkeys_dset : forall k k' v d, In k (dkeys (dset k' v d)) <-> k = k' \/ In k (dkeys d).
Proof.
  intros k k' v d. destruct (in_dec string_dec k' (dkeys d)).
  - rewrite dkeys_dset_in by auto. split; intros; auto. destruct H; subst; auto.
  - rewrite dkeys_dset_new by auto. rewrite in_app_iff. simpl. intuition.
Qed.

Lemma nodup_dset : forall k v d, NoDup (dkeys d) -> NoDup (dkeys (dset k v d)).
Proof.
  intros k v d H. destruct (in_dec string_dec k (dkeys d)).
  - rewrite dkeys_dset_in; auto.
  - rewrite dkeys_dset_new by auto.
    rewrite <- (rev_involutive (dkeys d ++ [k])).
    apply NoDup_rev. rewrite rev_app_distr. simpl. constructor.
    + rewrite <- in_rev. auto.
    + apply NoDup_rev; auto.
Qed.

Lemma dset_same_last : forall k v w d, ~ In k (dkeys d) ->
  dset k v (d ++ [(k, w)]) = d ++ [(k, v)].
Proof.
  induction d as [|[a x] t IH]; simpl; intros H.
  - rewrite eqb_refl'. reflexivity.
  - rewrite eqb_neq' by (intro; subst; auto). rewrite IH; auto.
Qed.

Lemma In_dget : forall k v d, NoDup (dkeys d) -> In (k, v) d -> dget k d = Some v.
Proof.
  induction d as [|[a x] t IH]; simpl; intros Hn Hin; [contradiction|].
  inv Hn. destruct Hin as [H|H].
  - inv H. rewrite eqb_refl'. reflexivity.
  - rewrite eqb_neq'; auto. intro; subst. apply H1. apply (in_map fst) in H. exact H.
Qed.

Lemma dget_ddel : forall k k' d,
  dget k (ddel k' d) = if String.eqb k k' then None else dget k d.
Proof.
  unfold ddel. induction d as [|[a x] t IH]; simpl.
  - seq_case; reflexivity.
  - destruct (String.eqb_spec k' a); subst; simpl.
    + rewrite IH. seq_case; auto.
    + destruct (String.eqb_spec k a); subst; simpl.
      * rewrite eqb_neq'; auto.
      * exact IH.
Qed.

Lemma dkeys_ddel : forall k d, dkeys (ddel k d) = filter (fun x => negb (String.eqb k x)) (dkeys d).
Proof.
  unfold dkeys, ddel. induction d as [|[a x] t IH]; simpl; auto.
  destruct (String.eqb k a); simpl; rewrite IH; auto.
Qed.

Lemma dset_get_id : forall k v d, dget k d = Some v -> dset k v d = d.
Proof.
  induction d as [|[a x] t IH]; simpl; intros H; [discriminate|].
  destruct (String.eqb_spec k a); [inv H; auto|]. f_equal; auto.
Qed.

Lemma dset_dset : forall k v w d, dset k v (dset k w d) = dset k v d.
Proof.
  induction d as [|[a x] t IH]; simpl.
  - rewrite eqb_refl'. reflexivity.
  - destruct (String.eqb_spec k a); simpl.
    + subst. rewrite eqb_refl'. reflexivity.
    + rewrite eqb_neq' by auto. rewrite IH. reflexivity.
Qed.
End Dict.

(** * Strings in lists *)
Lemma smem_In : forall s l, smem s l = true <-> In s l.
Proof.
  intros s l. unfold smem. rewrite existsb_exists. split.
  - intros [x [Hin H]]. apply String.eqb_eq in H. subst. auto.
  - intros H. exists s. split; auto. apply eqb_refl'.
Qed.

Lemma smem_notIn : forall s l, smem s l = false <-> ~ In s l.
Proof. intros. rewrite <- smem_In. destruct (smem s l); split; congruence. Qed.

Lemma NoDup_snoc : forall A (l : list A) x, NoDup l -> ~ In x l -> NoDup (l ++ [x]).
Proof.
  intros. rewrite <- (rev_involutive (l ++ [x])). apply NoDup_rev.
  rewrite rev_app_distr. simpl. constructor; [rewrite <- in_rev; auto | apply NoDup_rev; auto].
Qed.

(** * Printing and parsing of integers *)
Lemma zparse_zstr : forall z, zparse (zstr z) = Some z.
Proof.
  intros z. unfold zparse, zstr.
  assert (H : Z.to_int z <> Decimal.Pos Decimal.Nil /\ Z.to_int z <> Decimal.Neg Decimal.Nil).
  { destruct z; simpl; split; intro H; inversion H as [H1];
      apply (DecimalPos.Unsigned.to_uint_nonnil p); auto. }
  destruct H. rewrite NilZero.isi by auto.
  simpl. rewrite DecimalZ.of_to. reflexivity.
Qed.

Lemma zstr_inj : forall a b, zstr a = zstr b -> a = b.
Proof.
  intros a b H. assert (E : zparse (zstr a) = zparse (zstr b)) by (rewrite H; reflexivity).
  rewrite !zparse_zstr in E. congruence.
Qed.
