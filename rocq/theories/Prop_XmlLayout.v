(** Indentation of the exported tree. *)
From Coq Require Import String Ascii List Bool Arith Lia.
From Verif Require Import Py PyFacts Consts Nx NxFacts Rep SpecRep RepFacts CsvRegex CsvImport CsvFacts Xml Export Import XmlOps
  ImportFacts XmlLayout.
Import ListNotations.
Open Scope string_scope.
Open Scope list_scope.

Lemma etree_ind' : forall P : etree -> Prop,
  (forall g a x l ks, Forall P ks -> P (E g a x l ks)) -> forall t, P t.
Proof.
  intros P H. fix IH 1. intros [g a x l ks]. apply H. induction ks as [|k ks IHk]; constructor; [apply IH|exact IHk].
Qed.

(** * The structure *)
(** White space around elements removed. *)
Definition solid (o : option string) : option string := if blank_text o then None else o.
Fixpoint stripped (t : etree) : etree :=
  match t with E g a x l ks => E g a (solid x) (solid l) (map stripped ks) end.

Lemma blank_break : forall n, blank_text (Some (line_break n)) = true.
Proof.
  intros n. unfold blank_text, line_break. cbn [sexists]. replace (is_space nl) with true by reflexivity. cbn [negb orb].
  induction n as [|n IH]; [reflexivity|]. cbn [times]. change ("  " ++ times n "  ")%string with (String " " (String " " (times n "  "))).
  cbn [sexists]. exact IH.
Qed.
Lemma sexists_app : forall f s t, sexists f (s ++ t)%string = sexists f s || sexists f t.
Proof. intros f. induction s as [|c s IH]; intros t; [reflexivity|]. cbn [append sexists]. rewrite IH. apply orb_assoc. Qed.
Lemma blank_inner : forall n, blank_text (Some (line_break n ++ "  ")%string) = true.
Proof.
  intros n. pose proof (blank_break n) as H. unfold blank_text in *. rewrite sexists_app. apply negb_true_iff in H. rewrite H. reflexivity.
Qed.
Lemma solid_if : forall o s (b : bool), blank_text (Some s) = true -> solid (if b && blank_text o then Some s else o) = solid o.
Proof.
  intros o s b H. destruct b; [|reflexivity]. cbn [andb]. destruct (blank_text o) eqn:B; [|reflexivity]. unfold solid. rewrite H, B. reflexivity.
Qed.
Theorem C38_structure : forall t level, stripped (indent level t) = stripped t.
Proof.
  induction t as [g a x l ks IH] using etree_ind'. intros n. cbn [indent]. destruct ks as [|k ks].
  - cbn [stripped map]. f_equal. apply solid_if. apply blank_break.
  - cbn [stripped]. f_equal.
    + apply (solid_if x _ true). apply blank_inner.
    + set (l' := if blank_text l then Some (line_break n) else l).
      assert (L : solid l' = solid l) by (apply (solid_if l _ true); apply blank_break).
      rewrite <- L. apply (solid_if l' _ true). apply blank_break.
    + rewrite map_map. apply map_ext_in. intros y Hy. rewrite Forall_forall in IH. apply IH. exact Hy.
Qed.

(** * Loading *)
(** The elements whose text is read have no elements inside. *)
Inductive readable : etree -> Prop :=
| readable_text : forall g a x l, readable (E g a x l [])
| readable_kids : forall g a x l ks, ~ In (local_name g) text_tags -> (forall k, In k ks -> readable k) -> readable (E g a x l ks).

Definition shown (l : list dom) : list dom := map squash (filter (fun x => negb (is_text x)) l).
Lemma shown_app : forall l m, shown (l ++ m) = shown l ++ shown m.
Proof. intros. unfold shown. rewrite filter_app, map_app. reflexivity. Qed.
Lemma shown_cons : forall g a k l, shown (DElem g a k :: l) = squash (DElem g a k) :: shown l.
Proof. reflexivity. Qed.
Lemma shown_text : forall o, shown (text_nodes o) = [].
Proof. intros [s|]; [|reflexivity]. destruct s; reflexivity. Qed.

Fixpoint written_list (l : list etree) : res (list dom) :=
  match l with [] => Ok [] | k :: r => let* x := written k in let* y := written_list r in Ok (x ++ y) end.
Lemma written_unfold : forall g a x l ks, written (E g a x l ks) =
  let* a' := rmap written_attribute a in let* k := written_list ks in
  Ok (DElem g a' (text_nodes x ++ k) :: text_nodes l).
Proof.
  intros. cbn [written]. destruct (rmap written_attribute a); [|reflexivity]. cbn [rbind].
  assert (Q : forall ks, (fix all (l0 : list etree) : res (list dom) :=
     match l0 with [] => Ok [] | k :: r => let* x0 := written k in let* y := all r in Ok (x0 ++ y) end) ks = written_list ks).
  { induction ks0 as [|k r IH]; [reflexivity|]. cbn [written_list]. rewrite IH. reflexivity. }
  rewrite Q. reflexivity.
Qed.
Definition alike (m n : res (list dom)) : Prop :=
  match m, n with Ok l, Ok l' => shown l = shown l' | Err e, Err e' => e = e' | _, _ => False end.
Lemma indent_alike : forall t, readable t -> forall n,
  alike (written (indent n t)) (written t) /\
  (forall l, written t = Ok l -> exists r m, l = r :: m /\ is_text r = false) .
Proof.
  induction t as [g a x l ks IH] using etree_ind'. intros R n. split.
  2: { intros l0 H. rewrite written_unfold in H. destruct (rmap written_attribute a); [|discriminate]. cbn [rbind] in H.
       destruct (written_list ks); [|discriminate]. cbn [rbind] in H. inv H. eexists _, _. split; reflexivity. }
  cbn [indent]. destruct ks as [|k ks].
  - rewrite !written_unfold. destruct (rmap written_attribute a); [|reflexivity]. cbn [rbind written_list]. unfold alike.
    rewrite !shown_cons, !shown_text. reflexivity.
  - inversion R as [|? ? ? ? ? Ng Rk]; subst. rewrite !written_unfold. destruct (rmap written_attribute a); [|reflexivity]. cbn [rbind].
    assert (Q : forall L, Forall (fun t => readable t -> forall n, alike (written (indent n t)) (written t) /\
       (forall l, written t = Ok l -> exists r m, l = r :: m /\ is_text r = false)) L -> (forall k, In k L -> readable k) ->
       alike (written_list (map (indent (S n)) L)) (written_list L)).
    { induction L as [|y L IHL]; intros F RL; [reflexivity|]. inversion F as [|? ? F1 F2]; subst. cbn [map written_list].
      destruct (F1 (RL y (or_introl eq_refl)) (S n)) as [A _].
      specialize (IHL F2 (fun k Hk => RL k (or_intror Hk))). unfold alike in *.
      destruct (written (indent (S n) y)), (written y); cbn [rbind]; try contradiction; [|exact A].
      destruct (written_list (map (indent (S n)) L)), (written_list L); cbn [rbind]; try contradiction; [|exact IHL].
      rewrite !shown_app. congruence. }
    specialize (Q (k :: ks) IH Rk). unfold alike in *.
    destruct (written_list (map (indent (S n)) (k :: ks))), (written_list (k :: ks)); cbn [rbind]; try contradiction; [|exact Q].
    rewrite !shown_cons, !shown_text.
    rewrite !squash_elem.
    assert (T : smem (local_name g) text_tags = false).
    { destruct (smem (local_name g) text_tags) eqn:T; [|reflexivity]. exfalso. apply Ng. apply smem_In. exact T. }
    rewrite T. f_equal. f_equal.
    fold (shown (text_nodes (if blank_text x then Some (line_break n ++ "  ")%string else x) ++ a1)). fold (shown (text_nodes x ++ a2)).
    rewrite !shown_app, !shown_text. exact Q.
Qed.
Lemma indent_document : forall t, readable t -> forall n,
  match document (indent n t), document t with
  | Ok r, Ok r' => squash r = squash r'
  | Err e, Err e' => e = e'
  | _, _ => False
  end.
Proof.
  intros t R n. destruct (indent_alike t R n) as [A B]. unfold document. unfold alike in A.
  assert (B' : forall l, written (indent n t) = Ok l -> exists r m, l = r :: m /\ is_text r = false).
  { intros l H. destruct (indent n t) as [g a x tl ks]. rewrite written_unfold in H. destruct (rmap written_attribute a); [|discriminate].
    cbn [rbind] in H. destruct (written_list ks); [|discriminate]. cbn [rbind] in H. inv H. eexists _, _. split; reflexivity. }
  destruct (written (indent n t)) as [l'|], (written t) as [l|]; cbn [rbind]; try contradiction; [|exact A].
  destruct (B l eq_refl) as (r & m & -> & T). destruct (B' l' eq_refl) as (r' & m' & -> & T').
  unfold shown in A. cbn [filter] in A. rewrite T, T' in A. cbn [negb map] in A. inv A. reflexivity.
Qed.
(** Loading the indented tree is loading the tree. *)
Theorem C38_loading : forall set_order t level root root' d, readable t ->
  document t = Ok root -> document (indent level t) = Ok root' ->
  load_diagram_from_xml set_order root' d = load_diagram_from_xml set_order root d.
Proof.
  intros so t n root root' d R H H'. pose proof (indent_document t R n) as Q. rewrite H, H' in Q.
  rewrite <- (load_squash so root), <- (load_squash so root'), Q. reflexivity.
Qed.
Theorem C38_writing : forall t level, readable t ->
  (exists root, document t = Ok root) <-> (exists root, document (indent level t) = Ok root).
Proof.
  intros t n R. pose proof (indent_document t R n) as Q. destruct (document (indent n t)), (document t); try contradiction.
  - split; eauto.
  - split; intros [? ?]; discriminate.
Qed.
