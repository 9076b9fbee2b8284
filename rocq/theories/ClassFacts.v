(** The element classes: tables and effects of the calls. *)
From Coq Require Import String List Bool Arith ZArith Lia.
From Verif Require Import Py PyFacts Classes.
Import ListNotations.
Open Scope string_scope.
Open Scope list_scope.

Definition all_names : list cname :=
  [BaseElement; ConditionExpression; FlowElement; FlowNode; LaneSet; LaneClass; MessageFlow; Participant; SequenceFlow;
   Activity; SubProcess; Task; CatchEvent; EndEvent; Event; IntermediateCatchEvent; IntermediateThrowEvent; StartEvent;
   ThrowEvent; ExclusiveGateway; Gateway; InclusiveGateway; ParallelGateway; CallableElement; EventDefinition; Process;
   RootElement].
Definition all_classes : list cls := map (pair RGraph) all_names ++ map (pair RPackage) all_names.
Lemma every_class : forall c, In c all_classes.
Proof. intros [[] []]; unfold all_classes; simpl; tauto. Qed.
Lemma for_classes : forall (P : cls -> bool), forallb P all_classes = true -> forall c, P c = true.
Proof. intros P H c. rewrite forallb_forall in H. apply H, every_class. Qed.

Lemma root_eqb_eq : forall a b, root_eqb a b = true <-> a = b.
Proof. intros [] []; simpl; split; congruence. Qed.
Lemma cname_eqb_eq : forall a b, cname_eqb a b = true <-> a = b.
Proof. intros [] []; simpl; split; congruence. Qed.
Lemma cls_eqb_eq : forall a b, cls_eqb a b = true <-> a = b.
Proof.
  intros [r n] [r' n']. unfold cls_eqb. simpl. rewrite andb_true_iff, root_eqb_eq, cname_eqb_eq. split; [intros [-> ->]; reflexivity|intros E; inversion E; auto].
Qed.

(** Methods as one table per class. *)
Definition setters (c : cls) : dict (string * body) := flat_map (fun b => own_setters (snd b)) (mro c).
Definition getters (c : cls) : dict string := flat_map (fun b => own_getters (snd b)) (mro c).
Lemma dget_app : forall V (a b : dict V) k, dget k (a ++ b) = match dget k a with Some v => Some v | None => dget k b end.
Proof. induction a as [|[k' v] a IH]; intros b k; simpl; [reflexivity|]. destruct (String.eqb k k'); auto. Qed.
Lemma find_table : forall A (own : cname -> dict A) l m, find_method own l m = dget m (flat_map (fun b => own (snd b)) l).
Proof. induction l as [|c l IH]; intros m; simpl; [reflexivity|]. rewrite dget_app, IH. reflexivity. Qed.
Lemma find_setter : forall c m, find_method own_setters (mro c) m = dget m (setters c).
Proof. intros. apply find_table. Qed.
Lemma find_getter : forall c m, find_method own_getters (mro c) m = dget m (getters c).
Proof. intros. apply find_table. Qed.

(** The getter of a setter. *)
Definition getter_name (m : string) : string :=
  if smem m ["set_is_immediate"; "set_triggered_by_event"; "set_parallel_multiple"; "set_is_closed"; "set_is_executable"]
  then substring 4 (String.length m - 4) m
  else "get_" ++ substring 4 (String.length m - 4) m.
Definition body_of (m : string) : option body :=
  dget m [("set_id", BThenStr); ("set_message_ref", BThenStr); ("set_condition", BReqStr); ("set_source_ref", BReqStr);
          ("set_target_ref", BReqStr); ("set_process_ref", BPlainStr); ("set_name", BOptStr); ("set_default", BOptStr);
          ("set_triggered_by_event", BBool); ("set_parallel_multiple", BBool); ("set_is_closed", BBool); ("set_is_executable", BBool);
          ("set_is_immediate", BOptBool); ("set_incoming", BStrList); ("set_outgoing", BStrList); ("set_flow_node_ref_list", BStrList);
          ("set_lane_list", BObjList (RGraph, LaneClass)); ("set_lane_set_list", BObjList (RGraph, LaneSet));
          ("set_flow_element_list", BObjList (RGraph, FlowElement)); ("set_event_definition_list", BObjList (RGraph, EventDefinition));
          ("set_child_lane_set", BOptObj (RGraph, LaneSet)); ("set_condition_expression", BThenObj (RGraph, ConditionExpression));
          ("set_gateway_direction", BEnum ["Unspecified"; "Converging"; "Diverging"; "Mixed"]);
          ("set_process_type", BEnum ["None"; "Public"; "Private"])].
Definition body_eqb (a b : body) : bool :=
  match a, b with
  | BOptStr, BOptStr | BThenStr, BThenStr | BReqStr, BReqStr | BPlainStr, BPlainStr | BBool, BBool | BOptBool, BOptBool
  | BStrList, BStrList => true
  | BObjList c, BObjList d | BOptObj c, BOptObj d | BThenObj c, BThenObj d => cls_eqb c d
  | BEnum l, BEnum k => if list_eq_dec string_dec l k then true else false
  | _, _ => false
  end.
Lemma body_eqb_eq : forall a b, body_eqb a b = true -> a = b.
Proof.
  intros [] []; simpl; intros H; try discriminate; try reflexivity; try (apply cls_eqb_eq in H; congruence).
  destruct (list_eq_dec string_dec l l0); congruence.
Qed.
Fixpoint nodupb (l : list string) : bool := match l with [] => true | x :: r => negb (smem x r) && nodupb r end.
Lemma nodupb_ok : forall l, nodupb l = true -> NoDup l.
Proof.
  induction l as [|x l IH]; simpl; intros H; constructor; apply andb_true_iff in H; destruct H as [H1 H2]; auto.
  intros C. apply smem_In in C. rewrite C in H1. discriminate.
Qed.
Definition table_ok (c : cls) : bool :=
  forallb (fun e => match dget (getter_name (fst e)) (getters c), body_of (fst e) with
                    | Some k, Some b => String.eqb k (fst (snd e)) && body_eqb b (snd (snd e))
                    | _, _ => false end) (setters c) &&
  nodupb (map snd (getters c)) && nodupb (map fst (getters c)) && nodupb (map fst (setters c)).
Lemma tables_ok : forall c, table_ok c = true.
Proof. apply for_classes. vm_compute. reflexivity. Qed.
Lemma setter_known : forall c m k b, dget m (setters c) = Some (k, b) -> dget (getter_name m) (getters c) = Some k /\ body_of m = Some b.
Proof.
  intros c m k b H. pose proof (tables_ok c) as T. unfold table_ok in T. rewrite !andb_true_iff in T. destruct T as [[[T _] _] _].
  rewrite forallb_forall in T. specialize (T (m, (k, b)) (dget_In _ _ _ H)). cbn [fst snd] in T.
  destruct (dget (getter_name m) (getters c)) as [k'|]; [|discriminate]. destruct (body_of m) as [b'|]; [|discriminate].
  apply andb_true_iff in T. destruct T as [T1 T2]. apply String.eqb_eq in T1. apply body_eqb_eq in T2. subst. auto.
Qed.
Lemma getter_keys : forall c g g' k, dget g (getters c) = Some k -> dget g' (getters c) = Some k -> g = g'.
Proof.
  intros c g g' k H H'. pose proof (tables_ok c) as T. unfold table_ok in T. rewrite !andb_true_iff in T. destruct T as [[[_ T] _] _].
  apply nodupb_ok in T. rename T into N.
  apply dget_In in H. apply dget_In in H'. revert H H' N. generalize (getters c). induction d as [|[x y] d IH]; simpl; [contradiction|].
  intros [H|H] [H'|H'] N; inversion N as [|? ? N1 N2]; subst.
  - congruence.
  - exfalso. inversion H; subst. apply N1. apply in_map_iff. exists (g', k). auto.
  - exfalso. inversion H'; subst. apply N1. apply in_map_iff. exists (g, k). auto.
  - auto.
Qed.

(** Updating one place of a list. *)
Lemma nth_update : forall A (f : A -> A) l i j, nth_error (update i f l) j = if Nat.eqb i j then option_map f (nth_error l j) else nth_error l j.
Proof.
  induction l as [|x l IH]; intros i j; [destruct i, j; simpl; try reflexivity; destruct (Nat.eqb _ _); reflexivity|].
  destruct i, j; simpl; try reflexivity. apply IH.
Qed.
Lemma update_length : forall A (f : A -> A) l i, length (update i f l) = length l.
Proof. induction l as [|x l IH]; intros [|i]; simpl; auto. Qed.

(** Reading a field. *)
Definition field (w : world) (o : nat) (g : string) : option pv :=
  match nth_error (objects w) o with
  | Some x => match dget g (getters (o_class x)) with Some k => dget k (o_fields x) | None => None end
  | None => None
  end.
Lemma get_field : forall w o g v, exec (CGet o g) w = (w, Ok v) <-> field w o g = Some v.
Proof.
  intros w o g v. unfold exec, call_getter, field, mbind, mread, class_of. destruct (nth_error (objects w) o) as [x|] eqn:E; [|split; discriminate].
  rewrite find_getter. destruct (dget g (getters (o_class x))) as [k|]; [|split; discriminate]. cbn beta. rewrite E.
  destruct (dget k (o_fields x)); split; intros H; inversion H; reflexivity.
Qed.
Definition assigned (w : world) (o : nat) (k : string) (v : pv) : world :=
  mkWorld (update o (fun x => mkObject (o_class x) (dset k v (o_fields x))) (objects w)) (lists w).
Lemma assign_eq : forall o k v w, assign o k v w = (assigned w o k v, Ok tt).
Proof. reflexivity. Qed.
Lemma assigned_class : forall w o k v i, option_map o_class (nth_error (objects (assigned w o k v)) i) = option_map o_class (nth_error (objects w) i).
Proof. intros. unfold assigned. cbn [objects]. rewrite nth_update. destruct (Nat.eqb o i); [|reflexivity]. destruct (nth_error (objects w) i); reflexivity. Qed.
Lemma assigned_field : forall w o x g k v, nth_error (objects w) o = Some x -> dget g (getters (o_class x)) = Some k ->
  forall o' g', field (assigned w o k v) o' g' = if Nat.eqb o' o && String.eqb g' g then Some v else field w o' g'.
Proof.
  intros w o x g k v E G o' g'. unfold field, assigned. cbn [objects]. rewrite nth_update, (Nat.eqb_sym o o').
  destruct (Nat.eqb_spec o' o) as [-> |N]; [|reflexivity]. rewrite E. cbn [option_map andb o_class o_fields].
  destruct (String.eqb_spec g' g) as [-> |Ng].
  - rewrite G, dget_dset, eqb_refl'. reflexivity.
  - destruct (dget g' (getters (o_class x))) as [k'|] eqn:G'; [|reflexivity]. rewrite dget_dset.
    destruct (String.eqb_spec k' k) as [-> |]; [|reflexivity]. exfalso. apply Ng. eapply getter_keys; eauto.
Qed.
