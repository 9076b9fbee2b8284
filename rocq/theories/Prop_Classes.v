(** The typed element classes (C62, C63, C64, C77, C78). *)
From Coq Require Import String List Bool Arith ZArith Lia.
From Verif Require Import Py PyFacts Classes ClassFacts.
Import ListNotations.
Open Scope string_scope.
Open Scope list_scope.

(** * Specification *)
Inductive derives : cls -> cls -> Prop :=
| dv_self : forall c, derives c c
| dv_base : forall c p b, parent c = Some p -> derives p b -> derives c b.
(** The object behind [v] is an instance of [c]. *)
Definition is_a (w : world) (c : cls) (v : pv) : Prop :=
  exists i x, v = PObj i /\ nth_error (objects w) i = Some x /\ derives (o_class x) c.
(** The object has the setter; the getter. *)
Definition offers (w : world) (o : nat) (m : string) : Prop :=
  exists x c, nth_error (objects w) o = Some x /\ derives (o_class x) c /\ In m (map fst (own_setters (snd c))).

(** Each setter with its getter. *)
Definition pairs : list (string * string) :=
  [("set_id", "get_id"); ("set_name", "get_name"); ("set_default", "get_default"); ("set_condition", "get_condition");
   ("set_incoming", "get_incoming"); ("set_outgoing", "get_outgoing"); ("set_lane_list", "get_lane_list");
   ("set_flow_node_ref_list", "get_flow_node_ref_list"); ("set_child_lane_set", "get_child_lane_set");
   ("set_source_ref", "get_source_ref"); ("set_target_ref", "get_target_ref"); ("set_message_ref", "get_message_ref");
   ("set_process_ref", "get_process_ref"); ("set_is_immediate", "is_immediate");
   ("set_condition_expression", "get_condition_expression"); ("set_triggered_by_event", "triggered_by_event");
   ("set_lane_set_list", "get_lane_set_list"); ("set_flow_element_list", "get_flow_element_list");
   ("set_parallel_multiple", "parallel_multiple"); ("set_event_definition_list", "get_event_definition_list");
   ("set_gateway_direction", "get_gateway_direction"); ("set_process_type", "get_process_type");
   ("set_is_closed", "is_closed"); ("set_is_executable", "is_executable")].

(** The values a setter takes. *)
Definition a_string (v : pv) : Prop := exists s, v = PStr s.
Definition a_bool (v : pv) : Prop := exists b, v = PBool b.
Definition list_of (w : world) (P : pv -> Prop) (v : pv) : Prop :=
  exists i l, v = PList i /\ nth_error (lists w) i = Some l /\ forall e, In e l -> P e.
Inductive takes (w : world) : string -> pv -> Prop :=
| tk_string : forall m v, In m ["set_id"; "set_message_ref"; "set_condition"; "set_source_ref"; "set_target_ref"; "set_process_ref"] ->
    a_string v -> takes w m v
| tk_optional : forall m v, In m ["set_name"; "set_default"] -> v = PNone \/ a_string v -> takes w m v
| tk_bool : forall m v, In m ["set_triggered_by_event"; "set_parallel_multiple"; "set_is_closed"; "set_is_executable"] ->
    a_bool v -> takes w m v
| tk_immediate : forall v, v = PNone \/ a_bool v -> takes w "set_is_immediate" v
| tk_strings : forall m v, In m ["set_incoming"; "set_outgoing"; "set_flow_node_ref_list"] -> list_of w a_string v -> takes w m v
| tk_lanes : forall v, list_of w (is_a w (RGraph, LaneClass)) v -> takes w "set_lane_list" v
| tk_sets : forall v, list_of w (is_a w (RGraph, LaneSet)) v -> takes w "set_lane_set_list" v
| tk_elements : forall v, list_of w (is_a w (RGraph, FlowElement)) v -> takes w "set_flow_element_list" v
| tk_definitions : forall v, list_of w (is_a w (RGraph, EventDefinition)) v -> takes w "set_event_definition_list" v
| tk_child : forall v, v = PNone \/ is_a w (RGraph, LaneSet) v -> takes w "set_child_lane_set" v
| tk_condition : forall v, is_a w (RGraph, ConditionExpression) v -> takes w "set_condition_expression" v
| tk_direction : forall s, In s ["Unspecified"; "Converging"; "Diverging"; "Mixed"] -> takes w "set_gateway_direction" (PStr s)
| tk_process : forall s, In s ["None"; "Public"; "Private"] -> takes w "set_process_type" (PStr s).

(** All other getters of all objects return what they returned, and no list changes. *)
Definition otherwise_same (w w' : world) (o : nat) (g : string) : Prop :=
  lists w' = lists w /\ forall o' g', (o' <> o \/ g' <> g) -> snd (exec (CGet o' g') w') = snd (exec (CGet o' g') w).

(** * Facts *)
Lemma derives_in : forall c b, derives c b <-> In b (mro c).
Proof.
  assert (F : forall n c b, In b (bases n c) -> derives c b).
  { induction n as [|n IH]; simpl; [contradiction|]. intros c b [<- |H]; [constructor|]. destruct (parent c) as [p|] eqn:E; [|contradiction].
    econstructor; eauto. }
  assert (L : forall c, match parent c with Some p => forallb (fun x => existsb (cls_eqb x) (mro c)) (mro p) = true | None => True end).
  { intros c. destruct (parent c) as [p|] eqn:E; [|exact I]. revert p E. destruct c as [[] []]; intros p E; try discriminate E; injection E as <-; vm_compute; reflexivity. }
  intros c b. split; [|apply F]. intros D. induction D as [c|c p b P D IH]; [left; reflexivity|].
  specialize (L c). rewrite P in L. rewrite forallb_forall in L. specialize (L b IH). apply existsb_exists in L. destruct L as [x [Hx Ex]].
  apply cls_eqb_eq in Ex. subst. exact Hx.
Qed.
Lemma instance_is_a : forall w c v, instance_of w c v = true <-> is_a w c v.
Proof.
  intros w c v. unfold is_a. split.
  - intros H. destruct v; try discriminate. cbn [instance_of] in H. destruct (nth_error (objects w) i) as [x|] eqn:E; [|discriminate].
    exists i, x. split; [reflexivity|]. split; [exact E|]. apply derives_in. apply existsb_exists in H. destruct H as [y [Hy Ey]].
    apply cls_eqb_eq in Ey. subst. exact Hy.
  - intros (i & x & -> & E & D). cbn [instance_of]. rewrite E. apply derives_in in D. apply existsb_exists. exists c. split; [exact D|]. apply cls_eqb_eq. reflexivity.
Qed.
Lemma offers_found : forall w o m, offers w o m <-> exists x k b, nth_error (objects w) o = Some x /\ dget m (setters (o_class x)) = Some (k, b).
Proof.
  intros w o m. split.
  - intros (x & c & E & D & I). apply derives_in in D.
    assert (J : In m (dkeys (setters (o_class x)))).
    { unfold setters, dkeys. apply in_map_iff in I. destruct I as [[m' kb] [<- I]]. apply in_map_iff. exists (m', kb). split; [reflexivity|].
      apply in_flat_map. exists c. auto. }
    apply dget_Some_keys in J. destruct J as [[k b] J]. exists x, k, b. auto.
  - intros (x & k & b & E & G). apply dget_In in G. unfold setters in G. apply in_flat_map in G. destruct G as [c [Ic G]].
    exists x, c. split; [exact E|]. split; [apply derives_in; exact Ic|]. apply in_map_iff. exists (m, (k, b)). auto.
Qed.
Lemma pairs_getter : forall m g, In (m, g) pairs -> getter_name m = g.
Proof. intros m g H. unfold pairs in H. simpl in H. repeat destruct H as [H|H]; try contradiction; injection H as <- <-; reflexivity. Qed.
Lemma body_pair : forall m b, body_of m = Some b -> In (m, getter_name m) pairs.
Proof.
  intros m b H. unfold body_of in H. apply dget_In in H. simpl in H. repeat destruct H as [H|H]; try contradiction; injection H as <- _; vm_compute; tauto.
Qed.
Lemma mfor_check : forall S A (f : A -> bool) l (s : S),
  mfor l (fun e => if negb (f e) then mraise TypeError else mret tt) s = (s, if forallb f l then Ok tt else Err TypeError).
Proof. induction l as [|a l IH]; intros s; simpl; [reflexivity|]. unfold mbind. destruct (f a); simpl; [apply IH|reflexivity]. Qed.

Lemma mbind_get : forall S A (k : S -> M S A) s, mbind mget k s = k s s.
Proof. reflexivity. Qed.
(** What one body does: the value is taken and assigned, or refused; with the two bodies that
    assign before they check, None is assigned and refused. *)
Definition fits_body (w : world) (b : body) (v : pv) : bool :=
  match b with
  | BThenStr | BReqStr | BPlainStr => is_str v
  | BOptStr => is_none v || is_str v
  | BBool => is_bool v
  | BOptBool => is_none v || is_bool v
  | BStrList => match elements w v with Some l => forallb is_str l | None => false end
  | BObjList c => match elements w v with Some l => forallb (instance_of w c) l | None => false end
  | BOptObj c => is_none v || instance_of w c v
  | BThenObj c => instance_of w c v
  | BEnum l => match v with PStr s => existsb (String.eqb s) l | _ => false end
  end.
Definition early (b : body) (v : pv) : bool := match b with BThenStr | BThenObj _ => is_none v | _ => false end.
Lemma body_effect : forall b k o v w,
  if fits_body w b v then run_body b k o v w = (assigned w o k v, Ok tt)
  else exists e, run_body b k o v w = ((if early b v then assigned w o k PNone else w), Err e).
Proof.
  intros b k o v w. destruct b; cbn [fits_body run_body early].
  - unfold set_optional_str. destruct v; simpl; first [reflexivity|eexists; reflexivity].
  - unfold set_then_str. destruct v; simpl; first [reflexivity|eexists; reflexivity].
  - unfold set_required_str. destruct v; simpl; first [reflexivity|eexists; reflexivity].
  - unfold set_plain_str. destruct v; simpl; first [reflexivity|eexists; reflexivity].
  - unfold set_bool. destruct v; simpl; first [reflexivity|eexists; reflexivity].
  - unfold set_optional_bool. destruct v; simpl; first [reflexivity|eexists; reflexivity].
  - unfold set_str_list. rewrite mbind_get. destruct (elements w v) as [l|]; [|eexists; reflexivity].
    unfold mbind. rewrite (mfor_check world pv is_str). destruct (forallb is_str l); [reflexivity|eexists; reflexivity].
  - unfold set_object_list. rewrite mbind_get. destruct (elements w v) as [l|]; [|eexists; reflexivity].
    unfold mbind. rewrite (mfor_check world pv (instance_of w c)). destruct (forallb (instance_of w c) l); [reflexivity|eexists; reflexivity].
  - unfold set_optional_object. rewrite mbind_get. destruct (is_none v) eqn:N; cbn [orb]; [reflexivity|]. destruct (instance_of w c v); simpl; first [reflexivity|eexists; reflexivity].
  - unfold set_then_object, mget, mbind, mret. destruct (is_none v) eqn:N.
    + destruct v; try discriminate. cbn [instance_of]. eexists. reflexivity.
    + destruct (instance_of w c v); [reflexivity|eexists; reflexivity].
  - unfold set_enum. destruct v; try (eexists; reflexivity). destruct (existsb (String.eqb s) l); [reflexivity|eexists; reflexivity].
Qed.

Lemma forallb_is_str : forall l, forallb is_str l = true <-> forall e, In e l -> a_string e.
Proof.
  intros l. rewrite forallb_forall. split; intros H e He; specialize (H e He).
  - destruct e; try discriminate. eexists. reflexivity.
  - destruct H as [s ->]. reflexivity.
Qed.
Lemma forallb_instance : forall w c l, forallb (instance_of w c) l = true <-> forall e, In e l -> is_a w c e.
Proof. intros w c l. rewrite forallb_forall. split; intros H e He; apply instance_is_a; auto. Qed.
Lemma list_fits : forall w (P : pv -> Prop) v (f : list pv -> bool), (forall l, f l = true <-> forall e, In e l -> P e) ->
  (match elements w v with Some l => f l | None => false end = true <-> list_of w P v).
Proof.
  intros w P v f F. unfold list_of. split.
  - destruct v; simpl; try discriminate. destruct (nth_error (lists w) i) as [l|] eqn:E; [|discriminate]. intros H. exists i, l.
    split; [reflexivity|]. split; [exact E|]. apply F. exact H.
  - intros (i & l & -> & E & H). simpl. rewrite E. apply F. exact H.
Qed.
Lemma takes_fits : forall w m b v, body_of m = Some b -> (takes w m v <-> fits_body w b v = true).
Proof.
  intros w m b v H. unfold body_of in H. apply dget_In in H. cbn [In] in H.
  assert (S : is_str v = true <-> a_string v) by (split; [destruct v; try discriminate; eexists; reflexivity|intros [s ->]; reflexivity]).
  assert (O : is_bool v = true <-> a_bool v) by (split; [destruct v; try discriminate; eexists; reflexivity|intros [s ->]; reflexivity]).
  assert (N : is_none v = true <-> v = PNone) by (split; [destruct v; try discriminate; reflexivity|intros ->; reflexivity]).
  assert (LS : forall c, match elements w v with Some l => forallb (instance_of w c) l | None => false end = true <-> list_of w (is_a w c) v)
    by (intros c; apply list_fits; apply forallb_instance).
  assert (LT : match elements w v with Some l => forallb is_str l | None => false end = true <-> list_of w a_string v)
    by (apply list_fits; apply forallb_is_str).
  assert (EN : forall l, (match v with PStr s => existsb (String.eqb s) l | _ => false end) = true <-> exists s, v = PStr s /\ In s l).
  { intros l. split.
    - destruct v; try discriminate. intros E. exists s. split; [reflexivity|]. apply existsb_exists in E. destruct E as [x [Ix Ex]]. apply String.eqb_eq in Ex. subst. exact Ix.
    - intros (s & -> & E). apply existsb_exists. exists s. split; [exact E|apply String.eqb_refl]. }
  repeat destruct H as [H|H]; try contradiction; injection H as <- <-; cbn [fits_body];
    rewrite ?orb_true_iff, ?S, ?O, ?N, ?LS, ?LT, ?instance_is_a, ?EN; (split;
    [intros T; inversion T as [m' v' I'|m' v' I'|m' v' I'| |m' v' I'| | | | | | | |]; subst;
       try (exfalso; simpl in I'; intuition discriminate); eauto
    |intros F; first [apply tk_string; [simpl; tauto|exact F]|apply tk_optional; [simpl; tauto|exact F]|apply tk_bool; [simpl; tauto|exact F]
       |apply tk_immediate; exact F|apply tk_strings; [simpl; tauto|exact F]|apply tk_lanes; exact F|apply tk_sets; exact F|apply tk_elements; exact F
       |apply tk_definitions; exact F|apply tk_child; exact F|apply tk_condition; exact F
       |destruct F as (s & -> & F); apply tk_direction; exact F|destruct F as (s & -> & F); apply tk_process; exact F]]).
Qed.

(** Calling a setter. *)
Lemma set_effect : forall w o x m k b v, nth_error (objects w) o = Some x -> dget m (setters (o_class x)) = Some (k, b) ->
  (takes w m v /\ exec (CSet o m v) w = (assigned w o k v, Ok PNone)) \/
  (~ takes w m v /\ exists e, exec (CSet o m v) w = ((if early b v then assigned w o k PNone else w), Err e)).
Proof.
  intros w o x m k b v E G. destruct (setter_known _ _ _ _ G) as [_ B]. pose proof (body_effect b k o v w) as F.
  assert (C : call_setter o m v w = run_body b k o v w).
  { unfold call_setter, mbind, mread, class_of. rewrite E, find_setter, G. reflexivity. }
  pose proof (takes_fits w m b v B) as T. destruct (fits_body w b v).
  - left. split; [apply T; reflexivity|]. unfold exec, mbind. rewrite C, F. reflexivity.
  - right. split; [intros X; apply T in X; discriminate|]. destruct F as [e F]. exists e. unfold exec, mbind. rewrite C, F. reflexivity.
Qed.
Lemma same_snd : forall w w' o g, field w' o g = field w o g -> option_map o_class (nth_error (objects w') o) = option_map o_class (nth_error (objects w) o) ->
  snd (exec (CGet o g) w') = snd (exec (CGet o g) w).
Proof.
  intros w w' o g F C. unfold exec, call_getter, mbind, mread, class_of. unfold field in F.
  destruct (nth_error (objects w') o) as [x'|] eqn:E', (nth_error (objects w) o) as [x|] eqn:E; simpl in C; try discriminate; [|reflexivity].
  injection C as C. rewrite C in *. rewrite find_getter. destruct (dget g (getters (o_class x))) as [k|]; [|reflexivity].
  simpl. rewrite E', E, F. reflexivity.
Qed.
Lemma assigned_otherwise : forall w o x g k v, nth_error (objects w) o = Some x -> dget g (getters (o_class x)) = Some k ->
  otherwise_same w (assigned w o k v) o g.
Proof.
  intros w o x g k v E G. split; [reflexivity|]. intros o' g' D. apply same_snd; [|apply assigned_class].
  rewrite (assigned_field w o x g k v E G). destruct (Nat.eqb_spec o' o), (String.eqb_spec g' g); simpl; try reflexivity. intuition congruence.
Qed.
Lemma assigned_get : forall w o x g k v, nth_error (objects w) o = Some x -> dget g (getters (o_class x)) = Some k ->
  exec (CGet o g) (assigned w o k v) = (assigned w o k v, Ok v).
Proof. intros w o x g k v E G. apply get_field. rewrite (assigned_field w o x g k v E G), Nat.eqb_refl, String.eqb_refl. reflexivity. Qed.

(** * C62 *)
(** A setter accepts exactly the values of its kind; an accepted value is returned by the
    getter and nothing else changes. *)
Theorem C62_accepted : forall w o m g v, offers w o m -> In (m, g) pairs -> takes w m v ->
  exists w', exec (CSet o m v) w = (w', Ok PNone) /\ exec (CGet o g) w' = (w', Ok v) /\ otherwise_same w w' o g.
Proof.
  intros w o m g v F P T. apply offers_found in F. destruct F as (x & k & b & E & G).
  destruct (set_effect w o x m k b v E G) as [[_ X]|[X _]]; [|contradiction].
  pose proof (proj1 (setter_known _ _ _ _ G)) as K. rewrite (pairs_getter _ _ P) in K. exists (assigned w o k v).
  split; [exact X|]. split; [eapply assigned_get; eauto|eapply assigned_otherwise; eauto].
Qed.
Theorem C62_every_setter_has_a_getter : forall w o m, offers w o m -> exists g, In (m, g) pairs.
Proof.
  intros w o m F. apply offers_found in F. destruct F as (x & k & b & E & G). apply setter_known in G. destruct G as [_ B].
  exists (getter_name m). eapply body_pair; eauto.
Qed.
(** Any other value is refused with an exception, and nothing changes at all — except for
    None given to one of three setters. *)
Theorem C62_refused_partial : forall w o m v, offers w o m -> ~ takes w m v ->
  (In m ["set_id"; "set_message_ref"; "set_condition_expression"] -> v <> PNone) ->
  exists e, exec (CSet o m v) w = (w, Err e).
Proof.
  intros w o m v F T N. apply offers_found in F. destruct F as (x & k & b & E & G).
  destruct (set_effect w o x m k b v E G) as [[X _]|[_ [e X]]]; [contradiction|]. exists e. rewrite X.
  replace (early b v) with false; [reflexivity|]. apply setter_known in G. destruct G as [_ B]. unfold body_of in B. apply dget_In in B. cbn [In] in B.
  repeat destruct B as [B|B]; try contradiction; injection B as <- <-; try reflexivity;
    cbn [early]; (destruct (is_none v) eqn:Z; [|reflexivity]); destruct v; try discriminate; exfalso; apply N; simpl; tauto.
Qed.
(** What None does there: it is refused, and the old value is lost. *)
Theorem C62_none_is_stored : forall w o m g, offers w o m -> In (m, g) [("set_id", "get_id"); ("set_message_ref", "get_message_ref");
    ("set_condition_expression", "get_condition_expression")] ->
  exists w' e, exec (CSet o m PNone) w = (w', Err e) /\ exec (CGet o g) w' = (w', Ok PNone) /\ otherwise_same w w' o g.
Proof.
  intros w o m g F P. apply offers_found in F. destruct F as (x & k & b & E & G). destruct (setter_known _ _ _ _ G) as [K B].
  assert (X : getter_name m = g /\ early b PNone = true /\ ~ takes w m PNone).
  { rewrite (takes_fits w m b PNone B). simpl in P. repeat destruct P as [P|P]; try contradiction; injection P as <- <-;
      injection B as <-; (split; [reflexivity|]); (split; [reflexivity|]); discriminate. }
  destruct X as (<- & Eb & T). destruct (set_effect w o x m k b PNone E G) as [[X _]|[_ [e X]]]; [contradiction|]. rewrite Eb in X.
  exists (assigned w o k PNone), e. split; [exact X|]. split; [eapply assigned_get; eauto|eapply assigned_otherwise; eauto].
Qed.

(** A task with an id. *)
Definition task_world : world := run [CNew (RGraph, Task) PNone PNone; CSet 0 "set_id" (PStr "t1")] empty_world.
Example C62_example :
  snd (exec (CGet 0 "get_id") task_world) = Ok (PStr "t1") /\ offers task_world 0 "set_name" /\
  takes task_world "set_name" (PStr "Pay") /\ ~ takes task_world "set_name" (PInt 3) /\ offers task_world 0 "set_incoming".
Proof.
  split; [reflexivity|]. split; [|split; [|split]].
  - eexists. exists (RPackage, FlowElement). split; [reflexivity|]. split; [|left; reflexivity]. apply derives_in. vm_compute. tauto.
  - apply tk_optional; [left; reflexivity|right; eexists; reflexivity].
  - rewrite (takes_fits task_world "set_name" BOptStr (PInt 3) eq_refl). discriminate.
  - eexists. exists (RGraph, FlowNode). split; [reflexivity|]. split; [|left; reflexivity]. apply derives_in. vm_compute. tauto.
Qed.
(** A refused value does not always leave the object unchanged. *)
Theorem C62_refused_refuted : exists l o m g v e, let w := run l empty_world in
  snd (exec (CSet o m v) w) = Err e /\ snd (exec (CGet o g) w) = Ok (PStr "t1") /\
  snd (exec (CGet o g) (fst (exec (CSet o m v) w))) = Ok PNone.
Proof.
  exists [CNew (RGraph, Task) PNone PNone; CSet 0 "set_id" (PStr "t1")], 0, "set_id", "get_id", PNone, TypeError.
  vm_compute. auto.
Qed.

(** * C63 *)
(** What a getter may return. *)
Definition one_of (l : list string) (v : pv) : Prop := exists s, v = PStr s /\ In s l.
Inductive valid (w : world) : string -> pv -> Prop :=
| va_text : forall g v, In g ["get_id"; "get_name"; "get_default"; "get_condition"; "get_message_ref"; "get_process_ref"] ->
    v = PNone \/ a_string v -> valid w g v
| va_source : forall v, a_string v -> valid w "get_source_ref" v
| va_target : forall v, v <> PNone -> valid w "get_target_ref" v
| va_bool : forall g v, In g ["triggered_by_event"; "parallel_multiple"; "is_closed"; "is_executable"] -> a_bool v -> valid w g v
| va_immediate : forall v, v = PNone \/ a_bool v -> valid w "is_immediate" v
| va_list : forall g i, In g ["get_incoming"; "get_outgoing"; "get_flow_node_ref_list"; "get_lane_list"; "get_lane_set_list";
    "get_flow_element_list"; "get_event_definition_list"] -> valid w g (PList i)
| va_child : forall v, v = PNone \/ is_a w (RGraph, LaneSet) v -> valid w "get_child_lane_set" v
| va_condition : forall v, v = PNone \/ is_a w (RGraph, ConditionExpression) v -> valid w "get_condition_expression" v
| va_direction : forall v, one_of ["Unspecified"; "Converging"; "Diverging"; "Mixed"] v -> valid w "get_gateway_direction" v
| va_process : forall v, one_of ["None"; "Public"; "Private"] v -> valid w "get_process_type" v.

(** Objects keep their class. *)
Definition keeps (w w' : world) : Prop :=
  forall i x, nth_error (objects w) i = Some x -> exists x', nth_error (objects w') i = Some x' /\ o_class x' = o_class x.
Lemma keeps_is_a : forall w w' c v, keeps w w' -> is_a w c v -> is_a w' c v.
Proof. intros w w' c v K (i & x & -> & E & D). destruct (K i x E) as (x' & E' & C). exists i, x'. rewrite C. auto. Qed.
Lemma keeps_valid : forall w w' g v, keeps w w' -> valid w g v -> valid w' g v.
Proof. intros w w' g v K V. destruct V; constructor; auto; match goal with H : _ \/ _ |- _ => destruct H as [H|H]; [left; exact H|right; eapply keeps_is_a; eauto] end. Qed.
Lemma keeps_assigned : forall w o k v, keeps w (assigned w o k v).
Proof.
  intros w o k v i x E. unfold assigned. cbn [objects]. rewrite nth_update, E. destruct (Nat.eqb o i); cbn [option_map]; eexists; split; reflexivity.
Qed.
Lemma takes_valid : forall w m g v, In (m, g) pairs -> takes w m v -> valid w g v.
Proof.
  intros w m g v P T. unfold pairs in P. cbn [In] in P. 
  assert (SI : forall v, a_string v -> v <> PNone) by (intros ? [? ->]; discriminate).
  repeat destruct P as [P|P]; try contradiction; injection P as <- <-;
    inversion T; subst; try (match goal with H : In _ _ |- _ => simpl in H; exfalso; intuition discriminate end);
    try (apply va_text; [simpl; tauto|auto; fail]); try (apply va_bool; [simpl; tauto|assumption]);
    try (match goal with H : list_of _ _ _ |- _ => destruct H as (? & ? & -> & _); apply va_list; simpl; tauto end);
    try (constructor; auto; fail); try (constructor; eexists; eauto; fail).
Qed.
Lemma none_valid : forall w m g b, In (m, g) pairs -> body_of m = Some b -> early b PNone = true -> valid w g PNone.
Proof.
  intros w m g b P B E. unfold pairs in P. cbn [In] in P. repeat destruct P as [P|P]; try contradiction; injection P as <- <-;
    injection B as <-; try discriminate E; first [apply va_text; [simpl; tauto|auto; fail]|apply va_condition; auto].
Qed.

Definition initial_ok (c : cls) (g : string) (i : initial) : bool :=
  match i with
  | INone => smem g ["get_id"; "get_name"; "get_default"; "get_condition"; "get_message_ref"; "get_process_ref"; "is_immediate";
                     "get_child_lane_set"; "get_condition_expression"]
  | IFalse => smem g ["triggered_by_event"; "parallel_multiple"; "is_closed"; "is_executable"]
  | IStr s => (String.eqb g "get_gateway_direction" && smem s ["Unspecified"; "Converging"; "Diverging"; "Mixed"]) ||
              (String.eqb g "get_process_type" && smem s ["None"; "Public"; "Private"])
  | IList => smem g ["get_incoming"; "get_outgoing"; "get_flow_node_ref_list"; "get_lane_list"; "get_lane_set_list";
                     "get_flow_element_list"; "get_event_definition_list"]
  | ISource => String.eqb g "get_source_ref" && (cname_eqb (snd c) MessageFlow || cname_eqb (snd c) SequenceFlow)
  | ITarget => String.eqb g "get_target_ref" && (cname_eqb (snd c) MessageFlow || cname_eqb (snd c) SequenceFlow)
  end.
Lemma initial_table : forall c g k, dget g (getters c) = Some k -> exists i, dget k (all_fields c) = Some i /\ initial_ok c g i = true.
Proof.
  intros c g k H. assert (T : forall c, forallb (fun e => match dget (snd e) (all_fields c) with Some i => initial_ok c (fst e) i | None => false end) (getters c) = true)
    by (apply for_classes; vm_compute; reflexivity).
  specialize (T c). rewrite forallb_forall in T. specialize (T _ (dget_In _ _ _ H)). cbn [fst snd] in T.
  destruct (dget k (all_fields c)) as [i|]; [|discriminate]. exists i. auto.
Qed.
Definition initial_is (s t : pv) (i : initial) (v : pv) : Prop :=
  match i with INone => v = PNone | IFalse => v = PBool false | IStr x => v = PStr x | IList => exists j, v = PList j | ISource => v = s | ITarget => v = t end.
Lemma initial_fields_get : forall s t fs ls k i, dget k fs = Some i ->
  exists v, dget k (snd (initial_fields s t fs ls)) = Some v /\ initial_is s t i v.
Proof.
  induction fs as [|[k' i'] fs IH]; intros ls k i H; [discriminate|]. cbn [initial_fields].
  destruct (initial_value s t i' ls) as [ls1 v1] eqn:V. destruct (initial_fields s t fs ls1) as [ls2 d] eqn:F. cbn [snd dget] in *.
  destruct (String.eqb k k').
  - injection H as ->. exists v1. split; [reflexivity|]. destruct i; simpl in V; injection V as <- <-; simpl; eauto.
  - specialize (IH ls1 k i H). rewrite F in IH. exact IH.
Qed.
Lemma initial_valid : forall w c g i s t v, check_ends (snd c) s t = Ok tt -> initial_ok c g i = true -> initial_is s t i v -> valid w g v.
Proof.
  intros w c g i s t v C O I.
  assert (ends : cname_eqb (snd c) MessageFlow || cname_eqb (snd c) SequenceFlow = true -> a_string s /\ t <> PNone).
  { intros X. apply orb_true_iff in X. rewrite !cname_eqb_eq in X. destruct X as [X|X]; rewrite X in C; simpl in C;
      (destruct s; simpl in C; try discriminate; split; [eexists; reflexivity|]; intros ->; discriminate). }
  destruct i; cbn [initial_ok initial_is] in *.
  - subst v. apply smem_In in O. cbn [In] in O. repeat destruct O as [O|O]; try contradiction; subst g; first [apply va_text; [simpl; tauto|auto; fail]|apply va_immediate; auto; fail|apply va_child; auto; fail|apply va_condition; auto].
  - subst v. apply smem_In in O. apply va_bool; [exact O|eexists; reflexivity].
  - subst v. apply orb_true_iff in O. rewrite !andb_true_iff, !String.eqb_eq, !smem_In in O. destruct O as [[-> O]|[-> O]]; [apply va_direction|apply va_process]; eexists; eauto.
  - destruct I as [j ->]. apply smem_In in O. apply va_list. exact O.
  - subst v. apply andb_true_iff in O. rewrite String.eqb_eq in O. destruct O as [-> O]. apply va_source. apply ends, O.
  - subst v. apply andb_true_iff in O. rewrite String.eqb_eq in O. destruct O as [-> O]. apply va_target. apply ends, O.
Qed.

Definition good (w : world) : Prop :=
  forall o x g k, nth_error (objects w) o = Some x -> dget g (getters (o_class x)) = Some k -> exists v, field w o g = Some v /\ valid w g v.
Lemma nth_app_one : forall A (l : list A) y i x, nth_error (l ++ [y]) i = Some x -> nth_error l i = Some x \/ i = length l /\ x = y.
Proof.
  intros A l y i x H. destruct (Nat.lt_ge_cases i (length l)) as [L|L]; [rewrite nth_error_app1 in H by assumption; auto|].
  rewrite nth_error_app2 in H by assumption. right. destruct (i - length l) as [|n] eqn:D; simpl in H; [|destruct n; discriminate].
  injection H as <-. split; [lia|reflexivity].
Qed.
Lemma assigned_good : forall w o x g k v, nth_error (objects w) o = Some x -> dget g (getters (o_class x)) = Some k -> valid w g v ->
  good w -> good (assigned w o k v).
Proof.
  intros w o x g k v E G V I o' x' g' k' E' G'. rewrite (assigned_field w o x g k v E G).
  destruct (Nat.eqb_spec o' o) as [-> |N], (String.eqb_spec g' g) as [-> |N']; cbn [andb];
    try (exists v; split; [reflexivity|]; eapply keeps_valid; [apply keeps_assigned|exact V]);
    (pose proof (assigned_class w o k v) as Q);
    match goal with |- exists u, field w ?a ?b = Some u /\ _ => specialize (Q a); rewrite E' in Q;
      destruct (nth_error (objects w) a) as [y|] eqn:Ey; simpl in Q; [|discriminate]; injection Q as Q; rewrite Q in G';
      destruct (I a y b k' Ey G') as (nv & U1 & U2); exists nv; split; [exact U1|]; eapply keeps_valid; [apply keeps_assigned|exact U2] end.
Qed.
Lemma lists_good : forall w ls, good w -> good (mkWorld (objects w) ls).
Proof.
  intros w ls I o x g k E G. destruct (I o x g k E G) as (v & F & V). exists v. split; [exact F|]. eapply keeps_valid; [|exact V].
  intros i y Hy. exists y. auto.
Qed.
Lemma new_good : forall w c s t, check_ends (snd c) s t = Ok tt -> good w ->
  good (fst (exec (CNew c s t) w)) /\ keeps w (fst (exec (CNew c s t) w)).
Proof.
  intros w c s t C I. unfold exec, construct, mbind, mread. rewrite C. cbn [fst].
  destruct (initial_fields s t (all_fields c) (lists w)) as [ls fs] eqn:F. cbn [fst].
  assert (K : keeps w (mkWorld (objects w ++ [mkObject c fs]) ls)).
  { intros i x E. exists x. split; [|reflexivity]. cbn [objects]. rewrite nth_error_app1; [exact E|]. apply nth_error_Some. congruence. }
  split; [|exact K]. intros o x g k E G. cbn [objects] in E. destruct (nth_app_one _ _ _ _ _ E) as [E'|[-> ->]].
  - destruct (I o x g k E' G) as (v & Fv & V). exists v. split; [|eapply keeps_valid; eauto]. unfold field in *. cbn [objects]. rewrite E. rewrite E' in Fv. exact Fv.
  - cbn [o_class] in G. destruct (initial_table c g k G) as (i & Gi & O).
    destruct (initial_fields_get s t (all_fields c) (lists w) k i Gi) as (v & Gv & Iv). rewrite F in Gv. cbn [snd] in Gv.
    exists v. split; [|eapply initial_valid; eauto]. unfold field. cbn [objects]. rewrite E. cbn [o_class o_fields]. rewrite G. exact Gv.
Qed.
Lemma exec_good : forall c w, good w -> good (fst (exec c w)).
Proof.
  intros [c s t|o m v|o g|l|i v] w I.
  - destruct (check_ends (snd c) s t) as [[]|e] eqn:C; [apply new_good; assumption|]. unfold exec, construct, mbind, mread. rewrite C. exact I.
  - destruct (nth_error (objects w) o) as [x|] eqn:E; [|unfold exec, call_setter, mbind, mread, class_of; rewrite E; exact I].
    destruct (dget m (setters (o_class x))) as [[k b]|] eqn:G.
    2:{ unfold exec, call_setter, mbind, mread, class_of. rewrite E, find_setter, G. exact I. }
    destruct (setter_known _ _ _ _ G) as [Gk B]. pose proof (body_pair m b B) as P.
    destruct (set_effect w o x m k b v E G) as [[T X]|[_ [e X]]]; rewrite X; cbn [fst].
    + eapply assigned_good; eauto. eapply takes_valid; eauto.
    + destruct (early b v) eqn:Eb; [|exact I]. eapply assigned_good; eauto. eapply none_valid; eauto.
      destruct b; simpl in *; try discriminate; reflexivity.
  - replace (fst (exec (CGet o g) w)) with w; [exact I|]. unfold exec, call_getter, mbind, mread. destruct (class_of o w); [|reflexivity].
    destruct (find_method own_getters (mro a) g); reflexivity.
  - apply lists_good. exact I.
  - apply lists_good. exact I.
Qed.
Lemma run_good : forall l w, good w -> good (run l w).
Proof. induction l as [|c l IH]; intros w I; [exact I|]. apply IH, exec_good, I. Qed.
Lemma empty_good : good empty_world.
Proof. intros o x g k E. destruct o; discriminate. Qed.

(** The getter [g] is defined by the class of the object or one of its bases. *)
Definition answers (w : world) (o : nat) (g : string) : Prop :=
  exists x c, nth_error (objects w) o = Some x /\ derives (o_class x) c /\ In g (map fst (own_getters (snd c))).
Lemma answers_found : forall w o g, answers w o g <-> exists x k, nth_error (objects w) o = Some x /\ dget g (getters (o_class x)) = Some k.
Proof.
  intros w o g. split.
  - intros (x & c & E & D & I). apply derives_in in D.
    assert (J : In g (dkeys (getters (o_class x)))).
    { unfold getters, dkeys. apply in_map_iff in I. destruct I as [[g' k] [<- I]]. apply in_map_iff. exists (g', k). split; [reflexivity|].
      apply in_flat_map. exists c. auto. }
    apply dget_Some_keys in J. destruct J as [k J]. exists x, k. auto.
  - intros (x & k & E & G). apply dget_In in G. unfold getters in G. apply in_flat_map in G. destruct G as [c [Ic G]].
    exists x, c. split; [exact E|]. split; [apply derives_in; exact Ic|]. apply in_map_iff. exists (g, k). auto.
Qed.
(** After any program every getter of every object returns a value of its kind. *)
Theorem C63_always_valid : forall l o g, let w := run l empty_world in
  answers w o g -> exists v, exec (CGet o g) w = (w, Ok v) /\ valid w g v.
Proof.
  intros l o g w A. apply answers_found in A. destruct A as (x & k & E & G).
  destruct (run_good l _ empty_good o x g k E G) as (v & F & V). exists v. split; [apply get_field; exact F|exact V].
Qed.
Theorem C63_enumerations : forall l o g v, let w := run l empty_world in snd (exec (CGet o g) w) = Ok v ->
  (g = "get_gateway_direction" -> one_of ["Unspecified"; "Converging"; "Diverging"; "Mixed"] v) /\
  (g = "get_process_type" -> one_of ["None"; "Public"; "Private"] v).
Proof.
  intros l o g v w H.
  assert (F : field w o g = Some v).
  { apply get_field. rewrite <- H. unfold exec, call_getter, mbind, mread. destruct (class_of o w); [|reflexivity].
    destruct (find_method own_getters (mro a) g); reflexivity. }
  unfold field in F. destruct (nth_error (objects w) o) as [x|] eqn:E; [|discriminate]. destruct (dget g (getters (o_class x))) as [k|] eqn:G; [|discriminate].
  destruct (run_good l _ empty_good o x g k E G) as (v' & F' & V). fold w in F', V. unfold field in F'. rewrite E, G, F in F'. injection F' as <-.
  split; intros ->; inversion V; subst; try assumption; simpl in *; exfalso; intuition discriminate.
Qed.
Definition gateway_program : list call :=
  [CNew (RGraph, ExclusiveGateway) PNone PNone; CSet 0 "set_gateway_direction" (PStr "Diverging");
   CSet 0 "set_gateway_direction" (PStr "Sideways"); CNew (RGraph, Process) PNone PNone; CSet 1 "set_process_type" (PStr "Public")].
Example C63_example : let w := run gateway_program empty_world in
  answers w 0 "get_gateway_direction" /\ snd (exec (CGet 0 "get_gateway_direction") w) = Ok (PStr "Diverging") /\
  snd (exec (CGet 1 "get_process_type") w) = Ok (PStr "Public") /\ snd (exec (CGet 0 "get_incoming") w) = Ok (PList 0).
Proof.
  split; [|vm_compute; auto]. eexists. exists (RGraph, Gateway). split; [reflexivity|]. split; [apply derives_in; vm_compute; tauto|left; reflexivity].
Qed.

(** * C64 *)
(** A flow can be constructed exactly when its source is a string and its target is not None;
    both are then returned by the getters, and the objects there were are unchanged. *)
Theorem C64_constructed_iff : forall w r n s t, n = SequenceFlow \/ n = MessageFlow ->
  ((exists w' v, exec (CNew (r, n) s t) w = (w', Ok v)) <-> a_string s /\ t <> PNone).
Proof.
  intros w r n s t N.
  assert (C : check_ends n s t = Ok tt <-> a_string s /\ t <> PNone).
  { split.
    - destruct N as [-> | ->]; simpl; destruct s; simpl; try discriminate; destruct t; simpl; try discriminate; intros _; (split; [eexists; reflexivity|discriminate]).
    - intros [[x ->] T]. destruct N as [-> | ->]; simpl; destruct t; simpl; try reflexivity; contradiction. }
  rewrite <- C. unfold exec, construct, mbind, mread. cbn [snd]. destruct (check_ends n s t) as [[]|e].
  - destruct (initial_fields _ _ _ _) as [ls fs]. split; [auto|]. intros _. eexists. eexists. reflexivity.
  - split; [intros (w' & v & H); discriminate|discriminate].
Qed.
Theorem C64_refused_unchanged : forall w c s t w' e, exec (CNew c s t) w = (w', Err e) -> w' = w.
Proof.
  intros w c s t w' e. unfold exec, construct, mbind, mread. destruct (check_ends (snd c) s t) as [[]|e'].
  - destruct (initial_fields _ _ _ _) as [ls fs]. discriminate.
  - intros H. inversion H. reflexivity.
Qed.
Lemma flow_fields : forall r n s t ls, n = SequenceFlow \/ n = MessageFlow -> forall g i, In (g, i) [("get_source_ref", s); ("get_target_ref", t)] ->
  exists k, dget g (getters (r, n)) = Some k /\ dget k (snd (initial_fields s t (all_fields (r, n)) ls)) = Some i.
Proof.
  intros r n s t ls N g i I. simpl in I. destruct I as [I|[I|[]]]; injection I as <- <-;
    destruct N as [-> | ->]; destruct r; eexists; (split; reflexivity).
Qed.
Theorem C64_ends_returned : forall w r n s t w' v, n = SequenceFlow \/ n = MessageFlow -> exec (CNew (r, n) s t) w = (w', Ok v) ->
  v = PObj (length (objects w)) /\
  exec (CGet (length (objects w)) "get_source_ref") w' = (w', Ok s) /\
  exec (CGet (length (objects w)) "get_target_ref") w' = (w', Ok t) /\
  (forall o g, o < length (objects w) -> snd (exec (CGet o g) w') = snd (exec (CGet o g) w)).
Proof.
  intros w r n s t w' v N H. pose proof (flow_fields r n s t (lists w) N) as F. unfold exec, construct, mbind, mread in H.
  destruct (check_ends (snd (r, n)) s t) as [[]|e]; [|discriminate].
  destruct (initial_fields s t (all_fields (r, n)) (lists w)) as [ls fs]. cbn [snd] in F. injection H as <- <-.
  assert (L : nth_error (objects w ++ [mkObject (r, n) fs]) (length (objects w)) = Some (mkObject (r, n) fs))
    by (rewrite nth_error_app2 by lia; rewrite Nat.sub_diag; reflexivity).
  split; [reflexivity|]. split; [|split].
  - apply get_field. unfold field. cbn [objects]. rewrite L. cbn [o_class o_fields]. destruct (F "get_source_ref" s) as (k & -> & G); [left; reflexivity|exact G].
  - apply get_field. unfold field. cbn [objects]. rewrite L. cbn [o_class o_fields]. destruct (F "get_target_ref" t) as (k & -> & G); [right; left; reflexivity|exact G].
  - intros o g O. apply same_snd; unfold field; cbn [objects]; rewrite nth_error_app1 by assumption; reflexivity.
Qed.
Example C64_example : snd (exec (CNew (RGraph, SequenceFlow) (PStr "a") (PStr "b")) task_world) = Ok (PObj 1).
Proof. reflexivity. Qed.
(** The target may be any other value, such as a number. *)
Theorem C64_strings_refuted : exists l o, let w := run l empty_world in
  exists z, snd (exec (CGet o "get_target_ref") w) = Ok (PInt z).
Proof. exists [CNew (RGraph, SequenceFlow) (PStr "a") (PInt 5)], 0. exists 5%Z. reflexivity. Qed.

(** * C77 *)
(** What the lists hold. *)
Inductive member (w : world) : string -> pv -> Prop :=
| me_string : forall g e, In g ["get_incoming"; "get_outgoing"; "get_flow_node_ref_list"] -> a_string e -> member w g e
| me_lane : forall e, is_a w (RGraph, LaneClass) e -> member w "get_lane_list" e
| me_set : forall e, is_a w (RGraph, LaneSet) e -> member w "get_lane_set_list" e
| me_element : forall e, is_a w (RGraph, FlowElement) e -> member w "get_flow_element_list" e
| me_definition : forall e, is_a w (RGraph, EventDefinition) e -> member w "get_event_definition_list" e.
Definition appends (c : call) : Prop := match c with CAppend _ _ => True | _ => False end.

Lemma keeps_member : forall w w' g v, keeps w w' -> member w g v -> member w' g v.
Proof.
  intros w w' g v K V. destruct V; [apply me_string|apply me_lane|apply me_set|apply me_element|apply me_definition];
    try assumption; eapply keeps_is_a; eauto.
Qed.
Lemma takes_member : forall w m g v i, In (m, g) pairs -> takes w m v -> v = PList i ->
  exists l, nth_error (lists w) i = Some l /\ forall e, In e l -> member w g e.
Proof.
  intros w m g v i P T ->. unfold pairs in P. cbn [In] in P.
  assert (NS : ~ a_string (PList i)) by (intros [? X]; discriminate).
  assert (NB : ~ a_bool (PList i)) by (intros [? X]; discriminate).
  assert (NA : forall c, ~ is_a w c (PList i)) by (intros c (? & ? & X & _); discriminate).
  inversion T as [m' v' I' H|m' v' I' H|m' v' I' H|v' H|m' v' I' H|v' H|v' H|v' H|v' H|v' H|v' H|s H|s H]; subst;
    try (exfalso; first [exact (NS H)|exact (NB H)|destruct H as [H|H]; [discriminate H|exact (NS H)]|destruct H as [H|H]; [discriminate H|exact (NB H)]
                        |destruct H as [H|H]; [discriminate H|exact (NA _ H)]|exact (NA _ H)]; fail);
    destruct H as (j & l & J & E & H); injection J as <-; exists l; (split; [exact E|]); intros e He; specialize (H e He).
  - simpl in I'. repeat destruct P as [P|P]; try contradiction; injection P as <- <-; try (exfalso; intuition discriminate); apply me_string; simpl; auto.
  - repeat destruct P as [P|P]; try contradiction; try discriminate P; injection P as <-; apply me_lane; exact H.
  - repeat destruct P as [P|P]; try contradiction; try discriminate P; injection P as <-; apply me_set; exact H.
  - repeat destruct P as [P|P]; try contradiction; try discriminate P; injection P as <-; apply me_element; exact H.
  - repeat destruct P as [P|P]; try contradiction; try discriminate P; injection P as <-; apply me_definition; exact H.
Qed.
Definition held (w : world) : Prop :=
  forall o g i, field w o g = Some (PList i) -> g <> "get_target_ref" ->
    exists l, nth_error (lists w) i = Some l /\ forall e, In e l -> member w g e.
Lemma held_grow : forall w w', keeps w w' -> (forall i l, nth_error (lists w) i = Some l -> nth_error (lists w') i = Some l) ->
  (forall o g i, field w' o g = Some (PList i) -> g <> "get_target_ref" -> field w o g = Some (PList i) \/ nth_error (lists w') i = Some []) ->
  held w -> held w'.
Proof.
  intros w w' K L F H o g i G N. destruct (F o g i G N) as [E|E].
  - destruct (H o g i E N) as (l & El & M). exists l. split; [auto|]. intros e He. eapply keeps_member; eauto.
  - exists []. split; [exact E|contradiction].
Qed.
Lemma initial_lists : forall s t fs ls i l, nth_error ls i = Some l -> nth_error (fst (initial_fields s t fs ls)) i = Some l.
Proof.
  induction fs as [|[k x] fs IH]; intros ls i l H; [exact H|]. cbn [initial_fields].
  destruct (initial_value s t x ls) as [ls1 v1] eqn:V. destruct (initial_fields s t fs ls1) as [ls2 d] eqn:F. cbn [fst].
  replace ls2 with (fst (initial_fields s t fs ls1)) by (rewrite F; reflexivity). apply IH.
  destruct x; simpl in V; injection V as <- <-; try exact H. rewrite nth_error_app1; [exact H|]. apply nth_error_Some. congruence.
Qed.
Lemma initial_new_list : forall s t fs ls k x j, dget k fs = Some x -> x <> ISource -> x <> ITarget ->
  dget k (snd (initial_fields s t fs ls)) = Some (PList j) -> nth_error (fst (initial_fields s t fs ls)) j = Some [].
Proof.
  induction fs as [|[k' x'] fs IH]; intros ls k x j H N1 N2; [discriminate|]. cbn [initial_fields].
  destruct (initial_value s t x' ls) as [ls1 v1] eqn:V. destruct (initial_fields s t fs ls1) as [ls2 d] eqn:F. cbn [fst snd dget] in *.
  replace ls2 with (fst (initial_fields s t fs ls1)) by (rewrite F; reflexivity).
  replace d with (snd (initial_fields s t fs ls1)) by (rewrite F; reflexivity).
  destruct (String.eqb k k').
  - injection H as ->. intros E. injection E as ->. apply initial_lists.
    destruct x; simpl in V; try discriminate V; try (injection V as <- V; contradiction); injection V as <- <-.
    rewrite nth_error_app2 by lia. rewrite Nat.sub_diag. reflexivity.
  - apply IH with x; assumption.
Qed.
Lemma exec_held : forall c w, ~ appends c -> held w -> held (fst (exec c w)).
Proof.
  intros [c s t|o m v|o g|l|i v] w A I.
  - unfold exec, construct, mbind, mread. destruct (check_ends (snd c) s t) as [[]|e] eqn:C; [|exact I].
    destruct (initial_fields s t (all_fields c) (lists w)) as [ls fs] eqn:F. cbn [fst].
    apply held_grow with w; [| |intros o g i|exact I].
    + intros i x E. exists x. split; [|reflexivity]. cbn [objects]. rewrite nth_error_app1; [exact E|]. apply nth_error_Some. congruence.
    + intros i l E. cbn [lists]. replace ls with (fst (initial_fields s t (all_fields c) (lists w))) by (rewrite F; reflexivity). apply initial_lists, E.
    + intros G N. unfold field in *. cbn [objects lists] in *. destruct (nth_error (objects w ++ [mkObject c fs]) o) as [x|] eqn:E; [|discriminate].
      destruct (nth_app_one _ _ _ _ _ E) as [E'|[-> ->]]; [left; rewrite E'; exact G|right]. cbn [o_class o_fields] in G.
      destruct (dget g (getters c)) as [k|] eqn:Gk; [|discriminate]. destruct (initial_table c g k Gk) as (x & Gx & O).
      replace ls with (fst (initial_fields s t (all_fields c) (lists w))) by (rewrite F; reflexivity).
      apply initial_new_list with k x; [exact Gx| | |rewrite F; exact G].
      * intros ->. destruct (initial_fields_get s t (all_fields c) (lists w) k ISource Gx) as (v & Gv & Iv). rewrite F in Gv. cbn [snd] in Gv.
        rewrite Gv in G. injection G as ->. pose proof (initial_valid w c g ISource s t (PList i) C O Iv) as V. cbn [initial_ok] in O.
        apply andb_true_iff in O. rewrite String.eqb_eq in O. destruct O as [-> _]. inversion V; subst; simpl in *; try (intuition discriminate).
        match goal with H : a_string _ |- _ => destruct H; discriminate end.
      * intros ->. cbn [initial_ok] in O. apply andb_true_iff in O. rewrite String.eqb_eq in O. destruct O as [-> _]. contradiction.
  - destruct (nth_error (objects w) o) as [x|] eqn:E; [|unfold exec, call_setter, mbind, mread, class_of; rewrite E; exact I].
    destruct (dget m (setters (o_class x))) as [[k b]|] eqn:G.
    2:{ unfold exec, call_setter, mbind, mread, class_of. rewrite E, find_setter, G. exact I. }
    destruct (setter_known _ _ _ _ G) as [Gk B]. pose proof (body_pair m b B) as P.
    assert (H : forall u, (forall i, u = PList i -> exists l, nth_error (lists w) i = Some l /\ forall e, In e l -> member w (getter_name m) e) -> held (assigned w o k u)).
    { intros u U o' g' i F N. rewrite (assigned_field w o x _ k u E Gk) in F. change (lists (assigned w o k u)) with (lists w).
      assert (Q : exists l, nth_error (lists w) i = Some l /\ forall e, In e l -> member w g' e).
      { destruct (Nat.eqb_spec o' o) as [-> |N1], (String.eqb_spec g' (getter_name m)) as [-> |N2]; cbn [andb] in F;
          first [injection F as ->; apply U; reflexivity|apply I with o'; assumption|apply I with o; assumption]. }
      destruct Q as (l & El & M). exists l. split; [exact El|]. intros e He. eapply keeps_member; [apply keeps_assigned|auto]. }
    destruct (set_effect w o x m k b v E G) as [[T X]|[_ [e X]]]; rewrite X; cbn [fst].
    + apply H. intros i Ei. eapply takes_member; eauto.
    + destruct (early b v); [|exact I]. apply H. discriminate.
  - replace (fst (exec (CGet o g) w)) with w; [exact I|]. unfold exec, call_getter, mbind, mread. destruct (class_of o w); [|reflexivity].
    destruct (find_method own_getters (mro a) g); reflexivity.
  - cbn [exec fst]. apply held_grow with w; [| |intros o g i G _; left; exact G|exact I].
    + intros i x E. exists x. auto.
    + intros i k E. cbn [lists]. rewrite nth_error_app1; [exact E|]. apply nth_error_Some. congruence.
  - elim A. exact Logic.I.
Qed.
(** In a program that appends to no list, the list a getter returns holds only values of the
    declared kind.  Missing: programs that append. *)
Theorem C77_lists_partial : forall l o g i, (forall c, In c l -> ~ appends c) -> let w := run l empty_world in
  snd (exec (CGet o g) w) = Ok (PList i) -> g <> "get_target_ref" ->
  exists es, nth_error (lists w) i = Some es /\ forall e, In e es -> member w g e.
Proof.
  intros l o g i A w H N.
  assert (Hw : held w).
  { unfold w. assert (H0 : held empty_world) by (intros [|?] ? ? X; discriminate). clear H w. revert H0. generalize empty_world.
    induction l as [|c l IH]; intros w0 H0; [exact H0|]. cbn [run]. apply IH; [intros c' Hc'; apply A; right; exact Hc'|]. apply exec_held; [apply A; left; reflexivity|exact H0]. }
  apply Hw with o; [|exact N]. apply get_field. rewrite <- H. unfold exec, call_getter, mbind, mread. destruct (class_of o w); [|reflexivity].
  destruct (find_method own_getters (mro a) g); reflexivity.
Qed.
Definition lane_program : list call :=
  [CNew (RGraph, LaneClass) PNone PNone; CNew (RGraph, LaneSet) PNone PNone; CList [PObj 0]; CSet 1 "set_lane_list" (PList 2);
   CNew (RGraph, Task) PNone PNone; CList [PStr "f1"; PStr "f2"]; CSet 2 "set_incoming" (PList 5)].
Example C77_example : let w := run lane_program empty_world in
  (forall c, In c lane_program -> ~ appends c) /\ snd (exec (CGet 1 "get_lane_list") w) = Ok (PList 2) /\ nth_error (lists w) 2 = Some [PObj 0] /\
  snd (exec (CGet 2 "get_incoming") w) = Ok (PList 5) /\ nth_error (lists w) 5 = Some [PStr "f1"; PStr "f2"].
Proof.
  split; [|vm_compute; auto]. intros c I. unfold lane_program in I. cbn [In] in I. repeat destruct I as [<- |I]; try contradiction; intros [].
Qed.
(** The list given to a setter, and the list a getter returns, is the list of the object: what
    is appended to it afterwards is not checked. *)
Theorem C77_lists_refuted : exists l o i z, let w := run l empty_world in
  snd (exec (CGet o "get_incoming") w) = Ok (PList i) /\ nth_error (lists w) i = Some [PStr "f1"; PInt z].
Proof.
  exists [CNew (RGraph, Task) PNone PNone; CList [PStr "f1"]; CSet 0 "set_incoming" (PList 2); CAppend 2 (PInt 7)], 0, 2, 7%Z.
  vm_compute. auto.
Qed.

(** * C78 *)
(** No process and no subprocess accepts a flow node (task, event, gateway, subprocess) in its list of flow
    elements. *)
Theorem C78_flow_nodes_refused : forall w o i l n x r, offers w o "set_flow_element_list" ->
  nth_error (lists w) i = Some l -> In (PObj n) l -> nth_error (objects w) n = Some x -> derives (o_class x) (r, FlowNode) ->
  exists e, exec (CSet o "set_flow_element_list" (PList i)) w = (w, Err e).
Proof.
  intros w o i l n x r O L I E D. apply C62_refused_partial; [exact O| |intros _; discriminate].
  assert (X : ~ is_a w (RGraph, FlowElement) (PObj n)).
  { intros (n' & x' & Hn & Ex & Dx). injection Hn as <-. rewrite E in Ex. injection Ex as <-.
    assert (T : forall c, existsb (fun r => existsb (cls_eqb (r, FlowNode)) (mro c)) [RGraph; RPackage] && existsb (cls_eqb (RGraph, FlowElement)) (mro c) = false).
    { intros c. apply negb_true_iff. revert c. apply for_classes. vm_compute. reflexivity. }
    specialize (T (o_class x)). apply andb_false_iff in T. apply derives_in in D. apply derives_in in Dx. destruct T as [T|T].
    - enough (existsb (fun r => existsb (cls_eqb (r, FlowNode)) (mro (o_class x))) [RGraph; RPackage] = true) by congruence.
      apply existsb_exists. exists r. split; [destruct r; simpl; tauto|]. apply existsb_exists. exists (r, FlowNode). split; [exact D|apply cls_eqb_eq; reflexivity].
    - enough (existsb (cls_eqb (RGraph, FlowElement)) (mro (o_class x)) = true) by congruence.
      apply existsb_exists. exists (RGraph, FlowElement). split; [exact Dx|apply cls_eqb_eq; reflexivity]. }
  intros T. inversion T as [m' v' I' H|m' v' I' H|m' v' I' H| |m' v' I' H| | |v' H| | | | |]; subst; try (simpl in I'; intuition discriminate).
  destruct H as (j & l' & J & El & H). injection J as <-. rewrite L in El. injection El as <-. apply X, H, I.
Qed.
(** Sequence flows are accepted. *)
Theorem C78_sequence_flows_accepted : forall w o i l, offers w o "set_flow_element_list" -> nth_error (lists w) i = Some l ->
  (forall e, In e l -> exists n x r, e = PObj n /\ nth_error (objects w) n = Some x /\ o_class x = (r, SequenceFlow)) ->
  exists w', exec (CSet o "set_flow_element_list" (PList i)) w = (w', Ok PNone) /\
    exec (CGet o "get_flow_element_list") w' = (w', Ok (PList i)).
Proof.
  intros w o i l O L H. destruct (C62_accepted w o "set_flow_element_list" "get_flow_element_list" (PList i) O) as (w' & X & G & _).
  - unfold pairs. simpl. tauto.
  - apply tk_elements. exists i, l. split; [reflexivity|]. split; [exact L|]. intros e He. destruct (H e He) as (n & x & r & -> & E & C).
    exists n, x. split; [reflexivity|]. split; [exact E|]. rewrite C. apply dv_base with (RGraph, FlowElement); [reflexivity|constructor].
  - exists w'. auto.
Qed.
Definition process_program : list call :=
  [CNew (RGraph, Process) PNone PNone; CNew (RGraph, Task) PNone PNone; CNew (RGraph, SequenceFlow) (PStr "a") (PStr "b");
   CList [PObj 2]; CList [PObj 2; PObj 1]].
Example C78_example : let w := run process_program empty_world in
  offers w 0 "set_flow_element_list" /\ nth_error (lists w) 4 = Some [PObj 2] /\ nth_error (lists w) 5 = Some [PObj 2; PObj 1] /\
  snd (exec (CSet 0 "set_flow_element_list" (PList 4)) w) = Ok PNone /\
  exists x, nth_error (objects w) 1 = Some x /\ derives (o_class x) (RGraph, FlowNode).
Proof.
  split; [|split; [reflexivity|split; [reflexivity|split; [reflexivity|]]]].
  - eexists. exists (RGraph, Process). split; [reflexivity|]. split; [constructor|simpl; tauto].
  - eexists. split; [reflexivity|]. apply derives_in. vm_compute. tauto.
Qed.
Theorem C78_process_holds_task_refuted : exists l e, let w := run l empty_world in
  snd (exec (CSet 0 "set_flow_element_list" (PList 4)) w) = Err e /\ nth_error (lists w) 4 = Some [PObj 1] /\
  option_map o_class (nth_error (objects w) 1) = Some (RGraph, Task) /\ option_map o_class (nth_error (objects w) 0) = Some (RGraph, Process).
Proof.
  exists [CNew (RGraph, Process) PNone PNone; CNew (RGraph, Task) PNone PNone; CList [PObj 1]], TypeError. vm_compute. auto.
Qed.

Print Assumptions C62_accepted.
Print Assumptions C62_every_setter_has_a_getter.
Print Assumptions C62_refused_partial.
Print Assumptions C62_none_is_stored.
Print Assumptions C62_refused_refuted.
Print Assumptions C63_always_valid.
Print Assumptions C63_enumerations.
Print Assumptions C64_constructed_iff.
Print Assumptions C64_refused_unchanged.
Print Assumptions C64_ends_returned.
Print Assumptions C64_strings_refuted.
Print Assumptions C77_lists_partial.
Print Assumptions C77_lists_refuted.
Print Assumptions C78_flow_nodes_refused.
Print Assumptions C78_sequence_flows_accepted.
Print Assumptions C78_process_holds_task_refuted.
