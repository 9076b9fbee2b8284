(** The effect of a whole run of the importer, as folds over its actions. *)
From Coq Require Import String List Bool Arith Lia.
From Verif Require Import Py PyFacts Consts Nx NxFacts Rep SpecRep RepFacts CsvRegex CsvImport CsvFacts Xml Import XmlOps
  ImportFacts.
Import ListNotations.
Open Scope string_scope.
Open Scope list_scope.

Definition refs (k : string) (e : dom) : list string :=
  match collect (reference_of k) (d_kids e) with Ok l => l | Err _ => [] end.
Definition conds (e : dom) : list (string * pyval) :=
  match collect condition_of (d_kids e) with Ok l => l | Err _ => [] end.

Notation src e := (get_attribute "sourceRef" e).
Notation tgt e := (get_attribute "targetRef" e).
Notation eid e := (get_attribute "id" e).

Definition join_eff (x : dom) (n k : string) (v : option pyval) : option pyval :=
  if (n =? src x) && (k =? "outgoing") then add_missing (eid x) v
  else if (n =? tgt x) && (k =? "incoming") then add_missing (eid x) v
  else v.
Definition overlay (l : list (string * pyval)) (k : string) (v : option pyval) : option pyval :=
  match dget k (rev l) with Some x => Some x | None => v end.
Definition ids_step (here : bool) (x : string) (v : option pyval) : option pyval := if here then snoc_ids v x else v.

Definition flow_record (x : dom) : flow_rec := mkFlow (attribute_or "name" "" x) (src x) (tgt x).

Section Run.
Variable set_order : list string -> list string.
Notation act := (act set_order).

Definition all_fields (o : owner) (e : dom) : list (string * pyval) :=
  node_fields set_order o e (refs "incoming" e) (refs "outgoing" e).
Definition attr_eff (a : action) (n k : string) (v : option pyval) : option pyval :=
  match a with
  | ANode o e => if n =? eid e then overlay (all_fields o e) k v else v
  | AFlow _ x | AMessage x => join_eff x n k v
  | APart x => if (n =? eid x) && (get_attribute "processRef" x =? "") then overlay (part_fields x) k v else v
  | _ => v
  end.
Definition ids_eff (a : action) (n : string) (v : option pyval) : option pyval :=
  match a with
  | ANode o e => if (n =? eid e) && (d_local e =? "subProcess") then Some (VList [])
                 else ids_step (match o with InSubprocess s => n =? s | _ => false end) (eid e) v
  | _ => v
  end.
Definition node_new (a : action) (n : string) : Prop :=
  match a with
  | ANode _ e => n = eid e
  | AFlow _ x | AMessage x => n = src x \/ n = tgt x
  | APart x => n = eid x /\ get_attribute "processRef" x = ""
  | _ => False
  end.
Definition edge_fields (a : action) : list (string * pyval) :=
  match a with
  | AFlow o x => flow_fields o x ++ conds x
  | AMessage x => message_fields x
  | _ => []
  end.
Definition edge_new (a : action) (u v : string) : bool :=
  match a with AFlow _ x | AMessage x => pair_b u v (src x) (tgt x) | _ => false end.
Definition edge_eff (a : action) (u v k : string) (x : option pyval) : option pyval :=
  if edge_new a u v then overlay (edge_fields a) k x else x.
Definition flows_eff (a : action) (f : dict flow_rec) : dict flow_rec :=
  match a with AFlow _ x => dset (eid x) (flow_record x) f | _ => f end.
Definition process_dict (plane e : dom) : attrs :=
  match elements_in "laneSet" e with
  | [] => process_attributes e
  | ls :: _ => match import_lanes plane ls with
               | Ok lanes => dset "laneSet" (VLaneSet (eid ls) lanes) (process_attributes e)
               | Err _ => process_attributes e
               end
  end.
Definition proc_eff (plane : dom) (a : action) (p k : string) (v : option pyval) : option pyval :=
  match a with
  | AProcess e => if p =? eid e then dget k (process_dict plane e) else v
  | ANode o e => ids_step ((k =? "node_ids") && match o with InProcess q => p =? q | _ => false end) (eid e) v
  | _ => v
  end.
Definition collab_eff (a : action) (c : option collab) : option collab :=
  match a with
  | ACollab e => Some (mkCollab (eid e) [] [])
  | APart x => option_map (fun c => mkCollab (co_id c) (dset (eid x)
                 [("name", VStr (get_attribute "name" x)); ("processRef", VStr (get_attribute "processRef" x))]
                 (co_participants c)) (co_messages c)) c
  | AMessage x => option_map (fun c => mkCollab (co_id c) (co_participants c)
                    (dset (eid x) (flow_record x) (co_messages c))) c
  | _ => c
  end.
Definition proc_new (a : action) (p : string) : Prop := match a with AProcess e => p = eid e | _ => False end.

Definition lanes_ready (plane e : dom) : Prop :=
  match elements_in "laneSet" e with [] => True | ls :: _ => exists l, import_lanes plane ls = Ok l end.
Definition ready (plane : dom) (d : diagram) (a : action) : Prop :=
  match a with
  | AProcess e => lanes_ready plane e
  | ANode o e => smem (d_local e) node_types = true /\ exists ins outs, node_ready d o e ins outs
  | AFlow _ x => exists cs, flow_ready d x cs
  | AFail => False
  | ACollab _ | APart _ => True
  | AMessage x => listy (attr d (src x) "outgoing") /\ listy (attr d (tgt x) "incoming")
  end.

Record eff (plane : dom) (a : action) (d d' : diagram) : Prop := mkEff {
  ef_attr : forall n k, k <> "node_ids" -> attr d' n k = attr_eff a n k (attr d n k);
  ef_ids : forall n, attr d' n "node_ids" = ids_eff a n (attr d n "node_ids");
  ef_node : forall n, is_node d' n <-> is_node d n \/ node_new a n;
  ef_edge : forall u v k, edge_attr d' u v k = edge_eff a u v k (edge_attr d u v k);
  ef_link : forall u v, edge_b d' u v = edge_b d u v || edge_new a u v;
  ef_flows : seq_flows d' = flows_eff a (seq_flows d);
  ef_proc : forall p k, proc_attr d' p k = proc_eff plane a p k (proc_attr d p k);
  ef_procs : forall p, In p (dkeys (procs d')) <-> In p (dkeys (procs d)) \/ proc_new a p;
  ef_collab : collaboration d' = collab_eff a (collaboration d);
  ef_diag : diag_attrs d' = diag_attrs d;
  ef_plane : plane_attrs d' = plane_attrs d }.

Lemma import_process_effect : forall plane e d, lanes_ready plane e ->
  act plane (AProcess e) d = (with_procs d (dset (eid e) (process_dict plane e) (procs d)), Ok tt).
Proof.
  intros plane e d H. cbn [ImportFacts.act]. unfold import_process_element. rewrite mbind_modify.
  unfold import_lane_sets, process_dict. change k_lane_set with "laneSet".
  unfold lanes_ready in H. destruct (elements_in "laneSet" e) as [|ls r]; [reflexivity|].
  destruct H as [l Hl]. rewrite Hl.
  rewrite (mbind_eq _ _ _ _ _ _ (with_procs d (dset (get_attribute k_id e) (process_attributes e) (procs d))) l)
    by reflexivity.
  unfold mtry. change k_id with "id". unfold dgetE. simpl procs. rewrite dget_dset_eq. cbn [rbind].
  unfold with_procs. simpl. rewrite dset_dset. reflexivity.
Qed.

Lemma act_effect : forall plane a d, ready plane d a ->
  exists d', act plane a d = (d', Ok tt) /\ eff plane a d d'.
Proof.
  intros plane a d R. destruct a as [e|o e|o x| |c|x|x]; cbn [ready] in R.
  - exists (with_procs d (dset (eid e) (process_dict plane e) (procs d))). split; [apply import_process_effect; exact R|].
    constructor; try (intros; reflexivity); try (intros; simpl; tauto).
    + intros u v. cbn [edge_new]. rewrite orb_false_r. reflexivity.
    + intros p k. unfold proc_attr. simpl. rewrite dget_dset. destruct (p =? eid e); reflexivity.
    + intros p. cbn [proc_new]. simpl. rewrite in_dkeys_dset. tauto.
  - destruct R as [T [ins [outs R]]].
    destruct (import_node_effect set_order o e ins outs d T R) as [d' [E [A [I [P [N [G M]]]]]]].
    destruct R as (Hi & Ho & _). rewrite reference_list_collect in Hi, Ho.
    assert (Ri : refs "incoming" e = ins) by (unfold refs; rewrite Hi; reflexivity).
    assert (Ro : refs "outgoing" e = outs) by (unfold refs; rewrite Ho; reflexivity).
    destruct (edge_b_graph _ _ G) as [B X]. destruct M as (M1 & M2 & M3 & M4 & M5).
    exists d'. split; [exact E|]. constructor; auto.
    + intros n k Hk. rewrite A by exact Hk. cbn [attr_eff]. unfold all_fields, overlay. rewrite Ri, Ro. reflexivity.
    + intros. rewrite B. cbn [edge_new]. rewrite orb_false_r. reflexivity.
    + intros p. rewrite M5. simpl. tauto.
  - destruct R as [cs R]. destruct (import_flow_effect o x cs d R) as [d' [E [A [N [X [B [F M]]]]]]].
    destruct R as (Hc & _). assert (Rc : conds x = cs) by (unfold conds; rewrite Hc; reflexivity).
    destruct M as (M1 & M2 & M3 & M4).
    exists d'. split; [exact E|]. constructor; auto.
    + intros. rewrite A. reflexivity.
    + intros. rewrite A. cbn [ids_eff]. replace ("node_ids" =? "outgoing") with false by reflexivity.
      replace ("node_ids" =? "incoming") with false by reflexivity. rewrite !andb_false_r. reflexivity.
    + intros. rewrite X. unfold edge_eff. cbn [edge_new edge_fields]. rewrite Rc. reflexivity.
    + intros. unfold proc_attr. rewrite M1. reflexivity.
    + intros. rewrite M1. simpl. tauto.
  - destruct R.
  - exists (with_collab d (Some (mkCollab (eid c) [] []))). split; [reflexivity|].
    constructor; try (intros; reflexivity); try (intros; simpl; tauto).
    intros u v. cbn [edge_new]. rewrite orb_false_r. reflexivity.
  - destruct (import_participant_effect x d) as [d' [E [A [N [G R']]]]].
    destruct (edge_b_graph _ _ G) as [B X].
    exists d'. split; [exact E|].
    assert (S1 : seq_flows d' = seq_flows d /\ procs d' = procs d /\ diag_attrs d' = diag_attrs d /\
                 plane_attrs d' = plane_attrs d).
    { destruct R' as (R1 & R2 & R3 & R4 & R5). rewrite R1, R2, R3, R4. unfold set_participant.
      destruct (collaboration d); repeat split. }
    destruct S1 as (S1 & S2 & S3 & S4).
    constructor; auto.
    + intros. rewrite A. reflexivity.
    + intros. rewrite A. cbn [ids_eff]. destruct (_ && _); reflexivity.
    + intros. rewrite B. cbn [edge_new]. rewrite orb_false_r. reflexivity.
    + intros. unfold proc_attr. rewrite S2. reflexivity.
    + intros. rewrite S2. simpl. tauto.
    + destruct R' as (R1 & R2 & R3 & R4 & R5). rewrite R5. unfold set_participant. cbn [collab_eff].
      destruct (collaboration d) eqn:Ec; simpl; [reflexivity|exact Ec].
  - destruct R as [Ls Lt]. destruct (import_message_effect x d Ls Lt) as [d' [E [A [N [X [B R']]]]]].
    exists d'. split; [exact E|].
    pose proof (set_message_frame (eid x) (flow_record x) d) as (F1 & F2 & F3 & F4 & F5).
    destruct R' as (R1 & R2 & R3 & R4 & R5). fold (flow_record x) in R1, R2, R3, R4, R5.
    constructor; auto; try congruence.
    + intros. rewrite A. reflexivity.
    + intros. rewrite A. cbn [ids_eff]. replace ("node_ids" =? "outgoing") with false by reflexivity.
      replace ("node_ids" =? "incoming") with false by reflexivity. rewrite !andb_false_r. reflexivity.
    + cbn [flows_eff]. rewrite R1. exact F2.
    + intros. unfold proc_attr. rewrite R2, F3. reflexivity.
    + intros. rewrite R2, F3. simpl. tauto.
    + rewrite R5. unfold set_message. cbn [collab_eff]. destruct (collaboration d) eqn:Ec; simpl; [reflexivity|exact Ec].
Qed.

Lemma act_ok_ready : forall plane a d d', act plane a d = (d', Ok tt) ->
  (forall o e, a = ANode o e -> smem (d_local e) node_types = true) -> ready plane d a.
Proof.
  intros plane a d d' H T. destruct a as [e|o e|o x| |c|x|x]; cbn [ready ImportFacts.act] in *; auto.
  - unfold lanes_ready. apply mbind_ok in H. destruct H as [d1 [[] [_ H]]]. unfold import_lane_sets in H.
    change k_lane_set with "laneSet" in H. destruct (elements_in "laneSet" e) as [|ls r]; auto.
    apply mbind_ok in H. destruct H as [d2 [l [H _]]]. apply mread_ok in H. destruct H as [_ H]. eauto.
  - specialize (T o e eq_refl). split; [exact T|]. eapply import_node_ok; eauto.
  - eapply import_flow_ok; eauto.
  - discriminate.
  - eapply import_message_ok; eauto.
Qed.

(** * Whole runs *)
Definition typed (A : list action) : Prop := forall o e, In (ANode o e) A -> smem (d_local e) node_types = true.

Record effs (plane : dom) (A : list action) (d d' : diagram) : Prop := mkEffs {
  es_attr : forall n k, k <> "node_ids" -> attr d' n k = fold_left (fun v a => attr_eff a n k v) A (attr d n k);
  es_ids : forall n, attr d' n "node_ids" = fold_left (fun v a => ids_eff a n v) A (attr d n "node_ids");
  es_node : forall n, is_node d' n <-> is_node d n \/ exists a, In a A /\ node_new a n;
  es_edge : forall u v k, edge_attr d' u v k = fold_left (fun x a => edge_eff a u v k x) A (edge_attr d u v k);
  es_link : forall u v, edge_b d' u v = true <-> edge_b d u v = true \/ exists a, In a A /\ edge_new a u v = true;
  es_flows : seq_flows d' = fold_left (fun f a => flows_eff a f) A (seq_flows d);
  es_proc : forall p k, proc_attr d' p k = fold_left (fun v a => proc_eff plane a p k v) A (proc_attr d p k);
  es_procs : forall p, In p (dkeys (procs d')) <-> In p (dkeys (procs d)) \/ exists a, In a A /\ proc_new a p;
  es_collab : collaboration d' = fold_left (fun c a => collab_eff a c) A (collaboration d);
  es_diag : diag_attrs d' = diag_attrs d;
  es_plane : plane_attrs d' = plane_attrs d }.

Lemma effs_nil : forall plane d, effs plane [] d d.
Proof.
  intros. constructor; simpl; auto; intros; split; auto; intros [?|[a [[] _]]]; auto.
Qed.
Lemma effs_cons : forall plane a A d d1 d', eff plane a d d1 -> effs plane A d1 d' -> effs plane (a :: A) d d'.
Proof.
  intros plane a A d d1 d' [H1 H2 H3 H4 H5 H6 H7 H8 H9 H10 H11] [K1 K2 K3 K4 K5 K6 K7 K8 K9 K10 K11].
  constructor; cbn [fold_left]; intros.
  - rewrite K1, H1; auto.
  - rewrite K2, H2; auto.
  - rewrite K3, H3. split.
    + intros [[?|?]|[b [? ?]]]; [auto|right; exists a; simpl; auto|right; exists b; simpl; auto].
    + intros [?|[b [[<- |?] ?]]]; auto. right. eauto.
  - rewrite K4, H4; auto.
  - rewrite K5, H5. rewrite orb_true_iff. split.
    + intros [[?|?]|[b [? ?]]]; [auto|right; exists a; simpl; auto|right; exists b; simpl; auto].
    + intros [?|[b [[<- |?] ?]]]; auto. right. eauto.
  - congruence.
  - rewrite K7, H7; auto.
  - rewrite K8, H8. split.
    + intros [[?|?]|[b [? ?]]]; [auto|right; exists a; simpl; auto|right; exists b; simpl; auto].
    + intros [?|[b [[<- |?] ?]]]; auto. right. eauto.
  - congruence.
  - congruence.
  - congruence.
Qed.

Lemma run_effects : forall plane A d d', typed A -> mfor A (act plane) d = (d', Ok tt) -> effs plane A d d'.
Proof.
  intros plane. induction A as [|a A IH]; intros d d' T H.
  - inv H. apply effs_nil.
  - cbn [mfor] in H. apply mbind_ok in H. destruct H as [d1 [[] [H1 H]]].
    assert (R : ready plane d a).
    { eapply act_ok_ready; [exact H1|]. intros o e ->. apply (T o e). left. reflexivity. }
    destruct (act_effect plane a d R) as [d1' [E Ef]]. rewrite H1 in E. inv E.
    eapply effs_cons; [exact Ef|]. apply IH; auto. intros o e I. apply (T o e). right. exact I.
Qed.

Lemma typed_app : forall A B, typed A -> typed B -> typed (A ++ B).
Proof. intros A B HA HB o e I. apply in_app_or in I. destruct I; [eapply HA|eapply HB]; eauto. Qed.
Lemma typed_flat_map : forall X (h : X -> list action) l, (forall x, In x l -> typed (h x)) -> typed (flat_map h l).
Proof. intros X h l H o e I. apply in_flat_map in I. destruct I as [x [I1 I2]]. eapply H; eauto. Qed.
Lemma flow_actions_typed : forall o e, typed (flow_actions o e).
Proof.
  intros o e. apply typed_flat_map. intros [g a ks|s|s] _ o' e' I; simpl in I.
  - destruct (d_local _ =? t_sequence_flow); simpl in I; [destruct I as [I|[]]; discriminate|destruct I].
  - destruct I.
  - destruct I as [I|[]]; discriminate.
Qed.
Lemma element_actions_typed : forall e o, typed (element_actions o e).
Proof.
  induction e as [g a ks IH|s|s] using dom_rect'; intros o o' e' I.
  - cbn [element_actions] in I. apply in_app_or in I. destruct I as [I|I].
    + destruct (smem (local_name g) node_types) eqn:T; [|destruct I]. destruct I as [I|[]]. inv I. exact T.
    + destruct (local_name g =? t_subprocess); [|destruct I]. apply in_app_or in I. destruct I as [I|I].
      * apply in_flat_map in I. destruct I as [k [I1 I2]]. rewrite Forall_forall in IH. eapply IH; eauto.
      * eapply flow_actions_typed; eauto.
  - destruct I.
  - destruct I as [I|[]]; discriminate.
Qed.
Lemma core_actions_typed : forall root, typed (core_actions root).
Proof.
  intros root. apply typed_app.
  - apply typed_flat_map. intros e _. intros o' e' I. destruct I as [I|I]; [discriminate|].
    apply in_app_or in I. destruct I as [I|I].
    + apply in_flat_map in I. destruct I as [k [I1 I2]]. eapply element_actions_typed; eauto.
    + eapply flow_actions_typed; eauto.
  - destruct (document_elements t_collaboration root) as [|c r]; [intros ? ? []|].
    intros o' e' I. destruct I as [I|I]; [discriminate|]. apply in_flat_map in I. destruct I as [[g a ks|s|s] [I1 I2]].
    + simpl in I2. destruct (d_local _ =? t_participant); [destruct I2 as [I2|[]]; discriminate|].
      destruct (d_local _ =? t_message_flow); [destruct I2 as [I2|[]]; discriminate|destruct I2].
    + destruct I2.
    + destruct I2 as [I2|[]]; discriminate.
Qed.
End Run.
