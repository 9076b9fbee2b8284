(** The importer as a list of actions, and the effect of each action. *)
From Coq Require Import String List Bool Arith Lia.
From Verif Require Import Py PyFacts Consts Nx NxFacts Rep SpecRep RepFacts CsvRegex CsvImport CsvFacts Xml Import XmlOps.
Import ListNotations.
Open Scope string_scope.
Open Scope list_scope.

Lemma dom_rect' : forall P : dom -> Prop,
  (forall g a ks, Forall P ks -> P (DElem g a ks)) -> (forall s, P (DText s)) -> (forall s, P (DOther s)) ->
  forall e, P e.
Proof.
  intros P H1 H2 H3. fix IH 1. intros [g a ks|s|s]; [|apply H2|apply H3].
  apply H1. induction ks as [|k ks IHk]; constructor; [apply IH|exact IHk].
Qed.

Definition node_types : list string :=
  ["task"; "userTask"; "serviceTask"; "manualTask"; "subProcess"; "dataObject"; "inclusiveGateway";
   "exclusiveGateway"; "parallelGateway"; "eventBasedGateway"; "complexGateway"; "startEvent"; "endEvent";
   "intermediateCatchEvent"; "intermediateThrowEvent"; "boundaryEvent"].

Inductive action : Type :=
| AProcess (e : dom) | ANode (o : owner) (e : dom) | AFlow (o : owner) (x : dom) | AFail
| ACollab (c : dom) | APart (x : dom) | AMessage (x : dom).

Definition flow_actions (o : owner) (e : dom) : list action :=
  flat_map (fun x => match x with
                     | DText _ => []
                     | DOther _ => [AFail]
                     | DElem _ _ _ => if String.eqb (d_local x) t_sequence_flow then [AFlow o x] else []
                     end) (d_kids e).
Fixpoint element_actions (o : owner) (e : dom) {struct e} : list action :=
  match e with
  | DText _ => []
  | DOther _ => [AFail]
  | DElem tag a kids =>
      (if smem (local_name tag) node_types then [ANode o e] else []) ++
      (if String.eqb (local_name tag) t_subprocess then
         flat_map (element_actions (InSubprocess (get_attribute k_id e))) kids ++
         flow_actions (InSubprocess (get_attribute k_id e)) e
       else [])
  end.
Definition process_actions (e : dom) : list action :=
  AProcess e :: flat_map (element_actions (InProcess (get_attribute k_id e))) (d_kids e)
  ++ flow_actions (InProcess (get_attribute k_id e)) e.
Definition collab_actions (c : dom) : list action :=
  ACollab c :: flat_map (fun x => match x with
                                  | DText _ => []
                                  | DOther _ => [AFail]
                                  | DElem _ _ _ => if String.eqb (d_local x) t_participant then [APart x]
                                                   else if String.eqb (d_local x) t_message_flow then [AMessage x]
                                                   else []
                                  end) (d_kids c).
Definition core_actions (root : dom) : list action :=
  flat_map process_actions (document_elements k_process root) ++
  match document_elements t_collaboration root with [] => [] | c :: _ => collab_actions c end.

(** Values read off the element children, in order. *)
Fixpoint collect {A} (h : dom -> res (list A)) (kids : list dom) : res (list A) :=
  match kids with
  | [] => Ok []
  | DText _ :: r => collect h r
  | DOther _ :: _ => Err AttributeError
  | x :: r => let* y := h x in let* z := collect h r in Ok (y ++ z)
  end.
Lemma fold_collect : forall A (f : list A -> dom -> res (list A)) (h : dom -> res (list A)),
  (forall l x, f l x = let* y := h x in Ok (l ++ y)) ->
  forall kids l, fold_elements kids f l = let* z := collect h kids in Ok (l ++ z).
Proof.
  intros A f h H. unfold fold_elements. induction kids as [|x kids IH]; intros l; cbn [rfold collect].
  - simpl. rewrite app_nil_r. reflexivity.
  - destruct x as [g a ks|s|s]; cbn [rbind]; auto.
    rewrite H. destruct (h (DElem g a ks)) as [y|e]; cbn [rbind]; auto.
    rewrite IH. destruct (collect h kids) as [z|e]; cbn [rbind]; auto. rewrite app_assoc. reflexivity.
Qed.

Section Facts.
Variable set_order : list string -> list string.
Notation import_node := (import_node set_order).
Notation import_element := (import_element set_order).
Notation load := (load_diagram_from_xml set_order).

Definition act (plane : dom) (a : action) : MD unit :=
  match a with
  | AProcess e => do_ import_process_element e ;; import_lane_sets plane e
  | ANode o e => import_node o e
  | AFlow o x => import_sequence_flow_to_graph o x
  | AFail => mraise AttributeError
  | ACollab c => mmodify (fun d => with_collab d (Some (mkCollab (get_attribute k_id c) [] [])))
  | APart x => import_participant_element x
  | AMessage x => import_message_flow_to_graph x
  end.

Lemma import_node_other : forall o e, smem (d_local e) node_types = false -> import_node o e = mret tt.
Proof.
  intros o e H. unfold import_node, Import.import_node.
  unfold smem, node_types, existsb in *.
  repeat match type of H with (?a || ?b)%bool = false => apply orb_false_iff in H; destruct H as [? H] end.
  unfold t_task, t_user_task, t_service_task, t_manual_task, t_subprocess, t_data_object, t_inclusive_gateway,
    t_exclusive_gateway, t_parallel_gateway, t_event_based_gateway, t_complex_gateway, t_start_event, t_end_event,
    t_intermediate_catch_event, t_intermediate_throw_event, t_boundary_event.
  repeat match goal with E : String.eqb (d_local e) _ = false |- _ => rewrite E; clear E end.
  reflexivity.
Qed.

Lemma import_flows_actions : forall plane o e s,
  import_flows o e s = mfor (flow_actions o e) (act plane) s.
Proof.
  intros. unfold import_flows, each_element, flow_actions. rewrite mfor_flat_map.
  apply mfor_ext. intros [g a ks|x|x] s' _; try reflexivity.
  - destruct (String.eqb _ _); [rewrite mfor_one; reflexivity|reflexivity].
Qed.

Lemma import_element_actions : forall plane e o s,
  import_element o e s = mfor (element_actions o e) (act plane) s.
Proof.
  intros plane e. induction e as [g a ks IH|x|x] using dom_rect'; intros o s; try reflexivity.
  cbn [element_actions]. rewrite mfor_app. cbn [Import.import_element].
  assert (N : forall s0, import_node o (DElem g a ks) s0 =
     mfor (if smem (local_name g) node_types then [ANode o (DElem g a ks)] else []) (act plane) s0).
  { intros s0. destruct (smem (local_name g) node_types) eqn:T.
    - rewrite mfor_one. reflexivity.
    - rewrite import_node_other by exact T. reflexivity. }
  apply mbind_ext; [apply N|]. intros _ s1.
  destruct (String.eqb (local_name g) t_subprocess); [|reflexivity].
  rewrite mfor_app. apply mbind_ext; [|intros; apply import_flows_actions].
  rewrite mfor_flat_map. set (sub := InSubprocess _). clear N. revert s1.
  induction IH as [|k ks' Hk Hks IHk]; intros s1; [reflexivity|].
  cbn [mfor]. apply mbind_ext; [apply Hk|]. intros _ s2. apply IHk.
Qed.

Lemma import_process_actions : forall plane e s,
  import_process set_order plane e s = mfor (process_actions e) (act plane) s.
Proof.
  intros. unfold import_process, process_actions. cbn [mfor]. cbn [act]. rewrite mbind_assoc.
  apply mbind_ext; [reflexivity|]. intros _ s1. apply mbind_ext; [reflexivity|]. intros _ s2.
  rewrite mfor_app. apply mbind_ext; [|intros; apply import_flows_actions].
  rewrite mfor_flat_map. apply mfor_ext. intros. apply import_element_actions.
Qed.

Lemma load_actions : forall root d,
  load root d =
  (do de <- mread (fun _ => list_first (document_elements "BPMNDiagram" root)) ;;
   do pe <- mread (fun _ => list_first (elements_in "BPMNPlane" de)) ;;
   do_ import_diagram_and_plane_attributes de pe ;;
   do_ mfor (core_actions root) (act pe) ;;
   import_di pe) d.
Proof.
  intros. unfold load, Import.load_diagram_from_xml. apply mbind_ext; [reflexivity|]. intros de s1.
  apply mbind_ext; [reflexivity|]. intros pe s2. apply mbind_ext; [reflexivity|]. intros _ s3.
  unfold core_actions. unfold import_process_elements.
  transitivity ((do_ (do_ mfor (document_elements k_process root) (import_process set_order pe) ;;
     match document_elements t_collaboration root with
     | [] => mret tt | c :: _ => import_collaboration_element c end) ;; import_di pe) s3).
  { rewrite mbind_assoc. reflexivity. }
  apply mbind_ext; [|reflexivity]. rewrite mfor_app. apply mbind_ext.
  - rewrite mfor_flat_map. apply mfor_ext. intros. apply import_process_actions.
  - intros _ s4. destruct (document_elements t_collaboration root) as [|c _]; [reflexivity|].
    unfold collab_actions, import_collaboration_element. cbn [mfor]. apply mbind_ext; [reflexivity|].
    intros _ s5. rewrite mfor_flat_map. apply mfor_ext. intros [g a ks|x|x] s6 _; try reflexivity.
    destruct (String.eqb (d_local _) t_participant); [rewrite mfor_one; reflexivity|].
    destruct (String.eqb (d_local _) t_message_flow); [rewrite mfor_one; reflexivity|reflexivity].
Qed.

(** * Nodes *)
Definition base_fields (o : owner) (e : dom) : list (string * pyval) :=
  [("id", VStr (get_attribute "id" e)); ("type", VStr (d_local e));
   ("node_name", VStr (attribute_or "name" "" e)); ("process", VStr (owner_id o))].
Definition specific (e : dom) : list (string * pyval) :=
  let t := d_local e in
  let dflt := ("default", attribute_or_none "default" e) in
  let dir := ("gatewayDirection", VStr (attribute_or "gatewayDirection" "Unspecified" e)) in
  let par := ("parallelMultiple", VStr (attribute_or "parallelMultiple" "false" e)) in
  let defs l := ("event_definitions", VDefs (imported_definitions set_order l e)) in
  if smem t ["task"; "userTask"; "serviceTask"; "manualTask"] then [dflt]
  else if t =? "subProcess" then
    [dflt; ("triggeredByEvent", VStr (attribute_or "triggeredByEvent" "false" e)); ("node_ids", VList [])]
  else if t =? "dataObject" then [("isCollection", VStr (attribute_or "isCollection" "false" e))]
  else if (t =? "inclusiveGateway") || (t =? "exclusiveGateway") then [dir; dflt]
  else if t =? "parallelGateway" then [dir]
  else if t =? "eventBasedGateway" then
    [dir; ("instantiate", VStr (attribute_or "instantiate" "false" e));
     ("eventGatewayType", VStr (attribute_or "eventGatewayType" "Exclusive" e))]
  else if t =? "complexGateway" then [dir; dflt]
  else if t =? "startEvent" then
    [par; ("isInterrupting", VStr (attribute_or "isInterrupting" "true" e)); defs start_event_types]
  else if t =? "endEvent" then [defs end_event_types]
  else if t =? "intermediateCatchEvent" then [par; defs catch_event_types]
  else if t =? "intermediateThrowEvent" then [defs throw_event_types]
  else if t =? "boundaryEvent" then
    [par; ("cancelActivity", VStr (attribute_or "cancelActivity" "true" e));
     ("attachedToRef", VStr (get_attribute "attachedToRef" e)); defs boundary_event_types]
  else [].
Definition late_fields (e : dom) (ins outs : list string) : list (string * pyval) :=
  ("incoming", VList ins) :: ("outgoing", VList outs) :: specific e.
Definition node_fields (o : owner) (e : dom) (ins outs : list string) : list (string * pyval) :=
  base_fields o e ++ late_fields e ins outs.

Lemma import_flow_node_form : forall o e ins outs (rest : list (string * pyval)) d,
  reference_list k_incoming e = Ok ins -> reference_list k_outgoing e = Ok outs ->
  (do_ import_flow_node_to_graph o e ;; set_all (get_attribute k_id e) rest) d =
  (do_ ggraph (fun g => Ok (add_node (get_attribute k_id e) g)) ;;
   do_ set_all (get_attribute k_id e) (base_fields o e) ;;
   do_ append_node_id o (get_attribute k_id e) ;;
   set_all (get_attribute k_id e) (("incoming", VList ins) :: ("outgoing", VList outs) :: rest)) d.
Proof.
  intros o e ins outs rest d Hi Ho. unfold import_flow_node_to_graph, set_all, base_fields.
  cbn [mfor fst snd]. rewrite !mbind_assoc.
  repeat (first [ apply mbind_ext; [reflexivity|intros ? ?]; rewrite !mbind_assoc ]).
  transitivity ((do_ append_node_id o (get_attribute k_id e) ;;
    do_ node_set (get_attribute k_id e) "incoming" (VList ins) ;;
    do_ node_set (get_attribute k_id e) "outgoing" (VList outs) ;;
    mfor rest (fun p => node_set (get_attribute k_id e) (fst p) (snd p))) s4); [|reflexivity].
  apply mbind_ext; [reflexivity|]. intros _ s5. rewrite mbind_assoc.
  rewrite (mbind_eq _ _ _ _ _ _ s5 ins); [|unfold mread; rewrite Hi; reflexivity].
  rewrite mbind_assoc. apply mbind_ext; [reflexivity|]. intros _ s6. rewrite mbind_assoc.
  rewrite (mbind_eq _ _ _ _ _ _ s6 outs); [|unfold mread; rewrite Ho; reflexivity].
  reflexivity.
Qed.

Lemma import_node_specific : forall o e d, smem (d_local e) node_types = true ->
  import_node o e d = (do_ import_flow_node_to_graph o e ;; set_all (get_attribute k_id e) (specific e)) d.
Proof.
  intros o e d H. unfold import_node, Import.import_node, specific, set_all.
  unfold t_task, t_user_task, t_service_task, t_manual_task, t_subprocess, t_data_object, t_inclusive_gateway,
    t_exclusive_gateway, t_parallel_gateway, t_event_based_gateway, t_complex_gateway, t_start_event, t_end_event,
    t_intermediate_catch_event, t_intermediate_throw_event, t_boundary_event.
  assert (One : forall (m : MD unit) p s, (do_ m ;; node_set (get_attribute k_id e) (fst p) (snd p)) s =
    (do_ m ;; mfor [p] (fun p => node_set (get_attribute k_id e) (fst p) (snd p))) s).
  { intros. apply mbind_ext; auto. intros. symmetry. apply mfor_one. }
  assert (Two : forall (m : MD unit) p q s,
    (do_ m ;; do_ node_set (get_attribute k_id e) (fst p) (snd p) ;;
               node_set (get_attribute k_id e) (fst q) (snd q)) s =
    (do_ m ;; mfor [p; q] (fun p => node_set (get_attribute k_id e) (fst p) (snd p))) s).
  { intros. apply mbind_ext; auto. intros. cbn [mfor]. apply mbind_ext; auto. intros. symmetry. apply mbind_ret_r. }
  assert (Three : forall (m : MD unit) p q r s,
    (do_ m ;; do_ node_set (get_attribute k_id e) (fst p) (snd p) ;;
              do_ node_set (get_attribute k_id e) (fst q) (snd q) ;;
               node_set (get_attribute k_id e) (fst r) (snd r)) s =
    (do_ m ;; mfor [p; q; r] (fun p => node_set (get_attribute k_id e) (fst p) (snd p))) s).
  { intros. apply mbind_ext; auto. intros. cbn [mfor]. apply mbind_ext; auto. intros.
    apply mbind_ext; auto. intros. symmetry. apply mbind_ret_r. }
  assert (Four : forall (m : MD unit) p q r t s,
    (do_ m ;; do_ node_set (get_attribute k_id e) (fst p) (snd p) ;;
              do_ node_set (get_attribute k_id e) (fst q) (snd q) ;;
              do_ node_set (get_attribute k_id e) (fst r) (snd r) ;;
               node_set (get_attribute k_id e) (fst t) (snd t)) s =
    (do_ m ;; mfor [p; q; r; t] (fun p => node_set (get_attribute k_id e) (fst p) (snd p))) s).
  { intros. apply mbind_ext; auto. intros. cbn [mfor]. apply mbind_ext; auto. intros.
    apply mbind_ext; auto. intros. apply mbind_ext; auto. intros. symmetry. apply mbind_ret_r. }
  destruct (smem (d_local e) ["task"; "userTask"; "serviceTask"; "manualTask"]) eqn:T0.
  { rewrite <- One. reflexivity. }
  destruct (d_local e =? "subProcess") eqn:T1. { rewrite <- Three. unfold import_activity_to_graph. apply mbind_assoc. }
  destruct (d_local e =? "dataObject") eqn:T2. { rewrite <- One. reflexivity. }
  destruct ((d_local e =? "inclusiveGateway") || (d_local e =? "exclusiveGateway"))%bool eqn:T3.
  { rewrite <- Two. apply mbind_assoc. }
  destruct (d_local e =? "parallelGateway") eqn:T4. { rewrite <- One. reflexivity. }
  destruct (d_local e =? "eventBasedGateway") eqn:T5. { rewrite <- Three. apply mbind_assoc. }
  destruct (d_local e =? "complexGateway") eqn:T6. { rewrite <- Two. apply mbind_assoc. }
  destruct (d_local e =? "startEvent") eqn:T7. { rewrite <- Three. reflexivity. }
  destruct (d_local e =? "endEvent") eqn:T8. { rewrite <- One. reflexivity. }
  destruct (d_local e =? "intermediateCatchEvent") eqn:T9. { rewrite <- Two. reflexivity. }
  destruct (d_local e =? "intermediateThrowEvent") eqn:T10. { rewrite <- One. reflexivity. }
  destruct (d_local e =? "boundaryEvent") eqn:T11. { rewrite <- Four. reflexivity. }
  exfalso. unfold smem, node_types, existsb in *. apply orb_false_iff in T3.
  repeat match type of T0 with (?a || ?b)%bool = false => apply orb_false_iff in T0; destruct T0 as [? T0] end.
  destruct T3 as [T3 T3'].
  repeat match goal with E : String.eqb (d_local e) _ = false |- _ => rewrite E in H; clear E end.
  discriminate.
Qed.

Definition owner_ready (d : diagram) (o : owner) : Prop :=
  match o with
  | InProcess p => exists l, proc_attr d p "node_ids" = Some (VList l)
  | InSubprocess s => exists l, attr d s "node_ids" = Some (VList l)
  end.
Definition node_ready (d : diagram) (o : owner) (e : dom) (ins outs : list string) : Prop :=
  reference_list "incoming" e = Ok ins /\ reference_list "outgoing" e = Ok outs /\ owner_ready d o.
Definition snoc_ids (v : option pyval) (x : string) : option pyval :=
  match v with Some (VList l) => Some (VList (l ++ [x])) | _ => v end.
Definition same_meta5 (d d' : diagram) : Prop :=
  seq_flows d' = seq_flows d /\ diag_attrs d' = diag_attrs d /\ plane_attrs d' = plane_attrs d /\
  collaboration d' = collaboration d /\ dkeys (procs d') = dkeys (procs d).

Lemma append_node_id_spec : forall o x d, owner_ready d o ->
  exists d', append_node_id o x d = (d', Ok tt) /\
    (forall m k, attr d' m k = if (k =? "node_ids") && match o with InSubprocess s => m =? s | _ => false end
                               then snoc_ids (attr d m k) x else attr d m k) /\
    (forall p k, proc_attr d' p k = if (k =? "node_ids") && match o with InProcess q => p =? q | _ => false end
                               then snoc_ids (proc_attr d p k) x else proc_attr d p k) /\
    (forall m, is_node d' m <-> is_node d m) /\
    gedges (dgraph d') = gedges (dgraph d) /\ same_meta5 d d'.
Proof using. clear set_order.
  intros [p|s] x d [l H].
  - unfold proc_attr in H. destruct (dget p (procs d)) as [a|] eqn:Ep; [|discriminate].
    exists (with_procs d (dset p (dset k_node_ids (VList (l ++ [x])) a) (procs d))). split; [|split; [|split; [|split; [|split]]]].
    + unfold append_node_id, mtry. unfold dgetE at 1. rewrite Ep. simpl rbind. unfold dgetE.
      change k_node_ids with "node_ids". rewrite H. reflexivity.
    + intros m k. rewrite andb_false_r. reflexivity.
    + intros q k. unfold proc_attr. simpl. rewrite dget_dset. destruct (String.eqb_spec q p).
      * subst q. rewrite Ep, dget_dset. change k_node_ids with "node_ids".
        destruct (String.eqb_spec k "node_ids"); simpl; auto. subst k. rewrite H. reflexivity.
      * rewrite andb_false_r. reflexivity.
    + simpl. tauto.
    + reflexivity.
    + repeat split; simpl. apply dkeys_dset_in. eapply dget_key_In; eauto.
  - pose proof (attr_is_node _ _ _ _ H) as Hn.
    destruct (node_set_attr s "node_ids" (VList (l ++ [x])) d Hn) as [d' [E [A [K [G R]]]]].
    exists d'. split; [|split; [|split; [|split; [|split]]]].
    + unfold append_node_id, ggraph, mtry, append_node_attr, get_node_attr. unfold attr, node_of in H.
      unfold gnode. destruct (dget s (gnodes (dgraph d))) eqn:Es; [|discriminate]. unfold dgetE.
      change k_node_ids with "node_ids". rewrite H. simpl rbind. exact E.
    + intros m k. rewrite A. destruct (String.eqb_spec m s); destruct (String.eqb_spec k "node_ids"); simpl; auto.
      subst. rewrite H. reflexivity.
    + intros p k. rewrite andb_false_r. unfold proc_attr. destruct R as (_ & Rp & _). rewrite Rp. reflexivity.
    + apply is_node_keys. exact K.
    + exact G.
    + destruct R as (R1 & R2 & R3 & R4 & R5). repeat split; auto. rewrite R2. reflexivity.
Qed.

Lemma node_ids_late : forall e ins outs, smem (d_local e) node_types = true ->
  dget "node_ids" (rev (late_fields e ins outs)) = if d_local e =? "subProcess" then Some (VList []) else None.
Proof.
  intros e ins outs T. unfold late_fields, specific. apply smem_In in T. simpl in T.
  repeat (destruct T as [<-|T]; [reflexivity|]). destruct T.
Qed.

Lemma import_node_effect : forall o e ins outs d,
  smem (d_local e) node_types = true -> node_ready d o e ins outs ->
  let id := get_attribute "id" e in
  exists d', import_node o e d = (d', Ok tt) /\
    (forall m k, k <> "node_ids" -> attr d' m k =
       if m =? id then match dget k (rev (node_fields o e ins outs)) with Some v => Some v | None => attr d m k end
       else attr d m k) /\
    (forall m, attr d' m "node_ids" =
       if (m =? id) && (d_local e =? "subProcess") then Some (VList [])
       else if match o with InSubprocess s => m =? s | _ => false end then snoc_ids (attr d m "node_ids") id
       else attr d m "node_ids") /\
    (forall p k, proc_attr d' p k =
       if (k =? "node_ids") && match o with InProcess q => p =? q | _ => false end
       then snoc_ids (proc_attr d p k) id else proc_attr d p k) /\
    (forall m, is_node d' m <-> is_node d m \/ m = id) /\
    gedges (dgraph d') = gedges (dgraph d) /\ same_meta5 d d'.
Proof.
  intros o e ins outs d T (Hi & Ho & Hw) id.
  rewrite import_node_specific by exact T.
  rewrite (import_flow_node_form o e ins outs) by assumption.
  destruct (add_node_spec id d) as [d1 [E1 [A1 [N1 [G1 R1]]]]].
  assert (I1 : is_node d1 id) by (apply N1; auto).
  destruct (set_all_spec id (base_fields o e) d1 I1) as [d2 [E2 [A2 [N2 [G2 R2]]]]].
  assert (B : dget "node_ids" (rev (base_fields o e)) = None) by reflexivity.
  assert (P2 : forall p k, proc_attr d2 p k = proc_attr d p k).
  { intros. unfold proc_attr. destruct R2 as (_ & Rp & _). rewrite Rp. destruct R1 as (_ & Rp1 & _). rewrite Rp1.
    reflexivity. }
  assert (W2 : owner_ready d2 o).
  { destruct o as [p|s]; destruct Hw as [l Hl]; exists l.
    - rewrite P2. exact Hl.
    - rewrite A2. rewrite A1. rewrite B. rewrite Hl. destruct (s =? id); reflexivity. }
  destruct (append_node_id_spec o id d2 W2) as [d3 [E3 [A3 [Q3 [N3 [G3 R3]]]]]].
  assert (I3 : is_node d3 id) by (apply N3, N2; exact I1).
  destruct (set_all_spec id (late_fields e ins outs) d3 I3) as [d4 [E4 [A4 [N4 [G4 R4]]]]].
  exists d4. split; [|split; [|split; [|split; [|split; [|split]]]]].
  - change (get_attribute k_id e) with id.
    rewrite (mbind_eq _ _ _ _ _ _ _ _ E1). rewrite (mbind_eq _ _ _ _ _ _ _ _ E2).
    rewrite (mbind_eq _ _ _ _ _ _ _ _ E3). exact E4.
  - intros m k Hk. rewrite A4, A3, (eqb_neq' k "node_ids") by exact Hk. cbn [andb]. rewrite A2, A1.
    unfold node_fields. rewrite rev_app_distr, dget_app.
    destruct (m =? id); auto. destruct (dget k (rev (late_fields e ins outs))); reflexivity.
  - intros m. rewrite A4, A3, A2, A1, B. cbn [String.eqb andb].
    rewrite node_ids_late by exact T.
    destruct (m =? id); destruct (d_local e =? "subProcess"); simpl; destruct o as [p|s]; try destruct (m =? s); reflexivity.
  - intros p k. transitivity (proc_attr d3 p k).
    + unfold proc_attr. destruct R4 as (_ & Rp & _). rewrite Rp. reflexivity.
    + rewrite Q3, !P2. reflexivity.
  - intros m. rewrite N4, N3, N2. apply N1.
  - congruence.
  - destruct R1 as (a1&a2&a3&a4&a5), R2 as (b1&b2&b3&b4&b5), R3 as (c1&c2&c3&c4&c5), R4 as (e1&e2&e3&e4&e5).
    repeat split; congruence.
Qed.

Lemma append_node_id_ok : forall o x d d', append_node_id o x d = (d', Ok tt) -> owner_ready d o.
Proof.
  intros [p|s] x d d' H; unfold append_node_id in H.
  - unfold mtry in H. unfold owner_ready, proc_attr. unfold dgetE at 1 in H.
    destruct (dget p (procs d)) as [a|]; [|discriminate]. simpl rbind in H. unfold dgetE in H.
    change k_node_ids with "node_ids" in H. destruct (dget "node_ids" a) as [v|]; [|discriminate]. simpl rbind in H.
    destruct v; try discriminate. eauto.
  - unfold ggraph, mtry, append_node_attr, get_node_attr in H. unfold owner_ready, attr, node_of. unfold gnode in H.
    destruct (dget s (gnodes (dgraph d))) as [a|]; [|discriminate]. unfold dgetE in H.
    change k_node_ids with "node_ids" in H. destruct (dget "node_ids" a) as [v|]; [|discriminate]. simpl rbind in H.
    destruct v; try discriminate. eauto.
Qed.

Lemma import_flow_node_split : forall o e d,
  import_flow_node_to_graph o e d =
  (do_ ggraph (fun g => Ok (add_node (get_attribute k_id e) g)) ;;
   do_ set_all (get_attribute k_id e) (base_fields o e) ;;
   do_ append_node_id o (get_attribute k_id e) ;;
   do ins <- mread (fun _ => reference_list k_incoming e) ;;
   do_ node_set (get_attribute k_id e) k_incoming (VList ins) ;;
   do outs <- mread (fun _ => reference_list k_outgoing e) ;;
   node_set (get_attribute k_id e) k_outgoing (VList outs)) d.
Proof.
  intros. unfold import_flow_node_to_graph, set_all, base_fields. cbn [mfor fst snd].
  repeat (first [ apply mbind_ext; [reflexivity|intros ? ?]; rewrite ?mbind_assoc ]). reflexivity.
Qed.

Lemma import_node_ok : forall o e d d', smem (d_local e) node_types = true ->
  import_node o e d = (d', Ok tt) -> exists ins outs, node_ready d o e ins outs.
Proof.
  intros o e d d' T H. rewrite import_node_specific in H by exact T. apply mbind_ok in H.
  destruct H as [d1 [[] [H _]]]. rewrite import_flow_node_split in H.
  set (id := get_attribute k_id e) in *.
  destruct (add_node_spec id d) as [e1 [E1 [A1 [N1 [G1 R1]]]]].
  rewrite (mbind_eq _ _ _ _ _ _ _ _ E1) in H.
  assert (I1 : is_node e1 id) by (apply N1; auto).
  destruct (set_all_spec id (base_fields o e) e1 I1) as [e2 [E2 [A2 [N2 [G2 R2]]]]].
  rewrite (mbind_eq _ _ _ _ _ _ _ _ E2) in H.
  apply mbind_ok in H. destruct H as [e3 [[] [H3 H]]].
  apply mbind_ok in H. destruct H as [e4 [ins [H4 H]]]. apply mread_ok in H4. destruct H4 as [_ Hi].
  apply mbind_ok in H. destruct H as [e5 [[] [H5 H]]].
  apply mbind_ok in H. destruct H as [e6 [outs [H6 H]]]. apply mread_ok in H6. destruct H6 as [_ Ho].
  exists ins, outs. split; [exact Hi|]. split; [exact Ho|].
  apply append_node_id_ok in H3. destruct o as [p|s]; destruct H3 as [l Hl]; exists l.
  - unfold proc_attr in *. destruct R2 as (_ & Rp & _). rewrite Rp in Hl. destruct R1 as (_ & Rp1 & _).
    rewrite Rp1 in Hl. exact Hl.
  - rewrite A2, A1 in Hl. destruct (s =? id); exact Hl.
Qed.

(** * Flows *)
Definition listy (v : option pyval) : Prop := match v with None | Some (VList _) => True | _ => False end.
Definition add_missing (f : string) (v : option pyval) : option pyval :=
  match v with
  | Some (VList l) => if smem f l then v else Some (VList (l ++ [f]))
  | _ => Some (VList [f])
  end.

Lemma register_flow_spec : forall n k f d, is_node d n -> listy (attr d n k) ->
  exists d', register_flow n k f d = (d', Ok tt) /\
    (forall m k', attr d' m k' = if (m =? n) && (k' =? k) then add_missing f (attr d n k) else attr d m k') /\
    (forall m, is_node d' m <-> is_node d m) /\
    gedges (dgraph d') = gedges (dgraph d) /\ same_rest d d'.
Proof using. clear set_order.
  intros n k f d Hn Hl. unfold register_flow.
  pose proof Hn as Hn0. apply is_node_of in Hn0. destruct Hn0 as [a Ha].
  rewrite (mbind_eq _ _ _ _ _ _ d a).
  2: { unfold gread, mread. unfold node_of in Ha. unfold gnode. rewrite Ha. reflexivity. }
  assert (Ka : attr d n k = dget k a) by (unfold attr; rewrite Ha; reflexivity).
  assert (App : forall d1 l, attr d1 n k = Some (VList l) -> is_node d1 n ->
     ggraph (append_node_attr n k f) d1 = node_set n k (VList (l ++ [f])) d1).
  { intros d1 l H1 I1. unfold node_set, ggraph, mtry, append_node_attr, get_node_attr.
    apply is_node_of in I1. destruct I1 as [b Hb]. unfold attr in H1. rewrite Hb in H1. unfold node_of in Hb.
    unfold gnode. rewrite Hb. unfold dgetE. rewrite H1. reflexivity. }
  assert (Rd : forall d1 v, attr d1 n k = Some v -> gread (get_node_attr n k) d1 = (d1, Ok v)).
  { intros d1 v H1. unfold gread, mread, get_node_attr. unfold attr, node_of in H1. unfold gnode.
    destruct (dget n (gnodes (dgraph d1))); [|discriminate]. unfold dgetE. rewrite H1. reflexivity. }
  unfold dhas. rewrite <- Ka. destruct (attr d n k) as [v|] eqn:Ev.
  - rewrite (mbind_eq _ _ _ _ _ _ d tt) by reflexivity.
    rewrite (mbind_eq _ _ _ _ _ _ _ _ (Rd d v Ev)).
    destruct v as [|s|l| | | |]; try (destruct Hl; fail). cbn [add_missing].
    destruct (smem f l) eqn:F.
    + exists d. split; [reflexivity|]. split; [|split; [tauto|split; [reflexivity|apply same_rest_refl]]].
      intros m k'. destruct (String.eqb_spec m n); destruct (String.eqb_spec k' k); simpl; auto. subst. exact Ev.
    + rewrite (App d l Ev Hn). destruct (node_set_attr n k (VList (l ++ [f])) d Hn) as [d' [E [A [K [G R]]]]].
      exists d'. split; [exact E|]. split; [exact A|]. split; [apply is_node_keys; exact K|]. auto.
  - destruct (node_set_attr n k (VList []) d Hn) as [d1 [E1 [A1 [K1 [G1 R1]]]]].
    rewrite (mbind_eq _ _ _ _ _ _ _ _ E1).
    assert (Ev1 : attr d1 n k = Some (VList [])) by (rewrite A1, !eqb_refl'; reflexivity).
    rewrite (mbind_eq _ _ _ _ _ _ _ _ (Rd d1 _ Ev1)). cbn [smem existsb].
    assert (Hn1 : is_node d1 n) by (apply (is_node_keys _ _ K1); exact Hn).
    rewrite (App d1 [] Ev1 Hn1). destruct (node_set_attr n k (VList ([] ++ [f])) d1 Hn1) as [d' [E [A [K [G R]]]]].
    exists d'. split; [exact E|]. split; [|split; [|split]].
    + intros m k'. rewrite A, A1. destruct ((m =? n) && (k' =? k))%bool; reflexivity.
    + intros m. rewrite (is_node_keys _ _ K). apply (is_node_keys _ _ K1).
    + congruence.
    + eapply same_rest_trans; eauto.
Qed.

Lemma register_flow_ok : forall n k f d d', register_flow n k f d = (d', Ok tt) ->
  is_node d n /\ listy (attr d n k).
Proof.
  intros n k f d d' H. unfold register_flow in H. apply mbind_ok in H. destruct H as [d0 [a [H1 H]]].
  apply mread_ok in H1. destruct H1 as [-> H1]. unfold gnode in H1.
  destruct (dget n (gnodes (dgraph d))) as [a'|] eqn:G; [|discriminate]. inv H1.
  assert (Hn : is_node d n) by (apply is_node_of; unfold node_of; eauto). split; [exact Hn|].
  unfold attr, node_of. rewrite G. destruct (dget k a) as [v|] eqn:K; [|exact I].
  unfold dhas in H. rewrite K in H. apply mbind_ok in H. destruct H as [d1 [[] [H2 H]]]. inv H2.
  apply mbind_ok in H. destruct H as [d2 [v' [H2 H]]]. apply mread_ok in H2. destruct H2 as [-> H2].
  unfold get_node_attr, gnode in H2. rewrite G in H2. unfold dgetE in H2. rewrite K in H2. inv H2.
  destruct v'; try discriminate. exact I.
Qed.

(** Setting several attributes of one connection. *)
Definition set_edge (s t : string) (l : list (string * pyval)) : MD unit :=
  mfor l (fun p => edge_set s t (fst p) (snd p)).
Lemma set_edge_spec : forall s t l d, edge_b d s t = true ->
  exists d', set_edge s t l d = (d', Ok tt) /\
    (forall a b k, edge_attr d' a b k = if pair_b a b s t
                    then match dget k (rev l) with Some v => Some v | None => edge_attr d a b k end
                    else edge_attr d a b k) /\
    (forall a b, edge_b d' a b = edge_b d a b) /\
    gnodes (dgraph d') = gnodes (dgraph d) /\ same_rest d d'.
Proof.
  induction l as [|[k0 v0] l IH]; intros d Hn.
  - exists d. split; [reflexivity|]. split; [intros; destruct (pair_b _ _ _ _); reflexivity|].
    split; [reflexivity|]. split; [reflexivity|apply same_rest_refl].
  - destruct (edge_set_spec s t k0 v0 d Hn) as [d1 [E1 [A1 [K1 [G1 R1]]]]].
    assert (Hn1 : edge_b d1 s t = true) by (rewrite K1; exact Hn).
    destruct (IH d1 Hn1) as [d2 [E2 [A2 [N2 [G2 R2]]]]]. exists d2. split; [|split; [|split; [|split]]].
    + unfold set_edge in *. simpl. rewrite (mbind_eq _ _ _ _ _ _ _ _ E1). exact E2.
    + intros a b k. rewrite A2. simpl rev. rewrite dget_app. rewrite A1.
      destruct (pair_b a b s t); auto.
      destruct (dget k (rev l)); auto. simpl. destruct (k =? k0); reflexivity.
    + intros a b. rewrite N2. apply K1.
    + congruence.
    + eapply same_rest_trans; eauto.
Qed.

(** The conditions of a flow element. *)
Definition conditions (e : dom) : res (list (string * pyval)) :=
  fold_elements (d_kids e)
    (fun l x => if String.eqb (d_local x) k_condition_expression
                then let* text := first_value x in
                     Ok (l ++ [("conditionExpression", VCond (get_attribute k_id x) text)])
                else Ok l) [].
Definition reference_of (k : string) (x : dom) : res (list string) :=
  if String.eqb (d_local x) k then let* v := first_value x in Ok [v] else Ok [].
Definition condition_of (x : dom) : res (list (string * pyval)) :=
  if String.eqb (d_local x) k_condition_expression
  then let* text := first_value x in Ok [("conditionExpression", VCond (get_attribute k_id x) text)]
  else Ok [].
Definition flow_fields (o : owner) (e : dom) : list (string * pyval) :=
  [("id", VStr (get_attribute "id" e)); ("process", VStr (owner_id o)); ("name", VStr (attribute_or "name" "" e));
   ("sourceRef", VStr (get_attribute "sourceRef" e)); ("targetRef", VStr (get_attribute "targetRef" e))].


Lemma reference_list_collect : forall k e, reference_list k e = collect (reference_of k) (d_kids e).
Proof.
  intros. unfold reference_list. rewrite (fold_collect _ _ (reference_of k)).
  - destruct (collect _ _); reflexivity.
  - intros l x. unfold reference_of. destruct (_ =? k); cbn [rbind].
    + destruct (first_value x); reflexivity.
    + rewrite app_nil_r. reflexivity.
Qed.
Lemma conditions_collect : forall e, conditions e = collect condition_of (d_kids e).
Proof.
  intros. unfold conditions. rewrite (fold_collect _ _ condition_of).
  - destruct (collect _ _); reflexivity.
  - intros l x. unfold condition_of. destruct (_ =? _); cbn [rbind].
    + destruct (first_value x); reflexivity.
    + rewrite app_nil_r. reflexivity.
Qed.

Definition set_conditions (s t : string) (kids : list dom) : MD unit :=
  each_element kids (fun x =>
        if String.eqb (d_local x) k_condition_expression then
          do text <- mread (fun _ => first_value x) ;;
          edge_set s t k_condition_expression (VCond (get_attribute k_id x) text)
        else mret tt).
Lemma set_conditions_form : forall s t kids cs, collect condition_of kids = Ok cs ->
  forall d, set_conditions s t kids d = set_edge s t cs d.
Proof.
  intros s t. induction kids as [|x kids IH]; intros cs H d; cbn [collect] in H; [inv H; reflexivity|].
  unfold set_conditions, each_element in *. cbn [mfor].
  destruct x as [g a ks|y|y]; [| |discriminate].
  - destruct (condition_of (DElem g a ks)) as [y|] eqn:Y; [|discriminate]. cbn [rbind] in H.
    destruct (collect condition_of kids) as [z|]; [|discriminate]. inv H.
    unfold set_edge. rewrite mfor_app. unfold set_edge in IH. apply mbind_ext; [|intros; apply IH; reflexivity].
    unfold condition_of in Y. destruct (_ =? _).
    + destruct (first_value (DElem g a ks)) as [text|] eqn:F; [|discriminate]. cbn [rbind] in Y. inv Y.
      rewrite (mbind_eq _ _ _ _ _ _ d text) by reflexivity.
      symmetry. apply mfor_one.
    + inv Y. reflexivity.
  - rewrite (mbind_eq _ _ _ _ _ _ d tt) by reflexivity. apply IH. exact H.
Qed.
Lemma set_conditions_ok : forall s t kids d d', set_conditions s t kids d = (d', Ok tt) ->
  exists cs, collect condition_of kids = Ok cs.
Proof.
  intros s t. induction kids as [|x kids IH]; intros d d' H; cbn [collect]; [eauto|].
  unfold set_conditions, each_element in *. cbn [mfor] in H. apply mbind_ok in H.
  destruct H as [d1 [[] [H1 H]]]. apply IH in H. destruct H as [cs H].
  destruct x as [g a ks|y|y]; [| |discriminate].
  - unfold condition_of at 1. rewrite H. destruct (_ =? _).
    + apply mbind_ok in H1. destruct H1 as [d2 [text [H1 _]]]. apply mread_ok in H1. destruct H1 as [_ ->].
      simpl. eauto.
    + simpl. eauto.
  - eauto.
Qed.

Lemma flow_form : forall o e cs d, collect condition_of (d_kids e) = Ok cs ->
  let s := get_attribute "sourceRef" e in let t := get_attribute "targetRef" e in
  let f := get_attribute "id" e in
  import_sequence_flow_to_graph o e d =
  (do_ mmodify (fun d => with_flows d (dset f (mkFlow (attribute_or "name" "" e) s t) (seq_flows d))) ;;
   do_ ggraph (fun g => Ok (add_edge s t g)) ;;
   do_ set_edge s t (flow_fields o e ++ cs) ;;
   do_ register_flow s "outgoing" f ;;
   register_flow t "incoming" f) d.
Proof.
  intros. unfold import_sequence_flow_to_graph.
  apply mbind_ext; [reflexivity|intros _ s1]. apply mbind_ext; [reflexivity|intros _ s2].
  transitivity ((do_ set_edge s t (flow_fields o e) ;; do_ set_edge s t cs ;;
     do_ register_flow s "outgoing" f ;; register_flow t "incoming" f) s2).
  2: { rewrite <- mbind_assoc. apply mbind_ext; [|auto]. unfold set_edge. symmetry. apply mfor_app. }
  unfold set_edge at 1, flow_fields. cbn [mfor fst snd].
  repeat (rewrite ?mbind_assoc; apply mbind_ext; [reflexivity|intros _ ?]).
  rewrite (mbind_eq _ _ (unit) (mret tt) _ _ _ tt) by reflexivity.
  apply mbind_ext; [|auto]. apply (set_conditions_form s t _ cs H).
Qed.

Definition same_meta4 (d d' : diagram) : Prop :=
  procs d' = procs d /\ diag_attrs d' = diag_attrs d /\ plane_attrs d' = plane_attrs d /\
  collaboration d' = collaboration d.

(** Connecting two nodes and registering the flow at both. *)
Definition connect (s t f : string) (l : list (string * pyval)) : MD unit :=
  do_ ggraph (fun g => Ok (add_edge s t g)) ;;
  do_ set_edge s t l ;;
  do_ register_flow s "outgoing" f ;;
  register_flow t "incoming" f.
Lemma connect_effect : forall s t f l d,
  listy (attr d s "outgoing") -> listy (attr d t "incoming") ->
  exists d', connect s t f l d = (d', Ok tt) /\
    (forall m k, attr d' m k =
        if (m =? s) && (k =? "outgoing") then add_missing f (attr d m k)
        else if (m =? t) && (k =? "incoming") then add_missing f (attr d m k)
        else attr d m k) /\
    (forall m, is_node d' m <-> is_node d m \/ m = s \/ m = t) /\
    (forall a b k, edge_attr d' a b k = if pair_b a b s t
        then match dget k (rev l) with Some v => Some v | None => edge_attr d a b k end
        else edge_attr d a b k) /\
    (forall a b, edge_b d' a b = edge_b d a b || pair_b a b s t) /\
    same_rest d d'.
Proof.
  intros s t f l d Ls Lt. unfold connect.
  destruct (add_edge_spec s t d) as [d1 [E1 [A1 [N1 [X1 [B1 R1]]]]]].
  assert (H1 : edge_b d1 s t = true) by (rewrite B1, pair_b_refl, orb_true_r; reflexivity).
  destruct (set_edge_spec s t l d1 H1) as [d2 [E2 [X2 [B2 [G2 R2]]]]].
  destruct (attr_graph _ _ G2) as [A2 N2].
  destruct (register_flow_spec s "outgoing" f d2) as [d3 [E3 [A3 [N3 [G3 R3]]]]].
  { apply N2, N1. auto. } { rewrite A2, A1. exact Ls. }
  destruct (edge_b_graph _ _ G3) as [B3 X3].
  assert (Q : attr d3 t "incoming" = attr d t "incoming").
  { rewrite A3. replace ("incoming" =? "outgoing") with false by reflexivity. rewrite andb_false_r.
    rewrite A2, A1. reflexivity. }
  destruct (register_flow_spec t "incoming" f d3) as [d4 [E4 [A4 [N4 [G4 R4]]]]].
  { apply N3, N2, N1. auto. } { rewrite Q. exact Lt. }
  destruct (edge_b_graph _ _ G4) as [B4 X4].
  exists d4. split; [|split; [|split; [|split; [|split]]]].
  - rewrite (mbind_eq _ _ _ _ _ _ _ _ E1). rewrite (mbind_eq _ _ _ _ _ _ _ _ E2).
    rewrite (mbind_eq _ _ _ _ _ _ _ _ E3). exact E4.
  - intros m k. rewrite A4, Q, A3, !A2, !A1.
    destruct (String.eqb_spec m s); destruct (String.eqb_spec m t); destruct (String.eqb_spec k "outgoing");
      destruct (String.eqb_spec k "incoming"); subst; try discriminate; simpl; auto.
  - intros m. rewrite N4, N3, N2. apply N1.
  - intros a b k. rewrite X4, X3, X2, X1. reflexivity.
  - intros a b. rewrite B4, B3, B2. apply B1.
  - repeat (eapply same_rest_trans; [eassumption|]). apply same_rest_refl.
Qed.
Lemma connect_ok : forall s t f l d d', connect s t f l d = (d', Ok tt) ->
  listy (attr d s "outgoing") /\ listy (attr d t "incoming").
Proof.
  intros s t f l d d' H. unfold connect in H.
  destruct (add_edge_spec s t d) as [d1 [E1 [A1 [N1 [X1 [B1 R1]]]]]].
  assert (H1 : edge_b d1 s t = true) by (rewrite B1, pair_b_refl, orb_true_r; reflexivity).
  destruct (set_edge_spec s t l d1 H1) as [d2 [E2 [X2 [B2 [G2 R2]]]]].
  destruct (attr_graph _ _ G2) as [A2 N2].
  rewrite (mbind_eq _ _ _ _ _ _ _ _ E1) in H. rewrite (mbind_eq _ _ _ _ _ _ _ _ E2) in H.
  apply mbind_ok in H. destruct H as [d3 [[] [H3 H4]]].
  pose proof (register_flow_ok _ _ _ _ _ H3) as [I3 L3]. rewrite A2, A1 in L3. split; [exact L3|].
  destruct (register_flow_spec s "outgoing" f d2 I3) as [d3' [E3 [A3 _]]].
  { rewrite A2, A1. exact L3. } rewrite H3 in E3. inv E3.
  apply register_flow_ok in H4. destruct H4 as [_ L4]. rewrite A3 in L4.
  replace ("incoming" =? "outgoing") with false in L4 by reflexivity. rewrite andb_false_r in L4.
  rewrite A2, A1 in L4. exact L4.
Qed.

Definition flow_ready (d : diagram) (e : dom) (cs : list (string * pyval)) : Prop :=
  collect condition_of (d_kids e) = Ok cs /\
  listy (attr d (get_attribute "sourceRef" e) "outgoing") /\ listy (attr d (get_attribute "targetRef" e) "incoming").
Lemma import_flow_effect : forall o e cs d, flow_ready d e cs ->
  let s := get_attribute "sourceRef" e in let t := get_attribute "targetRef" e in let f := get_attribute "id" e in
  exists d', import_sequence_flow_to_graph o e d = (d', Ok tt) /\
    (forall m k, attr d' m k =
        if (m =? s) && (k =? "outgoing") then add_missing f (attr d m k)
        else if (m =? t) && (k =? "incoming") then add_missing f (attr d m k)
        else attr d m k) /\
    (forall m, is_node d' m <-> is_node d m \/ m = s \/ m = t) /\
    (forall a b k, edge_attr d' a b k = if pair_b a b s t
        then match dget k (rev (flow_fields o e ++ cs)) with Some v => Some v | None => edge_attr d a b k end
        else edge_attr d a b k) /\
    (forall a b, edge_b d' a b = edge_b d a b || pair_b a b s t) /\
    seq_flows d' = dset f (mkFlow (attribute_or "name" "" e) s t) (seq_flows d) /\ same_meta4 d d'.
Proof.
  intros o e cs d (Hc & Ls & Lt) s t f.
  destruct (connect_effect s t f (flow_fields o e ++ cs)
    (with_flows d (dset f (mkFlow (attribute_or "name" "" e) s t) (seq_flows d))) Ls Lt) as [d' [E [A [N [X [B R]]]]]].
  exists d'. split; [|split; [|split; [|split; [|split; [|split]]]]]; auto.
  - rewrite (flow_form o e cs d Hc). rewrite mbind_modify. exact E.
  - destruct R as (R1 & _). exact R1.
  - destruct R as (R1 & R2 & R3 & R4 & R5). repeat split; auto.
Qed.
Lemma import_flow_ok : forall o e d d', import_sequence_flow_to_graph o e d = (d', Ok tt) ->
  exists cs, flow_ready d e cs.
Proof.
  intros o e d d' H. assert (C : exists cs, collect condition_of (d_kids e) = Ok cs).
  { unfold import_sequence_flow_to_graph in H.
    repeat (apply mbind_ok in H; destruct H as [? [? [? H]]]).
    match goal with K : each_element _ _ _ = (_, Ok ?u) |- _ => destruct u; apply set_conditions_ok in K; exact K end. }
  destruct C as [cs C]. exists cs. split; [exact C|].
  rewrite (flow_form o e cs d C) in H. rewrite mbind_modify in H.
  apply connect_ok in H. exact H.
Qed.

(** * Message flows and participants *)
Definition message_fields (e : dom) : list (string * pyval) :=
  [("id", VStr (get_attribute "id" e)); ("name", VStr (attribute_or "name" "" e));
   ("sourceRef", VStr (get_attribute "sourceRef" e)); ("targetRef", VStr (get_attribute "targetRef" e))].
Lemma message_form : forall e d,
  let s := get_attribute "sourceRef" e in let t := get_attribute "targetRef" e in
  let f := get_attribute "id" e in
  import_message_flow_to_graph e d =
  connect s t f (message_fields e) (set_message f (mkFlow (attribute_or "name" "" e) s t) d).
Proof.
  intros. unfold import_message_flow_to_graph, connect. rewrite mbind_modify.
  apply mbind_ext; [reflexivity|intros _ s2].
  unfold set_edge at 1, message_fields. cbn [mfor fst snd].
  repeat (rewrite ?mbind_assoc; apply mbind_ext; [reflexivity|intros _ ?]).
  reflexivity.
Qed.
Lemma set_message_frame : forall f r d,
  dgraph (set_message f r d) = dgraph d /\ seq_flows (set_message f r d) = seq_flows d /\
  procs (set_message f r d) = procs d /\ diag_attrs (set_message f r d) = diag_attrs d /\
  plane_attrs (set_message f r d) = plane_attrs d.
Proof. intros. unfold set_message. destruct (collaboration d); repeat split. Qed.
Lemma import_message_effect : forall e d,
  let s := get_attribute "sourceRef" e in let t := get_attribute "targetRef" e in let f := get_attribute "id" e in
  listy (attr d s "outgoing") -> listy (attr d t "incoming") ->
  exists d', import_message_flow_to_graph e d = (d', Ok tt) /\
    (forall m k, attr d' m k =
        if (m =? s) && (k =? "outgoing") then add_missing f (attr d m k)
        else if (m =? t) && (k =? "incoming") then add_missing f (attr d m k)
        else attr d m k) /\
    (forall m, is_node d' m <-> is_node d m \/ m = s \/ m = t) /\
    (forall a b k, edge_attr d' a b k = if pair_b a b s t
        then match dget k (rev (message_fields e)) with Some v => Some v | None => edge_attr d a b k end
        else edge_attr d a b k) /\
    (forall a b, edge_b d' a b = edge_b d a b || pair_b a b s t) /\
    same_rest (set_message f (mkFlow (attribute_or "name" "" e) s t) d) d'.
Proof.
  intros e d s t f Ls Lt.
  assert (A0 : forall m k, attr (set_message f (mkFlow (attribute_or "name" "" e) s t) d) m k = attr d m k).
  { intros. unfold attr, node_of. rewrite (proj1 (set_message_frame _ _ _)). reflexivity. }
  assert (I0 : forall m, is_node (set_message f (mkFlow (attribute_or "name" "" e) s t) d) m <-> is_node d m).
  { intros. unfold is_node. rewrite (proj1 (set_message_frame _ _ _)). tauto. }
  assert (B0 : forall a b, edge_b (set_message f (mkFlow (attribute_or "name" "" e) s t) d) a b = edge_b d a b).
  { intros. unfold edge_b. rewrite (proj1 (set_message_frame _ _ _)). reflexivity. }
  assert (X0 : forall a b k, edge_attr (set_message f (mkFlow (attribute_or "name" "" e) s t) d) a b k = edge_attr d a b k).
  { intros. unfold edge_attr. rewrite (proj1 (set_message_frame _ _ _)). reflexivity. }
  destruct (connect_effect s t f (message_fields e) (set_message f (mkFlow (attribute_or "name" "" e) s t) d))
    as [d' [E [A [N [X [B R]]]]]]; [rewrite A0; exact Ls|rewrite A0; exact Lt|].
  exists d'. split; [rewrite message_form; exact E|]. split; [|split; [|split; [|split]]]; auto.
  - intros. rewrite A, !A0. reflexivity.
  - intros. rewrite N, I0. tauto.
  - intros. rewrite X, !X0. reflexivity.
  - intros. rewrite B, B0. reflexivity.
Qed.
Lemma import_message_ok : forall e d d', import_message_flow_to_graph e d = (d', Ok tt) ->
  listy (attr d (get_attribute "sourceRef" e) "outgoing") /\ listy (attr d (get_attribute "targetRef" e) "incoming").
Proof.
  intros e d d' H. rewrite message_form in H. apply connect_ok in H.
  unfold attr, node_of in *. rewrite (proj1 (set_message_frame _ _ _)) in H. exact H.
Qed.

Definition part_fields (e : dom) : list (string * pyval) :=
  [("type", VStr "participant"); ("process", VStr (get_attribute "id" e))].
Lemma import_participant_effect : forall e d,
  let id := get_attribute "id" e in
  exists d', import_participant_element e d = (d', Ok tt) /\
    (forall m k, attr d' m k =
       if (m =? id) && (get_attribute "processRef" e =? "")
       then match dget k (rev (part_fields e)) with Some v => Some v | None => attr d m k end else attr d m k) /\
    (forall m, is_node d' m <-> is_node d m \/ (m = id /\ get_attribute "processRef" e = "")) /\
    gedges (dgraph d') = gedges (dgraph d) /\
    same_rest (set_participant id [("name", VStr (get_attribute "name" e));
                                   ("processRef", VStr (get_attribute "processRef" e))] d) d'.
Proof.
  intros e d id. unfold import_participant_element. fold id. change k_process_ref with "processRef".
  assert (P : exists d1, (if String.eqb (get_attribute "processRef" e) "" then
         do_ ggraph (fun g => Ok (add_node id g)) ;;
         do_ node_set id k_type (VStr t_participant) ;;
         node_set id k_process (VStr id)
       else mret tt) d = (d1, Ok tt) /\
     (forall m k, attr d1 m k =
       if (m =? id) && (get_attribute "processRef" e =? "")
       then match dget k (rev (part_fields e)) with Some v => Some v | None => attr d m k end else attr d m k) /\
     (forall m, is_node d1 m <-> is_node d m \/ (m = id /\ get_attribute "processRef" e = "")) /\
     gedges (dgraph d1) = gedges (dgraph d) /\ same_rest d d1).
  { destruct (String.eqb_spec (get_attribute "processRef" e) "") as [Z|Z].
    - destruct (add_node_spec id d) as [d1 [E1 [A1 [N1 [G1 R1]]]]].
      destruct (set_all_spec id (part_fields e) d1) as [d2 [E2 [A2 [N2 [G2 R2]]]]]; [apply N1; auto|].
      exists d2. split; [|split; [|split; [|split]]].
      + rewrite (mbind_eq _ _ _ _ _ _ _ _ E1). rewrite <- E2. unfold set_all, part_fields. cbn [mfor fst snd].
        apply mbind_ext; [reflexivity|]. intros. symmetry. apply mbind_ret_r.
      + intros m k. rewrite A2, A1, andb_true_r. reflexivity.
      + intros m. rewrite N2, N1. tauto.
      + congruence.
      + eapply same_rest_trans; eauto.
    - exists d. split; [reflexivity|]. split; [intros; rewrite andb_false_r; reflexivity|].
      split; [tauto|]. split; [reflexivity|apply same_rest_refl]. }
  destruct P as [d1 [E1 [A1 [N1 [G1 R1]]]]].
  rewrite (mbind_eq _ _ _ _ _ _ _ _ E1).
  set (a := [(k_name, VStr (get_attribute k_name e)); (k_process_ref, VStr (get_attribute k_process_ref e))]).
  exists (set_participant id a d1). split; [reflexivity|].
  assert (F : dgraph (set_participant id a d1) = dgraph d1).
  { unfold set_participant. destruct (collaboration d1); reflexivity. }
  split; [|split; [|split]].
  - intros m k. rewrite <- A1. unfold attr, node_of. rewrite F. reflexivity.
  - intros m. rewrite <- N1. unfold is_node. rewrite F. tauto.
  - rewrite F. exact G1.
  - destruct R1 as (R1 & R2 & R3 & R4 & R5). unfold set_participant. rewrite R5.
    destruct (collaboration d) eqn:Ec; repeat split; simpl; auto; congruence.
Qed.
End Facts.
