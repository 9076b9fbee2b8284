(** In which order the importer adds processes. *)
From Coq Require Import String List Bool Arith Lia.
From Verif Require Import Py PyFacts Consts Nx NxFacts Rep SpecRep RepFacts CsvRegex CsvImport CsvFacts Xml Import XmlOps
  ImportFacts ActionFacts DiFacts LoadFacts SpecXml XmlScopes SpecOrder KeyOrder.
Import ListNotations.
Open Scope string_scope.
Open Scope list_scope.

Definition proc_order (d : diagram) : list string := map fst (procs d).
Definition ranks {A} (ns : list string) (m : MD A) : Prop :=
  forall d d' x, m d = (d', Ok x) -> proc_order d' = add_all (proc_order d) ns.
Lemma ranks_ret : forall A (x : A), ranks [] (mret x).
Proof. intros A x d d' y H. inv H. reflexivity. Qed.
Lemma ranks_raise : forall A ns e, ranks (A := A) ns (mraise e).
Proof. intros A ns e d d' y H. discriminate. Qed.
Lemma ranks_bind : forall A B ns ms (m : MD A) (f : A -> MD B), ranks ns m -> (forall x, ranks ms (f x)) -> ranks (ns ++ ms) (mbind m f).
Proof.
  intros A B ns ms m f H H0 d d' y E. apply mbind_ok in E. destruct E as (d1 & x & E1 & E2).
  rewrite add_all_app. rewrite <- (H _ _ _ E1). apply (H0 x _ _ _ E2).
Qed.
Lemma ranks_then : forall A B ns (m : MD A) (f : A -> MD B), ranks ns m -> (forall x, ranks [] (f x)) -> ranks ns (mbind m f).
Proof. intros A B ns m f H H0. rewrite <- (app_nil_r ns). apply ranks_bind; auto. Qed.
Lemma ranks_still : forall A (f : A -> MD unit), (forall a, ranks [] (f a)) -> forall l, ranks [] (mfor l f).
Proof. intros A f H. induction l as [|a l IH]; [apply ranks_ret|]. cbn [mfor]. apply ranks_then; auto. Qed.
Lemma ranks_read : forall A (f : diagram -> res A), ranks [] (mread f).
Proof. intros A f d d' x H. apply mread_ok in H. destruct H as [-> _]. reflexivity. Qed.
Lemma ranks_modify : forall f, (forall d, procs (f d) = procs d) -> ranks [] (mmodify f).
Proof. intros f F d d' x H. inv H. unfold proc_order. rewrite F. reflexivity. Qed.
Lemma ranks_try : forall f, (forall d d', f d = Ok d' -> map fst (procs d') = map fst (procs d)) -> ranks [] (mtry f).
Proof. intros f F d d' x H. unfold mtry in H. destruct (f d) as [d1|] eqn:E; [|discriminate]. inv H. exact (F _ _ E). Qed.
Lemma ranks_graph : forall f, ranks [] (ggraph f).
Proof. intros f. apply ranks_try. intros d d' H. destruct (f (dgraph d)); [|discriminate]. inv H. reflexivity. Qed.
Lemma ranks_set : forall n k v, ranks [] (node_set n k v).
Proof. intros. apply ranks_graph. Qed.
Lemma ranks_edge : forall s t k v, ranks [] (edge_set s t k v).
Proof. intros. apply ranks_graph. Qed.

Definition heads (a : action) : list string := match a with AProcess e => [eid e] | _ => [] end.

Section Acts.
Variable set_order : list string -> list string.
Notation act := (act set_order).
Notation load := (load_diagram_from_xml set_order).

Lemma set_key : forall (k : string) (v : attrs) l, map fst (dset k v l) = add1 (map fst l) k.
Proof.
  intros k v l. unfold add1. destruct (in_dec string_dec k (map fst l)) as [I|I]; [apply (dkeys_dset_in k v l I)|].
  rewrite (dset_new k v l I), map_app. reflexivity.
Qed.
Lemma get_key : forall (k : string) (v a : attrs) l, dgetE k l = Ok a -> map fst (dset k v l) = map fst l.
Proof.
  intros k v a l H. unfold dgetE in H. destruct (dget k l) as [b|] eqn:E; [|discriminate]. apply (dkeys_dset_in k v l).
  apply dget_In in E. unfold dkeys. apply in_map_iff. exists (k, b). auto.
Qed.
Lemma ranks_own : forall o x, ranks [] (append_node_id o x).
Proof.
  intros [p|s] x; [|apply ranks_graph]. apply ranks_try. intros d d' H. destruct (dgetE p (procs d)) as [a|] eqn:E; [|discriminate]. cbn [rbind] in H.
  destruct (dgetE k_node_ids a) as [v|]; [|discriminate]. cbn [rbind] in H. destruct v; try discriminate. inv H. apply (get_key _ _ _ _ E).
Qed.
Lemma ranks_flow_node : forall o e, ranks [] (import_flow_node_to_graph o e).
Proof.
  intros o e. unfold import_flow_node_to_graph. apply ranks_then; [apply ranks_graph|intros _].
  repeat first [apply ranks_set | apply ranks_own | apply ranks_read | apply ranks_then; [|intros ?]].
Qed.
Lemma ranks_import : forall o e, ranks [] (import_node set_order o e).
Proof.
  intros o e. unfold import_node, import_activity_to_graph, import_data_object_to_graph, import_gateway_with_default_to_graph,
    import_gateway_to_graph, import_event_based_gateway_to_graph, import_start_event_to_graph, import_end_event_to_graph,
    import_intermediate_catch_event_to_graph, import_intermediate_throw_event_to_graph, import_boundary_event_to_graph, import_event_definition_elements.
  repeat match goal with |- ranks _ (if ?b then _ else _) => destruct b end;
    repeat first [apply ranks_ret | apply ranks_flow_node | apply ranks_set | apply ranks_then; [|intros ?]].
Qed.
Lemma ranks_register : forall n k f, ranks [] (register_flow n k f).
Proof.
  intros n k f. unfold register_flow. apply ranks_then; [apply ranks_read|]. intros a. apply ranks_then.
  - destruct (dhas k a); [apply ranks_ret|apply ranks_set].
  - intros _. apply ranks_then; [apply ranks_read|]. intros v. destruct v; try apply ranks_raise. destruct (smem _ _); [apply ranks_ret|apply ranks_graph].
Qed.
Lemma ranks_seq : forall o x, ranks [] (import_sequence_flow_to_graph o x).
Proof.
  intros o x. unfold import_sequence_flow_to_graph. apply ranks_then; [apply ranks_modify; reflexivity|]. intros _.
  apply ranks_then; [apply ranks_graph|]. intros _.
  do 5 (apply ranks_then; [apply ranks_edge|]; intros _). apply ranks_then.
  - apply ranks_still. intros [g a ks|s|s]; [|apply ranks_ret|apply ranks_raise]. destruct (String.eqb _ _); [|apply ranks_ret].
    apply ranks_then; [apply ranks_read|]. intros c. apply ranks_edge.
  - intros _. apply ranks_then; [apply ranks_register|]. intros _. apply ranks_register.
Qed.
Lemma message_procs : forall f r d, procs (set_message f r d) = procs d.
Proof. intros f r d. unfold set_message. destruct (collaboration d); reflexivity. Qed.
Lemma part_procs : forall f r d, procs (set_participant f r d) = procs d.
Proof. intros f r d. unfold set_participant. destruct (collaboration d); reflexivity. Qed.
Lemma ranks_message : forall x, ranks [] (import_message_flow_to_graph x).
Proof.
  intros x. unfold import_message_flow_to_graph. apply ranks_then; [apply ranks_modify; intros; apply message_procs|]. intros _.
  apply ranks_then; [apply ranks_graph|]. intros _. do 4 (apply ranks_then; [apply ranks_edge|]; intros _).
  apply ranks_then; [apply ranks_register|]. intros _. apply ranks_register.
Qed.
Lemma ranks_part : forall x, ranks [] (import_participant_element x).
Proof.
  intros x. unfold import_participant_element. apply ranks_then; [|intros _; apply ranks_modify; intros; apply part_procs].
  destruct (String.eqb _ _); [|apply ranks_ret].
  apply ranks_then; [apply ranks_graph|]. intros _. apply ranks_then; [apply ranks_set|]. intros _. apply ranks_set.
Qed.
Lemma ranks_act : forall plane a, ranks (heads a) (act plane a).
Proof.
  intros plane a. destruct a as [e|o e|o x| |c|x|x]; cbn [ImportFacts.act heads].
  - apply ranks_then.
    + intros d d' x H. inv H. unfold proc_order. simpl. apply set_key.
    + intros _. unfold import_lane_sets. destruct (elements_in _ _) as [|ls r]; [apply ranks_ret|].
      apply ranks_then; [apply ranks_read|]. intros l. apply ranks_try. intros d d' H. destruct (dgetE _ _) eqn:E; [|discriminate]. inv H. apply (get_key _ _ _ _ E).
  - apply ranks_import.
  - apply ranks_seq.
  - apply ranks_raise.
  - apply ranks_modify. reflexivity.
  - apply ranks_part.
  - apply ranks_message.
Qed.
Lemma ranks_acts : forall plane l, ranks (flat_map heads l) (mfor l (act plane)).
Proof.
  intros plane. induction l as [|a l IH]; [apply ranks_ret|]. cbn [mfor flat_map]. apply ranks_bind; [apply ranks_act|intros _; exact IH].
Qed.
Lemma ranks_di : forall x, ranks [] (di_step x).
Proof.
  intros [g a ks|s|s]; [|apply ranks_ret|apply ranks_raise]. unfold di_step. destruct (String.eqb _ _); [|destruct (String.eqb _ _); [|apply ranks_ret]].
  - unfold import_shape_di. apply ranks_then; [apply ranks_read|]. intros b. apply ranks_then; [apply ranks_read|]. intros k. apply ranks_then.
    + destruct k; [|apply ranks_ret]. do 2 (apply ranks_then; [apply ranks_set|]; intros _). apply ranks_then; [apply ranks_read|]. intros t.
      apply ranks_then; [destruct (veqs _ _); [apply ranks_set|apply ranks_ret]|]. intros _. apply ranks_then; [apply ranks_set|]. intros _. apply ranks_set.
    + intros _. apply ranks_modify. intros d. destruct (collaboration d) as [c|]; [|reflexivity]. destruct (dget _ _); [|reflexivity]. apply part_procs.
  - unfold import_flow_di. apply ranks_then; [apply ranks_read|]. intros [r|]; [|apply ranks_ret]. apply ranks_then; [apply ranks_edge|]. intros _. apply ranks_edge.
Qed.
Lemma load_proc_order : forall root d d', load root d = (d', Ok tt) -> proc_order d' = add_all (proc_order d) (flat_map heads (core_actions root)).
Proof.
  intros root d d' H. destruct (load_ok_parts set_order root d d' H) as (de & pe & mid & _ & H1 & H2).
  rewrite (ranks_still _ _ ranks_di _ _ _ _ H2). simpl. apply (ranks_acts _ _ _ _ _ H1).
Qed.
End Acts.

(** * Only process elements count *)
Lemma flow_heads : forall o e, flat_map heads (flow_actions o e) = [].
Proof.
  intros o e. unfold flow_actions. induction (d_kids e) as [|x l IH]; [reflexivity|]. cbn [flat_map]. rewrite flat_map_app, IH, app_nil_r.
  destruct x as [g a ks|s|s]; try reflexivity. destruct (_ =? _); reflexivity.
Qed.
Lemma element_heads : forall e o, flat_map heads (element_actions o e) = [].
Proof.
  intros e. induction e as [g a kids IH|z|z] using dom_rect'; intros o; try reflexivity. cbn [element_actions]. rewrite flat_map_app.
  destruct (smem _ _); cbn [flat_map heads app]; (destruct (_ =? _); [|reflexivity]); rewrite flat_map_app, flow_heads, app_nil_r;
    (induction kids as [|x l IHl]; [reflexivity|]); inversion IH as [|x0 l0 Hx Hl]; subst x0 l0; cbn [flat_map]; rewrite flat_map_app, Hx.
  all: clear -Hl; induction l as [|y l IHl]; [reflexivity|]; inversion Hl as [|x0 l0 Hx Hl']; subst x0 l0; cbn [flat_map app] in *; rewrite flat_map_app, Hx; apply (IHl Hl').
Qed.
Lemma process_heads : forall e, flat_map heads (process_actions e) = [eid e].
Proof.
  intros e. unfold process_actions. cbn [flat_map heads app]. rewrite flat_map_app, flow_heads, app_nil_r. f_equal.
  induction (d_kids e) as [|x l IH]; [reflexivity|]. cbn [flat_map]. rewrite flat_map_app, element_heads. exact IH.
Qed.
Lemma core_heads : forall root, flat_map heads (core_actions root) = map (get_attribute "id") (document_elements "process" root).
Proof.
  intros root. unfold core_actions. rewrite flat_map_app. change k_process with "process". 
  assert (E : flat_map heads (match document_elements t_collaboration root with [] => [] | c :: _ => collab_actions c end) = []).
  { destruct (document_elements t_collaboration root) as [|c r]; [reflexivity|]. unfold collab_actions. cbn [flat_map heads app].
    induction (d_kids c) as [|x l IH]; [reflexivity|]. cbn [flat_map]. rewrite flat_map_app, IH, app_nil_r. destruct x as [g a ks|s|s]; try reflexivity.
    destruct (_ =? _); [reflexivity|]. destruct (_ =? _); reflexivity. }
  rewrite E, app_nil_r. induction (document_elements "process" root) as [|x l IH]; [reflexivity|]. cbn [flat_map map]. rewrite flat_map_app, process_heads, IH. reflexivity.
Qed.
(** The processes that a file adds, in the order of the file. *)
Lemma load_processes : forall so root d d', load_diagram_from_xml so root d = (d', Ok tt) ->
  proc_order d' = add_all (proc_order d) (map (get_attribute "id") (document_elements "process" root)).
Proof. intros so root d d' H. rewrite (load_proc_order so root d d' H), core_heads. reflexivity. Qed.
