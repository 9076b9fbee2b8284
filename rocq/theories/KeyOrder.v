(** In which order the importer adds nodes. *)
From Coq Require Import String List Bool Arith Lia.
From Verif Require Import Py PyFacts Consts Nx NxFacts Rep SpecRep RepFacts CsvRegex CsvImport CsvFacts Xml Import XmlOps
  ImportFacts ActionFacts DiFacts LoadFacts SpecXml XmlScopes SpecOrder.
Import ListNotations.
Open Scope string_scope.
Open Scope list_scope.

Definition add1 (ks : list string) (n : string) : list string := if in_dec string_dec n ks then ks else ks ++ [n].
Definition add_all (ks ns : list string) : list string := fold_left add1 ns ks.
Lemma add_all_app : forall ks a b, add_all ks (a ++ b) = add_all (add_all ks a) b.
Proof. intros. unfold add_all. apply fold_left_app. Qed.

(** * Programs that add these nodes *)
Definition grows {A} (ns : list string) (m : MD A) : Prop :=
  forall d d' x, m d = (d', Ok x) -> node_order d' = add_all (node_order d) ns.
Lemma grows_ret : forall A (x : A), grows [] (mret x).
Proof. intros A x d d' y H. inv H. reflexivity. Qed.
Lemma grows_raise : forall A ns e, grows (A := A) ns (mraise e).
Proof. intros A ns e d d' y H. discriminate. Qed.
Lemma grows_bind : forall A B ns ms (m : MD A) (f : A -> MD B), grows ns m -> (forall x, grows ms (f x)) -> grows (ns ++ ms) (mbind m f).
Proof.
  intros A B ns ms m f H H0 d d' y E. apply mbind_ok in E. destruct E as (d1 & x & E1 & E2).
  rewrite add_all_app. rewrite <- (H _ _ _ E1). apply (H0 x _ _ _ E2).
Qed.
Lemma grows_then : forall A B ns (m : MD A) (f : A -> MD B), grows ns m -> (forall x, grows [] (f x)) -> grows ns (mbind m f).
Proof. intros A B ns m f H H0. rewrite <- (app_nil_r ns). apply grows_bind; auto. Qed.
Lemma grows_after : forall A B ns (m : MD A) (f : A -> MD B), grows [] m -> (forall x, grows ns (f x)) -> grows ns (mbind m f).
Proof. intros A B ns m f H H0. apply (grows_bind _ _ [] ns); auto. Qed.
Lemma grows_for : forall A (f : A -> MD unit) (h : A -> list string), (forall a, grows (h a) (f a)) -> forall l, grows (flat_map h l) (mfor l f).
Proof. intros A f h H. induction l as [|a l IH]; [apply grows_ret|]. cbn [mfor flat_map]. apply grows_bind; auto. Qed.
Lemma grows_still : forall A (f : A -> MD unit), (forall a, grows [] (f a)) -> forall l, grows [] (mfor l f).
Proof. intros A f H. induction l as [|a l IH]; [apply grows_ret|]. cbn [mfor]. apply grows_then; auto. Qed.
Lemma grows_read : forall A (f : diagram -> res A), grows [] (mread f).
Proof. intros A f d d' x H. apply mread_ok in H. destruct H as [-> _]. reflexivity. Qed.
Lemma grows_modify : forall f, (forall d, dgraph (f d) = dgraph d) -> grows [] (mmodify f).
Proof. intros f F d d' x H. inv H. unfold node_order. rewrite F. reflexivity. Qed.
Lemma grows_try : forall f, (forall d d', f d = Ok d' -> dgraph d' = dgraph d) -> grows [] (mtry f).
Proof. intros f F d d' x H. unfold mtry in H. destruct (f d) as [d1|] eqn:E; [|discriminate]. inv H. unfold node_order. rewrite (F _ _ E). reflexivity. Qed.
Lemma grows_graph : forall f, (forall g g', f g = Ok g' -> map fst (gnodes g') = map fst (gnodes g)) -> grows [] (ggraph f).
Proof.
  intros f F d d' x H. unfold ggraph, mtry in H. destruct (f (dgraph d)) as [g|] eqn:E; [|discriminate]. inv H.
  unfold node_order. simpl. apply (F _ _ E).
Qed.
Lemma grows_set : forall n k v, grows [] (node_set n k v).
Proof.
  intros n k v. apply grows_graph. intros g g' H. unfold set_node_attr in H. destruct (gnode g n) as [a|] eqn:E; [|discriminate]. inv H.
  simpl. apply (dkeys_dset_get attrs n _ a). exact E.
Qed.
Lemma grows_edge : forall s t k v, grows [] (edge_set s t k v).
Proof. intros s t k v. apply grows_graph. intros g g' H. unfold set_edge_attr in H. destruct (has_edge s t g); [|discriminate]. inv H. reflexivity. Qed.
Lemma grows_append : forall n k s, grows [] (ggraph (append_node_attr n k s)).
Proof.
  intros n k s. apply grows_graph. intros g g' H. unfold append_node_attr, set_node_attr, get_node_attr in H.
  destruct (gnode g n) as [a|] eqn:E; [|discriminate]. destruct (dgetE k a) as [v|]; [|discriminate]. cbn [rbind] in H.
  destruct v; try discriminate. inv H. simpl. apply (dkeys_dset_get attrs n _ a). exact E.
Qed.
Lemma keys_add : forall n g, map fst (gnodes (add_node n g)) = add1 (map fst (gnodes g)) n.
Proof.
  intros n g. unfold add1. destruct (in_dec _ _ _) as [I|I].
  - rewrite add_node_existing by exact I. reflexivity.
  - unfold add_node, has_node. rewrite (proj2 (dhas_false n (gnodes g)) I). simpl. rewrite map_app. reflexivity.
Qed.
Lemma grows_node : forall n, grows [n] (ggraph (fun g => Ok (add_node n g))).
Proof. intros n d d' x H. inv H. unfold node_order. simpl. apply keys_add. Qed.
Lemma grows_link : forall s t, grows [s; t] (ggraph (fun g => Ok (add_edge s t g))).
Proof.
  intros s t d d' x H. inv H. unfold node_order. simpl. unfold add_edge.
  assert (E : map fst (gnodes (add_node t (add_node s (dgraph d)))) = add1 (add1 (map fst (gnodes (dgraph d))) s) t) by (rewrite !keys_add; reflexivity).
  destruct (has_edge _ _ _); exact E.
Qed.

(** * The actions of the importer *)
Definition names (a : action) : list string :=
  match a with
  | ANode _ e => [eid e]
  | AFlow _ x | AMessage x => [src x; tgt x]
  | APart x => if get_attribute "processRef" x =? "" then [eid x] else []
  | _ => []
  end.

Section Acts.
Variable set_order : list string -> list string.
Notation act := (act set_order).
Notation load := (load_diagram_from_xml set_order).

Ltac still := repeat first
  [ apply grows_ret | apply grows_raise | apply grows_set | apply grows_edge | apply grows_append | apply grows_read
  | apply grows_then; [|intros ?] ].
Lemma grows_own : forall o x, grows [] (append_node_id o x).
Proof.
  intros [p|s] x; [|apply grows_append]. apply grows_try. intros d d' H. destruct (dgetE p (procs d)) as [a|]; [|discriminate]. cbn [rbind] in H.
  destruct (dgetE k_node_ids a) as [v|]; [|discriminate]. cbn [rbind] in H. destruct v; try discriminate. inv H. reflexivity.
Qed.
Lemma grows_flow_node : forall o e, grows [eid e] (import_flow_node_to_graph o e).
Proof.
  intros o e. unfold import_flow_node_to_graph. apply grows_then; [apply grows_node|intros _].
  repeat first [apply grows_set | apply grows_own | apply grows_read | apply grows_then; [|intros ?]].
Qed.
Lemma grows_import : forall o e, smem (d_local e) node_types = true -> grows [eid e] (import_node set_order o e).
Proof.
  intros o e T. unfold import_node, import_activity_to_graph, import_data_object_to_graph, import_gateway_with_default_to_graph,
    import_gateway_to_graph, import_event_based_gateway_to_graph, import_start_event_to_graph, import_end_event_to_graph,
    import_intermediate_catch_event_to_graph, import_intermediate_throw_event_to_graph, import_boundary_event_to_graph, import_event_definition_elements.
  repeat match goal with |- grows _ (if ?b then _ else _) => destruct b eqn:? end;
    try (repeat first [apply grows_flow_node | apply grows_set | apply grows_then; [|intros ?]]).
  exfalso. unfold smem, node_types in T. cbn [existsb] in T.
  repeat match goal with H : String.eqb _ ?t = false |- _ => unfold t in H end.
  unfold t_task, t_user_task, t_service_task, t_manual_task in *. unfold smem in *. cbn [existsb] in *.
  repeat match goal with H : (_ || _)%bool = false |- _ => apply orb_false_iff in H; destruct H end.
  repeat match goal with H : String.eqb (d_local e) _ = false |- _ => unfold t_subprocess, t_data_object, t_inclusive_gateway,
    t_exclusive_gateway, t_parallel_gateway, t_event_based_gateway, t_complex_gateway, t_start_event, t_end_event,
    t_intermediate_catch_event, t_intermediate_throw_event, t_boundary_event in H; rewrite H in T; clear H end.
  discriminate.
Qed.
Lemma grows_register : forall n k f, grows [] (register_flow n k f).
Proof.
  intros n k f. unfold register_flow. apply grows_then; [apply grows_read|]. intros a. apply grows_then.
  - destruct (dhas k a); [apply grows_ret|apply grows_set].
  - intros _. apply grows_then; [apply grows_read|]. intros v. destruct v; try apply grows_raise. destruct (smem _ _); [apply grows_ret|apply grows_append].
Qed.
Lemma grows_seq : forall o x, grows [src x; tgt x] (import_sequence_flow_to_graph o x).
Proof.
  intros o x. unfold import_sequence_flow_to_graph. apply grows_after; [apply grows_modify; reflexivity|]. intros _.
  apply grows_then; [apply grows_link|]. intros _.
  do 5 (apply grows_then; [apply grows_edge|]; intros _). apply grows_then.
  - apply grows_still. intros [g a ks|s|s]; [|apply grows_ret|apply grows_raise]. destruct (String.eqb _ _); [|apply grows_ret].
    apply grows_then; [apply grows_read|]. intros c. apply grows_edge.
  - intros _. apply grows_then; [apply grows_register|]. intros _. apply grows_register.
Qed.
Lemma message_graph : forall f r d, dgraph (set_message f r d) = dgraph d.
Proof. intros. unfold set_message. destruct (collaboration d); reflexivity. Qed.
Lemma part_graph : forall f r d, dgraph (set_participant f r d) = dgraph d.
Proof. intros. unfold set_participant. destruct (collaboration d); reflexivity. Qed.
Lemma grows_message : forall x, grows [src x; tgt x] (import_message_flow_to_graph x).
Proof.
  intros x. unfold import_message_flow_to_graph. apply grows_after; [apply grows_modify; intros; apply message_graph|]. intros _.
  apply grows_then; [apply grows_link|]. intros _. do 4 (apply grows_then; [apply grows_edge|]; intros _).
  apply grows_then; [apply grows_register|]. intros _. apply grows_register.
Qed.
Lemma grows_part : forall x, grows (names (APart x)) (import_participant_element x).
Proof.
  intros x. unfold import_participant_element. apply grows_then; [|intros _; apply grows_modify; intros; apply part_graph]. cbn [names].
  change k_process_ref with "processRef". destruct (_ =? ""); [|apply grows_ret].
  apply grows_then; [apply grows_node|]. intros _. apply grows_then; [apply grows_set|]. intros _. apply grows_set.
Qed.
Lemma grows_act : forall plane a, (forall o e, a = ANode o e -> smem (d_local e) node_types = true) -> grows (names a) (act plane a).
Proof.
  intros plane a T. destruct a as [e|o e|o x| |c|x|x]; cbn [ImportFacts.act names].
  - apply grows_then; [apply grows_modify; reflexivity|]. intros _. unfold import_lane_sets. destruct (elements_in _ _) as [|ls r]; [apply grows_ret|].
    apply grows_then; [apply grows_read|]. intros l. apply grows_try. intros d d' H. destruct (dgetE _ _); [|discriminate]. inv H. reflexivity.
  - apply grows_import. eapply T. reflexivity.
  - apply grows_seq.
  - apply grows_raise.
  - apply grows_modify. reflexivity.
  - apply grows_part.
  - apply grows_message.
Qed.
Lemma grows_acts : forall plane l, typed l -> grows (flat_map names l) (mfor l (act plane)).
Proof.
  intros plane. induction l as [|a l IH]; intros T; [apply grows_ret|]. cbn [mfor flat_map]. apply grows_bind.
  - apply grows_act. intros o e ->. apply (T o e). left. reflexivity.
  - intros _. apply IH. intros o e I. apply (T o e). right. exact I.
Qed.
Lemma grows_di : forall x, grows [] (di_step x).
Proof.
  intros [g a ks|s|s]; [|apply grows_ret|apply grows_raise]. unfold di_step. destruct (String.eqb _ _); [|destruct (String.eqb _ _); [|apply grows_ret]].
  - unfold import_shape_di. apply grows_then; [apply grows_read|]. intros b. apply grows_then; [apply grows_read|]. intros k. apply grows_then.
    + destruct k; [|apply grows_ret]. do 2 (apply grows_then; [apply grows_set|]; intros _). apply grows_then; [apply grows_read|]. intros t.
      apply grows_then; [destruct (veqs _ _); [apply grows_set|apply grows_ret]|]. intros _. apply grows_then; [apply grows_set|]. intros _. apply grows_set.
    + intros _. apply grows_modify. intros d. destruct (collaboration d) as [c|]; [|reflexivity]. destruct (dget _ _); [|reflexivity]. apply part_graph.
  - unfold import_flow_di. apply grows_then; [apply grows_read|]. intros [r|]; [|apply grows_ret]. apply grows_then; [apply grows_edge|]. intros _. apply grows_edge.
Qed.
Lemma load_order : forall root d d', load root d = (d', Ok tt) -> node_order d' = add_all (node_order d) (flat_map names (core_actions root)).
Proof.
  intros root d d' H. destruct (load_ok_parts set_order root d d' H) as (de & pe & mid & _ & H1 & H2).
  rewrite (grows_still _ _ grows_di _ _ _ _ H2). simpl. apply (grows_acts _ _ (core_actions_typed root) _ _ _ H1).
Qed.
End Acts.

(** * The order of first mention *)
Lemma add_all_in : forall ns ks, incl ns ks -> add_all ks ns = ks.
Proof.
  induction ns as [|n ns IH]; intros ks H; [reflexivity|]. unfold add_all. cbn [fold_left].
  replace (add1 ks n) with ks.
  2:{ unfold add1. destruct (in_dec string_dec n ks) as [_|C]; [reflexivity|exfalso; apply C, H; left; reflexivity]. }
  apply IH. intros x I. apply H. right. exact I.
Qed.
Lemma in_add_all : forall ns ks x, In x (add_all ks ns) <-> In x ks \/ In x ns.
Proof.
  induction ns as [|n ns IH]; intros ks x; [simpl; tauto|]. unfold add_all. cbn [fold_left]. fold (add_all (add1 ks n) ns). rewrite IH. unfold add1.
  destruct (in_dec string_dec _ _); [simpl; split; [tauto|intros [?|[<-|?]]; auto]|rewrite in_app_iff; simpl; tauto].
Qed.
Lemma filter_filter : forall A (p q : A -> bool) l, filter p (filter q l) = filter (fun x => q x && p x) l.
Proof. induction l as [|a l IH]; [reflexivity|]. simpl. destruct (q a); simpl; [destruct (p a)|]; rewrite ?IH; reflexivity. Qed.
Lemma add_all_firsts : forall ns ks, add_all ks ns = ks ++ filter (fun x => if in_dec string_dec x ks then false else true) (firsts ns).
Proof.
  induction ns as [|n ns IH]; intros ks; [simpl; rewrite app_nil_r; reflexivity|].
  unfold add_all. cbn [fold_left]. fold (add_all (add1 ks n) ns). rewrite IH. cbn [firsts filter]. rewrite filter_filter. unfold add1.
  destruct (in_dec string_dec n ks) as [I|I].
  - f_equal. apply filter_ext. intros x. destruct (string_dec x n) as [->|Ne]; [|reflexivity]. destruct (in_dec string_dec _ _); [reflexivity|contradiction].
  - rewrite <- app_assoc. cbn [app]. f_equal. f_equal. apply filter_ext. intros x.
    destruct (string_dec x n) as [->|Ne].
    + destruct (in_dec string_dec _ _) as [_|C]; [reflexivity|exfalso; apply C, in_or_app; right; left; reflexivity].
    + cbn [andb]. destruct (in_dec string_dec x (ks ++ [n])) as [J|J]; destruct (in_dec string_dec x ks) as [J'|J']; auto; exfalso.
      * apply in_app_or in J. destruct J as [J|[J|[]]]; [contradiction|congruence].
      * apply J, in_or_app. left. exact J'.
Qed.
Lemma firsts_start : forall ns, add_all [] ns = firsts ns.
Proof. intros. rewrite add_all_firsts. cbn [app in_dec]. rewrite <- (app_nil_l (firsts ns)) at 2. cbn [app]. induction (firsts ns) as [|x l IH]; [reflexivity|]. simpl. simpl in IH. rewrite IH. reflexivity. Qed.

(** * Without the mentions in flows *)
Lemma kind_smem : forall t, smem t node_types = true <-> In t node_kinds.
Proof.
  intros t. rewrite smem_In. unfold node_types, node_kinds. simpl. intuition auto.
Qed.
Definition own (e : dom) : list string :=
  match e with
  | DElem g _ _ => (if in_dec string_dec (local_name g) node_kinds then [eid e] else []) ++
                   (if string_dec (local_name g) "subProcess" then below e else [])
  | _ => []
  end.
Lemma below_own : forall e, below e = flat_map own (d_kids e).
Proof. intros [g a ks|s|s]; reflexivity. Qed.
Lemma flow_names : forall o e, incl (flat_map names (flow_actions o e)) (flat_map (fun x => [src x; tgt x]) (filter (fun x => d_local x =? "sequenceFlow") (d_kids e))).
Proof.
  intros o e. unfold flow_actions. induction (d_kids e) as [|x l IH]; [intros y []|]. cbn [flat_map filter]. rewrite flat_map_app.
  intros y I. apply in_app_or in I. destruct I as [I|I].
  - destruct x as [g a ks|s|s]; try contradiction. change t_sequence_flow with "sequenceFlow" in I.
    destruct (d_local (DElem g a ks) =? "sequenceFlow"); [|contradiction]. cbn [flat_map names app] in I |- *.
    destruct I as [<-|[<-|[]]]; [left; reflexivity|right; left; reflexivity].
  - apply IH in I. destruct (d_local x =? "sequenceFlow"); [|exact I]. cbn [flat_map]. apply in_or_app. right. exact I.
Qed.
Lemma flows_known : forall root o s, flows_inside root -> scope root s -> incl (flat_map names (flow_actions o s)) (below s).
Proof.
  intros root o s FI Sc y I. apply flow_names in I. apply in_flat_map in I. destruct I as (x & I & Iy). apply filter_In in I. destruct I as [I T].
  apply String.eqb_eq in T.
  assert (F : flow_in root s x).
  { split; [exact Sc|]. split; [exact I|]. destruct x as [g a ks|z|z]; try discriminate. exact T. }
  destruct (FI s x F) as [A B]. destruct Iy as [<-|[<-|[]]]; assumption.
Qed.
Lemma element_order : forall root e, flows_inside root -> forall o s, scope root s -> In e (d_kids s) -> forall ks,
  add_all ks (flat_map names (element_actions o e)) = add_all ks (own e).
Proof.
  intros root e FI. induction e as [g a kids IH|z|z] using dom_rect'; intros o s Sc I ks; try reflexivity.
  cbn [element_actions own]. rewrite flat_map_app, !add_all_app.
  assert (N : flat_map names (if smem (local_name g) node_types then [ANode o (DElem g a kids)] else []) =
              if in_dec string_dec (local_name g) node_kinds then [eid (DElem g a kids)] else []).
  { destruct (in_dec string_dec _ _) as [J|J]; [apply kind_smem in J; rewrite J; reflexivity|].
    destruct (smem (local_name g) node_types) eqn:T; [apply kind_smem in T; contradiction|reflexivity]. }
  rewrite N. clear N. set (ks1 := add_all ks _). change t_subprocess with "subProcess".
  destruct (string_dec (local_name g) "subProcess") as [Eq|Ne]; [rewrite (proj2 (String.eqb_eq _ _) Eq)|rewrite (proj2 (String.eqb_neq _ _) Ne); reflexivity].
  assert (Sc' : scope root (DElem g a kids)) by (eapply scope_sub; eauto).
  rewrite flat_map_app, add_all_app.
  assert (K : forall l ks0, incl l kids -> add_all ks0 (flat_map names (flat_map (element_actions (InSubprocess (get_attribute k_id (DElem g a kids)))) l)) = add_all ks0 (flat_map own l)).
  { induction l as [|x l IHl]; intros ks0 Inc; [reflexivity|]. cbn [flat_map]. rewrite flat_map_app, !add_all_app.
    rewrite Forall_forall in IH. rewrite (IH x (Inc x (or_introl eq_refl)) _ (DElem g a kids) Sc' (Inc x (or_introl eq_refl))).
    apply IHl. intros y Iy. apply Inc. right. exact Iy. }
  rewrite (K kids ks1 (incl_refl _)). change (flat_map own kids) with (below (DElem g a kids)).
  apply add_all_in. intros y Iy. apply in_add_all. right. revert y Iy. apply (flows_known root); assumption.
Qed.
Lemma process_order : forall root p, flows_inside root -> scope root p -> forall ks,
  add_all ks (flat_map names (process_actions p)) = add_all ks (below p).
Proof.
  intros root p FI Sc ks. unfold process_actions. cbn [flat_map names app]. rewrite flat_map_app, add_all_app.
  assert (K : forall l ks0, incl l (d_kids p) -> add_all ks0 (flat_map names (flat_map (element_actions (InProcess (get_attribute k_id p))) l)) = add_all ks0 (flat_map own l)).
  { induction l as [|x l IHl]; intros ks0 Inc; [reflexivity|]. cbn [flat_map]. rewrite flat_map_app, !add_all_app.
    rewrite (element_order root x FI _ p Sc (Inc x (or_introl eq_refl))). apply IHl. intros y Iy. apply Inc. right. exact Iy. }
  rewrite (K _ ks (incl_refl _)), <- below_own.
  apply add_all_in. intros y Iy. apply in_add_all. right. revert y Iy. apply (flows_known root); assumption.
Qed.
Lemma collab_names : forall root, flat_map names (match document_elements t_collaboration root with [] => [] | c :: _ => collab_actions c end) = partners root.
Proof.
  intros root. unfold partners, collaboration_of. change t_collaboration with "collaboration". destruct (document_elements "collaboration" root) as [|c r]; [reflexivity|].
  unfold collab_actions. cbn [flat_map names app]. induction (d_kids c) as [|x l IH]; [reflexivity|]. cbn [flat_map]. rewrite flat_map_app, IH. f_equal.
  destruct x as [g a ks|z|z]; try reflexivity. change (d_local (DElem g a ks)) with (local_name g). change t_participant with "participant". change t_message_flow with "messageFlow".
  destruct (string_dec (local_name g) "participant") as [->|N1].
  - cbn [String.eqb Ascii.eqb Bool.eqb flat_map names app]. destruct (string_dec _ "") as [->|N]; [reflexivity|]. rewrite (proj2 (String.eqb_neq _ _) N). reflexivity.
  - rewrite (proj2 (String.eqb_neq _ _) N1). destruct (string_dec (local_name g) "messageFlow") as [->|N2]; [reflexivity|].
    rewrite (proj2 (String.eqb_neq _ _) N2). reflexivity.
Qed.
Lemma core_order : forall root ks, flows_inside root ->
  add_all ks (flat_map names (core_actions root)) = add_all ks (flat_map below (document_elements "process" root) ++ partners root).
Proof.
  intros root ks FI. unfold core_actions. rewrite flat_map_app, collab_names, !add_all_app. f_equal. change k_process with "process".
  assert (K : forall l ks0, incl l (document_elements "process" root) -> add_all ks0 (flat_map names (flat_map process_actions l)) = add_all ks0 (flat_map below l)).
  { induction l as [|x l IHl]; intros ks0 Inc; [reflexivity|]. cbn [flat_map]. rewrite flat_map_app, !add_all_app.
    rewrite (process_order root x FI).
    - apply IHl. intros y Iy. apply Inc. right. exact Iy.
    - pose proof (Inc x (or_introl eq_refl)) as I. apply in_document in I. destruct I as [I N]. apply scope_process; assumption. }
  apply K, incl_refl.
Qed.
