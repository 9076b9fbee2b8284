(** What the exported tree contains. *)
From Coq Require Import String List Bool Arith Lia Permutation.
From Verif Require Import Py PyFacts Consts Nx NxFacts Rep SpecRep RepFacts CsvRegex CsvImport CsvFacts Xml Export Import XmlOps
  ImportFacts SpecXml XmlScopes XmlLayout Prop_XmlLayout ExportFacts.
Import ListNotations.
Open Scope string_scope.
Open Scope list_scope.

Lemma nodes_by_process : forall p d l, get_nodes_list_by_process_id p d = Ok l -> forall na,
  In na l <-> In na (gnodes (dgraph d)) /\ dget "process" (snd na) = Some (VStr p).
Proof.
  intros p d l H na. unfold get_nodes_list_by_process_id in H. unfold nodes_view in H. revert l H.
  induction (gnodes (dgraph d)) as [|[n a] ns IH]; intros l H; cbn [rfilter] in H; [inv H; simpl; tauto|].
  unfold attr_is at 1 in H. cbn [snd] in H. destruct (dgetE k_process a) as [v|] eqn:D; [|discriminate]. apply dgetE_ok in D.
  cbn [rbind] in H. destruct (rfilter _ ns) as [r|]; [|discriminate]. cbn [rbind] in H. specialize (IH _ eq_refl).
  assert (V : veqs v p = true <-> v = VStr p).
  { destruct v; simpl; split; intros Q; try discriminate; [apply String.eqb_eq in Q; subst; reflexivity|inv Q; apply eqb_refl']. }
  destruct (veqs v p); inv H; cbn [In]; rewrite IH; split.
  - intros [<- |Q]; [split; [left; reflexivity|cbn [snd]; rewrite (proj1 V eq_refl) in D; exact D]|tauto].
  - intros [[<- |Q] R]; tauto.
  - tauto.
  - intros [[<- |Q] R]; [|tauto]. cbn [snd] in R. change k_process with "process" in D. rewrite R in D. inv D.
    exfalso. assert (false = true) by (apply V; reflexivity). discriminate.
Qed.
Lemma veqs_iff : forall v p, veqs v p = true <-> v = VStr p.
Proof.
  intros v p. destruct v; simpl; split; intros Q; try discriminate; [apply String.eqb_eq in Q; subst; reflexivity|inv Q; apply eqb_refl'].
Qed.
Lemma flows_by_process : forall p d e, In e (get_flows_list_by_process_id p d) <->
  In e (edges_view (dgraph d)) /\ dget "process" (snd e) = Some (VStr p).
Proof.
  intros p d e. unfold get_flows_list_by_process_id, get_flows. rewrite filter_In. change k_process with "process".
  destruct (dget "process" (snd e)) as [v|].
  - rewrite veqs_iff. split; intros [? Q]; split; auto; [congruence|inv Q; reflexivity].
  - split; intros [? Q]; discriminate.
Qed.

Definition is_node_elem (d : diagram) (na : string * attrs) (k : etree) : Prop :=
  In na (gnodes (dgraph d)) /\ exists f, export_node_data f d na = Ok k.
Definition is_flow_elem (d : diagram) (e : string * string * attrs) (k : etree) : Prop :=
  In e (edges_view (dgraph d)) /\ export_flow_process_data (snd e) = Ok k.
(** The children of the element of a scope with the id [p]. *)
Definition scope_child (d : diagram) (p : string) (k : etree) : Prop :=
  (exists na, is_node_elem d na k /\ dget "process" (snd na) = Some (VStr p)) \/
  (exists e, is_flow_elem d e k /\ dget "process" (snd e) = Some (VStr p)).
Lemma defs_in : forall v l, definition_elements v = Ok l -> forall k, In k l -> exists ds x, v = VDefs ds /\ In x ds /\ k = definition_element x.
Proof.
  intros v l H k I. destruct v as [|s|l0|l0|l0|s t|s l0]; try discriminate; cbn [definition_elements] in H.
  - destruct l0; inv H. destruct I.
  - inv H. apply in_map_iff in I. destruct I as [x [<- I]]. eauto.
Qed.
Lemma more_kids : forall f d t a m, node_more f d t a = Ok m -> forall k, In k (snd m) ->
  (t <> "subProcess" /\ exists ds x, dget "event_definitions" a = Some (VDefs ds) /\ In x ds /\ k = definition_element x) \/
  (t = "subProcess" /\ exists s, dget "id" a = Some (VStr s) /\ scope_child d s k).
Proof.
  intros f d t a m H k I. unfold node_more in H.
  assert (Sp : smem t task_types = true -> t <> "subProcess") by (intros Q ->; discriminate Q).
  destruct (smem t task_types); [unfold export_task_info in H; inv H; destruct I|].
  destruct (String.eqb_spec t t_subprocess) as [Et|Et].
  - destruct (copied k_triggered_by_event a); [|discriminate]. cbn [rbind] in H.
    destruct (dgetE k_id a) as [sid|] eqn:Ds; [|discriminate]. cbn [rbind] in H. destruct sid as [|s| | | | |]; try discriminate. cbn [rbind] in H.
    apply dgetE_ok in Ds.
    destruct (get_nodes_list_by_process_id s d) as [ns|] eqn:N; [|discriminate]. cbn [rbind] in H.
    destruct (rmap (export_node_data f d) ns) as [es|] eqn:Es; [|discriminate]. cbn [rbind] in H.
    destruct (rmap _ (get_flows_list_by_process_id s d)) as [fs|] eqn:Fs; [|discriminate]. cbn [rbind] in H. inv H. cbn [snd] in I.
    right. split; [reflexivity|]. exists s. split; [exact Ds|]. apply in_app_or in I. destruct I as [I|I].
    + left. destruct (rmap_out _ _ _ _ _ Es k I) as [na [J K]]. apply (nodes_by_process _ _ _ N) in J. destruct J as [J1 J2].
      exists na. split; [split; [exact J1|exists f; exact K]|exact J2].
    + right. destruct (rmap_out _ _ _ _ _ Fs k I) as [e [J K]]. apply flows_by_process in J. destruct J as [J1 J2].
      exists e. split; [split; assumption|exact J2].
  - left. split; [exact Et|].
    assert (Ev : forall l, event_definition_elements a = Ok l -> In k l ->
       exists ds x, dget "event_definitions" a = Some (VDefs ds) /\ In x ds /\ k = definition_element x).
    { intros l Q J. unfold event_definition_elements in Q. destruct (dgetE k_event_definitions a) as [v|] eqn:Dv; [|discriminate].
      cbn [rbind] in Q. apply dgetE_ok in Dv. destruct (defs_in _ _ Q k J) as (ds & x & -> & Ix & ->). eauto. }
    repeat match type of H with (if ?b then _ else _) = _ => destruct b end;
      unfold export_data_object_info, export_complex_gateway_info, export_event_based_gateway_info, export_inclusive_exclusive_gateway_info,
        export_parallel_gateway_info, export_start_event_info, export_catch_event_info, export_throw_event_info, export_boundary_event_info in H;
      repeat match type of H with rbind (copied ?k ?x) _ = _ => destruct (copied k x); [cbn [rbind] in H|discriminate] end;
      try (inv H; destruct I; fail);
      try (destruct (event_definition_elements a) as [l|] eqn:El; [|discriminate]; inv H; eapply Ev; [reflexivity|exact I]; fail).
    destruct (definition_elements (get_or_none k_event_definitions a)) as [l|] eqn:El; [|discriminate]. inv H. cbn [snd] in I.
    destruct (defs_in _ _ El k I) as (ds & x & Ev' & Ix & ->). exists ds, x. unfold get_or_none in Ev'.
    change k_event_definitions with "event_definitions" in Ev'. destruct (dget "event_definitions" a); [subst; auto|discriminate].
Qed.

(** * Trees all of whose local names satisfy [P] *)
Inductive fine (P : string -> Prop) : etree -> Prop :=
| fine_leaf : forall g a x, P (local_name g) -> fine P (E g a x None [])
| fine_kids : forall g a ks, P (local_name g) -> ~ In (local_name g) text_tags -> (forall k, In k ks -> fine P k) -> fine P (elem g a ks).
Lemma fine_neat : forall P t, fine P t -> neat t.
Proof.
  intros P. induction t as [g a x l ks IH] using etree_ind'. intros H. inversion H; subst; [constructor|]. rewrite Forall_forall in IH.
  apply neat_kids; [assumption|]. intros k Ik. apply IH; auto.
Qed.
Lemma fine_mono : forall (P Q : string -> Prop), (forall s, P s -> Q s) -> forall t, fine P t -> fine Q t.
Proof.
  intros P Q S. induction t as [g a x l ks IH] using etree_ind'. intros H. inversion H; subst; [apply fine_leaf; auto|]. rewrite Forall_forall in IH.
  apply fine_kids; auto.
Qed.
Lemma text_in : forall o x, In x (text_nodes o) -> exists s, x = DText s.
Proof. intros [s|] x I; [|destruct I]. destruct s; [destruct I|]. destruct I as [<- |[]]. eauto. Qed.
Lemma inside_dom : forall t x, inside x (dom_of t) -> x = dom_of t \/ (exists s, x = DText s) \/ exists k, In k (e_kids t) /\ inside x (dom_of k).
Proof.
  intros [g a tx l ks] x H. cbn [dom_of] in H. inversion H as [|? k ? ? ? I J]; subst; [left; reflexivity|]. right. apply in_app_or in I.
  destruct I as [I|I].
  - left. apply text_in in I. destruct I as [s ->]. inversion J; subst. eauto.
  - right. apply in_map_iff in I. destruct I as [t [<- I]]. eauto.
Qed.
Lemma fine_inside : forall P t, fine P t -> forall n x, inside x (dom_of t) -> named n x -> P n.
Proof.
  intros P. induction t as [g a tx l ks IH] using etree_ind'. intros F n x H N. rewrite Forall_forall in IH.
  assert (Fk : P (local_name g) /\ forall k, In k ks -> fine P k) by (inversion F; subst; split; auto; intros ? []).
  destruct (inside_dom _ _ H) as [->|[[s ->]|(k & Ik & Hk)]].
  - cbn in N. subst n. apply Fk.
  - destruct N.
  - eapply (IH k Ik); eauto. apply Fk. exact Ik.
Qed.

Section Fine.
Variable d : diagram.
Variable P : string -> Prop.
Hypothesis Pnode : forall n a t, In (n, a) (gnodes (dgraph d)) -> dget "type" a = Some (VStr t) -> P (local_name t) /\ ~ In (local_name t) text_tags.
Hypothesis Pdef : forall n a ds x, In (n, a) (gnodes (dgraph d)) -> dget "event_definitions" a = Some (VDefs ds) -> In x ds -> P (local_name (snd x)).
Hypothesis Pin : P "incoming".
Hypothesis Pout : P "outgoing".
Hypothesis Pflow : P "sequenceFlow".
Hypothesis Pcond : P "conditionExpression".
Lemma fine_flow : forall a k, export_flow_process_data a = Ok k -> fine P k.
Proof using Pflow Pcond.
  intros a k H. destruct (flow_inv _ _ H) as [(id & nm & sr & tr & _ & _ & _ & _ & [[_ ->]|(cid & text & _ & ->)])].
  - apply fine_leaf. exact Pflow.
  - apply fine_kids; [exact Pflow|simpl; intuition discriminate|]. intros k [<- |[]]. apply fine_leaf. exact Pcond.
Qed.
Lemma fine_node : forall f na k, In na (gnodes (dgraph d)) -> export_node_data f d na = Ok k -> fine P k.
Proof using Pnode Pdef Pin Pout Pflow Pcond.
  induction f as [|f IH]; intros [n a] k I H; [discriminate|].
  destruct (node_inv _ _ _ _ _ H) as (f' & t & name & li & lo & more & Ef & Pa). inv Ef. destruct Pa as [Ht Hn Hi Ho Hm ->].
  destruct (Pnode _ _ _ I Ht) as [Q1 Q2]. apply fine_kids; [exact Q1|exact Q2|]. intros k J. apply in_app_or in J.
  destruct J as [J|J]; [apply in_map_iff in J; destruct J as [s [<- _]]; apply fine_leaf; exact Pin|]. apply in_app_or in J.
  destruct J as [J|J]; [apply in_map_iff in J; destruct J as [s [<- _]]; apply fine_leaf; exact Pout|].
  unfold node_more in Hm.
  destruct (String.eqb_spec t t_subprocess) as [Et|Et].
  - subst t. change (smem t_subprocess task_types) with false in Hm. cbn match in Hm.
    destruct (copied k_triggered_by_event a); [|discriminate]. cbn [rbind] in Hm.
    destruct (dgetE k_id a) as [sid|] eqn:Ds; [|discriminate]. cbn [rbind] in Hm. destruct sid as [|s| | | | |]; try discriminate. cbn [rbind] in Hm.
    destruct (get_nodes_list_by_process_id s d) as [ns|] eqn:N; [|discriminate]. cbn [rbind] in Hm.
    destruct (rmap (export_node_data f' d) ns) as [es|] eqn:Es; [|discriminate]. cbn [rbind] in Hm.
    destruct (rmap _ (get_flows_list_by_process_id s d)) as [fs|] eqn:Fs; [|discriminate]. cbn [rbind] in Hm. inv Hm. cbn [snd] in J.
    apply in_app_or in J. destruct J as [J|J].
    + destruct (rmap_out _ _ _ _ _ Es k J) as [na [J1 J2]]. apply (nodes_by_process _ _ _ N) in J1. destruct J1 as [J1 _]. eapply IH; eauto.
    + destruct (rmap_out _ _ _ _ _ Fs k J) as [e [_ J2]]. eapply fine_flow; eauto.
  - assert (M : node_more f' d t a = Ok more) by (unfold node_more; rewrite (eqb_neq' _ _ Et); exact Hm).
    destruct (more_kids _ _ _ _ _ M k J) as [(_ & ds & x & D & Ix & ->)|[Q _]]; [|contradiction].
    apply fine_leaf. eapply Pdef; eauto.
Qed.
End Fine.

Definition lane_tag (s : string) : Prop := s = "lane" \/ s = "laneSet" \/ s = "flowNodeRef".
Definition shape_tags (s : string) : Prop := s = "BPMNShape" \/ s = "Bounds".
Definition line_tags (s : string) : Prop := s = "BPMNEdge" \/ s = "waypoint".
Lemma lane_ind' : forall P : lane -> Prop,
  (forall name child refs di, (forall i ls x y, child = Some (i, ls) -> In (x, y) ls -> P y) -> P (Lane name child refs di)) -> forall l, P l.
Proof.
  intros P H. fix IH 1. intros [name child refs di]. apply H. intros i ls x y E I. destruct child as [[i' ls']|]; [|discriminate].
  injection E as _ <-. clear -IH I. induction ls' as [|[x' y'] ls' IHl]; [destruct I|]. destruct I as [I|I].
  - injection I as _ <-. apply IH.
  - exact (IHl I).
Qed.
Fixpoint lanes_list (ls : list (string * lane)) : res (list etree * list etree) :=
  match ls with
  | [] => Ok ([], [])
  | (i, x) :: r => let* p := export_lane i x in let* q := lanes_list r in Ok (fst p :: fst q, snd p ++ snd q)
  end.
Definition lane_shape_out (id : string) (di : option (string * (string * string * string * string))) : res etree :=
  match di with
  | None => Err (KeyError k_is_horizontal)
  | Some (hor, (w, h, x, y)) =>
      Ok (elem shape_tag [(k_id, VStr (id ++ "_gui")); (k_bpmn_element, VStr id); (k_is_horizontal, VStr hor)]
            [elem "omgdc:Bounds" [(k_width, VStr w); (k_height, VStr h); (k_x, VStr x); (k_y, VStr y)] []])
  end.
Lemma export_lane_unfold : forall id name child refs di, export_lane id (Lane name child refs di) =
  let* sub := match child with
              | None => Ok ([], [])
              | Some (_, lanes) => let* p := lanes_list lanes in Ok ([elem "laneSet" [] (fst p)], snd p)
              end in
  let* shape := lane_shape_out id di in
  Ok (elem "lane" [("id", VStr id); ("name", VStr name)] (fst sub ++ map (text_elem "flowNodeRef") refs), snd sub ++ [shape]).
Proof.
  intros. cbn [export_lane].
  assert (Q : forall ls, (fix all (ls : list (string * lane)) : res (list etree * list etree) :=
       match ls with [] => Ok ([], []) | (i, x) :: r => let* p := export_lane i x in let* q := all r in Ok (fst p :: fst q, snd p ++ snd q) end) ls
       = lanes_list ls).
  { induction ls as [|[i x] r IH]; [reflexivity|]. cbn [lanes_list]. rewrite IH. reflexivity. }
  destruct child as [[i ls]|]; [rewrite Q|]; reflexivity.
Qed.
Lemma fine_lane : forall l id r, export_lane id l = Ok r -> fine lane_tag (fst r) /\ forall k, In k (snd r) -> fine shape_tags k.
Proof.
  induction l as [name child refs di IH] using lane_ind'. intros id r H. rewrite export_lane_unfold in H.
  match type of H with rbind ?m _ = _ => destruct m as [sub|] eqn:Es; [|discriminate] end. cbn [rbind] in H.
  destruct (lane_shape_out id di) as [sh|] eqn:Esh; [|discriminate]. inv H. cbn [fst snd].
  assert (S : (forall k, In k (fst sub) -> fine lane_tag k) /\ forall k, In k (snd sub) -> fine shape_tags k).
  { destruct child as [[i ls]|]; [|inv Es; split; intros k []].
    assert (Q : forall ls' p, lanes_list ls' = Ok p -> incl ls' ls ->
       (forall k, In k (fst p) -> fine lane_tag k) /\ forall k, In k (snd p) -> fine shape_tags k).
    { induction ls' as [|[j x] ls' IHl]; intros p Hp Hi; cbn [lanes_list] in Hp; [inv Hp; split; intros k []|].
      destruct (export_lane j x) as [q|] eqn:Eq; [|discriminate]. cbn [rbind] in Hp. destruct (lanes_list ls') as [q'|]; [|discriminate].
      inv Hp. cbn [fst snd]. destruct (IH i ls j x eq_refl (Hi _ (or_introl eq_refl)) j q Eq) as [L1 L2].
      destruct (IHl _ eq_refl (fun z Hz => Hi z (or_intror Hz))) as [M1 M2]. split.
      - intros k [<- |I]; auto.
      - intros k I. apply in_app_or in I. destruct I; auto. }
    destruct (lanes_list ls) as [p|] eqn:Ep; [|discriminate]. inv Es. cbn [fst snd]. destruct (Q ls p Ep (incl_refl _)) as [Q1 Q2].
    split; [|exact Q2]. intros k [<- |[]]. apply fine_kids; [right; left; reflexivity|simpl; intuition discriminate|exact Q1]. }
  destruct S as [S1 S2]. split.
  - apply fine_kids; [left; reflexivity|simpl; intuition discriminate|]. intros k I. apply in_app_or in I. destruct I as [I|I]; [auto|].
    apply in_map_iff in I. destruct I as [s [<- _]]. apply fine_leaf. right. right. reflexivity.
  - intros k I. apply in_app_or in I. destruct I as [I|[<- |[]]]; [auto|]. unfold lane_shape_out in Esh.
    destruct di as [[hor [[[w h] x] y]]|]; [|discriminate]. inv Esh.
    apply fine_kids; [left; reflexivity|simpl; intuition discriminate|]. intros k [<- |[]]. apply fine_leaf. right. reflexivity.
Qed.
Lemma fine_lanes_out : forall a ls sh, lanes_out a = Ok (ls, sh) ->
  (forall k, In k ls -> fine lane_tag k) /\ forall k, In k sh -> fine shape_tags k.
Proof.
  intros a ls sh H. unfold lanes_out in H. destruct (dget k_lane_set a) as [v|]; [|inv H; split; intros k []].
  destruct v as [| | | | | |i lanes]; try discriminate. unfold export_lane_set in H.
  destruct (rmap _ lanes) as [ps|] eqn:Ep; [|discriminate]. inv H. split.
  - intros k [<- |[]]. apply fine_kids; [right; left; reflexivity|simpl; intuition discriminate|]. intros k I. apply in_map_iff in I.
    destruct I as [p [<- I]]. destruct (rmap_out _ _ _ _ _ Ep p I) as [x [_ Ex]]. apply (fine_lane _ _ _ Ex).
  - intros k I. cbn [snd] in I. apply in_flat_map in I. destruct I as [p [I J]]. destruct (rmap_out _ _ _ _ _ Ep p I) as [x [_ Ex]].
    apply (fine_lane _ _ _ Ex). exact J.
Qed.
Lemma fine_bounds : forall a b, bounds_element a = Ok b -> exists w h x y, dget "width" a = Some w /\ dget "height" a = Some h /\
  dget "x" a = Some x /\ dget "y" a = Some y /\ b = elem "omgdc:Bounds" [("width", w); ("height", h); ("x", x); ("y", y)] [].
Proof.
  intros a b H. unfold bounds_element, copied in H.
  destruct (dgetE k_width a) as [w|] eqn:D1; [|discriminate]. destruct (dgetE k_height a) as [h|] eqn:D2; [|discriminate].
  destruct (dgetE k_x a) as [x|] eqn:D3; [|discriminate]. destruct (dgetE k_y a) as [y|] eqn:D4; [|discriminate]. cbn [rbind] in H. inv H.
  apply dgetE_ok in D1, D2, D3, D4. exists w, h, x, y. repeat split; assumption.
Qed.
Definition expanded_of (t : pyval) (a : attrs) : attrs :=
  if veqs t "subProcess" then match dget "isExpanded" a with Some v => [("isExpanded", v)] | None => [] end else [].
Lemma node_di_inv : forall n a k, export_node_di_data (n, a) = Ok k -> exists b t, bounds_element a = Ok b /\ dget "type" a = Some t /\
  (t = VStr "subProcess" -> exists v, dget "isExpanded" a = Some v) /\
  k = elem shape_tag ([("id", VStr (n ++ "_gui")); ("bpmnElement", VStr n)] ++ expanded_of t a) [b].
Proof.
  intros n a k H. unfold export_node_di_data in H. cbn [fst snd] in H. destruct (bounds_element a) as [b|] eqn:B; [|discriminate]. cbn [rbind] in H.
  destruct (dgetE k_type a) as [t|] eqn:D; [|discriminate]. cbn [rbind] in H. apply dgetE_ok in D.
  exists b, t. split; [reflexivity|]. split; [exact D|]. unfold expanded_of. change t_subprocess with "subProcess" in H.
  destruct (veqs t "subProcess") eqn:V.
  - unfold copied in H. destruct (dgetE k_is_expanded a) as [v|] eqn:Dx; [|discriminate]. cbn [rbind] in H. apply dgetE_ok in Dx.
    change k_is_expanded with "isExpanded" in Dx. rewrite Dx. inv H. split; [eauto|reflexivity].
  - cbn [rbind] in H. inv H. split; [|reflexivity]. intros ->. discriminate V.
Qed.
Lemma fine_node_di : forall na k, export_node_di_data na = Ok k -> fine shape_tags k.
Proof.
  intros [n a] k H. destruct (node_di_inv _ _ _ H) as (b & t & B & _ & _ & ->). destruct (fine_bounds _ _ B) as (w & h & x & y & _ & _ & _ & _ & ->).
  apply fine_kids; [left; reflexivity|simpl; intuition discriminate|]. intros k [<- |[]]. apply fine_leaf. right. reflexivity.
Qed.
Lemma waypoints_inv : forall a l, waypoint_elements a = Ok l -> exists ps,
  (dget "waypoints" a = Some (VPoints ps) \/ (dget "waypoints" a = Some (VList []) /\ ps = [])) /\
  l = map (fun p => elem "omgdi:waypoint" [("x", VStr (fst p)); ("y", VStr (snd p))] []) ps.
Proof.
  intros a l H. unfold waypoint_elements in H. destruct (dgetE k_waypoints a) as [v|] eqn:D; [|discriminate]. cbn [rbind] in H. apply dgetE_ok in D.
  destruct v as [|s|l0|l0|l0|s t|s l0]; try discriminate.
  - destruct l0; [|discriminate]. inv H. exists []. auto.
  - inv H. exists l0. auto.
Qed.
Lemma fine_waypoints : forall a l, waypoint_elements a = Ok l -> forall k, In k l -> fine line_tags k.
Proof.
  intros a l H k I. destruct (waypoints_inv _ _ H) as (ps & _ & ->). apply in_map_iff in I. destruct I as [p [<- _]]. apply fine_leaf.
  right. reflexivity.
Qed.
Lemma flow_di_inv : forall a k, export_flow_di_data a = Ok k -> exists id w, dget "id" a = Some (VStr id) /\ waypoint_elements a = Ok w /\
  k = elem edge_tag [("id", VStr (id ++ "_gui")); ("bpmnElement", VStr id)] w.
Proof.
  intros a k H. unfold export_flow_di_data in H. destruct (dgetE k_id a) as [id|] eqn:D; [|discriminate]. cbn [rbind] in H. apply dgetE_ok in D.
  unfold gui in H. destruct id as [|s| | | | |]; try discriminate. cbn [rbind] in H. destruct (waypoint_elements a) as [w|] eqn:W; [|discriminate].
  inv H. eauto 6.
Qed.
Lemma fine_flow_di : forall a k, export_flow_di_data a = Ok k -> fine line_tags k.
Proof.
  intros a k H. destruct (flow_di_inv _ _ H) as (id & w & _ & W & ->). apply fine_kids; [left; reflexivity|simpl; intuition discriminate|].
  apply (fine_waypoints _ _ W).
Qed.
Lemma message_inv : forall d m r, export_message_flow d m = Ok r -> exists e w, get_flow_by_id (fst m) d = Ok (Some e) /\
  waypoint_elements (snd e) = Ok w /\
  r = (elem "messageFlow" [("id", VStr (fst m)); ("name", VStr (fl_name (snd m))); ("sourceRef", VStr (fl_src (snd m)));
                           ("targetRef", VStr (fl_tgt (snd m)))] [],
       elem edge_tag [("id", VStr (fst m ++ "_gui")); ("bpmnElement", VStr (fst m))] w).
Proof.
  intros d m r H. unfold export_message_flow in H. destruct (get_flow_by_id (fst m) d) as [[e|]|] eqn:G; try discriminate. cbn [rbind] in H.
  destruct (waypoint_elements (snd e)) as [w|] eqn:W; [|discriminate]. inv H. exists e, w. auto.
Qed.
Lemma participant_inv : forall p r, export_participant p = Ok r -> exists nm ref hor b, dget "name" (snd p) = Some nm /\
  dget "processRef" (snd p) = Some ref /\ dget "isHorizontal" (snd p) = Some hor /\ bounds_element (snd p) = Ok b /\
  r = (elem "participant" [("id", VStr (fst p)); ("name", nm); ("processRef", ref)] [],
       elem shape_tag [("id", VStr (fst p ++ "_gui")); ("bpmnElement", VStr (fst p)); ("isHorizontal", hor)] [b]).
Proof.
  intros p r H. unfold export_participant, copied in H. destruct (dgetE k_name (snd p)) as [nm|] eqn:D1; [|discriminate].
  destruct (dgetE k_process_ref (snd p)) as [rf|] eqn:D2; [|discriminate]. destruct (dgetE k_is_horizontal (snd p)) as [ho|] eqn:D3; [|discriminate].
  cbn [rbind] in H. destruct (bounds_element (snd p)) as [b|] eqn:B; [|discriminate]. inv H. apply dgetE_ok in D1, D2, D3.
  exists nm, rf, ho, b. repeat split; assumption.
Qed.
Definition part_tags (s : string) : Prop := s = "collaboration" \/ s = "messageFlow" \/ s = "participant".
Lemma collaboration_inv : forall d co sh, export_collaboration d = Ok (co, sh) ->
  (collaboration d = None /\ co = [] /\ sh = []) \/
  exists c ms ps, collaboration d = Some c /\ rmap (export_message_flow d) (co_messages c) = Ok ms /\
    rmap export_participant (co_participants c) = Ok ps /\
    co = [elem "collaboration" [("id", VStr (co_id c))] (map fst ms ++ map fst ps)] /\ sh = map snd ms ++ map snd ps.
Proof.
  intros d co sh H. unfold export_collaboration in H. destruct (collaboration d) as [c|]; [|inv H; auto]. right.
  destruct (rmap (export_message_flow d) (co_messages c)) as [ms|] eqn:M; [|discriminate]. cbn [rbind] in H.
  destruct (rmap export_participant (co_participants c)) as [ps|] eqn:P; [|discriminate]. inv H. exists c, ms, ps. auto.
Qed.
Lemma fine_collaboration : forall d co sh, export_collaboration d = Ok (co, sh) ->
  (forall k, In k co -> fine part_tags k) /\ forall k, In k sh -> fine (fun s => shape_tags s \/ line_tags s) k.
Proof.
  intros d co sh H. destruct (collaboration_inv _ _ _ H) as [(_ & -> & ->)|(c & ms & ps & _ & M & P & -> & ->)]; [split; intros k []|]. split.
  - intros k [<- |[]]. apply fine_kids; [left; reflexivity|simpl; intuition discriminate|]. intros k I. apply in_app_or in I. destruct I as [I|I].
    + apply in_map_iff in I. destruct I as [r [<- I]]. destruct (rmap_out _ _ _ _ _ M r I) as [m [_ Em]].
      destruct (message_inv _ _ _ Em) as (e & w & _ & _ & ->). apply fine_leaf. right. left. reflexivity.
    + apply in_map_iff in I. destruct I as [r [<- I]]. destruct (rmap_out _ _ _ _ _ P r I) as [p [_ Ep]].
      destruct (participant_inv _ _ Ep) as (nm & ref & hor & b & _ & _ & _ & _ & ->). apply fine_leaf. right. right. reflexivity.
  - intros k I. apply in_app_or in I. destruct I as [I|I].
    + apply in_map_iff in I. destruct I as [r [<- I]]. destruct (rmap_out _ _ _ _ _ M r I) as [m [_ Em]].
      destruct (message_inv _ _ _ Em) as (e & w & _ & W & ->). apply fine_kids; [right; left; reflexivity|simpl; intuition discriminate|].
      intros k J. eapply fine_mono; [|eapply fine_waypoints; eauto]. auto.
    + apply in_map_iff in I. destruct I as [r [<- I]]. destruct (rmap_out _ _ _ _ _ P r I) as [p [_ Ep]].
      destruct (participant_inv _ _ Ep) as (nm & ref & hor & b & _ & _ & _ & B & ->).
      destruct (fine_bounds _ _ B) as (w & h & x & y & _ & _ & _ & _ & ->).
      apply fine_kids; [left; left; reflexivity|simpl; intuition discriminate|]. intros k [<- |[]]. apply fine_leaf. left. right. reflexivity.
Qed.

(** The children of the process element. *)
Lemma process_kids : forall fuel d p a e sh, process_parts fuel d p a e sh -> forall k, In k (e_kids e) ->
  fine lane_tag k \/ scope_child d p k.
Proof.
  intros fuel d p a e sh [(c & x & t & ls & ns & es & fs & _ & _ & _ & L & N & Es & Fs & ->)] k I. cbn [e_kids elem] in I.
  apply in_app_or in I. destruct I as [I|I]; [left; apply (fine_lanes_out _ _ _ L); exact I|]. right. apply in_app_or in I. destruct I as [I|I].
  - left. destruct (rmap_out _ _ _ _ _ Es k I) as [na [J1 J2]]. apply (nodes_by_process _ _ _ N) in J1. destruct J1 as [J1 J3].
    exists na. split; [split; [exact J1|eauto]|exact J3].
  - right. destruct (rmap_out _ _ _ _ _ Fs k I) as [e [J1 J2]]. apply flows_by_process in J1. destruct J1 as [J1 J3].
    exists e. split; [split; assumption|exact J3].
Qed.
(** The tree is neat as soon as no node has the type of a text element. *)
Lemma neat_tree : forall fuel d t, (forall n a s, In (n, a) (gnodes (dgraph d)) -> dget "type" a = Some (VStr s) -> ~ In (local_name s) text_tags) ->
  export_tree fuel d = Ok t -> neat t.
Proof.
  intros fuel d t T H. destruct (tree_inv _ _ _ H) as [(did & dname & plid & plel & co & cosh & ps & shapes & edges & _ & _ & _ & _ & C & Ps & Sh & Ed & ->)].
  destruct (fine_collaboration _ _ _ C) as [C1 C2].
  assert (K : forall p, In p ps -> exists q, In q (procs d) /\ process_parts fuel d (fst q) (snd q) (fst p) (snd p)).
  { intros p I. destruct (rmap_out _ _ _ _ _ Ps p I) as [[q a] [J1 J2]]. exists (q, a). split; [exact J1|]. apply process_inv. exact J2. }
  apply neat_kids; [simpl; intuition discriminate|]. intros k [<- |I].
  - apply neat_kids; [simpl; intuition discriminate|]. intros k [<- |[]]. apply neat_kids; [simpl; intuition discriminate|]. intros k I.
    apply in_app_or in I. destruct I as [I|I]; [eapply fine_neat; eauto|]. apply in_app_or in I. destruct I as [I|I].
    + apply in_flat_map in I. destruct I as [p [I J]]. destruct (K p I) as (q & _ & [(c & x & t & ls & ns & es & fs & _ & _ & _ & L & _)]).
      eapply fine_neat. apply (fine_lanes_out _ _ _ L). exact J.
    + apply in_app_or in I. destruct I as [I|I].
      * destruct (rmap_out _ _ _ _ _ Sh k I) as [na [_ J]]. eapply fine_neat, fine_node_di, J.
      * destruct (rmap_out _ _ _ _ _ Ed k I) as [e [_ J]]. eapply fine_neat, fine_flow_di, J.
  - apply in_app_or in I. destruct I as [I|I]; [eapply fine_neat; eauto|]. apply in_map_iff in I. destruct I as [p [<- I]].
    destruct (K p I) as (q & _ & Pp). pose proof (process_kids _ _ _ _ _ _ Pp) as Kk. destruct Pp as [(c & x & t & ls & ns & es & fs & _ & _ & _ & _ & _ & _ & _ & E)].
    rewrite E in *. apply neat_kids; [simpl; intuition discriminate|]. intros k J. destruct (Kk k J) as [F|[(na & (J1 & f & J2) & _)|(e & (_ & J2) & _)]].
    + eapply fine_neat; eauto.
    + eapply (fine_neat (fun _ => True)), (fine_node d (fun _ => True)); eauto.
    + eapply (fine_neat (fun _ => True)), (fine_flow (fun _ => True)); eauto.
Qed.
