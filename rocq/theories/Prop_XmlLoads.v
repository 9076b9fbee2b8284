(** Which documents can be loaded. *)
From Coq Require Import String List Bool Arith Lia Permutation.
From Verif Require Import Py PyFacts Consts Nx NxFacts Rep SpecRep RepFacts CsvRegex CsvImport CsvFacts Xml Import XmlOps
  ImportFacts ActionFacts DiFacts SpecXml XmlScopes LoadFacts LoadOk XmlLayout Prop_XmlImport.
Import ListNotations.
Open Scope string_scope.
Open Scope list_scope.

(** * Specification *)
(** No comments among the children. *)
Definition plain (e : dom) : Prop := forall c, ~ In (DOther c) (d_kids e).
(** The element starts with text (or with a CDATA section, or with a comment). *)
Definition has_text (e : dom) : Prop := exists s rest, d_kids e = DText s :: rest \/ d_kids e = DOther s :: rest.
Definition has_bounds (e : dom) : Prop := exists b r, elements_in "Bounds" e = b :: r.

(** The lanes and child lane sets that are read, from a lane set or from a lane. *)
Inductive lane_or_set : Type := ALane | ASet.
Inductive lane_part : lane_or_set -> dom -> lane_or_set -> dom -> Prop :=
| lane_part_here : forall b e, lane_part b e b e
| lane_part_lane : forall e k b y, In k (d_kids e) -> named "lane" k -> lane_part ALane k b y -> lane_part ASet e b y
| lane_part_set : forall e k b y, In k (d_kids e) -> named "childLaneSet" k -> lane_part ASet k b y -> lane_part ALane e b y.
(** The last child of the plane that refers to the element [id]. *)
Definition refers (id : string) (x : dom) : bool :=
  match x with DElem _ _ _ => String.eqb (get_attribute "bpmnElement" x) id | _ => false end.
Definition shape_for (plane : dom) (id : string) : option dom := last_of (filter (refers id) (d_kids plane)).
Definition part_loadable (plane : dom) (b : lane_or_set) (e : dom) : Prop :=
  plain e /\
  match b with
  | ASet => True
  | ALane => (forall k, In k (d_kids e) -> named "flowNodeRef" k -> has_text k) /\
             (forall s, shape_for plane (get_attribute "id" e) = Some s -> has_bounds s)
  end.

(** The document mentions [n] as an end of a flow; it introduces [n] as a node. *)
Definition mentioned (root : dom) (n : string) : Prop :=
  (exists s f, flow_in root s f /\ (get_attribute "sourceRef" f = n \/ get_attribute "targetRef" f = n)) \/
  (exists f, message_in root f /\ (get_attribute "sourceRef" f = n \/ get_attribute "targetRef" f = n)).
Definition introduced (root : dom) (n : string) : Prop :=
  (exists s x, declared root s x /\ get_attribute "id" x = n) \/
  (exists x, participant_in root x /\ get_attribute "processRef" x = "" /\ get_attribute "id" x = n).

Record loadable (root plane : dom) : Prop := {
  lo_plain : forall e, walked root e -> plain e;
  lo_lists : forall s x k, declared root s x -> In k (d_kids x) -> named "incoming" k \/ named "outgoing" k -> has_text k;
  lo_conditions : forall s f k, flow_in root s f -> In k (d_kids f) -> named "conditionExpression" k -> has_text k;
  lo_lanes : forall p ls r, inside p root -> named "process" p -> elements_in "laneSet" p = ls :: r ->
    forall b e, lane_part ASet ls b e -> part_loadable plane b e;
  lo_shapes : forall x, In x (d_kids plane) -> named "BPMNShape" x ->
    has_bounds x /\
    (mentioned root (get_attribute "bpmnElement" x) -> introduced root (get_attribute "bpmnElement" x)) }.

(** * Proofs *)
Lemma first_value_text : forall e, (exists v, first_value e = Ok v) <-> has_text e.
Proof.
  intros e. unfold first_value, has_text. destruct (d_kids e) as [|[g a k|s|s] r]; split.
  - intros [v H]. discriminate.
  - intros (s & r & [H|H]); discriminate.
  - intros [v H]. discriminate.
  - intros (s & r' & [H|H]); discriminate.
  - intros _. eauto.
  - intros _. eauto.
  - intros _. eauto.
  - intros _. eauto.
Qed.
Lemma bounds_ok : forall e, (exists b, first_bounds e = Ok b) <-> has_bounds e.
Proof.
  intros e. unfold first_bounds, has_bounds. destruct (elements_in "Bounds" e) as [|b r]; split; eauto.
  - intros [b H]. discriminate.
  - intros (b & r & H). discriminate.
Qed.
Lemma collect_ok : forall A (h : dom -> res (list A)) ks, (exists l, collect h ks = Ok l) <->
  (forall c, ~ In (DOther c) ks) /\ (forall g a k, In (DElem g a k) ks -> exists y, h (DElem g a k) = Ok y).
Proof.
  intros A h. induction ks as [|[g a k|s|s] ks IH]; cbn [collect].
  - split; [intros _; split; [intros c []|intros g a k []]|eauto].
  - split.
    + intros [l H]. destruct (h (DElem g a k)) as [y|] eqn:Ey; [|discriminate]. cbn [rbind] in H.
      destruct (collect h ks) as [z|] eqn:Ez; [|discriminate]. destruct IH as [IH _]. destruct (IH (ex_intro _ z eq_refl)) as [I1 I2].
      split; [intros c [Q|Q]; [discriminate|exact (I1 c Q)]|]. intros g' a' k' [Q|Q]; [inv Q; eauto|eauto].
    + intros [H1 H2]. destruct (H2 g a k (or_introl eq_refl)) as [y ->]. destruct IH as [_ IH]. destruct IH as [z ->].
      * split; intros; [intros Q; eapply H1; right; exact Q|apply H2; right; assumption].
      * cbn [rbind]. eauto.
  - rewrite IH. split; intros [H1 H2]; (split; [intros c Q; apply (H1 c)|intros g' a' k' Q; apply H2]); simpl in *; intuition discriminate.
  - split; [intros [l H]; discriminate|]. intros [H _]. destruct (H s). left. reflexivity.
Qed.
Lemma refs_ok : forall k e, (exists l, collect (reference_of k) (d_kids e) = Ok l) <->
  plain e /\ (forall x, In x (d_kids e) -> named k x -> has_text x).
Proof.
  intros k e. rewrite collect_ok. unfold plain. split; intros [H1 H2]; (split; [exact H1|]).
  - intros x I N. apply named_elem in N. destruct N as (g & a & ks & -> & L). destruct (H2 _ _ _ I) as [y Hy].
    unfold reference_of in Hy. unfold d_local in Hy. cbn [d_tag] in Hy. rewrite (proj2 (String.eqb_eq _ _) L) in Hy.
    apply first_value_text. destruct (first_value (DElem g a ks)); [eauto|discriminate].
  - intros g a ks I. unfold reference_of. destruct (String.eqb_spec (d_local (DElem g a ks)) k) as [L|]; [|eauto].
    assert (N : named k (DElem g a ks)) by exact L. apply (H2 _ I) in N. apply first_value_text in N. destruct N as [v ->]. cbn [rbind]. eauto.
Qed.
Lemma conds_ok : forall e, (exists l, collect condition_of (d_kids e) = Ok l) <->
  plain e /\ (forall x, In x (d_kids e) -> named "conditionExpression" x -> has_text x).
Proof.
  intros e. rewrite collect_ok. unfold plain. split; intros [H1 H2]; (split; [exact H1|]).
  - intros x I N. apply named_elem in N. destruct N as (g & a & ks & -> & L). destruct (H2 _ _ _ I) as [y Hy].
    unfold condition_of in Hy. change k_condition_expression with "conditionExpression" in Hy. unfold d_local in Hy. cbn [d_tag] in Hy. rewrite (proj2 (String.eqb_eq _ _) L) in Hy.
    apply first_value_text. destruct (first_value (DElem g a ks)); [eauto|discriminate].
  - intros g a ks I. unfold condition_of. destruct (String.eqb_spec (d_local (DElem g a ks)) k_condition_expression) as [L|]; [|eauto].
    assert (N : named "conditionExpression" (DElem g a ks)) by exact L. apply (H2 _ I) in N. apply first_value_text in N. destruct N as [v ->].
    cbn [rbind]. eauto.
Qed.

Lemma last_of_snoc : forall A (l : list A) x, last_of (l ++ [x]) = Some x.
Proof. intros. unfold last_of. rewrite rev_app_distr. reflexivity. Qed.
Lemma last_of_cons : forall A (x : A) l, last_of (x :: l) = match last_of l with Some y => Some y | None => Some x end.
Proof. intros. unfold last_of. simpl. destruct (rev l); reflexivity. Qed.
Lemma lane_shape_last : forall plane id, plain plane -> lane_shape plane id = Ok (shape_for plane id).
Proof.
  intros plane id. unfold plain, lane_shape, shape_for, fold_elements. generalize (d_kids plane). intros l P.
  enough (Q : forall s, rfold (fun (a : option dom) k => match k with
      | DElem _ _ _ => Ok (if get_attribute k_bpmn_element k =? id then Some k else a)
      | DText _ => Ok a | DOther _ => Err AttributeError end) l s =
      Ok (match last_of (filter (refers id) l) with Some x => Some x | None => s end)).
  { rewrite Q. destruct (last_of _); reflexivity. }
  induction l as [|[g a k|t|t] l IH]; intros s; cbn [rfold].
  - reflexivity.
  - cbn [rbind]. rewrite IH by (intros c Q; apply (P c); right; exact Q). cbn [filter refers].
    change k_bpmn_element with "bpmnElement". destruct (_ =? id); [|reflexivity]. rewrite last_of_cons. destruct (last_of _); reflexivity.
  - cbn [rbind]. rewrite IH by (intros c Q; apply (P c); right; exact Q). reflexivity.
  - destruct (P t). left. reflexivity.
Qed.
Lemma lane_di_ok : forall plane id, plain plane -> (exists r, lane_di plane id = Ok r) <->
  (forall s, shape_for plane id = Some s -> has_bounds s).
Proof.
  intros plane id P. unfold lane_di. rewrite (lane_shape_last _ _ P). cbn [rbind]. destruct (shape_for plane id) as [s|].
  - split.
    + intros [r H] s' Es. inv Es. apply bounds_ok. destruct (first_bounds s'); [eauto|discriminate].
    + intros H. destruct (proj2 (bounds_ok s) (H s eq_refl)) as [b ->]. cbn [rbind]. eauto.
  - split; [discriminate|eauto].
Qed.
Definition parts (plane : dom) (b : lane_or_set) (e : dom) : Prop := forall b' y, lane_part b e b' y -> part_loadable plane b' y.
Lemma parts_set : forall plane e, parts plane ASet e <-> plain e /\ forall k, In k (d_kids e) -> named "lane" k -> parts plane ALane k.
Proof.
  intros. unfold parts. split.
  - intros H. split; [apply (H ASet e (lane_part_here _ _))|]. intros k I N b' y L. apply H. eapply lane_part_lane; eauto.
  - intros [H1 H2] b' y L. inversion L; subst; [split; [exact H1|exact Logic.I]|]. eapply H2; eauto.
Qed.
Lemma parts_lane : forall plane e, parts plane ALane e <-> part_loadable plane ALane e /\
  forall k, In k (d_kids e) -> named "childLaneSet" k -> parts plane ASet k.
Proof.
  intros. unfold parts. split.
  - intros H. split; [apply (H ALane e (lane_part_here _ _))|]. intros k I N b' y L. apply H. eapply lane_part_set; eauto.
  - intros [H1 H2] b' y L. inversion L; subst; [exact H1|]. eapply H2; eauto.
Qed.
Lemma lane_inner_ok : forall plane l, 
  (forall k, In k l -> forall g a ks, k = DElem g a ks -> (exists r, import_lane plane k = Ok r) <-> parts plane ALane k) ->
  forall out, (exists r, lane_inner plane l out = Ok r) <->
    (forall c, ~ In (DOther c) l) /\ forall k, In k l -> named "lane" k -> parts plane ALane k.
Proof.
  intros plane. induction l as [|[g a k|s|s] l IH]; intros F out; cbn [lane_inner].
  - split; [intros _; split; [intros c []|intros k []]|eauto].
  - destruct (String.eqb_spec (d_local (DElem g a k)) t_lane) as [L|L].
    + pose proof (F _ (or_introl eq_refl) _ _ _ eq_refl) as Fk. split.
      * intros [r H]. destruct (import_lane plane (DElem g a k)) as [v|]; [|discriminate]. cbn [rbind] in H.
        destruct (proj1 (IH (fun k' Hk => F k' (or_intror Hk)) _) (ex_intro _ r H)) as [I1 I2].
        split; [intros c [Q|Q]; [discriminate|exact (I1 c Q)]|]. intros k' [<- |Q] N; [apply Fk; eauto|eauto].
      * intros [H1 H2]. destruct (proj2 Fk) as [v ->]; [apply H2; [left; reflexivity|exact L]|]. cbn [rbind].
        apply (IH (fun k' Hk => F k' (or_intror Hk))). split; [intros c Q; apply (H1 c); right; exact Q|].
        intros k' Q N. apply H2; [right; exact Q|exact N].
    + rewrite (IH (fun k' Hk => F k' (or_intror Hk))). split; intros [H1 H2].
      * split; [intros c [Q|Q]; [discriminate|exact (H1 c Q)]|]. intros k' [<- |Q] N; [contradiction (L N)|eauto].
      * split; [intros c Q; apply (H1 c); right; exact Q|]. intros k' Q N. apply H2; [right; exact Q|exact N].
  - rewrite (IH (fun k' Hk => F k' (or_intror Hk))). split; intros [H1 H2].
    + split; [intros c [Q|Q]; [discriminate|exact (H1 c Q)]|]. intros k' [<- |Q] N; [destruct N|eauto].
    + split; [intros c Q; apply (H1 c); right; exact Q|]. intros k' Q N. apply H2; [right; exact Q|exact N].
  - split; [intros [l' H]; discriminate|]. intros [H _]. destruct (H s). left. reflexivity.
Qed.
Lemma lane_all_ok : forall plane l,
  (forall k, In k l -> forall out, (exists r, lane_inner plane (d_kids k) out = Ok r) <-> parts plane ASet k) ->
  forall acc, (exists r, lane_all plane l acc = Ok r) <->
    (forall c, ~ In (DOther c) l) /\ (forall k, In k l -> named "flowNodeRef" k -> has_text k) /\
    (forall k, In k l -> named "childLaneSet" k -> parts plane ASet k).
Proof.
  intros plane. induction l as [|[g a k|s|s] l IH]; intros F acc; cbn [lane_all].
  - split; [intros _; split; [intros c []|split; intros k []]|eauto].
  - assert (Fr : forall k', In k' l -> forall out, (exists r, lane_inner plane (d_kids k') out = Ok r) <-> parts plane ASet k') by
      (intros k' Hk; apply F; right; exact Hk).
    specialize (IH Fr). pose proof (F _ (or_introl eq_refl) []) as Fk. cbn [d_kids] in Fk.
    assert (Rest : forall acc', (exists r, lane_all plane l acc' = Ok r) ->
       (named "flowNodeRef" (DElem g a k) -> has_text (DElem g a k)) -> (named "childLaneSet" (DElem g a k) -> parts plane ASet (DElem g a k)) ->
       (forall c, ~ In (DOther c) (DElem g a k :: l)) /\ (forall k', In k' (DElem g a k :: l) -> named "flowNodeRef" k' -> has_text k') /\
       (forall k', In k' (DElem g a k :: l) -> named "childLaneSet" k' -> parts plane ASet k')).
    { intros acc' H T S. apply IH in H. destruct H as (I1 & I2 & I3). split; [intros c [Q|Q]; [discriminate|exact (I1 c Q)]|].
      split; intros k' [<- |Q] N; auto. }
    assert (Back : forall acc', (forall c, ~ In (DOther c) (DElem g a k :: l)) ->
       (forall k', In k' (DElem g a k :: l) -> named "flowNodeRef" k' -> has_text k') ->
       (forall k', In k' (DElem g a k :: l) -> named "childLaneSet" k' -> parts plane ASet k') -> exists r, lane_all plane l acc' = Ok r).
    { intros acc' H1 H2 H3. apply IH. split; [intros c Q; apply (H1 c); right; exact Q|]. split; intros k' Q N; [apply H2|apply H3]; try right; assumption. }
    destruct (String.eqb_spec (d_local (DElem g a k)) k_child_lane_set) as [L|L].
    + assert (NF : ~ named "flowNodeRef" (DElem g a k)).
      { intros N. apply named_local in N. rewrite N in L. discriminate L. }
      split.
      * intros [r H]. destruct (lane_inner plane k []) as [v|]; [|discriminate]. cbn [rbind] in H.
        eapply Rest; [exists r; exact H|contradiction|]. intros _. apply Fk. eauto.
      * intros (H1 & H2 & H3). destruct (proj2 Fk) as [v ->]; [apply H3; [left; reflexivity|exact L]|]. cbn [rbind]. apply Back; assumption.
    + assert (NS : ~ named "childLaneSet" (DElem g a k)) by (intros N; apply L; apply named_local in N; exact N).
      destruct (String.eqb_spec (d_local (DElem g a k)) t_flow_node_ref) as [L2|L2].
      * split.
        -- intros [r H]. destruct (first_value (DElem g a k)) as [v|] eqn:Ev; [|discriminate]. cbn [rbind] in H.
           eapply Rest; [exists r; exact H| |contradiction]. intros _. apply first_value_text. eauto.
        -- intros (H1 & H2 & H3). assert (T : has_text (DElem g a k)) by (apply H2; [left; reflexivity|exact L2]).
           apply first_value_text in T. destruct T as [v ->]. cbn [rbind]. apply Back; assumption.
      * split.
        -- intros H. eapply Rest; [exact H| |contradiction]. intros N. contradiction (L2 N).
        -- intros (H1 & H2 & H3). apply Back; assumption.
  - assert (Fr : forall k', In k' l -> forall out, (exists r, lane_inner plane (d_kids k') out = Ok r) <-> parts plane ASet k') by
      (intros k' Hk; apply F; right; exact Hk).
    rewrite (IH Fr). split; intros (H1 & H2 & H3).
    + split; [intros c [Q|Q]; [discriminate|exact (H1 c Q)]|]. split; intros k' [<- |Q] N; auto; destruct N.
    + split; [intros c Q; apply (H1 c); right; exact Q|]. split; intros k' Q N; [apply H2|apply H3]; try right; assumption.
  - split; [intros [l' H]; discriminate|]. intros [H _]. destruct (H s). left. reflexivity.
Qed.
Lemma lanes_both : forall plane, plain plane -> forall e,
  (forall g a ks, e = DElem g a ks -> (exists r, import_lane plane e = Ok r) <-> parts plane ALane e) /\
  (forall out, (exists r, lane_inner plane (d_kids e) out = Ok r) <-> parts plane ASet e).
Proof.
  intros plane P. induction e as [g a ks IH|t|t] using dom_rect'.
  - rewrite Forall_forall in IH. split.
    + intros g' a' ks' _. rewrite import_lane_unfold, parts_lane. unfold part_loadable. cbn [d_kids].
      pose proof (lane_all_ok plane ks (fun k Hk => proj2 (IH k Hk)) (None, [])) as A.
      pose proof (lane_di_ok plane (get_attribute "id" (DElem g a ks)) P) as D. change k_id with "id".
      split.
      * intros [r H]. destruct (lane_all plane ks (None, [])) as [p|]; [|discriminate]. cbn [rbind] in H.
        destruct (lane_di plane _) as [q|]; [|discriminate]. destruct (proj1 A (ex_intro _ p eq_refl)) as (A1 & A2 & A3).
        split; [split; [exact A1|split; [exact A2|apply D; eauto]]|exact A3].
      * intros ((H1 & H2 & H3) & H4). destruct (proj2 A) as [p ->]; [split; [exact H1|split; assumption]|]. cbn [rbind].
        destruct (proj2 D H3) as [q ->]. cbn [rbind]. eauto.
    + intros out. rewrite parts_set. cbn [d_kids]. apply lane_inner_ok. intros k Hk. apply (proj1 (IH k Hk)).
  - split; [discriminate|]. intros out. rewrite parts_set. cbn [d_kids lane_inner]. split; [|eauto]. intros _. split; [intros c []|intros k []].
  - split; [discriminate|]. intros out. rewrite parts_set. cbn [d_kids lane_inner]. split; [|eauto]. intros _. split; [intros c []|intros k []].
Qed.
Lemma import_lanes_inner : forall plane e, import_lanes plane e = lane_inner plane (d_kids e) [].
Proof.
  intros. unfold import_lanes, fold_elements. generalize (d_kids e) as l. generalize (@nil (string * lane)).
  intros out l. revert out. induction l as [|[g a k|t|t] l IH]; intros out; cbn [rfold lane_inner]; try reflexivity.
  - destruct (_ =? _).
    + destruct (import_lane _ _); cbn [rbind]; [apply IH|reflexivity].
    + cbn [rbind]. apply IH.
  - cbn [rbind]. apply IH.
Qed.
Lemma lanes_ready_ok : forall plane p, plain plane -> lanes_ready plane p <->
  (forall ls r, elements_in "laneSet" p = ls :: r -> parts plane ASet ls).
Proof.
  intros plane p P. unfold lanes_ready. destruct (elements_in "laneSet" p) as [|ls r]; [split; [discriminate|auto]|].
  rewrite import_lanes_inner. rewrite (proj2 (lanes_both plane P ls)). split; [intros H ls' r' E; inv E; exact H|eauto].
Qed.

(** Where the importer stops at a comment. *)
Lemma fail_flows : forall o s, In AFail (flow_actions o s) -> exists c, In (DOther c) (d_kids s).
Proof.
  intros o s H. unfold flow_actions in H. apply in_flat_map in H. destruct H as [[g a k|t|t] [I J]].
  - destruct (_ =? _); [|destruct J]. destruct J as [J|[]]. discriminate J.
  - destruct J.
  - eauto.
Qed.
Lemma fail_element : forall root e s, scope root s -> In e (d_kids s) -> In AFail (element_actions (owner_of s) e) ->
  exists s' c, scope root s' /\ In (DOther c) (d_kids s').
Proof.
  intros root. induction e as [g a ks IH|t|t] using dom_rect'; intros s S I F; [|destruct F|exists s, t; auto].
  cbn [element_actions] in F. apply in_app_or in F. destruct F as [F|F].
  { destruct (smem _ _); [|destruct F]. destruct F as [F|[]]. discriminate F. }
  destruct (String.eqb_spec (local_name g) t_subprocess) as [N|N]; [|destruct F].
  assert (Hx : scope root (DElem g a ks)) by (eapply scope_sub; eauto).
  assert (O : owner_of (DElem g a ks) = InSubprocess (get_attribute k_id (DElem g a ks))) by (apply owner_sub; exact N).
  rewrite <- O in F. apply in_app_or in F. destruct F as [F|F].
  - apply in_flat_map in F. destruct F as [k [Ik Fk]]. rewrite Forall_forall in IH. apply (IH k Ik _ Hx Ik Fk).
  - apply fail_flows in F. destruct F as [c F]. eauto.
Qed.
Lemma fail_core : forall root, In AFail (core_actions root) -> exists e c, walked root e /\ In (DOther c) (d_kids e).
Proof.
  intros root F. unfold core_actions in F. apply in_app_or in F. destruct F as [F|F].
  - apply in_flat_map in F. destruct F as [p [Ip Fp]]. apply in_document in Ip. destruct Ip as [I N].
    pose proof (scope_process root p I N) as S. rewrite process_scope in Fp by exact N. destruct Fp as [Fp|Fp]; [discriminate Fp|].
    unfold scope_actions in Fp. apply in_app_or in Fp. destruct Fp as [Fp|Fp].
    + apply in_flat_map in Fp. destruct Fp as [k [Ik Fk]]. destruct (fail_element root k p S Ik Fk) as (s' & c & S' & Ic).
      exists s', c. split; [apply walked_scope; exact S'|exact Ic].
    + apply fail_flows in Fp. destruct Fp as [c Ic]. exists p, c. split; [apply walked_scope; exact S|exact Ic].
  - change t_collaboration with "collaboration" in F. destruct (document_elements "collaboration" root) as [|c r] eqn:E; [destruct F|].
    assert (C : collaboration_of root = Some c) by (unfold collaboration_of; rewrite E; reflexivity).
    destruct F as [F|F]; [discriminate F|]. apply in_flat_map in F. destruct F as [[g a k|t|t] [I J]].
    + destruct (_ =? _); [|destruct (_ =? _)]; try destruct J as [J|[]]; try discriminate J. destruct J.
    + destruct J.
    + exists c, t. split; [apply walked_collaboration; exact C|exact I].
Qed.

Theorem C72_loads_iff : forall set_order root,
  (exists d, load_diagram_from_xml set_order root empty_diagram = (d, Ok tt)) <->
  (exists dia plane r1 r2, document_elements "BPMNDiagram" root = dia :: r1 /\ elements_in "BPMNPlane" dia = plane :: r2 /\
     loadable root plane).
Proof.
  intros so root. rewrite load_ok_iff.
  assert (LF : forall (l : list dom) x, list_first l = Ok x <-> exists r, l = x :: r).
  { intros l x. destruct l as [|y l]; simpl; split; intros H; try discriminate; try (destruct H; discriminate).
    - inv H. eauto.
    - destruct H as [r H]. inv H. reflexivity. }
  split.
  - intros (de & pe & [Hd Hp] & St & Pl). apply LF in Hd, Hp. destruct Hd as [r1 Hd], Hp as [r2 Hp].
    exists de, pe, r1, r2. split; [exact Hd|]. split; [exact Hp|]. rewrite Forall_forall in St, Pl.
    assert (PP : plain pe) by (intros c I; apply (Pl _ I)).
    assert (W : forall e, walked root e -> plain e).
    { intros e We c I. inversion We as [s Hs|s x D|s x F|x C|g p q1 q2 E1 E2]; subst.
      - apply (St AFail). apply (scope_actions_in_core _ _ Hs). unfold scope_actions. apply in_or_app. right.
        unfold flow_actions. apply in_flat_map. exists (DOther c). split; [exact I|left; reflexivity].
      - destruct (St _ (declared_action _ _ _ D)) as (_ & H & _). apply refs_ok in H. apply (proj1 H c I).
      - pose proof (St _ (flow_action _ _ _ F)) as H. apply conds_ok in H. apply (proj1 H c I).
      - apply (St AFail). eapply collab_in_core; [exact C|]. right. apply in_flat_map. exists (DOther c). split; [exact I|left; reflexivity].
      - rewrite E1 in Hd. inv Hd. rewrite E2 in Hp. inv Hp. exact (PP c I). }
    split; [exact W| | | |].
    + intros s x k D I N. destruct (St _ (declared_action _ _ _ D)) as (_ & H1 & H2). apply refs_ok in H1, H2.
      destruct N as [N|N]; [apply H1|apply H2]; assumption.
    + intros s f k F I N. pose proof (St _ (flow_action _ _ _ F)) as H. apply conds_ok in H. apply H; assumption.
    + intros p ls r I N E b e L. pose proof (St _ (process_in_core _ _ I N)) as H. cbn [static] in H.
      pose proof (proj1 (lanes_ready_ok _ _ PP) H ls r E) as Q. exact (Q b e L).
    + intros x I N. specialize (Pl x I). apply named_elem in N. destruct N as (g & a & k & -> & L). cbn [plane_child] in Pl.
      destruct (Pl L) as [B M]. split; [apply bounds_ok; exact B|exact M].
  - intros (de & pe & r1 & r2 & Hd & Hp & [W Li Co La Sh]). exists de, pe. split; [split; apply LF; eauto|].
    assert (PP : plain pe) by (apply W; eapply walked_plane; eauto).
    split; apply Forall_forall.
    + intros a Ia. pose proof (core_explained root) as Ex. rewrite Forall_forall in Ex. specialize (Ex a Ia).
      destruct a as [p|o e|o x| |c|x|x]; cbn [static explained] in *; auto.
      * apply lanes_ready_ok; [exact PP|]. intros ls r E b y L. destruct Ex as [I N]. eapply La; eauto.
      * destruct Ex as [s [D _]]. split; [destruct D as (_ & _ & D); apply kind_smem; exact D|].
        split; apply refs_ok; (split; [apply W; eapply walked_node; exact D|]); intros x Ix N; eapply Li; eauto.
      * destruct Ex as [s [F _]]. apply conds_ok. split; [apply W; eapply walked_flow; exact F|]. intros y Iy N. eapply Co; eauto.
      * apply fail_core in Ia. destruct Ia as (e & c & We & Ic). exact (W e We c Ic).
    + intros x I. destruct x as [g a k|t|t]; cbn [plane_child]; [|exact Logic.I|exact (PP t I)].
      intros L. destruct (Sh _ I L) as [B M]. split; [apply bounds_ok; exact B|exact M].
Qed.

(** The document of Prop_XmlImport with its nested flows; one whose flow ends at a node that
    it draws but does not declare; one with an empty reference. *)
Example C72_loads_example : exists plane, loadable a_document plane.
Proof.
  destruct (proj1 (C72_loads_iff (fun l => l) a_document)) as (dia & plane & r1 & r2 & _ & _ & L).
  - exists loaded_document. exact document_loads.
  - exists plane. exact L.
Qed.
Definition stray : dom := DElem "definitions" []
  [DElem "process" [("id", "p")] [DElem "task" [("id", "a")] [];
     DElem "sequenceFlow" [("id", "f"); ("sourceRef", "a"); ("targetRef", "b")] []];
   DElem "BPMNDiagram" [] [DElem "BPMNPlane" []
     [DElem "BPMNShape" [("bpmnElement", "b")] [DElem "Bounds" [] []]]]].
Definition empty_reference : dom := DElem "definitions" []
  [DElem "process" [("id", "p")] [DElem "task" [("id", "a")] [DElem "incoming" [] []]];
   DElem "BPMNDiagram" [] [DElem "BPMNPlane" [] []]].
Example C72_fails_examples :
  snd (load_diagram_from_xml (fun l => l) stray empty_diagram) = Err (KeyError "type") /\
  snd (load_diagram_from_xml (fun l => l) empty_reference empty_diagram) = Err AttributeError /\
  (forall plane, ~ loadable empty_reference plane).
Proof.
  split; [vm_compute; reflexivity|]. split; [vm_compute; reflexivity|]. intros plane [_ L _ _ _].
  destruct (L (DElem "process" [("id", "p")] [DElem "task" [("id", "a")] [DElem "incoming" [] []]])
              (DElem "task" [("id", "a")] [DElem "incoming" [] []]) (DElem "incoming" [] [])) as (s & r & [H|H]); try discriminate H.
  - split; [|split; [left; reflexivity|exists "task"; split; [left; reflexivity|reflexivity]]].
    apply scope_process; [|reflexivity]. eapply inside_below; [|apply inside_here]. left. reflexivity.
  - left. reflexivity.
  - left. reflexivity.
Qed.

Print Assumptions C72_loads_iff.
