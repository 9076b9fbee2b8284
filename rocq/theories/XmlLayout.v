(** Text that the importer never looks at: text next to elements.  [squash] removes it,
    and loading does not see the difference. *)
From Coq Require Import String List Bool Arith Lia.
From Verif Require Import Py PyFacts Consts Nx NxFacts Rep SpecRep RepFacts CsvRegex CsvImport CsvFacts Xml Import XmlOps ImportFacts.
Import ListNotations.
Open Scope string_scope.
Open Scope list_scope.

(** Elements whose text is read. *)
Definition text_tags : list string := ["incoming"; "outgoing"; "conditionExpression"; "flowNodeRef"].
Definition is_text (x : dom) : bool := match x with DText _ => true | _ => false end.
Fixpoint squash (e : dom) : dom :=
  match e with
  | DElem g a ks =>
      DElem g a (if smem (local_name g) text_tags then map squash ks
                 else (fix go (l : list dom) : list dom :=
                         match l with
                         | [] => []
                         | x :: r => if is_text x then go r else squash x :: go r
                         end) ks)
  | _ => e
  end.
Lemma squash_elem : forall g a ks, squash (DElem g a ks) =
  DElem g a (if smem (local_name g) text_tags then map squash ks else map squash (filter (fun x => negb (is_text x)) ks)).
Proof.
  intros. cbn [squash]. f_equal. destruct (smem _ _); [reflexivity|].
  induction ks as [|x r IH]; [reflexivity|]. cbn [filter]. destruct (is_text x); cbn [negb]; [exact IH|].
  cbn [map]. f_equal. exact IH.
Qed.
Lemma squash_tag : forall e, d_tag (squash e) = d_tag e.
Proof. intros [g a ks|s|s]; reflexivity. Qed.
Lemma squash_local : forall e, d_local (squash e) = d_local e.
Proof. intros. unfold d_local. rewrite squash_tag. reflexivity. Qed.
Lemma squash_atts : forall e, d_atts (squash e) = d_atts e.
Proof. intros [g a ks|s|s]; reflexivity. Qed.
Lemma squash_get : forall k e, get_attribute k (squash e) = get_attribute k e.
Proof. intros. unfold get_attribute. rewrite squash_atts. reflexivity. Qed.
Lemma squash_or : forall k v e, attribute_or k v (squash e) = attribute_or k v e.
Proof. intros. unfold attribute_or. rewrite squash_atts. reflexivity. Qed.
Lemma squash_none : forall k e, attribute_or_none k (squash e) = attribute_or_none k e.
Proof. intros. unfold attribute_or_none. rewrite squash_atts. reflexivity. Qed.

Definition kids_of (g : string) (ks : list dom) : list dom :=
  if smem (local_name g) text_tags then ks else filter (fun x => negb (is_text x)) ks.
Lemma squash_kids : forall e, d_kids (squash e) = map squash (kids_of (d_tag e) (d_kids e)).
Proof.
  intros [g a ks|s|s]; [|unfold kids_of; reflexivity|unfold kids_of; reflexivity].
  rewrite squash_elem. unfold kids_of. cbn [d_kids d_tag]. destruct (smem _ _); reflexivity.
Qed.

Lemma elements_squash : forall t e, elements_in t (squash e) = map squash (elements_in t e).
Proof.
  intros t. induction e as [g a ks IH|s|s] using dom_rect'; [|reflexivity|reflexivity].
  rewrite squash_elem. cbn [elements_in].
  assert (Q : forall l, Forall (fun e => elements_in t (squash e) = map squash (elements_in t e)) l ->
     flat_map (fun k => (match k with DElem g _ _ => if String.eqb (local_name g) t then [k] else [] | _ => [] end) ++ elements_in t k)
       (map squash l) =
     map squash (flat_map (fun k => (match k with DElem g _ _ => if String.eqb (local_name g) t then [k] else [] | _ => [] end) ++ elements_in t k) l)).
  { induction l as [|x l IHl]; intros F; [reflexivity|]. inversion F as [|? ? F1 F2]; subst. cbn [map flat_map]. rewrite IHl by exact F2.
    rewrite !map_app, F1. f_equal. f_equal. destruct x as [g' a' k'|s|s]; try reflexivity. rewrite squash_elem.
    destruct (local_name g' =? t); [|reflexivity]. cbn [map]. rewrite squash_elem. reflexivity. }
  assert (Fi : forall l,
     flat_map (fun k => (match k with DElem g _ _ => if String.eqb (local_name g) t then [k] else [] | _ => [] end) ++ elements_in t k)
       (filter (fun x => negb (is_text x)) l) =
     flat_map (fun k => (match k with DElem g _ _ => if String.eqb (local_name g) t then [k] else [] | _ => [] end) ++ elements_in t k) l).
  { induction l as [|x l IHl]; [reflexivity|]. destruct x as [g' a' k'|s|s]; cbn [filter is_text negb flat_map]; rewrite IHl; reflexivity. }
  destruct (smem (local_name g) text_tags).
  - apply Q. exact IH.
  - rewrite Q; [rewrite Fi; reflexivity|]. rewrite Forall_forall in *. intros x Hx. apply filter_In in Hx. apply IH, Hx.
Qed.
Lemma document_squash : forall t e, document_elements t (squash e) = map squash (document_elements t e).
Proof.
  intros t e. unfold document_elements. rewrite elements_squash, map_app. f_equal.
  destruct e as [g a ks|s|s]; try reflexivity. rewrite squash_elem. destruct (local_name g =? t); [|reflexivity].
  cbn [map]. rewrite squash_elem. reflexivity.
Qed.
Lemma first_value_squash : forall e, smem (d_local e) text_tags = true -> first_value (squash e) = first_value e.
Proof.
  intros [g a ks|s|s] H; try reflexivity. rewrite squash_elem. unfold d_local in H. cbn [d_tag] in H. rewrite H.
  unfold first_value. cbn [d_kids]. destruct ks as [|[g' a' k'|s|s] r]; reflexivity.
Qed.

(** Loops over the children. *)
Lemma each_squash : forall S (f : dom -> M S unit) g ks s,
  (forall x s, f (squash x) s = f x s) ->
  each_element (map squash (kids_of g ks)) f s = each_element ks f s.
Proof.
  intros S f g ks s H. unfold each_element, kids_of.
  assert (A : forall l s, mfor (map squash l) (fun k => match k with DText _ => mret tt | DOther _ => mraise AttributeError | DElem _ _ _ => f k end) s =
     mfor l (fun k => match k with DText _ => mret tt | DOther _ => mraise AttributeError | DElem _ _ _ => f k end) s).
  { induction l as [|x l IHl]; intros s'; [reflexivity|]. cbn [map mfor]. apply mbind_ext; [|intros; apply IHl].
    destruct x as [g' a' k'|t|t]; try reflexivity. apply H. }
  assert (B : forall l s, mfor (filter (fun x => negb (is_text x)) l) (fun k => match k with DText _ => mret tt | DOther _ => mraise AttributeError | DElem _ _ _ => f k end) s =
     mfor l (fun k => match k with DText _ => mret tt | DOther _ => mraise AttributeError | DElem _ _ _ => f k end) s).
  { induction l as [|x l IHl]; intros s'; [reflexivity|]. destruct x as [g' a' k'|t|t]; cbn [filter is_text negb mfor].
    - apply mbind_ext; [reflexivity|intros; apply IHl].
    - rewrite IHl. symmetry. rewrite (mbind_eq _ _ _ (mret tt) _ _ s' tt) by reflexivity. reflexivity.
    - apply mbind_ext; [reflexivity|intros; apply IHl]. }
  destruct (smem _ _); rewrite A; [reflexivity|apply B].
Qed.
Lemma fold_squash : forall A (f : A -> dom -> res A) g ks a,
  (forall a x, f a (squash x) = f a x) ->
  fold_elements (map squash (kids_of g ks)) f a = fold_elements ks f a.
Proof.
  intros A f g ks a H. unfold fold_elements, kids_of.
  assert (P : forall l a, rfold (fun a k => match k with DText _ => Ok a | DOther _ => Err AttributeError | DElem _ _ _ => f a k end) (map squash l) a =
    rfold (fun a k => match k with DText _ => Ok a | DOther _ => Err AttributeError | DElem _ _ _ => f a k end) l a).
  { induction l as [|x l IHl]; intros a'; [reflexivity|]. cbn [map rfold].
    replace (match squash x with DText _ => Ok a' | DOther _ => Err AttributeError | DElem _ _ _ => f a' (squash x) end)
      with (match x with DText _ => Ok a' | DOther _ => Err AttributeError | DElem _ _ _ => f a' x end).
    - destruct (match x with DText _ => Ok a' | DOther _ => Err AttributeError | DElem _ _ _ => f a' x end); [apply IHl|reflexivity].
    - destruct x as [g' a0 k'|t|t]; try reflexivity. symmetry. apply (H a' (DElem g' a0 k')). }
  assert (Q : forall l a, rfold (fun a k => match k with DText _ => Ok a | DOther _ => Err AttributeError | DElem _ _ _ => f a k end)
       (filter (fun x => negb (is_text x)) l) a =
    rfold (fun a k => match k with DText _ => Ok a | DOther _ => Err AttributeError | DElem _ _ _ => f a k end) l a).
  { induction l as [|x l IHl]; intros a'; [reflexivity|]. destruct x as [g' a0 k'|t|t]; cbn [filter is_text negb rfold].
    - destruct (f a' (DElem g' a0 k')); [apply IHl|reflexivity].
    - apply IHl.
    - reflexivity. }
  destruct (smem _ _); rewrite P; [reflexivity|apply Q].
Qed.

Section Squash.
Variable set_order : list string -> list string.

Lemma reference_squash : forall k e, smem k text_tags = true -> reference_list k (squash e) = reference_list k e.
Proof using.
  intros k e H. unfold reference_list. rewrite squash_kids. apply fold_squash. intros l x. rewrite squash_local.
  destruct (String.eqb_spec (d_local x) k) as [<-|]; [|reflexivity]. rewrite first_value_squash by exact H. reflexivity.
Qed.
Lemma definitions_squash : forall ts e, imported_definitions set_order ts (squash e) = imported_definitions set_order ts e.
Proof using.
  intros. unfold imported_definitions. induction (set_order ts) as [|t l IH]; [reflexivity|]. cbn [flat_map].
  rewrite IH, elements_squash, map_map. f_equal. apply map_ext. intros x. rewrite squash_get. reflexivity.
Qed.
Ltac sq := repeat first [rewrite squash_get | rewrite squash_or | rewrite squash_none | rewrite squash_local
  | rewrite definitions_squash | rewrite reference_squash by reflexivity].
Lemma node_squash : forall o e, import_node set_order o (squash e) = import_node set_order o e.
Proof using.
  intros. unfold import_node, import_activity_to_graph, import_data_object_to_graph, import_gateway_with_default_to_graph,
    import_event_based_gateway_to_graph, import_gateway_to_graph, import_start_event_to_graph, import_end_event_to_graph,
    import_intermediate_catch_event_to_graph, import_intermediate_throw_event_to_graph, import_boundary_event_to_graph,
    import_event_definition_elements, import_flow_node_to_graph. sq. reflexivity.
Qed.
Lemma flow_squash : forall o e d, import_sequence_flow_to_graph o (squash e) d = import_sequence_flow_to_graph o e d.
Proof using.
  intros. unfold import_sequence_flow_to_graph. sq. do 7 (apply mbind_ext; [reflexivity|intros ? ?]).
  apply mbind_ext; [|reflexivity]. rewrite squash_kids. apply each_squash. intros x s. sq.
  destruct (String.eqb_spec (d_local x) k_condition_expression) as [E|]; [|reflexivity].
  rewrite first_value_squash by (rewrite E; reflexivity). reflexivity.
Qed.
Lemma flows_squash : forall o e d, import_flows o (squash e) d = import_flows o e d.
Proof using.
  intros. unfold import_flows. rewrite squash_kids. apply each_squash. intros x s. sq.
  destruct (_ =? _); [apply flow_squash|reflexivity].
Qed.
Lemma element_squash : forall e o d, import_element set_order o (squash e) d = import_element set_order o e d.
Proof using.
  induction e as [g a ks IH|s|s] using dom_rect'; intros o d; [|reflexivity|reflexivity].
  pose proof (squash_elem g a ks) as Q. pose proof (node_squash o (DElem g a ks)) as N.
  pose proof (fun o => flows_squash o (DElem g a ks)) as F. rewrite Q in *.
  cbn [import_element]. rewrite N. apply mbind_ext; [reflexivity|intros ? d1].
  destruct (String.eqb_spec (local_name g) t_subprocess) as [E|]; [|reflexivity].
  change (get_attribute k_id (DElem g a (if smem (local_name g) text_tags then map squash ks else map squash (filter (fun x : dom => negb (is_text x)) ks))))
    with (get_attribute k_id (DElem g a ks)).
  apply mbind_ext; [|intros; apply F].
  assert (T : smem (local_name g) text_tags = false) by (rewrite E; reflexivity). rewrite T. clear Q N F T.
  generalize (InSubprocess (get_attribute k_id (DElem g a ks))). intros o'. revert d1.
  induction ks as [|x l IHl]; intros d1; [reflexivity|]. inversion IH as [|? ? I1 I2]; subst.
  destruct x as [g' a' k'|s|s]; cbn [filter is_text negb].
  - cbn [map]. apply mbind_ext; [apply I1|intros; apply IHl; exact I2].
  - rewrite (IHl I2). symmetry. rewrite (mbind_eq _ _ _ (import_element set_order o' (DText s)) _ _ d1 tt) by reflexivity. reflexivity.
  - cbn [map]. apply mbind_ext; [reflexivity|intros; apply IHl; exact I2].
Qed.
Lemma fold_squash_map : forall A B (h : A -> B) (f : A -> dom -> res A) (f' : B -> dom -> res B) g ks a,
  (forall a x, f' (h a) (squash x) = match f a x with Ok y => Ok (h y) | Err e => Err e end) ->
  fold_elements (map squash (kids_of g ks)) f' (h a) = match fold_elements ks f a with Ok y => Ok (h y) | Err e => Err e end.
Proof using.
  intros A B h f f' g ks a H. unfold fold_elements, kids_of.
  assert (K : forall x, smem (local_name g) text_tags = false -> is_text x = true -> True) by auto. clear K.
  set (c := smem (local_name g) text_tags). clearbody c. revert a.
  induction ks as [|x l IHl]; intros a; [destruct c; reflexivity|].
  destruct x as [g' a0 k'|t|t].
  - assert (E : (if c then DElem g' a0 k' :: l else filter (fun x => negb (is_text x)) (DElem g' a0 k' :: l)) =
              DElem g' a0 k' :: (if c then l else filter (fun x => negb (is_text x)) l)) by (destruct c; reflexivity).
    rewrite E. cbn [map rfold].
    pose proof (H a (DElem g' a0 k')) as Hx. rewrite squash_elem in Hx |- *. rewrite Hx.
    destruct (f a (DElem g' a0 k')) as [y|]; [cbn [rbind]; apply IHl|reflexivity].
  - destruct c.
    + cbn [map rfold rbind squash]. apply IHl.
    + cbn [filter is_text negb rfold rbind]. apply IHl.
  - destruct c; reflexivity.
Qed.
Lemma first_bounds_squash : forall e, first_bounds (squash e) = match first_bounds e with Ok b => Ok (squash b) | Err x => Err x end.
Proof using. intros. unfold first_bounds. rewrite elements_squash. destruct (elements_in "Bounds" e); reflexivity. Qed.
Lemma lane_di_squash : forall pe id, lane_di (squash pe) id = lane_di pe id.
Proof using.
  intros. unfold lane_di, lane_shape. rewrite squash_kids.
  change (@None dom) with (option_map squash None) at 1.
  rewrite (fold_squash_map _ _ (option_map squash) (fun s x => Ok (if String.eqb (get_attribute k_bpmn_element x) id then Some x else s))).
  2: { intros s x. sq. destruct (_ =? _); reflexivity. }
  destruct (fold_elements _ _ _) as [[e|]|]; cbn [rbind option_map]; try reflexivity.
  rewrite first_bounds_squash. destruct (first_bounds e); cbn [rbind]; sq; reflexivity.
Qed.
(** The two loops of [import_lane], named. *)
Fixpoint lane_inner (plane : dom) (l : list dom) (out : list (string * lane)) : res (list (string * lane)) :=
  match l with
  | [] => Ok out
  | DText _ :: r => lane_inner plane r out
  | DOther _ :: _ => Err AttributeError
  | (DElem _ _ _ as y) :: r =>
      if String.eqb (d_local y) t_lane
      then let* v := import_lane plane y in lane_inner plane r (dset (get_attribute k_id y) v out)
      else lane_inner plane r out
  end.
Fixpoint lane_all (plane : dom) (l : list dom) (acc : option (string * list (string * lane)) * list string)
           : res (option (string * list (string * lane)) * list string) :=
  match l with
  | [] => Ok acc
  | DText _ :: r => lane_all plane r acc
  | DOther _ :: _ => Err AttributeError
  | (DElem _ _ sub as x) :: r =>
      if String.eqb (d_local x) k_child_lane_set then
        let* lanes := lane_inner plane sub [] in
        lane_all plane r (Some (get_attribute k_id x, lanes), snd acc)
      else if String.eqb (d_local x) t_flow_node_ref then
        let* v := first_value x in lane_all plane r (fst acc, snd acc ++ [v])
      else lane_all plane r acc
  end.
Lemma import_lane_unfold : forall plane g a kids, import_lane plane (DElem g a kids) =
  let* p := lane_all plane kids (None, []) in
  let* di := lane_di plane (get_attribute k_id (DElem g a kids)) in
  Ok (Lane (get_attribute k_name (DElem g a kids)) (fst p) (snd p) di).
Proof using.
  intros. cbn [import_lane]. f_equal.
  generalize (@None (string * list (string * lane)), @nil string). induction kids as [|x l IH]; intros acc; [reflexivity|].
  destruct x as [h a0 k'|t|t]; [|apply IH|reflexivity]. cbn [lane_all].
  destruct (d_local (DElem h a0 k') =? k_child_lane_set).
  - assert (E : forall out, (fix inner (l0 : list dom) (out : list (string * lane)) {struct l0} : res (list (string * lane)) :=
        match l0 with
        | [] => Ok out
        | (DElem _ _ _ as y) :: r => if d_local y =? t_lane
            then let* v := import_lane plane y in inner r (dset (get_attribute k_id y) v out) else inner r out
        | DText _ :: r => inner r out
        | DOther _ :: _ => Err AttributeError
        end) k' out = lane_inner plane k' out).
    { induction k' as [|y r IHk]; intros out; [reflexivity|]. destruct y as [h' a1 k1|t|t]; cbn [lane_inner]; try reflexivity; try apply IHk.
      destruct (_ =? _); [|apply IHk]. destruct (import_lane plane _); cbn [rbind]; [apply IHk|reflexivity]. }
    rewrite E. destruct (lane_inner plane k' []); cbn [rbind]; [apply IH|reflexivity].
  - destruct (_ =? _); [|apply IH]. destruct (first_value _); cbn [rbind]; [apply IH|reflexivity].
Qed.
Lemma lane_inner_squash : forall plane ks,
  Forall (fun e => import_lane (squash plane) (squash e) = import_lane plane e) ks ->
  forall g out, lane_inner (squash plane) (map squash (kids_of g ks)) out = lane_inner plane ks out.
Proof using.
  intros plane ks F g. unfold kids_of. set (c := smem (local_name g) text_tags). clearbody c.
  induction ks as [|x l IHl]; intros out; [destruct c; reflexivity|]. inversion F as [|? ? F1 F2]; subst. specialize (IHl F2).
  destruct x as [g' a0 k'|t|t].
  - assert (E : (if c then DElem g' a0 k' :: l else filter (fun x => negb (is_text x)) (DElem g' a0 k' :: l)) =
              DElem g' a0 k' :: (if c then l else filter (fun x => negb (is_text x)) l)) by (destruct c; reflexivity).
    rewrite E. cbn [map]. pose proof (squash_local (DElem g' a0 k')) as L. pose proof (squash_get k_id (DElem g' a0 k')) as G.
    rewrite squash_elem in *. cbn [lane_inner]. rewrite L, G, F1. destruct (_ =? _); [|apply IHl].
    destruct (import_lane plane _); cbn [rbind]; [apply IHl|reflexivity].
  - destruct c.
    + cbn [map squash lane_inner]. apply IHl.
    + cbn [filter is_text negb lane_inner]. apply IHl.
  - destruct c; reflexivity.
Qed.
Lemma lane_squash : forall plane e, import_lane (squash plane) (squash e) = import_lane plane e.
Proof using.
  intros plane. assert (S : forall e, import_lane (squash plane) (squash e) = import_lane plane e /\ Forall (fun e => import_lane (squash plane) (squash e) = import_lane plane e) (d_kids e)).
  { induction e as [g a ks IH|s|s] using dom_rect'; try (split; [reflexivity|constructor]).
    split; [|rewrite Forall_forall in *; intros x Hx; apply IH; exact Hx].
    assert (Al : forall g' acc, lane_all (squash plane) (map squash (kids_of g' ks)) acc = lane_all plane ks acc).
    { intros g'. unfold kids_of. set (c := smem (local_name g') text_tags). clearbody c.
      induction ks as [|x l IHl]; intros acc; [destruct c; reflexivity|]. inversion IH as [|? ? [F1 Fk] F2]; subst. specialize (IHl F2).
      destruct x as [h a0 k'|t|t].
      - assert (E : (if c then DElem h a0 k' :: l else filter (fun x => negb (is_text x)) (DElem h a0 k' :: l)) =
                  DElem h a0 k' :: (if c then l else filter (fun x => negb (is_text x)) l)) by (destruct c; reflexivity).
        rewrite E. cbn [map]. pose proof (squash_local (DElem h a0 k')) as L. pose proof (squash_get k_id (DElem h a0 k')) as G.
        pose proof (first_value_squash (DElem h a0 k')) as V. pose proof (squash_kids (DElem h a0 k')) as K.
        destruct (squash (DElem h a0 k')) as [h2 a2 k2|t|t] eqn:Sq; try (rewrite squash_elem in Sq; discriminate Sq).
        cbn [d_kids d_tag] in K. subst k2. cbn [lane_all]. rewrite L, G.
        destruct (_ =? _).
        + rewrite (lane_inner_squash plane k' Fk). destruct (lane_inner plane k' []); cbn [rbind]; [apply IHl|reflexivity].
        + destruct (String.eqb_spec (d_local (DElem h a0 k')) t_flow_node_ref) as [Ef|]; [|apply IHl].
          rewrite V by (rewrite Ef; reflexivity). clear V. destruct (first_value (DElem h a0 k')); cbn [rbind]; [apply IHl|reflexivity].
      - destruct c.
        + cbn [map squash lane_all]. apply IHl.
        + cbn [filter is_text negb lane_all]. apply IHl.
      - destruct c; reflexivity. }
    pose proof (squash_kids (DElem g a ks)) as K. pose proof (squash_get k_id (DElem g a ks)) as G.
    pose proof (squash_get k_name (DElem g a ks)) as N.
    destruct (squash (DElem g a ks)) as [h2 a2 k2|t|t] eqn:Sq; try (rewrite squash_elem in Sq; discriminate Sq).
    cbn [d_kids d_tag] in K. subst k2. rewrite !import_lane_unfold, Al, G, N, lane_di_squash. reflexivity. }
  intros e. apply S.
Qed.
Lemma lanes_squash : forall plane e, import_lanes (squash plane) (squash e) = import_lanes plane e.
Proof using.
  intros. unfold import_lanes. rewrite squash_kids.
  rewrite (fold_squash_map _ _ (fun l : list (string * lane) => l) (fun out x =>
    if String.eqb (d_local x) t_lane then let* v := import_lane plane x in Ok (dset (get_attribute k_id x) v out) else Ok out)).
  - destruct (fold_elements _ _ _); reflexivity.
  - intros out x. sq. rewrite lane_squash. destruct (_ =? _); [|reflexivity]. destruct (import_lane plane x); reflexivity.
Qed.
Lemma process_squash : forall plane e d, import_process set_order (squash plane) (squash e) d = import_process set_order plane e d.
Proof using.
  intros. unfold import_process. sq. apply mbind_ext.
  { unfold import_process_element, process_attributes. sq. reflexivity. }
  intros _ d1. apply mbind_ext.
  { unfold import_lane_sets. rewrite elements_squash. destruct (elements_in k_lane_set e) as [|ls r]; [reflexivity|]. cbn [map].
    rewrite lanes_squash. sq. reflexivity. }
  intros _ d2. apply mbind_ext; [|intros; apply flows_squash]. rewrite squash_kids. unfold kids_of.
  generalize (InProcess (get_attribute k_id e)). intros o. set (c := smem (local_name (d_tag e)) text_tags). clearbody c.
  revert d2. induction (d_kids e) as [|x l IHl]; intros d2; [destruct c; reflexivity|].
  destruct x as [g' a0 k'|t|t].
  - assert (E : (if c then DElem g' a0 k' :: l else filter (fun x => negb (is_text x)) (DElem g' a0 k' :: l)) =
              DElem g' a0 k' :: (if c then l else filter (fun x => negb (is_text x)) l)) by (destruct c; reflexivity).
    rewrite E. cbn [map mfor]. apply mbind_ext; [apply element_squash|intros; apply IHl].
  - destruct c; [apply mbind_ext; [reflexivity|intros; apply IHl]|]. cbn [filter is_text negb]. rewrite IHl. symmetry.
    cbn [mfor]. rewrite (mbind_eq _ _ _ (import_element set_order o (DText t)) _ _ d2 tt) by reflexivity. reflexivity.
  - destruct c; apply mbind_ext; try reflexivity; intros; apply IHl.
Qed.
Lemma collaboration_squash : forall e d, import_collaboration_element (squash e) d = import_collaboration_element e d.
Proof using.
  intros. unfold import_collaboration_element. sq. apply mbind_ext; [reflexivity|intros _ d1]. rewrite squash_kids.
  apply each_squash. intros x s. sq. destruct (_ =? _).
  - unfold import_participant_element. sq. reflexivity.
  - destruct (_ =? _); [|reflexivity]. unfold import_message_flow_to_graph. sq. reflexivity.
Qed.
Lemma di_squash : forall e d, import_di (squash e) d = import_di e d.
Proof using.
  intros. unfold import_di. rewrite squash_kids. apply each_squash. intros x s. sq. destruct (_ =? _).
  - unfold import_shape_di. cbv zeta. destruct (first_bounds x) as [b|er] eqn:Fb.
    + rewrite (mbind_eq _ _ _ (mread (fun _ => first_bounds (squash x))) _ s s (squash b))
        by (unfold mread; rewrite first_bounds_squash, Fb; reflexivity).
      rewrite (mbind_eq _ _ _ (mread (fun _ => Ok b)) _ s s b) by reflexivity.
      sq. reflexivity.
    + unfold mbind at 1, mread at 1. rewrite first_bounds_squash, Fb. reflexivity.
  - destruct (_ =? _); [|reflexivity]. unfold import_flow_di. sq. unfold imported_waypoints. rewrite elements_squash, map_map.
    apply mbind_ext; [reflexivity|]. intros [r|] s1; [|reflexivity].
    replace (map (fun y => (get_attribute k_x (squash y), get_attribute k_y (squash y))) (elements_in t_waypoint x))
      with (map (fun y => (get_attribute k_x y, get_attribute k_y y)) (elements_in t_waypoint x)); [reflexivity|].
    apply map_ext. intros y. sq. reflexivity.
Qed.
Theorem load_squash : forall root d, load_diagram_from_xml set_order (squash root) d = load_diagram_from_xml set_order root d.
Proof using.
  intros. unfold load_diagram_from_xml. rewrite !document_squash.
  destruct (document_elements "BPMNDiagram" root) as [|de r]; [reflexivity|].
  cbn [map]. rewrite (mbind_eq _ _ _ (mread (fun _ => list_first (squash de :: map squash r))) _ d d (squash de)) by reflexivity.
  rewrite (mbind_eq _ _ _ (mread (fun _ => list_first (de :: r))) _ d d de) by reflexivity. rewrite elements_squash.
  destruct (elements_in "BPMNPlane" de) as [|pe r']; [reflexivity|].
  cbn [map]. rewrite (mbind_eq _ _ _ (mread (fun _ => list_first (squash pe :: map squash r'))) _ d d (squash pe)) by reflexivity.
  rewrite (mbind_eq _ _ _ (mread (fun _ => list_first (pe :: r'))) _ d d pe) by reflexivity.
  apply mbind_ext; [unfold import_diagram_and_plane_attributes; sq; reflexivity|intros _ d1].
  apply mbind_ext.
  { unfold import_process_elements. rewrite document_squash. revert d1.
    induction (document_elements k_process root) as [|p l IHl]; intros d1; [reflexivity|]. cbn [map mfor].
    apply mbind_ext; [apply process_squash|intros; apply IHl]. }
  intros _ d2. apply mbind_ext; [|intros; apply di_squash].
  destruct (document_elements t_collaboration root) as [|c rc]; [reflexivity|]. cbn [map]. apply collaboration_squash.
Qed.
End Squash.
