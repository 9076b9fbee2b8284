(** Properties of loading XML documents. *)
From Coq Require Import String List Bool Arith Lia Permutation.
From Verif Require Import Py PyFacts Consts Nx NxFacts Rep SpecRep RepFacts Xml Import XmlOps ImportFacts ActionFacts DiFacts
  SpecXml XmlScopes LoadFacts.
Import ListNotations.
Open Scope string_scope.
Open Scope list_scope.

(** * C42: which nodes there are afterwards *)
Theorem C42_nodes : forall set_order root d d',
  load_diagram_from_xml set_order root d = (d', Ok tt) ->
  forall n, is_node d' n <->
    is_node d n \/
    (exists s x, declared root s x /\ get_attribute "id" x = n) \/
    (exists s f, flow_in root s f /\ (get_attribute "sourceRef" f = n \/ get_attribute "targetRef" f = n)) \/
    (exists x, participant_in root x /\ get_attribute "processRef" x = "" /\ get_attribute "id" x = n) \/
    (exists f, message_in root f /\ (get_attribute "sourceRef" f = n \/ get_attribute "targetRef" f = n)).
Proof.
  intros so root d d' H n. destruct (load_loaded _ _ _ _ H) as (de & pe & mid & L).
  rewrite (loaded_nodes _ _ _ _ _ _ _ L). split.
  - intros [I|[a [I N]]]; [auto|]. right. pose proof (core_explained root) as X. rewrite Forall_forall in X. specialize (X a I).
    destruct a as [e|o e|o x| |c|x|x]; cbn [node_new explained] in *; try contradiction.
    + left. destruct X as [s [X _]]. eauto.
    + right. left. destruct X as [s [X _]]. exists s, x. split; [exact X|]. destruct N; auto.
    + right. right. left. exists x. destruct N; auto.
    + right. right. right. exists x. split; [exact X|]. destruct N; auto.
  - intros [I|[(s & x & D & E)|[(s & f & D & E)|[(x & D & E1 & E2)|(f & D & E)]]]]; [auto| | | |]; right.
    + exists (ANode (owner_of s) x). split; [apply declared_action; exact D|]. cbn [node_new]. auto.
    + exists (AFlow (owner_of s) f). split; [apply flow_action; exact D|]. cbn [node_new]. destruct E; auto.
    + exists (APart x). split; [apply participant_action; exact D|]. cbn [node_new]. auto.
    + exists (AMessage f). split; [apply message_action; exact D|]. cbn [node_new]. destruct E; auto.
Qed.

(** Every declared id is described by one of its declarations. *)
Theorem C42_declared : forall set_order root d d' s x, (forall l, Permutation (set_order l) l) ->
  load_diagram_from_xml set_order root d = (d', Ok tt) -> declared root s x ->
  (forall y, participant_in root y -> get_attribute "processRef" y = "" -> get_attribute "id" y <> get_attribute "id" x) ->
  exists s' x', declared root s' x' /\ get_attribute "id" x' = get_attribute "id" x /\ described d' s' x'.
Proof.
  intros so root d d' s x P H D Np. destruct (load_loaded _ _ _ _ H) as (de & pe & mid & L).
  destruct (loaded_declared _ _ _ _ _ _ _ L s x D Np) as (s' & x' & D' & E & F).
  exists s', x'. split; [exact D'|]. split; [exact E|]. apply (fields_described so P).
  - destruct D' as (_ & _ & K). exact K.
  - rewrite E. exact F.
Qed.

(** * C44: a node whose id is declared once is exactly as its element says *)
Theorem C44_attributes : forall set_order root d d' s x, (forall l, Permutation (set_order l) l) ->
  load_diagram_from_xml set_order root d = (d', Ok tt) -> declared root s x ->
  (forall s' x', declared root s' x' -> get_attribute "id" x' = get_attribute "id" x -> s' = s /\ x' = x) ->
  (forall y, participant_in root y -> get_attribute "processRef" y = "" -> get_attribute "id" y <> get_attribute "id" x) ->
  described d' s x.
Proof.
  intros so root d d' s x P H D U Np. destruct (C42_declared _ _ _ _ _ _ P H D Np) as (s' & x' & D' & E & Q).
  destruct (U _ _ D' E) as [-> ->]. exact Q.
Qed.

(** * C41: flows are registered at both ends *)
Definition ends_listed (out : bool) : Prop := forall set_order root d d' s f x,
  load_diagram_from_xml set_order root d = (d', Ok tt) -> flow_in root s f -> declared root s x ->
  get_attribute "id" x = end_of out f ->
  (forall s' y, declared root s' y -> get_attribute "id" y = get_attribute "id" x -> s' = s) ->
  exists l, attr d' (get_attribute "id" x) (list_key out) = Some (VList l) /\ In (get_attribute "id" f) l.
Lemma ends_listed_both : forall out, ends_listed out.
Proof.
  intros out so root d d' s f x H F D E U. destruct (load_loaded _ _ _ _ H) as (de & pe & mid & L).
  destruct (loaded_list _ _ _ _ _ _ _ L out s x D) as (s' & y & A1 & A2 & l & D' & Ey & EA & Al & I1 & _).
  exists l. split; [exact Al|]. apply I1. right.
  destruct (core_followed _ _ _ _ _ EA) as (s2 & D2 & O2 & Fo).
  assert (S2 : s2 = s) by (apply (U s2 y D2 Ey)). subst s2.
  exists (AFlow (owner_of s') f). destruct F as (_ & If & Nf). split; [apply Fo; assumption|].
  cbn [joins]. rewrite E, eqb_refl'. reflexivity.
Qed.
Theorem C41_registered_at_both_ends : forall set_order root d d' s f x y,
  load_diagram_from_xml set_order root d = (d', Ok tt) -> flow_in root s f ->
  declared root s x -> get_attribute "id" x = get_attribute "sourceRef" f ->
  declared root s y -> get_attribute "id" y = get_attribute "targetRef" f ->
  (forall s' z, declared root s' z -> get_attribute "id" z = get_attribute "id" x -> s' = s) ->
  (forall s' z, declared root s' z -> get_attribute "id" z = get_attribute "id" y -> s' = s) ->
  In (get_attribute "id" f) (outgoing_of d' (get_attribute "sourceRef" f)) /\
  In (get_attribute "id" f) (incoming_of d' (get_attribute "targetRef" f)).
Proof.
  intros so root d d' s f x y H F Dx Ex Dy Ey Ux Uy.
  destruct (ends_listed_both true so root d d' s f x H F Dx Ex Ux) as (l & Al & Il).
  destruct (ends_listed_both false so root d d' s f y H F Dy Ey Uy) as (m & Am & Im).
  unfold outgoing_of, incoming_of. rewrite <- Ex, <- Ey. cbn [list_key] in Al, Am. rewrite Al, Am. auto.
Qed.

Definition lists_clean (out : bool) : Prop := forall set_order root d d' s x,
  load_diagram_from_xml set_order root d = (d', Ok tt) -> declared root s x ->
  (forall s' y, declared root s' y -> get_attribute "id" y = get_attribute "id" x -> y = x) ->
  exists r, attr d' (get_attribute "id" x) (list_key out) = Some (VList (child_texts (list_key out) x ++ r)) /\
    (NoDup (child_texts (list_key out) x) -> NoDup (child_texts (list_key out) x ++ r)) /\
    (forall g, In g r -> (exists s f, flow_in root s f /\ end_of out f = get_attribute "id" x /\ get_attribute "id" f = g) \/
                        (exists f, message_in root f /\ end_of out f = get_attribute "id" x /\ get_attribute "id" f = g) \/
                        In g (child_texts (list_key out) x)).
Lemma lists_clean_both : forall out, lists_clean out.
Proof.
  intros out so root d d' s x H D U. destruct (load_loaded _ _ _ _ H) as (de & pe & mid & L).
  destruct (loaded_list _ _ _ _ _ _ _ L out s x D) as (s' & y & A1 & A2 & l & D' & Ey & EA & Al & I1 & I2 & r & I3).
  assert (Y : y = x) by (apply (U s' y D' Ey)). subst y.
  rewrite (loaded_refs _ _ _ _ _ _ _ L out s x D) in I1, I2, I3. exists r. rewrite <- I3. split; [exact Al|].
  split; [exact I2|]. intros g Ig. assert (Il : In g l) by (rewrite I3; apply in_or_app; auto).
  apply I1 in Il. destruct Il as [Il|[a [Ia Ja]]]; [auto|].
  assert (X : explained root a).
  { eapply Forall_forall; [apply core_explained|]. rewrite EA. apply in_or_app. right. right. exact Ia. }
  destruct a as [e|o e|o f| |c|f|f]; try discriminate; cbn [joins] in Ja.
  - destruct (String.eqb_spec (get_attribute "id" x) (end_of out f)) as [E|E]; [|discriminate]. inv Ja.
    destruct X as [s2 [X _]]. left. exists s2, f. auto.
  - destruct (String.eqb_spec (get_attribute "id" x) (end_of out f)) as [E|E]; [|discriminate]. inv Ja.
    right. left. exists f. auto.
Qed.
(** The lists are those of the document, extended without repetition by the flows and
    message flows that begin (end) at the node. *)
Theorem C41_outgoing_lists : forall set_order root d d' s x,
  load_diagram_from_xml set_order root d = (d', Ok tt) -> declared root s x ->
  (forall s' y, declared root s' y -> get_attribute "id" y = get_attribute "id" x -> y = x) ->
  exists r, outgoing_of d' (get_attribute "id" x) = child_texts "outgoing" x ++ r /\
    (NoDup (child_texts "outgoing" x) -> NoDup (child_texts "outgoing" x ++ r)) /\
    (forall g, In g r -> ~ In g (child_texts "outgoing" x) ->
       (exists s f, flow_in root s f /\ get_attribute "sourceRef" f = get_attribute "id" x /\ get_attribute "id" f = g) \/
       (exists f, message_in root f /\ get_attribute "sourceRef" f = get_attribute "id" x /\ get_attribute "id" f = g)).
Proof.
  intros so root d d' s x H D U. destruct (lists_clean_both true so root d d' s x H D U) as (r & Al & I2 & I3).
  exists r. cbn [list_key end_of] in *. split; [unfold outgoing_of; rewrite Al; reflexivity|]. split; [exact I2|].
  intros g Ig Ng. destruct (I3 g Ig) as [?|[?|?]]; [auto|auto|contradiction].
Qed.
Theorem C41_incoming_lists : forall set_order root d d' s x,
  load_diagram_from_xml set_order root d = (d', Ok tt) -> declared root s x ->
  (forall s' y, declared root s' y -> get_attribute "id" y = get_attribute "id" x -> y = x) ->
  exists r, incoming_of d' (get_attribute "id" x) = child_texts "incoming" x ++ r /\
    (NoDup (child_texts "incoming" x) -> NoDup (child_texts "incoming" x ++ r)) /\
    (forall g, In g r -> ~ In g (child_texts "incoming" x) ->
       (exists s f, flow_in root s f /\ get_attribute "targetRef" f = get_attribute "id" x /\ get_attribute "id" f = g) \/
       (exists f, message_in root f /\ get_attribute "targetRef" f = get_attribute "id" x /\ get_attribute "id" f = g)).
Proof.
  intros so root d d' s x H D U. destruct (lists_clean_both false so root d d' s x H D U) as (r & Al & I2 & I3).
  exists r. cbn [list_key end_of] in *. split; [unfold incoming_of; rewrite Al; reflexivity|]. split; [exact I2|].
  intros g Ig Ng. destruct (I3 g Ig) as [?|[?|?]]; [auto|auto|contradiction].
Qed.

(** * C70: the node lists of processes and subprocesses *)
Lemma node_children_filter : forall e, map (get_attribute "id") (filter is_kind (d_kids e)) = node_children e.
Proof.
  intros e. unfold node_children. induction (d_kids e) as [|k ks IH]; [reflexivity|]. cbn [filter flat_map].
  destruct (is_kind k) eqn:K.
  - apply is_kind_spec in K. destruct k as [g a kk|t|t]; [|destruct K as [? [_ []]]|destruct K as [? [_ []]]].
    destruct K as [t [It Nt]]. simpl in Nt. rewrite Nt. destruct (in_dec string_dec t node_kinds) as [_|N]; [|contradiction].
    cbn [map app]. rewrite IH. reflexivity.
  - destruct k as [g a kk|t|t]; [|exact IH|exact IH]. destruct (in_dec string_dec (local_name g) node_kinds) as [I|_]; [|exact IH].
    exfalso. assert (is_kind (DElem g a kk) = true); [|congruence]. apply is_kind_spec. exists (local_name g). split; [exact I|reflexivity].
Qed.
Theorem C70_process_lists : forall set_order root d d' p,
  load_diagram_from_xml set_order root d = (d', Ok tt) -> inside p root -> named "process" p ->
  (forall q, inside q root -> named "process" q -> get_attribute "id" q = get_attribute "id" p -> q = p) ->
  exists a, dget (get_attribute "id" p) (procs d') = Some a /\
    dget "node_ids" a = Some (VList (node_children p)) /\
    dget "id" a = Some (VStr (get_attribute "id" p)) /\
    dget "name" a = Some (att "name" "" p) /\
    dget "isClosed" a = Some (att "isClosed" "false" p) /\
    dget "isExecutable" a = Some (att "isExecutable" "false" p) /\
    dget "processType" a = Some (att "processType" "None" p).
Proof.
  intros so root d d' p H I N U. destruct (load_loaded _ _ _ _ H) as (de & pe & mid & L).
  destruct (loaded_process _ _ _ _ _ _ _ L p I N) as (q & Iq & Nq & Eq & Ids & Oth).
  assert (q = p) by (apply U; assumption). subst q. rewrite node_children_filter in Ids.
  unfold proc_attr in Ids, Oth. destruct (dget (get_attribute "id" p) (procs d')) as [a|]; [|discriminate].
  exists a. split; [reflexivity|]. split; [exact Ids|].
  assert (Pd : forall k, k <> "laneSet" -> dget k (process_dict pe p) = dget k (process_attributes p)).
  { intros k Hk. unfold process_dict. destruct (elements_in "laneSet" p); [reflexivity|]. destruct (import_lanes _ _); [|reflexivity].
    apply dget_dset_ne. exact Hk. }
  rewrite !Oth, !Pd by discriminate. rewrite !att_value. repeat split.
Qed.
Theorem C70_subprocess_lists : forall set_order root d d' x,
  load_diagram_from_xml set_order root d = (d', Ok tt) -> scope root x -> named "subProcess" x ->
  (forall y, scope root y -> named "subProcess" y -> get_attribute "id" y = get_attribute "id" x -> y = x) ->
  attr d' (get_attribute "id" x) "node_ids" = Some (VList (node_children x)).
Proof.
  intros so root d d' x H S N U. destruct (load_loaded _ _ _ _ H) as (de & pe & mid & L).
  rewrite (loaded_subprocess _ _ _ _ _ _ _ L x S N U). rewrite node_children_filter. reflexivity.
Qed.

(** * C71: recorded flows and their connections *)
Lemma conds_spec : forall f cs, collect condition_of (d_kids f) = Ok cs ->
  cs = map (fun c => ("conditionExpression", VCond (fst c) (snd c))) (flow_conditions f).
Proof.
  intros f. unfold flow_conditions. induction (d_kids f) as [|x ks IH]; intros l H; cbn [collect] in H; [inv H; reflexivity|].
  destruct x as [g a kk|t|t]; [| |discriminate]; cbn [flat_map].
  - unfold condition_of at 1, d_local in H. cbn [d_tag] in H. change k_condition_expression with "conditionExpression" in H.
    destruct (local_name g =? "conditionExpression").
    + unfold first_value in H. cbn [d_kids] in H. destruct kk as [|[g' a' k'|t|t] kk]; try discriminate; cbn [rbind] in H;
        destruct (collect condition_of ks) as [z|]; try discriminate; cbn [rbind app] in H; inversion H; subst l; cbn [app map];
        rewrite (IH z eq_refl); reflexivity.
    + cbn [rbind] in H. destruct (collect condition_of ks) as [z|]; try discriminate. cbn [rbind app] in H. inversion H; subst l.
      rewrite (IH z eq_refl). destruct kk as [|[g' a' k'|t|t] kk]; reflexivity.
  - apply IH in H. exact H.
Qed.
Lemma conds_last : forall l k, dget k (rev (map (fun c : string * string => ("conditionExpression", VCond (fst c) (snd c))) l)) =
  if k =? "conditionExpression" then option_map (fun c => VCond (fst c) (snd c)) (last_of l) else None.
Proof.
  intros l k. unfold last_of. rewrite <- map_rev. destruct (String.eqb_spec k "conditionExpression") as [->|N].
  - destruct (rev l); reflexivity.
  - induction (rev l) as [|c r IH]; [reflexivity|]. cbn [map dget]. rewrite (eqb_neq' _ _ N). exact IH.
Qed.

(** The flow is the only one that connects these two nodes. *)
Definition only_connection (root s f : dom) : Prop :=
  (forall s' g, flow_in root s' g -> same_pair (get_attribute "sourceRef" g) (get_attribute "targetRef" g)
                                              (get_attribute "sourceRef" f) (get_attribute "targetRef" f) -> s' = s /\ g = f) /\
  (forall g, message_in root g -> ~ same_pair (get_attribute "sourceRef" g) (get_attribute "targetRef" g)
                                              (get_attribute "sourceRef" f) (get_attribute "targetRef" f)).
Lemma same_pair_sym : forall a b c e, same_pair a b c e -> same_pair c e a b.
Proof. unfold same_pair. intuition. Qed.

Theorem C71_flows : forall set_order root d' s f,
  load_diagram_from_xml set_order root empty_diagram = (d', Ok tt) -> flow_in root s f ->
  (forall s' g, flow_in root s' g -> get_attribute "id" g = get_attribute "id" f -> g = f) ->
  only_connection root s f ->
  flow_described d' s f.
Proof.
  intros so root d' s f H F U [O1 O2]. destruct (load_loaded _ _ _ _ H) as (de & pe & mid & L).
  assert (W : gwf (dgraph d')).
  { pose proof (gwf_load so root empty_diagram gwf_empty) as W. rewrite H in W. exact W. }
  unfold flow_described. cbv zeta.
  assert (R : dget (get_attribute "id" f) (seq_flows d') = Some (flow_record f)).
  { destruct (loaded_flows _ _ _ _ _ _ _ L (get_attribute "id" f)) as [(s' & g & Fg & Eg & Rg)|[No _]].
    - rewrite (U _ _ Fg Eg) in Rg. exact Rg.
    - exfalso. apply (No s f F eq_refl). }
  split; [exact R|].
  set (u := get_attribute "sourceRef" f). set (v := get_attribute "targetRef" f).
  assert (New : edge_new (AFlow (owner_of s) f) u v = true) by apply pair_b_refl.
  assert (Only : forall a, In a (core_actions root) -> edge_new a u v = true -> a = AFlow (owner_of s) f).
  { intros a Ia Na. pose proof (core_explained root) as X. rewrite Forall_forall in X. specialize (X a Ia).
    destruct a as [e|o e|o g| |c|g|g]; try discriminate; cbn [edge_new] in Na; apply pair_b_spec in Na; apply same_pair_sym in Na.
    - destruct X as [s' [X ->]]. destruct (O1 _ _ X Na) as [-> ->]. reflexivity.
    - exfalso. apply (O2 _ X Na). }
  (* the connection's attributes are exactly those of the flow, and the waypoints *)
  destruct L as [_ E _ D _].
  assert (Av : forall k, k <> "waypoints" -> k <> "name" -> edge_attr d' u v k = dget k (rev (edge_fields (AFlow (owner_of s) f)))).
  { intros k K1 K2. rewrite (ds_edge _ _ _ _ D).
    assert (Ln : forall X y, fold_left (fun v0 x => line_attr mid x u v k v0) X y = y).
    { induction X as [|x X IHX]; intros y0; [reflexivity|]. cbn [fold_left]. rewrite IHX. unfold line_attr.
      destruct (_ =? _); [|reflexivity]. destruct (known_flow mid (elt x)) as [r|]; [|reflexivity].
      destruct (pair_b _ _ _ _); [|reflexivity]. unfold overlay, line_fields. cbn [rev app dget].
      rewrite (eqb_neq' _ _ K1), (eqb_neq' _ _ K2). reflexivity. }
    rewrite Ln, (es_edge _ _ _ _ _ E). change (edge_attr (start de pe empty_diagram) u v k) with (@None pyval).
    assert (Fo : forall A y, incl A (core_actions root) -> (y = None \/ y = dget k (rev (edge_fields (AFlow (owner_of s) f)))) ->
       fold_left (fun y a => edge_eff a u v k y) A y =
       if existsb (fun a => edge_new a u v) A then dget k (rev (edge_fields (AFlow (owner_of s) f))) else y).
    { induction A as [|a A IHA]; intros y In_ Hy; [reflexivity|]. cbn [fold_left existsb].
      assert (InA : incl A (core_actions root)) by (intros b Hb; apply In_; right; exact Hb).
      unfold edge_eff at 2. destruct (edge_new a u v) eqn:Ea; cbn [orb].
      - rewrite (Only a (In_ a (or_introl eq_refl)) Ea). unfold overlay.
        rewrite IHA; [|exact InA|].
        + destruct (existsb _ A); [reflexivity|].
          destruct Hy as [-> | ->]; destruct (dget k (rev (edge_fields (AFlow (owner_of s) f)))); reflexivity.
        + right. destruct Hy as [-> | ->]; destruct (dget k (rev (edge_fields (AFlow (owner_of s) f)))); reflexivity.
      - apply IHA; assumption. }
    rewrite Fo; [|apply incl_refl|left; reflexivity].
    replace (existsb (fun a => edge_new a u v) (core_actions root)) with true; [reflexivity|].
    symmetry. apply existsb_exists. exists (AFlow (owner_of s) f). split; [apply flow_action; exact F|exact New]. }
  assert (Cs : exists cs, collect condition_of (d_kids f) = Ok cs /\ conds f = cs).
  { destruct (load_loaded _ _ _ _ H) as (de2 & pe2 & mid2 & [_ _ _ _ R2]).
    destruct (R2 _ (flow_action _ _ _ F)) as [d0 [cs [C _]]]. exists cs. split; [exact C|]. unfold conds. rewrite C. reflexivity. }
  destruct Cs as [cs [Cs1 Cs2]]. apply conds_spec in Cs1. rewrite Cs1 in Cs2.
  assert (Fl : forall k, dget k (rev (edge_fields (AFlow (owner_of s) f))) =
     match (if k =? "conditionExpression" then option_map (fun c => VCond (fst c) (snd c)) (last_of (flow_conditions f)) else None) with
     | Some x => Some x | None => dget k (rev (flow_fields (owner_of s) f)) end).
  { intros k. cbn [edge_fields]. rewrite rev_app_distr, dget_app, Cs2, conds_last. reflexivity. }
  split; [apply (edge_attr_link _ _ _ _ _ W); rewrite Av, Fl by discriminate; reflexivity|].
  split; [apply (edge_attr_link _ _ _ _ _ W); rewrite Av, Fl by discriminate; cbn; rewrite owner_of_id; reflexivity|].
  split.
  2: { split; [apply (edge_attr_link _ _ _ _ _ W); rewrite Av, Fl by discriminate; reflexivity|].
       split; [apply (edge_attr_link _ _ _ _ _ W); rewrite Av, Fl by discriminate; reflexivity|].
       intros x. rewrite <- (edge_attr_link _ _ _ _ _ W). rewrite Av, Fl by discriminate. cbn [String.eqb Ascii.eqb Bool.eqb].
       destruct (last_of (flow_conditions f)) as [c|]; cbn [option_map].
       - split; [intros Y; inv Y; eauto|]. intros [c' [Y ->]]. inv Y. reflexivity.
       - split; [intros Y; discriminate|]. intros [c' [Y _]]. discriminate. }
  (* the name is written again with the waypoints *)
  apply (edge_attr_link _ _ _ _ _ W). rewrite (ds_edge _ _ _ _ D).
  assert (Nm : edge_attr mid u v "name" = Some (VStr (attribute_or "name" "" f))).
  { rewrite (es_edge _ _ _ _ _ E).
    destruct (last_split _ (fun a => edge_new a u v) (core_actions root)) as (A1 & a & A2 & EA & Ha & Last).
    { apply existsb_exists. exists (AFlow (owner_of s) f). split; [apply flow_action; exact F|exact New]. }
    rewrite EA, fold_left_app. cbn [fold_left]. rewrite edges_other by exact Last. unfold edge_eff. rewrite Ha.
    rewrite (Only a); [|rewrite EA; apply in_elt|exact Ha]. unfold overlay. rewrite Fl. reflexivity. }
  rewrite Nm. fold (attribute_or "name" "" f).
  assert (Kn : forall g r, known_flow mid g = Some r -> pair_b u v (fl_src r) (fl_tgt r) = true -> fl_name r = attribute_or "name" "" f).
  { intros g r K Pr. unfold known_flow in K. destruct (dget g (seq_flows mid)) as [r1|] eqn:Er.
    - inv K. destruct (load_loaded _ _ _ _ H) as (de2 & pe2 & mid2 & L2).
      destruct (loaded_flows _ _ _ _ _ _ _ L2 g) as [(s' & g' & Fg & Eg & Rg)|[_ Rg]].
      + rewrite (ds_flows _ _ _ _ D), Er in Rg. inv Rg. cbn [flow_record fl_src fl_tgt] in Pr. apply pair_b_spec in Pr.
        destruct (O1 _ _ Fg (same_pair_sym _ _ _ _ Pr)) as [_ ->]. reflexivity.
      + rewrite (ds_flows _ _ _ _ D), Er in Rg. discriminate.
    - destruct (collaboration mid) as [c|] eqn:Ec; [|discriminate]. rewrite (es_collab _ _ _ _ _ E) in Ec.
      change (collaboration (start de pe empty_diagram)) with (@None collab) in Ec.
      assert (Me : forall A c0 c1, incl A (core_actions root) ->
         (forall c, c0 = Some c -> forall g r, dget g (co_messages c) = Some r -> exists m, message_in root m /\ r = flow_record m) ->
         fold_left (fun c a => collab_eff a c) A c0 = Some c1 ->
         forall g r, dget g (co_messages c1) = Some r -> exists m, message_in root m /\ r = flow_record m).
      { induction A as [|a A IHA]; intros c0 c1 In_ Hc Hf; [cbn [fold_left] in Hf; eauto|].
        cbn [fold_left] in Hf. refine (IHA _ _ (fun b Hb => In_ b (or_intror Hb)) _ Hf).
        intros c2 Ec2 g2 r2 G2. pose proof (core_explained root) as X. rewrite Forall_forall in X. specialize (X a (In_ a (or_introl eq_refl))).
        destruct a as [e|o e|o x| |e|x|x]; cbn [collab_eff] in Ec2; eauto.
        - inv Ec2. discriminate.
        - destruct c0 as [c3|]; [|discriminate]. inv Ec2. cbn [co_messages] in G2. eauto.
        - destruct c0 as [c3|]; [|discriminate]. inv Ec2. cbn [co_messages] in G2. rewrite dget_dset in G2.
          destruct (g2 =? get_attribute "id" x); [inv G2; exists x; auto|eauto]. }
      assert (No : forall c, @None collab = Some c -> forall g r, dget g (co_messages c) = Some r -> exists m, message_in root m /\ r = flow_record m)
        by (intros c2 Q; discriminate Q).
      destruct (Me _ _ _ (incl_refl _) No Ec g r K) as [m [Mm ->]].
      exfalso. apply pair_b_spec in Pr. apply (O2 m Mm). apply same_pair_sym. exact Pr. }
  assert (Ln : forall X, fold_left (fun v0 x => line_attr mid x u v "name" v0) X (Some (VStr (attribute_or "name" "" f))) =
     Some (VStr (attribute_or "name" "" f))).
  { induction X as [|x X IHX]; [reflexivity|]. cbn [fold_left].
    replace (line_attr mid x u v "name" (Some (VStr (attribute_or "name" "" f)))) with (Some (VStr (attribute_or "name" "" f))); [exact IHX|].
    unfold line_attr. destruct (_ =? _); [|reflexivity]. destruct (known_flow mid (elt x)) as [r|] eqn:K; [|reflexivity].
    destruct (pair_b u v (fl_src r) (fl_tgt r)) eqn:Pr; [|reflexivity]. unfold overlay, line_fields. cbn.
    rewrite (Kn _ _ K Pr). reflexivity. }
  apply Ln.
Qed.

(** * C43: comments *)
Theorem C43_comments_fail : forall set_order root d e c, walked root e -> In (DOther c) (d_kids e) ->
  forall d', load_diagram_from_xml set_order root d <> (d', Ok tt).
Proof.
  intros so root d e c W I d' H. destruct (load_loaded _ _ _ _ H) as (de & pe & mid & [[Hd Hp] _ R _ Run]).
  assert (Fail : In AFail (core_actions root) -> False).
  { intros F. destruct (Run _ F) as [d0 []]. }
  assert (FA : forall s, In (DOther c) (d_kids s) -> In AFail (flow_actions (owner_of s) s)).
  { intros s Is. unfold flow_actions. apply in_flat_map. exists (DOther c). split; [exact Is|left; reflexivity]. }
  inversion W as [s Hs|s x D|s x F|x C|g p r1 r2 E1 E2]; subst.
  - apply Fail. apply (scope_actions_in_core _ _ Hs). unfold scope_actions. apply in_or_app. right. apply FA. exact I.
  - destruct (Run _ (declared_action _ _ _ D)) as [d0 [_ (ins & outs & H1 & _)]]. rewrite reference_list_collect in H1.
    apply (collect_no_other _ _ _ _ H1 c I).
  - destruct (Run _ (flow_action _ _ _ F)) as [d0 [cs [C _]]]. apply (collect_no_other _ _ _ _ C c I).
  - apply Fail. eapply collab_in_core; [exact C|]. right. apply in_flat_map. exists (DOther c). split; [exact I|left; reflexivity].
  - rewrite E1 in Hd. inv Hd. rewrite E2 in Hp. inv Hp. rewrite Forall_forall in R. apply (R _ I).
Qed.

(** Comments directly below a root element that is not itself walked do no harm. *)
Definition is_comment (x : dom) : bool := match x with DOther _ => true | _ => false end.
Lemma document_no_comments : forall t g a ks, local_name g <> t ->
  document_elements t (DElem g a (filter (fun x => negb (is_comment x)) ks)) = document_elements t (DElem g a ks).
Proof.
  intros t g a ks N. unfold document_elements. rewrite (eqb_neq' _ _ N). cbn [app elements_in].
  induction ks as [|k ks IH]; [reflexivity|]. cbn [filter]. destruct k as [g' a' k'|s|s]; cbn [is_comment negb flat_map].
  - rewrite IH. reflexivity.
  - exact IH.
  - exact IH.
Qed.
Theorem C43_comments_below_root : forall set_order g a ks d,
  ~ In (local_name g) ["process"; "collaboration"; "BPMNDiagram"] ->
  load_diagram_from_xml set_order (DElem g a ks) d =
  load_diagram_from_xml set_order (DElem g a (filter (fun x => negb (is_comment x)) ks)) d.
Proof.
  intros so g a ks d N. rewrite !load_actions. unfold core_actions. change k_process with "process".
  change t_collaboration with "collaboration".
  rewrite !document_no_comments; [reflexivity| | |]; intros E; apply N; rewrite E; simpl; auto.
Qed.

(** * Enumerating what a document declares, to check hypotheses on concrete documents *)
Definition scopes (root : dom) : list dom :=
  flat_map (fun p => p :: flat_map subs (d_kids p)) (document_elements "process" root).
Lemma subs_closed : forall e y x, In y (subs e) -> In x (d_kids y) -> named "subProcess" x -> In x (subs e).
Proof.
  induction e as [g a ks IH|t|t] using dom_rect'; intros y x I J N; cbn [subs] in *; try destruct I.
  destruct (local_name g =? "subProcess"); [|destruct I]. right. apply in_flat_map. destruct I as [<- |I].
  - exists x. split; [exact J|]. destruct x as [g' a' k'|t|t]; [|destruct N|destruct N]. simpl in N. cbn [subs].
    rewrite N, eqb_refl'. left. reflexivity.
  - apply in_flat_map in I. destruct I as [k [I1 I2]]. exists k. split; [exact I1|]. rewrite Forall_forall in IH. eauto.
Qed.
Lemma scope_list : forall root s, scope root s -> In s (scopes root).
Proof.
  intros root s S. unfold scopes. apply in_flat_map. induction S as [p I N|s x S [p [I1 I2]] J N].
  - exists p. split; [apply in_document; auto|left; reflexivity].
  - exists p. split; [exact I1|]. right. apply in_flat_map. destruct I2 as [<- |I2].
    + exists x. split; [exact J|]. destruct x as [g' a' k'|t|t]; [|destruct N|destruct N]. simpl in N. cbn [subs].
      rewrite N, eqb_refl'. left. reflexivity.
    + apply in_flat_map in I2. destruct I2 as [k [K1 K2]]. exists k. split; [exact K1|]. eapply subs_closed; eauto.
Qed.
Definition declarations (root : dom) : list (dom * dom) :=
  flat_map (fun s => map (pair s) (filter is_kind (d_kids s))) (scopes root).
Lemma declared_list : forall root s x, declared root s x -> In (s, x) (declarations root).
Proof.
  intros root s x (S & I & K). unfold declarations. apply in_flat_map. exists s. split; [apply scope_list; exact S|].
  apply in_map. apply filter_In. split; [exact I|]. apply is_kind_spec. exact K.
Qed.
Definition flow_elements (root : dom) : list (dom * dom) :=
  flat_map (fun s => map (pair s) (filter (fun x => d_local x =? "sequenceFlow") (d_kids s))) (scopes root).
Lemma flow_list : forall root s x, flow_in root s x -> In (s, x) (flow_elements root).
Proof.
  intros root s x (S & I & N). unfold flow_elements. apply in_flat_map. exists s. split; [apply scope_list; exact S|].
  apply in_map. apply filter_In. split; [exact I|]. destruct x as [g a ks|t|t]; [|destruct N|destruct N].
  simpl in N. unfold d_local. cbn [d_tag]. rewrite N. reflexivity.
Qed.

(** * A document *)
Definition t_text (k s : string) : dom := DElem k [] [DText s].
Definition e_start : dom := DElem "semantic:startEvent" [("id", "s")]
  [t_text "semantic:outgoing" "f1"; DElem "semantic:messageEventDefinition" [("id", "m1")] []].
Definition e_inner : dom := DElem "userTask" [("id", "u"); ("name", "Check"); ("default", "f9")] [].
Definition e_gate : dom := DElem "eventBasedGateway" [("id", "g"); ("instantiate", "true")] [].
Definition e_flow3 : dom := DElem "sequenceFlow" [("id", "f3"); ("sourceRef", "g"); ("targetRef", "u"); ("name", "again")] [].
Definition e_sub : dom := DElem "subProcess" [("id", "sub")] [DText " "; e_inner; e_gate; e_flow3].
Definition e_end : dom := DElem "endEvent" [("id", "e")] [DText " "; t_text "incoming" "f2"].
Definition e_flow1 : dom := DElem "sequenceFlow" [("id", "f1"); ("sourceRef", "s"); ("targetRef", "sub")] [].
Definition e_flow2 : dom := DElem "sequenceFlow" [("id", "f2"); ("sourceRef", "sub"); ("targetRef", "e"); ("name", "done")]
  [DElem "conditionExpression" [("id", "c")] [DText "x > 1"]].
Definition e_process : dom := DElem "semantic:process" [("id", "p"); ("isExecutable", "true")]
  [DText " "; e_start; e_sub; DElem "textAnnotation" [("id", "t")] []; e_end; e_flow1; e_flow2].
Definition e_plane : dom := DElem "bpmndi:BPMNPlane" [("id", "plane")]
  [DText " "; DElem "BPMNShape" [("id", "s_gui"); ("bpmnElement", "s")]
     [DElem "Bounds" [("x", "1"); ("y", "2"); ("width", "3"); ("height", "4")] []];
   DElem "BPMNEdge" [("id", "f1_gui"); ("bpmnElement", "f1")]
     [DElem "waypoint" [("x", "1"); ("y", "2")] []; DElem "waypoint" [("x", "5"); ("y", "6")] []]].
Definition a_document : dom := DElem "semantic:definitions" []
  [DOther "made by hand"; e_process; DElem "bpmndi:BPMNDiagram" [("id", "dia")] [e_plane]].
Definition loaded_document : diagram := fst (load_diagram_from_xml (fun l => l) a_document empty_diagram).
Example document_loads : load_diagram_from_xml (fun l => l) a_document empty_diagram = (loaded_document, Ok tt).
Proof. vm_compute. reflexivity. Qed.
Lemma in_process : scope a_document e_process.
Proof.
  apply scope_process; [|reflexivity]. eapply inside_below; [|apply inside_here]. right. left. reflexivity.
Qed.
Lemma in_sub : scope a_document e_sub.
Proof. eapply scope_sub; [exact in_process| |reflexivity]. simpl. auto. Qed.
Ltac from_list H := vm_compute in H;
  repeat match type of H with _ \/ _ => destruct H as [H|H] end;
  match type of H with False => destruct H | _ => inversion H; subst end.
Lemma inner_declared : declared a_document e_sub e_inner.
Proof. split; [exact in_sub|]. split; [simpl; auto|]. exists "userTask". split; [simpl; auto|reflexivity]. Qed.
Lemma start_declared : declared a_document e_process e_start.
Proof. split; [exact in_process|]. split; [simpl; auto|]. exists "startEvent". split; [simpl; auto 20|reflexivity]. Qed.
Lemma no_participants : forall y, ~ participant_in a_document y.
Proof. intros y (c & C & _). vm_compute in C. discriminate C. Qed.
Lemma no_messages : forall y, ~ message_in a_document y.
Proof. intros y (c & C & _). vm_compute in C. discriminate C. Qed.

(** C42: the nodes of the document. *)
Example C42_nodes_example : map fst (gnodes (dgraph loaded_document)) = ["s"; "sub"; "u"; "g"; "e"] /\
  is_node loaded_document "u" /\ ~ is_node loaded_document "t".
Proof.
  split; [vm_compute; reflexivity|]. split.
  - refine (proj2 (C42_nodes _ _ _ _ document_loads "u") _). right. left. exists e_sub, e_inner. split; [exact inner_declared|reflexivity].
  - intros N. destruct (proj1 (C42_nodes _ _ _ _ document_loads "t") N) as [N'|[(s & x & D & E)|[(s & f & D & E)|[(x & D & _)|(f & D & _)]]]].
    + destruct N'.
    + apply declared_list in D. from_list D; discriminate E.
    + apply flow_list in D. from_list D; destruct E as [E|E]; discriminate E.
    + apply (no_participants _ D).
    + apply (no_messages _ D).
Qed.
(** C44: the nested user task and the start event. *)
Example C44_attributes_example : described loaded_document e_sub e_inner /\ described loaded_document e_process e_start /\
  attr loaded_document "u" "default" = Some (VStr "f9") /\
  attr loaded_document "u" "process" = Some (VStr "sub") /\
  attr loaded_document "s" "isInterrupting" = Some (VStr "true") /\
  attr loaded_document "s" "event_definitions" = Some (VDefs [("m1", "messageEventDefinition")]).
Proof.
  split; [|split; [|repeat split; vm_compute; reflexivity]].
  - eapply C44_attributes; [intros l; apply Permutation_refl|exact document_loads|exact inner_declared| |].
    + intros s' x' D E. apply declared_list in D. from_list D; try discriminate E. split; reflexivity.
    + intros y P. destruct (no_participants y P).
  - eapply C44_attributes; [intros l; apply Permutation_refl|exact document_loads|exact start_declared| |].
    + intros s' x' D E. apply declared_list in D. from_list D; try discriminate E. split; reflexivity.
    + intros y P. destruct (no_participants y P).
Qed.
Example C42_declared_example : exists s' x', declared a_document s' x' /\ get_attribute "id" x' = "u" /\ described loaded_document s' x'.
Proof.
  apply (C42_declared (fun l => l) a_document empty_diagram loaded_document e_sub e_inner).
  - intros l; apply Permutation_refl.
  - exact document_loads.
  - exact inner_declared.
  - intros y P. destruct (no_participants y P).
Qed.
(** C41: the flow f3 of the subprocess is listed by neither of its ends in the document. *)
Example C41_registered_example :
  In "f3" (outgoing_of loaded_document "g") /\ In "f3" (incoming_of loaded_document "u").
Proof.
  apply (C41_registered_at_both_ends (fun l => l) a_document empty_diagram loaded_document e_sub e_flow3 e_gate e_inner).
  - exact document_loads.
  - split; [exact in_sub|]. split; [simpl; auto|reflexivity].
  - split; [exact in_sub|]. split; [simpl; auto|]. exists "eventBasedGateway". split; [simpl; auto 20|reflexivity].
  - reflexivity.
  - exact inner_declared.
  - reflexivity.
  - intros s' z D E. apply declared_list in D. from_list D; try discriminate E. reflexivity.
  - intros s' z D E. apply declared_list in D. from_list D; try discriminate E. reflexivity.
Qed.
Example C41_lists_example : exists r, outgoing_of loaded_document "s" = child_texts "outgoing" e_start ++ r /\
  child_texts "outgoing" e_start = ["f1"] /\ NoDup (child_texts "outgoing" e_start ++ r).
Proof.
  destruct (C41_outgoing_lists (fun l => l) a_document empty_diagram loaded_document e_process e_start document_loads start_declared)
    as (r & E & N & _).
  - intros s' z D E. apply declared_list in D. from_list D; try discriminate E. reflexivity.
  - exists r. split; [exact E|]. split; [reflexivity|]. apply N. repeat constructor. intros [].
Qed.
Example C41_incoming_example : incoming_of loaded_document "e" = ["f2"] /\ incoming_of loaded_document "sub" = ["f1"].
Proof. vm_compute. split; reflexivity. Qed.
(** C41 without the hypothesis that the ends are declared in the scope of the flow: a flow
    of a subprocess to a node the process declares later is not among its incoming flows,
    for the declaration overwrites the list. *)
Definition early_flow : dom := DElem "sequenceFlow" [("id", "f"); ("sourceRef", "u"); ("targetRef", "late")] [].
Definition early_sub : dom := DElem "subProcess" [("id", "sub")] [DElem "task" [("id", "u")] []; early_flow].
Definition late_task : dom := DElem "task" [("id", "late")] [].
Definition early_process : dom := DElem "process" [("id", "p")] [early_sub; late_task].
Definition early_document : dom :=
  DElem "definitions" [] [early_process; DElem "BPMNDiagram" [] [DElem "BPMNPlane" [] []]].
Theorem C41_any_declared_ends_refuted : exists root d' s f s' y,
  load_diagram_from_xml (fun l => l) root empty_diagram = (d', Ok tt) /\ flow_in root s f /\
  declared root s' y /\ get_attribute "id" y = get_attribute "targetRef" f /\
  ~ In (get_attribute "id" f) (incoming_of d' (get_attribute "targetRef" f)).
Proof.
  exists early_document, (fst (load_diagram_from_xml (fun l => l) early_document empty_diagram)), early_sub, early_flow,
         early_process, late_task.
  assert (S : scope early_document early_process).
  { apply scope_process; [|reflexivity]. eapply inside_below; [|apply inside_here]. left. reflexivity. }
  split; [vm_compute; reflexivity|]. split.
  { split; [eapply scope_sub; [exact S| |reflexivity]; left; reflexivity|]. split; [simpl; auto|reflexivity]. }
  split.
  { split; [exact S|]. split; [simpl; auto|]. exists "task". split; [simpl; auto|reflexivity]. }
  split; [reflexivity|]. vm_compute. intros [].
Qed.

(** C70 on the process and the subprocess of the document. *)
Example C70_example : attr loaded_document "sub" "node_ids" = Some (VList ["u"; "g"]) /\
  exists a, dget "p" (procs loaded_document) = Some a /\ dget "node_ids" a = Some (VList ["s"; "sub"; "e"]) /\
    dget "isExecutable" a = Some (VStr "true").
Proof.
  split.
  - apply (C70_subprocess_lists (fun l => l) a_document empty_diagram loaded_document e_sub document_loads in_sub eq_refl).
    intros y S N E. apply scope_list in S. from_list S; try discriminate E. reflexivity.
  - destruct (C70_process_lists (fun l => l) a_document empty_diagram loaded_document e_process document_loads) as (a & A & B & _ & _ & _ & C & _).
    + eapply inside_below; [|apply inside_here]. right. left. reflexivity.
    + reflexivity.
    + intros q I N E. assert (S : scope a_document q) by (apply scope_process; assumption). apply scope_list in S.
      from_list S; try discriminate E. reflexivity.
    + exists a. auto.
Qed.
(** C71 on a flow with a condition and one with a line. *)
Example C71_example : flow_described loaded_document e_process e_flow2 /\ flow_described loaded_document e_process e_flow1.
Proof.
  split; apply (C71_flows (fun l => l) a_document); try exact document_loads.
  - split; [exact in_process|]. split; [simpl; auto 10|reflexivity].
  - intros s' g F E. apply flow_list in F. from_list F; try discriminate E. reflexivity.
  - split; [|intros g M; destruct (no_messages g M)].
    intros s' g F E. apply flow_list in F. from_list F; destruct E as [[E1 E2]|[E1 E2]]; try discriminate E1; try discriminate E2.
    split; reflexivity.
  - split; [exact in_process|]. split; [simpl; auto 10|reflexivity].
  - intros s' g F E. apply flow_list in F. from_list F; try discriminate E. reflexivity.
  - split; [|intros g M; destruct (no_messages g M)].
    intros s' g F E. apply flow_list in F. from_list F; destruct E as [[E1 E2]|[E1 E2]]; try discriminate E1; try discriminate E2.
    split; reflexivity.
Qed.
(** C71 without [only_connection]: a flow back along the same pair of nodes overwrites the
    attributes of the connection. *)
Definition there : dom := DElem "sequenceFlow" [("id", "f"); ("sourceRef", "a"); ("targetRef", "b")] [].
Definition back : dom := DElem "sequenceFlow" [("id", "h"); ("sourceRef", "b"); ("targetRef", "a")] [].
Definition loop_process : dom :=
  DElem "process" [("id", "p")] [DElem "task" [("id", "a")] []; DElem "task" [("id", "b")] []; there; back].
Definition loop_document : dom := DElem "definitions" [] [loop_process; DElem "BPMNDiagram" [] [DElem "BPMNPlane" [] []]].
Theorem C71_any_flow_refuted : exists root d' s f,
  load_diagram_from_xml (fun l => l) root empty_diagram = (d', Ok tt) /\ flow_in root s f /\
  (forall s' g, flow_in root s' g -> get_attribute "id" g = get_attribute "id" f -> g = f) /\
  edge_attr d' (get_attribute "sourceRef" f) (get_attribute "targetRef" f) "id" <> Some (VStr (get_attribute "id" f)).
Proof.
  exists loop_document, (fst (load_diagram_from_xml (fun l => l) loop_document empty_diagram)), loop_process, there.
  split; [vm_compute; reflexivity|]. split.
  { split; [|split; [simpl; auto|reflexivity]]. apply scope_process; [|reflexivity].
    eapply inside_below; [|apply inside_here]. left. reflexivity. }
  split; [|vm_compute; discriminate].
  intros s' g F E. apply flow_list in F. from_list F; try discriminate E. reflexivity.
Qed.

(** C43: a comment in a process, and the comment at the top of the document above. *)
Definition commented : dom := DElem "definitions" []
  [DElem "process" [("id", "p")] [DElem "task" [("id", "a")] []; DOther "note"]; DElem "BPMNDiagram" [] [DElem "BPMNPlane" [] []]].
Definition uncommented : dom := DElem "definitions" []
  [DElem "process" [("id", "p")] [DElem "task" [("id", "a")] []]; DElem "BPMNDiagram" [] [DElem "BPMNPlane" [] []]].
Theorem C43_comments_ignored_refuted : exists g a ps qs rest,
  let with_comment := DElem g a (DElem "process" ps (qs ++ [DOther "note"]) :: rest) in
  let without := DElem g a (DElem "process" ps qs :: rest) in
  snd (load_diagram_from_xml (fun l => l) without empty_diagram) = Ok tt /\
  snd (load_diagram_from_xml (fun l => l) with_comment empty_diagram) = Err AttributeError.
Proof.
  exists "definitions", [], [("id", "p")], [DElem "task" [("id", "a")] []], [DElem "BPMNDiagram" [] [DElem "BPMNPlane" [] []]].
  vm_compute. split; reflexivity.
Qed.
Example C43_fail_example : forall d d', load_diagram_from_xml (fun l => l) commented d <> (d', Ok tt).
Proof.
  intros d. apply (C43_comments_fail _ _ _ (DElem "process" [("id", "p")] [DElem "task" [("id", "a")] []; DOther "note"]) "note").
  - apply walked_scope, scope_process; [|reflexivity]. eapply inside_below; [|apply inside_here]. left. reflexivity.
  - simpl. auto.
Qed.
Example C43_root_example : ~ In (local_name "semantic:definitions") ["process"; "collaboration"; "BPMNDiagram"] /\
  In (DOther "made by hand") (d_kids a_document).
Proof. split; [simpl; intuition discriminate|left; reflexivity]. Qed.

Print Assumptions C42_nodes.
Print Assumptions C42_declared.
Print Assumptions C44_attributes.
Print Assumptions C41_registered_at_both_ends.
Print Assumptions C41_outgoing_lists.
Print Assumptions C41_incoming_lists.
Print Assumptions C41_any_declared_ends_refuted.
Print Assumptions C43_comments_fail.
Print Assumptions C43_comments_below_root.
Print Assumptions C43_comments_ignored_refuted.
Print Assumptions C70_process_lists.
Print Assumptions C70_subprocess_lists.
Print Assumptions C71_flows.
Print Assumptions C71_any_flow_refuted.
