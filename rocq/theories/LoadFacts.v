(** What a successful load leaves behind, read off the folds of ActionFacts and DiFacts. *)
From Coq Require Import String List Bool Arith Lia Permutation.
From Verif Require Import Py PyFacts Consts Nx NxFacts Rep SpecRep RepFacts CsvRegex CsvImport CsvFacts Xml Import XmlOps
  ImportFacts ActionFacts DiFacts SpecXml XmlScopes.
Import ListNotations.
Open Scope string_scope.
Open Scope list_scope.

Section Load.
Variable set_order : list string -> list string.
Notation act := (act set_order).
Notation load := (load_diagram_from_xml set_order).
Notation attr_eff := (attr_eff set_order).
Notation all_fields := (all_fields set_order).

(** * The graph stays well-formed *)
Lemma gwf_register : forall n k f, keeps gwf_d (register_flow n k f).
Proof using. clear set_order.
  intros. unfold register_flow. apply keeps_bind; [apply keeps_read|intros a].
  apply keeps_bind; [destruct (dhas k a); [apply keeps_ret|apply gwf_node_set]|intros _].
  apply keeps_bind; [apply keeps_read|intros v]. destruct v; try apply keeps_raise.
  destruct (smem f l); [apply keeps_ret|apply gwf_append].
Qed.
Lemma gwf_append_id : forall o x, keeps gwf_d (append_node_id o x).
Proof using. clear set_order.
  intros [p|s] x; [|apply gwf_append]. intros d H. unfold append_node_id, mtry.
  destruct (dgetE p (procs d)) as [a|]; [|exact H]. cbn [rbind]. destruct (dgetE k_node_ids a) as [v|]; [|exact H].
  cbn [rbind]. destruct v; exact H.
Qed.
Lemma gwf_set_all : forall n l, keeps gwf_d (set_all n l).
Proof using. clear set_order. intros. apply keeps_for. intros. apply gwf_node_set. Qed.
Lemma keeps_ext : forall (P : diagram -> Prop) A (m m' : MD A), (forall d, m d = m' d) -> keeps P m' -> keeps P m.
Proof using. clear set_order. intros P A m m' E H d Hd. rewrite E. apply H. exact Hd. Qed.
Lemma gwf_import_node : forall o e, keeps gwf_d (import_node set_order o e).
Proof.
  intros o e. destruct (smem (d_local e) node_types) eqn:T.
  - eapply keeps_ext; [intros d; apply import_node_specific; exact T|].
    apply keeps_bind; [|intros; apply gwf_set_all].
    eapply keeps_ext; [intros; apply import_flow_node_split|].
    repeat (apply keeps_bind; [first [apply gwf_add_node|apply gwf_set_all|apply gwf_append_id|apply keeps_read|apply gwf_node_set]|intros ?]).
    apply gwf_node_set.
  - rewrite import_node_other by exact T. apply keeps_ret.
Qed.
Lemma gwf_import_flow : forall o e, keeps gwf_d (import_sequence_flow_to_graph o e).
Proof using. clear set_order.
  intros. unfold import_sequence_flow_to_graph. apply keeps_bind; [apply keeps_modify; intros d H; exact H|intros _].
  repeat (apply keeps_bind; [first [apply gwf_add_edge|apply gwf_edge_set|apply gwf_register]|intros ?]).
  apply keeps_bind.
  - apply keeps_each. intros y. destruct (_ =? _); [|apply keeps_ret]. apply keeps_bind; [apply keeps_read|intros; apply gwf_edge_set].
  - intros _. apply keeps_bind; [apply gwf_register|intros; apply gwf_register].
Qed.
Lemma gwf_set_participant : forall i a d, gwf_d d -> gwf_d (set_participant i a d).
Proof using. clear set_order. intros. unfold set_participant. destruct (collaboration d); exact H. Qed.
Lemma gwf_act : forall plane a, keeps gwf_d (act plane a).
Proof.
  intros plane [e|o e|o x| |c|x|x]; cbn [ImportFacts.act].
  - apply keeps_bind; [apply keeps_modify; intros d H; exact H|intros _]. unfold import_lane_sets.
    destruct (elements_in k_lane_set e) as [|ls r]; [apply keeps_ret|]. apply keeps_bind; [apply keeps_read|intros l].
    intros d H. unfold mtry. destruct (dgetE _ (procs d)); exact H.
  - apply gwf_import_node.
  - apply gwf_import_flow.
  - apply keeps_raise.
  - apply keeps_modify. intros d H. exact H.
  - unfold import_participant_element. apply keeps_bind.
    + destruct (_ =? _); [|apply keeps_ret]. apply keeps_bind; [apply gwf_add_node|intros _].
      apply keeps_bind; intros; apply gwf_node_set.
    + intros _. apply keeps_modify. apply gwf_set_participant.
  - unfold import_message_flow_to_graph. apply keeps_bind.
    + apply keeps_modify. intros d H. unfold gwf_d. rewrite (proj1 (set_message_frame _ _ _)). exact H.
    + intros _. repeat (apply keeps_bind; [first [apply gwf_add_edge|apply gwf_edge_set|apply gwf_register]|intros ?]).
      apply gwf_register.
Qed.
Lemma gwf_di_step : forall x, keeps gwf_d (di_step x).
Proof using. clear set_order.
  intros [g a ks|s|s]; [|apply keeps_ret|apply keeps_raise]. unfold di_step.
  destruct (_ =? _).
  - unfold import_shape_di. apply keeps_bind; [apply keeps_read|intros b]. apply keeps_bind; [apply keeps_read|intros kn].
    apply keeps_bind.
    + destruct kn; [|apply keeps_ret]. do 2 (apply keeps_bind; [apply gwf_node_set|intros _]).
      apply keeps_bind; [apply keeps_read|intros t]. apply keeps_bind; [destruct (veqs _ _); [apply gwf_node_set|apply keeps_ret]|intros _].
      apply keeps_bind; intros; apply gwf_node_set.
    + intros _. apply keeps_modify. intros d H. destruct (collaboration d) as [c|]; [|exact H].
      destruct (dget _ (co_participants c)); [|exact H]. apply gwf_set_participant. exact H.
  - destruct (_ =? _); [|apply keeps_ret]. unfold import_flow_di. apply keeps_bind; [apply keeps_read|intros r].
    destruct r; [|apply keeps_ret]. apply keeps_bind; intros; apply gwf_edge_set.
Qed.
Lemma gwf_load : forall root, keeps gwf_d (load root).
Proof.
  intros root. eapply keeps_ext; [intros; apply load_actions|].
  apply keeps_bind; [apply keeps_read|intros de]. apply keeps_bind; [apply keeps_read|intros pe].
  apply keeps_bind.
  - unfold import_diagram_and_plane_attributes. apply keeps_bind; intros; apply keeps_modify; intros d H; exact H.
  - intros _. apply keeps_bind; [apply keeps_for; apply gwf_act|intros _].
    eapply keeps_ext; [intros; apply import_di_steps|]. apply keeps_for. apply gwf_di_step.
Qed.

(** * The whole load *)
Definition start (de pe : dom) (d : diagram) : diagram :=
  with_plane (with_diag d (dset k_name (VStr (attribute_or k_name "" de))
                                    (dset k_id (VStr (get_attribute k_id de)) (diag_attrs d))))
     (dset k_bpmn_element (VStr (get_attribute k_bpmn_element pe))
                                 (dset k_id (VStr (get_attribute k_id pe)) (plane_attrs d))).
Definition heads (root de pe : dom) : Prop :=
  list_first (document_elements "BPMNDiagram" root) = Ok de /\ list_first (elements_in "BPMNPlane" de) = Ok pe.

Lemma load_ok_parts : forall root d d', load root d = (d', Ok tt) ->
  exists de pe d1, heads root de pe /\ mfor (core_actions root) (act pe) (start de pe d) = (d1, Ok tt) /\
    mfor (d_kids pe) di_step d1 = (d', Ok tt).
Proof.
  intros root d d' H. rewrite load_actions in H.
  apply mbind_ok in H. destruct H as [d1 [de [H1 H]]]. apply mread_ok in H1. destruct H1 as [-> H1].
  apply mbind_ok in H. destruct H as [d2 [pe [H2 H]]]. apply mread_ok in H2. destruct H2 as [-> H2].
  rewrite (mbind_eq _ _ _ _ _ _ (start de pe d) tt) in H by reflexivity.
  apply mbind_ok in H. destruct H as [d3 [[] [H3 H]]]. rewrite import_di_steps in H.
  exists de, pe, d3. split; [split; assumption|]. split; assumption.
Qed.
Lemma load_parts_ok : forall root de pe d d1 d', heads root de pe ->
  mfor (core_actions root) (act pe) (start de pe d) = (d1, Ok tt) -> mfor (d_kids pe) di_step d1 = (d', Ok tt) ->
  load root d = (d', Ok tt).
Proof.
  intros root de pe d d1 d' [H1 H2] H3 H4. rewrite load_actions.
  rewrite (mbind_eq _ _ _ _ _ _ d de) by (unfold mread; rewrite H1; reflexivity).
  rewrite (mbind_eq _ _ _ _ _ _ d pe) by (unfold mread; rewrite H2; reflexivity).
  rewrite (mbind_eq _ _ _ _ _ _ (start de pe d) tt) by reflexivity.
  rewrite (mbind_eq _ _ _ _ _ _ _ _ H3). rewrite import_di_steps. exact H4.
Qed.

Lemma run_ready : forall plane A d d', typed A -> mfor A (act plane) d = (d', Ok tt) ->
  forall a, In a A -> exists d0, ready plane d0 a.
Proof.
  intros plane. induction A as [|b A IH]; intros d d' T H a I; [destruct I|].
  cbn [mfor] in H. apply mbind_ok in H. destruct H as [d1 [[] [H1 H]]].
  destruct I as [<- |I].
  - exists d. eapply act_ok_ready; [exact H1|]. intros o e ->. apply (T o e). left. reflexivity.
  - eapply IH; eauto. intros o e J. apply (T o e). right. exact J.
Qed.
Record loaded (root de pe : dom) (d mid d' : diagram) : Prop := mkLoaded {
  lo_heads : heads root de pe;
  lo_effs : effs set_order pe (core_actions root) (start de pe d) mid;
  lo_ready : Forall (di_ready mid) (d_kids pe);
  lo_di : di_effs mid (d_kids pe) mid d';
  lo_run : forall a, In a (core_actions root) -> exists d0, ready pe d0 a }.
Lemma load_loaded : forall root d d', load root d = (d', Ok tt) -> exists de pe mid, loaded root de pe d mid d'.
Proof.
  intros root d d' H. destruct (load_ok_parts root d d' H) as (de & pe & mid & Hh & H1 & H2).
  pose proof (core_actions_typed root) as T. destruct (di_run mid _ mid d' (di_base_refl mid) H2) as [R E].
  exists de, pe, mid. constructor; auto.
  - apply run_effects; assumption.
  - eapply run_ready; eauto.
Qed.

(** * Nodes *)
Lemma loaded_nodes : forall root de pe d mid d', loaded root de pe d mid d' -> forall n,
  is_node d' n <-> is_node d n \/ exists a, In a (core_actions root) /\ node_new a n.
Proof.
  intros root de pe d mid d' [_ [_ _ N _ _ _ _ _ _ _ _] _ [_ N2 _ _ _ _ _ _ _] _] n. rewrite N2, N. reflexivity.
Qed.

(** The last action of a kind. *)
Lemma last_split : forall A (P : A -> bool) l, existsb P l = true ->
  exists l1 a l2, l = l1 ++ a :: l2 /\ P a = true /\ forall b, In b l2 -> P b = false.
Proof.
  intros A P. induction l as [|x l IH] using rev_ind; intros H; [discriminate|].
  destruct (P x) eqn:Px.
  - exists l, x, []. split; [reflexivity|]. split; [exact Px|]. intros b [].
  - rewrite existsb_app in H. simpl in H. rewrite Px, !orb_false_r in H. destruct (IH H) as (l1 & a & l2 & E & Pa & R).
    exists l1, a, (l2 ++ [x]). split; [rewrite E, <- app_assoc; reflexivity|]. split; [exact Pa|].
    intros b Hb. apply in_app_or in Hb. destruct Hb as [Hb|[<- |[]]]; auto.
Qed.
Definition node_action (n : string) (a : action) : bool := match a with ANode _ e => n =? eid e | _ => false end.
Definition part_action (n : string) (a : action) : bool :=
  match a with APart x => (n =? eid x) && (get_attribute "processRef" x =? "") | _ => false end.

Definition di_keys : list string := ["width"; "height"; "isExpanded"; "x"; "y"].
Lemma shape_attr_other : forall d x n k v, ~ In k di_keys -> shape_attr d x n k v = v.
Proof.
  intros d x n k v H. unfold shape_attr. destruct (_ && _ && _); [|reflexivity]. unfold overlay, shape_fields.
  simpl in H. destruct (is_sub d n); simpl rev; cbn [app];
  repeat (cbn [dget]; match goal with |- context[String.eqb k ?y] => destruct (String.eqb_spec k y); [exfalso; subst; tauto|] end);
  reflexivity.
Qed.
Lemma shapes_other : forall d X n k v, ~ In k di_keys -> fold_left (fun v x => shape_attr d x n k v) X v = v.
Proof. intros d X n k v H. induction X as [|x X IH]; simpl; auto. rewrite shape_attr_other; auto. Qed.

Definition join_keys : list string := ["incoming"; "outgoing"].
Lemma attr_eff_other : forall a n k v, ~ In k join_keys -> node_action n a = false -> part_action n a = false ->
  attr_eff a n k v = v.
Proof.
  intros a n k v K N P. assert (J : forall x, join_eff x n k v = v).
  { intros x. unfold join_eff. simpl in K. destruct (String.eqb_spec k "outgoing"); [exfalso; subst; tauto|].
    destruct (String.eqb_spec k "incoming"); [exfalso; subst; tauto|]. rewrite !andb_false_r. reflexivity. }
  destruct a as [e|o e|o x| |c|x|x]; cbn [ActionFacts.attr_eff]; auto.
  - cbn [node_action] in N. rewrite N. reflexivity.
  - cbn [part_action] in P. rewrite P. reflexivity.
Qed.
Lemma attr_effs_other : forall A n k v, ~ In k join_keys ->
  (forall a, In a A -> node_action n a = false) -> (forall a, In a A -> part_action n a = false) ->
  fold_left (fun v a => attr_eff a n k v) A v = v.
Proof.
  induction A as [|a A IH]; intros n k v K N P; simpl; auto.
  rewrite attr_eff_other; [|exact K|apply N; left; reflexivity|apply P; left; reflexivity].
  apply IH; auto; intros b Hb; [apply N|apply P]; right; exact Hb.
Qed.

Lemma loaded_declared : forall root de pe d mid d', loaded root de pe d mid d' ->
  forall s x, declared root s x ->
  (forall y, participant_in root y -> get_attribute "processRef" y = "" -> eid y <> eid x) ->
  exists s' x', declared root s' x' /\ eid x' = eid x /\
    forall k v, ~ In k join_keys -> ~ In k di_keys -> k <> "node_ids" ->
      dget k (rev (all_fields (owner_of s') x')) = Some v -> attr d' (eid x) k = Some v.
Proof.
  intros root de pe d mid d' [_ E _ D _] s x Hx Hp. set (n := eid x) in *.
  destruct (last_split _ (node_action n) (core_actions root)) as (A1 & a & A2 & EA & Ha & Last).
  { apply existsb_exists. exists (ANode (owner_of s) x). split; [apply declared_action; exact Hx|]. apply eqb_refl'. }
  destruct a as [e|o e|o e| |e|e|e]; try discriminate. cbn [node_action] in Ha. apply String.eqb_eq in Ha.
  assert (Q : explained root (ANode o e)).
  { eapply Forall_forall; [apply core_explained|]. rewrite EA. apply in_elt. }
  destruct Q as [s' [Q1 Q2]]. exists s', e. split; [exact Q1|]. split; [symmetry; exact Ha|].
  intros k v K1 K2 K3 F. rewrite (ds_attr _ _ _ _ D). rewrite shapes_other by exact K2.
  rewrite (es_attr _ _ _ _ _ E) by exact K3. rewrite EA, fold_left_app. cbn [fold_left].
  rewrite attr_effs_other; [|exact K1|exact Last|].
  - cbn [ActionFacts.attr_eff]. rewrite Ha, eqb_refl'. unfold overlay. subst o. rewrite F. reflexivity.
  - intros b Hb. destruct (part_action n b) eqn:Pb; [|reflexivity]. exfalso.
    destruct b as [c|oo c|oo c| |c|c|c]; try discriminate. cbn [part_action] in Pb. apply andb_true_iff in Pb.
    destruct Pb as [P1 P2]. apply String.eqb_eq in P1. apply String.eqb_eq in P2.
    assert (Pc : explained root (APart c)).
    { eapply Forall_forall; [apply core_explained|]. rewrite EA. apply in_or_app. right. right. exact Hb. }
    apply (Hp c Pc P2). symmetry. exact P1.
Qed.
Lemma att_value : forall k v e, att k v e = VStr (attribute_or k v e).
Proof using. clear set_order. intros. unfold att, attribute_or. destruct (dget _ _); reflexivity. Qed.
Lemma optional_value : forall k e, optional k e = attribute_or_none k e.
Proof using. clear set_order. intros. unfold optional, attribute_or_none. destruct (dget _ _); reflexivity. Qed.
Lemma get_attribute_or : forall k e, get_attribute k e = attribute_or k "" e.
Proof using. clear set_order. reflexivity. Qed.
Lemma definitions_perm : (forall l, Permutation (set_order l) l) -> forall ts e,
  Permutation (imported_definitions set_order ts e)
    (flat_map (fun t => map (fun y => (get_attribute "id" y, t)) (elements_in t e)) ts).
Proof. intros P ts e. unfold imported_definitions. apply Permutation_flat_map. apply P. Qed.

Lemma kind_cases : forall x (P : Prop), kind x -> (forall t, In t node_types -> d_local x = t -> P) -> P.
Proof using. clear set_order. intros x P K H. apply kind_smem in K. apply smem_In in K. eapply H; eauto. Qed.

Lemma fields_described : (forall l, Permutation (set_order l) l) -> forall d' s x, kind x ->
  (forall k v, ~ In k join_keys -> ~ In k di_keys -> k <> "node_ids" ->
      dget k (rev (all_fields (owner_of s) x)) = Some v -> attr d' (eid x) k = Some v) ->
  described d' s x.
Proof.
  intros Perm d' s x K H.
  assert (Nin : forall k l, existsb (String.eqb k) l = false -> ~ In k l).
  { intros k l E I. assert (existsb (String.eqb k) l = true); [|congruence]. apply existsb_exists. exists k. split; [exact I|apply eqb_refl']. }
  assert (H' : forall k v, existsb (String.eqb k) join_keys = false -> existsb (String.eqb k) di_keys = false ->
      (k =? "node_ids") = false -> dget k (rev (all_fields (owner_of s) x)) = Some v -> attr d' (eid x) k = Some v).
  { intros k v E1 E2 E3 E4. apply H; auto. intros ->. discriminate. }
  clear H Nin. apply kind_smem in K. apply smem_In in K.
  unfold described. cbv zeta.
  assert (O : VStr (get_attribute "id" s) = VStr (owner_id (owner_of s))) by (rewrite owner_of_id; reflexivity). rewrite O. clear O.
  unfold all_fields, node_fields, base_fields, late_fields, specific in H'.
  unfold kind_attributes, event_kinds. rewrite !att_value, !optional_value.
  assert (Defs : forall ts, (attr d' (eid x) "event_definitions" = Some (VDefs (imported_definitions set_order ts x))) ->
     exists l, attr d' (eid x) "event_definitions" = Some (VDefs l) /\
       Permutation l (flat_map (fun t => map (fun y => (get_attribute "id" y, t)) (elements_in t x)) ts)).
  { intros ts E. eexists. split; [exact E|]. apply definitions_perm. exact Perm. }
  simpl in K.
  repeat (destruct K as [K|K];
    [rewrite <- K in H' |- *; cbn -[dget imported_definitions attr flat_map node_of] in H' |- *;
     do 4 (split; [apply H'; reflexivity|]); split;
     [ intros k v I; repeat (destruct I as [I|I]; [inversion I; subst; apply H'; reflexivity|]); destruct I
     | intros ts I; inversion I; subst; clear I; apply Defs; apply H'; reflexivity ] |]).
  destruct K.
Qed.
(** * Lists of flows *)
Definition list_key (out : bool) : string := if out then "outgoing" else "incoming".
Definition end_of (out : bool) (x : dom) : string := if out then src x else tgt x.
Definition joins (out : bool) (n : string) (a : action) : option string :=
  match a with AFlow _ x | AMessage x => if n =? end_of out x then Some (eid x) else None | _ => None end.
Lemma join_list : forall out a n v, node_action n a = false ->
  attr_eff a n (list_key out) v = match joins out n a with Some f => add_missing f v | None => v end.
Proof.
  intros out a n v N. destruct a as [e|o e|o x| |c|x|x]; cbn [ActionFacts.attr_eff joins]; auto.
  - cbn [node_action] in N. rewrite N. reflexivity.
  - unfold join_eff. destruct out; cbn [list_key end_of]; cbn [String.eqb Ascii.eqb Bool.eqb].
    + rewrite andb_true_r, andb_false_r. destruct (n =? src x); reflexivity.
    + rewrite andb_false_r, andb_true_r. destruct (n =? tgt x); reflexivity.
  - destruct (_ && _); [|reflexivity]. destruct out; reflexivity.
  - unfold join_eff. destruct out; cbn [list_key end_of]; cbn [String.eqb Ascii.eqb Bool.eqb].
    + rewrite andb_true_r, andb_false_r. destruct (n =? src x); reflexivity.
    + rewrite andb_false_r, andb_true_r. destruct (n =? tgt x); reflexivity.
Qed.
Lemma join_lists : forall out n A, (forall a, In a A -> node_action n a = false) -> forall l,
  exists l', fold_left (fun v a => attr_eff a n (list_key out) v) A (Some (VList l)) = Some (VList l') /\
    (forall f, In f l' <-> In f l \/ exists a, In a A /\ joins out n a = Some f) /\ (NoDup l -> NoDup l') /\
    exists r, l' = l ++ r.
Proof.
  intros out n. induction A as [|a A IH]; intros N l.
  - exists l. split; [reflexivity|]. split; [|split; [auto|exists []; symmetry; apply app_nil_r]]. intros f. split; auto. intros [?|[a [[] _]]]; auto.
  - cbn [fold_left]. rewrite join_list by (apply N; left; reflexivity).
    assert (S : exists l1, match joins out n a with Some f => add_missing f (Some (VList l)) | None => Some (VList l) end
       = Some (VList l1) /\ (forall f, In f l1 <-> In f l \/ joins out n a = Some f) /\ (NoDup l -> NoDup l1) /\
       exists r, l1 = l ++ r).
    { destruct (joins out n a) as [f|].
      - cbn [add_missing]. destruct (smem f l) eqn:M.
        + exists l. split; [reflexivity|]. split; [|split; [auto|exists []; symmetry; apply app_nil_r]].
          intros g. split; auto. intros [?|J]; auto. inv J. apply smem_In. exact M.
        + exists (l ++ [f]). split; [reflexivity|]. split; [|split; [|exists [f]; reflexivity]].
          * intros g. rewrite in_app_iff. simpl. split; intros [?|J]; auto; [destruct J as [<- |[]]; auto|inv J; auto].
          * intros D. rewrite <- (rev_involutive (l ++ [f])). apply NoDup_rev. rewrite rev_app_distr. simpl.
            constructor; [|apply NoDup_rev; exact D]. rewrite <- in_rev. intros I. apply smem_In in I. congruence.
      - exists l. split; [reflexivity|]. split; [|split; [auto|exists []; symmetry; apply app_nil_r]].
        intros g. split; auto. intros [?|J]; auto. discriminate. }
    destruct S as (l1 & -> & S1 & S2 & r1 & S3). destruct (IH (fun b Hb => N b (or_intror Hb)) l1) as (l' & F & I1 & I2 & r2 & I3).
    exists l'. split; [exact F|]. split; [|split; [auto|]].
    + intros f. rewrite I1, S1. split.
      * intros [[?|?]|[b [? ?]]]; [auto|right; exists a; simpl; auto|right; exists b; simpl; auto].
      * intros [?|[b [[<- |?] ?]]]; auto. right. eauto.
    + exists (r1 ++ r2). rewrite I3, S3, app_assoc. reflexivity.
Qed.

Lemma all_fields_list : forall out o e, kind e ->
  dget (list_key out) (rev (all_fields o e)) = Some (VList (refs (list_key out) e)).
Proof.
  intros out o e K. apply kind_smem in K. apply smem_In in K.
  unfold all_fields, node_fields, base_fields, late_fields, specific. simpl in K.
  repeat (destruct K as [K|K]; [rewrite <- K; destruct out; reflexivity|]). destruct K.
Qed.
Lemma list_key_di : forall out, ~ In (list_key out) di_keys.
Proof using. clear set_order. intros [|] H; simpl in H; repeat (destruct H as [H|H]; [discriminate|]); destruct H. Qed.

Lemma loaded_list : forall root de pe d mid d', loaded root de pe d mid d' ->
  forall out s x, declared root s x ->
  exists s' y A1 A2 l, declared root s' y /\ eid y = eid x /\
    core_actions root = A1 ++ ANode (owner_of s') y :: A2 /\
    attr d' (eid x) (list_key out) = Some (VList l) /\
    (forall f, In f l <-> In f (refs (list_key out) y) \/ exists a, In a A2 /\ joins out (eid x) a = Some f) /\
    (NoDup (refs (list_key out) y) -> NoDup l) /\ exists r, l = refs (list_key out) y ++ r.
Proof.
  intros root de pe d mid d' [_ E _ D _] out s x Hx. set (n := eid x) in *.
  destruct (last_split _ (node_action n) (core_actions root)) as (A1 & a & A2 & EA & Ha & Last).
  { apply existsb_exists. exists (ANode (owner_of s) x). split; [apply declared_action; exact Hx|]. apply eqb_refl'. }
  destruct a as [e|o e|o e| |e|e|e]; try discriminate. cbn [node_action] in Ha. apply String.eqb_eq in Ha.
  assert (Q : explained root (ANode o e)).
  { eapply Forall_forall; [apply core_explained|]. rewrite EA. apply in_elt. }
  destruct Q as [s' [Q1 Q2]]. subst o.
  destruct (join_lists out n A2 Last (refs (list_key out) e)) as (l & F & I1 & I2 & I3).
  exists s', e, A1, A2, l. split; [exact Q1|]. split; [symmetry; exact Ha|]. split; [exact EA|]. split; [|split; [exact I1|split; [exact I2|exact I3]]].
  rewrite (ds_attr _ _ _ _ D). rewrite shapes_other by apply list_key_di.
  rewrite (es_attr _ _ _ _ _ E) by (destruct out; discriminate). rewrite EA, fold_left_app. cbn [fold_left].
  cbn [ActionFacts.attr_eff]. rewrite (proj2 (String.eqb_eq _ _) Ha). unfold overlay.
  rewrite all_fields_list by (destruct Q1 as (_ & _ & K); exact K). exact F.
Qed.

(** The texts read from a node are those of its reference children. *)
Lemma collect_no_other : forall A (h : dom -> res (list A)) ks l, collect h ks = Ok l -> forall c, ~ In (DOther c) ks.
Proof using. clear set_order.
  intros A h. induction ks as [|k ks IH]; intros l H c I; [destruct I|]. cbn [collect] in H.
  destruct k as [g a kk|t|t]; [| |discriminate].
  - destruct (h _); [|discriminate]. cbn [rbind] in H. destruct (collect h ks) eqn:Ec; [|discriminate].
    destruct I as [I|I]; [discriminate|]. eapply IH; eauto.
  - destruct I as [I|I]; [discriminate|]. eapply IH; eauto.
Qed.
Lemma refs_texts : forall k e l, collect (reference_of k) (d_kids e) = Ok l -> l = child_texts k e.
Proof using. clear set_order.
  intros k e. unfold child_texts. induction (d_kids e) as [|x ks IH]; intros l H; cbn [collect] in H; [inv H; reflexivity|].
  destruct x as [g a kk|t|t]; [| |discriminate]; cbn [flat_map].
  - unfold reference_of at 1, d_local in H. cbn [d_tag] in H. destruct (local_name g =? k).
    + unfold first_value in H. cbn [d_kids] in H. destruct kk as [|[g' a' k'|t|t] kk]; try discriminate; cbn [rbind] in H;
        destruct (collect (reference_of k) ks) as [z|]; try discriminate; inv H; cbn [app]; rewrite (IH z eq_refl); reflexivity.
    + cbn [rbind] in H. destruct (collect (reference_of k) ks) as [z|]; try discriminate. cbn [rbind app] in H. inversion H; subst l. rewrite <- (IH z eq_refl).
      destruct kk as [|[g' a' k'|t|t] kk]; reflexivity.
  - apply IH in H. exact H.
Qed.
Lemma loaded_refs : forall root de pe d mid d', loaded root de pe d mid d' -> forall out s x, declared root s x ->
  refs (list_key out) x = child_texts (list_key out) x.
Proof.
  intros root de pe d mid d' [_ _ _ _ R] out s x Hx. destruct (R _ (declared_action _ _ _ Hx)) as [d0 [_ (ins & outs & H1 & H2 & _)]].
  rewrite reference_list_collect in H1, H2. unfold refs. destruct out; cbn [list_key].
  - rewrite H2. apply refs_texts. exact H2.
  - rewrite H1. apply refs_texts. exact H1.
Qed.
(** * Flow records and connections *)
Definition flow_action_b (f : string) (a : action) : bool := match a with AFlow _ x => f =? eid x | _ => false end.
Lemma flows_other : forall A f F, (forall a, In a A -> flow_action_b f a = false) ->
  dget f (fold_left (fun F a => flows_eff a F) A F) = dget f F.
Proof using. clear set_order.
  induction A as [|a A IH]; intros f F H; [reflexivity|]. cbn [fold_left]. rewrite IH by (intros; apply H; right; assumption).
  specialize (H a (or_introl eq_refl)). destruct a; cbn [flows_eff flow_action_b] in *; auto. apply dget_dset_ne. intros ->. rewrite eqb_refl' in H. discriminate.
Qed.
Lemma loaded_flows : forall root de pe d mid d', loaded root de pe d mid d' ->
  forall f, (exists s x, flow_in root s x /\ eid x = f /\ dget f (seq_flows d') = Some (flow_record x)) \/
            ((forall s x, flow_in root s x -> eid x <> f) /\ dget f (seq_flows d') = dget f (seq_flows d)).
Proof.
  intros root de pe d mid d' [_ E _ D _] f. rewrite (ds_flows _ _ _ _ D), (es_flows _ _ _ _ _ E).
  destruct (existsb (flow_action_b f) (core_actions root)) eqn:X.
  - left. destruct (last_split _ _ _ X) as (A1 & a & A2 & EA & Ha & Last).
    destruct a as [e|o e|o e| |e|e|e]; try discriminate. cbn [flow_action_b] in Ha. apply String.eqb_eq in Ha.
    assert (Q : explained root (AFlow o e)).
    { eapply Forall_forall; [apply core_explained|]. rewrite EA. apply in_elt. }
    destruct Q as [s' [Q1 Q2]]. exists s', e. split; [exact Q1|]. split; [auto|].
    rewrite EA, fold_left_app. cbn [fold_left]. rewrite flows_other by exact Last. cbn [flows_eff]. rewrite Ha. apply dget_dset_eq.
  - right. assert (N : forall a, In a (core_actions root) -> flow_action_b f a = false).
    { intros a I. destruct (flow_action_b f a) eqn:Y; [|reflexivity].
      assert (existsb (flow_action_b f) (core_actions root) = true) by (apply existsb_exists; eauto). congruence. }
    split; [|rewrite flows_other by exact N; reflexivity].
    intros s x Hx Hf. specialize (N _ (flow_action _ _ _ Hx)). cbn [flow_action_b] in N. rewrite Hf, eqb_refl' in N. discriminate.
Qed.
Lemma loaded_links : forall root de pe d mid d', loaded root de pe d mid d' -> forall u v,
  edge_b d' u v = true <-> edge_b d u v = true \/ exists a, In a (core_actions root) /\ edge_new a u v = true.
Proof.
  intros root de pe d mid d' [_ E _ D _] u v. rewrite (ds_link _ _ _ _ D). apply (es_link _ _ _ _ _ E).
Qed.
Lemma edges_other : forall A u v k y, (forall a, In a A -> edge_new a u v = false) ->
  fold_left (fun y a => edge_eff a u v k y) A y = y.
Proof using. clear set_order.
  induction A as [|a A IH]; intros u v k y H; [reflexivity|]. cbn [fold_left]. unfold edge_eff at 2.
  rewrite (H a (or_introl eq_refl)). apply IH. intros; apply H; right; assumption.
Qed.
(** The last flow or message flow between two nodes. *)
Lemma loaded_edge : forall root de pe d mid d', loaded root de pe d mid d' -> forall u v,
  (exists a, In a (core_actions root) /\ edge_new a u v = true) ->
  exists a, In a (core_actions root) /\ edge_new a u v = true /\
    forall k y, k <> "waypoints" -> k <> "name" -> dget k (rev (edge_fields a)) = Some y -> edge_attr d' u v k = Some y.
Proof.
  intros root de pe d mid d' [_ E _ D _] u v (b & Ib & Nb).
  destruct (last_split _ (fun a => edge_new a u v) (core_actions root)) as (A1 & a & A2 & EA & Ha & Last).
  { apply existsb_exists. eauto. }
  exists a. split; [rewrite EA; apply in_elt|]. split; [exact Ha|]. intros k y K1 K2 F.
  rewrite (ds_edge _ _ _ _ D).
  assert (L : forall X y, fold_left (fun v0 x => line_attr mid x u v k v0) X y = y).
  { induction X as [|x X IHX]; intros y0; [reflexivity|]. cbn [fold_left]. rewrite IHX. unfold line_attr.
    destruct (_ =? _); [|reflexivity]. destruct (known_flow mid (elt x)) as [r|]; [|reflexivity].
    destruct (pair_b _ _ _ _); [|reflexivity]. unfold overlay, line_fields. cbn [rev app dget].
    destruct (String.eqb_spec k "name"); [contradiction|]. destruct (String.eqb_spec k "waypoints"); [contradiction|]. reflexivity. }
  rewrite L. rewrite (es_edge _ _ _ _ _ E), EA, fold_left_app. cbn [fold_left]. rewrite edges_other by exact Last.
  unfold edge_eff. rewrite Ha. unfold overlay. rewrite F. reflexivity.
Qed.

(** * Node lists of processes *)
Definition listed_in (p : string) (a : action) : list string :=
  match a with ANode (InProcess q) e => if p =? q then [eid e] else [] | _ => [] end.
Definition process_action (p : string) (a : action) : bool := match a with AProcess e => p =? eid e | _ => false end.
Lemma proc_ids : forall pe p A l, (forall a, In a A -> process_action p a = false) ->
  fold_left (fun v a => proc_eff pe a p "node_ids" v) A (Some (VList l)) = Some (VList (l ++ flat_map (listed_in p) A)).
Proof using. clear set_order.
  intros pe p. induction A as [|a A IH]; intros l H; cbn [fold_left flat_map]; [rewrite app_nil_r; reflexivity|].
  assert (HA : forall b, In b A -> process_action p b = false) by (intros; apply H; right; assumption).
  specialize (H a (or_introl eq_refl)). destruct a as [e|o e|o x| |c|x|x]; cbn [proc_eff listed_in]; try (apply IH; exact HA).
  - cbn [process_action] in H. rewrite H. apply IH. exact HA.
  - cbn [String.eqb Ascii.eqb Bool.eqb andb]. unfold ids_step. destruct o as [q|q]; [|apply IH; exact HA].
    destruct (p =? q); [|apply IH; exact HA]. cbn [snoc_ids]. rewrite IH by exact HA. rewrite <- app_assoc. reflexivity.
Qed.
Lemma listed_sub : forall p e q, flat_map (listed_in p) (element_actions (InSubprocess q) e) = [].
Proof using. clear set_order.
  intros p. assert (Fl : forall o s, flat_map (listed_in p) (flow_actions o s) = []).
  { intros o s. unfold flow_actions. induction (d_kids s) as [|k ks IH]; [reflexivity|]. cbn [flat_map].
    rewrite flat_map_app, IH, app_nil_r. destruct k as [g a kk|t|t]; [destruct (_ =? _)| |]; reflexivity. }
  induction e as [g a ks IH|t|t] using dom_rect'; intros q; cbn [element_actions]; try reflexivity.
  rewrite flat_map_app. destruct (smem (local_name g) node_types); cbn [flat_map listed_in app];
  (destruct (local_name g =? t_subprocess); [|reflexivity]; rewrite flat_map_app, Fl, app_nil_r;
   generalize (get_attribute k_id (DElem g a ks)); intros r;
   induction IH as [|k ks' Hk Hks IHk]; [reflexivity|]; cbn [flat_map]; rewrite flat_map_app, Hk, IHk; reflexivity).
Qed.
Definition is_kind (x : dom) : bool := match x with DElem g _ _ => smem (local_name g) node_types | _ => false end.
Lemma is_kind_spec : forall x, is_kind x = true <-> kind x.
Proof using. clear set_order.
  intros [g a ks|t|t]; simpl; [symmetry; apply kind_types| |]; split; try discriminate; intros [? [_ []]].
Qed.
Lemma flows_listed : forall p o s, flat_map (listed_in p) (flow_actions o s) = [].
Proof using. clear set_order.
  intros p o s. unfold flow_actions. induction (d_kids s) as [|k ks IH]; [reflexivity|]. cbn [flat_map].
  rewrite flat_map_app, IH, app_nil_r. destruct k as [g a kk|t|t]; [destruct (_ =? _)| |]; reflexivity.
Qed.
Lemma listed_element : forall p q e, flat_map (listed_in p) (element_actions (InProcess q) e) =
  if (p =? q) && is_kind e then [eid e] else [].
Proof using. clear set_order.
  intros p q [g a ks|t|t]; cbn [element_actions is_kind]; rewrite ?andb_false_r; try reflexivity.
  rewrite flat_map_app.
  assert (S : flat_map (listed_in p) (if local_name g =? t_subprocess then
         flat_map (element_actions (InSubprocess (get_attribute k_id (DElem g a ks)))) ks ++
         flow_actions (InSubprocess (get_attribute k_id (DElem g a ks))) (DElem g a ks) else []) = []).
  { destruct (local_name g =? t_subprocess); [|reflexivity]. rewrite flat_map_app, flows_listed, app_nil_r.
    generalize (get_attribute k_id (DElem g a ks)). intros r.
    induction ks as [|k' ks IH]; [reflexivity|]. cbn [flat_map]. rewrite flat_map_app, listed_sub. exact IH. }
  rewrite S, app_nil_r. destruct (smem (local_name g) node_types); cbn [flat_map listed_in]; rewrite ?andb_false_r, ?andb_true_r; auto.
  destruct (p =? q); reflexivity.
Qed.
Lemma listed_process : forall p e, flat_map (listed_in p) (process_actions e) =
  if p =? eid e then map (get_attribute "id") (filter is_kind (d_kids e)) else [].
Proof using. clear set_order.
  intros p e. unfold process_actions. cbn [flat_map listed_in app]. rewrite flat_map_app, flows_listed, app_nil_r.
  change k_id with "id". induction (d_kids e) as [|k ks IH]; cbn [flat_map map filter]; [destruct (p =? eid e); reflexivity|].
  rewrite flat_map_app, IH, listed_element. destruct (p =? eid e); cbn [andb]; [|reflexivity].
  destruct (is_kind k); reflexivity.
Qed.
Lemma listed_collab : forall p c, flat_map (listed_in p) (collab_actions c) = [].
Proof using. clear set_order.
  intros p c. unfold collab_actions. cbn [flat_map listed_in app]. induction (d_kids c) as [|k ks IH]; [reflexivity|].
  cbn [flat_map]. rewrite flat_map_app, IH, app_nil_r. destruct k as [g a kk|t|t]; try reflexivity.
  destruct (_ =? _); [reflexivity|]. destruct (_ =? _); reflexivity.
Qed.
Lemma collab_process_action : forall p root a,
  In a (match document_elements t_collaboration root with [] => [] | c :: _ => collab_actions c end) -> process_action p a = false.
Proof using. clear set_order.
  intros p root a I. destruct (document_elements t_collaboration root) as [|c r]; [destruct I|]. destruct I as [<- |I]; [reflexivity|].
  apply in_flat_map in I. destruct I as [[g at_ ks|t|t] [_ I]]; [| destruct I|destruct I as [<- |[]]; reflexivity].
  destruct (_ =? _); [destruct I as [<- |[]]; reflexivity|]. destruct (_ =? _); [destruct I as [<- |[]]; reflexivity|destruct I].
Qed.
Lemma scope_process_action : forall p e a, In a (scope_actions e) -> process_action p a = false.
Proof using. clear set_order.
  intros p. assert (Fl : forall o s a, In a (flow_actions o s) -> process_action p a = false).
  { intros o s a I. unfold flow_actions in I. apply in_flat_map in I. destruct I as [[g at_ ks|t|t] [_ I]];
      [destruct (_ =? _)| |]; try destruct I; try (destruct H); subst; auto. }
  assert (El : forall e o a, In a (element_actions o e) -> process_action p a = false).
  { induction e as [g at_ ks IH|t|t] using dom_rect'; intros o a I; cbn [element_actions] in I.
    - apply in_app_or in I. destruct I as [I|I].
      + destruct (smem _ _); [destruct I as [<- |[]]; reflexivity|destruct I].
      + destruct (_ =? _); [|destruct I]. apply in_app_or in I. destruct I as [I|I]; [|eapply Fl; eauto].
        apply in_flat_map in I. destruct I as [k [I1 I2]]. rewrite Forall_forall in IH. eapply IH; eauto.
    - destruct I.
    - destruct I as [<- |[]]. reflexivity. }
  intros e a I. unfold scope_actions in I. apply in_app_or in I. destruct I as [I|I]; [|eapply Fl; eauto].
  apply in_flat_map in I. destruct I as [k [I1 I2]]. eapply El; eauto.
Qed.

Lemma loaded_process : forall root de pe d mid d', loaded root de pe d mid d' -> forall p, inside p root -> named "process" p ->
  exists q, inside q root /\ named "process" q /\ eid q = eid p /\
    proc_attr d' (eid p) "node_ids" = Some (VList (map (get_attribute "id") (filter is_kind (d_kids q)))) /\
    (forall k, k <> "node_ids" -> proc_attr d' (eid p) k = dget k (process_dict pe q)).
Proof.
  intros root de pe d mid d' [_ E _ D _] p Ip Np.
  destruct (last_split _ (fun q => eid p =? eid q) (document_elements "process" root)) as (P1 & q & P2 & EP & Hq & Last).
  { apply existsb_exists. exists p. split; [apply in_document; auto|apply eqb_refl']. }
  assert (Iq : In q (document_elements "process" root)) by (rewrite EP; apply in_elt).
  apply in_document in Iq. destruct Iq as [Iq Nq]. apply String.eqb_eq in Hq.
  exists q. split; [exact Iq|]. split; [exact Nq|]. split; [auto|].
  set (tail := match document_elements t_collaboration root with [] => [] | c :: _ => collab_actions c end).
  set (rest := scope_actions q ++ flat_map process_actions P2 ++ tail).
  assert (EA : core_actions root = flat_map process_actions P1 ++ AProcess q :: rest).
  { unfold core_actions. change k_process with "process". rewrite EP, flat_map_app. cbn [flat_map].
    rewrite process_scope by exact Nq. rewrite <- app_assoc. unfold rest, tail. cbn [app]. rewrite <- app_assoc. reflexivity. }
  assert (No : forall a, In a rest -> process_action (eid p) a = false).
  { intros a I. unfold rest in I. apply in_app_or in I. destruct I as [I|I]; [eapply scope_process_action; eauto|].
    apply in_app_or in I. destruct I as [I|I]; [|eapply collab_process_action; eauto].
    apply in_flat_map in I. destruct I as [x [I1 I2]].
    assert (Nx : named "process" x).
    { assert (Ix : In x (document_elements "process" root)) by (rewrite EP; apply in_or_app; right; right; exact I1).
      apply in_document in Ix. tauto. }
    rewrite process_scope in I2 by exact Nx. destruct I2 as [<- |I2]; [|eapply scope_process_action; eauto].
    cbn [process_action]. apply Last. exact I1. }
  assert (Pd : forall k, proc_attr d' (eid p) k =
     fold_left (fun v a => proc_eff pe a (eid p) k v) rest (dget k (process_dict pe q))).
  { intros k. unfold proc_attr at 1. rewrite (ds_procs _ _ _ _ D). fold (proc_attr mid (eid p) k).
    rewrite (es_proc _ _ _ _ _ E), EA, fold_left_app. cbn [fold_left]. cbn [proc_eff]. rewrite (proj2 (String.eqb_eq _ _) Hq). reflexivity. }
  split.
  - rewrite Pd. replace (dget "node_ids" (process_dict pe q)) with (Some (VList [])).
    2: { unfold process_dict. destruct (elements_in "laneSet" q); [reflexivity|]. destruct (import_lanes _ _); reflexivity. }
    rewrite proc_ids by exact No. cbn [app]. unfold rest. rewrite !flat_map_app.
    assert (S : flat_map (listed_in (eid p)) (scope_actions q) = map (get_attribute "id") (filter is_kind (d_kids q))).
    { pose proof (listed_process (eid p) q) as S. rewrite process_scope in S by exact Nq. cbn [flat_map listed_in app] in S.
      rewrite S, (proj2 (String.eqb_eq _ _) Hq). reflexivity. }
    rewrite S. replace (flat_map (listed_in (eid p)) (flat_map process_actions P2)) with (@nil string).
    2: { clear -Last. induction P2 as [|x P2 IH]; [reflexivity|]. cbn [flat_map]. rewrite flat_map_app, listed_process.
         rewrite (Last x (or_introl eq_refl)). apply IH. intros b Hb. apply Last. right. exact Hb. }
    replace (flat_map (listed_in (eid p)) tail) with (@nil string).
    2: { unfold tail. destruct (document_elements t_collaboration root); [reflexivity|]. symmetry. apply listed_collab. }
    rewrite !app_nil_r. reflexivity.
  - intros k Hk. rewrite Pd.
    assert (Q : forall A v, (forall a, In a A -> process_action (eid p) a = false) ->
       fold_left (fun v a => proc_eff pe a (eid p) k v) A v = v).
    { clear -Hk. induction A as [|a A IH]; intros v H; [reflexivity|]. cbn [fold_left].
      rewrite IH by (intros; apply H; right; assumption). specialize (H a (or_introl eq_refl)).
      destruct a as [e|o e|o x| |c|x|x]; cbn [proc_eff]; auto.
      - cbn [process_action] in H. rewrite H. reflexivity.
      - rewrite (eqb_neq' k "node_ids") by exact Hk. reflexivity. }
    apply Q. exact No.
Qed.
(** * Node lists of subprocesses *)
Fixpoint subs (e : dom) : list dom :=
  match e with
  | DElem g a ks => if local_name g =? "subProcess" then e :: flat_map subs ks else []
  | _ => []
  end.
Fixpoint dsize (e : dom) : nat :=
  match e with DElem _ _ ks => S (list_sum (map dsize ks)) | _ => 1 end.
Lemma kid_size : forall ks k, In k ks -> dsize k <= list_sum (map dsize ks).
Proof using. clear set_order. induction ks as [|x ks IH]; intros k []; simpl; subst; [lia|]. specialize (IH k H). lia. Qed.
Lemma subs_size : forall e y, In y (subs e) -> dsize y <= dsize e.
Proof using. clear set_order.
  induction e as [g a ks IH|t|t] using dom_rect'; intros y I; cbn [subs] in I; try destruct I.
  destruct (_ =? _); [|destruct I]. destruct I as [<- |I]; [lia|]. apply in_flat_map in I. destruct I as [k [I1 I2]].
  rewrite Forall_forall in IH. specialize (IH k I1 y I2). pose proof (kid_size _ _ I1). cbn [dsize]. lia.
Qed.
Lemma subs_scope : forall root e s, scope root s -> In e (d_kids s) -> forall y, In y (subs e) -> scope root y /\ named "subProcess" y.
Proof using. clear set_order.
  intros root. induction e as [g a ks IH|t|t] using dom_rect'; intros s Hs I y J; cbn [subs] in J; try destruct J.
  destruct (String.eqb_spec (local_name g) "subProcess") as [N|N]; [|destruct J].
  assert (Hx : scope root (DElem g a ks)) by (eapply scope_sub; eauto).
  destruct J as [<- |J]; [split; [exact Hx|exact N]|]. apply in_flat_map in J. destruct J as [k [J1 J2]].
  rewrite Forall_forall in IH. eapply (IH k J1); eauto.
Qed.

Section Sub.
Variable n : string.
Notation F := (fold_left (fun v a => ids_eff a n v)).
Definition in_sub (o : owner) : bool := match o with InSubprocess s => n =? s | _ => false end.
Definition absent (e : dom) : Prop := forall y, In y (subs e) -> eid y <> n.
Lemma ids_flows : forall o s v, F (flow_actions o s) v = v.
Proof using. clear set_order.
  intros o s. unfold flow_actions. induction (d_kids s) as [|k ks IH]; intros v; [reflexivity|]. cbn [flat_map].
  rewrite fold_left_app. destruct k as [g a kk|t|t]; [destruct (_ =? _)| |]; apply IH.
Qed.
Lemma ids_absent_kids : forall o ks, (forall k, In k ks -> forall v,
     F (element_actions o k) v = if is_kind k && in_sub o then snoc_ids v (eid k) else v) -> forall l,
  F (flat_map (element_actions o) ks) (Some (VList l)) =
  Some (VList (l ++ if in_sub o then map (get_attribute "id") (filter is_kind ks) else [])).
Proof using. clear set_order.
  intros o. induction ks as [|k ks IH]; intros H l.
  - destruct (in_sub o); cbn; rewrite app_nil_r; reflexivity.
  - cbn [flat_map]. rewrite fold_left_app, (H k (or_introl eq_refl)).
    assert (IH' := IH (fun k' Hk' => H k' (or_intror Hk'))). cbn [filter map].
    destruct (is_kind k); cbn [andb]; [|apply IH']. destruct (in_sub o) eqn:Eo; [|apply IH'].
    cbn [snoc_ids]. rewrite IH'. cbn [map]. rewrite <- app_assoc. reflexivity.
Qed.
Lemma ids_absent : forall e, absent e -> forall o v,
  F (element_actions o e) v = if is_kind e && in_sub o then snoc_ids v (eid e) else v.
Proof using. clear set_order.
  induction e as [g a ks IH|t|t] using dom_rect'; intros Ab o v; try reflexivity.
  cbn [element_actions]. rewrite fold_left_app.
  assert (Hd : F (if smem (local_name g) node_types then [ANode o (DElem g a ks)] else []) v =
    if is_kind (DElem g a ks) && in_sub o then snoc_ids v (eid (DElem g a ks)) else v).
  { cbn [is_kind]. destruct (smem (local_name g) node_types); [|reflexivity]. cbn [fold_left ids_eff andb].
    assert (E : (n =? eid (DElem g a ks)) && (d_local (DElem g a ks) =? "subProcess") = false).
    { destruct (String.eqb_spec n (eid (DElem g a ks))) as [E|E]; [|reflexivity].
      destruct (String.eqb_spec (d_local (DElem g a ks)) "subProcess") as [N|N]; [|reflexivity]. exfalso.
      apply (Ab (DElem g a ks)); [|auto]. cbn [subs]. unfold d_local in N. simpl in N. rewrite N, eqb_refl'. left. reflexivity. }
    rewrite E. unfold ids_step, in_sub. reflexivity. }
  rewrite Hd. clear Hd. set (w := if is_kind _ && _ then _ else _).
  change t_subprocess with "subProcess".
  destruct (String.eqb_spec (local_name g) "subProcess") as [N|N]; [|reflexivity].
  rewrite fold_left_app, ids_flows. set (o' := InSubprocess _).
  assert (O : in_sub o' = false).
  { unfold o', in_sub. apply eqb_neq'. intros E. apply (Ab (DElem g a ks)); [|auto].
    cbn [subs]. rewrite N, eqb_refl'. left. reflexivity. }
  assert (K : forall k, In k ks -> forall v, F (element_actions o' k) v = v).
  { intros k Hk v'. rewrite Forall_forall in IH. rewrite (IH k Hk), O, andb_false_r; [reflexivity|].
    intros y Hy. apply Ab. cbn [subs]. rewrite N, eqb_refl'. right. apply in_flat_map. eauto. }
  clearbody w. clear -K. revert w. induction ks as [|k ks IHk]; intros w; [reflexivity|]. cbn [flat_map].
  rewrite fold_left_app, (K k (or_introl eq_refl)). apply IHk. intros k' Hk'. apply K. right. exact Hk'.
Qed.

Variable x : dom.
Hypothesis Hx : named "subProcess" x.
Hypothesis Hn : eid x = n.
Definition only_x (e : dom) : Prop := forall y, In y (subs e) -> eid y = n -> y = x.
Definition final : option pyval := Some (VList (map (get_attribute "id") (filter is_kind (d_kids x)))).
Lemma has_dec : forall e, absent e \/ exists y, In y (subs e) /\ eid y = n.
Proof using. clear set_order.
  intros e. unfold absent. induction (subs e) as [|y l IH]; [left; intros y []|].
  destruct (string_dec (eid y) n) as [E|E]; [right; exists y; simpl; auto|].
  destruct IH as [IH|[z [I1 I2]]]; [left|right; exists z; simpl; auto]. intros z [<- |I]; auto.
Qed.
Lemma ids_x : forall o v, only_x x -> F (element_actions o x) v = final.
Proof using Hx Hn. clear set_order.
  intros o v On. rewrite element_sub by exact Hx. cbn [fold_left ids_eff].
  rewrite (named_local _ _ Hx), Hn, !eqb_refl'. cbn [andb]. unfold scope_actions. rewrite fold_left_app, ids_flows.
  rewrite owner_sub by exact Hx. rewrite Hn.
  rewrite ids_absent_kids.
  - cbn [in_sub app]. rewrite eqb_refl'. reflexivity.
  - intros k Hk w. apply ids_absent. intros y Hy E.
    assert (y = x).
    { apply On; [|exact E]. destruct x as [g a ks|t|t]; [|destruct Hx|destruct Hx]. cbn [subs].
      simpl in Hx. rewrite Hx, eqb_refl'. right. apply in_flat_map. eauto. }
    subst y. apply subs_size in Hy. destruct x as [g a ks|t|t]; [|destruct Hx|destruct Hx].
    pose proof (kid_size ks k Hk). cbn [dsize] in Hy. lia.
Qed.
Lemma ids_present : forall e, only_x e -> (exists y, In y (subs e) /\ eid y = n) -> forall o v, in_sub o = false ->
  F (element_actions o e) v = final.
Proof using Hx Hn. clear set_order.
  induction e as [g a ks IH|t|t] using dom_rect'; intros On [y [Iy Ey]] o v Ho; try destruct Iy.
  destruct (string_dec (eid (DElem g a ks)) n) as [E|E].
  - destruct (String.eqb_spec (local_name g) "subProcess") as [N|N].
    + assert (X : DElem g a ks = x) by (apply On; [cbn [subs]; rewrite N, eqb_refl'; left; reflexivity|exact E]).
      rewrite X. apply ids_x. rewrite <- X. exact On.
    + cbn [subs] in Iy. rewrite (eqb_neq' _ _ N) in Iy. destruct Iy.
  - cbn [subs] in Iy. destruct (String.eqb_spec (local_name g) "subProcess") as [N|N]; [|destruct Iy].
    destruct Iy as [Iy|Iy]; [subst y; contradiction|]. rewrite element_sub by exact N.
    cbn [fold_left]. unfold scope_actions. rewrite fold_left_app, ids_flows. rewrite owner_sub by exact N. cbn [d_kids].
    set (w := ids_eff _ _ _). clearbody w.
    assert (O : in_sub (InSubprocess (eid (DElem g a ks))) = false) by (cbn [in_sub]; apply eqb_neq'; auto).
    set (o' := InSubprocess _) in *. clearbody o'.
    assert (On' : forall k, In k ks -> only_x k).
    { intros k Hk z Hz. apply On. cbn [subs]. rewrite N, eqb_refl'. right. apply in_flat_map. eauto. }
    apply in_flat_map in Iy. destruct Iy as [k0 [Hk0 Iy]].
    assert (Hp : exists k, In k ks /\ exists y, In y (subs k) /\ eid y = n) by eauto.
    clear -IH On' Hp O. revert w. induction ks as [|k ks IHk]; intros w; [destruct Hp as [k [[] _]]|].
    inversion IH as [|? ? IH1 IH2]; subst. cbn [flat_map]. rewrite fold_left_app.
    destruct (has_dec k) as [Ab|Pr].
    + rewrite ids_absent by exact Ab. rewrite O, andb_false_r. apply IHk; auto.
      * intros k' Hk'. apply On'. right. exact Hk'.
      * destruct Hp as [k1 [[<- |I1] [y1 [I2 I3]]]]; [exfalso; apply (Ab y1 I2 I3)|eauto].
    + rewrite IH1; auto; [|apply On'; left; reflexivity].
      assert (Fin : forall v, v = final -> F (flat_map (element_actions o') ks) v = final).
      { clear -IH2 On' O. induction ks as [|k' ks IHk]; intros v ->; [reflexivity|]. cbn [flat_map]. rewrite fold_left_app.
        inversion IH2 as [|? ? IH1 IH2']; subst.
        assert (On2 : only_x k') by (apply On'; right; left; reflexivity).
        apply IHk; [intros z [<- |Hz]; apply On'; [left; reflexivity|right; right; exact Hz]|exact IH2'|].
        destruct (has_dec k') as [Ab|Pr]; [rewrite ids_absent by exact Ab; rewrite O, andb_false_r; reflexivity|].
        apply IH1; auto. }
      apply Fin. reflexivity.
Qed.
Lemma ids_kids : forall ks o, in_sub o = false -> (forall k, In k ks -> only_x k) -> forall v,
  F (flat_map (element_actions o) ks) v = if existsb (fun k => existsb (fun y => eid y =? n) (subs k)) ks then final else v.
Proof using Hx Hn. clear set_order.
  induction ks as [|k ks IH]; intros o Ho On v; [reflexivity|]. cbn [flat_map existsb]. rewrite fold_left_app.
  rewrite IH by (auto; intros; apply On; right; assumption).
  destruct (has_dec k) as [Ab|Pr].
  - rewrite ids_absent by exact Ab. rewrite Ho, andb_false_r.
    replace (existsb (fun y => eid y =? n) (subs k)) with false; [reflexivity|].
    symmetry. apply not_true_iff_false. intros E. apply existsb_exists in E. destruct E as [y [I1 I2]].
    apply String.eqb_eq in I2. apply (Ab y I1 I2).
  - rewrite ids_present; auto; [|apply On; left; reflexivity].
    replace (existsb (fun y => eid y =? n) (subs k)) with true; [destruct (existsb _ ks); reflexivity|].
    symmetry. apply existsb_exists. destruct Pr as [y [I1 I2]]. exists y. split; [exact I1|]. apply String.eqb_eq. exact I2.
Qed.
End Sub.

Lemma subs_in_process : forall root x, scope root x -> named "subProcess" x ->
  exists p k, inside p root /\ named "process" p /\ In k (d_kids p) /\ In x (subs k).
Proof using. clear set_order.
  assert (Up : forall k y z, In y (subs k) -> In z (d_kids y) -> named "subProcess" z -> In z (subs k)).
  { induction k as [g a ks IH|t|t] using dom_rect'; intros y z Iy Iz Nz; cbn [subs] in Iy; try destruct Iy.
    cbn [subs]. destruct (_ =? _); [|destruct Iy]. right. apply in_flat_map. destruct Iy as [<- |Iy].
    - exists z. split; [exact Iz|]. destruct z as [g' a' k'|t|t]; [|destruct Nz|destruct Nz]. cbn [subs]. simpl in Nz.
      rewrite Nz, eqb_refl'. left. reflexivity.
    - apply in_flat_map in Iy. destruct Iy as [k [I1 I2]]. exists k. split; [exact I1|].
      rewrite Forall_forall in IH. eapply IH; eauto. }
  intros root x H. induction H as [p I N|s y Hs IH I N]; intros Nx.
  - apply named_local in N. apply named_local in Nx. congruence.
  - inversion Hs as [p I1 N1|s' x' H1 I1 N1]; subst.
    + exists s, y. split; [exact I1|]. split; [exact N1|]. split; [exact I|].
      destruct y as [g a k|t|t]; [|destruct N|destruct N]. cbn [subs]. simpl in N. rewrite N, eqb_refl'. left. reflexivity.
    + destruct (IH N1) as (p & k & A1 & A2 & A3 & A4). exists p, k. split; [exact A1|]. split; [exact A2|]. split; [exact A3|].
      eapply Up; eauto.
Qed.
Lemma loaded_subprocess : forall root de pe d mid d', loaded root de pe d mid d' -> forall x, scope root x -> named "subProcess" x ->
  (forall y, scope root y -> named "subProcess" y -> eid y = eid x -> y = x) ->
  attr d' (eid x) "node_ids" = Some (VList (map (get_attribute "id") (filter is_kind (d_kids x)))).
Proof.
  intros root de pe d mid d' [_ E _ D _] x Sx Nx U.
  rewrite (ds_attr _ _ _ _ D), shapes_other.
  2: { simpl. intros I; repeat (destruct I as [I|I]; [discriminate|]); destruct I. }
  rewrite (es_ids _ _ _ _ _ E). change (Some (VList (map (get_attribute "id") (filter is_kind (d_kids x))))) with (final x).
  unfold core_actions. rewrite fold_left_app.
  assert (C : forall v, fold_left (fun v a => ids_eff a (eid x) v)
     (match document_elements t_collaboration root with [] => [] | c :: _ => collab_actions c end) v = v).
  { intros v. destruct (document_elements t_collaboration root) as [|c r]; [reflexivity|]. unfold collab_actions. cbn [fold_left ids_eff].
    induction (d_kids c) as [|k ks IH]; [reflexivity|]. cbn [flat_map]. rewrite fold_left_app.
    destruct k as [g a kk|t|t]; try apply IH. destruct (_ =? _); [apply IH|]. destruct (_ =? _); apply IH. }
  rewrite C. change k_process with "process".
  assert (O : forall p, In p (document_elements "process" root) -> forall k, In k (d_kids p) -> only_x (eid x) x k).
  { intros p Ip k Ik y Iy Ey. apply in_document in Ip. destruct Ip as [Ip Np].
    destruct (subs_scope root k p (scope_process _ _ Ip Np) Ik y Iy). apply U; assumption. }
  destruct (subs_in_process root x Sx Nx) as (p0 & k0 & A1 & A2 & A3 & A4).
  assert (P0 : exists p, In p (document_elements "process" root) /\ existsb (fun k => existsb (fun y => eid y =? eid x) (subs k)) (d_kids p) = true).
  { exists p0. split; [apply in_document; auto|]. apply existsb_exists. exists k0. split; [exact A3|].
    apply existsb_exists. exists x. split; [exact A4|apply eqb_refl']. }
  assert (Nm : forall p, In p (document_elements "process" root) -> named "process" p) by (intros p I; apply in_document in I; tauto).
  assert (St : forall p v, In p (document_elements "process" root) -> fold_left (fun v a => ids_eff a (eid x) v) (process_actions p) v =
     if existsb (fun k => existsb (fun y => eid y =? eid x) (subs k)) (d_kids p) then final x else v).
  { intros p v Ip. unfold process_actions. cbn [fold_left ids_eff]. rewrite fold_left_app, ids_flows.
    apply (ids_kids (eid x) x Nx eq_refl); [reflexivity|]. apply O. exact Ip. }
  assert (G : forall P v, incl P (document_elements "process" root) ->
     v = final x \/ (exists p, In p P /\ existsb (fun k => existsb (fun y => eid y =? eid x) (subs k)) (d_kids p) = true) ->
     fold_left (fun v a => ids_eff a (eid x) v) (flat_map process_actions P) v = final x).
  { induction P as [|p P IH]; intros v In_ [Hv|Hv]; [exact Hv|destruct Hv as [p [[] _]]| |].
    - cbn [flat_map]. rewrite fold_left_app, St by (apply In_; left; reflexivity).
      apply IH; [intros q Hq; apply In_; right; exact Hq|]. left. subst v. destruct (existsb _ _); reflexivity.
    - cbn [flat_map]. rewrite fold_left_app, St by (apply In_; left; reflexivity).
      apply IH; [intros q Hq; apply In_; right; exact Hq|]. destruct Hv as [q [[<- |Iq] Hq]]; [left; rewrite Hq; reflexivity|right; eauto]. }
  apply G; [apply incl_refl|right; exact P0].
Qed.
End Load.
