(** When loading into an empty diagram succeeds. *)
From Coq Require Import String List Bool Arith Lia Permutation.
From Verif Require Import Py PyFacts Consts Nx NxFacts Rep SpecRep RepFacts CsvRegex CsvImport CsvFacts Xml Import XmlOps
  ImportFacts ActionFacts DiFacts SpecXml XmlScopes LoadFacts.
Import ListNotations.
Open Scope string_scope.
Open Scope list_scope.

Section LoadOk.
Variable set_order : list string -> list string.
Notation act := (act set_order).
Notation load := (load_diagram_from_xml set_order).

(** What an action needs apart from the state. *)
Definition static (plane : dom) (a : action) : Prop :=
  match a with
  | AProcess e => lanes_ready plane e
  | ANode o e => smem (d_local e) node_types = true /\
                 (exists l, collect (reference_of "incoming") (d_kids e) = Ok l) /\
                 (exists l, collect (reference_of "outgoing") (d_kids e) = Ok l)
  | AFlow _ x => exists cs, collect condition_of (d_kids x) = Ok cs
  | AFail => False
  | _ => True
  end.
Definition owner_made (a : action) (o : owner) : Prop :=
  match a with
  | AProcess e => o = InProcess (eid e)
  | ANode _ e => d_local e = "subProcess" /\ o = InSubprocess (eid e)
  | _ => False
  end.
Fixpoint ordered (O : owner -> Prop) (A : list action) : Prop :=
  match A with
  | [] => True
  | a :: r => match a with ANode o _ => O o | _ => True end /\ ordered (fun o => O o \/ owner_made a o) r
  end.
Lemma ordered_mono : forall A (O P : owner -> Prop), (forall o, O o -> P o) -> ordered O A -> ordered P A.
Proof using. clear set_order.
  induction A as [|a A IH]; intros O P S H; [exact H|]. destruct H as [H1 H2]. split.
  - destruct a; auto.
  - eapply IH; [|exact H2]. intros o [?|?]; auto.
Qed.
Lemma ordered_app : forall A B (O : owner -> Prop), ordered O A -> ordered O B -> ordered O (A ++ B).
Proof using. clear set_order.
  induction A as [|a A IH]; intros B O HA HB; [exact HB|]. destruct HA as [H1 H2]. split; [exact H1|].
  apply IH; [exact H2|]. eapply ordered_mono; [|exact HB]. auto.
Qed.
Lemma ordered_flat : forall X (h : X -> list action) l (O : owner -> Prop), (forall x, In x l -> ordered O (h x)) -> ordered O (flat_map h l).
Proof using. clear set_order.
  induction l as [|x l IH]; intros O H; [exact Logic.I|]. cbn [flat_map]. apply ordered_app; [apply H; left; reflexivity|].
  apply IH. intros. apply H. right. assumption.
Qed.
Lemma ordered_flows : forall o s O, ordered O (flow_actions o s).
Proof using. clear set_order.
  intros. apply ordered_flat. intros [g a ks|t|t] _; [destruct (_ =? _)| |]; repeat split.
Qed.
Lemma ordered_element : forall e o (O : owner -> Prop), O o -> ordered O (element_actions o e).
Proof using. clear set_order.
  induction e as [g a ks IH|t|t] using dom_rect'; intros o O H; [|exact Logic.I|repeat split].
  cbn [element_actions].
  destruct (String.eqb_spec (local_name g) t_subprocess) as [E|E].
  - replace (smem (local_name g) node_types) with true by (rewrite E; reflexivity). cbn [app]. split; [exact H|].
    apply ordered_app; [|apply ordered_flows]. apply ordered_flat. intros k Hk. rewrite Forall_forall in IH.
    apply IH; [exact Hk|]. right. split; [exact E|reflexivity].
  - rewrite app_nil_r. destruct (smem _ _); repeat split. exact H.
Qed.
Lemma ordered_process : forall p O, ordered O (process_actions p).
Proof using. clear set_order.
  intros p O. unfold process_actions. split; [exact Logic.I|]. apply ordered_app; [|apply ordered_flows].
  apply ordered_flat. intros k _. apply ordered_element. right. reflexivity.
Qed.
Lemma ordered_core : forall root, ordered (fun _ => False) (core_actions root).
Proof using. clear set_order.
  intros. unfold core_actions. apply ordered_app.
  - apply ordered_flat. intros p _. apply ordered_process.
  - destruct (document_elements t_collaboration root) as [|c r]; [exact Logic.I|]. split; [exact Logic.I|].
    apply ordered_flat. intros [g a ks|t|t] _; [destruct (_ =? _); [|destruct (_ =? _)]| |]; repeat split.
Qed.

(** Lists of flows are lists, in every state on the way. *)
Definition good (O : owner -> Prop) (d : diagram) : Prop :=
  (forall n out, listy (attr d n (list_key out))) /\ (forall o, O o -> owner_ready d o).
Lemma listy_missing : forall f v, listy v -> listy (add_missing f v).
Proof using. clear set_order. intros f [[]|]; simpl; auto. destruct (smem f l); exact (fun _ => Logic.I). Qed.
Lemma good_step : forall plane a O d, good O d -> static plane a -> match a with ANode o _ => O o | _ => True end ->
  exists d', act plane a d = (d', Ok tt) /\ good (fun o => O o \/ owner_made a o) d'.
Proof.
  intros plane a O d [L W] S Ho. assert (R : ready plane d a).
  { destruct a as [e|o e|o x| |c|x|x]; cbn [ready static] in *; auto.
    - destruct S as (T & [i Hi] & [j Hj]). split; [exact T|]. exists i, j. unfold node_ready. rewrite !reference_list_collect. auto.
    - destruct S as [cs Hc]. exists cs. split; [exact Hc|]. split; [apply (L _ true)|apply (L _ false)].
    - split; [apply (L _ true)|apply (L _ false)]. }
  destruct (act_effect set_order plane a d R) as [d' [E F]]. exists d'. split; [exact E|]. split.
  - intros n out. rewrite (ef_attr _ _ _ _ _ F) by (destruct out; discriminate). specialize (L n out).
    assert (J : forall x, listy (join_eff x n (list_key out) (attr d n (list_key out)))).
    { intros x. unfold join_eff. destruct (_ && _); [apply listy_missing; exact L|].
      destruct (_ && _); [apply listy_missing; exact L|exact L]. }
    destruct a as [e|o e|o x| |c|x|x]; cbn [ActionFacts.attr_eff]; try exact L; try apply J.
    + destruct (n =? eid e); [|exact L]. destruct S as (T & _). unfold overlay. rewrite all_fields_list; [exact Logic.I|].
      assert (De : exists g b ks, e = DElem g b ks).
      { destruct e as [g b ks|t|t]; [eauto|discriminate T|discriminate T]. }
      destruct De as (g & b & ks & ->). apply kind_types. exact T.
    + destruct (_ && _); [|exact L]. unfold overlay, part_fields. destruct out; exact L.
  - intros o' [Ho'|Ho'].
    + specialize (W o' Ho'). destruct o' as [p|q]; destruct W as [l Hl]; cbn [owner_ready].
      * rewrite (ef_proc _ _ _ _ _ F), Hl.
        destruct a as [e|o e|o x| |c|x|x]; cbn [proc_eff]; eauto.
        -- destruct (p =? eid e); [|eauto]. exists []. unfold process_dict. destruct (elements_in "laneSet" e); [reflexivity|].
           destruct (import_lanes plane d0); [|reflexivity]. rewrite dget_dset_ne by discriminate. reflexivity.
        -- unfold ids_step. destruct (_ && _); cbn [snoc_ids]; eauto.
      * rewrite (ef_ids _ _ _ _ _ F), Hl. destruct a as [e|o e|o x| |c|x|x]; cbn [ids_eff]; eauto.
        destruct (_ && _); [eauto|]. unfold ids_step. destruct (match o with InProcess _ => _ | InSubprocess _ => _ end); cbn [snoc_ids]; eauto.
    + destruct a as [e|o e|o x| |c|x|x]; cbn [owner_made] in Ho'; try contradiction.
      * subst o'. cbn [owner_ready]. rewrite (ef_proc _ _ _ _ _ F). cbn [proc_eff]. rewrite eqb_refl'. exists [].
        unfold process_dict. destruct (elements_in "laneSet" e); [reflexivity|].
        destruct (import_lanes plane d0); [|reflexivity]. rewrite dget_dset_ne by discriminate. reflexivity.
      * destruct Ho' as [H ->]. cbn [owner_ready]. rewrite (ef_ids _ _ _ _ _ F). cbn [ids_eff].
        rewrite eqb_refl'. rewrite (proj2 (String.eqb_eq _ _) H). cbn [andb]. eauto.
Qed.
Lemma run_succeeds : forall plane A O d, good O d -> ordered O A -> Forall (static plane) A ->
  exists d', mfor A (act plane) d = (d', Ok tt).
Proof.
  intros plane. induction A as [|a A IH]; intros O d G Or S; [eexists; reflexivity|]. destruct Or as [O1 O2].
  inversion S as [|? ? S1 S2]; subst. destruct (good_step plane a O d G S1 O1) as [d1 [E G1]].
  destruct (IH _ d1 G1 O2 S2) as [d' E']. exists d'. cbn [mfor]. rewrite (mbind_eq _ _ _ _ _ _ _ _ E). exact E'.
Qed.
Lemma ready_static : forall plane d a, ready plane d a -> static plane a.
Proof using. clear set_order.
  intros plane d [e|o e|o x| |c|x|x] R; cbn [ready static] in *; auto.
  - destruct R as (T & i & j & Hi & Hj & _). rewrite reference_list_collect in Hi, Hj. eauto.
  - destruct R as (cs & H & _). eauto.
Qed.

(** Messages come from the document. *)
Lemma messages_from : forall root A c0 c1, incl A (core_actions root) ->
  (forall c, c0 = Some c -> forall g r, dget g (co_messages c) = Some r -> exists m, message_in root m /\ r = flow_record m) ->
  fold_left (fun c a => collab_eff a c) A c0 = Some c1 ->
  forall g r, dget g (co_messages c1) = Some r -> exists m, message_in root m /\ r = flow_record m.
Proof using. clear set_order.
  intros root. induction A as [|a A IHA]; intros c0 c1 In_ Hc Hf; [cbn [fold_left] in Hf; eauto|].
  cbn [fold_left] in Hf. refine (IHA _ _ (fun b Hb => In_ b (or_intror Hb)) _ Hf).
  intros c2 Ec2 g2 r2 G2. pose proof (core_explained root) as X. rewrite Forall_forall in X. specialize (X a (In_ a (or_introl eq_refl))).
  destruct a as [e|o e|o x| |e|x|x]; cbn [collab_eff] in Ec2; eauto.
  - inv Ec2. discriminate.
  - destruct c0 as [c3|]; [|discriminate]. inv Ec2. cbn [co_messages] in G2. eauto.
  - destruct c0 as [c3|]; [|discriminate]. inv Ec2. cbn [co_messages] in G2. rewrite dget_dset in G2.
    destruct (g2 =? get_attribute "id" x); [inv G2; exists x; auto|eauto].
Qed.

(** The state after the actions. *)
Section Mid.
Variables (root pe de : dom) (mid : diagram).
Hypothesis E : effs set_order pe (core_actions root) (start de pe empty_diagram) mid.
Lemma mid_type : forall n, (exists v, attr mid n "type" = Some v) <->
  (exists s x, declared root s x /\ eid x = n) \/
  (exists x, participant_in root x /\ get_attribute "processRef" x = "" /\ eid x = n).
Proof.
  intros n. rewrite (es_attr _ _ _ _ _ E) by discriminate. change (attr (start de pe empty_diagram) n "type") with (@None pyval).
  set (P := fun a => node_action n a || part_action n a).
  destruct (existsb P (core_actions root)) eqn:X.
  - split.
    + intros _. apply existsb_exists in X. destruct X as [a [Ia Pa]]. pose proof (core_explained root) as Y. rewrite Forall_forall in Y.
      specialize (Y a Ia). unfold P in Pa. destruct a as [e|o e|o x| |c|x|x]; try discriminate Pa; cbn [node_action part_action orb explained] in *.
      * rewrite orb_false_r in Pa. apply String.eqb_eq in Pa. destruct Y as [s [Y _]]. left. exists s, e. auto.
      * apply andb_true_iff in Pa. destruct Pa as [P1 P2]. apply String.eqb_eq in P1, P2. right. exists x. auto.
    + intros _. destruct (last_split _ P (core_actions root) X) as (A1 & a & A2 & EA & Ha & Last).
      rewrite EA, fold_left_app. cbn [fold_left]. rewrite attr_effs_other.
      * unfold P in Ha. destruct a as [e|o e|o x| |c|x|x]; try discriminate Ha; cbn [node_action part_action orb ActionFacts.attr_eff] in *.
        -- rewrite orb_false_r in Ha. rewrite Ha. unfold overlay, all_fields.
           assert (Q : exists v, dget "type" (rev (node_fields set_order o e (refs "incoming" e) (refs "outgoing" e))) = Some v).
           { unfold node_fields. rewrite rev_app_distr, dget_app. destruct (dget "type" (rev (late_fields _ _ _ _))); [eauto|].
             exists (VStr (d_local e)). reflexivity. }
           destruct Q as [v ->]. eauto.
        -- rewrite Ha. unfold overlay, part_fields. cbn. eauto.
      * simpl. intuition discriminate.
      * intros b Hb. specialize (Last b Hb). unfold P in Last. apply orb_false_iff in Last. exact (proj1 Last).
      * intros b Hb. specialize (Last b Hb). unfold P in Last. apply orb_false_iff in Last. exact (proj2 Last).
  - split; [|intros H; exfalso].
    + assert (No : forall b, In b (core_actions root) -> node_action n b = false /\ part_action n b = false).
      { intros b Hb. assert (Pb : P b = false).
        { destruct (P b) eqn:Pb; [|reflexivity]. rewrite <- X. symmetry. apply existsb_exists. eauto. }
        unfold P in Pb. apply orb_false_iff in Pb. exact Pb. }
      rewrite attr_effs_other; [intros [v Hv]; discriminate|simpl; intuition discriminate| |]; intros b Hb; apply No; exact Hb.
    + assert (existsb P (core_actions root) = true); [|congruence]. apply existsb_exists. destruct H as [(s & x & D & Ex)|(x & D & Er & Ex)].
      * exists (ANode (owner_of s) x). split; [apply declared_action; exact D|]. unfold P. cbn [node_action]. rewrite Ex, eqb_refl'. reflexivity.
      * exists (APart x). split; [apply participant_action; exact D|]. unfold P. cbn [node_action part_action]. rewrite Ex, Er, !eqb_refl'. reflexivity.
Qed.
Lemma mid_known : forall g r, known_flow mid g = Some r ->
  (exists s f, flow_in root s f /\ eid f = g /\ r = flow_record f) \/ (exists m, message_in root m /\ r = flow_record m).
Proof.
  intros g r K. unfold known_flow in K. destruct (dget g (seq_flows mid)) as [r1|] eqn:Er.
  - inv K. left. rewrite (es_flows _ _ _ _ _ E) in Er. change (seq_flows (start de pe empty_diagram)) with (@nil (string * flow_rec)) in Er.
    assert (Q : forall A F, incl A (core_actions root) -> (forall r, dget g F = Some r -> exists s f, flow_in root s f /\ eid f = g /\ r = flow_record f) ->
       forall r, dget g (fold_left (fun f a => flows_eff a f) A F) = Some r -> exists s f, flow_in root s f /\ eid f = g /\ r = flow_record f).
    { induction A as [|a A IH]; intros F In_ HF r0 H0; [eauto|]. cbn [fold_left] in H0.
      refine (IH _ (fun b Hb => In_ b (or_intror Hb)) _ _ H0). intros r1 H1.
      pose proof (core_explained root) as X. rewrite Forall_forall in X. specialize (X a (In_ a (or_introl eq_refl))).
      destruct a as [e|o e|o x| |c|x|x]; cbn [flows_eff] in H1; eauto. rewrite dget_dset in H1.
      destruct (String.eqb_spec g (eid x)) as [Eg|]; [|eauto]. inv H1. destruct X as [s [X _]]. exists s, x. auto. }
    apply (Q _ [] (incl_refl _)) in Er; [exact Er|discriminate].
  - destruct (collaboration mid) as [c|] eqn:Ec; [|discriminate]. rewrite (es_collab _ _ _ _ _ E) in Ec.
    change (collaboration (start de pe empty_diagram)) with (@None collab) in Ec. right.
    refine (messages_from root _ _ _ (incl_refl _) _ Ec g r K). intros c2 Q. discriminate Q.
Qed.
Lemma mid_edge : forall g r, known_flow mid g = Some r -> edge_b mid (fl_src r) (fl_tgt r) = true.
Proof.
  intros g r K. apply (es_link _ _ _ _ _ E). right. destruct (mid_known g r K) as [(s & f & F & _ & ->)|(m & M & ->)].
  - exists (AFlow (owner_of s) f). split; [apply flow_action; exact F|apply pair_b_refl].
  - exists (AMessage m). split; [apply message_action; exact M|apply pair_b_refl].
Qed.
End Mid.

(** What the importer asks of the children of the plane. *)
Definition plane_child (root x : dom) : Prop :=
  match x with
  | DText _ => True
  | DOther _ => False
  | DElem _ _ _ =>
      d_local x = "BPMNShape" ->
      (exists b, first_bounds x = Ok b) /\
      ((exists s f, flow_in root s f /\ (get_attribute "sourceRef" f = elt x \/ get_attribute "targetRef" f = elt x)) \/
       (exists f, message_in root f /\ (get_attribute "sourceRef" f = elt x \/ get_attribute "targetRef" f = elt x)) ->
       (exists s y, declared root s y /\ eid y = elt x) \/
       (exists y, participant_in root y /\ get_attribute "processRef" y = "" /\ eid y = elt x))
  end.
Theorem load_ok_iff : forall root, (exists d', load root empty_diagram = (d', Ok tt)) <->
  exists de pe, heads root de pe /\ Forall (static pe) (core_actions root) /\ Forall (plane_child root) (d_kids pe).
Proof.
  intros root.
  assert (Pl : forall de pe mid, effs set_order pe (core_actions root) (start de pe empty_diagram) mid ->
     forall x, di_ready mid x <-> plane_child root x).
  { intros de pe mid E x. unfold di_ready, plane_child. destruct x as [g a ks|t|t]; [|tauto|tauto].
    set (x := DElem g a ks). destruct (String.eqb_spec (d_local x) "BPMNShape") as [L|L].
    - rewrite (mid_type root pe de mid E).
      assert (N : is_node mid (elt x) <-> exists a, In a (core_actions root) /\ node_new a (elt x)).
      { rewrite (es_node _ _ _ _ _ E). change (is_node (start de pe empty_diagram) (elt x)) with False. tauto. }
      split.
      + intros [B T] _. split; [exact B|]. intros F. apply T. apply N. destruct F as [(s & f & F & Q)|(f & F & Q)].
        * exists (AFlow (owner_of s) f). split; [apply flow_action; exact F|]. cbn [node_new]. destruct Q; auto.
        * exists (AMessage f). split; [apply message_action; exact F|]. cbn [node_new]. destruct Q; auto.
      + intros H. destruct (H L) as [B T]. split; [exact B|]. intros Nx. apply N in Nx. destruct Nx as [b [Ib Nb]].
        pose proof (core_explained root) as Y. rewrite Forall_forall in Y. specialize (Y b Ib).
        destruct b as [e|o e|o y| |c|y|y]; cbn [node_new explained] in *; try contradiction.
        * left. destruct Y as [s [Y _]]. exists s, e. auto.
        * apply T. left. destruct Y as [s [Y _]]. exists s, y. split; [exact Y|]. destruct Nb; auto.
        * right. exists y. destruct Nb; auto.
        * apply T. right. exists y. split; [exact Y|]. destruct Nb; auto.
    - split; [intros _ C; contradiction|]. intros _. destruct (_ =? _); [|exact Logic.I]. intros r K.
      eapply mid_edge; eauto. }
  split.
  - intros [d' H]. destruct (load_loaded _ _ _ _ H) as (de & pe & mid & [Hh E R _ Run]). exists de, pe. split; [exact Hh|].
    split.
    + apply Forall_forall. intros a Ia. destruct (Run a Ia) as [d0 R0]. eapply ready_static; eauto.
    + rewrite Forall_forall in *. intros x Hx. apply (Pl de pe mid E). apply R. exact Hx.
  - intros (de & pe & Hh & S & P).
    destruct (run_succeeds pe (core_actions root) (fun _ => False) (start de pe empty_diagram)) as [mid Em].
    + split; [|intros o []]. intros n out. destruct out; exact Logic.I.
    + apply ordered_core.
    + exact S.
    + pose proof (run_effects set_order pe _ _ _ (core_actions_typed root) Em) as E.
      destruct (di_succeeds mid (d_kids pe) mid (di_base_refl mid)) as [d' Ed].
      * rewrite Forall_forall in *. intros x Hx. apply (Pl de pe mid E). apply P. exact Hx.
      * exists d'. eapply load_parts_ok; eauto.
Qed.
End LoadOk.
