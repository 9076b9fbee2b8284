(** The effect of the diagram interchange part of the importer. *)
From Coq Require Import String List Bool Arith Lia.
From Verif Require Import Py PyFacts Consts Nx NxFacts Rep SpecRep RepFacts CsvRegex CsvImport CsvFacts Xml Import XmlOps
  ImportFacts ActionFacts.
Import ListNotations.
Open Scope string_scope.
Open Scope list_scope.

Notation elt x := (get_attribute "bpmnElement" x).
Definition bounds_of (x : dom) : dom := match first_bounds x with Ok b => b | Err _ => DText "" end.
Definition node_b (d : diagram) (n : string) : bool := has_node (dgraph d) n.
Lemma node_b_spec : forall d n, node_b d n = true <-> is_node d n.
Proof. intros. unfold node_b, has_node. rewrite dhas_true. reflexivity. Qed.
Definition is_sub (d : diagram) (n : string) : bool :=
  match attr d n "type" with Some v => veqs v "subProcess" | None => false end.

Definition shape_fields (x : dom) (sub : bool) : list (string * pyval) :=
  [("width", VStr (get_attribute "width" (bounds_of x))); ("height", VStr (get_attribute "height" (bounds_of x)))]
  ++ (if sub then [("isExpanded", VStr (attribute_or "isExpanded" "false" x))] else [])
  ++ [("x", VStr (get_attribute "x" (bounds_of x))); ("y", VStr (get_attribute "y" (bounds_of x)))].
Definition line_fields (x : dom) (r : flow_rec) : list (string * pyval) :=
  [("waypoints", VPoints (imported_waypoints x)); ("name", VStr (fl_name r))].

Definition shape_attr (d : diagram) (x : dom) (n k : string) (v : option pyval) : option pyval :=
  if (d_local x =? "BPMNShape") && (n =? elt x) && node_b d n then overlay (shape_fields x (is_sub d n)) k v else v.
Definition line_attr (d : diagram) (x : dom) (a b k : string) (v : option pyval) : option pyval :=
  if d_local x =? "BPMNEdge" then
    match known_flow d (elt x) with
    | Some r => if pair_b a b (fl_src r) (fl_tgt r) then overlay (line_fields x r) k v else v
    | None => v
    end
  else v.
Definition part_shape (x : dom) (c : option collab) : option collab :=
  if d_local x =? "BPMNShape" then
    option_map (fun c => match dget (elt x) (co_participants c) with
      | None => c
      | Some a => mkCollab (co_id c)
          (dset (elt x)
             (dset "y" (VStr (get_attribute "y" (bounds_of x))) (dset "x" (VStr (get_attribute "x" (bounds_of x)))
             (dset "height" (VStr (get_attribute "height" (bounds_of x)))
             (dset "width" (VStr (get_attribute "width" (bounds_of x)))
             (dset "isHorizontal" (VStr (get_attribute "isHorizontal" x)) a)))))
             (co_participants c)) (co_messages c)
      end) c
  else c.

Definition di_ready (d : diagram) (x : dom) : Prop :=
  match x with
  | DText _ => True
  | DOther _ => False
  | DElem _ _ _ =>
      if d_local x =? "BPMNShape" then
        (exists b, first_bounds x = Ok b) /\ (is_node d (elt x) -> exists v, attr d (elt x) "type" = Some v)
      else if d_local x =? "BPMNEdge" then
        forall r, known_flow d (elt x) = Some r -> edge_b d (fl_src r) (fl_tgt r) = true
      else True
  end.

Record di_eff (x : dom) (d d' : diagram) : Prop := mkDi {
  de_attr : forall n k, attr d' n k = shape_attr d x n k (attr d n k);
  de_node : forall n, is_node d' n <-> is_node d n;
  de_edge : forall a b k, edge_attr d' a b k = line_attr d x a b k (edge_attr d a b k);
  de_link : forall a b, edge_b d' a b = edge_b d a b;
  de_flows : seq_flows d' = seq_flows d;
  de_procs : procs d' = procs d;
  de_collab : collaboration d' = part_shape x (collaboration d);
  de_diag : diag_attrs d' = diag_attrs d;
  de_plane : plane_attrs d' = plane_attrs d }.

Definition di_step (x : dom) : MD unit :=
  match x with
  | DText _ => mret tt
  | DOther _ => mraise AttributeError
  | DElem _ _ _ => if String.eqb (d_local x) t_bpmn_shape then import_shape_di x
                   else if String.eqb (d_local x) t_bpmn_edge then import_flow_di x else mret tt
  end.
Lemma import_di_steps : forall plane d, import_di plane d = mfor (d_kids plane) di_step d.
Proof. reflexivity. Qed.

Lemma di_eff_skip : forall x d, (d_local x =? "BPMNShape") = false -> (d_local x =? "BPMNEdge") = false -> di_eff x d d.
Proof.
  intros x d H1 H2. constructor; intros; try reflexivity; unfold shape_attr, line_attr, part_shape;
    rewrite ?H1, ?H2; reflexivity.
Qed.

Definition shape_collab (x : dom) (d : diagram) : diagram :=
    match collaboration d with
    | None => d
    | Some c =>
        match dget (elt x) (co_participants c) with
        | None => d
        | Some a => set_participant (elt x) (dset "y" (VStr (get_attribute "y" (bounds_of x)))
                      (dset "x" (VStr (get_attribute "x" (bounds_of x)))
                      (dset "height" (VStr (get_attribute "height" (bounds_of x)))
                      (dset "width" (VStr (get_attribute "width" (bounds_of x)))
                      (dset "isHorizontal" (VStr (get_attribute "isHorizontal" x)) a))))) d
        end
    end.
Lemma shape_collab_frame : forall x d, dgraph (shape_collab x d) = dgraph d /\
  seq_flows (shape_collab x d) = seq_flows d /\ procs (shape_collab x d) = procs d /\
  diag_attrs (shape_collab x d) = diag_attrs d /\ plane_attrs (shape_collab x d) = plane_attrs d.
Proof.
  intros. unfold shape_collab, set_participant. destruct (collaboration d) as [c|] eqn:C; [|repeat split].
  destruct (dget _ _); repeat split.
Qed.

Lemma shape_effect : forall x d b, d_local x = "BPMNShape" -> first_bounds x = Ok b ->
  (is_node d (elt x) -> exists v, attr d (elt x) "type" = Some v) ->
  exists d', import_shape_di x d = (d', Ok tt) /\ di_eff x d d'.
Proof.
  intros x d b L F T. unfold import_shape_di. change k_bpmn_element with "bpmnElement".
  assert (Bo : bounds_of x = b) by (unfold bounds_of; rewrite F; reflexivity).
  assert (G : forall d1, (forall n k, attr d1 n k = shape_attr d x n k (attr d n k)) ->
     (forall n, is_node d1 n <-> is_node d n) -> gedges (dgraph d1) = gedges (dgraph d) -> same_rest d d1 ->
     di_eff x d (shape_collab x d1)).
  { intros d1 A N Ge (R1 & R2 & R3 & R4 & R5). destruct (shape_collab_frame x d1) as (S0 & S1 & S2 & S3 & S4).
    constructor; try congruence.
    - intros. rewrite <- A. unfold attr, node_of. rewrite S0. reflexivity.
    - intros. rewrite <- N. unfold is_node. rewrite S0. tauto.
    - intros. unfold line_attr. rewrite L. cbn. unfold edge_attr, find_edge. rewrite S0, Ge. reflexivity.
    - intros. unfold edge_b, has_edge, find_edge. rewrite S0, Ge. reflexivity.
    - unfold shape_collab, part_shape. rewrite L, R5. cbn [String.eqb Ascii.eqb Bool.eqb].
      unfold set_participant. rewrite R5.
      destruct (collaboration d) as [c|] eqn:C; simpl; [|exact R5].
      destruct (dget (elt x) (co_participants c)) as [a|]; simpl; [reflexivity|exact R5]. }
  rewrite (mbind_eq _ _ _ _ _ _ d b); [|unfold mread; rewrite F; reflexivity].
  rewrite (mbind_eq _ _ _ _ _ _ d (node_b d (elt x))); [|reflexivity].
  destruct (node_b d (elt x)) eqn:Nb.
  - pose proof (proj1 (node_b_spec _ _) Nb) as Hn. destruct (T Hn) as [v Tv].
    assert (Q : exists d1, (do_ node_set (elt x) k_width (VStr (get_attribute k_width b)) ;;
         do_ node_set (elt x) k_height (VStr (get_attribute k_height b)) ;;
         do t <- gread (get_node_attr (elt x) k_type) ;;
         do_ (if veqs t t_subprocess then node_set (elt x) k_is_expanded (VStr (attribute_or k_is_expanded "false" x))
              else mret tt) ;;
         do_ node_set (elt x) k_x (VStr (get_attribute k_x b)) ;;
         node_set (elt x) k_y (VStr (get_attribute k_y b))) d = (d1, Ok tt) /\
       (forall n k, attr d1 n k = shape_attr d x n k (attr d n k)) /\
       (forall n, is_node d1 n <-> is_node d n) /\ gedges (dgraph d1) = gedges (dgraph d) /\ same_rest d d1).
    { destruct (set_all_spec (elt x) [("width", VStr (get_attribute "width" b)); ("height", VStr (get_attribute "height" b))] d Hn)
        as [e1 [E1 [A1 [N1 [G1 R1]]]]].
      set (rest := (if is_sub d (elt x) then [("isExpanded", VStr (attribute_or "isExpanded" "false" x))] else []) ++
             [("x", VStr (get_attribute "x" b)); ("y", VStr (get_attribute "y" b))]).
      destruct (set_all_spec (elt x) rest e1) as [e2 [E2 [A2 [N2 [G2 R2]]]]]; [apply N1; exact Hn|].
      exists e2. split; [|split; [|split; [|split]]].
      - transitivity ((do_ set_all (elt x) [("width", VStr (get_attribute "width" b)); ("height", VStr (get_attribute "height" b))] ;;
            do t <- gread (get_node_attr (elt x) k_type) ;;
            do_ (if veqs t t_subprocess then node_set (elt x) k_is_expanded (VStr (attribute_or k_is_expanded "false" x))
              else mret tt) ;;
            do_ node_set (elt x) k_x (VStr (get_attribute k_x b)) ;;
            node_set (elt x) k_y (VStr (get_attribute k_y b))) d).
        { unfold set_all. cbn [mfor fst snd]. rewrite mbind_assoc. apply mbind_ext; [reflexivity|intros _ s1].
          rewrite mbind_assoc. apply mbind_ext; [reflexivity|intros _ s2]. reflexivity. }
        rewrite (mbind_eq _ _ _ _ _ _ _ _ E1).
        assert (Tv1 : attr e1 (elt x) "type" = Some v).
        { rewrite A1, eqb_refl'. cbn. exact Tv. }
        rewrite (mbind_eq _ _ _ _ _ _ e1 v).
        2: { unfold gread, mread, get_node_attr, gnode. unfold attr, node_of in Tv1.
             destruct (dget (elt x) (gnodes (dgraph e1))); [|discriminate]. unfold dgetE. change k_type with "type".
             rewrite Tv1. reflexivity. }
        rewrite <- E2. unfold rest, is_sub. rewrite Tv. change t_subprocess with "subProcess".
        destruct (veqs v "subProcess"); unfold set_all; cbn [mfor app fst snd].
        + repeat (apply mbind_ext; [reflexivity|intros ? ?]). symmetry. apply mbind_ret_r.
        + rewrite (mbind_eq _ _ _ (mret tt) _ _ e1 tt) by reflexivity.
          repeat (apply mbind_ext; [reflexivity|intros ? ?]). symmetry. apply mbind_ret_r.
      - intros n k. rewrite A2, A1. unfold shape_attr. rewrite L. cbn [String.eqb Ascii.eqb Bool.eqb andb].
        destruct (String.eqb_spec n (elt x)); [|reflexivity]. subst n. rewrite Nb. cbn [andb].
        unfold overlay, shape_fields. rewrite Bo. fold rest.
        rewrite rev_app_distr, dget_app. destruct (dget k (rev rest)); reflexivity.
      - intros n. rewrite N2. apply N1.
      - congruence.
      - eapply same_rest_trans; eauto. }
    destruct Q as [d1 [E [A [N [Ge R]]]]]. rewrite (mbind_eq _ _ _ _ _ _ _ _ E).
    exists (shape_collab x d1). split; [|apply G; assumption].
    unfold shape_collab. rewrite Bo. reflexivity.
  - rewrite (mbind_eq _ _ _ _ _ _ d tt) by reflexivity.
    exists (shape_collab x d). split; [unfold shape_collab; rewrite Bo; reflexivity|].
    apply G; try reflexivity; [|repeat split].
    intros n k. unfold shape_attr. destruct (String.eqb_spec n (elt x)); [subst n; rewrite Nb, andb_false_r; reflexivity|].
    rewrite andb_false_r. reflexivity.
Qed.

Lemma line_effect : forall x d, d_local x = "BPMNEdge" ->
  (forall r, known_flow d (elt x) = Some r -> edge_b d (fl_src r) (fl_tgt r) = true) ->
  exists d', import_flow_di x d = (d', Ok tt) /\ di_eff x d d'.
Proof.
  intros x d L T. unfold import_flow_di. change k_bpmn_element with "bpmnElement".
  rewrite (mbind_eq _ _ _ _ _ _ d (known_flow d (elt x))) by reflexivity.
  assert (Sh : forall n k v, shape_attr d x n k v = v) by (intros; unfold shape_attr; rewrite L; reflexivity).
  assert (Pa : forall c, part_shape x c = c) by (intros; unfold part_shape; rewrite L; reflexivity).
  destruct (known_flow d (elt x)) as [r|] eqn:K.
  - destruct (set_edge_spec (fl_src r) (fl_tgt r) (line_fields x r) d (T r eq_refl)) as [d' [E [A [B [Gn R]]]]].
    exists d'. split.
    + rewrite <- E. unfold set_edge, line_fields. cbn [mfor fst snd]. apply mbind_ext; [reflexivity|].
      intros. symmetry. apply mbind_ret_r.
    + destruct (attr_graph _ _ Gn) as [An Nn]. destruct R as (R1 & R2 & R3 & R4 & R5).
      constructor; auto.
      * intros. rewrite Sh. apply An.
      * intros. rewrite A. unfold line_attr. rewrite L, K. reflexivity.
      * rewrite Pa. exact R5.
  - exists d. split; [reflexivity|]. constructor; intros; auto; try tauto.
    unfold line_attr. rewrite L, K. reflexivity.
Qed.

Lemma di_step_effect : forall x d, di_ready d x -> exists d', di_step x d = (d', Ok tt) /\ di_eff x d d'.
Proof.
  intros [g a ks|s|s] d R; [|exists d; split; [reflexivity|apply di_eff_skip; reflexivity]|destruct R].
  unfold di_ready in R. unfold di_step. change t_bpmn_shape with "BPMNShape". change t_bpmn_edge with "BPMNEdge".
  destruct (String.eqb_spec (d_local (DElem g a ks)) "BPMNShape") as [L|L].
  - destruct R as [[b Hb] T]. eapply shape_effect; eauto.
  - destruct (String.eqb_spec (d_local (DElem g a ks)) "BPMNEdge") as [L2|L2].
    + apply line_effect; auto.
    + exists d. split; [reflexivity|]. apply di_eff_skip; apply eqb_neq'; assumption.
Qed.

Lemma shape_ok : forall x d d', import_shape_di x d = (d', Ok tt) ->
  (exists b, first_bounds x = Ok b) /\ (is_node d (elt x) -> exists v, attr d (elt x) "type" = Some v).
Proof.
  intros x d d' H. unfold import_shape_di in H. apply mbind_ok in H. destruct H as [d1 [b [H1 H]]].
  apply mread_ok in H1. destruct H1 as [-> Hb]. split; [eauto|]. intros Hn.
  apply mbind_ok in H. destruct H as [d1 [kn [H1 H]]]. apply mread_ok in H1. destruct H1 as [-> H1]. inv H1.
  change k_bpmn_element with "bpmnElement" in H.
  assert (Nb : has_node (dgraph d) (elt x) = true) by (apply node_b_spec; exact Hn). rewrite Nb in H.
  apply mbind_ok in H. destruct H as [d1 [[] [H _]]].
  destruct (set_all_spec (elt x) [("width", VStr (get_attribute "width" b)); ("height", VStr (get_attribute "height" b))] d Hn)
        as [e1 [E1 [A1 [N1 [G1 R1]]]]].
  apply mbind_ok in H. destruct H as [d2 [[] [H1 H]]]. apply mbind_ok in H. destruct H as [d3 [[] [H2 H]]].
  assert (d3 = e1).
  { unfold set_all in E1. cbn [mfor fst snd] in E1. rewrite (mbind_eq _ _ _ _ _ _ _ _ H1) in E1.
    rewrite (mbind_eq _ _ _ _ _ _ _ _ H2) in E1. inv E1. reflexivity. }
  subst d3. apply mbind_ok in H. destruct H as [d4 [v [H3 _]]]. apply mread_ok in H3. destruct H3 as [-> H3].
  exists v. assert (H0 : attr e1 (elt x) "type" = Some v).
  { unfold attr, node_of. unfold get_node_attr, gnode in H3. destruct (dget (elt x) (gnodes (dgraph e1))) as [a|]; [|discriminate].
    unfold dgetE in H3. change k_type with "type" in H3. destruct (dget "type" a); inv H3. reflexivity. }
  rewrite A1, eqb_refl' in H0. exact H0.
Qed.
Lemma line_ok : forall x d d', import_flow_di x d = (d', Ok tt) ->
  forall r, known_flow d (elt x) = Some r -> edge_b d (fl_src r) (fl_tgt r) = true.
Proof.
  intros x d d' H r K. unfold import_flow_di in H. apply mbind_ok in H. destruct H as [d1 [k [H1 H]]].
  apply mread_ok in H1. destruct H1 as [-> H1]. change k_bpmn_element with "bpmnElement" in H1. rewrite K in H1. inv H1.
  apply mbind_ok in H. destruct H as [d2 [[] [H _]]]. unfold edge_set, ggraph, mtry, set_edge_attr in H.
  unfold edge_b. destruct (has_edge _ _ _); [reflexivity|discriminate].
Qed.
Lemma di_step_ok : forall x d d', di_step x d = (d', Ok tt) -> di_ready d x.
Proof.
  intros [g a ks|s|s] d d' H; [|exact I|discriminate].
  unfold di_ready. unfold di_step in H. change t_bpmn_shape with "BPMNShape" in H. change t_bpmn_edge with "BPMNEdge" in H.
  destruct (d_local (DElem g a ks) =? "BPMNShape").
  - eapply shape_ok; eauto.
  - destruct (d_local (DElem g a ks) =? "BPMNEdge"); auto. eapply line_ok; eauto.
Qed.

(** * All steps *)
(** What the steps depend on does not change on the way. *)
Definition di_base (d0 d : diagram) : Prop :=
  (forall n, is_node d n <-> is_node d0 n) /\ (forall n, attr d n "type" = attr d0 n "type") /\
  (forall f, known_flow d f = known_flow d0 f) /\ (forall a b, edge_b d a b = edge_b d0 a b).
Lemma di_base_refl : forall d, di_base d d.
Proof. intros. repeat split; auto. Qed.
Lemma bool_iff : forall a b : bool, (a = true <-> b = true) -> a = b.
Proof. intros [|] [|] H; auto; [symmetry; apply H; auto|apply H; auto]. Qed.
Lemma di_base_step : forall d0 x d d', di_base d0 d -> di_eff x d d' -> di_base d0 d'.
Proof.
  intros d0 x d d' (B1 & B2 & B3 & B4) [D1 D2 D3 D4 D5 D6 D7 D8 D9].
  split; [|split; [|split]].
  - intros. rewrite D2. apply B1.
  - intros. rewrite D1, <- B2. unfold shape_attr. destruct (_ && _ && _); auto.
    unfold overlay, shape_fields. destruct (is_sub d n); reflexivity.
  - intros f. rewrite <- B3. unfold known_flow. rewrite D5, D7. destruct (dget f (seq_flows d)); auto.
    unfold part_shape. destruct (d_local x =? "BPMNShape"); auto. destruct (collaboration d) as [c|]; simpl; auto.
    destruct (dget (elt x) (co_participants c)); auto.
  - intros. rewrite D4. apply B4.
Qed.
Lemma di_base_ready : forall d0 d x, di_base d0 d -> (di_ready d x <-> di_ready d0 x).
Proof.
  intros d0 d x (B1 & B2 & B3 & B4). unfold di_ready. destruct x as [g a ks|s|s]; try tauto.
  destruct (_ =? "BPMNShape").
  - rewrite B1, B2. tauto.
  - destruct (_ =? "BPMNEdge"); [|tauto]. rewrite B3. split; intros H r K; [rewrite <- B4|rewrite B4]; apply H; exact K.
Qed.
Lemma di_base_attr : forall d0 d x n k v, di_base d0 d -> shape_attr d x n k v = shape_attr d0 x n k v.
Proof.
  intros d0 d x n k v (B1 & B2 & _). unfold shape_attr, is_sub. rewrite B2.
  replace (node_b d n) with (node_b d0 n); [reflexivity|]. apply bool_iff. rewrite !node_b_spec. symmetry. apply B1.
Qed.
Lemma di_base_line : forall d0 d x a b k v, di_base d0 d -> line_attr d x a b k v = line_attr d0 x a b k v.
Proof. intros d0 d x a b k v (_ & _ & B3 & _). unfold line_attr. rewrite B3. reflexivity. Qed.

Record di_effs (d0 : diagram) (X : list dom) (d d' : diagram) : Prop := mkDis {
  ds_attr : forall n k, attr d' n k = fold_left (fun v x => shape_attr d0 x n k v) X (attr d n k);
  ds_node : forall n, is_node d' n <-> is_node d n;
  ds_edge : forall a b k, edge_attr d' a b k = fold_left (fun v x => line_attr d0 x a b k v) X (edge_attr d a b k);
  ds_link : forall a b, edge_b d' a b = edge_b d a b;
  ds_flows : seq_flows d' = seq_flows d;
  ds_procs : procs d' = procs d;
  ds_collab : collaboration d' = fold_left (fun c x => part_shape x c) X (collaboration d);
  ds_diag : diag_attrs d' = diag_attrs d;
  ds_plane : plane_attrs d' = plane_attrs d }.
Lemma di_effs_cons : forall d0 x X d d1 d', di_base d0 d -> di_eff x d d1 -> di_effs d0 X d1 d' -> di_effs d0 (x :: X) d d'.
Proof.
  intros d0 x X d d1 d' B [D1 D2 D3 D4 D5 D6 D7 D8 D9] [K1 K2 K3 K4 K5 K6 K7 K8 K9].
  constructor; cbn [fold_left]; try congruence; intros.
  - rewrite K1, D1. rewrite (di_base_attr _ _ _ _ _ _ B). reflexivity.
  - rewrite K2. apply D2.
  - rewrite K3, D3. rewrite (di_base_line _ _ _ _ _ _ _ B). reflexivity.
Qed.
Lemma di_run : forall d0 X d d', di_base d0 d -> mfor X di_step d = (d', Ok tt) ->
  Forall (di_ready d0) X /\ di_effs d0 X d d'.
Proof.
  intros d0. induction X as [|x X IH]; intros d d' B H.
  - inv H. split; [constructor|]. constructor; simpl; auto; tauto.
  - cbn [mfor] in H. apply mbind_ok in H. destruct H as [d1 [[] [H1 H]]].
    pose proof (di_step_ok _ _ _ H1) as R. destruct (di_step_effect x d R) as [d1' [E Ef]]. rewrite H1 in E. inv E.
    destruct (IH d1' d' (di_base_step _ _ _ _ B Ef) H) as [F Es]. split.
    + constructor; auto. apply (di_base_ready _ _ _ B). exact R.
    + eapply di_effs_cons; eauto.
Qed.
Lemma di_succeeds : forall d0 X d, di_base d0 d -> Forall (di_ready d0) X ->
  exists d', mfor X di_step d = (d', Ok tt).
Proof.
  intros d0. induction X as [|x X IH]; intros d B F; [eexists; reflexivity|].
  inv F. destruct (di_step_effect x d) as [d1 [E Ef]]; [apply (di_base_ready _ _ _ B); assumption|].
  destruct (IH d1 (di_base_step _ _ _ _ B Ef) H2) as [d' E']. exists d'. cbn [mfor].
  rewrite (mbind_eq _ _ _ _ _ _ _ _ E). exact E'.
Qed.
