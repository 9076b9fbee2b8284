(** The tree the exporter builds, and the document it becomes. *)
From Coq Require Import String List Bool Arith Lia Permutation.
From Verif Require Import Py PyFacts Consts Nx NxFacts Rep SpecRep RepFacts CsvRegex CsvImport CsvFacts Xml Export Import XmlOps
  ImportFacts SpecXml XmlScopes XmlLayout Prop_XmlLayout.
Import ListNotations.
Open Scope string_scope.
Open Scope list_scope.

(** * rmap *)
Lemma rmap_out : forall A B (f : A -> res B) l r, rmap f l = Ok r -> forall y, In y r -> exists x, In x l /\ f x = Ok y.
Proof.
  intros A B f. induction l as [|x l IH]; intros r H y I; cbn [rmap] in H; [inv H; destruct I|].
  destruct (f x) as [b|] eqn:F; [|discriminate]. cbn [rbind] in H. destruct (rmap f l) as [a|] eqn:R; [|discriminate]. inv H.
  destruct I as [<- |I]; [exists x; split; [left; reflexivity|exact F]|]. destruct (IH _ eq_refl y I) as [z [? ?]]. exists z. split; [right|]; assumption.
Qed.
Lemma rmap_from : forall A B (f : A -> res B) l r, rmap f l = Ok r -> forall x, In x l -> exists y, In y r /\ f x = Ok y.
Proof.
  intros A B f. induction l as [|x l IH]; intros r H y I; cbn [rmap] in H; [destruct I|].
  destruct (f x) as [b|] eqn:F; [|discriminate]. cbn [rbind] in H. destruct (rmap f l) as [a|] eqn:R; [|discriminate]. inv H.
  destruct I as [<- |I]; [exists b; split; [left; reflexivity|exact F]|]. destruct (IH _ eq_refl y I) as [z [? ?]]. exists z. split; [right|]; assumption.
Qed.
Lemma rmap_ext_ok : forall A B (f g : A -> res B) l r, (forall x y, In x l -> f x = Ok y -> g x = Ok y) -> rmap f l = Ok r -> rmap g l = Ok r.
Proof.
  intros A B f g. induction l as [|x l IH]; intros r S H; cbn [rmap] in *; [exact H|].
  destruct (f x) as [b|] eqn:F; [|discriminate]. cbn [rbind] in H. destruct (rmap f l) as [a|] eqn:R; [|discriminate]. inv H.
  rewrite (S x b (or_introl eq_refl) F). cbn [rbind]. rewrite (IH a) by (intros; auto using in_cons). reflexivity.
Qed.
Lemma rmap_some : forall A B (f : A -> res B) l, (forall x, In x l -> exists y, f x = Ok y) -> exists r, rmap f l = Ok r.
Proof.
  intros A B f. induction l as [|x l IH]; intros H; [exists []; reflexivity|]. destruct (H x (or_introl eq_refl)) as [y Hy].
  destruct IH as [r Hr]; [intros; apply H; right; assumption|]. exists (y :: r). cbn [rmap]. rewrite Hy. cbn [rbind]. rewrite Hr. reflexivity.
Qed.

(** * Trees without tails, and their documents *)
(** No text after elements; elements whose text is read have no children. *)
Inductive neat : etree -> Prop :=
| neat_text : forall g a x, neat (E g a x None [])
| neat_kids : forall g a ks, ~ In (local_name g) text_tags -> (forall k, In k ks -> neat k) -> neat (elem g a ks).
Lemma neat_readable : forall t, neat t -> readable t.
Proof.
  induction t as [g a x l ks IH] using etree_ind'. intros H. inversion H; subst; [constructor|]. rewrite Forall_forall in IH.
  apply readable_kids; [assumption|]. intros k Ik. apply IH; auto.
Qed.
Lemma neat_tail : forall t, neat t -> e_tail t = None.
Proof. intros t H. destruct H; reflexivity. Qed.
Definition text_of (p : string * pyval) : string * string := (fst p, match snd p with VStr s => s | _ => "" end).
Definition is_string (p : string * pyval) : Prop := exists s, snd p = VStr s.
Fixpoint dom_of (t : etree) : dom :=
  match t with E g a x _ ks => DElem g (map text_of a) (text_nodes x ++ map dom_of ks) end.
(** Every attribute is a string. *)
Inductive strings : etree -> Prop :=
| strings_elem : forall g a x l ks, (forall p, In p a -> is_string p) -> (forall k, In k ks -> strings k) -> strings (E g a x l ks).
Lemma written_atts : forall a r, rmap written_attribute a = Ok r -> r = map text_of a /\ forall p, In p a -> is_string p.
Proof.
  induction a as [|[k v] a IH]; intros r H; cbn [rmap] in H; [inv H; split; [reflexivity|intros p []]|].
  unfold written_attribute at 1 in H. cbn [snd fst] in H. destruct v; try discriminate. cbn [rbind] in H.
  destruct (rmap written_attribute a) as [r'|]; [|discriminate]. inv H. destruct (IH _ eq_refl) as [-> S]. split; [reflexivity|].
  intros p [<- |I]; [exists s; reflexivity|auto].
Qed.
Lemma written_atts_ok : forall a, (forall p, In p a -> is_string p) -> rmap written_attribute a = Ok (map text_of a).
Proof.
  induction a as [|[k v] a IH]; intros H; [reflexivity|]. cbn [rmap]. unfold written_attribute at 1. cbn [snd fst].
  destruct (H _ (or_introl eq_refl)) as [s Hs]. cbn [snd] in Hs. subst v. cbn [rbind]. rewrite IH by (intros; apply H; right; assumption). reflexivity.
Qed.
Lemma written_neat : forall t, neat t -> forall l, written t = Ok l -> l = [dom_of t] /\ strings t.
Proof.
  induction t as [g a x tl ks IH] using etree_ind'. intros N l H. rewrite written_unfold in H.
  destruct (rmap written_attribute a) as [a'|] eqn:Ea; [|discriminate]. cbn [rbind] in H. apply written_atts in Ea. destruct Ea as [-> Sa].
  destruct (written_list ks) as [k|] eqn:Ek; [|discriminate]. cbn [rbind] in H. inv H.
  assert (T : tl = None) by (inversion N; reflexivity). subst tl. cbn [text_nodes].
  assert (Nk : forall k, In k ks -> neat k) by (inversion N; subst; [intros ? []|assumption]). clear N.
  assert (Q : k = map dom_of ks /\ forall t, In t ks -> strings t).
  { revert k Ek. induction ks as [|y ks IHk]; intros k Ek; cbn [written_list] in Ek; [inv Ek; split; [reflexivity|intros ? []]|].
    inversion IH as [|? ? IH1 IH2]; subst. destruct (written y) as [ly|] eqn:Ey; [|discriminate]. cbn [rbind] in Ek.
    destruct (written_list ks) as [lk|]; [|discriminate]. inv Ek. destruct (IH1 (Nk y (or_introl eq_refl)) _ eq_refl) as [-> Sy].
    destruct (IHk IH2 (fun z Hz => Nk z (or_intror Hz)) _ eq_refl) as [-> Sk]. split; [reflexivity|]. intros t [<- |I]; auto. }
  destruct Q as [-> Sk]. split; [reflexivity|]. constructor; assumption.
Qed.
Lemma written_strings : forall t, neat t -> strings t -> written t = Ok [dom_of t].
Proof.
  induction t as [g a x tl ks IH] using etree_ind'. intros N S. rewrite written_unfold. inversion S as [? ? ? ? ? Sa Sk]; subst.
  rewrite (written_atts_ok _ Sa). cbn [rbind].
  assert (T : tl = None) by (inversion N; reflexivity). subst tl. cbn [text_nodes].
  assert (Nk : forall k, In k ks -> neat k) by (inversion N; subst; [intros ? []|assumption]). clear N S.
  assert (Q : written_list ks = Ok (map dom_of ks)).
  { induction ks as [|y ks IHk]; [reflexivity|]. inversion IH as [|? ? IH1 IH2]; subst. cbn [written_list map].
    rewrite IH1 by (auto using in_eq). cbn [rbind]. rewrite IHk; [reflexivity|assumption|auto using in_cons|auto using in_cons]. }
  rewrite Q. reflexivity.
Qed.
Lemma document_neat : forall t r, neat t -> document t = Ok r -> r = dom_of t /\ strings t.
Proof.
  intros t r N H. unfold document in H. destruct (written t) as [l|] eqn:W; [|discriminate]. destruct (written_neat t N l W) as [-> S].
  inv H. auto.
Qed.
Lemma document_strings : forall t, neat t -> strings t -> document t = Ok (dom_of t).
Proof. intros t N S. unfold document. rewrite (written_strings t N S). reflexivity. Qed.

(** * The exporter *)
Definition node_more (fuel : nat) (d : diagram) (t : string) (a : attrs) : res additions :=
  if smem t task_types then export_task_info a
  else if String.eqb t t_subprocess then
    let* tr := copied k_triggered_by_event a in
    let* sid := dgetE k_id a in
    let* s := match sid with VStr s => Ok s | _ => Err Unmodelled end in
    let* nodes := get_nodes_list_by_process_id s d in
    let* es := rmap (export_node_data fuel d) nodes in
    let* fs := rmap (fun f => export_flow_process_data (snd f)) (get_flows_list_by_process_id s d) in
    Ok (tr :: default_attribute a, es ++ fs)
  else if String.eqb t t_data_object then export_data_object_info a
  else if String.eqb t t_complex_gateway then export_complex_gateway_info a
  else if String.eqb t t_event_based_gateway then export_event_based_gateway_info a
  else if String.eqb t t_inclusive_gateway || String.eqb t t_exclusive_gateway
  then export_inclusive_exclusive_gateway_info a
  else if String.eqb t t_parallel_gateway then export_parallel_gateway_info a
  else if String.eqb t t_start_event then export_start_event_info a
  else if String.eqb t t_intermediate_catch_event then export_catch_event_info a
  else if String.eqb t t_end_event || String.eqb t t_intermediate_throw_event
  then export_throw_event_info a
  else if String.eqb t t_boundary_event then export_boundary_event_info a
  else Ok ([], []).
Definition node_elem (t n : string) (name : pyval) (li lo : list string) (more : additions) : etree :=
  elem t ([("id", VStr n); ("name", name)] ++ fst more)
    (map (text_elem "incoming") li ++ map (text_elem "outgoing") lo ++ snd more).
Record node_parts (fuel : nat) (d : diagram) (n : string) (a : attrs) (t : string) (name : pyval) (li lo : list string)
  (more : additions) (e : etree) : Prop := mkParts {
  np_type : dget "type" a = Some (VStr t);
  np_name : dget "node_name" a = Some name;
  np_ins : dget "incoming" a = Some (VList li);
  np_outs : dget "outgoing" a = Some (VList lo);
  np_more : node_more fuel d t a = Ok more;
  np_elem : e = node_elem t n name li lo more }.
Lemma dgetE_ok : forall k (a : attrs) v, dgetE k a = Ok v <-> dget k a = Some v.
Proof. intros. unfold dgetE. destruct (dget k a); split; intros H; inv H; reflexivity. Qed.
Lemma references_ok : forall k a l, reference_elements k a = Ok l -> exists li, dget k a = Some (VList li) /\ l = map (text_elem k) li.
Proof.
  intros k a l H. unfold reference_elements in H. destruct (dgetE k a) as [v|] eqn:D; [|discriminate]. cbn [rbind] in H.
  apply dgetE_ok in D. destruct v; try discriminate. inv H. eauto.
Qed.
Lemma references_make : forall k a li, dget k a = Some (VList li) -> reference_elements k a = Ok (map (text_elem k) li).
Proof. intros k a li H. unfold reference_elements. rewrite (proj2 (dgetE_ok _ _ _) H). reflexivity. Qed.
Lemma node_inv : forall fuel d n a e, export_node_data fuel d (n, a) = Ok e ->
  exists f t name li lo more, fuel = S f /\ node_parts f d n a t name li lo more e.
Proof.
  intros fuel d n a e H. destruct fuel as [|f]; [discriminate|]. cbn [export_node_data] in H. cbn [snd fst] in H.
  destruct (dgetE k_type a) as [tv|] eqn:Dt; [|discriminate]. cbn [rbind] in H. destruct tv as [|t| | | | |]; try discriminate. cbn [rbind] in H.
  destruct (dgetE k_node_name a) as [name|] eqn:Dn; [|discriminate]. cbn [rbind] in H.
  destruct (reference_elements k_incoming a) as [ins|] eqn:Di; [|discriminate]. cbn [rbind] in H.
  destruct (reference_elements k_outgoing a) as [outs|] eqn:Do; [|discriminate]. cbn [rbind] in H.
  fold (node_more f d t a) in H. destruct (node_more f d t a) as [more|] eqn:Dm; [|discriminate]. cbn [rbind] in H. inv H.
  apply dgetE_ok in Dt, Dn. apply references_ok in Di, Do. destruct Di as [li [Di ->]], Do as [lo [Do ->]].
  exists f, t, name, li, lo, more. split; [reflexivity|]. constructor; auto.
Qed.
Lemma node_make : forall f d n a t name li lo more e, node_parts f d n a t name li lo more e ->
  export_node_data (S f) d (n, a) = Ok e.
Proof.
  intros f d n a t name li lo more e [Ht Hn Hi Ho Hm ->]. cbn [export_node_data]. cbn [snd fst].
  change k_type with "type". change k_node_name with "node_name". change k_incoming with "incoming". change k_outgoing with "outgoing".
  rewrite (proj2 (dgetE_ok _ _ _) Ht), (proj2 (dgetE_ok _ _ _) Hn). cbn [rbind].
  rewrite (references_make _ _ _ Hi), (references_make _ _ _ Ho). cbn [rbind]. fold (node_more f d t a). rewrite Hm. reflexivity.
Qed.

(** More fuel does not change the result. *)
Lemma more_mono : forall f d t a m, (forall na e, export_node_data f d na = Ok e -> export_node_data (S f) d na = Ok e) ->
  node_more f d t a = Ok m -> node_more (S f) d t a = Ok m.
Proof.
  intros f d t a m IH H. unfold node_more in *. destruct (smem t task_types); [exact H|]. destruct (t =? t_subprocess); [|exact H].
  destruct (copied k_triggered_by_event a); [|discriminate]. cbn [rbind] in *.
  destruct (dgetE k_id a) as [sid|]; [|discriminate]. cbn [rbind] in *. destruct sid; try discriminate. cbn [rbind] in *.
  destruct (get_nodes_list_by_process_id s d) as [ns|]; [|discriminate]. cbn [rbind] in *.
  destruct (rmap (export_node_data f d) ns) as [es|] eqn:Es; [|discriminate].
  rewrite (rmap_ext_ok _ _ (export_node_data f d) (export_node_data (S f) d) ns es (fun x y _ Q => IH x y Q) Es). exact H.
Qed.
Lemma node_mono : forall f d na e, export_node_data f d na = Ok e -> export_node_data (S f) d na = Ok e.
Proof.
  intros f d. induction f as [|f IH]; intros [n a] e H; [discriminate|]. destruct (node_inv _ _ _ _ _ H) as (f' & t & name & li & lo & more & Ef & P).
  inv Ef. destruct P as [Ht Hn Hi Ho Hm He]. eapply node_make. econstructor; eauto. apply more_mono; assumption.
Qed.
Lemma node_mono_le : forall f g d na e, f <= g -> export_node_data f d na = Ok e -> export_node_data g d na = Ok e.
Proof. intros f g d na e L. induction L; intros H; [exact H|]. apply node_mono. auto. Qed.
Lemma node_unique : forall f g d na e e', export_node_data f d na = Ok e -> export_node_data g d na = Ok e' -> e = e'.
Proof.
  intros f g d na e e' H H'. apply (node_mono_le f (max f g)) in H; [|lia]. apply (node_mono_le g (max f g)) in H'; [|lia]. congruence.
Qed.

(** The flow element. *)
Record flow_parts (a : attrs) (e : etree) : Prop := mkFlowParts {
  fp_base : exists id name src tgt, dget "id" a = Some id /\ dget "name" a = Some name /\ dget "sourceRef" a = Some src /\
    dget "targetRef" a = Some tgt /\
    ((dget "conditionExpression" a = None /\
      e = elem "sequenceFlow" [("id", id); ("name", name); ("sourceRef", src); ("targetRef", tgt)] []) \/
     (exists cid text, dget "conditionExpression" a = Some (VCond cid text) /\
      e = elem "sequenceFlow" [("id", id); ("name", VStr text); ("sourceRef", src); ("targetRef", tgt)]
            [E "conditionExpression" [("id", VStr cid)] (Some text) None []])) }.
Lemma flow_inv : forall a e, export_flow_process_data a = Ok e -> flow_parts a e.
Proof.
  intros a e H. unfold export_flow_process_data, copied in H.
  destruct (dgetE k_id a) as [id|] eqn:D1; [|discriminate]. destruct (dgetE k_name a) as [nm|] eqn:D2; [|discriminate].
  destruct (dgetE k_source_ref a) as [sr|] eqn:D3; [|discriminate]. destruct (dgetE k_target_ref a) as [tr|] eqn:D4; [|discriminate].
  cbn [rbind] in H. apply dgetE_ok in D1, D2, D3, D4. constructor. exists id, nm, sr, tr. do 4 (split; [assumption|]).
  destruct (dget k_condition_expression a) as [v|] eqn:D5; [|inv H; left; split; [exact D5|reflexivity]].
  destruct v; try discriminate. inv H. right. eexists _, _. split; [exact D5|reflexivity].
Qed.

(** The process element. *)
Definition lanes_out (a : attrs) : res (list etree * list etree) :=
  match dget k_lane_set a with
  | None => Ok ([], [])
  | Some (VLaneSet _ lanes) => let* q := export_lane_set lanes in Ok ([fst q], snd q)
  | Some _ => Err Unmodelled
  end.
Record process_parts (fuel : nat) (d : diagram) (p : string) (a : attrs) (e : etree) (shapes : list etree) : Prop := mkProcParts {
  pp_parts : exists c x t ls nodes es fs, dget "isClosed" a = Some c /\ dget "isExecutable" a = Some x /\
    dget "processType" a = Some t /\ lanes_out a = Ok (ls, shapes) /\
    get_nodes_list_by_process_id p d = Ok nodes /\ rmap (export_node_data fuel d) nodes = Ok es /\
    rmap (fun f => export_flow_process_data (snd f)) (get_flows_list_by_process_id p d) = Ok fs /\
    e = elem "process" [("id", VStr p); ("isClosed", c); ("isExecutable", x); ("processType", t)] (ls ++ es ++ fs) }.
Lemma process_inv : forall fuel d p a r, export_process fuel d (p, a) = Ok r -> process_parts fuel d p a (fst r) (snd r).
Proof.
  intros fuel d p a r H. unfold export_process, export_process_element, copied in H. cbn [fst snd] in H.
  destruct (dgetE k_is_closed a) as [c|] eqn:D1; [|discriminate]. destruct (dgetE k_is_executable a) as [x|] eqn:D2; [|discriminate].
  destruct (dgetE k_process_type a) as [t|] eqn:D3; [|discriminate]. cbn [rbind] in H. apply dgetE_ok in D1, D2, D3.
  fold (lanes_out a) in H. destruct (lanes_out a) as [[ls sh]|] eqn:L; [|discriminate]. cbn [rbind fst snd] in H.
  destruct (get_nodes_list_by_process_id p d) as [ns|] eqn:N; [|discriminate]. cbn [rbind] in H.
  destruct (rmap (export_node_data fuel d) ns) as [es|] eqn:Es; [|discriminate]. cbn [rbind] in H.
  destruct (rmap _ (get_flows_list_by_process_id p d)) as [fs|] eqn:Fs; [|discriminate]. cbn [rbind] in H. inv H.
  constructor. exists c, x, t, ls, ns, es, fs. cbn [fst snd]. repeat split; assumption.
Qed.

(** The whole tree. *)
Record tree_parts (fuel : nat) (d : diagram) (t : etree) : Prop := mkTree {
  tp_parts : exists did dname plid plel co cosh ps shapes edges,
    dget "id" (diag_attrs d) = Some did /\ dget "name" (diag_attrs d) = Some dname /\
    dget "id" (plane_attrs d) = Some plid /\ dget "bpmnElement" (plane_attrs d) = Some plel /\
    export_collaboration d = Ok (co, cosh) /\ rmap (export_process fuel d) (procs d) = Ok ps /\
    rmap export_node_di_data (gnodes (dgraph d)) = Ok shapes /\
    rmap (fun f => export_flow_di_data (snd f)) (edges_view (dgraph d)) = Ok edges /\
    t = elem "definitions" definitions_attributes
          (elem "bpmndi:BPMNDiagram" [("id", did); ("name", dname)]
             [elem "bpmndi:BPMNPlane" [("id", plid); ("bpmnElement", plel)] (cosh ++ flat_map snd ps ++ shapes ++ edges)]
           :: co ++ map fst ps) }.
Lemma tree_inv : forall fuel d t, export_tree fuel d = Ok t -> tree_parts fuel d t.
Proof.
  intros fuel d t H. unfold export_tree, copied in H.
  destruct (dgetE k_id (diag_attrs d)) as [did|] eqn:D1; [|discriminate].
  destruct (dgetE k_name (diag_attrs d)) as [dname|] eqn:D2; [|discriminate].
  destruct (dgetE k_id (plane_attrs d)) as [plid|] eqn:D3; [|discriminate].
  destruct (dgetE k_bpmn_element (plane_attrs d)) as [plel|] eqn:D4; [|discriminate]. cbn [rbind] in H. apply dgetE_ok in D1, D2, D3, D4.
  destruct (export_collaboration d) as [[co cosh]|] eqn:C; [|discriminate]. cbn [rbind fst snd] in H.
  destruct (rmap (export_process fuel d) (procs d)) as [ps|] eqn:Ps; [|discriminate]. cbn [rbind] in H.
  destruct (rmap export_node_di_data (nodes_view (dgraph d))) as [sh|] eqn:Sh; [|discriminate]. cbn [rbind] in H.
  destruct (rmap _ (get_flows d)) as [ed|] eqn:Ed; [|discriminate]. cbn [rbind] in H. inv H.
  constructor. exists did, dname, plid, plel, co, cosh, ps, sh, ed. repeat split; assumption.
Qed.
