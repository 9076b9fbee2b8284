(** Export without diagram interchange. *)
From Coq Require Import String Ascii List Bool Arith Lia.
From Verif Require Import Py PyFacts Consts Nx NxFacts Rep SpecRep RepFacts CsvRegex CsvImport CsvFacts Xml SpecXml Export Import XmlOps
  ImportFacts XmlLayout Prop_XmlLayout ExportFacts ExportTree RoundDemo Prop_XmlExported SpecRound ExportScopes Prop_XmlRound.
Import ListNotations.
Open Scope string_scope.
Open Scope list_scope.

(** * Specification *)
(** The ids of the elements of the given kinds, in document order. *)
Definition own_id (kinds : list string) (e : dom) : list string :=
  match e with
  | DElem g _ _ => if in_dec string_dec (local_name g) kinds then [get_attribute "id" e] else []
  | _ => []
  end.
Fixpoint ids_in (kinds : list string) (e : dom) : list string :=
  own_id kinds e ++ match e with DElem _ _ ks => flat_map (ids_in kinds) ks | _ => [] end.
(** The same for the direct children only. *)
Definition child_ids (kinds : list string) (e : dom) : list string := flat_map (own_id kinds) (d_kids e).
Definition times_written (kinds : list string) (file : dom) (n : string) : nat := count_occ string_dec (ids_in kinds file) n.
(** All nodes have a type the library knows, events only the definitions they may have. *)
Definition known_types (d : diagram) : Prop :=
  forall n, is_node d n -> exists t, attr d n "type" = Some (VStr t) /\ In t node_kinds /\
    forall ds x, attr d n "event_definitions" = Some (VDefs ds) -> In x ds ->
      exists ts, event_kinds (DElem t [] []) = Some ts /\ In (snd x) ts.
(** [p] is the id that a subprocess stores. *)
Definition sub_id (d : diagram) (p : string) : Prop :=
  exists s, attr d s "type" = Some (VStr "subProcess") /\ attr d s "id" = Some (VStr p).
(** The node stands in a subprocess. *)
Definition nested (d : diagram) (n : string) : Prop := exists p, attr d n "process" = Some (VStr p) /\ sub_id d p.
Definition id_of (a : attrs) : string := match dget "id" a with Some (VStr s) => s | _ => "" end.
Definition flow_ids (d : diagram) : list string := map (fun e => id_of (snd e)) (edges_view (dgraph d)).

(** * Facts *)
Section Kinds.
Context (kinds : list string).
Definition own_id_e (t : etree) : list string :=
  if in_dec string_dec (local_name (e_tag t)) kinds then [id_of (e_atts t)] else [].
Fixpoint ids_e (t : etree) : list string :=
  own_id_e t ++ match t with E _ _ _ _ ks => flat_map ids_e ks end.
Lemma texts_ids : forall o, flat_map (ids_in kinds) (text_nodes o) = [] /\ flat_map (own_id kinds) (text_nodes o) = [].
Proof. intros [[|c s]|]; split; reflexivity. Qed.
Lemma flat_app : forall A B (f : A -> list B) l m, flat_map f (l ++ m) = flat_map f l ++ flat_map f m.
Proof. intros. apply flat_map_app. Qed.
Lemma written_ids : forall t l, written t = Ok l ->
  flat_map (ids_in kinds) l = ids_e t /\ flat_map (own_id kinds) l = own_id_e t /\
  exists r, document t = Ok r /\ ids_in kinds r = ids_e t /\ child_ids kinds r = flat_map own_id_e (e_kids t).
Proof.
  induction t as [g a x tl ks IH] using etree_ind'. intros l H. unfold document. rewrite H. rewrite written_unfold in H.
  destruct (rmap written_attribute a) as [a'|] eqn:Ea; [|discriminate]. cbn [rbind] in H. apply written_atts in Ea. destruct Ea as [-> Sa].
  match type of H with rbind ?m _ = _ => destruct m as [kd|] eqn:Ek; [|discriminate] end. cbn [rbind] in H. injection H as <-.
  assert (Q : flat_map (ids_in kinds) kd = flat_map ids_e ks /\ flat_map (own_id kinds) kd = flat_map own_id_e ks).
  { clear - IH Ek. revert kd Ek. induction ks as [|k ks IHk]; intros kd Ek; [injection Ek as <-; split; reflexivity|].
    inversion IH as [|? ? P Q]; subst. cbn in Ek. destruct (written k) as [y|] eqn:W; [|discriminate]. cbn [rbind] in Ek.
    match type of Ek with rbind ?m _ = _ => destruct m as [z|] eqn:Z; [|discriminate] end. injection Ek as <-.
    destruct (IHk Q _ eq_refl) as [Z1 Z2]. destruct (P _ eq_refl) as (Y1 & Y2 & _). cbn [flat_map].
    rewrite !flat_app, Z1, Z2, Y1, Y2. split; reflexivity. }
  destruct Q as [Q1 Q2]. destruct (texts_ids x) as [X1 X2]. destruct (texts_ids tl) as [T1 T2].
  assert (O : own_id kinds (DElem g (map text_of a) (text_nodes x ++ kd)) = own_id_e (E g a x tl ks)).
  { unfold own_id, own_id_e. cbn [e_tag e_atts]. destruct (in_dec _ _ _); [|reflexivity]. f_equal. unfold get_attribute, id_of. cbn [d_atts].
    rewrite dget_text_of. destruct (dget "id" a) as [v|] eqn:D; [|reflexivity]. destruct v; reflexivity. }
  assert (A : ids_in kinds (DElem g (map text_of a) (text_nodes x ++ kd)) = ids_e (E g a x tl ks)).
  { cbn [ids_in ids_e]. f_equal; [exact O|]. rewrite flat_app, X1, Q1. reflexivity. }
  cbn [flat_map]. split; [rewrite A, T1; apply app_nil_r|]. split; [rewrite O, T2; apply app_nil_r|]. cbn [rbind].
  eexists. split; [reflexivity|]. split; [exact A|]. unfold child_ids. cbn [d_kids e_kids]. rewrite flat_app, X2, Q2. reflexivity.
Qed.
Lemma indent_head : forall t n, e_tag (indent n t) = e_tag t /\ e_atts (indent n t) = e_atts t.
Proof. intros [g a x l ks] n. cbn [indent]. destruct ks; split; reflexivity. Qed.
Lemma indent_own : forall t n, own_id_e (indent n t) = own_id_e t.
Proof. intros t n. unfold own_id_e. destruct (indent_head t n) as [-> ->]. reflexivity. Qed.
Lemma indent_kids : forall t n, e_kids (indent n t) = map (indent (S n)) (e_kids t).
Proof. intros [g a x l ks] n. cbn [indent]. destruct ks; reflexivity. Qed.
Lemma ids_unfold : forall t, ids_e t = own_id_e t ++ flat_map ids_e (e_kids t).
Proof. intros [g a x l ks]. reflexivity. Qed.
Lemma indent_ids : forall t n, ids_e (indent n t) = ids_e t.
Proof.
  induction t as [g a x l ks IH] using etree_ind'. intros n. rewrite !ids_unfold, indent_own, indent_kids. f_equal. cbn [e_kids].
  clear -IH. induction ks as [|k ks IHk]; [reflexivity|]. inversion IH; subst. cbn [map flat_map]. f_equal; auto.
Qed.
Lemma file_ids : forall n t r, document (indent n t) = Ok r ->
  ids_in kinds r = ids_e t /\ child_ids kinds r = flat_map own_id_e (e_kids t).
Proof.
  intros n t r H. pose proof H as H0. unfold document in H0. destruct (written (indent n t)) as [l|] eqn:W; [|discriminate].
  destruct (written_ids _ _ W) as (_ & _ & r' & R & A & B). rewrite H in R. injection R as <-. rewrite A, B, indent_ids, indent_kids.
  split; [reflexivity|]. clear. induction (e_kids t) as [|k ks IH]; [reflexivity|]. cbn [map flat_map]. rewrite indent_own, IH. reflexivity.
Qed.
End Kinds.

(** The elements below the root. *)
Definition is_elem (x : dom) : bool := match x with DElem _ _ _ => true | _ => false end.
Definition element_children (e : dom) : list dom := filter is_elem (d_kids e).
Lemma texts_none : forall o, filter is_elem (text_nodes o) = [].
Proof. intros [[|c s]|]; reflexivity. Qed.
Lemma document_head : forall t r, document t = Ok r -> d_tag r = e_tag t /\ (forall p, In p (e_atts t) -> is_string p) /\ d_atts r = map text_of (e_atts t) /\ is_elem r = true /\ exists l, written t = Ok (r :: l) /\ filter is_elem (r :: l) = (r :: nil).
Proof.
  intros [g a x tl ks] r H. unfold document in H. rewrite written_unfold in *.
  destruct (rmap written_attribute a) as [a'|] eqn:Ea; [|discriminate]. cbn [rbind] in *. apply written_atts in Ea. destruct Ea as [-> Sa].
  match type of H with rbind (rbind ?m _) _ = _ => destruct m as [kd|] eqn:Ek; [|discriminate] end. cbn [rbind] in *. injection H as <-.
  split; [reflexivity|]. split; [exact Sa|]. split; [reflexivity|]. split; [reflexivity|]. eexists. split; [reflexivity|]. cbn [filter is_elem]. rewrite texts_none. reflexivity.
Qed.
Lemma document_kids : forall n t r, document (indent n t) = Ok r ->
  Forall2 (fun k x => document (indent (S n) k) = Ok x) (e_kids t) (element_children r).
Proof.
  intros n t r H. pose proof (indent_kids t n) as K. destruct (indent n t) as [g a x tl ks]. cbn [e_kids] in K. subst ks.
  unfold document in H. rewrite written_unfold in H.
  destruct (rmap written_attribute a) as [a'|] eqn:Ea; [|discriminate]. cbn [rbind] in *.
  match type of H with rbind (rbind ?m _) _ = _ => destruct m as [kd|] eqn:Ek; [|discriminate] end. cbn [rbind] in *. injection H as <-.
  unfold element_children. cbn [d_kids]. rewrite filter_app, texts_none. cbn [app]. clear -Ek.
  revert kd Ek. induction (e_kids t) as [|k ks IH]; intros kd Ek; [injection Ek as <-; constructor|]. cbn in Ek.
  destruct (written (indent (S n) k)) as [y|] eqn:W; [|discriminate]. cbn [rbind] in Ek.
  match type of Ek with rbind ?m _ = _ => destruct m as [z|] eqn:Z; [|discriminate] end. injection Ek as <-.
  destruct (document (indent (S n) k)) as [rk|] eqn:D; [|unfold document in D; rewrite W in D; destruct y; [|discriminate]].
  - destruct (document_head _ _ D) as (_ & _ & _ & _ & l & Wl & F). rewrite W in Wl. injection Wl as ->. rewrite filter_app, F. cbn [app]. constructor; [exact D|]. apply IH. reflexivity.
  - exfalso. destruct (indent (S n) k). rewrite written_unfold in W. destruct (rmap _ _); [|discriminate]. cbn [rbind] in W. destruct (written_list kids); discriminate.
Qed.

Record nodi_process (fuel : nat) (d : diagram) (p : string) (es fs : list etree) (e : etree) : Prop := {
  np_nodes : rmap (export_node_data fuel d) (gnodes (dgraph d)) = Ok es;
  np_flows : rmap (fun f => export_flow_process_data (snd f)) (edges_view (dgraph d)) = Ok fs;
  np_elem : exists c x t, e = elem "process" [("id", VStr p); ("isClosed", c); ("isExecutable", x); ("processType", t)] (es ++ fs) }.
Lemma nodi_inv : forall fuel d t, export_tree_no_di fuel d = Ok t -> exists ps, t = elem "definitions" definitions_attributes ps /\
  Forall2 (fun p e => exists es fs, nodi_process fuel d (fst p) es fs e) (procs d) ps.
Proof.
  intros fuel d t H. unfold export_tree_no_di in H. match type of H with rbind ?m _ = _ => destruct m as [ps|] eqn:R; [|discriminate] end.
  injection H as <-. exists ps. split; [reflexivity|]. revert ps R. induction (procs d) as [|[p a] l IH]; intros ps R; cbn [rmap] in R.
  - injection R as <-. constructor.
  - match type of R with rbind ?m _ = _ => destruct m as [e|] eqn:Q; [|discriminate] end. cbn [rbind] in R.
    match type of R with rbind ?m _ = _ => destruct m as [r|] eqn:Z; [|discriminate] end. injection R as <-. constructor; [|apply IH; exact eq_refl].
    cbn [fst snd] in *. destruct (export_process_element p a) as [pa|] eqn:P; [|discriminate]. cbn [rbind] in Q.
    unfold nodes_view in Q. destruct (rmap (export_node_data fuel d) (gnodes (dgraph d))) as [es|] eqn:N; [|discriminate]. cbn [rbind] in Q.
    destruct (rmap _ (edges_view _)) as [fs|] eqn:F; [|discriminate]. cbn [rbind] in Q. injection Q as <-.
    unfold export_process_element, copied in P. destruct (dgetE k_is_closed a) as [c|]; [|discriminate].
    destruct (dgetE k_is_executable a) as [x|]; [|discriminate]. destruct (dgetE k_process_type a) as [y|]; [|discriminate].
    cbn [rbind] in P. injection P as <-. exists es, fs. constructor; [exact N|exact F|]. exists c, x, y. reflexivity.
Qed.


(** The elements of nodes and flows. *)
Section Elements.
Context (d : diagram).
Hypothesis G : gwf (dgraph d).
Hypothesis KT : known_types d.
Lemma at_node : forall n a k, In (n, a) (gnodes (dgraph d)) -> attr d n k = dget k a.
Proof using G. intros n a k I. apply nodes_attr; [exact (gwf_nodup _ G)|exact I]. Qed.
Lemma kind_local : forall t, In t node_kinds -> local_name t = t.
Proof using. clear. intros t I. apply known_local. right. exact I. Qed.
Lemma node_heads : forall na k, is_node_elem d na k -> own_id_e node_kinds k = [fst na] /\ own_id_e ["sequenceFlow"] k = [] /\
  exists t, dget "type" (snd na) = Some (VStr t) /\ e_tag k = t /\ In t node_kinds.
Proof using G KT.
  intros [n a] k [I [f H]]. destruct (node_inv _ _ _ _ _ H) as (f' & s & name & li & lo & more & _ & [Ht _ _ _ _ ->]).
  destruct (KT n (in_is_node _ _ _ I)) as (t & T & K & _). rewrite (at_node _ _ _ I), Ht in T. injection T as <-.
  unfold own_id_e. cbn [e_tag e_atts node_elem elem]. rewrite (kind_local _ K).
  destruct (in_dec string_dec s node_kinds); [|contradiction]. destruct (in_dec string_dec s ["sequenceFlow"]) as [Q|Q]; [simpl in K, Q; intuition (subst; discriminate)|].
  split; [reflexivity|]. split; [reflexivity|]. exists s. cbn [snd]. auto.
Qed.
Lemma flow_heads : forall e k, is_flow_elem d e k -> own_id_e node_kinds k = [] /\ own_id_e ["sequenceFlow"] k = [id_of (snd e)] /\
  flat_map (ids_e node_kinds) (e_kids k) = [] /\ flat_map (ids_e ["sequenceFlow"]) (e_kids k) = [].
Proof using.
  intros e k [_ H]. destruct (flow_inv _ _ H) as [(id & nm & sr & tr & D & _ & _ & _ & [[_ ->]|(cid & text & _ & ->)])];
    unfold own_id_e, id_of; cbn; rewrite D; repeat split.
Qed.
Definition leaf (k : etree) : Prop := e_kids k = [] /\ own_id_e node_kinds k = [] /\ own_id_e ["sequenceFlow"] k = [].
(** What stands below the element of a node. *)
Lemma node_below : forall na k, is_node_elem d na k -> forall c, In c (e_kids k) ->
  leaf c \/ exists s, dget "type" (snd na) = Some (VStr "subProcess") /\ dget "id" (snd na) = Some (VStr s) /\ scope_child d s c.
Proof using G KT.
  intros [n a] k [I [f H]] c J. destruct (node_inv _ _ _ _ _ H) as (f' & s & name & li & lo & more & _ & [Ht _ _ _ Hm ->]).
  cbn [e_kids node_elem elem] in J. apply in_app_or in J. destruct J as [J|J]; [apply in_map_iff in J; destruct J as [x [<- _]]; left; repeat split; reflexivity|].
  apply in_app_or in J. destruct J as [J|J]; [apply in_map_iff in J; destruct J as [x [<- _]]; left; repeat split; reflexivity|].
  destruct (more_kids _ _ _ _ _ Hm _ J) as [(_ & ds & x & D & Ix & ->)|(-> & p & P & Sc)]; [|right; cbn [snd]; eauto]. left.
  destruct (KT n (in_is_node _ _ _ I)) as (t & T & K & Ev). rewrite <- (at_node _ _ _ I) in D. destruct (Ev ds x D Ix) as (ts & Et & It).
  pose proof (event_kinds_known _ _ _ Et It) as Q. unfold leaf, own_id_e, definition_element. cbn [e_kids e_tag elem]. rewrite (definition_local _ Q).
  split; [reflexivity|]. clear - Q. generalize dependent (snd x). intros y Q. simpl in Q. split; (destruct (in_dec _ _ _) as [Z|Z]; [|reflexivity]); simpl in Z; intuition (subst; discriminate).
Qed.
Lemma leaf_ids : forall c, leaf c -> ids_e node_kinds c = [] /\ ids_e ["sequenceFlow"] c = [].
Proof using. clear. intros c (K & A & B). rewrite !ids_unfold, K, A, B. split; reflexivity. Qed.
Lemma below_nodes : forall k na, is_node_elem d na k -> forall m, In m (flat_map (ids_e node_kinds) (e_kids k)) -> nested d m.
Proof using G KT.
  induction k as [g a x l ks IH] using etree_ind'. intros [n b] N m J. rewrite Forall_forall in IH. cbn [e_kids] in J.
  apply in_flat_map in J. destruct J as (c & Ic & J). destruct (node_below _ _ N c Ic) as [Lc|(s & T & Is & [([n' a'] & N' & P)|(e & F & P)])].
  - rewrite (proj1 (leaf_ids _ Lc)) in J. destruct J.
  - rewrite ids_unfold, (proj1 (node_heads _ _ N')) in J. destruct J as [J|J]; [|eapply IH; eauto].
    cbn [fst] in J. subst m. destruct N as [I _], N' as [I' _]. exists s. rewrite (at_node _ _ _ I'). split; [exact P|].
    exists n. rewrite !(at_node _ _ _ I). auto.
  - destruct (flow_heads _ _ F) as (A & _ & B & _). rewrite ids_unfold, A, B in J. destruct J.
Qed.
Definition nested_flow (e : string * string * attrs) : Prop := exists p, dget "process" (snd e) = Some (VStr p) /\ sub_id d p.
Lemma below_flows : forall k na, is_node_elem d na k -> forall m, In m (flat_map (ids_e ["sequenceFlow"]) (e_kids k)) ->
  exists e, In e (edges_view (dgraph d)) /\ id_of (snd e) = m /\ nested_flow e.
Proof using G KT.
  induction k as [g a x l ks IH] using etree_ind'. intros [n b] N m J. rewrite Forall_forall in IH. cbn [e_kids] in J.
  apply in_flat_map in J. destruct J as (c & Ic & J). destruct (node_below _ _ N c Ic) as [Lc|(s & T & Is & [([n' a'] & N' & P)|(e & F & P)])].
  - rewrite (proj2 (leaf_ids _ Lc)) in J. destruct J.
  - rewrite ids_unfold, (proj1 (proj2 (node_heads _ _ N'))) in J. eapply IH; eauto.
  - destruct (flow_heads _ _ F) as (_ & A & _ & B). rewrite ids_unfold, A, B in J. destruct J as [J|[]]. exists e. split; [apply F|]. split; [exact J|].
    exists s. split; [exact P|]. destruct N as [I _]. exists n. rewrite !(at_node _ _ _ I). auto.
Qed.
(** The element of a subprocess has all its nodes and flows. *)
Lemma sub_has : forall f s a k p, export_node_data f d (s, a) = Ok k -> dget "type" a = Some (VStr "subProcess") -> dget "id" a = Some (VStr p) ->
  (forall na, In na (gnodes (dgraph d)) -> dget "process" (snd na) = Some (VStr p) -> exists c, In c (e_kids k) /\ is_node_elem d na c) /\
  (forall e, In e (edges_view (dgraph d)) -> dget "process" (snd e) = Some (VStr p) -> exists c, In c (e_kids k) /\ is_flow_elem d e c).
Proof using.
  intros f s a k p H T P. destruct (node_inv _ _ _ _ _ H) as (f' & t & name & li & lo & more & _ & [Ht _ _ _ Hm ->]).
  rewrite T in Ht. injection Ht as <-. destruct (sub_inv _ _ _ _ Hm) as (s' & ns & es & fs & tr & Is & _ & N & Es & Fs & ->).
  rewrite P in Is. injection Is as <-. cbn [e_kids node_elem elem snd]. split.
  - intros na I Q. destruct (rmap_from _ _ _ _ _ Es na) as (c & Ic & Hc); [apply (nodes_by_process _ _ _ N); auto|]. exists c.
    split; [apply in_or_app; right; apply in_or_app; right; apply in_or_app; left; exact Ic|split; eauto].
  - intros e I Q. destruct (rmap_from _ _ _ _ _ Fs e) as (c & Ic & Hc); [apply flows_by_process; auto|]. exists c.
    split; [apply in_or_app; right; apply in_or_app; right; apply in_or_app; right; exact Ic|split; auto].
Qed.
End Elements.

Lemma ids_split : forall kinds l n, count_occ string_dec (flat_map (ids_e kinds) l) n =
  count_occ string_dec (flat_map (own_id_e kinds) l) n + count_occ string_dec (flat_map (fun k => flat_map (ids_e kinds) (e_kids k)) l) n.
Proof.
  intros kinds l n. induction l as [|k l IH]; [reflexivity|]. cbn [flat_map]. rewrite ids_unfold, !count_occ_app. lia.
Qed.
Lemma heads_rmap : forall A (f : A -> res etree) (h : etree -> list string) (g : A -> list string) l es, rmap f l = Ok es ->
  (forall x k, In x l -> f x = Ok k -> h k = g x) -> flat_map h es = flat_map g l.
Proof.
  intros A f h g. induction l as [|x l IH]; intros es H Q; cbn [rmap] in H; [injection H as <-; reflexivity|].
  destruct (f x) as [k|] eqn:F; [|discriminate]. cbn [rbind] in H. destruct (rmap f l) as [r|] eqn:R; [|discriminate]. injection H as <-.
  cbn [flat_map]. rewrite (Q x k (or_introl eq_refl) F), (IH r eq_refl); [reflexivity|]. intros y k' I. apply Q. right. exact I.
Qed.
Lemma flat_none : forall A B (l : list A), flat_map (fun _ => @nil B) l = [].
Proof. intros A B. induction l; [reflexivity|assumption]. Qed.
Lemma flat_single : forall A B (g : A -> B) l, flat_map (fun x => [g x]) l = map g l.
Proof. intros A B g. induction l as [|x l IH]; [reflexivity|]. cbn [flat_map map app]. rewrite IH; reflexivity. Qed.

Section File.
Context (d : diagram) (fuel : nat).
Hypothesis G : gwf (dgraph d).
Hypothesis KT : known_types d.
Lemma process_heads : forall p es fs e, nodi_process fuel d p es fs e -> e_kids e = es ++ fs /\
  flat_map (own_id_e node_kinds) (e_kids e) = map fst (gnodes (dgraph d)) /\ flat_map (own_id_e ["sequenceFlow"]) (e_kids e) = flow_ids d.
Proof using G KT.
  intros p es fs e [N F (c & x & t & ->)]. cbn [e_kids elem]. split; [reflexivity|]. rewrite !flat_app. split.
  - rewrite (heads_rmap _ _ (own_id_e node_kinds) (fun na => [fst na]) _ _ N), (heads_rmap _ _ (own_id_e node_kinds) (fun _ => []) _ _ F).
    + rewrite flat_none, flat_single. apply app_nil_r.
    + intros y k I H. apply (flow_heads d y k). split; assumption.
    + intros y k I H. apply (node_heads d G KT y k). split; eauto.
  - rewrite (heads_rmap _ _ (own_id_e ["sequenceFlow"]) (fun _ => []) _ _ N), (heads_rmap _ _ (own_id_e ["sequenceFlow"]) (fun e => [id_of (snd e)]) _ _ F).
    + rewrite flat_none, flat_single. reflexivity.
    + intros y k I H. apply (flow_heads d y k). split; assumption.
    + intros y k I H. apply (node_heads d G KT y k). split; eauto.
Qed.
Definition inner (kinds : list string) (e : etree) : list string := flat_map (fun k => flat_map (ids_e kinds) (e_kids k)) (e_kids e).
Lemma process_inner : forall p es fs e, nodi_process fuel d p es fs e -> inner node_kinds e = flat_map (fun k => flat_map (ids_e node_kinds) (e_kids k)) es /\
  inner ["sequenceFlow"] e = flat_map (fun k => flat_map (ids_e ["sequenceFlow"]) (e_kids k)) es.
Proof using.
  intros p es fs e [N F (c & x & t & ->)]. unfold inner. cbn [e_kids elem]. rewrite !flat_app.
  rewrite (heads_rmap _ _ (fun k => flat_map (ids_e node_kinds) (e_kids k)) (fun _ => []) _ _ F), (heads_rmap _ _ (fun k => flat_map (ids_e ["sequenceFlow"]) (e_kids k)) (fun _ => []) _ _ F).
  - rewrite flat_none, !app_nil_r. split; reflexivity.
  - intros y k I H. apply (flow_heads d y k). split; assumption.
  - intros y k I H. apply (flow_heads d y k). split; assumption.
Qed.
Lemma inner_nodes : forall p es fs e n, nodi_process fuel d p es fs e -> is_node d n -> (In n (inner node_kinds e) <-> nested d n).
Proof using G KT.
  intros p es fs e n NP In_. rewrite (proj1 (process_inner _ _ _ _ NP)). destruct NP as [N F _]. rewrite in_flat_map. split.
  - intros (k & Ik & J). destruct (rmap_out _ _ _ _ _ N k Ik) as (na & Ina & H). eapply (below_nodes d G KT k na); [split; eauto|exact J].
  - intros (q & P & s & T & Is). destruct (node_in _ _ _ _ P) as (a & Ia & Pa). destruct (node_in _ _ _ _ T) as (b & Ib & Tb).
    rewrite (at_node d G _ _ _ Ib) in Is. destruct (rmap_from _ _ _ _ _ N (s, b) Ib) as (k & Ik & H). exists k. split; [exact Ik|].
    destruct (sub_has d _ _ _ _ _ H Tb Is) as [A _]. destruct (A (n, a) Ia Pa) as (c & Ic & Nc). apply in_flat_map. exists c. split; [exact Ic|].
    rewrite ids_unfold, (proj1 (node_heads d G KT _ _ Nc)). left. reflexivity.
Qed.
Lemma inner_flows : forall p es fs e f, nodi_process fuel d p es fs e ->
  (In f (inner ["sequenceFlow"] e) <-> exists e, In e (edges_view (dgraph d)) /\ id_of (snd e) = f /\ nested_flow d e).
Proof using G KT.
  intros p es fs e f NP. rewrite (proj2 (process_inner _ _ _ _ NP)). destruct NP as [N F _]. rewrite in_flat_map. split.
  - intros (k & Ik & J). destruct (rmap_out _ _ _ _ _ N k Ik) as (na & Ina & H). eapply (below_flows d G KT k na); [split; eauto|exact J].
  - intros (x & Ix & <- & q & P & s & T & Is). destruct (node_in _ _ _ _ T) as (b & Ib & Tb).
    rewrite (at_node d G _ _ _ Ib) in Is. destruct (rmap_from _ _ _ _ _ N (s, b) Ib) as (k & Ik & H). exists k. split; [exact Ik|].
    destruct (sub_has d _ _ _ _ _ H Tb Is) as [_ A]. destruct (A x Ix P) as (c & Ic & Nc). apply in_flat_map. exists c. split; [exact Ic|].
    rewrite ids_unfold, (proj1 (proj2 (flow_heads d _ _ Nc))). left. reflexivity.
Qed.

Context (file : dom).
Hypothesis X : export_xml_file_no_di fuel d = Ok file.
Lemma no_di_processes : exists ps, element_children file = ps /\
  Forall2 (fun p x => exists es fs e, nodi_process fuel d (fst p) es fs e /\ document (indent 1 e) = Ok x) (procs d) ps /\
  (forall kinds, ~ In "definitions" kinds -> ids_in kinds file = flat_map (ids_in kinds) ps).
Proof using X.
  unfold export_xml_file_no_di in X. destruct (export_tree_no_di fuel d) as [t|] eqn:T; [|discriminate]. cbn [rbind] in X.
  destruct (nodi_inv _ _ _ T) as (ps & -> & Q). pose proof (document_kids _ _ _ X) as K. cbn [e_kids elem] in K.
  exists (element_children file). split; [reflexivity|]. split.
  - clear -Q K. revert K. generalize (element_children file). induction Q as [|p e l m (es & fs & H) Q IH]; intros xs K.
    + inversion K; subst. constructor.
    + inversion K; subst. constructor; [exists es, fs, e; split; assumption|]. apply IH. assumption.
  - intros kinds Nk. rewrite (proj1 (file_ids kinds _ _ _ X)). rewrite ids_unfold. cbn [e_kids elem].
    replace (own_id_e kinds (elem "definitions" definitions_attributes ps)) with (@nil string)
      by (unfold own_id_e; cbn [e_tag elem]; destruct (in_dec _ _ _) as [Z|]; [contradiction|reflexivity]). cbn [app].
    clear -K. induction K as [|k x l m D K IH]; [reflexivity|]. cbn [flat_map]. rewrite (proj1 (file_ids kinds _ _ _ D)), IH. reflexivity.
Qed.
End File.

(** * C40 *)
(** The processes of the file are those of the diagram, in order, and every one of them
    has all the nodes and all the flows of the diagram as children. *)
Theorem C40_written : forall fuel d file, gwf (dgraph d) -> known_types d -> export_xml_file_no_di fuel d = Ok file ->
  Forall2 (fun p e => named "process" e /\ get_attribute "id" e = fst p /\
                      child_ids node_kinds e = map fst (gnodes (dgraph d)) /\ child_ids ["sequenceFlow"] e = flow_ids d)
          (procs d) (element_children file).
Proof.
  intros fuel d file G KT X. destruct (no_di_processes _ _ _ X) as (ps & -> & Q & _). induction Q as [|p x l m (es & fs & e & NP & D) Q IH]; constructor; [|exact IH].
  clear IH Q. rewrite (proj2 (file_ids _ _ _ _ D)), (proj2 (file_ids _ _ _ _ D)). destruct (process_heads d fuel G KT _ _ _ _ NP) as (_ & -> & ->).
  destruct (document_head _ _ D) as (Tg & _ & At & El & _). destruct (indent_head e 1) as [Te Ta]. rewrite Te in Tg. rewrite Ta in At.
  destruct NP as [_ _ (c & y & t & ->)]. destruct x as [g a ks| |]; try discriminate. cbn [d_tag d_atts e_tag e_atts elem] in *. subst g a.
  split; [reflexivity|]. split; [reflexivity|]. split; reflexivity.
Qed.
Lemma total_count : forall A (P : A -> dom -> Prop) (f : dom -> list string) n c l ps, Forall2 P l ps ->
  (forall p x, P p x -> count_occ string_dec (f x) n = c) -> count_occ string_dec (flat_map f ps) n = length l * c.
Proof.
  intros A P f n c l ps H Q. induction H as [|p x l ps H1 H2 IH]; [reflexivity|]. cbn [flat_map length]. rewrite count_occ_app, IH, (Q _ _ H1). cbn. lia.
Qed.
Lemma mult_one : forall a b, a * S b = 1 <-> a = 1 /\ b = 0.
Proof. intros a b. split; [intros H|intros [-> ->]; reflexivity]. destruct a as [|[|a]]; cbn in H; lia. Qed.
(** A node is written once exactly when there is one process and the node is in no
    subprocess. *)
Theorem C40_nodes_once : forall fuel d file n, gwf (dgraph d) -> known_types d -> export_xml_file_no_di fuel d = Ok file -> is_node d n ->
  (times_written node_kinds file n = 1 <-> length (procs d) = 1 /\ ~ nested d n).
Proof.
  intros fuel d file n G KT X Nn. destruct (no_di_processes _ _ _ X) as (ps & _ & Q & A). unfold times_written. rewrite A by (simpl; intuition discriminate).
  destruct (procs d) as [|p0 l0] eqn:Pd.
  - inversion Q; subst. cbn. split; [discriminate|intros [? _]; discriminate].
  - inversion Q as [|? x0 ? ? H0 _]; subst. rewrite <- Pd in *. destruct H0 as (es0 & fs0 & e0 & NP0 & _).
    assert (C : forall p es fs e x, nodi_process fuel d p es fs e -> document (indent 1 e) = Ok x ->
      count_occ string_dec (ids_in node_kinds x) n = S (count_occ string_dec (inner node_kinds e) n)).
    { intros p es fs e x NP D. rewrite (proj1 (file_ids _ _ _ _ D)), ids_unfold. destruct (process_heads d fuel G KT _ _ _ _ NP) as (_ & H & _).
      rewrite count_occ_app, ids_split, H. fold (inner node_kinds e).
      replace (own_id_e node_kinds e) with (@nil string) by (destruct NP as [_ _ (? & ? & ? & ->)]; reflexivity).
      replace (count_occ string_dec (map fst (gnodes (dgraph d))) n) with 1; [reflexivity|].
      symmetry. apply NoDup_count_occ'; [exact (gwf_nodup _ G)|exact Nn]. }
    assert (U : forall p es fs e, nodi_process fuel d p es fs e -> inner node_kinds e = inner node_kinds e0).
    { intros p es fs e NP. rewrite (proj1 (process_inner _ _ _ _ _ _ NP)), (proj1 (process_inner _ _ _ _ _ _ NP0)).
      destruct NP as [N _ _], NP0 as [N0 _ _]. rewrite N in N0. injection N0 as ->. reflexivity. }
    rewrite (total_count _ _ (ids_in node_kinds) n (S (count_occ string_dec (inner node_kinds e0) n)) _ _ Q).
    2:{ intros p x (es & fs & e & NP & D). rewrite (C _ _ _ _ _ NP D), (U _ _ _ _ NP). reflexivity. }
    rewrite mult_one, <- (inner_nodes d fuel G KT _ _ _ _ n NP0 Nn). rewrite <- count_occ_not_In. reflexivity.
Qed.
(** A flow (with an id of its own) is written once exactly when there is one process and
    the flow is not the flow of a subprocess. *)
Theorem C40_flows_once : forall fuel d file e f, gwf (dgraph d) -> known_types d -> export_xml_file_no_di fuel d = Ok file ->
  NoDup (flow_ids d) -> In e (edges_view (dgraph d)) -> id_of (snd e) = f ->
  (times_written ["sequenceFlow"] file f = 1 <-> length (procs d) = 1 /\ ~ exists p, dget "process" (snd e) = Some (VStr p) /\ sub_id d p).
Proof.
  intros fuel d file e f G KT X ND Ie Ef. destruct (no_di_processes _ _ _ X) as (ps & _ & Q & A). unfold times_written. rewrite A by (simpl; intuition discriminate).
  destruct (procs d) as [|p0 l0] eqn:Pd.
  - inversion Q; subst. cbn. split; [discriminate|intros [? _]; discriminate].
  - inversion Q as [|? x0 ? ? H0 _]; subst. rewrite <- Pd in *. destruct H0 as (es0 & fs0 & e0 & NP0 & _).
    assert (C : forall p es fs k x, nodi_process fuel d p es fs k -> document (indent 1 k) = Ok x ->
      count_occ string_dec (ids_in ["sequenceFlow"] x) (id_of (snd e)) = S (count_occ string_dec (inner ["sequenceFlow"] k) (id_of (snd e)))).
    { intros p es fs k x NP D. rewrite (proj1 (file_ids _ _ _ _ D)), ids_unfold. destruct (process_heads d fuel G KT _ _ _ _ NP) as (_ & _ & H).
      rewrite count_occ_app, ids_split, H. fold (inner ["sequenceFlow"] k).
      replace (own_id_e ["sequenceFlow"] k) with (@nil string) by (destruct NP as [_ _ (? & ? & ? & ->)]; reflexivity).
      replace (count_occ string_dec (flow_ids d) (id_of (snd e))) with 1; [reflexivity|].
      symmetry. apply NoDup_count_occ'; [exact ND|]. unfold flow_ids. apply in_map_iff. eauto. }
    assert (U : forall p es fs k, nodi_process fuel d p es fs k -> inner ["sequenceFlow"] k = inner ["sequenceFlow"] e0).
    { intros p es fs k NP. rewrite (proj2 (process_inner _ _ _ _ _ _ NP)), (proj2 (process_inner _ _ _ _ _ _ NP0)).
      destruct NP as [N _ _], NP0 as [N0 _ _]. rewrite N in N0. injection N0 as ->. reflexivity. }
    rewrite (total_count _ _ (ids_in ["sequenceFlow"]) _ (S (count_occ string_dec (inner ["sequenceFlow"] e0) (id_of (snd e)))) _ _ Q).
    2:{ intros p x (es & fs & k & NP & D). rewrite (C _ _ _ _ _ NP D), (U _ _ _ _ NP). reflexivity. }
    rewrite mult_one, <- count_occ_not_In, (inner_flows d fuel G KT _ _ _ _ _ NP0). split.
    + intros [L N]. split; [exact L|]. intros P. apply N. exists e. split; [exact Ie|]. split; [reflexivity|exact P].
    + intros [L N]. split; [exact L|]. intros (e' & I' & E' & P). apply N. replace e with e'; [exact P|].
      clear -ND Ie I' E'. unfold flow_ids in ND. induction (edges_view (dgraph d)) as [|y l IH]; [destruct Ie|]. cbn [map] in ND.
      inversion ND as [|? ? Ny Nl]; subst. assert (M : forall z, In z l -> In (id_of (snd z)) (map (fun e => id_of (snd e)) l)) by (intros z Z; apply in_map_iff; eauto).
      destruct Ie as [<- |Ie], I' as [<- |I']; auto; exfalso; apply Ny; [rewrite <- E'|rewrite E']; auto.
Qed.
(** With one process and no subprocesses the file has the nodes and the flows of the
    diagram, each once and in order, and nothing else of these kinds. *)
Theorem C40_single_process : forall fuel d file p a, gwf (dgraph d) -> known_types d -> export_xml_file_no_di fuel d = Ok file ->
  procs d = [(p, a)] -> (forall n, attr d n "type" <> Some (VStr "subProcess")) ->
  ids_in node_kinds file = map fst (gnodes (dgraph d)) /\ ids_in ["sequenceFlow"] file = flow_ids d.
Proof.
  intros fuel d file p a G KT X Pd NS. destruct (no_di_processes _ _ _ X) as (ps & _ & Q & A). rewrite !A by (simpl; intuition discriminate).
  rewrite Pd in Q. inversion Q as [|? x ? ? (es & fs & e & NP & D) Q']; subst. inversion Q'; subst. cbn [flat_map]. rewrite !app_nil_r.
  rewrite (proj1 (file_ids _ _ _ _ D)), (proj1 (file_ids _ _ _ _ D)). rewrite !ids_unfold.
  assert (Z : forall k c, In k (e_kids e) -> In c (e_kids k) -> ids_e node_kinds c = [] /\ ids_e ["sequenceFlow"] c = []).
  { intros k c Ik Ic. destruct (process_heads d fuel G KT _ _ _ _ NP) as (Kd & _). rewrite Kd in Ik. destruct NP as [N F _]. apply in_app_or in Ik. destruct Ik as [Ik|Ik].
    - destruct (rmap_out _ _ _ _ _ N k Ik) as ([n b] & Ina & H). destruct (node_below d G KT (n, b) k (conj Ina (ex_intro _ _ H)) c Ic) as [L|(s & T & _)].
      + apply leaf_ids. exact L.
      + exfalso. apply (NS n). rewrite (at_node d G _ _ _ Ina). exact T.
    - destruct (rmap_out _ _ _ _ _ F k Ik) as (y & Iy & H). destruct (flow_heads d y k (conj Iy H)) as (_ & _ & B1 & B2).
      split; [destruct (ids_e node_kinds c) eqn:E1; [reflexivity|]|destruct (ids_e ["sequenceFlow"] c) eqn:E1; [reflexivity|]]; exfalso.
      + apply (in_nil (a := s)). rewrite <- B1. apply in_flat_map. exists c. rewrite E1. split; [exact Ic|left; reflexivity].
      + apply (in_nil (a := s)). rewrite <- B2. apply in_flat_map. exists c. rewrite E1. split; [exact Ic|left; reflexivity]. }
  destruct (process_heads d fuel G KT _ _ _ _ NP) as (Kd & H1 & H2).
  assert (W : forall kinds, (forall k c, In k (e_kids e) -> In c (e_kids k) -> ids_e kinds c = []) -> flat_map (ids_e kinds) (e_kids e) = flat_map (own_id_e kinds) (e_kids e)).
  { clear. intros kinds. generalize (e_kids e). induction l as [|k l IH]; intros Z; [reflexivity|]. cbn [flat_map]. rewrite IH by (intros; eapply Z; [right|]; eassumption). f_equal.
    rewrite ids_unfold. replace (flat_map (ids_e kinds) (e_kids k)) with (@nil string); [apply app_nil_r|].
    pose proof (fun c => Z k c (or_introl eq_refl)) as Zk. clear -Zk. induction (e_kids k) as [|c m IH]; [reflexivity|]. cbn [flat_map].
    rewrite (Zk c (or_introl eq_refl)). apply IH. intros c' I. apply Zk. right. exact I. }
  rewrite !W, H1, H2 by (intros k c Ik Ic; apply (Z k c Ik Ic)). destruct NP as [_ _ (? & ? & ? & ->)]. split; reflexivity.
Qed.

(** * C75 *)
(** Such a file has no diagram element, so it can never be loaded. *)
Lemma fine_no_ids : forall P kinds t, fine P t -> (forall s, P s -> ~ In s kinds) -> ids_e kinds t = [].
Proof.
  intros P kinds. induction t as [g a x l ks IH] using etree_ind'. intros F Q. rewrite Forall_forall in IH. rewrite ids_unfold.
  assert (Fk : P (local_name g) /\ forall k, In k ks -> fine P k) by (inversion F; subst; split; auto; intros ? []). destruct Fk as [Fg Fk].
  unfold own_id_e. cbn [e_tag]. destruct (in_dec _ _ _) as [I|_]; [destruct (Q _ Fg I)|]. cbn [app e_kids].
  induction ks as [|k ks IHk]; [reflexivity|]. cbn [flat_map]. rewrite (IH k (or_introl eq_refl) (Fk k (or_introl eq_refl)) Q). cbn [app].
  apply IHk; [intros; apply IH; [right|..]; assumption| |intros; apply Fk; right; assumption].
  inversion F; subst. apply fine_kids; [assumption|assumption|]. intros; apply Fk. right. assumption.
Qed.
Lemma dom_ind2 : forall P : dom -> Prop, (forall g a ks, Forall P ks -> P (DElem g a ks)) -> (forall s, P (DText s)) -> (forall s, P (DOther s)) -> forall e, P e.
Proof.
  intros P H1 H2 H3. fix IH 1. intros [g a ks|s|s]; [|apply H2|apply H3]. apply H1. induction ks as [|k ks IHk]; constructor; [apply IH|exact IHk].
Qed.
Lemma ids_elements : forall k e, ids_in [k] e = map (get_attribute "id") (document_elements k e).
Proof.
  intros k. induction e as [g a ks IH|s|s] using dom_ind2; try reflexivity. unfold document_elements. cbn [ids_in elements_in own_id]. rewrite map_app. f_equal.
  - destruct (in_dec _ _ _) as [[<-|[]]|N]; [rewrite String.eqb_refl; reflexivity|].
    destruct (String.eqb_spec (local_name g) k) as [E|]; [exfalso; apply N; left; auto|reflexivity].
  - induction ks as [|x ks IHk]; [reflexivity|]. inversion IH as [|? ? Hx Hks]; subst. cbn [flat_map]. rewrite map_app. f_equal; [exact Hx|apply IHk; exact Hks].
Qed.
Lemma known_fine : forall d (P : string -> Prop), gwf (dgraph d) -> known_types d -> (forall s, In s (node_kinds ++ definition_kinds ++ ["incoming"; "outgoing"; "sequenceFlow"; "conditionExpression"]) -> P s) ->
  forall f na k, In na (gnodes (dgraph d)) -> export_node_data f d na = Ok k -> fine P k.
Proof.
  intros d P G KT Q f na k I H. eapply (fine_node d P); eauto.
  - intros n a s J T. destruct (KT n (in_is_node _ _ _ J)) as (t & Tt & K & _). rewrite (at_node d G _ _ _ J), T in Tt. injection Tt as <-. rewrite (kind_local _ K).
    split; [apply Q; apply in_or_app; left; exact K|]. intros Z. simpl in K, Z. intuition (subst; discriminate).
  - intros n a ds x J D Ix. destruct (KT n (in_is_node _ _ _ J)) as (t & Tt & K & Ev). rewrite <- (at_node d G _ _ _ J) in D. destruct (Ev ds x D Ix) as (ts & Et & It).
    pose proof (event_kinds_known _ _ _ Et It) as Z. rewrite (definition_local _ Z). apply Q. apply in_or_app. right. apply in_or_app. left. exact Z.
  - apply Q. simpl. tauto.
  - apply Q. simpl. tauto.
  - apply Q. simpl. tauto.
  - apply Q. simpl. tauto.
Qed.
Lemma no_di_diagram : forall fuel d file, gwf (dgraph d) -> known_types d -> export_xml_file_no_di fuel d = Ok file -> document_elements "BPMNDiagram" file = [].
Proof.
  intros fuel d file G KT X. assert (Z : ids_in ["BPMNDiagram"] file = []).
  { unfold export_xml_file_no_di in X. destruct (export_tree_no_di fuel d) as [t|] eqn:T; [|discriminate]. cbn [rbind] in X.
    rewrite (proj1 (file_ids _ _ _ _ X)). destruct (nodi_inv _ _ _ T) as (ps & -> & Q). rewrite ids_unfold. cbn [e_kids elem].
    change (own_id_e ["BPMNDiagram"] (elem "definitions" definitions_attributes ps)) with (@nil string). cbn [app]. clear X T.
    induction Q as [|p e l m (es & fs & [N F (c & x & y & ->)]) Q IH]; [reflexivity|]. cbn [flat_map]. rewrite IH, app_nil_r. clear IH Q.
    apply (fine_no_ids (fun s => s <> "BPMNDiagram")); [|intros s D [E|[]]; congruence].
    apply fine_kids; [discriminate|simpl; intuition discriminate|]. intros k I. apply in_app_or in I. destruct I as [I|I].
    - destruct (rmap_out _ _ _ _ _ N k I) as (na & Ina & H). eapply known_fine; eauto. intros s Is. simpl in Is. intuition (subst; discriminate).
    - destruct (rmap_out _ _ _ _ _ F k I) as (na & Ina & H). eapply (fine_flow (fun s => s <> "BPMNDiagram")); eauto; discriminate. }
  rewrite ids_elements in Z. destruct (document_elements "BPMNDiagram" file); [reflexivity|discriminate].
Qed.
Theorem C75_never_loads : forall set_order fuel d file d0, gwf (dgraph d) -> known_types d -> export_xml_file_no_di fuel d = Ok file ->
  load_diagram_from_xml set_order file d0 = (d0, Err IndexError).
Proof.
  intros so fuel d file d0 G KT X. unfold load_diagram_from_xml. unfold mbind, mread. rewrite (no_di_diagram _ _ _ G KT X). reflexivity.
Qed.

(** * Examples *)
(** Start, split, two tasks, join, end in one process. *)
Definition plain_node (id type : string) (ins outs : list string) (more : attrs) : string * attrs :=
  (id, flow_node id type "" "p" ins outs ++ more).
Definition gate : attrs := [("gatewayDirection", VStr "Mixed"); ("default", VNone)].
Definition block : diagram := {|
  dgraph := {|
    gnodes :=
      [plain_node "s" "startEvent" [] ["f1"] [("parallelMultiple", VStr "false"); ("isInterrupting", VStr "true"); ("event_definitions", VDefs [("d", "timerEventDefinition")])];
       plain_node "x" "exclusiveGateway" ["f1"] ["f2"; "f3"] gate;
       plain_node "a" "task" ["f2"] ["f4"] [("default", VNone)]; plain_node "b" "userTask" ["f3"] ["f5"] [("default", VNone)];
       plain_node "y" "exclusiveGateway" ["f4"; "f5"] ["f6"] gate;
       plain_node "e" "endEvent" ["f6"] [] [("event_definitions", VDefs [])]];
    gedges := [mkEdge "s" "x" (flow_atts "f1" "p" "" "s" "x" []); mkEdge "x" "a" (flow_atts "f2" "p" "" "x" "a" [] ++ [("conditionExpression", VCond "c" "ok")]);
               mkEdge "x" "b" (flow_atts "f3" "p" "" "x" "b" []); mkEdge "a" "y" (flow_atts "f4" "p" "" "a" "y" []);
               mkEdge "b" "y" (flow_atts "f5" "p" "" "b" "y" []); mkEdge "y" "e" (flow_atts "f6" "p" "" "y" "e" [])] |};
  seq_flows := [("f1", mkFlow "" "s" "x"); ("f2", mkFlow "" "x" "a"); ("f3", mkFlow "" "x" "b"); ("f4", mkFlow "" "a" "y");
                ("f5", mkFlow "" "b" "y"); ("f6", mkFlow "" "y" "e")];
  procs := [("p", [("id", VStr "p"); ("isClosed", VStr "false"); ("isExecutable", VStr "true"); ("processType", VStr "None")])];
  diag_attrs := []; plane_attrs := []; collaboration := None |}.
(** The same with a second process. *)
Definition block_twice : diagram :=
  mkDiagram (dgraph block) (seq_flows block) (procs block ++ [("q", [("id", VStr "q"); ("isClosed", VStr "false"); ("isExecutable", VStr "true"); ("processType", VStr "None")])])
    [] [] None.
(** A task in a subprocess. *)
Definition within_sub : diagram := {|
  dgraph := {|
    gnodes := [("u", flow_node "u" "task" "" "sub" [] ["f"] ++ [("default", VNone)]); ("v", flow_node "v" "task" "" "sub" ["f"] [] ++ [("default", VNone)]);
               plain_node "sub" "subProcess" [] [] [("default", VNone); ("triggeredByEvent", VStr "false")]];
    gedges := [mkEdge "u" "v" (flow_atts "f" "sub" "" "u" "v" [])] |};
  seq_flows := [("f", mkFlow "" "u" "v")]; procs := procs block; diag_attrs := []; plane_attrs := []; collaboration := None |}.
Definition no_di_file (d : diagram) : dom := match export_xml_file_no_di 5 d with Ok f => f | Err _ => DText "" end.
Ltac graph_ok := apply gwf_check; [vm_compute; repeat (constructor; [simpl; intuition discriminate|]); constructor|vm_compute; reflexivity|vm_compute; reflexivity].
Ltac types_of := let n := fresh "n" in let J := fresh "J" in intros n J; vm_compute in J;
  repeat match type of J with
  | False => destruct J
  | _ => destruct J as [<- |J]; [eexists; split; [vm_compute; reflexivity|]; split; [simpl; tauto|];
      let ds := fresh "ds" in let x := fresh "x" in let D := fresh "D" in let Jx := fresh "Jx" in
      intros ds x D Jx; vm_compute in D; first [discriminate D|inversion D; subst; simpl in Jx;
        first [destruct Jx as [<- |[]]; eexists; split; [reflexivity|simpl; tauto]|destruct Jx]]|]
  end.
Example C40_example : gwf (dgraph block) /\ known_types block /\ export_xml_file_no_di 5 block = Ok (no_di_file block) /\
  ids_in node_kinds (no_di_file block) = ["s"; "x"; "a"; "b"; "y"; "e"] /\
  ids_in ["sequenceFlow"] (no_di_file block) = ["f1"; "f2"; "f3"; "f4"; "f5"; "f6"] /\ NoDup (flow_ids block).
Proof.
  split; [graph_ok|]. split; [types_of|]. split; [vm_compute; reflexivity|]. split; [vm_compute; reflexivity|].
  split; [vm_compute; reflexivity|]. vm_compute. repeat (constructor; [simpl; intuition discriminate|]). constructor.
Qed.
Example C40_example_nested : known_types within_sub /\ nested within_sub "u" /\ ~ nested within_sub "sub" /\
  ids_in node_kinds (no_di_file within_sub) = ["u"; "v"; "sub"; "u"; "v"] /\ ids_in ["sequenceFlow"] (no_di_file within_sub) = ["f"; "f"].
Proof.
  split; [types_of|]. split; [exists "sub"; split; [reflexivity|exists "sub"; split; reflexivity]|].
  split; [intros (p & P & s & T & Is); vm_compute in P; injection P as <-|split; vm_compute; reflexivity].
  unfold attr, node_of in T, Is. cbn [within_sub dgraph gnodes dget plain_node] in T, Is.
  repeat match type of T with context[if ?b then _ else _] => destruct b; [vm_compute in T, Is; discriminate|] end. discriminate.
Qed.
(** The claim that every node and flow is written once, in its own process, is false. *)
Theorem C40_two_processes_refuted : exists fuel d file n, gwf (dgraph d) /\ known_types d /\ export_xml_file_no_di fuel d = Ok file /\
  is_node d n /\ times_written node_kinds file n = 2 /\ attr d n "process" = Some (VStr "p") /\
  exists e, In e (element_children file) /\ get_attribute "id" e = "q" /\ In n (child_ids node_kinds e).
Proof.
  exists 5, block_twice, (no_di_file block_twice), "a". split; [graph_ok|]. split; [types_of|]. split; [vm_compute; reflexivity|].
  split; [vm_compute; tauto|]. split; [vm_compute; reflexivity|]. split; [reflexivity|].
  destruct (element_children (no_di_file block_twice)) as [|e1 [|e2 l]] eqn:E; try (vm_compute in E; discriminate). exists e2. split; [right; left; reflexivity|].
  vm_compute in E. injection E as _ <- _. split; [reflexivity|]. vm_compute. tauto.
Qed.
Theorem C40_nested_refuted : exists fuel d file n, gwf (dgraph d) /\ known_types d /\ export_xml_file_no_di fuel d = Ok file /\
  is_node d n /\ length (procs d) = 1 /\ times_written node_kinds file n = 2.
Proof.
  exists 5, within_sub, (no_di_file within_sub), "u". split; [graph_ok|]. split; [types_of|]. split; [vm_compute; reflexivity|].
  split; [vm_compute; tauto|]. split; vm_compute; reflexivity.
Qed.
(** The claim that the file can be loaded is false. *)
Theorem C75_loads_refuted : exists fuel d file, export_xml_file_no_di fuel d = Ok file /\
  forall d', load_diagram_from_xml (fun l => l) file empty_diagram <> (d', Ok tt).
Proof. exists 5, block, (no_di_file block). split; [vm_compute; reflexivity|]. intros d' H. vm_compute in H. discriminate. Qed.

Print Assumptions C40_written.
Print Assumptions C40_nodes_once.
Print Assumptions C40_flows_once.
Print Assumptions C40_single_process.
Print Assumptions C40_two_processes_refuted.
Print Assumptions C40_nested_refuted.
Print Assumptions C75_never_loads.
Print Assumptions C75_loads_refuted.
