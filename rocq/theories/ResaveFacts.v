(** What is loaded from a file with one process is written like the file. *)
From Coq Require Import String List Bool Arith Lia Permutation.
From Verif Require Import Py PyFacts Consts Nx NxFacts Rep SpecRep RepFacts CsvRegex CsvImport CsvFacts Xml Export Import XmlOps
  ImportFacts ActionFacts DiFacts LoadFacts SpecXml XmlScopes Prop_XmlImport ExportFacts ExportTree ExportScopes SpecRound RoundNodes RoundLoad RoundBack RoundLoads
  Prop_XmlRound Prop_XmlLanes Prop_XmlDrawn SpecOrder KeyOrder OrderRound SameRound Prop_Order EdgeOrder ProcOrder MessageBack SpecResave.
Import ListNotations.
Open Scope string_scope.
Open Scope list_scope.

Lemma rmap_rel : forall A B C (R : A -> B -> Prop) (f : A -> res C) (g : B -> res C) l l', Forall2 R l l' -> forall r, rmap f l = Ok r ->
  (forall x y c, In x l -> In c r -> R x y -> f x = Ok c -> g y = Ok c) -> rmap g l' = Ok r.
Proof.
  intros A B C R f g l l' F. induction F as [|x y l l' Rxy F IH]; intros r E H; [exact E|]. cbn [rmap] in *.
  destruct (f x) as [c|] eqn:Ex; [|discriminate]. cbn [rbind] in *. destruct (rmap f l) as [cs|] eqn:El; [|discriminate]. inv E.
  rewrite (H x y c (or_introl eq_refl) (or_introl eq_refl) Rxy Ex). cbn [rbind].
  rewrite (IH cs eq_refl (fun a b z I J => H a b z (or_intror I) (or_intror J))). reflexivity.
Qed.
Lemma rmap_forall : forall A B (f : A -> res B) l r, rmap f l = Ok r -> Forall2 (fun x y => f x = Ok y) l r.
Proof.
  intros A B f. induction l as [|x l IH]; intros r H; cbn [rmap] in H; [inv H; constructor|].
  destruct (f x) as [y|] eqn:E; [|discriminate]. cbn [rbind] in H. destruct (rmap f l) as [ys|]; [|discriminate]. inv H. constructor; auto.
Qed.
Lemma forall_map : forall A B C (f : A -> C) (g : B -> C) l l', map f l = map g l' -> Forall2 (fun x y => f x = g y) l l'.
Proof.
  intros A B C f g. induction l as [|x l IH]; intros [|y l'] H; try discriminate; [constructor|]. inv H. constructor; auto.
Qed.
Lemma forall_impl : forall A B (R Q : A -> B -> Prop) l l', (forall x y, R x y -> Q x y) -> Forall2 R l l' -> Forall2 Q l l'.
Proof. intros A B R Q l l' H F. induction F; constructor; auto. Qed.
Lemma forall_in : forall A B (R : A -> B -> Prop) l l', Forall2 R l l' -> Forall2 (fun x y => In x l /\ In y l' /\ R x y) l l'.
Proof.
  intros A B R l l' F. induction F as [|x y l l' H F IH]; [constructor|]. constructor; [simpl; auto|].
  eapply forall_impl; [|exact IH]. simpl. intros; intuition.
Qed.

(** * The flows of a document *)
Definition is_flow (x : dom) : bool := d_local x =? "sequenceFlow".
Lemma flow_lines : forall o e, flat_map lines (flow_actions o e) = map (fun x => (src x, tgt x)) (filter is_flow (d_kids e)).
Proof.
  intros o e. unfold flow_actions. induction (d_kids e) as [|x l IH]; [reflexivity|]. cbn [flat_map filter]. rewrite flat_map_app, IH. unfold is_flow at 2.
  destruct x as [g a ks|s|s]; try reflexivity. change t_sequence_flow with "sequenceFlow". destruct (d_local (DElem g a ks) =? "sequenceFlow"); reflexivity.
Qed.

Lemma strings_atts : forall e, strings e -> forall x, In x (e_atts e) -> is_string x.
Proof. intros e S. inversion S. assumption. Qed.

Lemma copied_eq : forall k (a a' : attrs), dget k a' = dget k a -> copied k a' = copied k a.
Proof. intros k a a' H. unfold copied, dgetE. rewrite H. reflexivity. Qed.
Lemma none_eq : forall k (a a' : attrs), dget k a' = dget k a -> get_or_none k a' = get_or_none k a.
Proof. intros k a a' H. unfold get_or_none. rewrite H. reflexivity. Qed.

Section Once.
Variable d : diagram.
Hypothesis SB : storable d.
Hypothesis CP : complete d.
Hypothesis NM : no_messages d.
Variables (fuel : nat) (t : etree).
Hypothesis TP : export_tree fuel d = Ok t.
Hypothesis ST : strings t.
Notation root := (dom_of t).
Variable p : string.
Hypothesis AI : all_in d p.

Lemma sub_not : forall s, scope root s -> named "subProcess" s -> exists q k, q <> p /\ scope_elem d fuel q k /\ s = dom_of k.
Proof using SB TP AI.
  intros s Sc N. destruct (scope_of d SB fuel t TP s Sc) as (q & k & Sk & W & E). exists q, k. split; [|auto]. intros ->. subst s.
  destruct Sk as [Pe|(a & Ne & T)].
  - apply process_name in Pe. destruct Pe as [Pt _]. apply named_dom in N. rewrite Pt in N. discriminate.
  - destruct Ne as [In_ _]. destruct (sb_subs _ SB p) as [_ Q]; [rewrite (in_node d SB _ _ _ In_); exact T|]. apply Q. destruct AI as (-> & _). left. reflexivity.
Qed.
Lemma no_flow : forall s x, scope root s -> named "subProcess" s -> In x (d_kids s) -> is_flow x = false.
Proof using SB TP ST AI.
  intros s x Sc N I. apply not_true_is_false. intros B. apply String.eqb_eq in B.
  assert (F : flow_in root s x) by (split; [exact Sc|]; split; [exact I|]; destruct x as [g a ks|z|z]; try discriminate; exact B).
  destruct (sub_not s Sc N) as (q & k & Nq & Sk & Es).
  destruct (flow_declared_edge d SB fuel t TP ST s x F) as (e & q' & k' & c & Ie & Pe & Sk' & E' & _).
  destruct AI as (_ & _ & AF). pose proof (AF e q' Ie Pe). subst q'. apply Nq.
  rewrite <- (scope_id d SB fuel q k Sk), <- (scope_id d SB fuel p k' Sk'). congruence.
Qed.
Lemma element_lines : forall e o s, scope root s -> In e (d_kids s) -> flat_map lines (element_actions o e) = [].
Proof using SB TP ST AI.
  intros e. induction e as [g a kids IH|z|z] using dom_rect'; intros o s Sc I; try reflexivity. cbn [element_actions]. rewrite flat_map_app.
  assert (N : flat_map lines (if smem (local_name g) node_types then [ANode o (DElem g a kids)] else []) = []) by (destruct (smem _ _); reflexivity).
  rewrite N. cbn [app]. change t_subprocess with "subProcess". destruct (String.eqb_spec (local_name g) "subProcess") as [E|E]; [|reflexivity].
  assert (Sc' : scope root (DElem g a kids)) by (eapply scope_sub; eauto). rewrite flat_map_app, flow_lines.
  assert (Z : filter is_flow (d_kids (DElem g a kids)) = []).
  { pose proof (fun x => no_flow (DElem g a kids) x Sc' E) as Q. cbn [d_kids] in *. clear -Q. induction kids as [|x l IHl]; [reflexivity|]. cbn [filter]. rewrite (Q x (or_introl eq_refl)).
    apply IHl. intros y I. apply Q. right. exact I. }
  rewrite Z. cbn [map]. rewrite app_nil_r. rewrite Forall_forall in IH.
  assert (K : forall l, incl l kids -> flat_map lines (flat_map (element_actions (InSubprocess (get_attribute k_id (DElem g a kids)))) l) = []).
  { induction l as [|x l IHl]; intros Inc; [reflexivity|]. cbn [flat_map]. rewrite flat_map_app.
    rewrite (IH x (Inc x (or_introl eq_refl)) _ (DElem g a kids) Sc' (Inc x (or_introl eq_refl))). apply IHl. intros y Iy. apply Inc. right. exact Iy. }
  apply K, incl_refl.
Qed.
Lemma process_lines : forall s, scope root s -> flat_map lines (process_actions s) = map (fun x => (src x, tgt x)) (filter is_flow (d_kids s)).
Proof using SB TP ST AI.
  intros s Sc. unfold process_actions. cbn [flat_map lines app]. rewrite flat_map_app, flow_lines.
  assert (K : forall l, incl l (d_kids s) -> flat_map lines (flat_map (element_actions (InProcess (get_attribute k_id s))) l) = []).
  { induction l as [|x l IHl]; intros Inc; [reflexivity|]. cbn [flat_map]. rewrite flat_map_app. rewrite (element_lines x _ s Sc (Inc x (or_introl eq_refl))).
    apply IHl. intros y Iy. apply Inc. right. exact Iy. }
  rewrite (K _ (incl_refl _)). reflexivity.
Qed.
Lemma collab_lines : flat_map lines (match document_elements t_collaboration root with [] => [] | c :: _ => collab_actions c end) = [].
Proof using SB TP ST NM.
  destruct (document_elements t_collaboration root) as [|c r] eqn:E; [reflexivity|]. unfold collab_actions. cbn [flat_map lines app].
  assert (Hc : collaboration_of root = Some c) by (unfold collaboration_of; change "collaboration" with t_collaboration; rewrite E; reflexivity).
  assert (K : forall x, In x (d_kids c) -> ~ named "messageFlow" x).
  { intros x I N. destruct (message_of d SB fuel t TP x) as (cc & m & rr & Hcc & Im & _); [exists c; auto|]. rewrite (NM cc Hcc) in Im. destruct Im. }
  revert K. induction (d_kids c) as [|x l IH]; intros K; [reflexivity|]. cbn [flat_map]. rewrite flat_map_app, IH by (intros y I; apply K; right; exact I). rewrite app_nil_r.
  destruct x as [g a ks|z|z]; try reflexivity. destruct (_ =? t_participant); [reflexivity|]. destruct (String.eqb_spec (d_local (DElem g a ks)) t_message_flow) as [Q|Q]; [|reflexivity].
  exfalso. apply (K _ (or_introl eq_refl)). exact Q.
Qed.

(** All nodes and all flows are those of the process. *)
Lemma all_nodes : forall d0 q, (forall na, In na (gnodes (dgraph d0)) -> dget "process" (snd na) = Some (VStr p)) ->
  get_nodes_list_by_process_id q d0 = Ok (if String.eqb p q then gnodes (dgraph d0) else []).
Proof using.
  clear. intros d0 q H. unfold get_nodes_list_by_process_id, nodes_view. induction (gnodes (dgraph d0)) as [|na l IH]; [destruct (p =? q); reflexivity|].
  assert (A : attr_is k_process (Some q) na = Ok (p =? q)).
  { unfold attr_is. change k_process with "process". unfold dgetE. rewrite (H na (or_introl eq_refl)). reflexivity. }
  cbn [rfilter]. rewrite A. cbn [rbind]. rewrite IH by (intros x I; apply H; right; exact I). destruct (p =? q); reflexivity.
Qed.
Lemma all_flows : forall d0 q, (forall f, In f (edges_view (dgraph d0)) -> dget "process" (snd f) = Some (VStr p)) ->
  get_flows_list_by_process_id q d0 = if String.eqb p q then edges_view (dgraph d0) else [].
Proof using.
  clear. intros d0 q H. unfold get_flows_list_by_process_id, get_flows. induction (edges_view (dgraph d0)) as [|f l IH]; [destruct (p =? q); reflexivity|].
  cbn [filter]. change k_process with "process". rewrite (H f (or_introl eq_refl)). change k_process with "process" in IH. rewrite IH by (intros x I; apply H; right; exact I). unfold veqs. destruct (p =? q); reflexivity.
Qed.
Lemma node_process : forall na, In na (gnodes (dgraph d)) -> dget "process" (snd na) = Some (VStr p).
Proof using SB AI. intros [n a] I. rewrite <- (in_node d SB _ _ _ I). destruct AI as (_ & N & _). exact (proj1 (N n (in_is_node _ _ _ I))). Qed.
Lemma edge_process : forall e, In e (gedges (dgraph d)) -> dget "process" (eat e) = Some (VStr p).
Proof using CP NM AI.
  intros e I. destruct (cp_flows _ CP e I) as [(q & Q & _)|(c & m & r & Hc & Im & _)].
  - destruct AI as (_ & _ & AF). rewrite <- (AF e q I Q). exact Q.
  - exfalso. rewrite (NM c Hc) in Im. destruct Im.
Qed.
Lemma view_process : forall f, In f (edges_view (dgraph d)) -> dget "process" (snd f) = Some (VStr p).
Proof using SB CP NM AI.
  intros f I. destruct (view_in_edge _ _ (sb_graph _ SB) I) as [e [Ie R]]. assert (E : snd f = eat e) by (unfold reports in R; tauto). rewrite E. apply edge_process. exact Ie.
Qed.
Definition read_ends (f : string * string * attrs) : string * string :=
  (match dget "sourceRef" (snd f) with Some v => string_of v | None => "" end, match dget "targetRef" (snd f) with Some v => string_of v | None => "" end).

Lemma one_process : exists a k sh, procs d = [(p, a)] /\ export_process fuel d (p, a) = Ok (k, sh) /\ scope root (dom_of k) /\
  forall x, In x (document_elements "process" root) <-> x = dom_of k.
Proof using SB TP AI.
  destruct (placed_scope d SB fuel t TP p) as (k & Sk & W & Sc); [apply placed_process; destruct AI as (-> & _); left; reflexivity|].
  assert (Pe : process_elem d fuel p k).
  { destruct Sk as [?|(a & Ne & T)]; [assumption|]. exfalso. destruct Ne as [In_ _]. destruct (sb_subs _ SB p) as [_ Q]; [rewrite (in_node d SB _ _ _ In_); exact T|].
    apply Q. destruct AI as (-> & _). left. reflexivity. }
  pose proof Pe as (a & sh & Ip & Ex). exists a, k, sh. split.
  { destruct AI as (E & _). destruct (procs d) as [|[q b] l]; [discriminate|]. destruct l; [|discriminate]. inv E. destruct Ip as [Ip|[]]. inv Ip. reflexivity. }
  split; [exact Ex|]. split; [exact Sc|]. intros x. split.
  - intros I. apply in_document in I. destruct I as [I N]. destruct (process_in_root d SB fuel t TP x I N) as (q & k' & Pe' & _ & ->).
    assert (q = p). { destruct Pe' as (a' & sh' & Ip' & _). apply (in_map fst) in Ip'. destruct AI as (E & _). rewrite E in Ip'. destruct Ip' as [Ip'|[]]. symmetry. exact Ip'. }
    subst q. f_equal. apply (scope_unique d SB fuel p k' k); [left; exact Pe'|exact Sk].
  - intros ->. apply in_document. inversion Sc as [y I N Ey|s y S I N Ey]; [auto|]. exfalso.
    apply process_name in Pe. destruct Pe as [Pt _]. apply named_dom in N. rewrite Pt in N. discriminate.
Qed.
Lemma process_flows : forall a k sh, export_process fuel d (p, a) = Ok (k, sh) ->
  map (fun x => (src x, tgt x)) (filter is_flow (d_kids (dom_of k))) = map read_ends (edges_view (dgraph d)).
Proof using SB CP NM ST TP AI.
  intros a k sh H. destruct (process_inv _ _ _ _ _ H) as [(c & x & u & ls & ns & es & fs & _ & _ & _ & L & N & Es & Fs & E)]. cbn [fst] in E. subst k.
  assert (Kd : forall g b l, d_kids (dom_of (elem g b l)) = map dom_of l) by (clear; intros; reflexivity). rewrite Kd. clear Kd.
  assert (K : forall l, filter is_flow (map dom_of l) = map dom_of (filter (fun y => local_name (e_tag y) =? "sequenceFlow") l)).
  { clear. induction l as [|y l IH]; [reflexivity|]. cbn [map filter]. unfold is_flow at 1. rewrite local_dom. destruct (_ =? _); cbn [map]; rewrite IH; reflexivity. }
  rewrite K, !filter_app.
  assert (Z1 : filter (fun y => local_name (e_tag y) =? "sequenceFlow") ls = []).
  { unfold lanes_out in L. destruct (dget k_lane_set a) as [v|]; [|inv L; reflexivity]. destruct v; try discriminate.
    destruct (export_lane_set _) as [q|] eqn:Eq; [|discriminate]. cbn [rbind] in L. inv L. unfold export_lane_set in Eq. destruct (rmap _ _) as [z|]; [|discriminate]. cbn [rbind] in Eq. inv Eq. reflexivity. }
  assert (Z2 : filter (fun y => local_name (e_tag y) =? "sequenceFlow") es = []).
  { assert (Q : forall y, In y es -> local_name (e_tag y) <> "sequenceFlow").
    { intros y I. destruct (rmap_out _ _ _ _ _ Es y I) as [na [J X]]. apply (nodes_by_process _ _ _ N) in J.
      destruct (node_elem_name d SB na y) as (_ & Kd & _); [split; [tauto|eauto]|]. intros Q. rewrite Q in Kd. simpl in Kd. intuition discriminate. }
    clear -Q. induction es as [|y l IH]; [reflexivity|]. cbn [filter]. rewrite (proj2 (String.eqb_neq _ _) (Q y (or_introl eq_refl))). apply IH. intros z I. apply Q. right. exact I. }
  rewrite Z1, Z2. cbn [app]. rewrite (all_flows d p view_process), String.eqb_refl in Fs. apply rmap_forall in Fs. apply forall_in in Fs.
  assert (V : forall f, In f (edges_view (dgraph d)) -> exists u v, dget "sourceRef" (snd f) = Some (VStr u) /\ dget "targetRef" (snd f) = Some (VStr v)).
  { intros f I. pose proof (view_process f I) as P. destruct (view_in_edge _ _ (sb_graph _ SB) I) as [e [Ie R]]. assert (Ee : snd f = eat e) by (unfold reports in R; tauto).
    rewrite Ee in *. destruct (sb_flows _ SB e p Ie P) as (i & u0 & v0 & (_ & F2 & F3 & _) & _). eauto. }
  assert (G : Forall2 (fun f y => read_ends f = (src (dom_of y), tgt (dom_of y)) /\ local_name (e_tag y) = "sequenceFlow") (edges_view (dgraph d)) fs).
  { eapply forall_impl; [|exact Fs]. intros f y (If & _ & X). destruct (V f If) as (u0 & v0 & V1 & V2). unfold read_ends, src, tgt. rewrite V1, V2. cbn [string_of].
    destruct (flow_inv _ _ X) as [(id & nm & sr & tr & _ & _ & D3 & D4 & Q)]. rewrite V1 in D3. rewrite V2 in D4. inv D3. inv D4.
    destruct Q as [[_ ->]|(cid & text & _ & ->)]; (split; [|reflexivity]); f_equal; symmetry; apply get_dom; reflexivity. }
  clear -G. induction G as [|f y l l' [A B] G IH]; [reflexivity|]. cbn [filter]. rewrite B. cbn [String.eqb Ascii.eqb Bool.eqb map]. rewrite A, IH. reflexivity.
Qed.
End Once.

(** * Connections are kept apart *)
Lemma joined_pair : forall p q, joined (fst p) (snd p) q = true <-> same_pair (fst p) (snd p) (fst q) (snd q).
Proof.
  intros [a b] [x y]. unfold joined, same_pair. cbn [fst snd]. rewrite orb_true_iff, !andb_true_iff, !String.eqb_eq. intuition congruence.
Qed.
Lemma apart_ends : forall es, (forall l1 e1 l2 e2 l3, es = l1 ++ e1 :: l2 ++ e2 :: l3 -> connects (eu e1) (ev e1) e2 = false) -> apart (map ends_of es).
Proof.
  induction es as [|e es IH]; intros H; [exact I|]. cbn [map apart]. split.
  - intros q J. apply in_map_iff in J. destruct J as (e2 & <- & J). apply in_split in J. destruct J as (l2 & l3 & ->). exact (H [] e l2 e2 l3 eq_refl).
  - apply IH. intros l1 e1 l2 e2 l3 E. apply (H (e :: l1) e1 l2 e2 l3). rewrite E. reflexivity.
Qed.
Lemma apart_perm : forall l l', Permutation l l' -> apart l -> apart l'.
Proof.
  intros l l' P. induction P as [|x l l' P IH|x y l|l l' l'' P1 IH1 P2 IH2]; auto.
  - intros [A B]. split; [|auto]. intros q I. apply A. eapply Permutation_in; [symmetry; exact P|exact I].
  - intros [A [B C]]. split; [|split; [|exact C]].
    + intros q [<-|I]; [rewrite joined_swap; apply A; left; reflexivity|apply B; exact I].
    + intros q I. apply A. right. exact I.
Qed.
Lemma apart_same : forall l l', Forall2 (fun p q => same_pair (fst p) (snd p) (fst q) (snd q)) l l' -> apart l -> apart l'.
Proof.
  intros l l' F. induction F as [|p q l l' Hp F IH]; intros A; [exact I|]. destruct A as [A B]. split; [|auto].
  intros y J. destruct (Forall2_in_r _ _ _ _ _ _ F J) as (x & Ix & Hx). apply not_true_is_false. intros Q. apply joined_pair in Q.
  assert (X : joined (fst p) (snd p) x = true) by (apply joined_pair; clear -Hp Hx Q; unfold same_pair in *; intuition congruence).
  rewrite (A x Ix) in X. discriminate.
Qed.

(** What two connections must share to be written alike. *)
Definition written_alike (a a' : attrs) : Prop :=
  dget "process" a' = dget "process" a /\ (forall e, export_flow_process_data a = Ok e -> export_flow_process_data a' = Ok e) /\
  (forall e, export_flow_di_data a = Ok e -> export_flow_di_data a' = Ok e).

Section Pieces.
Variables (so : list string -> list string) (fuel : nat) (d d' : diagram).
Hypothesis Po : any_order so.
Hypothesis SB : storable d.
Hypothesis CP : complete d.
Hypothesis AP : forall n, is_node d n -> in_process d n.
Hypothesis R : round_trip so fuel d d'.
Let W' : gwf (dgraph d') := round_gwf so fuel d d' SB R.

Lemma strings_kid : forall x y, strings x -> In y (e_kids x) -> strings y.
Proof using. clear. intros x y S I. inversion S as [? ? ? ? ? _ Q E]. subst. apply Q. exact I. Qed.
Lemma link_here : forall u v k x e', link_attr d' u v k x -> In e' (gedges (dgraph d')) -> same_pair (eu e') (ev e') u v -> dget k (eat e') = Some x.
Proof using SB R.
  intros u v k x e' (e & I & S & D) I' E. assert (e = e'); [|congruence]. apply (gwf_unique _ _ _ W' I I'). apply same_pair_connects.
  clear -S E. unfold same_pair in *. intuition congruence.
Qed.
Lemma edge_alike : forall p f e', placed d p -> (exists e i u v, In e (gedges (dgraph d)) /\ snd f = eat e /\ flow_edge e i u v p /\ read_ends f = (u, v) /\
    same_pair (fst (fst f)) (snd (fst f)) u v) -> In e' (gedges (dgraph d')) -> same_pair (eu e') (ev e') (fst (read_ends f)) (snd (read_ends f)) -> listed_as written_alike f e'.
Proof using SB R.
  intros p f e' Pl (e & i & u & v & Ie & Ee & FE & Er & S) I' E. rewrite Er in E. cbn [fst snd] in E.
  destruct (C35_flows so fuel d d' e i u v p SB R Ie FE Pl) as (L1 & L2 & L3 & L4 & L5 & nm & Wr & _ & L6).
  destruct (C39_flows so fuel d d' e i u v p SB R Ie FE Pl) as (pts & Pt & L7).
  pose proof (link_here _ _ _ _ _ L1 I' E) as G1. pose proof (link_here _ _ _ _ _ L2 I' E) as G2. pose proof (link_here _ _ _ _ _ L3 I' E) as G3.
  pose proof (link_here _ _ _ _ _ L4 I' E) as G4. pose proof (link_here _ _ _ _ _ L6 I' E) as G6. pose proof (link_here _ _ _ _ _ L7 I' E) as G7.
  assert (G5 : dget "conditionExpression" (eat e') = dget "conditionExpression" (eat e)).
  { destruct (dget "conditionExpression" (eat e)) as [x|] eqn:C; [apply (link_here u v); [apply L5; reflexivity|exact I'|exact E]|].
    destruct (dget "conditionExpression" (eat e')) as [x|] eqn:C'; [|reflexivity]. exfalso.
    assert (Q : link_attr d' u v "conditionExpression" x). { exists e'. split; [exact I'|]. split; [exact E|exact C']. }
    apply L5 in Q. discriminate. }
  destruct FE as (F1 & F2 & F3 & F4). split; [clear -S E; unfold same_pair in *; intuition congruence|]. rewrite Ee. split; [rewrite G2; symmetry; exact F4|]. split.
  - intros x H. destruct (flow_inv _ _ H) as [(id & nm0 & sr & tr & D1 & D2 & D3 & D4 & Q)]. rewrite F1 in D1. rewrite F2 in D3. rewrite F3 in D4. inv D1. inv D3. inv D4.
    unfold export_flow_process_data, copied. change k_id with "id". change k_name with "name". change k_source_ref with "sourceRef". change k_target_ref with "targetRef".
    change k_condition_expression with "conditionExpression".
    rewrite (proj2 (dgetE_ok _ _ _) G1), (proj2 (dgetE_ok _ _ _) G6), (proj2 (dgetE_ok _ _ _) G3), (proj2 (dgetE_ok _ _ _) G4). cbn [rbind]. rewrite G5.
    unfold written_as in Wr. destruct Q as [[C ->]|(cid & text & C & ->)]; rewrite C in *.
    + rewrite D2 in Wr. inv Wr. reflexivity.
    + subst nm. reflexivity.
  - intros x H. unfold export_flow_di_data in *. change k_id with "id" in *. rewrite (proj2 (dgetE_ok _ _ _) F1) in H. rewrite (proj2 (dgetE_ok _ _ _) G1). cbn [rbind] in *.
    destruct (gui (VStr i)) as [g|]; [|discriminate]. cbn [rbind] in *. unfold waypoint_elements in *. change k_waypoints with "waypoints" in *.
    rewrite (proj2 (dgetE_ok _ _ _) G7). destruct Pt as [Pt|[Pt ->]]; rewrite (proj2 (dgetE_ok _ _ _) Pt) in H; exact H.
Qed.
(** * The nodes *)
Hypothesis PD : plain_definitions d.
Lemma back_attr : forall n a' k, In (n, a') (gnodes (dgraph d')) -> attr d' n k = dget k a'.
Proof using SB R. intros n a' k I. apply nodes_attr; [exact (gwf_nodup _ W')|exact I]. Qed.
Lemma short_perm : forall (l l' : list (string * string)), Permutation l l' -> length l' <= 1 -> l = l'.
Proof using.
  clear. intros l l' P L. destruct l' as [|x [|y l']]; [apply Permutation_nil; symmetry; exact P|apply Permutation_length_1_inv; symmetry; exact P|simpl in L; lia].
Qed.
Lemma definitions_back : forall n a a' x, In (n, a) (gnodes (dgraph d)) -> dget "event_definitions" a' = Some (VDefs (definitions_of d n)) ->
  definition_elements (get_or_none "event_definitions" a) = Ok x -> definition_elements (get_or_none "event_definitions" a') = Ok x.
Proof using SB.
  intros n a a' x I E H. unfold get_or_none in *. rewrite E. unfold definitions_of. rewrite (in_node d SB _ _ _ I).
  destruct (dget "event_definitions" a) as [[| | l| | | |]|]; try discriminate; [destruct l; [exact H|discriminate]|exact H].
Qed.
Lemma event_definitions_back : forall n a a' x, In (n, a) (gnodes (dgraph d)) -> dget "event_definitions" a' = Some (VDefs (definitions_of d n)) ->
  event_definition_elements a = Ok x -> event_definition_elements a' = Ok x.
Proof using SB.
  intros n a a' x I E H. pose proof (definitions_back n a a' x I E) as Q. unfold event_definition_elements, get_or_none in *. change k_event_definitions with "event_definitions" in *.
  unfold dgetE in *. destruct (dget "event_definitions" a) as [v|]; [|discriminate]. cbn [rbind] in H. specialize (Q H). rewrite E in *. exact Q.
Qed.
Lemma default_back' : forall n a a', In (n, a) (gnodes (dgraph d)) -> dget "default" a' = Some (default_of d n) ->
  (forall v, dget "default" a = Some v -> v = VNone \/ exists s, v = VStr s) -> default_attribute a' = default_attribute a.
Proof using SB.
  intros n a a' I E H. unfold default_attribute. change k_default with "default". rewrite E. unfold default_of. rewrite (in_node d SB _ _ _ I).
  destruct (dget "default" a) as [v|]; [|reflexivity]. destruct (H v eq_refl) as [->|[s ->]]; reflexivity.
Qed.

Lemma node_alike : forall f n a a' e,
  (forall f0 nodes es fs, f = S f0 -> dget "type" a = Some (VStr "subProcess") -> get_nodes_list_by_process_id n d = Ok nodes -> rmap (export_node_data f0 d) nodes = Ok es ->
    rmap (fun f => export_flow_process_data (snd f)) (get_flows_list_by_process_id n d) = Ok fs -> (forall c, In c es -> strings c) ->
    exists nodes', get_nodes_list_by_process_id n d' = Ok nodes' /\ rmap (export_node_data f0 d') nodes' = Ok es /\
      rmap (fun f => export_flow_process_data (snd f)) (get_flows_list_by_process_id n d') = Ok fs) ->
  In (n, a) (gnodes (dgraph d)) -> In (n, a') (gnodes (dgraph d')) -> strings e ->
  export_node_data f d (n, a) = Ok e -> export_node_data f d' (n, a') = Ok e.
Proof using Po SB AP R PD.
  intros f n a a' e Deep I I' Se H. pose proof (in_is_node _ _ _ I) as Nd. pose proof (AP n Nd) as IP.
  destruct (C34_nodes so fuel d d' n Po SB R IP) as (_ & Id & Ty & Nm & _ & Ot). destruct (C34_flow_lists so fuel d d' n SB R IP) as [Li Lo]. unfold kept in *.
  destruct (node_inv _ _ _ _ _ H) as (f0 & t & name & li & lo & more & -> & [Ht Hn Hi Ho Hm He]).
  specialize (Ot t (eq_trans (in_node d SB _ _ _ I) Ht)). destruct Ot as (Ow & Df & Ev).
  assert (K : In t node_kinds). { destruct IP as (s & p & T & K & _). rewrite (in_node d SB _ _ _ I), Ht in T. inv T. exact K. }
  rewrite !(back_attr _ _ _ I'), !(in_node d SB _ _ _ I) in *.
  assert (Ow' : forall k, In k (own_attributes t) -> dget k a' = dget k a) by (intros k Ik; rewrite <- (back_attr _ _ _ I'), <- (in_node d SB _ _ _ I); apply Ow; exact Ik). clear Ow.
  assert (Ev' : has_definitions t = true -> dget "event_definitions" a' = Some (VDefs (definitions_of d n))).
  { intros B. destruct (Ev B) as (l & El & Pm). rewrite (short_perm l _ Pm (PD n)) in El. exact El. } clear Ev.
  assert (Df' : has_default t = true -> default_attribute a' = default_attribute a).
  { intros B. apply (default_back' n); [exact I|exact (Df B)|]. intros v Dv.
    assert (M : v = VNone \/ In ("default", v) (fst more)).
    { assert (Q : v = VNone \/ In ("default", v) (default_attribute a)).
      { unfold default_attribute. change k_default with "default". rewrite Dv. destruct v; auto; right; left; reflexivity. }
      destruct Q as [Q|Q]; [left; exact Q|]. right. unfold node_more in Hm. simpl in K.
      repeat (destruct K as [K|K]; [subst t; try discriminate B; cbn in Hm; unfold export_task_info, export_complex_gateway_info, export_inclusive_exclusive_gateway_info, copied in Hm;
        repeat match type of Hm with rbind ?x _ = _ => destruct x; [cbn [rbind] in Hm|discriminate Hm] | match ?x with VStr _ => _ | _ => _ end = _ => destruct x; try discriminate Hm end; try (inv Hm; cbn [fst]; try right; exact Q)|]).
      all: try destruct K. }
    destruct M as [M|M]; [left; exact M|]. right. rewrite He in Se. destruct (strings_atts _ Se ("default", v)) as [s Es]; [cbn [e_atts node_elem elem]; apply in_or_app; right; exact M|]. cbn in Es. eauto. }
  eapply node_make. constructor; [rewrite Ty; exact Ht|rewrite Nm; exact Hn|rewrite Li; exact Hi|rewrite Lo; exact Ho| |exact He].
  unfold node_more in *. simpl in K.
  assert (Sub : t = "subProcess" -> dget "id" a = Some (VStr n)).
  { intros ->. pose proof (sb_subs _ SB n) as Q. rewrite !(in_node d SB _ _ _ I) in Q. exact (proj1 (Q Ht)). }
  assert (Des : forall es fs, snd more = es ++ fs -> forall c, In c es -> strings c).
  { intros es fs E c Ic. rewrite He in Se. apply (strings_kid _ _ Se). cbn [e_kids node_elem elem]. rewrite E. apply in_or_app. right. apply in_or_app. right. apply in_or_app. left. exact Ic. }
  assert (Deep' : t = "subProcess" -> dget "type" a = Some (VStr "subProcess")) by (intros <-; exact Ht).
  clear He Se H Hn Hi Ho Li Lo Nm Df.
  clear Ht.
  repeat (destruct K as [K|K]; [subst t; cbn [own_attributes has_default has_definitions] in *; cbn in Hm; cbn;
    unfold export_task_info, export_data_object_info, export_start_event_info, export_catch_event_info, export_throw_event_info, export_boundary_event_info,
      export_complex_gateway_info, export_event_based_gateway_info, export_inclusive_exclusive_gateway_info, export_parallel_gateway_info in *;
    repeat match goal with |- context [copied ?k a'] => rewrite (copied_eq k a a' (Ow' k ltac:(repeat first [left; reflexivity | right]))) end;
    repeat match goal with |- context [get_or_none ?k a'] => rewrite (none_eq k a a' (Ow' k ltac:(repeat first [left; reflexivity | right]))) end;
    try rewrite (Df' eq_refl)|]); try destruct K; try exact Hm; try (repeat match type of Hm with rbind (copied ?k a) _ = _ => destruct (copied k a); [cbn [rbind] in *|discriminate Hm] end;
    match type of Hm with rbind (event_definition_elements a) _ = _ => destruct (event_definition_elements a) as [x|] eqn:D; [|discriminate Hm];
      rewrite (event_definitions_back n a a' x I (Ev' eq_refl) D); exact Hm end).
  - destruct (copied k_triggered_by_event a) as [tr|]; [|discriminate]. cbn [rbind] in *. pose proof (Sub eq_refl) as S1. change k_id with "id" in *.
    rewrite (proj2 (dgetE_ok _ _ _) S1) in Hm. rewrite (proj2 (dgetE_ok _ _ _) Id). cbn [rbind] in *.
    destruct (get_nodes_list_by_process_id n d) as [nodes|] eqn:Q1; [|discriminate]. cbn [rbind] in Hm. destruct (rmap (export_node_data f0 d) nodes) as [es|] eqn:Q2; [|discriminate]. cbn [rbind] in Hm.
    destruct (rmap _ (get_flows_list_by_process_id n d)) as [fs|] eqn:Q3; [|discriminate]. cbn [rbind] in Hm.
    assert (Q4 : snd more = es ++ fs) by (inv Hm; reflexivity).
    destruct (Deep f0 nodes es fs eq_refl (Deep' eq_refl) eq_refl Q2 eq_refl (Des es fs Q4)) as (nodes' & N1 & N2 & N3). rewrite N1. cbn [rbind]. rewrite N2. cbn [rbind]. rewrite N3. cbn [rbind]. exact Hm.
  - destruct (definition_elements (get_or_none k_event_definitions a)) as [x|] eqn:D; [|discriminate]. 
    change k_event_definitions with "event_definitions" in *. rewrite (definitions_back n a a' x I (Ev' eq_refl) D). exact Hm.
Qed.
Lemma shape_alike : forall n a a' e, In (n, a) (gnodes (dgraph d)) -> In (n, a') (gnodes (dgraph d')) ->
  export_node_di_data (n, a) = Ok e -> export_node_di_data (n, a') = Ok e.
Proof using Po SB AP R.
  intros n a a' e I I' H. pose proof (AP n (in_is_node _ _ _ I)) as IP. destruct (C39_nodes so fuel d d' n Po SB R IP) as (Kx & Ky & Kw & Kh & Ke).
  destruct (C34_nodes so fuel d d' n Po SB R IP) as (_ & _ & Ty & _). unfold kept in *. rewrite !(back_attr _ _ _ I'), !(in_node d SB _ _ _ I) in *.
  unfold export_node_di_data, bounds_element in *. cbn [fst snd] in *. rewrite (copied_eq k_width a a' Kw), (copied_eq k_height a a' Kh), (copied_eq k_x a a' Kx), (copied_eq k_y a a' Ky).
  change k_type with "type" in *. unfold dgetE in *. rewrite Ty. destruct (rbind (copied k_width a) _) as [b|]; [|discriminate]. cbn [rbind] in *.
  destruct (dget "type" a) as [v|]; [|discriminate]. cbn [rbind] in *. destruct (veqs v t_subprocess) eqn:V; [|exact H].
  assert (Q : v = VStr "subProcess") by (unfold veqs in V; destruct v; try discriminate; apply String.eqb_eq in V; subst; reflexivity). subst v.
  rewrite (copied_eq k_is_expanded a a' (Ke eq_refl)). exact H.
Qed.

(** * Processes, pools and lanes *)
Hypothesis LL : level_lanes d.
Hypothesis OP : own_pools d.
Lemma level_lane : forall i l, lane_of d i l -> exists q a s ls, In (q, a) (procs d) /\ dget "laneSet" a = Some (VLaneSet s ls) /\ In (i, l) ls.
Proof using LL.
  intros i l (q & a & s & ls & I & D & J). exists q, a, s, ls. split; [exact I|]. split; [exact D|]. destruct (LL q a s ls I D) as (_ & _ & Fl).
  inversion J as [ls0 i0 l0 J0|ls0 j name s0 sub refs di i0 l0 J0 J1]; subst; [exact J0|]. destruct (Fl _ _ J0) as (n1 & r1 & d1 & E). discriminate.
Qed.
Lemma pools_alike : forall x, export_collaboration d = Ok x -> export_collaboration d' = Ok x.
Proof using SB CP R LL OP.
  intros x H. unfold export_collaboration in *. destruct (collaboration d) as [c|] eqn:Hc.
  2:{ rewrite (C73_no_collaboration so fuel d d' SB R Hc). exact H. }
  destruct (C73_collaboration so fuel d d' c SB R Hc) as (c' & Hc' & Ei & Em & Ek & Ep). rewrite Hc', Ei, Em in *.
  destruct (rmap (export_message_flow d) (co_messages c)) as [ms|] eqn:Ms; [|discriminate].
  assert (Ms' : rmap (export_message_flow d') (co_messages c) = Ok ms).
  { assert (F0 : Forall2 (fun x y => In x (co_messages c) /\ In y (co_messages c) /\ x = y) (co_messages c) (co_messages c)) by (apply forall_in; clear; induction (co_messages c); constructor; auto).
    apply (rmap_rel _ _ _ _ _ _ _ _ F0 _ Ms). intros m m' e Im _ (_ & _ & <-) Ex. exact (message_again so fuel d d' SB CP R c m e Hc Im Ex). }
  rewrite Ms'. cbn [rbind] in *.
  destruct (rmap export_participant (co_participants c)) as [ps|] eqn:Ps; [|discriminate]. cbn [rbind] in *.
  destruct (sb_collaboration _ SB c Hc) as [Nd _].
  assert (F : Forall2 (fun x y => In x (co_participants c) /\ In y (co_participants c') /\ fst x = fst y) (co_participants c) (co_participants c'))
    by (apply forall_in, forall_map; symmetry; exact Ek).
  rewrite (rmap_rel _ _ _ _ _ export_participant _ _ F _ Ps); [exact H|].
  intros [q a] [q' a'] e Ia _ (_ & Ia' & Eq) Ex. cbn [fst] in Eq. subst q'. destruct (Ep q a (In_dget _ _ _ Nd Ia)) as (a1 & D1 & E1 & E2 & E3).
  assert (a1 = a'). { rewrite <- Ek in Nd. apply (In_dget _ _ _ Nd) in Ia'. congruence. } subst a1.
  assert (G : forall k, In k ["isHorizontal"; "width"; "height"; "x"; "y"] -> dget k a' = dget k a).
  { apply E3; [apply (OP c q a Hc Ia)|]. intros l Lo. destruct (level_lane q l Lo) as (p0 & a0 & s & ls & I0 & D0 & J0). destruct (LL p0 a0 s ls I0 D0) as (_ & Al & _).
    destruct (Al q l J0) as (_ & _ & Q & _). exact (Q c a Hc Ia). }
  unfold export_participant, bounds_element in *. cbn [fst snd] in *.
  rewrite (copied_eq k_name a a' E1), (copied_eq k_process_ref a a' E2), (copied_eq k_is_horizontal a a' (G "isHorizontal" ltac:(simpl; tauto))),
    (copied_eq k_width a a' (G "width" ltac:(simpl; tauto))), (copied_eq k_height a a' (G "height" ltac:(simpl; tauto))), (copied_eq k_x a a' (G "x" ltac:(simpl; tauto))),
    (copied_eq k_y a a' (G "y" ltac:(simpl; tauto))). exact Ex.
Qed.
Lemma lanes_alike : forall q a a', In (q, a) (procs d) -> dget q (procs d') = Some a' -> forall x, lanes_out a = Ok x -> lanes_out a' = Ok x.
Proof using SB R LL.
  intros q a a' I D x H. unfold lanes_out in *. change k_lane_set with "laneSet" in *. destruct (dget "laneSet" a) as [v|] eqn:E.
  - destruct v as [| | | | | |s ls]; try discriminate. destruct (LL q a s ls I E) as (N & Al & Fl).
    destruct (C37_flat_lanes so fuel d d' q a s ls SB R I E N Al Fl) as (a1 & D1 & E1). rewrite D in D1. inv D1. rewrite E1. exact H.
  - destruct (C37_no_lanes so fuel d d' q a SB R I E) as (a1 & D1 & E1). rewrite D in D1. inv D1. rewrite E1. exact H.
Qed.
End Pieces.

Section Twice.
Variables (so : list string -> list string) (fuel : nat) (d d' : diagram) (p : string).
Hypothesis Po : any_order so.
Hypothesis SB : storable d.
Hypothesis CP : complete d.
Hypothesis NM : no_messages d.
Hypothesis AI : all_in d p.
Hypothesis R : round_trip so fuel d d'.
Let W' : gwf (dgraph d') := round_gwf so fuel d d' SB R.

Lemma view_entry : forall f, In f (edges_view (dgraph d)) -> exists e i u v, In e (gedges (dgraph d)) /\ snd f = eat e /\ flow_edge e i u v p /\
  read_ends f = (u, v) /\ same_pair (fst (fst f)) (snd (fst f)) u v.
Proof using SB CP NM AI.
  intros f I. destruct (view_in_edge _ _ (sb_graph _ SB) I) as [e [Ie Re]]. destruct Re as [E1 E2].
  destruct (sb_flows _ SB e p Ie (edge_process d CP NM p AI e Ie)) as (i & u & v & FE & S & _). exists e, i, u, v. split; [exact Ie|]. split; [exact E1|]. split; [exact FE|].
  destruct FE as (_ & F2 & F3 & _). split; [unfold read_ends; rewrite E1, F2, F3; reflexivity|]. clear -E2 S. unfold same_pair in *. intuition congruence.
Qed.
Lemma apart_view : apart (map read_ends (edges_view (dgraph d))).
Proof using SB CP NM AI.
  destruct (edges_view_reports _ (sb_graph _ SB)) as (l & P & F).
  assert (A : apart (map ends_of l)) by (apply (apart_perm (map ends_of (gedges (dgraph d)))); [apply Permutation_map; symmetry; exact P|apply apart_ends, (gwf_simple _ (sb_graph _ SB))]).
  revert A. apply apart_same. apply forall_in in F. assert (G := view_entry). clear -F G. induction F as [|f e V0 l0 (If & _ & Re) F IH]; [constructor|].
  cbn [map]. constructor; [|exact IH]. destruct (G f If) as (_ & _ & u & v & _ & _ & _ & -> & S). destruct Re as [_ Re]. cbn [fst snd ends_of]. unfold same_pair in *. intuition congruence.
Qed.
Lemma edges_back : edge_order d' = map read_ends (edges_view (dgraph d)).
Proof using SB CP NM AI R.
  destruct (round_dom so fuel d d' SB R) as (t & TP & ST & LD). rewrite (load_edge_order so _ _ _ LD). change (edge_order empty_diagram) with (@nil (string * string)).
  unfold core_actions. rewrite flat_map_app, (collab_lines d SB NM fuel t TP ST), app_nil_r. change k_process with "process".
  destruct (one_process d SB fuel t TP p AI) as (a & k & sh & _ & Ex & Sc & Iff).
  pose proof (process_flows d SB CP NM fuel t TP ST p AI a k sh Ex) as PF. rewrite <- (process_lines d SB fuel t TP ST p AI _ Sc) in PF.
  assert (X : forall x, In x (document_elements "process" (dom_of t)) -> flat_map lines (process_actions x) = map read_ends (edges_view (dgraph d))).
  { intros x I. apply Iff in I. subst x. exact PF. }
  assert (Ne : document_elements "process" (dom_of t) <> []).
  { intros E. pose proof (proj2 (Iff (dom_of k)) eq_refl) as J. rewrite E in J. destruct J. }
  destruct (document_elements "process" (dom_of t)) as [|x l]; [congruence|]. cbn [flat_map]. rewrite flat_map_app, link_all_app, (X x (or_introl eq_refl)).
  rewrite (link_all_apart (map read_ends (edges_view (dgraph d))) [] apart_view) by (intros ? ? []). cbn [app].
  apply link_all_in. intros q I. apply existsb_exists. exists q. split; [|apply joined_refl].
  revert I. clear -X. induction l as [|y l IH]; intros I; [destruct I|]. cbn [flat_map] in I. rewrite flat_map_app in I. apply in_app_or in I.
  destruct I as [I|I]; [rewrite (X y) in I by (simpl; auto); exact I|]. apply IH; [|exact I]. intros z [<-|J]; apply X; simpl; auto.
Qed.
Lemma views_alike : Forall2 (reported_as written_alike) (edges_view (dgraph d)) (edges_view (dgraph d')).
Proof using SB CP NM AI R.
  unfold edges_view at 2. replace (dkeys (gnodes (dgraph d'))) with (dkeys (gnodes (dgraph d))).
  2:{ symmetry. exact (round_order so fuel d d' p SB CP AI R). }
  unfold edges_view. apply (view_again written_alike (gedges (dgraph d)) (dkeys (gnodes (dgraph d))) [] []).
  - exact (gwf_nodup _ (sb_graph _ SB)).
  - intros n _ [].
  - intros t [].
  - cbn [app]. change (edges_from (dkeys (gnodes (dgraph d))) [] (gedges (dgraph d))) with (edges_view (dgraph d)).
    pose proof edges_back as E. symmetry in E. unfold edge_order in E. apply forall_map in E. apply forall_in in E.
    eapply forall_impl; [|exact E]. intros f e' (If & I' & Q). apply (edge_alike so fuel d d' SB R p); [|exact (view_entry f If)|exact I'|rewrite Q; left; auto].
    apply placed_process; destruct AI as (-> & _); left; reflexivity.
Qed.
(** * The nodes *)
Hypothesis PD : plain_definitions d.
Hypothesis LL : level_lanes d.
Hypothesis OP : own_pools d.
Lemma here_process : forall n, is_node d n -> in_process d n.
Proof using AI. exact (all_in_process d p AI). Qed.
Lemma nodes_listed : Forall2 (fun x y => In x (gnodes (dgraph d)) /\ In y (gnodes (dgraph d')) /\ fst x = fst y) (gnodes (dgraph d)) (gnodes (dgraph d')).
Proof using SB CP AI R. apply forall_in, forall_map. symmetry. exact (round_order so fuel d d' p SB CP AI R). Qed.
Lemma back_process : forall na, In na (gnodes (dgraph d')) -> dget "process" (snd na) = Some (VStr p).
Proof using Po SB CP AI R.
  intros [n a'] I. rewrite <- (back_attr so fuel d d' SB R _ _ _ I). assert (Nd : is_node d n).
  { apply (C34_same_nodes so fuel d d' SB CP R). unfold is_node. apply in_map_iff. exists (n, a'). auto. }
  destruct (C34_nodes so fuel d d' n Po SB R (here_process n Nd)) as (_ & _ & _ & _ & K & _). unfold kept in K. rewrite K.
  destruct AI as (_ & N & _). exact (proj1 (N n Nd)).
Qed.
Lemma back_view_process : forall f, In f (edges_view (dgraph d')) -> dget "process" (snd f) = Some (VStr p).
Proof using SB CP NM AI R.
  intros f I. destruct (Forall2_in_r _ _ _ _ _ _ views_alike I) as (f0 & I0 & _ & P & _). rewrite P. apply (view_process d SB CP NM p AI). exact I0.
Qed.
Lemma process_kept : forall a, procs d = [(p, a)] -> exists a', procs d' = [(p, a')] /\ dget p (procs d') = Some a' /\
  dget "isClosed" a' = dget "isClosed" a /\ dget "isExecutable" a' = dget "isExecutable" a /\ dget "processType" a' = dget "processType" a.
Proof using SB AI R.
  intros a E. destruct (C36_processes so fuel d d' p a SB R) as (a' & D & _ & K1 & K2 & K3 & _); [rewrite E; left; reflexivity|]. exists a'. split; [|auto].
  destruct (round_dom so fuel d d' SB R) as (t & TP & ST & LD). destruct (one_process d SB fuel t TP p AI) as (a0 & k & sh & Ep & Ex & Sc & Iff).
  assert (X : forall x, In x (document_elements "process" (dom_of t)) -> get_attribute "id" x = p).
  { intros x I. apply Iff in I. subst x. apply (scope_id d SB fuel p k). left. exists a0, sh. split; [rewrite Ep; left; reflexivity|exact Ex]. }
  assert (O : proc_order d' = [p]).
  { rewrite (load_processes so _ _ _ LD). change (proc_order empty_diagram) with (@nil string). 
    pose proof (proj2 (Iff (dom_of k)) eq_refl) as J. destruct (document_elements "process" (dom_of t)) as [|x l]; [destruct J|]. cbn [map].
    rewrite (X x (or_introl eq_refl)). change (p :: ?m) with ([p] ++ m). rewrite add_all_app. change (add_all [] [p]) with [p]. apply add_all_in.
    intros y I. apply in_map_iff in I. destruct I as (z & <- & I). left. symmetry. apply X. right. exact I. }
  unfold proc_order in O. destruct (procs d') as [|[q b] [|z l]]; try discriminate. inv O. cbn [dget] in D. rewrite String.eqb_refl in D. inv D. reflexivity.
Qed.

(** * The whole document *)
Theorem same_tree : forall t, export_tree fuel d = Ok t -> strings t -> export_tree fuel d' = Ok t.
Proof using All.
  intros t TP ST. destruct (tree_inv _ _ _ TP) as [(did & dname & plid & plel & co & cosh & ps & shapes & edges & D1 & D2 & D3 & D4 & C & Ps & Sh & Ed & Et)].
  destruct (C73_diagram_attributes so fuel d d' SB R) as (E1 & E2 & E3 & E4).
  destruct (one_process d SB fuel t TP p AI) as (a & k & sh & Ep & Ex & Sc & _). destruct (process_kept a Ep) as (a' & Ep' & Da & K1 & K2 & K3).
  assert (Sk : strings k).
  { destruct (placed_scope d SB fuel t TP p) as (k0 & Sk0 & W0 & _); [apply placed_process; rewrite Ep; left; reflexivity|].
    rewrite (scope_unique d SB fuel p k k0); [exact (strings_within _ ST _ W0)| |exact Sk0]. left. exists a, sh. split; [rewrite Ep; left; reflexivity|exact Ex]. }
  assert (Nodes : forall r, (forall c, In c r -> strings c) -> rmap (export_node_data fuel d) (gnodes (dgraph d)) = Ok r ->
    rmap (export_node_data fuel d') (gnodes (dgraph d')) = Ok r).
  { intros r Sr H. apply (rmap_rel _ _ _ _ _ _ _ _ nodes_listed _ H). intros [n b] [n' b'] c _ Ic (Ib & Ib' & En) Q. cbn [fst] in En. subst n'.
    apply (node_alike so fuel d d' Po SB here_process R PD fuel n b b' c) ; [|exact Ib|exact Ib'|exact (Sr c Ic)|exact Q].
    intros f0 nodes es fs _ Ht Q1 Q2 Q3 _. assert (Np : (p =? n) = false).
    { pose proof (sb_subs _ SB n) as X. rewrite !(in_node d SB _ _ _ Ib) in X. destruct (X Ht) as [_ X2]. apply String.eqb_neq. intros <-. apply X2. destruct AI as (-> & _). left. reflexivity. }
    rewrite (all_nodes p d n (node_process d SB p AI)), Np in Q1. rewrite (all_flows p d n (view_process d SB CP NM p AI)), Np in Q3. inv Q1.
    rewrite (all_nodes p d' n back_process), (all_flows p d' n back_view_process), Np. exists []. auto. }
  assert (Flows : forall r, rmap (fun f => export_flow_process_data (snd f)) (edges_view (dgraph d)) = Ok r ->
    rmap (fun f => export_flow_process_data (snd f)) (edges_view (dgraph d')) = Ok r).
  { intros r H. apply (rmap_rel _ _ _ _ _ _ _ _ views_alike _ H). intros f f' c _ _ (_ & _ & Q & _). apply Q. }
  assert (Lines : rmap (fun f => export_flow_di_data (snd f)) (edges_view (dgraph d')) = Ok edges).
  { apply (rmap_rel _ _ _ _ _ _ _ _ views_alike _ Ed). intros f f' c _ _ (_ & _ & _ & Q). apply Q. }
  assert (Shapes : rmap export_node_di_data (gnodes (dgraph d')) = Ok shapes).
  { apply (rmap_rel _ _ _ _ _ _ _ _ nodes_listed _ Sh). intros [n b] [n' b'] c _ _ (Ib & Ib' & En) Q. cbn [fst] in En. subst n'. apply (shape_alike so fuel d d' Po SB here_process R n b b' c Ib Ib' Q). }
  assert (Pr : export_process fuel d' (p, a') = Ok (k, sh)).
  { destruct (process_inv _ _ _ _ _ Ex) as [(c & x & u & ls & ns & es & fs & P1 & P2 & P3 & L & N & Es & Fs & E)]. cbn [fst snd] in *.
    rewrite (all_nodes p d p (node_process d SB p AI)), String.eqb_refl in N. inv N.
    rewrite (all_flows p d p (view_process d SB CP NM p AI)), String.eqb_refl in Fs.
    unfold export_process, export_process_element. cbn [fst snd]. rewrite (copied_eq k_is_closed a a' K1), (copied_eq k_is_executable a a' K2), (copied_eq k_process_type a a' K3).
    unfold copied. change k_is_closed with "isClosed". change k_is_executable with "isExecutable". change k_process_type with "processType".
    rewrite (proj2 (dgetE_ok _ _ _) P1), (proj2 (dgetE_ok _ _ _) P2), (proj2 (dgetE_ok _ _ _) P3). cbn [rbind]. fold (lanes_out a').
    rewrite (lanes_alike so fuel d d' SB R LL p a a') with (x := (ls, sh)); [|rewrite Ep; left; reflexivity|exact Da|exact L]. cbn [rbind fst snd].
    rewrite (all_nodes p d' p back_process), (all_flows p d' p back_view_process), String.eqb_refl. cbn [rbind].
    rewrite (Nodes es) by (try exact Es; intros y Iy; apply (strings_kid _ _ Sk); apply in_or_app; right; apply in_or_app; left; exact Iy).
    cbn [rbind]. rewrite (Flows fs Fs). reflexivity. }
  rewrite Ep in Ps. cbn [rmap] in Ps. rewrite Ex in Ps. cbn [rbind] in Ps. inv Ps.
  unfold export_tree, copied. change k_id with "id". change k_name with "name". change k_bpmn_element with "bpmnElement".
  unfold dgetE. rewrite E1, E2, E3, E4, D1, D2, D3, D4. cbn [rbind]. rewrite (pools_alike so fuel d d' SB CP R LL OP _ C). cbn [rbind]. rewrite Ep'. cbn [rmap]. rewrite Pr. cbn [rbind].
  unfold nodes_view, get_flows. rewrite Shapes. cbn [rbind]. rewrite Lines. cbn [rbind fst snd map flat_map]. reflexivity.
Qed.
End Twice.
