(** Effects of the importer's building blocks. *)
From Coq Require Import String Ascii List Bool Arith ZArith Lia.
From Verif Require Import Py PyFacts Consts Nx NxFacts Rep SpecRep RepFacts CsvRegex CsvImport.
Import ListNotations.
Open Scope string_scope.
Open Scope list_scope.

(** Nodes carry their two flow lists and a type. *)
Definition node_fine (d : diagram) (n : string) : Prop :=
  (exists lo, attr d n "outgoing" = Some (VList lo)) /\
  (exists li, attr d n "incoming" = Some (VList li)) /\
  (exists ty, attr d n "type" = Some (VStr ty)).
Definition wf (d : diagram) : Prop :=
  unique_ids d /\ forall n, is_node d n -> node_fine d n.

Lemma is_node_of : forall d n, is_node d n <-> exists a, node_of d n = Some a.
Proof.
  intros. unfold is_node, node_of. split.
  - apply dget_Some_keys.
  - intros [a H]. eapply dget_key_In; eauto.
Qed.
Lemma attr_is_node : forall d n k v, attr d n k = Some v -> is_node d n.
Proof.
  intros. unfold attr in H. destruct (node_of d n) eqn:E; [|discriminate].
  apply is_node_of. eauto.
Qed.
Lemma out_of : forall d n l, attr d n "outgoing" = Some (VList l) -> outgoing_of d n = l.
Proof. intros. unfold outgoing_of. rewrite H. reflexivity. Qed.
Lemma in_of : forall d n l, attr d n "incoming" = Some (VList l) -> incoming_of d n = l.
Proof. intros. unfold incoming_of. rewrite H. reflexivity. Qed.

Lemma node_set_attr : forall n k v d, is_node d n ->
  exists d', node_set n k v d = (d', Ok tt) /\
    (forall m k', attr d' m k' = if String.eqb m n && String.eqb k' k then Some v else attr d m k') /\
    node_keys d' = node_keys d /\ gedges (dgraph d') = gedges (dgraph d) /\ same_rest d d'.
Proof.
  intros n k v d H. apply is_node_of in H. destruct H as [a H]. unfold node_of in H.
  exists (put d n (dset k v a)). split.
  { unfold node_set, ggraph, mtry, set_node_attr, gnode. rewrite H. reflexivity. }
  split; [|split; [|split]].
  - intros m k'. rewrite attr_put. destruct (String.eqb_spec m n); simpl; auto. subst.
    rewrite dget_dset. destruct (String.eqb k' k); auto. unfold attr, node_of. rewrite H. reflexivity.
  - rewrite keys_put. destruct (in_dec _ _ _) as [_|C]; auto. exfalso. apply C.
    apply dget_key_In in H. exact H.
  - reflexivity.
  - repeat split.
Qed.

(** Appending to a flow list. *)
Lemma append_flow : forall n k f d l, attr d n k = Some (VList l) ->
  exists d', add_flow_to_node n k f d = (d', Ok tt) /\
    (forall m k', attr d' m k' = if String.eqb m n && String.eqb k' k then Some (VList (l ++ [f])) else attr d m k') /\
    node_keys d' = node_keys d /\ gedges (dgraph d') = gedges (dgraph d) /\ same_rest d d'.
Proof.
  intros n k f d l H. pose proof (attr_is_node _ _ _ _ H) as Hn.
  destruct (node_set_attr n k (VList (l ++ [f])) d Hn) as [d' [E R]]. exists d'. split; auto.
  apply is_node_of in Hn. destruct Hn as [a Ha]. unfold attr in H. rewrite Ha in H. unfold node_of in Ha.
  unfold add_flow_to_node, mbind, gread, mread, gnode. rewrite Ha, H. unfold mret.
  unfold ggraph, mtry, append_node_attr, get_node_attr, gnode. rewrite Ha. unfold dgetE. rewrite H. simpl.
  exact E.
Qed.

(** The attributes written on a connection. *)
Definition conn_attrs (s t : string) (c : option string) (a : attrs) : attrs :=
  let f := get_flow_id s t in
  let b := dset k_target_ref (VStr t) (dset k_source_ref (VStr s) (dset k_name (VStr "")
            (dset k_process (VStr default_process_id) (dset k_id (VStr f) a)))) in
  match c with
  | Some c => if String.eqb c "" then b else dset k_condition_expression (VCond (f ++ "_cond") c) b
  | None => b
  end.

Lemma with_graph_eta : forall d, with_graph d (dgraph d) = d.
Proof. destruct d; reflexivity. Qed.

Lemma csv_edge_eq : forall s t c d, is_node d s -> is_node d t ->
  csv_add_edge s t c d =
  (with_flows (with_graph d (mkGraph (gnodes (dgraph d))
                 (upd_edges s t (conn_attrs s t c) (edge_base s t (dgraph d)))))
     (dset (get_flow_id s t) (mkFlow (get_flow_id s t) s t) (seq_flows d)), Ok tt).
Proof.
  intros s t c d Hs Ht. unfold csv_add_edge.
  assert (E1 : ggraph (fun g => Ok (add_edge s t g)) d =
     (with_graph d (mkGraph (gnodes (dgraph d)) (upd_edges s t (fun a => a) (edge_base s t (dgraph d)))), Ok tt)).
  { unfold ggraph, mtry. simpl. rewrite add_edge_existing by auto. reflexivity. }
  rewrite (mbind_eq _ _ _ _ _ _ _ _ E1). clear E1.
  pose proof (has_edge_base s t (dgraph d) (gnodes (dgraph d))) as B.
  do 5 (rewrite (mbind_eq _ _ _ _ _ _ _ _ (edge_set_upd _ _ _ _ _ _ _ _ B))).
  unfold conn_attrs. destruct c as [c|].
  - destruct (String.eqb c "").
    + reflexivity.
    + rewrite (mbind_eq _ _ _ _ _ _ _ _ (edge_set_upd _ _ _ _ _ _ _ _ B)). reflexivity.
  - reflexivity.
Qed.

Definition same_meta (d d' : diagram) : Prop :=
  procs d' = procs d /\ diag_attrs d' = diag_attrs d /\ plane_attrs d' = plane_attrs d /\
  collaboration d' = collaboration d.
Lemma same_meta_trans : forall a b c, same_meta a b -> same_meta b c -> same_meta a c.
Proof. unfold same_meta. intuition congruence. Qed.

(** What adding a connection does. *)
Record connected (tb : dict row) (s t : string) (d d' : diagram) : Prop := mkConnected {
  cn_attr : forall n k, attr d' n k =
     if String.eqb n s && String.eqb k "outgoing" then Some (VList (outgoing_of d s ++ [get_flow_id s t]))
     else if String.eqb n t && String.eqb k "incoming" then Some (VList (incoming_of d t ++ [get_flow_id s t]))
     else attr d n k;
  cn_keys : node_keys d' = node_keys d;
  cn_flows : seq_flows d' = dset (get_flow_id s t) (mkFlow (get_flow_id s t) s t) (seq_flows d);
  cn_edges : gedges (dgraph d') =
     upd_edges s t (conn_attrs s t (connection_condition t tb)) (edge_base s t (dgraph d));
  cn_meta : same_meta d d' }.

Lemma add_connection_spec : forall s t d tb, wf d -> is_node d s -> is_node d t ->
  exists d', add_connection s t (d, tb) = ((d', tb), Ok tt) /\ connected tb s t d d'.
Proof.
  intros s t d tb [_ W] Hs Ht. destruct (W s Hs) as [[lo Lo] _]. destruct (W t Ht) as [_ [[li Li] _]].
  destruct (append_flow s k_outgoing (get_flow_id s t) d lo Lo) as [d1 [E1 [A1 [K1 [G1 R1]]]]].
  assert (Li1 : attr d1 t k_incoming = Some (VList li)).
  { rewrite A1. rewrite andb_false_r. exact Li. }
  destruct (append_flow t k_incoming (get_flow_id s t) d1 li Li1) as [d2 [E2 [A2 [K2 [G2 R2]]]]].
  assert (Hs2 : is_node d2 s) by (unfold is_node; fold (node_keys d2); rewrite K2, K1; exact Hs).
  assert (Ht2 : is_node d2 t) by (unfold is_node; fold (node_keys d2); rewrite K2, K1; exact Ht).
  pose proof (csv_edge_eq s t (connection_condition t tb) d2 Hs2 Ht2) as E3.
  eexists. split.
  - unfold add_connection, mbind, on_diagram, add_outgoing_flow, add_incoming_flow, mread. cbn [fst snd].
    rewrite E1. cbn [fst snd]. rewrite E2. cbn [fst snd]. rewrite E3. reflexivity.
  - destruct R1 as [F1 [P1 [D1 [L1 C1]]]], R2 as [F2 [P2 [D2 [L2 C2]]]]. constructor.
    + intros n k. transitivity (attr d2 n k); [reflexivity|].
      rewrite A2, A1. rewrite (out_of _ _ _ Lo), (in_of _ _ _ Li). unfold k_incoming, k_outgoing.
      destruct (String.eqb_spec k "incoming") as [-> |N].
      * rewrite !andb_true_r, !andb_false_r. reflexivity.
      * rewrite !andb_false_r. reflexivity.
    + unfold node_keys in *. simpl. rewrite K2, K1. reflexivity.
    + simpl. rewrite F2, F1. reflexivity.
    + simpl. unfold edge_base, has_edge, find_edge. rewrite G2, G1. reflexivity.
    + unfold same_meta. simpl. repeat split; congruence.
Qed.

Lemma connected_is_node : forall tb s t d d' n, connected tb s t d d' -> (is_node d' n <-> is_node d n).
Proof. intros. unfold is_node. fold (node_keys d') (node_keys d). rewrite (cn_keys _ _ _ _ _ H). tauto. Qed.
Lemma connected_out : forall tb s t d d' n, connected tb s t d d' ->
  outgoing_of d' n = if String.eqb n s then outgoing_of d s ++ [get_flow_id s t] else outgoing_of d n.
Proof.
  intros. unfold outgoing_of at 1. rewrite (cn_attr _ _ _ _ _ H). rewrite andb_true_r, andb_false_r.
  destruct (String.eqb n s); reflexivity.
Qed.
Lemma connected_in : forall tb s t d d' n, connected tb s t d d' ->
  incoming_of d' n = if String.eqb n t then incoming_of d t ++ [get_flow_id s t] else incoming_of d n.
Proof.
  intros. unfold incoming_of at 1. rewrite (cn_attr _ _ _ _ _ H). rewrite andb_true_r, andb_false_r.
  destruct (String.eqb n t); reflexivity.
Qed.
Lemma connected_type : forall tb s t d d' n, connected tb s t d d' -> attr d' n "type" = attr d n "type".
Proof. intros. rewrite (cn_attr _ _ _ _ _ H), !andb_false_r. reflexivity. Qed.
Lemma connected_wf : forall tb s t d d', connected tb s t d d' -> wf d -> wf d'.
Proof.
  intros tb s t d d' C [U W]. split.
  - unfold unique_ids. fold (node_keys d'). rewrite (cn_keys _ _ _ _ _ C). exact U.
  - intros n Hn. rewrite (connected_is_node _ _ _ _ _ _ C) in Hn. destruct (W n Hn) as [[lo Lo] [[li Li] [ty Ty]]].
    split; [|split].
    + rewrite (cn_attr _ _ _ _ _ C). destruct (String.eqb n s); simpl; eauto. destruct (String.eqb n t); simpl; eauto.
    + rewrite (cn_attr _ _ _ _ _ C). rewrite andb_false_r. destruct (String.eqb n t); simpl; eauto.
    + rewrite (connected_type _ _ _ _ _ _ C). eauto.
Qed.

(** Unknown ends. *)
Lemma add_connection_unknown : forall s t d tb, wf d -> ~ (is_node d s /\ is_node d t) ->
  exists d' n, add_connection s t (d, tb) = ((d', tb), Err (KeyError n)).
Proof.
  intros s t d tb [_ W] H. destruct (node_of d s) as [a|] eqn:Es.
  - assert (Hs : is_node d s) by (apply is_node_of; eauto).
    destruct (W s Hs) as [[lo Lo] _].
    destruct (append_flow s k_outgoing (get_flow_id s t) d lo Lo) as [d1 [E1 [A1 [K1 _]]]].
    assert (Ht : ~ is_node d1 t).
    { unfold is_node. fold (node_keys d1). rewrite K1. tauto. }
    exists d1, t. unfold add_connection, mbind, on_diagram, add_outgoing_flow, add_incoming_flow. cbn [fst snd].
    rewrite E1. cbn [fst snd]. unfold add_flow_to_node, mbind, gread, mread, gnode.
    destruct (dget t (gnodes (dgraph d1))) eqn:Et; [|reflexivity].
    exfalso. apply Ht. apply is_node_of. eauto.
  - exists d, s. unfold add_connection, mbind, on_diagram, add_outgoing_flow. cbn [fst snd].
    unfold add_flow_to_node, mbind, gread, mread, gnode. unfold node_of in Es. rewrite Es. reflexivity.
Qed.
Lemma add_connection_inv : forall s t d tb st, wf d -> add_connection s t (d, tb) = (st, Ok tt) ->
  is_node d s /\ is_node d t /\ snd st = tb /\ connected tb s t d (fst st).
Proof.
  intros s t d tb st W E.
  destruct (in_dec string_dec s (node_keys d)) as [Hs|Hs], (in_dec string_dec t (node_keys d)) as [Ht|Ht].
  - destruct (add_connection_spec s t d tb W Hs Ht) as [d' [E' C]]. rewrite E' in E. inv E. auto.
  - exfalso. destruct (add_connection_unknown s t d tb W) as [d' [n E']]; [intros []; auto|]. congruence.
  - exfalso. destruct (add_connection_unknown s t d tb W) as [d' [n E']]; [intros []; auto|]. congruence.
  - exfalso. destruct (add_connection_unknown s t d tb W) as [d' [n E']]; [intros []; auto|]. congruence.
Qed.

(** * Nodes *)

(** Adding a node that is not there yet. *)
Record added (n : string) (ty : string) (d d' : diagram) : Prop := mkAdded {
  ad_keys : node_keys d' = node_keys d ++ [n];
  ad_other : forall m k, m <> n -> attr d' m k = attr d m k;
  ad_type : attr d' n "type" = Some (VStr ty);
  ad_out : attr d' n "outgoing" = Some (VList []);
  ad_in : attr d' n "incoming" = Some (VList []);
  ad_edges : gedges (dgraph d') = gedges (dgraph d);
  ad_rest : same_rest d d' }.

Definition node_type_or_task (t : option string) : string :=
  match t with
  | Some t => if smem t ["startEvent"; "subProcess"; "endEvent"; "inclusiveGateway"; "exclusiveGateway"; "parallelGateway"]
              then t else "task"
  | None => "task"
  end.

(** The call that adds the node (the operations of Rep.v). *)
Definition node_op (n : string) (t : option string) (activity pid : string) : op :=
  let ty := node_type_or_task t in
  if String.eqb ty "startEvent" then OStart pid activity None false true (Some n) "" ""
  else if String.eqb ty "subProcess" then OSubprocess pid activity false false (Some n) ""
  else if String.eqb ty "endEvent" then OEnd pid "" None (Some n) "" ""
  else if String.eqb ty "inclusiveGateway" then OInclusive pid "" "Unspecified" None (Some n) ""
  else if String.eqb ty "exclusiveGateway" then OExclusive pid "" "Unspecified" None (Some n) ""
  else if String.eqb ty "parallelGateway" then OParallel pid "" "Unspecified" (Some n) ""
  else OTask pid activity (Some n) "".

Lemma forget_eq : forall (m : MD string) d d' x, m d = (d', Ok x) ->
  (do_ m ;; mret tt) d = (d', Ok tt).
Proof. intros. unfold mbind. rewrite H. reflexivity. Qed.

Lemma node_info_step : forall n t act pid d,
  exists ex, expected_node (node_op n t act pid) = Some (n, ex) /\
  dget "type" ex = Some (VStr (node_type_or_task t)) /\
  dget "outgoing" ex = Some (VList []) /\ dget "incoming" ex = Some (VList []) /\
  add_node_info_to_diagram_graph n t act pid d = (fst (step (node_op n t act pid) d), Ok tt).
Proof.
  intros n t act pid d.
  assert (X : forall o ex, expected_node o = Some (n, ex) -> step o d = (fst (step o d), Ok n)).
  { intros o ex H. destruct (expected_node_sound o n ex d H) as [a [E _]]. rewrite E. reflexivity. }
  unfold node_op, add_node_info_to_diagram_graph, node_type_or_task, t_start_event, t_subprocess, t_end_event,
    t_inclusive_gateway, t_exclusive_gateway, t_parallel_gateway.
  destruct t as [t|]; [|eexists; split; [reflexivity|]; do 3 (split; [reflexivity|]);
                        apply (forget_eq _ _ _ n); exact (X (OTask pid act (Some n) "") _ eq_refl)].
  cbn [smem existsb].
  destruct (String.eqb_spec t "startEvent") as [-> |N1].
  { eexists; split; [reflexivity|]; do 3 (split; [reflexivity|]).
    apply (forget_eq _ _ _ n); exact (X (OStart pid act None false true (Some n) "" "") _ eq_refl). }
  destruct (String.eqb_spec t "subProcess") as [-> |N2].
  { eexists; split; [reflexivity|]; do 3 (split; [reflexivity|]).
    apply (forget_eq _ _ _ n); exact (X (OSubprocess pid act false false (Some n) "") _ eq_refl). }
  destruct (String.eqb_spec t "endEvent") as [-> |N3].
  { eexists; split; [reflexivity|]; do 3 (split; [reflexivity|]).
    apply (forget_eq _ _ _ n); exact (X (OEnd pid "" None (Some n) "" "") _ eq_refl). }
  destruct (String.eqb_spec t "inclusiveGateway") as [-> |N4].
  { eexists; split; [reflexivity|]; do 3 (split; [reflexivity|]).
    apply (forget_eq _ _ _ n); exact (X (OInclusive pid "" "Unspecified" None (Some n) "") _ eq_refl). }
  destruct (String.eqb_spec t "exclusiveGateway") as [-> |N5].
  { eexists; split; [reflexivity|]; do 3 (split; [reflexivity|]).
    apply (forget_eq _ _ _ n); exact (X (OExclusive pid "" "Unspecified" None (Some n) "") _ eq_refl). }
  destruct (String.eqb_spec t "parallelGateway") as [-> |N6].
  { eexists; split; [reflexivity|]; do 3 (split; [reflexivity|]).
    apply (forget_eq _ _ _ n); exact (X (OParallel pid "" "Unspecified" (Some n) "") _ eq_refl). }
  simpl. eexists; split; [reflexivity|]; do 3 (split; [reflexivity|]).
  apply (forget_eq _ _ _ n); exact (X (OTask pid act (Some n) "") _ eq_refl).
Qed.

Lemma node_info_new : forall n t act pid d, ~ is_node d n ->
  exists d', add_node_info_to_diagram_graph n t act pid d = (d', Ok tt) /\
             added n (node_type_or_task t) d d'.
Proof.
  intros n t act pid d H. destruct (node_info_step n t act pid d) as [ex [E [T [O [I S]]]]].
  eexists. split; [exact S|]. destruct (c01 _ _ _ d E) as [_ [A [N [G [R K]]]]].
  constructor; auto.
  - unfold node_keys. rewrite K. destruct (in_dec _ _ _) as [C|C]; auto. contradiction.
  - intros m k Hm. unfold attr. rewrite N by auto. reflexivity.
  - rewrite A, T. reflexivity.
  - rewrite A, O. reflexivity.
  - rewrite A, I. reflexivity.
Qed.

Lemma added_is_node : forall n ty d d' m, added n ty d d' -> (is_node d' m <-> is_node d m \/ m = n).
Proof.
  intros. unfold is_node. fold (node_keys d') (node_keys d). rewrite (ad_keys _ _ _ _ H), in_app_iff. simpl.
  intuition.
Qed.
Lemma added_wf : forall n ty d d', added n ty d d' -> ~ is_node d n -> wf d -> wf d'.
Proof.
  intros n ty d d' A H [U W]. split.
  - unfold unique_ids. fold (node_keys d'). rewrite (ad_keys _ _ _ _ A). apply NoDup_snoc; auto.
  - intros m Hm. apply (added_is_node _ _ _ _ _ A) in Hm. destruct (string_dec m n) as [-> |N].
    + split; [|split]; eexists; [apply A|apply A|apply A].
    + destruct Hm as [Hm|Hm]; [|congruence]. destruct (W m Hm) as [[lo Lo] [[li Li] [ty' Ty]]].
      split; [|split]; rewrite (ad_other _ _ _ _ A) by auto; eauto.
Qed.

(** * Removing nodes *)
Lemma list_remove_ok : forall x l l', list_remove x l = Ok l' ->
  exists a b, l = a ++ x :: b /\ l' = a ++ b /\ ~ In x a.
Proof.
  induction l as [|y l IH]; simpl; intros l' H; [discriminate|].
  destruct (String.eqb_spec x y) as [-> |N].
  - inv H. exists [], l'. auto.
  - rinv H. inv E0. destruct (IH _ E) as [u [v [-> [-> Hu]]]].
    exists (y :: u), v. repeat split; auto. intros [C|C]; auto.
Qed.
Lemma list_remove_err : forall x l, ~ In x l -> list_remove x l = Err ValueError.
Proof.
  induction l as [|y l IH]; simpl; intros H; auto.
  rewrite eqb_neq' by (intro; subst; auto). rewrite IH; auto.
Qed.
Lemma list_remove_in : forall x l, In x l -> exists l', list_remove x l = Ok l'.
Proof.
  induction l as [|y l IH]; simpl; intros H; [contradiction|].
  destruct (String.eqb_spec x y); eauto. destruct H as [H|H]; [congruence|].
  destruct (IH H) as [l' ->]. simpl. eauto.
Qed.

Lemma node_list_ok : forall n k d l, node_list n k (dgraph d) = Ok l <-> attr d n k = Some (VList l).
Proof.
  intros. unfold node_list, get_node_attr, gnode, attr, node_of, dgetE.
  destruct (dget n (gnodes (dgraph d))) as [a|]; simpl; [|split; discriminate].
  destruct (dget k a) as [[]|]; simpl; split; intros H; try discriminate; inv H; reflexivity.
Qed.

Lemma remove_outgoing_inv : forall b d d' t, remove_outgoing_connection b d = (d', Ok t) ->
  exists f l r li li', attr d b "outgoing" = Some (VList (f :: l)) /\
    dget f (seq_flows d) = Some r /\ t = fl_tgt r /\
    attr d t "incoming" = Some (VList li) /\ list_remove f li = Ok li' /\
    (forall m k, attr d' m k = if String.eqb m t && String.eqb k "incoming" then Some (VList li') else attr d m k) /\
    node_keys d' = node_keys d /\ seq_flows d' = ddel f (seq_flows d) /\
    gedges (dgraph d') = filter (fun e => negb (connects b t e)) (gedges (dgraph d)) /\ same_meta d d'.
Proof.
  intros b d d' t H. unfold remove_outgoing_connection, mbind, gread, mread in H.
  destruct (node_list b k_outgoing (dgraph d)) as [l|] eqn:E1; [|discriminate].
  destruct l as [|f l]; [discriminate|]. cbn [list_head] in H.
  unfold dgetE in H. destruct (dget f (seq_flows d)) as [r|] eqn:E2; [|discriminate].
  destruct (node_list (fl_tgt r) k_incoming (dgraph d)) as [li|] eqn:E3; [|discriminate].
  destruct (list_remove f li) as [li'|] eqn:E4; [|discriminate].
  apply node_list_ok in E1. apply node_list_ok in E3.
  destruct (node_set_attr (fl_tgt r) k_incoming (VList li') d (attr_is_node _ _ _ _ E3)) as [d1 [S1 [A1 [K1 [G1 R1]]]]].
  rewrite S1 in H. unfold mmodify in H. cbn [ggraph] in H.
  unfold ggraph, mtry, remove_edge in H. cbn [dgraph with_flows] in H.
  destruct (has_edge b (fl_tgt r) (dgraph d1)) eqn:HE; [|discriminate]. simpl in H. inv H.
  exists f, l, r, li, li'. destruct R1 as [F1 [P1 [Q1 [L1 C1]]]].
  split; auto. split; auto. split; auto. split; auto. split; auto. split; [|split; [|split; [|split]]].
  - intros m k. rewrite <- A1. reflexivity.
  - exact K1.
  - simpl. rewrite F1. reflexivity.
  - simpl. rewrite G1. reflexivity.
  - unfold same_meta. simpl. auto.
Qed.

Lemma remove_incoming_inv : forall b d d' s, remove_incoming_connection b d = (d', Ok s) ->
  exists f l r lo lo', attr d b "incoming" = Some (VList (f :: l)) /\
    dget f (seq_flows d) = Some r /\ s = fl_src r /\
    attr d s "outgoing" = Some (VList lo) /\ list_remove f lo = Ok lo' /\
    (forall m k, attr d' m k = if String.eqb m s && String.eqb k "outgoing" then Some (VList lo') else attr d m k) /\
    node_keys d' = node_keys d /\ seq_flows d' = ddel f (seq_flows d) /\
    gedges (dgraph d') = filter (fun e => negb (connects s b e)) (gedges (dgraph d)) /\ same_meta d d'.
Proof.
  intros b d d' s H. unfold remove_incoming_connection, mbind, gread, mread in H.
  destruct (node_list b k_incoming (dgraph d)) as [l|] eqn:E1; [|discriminate].
  destruct l as [|f l]; [discriminate|]. cbn [list_head] in H.
  unfold dgetE in H. destruct (dget f (seq_flows d)) as [r|] eqn:E2; [|discriminate].
  destruct (node_list (fl_src r) k_outgoing (dgraph d)) as [li|] eqn:E3; [|discriminate].
  destruct (list_remove f li) as [li'|] eqn:E4; [|discriminate].
  apply node_list_ok in E1. apply node_list_ok in E3.
  destruct (node_set_attr (fl_src r) k_outgoing (VList li') d (attr_is_node _ _ _ _ E3)) as [d1 [S1 [A1 [K1 [G1 R1]]]]].
  rewrite S1 in H. unfold mmodify in H. cbn [ggraph] in H.
  unfold ggraph, mtry, remove_edge in H. cbn [dgraph with_flows] in H.
  destruct (has_edge (fl_src r) b (dgraph d1)) eqn:HE; [|discriminate]. simpl in H. inv H.
  exists f, l, r, li, li'. destruct R1 as [F1 [P1 [Q1 [L1 C1]]]].
  split; auto. split; auto. split; auto. split; auto. split; auto. split; [|split; [|split; [|split]]].
  - intros m k. rewrite <- A1. reflexivity.
  - exact K1.
  - simpl. rewrite F1. reflexivity.
  - simpl. rewrite G1. reflexivity.
  - unfold same_meta. simpl. auto.
Qed.

Lemma remove_node_inv : forall n d d', ggraph (remove_node n) d = (d', Ok tt) ->
  is_node d n /\ (forall m k, attr d' m k = if String.eqb m n then None else attr d m k) /\
  node_keys d' = filter (fun x => negb (String.eqb n x)) (node_keys d) /\
  gedges (dgraph d') = filter (fun e => negb (String.eqb (eu e) n || String.eqb (ev e) n)) (gedges (dgraph d)) /\
  same_rest d d'.
Proof.
  intros n d d' H. unfold ggraph, mtry, remove_node in H.
  destruct (has_node (dgraph d) n) eqn:E; [|discriminate]. simpl in H. inv H.
  split; [apply dhas_true; auto|]. split; [|split; [|split]].
  - intros m k. unfold attr, node_of. simpl. rewrite dget_ddel. destruct (String.eqb m n); auto.
  - unfold node_keys. simpl. apply (dkeys_ddel n (gnodes (dgraph d))).
  - reflexivity.
  - repeat split.
Qed.

(** Everything the removal of node [n] between [s] and [t] does. *)
Record spliced (n s t : string) (d d' : diagram) : Prop := mkSpliced {
  sp_flows : exists f1 l1 r1 lo f2 l2 r2 li,
     incoming_of d n = f1 :: l1 /\ dget f1 (seq_flows d) = Some r1 /\ s = fl_src r1 /\
     list_remove f1 (outgoing_of d s) = Ok lo /\
     (if String.eqb n s then lo else outgoing_of d n) = f2 :: l2 /\
     dget f2 (ddel f1 (seq_flows d)) = Some r2 /\ t = fl_tgt r2 /\
     list_remove f2 (incoming_of d t) = Ok li /\
     seq_flows d' = ddel f2 (ddel f1 (seq_flows d)) /\
     (forall m k, m <> n -> attr d' m k =
        if String.eqb m s && String.eqb k "outgoing" then Some (VList lo)
        else if String.eqb m t && String.eqb k "incoming" then Some (VList li)
        else attr d m k);
  sp_keys : node_keys d' = filter (fun x => negb (String.eqb n x)) (node_keys d);
  sp_ends : is_node d s /\ is_node d t /\ is_node d n;
  sp_edges : gedges (dgraph d') =
     filter (fun e => negb (String.eqb (eu e) n || String.eqb (ev e) n))
       (filter (fun e => negb (connects n t e)) (filter (fun e => negb (connects s n e)) (gedges (dgraph d))));
  sp_meta : same_meta d d' }.

Lemma csv_remove_inv : forall n d tb st s t, csv_remove_node n (d, tb) = (st, Ok (s, t)) ->
  snd st = ddel n tb /\ spliced n s t d (fst st).
Proof.
  intros n d tb st s t H. unfold csv_remove_node, mbind, on_diagram in H. cbn [fst snd] in H.
  destruct (remove_incoming_connection n d) as [d1 [s1|]] eqn:E1; cbn [fst snd] in H; [|discriminate].
  destruct (remove_outgoing_connection n d1) as [d2 [t1|]] eqn:E2; cbn [fst snd] in H; [|discriminate].
  destruct (ggraph (remove_node n) d2) as [d3 [[]|]] eqn:E3; cbn [fst snd] in H; [|discriminate].
  unfold mmodify, mret in H. cbn [fst snd] in H. inv H. cbn [fst snd]. split; auto.
  apply remove_incoming_inv in E1. destruct E1 as [f1 [l1 [r1 [lo0 [lo [I1 [D1 [S1 [O1 [L1 [A1 [K1 [F1 [G1 M1]]]]]]]]]]]]]].
  apply remove_outgoing_inv in E2. destruct E2 as [f2 [l2 [r2 [li0 [li [I2 [D2 [S2 [O2 [L2 [A2 [K2 [F2 [G2 M2]]]]]]]]]]]]]].
  apply remove_node_inv in E3. destruct E3 as [N3 [A3 [K3 [G3 R3]]]].
  assert (O2' : attr d t "incoming" = Some (VList li0)).
  { rewrite A1, andb_false_r in O2. exact O2. }
  constructor.
  - exists f1, l1, r1, lo, f2, l2, r2, li.
    rewrite (in_of _ _ _ I1), (out_of _ _ _ O1), (in_of _ _ _ O2'). rewrite F1 in D2.
    repeat (split; [solve [auto]|]). split; [|split; [|split; [|split; [|split]]]]; auto.
    + rewrite A1 in I2. rewrite andb_true_r in I2. destruct (String.eqb_spec n s).
      * congruence.
      * rewrite (out_of _ _ _ I2). reflexivity.
    + destruct R3 as [R3 _]. rewrite R3, F2, F1. reflexivity.
    + intros m k Hm. rewrite A3, eqb_neq' by auto. rewrite A2, A1.
      destruct (String.eqb_spec k "incoming") as [-> |N].
      * rewrite !andb_true_r, andb_false_r. reflexivity.
      * rewrite !andb_false_r. reflexivity.
  - rewrite K3, K2, K1. reflexivity.
  - split; [eapply attr_is_node; eauto|]. split; [eapply attr_is_node; eauto|].
    eapply attr_is_node; eauto.
  - rewrite G3, G2, G1. reflexivity.
  - eapply same_meta_trans; [exact M1|]. eapply same_meta_trans; [exact M2|].
    destruct R3 as [_ R3]. exact R3.
Qed.

Lemma spliced_is_node : forall n s t d d' m, spliced n s t d d' -> (is_node d' m <-> is_node d m /\ m <> n).
Proof.
  intros. unfold is_node. fold (node_keys d') (node_keys d). rewrite (sp_keys _ _ _ _ _ H), filter_In.
  rewrite negb_true_iff. split; intros [A B]; split; auto.
  - intros ->. rewrite eqb_refl' in B. discriminate.
  - apply eqb_neq'. auto.
Qed.
Lemma spliced_wf : forall n s t d d', spliced n s t d d' -> wf d -> wf d'.
Proof.
  intros n s t d d' S [U W]. split.
  - unfold unique_ids. fold (node_keys d'). rewrite (sp_keys _ _ _ _ _ S). apply NoDup_filter. exact U.
  - intros m Hm. apply (spliced_is_node _ _ _ _ _ _ S) in Hm. destruct Hm as [Hm Nm].
    destruct (W m Hm) as [[lo Lo] [[li Li] [ty Ty]]].
    destruct (sp_flows _ _ _ _ _ S) as [f1 [l1 [r1 [lo' [f2 [l2 [r2 [li' H]]]]]]]].
    decompose [and] H. clear H. rename H10 into A. unfold node_fine. rewrite !A by auto.
    rewrite !andb_false_r, !andb_true_r.
    split; [|split; [|eauto]].
    + destruct (String.eqb m s); eauto.
    + destruct (String.eqb m t); eauto.
Qed.

(** * Running the phases *)
Lemma mbind_ok : forall S A B (m : M S A) (f : A -> M S B) s s' b,
  mbind m f s = (s', Ok b) -> exists s1 a, m s = (s1, Ok a) /\ f a s1 = (s', Ok b).
Proof.
  intros S A B m f s s' b H. unfold mbind in H. destruct (m s) as [s1 [a|e]]; [eauto | discriminate].
Qed.
Lemma mread_ok : forall S A (f : S -> res A) s s' a, mread f s = (s', Ok a) -> s' = s /\ f s = Ok a.
Proof. intros. unfold mread in H. inv H. auto. Qed.
Ltac minv H :=
  let s1 := fresh "s" in let a := fresh "a" in let E1 := fresh "E" in let E2 := fresh "E" in
  apply mbind_ok in H; destruct H as [s1 [a [E1 E2]]].
Ltac mrd H := apply mread_ok in H; destruct H as [? H]; subst.

Lemma mfor_inv : forall S A (I : S -> Prop) (f : A -> M S unit) l s s',
  (forall a x x', In a l -> I x -> f a x = (x', Ok tt) -> I x') ->
  I s -> mfor l f s = (s', Ok tt) -> I s'.
Proof.
  induction l as [|a l IH]; intros s s' H Hs E.
  - inv E. auto.
  - simpl in E. minv E. destruct a0. eapply IH; [|eapply H; [left; reflexivity|exact Hs|exact E0]|exact E1].
    intros. eapply H; eauto. right; auto.
Qed.

Lemma node_info_wf : forall n t act pid d d', wf d ->
  add_node_info_to_diagram_graph n t act pid d = (d', Ok tt) ->
  wf d' /\ (forall m, is_node d' m <-> is_node d m \/ m = n) /\
  (forall m k, m <> n -> attr d' m k = attr d m k) /\
  attr d' n "type" = Some (VStr (node_type_or_task t)) /\ seq_flows d' = seq_flows d.
Proof.
  intros n t act pid d d' [U W] E. destruct (node_info_step n t act pid d) as [ex [X [T [O [I S]]]]].
  rewrite S in E. inv E. destruct (c01 _ _ _ d X) as [_ [A [N [G [R K]]]]].
  set (d' := fst (step (node_op n t act pid) d)) in *.
  assert (Hn : forall m, is_node d' m <-> is_node d m \/ m = n).
  { intros m. unfold is_node. rewrite K. destruct (in_dec _ _ _) as [C|C].
    - split; auto. intros [H| ->]; auto.
    - rewrite in_app_iff. simpl. intuition. }
  assert (Ho : forall m k, m <> n -> attr d' m k = attr d m k).
  { intros m k Hm. unfold attr. rewrite N by auto. reflexivity. }
  split; [|repeat split; auto; try apply Hn; try apply R].
  - split.
    + unfold unique_ids. rewrite K. destruct (in_dec _ _ _); auto. apply NoDup_snoc; auto.
    + intros m Hm. destruct (string_dec m n) as [-> |Nm].
      * unfold node_fine. rewrite !A, T, O, I. repeat split; eexists; reflexivity.
      * apply Hn in Hm. destruct Hm as [Hm|]; [|congruence]. unfold node_fine. rewrite !Ho by auto. apply W; auto.
  - rewrite A, T. reflexivity.
Qed.

Definition cwf (st : cstate) : Prop := wf (fst st).

Lemma on_diagram_ok : forall A (m : MD A) st st' a, on_diagram m st = (st', Ok a) ->
  m (fst st) = (fst st', Ok a) /\ snd st' = snd st.
Proof.
  intros A m st st' a H. unfold on_diagram in H. destruct (m (fst st)) as [d r]. simpl in H. inv H. auto.
Qed.

Lemma wf_node_info : forall n t act pid st st', cwf st ->
  on_diagram (add_node_info_to_diagram_graph n t act pid) st = (st', Ok tt) -> cwf st'.
Proof.
  intros n t act pid st st' W H. apply on_diagram_ok in H. destruct H as [H _].
  apply node_info_wf in H; auto. apply H.
Qed.
Lemma wf_connection : forall s t st st', cwf st -> add_connection s t st = (st', Ok tt) -> cwf st'.
Proof.
  intros s t [d tb] st' W H. apply add_connection_inv in H; auto.
  destruct H as [_ [_ [_ C]]]. eapply connected_wf; eauto.
Qed.

Lemma wf_nodes_info : forall st st', cwf st -> import_nodes_info st = (st', Ok tt) -> cwf st'.
Proof.
  intros st st' W H. unfold import_nodes_info in H. minv H. mrd E.
  eapply (mfor_inv _ _ cwf); [|exact W|exact E0].
  intros a0 x x' _ Wx Hx. cbv beta in Hx. eapply wf_node_info; eauto.
Qed.

(** The four ways a row is connected. *)
Inductive connect_case (ids : list string) (n : string) (st st' : cstate) : Prop :=
| cc_end : is_node_the_end_event n (snd st) = Ok true -> st' = st -> connect_case ids n st st'
| cc_seq : forall l s, is_node_the_end_event n (snd st) = Ok false ->
    get_possible_sequence_continuation_successor n = Ok l -> any_successor_present l ids = true ->
    the_successor_present l ids = Ok s -> add_connection n s st = (st', Ok tt) -> connect_case ids n st st'
| cc_split : forall l succs ty st1 st2, is_node_the_end_event n (snd st) = Ok false ->
    is_there_sequence_continuation n ids = Ok false ->
    get_possible_split_continuation_successor n = Ok l -> any_successor_present l ids = true ->
    get_gateway_type n ids (snd st) = Ok ty -> get_all_split_successors n ids = Ok succs ->
    on_diagram (add_node_info_to_diagram_graph (split_id n) (Some ty) "" default_process_id) st = (st1, Ok tt) ->
    add_connection n (split_id n) st1 = (st2, Ok tt) ->
    mfor succs (fun s => add_connection (split_id n) s) st2 = (st', Ok tt) -> connect_case ids n st st'
| cc_merge_old : forall l s, is_node_the_end_event n (snd st) = Ok false ->
    is_there_sequence_continuation n ids = Ok false -> is_there_split_continuation n ids = Ok false ->
    get_possible_merge_continuation_successors n = Ok l -> any_successor_present l ids = true ->
    the_successor_present l ids = Ok s -> is_node (fst st) (join_id s) ->
    add_connection n (join_id s) st = (st', Ok tt) -> connect_case ids n st st'
| cc_merge_new : forall l s ty st1 st2, is_node_the_end_event n (snd st) = Ok false ->
    is_there_sequence_continuation n ids = Ok false -> is_there_split_continuation n ids = Ok false ->
    get_possible_merge_continuation_successors n = Ok l -> any_successor_present l ids = true ->
    the_successor_present l ids = Ok s -> ~ is_node (fst st) (join_id s) ->
    get_merge_node_type s (fst st) = Ok ty ->
    on_diagram (add_node_info_to_diagram_graph (join_id s) ty "" default_process_id) st = (st1, Ok tt) ->
    add_connection (join_id s) s st1 = (st2, Ok tt) ->
    add_connection n (join_id s) st2 = (st', Ok tt) -> connect_case ids n st st'.

Lemma mbind_read : forall S A B (r : S -> res A) (f : A -> M S B) s,
  mbind (mread r) f s = match r s with Ok a => f a s | Err e => (s, Err e) end.
Proof. reflexivity. Qed.

Lemma connect_inv : forall ids n st st', connect_node ids n st = (st', Ok tt) -> connect_case ids n st st'.
Proof.
  intros ids n st st' H. unfold connect_node in H. rewrite mbind_read in H.
  destruct (is_node_the_end_event n (snd st)) as [[]|] eqn:E1; [|rewrite mbind_read in H|discriminate].
  { inv H. apply cc_end; auto. }
  destruct (is_there_sequence_continuation n ids) as [[]|] eqn:E2; [|rewrite mbind_read in H|discriminate].
  { rewrite mbind_read in H. unfold is_there_sequence_continuation in E2.
    destruct (get_possible_sequence_continuation_successor n) as [l|] eqn:E3; [|discriminate].
    simpl in E2. rewrite mbind_read in H. destruct (the_successor_present l ids) as [s|] eqn:E4; [|discriminate].
    inv E2. eapply cc_seq; eauto. }
  destruct (is_there_split_continuation n ids) as [[]|] eqn:E3; [|rewrite mbind_read in H|discriminate].
  { unfold is_there_split_continuation in E3.
    destruct (get_possible_split_continuation_successor n) as [l|] eqn:E4; [|discriminate].
    simpl in E3. injection E3 as E3.
    unfold add_split_gateway in H. apply mbind_ok in H. destruct H as [s1 [g [X1 X2]]].
    rewrite mbind_read in X1. destruct (get_gateway_type n ids (snd st)) as [ty|] eqn:E5; [|discriminate].
    apply mbind_ok in X1. destruct X1 as [s2 [[] [X1 X3]]]. inversion X3; subst; clear X3.
    apply mbind_ok in X2. destruct X2 as [s2 [[] [X2 X3]]]. rewrite mbind_read in X3.
    destruct (get_all_split_successors n ids) as [succs|] eqn:E6; [|discriminate].
    eapply cc_split; eauto. }
  destruct (is_there_merge_continuation n ids) as [[]|] eqn:E4; [|discriminate|discriminate].
  unfold is_there_merge_continuation in E4. rewrite mbind_read in H.
  destruct (get_possible_merge_continuation_successors n) as [l|] eqn:E5; [|discriminate].
  simpl in E4. rewrite mbind_read in H. destruct (the_successor_present l ids) as [s|] eqn:E6; [|discriminate].
  apply mbind_ok in H. destruct H as [s1 [g [H1 H2]]].
  unfold on_diagram, add_merge_gateway_if_not_exists, gread in H1. rewrite mbind_read in H1.
  destruct (has_node (dgraph (fst st)) (join_id s)) eqn:E7.
  - simpl in H1. inv H1. cbn [fst snd] in H2.
    apply mbind_ok in H2. destruct H2 as [s2 [[] [H2 H3]]]. inv H2.
    assert (X : (fst st, snd st) = st) by (destruct st; auto). rewrite X in H3.
    eapply cc_merge_old; eauto.
    + congruence.
    + apply dhas_true. exact E7.
  - rewrite mbind_read in H1.
    destruct (get_merge_node_type s (fst st)) as [ty|] eqn:E8; [|discriminate].
    destruct (add_node_info_to_diagram_graph (join_id s) ty "" default_process_id (fst st)) as [d1 [[]|]] eqn:E9;
      unfold mbind in H1; rewrite E9 in H1; simpl in H1; [|discriminate]. inv H1. cbn [fst snd] in H2.
    apply mbind_ok in H2. destruct H2 as [s2 [[] [H2 H3]]].
    eapply cc_merge_new; eauto.
    + congruence.
    + apply dhas_false. exact E7.
    + unfold on_diagram. rewrite E9. reflexivity.
Qed.

Lemma wf_connect_node : forall ids n st st', cwf st -> connect_node ids n st = (st', Ok tt) -> cwf st'.
Proof.
  intros ids n st st' W H. apply connect_inv in H. destruct H; subst; eauto using wf_connection, wf_node_info.
  eapply (mfor_inv _ _ cwf); [|eapply wf_connection; [eapply wf_node_info; eauto|eauto]|eauto].
  intros. eapply wf_connection; eauto.
Qed.

Lemma wf_fill : forall st st', cwf st -> fill_graph_connections st = (st', Ok tt) -> cwf st'.
Proof.
  intros st st' W H. unfold fill_graph_connections in H. rewrite mbind_read in H.
  eapply (mfor_inv _ _ cwf); [|exact W|exact H]. intros a x x' _ Wx Hx. eapply wf_connect_node; eauto.
Qed.

(** Default values: flow lists and the type stay as they are. *)
Lemma adjust_spec : forall n d, wf d -> is_node d n ->
  exists d', adjust_node n d = (d', Ok tt) /\
   (forall m k, k <> "event_definitions" -> attr d' m k = attr d m k) /\
   (forall m, attr d' m "event_definitions" =
      if String.eqb m n then match attr d n "event_definitions" with
                             | None | Some VNone => Some (VDefs [])
                             | v => v end
      else attr d m "event_definitions") /\
   node_keys d' = node_keys d /\ gedges (dgraph d') = gedges (dgraph d) /\ same_rest d d'.
Proof.
  intros n d [_ W] Hn. destruct (W n Hn) as [[lo Lo] [[li Li] _]].
  pose proof Hn as Hn'. apply is_node_of in Hn'. destruct Hn' as [a Ha].
  assert (La := Li). assert (Oa := Lo). unfold attr in La, Oa. rewrite Ha in La, Oa.
  unfold adjust_node, gread. unfold mbind at 1. rewrite mbind_read. unfold gnode. unfold node_of in Ha. rewrite Ha.
  unfold k_incoming at 1. rewrite La. unfold mret at 1. unfold mbind at 1. rewrite mbind_read. rewrite Ha.
  unfold k_outgoing at 1. rewrite Oa. unfold mret at 1. rewrite mbind_read, Ha. unfold k_event_definitions.
  assert (Ed : attr d n "event_definitions" = dget "event_definitions" a) by (unfold attr, node_of; rewrite Ha; auto).
  destruct (node_set_attr n "event_definitions" (VDefs []) d Hn) as [d1 [S1 [A1 [K1 [G1 R1]]]]].
  assert (X : forall m k, k <> "event_definitions" -> attr d1 m k = attr d m k).
  { intros m k Hk. rewrite A1. rewrite (eqb_neq' _ _ Hk), andb_false_r. reflexivity. }
  assert (Y : forall m, attr d1 m "event_definitions" = if String.eqb m n then Some (VDefs []) else attr d m "event_definitions").
  { intros m. rewrite A1. rewrite andb_true_r. reflexivity. }
  rewrite Ed. destruct (dget "event_definitions" a) as [v|] eqn:Ev.
  - destruct v; try (exists d; split; [reflexivity|]; split; [auto|]; split;
      [intros m; destruct (String.eqb_spec m n); subst; auto|repeat split; auto]; fail).
    exists d1. repeat split; auto; apply R1.
  - exists d1. repeat split; auto; apply R1.
Qed.

Lemma adjust_inv : forall n d d', wf d -> adjust_node n d = (d', Ok tt) ->
  wf d' /\ (forall m k, k <> "event_definitions" -> attr d' m k = attr d m k) /\
  node_keys d' = node_keys d /\ gedges (dgraph d') = gedges (dgraph d) /\ same_rest d d'.
Proof.
  intros n d d' W H. destruct (in_dec string_dec n (node_keys d)) as [Hn|Hn].
  - destruct (adjust_spec n d W Hn) as [d1 [E [A [B [K [G R]]]]]]. rewrite E in H. inv H.
    split; [|auto]. destruct W as [U W]. split.
    + unfold unique_ids. fold (node_keys d'). rewrite K. exact U.
    + intros m Hm. unfold is_node in Hm. fold (node_keys d') in Hm. rewrite K in Hm.
      unfold node_fine. rewrite !A by discriminate. apply W. exact Hm.
  - exfalso. unfold adjust_node, gread in H. unfold mbind at 1 in H. rewrite mbind_read in H. unfold gnode in H.
    destruct (dget n (gnodes (dgraph d))) eqn:E; [|discriminate].
    apply Hn. eapply dget_key_In; eauto.
Qed.

Lemma legacy_inv : forall d d', wf d -> legacy_adjustment d = (d', Ok tt) ->
  wf d' /\ (forall m k, k <> "event_definitions" -> attr d' m k = attr d m k) /\
  node_keys d' = node_keys d /\ gedges (dgraph d') = gedges (dgraph d) /\ same_rest d d'.
Proof.
  intros d d' W H. unfold legacy_adjustment, gread in H. rewrite mbind_read in H.
  refine (mfor_inv _ _ (fun x => wf x /\ (forall m k, k <> "event_definitions" -> attr x m k = attr d m k) /\
    node_keys x = node_keys d /\ gedges (dgraph x) = gedges (dgraph d) /\ same_rest d x) _ _ _ _ _ _ H).
  - intros n x x' _ [Wx [Ax [Kx [Gx Rx]]]] E. apply adjust_inv in E; auto.
    destruct E as [W' [A' [K' [G' R']]]]. split; auto. split; [|split; [congruence|split; [congruence|]]].
    + intros m k Hk. rewrite A', Ax by auto. reflexivity.
    + unfold same_rest in *. intuition congruence.
  - split; auto. split; auto. split; auto. split; auto. repeat split.
Qed.
Lemma legacy_total : forall d, wf d -> exists d', legacy_adjustment d = (d', Ok tt).
Proof.
  intros d W. unfold legacy_adjustment, gread. rewrite mbind_read.
  assert (H : forall n, In n (dkeys (gnodes (dgraph d))) -> is_node d n) by auto.
  revert H. generalize (dkeys (gnodes (dgraph d))). intros l. revert d W.
  induction l as [|n l IH]; intros d W H; simpl.
  - exists d. reflexivity.
  - destruct (adjust_spec n d W) as [d1 [E [A [B [K [G R]]]]]]; [apply H; left; auto|].
    unfold mbind. rewrite E. apply IH.
    + eapply adjust_inv; eauto.
    + intros m Hm. unfold is_node. fold (node_keys d1). rewrite K. apply H. right. auto.
Qed.

Lemma wf_remove : forall n st st' s t, cwf st -> csv_remove_node n st = (st', Ok (s, t)) -> cwf st'.
Proof.
  intros n [d tb] st' s t W H. apply csv_remove_inv in H. destruct H as [_ H]. eapply spliced_wf; eauto.
Qed.
Lemma wf_goto : forall st st', cwf st -> remove_goto_nodes st = (st', Ok tt) -> cwf st'.
Proof.
  intros st st' W H. unfold remove_goto_nodes in H. rewrite mbind_read in H.
  eapply (mfor_inv _ _ cwf); [|exact W|exact H]. intros [o r] x x' _ Wx Hx. cbn [fst snd] in Hx.
  destruct (is_goto r); [|inv Hx; auto].
  apply mbind_ok in Hx. destruct Hx as [x1 [[s t] [H1 H2]]].
  rewrite mbind_read in H2. destruct (goto_target r) as [u|]; [|discriminate].
  eapply wf_connection; [|exact H2]. eapply wf_remove; eauto.
Qed.

(** * The last phase *)
Definition three_gateways (t : string) : Prop :=
  t = "inclusiveGateway" \/ t = "exclusiveGateway" \/ t = "parallelGateway".
Definition is_gateway (d : diagram) (n : string) : Prop :=
  exists t, attr d n "type" = Some (VStr t) /\ three_gateways t.

Lemma removable_spec : forall n d, removable_type n d = true <-> is_gateway d n.
Proof.
  intros n d. unfold removable_type, gnode, is_gateway, attr, node_of, three_gateways.
  destruct (dget n (gnodes (dgraph d))) as [a|]; [|split; [discriminate|intros [t [H _]]; discriminate]].
  unfold k_type. destruct (dget "type" a) as [v|]; [|split; [discriminate|intros [t [H _]]; discriminate]].
  destruct v as [|s| | | | | ]; try (split; [discriminate|intros [t [H _]]; discriminate]).
  unfold veqs, t_inclusive_gateway, t_exclusive_gateway, t_parallel_gateway.
  rewrite !orb_true_iff, !String.eqb_eq. split.
  - intros H. exists s. tauto.
  - intros [t [H T]]. inv H. tauto.
Qed.
Lemma flow_count_spec : forall n k d l, attr d n k = Some (VList l) -> flow_count n k d = Ok (length l).
Proof.
  intros n k d l H. unfold flow_count, gnode. unfold attr, node_of in H.
  destruct (dget n (gnodes (dgraph d))); [|discriminate]. rewrite H. reflexivity.
Qed.

(** Removing [n] and reconnecting its neighbours. *)
Lemma splice_connect : forall n s t d d1 d2 tb, length (incoming_of d n) < 2 -> length (outgoing_of d n) < 2 ->
  spliced n s t d d1 -> connected tb s t d1 d2 ->
  s <> n /\ t <> n /\
  (forall m, m <> n -> length (outgoing_of d2 m) = length (outgoing_of d m)) /\
  (forall m, m <> n -> length (incoming_of d2 m) = length (incoming_of d m)).
Proof.
  intros n s t d d1 d2 tb Li Lo S C.
  destruct (sp_flows _ _ _ _ _ S) as [f1 [l1 [r1 [lo [f2 [l2 [r2 [li H]]]]]]]].
  destruct H as [I1 [D1 [Es [R1 [I2 [D2 [Et [R2 [F A]]]]]]]]].
  apply list_remove_ok in R1. destruct R1 as [u1 [v1 [O1 [-> U1]]]].
  apply list_remove_ok in R2. destruct R2 as [u2 [v2 [O2 [-> U2]]]].
  assert (Ns : s <> n).
  { intros ->. rewrite eqb_refl' in I2. rewrite O1 in Lo. rewrite app_length in Lo. simpl in Lo.
    assert (X : length (u1 ++ v1) = 0) by (rewrite app_length; lia).
    rewrite I2 in X. discriminate. }
  assert (Nt : t <> n).
  { intros ->. rewrite O2 in I1. rewrite O2 in Li. rewrite app_length in Li. simpl in Li.
    assert (u2 = []) by (apply length_zero_iff_nil; lia). subst u2. simpl in I1. inversion I1; subst.
    rewrite dget_ddel, eqb_refl' in D2. discriminate. }
  split; auto. split; auto. split.
  - intros m Hm. rewrite (connected_out _ _ _ _ _ _ C).
    assert (X : forall x, x <> n -> outgoing_of d1 x = if String.eqb x s then u1 ++ v1 else outgoing_of d x).
    { intros x Hx. unfold outgoing_of at 1. rewrite A by auto. rewrite andb_true_r, andb_false_r.
      destruct (String.eqb x s); reflexivity. }
    rewrite !X by auto. rewrite eqb_refl'. destruct (String.eqb_spec m s); auto. subst m.
    rewrite O1, !app_length. simpl. lia.
  - intros m Hm. rewrite (connected_in _ _ _ _ _ _ C).
    assert (X : forall x, x <> n -> incoming_of d1 x = if String.eqb x t then u2 ++ v2 else incoming_of d x).
    { intros x Hx. unfold incoming_of at 1. rewrite A by auto. rewrite andb_false_r, andb_true_r.
      destruct (String.eqb x t); reflexivity. }
    rewrite !X by auto. rewrite eqb_refl'. destruct (String.eqb_spec m t); auto. subst m.
    rewrite O2, !app_length. simpl. lia.
Qed.
Lemma spliced_type : forall n s t d d' m, spliced n s t d d' -> m <> n -> attr d' m "type" = attr d m "type".
Proof.
  intros n s t d d' m S Hm. destruct (sp_flows _ _ _ _ _ S) as [f1 [l1 [r1 [lo [f2 [l2 [r2 [li H]]]]]]]].
  destruct H as [_ [_ [_ [_ [_ [_ [_ [_ [_ A]]]]]]]]]. rewrite A by auto. rewrite !andb_false_r. reflexivity.
Qed.

(** One round of the last phase. *)
Inductive gateway_step (n : string) (st st' : cstate) : Prop :=
| gs_keep : st' = st ->
    (is_gateway (fst st) n -> 2 <= length (incoming_of (fst st) n) \/ 2 <= length (outgoing_of (fst st) n)) ->
    gateway_step n st st'
| gs_drop : forall s t d1, is_gateway (fst st) n ->
    length (incoming_of (fst st) n) < 2 -> length (outgoing_of (fst st) n) < 2 ->
    spliced n s t (fst st) d1 -> is_node d1 s -> is_node d1 t ->
    connected (ddel n (snd st)) s t d1 (fst st') -> snd st' = ddel n (snd st) -> gateway_step n st st'.

Lemma gateway_round : forall n st st', cwf st -> remove_gateway_if_unnecessary n st = (st', Ok tt) ->
  gateway_step n st st'.
Proof.
  intros n [d tb] st' W H. unfold remove_gateway_if_unnecessary in H. rewrite mbind_read in H. cbn [fst snd] in H.
  destruct (removable_type n d) eqn:E1.
  - assert (G : is_gateway d n) by (apply removable_spec; auto).
    assert (Hn : is_node d n) by (destruct G as [t [G _]]; eapply attr_is_node; eauto).
    destruct (proj2 W n Hn) as [[lo Lo] [[li Li] _]]. cbn [fst snd] in Lo, Li.
    rewrite mbind_read in H. cbn [fst snd] in H. unfold k_incoming in H. rewrite (flow_count_spec _ _ _ _ Li) in H.
    destruct (Nat.ltb_spec (length li) 2).
    + rewrite mbind_read in H. cbn [fst snd] in H. unfold k_outgoing in H. rewrite (flow_count_spec _ _ _ _ Lo) in H.
      destruct (Nat.ltb_spec (length lo) 2).
      * apply mbind_ok in H. destruct H as [[d1 tb1] [[s t] [X1 X2]]].
        pose proof (wf_remove _ _ _ _ _ W X1) as W1.
        apply csv_remove_inv in X1. destruct X1 as [T1 S1]. cbn [fst snd] in *. subst tb1.
        apply add_connection_inv in X2; auto. destruct X2 as [N1 [N2 [T2 C2]]].
        eapply gs_drop; cbn [fst snd]; eauto.
        -- rewrite (in_of _ _ _ Li). auto.
        -- rewrite (out_of _ _ _ Lo). auto.
      * inv H. apply gs_keep; auto. intros _. right. cbn [fst]. rewrite (out_of _ _ _ Lo). lia.
    + inv H. apply gs_keep; auto. intros _. left. cbn [fst]. rewrite (in_of _ _ _ Li). lia.
  - inv H. apply gs_keep; auto. intros G. cbn [fst] in G. apply removable_spec in G. congruence.
Qed.
Lemma gateway_step_wf : forall n st st', cwf st -> gateway_step n st st' -> cwf st'.
Proof.
  intros n st st' W [-> _|s t d1 _ _ _ S _ _ C _]; auto.
  eapply connected_wf; [exact C|]. eapply spliced_wf; eauto.
Qed.

Definition busy (d : diagram) (n : string) : Prop :=
  is_gateway d n -> 2 <= length (incoming_of d n) \/ 2 <= length (outgoing_of d n).

Lemma last_phase : forall st st', cwf st -> remove_unnecessary_merge_gateways st = (st', Ok tt) ->
  forall n, is_node (fst st') n -> busy (fst st') n.
Proof.
  intros st st' W H. unfold remove_unnecessary_merge_gateways in H. rewrite mbind_read in H.
  assert (G : forall l done x x', cwf x ->
    (forall n, is_node (fst x) n -> In n done \/ In n l) ->
    (forall n, In n done -> is_node (fst x) n -> busy (fst x) n) ->
    mfor l remove_gateway_if_unnecessary x = (x', Ok tt) ->
    forall n, is_node (fst x') n -> busy (fst x') n).
  { induction l as [|a l IH]; intros done x x' Wx A B E.
    - inv E. intros n Hn. destruct (A n Hn) as [C|[]]. auto.
    - simpl in E. apply mbind_ok in E. destruct E as [x1 [[] [E1 E2]]].
      apply gateway_round in E1; auto. pose proof (gateway_step_wf _ _ _ Wx E1) as W1.
      apply (IH (a :: done) x1); auto.
      + intros n Hn. assert (Hx : is_node (fst x) n).
        { destruct E1 as [-> _|s t d1 _ _ _ S _ _ C _]; auto.
          apply (connected_is_node _ _ _ _ _ _ C) in Hn. apply (spliced_is_node _ _ _ _ _ _ S) in Hn. tauto. }
        destruct (A n Hx) as [C|[-> |C]]; simpl; auto.
      + intros n Hn Hx1. destruct E1 as [-> K|s t d1 Ga Li Lo S N1 N2 C T].
        * destruct Hn as [-> |Hn]; auto.
        * apply (connected_is_node _ _ _ _ _ _ C) in Hx1. apply (spliced_is_node _ _ _ _ _ _ S) in Hx1.
          destruct Hx1 as [Hx Na]. destruct Hn as [-> |Hn]; [congruence|].
          destruct (splice_connect _ _ _ _ _ _ _ Li Lo S C) as [_ [_ [Lo' Li']]].
          intros [ty [Ty Th]]. rewrite Lo', Li' by auto. apply (B n Hn Hx).
          exists ty. split; auto. rewrite <- Ty.
          rewrite (connected_type _ _ _ _ _ _ C), (spliced_type _ _ _ _ _ _ S); auto. }
  apply (G (dkeys (gnodes (dgraph (fst st)))) [] st st'); auto.
  intros n [].
Qed.

(** * Before the first phase *)
Definition blank (d : diagram) : Prop := dgraph d = empty_graph /\ seq_flows d = [].
Lemma populate_eq : forall st, exists d, populate_dicts st = ((d, snd st), Ok tt) /\
  dgraph d = dgraph (fst st) /\ seq_flows d = seq_flows (fst st) /\
  procs d = dset "process_1" [("id", VStr "process_1"); ("name", VStr ""); ("isClosed", VStr "false");
                 ("isExecutable", VStr "false"); ("processType", VStr "None");
                 ("node_ids", VList (dkeys (snd st)))] (procs (fst st)).
Proof.
  intros st. eexists. split; [reflexivity|]. repeat split; destruct (fst st); reflexivity.
Qed.
Lemma blank_wf : forall d, blank d -> wf d.
Proof.
  intros d [H _]. split.
  - unfold unique_ids. rewrite H. constructor.
  - intros n Hn. unfold is_node in Hn. rewrite H in Hn. contradiction.
Qed.

(** The states between the phases of a successful import. *)
Lemma import_phases : forall table d d', load_diagram_from_csv table d = (d', Ok tt) ->
  let tb := remove_white_spaces_in_orders table in
  exists d0 s1 s2 d3 s4 s5,
    populate_dicts (d, tb) = ((d0, tb), Ok tt) /\
    import_nodes_info (d0, tb) = (s1, Ok tt) /\ fill_graph_connections s1 = (s2, Ok tt) /\
    legacy_adjustment (fst s2) = (d3, Ok tt) /\ remove_goto_nodes (d3, snd s2) = (s4, Ok tt) /\
    remove_unnecessary_merge_gateways s4 = (s5, Ok tt) /\ d' = fst s5.
Proof.
  intros table d d' H tb. unfold load_diagram_from_csv in H. fold tb in H.
  destruct (import_table (d, tb)) as [s5 r] eqn:E. cbn [fst snd] in H. inv H.
  unfold import_table in E. destruct (populate_eq (d, tb)) as [d0 [P _]]. cbn [snd] in P.
  rewrite (mbind_eq _ _ _ _ _ _ _ _ P) in E.
  apply mbind_ok in E. destruct E as [s1 [[] [E1 E]]].
  apply mbind_ok in E. destruct E as [s2 [[] [E2 E]]].
  apply mbind_ok in E. destruct E as [s3 [[] [E3 E]]].
  apply mbind_ok in E. destruct E as [s4 [[] [E4 E5]]].
  apply on_diagram_ok in E3. destruct E3 as [E3 T3].
  exists d0, s1, s2, (fst s3), s4, s5. repeat split; auto.
  rewrite <- T3. destruct s3; exact E4.
Qed.

Theorem no_pass_through : forall table d d', wf d -> load_diagram_from_csv table d = (d', Ok tt) ->
  forall n, is_node d' n -> busy d' n.
Proof.
  intros table d d' W H. destruct (import_phases _ _ _ H) as [d0 [s1 [s2 [d3 [s4 [s5 [P0 [P1 [P2 [P3 [P4 [P5 ->]]]]]]]]]]]].
  eapply last_phase; [|exact P5].
  eapply wf_goto; [|exact P4]. unfold cwf. cbn [fst].
  eapply legacy_inv; [|exact P3]. eapply wf_fill; [|exact P2]. eapply wf_nodes_info; [|exact P1].
  unfold cwf. cbn [fst]. destruct (populate_eq (d, remove_white_spaces_in_orders table)) as [dd [Q [G _]]].
  cbn [snd] in Q. rewrite P0 in Q. inv Q. cbn [fst] in G.
  unfold wf, unique_ids, node_fine, is_node, attr, node_of in *. rewrite G. exact W.
Qed.
