(** Properties of the diagram construction and query API
    (bpmn_python/bpmn_diagram_rep.py): C01-C12. *)
From Coq Require Import String List Bool Permutation.
From Verif Require Import Py PyFacts Consts Nx NxFacts Rep SpecRep RepFacts.
Import ListNotations.
Open Scope string_scope.
Open Scope list_scope.

(** A diagram used by the examples: start -> task -> end, plus a gateway. *)
Definition demo_ops : list op :=
  [ONew "demo" "0"; OProcess "p" false true "None" "1" "2";
   OStart "id2" "begin" (Some "timer") false true None "3" "4";
   OTask "id2" "work" (Some "t") "5";
   OEnd "id2" "finish" None None "6" "7";
   OFlow "id2" "id3" "t" "f1" "8"; OFlow "id2" "t" "id6" "f2" "9"].
Definition demo : diagram := run empty_diagram demo_ops.

Lemma demo_history : history demo_ops demo.
Proof.
  apply checked_history. vm_compute. reflexivity.
Qed.

(** C01.  Every accepted node-adding call returns the id, gives the node exactly the
    requested attributes (attributes not mentioned keep the value they had, so none
    for a new node), and leaves the other nodes, all connections, the node order and
    everything else alone. *)
Theorem C01_add_node_exact : forall o id ex d, expected_node o = Some (id, ex) ->
  snd (step o d) = Ok id /\
  (forall k, attr (fst (step o d)) id k =
             match dget k ex with Some v => Some v | None => attr d id k end) /\
  (forall n, n <> id -> node_of (fst (step o d)) n = node_of d n) /\
  gedges (dgraph (fst (step o d))) = gedges (dgraph d) /\
  same_rest d (fst (step o d)) /\
  map fst (gnodes (dgraph (fst (step o d)))) =
    (if in_dec string_dec id (map fst (gnodes (dgraph d))) then map fst (gnodes (dgraph d))
     else map fst (gnodes (dgraph d)) ++ [id]).
Proof. exact c01. Qed.

Example C01_example :
  expected_node (OExclusive "p" "choice" "Diverging" (Some "t") None "77") <> None /\
  attr (fst (step (OExclusive "p" "choice" "Diverging" (Some "t") None "77") demo)) "id77" "default"
    = Some (VStr "t") /\
  attr (fst (step (OExclusive "p" "choice" "Diverging" (Some "t") None "77") demo)) "t" "node_name"
    = Some (VStr "work").
Proof. split; [discriminate|]. split; reflexivity. Qed.

(** C02.  Adding a flow between existing nodes with coordinates and flow lists. *)
Theorem C02_add_flow_exact : forall d pid s t name u sx sy tx ty lo li,
  attr d s "x" = Some (VStr sx) -> attr d s "y" = Some (VStr sy) ->
  attr d t "x" = Some (VStr tx) -> attr d t "y" = Some (VStr ty) ->
  attr d s "outgoing" = Some (VList lo) -> attr d t "incoming" = Some (VList li) ->
  let f := ("id" ++ u)%string in
  let d' := fst (step (OFlow pid s t name u) d) in
  snd (step (OFlow pid s t name u) d) = Ok f /\
  attr d' s "outgoing" = Some (VList (lo ++ [f])) /\
  attr d' t "incoming" = Some (VList (li ++ [f])) /\
  (forall n k, (n, k) <> (s, "outgoing") -> (n, k) <> (t, "incoming") -> attr d' n k = attr d n k) /\
  map fst (gnodes (dgraph d')) = map fst (gnodes (dgraph d)) /\
  dget f (seq_flows d') = Some (mkFlow name s t) /\
  (forall g, g <> f -> dget g (seq_flows d') = dget g (seq_flows d)) /\
  linked d' s t /\
  (forall k x, link_attr d' s t k x <->
     match dget k [("id", VStr f); ("name", VStr name); ("process", VStr pid); ("sourceRef", VStr s);
                   ("targetRef", VStr t); ("waypoints", VPoints [(sx, sy); (tx, ty)])] with
     | Some v => x = v
     | None => link_attr d s t k x
     end) /\
  (forall a b, ~ same_pair a b s t ->
     (forall k x, link_attr d' a b k x <-> link_attr d a b k x) /\ (linked d' a b <-> linked d a b)) /\
  procs d' = procs d /\ diag_attrs d' = diag_attrs d /\ plane_attrs d' = plane_attrs d /\
  collaboration d' = collaboration d.
Proof.
  intros d pid s t name u sx sy tx ty lo li H1 H2 H3 H4 H5 H6 f d'.
  assert (E : step (OFlow pid s t name u) d =
     (flow_result d pid s t name u (VPoints [(sx, sy); (tx, ty)]), Ok f)) by (eapply add_flow_eq; eauto).
  assert (D : d' = flow_result d pid s t name u (VPoints [(sx, sy); (tx, ty)]))
    by (unfold d'; rewrite E; reflexivity).
  clearbody d'. rewrite E, D. clear D E.
  pose proof (fun n k => attr_flow_result d pid s t name u (VPoints [(sx, sy); (tx, ty)]) lo li n k H5 H6) as A.
  fold f in A.
  repeat split.
  - rewrite A, !eqb_refl'. reflexivity.
  - rewrite A, !eqb_refl'. simpl. rewrite andb_false_r. reflexivity.
  - intros n k N1 N2. rewrite A.
    destruct (String.eqb_spec n s), (String.eqb_spec k "outgoing"), (String.eqb_spec n t),
      (String.eqb_spec k "incoming"); subst; simpl; congruence || auto.
  - apply keys_flow_result.
  - simpl. apply dget_dset_eq.
  - intros g Hg. simpl. apply dget_dset_ne; auto.
  - apply linked_flow.
  - intros H. apply link_flow_same in H. exact H.
  - intros H. apply link_flow_same. exact H.
  - apply (link_flow_other d pid s t name u _ a b H).
  - apply (link_flow_other d pid s t name u _ a b H).
  - apply (link_flow_other d pid s t name u _ a b H).
  - apply (link_flow_other d pid s t name u _ a b H).
Qed.

Example C02_example :
  attr demo "t" "outgoing" = Some (VList ["id9"]) /\ attr demo "t" "incoming" = Some (VList ["id8"]) /\
  attr (fst (step (OFlow "id2" "t" "t" "loop" "10") demo)) "t" "outgoing" = Some (VList ["id9"; "id10"]) /\
  attr (fst (step (OFlow "id2" "t" "t" "loop" "10") demo)) "t" "incoming" = Some (VList ["id8"; "id10"]).
Proof. repeat split. Qed.

(** C03.  Bookkeeping holds after every admissible history, whatever calls raised. *)
Theorem C03_bookkeeping_invariant : forall l d, history l d -> bookkeeping d.
Proof. intros l d H. exact (inv_b d (inv_history l d H)). Qed.

(** ... and every node has an id equal to its key, a type, a process, both flow lists
    and a position. *)
Theorem C03_nodes_complete : forall l d, history l d -> forall n, is_node d n ->
  attr d n "id" = Some (VStr n) /\
  (exists ty, attr d n "type" = Some (VStr ty)) /\
  (exists li, attr d n "incoming" = Some (VList li)) /\
  (exists lo, attr d n "outgoing" = Some (VList lo)) /\
  (exists p, attr d n "process" = Some (VStr p)) /\
  (exists x, attr d n "x" = Some (VStr x)) /\ (exists y, attr d n "y" = Some (VStr y)).
Proof. intros l d H. exact (inv_n d (inv_history l d H)). Qed.

Example C03_example : history demo_ops demo /\ length (seq_flows demo) = 2.
Proof. split; [exact demo_history | reflexivity]. Qed.

(** C04.  In any reachable diagram exactly the flows not shadowed by a later flow
    over the same pair are found. *)
Theorem C04_live_flow_found : forall l d, history l d -> forall f r, live d f r ->
  exists a b at_, get_flow_by_id f d = Ok (Some (a, b, at_)) /\
    same_pair a b (fl_src r) (fl_tgt r) /\ dget "id" at_ = Some (VStr f) /\
    dget "name" at_ = Some (VStr (fl_name r)) /\
    dget "sourceRef" at_ = Some (VStr (fl_src r)) /\ dget "targetRef" at_ = Some (VStr (fl_tgt r)).
Proof. intros l d H f r L. exact (flow_by_id_live d f r (inv_history l d H) L). Qed.

Theorem C04_other_ids_not_found : forall l d, history l d -> forall f, (forall r, ~ live d f r) ->
  get_flow_by_id f d = Ok None.
Proof. intros l d H f L. exact (flow_by_id_none d f (inv_history l d H) L). Qed.

Theorem C04_retrieval_distinct_pairs : forall l d, history l d -> distinct_pairs d ->
  forall f r, dget f (seq_flows d) = Some r ->
  exists a b at_, get_flow_by_id f d = Ok (Some (a, b, at_)) /\
    same_pair a b (fl_src r) (fl_tgt r) /\ dget "id" at_ = Some (VStr f) /\
    dget "name" at_ = Some (VStr (fl_name r)) /\
    dget "sourceRef" at_ = Some (VStr (fl_src r)) /\ dget "targetRef" at_ = Some (VStr (fl_tgt r)).
Proof.
  intros l d H Hd f r Hf. pose proof (inv_history l d H) as I.
  exact (flow_by_id_live d f r I (distinct_live d f r (inv_f d I) Hd Hf)).
Qed.

Example C04_example : distinct_pairs demo /\
  exists r, get_flow_by_id "id9" demo = Ok (Some r).
Proof.
  split; [|eexists; vm_compute; reflexivity].
  assert (E : seq_flows demo = [("id8", mkFlow "f1" "id3" "t"); ("id9", mkFlow "f2" "t" "id6")])
    by (vm_compute; reflexivity).
  intros f1 r1 f2 r2 H1 H2. rewrite E in H1, H2. apply dget_In in H1. apply dget_In in H2.
  destruct H1 as [H1|[H1|[]]], H2 as [H2|[H2|[]]]; inv H1; inv H2; auto;
    intros [[A B]|[A B]]; simpl in A, B; discriminate.
Qed.

(** The flow back from [t] to [id3] hides the first flow: it is recorded but cannot be
    retrieved any more. *)
Theorem C04_retrieval_refuted : exists l d f r, history l d /\
  dget f (seq_flows d) = Some r /\ get_flow_by_id f d = Ok None.
Proof.
  exists (demo_ops ++ [OFlow "id2" "t" "id3" "back" "10"]),
         (fst (step (OFlow "id2" "t" "id3" "back" "10") demo)), "id8".
  eexists. split.
  - apply h_snoc; [exact demo_history|]. vm_compute. intuition.
  - split; vm_compute; reflexivity.
Qed.

(** The tuple reported for a flow may have source and target swapped. *)
Theorem C04_orientation_refuted : exists l d f r a b at_, history l d /\
  dget f (seq_flows d) = Some r /\ get_flow_by_id f d = Ok (Some (a, b, at_)) /\ a <> fl_src r.
Proof.
  exists (demo_ops ++ [OFlow "id2" "id6" "id3" "again" "10"]),
         (fst (step (OFlow "id2" "id6" "id3" "again" "10") demo)), "id10".
  eexists. eexists. eexists. eexists. split.
  - apply h_snoc; [exact demo_history|]. vm_compute. intuition.
  - split; [vm_compute; reflexivity|]. split; [vm_compute; reflexivity|]. discriminate.
Qed.

(** C05 *)
Theorem C05_get_all_nodes : forall d, get_nodes (Some "") d = Ok (gnodes (dgraph d)).
Proof. reflexivity. Qed.

Theorem C05_get_nodes_by_type : forall d t, unique_ids d -> typed d -> t <> "" ->
  exists r, get_nodes (Some t) d = Ok r /\
    (forall n a, In (n, a) r <-> node_of d n = Some a /\ attr d n "type" = Some (VStr t)) /\
    NoDup (map fst r) /\ (exists p, r = filter p (gnodes (dgraph d))).
Proof.
  intros d t Hu Hty Ht. destruct (c05_total d (Some t) Hu Hty) as [r Hr].
  exists r. split; auto. exact (c05_get_nodes d t r Hu Ht Hr).
Qed.

Theorem C05_id_list : forall d t, unique_ids d -> typed d ->
  exists r, get_nodes_id_list_by_type t d = Ok r /\ NoDup r /\
    (forall n, In n r <-> attr d n "type" = Some (VStr t)).
Proof.
  intros d t Hu Hty.
  destruct (attr_filter_total d k_type (Some t) Hu) as [r Hr].
  { intros n Hn. destruct (Hty n Hn) as [ty H]. eauto. }
  exists (map fst r). unfold get_nodes_id_list_by_type. rewrite Hr.
  destruct (attr_filter_spec d k_type t r Hu Hr) as [H1 [p H2]].
  split; [reflexivity|]. split.
  - rewrite H2. apply NoDup_filter_keys. exact Hu.
  - intros n. rewrite in_map_iff. split.
    + intros [[n' a] [E Hin]]. simpl in E. subst n'. apply H1 in Hin. tauto.
    + intros Ha. assert (N : exists a, node_of d n = Some a).
      { unfold attr in Ha. destruct (node_of d n); [eauto|discriminate]. }
      destruct N as [a N]. exists (n, a). split; auto. apply H1. auto.
Qed.

Theorem C05_get_node_by_id : forall d n,
  get_node_by_id n d = match node_of d n with Some a => Some (n, a) | None => None end.
Proof. exact get_node_by_id_spec. Qed.

(** A node without type makes every type query fail. *)
Theorem C05_untyped_raises : forall d t n, unique_ids d -> t <> "" -> is_node d n ->
  attr d n "type" = None -> get_nodes (Some t) d = Err (KeyError "type").
Proof.
  intros d t n Hu Ht Hn Ha. unfold get_nodes.
  pose proof (attr_filter_err d k_type (Some t) n Hu Hn Ha) as H.
  destruct t; [congruence|exact H].
Qed.

Example C05_example : unique_ids demo /\ typed demo /\
  get_nodes_id_list_by_type "task" demo = Ok ["t"] /\
  get_nodes_id_list_by_type "endEvent" demo = Ok ["id6"].
Proof.
  pose proof (inv_history _ _ demo_history) as I. split; [exact (gwf_nodup _ (inv_g _ I))|].
  split; [|split; reflexivity]. intros n Hn. apply (inv_n _ I n Hn).
Qed.

(** C06 *)
Theorem C06_nodes_by_process : forall d pid, unique_ids d ->
  (forall n, is_node d n -> exists v, attr d n "process" = Some v) ->
  exists r, get_nodes_list_by_process_id pid d = Ok r /\ NoDup (map fst r) /\
    (forall n a, In (n, a) r <-> node_of d n = Some a /\ attr d n "process" = Some (VStr pid)).
Proof.
  intros d pid Hu Hp. destruct (attr_filter_total d k_process (Some pid) Hu Hp) as [r Hr].
  exists r. split; [exact Hr|]. destruct (attr_filter_spec d k_process pid r Hu Hr) as [H1 [p H2]].
  split; auto. rewrite H2. apply NoDup_filter_keys. exact Hu.
Qed.

(** Every stored connection is reported by get_flows exactly once, with its own
    attributes, and nothing else is reported. *)
Theorem C06_flows_exactly_once : forall l d, history l d ->
  exists es, Permutation es (gedges (dgraph d)) /\ Forall2 shows (get_flows d) es.
Proof. intros l d H. exact (get_flows_shows d (inv_history l d H)). Qed.

Theorem C06_flows_by_process : forall d pid t,
  In t (get_flows_list_by_process_id pid d) <->
  In t (get_flows d) /\ dget "process" (snd t) = Some (VStr pid).
Proof.
  intros d pid t. unfold get_flows_list_by_process_id. rewrite filter_In.
  split; intros [H1 H2]; split; auto.
  - match type of H2 with match ?x with _ => _ end = _ => destruct x as [v|] eqn:E end; [|inv H2].
    destruct v; simpl in H2; try discriminate. apply String.eqb_eq in H2. subst pid. exact E.
  - match goal with |- match ?x with _ => _ end = _ =>
      replace x with (Some (VStr pid)) by (symmetry; exact H2) end.
    simpl. apply eqb_refl'.
Qed.

Example C06_example : length (get_flows_list_by_process_id "id2" demo) = 2 /\
  length (get_flows_list_by_process_id "other" demo) = 0.
Proof. split; reflexivity. Qed.

(** C07 *)
Theorem C07_bad_direction_raises : forall o d dir, direction_of o = Some dir ->
  ~ In dir directions -> exists msg, snd (step o d) = Err (BpmnPythonError msg).
Proof.
  intros o d dir Hd Hn. destruct (node_id_of o) as [id|] eqn:Hi.
  - destruct (bad_direction o d dir id Hd Hi Hn) as [a [msg [E _]]]. exists msg. rewrite E. reflexivity.
  - destruct o; simpl in *; discriminate.
Qed.

(** No rejected call touches any other node, a connection, flow or process. *)
Theorem C07_bad_direction_frame : forall o d dir id, direction_of o = Some dir ->
  node_id_of o = Some id -> ~ In dir directions ->
  (forall n, n <> id -> node_of (fst (step o d)) n = node_of d n) /\
  gedges (dgraph (fst (step o d))) = gedges (dgraph d) /\ same_rest d (fst (step o d)).
Proof.
  intros o d dir id Hd Hi Hn. destruct (bad_direction o d dir id Hd Hi Hn) as [a [msg [E _]]].
  rewrite E. simpl. split; [|split; [reflexivity|unfold same_rest; auto]].
  intros n Hne. unfold node_of. simpl. apply dget_dset_ne; auto.
Qed.

(** "... and leaves the diagram unchanged" is false, for every diagram: the rejected
    gateway stays behind as a node. *)
Theorem C07_atomic_refuted : forall o d dir id, direction_of o = Some dir ->
  node_id_of o = Some id -> ~ In dir directions -> ~ is_node d id ->
  is_node (fst (step o d)) id /\ fst (step o d) <> d.
Proof.
  intros o d dir id Hd Hi Hn Hnew. destruct (bad_direction o d dir id Hd Hi Hn) as [a [msg [E _]]].
  rewrite E. simpl fst. assert (is_node (put d id a) id) by (apply is_node_put; auto).
  split; auto. intro C. rewrite C in H. contradiction.
Qed.

Example C07_example :
  direction_of (OParallel "id2" "g" "Sideways" (Some "gw") "20") = Some "Sideways" /\
  ~ In "Sideways" directions /\
  get_nodes_id_list_by_type "parallelGateway"
    (fst (step (OParallel "id2" "g" "Sideways" (Some "gw") "20") demo)) = Ok ["gw"].
Proof. split; [reflexivity|]. split; [|reflexivity]. simpl. intuition discriminate. Qed.

(** C08 *)
Theorem C08_start_definitions : forall d pid name def pm ii nid u1 u2,
  let id := given nid u1 in
  let d' := fst (step (OStart pid name def pm ii nid u1 u2) d) in
  attr d' id "event_definitions" = Some (VDefs
    match def with
    | None => []
    | Some s => match dget s [("message", "messageEventDefinition"); ("timer", "timerEventDefinition");
                   ("conditional", "conditionalEventDefinition"); ("signal", "signalEventDefinition");
                   ("escalation", "escalationEventDefinition")] with
                | Some t => [(("id" ++ u2)%string, t)]
                | None => []
                end
    end).
Proof.
  intros d pid name def pm ii nid u1 u2 id d'.
  destruct (c01 (OStart pid name def pm ii nid u1 u2) id _ d eq_refl) as [_ [A _]].
  unfold d'. rewrite A. simpl. f_equal. f_equal. destruct def as [s|]; auto.
  unfold definitions_for, start_kinds. cbn [find fst dget].
  repeat match goal with
  | |- context [String.eqb s ?a] => destruct (String.eqb_spec s a); [subst s; reflexivity|]
  end.
  repeat match goal with
  | |- context [String.eqb ?a s] => destruct (String.eqb_spec a s); [congruence|]
  end.
  reflexivity.
Qed.

Theorem C08_end_definitions : forall d pid name def nid u1 u2,
  let id := given nid u1 in
  let d' := fst (step (OEnd pid name def nid u1 u2) d) in
  attr d' id "event_definitions" = Some (VDefs
    match def with
    | None => []
    | Some s => match dget s [("terminate", "terminateEventDefinition"); ("signal", "signalEventDefinition");
                   ("error", "errorEventDefinition"); ("escalation", "escalationEventDefinition");
                   ("message", "messageEventDefinition"); ("compensate", "compensateEventDefinition")] with
                | Some t => [(("id" ++ u2)%string, t)]
                | None => []
                end
    end).
Proof.
  intros d pid name def nid u1 u2 id d'.
  destruct (c01 (OEnd pid name def nid u1 u2) id _ d eq_refl) as [_ [A _]].
  unfold d'. rewrite A. simpl. f_equal. f_equal. destruct def as [s|]; auto.
  unfold definitions_for, end_kinds. cbn [find fst dget].
  repeat match goal with
  | |- context [String.eqb s ?a] => destruct (String.eqb_spec s a); [subst s; reflexivity|]
  end.
  repeat match goal with
  | |- context [String.eqb ?a s] => destruct (String.eqb_spec a s); [congruence|]
  end.
  reflexivity.
Qed.

Example C08_example : attr demo "id3" "event_definitions" = Some (VDefs [("id4", "timerEventDefinition")]) /\
  attr demo "id6" "event_definitions" = Some (VDefs []).
Proof. split; reflexivity. Qed.

(** C09 *)
Theorem C09_unknown_end_raises : forall l d, history l d -> forall pid s t name u,
  ~ is_node d s \/ ~ is_node d t -> snd (step (OFlow pid s t name u) d) = Err (KeyError "x").
Proof.
  intros l d H pid s t name u Hm. pose proof (inv_history l d H) as I.
  destruct (flow_missing_end d pid s t name u Hm) as [e [E He]].
  rewrite E. simpl. f_equal. apply He. exact (inv_n d I).
Qed.

(** "... and leaves the diagram unchanged" is false, for every reachable diagram: the
    missing nodes and the connection are created, the flow is recorded and the
    bookkeeping is broken. *)
Theorem C09_atomic_refuted : forall l d, history l d -> forall pid s t name u,
  ~ is_node d s \/ ~ is_node d t -> dget ("id" ++ u) (seq_flows d) = None ->
  let d' := fst (step (OFlow pid s t name u) d) in
  is_node d' s /\ is_node d' t /\ linked d' s t /\
  dget ("id" ++ u) (seq_flows d') = Some (mkFlow name s t) /\ ~ bookkeeping d'.
Proof.
  intros l d H pid s t name u Hm Hf d'. pose proof (inv_history l d H) as I.
  destruct (flow_missing_end d pid s t name u Hm) as [e [E _]].
  unfold d'. rewrite E. exact (ghost_bookkeeping_broken d pid s t name u I Hm Hf).
Qed.

Example C09_example : history demo_ops demo /\ ~ is_node demo "nowhere" /\
  snd (step (OFlow "id2" "t" "nowhere" "f" "30") demo) = Err (KeyError "x") /\
  attr (fst (step (OFlow "id2" "t" "nowhere" "f" "30") demo)) "nowhere" "type" = None.
Proof.
  split; [exact demo_history|]. split; [vm_compute; intuition discriminate|]. split; reflexivity.
Qed.

(** C10 *)
Theorem C10_create_discards : forall d name u,
  let d' := fst (step (ONew name u) d) in
  gnodes (dgraph d') = [] /\ gedges (dgraph d') = [] /\ seq_flows d' = [] /\ procs d' = [] /\
  plane_attrs d' = [] /\ collaboration d' = None /\
  (forall k, dget k (diag_attrs d') = dget k [("id", VStr ("id" ++ u)); ("name", VStr name)]).
Proof. intros. repeat split. Qed.

Example C10_example : gnodes (dgraph demo) <> [] /\
  gnodes (dgraph (fst (step (ONew "other" "50") demo))) = [].
Proof. split; vm_compute; [discriminate|reflexivity]. Qed.

(** C11 *)
Theorem C11_add_process : forall d name closed exec_ ptype u1 u2,
  let pid := ("id" ++ u2)%string in
  let d' := fst (step (OProcess name closed exec_ ptype u1 u2) d) in
  snd (step (OProcess name closed exec_ ptype u1 u2) d) = Ok pid /\
  dget pid (procs d') = Some [("name", VStr name);
     ("isClosed", VStr (if closed then "true" else "false"));
     ("isExecutable", VStr (if exec_ then "true" else "false")); ("processType", VStr ptype)] /\
  (forall q, q <> pid -> dget q (procs d') = dget q (procs d)) /\
  dget "bpmnElement" (plane_attrs d') = Some (VStr pid) /\
  dget "id" (plane_attrs d') = Some (VStr ("id" ++ u1)) /\
  dgraph d' = dgraph d /\ seq_flows d' = seq_flows d /\ diag_attrs d' = diag_attrs d /\
  collaboration d' = collaboration d.
Proof.
  intros. unfold d'. cbn [step fst snd]. split; [reflexivity|]. cbn.
  split; [rewrite dget_dset_eq; reflexivity|].
  split; [intros q Hq; apply dget_dset_ne; auto|].
  split; [rewrite dget_dset_eq; reflexivity|].
  split; [rewrite dget_dset_ne by discriminate; rewrite dget_dset_eq; reflexivity|].
  repeat split.
Qed.

Example C11_example : dget "id2" (procs demo) <> None /\
  dget "bpmnElement" (plane_attrs demo) = Some (VStr "id2").
Proof. split; vm_compute; [discriminate|reflexivity]. Qed.

(** C12.  For every meaning of float(): either all nodes have numeric coordinates and
    exactly the nodes are reported with them, or the call raises and some node lacks a
    numeric coordinate. *)
Theorem C12_positions : forall (F : Type) (pyfloat : string -> option F) d, unique_ids d ->
  match get_nodes_positions pyfloat d with
  | Ok r => (forall n, is_node d n -> exists x y, num_attr pyfloat d n "x" = Some x /\
               num_attr pyfloat d n "y" = Some y /\ dget n r = Some (x, y)) /\
            (forall n, ~ is_node d n -> dget n r = None)
  | Err _ => exists n, is_node d n /\
               (num_attr pyfloat d n "x" = None \/ num_attr pyfloat d n "y" = None)
  end.
Proof. exact positions_spec. Qed.

Example C12_example : get_nodes_positions (fun s => Some s) demo =
  Ok [("id3", ("100", "100")); ("t", ("100", "100")); ("id6", ("100", "100"))].
Proof. reflexivity. Qed.

Print Assumptions C01_add_node_exact.
Print Assumptions C02_add_flow_exact.
Print Assumptions C03_bookkeeping_invariant.
Print Assumptions C03_nodes_complete.
Print Assumptions C04_live_flow_found.
Print Assumptions C04_other_ids_not_found.
Print Assumptions C04_retrieval_distinct_pairs.
Print Assumptions C04_retrieval_refuted.
Print Assumptions C04_orientation_refuted.
Print Assumptions C05_get_all_nodes.
Print Assumptions C05_get_nodes_by_type.
Print Assumptions C05_id_list.
Print Assumptions C05_get_node_by_id.
Print Assumptions C05_untyped_raises.
Print Assumptions C06_nodes_by_process.
Print Assumptions C06_flows_exactly_once.
Print Assumptions C06_flows_by_process.
Print Assumptions C07_bad_direction_raises.
Print Assumptions C07_bad_direction_frame.
Print Assumptions C07_atomic_refuted.
Print Assumptions C08_start_definitions.
Print Assumptions C08_end_definitions.
Print Assumptions C09_unknown_end_raises.
Print Assumptions C09_atomic_refuted.
Print Assumptions C10_create_discards.
Print Assumptions C11_add_process.
Print Assumptions C12_positions.
