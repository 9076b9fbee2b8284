(** Proofs about the diagram API model (Rep.v). *)
From Coq Require Import String List Bool Arith Lia Permutation.
From Verif Require Import Py PyFacts Consts Nx NxFacts Rep SpecRep.
Import ListNotations.
Open Scope string_scope.
Open Scope list_scope.

Definition put (d : diagram) (n : string) (a : attrs) : diagram :=
  with_graph d (put_node n a (dgraph d)).

Lemma mbind_eq : forall S A B (m : M S A) (f : A -> M S B) s s' a,
  m s = (s', Ok a) -> mbind m f s = f a s'.
Proof. intros. unfold mbind. rewrite H. reflexivity. Qed.

Lemma mbind_err : forall S A B (m : M S A) (f : A -> M S B) s s' e,
  m s = (s', Err e) -> mbind m f s = (s', Err e).
Proof. intros. unfold mbind. rewrite H. reflexivity. Qed.

Lemma node_set_put : forall n k v d a,
  node_set n k v (put d n a) = (put d n (dset k v a), Ok tt).
Proof.
  intros. unfold node_set, ggraph, mtry, put. simpl.
  rewrite set_node_attr_put. reflexivity.
Qed.

Lemma add_node_diag : forall n d,
  ggraph (fun g => Ok (add_node n g)) d = (put d n (node_or_empty n (dgraph d)), Ok tt).
Proof. intros. unfold ggraph, mtry, put. simpl. rewrite add_node_put. reflexivity. Qed.

Definition base_set (id ty name pid : string) (a : attrs) : attrs :=
  dset k_y (VStr "100") (dset k_x (VStr "100") (dset k_height (VStr "100") (dset k_width (VStr "100")
   (dset k_process (VStr pid) (dset k_outgoing (VList []) (dset k_incoming (VList [])
   (dset k_node_name (VStr name) (dset k_type (VStr ty) (dset k_id (VStr id) a))))))))).

Ltac mstep :=
  first [ rewrite (mbind_eq _ _ _ _ _ _ _ _ (node_set_put _ _ _ _ _))
        | rewrite (mbind_eq _ _ _ _ _ _ _ _ (add_node_diag _ _)) ].

Lemma add_flow_node_eq : forall pid ty name nid u d,
  add_flow_node_to_diagram pid ty name nid u d =
  (put d (given nid u) (base_set (given nid u) ty name pid (node_or_empty (given nid u) (dgraph d))),
   Ok (given nid u)).
Proof.
  intros. unfold add_flow_node_to_diagram.
  assert (E : match nid with Some i => i | None => fresh_id u end = given nid u)
    by (destruct nid; reflexivity).
  rewrite E. cbv zeta. repeat mstep. reflexivity.
Qed.

Ltac nstep := rewrite (mbind_eq _ _ _ _ _ _ _ _ (add_flow_node_eq _ _ _ _ _ _)).

Definition tfb (b : bool) : pyval := VStr (bool_str b).

Definition base_of (o_id ty name pid : string) (d : diagram) : attrs :=
  base_set o_id ty name pid (node_or_empty o_id (dgraph d)).

Lemma start_defs_eq : forall def u,
  event_def_list ["message"; "timer"; "conditional"; "signal"; "escalation"] def u
                 start_event_definitions = Ok (definitions_for start_kinds def u).
Proof.
  intros [s|] u; [|reflexivity]. unfold definitions_for, start_kinds.
  unfold event_def_list.
  repeat match goal with
  | |- context [String.eqb s ?a] =>
      destruct (String.eqb_spec s a); [subst s; reflexivity|]
  end.
  cbn [find fst].
  repeat match goal with
  | |- context [String.eqb ?a s] =>
      destruct (String.eqb_spec a s); [congruence|]
  end.
  reflexivity.
Qed.

Lemma end_defs_eq : forall def u,
  event_def_list ["terminate"; "escalation"; "message"; "compensate"; "signal"; "error"] def u
                 end_event_definitions = Ok (definitions_for end_kinds def u).
Proof.
  intros [s|] u; [|reflexivity]. unfold definitions_for, end_kinds.
  unfold event_def_list.
  repeat match goal with
  | |- context [String.eqb s ?a] =>
      destruct (String.eqb_spec s a); [subst s; reflexivity|]
  end.
  cbn [find fst].
  repeat match goal with
  | |- context [String.eqb ?a s] =>
      destruct (String.eqb_spec a s); [congruence|]
  end.
  reflexivity.
Qed.

Lemma mread_const : forall S A (r : res A) (s : S), mread (fun _ => r) s = (s, r).
Proof. reflexivity. Qed.

Lemma dirs_smem : forall dir,
  smem dir ["Unspecified"; "Converging"; "Diverging"; "Mixed"] =
  if in_dec string_dec dir directions then true else false.
Proof.
  intros. destruct (in_dec string_dec dir directions) as [H|H].
  - apply smem_In. exact H.
  - apply smem_notIn. exact H.
Qed.

Lemma add_gateway_eq : forall pid ty name dir nid u d,
  add_gateway_to_diagram pid ty name dir nid u d =
  if in_dec string_dec dir directions
  then (put d (given nid u) (dset k_gateway_direction (VStr dir) (base_of (given nid u) ty name pid d)),
        Ok (given nid u))
  else (put d (given nid u) (base_of (given nid u) ty name pid d),
        Err (BpmnPythonError
         ("Invalid value passed as gatewayDirection parameter. Value passed: " ++ dir))).
Proof.
  intros. unfold add_gateway_to_diagram. nstep. rewrite dirs_smem.
  destruct (in_dec string_dec dir directions).
  - unfold mbind at 1. simpl. mstep. reflexivity.
  - reflexivity.
Qed.

Lemma node_or_empty_attr : forall d n k,
  dget k (node_or_empty n (dgraph d)) = attr d n k.
Proof.
  intros. unfold node_or_empty, attr, node_of, gnode.
  destruct (dget n (gnodes (dgraph d))); reflexivity.
Qed.

(** ** C01 *)
Lemma attr_put : forall d n a m k,
  attr (put d n a) m k = if String.eqb m n then dget k a else attr d m k.
Proof.
  intros. unfold attr, node_of, put. simpl. rewrite dget_dset. seq_case; reflexivity.
Qed.

Definition node_keys (d : diagram) : list string := map fst (gnodes (dgraph d)).

Lemma keys_put : forall d n a,
  node_keys (put d n a) = if in_dec string_dec n (node_keys d) then node_keys d else node_keys d ++ [n].
Proof.
  intros. unfold node_keys, put. simpl. destruct (in_dec _ _ _).
  - apply dkeys_dset_in; auto.
  - apply dkeys_dset_new; auto.
Qed.

Ltac key_cases k :=
  unfold base_of, base_set;
  rewrite ?dget_dset, ?node_or_empty_attr;
  unfold common, k_id, k_type, k_node_name, k_incoming, k_outgoing, k_process, k_width, k_height,
    k_x, k_y, k_is_expanded, k_triggered_by_event, k_parallel_multiple, k_is_interrupting,
    k_event_definitions, k_gateway_direction, k_default;
  cbn [app dget];
  repeat match goal with
  | |- context [String.eqb k ?x] => destruct (String.eqb_spec k x); [subst k; reflexivity|]
  end;
  reflexivity.

(** The node-adding calls all have this shape. *)
Lemma expected_node_sound : forall o id ex d, expected_node o = Some (id, ex) ->
  exists a, step o d = (put d id a, Ok id) /\
    forall k, dget k a = match dget k ex with Some v => Some v | None => attr d id k end.
Proof.
  intros o id ex d H. destruct o; unfold expected_node in H; try discriminate;
    try (destruct (in_dec string_dec dir directions) as [Hd|Hd]; [|discriminate]); inv H.
  - eexists; split; [apply add_flow_node_eq|]. intros k. key_cases k.
  - unfold step, add_subprocess_to_diagram. nstep. do 2 mstep.
    eexists; split; [reflexivity|]. intros k. key_cases k.
  - unfold step, add_start_event_to_diagram. nstep. do 2 mstep.
    rewrite start_defs_eq, (mbind_eq _ _ _ _ _ _ _ _ (mread_const _ _ _ _)). mstep.
    eexists; split; [reflexivity|]. intros k. key_cases k.
  - unfold step, add_end_event_to_diagram. nstep.
    rewrite end_defs_eq, (mbind_eq _ _ _ _ _ _ _ _ (mread_const _ _ _ _)). mstep.
    eexists; split; [reflexivity|]. intros k. key_cases k.
  - unfold step, add_exclusive_gateway_to_diagram, mbind. rewrite add_gateway_eq.
    destruct (in_dec string_dec dir directions) as [_|C]; [|exfalso; exact (C Hd)].
    rewrite node_set_put. eexists; split; [reflexivity|]. intros k. unfold opt_val. key_cases k.
  - unfold step, add_inclusive_gateway_to_diagram, mbind. rewrite add_gateway_eq.
    destruct (in_dec string_dec dir directions) as [_|C]; [|exfalso; exact (C Hd)].
    rewrite node_set_put. eexists; split; [reflexivity|]. intros k. unfold opt_val. key_cases k.
  - unfold step, add_parallel_gateway_to_diagram. rewrite add_gateway_eq.
    destruct (in_dec string_dec dir directions) as [_|C]; [|exfalso; exact (C Hd)].
    eexists; split; [reflexivity|]. intros k. key_cases k.
Qed.

Lemma c01 : forall o id ex d, expected_node o = Some (id, ex) ->
  snd (step o d) = Ok id /\
  (forall k, attr (fst (step o d)) id k =
             match dget k ex with Some v => Some v | None => attr d id k end) /\
  (forall n, n <> id -> node_of (fst (step o d)) n = node_of d n) /\
  gedges (dgraph (fst (step o d))) = gedges (dgraph d) /\
  same_rest d (fst (step o d)) /\
  map fst (gnodes (dgraph (fst (step o d)))) =
    (if in_dec string_dec id (map fst (gnodes (dgraph d))) then map fst (gnodes (dgraph d))
     else map fst (gnodes (dgraph d)) ++ [id]).
Proof.
  intros o id ex d H. destruct (expected_node_sound o id ex d H) as [a [E Ha]].
  rewrite E. simpl fst. simpl snd. split; auto. split.
  - intros k. rewrite attr_put, eqb_refl'. apply Ha.
  - split; [|split; [|split]].
    + intros n Hn. unfold node_of, put. simpl. apply dget_dset_ne; auto.
    + reflexivity.
    + unfold same_rest. simpl. auto.
    + apply keys_put.
Qed.

(** ** C07 *)
Definition gateway_type_of (o : op) : string :=
  match o with
  | OExclusive _ _ _ _ _ _ => "exclusiveGateway"
  | OInclusive _ _ _ _ _ _ => "inclusiveGateway"
  | _ => "parallelGateway"
  end.

Lemma bad_direction : forall o d dir id, direction_of o = Some dir -> node_id_of o = Some id ->
  ~ In dir directions ->
  exists a msg, step o d = (put d id a, Err (BpmnPythonError msg)) /\
    (forall k, dget k a = attr d id k \/ In k (map fst (common "" "" "" ""))) /\
    dget "id" a = Some (VStr id) /\ dget "type" a = Some (VStr (gateway_type_of o)) /\
    dget "incoming" a = Some (VList []) /\ dget "outgoing" a = Some (VList []) /\
    dget "x" a = Some (VStr "100") /\ dget "y" a = Some (VStr "100") /\
    (exists p, dget "process" a = Some (VStr p)).
Proof.
  intros o d dir id Hd Hi Hn.
  assert (K : forall i ty n p k, dget k (base_of i ty n p d) = attr d i k
              \/ In k (map fst (common "" "" "" ""))).
  { intros i ty n p k. unfold base_of, base_set. rewrite ?dget_dset, node_or_empty_attr.
    unfold k_id, k_type, k_node_name, k_incoming, k_outgoing, k_process, k_width, k_height, k_x, k_y.
    simpl. repeat (match goal with
    | |- context [String.eqb k ?x] => destruct (String.eqb_spec k x); [subst k; right; simpl; tauto|]
    end). auto. }
  destruct o; simpl in Hd; try discriminate; inv Hd; simpl in Hi; inv Hi;
  unfold step, add_exclusive_gateway_to_diagram, add_inclusive_gateway_to_diagram,
    add_parallel_gateway_to_diagram, mbind; rewrite add_gateway_eq;
  (destruct (in_dec string_dec dir directions) as [C|_]; [contradiction|]);
  (eexists; eexists; split; [reflexivity|]; split; [intros; apply K|]);
  unfold base_of, base_set; rewrite ?dget_dset; simpl; eauto 10.
Qed.

(** ** Adding a sequence flow, closed form *)
Definition edge_base (s t : string) (g : graph) : list edge :=
  if has_edge s t g then gedges g else gedges g ++ [mkEdge s t []].

Definition flow_attrs (fid name pid s t : string) (w : pyval) (a : attrs) : attrs :=
  dset k_waypoints w (dset k_target_ref (VStr t) (dset k_source_ref (VStr s)
    (dset k_process (VStr pid) (dset k_name (VStr name) (dset k_id (VStr fid) a))))).

Lemma has_edge_base : forall s t g ns, has_edge s t (mkGraph ns (edge_base s t g)) = true.
Proof.
  intros. unfold edge_base. destruct (has_edge s t g) eqn:E.
  - apply has_edge_true in E. apply has_edge_true. exact E.
  - apply has_edge_true. simpl. exists (mkEdge s t []). split.
    + apply in_or_app. right. left. reflexivity.
    + apply connects_true. left. auto.
Qed.

Lemma edge_set_upd : forall s t k v d ns es f,
  has_edge s t (mkGraph ns es) = true ->
  edge_set s t k v (with_graph d (mkGraph ns (upd_edges s t f es))) =
  (with_graph d (mkGraph ns (upd_edges s t (fun a => dset k v (f a)) es)), Ok tt).
Proof.
  intros. unfold edge_set, ggraph, mtry. simpl. unfold set_edge_attr.
  rewrite has_edge_upd, H. simpl. rewrite upd_edges_compose. reflexivity.
Qed.

Lemma upd_edges_id : forall s t es, upd_edges s t (fun a => a) es = es.
Proof.
  intros. unfold upd_edges. rewrite <- (map_id es) at 2. apply map_ext. intros [a b c].
  destruct (connects s t _); reflexivity.
Qed.

Lemma add_node_existing : forall n g, In n (dkeys (gnodes g)) -> add_node n g = g.
Proof. intros. unfold add_node, has_node. rewrite (proj2 (dhas_true n (gnodes g)) H). reflexivity. Qed.

Lemma add_edge_existing : forall s t g, In s (dkeys (gnodes g)) -> In t (dkeys (gnodes g)) ->
  add_edge s t g = mkGraph (gnodes g) (upd_edges s t (fun a => a) (edge_base s t g)).
Proof.
  intros. unfold add_edge. rewrite (add_node_existing s), (add_node_existing t) by auto.
  rewrite upd_edges_id. unfold edge_base. destruct (has_edge s t g); destruct g; reflexivity.
Qed.

(** The node dictionary after registering the flow at both ends. *)
Definition reg_out (s fid : string) (ns : dict attrs) : dict attrs :=
  match dget s ns with
  | Some a => match dget k_outgoing a with
              | Some (VList l) => dset s (dset k_outgoing (VList (l ++ [fid])) a) ns
              | _ => ns
              end
  | None => ns
  end.
Definition reg_in (t fid : string) (ns : dict attrs) : dict attrs :=
  match dget t ns with
  | Some a => match dget k_incoming a with
              | Some (VList l) => dset t (dset k_incoming (VList (l ++ [fid])) a) ns
              | _ => ns
              end
  | None => ns
  end.

Definition flow_result (d : diagram) (pid s t name u : string) (w : pyval) : diagram :=
  mkDiagram
    (mkGraph (reg_in t ("id" ++ u) (reg_out s ("id" ++ u) (gnodes (dgraph d))))
             (upd_edges s t (flow_attrs ("id" ++ u) name pid s t w) (edge_base s t (dgraph d))))
    (dset ("id" ++ u)%string (mkFlow name s t) (seq_flows d))
    (procs d) (diag_attrs d) (plane_attrs d) (collaboration d).

Lemma gread_attr : forall d n k v, attr d n k = Some v ->
  forall es, gread (get_node_attr n k) (with_graph d (mkGraph (gnodes (dgraph d)) es)) =
  (with_graph d (mkGraph (gnodes (dgraph d)) es), Ok v).
Proof.
  intros d n k v H es. unfold gread, mread, get_node_attr, gnode. simpl.
  unfold attr, node_of in H. destruct (dget n (gnodes (dgraph d))); [|discriminate].
  unfold dgetE. rewrite H. reflexivity.
Qed.

Lemma add_flow_eq : forall d pid s t name u sx sy tx ty lo li,
  attr d s "x" = Some (VStr sx) -> attr d s "y" = Some (VStr sy) ->
  attr d t "x" = Some (VStr tx) -> attr d t "y" = Some (VStr ty) ->
  attr d s "outgoing" = Some (VList lo) -> attr d t "incoming" = Some (VList li) ->
  step (OFlow pid s t name u) d =
  (flow_result d pid s t name u (VPoints [(sx, sy); (tx, ty)]), Ok ("id" ++ u)%string).
Proof.
  intros d pid s t name u sx sy tx ty lo li Hsx Hsy Htx Hty Ho Hi.
  assert (Ns : In s (dkeys (gnodes (dgraph d)))).
  { unfold attr, node_of in Hsx. destruct (dget s _) eqn:E; [|discriminate]. eapply dget_key_In; eauto. }
  assert (Nt : In t (dkeys (gnodes (dgraph d)))).
  { unfold attr, node_of in Htx. destruct (dget t _) eqn:E; [|discriminate]. eapply dget_key_In; eauto. }
  unfold step, add_sequence_flow_to_diagram. unfold mbind at 1. simpl.
  set (d1 := with_flows d (dset (fresh_id u) (mkFlow name s t) (seq_flows d))).
  assert (E1 : ggraph (fun g => Ok (add_edge s t g)) d1 =
     (with_graph d1 (mkGraph (gnodes (dgraph d1)) (upd_edges s t (fun a => a) (edge_base s t (dgraph d1)))), Ok tt)).
  { unfold ggraph, mtry. simpl. rewrite add_edge_existing by auto. reflexivity. }
  rewrite (mbind_eq _ _ _ _ _ _ _ _ E1). clear E1.
  pose proof (has_edge_base s t (dgraph d1) (gnodes (dgraph d1))) as HB.
  do 5 rewrite (mbind_eq _ _ _ _ _ _ _ _ (edge_set_upd _ _ _ _ _ _ _ _ HB)).
  assert (A : forall n k, attr d1 n k = attr d n k) by reflexivity.
  rewrite (mbind_eq _ _ _ _ _ _ _ _ (gread_attr d1 s k_x _ Hsx _)).
  rewrite (mbind_eq _ _ _ _ _ _ _ _ (gread_attr d1 s k_y _ Hsy _)).
  rewrite (mbind_eq _ _ _ _ _ _ _ _ (gread_attr d1 t k_x _ Htx _)).
  rewrite (mbind_eq _ _ _ _ _ _ _ _ (gread_attr d1 t k_y _ Hty _)).
  simpl vstr. do 4 rewrite (mbind_eq _ _ _ _ _ _ _ _ (mread_const _ _ _ _)).
  rewrite (mbind_eq _ _ _ _ _ _ _ _ (edge_set_upd _ _ _ _ _ _ _ _ HB)).
  change (fun a => dset k_waypoints (VPoints [(sx, sy); (tx, ty)])
     (dset k_target_ref (VStr t) (dset k_source_ref (VStr s)
        (dset k_process (VStr pid) (dset k_name (VStr name) (dset k_id (VStr (fresh_id u)) a))))))
   with (flow_attrs ("id" ++ u) name pid s t (VPoints [(sx, sy); (tx, ty)])).
  set (es := upd_edges s t _ _).
  unfold attr, node_of in Ho. destruct (dget s (gnodes (dgraph d))) as [a|] eqn:Es; [|discriminate].
  assert (E2 : ggraph (append_node_attr s k_outgoing (fresh_id u)) (with_graph d1 (mkGraph (gnodes (dgraph d1)) es))
          = (with_graph d1 (mkGraph (reg_out s (fresh_id u) (gnodes (dgraph d))) es), Ok tt)).
  { unfold ggraph, mtry, append_node_attr, get_node_attr, gnode, reg_out. simpl.
    rewrite Es. unfold dgetE. change (dget "outgoing" a) with (dget k_outgoing a) in Ho. rewrite Ho.
    simpl. unfold set_node_attr, gnode. simpl. rewrite Es. reflexivity. }
  rewrite (mbind_eq _ _ _ _ _ _ _ _ E2). clear E2.
  assert (Hi' : exists a', dget t (reg_out s (fresh_id u) (gnodes (dgraph d))) = Some a' /\
                           dget k_incoming a' = Some (VList li)).
  { unfold reg_out. rewrite Es. change (dget "outgoing" a) with (dget k_outgoing a) in Ho. rewrite Ho.
    rewrite dget_dset. destruct (String.eqb_spec t s).
    - subst t. eexists; split; [reflexivity|]. rewrite dget_dset_ne by discriminate.
      unfold attr, node_of in Hi. rewrite Es in Hi. exact Hi.
    - unfold attr, node_of in Hi. destruct (dget t (gnodes (dgraph d))) as [b|]; [|discriminate].
      eexists; split; [reflexivity|]. exact Hi. }
  destruct Hi' as [a' [Et Hi']].
  assert (E3 : ggraph (append_node_attr t k_incoming (fresh_id u))
                 (with_graph d1 (mkGraph (reg_out s (fresh_id u) (gnodes (dgraph d))) es))
          = (with_graph d1 (mkGraph (reg_in t (fresh_id u) (reg_out s (fresh_id u) (gnodes (dgraph d)))) es), Ok tt)).
  { unfold ggraph, mtry, append_node_attr, get_node_attr, gnode, reg_in. simpl.
    rewrite Et. unfold dgetE. rewrite Hi'. simpl. unfold set_node_attr, gnode. simpl. rewrite Et. reflexivity. }
  rewrite (mbind_eq _ _ _ _ _ _ _ _ E3). reflexivity.
Qed.

(** Lookups in the registered node dictionary. *)
Lemma attr_flow_result : forall d pid s t name u w lo li n k,
  attr d s "outgoing" = Some (VList lo) -> attr d t "incoming" = Some (VList li) ->
  attr (flow_result d pid s t name u w) n k =
  if String.eqb n s && String.eqb k "outgoing" then Some (VList (lo ++ [("id" ++ u)%string]))
  else if String.eqb n t && String.eqb k "incoming" then Some (VList (li ++ [("id" ++ u)%string]))
  else attr d n k.
Proof.
  intros d pid s t name u w lo li n k Ho Hi.
  unfold attr, node_of, flow_result in *. simpl dgraph. simpl gnodes.
  set (f := ("id" ++ u)%string).
  destruct (dget s (gnodes (dgraph d))) as [a|] eqn:Es; [|discriminate].
  destruct (dget t (gnodes (dgraph d))) as [b|] eqn:Et; [|discriminate].
  unfold reg_out. rewrite Es. change k_outgoing with "outgoing". rewrite Ho.
  unfold reg_in. rewrite dget_dset. change k_incoming with "incoming".
  destruct (String.eqb_spec t s) as [E|E].
  - subst t. rewrite dget_dset_ne by discriminate. assert (a = b) by congruence. subst b.
    rewrite Hi, !dget_dset. destruct (String.eqb_spec n s).
    + subst n. rewrite Es, !dget_dset. simpl.
      destruct (String.eqb_spec k "incoming"), (String.eqb_spec k "outgoing"); subst; auto; discriminate.
    + reflexivity.
  - rewrite Et, Hi, !dget_dset. destruct (String.eqb_spec n t).
    + subst n. rewrite (eqb_neq' t s) by auto. rewrite Et, dget_dset. simpl. seq_case; reflexivity.
    + destruct (String.eqb_spec n s).
      * subst n. rewrite Es, dget_dset. simpl. seq_case; reflexivity.
      * simpl. reflexivity.
Qed.

Lemma dkeys_dset_get : forall V k (v v0 : V) d, dget k d = Some v0 -> dkeys (dset k v d) = dkeys d.
Proof. intros. apply dkeys_dset_in. eapply dget_key_In; eauto. Qed.

Lemma keys_flow_result : forall d pid s t name u w,
  node_keys (flow_result d pid s t name u w) = node_keys d.
Proof.
  intros. unfold node_keys, flow_result. simpl. set (f := ("id" ++ u)%string).
  assert (R1 : forall ns, map fst (reg_in t f ns) = map fst ns).
  { intros ns. unfold reg_in. destruct (dget t ns) as [a|] eqn:E; auto.
    destruct (dget k_incoming a) as [[]|]; auto. eapply (dkeys_dset_get attrs); eauto. }
  assert (R2 : forall ns, map fst (reg_out s f ns) = map fst ns).
  { intros ns. unfold reg_out. destruct (dget s ns) as [a|] eqn:E; auto.
    destruct (dget k_outgoing a) as [[]|]; auto. eapply (dkeys_dset_get attrs); eauto. }
  rewrite R1, R2. reflexivity.
Qed.

(** ** C02 *)
Definition expected_link (f name pid s t : string) (w : list (string * string)) : list (string * pyval) :=
  [("id", VStr f); ("name", VStr name); ("process", VStr pid); ("sourceRef", VStr s);
   ("targetRef", VStr t); ("waypoints", VPoints w)].

Lemma same_pair_connects : forall e u v, same_pair (eu e) (ev e) u v <-> connects u v e = true.
Proof. intros. rewrite connects_true. unfold same_pair. tauto. Qed.

Lemma same_pair_sym : forall a b c e, same_pair a b c e -> same_pair c e a b.
Proof. unfold same_pair. intuition. Qed.
Lemma same_pair_trans : forall a b c e x y, same_pair a b c e -> same_pair c e x y -> same_pair a b x y.
Proof. unfold same_pair. intuition; subst; auto. Qed.
Lemma same_pair_refl : forall a b, same_pair a b a b.
Proof. unfold same_pair. auto. Qed.

Lemma same_pair_dec : forall a b c e, {same_pair a b c e} + {~ same_pair a b c e}.
Proof.
  intros. unfold same_pair.
  destruct (string_dec a c), (string_dec b e), (string_dec a e), (string_dec b c);
    solve [left; auto | right; intros [[? ?]|[? ?]]; congruence].
Defined.

Lemma flow_attrs_get : forall f name pid s t w a k,
  dget k (flow_attrs f name pid s t (VPoints w) a) =
  match dget k (expected_link f name pid s t w) with Some v => Some v | None => dget k a end.
Proof.
  intros. unfold flow_attrs. rewrite !dget_dset.
  unfold expected_link, k_waypoints, k_target_ref, k_source_ref, k_process, k_name, k_id.
  cbn [dget].
  repeat match goal with
  | |- context [String.eqb k ?x] => destruct (String.eqb_spec k x); [subst k; reflexivity|]
  end; reflexivity.
Qed.

Lemma link_flow_same : forall d pid s t name u w k x,
  link_attr (flow_result d pid s t name u (VPoints w)) s t k x <->
  match dget k (expected_link ("id" ++ u) name pid s t w) with
  | Some v => x = v
  | None => link_attr d s t k x
  end.
Proof.
  intros. set (f := ("id" ++ u)%string). unfold link_attr, flow_result. cbn [dgraph gedges]. fold f.
  assert (HB : has_edge s t (mkGraph [] (edge_base s t (dgraph d))) = true) by apply has_edge_base.
  split.
  - intros [e [Hin [Hp Hk]]]. apply upd_edges_in in Hin. destruct Hin as [e0 [Hin [Eu [Ev Ea]]]].
    rewrite Eu, Ev in Hp. apply same_pair_connects in Hp. rewrite Hp in Ea.
    rewrite Ea, flow_attrs_get in Hk. destruct (dget k (expected_link _ _ _ _ _ _)); [congruence|].
    unfold edge_base in Hin. destruct (has_edge s t (dgraph d)).
    + exists e0. rewrite same_pair_connects. auto.
    + apply in_app_or in Hin. destruct Hin as [Hin|[<-|[]]]; [|discriminate].
      exists e0. rewrite same_pair_connects. auto.
  - intros H. destruct (dget k (expected_link _ _ _ _ _ _)) eqn:Ek.
    + subst x. apply has_edge_true in HB. simpl in HB. destruct HB as [e [Hin Hc]].
      exists (mkEdge (eu e) (ev e) (flow_attrs f name pid s t (VPoints w) (eat e))).
      split; [|split].
      * unfold upd_edges. apply in_map_iff. exists e. rewrite Hc. auto.
      * simpl. apply same_pair_connects; auto.
      * cbn [eat]. rewrite flow_attrs_get, Ek. reflexivity.
    + destruct H as [e [Hin [Hp Hk]]]. apply same_pair_connects in Hp.
      assert (He : In e (edge_base s t (dgraph d))).
      { unfold edge_base. destruct (has_edge s t (dgraph d)); auto. apply in_or_app; auto. }
      exists (mkEdge (eu e) (ev e) (flow_attrs f name pid s t (VPoints w) (eat e))).
      split; [|split].
      * unfold upd_edges. apply in_map_iff. exists e. rewrite Hp. auto.
      * simpl. apply same_pair_connects; auto.
      * cbn [eat]. rewrite flow_attrs_get, Ek. auto.
Qed.

Lemma link_flow_other : forall d pid s t name u w a b, ~ same_pair a b s t ->
  (forall k x, link_attr (flow_result d pid s t name u w) a b k x <-> link_attr d a b k x) /\
  (linked (flow_result d pid s t name u w) a b <-> linked d a b).
Proof.
  intros d pid s t name u w a b Hn.
  assert (F : forall e, In e (gedges (dgraph (flow_result d pid s t name u w))) ->
     same_pair (eu e) (ev e) a b -> In e (gedges (dgraph d))).
  { intros e Hin Hp. simpl in Hin. unfold upd_edges in Hin. apply in_map_iff in Hin.
    destruct Hin as [e0 [E Hin]]. destruct (connects s t e0) eqn:Ec.
    - exfalso. apply Hn. subst e. simpl in Hp. apply same_pair_connects in Ec.
      eapply same_pair_trans; [apply same_pair_sym; exact Hp|exact Ec].
    - subst e0. unfold edge_base in Hin. destruct (has_edge s t (dgraph d)); auto.
      apply in_app_or in Hin. destruct Hin as [Hin|[<-|[]]]; auto.
      exfalso. apply Hn. apply same_pair_sym. exact Hp. }
  assert (G : forall e, In e (gedges (dgraph d)) -> same_pair (eu e) (ev e) a b ->
     In e (gedges (dgraph (flow_result d pid s t name u w)))).
  { intros e Hin Hp. simpl. unfold upd_edges. apply in_map_iff. exists e. split.
    - destruct (connects s t e) eqn:Ec; auto. exfalso. apply Hn. apply same_pair_connects in Ec.
      eapply same_pair_trans; [apply same_pair_sym; exact Hp|exact Ec].
    - unfold edge_base. destruct (has_edge s t (dgraph d)); auto. apply in_or_app; auto. }
  unfold link_attr, linked. split; [intros k x|]; split; intros [e H]; exists e; intuition.
Qed.

Lemma linked_flow : forall d pid s t name u w, linked (flow_result d pid s t name u w) s t.
Proof.
  intros. pose proof (has_edge_base s t (dgraph d) []) as HB. apply has_edge_true in HB.
  destruct HB as [e [Hin Hc]]. simpl in Hin.
  exists (mkEdge (eu e) (ev e) (flow_attrs ("id" ++ u) name pid s t w (eat e))). split.
  - simpl. unfold upd_edges. apply in_map_iff. exists e. rewrite Hc. auto.
  - simpl. apply same_pair_connects; auto.
Qed.

(** ** The history invariant *)
Definition node_wf (d : diagram) : Prop :=
  forall n, is_node d n ->
    attr d n "id" = Some (VStr n) /\
    (exists ty, attr d n "type" = Some (VStr ty)) /\
    (exists li, attr d n "incoming" = Some (VList li)) /\
    (exists lo, attr d n "outgoing" = Some (VList lo)) /\
    (exists p, attr d n "process" = Some (VStr p)) /\
    (exists x, attr d n "x" = Some (VStr x)) /\
    (exists y, attr d n "y" = Some (VStr y)).

Definition edges_ok (d : diagram) : Prop :=
  (forall e, In e (gedges (dgraph d)) -> exists f r p w,
     live d f r /\ same_pair (eu e) (ev e) (fl_src r) (fl_tgt r) /\
     dget "id" (eat e) = Some (VStr f) /\ dget "name" (eat e) = Some (VStr (fl_name r)) /\
     dget "sourceRef" (eat e) = Some (VStr (fl_src r)) /\
     dget "targetRef" (eat e) = Some (VStr (fl_tgt r)) /\
     dget "process" (eat e) = Some (VStr p) /\ dget "waypoints" (eat e) = Some (VPoints w)) /\
  (forall f r, dget f (seq_flows d) = Some r -> linked d (fl_src r) (fl_tgt r)).

Record inv_d (d : diagram) : Prop := mkInv {
  inv_g : gwf (dgraph d);
  inv_n : node_wf d;
  inv_f : NoDup (dkeys (seq_flows d));
  inv_b : bookkeeping d;
  inv_e : edges_ok d }.

Lemma inv_empty : inv_d empty_diagram.
Proof.
  constructor.
  - apply gwf_empty.
  - intros n H. destruct H.
  - constructor.
  - split; [|split]; simpl; intros; discriminate || contradiction.
  - split; simpl; intros; [contradiction|discriminate].
Qed.

Lemma is_node_attr : forall d n k v, attr d n k = Some v -> is_node d n.
Proof.
  intros d n k v H. unfold attr, node_of in H. destruct (dget n _) eqn:E; [|discriminate].
  eapply dget_key_In; eauto.
Qed.

Lemma is_node_put : forall d n a m, is_node (put d n a) m <-> m = n \/ is_node d m.
Proof. intros. unfold is_node, put. simpl. apply in_dkeys_dset. Qed.

(** Adding a node whose id is new keeps the invariant. *)
Lemma inv_put_new : forall d n a, inv_d d -> ~ is_node d n ->
  dget "id" a = Some (VStr n) -> (exists ty, dget "type" a = Some (VStr ty)) ->
  dget "incoming" a = Some (VList []) -> dget "outgoing" a = Some (VList []) ->
  (exists p, dget "process" a = Some (VStr p)) ->
  (exists x, dget "x" a = Some (VStr x)) -> (exists y, dget "y" a = Some (VStr y)) ->
  inv_d (put d n a).
Proof.
  intros d n a [Ig In_ If [B1 [B2 B3]] [E1 E2]] Hn Hid Hty Hin Hout Hp Hx Hy.
  assert (Hnone : forall k, attr d n k = None).
  { intros k. unfold attr, node_of. destruct (dget n (gnodes (dgraph d))) eqn:E; auto.
    exfalso. apply Hn. eapply dget_key_In; eauto. }
  assert (Ho : forall m, outgoing_of (put d n a) m = if String.eqb m n then [] else outgoing_of d m).
  { intros m. unfold outgoing_of. rewrite attr_put. seq_case; auto. rewrite Hout. auto. }
  assert (Hi : forall m, incoming_of (put d n a) m = if String.eqb m n then [] else incoming_of d m).
  { intros m. unfold incoming_of. rewrite attr_put. seq_case; auto. rewrite Hin. auto. }
  constructor.
  - apply gwf_put; auto.
  - intros m Hm. rewrite !attr_put. rewrite is_node_put in Hm.
    destruct (String.eqb_spec m n) as [->|Hne].
    + eauto 10.
    + destruct Hm as [->|Hm]; [congruence|]. apply In_; auto.
  - exact If.
  - split; [|split].
    + intros f r Hf. destruct (B1 f r Hf) as [S1 [S2 [S3 S4]]].
      rewrite !is_node_put, Ho, Hi.
      rewrite !eqb_neq' by (intro; subst; auto). auto.
    + intros m f Hf. rewrite Ho in Hf. seq_case; [contradiction|]. apply B2; auto.
    + intros m f Hf. rewrite Hi in Hf. seq_case; [contradiction|]. apply B3; auto.
  - split.
    + intros e He. exact (E1 e He).
    + intros f r Hf. exact (E2 f r Hf).
Qed.

Lemma inv_ext : forall d d', inv_d d -> dgraph d' = dgraph d -> seq_flows d' = seq_flows d -> inv_d d'.
Proof.
  intros [g1 f1 p1 a1 b1 c1] [g2 f2 p2 a2 b2 c2] H E1 E2. simpl in *. subst.
  destruct H as [Ig In_ If Ib Ie]. constructor; auto.
Qed.

Lemma count_app : forall s l x, count s (l ++ [x]) = count s l + (if String.eqb x s then 1 else 0).
Proof.
  intros. unfold count. rewrite count_occ_app. simpl.
  destruct (string_dec x s); destruct (String.eqb_spec x s); congruence || lia.
Qed.

Lemma count_zero : forall s l, ~ In s l -> count s l = 0.
Proof. intros. unfold count. apply count_occ_not_In. auto. Qed.

Lemma live_in : forall d f r, live d f r -> In (f, r) (seq_flows d).
Proof. intros d f r [pre [post [E _]]]. rewrite E. apply in_or_app. right. left. auto. Qed.

Lemma gwf_nodes_keys : forall ns ns' es, gwf (mkGraph ns es) -> dkeys ns' = dkeys ns -> gwf (mkGraph ns' es).
Proof. intros ns ns' es [H1 H2 H3] E. constructor; simpl in *; rewrite ?E; auto. Qed.

Lemma inv_flow : forall d pid s t name u, inv_d d -> is_node d s -> is_node d t ->
  dget ("id" ++ u) (seq_flows d) = None ->
  exists w, step (OFlow pid s t name u) d =
            (flow_result d pid s t name u (VPoints w), Ok ("id" ++ u)%string) /\
    inv_d (flow_result d pid s t name u (VPoints w)).
Proof.
  intros d pid s t name u [Ig In_ If [B1 [B2 B3]] [E1 E2]] Hs Ht Hf.
  destruct (In_ s Hs) as [_ [_ [_ [[lo Ho] [_ [[sx Hsx] [sy Hsy]]]]]]].
  destruct (In_ t Ht) as [_ [_ [[li Hi] [_ [_ [[tx Htx] [ty Hty]]]]]]].
  exists [(sx, sy); (tx, ty)]. split; [eapply add_flow_eq; eauto|].
  set (w := VPoints [(sx, sy); (tx, ty)]). set (f := ("id" ++ u)%string) in *.
  assert (Hnf : ~ In f (dkeys (seq_flows d))) by (apply dget_None_keys; auto).
  pose proof (fun n k => attr_flow_result d pid s t name u w lo li n k Ho Hi) as HA. fold f in HA.
  assert (HO : forall n, outgoing_of (flow_result d pid s t name u w) n =
            if String.eqb n s then lo ++ [f] else outgoing_of d n).
  { intros n. unfold outgoing_of. rewrite HA. simpl. rewrite andb_true_r, andb_false_r.
    destruct (String.eqb n s); auto. }
  assert (HI : forall n, incoming_of (flow_result d pid s t name u w) n =
            if String.eqb n t then li ++ [f] else incoming_of d n).
  { intros n. unfold incoming_of. rewrite HA. simpl. rewrite andb_true_r, andb_false_r.
    destruct (String.eqb n t); auto. }
  assert (HlO : outgoing_of d s = lo) by (unfold outgoing_of; rewrite Ho; auto).
  assert (HlI : incoming_of d t = li) by (unfold incoming_of; rewrite Hi; auto).
  assert (HN : forall n, is_node (flow_result d pid s t name u w) n <-> is_node d n).
  { intros n. unfold is_node. pose proof (keys_flow_result d pid s t name u w) as K.
    unfold node_keys in K. rewrite K. tauto. }
  assert (HF : forall f', dget f' (seq_flows (flow_result d pid s t name u w)) =
                if String.eqb f' f then Some (mkFlow name s t) else dget f' (seq_flows d)).
  { intros. simpl. apply dget_dset. }
  assert (NO : ~ In f lo). { rewrite <- HlO. intro C. destruct (B2 _ _ C) as [r [C' _]]. congruence. }
  assert (NI : ~ In f li). { rewrite <- HlI. intro C. destruct (B3 _ _ C) as [r [C' _]]. congruence. }
  constructor.
  - simpl. eapply gwf_nodes_keys.
    + apply gwf_upd. instantiate (1 := gnodes (dgraph d)). unfold edge_base.
      destruct (has_edge s t (dgraph d)) eqn:Eh.
      * destruct (dgraph d); exact Ig.
      * apply gwf_add_new_edge; auto. destruct (dgraph d); exact Ig.
    + exact (keys_flow_result d pid s t name u w).
  - intros n Hn. rewrite HN in Hn. destruct (In_ n Hn) as [A1 [A2 [A3 [A4 [A5 [A6 A7]]]]]].
    rewrite !HA. simpl. rewrite !andb_false_r, !andb_true_r.
    split; auto. split; auto. split.
    { destruct (String.eqb n t); eauto. }
    split; [destruct (String.eqb n s); eauto|]. auto.
  - simpl. apply nodup_dset; auto.
  - split; [|split].
    + intros f' r Hr. rewrite HF in Hr. rewrite !HN, HO, HI.
      destruct (String.eqb_spec f' f).
      * inv Hr. simpl. rewrite !eqb_refl', !count_app, !eqb_refl', !count_zero; auto.
      * destruct (B1 f' r Hr) as [S1 [S2 [S3 S4]]]. split; auto. split; auto.
        assert (Hne : String.eqb f f' = false) by (apply eqb_neq'; congruence).
        split; seq_case; subst; auto; rewrite count_app, Hne; rewrite Nat.add_0_r; congruence.
    + intros n f' Hin. rewrite HO in Hin. rewrite HF. destruct (String.eqb_spec n s).
      * subst n. apply in_app_or in Hin. destruct Hin as [Hin|[<-|[]]].
        -- rewrite eqb_neq' by (intro; subst; auto). rewrite <- HlO in Hin. apply B2; auto.
        -- rewrite eqb_refl'. eauto.
      * destruct (B2 _ _ Hin) as [r [Hr Hsr]].
        rewrite eqb_neq' by (intro; subst; congruence). eauto.
    + intros n f' Hin. rewrite HI in Hin. rewrite HF. destruct (String.eqb_spec n t).
      * subst n. apply in_app_or in Hin. destruct Hin as [Hin|[<-|[]]].
        -- rewrite eqb_neq' by (intro; subst; auto). rewrite <- HlI in Hin. apply B3; auto.
        -- rewrite eqb_refl'. eauto.
      * destruct (B3 _ _ Hin) as [r [Hr Hsr]].
        rewrite eqb_neq' by (intro; subst; congruence). eauto.
  - assert (HS : seq_flows (flow_result d pid s t name u w) = seq_flows d ++ [(f, mkFlow name s t)]).
    { simpl. fold f. apply dset_new; auto. }
    assert (Lnew : live (flow_result d pid s t name u w) f (mkFlow name s t)).
    { exists (seq_flows d), []. rewrite HS. split; auto. }
    split.
    + intros e Hin. simpl in Hin. fold f in Hin. unfold upd_edges in Hin. apply in_map_iff in Hin.
      destruct Hin as [e0 [Ee Hin]]. destruct (connects s t e0) eqn:Ec.
      * subst e. exists f, (mkFlow name s t), pid, [(sx, sy); (tx, ty)]. simpl eat. unfold w.
        rewrite !flow_attrs_get. simpl. apply same_pair_connects in Ec. intuition.
      * subst e0. assert (Hin' : In e (gedges (dgraph d))).
        { unfold edge_base in Hin. destruct (has_edge s t (dgraph d)); auto.
          apply in_app_or in Hin. destruct Hin as [Hin|[<-|[]]]; auto.
          rewrite (proj2 (connects_true s t _)) in Ec; [discriminate|auto]. }
        destruct (E1 e Hin') as [f' [r [p [w' [L [Sp Rest]]]]]].
        exists f', r, p, w'. split; [|split; auto].
        destruct L as [pre [post [EL HL]]]. exists pre, (post ++ [(f, mkFlow name s t)]).
        rewrite HS, EL, <- app_assoc. split; auto.
        intros f2 r2 Hin2 Hp2. apply in_app_or in Hin2. destruct Hin2 as [Hin2|[Hin2|[]]].
        -- eapply HL; eauto.
        -- inv Hin2. simpl in Hp2.
           assert (connects s t e = true).
           { apply same_pair_connects. eapply same_pair_trans; [exact Sp|apply same_pair_sym; exact Hp2]. }
           congruence.
    + intros f' r Hr. rewrite HF in Hr. destruct (String.eqb_spec f' f).
      * inv Hr. simpl. apply linked_flow.
      * destruct (same_pair_dec (fl_src r) (fl_tgt r) s t) as [Hp|Hp].
        -- destruct (linked_flow d pid s t name u w) as [e [He Hep]]. exists e. split; auto.
           eapply same_pair_trans; [exact Hep|apply same_pair_sym; exact Hp].
        -- apply (link_flow_other d pid s t name u w _ _ Hp). eauto.
Qed.

Lemma inv_step : forall d o, inv_d d -> admissible d o -> inv_d (fst (step o d)).
Proof.
  intros d o Hi Ha.
  assert (N : forall id, node_id_of o = Some id -> ~ is_node d id -> inv_d (fst (step o d))).
  { intros id Hid Hn. destruct (expected_node o) as [[id' ex]|] eqn:Ex.
    - destruct (expected_node_sound o id' ex d Ex) as [a [Es Hk]].
      assert (id' = id).
      { destruct o; unfold expected_node in Ex; simpl in Hid; try discriminate;
          try (destruct (in_dec string_dec dir directions); [|discriminate]); congruence. }
      subst id'. rewrite Es. simpl fst.
      assert (HH : dget "id" a = Some (VStr id) /\ (exists ty, dget "type" a = Some (VStr ty)) /\
        dget "incoming" a = Some (VList []) /\ dget "outgoing" a = Some (VList []) /\
        (exists p, dget "process" a = Some (VStr p)) /\
        (exists x, dget "x" a = Some (VStr x)) /\ (exists y, dget "y" a = Some (VStr y))).
      { rewrite !Hk. destruct o; unfold expected_node in Ex; simpl in Hid; try discriminate;
          try (destruct (in_dec string_dec dir directions); [|discriminate]); inv Ex; simpl; eauto 12. }
      destruct HH as [A1 [A2 [A3 [A4 [A5 [A6 A7]]]]]]. apply inv_put_new; auto.
    - destruct (direction_of o) as [dir|] eqn:Ed.
      + assert (Hnd : ~ In dir directions).
        { intro C. destruct o; simpl in Ed; try discriminate; inv Ed; unfold expected_node in Ex;
            (destruct (in_dec string_dec dir directions); [discriminate|contradiction]). }
        destruct (bad_direction o d dir id Ed Hid Hnd) as [a [msg [Es [_ [A1 [A2 [A3 [A4 [A5 [A6 A7]]]]]]]]]].
        rewrite Es. simpl. apply inv_put_new; eauto.
      + destruct o; simpl in *; try discriminate. }
  destruct o; simpl in Ha; try (eapply N; [reflexivity|exact Ha]).
  - simpl. eapply inv_ext; [apply inv_empty|reflexivity|reflexivity].
  - simpl. eapply inv_ext; [exact Hi|reflexivity|reflexivity].
  - destruct Ha as [Hs [Ht Hf]]. destruct (inv_flow d pid src tgt name u Hi Hs Ht Hf) as [w [E I]].
    rewrite E. exact I.
Qed.

Lemma inv_history : forall l d, history l d -> inv_d d.
Proof.
  induction 1 as [|l d o H IH Ha]; [apply inv_empty|]. apply inv_step; auto.
Qed.

(** ** C04: retrieval by id *)
Lemma list_two_splits : forall A (l1 l2 m1 m2 : list A) x y,
  l1 ++ x :: l2 = m1 ++ y :: m2 ->
  (In y l2) \/ (l1 = m1 /\ x = y /\ l2 = m2) \/ (In x m2).
Proof.
  induction l1 as [|a l1 IH]; intros l2 m1 m2 x y E; simpl in E.
  - destruct m1 as [|b m1]; simpl in E; inv E; auto.
    left. apply in_or_app. right. left. auto.
  - destruct m1 as [|b m1]; simpl in E; inv E.
    + right. right. apply in_or_app. right. left. auto.
    + destruct (IH _ _ _ _ _ H1) as [H|[[-> [-> ->]]|H]]; auto.
Qed.

Lemma live_unique : forall d f1 r1 f2 r2, live d f1 r1 -> live d f2 r2 ->
  same_pair (fl_src r1) (fl_tgt r1) (fl_src r2) (fl_tgt r2) -> f1 = f2 /\ r1 = r2.
Proof.
  intros d f1 r1 f2 r2 [p1 [q1 [E1 H1]]] [p2 [q2 [E2 H2]]] Hp.
  rewrite E1 in E2. destruct (list_two_splits _ _ _ _ _ _ _ E2) as [H|[[_ [H _]]|H]].
  - exfalso. eapply H1; eauto. apply same_pair_sym; auto.
  - inv H. auto.
  - exfalso. eapply H2; eauto.
Qed.

Definition id_is (f : string) (t : string * string * attrs) : bool :=
  match dget "id" (snd t) with Some v => veqs v f | None => false end.

Lemma first_flow_find : forall f (l : list (string * string * attrs)), (forall t : string * string * attrs, In t l -> exists v, dget "id" (snd t) = Some v) ->
  first_flow f l = Ok (find (id_is f) l).
Proof.
  induction l as [|t l IH]; intros H; auto. simpl.
  destruct (H t (or_introl eq_refl)) as [v Hv].
  assert (E1 : dgetE k_id (snd t) = Ok v) by (unfold dgetE; change k_id with "id"; rewrite Hv; auto).
  assert (E2 : id_is f t = veqs v f) by (unfold id_is; rewrite Hv; auto).
  rewrite E1, E2. simpl. destruct (veqs v f); auto. apply IH.
  intros. apply H. simpl; auto.
Qed.

Lemma view_flow : forall d (t : string * string * attrs), inv_d d -> In t (get_flows d) -> exists f r p w,
  live d f r /\ same_pair (fst (fst t)) (snd (fst t)) (fl_src r) (fl_tgt r) /\
  dget "id" (snd t) = Some (VStr f) /\ dget "name" (snd t) = Some (VStr (fl_name r)) /\
  dget "sourceRef" (snd t) = Some (VStr (fl_src r)) /\
  dget "targetRef" (snd t) = Some (VStr (fl_tgt r)) /\
  dget "process" (snd t) = Some (VStr p) /\ dget "waypoints" (snd t) = Some (VPoints w).
Proof.
  intros d t [Ig In_ If Ib [E1 E2]] Hin.
  destruct (view_in_edge _ _ Ig Hin) as [e [He [Ha Hr]]].
  destruct (E1 e He) as [f [r [p [w [L [Sp Rest]]]]]]. exists f, r, p, w. split; auto.
  rewrite Ha. split; auto. destruct Hr as [[-> ->]|[-> ->]]; auto.
  unfold same_pair in *. tauto.
Qed.

Lemma flow_by_id_find : forall d f, inv_d d -> get_flow_by_id f d = Ok (find (id_is f) (get_flows d)).
Proof.
  intros d f I. apply first_flow_find. intros t Ht.
  destruct (view_flow d t I Ht) as [f' [r [p [w [_ [_ [H _]]]]]]]. eauto.
Qed.

Lemma flow_by_id_live : forall d f r, inv_d d -> live d f r ->
  exists a b at_, get_flow_by_id f d = Ok (Some (a, b, at_)) /\
    same_pair a b (fl_src r) (fl_tgt r) /\ dget "id" at_ = Some (VStr f) /\
    dget "name" at_ = Some (VStr (fl_name r)) /\
    dget "sourceRef" at_ = Some (VStr (fl_src r)) /\ dget "targetRef" at_ = Some (VStr (fl_tgt r)).
Proof.
  intros d f r I L. rewrite (flow_by_id_find d f I).
  pose proof I as [Ig In_ If Ib [E1 E2]].
  assert (Hf : dget f (seq_flows d) = Some r) by (apply In_dget; auto; apply live_in; auto).
  destruct (E2 f r Hf) as [e [He Hp]].
  destruct (edge_in_view _ _ Ig He) as [t [Ht [Ha Hr]]].
  destruct (E1 e He) as [f' [r' [p [w [L' [Sp [Hid _]]]]]]].
  destruct (live_unique d f' r' f r L' L) as [-> ->].
  { eapply same_pair_trans; [apply same_pair_sym; exact Sp | exact Hp]. }
  destruct (find (id_is f) (get_flows d)) as [[[a b] at_]|] eqn:Ef.
  - apply find_some in Ef. destruct Ef as [Hin Hf'].
    destruct (view_flow d _ I Hin) as [f2 [r2 [p2 [w2 [L2 [Sp2 [Hid2 [Hn [Hs [Htg _]]]]]]]]]].
    unfold id_is in Hf'. rewrite Hid2 in Hf'. simpl in Hf'. apply String.eqb_eq in Hf'. subst f2.
    assert (r2 = r).
    { apply live_in in L2. apply (In_dget _ _ _ If) in L2. congruence. }
    subst r2. simpl in *. exists a, b, at_. auto 12.
  - exfalso. pose proof (find_none _ _ Ef t Ht) as C. unfold id_is in C. rewrite Ha, Hid in C.
    simpl in C. rewrite eqb_refl' in C. discriminate.
Qed.

Lemma flow_by_id_none : forall d f, inv_d d -> (forall r, ~ live d f r) ->
  get_flow_by_id f d = Ok None.
Proof.
  intros d f I Hn. rewrite (flow_by_id_find d f I).
  destruct (find (id_is f) (get_flows d)) as [t|] eqn:Ef; auto.
  apply find_some in Ef. destruct Ef as [Hin Hf'].
  destruct (view_flow d _ I Hin) as [f2 [r2 [p2 [w2 [L2 [Sp2 [Hid2 _]]]]]]].
  unfold id_is in Hf'. rewrite Hid2 in Hf'. simpl in Hf'. apply String.eqb_eq in Hf'. subst f2.
  exfalso. eapply Hn; eauto.
Qed.

Lemma distinct_live : forall d f r, NoDup (dkeys (seq_flows d)) -> distinct_pairs d ->
  dget f (seq_flows d) = Some r -> live d f r.
Proof.
  intros d f r Hn Hd Hf. pose proof (dget_In _ _ _ Hf) as Hin. apply in_split in Hin.
  destruct Hin as [pre [post E]]. exists pre, post. split; auto.
  intros f' r' Hin' Hp.
  assert (Hf' : dget f' (seq_flows d) = Some r').
  { apply In_dget; auto. rewrite E. apply in_or_app. right. right. auto. }
  pose proof (Hd f' r' f r Hf' Hf Hp). subst f'.
  rewrite E in Hn. unfold dkeys in Hn. rewrite map_app in Hn. simpl in Hn.
  apply NoDup_remove_2 in Hn. apply Hn. apply in_or_app. right.
  apply (in_map fst) in Hin'. exact Hin'.
Qed.

(** ** C05, C06 *)
Lemma nodes_attr : forall d n a k, unique_ids d -> In (n, a) (gnodes (dgraph d)) -> attr d n k = dget k a.
Proof.
  intros d n a k Hu Hin. unfold attr, node_of. rewrite (In_dget n a); auto.
Qed.

Lemma rfilter_In : forall A (f : A -> res bool) l r, rfilter f l = Ok r ->
  exists p, r = filter p l /\ forall a, In a l -> f a = Ok (p a).
Proof.
  intros A f l r H. exists (fun a => match f a with Ok b => b | Err _ => false end).
  assert (F : forall a, In a l -> f a = Ok (match f a with Ok b => b | Err _ => false end)).
  { intros a Ha. destruct (rfilter_ok_inv _ _ _ _ H a Ha) as [b Hb]. rewrite Hb. reflexivity. }
  split; auto. rewrite (rfilter_total _ _ _ _ F) in H. congruence.
Qed.

Lemma attr_filter_spec : forall d k v r, unique_ids d ->
  rfilter (attr_is k (Some v)) (nodes_view (dgraph d)) = Ok r ->
  (forall n a, In (n, a) r <-> node_of d n = Some a /\ attr d n k = Some (VStr v)) /\
  (exists p, r = filter p (gnodes (dgraph d))).
Proof.
  intros d k v r Hu H. apply rfilter_In in H. destruct H as [p [-> Hp]].
  split; [|eauto]. intros n a. rewrite filter_In. unfold nodes_view in *. split.
  - intros [Hin Hpa]. split; [apply In_dget; auto|].
    rewrite (nodes_attr d n a k Hu Hin). specialize (Hp _ Hin). unfold attr_is in Hp. simpl in Hp.
    unfold dgetE in Hp. destruct (dget k a) as [x|]; simpl in Hp; [|discriminate].
    rewrite Hpa in Hp. inversion Hp as [E]. destruct x; simpl in E; try discriminate.
    apply String.eqb_eq in E. congruence.
  - intros [Hn Ha]. apply dget_In in Hn. split; auto.
    rewrite (nodes_attr d n a k Hu Hn) in Ha. specialize (Hp _ Hn). unfold attr_is in Hp. simpl in Hp.
    unfold dgetE in Hp. rewrite Ha in Hp. simpl in Hp. rewrite eqb_refl' in Hp. congruence.
Qed.

Lemma attr_filter_total : forall d k v, unique_ids d ->
  (forall n, is_node d n -> exists x, attr d n k = Some x) ->
  exists r, rfilter (attr_is k v) (nodes_view (dgraph d)) = Ok r.
Proof.
  intros d k v Hu H. unfold nodes_view.
  eexists. apply rfilter_total with (p := fun n => match attr_is k v n with Ok b => b | Err _ => false end).
  intros [n a] Hin. unfold attr_is. simpl.
  destruct (H n) as [x Hx]. { apply (in_map fst) in Hin. exact Hin. }
  rewrite (nodes_attr d n a k Hu Hin) in Hx. unfold dgetE. rewrite Hx. reflexivity.
Qed.

Lemma attr_filter_err : forall d k v n, unique_ids d -> is_node d n -> attr d n k = None ->
  rfilter (attr_is k v) (nodes_view (dgraph d)) = Err (KeyError k).
Proof.
  intros d k v n Hu Hn Ha. unfold nodes_view.
  assert (G : forall l, (exists n a, In (n, a) l /\ dget k a = None) ->
              rfilter (attr_is k v) l = Err (KeyError k)).
  { induction l as [|[m b] t IH]; intros [n0 [a0 [Hin Hd]]]; [contradiction|]. simpl.
    unfold attr_is at 1. simpl. unfold dgetE.
    destruct (dget k b) as [x|] eqn:Eb; simpl; [|reflexivity].
    rewrite IH; auto. destruct Hin as [E|Hin]; [inv E; congruence|eauto]. }
  apply G. apply in_map_iff in Hn. destruct Hn as [[n' a] [E Hin]]. simpl in E. subst n'.
  exists n, a. split; auto. rewrite <- (nodes_attr d n a k Hu Hin). auto.
Qed.

Lemma NoDup_filter_keys : forall V (p : string * V -> bool) (l : dict V),
  NoDup (map fst l) -> NoDup (map fst (filter p l)).
Proof.
  induction l as [|a t IH]; simpl; intros H; auto. inv H.
  destruct (p a); simpl; auto. constructor; auto.
  intro C. apply H2. apply in_map_iff in C. destruct C as [x [E Hx]]. apply filter_In in Hx.
  apply in_map_iff. exists x. tauto.
Qed.

Lemma c05_get_nodes : forall d t r, unique_ids d -> t <> "" -> get_nodes (Some t) d = Ok r ->
  (forall n a, In (n, a) r <-> node_of d n = Some a /\ attr d n "type" = Some (VStr t)) /\
  NoDup (map fst r) /\ (exists p, r = filter p (gnodes (dgraph d))).
Proof.
  intros d t r Hu Ht H.
  assert (E : get_nodes (Some t) d = rfilter (attr_is k_type (Some t)) (nodes_view (dgraph d))).
  { unfold get_nodes. destruct t; [congruence|reflexivity]. }
  rewrite E in H. destruct (attr_filter_spec _ _ _ _ Hu H) as [H1 [p H2]].
  split; auto. split; eauto. rewrite H2. apply NoDup_filter_keys. exact Hu.
Qed.

Lemma c05_total : forall d t, unique_ids d -> typed d -> exists r, get_nodes t d = Ok r.
Proof.
  intros d t Hu Hty.
  assert (exists r, rfilter (attr_is k_type t) (nodes_view (dgraph d)) = Ok r).
  { apply attr_filter_total; auto. intros n Hn. destruct (Hty n Hn) as [ty H]. eauto. }
  unfold get_nodes. destruct t as [[|]|]; eauto.
Qed.

Lemma get_node_by_id_spec : forall d n,
  get_node_by_id n d = match node_of d n with Some a => Some (n, a) | None => None end.
Proof.
  intros. unfold get_node_by_id, node_of, nodes_view.
  induction (gnodes (dgraph d)) as [|[m a] t IH]; auto. simpl.
  rewrite (String.eqb_sym m n). destruct (String.eqb_spec n m); subst; auto.
Qed.

Lemma reports_shows : forall t e, reports t e -> shows t e.
Proof. intros t e [H1 H2]. split; auto. Qed.

Lemma get_flows_shows : forall d, inv_d d ->
  exists l, Permutation l (gedges (dgraph d)) /\ Forall2 shows (get_flows d) l.
Proof.
  intros d I. destruct (edges_view_reports _ (inv_g d I)) as [l [P F]]. exists l. split; auto.
Qed.

(** ** C09: unknown endpoints *)
Definition ghost_graph (s t : string) (g : graph) : graph :=
  mkGraph (gnodes (add_node t (add_node s g)))
          (edge_base s t (add_node t (add_node s g))).

Lemma add_edge_ghost : forall s t g, add_edge s t g =
  mkGraph (gnodes (ghost_graph s t g)) (upd_edges s t (fun a => a) (gedges (ghost_graph s t g))).
Proof.
  intros. rewrite upd_edges_id. unfold add_edge, ghost_graph, edge_base. simpl.
  destruct (has_edge s t (add_node t (add_node s g))); auto.
  destruct (add_node t (add_node s g)); reflexivity.
Qed.

Lemma gnode_add_node : forall n m g, gnode (add_node n g) m =
  if String.eqb m n then Some (node_or_empty n g) else gnode g m.
Proof. intros. rewrite add_node_put, gnode_put. reflexivity. Qed.

Lemma ghost_node : forall s t g n,
  gnode (ghost_graph s t g) n =
  match gnode g n with
  | Some a => Some a
  | None => if String.eqb n s || String.eqb n t then Some [] else None
  end.
Proof.
  intros. unfold ghost_graph, gnode at 1. simpl.
  change (gnode (add_node t (add_node s g)) n = match gnode g n with
     | Some a => Some a | None => if String.eqb n s || String.eqb n t then Some [] else None end).
  rewrite gnode_add_node. unfold node_or_empty. rewrite !gnode_add_node. unfold node_or_empty.
  destruct (String.eqb_spec n t); destruct (String.eqb_spec n s); subst; simpl;
    rewrite ?eqb_refl'; try (destruct (gnode g _); reflexivity).
  rewrite eqb_neq' by auto. destruct (gnode g t); reflexivity.
Qed.

Definition flow_attrs5 (fid name pid s t : string) (a : attrs) : attrs :=
  dset k_target_ref (VStr t) (dset k_source_ref (VStr s)
    (dset k_process (VStr pid) (dset k_name (VStr name) (dset k_id (VStr fid) a)))).

(** A missing end: the call raises KeyError "x" after the flow was recorded, the
    missing nodes and the edge were created. *)
Definition ghost_result (d : diagram) (pid s t name u : string) : diagram :=
  mkDiagram (mkGraph (gnodes (ghost_graph s t (dgraph d)))
               (upd_edges s t (flow_attrs5 ("id" ++ u) name pid s t) (gedges (ghost_graph s t (dgraph d)))))
    (dset ("id" ++ u)%string (mkFlow name s t) (seq_flows d))
    (procs d) (diag_attrs d) (plane_attrs d) (collaboration d).

Lemma flow_missing_end : forall d pid s t name u, ~ is_node d s \/ ~ is_node d t ->
  exists e, step (OFlow pid s t name u) d = (ghost_result d pid s t name u, Err e) /\
   (node_wf d -> e = KeyError "x").
Proof.
  intros d pid s t name u Hm.
  unfold step, add_sequence_flow_to_diagram. unfold mbind at 1. simpl.
  set (d1 := with_flows d (dset (fresh_id u) (mkFlow name s t) (seq_flows d))).
  set (g := ghost_graph s t (dgraph d)).
  assert (E1 : ggraph (fun g => Ok (add_edge s t g)) d1 =
     (with_graph d1 (mkGraph (gnodes g) (upd_edges s t (fun a => a) (gedges g))), Ok tt)).
  { unfold ggraph, mtry. simpl. rewrite add_edge_ghost. reflexivity. }
  rewrite (mbind_eq _ _ _ _ _ _ _ _ E1). clear E1.
  assert (HB : has_edge s t (mkGraph (gnodes g) (gedges g)) = true) by apply has_edge_base.
  do 5 rewrite (mbind_eq _ _ _ _ _ _ _ _ (edge_set_upd _ _ _ _ _ _ _ _ HB)).
  set (d2 := with_graph d1 _).
  assert (D2 : d2 = ghost_result d pid s t name u) by reflexivity. rewrite <- D2.
  assert (G : forall n k, gread (get_node_attr n k) d2 =
     (d2, match gnode g n with Some a => dgetE k a | None => Err (KeyError n) end)) by reflexivity.
  assert (N : forall n, ~ is_node d n -> (n = s \/ n = t) -> gnode g n = Some []).
  { intros n Hn Hst. unfold g. rewrite ghost_node. unfold gnode.
    rewrite (proj2 (dget_None_keys n (gnodes (dgraph d)))) by exact Hn.
    destruct Hst as [->| ->]; rewrite eqb_refl', ?orb_true_r; reflexivity. }
  destruct (gnode g s) as [a|] eqn:Es.
  2:{ exfalso. unfold g in Es. rewrite ghost_node in Es. rewrite eqb_refl' in Es.
      destruct (gnode (dgraph d) s); discriminate. }
  unfold mbind at 1. rewrite G, Es. unfold dgetE at 1.
  destruct (dget k_x a) as [vx|] eqn:Ex; [|eexists; split; [reflexivity|auto]].
  assert (Hs : is_node d s).
  { destruct (in_dec string_dec s (node_keys d)) as [H|H]; auto. rewrite (N s H) in Es by auto.
    inv Es. discriminate. }
  destruct Hm as [Hm|Hm]; [contradiction|].
  unfold mbind at 1. rewrite G, Es. unfold dgetE at 1.
  destruct (dget k_y a) as [vy|] eqn:Ey.
  - unfold mbind at 1. rewrite G, (N t Hm) by auto. simpl. eexists; split; [reflexivity|auto].
  - eexists; split; [reflexivity|]. intros Wf. exfalso.
    destruct (Wf s Hs) as [_ [_ [_ [_ [_ [_ [y Hy]]]]]]].
    unfold attr, node_of in Hy. unfold g in Es. rewrite ghost_node in Es.
    unfold gnode in Es. destruct (dget s (gnodes (dgraph d))) as [b|]; [|discriminate].
    inv Es. change k_y with "y" in Ey. congruence.
Qed.

(** ** C12 *)
Lemma positions_fold : forall F (pf : string -> option F) d l out,
  (forall n a, In (n, a) l -> forall k, attr d n k = dget k a) -> NoDup (map fst l) ->
  (forall n, In n (map fst l) -> dget n out = None) ->
  match rfold (fun out n =>
           let* vx := dgetE k_x (snd n) in
           let* fx := to_float pf vx in
           let* vy := dgetE k_y (snd n) in
           let* fy := to_float pf vy in
           Ok (dset (fst n) (fx, fy) out)) l out with
  | Ok r => (forall n, In n (map fst l) -> exists x y, num_attr pf d n "x" = Some x /\
               num_attr pf d n "y" = Some y /\ dget n r = Some (x, y)) /\
            (forall n, ~ In n (map fst l) -> dget n r = dget n out)
  | Err _ => exists n, In n (map fst l) /\ (num_attr pf d n "x" = None \/ num_attr pf d n "y" = None)
  end.
Proof.
  induction l as [|[n a] t IH]; intros out Ha Hn Ho; simpl.
  - split; [intros n []|auto].
  - inv Hn. unfold dgetE. unfold num_attr.
    pose proof (Ha n a (or_introl eq_refl)) as Hat.
    destruct (dget k_x a) as [vx|] eqn:Ex; simpl.
    2:{ exists n. split; auto. left. rewrite Hat. change "x" with k_x. rewrite Ex. auto. }
    destruct (to_float pf vx) as [fx|] eqn:Fx; simpl.
    2:{ exists n. split; auto. left. rewrite Hat. change "x" with k_x. rewrite Ex.
        destruct vx; auto. simpl in Fx. destruct (pf s); auto; discriminate. }
    destruct (dget k_y a) as [vy|] eqn:Ey; simpl.
    2:{ exists n. split; auto. right. rewrite Hat. change "y" with k_y. rewrite Ey. auto. }
    destruct (to_float pf vy) as [fy|] eqn:Fy; simpl.
    2:{ exists n. split; auto. right. rewrite Hat. change "y" with k_y. rewrite Ey.
        destruct vy; auto. simpl in Fy. destruct (pf s); auto; discriminate. }
    assert (IH' := IH (dset n (fx, fy) out)). clear IH. unfold dgetE, num_attr in IH'.
    lapply IH'; [clear IH'; intro IH'|intros m b Hm; apply Ha; right; auto].
    lapply IH'; [clear IH'; intro IH'|auto].
    lapply IH'; [clear IH'; intro IH'
                |intros m Hm; rewrite dget_dset_ne by (intro; subst; auto); apply Ho; right; auto].
    match goal with |- match ?R with _ => _ end => destruct R as [r|e] end.
    + destruct IH' as [I1 I2]. split.
      * intros m [<-|Hm]; [|apply I1; auto].
        exists fx, fy. rewrite !Hat. change "x" with k_x. change "y" with k_y. rewrite Ex, Ey.
        rewrite (I2 n) by auto. rewrite dget_dset_eq.
        destruct vx; simpl in Fx; try discriminate. destruct vy; simpl in Fy; try discriminate.
        destruct (pf s); inv Fx. destruct (pf s0); inv Fy. auto.
      * intros m Hm. rewrite I2 by auto. apply dget_dset_ne. intro; subst; auto.
    + destruct IH' as [m [Hm Hx]]. exists m. split; auto.
Qed.

Lemma positions_spec : forall F (pf : string -> option F) d, unique_ids d ->
  match get_nodes_positions pf d with
  | Ok r => (forall n, is_node d n -> exists x y, num_attr pf d n "x" = Some x /\
               num_attr pf d n "y" = Some y /\ dget n r = Some (x, y)) /\
            (forall n, ~ is_node d n -> dget n r = None)
  | Err _ => exists n, is_node d n /\ (num_attr pf d n "x" = None \/ num_attr pf d n "y" = None)
  end.
Proof.
  intros F pf d Hu. unfold get_nodes_positions. simpl.
  pose proof (positions_fold F pf d (nodes_view (dgraph d)) []) as H.
  apply H; auto. intros n a Hin k. apply nodes_attr; auto.
Qed.

Lemma ghost_bookkeeping_broken : forall d pid s t name u, inv_d d ->
  ~ is_node d s \/ ~ is_node d t -> dget ("id" ++ u) (seq_flows d) = None ->
  let d' := ghost_result d pid s t name u in
  is_node d' s /\ is_node d' t /\ linked d' s t /\
  dget ("id" ++ u) (seq_flows d') = Some (mkFlow name s t) /\ ~ bookkeeping d'.
Proof.
  intros d pid s t name u I Hm Hf d'.
  assert (HN : forall n a, gnode (ghost_graph s t (dgraph d)) n = Some a -> is_node d' n).
  { intros n a H. unfold is_node, d', ghost_result. simpl. eapply dget_key_In; exact H. }
  assert (HX : forall n, n = s \/ n = t -> exists a, gnode (ghost_graph s t (dgraph d)) n = Some a).
  { intros n Hn. rewrite ghost_node. destruct (gnode (dgraph d) n); eauto.
    destruct Hn as [-> | ->]; rewrite eqb_refl', ?orb_true_r; simpl; eauto. }
  destruct (HX s (or_introl eq_refl)) as [as_ Hs]. destruct (HX t (or_intror eq_refl)) as [at_ Ht].
  split; [eauto|]. split; [eauto|]. split.
  { pose proof (has_edge_base s t (add_node t (add_node s (dgraph d))) []) as HB.
    apply has_edge_true in HB. destruct HB as [e [Hin Hc]]. simpl in Hin.
    exists (mkEdge (eu e) (ev e) (flow_attrs5 ("id" ++ u) name pid s t (eat e))). split.
    - simpl. unfold upd_edges. apply in_map_iff. exists e. rewrite Hc. auto.
    - simpl. apply same_pair_connects; auto. }
  split. { simpl. apply dget_dset_eq. }
  intros [B1 _]. destruct (B1 ("id" ++ u)%string (mkFlow name s t)) as [_ [_ [C1 _]]].
  { simpl. apply dget_dset_eq. }
  simpl in C1. destruct I as [Ig In_ If [B1' [B2' B3']] Ie].
  assert (HO : outgoing_of d' s = outgoing_of d s).
  { unfold outgoing_of, attr, node_of, d', ghost_result. simpl.
    change (match match gnode (ghost_graph s t (dgraph d)) s with
                  | Some a => dget "outgoing" a | None => None end with
            | Some (VList l) => l | _ => [] end =
            match match dget s (gnodes (dgraph d)) with
                  | Some a => dget "outgoing" a | None => None end with
            | Some (VList l) => l | _ => [] end).
    rewrite ghost_node, eqb_refl'. unfold gnode. destruct (dget s (gnodes (dgraph d))); auto. }
  rewrite HO in C1. rewrite count_zero in C1; [discriminate|].
  intro C. destruct (B2' _ _ C) as [r [Hr _]]. simpl in Hf; congruence.
Qed.

(** ** Checking concrete histories by computation (used by the examples) *)
Definition admissibleb (d : diagram) (o : op) : bool :=
  match o with
  | OFlow _ s t _ u => smem s (node_keys d) && smem t (node_keys d) && negb (dhas ("id" ++ u) (seq_flows d))
  | _ => match node_id_of o with Some i => negb (smem i (node_keys d)) | None => true end
  end.

Fixpoint check (d : diagram) (l : list op) : bool :=
  match l with [] => true | o :: t => admissibleb d o && check (run1 d o) t end.

Lemma admissibleb_ok : forall d o, admissibleb d o = true -> admissible d o.
Proof.
  intros d o H.
  assert (N : forall i, negb (smem i (node_keys d)) = true -> ~ is_node d i).
  { intros i E. apply negb_true_iff in E. apply smem_notIn in E. exact E. }
  destruct o; simpl in *; auto.
  apply andb_true_iff in H. destruct H as [H H3]. apply andb_true_iff in H. destruct H as [H1 H2].
  apply smem_In in H1. apply smem_In in H2. split; auto. split; auto.
  apply negb_true_iff in H3. unfold dhas in H3. destruct (dget _ _); [discriminate|auto].
Qed.

Lemma check_history : forall l l0 d, history l0 d -> check d l = true -> history (l0 ++ l) (run d l).
Proof.
  induction l as [|o t IH]; intros l0 d H Hc.
  - rewrite app_nil_r. exact H.
  - simpl in Hc. apply andb_true_iff in Hc. destruct Hc as [H1 H2].
    change (history (l0 ++ [o] ++ t) (run (run1 d o) t)). rewrite app_assoc. apply IH; auto.
    apply h_snoc; auto. apply admissibleb_ok; auto.
Qed.

Lemma checked_history : forall l, check empty_diagram l = true -> history l (run empty_diagram l).
Proof. intros l H. apply (check_history l [] empty_diagram h_nil H). Qed.
