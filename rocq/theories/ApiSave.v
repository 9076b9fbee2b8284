(** Diagrams built with the API have everything the XML exporter needs. *)
From Coq Require Import String List Bool Arith Lia Permutation.
From Verif Require Import Py PyFacts Consts Nx NxFacts Rep SpecRep RepFacts Xml Export Import SpecXml SpecRound SpecWrite.
Import ListNotations.
Open Scope string_scope.
Open Scope list_scope.

(** * Specification *)
(** The process id a call is given. *)
Definition process_of (o : op) : option string :=
  match o with
  | OTask p _ _ _ | OSubprocess p _ _ _ _ _ | OStart p _ _ _ _ _ _ _ | OEnd p _ _ _ _ _ | OExclusive p _ _ _ _ _
  | OInclusive p _ _ _ _ _ | OParallel p _ _ _ _ | OFlow p _ _ _ _ => Some p
  | _ => None
  end.
(** A proper call: admissible, the process id is that of a process or subprocess there is, the gateway
    direction is a valid one, and processes and nodes have different ids. *)
Definition proper (d : diagram) (o : op) : Prop :=
  admissible d o /\
  (forall p, process_of o = Some p -> is_scope d p) /\
  (forall dir, direction_of o = Some dir -> In dir directions) /\
  (forall i, node_id_of o = Some i -> ~ In i (map fst (procs d))) /\
  match o with OProcess _ _ _ _ _ u => ~ is_node d ("id" ++ u) | _ => True end.
Inductive proper_history : list op -> diagram -> Prop :=
| ph_nil : proper_history [] empty_diagram
| ph_snoc : forall l d o, proper_history l d -> proper d o -> proper_history (l ++ [o]) (fst (step o d)).

(** * The invariant *)
Lemma proper_is_history : forall l d, proper_history l d -> history l d.
Proof. induction 1 as [|l d o H IH P]; [constructor|]. constructor; [exact IH|apply P]. Qed.

Record built (d : diagram) : Prop := {
  bu_inv : inv_d d;
  bu_nodes : forall n, is_node d n -> exists o ex, expected_node o = Some (n, ex) /\ forall k, k <> "incoming" -> k <> "outgoing" -> attr d n k = dget k ex;
  bu_placed : forall n p, attr d n "process" = Some (VStr p) -> placed d p;
  bu_flows : forall e p, In e (gedges (dgraph d)) -> dget "process" (eat e) = Some (VStr p) -> placed d p;
  bu_links : forall e k x, In e (gedges (dgraph d)) -> dget k (eat e) = Some x -> In k ["id"; "name"; "process"; "sourceRef"; "targetRef"; "waypoints"];
  bu_ids : forall f, In f (map fst (seq_flows d)) -> f <> "";
  bu_procs : forall p a, In (p, a) (procs d) -> exists name c e t, a = [("name", VStr name); ("isClosed", tf c); ("isExecutable", tf e); ("processType", VStr t)];
  bu_procs_nodup : NoDup (map fst (procs d));
  bu_apart : forall p, In p (map fst (procs d)) -> ~ is_node d p;
  bu_collab : collaboration d = None;
  bu_plane : procs d <> [] -> text (plane_attrs d) "id" /\ text (plane_attrs d) "bpmnElement" }.

Lemma placed_grow : forall d d' p, (forall q, In q (map fst (procs d)) -> In q (map fst (procs d'))) ->
  (forall n k, is_node d n -> k = "type" \/ k = "process" -> attr d' n k = attr d n k) -> placed d p -> placed d' p.
Proof.
  intros d d' p P A. induction 1 as [p H|n p T Q PL IH]; [apply placed_process; auto|].
  apply placed_sub with p; [| |exact IH]; rewrite A; auto; eapply is_node_attr; eauto.
Qed.
Lemma scope_placed : forall d p, built d -> is_scope d p -> placed d p.
Proof.
  intros d p B [H|H]; [apply placed_process; exact H|]. pose proof (is_node_attr _ _ _ _ H) as N.
  destruct (inv_n d (bu_inv d B) p N) as (_ & _ & _ & _ & [q Q] & _). apply placed_sub with q; [exact H|exact Q|]. apply (bu_placed d B p q Q).
Qed.
Lemma expected_process : forall o n ex, expected_node o = Some (n, ex) ->
  node_id_of o = Some n /\ exists p, process_of o = Some p /\ dget "process" ex = Some (VStr p).
Proof.
  intros o n ex H. destruct o; unfold expected_node in H; try discriminate; try (destruct (in_dec string_dec dir directions); [|discriminate]);
    injection H as <- <-; (split; [reflexivity|]); eexists; (split; reflexivity).
Qed.
Lemma expected_accepted : forall o n, node_id_of o = Some n -> (forall dir, direction_of o = Some dir -> In dir directions) ->
  exists ex, expected_node o = Some (n, ex).
Proof.
  intros o n H D. destruct o; try discriminate; injection H as <-; unfold expected_node; try (eexists; reflexivity);
    (destruct (in_dec string_dec dir directions) as [|C]; [eexists; reflexivity|elim C; apply D; reflexivity]).
Qed.
Lemma built_node : forall d o n, built d -> proper d o -> node_id_of o = Some n -> built (fst (step o d)).
Proof.
  intros d o n B (A & S & D & I & _) N. destruct (expected_accepted o n N D) as [ex E].
  pose proof (inv_step d o (bu_inv d B) A) as IV.
  destruct (expected_node_sound o n ex d E) as (a & St & G). rewrite St in *. cbn [fst] in *.
  assert (F : ~ is_node d n) by (destruct o; simpl in N; try discriminate; injection N as <-; exact A).
  assert (F0 : forall k, attr d n k = None).
  { intros k. destruct (attr d n k) eqn:X; [|reflexivity]. elim F. eapply is_node_attr; eauto. }
  destruct (expected_process o n ex E) as (_ & p & Po & Pe).
  assert (AT : forall m k, m <> n -> attr (put d n a) m k = attr d m k).
  { intros m k Hm. rewrite attr_put. destruct (String.eqb_spec m n); [contradiction|reflexivity]. }
  assert (PG : forall q, placed d q -> placed (put d n a) q).
  { intros q. apply placed_grow; [auto|]. intros m k M _. apply AT. intros ->. contradiction. }
  constructor.
  - exact IV.
  - intros m M. apply is_node_put in M. destruct (string_dec m n) as [-> |Hm].
    + exists o, ex. split; [exact E|]. intros k K1 K2. rewrite attr_put, eqb_refl', G, F0. destruct (dget k ex); reflexivity.
    + destruct M as [M|M]; [contradiction|]. destruct (bu_nodes d B m M) as (o' & ex' & E' & K). exists o', ex'. split; [exact E'|].
      intros k K1 K2. rewrite AT by assumption. auto.
  - intros m q H. destruct (string_dec m n) as [-> |Hm].
    + rewrite attr_put, eqb_refl', G, Pe in H. injection H as <-. apply PG. apply scope_placed; auto.
    + rewrite AT in H by assumption. apply PG. apply (bu_placed d B m q H).
  - intros e q He H. apply PG. apply (bu_flows d B e q He H).
  - exact (bu_links d B).
  - exact (bu_ids d B).
  - exact (bu_procs d B).
  - exact (bu_procs_nodup d B).
  - intros q Q M. apply is_node_put in M. destruct M as [-> |M]; [exact (I n N Q)|exact (bu_apart d B q Q M)].
  - exact (bu_collab d B).
  - exact (bu_plane d B).
Qed.
Lemma built_flow : forall d p s t name u, built d -> proper d (OFlow p s t name u) -> built (fst (step (OFlow p s t name u) d)).
Proof.
  intros d p s t name u B ((Hs & Ht & Hf) & S & _).
  destruct (inv_flow d p s t name u (bu_inv d B) Hs Ht Hf) as (w & St & IV). rewrite St. cbn [fst].
  destruct (inv_n d (bu_inv d B) s Hs) as (_ & _ & _ & [lo Ho] & _). destruct (inv_n d (bu_inv d B) t Ht) as (_ & _ & [li Hi] & _).
  pose proof (fun n k => attr_flow_result d p s t name u (VPoints w) lo li n k Ho Hi) as HA.
  assert (AT : forall n k, k <> "incoming" -> k <> "outgoing" -> attr (flow_result d p s t name u (VPoints w)) n k = attr d n k).
  { intros n k K1 K2. rewrite HA. destruct (String.eqb_spec k "outgoing"); [contradiction|]. destruct (String.eqb_spec k "incoming"); [contradiction|].
    rewrite !andb_false_r. reflexivity. }
  assert (HN : forall n, is_node (flow_result d p s t name u (VPoints w)) n <-> is_node d n).
  { intros n. unfold is_node. pose proof (keys_flow_result d p s t name u (VPoints w)) as K. unfold node_keys in K. rewrite K. tauto. }
  assert (PG : forall q, placed d q -> placed (flow_result d p s t name u (VPoints w)) q).
  { intros q. apply placed_grow; [auto|]. intros m k M K. apply AT; intros ->; destruct K; discriminate. }
  assert (ED : forall e, In e (gedges (dgraph (flow_result d p s t name u (VPoints w)))) ->
    In e (gedges (dgraph d)) \/ exists b, eat e = flow_attrs ("id" ++ u) name p s t (VPoints w) b /\ (b = [] \/ exists e0, In e0 (gedges (dgraph d)) /\ b = eat e0)).
  { intros e He. simpl in He. unfold upd_edges in He. apply in_map_iff in He. destruct He as [e0 [Ee He]].
    assert (X : In e0 (gedges (dgraph d)) \/ e0 = mkEdge s t []).
    { unfold edge_base in He. destruct (has_edge s t (dgraph d)); [auto|]. apply in_app_or in He. destruct He as [He|[<-|[]]]; auto. }
    destruct (connects s t e0) eqn:C.
    - right. subst e. exists (eat e0). split; [reflexivity|]. destruct X as [X| ->]; [right; eauto|left; reflexivity].
    - subst e0. destruct X as [X| ->]; [left; exact X|]. rewrite (proj2 (connects_true s t _)) in C; [discriminate|auto]. }
  constructor.
  - exact IV.
  - intros n M. apply HN in M. destruct (bu_nodes d B n M) as (o & ex & E & K). exists o, ex. split; [exact E|]. intros k K1 K2. rewrite AT by assumption. auto.
  - intros n q H. rewrite AT in H by discriminate. apply PG, (bu_placed d B n q H).
  - intros e q He H. destruct (ED e He) as [X|(b & X & _)]; [apply PG, (bu_flows d B e q X H)|].
    rewrite X, flow_attrs_get in H. simpl in H. injection H as <-. apply PG, scope_placed; auto.
  - intros e k x He H. destruct (ED e He) as [X|(b & X & Y)]; [exact (bu_links d B e k x X H)|].
    rewrite X, flow_attrs_get in H. destruct (dget k (expected_link ("id" ++ u) name p s t w)) eqn:G.
    + apply dget_In in G. simpl in G. simpl. intuition congruence.
    + destruct Y as [-> |(e0 & E0 & ->)]; [discriminate|]. exact (bu_links d B e0 k x E0 H).
  - intros f H. simpl in H. apply in_dkeys_dset in H. destruct H as [-> |H]; [discriminate|exact (bu_ids d B f H)].
  - exact (bu_procs d B).
  - exact (bu_procs_nodup d B).
  - intros q Q M. apply HN in M. exact (bu_apart d B q Q M).
  - exact (bu_collab d B).
  - exact (bu_plane d B).
Qed.
Lemma built_empty : forall a, built (with_diag empty_diagram a).
Proof.
  intros a. constructor; try (simpl; contradiction).
  - eapply inv_ext; [apply inv_empty|reflexivity|reflexivity].
  - intros n p H. discriminate.
  - constructor.
  - reflexivity.
Qed.
Lemma built_process : forall d n c e t u1 u2, built d -> ~ is_node d ("id" ++ u2) -> built (fst (step (OProcess n c e t u1 u2) d)).
Proof.
  intros d n c e t u1 u2 B N. cbn [step add_process_to_diagram]. unfold mbind, mmodify, mret. cbn [fst].
  match goal with |- built ?x => set (d' := x) end.
  assert (PK : forall q, In q (map fst (procs d')) <-> q = ("id" ++ u2)%string \/ In q (map fst (procs d))).
  { intros q. unfold d'. cbn [procs with_plane with_procs]. apply in_dkeys_dset. }
  assert (PG : forall q, placed d q -> placed d' q).
  { intros q. apply placed_grow; [|intros; reflexivity]. intros q' H. apply PK. auto. }
  constructor.
  - eapply inv_ext; [exact (bu_inv d B)|reflexivity|reflexivity].
  - exact (bu_nodes d B).
  - intros m p H. apply PG, (bu_placed d B m p H).
  - intros x p Hx H. apply PG, (bu_flows d B x p Hx H).
  - exact (bu_links d B).
  - exact (bu_ids d B).
  - intros p a H. unfold d' in H. cbn [procs with_plane with_procs] in H.
    assert (X : dget p (dset (fresh_id u2) [(k_name, VStr n); (k_is_closed, VStr (bool_str c)); (k_is_executable, VStr (bool_str e)); (k_process_type, VStr t)] (procs d)) = Some a).
    { apply In_dget; [apply nodup_dset; exact (bu_procs_nodup d B)|exact H]. }
    rewrite dget_dset in X. destruct (String.eqb p (fresh_id u2)).
    + injection X as <-. exists n, c, e, t. destruct c, e; reflexivity.
    + apply dget_In in X. exact (bu_procs d B p a X).
  - apply nodup_dset. exact (bu_procs_nodup d B).
  - intros q Q M. apply PK in Q. destruct Q as [-> |Q]; [exact (N M)|exact (bu_apart d B q Q M)].
  - exact (bu_collab d B).
  - intros _. unfold d'. unfold text, add_process_to_diagram, mbind, mmodify, mret, with_plane, with_procs. cbn [fst plane_attrs procs]. split; [exists (fresh_id u1)|exists (fresh_id u2)]; rewrite !dget_dset; reflexivity.
Qed.
Lemma built_step : forall d o, built d -> proper d o -> built (fst (step o d)).
Proof.
  intros d o B P. destruct o; try (eapply built_node; [exact B|exact P|reflexivity]).
  - apply (built_empty [(k_id, VStr (fresh_id u)); (k_name, VStr name)]).
  - apply built_process; [exact B|apply P].
  - apply built_flow; assumption.
Qed.
Lemma history_built : forall l d, proper_history l d -> built d.
Proof.
  induction 1 as [|l d o H IH P]; [apply (built_empty [])|]. apply built_step; assumption.
Qed.
(** The diagram has an id and a name once it was created. *)
Lemma diag_step : forall d o, text (diag_attrs d) "id" /\ text (diag_attrs d) "name" -> admissible d o -> inv_d d ->
  text (diag_attrs (fst (step o d))) "id" /\ text (diag_attrs (fst (step o d))) "name".
Proof.
  intros d o T A I.
  assert (N : forall n, node_id_of o = Some n -> diag_attrs (fst (step o d)) = diag_attrs d).
  { intros n Hn. destruct (expected_node o) as [[n' ex]|] eqn:Ex.
    - destruct (expected_node_sound o n' ex d Ex) as (a & St & _). rewrite St. reflexivity.
    - destruct (direction_of o) as [dir|] eqn:Ed.
      + assert (Hnd : ~ In dir directions).
        { intro C. destruct o; simpl in Ed; try discriminate; injection Ed as <-; unfold expected_node in Ex;
            (destruct (in_dec string_dec dir0 directions); [discriminate|contradiction]). }
        destruct (bad_direction o d dir n Ed Hn Hnd) as (a & msg & Es & _). rewrite Es. reflexivity.
      + destruct o; simpl in *; discriminate. }
  destruct o; try (rewrite (N _ eq_refl); exact T).
  - simpl. split; eexists; reflexivity.
  - exact T.
  - destruct A as (Hs & Ht & Hf). destruct (inv_flow d pid src tgt name u I Hs Ht Hf) as (w & St & _). rewrite St. exact T.
Qed.
Lemma diag_named : forall l d, history l d -> (exists name u, In (ONew name u) l) -> text (diag_attrs d) "id" /\ text (diag_attrs d) "name".
Proof.
  induction 1 as [|l d o H IH A]; [intros (? & ? & [])|]. intros (name & u & I). apply in_app_or in I. destruct I as [I|[-> |[]]].
  - apply diag_step; [apply IH; eauto|exact A|apply (inv_history _ _ H)].
  - simpl. split; eexists; reflexivity.
Qed.

(** * Checking concrete histories by computation (used by the examples) *)
Definition scopeb (d : diagram) (p : string) : bool :=
  smem p (map fst (procs d)) || match attr d p "type" with Some (VStr t) => String.eqb t "subProcess" | _ => false end.
Definition properb (d : diagram) (o : op) : bool :=
  admissibleb d o && match process_of o with Some p => scopeb d p | None => true end &&
  match direction_of o with Some x => smem x directions | None => true end &&
  match node_id_of o with Some i => negb (smem i (map fst (procs d))) | None => true end &&
  match o with OProcess _ _ _ _ _ u => negb (smem ("id" ++ u) (node_keys d)) | _ => true end.
Lemma properb_ok : forall d o, properb d o = true -> proper d o.
Proof.
  intros d o H. unfold properb in H. rewrite !andb_true_iff in H. destruct H as [[[[H1 H2] H3] H4] H5]. split; [apply admissibleb_ok; exact H1|].
  split; [|split; [|split]].
  - intros p P. rewrite P in H2. unfold scopeb in H2. apply orb_true_iff in H2. destruct H2 as [H2|H2]; [left; apply smem_In; exact H2|right].
    destruct (attr d p "type") as [[ | t | | | | | ]|]; try discriminate. apply String.eqb_eq in H2. subst t. reflexivity.
  - intros x X. rewrite X in H3. apply smem_In. exact H3.
  - intros i X. rewrite X in H4. apply negb_true_iff in H4. apply smem_notIn in H4. exact H4.
  - destruct o; auto. apply negb_true_iff in H5. apply smem_notIn in H5. exact H5.
Qed.
Fixpoint pcheck (d : diagram) (l : list op) : bool :=
  match l with [] => true | o :: t => properb d o && pcheck (run1 d o) t end.
Lemma pcheck_history : forall l l0 d, proper_history l0 d -> pcheck d l = true -> proper_history (l0 ++ l) (run d l).
Proof.
  induction l as [|o t IH]; intros l0 d H C; [rewrite app_nil_r; exact H|]. simpl in C. apply andb_true_iff in C. destruct C as [C1 C2].
  change (proper_history (l0 ++ [o] ++ t) (run (run1 d o) t)). rewrite app_assoc. apply IH; [|exact C2]. apply ph_snoc; [exact H|apply properb_ok; exact C1].
Qed.


(** * At most one current flow between two nodes *)
Lemma split_unique : forall {V} (k : string) (v : V) l1 l2 m1 m2, NoDup (map fst (l1 ++ (k, v) :: l2)) -> l1 ++ (k, v) :: l2 = m1 ++ (k, v) :: m2 ->
  l1 = m1 /\ l2 = m2.
Proof.
  intros V k v. induction l1 as [|q l1 IH]; intros l2 [|q' m1] m2 N E; simpl in E.
  - injection E as E. auto.
  - exfalso. injection E as E1 E2. subst q' l2. simpl in N. inversion N as [|? ? X _]; subst. apply X. rewrite map_app. apply in_or_app. right. left. reflexivity.
  - exfalso. injection E as E1 E2. subst q. simpl in N. inversion N as [|? ? X _]; subst. apply X. rewrite map_app. apply in_or_app. right. left. reflexivity.
  - injection E as E1 E2. subst q'. simpl in N. inversion N; subst. destruct (IH l2 m1 m2) as [-> ->]; auto.
Qed.

Lemma live_pair : forall d f r f' r', NoDup (map fst (seq_flows d)) -> live d f r -> live d f' r' ->
  same_pair (fl_src r) (fl_tgt r) (fl_src r') (fl_tgt r') -> r = r'.
Proof.
  intros d f r f' r' ND (pre & post & Es & Last) (pre' & post' & Es' & Last') SS.
  assert (Y : forall f r, In (f, r) post' -> same_pair (fl_src r) (fl_tgt r) (fl_src r') (fl_tgt r') -> False) by (intros a b I P; exact (Last' a b I P)).
  rewrite Es in Es'. assert (X : In (f', r') (pre ++ (f, r) :: post)) by (rewrite Es'; apply in_or_app; right; left; reflexivity).
  apply in_app_or in X. destruct X as [X|[X|X]].
  - exfalso. apply in_split in X. destruct X as (a1 & a2 & ->). rewrite <- app_assoc in Es'. simpl in Es'.
    assert (Q : a1 = pre' /\ a2 ++ (f, r) :: post = post').
    { apply (split_unique f' r'); [|exact Es']. rewrite Es, <- app_assoc in ND. exact ND. }
    destruct Q as [_ <-]. apply (Y f r); [apply in_or_app; right; left; reflexivity|exact SS].
  - congruence.
  - exfalso. apply (Last f' r' X). apply same_pair_sym. exact SS.
Qed.
