(** The graph of a diagram loaded from CSV is a simple graph, whatever the table. *)
From Coq Require Import String Ascii List Bool Arith ZArith Lia.
From Verif Require Import Py PyFacts Consts Nx NxFacts Rep SpecRep RepFacts CsvRegex CsvImport CsvFacts Xml Export Import XmlOps.
Import ListNotations.
Open Scope string_scope.
Open Scope list_scope.

Lemma filter_split : forall A (p : A -> bool) es l1 e l2, filter p es = l1 ++ e :: l2 ->
  exists m1 m2, es = m1 ++ e :: m2 /\ filter p m2 = l2.
Proof.
  induction es as [|x es IH]; intros l1 e l2 H; [destruct l1; discriminate|]. cbn [filter] in H. destruct (p x) eqn:P.
  - destruct l1 as [|y l1]; cbn [app] in H.
    + injection H as -> <-. exists [], es. auto.
    + injection H as -> H. destruct (IH _ _ _ H) as [m1 [m2 [-> E]]]. exists (y :: m1), m2. auto.
  - destruct (IH _ _ _ H) as [m1 [m2 [-> E]]]. exists (x :: m1), m2. auto.
Qed.
Lemma simple_filter : forall p es,
  (forall l1 e1 l2 e2 l3, es = l1 ++ e1 :: l2 ++ e2 :: l3 -> connects (eu e1) (ev e1) e2 = false) ->
  forall l1 e1 l2 e2 l3, filter p es = l1 ++ e1 :: l2 ++ e2 :: l3 -> connects (eu e1) (ev e1) e2 = false.
Proof.
  intros p es H l1 e1 l2 e2 l3 E. destruct (filter_split _ _ _ _ _ _ E) as [m1 [m2 [-> E2]]].
  destruct (filter_split _ _ _ _ _ _ E2) as [k1 [k2 [-> _]]]. eapply H. reflexivity.
Qed.
Lemma gwf_remove_edge : forall u v, keeps gwf_d (ggraph (remove_edge u v)).
Proof.
  intros u v d [H1 H2 H3]. unfold ggraph, mtry, remove_edge. destruct (has_edge u v (dgraph d)); [|constructor; auto].
  cbn. constructor; cbn; auto.
  - intros e He. apply filter_In in He. apply H2, He.
  - apply simple_filter. exact H3.
Qed.
Lemma in_dkeys_ddel : forall A k n (l : dict A), In k (dkeys l) -> k <> n -> In k (dkeys (ddel n l)).
Proof.
  intros A k n l H N. unfold dkeys in *. apply in_map_iff in H. destruct H as [p [<- H]]. apply in_map_iff. exists p. split; auto.
  unfold ddel. apply filter_In. split; auto. apply negb_true_iff. apply String.eqb_neq. congruence.
Qed.
Lemma gwf_remove_node : forall n, keeps gwf_d (ggraph (remove_node n)).
Proof.
  intros n d [H1 H2 H3]. unfold ggraph, mtry, remove_node. destruct (has_node (dgraph d) n); [|constructor; auto].
  cbn. constructor; cbn.
  - unfold ddel, dkeys. clear - H1. unfold dkeys in H1. induction (gnodes (dgraph d)) as [|a l IH]; cbn; [constructor|].
    cbn in H1. inv H1. destruct (negb _); cbn; auto. constructor; auto. intros C. apply H2. apply in_map_iff in C.
    destruct C as [x [E C]]. apply filter_In in C. apply in_map_iff. exists x. tauto.
  - intros e He. apply filter_In in He. destruct He as [He N]. apply negb_true_iff, orb_false_iff in N. destruct N as [N1 N2].
    apply String.eqb_neq in N1, N2. destruct (H2 e He). split; apply in_dkeys_ddel; auto.
  - apply simple_filter. exact H3.
Qed.

(** The same for programs that also see the table. *)
Definition keepc (P : diagram -> Prop) {A} (m : MC A) : Prop := forall s, P (fst s) -> P (fst (fst (m s))).
Lemma keepc_on : forall P A (m : MD A), keeps P m -> keepc P (on_diagram m).
Proof. intros P A m H s Hs. unfold on_diagram. cbn. apply H. exact Hs. Qed.
Lemma keepc_ret : forall P A (a : A), keepc P (mret a).
Proof. intros P A a s H. exact H. Qed.
Lemma keepc_raise : forall P A e, keepc P (@mraise cstate A e).
Proof. intros P A e s H. exact H. Qed.
Lemma keepc_read : forall P A (f : cstate -> res A), keepc P (mread f).
Proof. intros P A f s H. exact H. Qed.
Lemma keepc_bind : forall P A B (m : MC A) (f : A -> MC B), keepc P m -> (forall a, keepc P (f a)) -> keepc P (mbind m f).
Proof.
  intros P A B m f Hm Hf s H. unfold mbind. specialize (Hm s H). destruct (m s) as [s1 [a|e]]; cbn in *; auto. apply Hf. exact Hm.
Qed.
Lemma keepc_for : forall P A (f : A -> MC unit) l, (forall a, keepc P (f a)) -> keepc P (mfor l f).
Proof. induction l as [|a l IH]; intros H; [apply keepc_ret|]. cbn. apply keepc_bind; auto. Qed.
Lemma keepc_table : forall P f, keepc P (mmodify (fun st : cstate => (fst st, f st))).
Proof. intros P f s H. exact H. Qed.

Ltac kd := repeat (first [apply keeps_bind; [|intros] | apply keeps_ret | apply keeps_raise | apply keeps_read | apply gwf_node_set
  | apply gwf_edge_set | apply gwf_add_node | apply gwf_append | apply gwf_add_edge | apply gwf_remove_edge | apply gwf_remove_node
  | apply keeps_for; intros | (apply keeps_modify; intros ? Hk; exact Hk) | match goal with |- keeps _ (match ?x with _ => _ end) => destruct x end
  | match goal with |- keeps _ (if ?x then _ else _) => destruct x end ]).
Ltac kc := repeat (first [apply keepc_bind; [|intros] | apply keepc_ret | apply keepc_raise | apply keepc_read | apply keepc_table
  | apply keepc_for; intros | apply keepc_on | match goal with |- keepc _ (match ?x with _ => _ end) => destruct x end
  | match goal with |- keepc _ (if ?x then _ else _) => destruct x end ]).

Lemma gwf_node_info : forall n t act pid, keeps gwf_d (add_node_info_to_diagram_graph n t act pid).
Proof.
  intros n t act pid d [H1 H2 H3]. destruct (node_info_step n t act pid d) as [ex [X [_ [_ [_ S]]]]]. rewrite S. cbn [fst].
  destruct (c01 _ _ _ d X) as [_ [_ [_ [G [_ K]]]]]. unfold gwf_d, dkeys in *. destruct (in_dec _ _ _) as [C|C].
  - constructor; unfold dkeys; rewrite ?K, ?G; auto.
  - constructor; unfold dkeys; rewrite ?K, ?G; auto.
    + apply NoDup_snoc; auto.
    + intros e He. destruct (H2 e He). rewrite !in_app_iff. auto.
Qed.
Lemma gwf_connection : forall s t, keepc gwf_d (add_connection s t).
Proof. intros. unfold add_connection, add_outgoing_flow, add_incoming_flow, add_flow_to_node, csv_add_edge, gread. kc; kd. Qed.
Lemma gwf_csv_remove : forall n, keepc gwf_d (csv_remove_node n).
Proof. intros. unfold csv_remove_node, remove_incoming_connection, remove_outgoing_connection, gread. kc; kd. Qed.
Lemma gwf_connect_node : forall ids n, keepc gwf_d (connect_node ids n).
Proof.
  intros. unfold connect_node, add_split_gateway, add_merge_gateway_if_not_exists, gread. kc; try apply gwf_connection; kd; apply gwf_node_info.
Qed.
Lemma gwf_adjust : keeps gwf_d legacy_adjustment.
Proof. unfold legacy_adjustment, adjust_node, gread. kd. Qed.
Lemma gwf_import_table : keepc gwf_d import_table.
Proof.
  unfold import_table, import_nodes_info, fill_graph_connections, remove_goto_nodes, remove_unnecessary_merge_gateways,
    remove_gateway_if_unnecessary, populate_dicts.
  repeat (first [apply gwf_connection | apply gwf_csv_remove | apply gwf_connect_node | apply keepc_bind; [|intros] | apply keepc_ret
    | apply keepc_read | apply keepc_for; intros | match goal with |- keepc _ (if ?x then _ else _) => destruct x end
    | apply keepc_on; first [apply gwf_node_info | apply gwf_adjust | apply keeps_modify; intros d H; exact H]]).
Qed.
Theorem gwf_loaded : forall table d d' r, gwf (dgraph d) -> load_diagram_from_csv table d = (d', r) -> gwf (dgraph d').
Proof.
  intros table d d' r W H. unfold load_diagram_from_csv in H. injection H as <- _.
  apply (gwf_import_table (d, remove_white_spaces_in_orders table) W).
Qed.
