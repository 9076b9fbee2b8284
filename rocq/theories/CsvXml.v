(** What the CSV importer leaves on nodes and flows, for the XML exporters. *)
From Coq Require Import String Ascii List Bool Arith ZArith Lia.
From Verif Require Import Py PyFacts Consts Nx NxFacts Rep SpecRep RepFacts CsvRegex RegexFacts CsvImport CsvFacts Xml Export Import SpecXml SpecRound SpecWrite.
Import ListNotations.
Open Scope string_scope.
Open Scope list_scope.

Definition csv_kinds : list string :=
  ["startEvent"; "subProcess"; "endEvent"; "inclusiveGateway"; "exclusiveGateway"; "parallelGateway"; "task"].
Definition has_text (d : diagram) (n k : string) : Prop := exists s, attr d n k = Some (VStr s).
Definition csv_node (d : diagram) (n : string) : Prop :=
  exists t, attr d n "type" = Some (VStr t) /\ In t csv_kinds /\
    (forall k, In k (["node_name"; "width"; "height"; "x"; "y"] ++ own_attributes t) -> has_text d n k) /\
    attr d n "process" = Some (VStr "process_1") /\ attr d n "id" = Some (VStr n) /\
    (attr d n "default" = None \/ attr d n "default" = Some VNone) /\
    (has_definitions t = true -> exists l, attr d n "event_definitions" = Some (VDefs l)) /\
    (t = "subProcess" -> has_text d n "isExpanded") /\
    (attr d n "event_definitions" = None \/ attr d n "event_definitions" = Some (VDefs [])).
Definition csv_edge (a : attrs) : Prop :=
  text a "id" /\ text a "name" /\ text a "sourceRef" /\ text a "targetRef" /\ dget "process" a = Some (VStr "process_1") /\
  (dget "conditionExpression" a = None \/ exists i c, dget "conditionExpression" a = Some (VCond i c) /\ c <> "") /\ dget "waypoints" a = None.

(** The invariant; everything but the graph and the flows is as in [d0]. *)
Section Invariant.
Variable d0 : diagram.
Variable bad : Prop.
Definition csv_inv (d : diagram) : Prop :=
  wf d /\ (forall n, is_node d n -> csv_node d n) /\ (forall e, In e (gedges (dgraph d)) -> csv_edge (eat e)) /\
  (attr d "process_1" "type" = Some (VStr "subProcess") -> bad) /\ same_meta d0 d.

Lemma written_keys : forall t k, In t csv_kinds -> In k (["node_name"; "width"; "height"; "x"; "y"] ++ own_attributes t) ->
  k <> "incoming" /\ k <> "outgoing" /\ k <> "event_definitions".
Proof.
  intros t k T K. simpl in T. repeat destruct T as [<- |T]; try contradiction; simpl in K;
    repeat destruct K as [<- |K]; try contradiction; repeat split; discriminate.
Qed.
Lemma csv_node_ext : forall d d' n, (forall k, k <> "incoming" -> k <> "outgoing" -> k <> "event_definitions" -> attr d' n k = attr d n k) ->
  (attr d' n "event_definitions" = attr d n "event_definitions" \/ attr d' n "event_definitions" = Some (VDefs [])) -> csv_node d n -> csv_node d' n.
Proof.
  intros d d' n X Y (t & T & K & W & P & I & D & V & S & Z). exists t.
  rewrite (X "type"), (X "process"), (X "id"), (X "default") by discriminate. do 2 (split; [assumption|]). split; [|do 3 (split; [assumption|]); split].
  - intros k Hk. destruct (written_keys t k K Hk) as (A & B & C). unfold has_text. rewrite X by auto. apply W. exact Hk.
  - intros H. destruct (V H) as [l L]. destruct Y as [->| ->]; eauto.
  - split; [intros H; unfold has_text; rewrite X by discriminate; exact (S H)|]. destruct Y as [->| ->]; [exact Z|]. right. reflexivity.
Qed.

(** Adding a node. *)
Lemma node_info_inv : forall n t act d d', csv_inv d -> (n = "process_1" -> node_type_or_task t = "subProcess" -> bad) ->
  add_node_info_to_diagram_graph n t act "process_1" d = (d', Ok tt) -> csv_inv d'.
Proof.
  intros n t act d d' (W & N & E & P & M) Np H.
  pose proof (node_info_wf _ _ _ _ _ _ W H) as (W' & I' & O' & T' & _).
  destruct (node_info_step n t act "process_1" d) as [ex [X [_ [_ [_ S]]]]]. rewrite S in H. injection H as H.
  destruct (c01 _ _ _ d X) as (_ & A & _ & G & R & _). rewrite H in A, G, R.
  split; [exact W'|]. split; [|split; [|split]].
  - intros m Hm. destruct (string_dec m n) as [-> |Nm].
    2:{ apply (csv_node_ext d); [intros; apply O'; exact Nm|left; apply O'; exact Nm|].
        apply N. apply I' in Hm. tauto. }
    assert (D : attr d n "default" = None \/ attr d n "default" = Some VNone).
    { destruct (attr d n "default") eqn:F; [|auto]. right. pose proof (attr_is_node _ _ _ _ F) as Hn.
      destruct (N n Hn) as (_ & _ & _ & _ & _ & _ & [C|C] & _); congruence. }
    assert (V : attr d n "event_definitions" = None \/ attr d n "event_definitions" = Some (VDefs [])).
    { destruct (attr d n "event_definitions") eqn:F; [|auto]. pose proof (attr_is_node _ _ _ _ F) as Hn. destruct (N n Hn) as (_ & _ & _ & _ & _ & _ & _ & _ & _ & Z). rewrite <- F. exact Z. }
    assert (K : In (node_type_or_task t) csv_kinds).
    { unfold node_type_or_task. destruct t as [t|]; [|simpl; tauto]. destruct (smem t _) eqn:Sm; [|simpl; tauto].
      apply smem_In in Sm. simpl in Sm |- *. tauto. }
    clear - A T' X D V K.
    exists (node_type_or_task t). rewrite T'. split; [reflexivity|]. split; [exact K|].
    unfold has_text. setoid_rewrite A. clear A T'. revert X K. unfold node_op. generalize (node_type_or_task t). clear t.
    intros ty X K. simpl in K. repeat destruct K as [<- |K]; try contradiction; injection X as <-;
      (split; [intros k Hk; simpl in Hk; repeat destruct Hk as [<- |Hk]; try contradiction; simpl; unfold tf; eauto|]);
      simpl; repeat split; auto; try discriminate; intros; unfold tf; eauto; congruence.
  - intros e He. rewrite G in He. auto.
  - intros C. destruct (string_dec "process_1" n) as [<- |D]; [apply Np; [reflexivity|congruence]|]. apply P. rewrite <- O' by exact D. exact C.
  - unfold same_meta, same_rest in *. intuition congruence.
Qed.

(** Connecting two nodes. *)
Lemma conn_edge : forall s t c a, (dget "conditionExpression" a = None \/ exists i x, dget "conditionExpression" a = Some (VCond i x) /\ x <> "") ->
  dget "waypoints" a = None -> csv_edge (conn_attrs s t c a).
Proof.
  intros s t c a C W. unfold csv_edge, text, conn_attrs, default_process_id, k_id, k_process, k_name, k_source_ref, k_target_ref, k_condition_expression.
  destruct c as [c|]; [destruct (String.eqb_spec c "")|]; rewrite !dget_dset; simpl; repeat split; eauto 6.
Qed.
Lemma connected_inv : forall tb s t d d', connected tb s t d d' -> csv_inv d -> csv_inv d'.
Proof.
  intros tb s t d d' C (W & N & E & P & M). split; [eapply connected_wf; eauto|]. split; [|split; [|split]].
  - intros n Hn. rewrite (connected_is_node _ _ _ _ _ _ C) in Hn. apply (csv_node_ext d); auto.
    + intros k K1 K2 K3. rewrite (cn_attr _ _ _ _ _ C). rewrite (eqb_neq' k "outgoing"), (eqb_neq' k "incoming") by auto.
      rewrite !andb_false_r. reflexivity.
    + left. rewrite (cn_attr _ _ _ _ _ C), !andb_false_r. auto.
  - intros e He. rewrite (cn_edges _ _ _ _ _ C) in He.
    assert (B : forall x, In x (edge_base s t (dgraph d)) -> csv_edge (eat x) \/ (eat x = [] /\ connects s t x = true)).
    { intros x Hx. unfold edge_base in Hx. destruct (has_edge s t (dgraph d)); [auto|]. apply in_app_or in Hx.
      destruct Hx as [Hx|[<- |[]]]; [auto|]. right. split; [reflexivity|]. unfold connects. simpl. rewrite !eqb_refl'. reflexivity. }
    unfold upd_edges in He. apply in_map_iff in He. destruct He as [x [<- Hx]]. specialize (B x Hx).
    destruct (connects s t x) eqn:Cx; simpl.
    + destruct B as [(_ & _ & _ & _ & _ & B1 & B2)|[B _]]; [apply conn_edge; assumption|]. rewrite B. apply conn_edge; auto.
    + destruct B as [B|[_ B]]; [exact B|discriminate].
  - rewrite (connected_type _ _ _ _ _ _ C). exact P.
  - eapply same_meta_trans; [exact M|apply C].
Qed.
Lemma connection_inv : forall s t st st', csv_inv (fst st) -> add_connection s t st = (st', Ok tt) -> csv_inv (fst st').
Proof.
  intros s t [d tb] st' I H. apply add_connection_inv in H; [|apply I]. destruct H as (_ & _ & _ & C). eapply connected_inv; eauto.
Qed.
Lemma spliced_inv : forall n s t d d', spliced n s t d d' -> csv_inv d -> csv_inv d'.
Proof.
  intros n s t d d' S (W & N & E & P & M). split; [eapply spliced_wf; eauto|]. split; [|split; [|split]].
  - intros m Hm. rewrite (spliced_is_node _ _ _ _ _ _ S) in Hm. destruct Hm as [Hm Nm].
    destruct (sp_flows _ _ _ _ _ S) as (f1 & l1 & r1 & lo & f2 & l2 & r2 & li & _ & _ & _ & _ & _ & _ & _ & _ & _ & A).
    apply (csv_node_ext d); auto.
    + intros k K1 K2 K3. rewrite A by auto. rewrite (eqb_neq' k "outgoing"), (eqb_neq' k "incoming") by auto. rewrite !andb_false_r. reflexivity.
    + left. rewrite A by auto. rewrite !andb_false_r. auto.
  - intros e He. rewrite (sp_edges _ _ _ _ _ S) in He. do 3 (apply filter_In in He; destruct He as [He _]). auto.
  - intros C. apply P. rewrite <- (spliced_type _ _ _ _ _ _ S); [exact C|]. intros <-. apply attr_is_node in C.
    apply (spliced_is_node _ _ _ _ _ _ S) in C. tauto.
  - eapply same_meta_trans; [exact M|apply S].
Qed.

(** The phases. *)
Lemma suffix_split : forall n (t : option string), split_id n = "process_1" -> node_type_or_task t = "subProcess" -> bad.
Proof.
  unfold split_id. intros n t H _. exfalso. assert (L : String.length (n ++ "_split") = 9) by (rewrite H; reflexivity).
  rewrite slen_app in L. simpl in L. do 4 (destruct n as [|? n]; simpl in L; try lia). discriminate.
Qed.
Lemma suffix_join : forall n (t : option string), join_id n = "process_1" -> node_type_or_task t = "subProcess" -> bad.
Proof.
  unfold join_id. intros n t H _. exfalso. assert (L : String.length (n ++ "_join") = 9) by (rewrite H; reflexivity).
  rewrite slen_app in L. simpl in L. do 5 (destruct n as [|? n]; simpl in L; try lia). discriminate.
Qed.
Lemma on_info_inv : forall n t act st st', csv_inv (fst st) -> (n = "process_1" -> node_type_or_task t = "subProcess" -> bad) ->
  on_diagram (add_node_info_to_diagram_graph n t act default_process_id) st = (st', Ok tt) -> csv_inv (fst st').
Proof. intros n t act st st' I N H. apply on_diagram_ok in H. destruct H as [H _]. eapply node_info_inv; eauto. Qed.
Lemma nodes_info_inv : forall st st', csv_inv (fst st) -> (forall r, In ("process_1", r) (snd st) -> r_terminated r <> "yes" -> bad) -> import_nodes_info st = (st', Ok tt) -> csv_inv (fst st').
Proof.
  intros st st' I K H. unfold import_nodes_info in H. rewrite mbind_read in H.
  eapply (mfor_inv _ _ (fun x => csv_inv (fst x))); [|exact I|exact H].
  intros [o r] x x' J Ix Hx. cbv beta in Hx. eapply on_info_inv; eauto. cbn [fst snd]. intros -> C. apply (K r J). intros Y. unfold get_node_type in C. rewrite Y in C. discriminate.
Qed.
Lemma connect_node_inv : forall ids n st st', csv_inv (fst st) -> connect_node ids n st = (st', Ok tt) -> csv_inv (fst st').
Proof.
  intros ids n st st' I H. apply connect_inv in H. destruct H; subst; eauto using connection_inv, on_info_inv, suffix_split, suffix_join.
  eapply (mfor_inv _ _ (fun x => csv_inv (fst x))); [|eapply connection_inv; [eapply on_info_inv; eauto using suffix_split|eauto]|eauto].
  intros. eapply connection_inv; eauto.
Qed.
Lemma fill_inv : forall st st', csv_inv (fst st) -> fill_graph_connections st = (st', Ok tt) -> csv_inv (fst st').
Proof.
  intros st st' I H. unfold fill_graph_connections in H. rewrite mbind_read in H.
  eapply (mfor_inv _ _ (fun x => csv_inv (fst x))); [|exact I|exact H]. intros a x x' _ Ix Hx. eapply connect_node_inv; eauto.
Qed.
Lemma adjust_node_inv : forall n d d', csv_inv d -> adjust_node n d = (d', Ok tt) -> csv_inv d'.
Proof.
  intros n d d' (W & N & E & P & M) H. pose proof (adjust_inv n d d' W H) as (W' & A & K & G & R).
  assert (Hn : is_node d n).
  { destruct (in_dec string_dec n (node_keys d)) as [Hn|Hn]; [exact Hn|]. exfalso. unfold adjust_node, gread in H. unfold mbind at 1 in H.
    rewrite mbind_read in H. unfold gnode in H. destruct (dget n (gnodes (dgraph d))) eqn:F; [|discriminate]. apply Hn. eapply dget_key_In; eauto. }
  destruct (adjust_spec n d W Hn) as [d1 [E1 [_ [B _]]]]. assert (d1 = d') by congruence. subst d1.
  assert (I : forall m, is_node d' m <-> is_node d m) by (intros m; unfold is_node; fold (node_keys d') (node_keys d); rewrite K; tauto).
  split; [exact W'|]. split; [|split; [|split]].
  - intros m Hm. apply (csv_node_ext d); [auto| |apply N, I, Hm]. rewrite B. destruct (String.eqb_spec m n) as [-> |_]; [|auto]. destruct (attr d n "event_definitions") as [[]|]; auto.
  - rewrite G. exact E.
  - rewrite A by discriminate. exact P.
  - unfold same_meta, same_rest in *. intuition congruence.
Qed.
Lemma legacy_adjustment_inv : forall d d', csv_inv d -> legacy_adjustment d = (d', Ok tt) -> csv_inv d'.
Proof.
  intros d d' I H. unfold legacy_adjustment, gread in H. rewrite mbind_read in H.
  eapply (mfor_inv _ _ csv_inv); [|exact I|exact H]. intros a x x' _ Ix Hx. eapply adjust_node_inv; eauto.
Qed.
Lemma remove_inv : forall n st st' s t, csv_inv (fst st) -> csv_remove_node n st = (st', Ok (s, t)) -> csv_inv (fst st').
Proof. intros n [d tb] st' s t I H. apply csv_remove_inv in H. destruct H as [_ H]. eapply spliced_inv; eauto. Qed.
Lemma goto_inv : forall st st', csv_inv (fst st) -> remove_goto_nodes st = (st', Ok tt) -> csv_inv (fst st').
Proof.
  intros st st' I H. unfold remove_goto_nodes in H. rewrite mbind_read in H.
  eapply (mfor_inv _ _ (fun x => csv_inv (fst x))); [|exact I|exact H]. intros [o r] x x' _ Ix Hx. cbn [fst snd] in Hx.
  destruct (is_goto r); [|inv Hx; auto]. apply mbind_ok in Hx. destruct Hx as [x1 [[s t] [H1 H2]]].
  rewrite mbind_read in H2. destruct (goto_target r) as [u|]; [|discriminate].
  eapply connection_inv; [|exact H2]. eapply remove_inv; eauto.
Qed.
Lemma gateways_inv : forall st st', csv_inv (fst st) -> remove_unnecessary_merge_gateways st = (st', Ok tt) -> csv_inv (fst st').
Proof.
  intros st st' I H. unfold remove_unnecessary_merge_gateways in H. rewrite mbind_read in H.
  eapply (mfor_inv _ _ (fun x => csv_inv (fst x))); [|exact I|exact H]. intros n x x' _ Ix Hx.
  apply gateway_round in Hx; [|apply Ix]. destruct Hx as [-> _|s t d1 _ _ _ S _ _ C _]; [exact Ix|].
  eapply connected_inv; [exact C|]. eapply spliced_inv; eauto.
Qed.

End Invariant.

(** The orders of the cleaned table. *)
Lemma label_eqb_eq : forall a b, label_eqb a b = true <-> a = b.
Proof.
  intros [a|a] [b|b]; simpl; try (split; intros H; discriminate).
  - rewrite String.eqb_eq. split; congruence.
  - rewrite Z.eqb_eq. split; congruence.
Qed.
Lemma ldel_keys : forall k l x, In x (map fst (ldel k l)) -> In x (map fst l) /\ x <> k.
Proof.
  induction l as [|[k' v] l IH]; simpl; intros x H; [contradiction|]. destruct (label_eqb k k') eqn:E.
  - apply IH in H. tauto.
  - simpl in H. destruct H as [<- |H]; [|apply IH in H; tauto]. split; [auto|]. intros ->.
    rewrite (proj2 (label_eqb_eq k k) eq_refl) in E. discriminate.
Qed.
Lemma lset_keys : forall k v l x, In x (map fst (lset k v l)) -> In x (map fst l) \/ x = k.
Proof.
  induction l as [|[k' v'] l IH]; simpl; intros x H; [destruct H as [<- |[]]; auto|]. destruct (label_eqb k k') eqn:E; simpl in H.
  - destruct H as [<- |H]; auto.
  - destruct H as [<- |H]; [auto|]. apply IH in H. tauto.
Qed.
Lemma cleaned_keys : forall table k, In k (dkeys (remove_white_spaces_in_orders table)) -> exists o r, In (o, r) table /\ k = clean_order o.
Proof.
  intros table k H. unfold remove_white_spaces_in_orders, dkeys in H. rewrite map_map in H. cbn [fst] in H.
  assert (G : forall todo acc, (forall o r, In (o, r) todo -> In (o, r) table) ->
    (forall x, In x (map fst acc) -> In x (map fst todo) \/ exists o r, In (o, r) table /\ x = OStr (clean_order o)) ->
    forall x, In x (map fst (fold_left (fun d p => lset (OStr (clean_order (fst p))) (snd p) (ldel (fst p) d)) todo acc)) ->
      exists o r, In (o, r) table /\ x = OStr (clean_order o)).
  { induction todo as [|[o r] todo IH]; intros acc T A x X.
    - destruct (A x X) as [[]|A']; exact A'.
    - cbn [fold_left fst snd] in X. eapply IH; [|  |exact X]; [intros; apply T; right; assumption|].
      intros y Y. apply lset_keys in Y. destruct Y as [Y| ->].
      + apply ldel_keys in Y. destruct Y as [Y Ny]. destruct (A y Y) as [[C|C]|C]; [simpl in C; congruence|auto|auto].
      + right. exists o, r. split; [apply T; left|]; reflexivity. }
  apply in_map_iff in H. destruct H as [[x r] [<- H]].
  destruct (G table table (fun _ _ h => h) (fun _ h => or_introl h) x) as (o & r' & I & ->).
  - apply in_map_iff. exists (x, r). auto.
  - exists o, r'. auto.
Qed.

Definition label_dec (a b : order_label) : {a = b} + {a <> b}.
Proof. decide equality; [apply string_dec|apply Z.eq_dec]. Defined.
Definition times (x : order_label) (l : list (order_label * row)) : nat := count_occ label_dec (map fst l) x.
Lemma ldel_times : forall k l x, times x (ldel k l) = if label_dec x k then 0 else times x l.
Proof.
  unfold times. induction l as [|[k' v] l IH]; intros x; simpl; [destruct (label_dec x k); reflexivity|]. destruct (label_eqb k k') eqn:E.
  - apply label_eqb_eq in E. subst k'. rewrite IH. destruct (label_dec x k) as [-> |N]; [reflexivity|]. destruct (label_dec k x); [congruence|reflexivity].
  - simpl. rewrite IH. destruct (label_dec k' x) as [-> |N].
    + destruct (label_dec x k) as [-> |M]; [|reflexivity]. rewrite (proj2 (label_eqb_eq k k) eq_refl) in E. discriminate.
    + destruct (label_dec x k); reflexivity.
Qed.
Lemma lset_times : forall k v l x, times x l <= 1 -> times x (lset k v l) <= 1.
Proof.
  unfold times. induction l as [|[k' v'] l IH]; intros x L; simpl; [destruct (label_dec k x); lia|]. destruct (label_eqb k k') eqn:E; simpl in *; [exact L|].
  destruct (label_dec k' x) as [-> |N].
  - assert (Z : count_occ label_dec (map fst l) x = 0) by lia. clear - Z E.
    assert (G : ~ In x (map fst (lset k v l))).
    { intros C. apply lset_keys in C. destruct C as [C| ->]; [exact (proj2 (count_occ_not_In label_dec _ _) Z C)|].
      rewrite (proj2 (label_eqb_eq k k) eq_refl) in E. discriminate. }
    apply (count_occ_not_In label_dec) in G. lia.
  - apply IH. exact L.
Qed.
Lemma cleaned_nodup : forall table, NoDup (dkeys (remove_white_spaces_in_orders table)).
Proof.
  intros table. unfold remove_white_spaces_in_orders, dkeys. rewrite map_map. cbn [fst].
  set (f := fold_left (fun d p => lset (OStr (clean_order (fst p))) (snd p) (ldel (fst p) d))).
  assert (G : forall todo acc, (forall x, ~ In x (map fst todo) -> times x acc <= 1) -> forall x, times x (f todo acc) <= 1).
  { induction todo as [|[o r] todo IH]; intros acc A x; [apply A; intros []|]. unfold f. cbn [fold_left fst snd]. fold f. apply IH. clear x.
    intros x X. apply lset_times. rewrite ldel_times. destruct (label_dec x o) as [_|N]; [lia|]. apply A. simpl. intros [C|C]; [congruence|contradiction]. }
  assert (K : forall x, In x (map fst (f table table)) -> exists s, x = OStr s).
  { assert (Q : forall todo acc, (forall x, In x (map fst acc) -> In x (map fst todo) \/ exists s, x = OStr s) ->
      forall x, In x (map fst (f todo acc)) -> exists s, x = OStr s).
    { induction todo as [|[o r] todo IH]; intros acc A x X; [destruct (A x X) as [[]|A']; exact A'|].
      unfold f in X. cbn [fold_left fst snd] in X. fold f in X. eapply IH; [|exact X]. intros y Y. apply lset_keys in Y. destruct Y as [Y| ->]; [|eauto].
      apply ldel_keys in Y. destruct Y as [Y Ny]. destruct (A y Y) as [[C|C]|C]; [simpl in C; congruence|auto|auto]. }
    apply Q. auto. }
  assert (T : forall x, times x (f table table) <= 1).
  { apply G. intros x X. apply (count_occ_not_In label_dec) in X. unfold times. lia. }
  unfold times in T. rewrite <- (NoDup_count_occ label_dec) in T. revert K T. generalize (f table table). clear.
  induction l as [|[o r] l IH]; simpl; intros K T; [constructor|]. inversion T as [|? ? T1 T2]; subst. constructor.
  - intros C. apply in_map_iff in C. destruct C as [[o' r'] [E I]]. simpl in E. apply T1. apply in_map_iff. exists (o', r'). split; [|exact I].
    assert (I' : In o' (map fst l)) by (apply in_map_iff; exists (o', r'); auto).
    destruct (K o (or_introl eq_refl)) as [s ->]. destruct (K o' (or_intror I')) as [s' ->]. simpl in E. simpl. congruence.
  - apply IH; auto.
Qed.

(** A row [process_1] has to be an end event: it has no possible successor. *)
Lemma connection_table : forall s t st st', add_connection s t st = (st', Ok tt) -> snd st' = snd st.
Proof.
  intros s t st st' H. unfold add_connection in H. apply mbind_ok in H. destruct H as [s1 [[] [H1 H]]].
  apply mbind_ok in H. destruct H as [s2 [[] [H2 H]]]. rewrite mbind_read in H.
  apply on_diagram_ok in H1, H2, H. intuition congruence.
Qed.
Lemma connect_table : forall ids n st st', connect_node ids n st = (st', Ok tt) -> snd st' = snd st.
Proof.
  intros ids n st st' H. apply connect_inv in H. destruct H; subst; auto.
  - eapply connection_table; eauto.
  - apply on_diagram_ok in H5. apply connection_table in H6.
    assert (X : snd st' = snd st2); [|intuition congruence].
    eapply (mfor_inv _ _ (fun x => snd x = snd st2)); [|reflexivity|exact H7]. intros a x x' _ Ix Hx. rewrite <- Ix. eapply connection_table; eauto.
  - eapply connection_table; eauto.
  - apply on_diagram_ok in H7. apply connection_table in H8, H9. intuition congruence.
Qed.
Lemma process_row_ends : forall ids st st', connect_node ids "process_1" st = (st', Ok tt) -> is_node_the_end_event "process_1" (snd st) = Ok true.
Proof.
  intros ids st st' H. apply connect_inv in H. destruct H as [E _|l s E L A|l succs ty st1 st2 E _ L A|l s E _ _ L A|l s ty st1 st2 E _ _ L A];
    [exact E| | | |]; vm_compute in L; injection L as <-; vm_compute in A; discriminate.
Qed.

(** The diagram of a table. *)
Theorem imported_inv : forall table d', load_diagram_from_csv table empty_diagram = (d', Ok tt) ->
  exists d0, csv_inv d0 False d' /\ collaboration d0 = None /\
    diag_attrs d0 = [("id", VStr "diagram1"); ("name", VStr "diagram_name")] /\
    plane_attrs d0 = [("id", VStr "plane_1"); ("bpmnElement", VStr "process_1")] /\
    exists l, procs d0 = [("process_1", [("id", VStr "process_1"); ("name", VStr ""); ("isClosed", VStr "false");
                 ("isExecutable", VStr "false"); ("processType", VStr "None"); ("node_ids", VList l)])].
Proof.
  intros table d' H. destruct (import_phases _ _ _ H) as [d0 [s1 [s2 [d3 [s4 [s5 [P0 [P1 [P2 [P3 [P4 [P5 ->]]]]]]]]]]]].
  exists d0. split.
  - eapply gateways_inv; [|exact P5]. eapply goto_inv; [|exact P4]. cbn [fst]. eapply legacy_adjustment_inv; [|exact P3].
    set (tb := remove_white_spaces_in_orders table) in *.
    assert (F : csv_inv d0 (exists r, In ("process_1", r) tb /\ r_terminated r <> "yes") (fst s1)).
    { eapply nodes_info_inv; [| |exact P1]; [|cbn [snd]; intros r I N; exists r; auto].
      cbn [fst]. injection P0 as <-. split; [|split; [|split; [|split]]].
      * split; [constructor|intros n []].
      * intros n [].
      * intros e [].
      * discriminate.
      * repeat split. }
    assert (T1 : snd s1 = tb).
    { unfold import_nodes_info in P1. rewrite mbind_read in P1.
      refine (mfor_inv _ _ (fun x : cstate => snd x = tb) _ _ _ _ _ _ P1); [|reflexivity]. intros a x x' _ Ix Hx. apply on_diagram_ok in Hx. intuition congruence. }
    assert (Z : attr (fst s1) "process_1" "type" = Some (VStr "subProcess") -> False).
    { intros T. pose proof (proj1 (proj2 (proj2 (proj2 F))) T) as (r & I & N). apply attr_is_node in T.
      unfold fill_graph_connections in P2. rewrite mbind_read in P2. cbn beta iota in P2.
      assert (G : forall l x x', In "process_1" l -> snd x = tb -> mfor l (connect_node (dkeys (gnodes (dgraph (fst s1))))) x = (x', Ok tt) -> False).
      { induction l as [|a l IH]; intros x x' J Ix Hx; [contradiction|]. simpl in Hx. apply mbind_ok in Hx. destruct Hx as [x1 [[] [X1 X2]]].
        destruct (string_dec a "process_1") as [-> |Na].
        - apply process_row_ends in X1. unfold is_node_the_end_event, dgetE in X1. rewrite Ix in X1. unfold tb in X1, I.
          rewrite (In_dget _ _ _ (cleaned_nodup table) I) in X1. cbn [rbind] in X1. injection X1 as X1. apply String.eqb_eq in X1. contradiction.
        - destruct J as [J|J]; [congruence|]. apply (IH x1 x' J); [|exact X2]. rewrite <- Ix. eapply connect_table; eauto. }
      eapply G; [|exact T1|exact P2]. exact T. }
    eapply fill_inv; [|exact P2]. destruct F as (F1 & F2 & F3 & _ & F4). exact (conj F1 (conj F2 (conj F3 (conj Z F4)))).
  - injection P0 as <-. repeat split. eexists. reflexivity.
Qed.
