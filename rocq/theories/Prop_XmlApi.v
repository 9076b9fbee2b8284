(** Diagrams built with the API survive saving and loading (C76). *)
From Coq Require Import String List Bool Arith Lia Permutation.
From Verif Require Import Py PyFacts Consts Nx NxFacts Rep SpecRep RepFacts Xml Export Import
  SpecXml LoadFacts ExportFacts ExportTree SpecRound ExportScopes RoundNodes RoundLoad RoundBack Prop_XmlImport Prop_XmlRound Prop_XmlDrawn SpecWrite Prop_XmlWrites ApiSave.
Import ListNotations.
Open Scope string_scope.
Open Scope list_scope.

(** * The four conditions *)
Lemma live_unique : forall d f r r', inv_d d -> live d f r -> live d f r' -> r = r'.
Proof.
  intros d f r r' I L L'. apply live_in in L. apply live_in in L'. pose proof (inv_f d I) as N.
  apply (In_dget _ _ _ N) in L. apply (In_dget _ _ _ N) in L'. congruence.
Qed.
Lemma same_edge : forall g e e', gwf g -> In e (gedges g) -> In e' (gedges g) -> same_pair (eu e) (ev e) (eu e') (ev e') -> e = e'.
Proof.
  intros g e e' W I I' P. apply in_split in I. destruct I as (l1 & l2 & E). rewrite E in I'. apply in_app_or in I'.
  assert (C : connects (eu e) (ev e) e' = true) by (apply same_pair_connects; apply same_pair_sym; exact P).
  assert (C' : connects (eu e') (ev e') e = true) by (apply same_pair_connects; exact P).
  destruct I' as [I'|[I'|I']]; [|exact I'|].
  - exfalso. apply in_split in I'. destruct I' as (m1 & m2 & ->). rewrite <- app_assoc in E. simpl in E.
    rewrite (gwf_simple g W _ _ _ _ _ E) in C'. discriminate.
  - exfalso. apply in_split in I'. destruct I' as (m1 & m2 & ->). rewrite (gwf_simple g W _ _ _ _ _ E) in C. discriminate.
Qed.
Lemma node_attr : forall d n a k, gwf (dgraph d) -> In (n, a) (gnodes (dgraph d)) -> attr d n k = dget k a /\ is_node d n.
Proof.
  intros d n a k W I. unfold attr, node_of. rewrite (In_dget _ _ _ (gwf_nodup _ W) I). split; [reflexivity|]. unfold is_node. apply in_map_iff. exists (n, a). auto.
Qed.

Section Built.
Variable d : diagram.
Hypothesis B : built d.
Let I := bu_inv d B.
Let W := inv_g d I.
Lemma api_type : forall n, is_node d n -> exists t, attr d n "type" = Some (VStr t) /\ In t node_kinds.
Proof.
  intros n N. destruct (bu_nodes d B n N) as (o & ex & E & K). rewrite K by discriminate.
  destruct o; unfold expected_node in E; try discriminate; try (destruct (in_dec string_dec dir directions); [|discriminate]);
    injection E as <- <-; eexists; (split; [reflexivity|simpl; tauto]).
Qed.
Lemma api_storable : storable d.
Proof.
  pose proof (inv_b d I) as [B1 [B2 B3]]. constructor.
  - exact W.
  - exact (bu_procs_nodup d B).
  - intros c C. rewrite (bu_collab d B) in C. discriminate.
  - intros n N. destruct (api_type n N) as (t & T & K). exists t. split; [exact T|right; exact K].
  - intros n T. pose proof (is_node_attr _ _ _ _ T) as N. split; [apply (inv_n d I n N)|]. intros C. exact (bu_apart d B n C N).
  - intros n t ds x T D X. pose proof (is_node_attr _ _ _ _ T) as N. destruct (bu_nodes d B n N) as (o & ex & E & K).
    rewrite K in T by discriminate. rewrite K in D by discriminate.
    assert (DF : forall kinds df u, In x (definitions_for kinds df u) -> In (snd x) (map snd kinds)).
    { intros kinds df u. unfold definitions_for. destruct df as [s|]; [|contradiction]. destruct (find _ kinds) as [p|] eqn:F; [|contradiction].
      apply find_some in F. intros [<- |[]]. simpl. apply in_map. exact (proj1 F). }
    destruct o; unfold expected_node in E; try discriminate E; try (destruct (in_dec string_dec dir directions); [|discriminate E]);
      injection E as <- <-; try discriminate D; injection T as <-; injection D as <-; apply DF in X; eexists;
      (split; [reflexivity|]); simpl in X; simpl; tauto.
  - intros n k l HK H.
    assert (L : forall f, In f l -> count f l = 1 /\ f <> "").
    { intros f F. destruct HK as [-> | ->].
      - assert (X : In f (incoming_of d n)) by (unfold incoming_of; rewrite H; exact F). destruct (B3 n f X) as (r & R & <-).
        destruct (B1 f r R) as (_ & _ & _ & C). unfold incoming_of in C. rewrite H in C. split; [exact C|].
        apply (bu_ids d B). unfold dkeys. apply dget_key_In in R. exact R.
      - assert (X : In f (outgoing_of d n)) by (unfold outgoing_of; rewrite H; exact F). destruct (B2 n f X) as (r & R & <-).
        destruct (B1 f r R) as (_ & _ & C & _). unfold outgoing_of in C. rewrite H in C. split; [exact C|].
        apply (bu_ids d B). apply dget_key_In in R. exact R. }
    split; [apply (NoDup_count_occ' string_dec); intros f F; apply (L f F)|]. intros C. apply (L "" C). reflexivity.
  - intros e p E P. destruct (proj1 (inv_e d I) e E) as (f & r & p' & w & Li & Sp & H1 & H2 & H3 & H4 & H5 & H6). exists f, (fl_src r), (fl_tgt r).
    rewrite P in H5. injection H5 as <-. split; [repeat split; assumption|]. split; [exact Sp|].
    pose proof (In_dget _ _ _ (inv_f d I) (live_in _ _ _ Li)) as R. destruct (B1 f r R) as (_ & _ & C1 & C2).
    split; apply (count_occ_In string_dec); unfold count in *; lia.
  - intros e e' f E E' H H'. destruct (proj1 (inv_e d I) e E) as (g & r & p & w & Li & Sp & H1 & _).
    destruct (proj1 (inv_e d I) e' E') as (g' & r' & p' & w' & Li' & Sp' & H1' & _).
    rewrite H in H1. injection H1 as <-. rewrite H' in H1'. injection H1' as <-. rewrite <- (live_unique d f r r' I Li Li') in Sp'.
    apply (same_edge (dgraph d)); auto. eapply same_pair_trans; [exact Sp|apply same_pair_sym; exact Sp'].
  - intros c m r C. rewrite (bu_collab d B) in C. discriminate.
  - intros c p a t C. rewrite (bu_collab d B) in C. discriminate.
Qed.
Lemma api_in_process : forall n, is_node d n -> SpecRound.in_process d n.
Proof.
  intros n N. destruct (api_type n N) as (t & T & K). destruct (inv_n d I n N) as (_ & _ & _ & _ & [p P] & _).
  exists t, p. split; [exact T|]. split; [exact K|]. split; [exact P|]. apply (bu_placed d B n p P).
Qed.
Lemma api_complete : complete d.
Proof.
  constructor.
  - intros n. split; [intros N; left; apply api_in_process; exact N|]. intros [(t & p & T & _)|(c & a & C & _)]; [eapply is_node_attr; eauto|].
    rewrite (bu_collab d B) in C. discriminate.
  - intros e E. left. destruct (proj1 (inv_e d I) e E) as (f & r & p & w & _ & _ & _ & _ & _ & _ & P & _). exists p. split; [exact P|].
    apply (bu_flows d B e p E P).
  - intros c m r C. rewrite (bu_collab d B) in C. discriminate.
Qed.
Lemma api_no_condition : forall e, In e (gedges (dgraph d)) -> dget "conditionExpression" (eat e) = None.
Proof.
  intros e E. destruct (dget "conditionExpression" (eat e)) eqn:C; [|reflexivity]. pose proof (bu_links d B e _ _ E C) as X. simpl in X. intuition discriminate.
Qed.
Lemma tf_text : forall b, exists s, tf b = VStr s.
Proof. intros b. eexists. reflexivity. Qed.
Lemma api_writable : procs d <> [] -> text (diag_attrs d) "id" /\ text (diag_attrs d) "name" -> writable d.
Proof.
  intros HP HD.
  assert (AT : forall n a, In (n, a) (gnodes (dgraph d)) -> exists o ex, expected_node o = Some (n, ex) /\ (forall k, k <> "incoming" -> k <> "outgoing" -> dget k a = dget k ex) /\
     listed a "incoming" /\ listed a "outgoing").
  { intros n a Hn. destruct (node_attr d n a "" W Hn) as [_ N]. destruct (bu_nodes d B n N) as (o & ex & E & K). exists o, ex. split; [exact E|]. split; [|split].
    - intros k K1 K2. rewrite <- (proj1 (node_attr d n a k W Hn)). auto.
    - destruct (inv_n d I n N) as (_ & _ & [li L] & _). exists li. rewrite <- (proj1 (node_attr d n a "incoming" W Hn)). exact L.
    - destruct (inv_n d I n N) as (_ & _ & _ & [lo L] & _). exists lo. rewrite <- (proj1 (node_attr d n a "outgoing" W Hn)). exact L. }
  constructor; [constructor| | | | | | | ].
  - intros n a Hn. destruct (AT n a Hn) as (o & ex & E & K & _). rewrite K by discriminate.
    destruct (expected_process o n ex E) as (_ & p & _ & P). eexists. exact P.
  - intros n a p Hn _ _. destruct (AT n a Hn) as (o & ex & E & K & L1 & L2). unfold node_writable, text.
    destruct o; unfold expected_node in E; try discriminate; try (destruct (in_dec string_dec dir directions); [|discriminate]);
      injection E as <- <-; (eexists; split; [rewrite K by discriminate; reflexivity|]; split; [simpl; tauto|];
      split; [rewrite K by discriminate; eexists; reflexivity|]; split; [exact L1|]; split; [exact L2|]; split;
      [intros k Hk; simpl in Hk; repeat (destruct Hk as [<- |Hk]; [rewrite K by discriminate; eexists; reflexivity|]); destruct Hk|]; split;
      [intros Hd; try discriminate Hd; rewrite !K by discriminate; simpl; first [left; reflexivity|right; destruct default; [right; eexists; reflexivity|left; reflexivity]]
      |intros Hd; try discriminate Hd; rewrite K by discriminate; eexists; reflexivity]).
  - intros n a Hn T. destruct (node_attr d n a "id" W Hn) as [A N]. rewrite <- A. apply (inv_n d I n N).
  - intros e p E _ _. destruct (proj1 (inv_e d I) e E) as (f & r & p' & w & _ & _ & H1 & H2 & H3 & H4 & _). unfold flow_writable, text.
    split; [eauto|]. split; [eauto|]. split; [eauto|]. split; [eauto|]. left. apply api_no_condition, E.
  - intros p a Hp. destruct (bu_procs d B p a Hp) as (name & c & e & t & ->). split; [|split]; eexists; reflexivity.
  - exact HD.
  - apply (bu_plane d B HP).
  - intros n a Hn. destruct (AT n a Hn) as (o & ex & E & K & _). unfold node_drawn, boxed, text.
    destruct o; unfold expected_node in E; try discriminate; try (destruct (in_dec string_dec dir directions); [|discriminate]);
      injection E as <- <-; rewrite !K by discriminate; (split; [repeat split; eexists; reflexivity|]); (split; [eexists; reflexivity|]);
      intros T; try discriminate T; eexists; reflexivity.
  - intros e E. destruct (proj1 (inv_e d I) e E) as (f & r & p' & w & _ & _ & H1 & _ & _ & _ & _ & H6). split; [exists f; exact H1|]. exists w. left. exact H6.
  - intros p a Hp. destruct (bu_procs d B p a Hp) as (name & c & e & t & ->). left. reflexivity.
  - intros c p a C. rewrite (bu_collab d B) in C. discriminate.
  - intros c m r C. rewrite (bu_collab d B) in C. discriminate.
Qed.
Lemma api_no_lanes : forall i l, ~ lane_of d i l.
Proof. intros i l (p & a & s & ls & Hp & L & _). destruct (bu_procs d B p a Hp) as (name & c & e & t & ->). discriminate L. Qed.
Lemma api_rereadable : rereadable d.
Proof.
  constructor.
  - intros e i E. rewrite (api_no_condition e E). discriminate.
  - intros i name child refs di L. destruct (api_no_lanes _ _ L).
  - intros i l e L. destruct (api_no_lanes _ _ L).
Qed.
End Built.

(** Only flows of the diagram are recorded after loading. *)
Lemma recorded_edge : forall set_order fuel d d' f r, storable d -> round_trip set_order fuel d d' -> dget f (seq_flows d') = Some r ->
  exists e p, In e (gedges (dgraph d)) /\ dget "process" (eat e) = Some (VStr p) /\ dget "id" (eat e) = Some (VStr f).
Proof.
  intros so fuel d d' f r SB R G. destruct (round_dom so fuel d d' SB R) as (t & TP & ST & LD). destruct (load_loaded _ _ _ _ LD) as (de & pe & mid & L).
  destruct (loaded_flows _ _ _ _ _ _ _ L f) as [(s & x & F & E & _)|[_ Q]].
  - destruct (flow_declared_edge d SB fuel t TP ST s x F) as (e & q & k' & c' & Ie & Pe & _ & _ & -> & X). exists e, q. split; [exact Ie|]. split; [exact Pe|].
    rewrite (fe_id _ _ X). do 2 f_equal. exact E.
  - rewrite G in Q. discriminate.
Qed.
(** * C76 *)
(** A diagram that was created, has a process and was built with proper calls can be saved and loaded. *)
Theorem C76_can_be_saved : forall set_order l d, proper_history l d -> (exists name u, In (ONew name u) l) -> procs d <> [] ->
  exists bound, forall fuel, bound <= fuel -> exists d', round_trip set_order fuel d d'.
Proof.
  intros so l d H N P. pose proof (history_built l d H) as B.
  apply C74_saved_and_loaded; [apply api_storable|apply api_complete|apply api_writable|apply api_rereadable]; auto.
  apply (diag_named l d (proper_is_history _ _ H) N).
Qed.
(** Everything the client put into nodes and connections comes back. *)
Theorem C76_everything_kept : forall set_order fuel l d d', any_order set_order -> proper_history l d -> round_trip set_order fuel d d' ->
  (forall n, is_node d' n <-> is_node d n) /\
  (forall n k v, attr d n k = Some v -> attr d' n k = Some v) /\
  (forall u v, linked d' u v <-> linked d u v) /\
  (forall u v k x, link_attr d u v k x -> link_attr d' u v k x) /\
  (forall f r, dget f (seq_flows d') = Some r <-> live d f r) /\
  (forall p a k v, dget p (procs d) = Some a -> dget k a = Some v -> k <> "name" -> exists a', dget p (procs d') = Some a' /\ dget k a' = Some v) /\
  (forall p, In p (map fst (procs d')) <-> In p (map fst (procs d))) /\
  dget "id" (diag_attrs d') = dget "id" (diag_attrs d) /\ dget "name" (diag_attrs d') = dget "name" (diag_attrs d) /\
  collaboration d' = None.
Proof.
  intros so fuel l d d' Po H R. pose proof (history_built l d H) as B. pose proof (api_storable d B) as SB. pose proof (api_complete d B) as CP.
  pose proof (bu_inv d B) as I. pose proof (inv_g d I) as W.
  split; [exact (C34_same_nodes so fuel d d' SB CP R)|]. split.
  { intros n k v A. pose proof (is_node_attr _ _ _ _ A) as N. pose proof (api_in_process d B n N) as P.
    destruct (C34_nodes so fuel d d' n Po SB R P) as (_ & Kid & Kt & Kn & Kp & Kown). destruct (C34_flow_lists so fuel d d' n SB R P) as [Ki Ko].
    destruct (C39_nodes so fuel d d' n Po SB R P) as (Kx & Ky & Kw & Kh & Ke). unfold kept in *.
    destruct (string_dec k "incoming") as [-> |N1]; [congruence|]. destruct (string_dec k "outgoing") as [-> |N2]; [congruence|].
    destruct (bu_nodes d B n N) as (o & ex & E & K). pose proof A as A0. rewrite K in A by assumption.
    assert (T : exists t, attr d n "type" = Some (VStr t)) by (destruct (inv_n d I n N) as (_ & T & _); exact T). destruct T as [t T].
    pose proof T as T0. rewrite K in T by discriminate. destruct (Kown t T0) as (K1 & K2 & K3). unfold kept in K1.
    assert (Def : forall kinds df u, has_definitions t = true -> attr d n "event_definitions" = Some (VDefs (definitions_for kinds df u)) ->
               attr d' n "event_definitions" = Some (VDefs (definitions_for kinds df u))).
    { intros kinds df u HD G. destruct (K3 HD) as (ds & Kds & Pm). unfold definitions_of in Pm. rewrite G in Pm. rewrite Kds. do 2 f_equal.
      revert Pm. unfold definitions_for. destruct df as [s|]; [|intros Pm; apply Permutation_sym, Permutation_nil in Pm; exact Pm].
      destruct (find _ kinds) as [q|]; [intros Pm; apply Permutation_sym, Permutation_length_1_inv in Pm; exact Pm|intros Pm; apply Permutation_sym, Permutation_nil in Pm; exact Pm]. }
    assert (Dfl : forall df : option string, has_default t = true -> attr d n "default" = Some match df with Some x => VStr x | None => VNone end ->
               attr d' n "default" = Some match df with Some x => VStr x | None => VNone end).
    { intros df HD G. rewrite (K2 HD). unfold default_of. rewrite G. destruct df; reflexivity. }
    destruct o; unfold expected_node in E; try discriminate; try (destruct (in_dec string_dec dir directions); [|discriminate]);
      injection E as <- <-; injection T as <-; apply dget_In in A; simpl in A;
      repeat (destruct A as [A|A]; [injection A as <- <-; first [congruence|rewrite Kid; reflexivity
         |rewrite K1 by (simpl; tauto); exact A0|rewrite Ke by exact T0; exact A0|apply Def; [reflexivity|exact A0]|apply Dfl; [reflexivity|exact A0]]|]); destruct A. }
  split; [exact (C35_same_connections so fuel d d' SB CP R)|].
  assert (FE : forall e, In e (gedges (dgraph d)) -> exists f r p w, live d f r /\ same_pair (eu e) (ev e) (fl_src r) (fl_tgt r) /\
     flow_edge e f (fl_src r) (fl_tgt r) p /\ placed d p /\ dget "name" (eat e) = Some (VStr (fl_name r)) /\ dget "waypoints" (eat e) = Some (VPoints w)).
  { intros e E. destruct (proj1 (inv_e d I) e E) as (f & r & p & w & Li & Sp & H1 & H2 & H3 & H4 & H5 & H6). exists f, r, p, w.
    split; [exact Li|]. split; [exact Sp|]. split; [repeat split; assumption|]. split; [apply (bu_flows d B e p E H5)|]. auto. }
  split.
  { intros u v k x (e & E & Sp & A). destruct (FE e E) as (f & r & p & w & Li & Sp' & F & P & Nm & Wp).
    assert (Sw : forall k x, link_attr d' (fl_src r) (fl_tgt r) k x -> link_attr d' u v k x).
    { intros k0 x0 (e' & E' & S' & A'). exists e'. split; [exact E'|]. split; [|exact A'].
      eapply same_pair_trans; [exact S'|]. eapply same_pair_trans; [apply same_pair_sym; exact Sp'|exact Sp]. }
    apply Sw. destruct (C35_flows so fuel d d' e f _ _ p SB R E F P) as (L1 & L2 & L3 & L4 & _ & _).
    destruct (C45_name_kept so fuel d d' e f _ _ p SB R E F P (api_no_condition d B e E)) as (name & N1 & _ & L5). rewrite Nm in N1. injection N1 as <-.
    destruct (C39_flows so fuel d d' e f _ _ p SB R E F P) as (pts & [Pt|[Pt _]] & L6); rewrite Wp in Pt; [injection Pt as <-|discriminate].
    destruct F as (F1 & F2 & F3 & F4).
    pose proof (bu_links d B e k x E A) as Hk. simpl in Hk.
    repeat (destruct Hk as [<- |Hk]; [first [rewrite F1 in A|rewrite F2 in A|rewrite F3 in A|rewrite F4 in A|rewrite Nm in A|rewrite Wp in A]; injection A as <-; assumption|]). destruct Hk. }
  assert (Rec : forall f r, live d f r -> dget f (seq_flows d') = Some r).
  { intros f r Li. pose proof (In_dget _ _ _ (inv_f d I) (live_in _ _ _ Li)) as G. destruct (proj2 (inv_e d I) f r G) as (e & E & Sp).
    destruct (FE e E) as (f' & r' & p & w & Li' & Sp' & F & P & Nm & Wp).
    assert (f' = f /\ r' = r).
    { destruct Li as (pre & post & Es & Last). destruct Li' as (pre' & post' & Es' & Last').
      assert (SS : same_pair (fl_src r) (fl_tgt r) (fl_src r') (fl_tgt r')) by (eapply same_pair_trans; [apply same_pair_sym; exact Sp|exact Sp']).
      pose proof (inv_f d I) as ND. rewrite Es in Es'.
      assert (X : In (f', r') (pre ++ (f, r) :: post)) by (rewrite Es'; apply in_or_app; right; left; reflexivity).
      apply in_app_or in X. destruct X as [X|[X|X]].
      - exfalso. assert (Y : In (f, r) post').
        { assert (Z : In (f, r) (pre' ++ (f', r') :: post')) by (rewrite <- Es'; apply in_or_app; right; left; reflexivity).
          apply in_split in X. destruct X as (a1 & a2 & ->). rewrite <- app_assoc in Es'. simpl in Es'.
          assert (a1 = pre' /\ a2 ++ (f, r) :: post = post').
          { apply (split_unique f' r'); [|exact Es']. rewrite Es, <- app_assoc in ND. exact ND. }
          destruct H0 as [_ <-]. apply in_or_app. right. left. reflexivity. }
        apply (Last' f r Y). exact SS.
      - injection X as -> ->. auto.
      - exfalso. apply (Last f' r' X). apply same_pair_sym. exact SS. }
    destruct H0 as [-> ->].
    destruct (C45_name_kept so fuel d d' e f _ _ p SB R E F P (api_no_condition d B e E)) as (name & N1 & S' & _). rewrite Nm in N1. injection N1 as <-.
    rewrite S'. destruct r; reflexivity. }
  split.
  { intros f r. split; [|apply Rec]. intros G. destruct (recorded_edge so fuel d d' f r SB R G) as (e & q & E & _ & Hi).
    destruct (FE e E) as (f' & r' & p & w & Li' & _ & (F1 & _) & _). rewrite Hi in F1. injection F1 as <-. rewrite (Rec f r' Li') in G. injection G as <-. exact Li'. }
  split.
  { intros p a k v Hp A N. apply dget_In in Hp. destruct (C36_processes so fuel d d' p a SB R Hp) as (a' & G & _ & K1 & K2 & K3 & _).
    exists a'. split; [exact G|]. pose proof A as A0. destruct (bu_procs d B p a Hp) as (name & c & e & t & Ea). rewrite Ea in A. apply dget_In in A. simpl in A.
    repeat (destruct A as [A|A]; [injection A as <- <-; first [contradiction|congruence]|]). destruct A. }
  split; [exact (C36_same_processes so fuel d d' SB R)|].
  destruct (C73_diagram_attributes so fuel d d' SB R) as (D1 & D2 & _). split; [exact D1|]. split; [exact D2|].
  exact (C73_no_collaboration so fuel d d' SB R (bu_collab d B)).
Qed.

(** The name of a process does not come back. *)
Theorem C76_process_name_lost : forall set_order fuel l d d' p a, proper_history l d -> round_trip set_order fuel d d' ->
  dget p (procs d) = Some a -> exists a', dget p (procs d') = Some a' /\ dget "name" a' = Some (VStr "").
Proof.
  intros so fuel l d d' p a H R G. apply dget_In in G.
  destruct (C36_processes so fuel d d' p a (api_storable d (history_built l d H)) R G) as (a' & G' & _ & _ & _ & _ & _ & N). exists a'. auto.
Qed.

(** * Examples *)
(** A message start, a split with a default branch, a task inside a subprocess, and a flow replaced by another. *)
Definition saved_ops : list op :=
  [ONew "m" "0"; OProcess "orders" false true "None" "1" "2";
   OStart "id2" "s" (Some "message") false true (Some "s") "" "7"; OExclusive "id2" "g" "Diverging" (Some "id12") (Some "g") "";
   OSubprocess "id2" "pack" false false (Some "u") ""; OTask "u" "wrap" (Some "w") ""; OTask "id2" "weigh" (Some "a") "";
   OEnd "id2" "e" (Some "terminate") (Some "e") "" "8";
   OFlow "id2" "s" "g" "" "10"; OFlow "id2" "g" "u" "large" "11"; OFlow "id2" "g" "a" "" "12"; OFlow "id2" "a" "e" "" "13"; OFlow "id2" "u" "e" "old" "14";
   OFlow "id2" "u" "e" "new" "15"].
Definition saved : diagram := run empty_diagram saved_ops.
Example saved_proper : proper_history saved_ops saved.
Proof. apply (pcheck_history saved_ops [] empty_diagram ph_nil). vm_compute. reflexivity. Qed.
Example C76_example : proper_history saved_ops saved /\ (exists name u, In (ONew name u) saved_ops) /\ procs saved <> [] /\
  exists d', round_trip (fun l => l) 5 saved d' /\ dget "id15" (seq_flows d') = Some (mkFlow "new" "u" "e") /\ dget "id14" (seq_flows d') = None /\
    attr d' "g" "default" = Some (VStr "id12") /\ attr d' "w" "process" = Some (VStr "u").
Proof.
  split; [exact saved_proper|]. split; [exists "m", "0"; left; reflexivity|]. split; [vm_compute; discriminate|].
  destruct (export_xml_file 5 saved) as [file|] eqn:F; [|vm_compute in F; discriminate].
  exists (fst (load_diagram_from_xml (fun l => l) file empty_diagram)). split.
  - exists file. split; [exact F|]. vm_compute in F. injection F as <-. vm_compute. reflexivity.
  - vm_compute in F. injection F as <-. vm_compute. auto.
Qed.

(** Neither the creation of the diagram nor the process can be left out, and an unknown process id loses the node. *)
Theorem C76_not_created_refuted : exists l d, proper_history l d /\ procs d <> [] /\ forall fuel, export_xml_file fuel d = Err (KeyError "id").
Proof.
  exists [OProcess "orders" false true "None" "1" "2"], (run empty_diagram [OProcess "orders" false true "None" "1" "2"]).
  split; [apply (pcheck_history _ [] empty_diagram ph_nil); vm_compute; reflexivity|]. split; [vm_compute; discriminate|].
  intros [|fuel]; vm_compute; reflexivity.
Qed.
Theorem C76_no_process_refuted : exists l d, proper_history l d /\ (exists name u, In (ONew name u) l) /\ forall fuel, export_xml_file fuel d = Err (KeyError "id").
Proof.
  exists [ONew "m" "0"], (run empty_diagram [ONew "m" "0"]). split; [apply (pcheck_history _ [] empty_diagram ph_nil); vm_compute; reflexivity|].
  split; [exists "m", "0"; left; reflexivity|]. intros [|fuel]; vm_compute; reflexivity.
Qed.
Definition stray_ops : list op := [ONew "m" "0"; OProcess "orders" false true "None" "1" "2"; OTask "orders" "weigh" (Some "a") ""].
Theorem C76_unknown_process_refuted : exists l d d' n, history l d /\ procs d <> [] /\ round_trip (fun x => x) 5 d d' /\ is_node d n /\ ~ is_node d' n.
Proof.
  exists stray_ops, (run empty_diagram stray_ops). destruct (export_xml_file 5 (run empty_diagram stray_ops)) as [file|] eqn:F; [|vm_compute in F; discriminate].
  exists (fst (load_diagram_from_xml (fun l => l) file empty_diagram)), "a". split; [apply checked_history; vm_compute; reflexivity|].
  split; [vm_compute; discriminate|]. vm_compute in F. injection F as <-. split; [eexists; split; [vm_compute; reflexivity|vm_compute; reflexivity]|].
  split; [vm_compute; auto|]. vm_compute. tauto.
Qed.

Print Assumptions C76_can_be_saved.
Print Assumptions C76_everything_kept.
Print Assumptions C76_process_name_lost.
Print Assumptions C76_not_created_refuted.
Print Assumptions C76_no_process_refuted.
Print Assumptions C76_unknown_process_refuted.
