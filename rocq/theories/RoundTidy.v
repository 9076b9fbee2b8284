(** What is loaded from a saved file can be saved again, and is of the same kind. *)
From Coq Require Import String List Bool Arith Lia Permutation.
From Verif Require Import Py PyFacts Consts Nx NxFacts Rep SpecRep RepFacts CsvRegex CsvImport CsvFacts Xml Export Import XmlOps
  ImportFacts ActionFacts DiFacts LoadFacts SpecXml XmlScopes Prop_XmlImport ExportFacts ExportTree ExportScopes SpecRound RoundNodes RoundLoad RoundBack RoundLoads
  Prop_XmlRound Prop_XmlLanes Prop_XmlDrawn SpecOrder KeyOrder OrderRound SameRound Prop_Order EdgeOrder ProcOrder MessageBack SpecResave ResaveFacts ScopeOrder.
Import ListNotations.
Open Scope string_scope.
Open Scope list_scope.

Lemma add_all_nodup : forall ns ks, NoDup ks -> NoDup (add_all ks ns).
Proof.
  induction ns as [|n ns IH]; intros ks N; [exact N|]. unfold add_all. cbn [fold_left]. apply IH. unfold add1. destruct (in_dec string_dec n ks) as [I|I]; [exact N|].
  rewrite <- (rev_involutive (ks ++ [n])). apply NoDup_rev. rewrite rev_app_distr. cbn [rev app]. constructor; [rewrite <- in_rev; exact I|apply NoDup_rev; exact N].
Qed.
Lemma fold_source : forall so k, ~ In k join_keys -> k <> "type" -> k <> "process" -> forall n A v0 v,
  fold_left (fun v a => attr_eff so a n k v) A v0 = Some v -> v0 = Some v \/ exists o e, In (ANode o e) A /\ n = get_attribute "id" e /\ dget k (rev (all_fields so o e)) = Some v.
Proof.
  intros so k K1 K2 K3 n. induction A as [|a A IH]; intros v0 v H; [left; exact H|]. cbn [fold_left] in H. apply IH in H.
  destruct H as [H|(o & e & I & E & D)]; [|right; exists o, e; split; [right; exact I|auto]].
  assert (J : forall x, join_eff x n k v0 = v0).
  { intros x. unfold join_eff. simpl in K1. destruct (String.eqb_spec k "outgoing"); [exfalso; subst; tauto|].
    destruct (String.eqb_spec k "incoming"); [exfalso; subst; tauto|]. rewrite !andb_false_r. reflexivity. }
  destruct a as [e|o e|o x| |c|x|x]; cbn [attr_eff] in H; try (left; exact H); try (rewrite J in H; left; exact H).
  - destruct (String.eqb_spec n (get_attribute "id" e)) as [E|E]; [|left; exact H]. unfold overlay in H. destruct (dget k (rev (all_fields so o e))) as [w|] eqn:D; [|left; exact H].
    right. exists o, e. split; [left; reflexivity|]. split; [exact E|]. rewrite D. exact H.
  - destruct (_ && _); [|left; exact H]. unfold overlay, part_fields in H. cbn [rev app dget] in H.
    rewrite (proj2 (String.eqb_neq _ _)) in H by congruence. rewrite (proj2 (String.eqb_neq _ _)) in H by congruence. left. exact H.
Qed.
Lemma definitions_field : forall so o e v, kind e -> dget "event_definitions" (rev (all_fields so o e)) = Some v -> has_definitions (d_local e) = true.
Proof.
  intros so o e v K H.
  revert H. unfold all_fields, node_fields, base_fields, late_fields, specific. intros H.
  destruct K as (s & K & N). apply named_local in N. rewrite N in *. simpl in K.
  repeat (destruct K as [K|K]; [subst s; first [reflexivity | discriminate H]|]). destruct K.
Qed.

Section Tidy.
Variables (so : list string -> list string) (fuel : nat) (d d' : diagram).
Hypothesis Po : any_order so.
Hypothesis SB : storable d.
Hypothesis CP : complete d.
Hypothesis AP : forall n, is_node d n -> in_process d n.
Hypothesis R : round_trip so fuel d d'.
Let W' : gwf (dgraph d') := round_gwf so fuel d d' SB R.
Let SN := C34_same_nodes so fuel d d' SB CP R.

Lemma node_kept : forall n, attr d' n "type" = attr d n "type" /\ attr d' n "process" = attr d n "process" /\ (is_node d n -> attr d' n "id" = Some (VStr n)).
Proof using Po SB CP AP R.
  intros n. destruct (in_dec string_dec n (map fst (gnodes (dgraph d)))) as [I|I].
  - destruct (C34_nodes so fuel d d' n Po SB R (AP n I)) as (_ & Id & T & _ & P & _). auto.
  - assert (A : forall k, attr d n k = None) by (intros k; destruct (attr d n k) eqn:E; [exfalso; apply I; eapply is_node_attr; eauto|reflexivity]).
    assert (B : forall k, attr d' n k = None) by (intros k; destruct (attr d' n k) eqn:E; [exfalso; apply I, (proj1 (SN n)); eapply is_node_attr; eauto|reflexivity]).
    rewrite !A, !B. split; [reflexivity|]. split; [reflexivity|]. intros C. contradiction.
Qed.
Lemma placed_back : forall p, placed d p -> placed d' p.
Proof using Po SB CP AP R.
  intros p P. induction P as [p I|n p T Pr P IH].
  - apply placed_process. apply (C36_same_processes so fuel d d' SB R). exact I.
  - destruct (node_kept n) as (A & B & _). eapply placed_sub; [rewrite A; exact T|rewrite B; exact Pr|exact IH].
Qed.
Lemma nodes_back : forall n, is_node d' n -> in_process d' n.
Proof using Po SB CP AP R.
  intros n I. destruct (AP n (proj1 (SN n) I)) as (s & p & T & K & P & Pl). destruct (node_kept n) as (A & B & _). exists s, p. rewrite A, B. split; [exact T|]. split; [exact K|].
  split; [exact P|apply placed_back; exact Pl].
Qed.
Lemma flow_back : forall e' p, In e' (gedges (dgraph d')) -> dget "process" (eat e') = Some (VStr p) ->
  exists e i u v, In e (gedges (dgraph d)) /\ flow_edge e i u v p /\ placed d p /\ same_pair (eu e) (ev e) u v /\ same_pair (eu e') (ev e') u v /\ flow_edge e' i u v p.
Proof using SB CP R.
  intros e' p I' P'. destruct (edge_cases so fuel d d' SB CP R e' I') as [(e & i & u & v & q & I & FE & Pl & S & S' & FE')|(e & m & r & _ & _ & _ & N & _)]; [|congruence].
  pose proof FE' as (_ & _ & _ & P2). rewrite P' in P2. injection P2 as <-. exists e, i, u, v. auto 10.
Qed.
Lemma id_back : forall e', In e' (gedges (dgraph d')) -> exists e f, In e (gedges (dgraph d)) /\ dget "id" (eat e) = Some (VStr f) /\ dget "id" (eat e') = Some (VStr f) /\
  same_pair (eu e) (ev e) (eu e') (ev e').
Proof using SB CP R.
  intros e' I'. destruct (edge_cases so fuel d d' SB CP R e' I') as [(e & i & u & v & p & I & (F & _) & _ & S & S' & (F' & _))|(e & m & r & I & (c & _ & _ & S & F) & (c' & _ & _ & S' & F') & _)].
  - exists e, i. split; [exact I|]. split; [exact F|]. split; [exact F'|]. clear -S S'. unfold same_pair in *. intuition congruence.
  - exists e, m. split; [exact I|]. split; [exact F|]. split; [exact F'|]. clear -S S'. unfold same_pair in *. intuition congruence.
Qed.
Lemma definitions_only : forall n s v, attr d n "type" = Some (VStr s) -> attr d' n "event_definitions" = Some v -> has_definitions s = true.
Proof using SB CP AP R.
  intros n s v T H. destruct (round_dom so fuel d d' SB R) as (t & TP & ST & LD). destruct (load_loaded _ _ _ _ LD) as (de & pe & mid & [_ E _ D _]).
  rewrite (ds_attr _ _ _ _ D), shapes_other in H by (simpl; intuition discriminate). rewrite (es_attr _ _ _ _ _ E) in H by discriminate.
  change (attr (start de pe empty_diagram) n "event_definitions") with (@None pyval) in H.
  apply fold_source in H; [|simpl; intuition discriminate|discriminate|discriminate]. destruct H as [H|(o & e & I & En & F)]; [discriminate|].
  pose proof (core_explained (dom_of t)) as X. rewrite Forall_forall in X. destruct (X _ I) as (sc & Dc & _).
  assert (K : kind e) by (destruct Dc as (_ & _ & K); exact K). apply definitions_field in F; [|exact K].
  destruct (declared_of d SB fuel t TP sc e Dc) as (p & k & na & c & _ & _ & _ & Na & _ & -> & _). destruct (node_elem_name d SB na c Na) as (Ty & _ & Id & _).
  destruct na as [m a]. cbn [fst snd] in *. rewrite (get_dom _ _ _ Id) in En. subst m. destruct Na as [In_ _]. rewrite (in_node d SB _ _ _ In_) in T. rewrite T in Ty. injection Ty as ->.
  rewrite local_dom in F. exact F.
Qed.
Lemma definitions_of_back : forall n, definitions_of d' n = [] \/ exists s l, attr d n "type" = Some (VStr s) /\ has_definitions s = true /\ definitions_of d' n = l /\ Permutation l (definitions_of d n).
Proof using Po SB CP AP R.
  intros n. unfold definitions_of at 1 2. destruct (attr d' n "event_definitions") as [v|] eqn:E; [|left; reflexivity]. destruct v as [| | |l| | |]; try (left; reflexivity).
  right. pose proof (proj1 (SN n) (is_node_attr _ _ _ _ E)) as Nd. pose proof (AP n Nd) as IP. destruct IP as (s & p & T & _). exists s, l.
  pose proof (definitions_only n s _ T E) as B. split; [exact T|]. split; [exact B|]. split; [reflexivity|].
  destruct (C34_nodes so fuel d d' n Po SB R (AP n Nd)) as (_ & _ & _ & _ & _ & Q). destruct (Q s T) as (_ & _ & Q3). destruct (Q3 B) as (l' & El & Pm). rewrite E in El. injection El as ->. exact Pm.
Qed.
Lemma pools_back : forall c', collaboration d' = Some c' -> exists c, collaboration d = Some c /\ co_messages c' = co_messages c /\ map fst (co_participants c') = map fst (co_participants c) /\
  NoDup (map fst (co_participants c')) /\
  forall p a', In (p, a') (co_participants c') -> exists a, In (p, a) (co_participants c) /\ dget "processRef" a' = dget "processRef" a.
Proof using SB R.
  intros c' H. destruct (collaboration d) as [c|] eqn:Hc; [|rewrite (C73_no_collaboration so fuel d d' SB R Hc) in H; discriminate].
  destruct (C73_collaboration so fuel d d' c SB R Hc) as (c1 & Hc1 & _ & Em & Ek & Ep). rewrite H in Hc1. injection Hc1 as <-.
  destruct (sb_collaboration _ SB c Hc) as [Nd _]. exists c. split; [reflexivity|]. split; [exact Em|]. split; [exact Ek|].
  assert (Nd' : NoDup (map fst (co_participants c'))) by (rewrite Ek; exact Nd). split; [exact Nd'|].
  intros p a' I. assert (J : In p (map fst (co_participants c))) by (rewrite <- Ek; apply in_map_iff; exists (p, a'); auto).
  apply in_map_iff in J. destruct J as ([p0 a] & E & J). cbn [fst] in E. subst p0. exists a. split; [exact J|].
  destruct (Ep p a (In_dget _ _ _ Nd J)) as (a1 & D1 & _ & E2 & _). rewrite (In_dget _ _ _ Nd' I) in D1. injection D1 as <-. exact E2.
Qed.
Lemma procs_nodup : NoDup (map fst (procs d')).
Proof using SB R.
  destruct (round_dom so fuel d d' SB R) as (t & TP & ST & LD). change (map fst (procs d')) with (proc_order d'). rewrite (load_processes so _ _ _ LD).
  apply add_all_nodup. constructor.
Qed.

Theorem round_storable : storable d'.
Proof using Po SB CP AP R.
  constructor.
  - exact W'.
  - exact procs_nodup.
  - intros c' H. destruct (pools_back c' H) as (c & Hc & -> & _ & N & _). split; [exact N|exact (proj2 (sb_collaboration _ SB c Hc))].
  - intros n I. destruct (nodes_back n I) as (s & p & T & K & _). exists s. split; [exact T|right; exact K].
  - intros n T. destruct (node_kept n) as (A & _ & B). rewrite A in T. assert (Nd : is_node d n) by (eapply is_node_attr; eauto). split; [apply B; exact Nd|].
    intros I. apply (C36_same_processes so fuel d d' SB R) in I. exact (proj2 (sb_subs _ SB n T) I).
  - intros n s ds x T E I. destruct (node_kept n) as (A & _). rewrite A in T. destruct (definitions_of_back n) as [Z|(s' & l & T' & _ & El & Pm)].
    + unfold definitions_of in Z. rewrite E in Z. subst ds. destruct I.
    + rewrite T in T'. injection T' as <-. unfold definitions_of at 1 in El. rewrite E in El. subst l. apply (Permutation_in _ Pm) in I.
      unfold definitions_of in I. destruct (attr d n "event_definitions") as [v|] eqn:Ev; [|destruct I]. destruct v; try destruct I. eapply (sb_definitions _ SB); eauto.
  - intros n k l Hk A. rewrite (round_lists so fuel d d' SB CP AP R n k Hk) in A. eapply (sb_lists _ SB); eauto.
  - intros e' q I' P'. destruct (flow_back e' q I' P') as (e & i & u & v & I & FE & Pl & S & S' & FE').
    exists i, u, v. split; [exact FE'|]. split; [exact S'|]. rewrite (round_out so fuel d d' SB CP AP R), (round_inc so fuel d d' SB CP AP R).
    pose proof FE as (F1 & F2 & F3 & F4). destruct (sb_flows _ SB e q I F4) as (i0 & u0 & v0 & (G1 & G2 & G3 & _) & _ & G). rewrite F1 in G1. rewrite F2 in G2. rewrite F3 in G3.
    injection G1 as <-. injection G2 as <-. injection G3 as <-. exact G.
  - exact (proj2 (every_id so fuel d d' SB CP R)).
  - intros c' m r H I. destruct (pools_back c' H) as (c & Hc & Z & _). rewrite Z in I. rewrite (round_out so fuel d d' SB CP AP R), (round_inc so fuel d d' SB CP AP R).
    destruct (sb_messages _ SB c m r Hc I) as (M1 & M2 & M3). split; [exact M1|]. split; [exact M2|].
    intros e' p I' P' S'. destruct (flow_back e' p I' P') as (e & i & u & v & Ie & (_ & _ & _ & P) & _ & S & S1 & _). apply (M3 e p Ie P).
    clear -S S1 S'. unfold same_pair in *. intuition congruence.
  - intros c' p a' s H I Rf T K. destruct (pools_back c' H) as (c & Hc & _ & _ & _ & Q). destruct (Q p a' I) as (a & Ia & E). rewrite E in Rf.
    exact (pool_box d SB CP AP c p a Hc Ia Rf).
Qed.
Theorem round_complete : complete d'.
Proof using Po SB CP AP R.
  constructor.
  - intros n. split; [intros I; left; apply nodes_back; exact I|]. intros [(s & p & T & _)|(c' & a' & H & I & Rf)]; [eapply is_node_attr; eauto|].
    exfalso. destruct (pools_back c' H) as (c & Hc & _ & _ & _ & Q). destruct (Q n a' I) as (a & Ia & E). rewrite E in Rf. exact (pool_box d SB CP AP c n a Hc Ia Rf).
  - intros e' I'. destruct (edge_cases so fuel d d' SB CP R e' I') as [(e & i & u & v & p & I & _ & Pl & _ & _ & (_ & _ & _ & P))|(e & m & r & _ & _ & (c' & H & Im & S & _) & _)].
    + left. exists p. split; [exact P|apply placed_back; exact Pl].
    + right. exists c', m, r. auto.
  - intros c' m r H I. destruct (pools_back c' H) as (c & Hc & Z & _). rewrite Z in I. destruct (C73_messages so fuel d d' c m r SB CP R Hc I) as ((e' & I' & S & D) & _).
    exists e'. split; [exact I'|]. split; [clear -S; unfold same_pair in *; intuition congruence|exact D].
Qed.
Lemma round_scoped : scoped_flows d -> scoped_flows d'.
Proof using Po SB CP AP R.
  intros FS e' q I' P'. destruct (flow_back e' q I' P') as (e & i & u & v & I & (F1 & F2 & F3 & F4) & Pl & S & S' & _).
  destruct (FS e q I F4) as [A B]. rewrite !(proj1 (proj2 (node_kept _))). clear -S S' A B. unfold same_pair in *. intuition congruence.
Qed.
Lemma round_definitions : plain_definitions d -> plain_definitions d'.
Proof using Po SB CP AP R.
  intros PD n. destruct (definitions_of_back n) as [->|(s & l & _ & _ & -> & Pm)]; [simpl; lia|]. rewrite (Permutation_length Pm). apply PD.
Qed.
Lemma lanes_back : level_lanes d -> forall q a' v, In (q, a') (procs d') -> dget "laneSet" a' = Some v -> exists a s ls, In (q, a) (procs d) /\ dget "laneSet" a = Some (VLaneSet s ls) /\ v = VLaneSet "" ls.
Proof using SB R.
  intros LL q a' v I D. assert (J : In q (map fst (procs d))) by (apply (C36_same_processes so fuel d d' SB R); apply in_map_iff; exists (q, a'); auto).
  apply in_map_iff in J. destruct J as ([q0 a] & E & J). cbn [fst] in E. subst q0. pose proof (In_dget _ _ _ procs_nodup I) as G. exists a.
  destruct (dget "laneSet" a) as [w|] eqn:Da; [|destruct (C37_no_lanes so fuel d d' q a SB R J Da) as (a1 & D1 & E1); congruence].
  destruct (round_dom so fuel d d' SB R) as (t & TP & ST & LD).
  assert (Q : exists s ls, w = VLaneSet s ls).
  { destruct (tree_inv _ _ _ TP) as [(did & dname & plid & plel & co & cosh & ps & shapes & edges & _ & _ & _ & _ & _ & Ps & _)].
    destruct (rmap_from _ _ _ _ _ Ps _ J) as [[k sh] [_ Hk]]. destruct (process_inv _ _ _ _ _ Hk) as [(c & x & u & ls & ns & es & fs & _ & _ & _ & L & _)].
    unfold lanes_out in L. change k_lane_set with "laneSet" in L. rewrite Da in L. destruct w as [| | | | | |s ls0]; try discriminate. eauto. }
  destruct Q as (s & ls & ->). exists s, ls. split; [exact J|]. split; [reflexivity|]. destruct (LL q a s ls J Da) as (N & Al & Fl).
  destruct (C37_flat_lanes so fuel d d' q a s ls SB R J Da N Al Fl) as (a1 & D1 & E1). congruence.
Qed.
Lemma round_pools : own_pools d -> own_pools d'.
Proof using SB CP R.
  intros OP c' p a' H I Nd. destruct (pools_back c' H) as (c & Hc & _ & _ & _ & Q). destruct (Q p a' I) as (a & Ia & _). apply (OP c p a Hc Ia). apply SN. exact Nd.
Qed.
Lemma round_lanes : level_lanes d -> level_lanes d'.
Proof using SB CP R.
  intros LL q a' s' ls I D. destruct (lanes_back LL q a' _ I D) as (a & s & ls0 & J & Da & E). injection E as -> <-. destruct (LL q a s ls J Da) as (N & Al & Fl).
  split; [exact N|]. split; [|exact Fl]. intros i l Il. destruct (Al i l Il) as (X1 & X2 & X3 & X4). split; [rewrite SN; exact X1|]. split; [|split].
  - intros e' I' Id. destruct (id_back e' I') as (e & f & Ie & F1 & G1 & _). rewrite Id in G1. injection G1 as <-. exact (X2 e Ie F1).
  - intros c' b H Ib. destruct (pools_back c' H) as (c & Hc & _ & _ & _ & Q). destruct (Q i b Ib) as (b0 & Ib0 & _). exact (X3 c b0 Hc Ib0).
  - intros l' (q1 & a1 & s1 & ls1 & I1 & D1 & L1). destruct (lanes_back LL q1 a1 _ I1 D1) as (a0 & s0 & ls2 & J1 & Da1 & E). injection E as _ ->.
    apply X4. exists q1, a0, s0, ls2. auto.
Qed.
End Tidy.

Theorem round_tidy : forall so fuel d d', any_order so -> tidy d -> round_trip so fuel d d' -> tidy d'.
Proof.
  intros so fuel d d' Po [SB CP AP FS PD LL OP] R. constructor.
  - eapply round_storable; eauto.
  - eapply round_complete; eauto.
  - eapply nodes_back; eauto.
  - eapply round_scoped; eauto.
  - eapply round_definitions; eauto.
  - eapply round_lanes; eauto.
  - eapply round_pools; eauto.
Qed.
