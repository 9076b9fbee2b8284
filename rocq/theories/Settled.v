(** The second file has the processes of the first, and the third file is the second. *)
From Coq Require Import String List Bool Arith Lia Permutation.
From Verif Require Import Py PyFacts Consts Nx NxFacts Rep SpecRep RepFacts CsvRegex CsvImport CsvFacts Xml Export Import XmlOps
  ImportFacts ActionFacts DiFacts LoadFacts SpecXml XmlScopes Prop_XmlImport ExportFacts ExportOk ExportTree ExportScopes SpecRound SpecWrite RoundNodes RoundLoad RoundBack RoundLoads
  Prop_XmlExported Prop_XmlLoads Prop_XmlRound Prop_XmlLanes Prop_XmlDrawn SpecOrder KeyOrder OrderRound SameRound Prop_Order EdgeOrder ProcOrder MessageBack SpecResave ResaveFacts ScopeOrder RoundTidy ResaveScopes.
Import ListNotations.
Open Scope string_scope.
Open Scope list_scope.

Lemma rmap_swap : forall A B (f : A -> res B) l l', Permutation l l' -> forall r, rmap f l = Ok r -> exists r', rmap f l' = Ok r' /\ Permutation r r'.
Proof.
  intros A B f l l' P. induction P as [|x l l' P IH|x y l|l l' l'' P1 IH1 P2 IH2]; intros r H.
  - exists r. split; [exact H|apply Permutation_refl].
  - cbn [rmap] in *. destruct (f x) as [b|]; [|discriminate]. cbn [rbind] in *. destruct (rmap f l) as [bs|]; [|discriminate]. cbn [rbind] in H. injection H as <-.
    destruct (IH _ eq_refl) as (bs' & -> & Q). exists (b :: bs'). split; [reflexivity|constructor; exact Q].
  - cbn [rmap] in *. destruct (f y) as [b|]; [|discriminate]. cbn [rbind] in *. destruct (f x) as [c|]; [|discriminate]. cbn [rbind] in *.
    destruct (rmap f l) as [bs|]; [|discriminate]. cbn [rbind] in *. injection H as <-. exists (c :: b :: bs). split; [reflexivity|constructor].
  - destruct (IH1 r H) as (r' & H' & Q). destruct (IH2 r' H') as (r'' & H'' & Q'). exists r''. split; [exact H''|eapply Permutation_trans; eauto].
Qed.
Lemma rmap_keyed : forall A A' B K (key : A -> K) (key' : A' -> K) (f : A -> res B) (g : A' -> res B) l l', Permutation (map key' l') (map key l) ->
  (forall x y c, In x l -> In y l' -> key' y = key x -> f x = Ok c -> g y = Ok c) -> forall r, rmap f l = Ok r -> exists r', rmap g l' = Ok r' /\ Permutation r r'.
Proof.
  intros A A' B K key key' f g l l' P H r E. apply Permutation_sym in P. destruct (Permutation_map_inv key' l' P) as (l2 & E2 & P2). 
  apply forall_map in E2. apply forall_in in E2. assert (G : rmap g l2 = Ok r).
  { apply (rmap_rel _ _ _ _ _ _ _ _ E2 _ E). intros x y c _ _ (Ix & Iy & Q) F. apply (H x y c Ix); auto. eapply Permutation_in; [symmetry; exact P2|exact Iy]. }
  destruct (rmap_swap _ _ g l2 l' (Permutation_sym P2) r G) as (r' & G' & Q). eauto.
Qed.
Lemma nodup_key : forall A B (f : A -> B) l, NoDup l -> (forall x y, In x l -> In y l -> f x = f y -> x = y) -> NoDup (map f l).
Proof.
  intros A B f l N. induction N as [|x l Nx N IH]; intros H; [constructor|]. cbn [map]. constructor.
  - intros I. apply in_map_iff in I. destruct I as (y & E & I). rewrite (H x y) in Nx; [contradiction|left; reflexivity|right; exact I|auto].
  - apply IH. intros a b Ia Ib. apply H; right; assumption.
Qed.
Lemma apart_nodup : forall l, apart l -> NoDup l.
Proof.
  induction l as [|p l IH]; intros A; [constructor|]. destruct A as [A B]. constructor; [|auto]. intros I. specialize (A p I). rewrite joined_refl in A. discriminate.
Qed.
Definition edge_id (e : edge) : string := match dget "id" (eat e) with Some (VStr i) => i | _ => "" end.
Lemma has_id : forall d e, tidy d -> In e (gedges (dgraph d)) -> exists f, dget "id" (eat e) = Some (VStr f).
Proof.
  intros d e T I. destruct (carried d e (ti_complete d T) (ti_storable d T) I) as [(p & P & _)|(m & r & c & _ & _ & _ & D)]; [|eauto].
  destruct (sb_flows _ (ti_storable d T) e p I P) as (f & _ & _ & (F & _) & _). eauto.
Qed.
Lemma edges_own : forall d, tidy d -> NoDup (map edge_id (gedges (dgraph d))).
Proof.
  intros d T. pose proof (ti_storable d T) as SB. apply nodup_key.
  - apply (NoDup_map_inv ends_of). apply apart_nodup, apart_ends, (gwf_simple _ (sb_graph _ SB)).
  - intros e e' I I' E. destruct (has_id d e T I) as [f F]. destruct (has_id d e' T I') as [f' F'].
    unfold edge_id in E. rewrite F, F' in E. subst f'. exact (sb_edge_ids _ SB e e' f I I' F F').
Qed.
Definition tree_of (di pl : attrs) (co cosh : list etree) (ps : list (etree * list etree)) (shapes edges : list etree) : etree :=
  elem "definitions" definitions_attributes
    (elem "bpmndi:BPMNDiagram" di [elem "bpmndi:BPMNPlane" pl (cosh ++ flat_map snd ps ++ shapes ++ edges)] :: co ++ map fst ps).

Section Next.
Variables (so : list string -> list string) (fuel : nat) (d d' : diagram).
Hypothesis Po : any_order so.
Hypothesis T : tidy d.
Hypothesis R : round_trip so fuel d d'.
Let SB := ti_storable d T.
Let CP := ti_complete d T.
Let AP := ti_nodes d T.
Let T' : tidy d' := round_tidy so fuel d d' Po T R.
Let SB' := ti_storable d' T'.

(** The picture of a connection, sequence flow or message flow. *)
Definition drawn_alike (a a' : attrs) : Prop := forall e, export_flow_di_data a = Ok e -> export_flow_di_data a' = Ok e.
Lemma edge_pair : forall e e', In e (gedges (dgraph d)) -> In e' (gedges (dgraph d')) -> edge_id e' = edge_id e \/ ends_of e' = ends_of e -> drawn_alike (eat e) (eat e').
Proof using Po T R.
  intros e e' I I' E.
  assert (Same : forall e0 f, In e0 (gedges (dgraph d)) -> dget "id" (eat e0) = Some (VStr f) -> dget "id" (eat e') = Some (VStr f) -> same_pair (eu e0) (ev e0) (eu e') (ev e') -> e0 = e).
  { intros e0 f I0 F F' S. destruct E as [E|E].
    - destruct (has_id d e T I) as [j J]. unfold edge_id in E. rewrite F', J in E. subst j. exact (sb_edge_ids _ SB e0 e f I0 I F J).
    - apply (gwf_unique _ _ _ (sb_graph _ SB) I0 I). apply same_pair_connects. unfold ends_of in E. injection E as E1 E2. clear -S E1 E2. unfold same_pair in *. intuition congruence. }
  destruct (edge_cases so fuel d d' SB CP R e' I') as [(e0 & i & u & v & p & I0 & FE & Pl & S & S' & FE')|(e0 & m & r & I0 & (c & _ & _ & S & F) & (c' & _ & _ & S' & F') & _ & _ & l & Pt & Lw)].
  - assert (e0 = e); [|subst e0].
    { apply (Same e0 i I0); [exact (proj1 FE)|exact (proj1 FE')|]. clear -S S'. unfold same_pair in *. intuition congruence. }
    refine (proj2 (proj2 (_ : written_alike (eat e) (eat e')))). apply (edge_alike so fuel d d' SB R p (u, v, eat e) e' Pl); [|exact I'|].
    + exists e, i, u, v. cbn [fst snd]. split; [exact I|]. split; [reflexivity|]. split; [exact FE|]. destruct FE as (_ & F2 & F3 & _). split; [unfold read_ends; cbn [snd]; rewrite F2, F3; reflexivity|left; auto].
    + destruct FE as (_ & F2 & F3 & _). unfold read_ends. cbn [snd]. rewrite F2, F3. exact S'.
  - assert (e0 = e); [|subst e0]. { apply (Same e0 m I0 F F'). clear -S S'. unfold same_pair in *. intuition congruence. }
    intros x H. unfold export_flow_di_data in *. change k_id with "id" in *. rewrite (proj2 (dgetE_ok _ _ _) F) in H. rewrite (proj2 (dgetE_ok _ _ _) F'). cbn [rbind] in *.
    destruct (gui (VStr m)) as [g|]; [|discriminate]. cbn [rbind] in *. unfold waypoint_elements in *. change k_waypoints with "waypoints" in *.
    rewrite (proj2 (dgetE_ok _ _ _) Lw). destruct Pt as [Pt|[Pt ->]]; rewrite (proj2 (dgetE_ok _ _ _) Pt) in H; exact H.
Qed.
Lemma procs_kept : proc_order d' = proc_order d.
Proof using T R.
  destruct (round_dom so fuel d d' SB R) as (t & TP & ST & LD). rewrite (load_processes so _ _ _ LD). change (proc_order empty_diagram) with (@nil string).
  destruct (tree_kids d fuel t TP) as (dia & co & cosh & ps & Et & Ek & C & Ps & El & Fd).
  rewrite (main_elements d SB fuel t "process" dia co cosh ps (or_introl eq_refl) Et Ek C Ps El Fd), filter_app.
  assert (Z1 : filter (has_tag "process") co = []).
  { destruct (collaboration_inv _ _ _ C) as [(_ & -> & _)|(cc & ms & pp & _ & M & P & -> & _)]; reflexivity. }
  rewrite Z1. cbn [app]. pose proof (sb_processes _ SB) as Nd. unfold proc_order. pose proof Ps as Ps'. apply rmap_forall in Ps'. 
  assert (F : map (get_attribute "id") (map dom_of (filter (has_tag "process") (map fst ps))) = map fst (procs d)).
  { assert (G : Forall2 (fun p k => process_elem d fuel (fst p) (fst k)) (procs d) ps).
    { apply forall_in in Ps'. eapply forall_impl; [|exact Ps']. intros [q a] [k sh] (I & _ & E). exists a, sh. auto. }
    clear -G. induction G as [|p k l l' H G IH]; [reflexivity|]. destruct (process_name d fuel _ _ H) as [Et Ei]. cbn [map filter]. unfold has_tag at 1. rewrite Et. cbn.
    f_equal; [|exact IH]. apply get_dom. exact Ei. }
  rewrite F. clear -Nd. assert (G : forall l ks, NoDup (ks ++ l) -> add_all ks l = ks ++ l).
  { induction l as [|x l IH]; intros ks N; [symmetry; apply app_nil_r|]. unfold add_all. cbn [fold_left]. unfold add1 at 2. destruct (in_dec string_dec x ks) as [I|I].
    - exfalso. apply NoDup_remove_2 in N. apply N. apply in_or_app. left. exact I.
    - fold (add_all (ks ++ [x]) l). rewrite IH; rewrite <- app_assoc; [reflexivity|exact N]. }
  apply G. exact Nd.
Qed.
Lemma shape_back : forall n a a' e, In (n, a) (gnodes (dgraph d)) -> In (n, a') (gnodes (dgraph d')) ->
  export_node_di_data (n, a) = Ok e -> export_node_di_data (n, a') = Ok e.
Proof using Po T R. exact (shape_alike so fuel d d' Po SB AP R). Qed.
Lemma processes_again : forall ps t, export_tree fuel d = Ok t -> strings t -> rmap (export_process fuel d) (procs d) = Ok ps -> rmap (export_process fuel d') (procs d') = Ok ps.
Proof using Po T R.
  intros ps t TP ST Ps. pose proof procs_kept as E. symmetry in E. unfold proc_order in E. apply forall_map in E. apply forall_in in E.
  apply (rmap_rel _ _ _ _ _ _ _ _ E _ Ps). intros [q a] [q' a'] [k sh] I Ik (_ & I' & Q) Ex. cbn [fst] in Q. subst q'.
  apply (process_again so fuel d d' Po T R q a a' k sh I); [apply In_dget; [exact (sb_processes _ SB')|exact I']| |exact Ex].
  destruct (tree_kids d fuel t TP) as (dia & co & cosh & ps0 & Et & Ek & C & Ps0 & El & Fd). rewrite Ps in Ps0. injection Ps0 as <-.
  apply (strings_kid _ _ ST). rewrite Ek. right. apply in_or_app. right. apply in_map_iff. exists (k, sh). auto.
Qed.
Lemma keys_swap : Permutation (map fst (gnodes (dgraph d'))) (map fst (gnodes (dgraph d))).
Proof using Po T R.
  apply NoDup_Permutation; [exact (gwf_nodup _ (sb_graph _ SB'))|exact (gwf_nodup _ (sb_graph _ SB))|]. exact (C34_same_nodes so fuel d d' SB CP R).
Qed.
Lemma ids_swap : Permutation (map edge_id (gedges (dgraph d'))) (map edge_id (gedges (dgraph d))).
Proof using Po T R.
  apply NoDup_Permutation; [exact (edges_own d' T')|exact (edges_own d T)|]. intros i. rewrite !in_map_iff. split.
  - intros (e' & E & I'). destruct (id_back so fuel d d' SB CP R e' I') as (e & f & I & F & F' & _). exists e. split; [|exact I]. rewrite <- E. unfold edge_id. rewrite F, F'. reflexivity.
  - intros (e & E & I). destruct (proj2 (C35_same_connections so fuel d d' SB CP R (eu e) (ev e))) as (e' & I' & S'); [exists e; split; [exact I|apply same_pair_refl]|].
    destruct (id_back so fuel d d' SB CP R e' I') as (e0 & f & I0 & F & F' & S). exists e'. split; [|exact I']. assert (e0 = e); [|subst e0; rewrite <- E; unfold edge_id; rewrite F, F'; reflexivity].
    apply (gwf_unique _ _ _ (sb_graph _ SB) I0 I). apply same_pair_connects. clear -S S'. unfold same_pair in *. intuition congruence.
Qed.
Lemma view_edges : forall d0 (f : attrs -> res etree), gwf (dgraph d0) -> exists l, Permutation l (gedges (dgraph d0)) /\
  rmap (fun t => f (snd t)) (edges_view (dgraph d0)) = rmap (fun e => f (eat e)) l.
Proof using.
  clear. intros d0 f W. destruct (edges_view_reports _ W) as (l & P & F). exists l. split; [exact P|].
  clear -F. induction F as [|t e l0 l [E _] F IH]; [reflexivity|]. cbn [rmap]. rewrite E, IH. reflexivity.
Qed.

(** The tree of what was loaded: the same but for the order of shapes and edges. *)
Theorem next_tree : forall t, export_tree fuel d = Ok t -> strings t -> exists di pl co cosh ps shapes edges shapes' edges',
  t = tree_of di pl co cosh ps shapes edges /\ export_tree fuel d' = Ok (tree_of di pl co cosh ps shapes' edges') /\
  Permutation shapes shapes' /\ Permutation edges edges' /\
  rmap export_node_di_data (gnodes (dgraph d)) = Ok shapes /\ rmap export_node_di_data (gnodes (dgraph d')) = Ok shapes' /\
  rmap (fun f => export_flow_di_data (snd f)) (edges_view (dgraph d)) = Ok edges /\ rmap (fun f => export_flow_di_data (snd f)) (edges_view (dgraph d')) = Ok edges'.
Proof using Po T R.
  intros t TP ST. destruct (tree_inv _ _ _ TP) as [(did & dname & plid & plel & co & cosh & ps & shapes & edges & D1 & D2 & D3 & D4 & C & Ps & Sh & Ed & Et)].
  destruct (C73_diagram_attributes so fuel d d' SB R) as (E1 & E2 & E3 & E4).
  destruct (rmap_keyed _ _ _ _ fst fst export_node_di_data export_node_di_data _ _ keys_swap) with (r := shapes) as (shapes' & Sh' & P1); [|exact Sh|].
  { intros [n a] [n' a'] c I I' En Q. cbn [fst] in En. subst n'. exact (shape_back n a a' c I I' Q). }
  assert (X : exists edges', rmap (fun f => export_flow_di_data (snd f)) (edges_view (dgraph d')) = Ok edges' /\ Permutation edges edges').
  { destruct (view_edges d export_flow_di_data (sb_graph _ SB)) as (l & Pl & El). destruct (view_edges d' export_flow_di_data (sb_graph _ SB')) as (l' & Pl' & El'). rewrite El in Ed. rewrite El'.
    apply (rmap_keyed _ _ _ _ edge_id edge_id (fun e => export_flow_di_data (eat e)) (fun e => export_flow_di_data (eat e)) l l').
    - eapply Permutation_trans; [apply Permutation_map; exact Pl'|]. eapply Permutation_trans; [exact ids_swap|]. apply Permutation_map. symmetry. exact Pl.
    - intros e e' c I I' E Q. refine (edge_pair e e' _ _ (or_introl E) c Q); eapply Permutation_in; eauto.
    - exact Ed. }
  destruct X as (edges' & Ed' & P2).
  exists [("id", did); ("name", dname)], [("id", plid); ("bpmnElement", plel)], co, cosh, ps, shapes, edges, shapes', edges'.
  split; [exact Et|]. split; [|repeat (split; [assumption|]); assumption].
  unfold export_tree, copied. change k_id with "id". change k_name with "name". change k_bpmn_element with "bpmnElement".
  unfold dgetE. rewrite E1, E2, E3, E4, D1, D2, D3, D4. cbn [rbind]. rewrite (pools_alike so fuel d d' SB CP R (ti_lanes d T) (ti_pools d T) _ C). cbn [rbind].
  rewrite (processes_again ps t TP ST Ps). cbn [rbind]. unfold nodes_view, get_flows. rewrite Sh'. cbn [rbind]. rewrite Ed'. reflexivity.
Qed.
(** If the order did not change, the tree is the same. *)
Theorem ordered_tree : node_order d' = node_order d -> edge_order d' = edge_order d -> forall t, export_tree fuel d = Ok t -> strings t -> export_tree fuel d' = Ok t.
Proof using Po T R.
  intros On Oe t TP ST. destruct (next_tree t TP ST) as (di & pl & co & cosh & ps & sh & ed & sh' & ed' & -> & X & _ & _ & S1 & S2 & S3 & S4). rewrite X. f_equal.
  assert (A : sh' = sh).
  { unfold node_order in On. symmetry in On. apply forall_map in On. apply forall_in in On.
    pose proof (rmap_rel _ _ _ _ _ export_node_di_data _ _ On _ S1) as Q. rewrite S2 in Q. assert (Y : Ok sh' = Ok sh); [|congruence]. apply Q.
    intros [n a] [n' a'] c _ _ (I & I' & En) Ex. cbn [fst] in En. subst n'. exact (shape_back n a a' c I I' Ex). }
  assert (B : ed' = ed).
  { assert (F : Forall2 (fun e e' => ends_of e' = ends_of e /\ drawn_alike (eat e) (eat e')) (gedges (dgraph d)) (gedges (dgraph d'))).
    { unfold edge_order in Oe. symmetry in Oe. apply forall_map in Oe. apply forall_in in Oe. eapply forall_impl; [|exact Oe]. intros e e' (I & I' & E). split; [auto|]. apply edge_pair; auto. }
    pose proof (view_paired drawn_alike _ _ F (node_order d) []) as V. pose proof S4 as S5. unfold edges_view in S3, S5. change (dkeys (gnodes (dgraph d'))) with (node_order d') in S5. rewrite On in S5.
    pose proof (rmap_rel _ _ _ _ _ (fun f => export_flow_di_data (snd f)) _ _ V _ S3) as Q. unfold attrs, dict in *. rewrite S5 in Q. assert (Y : Ok ed' = Ok ed); [|congruence]. apply Q.
    intros f f' c _ _ (_ & W) Ex. apply W. exact Ex. }
  rewrite A, B. reflexivity.
Qed.
End Next.

Section Third.
Variables (so : list string -> list string) (fuel : nat) (d d1 d2 : diagram).
Hypothesis Po : any_order so.
Hypothesis T : tidy d.
Hypothesis R1 : round_trip so fuel d d1.
Hypothesis R2 : round_trip so fuel d1 d2.
Let T1 : tidy d1 := round_tidy so fuel d d1 Po T R1.

Lemma tree_main : forall d0 t di pl co cosh ps sh ed, storable d0 -> export_tree fuel d0 = Ok t -> t = tree_of di pl co cosh ps sh ed ->
  forall g, main_tag g -> document_elements g (dom_of t) = map dom_of (filter (has_tag g) (co ++ map fst ps)).
Proof using.
  intros d0 t di pl co cosh ps sh ed SB TP Et g G. destruct (tree_kids d0 fuel t TP) as (dia & co0 & cosh0 & ps0 & E1 & E2 & C & Ps & E3 & Fd).
  rewrite (main_elements d0 SB fuel t g dia co0 cosh0 ps0 G E1 E2 C Ps E3 Fd). rewrite Et in E2. cbn [e_kids tree_of elem] in E2. injection E2 as _ E2. rewrite E2. reflexivity.
Qed.
Lemma third_order : node_order d2 = node_order d1 /\ edge_order d2 = edge_order d1.
Proof using Po T R1 R2.
  destruct (round_dom so fuel d d1 (ti_storable d T) R1) as (t & TP & ST & LD). destruct (round_dom so fuel d1 d2 (ti_storable d1 T1) R2) as (t1 & TP1 & ST1 & LD1).
  destruct (next_tree so fuel d d1 Po T R1 t TP ST) as (di & pl & co & cosh & ps & sh & ed & sh' & ed' & Et & X & _). rewrite X in TP1. injection TP1 as E1. symmetry in E1.
  assert (C : core_actions (dom_of t1) = core_actions (dom_of t)).
  { unfold core_actions. change k_process with "process". change t_collaboration with "collaboration".
    rewrite !(tree_main d t di pl co cosh ps sh ed (ti_storable d T) TP Et) by (unfold main_tag; auto).
    rewrite <- E1 in X. rewrite !(tree_main d1 t1 di pl co cosh ps sh' ed' (ti_storable d1 T1) X E1) by (unfold main_tag; auto). reflexivity. }
  rewrite (load_order so _ _ _ LD), (load_order so _ _ _ LD1), (load_edge_order so _ _ _ LD), (load_edge_order so _ _ _ LD1), C. auto.
Qed.
Theorem third_tree : forall t, export_tree fuel d1 = Ok t -> strings t -> export_tree fuel d2 = Ok t.
Proof using Po T R1 R2.
  destruct third_order as [A B]. exact (ordered_tree so fuel d1 d2 Po T1 R2 A B).
Qed.
End Third.

(** Reading what was written again succeeds. *)
Lemma strings_elem_iff : forall g a ks, strings (elem g a ks) <-> (forall p, In p a -> is_string p) /\ forall k, In k ks -> strings k.
Proof. intros g a ks. split; [intros S; inversion S; auto|intros [A B]; constructor; auto]. Qed.
Lemma round_rereadable : forall so fuel d d', any_order so -> tidy d -> rereadable d -> round_trip so fuel d d' -> rereadable d'.
Proof.
  intros so fuel d d' Po T RR R. pose proof (round_tidy so fuel d d' Po T R) as T'. pose proof T as [SB CP AP FS PD LL OP]. constructor.
  - intros e' i I' C. destruct (edge_cases so fuel d d' SB CP R e' I') as [(e & j & u & v & p & I & FE & Pl & S & S' & _)|(e & m & r & _ & _ & _ & _ & N & _)]; [|congruence].
    destruct (C35_flows so fuel d d' e j u v p SB R I FE Pl) as (_ & _ & _ & _ & L5 & _). apply (rr_conditions _ RR e i I). apply L5. exists e'. split; [exact I'|]. split; [exact S'|exact C].
  - intros i name child refs di L. destruct (level_lane d' (ti_lanes d' T') i _ L) as (q & a' & s & ls & I & D & J).
    destruct (lanes_back so fuel d d' SB R LL q a' _ I D) as (a & s0 & ls0 & I0 & D0 & E). injection E as _ ->.
    apply (rr_references _ RR i name child refs di). exists q, a, s0, ls0. split; [exact I0|]. split; [exact D0|]. constructor. exact J.
  - intros i l e L I. destruct (level_lane d' (ti_lanes d' T') i _ L) as (q & a' & s & ls & Iq & D & J). destruct (ti_lanes d' T' q a' s ls Iq D) as (_ & Al & _).
    destruct (Al i l J) as (_ & Q & _). exact (Q e I).
Qed.
Lemma tidy_again : forall so fuel d d1, any_order so -> tidy d -> rereadable d -> round_trip so fuel d d1 -> exists d2, round_trip so fuel d1 d2.
Proof.
  intros so fuel d d1 Po T RR R. pose proof (round_tidy so fuel d d1 Po T R) as T1. pose proof (ti_storable d1 T1) as SB1.
  destruct (round_dom so fuel d d1 (ti_storable d T) R) as (t & TP & ST & _). destruct (next_tree so fuel d d1 Po T R t TP ST) as (di & pl & co & cosh & ps & sh & ed & sh' & ed' & Et & TP1 & P1 & P2 & _).
  set (t1 := tree_of di pl co cosh ps sh' ed') in *.
  assert (ST1 : strings t1).
  { rewrite Et in ST. unfold tree_of in ST. apply strings_elem_iff in ST. destruct ST as [A B]. unfold t1, tree_of. apply strings_elem_iff. split; [exact A|]. intros k [<-|I]; [|apply B; right; exact I].
    specialize (B _ (or_introl eq_refl)). apply strings_elem_iff in B. destruct B as [B1 B2]. apply strings_elem_iff. split; [exact B1|]. intros k [<-|[]].
    specialize (B2 _ (or_introl eq_refl)). apply strings_elem_iff in B2. destruct B2 as [B2 B3]. apply strings_elem_iff. split; [exact B2|]. intros k I. apply B3.
    apply in_app_or in I. apply in_or_app. destruct I as [I|I]; [left; exact I|right]. apply in_app_or in I. apply in_or_app. destruct I as [I|I]; [left; exact I|right].
    apply in_app_or in I. apply in_or_app. destruct I as [I|I]; [left|right]; (eapply Permutation_in; [symmetry; eassumption|exact I]). }
  destruct (document_some t1 ST1) as [file F].
  assert (X : export_xml_file fuel d1 = Ok file) by (unfold export_xml_file; rewrite TP1; exact F).
  destruct (C38_exported so fuel d1 file empty_diagram (storable_ordinary d1 SB1) X) as (t' & plain & TP' & Y & Z). rewrite TP1 in TP'. injection TP' as <-.
  assert (N : neat t1) by (eapply neat_tree; [apply storable_ordinary; exact SB1|exact TP1]). destruct (document_neat _ _ N Y) as [-> _].
  destruct (proj2 (C72_loads_iff so (dom_of t1)) (exported_loadable d1 SB1 (ti_complete d1 T1) (round_rereadable so fuel d d1 Po T RR R) fuel t1 TP1 ST1)) as [d2 D].
  exists d2, file. split; [exact X|]. rewrite Z. exact D.
Qed.
