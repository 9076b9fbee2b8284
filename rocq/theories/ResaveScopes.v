(** What is loaded from a file is written like the file, process by process. *)
From Coq Require Import String List Bool Arith Lia Permutation.
From Verif Require Import Py PyFacts Consts Nx NxFacts Rep SpecRep RepFacts CsvRegex CsvImport CsvFacts Xml Export Import XmlOps
  ImportFacts ActionFacts DiFacts LoadFacts SpecXml XmlScopes Prop_XmlImport ExportFacts ExportTree ExportScopes SpecRound RoundNodes RoundLoad RoundBack RoundLoads
  Prop_XmlRound Prop_XmlLanes Prop_XmlDrawn SpecOrder KeyOrder OrderRound SameRound Prop_Order EdgeOrder ProcOrder MessageBack SpecResave ResaveFacts ScopeOrder RoundTidy.
Import ListNotations.
Open Scope string_scope.
Open Scope list_scope.

(** * Looking at some of the nodes *)
Lemma filter_map : forall A B (f : A -> B) (P : B -> bool) l, filter P (map f l) = map f (filter (fun x => P (f x)) l).
Proof. intros A B f P l. induction l as [|x l IH]; [reflexivity|]. cbn [map filter]. rewrite IH. destruct (P (f x)); reflexivity. Qed.
Lemma filter_same : forall A (P Q : A -> bool) l, (forall x, In x l -> P x = Q x) -> filter P l = filter Q l.
Proof.
  intros A P Q l H. induction l as [|x l IH]; [reflexivity|]. cbn [filter]. rewrite (H x (or_introl eq_refl)), IH by (intros y I; apply H; right; exact I). reflexivity.
Qed.
Lemma smem_filter : forall P (m : string) l, P m = true -> smem m (filter P l) = smem m l.
Proof.
  intros P m l Pm. destruct (smem m l) eqn:E.
  - apply smem_In in E. apply smem_In. apply filter_In. auto.
  - destruct (smem m (filter P l)) eqn:E'; [|reflexivity]. apply smem_In in E'. apply filter_In in E'. destruct E' as [E' _]. apply smem_In in E'. congruence.
Qed.
Definition within_set (P : string -> bool) (p : string * string) : bool := P (fst p) && P (snd p).
Lemma incident_filter : forall P n seen es, P n = true ->
  filter (fun p => P (fst p)) (filter (fun p => negb (smem (fst p) seen)) (incident n es)) =
  filter (fun p => negb (smem (fst p) (filter P seen))) (incident n (filter (fun e => within_set P (ends_of e)) es)).
Proof.
  intros P n seen es Pn. induction es as [|e es IH]; [reflexivity|]. change (e :: es) with ([e] ++ es). rewrite incident_app, !filter_app, IH. clear IH.
  rewrite incident_app, filter_app. f_equal. cbn [filter]. unfold within_set at 1. cbn [ends_of fst snd].
  assert (K : forall m (a : attrs), filter (fun p => P (fst p)) (filter (fun p => negb (smem (fst p) seen)) [(m, a)]) =
    if P m then filter (fun p => negb (smem (fst p) (filter P seen))) [(m, a)] else []).
  { intros m a. cbn [filter fst]. destruct (P m) eqn:Pm; [rewrite (smem_filter P m seen Pm)|]; destruct (smem m seen); cbn [negb filter fst]; rewrite ?Pm; reflexivity. }
  cbn [incident flat_map app]. destruct (String.eqb_spec (eu e) n) as [E|E].
  - rewrite E, Pn. cbn [andb app]. rewrite K. destruct (P (ev e)); [|reflexivity]. cbn [incident flat_map app]. rewrite E, String.eqb_refl. reflexivity.
  - destruct (String.eqb_spec (ev e) n) as [E'|E'].
    + rewrite E', Pn, andb_true_r. cbn [app]. rewrite K. destruct (P (eu e)); [|reflexivity]. cbn [incident flat_map app]. rewrite (proj2 (String.eqb_neq _ _) E), E', String.eqb_refl. reflexivity.
    + destruct (P (eu e) && P (ev e)); [|reflexivity]. cbn [incident flat_map app]. rewrite (proj2 (String.eqb_neq _ _) E), (proj2 (String.eqb_neq _ _) E'). reflexivity.
Qed.
Lemma view_filter : forall P es ns seen, filter (fun t => within_set P (fst t)) (edges_from ns seen es) =
  edges_from (filter P ns) (filter P seen) (filter (fun e => within_set P (ends_of e)) es).
Proof.
  intros P es. induction ns as [|n ns IH]; intros seen; [reflexivity|]. cbn [edges_from]. rewrite filter_app, IH, filter_map. unfold within_set at 1. cbn [fst snd filter].
  destruct (P n) eqn:Pn.
  - cbn [edges_from andb]. rewrite (incident_filter P n seen es Pn). reflexivity.
  - cbn [andb].
    assert (Z : forall A (l : list A), filter (fun _ => false) l = []) by (clear; intros A l; induction l; auto). rewrite Z. reflexivity.
Qed.
Lemma view_paired : forall (rel : attrs -> attrs -> Prop) es es', Forall2 (fun e e' => ends_of e' = ends_of e /\ rel (eat e) (eat e')) es es' ->
  forall ns seen, Forall2 (reported_as rel) (edges_from ns seen es) (edges_from ns seen es').
Proof.
  intros rel es es' F. induction ns as [|n ns IH]; intros seen; [constructor|]. cbn [edges_from]. apply Forall2_app; [|apply IH].
  clear IH. induction F as [|e e' l l' [En Re] F IH]; [constructor|]. change (e :: l) with ([e] ++ l). change (e' :: l') with ([e'] ++ l').
  rewrite !incident_app, !filter_app, !map_app. apply Forall2_app; [|exact IH]. unfold ends_of in En. injection En as E1 E2. cbn [incident flat_map app]. rewrite E1, E2.
  destruct (eu e =? n); [|destruct (ev e =? n); [|constructor]]; cbn [app filter fst]; (destruct (smem _ seen); [constructor|]); (constructor; [split; [reflexivity|exact Re]|constructor]).
Qed.

Lemma view_by : forall (P : attrs -> bool) es ns seen, filter (fun t => P (snd t)) (edges_from ns seen es) = edges_from ns seen (filter (fun e => P (eat e)) es).
Proof.
  intros P es. induction ns as [|n ns IH]; intros seen; [reflexivity|]. cbn [edges_from]. rewrite filter_app, IH. f_equal. rewrite filter_map. f_equal. cbn [snd]. clear IH.
  induction es as [|e es IH]; [reflexivity|]. change (e :: es) with ([e] ++ es). rewrite filter_app, !incident_app, !filter_app, IH. f_equal. cbn [filter incident flat_map app].
  destruct (P (eat e)) eqn:Q; cbn [incident flat_map app]; (destruct (_ =? n); [|destruct (_ =? n); [|reflexivity]]); cbn [app filter fst snd]; destruct (smem _ seen); cbn [negb filter fst snd]; rewrite ?Q; reflexivity.
Qed.
Lemma view_ends : forall es ns seen f, In f (edges_from ns seen es) -> exists e, In e es /\ (fst (fst f) = eu e /\ snd (fst f) = ev e \/ fst (fst f) = ev e /\ snd (fst f) = eu e).
Proof.
  intros es. induction ns as [|n ns IH]; intros seen f I; [destruct I|]. cbn [edges_from] in I. apply in_app_or in I. destruct I as [I|I]; [|eapply IH; eauto].
  apply in_map_iff in I. destruct I as ([m a] & <- & I). apply filter_In in I. destruct I as [I _]. unfold incident in I. apply in_flat_map in I. destruct I as (e & Ie & J). exists e. split; [exact Ie|].
  destruct (String.eqb_spec (eu e) n) as [E|E]; [|destruct (String.eqb_spec (ev e) n) as [E'|E']; [|destruct J]]; destruct J as [J|[]]; injection J as <- <-; cbn [fst snd]; auto.
Qed.
Lemma filter_all : forall A (P : A -> bool) l, (forall x, In x l -> P x = true) -> filter P l = l.
Proof. intros A P l H. induction l as [|x l IH]; [reflexivity|]. cbn [filter]. rewrite (H x (or_introl eq_refl)), IH by (intros y I; apply H; right; exact I). reflexivity. Qed.

(** * The nodes and the flows of one process or subprocess *)
Section One.
Variable d : diagram.
Hypothesis T : tidy d.
Let SB := ti_storable d T.
Lemma scope_list : forall q, exists ns, get_nodes_list_by_process_id q d = Ok ns /\ map fst ns = nodes_in d q /\ incl ns (gnodes (dgraph d)).
Proof using T.
  intros q. exists (filter (fun na => inq d q (fst na)) (gnodes (dgraph d))). split; [|split].
  - unfold get_nodes_list_by_process_id, nodes_view.
    assert (A : forall na, In na (gnodes (dgraph d)) -> attr_is k_process (Some q) na = Ok (inq d q (fst na))).
    { intros [n a] I. destruct (ti_nodes d T n (in_is_node _ _ _ I)) as (s & p & _ & _ & P & _). unfold attr_is, inq, dgetE. cbn [fst snd]. rewrite P.
      rewrite (in_node d SB _ _ _ I) in P. change k_process with "process". rewrite P. reflexivity. }
    induction (gnodes (dgraph d)) as [|na l IH]; [reflexivity|]. cbn [rfilter filter]. rewrite (A na (or_introl eq_refl)). cbn [rbind].
    rewrite IH by (intros x I; apply A; right; exact I). destruct (inq d q (fst na)); reflexivity.
  - rewrite <- filter_map. exact (own_order d SB (ti_nodes d T) q).
  - intros x I. apply filter_In in I. tauto.
Qed.
Lemma scope_view : forall q, get_flows_list_by_process_id q d = edges_from (nodes_in d q) [] (filter (procq q) (gedges (dgraph d))).
Proof using T.
  intros q. rewrite <- (own_order d SB (ti_nodes d T) q). change (@nil string) with (filter (inq d q) []).
  assert (W : forall e, In e (filter (procq q) (gedges (dgraph d))) -> within_set (inq d q) (ends_of e) = true).
  { intros e I. apply filter_In in I. destruct I as [I P]. unfold procq in P. destruct (dget "process" (eat e)) as [v|] eqn:D; [|discriminate]. destruct v as [|p| | | | |]; try discriminate.
    apply String.eqb_eq in P. subst p. destruct (ti_flows d T e q I D) as [A B]. unfold within_set, inq. cbn [ends_of fst snd]. rewrite A, B, String.eqb_refl. reflexivity. }
  rewrite <- (filter_all _ _ _ W) at 1. rewrite <- view_filter. rewrite filter_all.
  - unfold get_flows_list_by_process_id, get_flows, edges_view.
    rewrite <- (view_by (fun a => match dget "process" a with Some (VStr p) => p =? q | _ => false end)). apply filter_same. intros f _. change k_process with "process".
    destruct (dget "process" (snd f)) as [[| | | | | |]|]; reflexivity.
  - intros f I. destruct (view_ends _ _ _ _ I) as (e & Ie & E). specialize (W e Ie). unfold within_set in *. cbn [ends_of fst snd] in W. destruct E as [[-> ->]|[-> ->]]; [exact W|rewrite andb_comm; exact W].
Qed.
Lemma sub_placed : forall n, attr d n "type" = Some (VStr "subProcess") -> placed d n.
Proof using T.
  intros n Ty. destruct (ti_nodes d T n (is_node_attr _ _ _ _ Ty)) as (s & p & _ & _ & P & Pl). eapply placed_sub; eauto.
Qed.
End One.

Section Again.
Variables (so : list string -> list string) (fuel : nat) (d d' : diagram).
Hypothesis Po : any_order so.
Hypothesis T : tidy d.
Hypothesis R : round_trip so fuel d d'.
Let SB := ti_storable d T.
Let CP := ti_complete d T.
Let AP := ti_nodes d T.
Let FS := ti_flows d T.
Let T' : tidy d' := round_tidy so fuel d d' Po T R.
Let SB' := ti_storable d' T'.

Lemma inq_back : forall q n, inq d' q n = inq d q n.
Proof using Po T R. intros q n. unfold inq. rewrite (proj1 (proj2 (node_kept so fuel d d' Po SB CP AP R n))). reflexivity. Qed.
Lemma nodes_in_back : forall q, nodes_in d' q = nodes_in d q.
Proof using Po T R.
  intros q. rewrite <- (own_order d' SB' (ti_nodes d' T') q), <- (scope_order so fuel d d' SB CP AP FS R q). apply filter_same. intros n _. apply inq_back.
Qed.
Lemma wired_back : forall q e', In e' (gedges (dgraph d')) -> wired d q (ends_of e') = procq q e'.
Proof using T R.
  intros q e' I'. destruct (edge_cases so fuel d d' SB CP R e' I') as [(e & i & u & v & p & I & (_ & _ & _ & P) & Pl & S & S' & (_ & _ & _ & P'))|(e & m & r & I & (c & Hc & Im & S & _) & (c' & _ & _ & S' & _) & N & _)].
  - rewrite (wired_edge d SB q e (ends_of e') I) by (cbn [ends_of fst snd]; clear -S S'; unfold same_pair in *; intuition congruence). unfold procq. rewrite P, P'. reflexivity.
  - rewrite (wired_edge d SB q e (ends_of e') I) by (cbn [ends_of fst snd]; clear -S S'; unfold same_pair in *; intuition congruence). unfold procq. rewrite N.
    destruct (dget "process" (eat e)) as [v|] eqn:D; [|reflexivity]. destruct v as [|p| | | | |]; try reflexivity. exfalso.
    destruct (sb_messages _ SB c m r Hc Im) as (_ & _ & No). exact (No e p I D S).
Qed.
Lemma flows_alike : forall q, placed d q -> Forall2 (reported_as written_alike) (get_flows_list_by_process_id q d) (get_flows_list_by_process_id q d').
Proof using Po T R.
  intros q Pl. rewrite (scope_view d' T'), nodes_in_back, (scope_view d T). apply (view_again written_alike _ _ [] []).
  - exact (nodes_in_nodup d SB AP q).
  - intros n _ [].
  - intros t [].
  - cbn [app]. rewrite <- (scope_view d T). 
    assert (E : map ends_of (filter (procq q) (gedges (dgraph d'))) = map read_ends (get_flows_list_by_process_id q d)).
    { rewrite <- (flows_in so fuel d d' SB R q Pl). unfold edge_order. rewrite filter_map. f_equal. apply filter_same. intros e I. symmetry. apply wired_back. exact I. }
    symmetry in E. apply forall_map in E. apply forall_in in E. eapply forall_impl; [|exact E]. intros f e' (If & I' & Q). apply filter_In in I'. destruct I' as [I' _].
    apply (edge_alike so fuel d d' SB R q); [exact Pl|exact (flow_ends d SB q f If)|exact I'|]. rewrite Q. left. auto.
Qed.
Lemma scope_again : forall f, (forall n a a' e, In (n, a) (gnodes (dgraph d)) -> In (n, a') (gnodes (dgraph d')) -> strings e -> export_node_data f d (n, a) = Ok e -> export_node_data f d' (n, a') = Ok e) ->
  forall q nodes es fs, placed d q -> get_nodes_list_by_process_id q d = Ok nodes -> rmap (export_node_data f d) nodes = Ok es ->
  rmap (fun f => export_flow_process_data (snd f)) (get_flows_list_by_process_id q d) = Ok fs -> (forall c, In c es -> strings c) ->
  exists nodes', get_nodes_list_by_process_id q d' = Ok nodes' /\ rmap (export_node_data f d') nodes' = Ok es /\
    rmap (fun f => export_flow_process_data (snd f)) (get_flows_list_by_process_id q d') = Ok fs.
Proof using Po T R.
  intros f H q nodes es fs Pl Q1 Q2 Q3 Ss. destruct (scope_list d T q) as (ns & L1 & L2 & L3). rewrite Q1 in L1. injection L1 as <-.
  destruct (scope_list d' T' q) as (ns' & M1 & M2 & M3). exists ns'. split; [exact M1|]. split.
  - rewrite nodes_in_back in M2. assert (F : map fst nodes = map fst ns') by congruence. apply forall_map in F.
    apply forall_in in F. apply (rmap_rel _ _ _ _ _ _ _ _ F _ Q2). intros [n a] [n' a'] c _ Ic (Ia & Ia' & En) Ex. cbn [fst] in En. subst n'.
    apply (H n a a' c); [apply L3; exact Ia|apply M3; exact Ia'|apply Ss; exact Ic|exact Ex].
  - apply (rmap_rel _ _ _ _ _ _ _ _ (flows_alike q Pl) _ Q3). intros g g' c _ _ (_ & _ & Q & _). apply Q.
Qed.
Lemma node_again : forall f n a a' e, In (n, a) (gnodes (dgraph d)) -> In (n, a') (gnodes (dgraph d')) -> strings e -> export_node_data f d (n, a) = Ok e -> export_node_data f d' (n, a') = Ok e.
Proof using Po T R.
  induction f as [|f IH]; intros n a a' e I I' S H; [discriminate|]. apply (node_alike so fuel d d' Po SB AP R (ti_definitions d T) (Datatypes.S f) n a a' e); auto.
  intros f0 nodes es fs E Ty Q1 Q2 Q3 Ss. injection E as <-. apply (scope_again f IH n nodes es fs); auto. apply (sub_placed d T). rewrite (in_node d SB _ _ _ I). exact Ty.
Qed.
Lemma process_again : forall q a a' k sh, In (q, a) (procs d) -> dget q (procs d') = Some a' -> strings k -> export_process fuel d (q, a) = Ok (k, sh) -> export_process fuel d' (q, a') = Ok (k, sh).
Proof using Po T R.
  intros q a a' k sh I D Sk Ex. destruct (C36_processes so fuel d d' q a SB R I) as (a1 & D1 & _ & K1 & K2 & K3 & _). rewrite D in D1. injection D1 as <-.
  destruct (process_inv _ _ _ _ _ Ex) as [(c & x & u & ls & ns & es & fs & P1 & P2 & P3 & L & N & Es & Fs & E)]. cbn [fst snd] in *.
  assert (Pl : placed d q) by (apply placed_process; apply in_map_iff; exists (q, a); auto).
  destruct (scope_again fuel (node_again fuel) q ns es fs Pl N Es Fs) as (ns' & N1 & N2 & N3).
  { intros y Iy. apply (strings_kid _ _ Sk). rewrite E. cbn [e_kids elem]. apply in_or_app. right. apply in_or_app. left. exact Iy. }
  unfold export_process, export_process_element. cbn [fst snd]. rewrite (copied_eq k_is_closed a a' K1), (copied_eq k_is_executable a a' K2), (copied_eq k_process_type a a' K3).
  unfold copied. change k_is_closed with "isClosed". change k_is_executable with "isExecutable". change k_process_type with "processType".
  rewrite (proj2 (dgetE_ok _ _ _) P1), (proj2 (dgetE_ok _ _ _) P2), (proj2 (dgetE_ok _ _ _) P3). cbn [rbind]. fold (lanes_out a').
  rewrite (lanes_alike so fuel d d' SB R (ti_lanes d T) q a a' I D (ls, sh) L). cbn [rbind fst snd]. rewrite N1. cbn [rbind]. rewrite N2. cbn [rbind]. rewrite N3. cbn [rbind]. rewrite E. reflexivity.
Qed.
End Again.

(** * Processes in the document *)
Section Doc.
Variable d : diagram.
Hypothesis SB : storable d.
Variables (fuel : nat) (t : etree).
Hypothesis TP : export_tree fuel d = Ok t.
Notation root := (dom_of t).
Definition main_tag (g : string) : Prop := g = "process" \/ g = "collaboration".
Lemma none_below : forall g x, (forall y, inside y x -> named g y -> False) -> elements_in g x = [] /\ match x with DElem h _ _ => (local_name h =? g) = false | _ => True end.
Proof using.
  clear. intros g x H. split.
  - destruct (elements_in g x) as [|y l] eqn:E; [reflexivity|]. exfalso. assert (I : In y (elements_in g x)) by (rewrite E; left; reflexivity).
    apply in_elements in I. destruct I as (k & Ik & J & N). apply (H y); [|exact N]. destruct x as [h a ks|s|s]; [|destruct Ik|destruct Ik]. eapply inside_below; eauto.
  - destruct x as [h a ks|s|s]; auto. apply String.eqb_neq. intros E. apply (H (DElem h a ks) (inside_here _)). exact E.
Qed.
Lemma below_main : forall g k c y, main_tag g -> (exists p, scope_elem d fuel p k) -> In c (e_kids k) -> inside y (dom_of c) -> named g y -> False.
Proof using SB.
  intros g k c y G [p Sk] Ic J N. destruct (scope_elem_kids d SB fuel p k Sk c Ic) as [F|[(h & s & Hh & ->)|[(na & Na & _)|(e & Fe & _)]]].
  - pose proof (fine_inside _ _ F _ _ J N) as Q. unfold lane_tag, main_tag in *. intuition (subst; discriminate).
  - destruct (inside_dom _ _ J) as [->|[[s' ->]|(z & [] & _)]]; [|destruct N]. apply named_dom in N. unfold main_tag in G. destruct Hh as [-> | ->]; cbn in N; subst g; destruct G; discriminate.
  - pose proof (fine_inside _ _ (fine_node_tags d SB _ _ Na) _ _ J N) as Q. unfold main_tag in G. simpl in Q. intuition (subst; discriminate).
  - pose proof (fine_inside _ _ (fine_flow_tags d _ _ Fe) _ _ J N) as Q. unfold main_tag in G. simpl in Q. intuition (subst; discriminate).
Qed.
Definition has_tag (g : string) (k : etree) : bool := local_name (e_tag k) =? g.
Lemma main_elements : forall g dia co cosh ps, main_tag g -> e_tag t = "definitions" -> e_kids t = dia :: co ++ map fst ps -> export_collaboration d = Ok (co, cosh) ->
  rmap (export_process fuel d) (procs d) = Ok ps -> t = elem "definitions" definitions_attributes (e_kids t) ->
  fine (fun s => s = "BPMNDiagram" \/ s = "BPMNPlane" \/ shape_tags s \/ line_tags s) dia ->
  document_elements g root = map dom_of (filter (has_tag g) (co ++ map fst ps)).
Proof using SB.
  intros g dia co cosh ps G Et Ek C Ps El Fd.
  assert (A : forall k, In k (co ++ map fst ps) -> elements_in g (dom_of k) = []).
  { intros k I. destruct (elements_in g (dom_of k)) as [|y l] eqn:E; [reflexivity|]. exfalso. assert (J : In y (elements_in g (dom_of k))) by (rewrite E; left; reflexivity).
    apply in_elements in J. destruct J as (z & Iz & J & N). destruct (kids_dom _ _ Iz) as [[s ->]|(c & Ic & ->)].
    { inversion J; subst. destruct N. }
    apply in_app_or in I. destruct I as [I|I].
    - destruct (collaboration_inv _ _ _ C) as [(_ & -> & _)|(cc & ms & pp & _ & M & P & -> & _)]; [destruct I|]. destruct I as [<-|[]]. cbn [e_kids elem] in Ic. unfold main_tag in G.
      apply in_app_or in Ic. destruct Ic as [Ic|Ic]; apply in_map_iff in Ic; destruct Ic as (r & <- & Ir).
      + destruct (rmap_out _ _ _ _ _ M r Ir) as [m [_ Em]]. destruct (message_inv _ _ _ Em) as (e & w & _ & _ & ->). cbn [fst] in J.
        destruct (inside_dom _ _ J) as [->|[[s ->]|(x & [] & _)]]; [|destruct N]. apply named_dom in N. cbn in N. subst g. destruct G; discriminate.
      + destruct (rmap_out _ _ _ _ _ P r Ir) as [m [_ Em]]. unfold export_participant in Em.
        repeat match type of Em with rbind ?x _ = _ => destruct x; [cbn [rbind] in Em|discriminate Em] end. injection Em as <-. cbn [fst] in J.
        destruct (inside_dom _ _ J) as [->|[[s ->]|(x & [] & _)]]; [|destruct N]. apply named_dom in N. cbn in N. subst g. destruct G; discriminate.
    - apply in_map_iff in I. destruct I as ([k0 sh] & Ekk & I). cbn [fst] in Ekk. subst k0. destruct (rmap_out _ _ _ _ _ Ps _ I) as [[q a] [Iq Hq]].
      apply (below_main g k c y G); auto. exists q. left. exists a, sh. auto. }
  unfold document_elements. rewrite El, Ek. 
  assert (Z : forall l, (forall k, In k l -> elements_in g (dom_of k) = []) ->
    flat_map (fun k => (match k with DElem h _ _ => if local_name h =? g then [k] else [] | _ => [] end) ++ elements_in g k) (map dom_of l) = map dom_of (filter (has_tag g) l)).
  { clear. induction l as [|k l IH]; intros H; [reflexivity|]. cbn [map flat_map filter]. rewrite (H k (or_introl eq_refl)), IH by (intros x I; apply H; right; exact I).
    unfold has_tag at 2. destruct k as [h a x tl ks]. cbn [dom_of e_tag]. destruct (_ =? g); reflexivity. }
  cbn [elem dom_of]. change (local_name "definitions") with "definitions". assert (Ng : ("definitions" =? g) = false) by (apply String.eqb_neq; destruct G; subst; discriminate). rewrite Ng.
  cbn [app elements_in text_nodes map flat_map]. rewrite (Z _ A).
  destruct (none_below g (dom_of dia)) as [N1 N2].
  { intros y J N. pose proof (fine_inside _ _ Fd _ _ J N) as Q. cbn beta in Q. unfold shape_tags, line_tags, main_tag in *. intuition (subst; discriminate). }
  rewrite N1. destruct dia as [h a x tl ks]. cbn [dom_of] in *. rewrite N2. reflexivity.
Qed.
End Doc.
