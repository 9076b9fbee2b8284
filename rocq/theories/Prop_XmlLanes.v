(** Lanes after writing and reading a diagram. *)
From Coq Require Import String List Bool Arith Lia Permutation.
From Verif Require Import Py PyFacts Consts Nx NxFacts Rep SpecRep RepFacts CsvRegex CsvImport CsvFacts Xml Export Import XmlOps
  ImportFacts SpecXml XmlScopes ActionFacts DiFacts LoadFacts Prop_XmlImport XmlLayout Prop_XmlLayout ExportFacts ExportTree Prop_XmlExported
  SpecRound ExportScopes RoundNodes RoundLoad RoundBack RoundDi Prop_XmlRound Prop_XmlDrawn RoundDemo.
Import ListNotations.
Open Scope string_scope.
Open Scope list_scope.

(** The element of a lane. *)
Lemma lane_inv : forall id l r, export_lane id l = Ok r -> exists name child refs di sub subs sh, l = Lane name child refs di /\
  (sub = [] \/ exists ks, sub = [elem "laneSet" [] ks]) /\ lane_shape_out id di = Ok sh /\
  fst r = elem "lane" [("id", VStr id); ("name", VStr name)] (sub ++ map (text_elem "flowNodeRef") refs) /\ snd r = subs ++ [sh].
Proof.
  intros id [name child refs di] r H. rewrite export_lane_unfold in H.
  destruct (match child with Some (_, lanes) => _ | None => _ end) as [sub|] eqn:Es; [|discriminate]. cbn [rbind] in H.
  destruct (lane_shape_out id di) as [sh|] eqn:Esh; [|discriminate]. inv H. cbn [fst snd].
  exists name, child, refs, di, (fst sub), (snd sub), sh. split; [reflexivity|]. split; [|auto].
  destruct child as [[j ls]|]; [|inv Es; auto]. destruct (lanes_list ls) as [p|]; [|discriminate]. inv Es. right. eexists. reflexivity.
Qed.
(** The children of a lane element, read by the importer. *)
Definition lane_kid (plane : dom) (inner : list dom -> list (string * lane) -> res (list (string * lane))) (acc : option (string * list (string * lane)) * list string) (k : dom) :=
  match k with
  | DText _ => Ok acc
  | DOther _ => Err AttributeError
  | DElem _ _ sub => if d_local k =? "childLaneSet" then let* lanes := inner sub [] in Ok (Some (get_attribute "id" k, lanes), snd acc)
                     else if d_local k =? "flowNodeRef" then let* v := first_value k in Ok (fst acc, snd acc ++ [v]) else Ok acc
  end.
Definition inner_lanes (plane : dom) : list dom -> list (string * lane) -> res (list (string * lane)) :=
  fix inner (l : list dom) (out : list (string * lane)) :=
  match l with
  | [] => Ok out
  | DText _ :: r => inner r out
  | DOther _ :: _ => Err AttributeError
  | (DElem _ _ _ as y) :: r =>
      if String.eqb (d_local y) t_lane
      then let* v := import_lane plane y in inner r (dset (get_attribute k_id y) v out)
      else inner r out
  end.
Lemma import_lane_unfold : forall plane g a kids, import_lane plane (DElem g a kids) =
  let* p := rfold (lane_kid plane (inner_lanes plane)) kids (None, []) in
  let* di := lane_di plane (get_attribute "id" (DElem g a kids)) in
  Ok (Lane (get_attribute "name" (DElem g a kids)) (fst p) (snd p) di).
Proof.
  intros plane g a kids. cbn [import_lane]. fold (inner_lanes plane).
  match goal with |- (let* p := ?f kids (None, []) in _) = _ =>
    assert (Q : forall l acc, f l acc = rfold (lane_kid plane (inner_lanes plane)) l acc) end.
  { induction l as [|x l IH]; intros acc; [reflexivity|]. cbn [rfold]. unfold lane_kid at 1. destruct x as [h b ks|s|s]; [|exact (IH acc)|reflexivity].
    change k_child_lane_set with "childLaneSet". change t_flow_node_ref with "flowNodeRef".
    destruct (d_local (DElem h b ks) =? "childLaneSet").
    - match goal with |- (let* lanes := ?f ks [] in _) = _ => change f with (inner_lanes plane) end.
      destruct (inner_lanes plane ks []) as [v|]; cbn [rbind]; [apply IH|reflexivity].
    - destruct (d_local (DElem h b ks) =? "flowNodeRef"); [|cbn [rbind]; apply IH]. destruct (first_value _) as [v|]; cbn [rbind]; [apply IH|reflexivity]. }
  rewrite Q. reflexivity.
Qed.
Lemma refs_read : forall plane refs acc p, rfold (lane_kid plane (inner_lanes plane)) (map dom_of (map (text_elem "flowNodeRef") refs)) acc = Ok p ->
  p = (fst acc, snd acc ++ refs).
Proof.
  intros plane. induction refs as [|r refs IH]; intros acc p H.
  - inv H. rewrite app_nil_r. destruct p; reflexivity.
  - cbn [map rfold] in H. unfold lane_kid at 1 in H. cbn [text_elem dom_of] in H.
    change (d_local (DElem "flowNodeRef" (map text_of []) (text_nodes (Some r) ++ map dom_of [])) =? "childLaneSet") with false in H.
    change (d_local (DElem "flowNodeRef" (map text_of []) (text_nodes (Some r) ++ map dom_of [])) =? "flowNodeRef") with true in H. cbv iota in H.
    destruct r as [|c r]; [discriminate H|]. cbn [text_nodes app map first_value d_kids rbind] in H. apply IH in H. cbn [fst snd] in H. rewrite H, <- app_assoc. reflexivity.
Qed.
Lemma lane_read : forall plane id l r v, export_lane id l = Ok r -> import_lane plane (dom_of (fst r)) = Ok v ->
  exists di, lane_di plane id = Ok di /\ v = match l with Lane name _ refs _ => Lane name None refs di end.
Proof.
  intros plane id l r v H R. destruct (lane_inv _ _ _ H) as (name & child & refs & di & sub & subs & sh & -> & Sub & _ & E & _). rewrite E in R.
  cbn [elem dom_of text_nodes app] in R. rewrite import_lane_unfold in R.
  destruct (rfold _ _ _) as [p|] eqn:P; [|discriminate]. cbn [rbind] in R.
  assert (Q : p = (None, refs)).
  { rewrite map_app in P. destruct Sub as [->|[ks ->]].
    - cbn [map app] in P. apply refs_read in P. exact P.
    - cbn [map app rfold] in P. unfold lane_kid at 1 in P. cbn [elem dom_of] in P.
      change (d_local (DElem "laneSet" (map text_of []) (text_nodes None ++ map dom_of ks)) =? "childLaneSet") with false in P.
      change (d_local (DElem "laneSet" (map text_of []) (text_nodes None ++ map dom_of ks)) =? "flowNodeRef") with false in P. cbv iota in P. cbn [rbind] in P.
      apply refs_read in P. exact P. }
  subst p. change (get_attribute "id" (DElem "lane" (map text_of [("id", VStr id); ("name", VStr name)]) (map dom_of (sub ++ map (text_elem "flowNodeRef") refs)))) with id in R.
  destruct (lane_di plane id) as [di'|]; [|discriminate]. cbn [rbind fst snd] in R. inv R. exists di'. split; reflexivity.
Qed.

(** The shape of a lane. *)
Definition drawn_alone (d : diagram) (i : string) (l : lane) : Prop :=
  ~ is_node d i /\ (forall e, In e (gedges (dgraph d)) -> dget "id" (eat e) <> Some (VStr i)) /\
  (forall c a, collaboration d = Some c -> ~ In (i, a) (co_participants c)) /\
  (forall l', lane_of d i l' -> lane_geometry l' = lane_geometry l).
Lemma shape_fold : forall id X s r, fold_elements (map dom_of X) (fun s x => Ok (if String.eqb (get_attribute k_bpmn_element x) id then Some x else s)) s = Ok r ->
  r = s /\ (forall x, In x (map dom_of X) -> elt x <> id) \/ exists x, In x (map dom_of X) /\ elt x = id /\ r = Some x.
Proof.
  intros id. induction X as [|[g a tx tl ks] X IH]; intros s r H; unfold fold_elements in *.
  - inv H. left. split; [reflexivity|intros x []].
  - cbn [map dom_of rfold rbind] in H. apply IH in H. destruct H as [[-> N]|(x & Ix & Ex & ->)].
    + change (get_attribute k_bpmn_element (DElem g (map text_of a) (text_nodes tx ++ map dom_of ks))) with (elt (dom_of (E g a tx tl ks))).
      destruct (String.eqb_spec (elt (dom_of (E g a tx tl ks))) id) as [Q|Q].
      * right. exists (dom_of (E g a tx tl ks)). split; [left; reflexivity|]. split; [exact Q|reflexivity].
      * left. split; [reflexivity|]. intros x [<-|I]; [exact Q|auto].
    + right. exists x. split; [right; exact Ix|auto].
Qed.
Lemma lane_drawn : forall fuel d t plane co cosh ps sh ed i l di, storable d -> export_tree fuel d = Ok t -> strings t ->
  plane_parts d fuel t plane co cosh ps sh ed -> lane_of d i l -> drawn_alone d i l ->
  (exists x, In x (d_kids (dom_of plane)) /\ elt x = i) -> lane_di (dom_of plane) i = Ok di -> di = lane_geometry l.
Proof.
  intros fuel d t plane co cosh ps sh ed i l di SB TP ST P Lo (A1 & A2 & A3 & A4) (x0 & Ix0 & Ex0) H.
  unfold lane_di, lane_shape in H. rewrite (pl_kids _ _ _ _ _ _ _ _ _ P) in H, Ix0. destruct (fold_elements _ _ _) as [s|] eqn:F; [|discriminate].
  apply shape_fold in F. destruct F as [[-> N]|(x & Ix & Ex & ->)]; [exfalso; exact (N x0 Ix0 Ex0)|]. cbn [rbind] in H.
  rewrite <- (pl_kids _ _ _ _ _ _ _ _ _ P) in Ix.
  assert (K : d_local x = "BPMNShape" \/ d_local x = "BPMNEdge").
  { rewrite (pl_kids _ _ _ _ _ _ _ _ _ P) in Ix. apply in_map_iff in Ix. destruct Ix as [k [<- I]]. apply in_app_or in I. destruct I as [I|I].
    - destruct (collaboration_inv _ _ _ (pl_collab _ _ _ _ _ _ _ _ _ P)) as [(_ & _ & ->)|(cc & ms & qs & Hc & M & Q & _ & ->)]; [destruct I|].
      apply in_app_or in I. destruct I as [I|I]; apply in_map_iff in I; destruct I as [q [<- Iq]].
      + destruct (rmap_out _ _ _ _ _ M q Iq) as [[m r] [_ Hm]]. destruct (message_inv _ _ _ Hm) as (v & w & G & W & ->). right. reflexivity.
      + destruct (rmap_out _ _ _ _ _ Q q Iq) as [[p a] [_ Hp]]. destruct (participant_inv _ _ Hp) as (? & ? & ? & ? & _ & _ & _ & _ & ->). left. reflexivity.
    - apply in_app_or in I. destruct I as [I|I].
      + left. apply in_flat_map in I. destruct I as [[e sh'] [J1 J2]]. destruct (rmap_out _ _ _ _ _ (pl_procs _ _ _ _ _ _ _ _ _ P) _ J1) as [[q a] [Iq Hq]].
        destruct (process_shapes _ _ _ _ _ _ _ Hq Iq J2) as (i' & l' & _ & B). destruct (lane_shape_elt _ _ _ B) as (_ & h & w & g & u & v & _ & ->). reflexivity.
      + apply in_app_or in I. destruct I as [I|I].
        * left. destruct (rmap_out _ _ _ _ _ (pl_shapes _ _ _ _ _ _ _ _ _ P) _ I) as [[n a] [_ Hn]]. destruct (node_di_inv _ _ _ Hn) as (? & ? & _ & _ & _ & ->). reflexivity.
        * right. destruct (rmap_out _ _ _ _ _ (pl_edges _ _ _ _ _ _ _ _ _ P) _ I) as [v [Iv Hv]]. destruct (flow_di_inv _ _ Hv) as (? & ? & _ & _ & ->). reflexivity. }
  destruct K as [K|K].
  - destruct (shape_of _ _ _ _ _ _ _ _ _ _ TP P Ix K) as [(c2 & p2 & a2 & nm2 & ref2 & hor2 & b2 & Hc2 & Ip2 & El & _)|[(i' & l' & k & Lo' & El & S & ->)|(a2 & In2)]].
    + exfalso. rewrite Ex in El. subst p2. exact (A3 _ _ Hc2 Ip2).
    + rewrite Ex in El. subst i'. rewrite <- (A4 _ Lo'). destruct (lane_shape_elt _ _ _ S) as (_ & h & w & g & u & v & -> & ->). vm_compute in H. inv H. reflexivity.
    + exfalso. apply A1. rewrite Ex in In2. unfold is_node. apply in_map_iff. exists (i, a2). auto.
  - exfalso. destruct (line_edge _ _ _ _ _ _ _ _ _ _ SB TP P Ix K) as (e & l1 & Ie & Id & _). rewrite Ex in Id. exact (A2 e Ie Id).
Qed.

(** * C37 *)
Lemma process_ready : forall so root de pe mid d' k, loaded so root de pe empty_diagram mid d' -> inside k root -> named "process" k -> lanes_ready pe k.
Proof.
  intros so root de pe mid d' k L I N. destruct (lo_run _ _ _ _ _ _ _ L (AProcess k)) as [d0 R]; [|exact R].
  unfold core_actions. apply in_or_app. left. apply in_flat_map. exists k. split; [apply in_document; auto|left; reflexivity].
Qed.
(** The written process, and what is read from it. *)
Lemma process_back : forall so fuel d d' p a, storable d -> round_trip so fuel d d' -> In (p, a) (procs d) ->
  exists t k sh de pe mid a', export_tree fuel d = Ok t /\ strings t /\ loaded so (dom_of t) de pe empty_diagram mid d' /\
    export_process fuel d (p, a) = Ok (k, sh) /\ process_elem d fuel p k /\ lanes_ready pe (dom_of k) /\
    dget p (procs d') = Some a' /\ dget "laneSet" a' = dget "laneSet" (process_dict pe (dom_of k)).
Proof.
  intros so fuel d d' p a SB R Ip. destruct (C36_processes so fuel d d' p a SB R Ip) as (a' & Ha & _).
  destruct (round_dom so fuel d d' SB R) as (t & TP & ST & LD). destruct (load_loaded _ _ _ _ LD) as (de & pe & mid & L).
  assert (Pl : placed d p) by (apply placed_process; apply in_map_iff; exists (p, a); auto).
  destruct (placed_scope d SB fuel t TP p Pl) as (k & Sk & W & Sc).
  assert (Pe : process_elem d fuel p k).
  { destruct Sk as [?|(b & (J & _) & T)]; [assumption|]. exfalso. rewrite <- (in_node d SB _ _ _ J) in T. apply (proj2 (sb_subs _ SB p T)).
    apply in_map_iff. exists (p, a). auto. }
  destruct (process_name _ _ _ _ Pe) as [Tk Idk].
  assert (Ik : inside (dom_of k) (dom_of t) /\ named "process" (dom_of k)).
  { inversion Sc as [q I N|s x S I N]; subst; [auto|]. exfalso. apply named_dom in N. rewrite Tk in N. discriminate N. }
  destruct Ik as [Ik Nk]. destruct (loaded_process _ _ _ _ _ _ _ L _ Ik Nk) as (q & Iq & Nq & Eq & _ & Oth).
  destruct (process_in_root d SB fuel t TP q Iq Nq) as (q' & k' & Pe' & _ & Eqk). subst q.
  assert (Ek : eid (dom_of k) = p) by (apply get_dom; exact Idk).
  assert (k' = k).
  { assert (q' = p) by (rewrite <- Ek, <- Eq; symmetry; apply get_dom; apply (process_name _ _ _ _ Pe')). subst q'.
    symmetry. exact (scope_unique d SB fuel p k k' Sk (or_introl Pe')). }
  subst k'. pose proof Pe as Pe0. destruct Pe0 as (b & sh & Jb & Hb).
  assert (b = a).
  { pose proof (sb_processes _ SB) as N. apply (In_dget p a) in Ip; [|exact N]. apply (In_dget p b) in Jb; [|exact N]. congruence. }
  subst b. exists t, k, sh, de, pe, mid, a'. split; [exact TP|]. split; [exact ST|]. split; [exact L|]. split; [exact Hb|]. split; [exact Pe|].
  split; [eapply process_ready; eauto|]. split; [exact Ha|]. assert (Q : "laneSet" <> "node_ids") by discriminate.
  specialize (Oth _ Q). rewrite Ek in Oth. unfold proc_attr in Oth. rewrite Ha in Oth. exact Oth.
Qed.
Lemma lanes_fold : forall plane ls qs out lanes, rmap (fun p => export_lane (fst p) (snd p)) ls = Ok qs -> NoDup (map fst out ++ map fst ls) ->
  rfold (fun out x => match x with DText _ => Ok out | DOther _ => Err AttributeError | DElem _ _ _ =>
     if String.eqb (d_local x) t_lane then let* v := import_lane plane x in Ok (dset (get_attribute k_id x) v out) else Ok out end)
    (map dom_of (map fst qs)) out = Ok lanes ->
  exists vs, lanes = out ++ vs /\ Forall2 (fun il v => fst v = fst il /\ exists di, lane_di plane (fst il) = Ok di /\
     snd v = match snd il with Lane name _ refs _ => Lane name None refs di end) ls vs.
Proof.
  intros plane. induction ls as [|[i l] ls IH]; intros qs out lanes H N R; cbn [rmap fst snd] in H.
  - inv H. inv R. exists []. rewrite app_nil_r. split; [reflexivity|constructor].
  - destruct (export_lane i l) as [q|] eqn:Q; [|discriminate]. cbn [rbind] in H. destruct (rmap _ ls) as [qs'|] eqn:Qs; [|discriminate]. inv H.
    cbn [map rfold] in R. destruct (lane_inv _ _ _ Q) as (name & child & refs & di & sub & subs & sh & El & Sub & _ & E & _).
    destruct (import_lane plane (dom_of (fst q))) as [v|] eqn:V.
    2: { rewrite E in R, V. cbn [elem dom_of text_nodes app] in R, V. 
         match type of R with context [if ?b then _ else _] => change b with true in R end. discriminate R. }
    pose proof V as V0. destruct (lane_read _ _ _ _ _ Q V) as (di' & Di & Ev).
    assert (R' : rfold (fun out x => match x with DText _ => Ok out | DOther _ => Err AttributeError | DElem _ _ _ =>
     if String.eqb (d_local x) t_lane then let* v := import_lane plane x in Ok (dset (get_attribute k_id x) v out) else Ok out end)
       (map dom_of (map fst qs')) (dset i v out) = Ok lanes).
    { rewrite E in R, V. cbn [elem dom_of text_nodes app] in R, V.
      match type of R with context [if ?b then _ else _] => change b with true in R end. exact R. }
    assert (Ni : ~ In i (map fst out)).
    { intros I. cbn [map fst] in N. apply NoDup_remove_2 in N. apply N. apply in_or_app. left. exact I. }
    rewrite dset_new in R' by exact Ni. destruct (IH qs' (out ++ [(i, v)]) lanes eq_refl) as (vs & -> & F).
    { rewrite map_app, <- app_assoc. exact N. }
    { exact R'. }
    exists ((i, v) :: vs). split; [rewrite <- app_assoc; reflexivity|]. constructor; [|exact F]. cbn [fst snd]. split; [reflexivity|]. exists di'. auto.
Qed.
Theorem C37_lanes : forall set_order fuel d d' p a s ls, storable d -> round_trip set_order fuel d d' -> In (p, a) (procs d) ->
  dget "laneSet" a = Some (VLaneSet s ls) -> NoDup (map fst ls) -> (forall i l, In (i, l) ls -> drawn_alone d i l) ->
  exists a', dget p (procs d') = Some a' /\
    dget "laneSet" a' = Some (VLaneSet "" (map (fun il => (fst il, outer_lane (snd il))) ls)).
Proof.
  intros so fuel d d' p a s ls SB R Ip D N Al. destruct (process_back so fuel d d' p a SB R Ip) as (t & k & sh & de & pe & mid & a' & TP & ST & L & H & _ & Rd & Ha & Hl).
  destruct (plane_of d fuel t TP de pe (lo_heads _ _ _ _ _ _ _ L)) as (dia & plane & co & cosh & ps & shs & ed & _ & Epe & _ & _ & _ & P). subst pe.
  exists a'. split; [exact Ha|]. rewrite Hl. clear Hl.
  pose proof H as H0. destruct (process_inv _ _ _ _ _ H) as [(c & x & u & lx & ns & es & fs & _ & _ & _ & Lo & _ & _ & _ & E)].
  unfold lanes_out in Lo. change k_lane_set with "laneSet" in Lo. rewrite D in Lo. unfold export_lane_set in Lo.
  destruct (rmap _ ls) as [qs|] eqn:Q; [|discriminate]. cbn [rbind] in Lo. injection Lo as <- Esh. cbn [fst snd] in *.
  pose (lx := elem k_lane_set [] (map fst qs)). assert (El : exists rest, elements_in "laneSet" (dom_of k) = dom_of lx :: rest).
  { rewrite E. rewrite elements_dom. cbn [e_kids elem]. cbn [app flat_map]. eexists. reflexivity. }
  destruct El as [rest El]. unfold process_dict, lanes_ready in *. rewrite El in *. destruct Rd as [lanes Rl]. rewrite Rl. rewrite dget_dset_eq. f_equal.
  change (eid (dom_of lx)) with "". f_equal. unfold import_lanes, fold_elements in Rl. unfold lx in Rl. cbn [elem dom_of d_kids text_nodes app] in Rl.
  destruct (lanes_fold (dom_of plane) ls qs [] lanes Q N Rl) as (vs & -> & F). cbn [app]. clear Rl El.
  assert (Dr : forall i l di, In (i, l) ls -> lane_di (dom_of plane) i = Ok di -> di = lane_geometry l).
  { intros i l di I Di. apply (lane_drawn fuel d t plane co cosh ps shs ed i l di SB TP ST P); auto.
    - exists p, a, s, ls. split; [exact Ip|]. split; [exact D|]. apply lane_here. exact I.
    - destruct (rmap_from _ _ _ _ _ Q _ I) as [q [Iq Hq]]. cbn [fst snd] in Hq.
      destruct (lane_inv _ _ _ Hq) as (name & child & refs & dd & sub & subs & sho & _ & _ & So & _ & Sn).
      exists (dom_of sho). split; [|apply (lane_shape_elt _ _ _ So)]. rewrite (pl_kids _ _ _ _ _ _ _ _ _ P). apply in_map. apply in_or_app. right. apply in_or_app. left.
      destruct (rmap_from _ _ _ _ _ (pl_procs _ _ _ _ _ _ _ _ _ P) _ Ip) as [[k2 sh2] [Ik2 Hk2]]. rewrite H0 in Hk2. injection Hk2 as <- <-.
      apply in_flat_map. exists (k, sh). split; [exact Ik2|]. cbn [snd]. rewrite <- Esh. apply in_flat_map. exists q. split; [exact Iq|]. rewrite Sn. apply in_or_app. right. left. reflexivity. }
  clear - F Dr. induction F as [|[i l] [j v] ls vs (F1 & di & F2 & F3) F IH]; [reflexivity|]. cbn [map fst snd] in *. subst j. f_equal.
  - f_equal. rewrite F3. rewrite (Dr i l di (or_introl eq_refl) F2). destruct l as [name child refs dd]. reflexivity.
  - apply IH. intros. eapply Dr; eauto. right. assumption.
Qed.
(** Lanes without lanes inside come back as they were; the lane set loses its id. *)
Theorem C37_flat_lanes : forall set_order fuel d d' p a s ls, storable d -> round_trip set_order fuel d d' -> In (p, a) (procs d) ->
  dget "laneSet" a = Some (VLaneSet s ls) -> NoDup (map fst ls) -> (forall i l, In (i, l) ls -> drawn_alone d i l) ->
  (forall i l, In (i, l) ls -> exists name refs di, l = Lane name None refs di) ->
  exists a', dget p (procs d') = Some a' /\ dget "laneSet" a' = Some (VLaneSet "" ls).
Proof.
  intros so fuel d d' p a s ls SB R Ip D N Al Fl. destruct (C37_lanes so fuel d d' p a s ls SB R Ip D N Al) as (a' & H1 & H2). exists a'. split; [exact H1|].
  rewrite H2. do 2 f_equal. clear -Fl. induction ls as [|[i l] ls IH]; [reflexivity|]. cbn [map fst snd]. rewrite IH by (intros; eapply Fl; right; eauto). f_equal.
  destruct (Fl i l (or_introl eq_refl)) as (name & refs & di & ->). reflexivity.
Qed.
Theorem C37_no_lanes : forall set_order fuel d d' p a, storable d -> round_trip set_order fuel d d' -> In (p, a) (procs d) ->
  dget "laneSet" a = None -> exists a', dget p (procs d') = Some a' /\ dget "laneSet" a' = None.
Proof.
  intros so fuel d d' p a SB R Ip D. destruct (process_back so fuel d d' p a SB R Ip) as (t & k & sh & de & pe & mid & a' & TP & ST & L & H & Pe & Rd & Ha & Hl).
  exists a'. split; [exact Ha|]. rewrite Hl. unfold process_dict. destruct (elements_in "laneSet" (dom_of k)) as [|x rest] eqn:El; [reflexivity|]. exfalso.
  assert (I : In x (elements_in "laneSet" (dom_of k))) by (rewrite El; left; reflexivity). rewrite elements_dom in I. apply in_flat_map in I. destruct I as [c [Ic If]].
  assert (J : inside x (dom_of c) /\ named "laneSet" x).
  { apply in_document. unfold document_elements. unfold found in If. destruct c as [g b tx tl ks]. exact If. }
  destruct J as [J Nx].
  destruct (process_inv _ _ _ _ _ H) as [(c0 & x0 & u & lx & ns & es & fs & _ & _ & _ & Lo & N & Es & Fs & E)]. cbn [fst] in E.
  unfold lanes_out in Lo. change k_lane_set with "laneSet" in Lo. rewrite D in Lo. injection Lo as <- _. rewrite E in Ic. cbn [e_kids elem app] in Ic.
  apply in_app_or in Ic. destruct Ic as [Ic|Ic].
  - destruct (rmap_out _ _ _ _ _ Es c Ic) as [na [J1 J2]]. apply (nodes_by_process _ _ _ N) in J1. destruct J1 as [J1 _].
    pose proof (fine_inside _ _ (fine_node_tags d SB na c (conj J1 (ex_intro _ _ J2))) _ _ J Nx) as Q. simpl in Q. intuition discriminate.
  - destruct (rmap_out _ _ _ _ _ Fs c Ic) as [e [J1 J2]]. apply flows_by_process in J1. destruct J1 as [J1 _].
    pose proof (fine_inside _ _ (fine_flow_tags d e c (conj J1 J2)) _ _ J Nx) as Q. simpl in Q. intuition discriminate.
Qed.

Example C37_example : exists a a' ls, In ("p", a) (procs drawn) /\ dget "laneSet" a = Some (VLaneSet "" ls) /\ NoDup (map fst ls) /\
  (forall i l, In (i, l) ls -> drawn_alone drawn i l) /\ dget "p" (procs redrawn) = Some a' /\
  dget "laneSet" a' = Some (VLaneSet "" [("l1", Lane "Sales" None ["s"; "sub"; "e"; "v"] (Some ("true", ("30", "40", "10", "20"))))]).
Proof.
  do 3 eexists. split; [left; reflexivity|]. split; [reflexivity|]. split; [repeat (constructor; [simpl; tauto|]); constructor|].
  split; [|split; vm_compute; reflexivity]. intros i l [I|[]]. injection I as <- <-. split; [unfold is_node; cbn; intuition discriminate|].
  split; [intros e I; edges_of I; cbn; discriminate|]. split; [intros c a H I; injection H as <-; cbn in I; intuition discriminate|].
  intros l' (p & a & s & ls & I & D & J). cbn in I. destruct I as [I|[I|[]]]; injection I as <- <-; [|discriminate D].
  injection D as <- <-. inversion J as [? ? ? J1|? ? ? ? ? ? ? ? ? J1 J2]; subst.
  - destruct J1 as [J1|[]]. injection J1 as <-. reflexivity.
  - destruct J1 as [J1|[]]. injection J1 as <- <- <- <- <- <-. inversion J2 as [? ? ? J3|? ? ? ? ? ? ? ? ? J3 J4]; subst.
    + destruct J3 as [J3|[]]. discriminate J3.
    + destruct J3 as [J3|[]]. discriminate J3.
Qed.
(** A lane inside a lane is lost. *)
Theorem C37_nested_refuted : exists set_order fuel d d' i l, storable d /\ complete d /\ round_trip set_order fuel d d' /\
  lane_of d i l /\ forall l', ~ lane_of d' i l'.
Proof.
  exists (fun l => l), 5, drawn, redrawn, "l2", (Lane "Desk" None ["v"] (Some ("true", ("15", "20", "10", "20")))).
  split; [exact drawn_storable|]. split; [exact drawn_complete|]. split; [exact drawn_round|]. split.
  - do 4 eexists. split; [left; reflexivity|]. split; [reflexivity|]. eapply lane_below; [left; reflexivity|]. apply lane_here. left. reflexivity.
  - intros l' (p & a & s & ls & I & D & J). vm_compute in I. destruct I as [I|[I|[]]]; injection I as <- <-; [|discriminate D].
    injection D as <- <-. inversion J as [? ? ? J1|? ? ? ? ? ? ? ? ? J1 J2]; subst; destruct J1 as [J1|[]]; discriminate J1.
Qed.

Print Assumptions C37_lanes.
Print Assumptions C37_flat_lanes.
Print Assumptions C37_no_lanes.
Print Assumptions C37_nested_refuted.
