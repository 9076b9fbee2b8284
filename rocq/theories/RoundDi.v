(** Positions, sizes and waypoints in the exported document. *)
From Coq Require Import String List Bool Arith Lia Permutation.
From Verif Require Import Py PyFacts Consts Nx NxFacts Rep SpecRep RepFacts CsvRegex CsvImport CsvFacts Xml Export Import XmlOps
  ImportFacts SpecXml XmlScopes ActionFacts DiFacts LoadFacts Prop_XmlImport XmlLayout Prop_XmlLayout ExportFacts ExportTree Prop_XmlExported
  SpecRound ExportScopes RoundNodes RoundLoad RoundBack.
Import ListNotations.
Open Scope string_scope.
Open Scope list_scope.

Lemma fold_dset : forall A V (k : A -> string) (v : A -> V) l acc, NoDup (map k l) -> (forall x, In x l -> ~ In (k x) (map fst acc)) ->
  fold_left (fun acc x => dset (k x) (v x) acc) l acc = acc ++ map (fun x => (k x, v x)) l.
Proof.
  intros A V k v. induction l as [|x l IH]; intros acc N F; [simpl; rewrite app_nil_r; reflexivity|]. cbn [fold_left map] in *. inversion N as [|? ? N1 N2]; subst.
  assert (E : dset (k x) (v x) acc = acc ++ [(k x, v x)]).
  { specialize (F x (or_introl eq_refl)). clear -F. induction acc as [|[j w] acc IH]; [reflexivity|]. cbn [dset app map fst] in *.
    rewrite eqb_neq' by (intros Q; apply F; left; auto). rewrite IH; [reflexivity|]. intros Q. apply F. right. exact Q. }
  rewrite E, IH; [rewrite <- app_assoc; reflexivity|exact N2|]. intros y Iy Q. rewrite map_app in Q. apply in_app_or in Q. destruct Q as [Q|[Q|[]]].
  - apply (F y (or_intror Iy)). exact Q.
  - apply N1. simpl in Q. rewrite Q. apply in_map. exact Iy.
Qed.
Lemma first_flow_some : forall f l e, first_flow f l = Ok (Some e) -> In e l /\ dget "id" (snd e) = Some (VStr f).
Proof.
  intros f. induction l as [|e l IH]; intros r H; cbn [first_flow] in H; [discriminate|].
  destruct (dgetE k_id (snd e)) as [v|] eqn:D; [|discriminate]. apply dgetE_ok in D. cbn [rbind] in H. destruct (veqs v f) eqn:V.
  - inv H. split; [left; reflexivity|]. apply veqs_iff in V. subst v. exact D.
  - destruct (IH _ H). split; [right|]; assumption.
Qed.
Lemma rmap_split : forall A B (f : A -> res B) l1 x l2 r, rmap f (l1 ++ x :: l2) = Ok r ->
  exists r1 y r2, r = r1 ++ y :: r2 /\ rmap f l1 = Ok r1 /\ f x = Ok y /\ rmap f l2 = Ok r2.
Proof.
  intros A B f. induction l1 as [|z l1 IH]; intros x l2 r H; cbn [app rmap] in H.
  - destruct (f x) as [y|] eqn:E; [|discriminate]. cbn [rbind] in H. destruct (rmap f l2) as [r2|] eqn:E2; [|discriminate]. inv H.
    exists [], y, r2. auto.
  - destruct (f z) as [w|] eqn:E; [|discriminate]. cbn [rbind] in H. destruct (rmap f (l1 ++ x :: l2)) as [r'|] eqn:E2; [|discriminate]. inv H.
    destruct (IH _ _ _ E2) as (r1 & y & r2 & -> & R1 & R2 & R3). exists (w :: r1), y, r2. cbn [rmap]. rewrite E, R1. auto.
Qed.

(** A shape with its bounds. *)
Lemma shape_box : forall a b atts, bounds_element a = Ok b -> strings b -> forall k, In k ["width"; "height"; "x"; "y"] ->
  dget k a = Some (VStr (get_attribute k (bounds_of (dom_of (elem shape_tag atts [b]))))).
Proof.
  intros a b atts B S k K. destruct (fine_bounds _ _ B) as (w & h & x & y & D1 & D2 & D3 & D4 & Eb).
  assert (Q : bounds_of (dom_of (elem shape_tag atts [b])) = dom_of b) by (rewrite Eb; reflexivity). rewrite Q.
  assert (V : forall v, dget k (e_atts b) = Some v -> Some v = Some (VStr (get_attribute k (dom_of b)))).
  { intros v H. pose proof (strings_att _ _ _ S H) as E. rewrite E in H. rewrite (get_dom _ _ _ H). rewrite <- E. reflexivity. }
  simpl in K. destruct K as [<- |[<- |[<- |[<- |[]]]]]; rewrite ?D1, ?D2, ?D3, ?D4; apply V; rewrite Eb; reflexivity.
Qed.

Section Round.
Variable d : diagram.
Hypothesis SB : storable d.
Variables (fuel : nat) (t : etree).
Hypothesis TP : export_tree fuel d = Ok t.
Hypothesis ST : strings t.
Notation root := (dom_of t).

Record plane_parts (plane : etree) (co cosh : list etree) (ps : list (etree * list etree)) (shapes edges : list etree) : Prop := mkPlane {
  pl_id : exists v, dget "id" (plane_attrs d) = Some v /\ dget "id" (e_atts plane) = Some v;
  pl_element : exists v, dget "bpmnElement" (plane_attrs d) = Some v /\ dget "bpmnElement" (e_atts plane) = Some v;
  pl_kids : d_kids (dom_of plane) = map dom_of (cosh ++ flat_map snd ps ++ shapes ++ edges);
  pl_in : e_kids plane = cosh ++ flat_map snd ps ++ shapes ++ edges;
  pl_collab : export_collaboration d = Ok (co, cosh);
  pl_procs : rmap (export_process fuel d) (procs d) = Ok ps;
  pl_shapes : rmap export_node_di_data (gnodes (dgraph d)) = Ok shapes;
  pl_edges : rmap (fun f => export_flow_di_data (snd f)) (edges_view (dgraph d)) = Ok edges;
  pl_within : within plane t }.
Lemma plane_of : forall de pe, heads root de pe -> exists dia plane co cosh ps shapes edges, de = dom_of dia /\ pe = dom_of plane /\ within dia t /\
  (exists v, dget "id" (diag_attrs d) = Some v /\ dget "id" (e_atts dia) = Some v) /\
  (exists v, dget "name" (diag_attrs d) = Some v /\ dget "name" (e_atts dia) = Some v) /\
  plane_parts plane co cosh ps shapes edges.
Proof using TP.
  clear ST. intros de pe [H1 H2]. destruct (tree_inv _ _ _ TP) as [(did & dname & plid & plel & co & cosh & ps & sh & ed & D1 & D2 & D3 & D4 & C & Ps & Sh & Ed & E)].
  pose (plane := elem "bpmndi:BPMNPlane" [("id", plid); ("bpmnElement", plel)] (cosh ++ flat_map snd ps ++ sh ++ ed)).
  pose (dia := elem "bpmndi:BPMNDiagram" [("id", did); ("name", dname)] [plane]). fold plane in E. fold dia in E.
  assert (A : de = dom_of dia) by (rewrite E in H1; cbn in H1; inv H1; reflexivity).
  assert (B : pe = dom_of plane) by (rewrite A in H2; cbn in H2; inv H2; reflexivity).
  assert (Wd : within dia t) by (eapply within_below; [rewrite E; left; reflexivity|apply within_here]).
  exists dia, plane, co, cosh, ps, sh, ed. split; [exact A|]. split; [exact B|]. split; [exact Wd|].
  split; [exists did; auto|]. split; [exists dname; auto|]. constructor; auto.
  - exists plid. auto.
  - exists plel. auto.
  - eapply within_kid; [exact Wd|left; reflexivity].
Qed.

(** Shapes of nodes. *)
Lemma shapes_last : forall so de pe mid d' n a k, loaded so root de pe empty_diagram mid d' -> In (n, a) (gnodes (dgraph d)) -> is_node d' n ->
  exists b ty, bounds_element a = Ok b /\ strings b /\ dget "type" a = Some ty /\
    let x := dom_of (elem shape_tag ([("id", VStr (n ++ "_gui")); ("bpmnElement", VStr n)] ++ expanded_of ty a) [b]) in
    exists v, attr d' n k = overlay (shape_fields x (is_sub mid n)) k v.
Proof using SB TP ST.
  intros so de pe mid d' n a k L I Nd. destruct (plane_of de pe (lo_heads _ _ _ _ _ _ _ L)) as (dia & plane & co & cosh & ps & sh & ed & _ & -> & _ & _ & _ & P).
  pose proof (lo_di _ _ _ _ _ _ _ L) as D. rewrite (pl_kids _ _ _ _ _ _ P) in D.
  destruct (in_split _ _ I) as (l1 & l2 & El). pose proof (pl_shapes _ _ _ _ _ _ P) as Sh. rewrite El in Sh.
  destruct (rmap_split _ _ _ _ _ _ _ Sh) as (s1 & own & s2 & Es & _ & Ow & S2).
  destruct (node_di_inv _ _ _ Ow) as (b & ty & B & Ty & _ & Eo).
  assert (Wo : within own t).
  { eapply within_kid; [apply (pl_within _ _ _ _ _ _ P)|]. rewrite (pl_in _ _ _ _ _ _ P). apply in_or_app. right. apply in_or_app. right. apply in_or_app. left.
    rewrite Es. apply in_elt. }
  assert (Sb : strings b).
  { eapply strings_within; [exact ST|]. eapply within_kid; [exact Wo|]. rewrite Eo. left. reflexivity. }
  exists b, ty. split; [exact B|]. split; [exact Sb|]. split; [exact Ty|]. cbv zeta. rewrite <- Eo.
  rewrite (ds_attr _ _ _ _ D), Es. rewrite <- !app_assoc. rewrite map_app, fold_left_app, map_app, fold_left_app, map_app, fold_left_app. cbn [app map fold_left].
  rewrite map_app, fold_left_app.
  set (v := fold_left _ (map dom_of s1) _). exists v.
  assert (T1 : forall w, fold_left (fun v x => shape_attr mid x n k v) (map dom_of ed) w = w).
  { intros w. pose proof (pl_edges _ _ _ _ _ _ P) as Ed. clear -Ed. assert (forall x, In x ed -> d_local (dom_of x) = "BPMNEdge").
    { intros x Ix. destruct (rmap_out _ _ _ _ _ Ed x Ix) as [e [_ H]]. destruct (flow_di_inv _ _ H) as (? & ? & _ & _ & ->). reflexivity. }
    clear Ed. revert w. induction ed as [|x l IH]; intros w; [reflexivity|]. cbn [map fold_left]. unfold shape_attr at 2. rewrite (H x) by (left; reflexivity).
    cbn [String.eqb Ascii.eqb Bool.eqb andb]. apply IH. intros y Iy. apply H. right. exact Iy. }
  assert (T2 : forall w, fold_left (fun v x => shape_attr mid x n k v) (map dom_of s2) w = w).
  { intros w. assert (N : ~ In n (map fst l2)).
    { pose proof (gwf_nodup _ (sb_graph _ SB)) as N. unfold dkeys in N. rewrite El, map_app in N. cbn [map fst] in N. apply NoDup_remove_2 in N.
      intros Q. apply N. apply in_or_app. right. exact Q. }
    assert (H : forall x, In x s2 -> exists n', n' <> n /\ elt (dom_of x) = n').
    { intros x Ix. destruct (rmap_out _ _ _ _ _ S2 x Ix) as [[n' a'] [In' H]]. destruct (node_di_inv _ _ _ H) as (? & ? & _ & _ & _ & ->).
      exists n'. split; [|reflexivity]. intros ->. apply N. apply in_map_iff. exists (n, a'). auto. }
    clear -H. revert w. induction s2 as [|x l IH]; intros w; [reflexivity|]. cbn [map fold_left]. unfold shape_attr at 2.
    destruct (H x (or_introl eq_refl)) as (n' & N1 & N2). rewrite N2, (eqb_neq' n n') by auto. rewrite andb_false_r. cbn [andb]. apply IH.
    intros y Iy. apply H. right. exact Iy. }
  rewrite T1, T2. unfold shape_attr at 1. subst own.
  assert (E1 : elt (dom_of (elem shape_tag ([("id", VStr (n ++ "_gui")); ("bpmnElement", VStr n)] ++ expanded_of ty a) [b])) = n) by reflexivity.
  rewrite E1, !eqb_refl'. assert (E2 : node_b mid n = true) by (apply node_b_spec; apply (ds_node _ _ _ _ D); exact Nd). rewrite E2. reflexivity.
Qed.

(** The collaboration before the shapes are read. *)
Definition bare (p : string * attrs) : string * attrs :=
  (fst p, [("name", match dget "name" (snd p) with Some v => v | None => VNone end);
           ("processRef", match dget "processRef" (snd p) with Some v => v | None => VNone end)]).
Lemma collab_fold : forall A, (forall a, In a A -> match a with ACollab _ | APart _ | AMessage _ => False | _ => True end) ->
  forall c, fold_left (fun c a => collab_eff a c) A c = c.
Proof using.
  clear. induction A as [|a A IH]; intros H c; [reflexivity|]. cbn [fold_left]. pose proof (H a (or_introl eq_refl)) as Q.
  rewrite IH by (intros b Ib; apply H; right; exact Ib). destruct a; try contradiction; reflexivity.
Qed.
Lemma process_no_collab : forall root0 a, In a (flat_map process_actions (document_elements "process" root0)) ->
  match a with ACollab _ | APart _ | AMessage _ => False | _ => True end.
Proof using.
  clear. intros r a I. apply in_flat_map in I. destruct I as [p [_ I]]. unfold process_actions in I. cbn [app] in I. destruct I as [<- |I]; [exact Logic.I|].
  assert (Fl : forall o s, In a (flow_actions o s) -> match a with ACollab _ | APart _ | AMessage _ => False | _ => True end).
  { intros o s J. unfold flow_actions in J. apply in_flat_map in J. destruct J as [[g at_ ks|z|z] [_ J]].
    - destruct (_ =? _); [destruct J as [<- |[]]; exact Logic.I|destruct J].
    - destruct J.
    - destruct J as [<- |[]]. exact Logic.I. }
  assert (El : forall e o, In a (element_actions o e) -> match a with ACollab _ | APart _ | AMessage _ => False | _ => True end).
  { induction e as [g at_ ks IH|z|z] using dom_rect'; intros o J; cbn [element_actions] in J.
    - apply in_app_or in J. destruct J as [J|J]; [destruct (smem _ _); [destruct J as [<- |[]]; exact Logic.I|destruct J]|].
      destruct (_ =? _); [|destruct J]. apply in_app_or in J. destruct J as [J|J]; [|eapply Fl; exact J].
      apply in_flat_map in J. destruct J as [k [K J]]. rewrite Forall_forall in IH. eapply IH; eauto.
    - destruct J.
    - destruct J as [<- |[]]. exact Logic.I. }
  apply in_app_or in I. destruct I as [I|I]; [|eapply Fl; exact I]. apply in_flat_map in I. destruct I as [k [_ I]]. eapply El; exact I.
Qed.
Lemma collab_mid : forall so de pe mid d', loaded so root de pe empty_diagram mid d' ->
  collaboration mid = match collaboration_of root with None => None | Some c => fold_left (fun c a => collab_eff a c) (collab_actions c) None end.
Proof using.
  clear. intros so de pe mid d' L. rewrite (es_collab _ _ _ _ _ (lo_effs _ _ _ _ _ _ _ L)). cbn [collaboration start empty_diagram with_plane with_diag].
  unfold core_actions. rewrite fold_left_app. rewrite (collab_fold _ (process_no_collab (dom_of t))).
  unfold collaboration_of. change t_collaboration with "collaboration". destruct (document_elements "collaboration" (dom_of t)); reflexivity.
Qed.
Lemma parts_fold : forall ks x y z, (forall k, In k ks -> exists g a l, k = DElem g a l /\ local_name g = "participant") ->
  fold_left (fun c a => collab_eff a c) (flat_map (fun x => match x with
                                  | DText _ => []
                                  | DOther _ => [AFail]
                                  | DElem _ _ _ => if d_local x =? t_participant then [APart x]
                                                   else if d_local x =? t_message_flow then [AMessage x] else []
                                  end) ks) (Some (mkCollab x y z)) =
  Some (mkCollab x (fold_left (fun c k => dset (get_attribute "id" k) [("name", VStr (get_attribute "name" k)); ("processRef", VStr (get_attribute "processRef" k))] c) ks y) z).
Proof using.
  clear. induction ks as [|k ks IH]; intros x y z H; [reflexivity|]. cbn [flat_map fold_left]. destruct (H k (or_introl eq_refl)) as (g & a & l & -> & N).
  unfold d_local at 1. cbn [d_tag]. rewrite N. change ("participant" =? t_participant) with true. cbn [app fold_left collab_eff option_map co_id co_participants co_messages].
  apply IH. intros k Ik. apply H. right. exact Ik.
Qed.
Lemma messages_fold : forall ks ks' x y z, (forall k, In k ks -> exists g a l, k = DElem g a l /\ local_name g = "messageFlow") ->
  fold_left (fun c a => collab_eff a c) (flat_map (fun x => match x with
                                  | DText _ => []
                                  | DOther _ => [AFail]
                                  | DElem _ _ _ => if d_local x =? t_participant then [APart x]
                                                   else if d_local x =? t_message_flow then [AMessage x] else []
                                  end) (ks ++ ks')) (Some (mkCollab x y z)) =
  fold_left (fun c a => collab_eff a c) (flat_map (fun x => match x with
                                  | DText _ => []
                                  | DOther _ => [AFail]
                                  | DElem _ _ _ => if d_local x =? t_participant then [APart x]
                                                   else if d_local x =? t_message_flow then [AMessage x] else []
                                  end) ks')
   (Some (mkCollab x y (fold_left (fun c k => dset (get_attribute "id" k) (flow_record k) c) ks z))).
Proof using.
  clear. induction ks as [|k ks IH]; intros ks' x y z H; [reflexivity|]. cbn [flat_map fold_left app]. destruct (H k (or_introl eq_refl)) as (g & a & l & -> & N).
  unfold d_local at 1 2. cbn [d_tag]. rewrite N. change ("messageFlow" =? t_participant) with false. change ("messageFlow" =? t_message_flow) with true.
  cbn [app fold_left collab_eff option_map co_id co_participants co_messages].
  apply IH. intros k Ik. apply H. right. exact Ik.
Qed.
Lemma rmap_map_eq : forall A B C (f : A -> res B) (g : A -> C) (h : B -> C) l r, (forall x y, In x l -> In y r -> f x = Ok y -> h y = g x) -> rmap f l = Ok r ->
  map h r = map g l.
Proof using.
  clear. intros A B C f g h. induction l as [|x l IH]; intros r F H; cbn [rmap] in H; [inv H; reflexivity|].
  destruct (f x) as [y|] eqn:E; [|discriminate]. cbn [rbind] in H. destruct (rmap f l) as [r'|] eqn:E'; [|discriminate]. inv H. cbn [map].
  rewrite (F x y) by (simpl; auto). rewrite (IH r'); [reflexivity| |reflexivity]. intros. apply F; simpl; auto.
Qed.
Lemma collab_read : forall so de pe mid d' cc, loaded so root de pe empty_diagram mid d' -> collaboration d = Some cc ->
  NoDup (map fst (co_participants cc)) -> NoDup (map fst (co_messages cc)) ->
  collaboration mid = Some (mkCollab (co_id cc) (map bare (co_participants cc)) (co_messages cc)).
Proof using SB TP ST.
  intros so de pe mid d' cc L Hc N1 N2. rewrite (collab_mid _ _ _ _ _ L).
  destruct (collab_exists d fuel t TP cc Hc) as [c Ec]. rewrite Ec. destruct (collab_of d SB fuel t TP c Ec) as (cc' & ms & ps & k & Hcc & M & P & Ek & W & ->).
  rewrite Hc in Hcc. injection Hcc as <-. unfold collab_actions. cbn [fold_left collab_eff].
  assert (Kids : d_kids (dom_of k) = map dom_of (map fst ms) ++ map dom_of (map fst ps)) by (rewrite Ek; cbn [dom_of elem d_kids text_nodes app]; apply map_app).
  assert (Id : get_attribute "id" (dom_of k) = co_id cc) by (rewrite Ek; reflexivity). rewrite Id, Kids.
  assert (Mk : map (fun m : etree * etree => (get_attribute "id" (dom_of (fst m)), flow_record (dom_of (fst m)))) ms = co_messages cc).
  { rewrite (rmap_map_eq _ _ _ (export_message_flow d) (fun x => x) (fun m => (get_attribute "id" (dom_of (fst m)), flow_record (dom_of (fst m)))) (co_messages cc) ms);
      [apply map_id| |exact M].
    intros [m r] y _ _ Q. destruct (message_inv _ _ _ Q) as (e & w & _ & _ & ->). destruct r. reflexivity. }
  assert (Pk : map (fun m : etree * etree => (get_attribute "id" (dom_of (fst m)),
        [("name", VStr (get_attribute "name" (dom_of (fst m)))); ("processRef", VStr (get_attribute "processRef" (dom_of (fst m))))])) ps = map bare (co_participants cc)).
  { apply (rmap_map_eq _ _ _ export_participant bare _ (co_participants cc) ps); [|exact P].
    intros [p a] y _ Iy Q. assert (Wy : within (fst y) t).
    { eapply within_kid; [exact W|]. rewrite Ek. cbn [e_kids elem]. apply in_or_app. right. apply in_map. exact Iy. }
    pose proof (strings_within _ ST _ Wy) as Sy. destruct (participant_inv _ _ Q) as (nm & ref & ho & b & D1 & D2 & _ & _ & Ey). rewrite Ey in *. cbn [fst snd] in *.
    unfold bare. cbn [fst snd]. rewrite D1, D2. pose proof (strings_att _ "name" nm Sy eq_refl) as Q1. pose proof (strings_att _ "processRef" ref Sy eq_refl) as Q2.
    rewrite Q1, Q2. reflexivity. }
  rewrite messages_fold. 2: { intros z Iz. rewrite map_map in Iz. apply in_map_iff in Iz. destruct Iz as [m [<- Im]]. destruct (rmap_out _ _ _ _ _ M m Im) as [x [_ Q]].
    destruct (message_inv _ _ _ Q) as (e & w & _ & _ & ->). eexists _, _, _. split; reflexivity. }
  rewrite parts_fold. 2: { intros z Iz. rewrite map_map in Iz. apply in_map_iff in Iz. destruct Iz as [m [<- Im]]. destruct (rmap_out _ _ _ _ _ P m Im) as [x [_ Q]].
    destruct (participant_inv _ _ Q) as (nm & ref & ho & b & _ & _ & _ & _ & ->). eexists _, _, _. split; reflexivity. }
  rewrite !map_map.
  rewrite (fold_dset _ _ (get_attribute "id") flow_record _ []); [|rewrite map_map|intros x _ []].
  2: { rewrite <- Mk in N2. rewrite map_map in N2. exact N2. }
  rewrite (fold_dset _ _ (get_attribute "id") (fun k => [("name", VStr (get_attribute "name" k)); ("processRef", VStr (get_attribute "processRef" k))]) _ []); [|rewrite map_map|intros x _ []].
  2: { assert (Q : map (fun x => get_attribute "id" (dom_of (fst x))) ps = map fst (co_participants cc)).
       { transitivity (map fst (map bare (co_participants cc))); [rewrite <- Pk, map_map; reflexivity|rewrite map_map; reflexivity]. }
       rewrite Q. exact N1. }
  rewrite !map_map. cbn [app]. rewrite Mk, Pk. reflexivity.
Qed.
End Round.
