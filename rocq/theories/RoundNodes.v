(** Nodes and flows of the exported document, compared with those of the diagram. *)
From Coq Require Import String List Bool Arith Lia Permutation.
From Verif Require Import Py PyFacts Consts Nx NxFacts Rep SpecRep RepFacts CsvRegex CsvImport CsvFacts Xml Export Import XmlOps
  ImportFacts SpecXml XmlScopes XmlLayout Prop_XmlLayout ExportFacts ExportTree SpecRound ExportScopes.
Import ListNotations.
Open Scope string_scope.
Open Scope list_scope.

(** * What the exporter adds for each type *)
Lemma get_or_some : forall k a v, dget k a = Some v -> get_or_none k a = v.
Proof. intros k a v H. unfold get_or_none. rewrite H. reflexivity. Qed.
Lemma copied_ok : forall k a p, copied k a = Ok p -> p = (k, get_or_none k a).
Proof.
  intros k a p H. unfold copied in H. destruct (dgetE k a) as [v|] eqn:D; [|discriminate]. inv H. apply dgetE_ok in D.
  rewrite (get_or_some _ _ _ D). reflexivity.
Qed.
Lemma events_ok : forall a l, event_definition_elements a = Ok l -> definition_elements (get_or_none "event_definitions" a) = Ok l.
Proof.
  intros a l H. unfold event_definition_elements in H. destruct (dgetE k_event_definitions a) as [v|] eqn:D; [|discriminate]. apply dgetE_ok in D.
  change k_event_definitions with "event_definitions" in D. rewrite (get_or_some _ _ _ D). exact H.
Qed.
(** The definitions of a value. *)
Definition defs_of (v : pyval) : list (string * string) := match v with VDefs l => l | _ => [] end.
Lemma definitions_ok : forall v l, definition_elements v = Ok l -> l = map definition_element (defs_of v).
Proof. intros v l H. destruct v as [|s|l0|l0|l0|s t|s l0]; try discriminate; cbn in *; [destruct l0; inv H; reflexivity|inv H; reflexivity]. Qed.
Lemma default_get : forall a, dget "default" (default_attribute a) = match dget "default" a with Some VNone => None | v => v end.
Proof. intros a. unfold default_attribute. change k_default with "default". destruct (dget "default" a) as [v|]; [|reflexivity]. destruct v; reflexivity. Qed.
Lemma default_other : forall a k, k <> "default" -> dget k (default_attribute a) = None.
Proof.
  intros a k K. unfold default_attribute. change k_default with "default". destruct (dget "default" a) as [v|]; [|reflexivity].
  assert (Q : (k =? "default") = false) by (apply eqb_neq'; exact K). destruct v; cbn [dget]; rewrite ?Q; reflexivity.
Qed.
Lemma more_facts : forall f d t a m, node_more f d t a = Ok m -> In t node_kinds ->
  (forall k, In k (own_attributes t) -> dget k (fst m) = Some (get_or_none k a)) /\
  (has_default t = true -> dget "default" (fst m) = match dget "default" a with Some VNone => None | v => v end) /\
  (has_definitions t = true -> snd m = map definition_element (defs_of (get_or_none "event_definitions" a))) /\
  (forall k, dget k (fst m) <> None -> k <> "id" /\ k <> "name").
Proof.
  intros f d t a m H K.
  assert (Df : forall k, dget k (default_attribute a) <> None -> k = "default").
  { intros k Q. destruct (string_dec k "default") as [|N]; [assumption|]. rewrite (default_other _ _ N) in Q. contradiction. }
  simpl in K. repeat (destruct K as [<- |K]; [
    unfold node_more in H; cbn in H;
    unfold export_task_info, export_data_object_info, export_complex_gateway_info, export_event_based_gateway_info, export_inclusive_exclusive_gateway_info,
        export_parallel_gateway_info, export_start_event_info, export_catch_event_info, export_throw_event_info, export_boundary_event_info in H|]);
  [..|destruct K].
  5: { destruct (sub_inv _ _ _ _ (H : node_more f d "subProcess" a = Ok m)) as (s & ns & es & fs & tr & _ & Ht & _ & _ & _ & ->).
       split; [|split; [|split]]; cbn [fst snd].
       - intros k [<- |[]]. cbn [dget]. rewrite (get_or_some _ _ _ Ht). reflexivity.
       - intros _. cbn [dget]. apply default_get.
       - discriminate.
       - intros k. cbn [dget]. destruct (String.eqb_spec k "triggeredByEvent") as [->|N]; [intros _; split; discriminate|].
         intros Q. apply Df in Q. subst k. split; discriminate. }
  all: repeat match type of H with rbind (copied ?k ?x) _ = _ =>
         let C := fresh "C" in destruct (copied k x) as [?c|] eqn:C; [cbn [rbind] in H; apply copied_ok in C; subst|discriminate] end.
  all: try (destruct (event_definition_elements a) as [l|] eqn:El; [|discriminate]; apply events_ok in El; cbn [rbind] in H).
  all: try match type of H with rbind (definition_elements ?v) _ = _ => destruct (definition_elements v) as [l'|] eqn:El'; [|discriminate]; cbn [rbind] in H end.
  all: inv H; cbn [fst snd].
  all: split; [|split; [|split]].
  all: try match goal with |- forall k, In k _ -> _ => intros k Q; simpl in Q; repeat (destruct Q as [<- |Q]; [reflexivity|]); destruct Q end.
  all: try (intros _; cbn [dget]; apply default_get).
  all: try discriminate.
  all: try (intros _; eapply definitions_ok; eassumption).
  all: intros k; cbn [dget];
    repeat (match goal with |- context[?x =? ?y] => destruct (String.eqb_spec x y) as [->|?] end; [intros _; split; discriminate|]);
    try (intros Q; apply Df in Q; subst k; split; discriminate); try (intros Q; contradiction).
Qed.

(** * Children of node elements *)
Definition text_child (k : string) (x : dom) : list string :=
  match x with
  | DElem g _ (DText s :: _) | DElem g _ (DOther s :: _) => if String.eqb (local_name g) k then [s] else []
  | _ => []
  end.
Lemma child_texts_unfold : forall k e, child_texts k e = flat_map (text_child k) (d_kids e).
Proof. reflexivity. Qed.
Lemma text_child_other : forall k t, local_name (e_tag t) <> k -> text_child k (dom_of t) = [].
Proof.
  intros k [g a x l ks] N. cbn [e_tag] in N. cbn [dom_of text_child]. rewrite (eqb_neq' _ _ N).
  destruct (text_nodes x ++ map dom_of ks) as [|[]]; reflexivity.
Qed.
Lemma text_children : forall k l, local_name k = k -> ~ In "" l -> flat_map (text_child k) (map dom_of (map (text_elem k) l)) = l.
Proof.
  intros k l K N. induction l as [|s l IH]; [reflexivity|]. cbn [map flat_map]. rewrite IH by (intros I; apply N; right; exact I).
  unfold text_elem. cbn [dom_of map]. destruct s; [exfalso; apply N; left; reflexivity|]. cbn [text_nodes app text_child]. rewrite K, eqb_refl'. reflexivity.
Qed.
Lemma text_children_other : forall k j l, local_name j <> k -> flat_map (text_child k) (map dom_of (map (text_elem j) l)) = [].
Proof.
  intros k j l N. induction l as [|s l IH]; [reflexivity|]. cbn [map flat_map]. rewrite IH, text_child_other by exact N. reflexivity.
Qed.
Lemma text_children_none : forall k l, (forall t, In t l -> local_name (e_tag t) <> k) -> flat_map (text_child k) (map dom_of l) = [].
Proof.
  intros k l N. induction l as [|t l IH]; [reflexivity|]. cbn [map flat_map]. rewrite IH, text_child_other; auto using in_eq, in_cons.
Qed.

(** Event definitions found below an element. *)
Lemma elements_elem : forall name g a ks, elements_in name (DElem g a ks) =
  flat_map (fun k => (match k with DElem h _ _ => if local_name h =? name then [k] else [] | _ => [] end) ++ elements_in name k) ks.
Proof. reflexivity. Qed.
Definition found (name : string) (t : etree) : list dom :=
  (if local_name (e_tag t) =? name then [dom_of t] else []) ++ elements_in name (dom_of t).
Lemma elements_dom : forall name t, elements_in name (dom_of t) = flat_map (found name) (e_kids t).
Proof.
  intros name [g a x l ks]. cbn [dom_of e_kids]. rewrite elements_elem, flat_map_app.
  replace (flat_map _ (text_nodes x)) with (@nil dom).
  2: { destruct x as [[|]|]; reflexivity. }
  cbn [app]. rewrite flat_map_concat_map, map_map, <- flat_map_concat_map. apply flat_map_ext. intros [h b y m js]. reflexivity.
Qed.
Lemma found_leaf : forall name g a x l, found name (E g a x l []) = if local_name g =? name then [dom_of (E g a x l [])] else [].
Proof. intros. unfold found. rewrite elements_dom. cbn [e_kids flat_map e_tag]. apply app_nil_r. Qed.
Lemma found_texts : forall name k l, local_name k <> name -> flat_map (found name) (map (text_elem k) l) = [].
Proof.
  intros name k l N. induction l as [|s l IH]; [reflexivity|]. cbn [map flat_map]. rewrite IH. unfold text_elem. rewrite found_leaf, (eqb_neq' _ _ N).
  reflexivity.
Qed.
Definition def_of (k : string) (t : etree) : string * string := (get_attribute "id" (dom_of t), k).
Lemma found_defs : forall name ds, (forall x, In x ds -> local_name (snd x) = snd x) ->
  map (fun y => (get_attribute "id" y, name)) (flat_map (found name) (map definition_element ds)) = filter (fun x => snd x =? name) ds.
Proof.
  intros name ds L. induction ds as [|[i k] ds IH]; [reflexivity|]. cbn [map flat_map]. unfold definition_element at 1, elem.
  rewrite found_leaf. cbn [fst snd]. pose proof (L _ (or_introl eq_refl)) as Lk. cbn [snd] in Lk. rewrite Lk. rewrite map_app, IH by (intros; apply L; right; assumption).
  cbn [filter snd]. destruct (String.eqb_spec k name) as [->|N]; [|reflexivity]. cbn [map app]. f_equal. f_equal.
  destruct (String.eqb_spec i "") as [->|Ni]; reflexivity.
Qed.
Lemma split_kinds : forall ts (ds : list (string * string)), NoDup ts -> (forall x, In x ds -> In (snd x) ts) ->
  Permutation (flat_map (fun t => filter (fun x => snd x =? t) ds) ts) ds.
Proof.
  intros ts ds N I. induction ds as [|x ds IH].
  - induction ts as [|t ts IHt]; [constructor|]. cbn [flat_map filter]. inv N. apply IHt; auto. intros ? [].
  - specialize (IH (fun y Hy => I y (or_intror Hy))). pose proof (I x (or_introl eq_refl)) as Ix. apply in_split in Ix. destruct Ix as (t1 & t2 & Et).
    assert (N1 : ~ In (snd x) t1 /\ ~ In (snd x) t2).
    { rewrite Et in N. apply NoDup_remove_2 in N. rewrite in_app_iff in N. tauto. }
    assert (Skip : forall l, ~ In (snd x) l -> flat_map (fun t => filter (fun y => snd y =? t) (x :: ds)) l = flat_map (fun t => filter (fun y => snd y =? t) ds) l).
    { clear. induction l as [|t l IHl]; intros N; [reflexivity|]. cbn [flat_map]. rewrite IHl by (intros J; apply N; right; exact J).
      cbn [filter]. rewrite eqb_neq'; [reflexivity|]. intros E. apply N. left. auto. }
    rewrite Et in *. rewrite flat_map_app in *. cbn [flat_map] in *. rewrite !Skip by tauto. cbn [filter]. rewrite eqb_refl'. cbn [app].
    apply Permutation_sym, Permutation_cons_app, Permutation_sym. exact IH.
Qed.

(** * Node elements *)
Lemma own_kind : forall x t k, d_local x = t -> In t node_kinds -> In k (own_attributes t) -> exists dflt, In (k, att k dflt x) (kind_attributes x).
Proof.
  intros x t k L K I. unfold kind_attributes. rewrite L. simpl in K.
  repeat (destruct K as [<- |K]; [simpl in I; repeat (destruct I as [<- |I]; [eexists; simpl; tauto|]); destruct I|]). destruct K.
Qed.
Lemma default_kind : forall x t, d_local x = t -> In t node_kinds -> has_default t = true -> In ("default", optional "default" x) (kind_attributes x).
Proof.
  intros x t L K H. unfold kind_attributes. rewrite L. simpl in K.
  repeat (destruct K as [<- |K]; [try discriminate H; simpl; tauto|]). destruct K.
Qed.
Lemma kinds_events : forall t x, d_local x = t -> In t node_kinds ->
  (has_definitions t = true -> exists ts, event_kinds x = Some ts /\ NoDup ts) /\ event_kinds (DElem t [] []) = event_kinds x.
Proof.
  intros t x L K. unfold event_kinds. rewrite L.
  assert (L' : d_local (DElem t [] []) = t) by (unfold d_local; cbn [d_tag]; apply known_local; right; exact K). rewrite L'. split; [|reflexivity].
  intros H. simpl in K.
  clear L L'.
  do 6 (destruct K as [<- |K]; [discriminate H|]).
  do 5 (destruct K as [<- |K]; [eexists; split; [reflexivity|]; repeat (constructor; [simpl; intuition discriminate|]); constructor|]).
  do 5 (destruct K as [<- |K]; [discriminate H|]). destruct K.
Qed.

Section Round.
Variable d : diagram.
Hypothesis SB : storable d.
Variables (fuel : nat) (t : etree).
Hypothesis TP : export_tree fuel d = Ok t.
Hypothesis ST : strings t.
Notation root := (dom_of t).

Definition default_back (a : attrs) : pyval := match dget "default" a with Some (VStr s) => VStr s | _ => VNone end.
Lemma att_of : forall c k s dflt, dget k (e_atts c) = Some (VStr s) -> att k dflt (dom_of c) = VStr s.
Proof using. clear. intros c k s dflt H. unfold att. rewrite atts_dom, H. reflexivity. Qed.

Record element_of (n : string) (a : attrs) (tt : string) (c : etree) : Prop := mkElementOf {
  eo_kind : In tt node_kinds;
  eo_type : dget "type" a = Some (VStr tt);
  eo_local : d_local (dom_of c) = tt;
  eo_id : get_attribute "id" (dom_of c) = n;
  eo_name : dget "node_name" a = Some (att "name" "" (dom_of c));
  eo_own : forall k, In k (own_attributes tt) -> exists v, dget k a = Some v /\ In (k, v) (kind_attributes (dom_of c));
  eo_default : has_default tt = true -> In ("default", default_back a) (kind_attributes (dom_of c));
  eo_in : dget "incoming" a = Some (VList (child_texts "incoming" (dom_of c)));
  eo_out : dget "outgoing" a = Some (VList (child_texts "outgoing" (dom_of c)));
  eo_defs : has_definitions tt = true -> exists ts, event_kinds (dom_of c) = Some ts /\
     Permutation (flat_map (fun t => map (fun y => (get_attribute "id" y, t)) (elements_in t (dom_of c))) ts)
                 (defs_of (get_or_none "event_definitions" a)) }.
Lemma element_node : forall n a c, is_node_elem d (n, a) c -> within c t -> dget "type" a <> Some (VStr "participant") ->
  exists tt, element_of n a tt c.
Proof using SB ST.
  intros n a c Nc W NP. pose proof Nc as [I [f H]]. destruct (node_inv _ _ _ _ _ H) as (f' & tt & name & li & lo & m & _ & [Ht Hn Hi Ho Hm He]).
  pose proof (type_of d SB _ _ _ I Ht) as [K|K]; [subst tt; contradiction|].
  destruct (more_facts _ _ _ _ _ Hm K) as (M1 & M2 & M3 & M4).
  assert (L : local_name tt = tt) by (apply known_local; right; exact K).
  assert (Sc : strings c) by (eapply strings_within; eauto).
  assert (Loc : d_local (dom_of c) = tt) by (subst c; rewrite local_dom; exact L).
  assert (Am : forall k, k <> "id" -> k <> "name" -> dget k (e_atts c) = dget k (fst m)).
  { intros k K1 K2. subst c. cbn [e_atts node_elem elem]. cbn [app dget]. rewrite (eqb_neq' _ _ K1), (eqb_neq' _ _ K2). reflexivity. }
  assert (Nm : dget "name" (e_atts c) = Some name) by (subst c; reflexivity).
  pose proof (strings_att _ _ _ Sc Nm) as Sn.
  assert (Kn : forall k, In k (map (text_elem "incoming") li ++ map (text_elem "outgoing") lo ++ snd m) -> In k (snd m) ->
      local_name (e_tag k) <> "incoming" /\ local_name (e_tag k) <> "outgoing").
  { intros k _ Ik. destruct (more_kids _ _ _ _ _ Hm k Ik) as [(_ & ds & x & Dd & Ix & ->)|(_ & s & _ & [(na & Na & _)|(e & Fe & _)])].
    - rewrite <- (in_node d SB _ _ _ I) in Dd. rewrite <- (in_node d SB _ _ _ I) in Ht.
      destruct (sb_definitions _ SB _ _ _ _ Ht Dd Ix) as (ts & Et & It). pose proof (event_kinds_known _ _ _ Et It) as Q.
      cbn [e_tag definition_element elem]. rewrite (definition_local _ Q). simpl in Q. intuition (subst; try discriminate; congruence).
    - destruct (node_elem_name d SB _ _ Na) as (_ & Q & _). simpl in Q. split; intros E; rewrite E in Q; intuition discriminate.
    - rewrite (flow_elem_name _ _ _ Fe). split; discriminate. }
  assert (KI : forall k, In k (snd m) -> local_name (e_tag k) <> "incoming" /\ local_name (e_tag k) <> "outgoing").
  { intros k Ik. apply Kn; [|exact Ik]. apply in_or_app. right. apply in_or_app. right. exact Ik. }
  assert (Li : child_texts "incoming" (dom_of c) = li /\ child_texts "outgoing" (dom_of c) = lo).
  { assert (N1 : ~ In "" li).
    { eapply (sb_lists _ SB n "incoming"); [left; reflexivity|]. rewrite (in_node d SB _ _ _ I). exact Hi. }
    assert (N2 : ~ In "" lo).
    { eapply (sb_lists _ SB n "outgoing"); [right; reflexivity|]. rewrite (in_node d SB _ _ _ I). exact Ho. }
    subst c. rewrite !child_texts_unfold. cbn [dom_of node_elem elem d_kids text_nodes app]. rewrite !map_app, !flat_map_app.
    rewrite (text_children "incoming" li), (text_children "outgoing" lo) by (assumption || reflexivity).
    rewrite !text_children_other by discriminate. rewrite !text_children_none by (intros k Ik; apply KI; exact Ik).
    cbn [app]. rewrite !app_nil_r. auto. }
  exists tt. constructor; auto.
  - subst c. reflexivity.
  - rewrite Hn. f_equal. rewrite Sn. symmetry. apply att_of. rewrite Nm, <- Sn. reflexivity.
  - intros k Ik. assert (Kk : dget k (fst m) <> None) by (rewrite (M1 k Ik); discriminate). destruct (M4 k Kk) as [K1 K2].
    assert (Ak : dget k (e_atts c) = Some (get_or_none k a)) by (rewrite Am by assumption; apply M1; exact Ik).
    pose proof (strings_att _ _ _ Sc Ak) as Sv. destruct (own_kind _ _ _ Loc K Ik) as [df Iv].
    rewrite (att_of c k (string_of (get_or_none k a)) df) in Iv by (rewrite Ak, <- Sv; reflexivity). rewrite <- Sv in Iv.
    exists (get_or_none k a). split; [|exact Iv]. unfold get_or_none in *. destruct (dget k a) as [v|]; [reflexivity|discriminate Sv].
  - intros Hd. pose proof (default_kind _ _ Loc K Hd) as Iv. replace (default_back a) with (optional "default" (dom_of c)); [exact Iv|].
    unfold optional, default_back. rewrite atts_dom. rewrite Am by discriminate. rewrite (M2 Hd).
    destruct (dget "default" a) as [v|] eqn:Dv; [|reflexivity].
    assert (Q : v = VNone \/ v = VStr (string_of v)).
    { destruct v; auto; right; apply (strings_att c "default"); auto; rewrite Am by discriminate; rewrite (M2 Hd); reflexivity. }
    destruct Q as [->|Q]; [reflexivity|]. rewrite Q. reflexivity.
  - rewrite Hi. f_equal. f_equal. symmetry. apply Li.
  - rewrite Ho. f_equal. f_equal. symmetry. apply Li.
  - intros Hd. destruct (kinds_events _ _ Loc K) as [Ke Ee]. destruct (Ke Hd) as (ts & Ets & Nts). exists ts. split; [exact Ets|].
    set (ds := defs_of (get_or_none "event_definitions" a)) in *.
    assert (In_ds : forall x, In x ds -> In (snd x) ts).
    { intros x Ix. unfold ds in Ix. assert (Dd : attr d n "event_definitions" = Some (VDefs ds)).
      { rewrite (in_node d SB _ _ _ I). unfold ds. unfold get_or_none in *. destruct (dget "event_definitions" a) as [v|]; [|destruct Ix].
        destruct v; cbn [defs_of] in *; try destruct Ix; reflexivity. }
      rewrite <- (in_node d SB _ _ _ I) in Ht. destruct (sb_definitions _ SB _ _ _ _ Ht Dd Ix) as (ts' & Et & It).
      rewrite Ee, Ets in Et. inv Et. exact It. }
    eapply perm_trans; [|apply split_kinds; [exact Nts|exact In_ds]].
    assert (Q : forall k, In k ts -> map (fun y => (get_attribute "id" y, k)) (elements_in k (dom_of c)) = filter (fun x => snd x =? k) ds).
    { intros k Ik. pose proof (event_kinds_known tt ts k) as Q. rewrite Ee in Q. specialize (Q Ets Ik). rewrite elements_dom. subst c.
      cbn [e_kids node_elem elem]. rewrite !flat_map_app.
      rewrite !found_texts by (intros Q'; simpl in Q; rewrite <- Q' in Q; intuition discriminate). cbn [app]. rewrite (M3 Hd). apply found_defs.
      intros x Ix. apply definition_local. pose proof (event_kinds_known tt ts (snd x)) as Q2. rewrite Ee in Q2. apply Q2; [exact Ets|]. apply In_ds. exact Ix. }
    clear -Q. induction ts as [|k ts IH]; [constructor|]. cbn [flat_map]. rewrite (Q k) by (left; reflexivity).
    apply Permutation_app_head. apply IH. intros j Ij. apply Q. right. exact Ij.
Qed.
End Round.
