(** The exporter succeeds on every diagram that has what it writes. *)
From Coq Require Import String List Bool Arith Lia.
From Verif Require Import Py PyFacts Consts Nx NxFacts Rep SpecRep RepFacts Xml Export Import SpecXml SpecRound SpecWrite
  ExportFacts ExportTree ExportScopes.
Import ListNotations.
Open Scope string_scope.
Open Scope list_scope.

Lemma view_edge : forall g v, In v (edges_view g) -> exists e, In e (gedges g) /\ snd v = eat e.
Proof.
  intros g v. unfold edges_view. generalize (@nil string) as seen. induction (dkeys (gnodes g)) as [|n l IH]; intros seen H; cbn [edges_from] in H; [destruct H|].
  apply in_app_or in H. destruct H as [H|H]; [|eauto]. clear IH.
  apply in_map_iff in H. destruct H as [x [<- H]]. apply filter_In in H. destruct H as [H _]. unfold incident in H.
  apply in_flat_map in H. destruct H as [e [Ie H]]. exists e. split; [exact Ie|].
  destruct (String.eqb (eu e) n); [|destruct (String.eqb (ev e) n); [|destruct H]]; destruct H as [<- |[]]; reflexivity.
Qed.

Lemma rmap_strings : forall A (f : A -> res etree) l, (forall x, In x l -> exists t, f x = Ok t /\ strings t) ->
  exists r, rmap f l = Ok r /\ forall t, In t r -> strings t.
Proof.
  intros A f l H. destruct (rmap_some _ _ f l) as [r Hr]; [intros x Hx; destruct (H x Hx) as [t [E _]]; eauto|].
  exists r. split; [exact Hr|]. intros t Ht. destruct (rmap_out _ _ _ _ _ Hr t Ht) as [x [Ix Ex]]. destruct (H x Ix) as [t' [E S]]. congruence.
Qed.
Lemma copied_text : forall k a, text a k -> exists s, copied k a = Ok (k, VStr s).
Proof. intros k a [s H]. exists s. unfold copied. rewrite (proj2 (dgetE_ok _ _ _) H). reflexivity. Qed.
Lemma got_text : forall k a, text a k -> exists s, get_or_none k a = VStr s.
Proof. intros k a [s H]. exists s. unfold get_or_none. rewrite H. reflexivity. Qed.
Definition strung (a : attrs) : Prop := forall p, In p a -> is_string p.
Lemma strung_nil : strung []. Proof. intros p []. Qed.
Lemma strung_cons : forall k s a, strung a -> strung ((k, VStr s) :: a).
Proof. intros k s a H p [<- |I]; [exists s; reflexivity|auto]. Qed.
Lemma strung_app : forall a b, strung a -> strung b -> strung (a ++ b).
Proof. intros a b H1 H2 p I. apply in_app_or in I. destruct I; auto. Qed.
Lemma strung_default : forall a, dget "default" a = None \/ dget "default" a = Some VNone \/ text a "default" -> strung (default_attribute a).
Proof.
  intros a H. unfold default_attribute. change k_default with "default". destruct H as [-> |[-> |[s ->]]]; try apply strung_nil.
  apply strung_cons, strung_nil.
Qed.
Lemma strings_elem' : forall g a ks, strung a -> (forall k, In k ks -> strings k) -> strings (elem g a ks).
Proof. intros. apply strings_elem; assumption. Qed.
Lemma strings_text : forall k s, strings (text_elem k s).
Proof. intros. apply strings_elem; [intros p []|intros t []]. Qed.
Lemma definitions_make : forall l, exists r, definition_elements (VDefs l) = Ok r /\ forall t, In t r -> strings t.
Proof.
  intros l. eexists. split; [reflexivity|]. intros t I. apply in_map_iff in I. destruct I as [x [<- _]]. unfold definition_element.
  apply strings_elem'; [|intros k []]. destruct (String.eqb (fst x) ""); [apply strung_nil|apply strung_cons, strung_nil].
Qed.
Lemma rfilter_some : forall A (f : A -> res bool) l, (forall x, In x l -> exists b, f x = Ok b) -> exists r, rfilter f l = Ok r.
Proof.
  induction l as [|x l IH]; intros H; [exists []; reflexivity|]. destruct (H x (or_introl eq_refl)) as [b Hb].
  destruct IH as [r Hr]; [intros; apply H; right; assumption|]. cbn [rfilter]. rewrite Hb. cbn [rbind]. rewrite Hr. cbn [rbind]. eauto.
Qed.
Lemma flow_make : forall a, flow_writable a -> exists t, export_flow_process_data a = Ok t /\ strings t.
Proof.
  intros a (I & N & S & T & C). destruct (copied_text _ _ I) as [i Hi], (copied_text _ _ N) as [n Hn], (copied_text _ _ S) as [s Hs], (copied_text _ _ T) as [u Hu].
  unfold export_flow_process_data. change k_id with "id". change k_name with "name". change k_source_ref with "sourceRef". change k_target_ref with "targetRef".
  change k_condition_expression with "conditionExpression".
  rewrite Hi, Hn, Hs, Hu. cbn [rbind]. destruct C as [-> |(c & x & ->)]; (eexists; split; [reflexivity|]); apply strings_elem'.
  - repeat apply strung_cons. apply strung_nil.
  - intros k [].
  - cbn [dset String.eqb Ascii.eqb Bool.eqb]. repeat apply strung_cons. apply strung_nil.
  - intros k [<- |[]]. apply strings_elem; [|intros k []]. intros p [<- |[]]. exists c. reflexivity.
Qed.

Section Writable.
Variable d : diagram.
Hypothesis PW : parts_writable d.
Variable rank : string -> nat.
Hypothesis GR : NoDup (map fst (gnodes (dgraph d))).
Hypothesis NE : nesting d rank.

Lemma nodes_found : forall p, exists l, get_nodes_list_by_process_id p d = Ok l /\ forall na, In na l <-> In na (gnodes (dgraph d)) /\ dget "process" (snd na) = Some (VStr p).
Proof using PW.
  intros p. destruct (rfilter_some _ (attr_is k_process (Some p)) (nodes_view (dgraph d))) as [l Hl].
  - intros [n a] I. destruct (pw_process d PW n a I) as [v Hv]. unfold attr_is. cbn [snd]. change k_process with "process".
    rewrite (proj2 (dgetE_ok _ _ _) Hv). cbn [rbind]. eauto.
  - exists l. split; [exact Hl|]. apply nodes_by_process. exact Hl.
Qed.
Lemma flows_made : forall p, is_scope d p -> exists r, rmap (fun f => export_flow_process_data (snd f)) (get_flows_list_by_process_id p d) = Ok r /\ forall t, In t r -> strings t.
Proof using PW.
  intros p Sp. apply rmap_strings. intros v Iv. apply flows_by_process in Iv. destruct Iv as [Iv Pv]. destruct (view_edge _ _ Iv) as [e [Ie Ee]].
  rewrite Ee in *. apply flow_make. eapply pw_flows; eauto.
Qed.
Lemma sub_attr : forall n a k, In (n, a) (gnodes (dgraph d)) -> attr d n k = dget k a.
Proof using GR. intros n a k I. unfold attr, node_of. rewrite (In_dget n a _ GR I). reflexivity. Qed.

Lemma node_made : forall fuel n a, In (n, a) (gnodes (dgraph d)) -> node_writable a -> 0 < fuel ->
  (dget "type" a = Some (VStr "subProcess") -> rank n + 1 < fuel) ->
  exists t, export_node_data fuel d (n, a) = Ok t /\ strings t.
Proof using PW GR NE.
  induction fuel as [|f IH]; intros n a I NW F R; [lia|].
  destruct NW as (t & T & K & [nm Nm] & [li Li] & [lo Lo] & Own & Df & Ds).
  assert (M : exists m, node_more f d t a = Ok m /\ strung (fst m) /\ forall k, In k (snd m) -> strings k).
  { unfold node_more. destruct (string_dec t "subProcess") as [-> |N].
    - cbn [smem existsb task_types String.eqb Ascii.eqb Bool.eqb orb t_subprocess t_task t_user_task t_service_task t_manual_task].
      destruct (copied_text _ _ (Own "triggeredByEvent" (or_introl eq_refl))) as [s Hs]. change k_triggered_by_event with "triggeredByEvent". rewrite Hs. cbn [rbind].
      change k_id with "id". rewrite (proj2 (dgetE_ok _ _ _) (pw_subs d PW n a I T)). cbn [rbind].
      assert (Sn : is_scope d n) by (right; rewrite (sub_attr n a) by exact I; exact T).
      destruct (nodes_found n) as [l [Hl Hin]]. rewrite Hl. cbn [rbind].
      destruct (rmap_strings _ (export_node_data f d) l) as [es [He Se]].
      { intros [m b] Im. apply Hin in Im. cbn [snd] in Im. destruct Im as [Im Pm]. apply IH; [exact Im|eapply pw_nodes; eauto|specialize (R T); lia|].
        intros Tm. specialize (R T). enough (rank m < rank n) by lia.
        apply NE; [rewrite (sub_attr n a) by exact I|rewrite (sub_attr m b) by exact Im|rewrite (sub_attr m b) by exact Im]; assumption. }
      rewrite He. cbn [rbind]. destruct (flows_made n Sn) as [fs [Hf Sf]]. rewrite Hf. cbn [rbind]. eexists. split; [reflexivity|]. cbn [fst snd]. split.
      + apply strung_cons, strung_default, Df. reflexivity.
      + intros k J. apply in_app_or in J. destruct J; auto.
    - clear IH R. assert (Te : forall k, In k (own_attributes t) -> exists s, dget k a = Some (VStr s)) by exact Own.
      assert (Kn : In t ("participant" :: node_kinds)) by exact K. simpl in Kn.
      assert (De : has_definitions t = true -> exists l es, dget "event_definitions" a = Some (VDefs l) /\ definition_elements (VDefs l) = Ok es /\ forall k, In k es -> strings k).
      { intros H. destruct (Ds H) as [l Hl]. destruct (definitions_make l) as [es [E1 E2]]. eauto. }
      clear K Own Ds.
      repeat (destruct Kn as [<- |Kn]; [try congruence; simpl in Te, Df;
        cbn [smem existsb task_types String.eqb Ascii.eqb Bool.eqb orb t_task t_user_task t_service_task t_manual_task t_subprocess t_data_object t_complex_gateway t_event_based_gateway t_inclusive_gateway t_exclusive_gateway t_parallel_gateway t_start_event t_intermediate_catch_event t_end_event t_intermediate_throw_event t_boundary_event];
        unfold export_task_info, export_data_object_info, export_complex_gateway_info, export_inclusive_exclusive_gateway_info, export_event_based_gateway_info,
          export_parallel_gateway_info, export_catch_event_info, export_start_event_info, export_throw_event_info, export_boundary_event_info, event_definition_elements;
        repeat match goal with
        | |- context[copied ?k a] => let s := fresh "s" in let H := fresh "H" in destruct (copied_text k a) as [s H]; [apply Te; simpl; tauto|]; rewrite H; cbn [rbind]; clear H
        | |- context[get_or_none k_event_definitions a] => let l := fresh "l" in let es := fresh "es" in let H := fresh "H" in let E := fresh "E" in let S := fresh "S" in
            destruct (De eq_refl) as (l & es & H & E & S); unfold get_or_none at 1; change k_event_definitions with "event_definitions"; rewrite H, E; cbn [rbind]
        | |- context[dgetE k_event_definitions a] => let l := fresh "l" in let es := fresh "es" in let H := fresh "H" in let E := fresh "E" in let S := fresh "S" in
            destruct (De eq_refl) as (l & es & H & E & S); change k_event_definitions with "event_definitions"; rewrite (proj2 (dgetE_ok _ _ _) H); cbn [rbind]; rewrite E; cbn [rbind]
        | |- context[get_or_none ?k a] => let s := fresh "s" in let H := fresh "H" in destruct (got_text k a) as [s H]; [apply Te; simpl; tauto|]; rewrite H; clear H
        end;
        (eexists; split; [reflexivity|]; cbn [fst snd]; split; [repeat apply strung_cons; first [apply strung_nil|apply strung_default, Df; reflexivity]|first [assumption|intros k []]])|]).
      destruct Kn. }
  destruct M as [m [Hm [Sm Sk]]]. eexists. split; [eapply node_make; constructor; eauto|].
  unfold node_elem. apply strings_elem'.
  - apply strung_cons. apply strung_cons. exact Sm.
  - intros k J. apply in_app_or in J. destruct J as [J|J]; [apply in_map_iff in J; destruct J as [s [<- _]]; apply strings_text|].
    apply in_app_or in J. destruct J as [J|J]; [apply in_map_iff in J; destruct J as [s [<- _]]; apply strings_text|auto].
Qed.

Lemma text_key : forall k a s, dget k a = Some (VStr s) -> copied k a = Ok (k, VStr s).
Proof. intros. unfold copied. rewrite (proj2 (dgetE_ok _ _ _) H). reflexivity. Qed.
Lemma process_head : forall p a, In (p, a) (procs d) -> exists c x t, export_process_element p a =
  Ok [("id", VStr p); ("isClosed", VStr c); ("isExecutable", VStr x); ("processType", VStr t)].
Proof using PW.
  intros p a I. destruct (pw_processes d PW p a I) as ([c C] & [x X] & [t T]). exists c, x, t. unfold export_process_element.
  change k_is_closed with "isClosed". change k_is_executable with "isExecutable". change k_process_type with "processType".
  rewrite (text_key _ _ _ C), (text_key _ _ _ X), (text_key _ _ _ T). reflexivity.
Qed.
(** Enough fuel for every subprocess. *)
Definition deep (fuel : nat) : Prop := 0 < fuel /\ forall n, attr d n "type" = Some (VStr "subProcess") -> rank n + 1 < fuel.
Lemma nodes_made : forall fuel l, deep fuel -> incl l (gnodes (dgraph d)) -> (forall n a, In (n, a) l -> node_writable a) -> exists r, rmap (export_node_data fuel d) l = Ok r /\ forall t, In t r -> strings t.
Proof using PW GR NE.
  intros fuel l [F D] I NW. apply rmap_strings. intros [n a] J. pose proof (NW n a J) as W. apply I in J. apply node_made; [exact J|exact W|exact F|].
  intros T. apply D. rewrite (sub_attr n a) by exact J. exact T.
Qed.

Lemma no_di_made : forall fuel, deep fuel -> (forall n a, In (n, a) (gnodes (dgraph d)) -> node_writable a) -> (forall e, In e (gedges (dgraph d)) -> flow_writable (eat e)) ->
  exists t, export_tree_no_di fuel d = Ok t /\ strings t.
Proof using PW GR NE.
  intros fuel D NW FL. unfold export_tree_no_di.
  match goal with |- exists t, rbind (rmap ?h _) _ = _ /\ _ => destruct (rmap_strings _ h (procs d)) as [ps [Hp Sp]] end.
  - intros [p a] I. cbn [fst snd]. destruct (process_head p a I) as (c & x & t & ->). cbn [rbind].
    destruct (nodes_made fuel (nodes_view (dgraph d)) D (incl_refl _) NW) as [es [-> Se]]. cbn [rbind].
    destruct (rmap_strings _ (fun f => export_flow_process_data (snd f)) (edges_view (dgraph d))) as [fs [-> Sf]].
    { intros v Iv. destruct (view_edge _ _ Iv) as [e [Ie ->]]. apply flow_make. auto. }
    cbn [rbind]. eexists. split; [reflexivity|]. apply strings_elem'; [repeat apply strung_cons; apply strung_nil|].
    intros k J. apply in_app_or in J. destruct J; auto.
  - rewrite Hp. cbn [rbind]. eexists. split; [reflexivity|]. apply strings_elem'; [|exact Sp]. unfold definitions_attributes. repeat apply strung_cons. apply strung_nil.
Qed.
End Writable.

(** Writing a tree of strings. *)
Lemma strings_indent : forall t k, strings t -> strings (indent k t).
Proof.
  fix IH 1. intros [g a x l ks] k S. inversion S as [? ? ? ? ? A K]; subst. cbn [indent]. destruct ks as [|c ks]; [apply strings_elem; assumption|].
  apply strings_elem; [exact A|]. revert K. generalize (c :: ks) as cs. clear A S. induction cs as [|c' cs IHl]; intros K u J; [destruct J|].
  destruct J as [<- |J]; [apply IH; apply K; left; reflexivity|]. apply IHl; [intros; apply K; right; assumption|exact J].
Qed.
Lemma written_some : forall t, strings t -> exists r l, written t = Ok (r :: l).
Proof.
  fix IH 1. intros [g a x l ks] S. inversion S as [? ? ? ? ? A K]; subst. cbn [written]. rewrite (written_atts_ok _ A). cbn [rbind].
  assert (Q : exists y, (fix all (l : list etree) : res (list dom) :=
                    match l with [] => Ok [] | k :: r => let* x := written k in let* y := all r in Ok (x ++ y) end) ks = Ok y).
  { clear A S. induction ks as [|c cs IHl]; [eauto|]. destruct (IH c) as (r & l' & E); [apply K; left; reflexivity|].
    destruct IHl as [y Hy]; [intros; apply K; right; assumption|]. rewrite E. cbn [rbind]. rewrite Hy. cbn [rbind]. eauto. }
  destruct Q as [y ->]. cbn [rbind]. eauto.
Qed.
Lemma document_some : forall t, strings t -> exists r, document (indent 0 t) = Ok r.
Proof.
  intros t S. unfold document. destruct (written_some (indent 0 t) (strings_indent t 0 S)) as (r & l & ->). cbn [rbind]. eauto.
Qed.
Theorem no_di_succeeds : forall d rank fuel, parts_writable d -> NoDup (map fst (gnodes (dgraph d))) -> nesting d rank ->
  deep d rank fuel -> (forall n a, In (n, a) (gnodes (dgraph d)) -> node_writable a) ->
  (forall e, In e (gedges (dgraph d)) -> flow_writable (eat e)) -> exists file, export_xml_file_no_di fuel d = Ok file.
Proof.
  intros d rank fuel PW GR NE D NW FL. destruct (no_di_made d PW rank GR NE fuel D NW FL) as [t [E S]].
  unfold export_xml_file_no_di. rewrite E. cbn [rbind]. apply document_some. exact S.
Qed.

(** With diagram interchange. *)
Lemma bounds_make : forall a, boxed a -> exists b, bounds_element a = Ok b /\ strings b.
Proof.
  intros a ([w W] & [h H] & [x X] & [y Y]). unfold bounds_element. change k_width with "width". change k_height with "height". change k_x with "x". change k_y with "y".
  rewrite (text_key _ _ _ W), (text_key _ _ _ H), (text_key _ _ _ X), (text_key _ _ _ Y). cbn [rbind]. eexists. split; [reflexivity|].
  apply strings_elem'; [repeat apply strung_cons; apply strung_nil|intros k []].
Qed.
Lemma shape_make : forall n a, node_drawn a -> exists s, export_node_di_data (n, a) = Ok s /\ strings s.
Proof.
  intros n a (B & [t T] & X). destruct (bounds_make a B) as [b [Hb Sb]]. unfold export_node_di_data. cbn [fst snd]. rewrite Hb. cbn [rbind].
  change k_type with "type". rewrite (proj2 (dgetE_ok _ _ _) T). cbn [rbind veqs]. change t_subprocess with "subProcess".
  destruct (String.eqb_spec t "subProcess") as [-> |N].
  - destruct (X T) as [x Hx]. change k_is_expanded with "isExpanded". rewrite (text_key _ _ _ Hx). cbn [rbind]. eexists. split; [reflexivity|].
    apply strings_elem'; [repeat apply strung_cons; apply strung_nil|intros k [<- |[]]; exact Sb].
  - cbn [rbind]. eexists. split; [reflexivity|]. apply strings_elem'; [repeat apply strung_cons; apply strung_nil|intros k [<- |[]]; exact Sb].
Qed.
Lemma points_make : forall a ps, points_of a ps -> exists w, waypoint_elements a = Ok w /\ forall k, In k w -> strings k.
Proof.
  intros a ps [P|[P ->]]; unfold waypoint_elements; change k_waypoints with "waypoints"; rewrite (proj2 (dgetE_ok _ _ _) P); cbn [rbind].
  - eexists. split; [reflexivity|]. intros k I. apply in_map_iff in I. destruct I as [p [<- _]].
    apply strings_elem'; [repeat apply strung_cons; apply strung_nil|intros k []].
  - exists []. split; [reflexivity|]. intros k [].
Qed.
Lemma line_make : forall a ps, text a "id" -> points_of a ps -> exists s, export_flow_di_data a = Ok s /\ strings s.
Proof.
  intros a ps [i I] P. destruct (points_make a ps P) as [w [W S]]. unfold export_flow_di_data. change k_id with "id".
  rewrite (proj2 (dgetE_ok _ _ _) I). cbn [rbind gui]. rewrite W. cbn [rbind]. eexists. split; [reflexivity|].
  apply strings_elem'; [repeat apply strung_cons; apply strung_nil|exact S].
Qed.
Definition both (r : etree * etree) : Prop := strings (fst r) /\ strings (snd r).
Lemma participant_make : forall p a, text a "name" -> text a "processRef" -> text a "isHorizontal" -> boxed a ->
  exists r, export_participant (p, a) = Ok r /\ both r.
Proof.
  intros p a [n N] [q Q] [h H] B. destruct (bounds_make a B) as [b [Hb Sb]]. unfold export_participant. cbn [fst snd].
  change k_name with "name". change k_process_ref with "processRef". change k_is_horizontal with "isHorizontal".
  rewrite (text_key _ _ _ N), (text_key _ _ _ Q), (text_key _ _ _ H). cbn [rbind]. rewrite Hb. cbn [rbind]. eexists. split; [reflexivity|].
  split; (apply strings_elem'; [repeat apply strung_cons; apply strung_nil|]); [intros k []|intros k [<- |[]]; exact Sb].
Qed.
Lemma first_flow_there : forall f l e, In e l -> dget "id" (snd e) = Some (VStr f) -> (forall e, In e l -> text (snd e) "id") ->
  exists e', first_flow f l = Ok (Some e') /\ In e' l.
Proof.
  intros f. induction l as [|x l IH]; intros e I F T; [destruct I|]. cbn [first_flow]. destruct (T x (or_introl eq_refl)) as [s S].
  change k_id with "id". rewrite (proj2 (dgetE_ok _ _ _) S). cbn [rbind veqs]. destruct (String.eqb_spec s f) as [-> |N]; [exists x; split; [reflexivity|left; reflexivity]|].
  destruct I as [-> |I]; [congruence|]. destruct (IH e I F) as [e' [E1 E2]]; [intros; apply T; right; assumption|]. exists e'. split; [exact E1|right; exact E2].
Qed.
(** A connection of the graph is among the flows that are reported. *)
Lemma edge_view : forall g e, gwf g -> In e (gedges g) -> exists v, In v (edges_view g) /\ snd v = eat e.
Proof.
  intros g e G I. destruct (edges_view_reports g G) as [l [P F]]. apply (Permutation.Permutation_in _ (Permutation.Permutation_sym P)) in I.
  clear P. revert I F. generalize (edges_view g) as vs. induction l as [|x l IH]; intros vs I F; [destruct I|]. inversion F as [|v ? vs' ? R F']; subst. destruct I as [<- |I].
  - exists v. split; [left; reflexivity|apply R].
  - destruct (IH _ I F') as [w [W1 W2]]. exists w. split; [right; exact W1|exact W2].
Qed.
Lemma message_make : forall d m r e, gwf (dgraph d) -> In e (gedges (dgraph d)) -> dget "id" (eat e) = Some (VStr m) ->
  (forall e, In e (gedges (dgraph d)) -> text (eat e) "id" /\ exists ps, points_of (eat e) ps) ->
  exists x, export_message_flow d (m, r) = Ok x /\ both x.
Proof.
  intros d m r e G I H W. destruct (edge_view _ _ G I) as [v [Iv Ev]].
  destruct (first_flow_there m (edges_view (dgraph d)) v Iv) as [v' [F Iv']]; [congruence|intros u Iu; destruct (view_edge _ _ Iu) as [e' [Ie ->]]; apply W; exact Ie|].
  unfold export_message_flow, get_flow_by_id, get_flows. cbn [fst snd]. rewrite F. cbn [rbind]. destruct (view_edge _ _ Iv') as [e' [Ie Ee]]. rewrite Ee.
  destruct (W e' Ie) as [_ [ps P]]. destruct (points_make _ _ P) as [w [-> S]]. cbn [rbind]. eexists. split; [reflexivity|].
  split; (apply strings_elem'; [repeat apply strung_cons; apply strung_nil|]); [intros k []|exact S].
Qed.
Lemma lane_make : forall l i, (forall j m, lane_in [(i, l)] j m -> lane_geometry m <> None) ->
  exists r, export_lane i l = Ok r /\ strings (fst r) /\ forall k, In k (snd r) -> strings k.
Proof.
  induction l as [name child refs di IH] using lane_ind'. intros i G. rewrite export_lane_unfold.
  assert (S : exists sub, match child with
              | None => Ok ([], [])
              | Some (_, lanes) => let* p := lanes_list lanes in Ok ([elem "laneSet" [] (fst p)], snd p)
              end = Ok sub /\ (forall k, In k (fst sub) -> strings k) /\ forall k, In k (snd sub) -> strings k).
  { destruct child as [[s ls]|]; [|exists ([], []); split; [reflexivity|split; intros k []]].
    assert (Q : forall ls', incl ls' ls -> exists p, lanes_list ls' = Ok p /\ (forall k, In k (fst p) -> strings k) /\ forall k, In k (snd p) -> strings k).
    { induction ls' as [|[j x] ls' IHl]; intros Hi; [exists ([], []); split; [reflexivity|split; intros k []]|]. cbn [lanes_list].
      assert (Ij : In (j, x) ls) by (apply Hi; left; reflexivity).
      destruct (IH s ls j x eq_refl Ij j) as [r [E [R1 R2]]].
      - intros k m L. apply (G k m). eapply lane_below; [left; reflexivity|]. inversion L as [? ? ? J|? ? ? ? ? ? ? ? ? J L']; subst.
        + destruct J as [J|[]]. injection J as <- <-. apply lane_here. exact Ij.
        + destruct J as [J|[]]. injection J as <- Ex. subst x. eapply lane_below; [exact Ij|exact L'].
      - rewrite E. cbn [rbind]. destruct IHl as [p [-> [P1 P2]]]; [intros z Hz; apply Hi; right; exact Hz|]. cbn [rbind].
        eexists. split; [reflexivity|]. cbn [fst snd]. split; [intros k [<- |J]; auto|intros k J; apply in_app_or in J; destruct J; auto]. }
    destruct (Q ls (incl_refl _)) as [p [-> [P1 P2]]]. cbn [rbind]. eexists. split; [reflexivity|]. cbn [fst snd]. split; [|exact P2].
    intros k [<- |[]]. apply strings_elem'; [apply strung_nil|exact P1]. }
  destruct S as [sub [-> [S1 S2]]]. cbn [rbind]. assert (D : lane_geometry (Lane name child refs di) <> None) by (apply (G i); apply lane_here; left; reflexivity).
  cbn [lane_geometry] in D. destruct di as [[hor [[[w h] x] y]]|]; [|congruence]. cbn [lane_shape_out rbind]. eexists. split; [reflexivity|]. cbn [fst snd]. split.
  - apply strings_elem'; [repeat apply strung_cons; apply strung_nil|]. intros k J. apply in_app_or in J. destruct J as [J|J]; [auto|].
    apply in_map_iff in J. destruct J as [z [<- _]]. apply strings_text.
  - intros k J. apply in_app_or in J. destruct J as [J|[<- |[]]]; [auto|]. apply strings_elem'; [repeat apply strung_cons; apply strung_nil|].
    intros k [<- |[]]. apply strings_elem'; [repeat apply strung_cons; apply strung_nil|intros k []].
Qed.
Lemma lanes_make : forall a, (dget "laneSet" a = None \/
    exists s ls, dget "laneSet" a = Some (VLaneSet s ls) /\ forall i l, lane_in ls i l -> lane_geometry l <> None) ->
  exists r, lanes_out a = Ok r /\ (forall k, In k (fst r) -> strings k) /\ forall k, In k (snd r) -> strings k.
Proof.
  intros a [H|(s & ls & H & G)]; unfold lanes_out; change k_lane_set with "laneSet"; rewrite H; [exists ([], []); split; [reflexivity|split; intros k []]|].
  unfold export_lane_set.
  assert (L : forall p, In p ls -> exists r, export_lane (fst p) (snd p) = Ok r /\ strings (fst r) /\ forall k, In k (snd r) -> strings k).
  { intros [i l] I. cbn [fst snd]. apply lane_make. intros j m L. apply (G j). inversion L as [? ? ? J|? ? ? ? ? ? ? ? ? J L']; subst.
    - destruct J as [J|[]]. injection J as <- <-. apply lane_here. exact I.
    - destruct J as [J|[]]. injection J as <- Ex. subst l. eapply lane_below; [exact I|exact L']. }
  destruct (rmap_some _ _ (fun p => export_lane (fst p) (snd p)) ls) as [r R]; [intros p Ip; destruct (L p Ip) as [q [Q _]]; eauto|].
  rewrite R. cbn [rbind fst snd]. eexists. split; [reflexivity|]. cbn [fst snd]. split.
  - intros k [<- |[]]. apply strings_elem'; [apply strung_nil|]. intros k J. apply in_map_iff in J. destruct J as [q [<- J]].
    destruct (rmap_out _ _ _ _ _ R q J) as [p [Ip Ep]]. destruct (L p Ip) as [q' [Q [Q1 _]]]. assert (q' = q) by congruence. subst. exact Q1.
  - intros k J. apply in_flat_map in J. destruct J as [q [Iq J]].
    destruct (rmap_out _ _ _ _ _ R q Iq) as [p [Ip Ep]]. destruct (L p Ip) as [q' [Q [_ Q2]]]. assert (q' = q) by congruence. subst. auto.
Qed.
Lemma rmap_both : forall A (P : etree * etree -> Prop) (f : A -> res (etree * etree)) l, (forall x, In x l -> exists t, f x = Ok t /\ P t) ->
  exists r, rmap f l = Ok r /\ forall t, In t r -> P t.
Proof.
  intros A P f l H. destruct (rmap_some _ _ f l) as [r Hr]; [intros x Hx; destruct (H x Hx) as [t [E _]]; eauto|].
  exists r. split; [exact Hr|]. intros t Ht. destruct (rmap_out _ _ _ _ _ Hr t Ht) as [x [Ix Ex]]. destruct (H x Ix) as [t' [E S]]. congruence.
Qed.

(** The processes with everything in them. *)
Lemma processes_made : forall d rank fuel, parts_writable d -> NoDup (map fst (gnodes (dgraph d))) -> nesting d rank -> deep d rank fuel ->
  (forall p a, In (p, a) (procs d) -> dget "laneSet" a = None \/
    exists s ls, dget "laneSet" a = Some (VLaneSet s ls) /\ forall i l, lane_in ls i l -> lane_geometry l <> None) ->
  exists ps, rmap (export_process fuel d) (procs d) = Ok ps /\ forall q, In q ps -> strings (fst q) /\ forall k, In k (snd q) -> strings k.
Proof.
  intros d rank fuel PW GR NE D LA.
  assert (Q : forall p, In p (procs d) -> exists q, export_process fuel d p = Ok q /\ strings (fst q) /\ forall k, In k (snd q) -> strings k).
  { intros [p a] I. unfold export_process. cbn [fst snd]. destruct (process_head d PW p a I) as (c & x & t & ->). cbn [rbind].
    fold (lanes_out a). destruct (lanes_make a (LA p a I)) as [ls [-> [L1 L2]]]. cbn [rbind].
    assert (Sp : is_scope d p) by (left; apply in_map_iff; exists (p, a); auto).
    destruct (nodes_found d PW p) as [l [-> Hl]]. cbn [rbind].
    destruct (nodes_made d PW rank GR NE fuel l D) as [es [-> Se]]; [intros na J; apply Hl in J; apply J|intros n b J; apply Hl in J; destruct J as [J1 J2]; eapply pw_nodes; eauto|]. cbn [rbind].
    destruct (flows_made d PW p Sp) as [fs [-> Sf]]. cbn [rbind]. eexists. split; [reflexivity|]. cbn [fst snd]. split; [|exact L2].
    apply strings_elem'; [repeat apply strung_cons; apply strung_nil|]. intros k J. apply in_app_or in J. destruct J as [J|J]; [auto|].
    apply in_app_or in J. destruct J; auto. }
  destruct (rmap_some _ _ (export_process fuel d) (procs d)) as [ps E]; [intros p I; destruct (Q p I) as [q [E _]]; eauto|].
  exists ps. split; [exact E|]. intros q Iq. destruct (rmap_out _ _ _ _ _ E q Iq) as [p [Ip Ep]]. destruct (Q p Ip) as [q' [E' S']].
  assert (q' = q) by congruence. subst. exact S'.
Qed.
Theorem tree_succeeds : forall d rank fuel, writable d -> gwf (dgraph d) -> nesting d rank -> deep d rank fuel ->
  exists t, export_tree fuel d = Ok t /\ strings t.
Proof.
  intros d rank fuel WR G NE D. pose proof (wr_parts d WR) as PW. pose proof (gwf_nodup _ G) as GR.
  destruct (wr_diagram d WR) as [[i1 D1] [i2 D2]], (wr_plane d WR) as [[i3 D3] [i4 D4]].
  unfold export_tree. change k_id with "id". change k_name with "name". change k_bpmn_element with "bpmnElement".
  rewrite (text_key _ _ _ D1), (text_key _ _ _ D2), (text_key _ _ _ D3), (text_key _ _ _ D4). cbn [rbind].
  assert (C : exists co, export_collaboration d = Ok co /\ (forall k, In k (fst co) -> strings k) /\ forall k, In k (snd co) -> strings k).
  { unfold export_collaboration. destruct (collaboration d) as [c|] eqn:Ec; [|exists ([], []); split; [reflexivity|split; intros k []]].
    destruct (rmap_both _ both (export_message_flow d) (co_messages c)) as [ms [-> Sm]].
    { intros [m r] I. destruct (wr_messages d WR c m r Ec I) as [e [Ie He]]. eapply message_make; eauto. apply (wr_flows d WR). }
    cbn [rbind]. destruct (rmap_both _ both export_participant (co_participants c)) as [ps [-> Sp]].
    { intros [p a] I. destruct (wr_participants d WR c p a Ec I) as (P1 & P2 & P3 & P4). apply participant_make; assumption. }
    cbn [rbind]. eexists. split; [reflexivity|]. cbn [fst snd]. split.
    - intros k [<- |[]]. apply strings_elem'; [apply strung_cons, strung_nil|]. intros k J. apply in_app_or in J.
      destruct J as [J|J]; apply in_map_iff in J; destruct J as [q [<- J]]; [apply Sm|apply Sp]; exact J.
    - intros k J. apply in_app_or in J. destruct J as [J|J]; apply in_map_iff in J; destruct J as [q [<- J]]; [apply Sm|apply Sp]; exact J. }
  destruct C as [co [-> [C1 C2]]]. cbn [rbind].
  destruct (processes_made d rank fuel PW GR NE D (wr_lanes d WR)) as [ps [-> P]]. cbn [rbind].
  destruct (rmap_strings _ export_node_di_data (nodes_view (dgraph d))) as [sh [-> Ss]].
  { intros [n a] I. apply shape_make. eapply wr_nodes; eauto. }
  cbn [rbind]. destruct (rmap_strings _ (fun f => export_flow_di_data (snd f)) (get_flows d)) as [ed [-> Sd]].
  { intros v I. destruct (view_edge _ _ I) as [e [Ie ->]]. destruct (wr_flows d WR e Ie) as [Te [q Pq]]. eapply line_make; eauto. }
  cbn [rbind]. eexists. split; [reflexivity|]. apply strings_elem'; [unfold definitions_attributes; repeat apply strung_cons; apply strung_nil|].
  intros k [<- |J].
  - apply strings_elem'; [repeat apply strung_cons; apply strung_nil|]. intros k [<- |[]]. apply strings_elem'; [repeat apply strung_cons; apply strung_nil|].
    intros k J. apply in_app_or in J. destruct J as [J|J]; [auto|]. apply in_app_or in J. destruct J as [J|J].
    + apply in_flat_map in J. destruct J as [q [Iq J]]. apply (P q Iq). exact J.
    + apply in_app_or in J. destruct J; auto.
  - apply in_app_or in J. destruct J as [J|J]; [auto|]. apply in_map_iff in J. destruct J as [q [<- J]]. apply (proj1 (P q J)).
Qed.
