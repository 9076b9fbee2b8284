(** In which order the importer adds connections. *)
From Coq Require Import String List Bool Arith Lia.
From Verif Require Import Py PyFacts Consts Nx NxFacts Rep SpecRep RepFacts CsvRegex CsvImport CsvFacts Xml Import XmlOps
  ImportFacts ActionFacts DiFacts LoadFacts SpecXml XmlScopes SpecOrder KeyOrder.
Import ListNotations.
Open Scope string_scope.
Open Scope list_scope.

Definition ends_of (e : edge) : string * string := (eu e, ev e).
Definition edge_order (d : diagram) : list (string * string) := map ends_of (gedges (dgraph d)).
Definition joined (u v : string) (p : string * string) : bool :=
  (String.eqb (fst p) u && String.eqb (snd p) v) || (String.eqb (fst p) v && String.eqb (snd p) u).
Definition link1 (ls : list (string * string)) (p : string * string) : list (string * string) :=
  if existsb (joined (fst p) (snd p)) ls then ls else ls ++ [p].
Definition link_all (ls ns : list (string * string)) : list (string * string) := fold_left link1 ns ls.
Lemma link_all_app : forall ks a b, link_all ks (a ++ b) = link_all (link_all ks a) b.
Proof. intros. unfold link_all. apply fold_left_app. Qed.
Lemma has_joined : forall u v g, has_edge u v g = existsb (joined u v) (map ends_of (gedges g)).
Proof.
  intros u v g. unfold has_edge, find_edge. induction (gedges g) as [|e l IH]; [reflexivity|]. cbn [find map existsb].
  change (joined u v (ends_of e)) with (connects u v e). destruct (connects u v e); [reflexivity|exact IH].
Qed.

(** * Programs that add these connections *)
Definition joins {A} (ns : list (string * string)) (m : MD A) : Prop :=
  forall d d' x, m d = (d', Ok x) -> edge_order d' = link_all (edge_order d) ns.
Lemma joins_ret : forall A (x : A), joins [] (mret x).
Proof. intros A x d d' y H. inv H. reflexivity. Qed.
Lemma joins_raise : forall A ns e, joins (A := A) ns (mraise e).
Proof. intros A ns e d d' y H. discriminate. Qed.
Lemma joins_bind : forall A B ns ms (m : MD A) (f : A -> MD B), joins ns m -> (forall x, joins ms (f x)) -> joins (ns ++ ms) (mbind m f).
Proof.
  intros A B ns ms m f H H0 d d' y E. apply mbind_ok in E. destruct E as (d1 & x & E1 & E2).
  rewrite link_all_app. rewrite <- (H _ _ _ E1). apply (H0 x _ _ _ E2).
Qed.
Lemma joins_then : forall A B ns (m : MD A) (f : A -> MD B), joins ns m -> (forall x, joins [] (f x)) -> joins ns (mbind m f).
Proof. intros A B ns m f H H0. rewrite <- (app_nil_r ns). apply joins_bind; auto. Qed.
Lemma joins_after : forall A B ns (m : MD A) (f : A -> MD B), joins [] m -> (forall x, joins ns (f x)) -> joins ns (mbind m f).
Proof. intros A B ns m f H H0. apply (joins_bind _ _ [] ns); auto. Qed.
Lemma joins_still : forall A (f : A -> MD unit), (forall a, joins [] (f a)) -> forall l, joins [] (mfor l f).
Proof. intros A f H. induction l as [|a l IH]; [apply joins_ret|]. cbn [mfor]. apply joins_then; auto. Qed.
Lemma joins_read : forall A (f : diagram -> res A), joins [] (mread f).
Proof. intros A f d d' x H. apply mread_ok in H. destruct H as [-> _]. reflexivity. Qed.
Lemma joins_modify : forall f, (forall d, dgraph (f d) = dgraph d) -> joins [] (mmodify f).
Proof. intros f F d d' x H. inv H. unfold edge_order. rewrite F. reflexivity. Qed.
Lemma joins_try : forall f, (forall d d', f d = Ok d' -> dgraph d' = dgraph d) -> joins [] (mtry f).
Proof. intros f F d d' x H. unfold mtry in H. destruct (f d) as [d1|] eqn:E; [|discriminate]. inv H. unfold edge_order. rewrite (F _ _ E). reflexivity. Qed.
Lemma joins_graph : forall f, (forall g g', f g = Ok g' -> map ends_of (gedges g') = map ends_of (gedges g)) -> joins [] (ggraph f).
Proof.
  intros f F d d' x H. unfold ggraph, mtry in H. destruct (f (dgraph d)) as [g|] eqn:E; [|discriminate]. inv H.
  unfold edge_order. simpl. apply (F _ _ E).
Qed.
Lemma joins_set : forall n k v, joins [] (node_set n k v).
Proof.
  intros n k v. apply joins_graph. intros g g' H. unfold set_node_attr in H. destruct (gnode g n) as [a|] eqn:E; [|discriminate]. inv H. reflexivity.
Qed.
Lemma joins_edge : forall s t k v, joins [] (edge_set s t k v).
Proof.
  intros s t k v. apply joins_graph. intros g g' H. unfold set_edge_attr in H. destruct (has_edge s t g); [|discriminate]. inv H. simpl.
  unfold upd_edges. rewrite map_map. apply map_ext. intros e. destruct (connects s t e); reflexivity.
Qed.
Lemma joins_append : forall n k s, joins [] (ggraph (append_node_attr n k s)).
Proof.
  intros n k s. apply joins_graph. intros g g' H. unfold append_node_attr, set_node_attr, get_node_attr in H.
  destruct (gnode g n) as [a|] eqn:E; [|discriminate]. destruct (dgetE k a) as [v|]; [|discriminate]. cbn [rbind] in H.
  destruct v; try discriminate. inv H. reflexivity.
Qed.
Lemma edges_add : forall n g, gedges (add_node n g) = gedges g.
Proof. intros n g. unfold add_node. destruct (has_node g n); reflexivity. Qed.
Lemma joins_node : forall n, joins [] (ggraph (fun g => Ok (add_node n g))).
Proof. intros n. apply joins_graph. intros g g' H. inv H. rewrite edges_add. reflexivity. Qed.
Lemma joins_link : forall s t, joins [(s, t)] (ggraph (fun g => Ok (add_edge s t g))).
Proof.
  intros s t d d' x H. inv H. unfold edge_order. simpl. unfold add_edge. rewrite has_joined, !edges_add. unfold link1. cbn [fst snd].
  destruct (existsb _ _); simpl; rewrite ?edges_add; [reflexivity|]. rewrite map_app. reflexivity.
Qed.

(** * The actions of the importer *)
Definition lines (a : action) : list (string * string) :=
  match a with
  | AFlow _ x | AMessage x => [(src x, tgt x)]
  | _ => []
  end.

Section Acts.
Variable set_order : list string -> list string.
Notation act := (act set_order).
Notation load := (load_diagram_from_xml set_order).

Lemma joins_own : forall o x, joins [] (append_node_id o x).
Proof.
  intros [p|s] x; [|apply joins_append]. apply joins_try. intros d d' H. destruct (dgetE p (procs d)) as [a|]; [|discriminate]. cbn [rbind] in H.
  destruct (dgetE k_node_ids a) as [v|]; [|discriminate]. cbn [rbind] in H. destruct v; try discriminate. inv H. reflexivity.
Qed.
Lemma joins_flow_node : forall o e, joins [] (import_flow_node_to_graph o e).
Proof.
  intros o e. unfold import_flow_node_to_graph. apply joins_then; [apply joins_node|intros _].
  repeat first [apply joins_set | apply joins_own | apply joins_read | apply joins_then; [|intros ?]].
Qed.
Lemma joins_import : forall o e, joins [] (import_node set_order o e).
Proof.
  intros o e. unfold import_node, import_activity_to_graph, import_data_object_to_graph, import_gateway_with_default_to_graph,
    import_gateway_to_graph, import_event_based_gateway_to_graph, import_start_event_to_graph, import_end_event_to_graph,
    import_intermediate_catch_event_to_graph, import_intermediate_throw_event_to_graph, import_boundary_event_to_graph, import_event_definition_elements.
  repeat match goal with |- joins _ (if ?b then _ else _) => destruct b end;
    repeat first [apply joins_ret | apply joins_flow_node | apply joins_set | apply joins_then; [|intros ?]].
Qed.
Lemma joins_register : forall n k f, joins [] (register_flow n k f).
Proof.
  intros n k f. unfold register_flow. apply joins_then; [apply joins_read|]. intros a. apply joins_then.
  - destruct (dhas k a); [apply joins_ret|apply joins_set].
  - intros _. apply joins_then; [apply joins_read|]. intros v. destruct v; try apply joins_raise. destruct (smem _ _); [apply joins_ret|apply joins_append].
Qed.
Lemma joins_seq : forall o x, joins [(src x, tgt x)] (import_sequence_flow_to_graph o x).
Proof.
  intros o x. unfold import_sequence_flow_to_graph. apply joins_after; [apply joins_modify; reflexivity|]. intros _.
  apply joins_then; [apply joins_link|]. intros _.
  do 5 (apply joins_then; [apply joins_edge|]; intros _). apply joins_then.
  - apply joins_still. intros [g a ks|s|s]; [|apply joins_ret|apply joins_raise]. destruct (String.eqb _ _); [|apply joins_ret].
    apply joins_then; [apply joins_read|]. intros c. apply joins_edge.
  - intros _. apply joins_then; [apply joins_register|]. intros _. apply joins_register.
Qed.
Lemma joins_message : forall x, joins [(src x, tgt x)] (import_message_flow_to_graph x).
Proof.
  intros x. unfold import_message_flow_to_graph. apply joins_after; [apply joins_modify; intros; apply message_graph|]. intros _.
  apply joins_then; [apply joins_link|]. intros _. do 4 (apply joins_then; [apply joins_edge|]; intros _).
  apply joins_then; [apply joins_register|]. intros _. apply joins_register.
Qed.
Lemma joins_part : forall x, joins [] (import_participant_element x).
Proof.
  intros x. unfold import_participant_element. apply joins_then; [|intros _; apply joins_modify; intros; apply part_graph].
  destruct (String.eqb _ _); [|apply joins_ret].
  apply joins_then; [apply joins_node|]. intros _. apply joins_then; [apply joins_set|]. intros _. apply joins_set.
Qed.
Lemma joins_act : forall plane a, joins (lines a) (act plane a).
Proof.
  intros plane a. destruct a as [e|o e|o x| |c|x|x]; cbn [ImportFacts.act lines].
  - apply joins_then; [apply joins_modify; reflexivity|]. intros _. unfold import_lane_sets. destruct (elements_in _ _) as [|ls r]; [apply joins_ret|].
    apply joins_then; [apply joins_read|]. intros l. apply joins_try. intros d d' H. destruct (dgetE _ _); [|discriminate]. inv H. reflexivity.
  - apply joins_import.
  - apply joins_seq.
  - apply joins_raise.
  - apply joins_modify. reflexivity.
  - apply joins_part.
  - apply joins_message.
Qed.
Lemma joins_acts : forall plane l, joins (flat_map lines l) (mfor l (act plane)).
Proof.
  intros plane. induction l as [|a l IH]; [apply joins_ret|]. cbn [mfor flat_map]. apply joins_bind; [apply joins_act|intros _; exact IH].
Qed.
Lemma joins_di : forall x, joins [] (di_step x).
Proof.
  intros [g a ks|s|s]; [|apply joins_ret|apply joins_raise]. unfold di_step. destruct (String.eqb _ _); [|destruct (String.eqb _ _); [|apply joins_ret]].
  - unfold import_shape_di. apply joins_then; [apply joins_read|]. intros b. apply joins_then; [apply joins_read|]. intros k. apply joins_then.
    + destruct k; [|apply joins_ret]. do 2 (apply joins_then; [apply joins_set|]; intros _). apply joins_then; [apply joins_read|]. intros t.
      apply joins_then; [destruct (veqs _ _); [apply joins_set|apply joins_ret]|]. intros _. apply joins_then; [apply joins_set|]. intros _. apply joins_set.
    + intros _. apply joins_modify. intros d. destruct (collaboration d) as [c|]; [|reflexivity]. destruct (dget _ _); [|reflexivity]. apply part_graph.
  - unfold import_flow_di. apply joins_then; [apply joins_read|]. intros [r|]; [|apply joins_ret]. apply joins_then; [apply joins_edge|]. intros _. apply joins_edge.
Qed.
Lemma load_edge_order : forall root d d', load root d = (d', Ok tt) -> edge_order d' = link_all (edge_order d) (flat_map lines (core_actions root)).
Proof.
  intros root d d' H. destruct (load_ok_parts set_order root d d' H) as (de & pe & mid & _ & H1 & H2).
  rewrite (joins_still _ _ joins_di _ _ _ _ H2). simpl. apply (joins_acts _ _ _ _ _ H1).
Qed.
End Acts.

(** * Lists of pairs without repetitions *)
Lemma joined_sym : forall u v p, joined u v p = joined v u p.
Proof. intros u v [x y]. unfold joined. cbn [fst snd]. destruct (x =? u), (y =? v), (x =? v), (y =? u); reflexivity. Qed.
Lemma joined_swap : forall p q, joined (fst p) (snd p) q = joined (fst q) (snd q) p.
Proof.
  intros [a b] [x y]. unfold joined. cbn [fst snd]. rewrite (String.eqb_sym a x), (String.eqb_sym b y), (String.eqb_sym a y), (String.eqb_sym b x).
  rewrite (andb_comm (y =? a)). reflexivity.
Qed.
Lemma link_all_in : forall ns ls, (forall p, In p ns -> existsb (joined (fst p) (snd p)) ls = true) -> link_all ls ns = ls.
Proof.
  induction ns as [|p ns IH]; intros ls H; [reflexivity|]. unfold link_all. cbn [fold_left]. unfold link1 at 2. rewrite (H p (or_introl eq_refl)).
  apply IH. intros q I. apply H. right. exact I.
Qed.
Fixpoint apart (l : list (string * string)) : Prop :=
  match l with
  | [] => True
  | p :: r => (forall q, In q r -> joined (fst p) (snd p) q = false) /\ apart r
  end.
Lemma link_all_apart : forall ns ls, apart ns -> (forall p q, In p ls -> In q ns -> joined (fst p) (snd p) q = false) -> link_all ls ns = ls ++ ns.
Proof.
  induction ns as [|p ns IH]; intros ls A D; [symmetry; apply app_nil_r|]. destruct A as [A B]. unfold link_all. cbn [fold_left]. unfold link1 at 2.
  assert (E : existsb (joined (fst p) (snd p)) ls = false).
  { apply not_true_is_false. intros E. apply existsb_exists in E. destruct E as (q & I & J). rewrite joined_swap in J. rewrite (D q p I (or_introl eq_refl)) in J. discriminate. }
  rewrite E. fold (link_all (ls ++ [p]) ns). rewrite IH; [rewrite <- app_assoc; reflexivity|exact B|].
  intros q r I J. apply in_app_or in I. destruct I as [I|[<-|[]]]; [apply D; [exact I|right; exact J]|apply A; exact J].
Qed.
Lemma joined_refl : forall p, joined (fst p) (snd p) p = true.
Proof. intros [x y]. unfold joined. cbn [fst snd]. rewrite !String.eqb_refl. reflexivity. Qed.

(** * Connections listed in the order of the report *)
Section View.
Variable rel : attrs -> attrs -> Prop.
Definition listed_as (t : string * string * attrs) (e : edge) : Prop :=
  same_pair (fst (fst t)) (snd (fst t)) (eu e) (ev e) /\ rel (snd t) (eat e).
Definition reported_as (t t' : string * string * attrs) : Prop := fst t' = fst t /\ rel (snd t) (snd t').

Lemma incident_app : forall n a b, incident n (a ++ b) = incident n a ++ incident n b.
Proof. intros. unfold incident. apply flat_map_app. Qed.
Lemma view_first : forall ns seen es t, In t (edges_from ns seen es) -> In (fst (fst t)) ns /\ ~ In (snd (fst t)) seen.
Proof.
  induction ns as [|n ns IH]; intros seen es t I; [destruct I|]. cbn [edges_from] in I. apply in_app_or in I. destruct I as [I|I].
  - apply in_map_iff in I. destruct I as ([m a] & <- & I). apply filter_In in I. destruct I as [_ B]. cbn [fst snd] in *. split; [left; reflexivity|].
    intros J. apply smem_In in J. rewrite J in B. discriminate.
  - destruct (IH _ _ _ I) as [A B]. split; [right; exact A|]. intros J. apply B. right. exact J.
Qed.
Lemma view_again : forall es ns seen V1 es', NoDup ns -> (forall n, In n ns -> ~ In n seen) ->
  (forall t, In t V1 -> In (fst (fst t)) seen \/ In (snd (fst t)) seen) ->
  Forall2 listed_as (V1 ++ edges_from ns seen es) es' -> Forall2 reported_as (edges_from ns seen es) (edges_from ns seen es').
Proof.
  intros es. induction ns as [|n ns IH]; intros seen V1 es' Nd Ds S1 F; [constructor|]. cbn [edges_from] in *.
  inversion Nd as [|n0 ns0 Nn Nd']; subst n0 ns0.
  set (Vn := map (fun p => (n, fst p, snd p)) (filter (fun p => negb (smem (fst p) seen)) (incident n es))) in *.
  pose proof F as F0. apply Forall2_app_inv_l in F. destruct F as (e1 & e23 & F1 & F & ->). apply Forall2_app_inv_l in F. destruct F as (en & e2 & Fn & F2 & ->).
  apply Forall2_app.
  - rewrite !incident_app, !filter_app.
    assert (Z1 : filter (fun p => negb (smem (fst p) seen)) (incident n e1) = []).
    { clear -F1 S1 Ds. revert S1. induction F1 as [|t e V1 e1 [Sp _] F1 IHf]; intros S1; [reflexivity|].
      change (e :: e1) with ([e] ++ e1). rewrite incident_app, filter_app, IHf by (intros t' I'; apply S1; right; exact I').
      rewrite app_nil_r. assert (Q : In (eu e) seen \/ In (ev e) seen).
      { destruct (S1 t (or_introl eq_refl)) as [Q|Q]; destruct Sp as [[<- <-]|[<- <-]]; auto. }
      assert (N : ~ In n seen) by (apply Ds; left; reflexivity). cbn [incident flat_map app].
      destruct (eu e =? n) eqn:B; [apply String.eqb_eq in B; cbn [app filter fst]|destruct (ev e =? n) eqn:C; [apply String.eqb_eq in C; cbn [app filter fst]|reflexivity]].
      - destruct Q as [Q|Q]; [congruence|]. apply smem_In in Q. rewrite Q. reflexivity.
      - destruct Q as [Q|Q]; [|congruence]. apply smem_In in Q. rewrite Q. reflexivity. }
    assert (Z2 : incident n e2 = []).
    { clear -F2 Nn. assert (H : forall t, In t (edges_from ns (n :: seen) es) -> fst (fst t) <> n /\ snd (fst t) <> n).
      { intros t I. destruct (view_first _ _ _ _ I) as [A B]. split; [intros E; rewrite E in A; contradiction|]. intros E. apply B. left. symmetry. exact E. }
      revert H. induction F2 as [|t e V e2 [Sp _] F2 IHf]; intros H; [reflexivity|]. change (e :: e2) with ([e] ++ e2). rewrite incident_app, IHf by (intros t' I'; apply H; right; exact I').
      destruct (H t (or_introl eq_refl)) as [A B]. assert (C : eu e <> n /\ ev e <> n) by (destruct Sp as [[<- <-]|[<- <-]]; auto). destruct C as [C D].
      apply String.eqb_neq in C, D. cbn [incident flat_map]. rewrite C, D. reflexivity. }
    rewrite Z1, Z2. cbn [app filter]. rewrite app_nil_r.
    assert (H : forall t, In t Vn -> fst (fst t) = n /\ smem (snd (fst t)) seen = false).
    { intros t I. apply in_map_iff in I. destruct I as ([m a] & <- & I). apply filter_In in I. destruct I as [_ B]. cbn [fst snd] in *. split; [reflexivity|].
      destruct (smem m seen); [discriminate|reflexivity]. }
    clear -Fn H. revert H. induction Fn as [|t e V en [Sp Re] Fn IHf]; intros H; [constructor|]. change (e :: en) with ([e] ++ en).
    rewrite incident_app, filter_app, map_app. destruct (H t (or_introl eq_refl)) as [A B]. rewrite A in Sp. specialize (IHf (fun t' I' => H t' (or_intror I'))).
    assert (Q : map (fun p => (n, fst p, snd p)) (filter (fun p => negb (smem (fst p) seen)) (incident n [e])) = [(n, snd (fst t), eat e)]).
    { cbn [incident flat_map app]. destruct (eu e =? n) eqn:C.
      - apply String.eqb_eq in C. assert (E : ev e = snd (fst t)) by (destruct Sp as [[E1 E2]|[E1 E2]]; congruence). cbn [app filter fst]. rewrite E, B. reflexivity.
      - apply String.eqb_neq in C. destruct Sp as [[E1 E2]|[E1 E2]]; [congruence|]. rewrite E1, (String.eqb_refl (ev e)). cbn [app filter fst]. rewrite <- E2, B. reflexivity. }
    rewrite Q. cbn [app]. constructor; [|exact IHf]. split; [destruct t as [[? ?] ?]; cbn [fst snd] in *; congruence|exact Re].
  - apply (IH (n :: seen) (V1 ++ Vn) (e1 ++ en ++ e2) Nd').
    + intros m I [<-|J]; [contradiction|]. apply (Ds m (or_intror I) J).
    + intros t I. apply in_app_or in I. destruct I as [I|I]; [destruct (S1 t I); [left|right]; right; assumption|].
      left. left. apply in_map_iff in I. destruct I as ([m a] & <- & _). reflexivity.
    + rewrite <- app_assoc. exact F0.
Qed.
End View.
