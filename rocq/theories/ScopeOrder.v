(** The order of the nodes and of the flows of each process and subprocess after saving and loading. *)
From Coq Require Import String List Bool Arith Lia Permutation.
From Verif Require Import Py PyFacts Consts Nx NxFacts Rep SpecRep RepFacts CsvRegex CsvImport CsvFacts Xml Export Import XmlOps
  ImportFacts ActionFacts DiFacts LoadFacts SpecXml XmlScopes Prop_XmlImport ExportFacts ExportTree ExportScopes SpecRound RoundNodes RoundLoad RoundBack RoundLoads
  Prop_XmlRound Prop_XmlLanes Prop_XmlDrawn SpecOrder KeyOrder OrderRound SameRound Prop_Order EdgeOrder ProcOrder MessageBack SpecResave ResaveFacts.
Import ListNotations.
Open Scope string_scope.
Open Scope list_scope.

(** * Repetitions of a list *)
Inductive copies {A} (l : list A) : list A -> Prop :=
| copies_none : copies l []
| copies_more : forall m, copies l m -> copies l (l ++ m).
Lemma copies_one : forall A (l : list A), copies l l.
Proof. intros A l. rewrite <- (app_nil_r l) at 2. constructor. constructor. Qed.
Lemma copies_app : forall A (l a b : list A), copies l a -> copies l b -> copies l (a ++ b).
Proof. intros A l a b H. induction H as [|m H IH]; intros K; [exact K|]. rewrite <- app_assoc. constructor. apply IH. exact K. Qed.
Lemma copies_flat : forall A B (l : list A) (f : B -> list A) ks, (forall x, In x ks -> copies l (f x)) -> copies l (flat_map f ks).
Proof.
  intros A B l f. induction ks as [|x ks IH]; intros H; [constructor|]. cbn [flat_map]. apply copies_app; [apply H; left; reflexivity|].
  apply IH. intros y I. apply H. right. exact I.
Qed.
Lemma copies_incl : forall A (l m : list A), copies l m -> incl m l.
Proof. intros A l m H. induction H as [|m H IH]; [intros x []|]. apply incl_app; [apply incl_refl|exact IH]. Qed.
Lemma copies_first : forall A (l m : list A), copies l m -> m = [] \/ exists r, m = l ++ r /\ incl r l.
Proof. intros A l m H. destruct H as [|m H]; [left; reflexivity|]. right. exists m. split; [reflexivity|]. apply copies_incl. exact H. Qed.
Lemma filter_flat : forall A B (P : B -> bool) (f : A -> list B) l, filter P (flat_map f l) = flat_map (fun x => filter P (f x)) l.
Proof. intros A B P f. induction l as [|x l IH]; [reflexivity|]. cbn [flat_map]. rewrite filter_app, IH. reflexivity. Qed.
Lemma filter_add1 : forall P ks n, filter P (add1 ks n) = if P n then add1 (filter P ks) n else filter P ks.
Proof.
  intros P ks n. unfold add1. destruct (P n) eqn:E.
  - destruct (in_dec string_dec n ks) as [I|I]; destruct (in_dec string_dec n (filter P ks)) as [J|J]; auto.
    + exfalso. apply J. apply filter_In. auto.
    + exfalso. apply I. apply filter_In in J. tauto.
    + rewrite filter_app. cbn [filter]. rewrite E. reflexivity.
  - destruct (in_dec string_dec n ks); [reflexivity|]. rewrite filter_app. cbn [filter]. rewrite E. apply app_nil_r.
Qed.
Lemma filter_add_all : forall P ns ks, filter P (add_all ks ns) = add_all (filter P ks) (filter P ns).
Proof.
  intros P. induction ns as [|n ns IH]; intros ks; [reflexivity|]. unfold add_all. cbn [fold_left]. fold (add_all (add1 ks n) ns). rewrite IH, filter_add1.
  cbn [filter]. destruct (P n); reflexivity.
Qed.
Lemma filter_link1 : forall P ks n, (forall p q, joined (fst p) (snd p) q = true -> P p = P q) ->
  filter P (link1 ks n) = if P n then link1 (filter P ks) n else filter P ks.
Proof.
  intros P ks n S. unfold link1. 
  assert (X : P n = true -> existsb (joined (fst n) (snd n)) (filter P ks) = existsb (joined (fst n) (snd n)) ks).
  { intros E. induction ks as [|x ks IH]; [reflexivity|]. cbn [filter existsb]. destruct (P x) eqn:Px; cbn [existsb]; rewrite IH; [reflexivity|].
    destruct (joined (fst n) (snd n) x) eqn:J; [|reflexivity]. apply S in J. congruence. }
  destruct (P n) eqn:E.
  - rewrite X by reflexivity. destruct (existsb _ ks); [reflexivity|]. rewrite filter_app. cbn [filter]. rewrite E. reflexivity.
  - destruct (existsb _ ks); [reflexivity|]. rewrite filter_app. cbn [filter]. rewrite E. apply app_nil_r.
Qed.
Lemma filter_link_all : forall P, (forall p q, joined (fst p) (snd p) q = true -> P p = P q) ->
  forall ns ks, filter P (link_all ks ns) = link_all (filter P ks) (filter P ns).
Proof.
  intros P S. induction ns as [|n ns IH]; intros ks; [reflexivity|]. unfold link_all. cbn [fold_left]. fold (link_all (link1 ks n) ns). rewrite IH, filter_link1 by exact S.
  cbn [filter]. destruct (P n); reflexivity.
Qed.
Lemma add_copies : forall l m, NoDup l -> copies l m -> m <> [] -> add_all [] m = l.
Proof.
  intros l m N C Ne. destruct (copies_first _ _ _ C) as [->|(r & -> & I)]; [congruence|]. rewrite add_all_app, firsts_start, firsts_same by exact N.
  apply add_all_in. exact I.
Qed.
Lemma link_copies : forall l m, apart l -> copies l m -> m <> [] -> link_all [] m = l.
Proof.
  intros l m N C Ne. destruct (copies_first _ _ _ C) as [->|(r & -> & I)]; [congruence|]. rewrite link_all_app.
  rewrite (link_all_apart l [] N) by (intros ? ? []). cbn [app]. apply link_all_in. intros p J. apply existsb_exists. exists p. split; [apply I; exact J|apply joined_refl].
Qed.

(** * The pairs that the flows of an element and of what is below it join *)
Fixpoint wires (e : dom) : list (string * string) :=
  match e with
  | DElem _ _ ks => flat_map (fun x => match x with DElem g _ _ => if String.eqb (local_name g) "subProcess" then wires x else [] | _ => [] end) ks ++
                    map (fun x => (src x, tgt x)) (filter is_flow ks)
  | _ => []
  end.
Definition nested (x : dom) : list (string * string) :=
  match x with DElem g _ _ => if String.eqb (local_name g) "subProcess" then wires x else [] | _ => [] end.
Lemma wires_nested : forall e, wires e = flat_map nested (d_kids e) ++ map (fun x => (src x, tgt x)) (filter is_flow (d_kids e)).
Proof. intros [g a ks|s|s]; reflexivity. Qed.
Lemma element_wires : forall e o, flat_map lines (element_actions o e) = nested e.
Proof.
  intros e. induction e as [g a kids IH|z|z] using dom_rect'; intros o; try reflexivity. cbn [element_actions]. rewrite flat_map_app.
  assert (N : flat_map lines (if smem (local_name g) node_types then [ANode o (DElem g a kids)] else []) = []) by (destruct (smem _ _); reflexivity).
  rewrite N. cbn [app nested]. change t_subprocess with "subProcess". destruct (String.eqb _ _); [|reflexivity].
  rewrite wires_nested, flat_map_app, flow_lines. f_equal. cbn [d_kids]. generalize (InSubprocess (get_attribute k_id (DElem g a kids))). intros o'.
  clear N. induction kids as [|x l IHl]; [reflexivity|]. cbn [flat_map]. rewrite flat_map_app. inv IH. rewrite H1, IHl by assumption. reflexivity.
Qed.
Lemma process_wires : forall e, flat_map lines (process_actions e) = wires e.
Proof.
  intros e. unfold process_actions. cbn [flat_map lines app]. rewrite flat_map_app, flow_lines, wires_nested. f_equal.
  generalize (InProcess (get_attribute k_id e)). intros o. induction (d_kids e) as [|x l IH]; [reflexivity|]. cbn [flat_map]. rewrite flat_map_app, element_wires, IH. reflexivity.
Qed.

(** Both ends of every flow stand where the flow stands. *)
Section Scopes.
Variable d : diagram.
Hypothesis SB : storable d.
Hypothesis FS : scoped_flows d.
Variables (fuel : nat) (t : etree).
Hypothesis TP : export_tree fuel d = Ok t.
Hypothesis ST : strings t.
Notation root := (dom_of t).

Lemma kid_place : forall s x, scope root s -> In x (d_kids s) -> In (d_local x) node_kinds -> attr d (get_attribute "id" x) "process" = Some (VStr (get_attribute "id" s)).
Proof using SB TP.
  intros s x Sc I K. assert (D : declared root s x).
  { split; [exact Sc|]. split; [exact I|]. exists (d_local x). split; [exact K|]. destruct x as [g a ks|z|z]; [reflexivity| |]; simpl in K; intuition discriminate. }
  destruct (declared_of d SB fuel t TP s x D) as (p & k & na & c & Sk & W & -> & Na & Ic & -> & P).
  destruct (node_elem_name d SB na c Na) as (_ & _ & Id & _). destruct na as [n a]. cbn [fst snd] in *. rewrite (get_dom _ _ _ Id), (scope_id d SB fuel p k Sk).
  destruct Na as [In_ _]. rewrite (in_node d SB _ _ _ In_). exact P.
Qed.
Lemma flow_place : forall s x, scope root s -> In x (d_kids s) -> is_flow x = true ->
  attr d (src x) "process" = Some (VStr (get_attribute "id" s)) /\ attr d (tgt x) "process" = Some (VStr (get_attribute "id" s)).
Proof using SB TP ST FS.
  intros s x Sc I B. apply String.eqb_eq in B.
  assert (F : flow_in root s x) by (split; [exact Sc|]; split; [exact I|]; destruct x as [g a ks|z|z]; try discriminate; exact B).
  destruct (flow_declared_edge d SB fuel t TP ST s x F) as (e & p & k & c & Ie & Pe & Sk & -> & -> & X). rewrite (scope_id d SB fuel p k Sk).
  destruct (sb_flows _ SB e p Ie Pe) as (f & u & v & (F1 & F2 & F3 & _) & S & _).
  pose proof (fe_src _ _ X) as G2. pose proof (fe_tgt _ _ X) as G3. rewrite F2 in G2. rewrite F3 in G3. injection G2 as <-. injection G3 as <-.
  destruct (FS e p Ie Pe) as [A B']. destruct S as [[<- <-]|[<- <-]]; auto.
Qed.
Lemma same_scope : forall s s', scope root s -> scope root s' -> get_attribute "id" s = get_attribute "id" s' -> s = s'.
Proof using SB TP.
  intros s s' H H' E. destruct (scope_of d SB fuel t TP s H) as (p & k & Sk & _ & ->). destruct (scope_of d SB fuel t TP s' H') as (p' & k' & Sk' & _ & ->).
  rewrite (scope_id d SB fuel _ _ Sk), (scope_id d SB fuel _ _ Sk') in E. subst p'. f_equal. exact (scope_unique d SB fuel p k k' Sk Sk').
Qed.
Lemma kid_smaller : forall g a ks x, In x ks -> dsize x < dsize (DElem g a ks).
Proof using. intros g a ks x I. cbn [dsize]. pose proof (kid_size _ _ I). lia. Qed.

(** What stands in the scope [q]. *)
Variable q : string.
Definition inq (n : string) : bool := match attr d n "process" with Some (VStr p) => String.eqb p q | _ => false end.
Definition smaller (e : dom) : Prop := forall s, scope root s -> get_attribute "id" s = q -> dsize e < dsize s.
Lemma smaller_not : forall e, scope root e -> smaller e -> get_attribute "id" e <> q.
Proof using. intros e Sc H E. specialize (H e Sc E). lia. Qed.
Lemma smaller_kid : forall g a ks x, smaller (DElem g a ks) -> In x ks -> smaller x.
Proof using. intros g a ks x H I s Sc E. pose proof (kid_smaller g a ks x I). specialize (H s Sc E). lia. Qed.
Lemma own_in : forall s x, scope root s -> In x (d_kids s) -> filter inq (kind_child x) = if String.eqb (get_attribute "id" s) q then kind_child x else [].
Proof using SB TP.
  intros s x Sc I. destruct x as [g a ks|z|z]; try (destruct (String.eqb _ _); reflexivity). unfold kind_child.
  destruct (in_dec string_dec (local_name g) node_kinds) as [K|K]; [|destruct (String.eqb _ _); reflexivity]. cbn [filter]. unfold inq.
  rewrite (kid_place s (DElem g a ks) Sc I K). destruct (String.eqb _ _); reflexivity.
Qed.
Lemma own_split : forall x, own x = kind_child x ++ match x with DElem g _ _ => if string_dec (local_name g) "subProcess" then below x else [] | _ => [] end.
Proof using. intros [g a ks|z|z]; reflexivity. Qed.
Lemma quiet : forall e, scope root e -> smaller e -> filter inq (below e) = [].
Proof using SB TP.
  intros e. induction e as [g a ks IH|z|z] using dom_rect'; intros Sc Sm; try reflexivity. rewrite below_own, filter_flat. apply flat_map_nil. intros x I. cbn [d_kids] in I.
  rewrite own_split, filter_app, (own_in (DElem g a ks) x Sc I), (proj2 (String.eqb_neq _ _) (smaller_not _ Sc Sm)). cbn [app].
  destruct x as [g' a' k'|z|z]; try reflexivity. destruct (string_dec _ _) as [E|E]; [|reflexivity]. rewrite Forall_forall in IH. apply (IH _ I).
  - eapply scope_sub; eauto.
  - eapply smaller_kid; eauto.
Qed.
Lemma whole : forall e, scope root e -> copies (nodes_in d q) (filter inq (below e)).
Proof using SB TP.
  intros e. induction e as [g a ks IH|z|z] using dom_rect'; intros Sc; try constructor. rewrite Forall_forall in IH. rewrite below_own, filter_flat. cbn [d_kids].
  destruct (String.eqb_spec (get_attribute "id" (DElem g a ks)) q) as [E|E].
  - assert (Q : flat_map (fun x => filter inq (own x)) ks = nodes_in d q); [|rewrite Q; apply copies_one].
    destruct (scope_of d SB fuel t TP _ Sc) as (p & k & Sk & _ & Ek). assert (p = q) by (rewrite <- E, Ek; symmetry; apply (scope_id d SB fuel p k Sk)). subst p.
    rewrite <- (scope_nodes d SB fuel q k Sk), <- Ek, node_children_unfold. cbn [d_kids].
    assert (H : forall x, In x ks -> filter inq (own x) = kind_child x).
    { intros x I. rewrite own_split, filter_app, (own_in _ x Sc I), (proj2 (String.eqb_eq _ _) E). rewrite <- (app_nil_r (kind_child x)) at 2. f_equal.
      destruct x as [g' a' k'|z|z]; try reflexivity. destruct (string_dec _ _) as [E'|E']; [|reflexivity]. apply quiet; [eapply scope_sub; eauto|].
      intros s Ss Es. rewrite (same_scope s (DElem g a ks) Ss Sc) by congruence. apply kid_smaller. exact I. }
    clear -H. induction ks as [|x ks IH]; [reflexivity|]. cbn [flat_map]. rewrite H by (left; reflexivity). f_equal. apply IH. intros y I. apply H. right. exact I.
  - apply copies_flat. intros x I. rewrite own_split, filter_app, (own_in _ x Sc I), (proj2 (String.eqb_neq _ _) E). cbn [app].
    destruct x as [g' a' k'|z|z]; try constructor. destruct (string_dec _ _) as [E'|E']; [|constructor]. apply (IH _ I). eapply scope_sub; eauto.
Qed.
Lemma process_scopes : forall x, In x (document_elements "process" root) -> scope root x.
Proof using. intros x I. apply in_document in I. destruct I. apply scope_process; assumption. Qed.

(** The flows. *)
Definition procq (e : edge) : bool := match dget "process" (eat e) with Some (VStr p) => String.eqb p q | _ => false end.
Definition wired (p : string * string) : bool := existsb (fun e => connects (fst p) (snd p) e && procq e) (gedges (dgraph d)).
Lemma wired_edge : forall e p, In e (gedges (dgraph d)) -> same_pair (eu e) (ev e) (fst p) (snd p) -> wired p = procq e.
Proof using SB.
  intros e p I S. unfold wired. destruct (procq e) eqn:Q.
  - apply existsb_exists. exists e. split; [exact I|]. rewrite Q, andb_true_r. apply same_pair_connects. clear -S. unfold same_pair in *. intuition congruence.
  - apply not_true_is_false. intros X. apply existsb_exists in X. destruct X as (e0 & I0 & X). apply andb_true_iff in X. destruct X as [C Q0].
    apply same_pair_connects in C. assert (e0 = e); [|congruence]. apply (gwf_unique _ _ _ (sb_graph _ SB) I0 I). apply same_pair_connects. clear -C S. unfold same_pair in *. intuition congruence.
Qed.
Definition joining (x : dom) : string * string := (src x, tgt x).
Lemma wire_place : forall s x, scope root s -> In x (d_kids s) -> is_flow x = true -> wired (joining x) = String.eqb (get_attribute "id" s) q.
Proof using SB TP ST.
  intros s x Sc I B. apply String.eqb_eq in B.
  assert (F : flow_in root s x) by (split; [exact Sc|]; split; [exact I|]; destruct x as [g a ks|z|z]; try discriminate; exact B).
  destruct (flow_declared_edge d SB fuel t TP ST s x F) as (e & p & k & c & Ie & Pe & Sk & -> & -> & X). rewrite (scope_id d SB fuel p k Sk).
  destruct (sb_flows _ SB e p Ie Pe) as (f & u & v & (F1 & F2 & F3 & _) & S & _).
  pose proof (fe_src _ _ X) as G2. pose proof (fe_tgt _ _ X) as G3. rewrite F2 in G2. rewrite F3 in G3. injection G2 as G2. injection G3 as G3.
  rewrite (wired_edge e (joining (dom_of c)) Ie); [unfold procq; rewrite Pe; reflexivity|]. unfold joining. cbn [fst snd]. rewrite <- G2, <- G3. exact S.
Qed.
Lemma scope_wires : forall s l, scope root s -> incl l (d_kids s) ->
  filter wired (map joining (filter is_flow l)) = if String.eqb (get_attribute "id" s) q then map joining (filter is_flow l) else [].
Proof using SB TP ST.
  intros s l Sc. induction l as [|x l IH]; intros Inc; [destruct (String.eqb _ _); reflexivity|]. assert (I : In x (d_kids s)) by (apply Inc; left; reflexivity).
  specialize (IH (fun y J => Inc y (or_intror J))). cbn [filter]. destruct (is_flow x) eqn:B; [|exact IH]. cbn [map filter]. rewrite (wire_place s x Sc I B). destruct (String.eqb _ _); rewrite IH; reflexivity.
Qed.
Lemma quiet_wires : forall e, scope root e -> smaller e -> filter wired (wires e) = [].
Proof using SB TP ST.
  intros e. induction e as [g a ks IH|z|z] using dom_rect'; intros Sc Sm; try reflexivity. rewrite Forall_forall in IH. rewrite wires_nested, filter_app.
  change (fun x => (src x, tgt x)) with joining. rewrite (scope_wires (DElem g a ks) _ Sc (incl_refl _)), (proj2 (String.eqb_neq _ _) (smaller_not _ Sc Sm)), app_nil_r.
  rewrite filter_flat. apply flat_map_nil. intros x I. cbn [d_kids] in I. destruct x as [g' a' k'|z|z]; try reflexivity. unfold nested. destruct (String.eqb_spec (local_name g') "subProcess") as [E|E]; [|reflexivity].
  apply (IH _ I); [eapply scope_sub; eauto|eapply smaller_kid; eauto].
Qed.
Lemma whole_wires : forall k, scope_elem d fuel q k -> forall e, scope root e -> copies (map joining (filter is_flow (d_kids (dom_of k)))) (filter wired (wires e)).
Proof using SB TP ST.
  intros k Sk e. induction e as [g a ks IH|z|z] using dom_rect'; intros Sc; try constructor. rewrite Forall_forall in IH. rewrite wires_nested, filter_app.
  change (fun x => (src x, tgt x)) with joining. rewrite (scope_wires (DElem g a ks) _ Sc (incl_refl _)), filter_flat.
  destruct (String.eqb_spec (get_attribute "id" (DElem g a ks)) q) as [E|E].
  - destruct (scope_of d SB fuel t TP _ Sc) as (p & k' & Sk' & _ & Ek). assert (p = q) by (rewrite <- E, Ek; symmetry; apply (scope_id d SB fuel p k' Sk')). subst p.
    rewrite (scope_unique d SB fuel q k k' Sk Sk'), <- Ek. rewrite flat_map_nil; [apply copies_one|].
    intros x I. cbn [d_kids] in I. destruct x as [g' a' k''|z|z]; try reflexivity. unfold nested. destruct (String.eqb_spec (local_name g') "subProcess") as [E'|E']; [|reflexivity].
    apply quiet_wires; [eapply scope_sub; eauto|]. intros s Ss Es. rewrite (same_scope s (DElem g a ks) Ss Sc) by congruence. apply kid_smaller. exact I.
  - rewrite app_nil_r. apply copies_flat. intros x I. cbn [d_kids] in I. destruct x as [g' a' k'|z|z]; try constructor. unfold nested.
    destruct (String.eqb_spec (local_name g') "subProcess") as [E'|E']; [|constructor]. apply (IH _ I). eapply scope_sub; eauto.
Qed.

Lemma in_flows : forall d0 f, In f (get_flows_list_by_process_id q d0) -> In f (edges_view (dgraph d0)) /\ dget "process" (snd f) = Some (VStr q).
Proof using.
  clear. intros d0 f I. unfold get_flows_list_by_process_id in I. apply filter_In in I. destruct I as [I B]. split; [exact I|]. change k_process with "process" in B.
  destruct (dget "process" (snd f)) as [v|]; [|discriminate]. unfold veqs in B. destruct v; try discriminate. apply String.eqb_eq in B. subst. reflexivity.
Qed.
Lemma flow_ends : forall f, In f (get_flows_list_by_process_id q d) -> exists e i u v, In e (gedges (dgraph d)) /\ snd f = eat e /\ flow_edge e i u v q /\
  read_ends f = (u, v) /\ same_pair (fst (fst f)) (snd (fst f)) u v.
Proof using SB.
  intros f I. apply in_flows in I. destruct I as [I P]. destruct (view_in_edge _ _ (sb_graph _ SB) I) as [e [Ie Re]]. destruct Re as [E1 E2].
  rewrite E1 in P. destruct (sb_flows _ SB e q Ie P) as (i & u & v & FE & S & _). exists e, i, u, v. split; [exact Ie|]. split; [exact E1|]. split; [exact FE|].
  destruct FE as (_ & F2 & F3 & _). split; [unfold read_ends; rewrite E1, F2, F3; reflexivity|]. clear -E2 S. unfold same_pair in *. intuition congruence.
Qed.
Notation flow_tag y := (local_name (e_tag y) =? "sequenceFlow").
Lemma flow_kids : forall l, filter is_flow (map dom_of l) = map dom_of (filter (fun y => flow_tag y) l).
Proof using. clear. induction l as [|y l IH]; [reflexivity|]. cbn [map filter]. unfold is_flow at 1. rewrite local_dom. destruct (_ =? _); cbn [map]; rewrite IH; reflexivity. Qed.
Lemma no_flow_tags : forall l, (forall y, In y l -> local_name (e_tag y) <> "sequenceFlow") -> filter (fun y => flow_tag y) l = [].
Proof using.
  clear. induction l as [|y l IH]; intros H; [reflexivity|]. cbn [filter]. rewrite (proj2 (String.eqb_neq _ _) (H y (or_introl eq_refl))). apply IH.
  intros z I. apply H. right. exact I.
Qed.
Lemma written_flows : forall fs, rmap (fun e => export_flow_process_data (snd e)) (get_flows_list_by_process_id q d) = Ok fs ->
  map joining (map dom_of (filter (fun y => flow_tag y) fs)) = map read_ends (get_flows_list_by_process_id q d).
Proof using SB.
  intros fs Fs. apply rmap_forall in Fs. apply forall_in in Fs.
  assert (G : Forall2 (fun f y => read_ends f = joining (dom_of y) /\ local_name (e_tag y) = "sequenceFlow") (get_flows_list_by_process_id q d) fs).
  { eapply forall_impl; [|exact Fs]. intros f y (If & _ & X). destruct (flow_ends f If) as (e & i & u & v & _ & Ee & (F1 & F2 & F3 & _) & Er & _). rewrite Er. unfold joining.
    rewrite Ee in X. destruct (flow_inv _ _ X) as [(id & nm & sr & tr & _ & _ & D3 & D4 & Q)]. rewrite F2 in D3. rewrite F3 in D4. inv D3. inv D4.
    destruct Q as [[_ ->]|(cid & text & _ & ->)]; (split; [|reflexivity]); f_equal; symmetry; apply get_dom; reflexivity. }
  clear -G. induction G as [|f y l l' [A B] G IH]; [reflexivity|]. cbn [filter]. rewrite B. cbn [String.eqb Ascii.eqb Bool.eqb map]. rewrite A, IH. reflexivity.
Qed.
Lemma nodes_not_flows : forall f ns es, get_nodes_list_by_process_id q d = Ok ns -> rmap (export_node_data f d) ns = Ok es ->
  forall y, In y es -> local_name (e_tag y) <> "sequenceFlow".
Proof using SB.
  intros f ns es N Es y I. destruct (rmap_out _ _ _ _ _ Es y I) as [na [J X]]. apply (nodes_by_process _ _ _ N) in J.
  destruct (node_elem_name d SB na y) as (_ & Kd & _); [split; [tauto|eauto]|]. intros Q. rewrite Q in Kd. simpl in Kd. intuition discriminate.
Qed.
Lemma scope_flows : forall k, scope_elem d fuel q k -> map joining (filter is_flow (d_kids (dom_of k))) = map read_ends (get_flows_list_by_process_id q d).
Proof using SB.
  intros k Sk. assert (Kd : forall g b l, d_kids (dom_of (elem g b l)) = map dom_of l) by (clear; intros; reflexivity).
  destruct Sk as [(a & sh & _ & H)|(a & (I & f & H) & T)].
  - destruct (process_inv _ _ _ _ _ H) as [(c & x & u & ls & ns & es & fs & _ & _ & _ & L & N & Es & Fs & E)]. cbn [fst] in E. subst k.
    rewrite Kd, flow_kids, !filter_app, (no_flow_tags es (nodes_not_flows _ _ _ N Es)), (no_flow_tags ls).
    + cbn [app]. apply written_flows. exact Fs.
    + intros z Iz. pose proof (proj1 (fine_lanes_out _ _ _ L) z Iz) as F. pose proof (fine_inside _ _ F _ _ (inside_here _) (proj2 (named_dom _ _) eq_refl)) as Q'.
      unfold lane_tag in Q'. intros Q. rewrite Q in Q'. intuition discriminate.
  - destruct (node_inv _ _ _ _ _ H) as (f' & s & name & li & lo & more & _ & [Ht _ _ _ Hm ->]). rewrite T in Ht. inv Ht.
    destruct (sub_inv _ _ _ _ Hm) as (s & ns & es & fs & tr & Ds & _ & N & Es & Fs & ->).
    pose proof (sb_subs _ SB q) as Q. rewrite !(in_node d SB _ _ _ I) in Q. destruct (Q T) as [Q1 _]. rewrite Ds in Q1. inv Q1.
    unfold node_elem. rewrite Kd. cbn [snd]. rewrite flow_kids, !filter_app, (no_flow_tags es (nodes_not_flows _ _ _ N Es)).
    assert (Z : forall g l, g <> "sequenceFlow" -> local_name g = g -> filter (fun y => flow_tag y) (map (text_elem g) l) = []).
    { clear. intros g l Ng Lg. apply no_flow_tags. intros y I. apply in_map_iff in I. destruct I as [s [<- _]]. cbn [text_elem e_tag]. congruence. }
    rewrite !Z by (try discriminate; reflexivity). cbn [app]. apply written_flows. exact Fs.
Qed.
End Scopes.

Section Loaded.
Variables (so : list string -> list string) (fuel : nat) (d d' : diagram).
Hypothesis Po : any_order so.
Hypothesis SB : storable d.
Hypothesis CP : complete d.
Hypothesis AP : forall n, is_node d n -> in_process d n.
Hypothesis FS : scoped_flows d.
Hypothesis R : round_trip so fuel d d'.
Let W' : gwf (dgraph d') := round_gwf so fuel d d' SB R.

Lemma pool_box : forall c p a, collaboration d = Some c -> In (p, a) (co_participants c) -> dget "processRef" a = Some (VStr "") -> False.
Proof using SB CP AP.
  intros c p a Hc I Rf. assert (Nd : is_node d p) by (apply (cp_nodes _ CP); right; exists c, a; auto).
  destruct (AP p Nd) as (s & pr & T & K & _). exact (sb_participants _ SB c p a s Hc I Rf T K).
Qed.
Lemma own_below : forall e, incl (node_children e) (below e).
Proof using.
  clear. intros e n I. rewrite node_children_unfold in I. rewrite below_own. apply in_flat_map in I. destruct I as (x & Ix & I). apply in_flat_map. exists x. split; [exact Ix|].
  rewrite own_split. apply in_or_app. left. exact I.
Qed.
Lemma in_nodes_in : forall n p, In n (nodes_in d p) <-> exists s, is_node d n /\ attr d n "type" = Some (VStr s) /\ In s node_kinds /\ attr d n "process" = Some (VStr p).
Proof using SB.
  intros n p. unfold nodes_in. rewrite in_flat_map. split.
  - intros ([m a] & I & J). cbn [fst snd] in J. destruct (dget "process" a) as [v|] eqn:P; [|destruct J]. destruct v as [|pr| | | | |]; try destruct J.
    destruct (dget "type" a) as [w|] eqn:T; [|destruct J]. destruct w as [|s| | | | |]; try destruct J. destruct (in_dec _ _ _) as [K|]; [|destruct J]. destruct (string_dec p pr) as [<-|]; [|destruct J].
    destruct J as [<-|[]]. exists s. split; [eapply in_is_node; eauto|]. rewrite !(in_node d SB _ _ _ I). auto.
  - intros (s & Nd & T & K & P). unfold is_node in Nd. apply in_map_iff in Nd. destruct Nd as ([m a] & E & I). cbn [fst] in E. subst m.
    exists (n, a). split; [exact I|]. rewrite !(in_node d SB _ _ _ I) in *. cbn [fst snd]. rewrite P, T. destruct (in_dec _ _ _); [|contradiction]. destruct (string_dec p p); [left; reflexivity|contradiction].
Qed.
Lemma scoped_inside : forall t, export_tree fuel d = Ok t -> strings t -> flows_inside (dom_of t).
Proof using SB AP FS.
  intros t TP ST s x F. pose proof F as (Sc & I & N).
  assert (B : is_flow x = true) by (unfold is_flow; apply String.eqb_eq; apply named_local; exact N).
  destruct (flow_place d SB FS fuel t TP ST s x Sc I B) as [A C]. destruct (scope_of d SB fuel t TP s Sc) as (p & k & Sk & _ & ->). rewrite (scope_id d SB fuel p k Sk) in *.
  assert (Q : forall n, attr d n "process" = Some (VStr p) -> In n (below (dom_of k))).
  { intros n P. apply own_below. rewrite (scope_nodes d SB fuel p k Sk). apply in_nodes_in.
    assert (Nd : is_node d n). { destruct (node_in d _ _ _ P) as [a [Ia _]]. eapply in_is_node; eauto. }
    destruct (AP n Nd) as (s & p' & T & K & _). exists s. auto. }
  split; apply Q; assumption.
Qed.
Lemma own_order : forall q, filter (inq d q) (node_order d) = nodes_in d q.
Proof using SB AP.
  intros q. unfold node_order, nodes_in.
  assert (H : forall na, In na (gnodes (dgraph d)) -> exists s p, dget "type" (snd na) = Some (VStr s) /\ In s node_kinds /\ dget "process" (snd na) = Some (VStr p) /\ inq d q (fst na) = String.eqb p q).
  { intros [n a] I. destruct (AP n (in_is_node _ _ _ I)) as (s & p & T & K & P & _). unfold inq. cbn [fst snd]. rewrite !(in_node d SB _ _ _ I) in *. exists s, p. rewrite P. auto. }
  induction (gnodes (dgraph d)) as [|na l IH]; [reflexivity|]. cbn [flat_map map filter]. rewrite <- IH by (intros x I; apply H; right; exact I).
  destruct (H na (or_introl eq_refl)) as (s & p & T & K & P & E). rewrite P, T, E. destruct (in_dec _ _ _); [|contradiction].
  destruct (String.eqb_spec p q) as [->|Ne]; [destruct (string_dec q q); [reflexivity|contradiction]|destruct (string_dec q p); [congruence|reflexivity]].
Qed.
Lemma nodes_in_nodup : forall q, NoDup (nodes_in d q).
Proof using SB AP. intros q. rewrite <- own_order. apply NoDup_filter. exact (gwf_nodup _ (sb_graph _ SB)). Qed.
Lemma scopes_below : forall t s, scope (dom_of t) s -> incl (below s) (flat_map below (document_elements "process" (dom_of t))).
Proof using.
  clear. intros t s Sc. induction Sc as [p I N|s x Sc IH I N].
  - intros n J. apply in_flat_map. exists p. split; [|exact J]. apply in_document. auto.
  - intros n J. apply IH. rewrite below_own. apply in_flat_map. exists x. split; [exact I|]. rewrite own_split. apply in_or_app. right.
    destruct x as [g a ks|z|z]; try destruct N. destruct (string_dec _ _) as [E|E]; [exact J|]. exfalso. apply E. reflexivity.
Qed.
Lemma scope_order : forall q, filter (inq d q) (node_order d') = nodes_in d q.
Proof using SB CP AP FS R.
  intros q. assert (H : forall n, In n (filter (inq d q) (node_order d')) <-> In n (nodes_in d q)).
  { intros n. rewrite <- own_order, !filter_In. change (In n (node_order d')) with (is_node d' n). change (In n (node_order d)) with (is_node d n).
    rewrite (C34_same_nodes so fuel d d' SB CP R n). tauto. }
  destruct (nodes_in d q) as [|z r] eqn:En.
  { destruct (filter (inq d q) (node_order d')) as [|y l]; [reflexivity|]. exfalso. apply (H y). left. reflexivity. }
  destruct (round_dom so fuel d d' SB R) as (t & TP & ST & LD).
  assert (O : filter (inq d q) (node_order d') = add_all [] (filter (inq d q) (flat_map below (document_elements "process" (dom_of t))) ++ filter (inq d q) (partners (dom_of t)))).
  { rewrite (load_order so _ _ _ LD), (core_order _ _ (scoped_inside t TP ST)), filter_add_all, filter_app. reflexivity. }
  assert (C : copies (nodes_in d q) (filter (inq d q) (flat_map below (document_elements "process" (dom_of t))))).
  { rewrite filter_flat. apply copies_flat. intros x I. apply (whole d SB fuel t TP q). apply (process_scopes t). exact I. }
  assert (Z : In z (filter (inq d q) (flat_map below (document_elements "process" (dom_of t))))).
  { assert (Iz : In z (nodes_in d q)) by (rewrite En; left; reflexivity). pose proof (proj1 (in_nodes_in z q) Iz) as (s & Nd & _ & _ & P).
    apply filter_In. split; [|unfold inq; rewrite P; apply String.eqb_refl]. destruct (AP z Nd) as (s' & p & _ & _ & P' & Pl). rewrite P in P'. injection P' as <-.
    destruct (placed_scope d SB fuel t TP q Pl) as (k & Sk & _ & Sc). apply (scopes_below t (dom_of k) Sc). apply own_below. rewrite (scope_nodes d SB fuel q k Sk). exact Iz. }
  rewrite <- En in *. rewrite O in *. rewrite add_all_app in *. rewrite (add_copies (nodes_in d q) _ (nodes_in_nodup q) C) in * by (intros E; rewrite E in Z; destruct Z).
  apply add_all_in. intros n I. apply H. rewrite in_add_all. right. exact I.
Qed.
(** The flows. *)
Lemma apart_flows : forall q, apart (map read_ends (get_flows_list_by_process_id q d)).
Proof using SB.
  intros q. destruct (edges_view_reports _ (sb_graph _ SB)) as (l & P & F).
  assert (A : apart (map ends_of l)) by (apply (apart_perm (map ends_of (gedges (dgraph d)))); [apply Permutation_map; symmetry; exact P|apply apart_ends, (gwf_simple _ (sb_graph _ SB))]).
  assert (G : apart (map (fun f => fst f) (edges_view (dgraph d)))).
  { revert A. apply apart_same. clear -F. induction F as [|f e V0 l0 Re F IH]; [constructor|]. cbn [map]. constructor; [|exact IH]. destruct Re as [_ Re]. cbn [ends_of fst snd]. unfold same_pair in *. intuition congruence. }
  assert (G' : apart (map (fun f => fst f) (get_flows_list_by_process_id q d))).
  { unfold get_flows_list_by_process_id, get_flows. revert G. clear. induction (edges_view (dgraph d)) as [|f l IH]; [auto|]. cbn [map filter]. intros [A B].
    match goal with |- context [if ?b then _ else _] => destruct b end; [|apply IH; exact B]. cbn [map]. split; [|apply IH; exact B].
    intros y I. apply A. apply in_map_iff in I. destruct I as (z & <- & I). apply filter_In in I. apply in_map. tauto. }
  revert G'. apply apart_same. pose proof (flow_ends d SB q) as V. induction (get_flows_list_by_process_id q d) as [|f r IH]; [constructor|]. cbn [map]. constructor.
  - destruct (V f (or_introl eq_refl)) as (_ & _ & u & v & _ & _ & _ & -> & S). exact S.
  - apply IH. intros g I. apply V. right. exact I.
Qed.
Lemma wired_sym : forall q a b, joined (fst a) (snd a) b = true -> wired d q a = wired d q b.
Proof using.
  clear. intros q [a b] [x y] J. apply joined_pair in J. unfold wired. cbn [fst snd] in *. destruct J as [[-> ->]|[-> ->]]; [reflexivity|].
  induction (gedges (dgraph d)) as [|e l IH]; [reflexivity|]. cbn [existsb]. rewrite IH. f_equal. f_equal. unfold connects. apply orb_comm.
Qed.
Lemma message_wires : forall q t, export_tree fuel d = Ok t -> strings t ->
  filter (wired d q) (flat_map lines (match document_elements t_collaboration (dom_of t) with [] => [] | c :: _ => collab_actions c end)) = [].
Proof using SB.
  intros q t TP ST. destruct (document_elements t_collaboration (dom_of t)) as [|c r] eqn:E; [reflexivity|]. unfold collab_actions. cbn [flat_map lines app].
  assert (Hc : collaboration_of (dom_of t) = Some c) by (unfold collaboration_of; change "collaboration" with t_collaboration; rewrite E; reflexivity).
  assert (K : forall x, In x (d_kids c) -> named "messageFlow" x -> wired d q (src x, tgt x) = false).
  { intros x I N. destruct (message_of d SB fuel t TP x) as (cc & m & rr & Hcc & Im & _ & E1 & E2 & _); [exists c; auto|]. rewrite E1, E2.
    destruct (sb_messages _ SB cc m rr Hcc Im) as (_ & _ & No). apply not_true_is_false. intros W. apply existsb_exists in W. destruct W as (e & Ie & W). apply andb_true_iff in W.
    destruct W as [W P]. apply same_pair_connects in W. cbn [fst snd] in W. unfold procq in P. destruct (dget "process" (eat e)) as [v|] eqn:D; [|discriminate]. destruct v as [|p| | | | |]; try discriminate.
    apply (No e p Ie D). clear -W. unfold same_pair in *. intuition congruence. }
  revert K. induction (d_kids c) as [|x l IH]; intros K; [reflexivity|]. cbn [flat_map]. rewrite flat_map_app, filter_app, IH by (intros y I; apply K; right; exact I). rewrite app_nil_r.
  destruct x as [g a ks|z|z]; try reflexivity. destruct (_ =? t_participant); [reflexivity|]. destruct (String.eqb_spec (d_local (DElem g a ks)) t_message_flow) as [Q|Q]; [|reflexivity].
  specialize (K _ (or_introl eq_refl) Q). cbn [flat_map lines app filter]. rewrite K. reflexivity.
Qed.
Lemma flow_wired : forall q f, In f (get_flows_list_by_process_id q d) -> wired d q (read_ends f) = true.
Proof using SB.
  intros q f I. destruct (flow_ends d SB q f I) as (e & i & u & v & Ie & Ee & (F1 & F2 & F3 & P) & Er & S).
  destruct (sb_flows _ SB e q Ie P) as (i' & u' & v' & (_ & G2 & G3 & _) & S' & _). rewrite F2 in G2. rewrite F3 in G3. injection G2 as <-. injection G3 as <-.
  rewrite Er, (wired_edge d SB q e (u, v) Ie S'). unfold procq. rewrite P. apply String.eqb_refl.
Qed.
Lemma flows_in : forall q, placed d q -> filter (wired d q) (edge_order d') = map read_ends (get_flows_list_by_process_id q d).
Proof using SB R.
  intros q Pl. destruct (round_dom so fuel d d' SB R) as (t & TP & ST & LD). destruct (placed_scope d SB fuel t TP q Pl) as (k & Sk & _ & _).
  set (msgs := flat_map lines (match document_elements t_collaboration (dom_of t) with [] => [] | c :: _ => collab_actions c end)).
  assert (O : edge_order d' = link_all [] (flat_map wires (document_elements "process" (dom_of t)) ++ msgs)).
  { rewrite (load_edge_order so _ _ _ LD). change (edge_order empty_diagram) with (@nil (string * string)). f_equal.
    unfold core_actions. rewrite flat_map_app. f_equal. change k_process with "process".
    induction (document_elements "process" (dom_of t)) as [|x l IH]; [reflexivity|]. cbn [flat_map]. rewrite flat_map_app, IH, process_wires. reflexivity. }
  assert (C : copies (map read_ends (get_flows_list_by_process_id q d)) (filter (wired d q) (flat_map wires (document_elements "process" (dom_of t))))).
  { rewrite filter_flat. apply copies_flat. intros x I. rewrite <- (scope_flows d SB fuel q k Sk). apply (whole_wires d SB fuel t TP ST q k Sk). apply (process_scopes t). exact I. }
  assert (L : filter (wired d q) (edge_order d') = link_all [] (filter (wired d q) (flat_map wires (document_elements "process" (dom_of t))))).
  { rewrite O, (filter_link_all (wired d q) (wired_sym q)), filter_app. unfold msgs. rewrite (message_wires q t TP ST), app_nil_r. reflexivity. }
  rewrite L. destruct (filter (wired d q) (flat_map wires (document_elements "process" (dom_of t)))) as [|y l] eqn:E.
  - destruct (get_flows_list_by_process_id q d) as [|f r] eqn:Ef; [reflexivity|]. exfalso.
    assert (If : In f (get_flows_list_by_process_id q d)) by (rewrite Ef; left; reflexivity).
    destruct (flow_ends d SB q f If) as (e & i & u & v & Ie & Ee & FE & Er & S). pose proof (flow_wired q f If) as B. rewrite Er in B.
    destruct (C35_flows so fuel d d' e i u v q SB R Ie FE Pl) as ((e' & I' & S' & _) & _).
    assert (J : In (ends_of e') (filter (wired d q) (edge_order d'))).
    { apply filter_In. split; [apply in_map; exact I'|]. rewrite <- B. apply wired_sym, joined_pair. cbn [ends_of fst snd]. exact S'. }
    rewrite L in J. destruct J.
  - apply link_copies; [apply apart_flows|exact C|discriminate].
Qed.
End Loaded.
