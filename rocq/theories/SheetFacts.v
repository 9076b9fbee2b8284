(** The CSV exporter reads nothing but the sheet. *)
From Coq Require Import String Ascii List Bool Arith ZArith Lia Permutation.
From Verif Require Import Py PyFacts Consts Nx NxFacts Rep SpecRep RepFacts MetricsFacts Classify SpecLayout ClassifyFacts CsvExport SpecCsvExport CsvExportFacts
  SameRound SpecSheet.
Import ListNotations.
Open Scope string_scope.
Open Scope list_scope.

(** * Results that agree *)
Definition agree {A B} (P : A -> B -> Prop) (r : res A) (r' : res B) : Prop :=
  match r, r' with Ok a, Ok b => P a b | Err e, Err e' => e = e' | _, _ => False end.
Lemma agree_bind : forall A B A' B' (P : A -> A' -> Prop) (Q : B -> B' -> Prop) r r' (f : A -> res B) (g : A' -> res B'),
  agree P r r' -> (forall a b, P a b -> agree Q (f a) (g b)) -> agree Q (rbind r f) (rbind r' g).
Proof. intros A B A' B' P Q [a|e] [b|e'] f g H K; simpl in *; auto; contradiction. Qed.
Lemma agree_same : forall A B B' (Q : B -> B' -> Prop) (r : res A) (f : A -> res B) (g : A -> res B'),
  (forall a, agree Q (f a) (g a)) -> agree Q (rbind r f) (rbind r g).
Proof. intros A B B' Q [a|e] f g H; simpl; auto. Qed.
Lemma agree_fold : forall A S S' (P : S -> S' -> Prop) (f : S -> A -> res S) (g : S' -> A -> res S') l s s',
  (forall s s' a, P s s' -> agree P (f s a) (g s' a)) -> P s s' -> agree P (rfold f l s) (rfold g l s').
Proof.
  induction l as [|a l IH]; intros s s' H K; simpl; auto. eapply agree_bind; [apply H; exact K|]. intros x y X. apply IH; auto.
Qed.
Lemma agree_eq : forall A (r r' : res A), agree eq r r' -> r = r'.
Proof. intros A [a|e] [b|e'] H; simpl in H; try contradiction; congruence. Qed.

Lemma node_by_id : forall d n, get_node_by_id n d = match node_of d n with Some a => Some (n, a) | None => None end.
Proof.
  intros d n. unfold get_node_by_id, nodes_view, node_of. induction (gnodes (dgraph d)) as [|[m a] l IH]; auto. cbn [find fst dget].
  rewrite String.eqb_sym. destruct (String.eqb n m) eqn:E; auto. apply String.eqb_eq in E. subst. reflexivity.
Qed.
Lemma flow_of_edge : forall d f, orderly d ->
  (exists e, In e (gedges (dgraph d)) /\ dget "id" (eat e) = Some (VStr f) /\ flow_of d f = Ok (eat e)) \/
  ((forall e, In e (gedges (dgraph d)) -> dget "id" (eat e) <> Some (VStr f)) /\ flow_of d f = Err TypeError).
Proof.
  intros d f [W _ A U]. unfold flow_of, get_flow_by_id, get_flows.
  assert (V : forall t, In t (edges_view (dgraph d)) -> exists e, In e (gedges (dgraph d)) /\ eat e = snd t).
  { intros t I. destruct (view_in_edge _ _ W I) as [e [Ie R]]. exists e. split; [exact Ie|]. unfold reports in R. symmetry. tauto. }
  rewrite first_find.
  2:{ intros t I. destruct (V t I) as (e & Ie & E). rewrite <- E. apply A. exact Ie. }
  cbn [rbind]. destruct (find (id_is f) (edges_view (dgraph d))) as [t|] eqn:Ef.
  - left. apply find_some in Ef. destruct Ef as [I B]. destruct (V t I) as (e & Ie & E). exists e. split; [exact Ie|]. rewrite E. split; [|reflexivity].
    unfold id_is in B. destruct (A e Ie) as [g G]. rewrite E in G. rewrite G in *. simpl in B. apply String.eqb_eq in B. subst. reflexivity.
  - right. split; [|reflexivity]. intros e Ie D. destruct (edge_in_view _ _ W Ie) as (t & It & Ea & _).
    pose proof (find_none _ _ Ef t It) as C. unfold id_is in C. rewrite Ea, D in C. simpl in C. rewrite eqb_refl' in C. discriminate.
Qed.

Section Twins.
Variables d d' : diagram.
Hypothesis Od : orderly d.
Hypothesis Od' : orderly d'.
Hypothesis SS : same_sheet d d'.

Inductive twin : option node_t -> option node_t -> Prop :=
| twin_none : twin None None
| twin_some : forall n a a', node_of d n = Some a -> node_of d' n = Some a' -> twin (Some (n, a)) (Some (n, a')).
Definition alike (r r' : list erow * option node_t) : Prop := fst r' = fst r /\ twin (snd r) (snd r').

Lemma attr_node : forall dd n a k, node_of dd n = Some a -> attr dd n k = dget k a.
Proof. intros dd n a k H. unfold attr. rewrite H. reflexivity. Qed.
Lemma is_node_iff : forall dd n, is_node dd n <-> exists a, node_of dd n = Some a.
Proof.
  intros dd n. unfold is_node, node_of. split.
  - intros H. destruct (dget n (gnodes (dgraph dd))) as [a|] eqn:E; [eauto|]. exfalso. apply dget_None_keys in E. contradiction.
  - intros [a E]. apply dget_In in E. apply (in_map fst) in E. exact E.
Qed.
Lemma get_twin : forall n, twin (get_node_by_id n d) (get_node_by_id n d').
Proof.
  intros n. rewrite !node_by_id. pose proof (ss_nodes _ _ SS n) as N. rewrite !is_node_iff in N.
  destruct (node_of d n) as [a|] eqn:E, (node_of d' n) as [a'|] eqn:E'; try constructor; auto.
  - exfalso. destruct (proj2 N) as [b B]; [eauto|discriminate].
  - exfalso. destruct (proj1 N) as [b B]; [eauto|discriminate].
Qed.
Definition flow_alike (a a' : attrs) : Prop := dget "targetRef" a' = dget "targetRef" a /\ shown (dget "name" a') = shown (dget "name" a).
Lemma flow_twin : forall f, agree flow_alike (flow_of d f) (flow_of d' f).
Proof.
  intros f. destruct (flow_of_edge d f Od) as [(e & I & D & ->)|[N ->]], (flow_of_edge d' f Od') as [(e' & I' & D' & ->)|[N' ->]]; cbn; auto.
  - destruct (proj1 (ss_flows _ _ SS f (dget "targetRef" (eat e')) (shown (dget "name" (eat e')))) (ex_intro _ e' (conj I' (conj D' (conj eq_refl eq_refl)))))
      as (e0 & I0 & D0 & T0 & X0). assert (e0 = e) by (apply (or_distinct _ Od e0 e f); auto). subst. split; auto.
  - destruct (proj2 (ss_flows _ _ SS f (dget "targetRef" (eat e)) (shown (dget "name" (eat e)))) (ex_intro _ e (conj I (conj D (conj eq_refl eq_refl)))))
      as (e0 & I0 & D0 & _). exact (N' e0 I0 D0).
  - destruct (proj1 (ss_flows _ _ SS f (dget "targetRef" (eat e')) (shown (dget "name" (eat e')))) (ex_intro _ e' (conj I' (conj D' (conj eq_refl eq_refl)))))
      as (e0 & I0 & D0 & _). exact (N e0 I0 D0).
Qed.
Lemma target_twin : forall a a', flow_alike a a' -> agree twin (target_node d a) (target_node d' a').
Proof.
  intros a a' [T _]. unfold target_node, dgetE. change k_target_ref with "targetRef". rewrite T. destruct (dget "targetRef" a) as [v|]; cbn; auto.
  destruct v; try constructor. apply get_twin.
Qed.
Lemma condition_twin : forall t a a', flow_alike a a' -> branch_condition t a' = branch_condition t a.
Proof.
  intros t a a' [_ N]. unfold branch_condition. change k_name with "name". destruct (veqs t t_parallel_gateway); auto.
  destruct (dget "name" a) as [v|], (dget "name" a') as [v'|]; simpl in N; subst; auto; destruct v; auto.
Qed.
Lemma labels_twin : forall c c', generate_nodes_clasification d = Ok c -> generate_nodes_clasification d' = Ok c' -> forall n, dget n c' = dget n c.
Proof.
  intros c c' E E' n. rewrite (nodes_eq d (or_lists _ Od)) in E. rewrite (nodes_eq d' (or_lists _ Od')) in E'. inversion E; subst c. inversion E'; subst c'. clear E E'.
  assert (K : forall dd, orderly dd -> forall ls, dget n (map (fun c => (cid c, ccls c)) (classified dd)) = Some ls <-> exists c, In c (classified dd) /\ cid c = n /\ ccls c = ls).
  { intros dd O ls. split.
    - intros G. apply dget_In in G. apply in_map_iff in G. destruct G as (c & E & I). injection E as A B. eauto.
    - intros (c & I & <- & <-). apply In_dget; [unfold dkeys; rewrite map_map; apply classified_nodup; apply or_lists; exact O|].
      apply in_map_iff. exists c. auto. }
  assert (M : forall ls, (exists c, In c (classified d') /\ cid c = n /\ ccls c = ls) <-> (exists c, In c (classified d) /\ cid c = n /\ ccls c = ls)).
  { assert (T : attr d' n "type" = attr d n "type") by (apply (ss_attrs _ _ SS); simpl; auto).
    assert (I1 : incoming_of d' n = incoming_of d n) by (unfold incoming_of; rewrite (ss_attrs _ _ SS) by (simpl; auto); reflexivity).
    assert (O1 : outgoing_of d' n = outgoing_of d n) by (unfold outgoing_of; rewrite (ss_attrs _ _ SS) by (simpl; auto); reflexivity).
    intros ls. split; intros (c & I & <- & <-).
    - exists c. split; [|auto]. apply (classified_char d' (or_lists _ Od')) in I. destruct I as (t & b & A & B & C & D & E).
      apply (classified_char d (or_lists _ Od)). exists t, b. rewrite <- T, <- I1, <- O1. auto.
    - exists c. split; [|auto]. apply (classified_char d (or_lists _ Od)) in I. destruct I as (t & b & A & B & C & D & E).
      apply (classified_char d' (or_lists _ Od')). exists t, b. rewrite T, I1, O1. auto. }
  destruct (dget n (map (fun c => (cid c, ccls c)) (classified d))) as [ls|] eqn:G.
  - apply (K d' Od'), M, (K d Od). exact G.
  - destruct (dget n (map (fun c => (cid c, ccls c)) (classified d'))) as [ls|] eqn:G'; auto. apply (K d' Od') in G'. apply M in G'. apply (K d Od) in G'. congruence.
Qed.

Section Node.
Variables (n : string) (a a' : attrs).
Hypothesis Ha : node_of d n = Some a.
Hypothesis Ha' : node_of d' n = Some a'.
Lemma key_twin : forall k, In k ["type"; "node_name"; "incoming"; "outgoing"] -> dget k a' = dget k a.
Proof using SS Ha Ha'. intros k K. rewrite <- (attr_node _ _ _ k Ha), <- (attr_node _ _ _ k Ha'). apply (ss_attrs _ _ SS). exact K. Qed.
Lemma default_twin : forall t, dget "type" a = Some (VStr t) -> ~ In t event_types -> forall f, is_default f (default_flow (VStr t) a') = is_default f (default_flow (VStr t) a).
Proof using SS Ha Ha'.
  intros t T E f. unfold default_flow. change (veqs (VStr t) t_parallel_gateway) with (String.eqb t "parallelGateway").
  destruct (String.eqb_spec t "parallelGateway") as [->|N]; auto. change k_default with "default".
  pose proof (ss_default _ _ SS n t f) as X. rewrite (attr_node _ _ _ _ Ha), (attr_node _ _ _ _ Ha), (attr_node _ _ _ _ Ha') in X. specialize (X T).
  assert (Y : ~ In t ("parallelGateway" :: event_types)) by (intros [C|C]; [congruence|contradiction]). specialize (X Y).
  assert (B : forall o : option pyval, is_default f (match o with Some VNone | None => None | Some v => Some v end) = true <-> o = Some (VStr f)).
  { intros [v|]; [destruct v|]; simpl; split; intros H; try discriminate; try (apply String.eqb_eq in H; congruence); inversion H; apply eqb_refl'. }
  apply eq_true_iff_eq. rewrite !B. exact X.
Qed.
Lemma first_twin : forall t, dget "type" a = Some (VStr t) -> In t event_types -> first_definition a' = first_definition a.
Proof using SS Ha Ha'.
  intros t T E. rewrite <- (attr_node _ _ _ _ Ha) in T. destruct (ss_events _ _ SS n t T E) as (l & l' & L & L' & M).
  assert (F : forall dd b k, node_of dd n = Some b -> defined_by dd n k -> first_definition b = Ok (match k with [] => None | e :: _ => Some (snd e) end)).
  { intros dd b k B D. unfold defined_by in D. rewrite (attr_node _ _ _ _ B) in D. unfold first_definition. change k_event_definitions with "event_definitions".
    destruct D as [-> | [-> D]]; [destruct k; reflexivity|]. simpl in D. destruct D as [<-|[<-|[<-|[]]]]; reflexivity. }
  rewrite (F d a l Ha L), (F d' a' l' Ha' L'). destruct l as [|x l], l' as [|x' l']; simpl in M; try discriminate; [reflexivity|]. congruence.
Qed.
Lemma keyE_twin : forall k, In k ["type"; "node_name"; "incoming"; "outgoing"] -> dgetE k a' = dgetE k a.
Proof using SS Ha Ha'. intros k K. unfold dgetE. rewrite (key_twin k K). reflexivity. Qed.
Lemma start_twin : forall t, dget "type" a = Some (VStr t) -> In t event_types -> start_activity a' = start_activity a.
Proof using SS Ha Ha'.
  intros t T E. unfold start_activity. rewrite (first_twin t T E), (keyE_twin k_node_name) by (simpl; auto). reflexivity.
Qed.
Lemma end_twin : forall t, dget "type" a = Some (VStr t) -> In t event_types -> end_activity a' = end_activity a.
Proof using SS Ha Ha'.
  intros t T E. unfold end_activity. rewrite (first_twin t T E), (keyE_twin k_node_name) by (simpl; auto). reflexivity.
Qed.
Lemma outgoing_twin : outgoing_list a' = outgoing_list a.
Proof using SS Ha Ha'. unfold outgoing_list. rewrite (key_twin k_outgoing) by (simpl; auto). reflexivity. Qed.
End Node.

Lemma type_of_node : forall n a, node_of d n = Some a -> exists t, dget "type" a = Some (VStr t).
Proof using Od.
  intros n a H. destruct (proj2 (or_lists _ Od) n) as [[t T] _]; [apply is_node_iff; eauto|]. exists t. rewrite <- (attr_node _ _ _ _ H). exact T.
Qed.
Lemma same_export : forall c c', generate_nodes_clasification d = Ok c -> generate_nodes_clasification d' = Ok c' ->
  forall fuel o o' order prefix condition who aj rows, twin o o' ->
  agree alike (export_node fuel d c o order prefix condition who aj rows) (export_node fuel d' c' o' order prefix condition who aj rows).
Proof using Od Od' SS.
  intros c c' E E'. pose proof (labels_twin c c' E E') as Lb.
  assert (LbE : forall n, dgetE n c' = dgetE n c) by (intros n; unfold dgetE; rewrite Lb; reflexivity).
  induction fuel as [|fuel IH]; intros o o' order prefix condition who aj rows T; [reflexivity|].
  destruct T as [|n a a' Ha Ha']; [reflexivity|].
  destruct (type_of_node n a Ha) as [t Ty]. pose proof (keyE_twin n a a' Ha Ha') as K.
  assert (TyE : dgetE k_type a = Ok (VStr t)) by (unfold dgetE; change k_type with "type"; rewrite Ty; reflexivity).
  cbn [export_node]. rewrite (K k_type) by (simpl; auto). rewrite !TyE. cbn [rbind].
  change (veqs (VStr t) t_start_event) with (String.eqb t "startEvent"). change (veqs (VStr t) t_end_event) with (String.eqb t "endEvent").
  destruct (String.eqb_spec t "startEvent") as [Es|Ns].
  { rewrite (start_twin n a a' Ha Ha' t Ty) by (subst; simpl; auto). apply agree_same. intros act.
    rewrite (K k_outgoing) by (simpl; auto). apply agree_same. intros v. apply agree_same. intros outs. apply agree_same. intros f.
    eapply agree_bind; [apply flow_twin|]. intros x x' X. eapply agree_bind; [apply target_twin; exact X|]. intros y y' Y. apply IH. exact Y. }
  destruct (String.eqb_spec t "endEvent") as [Ee|Ne].
  { rewrite (end_twin n a a' Ha Ha' t Ty) by (subst; simpl; auto). apply agree_same. intros act. split; [reflexivity|constructor]. }
  assert (Nev : ~ In t event_types) by (simpl; intuition congruence).
  rewrite LbE. apply agree_same. intros ls. rewrite (outgoing_twin n a a' Ha Ha'). apply agree_same. intros outs.
  destruct (smem c_join ls && negb aj).
  { destruct (veqs (VStr t) t_task || veqs (VStr t) t_subprocess); [split; [reflexivity|constructor; assumption]|].
    apply agree_same. intros l. apply agree_same. intros f. eapply agree_bind; [apply flow_twin|]. intros x x' X.
    eapply agree_bind; [apply target_twin; exact X|]. intros y y' Y. split; [reflexivity|exact Y]. }
  rewrite (K k_node_name) by (simpl; auto). apply agree_same. intros rows1.
  destruct (smem c_split ls).
  - apply agree_same. intros l.
    eapply (agree_bind _ _ _ _ (fun st st' : list erow * option node_t * nat => fst (fst st') = fst (fst st) /\ twin (snd (fst st)) (snd (fst st')) /\ snd st' = snd st)).
    + apply agree_fold; [|split; [reflexivity|split; [constructor|reflexivity]]].
      intros [[rs nx] i] [[rs' nx'] i'] f (A & B & C). cbn [fst snd] in A, B, C. subst rs' i'.
      eapply agree_bind; [apply flow_twin|]. intros x x' X. eapply agree_bind; [apply target_twin; exact X|]. intros y y' Y.
      apply agree_same. intros suffix. rewrite (condition_twin _ x x' X).
      assert (Fy : match y' with Some t0 => Ok (fst t0) | None => Err TypeError end = match y with Some t0 => Ok (fst t0) | None => Err TypeError end)
        by (destruct Y; reflexivity). rewrite Fy. apply agree_same. intros tid. rewrite LbE. apply agree_same. intros tl. destruct (smem c_join tl).
      { split; [reflexivity|]. split; [exact B|reflexivity]. }
      rewrite (default_twin n a a' Ha Ha' t Ty Nev). eapply agree_bind; [apply IH; exact Y|]. intros r r' [R1 R2].
      split; [exact R1|]. split; [|reflexivity]. cbn [fst snd]. destruct R2; [exact B|constructor; assumption].
    + intros st st' (A & B & C). rewrite A. destruct B as [|m b b' Hb Hb']; [split; [reflexivity|constructor]|]. apply IH. constructor; assumption.
  - destruct outs as [[|f [|g l]]|]; try reflexivity; try (split; [reflexivity|constructor]).
    eapply agree_bind; [apply flow_twin|]. intros x x' X. eapply agree_bind; [apply target_twin; exact X|]. intros y y' Y. apply IH. exact Y.
Qed.
Lemma same_rows : forall fuel, export_rows fuel d' = export_rows fuel d.
Proof using Od Od' SS.
  intros fuel. unfold export_rows. rewrite (entry_nodes_eq d (or_lists _ Od)), (entry_nodes_eq d' (or_lists _ Od')). cbn [rbind].
  assert (Q : forall n, entry_node d' n <-> entry_node d n).
  { intros n. unfold entry_node. rewrite (ss_nodes _ _ SS). unfold incoming_of. rewrite (ss_attrs _ _ SS) by (simpl; auto). tauto. }
  pose proof (entry_unique d (or_lists _ Od)) as U. pose proof (entry_unique d' (or_lists _ Od')) as U'.
  assert (X : (exists n, forall m, entry_node d' m <-> m = n) <-> (exists n, forall m, entry_node d m <-> m = n)).
  { split; intros [n H]; exists n; intros m; rewrite <- (H m); [symmetry|]; apply Q. }
  assert (Y : (exists n, filter no_incoming (gnodes (dgraph d')) = [n]) <-> (exists n, filter no_incoming (gnodes (dgraph d)) = [n])).
  { split; intros H; [apply U, X, U'|apply U', X, U]; exact H. }
  assert (I : forall n a, In (n, a) (filter no_incoming (gnodes (dgraph d))) -> entry_node d n /\ node_of d n = Some a).
  { intros n a H. split; [apply (entry_iff d n (or_lists _ Od)); apply (in_map fst) in H; exact H|]. apply filter_In in H. unfold node_of.
    apply In_dget; [apply (gwf_nodup _ (or_graph _ Od))|tauto]. }
  assert (I' : forall n a, In (n, a) (filter no_incoming (gnodes (dgraph d'))) -> entry_node d' n /\ node_of d' n = Some a).
  { intros n a H. split; [apply (entry_iff d' n (or_lists _ Od')); apply (in_map fst) in H; exact H|]. apply filter_In in H. unfold node_of.
    apply In_dget; [apply (gwf_nodup _ (or_graph _ Od'))|tauto]. }
  assert (Only : forall x, filter no_incoming (gnodes (dgraph d)) = [x] -> forall n, entry_node d n -> n = fst x).
  { intros x H n En. apply (entry_iff d n (or_lists _ Od)) in En. rewrite H in En. destruct En as [En|[]]. auto. }
  destruct (filter no_incoming (gnodes (dgraph d))) as [|[n a] [|x2 xs]] eqn:F, (filter no_incoming (gnodes (dgraph d'))) as [|[n' a'] [|y2 ys]] eqn:F'; auto;
    try (exfalso; destruct (proj1 Y (ex_intro _ _ eq_refl)); discriminate); try (exfalso; destruct (proj2 Y (ex_intro _ _ eq_refl)); discriminate).
  destruct (I n a (or_introl eq_refl)) as [E A]. destruct (I' n' a' (or_introl eq_refl)) as [E' A'].
  pose proof (Only _ eq_refl n' (proj1 (Q n') E')) as Z. cbn [fst] in Z. subst n'.
  pose proof (nodes_eq d (or_lists _ Od)) as C. pose proof (nodes_eq d' (or_lists _ Od')) as C'. rewrite C, C'. cbn [rbind].
  symmetry. apply agree_eq. eapply agree_bind; [apply (same_export _ _ C C' fuel _ (Some (n, a'))); constructor; assumption|]. intros r r' [R _]. simpl. auto.
Qed.
Lemma same_file : forall fuel o, export_process_to_csv fuel d' o = export_process_to_csv fuel d o.
Proof using Od Od' SS. intros fuel o. unfold export_process_to_csv, mbind, mread. rewrite same_rows. reflexivity. Qed.
End Twins.
