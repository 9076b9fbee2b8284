(** What is drawn of a diagram (C79) and where the arrows of the picture point (C80). *)
From Coq Require Import String List Bool Arith Lia Permutation.
From Verif Require Import Py PyFacts Consts Nx NxFacts Rep SpecRep RepFacts ApiSave Visual.
Import ListNotations.
Open Scope string_scope.
Open Scope list_scope.

(** * Specification *)
(** The shape of a type: square, diamond or circle. *)
Definition shape_of (t : string) : option string :=
  if in_dec string_dec t ["task"; "subProcess"] then Some "s"
  else if in_dec string_dec t ["complexGateway"; "inclusiveGateway"; "exclusiveGateway"; "parallelGateway"] then Some "d"
  else if in_dec string_dec t ["eventBasedGateway"; "startEvent"; "intermediateCatchEvent"; "endEvent"; "intermediateThrowEvent"] then Some "o"
  else None.
(** The text shown for an attribute: None when it is missing. *)
Definition shown (a : option pyval) : pyval := match a with Some v => v | None => VNone end.
(** The node [u] was added to the diagram before [v], or is [v]. *)
Definition not_after (d : diagram) (u v : string) : Prop :=
  is_node d u /\ u = v \/ exists l1 l2 l3, map fst (gnodes (dgraph d)) = l1 ++ u :: l2 ++ v :: l3.
Definition mentions (n : string) (l : list (string * list string)) : nat := count_occ string_dec (concat (map snd l)) n.

(** * The edges of the graph view *)
Lemma incident_in : forall es n v a, In (v, a) (incident n es) <-> exists e, In e es /\ eat e = a /\ same_pair (eu e) (ev e) n v.
Proof.
  induction es as [|e es IH]; intros n v a; cbn [incident flat_map].
  - split; [intros []|intros (e & [] & _)].
  - rewrite in_app_iff. change (flat_map _ es) with (incident n es). rewrite IH. unfold same_pair.
    destruct (String.eqb (eu e) n) eqn:E1; [apply String.eqb_eq in E1|apply String.eqb_neq in E1].
    + split.
      * intros [[H|[]]|(e' & I & H)]; [injection H as <- <-; exists e; simpl; auto|exists e'; simpl; auto].
      * intros (e' & [<- |I] & A & P); [|right; exists e'; auto]. left. left. f_equal; [|exact A]. intuition congruence.
    + destruct (String.eqb (ev e) n) eqn:E2; [apply String.eqb_eq in E2|apply String.eqb_neq in E2].
      * split.
        -- intros [[H|[]]|(e' & I & H)]; [injection H as <- <-; exists e; simpl; auto|exists e'; simpl; auto].
        -- intros (e' & [<- |I] & A & P); [|right; exists e'; auto]. left. left. f_equal; [|exact A]. intuition congruence.
      * split; [intros [[]|(e' & I & H)]; exists e'; simpl; auto|]. intros (e' & [<- |I] & A & P); [exfalso; intuition congruence|right; exists e'; auto].
Qed.
Lemma edges_from_in : forall ns seen es u v a, In (u, v, a) (edges_from ns seen es) <->
  exists l1 l2, ns = l1 ++ u :: l2 /\ In (v, a) (incident u es) /\ ~ In v l1 /\ ~ In v seen.
Proof.
  induction ns as [|n ns IH]; intros seen es u v a; cbn [edges_from].
  - split; [intros []|intros (l1 & l2 & E & _); destruct l1; discriminate].
  - rewrite in_app_iff, in_map_iff, IH. split.
    + intros [([v' a'] & E & I)|(l1 & l2 & -> & I & N1 & N2)].
      * simpl in E. injection E as <- <- <-. apply filter_In in I. destruct I as [I N]. apply negb_true_iff in N. apply smem_notIn in N.
        exists [], ns. simpl. auto.
      * exists (n :: l1), l2. split; [reflexivity|]. split; [exact I|]. simpl in *. split; intuition congruence.
    + intros (l1 & l2 & E & I & N1 & N2). destruct l1 as [|x l1]; simpl in E; injection E as -> ->.
      * left. exists (v, a). split; [reflexivity|]. apply filter_In. split; [exact I|]. apply negb_true_iff. apply smem_notIn. exact N2.
      * right. exists l1, l2. split; [reflexivity|]. split; [exact I|]. simpl in *. intuition.
Qed.
Lemma view_in : forall d u v a, gwf (dgraph d) -> In (u, v, a) (edges_view (dgraph d)) <->
  not_after d u v /\ exists e, In e (gedges (dgraph d)) /\ eat e = a /\ same_pair (eu e) (ev e) u v.
Proof.
  intros d u v a W. unfold edges_view. rewrite edges_from_in. unfold dkeys. split.
  - intros (l1 & l2 & K & I & N1 & _). apply incident_in in I. split; [|exact I]. destruct I as (e & Ie & _ & P).
    assert (V : In v (l1 ++ u :: l2)).
    { rewrite <- K. destruct (gwf_ends _ W e Ie) as [A B]. unfold same_pair, dkeys in *. destruct P as [[<- <-]|[<- <-]]; assumption. }
    apply in_app_or in V. destruct V as [V|[V|V]]; [contradiction| |].
    + left. split; [|exact V]. unfold is_node. rewrite K. apply in_or_app. right. left. reflexivity.
    + right. apply in_split in V. destruct V as (m1 & m2 & ->). exists l1, m1, m2. exact K.
  - intros [N E]. apply incident_in in E. pose proof (gwf_nodup _ W) as ND. unfold dkeys in ND. destruct N as [[U <-]|(l1 & l2 & l3 & K)].
    + unfold is_node in U. apply in_split in U. destruct U as (l1 & l2 & K). exists l1, l2. split; [exact K|]. split; [exact E|]. split; [|intros []].
      rewrite K in ND. apply NoDup_remove_2 in ND. intros C. apply ND. apply in_or_app. auto.
    + exists l1, (l2 ++ v :: l3). split; [exact K|]. split; [exact E|]. split; [|intros []]. rewrite K in ND.
      change (NoDup (l1 ++ u :: l2 ++ v :: l3)) in ND. replace (l1 ++ u :: l2 ++ v :: l3) with ((l1 ++ u :: l2) ++ v :: l3) in ND by (rewrite <- app_assoc; reflexivity).
      apply NoDup_remove_2 in ND. intros C. apply ND. apply in_or_app. left. apply in_or_app. left. exact C.
Qed.
Lemma not_after_anti : forall d u v, gwf (dgraph d) -> not_after d u v -> not_after d v u -> u = v.
Proof.
  intros d u v W [[_ E]|(l1 & l2 & l3 & K)] [[_ E']|(m1 & m2 & m3 & K')]; auto. exfalso. pose proof (gwf_nodup _ W) as ND. unfold dkeys in ND. rewrite K in K'.
  rewrite K in ND. clear K. revert m1 K'. induction l1 as [|x l1 IH]; intros m1 K'.
  - simpl in *. inversion ND as [|? ? X ND']; subst. destruct m1 as [|y m1]; simpl in K'.
    + injection K' as -> K'. apply X. rewrite K'. apply in_or_app. right. left. reflexivity.
    + injection K' as <- K'. apply X. rewrite K'. apply in_or_app. right. right. apply in_or_app. right. left. reflexivity.
  - simpl in *. inversion ND as [|? ? X ND']; subst. destruct m1 as [|y m1]; simpl in K'.
    + injection K' as -> K'. apply X. apply in_or_app. right. right. apply in_or_app. right. left. reflexivity.
    + injection K' as <- K'. apply (IH ND' m1 K').
Qed.
Lemma order_total : forall (u v : string) (ks : list string), In u ks -> In v ks ->
  u = v \/ (exists l1 l2 l3, ks = l1 ++ u :: l2 ++ v :: l3) \/ (exists l1 l2 l3, ks = l1 ++ v :: l2 ++ u :: l3).
Proof.
  intros u v ks U V. apply in_split in U. destruct U as (l1 & l2 & ->). apply in_app_or in V. destruct V as [V|[V|V]]; [|left; exact V|].
  - right. right. apply in_split in V. destruct V as (m1 & m2 & ->). exists m1, m2, l2. rewrite <- app_assoc. reflexivity.
  - right. left. apply in_split in V. destruct V as (m1 & m2 & ->). exists l1, m1, m2. reflexivity.
Qed.
Lemma linked_order : forall d u v, gwf (dgraph d) -> linked d u v -> not_after d u v \/ not_after d v u.
Proof.
  intros d u v W (e & I & P). destruct (gwf_ends _ W e I) as [A B]. unfold dkeys in A, B.
  assert (U : is_node d u /\ is_node d v) by (unfold is_node, same_pair in *; destruct P as [[<- <-]|[<- <-]]; auto).
  destruct U as [U V]. unfold not_after. destruct (order_total u v _ U V) as [E|[E|E]]; auto.
Qed.

(** * C79 *)
Section Shapes.
Context {F : Type}.
Variable pyfloat : string -> option F.
Lemma id_list : forall d t l, unique_ids d -> get_nodes_id_list_by_type t d = Ok l ->
  NoDup l /\ forall n, In n l <-> attr d n "type" = Some (VStr t).
Proof.
  intros d t l U H. unfold get_nodes_id_list_by_type in H. destruct (rfilter _ _) as [r|] eqn:E; [|discriminate]. cbn in H. injection H as <-.
  destruct (attr_filter_spec d k_type t r U E) as [S [p ->]]. split.
  - assert (X : forall l : list (string * attrs), NoDup (map fst l) -> NoDup (map fst (filter p l))).
    { induction l as [|x l IH]; intros N; [exact N|]. simpl in *. inversion N; subst. destruct (p x); [|auto]. simpl. constructor; [|auto].
      intros C. apply H1. apply in_map_iff in C. destruct C as (y & <- & C). apply filter_In in C. apply in_map. apply C. }
    apply X. exact U.
  - intros n. rewrite in_map_iff. split.
    + intros ((m & a) & <- & I). apply S in I. apply I.
    + intros A. unfold attr in A. destruct (node_of d n) as [a|] eqn:N; [|discriminate]. exists (n, a). split; [reflexivity|]. apply S. split; [exact N|].
      unfold attr. rewrite N. exact A.
Qed.
Lemma id_list_ok : forall d t, unique_ids d -> (exists l, get_nodes_id_list_by_type t d = Ok l) <-> forall n, is_node d n -> attr d n "type" <> None.
Proof.
  intros d t U. unfold get_nodes_id_list_by_type. split.
  - intros [l H] n N. destruct (rfilter _ _) as [r|] eqn:E; [|discriminate]. apply in_map_iff in N. destruct N as ((m & a) & <- & I). simpl.
    destruct (rfilter_ok_inv _ _ _ _ E (m, a) I) as [b B]. rewrite (nodes_attr d m a _ U I). intros C. unfold attr_is, dgetE in B. cbn [snd] in B.
    change k_type with "type" in B. rewrite C in B. discriminate.
  - intros H. rewrite (rfilter_total _ _ (fun n => match dget "type" (snd n) with Some x => veqs x t | None => false end)).
    + eexists. reflexivity.
    + intros (m & a) I. assert (N : is_node d m) by (apply in_map_iff; exists (m, a); auto). specialize (H m N). rewrite (nodes_attr d m a _ U I) in H.
      unfold attr_is, dgetE. cbn [snd]. change k_type with "type". destruct (dget "type" a); [reflexivity|congruence].
Qed.
Lemma visualize_parts : forall d pic, visualize_diagram pyfloat d = Ok pic ->
  get_nodes_positions pyfloat d = Ok (dr_positions pic) /\
  rmap (fun c => let* l := get_nodes_id_list_by_type (snd c) d in Ok (fst c, l)) shape_calls = Ok (dr_shapes pic) /\
  dr_labels pic = fold_left (fun acc n => dset (fst n) (get_or_none k_node_name (snd n)) acc) (nodes_view (dgraph d)) [] /\
  dr_lines pic = map fst (edges_view (dgraph d)) /\
  dr_line_labels pic = map (fun e => (fst e, get_or_none k_name (snd e))) (edges_view (dgraph d)).
Proof.
  intros d pic H. unfold visualize_diagram in H. destruct (get_nodes_positions pyfloat d) as [p|]; [|discriminate].
  cbn [rbind] in H. destruct (rmap _ shape_calls) as [s|]; [|discriminate]. cbn [rbind] in H. injection H as <-. repeat split.
Qed.

(** When the diagram can be drawn. *)
Theorem C79_can_be_drawn : forall d, unique_ids d ->
  (exists pic, visualize_diagram pyfloat d = Ok pic) <->
  forall n, is_node d n -> num_attr pyfloat d n "x" <> None /\ num_attr pyfloat d n "y" <> None /\ attr d n "type" <> None.
Proof.
  intros d U. pose proof (positions_spec F pyfloat d U) as P. split.
  - intros [pic H] n N. destruct (visualize_parts d pic H) as (H1 & H2 & _). rewrite H1 in P. destruct (proj1 P n N) as (x & y & X & Y & _).
    split; [congruence|]. split; [congruence|]. apply (proj1 (id_list_ok d t_task U)); [|exact N].
    destruct (get_nodes_id_list_by_type t_task d) as [l|] eqn:E; [eexists; reflexivity|]. unfold shape_calls in H2. cbn [rmap snd] in H2. rewrite E in H2. discriminate.
  - intros H. destruct (get_nodes_positions pyfloat d) as [p|] eqn:Ep.
    + unfold visualize_diagram. rewrite Ep. cbn [rbind].
      assert (T : forall l : list (string * string), exists s, rmap (fun c => let* l := get_nodes_id_list_by_type (snd c) d in Ok (fst c, l)) l = Ok s).
      { induction l as [|c l [s IH]]; [exists []; reflexivity|]. cbn [rmap]. destruct (proj2 (id_list_ok d (snd c) U)) as [r R]; [intros n N; apply (H n N)|].
        rewrite R. cbn [rbind]. rewrite IH. eexists. reflexivity. }
      destruct (T shape_calls) as [s ->]. eexists. reflexivity.
    + destruct P as (n & N & Q). destruct (H n N) as (A & B & _). tauto.
Qed.
Lemma shape_calls_spec : forall t sh, In (sh, t) shape_calls <-> shape_of t = Some sh.
Proof.
  intros t sh. unfold shape_of, shape_calls. split.
  - intros H. simpl in H. repeat (destruct H as [H|H]; [injection H as <- <-; reflexivity|]). destruct H.
  - intros H.
    assert (C : forall l, In t l -> (forall x, In x l -> In (sh, x) shape_calls) -> In (sh, t) shape_calls) by auto.
    destruct (in_dec string_dec t ["task"; "subProcess"]) as [I|_].
    { injection H as <-. apply (C _ I). intros x Ix. simpl in Ix. unfold shape_calls. repeat (destruct Ix as [<- |Ix]; [simpl; tauto|]). destruct Ix. }
    destruct (in_dec string_dec t ["complexGateway"; "inclusiveGateway"; "exclusiveGateway"; "parallelGateway"]) as [I|_].
    { injection H as <-. apply (C _ I). intros x Ix. simpl in Ix. unfold shape_calls. repeat (destruct Ix as [<- |Ix]; [simpl; tauto|]). destruct Ix. }
    destruct (in_dec string_dec t ["eventBasedGateway"; "startEvent"; "intermediateCatchEvent"; "endEvent"; "intermediateThrowEvent"]) as [I|_]; [|discriminate].
    injection H as <-. apply (C _ I). intros x Ix. simpl in Ix. unfold shape_calls. repeat (destruct Ix as [<- |Ix]; [simpl; tauto|]). destruct Ix.
Qed.
Lemma calls_mentions : forall d (U : unique_ids d) n calls r, rmap (fun c => let* l := get_nodes_id_list_by_type (snd c) d in Ok (fst c, l)) calls = Ok r ->
  NoDup (map snd calls) ->
  (forall t, attr d n "type" = Some (VStr t) -> In t (map snd calls) -> mentions n r = 1) /\
  ((forall t, attr d n "type" = Some (VStr t) -> ~ In t (map snd calls)) -> mentions n r = 0) /\
  (forall sh, (exists l, In (sh, l) r /\ In n l) <-> exists t, In (sh, t) calls /\ attr d n "type" = Some (VStr t)).
Proof.
  intros d U n. unfold mentions. induction calls as [|[sh0 t0] calls IH]; intros r H ND; cbn [rmap] in H.
  - injection H as <-. split; [intros t _ []|]. split; [reflexivity|]. intros sh. split; [intros (l & [] & _)|intros (t & [] & _)].
  - cbn [snd fst] in H. destruct (get_nodes_id_list_by_type t0 d) as [l|] eqn:E; [|discriminate]. cbn [rbind] in H.
    destruct (rmap _ calls) as [r'|]; [|discriminate]. cbn [rbind] in H. injection H as <-. simpl in ND. inversion ND as [|? ? X ND']; subst.
    destruct (IH r' eq_refl ND') as (I1 & I2 & I3). destruct (id_list d t0 l U E) as [Nl Ml].
    assert (C1 : attr d n "type" = Some (VStr t0) -> count_occ string_dec l n = 1) by (intros A; apply NoDup_count_occ'; [exact Nl|apply Ml; exact A]).
    assert (C0 : attr d n "type" <> Some (VStr t0) -> count_occ string_dec l n = 0) by (intros A; apply count_occ_not_In; intros C; apply A, Ml, C).
    cbn [map concat snd]. rewrite count_occ_app. split; [|split].
    + intros t A I. destruct (string_dec t0 t) as [<- |N].
      * rewrite C1 by exact A. rewrite I2; [reflexivity|]. intros t A' C. rewrite A in A'. injection A' as <-. contradiction.
      * rewrite C0 by congruence. simpl in I. destruct I as [I|I]; [contradiction|]. rewrite (I1 t A I). reflexivity.
    + intros A. rewrite C0, I2; [reflexivity| |].
      * intros t A' C. apply (A t A'). right. exact C.
      * intros A'. apply (A t0 A'). left. reflexivity.
    + intros sh. split.
      * intros (l' & [H|H] & I).
        -- injection H as <- <-. exists t0. split; [left; reflexivity|apply Ml; exact I].
        -- destruct (proj1 (I3 sh)) as (t & T & A); [exists l'; auto|]. exists t. split; [right; exact T|exact A].
      * intros (t & [H|H] & A).
        -- injection H as <- <-. exists l. split; [left; reflexivity|apply Ml; exact A].
        -- destruct (proj2 (I3 sh)) as (l' & L & I); [exists t; auto|]. exists l'. split; [right; exact L|exact I].
Qed.
(** Every node of the eleven types is drawn once, with the shape of its type; no other node is drawn. *)
Theorem C79_shapes : forall d pic n, unique_ids d -> visualize_diagram pyfloat d = Ok pic ->
  (forall sh, (exists l, In (sh, l) (dr_shapes pic) /\ In n l) <-> exists t, attr d n "type" = Some (VStr t) /\ shape_of t = Some sh) /\
  (forall t, attr d n "type" = Some (VStr t) -> shape_of t <> None -> mentions n (dr_shapes pic) = 1) /\
  ((forall t, attr d n "type" = Some (VStr t) -> shape_of t = None) -> mentions n (dr_shapes pic) = 0).
Proof.
  intros d pic n U H. destruct (visualize_parts d pic H) as (_ & H2 & _).
  assert (ND : NoDup (map snd shape_calls)).
  { unfold shape_calls. cbn [map snd]. repeat constructor; simpl; intuition discriminate. }
  destruct (calls_mentions d U n shape_calls _ H2 ND) as (M1 & M2 & M3). split; [|split].
  - intros sh. rewrite M3. split; intros (t & A & B); exists t; [split; [exact B|apply shape_calls_spec; exact A]|split; [apply shape_calls_spec; exact B|exact A]].
  - intros t A S. apply (M1 t A). destruct (shape_of t) as [sh|] eqn:E; [|congruence]. apply shape_calls_spec in E. apply in_map_iff. exists (sh, t). auto.
  - intros A. apply M2. intros t T I. apply in_map_iff in I. destruct I as ((sh & t') & <- & I). apply shape_calls_spec in I. simpl in T. rewrite (A t' T) in I. discriminate.
Qed.
(** Every node is labelled with its name, at its position. *)
Theorem C79_labels : forall d pic n, unique_ids d -> visualize_diagram pyfloat d = Ok pic ->
  dget n (dr_labels pic) = (if in_dec string_dec n (map fst (gnodes (dgraph d))) then Some (shown (attr d n "node_name")) else None) /\
  (is_node d n -> exists x y, num_attr pyfloat d n "x" = Some x /\ num_attr pyfloat d n "y" = Some y /\ dget n (dr_positions pic) = Some (x, y)).
Proof.
  intros d pic n U H. destruct (visualize_parts d pic H) as (H1 & _ & H3 & _). split.
  - rewrite H3. unfold nodes_view.
    assert (X : forall l acc, NoDup (map fst l) -> dget n (fold_left (fun acc m => dset (fst m) (get_or_none k_node_name (snd m)) acc) l acc) =
       match dget n l with Some a => Some (get_or_none k_node_name a) | None => dget n acc end).
    { induction l as [|[m a] l IH]; intros acc N; [reflexivity|]. cbn [fold_left fst snd]. simpl in N. inversion N as [|? ? N1 N2]; subst. rewrite IH by exact N2.
      cbn [dget]. rewrite dget_dset. destruct (String.eqb n m) eqn:E; [|reflexivity]. apply String.eqb_eq in E. subst m.
      destruct (dget n l) eqn:G; [|reflexivity]. exfalso. apply N1. eapply dget_key_In; exact G. }
    rewrite X by exact U. destruct (in_dec string_dec n (map fst (gnodes (dgraph d)))) as [I|I].
    + apply in_map_iff in I. destruct I as ((m & a) & <- & I). cbn [fst]. rewrite (In_dget m a _ U I), (nodes_attr d m a _ U I). reflexivity.
    + destruct (dget n (gnodes (dgraph d))) eqn:G; [exfalso; apply I; eapply dget_key_In; exact G|reflexivity].
  - intros N. pose proof (positions_spec F pyfloat d U) as P. rewrite H1 in P. apply (proj1 P n N).
Qed.
(** Every connection is one line between its nodes, labelled with its name. *)
Theorem C79_lines : forall d pic, gwf (dgraph d) -> visualize_diagram pyfloat d = Ok pic ->
  length (dr_lines pic) = length (gedges (dgraph d)) /\
  (forall u v, In (u, v) (dr_lines pic) \/ In (v, u) (dr_lines pic) <-> linked d u v) /\
  map fst (dr_line_labels pic) = dr_lines pic /\
  (forall u v x, In (u, v, x) (dr_line_labels pic) ->
     exists e, In e (gedges (dgraph d)) /\ same_pair (eu e) (ev e) u v /\ x = shown (dget "name" (eat e))).
Proof.
  intros d pic W H. destruct (visualize_parts d pic H) as (_ & _ & _ & H4 & H5). rewrite H4, H5. split; [|split; [|split]].
  - rewrite map_length. apply edges_view_length. exact W.
  - intros u v.
    assert (X : forall u v, In (u, v) (map fst (edges_view (dgraph d))) -> linked d u v).
    { intros p q I. apply in_map_iff in I. destruct I as (((p' & q') & a) & E & I). injection E as -> ->. apply view_in in I; [|exact W].
      destruct I as (_ & e & Ie & _ & P). exists e. auto. }
    split.
    + intros [I|I]; [apply X; exact I|]. destruct (X _ _ I) as (e & Ie & P). exists e. split; [exact Ie|]. unfold same_pair in *. tauto.
    + intros L. pose proof L as (e & Ie & P). destruct (linked_order d u v W L) as [N|N]; [left|right]; apply in_map_iff.
      * exists (u, v, eat e). split; [reflexivity|]. apply view_in; [exact W|]. split; [exact N|]. exists e. auto.
      * exists (v, u, eat e). split; [reflexivity|]. apply view_in; [exact W|]. split; [exact N|]. exists e. unfold same_pair in *. tauto.
  - rewrite map_map. reflexivity.
  - intros u v x I. apply in_map_iff in I. destruct I as (((p & q) & a) & E & I). injection E as -> -> <-.
    apply view_in in I; [|exact W]. destruct I as (_ & e & Ie & <- & P). exists e. auto.
Qed.
End Shapes.

(** Whatever the API builds can be drawn, with every node once. *)
Theorem C79_histories : forall F (pyfloat : string -> option F) l d, proper_history l d -> pyfloat "100" <> None ->
  exists pic, visualize_diagram pyfloat d = Ok pic /\
    forall n, is_node d n -> mentions n (dr_shapes pic) = 1 /\ exists name, attr d n "node_name" = Some (VStr name) /\ dget n (dr_labels pic) = Some (VStr name).
Proof.
  intros F pf l d H PF. pose proof (history_built l d H) as B. pose proof (gwf_nodup _ (inv_g d (bu_inv d B))) as U. change (unique_ids d) in U.
  assert (X : forall n, is_node d n -> exists o ex, expected_node o = Some (n, ex) /\ attr d n "x" = dget "x" ex /\ attr d n "y" = dget "y" ex /\
     attr d n "type" = dget "type" ex /\ attr d n "node_name" = dget "node_name" ex).
  { intros n N. destruct (bu_nodes d B n N) as (o & ex & E & K). exists o, ex. rewrite !K by discriminate. auto. }
  destruct (proj2 (C79_can_be_drawn pf d U)) as [pic P].
  { intros n N. destruct (X n N) as (o & ex & E & Hx & Hy & Ht & _). unfold num_attr. rewrite Hx, Hy, Ht.
    destruct o; unfold expected_node in E; try discriminate; try (destruct (in_dec string_dec dir directions); [|discriminate]); injection E as <- <-;
      cbn; (split; [exact PF|]); (split; [exact PF|discriminate]). }
  exists pic. split; [exact P|]. intros n N. destruct (X n N) as (o & ex & E & Hx & Hy & Ht & Hn).
  destruct (C79_shapes pf d pic n U P) as (_ & S & _). destruct (C79_labels pf d pic n U P) as (L & _). unfold is_node in N.
  destruct (in_dec string_dec n (map fst (gnodes (dgraph d)))) as [_|C]; [|contradiction]. rewrite L.
  destruct o; unfold expected_node in E; try discriminate; try (destruct (in_dec string_dec dir directions); [|discriminate]); injection E as <- <-;
    (split; [eapply S; [exact Ht|discriminate]|]); rewrite Hn; eexists; split; reflexivity.
Qed.
(** Types read from XML files that are never drawn. *)
Theorem C79_every_node_refuted : exists (d : diagram) pic n, unique_ids d /\ is_node d n /\ attr d n "type" = Some (VStr "userTask") /\
  visualize_diagram (fun s => Some s) d = Ok pic /\ mentions n (dr_shapes pic) = 0.
Proof.
  set (d := mkDiagram (mkGraph [("u", [("type", VStr "userTask"); ("node_name", VStr "weigh"); ("x", VStr "1"); ("y", VStr "2")])] []) [] [] [] [] None).
  exists d. destruct (visualize_diagram (fun s => Some s) d) as [pic|] eqn:E; [|vm_compute in E; discriminate]. exists pic, "u".
  split; [repeat constructor; simpl; tauto|]. split; [left; reflexivity|]. split; [reflexivity|]. split; [reflexivity|].
  vm_compute in E. injection E as <-. vm_compute. reflexivity.
Qed.

(** * C80 *)
(** The picture has exactly the nodes, in their order, each with its name and the shape of its type. *)
Definition png_shape (t : option pyval) : option string * option string :=
  match t with
  | Some (VStr "task") => (Some "box", Some "rounded")
  | Some (VStr "exclusiveGateway") => (Some "diamond", None)
  | _ => (None, None)
  end.
Theorem C80_nodes : forall d, unique_ids d -> let p := bpmn_diagram_to_png d in
  map dn_name (fst p) = map fst (gnodes (dgraph d)) /\
  forall x, In x (fst p) -> dn_label x = shown (attr d (dn_name x) "node_name") /\ (dn_shape x, dn_style x) = png_shape (attr d (dn_name x) "type").
Proof.
  intros d U p. unfold p, bpmn_diagram_to_png, nodes_view. cbn [fst]. split.
  - rewrite map_map. apply map_ext. intros (n & a). unfold png_node. cbn [fst snd]. destruct (veqs _ t_task); [reflexivity|]. destruct (veqs _ _); reflexivity.
  - intros x I. apply in_map_iff in I. destruct I as ((n & a) & <- & I).
    assert (Nm : dn_name (png_node (n, a)) = n) by (unfold png_node; cbn [fst snd]; destruct (veqs _ t_task); [reflexivity|]; destruct (veqs _ _); reflexivity).
    rewrite Nm, !(nodes_attr d n a _ U I). unfold png_node. cbn [fst snd]. unfold get_or_none, shown. change k_type with "type". change k_node_name with "node_name".
    split; [destruct (veqs _ t_task); [reflexivity|]; destruct (veqs _ _); reflexivity|].
    destruct (dget "type" a) as [v|]; [|reflexivity]. destruct v; try reflexivity. cbn [veqs].
    destruct (String.eqb s t_task) eqn:E1; [apply String.eqb_eq in E1; subst s; reflexivity|].
    destruct (String.eqb s t_exclusive_gateway) eqn:E2; [apply String.eqb_eq in E2; subst s; reflexivity|].
    apply String.eqb_neq in E1, E2. cbn [dn_shape dn_style]. unfold png_shape.
    repeat match goal with |- _ = match ?z with _ => _ end => destruct z; try reflexivity end; exfalso; (apply E1; reflexivity) || (apply E2; reflexivity).
Qed.
(** There is an arrow exactly for every connection, and it starts at the node that was added first. *)
Theorem C80_arrows : forall d x, gwf (dgraph d) ->
  In x (snd (bpmn_diagram_to_png d)) <-> not_after d (de_src x) (de_dst x) /\
    exists e, In e (gedges (dgraph d)) /\ same_pair (eu e) (ev e) (de_src x) (de_dst x) /\ de_label x = shown (dget "name" (eat e)).
Proof.
  intros d [u v y] W. unfold bpmn_diagram_to_png. cbn [snd de_src de_dst de_label]. rewrite in_map_iff. split.
  - intros (((p & q) & a) & E & I). cbn [fst snd] in E. injection E as -> -> <-. apply view_in in I; [|exact W]. destruct I as (N & e & Ie & <- & P).
    split; [exact N|]. exists e. auto.
  - intros (N & e & Ie & P & ->). exists (u, v, eat e). split; [reflexivity|]. apply view_in; [exact W|]. split; [exact N|]. exists e. auto.
Qed.
(** So a flow from a node to one that was added later is drawn the right way round, any other flow the wrong way round. *)
Theorem C80_direction : forall l d f r, history l d -> live d f r -> fl_src r <> fl_tgt r ->
  (In (mkDotEdge (fl_src r) (fl_tgt r) (VStr (fl_name r))) (snd (bpmn_diagram_to_png d)) <-> not_after d (fl_src r) (fl_tgt r)) /\
  (In (mkDotEdge (fl_tgt r) (fl_src r) (VStr (fl_name r))) (snd (bpmn_diagram_to_png d)) <-> not_after d (fl_tgt r) (fl_src r)) /\
  (not_after d (fl_src r) (fl_tgt r) <-> ~ not_after d (fl_tgt r) (fl_src r)).
Proof.
  intros l d f r H Li Ne. pose proof (inv_history l d H) as I. pose proof (inv_g d I) as W.
  assert (E : exists e, In e (gedges (dgraph d)) /\ same_pair (eu e) (ev e) (fl_src r) (fl_tgt r) /\ dget "name" (eat e) = Some (VStr (fl_name r))).
  { pose proof (In_dget _ _ _ (inv_f d I) (live_in _ _ _ Li)) as G. destruct (proj2 (inv_e d I) f r G) as (e & Ie & Sp).
    destruct (proj1 (inv_e d I) e Ie) as (f' & r' & p & w & Li' & Sp' & _ & Nm & _). exists e. split; [exact Ie|]. split; [exact Sp|].
    rewrite (live_pair d f r f' r' (inv_f d I) Li Li'); [exact Nm|]. eapply same_pair_trans; [apply same_pair_sym; exact Sp|exact Sp']. }
  destruct E as (e & Ie & Sp & Nm).
  assert (E' : same_pair (eu e) (ev e) (fl_tgt r) (fl_src r)) by (unfold same_pair in *; tauto).
  split; [|split].
  - rewrite C80_arrows by exact W. cbn [de_src de_dst de_label]. split; [tauto|]. intros N. split; [exact N|]. exists e. rewrite Nm. auto.
  - rewrite C80_arrows by exact W. cbn [de_src de_dst de_label]. split; [tauto|]. intros N. split; [exact N|]. exists e. rewrite Nm. auto.
  - split.
    + intros N N'. apply Ne. apply (not_after_anti d); assumption.
    + intros N. destruct (linked_order d (fl_src r) (fl_tgt r) W) as [X|X]; [exists e; auto|exact X|contradiction].
Qed.

(** * Examples *)
Definition seen_ops : list op :=
  [ONew "m" "0"; OProcess "orders" false true "None" "1" "2"; OStart "id2" "s" None false true (Some "s") "" "";
   OEnd "id2" "e" None (Some "e") "" ""; OTask "id2" "weigh" (Some "a") ""; OFlow "id2" "s" "a" "go" "10"; OFlow "id2" "a" "e" "done" "11"].
Definition seen : diagram := run empty_diagram seen_ops.
Example seen_proper : proper_history seen_ops seen.
Proof. apply (pcheck_history seen_ops [] empty_diagram ph_nil). vm_compute. reflexivity. Qed.
Example C79_example : proper_history seen_ops seen /\ unique_ids seen /\ gwf (dgraph seen) /\
  exists pic, visualize_diagram (fun s => Some s) seen = Ok pic /\ dr_lines pic = [("s", "a"); ("e", "a")] /\
    dget "a" (dr_labels pic) = Some (VStr "weigh").
Proof.
  split; [exact seen_proper|]. pose proof (inv_g _ (bu_inv _ (history_built _ _ seen_proper))) as W. split; [exact (gwf_nodup _ W)|]. split; [exact W|].
  destruct (visualize_diagram (fun s => Some s) seen) as [pic|] eqn:E; [|vm_compute in E; discriminate]. exists pic. split; [reflexivity|].
  vm_compute in E. injection E as <-. vm_compute. auto.
Qed.
(** The end event was added before the task, so the arrow to it is drawn backwards. *)
Theorem C80_arrows_refuted : exists l d f r, history l d /\ live d f r /\ fl_src r <> fl_tgt r /\
  (forall x, In x (snd (bpmn_diagram_to_png d)) -> ~ (de_src x = fl_src r /\ de_dst x = fl_tgt r)) /\
  In (mkDotEdge (fl_tgt r) (fl_src r) (VStr (fl_name r))) (snd (bpmn_diagram_to_png d)).
Proof.
  exists seen_ops, seen, "id11", (mkFlow "done" "a" "e"). split; [apply proper_is_history, seen_proper|].
  split; [exists [("id10", mkFlow "go" "s" "a")], []; split; [vm_compute; reflexivity|intros ? ? []]|]. split; [discriminate|].
  split; [|vm_compute; auto]. intros x I. vm_compute in I. destruct I as [<- |[<- |[]]]; intros [? ?]; discriminate.
Qed.
Example C80_example : history seen_ops seen /\ live seen "id10" (mkFlow "go" "s" "a") /\ not_after seen "s" "a" /\
  In (mkDotEdge "s" "a" (VStr "go")) (snd (bpmn_diagram_to_png seen)).
Proof.
  split; [apply proper_is_history, seen_proper|]. split; [exists [], [("id11", mkFlow "done" "a" "e")]; split; [vm_compute; reflexivity|]|].
  - intros f r [E|[]]. injection E as <- <-. unfold same_pair. cbn. intuition discriminate.
  - split; [|vm_compute; auto]. right. exists [], ["e"], []. vm_compute. reflexivity.
Qed.

Print Assumptions C79_can_be_drawn.
Print Assumptions C79_shapes.
Print Assumptions C79_labels.
Print Assumptions C79_lines.
Print Assumptions C79_histories.
Print Assumptions C79_every_node_refuted.
Print Assumptions C80_nodes.
Print Assumptions C80_arrows.
Print Assumptions C80_direction.
Print Assumptions C80_arrows_refuted.
