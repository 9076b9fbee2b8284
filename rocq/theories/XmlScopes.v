(** Which actions a document leads to, in terms of its scopes. *)
From Coq Require Import String List Bool Arith Lia.
From Verif Require Import Py PyFacts Consts Nx Rep SpecRep Xml Import SpecXml ImportFacts.
Import ListNotations.
Open Scope string_scope.
Open Scope list_scope.

Lemma named_local : forall t e, named t e -> d_local e = t.
Proof. intros t [g a ks|s|s] H; [exact H|destruct H|destruct H]. Qed.
Lemma named_elem : forall t e, named t e <-> exists g a ks, e = DElem g a ks /\ local_name g = t.
Proof.
  intros t [g a ks|s|s]; split.
  - intros H. exists g, a, ks. auto.
  - intros (g' & a' & ks' & E & N). inversion E. subst. reflexivity.
  - intros [].
  - intros (g & a & ks & E & _). discriminate.
  - intros [].
  - intros (g & a & ks & E & _). discriminate.
Qed.

Lemma in_elements : forall t e x,
  In x (elements_in t e) <-> exists k, In k (d_kids e) /\ inside x k /\ named t x.
Proof.
  intros t. induction e as [g a ks IH|s|s] using dom_rect'; intros x.
  2,3: split; [intros []|intros [k [[] _]]].
  cbn [elements_in d_kids]. rewrite in_flat_map. split.
  - intros [k [Hk I]]. exists k. split; [exact Hk|]. apply in_app_or in I. destruct I as [I|I].
    + destruct k as [g' a' ks'|s|s]; [|destruct I|destruct I]. destruct (String.eqb_spec (local_name g') t); [|destruct I].
      destruct I as [<- |[]]. split; [constructor|]. exact e.
    + rewrite Forall_forall in IH. apply (IH k Hk) in I. destruct I as [k' [Hk' [J N]]]. split; [|exact N].
      destruct k as [g' a' ks'|s|s]; [|destruct Hk'|destruct Hk']; eapply inside_below; eauto.
  - intros [k [Hk [J N]]]. exists k. split; [exact Hk|]. apply in_or_app.
    inversion J as [e E1 E2|x' k' g' a' ks' Hk' J' E1 E2]; subst.
    + left. destruct k as [g' a' ks'|s|s]; [|destruct N|destruct N]. simpl in N. rewrite N, eqb_refl'. left. reflexivity.
    + right. rewrite Forall_forall in IH. apply (IH _ Hk). exists k'. auto.
Qed.
Lemma in_document : forall t root x, In x (document_elements t root) <-> inside x root /\ named t x.
Proof.
  intros t root x. unfold document_elements. rewrite in_app_iff, in_elements. split.
  - intros [I|[k [Hk [J N]]]].
    + destruct root as [g a ks|s|s]; [|destruct I|destruct I]. destruct (String.eqb_spec (local_name g) t); [|destruct I].
      destruct I as [<- |[]]. split; [constructor|exact e].
    + split; [|exact N]. destruct root as [g a ks|s|s]; [|destruct Hk|destruct Hk]; eapply inside_below; eauto.
  - intros [J N]. inversion J as [e E1 E2|x' k g a ks Hk J' E1 E2]; subst.
    + left. destruct root as [g a ks|s|s]; [|destruct N|destruct N]. simpl in N. rewrite N, eqb_refl'. left. reflexivity.
    + right. exists k. auto.
Qed.

Definition owner_of (s : dom) : owner :=
  if String.eqb (d_local s) "process" then InProcess (get_attribute "id" s) else InSubprocess (get_attribute "id" s).
Lemma owner_of_id : forall s, owner_id (owner_of s) = get_attribute "id" s.
Proof. intros. unfold owner_of. destruct (_ =? _); reflexivity. Qed.
Lemma owner_process : forall s, named "process" s -> owner_of s = InProcess (get_attribute "id" s).
Proof. intros. unfold owner_of. rewrite (named_local _ _ H). reflexivity. Qed.
Lemma owner_sub : forall s, named "subProcess" s -> owner_of s = InSubprocess (get_attribute "id" s).
Proof. intros. unfold owner_of. rewrite (named_local _ _ H). reflexivity. Qed.

Definition kind (x : dom) : Prop := exists t, In t node_kinds /\ named t x.
Lemma kind_types : forall g a ks, kind (DElem g a ks) <-> smem (local_name g) node_types = true.
Proof.
  intros. unfold kind. rewrite smem_In. split.
  - intros [t [I N]]. simpl in N. subst t. simpl in *. repeat (destruct I as [<- |I]; [tauto|]). destruct I.
  - intros I. exists (local_name g). split; [|reflexivity]. simpl in *.
    repeat (destruct I as [<- |I]; [tauto|]). destruct I.
Qed.
Lemma kind_smem : forall x, kind x -> smem (d_local x) node_types = true.
Proof. intros [g a ks|s|s] H; [apply kind_types in H; exact H| |]; destruct H as [t [_ []]]. Qed.

Definition scope_actions (s : dom) : list action :=
  flat_map (element_actions (owner_of s)) (d_kids s) ++ flow_actions (owner_of s) s.

Lemma element_sub : forall o x, named "subProcess" x -> element_actions o x = ANode o x :: scope_actions x.
Proof.
  intros o [g a ks|s|s] N; [|destruct N|destruct N]. unfold scope_actions. rewrite owner_sub by exact N.
  cbn [element_actions]. simpl in N. rewrite N. reflexivity.
Qed.
Lemma process_scope : forall p, named "process" p -> process_actions p = AProcess p :: scope_actions p.
Proof. intros p N. unfold process_actions, scope_actions. rewrite owner_process by exact N. reflexivity. Qed.

Lemma scope_actions_in_core : forall root s, scope root s -> incl (scope_actions s) (core_actions root).
Proof.
  intros root s H. induction H as [p I N|s x Hs IH I N].
  - intros a Ha. unfold core_actions. apply in_or_app. left. apply in_flat_map. exists p. split.
    + apply in_document. auto.
    + rewrite process_scope by exact N. right. exact Ha.
  - intros a Ha. apply IH. unfold scope_actions. apply in_or_app. left. apply in_flat_map. exists x. split; [exact I|].
    rewrite element_sub by exact N. right. exact Ha.
Qed.
Lemma process_in_core : forall root p, inside p root -> named "process" p -> In (AProcess p) (core_actions root).
Proof.
  intros root p I N. unfold core_actions. apply in_or_app. left. apply in_flat_map. exists p. split.
  - apply in_document. auto.
  - left. reflexivity.
Qed.

Lemma node_in_scope : forall s x, In x (d_kids s) -> kind x -> In (ANode (owner_of s) x) (scope_actions s).
Proof.
  intros s x I K. unfold scope_actions. apply in_or_app. left. apply in_flat_map. exists x. split; [exact I|].
  destruct x as [g a ks|t|t]; [|destruct K as [? [_ []]]|destruct K as [? [_ []]]].
  apply kind_types in K. cbn [element_actions]. rewrite K. left. reflexivity.
Qed.
Lemma flow_in_scope : forall s x, In x (d_kids s) -> named "sequenceFlow" x ->
  In (AFlow (owner_of s) x) (flow_actions (owner_of s) s).
Proof.
  intros s x I N. unfold flow_actions. apply in_flat_map. exists x. split; [exact I|].
  destruct x as [g a ks|t|t]; [|destruct N|destruct N]. simpl in N. unfold d_local. simpl. rewrite N. left. reflexivity.
Qed.
Lemma declared_action : forall root s x, declared root s x -> In (ANode (owner_of s) x) (core_actions root).
Proof.
  intros root s x (Hs & I & K). apply (scope_actions_in_core _ _ Hs). apply node_in_scope; assumption.
Qed.
Lemma flow_action : forall root s x, flow_in root s x -> In (AFlow (owner_of s) x) (core_actions root).
Proof.
  intros root s x (Hs & I & N). apply (scope_actions_in_core _ _ Hs). unfold scope_actions. apply in_or_app. right.
  apply flow_in_scope; assumption.
Qed.

(** Conversely. *)
Definition explained (root : dom) (a : action) : Prop :=
  match a with
  | AProcess p => inside p root /\ named "process" p
  | ANode o x => exists s, declared root s x /\ o = owner_of s
  | AFlow o x => exists s, flow_in root s x /\ o = owner_of s
  | AFail => True
  | ACollab c => collaboration_of root = Some c
  | APart x => participant_in root x
  | AMessage x => message_in root x
  end.
Lemma flow_actions_explained : forall root s, scope root s -> Forall (explained root) (flow_actions (owner_of s) s).
Proof.
  intros root s Hs. apply Forall_forall. intros a I. unfold flow_actions in I. apply in_flat_map in I.
  destruct I as [[g at_ ks|t|t] [I1 I2]].
  - destruct (String.eqb_spec (d_local (DElem g at_ ks)) t_sequence_flow); [|destruct I2].
    destruct I2 as [<- |[]]. exists s. split; [|reflexivity]. split; [exact Hs|]. split; [exact I1|exact e].
  - destruct I2.
  - destruct I2 as [<- |[]]. exact Logic.I.
Qed.
Lemma element_actions_explained : forall root e s, scope root s -> In e (d_kids s) ->
  Forall (explained root) (element_actions (owner_of s) e).
Proof.
  intros root. induction e as [g a ks IH|t|t] using dom_rect'; intros s Hs I; cbn [element_actions].
  - apply Forall_app. split.
    + destruct (smem (local_name g) node_types) eqn:K; [|constructor]. constructor; [|constructor].
      exists s. split; [|reflexivity]. split; [exact Hs|]. split; [exact I|]. apply kind_types. exact K.
    + destruct (String.eqb_spec (local_name g) t_subprocess) as [N|N]; [|constructor].
      assert (Hx : scope root (DElem g a ks)) by (eapply scope_sub; eauto).
      assert (O : owner_of (DElem g a ks) = InSubprocess (get_attribute k_id (DElem g a ks))) by (apply owner_sub; exact N).
      rewrite <- O. apply Forall_app. split; [|apply flow_actions_explained; exact Hx].
      apply Forall_flat_map. apply Forall_forall. intros k Hk. rewrite Forall_forall in IH. apply (IH k Hk _ Hx). exact Hk.
  - constructor.
  - constructor; [exact Logic.I|constructor].
Qed.
Lemma scope_actions_explained : forall root s, scope root s -> Forall (explained root) (scope_actions s).
Proof.
  intros root s Hs. apply Forall_app. split; [|apply flow_actions_explained; exact Hs].
  apply Forall_flat_map. apply Forall_forall. intros k Hk. apply element_actions_explained; assumption.
Qed.
Lemma core_explained : forall root, Forall (explained root) (core_actions root).
Proof.
  intros root. unfold core_actions. apply Forall_app. split.
  - apply Forall_flat_map. apply Forall_forall. intros p Hp. apply in_document in Hp. destruct Hp as [I N].
    rewrite process_scope by exact N. constructor; [split; assumption|]. apply scope_actions_explained.
    apply scope_process; assumption.
  - change t_collaboration with "collaboration".
    destruct (document_elements "collaboration" root) as [|c r] eqn:E; [constructor|].
    assert (C : collaboration_of root = Some c) by (unfold collaboration_of; rewrite E; reflexivity).
    constructor; [exact C|]. apply Forall_flat_map. apply Forall_forall. intros [g a ks|t|t] I.
    + destruct (String.eqb_spec (d_local (DElem g a ks)) t_participant) as [N|N].
      * constructor; [|constructor]. exists c. split; [exact C|]. split; [exact I|exact N].
      * destruct (String.eqb_spec (d_local (DElem g a ks)) t_message_flow) as [N2|N2]; [|constructor].
        constructor; [|constructor]. exists c. split; [exact C|]. split; [exact I|exact N2].
    + constructor.
    + constructor; [exact Logic.I|constructor].
Qed.
Lemma collab_in_core : forall root c a, collaboration_of root = Some c -> In a (collab_actions c) -> In a (core_actions root).
Proof.
  intros root c a H I. unfold core_actions. apply in_or_app. right. unfold collaboration_of in H.
  change t_collaboration with "collaboration". destruct (document_elements "collaboration" root); [discriminate|].
  inv H. exact I.
Qed.
Lemma participant_action : forall root x, participant_in root x -> In (APart x) (core_actions root).
Proof.
  intros root x (c & C & I & N). eapply collab_in_core; [exact C|]. right. apply in_flat_map. exists x. split; [exact I|].
  destruct x as [g a ks|t|t]; [|destruct N|destruct N]. simpl in N. unfold d_local. simpl. rewrite N. left. reflexivity.
Qed.
Lemma message_action : forall root x, message_in root x -> In (AMessage x) (core_actions root).
Proof.
  intros root x (c & C & I & N). eapply collab_in_core; [exact C|]. right. apply in_flat_map. exists x. split; [exact I|].
  destruct x as [g a ks|t|t]; [|destruct N|destruct N]. simpl in N. unfold d_local. simpl. rewrite N. left. reflexivity.
Qed.

(** * Where things come in the list *)
Lemma list_eq_split : forall A (p q l1 : list A) b l2, p ++ q = l1 ++ b :: l2 ->
  (exists m, p = l1 ++ b :: m /\ l2 = m ++ q) \/ (exists m, l1 = p ++ m /\ q = m ++ b :: l2).
Proof.
  induction p as [|x p IH]; intros q l1 b l2 H; simpl in H.
  - right. exists l1. auto.
  - destruct l1 as [|y l1]; simpl in H; inv H.
    + left. exists p. auto.
    + apply IH in H2. destruct H2 as [[m [-> ->]]|[m [-> ->]]].
      * left. exists m. auto.
      * right. exists m. auto.
Qed.
Lemma split_flat_map : forall A B (h : A -> list B) l l1 b l2, flat_map h l = l1 ++ b :: l2 ->
  exists k1 a k2 m1 m2, l = k1 ++ a :: k2 /\ h a = m1 ++ b :: m2 /\ l1 = flat_map h k1 ++ m1 /\ l2 = m2 ++ flat_map h k2.
Proof.
  induction l as [|x l IH]; intros l1 b l2 H; simpl in H.
  - destruct l1; discriminate.
  - destruct (list_eq_split _ (h x) (flat_map h l) l1 b l2 H) as [[m [E1 E2]]|[m [E1 E2]]].
    + exists [], x, l, l1, m. split; [reflexivity|]. split; [exact E1|]. split; [reflexivity|exact E2].
    + destruct (IH _ _ _ E2) as (k1 & a & k2 & m1 & m2 & F1 & F2 & F3 & F4).
      exists (x :: k1), a, k2, m1, m2. split; [rewrite F1; reflexivity|]. split; [exact F2|].
      split; [rewrite E1, F3; simpl; rewrite app_assoc; reflexivity|exact F4].
Qed.

Definition followed (root : dom) (o : owner) (y : dom) (rest : list action) : Prop :=
  exists s, declared root s y /\ o = owner_of s /\
    forall x, In x (d_kids s) -> named "sequenceFlow" x -> In (AFlow o x) rest.
Lemma followed_app : forall root o y r r', followed root o y r -> followed root o y (r ++ r').
Proof.
  intros root o y r r' (s & D & E & H). exists s. split; [exact D|]. split; [exact E|].
  intros. apply in_or_app. left. auto.
Qed.
Lemma flow_actions_no_node : forall o s l1 o' y l2, flow_actions o s <> l1 ++ ANode o' y :: l2.
Proof.
  intros o s l1 o' y l2 E. assert (I : In (ANode o' y) (flow_actions o s)) by (rewrite E; apply in_elt).
  unfold flow_actions in I. apply in_flat_map in I. destruct I as [[g a ks|t|t] [_ I]].
  - destruct (_ =? _); [destruct I as [I|[]]; discriminate|destruct I].
  - destruct I.
  - destruct I as [I|[]]; discriminate.
Qed.
Lemma element_followed : forall root e s, scope root s -> In e (d_kids s) ->
  forall l1 o y l2, element_actions (owner_of s) e = l1 ++ ANode o y :: l2 ->
  (o = owner_of s /\ y = e /\ kind e) \/ followed root o y l2.
Proof.
  intros root. induction e as [g a ks IH|t|t] using dom_rect'; intros s Hs I l1 o y l2 E; cbn [element_actions] in E.
  - apply list_eq_split in E. destruct E as [[m [E1 E2]]|[m [E1 E2]]].
    + destruct (smem (local_name g) node_types) eqn:K; [|destruct l1; discriminate].
      destruct l1 as [|z l1]; [|destruct l1; discriminate]. inv E1. left. split; [reflexivity|].
      split; [reflexivity|]. apply kind_types. exact K.
    + destruct (String.eqb_spec (local_name g) t_subprocess) as [N|N]; [|destruct m; discriminate].
      assert (Hx : scope root (DElem g a ks)) by (eapply scope_sub; eauto).
      assert (O : owner_of (DElem g a ks) = InSubprocess (get_attribute k_id (DElem g a ks))) by (apply owner_sub; exact N).
      rewrite <- O in E2. right. apply list_eq_split in E2. destruct E2 as [[q [F1 F2]]|[q [F1 F2]]].
      * apply split_flat_map in F1. destruct F1 as (k1 & b & k2 & m1 & m2 & G1 & G2 & G3 & G4). subst.
        assert (Hb : In b (k1 ++ b :: k2)) by apply in_elt.
        rewrite Forall_forall in IH. destruct (IH b Hb _ Hx Hb _ _ _ _ G2) as [(O1 & Y1 & K1)|Fo].
        -- exists (DElem g a (k1 ++ b :: k2)). subst y. split; [split; [exact Hx|split; [exact Hb|exact K1]]|].
           split; [exact O1|]. intros x Ix Nx. apply in_or_app. right. rewrite O1. apply flow_in_scope; assumption.
        -- rewrite <- app_assoc. apply followed_app. exact Fo.
      * exfalso. eapply flow_actions_no_node. exact F2.
  - destruct l1; discriminate.
  - destruct l1 as [|z l1]; [discriminate|]. destruct l1; discriminate.
Qed.
Lemma core_followed : forall root l1 o y l2, core_actions root = l1 ++ ANode o y :: l2 -> followed root o y l2.
Proof.
  intros root l1 o y l2 E. unfold core_actions in E. apply list_eq_split in E. destruct E as [[m [E1 E2]]|[m [E1 E2]]].
  - apply split_flat_map in E1. destruct E1 as (k1 & p & k2 & m1 & m2 & G1 & G2 & G3 & G4).
    assert (Hp : In p (document_elements k_process root)) by (rewrite G1; apply in_elt).
    apply in_document in Hp. destruct Hp as [Ip Np]. rewrite process_scope in G2 by exact Np.
    assert (Hs : scope root p) by (apply scope_process; assumption).
    destruct m1 as [|z m1]; [discriminate|]. inv G2. unfold scope_actions in H1. apply list_eq_split in H1.
    destruct H1 as [[q [F1 F2]]|[q [F1 F2]]].
    + apply split_flat_map in F1. destruct F1 as (j1 & b & j2 & n1 & n2 & K1 & K2 & K3 & K4). subst.
      assert (Hb : In b (d_kids p)) by (rewrite K1; apply in_elt).
      destruct (element_followed root b p Hs Hb _ _ _ _ K2) as [(O1 & Y1 & Kb)|Fo].
      * exists p. subst y. split; [split; [exact Hs|split; [exact Hb|exact Kb]]|]. split; [exact O1|].
        intros x Ix Nx. rewrite <- !app_assoc. apply in_or_app. right. apply in_or_app. right. apply in_or_app. left.
        rewrite O1. apply flow_in_scope; assumption.
      * rewrite <- !app_assoc. apply followed_app. exact Fo.
    + exfalso. eapply flow_actions_no_node. exact F2.
  - exfalso. assert (I : In (ANode o y) (match document_elements t_collaboration root with [] => [] | c :: _ => collab_actions c end)).
    { rewrite E2. apply in_elt. }
    destruct (document_elements t_collaboration root) as [|c r]; [destruct I|]. destruct I as [I|I]; [discriminate|].
    apply in_flat_map in I. destruct I as [[g a ks|t|t] [_ I]].
    + destruct (_ =? _); [destruct I as [I|[]]; discriminate|]. destruct (_ =? _); [destruct I as [I|[]]; discriminate|destruct I].
    + destruct I.
    + destruct I as [I|[]]; discriminate.
Qed.
