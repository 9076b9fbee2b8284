(** The order of the calls does not matter for the shape of the diagram. *)
From Coq Require Import String List Bool Arith Lia Permutation.
From Verif Require Import Py PyFacts Consts Nx NxFacts Rep SpecRep RepFacts LayoutMetrics SpecLayoutMetrics Prop_LayoutMetrics SpecSame.
Import ListNotations.
Open Scope string_scope.
Open Scope list_scope.

Lemma recent_snoc : forall l o, recent (l ++ [o]) = match o with ONew _ _ => [] | _ => recent l ++ [o] end.
Proof. intros l o. unfold recent. rewrite fold_left_app. cbn [fold_left]. destruct o; reflexivity. Qed.

(** What one call does to types and flows. *)
Lemma node_call : forall o id d, node_id_of o = Some id ->
  exists a, fst (step o d) = put d id a /\ dget "type" a = Some (VStr (call_type o)).
Proof.
  intros o id d Hid. destruct (expected_node o) as [[id' ex]|] eqn:Ex.
  - destruct (expected_node_sound o id' ex d Ex) as [a [Es Hk]]. exists a. rewrite Es, Hk.
    destruct o; unfold expected_node in Ex; simpl in Hid; try discriminate;
      try (destruct (in_dec string_dec dir directions); [|discriminate]); inv Ex; inv Hid; split; reflexivity.
  - destruct (direction_of o) as [dir|] eqn:Ed; [|destruct o; simpl in *; discriminate].
    assert (Hnd : ~ In dir directions).
    { intro C. destruct o; simpl in Ed; try discriminate; inv Ed; unfold expected_node in Ex;
        (destruct (in_dec string_dec dir directions); [discriminate|contradiction]). }
    destruct (bad_direction o d dir id Ed Hid Hnd) as (a & msg & Es & _ & _ & A & _). exists a. rewrite Es, A.
    split; [reflexivity|]. destruct o; simpl in Ed; try discriminate; reflexivity.
Qed.

Record calls_made (l : list op) (d : diagram) : Prop := {
  cm_types : forall n t, attr d n "type" = Some (VStr t) <-> exists o, In o (recent l) /\ node_id_of o = Some n /\ call_type o = t;
  cm_flows : forall f nm s t, dget f (seq_flows d) = Some (mkFlow nm s t) <-> exists p u, In (OFlow p s t nm u) (recent l) /\ f = ("id" ++ u)%string }.

Lemma put_seq_flows : forall d n a, seq_flows (put d n a) = seq_flows d.
Proof. reflexivity. Qed.
Lemma calls_node : forall l d o id, inv_d d -> calls_made l d -> node_id_of o = Some id -> ~ is_node d id -> (forall x y, o <> ONew x y) ->
  calls_made (l ++ [o]) (fst (step o d)).
Proof.
  intros l d o id Inv [T F] Hid N Nn. destruct (node_call o id d Hid) as (a & -> & Ha).
  assert (R : recent (l ++ [o]) = recent l ++ [o]) by (rewrite recent_snoc; destruct o; try reflexivity; exfalso; eapply Nn; reflexivity).
  constructor.
  - intros n t. rewrite attr_put, R. destruct (String.eqb_spec n id) as [->|E].
    + rewrite Ha. split.
      * intros H. inv H. exists o. split; [apply in_or_app; right; left; reflexivity|]. auto.
      * intros (o' & I & Hi & Ht). apply in_app_or in I. destruct I as [I|[<-|[]]]; [|congruence].
        exfalso. apply N. eapply is_node_attr. apply T. exists o'. eauto.
    + rewrite T. split; intros (o' & I & Hi & Ht); exists o'; (split; [|auto]).
      * apply in_or_app. auto.
      * apply in_app_or in I. destruct I as [I|[<-|[]]]; auto. congruence.
  - intros f nm s t. rewrite put_seq_flows, R, F. split; intros (p & u & I & E); exists p, u; (split; [|exact E]).
    + apply in_or_app. auto.
    + apply in_app_or in I. destruct I as [I|[->|[]]]; auto. discriminate Hid.
Qed.
Lemma history_calls : forall l d, history l d -> calls_made l d.
Proof.
  induction 1 as [|l d o H IH A].
  - constructor; [intros n t|intros f nm s t]; (split; [discriminate|]); [intros (o & [] & _)|intros (p & u & [] & _)].
  - pose proof (inv_history _ _ H) as Inv.
    destruct o; simpl in A; try (eapply calls_node; [exact Inv|exact IH|reflexivity|exact A|intros x y; discriminate]).
    + constructor; rewrite recent_snoc; [intros n t|intros f nm s t]; (split; [discriminate|]); [intros (o & [] & _)|intros (p & q & [] & _)].
    + destruct IH as [T F]. constructor; rewrite recent_snoc.
      * intros n t. change (attr (fst (step (OProcess name closed executable ptype u1 u2) d)) n "type") with (attr d n "type"). rewrite T.
        split; intros (o & I & Hi & Ht); exists o; (split; [|auto]); [apply in_or_app; auto|].
        apply in_app_or in I. destruct I as [I|[<-|[]]]; auto. discriminate.
      * intros f nm s t. change (seq_flows (fst (step (OProcess name closed executable ptype u1 u2) d))) with (seq_flows d). rewrite F.
        split; intros (p & u & I & E); exists p, u; (split; [|exact E]); [apply in_or_app; auto|].
        apply in_app_or in I. destruct I as [I|[I|[]]]; auto. discriminate.
    + destruct A as (Hs & Ht & Hf). change (dget ("id" ++ u)%string (seq_flows d) = None) in Hf. destruct (inv_flow d pid src tgt name u Inv Hs Ht Hf) as [w [E _]]. rewrite E. cbn [fst].
      destruct (inv_n d Inv src Hs) as (_ & _ & _ & [lo Ho] & _). destruct (inv_n d Inv tgt Ht) as (_ & _ & [li Hi] & _).
      destruct IH as [T F]. constructor; rewrite recent_snoc.
      * intros n t. rewrite (attr_flow_result d pid src tgt name u (VPoints w) lo li n "type" Ho Hi).
        replace ("type" =? "outgoing") with false by reflexivity. replace ("type" =? "incoming") with false by reflexivity.
        rewrite !andb_false_r, T. split; intros (o & I & Hj & Hk); exists o; (split; [|auto]); [apply in_or_app; auto|].
        apply in_app_or in I. destruct I as [I|[<-|[]]]; auto. discriminate.
      * intros f nm s t. cbn [seq_flows flow_result]. rewrite dget_dset. destruct (String.eqb_spec f ("id" ++ u)) as [->|Nf].
        -- split.
           ++ intros Q. inv Q. exists pid, u. split; [apply in_or_app; right; left|]; reflexivity.
           ++ intros (p & u' & I & Eu). apply in_app_or in I. destruct I as [I|[I|[]]]; [|inv I; reflexivity].
              exfalso. assert (Q : dget ("id" ++ u)%string (seq_flows d) = Some (mkFlow nm s t)) by (apply F; eauto). congruence.
        -- rewrite F. split; intros (p & u' & I & Eu); exists p, u'; (split; [|exact Eu]); [apply in_or_app; auto|].
           apply in_app_or in I. destruct I as [I|[I|[]]]; auto. inv I. contradiction.
Qed.

Section Order.
Variables (l l' : list op) (d d' : diagram).
Hypothesis H : history l d.
Hypothesis H' : history l' d'.
Hypothesis P : Permutation (recent l) (recent l').
Lemma order_types : forall n, attr d' n "type" = attr d n "type".
Proof using H H' P.
  pose proof (history_calls _ _ H) as [T _]. pose proof (history_calls _ _ H') as [T' _].
  assert (E : forall n t, attr d' n "type" = Some (VStr t) <-> attr d n "type" = Some (VStr t)).
  { intros n t. rewrite T, T'. split; intros (o & I & R); exists o; (split; [|exact R]); (eapply Permutation_in; [|exact I]); [symmetry|]; exact P. }
  intros n. destruct (in_dec string_dec n (map fst (gnodes (dgraph d)))) as [I|I].
  - destruct (inv_n _ (inv_history _ _ H) n I) as (_ & [t A] & _). rewrite A. apply E. exact A.
  - destruct (attr d n "type") as [v|] eqn:A; [exfalso; apply I; eapply is_node_attr; eauto|].
    destruct (attr d' n "type") as [v|] eqn:A'; auto.
    pose proof (is_node_attr _ _ _ _ A') as I'. destruct (inv_n _ (inv_history _ _ H') n I') as (_ & [t B] & _).
    apply E in B. congruence.
Qed.
Lemma order_nodes : forall n, is_node d' n <-> is_node d n.
Proof using H H' P.
  intros n. split; intros I.
  - destruct (inv_n _ (inv_history _ _ H') n I) as (_ & [t B] & _). rewrite order_types in B. eapply is_node_attr; eauto.
  - destruct (inv_n _ (inv_history _ _ H) n I) as (_ & [t B] & _). rewrite <- order_types in B. eapply is_node_attr; eauto.
Qed.
Lemma order_flows : forall f r, dget f (seq_flows d') = Some r <-> dget f (seq_flows d) = Some r.
Proof using H H' P.
  pose proof (history_calls _ _ H) as [_ F]. pose proof (history_calls _ _ H') as [_ F'].
  intros f [nm s t]. rewrite F, F'. split; intros (p & u & I & R); exists p, u; (split; [|exact R]); (eapply Permutation_in; [|exact I]); [symmetry|]; exact P.
Qed.
End Order.
Lemma flows_linked : forall l d, history l d -> forall u v, linked d u v <-> exists f r, dget f (seq_flows d) = Some r /\ same_pair (fl_src r) (fl_tgt r) u v.
Proof.
  intros l d H u v. pose proof (inv_history _ _ H) as [Ig In_ If Ib [E1 E2]]. split.
  - intros (e & I & S). destruct (E1 e I) as (f & r & _ & _ & L & Sp & _). exists f, r. split.
    + apply In_dget; auto. apply live_in. exact L.
    + eapply same_pair_trans; [apply same_pair_sym; exact Sp|exact S].
  - intros (f & r & G & S). destruct (E2 f r G) as (e & I & Sp). exists e. split; auto. eapply same_pair_trans; eauto.
Qed.
Lemma first_flows : forall l d, history l d -> forall n, incoming_of d n = [] <-> forall f r, dget f (seq_flows d) = Some r -> fl_tgt r <> n.
Proof.
  intros l d H n. pose proof (inv_b _ (inv_history _ _ H)) as (B1 & _ & B3). split.
  - intros E f r G <-. destruct (B1 f r G) as (_ & _ & _ & C). rewrite E in C. discriminate C.
  - intros N. destruct (incoming_of d n) as [|f t] eqn:E; auto. destruct (B3 n f) as (r & G & Q); [rewrite E; left; reflexivity|].
    exfalso. apply (N f r G Q).
Qed.
Lemma last_flows : forall l d, history l d -> forall n, outgoing_of d n = [] <-> forall f r, dget f (seq_flows d) = Some r -> fl_src r <> n.
Proof.
  intros l d H n. pose proof (inv_b _ (inv_history _ _ H)) as (B1 & B2 & _). split.
  - intros E f r G <-. destruct (B1 f r G) as (_ & _ & C & _). rewrite E in C. discriminate C.
  - intros N. destruct (outgoing_of d n) as [|f t] eqn:E; auto. destruct (B2 n f) as (r & G & Q); [rewrite E; left; reflexivity|].
    exfalso. apply (N f r G Q).
Qed.
Lemma order_shape : forall l l' d d', history l d -> history l' d' -> Permutation (recent l) (recent l') -> same_shape d d'.
Proof.
  intros l l' d d' H H' P. constructor.
  - apply (order_nodes l l'); auto.
  - apply (order_types l l'); auto.
  - intros u v. rewrite (flows_linked _ _ H), (flows_linked _ _ H').
    split; intros (f & r & G & S); exists f, r; (split; [|exact S]); apply (order_flows l l' d d'); auto.
Qed.
Lemma order_ways : forall l l' d d', history l d -> history l' d' -> Permutation (recent l) (recent l') -> distinct_pairs d ->
  same_ways d d' /\ distinct_pairs d'.
Proof.
  intros l l' d d' H H' P D. pose proof (order_flows l l' d d' H H' P) as F.
  assert (D' : distinct_pairs d').
  { intros f1 r1 f2 r2 G1 G2 S. apply F in G1. apply F in G2. eapply D; eauto. }
  split; [|exact D']. constructor.
  - apply (order_nodes l l'); auto.
  - apply (order_types l l'); auto.
  - intros n. rewrite (first_flows _ _ H), (first_flows _ _ H'). split; intros N f r G; apply (N f r); apply F; exact G.
  - intros n. rewrite (last_flows _ _ H), (last_flows _ _ H'). split; intros N f r G; apply (N f r); apply F; exact G.
  - intros n m. rewrite (proj2 (C23_api_diagrams_consistent _ _ H D)), (proj2 (C23_api_diagrams_consistent _ _ H' D')).
    split; intros (f & r & G & S); exists f, r; (split; [|exact S]); apply F; exact G.
Qed.
