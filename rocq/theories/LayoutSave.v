(** A diagram that was laid out can be saved if it could be saved before, up to coordinates
    and waypoints, which the layout provides. *)
From Coq Require Import String Ascii List Bool Arith ZArith Lia Permutation.
From Verif Require Import Py PyFacts Consts Nx NxFacts Rep SpecRep RepFacts SpecLayout Layouter.
From Verif Require LayoutFacts.
From Verif Require Import Xml Export Import SpecXml SpecRound SpecWrite.
Import ListNotations.
Open Scope string_scope.
Open Scope list_scope.

(** Everything the file needs except coordinates and waypoints. *)
Record nearly_writable (d : diagram) : Prop := {
  nw_parts : parts_writable d;
  nw_diagram : text (diag_attrs d) "id" /\ text (diag_attrs d) "name";
  nw_plane : text (plane_attrs d) "id" /\ text (plane_attrs d) "bpmnElement";
  nw_nodes : forall n a, In (n, a) (gnodes (dgraph d)) -> text a "width" /\ text a "height" /\ text a "type" /\
    (dget "type" a = Some (VStr "subProcess") -> text a "isExpanded");
  nw_flows : forall e, In e (gedges (dgraph d)) -> text (eat e) "id";
  nw_lanes : forall p a, In (p, a) (procs d) -> dget "laneSet" a = None \/
    exists s ls, dget "laneSet" a = Some (VLaneSet s ls) /\ forall i l, lane_in ls i l -> lane_geometry l <> None;
  nw_participants : forall c p a, collaboration d = Some c -> In (p, a) (co_participants c) ->
    text a "name" /\ text a "processRef" /\ text a "isHorizontal" /\ boxed a;
  nw_messages : forall c m r, collaboration d = Some c -> In (m, r) (co_messages c) ->
    exists e, In e (gedges (dgraph d)) /\ dget "id" (eat e) = Some (VStr m) }.

Section Laid.
Variables (fuel : nat) (d d' : diagram).
Hypothesis Co : coherent d.
Hypothesis W : gwf (dgraph d).
Hypothesis H : generate_layout fuel d = (d', Ok tt).

Lemma laid_kept : LayoutFacts.kept d d'.
Proof using All. pose proof (LayoutFacts.kept_layout fuel d) as K. rewrite H in K. exact K. Qed.
Lemma laid_attr : forall n k, k <> "x" -> k <> "y" -> attr d' n k = attr d n k.
Proof using All. apply laid_kept. Qed.
Lemma laid_keys : forall n, is_node d' n <-> is_node d n.
Proof using All. intros n. unfold is_node. rewrite (proj1 laid_kept). tauto. Qed.
Lemma laid_rest : same_rest d d'.
Proof using All. apply laid_kept. Qed.
Lemma laid_edge : forall e', In e' (gedges (dgraph d')) -> exists e, In e (gedges (dgraph d)) /\ eu e' = eu e /\ ev e' = ev e /\
  forall k, k <> "waypoints" -> dget k (eat e') = dget k (eat e).
Proof using All.
  intros e' He. destruct laid_kept as [_ [_ [F _]]]. destruct (Forall2_in_r _ _ _ _ _ _ F He) as [e [Ie [A [B C]]]]. exists e. split; auto.
  split; auto. split; auto. intros k Hk. apply C. intros [X|[]]. congruence.
Qed.
Lemma laid_edge_back : forall e, In e (gedges (dgraph d)) -> exists e', In e' (gedges (dgraph d')) /\ eu e' = eu e /\ ev e' = ev e /\
  forall k, k <> "waypoints" -> dget k (eat e') = dget k (eat e).
Proof using All.
  intros e He. destruct laid_kept as [_ [_ [F _]]]. destruct (Forall2_in_l _ _ _ _ _ _ F He) as [e' [Ie [A [B C]]]]. exists e'. split; auto.
  split; auto. split; auto. intros k Hk. apply C. intros [X|[]]. congruence.
Qed.
Lemma laid_gwf : gwf (dgraph d').
Proof using All.
  destruct laid_kept as [K [_ [F _]]]. apply (LayoutFacts.gwf_same_ends (dgraph d)); auto.
  clear - F. induction F as [|e e' l l' [A [B _]] F IH]; cbn; [reflexivity|]. rewrite A, B, IH. reflexivity.
Qed.
Lemma laid_points : forall e, In e (gedges (dgraph d')) -> exists w, dget "waypoints" (eat e) = Some (VPoints w).
Proof using All.
  intros e He. destruct (LayoutFacts.layout_facts fuel d d' Co H) as [_ [s [b [g [d1 [_ [_ [_ [B [N [Pg [_ [P [K [Ed E5]]]]]]]]]]]]]]].
  assert (W1 : gwf (dgraph d1)) by (apply (LayoutFacts.gwf_same_ends (dgraph d)); auto; rewrite Ed; reflexivity).
  destruct (LayoutFacts.waypoints_ok d1 d' W1 E5) as [_ F]. destruct (Forall2_in_r _ _ _ _ _ _ F He) as [e0 [_ [_ [_ [_ [w [_ Hw]]]]]]]. eauto.
Qed.
Lemma laid_place : forall n, is_node d n -> exists x y, at_xy d' n x y.
Proof using All.
  intros n Hn. destruct (LayoutFacts.layout_facts fuel d d' Co H) as [_ [s [b [g [d1 [_ [_ [_ [B [N [Pg [_ [P _]]]]]]]]]]]]].
  destruct (P n Hn) as [c [_ [_ [_ [_ A]]]]]. eauto.
Qed.
(** Attribute dictionaries. *)
Lemma laid_node : forall n a', In (n, a') (gnodes (dgraph d')) -> exists a, In (n, a) (gnodes (dgraph d)) /\
  (forall k, k <> "x" -> k <> "y" -> dget k a' = dget k a) /\ text a' "x" /\ text a' "y".
Proof using All.
  intros n a' Ha. assert (E' : forall k, attr d' n k = dget k a').
  { intros k. unfold attr, node_of. rewrite (In_dget n a' (gnodes (dgraph d'))); [reflexivity|apply laid_gwf|exact Ha]. }
  assert (Hn : is_node d' n) by (apply in_map_iff; exists (n, a'); auto). apply laid_keys in Hn.
  pose proof Hn as Hn0. apply in_map_iff in Hn0. destruct Hn0 as [[n0 a] [Eq Ia]]. cbn in Eq. subst n0. exists a. split; auto.
  assert (E : forall k, attr d n k = dget k a).
  { intros k. unfold attr, node_of. rewrite (In_dget n a (gnodes (dgraph d))); [reflexivity|apply W|exact Ia]. }
  split; [intros k X Y; rewrite <- E', <- E; apply laid_attr; auto|].
  destruct (laid_place n Hn) as [x [y [X Y]]]. rewrite E' in X, Y. split; eexists; eauto.
Qed.
Lemma laid_lists : forall n, outgoing_of d' n = outgoing_of d n /\ incoming_of d' n = incoming_of d n.
Proof using All. intros n. unfold outgoing_of, incoming_of. rewrite !laid_attr by discriminate. auto. Qed.
Lemma laid_placed : forall p, placed d' p <-> placed d p.
Proof using All.
  destruct laid_rest as [_ [Pr _]]. intros p. split; induction 1 as [p Hp|n p A B _ IH].
  - apply placed_process. rewrite <- Pr. exact Hp.
  - apply (placed_sub d n p); auto; [rewrite <- A|rewrite <- B]; symmetry; apply laid_attr; discriminate.
  - apply placed_process. rewrite Pr. exact Hp.
  - apply (placed_sub d' n p); auto; rewrite laid_attr by discriminate; auto.
Qed.
Lemma laid_in_process : forall n, in_process d' n <-> in_process d n.
Proof using All.
  intros n. unfold in_process. split; intros [t [p [A [B [C D]]]]]; exists t, p; rewrite laid_placed in *;
    rewrite !laid_attr in * by discriminate; auto.
Qed.
Theorem laid_storable : storable d -> storable d'.
Proof using All.
  intros S. destruct laid_rest as [_ [Pr [_ [_ Cl]]]]. constructor.
  - apply laid_gwf.
  - rewrite Pr. apply S.
  - rewrite Cl. apply S.
  - intros n Hn. rewrite laid_attr by discriminate. apply (sb_types _ S). apply laid_keys. exact Hn.
  - intros n. rewrite !laid_attr by discriminate. rewrite Pr. apply S.
  - intros n t ds x. rewrite !laid_attr by discriminate. apply S.
  - intros n k l Hk. rewrite laid_attr by (destruct Hk; subst; discriminate). apply S. exact Hk.
  - intros e' p He P. destruct (laid_edge e' He) as [e [Ie [Eu [Ev A]]]]. rewrite A in P by discriminate.
    destruct (sb_flows _ S e p Ie P) as [f [u [v [[F1 [F2 [F3 F4]]] [Sp [O N]]]]]]. exists f, u, v. unfold flow_edge.
    rewrite !A by discriminate. rewrite Eu, Ev. rewrite (proj1 (laid_lists u)), (proj2 (laid_lists v)). unfold flow_edge. auto 10.
  - intros e1 e2 f H1 H2 D1 D2. destruct (laid_edge e1 H1) as [o1 [I1 [U1 [V1 A1]]]]. destruct (laid_edge e2 H2) as [o2 [I2 [U2 [V2 A2]]]].
    rewrite A1 in D1 by discriminate. rewrite A2 in D2 by discriminate. pose proof (sb_edge_ids _ S o1 o2 f I1 I2 D1 D2) as E. subst o2.
    apply (gwf_unique (dgraph d')); auto; [apply laid_gwf|]. rewrite U1, V1. unfold connects. rewrite U2, V2, !eqb_refl'. reflexivity.
  - rewrite Cl. intros c m r Hc Hm. destruct (sb_messages _ S c m r Hc Hm) as [A [B C]].
    rewrite (proj1 (laid_lists (fl_src r))), (proj2 (laid_lists (fl_tgt r))). split; auto. split; auto.
    intros e' p He P. destruct (laid_edge e' He) as [e [Ie [Eu [Ev X]]]]. rewrite X in P by discriminate. rewrite Eu, Ev. eapply C; eauto.
  - rewrite Cl. intros c p a t Hc Hp Hr. rewrite laid_attr by discriminate. eapply (sb_participants _ S); eauto.
Qed.
Theorem laid_complete : complete d -> complete d'.
Proof using All.
  intros C. destruct laid_rest as [_ [_ [_ [_ Cl]]]]. constructor.
  - intros n. rewrite laid_keys, laid_in_process. unfold black_box. rewrite Cl. apply (cp_nodes _ C).
  - intros e' He. destruct (laid_edge e' He) as [e [Ie [Eu [Ev A]]]]. rewrite A by discriminate. rewrite Eu, Ev, Cl.
    destruct (cp_flows _ C e Ie) as [[p [P Q]]|X]; [|auto]. left. exists p. split; auto. apply laid_placed. exact Q.
  - rewrite Cl. intros c m r Hc Hm. destruct (cp_messages _ C c m r Hc Hm) as [e [Ie [S D]]].
    destruct (laid_edge_back e Ie) as [e' [He [Eu [Ev A]]]]. exists e'. rewrite Eu, Ev, A by discriminate. auto.
Qed.
Theorem laid_writable : nearly_writable d -> writable d'.
Proof using All.
  intros N. destruct laid_rest as [_ [Pr [Dg [Pl Cl]]]].
  assert (Sc : forall p, is_scope d' p -> is_scope d p).
  { intros p [S|S]; [left; rewrite <- Pr; exact S|right; rewrite <- S; symmetry; apply laid_attr; discriminate]. }
  constructor.
  - constructor.
    + intros n a' Ha. destruct (laid_node n a' Ha) as [a [Ia [E _]]]. rewrite E by discriminate. eapply (pw_process _ (nw_parts _ N)); eauto.
    + intros n a' p Ha P S. destruct (laid_node n a' Ha) as [a [Ia [E _]]]. rewrite E in P by discriminate.
      destruct (pw_nodes _ (nw_parts _ N) n a p Ia P (Sc p S)) as [t [T1 [T2 [T3 [T4 [T5 [T6 [T7 T8]]]]]]]].
      exists t. unfold text, listed in *. rewrite !E by discriminate. do 5 (split; [assumption|]). split; [|auto].
      intros k Hk. rewrite E; [auto| |]; intros ->; clear - Hk; unfold own_attributes in Hk;
        repeat match goal with H : In _ (match ?x with _ => _ end) |- _ => destruct x end; cbn in Hk; intuition discriminate.
    + intros n a' Ha T. destruct (laid_node n a' Ha) as [a [Ia [E _]]]. rewrite E in * by discriminate. eapply (pw_subs _ (nw_parts _ N)); eauto.
    + intros e' p He P S. destruct (laid_edge e' He) as [e [Ie [Eu [Ev A]]]]. rewrite A in P by discriminate.
      pose proof (pw_flows _ (nw_parts _ N) e p Ie P (Sc p S)) as F. unfold flow_writable, text in *. rewrite !A by discriminate. exact F.
    + rewrite Pr. apply (pw_processes _ (nw_parts _ N)).
  - rewrite Dg. apply N.
  - rewrite Pl. apply N.
  - intros n a' Ha. destruct (laid_node n a' Ha) as [a [Ia [E [X Y]]]]. destruct (nw_nodes _ N n a Ia) as [A [B [C D]]].
    split; [|split].
    + unfold boxed. unfold text in A, B |- *. rewrite !E by discriminate. auto.
    + unfold text in *. rewrite E by discriminate. exact C.
    + unfold text in *. rewrite !E by discriminate. exact D.
  - intros e' He. destruct (laid_edge e' He) as [e [Ie [_ [_ A]]]]. split.
    + unfold text. rewrite A by discriminate. apply (nw_flows _ N). exact Ie.
    + destruct (laid_points e' He) as [w P]. exists w. left. exact P.
  - rewrite Pr. apply N.
  - rewrite Cl. apply N.
  - rewrite Cl. intros c m r Hc Hm. destruct (nw_messages _ N c m r Hc Hm) as [e [Ie D]]. destruct (laid_edge_back e Ie) as [e' [He [_ [_ A]]]].
    exists e'. rewrite A by discriminate. auto.
Qed.
Theorem laid_rereadable : rereadable d -> rereadable d'.
Proof using All.
  intros R. destruct laid_rest as [_ [Pr _]]. assert (L : forall i l, lane_of d' i l -> lane_of d i l).
  { intros i l. unfold lane_of. rewrite Pr. auto. }
  constructor.
  - intros e' i He. destruct (laid_edge e' He) as [e [Ie [_ [_ A]]]]. rewrite A by discriminate. apply R. exact Ie.
  - intros i name child refs di X. eapply (rr_references _ R). apply L. exact X.
  - intros i l e' X He. destruct (laid_edge e' He) as [e [Ie [_ [_ A]]]]. rewrite A by discriminate. eapply (rr_lanes _ R); eauto.
Qed.
End Laid.
