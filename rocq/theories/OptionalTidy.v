(** The process that the second file describes: conditions and the names of end events removed, at every node the flows to a
    join behind the others. *)
From Coq Require Import String Ascii List Bool Arith ZArith Lia Permutation.
From Verif Require Import Py PyFacts Consts Nx NxFacts Rep SpecRep RepFacts MetricsFacts SpecLayout.
From Verif Require Import CsvImport SpecCsv SpecFlow CsvExport SpecCsvExport SpecBlocks BlockExport SpecFlat FlatLines SpecOptional SpecAgain SpecLoose OptionalAgain.
From Verif Require Import Prop_CsvBlocks Prop_CsvFlat Prop_CsvOptional Prop_CsvAgain.
From Verif Require Import LayoutFacts SpecOptional SpecAgain.
Import ListNotations.
Open Scope string_scope.
Open Scope list_scope.

Definition to_join (d : diagram) (f : string) : bool :=
  match get_flow_by_id f d with
  | Ok (Some t) => match dget "targetRef" (snd t) with Some (VStr m) => Nat.leb 2 (length (incoming_of d m)) | _ => false end
  | _ => false
  end.
Definition joins_last (d : diagram) (l : list string) : list string :=
  filter (fun f => negb (to_join d f)) l ++ filter (to_join d) l.
Definition tidy_out (d : diagram) (a : attrs) : attrs :=
  match dget "outgoing" a with Some (VList l) => dset "outgoing" (VList (joins_last d l)) a | _ => a end.
Definition tidy_name (a : attrs) : attrs :=
  match dget "type" a with
  | Some (VStr t) => if String.eqb t "endEvent" then dset "node_name" (VStr "") (dset "event_definitions" (VDefs []) a) else a
  | _ => a
  end.
Definition tidy_node (d : diagram) (a : attrs) : attrs := tidy_out d (tidy_name (dset "default" VNone a)).
Definition tidy_edge (e : edge) : edge := mkEdge (eu e) (ev e) (dset "name" VNone (eat e)).
Definition tidy (d : diagram) : diagram :=
  mkDiagram (mkGraph (map (fun p => (fst p, tidy_node d (snd p))) (gnodes (dgraph d))) (map tidy_edge (gedges (dgraph d))))
    (seq_flows d) (procs d) (diag_attrs d) (plane_attrs d) (collaboration d).

(** * What is the same *)
Lemma dget_mapped : forall A B (h : A -> B) n l, dget n (map (fun p => (fst p, h (snd p))) l) = match dget n l with Some a => Some (h a) | None => None end.
Proof. intros A B h n. induction l as [|[k a] l IH]; [reflexivity|]. cbn [map dget fst snd]. destruct (String.eqb _ _); auto. Qed.
Lemma tidy_keys : forall d, map fst (gnodes (dgraph (tidy d))) = map fst (gnodes (dgraph d)).
Proof. intros d. cbn [tidy dgraph gnodes]. rewrite map_map. reflexivity. Qed.
Lemma tidy_is : forall d n, is_node (tidy d) n <-> is_node d n.
Proof. intros d n. unfold is_node. rewrite tidy_keys. reflexivity. Qed.
Lemma tidy_attr : forall d n k, attr (tidy d) n k = match node_of d n with Some a => dget k (tidy_node d a) | None => None end.
Proof. intros d n k. unfold attr, node_of. cbn [tidy dgraph gnodes]. rewrite dget_mapped. destruct (dget n _); reflexivity. Qed.
Lemma name_other : forall a k, k <> "node_name" -> k <> "event_definitions" -> dget k (tidy_name a) = dget k a.
Proof.
  intros a k N E. unfold tidy_name. destruct (dget "type" a) as [[]|]; auto. destruct (String.eqb _ _); auto. rewrite !dget_dset_ne by congruence. reflexivity.
Qed.
Lemma tidy_other : forall d a k, k <> "node_name" -> k <> "event_definitions" -> k <> "default" -> k <> "outgoing" -> dget k (tidy_node d a) = dget k a.
Proof.
  intros d a k N E D O. unfold tidy_node, tidy_out. destruct (dget "outgoing" (tidy_name _)) as [[]|]; try rewrite dget_dset_ne by congruence;
    rewrite name_other by auto; rewrite dget_dset_ne by congruence; reflexivity.
Qed.
Lemma tidy_attr_other : forall d n k, k <> "node_name" -> k <> "event_definitions" -> k <> "default" -> k <> "outgoing" -> attr (tidy d) n k = attr d n k.
Proof. intros d n k N E D O. rewrite tidy_attr. unfold attr. destruct (node_of d n); auto. apply tidy_other; auto. Qed.
Lemma tidy_typed : forall d n t, typed (tidy d) n t <-> typed d n t.
Proof. intros d n t. unfold typed. rewrite tidy_attr_other by discriminate. reflexivity. Qed.
Lemma tidy_is_type : forall d n t, is_type (tidy d) n t = is_type d n t.
Proof. intros d n t. unfold is_type. rewrite tidy_attr_other by discriminate. reflexivity. Qed.
Lemma tidy_incoming : forall d n, incoming_of (tidy d) n = incoming_of d n.
Proof. intros d n. unfold incoming_of. rewrite tidy_attr_other by discriminate. reflexivity. Qed.
Lemma tidy_outgoing : forall d n, outgoing_of (tidy d) n = joins_last d (outgoing_of d n).
Proof.
  intros d n. unfold outgoing_of. rewrite tidy_attr. unfold attr. destruct (node_of d n) as [a|]; [|reflexivity].
  assert (E : dget "outgoing" (tidy_name (dset "default" VNone a)) = dget "outgoing" a).
  { rewrite name_other by discriminate. rewrite dget_dset_ne by discriminate. reflexivity. }
  unfold tidy_node, tidy_out. rewrite E. destruct (dget "outgoing" a) as [[]|] eqn:O; rewrite ?dget_dset_eq; try rewrite E; reflexivity.
Qed.
Lemma tidy_default : forall d g f, default_branch (tidy d) g f = false.
Proof.
  intros d g f. unfold default_branch. rewrite tidy_attr. destruct (node_of d g) as [a|]; [|reflexivity].
  assert (E : dget "default" (tidy_node d a) = Some VNone); [|rewrite E; reflexivity].
  unfold tidy_node, tidy_out. destruct (dget "outgoing" (tidy_name _)) as [[]|]; try rewrite dget_dset_ne by discriminate;
    rewrite name_other by discriminate; apply dget_dset_eq.
Qed.
(** Names and event definitions. *)
Lemma tidy_names : forall d n k, k = "node_name" \/ k = "event_definitions" -> ~ typed d n "endEvent" -> attr (tidy d) n k = attr d n k.
Proof.
  intros d n k K N. rewrite tidy_attr. unfold typed, attr in *. destruct (node_of d n) as [a|]; [|reflexivity].
  assert (E : dget k (tidy_name (dset "default" VNone a)) = dget k a).
  { unfold tidy_name. rewrite dget_dset_ne by discriminate. assert (D : k <> "default") by (destruct K; subst; discriminate).
    destruct (dget "type" a) as [[|t| | | | |]|] eqn:T; try (apply dget_dset_ne; congruence).
    destruct (String.eqb t "endEvent") eqn:Q; [|apply dget_dset_ne; congruence]. apply String.eqb_eq in Q. subst. contradiction. }
  unfold tidy_node, tidy_out. destruct (dget "outgoing" (tidy_name _)) as [[]|]; auto. rewrite dget_dset_ne by (destruct K; subst; discriminate). exact E.
Qed.
Lemma tidy_bare : forall d n, typed d n "endEvent" -> attr (tidy d) n "node_name" = Some (VStr "") /\ attr (tidy d) n "event_definitions" = Some (VDefs []).
Proof.
  intros d n T. rewrite !tidy_attr. unfold typed, attr in *. destruct (node_of d n) as [a|]; [|discriminate].
  assert (E : forall k v, k <> "outgoing" -> dget k (tidy_name (dset "default" VNone a)) = v -> dget k (tidy_node d a) = v).
  { intros k v K H. unfold tidy_node, tidy_out. destruct (dget "outgoing" (tidy_name _)) as [[]|]; auto. rewrite dget_dset_ne by congruence. exact H. }
  assert (F : tidy_name (dset "default" VNone a) = dset "node_name" (VStr "") (dset "event_definitions" (VDefs []) (dset "default" VNone a))).
  { unfold tidy_name. rewrite dget_dset_ne by discriminate. rewrite T. reflexivity. }
  split; apply E; try discriminate; rewrite F; [apply dget_dset_eq|]. rewrite dget_dset_ne by discriminate. apply dget_dset_eq.
Qed.
Lemma end_dec : forall d n, typed d n "endEvent" \/ ~ typed d n "endEvent".
Proof.
  intros d n. destruct (typed_b d n "endEvent") eqn:E; [left; apply typed_ok; auto|right]. intros T. unfold typed_b in E. red in T. rewrite T in E. discriminate.
Qed.

(** * Flows *)
Definition tidy_flow (t : string * string * attrs) : string * string * attrs := (fst t, dset "name" VNone (snd t)).
Lemma incident_tidy : forall n es, incident n (map tidy_edge es) = map (fun p => (fst p, dset "name" VNone (snd p))) (incident n es).
Proof.
  intros n. induction es as [|x es IH]; [reflexivity|]. unfold incident in *. cbn [map flat_map]. rewrite map_app, IH. f_equal. cbn [tidy_edge eu ev eat].
  destruct (String.eqb (eu x) n); [reflexivity|]. destruct (String.eqb (ev x) n); reflexivity.
Qed.
Lemma edges_tidy : forall es ns seen, edges_from ns seen (map tidy_edge es) = map tidy_flow (edges_from ns seen es).
Proof.
  intros es. induction ns as [|n ns IH]; intros seen; [reflexivity|]. cbn [edges_from]. rewrite map_app, IH. f_equal. rewrite incident_tidy.
  generalize (incident n es). induction l as [|p l IHl]; [reflexivity|]. cbn [map filter fst]. destruct (negb (smem (fst p) seen)); cbn [map fst snd]; rewrite IHl; reflexivity.
Qed.
Lemma tidy_flows : forall d, get_flows (tidy d) = map tidy_flow (get_flows d).
Proof. intros d. unfold get_flows, edges_view, dkeys. rewrite tidy_keys. cbn [tidy dgraph gedges]. apply edges_tidy. Qed.
Lemma tidy_by_id : forall d f, get_flow_by_id f (tidy d) = match get_flow_by_id f d with Ok (Some t) => Ok (Some (tidy_flow t)) | r => r end.
Proof.
  intros d f. unfold get_flow_by_id. rewrite tidy_flows. generalize (get_flows d). induction l as [|t l IH]; [reflexivity|].
  cbn [map first_flow]. unfold dgetE. cbn [tidy_flow snd]. change k_id with "id". rewrite dget_dset_ne by discriminate. destruct (dget "id" (snd t)); cbn [rbind]; [|reflexivity].
  destruct (veqs p f); auto.
Qed.
Lemma tidy_goes : forall d f n m, flow_goes d f n m -> flow_goes (tidy d) f n m.
Proof.
  intros d f n m [t [H [S T]]]. exists (tidy_flow t). rewrite tidy_by_id, H. split; auto. cbn [tidy_flow snd]. rewrite !dget_dset_ne by discriminate. auto.
Qed.
Lemma tidy_flow_text : forall d f, flow_text (tidy d) f = "".
Proof.
  intros d f. unfold flow_text. rewrite tidy_by_id. destruct (get_flow_by_id f d) as [[t|]|]; auto. cbn [tidy_flow snd]. rewrite dget_dset_eq. reflexivity.
Qed.
Lemma tidy_marks : forall d g f, branch_mark (tidy d) g f = "" /\ condition_text (tidy d) g f = "".
Proof.
  intros d g f. unfold branch_mark, condition_text. rewrite tidy_default, tidy_flow_text, andb_false_r. destruct (is_type _ _ _); auto.
Qed.
Lemma goes_join : forall d f n m, flow_goes d f n m -> (to_join d f = true <-> join_node d m).
Proof. intros d f n m [t [H [S T]]]. unfold to_join, join_node. rewrite H, T. apply Nat.leb_le. Qed.

Lemma joins_perm : forall d l, Permutation (joins_last d l) l.
Proof.
  intros d l. unfold joins_last. induction l as [|f l IH]; [constructor|]. cbn [filter]. destruct (to_join d f); cbn [negb].
  - apply Permutation_sym, Permutation_cons_app, Permutation_sym, IH.
  - cbn [app]. constructor. exact IH.
Qed.
Lemma joins_one : forall d f, joins_last d [f] = [f].
Proof. intros d f. unfold joins_last. cbn [filter]. destruct (to_join d f); reflexivity. Qed.

(** * The structure *)
Lemma tidy_join : forall d n, join_node (tidy d) n <-> join_node d n.
Proof. intros d n. unfold join_node. rewrite tidy_incoming. reflexivity. Qed.
Lemma tidy_only : forall d n m, only_to d n m -> only_to (tidy d) n m.
Proof.
  intros d n m [N [f [O G]]]. split; [apply tidy_is; auto|]. exists f. rewrite tidy_outgoing, O, joins_one. split; auto. apply tidy_goes; auto.
Qed.
Lemma tidy_way : forall d ps x y, way d x ps y -> way (tidy d) x ps y.
Proof.
  intros d. induction ps as [|p ps IH]; intros x y H; [exact H|]. destruct H as [E [z [O W]]]. split; auto. exists z. split; [apply tidy_only; auto|auto].
Qed.
Lemma tidy_coherent : forall d, coherent d -> coherent (tidy d).
Proof.
  intros d [[U L] [N [O I]]]. split; [split|split; [|split]].
  - unfold unique_ids. rewrite tidy_keys. exact U.
  - intros n H. apply (proj1 (tidy_is d n)) in H. destruct (L n H) as [[t T] [[l1 I1] [l2 O2]]]. rewrite !tidy_attr_other by discriminate. split; [eauto|]. split; [eauto|].
    rewrite tidy_attr. unfold attr in O2. destruct (node_of d n) as [a|]; [|discriminate].
    unfold tidy_node, tidy_out. assert (E : dget "outgoing" (tidy_name (dset "default" VNone a)) = Some (VList l2)).
    { rewrite name_other by discriminate. rewrite dget_dset_ne by discriminate. exact O2. }
    rewrite E, dget_dset_eq. eauto.
  - intros n H. apply (proj1 (tidy_is d n)) in H. rewrite tidy_incoming, tidy_outgoing. destruct (N n H) as [A B]. split; auto.
    exact (Permutation_NoDup (Permutation_sym (joins_perm d _)) B).
  - intros n f H. rewrite tidy_outgoing in H. apply (Permutation_in _ (joins_perm d _)) in H. destruct (O n f H) as [m [G J]].
    exists m. rewrite tidy_incoming. split; auto. apply tidy_goes; auto.
  - intros m f H. rewrite tidy_incoming in H. destruct (I m f H) as [n [G J]]. exists n. rewrite tidy_outgoing. split; [apply tidy_goes; auto|].
    exact (Permutation_in _ (Permutation_sym (joins_perm d _)) J).
Qed.
Lemma tidy_well : forall d, well_named d -> well_named (tidy d).
Proof.
  intros d W n H. apply (proj1 (tidy_is d n)) in H. destruct (W n H) as [N E]. unfold named in *. destruct (end_dec d n) as [T|T].
  - destruct (tidy_bare d n T) as [A B]. rewrite A, B. split; eauto.
  - rewrite !tidy_names by auto. auto.
Qed.
Lemma tidy_labelled : forall d, labelled (tidy d).
Proof.
  intros d t v H E. rewrite tidy_flows in H. apply in_map_iff in H. destruct H as [t0 [<- _]]. cbn [tidy_flow snd] in E. rewrite dget_dset_eq in E. left. congruence.
Qed.
Lemma tidy_opens : forall d g j f b, opens_branch d g j f b -> opens_branch (tidy d) g j f b.
Proof.
  intros d g j f b [[x [N [G W]]] [C E]]. split; [|split; auto].
  - exists x. split; [apply tidy_is; auto|]. split; [apply tidy_goes; auto|apply tidy_way; auto].
  - intros e H. destruct (E e H) as [[A B] D]. split; [split; [apply tidy_is; auto|apply tidy_typed; auto]|]. rewrite tidy_join. auto.
Qed.
Lemma tidy_contains_act : forall d n, contains d (Act n) -> contains (tidy d) (Act n).
Proof.
  intros d n H. inversion H as [n0 [N T] J E|]; subst. apply in_act; [|rewrite tidy_join; auto]. split; [apply tidy_is; auto|]. rewrite !tidy_typed. exact T.
Qed.
Lemma tidy_gateway : forall d n, gateway_node d n -> gateway_node (tidy d) n.
Proof. intros d n [N [t [T I]]]. split; [apply tidy_is; auto|]. exists t. rewrite tidy_typed. auto. Qed.
Lemma tidy_contains_block : forall d g j bs, optional_part (Block g j bs) -> contains d (Block g j bs) -> contains (tidy d) (Block g j (direct_last bs)).
Proof.
  intros d g j bs Op H. inversion H as [|g0 j0 bs0 Gg Jg Sg Lb Gj Jj F [b0 [B1 [B2 B3]]] Hc E]; subst. apply in_block.
  - apply tidy_gateway; auto.
  - rewrite tidy_join; auto.
  - unfold split_node. rewrite tidy_outgoing, (Permutation_length (joins_perm d _)). exact Sg.
  - rewrite direct_last_len. exact Lb.
  - apply tidy_gateway; auto.
  - rewrite tidy_join; auto.
  - rewrite tidy_outgoing.
    assert (X : Forall2 (fun f b => opens_branch (tidy d) g j f b /\ to_join d f = is_direct b) (outgoing_of d g) bs).
    { revert Hc. clear - F Jj. intros Hc. induction F as [|f b fs bs Hf F IH]; constructor; [|apply IH; intros; eapply Hc; eauto; right; auto].
      split; [apply tidy_opens; auto|]. destruct Hf as [[x [N [G W]]] [C E]]. apply eq_true_iff_eq. rewrite (goes_join d f g x G), is_direct_spec.
      destruct b as [[|p qs] st]; cbn [fst snd way arrives] in *.
      - subst x. destruct st as [e|]; unfold direct; split; intros Q; auto; [|discriminate]. destruct (E e eq_refl) as [_ J]. contradiction.
      - destruct W as [-> _]. assert (Hp : contains d p) by (apply (Hc (p :: qs, st) p); left; auto).
        unfold direct. split; intros Q; [|discriminate]. inversion Hp; subst; contradiction. }
    unfold joins_last, direct_last. apply Forall2_app.
    + assert (Y := forall2_filter _ _ _ (fun f => negb (to_join d f)) (fun b => negb (is_direct b)) _ _ X).
      eapply Forall2_impl; [|apply Y; intros x y [_ Q]; rewrite Q; reflexivity]. intros a b [Q _]. exact Q.
    + assert (Y := forall2_filter _ _ _ (to_join d) is_direct _ _ X).
      eapply Forall2_impl; [|apply Y; intros x y [_ Q]; rewrite Q; reflexivity]. intros a b [Q _]. exact Q.
  - exists b0. rewrite direct_last_in. auto.
  - intros b p Hb Hp. rewrite direct_last_in in Hb. destruct Op as [_ [_ [Fl _]]]. destruct (Fl b Hb) as [[A _]|D].
    + destruct (A p Hp) as [n ->]. apply tidy_contains_act. eapply Hc; eauto.
    + red in D. subst b. destruct Hp.
Qed.
Lemma move_first : forall p, first_of (move_direct p) = first_of p.
Proof. intros [n|g j bs]; reflexivity. Qed.
Lemma move_last : forall p, last_of (move_direct p) = last_of p.
Proof. intros [n|g j bs]; reflexivity. Qed.
Lemma move_way : forall d ps x y, way d x ps y -> way d x (map move_direct ps) y.
Proof.
  intros d. induction ps as [|p ps IH]; intros x y H; [exact H|]. destruct H as [E [z [O W]]]. cbn [map way]. rewrite move_first, move_last. split; auto. exists z. auto.
Qed.
Lemma tidy_structured : forall d s ps e, structured d s ps e -> optional ps -> structured (tidy d) s (map move_direct ps) e.
Proof.
  intros d s ps e [Co [Wn [Lb [En [Ty [[x [O W]] [[Ee Te] Hc]]]]]]] [Op _]. split; [apply tidy_coherent; auto|]. split; [apply tidy_well; auto|].
  split; [apply tidy_labelled|]. split; [|split; [|split; [|split]]].
  - intros n. rewrite <- En. unfold entry_node. rewrite tidy_is, tidy_incoming. reflexivity.
  - apply tidy_typed; auto.
  - exists x. split; [apply tidy_only; auto|]. apply move_way, tidy_way; auto.
  - split; [apply tidy_is; auto|apply tidy_typed; auto].
  - intros p Hp. apply in_map_iff in Hp. destruct Hp as [[n|g j bs] [<- Hp]]; cbn [move_direct].
    + apply tidy_contains_act; auto.
    + apply tidy_contains_block; auto.
Qed.

(** * The lines *)
Lemma tidy_act_line : forall d p k c n, contains d (Act n) -> act_line (tidy d) p k "" n = kept_line (act_line d p k c n).
Proof.
  intros d p k c n H. apply same_act_line. inversion H as [n0 [N T] J E|]; subst. assert (Ne : ~ typed d n "endEvent") by (unfold typed in *; intros Q; destruct T; congruence).
  split; [apply tidy_attr_other; discriminate|apply tidy_names; auto].
Qed.
Lemma tidy_end_line : forall d p k c n, typed d n "endEvent" -> end_line (tidy d) p k "" n = kept_line (end_line d p k c n).
Proof.
  intros d p k c n T. destruct (tidy_bare d n T) as [A B]. apply bare_line. split; unfold event_word, node_text; rewrite ?B, ?A; reflexivity.
Qed.
Lemma tidy_acts : forall d p st, (forall e, st = Some e -> typed d e "endEvent") -> forall l k c, (forall q, In q l -> is_act q /\ contains d q) ->
  sequence_lines (tidy d) p k "" l st = map kept_line (sequence_lines d p k c l st).
Proof.
  intros d p st He. induction l as [|q l IH]; intros k c H; cbn [sequence_lines].
  - destruct st as [e|]; [|reflexivity]. cbn [map]. rewrite <- tidy_end_line; auto.
  - destruct (H q (or_introl eq_refl)) as [[n ->] C]. cbn [part_lines app map]. rewrite <- (tidy_act_line d p k c n C). f_equal. apply IH. intros; apply H; right; auto.
Qed.
Lemma tidy_branches : forall d p k g bs, (forall b, In b bs -> flat_branch b \/ direct b) -> (forall b q, In b bs -> In q (fst b) -> contains d q) ->
  (forall b e, In b bs -> snd b = Some e -> typed d e "endEvent") ->
  forall fs fs' i, length fs = length bs -> length fs' = length bs ->
  branches_lines (tidy d) p k g i fs' bs = map kept_line (branches_lines d p k g i fs bs).
Proof.
  intros d p k g. induction bs as [|b bs IH]; intros F C E fs fs' i L L'; destruct fs as [|f fs], fs' as [|f' fs']; try discriminate; [reflexivity|].
  cbn [branches_lines]. rewrite map_app. injection L as L. injection L' as L'. rewrite (IH (fun b H => F b (or_intror H)) (fun b q H => C b q (or_intror H)) (fun b e H => E b e (or_intror H)) fs fs' (S i) L L').
  f_equal. destruct (tidy_marks d g f') as [M1 M2]. destruct (F b (or_introl eq_refl)) as [[A [R _]]|D].
  - rewrite !branch_sequence by auto. rewrite M1. apply tidy_acts.
    + intros e He. apply (E b e); auto. left; auto.
    + intros q Hq. split; auto. apply (C b q); auto. left; auto.
  - red in D. subst b. cbn [branch_lines map]. rewrite M2. reflexivity.
Qed.
Lemma tidy_lines : forall d s ps e, structured d s ps e -> optional ps ->
  process_lines (tidy d) s (map move_direct ps) e = map kept_line (process_lines d s (map move_direct ps) e).
Proof.
  intros d s ps e St Op. destruct St as [Co [Wn [Lb [En [Ty [[x [O W]] [[Ee Te] Hc]]]]]]]. destruct Op as [Op _]. unfold process_lines. cbn [map]. f_equal.
  - assert (Ne : ~ typed d s "endEvent") by (unfold typed in *; congruence).
    unfold start_line, event_word, node_text. rewrite (tidy_names d s "event_definitions"), (tidy_names d s "node_name"), (tidy_attr_other d s "type") by (auto; discriminate). reflexivity.
  - clear O W En. revert Op Hc. generalize 1%Z. induction ps as [|p ps IH]; intros k Op Hc; cbn [map sequence_lines].
    + rewrite <- tidy_end_line; auto.
    + rewrite map_app. rewrite <- IH by (intros; first [apply Op | apply Hc]; right; auto). f_equal.
      specialize (Op p (or_introl eq_refl)). specialize (Hc p (or_introl eq_refl)). destruct p as [n|g j bs]; cbn [move_direct].
      * cbn [part_lines map]. rewrite <- tidy_act_line; auto.
      * rewrite !block_lines. inversion Hc as [|g0 j0 bs0 Gg Jg Sg Lb0 Gj Jj F Ex Hb E]; subst. pose proof (Forall2_len _ _ _ _ _ F) as Ln. apply tidy_branches.
        { intros b Hb'. rewrite direct_last_in in Hb'. apply Op. exact Hb'. }
        { intros b q Hb' Hq. rewrite direct_last_in in Hb'. eapply Hb; eauto. }
        { intros b e' Hb' He. rewrite direct_last_in in Hb'. destruct (Forall2_in_r _ _ _ _ _ _ F Hb') as [f [_ [_ [_ Q]]]]. destruct (Q e' He) as [[_ T] _]. exact T. }
        { rewrite direct_last_len. exact Ln. }
        { rewrite tidy_outgoing, (Permutation_length (joins_perm d _)), direct_last_len. exact Ln. }
Qed.
