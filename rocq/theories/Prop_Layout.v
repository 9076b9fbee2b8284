(** C25 - C33 and C65: the layouter. *)
From Coq Require Import String List Bool Arith ZArith Lia Permutation.
From Verif Require Import Py PyFacts Consts Nx NxFacts Rep SpecRep RepFacts MetricsFacts Prop_LayoutMetrics
  Classify Layouter SpecLayout ClassifyFacts TopoFacts GridFacts LayoutFacts LayoutFacts2.
Import ListNotations.
Open Scope string_scope.
Open Scope list_scope.

(** * C25: classification *)
Lemma labels_right : forall d c, listed d -> In c (classified d) -> right_labels d (cid c) (ccls c).
Proof.
  intros d c L H. apply classified_char in H; auto. destruct H as [t [base [Ht [Hb [_ [_ E]]]]]].
  rewrite E. unfold right_labels, join_node, split_node. rewrite Ht.
  unfold classified_types in Hb. cbn [In] in Hb.
  assert (A : forall a b : nat, Nat.leb a b = true <-> a <= b) by (intros; apply Nat.leb_le).
  pose proof (A 2 (length (incoming_of d (cid c)))) as AJ. pose proof (A 2 (length (outgoing_of d (cid c)))) as AS_. clear A.
  unfold c_element, c_join, c_split, c_start, c_end in *.
  repeat match type of Hb with
         | _ \/ _ => destruct Hb as [Hb|Hb]
         | False => contradiction
         end; injection Hb as <- <-;
  (destruct (Nat.leb 2 (length (incoming_of d (cid c)))), (Nat.leb 2 (length (outgoing_of d (cid c)))); cbn [app];
   (split; [repeat (constructor; [simpl; intuition discriminate|]); constructor|]);
   intro x; cbn [In];
   (split; [intros Hx; repeat (destruct Hx as [<-|Hx]; [tauto|]); contradiction
           |intros [->|[[-> Hx]|[[-> Hx]|[[-> Hx]|[-> Hx]]]]]; try tauto;
            try (injection Hx as Hx; vm_compute in Hx; discriminate Hx);
            try (exfalso; intuition discriminate)])).
Qed.

Theorem C25_classification : forall d, listed d ->
  exists cls nc, generate_elements_clasification d = Ok cls /\ generate_nodes_clasification d = Ok nc /\
    NoDup (map cid cls) /\ NoDup (map fst nc) /\
    (forall n, In n (map cid cls) <-> exists t, attr d n "type" = Some (VStr t) /\ laid_out t) /\
    (forall n, In n (map fst nc) <-> exists t, attr d n "type" = Some (VStr t) /\ laid_out t) /\
    (forall c, In c cls -> right_labels d (cid c) (ccls c) /\
                           cin c = incoming_of d (cid c) /\ cout c = outgoing_of d (cid c)) /\
    (forall n l, In (n, l) nc -> right_labels d n l).
Proof.
  intros d L. exists (classified d), (map (fun c => (cid c, ccls c)) (classified d)).
  split; [apply elements_eq; auto|]. split; [apply nodes_eq; auto|].
  split; [apply classified_nodup; auto|]. split; [rewrite map_map; apply classified_nodup; auto|].
  assert (X : forall n, In n (map cid (classified d)) <-> exists t, attr d n "type" = Some (VStr t) /\ laid_out t).
  { intro n. split.
    - intro H. apply in_map_iff in H. destruct H as [c [<- H]]. apply classified_char in H; auto.
      destruct H as [t [b [Ht [Hb _]]]]. exists t. split; auto. apply types_laid_out. eauto.
    - intros [t [Ht Hl]]. apply types_laid_out in Hl. destruct Hl as [base Hb]. apply in_map_iff.
      exists (mkCN n (incoming_of d n) (outgoing_of d n)
           (base ++ (if Nat.leb 2 (length (incoming_of d n)) then [c_join] else [])
                 ++ (if Nat.leb 2 (length (outgoing_of d n)) then [c_split] else []))).
      split; auto. apply classified_char; auto. exists t, base. auto 6. }
  split; [exact X|]. split; [intro n; rewrite map_map; apply X|]. split.
  - intros c Hc. split; [apply labels_right; auto|]. apply classified_char in Hc; auto.
    destruct Hc as [t [b [_ [_ [A [B _]]]]]]. auto.
  - intros n l H. apply in_map_iff in H. destruct H as [c [E H]]. injection E as <- <-. apply labels_right; auto.
Qed.

(** * Diagrams built with the API are coherent *)
Lemma laid_put : forall d n a, all_laid_out d -> (exists t, dget "type" a = Some (VStr t) /\ laid_out t) -> all_laid_out (put d n a).
Proof.
  intros d n a H T m Hm. rewrite attr_put. apply is_node_put in Hm. destruct (String.eqb_spec m n); auto.
  destruct Hm as [->|Hm]; [congruence|]. auto.
Qed.
Lemma laid_out_history : forall l d, history l d -> all_laid_out d.
Proof.
  induction 1 as [|l d o H IH Ha]; [intros n []|].
  assert (N : forall id, node_id_of o = Some id -> all_laid_out (fst (step o d))).
  { intros id Hid. destruct (expected_node o) as [[id' ex]|] eqn:Ex.
    - destruct (expected_node_sound o id' ex d Ex) as [a [Es Hk]]. rewrite Es. apply laid_put; auto. rewrite Hk.
      destruct o; unfold expected_node in Ex; simpl in Hid; try discriminate;
          try (destruct (in_dec string_dec dir directions); [|discriminate]); inv Ex; simpl; eexists;
          (split; [reflexivity|unfold laid_out; simpl; tauto]).
    - destruct (direction_of o) as [dir|] eqn:Ed.
      + assert (Hnd : ~ In dir directions).
        { intro C. destruct o; simpl in Ed; try discriminate; inv Ed; unfold expected_node in Ex;
            (destruct (in_dec string_dec dir directions); [discriminate|contradiction]). }
        destruct (bad_direction o d dir id Ed Hid Hnd) as [a [msg [Es [_ [A1 [A2 _]]]]]].
        rewrite Es. apply laid_put; auto. eexists. split; [exact A2|]. unfold laid_out.
        destruct o; simpl in Ed; try discriminate; simpl; tauto.
      + destruct o; simpl in *; try discriminate. }
  destruct o; try (eapply N; reflexivity).
  - intros n [].
  - exact IH.
  - destruct Ha as [Hs [Ht Hf]]. pose proof (inv_history _ _ H) as I.
    destruct (inv_flow d pid src tgt name u I Hs Ht Hf) as [w [E _]]. rewrite E. cbn [fst].
    destruct (inv_n d I src Hs) as [_ [_ [_ [[lo Ho] _]]]]. destruct (inv_n d I tgt Ht) as [_ [_ [[li Hi] _]]].
    intros n Hn. rewrite (attr_flow_result d pid src tgt name u _ lo li n "type" Ho Hi). simpl. rewrite !andb_false_r.
    apply IH. pose proof (keys_flow_result d pid src tgt name u (VPoints w)) as K. unfold node_keys in K.
    unfold is_node in *. rewrite K in Hn. exact Hn.
Qed.
Lemma count_nodup : forall l, (forall s, In s l -> count s l = 1) -> NoDup l.
Proof.
  intros l H. apply (NoDup_count_occ' string_dec). intros x Hx. apply H. auto.
Qed.
Theorem C26_api_diagrams_coherent : forall l d, history l d -> distinct_pairs d ->
  coherent d /\ all_laid_out d /\ gwf (dgraph d) /\ drawable d /\
  (forall f n m, flow d f n m <-> exists r, dget f (seq_flows d) = Some r /\ fl_src r = n /\ fl_tgt r = m).
Proof.
  intros l d H D. pose proof (inv_history l d H) as I. destruct (inv_b d I) as [B1 [B2 B3]].
  assert (K : forall f r, dget f (seq_flows d) = Some r -> flow_goes d f (fl_src r) (fl_tgt r)).
  { intros f r Hr. destruct (flow_by_id_live d f r I (distinct_live d f r (inv_f d I) D Hr))
      as [a [b [at_ [E [_ [_ [_ [S T]]]]]]]]. exists (a, b, at_). auto. }
  assert (Oc : forall f r, dget f (seq_flows d) = Some r -> In f (outgoing_of d (fl_src r)) /\ In f (incoming_of d (fl_tgt r))).
  { intros f r Hr. destruct (B1 f r Hr) as [_ [_ [C1 C2]]]. unfold count in *.
    split; apply (count_occ_In string_dec); rewrite ?C1, ?C2; auto. }
  split; [|split; [apply (laid_out_history l); auto|split; [apply (inv_g d I)|split]]].
  - split; [|split; [|split]].
    + split; [exact (gwf_nodup _ (inv_g _ I))|]. intros n Hn. destruct (inv_n _ I n Hn) as [_ [T [A [B _]]]]. auto.
    + intros n Hn. split; apply count_nodup; intros f Hf.
      * destruct (B3 n f Hf) as [r [Hr <-]]. apply (B1 f r Hr).
      * destruct (B2 n f Hf) as [r [Hr <-]]. apply (B1 f r Hr).
    + intros n f Hf. destruct (B2 n f Hf) as [r [Hr <-]]. exists (fl_tgt r). split; [auto|apply Oc; auto].
    + intros m f Hf. destruct (B3 m f Hf) as [r [Hr <-]]. exists (fl_src r). split; [auto|apply Oc; auto].
  - intros t Ht. destruct (view_in_edge _ t (inv_g d I) Ht) as [e [He [Hs _]]]. destruct (inv_e d I) as [E1 _].
    destruct (E1 e He) as [f [r [p [w [L [_ [_ [_ [S [T _]]]]]]]]]]. rewrite Hs. exists (fl_src r), (fl_tgt r).
    split; auto. split; auto. apply live_in in L. apply In_dget in L; [|exact (inv_f d I)].
    destruct (B1 f r L) as [N1 [N2 _]]. auto.
  - intros f n m. split.
    + intros [Fo [Fi _]]. destruct (B2 n f Fo) as [r [Hr Hs]]. destruct (B3 m f Fi) as [r' [Hr' Ht]].
      assert (r' = r) by congruence. subst r'. eauto.
    + intros [r [Hr [<- <-]]]. destruct (Oc f r Hr). split; auto.
Qed.

(** Flows that increase a rank form no cycle (used for the examples). *)
Lemma ranked_acyclic : forall l d (rank : string -> nat), history l d ->
  forallb (fun x => Nat.ltb (rank (fl_src (snd x))) (rank (fl_tgt (snd x)))) (seq_flows d) = true -> acyclic d.
Proof.
  intros l d rank H C c [n P]. pose proof (inv_history l d H) as I. destruct (inv_b d I) as [B1 [B2 B3]].
  assert (F : forall f n m, flow d f n m -> rank n < rank m).
  { intros f a b [Fo [Fi _]]. destruct (B2 a f Fo) as [r [Hr Hs]]. destruct (B3 b f Fi) as [r' [Hr' Ht]].
    assert (r' = r) by congruence. subst r'. apply dget_In in Hr. rewrite forallb_forall in C. specialize (C _ Hr).
    simpl in C. rewrite Hs, Ht in C. apply Nat.ltb_lt in C. exact C. }
  assert (G : forall a c b, path d a c b -> rank a < rank b).
  { induction 1; [eauto|]. apply F in H0. lia. }
  specialize (G _ _ _ P). lia.
Qed.

(** * C26: topological sort *)
Theorem C26_topological_order : forall d fuel s b, coherent d -> all_laid_out d ->
  (let* cls := generate_elements_clasification d in topological_sort fuel d cls) = Ok (s, b) ->
  Permutation (map cid s) (map fst (gnodes (dgraph d))) /\
  (forall c, In c s -> right_labels d (cid c) (ccls c) /\ cin c = incoming_of d (cid c) /\ cout c = outgoing_of d (cid c)) /\
  (forall f n m, flow d f n m -> ~ In f b -> before (map cid s) n m) /\
  (forall f, In f b -> exists n m, flow d f n m /\ join_node d m).
Proof.
  intros d fuel s b Co AL E. pose proof Co as [L _]. rewrite (elements_eq d L) in E. cbn [rbind] in E.
  pose proof (topo_ok d Co AL fuel s b E) as I. destruct (final_facts d Co AL s b I) as [P [N [O B]]].
  split; [|split; [|auto]].
  - apply NoDup_Permutation; auto; [apply L|]. intro n. split.
    + intro Hn. apply in_map_iff in Hn. destruct Hn as [c [<- Hc]]. apply (orig_node d Co).
      eapply Permutation_in; [exact P|exact Hc].
    + intro Hn. eapply Permutation_in; [symmetry; apply Permutation_map; exact P|]. apply (node_in_orig d Co AL). auto.
  - intros c Hc. assert (Hi : In c (classified d)) by (eapply Permutation_in; [exact P|exact Hc]).
    split; [apply labels_right; auto|]. apply (orig_cin d Co c Hi).
Qed.
(** Fuel that always suffices. *)
Definition sort_bound (d : diagram) : nat := S (length (classified d) + sumin (classified d)).
Theorem C26_acyclic_no_backward : forall d, coherent d -> all_laid_out d -> acyclic d ->
  forall fuel, sort_bound d <= fuel ->
  exists s, (let* cls := generate_elements_clasification d in topological_sort fuel d cls) = Ok (s, []).
Proof.
  intros d Co AL A fuel F. unfold sort_bound in F. pose proof Co as [L _]. rewrite (elements_eq d L). cbn [rbind].
  destruct (loop_terminates d Co AL (fun l C => match A l C with end) fuel (classified d) [] []
             (inv_init d Co AL)) as [[s b] E]; [lia|].
  assert (b = []) by (eapply loop_acyclic; eauto; apply inv_init; auto). subst b. exists s. exact E.
Qed.

(** S -> G -> {A, B} -> J -> E, and a way back J -> A. *)
Definition sdemo_ops : list op :=
  [ONew "m" "0"; OProcess "p" false true "None" "1" "2";
   OStart "id2" "s" None false true (Some "s") "" "";
   OExclusive "id2" "g" "Diverging" None (Some "g") "";
   OTask "id2" "a" (Some "a") ""; OTask "id2" "b" (Some "b") "";
   OExclusive "id2" "j" "Converging" None (Some "j") "";
   OEnd "id2" "e" None (Some "e") "" "";
   OFlow "id2" "s" "g" "" "10"; OFlow "id2" "g" "a" "" "11"; OFlow "id2" "g" "b" "" "12";
   OFlow "id2" "a" "j" "" "13"; OFlow "id2" "b" "j" "" "14"; OFlow "id2" "j" "e" "" "15"].
Definition sdemo : diagram := run empty_diagram sdemo_ops.
Lemma sdemo_history : history sdemo_ops sdemo.
Proof. apply checked_history. vm_compute. reflexivity. Qed.
Lemma sdemo_pairs : distinct_pairs sdemo.
Proof. apply pairs_checked_ok. vm_compute. reflexivity. Qed.
Lemma sdemo_coherent : coherent sdemo. Proof. exact (proj1 (C26_api_diagrams_coherent _ _ sdemo_history sdemo_pairs)). Qed.
Lemma sdemo_laid : all_laid_out sdemo. Proof. exact (laid_out_history _ _ sdemo_history). Qed.
Fixpoint pos (l : list string) (n : string) : nat :=
  match l with
  | [] => 0
  | x :: t => if String.eqb x n then 0 else S (pos t n)
  end.
Lemma sdemo_acyclic : acyclic sdemo.
Proof.
  apply (ranked_acyclic _ _ (pos ["s"; "g"; "a"; "b"; "j"; "e"]) sdemo_history). vm_compute. reflexivity.
Qed.
Example C25_example : listed sdemo /\
  generate_nodes_clasification sdemo =
  Ok [("a", ["Element"]); ("b", ["Element"]); ("g", ["Element"; "Split"]); ("j", ["Element"; "Join"]);
      ("s", ["Element"; "Start Event"]); ("e", ["Element"; "End Event"])].
Proof. split; [exact (proj1 sdemo_coherent)|vm_compute; reflexivity]. Qed.
Example C26_example : coherent sdemo /\ all_laid_out sdemo /\ acyclic sdemo /\
  (let* cls := generate_elements_clasification sdemo in
   let* r := topological_sort 20 sdemo cls in Ok (map cid (fst r), snd r))
  = Ok (["s"; "g"; "b"; "a"; "j"; "e"], []).
Proof.
  split; [exact sdemo_coherent|]. split; [exact sdemo_laid|]. split; [exact sdemo_acyclic|]. vm_compute. reflexivity.
Qed.

(** * C27: termination *)
Theorem C27_terminates_iff : forall d, coherent d -> all_laid_out d ->
  ((forall l, cycle d l -> exists n, In n l /\ join_node d n) ->
   forall fuel, sort_bound d <= fuel -> exists s b,
     (let* cls := generate_elements_clasification d in topological_sort fuel d cls) = Ok (s, b)) /\
  ((exists l, cycle d l /\ forall n, In n l -> ~ join_node d n) ->
   forall fuel, (let* cls := generate_elements_clasification d in topological_sort fuel d cls) = Err OutOfFuel).
Proof.
  intros d Co AL. pose proof Co as [L _]. rewrite (elements_eq d L). cbn [rbind]. split.
  - intros H fuel F. unfold sort_bound in F.
    destruct (loop_terminates d Co AL H fuel (classified d) [] [] (inv_init d Co AL)) as [[s b] E]; [lia|]. eauto.
  - intros H fuel. apply diverges; auto.
Qed.
(** No error other than running forever is possible. *)
Theorem C27_no_other_failure : forall d fuel e, coherent d -> all_laid_out d ->
  (let* cls := generate_elements_clasification d in topological_sort fuel d cls) = Err e -> e = OutOfFuel.
Proof.
  intros d fuel e Co AL H. pose proof Co as [L _]. rewrite (elements_eq d L) in H. cbn [rbind] in H.
  pose proof (loop_correct d Co AL fuel (classified d) [] [] (inv_init d Co AL)) as C. unfold topological_sort in H.
  unfold orig in C. rewrite H in C. exact C.
Qed.
(** Three tasks in a circle: the sort never returns. *)
Definition circle_ops : list op :=
  [ONew "m" "0"; OTask "id2" "a" (Some "a") ""; OTask "id2" "b" (Some "b") ""; OTask "id2" "c" (Some "c") "";
   OFlow "id2" "a" "b" "" "10"; OFlow "id2" "b" "c" "" "11"; OFlow "id2" "c" "a" "" "12"].
Definition circle : diagram := run empty_diagram circle_ops.
Lemma circle_history : history circle_ops circle.
Proof. apply checked_history. vm_compute. reflexivity. Qed.
Lemma circle_pairs : distinct_pairs circle.
Proof. apply pairs_checked_ok. vm_compute. reflexivity. Qed.
Lemma circle_cycle : cycle circle ["a"; "b"; "c"] /\ forall n, In n ["a"; "b"; "c"] -> ~ join_node circle n.
Proof.
  destruct (C26_api_diagrams_coherent _ _ circle_history circle_pairs) as [_ [_ [_ [_ F]]]]. split.
  - assert (F1 : flow circle "id10" "a" "b") by (apply (proj2 (F "id10" "a" "b")); eexists; split; [vm_compute; reflexivity|split; reflexivity]).
    assert (F2 : flow circle "id11" "b" "c") by (apply (proj2 (F "id11" "b" "c")); eexists; split; [vm_compute; reflexivity|split; reflexivity]).
    assert (F3 : flow circle "id12" "c" "a") by (apply (proj2 (F "id12" "c" "a")); eexists; split; [vm_compute; reflexivity|split; reflexivity]).
    clear F. generalize dependent circle. intros d F1 F2 F3. exists "a".
    eapply path_more; [exact F1|]. eapply path_more; [exact F2|]. eapply path_one. exact F3.
  - unfold join_node. intros n [<-|[<-|[<-|[]]]];
      match goal with |- ~ (_ <= ?x) => let v := eval vm_compute in x in replace x with v by (vm_compute; reflexivity) end; lia.
Qed.
Theorem C27_termination_refuted : exists l d, history l d /\ coherent d /\ all_laid_out d /\
  forall fuel, (let* cls := generate_elements_clasification d in topological_sort fuel d cls) = Err OutOfFuel.
Proof.
  exists circle_ops, circle. split; [exact circle_history|].
  destruct (C26_api_diagrams_coherent _ _ circle_history circle_pairs) as [Co [AL _]].
  split; auto. split; auto. apply (proj2 (C27_terminates_iff circle Co AL)). exists ["a"; "b"; "c"]. exact circle_cycle.
Qed.
Example C27_example : coherent circle /\ all_laid_out circle.
Proof. destruct (C26_api_diagrams_coherent _ _ circle_history circle_pairs) as [Co [AL _]]. auto. Qed.
(** A cycle through a Join: the sort returns and reports the two flows into it. *)
Definition jloop_ops : list op :=
  circle_ops ++ [OStart "id2" "s" None false true (Some "s") "" ""; OFlow "id2" "s" "a" "" "13"].
Example C27_join_example :
  (let* cls := generate_elements_clasification (run empty_diagram jloop_ops) in
   let* r := topological_sort 20 (run empty_diagram jloop_ops) cls in Ok (map cid (fst r), snd r))
  = Ok (["s"; "a"; "b"; "c"], ["id12"]).
Proof. vm_compute. reflexivity. Qed.

(** * C28, C29: positions *)
Theorem C28_no_overlap : forall fuel d d' n m x y, coherent d -> generate_layout fuel d = (d', Ok tt) ->
  is_node d n -> is_node d m -> at_xy d' n x y -> at_xy d' m x y -> n = m.
Proof.
  intros fuel d d' n m x y Co H Hn Hm An Am.
  destruct (layout_facts fuel d d' Co H) as [_ [s [b [g [d1 [_ [_ [_ [B [_ [_ [_ [P _]]]]]]]]]]]]].
  destruct (P n Hn) as [cn [In1 [E1 [_ [_ [X1 Y1]]]]]]. destruct (P m Hm) as [cm [In2 [E2 [_ [_ [X2 Y2]]]]]].
  destruct An as [Xa Ya]. destruct Am as [Xb Yb].
  rewrite X1 in Xa. rewrite Y1 in Ya. rewrite X2 in Xb. rewrite Y2 in Yb.
  injection Xa as Xa. injection Ya as Ya. injection Xb as Xb. injection Yb as Yb.
  apply zstr_inj in Xa. apply zstr_inj in Ya. apply zstr_inj in Xb. apply zstr_inj in Yb.
  assert (H0 : crow cn = crow cm) by lia. assert (H1 : ccol cn = ccol cm) by lia.
  pose proof (built_nodup d (classified d) g B) as N.
  assert (cn = cm); [|congruence].
  clear - N In1 In2 H0 H1. induction g as [|z t IH]; [contradiction|]. simpl in N. inversion N as [|? ? Nn Nt]; subst.
  destruct In1 as [->|I1], In2 as [->|I2]; auto; exfalso; apply Nn; apply in_map_iff.
  - exists cm. split; auto. congruence.
  - exists cn. split; auto. congruence.
Qed.
(** Every node of the laid out diagram has a position. *)
Theorem C29_exactly_one_position : forall fuel d d', coherent d -> generate_layout fuel d = (d', Ok tt) ->
  exists g : list cell,
    Permutation (map cnid g) (map fst (gnodes (dgraph d))) /\ NoDup (map cnid g) /\
    NoDup (map (fun c => (crow c, ccol c)) g) /\
    forall c, In c g -> at_xy d' (cnid c) (150 * ccol c + 50) (100 * crow c + 50).
Proof.
  intros fuel d d' Co H. destruct (layout_facts fuel d d' Co H) as [_ [s [b [g [d1 [_ [_ [_ [B [N [Pg [_ [P _]]]]]]]]]]]]].
  exists g. split; auto. split; auto. split; [eapply built_nodup; eauto|].
  intros c Hc. destruct (P (cnid c)) as [c' [H1 [H2 [G [_ A]]]]].
  - unfold is_node. eapply Permutation_in; [exact Pg|]. apply in_map. auto.
  - rewrite (gfind_nodup g c N Hc) in G. injection G as <-.
    replace (150 * ccol c + 50)%Z with (ccol c * 150 + 50)%Z by lia.
    replace (100 * crow c + 50)%Z with (crow c * 100 + 50)%Z by lia. exact A.
Qed.
(** Whatever the outcome, only coordinates and waypoints are touched. *)
Theorem C29_only_drawing : forall fuel d, only_drawing d (fst (generate_layout fuel d)).
Proof. intros. apply kept_drawing. apply kept_layout. Qed.
(** Nodes of other types make the layout fail. *)
Theorem C29_only_classified_types : forall fuel d d', coherent d -> generate_layout fuel d = (d', Ok tt) -> all_laid_out d.
Proof. intros fuel d d' Co H. exact (proj1 (layout_facts fuel d d' Co H)). Qed.

Definition positions (fuel : nat) (d : diagram) : res (list (string * option pyval * option pyval)) :=
  match generate_layout fuel d with
  | (d', Ok _) => Ok (map (fun n => (fst n, dget "x" (snd n), dget "y" (snd n))) (gnodes (dgraph d')))
  | (_, Err e) => Err e
  end.
Example C28_example : coherent sdemo /\ positions 20 sdemo =
  Ok [("s", Some (VStr "200"), Some (VStr "250")); ("g", Some (VStr "350"), Some (VStr "250"));
      ("a", Some (VStr "500"), Some (VStr "50")); ("b", Some (VStr "500"), Some (VStr "450"));
      ("j", Some (VStr "650"), Some (VStr "250")); ("e", Some (VStr "800"), Some (VStr "250"))].
Proof. split; [exact sdemo_coherent|vm_compute; reflexivity]. Qed.

(** * C30: waypoints *)
Theorem C30_waypoints : forall fuel d d' t, coherent d -> gwf (dgraph d) -> generate_layout fuel d = (d', Ok tt) ->
  In t (get_flows d') ->
  exists s m sx sy tx ty sty tty w,
    dget "sourceRef" (snd t) = Some (VStr s) /\ dget "targetRef" (snd t) = Some (VStr m) /\
    at_xy d' s sx sy /\ at_xy d' m tx ty /\ attr d' s "type" = Some sty /\ attr d' m "type" = Some tty /\
    dget "waypoints" (snd t) = Some (VPoints (map (fun p => (zstr (fst p), zstr (snd p))) w)) /\
    hd_error w = Some (sx + 50, sy + 50)%Z /\ 2 <= length w /\
    on_box tx ty (fst (last w (0, 0)%Z)) (snd (last w (0, 0)%Z)) /\
    (let gateway v := v = VStr "exclusiveGateway" \/ v = VStr "inclusiveGateway" \/ v = VStr "parallelGateway" in
     sy = ty \/ gateway sty \/ gateway tty -> axis_parallel w).
Proof.
  intros fuel d d' t Co W H Ht.
  destruct (layout_facts fuel d d' Co H) as [_ [s [b [g [d1 [_ [_ [_ [B [N [Pg [_ [P [K [Ed E5]]]]]]]]]]]]]]].
  assert (W1 : gwf (dgraph d1)) by (apply (gwf_same_ends (dgraph d)); auto; rewrite Ed; reflexivity).
  assert (Ps : positioned d1).
  { intros n Hn. assert (Hn' : is_node d n) by (unfold is_node in *; rewrite K in Hn; exact Hn).
    destruct (P n Hn') as [c [_ [_ [_ [A _]]]]]. destruct Co as [[_ L] _]. destruct (L n Hn') as [[ty Hty] _].
    exists (ccol c * 150 + 50)%Z, (crow c * 100 + 50)%Z, (VStr ty). split; auto.
    destruct (layout_steps _ _ _ H) as [cls [s2 [b2 [g2 [d2 [_ [_ [_ [E4 E5']]]]]]]]].
    pose proof (kept_waypoints d1) as K1. rewrite E5 in K1. simpl in K1. destruct K1 as [_ [K1 _]].
    pose proof (kept_layout fuel d) as K2. rewrite H in K2. simpl in K2. destruct K2 as [_ [K2 _]].
    rewrite <- K1, K2 by discriminate. exact Hty. }
  destruct (flow_drawn d1 d' t W1 Ps E5 Ht) as [a [m [sx [sy [tx [ty [sty [tty [w [A1 [A2 [A3 [A4 [A5 [A6 [A7 [A8 [A9 [A10 A11]]]]]]]]]]]]]]]]]]].
  exists a, m, sx, sy, tx, ty, sty, tty, w. repeat (split; [auto|]).
  intros gateway G. apply A11. destruct G as [G|[G|G]]; auto; right; [left|right];
    destruct G as [-> | [-> | ->]]; reflexivity.
Qed.
(** Only three of the five gateway types count: a flow from an event based gateway to
    another row is drawn diagonally. *)
Definition edemo : diagram := fst (node_set "g" "type" (VStr "eventBasedGateway") sdemo).
Theorem C30_every_gateway_refuted : exists d d' s m t wx wy px py,
  generate_layout 20 d = (d', Ok tt) /\ all_laid_out d /\ In t (get_flows d') /\
  dget "sourceRef" (snd t) = Some (VStr s) /\ dget "targetRef" (snd t) = Some (VStr m) /\
  attr d' s "type" = Some (VStr "eventBasedGateway") /\ attr d' m "type" = Some (VStr "task") /\
  dget "waypoints" (snd t) = Some (VPoints [(wx, wy); (px, py)]) /\ wx <> px /\ wy <> py.
Proof.
  exists edemo. eexists. exists "g", "a". eexists. exists "400", "300", "500", "100".
  split; [vm_compute; reflexivity|]. split; [|split; [vm_compute; right; left; reflexivity|]].
  - pose proof sdemo_laid as L. intros n Hn.
    assert (E : node_set "g" "type" (VStr "eventBasedGateway") sdemo = (edemo, Ok tt)) by (vm_compute; reflexivity).
    apply node_set_ok in E. destruct E as [_ [_ [_ [K A]]]]. rewrite A. rewrite eqb_refl', andb_true_r.
    destruct (String.eqb_spec n "g"); [eexists; split; [reflexivity|unfold laid_out; simpl; tauto]|].
    apply L. unfold is_node in *. rewrite K in Hn. exact Hn.
  - repeat (split; [vm_compute; reflexivity|]). split; discriminate.
Qed.
Example C30_example : coherent sdemo /\ gwf (dgraph sdemo) /\
  (let* p := positions 20 sdemo in Ok (length p)) = Ok 6 /\
  map (fun t => dget "waypoints" (snd t)) (get_flows (fst (generate_layout 20 sdemo))) =
  [Some (VPoints [("250", "300"); ("350", "300")]); Some (VPoints [("400", "300"); ("400", "100"); ("500", "100")]);
   Some (VPoints [("400", "300"); ("400", "500"); ("500", "500")]); Some (VPoints [("550", "100"); ("700", "100"); ("700", "250")]);
   Some (VPoints [("550", "500"); ("700", "500"); ("700", "250")]); Some (VPoints [("700", "300"); ("700", "300"); ("800", "300")])].
Proof.
  split; [exact sdemo_coherent|]. split; [exact (proj1 (proj2 (proj2 (C26_api_diagrams_coherent _ _ sdemo_history sdemo_pairs))))|].
  split; vm_compute; reflexivity.
Qed.

(** * C31: left to right *)
Theorem C31_single_predecessor : forall fuel d d' f n m, coherent d -> generate_layout fuel d = (d', Ok tt) ->
  flow d f n m -> ~ join_node d m -> exists x y y', at_xy d' n x y /\ at_xy d' m (x + 150) y'.
Proof.
  intros fuel d d' f n m Co H F J.
  destruct (layout_facts fuel d d' Co H) as [_ [s [b [g [d1 [_ [_ [_ [B [N [Pg [_ [P _]]]]]]]]]]]]].
  assert (Hm : is_node d m) by (eapply incoming_node; apply F).
  destruct (P m Hm) as [cm [Im [Em [_ [_ Am]]]]]. apply in_split in Im. destruct Im as [g1 [g2 Eg]].
  rewrite <- Em in F, J. destruct (built_cols d Co g B N g1 cm g2 Eg f n F) as [_ Q].
  destruct (Q J) as [cn [In_ [En Ec]]].
  destruct (P (cnid cn)) as [c' [_ [_ [G [_ An]]]]].
  { unfold is_node. eapply Permutation_in; [exact Pg|]. rewrite Eg. apply in_map, in_or_app. auto. }
  rewrite (gfind_nodup g cn N) in G by (rewrite Eg; apply in_or_app; auto). injection G as <-. rewrite En in An.
  exists (ccol cn * 150 + 50)%Z, (crow cn * 100 + 50)%Z, (crow cm * 100 + 50)%Z. split; auto.
  replace (ccol cn * 150 + 50 + 150)%Z with (ccol cm * 150 + 50)%Z by lia. exact Am.
Qed.
(** [order] is the order in which the layouter places the nodes. *)
Theorem C31_placed_before : forall fuel d d', coherent d -> generate_layout fuel d = (d', Ok tt) ->
  exists order, Permutation order (map fst (gnodes (dgraph d))) /\
    (forall f n m, flow d f n m -> ~ join_node d m -> before order n m) /\
    (forall f n m, flow d f n m -> before order n m ->
       exists x y x' y', at_xy d' n x y /\ at_xy d' m x' y' /\ (x + 150 <= x')%Z) /\
    (forall s b g, (let* cls := generate_elements_clasification d in topological_sort fuel d cls) = Ok (s, b) ->
       grid_layout fuel d s = Ok g -> order = map cnid g).
Proof.
  intros fuel d d' Co H.
  destruct (layout_facts fuel d d' Co H) as [_ [s [b [g [d1 [Es [_ [Eg0 [B [N [Pg [_ [P _]]]]]]]]]]]]].
  exists (map cnid g). split; auto. split; [|split].
  - intros f n m F J. assert (Hm : is_node d m) by (eapply incoming_node; apply F).
    destruct (P m Hm) as [cm [Im [Em _]]]. apply in_split in Im. destruct Im as [g1 [g2 Eg]].
    rewrite <- Em in F, J. destruct (built_cols d Co g B N g1 cm g2 Eg f n F) as [_ Q].
    destruct (Q J) as [cn [In_ [En _]]]. rewrite Eg, map_app. cbn [map]. rewrite <- En, <- Em.
    change (cnid cm :: map cnid g2) with ([cnid cm] ++ map cnid g2). rewrite app_assoc. apply before_app, before_last, in_map. auto.
  - intros f n m F Bf.
    assert (Hm : is_node d m) by (eapply incoming_node; apply F). assert (Hn : is_node d n) by (eapply outgoing_node; apply F).
    destruct (P m Hm) as [cm [Im [Em [Gm [_ Am]]]]]. destruct (P n Hn) as [cn [In_ [En [Gn [_ An]]]]].
    destruct Bf as [i [j [L [Ni Nj]]]].
    rewrite nth_error_map in Ni, Nj. destruct (nth_error g i) as [ci|] eqn:Ei; [|discriminate].
    destruct (nth_error g j) as [cj|] eqn:Ej; [|discriminate]. injection Ni as Ni. injection Nj as Nj.
    assert (ci = cn). { rewrite <- Ni, (gfind_nodup g ci N (nth_error_In _ _ Ei)) in Gn. congruence. }
    assert (cj = cm). { rewrite <- Nj, (gfind_nodup g cj N (nth_error_In _ _ Ej)) in Gm. congruence. }
    subst ci cj. apply nth_error_split in Ej. destruct Ej as [g1 [g2 [Eg Lg]]].
    rewrite <- Em in F. destruct (built_cols d Co g B N g1 cm g2 Eg f n F) as [Q _].
    assert (Ig : In cn g1). { rewrite Eg in Ei. rewrite nth_error_app1 in Ei by lia. eapply nth_error_In; eauto. }
    specialize (Q cn Ig En). exists (ccol cn * 150 + 50)%Z, (crow cn * 100 + 50)%Z, (ccol cm * 150 + 50)%Z, (crow cm * 100 + 50)%Z.
    split; auto. split; auto. lia.
  - intros s2 b2 g2 E2 E3. pose proof Co as [L _]. rewrite (elements_eq d L) in E2. cbn [rbind] in E2.
    rewrite Es in E2. injection E2 as <- <-. rewrite Eg0 in E3. injection E3 as <-. reflexivity.
Qed.

(** Without splits the nodes are placed in sorted order. *)
Lemma no_split_order : forall d fuel rounds tmp grid lr g, (forall c, In c tmp -> smem c_split (ccls c) = false) ->
  grid_loop rounds fuel d ((grid, lr), tmp) = Ok g -> map cnid g = map cnid grid ++ map cid tmp.
Proof.
  intros d fuel. induction rounds as [|rounds IH]; intros tmp grid lr g S E; cbn [grid_loop snd fst] in E.
  - destruct tmp; [|discriminate]. injection E as <-. rewrite app_nil_r. reflexivity.
  - destruct tmp as [|c t]; [injection E as <-; rewrite app_nil_r; reflexivity|].
    destruct fuel as [|fuel]; [discriminate|]. cbn [place_element] in E.
    destruct (choose_cell d c grid lr None) as [[[row [r k]] lr1]|]; [|discriminate]. cbn [rbind] in E.
    destruct (insert_into_grid grid r k (cid c)) as [grid1|] eqn:Ei; [|discriminate]. cbn [rbind] in E.
    rewrite (S c (or_introl eq_refl)) in E. cbn [rbind] in E. apply IH in E; [|intros x Hx; apply S; right; auto].
    destruct (insert_ok _ _ _ _ _ Ei) as [-> _]. rewrite E, map_app, <- app_assoc. reflexivity.
Qed.
Theorem C31_no_splits : forall fuel d d' f n m, coherent d -> acyclic d -> (forall k, ~ split_node d k) ->
  generate_layout fuel d = (d', Ok tt) -> flow d f n m ->
  exists x y x' y', at_xy d' n x y /\ at_xy d' m x' y' /\ (x + 150 <= x')%Z.
Proof.
  intros fuel d d' f n m Co A S H F.
  destruct (C31_placed_before fuel d d' Co H) as [order [_ [_ [Q O]]]].
  destruct (layout_facts fuel d d' Co H) as [AL [s [b [g [d1 [Es [Ps [Eg _]]]]]]]].
  apply (Q f n m F).
  rewrite (O s b g); auto; [|rewrite (elements_eq d) by apply Co; exact Es].
  unfold grid_layout in Eg. apply no_split_order in Eg.
  - cbn [map app] in Eg. rewrite Eg. assert (b = []) by (eapply loop_acyclic; eauto; apply inv_init; auto). subst b.
    pose proof (topo_ok d Co AL fuel s [] Es) as I. destruct (final_facts d Co AL s [] I) as [_ [_ [Ord _]]].
    apply (Ord f n m F). intros [].
  - intros c Hc. assert (Hi : In c (classified d)) by (eapply Permutation_in; [exact Ps|exact Hc]).
    rewrite (orig_split d Co c Hi). apply Nat.leb_gt. specialize (S (cid c)). unfold split_node in S.
    destruct (Nat.le_gt_cases 2 (length (outgoing_of d (cid c)))); [contradiction|auto].
Qed.

(** S with a direct flow to J and a detour over A and B. *)
Definition detour_ops : list op :=
  [ONew "m" "0"; OStart "id2" "s" None false true (Some "s") "" "";
   OTask "id2" "a" (Some "a") ""; OTask "id2" "b" (Some "b") ""; OTask "id2" "j" (Some "j") "";
   OFlow "id2" "s" "a" "" "10"; OFlow "id2" "s" "j" "" "11"; OFlow "id2" "a" "b" "" "12"; OFlow "id2" "b" "j" "" "13"].
Definition detour : diagram := run empty_diagram detour_ops.
Lemma detour_history : history detour_ops detour.
Proof. apply checked_history. vm_compute. reflexivity. Qed.
Lemma detour_pairs : distinct_pairs detour.
Proof. apply pairs_checked_ok. vm_compute. reflexivity. Qed.
Theorem C31_all_flows_refuted : exists l d d' f n m x y x' y', history l d /\ coherent d /\ acyclic d /\
  generate_layout 20 d = (d', Ok tt) /\ flow d f n m /\ at_xy d' n x y /\ at_xy d' m x' y' /\ (x' < x)%Z.
Proof.
  exists detour_ops, detour. eexists. exists "id13", "b", "j", 500%Z, 450%Z, 350%Z, 150%Z.
  split; [exact detour_history|]. destruct (C26_api_diagrams_coherent _ _ detour_history detour_pairs) as [Co [_ [_ [_ F]]]].
  split; auto. split; [apply (ranked_acyclic _ _ (pos ["s"; "a"; "b"; "j"]) detour_history); vm_compute; reflexivity|].
  split; [vm_compute; reflexivity|]. split.
  - apply (proj2 (F "id13" "b" "j")). eexists. split; [vm_compute; reflexivity|split; reflexivity].
  - split; [split; vm_compute; reflexivity|]. split; [split; vm_compute; reflexivity|]. lia.
Qed.
Example C31_example : coherent sdemo /\ exists d', generate_layout 20 sdemo = (d', Ok tt).
Proof. split; [exact sdemo_coherent|]. eexists. vm_compute. reflexivity. Qed.

(** * C32: inserting into the grid *)
Theorem C32_occupied_raises : forall grid row col n c, In c grid -> crow c = row -> ccol c = col ->
  insert_into_grid grid row col n = Err TypeError.
Proof.
  intros grid row col n c H R C. unfold insert_into_grid. destruct (find _ grid) eqn:E; auto.
  pose proof (find_none _ _ E c H) as Z. cbv beta in Z. rewrite R, C, !Z.eqb_refl in Z. discriminate.
Qed.
Theorem C32_free_appends : forall grid row col n,
  (forall c, In c grid -> ~ (crow c = row /\ ccol c = col)) ->
  insert_into_grid grid row col n = Ok (grid ++ [mkCell row col n]).
Proof.
  intros grid row col n H. unfold insert_into_grid. destruct (find _ grid) as [c|] eqn:E; auto.
  apply find_some in E. destruct E as [Hc E]. apply andb_true_iff in E. destruct E as [A B].
  apply Z.eqb_eq in A. apply Z.eqb_eq in B. exfalso. apply (H c); auto.
Qed.
Theorem C32_makes_room_refuted : exists grid row col n,
  NoDup (map (fun c => (crow c, ccol c)) grid) /\ insert_into_grid grid row col n = Err TypeError.
Proof.
  exists [mkCell 2 1 "a"], 2%Z, 1%Z, "b". split; [repeat constructor; intros []|]. vm_compute. reflexivity.
Qed.

Example C32_example : insert_into_grid [mkCell 2 1 "a"; mkCell 4 1 "b"] 3 2 "c" = Ok [mkCell 2 1 "a"; mkCell 4 1 "b"; mkCell 3 2 "c"].
Proof. vm_compute. reflexivity. Qed.

(** * C33: linear diagrams *)
Theorem C33_linear_layout : forall d ns fuel, coherent d -> all_laid_out d -> gwf (dgraph d) -> drawable d ->
  linear d ns -> sort_bound d <= fuel ->
  exists d', generate_layout fuel d = (d', Ok tt) /\
    forall i n, nth_error ns i = Some n -> at_xy d' n (150 * (Z.of_nat i + 1) + 50) 250.
Proof. intros d ns fuel Co AL W D L F. apply lin_layout; auto. Qed.

Definition ldemo_ops : list op :=
  [ONew "m" "0"; OTask "id2" "b" (Some "b") ""; OStart "id2" "s" None false true (Some "s") "" "";
   OTask "id2" "a" (Some "a") ""; OEnd "id2" "e" None (Some "e") "" "";
   OFlow "id2" "s" "a" "" "10"; OFlow "id2" "a" "b" "" "11"; OFlow "id2" "b" "e" "" "12"].
Definition ldemo : diagram := run empty_diagram ldemo_ops.
Lemma ldemo_history : history ldemo_ops ldemo.
Proof. apply checked_history. vm_compute. reflexivity. Qed.
Lemma ldemo_pairs : distinct_pairs ldemo.
Proof. apply pairs_checked_ok. vm_compute. reflexivity. Qed.

(** Recognising linear diagrams built with the API. *)
Fixpoint consecutive (l : list string) : list (string * string) :=
  match l with
  | a :: ((b :: _) as t) => (a, b) :: consecutive t
  | _ => []
  end.
Lemma consecutive_spec : forall l n m, In (n, m) (consecutive l) <-> exists a b, l = a ++ n :: m :: b.
Proof.
  induction l as [|x t IH]; intros n m.
  - simpl. split; [contradiction|]. intros [a [b E]]. destruct a; discriminate.
  - destruct t as [|y t].
    + simpl. split; [contradiction|]. intros [[|? [|? ?]] [b E]]; discriminate.
    + cbn [consecutive In]. rewrite IH. split.
      * intros [E|[a [b E]]]; [injection E as <- <-; exists [], t; reflexivity|]. exists (x :: a), b. simpl. congruence.
      * intros [[|z a] [b E]]; simpl in E.
        -- left. congruence.
        -- right. injection E as _ E2. exists a, b. exact E2.
Qed.
Lemma api_linear : forall l d ns, history l d -> distinct_pairs d -> NoDup ns ->
  (forall n, is_node d n <-> In n ns) ->
  map (fun x => (fl_src (snd x), fl_tgt (snd x))) (seq_flows d) = consecutive ns -> linear d ns.
Proof.
  intros l d ns H D N Hn E. destruct (C26_api_diagrams_coherent l d H D) as [Co [_ [_ [_ F]]]].
  pose proof (inv_history l d H) as I.
  assert (Fc : forall n m, (exists f, flow d f n m) <-> exists a b, ns = a ++ n :: m :: b).
  { intros n m. rewrite <- consecutive_spec, <- E, in_map_iff. split.
    - intros [f Hf]. apply F in Hf. destruct Hf as [r [Hr [<- <-]]]. exists (f, r). split; auto. apply dget_In. auto.
    - intros [[f r] [Ef Hf]]. injection Ef as <- <-. exists f. apply F. exists r. split; auto.
      apply In_dget in Hf; auto. exact (inv_f d I). }
  assert (U : forall f1 f2 n1 n2 m1 m2, flow d f1 n1 m1 -> flow d f2 n2 m2 -> n1 = n2 \/ m1 = m2 -> f1 = f2).
  { intros f1 f2 n1 n2 m1 m2 F1 F2 Eq.
    destruct (proj1 (Fc n1 m1) (ex_intro _ f1 F1)) as [a1 [b1 E1]]. destruct (proj1 (Fc n2 m2) (ex_intro _ f2 F2)) as [a2 [b2 E2]].
    assert (P1 : nth_error ns (length a1) = Some n1 /\ nth_error ns (S (length a1)) = Some m1).
    { rewrite E1, !nth_error_app2, Nat.sub_diag by lia. replace (S (length a1) - length a1) with 1 by lia. auto. }
    assert (P2 : nth_error ns (length a2) = Some n2 /\ nth_error ns (S (length a2)) = Some m2).
    { rewrite E2, !nth_error_app2, Nat.sub_diag by lia. replace (S (length a2) - length a2) with 1 by lia. auto. }
    destruct P1 as [P1 Q1]. destruct P2 as [P2 Q2].
    assert (La : length a1 = length a2).
    { destruct Eq as [<-|<-].
      - apply (proj1 (NoDup_nth_error ns) N); [apply nth_error_Some; congruence|congruence].
      - assert (S (length a1) = S (length a2)); [|lia].
        apply (proj1 (NoDup_nth_error ns) N); [apply nth_error_Some; congruence|congruence]. }
    rewrite La in *. assert (n1 = n2) by congruence. assert (m1 = m2) by congruence. subst.
    apply F in F1. apply F in F2. destruct F1 as [r1 [H1 [S1 T1]]]. destruct F2 as [r2 [H2 [S2 T2]]].
    apply (D f1 r1 f2 r2 H1 H2). left. split; congruence. }
  split; auto. split; auto. split; auto. intro n. split.
  - destruct (Nat.le_gt_cases (length (incoming_of d n)) 1) as [|C]; auto. exfalso.
    destruct (incoming_of d n) as [|f1 [|f2 r]] eqn:Ei; simpl in C; try lia.
    assert (Hd : is_node d n) by (apply (incoming_node d n f1); rewrite Ei; left; auto).
    destruct (in_flow d Co n f1) as [n1 F1]; [rewrite Ei; left; auto|]. destruct (in_flow d Co n f2) as [n2 F2]; [rewrite Ei; right; left; auto|].
    assert (f1 = f2) by (eapply U; eauto). subst. destruct Co as [_ [Nd _]]. destruct (Nd n Hd) as [Nd1 _]. rewrite Ei in Nd1.
    inv Nd1. apply H2. left; auto.
  - destruct (Nat.le_gt_cases (length (outgoing_of d n)) 1) as [|C]; auto. exfalso.
    destruct (outgoing_of d n) as [|f1 [|f2 r]] eqn:Ei; simpl in C; try lia.
    assert (Hd : is_node d n) by (apply (outgoing_node d n f1); rewrite Ei; left; auto).
    destruct (out_flow d Co n f1) as [n1 F1]; [rewrite Ei; left; auto|]. destruct (out_flow d Co n f2) as [n2 F2]; [rewrite Ei; right; left; auto|].
    assert (f1 = f2) by (eapply U; eauto). subst. destruct Co as [_ [Nd _]]. destruct (Nd n Hd) as [_ Nd1]. rewrite Ei in Nd1.
    inv Nd1. apply H2. left; auto.
Qed.
Lemma ldemo_linear : linear ldemo ["s"; "a"; "b"; "e"].
Proof.
  apply (api_linear _ _ _ ldemo_history ldemo_pairs).
  - repeat constructor; simpl; intuition discriminate.
  - intro n. unfold is_node. assert (E : map fst (gnodes (dgraph ldemo)) = ["b"; "s"; "a"; "e"]) by (vm_compute; reflexivity).
    rewrite E. simpl. tauto.
  - vm_compute. reflexivity.
Qed.
Example C33_example : linear ldemo ["s"; "a"; "b"; "e"] /\ sort_bound ldemo <= 10 /\ positions 10 ldemo =
  Ok [("b", Some (VStr "500"), Some (VStr "250")); ("s", Some (VStr "200"), Some (VStr "250"));
      ("a", Some (VStr "350"), Some (VStr "250")); ("e", Some (VStr "650"), Some (VStr "250"))].
Proof.
  split; [exact ldemo_linear|]. split; [|vm_compute; reflexivity].
  assert (E : sort_bound ldemo = 8) by (vm_compute; reflexivity). rewrite E. lia.
Qed.

(** * C65: the layout can fail *)
(** A binary tree of splits. *)
Definition tree_ops : list op :=
  [ONew "m" "0"; OTask "id2" "x" (Some "x") ""; OTask "id2" "a" (Some "a") ""; OTask "id2" "b" (Some "b") "";
   OTask "id2" "c" (Some "c") ""; OTask "id2" "d" (Some "d") ""; OTask "id2" "e" (Some "e") ""; OTask "id2" "f" (Some "f") "";
   OFlow "id2" "x" "a" "" "10"; OFlow "id2" "x" "b" "" "11"; OFlow "id2" "a" "c" "" "12"; OFlow "id2" "a" "d" "" "13";
   OFlow "id2" "b" "e" "" "14"; OFlow "id2" "b" "f" "" "15"].
(** Four starts and two joins, no split. *)
Definition two_joins_ops : list op :=
  [ONew "m" "0"; OTask "id2" "a" (Some "a") ""; OTask "id2" "b" (Some "b") ""; OTask "id2" "c" (Some "c") "";
   OTask "id2" "d" (Some "d") ""; OTask "id2" "j" (Some "j") ""; OTask "id2" "k" (Some "k") "";
   OFlow "id2" "a" "j" "" "10"; OFlow "id2" "d" "j" "" "11"; OFlow "id2" "b" "k" "" "12"; OFlow "id2" "c" "k" "" "13"].
Theorem C65_acyclic_success_refuted :
  (exists l d, history l d /\ coherent d /\ acyclic d /\ snd (generate_layout 40 d) = Err TypeError) /\
  (exists l d, history l d /\ coherent d /\ acyclic d /\ (forall n, length (outgoing_of d n) <= 1) /\
     snd (generate_layout 40 d) = Err TypeError).
Proof.
  assert (H1 : history tree_ops (run empty_diagram tree_ops)) by (apply checked_history; vm_compute; reflexivity).
  assert (H2 : history two_joins_ops (run empty_diagram two_joins_ops)) by (apply checked_history; vm_compute; reflexivity).
  split.
  - exists tree_ops, (run empty_diagram tree_ops). split; auto. split.
    + refine (proj1 (C26_api_diagrams_coherent _ _ H1 _)). apply pairs_checked_ok. vm_compute. reflexivity.
    + split; [|vm_compute; reflexivity].
      apply (ranked_acyclic _ _ (pos ["x"; "a"; "b"; "c"; "d"; "e"; "f"]) H1). vm_compute. reflexivity.
  - exists two_joins_ops, (run empty_diagram two_joins_ops). split; auto. split.
    + refine (proj1 (C26_api_diagrams_coherent _ _ H2 _)). apply pairs_checked_ok. vm_compute. reflexivity.
    + split; [apply (ranked_acyclic _ _ (pos ["a"; "b"; "c"; "d"; "j"; "k"]) H2); vm_compute; reflexivity|].
      split; [|vm_compute; reflexivity]. intro n.
      assert (E : forallb (fun x => match dget "outgoing" (snd x) with Some (VList l) => Nat.leb (length l) 1 | _ => false end)
                          (gnodes (dgraph (run empty_diagram two_joins_ops))) = true) by (vm_compute; reflexivity).
      generalize dependent (run empty_diagram two_joins_ops). intros d _ E. unfold outgoing_of, attr, node_of.
      destruct (dget n (gnodes (dgraph d))) as [a|] eqn:Ea; [|simpl; lia]. apply dget_In in Ea.
      rewrite forallb_forall in E. specialize (E _ Ea). simpl in E. destruct (dget "outgoing" a) as [[]|]; try (simpl; lia).
      apply Nat.leb_le. exact E.
Qed.
(** The sort and the waypoint phase of an acyclic diagram never fail: whatever goes
    wrong goes wrong in the grid. *)
Theorem C65_only_the_grid_fails : forall d fuel, coherent d -> all_laid_out d -> acyclic d -> gwf (dgraph d) -> drawable d ->
  sort_bound d <= fuel -> exists s, (let* cls := generate_elements_clasification d in topological_sort fuel d cls) = Ok (s, []) /\
   forall g, grid_layout fuel d s = Ok g -> exists d', generate_layout fuel d = (d', Ok tt).
Proof.
  intros d fuel Co AL A W Dr F. destruct (C26_acyclic_no_backward d Co AL A fuel F) as [s Es]. exists s. split; auto.
  intros g Eg. pose proof Co as [L _]. rewrite (elements_eq d L) in Es. cbn [rbind] in Es.
  pose proof (topo_ok d Co AL fuel s [] Es) as I. destruct (final_facts d Co AL s [] I) as [Ps [Ns _]].
  unfold grid_layout in Eg.
  destruct (grid_loop_ok d (classified d) _ _ _ _ Eg) as [B [new [G1 G2]]].
  { intros x Hx. eapply Permutation_in; [exact Ps|exact Hx]. } { constructor. }
  cbn [fst snd app] in G1, G2. subst new.
  assert (Ng : NoDup (map cnid g)) by (eapply Permutation_NoDup; [symmetry; exact G2|exact Ns]).
  assert (Gn : forall n, is_node d n -> exists c, gfind n g = Ok c).
  { intros n Hn. apply (node_in_orig d Co AL) in Hn.
    assert (Hi : In n (map cnid g)). { eapply Permutation_in; [symmetry; exact G2|].
      eapply Permutation_in; [symmetry; apply Permutation_map; exact Ps|exact Hn]. }
    apply in_map_iff in Hi. destruct Hi as [c [<- Hc]]. exists c. apply gfind_nodup; auto. }
  destruct (coords_does g d Gn) as [d1 E1]. destruct (coords_ok _ _ _ E1) as [K [Ed P]].
  assert (Kp : kept d d1). { pose proof (kept_coords g d) as Kp. rewrite E1 in Kp. exact Kp. }
  assert (Psd : positioned d1).
  { intros n Hn. assert (Hn' : is_node d n) by (unfold is_node in *; rewrite K in Hn; exact Hn).
    destruct (P n Hn') as [c [_ Ac]]. destruct L as [_ L]. destruct (L n Hn') as [[t Ht] _].
    exists (ccol c * 150 + 50)%Z, (crow c * 100 + 50)%Z, (VStr t). split; auto.
    destruct Kp as [_ [Ka _]]. rewrite Ka by discriminate. exact Ht. }
  assert (W1 : gwf (dgraph d1)) by (apply (gwf_same_ends (dgraph d)); auto; rewrite Ed; reflexivity).
  destruct (waypoints_does d1 W1) as [d2 E2].
  { intros t Ht. unfold get_flows, edges_view, dkeys in Ht. rewrite Ed, K in Ht.
    destruct (Dr t Ht) as [a [b [A1 [A2 [A3 A4]]]]]. apply (wpa_total d1 (snd t) a b); auto; unfold is_node; rewrite K; auto. }
  exists d2. eapply layout_does; eauto. apply elements_eq. exact L.
Qed.

Example C65_example : coherent sdemo /\ all_laid_out sdemo /\ acyclic sdemo /\ gwf (dgraph sdemo) /\ drawable sdemo /\
  sort_bound sdemo <= 20.
Proof.
  split; [exact sdemo_coherent|]. split; [exact sdemo_laid|]. split; [exact sdemo_acyclic|].
  destruct (C26_api_diagrams_coherent _ _ sdemo_history sdemo_pairs) as [_ [_ [W [D _]]]]. split; [exact W|]. split; [exact D|].
  assert (E : sort_bound sdemo = 13) by (vm_compute; reflexivity). rewrite E. lia.
Qed.

Print Assumptions C25_classification.
Print Assumptions C26_api_diagrams_coherent.
Print Assumptions C26_topological_order.
Print Assumptions C26_acyclic_no_backward.
Print Assumptions C27_terminates_iff.
Print Assumptions C27_no_other_failure.
Print Assumptions C27_termination_refuted.
Print Assumptions C28_no_overlap.
Print Assumptions C29_exactly_one_position.
Print Assumptions C29_only_drawing.
Print Assumptions C29_only_classified_types.
Print Assumptions C30_waypoints.
Print Assumptions C30_every_gateway_refuted.
Print Assumptions C31_single_predecessor.
Print Assumptions C31_placed_before.
Print Assumptions C31_no_splits.
Print Assumptions C31_all_flows_refuted.
Print Assumptions C32_occupied_raises.
Print Assumptions C32_free_appends.
Print Assumptions C32_makes_room_refuted.
Print Assumptions C33_linear_layout.
Print Assumptions C65_acyclic_success_refuted.
Print Assumptions C65_only_the_grid_fails.
