(** The layout around Splits (C89) and the layout of loops (C90). *)
From Coq Require Import String List Bool Arith ZArith Lia Permutation.
From Verif Require Import Py PyFacts Consts Nx NxFacts Rep SpecRep RepFacts MetricsFacts Classify Layouter
  SpecLayout ClassifyFacts TopoFacts GridFacts LayoutFacts LayoutFacts2 SplitFacts Prop_LayoutMetrics Prop_Layout.
Import ListNotations.
Open Scope string_scope.
Open Scope list_scope.

(** * The cells of a successful layout *)
Lemma laid_cells : forall fuel d d', coherent d -> generate_layout fuel d = (d', Ok tt) ->
  exists T : grown, settled d [] T /\ NoDup (map cnid (map fst T)) /\ built d (classified d) (map fst T) /\
    (forall n, is_node d n -> exists c, In c (map fst T) /\ cnid c = n) /\
    (forall c, In c (map fst T) -> is_node d (cnid c) /\ at_xy d' (cnid c) (ccol c * 150 + 50) (crow c * 100 + 50)).
Proof.
  intros fuel d d' Co H. destruct (layout_facts fuel d d' Co H) as [AL [s [b [g [d1 [Es [Ps [Eg [B [N [Pg [_ [P _]]]]]]]]]]]]].
  pose proof (topo_ok d Co AL fuel s b Es) as I. destruct (final_facts d Co AL s b I) as [_ [Ns _]].
  unfold grid_layout in Eg. destruct (loop_settled d Co _ _ _ _ Eg) as [T [Et St]].
  { intros x Hx. eapply Permutation_in; [exact Ps|exact Hx]. } { exact Ns. }
  cbn [fst snd app] in Et, St. subst g. exists T. split; [exact St|]. split; [exact N|]. split; [exact B|]. split.
  - intros n Hn. destruct (P n Hn) as [c [A1 [A2 _]]]. eauto.
  - intros c Hc. assert (Hn : is_node d (cnid c)) by (unfold is_node; eapply Permutation_in; [exact Pg|]; apply in_map; exact Hc).
    split; auto. destruct (P _ Hn) as [c' [A1 [A2 [A3 [_ A4]]]]]. rewrite (gfind_nodup _ c N Hc) in A3. injection A3 as <-. exact A4.
Qed.

Section Cells.
Variables (d d' : diagram) (T : grown).
Hypothesis Co : coherent d.
Hypothesis St : settled d [] T.
Hypothesis N : NoDup (map cnid (map fst T)).
Hypothesis B : built d (classified d) (map fst T).
Hypothesis Here : forall n, is_node d n -> exists c, In c (map fst T) /\ cnid c = n.
Hypothesis At : forall c, In c (map fst T) -> is_node d (cnid c) /\ at_xy d' (cnid c) (ccol c * 150 + 50) (crow c * 100 + 50).

Lemma cell_same : forall c c', In c (map fst T) -> In c' (map fst T) -> cnid c = cnid c' -> c = c'.
Proof using N.
  intros c c' I I' E. pose proof (gfind_nodup _ c N I) as A. rewrite E, (gfind_nodup _ c' N I') in A. congruence.
Qed.
Lemma entry_same : forall c o c' o', In (c, o) T -> In (c', o') T -> cnid c = cnid c' -> o = o'.
Proof using N.
  clear - N. induction T as [|[x p] t IH]; intros c o c' o' I I' E; [destruct I|]. cbn [map fst] in N. inversion N as [|? ? N1 N2]; subst.
  assert (X : forall y q, In (y, q) t -> In (cnid y) (map cnid (map fst t))).
  { intros y q Hy. rewrite map_map. apply in_map_iff. exists (y, q). auto. }
  destruct I as [I|I], I' as [I'|I'].
  - congruence.
  - injection I as -> ->. exfalso. apply N1. rewrite E. eauto.
  - injection I' as -> ->. exfalso. apply N1. rewrite <- E. eauto.
  - eauto.
Qed.
Lemma entry_of : forall n, is_node d n -> exists T1 c o T2, T = T1 ++ (c, o) :: T2 /\ cnid c = n.
Proof using Here.
  intros n Hn. destruct (Here n Hn) as [c [I E]]. apply in_map_iff in I. destruct I as [[c' o] [X I]]. cbn [fst] in X. subst c'.
  apply in_split in I. destruct I as [T1 [T2 I]]. eauto 6.
Qed.
Lemma split_entry : forall n, split_node d n -> is_node d n.
Proof using Co.
  intros n S. unfold split_node in S. destruct (outgoing_of d n) as [|f l] eqn:E; [cbn in S; lia|].
  eapply outgoing_node with (f := f); eauto. rewrite E. left. reflexivity.
Qed.
(** The target of a flow of a Split comes after it and was placed by it. *)
Lemma placed_by : forall n f m, split_node d n -> flow d f n m ->
  exists T1 c o T2 cm k i, T = T1 ++ (c, o) :: T2 /\ cnid c = n /\ In (cm, Some (n, k, i)) T2 /\ cnid cm = m.
Proof using Co St Here.
  intros n f m S F. destruct (entry_of n (split_entry n S)) as (T1 & c & o & T2 & E & Ec).
  destruct (proj1 St T1 c o T2 E) as (row & ms & _ & _ & _ & H4 & _ & _ & H7); [rewrite Ec; exact S|].
  assert (I : In m ms) by (apply H4; rewrite Ec; eauto). apply In_nth_error in I. destruct I as [i I]. destruct (H7 i m I) as (cm & A & A2 & _).
  rewrite Ec in A. exists T1, c, o, T2, cm, (length ms), i. auto.
Qed.
Lemma split_right : forall n f m cn cm, split_node d n -> flow d f n m -> In cn (map fst T) -> cnid cn = n ->
  In cm (map fst T) -> cnid cm = m -> (ccol cn + 1 <= ccol cm)%Z.
Proof using All.
  intros n f m cn cm S F Hn En Hm Em. destruct (placed_by n f m S F) as (T1 & c & o & T2 & c2 & k & i & E & Ec & I2 & E2).
  assert (Ic : In c (map fst T)) by (rewrite E, map_app; apply in_or_app; right; left; reflexivity).
  assert (I2' : In c2 (map fst T)) by (rewrite E, map_app; apply in_or_app; right; right; apply in_map_iff; exists (c2, Some (n, k, i)); auto).
  assert (c = cn) by (apply cell_same; auto; congruence). assert (c2 = cm) by (apply cell_same; auto; congruence). subst c c2.
  apply in_split in I2. destruct I2 as [T3 [T4 ->]].
  assert (G : map fst T = (map fst T1 ++ cn :: map fst T3) ++ cm :: map fst T4).
  { rewrite E, !map_app. cbn [map fst]. rewrite map_app, <- app_assoc. reflexivity. }
  rewrite <- Em in F. destruct (built_cols d Co _ B N _ cm _ G f n F) as [X _]. apply X; auto. apply in_or_app. right. left. reflexivity.
Qed.
Lemma next_right : forall n f m cn cm, ~ join_node d m -> flow d f n m -> In cn (map fst T) -> cnid cn = n ->
  In cm (map fst T) -> cnid cm = m -> ccol cm = (ccol cn + 1)%Z.
Proof using All.
  intros n f m cn cm J F Hn En Hm Em. pose proof Hm as Hm'. apply in_split in Hm'. destruct Hm' as [g1 [g2 G]].
  rewrite <- Em in F, J. destruct (built_cols d Co _ B N g1 cm g2 G f n F) as [_ X]. destruct (X J) as [c [I [E C]]].
  assert (c = cn); [|congruence]. apply cell_same; auto; [rewrite G; apply in_or_app; auto|congruence].
Qed.
End Cells.

(** * C89 *)
(** Flows that leave a Split run to the right. *)
Theorem C89_left_to_right : forall fuel d d' f n m, coherent d -> generate_layout fuel d = (d', Ok tt) ->
  split_node d n -> flow d f n m -> exists x y x' y', at_xy d' n x y /\ at_xy d' m x' y' /\ (x + 150 <= x')%Z.
Proof.
  intros fuel d d' f n m Co H S F. destruct (laid_cells fuel d d' Co H) as (T & St & N & B & Here & At).
  destruct (Here n) as [cn [In1 E1]]; [eapply outgoing_node; apply F|]. destruct (Here m) as [cm [In2 E2]]; [eapply incoming_node; apply F|].
  pose proof (split_right d d' T Co St N B Here At n f m cn cm S F In1 E1 In2 E2) as X.
  exists (ccol cn * 150 + 50)%Z, (crow cn * 100 + 50)%Z, (ccol cm * 150 + 50)%Z, (crow cm * 100 + 50)%Z.
  rewrite <- E1 at 1. rewrite <- E2. split; [apply At; auto|]. split; [apply At; auto|]. lia.
Qed.

(** At most one flow into a node comes from a Split. *)
Theorem C89_one_split : forall fuel d d' f f' n n' m, coherent d -> generate_layout fuel d = (d', Ok tt) ->
  split_node d n -> split_node d n' -> flow d f n m -> flow d f' n' m -> f = f'.
Proof.
  intros fuel d d' f f' n n' m Co H S S' F F'. destruct (laid_cells fuel d d' Co H) as (T & St & N & B & Here & At).
  destruct (placed_by d T Co St Here n f m S F) as (T1 & c & o & T2 & cm & k & i & E & Ec & I & Em).
  destruct (placed_by d T Co St Here n' f' m S' F') as (T1' & c' & o' & T2' & cm' & k' & i' & E' & Ec' & I' & Em').
  assert (Q : Some (n, k, i) = Some (n', k', i')).
  { apply (entry_same T N cm _ cm' _); [rewrite E; apply in_or_app; right; right; auto|rewrite E'; apply in_or_app; right; right; auto|congruence]. }
  injection Q as <- _ _. destruct (proj1 St T1 c o T2 E) as (row & ms & U & _); [rewrite Ec; exact S|]. rewrite Ec in U. eapply U; eauto.
Qed.

(** The distances of [k] nodes from the middle. *)
Definition fan (k : nat) : list Z :=
  map (fun j => 200 * Z.of_nat j)%Z (seq 1 (Nat.div k 2)) ++ (if Nat.odd k then [0%Z] else []) ++
  map (fun j => - 200 * Z.of_nat j)%Z (seq 1 (Nat.div k 2)).
Lemma fan_row : forall k i row, i < k -> nth_error (fan k) i = Some (100 * (split_row k i row - row))%Z.
Proof.
  intros k i row H. unfold fan, split_row, grid_column_width. pose proof (Nat.div_mod k 2 ltac:(lia)) as D.
  set (h := Nat.div k 2) in *. assert (Lh : length (map (fun j => 200 * Z.of_nat j)%Z (seq 1 h)) = h) by (rewrite map_length, seq_length; reflexivity).
  assert (S : forall j, j < h -> nth_error (seq 1 h) j = Some (S j)).
  { intros j Hj. rewrite (nth_error_nth' _ 0) by (rewrite seq_length; lia). rewrite seq_nth by lia. reflexivity. }
  destruct (Nat.ltb_spec i h) as [L|L].
  - rewrite nth_error_app1 by lia. rewrite nth_error_map, (S i L). cbn [option_map]. destruct (Nat.odd k); f_equal; lia.
  - rewrite nth_error_app2 by lia. rewrite Lh. destruct (Nat.odd k) eqn:O.
    + assert (M : Nat.modulo k 2 = 1) by (rewrite <- Nat.bit0_mod, Nat.bit0_odd, O; reflexivity).
      destruct (Nat.eqb_spec i h) as [-> |Ne].
      * rewrite Nat.sub_diag. cbn [app nth_error]. f_equal. lia.
      * destruct (i - h) as [|j] eqn:Ej; [lia|]. cbn [app nth_error]. rewrite nth_error_map, (S j) by lia. cbn [option_map]. f_equal. lia.
    + assert (M : Nat.modulo k 2 = 0) by (rewrite <- Nat.bit0_mod, Nat.bit0_odd, O; reflexivity).
      cbn [app]. rewrite nth_error_map, (S (i - h)) by lia. cbn [option_map]. f_equal. lia.
Qed.
Lemma some_inj : forall A (a b : A), Some a = Some b -> a = b.
Proof. congruence. Qed.
Lemma fan_length : forall k, length (fan k) = k.
Proof.
  intros k. unfold fan. rewrite !app_length, !map_length, !seq_length. pose proof (Nat.div_mod k 2 ltac:(lia)) as D.
  destruct (Nat.odd k) eqn:O; cbn [length].
  - assert (M : Nat.modulo k 2 = 1) by (rewrite <- Nat.bit0_mod, Nat.bit0_odd, O; reflexivity). lia.
  - assert (M : Nat.modulo k 2 = 0) by (rewrite <- Nat.bit0_mod, Nat.bit0_odd, O; reflexivity). lia.
Qed.
Lemma Forall2_nth : forall A C (R : A -> C -> Prop) l l', length l = length l' ->
  (forall i a c, nth_error l i = Some a -> nth_error l' i = Some c -> R a c) -> Forall2 R l l'.
Proof.
  induction l as [|a l IH]; intros [|c l'] L H; try discriminate; constructor.
  - apply (H 0); reflexivity.
  - apply IH; [injection L; auto|]. intros i x y Hx Hy. apply (H (S i)); auto.
Qed.

Lemma fan_around : forall fuel d d' n row0 x0, coherent d -> generate_layout fuel d = (d', Ok tt) -> split_node d n ->
  forall T, settled d [] T -> NoDup (map cnid (map fst T)) -> built d (classified d) (map fst T) ->
  (forall n, is_node d n -> exists c, In c (map fst T) /\ cnid c = n) ->
  (forall c, In c (map fst T) -> is_node d (cnid c) /\ at_xy d' (cnid c) (ccol c * 150 + 50) (crow c * 100 + 50)) ->
  (forall cn, In cn (map fst T) -> cnid cn = n -> ccol cn = x0) ->
  (forall T1 c o T2 row ms, T = T1 ++ (c, o) :: T2 -> cnid c = n ->
     (o = None -> row = crow c) ->
     (forall p k i, o = Some (p, k, i) -> ~ join_node d (cnid c) -> exists cp, In cp (map fst T1) /\ cnid cp = p /\ row = crow cp) ->
     (forall i m, nth_error ms i = Some m -> exists cm, In (cm, Some (cnid c, length ms, i)) T2 /\ cnid cm = m /\
       (~ join_node d m \/ split_row (length ms) i row <> 0%Z -> crow cm = split_row (length ms) i row)) -> row = row0) ->
  exists ms, NoDup ms /\ (forall m, In m ms <-> exists f, flow d f n m) /\
    Forall2 (fun m o => ~ join_node d m -> at_xy d' m (x0 * 150 + 50 + 150) (row0 * 100 + 50 + o)) ms (fan (length ms)).
Proof.
  intros fuel d d' n row0 x0 Co H S T St N B Here At Ex Er.
  destruct (entry_of d T Here n (split_entry d Co n S)) as (T1 & c & o & T2 & E & Ec).
  destruct (proj1 St T1 c o T2 E) as (row & ms & _ & _ & H3 & H4 & H5 & H6 & H7); [rewrite Ec; exact S|].
  pose proof (Er T1 c o T2 row ms E Ec H5 H6 H7) as R. subst row0. exists ms. split; [exact H3|]. split; [rewrite <- Ec; exact H4|].
  apply Forall2_nth; [rewrite fan_length; reflexivity|]. intros i m z Hm Hz J.
  assert (L : i < length ms) by (apply nth_error_Some; congruence). rewrite (fan_row _ i row L) in Hz. apply some_inj in Hz. rewrite <- Hz.
  destruct (H7 i m Hm) as (cm & I & Em & Rm). assert (Im : In cm (map fst T)).
  { rewrite E, map_app. apply in_or_app. right. right. apply in_map_iff. eexists. split; [|exact I]. reflexivity. }
  assert (Ic : In c (map fst T)) by (rewrite E, map_app; apply in_or_app; right; left; reflexivity).
  assert (Hf : exists f, flow d f n m) by (rewrite <- Ec; apply H4; eapply nth_error_In; eauto). destruct Hf as [f F].
  pose proof (next_right d d' T Co St N B Here At n f m c cm J F Ic Ec Im Em) as C. destruct (At cm Im) as [_ A]. rewrite Em in A.
  rewrite (Ex c Ic Ec) in C. replace (x0 * 150 + 50 + 150)%Z with (ccol cm * 150 + 50)%Z by lia.
  replace (row * 100 + 50 + 100 * (split_row (length ms) i row - row))%Z with (crow cm * 100 + 50)%Z by (rewrite Rm by auto; lia). exact A.
Qed.

(** The nodes after a Split are fanned out in the next column, evenly above and below the
    Split, unless they are Joins; [ms] are the nodes in the order of the rows. *)
Theorem C89_fan : forall fuel d d' n, coherent d -> generate_layout fuel d = (d', Ok tt) -> split_node d n ->
  (forall f p, flow d f p n -> ~ split_node d p) ->
  exists x y ms, at_xy d' n x y /\ NoDup ms /\ (forall m, In m ms <-> exists f, flow d f n m) /\
    Forall2 (fun m o => ~ join_node d m -> at_xy d' m (x + 150) (y + o)) ms (fan (length ms)).
Proof.
  intros fuel d d' n Co H S Np. destruct (laid_cells fuel d d' Co H) as (T & St & N & B & Here & At).
  destruct (Here n (split_entry d Co n S)) as [cn [Icn Ecn]].
  destruct (fan_around fuel d d' n (crow cn) (ccol cn) Co H S T St N B Here At) as (ms & M1 & M2 & M3).
  - intros c I E. assert (c = cn) by (apply (cell_same T N); auto; congruence). congruence.
  - intros T1 c o T2 row ms E Ec H5 H6 H7.
    assert (Ic : In c (map fst T)) by (rewrite E, map_app; apply in_or_app; right; left; reflexivity).
    assert (c = cn) by (apply (cell_same T N); auto; congruence). subst cn. destruct o as [[[p k] i]|]; [|apply H5; reflexivity].
    exfalso. destruct (proj2 St c p k i) as [Sp [f F]]; [rewrite E; apply in_or_app; right; left; reflexivity|]. rewrite Ec in F. eapply Np; eauto.
  - exists (ccol cn * 150 + 50)%Z, (crow cn * 100 + 50)%Z, ms. rewrite <- Ecn at 1. split; [apply At; auto|]. auto.
Qed.

(** A Split right after a Split [p] does not fan its nodes out around itself: they stand
    around [p]. *)
Theorem C89_nested : forall fuel d d' f p n, coherent d -> generate_layout fuel d = (d', Ok tt) -> split_node d n ->
  ~ join_node d n -> flow d f p n -> split_node d p ->
  exists x y ms, at_xy d' p x y /\ NoDup ms /\ (forall m, In m ms <-> exists f, flow d f n m) /\
    Forall2 (fun m o => ~ join_node d m -> at_xy d' m (x + 300) (y + o)) ms (fan (length ms)).
Proof.
  intros fuel d d' f p n Co H S J F Sp. destruct (laid_cells fuel d d' Co H) as (T & St & N & B & Here & At).
  destruct (Here n (split_entry d Co n S)) as [cn [Icn Ecn]]. destruct (Here p (split_entry d Co p Sp)) as [cp [Icp Ecp]].
  pose proof (next_right d d' T Co St N B Here At p f n cp cn J F Icp Ecp Icn Ecn) as Cn.
  destruct (fan_around fuel d d' n (crow cp) (ccol cp + 1) Co H S T St N B Here At) as (ms & M1 & M2 & M3).
  - intros c I E. assert (c = cn) by (apply (cell_same T N); auto; congruence). congruence.
  - intros T1 c o T2 row ms E Ec H5 H6 H7.
    destruct (placed_by d T Co St Here p f n Sp F) as (T1' & c' & o' & T2' & cm & k & i & E' & Ec' & I & Em).
    assert (Eo : o = Some (p, k, i)).
    { apply (entry_same T N c _ cm _); [rewrite E; apply in_or_app; right; left; reflexivity|rewrite E'; apply in_or_app; right; right; auto|congruence]. }
    destruct (H6 p k i Eo) as [cp' [I' [Ep ->]]]; [rewrite Ec; exact J|].
    assert (cp' = cp); [|congruence]. apply (cell_same T N); auto; [|congruence]. rewrite E, map_app. apply in_or_app. auto.
  - exists (ccol cp * 150 + 50)%Z, (crow cp * 100 + 50)%Z, ms. rewrite <- Ecp at 1. split; [apply At; auto|]. split; auto. split; auto.
    replace (ccol cp * 150 + 50 + 300)%Z with ((ccol cp + 1) * 150 + 50 + 150)%Z by lia. exact M3.
Qed.

(** So two Splits after one Split cannot be laid out: their nodes would get the same
    places. *)
Theorem C89_sibling_splits_fail : forall fuel d p f1 f2 n1 n2, coherent d -> split_node d p ->
  flow d f1 p n1 -> flow d f2 p n2 -> n1 <> n2 ->
  split_node d n1 -> split_node d n2 -> ~ join_node d n1 -> ~ join_node d n2 ->
  (forall f m, flow d f n1 m \/ flow d f n2 m -> ~ join_node d m) ->
  snd (generate_layout fuel d) <> Ok tt.
Proof.
  intros fuel d p f1 f2 n1 n2 Co Sp F1 F2 Ne S1 S2 J1 J2 Jm C.
  assert (H : generate_layout fuel d = (fst (generate_layout fuel d), Ok tt)) by (destruct (generate_layout fuel d); cbn in *; congruence).
  destruct (C89_nested fuel d _ f1 p n1 Co H S1 J1 F1 Sp) as (x & y & ms & Ap & N1 & I1 & A1).
  destruct (C89_nested fuel d _ f2 p n2 Co H S2 J2 F2 Sp) as (x2 & y2 & ms2 & Ap2 & N2 & I2 & A2).
  assert (x2 = x /\ y2 = y).
  { destruct Ap as [X Y], Ap2 as [X2 Y2]. rewrite X in X2. rewrite Y in Y2. injection X2 as X2. injection Y2 as Y2.
    apply zstr_inj in X2. apply zstr_inj in Y2. auto. }
  destruct H0 as [-> ->].
  assert (K : forall l n, split_node d n -> NoDup l -> (forall m, In m l <-> exists f, flow d f n m) ->
    Forall2 (fun m o => ~ join_node d m -> at_xy (fst (generate_layout fuel d)) m (x + 300) (y + o)) l (fan (length l)) ->
    (forall f m, flow d f n m -> ~ join_node d m) -> exists m f, flow d f n m /\ at_xy (fst (generate_layout fuel d)) m (x + 300) (y + 200)).
  { intros l n S Nl Il Al Jl. assert (L : 2 <= length l).
    { destruct (outgoing_of d n) as [|g1 [|g2 gs]] eqn:Eo; try (unfold split_node in S; rewrite Eo in S; cbn in S; lia).
      destruct (out_flow d Co n g1) as [m1 G1]; [rewrite Eo; left; reflexivity|]. destruct (out_flow d Co n g2) as [m2 G2]; [rewrite Eo; right; left; reflexivity|].
      assert (Nm : m1 <> m2).
      { intros <-. assert (g1 = g2) by (eapply (C89_one_split fuel d _ g1 g2 n n m1); eauto). subst g2.
        pose proof Co as [_ [Cd _]]. destruct (Cd n (split_entry d Co n S)) as [_ Nd]. rewrite Eo in Nd. inversion Nd as [|? ? X _]. apply X. left. reflexivity. }
      assert (X : incl [m1; m2] l) by (intros z [<- |[<- |[]]]; apply Il; eauto).
      apply (NoDup_incl_length (l := [m1; m2])); auto. constructor; [intros [->|[]]; auto|]. constructor; [intros []|constructor]. }
    destruct l as [|m l]; [cbn in L; lia|]. assert (I : In m (m :: l)) by (left; reflexivity). apply Il in I. destruct I as [f F]. exists m, f. split; auto.
    inversion Al as [|? z ? zs A0 _ E0 E1]; subst.
    assert (z = 200%Z).
    { pose proof (fan_row (length (m :: l)) 0 0 ltac:(cbn; lia)) as Q. cbn [length] in Q, E1. rewrite <- E1 in Q. cbn [nth_error] in Q. apply some_inj in Q. rewrite Q.
      unfold split_row, grid_column_width. cbn [length] in L. assert (Hh : Nat.ltb 0 (Nat.div (Datatypes.S (length l)) 2) = true).
      { apply Nat.ltb_lt. apply Nat.div_str_pos. lia. }
      rewrite Hh. destruct (Nat.odd (Datatypes.S (length l))); reflexivity. }
    subst z. apply A0. eauto. }
  destruct (K ms n1 S1 N1 I1 A1) as (m1 & g1 & G1 & P1); [eauto|]. destruct (K ms2 n2 S2 N2 I2 A2) as (m2 & g2 & G2 & P2); [eauto|].
  assert (m1 = m2).
  { eapply (C28_no_overlap fuel d _ m1 m2 (x + 300) (y + 200)); eauto; eapply incoming_node; [apply G1|apply G2]. }
  subst m2. assert (g1 = g2) by (eapply (C89_one_split fuel d _ g1 g2 n1 n2 m1); eauto). subst g2.
  apply Ne. destruct G1 as [_ [_ G1]], G2 as [_ [_ G2]]. apply (proj1 (goes_fun d _ _ _ _ _ G1 G2)).
Qed.

(** * C90 *)
Lemma step_right : forall fuel d d' f n m, coherent d -> generate_layout fuel d = (d', Ok tt) -> flow d f n m ->
  split_node d n \/ ~ join_node d m -> exists x y x' y', at_xy d' n x y /\ at_xy d' m x' y' /\ (x + 150 <= x')%Z.
Proof.
  intros fuel d d' f n m Co H F [S|J]; [eapply C89_left_to_right; eauto|].
  destruct (C31_single_predecessor fuel d d' f n m Co H F J) as (x & y & y' & A & A'). exists x, y, (x + 150)%Z, y'. split; auto. split; auto. lia.
Qed.
(** A loop can only be laid out if one of its flows leads into a Join and comes from a
    node with no other flow out. *)
Theorem C90_loop_closed_by : forall fuel d d' l, coherent d -> generate_layout fuel d = (d', Ok tt) -> cycle d l ->
  exists f n m, In n l /\ In m l /\ flow d f n m /\ ~ split_node d n /\ join_node d m.
Proof.
  intros fuel d d' l Co H [a P].
  assert (X : forall a l b, path d a l b -> (exists f n m, In n l /\ In m (l ++ [b]) /\ flow d f n m /\ ~ split_node d n /\ join_node d m) \/
    exists x y x' y', at_xy d' a x y /\ at_xy d' b x' y' /\ (x + 150 <= x')%Z).
  { assert (D : forall f n m, flow d f n m -> (~ split_node d n /\ join_node d m) \/ exists x y x' y', at_xy d' n x y /\ at_xy d' m x' y' /\ (x + 150 <= x')%Z).
    { intros f n m F. destruct (le_dec 2 (length (outgoing_of d n))) as [S|S]; [right; eapply step_right; eauto|].
      destruct (le_dec 2 (length (incoming_of d m))) as [J|J]; [left; split; auto|right; eapply step_right; eauto]. }
    clear P. induction 1 as [f n m F|f n m l1 k F P' IH].
    - destruct (D f n m F) as [Q|Q]; [left|right; exact Q]. exists f, n, m. split; [left; reflexivity|]. split; [right; left; reflexivity|]. auto.
    - destruct (D f n m F) as [Q|Q].
      + left. exists f, n, m. split; [left; reflexivity|]. split; [|auto]. right. apply in_or_app. inversion P'; subst; left; left; reflexivity.
      + destruct IH as [(f' & n' & m' & A1 & A2 & A3)|(x & y & x' & y' & B1 & B2 & B3)].
        * left. exists f', n', m'. split; [right; auto|]. split; [right; auto|]. auto.
        * destruct Q as (u & v & u' & v' & C1 & C2 & C3). right. exists u, v, x', y'. split; auto. split; auto.
          destruct C2 as [C2 _], B1 as [B1 _]. rewrite B1 in C2. injection C2 as C2. apply zstr_inj in C2. lia. }
  destruct (X a l a P) as [(f & n & m & A1 & A2 & A3)|(x & y & x' & y' & B1 & B2 & B3)].
  - exists f, n, m. split; auto. split; auto. apply in_app_or in A2. destruct A2 as [A2|[<- |[]]]; auto. inversion P; subst; left; reflexivity.
  - exfalso. destruct B1 as [B1 _], B2 as [B2 _]. rewrite B1 in B2. injection B2 as B2. apply zstr_inj in B2. lia.
Qed.

(** The sort deals with all loops that can be entered. *)
Inductive entered (d : diagram) : string -> Prop :=
| entered_root : forall n, is_node d n -> incoming_of d n = [] -> entered d n
| entered_next : forall f n m, entered d n -> flow d f n m -> entered d m.
Lemma entered_join : forall d, coherent d -> (forall n, is_node d n -> entered d n) ->
  forall l, cycle d l -> exists n, In n l /\ join_node d n.
Proof.
  intros d Co En l [a P].
  assert (Pre : forall a l b, path d a l b -> forall m, In m (tl (l ++ [b])) -> exists f n, In n l /\ flow d f n m).
  { induction 1 as [f n m F|f n m l' k F P' IH]; intros z Hz.
    - cbn in Hz. destruct Hz as [<- |[]]. exists f, n. split; [left; reflexivity|auto].
    - cbn [app tl] in Hz. destruct l' as [|w l']; [inversion P'|]. cbn [app] in Hz. destruct Hz as [<- |Hz].
      + assert (w = m) by (inversion P'; auto). subst w. exists f, n. split; [left; reflexivity|auto].
      + destruct (IH z) as (f' & n' & A & A'); [exact Hz|]. exists f', n'. split; [right; auto|auto]. }
  assert (Cyc : forall m, In m l -> exists f n, In n l /\ flow d f n m).
  { intros m Hm. destruct l as [|w l]; [destruct Hm|]. assert (w = a) by (inversion P; auto). subst w. apply (Pre a (a :: l) a P).
    cbn [app tl]. apply in_or_app. destruct Hm as [<- |Hm]; [right; left; reflexivity|left; auto]. }
  destruct (existsb (fun n => Nat.leb 2 (length (incoming_of d n))) l) eqn:X.
  - apply existsb_exists in X. destruct X as [n [A A']]. exists n. split; auto. apply Nat.leb_le. auto.
  - exfalso. assert (Nj : forall n, In n l -> ~ join_node d n).
    { intros n Hn C. assert (existsb (fun n => Nat.leb 2 (length (incoming_of d n))) l = true); [|congruence].
      apply existsb_exists. exists n. split; auto. apply Nat.leb_le. auto. }
    assert (Out : forall n, entered d n -> ~ In n l).
    { induction 1 as [n Hn E|f n m _ IH F]; intros C.
      - destruct (Cyc n C) as (f & p & _ & F). pose proof F as [_ [F' _]]. rewrite E in F'. destruct F'.
      - destruct (Cyc m C) as (f' & p & Hp & F'). assert (Nf : f <> f').
        { intros <-. destruct F as [_ [_ F]], F' as [_ [_ F']]. destruct (goes_fun d _ _ _ _ _ F F') as [-> _]. auto. }
        apply (Nj m C). unfold join_node. apply (NoDup_incl_length (l := [f; f'])).
        + constructor; [intros [->|[]]; auto|]. constructor; [intros []|constructor].
        + intros z [<- |[<- |[]]]; [apply F|apply F']. }
    destruct l as [|w l]; [inversion P|]. apply (Out w); [|left; reflexivity]. apply En. destruct (Cyc w) as (f & n & _ & F); [left; reflexivity|].
    eapply incoming_node; apply F.
Qed.
Theorem C90_order_found : forall d fuel, coherent d -> all_laid_out d -> (forall n, is_node d n -> entered d n) ->
  sort_bound d <= fuel -> exists s b, (let* cls := generate_elements_clasification d in topological_sort fuel d cls) = Ok (s, b).
Proof.
  intros d fuel Co AL En F. apply (proj1 (C27_terminates_iff d Co AL)); auto. apply entered_join; auto.
Qed.
(** Then whatever goes wrong goes wrong in the grid. *)
Theorem C90_only_the_grid_fails : forall d fuel s b g, coherent d -> all_laid_out d -> gwf (dgraph d) -> drawable d ->
  (let* cls := generate_elements_clasification d in topological_sort fuel d cls) = Ok (s, b) ->
  grid_layout fuel d s = Ok g -> exists d', generate_layout fuel d = (d', Ok tt).
Proof.
  intros d fuel s b g Co AL W Dr Es Eg. pose proof Co as [L _]. rewrite (elements_eq d L) in Es. cbn [rbind] in Es.
  pose proof (topo_ok d Co AL fuel s b Es) as I. destruct (final_facts d Co AL s b I) as [Ps [Ns _]].
  unfold grid_layout in Eg.
  destruct (grid_loop_ok d (classified d) _ _ _ _ Eg) as [B [new [G1 G2]]].
  { intros x Hx. eapply Permutation_in; [exact Ps|exact Hx]. } { constructor. }
  cbn [fst snd app] in G1, G2. subst new.
  assert (Ng : NoDup (map cnid g)) by (eapply Permutation_NoDup; [symmetry; exact G2|exact Ns]).
  assert (Gn : forall n, is_node d n -> exists c, gfind n g = Ok c).
  { intros n Hn. apply (node_in_orig d Co AL) in Hn.
    assert (Hi : In n (map cnid g)). { eapply Permutation_in; [symmetry; exact G2|].
      eapply Permutation_in; [symmetry; apply Permutation_map; exact Ps|exact Hn]. }
    apply in_map_iff in Hi. destruct Hi as [c [<- Hc]]. exists c. apply gfind_nodup; auto. }
  destruct (coords_does g d Gn) as [d1 E1]. destruct (coords_ok _ _ _ E1) as [K [Ed P]].
  assert (Kp : kept d d1). { pose proof (kept_coords g d) as Kp. rewrite E1 in Kp. exact Kp. }
  assert (Psd : positioned d1).
  { intros n Hn. assert (Hn' : is_node d n) by (unfold is_node in *; rewrite K in Hn; exact Hn).
    destruct (P n Hn') as [c [_ Ac]]. destruct L as [_ L]. destruct (L n Hn') as [[t Ht] _].
    exists (ccol c * 150 + 50)%Z, (crow c * 100 + 50)%Z, (VStr t). split; auto.
    destruct Kp as [_ [Ka _]]. rewrite Ka by discriminate. exact Ht. }
  assert (W1 : gwf (dgraph d1)) by (apply (gwf_same_ends (dgraph d)); auto; rewrite Ed; reflexivity).
  destruct (waypoints_does d1 W1) as [d2 E2].
  { intros t Ht. unfold get_flows, edges_view, dkeys in Ht. rewrite Ed, K in Ht.
    destruct (Dr t Ht) as [a [c [A1 [A2 [A3 A4]]]]]. apply (wpa_total d1 (snd t) a c); auto; unfold is_node; rewrite K; auto. }
  exists d2. eapply layout_does; eauto. apply elements_eq. exact L.
Qed.
(** A loop in which every flow leaves a Split or leads to a node with no other flow in is
    never laid out. *)
Theorem C90_split_loops_fail : forall fuel d l, coherent d -> cycle d l ->
  (forall f n m, In n l -> In m l -> flow d f n m -> split_node d n \/ ~ join_node d m) ->
  snd (generate_layout fuel d) <> Ok tt.
Proof.
  intros fuel d l Co C X E.
  assert (H : generate_layout fuel d = (fst (generate_layout fuel d), Ok tt)) by (destruct (generate_layout fuel d); cbn in *; congruence).
  destruct (C90_loop_closed_by fuel d _ l Co H C) as (f & n & m & A1 & A2 & A3 & A4 & A5). destruct (X f n m A1 A2 A3); auto.
Qed.

(** * Examples *)
Lemma flow_known : forall l d f s t, history l d -> distinct_pairs d -> dget f (seq_flows d) = Some (mkFlow "" s t) -> flow d f s t.
Proof.
  intros l d f s t H P E. destruct (C26_api_diagrams_coherent l d H P) as [_ [_ [_ [_ F]]]]. apply F. eexists. split; [exact E|split; reflexivity].
Qed.
Definition split_b (d : diagram) (n : string) : bool := Nat.leb 2 (length (outgoing_of d n)).
Definition join_b (d : diagram) (n : string) : bool := Nat.leb 2 (length (incoming_of d n)).
Lemma split_b_ok : forall d n, split_b d n = true -> split_node d n.
Proof. intros d n H. apply Nat.leb_le. exact H. Qed.
Lemma split_b_no : forall d n, split_b d n = false -> ~ split_node d n.
Proof. intros d n H C. apply Nat.leb_gt in H. unfold split_node in C. lia. Qed.
Lemma join_b_no : forall d n, join_b d n = false -> ~ join_node d n.
Proof. intros d n H C. apply Nat.leb_gt in H. unfold join_node in C. lia. Qed.

(** A choice with three ways, one of them with another choice. *)
Definition ways_ops : list op :=
  [ONew "m" "0"; OStart "id2" "s" None false true (Some "s") "" ""; OExclusive "id2" "g" "Diverging" None (Some "g") "";
   OTask "id2" "a" (Some "a") ""; OExclusive "id2" "h" "Diverging" None (Some "h") ""; OTask "id2" "c" (Some "c") "";
   OTask "id2" "p" (Some "p") ""; OTask "id2" "q" (Some "q") "";
   OFlow "id2" "s" "g" "" "10"; OFlow "id2" "g" "a" "" "11"; OFlow "id2" "g" "h" "" "12"; OFlow "id2" "g" "c" "" "13";
   OFlow "id2" "h" "p" "" "14"; OFlow "id2" "h" "q" "" "15"].
Definition ways : diagram := run empty_diagram ways_ops.
Lemma ways_history : history ways_ops ways.
Proof. apply checked_history. vm_compute. reflexivity. Qed.
Lemma ways_pairs : distinct_pairs ways.
Proof. apply pairs_checked_ok. vm_compute. reflexivity. Qed.
Lemma only_flow : forall l d f p n, history l d -> distinct_pairs d -> flow d f p n ->
  exists r, In (f, r) (seq_flows d) /\ fl_src r = p /\ fl_tgt r = n.
Proof.
  intros l d f p n H P F. destruct (C26_api_diagrams_coherent l d H P) as [_ [_ [_ [_ X]]]]. apply X in F. destruct F as [r [E Q]].
  exists r. split; auto. apply dget_In. exact E.
Qed.
Lemma no_split_before : forall l d n, history l d -> distinct_pairs d ->
  forallb (fun p => negb (String.eqb (fl_tgt (snd p)) n) || negb (split_b d (fl_src (snd p)))) (seq_flows d) = true ->
  forall f p, flow d f p n -> ~ split_node d p.
Proof.
  intros l d n H P X f p F. destruct (only_flow l d f p n H P F) as (r & I & <- & E). rewrite forallb_forall in X. specialize (X _ I). cbn [snd] in X.
  rewrite E, eqb_refl' in X. cbn [negb orb] in X. apply split_b_no. apply negb_true_iff. exact X.
Qed.
(** The choice h is drawn at the height 450, but its nodes at 50 and 450, around g. *)
Example C89_example : coherent ways /\ split_node ways "g" /\ (forall f p, flow ways f p "g" -> ~ split_node ways p) /\
  flow ways "id12" "g" "h" /\ split_node ways "h" /\ ~ join_node ways "h" /\
  (exists d', generate_layout 30 ways = (d', Ok tt)) /\ fan 3 = [200; 0; -200]%Z /\ fan 2 = [200; -200]%Z /\
  positions 30 ways = Ok [("s", Some (VStr "200"), Some (VStr "250")); ("g", Some (VStr "350"), Some (VStr "250"));
    ("a", Some (VStr "500"), Some (VStr "50")); ("h", Some (VStr "500"), Some (VStr "450")); ("c", Some (VStr "500"), Some (VStr "250"));
    ("p", Some (VStr "650"), Some (VStr "50")); ("q", Some (VStr "650"), Some (VStr "450"))].
Proof.
  split; [exact (proj1 (C26_api_diagrams_coherent _ _ ways_history ways_pairs))|]. split; [apply split_b_ok; vm_compute; reflexivity|].
  split; [apply (no_split_before _ _ _ ways_history ways_pairs); vm_compute; reflexivity|].
  split; [apply (flow_known _ _ _ _ _ ways_history ways_pairs); vm_compute; reflexivity|].
  split; [apply split_b_ok; vm_compute; reflexivity|]. split; [apply join_b_no; vm_compute; reflexivity|].
  split; [eexists; vm_compute; reflexivity|]. split; [vm_compute; reflexivity|]. split; vm_compute; reflexivity.
Qed.
(** The binary tree of C65. *)
Example C89_sibling_splits_fail_example : forall fuel, snd (generate_layout fuel (run empty_diagram tree_ops)) <> Ok tt.
Proof.
  assert (H : history tree_ops (run empty_diagram tree_ops)) by (apply checked_history; vm_compute; reflexivity).
  assert (P : distinct_pairs (run empty_diagram tree_ops)) by (apply pairs_checked_ok; vm_compute; reflexivity).
  pose proof (flow_known _ _ "id10" "x" "a" H P ltac:(vm_compute; reflexivity)) as F1.
  pose proof (flow_known _ _ "id11" "x" "b" H P ltac:(vm_compute; reflexivity)) as F2.
  assert (S : split_b (run empty_diagram tree_ops) "x" = true /\ split_b (run empty_diagram tree_ops) "a" = true /\ split_b (run empty_diagram tree_ops) "b" = true)
    by (vm_compute; auto).
  assert (J : forallb (fun n => negb (join_b (run empty_diagram tree_ops) n)) (node_keys (run empty_diagram tree_ops)) = true) by (vm_compute; reflexivity).
  pose proof (proj1 (C26_api_diagrams_coherent _ _ H P)) as Co.
  generalize dependent (run empty_diagram tree_ops). intros d H P F1 F2 [S1 [S2 S3]] J Co fuel.
  assert (Nj : forall n, is_node d n -> ~ join_node d n).
  { intros n Hn. apply join_b_no. rewrite forallb_forall in J. specialize (J n Hn). apply negb_true_iff. exact J. }
  apply (C89_sibling_splits_fail fuel d "x" "id10" "id11" "a" "b"); auto using split_b_ok; try discriminate.
  - apply Nj. apply (split_entry d Co). apply split_b_ok. exact S2.
  - apply Nj. apply (split_entry d Co). apply split_b_ok. exact S3.
  - intros f m [F|F]; apply Nj; eapply incoming_node; apply F.
Qed.

(** A step that is repeated until it succeeds: the layout raises IndexError, although
    every node can be reached from the start and an order is found. *)
Definition retry_ops : list op :=
  [ONew "m" "0"; OStart "id2" "s" None false true (Some "s") "" ""; OTask "id2" "a" (Some "a") ""; OTask "id2" "b" (Some "b") "";
   OExclusive "id2" "g" "Diverging" None (Some "g") ""; OEnd "id2" "e" None (Some "e") "" "";
   OFlow "id2" "s" "a" "" "10"; OFlow "id2" "a" "b" "" "11"; OFlow "id2" "b" "g" "" "12"; OFlow "id2" "g" "e" "" "13"; OFlow "id2" "g" "a" "" "14"].
Definition retry : diagram := run empty_diagram retry_ops.
Lemma retry_history : history retry_ops retry.
Proof. apply checked_history. vm_compute. reflexivity. Qed.
Lemma retry_pairs : distinct_pairs retry.
Proof. apply pairs_checked_ok. vm_compute. reflexivity. Qed.
Lemma five_entered : forall d, incoming_of d "s" = [] -> node_keys d = ["s"; "a"; "b"; "g"; "e"] ->
  flow d "id10" "s" "a" -> flow d "id11" "a" "b" -> flow d "id12" "b" "g" -> flow d "id13" "g" "e" -> forall n, is_node d n -> entered d n.
Proof.
  intros d Es K F1 F2 F3 F4 n Hn. assert (E1 : entered d "s") by (apply entered_root; [unfold is_node; fold (node_keys d); rewrite K; left; reflexivity|exact Es]).
  assert (E2 : entered d "a") by (eapply entered_next; eauto). assert (E3 : entered d "b") by (eapply entered_next; eauto).
  assert (E4 : entered d "g") by (eapply entered_next; eauto). assert (E5 : entered d "e") by (eapply entered_next; eauto).
  unfold is_node in Hn. fold (node_keys d) in Hn. rewrite K in Hn. destruct Hn as [<- |[<- |[<- |[<- |[<- |[]]]]]]; assumption.
Qed.
Theorem C90_loops_refuted : exists l d, history l d /\ coherent d /\ all_laid_out d /\ drawable d /\
  (forall n, is_node d n -> entered d n) /\ sort_bound d <= 30 /\ snd (generate_layout 30 d) = Err IndexError /\
  (forall fuel, snd (generate_layout fuel d) <> Ok tt).
Proof.
  exists retry_ops, retry. destruct (C26_api_diagrams_coherent _ _ retry_history retry_pairs) as [Co [AL [_ [Dr _]]]].
  split; [exact retry_history|]. split; [exact Co|]. split; [exact AL|]. split; [exact Dr|].
  pose proof (flow_known _ _ "id10" "s" "a" retry_history retry_pairs ltac:(vm_compute; reflexivity)) as F1.
  pose proof (flow_known _ _ "id11" "a" "b" retry_history retry_pairs ltac:(vm_compute; reflexivity)) as F2.
  pose proof (flow_known _ _ "id12" "b" "g" retry_history retry_pairs ltac:(vm_compute; reflexivity)) as F3.
  pose proof (flow_known _ _ "id13" "g" "e" retry_history retry_pairs ltac:(vm_compute; reflexivity)) as F4.
  pose proof (flow_known _ _ "id14" "g" "a" retry_history retry_pairs ltac:(vm_compute; reflexivity)) as F5.
  split; [|split; [|split]].
  - assert (Es : incoming_of retry "s" = []) by (vm_compute; reflexivity). assert (K : node_keys retry = ["s"; "a"; "b"; "g"; "e"]) by (vm_compute; reflexivity).
    apply five_entered; assumption.
  - assert (E : sort_bound retry = 11) by (vm_compute; reflexivity). rewrite E. lia.
  - vm_compute. reflexivity.
  - assert (S : split_b retry "g" = true /\ join_b retry "b" = false /\ join_b retry "g" = false) by (vm_compute; auto).
    assert (Sn : forallb (fun p => String.eqb (fl_src (snd p)) "g" || negb (String.eqb (fl_tgt (snd p)) "a") || String.eqb (fl_src (snd p)) "s") (seq_flows retry) = true) by (vm_compute; reflexivity).
    pose proof retry_history as H. pose proof retry_pairs as P. clear AL Dr. generalize dependent retry. intros d Co F1 F2 F3 F4 F5 [S1 [S2 S3]] Sn H P fuel.
    apply (C90_split_loops_fail fuel d ["a"; "b"; "g"]); auto.
    + exists "a". eapply path_more; [exact F2|]. eapply path_more; [exact F3|]. eapply path_one. exact F5.
    + intros f n m In1 In2 F. destruct In1 as [<- |[<- |[<- |[]]]]; [| |left; apply split_b_ok; exact S1].
      all: right; destruct In2 as [<- |[<- |[<- |[]]]]; try (apply join_b_no; assumption); exfalso.
      all: destruct (only_flow _ d f _ _ H P F) as (r & I & E1 & E2); rewrite forallb_forall in Sn; specialize (Sn _ I); cbn [snd] in Sn;
        rewrite E1, E2 in Sn; discriminate.
Qed.
(** With a task on the way back it is laid out. *)
Definition redo_ops : list op :=
  [ONew "m" "0"; OStart "id2" "s" None false true (Some "s") "" ""; OTask "id2" "a" (Some "a") ""; OTask "id2" "b" (Some "b") "";
   OExclusive "id2" "g" "Diverging" None (Some "g") ""; OEnd "id2" "e" None (Some "e") "" ""; OTask "id2" "c" (Some "c") "";
   OFlow "id2" "s" "a" "" "10"; OFlow "id2" "a" "b" "" "11"; OFlow "id2" "b" "g" "" "12"; OFlow "id2" "g" "e" "" "13"; OFlow "id2" "g" "c" "" "14"; OFlow "id2" "c" "a" "" "15"].
Definition redo : diagram := run empty_diagram redo_ops.
Lemma redo_history : history redo_ops redo.
Proof. apply checked_history. vm_compute. reflexivity. Qed.
Lemma redo_pairs : distinct_pairs redo.
Proof. apply pairs_checked_ok. vm_compute. reflexivity. Qed.
Example C90_example : coherent redo /\ cycle redo ["a"; "b"; "g"; "c"] /\ (exists d', generate_layout 30 redo = (d', Ok tt)) /\
  positions 30 redo = Ok [("s", Some (VStr "200"), Some (VStr "250")); ("a", Some (VStr "350"), Some (VStr "150"));
    ("b", Some (VStr "500"), Some (VStr "150")); ("g", Some (VStr "650"), Some (VStr "150")); ("e", Some (VStr "800"), Some (VStr "350"));
    ("c", Some (VStr "800"), Some (VStr "-50"))].
Proof.
  split; [exact (proj1 (C26_api_diagrams_coherent _ _ redo_history redo_pairs))|]. split; [|split; [eexists; vm_compute; reflexivity|vm_compute; reflexivity]].
  pose proof (flow_known _ _ "id11" "a" "b" redo_history redo_pairs ltac:(vm_compute; reflexivity)) as F2.
  pose proof (flow_known _ _ "id12" "b" "g" redo_history redo_pairs ltac:(vm_compute; reflexivity)) as F3.
  pose proof (flow_known _ _ "id14" "g" "c" redo_history redo_pairs ltac:(vm_compute; reflexivity)) as F4.
  pose proof (flow_known _ _ "id15" "c" "a" redo_history redo_pairs ltac:(vm_compute; reflexivity)) as F5.
  generalize dependent redo. intros d F2 F3 F4 F5. exists "a". eapply path_more; [exact F2|]. eapply path_more; [exact F3|]. eapply path_more; [exact F4|].
  eapply path_one. exact F5.
Qed.

Print Assumptions C89_left_to_right.
Print Assumptions C89_one_split.
Print Assumptions C89_fan.
Print Assumptions C89_nested.
Print Assumptions C89_sibling_splits_fail.
Print Assumptions C90_loop_closed_by.
Print Assumptions C90_order_found.
Print Assumptions C90_only_the_grid_fails.
Print Assumptions C90_split_loops_fail.
Print Assumptions C90_loops_refuted.
