(** Segments and crossings reported for automatically laid out diagrams of any shape (C107). *)
From Coq Require Import String List Bool Arith ZArith QArith Lia Permutation.
From Verif Require Import Py PyFacts Consts Nx NxFacts Rep SpecRep RepFacts MetricsFacts Classify Layouter LayoutMetrics SpecLayoutMetrics
  SpecLayout ClassifyFacts TopoFacts GridFacts LayoutFacts LayoutFacts2 GeomFacts CrossFacts Prop_Layout Prop_LayoutMetrics SpecBlocks SpecFlat SpecPlan PlanFacts PlanBlocks PlanRules Prop_BlockLayout
  SpecOptions OptionShape OptionPlan Prop_Options SameFacts SpecCrossing CrossGrid CrossPicture RouteFacts Prop_Crossing Prop_Splits SpecCells Prop_Cells SpecLines.
Import ListNotations.
Open Scope string_scope.
Open Scope list_scope.
Open Scope nat_scope.

(** ** The lines of a laid out diagram *)
Definition line_of (d : diagram) (t : string * string * attrs) (w : list (Z * Z)) : Prop :=
  exists s m sx sy tx ty, dget "sourceRef" (snd t) = Some (VStr s) /\ dget "targetRef" (snd t) = Some (VStr m) /\
    at_xy d s sx sy /\ at_xy d m tx ty /\ w = corners (usual_gateway_b d s) (usual_gateway_b d m) sx sy tx ty.
Lemma all_exist : forall A B (R : A -> B -> Prop) l, (forall x, In x l -> exists y, R x y) -> exists m, Forall2 R l m.
Proof.
  intros A B R. induction l as [|x l IH]; intro H; [exists []; constructor|]. destruct (H x (or_introl eq_refl)) as [y Hy].
  destruct IH as [m Hm]; [intros z Hz; apply H; right; exact Hz|]. exists (y :: m). constructor; assumption.
Qed.
Lemma line_drawn : forall fuel d d' t w pf, coherent d -> gwf (dgraph d) -> generate_layout fuel d = (d', Ok tt) -> reads_integers pf ->
  In t (get_flows d') -> line_of d' t w -> drawn pf t (map qpt w).
Proof.
  intros fuel d d' t w pf Co W H Rf Ht (s & m & sx & sy & tx & ty & Es & Et & As & At & ->). eexists. split.
  - exact (layout_routes fuel d d' t s m sx sy tx ty Co W H Ht Es Et As At).
  - generalize (corners (usual_gateway_b d' s) (usual_gateway_b d' m) sx sy tx ty). intro l. induction l as [|q l IH]; [constructor|]. cbn [map]. constructor; [|exact IH].
    unfold qpt, zpt. cbn [px py fst snd]. split; apply Rf.
Qed.
Lemma line_some : forall d t w, line_of d t w -> w <> [].
Proof. intros d t w (s & m & sx & sy & tx & ty & _ & _ & _ & _ & ->). unfold corners. destruct (usual_gateway_b d s); [discriminate|]. destruct (_ && _); discriminate. Qed.
Lemma level_ys : forall d s m sx sy tx ty, at_xy d s sx sy -> at_xy d m tx ty -> level d s m = Z.eqb sy ty.
Proof.
  intros d s m sx sy tx ty [_ A] [_ B]. unfold level. rewrite A, B. destruct (Z.eqb_spec sy ty) as [->|N]; [apply String.eqb_refl|].
  apply String.eqb_neq. intro E. apply N. apply zstr_inj. exact E.
Qed.
Lemma line_length : forall d t w, line_of d t w -> length w = if bent d t then 3 else 2.
Proof.
  intros d t w (s & m & sx & sy & tx & ty & Es & Et & As & At & ->). unfold bent. rewrite Es, Et, (level_ys d s m sx sy tx ty As At). unfold corners.
  destruct (usual_gateway_b d s); [reflexivity|]. cbn [orb]. destruct (usual_gateway_b d m && negb (Z.eqb sy ty)); reflexivity.
Qed.
Lemma lines_drawn : forall fuel d d' pf, coherent d -> gwf (dgraph d) -> generate_layout fuel d = (d', Ok tt) -> reads_integers pf ->
  exists ws, Forall2 (line_of d') (get_flows d') ws /\
    get_flows_segments pf (get_flows d') = Ok (concat (map (fun w => polyline (map qpt w)) ws)).
Proof.
  intros fuel d d' pf Co W H Rf. destruct (all_exist _ _ (line_of d') (get_flows d')) as [ws F].
  { intros t Ht. destruct (C30_waypoints fuel d d' t Co W H Ht) as (s & m & sx & sy & tx & ty & _ & _ & _ & A & B & C & D & _). eexists. exists s, m, sx, sy, tx, ty. auto 10. }
  exists ws. split; [exact F|]. rewrite <- (map_map (map qpt) polyline). apply flows_segments_ok.
  - assert (X : forall t w, In t (get_flows d') -> line_of d' t w -> drawn pf t (map qpt w)) by (intros t w; apply (line_drawn fuel d d' t w pf Co W H Rf)).
    clear - F X. induction F as [|t w ts ws L F IH]; [constructor|]. cbn [map]. constructor; [apply X; [left; reflexivity|exact L]|]. apply IH. intros u v Hu. apply X. right. exact Hu.
  - intros ps Hp. apply in_map_iff in Hp. destruct Hp as (w & <- & Hw). clear - F Hw. induction F as [|t v ts ws L F IH]; [destruct Hw|].
    destruct Hw as [<-|Hw]; [|exact (IH Hw)]. apply line_some in L. destruct v; [congruence|discriminate].
Qed.
Lemma concat_count : forall A B (f : A -> list B) l, length (concat (map f l)) = list_sum (map (fun x => length (f x)) l).
Proof. intros A B f. induction l as [|x l IH]; [reflexivity|]. cbn [map concat]. rewrite app_length, IH. reflexivity. Qed.

(** ** Segments *)
(** In a laid out diagram each flow is drawn as one segment, or as two if it leaves a gateway
    or comes to a gateway from another row. *)
Theorem C107_segments : forall fuel d d' pyfloat, coherent d -> gwf (dgraph d) -> generate_layout fuel d = (d', Ok tt) -> reads_integers pyfloat ->
  count_segments pyfloat d' = Ok (length (get_flows d) + length (filter (bent d') (get_flows d'))).
Proof.
  intros fuel d d' pf Co W H Rf. destruct (lines_drawn fuel d d' pf Co W H Rf) as (ws & F & E). unfold count_segments. rewrite E. cbn [rbind]. f_equal.
  pose proof (C29_only_drawing fuel d) as O. rewrite H in O. cbn [fst] in O. destruct O as (_ & _ & Of & _). rewrite (Forall2_len _ _ _ _ _ Of).
  rewrite concat_count. clear - F. induction F as [|t w ts ws L F IH]; [reflexivity|]. cbn [map list_sum fold_right filter length]. change (fold_right Nat.add 0) with list_sum. rewrite IH.
  rewrite polyline_length, map_length, (line_length d' t w L). destruct (bent d' t); cbn [length]; lia.
Qed.
Lemma filter_le : forall A (f : A -> bool) l, length (filter f l) <= length l.
Proof. intros A f. induction l as [|x l IH]; [apply le_n|]. cbn [filter length]. destruct (f x); cbn [length]; lia. Qed.
(** So there are at most twice as many segments as flows, and as many as flows if there is no
    gateway. *)
Theorem C107_bounds : forall fuel d d' pyfloat, coherent d -> gwf (dgraph d) -> generate_layout fuel d = (d', Ok tt) -> reads_integers pyfloat ->
  exists n, count_segments pyfloat d' = Ok n /\ length (get_flows d) <= n <= 2 * length (get_flows d) /\
    ((forall m, is_node d m -> ~ usual_gateway d m) -> n = length (get_flows d)).
Proof.
  intros fuel d d' pf Co W H Rf. eexists. split; [exact (C107_segments fuel d d' pf Co W H Rf)|].
  pose proof (C29_only_drawing fuel d) as O. rewrite H in O. cbn [fst] in O. destruct O as (_ & Oa & Of & _). pose proof (Forall2_len _ _ _ _ _ Of) as L.
  pose proof (filter_le _ (bent d') (get_flows d')). split; [lia|]. intro N. rewrite filter_none; [cbn [length]; lia|].
  assert (G : forall n, usual_gateway_b d' n = false).
  { intro n. apply not_true_is_false. intro G. assert (U : usual_gateway d n).
    { apply usual_b. unfold usual_gateway_b in *. rewrite Oa in G by discriminate. exact G. }
    apply (N n); [|exact U]. destruct U as (t & E & _). eapply is_node_attr; exact E. }
  intros t Ht. unfold bent. destruct (dget "sourceRef" (snd t)) as [v|]; [destruct v|]; try reflexivity. destruct (dget "targetRef" (snd t)) as [v|]; [destruct v|]; try reflexivity.
  rewrite !G. reflexivity.
Qed.

(** ** Separate sequences *)
Lemma pc_none : forall l, (forall a b, In a l -> In b l -> crossb a b = false) -> pc l = 0.
Proof.
  induction l as [|a l IH]; intro H; [reflexivity|]. cbn [pc]. rewrite IH by (intros x y Hx Hy; apply H; right; assumption).
  rewrite filter_none; [reflexivity|]. intros b Hb. apply H; [left; reflexivity|right; exact Hb].
Qed.
(** A piece of a line from the middle of a cell towards the next. *)
Definition step_seg (r c : Z) (s : zseg) : Prop := exists u, (cx c <= u <= lx (c + 1))%Z /\ s = ((cx c, yy r), (u, yy r)).
Lemma steps_apart : forall r c r' c' s t, step_seg r c s -> step_seg r' c' t -> zcross s t = false.
Proof.
  intros r c r' c' s t (u & U & ->) (v & V & ->). destruct (Z.eq_dec r r') as [<-|R].
  - destruct (Z.eq_dec c c') as [<-|C].
    + unfold zcross. assert (E : zeqb (cx c, yy r) (cx c, yy r) = true) by (apply zeqb_iff; reflexivity). rewrite E. cbn [orb negb]. apply andb_false_r.
    + destruct (Z_lt_le_dec c c'); [|rewrite zcross_sym]; apply apart_x; unfold cx, lx in *; lia.
  - apply apart_y. unfold yy. lia.
Qed.
(** A diagram without splits and joins is drawn without a single crossing. *)
Theorem C107_sequences : forall d L fuel pyfloat, coherent d -> all_laid_out d -> gwf (dgraph d) -> drawable d ->
  (forall n, ~ split_node d n /\ ~ join_node d n) -> acyclic d -> flows_are d L -> (forall x y, In (x, y) L -> goes d x y) ->
  reads_integers pyfloat -> sort_bound d <= fuel ->
  exists d', generate_layout fuel d = (d', Ok tt) /\ count_crossing_points pyfloat d' = Ok 0 /\
    count_segments pyfloat d' = Ok (length L + length (filter (fun p => usual_gateway_b d (fst p)) L)).
Proof.
  intros d L fuel pf Co AL W Dr Ns Ac (l' & Fl & Pe) Go Rf Fu.
  destruct (C95_sequences d fuel Co AL W Dr Ns Ac Fu) as (d' & firsts & H & _ & _ & Nx). exists d'. split; [exact H|].
  pose proof (C29_only_drawing fuel d) as O. rewrite H in O. cbn [fst] in O. destruct O as (_ & Oa & Of & _).
  assert (Gt : forall n, usual_gateway_b d' n = usual_gateway_b d n) by (intro n; unfold usual_gateway_b; rewrite Oa by discriminate; reflexivity).
  assert (Fl' : Forall2 (fun t p => dget "sourceRef" (snd t) = Some (VStr (fst p)) /\ dget "targetRef" (snd t) = Some (VStr (snd p))) (get_flows d') l').
  { clear - Fl Of. revert l' Fl. induction Of as [|t t' ts ts' [_ K] Of IH]; intros l' Fl; inversion Fl as [|u q us qs [R1 R2] Fl']; subst; constructor; [|apply IH; exact Fl'].
    rewrite !K by discriminate. split; assumption. }
  assert (Cell : forall n, is_node d n -> exists r c, in_cell d' n r c).
  { destruct (C29_exactly_one_position fuel d d' Co H) as (g & P & _ & _ & A). intros n Hn. unfold is_node in Hn. apply (Permutation_in _ (Permutation_sym P)) in Hn.
    apply in_map_iff in Hn. destruct Hn as (c & <- & Hc). exists (crow c), (ccol c). apply A. exact Hc. }
  assert (Row : forall x y, In (x, y) l' -> exists r c, in_cell d' x r c /\ in_cell d' y r (c + 1)).
  { intros x y Hp. apply (Permutation_in _ Pe) in Hp. apply Go in Hp. destruct Hp as (f & Ff).
    assert (Nd : is_node d x) by (eapply outgoing_node; apply Ff). destruct (Cell x Nd) as (r & c & X). exists r, c. split; [exact X|]. exact (Nx f x y r c Ff X). }
  destruct (lines_drawn fuel d d' pf Co W H Rf) as (ws & F & E).
  assert (Each : forall t w, In t (get_flows d') -> line_of d' t w -> exists r c, forall s, In s (polyline (map qpt w)) -> exists z, s = qseg z /\ step_seg r c z).
  { intros t w Ht (s & m & sx & sy & tx & ty & Es & Et & As & At & ->).
    assert (Hp : In (s, m) l').
    { clear - Fl' Ht Es Et. induction Fl' as [|u q us qs [R1 R2] F IH]; [destruct Ht|]. destruct Ht as [->|Ht]; [left; destruct q; cbn [fst snd] in *; congruence|right; auto]. }
    destruct (Row s m Hp) as (r & c & X & Y). destruct (at_xy_same d' s _ _ _ _ As X) as [-> ->]. destruct (at_xy_same d' m _ _ _ _ At Y) as [-> ->].
    exists r, c. rewrite polyline_route. intros z Hz. apply in_map_iff in Hz. destruct Hz as (v & <- & Hv). exists v. split; [reflexivity|]. unfold route in Hv. rewrite Z.eqb_refl in Hv.
    destruct (usual_gateway_b d' s).
    - destruct Hv as [<-|[<-|[]]]; eexists; (split; [|reflexivity]); unfold cx, lx; lia.
    - destruct Hv as [<-|[]]; eexists; (split; [|reflexivity]); unfold cx, lx; lia. }
  assert (All : forall s, In s (concat (map (fun w => polyline (map qpt w)) ws)) -> exists r c z, s = qseg z /\ step_seg r c z).
  { intros s Hs. apply in_concat in Hs. destruct Hs as (p & Hp & Hs). apply in_map_iff in Hp. destruct Hp as (w & <- & Hw).
    assert (T : exists t, In t (get_flows d') /\ line_of d' t w).
    { clear - F Hw. induction F as [|t v ts vs Lt F IH]; [destruct Hw|]. destruct Hw as [<-|Hw]; [exists t; split; [left; reflexivity|exact Lt]|].
      destruct (IH Hw) as (u & Hu & Lu). exists u. split; [right; exact Hu|exact Lu]. }
    destruct T as (t & Ht & Lt). destruct (Each t w Ht Lt) as (r & c & X). destruct (X s Hs) as (z & A & B). exists r, c, z. auto. }
  split.
  - unfold count_crossing_points. rewrite E. cbn [rbind]. f_equal. rewrite loop_pc, (pc_perm _ _ (Permutation_sym (Permutation_rev _))). apply pc_none.
    intros a b Ha Hb. destruct (All a Ha) as (r & c & z & -> & Sz). destruct (All b Hb) as (r' & c' & z' & -> & Sz').
    rewrite cross_zcross; [exact (steps_apart r c r' c' z z' Sz Sz')| |]; [destruct Sz as (u & _ & ->)|destruct Sz' as (u & _ & ->)]; right; reflexivity.
  - rewrite (C107_segments fuel d d' pf Co W H Rf). f_equal. rewrite (Forall2_len _ _ _ _ _ Fl), (Permutation_length Pe). f_equal.
    rewrite <- (filter_perm_len _ (fun p => usual_gateway_b d (fst p)) _ _ Pe). clear - Fl' Row Gt. induction Fl' as [|t p ts ps [R1 R2] F IH]; [reflexivity|]. cbn [filter].
    assert (X : bent d' t = usual_gateway_b d (fst p)).
    { unfold bent. rewrite R1, R2. destruct p as [x y]. cbn [fst snd]. destruct (Row x y (or_introl eq_refl)) as (r & c & A & B).
      rewrite (level_ys d' x y _ _ _ _ A B), Z.eqb_refl, andb_false_r, orb_false_r. apply Gt. }
    assert (Y := IH (fun x y Hp => Row x y (or_intror Hp))). rewrite X. destruct (usual_gateway_b d (fst p)); cbn [length]; rewrite Y; reflexivity.
Qed.

(** ** Wide splits *)
Lemma pc_app : forall l m, pc l <= pc (l ++ m).
Proof. induction l as [|a l IH]; intro m; [cbn [pc app]; lia|]. cbn [pc app]. rewrite filter_app, app_length. specialize (IH m). lia. Qed.
Lemma take_out : forall A (l m : list A), NoDup l -> (forall x, In x l -> In x m) -> exists r, Permutation m (l ++ r).
Proof.
  intros A. induction l as [|x l IH]; intros m N I; [exists m; reflexivity|]. inversion N as [|? ? Nx Nl]; subst.
  destruct (in_split x m (I x (or_introl eq_refl))) as (m1 & m2 & ->). destruct (IH (m1 ++ m2) Nl) as (r & P).
  { intros y Hy. specialize (I y (or_intror Hy)). apply in_app_iff in I. apply in_or_app. destruct I as [I|[<-|I]]; auto. contradiction. }
  exists r. cbn [app]. rewrite <- P. apply Permutation_sym, Permutation_middle.
Qed.
(** The two segments of a flow that leaves a gateway for a node in the next column. *)
Definition leaving (x y o : Z) : list zseg := [((x, y), (x, y + o)); ((x, y + o), (x + 100, y + o))]%Z.
Definition one_side (o o' : Z) : bool := Z.ltb 0 o && Z.ltb 0 o' || Z.ltb o 0 && Z.ltb o' 0.
Lemma same_start : forall a b c, zcross (a, b) (a, c) = false.
Proof. intros [a1 a2] [b1 b2] [c1 c2]. unfold zcross. assert (E : zeqb (a1, a2) (a1, a2) = true) by (apply zeqb_iff; reflexivity). rewrite E. cbn [orb negb]. apply andb_false_r. Qed.
Lemma leaving_two : forall x y o o', o <> o' -> between zcross (leaving x y o) (leaving x y o') = if one_side o o' then 1 else 0.
Proof.
  intros x y o o' N. unfold leaving. cbn [between filter]. rewrite same_start.
  assert (A : zcross ((x, y), (x, y + o)%Z) ((x, y + o')%Z, (x + 100, y + o')%Z) = Z.ltb (Z.min y (y + o)) (y + o') && Z.ltb (y + o') (Z.max y (y + o))) by (apply upright; lia).
  assert (B : zcross ((x, y + o)%Z, (x + 100, y + o)%Z) ((x, y), (x, y + o')%Z) = Z.ltb (Z.min y (y + o')) (y + o) && Z.ltb (y + o) (Z.max y (y + o'))) by (rewrite zcross_sym; apply upright; lia).
  assert (C : zcross ((x, y + o)%Z, (x + 100, y + o)%Z) ((x, y + o')%Z, (x + 100, y + o')%Z) = false) by (apply apart_y; lia).
  rewrite A, B, C. unfold one_side.
  destruct (Z.ltb_spec (Z.min y (y + o)) (y + o')), (Z.ltb_spec (y + o') (Z.max y (y + o))), (Z.ltb_spec (Z.min y (y + o')) (y + o)), (Z.ltb_spec (y + o) (Z.max y (y + o'))),
    (Z.ltb_spec 0 o), (Z.ltb_spec 0 o'), (Z.ltb_spec o 0), (Z.ltb_spec o' 0); cbn [andb orb length Nat.add]; try reflexivity; exfalso; lia.
Qed.
Lemma side_fan : forall k, pairs one_side (Prop_Splits.fan k) = (k / 2) * (k / 2 - 1).
Proof.
  intro k. unfold Prop_Splits.fan. set (h := k / 2). set (u := map (fun j => 200 * Z.of_nat j)%Z (seq 1 h)). set (v := map (fun j => - 200 * Z.of_nat j)%Z (seq 1 h)).
  assert (U : forall a, In a u -> (0 < a)%Z) by (intros a Ha; apply in_map_iff in Ha; destruct Ha as (j & <- & Hj); apply in_seq in Hj; lia).
  assert (V : forall a, In a v -> (a < 0)%Z) by (intros a Ha; apply in_map_iff in Ha; destruct Ha as (j & <- & Hj); apply in_seq in Hj; lia).
  assert (Lu : length u = h) by (unfold u; rewrite map_length, seq_length; reflexivity). assert (Lv : length v = h) by (unfold v; rewrite map_length, seq_length; reflexivity).
  assert (Pu : 2 * pairs one_side u = h * (h - 1)).
  { rewrite <- Lu. apply pairs_all. intros a b Ha Hb. apply U in Ha, Hb. unfold one_side. apply Z.ltb_lt in Ha, Hb. rewrite Ha, Hb. reflexivity. }
  assert (Pv : 2 * pairs one_side v = h * (h - 1)).
  { rewrite <- Lv. apply pairs_all. intros a b Ha Hb. apply V in Ha, Hb. unfold one_side. apply Z.ltb_lt in Ha, Hb. rewrite Ha, Hb. apply orb_true_r. }
  assert (Z0 : forall a m, (forall b, In b m -> (b <= 0)%Z) -> (0 < a)%Z -> forall b, In b m -> one_side a b = false).
  { intros a m M A b Hb. apply M in Hb. unfold one_side. destruct (Z.ltb_spec 0 a), (Z.ltb_spec 0 b), (Z.ltb_spec a 0), (Z.ltb_spec b 0); try reflexivity; exfalso; lia. }
  rewrite pairs_app, (between_zero _ one_side u).
  2:{ intros a b Ha Hb. apply (Z0 a ((if Nat.odd k then [0%Z] else []) ++ v)); [|apply U; exact Ha|exact Hb]. intros c Hc. apply in_app_iff in Hc. destruct Hc as [Hc|Hc]; [|apply V in Hc; lia].
      destruct (Nat.odd k); [destruct Hc as [<-|[]]; lia|destruct Hc]. }
  rewrite pairs_app, (between_zero _ one_side (if Nat.odd k then [0%Z] else [])).
  2:{ intros a b Ha Hb. apply V in Hb. destruct (Nat.odd k); [|destruct Ha]. destruct Ha as [<-|[]]. unfold one_side. reflexivity. }
  assert (P0 : pairs one_side (if Nat.odd k then [0%Z] else []) = 0) by (destruct (Nat.odd k); reflexivity). rewrite P0. lia.
Qed.
Lemma flow_by_id_in : forall d f t, get_flow_by_id f d = Ok (Some t) -> In t (get_flows d).
Proof.
  intros d f t. unfold get_flow_by_id. induction (get_flows d) as [|u l IH]; cbn [first_flow]; [discriminate|]. destruct (dgetE k_id (snd u)) as [v|]; [|discriminate]. cbn [rbind].
  destruct (veqs v f); [intro H; injection H as <-; left; reflexivity|]. intro H. right. auto.
Qed.
Lemma leaving_alone : forall x y o, pairs zcross (leaving x y o) = 0.
Proof.
  intros. unfold leaving. cbn [pairs filter].
  assert (E : zcross (x, y, (x, (y + o)%Z)) (x, (y + o)%Z, ((x + 100)%Z, (y + o)%Z)) = false); [|rewrite E; reflexivity].
  unfold zcross. assert (E : zeqb (x, y + o)%Z (x, y + o)%Z = true) by (apply zeqb_iff; reflexivity). rewrite E, !orb_true_r. apply andb_false_r.
Qed.
Lemma leaving_distinct : forall x y os, NoDup os -> NoDup (flat_map (leaving x y) os).
Proof.
  intros x y. induction os as [|o os IH]; intro N; [constructor|]. inversion N as [|? ? No Nos]; subst. cbn [flat_map]. apply NoDup_app_intro; [|apply IH; exact Nos|].
  - unfold leaving. constructor; [|repeat constructor; intros []]. intros [C|[]]. injection C; lia.
  - intros s Hs Ht. apply in_flat_map in Ht. destruct Ht as (o' & Ho & Ht). apply No. replace o with o'; [exact Ho|].
    unfold leaving in *. destruct Hs as [<-|[<-|[]]], Ht as [Ht|[Ht|[]]]; injection Ht; lia.
Qed.
Lemma qseg_inj : forall s t, qseg s = qseg t -> s = t.
Proof. intros [[a b] [c d]] [[a' b'] [c' d']] H. injection H as -> -> -> ->. reflexivity. Qed.
Lemma fan_distinct : forall k, NoDup (Prop_Splits.fan k).
Proof.
  intro k. unfold Prop_Splits.fan. set (h := k / 2).
  assert (U : forall a, In a (map (fun j => 200 * Z.of_nat j)%Z (seq 1 h)) -> (0 < a)%Z) by (intros a Ha; apply in_map_iff in Ha; destruct Ha as (j & <- & Hj); apply in_seq in Hj; lia).
  assert (V : forall a, In a (map (fun j => - 200 * Z.of_nat j)%Z (seq 1 h)) -> (a < 0)%Z) by (intros a Ha; apply in_map_iff in Ha; destruct Ha as (j & <- & Hj); apply in_seq in Hj; lia).
  apply NoDup_app_intro; [apply FinFun.Injective_map_NoDup; [intros a b; lia|apply seq_NoDup]|apply NoDup_app_intro|].
  - destruct (Nat.odd k); repeat constructor. intros [].
  - apply FinFun.Injective_map_NoDup; [intros a b; lia|apply seq_NoDup].
  - intros a Ha Hb. apply V in Hb. destruct (Nat.odd k); [|destruct Ha]. destruct Ha as [<-|[]]. lia.
  - intros a Ha Hb. apply U in Ha. apply in_app_iff in Hb. destruct Hb as [Hb|Hb]; [|apply V in Hb; lia]. destruct (Nat.odd k); [|destruct Hb]. destruct Hb as [<-|[]]. lia.
Qed.
(** A gateway that splits the flow into four or more branches always makes crossings: the
    line to an outer branch runs along the middle of the gateway and meets the lines to the
    inner branches of the same side. *)
Theorem C107_wide_split : forall fuel d d' n ms pyfloat, coherent d -> gwf (dgraph d) -> generate_layout fuel d = (d', Ok tt) -> reads_integers pyfloat ->
  usual_gateway d n -> split_node d n -> (forall f p, flow d f p n -> ~ split_node d p) -> (forall f m, flow d f n m -> ~ join_node d m) ->
  lists (goes d n) ms ->
  exists k, count_crossing_points pyfloat d' = Ok k /\ length ms / 2 * (length ms / 2 - 1) <= k.
Proof.
  intros fuel d d' n ms0 pf Co W H Rf Un Sn Np Nj [Nm Lm].
  destruct (C89_fan fuel d d' n Co H Sn Np) as (x & y & ms & An & Nd & Hm & Fan).
  assert (Pm : Permutation ms0 ms) by (apply NoDup_Permutation; auto; intro m; rewrite Lm, Hm; reflexivity). rewrite (Permutation_length Pm).
  destruct (lines_drawn fuel d d' pf Co W H Rf) as (ws & F & E). unfold count_crossing_points. rewrite E. cbn [rbind]. eexists. split; [reflexivity|].
  rewrite loop_pc, (pc_perm _ _ (Permutation_sym (Permutation_rev _))).
  pose proof (C29_only_drawing fuel d) as O. rewrite H in O. cbn [fst] in O. destruct O as (_ & Oa & Of & _).
  assert (Gn : usual_gateway_b d' n = true) by (apply usual_b in Un; unfold usual_gateway_b in *; rewrite Oa by discriminate; exact Un).
  set (os := Prop_Splits.fan (length ms)) in *.
  destruct (take_out _ (map qseg (flat_map (leaving (x + 50) (y + 50)) os)) (concat (map (fun w => polyline (map qpt w)) ws))) as (r & P).
  - apply FinFun.Injective_map_NoDup; [intros a b; apply qseg_inj|]. apply leaving_distinct. apply fan_distinct.
  - intros s Hs. apply in_map_iff in Hs. destruct Hs as (z & <- & Hz). apply in_flat_map in Hz. destruct Hz as (o & Ho & Hz).
    assert (M : exists m, In m ms /\ (~ join_node d m -> at_xy d' m (x + 150) (y + o))).
    { clear - Fan Ho. induction Fan as [|m o' l l' A Fan IH]; [destruct Ho|]. destruct Ho as [->|Ho]; [exists m; split; [left; reflexivity|exact A]|].
      destruct (IH Ho) as (m' & I & B). exists m'. split; [right; exact I|exact B]. }
    destruct M as (m & Im & Am). apply Hm in Im. destruct Im as (f & Ff). specialize (Am (Nj f m Ff)). destruct Ff as (_ & _ & t0 & Ht0 & S0 & T0). apply flow_by_id_in in Ht0.
    assert (T : exists t, In t (get_flows d') /\ dget "sourceRef" (snd t) = Some (VStr n) /\ dget "targetRef" (snd t) = Some (VStr m)).
    { clear - Of Ht0 S0 T0. induction Of as [|u u' us us' [_ K] Of IH]; [destruct Ht0|]. destruct Ht0 as [->|Ht0].
      - exists u'. split; [left; reflexivity|]. rewrite !K by discriminate. auto.
      - destruct (IH Ht0) as (t & I & Q). exists t. split; [right; exact I|exact Q]. }
    destruct T as (t & Ht & St & Tt).
    assert (V : exists w, In w ws /\ line_of d' t w).
    { clear - F Ht. induction F as [|u w us ws L F IH]; [destruct Ht|]. destruct Ht as [->|Ht]; [exists w; split; [left; reflexivity|exact L]|].
      destruct (IH Ht) as (v & I & Q). exists v. split; [right; exact I|exact Q]. }
    destruct V as (w & Iw & s' & m' & sx & sy & tx & ty & Es & Et & As & At & ->). rewrite St in Es. rewrite Tt in Et. injection Es as <-. injection Et as <-.
    destruct (at_xy_same d' n _ _ _ _ As An) as [-> ->]. destruct (at_xy_same d' m _ _ _ _ At Am) as [-> ->]. rewrite Gn in Iw.
    apply in_concat. eexists. split; [apply in_map_iff; eexists; split; [reflexivity|exact Iw]|]. cbn [corners map polyline].
    destruct Hz as [<-|[<-|[]]]; unfold qseg; cbn [fst snd].
    + left. do 3 f_equal; cbn [fst snd]; lia.
    + right. left. f_equal; f_equal; f_equal; cbn [fst snd]; lia.
  - rewrite (pc_perm _ _ P). eapply Nat.le_trans; [|apply pc_app]. rewrite pc_pairs.
    + rewrite (pairs_groups _ _ zcross one_side (leaving (x + 50) (y + 50)) os); [unfold os; rewrite side_fan; apply le_n|intros o _; apply leaving_alone|].
      pose proof (fan_distinct (length ms)) as N. fold os in N. clear - N. induction os as [|o os IH]; constructor; inversion N as [|? ? No Nos]; subst; [|apply IH; exact Nos].
      apply Forall_forall. intros o' Ho. apply leaving_two. intros ->. contradiction.
    + intros s Hs. apply in_flat_map in Hs. destruct Hs as (o & _ & Hs). destruct Hs as [<-|[<-|[]]]; [left|right]; reflexivity.
Qed.

(** ** Flows that come to a gateway from below *)
Lemma line_found : forall fuel d d' n m sx sy tx ty ws, coherent d -> generate_layout fuel d = (d', Ok tt) -> goes d n m ->
  Forall2 (line_of d') (get_flows d') ws -> at_xy d' n sx sy -> at_xy d' m tx ty ->
  In (corners (usual_gateway_b d' n) (usual_gateway_b d' m) sx sy tx ty) ws.
Proof.
  intros fuel d d' n m sx sy tx ty ws Co H (f & Ff) F An Am. pose proof (C29_only_drawing fuel d) as O. rewrite H in O. cbn [fst] in O. destruct O as (_ & Oa & Of & _).
  destruct Ff as (_ & _ & t0 & Ht0 & S0 & T0). apply flow_by_id_in in Ht0.
  assert (T : exists t, In t (get_flows d') /\ dget "sourceRef" (snd t) = Some (VStr n) /\ dget "targetRef" (snd t) = Some (VStr m)).
  { clear - Of Ht0 S0 T0. induction Of as [|u u' us us' [_ K] Of IH]; [destruct Ht0|]. destruct Ht0 as [->|Ht0].
    - exists u'. split; [left; reflexivity|]. rewrite !K by discriminate. auto.
    - destruct (IH Ht0) as (t & I & Q). exists t. split; [right; exact I|exact Q]. }
  destruct T as (t & Ht & St & Tt). clear - F Ht St Tt An Am. induction F as [|u w us ws L F IH]; [destruct Ht|]. destruct Ht as [->|Ht]; [left|right; exact (IH Ht)].
  destruct L as (s' & m' & ax & ay & bx & by_ & Es & Et & As & At & ->). rewrite St in Es. rewrite Tt in Et. injection Es as <-. injection Et as <-.
  destruct (at_xy_same d' n _ _ _ _ As An) as [-> ->]. destruct (at_xy_same d' m _ _ _ _ At Am) as [-> ->]. reflexivity.
Qed.
(** A flow that comes to a gateway from a lower row is drawn through the middle of the gateway,
    where the flows that leave the gateway begin. *)
Theorem C107_from_below : forall fuel d d' s n m sx sy nx ny mx pyfloat, coherent d -> gwf (dgraph d) -> generate_layout fuel d = (d', Ok tt) -> reads_integers pyfloat ->
  goes d s n -> goes d n m -> usual_gateway d n -> ~ usual_gateway d s ->
  at_xy d' s sx sy -> at_xy d' n nx ny -> at_xy d' m mx ny -> (ny < sy)%Z ->
  exists k, count_crossing_points pyfloat d' = Ok k /\ 2 <= k.
Proof.
  intros fuel d d' s n m sx sy nx ny mx pf Co W H Rf G1 G2 Un Us As An Am Lt.
  destruct (lines_drawn fuel d d' pf Co W H Rf) as (ws & F & E). unfold count_crossing_points. rewrite E. cbn [rbind]. eexists. split; [reflexivity|].
  rewrite loop_pc, (pc_perm _ _ (Permutation_sym (Permutation_rev _))).
  pose proof (C29_only_drawing fuel d) as O. rewrite H in O. cbn [fst] in O. destruct O as (_ & Oa & _ & _).
  assert (Gn : usual_gateway_b d' n = true) by (apply usual_b in Un; unfold usual_gateway_b in *; rewrite Oa by discriminate; exact Un).
  assert (Gs : usual_gateway_b d' s = false).
  { apply not_true_is_false. intro C. apply Us, usual_b. unfold usual_gateway_b in *. rewrite Oa in C by discriminate. exact C. }
  pose proof (line_found fuel d d' s n _ _ _ _ ws Co H G1 F As An) as I1. pose proof (line_found fuel d d' n m _ _ _ _ ws Co H G2 F An Am) as I2.
  rewrite Gn in I1, I2. rewrite Gs in I1. cbn [corners andb] in I1, I2. assert (Ne : Z.eqb sy ny = false) by (apply Z.eqb_neq; lia). rewrite Ne in I1. cbn [negb] in I1.
  assert (Mx : (mx <> nx + 50)%Z).
  { assert (Cl : forall n x y, is_node d n -> at_xy d' n x y -> exists c, x = (150 * c + 50)%Z).
    { destruct (C29_exactly_one_position fuel d d' Co H) as (g & P & _ & _ & A). intros a x y Ha At. unfold is_node in Ha. apply (Permutation_in _ (Permutation_sym P)) in Ha.
      apply in_map_iff in Ha. destruct Ha as (c & <- & Hc). exists (ccol c). exact (proj1 (at_xy_same d' _ _ _ _ _ At (A c Hc))). }
    destruct G2 as (f & Ff). destruct (Cl n nx ny) as (c & ->); [eapply outgoing_node; apply Ff|exact An|]. destruct (Cl m mx ny) as (c' & ->); [eapply incoming_node; apply Ff|exact Am|]. lia. }
  set (u := ((nx + 50, sy + 50), (nx + 50, ny))%Z : zseg). set (v := ((nx + 50, ny + 50), (nx + 50, ny + 50))%Z : zseg). set (w := ((nx + 50, ny + 50), (mx, ny + 50))%Z : zseg).
  destruct (take_out _ (map qseg [u; v; w]) (concat (map (fun w => polyline (map qpt w)) ws))) as (r & P).
  - apply FinFun.Injective_map_NoDup; [intros a b; apply qseg_inj|]. unfold u, v, w. repeat constructor; cbn [In]; intro C; repeat (destruct C as [C|C]; [injection C; lia|]); exact C.
  - intros x Hx. apply in_concat. cbn [map In] in Hx. destruct Hx as [<-|[<-|[<-|[]]]].
    + eexists. split; [apply in_map_iff; eexists; split; [reflexivity|exact I1]|]. right. left. reflexivity.
    + eexists. split; [apply in_map_iff; eexists; split; [reflexivity|exact I2]|]. left. reflexivity.
    + eexists. split; [apply in_map_iff; eexists; split; [reflexivity|exact I2]|]. right. left. reflexivity.
  - rewrite (pc_perm _ _ P). eapply Nat.le_trans; [|apply pc_app]. rewrite pc_pairs by (intros x [<-|[<-|[<-|[]]]]; [left|left|right]; reflexivity).
    assert (A : zcross u v = true) by (apply zcross_iff; lia). assert (B : zcross u w = true) by (apply zcross_iff; lia). cbn [pairs filter]. rewrite A, B. cbn [length]. lia.
Qed.

(** ** Diagrams built with the API *)
Definition flow_pairs (d : diagram) : list (string * string) := map (fun x => (fl_src (snd x), fl_tgt (snd x))) (seq_flows d).
Lemma pairs_nodup : forall l d, history l d -> distinct_pairs d -> NoDup (flow_pairs d).
Proof.
  intros l d H D. pose proof (inv_f d (inv_history l d H)) as N.
  assert (G : forall fs, NoDup (map fst fs) -> (forall x, In x fs -> In x (seq_flows d)) -> NoDup (map (fun x : string * flow_rec => (fl_src (snd x), fl_tgt (snd x))) fs)); [|apply G; auto].
  induction fs as [|[f r] fs IH]; intros Nd I; [constructor|]. inversion Nd as [|? ? Nf Nfs]; subst. cbn [map]. constructor; [|apply IH; [exact Nfs|intros x Hx; apply I; right; exact Hx]].
  intro C. apply in_map_iff in C. destruct C as ((f' & r') & E & Hi). cbn [snd fst] in E. injection E as E1 E2. apply Nf. apply in_map_iff. exists (f', r'). split; [|exact Hi]. cbn [fst].
  apply (D f' r' f r); [apply In_dget; [exact N|apply I; right; exact Hi]|apply In_dget; [exact N|apply I; left; reflexivity]|]. left. auto.
Qed.
Lemma api_pairs : forall l d, history l d -> distinct_pairs d -> flows_are d (flow_pairs d) /\ forall x y, In (x, y) (flow_pairs d) <-> goes d x y.
Proof.
  intros l d H D. pose proof (inv_f d (inv_history l d H)) as N. destruct (C26_api_diagrams_coherent l d H D) as (_ & _ & _ & _ & Ff).
  assert (X : forall x y, (exists f r, dget f (seq_flows d) = Some r /\ fl_src r = x /\ fl_tgt r = y) <-> In (x, y) (flow_pairs d)).
  { intros x y. unfold flow_pairs. rewrite in_map_iff. split.
    - intros (f & r & E & <- & <-). exists (f, r). split; [reflexivity|apply dget_In; exact E].
    - intros ((f & r) & E & Hi). cbn [snd] in E. injection E as <- <-. exists f, r. split; [apply In_dget; assumption|auto]. }
  split; [apply (api_flows l); auto; apply (pairs_nodup l); auto|]. intros x y. rewrite <- X. unfold goes. split; intros (f & Q); exists f; apply Ff; exact Q.
Qed.
Theorem C107_api : forall l d fuel pyfloat, history l d -> distinct_pairs d -> (forall n, ~ split_node d n /\ ~ join_node d n) -> acyclic d ->
  reads_integers pyfloat -> sort_bound d <= fuel ->
  exists d', generate_layout fuel d = (d', Ok tt) /\ count_crossing_points pyfloat d' = Ok 0 /\
    count_segments pyfloat d' = Ok (length (seq_flows d) + length (filter (fun x => usual_gateway_b d (fl_src (snd x))) (seq_flows d))).
Proof.
  intros l d fuel pf H D Ns Ac Rf Fu. destruct (C26_api_diagrams_coherent l d H D) as (Co & AL & W & Dr & _). destruct (api_pairs l d H D) as (Fl & Go).
  destruct (C107_sequences d (flow_pairs d) fuel pf Co AL W Dr Ns Ac Fl (fun x y => proj1 (Go x y)) Rf Fu) as (d' & E & C & S). exists d'. split; [exact E|]. split; [exact C|].
  rewrite S. f_equal. unfold flow_pairs. rewrite map_length. f_equal. induction (seq_flows d) as [|x fs IH]; [reflexivity|]. cbn [map filter fst]. destruct (usual_gateway_b d (fl_src (snd x))); cbn [length]; rewrite IH; reflexivity.
Qed.

(** ** Examples *)
Lemma no_forks : forall l d, history l d -> distinct_pairs d ->
  forallb (fun n => negb (split_b d n) && negb (join_b d n)) (node_keys d) = true -> forall n, ~ split_node d n /\ ~ join_node d n.
Proof.
  intros l d H P Z n. rewrite forallb_forall in Z.
  assert (D : forall f, In f (outgoing_of d n) \/ In f (incoming_of d n) -> negb (split_b d n) && negb (join_b d n) = true).
  { intros f [X|X]; apply Z; [exact (outgoing_node _ _ _ X)|exact (incoming_node _ _ _ X)]. }
  unfold split_node, join_node. split; intro X.
  - destruct (outgoing_of d n) as [|f q] eqn:E; [cbn in X; lia|]. specialize (D f (or_introl (or_introl eq_refl))). apply andb_true_iff in D.
    destruct D as [D _]. apply negb_true_iff, Nat.leb_gt in D. rewrite E in D. lia.
  - destruct (incoming_of d n) as [|f q] eqn:E; [cbn in X; lia|]. specialize (D f (or_intror (or_introl eq_refl))). apply andb_true_iff in D.
    destruct D as [_ D]. apply negb_true_iff, Nat.leb_gt in D. rewrite E in D. lia.
Qed.
(** Two sequences, one of them with a gateway that has one flow in and one flow out. *)
Definition rows_ops : list op :=
  [ONew "m" "0"; OTask "id2" "a" (Some "a") ""; OExclusive "id2" "g" "Unspecified" None (Some "g") ""; OTask "id2" "c" (Some "c") "";
   OTask "id2" "x" (Some "x") ""; OTask "id2" "y" (Some "y") "";
   OFlow "id2" "a" "g" "" "10"; OFlow "id2" "x" "y" "" "11"; OFlow "id2" "g" "c" "" "12"].
Definition two_rows : diagram := run empty_diagram rows_ops.
Example C107_sequences_example : history rows_ops two_rows /\ distinct_pairs two_rows /\ (forall n, ~ split_node two_rows n /\ ~ join_node two_rows n) /\ acyclic two_rows /\
  sort_bound two_rows <= 60 /\ (let r := generate_layout 60 two_rows in
  snd r = Ok tt /\ count_crossing_points read_integer (fst r) = Ok 0 /\ count_segments read_integer (fst r) = Ok 4).
Proof.
  assert (H : history rows_ops two_rows) by (apply checked_history; vm_compute; reflexivity).
  assert (P : distinct_pairs two_rows) by (apply pairs_checked_ok; vm_compute; reflexivity).
  split; [exact H|]. split; [exact P|]. split; [apply (no_forks _ _ H P); vm_compute; reflexivity|].
  split; [apply (ranked_acyclic _ _ (fun n => if smem n ["a"; "x"] then 0 else if smem n ["g"; "y"] then 1 else 2) H); vm_compute; reflexivity|].
  split; [apply Nat.leb_le; vm_compute; reflexivity|]. vm_compute. auto.
Qed.
(** A gateway with four branches that do not meet again. *)
Definition star_ops : list op :=
  [ONew "m" "0"; OTask "id2" "s" (Some "s") ""; OParallel "id2" "g" "Diverging" (Some "g") "";
   OTask "id2" "a" (Some "a") ""; OTask "id2" "b" (Some "b") ""; OTask "id2" "c" (Some "c") ""; OTask "id2" "d" (Some "d") "";
   OFlow "id2" "s" "g" "" "10"; OFlow "id2" "g" "a" "" "11"; OFlow "id2" "g" "b" "" "12"; OFlow "id2" "g" "c" "" "13"; OFlow "id2" "g" "d" "" "14"].
Definition star : diagram := run empty_diagram star_ops.
Definition star_pairs : list (string * string) := [("s", "g"); ("g", "a"); ("g", "b"); ("g", "c"); ("g", "d")].
Lemma into_gate : forall p, In (p, "g") star_pairs -> p = "s".
Proof. intros p X. cbn in X. intuition congruence. Qed.
Lemma from_gate : forall m, In ("g", m) star_pairs <-> In m ["a"; "b"; "c"; "d"].
Proof. intro m. cbn. intuition congruence. Qed.
Example C107_wide_split_example : coherent star /\ gwf (dgraph star) /\ usual_gateway star "g" /\ split_node star "g" /\
  (forall f p, flow star f p "g" -> ~ split_node star p) /\ (forall f m, flow star f "g" m -> ~ join_node star m) /\ lists (goes star "g") ["a"; "b"; "c"; "d"] /\
  (let r := generate_layout 60 star in
   snd r = Ok tt /\ count_crossing_points read_integer (fst r) = Ok 2 /\ count_segments read_integer (fst r) = Ok 9 /\ length (filter (bent (fst r)) (get_flows (fst r))) = 4).
Proof.
  assert (H : history star_ops star) by (apply checked_history; vm_compute; reflexivity).
  assert (P : distinct_pairs star) by (apply pairs_checked_ok; vm_compute; reflexivity).
  destruct (C26_api_diagrams_coherent _ _ H P) as (Co & AL & W & _). destruct (api_pairs _ _ H P) as (_ & Go).
  assert (E : flow_pairs star = star_pairs) by (vm_compute; reflexivity). rewrite E in Go.
  assert (G1 : forall f p m, flow star f p m -> In (p, m) star_pairs) by (intros f p m X; apply Go; exists f; exact X).
  split; [exact Co|]. split; [exact W|]. split; [apply usual_b; vm_compute; reflexivity|]. split; [apply Nat.leb_le; vm_compute; reflexivity|].
  split; [|split; [|split]].
  - intros f p X. apply G1, into_gate in X. rewrite X. apply Nat.nle_gt, Nat.ltb_lt. vm_compute. reflexivity.
  - assert (J : forallb (fun m => negb (join_b star m)) ["a"; "b"; "c"; "d"] = true) by (vm_compute; reflexivity). rewrite forallb_forall in J.
    intros f m X Y. apply G1, from_gate, J in X. apply negb_true_iff, Nat.leb_gt in X. unfold join_node in Y. lia.
  - split; [repeat (constructor; [simpl; intuition discriminate|]); constructor|]. intro m. rewrite <- Go. symmetry. apply from_gate.
  - vm_compute. auto.
Qed.

(** The lower branch of the first block of [cross_d]. *)
Example C107_from_below_example : let d' := fst (generate_layout 90 cross_d) in
  coherent cross_d /\ gwf (dgraph cross_d) /\ generate_layout 90 cross_d = (d', Ok tt) /\ goes cross_d "c" "j1" /\ goes cross_d "j1" "g2" /\
  usual_gateway cross_d "j1" /\ ~ usual_gateway cross_d "c" /\ at_xy d' "c" 650 450 /\ at_xy d' "j1" 950 250 /\ at_xy d' "g2" 1100 250.
Proof.
  destruct cross_ok as (_ & (Co & AL & W & Dr & Cs) & _). cbv zeta. split; [exact Co|]. split; [exact W|]. split; [vm_compute; reflexivity|]. destruct Cs as (_ & _ & Cs & _).
  split; [apply (proj2 (Cs "c" "j1")); vm_compute; auto 20|]. split; [apply (proj2 (Cs "j1" "g2")); vm_compute; auto 20|].
  split; [apply usual_b; vm_compute; reflexivity|]. split; [intro U; apply usual_b in U; revert U; vm_compute; discriminate|].
  split; [split; vm_compute; reflexivity|]. split; [split; vm_compute; reflexivity|]. split; vm_compute; reflexivity.
Qed.

Print Assumptions C107_segments.
Print Assumptions C107_bounds.
Print Assumptions C107_sequences.
Print Assumptions C107_wide_split.
Print Assumptions C107_from_below.
Print Assumptions C107_api.
