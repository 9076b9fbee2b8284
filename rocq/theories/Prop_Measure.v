(** C99: the metrics of block-structured processes computed from their structure. *)
From Coq Require Import String List Bool Arith ZArith QArith Lia Permutation.
From Verif Require Import Py PyFacts Consts Nx NxFacts Rep SpecRep RepFacts Metrics SpecMetrics MetricsFacts MetricsFacts2 Prop_Metrics LayoutMetrics SpecLayoutMetrics
  PathFacts Prop_LayoutMetrics SpecLayout Prop_Layout Prop_BlockLayout SpecBlocks SpecFlat FlatLines SpecPlan SameFacts SpecCrossing Prop_Crossing SpecMeasure MeasureFacts.
Import ListNotations.
Open Scope string_scope.
Open Scope list_scope.
Open Scope nat_scope.

Lemma walk_steps : forall d l n, walk d n l <-> steps (next d) n l.
Proof. intro d. induction l as [|m t IH]; intro n; [reflexivity|]. cbn [walk steps]. rewrite IH. reflexivity. Qed.
Lemma total_one : forall l, total (fun _ => 1) l = length l.
Proof. unfold total. induction l as [|x l IH]; [reflexivity|]. cbn [map length]. change (1 + list_sum (map (fun _ : string => 1) l) = S (length l)). rewrite IH. reflexivity. Qed.

(** What the computations on paths need of a diagram. *)
Definition steady (d : diagram) : Prop :=
  consistent d /\ coherent d /\
  (forall n m, next d n m <-> exists f r, dget f (seq_flows d) = Some r /\ fl_src r = n /\ fl_tgt r = m).
Lemma api_steady : forall l d, history l d -> distinct_pairs d -> steady d.
Proof.
  intros l d H D. split; [apply (C23_api_diagrams_consistent l d H D)|]. split; [apply (C26_api_diagrams_coherent l d H D)|apply (C23_api_diagrams_consistent l d H D)].
Qed.

Section Made.
Variables (d : diagram) (s : string) (ps : list part) (e : string).
Hypothesis Sd : steady d.
Hypothesis M : made_of d s ps e.

Lemma made_next : forall x y, next d x y <-> In (x, y) (path_flows s ps e).
Proof. intros x y. rewrite (proj2 (proj2 Sd)). destruct M as (_ & _ & _ & F). apply F. Qed.
Lemma made_best : forall w act gate stop, (forall p, In p ps -> weighs w act gate stop p) -> best (next d) w s (w s + reach_all act gate stop ps (w e)).
Proof. intros w act gate stop W. destruct M as (N & So & _ & _). apply best_process; auto. exact made_next. Qed.
Lemma made_bound : exists k, forall t, steps (next d) s t -> length t <= k.
Proof.
  destruct (made_best (fun _ => 1) 1 1 1) as [B _]; [intros p _; split; [|split]; reflexivity|]. eexists. intros t S. specialize (B t S). rewrite total_one in B. cbn [length] in B.
  apply le_S_n. etransitivity; [exact B|]. apply le_S. apply le_n.
Qed.
Lemma made_node : is_node d s. Proof. destruct M as (_ & _ & N & _). apply N. left. reflexivity. Qed.
Lemma made_source : forall n, is_node d n -> (incoming_of d n = [] <-> n = s).
Proof.
  intros n Hn. destruct M as (N & So & Nd & F). rewrite (process_entered s ps e n So N) by (apply Nd; exact Hn).
  destruct Sd as (_ & (_ & _ & Co & Ci) & Nx). split.
  - intros E x Hx. apply F in Hx. apply Nx in Hx. destruct Hx as (f & Hf & (t & T1 & T2)). destruct (Co x f Hf) as (m & (t' & T1' & _ & T2') & Hi).
    rewrite T1 in T1'. injection T1' as <-. rewrite T2 in T2'. injection T2' as <-. rewrite E in Hi. contradiction.
  - intro X. destruct (incoming_of d n) as [|f t] eqn:E; [reflexivity|]. exfalso. assert (Hf : In f (incoming_of d n)) by (rewrite E; left; reflexivity).
    destruct (Ci n f Hf) as (x & (t' & T1 & _ & T2) & Ho). apply (X x). apply F. apply Nx. exists f. split; [exact Ho|]. exists t'. auto.
Qed.
Lemma made_path : forall t, steps (next d) s t -> source_path d (s :: t).
Proof.
  intros t S. destruct made_bound as [k B]. split; [exact made_node|]. split; [apply made_source; [exact made_node|reflexivity]|]. split; [apply walk_steps; exact S|]. exact (no_return _ t s k B S).
Qed.
Lemma path_made : forall p, source_path d p -> exists t, p = s :: t /\ steps (next d) s t.
Proof.
  intros [|n t] P; [contradiction|]. destruct P as (Hn & E & W & _). apply made_source in E; [|exact Hn]. subst n. exists t. split; [reflexivity|apply walk_steps; exact W].
Qed.
Lemma made_loops : no_self_loops d.
Proof.
  intros n L. destruct M as (N & So & Nd & _). apply made_next in L. revert L. change (~ In (n, n) (path_flows s ps e)).
  assert (Pn : forall ps y x, NoDup (pnodes ps) -> ~ In y (pnodes ps) -> (forall p, In p ps -> NoDup (part_nodes p) -> ~ In (x, x) (inner_flows p)) -> ~ In (x, x) (tail_flows ps y)).
  { clear. unfold pnodes. induction ps as [|p qs IH]; intros y x N Ny Hp Hi; [contradiction|]. cbn [tail_flows flat_map] in *. destruct (nodup_app _ _ _ N) as (N1 & N2 & N3). apply in_app_or in Hi. destruct Hi as [Hi|[Hi|Hi]].
    - exact (Hp p (or_introl eq_refl) N1 Hi).
    - injection Hi as E1 E2. destruct qs as [|q t]; cbn [start] in E2.
      + apply Ny. apply in_or_app. left. rewrite E2, <- E1. apply last_in.
      + apply (N3 x); [rewrite <- E1; apply last_in|]. cbn [flat_map]. apply in_or_app. left. rewrite <- E2. apply first_in.
    - apply (IH y x N2); [intro Z; apply Ny; apply in_or_app; right; exact Z|intros q Hq; apply Hp; right; exact Hq|exact Hi]. }
  assert (Pi : forall p, NoDup (part_nodes p) -> forall x, ~ In (x, x) (inner_flows p)).
  { refine (part_induction _ _ _); [intros ? ? ? []|]. intros g j bs IH Nb x Hi. rewrite inner_block in Hi. rewrite block_nodes in Nb. apply in_flat_map in Hi. destruct Hi as (b & Hb & Hi). rewrite path_tail in Hi.
    inversion Nb as [|? ? Ng N1]; subst. inversion N1 as [|? ? Nj N2]; subst. pose proof (nodup_flat _ _ bnodes bs b N2 Hb) as N3. destruct (nodup_app _ _ _ N3) as (N4 & _ & N5).
    assert (Ib : forall m, In m (bnodes b) -> In m (flat_map bnodes bs)) by (intros m Hm; apply in_flat_map; eauto).
    destruct Hi as [Hi|Hi].
    - injection Hi as E1 E2. apply Ng. destruct (bare b) eqn:Bb; [rewrite (start_bare j b Bb) in E2; left; congruence|]. right. apply Ib. rewrite E1, <- E2. apply start_in. exact Bb.
    - revert Hi. apply Pn; [exact N4| |intros p Hp Np; exact (IH b p Hb Hp Np x)]. unfold arrives, bnodes, stops in *. destruct (snd b) as [z|] eqn:Z.
      + intro Hz. apply (N5 z Hz). left. reflexivity.
      + intro Hz. apply Nj. apply Ib. apply in_or_app. left. exact Hz. }
  unfold all_nodes in N. fold (pnodes ps) in N. inversion N as [|? ? Ns N1]; subst. destruct (nodup_app _ _ _ N1) as (N2 & _ & N3). rewrite path_tail. intros [Hi|Hi].
  - injection Hi as E1 E2. apply Ns. rewrite E1, <- E2. destruct ps as [|p qs]; [left; reflexivity|]. apply in_or_app. left. cbn [pnodes flat_map start]. apply in_or_app. left. apply first_in.
  - revert Hi. apply Pn; [exact N2|intro Z; apply (N3 e Z); left; reflexivity|intros p _ Np; apply Pi; exact Np].
Qed.
Lemma last_split : forall (x : string) t, exists p, x :: t = p ++ [last (x :: t) x].
Proof. intros x t. exists (removelast (x :: t)). apply app_removelast_last. discriminate. Qed.
Lemma no_out_nil : forall n, no_out (next d) n -> outgoing_of d n = [].
Proof.
  intros n O. destruct (outgoing_of d n) as [|f t] eqn:E; [reflexivity|]. exfalso. assert (Hf : In f (outgoing_of d n)) by (rewrite E; left; reflexivity).
  destruct Sd as ((_ & _ & Co) & _ & _). destruct (Co n f Hf) as (m & Lm & _). apply (O m). exists f. auto.
Qed.

Lemma made_longest : forall fuel, 2 * length (gnodes (dgraph d)) < fuel -> exists p, compute_longest_path fuel d = Ok p /\ length p = longest_way ps.
Proof.
  intros fuel Fu. pose proof (proj1 Sd) as C. destruct (C23_terminates d fuel C Fu) as [p E]. exists p. split; [exact E|].
  destruct (C23_longest_path d fuel p C made_loops Fu E) as (_ & Pf & Mx).
  destruct (made_best (fun _ => 1) 1 1 1) as [B (t & S & T & O)]; [intros q _; split; [|split]; reflexivity|]. rewrite total_one in T.
  apply Nat.le_antisymm.
  - destruct Pf as [-> |[Sp _]]; [unfold longest_way; cbn [length]; lia|]. destruct (path_made _ Sp) as (t' & Et & St). specialize (B t' St). rewrite total_one, <- Et, map_length in B. exact B.
  - change (longest_way ps) with (1 + reach_all 1 1 1 ps 1). rewrite <- T. apply Mx. split; [apply made_path; exact S|]. destruct (last_split s t) as [q Eq]. exists q, (last (s :: t) s). split; [exact Eq|]. apply no_out_nil. exact O.
Qed.

Hypothesis K : kinds_fit d s ps e.
Definition aw (n : string) : nat := if activity d n then 1 else 0.
Lemma aw_total : forall t, total aw t = length (filter (activity d) t).
Proof.
  unfold total. induction t as [|x t IH]; [reflexivity|]. cbn [map filter]. change (aw x + list_sum (map aw t) = length (if activity d x then x :: filter (activity d) t else filter (activity d) t)).
  rewrite IH. unfold aw. destruct (activity d x); reflexivity.
Qed.
Lemma in_parts : forall (f : part -> list string) p n, In p ps -> In n (f p) -> In n (flat_map f ps).
Proof. intros f p n Hp Hn. apply in_flat_map. eauto. Qed.
Lemma aw_weighs : forall p, In p ps -> weighs aw 1 0 0 p.
Proof.
  intros p Hp. destruct K as (_ & K2 & K3 & K4). split; [|split]; intros n Hn; unfold aw, activity.
  - destruct (K3 n (in_parts part_acts p n Hp Hn)) as [E|E]; rewrite E; reflexivity.
  - destruct (K4 n (in_parts part_gates p n Hp Hn)) as (t & E & I). rewrite E. repeat (destruct I as [<-|I]; [reflexivity|]). contradiction.
  - rewrite (K2 n (or_intror (in_parts part_ends p n Hp Hn))). reflexivity.
Qed.
Lemma made_most : forall fuel, 2 * length (gnodes (dgraph d)) < fuel -> exists q, compute_longest_path_tasks fuel d = Ok q /\ length q = most_steps ps.
Proof.
  intros fuel Fu. pose proof (proj1 Sd) as C. destruct (C24_terminates d fuel C Fu) as [q E]. exists q. split; [exact E|].
  destruct (C24_most_activities d fuel q C made_loops Fu E) as (_ & Pf & Mx).
  destruct (made_best aw 1 0 0 aw_weighs) as [B (t & S & T & O)].
  destruct K as (K1 & K2 & _ & _). assert (As : aw s = 0) by (unfold aw, activity; rewrite K1; reflexivity). assert (Ae : aw e = 0) by (unfold aw, activity; rewrite (K2 e (or_introl eq_refl)); reflexivity).
  rewrite As, Ae in *. change (0 + reach_all 1 0 0 ps 0) with (most_steps ps) in *. apply Nat.le_antisymm.
  - destruct Pf as [-> |(t0 & Sp & Eq)]; [cbn [length]; lia|]. destruct (path_made _ Sp) as (t' & Et & St). specialize (B t' St). rewrite aw_total, <- Et in B. rewrite <- (map_length fst q), Eq. exact B.
  - rewrite <- T, aw_total. apply Mx. apply made_path. exact S.
Qed.
End Made.

(** The longest path through a process, and the path with the most activities. *)
Theorem C99_longest_path : forall l d s ps e fuel, history l d -> distinct_pairs d -> made_of d s ps e -> 2 * length (all_nodes s ps e) < fuel ->
  exists p, compute_longest_path fuel d = Ok p /\ length p = longest_way ps.
Proof.
  intros l d s ps e fuel H D M F. apply (made_longest d s ps e (api_steady l d H D) M). destruct M as (N & _ & Nd & _).
  replace (length (gnodes (dgraph d))) with (length (all_nodes s ps e)); [exact F|]. rewrite <- (map_length fst (gnodes (dgraph d))). apply Permutation_length. apply NoDup_Permutation; [exact N|exact (gwf_nodup _ (inv_g d (inv_history l d H)))|].
  intro n. rewrite <- Nd. reflexivity.
Qed.
Theorem C99_most_activities : forall l d s ps e fuel, history l d -> distinct_pairs d -> made_of d s ps e -> kinds_fit d s ps e -> 2 * length (all_nodes s ps e) < fuel ->
  exists q, compute_longest_path_tasks fuel d = Ok q /\ length q = most_steps ps.
Proof.
  intros l d s ps e fuel H D M K F. apply (made_most d s ps e (api_steady l d H D) M K). destruct M as (N & _ & Nd & _).
  replace (length (gnodes (dgraph d))) with (length (all_nodes s ps e)); [exact F|]. rewrite <- (map_length fst (gnodes (dgraph d))). apply Permutation_length. apply NoDup_Permutation; [exact N|exact (gwf_nodup _ (inv_g d (inv_history l d H)))|].
  intro n. rewrite <- Nd. reflexivity.
Qed.

(** * Counts *)
Section Counts.
Variables (d : diagram) (s : string) (ps : list part) (e : string).
Hypothesis Ty : SpecRep.typed d.
Hypothesis M : made_of d s ps e.
Hypothesis K : kinds_fit d s ps e.
Lemma kinds_perm : Permutation (all_nodes s ps e) (s :: (e :: flat_map part_ends ps) ++ flat_map part_acts ps ++ flat_map part_gates ps).
Proof.
  unfold all_nodes. apply perm_skip. rewrite (flat_perm3 _ part_nodes part_acts part_gates part_ends ps) by (intros p _; apply part_kinds). rewrite Permutation_app_comm. cbn [app]. apply perm_skip.
  rewrite app_assoc. apply Permutation_app_comm.
Qed.
Lemma typed_node : forall n t, attr d n "type" = Some (VStr t) -> In n (all_nodes s ps e).
Proof.
  intros n t E. destruct M as (_ & _ & Nd & _). apply Nd. unfold attr, node_of in E. destruct (dget n (gnodes (dgraph d))) eqn:En; [|discriminate]. unfold is_node. eapply dget_key_In; eauto.
Qed.
(** The nodes of a kind. *)
Lemma number_kind : forall (P : string -> Prop) L, (forall n, In n L -> In n (all_nodes s ps e)) -> NoDup L ->
  (forall n t, In n (all_nodes s ps e) -> attr d n "type" = Some (VStr t) -> (P t <-> In n L)) -> number d P (length L).
Proof.
  intros P L I N X. exists L. split; [exact N|]. split; [reflexivity|]. intro n. split.
  - intro Hn. destruct (Ty n) as [t E]; [destruct M as (_ & _ & Nd & _); apply Nd; apply I; exact Hn|]. exists t. split; [exact E|]. apply (X n t); auto.
  - intros (t & E & Pt). apply (X n t (typed_node n t E) E). exact Pt.
Qed.
Definition starts : list string := [s].
Definition stops_all : list string := e :: flat_map part_ends ps.
Definition acts_all : list string := flat_map part_acts ps.
Definition gates_all : list string := flat_map part_gates ps.
Lemma kinds_nodup : NoDup (s :: stops_all ++ acts_all ++ gates_all).
Proof. destruct M as (N & _). exact (Permutation_NoDup kinds_perm N). Qed.
Inductive kind : Type := Start | Stop | Step | Gate.
Definition of_kind (k : kind) : list string := match k with Start => starts | Stop => stops_all | Step => acts_all | Gate => gates_all end.
Definition kind_type (k : kind) (t : string) : Prop :=
  match k with Start => t = "startEvent" | Stop => t = "endEvent" | Step => is_activity t | Gate => is_gateway t end.
Lemma kind_of : forall n t, In n (all_nodes s ps e) -> attr d n "type" = Some (VStr t) -> exists k, In n (of_kind k) /\ kind_type k t.
Proof.
  intros n t Hn E. apply (Permutation_in _ kinds_perm) in Hn. destruct K as (K1 & K2 & K3 & K4). destruct Hn as [<-|Hn].
  - exists Start. split; [left; reflexivity|]. cbn. congruence.
  - apply in_app_or in Hn. destruct Hn as [Hn|Hn]; [exists Stop; split; [exact Hn|]; cbn; rewrite (K2 n Hn) in E; congruence|]. apply in_app_or in Hn. destruct Hn as [Hn|Hn].
    + exists Step. split; [exact Hn|]. cbn. unfold is_activity. destruct (K3 n Hn) as [X|X]; rewrite X in E; injection E as <-; auto.
    + exists Gate. split; [exact Hn|]. cbn. destruct (K4 n Hn) as (t' & X & I). rewrite X in E. injection E as <-. unfold is_gateway. cbn in I. intuition.
Qed.
Lemma kind_unique : forall k k' t, kind_type k t -> kind_type k' t -> k = k'.
Proof.
  intros [] [] t A B; try reflexivity; exfalso; cbn in A, B; unfold is_activity, is_gateway in *;
    repeat match goal with X : _ \/ _ |- _ => destruct X as [X|X] end; subst; discriminate.
Qed.
Lemma kind_list : forall k, NoDup (of_kind k) /\ forall n, In n (of_kind k) -> In n (all_nodes s ps e).
Proof.
  pose proof kinds_nodup as N. apply NoDup_cons_iff in N. destruct N as [_ N]. destruct (nodup_app _ _ _ N) as (N1 & N2 & _). destruct (nodup_app _ _ _ N2) as (N3 & N4 & _).
  intro k. split.
  - destruct k; [repeat constructor; intros []|exact N1|exact N3|exact N4].
  - intros n Hn. apply (Permutation_in _ (Permutation_sym kinds_perm)). destruct k; cbn [of_kind] in Hn.
    + destruct Hn as [<-|[]]. left. reflexivity.
    + right. apply in_or_app. left. exact Hn.
    + right. apply in_or_app. right. apply in_or_app. left. exact Hn.
    + right. apply in_or_app. right. apply in_or_app. right. exact Hn.
Qed.
Lemma kind_number : forall k (P : string -> Prop), (forall t, kind_type k t <-> P t) -> number d P (length (of_kind k)).
Proof.
  intros k P X. destruct (kind_list k) as [N I]. apply number_kind; [exact I|exact N|]. intros n t Hn E. destruct (kind_of n t Hn E) as (k' & A & B). rewrite <- X. split.
  - intro T. rewrite (kind_unique k k' t T B). exact A.
  - intro Hk. destruct K as (K1 & K2 & K3 & K4). destruct k; cbn [of_kind kind_type] in *.
    + destruct Hk as [<-|[]]. congruence.
    + rewrite (K2 n Hk) in E. congruence.
    + unfold is_activity. destruct (K3 n Hk) as [Z|Z]; rewrite Z in E; injection E as <-; auto.
    + destruct (K4 n Hk) as (t' & Z & In_). rewrite Z in E. injection E as <-. unfold is_gateway. cbn in In_. intuition.
Qed.
Lemma none_number : forall P : string -> Prop, (forall k t, kind_type k t -> ~ P t) -> number d P 0.
Proof.
  intros P X. exists []. split; [constructor|]. split; [reflexivity|]. intro n. split; [intros []|]. intros (t & E & Pt). destruct (kind_of n t (typed_node n t E) E) as (k & _ & B). exact (X k t B Pt).
Qed.
End Counts.

Lemma gates_list_length : forall ps, length (flat_map part_gates ps) = 2 * list_sum (map blocks ps).
Proof.
  intro ps. rewrite flat_length, (sum_ext _ _ (fun p => blocks p + blocks p)) by (intros p _; rewrite gates_length; lia). rewrite sum_plus. lia.
Qed.
Lemma kinds_length : forall s ps e, length (all_nodes s ps e) = 2 + length (flat_map part_ends ps) + length (flat_map part_acts ps) + 2 * list_sum (map blocks ps).
Proof.
  intros s ps e. rewrite (Permutation_length (kinds_perm s ps e)). cbn [length app]. rewrite !app_length, gates_list_length. lia.
Qed.

Lemma counts_of : forall d s ps e, unique_ids d -> SpecRep.typed d -> made_of d s ps e -> kinds_fit d s ps e ->
  let ends := 1 + length (flat_map part_ends ps) in
  let acts := length (flat_map part_acts ps) in
  let gates := 2 * list_sum (map blocks ps) in
  TNSE_metric d = Ok 1 /\ TNIE_metric d = Ok 0 /\ TNEE_metric d = Ok ends /\ TNE_metric d = Ok (1 + ends) /\
  NOA_metric d = Ok acts /\ NOAJS_metric d = Ok (acts + gates) /\ NOAC_metric d = Ok (length (all_nodes s ps e)) /\
  NumberOfNodes_metric d = Ok (length (all_nodes s ps e)).
Proof.
  intros d s ps e U Ty M K ends acts gates.
  destruct (C13_count_metrics d U Ty) as (a & b & c & ev & ac & ga & Na & Nb & Nc & Ne & Nac & Nga & E1 & E2 & E3 & E4 & _ & Ee & E5 & _ & _ & _ & E6 & E7 & E8).
  assert (Ha : a = 1) by exact (number_unique _ _ _ _ Na (kind_number d s ps e Ty M K Start (eq "startEvent") ltac:(cbn; intros; split; congruence))).
  assert (Hb : b = 0).
  { apply (number_unique _ _ _ _ Nb). apply (none_number d s ps e M K). intros k t T P. destruct k; cbn in T; unfold is_activity, is_gateway in T; repeat match goal with X : _ \/ _ |- _ => destruct X as [X|X] end; subst; discriminate. }
  assert (Hc : c = ends) by exact (number_unique _ _ _ _ Nc (kind_number d s ps e Ty M K Stop (eq "endEvent") ltac:(cbn; intros; split; congruence))).
  assert (Hac : ac = acts) by exact (number_unique _ _ _ _ Nac (kind_number d s ps e Ty M K Step is_activity ltac:(cbn; intros; reflexivity))).
  assert (Hga : ga = gates).
  { unfold gates. rewrite <- gates_list_length. exact (number_unique _ _ _ _ Nga (kind_number d s ps e Ty M K Gate is_gateway ltac:(cbn; intros; reflexivity))). }
  assert (T : ac + ga + ev = length (all_nodes s ps e)) by (rewrite kinds_length; unfold ends, acts, gates in *; lia).
  rewrite E1, E2, E3, E4, E5, E6, E7, E8, T, Ha, Hb, Hc, Hac, Hga. assert (Hev : ev = 1 + ends) by lia. rewrite Hev.
  split; [reflexivity|]. split; [reflexivity|]. split; [reflexivity|]. split; [reflexivity|]. split; [reflexivity|]. split; [reflexivity|]. split; reflexivity.
Qed.
(** The counting metrics: one start event, an end event for the process and each branch that
    stops, the activities, and two gateways for each block. *)
Theorem C99_counts : forall l d s ps e, history l d -> made_of d s ps e -> kinds_fit d s ps e ->
  let ends := 1 + length (flat_map part_ends ps) in
  let acts := length (flat_map part_acts ps) in
  let gates := 2 * list_sum (map blocks ps) in
  TNSE_metric d = Ok 1 /\ TNIE_metric d = Ok 0 /\ TNEE_metric d = Ok ends /\ TNE_metric d = Ok (1 + ends) /\
  NOA_metric d = Ok acts /\ NOAJS_metric d = Ok (acts + gates) /\ NOAC_metric d = Ok (length (all_nodes s ps e)) /\
  NumberOfNodes_metric d = Ok (length (all_nodes s ps e)).
Proof.
  intros l d s ps e H M K. pose proof (inv_history l d H) as I. apply counts_of; auto; [exact (gwf_nodup _ (inv_g d I))|]. intros n Hn. apply (inv_n d I n Hn).
Qed.

(** Flows per node: there is one flow less than nodes, plus, for each block, one for each branch
    that meets the others after the first. *)
Lemma made_flows : forall l d s ps e, history l d -> distinct_pairs d -> made_of d s ps e -> flows_are d (path_flows s ps e).
Proof.
  intros l d s ps e H D (N & So & Nd & F). apply (api_flows l d _ H D); [apply process_nodup; assumption|exact F].
Qed.
Lemma nodes_length : forall d s ps e, unique_ids d -> made_of d s ps e -> length (gnodes (dgraph d)) = length (all_nodes s ps e).
Proof.
  intros d s ps e U (N & _ & Nd & _). rewrite <- (map_length fst (gnodes (dgraph d))). apply Permutation_length. apply NoDup_Permutation; [exact U|exact N|]. intro n. rewrite <- Nd. reflexivity.
Qed.
Lemma complexity_of : forall d s ps e, unique_ids d -> made_of d s ps e -> length (get_flows d) = length (path_flows s ps e) ->
  exists q, CoefficientOfNetworkComplexity_metric d = Ok q /\
    (q * inject_Z (Z.of_nat (length (all_nodes s ps e))) == inject_Z (Z.of_nat (length (all_nodes s ps e) + list_sum (map extra ps) - 1)))%Q.
Proof.
  intros d s ps e U M X. pose proof M as (N & So & Nd & F). pose proof (nodes_length d s ps e U M) as Ln.
  assert (Lf : length (get_flows d) = length (all_nodes s ps e) + list_sum (map extra ps) - 1).
  { pose proof (process_flow_count s ps e So) as Y. lia. }
  unfold CoefficientOfNetworkComplexity_metric. cbn [get_nodes rbind]. change (length (nodes_view (dgraph d))) with (length (gnodes (dgraph d))). rewrite Ln, Lf.
  destruct (length (all_nodes s ps e)) as [|k] eqn:E; [discriminate|]. unfold fdiv. eexists. split; [reflexivity|]. unfold Qeq, Qmult, inject_Z. cbn [Qnum Qden]. rewrite Pos.mul_1_r, Z.mul_1_r. lia.
Qed.
Theorem C99_network_complexity : forall l d s ps e, history l d -> distinct_pairs d -> made_of d s ps e ->
  exists q, CoefficientOfNetworkComplexity_metric d = Ok q /\
    (q * inject_Z (Z.of_nat (length (all_nodes s ps e))) == inject_Z (Z.of_nat (length (all_nodes s ps e) + list_sum (map extra ps) - 1)))%Q.
Proof.
  intros l d s ps e H D M. apply complexity_of; [exact (gwf_nodup _ (inv_g d (inv_history l d H)))|exact M|].
  destruct (made_flows l d s ps e H D M) as (l' & Fl & Pe). rewrite <- (Permutation_length Pe). clear - Fl; induction Fl; cbn [length]; congruence.
Qed.

(** Flow ends at gateways. *)
Lemma ends_flows : forall l d ps, history l d -> flows_are d ps -> forall n, flow_ends d n = count_occ string_dec (flat_map (fun p => [fst p; snd p]) ps) n.
Proof.
  intros l d ps H (l' & Fl & Pe) n. pose proof (inv_history l d H) as I. destruct (get_flows_shows d I) as (es & Pes & Sh).
  assert (A : forall (x y : list (string * string)) m, Permutation x y -> count_occ string_dec (flat_map (fun p => [fst p; snd p]) x) m = count_occ string_dec (flat_map (fun p => [fst p; snd p]) y) m).
  { clear. intros x y m P. induction P as [|p x y P IH|p p' x|x y z P1 IH1 P2 IH2]; auto; cbn [flat_map]; rewrite ?count_occ_app; lia. }
  unfold flow_ends. rewrite <- (ends_perm _ _ n Pes), <- (A _ _ n Pe).
  assert (V : Forall2 (fun ed p => same_pair (eu ed) (ev ed) (fst p) (snd p)) es l').
  { assert (W : forall t, In t (get_flows d) -> forall x y, dget "sourceRef" (snd t) = Some (VStr x) -> dget "targetRef" (snd t) = Some (VStr y) -> same_pair (fst (fst t)) (snd (fst t)) x y).
    { intros t Ht x y E1 E2. destruct (view_flow d t I Ht) as (f & r & p & w & _ & Sp & _ & _ & R1 & R2 & _). rewrite R1 in E1. rewrite R2 in E2. injection E1 as <-. injection E2 as <-. exact Sp. }
    clear - Fl Sh W. revert es Sh. induction Fl as [|t p ts l' [R1 R2] Fl IH]; intros es Sh; inversion Sh as [|t0 ed ts0 es' [S1 S2] Sh']; subst; constructor.
    - specialize (W t (or_introl eq_refl) _ _ R1 R2). unfold same_pair in *. clear - W S2. destruct W as [[A B]|[A B]], S2 as [[C E]|[C E]]; [left|right|right|left]; split; congruence.
    - apply IH; [|exact Sh']. intros u Hu. apply W. right. exact Hu. }
  clear - V. induction V as [|ed p es l' S V IH]; [reflexivity|]. cbn [flat_map]. rewrite !count_occ_app, IH. f_equal. destruct S as [[-> ->]|[-> ->]]; [reflexivity|]. cbn [count_occ].
  destruct (string_dec (snd p) n), (string_dec (fst p) n); reflexivity.
Qed.
Lemma sum_occ : forall gs L, NoDup gs -> list_sum (map (count_occ string_dec L) gs) = length (filter (fun n => smem n gs) L).
Proof.
  intros gs L N. induction L as [|x L IH].
  - cbn [filter length]. clear. induction gs as [|g t IH]; [reflexivity|exact IH].
  - rewrite (sum_ext _ _ (fun n => (if string_dec x n then 1 else 0) + count_occ string_dec L n)) by (intros n _; cbn [count_occ]; destruct (string_dec x n); reflexivity).
    rewrite sum_plus, IH. cbn [filter]. 
    assert (X : list_sum (map (fun n => if string_dec x n then 1 else 0) gs) = if smem x gs then 1 else 0).
    { clear - N. induction gs as [|g t IH]; [reflexivity|]. inversion N as [|? ? Ng Nt]; subst. cbn [map]. change ((if string_dec x g then 1 else 0) + list_sum (map (fun n => if string_dec x n then 1 else 0) t) = if smem x (g :: t) then 1 else 0). rewrite (IH Nt).
      destruct (string_dec x g) as [-> |Ne].
      - assert (E : smem g t = false) by (apply not_true_is_false; intro Z; apply smem_In in Z; contradiction). rewrite E. assert (E' : smem g (g :: t) = true) by (apply smem_In; left; reflexivity). rewrite E'. reflexivity.
      - assert (E : smem x (g :: t) = smem x t); [|rewrite E; reflexivity]. apply Bool.eq_iff_eq_true. rewrite !smem_In. split; [intros [->|Z]; [congruence|exact Z]|intro Z; right; exact Z]. }
    rewrite X. destruct (smem x gs); reflexivity.
Qed.
Lemma degree_of_gates : forall d s ps e, unique_ids d -> SpecRep.typed d -> made_of d s ps e ->
  (forall n, flow_ends d n = count_occ string_dec (flat_map (fun p => [fst p; snd p]) (path_flows s ps e)) n) -> kinds_fit d s ps e ->
  (list_sum (map blocks ps) = 0 -> AverageGatewayDegree_metric d = Err ZeroDivisionError) /\
  (0 < list_sum (map blocks ps) -> exists q, AverageGatewayDegree_metric d = Ok q /\
     (q * inject_Z (Z.of_nat (2 * list_sum (map blocks ps))) == inject_Z (Z.of_nat (list_sum (map gate_ends ps))))%Q).
Proof.
  intros d s ps e U Ty M Fe K.
  destruct (avg_form d U Ty) as (gs & N & G & E).
  assert (P : Permutation gs (gates_all ps)).
  { apply NoDup_Permutation; [exact N|exact (proj1 (kind_list d s ps e M Gate))|]. intro n. rewrite G.
    split.
    - intros (t & Et & Pt). destruct (kind_of d s ps e K n t (typed_node d s ps e M n t Et) Et) as (k & A & B). rewrite (kind_unique k Gate t B Pt) in A. exact A.
    - intro Hn. destruct K as (_ & _ & _ & K4). destruct (K4 n Hn) as (t & Et & It). exists t. split; [exact Et|]. unfold is_gateway. cbn in It. intuition. }
  assert (Lg : length gs = 2 * list_sum (map blocks ps)) by (rewrite (Permutation_length P); apply gates_list_length).
  assert (Sg : fold_right plus 0 (map (flow_ends d) gs) = list_sum (map gate_ends ps)).
  { change (fold_right plus 0 (map (flow_ends d) gs)) with (list_sum (map (flow_ends d) gs)).
    rewrite (sum_ext _ _ (count_occ string_dec (flat_map (fun p => [fst p; snd p]) (path_flows s ps e)))) by (intros n _; apply Fe).
    rewrite (sum_occ gs _ N). change (gcount (fun n => smem n gs) (path_flows s ps e) = list_sum (map gate_ends ps)).
    assert (Gm : forall n, smem n gs = true <-> In n (gates_all ps)) by (intro n; rewrite smem_In; split; apply Permutation_in; [exact P|apply Permutation_sym; exact P]).
    assert (Gf : forall k n, k <> Gate -> In n (of_kind s ps e k) -> smem n gs = false).
    { intros k n Nk Hk. apply not_true_is_false. intro Z. apply smem_In in Z. apply G in Z. destruct Z as (t & Et & Pt). apply Nk. apply (kind_unique k Gate t); [|exact Pt].
      destruct K as (K1 & K2 & K3 & _). destruct k; cbn [of_kind kind_type] in *.
      - destruct Hk as [<-|[]]. congruence.
      - rewrite (K2 n Hk) in Et. congruence.
      - unfold is_activity. destruct (K3 n Hk) as [X|X]; rewrite X in Et; injection Et as <-; auto.
      - congruence. }
    rewrite path_gcount. unfold one at 1 2. rewrite (Gf Start s), (Gf Stop e); [|discriminate|left; reflexivity|discriminate|left; reflexivity]. cbn [Nat.add]. apply sum_ext. intros p Hp. apply part_gcount. split; [|split]; intros n Hn.
    - apply Gm. apply (in_flat_map part_gates). eauto.
    - apply (Gf Step); [discriminate|]. apply (in_flat_map part_acts). eauto.
    - apply (Gf Stop); [discriminate|]. right. apply (in_flat_map part_ends). eauto. }
  rewrite E, Sg, Lg. split.
  - intros ->. reflexivity.
  - intro Pos. destruct (2 * list_sum (map blocks ps)) as [|k] eqn:Ek; [lia|]. unfold fdiv. eexists. split; [reflexivity|]. unfold Qeq, Qmult, inject_Z. cbn [Qnum Qden]. rewrite Pos.mul_1_r, Z.mul_1_r. lia.
Qed.
(** The average number of flow ends at a gateway; without a block the metric divides by zero. *)
Theorem C99_gateway_degree : forall l d s ps e, history l d -> distinct_pairs d -> made_of d s ps e -> kinds_fit d s ps e ->
  (list_sum (map blocks ps) = 0 -> AverageGatewayDegree_metric d = Err ZeroDivisionError) /\
  (0 < list_sum (map blocks ps) -> exists q, AverageGatewayDegree_metric d = Ok q /\
     (q * inject_Z (Z.of_nat (2 * list_sum (map blocks ps))) == inject_Z (Z.of_nat (list_sum (map gate_ends ps))))%Q).
Proof.
  intros l d s ps e H D M K. pose proof (inv_history l d H) as I. apply (degree_of_gates d s ps e); [exact (gwf_nodup _ (inv_g d I))|intros n Hn; apply (inv_n d I n Hn)|exact M| |exact K].
  intro n. exact (ends_flows l d _ H (made_flows l d s ps e H D M) n).
Qed.

(** * Example: nested blocks, a branch that stops, a direct flow *)
Definition measured_parts : list part :=
  [Act "a"; Block "g1" "j1" [([Act "b"; Block "g2" "j2" [([Act "c"], None); ([], None)]], None); ([Act "f"], Some "x"); ([Act "h"], None)]; Act "k"].
Definition measured_ops : list op :=
  [ONew "m" "0"; OStart "id2" "s" None false true (Some "s") "" ""] ++
  map (fun n => OExclusive "id2" n "Unspecified" None (Some n) "") (flat_map part_gates measured_parts) ++
  map (fun n => OTask "id2" n (Some n) "") (flat_map part_acts measured_parts) ++
  map (fun n => OEnd "id2" n None (Some n) "" "") ("e" :: flat_map part_ends measured_parts) ++
  map (fun p => OFlow "id2" (fst p) (snd p) "" (fst p ++ snd p)%string) (path_flows "s" measured_parts "e").
Definition measured : diagram := run empty_diagram measured_ops.
Definition type_b (d : diagram) (ts : list string) (n : string) : bool := match attr d n "type" with Some (VStr t) => smem t ts | _ => false end.
Definition kinds_b (d : diagram) (s : string) (ps : list part) (e : string) : bool :=
  type_b d ["startEvent"] s && forallb (type_b d ["endEvent"]) (e :: flat_map part_ends ps) && forallb (type_b d ["task"; "subProcess"]) (flat_map part_acts ps) &&
  forallb (type_b d gateway_types) (flat_map part_gates ps).
Lemma type_b_ok : forall d ts n, type_b d ts n = true -> exists t, attr d n "type" = Some (VStr t) /\ In t ts.
Proof. intros d ts n H. unfold type_b in H. destruct (attr d n "type") as [[|t| | | | |]|]; try discriminate. exists t. split; [reflexivity|]. apply smem_In. exact H. Qed.
Lemma kinds_ok : forall d s ps e, kinds_b d s ps e = true -> kinds_fit d s ps e.
Proof.
  intros d s ps e H. unfold kinds_b in H. rewrite !andb_true_iff in H. destruct H as [[[A B] C] E]. rewrite forallb_forall in B, C, E. split; [|split; [|split]].
  - apply type_b_ok in A. destruct A as (t & X & [<-|[]]). exact X.
  - intros n Hn. apply B in Hn. apply type_b_ok in Hn. destruct Hn as (t & X & [<-|[]]). exact X.
  - intros n Hn. apply C in Hn. apply type_b_ok in Hn. destruct Hn as (t & X & [<-|[<-|[]]]); auto.
  - intros n Hn. apply E in Hn. apply type_b_ok in Hn. exact Hn.
Qed.
Lemma made_ok : forall l d s ps e, history l d -> consists_b d s ps e = true -> (forall p, In p ps -> sound p) -> distinct_pairs d /\ made_of d s ps e.
Proof.
  intros l d s ps e H B So. destruct (consists_ok l d s ps e H B) as (_ & _ & _ & _ & N & Nd & F & _). unfold consists_b in B. rewrite !andb_true_iff in B. destruct B as [[[[[[B1 B2] B3] B4] B5] B6] B7]. apply pairs_checked_ok in B3.
  split; [exact B3|]. split; [exact N|]. split; [exact So|]. split; [exact Nd|]. intros x y. rewrite <- F. destruct (C26_api_diagrams_coherent l d H B3) as (_ & _ & _ & _ & Ff). unfold goes. split; intros (f & X); exists f; [exact (proj2 (Ff f x y) X)|exact (proj1 (Ff f x y) X)].
Qed.
Lemma measured_ok : history measured_ops measured /\ distinct_pairs measured /\ made_of measured "s" measured_parts "e" /\ kinds_fit measured "s" measured_parts "e".
Proof.
  assert (H : history measured_ops measured) by (apply checked_history; vm_compute; reflexivity). split; [exact H|].
  destruct (made_ok _ _ "s" measured_parts "e" H) as [D M].
  - vm_compute. reflexivity.
  - intros p [<-|[<-|[<-|[]]]]; [constructor| |constructor]. constructor; [cbn; lia|cbn; lia|].
    intros b p [<-|[<-|[<-|[]]]] Hp; cbn [fst In] in Hp.
    + destruct Hp as [<-|[<-|[]]]; [constructor|]. constructor; [cbn; lia|cbn; lia|]. intros b p [<-|[<-|[]]] Hp; cbn [fst In] in Hp; [destruct Hp as [<-|[]]; constructor|contradiction].
    + destruct Hp as [<-|[]]. constructor.
    + destruct Hp as [<-|[]]. constructor.
  - split; [exact D|]. split; [exact M|]. apply kinds_ok. vm_compute. reflexivity.
Qed.
Example C99_example : longest_way measured_parts = 10 /\ most_steps measured_parts = 4 /\
  (let* p := compute_longest_path 40 measured in Ok (map fst p)) = Ok ["s"; "a"; "g1"; "b"; "g2"; "c"; "j2"; "j1"; "k"; "e"] /\
  (let* p := compute_longest_path_tasks 40 measured in Ok (map fst p)) = Ok ["a"; "b"; "c"; "k"] /\
  NOAC_metric measured = Ok 13 /\ TNEE_metric measured = Ok 2 /\
  CoefficientOfNetworkComplexity_metric measured = Ok (14 # 13)%Q /\ AverageGatewayDegree_metric measured = Ok (13 # 4)%Q /\ list_sum (map gate_ends measured_parts) = 13.
Proof. vm_compute. repeat split. Qed.
Example C99_applies : (exists p, compute_longest_path 40 measured = Ok p /\ length p = 10) /\ (exists q, compute_longest_path_tasks 40 measured = Ok q /\ length q = 4).
Proof.
  destruct measured_ok as (H & D & M & K). split.
  - apply (C99_longest_path _ _ "s" measured_parts "e" 40 H D M). apply Nat.ltb_lt. vm_compute. reflexivity.
  - apply (C99_most_activities _ _ "s" measured_parts "e" 40 H D M K). apply Nat.ltb_lt. vm_compute. reflexivity.
Qed.
Print Assumptions C99_longest_path.
Print Assumptions C99_most_activities.
Print Assumptions C99_counts.
Print Assumptions C99_network_complexity.
Print Assumptions C99_gateway_degree.
