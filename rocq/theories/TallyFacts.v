(** Counting the flows of a loaded table. *)
From Coq Require Import String Ascii List Bool Arith ZArith Lia Permutation.
From Verif Require Import Py PyFacts Consts Nx NxFacts Rep SpecRep RepFacts.
From Verif Require Import CsvRegex CsvImport SpecCsv RegexFacts CsvTable CsvFacts SpecFlow SpecGoto CsvGhost CsvFill CsvLast CsvCoherent CsvTotal.
From Verif Require Import Metrics SpecMetrics MetricsFacts MetricsFacts2 Prop_Metrics.
From Verif Require Import GotoFacts CsvGoto CsvJump Prop_CsvRows Prop_CsvImport Prop_CsvGoto SpecTally.
Import ListNotations.
Open Scope string_scope.
Open Scope list_scope.

(** * Lists of the same length *)
Lemma not_more : forall A B (R : A -> B -> Prop) la lb, NoDup la ->
  (forall a, In a la -> exists b, In b lb /\ R a b) ->
  (forall a a' b, In a la -> In a' la -> In b lb -> R a b -> R a' b -> a = a') -> length la <= length lb.
Proof.
  intros A B R. induction la as [|a la IH]; intros lb N T J; simpl; [lia|]. inv N.
  destruct (T a (or_introl eq_refl)) as [b [Hb Rb]]. apply in_split in Hb. destruct Hb as [l1 [l2 ->]].
  assert (X : length la <= length (l1 ++ l2)).
  { apply IH; auto.
    - intros a' Ha'. destruct (T a' (or_intror Ha')) as [b' [Hb' Rb']]. exists b'. split; auto.
      apply in_app_or in Hb'. apply in_or_app. destruct Hb' as [Hb'|[Hb'|Hb']]; auto. subst b'. exfalso. apply H1.
      rewrite (J a a' b); simpl; auto. apply in_or_app. simpl; auto.
    - intros x y z Hx Hy Hz. apply J; simpl; auto. apply in_app_or in Hz. apply in_or_app. simpl. tauto. }
  rewrite app_length in *. simpl. lia.
Qed.
Lemma as_many : forall A B (R : A -> B -> Prop) la lb, NoDup la -> NoDup lb ->
  (forall a, In a la -> exists b, In b lb /\ R a b) -> (forall b, In b lb -> exists a, In a la /\ R a b) ->
  (forall a a' b, In a la -> In a' la -> In b lb -> R a b -> R a' b -> a = a') ->
  (forall a b b', In a la -> In b lb -> In b' lb -> R a b -> R a b' -> b = b') -> length la = length lb.
Proof.
  intros A B R la lb Na Nb Ta Tb Ja Jb. apply Nat.le_antisymm.
  - eapply not_more; eauto.
  - apply (not_more _ _ (fun b a => R a b) lb la); eauto.
Qed.

Lemma NoDup_map_inj : forall A B (f : A -> B) l, (forall x y, In x l -> In y l -> f x = f y -> x = y) -> NoDup l -> NoDup (map f l).
Proof.
  intros A B f. induction l as [|x l IH]; intros J N; cbn [map]; [constructor|]. inv N. constructor.
  - intros C. apply in_map_iff in C. destruct C as [y [E C]]. apply H1. rewrite (J x y); simpl; auto.
  - apply IH; auto. intros; apply J; simpl; auto.
Qed.

Section Tally.
Variables (rows : dict row) (d d' : diagram) (L : flows_of).
Hypothesis G : good_rows rows.
Hypothesis NJ : neat_jumps rows.
Hypothesis I : rerouted rows d d' L.
Hypothesis CN : forall o, In o (orders rows) -> connectable rows o.

Lemma row_left : forall n, In n (orders rows) -> ~ passed rows n.
Proof using G. intros n Hn [C _]. eapply gateway_not_row; eauto. Qed.
Lemma goal_row : forall o x t, redirects rows o x t -> In t (orders rows) /\ ~ goto_order rows t.
Proof using NJ. intros o x t (r & A & B & _ & C). eapply (nj_goal _ NJ); eauto. Qed.
Lemma order_goto_dec : forall o, goto_order rows o \/ ~ goto_order rows o.
Proof using G.
  intros o. destruct (in_dec string_dec o (orders rows)) as [H|H].
  - unfold orders in H. apply in_map_iff in H. destruct H as [[o' r] [<- H]]. cbn [fst]. destruct (goto_dec r) as [K|K]; [left; exists r; auto|].
    right. intros [r' [H' K']]. apply K. replace r with r'; auto.
    apply (In_dget _ _ _ (proj1 G)) in H. apply (In_dget _ _ _ (proj1 G)) in H'. congruence.
  - right. intros C. apply H. apply goto_in. exact C.
Qed.
Lemma gateway_not_goto : forall g, gateway_of rows g -> ~ goto_order rows g.
Proof using G. intros g H C. eapply gateway_not_row; eauto. apply goto_in. exact C. Qed.
Lemma either_way : forall P : Prop, (P \/ ~ P -> False) -> False.
Proof using. tauto. Qed.
Lemma flow_dec : forall s (P : string -> bool), (exists t, goto_flow rows s t /\ P t = true) \/ ~ exists t, goto_flow rows s t /\ P t = true.
Proof using I.
  intros s P. destruct (existsb (fun p => String.eqb (fst p) s && P (snd p)) L) eqn:E.
  - left. apply existsb_exists in E. destruct E as [[a t] [H E]]. apply andb_true_iff in E. destruct E as [E1 E2]. apply String.eqb_eq in E1. cbn [fst snd] in *. subst a.
    exists t. split; auto. apply (re_flows _ _ _ _ I). exact H.
  - right. intros [t [H E2]]. apply (re_flows _ _ _ _ I) in H.
    assert (X : existsb (fun p => String.eqb (fst p) s && P (snd p)) L = true); [|congruence].
    apply existsb_exists. exists (s, t). split; auto. cbn [fst snd]. rewrite eqb_refl'. exact E2.
Qed.

(** * Where a row goes *)
Lemma row_raw : forall o, onward rows o -> exists t, raw_flow rows o t.
Proof using G CN.
  intros o On. pose proof (onward_in _ _ On) as Ho. pose proof (CN o Ho On) as C.
  destruct (seq_total o) as [l1 S1]. destruct (split_total o) as [l2 S2].
  destruct (any_successor_present l1 (orders rows)) eqn:A1.
  { apply any_true in A1. destruct A1 as [x [X1 X2]]. exists x. apply rf_sequence. split; auto. apply (follows_iff rows o l1 S1); auto. }
  assert (Nf : forall m, ~ follows rows o m).
  { intros m Q. apply (follows_iff rows o l1 S1 m) in Q. rewrite any_false in A1. eapply A1; apply Q. }
  destruct (any_successor_present l2 (orders rows)) eqn:A2.
  { exists (split_of o). apply rf_split. split; auto. split; auto. apply (opens_iff rows o l2 S2); auto. }
  assert (No : ~ opens rows o).
  { intros Q. apply (opens_iff rows o l2 S2) in Q. congruence. }
  destruct C as [[m C]|[C|[m [C _]]]]; [exfalso; eapply Nf; eauto|contradiction|].
  exists (join_of m). apply rf_join. split; auto.
Qed.
Lemma raw_way : forall s y, ~ goto_order rows s -> raw_flow rows s y -> exists w, way rows s w /\ ((w = y /\ ~ goto_order rows y) \/ redirects rows y s w).
Proof using G I.
  intros s y N H. destruct (order_goto_dec y) as [Q|Q].
  - pose proof Q as [r [K1 K2]]. destruct (fo_rows _ (re_follow _ _ _ _ I) y r K1 K2) as [[t T] _].
    assert (X : redirects rows y s t) by (exists r; auto). exists t. split; [right; exists y; exact X|right; exact X].
  - exists y. split; [left; auto|left; auto].
Qed.
Lemma raw_ends : forall x y, raw_flow rows x y -> (In x (orders rows) \/ gateway_of rows x) /\ (In y (orders rows) \/ gateway_of rows y).
Proof using.
  assert (C : forall o m, merges rows o m -> In m (orders rows)).
  { intros o m (_ & _ & _ & l & k & q & c & _ & _ & _ & H). exact H. }
  intros x y [o m Q|o Q|o b Q Q'|o m Q|o m Q].
  - split; left; [apply onward_in; apply Q|]. destruct Q as [_ (p & n & _ & _ & H)]. exact H.
  - split; [left; apply onward_in; apply Q|right; left; eauto].
  - split; [right; left; eauto|left]. destruct Q' as (p & n & _ & _ & H). exact H.
  - split; [left; apply onward_in; apply Q|right; right; eauto].
  - split; [right; right; eauto|left; eauto].
Qed.
Lemma way_ends_are : forall x y, way rows x y -> (In x (orders rows) \/ gateway_of rows x) /\ (In y (orders rows) \/ gateway_of rows y).
Proof using NJ.
  intros x y [[H _]|[o H]]; [apply raw_ends; auto|]. split; [|left; eapply goal_row; eauto]. destruct H as (r & _ & _ & H & _). apply raw_ends in H. apply H.
Qed.
Lemma gateway_to_row : forall x y, way rows x y -> gateway_of rows x -> In y (orders rows).
Proof using G NJ.
  intros x y H Hx. destruct (proj2 (way_ends_are _ _ H)) as [A|A]; auto. exfalso. destruct H as [[H _]|[o H]].
  - eapply raw_alternates; eauto.
  - eapply gateway_not_row; eauto. eapply goal_row; eauto.
Qed.
Lemma way_one : forall s a b, In s (orders rows) -> way rows s a -> way rows s b -> a = b.
Proof using G I. intros s a b. eapply row_goto_one; eauto. apply I. Qed.

Lemma row_flow : forall o, leads_on rows o -> exists t, goto_flow rows o t.
Proof using G NJ I CN.
  intros o [On Ng]. pose proof (onward_in _ _ On) as Ho. destruct (flow_dec o (fun _ => true)) as [[t [H _]]|H]; [eauto|]. exfalso.
  assert (K : forall t, ~ goto_flow rows o t) by (intros t C; apply H; eauto). clear H.
  destruct (row_raw o On) as [y Hy]. destruct (raw_way o y Ng Hy) as [w [W _]].
  apply (either_way (passed rows w)). intros [P|P].
  - destruct (fo_gates _ (re_follow _ _ _ _ I) w P) as (s & t & A & B & _). apply (K t).
    split; [apply row_left; auto|]. split; [apply row_left; eapply gateway_to_row; eauto; apply P|]. right. exists w. auto.
  - apply (K w). split; [apply row_left; auto|]. split; auto. left. exact W.
Qed.
Lemma row_flow_one : forall o t t', In o (orders rows) -> goto_flow rows o t -> goto_flow rows o t' -> t = t'.
Proof using G NJ I.
  intros o t t' Ho (_ & Pt & A) (_ & Pt' & B).
  destruct A as [A|(g & Pg & A1 & A2)], B as [B|(g' & Pg' & B1 & B2)].
  - eapply way_one; eauto.
  - exfalso. apply Pt. replace t with g'; auto. eapply way_one; eauto.
  - exfalso. apply Pt'. replace t' with g; auto. eapply way_one; eauto.
  - assert (g = g') by (eapply way_one; eauto). subst g'. apply Pg; auto.
Qed.
Lemma row_flow_leads : forall o t, In o (orders rows) -> goto_flow rows o t -> leads_on rows o.
Proof using G NJ.
  intros o t Ho (_ & _ & A). assert (X : exists w, way rows o w) by (destruct A as [A|(g & _ & A & _)]; eauto). destruct X as [w X].
  split; [|apply (way_ends rows o w NJ X)]. assert (Y : exists y, raw_flow rows o y) by (destruct X as [[X _]|(q & r & _ & _ & X & _)]; eauto).
  destruct Y as [y Y]. rewrite <- raw_by_all in Y. apply row_source in Y; [|eapply good_plain; eauto]. destruct Y as [_ [Y|[[Y _]|[m [Y _]]]]]; apply Y.
Qed.

(** * Where a gateway goes *)
Lemma gate_flow : forall g t, gateway_of rows g -> ~ passed rows g -> (goto_flow rows g t <-> way rows g t).
Proof using G NJ.
  intros g t Gg P. split.
  - intros (_ & _ & [A|(h & Ph & A & _)]); auto. exfalso. eapply (gateway_not_row rows h); eauto; [apply Ph|]. eapply gateway_to_row; eauto.
  - intros H. split; auto. split; [apply row_left; eapply gateway_to_row; eauto|]. left. exact H.
Qed.
(** The flow to the row [b] ends in [t]. *)
Definition lands (s b t : string) : Prop := raw_flow rows s b /\ ((b = t /\ ~ goto_order rows b) \/ redirects rows b s t).
Lemma lands_way : forall s t, ~ goto_order rows s -> (way rows s t <-> exists b, lands s b t).
Proof using.
  intros s t N. split.
  - intros [[A [_ B]]|[o A]]; [exists t; split; auto|]. exists o. pose proof A as (r & _ & _ & X & _). split; auto.
  - intros [b [A [[-> B]|B]]]; [left; auto|right; eauto].
Qed.
Lemma lands_one : forall s b t t', lands s b t -> lands s b t' -> t = t'.
Proof using G.
  intros s b t t' [_ [[A1 A2]|A]] [_ [[B1 B2]|B]]; try congruence.
  - exfalso. destruct B as (r & X & Y & _). apply A2. exists r. auto.
  - exfalso. destruct A as (r & X & Y & _). apply B2. exists r. auto.
  - destruct A as (r & X & Y & _ & Z), B as (r' & X' & Y' & _ & Z').
    apply (In_dget _ _ _ (proj1 G)) in X. apply (In_dget _ _ _ (proj1 G)) in X'. assert (r = r') by congruence. subst r'. eapply second_unique; eauto.
Qed.
Lemma lands_apart : forall s b b' t, lands s b t -> lands s b' t -> b = b'.
Proof using NJ.
  intros s b b' t [A0 [[A1 A2]|A]] [B0 [[B1 B2]|B]]; try congruence.
  - exfalso. apply (nj_new _ NJ b' s t B). congruence.
  - exfalso. apply (nj_new _ NJ b s t A). congruence.
  - eapply (nj_distinct _ NJ); eauto.
Qed.
Lemma lands_some : forall s b, ~ goto_order rows s -> raw_flow rows s b -> exists t, lands s b t.
Proof using G I.
  intros s b N H. destruct (raw_way s b N H) as [w [_ [[-> Q]|Q]]]; eexists; split; eauto.
Qed.
Lemma split_raw : forall o b, raw_flow rows (split_of o) b <-> splits rows o /\ branch rows o b.
Proof using G.
  intros o b. split.
  - intros H. rewrite <- raw_by_all in H. apply split_source in H; auto. tauto.
  - intros [A B]. apply rf_branch; auto.
Qed.
Lemma join_raw : forall m y, raw_flow rows (join_of m) y <-> y = m /\ exists o, merges rows o m.
Proof using G.
  intros m y. split.
  - intros H. rewrite <- raw_by_all in H. apply join_source in H; auto. destruct H as [-> [o [_ H]]]. eauto.
  - intros [-> [o H]]. eapply rf_after; eauto.
Qed.

(** * Counting *)
Definition exit := (string * option string)%type.
Definition taken (x : exit) (p : string * string) : Prop :=
  fst p = fst x /\ match snd x with None => True | Some b => lands (fst x) b (snd p) end.
Definition among (l : list string) (n : string) : bool := if in_dec string_dec n l then true else false.
Lemma among_in : forall l n, among l n = true <-> In n l.
Proof using. intros l n. unfold among. destruct (in_dec string_dec n l); split; auto; discriminate. Qed.
Lemma among_not : forall l n, among l n = false <-> ~ In n l.
Proof using. intros l n. unfold among. destruct (in_dec string_dec n l); split; auto; try discriminate; tauto. Qed.

Lemma flow_start : forall s t, goto_flow rows s t -> In s (orders rows) \/ gateway_left rows s.
Proof using NJ.
  intros s t Hp. pose proof Hp as (P & _ & [A|(h & _ & A & _)]); apply way_ends_are in A; destruct (proj1 A); auto; right; split; auto.
Qed.

Variable gt : list string.
Hypothesis Gt : listing (gateway_left rows) gt.

Lemma rows_number : forall on, listing (leads_on rows) on ->
  length (filter (fun p => negb (among gt (fst p))) L) = length on.
Proof using G NJ I CN Gt.
  intros on [No Ho]. symmetry. apply (as_many _ _ (fun o (p : string * string) => fst p = o)); [exact No|apply NoDup_filter; apply I| | | |].
  - intros o H. apply Ho in H. destruct (row_flow o H) as [t T]. exists (o, t). split; auto. apply filter_In. split; [apply (re_flows _ _ _ _ I); exact T|].
    cbn [fst]. apply negb_true_iff. apply among_not. intros C. apply Gt in C. apply (gateway_not_row rows o G (proj1 C)). apply onward_in. apply H.
  - intros [s t] H. apply filter_In in H. cbn [fst] in H. destruct H as [H N]. apply (re_flows _ _ _ _ I) in H. exists s. split; auto. apply Ho.
    apply negb_true_iff in N. apply (proj1 (among_not _ _)) in N. destruct (flow_start s t H) as [K|K]; [eapply row_flow_leads; eauto|].
    exfalso. apply N. apply Gt. exact K.
  - intros o o' p _ _ _ E E'. congruence.
  - intros o [s t] [s' t'] Hx H H' E E'. cbn [fst] in E, E'. subst s s'. f_equal. apply filter_In in H. apply filter_In in H'.
    apply Ho in Hx. apply (row_flow_one o); [apply onward_in; apply Hx| |]; apply (re_flows _ _ _ _ I); tauto.
Qed.

Lemma gates_number : forall jn br, listing (join_left rows) jn -> listing (branch_left rows) br ->
  length (filter (fun p => among gt (fst p)) L) = length jn + length br.
Proof using G NJ I Gt.
  intros jn br [Nn Hn] [Nb Hb].
  set (X := map (fun g => (g, None)) jn ++ map (fun p => (split_of (fst p), Some (snd p))) br : list exit).
  assert (InX : forall x, In x X <-> (exists g, x = (g, None) /\ join_left rows g) \/
    exists o b, x = (split_of o, Some b) /\ branch_left rows (o, b)).
  { intros x. unfold X. rewrite !in_app_iff, !in_map_iff. split.
    - intros [[g [<- H]]|[[o b] [<- H]]]; [left; exists g|right; exists o, b]; split; auto; [apply Hn|apply Hb]; auto.
    - intros [[g [-> H]]|[o [b [-> H]]]]; [left; exists g|right; exists (o, b)]; split; auto; [apply Hn|apply Hb]; auto. }
  assert (InL : forall s t, In (s, t) (filter (fun p => among gt (fst p)) L) <-> gateway_left rows s /\ way rows s t).
  { intros s t. rewrite filter_In. cbn [fst]. rewrite among_in, (re_flows _ _ _ _ I), (proj2 Gt s). split.
    - intros [A B]. split; auto. apply (proj1 (gate_flow s t (proj1 B) (proj2 B))). exact A.
    - intros [B A]. split; auto. apply (proj2 (gate_flow s t (proj1 B) (proj2 B))). exact A. }
  assert (Joined : forall m t t', way rows (join_of m) t -> way rows (join_of m) t' -> gateway_of rows (join_of m) -> t = t').
  { intros m t t' Hp Hp' Gg. apply lands_way in Hp; [|apply gateway_not_goto; auto]. apply lands_way in Hp'; [|apply gateway_not_goto; auto].
    destruct Hp as [b Hp], Hp' as [b' Hp']. assert (b = m) by (destruct Hp as [Q _]; apply join_raw in Q; apply Q).
    assert (b' = m) by (destruct Hp' as [Q _]; apply join_raw in Q; apply Q). subst b b'. eapply lands_one; eauto. }
  replace (length jn + length br) with (length X) by (unfold X; rewrite !app_length, !map_length; lia).
  symmetry. apply (as_many _ _ taken).
  - unfold X. apply NoDup_app_intro.
    + apply NoDup_map_inj; auto. intros a b _ _ E. injection E as E. exact E.
    + apply NoDup_map_inj; auto. intros [a b] [a' b'] _ _ E. cbn [fst snd] in E. injection E as E1 E2. apply split_inj in E1. congruence.
    + intros x A B. apply in_map_iff in A. apply in_map_iff in B. destruct A as [a [<- _]], B as [b [E _]]. discriminate.
  - apply NoDup_filter. apply I.
  - intros x Hx. apply InX in Hx. destruct Hx as [[g [-> H]]|[o [b [-> H]]]].
    + destruct H as (o & m & M & -> & P). assert (Gg : gateway_of rows (join_of m)) by (right; eauto).
      destruct (lands_some (join_of m) m) as [t T]; [apply gateway_not_goto; auto|apply join_raw; eauto|].
      exists (join_of m, t). split; [|split; [reflexivity|exact Logic.I]]. apply InL. split; [split; auto|]. apply lands_way; [apply gateway_not_goto; auto|eauto].
    + destruct H as (S & P & B). cbn [fst snd] in *. assert (Gg : gateway_of rows (split_of o)) by (left; eauto).
      destruct (lands_some (split_of o) b) as [t T]; [apply gateway_not_goto; auto|apply split_raw; auto|].
      exists (split_of o, t). split; [|split; [reflexivity|exact T]]. apply InL. split; [split; auto|]. apply lands_way; [apply gateway_not_goto; auto|eauto].
  - intros [s t] Hp. apply InL in Hp. destruct Hp as [[K P] Hp]. apply lands_way in Hp; [|apply gateway_not_goto; auto]. destruct Hp as [b Hp].
    destruct K as [[o [S ->]]|[o [m [M ->]]]].
    + exists (split_of o, Some b). split; [|split; [reflexivity|exact Hp]]. apply InX. right. exists o, b. split; auto. split; auto. split; auto. cbn [fst snd].
      destruct Hp as [Hp _]. apply split_raw in Hp. apply Hp.
    + exists (join_of m, None). split; [|split; [reflexivity|exact Logic.I]]. apply InX. left. exists (join_of m). split; auto. exists o, m. auto.
  - intros x y [s t] Hx Hy _ [Ex Tx] [Ey Ty]. cbn [fst snd] in *. apply InX in Hx. apply InX in Hy.
    destruct Hx as [[g [-> H]]|[o [b [-> H]]]], Hy as [[g' [-> H']]|[o' [b' [-> H']]]]; cbn [fst snd] in *; try congruence.
    + exfalso. subst s. subst g. destruct H as (q & m & _ & E & _). eapply split_join; eauto.
    + exfalso. subst s. subst g'. destruct H' as (q & m & _ & E & _). eapply split_join; eauto.
    + subst s. apply split_inj in Ey. subst o'. rewrite (lands_apart _ _ _ _ Tx Ty). reflexivity.
  - intros x [s t] [s' t'] Hx Hp Hp' [E T] [E' T']. cbn [fst snd] in *. subst s s'. f_equal. apply InL in Hp. apply InL in Hp'.
    apply InX in Hx. destruct Hx as [[g [-> H]]|[o [b [-> H]]]]; cbn [fst snd] in *.
    + destruct H as (o & m & M & -> & P). eapply Joined; [apply Hp|apply Hp'|apply Hp].
    + eapply lands_one; eauto.
Qed.

Lemma entry_flow : forall o g, gateway_of rows g -> (goto_flow rows o g <-> ~ passed rows g /\ ~ goto_order rows o /\ raw_flow rows o g).
Proof using G NJ.
  intros o g Gg. split.
  - intros (_ & P & [A|(h & Ph & _ & A)]).
    + split; auto. destruct A as [[A [B _]]|[q A]]; [auto|]. exfalso. apply (gateway_not_row rows g G Gg). eapply goal_row; eauto.
    + exfalso. apply (gateway_not_row rows g G Gg). eapply gateway_to_row; eauto. apply Ph.
  - intros (P & N & A). assert (Ro : In o (orders rows)).
    { destruct (proj1 (raw_ends _ _ A)) as [K|K]; auto. exfalso. eapply raw_alternates; eauto. }
    split; [apply row_left; auto|]. split; auto. left. left. split; auto. split; auto. apply gateway_not_goto; auto.
Qed.
Lemma entry_raw : forall o g, gateway_of rows g -> raw_flow rows o g -> (splits rows o /\ g = split_of o) \/ exists m, merges rows o m /\ g = join_of m.
Proof using G.
  intros o g Gg A. assert (Ro : In o (orders rows)).
  { destruct (proj1 (raw_ends _ _ A)) as [K|K]; auto. exfalso. eapply raw_alternates; eauto. }
  rewrite <- raw_by_all in A. apply row_source in A; [|eapply good_plain; eauto]. destruct A as [_ [[_ (p & n & _ & _ & H)]|A]]; auto.
  exfalso. eapply gateway_not_row; eauto.
Qed.
Lemma enters_flow : forall o, enters rows o <-> exists g, gateway_of rows g /\ goto_flow rows o g.
Proof using G NJ.
  intros o. split.
  - intros [N [[S P]|[m [M P]]]].
    + assert (Gg : gateway_of rows (split_of o)) by (left; eauto). exists (split_of o). split; auto. apply entry_flow; auto. split; auto. split; auto. apply rf_split; auto.
    + assert (Gg : gateway_of rows (join_of m)) by (right; eauto). exists (join_of m). split; auto. apply entry_flow; auto. split; auto. split; auto. apply rf_join; auto.
  - intros [g [Gg H]]. apply entry_flow in H; auto. destruct H as (P & N & A). split; auto. apply entry_raw in A; auto.
    destruct A as [[S ->]|[m [M ->]]]; [left; auto|right; eauto].
Qed.
Lemma entries_number : forall en, listing (enters rows) en -> length (filter (fun p => among gt (snd p)) L) = length en.
Proof using G NJ I Gt.
  intros en [No Ho]. symmetry. apply (as_many _ _ (fun o (p : string * string) => fst p = o)); [exact No|apply NoDup_filter; apply I| | | |].
  - intros o H. apply Ho in H. apply enters_flow in H. destruct H as [g [Gg H]]. exists (o, g). split; auto. apply filter_In. split; [apply (re_flows _ _ _ _ I); exact H|].
    cbn [snd]. apply among_in. apply Gt. split; auto. apply H.
  - intros [s t] H. apply filter_In in H. cbn [snd] in H. destruct H as [H N]. apply (re_flows _ _ _ _ I) in H. exists s. split; auto. apply Ho.
    apply among_in in N. apply Gt in N. apply enters_flow. exists t. split; auto. apply N.
  - intros o o' p _ _ _ E E'. congruence.
  - intros o [s t] [s' t'] Hx H H' E E'. cbn [fst] in E, E'. subst s s'. f_equal. apply filter_In in H. apply filter_In in H'.
    apply Ho in Hx. apply (row_flow_one o); [| |]; try (apply (re_flows _ _ _ _ I); tauto).
    destruct Hx as [_ [[[[r [Q _]] _] _]|[m [[[r [Q _]] _] _]]]]; apply in_map_iff; exists (o, r); auto.
Qed.
Lemma filter_halves : forall A (f : A -> bool) l, length (filter f l) + length (filter (fun x => negb (f x)) l) = length l.
Proof using. intros A f. induction l as [|x l IH]; simpl; auto. destruct (f x); simpl; lia. Qed.
Theorem flows_number : forall on jn br, listing (leads_on rows) on -> listing (join_left rows) jn -> listing (branch_left rows) br ->
  length L = length on + length jn + length br.
Proof using G NJ I CN Gt.
  intros on jn br A B C. rewrite <- (filter_halves _ (fun p => among gt (fst p)) L). rewrite (gates_number _ _ B C), (rows_number _ A). lia.
Qed.
End Tally.

(** * The lists are there *)
Section Lists.
Variables (rows : dict row) (d d' : diagram) (L : flows_of).
Hypothesis G : good_rows rows.
Hypothesis NJ : neat_jumps rows.
Hypothesis I : rerouted rows d d' L.
Hypothesis W : gwf (dgraph d').

Lemma row_listing : forall (f : string -> row -> bool) (P : string -> Prop),
  (forall o r, In (o, r) rows -> (f o r = true <-> P o)) -> (forall o, P o -> In o (orders rows)) -> exists l, listing P l.
Proof using G.
  intros f P E H. exists (map fst (filter (fun p => f (fst p) (snd p)) rows)). split.
  - assert (X : forall l : dict row, NoDup (map fst l) -> NoDup (map fst (filter (fun p => f (fst p) (snd p)) l))).
    { induction l as [|[o r] l IH]; intros N; cbn [map filter]; [constructor|]. inv N. cbn [fst snd]. destruct (f o r); auto. cbn [map fst]. constructor; auto.
      intros C. apply H2. apply in_map_iff in C. destruct C as [q [Q C]]. apply filter_In in C. apply in_map_iff. exists q. tauto. }
    apply X. apply G.
  - intros o. rewrite in_map_iff. split.
    + intros [[o' r] [<- Q]]. apply filter_In in Q. cbn [fst snd] in *. apply (E o' r); apply Q.
    + intros Q. pose proof (H o Q) as K. unfold orders in K. apply in_map_iff in K. destruct K as [[o' r] [<- K]]. exists (o', r). split; auto.
      apply filter_In. split; auto. cbn [fst snd] in *. apply (E o' r); auto.
Qed.
Lemma same_row : forall o r r', In (o, r) rows -> In (o, r') rows -> r = r'.
Proof using G. intros o r r' A B. apply (In_dget _ _ _ (proj1 G)) in A. apply (In_dget _ _ _ (proj1 G)) in B. congruence. Qed.
Lemma in_orders : forall o r, In (o, r) rows -> In o (orders rows).
Proof using. intros o r H. apply in_map_iff. exists (o, r). auto. Qed.
Lemma not_goto_b : forall r, negb (is_goto r) = true <-> ~ goto_row r.
Proof using. intros r. rewrite negb_true_iff. split; intros H; [intros C; apply is_goto_spec in C; congruence|]. destruct (is_goto r) eqn:E; auto. exfalso. apply H. apply is_goto_spec. auto. Qed.

Lemma begins_listing : exists l, listing (begins rows) l.
Proof using G.
  apply (row_listing (fun o r => negb (is_goto r) && String.eqb o "0")).
  - intros o r H. rewrite andb_true_iff, not_goto_b, String.eqb_eq. split; [intros []; exists r; auto|].
    intros (r' & H' & A & B). rewrite (same_row _ _ _ H H'). auto.
  - intros o (r & H & _). eapply in_orders; eauto.
Qed.
Lemma finishes_listing : exists l, listing (finishes rows) l.
Proof using G.
  apply (row_listing (fun o r => negb (is_goto r) && (negb (String.eqb o "0") && String.eqb (r_terminated r) "yes"))).
  - intros o r H. rewrite !andb_true_iff, not_goto_b, negb_true_iff, String.eqb_neq, String.eqb_eq. split; [intros (A & B & C); exists r; auto|].
    intros (r' & H' & A & B & C). rewrite (same_row _ _ _ H H'). auto.
  - intros o (r & H & _). eapply in_orders; eauto.
Qed.
Lemma works_listing : exists l, listing (works rows) l.
Proof using G.
  apply (row_listing (fun o r => negb (is_goto r) && (negb (String.eqb o "0") && negb (String.eqb (r_terminated r) "yes")))).
  - intros o r H. rewrite !andb_true_iff, not_goto_b, !negb_true_iff, !String.eqb_neq. split; [intros (A & B & C); exists r; auto|].
    intros (r' & H' & A & B & C). rewrite (same_row _ _ _ H H'). auto.
  - intros o (r & H & _). eapply in_orders; eauto.
Qed.
Lemma leads_listing : exists l, listing (leads_on rows) l.
Proof using G.
  apply (row_listing (fun o r => negb (is_goto r) && negb (String.eqb (r_terminated r) "yes"))).
  - intros o r H. rewrite !andb_true_iff, not_goto_b, !negb_true_iff, !String.eqb_neq. split.
    + intros (A & B). split; [exists r; auto|]. intros (r' & H' & C). rewrite (same_row _ _ _ H H') in A. auto.
    + intros [(r' & H' & A) B]. rewrite (same_row _ _ _ H H'). split; auto. intros C. apply B. exists r'. auto.
  - intros o [H _]. apply onward_in; auto.
Qed.
Lemma enters_listing : exists l, listing (enters rows) l.
Proof using G NJ I.
  apply (row_listing (fun o r => existsb (fun p => String.eqb (fst p) o && negb (among (orders rows) (snd p))) L)).
  - intros o r H. rewrite existsb_exists, (enters_flow rows G NJ). split.
    + intros [[s t] [A B]]. cbn [fst snd] in B. apply andb_true_iff in B. destruct B as [B C]. apply String.eqb_eq in B. subst s.
      apply negb_true_iff, among_not in C. exists t. pose proof A as A'. apply (bk_ends _ _ (re_books _ _ _ _ I)) in A'. destruct A' as [_ A'].
      apply (re_nodes _ _ _ _ I) in A'. split; [destruct A' as [[Q|Q] _]; [contradiction|exact Q]|]. apply (re_flows _ _ _ _ I). exact A.
    + intros [g [Gg A]]. exists (o, g). split; [apply (re_flows _ _ _ _ I); auto|]. cbn [fst snd]. rewrite eqb_refl'. cbn [andb].
      apply negb_true_iff, among_not. apply gateway_not_row; auto.
  - intros o [_ [[[[r [Q _]] _] _]|[m [[[r [Q _]] _] _]]]]; eapply in_orders; eauto.
Qed.
Lemma gateways_listing : listing (gateway_left rows) (filter (fun n => negb (among (orders rows) n)) (map fst (gnodes (dgraph d')))).
Proof using G I W.
  split; [apply NoDup_filter; apply W|]. intros g. rewrite filter_In, negb_true_iff, among_not. split.
  - intros [A B]. apply (re_nodes _ _ _ _ I) in A. destruct A as [[A|A] [_ P]]; [contradiction|]. split; auto.
  - intros [A P]. split; [|apply gateway_not_row; auto]. apply (re_nodes _ _ _ _ I). split; auto. split; auto. apply gateway_not_goto; auto.
Qed.
Lemma joins_listing : exists l, listing (join_left rows) l.
Proof using G I W.
  exists (filter (fun g => existsb (fun m => String.eqb g (join_of m)) (orders rows)) (filter (fun n => negb (among (orders rows) n)) (map fst (gnodes (dgraph d'))))).
  split; [apply NoDup_filter; apply gateways_listing|]. intros g. rewrite filter_In, (proj2 gateways_listing g), existsb_exists. split.
  - intros [[A P] [m [_ E]]]. apply String.eqb_eq in E. subst g. destruct A as [[o [_ E]]|[o [m' [M E]]]]; [symmetry in E; exfalso; eapply split_join; eauto|].
    exists o, m'. auto.
  - intros (o & m & M & -> & P). split; [split; auto; right; eauto|]. exists m. rewrite eqb_refl'. split; auto.
    destruct M as (_ & _ & _ & l & k & q & c & _ & _ & _ & H). exact H.
Qed.
Definition pair_dec : forall p q : string * string, {p = q} + {p <> q}.
Proof. decide equality; apply string_dec. Defined.
Lemma branches_listing : exists l, listing (branch_left rows) l.
Proof using G I.
  exists (nodup pair_dec (flat_map (fun o => match get_all_split_successors o (orders rows) with Ok bs => map (pair o) bs | Err _ => [] end)
    (filter (fun o => among (map fst (gnodes (dgraph d'))) (split_of o)) (orders rows)))).
  split; [apply NoDup_nodup|]. intros [o b]. rewrite nodup_In, in_flat_map. unfold branch_left. cbn [fst snd]. split.
  - intros [o' [A B]]. apply filter_In in A. destruct A as [A N]. apply among_in in N. apply (re_nodes _ _ _ _ I) in N. destruct N as [N [_ P]].
    destruct (get_all_split_successors o' (orders rows)) as [bs|] eqn:E; [|contradiction]. apply in_map_iff in B. destruct B as [b' [Q B]]. injection Q as -> ->.
    apply (branches_found rows o bs (good_plain _ _ G A) E) in B. split; auto.
    destruct N as [N|[[q [S Q]]|[q [m [_ Q]]]]].
    + exfalso. eapply split_not_plain. eapply good_plain; eauto.
    + apply split_inj in Q. subst q. exact S.
    + exfalso. eapply split_join; eauto.
  - intros (S & P & B). assert (Ro : In o (orders rows)) by (apply onward_in; apply S). exists o. split.
    + apply filter_In. split; auto. apply among_in. apply (re_nodes _ _ _ _ I). assert (Gg : gateway_of rows (split_of o)) by (left; eauto).
      split; auto. split; auto. apply gateway_not_goto; auto.
    + destruct (gateway_type_total rows o G Ro) as (ty & bs & _ & E); [apply S|]. rewrite E. apply in_map. apply (branches_found rows o bs (good_plain _ _ G Ro) E). exact B.
Qed.

(** * The types of the nodes *)
Lemma type_is : forall n t, attr d' n "type" = Some (VStr t) <->
  (exists r, In (n, r) rows /\ ~ goto_row r /\ t = row_type n r) \/ (gateway_left rows n /\ three_gateways t /\ attr d' n "type" = Some (VStr t)).
Proof using G I.
  intros n t. split.
  - intros H. assert (N : is_node d' n).
    { unfold attr, node_of in H. destruct (dget n (gnodes (dgraph d'))) eqn:En; [|discriminate]. unfold is_node. eapply dget_key_In; eauto. }
    pose proof N as N'. apply (re_nodes _ _ _ _ I) in N. pose proof N as [[K|K] [Ng P]].
    + left. unfold orders in K. apply in_map_iff in K. destruct K as [[o r] [<- K]]. cbn [fst] in *. exists r. split; auto.
      assert (Q : ~ goto_row r) by (intros C; apply Ng; exists r; auto). split; auto. rewrite (re_type _ _ _ _ I _ _ K Q) in H. congruence.
    + right. split; [split; auto|]. split; auto. destruct K as [[o [S ->]]|[o [m [M ->]]]].
      * destruct (re_split _ _ _ _ I o S N) as [ty [E T]]. rewrite T in H. injection H as <-. eapply gateway_type_three; eauto.
      * destruct (re_join _ _ _ _ I o m M N) as [ty [E T]]. rewrite T in H. injection H as <-. exact E.
  - intros [(r & H & Q & ->)|(_ & _ & H)]; auto. apply (re_type _ _ _ _ I); auto.
Qed.
Lemma gateway_typed : forall n, gateway_left rows n -> exists t, three_gateways t /\ attr d' n "type" = Some (VStr t).
Proof using G I.
  intros n [K P]. assert (N : goto_node rows n) by (split; auto; split; auto; apply gateway_not_goto; auto).
  destruct K as [[o [S ->]]|[o [m [M ->]]]].
  - destruct (re_split _ _ _ _ I o S N) as [ty [E T]]. exists ty. split; auto. eapply gateway_type_three; eauto.
  - destruct (re_join _ _ _ _ I o m M N) as [ty [E T]]. eauto.
Qed.
Lemma nodes_typed : typed d'.
Proof using G I.
  intros n N. apply (re_nodes _ _ _ _ I) in N. pose proof N as [[K|K] [Ng P]].
  - unfold orders in K. apply in_map_iff in K. destruct K as [[o r] [<- K]]. cbn [fst] in *. eexists. apply (re_type _ _ _ _ I _ _ K). intros C; apply Ng; exists r; auto.
  - destruct (gateway_typed n) as [t [_ T]]; [split; auto|]. eauto.
Qed.
Lemma number_listing : forall (P : string -> Prop) (Q : string -> Prop) l, listing Q l ->
  (forall n, (exists t, attr d' n "type" = Some (VStr t) /\ P t) <-> Q n) -> SpecMetrics.number d' P (length l).
Proof using. intros P Q l [N H] E. exists l. split; auto. split; auto. intros n. rewrite H, E. tauto. Qed.
Ltac kinds := unfold row_type in *; repeat match goal with H : context [String.eqb ?a ?b] |- _ => destruct (String.eqb_spec a b) end.
Lemma start_number : forall l, listing (begins rows) l -> SpecMetrics.number d' (eq "startEvent") (length l).
Proof using G I.
  intros l H. eapply number_listing; [exact H|]. intros n. split.
  - intros [t [T <-]]. apply type_is in T. destruct T as [(r & A & B & C)|(_ & C & _)]; [|unfold three_gateways in C; intuition discriminate].
    exists r. kinds; try discriminate. auto.
  - intros (r & A & B & ->). exists "startEvent". split; auto. apply type_is. left. exists r. auto.
Qed.
Lemma end_number : forall l, listing (finishes rows) l -> SpecMetrics.number d' (eq "endEvent") (length l).
Proof using G I.
  intros l H. eapply number_listing; [exact H|]. intros n. split.
  - intros [t [T <-]]. apply type_is in T. destruct T as [(r & A & B & C)|(_ & C & _)]; [|unfold three_gateways in C; intuition discriminate].
    exists r. kinds; try discriminate. auto.
  - intros (r & A & B & C & E). exists "endEvent". split; auto. apply type_is. left. exists r. split; auto. split; auto. unfold row_type.
    rewrite (proj2 (String.eqb_neq _ _) C), (proj2 (String.eqb_eq _ _) E). reflexivity.
Qed.
Lemma work_number : forall l, listing (works rows) l -> SpecMetrics.number d' is_activity (length l).
Proof using G I.
  intros l H. eapply number_listing; [exact H|]. intros n. split.
  - intros [t [T Ty]]. apply type_is in T. destruct T as [(r & A & B & C)|(_ & C & _)]; [|unfold three_gateways, is_activity in *; intuition (subst; discriminate)].
    exists r. subst t. unfold is_activity in Ty. kinds; auto; intuition discriminate.
  - intros (r & A & B & C & E). exists (row_type n r). split; [apply type_is; left; exists r; auto|]. unfold row_type, is_activity.
    rewrite (proj2 (String.eqb_neq _ _) C), (proj2 (String.eqb_neq _ _) E). destruct (String.eqb _ _); auto.
Qed.
Lemma gate_kind : forall n, (exists t, attr d' n "type" = Some (VStr t) /\ SpecMetrics.is_gateway t) <-> gateway_left rows n.
Proof using G I.
  intros n. split.
  - intros [t [T Ty]]. apply type_is in T. destruct T as [(r & A & B & C)|(C & _)]; auto. exfalso. subst t. unfold SpecMetrics.is_gateway in Ty.
    kinds; intuition discriminate.
  - intros H. destruct (gateway_typed n H) as [t [A B]]. exists t. split; auto. unfold three_gateways, SpecMetrics.is_gateway in *. tauto.
Qed.
Lemma gate_number : forall l, listing (gateway_left rows) l -> SpecMetrics.number d' SpecMetrics.is_gateway (length l).
Proof using G I. intros l H. eapply number_listing; [exact H|]. apply gate_kind. Qed.
Lemma inter_number : SpecMetrics.number d' (fun t => t = "intermediateCatchEvent" \/ t = "intermediateThrowEvent") 0.
Proof using G I.
  exists []. split; [constructor|]. split; auto. intros n. split; [contradiction|]. intros [t [T Ty]]. apply type_is in T.
  destruct T as [(r & A & B & C)|(_ & C & _)]; [|unfold three_gateways in C; intuition (subst; discriminate)]. subst t. kinds; intuition discriminate.
Qed.

(** * Records and edges *)
Lemma records_number : length (seq_flows d') = length L.
Proof using I.
  pose proof (re_books _ _ _ _ I) as B.
  rewrite <- (map_length fst). apply (as_many _ _ (fun f p => f = gid p)); [apply B|apply I| | | |].
  - intros f H. apply in_map_iff in H. destruct H as [[f' r] [<- H]]. apply (In_dget _ _ _ (bk_keys _ _ B)) in H. apply (bk_flows _ _ B) in H. cbn [fst].
    destruct H as (s & t & A & E & _). exists (s, t). auto.
  - intros [s t] H. exists (gid (s, t)). split; auto. eapply dget_key_In. apply (bk_flows _ _ B). exists s, t. auto.
  - intros; congruence.
  - intros f [s t] [s' t'] _ P Q E E'. subst f. destruct (bk_ends _ _ B _ _ P), (bk_ends _ _ B _ _ Q).
    unfold gid in E'. cbn [fst snd] in E'. apply flow_id_inj in E'; try (apply (bk_simple _ _ B); auto). destruct E' as [-> ->]. reflexivity.
Qed.
Definition ends (e : edge) : string * string := (eu e, ev e).
Lemma edges_listed : one_way rows -> Permutation (map ends (gedges (dgraph d'))) L.
Proof using G I W.
  intros OW. assert (Bk : forall s t, In (s, t) L -> ~ In (t, s) L).
  { intros s t A B. apply (re_flows _ _ _ _ I) in A. apply (re_flows _ _ _ _ I) in B. destruct A as [_ [_ A]], B as [_ [_ B]]. eapply OW; eauto. }
  assert (Ed : edged rows d' L) by (apply I; auto).
  apply NoDup_Permutation; [|apply I|].
  - pose proof (gwf_simple _ W) as U. revert U. generalize (gedges (dgraph d')). induction l as [|e l IH]; intros U; cbn [map]; [constructor|]. constructor.
    + intros C. apply in_map_iff in C. destruct C as [e' [E C]]. apply in_split in C. destruct C as [l1 [l2 ->]].
      pose proof (U [] e l1 e' l2 eq_refl) as X. unfold ends in E. injection E as E1 E2. unfold connects in X. rewrite E1, E2, !eqb_refl' in X. discriminate.
    + apply IH. intros l1 e1 l2 e2 l3 ->. apply (U (e :: l1) e1 l2 e2 l3). reflexivity.
  - intros [s t]. rewrite in_map_iff. split.
    + intros [e [E H]]. unfold ends in E. injection E as <- <-. apply (Ed e H).
    + intros H. destruct (booked_listed_edge rows d' L (re_books _ _ _ _ I) (re_nodup _ _ _ _ I) Ed Bk W s t H) as [e [He [<- <-]]]. exists e. auto.
Qed.
Lemma filter_perm : forall A (f : A -> bool) l l', Permutation l l' -> length (filter f l) = length (filter f l').
Proof using.
  intros A f l l' H. induction H; simpl; auto; [destruct (f x); simpl; auto| |congruence]. destruct (f x), (f y); reflexivity.
Qed.
Lemma ends_sum : forall gs l, NoDup gs -> fold_right (fun n acc => count_occ string_dec l n + acc) 0 gs = length (filter (among gs) l).
Proof using.
  intros gs l N. induction l as [|x l IH]; simpl.
  - clear N. induction gs; simpl; auto.
  - assert (X : forall ks, NoDup ks -> fold_right (fun n acc => (if string_dec x n then S (count_occ string_dec l n) else count_occ string_dec l n) + acc) 0 ks =
      (if among ks x then 1 else 0) + fold_right (fun n acc => count_occ string_dec l n + acc) 0 ks).
    { induction ks as [|k ks IHk]; intros Nk; [reflexivity|]. inv Nk. cbn [fold_right]. rewrite IHk by auto. unfold among.
      destruct (string_dec x k) as [->|Q].
      - destruct (in_dec string_dec k ks); [contradiction|]. destruct (in_dec string_dec k (k :: ks)) as [_|C]; [lia|]. exfalso. apply C. left; auto.
      - destruct (in_dec string_dec x ks) as [A|A], (in_dec string_dec x (k :: ks)) as [B|B]; try lia.
        + exfalso. apply B. right; auto.
        + exfalso. destruct B; [congruence|contradiction]. }
    rewrite (X gs N), IH. destruct (among gs x); simpl; lia.
Qed.
Lemma gate_ends : forall gs, one_way rows -> NoDup gs -> fold_right (fun n acc => flow_ends d' n + acc) 0 gs =
  length (filter (fun p => among gs (fst p)) L) + length (filter (fun p => among gs (snd p)) L).
Proof using G I W.
  intros gs OW N. unfold flow_ends. rewrite ends_sum by auto.
  rewrite <- !(filter_perm _ _ _ _ (edges_listed OW)).
  induction (gedges (dgraph d')) as [|e l IH]; [reflexivity|]. simpl. destruct (among gs (eu e)), (among gs (ev e)); simpl; lia.
Qed.
End Lists.
