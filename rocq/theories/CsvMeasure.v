(** Numbers of a structure do not depend on the names of its nodes, and what the metrics need of a
    diagram loaded from an exported file. *)
From Coq Require Import String Ascii List Bool Arith ZArith QArith Lia Permutation.
From Verif Require Import Py PyFacts Consts Nx NxFacts Rep SpecRep RepFacts Classify Layouter SpecLayout ClassifyFacts TopoFacts Prop_Layout.
From Verif Require Import CsvImport CsvExport SpecCsv SpecFlow SpecCsvExport SpecBlocks SpecFlat CsvFacts CsvGhost CsvGraph CsvFill CsvLast CsvCoherent FlatTable FlatLines FlatAgain
  Prop_CsvImport Prop_CsvBlocks Prop_CsvFlat Prop_CsvLayout Prop_CsvAgain.
From Verif Require Import SpecPlan PlanBlocks Prop_BlockCsv.
From Verif Require Import Metrics SpecMetrics MetricsFacts MetricsFacts2 Prop_Metrics LayoutMetrics SpecLayoutMetrics Prop_LayoutMetrics SpecMeasure MeasureFacts Prop_Measure.
Import ListNotations.
Open Scope string_scope.
Open Scope list_scope.
Open Scope nat_scope.

(** * Names do not count *)
Fixpoint erase (p : part) : part :=
  match p with
  | Act _ => Act ""
  | Block _ _ bs => Block "" "" (map (fun b : list part * option string => (map erase (fst b), option_map (fun _ => "") (snd b))) bs)
  end.
Definition erase_b (b : branch_t) : branch_t := (map erase (fst b), option_map (fun _ => "") (snd b)).
Lemma erase_meeting : forall bs, meeting (map erase_b bs) = meeting bs.
Proof.
  unfold meeting. induction bs as [|b t IH]; [reflexivity|]. cbn [map filter]. destruct b as [l [x|]]; cbn [erase_b meets snd option_map]; [exact IH|cbn [length]; f_equal; exact IH].
Qed.
Lemma inner_sum : forall (f : part -> nat) bs, (forall b p, In b bs -> In p (fst b) -> f (erase p) = f p) ->
  list_sum (map (fun b : branch_t => list_sum (map f (fst b))) (map erase_b bs)) = list_sum (map (fun b : branch_t => list_sum (map f (fst b))) bs).
Proof.
  intros f bs H. rewrite map_map. f_equal. apply map_ext_in. intros b Hb. unfold erase_b. cbn [fst]. rewrite map_map. f_equal. apply map_ext_in. intros p Hp. eapply H; eauto.
Qed.
Lemma erase_blocks : forall p, blocks (erase p) = blocks p.
Proof.
  refine (part_induction _ _ _); [reflexivity|]. intros g j bs IH. cbn [erase blocks]. f_equal. apply (inner_sum blocks bs IH).
Qed.
Lemma erase_extra : forall p, extra (erase p) = extra p.
Proof.
  refine (part_induction _ _ _); [reflexivity|]. intros g j bs IH. cbn [erase extra]. rewrite <- (erase_meeting bs). f_equal. apply (inner_sum extra bs IH).
Qed.
Lemma erase_gate_ends : forall p, gate_ends (erase p) = gate_ends p.
Proof.
  refine (part_induction _ _ _); [reflexivity|]. intros g j bs IH. cbn [erase gate_ends]. rewrite map_length, <- (erase_meeting bs). f_equal. apply (inner_sum gate_ends bs IH).
Qed.
Lemma erase_reach : forall a g e p rest, reach a g e (erase p) rest = reach a g e p rest.
Proof.
  intros a ga e. refine (part_induction _ _ _); [reflexivity|]. intros g j bs IH rest. cbn [erase reach]. f_equal. f_equal. rewrite map_map. apply map_ext_in. intros b Hb. cbn [fst snd].
  replace (match option_map (fun _ : string => "") (snd b) with Some _ => e | None => ga + rest end) with (match snd b with Some _ => e | None => ga + rest end) by (destruct (snd b); reflexivity).
  generalize (match snd b with Some _ => e | None => ga + rest end). intro r. specialize (IH b). revert IH. generalize (fst b). clear - Hb.
  induction l as [|q t IHl]; intro IH; [reflexivity|]. cbn [map fold_right]. rewrite IHl; [|intros p _ Hp; apply IH; [exact Hb|right; exact Hp]]. apply IH; [exact Hb|left; reflexivity].
Qed.
Lemma erase_count : forall (f : part -> list string) p,
  (forall n, length (f (Act n)) = length (f (Act ""))) ->
  (forall g j bs, (forall b p, In b bs -> In p (fst b) -> length (f (erase p)) = length (f p)) -> length (f (erase (Block g j bs))) = length (f (Block g j bs))) ->
  length (f (erase p)) = length (f p).
Proof. intros f p A B. revert p. refine (part_induction _ _ _); [intro n; symmetry; apply A|exact B]. Qed.
Lemma flat_count : forall A B (f g : A -> list B) l, (forall x, In x l -> length (f x) = length (g x)) -> length (flat_map f l) = length (flat_map g l).
Proof.
  intros A B f g. induction l as [|x t IH]; intro H; [reflexivity|]. cbn [flat_map]. rewrite !app_length, IH; [f_equal; apply H; left; reflexivity|]. intros y Hy. apply H. right. exact Hy.
Qed.
Lemma flat_map_map : forall A B C (g : A -> B) (f : B -> list C) l, flat_map f (map g l) = flat_map (fun x => f (g x)) l.
Proof. intros A B C g f. induction l as [|x t IH]; [reflexivity|]. cbn [map flat_map]. rewrite IH. reflexivity. Qed.
Lemma erase_acts : forall p, length (part_acts (erase p)) = length (part_acts p).
Proof.
  intro p. apply (erase_count part_acts); [reflexivity|]. intros g j bs IH. cbn [erase part_acts]. rewrite flat_map_map. apply flat_count. intros b Hb. cbn [fst]. rewrite flat_map_map. apply flat_count. intros q Hq. exact (IH b q Hb Hq).
Qed.
Lemma erase_ends : forall p, length (part_ends (erase p)) = length (part_ends p).
Proof.
  intro p. apply (erase_count part_ends); [reflexivity|]. intros g j bs IH. cbn [erase part_ends]. rewrite flat_map_map. apply flat_count. intros b Hb. cbn [fst snd]. rewrite !app_length, flat_map_map.
  f_equal; [|destruct (snd b); reflexivity]. apply flat_count. intros q Hq. exact (IH b q Hb Hq).
Qed.
Lemma erase_nodes : forall p, length (part_nodes (erase p)) = length (part_nodes p).
Proof.
  intro p. apply (erase_count part_nodes); [reflexivity|]. intros g j bs IH. cbn [erase part_nodes length]. do 2 f_equal. rewrite flat_map_map. apply flat_count. intros b Hb. cbn [fst snd]. rewrite !app_length, flat_map_map.
  f_equal; [|destruct (snd b); reflexivity]. apply flat_count. intros q Hq. exact (IH b q Hb Hq).
Qed.
Lemma alike_numbers : forall ps qs, map erase ps = map erase qs ->
  list_sum (map blocks ps) = list_sum (map blocks qs) /\ list_sum (map extra ps) = list_sum (map extra qs) /\ list_sum (map gate_ends ps) = list_sum (map gate_ends qs) /\
  longest_way ps = longest_way qs /\ most_steps ps = most_steps qs /\
  length (flat_map part_acts ps) = length (flat_map part_acts qs) /\ length (flat_map part_ends ps) = length (flat_map part_ends qs) /\
  (forall s e s' e', length (all_nodes s ps e) = length (all_nodes s' qs e')).
Proof.
  assert (A : forall (f : part -> nat) ps, (forall p, f (erase p) = f p) -> list_sum (map f ps) = list_sum (map f (map erase ps))).
  { intros f ps H. rewrite map_map. f_equal. apply map_ext. intro. symmetry. apply H. }
  assert (B : forall (f : part -> list string) ps, (forall p, length (f (erase p)) = length (f p)) -> length (flat_map f ps) = length (flat_map f (map erase ps))).
  { intros f ps H. rewrite flat_map_map. apply flat_count. intros. symmetry. apply H. }
  assert (C : forall a g e ps r, reach_all a g e ps r = reach_all a g e (map erase ps) r).
  { intros a g e ps r. unfold reach_all. induction ps as [|p t IH]; [reflexivity|]. cbn [map fold_right]. rewrite erase_reach, <- IH. reflexivity. }
  assert (A2 : forall (f : part -> nat) ps qs, (forall p, f (erase p) = f p) -> map erase ps = map erase qs -> list_sum (map f ps) = list_sum (map f qs)).
  { intros f ps qs H E. rewrite (A f ps H), (A f qs H), E. reflexivity. }
  assert (B2 : forall (f : part -> list string) ps qs, (forall p, length (f (erase p)) = length (f p)) -> map erase ps = map erase qs -> length (flat_map f ps) = length (flat_map f qs)).
  { intros f ps qs H E. rewrite (B f ps H), (B f qs H), E. reflexivity. }
  assert (C2 : forall a g e ps qs r, map erase ps = map erase qs -> reach_all a g e ps r = reach_all a g e qs r).
  { intros a g e ps qs r E. rewrite (C a g e ps r), (C a g e qs r), E. reflexivity. }
  intros ps qs E. split; [exact (A2 _ _ _ erase_blocks E)|]. split; [exact (A2 _ _ _ erase_extra E)|]. split; [exact (A2 _ _ _ erase_gate_ends E)|].
  split; [unfold longest_way; f_equal; apply C2; exact E|]. split; [apply C2; exact E|]. split; [exact (B2 _ _ _ erase_acts E)|]. split; [exact (B2 _ _ _ erase_ends E)|].
  intros s e s' e'. unfold all_nodes. cbn [length]. rewrite !app_length, (B2 _ _ _ erase_nodes E). reflexivity.
Qed.
Lemma relabel_alike : forall ps k, (forall p, In p ps -> flat_part p) -> map erase (relabel k ps) = map erase ps.
Proof.
  induction ps as [|p t IH]; intros k F; [reflexivity|]. cbn [relabel map]. rewrite IH by (intros q Hq; apply F; right; exact Hq). f_equal.
  specialize (F p (or_introl eq_refl)). destruct p as [n|g j bs]; [reflexivity|]. destruct F as [_ F]. cbn [relabel_part erase]. f_equal. generalize 0 as i.
  induction bs as [|b bs IHb]; intro i; [reflexivity|]. cbn [relabel_branches map]. f_equal; [|apply IHb; intros c Hc; apply F; right; exact Hc].
  destruct (F b (or_introl eq_refl)) as [A _]. unfold relabel_branch. cbn [fst snd]. f_equal; [|destruct (snd b); reflexivity].
  clear - A. revert A. generalize 1 as m. generalize (fst b). induction l as [|q l IHl]; intros m A; [reflexivity|]. cbn [length seq map]. destruct (A q (or_introl eq_refl)) as [n ->]. cbn [erase]. f_equal.
  apply IHl. intros p Hp. apply A. right. exact Hp.
Qed.

(** * Kinds of the nodes of a structure *)
Lemma two_meeting : forall bs, two_meet bs -> 1 <= meeting bs.
Proof.
  intros bs (i & _ & b & _ & _ & Hi & _ & Sb & _). unfold meeting. apply nth_error_In in Hi. assert (I : In b (filter meets bs)) by (apply filter_In; split; [exact Hi|unfold meets; rewrite Sb; reflexivity]).
  destruct (filter meets bs); [contradiction|cbn [length]; lia].
Qed.
Lemma flat_sound : forall p, flat_part p -> sound p.
Proof.
  intros [n|g j bs] F; [constructor|]. destruct F as [T F]. constructor; [apply two_meeting; exact T| |].
  - assert (E : filter SpecMeasure.bare bs = []); [|rewrite E; cbn; lia]. clear T. induction bs as [|b t IH]; [reflexivity|]. cbn [filter].
    destruct (F b (or_introl eq_refl)) as [_ R]. assert (X : SpecMeasure.bare b = false).
    { unfold SpecMeasure.bare, meets. unfold branch_rows, stops in R. destruct (snd b); [reflexivity|]. destruct (fst b); [cbn in R; lia|reflexivity]. }
    rewrite X. apply IH. intros c Hc. apply F. right. exact Hc.
  - intros b p Hb Hp. destruct (F b Hb) as [A _]. destruct (A p Hp) as [n ->]. constructor.
Qed.
Lemma contained_kinds : forall d p, contains d p ->
  (forall n, In n (part_ends p) -> attr d n "type" = Some (VStr "endEvent")) /\
  (forall n, In n (part_acts p) -> attr d n "type" = Some (VStr "task") \/ attr d n "type" = Some (VStr "subProcess")) /\
  (forall n, In n (part_gates p) -> exists t, attr d n "type" = Some (VStr t) /\ In t gateway_types).
Proof.
  intros d. refine (part_induction _ _ _).
  - intros n C. inversion C as [? [_ T] _|]; subst. split; [intros ? []|]. split; [intros ? [<-|[]]; exact T|intros ? []].
  - intros g j bs IH C. inversion C as [|? ? ? [_ Tg] _ _ _ [_ Tj] _ Op _ In_]; subst. split; [|split].
    + intros n Hn. cbn [part_ends] in Hn. apply in_flat_map in Hn. destruct Hn as (b & Hb & Hn). apply in_app_or in Hn. destruct Hn as [Hn|Hn].
      * apply in_flat_map in Hn. destruct Hn as (q & Hq & Hn). apply (IH b q Hb Hq (In_ b q Hb Hq)). exact Hn.
      * assert (X : forall fs l, Forall2 (opens_branch d g j) fs l -> In b l -> exists f, opens_branch d g j f b).
        { clear. intros fs l F. induction F as [|f c fs l O F IHF]; intros H; [contradiction|]. destruct H as [<-|H]; eauto. }
        destruct (X _ _ Op Hb) as (f & _ & _ & Oe). destruct (snd b) as [x|]; [|contradiction]. destruct Hn as [<-|[]]. apply (Oe x eq_refl).
    + intros n Hn. cbn [part_acts] in Hn. apply in_flat_map in Hn. destruct Hn as (b & Hb & Hn). apply in_flat_map in Hn. destruct Hn as (q & Hq & Hn). apply (IH b q Hb Hq (In_ b q Hb Hq)). exact Hn.
    + intros n Hn. cbn [part_gates] in Hn. destruct Hn as [<-|[<-|Hn]]; [exact Tg|exact Tj|]. apply in_flat_map in Hn. destruct Hn as (b & Hb & Hn). apply in_flat_map in Hn. destruct Hn as (q & Hq & Hn).
      apply (IH b q Hb Hq (In_ b q Hb Hq)). exact Hn.
Qed.
Lemma structured_kinds : forall d s ps e, structured d s ps e -> kinds_fit d s ps e.
Proof.
  intros d s ps e (_ & _ & _ & _ & Ts & _ & [_ Te] & C). split; [exact Ts|]. split; [|split]; intros n Hn.
  - destruct Hn as [<-|Hn]; [exact Te|]. apply in_flat_map in Hn. destruct Hn as (p & Hp & Hn). apply (contained_kinds d p (C p Hp)). exact Hn.
  - apply in_flat_map in Hn. destruct Hn as (p & Hp & Hn). apply (contained_kinds d p (C p Hp)). exact Hn.
  - apply in_flat_map in Hn. destruct Hn as (p & Hp & Hn). apply (contained_kinds d p (C p Hp)). exact Hn.
Qed.

(** * Loaded diagrams *)
Section Loaded.
Variables (rows : dict row) (d0 d' : diagram) (L : flows_of).
Hypothesis I : imported rows d0 d' L.
Hypothesis W : gwf (dgraph d').
Lemma loaded_typed : SpecRep.typed d'.
Proof. intros n Hn. apply (proj2 (bk_wf _ _ (im_books _ _ _ _ I)) n Hn). Qed.
Lemma loaded_records : forall x y, (exists f r, dget f (seq_flows d') = Some r /\ fl_src r = x /\ fl_tgt r = y) <-> In (x, y) L.
Proof.
  intros x y. pose proof (bk_flows _ _ (im_books _ _ _ _ I)) as B. split.
  - intros (f & r & E & <- & <-). apply B in E. destruct E as (s & t & Hst & -> & ->). exact Hst.
  - intro H. exists (get_flow_id x y), (mkFlow (get_flow_id x y) x y). split; [|auto]. apply B. eauto.
Qed.
Lemma loaded_steady : steady d'.
Proof.
  pose proof (imported_coherent _ _ _ _ I W) as Co. split; [|split; [exact Co|]].
  - split; [apply W|]. split.
    + intros n Hn. destruct (proj2 (bk_wf _ _ (im_books _ _ _ _ I)) n Hn) as [O [N T]]. auto.
    + intros n f Hf. destruct Co as (_ & _ & Co & _). destruct (Co n f Hf) as (m & (t & T1 & _ & T2) & Hi). exists m. split; [exists t; auto|].
      rewrite (bk_in _ _ (im_books _ _ _ _ I)) in Hi. apply in_map_iff in Hi. destruct Hi as [[a b] [_ Hi]]. apply filter_In in Hi. destruct Hi as [Hi M]. apply into_true in M. cbn in M. subst b.
      apply (bk_ends _ _ (im_books _ _ _ _ I) _ _ Hi).
  - intros n m. rewrite loaded_records. split.
    + intros (f & Hf & (t & T1 & T2)). destruct Co as (_ & _ & Co & _). destruct (Co n f Hf) as (m' & (t' & T1' & A & B) & Hi). rewrite T1 in T1'. injection T1' as <-. rewrite T2 in B. injection B as <-.
      apply (imported_flow _ _ _ _ I W f n m). split; [exact Hf|]. split; [exact Hi|]. exists t. auto.
    + intro H. destruct (proj2 (imported_flow _ _ _ _ I W (gid (n, m)) n m)) as (A & B & (t & T1 & T2 & T3)); [auto|]. exists (gid (n, m)). split; [exact A|]. exists t. auto.
Qed.
Definition both (e : edge) : string * string := (eu e, ev e).
Lemma loaded_edges : Permutation (map both (gedges (dgraph d'))) L.
Proof.
  apply NoDup_Permutation; [|apply I|].
  - pose proof (gwf_simple _ W) as U. revert U. generalize (gedges (dgraph d')). induction l as [|e l IH]; intros U; cbn [map]; [constructor|]. constructor.
    + intros C. apply in_map_iff in C. destruct C as [e' [E C]]. apply in_split in C. destruct C as [l1 [l2 ->]].
      pose proof (U [] e l1 e' l2 eq_refl) as X. unfold both in E. injection E as E1 E2. unfold connects in X. rewrite E1, E2, !eqb_refl' in X. discriminate.
    + apply IH. intros l1 e1 l2 e2 l3 ->. apply (U (e :: l1) e1 l2 e2 l3). reflexivity.
  - intros [s t]. rewrite in_map_iff. split.
    + intros [e [E H]]. unfold both in E. injection E as <- <-. apply (im_edges _ _ _ _ I e H).
    + intros H. destruct (listed_edge _ _ _ _ I W s t H) as [e [He [<- <-]]]. exists e. auto.
Qed.
Lemma loaded_ends : forall fs n, Permutation L fs -> flow_ends d' n = count_occ string_dec (flat_map (fun p => [fst p; snd p]) fs) n.
Proof.
  intros fs n P.
  assert (A : forall (x y : list (string * string)) m, Permutation x y -> count_occ string_dec (flat_map (fun p => [fst p; snd p]) x) m = count_occ string_dec (flat_map (fun p => [fst p; snd p]) y) m).
  { clear. intros x y m P. induction P as [|p x y P IH|p p' x|x y z P1 IH1 P2 IH2]; auto; cbn [flat_map]; rewrite ?count_occ_app; lia. }
  rewrite <- (A _ _ n (Permutation_trans loaded_edges P)), flat_map_map. reflexivity.
Qed.
End Loaded.
