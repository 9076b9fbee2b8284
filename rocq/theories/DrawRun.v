(** The layout draws the nodes in the sequence of SpecDraw and puts them where the plan says. *)
From Coq Require Import String List Bool Arith ZArith Lia Permutation.
From Verif Require Import Py PyFacts Consts Nx NxFacts Rep SpecRep RepFacts MetricsFacts Classify Layouter
  SpecLayout ClassifyFacts TopoFacts GridFacts LayoutFacts SpecBlocks SpecFlat SpecPlan PlanFacts PlanBlocks SpecCells CellFacts CellPlan SpecDraw DrawFacts.
Import ListNotations.
Open Scope string_scope.
Open Scope list_scope.

Section Run.
Variable d : diagram.
Hypothesis Co : coherent d.
Hypothesis AL : all_laid_out d.
Hypothesis Sg : single_flows d.
Variable s : list cnode.
Hypothesis Ps : Permutation s (classified d).
Hypothesis Ns : NoDup (map cid s).
Let order := map cid s.
Hypothesis Oj : forall x y, goes d x y -> ~ join_node d y -> before order x y.
Variable sq : list string.
Hypothesis Dr : drawing d order sq.
Variable pos : string -> Z * Z.
Hypothesis Pl : layout_plan d order sq pos.
Notation cellof := (cellof pos).
Notation rest := (rest s).
Notation clash := (clash d pos).
Let pred_one := pred_one d Co AL Sg s Ps.

Lemma sq_order : forall x, In x sq <-> In x order.
Proof using Co AL Ps Dr. intro x. rewrite <- (sq_node d s sq Dr x). apply (s_node d Co AL s Ps). Qed.

(** The cell of a join when the nodes before it in the sequence are there. *)
Lemma join_cell : forall c ids v enforced lr, In c s -> sq = ids ++ cid c :: v -> join_node d (cid c) ->
  exists m k, mean_row d sq pos (cid c) m /\ next_col d sq pos (cid c) k /\
    choose_cell d c (map cellof ids) lr enforced = Ok (m, (enforced_truthy enforced m, k), lr).
Proof using Co AL Sg Ps Dr.
  intros c ids v enforced lr Hc Es J. assert (Nd : NoDup (ids ++ cid c :: v)) by (rewrite <- Es; exact (sq_nodup d s sq Dr)).
  assert (Nc : is_node d (cid c)) by (apply (s_node d Co AL s Ps), in_map; exact Hc).
  destruct (preds_list d Co Sg s Ps c Hc) as [l [El [Ll Le]]]. destruct (drawn_preds d Co AL Sg s Ps sq Dr (cid c) Nc) as [l1 L1].
  eexists _, _. split; [exists l, l1; split; [exact Ll|split; [exact L1|reflexivity]]|]. split; [exists l1; split; [exact L1|reflexivity]|].
  assert (L2 : 2 <= length l) by (apply (join_len d Co AL Sg s Ps _ l Nc Ll); exact J).
  unfold choose_cell. rewrite (is_join_eq d Co Sg s Ps c l Hc Ll), El. assert (L2' : Nat.leb 2 (length l) = true) by (apply Nat.leb_le; exact L2). rewrite L2'.
  destruct (cin c) as [|f fs]; [cbn in Le; lia|]. cbn [rbind].
  rewrite (join_some pos ids l l1); [|eapply nodup_l; exact Nd|exact (proj1 L1)|].
  - cbn [fst snd]. rewrite sum_rows, max_cols. reflexivity.
  - intro x. rewrite (proj2 L1 x), (proj2 Ll x). rewrite Es. rewrite (before_prefix ids (cid c) v x Nd). reflexivity.
Qed.
(** The cell of a node with one predecessor. *)
Lemma step_cell : forall c p ids enforced lr, In c s -> ~ join_node d (cid c) -> goes d p (cid c) -> In p ids ->
  choose_cell d c (map cellof ids) lr enforced = Ok (fst (pos p), (enforced_given enforced (fst (pos p)), snd (pos p) + 1)%Z, lr).
Proof using Co AL Sg Ps.
  intros c p ids enforced lr Hc J G Hp. destruct (preds_list d Co Sg s Ps c Hc) as [l [El [Ll Le]]].
  assert (Lp : lists (fun p => goes d p (cid c)) [p]).
  { split; [constructor; [intros []|constructor]|]. intro x. split; [intros [<-|[]]; exact G|]. intro G'. left. exact (pred_one _ _ _ J G G'). }
  pose proof (lists_perm _ _ _ Ll Lp) as P. apply Permutation_sym, Permutation_length_1_inv in P. subst l.
  unfold choose_cell. rewrite (is_join_eq d Co Sg s Ps c _ Hc Lp). cbn [length Nat.leb].
  destruct (cin c) as [|f [|? ?]]; try discriminate. cbn [rmap] in El.
  destruct (flow_ref d f k_source_ref) as [q|] eqn:Eq; [|discriminate]. cbn [rbind] in El. injection El as ->. cbn [rbind].
  rewrite (gfind_plan pos ids p Hp). reflexivity.
Qed.

(** The cell of a node right after a split. *)
Lemma child_at : forall n c cs row i ids v lr, In c s -> split_node d (cid n) -> lists (goes d (cid n)) (map cid cs) ->
  same_order order (map cid cs) -> nth_error cs i = Some c -> spread_row d sq pos (cid n) row -> In (cid n) ids -> sq = ids ++ cid c :: v ->
  exists row', choose_cell d c (map cellof ids) lr (Some (split_row (length cs) i row)) = Ok (row', pos (cid c), lr) /\ spread_row d sq pos (cid c) row'.
Proof using Co AL Sg Ps Ns Dr Pl.
  intros n c cs row i ids v lr Hc Sn Ll Oc Nt Fr Hn Es.
  assert (Gc : goes d (cid n) (cid c)) by (apply Ll, in_map; eapply nth_error_In; eauto).
  assert (Dc : draws d (cid n) (cid c)) by (split; assumption).
  assert (Nc : is_node d (cid c)) by (apply (goes_nodes d _ _ Gc)).
  assert (Br : branch_row d order sq pos (cid c) (split_row (length cs) i row)).
  { destruct (fan_some (length cs) i) as [o Eo]; [apply nth_error_Some; congruence|].
    exists (cid n), (map cid cs), i, o, row. split; [exact Dc|]. split; [exact Ll|]. split; [exact Oc|]. split; [rewrite nth_error_map, Nt; reflexivity|].
    split; [exact Fr|]. rewrite map_length. split; [exact Eo|]. symmetry. apply fan_nth. exact Eo. }
  destruct (join_dec d (cid c)) as [J|J].
  - destruct (join_cell c ids v (Some (split_row (length cs) i row)) lr Hc Es J) as (m & k & M & K & E).
    exists m. split; [|apply sr_join; assumption]. rewrite E. f_equal. f_equal. f_equal.
    apply (placed_fun d Co AL Sg s Ps Ns sq Dr pos (cid c)); [|apply Pl; exact Nc]. eapply p_skip; [exact J|exact Br|exact M|reflexivity|exact K].
  - exists (fst (pos (cid n))). split; [|eapply sr_inner; [exact J|exact Dc|reflexivity]].
    rewrite (step_cell c (cid n) ids _ lr Hc J Gc Hn). f_equal. f_equal. f_equal.
    apply (placed_fun d Co AL Sg s Ps Ns sq Dr pos (cid c)); [|apply Pl; exact Nc]. eapply p_branch; [exact J|exact Dc|exact Br|reflexivity].
Qed.

(** * One turn *)
Definition turn_spec (fuel : nat) : Prop := forall c l v enforced ids gone lr lr1 row,
  In c s -> sq = ids ++ l ++ v -> drawn_with d order (cid c) l -> length l <= fuel -> incl gone (cid c :: ids) ->
  choose_cell d c (map cellof ids) lr enforced = Ok (row, pos (cid c), lr1) -> spread_row d sq pos (cid c) row ->
  (exists gone', place_element fuel d c enforced (map cellof ids, lr, rest gone) = Ok (map cellof (ids ++ l), lr1, rest gone') /\
     (forall x, In x gone' <-> In x gone \/ In x (tl l))) \/
  (place_element fuel d c enforced (map cellof ids, lr, rest gone) = Err TypeError /\ clash).

Lemma children_run : forall fuel, turn_spec fuel -> forall n cs todo don lls v ids gone lr row,
  split_node d (cid n) -> lists (goes d (cid n)) (map cid cs) -> cs = don ++ todo -> incl cs s -> same_order order (map cid cs) ->
  spread_row d sq pos (cid n) row -> In (cid n) ids -> sq = ids ++ concat lls ++ v ->
  Forall2 (drawn_with d order) (map cid todo) lls -> length (concat lls) <= fuel -> incl gone ids ->
  let run := rfold (fun st index =>
                 match nth_error cs index with
                 | None => Err IndexError
                 | Some s0 =>
                     let* st1 := place_element fuel d s0 (Some (split_row (length cs) index row)) st in
                     let* tmp' := cremove (cid s0) (snd st1) in
                     Ok (fst st1, tmp')
                 end) (seq (length don) (length todo)) (map cellof ids, lr, rest gone) in
  (exists gone', run = Ok (map cellof (ids ++ concat lls), lr, rest gone') /\ (forall x, In x gone' <-> In x gone \/ In x (concat lls))) \/
  (run = Err TypeError /\ clash).
Proof using Co AL Sg Ps Ns Dr Pl.
  intros fuel IHf n cs todo. induction todo as [|c todo IH]; intros don lls v ids gone lr row Sn Ll Ec Ic Oc Fr Hn Es F Lf G run.
  - inversion F; subst lls. left. exists gone. split; [unfold run; cbn; rewrite app_nil_r; reflexivity|]. intro x. cbn. tauto.
  - cbn [map] in F. inversion F as [|q0 l q1 lls' Dc F' E1x E2x]; subst lls. clear F. unfold run. cbn [length seq rfold].
    assert (Nt : nth_error cs (length don) = Some c) by (rewrite Ec, nth_error_app2, Nat.sub_diag by lia; reflexivity).
    rewrite Nt. assert (Hs : In c s) by (apply Ic; eapply nth_error_In; eauto).
    destruct (dw_head _ _ _ _ Dc) as [t Et]. cbn [concat] in *. rewrite app_length in Lf. rewrite <- app_assoc in Es.
    assert (Es' : sq = ids ++ cid c :: (t ++ concat lls' ++ v)) by (rewrite Es, Et; reflexivity).
    assert (Nd : NoDup (ids ++ cid c :: (t ++ concat lls' ++ v))) by (rewrite <- Es'; exact (sq_nodup d s sq Dr)).
    destruct (child_at n c cs row (length don) ids _ lr Hs Sn Ll Oc Nt Fr Hn Es') as (row' & Ch & Fr').
    destruct (IHf c l (concat lls' ++ v) (Some (split_row (length cs) (length don) row)) ids gone lr lr row') as [(gone1 & E1 & M1)|[E1 Cl]]; auto; try lia.
    { intros x Hx. right. auto. }
    + rewrite E1. cbn [rbind snd fst].
      assert (Xg : ~ In (cid c) gone1).
      { intro C. apply M1 in C. rewrite Et in C. cbn [tl] in C. apply NoDup_remove_2 in Nd. apply Nd. apply in_or_app.
        destruct C as [C|C]; [left; exact (G _ C)|right; apply in_or_app; left; exact C]. }
      rewrite (rest_remove s Ns gone1 c Hs Xg). cbn [rbind].
      assert (M1' : forall x, In x (gone1 ++ [cid c]) <-> In x gone \/ In x l).
      { intro x. rewrite in_app_iff, M1, Et. cbn [In tl]. tauto. }
      destruct (IH (don ++ [c]) lls' v (ids ++ l) (gone1 ++ [cid c]) lr row) as [(gone2 & E2 & M2)|[E2 Cl]]; auto; try lia.
      * rewrite <- app_assoc. exact Ec.
      * apply in_or_app. left. exact Hn.
      * rewrite <- app_assoc. exact Es.
      * intros x Hx. apply M1' in Hx. apply in_or_app. destruct Hx as [Hx|Hx]; [left; exact (G _ Hx)|right; exact Hx].
      * left. exists gone2. rewrite app_length, Nat.add_1_r in E2. rewrite <- app_assoc in E2. split; [exact E2|].
        intro x. rewrite M2, M1', in_app_iff. tauto.
      * right. rewrite app_length, Nat.add_1_r in E2. split; assumption.
    + rewrite E1. right. split; [reflexivity|exact Cl].
Qed.

Lemma turn_run : forall fuel, turn_spec fuel.
Proof using Co AL Sg Ps Ns Dr Pl.
  induction fuel as [|fuel IH]; intros c l v enforced ids gone lr lr1 row Hc Es W Lf Gi Ch Fr.
  - exfalso. destruct (dw_head _ _ _ _ W) as [t ->]. cbn in Lf. lia.
  - assert (Oc : In (cid c) order) by (apply in_map; auto).
    pose proof (sq_nodup d s sq Dr) as Nd.
    assert (Ii : incl ids order) by (intros x Hx; apply sq_order; rewrite Es; apply in_or_app; left; exact Hx).
    assert (Xc : ~ In (cid c) ids).
    { intro C. destruct (dw_head _ _ _ _ W) as [t ->]. rewrite Es in Nd. cbn [app] in Nd. apply NoDup_remove_2 in Nd. apply Nd. apply in_or_app. left. exact C. }
    cbn [place_element]. rewrite Ch. destruct (pos (cid c)) as [r k] eqn:Ep. cbn [rbind].
    destruct (insert_or d Co AL s Ps pos ids (cid c) Ii Oc Xc) as [Ins|[Ins Cx]]; rewrite Ep in Ins; cbn [fst snd] in Ins; rewrite Ins; cbn [rbind]; [|right; split; [reflexivity|exact Cx]].
    destruct (succs_list d Co Sg s Ps c Hc) as [l0 [El [Ll Le]]]. rewrite (is_split_eq d Co Sg s Ps c l0 Hc Ll).
    assert (Nc : is_node d (cid c)) by (apply (s_node d Co AL s Ps); exact Oc).
    inversion W as [n Nsp E1 E2|n ks ls Sc Lk Ok F E1 E2]; subst n l.
    + destruct (Nat.leb_spec 2 (length l0)) as [K2|K2]; [exfalso; apply Nsp; apply (split_len d Co AL Sg s Ps _ l0 Nc Ll); exact K2|].
      left. exists gone. split; [reflexivity|]. intro x. cbn. tauto.
    + assert (K2 : Nat.leb 2 (length l0) = true) by (apply Nat.leb_le, (split_len d Co AL Sg s Ps _ l0 Nc Ll); exact Sc). rewrite K2, El. cbn [rbind].
      set (cs := filter (fun c0 => smem (cid c0) l0) (rest gone)).
      assert (Xg : forall y, In y l0 -> ~ In y gone).
      { intros y Hy C. apply Ll in Hy. apply Gi in C. apply Lk in Hy. destruct (Forall2_in_l _ _ _ _ _ y F Hy) as [ly [Hl D]]. destruct (dw_head _ _ _ _ D) as [t ->].
        assert (Hc' : In y (concat ls)) by (apply in_concat; exists (y :: t); split; [exact Hl|left; reflexivity]).
        rewrite Es in Nd. cbn [app] in Nd. destruct C as [<-|C].
        - apply NoDup_remove_2 in Nd. apply Nd. apply in_or_app. right. apply in_or_app. left. exact Hc'.
        - apply (nodup_lr _ _ _ y Nd C). right. apply in_or_app. left. exact Hc'. }
      assert (Cs : cs = filter (fun c0 => smem (cid c0) l0) s).
      { unfold cs, PlanFacts.rest. clear - Xg. induction s as [|a u IHu]; [reflexivity|]. cbn [filter].
        destruct (smem (cid a) l0) eqn:Sm.
        - rewrite (proj2 (smem_notIn (cid a) gone)) by (apply Xg, smem_In; auto). cbn [negb filter]. rewrite Sm, IHu. reflexivity.
        - destruct (negb _); [cbn [filter]; rewrite Sm|]; exact IHu. }
      assert (Mc : map cid cs = filter (fun x => smem x l0) order).
      { rewrite Cs. unfold order. clear. induction s as [|a u IHu]; [reflexivity|]. cbn [filter map]. destruct (smem (cid a) l0); cbn [map]; rewrite IHu; reflexivity. }
      assert (Lc : lists (goes d (cid c)) (map cid cs)).
      { rewrite Mc. split; [apply NoDup_filter; auto|]. intro x. rewrite filter_In, smem_In. split; [intros [_ H]; apply Ll; auto|].
        intro G. split; [apply (goes_order d Co AL s Ps _ _ G)|apply Ll; auto]. }
      assert (Oo : same_order order (map cid cs)) by (rewrite Mc; apply same_order_filter; exact Ns).
      assert (Ek : ks = map cid cs) by (exact (lists_eq order _ _ _ Ns Lk Lc Ok Oo)). subst ks.
      assert (Lk' : length l0 = length cs). { rewrite <- (map_length cid cs). apply Permutation_length. exact (lists_perm _ _ _ Ll Lc). }
      assert (Ic : incl cs s) by (rewrite Cs; intros x Hx; apply filter_In in Hx; tauto).
      rewrite Lk'. cbn [length] in Lf.
      destruct (children_run fuel IH c cs cs [] ls v (ids ++ [cid c]) gone lr1 row Sc Lc eq_refl Ic Oo Fr) as [(gone' & E & M)|[E X]]; auto; try lia.
      * apply in_or_app. right. left. reflexivity.
      * rewrite Es, <- app_assoc. reflexivity.
      * intros x Hx. apply Gi in Hx. apply in_or_app. destruct Hx as [<-|Hx]; [right; left; reflexivity|left; exact Hx].
      * left. exists gone'. rewrite <- app_assoc in E. split; [exact E|exact M].
Qed.

(** * All turns *)
Record turns_ok (ids hs : list string) (ls : list (list string)) (lr : Z) : Prop := {
  to_sq : sq = ids ++ concat ls;
  to_ls : Forall2 (drawn_with d order) hs ls;
  to_own : forall h, In h hs -> own_turn d h;
  to_order : same_order order hs;
  to_done : forall x h, In x ids -> own_turn d x -> In h hs -> before order x h;
  to_row : lr = (2 * (Z.of_nat (length (filter (firstb d) ids)) + 1))%Z }.

Lemma heads_in : forall hs ls, Forall2 (drawn_with d order) hs ls -> forall h, In h hs -> In h (concat ls).
Proof using.
  intros hs ls F h Hh. destruct (Forall2_in_l _ _ _ _ _ h F Hh) as [l [Hl D]]. destruct (dw_head _ _ _ _ D) as [t ->].
  apply in_concat. exists (h :: t). split; [exact Hl|left; reflexivity].
Qed.

Lemma turn_or : forall fuel ids h hs l ls lr n t, turns_ok ids (h :: hs) (l :: ls) lr -> rest ids = n :: t -> length order <= fuel ->
  (exists lr', place_element fuel d n None (map cellof ids, lr, t) = Ok (map cellof (ids ++ l), lr', rest (ids ++ l)) /\
    turns_ok (ids ++ l) hs ls lr' /\ cid n = h) \/
  (place_element fuel d n None (map cellof ids, lr, t) = Err TypeError /\ clash).
Proof using Co AL Sg Ps Ns Oj Dr Pl.
  intros fuel ids h hs l ls lr n t I E Lf. destruct I as [Es F Ow Oh Do Lr].
  inversion F as [|q0 q1 q2 q3 W F' E1q E2q]. subst q0 q1 q2 q3. destruct (dw_head _ _ _ _ W) as [tl' Etl].
  pose proof (sq_nodup d s sq Dr) as Nd. assert (Es' : sq = ids ++ h :: (tl' ++ concat ls)) by (rewrite Es, Etl; reflexivity).
  assert (Nd' : NoDup (ids ++ h :: (tl' ++ concat ls))) by (rewrite <- Es'; exact Nd).
  assert (Oh' : own_turn d h) by (apply Ow; left; reflexivity).
  assert (Hr : In n (rest ids)) by (rewrite E; left; reflexivity). apply rest_in in Hr. destruct Hr as [Hn X].
  assert (Xh : ~ In h ids). { intro C. apply NoDup_remove_2 in Nd'. apply Nd'. apply in_or_app. left. exact C. }
  (* the head of the rest is h *)
  assert (En : cid n = h).
  { destruct (string_dec (cid n) h) as [|Ne]; [assumption|exfalso].
    assert (On : In (cid n) order) by (apply in_map; exact Hn). assert (Ho : In h order) by (apply (s_node d Co AL s Ps), Oh').
    destruct (before_total order _ _ On Ho Ne) as [B|B].
    - apply (dr_order _ _ _ Dr h _ Oh') in B. rewrite Es' in B. apply before_prefix in B; [|exact Nd']. contradiction.
    - apply Xh. exact (head_before s Ns ids n t h E B). }
  subst h. pose proof (rest_tail s Ns _ _ _ E) as Et.
  assert (Nn : is_node d (cid n)) by (apply Oh').
  assert (Ch : exists row, choose_cell d n (map cellof ids) lr None = Ok (row, pos (cid n), if firstb d (cid n) then (lr + 2)%Z else lr) /\ spread_row d sq pos (cid n) row).
  { destruct (orig_cin d Co n (s_orig d s Ps n Hn)) as [Ei _]. destruct (join_dec d (cid n)) as [J|J].
    - assert (Fb : firstb d (cid n) = false). { unfold firstb. unfold join_node in J. destruct (incoming_of d (cid n)); [cbn in J; lia|reflexivity]. }
      rewrite Fb. destruct (join_cell n ids _ None lr Hn Es' J) as (m & k & M & K & Ec). exists m. split; [|apply sr_join; assumption].
      rewrite Ec. f_equal. f_equal. f_equal. cbn [enforced_truthy].
      apply (placed_fun d Co AL Sg s Ps Ns sq Dr pos (cid n)); [|apply Pl; exact Nn]. apply p_join; assumption.
    - exists (fst (pos (cid n))). split; [|apply sr_own; auto].
      destruct (Pl (cid n) Nn) as [fs i Lf' Of Nf Ep|p A B C Ep|p r A B C Ep|A B C D|r m A B C D G]; try contradiction.
      + assert (Fb : firstb d (cid n) = true) by (apply (firstb_iff d Co); [exact Nn|apply Lf'; eapply nth_error_In; eauto]).
        rewrite Fb. unfold choose_cell. unfold firstb in Fb. rewrite Ei. destruct (incoming_of d (cid n)); [|discriminate]. rewrite Ep. cbn [fst].
        assert (Li : i < length fs) by (apply nth_error_Some; congruence).
        assert (Lk : length (firstn i fs) = i) by (apply firstn_length_le; lia).
        assert (El : length (filter (firstb d) ids) = i).
        { rewrite <- Lk. apply Permutation_length. apply NoDup_Permutation.
          - apply NoDup_filter. eapply nodup_l. exact Nd'.
          - pose proof (proj1 Lf') as Nf'. rewrite <- (firstn_skipn i fs) in Nf'. eapply nodup_l; eauto.
          - intro x. rewrite filter_In. split.
            + intros [Hx Fx]. assert (Nx : is_node d x) by (apply (sq_node d s sq Dr); rewrite Es'; apply in_or_app; left; exact Hx).
              apply (firstb_iff d Co) in Fx; [|exact Nx]. assert (Ox : own_turn d x) by (split; [exact Nx|]; intros p [_ G]; exact (proj2 Fx p G)).
              pose proof (Do x (cid n) Hx Ox (or_introl eq_refl)) as B. apply Lf' in Fx. destruct (In_nth_error _ _ Fx) as [j Ej].
              destruct (Nat.lt_ge_cases j i) as [L|L].
              * apply (nth_error_In (firstn i fs) j). rewrite nth_error_firstn_lt by exact L. exact Ej.
              * exfalso. destruct (Nat.eq_dec i j) as [->|Ne]; [assert (x = cid n) by congruence; subst; exact (before_irrefl _ _ Ns B)|].
                apply (before_asym _ _ _ Ns B). apply Of. exists i, j. split; [lia|]. split; assumption.
            + intros Hx. apply In_nth_error in Hx. destruct Hx as [j Ej]. assert (j < i) by (rewrite <- Lk; apply nth_error_Some; congruence).
              rewrite nth_error_firstn_lt in Ej by assumption. assert (Fx : first_node d x) by (apply Lf'; eapply nth_error_In; eauto).
              split; [|apply (firstb_iff d Co); [apply Fx|exact Fx]]. apply (head_before s Ns ids n t x E). apply Of. exists j, i. split; [assumption|]. split; assumption. }
        rewrite Lr, El. reflexivity.
      + assert (Fb : firstb d (cid n) = false).
        { destruct (firstb d (cid n)) eqn:Fb; [|reflexivity]. apply (firstb_iff d Co) in Fb; [|exact Nn]. exfalso. exact (proj2 Fb p B). }
        rewrite Fb, Ep. rewrite (step_cell n p ids None lr Hn J B); [reflexivity|].
        apply (head_before s Ns ids n t p E). apply Oj; assumption.
      + exfalso. exact (proj2 Oh' p B). }
  destruct Ch as (row & Ch & Fr).
  assert (Ll : length l <= fuel).
  { assert (length sq = length order). { apply Permutation_length, NoDup_Permutation; [exact Nd|exact Ns|intro x; apply sq_order]. }
    rewrite Es in H. rewrite app_length in H. cbn [concat] in H. rewrite app_length in H. lia. }
  assert (Ig : incl (ids ++ [cid n]) (cid n :: ids)).
  { intros x Hx. apply in_app_or in Hx. destruct Hx as [Hx|[<-|[]]]; [right; exact Hx|left; reflexivity]. }
  destruct (turn_run fuel n l (concat ls) None ids (ids ++ [cid n]) lr _ row Hn Es W Ll Ig Ch Fr) as [(gone' & Ep & M)|[Ep Cx]].
  - left. eexists. split; [rewrite Et, Ep; f_equal; f_equal; apply rest_ext; intro x; rewrite M, !in_app_iff, Etl; cbn [In tl]; tauto|]. split; [|reflexivity].
    constructor.
    + rewrite <- app_assoc. exact Es.
    + exact F'.
    + intros h Hh. apply Ow. right. exact Hh.
    + intros x y B. apply Oh. apply before_cons. exact B.
    + intros x h Hx Ox Hh. apply in_app_or in Hx. destruct Hx as [Hx|Hx]; [apply Do; [exact Hx|exact Ox|right; exact Hh]|].
      rewrite Etl in Hx. destruct Hx as [<-|Hx]; [apply Oh; apply before_head; exact Hh|].
      exfalso. destruct (dw_tail d order (length l) (cid n) l (le_n _) W x) as [p [_ D]]; [rewrite Etl; exact Hx|]. exact (proj2 Ox p D).
    + assert (P : Permutation (filter (firstb d) (ids ++ l)) (filter (firstb d) ids ++ (if firstb d (cid n) then [cid n] else []))).
      { rewrite filter_app. apply Permutation_app_head. rewrite Etl. cbn [filter].
        assert (Z0 : filter (firstb d) tl' = []).
        { assert (K : forall x, In x tl' -> firstb d x = false).
          { intros x Hx. destruct (firstb d x) eqn:Fx; [|reflexivity]. exfalso.
            destruct (dw_tail d order (length l) (cid n) l (le_n _) W x) as [p [_ D]]; [rewrite Etl; exact Hx|].
            apply (firstb_iff d Co) in Fx; [exact (proj2 Fx p (proj2 D))|apply (goes_nodes d p x (proj2 D))]. }
          clear - K. induction tl' as [|a u IHu]; [reflexivity|]. cbn [filter]. rewrite (K a) by (left; reflexivity). apply IHu. intros x Hx. apply K. right. exact Hx. }
        rewrite Z0. destruct (firstb d (cid n)); apply Permutation_refl. }
      rewrite (Permutation_length P), app_length. rewrite Lr. destruct (firstb d (cid n)); cbn [length]; lia.
  - right. rewrite Et. split; assumption.
Qed.

Lemma turns_or : forall fuel rounds hs ids ls lr, length order <= fuel -> turns_ok ids hs ls lr -> length (rest ids) <= rounds ->
  grid_loop rounds fuel d (map cellof ids, lr, rest ids) = Ok (map cellof sq) \/
  (grid_loop rounds fuel d (map cellof ids, lr, rest ids) = Err TypeError /\ clash).
Proof using Co AL Sg Ps Ns Oj Dr Pl.
  intros fuel. induction rounds as [|rounds IH]; intros hs ids ls lr Lf I L.
  - left. pose proof I as [Es F Ow Oh Do Lr]. destruct (rest ids) as [|n t] eqn:E; [|cbn in L; lia]. cbn [grid_loop snd fst].
    assert (concat ls = []).
    { destruct (concat ls) as [|x u] eqn:Ec; [reflexivity|exfalso]. assert (Hx : In x order) by (apply sq_order; rewrite Es; apply in_or_app; right; left; reflexivity).
      apply in_map_iff in Hx. destruct Hx as [c [<- Hc]]. assert (Hr : In c (rest ids)); [|rewrite E in Hr; contradiction].
      apply rest_in. split; [exact Hc|]. intro C. pose proof (sq_nodup d s sq Dr) as Nd. rewrite Es in Nd. apply (nodup_lr _ _ _ _ Nd C). left; reflexivity. }
    rewrite Es, H, app_nil_r. reflexivity.
  - pose proof I as [Es F Ow Oh Do Lr]. destruct (rest ids) as [|n t] eqn:E; cbn [grid_loop snd fst].
    + left. assert (concat ls = []).
      { destruct (concat ls) as [|x u] eqn:Ec; [reflexivity|exfalso]. assert (Hx : In x order) by (apply sq_order; rewrite Es; apply in_or_app; right; left; reflexivity).
        apply in_map_iff in Hx. destruct Hx as [c [<- Hc]]. assert (Hr : In c (rest ids)); [|rewrite E in Hr; contradiction].
        apply rest_in. split; [exact Hc|]. intro C. pose proof (sq_nodup d s sq Dr) as Nd. rewrite Es in Nd. apply (nodup_lr _ _ _ _ Nd C). left; reflexivity. }
      rewrite Es, H, app_nil_r. reflexivity.
    + destruct hs as [|h hs].
      * exfalso. inversion F; subst ls. cbn [concat] in Es. rewrite app_nil_r in Es. assert (Hr : In n (rest ids)) by (rewrite E; left; reflexivity).
        apply rest_in in Hr. apply (proj2 Hr). rewrite <- Es. apply sq_order. apply in_map. apply Hr.
      * destruct ls as [|l ls]; [inversion F|].
        destruct (turn_or fuel ids h hs l ls lr n t I E Lf) as [(lr' & Ep & I' & En)|[Ep Cx]]; rewrite Ep; cbn [rbind]; [|right; split; [reflexivity|exact Cx]].
        apply (IH hs (ids ++ l) ls lr' Lf I').
        assert (Ic : incl (cid n :: ids) (ids ++ l)).
        { inversion F as [|q0 q1 q2 q3 W F' E1q E2q]; subst. destruct (dw_head _ _ _ _ W) as [u ->]. intros x [<-|Hx]; apply in_or_app; [right; left; reflexivity|left; exact Hx]. }
        pose proof (rest_shrinks s Ns ids (ids ++ l) n t E Ic). cbn in L. lia.
Qed.

Theorem draw_or : forall fuel, length order <= fuel ->
  grid_layout fuel d s = Ok (map cellof sq) \/ (grid_layout fuel d s = Err TypeError /\ clash).
Proof using Co AL Sg Ps Ns Oj Dr Pl.
  intros fuel Lf. unfold grid_layout.
  assert (R : rest [] = s). { unfold PlanFacts.rest. clear. induction s as [|a u IH]; [reflexivity|]. cbn. f_equal. exact IH. }
  destruct (dr_turns _ _ _ Dr) as (hs & ls & Lh & Oh & F & E).
  pose proof (turns_or fuel (length s) hs [] ls grid_column_width Lf) as P. rewrite R in P. apply P; auto.
  constructor; auto; [intros h Hh; apply Lh; exact Hh|intros x h []].
Qed.
End Run.
