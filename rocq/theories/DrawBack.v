(** A grid that was filled without an error shows the sequence of SpecDraw. *)
From Coq Require Import String List Bool Arith ZArith Lia Permutation.
From Verif Require Import Py PyFacts Consts Nx NxFacts Rep SpecRep RepFacts MetricsFacts Classify Layouter
  SpecLayout ClassifyFacts TopoFacts GridFacts LayoutFacts SpecBlocks SpecFlat SpecPlan PlanFacts PlanBlocks SpecCells CellFacts CellPlan SpecDraw DrawFacts.
Import ListNotations.
Open Scope string_scope.
Open Scope list_scope.

Section Back.
Variable d : diagram.
Hypothesis Co : coherent d.
Hypothesis AL : all_laid_out d.
Hypothesis Sg : single_flows d.
Variable s : list cnode.
Hypothesis Ps : Permutation s (classified d).
Hypothesis Ns : NoDup (map cid s).
Let order := map cid s.
Notation rest := (rest s).

Definition back_spec (fuel : nat) : Prop := forall c enforced grid lr gone st', In c s ->
  place_element fuel d c enforced (grid, lr, rest gone) = Ok st' ->
  exists new lr' gone', st' = (grid ++ new, lr', rest gone') /\ drawn_with d order (cid c) (map cnid new) /\
    (forall x, In x gone' <-> In x gone \/ In x (tl (map cnid new))).

Lemma back_children : forall fuel, back_spec fuel -> forall k row cs m i grid lr gone st', incl cs s ->
  rfold (fun st index =>
                 match nth_error cs index with
                 | None => Err IndexError
                 | Some s0 =>
                     let* st1 := place_element fuel d s0 (Some (split_row k index row)) st in
                     let* tmp' := cremove (cid s0) (snd st1) in
                     Ok (fst st1, tmp')
                 end) (seq i m) (grid, lr, rest gone) = Ok st' ->
  exists cs' new ls lr' gone', st' = (grid ++ new, lr', rest gone') /\ length cs' = m /\ (exists v, skipn i cs = cs' ++ v) /\
    Forall2 (drawn_with d order) (map cid cs') ls /\ map cnid new = concat ls /\
    (forall x, In x gone' <-> In x gone \/ In x (concat ls)).
Proof using Ns.
  intros fuel IHf k row cs. induction m as [|m IH]; intros i grid lr gone st' Ic E.
  - cbn in E. inv E. exists [], [], [], lr, gone. rewrite app_nil_r. split; [reflexivity|]. split; [reflexivity|].
    split; [exists (skipn i cs); reflexivity|]. split; [constructor|]. split; [reflexivity|]. intro x. cbn. tauto.
  - cbn [seq rfold] in E. destruct (nth_error cs i) as [c|] eqn:Nt; [|discriminate].
    assert (Hc : In c s) by (apply Ic; eapply nth_error_In; eauto).
    destruct (place_element fuel d c (Some (split_row k i row)) (grid, lr, rest gone)) as [st1|] eqn:E1; [|discriminate].
    destruct (IHf c _ grid lr gone st1 Hc E1) as (new & lr1 & gone1 & -> & W & M). cbn [rbind snd fst] in E.
    destruct (cremove (cid c) (rest gone1)) as [tmp|] eqn:Er; [|discriminate]. cbn [rbind] in E.
    assert (Xc : ~ In (cid c) gone1).
    { destruct (cremove_perm _ _ _ Er) as [P _]. intro C. assert (Hi : In (cid c) (map cid (rest gone1))) by (rewrite P; left; reflexivity).
      apply in_map_iff in Hi. destruct Hi as [c' [Ec Hi]]. apply rest_in in Hi. rewrite Ec in Hi. tauto. }
    rewrite (rest_remove s Ns gone1 c Hc Xc) in Er. injection Er as <-.
    destruct (IH (S i) _ _ _ _ Ic E) as (cs' & new2 & ls & lr' & gone' & -> & Ln & [v Ev] & F & En & M').
    exists (c :: cs'), (new ++ new2), (map cnid new :: ls), lr', gone'. split; [rewrite app_assoc; reflexivity|].
    split; [cbn; lia|]. split.
    { exists v. cbn [app]. rewrite <- Ev. clear - Nt. revert i Nt. induction cs as [|a u IHu]; intros [|i] Nt; try discriminate.
      - injection Nt as ->. reflexivity.
      - cbn [skipn]. apply IHu. exact Nt. }
    split; [cbn [map]; constructor; assumption|]. split; [rewrite map_app, En; reflexivity|].
    intro x. rewrite M', in_app_iff, M. cbn [concat]. rewrite in_app_iff. destruct (dw_head _ _ _ _ W) as [t ->]. cbn [In tl]. tauto.
Qed.

Lemma back_turn : forall fuel, back_spec fuel.
Proof using Co AL Sg Ps Ns.
  induction fuel as [|fuel IH]; intros c enforced grid lr gone st' Hc E; [discriminate|].
  cbn [place_element] in E. destruct (choose_cell d c grid lr enforced) as [[[row [r k0]] lr1]|] eqn:Ec; [|discriminate].
  cbn [rbind] in E. destruct (insert_into_grid grid r k0 (cid c)) as [grid1|] eqn:Ei; [|discriminate].
  cbn [rbind] in E. destruct (insert_ok _ _ _ _ _ Ei) as [-> _].
  destruct (succs_list d Co Sg s Ps c Hc) as [l0 [El [Ll Le]]]. rewrite (is_split_eq d Co Sg s Ps c l0 Hc Ll) in E.
  assert (Nc : is_node d (cid c)) by (apply (s_node d Co AL s Ps), in_map; exact Hc).
  destruct (Nat.leb 2 (length l0)) eqn:L2.
  - rewrite El in E. cbn [rbind] in E. apply Nat.leb_le in L2.
    assert (Ic : incl (filter (fun c => smem (cid c) l0) (rest gone)) s).
    { intros x Hx. apply filter_In in Hx. destruct Hx as [Hx _]. apply rest_in in Hx. tauto. }
    destruct (back_children fuel IH (length l0) row (filter (fun c => smem (cid c) l0) (rest gone)) (length l0) 0 (grid ++ [mkCell r k0 (cid c)]) lr1 gone st' Ic E)
      as (cs' & new & ls & lr' & gone' & -> & Ln & [v Ev] & F & En & M).
    cbn [skipn] in Ev.
    exists (mkCell r k0 (cid c) :: new), lr', gone'. split; [rewrite <- app_assoc; reflexivity|]. cbn [map cnid tl]. rewrite En. split; [|exact M].
    assert (Mc : exists p, map cid (cs' ++ v) = filter p order).
    { exists (fun x => negb (smem x gone) && smem x l0). rewrite <- Ev. unfold PlanFacts.rest, order. clear. induction s as [|a u IHu]; [reflexivity|].
      cbn [filter map]. destruct (negb (smem (cid a) gone)); cbn [filter map andb]; [|exact IHu]. destruct (smem (cid a) l0); cbn [map]; rewrite IHu; reflexivity. }
    destruct Mc as [p Mc]. rewrite map_app in Mc.
    assert (Nd : NoDup (map cid cs' ++ map cid v)) by (rewrite Mc; apply NoDup_filter; exact Ns).
    assert (Inc : incl (map cid cs') l0).
    { intros x Hx. apply in_map_iff in Hx. destruct Hx as [y [<- Hy]]. assert (Hy' : In y (cs' ++ v)) by (apply in_or_app; left; exact Hy).
      rewrite <- Ev in Hy'. apply filter_In in Hy'. apply smem_In. tauto. }
    assert (Lk : lists (goes d (cid c)) (map cid cs')).
    { split; [eapply nodup_l; exact Nd|]. intro x. rewrite <- (proj2 Ll x). split; [apply Inc|].
      apply (NoDup_length_incl (nodup_l _ _ _ Nd)); [rewrite map_length; lia|exact Inc]. }
    apply (dw_split d order (cid c) (map cid cs') ls); [|exact Lk| |exact F].
    + apply (split_len d Co AL Sg s Ps _ l0 Nc Ll). exact L2.
    + intros x y B. apply (same_order_filter order p Ns). rewrite <- Mc. apply before_app_l. exact B.
  - inv E. exists [mkCell r k0 (cid c)], lr1, gone. split; [reflexivity|]. cbn [map cnid tl]. split; [|intro x; cbn; tauto].
    apply dw_plain. intro Sc. apply (split_len d Co AL Sg s Ps _ l0 Nc Ll) in Sc. apply Nat.leb_le in Sc. congruence.
Qed.

(** The turns of a run. *)
Inductive turns : list string -> list string -> list (list string) -> Prop :=
| t_nil : forall ids, turns ids [] []
| t_cons : forall ids h hs l ls, In h order -> ~ In h ids -> (forall x, before order x h -> In x ids) -> drawn_with d order h l ->
    turns (ids ++ l) hs ls -> turns ids (h :: hs) (l :: ls).

Lemma back_loop : forall fuel rounds grid lr g, grid_loop rounds fuel d (grid, lr, rest (map cnid grid)) = Ok g ->
  exists hs ls, map cnid g = map cnid grid ++ concat ls /\ turns (map cnid grid) hs ls.
Proof using Co AL Sg Ps Ns.
  intros fuel. induction rounds as [|rounds IH]; intros grid lr g E; cbn [grid_loop snd fst] in E.
  - destruct (rest (map cnid grid)); [|discriminate]. inv E. exists [], []. split; [cbn; rewrite app_nil_r; reflexivity|constructor].
  - destruct (rest (map cnid grid)) as [|n t] eqn:Er; [inv E; exists [], []; split; [cbn; rewrite app_nil_r; reflexivity|constructor]|].
    destruct (place_element fuel d n None (grid, lr, t)) as [st1|] eqn:E1; [|discriminate]. cbn [rbind] in E.
    pose proof (rest_tail s Ns _ _ _ Er) as Et.
    assert (Hr : In n (rest (map cnid grid))) by (rewrite Er; left; reflexivity). apply rest_in in Hr. destruct Hr as [Hn X].
    rewrite Et in E1. destruct (back_turn fuel n None grid lr _ st1 Hn E1) as (new & lr1 & gone1 & -> & W & M).
    assert (R : rest gone1 = rest (map cnid (grid ++ new))).
    { apply rest_ext. intro x. rewrite M, map_app, !in_app_iff. destruct (dw_head _ _ _ _ W) as [u ->]. cbn [In tl]. tauto. }
    rewrite R in E. destruct (IH _ _ _ E) as (hs & ls & Eg & T). exists (cid n :: hs), (map cnid new :: ls).
    split; [rewrite Eg, map_app, <- app_assoc; reflexivity|]. constructor; auto.
    + apply in_map. exact Hn.
    + intros x B. exact (head_before s Ns _ n t x Er B).
    + rewrite <- map_app. exact T.
Qed.

Lemma turns_drawn : forall ids hs ls, turns ids hs ls -> Forall2 (drawn_with d order) hs ls.
Proof using. induction 1; constructor; assumption. Qed.
Lemma turns_new : forall ids hs ls, turns ids hs ls -> forall h, In h hs -> In h order /\ ~ In h ids.
Proof using.
  induction 1 as [|ids h hs l ls Ho X B W T IH]; intros k Hk; [destruct Hk|]. destruct Hk as [<-|Hk]; [split; assumption|].
  destruct (IH k Hk) as [A C]. split; [exact A|]. intro D. apply C. apply in_or_app. left. exact D.
Qed.
Lemma turns_ordered : forall ids hs ls, turns ids hs ls -> same_order order hs.
Proof using.
  induction 1 as [|ids h hs l ls Ho X B W T IH]; intros x y Bf.
  - destruct Bf as (i & j & _ & A & _). destruct i; discriminate.
  - pose proof Bf as (i & j & L & A & C). destruct j as [|j]; [lia|]. cbn [nth_error] in C. assert (Hy : In y hs) by (eapply nth_error_In; eauto).
    destruct i as [|i]; cbn [nth_error] in A.
    + injection A as <-. destruct (turns_new _ _ _ T y Hy) as [Oy Xy].
      assert (Ne : h <> y). { intros ->. apply Xy. apply in_or_app. right. destruct (dw_head _ _ _ _ W) as [t ->]. left. reflexivity. }
      destruct (before_total order h y Ho Oy Ne) as [Q|Q]; [exact Q|]. exfalso. apply Xy. apply in_or_app. left. apply B. exact Q.
    + apply IH. exists i, j. split; [lia|]. split; assumption.
Qed.
Lemma turns_before : forall ids hs ls, turns ids hs ls -> NoDup (ids ++ concat ls) -> forall h x, In h hs -> before order x h -> before (ids ++ concat ls) x h.
Proof using.
  induction 1 as [|ids h hs l ls Ho X B W T IH]; intros Nd k x Hk Bf; [destruct Hk|]. cbn [concat] in *. destruct Hk as [<-|Hk].
  - destruct (dw_head _ _ _ _ W) as [t ->]. cbn [app] in *. apply before_prefix; [exact Nd|]. apply B. exact Bf.
  - rewrite app_assoc in *. apply IH; assumption.
Qed.
Lemma heads_perm : forall hs ls, Forall2 (drawn_with d order) hs ls -> Permutation (concat ls) (hs ++ concat (map (@tl string) ls)).
Proof using.
  induction 1 as [|h l hs ls W F IH]; [reflexivity|]. destruct (dw_head _ _ _ _ W) as [t ->]. cbn [concat map tl app].
  apply perm_skip. rewrite IH. rewrite !app_assoc. apply Permutation_app_tail. apply Permutation_app_comm.
Qed.

Theorem back_drawing : forall fuel g, grid_layout fuel d s = Ok g -> Permutation (map cnid g) order ->
  (forall p q n, draws d p n -> draws d q n -> p = q) -> drawing d order (map cnid g).
Proof using Co AL Sg Ps Ns.
  intros fuel g E P One.
  assert (R : rest [] = s). { unfold PlanFacts.rest. clear. induction s as [|a u IH]; [reflexivity|]. cbn. f_equal. exact IH. }
  unfold grid_layout in E. destruct (back_loop fuel (length s) [] grid_column_width g) as (hs & ls & Eg & T); [cbn [map]; rewrite R; exact E|].
  cbn [map app] in Eg, T. assert (Nd : NoDup (concat ls)) by (rewrite <- Eg; eapply Permutation_NoDup; [apply Permutation_sym; exact P|exact Ns]).
  assert (Nod : forall x, In x (concat ls) <-> is_node d x).
  { intro x. rewrite (s_node d Co AL s Ps x). fold order. rewrite <- Eg. split; apply Permutation_in; [exact P|apply Permutation_sym; exact P]. }
  pose proof (turns_drawn _ _ _ T) as F. pose proof (heads_perm hs ls F) as Hp. pose proof (Permutation_NoDup Hp Nd) as Nd2.
  assert (Own : forall h, In h hs <-> own_turn d h).
  { intro h. split.
    - intro Hh. split; [apply Nod; apply (Permutation_in h (Permutation_sym Hp)); apply in_or_app; left; exact Hh|].
      intros p D. assert (Np : In p (concat ls)) by (apply Nod, (goes_nodes d p h (proj2 D))). apply in_concat in Np. destruct Np as [l [Hl Hpl]].
      destruct (Forall2_in_r _ _ _ _ _ l F Hl) as [m [_ W]]. pose proof (dw_children d order (length l) m l (le_n _) W p h Hpl D) as B.
      apply (nodup_lr _ _ _ h Nd2 Hh). apply in_concat. exists (tl l). split; [apply in_map; exact Hl|].
      destruct B as (i & j & L & A & C). destruct l as [|a t]; [destruct Hpl|]. destruct j as [|j]; [lia|]. cbn [tl]. cbn in C. eapply nth_error_In; eauto.
    - intros [Nh Xh]. apply Nod in Nh. apply (Permutation_in h Hp) in Nh. apply in_app_or in Nh. destruct Nh as [Hh|Hh]; [exact Hh|exfalso].
      apply in_concat in Hh. destruct Hh as [t [Ht Hh]]. apply in_map_iff in Ht. destruct Ht as [l [<- Hl]].
      destruct (Forall2_in_r _ _ _ _ _ l F Hl) as [m [_ W]]. destruct (dw_tail d order (length l) m l (le_n _) W h Hh) as [p [_ D]]. exact (Xh p D). }
  rewrite Eg. constructor.
  - exists hs, ls. split; [split; [eapply nodup_l; exact Nd2|exact Own]|]. split; [exact (turns_ordered _ _ _ T)|]. split; [exact F|reflexivity].
  - split; [exact Nd|exact Nod].
  - exact One.
  - intros h x Oh B. apply Own in Oh. exact (turns_before _ _ _ T Nd h x Oh B).
Qed.
End Back.
