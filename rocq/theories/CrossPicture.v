(** The segments of a process drawn with the blocks in row 2. *)
From Coq Require Import String List Bool Arith ZArith Lia Permutation.
From Verif Require Import Py PyFacts SpecBlocks SpecFlat SpecPlan PlanFacts PlanBlocks PlanRules SpecOptions OptionShape OptionPlan SpecCrossing CrossGrid.
Import ListNotations.
Open Scope list_scope.
Open Scope nat_scope.

(** A flow from a node in row [r] and column [c] to one in row [r'] and column [c']. *)
Definition route (gs gt : bool) (r c r' c' : Z) : list zseg :=
  if gs then [((cx c, yy r), (cx c, yy r')); ((cx c, yy r'), (lx c', yy r'))]
  else if Z.eqb r r' then [((cx c, yy r), (lx c', yy r'))]
  else if gt then [((cx c, yy r), (cx c', yy r)); ((cx c', yy r), (cx c', 100 * r' + 50)%Z)]
  else [((cx c, yy r), (lx c', yy r'))].

Section Picture.
Variable pos : string -> Z * Z.
Variable gate : string -> bool.
Definition at_pos (n : string) (r c : Z) : Prop := pos n = (r, c).
Definition segs (p : string * string) : list zseg :=
  route (gate (fst p)) (gate (snd p)) (fst (pos (fst p))) (snd (pos (fst p))) (fst (pos (snd p))) (snd (pos (snd p))).
Lemma segs_at : forall x y r c r' c', pos x = (r, c) -> pos y = (r', c') -> segs (x, y) = route (gate x) (gate y) r c r' c'.
Proof. intros x y r c r' c' E E'. unfold segs. cbn [fst snd]. rewrite E, E'. reflexivity. Qed.

(** The activities of a branch up to the end of the block. *)
Lemma line_home_segs : forall w c0 j, gate j = true -> pos j = (2, c0 + w + 1)%Z -> forall ns n c r, pos n = (r, c) -> gate n = false ->
  (forall m, In m ns -> gate m = false) -> line_at at_pos r (c + 1) (map Act ns) ->
  flat_map segs (chain n ns j) = line_segs c (S (length ns)) r ++ home_segs (c - 1)%Z (c0 + w - (c - 1))%Z (S (length ns)) r.
Proof.
  intros w c0 j Gj Pj. induction ns as [|m ns IH]; intros n c r Pn Gn Gs L.
  - cbn [chain flat_map app line_segs length]. rewrite app_nil_r, (segs_at n j r c 2 _ Pn Pj), Gn, Gj. unfold route, home_segs.
    replace (c - 1 + Z.of_nat 1)%Z with c by lia. replace (c - 1 + (c0 + w - (c - 1)) + 1)%Z with (c0 + w + 1)%Z by lia.
    destruct (Z.eqb r 2); reflexivity.
  - cbn [map line_at first_of] in L. destruct L as [L1 L2]. cbn [chain flat_map]. rewrite (segs_at n m r c r (c + 1)%Z Pn L1), Gn. unfold route at 1. rewrite Z.eqb_refl.
    rewrite (IH m (c + 1)%Z r L1) by (try (apply Gs; left; reflexivity); try (intros x Hx; apply Gs; right; exact Hx); exact L2).
    cbn [length]. change (line_segs c (S (S (length ns))) r) with (((cx c, yy r), (lx (c + 1), yy r)) :: line_segs (c + 1) (S (length ns)) r). cbn [app]. apply (f_equal (cons _)), (f_equal (app _)).
    unfold home_segs.
    replace (c + 1 - 1 + Z.of_nat (S (length ns)))%Z with (c - 1 + Z.of_nat (S (S (length ns))))%Z by lia.
    replace (c + 1 - 1 + (c0 + w - (c + 1 - 1)) + 1)%Z with (c - 1 + (c0 + w - (c - 1)) + 1)%Z by lia. reflexivity.
Qed.
Lemma branch_ok : forall g j c w ns r, gate g = true -> gate j = true -> pos g = (2, c)%Z -> pos j = (2, c + w + 1)%Z -> ns <> [] ->
  (forall m, In m ns -> gate m = false) -> line_at at_pos r (c + 1) (map Act ns) ->
  flat_map segs (chain g ns j) = out_segs c r ++ branch_segs c w (length ns, r).
Proof.
  intros g j c w ns r Gg Gj Pg Pj Ne Gs L. destruct ns as [|n ns]; [congruence|]. cbn [map line_at first_of] in L. destruct L as [L1 L2].
  cbn [chain flat_map]. rewrite (segs_at g n 2 c r (c + 1) Pg L1), Gg. unfold route. fold (out_segs c r). f_equal. unfold branch_segs. cbn [fst snd length].
  rewrite (line_home_segs w c j Gj Pj ns n (c + 1)%Z r L1) by (try (apply Gs; left; reflexivity); try (intros x Hx; apply Gs; right; exact Hx); exact L2).
  f_equal. replace (c + 1 - 1)%Z with c by lia. replace (c + w - c)%Z with w by lia. reflexivity.
Qed.

Definition head_segs (b : bool) (col : Z) : list zseg := route b false 2 (col - 1) 2 col.
Lemma head_ok : forall x y col, pos x = (2, col - 1)%Z -> pos y = (2, col)%Z -> segs (x, y) = head_segs (gate x) col.
Proof. intros x y col Px Py. rewrite (segs_at x y _ _ _ _ Px Py). unfold head_segs, route. destruct (gate x); reflexivity. Qed.
Lemma plain_names : forall b, plain_branch b -> fst b = map Act (names b) /\ names b <> [] /\ length (names b) = length (fst b).
Proof.
  intros [l o] (A & N & _). unfold names. cbn [fst] in *. rewrite map_length. split; [|split; [destruct l; [congruence|discriminate]|reflexivity]].
  clear N. induction l as [|p l IH]; [reflexivity|]. cbn [map]. destruct (A p (or_introl eq_refl)) as [n ->]. cbn [first_of]. f_equal. apply IH. intros q Hq. apply A. right. exact Hq.
Qed.
Lemma plain_steps : forall bs, (forall b, In b bs -> plain_branch b) -> direct bs = false /\ filter has_steps bs = bs.
Proof.
  induction bs as [|b bs IH]; intro P; [split; reflexivity|]. destruct (IH (fun x Hx => P x (or_intror Hx))) as [A B].
  assert (E : has_steps b = true) by (destruct (P b (or_introl eq_refl)) as (_ & N & _); unfold has_steps; destruct (fst b); [congruence|reflexivity]).
  unfold direct in *. cbn [existsb filter]. rewrite E, A, B. split; reflexivity.
Qed.
Lemma plain_rows : forall bs, direct bs = false -> rows_of 2 bs = fan (length bs) /\ row_after 2 bs = 2%Z.
Proof.
  intros bs E. unfold rows_of, row_after. rewrite E. split; [|reflexivity]. rewrite <- (map_id (fan (length bs))) at 2. apply map_ext. intro r. lia.
Qed.
Lemma flat_two : forall A B (f g : A -> list B) l, Permutation (flat_map (fun x => f x ++ g x) l) (flat_map f l ++ flat_map g l).
Proof.
  intros A B f g. induction l as [|a l IH]; [constructor|]. cbn [flat_map]. rewrite <- !app_assoc. apply Permutation_app_head. rewrite IH. rewrite !app_assoc. apply Permutation_app_tail. apply Permutation_app_comm.
Qed.
Lemma off_rows : forall k, list_sum (map (fun r => if Z.eqb r 2 then 1 else 2) (fan k)) = k + 2 * (k / 2).
Proof.
  intro k. unfold fan. rewrite !map_app, !list_sum_app, !map_map.
  assert (U : forall l, list_sum (map (fun i => if Z.eqb (2 + 2 * (Z.of_nat i + 1)) 2 then 1 else 2) l) = 2 * length l).
  { induction l as [|i l IH]; [reflexivity|]. cbn [map list_sum fold_right length]. unfold list_sum in IH. rewrite IH. destruct (Z.eqb_spec (2 + 2 * (Z.of_nat i + 1)) 2); lia. }
  assert (D : forall l, list_sum (map (fun i => if Z.eqb (2 - 2 * (Z.of_nat i + 1)) 2 then 1 else 2) l) = 2 * length l).
  { induction l as [|i l IH]; [reflexivity|]. cbn [map list_sum fold_right length]. unfold list_sum in IH. rewrite IH. destruct (Z.eqb_spec (2 - 2 * (Z.of_nat i + 1)) 2); lia. }
  rewrite U, D, seq_length. pose proof (Nat.div_mod k 2 ltac:(lia)) as E. rewrite <- Nat.bit0_mod, Nat.bit0_odd in E.
  destruct (Nat.odd k); cbn [map list_sum fold_right Z.eqb Pos.eqb Nat.b2n] in *; lia.
Qed.
Lemma line_len : forall n k r, length (line_segs k n r) = n - 1.
Proof. induction n as [|[|n] IH]; intros k r; [reflexivity|reflexivity|]. change (line_segs k (S (S n)) r) with (((cx k, yy r), (lx (k + 1), yy r)) :: line_segs (k + 1) (S n) r). cbn [length]. rewrite IH. lia. Qed.
Lemma block_len : forall c w items k, Permutation (map snd items) (fan k) -> (forall it, In it items -> fits w it) ->
  length (block_segs c w items) = 2 * length items + list_sum (map fst items) + 2 * (k / 2) + 2.
Proof.
  intros c w items k P F. unfold block_segs. rewrite !app_length.
  assert (E1 : length (flat_map (fun it : nat * Z => out_segs c (snd it)) items) = 2 * length items) by (clear; induction items as [|a l IH]; [reflexivity|]; cbn [flat_map length]; rewrite app_length, IH; cbn [length out_segs]; lia).
  assert (E2 : length (flat_map (branch_segs c w) items) + length items = list_sum (map fst items) + list_sum (map (fun r => if Z.eqb r 2 then 1 else 2) (map snd items))).
  { clear P E1. induction items as [|[n r] l IH]; [reflexivity|]. destruct (F _ (or_introl eq_refl)) as [F1 F2]. specialize (IH (fun it Hit => F it (or_intror Hit))).
    cbn [flat_map length map list_sum fold_right fst snd]. rewrite app_length. unfold branch_segs at 1. cbn [fst snd]. rewrite app_length, line_len. cbn [fst] in F1.
    assert (H : length (home_segs c w n r) = if Z.eqb r 2 then 1 else 2) by (unfold home_segs; destruct (Z.eqb r 2); reflexivity). rewrite H. unfold list_sum in *. lia. }
  rewrite (sum_perm _ _ (Permutation_map _ P)), off_rows in E2. apply Permutation_length in P. rewrite map_length in P.
  assert (Lf : length (fan k) = k). { unfold fan. rewrite !app_length, !map_length, !seq_length. pose proof (Nat.div_mod k 2 ltac:(lia)) as E. rewrite <- Nat.bit0_mod, Nat.bit0_odd in E. destruct (Nat.odd k); cbn [length Nat.b2n] in *; lia. }
  rewrite E1. unfold leave_segs. cbn [length]. lia.
Qed.

Lemma process_segs : forall e ps x col, (forall p, In p ps -> plain_part p) ->
  (forall g j bs, In (Block g j bs) ps -> gate g = true /\ gate j = true) -> (forall n, In n (flat_map part_acts ps) -> gate n = false) ->
  pos x = (2, col - 1)%Z -> picture_at at_pos 2 col ps e ->
  exists L, Permutation (flat_map segs (path_flows x ps e)) (head_segs (gate x) col ++ L) /\
    (forall s, In s L -> (cx col <= fst (fst s) /\ cx col <= fst (snd s))%Z /\ straight s) /\
    pairs zcross L = process_crossings ps /\ length L = list_sum (map part_segments ps).
Proof.
  intro e. induction ps as [|p qs IH]; intros x col Pl Gb Ga Px Pic.
  - exists []. cbn [path_flows flat_map picture_at] in *. rewrite (head_ok x e col Px Pic). split; [rewrite !app_nil_r; reflexivity|]. split; [intros s []|]. split; reflexivity.
  - destruct p as [n|g j bs]; cbn [path_flows first_of last_of flat_map] in *.
    + destruct Pic as [Pn Pic]. cbn [inner_flows app].
      destruct (IH n (col + 1)%Z) as (L & P & In_ & Pa & Le); auto; [intros p Hp; apply Pl; right; exact Hp|intros g j bs Hb; apply (Gb g j bs); right; exact Hb|intros m Hm; apply Ga; right; exact Hm|replace (col + 1 - 1)%Z with col by lia; exact Pn|].
      exists (head_segs (gate n) (col + 1) ++ L). rewrite (head_ok x n col Px Pn). split; [apply Permutation_app_head; exact P|].
      rewrite (Ga n (or_introl eq_refl)). unfold head_segs, route. replace (col + 1 - 1)%Z with col by lia. cbn [Z.eqb Pos.eqb app].
      split; [|split].
      * intros s [<-|Hs]; [unfold straight, cx, lx; cbn [fst snd]; split; [lia|tauto]|]. destruct (In_ s Hs) as [[H1 H2] H3]. split; [unfold cx in *; lia|exact H3].
      * cbn [pairs]. rewrite filter_none; [exact Pa|]. intros [[a1 b1] [a2 b2]] Hs. destruct (In_ _ Hs) as [[H1 H2] _]. cbn [fst snd] in *. apply apart_x. unfold cx, lx in *. lia.
      * cbn [length map list_sum fold_right part_segments]. unfold list_sum in Le. lia.
    + change (list branch_t) in (type of bs). destruct Pic as (Pg & Pj & (rows & Pr & Lr) & Pic). destruct (Pl _ (or_introl eq_refl)) as [Two Pb]. change (2 <= @length branch_t bs) in Two.
      destruct (plain_steps bs Pb) as [Di St]. destruct (plain_rows bs Di) as [Ro Ra]. rewrite Ra in Pj, Pic. rewrite Ro in Pr. rewrite St in Lr.
      destruct (Gb g j bs (or_introl eq_refl)) as [Gg Gj]. set (w := longest bs) in *.
      destruct (IH j (col + w + 2)%Z) as (L & P & In_ & Pa & Le); auto;
        [intros p Hp; apply Pl; right; exact Hp|intros g' j' bs' Hb; apply (Gb g' j' bs'); right; exact Hb|intros m Hm; apply Ga; apply in_or_app; right; exact Hm|
         replace (col + w + 2 - 1)%Z with (col + w + 1)%Z by lia; exact Pj|].
      rewrite flat_map_app, (act_flows g j bs) by (intros b Hb; destruct (Pb b Hb) as (A & _ & B); split; assumption).
      set (items := map (fun br => (length (fst (fst br)), snd br)) (combine bs rows)).
      assert (Len : length bs = length rows) by (clear - Lr; induction Lr as [|b r bs rows _ _ IHl]; [reflexivity|cbn [length]; rewrite IHl; reflexivity]).
      assert (Is : map snd items = rows). { unfold items. rewrite map_map. cbn [snd]. clear - Len. revert rows Len. induction bs as [|b bs IHb]; intros [|r rows] Len; try discriminate; [reflexivity|]. cbn [combine map]. f_equal. apply IHb. injection Len as Len. exact Len. }
      assert (If : map fst items = map (fun b : branch_t => length (fst b)) bs). { unfold items. rewrite map_map. cbn [fst]. clear - Len. revert rows Len. induction bs as [|b bs IHb]; intros [|r rows] Len; try discriminate; [reflexivity|]. cbn [combine map]. f_equal. apply IHb. injection Len as Len. exact Len. }
      assert (Li : length items = length bs) by (rewrite <- (map_length fst items), If; apply map_length).
      assert (Fi : forall it, In it items -> fits w it).
      { intros it Hit. assert (Hf : In (fst it) (map fst items)) by (apply in_map; exact Hit). rewrite If in Hf. apply in_map_iff in Hf. destruct Hf as [b [Eb Hb]]. unfold fits. rewrite <- Eb.
        destruct (plain_names b (Pb b Hb)) as (_ & Nn & Ln). split; [rewrite <- Ln; destruct (names b); [congruence|cbn [length]; lia]|]. pose proof (longest_ge bs b Hb) as Lg. rewrite <- Ln. exact Lg. }
      assert (Fl : flat_map segs (flat_map (fun b => chain g (names b) j) bs) = flat_map (fun it : nat * Z => out_segs col (snd it) ++ branch_segs col w it) items).
      { assert (Ga' : forall b m, In b bs -> In m (names b) -> gate m = false).
        { intros b m Hb Hm. apply Ga. apply in_or_app. left. cbn [part_acts]. apply in_flat_map. exists b. split; [exact Hb|]. destruct (plain_names b (Pb b Hb)) as (Eb & _). rewrite Eb.
          clear - Hm. induction (names b) as [|n l IHl]; [destruct Hm|]. cbn [map flat_map part_acts app]. destruct Hm as [<-|Hm]; [left; reflexivity|right; apply IHl; exact Hm]. }
        clear - Pg Pj Pb Lr Gg Gj Ga'. unfold items. clear items. clearbody w. induction Lr as [|b r bs rows H Lr IHl]; [reflexivity|]. cbn [combine map flat_map fst snd].
        rewrite flat_map_app. f_equal.
        - destruct (plain_names b (Pb b (or_introl eq_refl))) as (Eb & Nn & Ln). rewrite <- Ln. apply branch_ok with (w := w); auto; [intros m Hm; apply (Ga' b); [left; reflexivity|exact Hm]|]. rewrite <- Eb. exact H.
        - apply IHl; [intros b' Hb'; apply Pb; right; exact Hb'|intros b' m Hb' Hm; apply (Ga' b'); [right; exact Hb'|exact Hm]]. }
      exists (block_segs col w items ++ L). rewrite (head_ok x g col Px Pg), Gj in *. split; [|split; [|split]].
      * apply Permutation_app_head. rewrite Fl, flat_two, P. unfold block_segs. rewrite <- !app_assoc. apply Permutation_app_head. apply Permutation_app_head.
        unfold head_segs, route, leave_segs. replace (col + w + 2 - 1)%Z with (col + w + 1)%Z by lia. reflexivity.
      * assert (Ne : items <> []) by (intro E; rewrite E in Li; cbn in Li; lia).
        intros s Hs. apply in_app_or in Hs. destruct Hs as [Hs|Hs].
        -- destruct (block_range col w items s Fi Ne Hs) as [(H1 & H2 & _) H3]. split; [split; assumption|exact H3].
        -- destruct (In_ s Hs) as [[H1 H2] H3]. pose proof (longest_nonneg bs) as W0. fold w in W0. split; [unfold cx in *; lia|exact H3].
      * rewrite pairs_app, Pa, (block_pairs col w items (length bs)), between_zero; [rewrite Nat.add_0_r; reflexivity| |rewrite Is; exact Pr|apply fan_nodup|exact Fi].
        intros [[a1 b1] [a2 b2]] [[c1 d1] [c2 d2]] Ha Hb. assert (Ne : items <> []) by (intro E; rewrite E in Li; cbn in Li; lia).
        destruct (block_range col w items _ Fi Ne Ha) as [(_ & _ & H1 & H2) _]. destruct (In_ _ Hb) as [[H3 H4] _]. cbn [fst snd] in *. apply apart_x. unfold cx, lx in *. lia.
      * rewrite app_length, Le, (block_len col w items (length bs)), Li, If; [reflexivity|rewrite Is; exact Pr|exact Fi].
Qed.
End Picture.
