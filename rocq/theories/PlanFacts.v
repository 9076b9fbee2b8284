(** Placement along a plan: if a plan of rows and columns obeys the rules of the layouter
    and gives no cell to two nodes, the layouter follows the plan. *)
From Coq Require Import String List Bool Arith ZArith Lia Permutation.
From Verif Require Import Py PyFacts Consts Nx NxFacts Rep SpecRep RepFacts MetricsFacts Classify Layouter
  SpecLayout ClassifyFacts TopoFacts GridFacts LayoutFacts SpecBlocks SpecFlat SpecPlan.
Import ListNotations.
Open Scope string_scope.
Open Scope list_scope.

Lemma smem_ext : forall x l l', (In x l <-> In x l') -> smem x l = smem x l'.
Proof.
  intros x l l' H. destruct (smem x l) eqn:A, (smem x l') eqn:B; auto.
  - apply smem_In in A. apply H in A. apply smem_In in A. congruence.
  - apply smem_In in B. apply H in B. apply smem_In in B. congruence.
Qed.
Lemma lists_perm : forall P l l', lists P l -> lists P l' -> Permutation l l'.
Proof.
  intros P l l' [N A] [N' B]. apply NoDup_Permutation; auto. intro x. rewrite A, B. reflexivity.
Qed.

Lemma rmap_ok : forall A B (f : A -> res B) l, (forall a, In a l -> exists b, f a = Ok b) ->
  exists r, rmap f l = Ok r /\ Forall2 (fun a b => f a = Ok b) l r.
Proof.
  induction l as [|a t IH]; intros H; [exists []; split; [reflexivity|constructor]|].
  destruct (H a (or_introl eq_refl)) as [b Eb]. destruct IH as [r [Er Fr]]; [intros x Hx; apply H; right; auto|].
  exists (b :: r). cbn [rmap]. rewrite Eb. cbn [rbind]. rewrite Er. split; [reflexivity|constructor; auto].
Qed.
Lemma Forall2_in_l : forall A B (R : A -> B -> Prop) l r a, Forall2 R l r -> In a l -> exists b, In b r /\ R a b.
Proof.
  intros A B R l r a F. induction F as [|x y l r Rxy F IH]; intros H; [contradiction|].
  destruct H as [<-|H]; [exists y; split; auto; left; auto|]. destruct (IH H) as [b [Hb Rb]]. exists b. split; auto. right; auto.
Qed.
Lemma forall2_nodup : forall A B (R : A -> B -> Prop) l r, (forall a a' b, R a b -> R a' b -> In a l -> In a' l -> a = a') ->
  NoDup l -> Forall2 R l r -> NoDup r.
Proof.
  intros A B R l r H N F. induction F as [|x y l r Rxy F IH]; [constructor|]. inv N. constructor.
  - intro C. destruct (Forall2_in_r _ _ R _ _ y F C) as [a [Ha Ra]]. apply H2.
    rewrite (H x a y); auto; [left|right]; auto.
  - apply IH; auto. intros a a' b Ra Ra' Ha Ha'. apply (H a a' b); auto; right; auto.
Qed.

Section Plan.
Variable d : diagram.
Hypothesis Co : coherent d.
Hypothesis AL : all_laid_out d.
Hypothesis Sg : single_flows d.
Variable s : list cnode.
Hypothesis Ps : Permutation s (classified d).
Hypothesis Ns : NoDup (map cid s).
Hypothesis Os : forall x y, goes d x y -> before (map cid s) x y.
Variable pos : string -> Z * Z.

(** * The rules *)
Definition rowsum (l : list string) : Z := fold_right (fun n a => (fst (pos n) + a)%Z) 0%Z l.
Definition colmax (l : list string) : Z := fold_right (fun n a => Z.max (snd (pos n)) a) 0%Z l.
Inductive ruled (n : string) : Prop :=
| r_start : lists (fun p => goes d p n) [] -> pos n = (2, 1)%Z -> ruled n
| r_step : forall p, lists (fun p => goes d p n) [p] -> lists (goes d p) [n] ->
    pos n = (fst (pos p), snd (pos p) + 1)%Z -> ruled n
| r_branch : forall p l i, lists (fun p => goes d p n) [p] -> lists (goes d p) l -> 2 <= length l ->
    nth_error (filter (fun x => smem x l) (map cid s)) i = Some n ->
    (forall a b, goes d n a -> goes d n b -> a = b) ->
    pos n = (split_row (length l) i (fst (pos p)), snd (pos p) + 1)%Z -> ruled n
| r_join : forall l, lists (fun p => goes d p n) l -> 2 <= length l -> (forall p, In p l -> lists (goes d p) [n]) ->
    pos n = (rowsum l / Z.of_nat (length l), colmax l + 1)%Z -> ruled n.
Hypothesis Ru : forall n, is_node d n -> ruled n.
Hypothesis Inj : forall a b, is_node d a -> is_node d b -> pos a = pos b -> a = b.

Lemma rowsum_perm : forall l l', Permutation l l' -> rowsum l = rowsum l'.
Proof. unfold rowsum, colmax. induction 1; cbn [fold_right]; lia. Qed.
Lemma colmax_perm : forall l l', Permutation l l' -> colmax l = colmax l'.
Proof. unfold rowsum, colmax. induction 1; cbn [fold_right]; lia. Qed.

Lemma s_node : forall n, is_node d n <-> In n (map cid s).
Proof.
  intro n. split; intro H.
  - eapply Permutation_in; [symmetry; apply Permutation_map; exact Ps|]. apply (node_in_orig d Co AL). auto.
  - apply in_map_iff in H. destruct H as [c [<- Hc]]. apply (orig_node d Co). eapply Permutation_in; eauto.
Qed.
Lemma s_orig : forall c, In c s -> In c (classified d).
Proof. intros c H. eapply Permutation_in; eauto. Qed.

Lemma goes_in : forall x y, goes d x y -> In x (map cid s) /\ In y (map cid s).
Proof.
  intros x y G. destruct (Os x y G) as [i [j [_ [A B]]]]. split; eapply nth_error_In; eauto.
Qed.

(** Predecessors and successors of a classified node. *)
Lemma preds_list : forall c, In c s -> exists l, rmap (fun f => flow_ref d f k_source_ref) (cin c) = Ok l /\
  lists (fun p => goes d p (cid c)) l /\ length l = length (cin c).
Proof.
  intros c Hc. apply s_orig in Hc. destruct (orig_cin d Co c Hc) as [Ein _].
  destruct (rmap_ok _ _ (fun f => flow_ref d f k_source_ref) (cin c)) as [l [El Fl]].
  { intros f Hf. rewrite Ein in Hf. destruct (in_flow d Co _ _ Hf) as [p [_ [_ G]]]. exists p. apply (ref_source d f p _ G). }
  exists l. split; auto. split; [|symmetry; eapply Forall2_len; eauto].
  pose proof Co as [_ [Nd _]]. destruct (Nd (cid c)) as [N1 _]; [apply (orig_node d Co); auto|].
  assert (X : forall f b, In f (cin c) -> flow_ref d f k_source_ref = Ok b -> flow d f b (cid c)).
  { intros f b Hf E. rewrite Ein in Hf. destruct (in_flow d Co _ _ Hf) as [p F]. rewrite (source_of d f p (cid c) b F E). exact F. }
  split.
  - apply (forall2_nodup _ _ _ _ _) with (3 := Fl); [|rewrite Ein; auto].
    intros a a' b Ra Ra' Ha Ha'. apply (Sg a a' b (cid c)); auto.
  - intro p. split.
    + intro Hp. destruct (Forall2_in_r _ _ _ _ _ p Fl Hp) as [f [Hf E]]. exists f. auto.
    + intros [f F]. pose proof F as [_ [Hf _]]. rewrite <- Ein in Hf. destruct (Forall2_in_l _ _ _ _ _ f Fl Hf) as [b [Hb E]].
      rewrite (source_of d f p (cid c) b F E) in Hb. exact Hb.
Qed.
Lemma succs_list : forall c, In c s -> exists l, rmap (fun f => flow_ref d f k_target_ref) (cout c) = Ok l /\
  lists (goes d (cid c)) l /\ length l = length (cout c).
Proof.
  intros c Hc. apply s_orig in Hc. destruct (orig_cin d Co c Hc) as [_ Eout].
  assert (OF : forall f, In f (outgoing_of d (cid c)) -> exists m, flow d f (cid c) m).
  { intros f Hf. pose proof Co as [_ [_ [O _]]]. destruct (O _ _ Hf) as [m [G I]]. exists m. split; auto. }
  destruct (rmap_ok _ _ (fun f => flow_ref d f k_target_ref) (cout c)) as [l [El Fl]].
  { intros f Hf. rewrite Eout in Hf. destruct (OF f Hf) as [p [_ [_ G]]]. exists p. apply (ref_target d f _ p G). }
  exists l. split; auto. split; [|symmetry; eapply Forall2_len; eauto].
  pose proof Co as [_ [Nd _]]. destruct (Nd (cid c)) as [_ N1]; [apply (orig_node d Co); auto|].
  assert (X : forall f b, In f (cout c) -> flow_ref d f k_target_ref = Ok b -> flow d f (cid c) b).
  { intros f b Hf E. rewrite Eout in Hf. destruct (OF f Hf) as [p F]. rewrite (target_of d f (cid c) p b F E). exact F. }
  split.
  - apply (forall2_nodup _ _ _ _ _) with (3 := Fl); [|rewrite Eout; auto].
    intros a a' b Ra Ra' Ha Ha'. apply (Sg a a' (cid c) b); auto.
  - intro p. split.
    + intro Hp. destruct (Forall2_in_r _ _ _ _ _ p Fl Hp) as [f [Hf E]]. exists f. auto.
    + intros [f F]. pose proof F as [Hf _]. rewrite <- Eout in Hf. destruct (Forall2_in_l _ _ _ _ _ f Fl Hf) as [b [Hb E]].
      rewrite (target_of d f (cid c) p b F E) in Hb. exact Hb.
Qed.
Lemma is_join_eq : forall c l, In c s -> lists (fun p => goes d p (cid c)) l ->
  smem c_join (ccls c) = Nat.leb 2 (length l).
Proof.
  intros c l Hc Hl. destruct (preds_list c Hc) as [l' [_ [L' E]]].
  rewrite (orig_join d Co c (s_orig c Hc)). destruct (orig_cin d Co c (s_orig c Hc)) as [Ein _]. rewrite <- Ein, <- E.
  rewrite (Permutation_length (lists_perm _ _ _ L' Hl)). reflexivity.
Qed.
Lemma is_split_eq : forall c l, In c s -> lists (goes d (cid c)) l -> smem c_split (ccls c) = Nat.leb 2 (length l).
Proof.
  intros c l Hc Hl. destruct (succs_list c Hc) as [l' [_ [L' E]]].
  rewrite (orig_split d Co c (s_orig c Hc)). destruct (orig_cin d Co c (s_orig c Hc)) as [_ Eout]. rewrite <- Eout, <- E.
  rewrite (Permutation_length (lists_perm _ _ _ L' Hl)). reflexivity.
Qed.

(** * The grid made of the planned cells *)
Definition cellof (n : string) : cell := mkCell (fst (pos n)) (snd (pos n)) n.
Definition rest (ids : list string) : list cnode := filter (fun c => negb (smem (cid c) ids)) s.

Lemma gfind_plan : forall ids p, In p ids -> gfind p (map cellof ids) = Ok (cellof p).
Proof.
  unfold gfind. induction ids as [|a t IH]; intros p H; [contradiction|]. cbn [map find]. cbn [cnid cellof].
  destruct (String.eqb_spec a p) as [->|N]; [reflexivity|]. destruct H as [->|H]; [congruence|]. apply IH. auto.
Qed.
Lemma insert_plan : forall ids n, incl ids (map cid s) -> In n (map cid s) -> ~ In n ids ->
  insert_into_grid (map cellof ids) (fst (pos n)) (snd (pos n)) n = Ok (map cellof (ids ++ [n])).
Proof.
  intros ids n I Hn X. unfold insert_into_grid. destruct (find _ _) as [x|] eqn:F.
  - exfalso. apply find_some in F. destruct F as [Hx E]. apply in_map_iff in Hx. destruct Hx as [m [<- Hm]].
    apply andb_true_iff in E. destruct E as [E1 E2]. apply Z.eqb_eq in E1, E2. cbn [crow ccol cellof] in E1, E2.
    apply X. rewrite <- (Inj m n); auto; try (apply s_node; auto). destruct (pos m), (pos n); cbn in *; congruence.
  - rewrite map_app. reflexivity.
Qed.
Lemma join_position_plan : forall ids l acc, NoDup ids ->
  fold_left (fun acc c => if smem (cnid c) l
     then ((fst acc + crow c)%Z, if Z.ltb (snd acc) (ccol c) then ccol c else snd acc) else acc) (map cellof ids) acc
  = (fst acc + rowsum (filter (fun x => smem x l) ids), Z.max (snd acc) (fold_right (fun n a => Z.max (snd (pos n)) a) (snd acc) (filter (fun x => smem x l) ids)))%Z.
Proof.
  induction ids as [|a t IH]; intros l acc N.
  - cbn. destruct acc; cbn. f_equal; lia.
  - inv N. cbn [map fold_left filter cnid cellof crow ccol]. rewrite IH by auto. destruct (smem a l); [|reflexivity].
    cbn [fst snd rowsum fold_right]. f_equal; [unfold rowsum; lia|].
    assert (M : forall b b' u, (b <= b')%Z -> (b' <= Z.max b u)%Z -> forall L,
       Z.max u (Z.max b (fold_right (fun n a => Z.max (snd (pos n)) a) b L)) = Z.max u (Z.max b' (fold_right (fun n a => Z.max (snd (pos n)) a) b' L))).
    { intros b b' u K1 K3. induction L as [|y L IHL]; cbn; lia. }
    set (L := filter (fun x => smem x l) t). set (u := snd (pos a)).
    assert (G : forall b L, (b <= fold_right (fun n a => Z.max (snd (pos n)) a) b L)%Z) by (intros b; induction L0; cbn; lia).
    destruct (Z.ltb_spec (snd acc) u).
    + pose proof (M (snd acc) u u ltac:(lia) ltac:(lia) L). pose proof (G u L). pose proof (G (snd acc) L). lia.
    + pose proof (G (snd acc) L). lia.
Qed.
Lemma join_plan : forall ids l, NoDup ids -> NoDup l -> incl l ids ->
  join_position l (map cellof ids) = (rowsum l, colmax l).
Proof.
  intros ids l N Nl I. unfold join_position. rewrite join_position_plan by auto. cbn [fst snd].
  assert (P : Permutation (filter (fun x => smem x l) ids) l).
  { apply NoDup_Permutation; auto; [apply NoDup_filter; auto|]. intro x. rewrite filter_In, smem_In. split; [tauto|auto]. }
  rewrite (rowsum_perm _ _ P). fold (colmax (filter (fun x => smem x l) ids)). rewrite (colmax_perm _ _ P).
  assert (0 <= colmax l)%Z by (clear; unfold colmax; induction l; cbn [fold_right]; lia). f_equal; lia.
Qed.

(** Taking a node out of the list. *)
Lemma rest_remove : forall ids c, In c s -> ~ In (cid c) ids -> cremove (cid c) (rest ids) = Ok (rest (ids ++ [cid c])).
Proof.
  unfold rest. clear - Ns. induction s as [|a t IH]; intros ids c Hc X; [contradiction|].
  cbn [map] in Ns. inv Ns. cbn [filter].
  assert (Sm : forall x, smem x (ids ++ [cid c]) = smem x ids || String.eqb x (cid c)).
  { intro x. destruct (smem x (ids ++ [cid c])) eqn:E.
    - apply smem_In in E. apply in_app_or in E. destruct E as [E|[<-|[]]]; [apply smem_In in E; rewrite E; auto|].
      rewrite String.eqb_refl, orb_true_r. reflexivity.
    - symmetry. apply orb_false_iff. split.
      + apply smem_notIn. intro C. apply smem_notIn in E. apply E. apply in_or_app. auto.
      + apply eqb_neq'. intros ->. apply smem_notIn in E. apply E. apply in_or_app. right. left. auto. }
  rewrite (Sm (cid a)). destruct (String.eqb_spec (cid a) (cid c)) as [Ea|Na].
  - assert (Xa : smem (cid a) ids = false) by (rewrite Ea; apply smem_notIn; auto). rewrite Xa. cbn [negb orb cremove].
    rewrite Ea, String.eqb_refl. f_equal. apply filter_ext_in. intros x Hx. rewrite Sm.
    assert (cid x <> cid c). { intro C. apply H1. rewrite Ea, <- C. apply in_map. auto. }
    apply eqb_neq' in H. rewrite H, orb_false_r. reflexivity.
  - destruct Hc as [->|Hc]; [congruence|]. rewrite orb_false_r. destruct (smem (cid a) ids); cbn [negb]; [apply IH; auto|].
    cbn [cremove]. rewrite (eqb_neq' (cid c) (cid a)) by auto. rewrite (IH H2 ids c Hc X). reflexivity.
Qed.
Lemma rest_in : forall ids c, In c (rest ids) <-> In c s /\ ~ In (cid c) ids.
Proof. intros ids c. unfold rest. rewrite filter_In, negb_true_iff, smem_notIn. reflexivity. Qed.
Lemma rest_tail : forall ids n t, rest ids = n :: t -> t = rest (ids ++ [cid n]).
Proof.
  intros ids n t E. assert (H : In n (rest ids)) by (rewrite E; left; auto). apply rest_in in H. destruct H as [H X].
  pose proof (rest_remove ids n H X) as R. rewrite E in R. cbn [cremove] in R. rewrite String.eqb_refl in R. congruence.
Qed.

(** The first node of the rest has all its predecessors placed. *)
Lemma head_preds : forall ids n t x, rest ids = n :: t -> goes d x (cid n) -> In x ids.
Proof.
  intros ids n t x E G. destruct (smem x ids) eqn:Sx; [apply smem_In; auto|]. exfalso. apply smem_notIn in Sx.
  destruct (Os x (cid n) G) as [i [j [L [A B]]]].
  assert (K : forall u v, s = u ++ v -> forall i j, i < j -> nth_error (map cid v) i = Some x -> nth_error (map cid v) j = Some (cid n) ->
              filter (fun c => negb (smem (cid c) ids)) v = n :: t -> False).
  { clear - Ns Sx. intros u v. revert u. induction v as [|a v IH]; intros u Es i j L A B E; [destruct i; discriminate|].
    assert (Na : NoDup (map cid (a :: v))) by (rewrite Es, map_app in Ns; eapply nodup_r; eauto).
    destruct j as [|j]; [lia|]. cbn [map nth_error] in B. destruct i as [|i]; cbn [map nth_error] in A.
    - injection A as <-. cbn [filter] in E. rewrite (proj2 (smem_notIn (cid a) ids)) in E by auto. cbn [negb] in E.
      injection E as <- _. cbn [map] in Na. inv Na. apply H1. eapply nth_error_In; eauto.
    - assert (cid a <> cid n) as Ne. { intro C. cbn [map] in Na. inv Na. apply H1. rewrite C. eapply nth_error_In; eauto. }
      cbn [filter] in E. destruct (negb (smem (cid a) ids)); [injection E as -> _; congruence|].
      apply (IH (u ++ [a])) with (i := i) (j := j); auto; [rewrite <- app_assoc; auto|lia]. }
  exact (K [] s eq_refl i j L A B E).
Qed.

(** * One step *)
Definition closed (ids : list string) : Prop := forall x y, goes d x y -> In y ids -> In x ids.
Definition no_start (ids : list string) : Prop := forall n, In n ids -> exists p, goes d p n.
Record inv_plan (ids : list string) (lr : Z) : Prop := {
  ip_nodup : NoDup ids;
  ip_incl : incl ids (map cid s);
  ip_closed : closed ids;
  ip_start : no_start ids -> lr = 2%Z;
  ip_split : forall x l, In x ids -> lists (goes d x) l -> 2 <= length l -> incl l ids }.

(** The cell of a node that is not the child of a split. *)
Lemma choose_plan : forall ids lr n t, inv_plan ids lr -> rest ids = n :: t ->
  exists lr', choose_cell d n (map cellof ids) lr None = Ok (fst (pos (cid n)), pos (cid n), lr') /\
    (no_start (ids ++ [cid n]) -> lr' = 2%Z).
Proof.
  intros ids lr n t I E. assert (Hr : In n (rest ids)) by (rewrite E; left; auto). apply rest_in in Hr. destruct Hr as [Hn X].
  destruct (preds_list n Hn) as [l [El [Ll Le]]].
  assert (Nn : is_node d (cid n)) by (apply s_node, in_map; auto).
  assert (Pl : incl l ids). { intros x Hx. apply (head_preds ids n t x E). apply Ll. auto. }
  assert (NS : no_start (ids ++ [cid n]) -> no_start ids). { intros H m Hm. apply H. apply in_or_app. auto. }
  unfold choose_cell. pose proof (is_join_eq n l Hn Ll) as J.
  destruct (Ru (cid n) Nn) as [L0 Ep|p L1 L2 Ep|p l' i L1 L2 Le' Nt _ Ep|l' L1 Le' Ls Ep].
  - pose proof (lists_perm _ _ _ Ll L0) as P. apply Permutation_sym, Permutation_nil in P. subst l. destruct (cin n); [|discriminate].
    exists (lr + grid_column_width)%Z.
    assert (A : (exists m, In m ids /\ forall p, ~ goes d p m) \/ no_start ids).
    { clear - Co AL Ps Os I. assert (G : forall l, (exists m, In m l /\ forall p, ~ goes d p m) \/ (forall n, In n l -> In n (map cid s) -> exists p, goes d p n)).
      { induction l as [|a l IHl]; [right; intros ? []|]. destruct IHl as [[m [M1 M2]]|IHl]; [left; exists m; split; auto; right; auto|].
        destruct (incoming_of d a) as [|f fs] eqn:Ei.
        - left. exists a. split; [left; auto|]. intros p [f [_ [Hf _]]]. rewrite Ei in Hf. contradiction.
        - right. intros n0 [<-|H] Hs; [|auto]. destruct (in_flow d Co a f) as [p F]; [rewrite Ei; left; auto|]. exists p, f. auto. }
      destruct (G ids) as [G'|G']; [left; auto|right]. intros m Hm. apply G'; auto. apply (ip_incl _ _ I). auto. }
    destruct A as [[m [Hm Em]]|A].
    + exfalso. apply X. assert (Nm : is_node d m) by (apply s_node, (ip_incl _ _ I); auto).
      destruct (Ru m Nm) as [M0 Mp|p M1|p l' i M1|l' M1 M2].
      * rewrite <- (Inj m (cid n) Nm Nn); auto. congruence.
      * exfalso. apply (Em p), M1. left; auto.
      * exfalso. apply (Em p), M1. left; auto.
      * exfalso. destruct l' as [|p l']; [cbn in M2; lia|]. apply (Em p), M1. left; auto.
    + rewrite (ip_start _ _ I A). rewrite Ep. split; [reflexivity|].
      intros C. exfalso. destruct (C (cid n)) as [p G]; [apply in_or_app; right; left; auto|]. apply (proj2 L0 p) in G. contradiction.
  - pose proof (lists_perm _ _ _ Ll L1) as P. apply Permutation_sym, Permutation_length_1_inv in P. subst l.
    destruct (cin n) as [|f [|? ?]]; try discriminate. rewrite J. cbn [length Nat.leb]. cbn [rmap] in El.
    destruct (flow_ref d f k_source_ref) as [q|] eqn:Eq; [|discriminate]. cbn [rbind] in El. injection El as ->. cbn [rbind].
    rewrite gfind_plan by (apply Pl; left; auto). cbn [rbind crow ccol cellof enforced_given].
    exists lr. rewrite Ep. split; [reflexivity|]. intros H. apply (ip_start _ _ I). auto.
  - exfalso. apply X. apply (ip_split _ _ I p l'); auto.
    + apply (head_preds ids n t p E). apply L1. left; auto.
    + apply L2. apply L1. left; auto.
  - pose proof (lists_perm _ _ _ Ll L1) as P.
    assert (L2 : 2 <= length l) by (rewrite (Permutation_length P); auto).
    rewrite J. apply Nat.leb_le in L2. rewrite L2. rewrite El. cbn [rbind].
    destruct (cin n) as [|f fs] eqn:Ec; [apply Nat.leb_le in L2; rewrite Le in L2; cbn in L2; lia|].
    rewrite join_plan; [|apply (ip_nodup _ _ I)|apply Ll|auto]. cbn [fst snd enforced_truthy].
    exists lr. rewrite Ep, (rowsum_perm _ _ P), (colmax_perm _ _ P), (Permutation_length P). split; [reflexivity|].
    intros H. apply (ip_start _ _ I). auto.
Qed.

(** The children of a split. *)
Lemma children_plan : forall fuel n k todo done ids lr cs, In n s -> lists (goes d (cid n)) (map cid cs) -> cs = done ++ todo ->
  k = length cs -> 2 <= k -> incl cs s -> map cid cs = filter (fun x => smem x (map cid cs)) (map cid s) ->
  NoDup ids -> incl ids (map cid s) -> In (cid n) ids -> (forall c, In c cs -> ~ In (cid c) ids) ->
  rfold (fun st index =>
                 match nth_error cs index with
                 | None => Err IndexError
                 | Some s0 =>
                     let* st1 := place_element (S fuel) d s0 (Some (split_row k index (fst (pos (cid n))))) st in
                     let* tmp' := cremove (cid s0) (snd st1) in
                     Ok (fst st1, tmp')
                 end) (seq (length done) (length todo))
        (map cellof (ids ++ map cid done), lr, rest (ids ++ map cid done)) =
  Ok (map cellof (ids ++ map cid cs), lr, rest (ids ++ map cid cs)).
Proof.
  intros fuel n k todo. induction todo as [|c todo IH]; intros done ids lr cs Hn Ll Ec Ek K2 Ic Ef Ni Ii In_n Xc.
  - cbn [length seq rfold]. rewrite app_nil_r in Ec. subst. reflexivity.
  - cbn [length seq rfold].
    assert (Nt : nth_error cs (length done) = Some c) by (rewrite Ec, nth_error_app2, Nat.sub_diag by lia; reflexivity).
    assert (Hc : In c cs) by (eapply nth_error_In; eauto). pose proof (Ic c Hc) as Hs.
    assert (Nc : is_node d (cid c)) by (apply s_node, in_map; auto).
    assert (Gc : goes d (cid n) (cid c)) by (apply Ll, in_map; auto).
    rewrite Nt. 
    assert (Rc : lists (fun p => goes d p (cid c)) [cid n] /\ (forall a b, goes d (cid c) a -> goes d (cid c) b -> a = b) /\
                 pos (cid c) = (split_row k (length done) (fst (pos (cid n))), snd (pos (cid n)) + 1)%Z).
    { assert (L2 : 2 <= length (map cid cs)) by (rewrite map_length; lia).
      destruct (Ru (cid c) Nc) as [L0 Ep|p L1 L3 Ep|p l' i L1 L3 Le' Nt' S1 Ep|l' L1 Le' Ls Ep].
      - apply L0 in Gc. contradiction.
      - apply L1 in Gc. destruct Gc as [->|[]]. pose proof (Permutation_length (lists_perm _ _ _ Ll L3)) as Q. cbn in Q. lia.
      - pose proof Gc as Gc'. apply L1 in Gc'. destruct Gc' as [->|[]]. pose proof (lists_perm _ _ _ Ll L3) as Q.
        split; auto. split; auto. rewrite Ep, <- (Permutation_length Q), map_length, <- Ek. f_equal. f_equal.
        assert (Fe : filter (fun x => smem x l') (map cid s) = map cid cs).
        { rewrite Ef. apply filter_ext. intro x. apply smem_ext. split; intro; [eapply Permutation_in; [symmetry; exact Q|auto]|eapply Permutation_in; [exact Q|auto]]. }
        rewrite Fe in Nt'. apply (proj1 (NoDup_nth_error (map cid cs)) (proj1 Ll)).
        + apply nth_error_Some. congruence.
        + rewrite Nt', nth_error_map, Nt. reflexivity.
      - apply L1 in Gc. pose proof (Permutation_length (lists_perm _ _ _ Ll (Ls _ Gc))) as Q. cbn in Q. lia. }
    destruct Rc as [Lp [S1 Ep]].
    destruct (preds_list c Hs) as [l [El [Lc Le]]].
    pose proof (lists_perm _ _ _ Lc Lp) as P. apply Permutation_sym, Permutation_length_1_inv in P. subst l.
    assert (Xd : ~ In (cid c) (ids ++ map cid done)).
    { intro C. apply in_app_or in C. destruct C as [C|C]; [exact (Xc c Hc C)|].
      pose proof (proj1 Ll) as N. rewrite Ec, map_app in N. cbn [map] in N. apply NoDup_remove_2 in N. apply N. apply in_or_app. auto. }
    assert (Id : incl (ids ++ map cid done) (map cid s)).
    { intros x Hx. apply in_app_or in Hx. destruct Hx as [Hx|Hx]; [auto|]. apply in_map_iff in Hx. destruct Hx as [y [<- Hy]].
      apply in_map. apply Ic. rewrite Ec. apply in_or_app. auto. }
    assert (Pe : place_element (S fuel) d c (Some (split_row k (length done) (fst (pos (cid n)))))
                   (map cellof (ids ++ map cid done), lr, rest (ids ++ map cid done)) =
                 Ok (map cellof ((ids ++ map cid done) ++ [cid c]), lr, rest (ids ++ map cid done))).
    { cbn [place_element]. unfold choose_cell. pose proof (is_join_eq c _ Hs Lp) as J. rewrite J. cbn [length Nat.leb].
      destruct (cin c) as [|f [|? ?]]; try discriminate. cbn [rmap] in El.
      destruct (flow_ref d f k_source_ref) as [q|] eqn:Eq; [|discriminate]. cbn [rbind] in El. injection El as ->. cbn [rbind].
      rewrite gfind_plan by (apply in_or_app; left; auto). cbn [rbind crow ccol cellof enforced_given].
      pose proof (insert_plan (ids ++ map cid done) (cid c) Id ltac:(apply in_map; auto) Xd) as Ins. rewrite Ep in Ins. cbn [fst snd] in Ins.
      rewrite Ins. cbn [rbind]. destruct (succs_list c Hs) as [l [_ [Lo _]]]. rewrite (is_split_eq c l Hs Lo).
      destruct l as [|a [|b l]]; cbn [length Nat.leb]; try reflexivity. exfalso. pose proof (proj1 Lo) as N. inv N.
      apply H1. rewrite (S1 b a); [left; auto| |]; apply Lo; cbn; auto. }
    rewrite Pe. cbn [rbind snd fst]. rewrite rest_remove by auto. cbn [rbind].
    pose proof (IH (done ++ [c]) ids lr cs Hn Ll ltac:(rewrite <- app_assoc; exact Ec) Ek K2 Ic Ef Ni Ii In_n Xc) as R.
    rewrite app_length, (map_app cid done [c]), app_assoc in R. cbn [length map] in R. rewrite Nat.add_1_r in R. exact R.
Qed.

Lemma step_plan : forall fuel ids lr n t, inv_plan ids lr -> rest ids = n :: t ->
  exists ids' lr', place_element (S (S fuel)) d n None (map cellof ids, lr, t) = Ok (map cellof ids', lr', rest ids') /\
    inv_plan ids' lr' /\ incl (cid n :: ids) ids'.
Proof.
  intros fuel ids lr n t I E. assert (Hr : In n (rest ids)) by (rewrite E; left; auto). apply rest_in in Hr. destruct Hr as [Hn X].
  destruct (choose_plan ids lr n t I E) as [lr' [Ch Hl]]. pose proof (rest_tail _ _ _ E) as Et.
  assert (Nn : In (cid n) (map cid s)) by (apply in_map; auto).
  assert (Cl : forall x y, goes d x y -> In y (ids ++ [cid n]) -> In x ids).
  { intros x y G Hy. apply in_app_or in Hy. destruct Hy as [Hy|[<-|[]]]; [eapply (ip_closed _ _ I); eauto|eapply head_preds; eauto]. }
  assert (N1 : NoDup (ids ++ [cid n])).
  { apply NoDup_app; [apply (ip_nodup _ _ I)|constructor; [intros []|constructor]|]. intros x Hx [<-|[]]. auto. }
  assert (I1 : incl (ids ++ [cid n]) (map cid s)).
  { intros x Hx. apply in_app_or in Hx. destruct Hx as [Hx|[<-|[]]]; [apply (ip_incl _ _ I); auto|auto]. }
  cbn [place_element]. rewrite Ch. destruct (pos (cid n)) as [r c] eqn:Epos. cbn [rbind fst].
  pose proof (insert_plan ids (cid n) (ip_incl _ _ I) Nn X) as Ins. rewrite Epos in Ins. cbn [fst snd] in Ins. rewrite Ins. cbn [rbind].
  destruct (succs_list n Hn) as [l [El [Ll Le]]]. rewrite (is_split_eq n l Hn Ll).
  destruct (Nat.leb_spec 2 (length l)) as [K2|K2].
  - rewrite El. cbn [rbind].
    assert (Xl : forall y, In y l -> ~ In y (ids ++ [cid n])).
    { intros y Hy C. apply X. apply (Cl (cid n) y); auto. apply Ll. auto. }
    set (cs := filter (fun c0 => smem (cid c0) l) t).
    assert (Cs : cs = filter (fun c0 => smem (cid c0) l) s).
    { unfold cs. rewrite Et. unfold rest. clear - Xl. induction s as [|a u IH]; [reflexivity|]. cbn [filter].
      destruct (smem (cid a) l) eqn:Sm.
      - rewrite (proj2 (smem_notIn (cid a) (ids ++ [cid n]))) by (apply Xl, smem_In; auto). cbn [negb filter]. rewrite Sm, IH. reflexivity.
      - destruct (negb _); [cbn [filter]; rewrite Sm|]; exact IH. }
    assert (Mc : map cid cs = filter (fun x => smem x l) (map cid s)).
    { rewrite Cs. clear. induction s as [|a u IH]; [reflexivity|]. cbn [filter map]. destruct (smem (cid a) l); cbn [map]; rewrite IH; reflexivity. }
    assert (Lc : lists (goes d (cid n)) (map cid cs)).
    { rewrite Mc. split; [apply NoDup_filter; auto|]. intro x. rewrite filter_In, smem_In. split; [intros [_ H]; apply Ll; auto|].
      intro G. split; [apply (goes_in _ _ G)|apply Ll; auto]. }
    assert (Lk : length l = length cs). { rewrite <- (map_length cid cs). apply Permutation_length. exact (lists_perm _ _ _ Ll Lc). }
    assert (Mc' : map cid cs = filter (fun x => smem x (map cid cs)) (map cid s)).
    { rewrite Mc at 1. apply filter_ext. intro x. apply smem_ext. rewrite (proj2 Ll x), (proj2 Lc x). reflexivity. }
    assert (Ic : incl cs s) by (rewrite Cs; intros x Hx; apply filter_In in Hx; tauto).
    assert (Xc : forall y, In y cs -> ~ In (cid y) (ids ++ [cid n])).
    { intros y Hy. apply Xl. apply Ll. apply Lc. apply in_map. auto. }
    exists ((ids ++ [cid n]) ++ map cid cs), lr'. split; [|split].
    + rewrite Et, Lk. pose proof (children_plan fuel n (length cs) cs [] (ids ++ [cid n]) lr' cs Hn Lc eq_refl eq_refl
        ltac:(lia) Ic Mc' N1 I1 ltac:(apply in_or_app; right; left; auto) Xc) as R.
      rewrite Epos in R. cbn [length map fst] in R. rewrite !app_nil_r in R. exact R.
    + assert (Mem : forall y, In y ((ids ++ [cid n]) ++ map cid cs) <-> In y (ids ++ [cid n]) \/ goes d (cid n) y).
      { intro y. rewrite in_app_iff, (proj2 Lc y). reflexivity. }
      constructor.
      * apply NoDup_app; [auto|apply Lc|]. intros x Hx Hx'. apply (Xl x); auto. apply Ll. apply Lc. auto.
      * intros x Hx. apply Mem in Hx. destruct Hx as [Hx|Hx]; [auto|apply (goes_in _ _ Hx)].
      * intros x y G Hy. apply Mem. left. apply Mem in Hy. destruct Hy as [Hy|Hy].
        -- apply in_or_app. left. eapply Cl; eauto.
        -- assert (Ny : is_node d y) by (apply s_node; apply (goes_in _ _ Hy)).
           destruct (Ru y Ny) as [L0 Ep|p L1 L3 Ep|p l' i L1 L3 Le' Nt' S1 Ep|l' L1 Le' Ls Ep].
           ++ apply L0 in Hy. contradiction.
           ++ apply L1 in Hy, G. destruct Hy as [->|[]], G as [<-|[]]. apply in_or_app. right. left; auto.
           ++ apply L1 in Hy, G. destruct Hy as [->|[]], G as [<-|[]]. apply in_or_app. right. left; auto.
           ++ apply L1 in Hy. pose proof (Permutation_length (lists_perm _ _ _ Ll (Ls _ Hy))) as Q. cbn in Q. lia.
      * intros H. apply Hl. intros x Hx. apply H. apply in_or_app. auto.
      * intros x l' Hx Lx K y Hy. apply Mem. apply Lx in Hy. apply Mem in Hx. destruct Hx as [Hx|Hx].
        -- apply in_app_or in Hx. destruct Hx as [Hx|[<-|[]]]; [|right; auto].
           left. apply in_or_app. left. apply (ip_split _ _ I x l' Hx Lx K). apply Lx. auto.
        -- exfalso. assert (Nx : is_node d x) by (apply s_node; apply (goes_in _ _ Hx)).
           destruct (Ru x Nx) as [L0 Ep|p L1 L3 Ep|p l2 i L1 L3 Le' Nt' S1 Ep|l2 L1 Le' Ls Ep].
           ++ apply L0 in Hx. contradiction.
           ++ apply L1 in Hx. destruct Hx as [->|[]]. pose proof (Permutation_length (lists_perm _ _ _ Ll L3)) as Q. cbn in Q. lia.
           ++ destruct l' as [|a [|b l']]; cbn in K; try lia. pose proof (proj1 Lx) as N. inv N. apply H1.
              rewrite (S1 b a); [left; auto| |]; apply Lx; cbn; auto.
           ++ apply L1 in Hx. pose proof (Permutation_length (lists_perm _ _ _ Ll (Ls _ Hx))) as Q. cbn in Q. lia.
    + intros x [<-|Hx]; apply in_or_app; left; apply in_or_app; [right; left|left]; auto.
  - exists (ids ++ [cid n]), lr'. split; [rewrite Et; reflexivity|]. split.
    + constructor; auto.
      * intros x y G Hy. apply in_or_app. left. eapply Cl; eauto.
      * intros x l' Hx Lx K y Hy. apply in_app_or in Hx. destruct Hx as [Hx|[<-|[]]].
        -- apply in_or_app. left. eapply (ip_split _ _ I); eauto.
        -- pose proof (Permutation_length (lists_perm _ _ _ Ll Lx)). lia.
    + intros x [<-|Hx]; apply in_or_app; [right; left|left]; auto.
Qed.

Lemma rest_shrinks : forall ids ids' n t, rest ids = n :: t -> incl (cid n :: ids) ids' -> length (rest ids') <= length t.
Proof.
  intros ids ids' n t E I. rewrite (rest_tail _ _ _ E). unfold rest. clear - I. induction s as [|a u IH]; [auto|]. cbn [filter].
  destruct (smem (cid a) ids') eqn:S1; cbn [negb].
  - destruct (negb _); cbn [length]; lia.
  - apply smem_notIn in S1. rewrite (proj2 (smem_notIn (cid a) (ids ++ [cid n]))).
    + cbn [negb length]. lia.
    + intro C. apply S1. apply I. apply in_app_or in C. destruct C as [C|[<-|[]]]; [right|left]; auto.
Qed.

Lemma loop_plan : forall fuel rounds ids lr, inv_plan ids lr -> length (rest ids) <= rounds ->
  exists ids', grid_loop rounds (S (S fuel)) d (map cellof ids, lr, rest ids) = Ok (map cellof ids') /\
    forall n, is_node d n -> In n ids'.
Proof.
  intros fuel. induction rounds as [|rounds IH]; intros ids lr I L.
  - destruct (rest ids) as [|n t] eqn:E; [|cbn in L; lia]. exists ids. split; [reflexivity|].
    intros n Hn. apply s_node in Hn. apply in_map_iff in Hn. destruct Hn as [c [<- Hc]].
    destruct (smem (cid c) ids) eqn:Sc; [apply smem_In; auto|]. apply smem_notIn in Sc. exfalso.
    assert (H : In c (rest ids)) by (apply rest_in; auto). rewrite E in H. contradiction.
  - destruct (rest ids) as [|n t] eqn:E; cbn [grid_loop snd fst].
    + exists ids. split; [reflexivity|].
      intros n Hn. apply s_node in Hn. apply in_map_iff in Hn. destruct Hn as [c [<- Hc]].
      destruct (smem (cid c) ids) eqn:Sc; [apply smem_In; auto|]. apply smem_notIn in Sc. exfalso.
      assert (H : In c (rest ids)) by (apply rest_in; auto). rewrite E in H. contradiction.
    + destruct (step_plan fuel ids lr n t I E) as [ids' [lr' [Ep [I' Ic]]]]. rewrite Ep. cbn [rbind].
      apply IH; auto. pose proof (rest_shrinks ids ids' n t E Ic). cbn in L. lia.
Qed.

Lemma grid_plan : forall fuel, exists ids, grid_layout (S (S fuel)) d s = Ok (map cellof ids) /\ forall n, is_node d n -> In n ids.
Proof.
  intros fuel. unfold grid_layout.
  assert (R : rest [] = s). { unfold rest. clear. induction s as [|a u IH]; [reflexivity|]. cbn. f_equal. exact IH. }
  pose proof (loop_plan fuel (length s) [] grid_column_width) as P. rewrite R in P. apply P; auto.
  constructor.
  - constructor.
  - intros x [].
  - intros x y _ [].
  - reflexivity.
  - intros x l [].
Qed.
End Plan.
