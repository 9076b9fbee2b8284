(** What the placement does with the nodes after a Split. *)
From Coq Require Import String List Bool Arith ZArith Lia Permutation.
From Verif Require Import Py PyFacts Consts Nx NxFacts Rep SpecRep RepFacts MetricsFacts Classify Layouter
  SpecLayout ClassifyFacts TopoFacts GridFacts.
Import ListNotations.
Open Scope string_scope.
Open Scope list_scope.

Lemma rmap_inj : forall A B (f : A -> res B) l r, rmap f l = Ok r -> NoDup r ->
  forall a b x, In a l -> In b l -> f a = Ok x -> f b = Ok x -> a = b.
Proof.
  induction l as [|y l IH]; intros r E N a b x Ha Hb Fa Fb; [destruct Ha|]. cbn [rmap] in E.
  destruct (f y) as [z|] eqn:Fy; [|discriminate]. cbn [rbind] in E. destruct (rmap f l) as [r'|] eqn:Er; [|discriminate].
  cbn [rbind] in E. inv E. inversion N as [|? ? N1 N2]; subst. destruct (rmap_In _ _ _ _ _ Er) as [P _].
  destruct Ha as [-> |Ha], Hb as [-> |Hb]; auto.
  - exfalso. destruct (P b Hb) as [w [Ew Hw]]. apply N1. congruence.
  - exfalso. destruct (P a Ha) as [w [Ew Hw]]. apply N1. congruence.
  - eapply IH; eauto.
Qed.
Lemma rmap_length : forall A B (f : A -> res B) l r, rmap f l = Ok r -> length r = length l.
Proof.
  induction l as [|y l IH]; intros r E; cbn [rmap] in E; [inv E; auto|].
  destruct (f y); [|discriminate]. cbn [rbind] in E. destruct (rmap f l) eqn:Er; [|discriminate]. cbn [rbind] in E. inv E. cbn. f_equal. auto.
Qed.
Lemma in_split_mid : forall A (x : A) l1 l2 k1 k2, l1 ++ l2 = k1 ++ x :: k2 ->
  (exists m, l1 = k1 ++ x :: m /\ k2 = m ++ l2) \/ (exists m, k1 = l1 ++ m /\ l2 = m ++ x :: k2).
Proof.
  induction l1 as [|a l1 IH]; intros l2 k1 k2 E; cbn [app] in E.
  - right. exists k1. auto.
  - destruct k1 as [|b k1]; cbn [app] in E; injection E as -> E.
    + left. exists l1. split; auto.
    + destruct (IH _ _ _ E) as [[m [-> ->]]|[m [-> ->]]]; [left|right]; exists m; auto.
Qed.

(** A cell with the Split that placed it, the number of flows of the Split and the
    number of the cell among them; [None] when the node was next in the sorted list. *)
Definition origin : Type := option (string * nat * nat).
Definition grown : Type := list (cell * origin).

Section S.
Variable d : diagram.
Hypothesis Co : coherent d.
Notation all := (classified d).

(** [c] was placed when the cells [B] were there, the cells [after] followed. *)
Definition spread (B : list cell) (c : cell) (o : origin) (after : grown) : Prop :=
  exists row ms, 
    (forall f f' m, flow d f (cnid c) m -> flow d f' (cnid c) m -> f = f') /\
    length ms = length (outgoing_of d (cnid c)) /\ NoDup ms /\
    (forall m, In m ms <-> exists f, flow d f (cnid c) m) /\
    (o = None -> row = crow c) /\
    (forall p k i, o = Some (p, k, i) -> ~ join_node d (cnid c) -> exists cp, In cp B /\ cnid cp = p /\ row = crow cp) /\
    (forall i m, nth_error ms i = Some m -> exists cm, In (cm, Some (cnid c, length ms, i)) after /\ cnid cm = m /\
       (~ join_node d m \/ split_row (length ms) i row <> 0%Z -> crow cm = split_row (length ms) i row)).
Definition settled (B : list cell) (T : grown) : Prop :=
  (forall T1 c o T2, T = T1 ++ (c, o) :: T2 -> split_node d (cnid c) -> spread (B ++ map fst T1) c o T2) /\
  (forall c p k i, In (c, Some (p, k, i)) T -> split_node d p /\ exists f, flow d f p (cnid c)).

Lemma spread_more : forall B c o T T', spread B c o T -> spread B c o (T ++ T').
Proof using.
  intros B c o T T' (row & ms & H1 & H2 & H3 & H4 & H5 & H6 & H7). exists row, ms. repeat (split; [assumption|]).
  intros i m E. destruct (H7 i m E) as (cm & A & X). exists cm. split; auto. apply in_or_app. auto.
Qed.
Lemma settled_app : forall B T T', settled B T -> settled (B ++ map fst T) T' -> settled B (T ++ T').
Proof using.
  intros B T T' [H K] [H' K']. split.
  - intros T1 c o T2 E S. apply in_split_mid in E. destruct E as [[m [-> ->]]|[m [-> ->]]].
    + apply spread_more. eapply H; eauto.
    + rewrite map_app, app_assoc. eapply H'; eauto.
  - intros c p k i I. apply in_app_or in I. destruct I; eauto.
Qed.
Lemma settled_nil : forall B, settled B [].
Proof using. intros B. split; [intros [|x T1] c o T2 E; discriminate|intros c p k i []]. Qed.

Definition fits (n : cnode) (enf : option Z) (o : origin) : Prop :=
  match o with
  | None => enf = None
  | Some (p, _, _) => enf <> None /\ split_node d p /\ exists f, flow d f p (cid n)
  end.

Lemma place_settled : forall fuel n enf st st' o, place_element fuel d n enf st = Ok st' ->
  In n all -> incl (snd st) all -> NoDup (map cid (snd st)) -> fits n enf o ->
  exists c T, fst (fst st') = fst (fst st) ++ c :: map fst T /\ cnid c = cid n /\
    settled (fst (fst st)) ((c, o) :: T) /\ incl (snd st') (snd st) /\ NoDup (map cid (snd st')) /\
    (forall r, enf = Some r -> incoming_of d (cid n) <> [] -> ~ join_node d (cid n) \/ r <> 0%Z -> crow c = r).
Proof using Co.
  induction fuel as [|fuel IH]; intros n enf [[grid lr] tmp] st' o E Hn Ht Nt Fi; [discriminate|].
  cbn [place_element] in E. destruct (choose_cell d n grid lr enf) as [[[row [r c]] lr1]|] eqn:Ec; [|discriminate].
  cbn [rbind] in E. destruct (insert_into_grid grid r c (cid n)) as [grid1|] eqn:Ei; [|discriminate].
  cbn [rbind] in E. cbn [fst snd] in *. destruct (insert_ok _ _ _ _ _ Ei) as [Eg _].
  destruct (orig_cin d Co n Hn) as [Ein Eout]. pose proof (orig_join d Co n Hn) as J. pose proof (orig_split d Co n Hn) as Sp.
  assert (Row : forall r0, enf = Some r0 -> incoming_of d (cid n) <> [] -> ~ join_node d (cid n) \/ r0 <> 0%Z -> r = r0).
  { intros r0 -> Ni X. unfold choose_cell in Ec. rewrite Ein in Ec. destruct (incoming_of d (cid n)) as [|f fs] eqn:Ef; [congruence|].
    destruct (smem c_join (ccls n)) eqn:Ej.
    - destruct (rmap _ (f :: fs)) as [preds|]; [|discriminate]. cbn [rbind] in Ec. injection Ec as _ <- _ _. unfold enforced_truthy.
      destruct (Z.eqb_spec r0 0) as [-> |]; [|reflexivity]. exfalso. destruct X as [X|X]; [|congruence]. apply X. unfold join_node.
      rewrite Ef. apply Nat.leb_le. auto.
    - destruct (flow_ref d f k_source_ref); [|discriminate]. cbn [rbind] in Ec. destruct (gfind _ grid); [|discriminate]. cbn [rbind] in Ec.
      injection Ec as _ <- _ _. reflexivity. }
  assert (Org : forall c' p k i, In (c', Some (p, k, i)) [(mkCell r c (cid n), o)] -> split_node d p /\ exists f, flow d f p (cnid c')).
  { intros c' p k i [I|[]]. injection I as <- ->. apply Fi. }
  destruct (smem c_split (ccls n)) eqn:Esp.
  2: { inv E. exists (mkCell r c (cid n)), []. cbn [fst snd map]. split; [reflexivity|]. split; [reflexivity|]. split; [|split; [apply incl_refl|split; auto]].
       split; [|exact Org].
       intros [|x T1] c' o' T2 E S; [|destruct T1; discriminate]. injection E as <- <- <-. cbn [cnid] in S. exfalso.
       unfold split_node in S. apply Nat.leb_le in S. congruence. }
  destruct (rmap _ (cout n)) as [succs|] eqn:Es; [|discriminate]. cbn [rbind] in E.
  set (nodes := filter (fun c0 => smem (cid c0) succs) tmp) in *.
  assert (Succ : forall m, In m succs <-> exists f, flow d f (cid n) m).
  { destruct (rmap_In _ _ _ _ _ Es) as [P Q]. intros m. split.
    - intros Hm. destruct (Q m Hm) as [f [Hf Ef]]. rewrite Eout in Hf. destruct (out_flow d Co _ _ Hf) as [m' F].
      exists f. apply (target_of d f (cid n) m') in Ef; auto. subst m. exact F.
    - intros [f F]. destruct (P f) as [m' [Ef Hm]]; [rewrite Eout; apply F|]. apply (target_of d f (cid n) m) in Ef; auto. congruence. }
  assert (X : forall is s s', (forall i, In i is -> i < length succs) ->
     rfold (fun st index => match nth_error nodes index with
                            | Some s => let* st1 := place_element fuel d s (Some (split_row (length succs) index row)) st in
                                        let* tmp' := cremove (cid s) (snd st1) in Ok (fst st1, tmp')
                            | None => Err IndexError end) is s = Ok s' ->
     incl (snd s) tmp -> NoDup (map cid (snd s)) ->
     exists T, fst (fst s') = fst (fst s) ++ map fst T /\ settled (fst (fst s)) T /\ incl (snd s') tmp /\ NoDup (map cid (snd s')) /\
       forall i, In i is -> exists x cm, nth_error nodes i = Some x /\ In (cm, Some (cid n, length succs, i)) T /\ cnid cm = cid x /\
         (~ join_node d (cid x) \/ split_row (length succs) i row <> 0%Z -> crow cm = split_row (length succs) i row)).
  { induction is as [|i is IHi]; intros s s' Hi Er Is Ns; cbn [rfold] in Er.
    - inv Er. exists []. rewrite app_nil_r. split; auto. split; [apply settled_nil|]. split; auto. split; auto. intros i [].
    - destruct (nth_error nodes i) as [x|] eqn:En; [|discriminate].
      destruct (place_element fuel d x _ s) as [s1|] eqn:Ep; [|discriminate]. cbn [rbind] in Er.
      destruct (cremove (cid x) (snd s1)) as [tmp'|] eqn:Ecr; [|discriminate]. cbn [rbind] in Er.
      assert (Hx : In x tmp /\ In (cid x) succs).
      { apply nth_error_In in En. apply filter_In in En. destruct En as [A B]. split; auto. apply smem_In. auto. }
      destruct Hx as [Hx Hs].
      destruct (IH x _ s s1 (Some (cid n, length succs, i)) Ep) as (cx & T & G1 & G2 & G3 & G4 & G5 & G6); auto.
      { intros y Hy. apply Ht, Is, Hy. } { split; [discriminate|]. split; [|apply Succ; auto]. unfold split_node. apply Nat.leb_le. auto. }
      destruct (cremove_perm _ _ _ Ecr) as [Pr Ir].
      destruct (IHi (fst s1, tmp') s') as (T' & K1 & K2 & K3 & K4 & K5); auto.
      { intros j Hj. apply Hi. right. auto. } { cbn [snd]. intros y Hy. apply Is, G4, Ir, Hy. }
      { cbn [snd]. assert (Q : NoDup (cid x :: map cid tmp')) by (eapply Permutation_NoDup; [exact Pr|exact G5]). inversion Q; auto. }
      cbn [fst snd] in *.
      exists ((cx, Some (cid n, length succs, i)) :: T ++ T'). split; [|split; [|split; [auto|split; [auto|]]]].
      + rewrite K1, G1. cbn [map fst]. rewrite map_app, <- app_assoc. reflexivity.
      + rewrite app_comm_cons. apply settled_app; [exact G3|]. cbn [map fst]. rewrite G1 in K2. exact K2.
      + intros j [<- |Hj].
        * exists x, cx. split; auto. split; [left; reflexivity|]. split; auto. intros Y. apply G6; auto.
          apply Succ in Hs. destruct Hs as [f F]. intros C. pose proof F as [_ [F' _]]. rewrite C in F'. destruct F'.
        * destruct (K5 j Hj) as (x' & cm & A1 & A2 & A3). exists x', cm. split; auto. split; auto. right. apply in_or_app. auto. }
  destruct (X (seq 0 (length succs)) (grid1, lr1, tmp) st') as (T & G1 & G2 & G3 & G4 & G5); auto.
  { intros i Hi. apply in_seq in Hi. lia. } { apply incl_refl. }
  cbn [fst snd] in *. exists (mkCell r c (cid n)), T. rewrite G1, Eg, <- app_assoc. split; [reflexivity|]. split; [reflexivity|].
  split; [|split; [exact G3|split; [exact G4|exact Row]]].
  split; [|intros c' p k i [I|I]; [apply (Org c' p k i); left; exact I|eapply G2; eauto]].
  intros T1 c' o' T2 E' S. destruct T1 as [|y T1].
  2: { cbn [app] in E'. injection E' as <- E'. cbn [map fst]. replace (grid ++ mkCell r c (cid n) :: map fst T1) with (grid1 ++ map fst T1) by (rewrite Eg, <- app_assoc; reflexivity).
       eapply G2; eauto. }
  cbn [app] in E'. injection E' as <- <- <-. cbn [map]. rewrite app_nil_r.
  assert (Nn : NoDup (map cid nodes)).
  { unfold nodes. clear - Nt. induction tmp as [|x t IH]; cbn [filter map]; [constructor|]. inversion Nt; subst.
    destruct (smem (cid x) succs); auto. cbn [map]. constructor; auto. intros C. apply H1. apply in_map_iff in C. destruct C as [y [E C]].
    apply filter_In in C. rewrite <- E. apply in_map. tauto. }
  assert (In_ : incl (map cid nodes) succs).
  { intros m Hm. apply in_map_iff in Hm. destruct Hm as [x [<- Hx]]. apply filter_In in Hx. apply smem_In. tauto. }
  assert (Ln : length succs <= length (map cid nodes)).
  { rewrite map_length. destruct (Nat.le_gt_cases (length succs) (length nodes)) as [A|A]; auto. exfalso.
    destruct (G5 (length nodes)) as (x & _ & C & _); [apply in_seq; lia|]. assert (nth_error nodes (length nodes) = None) by (apply nth_error_None; lia). congruence. }
  assert (Ns : NoDup succs) by (eapply NoDup_incl_NoDup; eauto).
  assert (In2 : incl succs (map cid nodes)) by (eapply NoDup_length_incl; eauto).
  assert (El : length (map cid nodes) = length succs) by (pose proof (NoDup_incl_length Nn In_); lia).
  assert (Eo : length succs = length (outgoing_of d (cid n))) by (rewrite <- Eout; eapply rmap_length; eauto).
  exists row, (map cid nodes). cbn [cnid crow]. rewrite El. split; [|split; [|split; [|split; [|split; [|split]]]]].
  - intros f f' m F F'. eapply (rmap_inj _ _ _ _ _ Es Ns f f' m); try (rewrite Eout; apply F || apply F').
    + eapply ref_target; apply F.
    + eapply ref_target; apply F'.
  - exact Eo.
  - exact Nn.
  - intros m. rewrite <- Succ. split; auto.
  - intros ->. cbn in Fi. subst enf. unfold choose_cell in Ec. destruct (cin n) as [|f fs]; [injection Ec; intros; subst; reflexivity|].
    destruct (smem c_join (ccls n)).
    + destruct (rmap _ (f :: fs)); [|discriminate]. cbn [rbind enforced_truthy] in Ec. injection Ec; intros; subst; reflexivity.
    + destruct (flow_ref d f k_source_ref); [|discriminate]. cbn [rbind] in Ec. destruct (gfind _ grid); [|discriminate]. cbn [rbind enforced_given] in Ec.
      injection Ec; intros; subst; reflexivity.
  - intros p k i -> Nj. destruct Fi as [_ [_ [f F]]]. unfold choose_cell in Ec. pose proof F as [_ [F' _]]. rewrite <- Ein in F'.
    destruct (cin n) as [|f0 fs] eqn:Ef; [destruct F'|].
    destruct (smem c_join (ccls n)) eqn:Ej.
    + exfalso. apply Nj. unfold join_node. apply Nat.leb_le. auto.
    + assert (fs = []).
      { symmetry in J. apply Nat.leb_gt in J. rewrite <- Ein in J. destruct fs; auto. cbn in J. lia. }
      subst fs. destruct F' as [-> |[]]. destruct (flow_ref d f k_source_ref) as [p'|] eqn:Ep; [|discriminate]. cbn [rbind] in Ec.
      apply (source_of d f p (cid n)) in Ep; auto. subst p'. destruct (gfind p grid) as [cp|] eqn:Eg'; [|discriminate]. cbn [rbind] in Ec.
      injection Ec; intros; subst. destruct (gfind_ok _ _ _ Eg') as [A B]. exists cp. auto.
  - intros i m E'. assert (Hi : i < length succs) by (rewrite <- El; apply nth_error_Some; congruence).
    destruct (G5 i) as (x & cm & A1 & A2 & A3 & A4); [apply in_seq; lia|]. rewrite nth_error_map, A1 in E'. injection E' as <-. exists cm. auto.
Qed.

Lemma loop_settled : forall rounds fuel st g, grid_loop rounds fuel d st = Ok g ->
  incl (snd st) all -> NoDup (map cid (snd st)) ->
  exists T, g = fst (fst st) ++ map fst T /\ settled (fst (fst st)) T.
Proof using Co.
  induction rounds as [|rounds IH]; intros fuel [[grid lr] tmp] g E Ht Nt; cbn [grid_loop fst snd] in *.
  - destruct tmp; [|discriminate]. inv E. exists []. rewrite app_nil_r. split; auto. apply settled_nil.
  - destruct tmp as [|n tmp]; [inv E; exists []; rewrite app_nil_r; split; auto; apply settled_nil|].
    destruct (place_element fuel d n None (grid, lr, tmp)) as [st'|] eqn:Ep; [|discriminate]. cbn [rbind] in E.
    inversion Nt; subst.
    destruct (place_settled fuel n None (grid, lr, tmp) st' None Ep) as (c & T & G1 & G2 & G3 & G4 & G5 & _); auto.
    { apply Ht. left; auto. } { intros x Hx. apply Ht. right; auto. } { reflexivity. }
    cbn [fst snd] in *. destruct (IH fuel st' g E) as (T' & K1 & K2); auto.
    { intros x Hx. apply Ht. right. auto. }
    exists ((c, None) :: T ++ T'). split.
    + rewrite K1, G1. cbn [map fst]. rewrite map_app, <- app_assoc. reflexivity.
    + rewrite app_comm_cons. apply settled_app; auto. cbn [map fst]. rewrite <- G1. exact K2.
Qed.
End S.
