(** Facts about the structure of block-structured processes (SpecMeasure). *)
From Coq Require Import String List Bool Arith ZArith Lia Permutation.
From Verif Require Import Py PyFacts Nx Rep SpecRep SpecLayout SpecBlocks SpecFlat FlatLines SpecPlan SpecMeasure.
Import ListNotations.
Open Scope string_scope.
Open Scope list_scope.
Open Scope nat_scope.

Section Ind.
Variable P : part -> Prop.
Hypothesis PA : forall n, P (Act n).
Hypothesis PB : forall g j bs, (forall b p, In b bs -> In p (fst b) -> P p) -> P (Block g j bs).
Fixpoint part_induction (p : part) : P p :=
  match p with
  | Act n => PA n
  | Block g j bs => PB g j bs
      ((fix all (bs : list (list part * option string)) : forall b p, In b bs -> In p (fst b) -> P p :=
          match bs with
          | [] => fun b p H => match H with end
          | c :: t => fun b p H => match H with
              | or_introl E => fun I => 
                 (fix inner (ps : list part) : forall p, In p ps -> P p :=
                    match ps with [] => fun p H => match H with end
                    | q :: qs => fun p H => match H with or_introl E => eq_ind q P (part_induction q) p E | or_intror H => inner qs p H end end)
                   (fst c) p (eq_ind_r (fun b => In p (fst b)) I E)
              | or_intror H => all t b p H
              end
          end) bs)
  end.
End Ind.

Definition start (ps : list part) (y : string) : string := match ps with [] => y | p :: _ => first_of p end.
Definition pnodes (ps : list part) : list string := flat_map part_nodes ps.
Definition bnodes (b : branch_t) : list string := pnodes (fst b) ++ stops b.
Lemma block_nodes : forall g j bs, part_nodes (Block g j bs) = g :: j :: flat_map bnodes bs.
Proof. reflexivity. Qed.
(** The flows after the first one. *)
Fixpoint tail_flows (ps : list part) (y : string) : list (string * string) :=
  match ps with [] => [] | p :: qs => inner_flows p ++ (last_of p, start qs y) :: tail_flows qs y end.
Lemma path_tail : forall ps x y, path_flows x ps y = (x, start ps y) :: tail_flows ps y.
Proof. induction ps as [|p qs IH]; intros x y; [reflexivity|]. cbn [path_flows start tail_flows]. rewrite IH. reflexivity. Qed.
Lemma first_in : forall p, In (first_of p) (part_nodes p). Proof. intros [n|g j bs]; left; reflexivity. Qed.
Lemma last_in : forall p, In (last_of p) (part_nodes p). Proof. intros [n|g j bs]; [left|right; left]; reflexivity. Qed.

(** Where flows start and end. *)
Lemma tail_from : forall ps y a b, (forall p, In p ps -> forall a b, In (a, b) (inner_flows p) -> In a (part_nodes p) /\ In b (part_nodes p)) ->
  In (a, b) (tail_flows ps y) -> In a (pnodes ps) /\ (In b (pnodes ps) \/ b = y).
Proof.
  unfold pnodes. induction ps as [|p qs IH]; intros y a b H Hi; [contradiction|]. cbn [tail_flows flat_map] in *.
  apply in_app_or in Hi. destruct Hi as [Hi|[Hi|Hi]].
  - destruct (H p (or_introl eq_refl) a b Hi). split; [|left]; apply in_or_app; left; assumption.
  - injection Hi as <- <-. split; [apply in_or_app; left; apply last_in|]. destruct qs as [|q t]; [right; reflexivity|left]. apply in_or_app. right. cbn [flat_map start]. apply in_or_app. left. apply first_in.
  - destruct (IH y a b (fun p Hp => H p (or_intror Hp)) Hi) as [A B]. split; [apply in_or_app; right; exact A|]. destruct B as [B|B]; [left; apply in_or_app; right; exact B|right; exact B].
Qed.
Lemma inner_from : forall p a b, In (a, b) (inner_flows p) -> In a (part_nodes p) /\ In b (part_nodes p).
Proof.
  refine (part_induction _ _ _).
  - intros n a b [].
  - intros g j bs IH a b H. rewrite inner_block in H. rewrite block_nodes. apply in_flat_map in H. destruct H as (c & Hc & H). rewrite path_tail in H.
    assert (Ic : forall n, In n (bnodes c) -> In n (g :: j :: flat_map bnodes bs)) by (intros n Hn; right; right; apply in_flat_map; eauto).
    assert (Ia : In (arrives j c) (g :: j :: flat_map bnodes bs)).
    { unfold arrives. destruct (snd c) as [e|] eqn:E; [|right; left; reflexivity]. apply Ic. unfold bnodes, stops. rewrite E. apply in_or_app. right. left. reflexivity. }
    assert (Is : In (start (fst c) (arrives j c)) (g :: j :: flat_map bnodes bs)).
    { destruct (fst c) as [|q t] eqn:E; [exact Ia|]. apply Ic. unfold bnodes, pnodes. rewrite E. apply in_or_app. left. cbn [flat_map]. apply in_or_app. left. apply first_in. }
    destruct H as [H|H]; [injection H as <- <-; split; [left; reflexivity|exact Is]|].
    apply tail_from in H; [|intros p Hp; apply (IH c p Hc Hp)]. destruct H as [A B]. split; [apply Ic; apply in_or_app; left; exact A|].
    destruct B as [B| ->]; [apply Ic; apply in_or_app; left; exact B|exact Ia].
Qed.
Lemma tail_ends : forall ps y a b, In (a, b) (tail_flows ps y) -> In a (pnodes ps) /\ (In b (pnodes ps) \/ b = y).
Proof. intros ps y a b H. apply tail_from; [|exact H]. intros p _. apply inner_from. Qed.

Lemma nodup_app : forall A (l l' : list A), NoDup (l ++ l') -> NoDup l /\ NoDup l' /\ forall x, In x l -> ~ In x l'.
Proof.
  intros A. induction l as [|x l IH]; intros l' N; [split; [constructor|split; [exact N|intros ? []]]|]. cbn [app] in N. inversion N as [|? ? Nx Nl]; subst.
  destruct (IH l' Nl) as (A1 & A2 & A3). split; [constructor; [intro H; apply Nx; apply in_or_app; left; exact H|exact A1]|]. split; [exact A2|].
  intros y [<-|Hy] H; [apply Nx; apply in_or_app; right; exact H|exact (A3 y Hy H)].
Qed.
Lemma nodup_join : forall A (l l' : list A), NoDup l -> NoDup l' -> (forall x, In x l -> ~ In x l') -> NoDup (l ++ l').
Proof.
  intros A. induction l as [|x l IH]; intros l' N N' D; [exact N'|]. inversion N as [|? ? Nx Nl]; subst. cbn [app]. constructor.
  - intro H. apply in_app_or in H. destruct H as [H|H]; [exact (Nx H)|exact (D x (or_introl eq_refl) H)].
  - apply IH; auto. intros y Hy. apply D. right. exact Hy.
Qed.
Lemma nodup_flat : forall A B (f : A -> list B) l x, NoDup (flat_map f l) -> In x l -> NoDup (f x).
Proof.
  intros A B f l x. induction l as [|y l IH]; intros N H; [contradiction|]. cbn [flat_map] in N. destruct (nodup_app _ _ _ N) as (N1 & N2 & _).
  destruct H as [<-|H]; auto.
Qed.
(** An element of two of the lists: they are at the same place. *)
Lemma flat_same : forall A B (f : A -> list B) l x y n, NoDup (flat_map f l) -> In x l -> In y l -> In n (f x) -> In n (f y) -> x = y.
Proof.
  intros A B f. induction l as [|z l IH]; intros x y n N Hx Hy Nx Ny; [contradiction|]. cbn [flat_map] in N. destruct (nodup_app _ _ _ N) as (N1 & N2 & N3).
  assert (L : forall w, In w l -> In n (f w) -> In n (flat_map f l)) by (intros w Hw Hn; apply in_flat_map; eauto).
  destruct Hx as [<-|Hx], Hy as [<-|Hy]; [reflexivity| | |].
  - exfalso. exact (N3 n Nx (L y Hy Ny)).
  - exfalso. exact (N3 n Ny (L x Hx Nx)).
  - exact (IH x y n N2 Hx Hy Nx Ny).
Qed.

(** * Who follows whom *)
Section Follow.
Variable R : string -> string -> Prop.
Definition one_out (x m : string) : Prop := forall n, R x n <-> n = m.
Definition no_out (x : string) : Prop := forall n, ~ R x n.
Inductive follow : part -> Prop :=
| follow_act : forall n, follow (Act n)
| follow_block : forall g j bs, (forall m, R g m <-> exists b, In b bs /\ m = start (fst b) (arrives j b)) ->
    (forall b, In b bs -> follow_all (fst b) (arrives j b)) -> (forall b e, In b bs -> snd b = Some e -> no_out e) -> follow (Block g j bs)
with follow_all : list part -> string -> Prop :=
| follow_nil : forall y, follow_all [] y
| follow_cons : forall p qs y, follow p -> one_out (last_of p) (start qs y) -> follow_all qs y -> follow_all (p :: qs) y.

Lemma last_not_inner : forall p b, NoDup (part_nodes p) -> ~ In (last_of p, b) (inner_flows p).
Proof.
  intros [n|g j bs] b N H; [exact H|]. rewrite inner_block in H. rewrite block_nodes in N. cbn [last_of] in H. apply in_flat_map in H. destruct H as (c & Hc & H). rewrite path_tail in H.
  inversion N as [|? ? Ng N1]; subst. inversion N1 as [|? ? Nj N2]; subst.
  destruct H as [H|H]; [injection H as H _; apply Ng; left; symmetry; exact H|].
  apply tail_ends in H. destruct H as [A _]. apply Nj. apply in_flat_map. exists c. split; [exact Hc|]. apply in_or_app. left. exact A.
Qed.
(** A stop is the source of no flow. *)
Lemma stop_no_flow : forall g j bs b e m, NoDup (part_nodes (Block g j bs)) -> In b bs -> snd b = Some e -> ~ In (e, m) (inner_flows (Block g j bs)).
Proof.
  intros g j bs b e m N Hb E H. rewrite inner_block in H. rewrite block_nodes in N. apply in_flat_map in H. destruct H as (c & Hc & H). rewrite path_tail in H.
  inversion N as [|? ? Ng N1]; subst. inversion N1 as [|? ? Nj N2]; subst.
  assert (Ie : In e (bnodes b)) by (unfold bnodes, stops; rewrite E; apply in_or_app; right; left; reflexivity).
  destruct H as [H|H].
  - injection H as H _. apply Ng. right. apply in_flat_map. exists b. rewrite H. auto.
  - apply tail_ends in H. destruct H as [A _]. assert (c = b) by (apply (flat_same _ _ bnodes bs c b e N2 Hc Hb); [apply in_or_app; left; exact A|exact Ie]). subst c.
    pose proof (nodup_flat _ _ bnodes bs b N2 Hb) as Nb. unfold bnodes, stops in Nb. rewrite E in Nb. destruct (nodup_app _ _ _ Nb) as (_ & _ & D). apply (D e A). left. reflexivity.
Qed.

Lemma follow_seq : forall ps y, NoDup (pnodes ps) ->
  (forall p, In p ps -> NoDup (part_nodes p) -> (forall a b, In a (part_nodes p) -> a <> last_of p -> (R a b <-> In (a, b) (inner_flows p))) -> follow p) ->
  (forall a b, In a (pnodes ps) -> (R a b <-> In (a, b) (tail_flows ps y))) -> follow_all ps y.
Proof.
  unfold pnodes. induction ps as [|p qs IH]; intros y N Hp H; [constructor|]. cbn [flat_map tail_flows] in *. destruct (nodup_app _ _ _ N) as (N1 & N2 & N3).
  constructor.
  - apply Hp; [left; reflexivity|exact N1|]. intros a b Ha Hl. rewrite (H a b (in_or_app _ _ _ (or_introl Ha))). split; [|intro Hi; apply in_or_app; left; exact Hi].
    intro Hi. apply in_app_or in Hi. destruct Hi as [Hi|[Hi|Hi]]; [exact Hi|injection Hi as Hi _; congruence|]. apply tail_ends in Hi. destruct Hi as [A _]. exfalso. exact (N3 a Ha A).
  - intro n. rewrite (H (last_of p) n (in_or_app _ _ _ (or_introl (last_in p)))). split.
    + intro Hi. apply in_app_or in Hi. destruct Hi as [Hi|[Hi|Hi]]; [exfalso; exact (last_not_inner p n N1 Hi)|injection Hi as Hi; congruence|]. apply tail_ends in Hi. destruct Hi as [A _]. exfalso. exact (N3 _ (last_in p) A).
    + intros ->. apply in_or_app. right. left. reflexivity.
  - apply IH; [exact N2|intros q Hq; apply Hp; right; exact Hq|]. intros a b Ha. rewrite (H a b (in_or_app _ _ _ (or_intror Ha))). split.
    + intro Hi. apply in_app_or in Hi. destruct Hi as [Hi|[Hi|Hi]]; [exfalso|exfalso|exact Hi].
      * apply inner_from in Hi. destruct Hi as [A _]. exact (N3 a A Ha).
      * injection Hi as Hi _. apply (N3 a); [rewrite <- Hi; apply last_in|exact Ha].
    + intro Hi. apply in_or_app. right. right. exact Hi.
Qed.
Lemma follow_part : forall p, NoDup (part_nodes p) -> (forall a b, In a (part_nodes p) -> a <> last_of p -> (R a b <-> In (a, b) (inner_flows p))) -> follow p.
Proof.
  refine (part_induction _ _ _); [intros; constructor|]. intros g j bs IH N H. pose proof N as N0. rewrite block_nodes in N, H. cbn [last_of] in H.
  inversion N as [|? ? Ng N1]; subst. inversion N1 as [|? ? Nj N2]; subst.
  assert (In_b : forall b n, In b bs -> In n (bnodes b) -> In n (flat_map bnodes bs)) by (intros b n Hb Hn; apply in_flat_map; eauto).
  constructor.
  - intro m. rewrite (H g m) by (try (left; reflexivity); intros ->; apply Ng; left; reflexivity). rewrite inner_block. split.
    + intro Hi. apply in_flat_map in Hi. destruct Hi as (b & Hb & Hi). rewrite path_tail in Hi. exists b. split; [exact Hb|]. destruct Hi as [Hi|Hi]; [congruence|]. exfalso. apply tail_ends in Hi. destruct Hi as [A _].
      apply Ng. right. apply (In_b b); [exact Hb|]. apply in_or_app. left. exact A.
    + intros (b & Hb & ->). apply in_flat_map. exists b. split; [exact Hb|]. rewrite path_tail. left. reflexivity.
  - intros b Hb. pose proof (nodup_flat _ _ bnodes bs b N2 Hb) as Nb. destruct (nodup_app _ _ _ Nb) as (Nb1 & _ & _). apply follow_seq; [exact Nb1|intros p Hp; apply (IH b p Hb Hp)|].
    intros a c Ha. assert (Iab : In a (bnodes b)) by (apply in_or_app; left; exact Ha). rewrite (H a c).
    + rewrite inner_block. split.
      * intro Hi. apply in_flat_map in Hi. destruct Hi as (b' & Hb' & Hi). rewrite path_tail in Hi. destruct Hi as [Hi|Hi].
        -- exfalso. injection Hi as Hi _. apply Ng. right. rewrite Hi. exact (In_b b a Hb Iab).
        -- assert (b' = b); [|subst b'; exact Hi]. apply (flat_same _ _ bnodes bs b' b a N2 Hb' Hb); [|exact Iab]. apply tail_ends in Hi. apply in_or_app. left. apply Hi.
      * intro Hi. apply in_flat_map. exists b. split; [exact Hb|]. rewrite path_tail. right. exact Hi.
    + right. right. exact (In_b b a Hb Iab).
    + intros ->. apply Nj. exact (In_b b j Hb Iab).
  - intros b e Hb E m Hr. assert (Ie : In e (bnodes b)) by (unfold bnodes, stops; rewrite E; apply in_or_app; right; left; reflexivity).
    apply (H e m) in Hr; [exact (stop_no_flow g j bs b e m N0 Hb E Hr)|right; right; exact (In_b b e Hb Ie)|]. intros ->. apply Nj. exact (In_b b j Hb Ie).
Qed.
Lemma follow_process : forall s ps e, NoDup (all_nodes s ps e) -> (forall x y, R x y <-> In (x, y) (path_flows s ps e)) ->
  one_out s (start ps e) /\ follow_all ps e /\ no_out e.
Proof.
  intros s ps e N H. unfold all_nodes in N. fold (pnodes ps) in N. inversion N as [|? ? Ns N1]; subst. destruct (nodup_app _ _ _ N1) as (N2 & _ & N3).
  assert (Ne : ~ In e (pnodes ps)) by (intro X; apply (N3 e X); left; reflexivity).
  split; [|split].
  - intro n. rewrite H, path_tail. split; [|intros ->; left; reflexivity]. intros [Hi|Hi]; [congruence|]. exfalso. apply tail_ends in Hi. apply Ns. apply in_or_app. left. apply Hi.
  - apply follow_seq; [exact N2|intros p _; apply follow_part|]. intros a b Ha. rewrite H, path_tail. split; [|intro Hi; right; exact Hi]. intros [Hi|Hi]; [|exact Hi]. exfalso. injection Hi as Hi _. apply Ns. apply in_or_app. left. rewrite Hi. exact Ha.
  - intros n Hr. apply H in Hr. rewrite path_tail in Hr. destruct Hr as [Hi|Hi]; [injection Hi as Hi _; apply Ns; apply in_or_app; right; left; symmetry; exact Hi|]. apply tail_ends in Hi. apply Ne. apply Hi.
Qed.

(** * The best ways *)
Variable w : string -> nat.
Fixpoint steps (x : string) (l : list string) : Prop := match l with [] => True | m :: t => R x m /\ steps m t end.
Definition total (l : list string) : nat := list_sum (map w l).
Definition bound (x : string) (k : nat) : Prop := forall l, steps x l -> total (x :: l) <= k.
Definition attained (x : string) (k : nat) : Prop := exists l, steps x l /\ total (x :: l) = k /\ no_out (last (x :: l) x).
Definition best (x : string) (k : nat) : Prop := bound x k /\ attained x k.

Lemma last_indep : forall A (l : list A) x y z, last (x :: l) y = last (x :: l) z.
Proof. intros A. induction l as [|a l IH]; intros x y z; [reflexivity|]. change (last (a :: l) y = last (a :: l) z). apply IH. Qed.
Lemma best_end : forall e, no_out e -> best e (w e).
Proof.
  intros e H. split.
  - intros [|m t] S; [unfold total; cbn; lia|]. destruct S as [S _]. exfalso. exact (H m S).
  - exists []. split; [exact I|]. split; [unfold total; cbn; lia|exact H].
Qed.
Lemma best_one : forall x m k, one_out x m -> best m k -> best x (w x + k).
Proof.
  intros x m k O [B (l & S & T & E)]. split.
  - intros [|n t] S'; [pose proof (B [] I) as Q; unfold total in *; cbn in *; lia|]. destruct S' as [S1 S2]. apply O in S1. subst n. specialize (B t S2). unfold total in *. cbn [map list_sum fold_right] in *. lia.
  - exists (m :: l). split; [split; [apply O; reflexivity|exact S]|]. split; [unfold total in *; cbn [map list_sum fold_right] in *; lia|]. change (no_out (last (m :: l) x)). rewrite (last_indep _ l m x m). exact E.
Qed.
Lemma max_in : forall l, l <> [] -> In (list_max l) l.
Proof.
  induction l as [|a l IH]; [congruence|]. intros _. destruct l as [|b t]; [left; cbn; lia|]. change (In (Nat.max a (list_max (b :: t))) (a :: b :: t)).
  destruct (Nat.max_spec a (list_max (b :: t))) as [[_ E]|[_ E]]; rewrite E; [right; apply IH; discriminate|left; reflexivity].
Qed.
Lemma best_many : forall A (bs : list A) (f : A -> string) (v : A -> nat) g, bs <> [] -> (forall m, R g m <-> exists b, In b bs /\ m = f b) ->
  (forall b, In b bs -> best (f b) (v b)) -> best g (w g + list_max (map v bs)).
Proof.
  intros A bs f v g Ne O B. split.
  - intros [|n t] S; [unfold total; cbn; lia|]. destruct S as [S1 S2]. apply O in S1. destruct S1 as (b & Hb & ->). destruct (B b Hb) as [Bb _]. specialize (Bb t S2).
    assert (v b <= list_max (map v bs)) by (pose proof (proj1 (list_max_le (map v bs) _) (le_n _)) as Q; rewrite Forall_forall in Q; apply Q; apply in_map; exact Hb).
    unfold total in *. cbn [map list_sum fold_right] in *. lia.
  - assert (M : In (list_max (map v bs)) (map v bs)) by (apply max_in; destruct bs; [congruence|discriminate]). apply in_map_iff in M. destruct M as (b & Ev & Hb). destruct (B b Hb) as [_ (l & S & T & E)].
    exists (f b :: l). split; [split; [apply O; eauto|exact S]|]. rewrite <- Ev. split; [unfold total in *; cbn [map list_sum fold_right] in *; lia|]. change (no_out (last (f b :: l) g)). rewrite (last_indep _ l _ g (f b)). exact E.
Qed.

Variables act gate stop : nat.
Definition weighs (p : part) : Prop :=
  (forall n, In n (part_acts p) -> w n = act) /\ (forall n, In n (part_gates p) -> w n = gate) /\ (forall n, In n (part_ends p) -> w n = stop).
Lemma best_seq : forall ps y k, (forall p, In p ps -> follow p -> forall m k, one_out (last_of p) m -> best m k -> best (first_of p) (reach act gate stop p k)) ->
  follow_all ps y -> best y k -> best (start ps y) (reach_all act gate stop ps k).
Proof.
  unfold reach_all. induction ps as [|p qs IH]; intros y k H F B; [exact B|]. inversion F as [|? ? ? F1 F2 F3]; subst. cbn [start fold_right].
  apply (H p (or_introl eq_refl) F1 (start qs y)); [exact F2|]. apply IH; auto. intros q Hq. apply H. right. exact Hq.
Qed.
Lemma best_part : forall p, sound p -> weighs p -> follow p -> forall m k, one_out (last_of p) m -> best m k -> best (first_of p) (reach act gate stop p k).
Proof.
  refine (part_induction _ _ _).
  - intros n _ (W & _ & _) _ m k O B. cbn [first_of last_of reach] in *. rewrite <- (W n) by (left; reflexivity). apply (best_one n m); assumption.
  - intros g j bs IH So (W1 & W2 & W3) Fo m k O B. inversion Fo as [|? ? ? F1 F2 F3]; subst. inversion So as [|? ? ? S1 S2 S3]; subst. cbn [first_of last_of reach part_acts part_gates part_ends] in *.
    rewrite <- (W2 g) at 1 by (left; reflexivity). apply (best_many branch_t bs (fun b => start (fst b) (arrives j b)) _ g).
    + intros ->. cbn in S1. lia.
    + exact F1.
    + intros b Hb. change (best (start (fst b) (arrives j b)) (reach_all act gate stop (fst b) (match snd b with Some _ => stop | None => gate + k end))).
      apply best_seq; [|exact (F2 b Hb)|].
      * intros p Hp Fp. apply (IH b p Hb Hp); [exact (S3 b p Hb Hp)| |exact Fp]. split; [|split]; intros n Hn.
        -- apply W1. apply in_flat_map. exists b. split; [exact Hb|]. apply in_flat_map. eauto.
        -- apply W2. right. right. apply in_flat_map. exists b. split; [exact Hb|]. apply in_flat_map. eauto.
        -- apply W3. apply in_flat_map. exists b. split; [exact Hb|]. apply in_or_app. left. apply in_flat_map. eauto.
      * unfold arrives. destruct (snd b) as [e|] eqn:E.
        -- rewrite <- (W3 e); [apply best_end; exact (F3 b e Hb E)|]. apply in_flat_map. exists b. split; [exact Hb|]. apply in_or_app. right. rewrite E. left. reflexivity.
        -- rewrite <- (W2 j) by (right; left; reflexivity). apply (best_one j m); assumption.
Qed.
Lemma best_process : forall s ps e, NoDup (all_nodes s ps e) -> (forall x y, R x y <-> In (x, y) (path_flows s ps e)) -> (forall p, In p ps -> sound p) -> (forall p, In p ps -> weighs p) ->
  best s (w s + reach_all act gate stop ps (w e)).
Proof.
  intros s ps e N H So We. destruct (follow_process s ps e N H) as (F1 & F2 & F3). apply (best_one s (start ps e)); [exact F1|]. apply best_seq; [|exact F2|apply best_end; exact F3].
  intros p Hp Fp. apply best_part; auto.
Qed.
End Follow.

(** * Ways do not come back *)
Section Loops.
Variable R : string -> string -> Prop.
Lemma steps_app : forall l1 x l2, steps R x l1 -> steps R (last (x :: l1) x) l2 -> steps R x (l1 ++ l2).
Proof.
  induction l1 as [|m t IH]; intros x l2 S1 S2; [exact S2|]. destruct S1 as [A B]. cbn [app steps]. split; [exact A|]. apply IH; [exact B|]. change (steps R (last (m :: t) x) l2) in S2. rewrite (last_indep _ t m m x). exact S2.
Qed.
Fixpoint again (k : nat) (l : list string) : list string := match k with O => [] | S k' => l ++ again k' l end.
Lemma again_length : forall k l, length (again k l) = k * length l.
Proof. induction k as [|k IH]; intro l; [reflexivity|]. cbn [again]. rewrite app_length, IH. reflexivity. Qed.
Lemma again_steps : forall k x l, steps R x (l ++ [x]) -> steps R x (again k (l ++ [x])).
Proof.
  induction k as [|k IH]; intros x l S; [exact I|]. cbn [again]. apply steps_app; [exact S|]. assert (E : last (x :: l ++ [x]) x = x) by (change (last ((x :: l) ++ [x]) x = x); apply last_last). rewrite E. apply IH. exact S.
Qed.
Lemma steps_prefix : forall l1 x l2, steps R x (l1 ++ l2) -> steps R x l1.
Proof. induction l1 as [|m t IH]; intros x l2 S; [exact I|]. destruct S as [A B]. split; [exact A|exact (IH m l2 B)]. Qed.
Lemma no_return : forall l x k, (forall l, steps R x l -> length l <= k) -> steps R x l -> NoDup (x :: l).
Proof.
  induction l as [|m t IH]; intros x k B S; [constructor; [intros []|constructor]|]. constructor.
  - intro H. apply in_split in H. destruct H as (l1 & l2 & E). rewrite E in S.
    assert (S1 : steps R x (l1 ++ [x])) by (apply (steps_prefix _ x l2); rewrite <- app_assoc; exact S).
    specialize (B _ (again_steps (Datatypes.S k) x l1 S1)). rewrite again_length, app_length in B. cbn [length] in B. nia.
  - destruct S as [A S]. apply (IH m k); [|exact S]. intros l' S'. specialize (B (m :: l') (conj A S')). cbn [length] in B. lia.
Qed.
End Loops.

(** * Entry *)
Lemma tail_entered : forall ps y n, (forall p, In p ps -> forall n, In n (part_nodes p) -> n = first_of p \/ exists x, In (x, n) (inner_flows p)) ->
  In n (pnodes ps) -> n = start ps y \/ exists x, In (x, n) (tail_flows ps y).
Proof.
  unfold pnodes. induction ps as [|p qs IH]; intros y n H Hn; [contradiction|]. cbn [flat_map start tail_flows] in *. apply in_app_or in Hn. destruct Hn as [Hn|Hn].
  - destruct (H p (or_introl eq_refl) n Hn) as [E|[x Hx]]; [left; exact E|right]. exists x. apply in_or_app. left. exact Hx.
  - right. destruct (IH y n (fun q Hq => H q (or_intror Hq)) Hn) as [E|[x Hx]].
    + exists (last_of p). apply in_or_app. right. left. rewrite E. reflexivity.
    + exists x. apply in_or_app. right. right. exact Hx.
Qed.
Lemma end_entered : forall ps x y, exists z, In (z, y) (path_flows x ps y).
Proof. induction ps as [|p qs IH]; intros x y; [exists x; left; reflexivity|]. destruct (IH (last_of p) y) as [z Hz]. exists z. cbn [path_flows]. right. apply in_or_app. right. exact Hz. Qed.
Lemma part_entered : forall p, sound p -> forall n, In n (part_nodes p) -> n = first_of p \/ exists x, In (x, n) (inner_flows p).
Proof.
  refine (part_induction _ _ _).
  - intros n _ m [->|[]]. left. reflexivity.
  - intros g j bs IH S n Hn. inversion S as [|? ? ? S1 S2 S3]; subst. rewrite block_nodes in Hn. rewrite inner_block. destruct Hn as [<-|Hn]; [left; reflexivity|right].
    assert (X : forall b, In b bs -> forall x, In (x, n) (path_flows g (fst b) (arrives j b)) -> exists x, In (x, n) (flat_map (fun b => path_flows g (fst b) (arrives j b)) bs))
      by (intros b Hb x Hx; exists x; apply in_flat_map; eauto).
    destruct Hn as [<-|Hn].
    + unfold meeting in S1. destruct (filter meets bs) as [|b t] eqn:E; [cbn in S1; lia|]. assert (Hb : In b (filter meets bs)) by (rewrite E; left; reflexivity). apply filter_In in Hb. destruct Hb as [Hb M].
      destruct (end_entered (fst b) g (arrives j b)) as [z Hz]. apply (X b Hb z). unfold arrives, meets in *. destruct (snd b); [discriminate|exact Hz].
    + apply in_flat_map in Hn. destruct Hn as (b & Hb & Hn). apply in_app_or in Hn. destruct Hn as [Hn|Hn].
      * apply (tail_entered (fst b) (arrives j b)) in Hn; [|intros p Hp; apply (IH b p Hb Hp); exact (S3 b p Hb Hp)]. destruct Hn as [->|[x Hx]].
        -- apply (X b Hb g). rewrite path_tail. left. reflexivity.
        -- apply (X b Hb x). rewrite path_tail. right. exact Hx.
      * unfold stops in Hn. destruct (snd b) as [e|] eqn:E; [|contradiction]. destruct Hn as [<-|[]]. destruct (end_entered (fst b) g (arrives j b)) as [z Hz]. apply (X b Hb z). unfold arrives in *. rewrite E in *. exact Hz.
Qed.
Lemma process_entered : forall s ps e n, (forall p, In p ps -> sound p) -> NoDup (all_nodes s ps e) -> In n (all_nodes s ps e) -> (n = s <-> forall x, ~ In (x, n) (path_flows s ps e)).
Proof.
  intros s ps e n So N Hn. unfold all_nodes in *. fold (pnodes ps) in *. inversion N as [|? ? Ns N1]; subst. split.
  - intros -> x H. rewrite path_tail in H. destruct H as [H|H].
    + injection H as _ H. apply Ns. rewrite <- H. destruct ps as [|p qs]; [left; reflexivity|]. apply in_or_app. left. cbn [pnodes flat_map start]. apply in_or_app. left. apply first_in.
    + apply tail_ends in H. destruct H as [_ [H| ->]]; apply Ns; apply in_or_app; [left; exact H|right; left; reflexivity].
  - intro H. destruct Hn as [<-|Hn]; [reflexivity|exfalso]. apply in_app_or in Hn. destruct Hn as [Hn|[<-|[]]].
    + apply (tail_entered ps e) in Hn; [|intros p Hp; apply part_entered; auto]. destruct Hn as [->|[x Hx]]; [apply (H s); rewrite path_tail; left; reflexivity|apply (H x); rewrite path_tail; right; exact Hx].
    + destruct (end_entered ps s e) as [z Hz]. exact (H z Hz).
Qed.

(** * No flow twice *)
Lemma tail_nodup : forall ps y, NoDup (pnodes ps) -> (forall p, In p ps -> NoDup (inner_flows p)) -> NoDup (tail_flows ps y).
Proof.
  unfold pnodes. induction ps as [|p qs IH]; intros y N H; [constructor|]. cbn [tail_flows flat_map] in *. destruct (nodup_app _ _ _ N) as (N1 & N2 & N3).
  apply nodup_join; [apply H; left; reflexivity| |].
  - constructor; [|apply IH; [exact N2|intros q Hq; apply H; right; exact Hq]]. intro Hi. apply tail_ends in Hi. exact (N3 _ (last_in p) (proj1 Hi)).
  - intros [a b] Ha [Hi|Hi]; [injection Hi as <- <-; exact (last_not_inner p _ N1 Ha)|]. apply tail_ends in Hi. apply inner_from in Ha. exact (N3 a (proj1 Ha) (proj1 Hi)).
Qed.
Lemma start_in : forall j b, bare b = false -> In (start (fst b) (arrives j b)) (bnodes b).
Proof.
  intros j [ps st] H. unfold bare, meets, bnodes, stops, arrives in *. cbn [fst snd] in *. destruct ps as [|p t]; [destruct st; [left; reflexivity|discriminate]|]. cbn [pnodes flat_map start]. apply in_or_app. left. apply in_or_app. left. apply first_in.
Qed.
Lemma start_bare : forall j b, bare b = true -> start (fst b) (arrives j b) = j.
Proof. intros j [ps st] H. unfold bare, meets, arrives in *. cbn [fst snd] in *. destruct ps; [destruct st; [discriminate|reflexivity]|destruct st; discriminate]. Qed.
Lemma branches_nodup : forall g j bs, NoDup (g :: j :: flat_map bnodes bs) -> length (filter bare bs) <= 1 -> (forall b, In b bs -> NoDup (tail_flows (fst b) (arrives j b))) ->
  NoDup (flat_map (fun b => path_flows g (fst b) (arrives j b)) bs).
Proof.
  intros g j. induction bs as [|b t IH]; intros N L H; [constructor|]. cbn [flat_map] in *.
  inversion N as [|? ? Ng N1]; subst. inversion N1 as [|? ? Nj N2]; subst. destruct (nodup_app _ _ _ N2) as (N3 & N4 & N5).
  apply nodup_join.
  - rewrite path_tail. constructor; [|apply H; left; reflexivity]. intro Hi. apply tail_ends in Hi. apply Ng. right. apply in_or_app. left. apply in_or_app. left. apply Hi.
  - apply IH; [|cbn [filter] in L; destruct (bare b); cbn [length] in L; lia|intros c Hc; apply H; right; exact Hc].
    constructor; [intros [X|X]; apply Ng; [left; exact X|right; apply in_or_app; right; exact X]|]. constructor; [intro X; apply Nj; apply in_or_app; right; exact X|exact N4].
  - intros [a m] H1 H2. apply in_flat_map in H2. destruct H2 as (c & Hc & H2). rewrite path_tail in H1, H2.
    assert (Ic : forall n, In n (bnodes c) -> In n (flat_map bnodes t)) by (intros n Hn; apply in_flat_map; eauto).
    destruct H1 as [H1|H1], H2 as [H2|H2].
    + injection H1 as <- <-. injection H2 as E. destruct (bare b) eqn:Bb, (bare c) eqn:Bc.
      * assert (Hx : In c (filter bare t)) by (apply filter_In; auto). cbn [filter] in L. rewrite Bb in L. destruct (filter bare t); [contradiction|cbn [length] in L; lia].
      * rewrite (start_bare j b Bb) in E. apply Nj. apply in_or_app. right. apply Ic. rewrite <- E. apply start_in. exact Bc.
      * rewrite (start_bare j c Bc) in E. apply Nj. apply in_or_app. left. rewrite E. apply start_in. exact Bb.
      * apply (N5 (start (fst b) (arrives j b))); [apply start_in; exact Bb|]. apply Ic. rewrite <- E. apply start_in. exact Bc.
    + injection H1 as <- _. apply tail_ends in H2. apply Ng. right. apply in_or_app. right. apply Ic. apply in_or_app. left. apply H2.
    + injection H2 as <- _. apply tail_ends in H1. apply Ng. right. apply in_or_app. left. apply in_or_app. left. apply H1.
    + apply tail_ends in H1. apply tail_ends in H2. apply (N5 a); [apply in_or_app; left; apply H1|]. apply Ic. apply in_or_app. left. apply H2.
Qed.
Lemma inner_nodup : forall p, sound p -> NoDup (part_nodes p) -> NoDup (inner_flows p).
Proof.
  refine (part_induction _ _ _); [intros; constructor|]. intros g j bs IH S N. inversion S as [|? ? ? S1 S2 S3]; subst. rewrite inner_block. rewrite block_nodes in N. apply branches_nodup; [exact N|exact S2|].
  intros b Hb. inversion N as [|? ? _ N1]; subst. inversion N1 as [|? ? _ N2]; subst. destruct (nodup_app _ _ _ (nodup_flat _ _ bnodes bs b N2 Hb)) as (N3 & _ & _).
  apply tail_nodup; [exact N3|]. intros p Hp. apply (IH b p Hb Hp); [exact (S3 b p Hb Hp)|]. exact (nodup_flat _ _ _ _ p N3 Hp).
Qed.
Lemma process_nodup : forall s ps e, (forall p, In p ps -> sound p) -> NoDup (all_nodes s ps e) -> NoDup (path_flows s ps e).
Proof.
  intros s ps e So N. unfold all_nodes in N. fold (pnodes ps) in N. inversion N as [|? ? Ns N1]; subst. destruct (nodup_app _ _ _ N1) as (N2 & _ & _). rewrite path_tail. constructor.
  - intro Hi. apply tail_ends in Hi. apply Ns. apply in_or_app. left. apply Hi.
  - apply tail_nodup; [exact N2|]. intros p Hp. apply inner_nodup; [auto|]. exact (nodup_flat _ _ _ _ p N2 Hp).
Qed.

(** * Counting *)
Lemma sum_ext : forall A (f g : A -> nat) l, (forall x, In x l -> f x = g x) -> list_sum (map f l) = list_sum (map g l).
Proof. intros A f g. induction l as [|x l IH]; intro H; [reflexivity|]. cbn [map list_sum fold_right]. rewrite (H x (or_introl eq_refl)). f_equal. apply IH. intros y Hy. apply H. right. exact Hy. Qed.
Lemma sum_plus : forall A (f g : A -> nat) l, list_sum (map (fun x => f x + g x) l) = list_sum (map f l) + list_sum (map g l).
Proof. intros A f g. induction l as [|x l IH]; [reflexivity|]. cbn [map]. change (f x + g x + list_sum (map (fun x => f x + g x) l) = (f x + list_sum (map f l)) + (g x + list_sum (map g l))). lia. Qed.
Lemma flat_length : forall A B (f : A -> list B) l, length (flat_map f l) = list_sum (map (fun x => length (f x)) l).
Proof. intros A B f. induction l as [|x l IH]; [reflexivity|]. cbn [flat_map map]. rewrite app_length, IH. reflexivity. Qed.
Lemma tail_length : forall ps y, length (tail_flows ps y) = list_sum (map (fun p => 1 + length (inner_flows p)) ps).
Proof. induction ps as [|p qs IH]; intro y; [reflexivity|]. cbn [tail_flows map]. rewrite app_length. cbn [length]. rewrite IH. change (length (inner_flows p) + S (list_sum (map (fun p => 1 + length (inner_flows p)) qs)) = (1 + length (inner_flows p)) + list_sum (map (fun p => 1 + length (inner_flows p)) qs)). lia. Qed.
Lemma stops_count : forall bs : list branch_t, list_sum (map (fun b => length (stops b)) bs) + meeting bs = length bs.
Proof.
  unfold meeting. induction bs as [|b t IH]; [reflexivity|]. cbn [map filter length]. unfold stops at 1, meets at 1. destruct (snd b); cbn [length]; change (list_sum (?a :: ?l)) with (a + list_sum l); lia.
Qed.
Lemma part_flow_count : forall p, sound p -> 1 + length (inner_flows p) = length (part_nodes p) + extra p.
Proof.
  refine (part_induction _ _ _); [reflexivity|]. intros g j bs IH S. inversion S as [|? ? ? S1 S2 S3]; subst. rewrite inner_block, block_nodes. cbn [extra length]. rewrite !flat_length.
  assert (E : list_sum (map (fun b => length (path_flows g (fst b) (arrives j b))) bs) = list_sum (map (fun b : branch_t => 1 + (length (pnodes (fst b)) + list_sum (map extra (fst b)))) bs)).
  { apply sum_ext. intros b Hb. rewrite path_tail. cbn [length]. rewrite tail_length. unfold pnodes. rewrite flat_length, <- sum_plus. cbn [Nat.add]. f_equal. apply sum_ext. intros p Hp. apply (IH b p Hb Hp). exact (S3 b p Hb Hp). }
  rewrite E, !sum_plus. assert (E1 : list_sum (map (fun _ : branch_t => 1) bs) = length bs) by (clear; induction bs as [|b t IH]; [reflexivity|]; cbn [map length]; change (1 + list_sum (map (fun _ : branch_t => 1) t) = S (length t)); lia).
  assert (E2 : list_sum (map (fun x => length (bnodes x)) bs) = list_sum (map (fun b => length (pnodes (fst b))) bs) + list_sum (map (fun b => length (stops b)) bs)).
  { rewrite <- sum_plus. apply sum_ext. intros b _. unfold bnodes. apply app_length. }
  rewrite E1, E2. pose proof (stops_count bs) as Q.
  unfold branch_t in *. lia.
Qed.
Lemma process_flow_count : forall s ps e, (forall p, In p ps -> sound p) -> length (path_flows s ps e) + 1 = length (all_nodes s ps e) + list_sum (map extra ps).
Proof.
  intros s ps e So. rewrite path_tail. unfold all_nodes. cbn [length]. rewrite tail_length, app_length, flat_length. cbn [length].
  rewrite (sum_ext _ _ (fun p => length (part_nodes p) + extra p)) by (intros p Hp; apply part_flow_count; auto). rewrite sum_plus. lia.
Qed.

(** Flow ends at gateways. *)
Section Gates.
Variable gate : string -> bool.
Definition gcount (l : list (string * string)) : nat := length (filter gate (flat_map (fun p => [fst p; snd p]) l)).
Definition one (x : string) : nat := if gate x then 1 else 0.
Lemma gcount_app : forall l l', gcount (l ++ l') = gcount l + gcount l'.
Proof. intros l l'. unfold gcount. rewrite flat_map_app, filter_app, app_length. reflexivity. Qed.
Lemma gcount_cons : forall p l, gcount (p :: l) = one (fst p) + one (snd p) + gcount l.
Proof. intros [x y] l. unfold gcount, one. cbn [flat_map app fst snd filter]. destruct (gate x), (gate y); cbn [length]; lia. Qed.
Lemma path_gcount : forall ps x y, gcount (path_flows x ps y) = one x + one y + list_sum (map (fun p => one (first_of p) + gcount (inner_flows p) + one (last_of p)) ps).
Proof.
  induction ps as [|p qs IH]; intros x y; [cbn [path_flows]; rewrite gcount_cons; cbn; lia|]. cbn [path_flows map]. rewrite gcount_cons, gcount_app, IH. cbn [fst snd].
  change (list_sum (?a :: ?l)) with (a + list_sum l). lia.
Qed.
Definition gates_right (p : part) : Prop :=
  (forall n, In n (part_gates p) -> gate n = true) /\ (forall n, In n (part_acts p) -> gate n = false) /\ (forall n, In n (part_ends p) -> gate n = false).
Lemma part_gcount : forall p, gates_right p -> one (first_of p) + gcount (inner_flows p) + one (last_of p) = gate_ends p.
Proof.
  refine (part_induction _ _ _).
  - intros n (_ & A & _). cbn [first_of last_of inner_flows gate_ends]. unfold one. rewrite (A n) by (left; reflexivity). reflexivity.
  - intros g j bs IH (G & A & E). cbn [first_of last_of]. rewrite inner_block. cbn [part_gates part_acts part_ends] in *.
    assert (Gg : one g = 1) by (unfold one; rewrite (G g) by (left; reflexivity); reflexivity). assert (Gj : one j = 1) by (unfold one; rewrite (G j) by (right; left; reflexivity); reflexivity).
    assert (X : forall t : list branch_t, incl t bs -> gcount (flat_map (fun b => path_flows g (fst b) (arrives j b)) t) = length t + meeting t + list_sum (map (fun b : branch_t => list_sum (map gate_ends (fst b))) t)).
    { induction t as [|b t IHt]; intro I; [reflexivity|]. cbn [flat_map map length]. rewrite gcount_app, IHt by (intros c Hc; apply I; right; exact Hc). rewrite path_gcount, Gg.
      assert (Hb : In b bs) by (apply I; left; reflexivity).
      rewrite (sum_ext _ _ gate_ends).
      - unfold meeting. cbn [filter]. assert (Y : one (arrives j b) = if meets b then 1 else 0).
        { unfold arrives, meets. destruct (snd b) as [z|] eqn:Z; [|exact Gj]. unfold one. rewrite (E z); [reflexivity|]. apply in_flat_map. exists b. split; [exact Hb|]. apply in_or_app. right. rewrite Z. left. reflexivity. }
        rewrite Y. change (list_sum (?a :: ?l)) with (a + list_sum l). destruct (meets b); cbn [length]; lia.
      - intros p Hp. apply (IH b p Hb Hp). split; [|split]; intros n Hn.
        + apply G. right. right. apply in_flat_map. exists b. split; [exact Hb|]. apply in_flat_map. eauto.
        + apply A. apply in_flat_map. exists b. split; [exact Hb|]. apply in_flat_map. eauto.
        + apply E. apply in_flat_map. exists b. split; [exact Hb|]. apply in_or_app. left. apply in_flat_map. eauto. }
    rewrite (X bs (incl_refl bs)), Gg, Gj. cbn [gate_ends]. unfold branch_t. lia.
Qed.
End Gates.

(** The nodes by their kinds. *)
Lemma flat_perm3 : forall A (f a g z : A -> list string) l, (forall x, In x l -> Permutation (f x) (a x ++ g x ++ z x)) ->
  Permutation (flat_map f l) (flat_map a l ++ flat_map g l ++ flat_map z l).
Proof.
  intros A f a g z. induction l as [|x l IH]; intro H; [reflexivity|]. cbn [flat_map]. rewrite (H x (or_introl eq_refl)), (IH (fun y Hy => H y (or_intror Hy))).
  rewrite <- !app_assoc. apply Permutation_app_head. 
  rewrite (Permutation_app_swap_app (z x)), (Permutation_app_swap_app (g x)). apply Permutation_app_head. apply Permutation_app_head. apply Permutation_app_swap_app.
Qed.
Lemma part_kinds : forall p, Permutation (part_nodes p) (part_acts p ++ part_gates p ++ part_ends p).
Proof.
  refine (part_induction _ _ _); [reflexivity|]. intros g j bs IH. rewrite block_nodes. cbn [part_acts part_gates part_ends].
  apply (perm_trans (l' := g :: j :: flat_map (fun b => flat_map part_acts (fst b)) bs ++ flat_map (fun b => flat_map part_gates (fst b)) bs ++ flat_map (fun b : branch_t => flat_map part_ends (fst b) ++ stops b) bs)).
  - do 2 apply perm_skip. apply flat_perm3. intros b Hb. unfold bnodes. rewrite (flat_perm3 _ part_nodes part_acts part_gates part_ends (fst b)) by (intros p Hp; exact (IH b p Hb Hp)). rewrite <- !app_assoc. reflexivity.
  - cbn [app]. rewrite <- !Permutation_middle. reflexivity.
Qed.
Lemma gates_length : forall p, length (part_gates p) = 2 * blocks p.
Proof.
  refine (part_induction _ _ _); [reflexivity|]. intros g j bs IH. cbn [part_gates blocks length]. rewrite flat_length.
  rewrite (sum_ext _ _ (fun b : branch_t => list_sum (map blocks (fst b)) + list_sum (map blocks (fst b)))).
  - rewrite sum_plus. unfold branch_t. lia.
  - intros b Hb. rewrite flat_length, <- sum_plus. apply sum_ext. intros p Hp. rewrite (IH b p Hb Hp). lia.
Qed.
