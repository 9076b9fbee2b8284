(** Every export gives distinct orders of the documented form, and fields that need no
    quoting if the texts of the diagram need none. *)
From Coq Require Import String Ascii List Bool Arith ZArith Lia Permutation.
From Verif Require Import Py PyFacts Consts Nx NxFacts Rep SpecRep RepFacts MetricsFacts Classify SpecLayout ClassifyFacts.
From Verif Require Import CsvRegex CsvImport SpecCsv RegexFacts CsvFacts CsvTable SpecFlow CsvGhost CsvFill CsvExport SpecCsvExport CsvExportFacts CsvChain.
Import ListNotations.
Open Scope string_scope.
Open Scope list_scope.

Definition letter (i : nat) : string := String (ascii_of_nat (97 + i)) "".
Lemma letter_ok : forall i s, ascii_lowercase i = Ok s -> i < 26 /\ s = letter i.
Proof.
  intros i s H. unfold ascii_lowercase in H. destruct (Nat.ltb i 26) eqn:E; inv H. apply Nat.ltb_lt in E. auto.
Qed.
Lemma letter_latin : forall i, i < 26 -> latin (ascii_of_nat (97 + i)) /\ ~ digit (ascii_of_nat (97 + i)).
Proof.
  intros i H. do 26 (destruct i as [|i]; [split; [vm_compute; tauto|vm_compute; intuition discriminate]|]). lia.
Qed.
Lemma letter_inj : forall i j, i < 26 -> j < 26 -> ascii_of_nat (97 + i) = ascii_of_nat (97 + j) -> i = j.
Proof.
  intros i j Hi Hj E. apply (f_equal nat_of_ascii) in E. rewrite !nat_ascii_embedding in E by lia. lia.
Qed.

(** Digits followed by something that is no digit. *)
Lemma digits_split : forall a b r r', all_chars digit a -> all_chars digit b ->
  (forall c t, r = String c t -> ~ digit c) -> (forall c t, r' = String c t -> ~ digit c) ->
  (a ++ r = b ++ r')%string -> a = b /\ r = r'.
Proof.
  induction a as [|x a IH]; intros [|y b] r r' A B R R' E; cbn [append] in E.
  - auto.
  - exfalso. apply (R y (b ++ r')%string E). apply B. left. auto.
  - exfalso. apply (R' x (a ++ r)%string (eq_sym E)). apply A. left. auto.
  - injection E as -> E. destruct (IH b r r') as [-> ->]; auto.
    + intros c H. apply A. right. auto.
    + intros c H. apply B. right. auto.
Qed.

(** [o] belongs to step [k] after [prefix]. *)
Definition no_digit_first (r : string) : Prop := forall c t, r = String c t -> ~ digit c.
Definition at_step (prefix : string) (k : Z) (o : string) : Prop :=
  exists r, o = (prefix ++ zstr k ++ r)%string /\ no_digit_first r.
Lemma at_step_fun : forall p j k o, (0 <= j)%Z -> (0 <= k)%Z -> at_step p j o -> at_step p k o -> j = k.
Proof.
  intros p j k o J K [r [E R]] [r' [E' R']]. rewrite E in E'. apply sapp_inv_head in E'.
  destruct (digits_split (zstr j) (zstr k) r r') as [X _]; auto.
  - apply (proj2 (zstr_number j J)).
  - apply (proj2 (zstr_number k K)).
  - apply zstr_inj. auto.
Qed.
(** [o] belongs to branch [i] of the split at step [k]. *)
Definition in_branch (prefix : string) (k : Z) (i : nat) (o : string) : Prop :=
  exists r, o = (prefix ++ zstr k ++ letter i ++ r)%string.
Lemma in_branch_step : forall p k i o, i < 26 -> in_branch p k i o -> at_step p k o.
Proof.
  intros p k i o Hi [r ->]. exists (letter i ++ r)%string. split; auto. intros c t E. cbn [letter append] in E.
  injection E as <- _. apply letter_latin. auto.
Qed.
Lemma in_branch_fun : forall p k i j o, i < 26 -> j < 26 -> in_branch p k i o -> in_branch p k j o -> i = j.
Proof.
  intros p k i j o Hi Hj [r E] [r' E']. rewrite E in E'. apply sapp_inv_head, sapp_inv_head in E'.
  unfold letter in E'. cbn [append] in E'. injection E' as E' _. apply letter_inj; auto.
Qed.
Lemma in_branch_not_bare : forall p k i o, in_branch p k i o -> o <> (p ++ zstr k)%string.
Proof.
  intros p k i o [r ->] E. assert (X : (zstr k ++ letter i ++ r = zstr k ++ "")%string).
  { rewrite sapp_nil. apply (sapp_inv_head p). exact E. }
  apply sapp_inv_head in X. discriminate.
Qed.

(** Prefixes: numbers and letters. *)
Definition pairs_ok (l : list (string * ascii)) : Prop := forall n c, In (n, c) l -> number n /\ latin c.
Lemma prefix_label : forall l k, pairs_ok l -> (0 <= k)%Z -> label (pairs_text l ++ zstr k)%string.
Proof.
  intros [|p l] k H K; [left; apply zstr_number; auto|]. right. exists (p :: l), (zstr k).
  split; [discriminate|]. split; auto. split; auto. right. apply zstr_number. auto.
Qed.
Lemma pairs_text_snoc : forall l n c, pairs_text (l ++ [(n, c)]) = (pairs_text l ++ n ++ String c "")%string.
Proof.
  induction l as [|[m x] l IH]; intros n c; [reflexivity|]. simpl app. rewrite !pairs_text_cons, IH, !sapp_assoc. reflexivity.
Qed.

(** * Texts *)
Definition plain_val (v : pyval) : Prop := exists s, v = VStr s /\ plain_field s.
Definition plain_texts (d : diagram) : Prop :=
  (forall n a v, In (n, a) (gnodes (dgraph d)) -> dget "node_name" a = Some v -> plain_val v) /\
  (forall t v, In t (get_flows d) -> dget "name" (snd t) = Some v -> v = VNone \/ plain_val v).
Definition plain_row (r : erow) : Prop :=
  plain_val (e_activity r) /\ plain_val (e_condition r) /\ plain_field (e_who r) /\
  plain_field (e_subprocess r) /\ plain_field (e_terminated r).
Lemma is_in_app : forall c a b, is_in c (a ++ b)%string -> is_in c a \/ is_in c b.
Proof.
  induction a as [|x a IH]; intros b H; [auto|]. unfold is_in in *. cbn [append list_ascii_of_string In] in *.
  destruct H as [H|H]; auto. destruct (IH b H); auto.
Qed.
Lemma plain_app : forall a b, plain_field a -> plain_field b -> plain_field (a ++ b)%string.
Proof. intros a b [A1 A2] [B1 B2]. split; intros H; apply is_in_app in H; tauto. Qed.
Ltac plain_lit := split; unfold is_in; cbn [list_ascii_of_string In]; intuition discriminate.
Lemma label_chars : forall s, label s -> plain_field s.
Proof.
  assert (D : forall c, digit c -> c <> ","%char /\ c <> ascii_of_nat 10).
  { intros c H. unfold digit, is_in in H. cbn [list_ascii_of_string In] in H.
    repeat (destruct H as [<- |H]; [split; discriminate|]). contradiction. }
  assert (T : forall c, latin c -> c <> ","%char /\ c <> ascii_of_nat 10).
  { intros c H. unfold latin, is_in in H. cbn [list_ascii_of_string In] in H.
    repeat (destruct H as [<- |H]; [split; discriminate|]). contradiction. }
  assert (N : forall s, number s \/ s = "" -> plain_field s).
  { intros s [[_ H]| ->]; [|split; intros []]. split; intros C; apply H, D in C; tauto. }
  intros s [H|[l [m [_ [P [M ->]]]]]]; [auto|]. apply plain_app; [|apply N; tauto].
  clear M. induction l as [|[n c] l IH]; [split; intros []|]. rewrite pairs_text_cons.
  destruct (P n c (or_introl eq_refl)) as [Hn Hc]. apply plain_app; [apply N; auto|].
  apply (plain_app (String c "") (pairs_text l)); [|apply IH; intros; apply P; right; auto].
  destruct (T c Hc) as [X Y]. split; intros [E|[]]; congruence.
Qed.

(** * The export *)
Record good (prefix : string) (order : Z) (out : list erow) : Prop := mkGood {
  gd_distinct : NoDup (map e_order out);
  gd_step : forall r, In r out -> exists k, (order <= k)%Z /\ at_step prefix k (e_order r);
  gd_label : forall r, In r out -> label (e_order r) }.
Lemma good_nil : forall p k, good p k [].
Proof. intros. split; [constructor|intros r []|intros r []]. Qed.
Lemma good_later : forall p j k out, (j <= k)%Z -> good p k out -> good p j out.
Proof. intros p j k out H [A B C]. split; auto. intros r Hr. destruct (B r Hr) as [x [X Y]]. exists x. split; auto. lia. Qed.
Lemma good_one : forall l k a c w s t, pairs_ok l -> (0 <= k)%Z ->
  good (pairs_text l) k [mkERow (pairs_text l ++ zstr k)%string a c w s t].
Proof.
  intros l k a c w s t P K. split.
  - repeat constructor. intros [].
  - intros r [<- |[]]. exists k. split; [lia|]. exists "". cbn [e_order]. rewrite sapp_nil. split; auto. intros x y E. discriminate.
  - intros r [<- |[]]. cbn [e_order]. apply prefix_label; auto.
Qed.
Lemma NoDup_app_str : forall (a b : list string), NoDup a -> NoDup b -> (forall x, In x a -> In x b -> False) -> NoDup (a ++ b).
Proof.
  induction a as [|x a IH]; intros b A B H; [auto|]. inversion A; subst. cbn [app]. constructor.
  - intros C. apply in_app_iff in C. destruct C as [C|C]; [auto|]. apply (H x); [left; auto|auto].
  - apply IH; auto. intros y Y1 Y2. apply (H y); [right; auto|auto].
Qed.
Lemma good_app : forall p k a b, (0 <= k)%Z -> NoDup (map e_order a) -> (forall r, In r a -> label (e_order r)) ->
  (forall r, In r a -> at_step p k (e_order r)) -> good p (k + 1) b -> good p k (a ++ b).
Proof.
  intros p k a b K A1 A2 A3 [B1 B2 B3]. split.
  - rewrite map_app. apply NoDup_app_str; auto. intros x Hx Hy. apply in_map_iff in Hx, Hy.
    destruct Hx as [r [<- Hr]], Hy as [r' [E Hr']]. destruct (B2 r' Hr') as [j [J1 J2]]. rewrite E in J2.
    pose proof (at_step_fun p k j (e_order r) K ltac:(lia) (A3 r Hr) J2). lia.
  - intros r Hr. apply in_app_iff in Hr. destruct Hr as [Hr|Hr]; [exists k; split; [lia|auto]|].
    destruct (B2 r Hr) as [j [J1 J2]]. exists j. split; auto. lia.
  - intros r Hr. apply in_app_iff in Hr. destruct Hr; auto.
Qed.

Definition node_in (d : diagram) (o : option node_t) : Prop :=
  forall n a, o = Some (n, a) -> In (n, a) (gnodes (dgraph d)).
Lemma target_in : forall d fa o, target_node d fa = Ok o -> node_in d o.
Proof.
  intros d fa o H n a ->. unfold target_node in H. destruct (dgetE k_target_ref fa) as [v|]; [|discriminate]. cbn [rbind] in H.
  destruct v; inv H. unfold get_node_by_id, nodes_view in H1. apply find_some in H1. tauto.
Qed.
Lemma flow_in : forall d f fa, flow_of d f = Ok fa -> exists t, In t (get_flows d) /\ snd t = fa.
Proof.
  intros d f fa H. unfold flow_of, get_flow_by_id in H. induction (get_flows d) as [|e t IH]; [discriminate|]. simpl in H.
  destruct (dgetE k_id (snd e)) as [v|] eqn:E; [|discriminate]. cbn [rbind] in H. destruct (veqs v f).
  - cbn [rbind] in H. inv H. exists e. split; auto. left. auto.
  - destruct (IH H) as [x [X Y]]. exists x. split; auto. right. auto.
Qed.

Lemma rbind_ok : forall A B (r : res A) (f : A -> res B) b, rbind r f = Ok b -> exists a, r = Ok a /\ f a = Ok b.
Proof. intros A B [a|e] f b H; [eauto|discriminate]. Qed.

(** The properties proved of one call. *)
Record exported (d : diagram) (prefix : string) (order : Z) (cond : pyval) (who : string)
  (node : option node_t) (rows : list erow) (res : list erow * option node_t) (out : list erow) : Prop := mkExp {
  ex_rows : fst res = rows ++ out;
  ex_good : good prefix order out;
  ex_node : node_in d node -> node_in d (snd res);
  ex_plain : plain_texts d -> node_in d node -> plain_val cond -> plain_field who -> forall r, In r out -> plain_row r }.

Lemma plain_nil : plain_field "".
Proof. split; intros []. Qed.
Lemma plain_empty : plain_val (VStr "").
Proof. exists "". split; auto. apply plain_nil. Qed.
Lemma str_add_plain : forall s v v', plain_field s -> plain_val v -> str_add s v = Ok v' -> plain_val v'.
Proof. intros s v v' S [t [-> T]] E. inv E. exists (s ++ t)%string. split; auto. apply plain_app; auto. Qed.
Lemma start_plain : forall d n a v, plain_texts d -> In (n, a) (gnodes (dgraph d)) -> start_activity a = Ok v -> plain_val v.
Proof.
  intros d n a v [P _] H E. unfold start_activity in E. apply rbind_ok in E. destruct E as [o [_ E]].
  apply rbind_ok in E. destruct E as [nm [En E]].
  assert (Pn : plain_val nm).
  { unfold dgetE in En. destruct (dget k_node_name a) as [x|] eqn:X; inv En. apply (P n a); auto. }
  destruct o as [t|]; [|inv E; auto].
  destruct (String.eqb t "messageEventDefinition"); [revert E; apply str_add_plain; [plain_lit|auto]|].
  destruct (String.eqb t "timerEventDefinition"); [revert E; apply str_add_plain; [plain_lit|auto]|]. inv E. auto.
Qed.
Lemma end_plain : forall d n a v, plain_texts d -> In (n, a) (gnodes (dgraph d)) -> end_activity a = Ok v -> plain_val v.
Proof.
  intros d n a v [P _] H E. unfold end_activity in E. apply rbind_ok in E. destruct E as [o [_ E]].
  apply rbind_ok in E. destruct E as [nm [En E]].
  assert (Pn : plain_val nm).
  { unfold dgetE in En. destruct (dget k_node_name a) as [x|] eqn:X; inv En. apply (P n a); auto. }
  destruct o as [t|]; [|inv E; auto].
  destruct (String.eqb t "messageEventDefinition"); [revert E; apply str_add_plain; [plain_lit|auto]|]. inv E. auto.
Qed.
Lemma condition_plain : forall d f fa ty, plain_texts d -> flow_of d f = Ok fa -> plain_val (branch_condition ty fa).
Proof.
  intros d f fa ty [_ P] E. destruct (flow_in _ _ _ E) as [t [H <-]]. unfold branch_condition.
  destruct (veqs ty t_parallel_gateway); [apply plain_empty|]. destruct (dget k_name (snd t)) as [v|] eqn:X; [|apply plain_empty].
  destruct (P t v H X) as [-> |[s [-> S]]]; [apply plain_empty|]. exists s. auto.
Qed.

Lemma exported_then : forall d p k c w node rows own mid c2 w2 res out,
  (0 <= k)%Z -> (forall r, In r own -> label (e_order r) /\ at_step p k (e_order r)) -> NoDup (map e_order own) ->
  (plain_texts d -> node_in d node -> plain_val c -> plain_field w -> (forall r, In r own -> plain_row r) /\ plain_val c2 /\ plain_field w2) ->
  (node_in d node -> node_in d mid) ->
  exported d p (k + 1) c2 w2 mid (rows ++ own) res out -> exported d p k c w node rows res (own ++ out).
Proof.
  intros d p k c w node rows own mid c2 w2 res out K A B P M [E1 E2 E3 E4]. split.
  - rewrite E1, app_assoc. reflexivity.
  - apply good_app; auto; intros r Hr; apply A; auto.
  - auto.
  - intros T N C W r Hr. destruct (P T N C W) as [P1 [P2 P3]]. apply in_app_iff in Hr. destruct Hr as [Hr|Hr]; [apply P1; auto|apply E4; auto].
Qed.

(** The rows of the branches that have been visited. *)
Record branches (d : diagram) (p : string) (k : Z) (rows : list erow) (w : string) (i : nat)
  (rs : list erow) (nxt : option node_t) (out : list erow) : Prop := mkBr {
  br_rows : rs = rows ++ out;
  br_distinct : NoDup (map e_order out);
  br_label : forall r, In r out -> label (e_order r) /\ exists j, j < i /\ j < 26 /\ in_branch p k j (e_order r);
  br_next : node_in d nxt;
  br_plain : plain_texts d -> plain_field w -> forall r, In r out -> plain_row r }.

Lemma branches_more : forall d p k rows w i rs nxt out out' nxt', branches d p k rows w i rs nxt out -> i < 26 ->
  NoDup (map e_order out') -> (forall r, In r out' -> label (e_order r) /\ in_branch p k i (e_order r)) ->
  node_in d nxt' -> (plain_texts d -> plain_field w -> forall r, In r out' -> plain_row r) ->
  branches d p k rows w (S i) (rs ++ out') nxt' (out ++ out').
Proof.
  intros d p k rows w i rs nxt out out' nxt' [B1 B2 B3 B4 B5] I N L Nx P. split; auto.
  - rewrite B1, app_assoc. reflexivity.
  - rewrite map_app. apply NoDup_app_str; auto. intros x Hx Hy. apply in_map_iff in Hx, Hy.
    destruct Hx as [r [<- Hr]], Hy as [r' [E Hr']]. destruct (B3 r Hr) as [_ [j [J1 [J2 J3]]]].
    destruct (L r' Hr') as [_ L2]. rewrite E in L2. pose proof (in_branch_fun p k j i _ J2 I J3 L2). lia.
  - intros r Hr. apply in_app_iff in Hr. destruct Hr as [Hr|Hr].
    + destruct (B3 r Hr) as [X [j [J1 [J2 J3]]]]. split; auto. exists j. split; [lia|auto].
    + destruct (L r Hr) as [X Y]. split; auto. exists i. split; [lia|auto].
  - intros T W r Hr. apply in_app_iff in Hr. destruct Hr as [Hr|Hr]; auto.
Qed.

Lemma export_good : forall fuel d classes node order l cond who aj rows res,
  export_node fuel d classes node order (pairs_text l) cond who aj rows = Ok res -> pairs_ok l -> (0 <= order)%Z ->
  exists out, exported d (pairs_text l) order cond who node rows res out.
Proof.
  induction fuel as [|fuel IH]; intros d classes node k l cond who aj rows res E P K; [discriminate|].
  destruct node as [[nid a]|]; [|discriminate]. cbn [export_node] in E.
  apply rbind_ok in E. destruct E as [ty [Ety E]].
  assert (One : forall v s t, In (s, t) [("", ""); ("yes", ""); ("", "yes")] ->
    let own := [mkERow (pairs_text l ++ zstr k)%string v cond who s t] in
    (forall r, In r own -> label (e_order r) /\ at_step (pairs_text l) k (e_order r)) /\ NoDup (map e_order own) /\
    (plain_val v -> plain_val cond -> plain_field who -> forall r, In r own -> plain_row r)).
  { intros v s t St own. destruct (good_one l k v cond who s t P K) as [G1 G2 G3]. split; [|split; auto].
    - intros r Hr. split; [apply G3; auto|]. destruct Hr as [<- |[]]. exists "". cbn [e_order]. rewrite sapp_nil. split; auto.
      intros x y X. discriminate.
    - intros Pv Pc Pw r [<- |[]]. unfold plain_row. cbn [e_activity e_condition e_who e_subprocess e_terminated].
      cbn [In] in St. intuition; match goal with X : (_, _) = (_, _) |- _ => inv X end; plain_lit. }
  destruct (veqs ty t_start_event).
  { apply rbind_ok in E. destruct E as [act [Ea E]]. apply rbind_ok in E. destruct E as [v [_ E]].
    apply rbind_ok in E. destruct E as [outs [_ E]]. apply rbind_ok in E. destruct E as [f [_ E]].
    apply rbind_ok in E. destruct E as [fa [Ef E]]. apply rbind_ok in E. destruct E as [nx [En E]].
    apply IH in E; auto; [|lia]. destruct E as [out E]. destruct (One act "" "") as [O1 [O2 O3]]; [left; auto|].
    eexists. eapply exported_then; [exact K|exact O1|exact O2| | |exact E].
    - intros T N C W. split; [|split; [exists who; auto|apply plain_nil]]. apply O3; auto. eapply start_plain; eauto.
    - intros _. eapply target_in; eauto. }
  destruct (veqs ty t_end_event).
  { apply rbind_ok in E. destruct E as [act [Ea E]]. inv E. destruct (One act "" "yes") as [O1 [O2 O3]]; [right; right; left; auto|].
    eexists. split; [reflexivity| | |].
    - apply good_one; auto.
    - intros _ n x X. discriminate.
    - intros T N C W. apply O3; auto. eapply end_plain; eauto. }
  apply rbind_ok in E. destruct E as [labels [_ E]]. apply rbind_ok in E. destruct E as [oouts [_ E]].
  destruct (smem c_join labels && negb aj).
  { destruct (veqs ty t_task || veqs ty t_subprocess).
    - inv E. exists []. split; [simpl; rewrite app_nil_r; auto|apply good_nil|auto|intros _ _ _ _ r []].
    - apply rbind_ok in E. destruct E as [outs [_ E]]. apply rbind_ok in E. destruct E as [f [_ E]].
      apply rbind_ok in E. destruct E as [fa [Ef E]]. apply rbind_ok in E. destruct E as [nx [En E]]. inv E.
      exists []. split; [simpl; rewrite app_nil_r; auto|apply good_nil| |intros _ _ _ _ r []].
      intros _. eapply target_in; eauto. }
  apply rbind_ok in E. destruct E as [rows1 [E1 E]].
  assert (Own : exists own, rows1 = rows ++ own /\ (forall r, In r own -> label (e_order r) /\ e_order r = (pairs_text l ++ zstr k)%string /\ at_step (pairs_text l) k (e_order r)) /\
    NoDup (map e_order own) /\
    (plain_texts d -> node_in d (Some (nid, a)) -> plain_val cond -> plain_field who -> forall r, In r own -> plain_row r)).
  { assert (Nm : forall v, dgetE k_node_name a = Ok v -> plain_texts d -> node_in d (Some (nid, a)) -> plain_val v).
    { intros v X [T _] N. unfold dgetE in X. destruct (dget k_node_name a) as [y|] eqn:Y; inv X. apply (T nid a); auto. }
    destruct (veqs ty t_task); [|destruct (veqs ty t_subprocess)].
    - apply rbind_ok in E1. destruct E1 as [nm [En E1]]. inv E1. destruct (One nm "" "") as [O1 [O2 O3]]; [left; auto|].
      eexists. split; [reflexivity|]. split; [|split; [exact O2|intros; apply O3; auto]].
      intros r Hr. destruct (O1 r Hr) as [X Y]. split; auto. split; auto. destruct Hr as [<- |[]]. reflexivity.
    - apply rbind_ok in E1. destruct E1 as [nm [En E1]]. inv E1. destruct (One nm "yes" "") as [O1 [O2 O3]]; [right; left; auto|].
      eexists. split; [reflexivity|]. split; [|split; [exact O2|intros; apply O3; auto]].
      intros r Hr. destruct (O1 r Hr) as [X Y]. split; auto. split; auto. destruct Hr as [<- |[]]. reflexivity.
    - inv E1. exists []. rewrite app_nil_r. split; auto. split; [intros r []|]. split; [constructor|intros _ _ _ _ r []]. }
  destruct Own as [own [-> [O1 [O2 O3]]]].
  destruct (smem c_split labels).
  { apply rbind_ok in E. destruct E as [outs [_ E]]. apply rbind_ok in E. destruct E as [[[rs nxt] i] [Ef E]]. cbn [fst snd] in E.
    assert (B : exists out, branches d (pairs_text l) k (rows ++ own) who i rs nxt out).
    { assert (B0 : exists out, branches d (pairs_text l) k (rows ++ own) who 0 (rows ++ own) None out).
      { exists []. split; [rewrite app_nil_r; auto|constructor|intros r []|intros n x X; discriminate|intros _ _ r []]. }
      clear E. revert B0 Ef. generalize 0 as i0. generalize (@None node_t) as n0. generalize (rows ++ own) at 2 3 as r0.
      induction outs as [|f outs IHo]; intros r0 n0 i0 B0 Ef; cbn [rfold] in Ef; [inv Ef; auto|].
      apply rbind_ok in Ef. destruct Ef as [[[r1 n1] i1] [Eb Ef]]. apply IHo in Ef; auto. clear IHo.
      destruct B0 as [out0 B0]. apply rbind_ok in Eb. destruct Eb as [fa [Efa Eb]]. apply rbind_ok in Eb. destruct Eb as [tg [Etg Eb]].
      apply rbind_ok in Eb. destruct Eb as [sfx [Es Eb]]. apply letter_ok in Es. destruct Es as [I ->]. cbv zeta in Eb.
      apply rbind_ok in Eb. destruct Eb as [tid [Et Eb]]. apply rbind_ok in Eb. destruct Eb as [tls [_ Eb]].
      assert (P' : pairs_ok (l ++ [(zstr k, ascii_of_nat (97 + i0))])).
      { intros n c H. apply in_app_iff in H. destruct H as [H|[H|[]]]; [apply P; auto|]. inv H. split; [apply zstr_number; auto|apply letter_latin; auto]. }
      assert (Pt : (pairs_text l ++ zstr k ++ letter i0)%string = pairs_text (l ++ [(zstr k, ascii_of_nat (97 + i0))])).
      { rewrite pairs_text_snoc. reflexivity. }
      destruct (smem c_join tls).
      - inv Eb. eexists. apply (branches_more _ _ _ _ _ _ _ _ _ _ _ B0 I).
        + repeat constructor. intros [].
        + intros r [<- |[]]. cbn [e_order]. split.
          * rewrite Pt. change "1" with (zstr 1). apply prefix_label; auto. lia.
          * exists "1". rewrite !sapp_assoc. reflexivity.
        + apply B0.
        + intros T W r [<- |[]]. unfold plain_row. cbn [e_activity e_condition e_who e_subprocess e_terminated].
          split; [|split; [eapply condition_plain; eauto|split; [auto|split; apply plain_nil]]].
          eexists. split; [reflexivity|]. apply (plain_app "goto "); [plain_lit|]. apply label_chars, prefix_label; auto. lia.
      - apply rbind_ok in Eb. destruct Eb as [res1 [Er Eb]]. inv Eb. rewrite Pt in Er.
        apply IH in Er; auto; [|lia]. destruct Er as [out [X1 [X2 X3 X4] X5 X6]].
        eexists. rewrite X1. apply (branches_more _ _ _ _ _ _ _ _ _ _ _ B0 I); auto.
        + intros r Hr. split; auto. destruct (X3 r Hr) as [j [_ [y [Y _]]]]. exists (zstr j ++ y)%string.
          rewrite Y, <- Pt, !sapp_assoc. reflexivity.
        + assert (Tg : node_in d tg) by (eapply target_in; eauto). destruct (snd res1) as [z|] eqn:Z; [|apply B0].
          apply X5 in Tg. exact Tg.
        + intros T W. apply X6; auto; [eapply target_in; eauto|].
          destruct (is_default f (default_flow ty a)); [|eapply condition_plain; eauto].
          exists "else". split; auto. plain_lit. }
    destruct B as [out [B1 B2 B3 B4 B5]].
    assert (A1 : forall r, In r (own ++ out) -> label (e_order r) /\ at_step (pairs_text l) k (e_order r)).
    { intros r Hr. apply in_app_iff in Hr. destruct Hr as [Hr|Hr]; [split; apply O1; auto|].
      destruct (B3 r Hr) as [X [j [_ [J2 J3]]]]. split; auto. eapply in_branch_step; eauto. }
    assert (A2 : NoDup (map e_order (own ++ out))).
    { rewrite map_app. apply NoDup_app_str; auto. intros x Hx Hy. apply in_map_iff in Hx, Hy.
      destruct Hx as [r [<- Hr]], Hy as [r' [Ex Hr']]. destruct (B3 r' Hr') as [_ [j [_ [J2 J3]]]].
      apply in_branch_not_bare in J3. apply J3. rewrite Ex. apply O1. auto. }
    assert (A3 : plain_texts d -> node_in d (Some (nid, a)) -> plain_val cond -> plain_field who ->
                 forall r, In r (own ++ out) -> plain_row r).
    { intros T N C W r Hr. apply in_app_iff in Hr. destruct Hr as [Hr|Hr]; auto. }
    destruct nxt as [n|].
    - apply IH in E; auto; [|lia]. destruct E as [out2 E]. eexists.
      apply (exported_then d (pairs_text l) k cond who (Some (nid, a)) rows (own ++ out) (Some n) (VStr "") who); auto.
      + intros T N C W. split; auto. split; auto. apply plain_empty.
      + rewrite app_assoc, <- B1. exact E.
    - inv E. exists (own ++ out). split; auto.
      + cbn [fst]. rewrite app_assoc. reflexivity.
      + rewrite <- (app_nil_r (own ++ out)). apply good_app; auto; [intros r Hr; apply A1; auto|intros r Hr; apply A1; auto|apply good_nil]. }
  destruct oouts as [[|f [|]]|]; try discriminate.
  - inv E. exists own. split; auto.
    + rewrite <- (app_nil_r own). apply good_app; auto; [intros r Hr; apply O1; auto|intros r Hr; apply O1; auto|apply good_nil].
    + intros _ n x X. discriminate.
  - apply rbind_ok in E. destruct E as [fa [Efa E]]. apply rbind_ok in E. destruct E as [nx [En E]].
    apply IH in E; auto; [|lia]. destruct E as [out E]. eexists.
    eapply (exported_then d (pairs_text l) k cond who (Some (nid, a)) rows own nx (VStr "") who); eauto.
    + intros r Hr. split; apply O1; auto.
    + intros T N C W. split; auto. split; auto. apply plain_empty.
    + intros _. eapply target_in; eauto.
  - inv E. exists own. split; auto.
    + rewrite <- (app_nil_r own). apply good_app; auto; [intros r Hr; apply O1; auto|intros r Hr; apply O1; auto|apply good_nil].
    + intros _ n x X. discriminate.
Qed.

Lemma rows_good : forall fuel d rows, export_rows fuel d = Ok rows ->
  good "" 0 rows /\ (plain_texts d -> forall r, In r rows -> plain_row r).
Proof.
  intros fuel d rows E. unfold export_rows in E. apply rbind_ok in E. destruct E as [es [Ee E]].
  destruct es as [|[n a] [|]]; try discriminate. apply rbind_ok in E. destruct E as [cls [_ E]].
  apply rbind_ok in E. destruct E as [res [Er E]]. inv E. change "" with (pairs_text []) in Er at 1.
  apply export_good in Er; [|intros x c []|lia]. destruct Er as [out [X1 X2 X3 X4]]. rewrite X1. split; [exact X2|].
  intros T. apply X4; auto; [|apply plain_empty|apply plain_nil].
  intros m b Y. inv Y. unfold entry_nodes in Ee. apply rbind_ok in Ee. destruct Ee as [ns [Ens Ee]].
  change (get_nodes (Some "") d) with (Ok (nodes_view (dgraph d))) in Ens. inv Ens.
  apply rfilter_In in Ee. destruct Ee as [p [Ee _]]. assert (X : In (m, b) (filter p (nodes_view (dgraph d)))) by (rewrite <- Ee; left; auto).
  apply filter_In in X. apply X.
Qed.
