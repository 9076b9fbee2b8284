(** The bookkeeping of the importer: the diagram agrees with a list of connections. *)
From Coq Require Import String Ascii List Bool Arith ZArith Lia Permutation.
From Verif Require Import Py PyFacts Consts Nx NxFacts Rep SpecRep RepFacts.
From Verif Require Import CsvRegex CsvImport SpecCsv RegexFacts CsvFacts.
Import ListNotations.
Open Scope string_scope.
Open Scope list_scope.

(** * Flow identifiers *)

(** No two underscores in a row, none at the end. *)
Fixpoint simple (s : string) : bool :=
  match s with
  | "" => true
  | String c t =>
      if Ascii.eqb c "_" then match t with "" => false | String c' _ => negb (Ascii.eqb c' "_") end && simple t
      else simple t
  end.

Lemma simple_cons : forall c s, simple (String c s) = true -> simple s = true.
Proof. intros c s H. simpl in H. destruct (Ascii.eqb c "_"); auto. apply andb_true_iff in H. tauto. Qed.

Lemma flow_id_inj : forall s s' t t', simple s = true -> simple s' = true ->
  get_flow_id s t = get_flow_id s' t' -> s = s' /\ t = t'.
Proof.
  unfold get_flow_id. induction s as [|c s IH]; intros [|c' s'] t t' S S' E.
  - simpl in E. inversion E. auto.
  - exfalso. simpl in E. inversion E; subst. simpl in S'. destruct s' as [|c2 s']; [discriminate|].
    simpl in H1. inversion H1; subst. discriminate.
  - exfalso. simpl in E. inversion E; subst. simpl in S. destruct s as [|c2 s]; [discriminate|].
    simpl in H1. inversion H1; subst. discriminate.
  - cbn [append] in E. inversion E; subst. destruct (IH s' t t') as [-> ->]; auto;
      eapply simple_cons; eauto.
Qed.

Definition gid (p : string * string) : string := get_flow_id (fst p) (snd p).
Definition from (n : string) (p : string * string) : bool := String.eqb (fst p) n.
Definition into (n : string) (p : string * string) : bool := String.eqb (snd p) n.
Definition apart (n : string) (p : string * string) : bool := negb (from n p || into n p).

Lemma from_true : forall n p, from n p = true <-> fst p = n.
Proof. intros. unfold from. apply String.eqb_eq. Qed.
Lemma into_true : forall n p, into n p = true <-> snd p = n.
Proof. intros. unfold into. apply String.eqb_eq. Qed.
Lemma apart_true : forall n p, apart n p = true <-> fst p <> n /\ snd p <> n.
Proof.
  intros. unfold apart. rewrite negb_true_iff, orb_false_iff. unfold from, into. rewrite !String.eqb_neq. tauto.
Qed.

(** The diagram records exactly the connections [L]. *)
Record books (d : diagram) (L : list (string * string)) : Prop := mkBooks {
  bk_wf : wf d;
  bk_simple : forall n, is_node d n -> simple n = true;
  bk_ends : forall s t, In (s, t) L -> is_node d s /\ is_node d t;
  bk_keys : NoDup (dkeys (seq_flows d));
  bk_flows : forall f r, dget f (seq_flows d) = Some r <->
     exists s t, In (s, t) L /\ f = get_flow_id s t /\ r = mkFlow f s t;
  bk_out : forall n, outgoing_of d n = map gid (filter (from n) L);
  bk_in : forall n, incoming_of d n = map gid (filter (into n) L);
  bk_linked : forall u v, linked d u v <-> In (u, v) L \/ In (v, u) L }.

Lemma filter_nil : forall A (f : A -> bool) l, (forall x, In x l -> f x = false) -> filter f l = [].
Proof.
  induction l as [|a l IH]; simpl; intros H; auto. rewrite (H a) by auto. apply IH. auto.
Qed.

Lemma linked_connected : forall tb s t d d' u v, connected tb s t d d' ->
  (linked d' u v <-> linked d u v \/ same_pair u v s t).
Proof.
  intros tb s t d d' u v C. unfold linked. rewrite (cn_edges _ _ _ _ _ C). split.
  - intros [e [He P]]. apply upd_edges_in in He. destruct He as [e0 [He [Eu [Ev _]]]]. rewrite Eu, Ev in P.
    unfold edge_base in He. destruct (has_edge s t (dgraph d)); [left; eauto|].
    apply in_app_iff in He. destruct He as [He|[<- |[]]]; [left; eauto|]. right.
    apply same_pair_sym. exact P.
  - assert (X : forall e0, In e0 (edge_base s t (dgraph d)) -> same_pair (eu e0) (ev e0) u v ->
        exists e, In e (upd_edges s t (conn_attrs s t (connection_condition t tb)) (edge_base s t (dgraph d))) /\
                  same_pair (eu e) (ev e) u v).
    { intros e0 He P. unfold upd_edges. eexists. split.
      - apply in_map. exact He.
      - destruct (connects s t e0); exact P. }
    intros [[e [He P]]|P].
    + apply (X e); auto. unfold edge_base. destruct (has_edge s t (dgraph d)); auto. apply in_or_app; auto.
    + pose proof (has_edge_base s t (dgraph d) []) as B. apply has_edge_true in B. destruct B as [e [He B]].
      apply (X e); auto. apply same_pair_connects in B. eapply same_pair_trans; [exact B|].
      apply same_pair_sym. exact P.
Qed.

Lemma books_connect : forall tb s t d d' L, books d L -> is_node d s -> is_node d t ->
  connected tb s t d d' -> books d' (L ++ [(s, t)]).
Proof.
  intros tb s t d d' L B Hs Ht C. constructor.
  - eapply connected_wf; eauto. apply B.
  - intros n Hn. apply (connected_is_node _ _ _ _ _ _ C) in Hn. apply B; auto.
  - intros a b H. rewrite !(connected_is_node _ _ _ _ _ _ C). apply in_app_iff in H.
    destruct H as [H|[H|[]]]; [apply B; auto|]. inv H. auto.
  - rewrite (cn_flows _ _ _ _ _ C). apply nodup_dset. apply B.
  - intros f r. rewrite (cn_flows _ _ _ _ _ C), dget_dset.
    destruct (String.eqb_spec f (get_flow_id s t)) as [-> |N].
    + split.
      * intros H. inv H. exists s, t. split; auto. apply in_app_iff. right. left. auto.
      * intros [a [b [H [E ->]]]]. apply in_app_iff in H. destruct H as [H|[H|[]]].
        -- destruct (bk_ends _ _ B _ _ H) as [Ha Hb]. apply flow_id_inj in E; try (apply B; auto).
           destruct E as [-> ->]. reflexivity.
        -- inv H. reflexivity.
    + rewrite (bk_flows _ _ B). split.
      * intros [a [b [H E]]]. exists a, b. split; auto. apply in_app_iff. auto.
      * intros [a [b [H [E E']]]]. exists a, b. split; auto. apply in_app_iff in H.
        destruct H as [H|[H|[]]]; auto. inv H. congruence.
  - intros n. rewrite (connected_out _ _ _ _ _ _ C), filter_app, map_app.
    rewrite !(bk_out _ _ B). cbn [filter]. change (from n (s, t)) with (String.eqb s n). rewrite (String.eqb_sym s n).
    destruct (String.eqb_spec n s) as [-> |N]; simpl; [reflexivity|]. rewrite app_nil_r. reflexivity.
  - intros n. rewrite (connected_in _ _ _ _ _ _ C), filter_app, map_app.
    rewrite !(bk_in _ _ B). cbn [filter]. change (into n (s, t)) with (String.eqb t n). rewrite (String.eqb_sym t n).
    destruct (String.eqb_spec n t) as [-> |N]; simpl; [reflexivity|]. rewrite app_nil_r. reflexivity.
  - intros u v. rewrite (linked_connected _ _ _ _ _ _ _ C), (bk_linked _ _ B), !in_app_iff. simpl.
    unfold same_pair. split.
    + intros [[H|H]|[[-> ->]|[-> ->]]]; auto.
    + intros [[H|[H|[]]]|[H|[H|[]]]]; auto; inv H; auto.
Qed.

Lemma books_add : forall n ty d d' L, books d L -> ~ is_node d n -> simple n = true -> added n ty d d' -> books d' L.
Proof.
  intros n ty d d' L B Hn S A. constructor.
  - eapply added_wf; eauto. apply B.
  - intros m Hm. apply (added_is_node _ _ _ _ _ A) in Hm. destruct Hm as [Hm| ->]; auto. apply B; auto.
  - intros s t H. rewrite !(added_is_node _ _ _ _ _ A). destruct (bk_ends _ _ B _ _ H). auto.
  - destruct (ad_rest _ _ _ _ A) as [-> _]. apply B.
  - destruct (ad_rest _ _ _ _ A) as [-> _]. apply B.
  - intros m. destruct (string_dec m n) as [-> |N].
    + rewrite (out_of _ _ _ (ad_out _ _ _ _ A)). rewrite filter_nil; auto.
      intros [s t] H. destruct (from n (s, t)) eqn:E; auto. apply from_true in E. simpl in E. subst s.
      exfalso. apply Hn. apply (bk_ends _ _ B n t H).
    + rewrite <- (bk_out _ _ B). unfold outgoing_of. rewrite (ad_other _ _ _ _ A) by auto. reflexivity.
  - intros m. destruct (string_dec m n) as [-> |N].
    + rewrite (in_of _ _ _ (ad_in _ _ _ _ A)). rewrite filter_nil; auto.
      intros [s t] H. destruct (into n (s, t)) eqn:E; auto. apply into_true in E. simpl in E. subst t.
      exfalso. apply Hn. apply (bk_ends _ _ B s n H).
    + rewrite <- (bk_in _ _ B). unfold incoming_of. rewrite (ad_other _ _ _ _ A) by auto. reflexivity.
  - intros u v. unfold linked. rewrite (ad_edges _ _ _ _ A). apply B.
Qed.

(** Other attributes do not matter. *)
Lemma books_frame : forall d d' L, books d L -> wf d' -> node_keys d' = node_keys d ->
  (forall m k, k = "outgoing" \/ k = "incoming" -> attr d' m k = attr d m k) ->
  gedges (dgraph d') = gedges (dgraph d) -> seq_flows d' = seq_flows d -> books d' L.
Proof.
  intros d d' L B W K A G F.
  assert (N : forall n, is_node d' n <-> is_node d n).
  { intros n. unfold is_node. fold (node_keys d') (node_keys d). rewrite K. tauto. }
  constructor; auto.
  - intros n H. apply N in H. apply B; auto.
  - intros s t H. rewrite !N. apply B; auto.
  - rewrite F. apply B.
  - rewrite F. apply B.
  - intros n. rewrite <- (bk_out _ _ B). unfold outgoing_of. rewrite A; auto.
  - intros n. rewrite <- (bk_in _ _ B). unfold incoming_of. rewrite A; auto.
  - intros u v. unfold linked. rewrite G. apply B.
Qed.

(** * Removal *)
Lemma remove_gid : forall p l l', (forall q, In q l -> gid q = gid p -> q = p) ->
  list_remove (gid p) (map gid l) = Ok l' -> length (filter (fun q => from (fst p) q && into (snd p) q) l) = 1 ->
  l' = map gid (filter (fun q => negb (from (fst p) q && into (snd p) q)) l).
Proof.
  induction l as [|q l IH]; intros l' I R C; simpl in R; [discriminate|].
  destruct (String.eqb_spec (gid p) (gid q)) as [E|N].
  - assert (q = p) by (apply I; [left|]; auto). subst q. inv R. simpl in C |- *.
    assert (T : from (fst p) p && into (snd p) p = true) by (unfold from, into; rewrite !eqb_refl'; auto).
    rewrite T in *. simpl. simpl in C. injection C as C. apply length_zero_iff_nil in C.
    f_equal. clear - C. induction l as [|a l IH]; simpl in *; auto.
    destruct (from (fst p) a && into (snd p) a); [discriminate|]. simpl. f_equal. auto.
  - rinv R. inv E0. simpl in C |- *.
    destruct (from (fst p) q && into (snd p) q) eqn:T.
    + exfalso. apply andb_true_iff in T. rewrite from_true, into_true in T. destruct T as [T1 T2].
      apply N. destruct p, q; simpl in *; subst; auto.
    + simpl. f_equal. apply IH; auto. intros x Hx. apply I. right; auto.
Qed.

Lemma filter_filter : forall A (f g : A -> bool) l, filter f (filter g l) = filter (fun x => g x && f x) l.
Proof.
  induction l as [|a l IH]; simpl; auto. destruct (g a) eqn:G; simpl; [destruct (f a); rewrite IH; auto|auto].
Qed.
Lemma filter_ext_in' : forall A (f g : A -> bool) l, (forall x, In x l -> f x = g x) -> filter f l = filter g l.
Proof.
  induction l as [|a l IH]; simpl; intros H; auto. rewrite (H a) by auto. rewrite IH by auto. reflexivity.
Qed.

Lemma books_splice : forall n s t d d' L, books d L ->
  length (filter (into n) L) = 1 -> length (filter (from n) L) = 1 -> spliced n s t d d' ->
  s <> n /\ t <> n /\ filter (into n) L = [(s, n)] /\ filter (from n) L = [(n, t)] /\ books d' (filter (apart n) L).
Proof.
  intros n s t d d' L B Li Lo S.
  destruct (sp_flows _ _ _ _ _ S) as [f1 [l1 [r1 [lo [f2 [l2 [r2 [li H]]]]]]]].
  destruct H as [I1 [D1 [Es [R1 [I2 [D2 [Et [R2 [F A]]]]]]]]].
  destruct (filter (into n) L) as [|[s0 n0] [|]] eqn:FI; try discriminate.
  destruct (filter (from n) L) as [|[n1 t0] [|]] eqn:FO; try discriminate.
  assert (X1 : In (s0, n0) L /\ n0 = n).
  { assert (X : In (s0, n0) (filter (into n) L)) by (rewrite FI; left; auto).
    apply filter_In in X. rewrite into_true in X. exact X. }
  assert (X2 : In (n1, t0) L /\ n1 = n).
  { assert (X : In (n1, t0) (filter (from n) L)) by (rewrite FO; left; auto).
    apply filter_In in X. rewrite from_true in X. exact X. }
  destruct X1 as [Q1 ->], X2 as [Q2 ->].
  rewrite (bk_in _ _ B), FI in I1. simpl in I1. inv I1.
  apply (bk_flows _ _ B) in D1. destruct D1 as [a [b [Hab [E Er]]]].
  destruct (bk_ends _ _ B _ _ Hab) as [Ha Hb]. destruct (bk_ends _ _ B _ _ Q1) as [Hs0 Hn0].
  unfold gid in E. cbn [fst snd] in E. apply flow_id_inj in E; try (apply B; auto). destruct E as [<- <-]. subst r1. cbn [fl_src] in *.
  assert (Inj : forall p q, In p L -> In q L -> gid p = gid q -> p = q).
  { intros [p1 p2] [q1 q2] Hp Hq E. unfold gid in E. cbn [fst snd] in E.
    destruct (bk_ends _ _ B _ _ Hp) as [P1 _], (bk_ends _ _ B _ _ Hq) as [P2 _].
    apply flow_id_inj in E; try (apply B; auto). destruct E as [-> ->]. reflexivity. }
  (* the source is another node *)
  assert (Ns : s0 <> n).
  { intros ->. rewrite eqb_refl' in I2. rewrite (bk_out _ _ B), FO in R1. simpl in R1.
    unfold gid in R1. cbn [fst snd] in R1.
    destruct (String.eqb _ _) in R1; [inv R1; discriminate|]. discriminate. }
  rewrite (eqb_neq' n s0) in I2 by auto. rewrite (bk_out _ _ B), FO in I2. simpl in I2. inversion I2; subst f2 l2. clear I2.
  rewrite dget_ddel in D2. destruct (String.eqb _ _) in D2; [discriminate|].
  apply (bk_flows _ _ B) in D2. destruct D2 as [a [b [Hab2 [E Er]]]].
  destruct (bk_ends _ _ B _ _ Hab2) as [Ha2 Hb2].
  unfold gid in E. cbn [fst snd] in E. apply flow_id_inj in E; try (apply B; auto). destruct E as [<- <-]. subst r2. cbn [fl_tgt] in *.
  assert (Nt : t0 <> n).
  { intros ->. assert (X : In (n, n) (filter (into n) L)) by (apply filter_In; split; auto; apply into_true; auto).
    rewrite FI in X. destruct X as [X|[]]. inv X. congruence. }
  split; auto. split; auto. split; auto. split; auto.
  (* which pairs are touched *)
  assert (U1 : forall p, In p L -> into n p = true -> p = (s0, n)).
  { intros p Hp T. assert (X : In p (filter (into n) L)) by (apply filter_In; auto). rewrite FI in X.
    destruct X as [X|[]]; auto. }
  assert (U2 : forall p, In p L -> from n p = true -> p = (n, t0)).
  { intros p Hp T. assert (X : In p (filter (from n) L)) by (apply filter_In; auto). rewrite FO in X.
    destruct X as [X|[]]; auto. }
  assert (Lo' : lo = map gid (filter (from s0) (filter (apart n) L))).
  { rewrite (bk_out _ _ B) in R1.
    rewrite (remove_gid (s0, n) _ _ (fun q Hq E => Inj q (s0, n) (proj1 (proj1 (filter_In _ _ _) Hq)) Q1 E) R1).
    - f_equal. rewrite !filter_filter. apply filter_ext_in'. intros q Hq. cbn [fst snd].
      unfold apart. destruct (from s0 q) eqn:T1; simpl; rewrite ?andb_false_r; auto. rewrite andb_true_r.
      destruct (into n q) eqn:T2; simpl; rewrite ?orb_true_r; auto. rewrite orb_false_r.
      destruct (from n q) eqn:T3; auto. apply from_true in T1. apply from_true in T3. congruence.
    - rewrite filter_filter. cbn [fst snd]. rewrite <- FI in Li. rewrite <- Li. f_equal.
      apply filter_ext_in'. intros q Hq. destruct (into n q) eqn:T2; rewrite ?andb_false_r; auto.
      rewrite (U1 q Hq T2). unfold from. cbn [fst]. rewrite eqb_refl'. reflexivity. }
  assert (Li' : li = map gid (filter (into t0) (filter (apart n) L))).
  { rewrite (bk_in _ _ B) in R2.
    rewrite (remove_gid (n, t0) _ _ (fun q Hq E => Inj q (n, t0) (proj1 (proj1 (filter_In _ _ _) Hq)) Q2 E) R2).
    - f_equal. rewrite !filter_filter. apply filter_ext_in'. intros q Hq. cbn [fst snd].
      unfold apart. destruct (into t0 q) eqn:T1; simpl; rewrite ?andb_false_r; auto. rewrite !andb_true_r.
      destruct (from n q) eqn:T2; simpl; auto.
      destruct (into n q) eqn:T3; auto. apply into_true in T1. apply into_true in T3. congruence.
    - rewrite filter_filter. cbn [fst snd]. rewrite <- FO in Lo. rewrite <- Lo. f_equal.
      apply filter_ext_in'. intros q Hq. destruct (from n q) eqn:T2; rewrite ?andb_false_r; auto.
      rewrite (U2 q Hq T2). unfold into. cbn [snd]. rewrite eqb_refl'. reflexivity. }
  assert (Nd : ~ is_node d' n) by (intros C; apply (spliced_is_node _ _ _ _ _ _ S) in C; tauto).
  assert (On : forall k, attr d' n k = None).
  { intros k. unfold attr. destruct (node_of d' n) eqn:E; auto. exfalso. apply Nd. apply is_node_of. eauto. }
  constructor.
  - eapply spliced_wf; eauto. apply B.
  - intros m Hm. apply (spliced_is_node _ _ _ _ _ _ S) in Hm. apply B. tauto.
  - intros a b H. apply filter_In in H. destruct H as [H T]. apply apart_true in T. simpl in T.
    destruct (bk_ends _ _ B _ _ H). rewrite !(spliced_is_node _ _ _ _ _ _ S). tauto.
  - rewrite F, !dkeys_ddel. apply NoDup_filter, NoDup_filter. apply B.
  - intros f r. rewrite F, !dget_ddel. split.
    + intros H. destruct (String.eqb_spec f (gid (n, t0))) as [E2|N2]; [discriminate|].
      destruct (String.eqb_spec f (gid (s0, n))) as [E1|N1]; [discriminate|].
      apply (bk_flows _ _ B) in H. destruct H as [a [b [H [E1 E2]]]]. exists a, b. split; auto.
      apply filter_In. split; auto. apply apart_true. simpl. split; intros ->.
      * assert (X : (n, b) = (n, t0)) by (apply U2; auto; apply from_true; auto). inv X. apply N2. reflexivity.
      * assert (X : (a, n) = (s0, n)) by (apply U1; auto; apply into_true; auto). inv X. apply N1. reflexivity.
    + intros [a [b [H [-> ->]]]]. apply filter_In in H. destruct H as [H T]. apply apart_true in T. simpl in T.
      assert (X : forall q, In q L -> q <> (a, b) -> String.eqb (get_flow_id a b) (gid q) = false).
      { intros q Hq N. apply eqb_neq'. intros E. apply N. symmetry. apply (Inj (a, b) q); auto. }
      rewrite !X; auto; [|intros E; inv E; tauto|intros E; inv E; tauto].
      apply (bk_flows _ _ B). eauto.
  - intros m. destruct (string_dec m n) as [-> |Nm].
    + unfold outgoing_of. rewrite On. rewrite filter_nil; auto. intros p Hp. apply filter_In in Hp.
      destruct Hp as [_ Hp]. apply apart_true in Hp. unfold from. apply eqb_neq'. tauto.
    + unfold outgoing_of. rewrite A by auto. rewrite andb_true_r, andb_false_r.
      destruct (String.eqb_spec m s0) as [-> |N2]; [exact Lo'|].
      fold (outgoing_of d m). rewrite (bk_out _ _ B). f_equal. rewrite filter_filter. apply filter_ext_in'.
      intros q Hq. unfold apart. destruct (from m q) eqn:T; rewrite ?andb_false_r, ?andb_true_r; auto.
      destruct (from n q) eqn:T2; [apply from_true in T; apply from_true in T2; congruence|].
      destruct (into n q) eqn:T3; auto. rewrite (U1 q Hq T3) in T. apply from_true in T. simpl in T. congruence.
  - intros m. destruct (string_dec m n) as [-> |Nm].
    + unfold incoming_of. rewrite On. rewrite filter_nil; auto. intros p Hp. apply filter_In in Hp.
      destruct Hp as [_ Hp]. apply apart_true in Hp. unfold into. apply eqb_neq'. tauto.
    + unfold incoming_of. rewrite A by auto. rewrite andb_true_r, andb_false_r.
      destruct (String.eqb_spec m t0) as [-> |N2]; [exact Li'|].
      fold (incoming_of d m). rewrite (bk_in _ _ B). f_equal. rewrite filter_filter. apply filter_ext_in'.
      intros q Hq. unfold apart. destruct (into m q) eqn:T; rewrite ?andb_false_r, ?andb_true_r; auto.
      destruct (into n q) eqn:T2; [apply into_true in T; apply into_true in T2; congruence|].
      destruct (from n q) eqn:T3; auto. rewrite (U2 q Hq T3) in T. apply into_true in T. simpl in T. congruence.
  - intros u v. rewrite !filter_In, !apart_true. cbn [fst snd].
    assert (X : linked d' u v <-> linked d u v /\ u <> n /\ v <> n).
    { unfold linked. rewrite (sp_edges _ _ _ _ _ S). split.
      - intros [e [He P]]. rewrite !filter_In in He. destruct He as [[[He C1] C2] C3].
        rewrite negb_true_iff, orb_false_iff, !String.eqb_neq in C3.
        split; [eauto|]. unfold same_pair in P. destruct P as [[P1 P2]|[P1 P2]]; subst; tauto.
      - intros [[e [He P]] [N1 N2]]. exists e. split; auto. rewrite !filter_In. split; [split; [split|]|]; auto.
        + apply negb_true_iff. destruct (connects s0 n e) eqn:C; auto. apply same_pair_connects in C.
          unfold same_pair in *. intuition congruence.
        + apply negb_true_iff. destruct (connects n t0 e) eqn:C; auto. apply same_pair_connects in C.
          unfold same_pair in *. intuition congruence.
        + apply negb_true_iff, orb_false_iff. rewrite !String.eqb_neq. unfold same_pair in P. intuition congruence. }
    rewrite X, (bk_linked _ _ B). tauto.
Qed.

(** * The edges *)
(** Every edge carries the attributes of one flow. *)
Definition edged (tb : dict row) (d : diagram) (L : list (string * string)) : Prop :=
  forall e, In e (gedges (dgraph d)) -> In (eu e, ev e) L /\
    eat e = conn_attrs (eu e) (ev e) (connection_condition (ev e) tb) [].

Lemma conn_attrs_again : forall s t c, conn_attrs s t c (conn_attrs s t c []) = conn_attrs s t c [].
Proof. intros s t [c|]; [|reflexivity]. unfold conn_attrs. destruct (String.eqb c ""); reflexivity. Qed.

Lemma edged_connect : forall tb tb' s t d d' L, edged tb d L -> connected tb' s t d d' ->
  connection_condition t tb' = connection_condition t tb -> ~ In (t, s) L -> edged tb d' (L ++ [(s, t)]).
Proof.
  intros tb tb' s t d d' L H C Ec N e He. rewrite (cn_edges _ _ _ _ _ C), Ec in He.
  unfold upd_edges in He. apply in_map_iff in He. destruct He as [e0 [<- He]].
  unfold edge_base in He. destruct (has_edge s t (dgraph d)).
  - destruct (H e0 He) as [I A]. destruct (connects s t e0) eqn:K; cbn [eu ev eat].
    + apply same_pair_connects in K. unfold same_pair in K. destruct K as [[K1 K2]|[K1 K2]].
      * rewrite K1, K2 in *. split; [apply in_app_iff; auto|]. rewrite A. apply conn_attrs_again.
      * exfalso. apply N. rewrite K1, K2 in I. exact I.
    + split; [apply in_app_iff; auto|exact A].
  - apply in_app_iff in He. destruct He as [He|[<- |[]]].
    + destruct (H e0 He) as [I A]. destruct (connects s t e0) eqn:K; cbn [eu ev eat].
      * apply same_pair_connects in K. unfold same_pair in K. destruct K as [[K1 K2]|[K1 K2]].
        -- rewrite K1, K2 in *. split; [apply in_app_iff; auto|]. rewrite A. apply conn_attrs_again.
        -- exfalso. apply N. rewrite K1, K2 in I. exact I.
      * split; [apply in_app_iff; auto|exact A].
    + assert (K : connects s t (mkEdge s t []) = true).
      { unfold connects. cbn [eu ev]. rewrite !eqb_refl'. reflexivity. }
      rewrite K. cbn [eu ev eat]. split; [apply in_app_iff; right; left; auto|reflexivity].
Qed.
Lemma edged_frame : forall tb d d' L, edged tb d L -> gedges (dgraph d') = gedges (dgraph d) -> edged tb d' L.
Proof. intros tb d d' L H E e He. rewrite E in He. auto. Qed.
Lemma edged_splice : forall tb n s t d d' L, edged tb d L -> spliced n s t d d' -> edged tb d' (filter (apart n) L).
Proof.
  intros tb n s t d d' L H S e He. rewrite (sp_edges _ _ _ _ _ S) in He. rewrite !filter_In in He.
  destruct He as [[[He _] _] K]. apply H in He. destruct He as [I A]. split; auto.
  apply filter_In. split; [exact I|exact K].
Qed.

(** * The last phase *)
Definition shortcut (n : string) (L L' : list (string * string)) : Prop :=
  exists s t, s <> n /\ t <> n /\ filter (into n) L = [(s, n)] /\ filter (from n) L = [(n, t)] /\
    L' = filter (apart n) L ++ [(s, t)].

Lemma books_gateway_step : forall n st st' L, books (fst st) L -> gateway_step n st st' ->
  (st' = st /\ (is_gateway (fst st) n -> 2 <= length (filter (into n) L) \/ 2 <= length (filter (from n) L))) \/
  (exists L', books (fst st') L' /\ is_gateway (fst st) n /\ shortcut n L L' /\ snd st' = ddel n (snd st) /\
     (forall m, is_node (fst st') m <-> is_node (fst st) m /\ m <> n) /\
     (forall m k, m <> n -> k <> "outgoing" -> k <> "incoming" -> attr (fst st') m k = attr (fst st) m k) /\
     same_meta (fst st) (fst st') /\
     (forall tb, edged tb (fst st) L ->
        (forall s t, In (s, n) L -> In (n, t) L -> ~ In (t, s) L /\ connection_condition t (snd st) = connection_condition t tb) ->
        edged tb (fst st') L')).
Proof.
  intros n st st' L B H. destruct H as [E K|s t d1 G Li Lo S N1 N2 C T].
  - left. split; auto. intros G. specialize (K G). rewrite (bk_in _ _ B), (bk_out _ _ B), !map_length in K. exact K.
  - right. rewrite (bk_in _ _ B), map_length in Li. rewrite (bk_out _ _ B), map_length in Lo.
    assert (L1 : length (filter (into n) L) = 1).
    { destruct (sp_flows _ _ _ _ _ S) as [f1 [l1 [r1 [lo [f2 [l2 [r2 [li X]]]]]]]]. destruct X as [I1 _].
      rewrite (bk_in _ _ B) in I1. apply (f_equal (@length string)) in I1. rewrite map_length in I1. simpl in I1. lia. }
    assert (L2 : length (filter (from n) L) = 1).
    { destruct (sp_flows _ _ _ _ _ S) as [f1 [l1 [r1 [lo [f2 [l2 [r2 [li X]]]]]]]]. destruct X as [I1 [D1 [Es [R1 [I2 _]]]]].
      destruct (String.eqb_spec n s) as [<- |N].
      - apply list_remove_ok in R1. destruct R1 as [u [v [R1 _]]]. rewrite (bk_out _ _ B) in R1.
        apply (f_equal (@length string)) in R1. rewrite map_length, app_length in R1. simpl in R1. lia.
      - rewrite (bk_out _ _ B) in I2. apply (f_equal (@length string)) in I2. rewrite map_length in I2. simpl in I2. lia. }
    destruct (books_splice _ _ _ _ _ _ B L1 L2 S) as [Ns [Nt [FI [FO B1]]]].
    exists (filter (apart n) L ++ [(s, t)]). split; [eapply books_connect; eauto|]. split; auto.
    split; [exists s, t; auto|]. split; auto. split; [|split; [|split]].
    + intros m. rewrite (connected_is_node _ _ _ _ _ _ C). apply (spliced_is_node _ _ _ _ _ _ S).
    + intros m k Hm K1 K2. rewrite (cn_attr _ _ _ _ _ C).
      rewrite (eqb_neq' _ _ K1), (eqb_neq' _ _ K2), !andb_false_r.
      destruct (sp_flows _ _ _ _ _ S) as [f1 [l1 [r1 [lo [f2 [l2 [r2 [li X]]]]]]]].
      destruct X as [_ [_ [_ [_ [_ [_ [_ [_ [_ A]]]]]]]]]. rewrite A by auto.
      rewrite (eqb_neq' _ _ K1), (eqb_neq' _ _ K2), !andb_false_r. reflexivity.
    + eapply same_meta_trans; [apply S|apply C].
    + intros tb He Hc.
      assert (I1 : In (s, n) (filter (into n) L)) by (rewrite FI; left; auto). apply filter_In in I1.
      assert (I2 : In (n, t) (filter (from n) L)) by (rewrite FO; left; auto). apply filter_In in I2.
      destruct (Hc s t (proj1 I1) (proj1 I2)) as [H1 H2].
      eapply edged_connect; [eapply edged_splice; eauto|exact C| |].
      * rewrite <- H2. rewrite ?T. unfold connection_condition. rewrite dget_ddel, (eqb_neq' _ _ Nt). reflexivity.
      * intros X. apply filter_In in X. tauto.
Qed.
