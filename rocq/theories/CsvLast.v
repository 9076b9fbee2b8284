(** The last phase of the importer, and the import of a whole table. *)
From Coq Require Import String Ascii List Bool Arith ZArith Lia Permutation.
From Verif Require Import Py PyFacts Consts Nx NxFacts Rep SpecRep RepFacts.
From Verif Require Import CsvRegex CsvImport SpecCsv RegexFacts CsvFacts CsvTable SpecFlow CsvGhost CsvFill.
Import ListNotations.
Open Scope string_scope.
Open Scope list_scope.

Definition flows_of := list (string * string).

(** The gateways that are left out. *)
Definition thin (d0 : diagram) (L0 : flows_of) (g : string) : Prop :=
  is_gateway d0 g /\ length (filter (into g) L0) < 2 /\ length (filter (from g) L0) < 2.

(** After visiting the nodes [done]. *)
Record thinned (d0 : diagram) (tb : dict row) (L0 : flows_of) (done : list string) (st : cstate) (L : flows_of) : Prop := mkThinned {
  th_books : books (fst st) L;
  th_nodes : forall x, is_node (fst st) x <-> is_node d0 x /\ ~ (In x done /\ thin d0 L0 x);
  th_attr : forall x k, is_node (fst st) x -> k <> "outgoing" -> k <> "incoming" -> attr (fst st) x k = attr d0 x k;
  th_into : forall g, is_gateway d0 g -> ~ (In g done /\ thin d0 L0 g) -> filter (into g) L = filter (into g) L0;
  th_from : forall g, is_gateway d0 g -> ~ (In g done /\ thin d0 L0 g) -> filter (from g) L = filter (from g) L0;
  th_flows : forall x y, In (x, y) L <->
    ~ (In x done /\ thin d0 L0 x) /\ ~ (In y done /\ thin d0 L0 y) /\
    (In (x, y) L0 \/ exists g, In g done /\ thin d0 L0 g /\ In (x, g) L0 /\ In (g, y) L0);
  th_meta : same_meta d0 (fst st);
  th_rows : forall o, ~ is_gateway d0 o -> dget o (snd st) = dget o tb }.

Lemma gateway_node : forall d g, is_gateway d g -> is_node d g.
Proof. intros d g [t [H _]]. eapply attr_is_node; eauto. Qed.

Lemma filter_app_single : forall A (f : A -> bool) l x, f x = false -> filter f (l ++ [x]) = filter f l.
Proof. intros A f l x H. rewrite filter_app. simpl. rewrite H, app_nil_r. reflexivity. Qed.

(** Nodes lead to one node each and never back. *)
Definition reach (d0 : diagram) (L0 : flows_of) (x y : string) : Prop :=
  In (x, y) L0 \/ exists g, thin d0 L0 g /\ In (x, g) L0 /\ In (g, y) L0.
Definition lone (d0 : diagram) (L0 : flows_of) : Prop :=
  forall s a b, ~ is_gateway d0 s -> In (s, a) L0 -> In (s, b) L0 -> a = b.
Definition tight (d0 : diagram) (L0 : flows_of) : Prop :=
  lone d0 L0 /\
  (forall x y, ~ is_gateway d0 x -> ~ is_gateway d0 y -> reach d0 L0 x y -> reach d0 L0 y x -> False).
Definition kept (tb : dict row) (d : diagram) (L : flows_of) : Prop := NoDup L /\ edged tb d L.

Lemma thin_step : forall d0 tb L0 done st L n st',
  (forall x y, In (x, y) L0 -> ~ (is_gateway d0 x /\ is_gateway d0 y)) ->
  thinned d0 tb L0 done st L -> ~ In n done -> is_node d0 n ->
  remove_gateway_if_unnecessary n st = (st', Ok tt) -> exists L', thinned d0 tb L0 (done ++ [n]) st' L' /\
    (lone d0 L0 -> NoDup L -> NoDup L') /\ (tight d0 L0 -> kept tb (fst st) L -> kept tb (fst st') L').
Proof.
  intros d0 tb L0 done st L n st' Alt T Nd Hn H.
  assert (Nn : is_node (fst st) n) by (apply (th_nodes _ _ _ _ _ _ T); tauto).
  assert (Nt : ~ (In n done /\ thin d0 L0 n)) by tauto.
  assert (Gw : is_gateway (fst st) n <-> is_gateway d0 n).
  { unfold is_gateway. rewrite (th_attr _ _ _ _ _ _ T) by (auto; discriminate). tauto. }
  apply gateway_round in H; [|apply (th_books _ _ _ _ _ _ T)].
  apply (books_gateway_step n st st' L (th_books _ _ _ _ _ _ T)) in H.
  destruct H as [[-> K]|[L' [B [G [Sh [Tb [Nodes [At [Me Ek]]]]]]]]].
  - exists L. assert (X : ~ thin d0 L0 n).
    { intros [G [A B]]. rewrite <- (th_into _ _ _ _ _ _ T n G Nt) in A. rewrite <- (th_from _ _ _ _ _ _ T n G Nt) in B.
      apply Gw in G. specialize (K G). lia. }
    assert (Y : forall x, (In x (done ++ [n]) /\ thin d0 L0 x) <-> (In x done /\ thin d0 L0 x)).
    { intros x. rewrite in_app_iff. simpl. split; [|tauto]. intros [[A|[A|[]]] C]; [auto|subst; contradiction]. }
    split; [|auto]. constructor; try apply T.
    + intros x. rewrite Y. apply T.
    + intros g. rewrite Y. apply T.
    + intros g. rewrite Y. apply T.
    + intros x y. rewrite !Y, (th_flows _ _ _ _ _ _ T). split; intros [A [C [D|[g D]]]]; split; auto; split; auto; right;
        exists g; [rewrite in_app_iff; tauto|]. destruct D as [D1 [D2 D3]]. destruct (proj1 (Y g) (conj D1 D2)). auto.
  - exists L'. apply Gw in G. destruct Sh as [s [t [Ns [Nt' [FI [FO ->]]]]]].
    rewrite (th_into _ _ _ _ _ _ T n G Nt) in FI. rewrite (th_from _ _ _ _ _ _ T n G Nt) in FO.
    assert (X : thin d0 L0 n) by (split; [auto|rewrite FI, FO; simpl; lia]).
    assert (I1 : In (s, n) L0 /\ forall x, In (x, n) L0 -> x = s).
    { split.
      - assert (A : In (s, n) (filter (into n) L0)) by (rewrite FI; left; auto). apply filter_In in A. tauto.
      - intros x Hx. assert (A : In (x, n) (filter (into n) L0)) by (apply filter_In; split; auto; apply into_true; auto).
        rewrite FI in A. destruct A as [A|[]]. congruence. }
    assert (I2 : In (n, t) L0 /\ forall x, In (n, x) L0 -> x = t).
    { split.
      - assert (A : In (n, t) (filter (from n) L0)) by (rewrite FO; left; auto). apply filter_In in A. tauto.
      - intros x Hx. assert (A : In (n, x) (filter (from n) L0)) by (apply filter_In; split; auto; apply from_true; auto).
        rewrite FO in A. destruct A as [A|[]]. congruence. }
    assert (Gs : ~ is_gateway d0 s) by (intros C; apply (Alt s n); tauto).
    assert (Gt : ~ is_gateway d0 t) by (intros C; apply (Alt n t); tauto).
    assert (Y : forall x, (In x (done ++ [n]) /\ thin d0 L0 x) <-> (In x done /\ thin d0 L0 x) \/ x = n).
    { intros x. rewrite in_app_iff. simpl. split; [|intros [A| ->]; tauto]. intros [[A|[A|[]]] C]; [auto|subst; auto]. }
    assert (Kp : forall g p, is_gateway d0 g -> g <> n -> In p L -> fst p = g \/ snd p = g -> apart n p = true).
    { intros g [x y] Hg Hgn Hp E. apply apart_true. cbn [fst snd] in *.
      apply (th_flows _ _ _ _ _ _ T) in Hp. destruct Hp as [P1 [P2 [P3|[h [P3 [P4 [P5 P6]]]]]]].
      - split; intros ->; destruct E as [E|E]; subst; try congruence; eapply Alt; eauto.
      - destruct E as [E|E]; subst; exfalso; [apply (Alt g h P5)|apply (Alt h g P6)]; split; auto; apply P4. }
    assert (Un : lone d0 L0 -> NoDup L -> NoDup (filter (apart n) L ++ [(s, t)])).
    { intros One Nu. apply NoDup_app_intro; [apply NoDup_filter; auto|repeat constructor; auto|]. intros p Hp [<- |[]].
      apply filter_In in Hp. destruct Hp as [Hp _]. apply (th_flows _ _ _ _ _ _ T) in Hp.
      destruct Hp as [_ [_ [Hp|[g [Hg [_ [Hp _]]]]]]].
      - apply Nt'. eapply One; [exact Gs|exact Hp|apply I1].
      - apply Nd. rewrite <- (One s g n Gs Hp (proj1 I1)). exact Hg. }
    split; [|split; [exact Un|]].
    2: { intros [One Back] [Nu Ed].
      assert (S1 : In (s, n) L).
      { assert (A : In (s, n) (filter (into n) L)) by (rewrite (th_into _ _ _ _ _ _ T n G Nt), FI; left; auto).
        apply filter_In in A. tauto. }
      assert (S2 : In (n, t) L).
      { assert (A : In (n, t) (filter (from n) L)) by (rewrite (th_from _ _ _ _ _ _ T n G Nt), FO; left; auto).
        apply filter_In in A. tauto. }
      split.
      - auto.
      - apply Ek; [exact Ed|]. intros s' t' X1 X2.
        assert (s' = s).
        { assert (A : In (s', n) (filter (into n) L)) by (apply filter_In; split; auto; apply into_true; auto).
          rewrite (th_into _ _ _ _ _ _ T n G Nt), FI in A. destruct A as [A|[]]. congruence. }
        assert (t' = t).
        { assert (A : In (n, t') (filter (from n) L)) by (apply filter_In; split; auto; apply from_true; auto).
          rewrite (th_from _ _ _ _ _ _ T n G Nt), FO in A. destruct A as [A|[]]. congruence. }
        subst s' t'. split.
        + intros C. apply (th_flows _ _ _ _ _ _ T) in C. destruct C as [_ [_ C]].
          apply (Back s t Gs Gt).
          * right. exists n. split; [exact X|]. split; [apply I1|apply I2].
          * destruct C as [C|[g [_ [C1 C2]]]]; [left; auto|right; exists g; split; [exact C1|exact C2]].
        + unfold connection_condition. rewrite (th_rows _ _ _ _ _ _ T) by auto. reflexivity. }
    constructor.
    + exact B.
    + intros x. rewrite Nodes, (th_nodes _ _ _ _ _ _ T), Y. tauto.
    + intros x k Hx K1 K2. apply Nodes in Hx. rewrite At by tauto. apply T; tauto.
    + intros g Hg. rewrite Y. intros Ng. rewrite filter_app_single.
      2: { unfold into. cbn [snd]. apply eqb_neq'. intros ->. contradiction. }
      rewrite <- (th_into _ _ _ _ _ _ T g Hg) by tauto. rewrite filter_filter. apply filter_ext_in'.
      intros p Hp. destruct (into g p) eqn:E; [|apply andb_false_r]. rewrite andb_true_r.
      apply (Kp g p); auto. right. apply into_true. auto.
    + intros g Hg. rewrite Y. intros Ng. rewrite filter_app_single.
      2: { unfold from. cbn [fst]. apply eqb_neq'. intros ->. contradiction. }
      rewrite <- (th_from _ _ _ _ _ _ T g Hg) by tauto. rewrite filter_filter. apply filter_ext_in'.
      intros p Hp. destruct (from g p) eqn:E; [|apply andb_false_r]. rewrite andb_true_r.
      apply (Kp g p); auto. left. apply from_true. auto.
    + intros x y. rewrite in_app_iff, filter_In, apart_true, (th_flows _ _ _ _ _ _ T), !Y. cbn [fst snd]. split.
      * intros [[[A [C D]] [E1 E2]]|[E|[]]].
        -- split; [tauto|]. split; [tauto|]. destruct D as [D|[g [D1 [D2 D3]]]]; auto. right. exists g.
           rewrite in_app_iff. auto.
        -- inv E. split; [intros [[_ [Q _]]|Q]; [contradiction|congruence]|].
           split; [intros [[_ [Q _]]|Q]; [contradiction|congruence]|].
           right. exists n. rewrite in_app_iff. simpl. tauto.
      * intros [A [C [D|[g [D1 [D2 [D3 D4]]]]]]].
        -- left. tauto.
        -- apply in_app_iff in D1. destruct D1 as [D1|[<- |[]]].
           ++ left. split; [|tauto]. split; [tauto|]. split; [tauto|]. right. exists g. auto.
           ++ right. left. f_equal; symmetry; [apply I1|apply I2]; auto.
    + eapply same_meta_trans; [apply T|exact Me].
    + intros o Ho. rewrite Tb, dget_ddel. destruct (String.eqb_spec o n) as [-> |]; [contradiction|]. apply T; auto.
Qed.

Lemma thinned_start : forall d0 tb L0, books d0 L0 -> thinned d0 tb L0 [] (d0, tb) L0.
Proof.
  intros d0 tb L0 B. constructor; cbn [fst snd]; auto.
  - intros x. split; [|tauto]. intros Hx. split; auto. intros [[] _].
  - intros x y. split; [|intros [_ [_ [X|[g [[] _]]]]]; auto].
    intros X. split; [intros [[] _]|]. split; [intros [[] _]|]. auto.
  - repeat split.
Qed.

Lemma thin_all : forall d0 tb L0 st', books d0 L0 ->
  (forall x y, In (x, y) L0 -> ~ (is_gateway d0 x /\ is_gateway d0 y)) ->
  remove_unnecessary_merge_gateways (d0, tb) = (st', Ok tt) ->
  exists L', thinned d0 tb L0 (node_keys d0) st' L' /\
    (lone d0 L0 -> NoDup L0 -> NoDup L') /\ (tight d0 L0 -> kept tb d0 L0 -> kept tb (fst st') L').
Proof.
  intros d0 tb L0 st' B Alt H. unfold remove_unnecessary_merge_gateways in H. rewrite mbind_read in H. cbn [fst] in H.
  change (dkeys (gnodes (dgraph d0))) with (node_keys d0) in H.
  assert (G : forall todo done st L, node_keys d0 = done ++ todo -> thinned d0 tb L0 done st L ->
    mfor todo remove_gateway_if_unnecessary st = (st', Ok tt) ->
    exists L', thinned d0 tb L0 (node_keys d0) st' L' /\
    (lone d0 L0 -> NoDup L -> NoDup L') /\ (tight d0 L0 -> kept tb (fst st) L -> kept tb (fst st') L')).
  { induction todo as [|n todo IH]; intros done st L E T X.
    - inv X. rewrite app_nil_r in E. rewrite E. eauto.
    - cbn [mfor] in X. apply mbind_ok in X. destruct X as [st1 [[] [X1 X2]]].
      destruct (thin_step d0 tb L0 done st L n st1 Alt T) as [L1 [T1 [U1 K1]]]; auto.
      + assert (N : NoDup (node_keys d0)) by (apply B). rewrite E in N. apply NoDup_remove_2 in N.
        intros C. apply N, in_app_iff. auto.
      + unfold is_node. fold (node_keys d0). rewrite E. apply in_app_iff. right. left. auto.
      + destruct (IH (done ++ [n]) st1 L1) as [L2 [T2 [U2 K2]]]; auto; [rewrite <- app_assoc; exact E|]. exists L2. auto. }
  eapply (G (node_keys d0) [] (d0, tb) L0); auto. apply thinned_start; auto.
Qed.

(** * The whole table *)
Lemma row_source_one : forall rows o t t', good_rows rows -> In o (orders rows) ->
  (forall m m', merges rows o m -> merges rows o m' -> m = m') ->
  raw_flow rows o t -> raw_flow rows o t' -> t = t'.
Proof.
  intros rows o t t' G Ho M A B. rewrite <- raw_by_all in A, B.
  apply row_source in A; [|eapply good_plain; eauto]. apply row_source in B; [|eapply good_plain; eauto].
  destruct A as [_ A], B as [_ B].
  destruct A as [[_ A]|[[A ->]|[m [A ->]]]], B as [[_ B]|[[B ->]|[m' [B ->]]]]; auto.
  - eapply follows_unique; eauto.
  - exfalso. destruct B as [_ [B _]]. eapply B; eauto.
  - exfalso. destruct B as [_ [B _]]. eapply B; eauto.
  - exfalso. destruct A as [_ [A _]]. eapply A; eauto.
  - exfalso. destruct B as [_ [_ [B _]]]. apply B. apply A.
  - exfalso. destruct A as [_ [A _]]. eapply A; eauto.
  - exfalso. destruct A as [_ [_ [A _]]]. apply A. apply B.
  - rewrite (M m m'); auto.
Qed.

Lemma short_unique : forall A (f : A -> bool) l, NoDup l ->
  (length (filter f l) < 2 <-> forall x y, In x l -> f x = true -> In y l -> f y = true -> x = y).
Proof.
  intros A f l N. assert (N' : NoDup (filter f l)) by (apply NoDup_filter; auto).
  assert (X : forall x, In x (filter f l) <-> In x l /\ f x = true) by (intros; apply filter_In).
  destruct (filter f l) as [|a [|b u]]; simpl; split; intros H; try lia.
  - intros x y Hx Fx. exfalso. apply (X x). auto.
  - intros x y Hx Fx Hy Fy. destruct (proj2 (X x)) as [<- |[]]; auto. destruct (proj2 (X y)) as [<- |[]]; auto.
  - exfalso. inversion N' as [|? ? Q _]; subst. apply Q. left.
    symmetry. apply H; apply X; simpl; auto.
Qed.

(** The gateways of the diagram after the connections are made. *)
Lemma filled_gateways : forall rows d0 d L, good_rows rows -> rows_in rows d0 ->
  filled rows d0 (orders rows) d L -> forall g, is_gateway d g <-> gateway_of rows g.
Proof.
  intros rows d0 d L G R F g. split.
  - intros Q. pose proof (gateway_node _ _ Q) as Hn. apply (fi_nodes _ _ _ _ _ F) in Hn.
    destruct Hn as [Hn|[[o [_ [S ->]]]|[o [m [_ [M ->]]]]]].
    + exfalso. destruct Q as [t [Q T]]. rewrite (fi_rows _ _ _ _ _ F) in Q by (auto; discriminate).
      apply in_map_iff in Hn. destruct Hn as [[o r] [<- Hn]]. cbn [fst] in *.
      rewrite (ri_type _ _ R o r Hn) in Q. inv Q. destruct (row_type_cases o r) as [E|[E|[E|E]]]; rewrite E in T;
        destruct T as [T|[T|T]]; discriminate.
    + left. eauto.
    + right. eauto.
  - intros [[o [S ->]]|[o [m [M ->]]]].
    + destruct (fi_split _ _ _ _ _ F o (onward_in _ _ (proj1 S)) S) as [ty [E A]]. exists ty. split; auto.
      eapply gateway_type_three; eauto.
    + destruct (fi_join _ _ _ _ _ F o m (onward_in _ _ (proj1 M)) M) as [ty [E A]]. exists ty. auto.
Qed.

Lemma gateway_not_row : forall rows g, good_rows rows -> gateway_of rows g -> ~ In g (orders rows).
Proof.
  intros rows g G [[o [_ ->]]|[o [m [_ ->]]]] C.
  - apply (split_not_plain o). eapply good_plain; eauto.
  - apply (join_not_plain m). eapply good_plain; eauto.
Qed.

(** Flows never join two gateways. *)
Lemma raw_alternates : forall rows x y, good_rows rows -> raw_flow rows x y -> gateway_of rows x -> ~ gateway_of rows y.
Proof.
  intros rows x y G H Gx Gy.
  assert (R : forall z, In z (orders rows) -> ~ gateway_of rows z).
  { intros z Hz Q. eapply gateway_not_row; eauto. }
  destruct H as [o m Q|o Q|o b Q Q'|o m Q|o m Q].
  - eapply R; [|exact Gx]. apply onward_in, Q.
  - eapply R; [|exact Gx]. apply onward_in, Q.
  - eapply R; [|exact Gy]. destruct Q' as [p [n [_ [_ Q']]]]. exact Q'.
  - eapply R; [|exact Gx]. apply onward_in, Q.
  - eapply R; [|exact Gy]. destruct Q as [_ [_ [_ [l [k [q [c [_ [_ [_ Q]]]]]]]]]]. exact Q.
Qed.

(** What the whole import of a table without goto rows gives. *)
Record imported (rows : dict row) (d d' : diagram) (L : flows_of) : Prop := mkImported {
  im_books : books d' L;
  im_nodup : NoDup L;
  im_edges : edged rows d' L;
  im_back : forall s t, In (s, t) L -> ~ In (t, s) L;
  im_flows : forall s t, In (s, t) L <-> table_flow rows s t;
  im_nodes : forall n, is_node d' n <-> table_node rows n;
  im_type : forall o r, In (o, r) rows -> attr d' o "type" = Some (VStr (row_type o r));
  im_name : forall o r, In (o, r) rows -> attr d' o "node_name" = Some (VStr (row_name o r));
  im_split : forall o, splits rows o -> table_node rows (split_of o) ->
    exists ty, get_gateway_type o (orders rows) rows = Ok ty /\ attr d' (split_of o) "type" = Some (VStr ty);
  im_join : forall o m, merges rows o m -> table_node rows (join_of m) ->
    exists ty, three_gateways ty /\ attr d' (join_of m) "type" = Some (VStr ty);
  im_leads : forall o, onward rows o -> (exists m, follows rows o m) \/ opens rows o \/ (exists m, closes rows o m);
  im_merge : forall o m m', merges rows o m -> merges rows o m' -> m = m';
  im_meta : exists d1, populate_dicts (d, rows) = ((d1, rows), Ok tt) /\ same_meta d1 d' }.

Lemma no_goto : forall rows st st', (forall o r, In (o, r) rows -> is_goto r = false) -> snd st = rows ->
  remove_goto_nodes st = (st', Ok tt) -> st' = st.
Proof.
  intros rows st st' N E H. unfold remove_goto_nodes in H. rewrite mbind_read in H. rewrite E in H.
  assert (X : forall l, (forall o r, In (o, r) l -> is_goto r = false) ->
    mfor l (fun p => if is_goto (snd p) then
      do s <- csv_remove_node (fst p) ;; do t <- mread (fun _ => goto_target (snd p)) ;; add_connection (fst s) t
      else mret tt) st = (st, Ok tt)).
  { clear. induction l as [|[o r] l IH]; intros N; [reflexivity|]. cbn [mfor fst snd]. rewrite (N o r) by (left; auto).
    unfold mbind. cbn. apply IH. intros a b Hb. apply (N a b). right; auto. }
  rewrite X in H by auto. inv H. reflexivity.
Qed.

Theorem table_import : forall table d d',
  let rows := remove_white_spaces_in_orders table in
  blank d -> good_rows rows -> (forall o r, In (o, r) rows -> is_goto r = false) ->
  load_diagram_from_csv table d = (d', Ok tt) -> exists L, imported rows d d' L.
Proof.
  intros table d d' rows Bl G NG H.
  destruct (import_phases _ _ _ H) as [d0 [s1 [s2 [d3 [s4 [s5 [P0 [P1 [P2 [P3 [P4 [P5 ->]]]]]]]]]]]].
  fold rows in P0, P1.
  assert (Bl0 : blank d0).
  { destruct (populate_eq (d, rows)) as [dd [Q [Gd [Fd _]]]]. cbn [fst snd] in *. rewrite P0 in Q. inv Q.
    destruct Bl. split; congruence. }
  destruct (rows_imported rows d0 Bl0 (proj1 G)) as [d1 [Q1 [R M1]]].
  { intros o Ho. eapply good_plain; eauto. }
  rewrite Q1 in P1. injection P1 as <-.
  destruct (fill_all rows d1 s2 G R P2) as [T2 [L F]].
  pose proof (fi_books _ _ _ _ _ F) as B2.
  destruct (legacy_inv _ _ (bk_wf _ _ B2) P3) as [W3 [A3 [K3 [E3 R3]]]].
  assert (B3 : books d3 L).
  { destruct R3 as [R3 _]. eapply books_frame; eauto. intros m k [-> | ->]; apply A3; discriminate. }
  assert (E4 : s4 = (d3, snd s2)) by (eapply (no_goto rows); eauto). subst s4.
  assert (GW : forall g, is_gateway d3 g <-> gateway_of rows g).
  { intros g. rewrite <- (filled_gateways _ _ _ _ G R F). unfold is_gateway. rewrite A3 by discriminate. tauto. }
  assert (FL : forall s t, In (s, t) L <-> raw_flow rows s t).
  { intros s t. rewrite (fi_flows _ _ _ _ _ F). apply raw_by_all. }
  assert (Alt : forall x y, In (x, y) L -> ~ (is_gateway d3 x /\ is_gateway d3 y)).
  { intros x y Hxy [C1 C2]. apply FL in Hxy. apply GW in C1. apply GW in C2. eapply raw_alternates; eauto. }
  destruct (thin_all d3 (snd s2) L s5 B3 Alt P5) as [L' [T [_ Kp]]].
  assert (TH : forall g, (In g (node_keys d3) /\ thin d3 L g) <-> dissolved rows g).
  { intros g. unfold thin, dissolved. rewrite GW, !short_unique by apply F. split.
    - intros [_ [Q1' [Q2 Q3]]]. split; auto. split; intros x y X1 X2.
      + assert (E : (x, g) = (y, g)) by (apply Q2; try apply FL; auto; apply into_true; auto). congruence.
      + assert (E : (g, x) = (g, y)) by (apply Q3; try apply FL; auto; apply from_true; auto). congruence.
    - intros [Q1' [Q2 Q3]]. split; [apply (gateway_node d3); apply GW; auto|]. split; auto. split.
      + intros [x1 x2] [y1 y2] X1 X2 X3 X4. apply into_true in X2. apply into_true in X4. cbn [snd] in *. subst.
        apply FL in X1. apply FL in X3. f_equal. eauto.
      + intros [x1 x2] [y1 y2] X1 X2 X3 X4. apply from_true in X2. apply from_true in X4. cbn [fst] in *. subst.
        apply FL in X1. apply FL in X3. f_equal. eauto. }
  assert (N3 : forall x, is_node d3 x <-> In x (orders rows) \/ gateway_of rows x).
  { intros x. unfold is_node. fold (node_keys d3). rewrite K3. change (In x (node_keys (fst s2))) with (is_node (fst s2) x).
    rewrite (fi_nodes _ _ _ _ _ F). unfold gateway_of. split; (intros [Q|[[o Q]|[o [m Q]]]] || intros [Q|[[o Q]|[o [m Q]]]]); auto.
    - right. left. exists o. tauto.
    - right. right. exists o, m. tauto.
    - right. left. exists o. pose proof (onward_in _ _ (proj1 (proj1 Q))). tauto.
    - right. right. exists o, m. pose proof (onward_in _ _ (proj1 (proj1 Q))). tauto. }
  assert (N5 : forall x, is_node (fst s5) x <-> table_node rows x).
  { intros x. rewrite (th_nodes _ _ _ _ _ _ T), N3, TH. reflexivity. }
  assert (Rk : forall o k, In o (orders rows) -> k <> "outgoing" -> k <> "incoming" -> k <> "event_definitions" ->
     attr (fst s5) o k = attr d1 o k).
  { intros o k Ho X1 X2 X3. rewrite (th_attr _ _ _ _ _ _ T), A3, (fi_rows _ _ _ _ _ F); auto. apply N5.
    split; auto. intros C. apply (gateway_not_row rows o G); auto. apply C. }
  assert (Rw : forall x y, In (x, y) L -> ~ is_gateway d3 x -> In x (orders rows)).
  { intros x y Hxy Gx. destruct (bk_ends _ _ B3 _ _ Hxy) as [Hx _]. apply N3 in Hx. destruct Hx as [Hx|Hx]; auto.
    exfalso. apply Gx, GW, Hx. }
  assert (Le : forall x y, ~ is_gateway d3 x -> ~ is_gateway d3 y -> reach d3 L x y ->
    In x (orders rows) /\ In y (orders rows) /\ leads rows x y).
  { intros x y Gx Gy R'. assert (Hx : In x (orders rows)) by (destruct R' as [Q|[g [_ [Q _]]]]; eapply Rw; eauto).
    assert (Hy : In y (orders rows)).
    { assert (Q : is_node d3 y) by (destruct R' as [Q|[g [_ [_ Q]]]]; eapply bk_ends; eauto).
      apply N3 in Q. destruct Q as [Q|Q]; auto. exfalso. apply Gy, GW, Q. }
    split; auto. split; auto. pose proof (good_plain _ _ G Hx) as Px. pose proof (good_plain _ _ G Hy) as Py.
    destruct R' as [Q|[g [[Hg _] [Q1' Q2]]]].
    - apply FL in Q. rewrite <- raw_by_all in Q. apply row_source in Q; auto. destruct Q as [_ [Q|[[Q ->]|[m [Q ->]]]]].
      + left. apply Q.
      + exfalso. eapply split_not_plain; eauto.
      + exfalso. eapply join_not_plain; eauto.
    - apply FL in Q1'. apply FL in Q2. rewrite <- raw_by_all in Q1', Q2. apply row_source in Q1'; auto.
      destruct Q1' as [_ [Q|[[Q ->]|[m [Q ->]]]]].
      + exfalso. apply GW in Hg. eapply gateway_not_row; eauto. eapply follows_in. apply Q.
      + apply split_source in Q2; auto. right. left. apply Q2.
      + apply join_source in Q2; auto. destruct Q2 as [-> _]. right. right. apply Q. }
  assert (Tg : tight d3 L).
  { split.
    - intros s a b Gs A B. assert (Hs : In s (orders rows)) by (eapply Rw; eauto).
      apply FL in A. apply FL in B. eapply row_source_one; eauto.
      intros m m' M. eapply (fi_merge _ _ _ _ _ F); eauto.
    - intros x y Gx Gy A B. destruct (Le x y Gx Gy A) as [Hx [Hy A']]. destruct (Le y x Gy Gx B) as [_ [_ B']].
      apply (leads_antisym rows x y); auto; eapply good_plain; eauto. }
  assert (K0 : kept (snd s2) d3 L).
  { split; [apply F|]. eapply edged_frame; [|exact E3]. rewrite T2. apply F. }
  destruct (Kp Tg K0) as [Nu Eg]. rewrite T2 in Eg.
  exists L'. constructor.
  - apply T.
  - exact Nu.
  - exact Eg.
  - assert (De : forall g, is_gateway d3 g \/ ~ is_gateway d3 g).
    { intros g. destruct (removable_type g d3) eqn:E; [left; apply removable_spec; auto|].
      right. intros C. apply removable_spec in C. congruence. }
    assert (Gx : forall x y, In (x, y) L' -> is_gateway d3 x \/ is_gateway d3 y -> In (x, y) L).
    { intros x y X Q. apply (th_flows _ _ _ _ _ _ T) in X. destruct X as [_ [_ [X|[g [_ [[Hg _] [X1 X2]]]]]]]; auto.
      exfalso. destruct Q as [Q|Q]; [apply (Alt x g X1)|apply (Alt g y X2)]; auto. }
    assert (Re : forall x y, In (x, y) L' -> reach d3 L x y).
    { intros x y X. apply (th_flows _ _ _ _ _ _ T) in X. destruct X as [_ [_ [X|[g [_ [Hg [X1 X2]]]]]]]; [left; auto|].
      right. eauto. }
    intros s t A B. destruct (De s) as [Hs|Hs]; [|destruct (De t) as [Ht|Ht]].
    + apply (raw_antisym rows s t G); apply FL; apply Gx; auto.
    + apply (raw_antisym rows s t G); apply FL; apply Gx; auto.
    + eapply (proj2 Tg s t); auto.
  - intros s t. rewrite (th_flows _ _ _ _ _ _ T), !TH. unfold table_flow. rewrite FL.
    split; (intros [X1 [X2 X3]]; split; [auto|]; split; [auto|]; destruct X3 as [X3|[g X3]]; [auto|right; exists g]).
    + destruct X3 as [X3 [X4 [X5 X6]]]. rewrite <- !FL. split; auto. apply TH. auto.
    + destruct X3 as [X3 [X4 X5]]. apply TH in X3. rewrite !FL. tauto.
  - exact N5.
  - intros o r Hr. rewrite Rk; try discriminate; [apply R; auto|]. apply in_map_iff. exists (o, r). auto.
  - intros o r Hr. rewrite Rk; try discriminate; [apply R; auto|]. apply in_map_iff. exists (o, r). auto.
  - intros o S Nn. rewrite (th_attr _ _ _ _ _ _ T), A3; try discriminate; [|apply N5; auto].
    apply F; auto. apply onward_in, S.
  - intros o m S Nn. rewrite (th_attr _ _ _ _ _ _ T), A3; try discriminate; [|apply N5; auto].
    eapply fi_join; eauto. apply onward_in, S.
  - intros o Ho. apply F; auto. apply onward_in, Ho.
  - intros o m m' M. eapply (fi_merge _ _ _ _ _ F); eauto. apply onward_in, M.
  - exists d0. split; auto. eapply same_meta_trans; [exact M1|]. eapply same_meta_trans; [apply (fi_meta _ _ _ _ _ F)|].
    eapply same_meta_trans; [|apply (th_meta _ _ _ _ _ _ T)]. destruct R3 as [_ R3]. exact R3.
Qed.
