(** The phases of the importer against the specification of SpecFlow.v. *)
From Coq Require Import String Ascii List Bool Arith ZArith Lia Permutation.
From Verif Require Import Py PyFacts Consts Nx NxFacts Rep SpecRep RepFacts.
From Verif Require Import CsvRegex CsvImport SpecCsv RegexFacts CsvFacts CsvTable SpecFlow CsvGhost.
Import ListNotations.
Open Scope string_scope.
Open Scope list_scope.

(** * Identifiers *)
Definition plain (s : string) : Prop := all_chars (fun c => latin c \/ digit c) s.
Lemma plain_app : forall a b, plain a -> plain b -> plain (a ++ b).
Proof. intros. apply all_chars_app; auto. Qed.
Lemma number_plain : forall n, number n -> plain n.
Proof. intros n [_ H] c Hc. right. auto. Qed.
Lemma pairs_plain : forall l, (forall n c, In (n, c) l -> number n /\ latin c) -> plain (pairs_text l).
Proof.
  induction l as [|[n c] l IH]; intros H; [intros x []|].
  rewrite pairs_text_cons. apply plain_app.
  - apply number_plain. apply (H n c). left; auto.
  - apply all_chars_cons. split; [left; apply (H n c); left; auto|]. apply IH. intros. apply H. right; auto.
Qed.
Lemma label_plain : forall s, label s -> plain s.
Proof.
  intros s [H|[l [m [_ [H [M ->]]]]]]; [apply number_plain; auto|].
  apply plain_app; [apply pairs_plain; auto|]. destruct M as [-> |M]; [intros c []|apply number_plain; auto].
Qed.
Lemma plain_not : forall s c, plain s -> is_in c s -> c <> "_"%char.
Proof.
  intros s c H Hc ->. apply H in Hc. unfold latin, digit, is_in in Hc. simpl in Hc. intuition discriminate.
Qed.
Lemma simple_plain : forall s t, plain s -> simple (s ++ t) = simple t.
Proof.
  induction s as [|c s IH]; intros t H; simpl; auto. apply all_chars_cons in H. destruct H as [Hc H].
  destruct (Ascii.eqb_spec c "_") as [-> |N]; [|apply IH; exact H].
  exfalso. apply (plain_not "_" "_"); [|left; auto|auto]. intros x [<- |[]]. exact Hc.
Qed.
Lemma plain_simple : forall s, plain s -> simple s = true.
Proof. intros s H. pose proof (simple_plain s "" H). rewrite sapp_nil in H0. exact H0. Qed.
Lemma split_simple : forall s, plain s -> simple (split_of s) = true.
Proof. intros s H. unfold split_of. rewrite simple_plain by auto. reflexivity. Qed.
Lemma join_simple : forall s, plain s -> simple (join_of s) = true.
Proof. intros s H. unfold join_of. rewrite simple_plain by auto. reflexivity. Qed.

Lemma in_app_str : forall c a b, is_in c b -> is_in c (a ++ b)%string.
Proof. unfold is_in. induction a; simpl; auto. Qed.
Lemma in_app_str_inv : forall c a b, is_in c (a ++ b)%string -> is_in c a \/ is_in c b.
Proof.
  unfold is_in. induction a as [|x a IH]; simpl; intros b H; auto. destruct H as [H|H]; auto. destruct (IH b H); auto.
Qed.
Lemma split_not_plain : forall o, ~ plain (split_of o).
Proof. intros o H. eapply plain_not; [exact H| |reflexivity]. apply in_app_str. left; auto. Qed.
Lemma join_not_plain : forall o, ~ plain (join_of o).
Proof. intros o H. eapply plain_not; [exact H| |reflexivity]. apply in_app_str. left; auto. Qed.
Lemma split_inj : forall a b, split_of a = split_of b -> a = b.
Proof. intros a b H. eapply sapp_inv_tail; eauto. Qed.
Lemma join_inj : forall a b, join_of a = join_of b -> a = b.
Proof. intros a b H. eapply sapp_inv_tail; eauto. Qed.
Lemma split_join : forall a b, split_of a <> join_of b.
Proof.
  intros a b H. unfold split_of, join_of in H.
  change "_split" with ("_spli" ++ String "t" "")%string in H.
  change "_join" with ("_joi" ++ String "n" "")%string in H.
  rewrite <- !sapp_assoc in H. apply snoc_inj in H. destruct H as [_ H]. discriminate.
Qed.

(** * Continuations *)
Lemma successors_in : forall l ids x, In x (successors_present l ids) <-> In x l /\ In x ids.
Proof. intros. unfold successors_present. rewrite nodup_In, filter_In, smem_In. tauto. Qed.
Lemma any_true : forall l ids, any_successor_present l ids = true <-> exists x, In x l /\ In x ids.
Proof.
  intros l ids. unfold any_successor_present. split.
  - destruct (successors_present l ids) as [|x r] eqn:E; [discriminate|]. intros _. exists x.
    apply successors_in. rewrite E. left; auto.
  - intros [x H]. apply successors_in in H. destruct (successors_present l ids); [contradiction|auto].
Qed.
Lemma any_false : forall l ids, any_successor_present l ids = false <-> forall x, In x l -> ~ In x ids.
Proof.
  intros l ids. split.
  - intros H x Hx C. assert (T : any_successor_present l ids = true) by (apply any_true; eauto). congruence.
  - intros H. destruct (any_successor_present l ids) eqn:E; auto. apply any_true in E. destruct E as [x [A B]].
    exfalso. eapply H; eauto.
Qed.
Lemma the_succ : forall l ids s, the_successor_present l ids = Ok s ->
  In s l /\ In s ids /\ forall x, In x l -> In x ids -> x = s.
Proof.
  intros l ids s H. unfold the_successor_present in H.
  destruct (successors_present l ids) as [|y [|z r]] eqn:E; inv H.
  assert (X : In s l /\ In s ids) by (apply successors_in; rewrite E; left; auto).
  split; [tauto|]. split; [tauto|]. intros x A B.
  assert (Y : In x (successors_present l ids)) by (apply successors_in; auto). rewrite E in Y.
  destruct Y as [Y|[]]; auto.
Qed.
Lemma the_succ_one : forall l ids s, In s l -> In s ids -> (forall x, In x l -> In x ids -> x = s) ->
  the_successor_present l ids = Ok s.
Proof.
  intros l ids s A B U. unfold the_successor_present.
  assert (N : NoDup (successors_present l ids)) by apply NoDup_nodup.
  destruct (successors_present l ids) as [|y r] eqn:E.
  - exfalso. assert (X : In s (successors_present l ids)) by (apply successors_in; auto). rewrite E in X. exact X.
  - assert (Y : y = s). { assert (X : In y (successors_present l ids)) by (rewrite E; left; auto).
      apply successors_in in X. apply U; tauto. }
    destruct r as [|z r]; [congruence|].
    assert (Z : z = s). { assert (X : In z (successors_present l ids)) by (rewrite E; right; left; auto).
      apply successors_in in X. apply U; tauto. }
    exfalso. inversion N as [|? ? N1 N2]; subst. apply N1. left; auto.
Qed.

Lemma follows_iff : forall rows o l, get_possible_sequence_continuation_successor o = Ok l ->
  forall m, In m l /\ In m (orders rows) <-> follows rows o m.
Proof.
  intros rows o l E m. split.
  - intros [A B]. destruct (re_match rx_trailing_number o) as [r|] eqn:R.
    + pose proof (trailing_number_some _ _ R) as N.
      rewrite (seq_succ_numbered _ _ _ N) in E. inv E. destruct A as [<- |[]]. unfold follows. eauto 6.
    + rewrite seq_succ_none in E by (apply trailing_number_none; auto). inv E. contradiction.
  - intros [p [n [N [-> H]]]]. rewrite (seq_succ_numbered _ _ _ N) in E. inv E. split; auto. left; auto.
Qed.
Lemma opens_iff : forall rows o l, get_possible_split_continuation_successor o = Ok l ->
  (any_successor_present l (orders rows) = true <-> opens rows o).
Proof.
  intros rows o l E. rewrite any_true. unfold opens. split.
  - intros [x [A B]]. destruct (re_match rx_trailing_number o) as [r|] eqn:R.
    + pose proof (trailing_number_some _ _ R) as N.
      rewrite (split_succ_numbered _ _ _ N) in E. inv E. exists (group 1 r), (group 2 r). split; auto.
      unfold next. rewrite !sapp_assoc. destruct A as [<- |[<- |[]]]; auto.
    + rewrite split_succ_none in E by (apply trailing_number_none; auto). inv E. contradiction.
  - intros [p [n [N H]]]. rewrite (split_succ_numbered _ _ _ N) in E. inv E.
    unfold next in H. rewrite !sapp_assoc in H. destruct H as [H|H]; [eexists; split; [left; reflexivity|exact H]|eexists; split; [right; left; reflexivity|exact H]].
Qed.

Lemma number_numbered : forall n, number n -> numbered n "" n.
Proof. intros n H. split; [exact H|]. split; left; reflexivity. Qed.
Lemma merge_number : forall o, number o -> get_possible_merge_continuation_successors o = Ok [].
Proof.
  intros o H. unfold get_possible_merge_continuation_successors.
  destruct (trailing_number_numbered _ _ _ (number_numbered o H)) as [m [E [G _]]]. rewrite E, G. reflexivity.
Qed.
Lemma latin_digit : forall c, latin c -> digit c -> False.
Proof.
  intros c A B. unfold latin, digit, is_in in *. simpl in B.
  repeat (destruct B as [B|B]; [subst c; simpl in A; intuition discriminate|]). contradiction.
Qed.
Lemma branch_not_number : forall l m s, branch_label l m s -> ~ number s.
Proof.
  intros l m s [Nl [H [_ ->]]] [_ D]. destruct l as [|[n c] l]; [congruence|].
  destruct (H n c (or_introl eq_refl)) as [_ C]. apply (latin_digit c C). apply D.
  rewrite pairs_text_cons, sapp_assoc. apply in_app_str. left; auto.
Qed.
Lemma closes_iff : forall rows o l, label o -> get_possible_merge_continuation_successors o = Ok l ->
  forall m, In m l /\ In m (orders rows) <-> closes rows o m.
Proof.
  intros rows o l Lo E m. split.
  - intros [A B]. destruct Lo as [N|[q [k Q]]].
    + rewrite merge_number in E by auto. inv E. contradiction.
    + rewrite (merge_successors _ _ _ Q) in E. inv E. apply in_map_iff in A. destruct A as [[a c] [<- A]].
      exists q, k, a, c. auto.
  - intros [q [k [a [c [Q [A [-> B]]]]]]]. split; auto. rewrite (merge_successors _ _ _ Q) in E. inv E.
    apply in_map_iff. exists (a, c). auto.
Qed.
Lemma merge_total : forall o, label o -> exists l, get_possible_merge_continuation_successors o = Ok l.
Proof. intros o [N|[q [k Q]]]; [rewrite merge_number by auto; eauto|]. rewrite (merge_successors _ _ _ Q). eauto. Qed.

Lemma onward_iff : forall rows o, NoDup (orders rows) -> In o (orders rows) ->
  exists b, is_node_the_end_event o rows = Ok b /\ (b = false <-> onward rows o).
Proof.
  intros rows o N H. unfold is_node_the_end_event, dgetE. apply dget_Some_keys in H. destruct H as [r R].
  rewrite R. simpl. eexists. split; [reflexivity|]. split.
  - intros E. exists r. split; [apply dget_In; auto|]. apply String.eqb_neq. exact E.
  - intros [r' [Hr E]]. assert (X : dget o rows = Some r') by (apply In_dget; auto).
    rewrite R in X. inv X. apply String.eqb_neq. exact E.
Qed.

Lemma label_number : forall z, (0 <= z)%Z -> label (zstr z).
Proof. intros. left. apply zstr_number. auto. Qed.
Lemma closes_label : forall rows o m, closes rows o m -> label m.
Proof.
  intros rows o m [l [k [q [c [[_ [H _]] [A [-> _]]]]]]]. apply label_number.
  destruct (H q c A) as [N _]. pose proof (value_nonneg q N). lia.
Qed.

(** * Nodes of the rows *)
Definition row_type (o : string) (r : row) : string :=
  if String.eqb o "0" then "startEvent"
  else if String.eqb (r_terminated r) "yes" then "endEvent"
  else if String.eqb (r_subprocess r) "yes" then "subProcess" else "task".
(** End events do not get the activity as their name. *)
Definition row_name (o : string) (r : row) : string :=
  if String.eqb (row_type o r) "endEvent" then "" else r_activity r.

Lemma row_type_cases : forall o r,
  row_type o r = "startEvent" \/ row_type o r = "endEvent" \/ row_type o r = "subProcess" \/ row_type o r = "task".
Proof. intros. unfold row_type. repeat (destruct (String.eqb _ _); auto). Qed.

Lemma row_node_new : forall o r d, ~ is_node d o ->
  exists d', add_node_info_to_diagram_graph o (Some (get_node_type o r)) (r_activity r) default_process_id d = (d', Ok tt) /\
    added o (row_type o r) d d' /\ attr d' o "node_name" = Some (VStr (row_name o r)).
Proof.
  intros o r d H.
  assert (T : get_node_type o r = row_type o r) by reflexivity. rewrite T.
  assert (K : node_type_or_task (Some (row_type o r)) = row_type o r).
  { destruct (row_type_cases o r) as [-> |[-> |[-> | ->]]]; reflexivity. }
  destruct (node_info_new o (Some (row_type o r)) (r_activity r) default_process_id d H) as [d' [E A]].
  exists d'. rewrite K in A. split; auto. split; auto.
  destruct (node_info_step o (Some (row_type o r)) (r_activity r) default_process_id d) as [ex [X [_ [_ [_ S]]]]].
  rewrite E in S. injection S as ->. destruct (c01 _ _ _ d X) as [_ [At _]]. rewrite At.
  unfold node_op in X. rewrite K in X. unfold row_name.
  destruct (row_type_cases o r) as [R|[R|[R|R]]]; rewrite R in X |- *; simpl in X; inv X; reflexivity.
Qed.

Record rows_in (rows : dict row) (d : diagram) : Prop := mkRowsIn {
  ri_books : books d [];
  ri_keys : node_keys d = orders rows;
  ri_type : forall o r, In (o, r) rows -> attr d o "type" = Some (VStr (row_type o r));
  ri_name : forall o r, In (o, r) rows -> attr d o "node_name" = Some (VStr (row_name o r)) }.

Lemma books_blank : forall d, blank d -> books d [].
Proof.
  intros d [G F]. constructor.
  - apply blank_wf. split; auto.
  - intros n H. unfold is_node in H. rewrite G in H. contradiction.
  - intros s t [].
  - rewrite F. constructor.
  - intros f r. rewrite F. split; [discriminate|]. intros [s [t [[] _]]].
  - intros n. unfold outgoing_of, attr, node_of. rewrite G. reflexivity.
  - intros n. unfold incoming_of, attr, node_of. rewrite G. reflexivity.
  - intros u v. unfold linked. rewrite G. simpl. split; [intros [e [[] _]]|intros [[]|[]]].
Qed.

Lemma rows_imported : forall rows d, blank d -> NoDup (orders rows) -> (forall o, In o (orders rows) -> plain o) ->
  exists d', import_nodes_info (d, rows) = ((d', rows), Ok tt) /\ rows_in rows d' /\ same_meta d d'.
Proof.
  intros rows d Bl N P. unfold import_nodes_info. rewrite mbind_read. cbn [snd].
  assert (G : forall todo done x, rows = done ++ todo -> rows_in done x -> same_meta d x ->
    exists d', mfor todo (fun p => on_diagram (add_node_info_to_diagram_graph (fst p)
        (Some (get_node_type (fst p) (snd p))) (r_activity (snd p)) default_process_id)) (x, rows) = ((d', rows), Ok tt)
      /\ rows_in rows d' /\ same_meta d d').
  { induction todo as [|[o r] todo IH]; intros done x E R M.
    - exists x. split; [reflexivity|]. rewrite app_nil_r in E. subst. auto.
    - assert (No : ~ is_node x o).
      { unfold is_node. fold (node_keys x). rewrite (ri_keys _ _ R). unfold orders in *. subst rows.
        rewrite map_app in N. simpl in N. apply NoDup_remove_2 in N. intros C. apply N. apply in_app_iff. auto. }
      destruct (row_node_new o r x No) as [x' [S [A Nm]]].
      assert (R' : rows_in (done ++ [(o, r)]) x').
      { constructor.
        - eapply books_add; eauto; [apply R|]. apply plain_simple, P. unfold orders. subst rows.
          rewrite map_app. apply in_app_iff. right. left. auto.
        - rewrite (ad_keys _ _ _ _ A), (ri_keys _ _ R). unfold orders. rewrite map_app. reflexivity.
        - intros o' r' H. apply in_app_iff in H. destruct H as [H|[H|[]]].
          + rewrite (ad_other _ _ _ _ A); [apply R; auto|]. intros ->. apply No.
            unfold is_node. fold (node_keys x). rewrite (ri_keys _ _ R). unfold orders. apply in_map_iff.
            exists (o, r'). auto.
          + inv H. apply A.
        - intros o' r' H. apply in_app_iff in H. destruct H as [H|[H|[]]].
          + rewrite (ad_other _ _ _ _ A); [apply R; auto|]. intros ->. apply No.
            unfold is_node. fold (node_keys x). rewrite (ri_keys _ _ R). unfold orders. apply in_map_iff.
            exists (o, r'). auto.
          + inv H. exact Nm. }
      destruct (IH (done ++ [(o, r)]) x') as [d' [E' [R2 M2]]]; auto.
      + rewrite <- app_assoc. exact E.
      + eapply same_meta_trans; [exact M|]. destruct (ad_rest _ _ _ _ A) as [_ X]. exact X.
      + exists d'. split; auto. cbn [mfor fst snd]. erewrite mbind_eq; [exact E'|].
        unfold on_diagram. cbn [fst snd]. rewrite S. reflexivity. }
  apply (G rows []); auto; [|repeat split].
  constructor; try (intros ? ? []).
  - apply books_blank; auto.
  - unfold node_keys. destruct Bl as [-> _]. reflexivity.
Qed.

(** * Connecting the rows *)

(** The flows caused by the rows [done]. *)
Inductive raw_by (rows : dict row) (done : list string) : string -> string -> Prop :=
| rb_sequence : forall o m, In o done -> goes_on rows o m -> raw_by rows done o m
| rb_split : forall o, In o done -> splits rows o -> raw_by rows done o (split_of o)
| rb_branch : forall o b, In o done -> splits rows o -> branch rows o b -> raw_by rows done (split_of o) b
| rb_join : forall o m, In o done -> merges rows o m -> raw_by rows done o (join_of m)
| rb_after : forall o m, In o done -> merges rows o m -> raw_by rows done (join_of m) m.

Lemma onward_in : forall rows o, onward rows o -> In o (orders rows).
Proof. intros rows o [r [H _]]. apply in_map_iff. exists (o, r). auto. Qed.

Lemma raw_by_all : forall rows s t, raw_by rows (orders rows) s t <-> raw_flow rows s t.
Proof.
  intros rows s t. split; intros H; destruct H.
  - apply rf_sequence; auto.
  - apply rf_split; auto.
  - apply rf_branch; auto.
  - apply rf_join; auto.
  - eapply rf_after; eauto.
  - apply rb_sequence; auto. apply onward_in, H.
  - apply rb_split; auto. apply onward_in, H.
  - apply rb_branch; auto. apply onward_in, H.
  - apply rb_join; auto. apply onward_in, H.
  - eapply rb_after; eauto. apply onward_in, H.
Qed.
Lemma raw_by_mono : forall rows l l' s t, (forall x, In x l -> In x l') -> raw_by rows l s t -> raw_by rows l' s t.
Proof.
  intros rows l l' s t I H. destruct H; [apply rb_sequence|apply rb_split|apply rb_branch|apply rb_join|eapply rb_after]; eauto.
Qed.
Lemma raw_by_cons : forall rows l n s t, raw_by rows (l ++ [n]) s t <-> raw_by rows l s t \/ raw_by rows [n] s t.
Proof.
  intros rows l n s t. split.
  - intros H. destruct H as [o m I G|o I G|o b I G G'|o m I G|o m I G]; apply in_app_iff in I; destruct I as [I|I];
      [left|right|left|right|left|right|left|right|left|right].
    all: try (apply rb_sequence; auto; fail). all: try (apply rb_split; auto; fail).
    all: try (apply rb_branch; auto; fail). all: try (apply rb_join; auto; fail).
    all: eapply rb_after; eauto.
  - intros [H|H]; eapply raw_by_mono; try exact H; intros x Hx; apply in_app_iff; auto.
Qed.

Record filled (rows : dict row) (base : diagram) (done : list string) (d : diagram) (L : list (string * string)) : Prop := mkFilled {
  fi_books : books d L;
  fi_nodes : forall x, is_node d x <-> In x (orders rows) \/
     (exists o, In o done /\ splits rows o /\ x = split_of o) \/
     (exists o m, In o done /\ merges rows o m /\ x = join_of m);
  fi_flows : forall s t, In (s, t) L <-> raw_by rows done s t;
  fi_nodup : NoDup L;
  fi_leads : forall o, In o done -> onward rows o ->
     (exists m, follows rows o m) \/ opens rows o \/ (exists m, closes rows o m);
  fi_merge : forall o m m', In o done -> merges rows o m -> merges rows o m' -> m = m';
  fi_rows : forall o k, In o (orders rows) -> k <> "outgoing" -> k <> "incoming" -> attr d o k = attr base o k;
  fi_split : forall o, In o done -> splits rows o ->
     exists ty, get_gateway_type o (orders rows) rows = Ok ty /\ attr d (split_of o) "type" = Some (VStr ty);
  fi_join : forall o m, In o done -> merges rows o m ->
     exists ty, three_gateways ty /\ attr d (join_of m) "type" = Some (VStr ty);
  fi_done : forall o, In o done -> In o (orders rows);
  fi_edges : edged rows d L;
  fi_val : forall o m, In o done -> merges rows o m -> (2 <= value m)%Z;
  fi_meta : same_meta base d }.

Lemma gateway_type_three : forall o ids rows ty, get_gateway_type o ids rows = Ok ty -> three_gateways ty.
Proof.
  intros o ids rows ty H. unfold get_gateway_type in H. rinv H. rinv E0. inv E2. unfold three_gateways.
  destruct (_ && _); auto. destruct (no_conditions _); auto.
Qed.
Lemma three_kept : forall ty, three_gateways ty -> node_type_or_task (Some ty) = ty.
Proof. intros ty [-> |[-> | ->]]; reflexivity. Qed.

Lemma connected_attr : forall tb s t d d' n k, connected tb s t d d' -> k <> "outgoing" -> k <> "incoming" ->
  attr d' n k = attr d n k.
Proof.
  intros tb s t d d' n k C A B. rewrite (cn_attr _ _ _ _ _ C), (eqb_neq' _ _ A), (eqb_neq' _ _ B), !andb_false_r. auto.
Qed.

(** Several connections from one node. *)
Lemma fan_out : forall g bs d tb st L, books d L -> is_node d g ->
  mfor bs (fun s => add_connection g s) (d, tb) = (st, Ok tt) ->
  snd st = tb /\ books (fst st) (L ++ map (fun b => (g, b)) bs) /\ node_keys (fst st) = node_keys d /\
  (forall n k, k <> "outgoing" -> k <> "incoming" -> attr (fst st) n k = attr d n k) /\
  (forall b, In b bs -> is_node d b) /\ same_meta d (fst st) /\
  (edged tb d L -> ~ In g bs -> (forall b, In b bs -> ~ In (b, g) L) -> edged tb (fst st) (L ++ map (fun b => (g, b)) bs)).
Proof.
  induction bs as [|b bs IH]; intros d tb st L B G E.
  - inv E. cbn [fst snd map]. rewrite app_nil_r. do 4 (split; auto). split; [intros b []|]. split; [repeat split|auto].
  - cbn [mfor] in E. apply mbind_ok in E. destruct E as [[d1 tb1] [[] [E1 E2]]].
    apply add_connection_inv in E1; [|apply B]. destruct E1 as [_ [Hb [T C]]]. cbn [fst snd] in *. subst tb1.
    assert (B1 : books d1 (L ++ [(g, b)])) by (eapply books_connect; eauto).
    destruct (IH d1 tb st _ B1) as [T2 [B2 [K2 [A2 [N2 [M2 Ed2]]]]]]; auto.
    { apply (connected_is_node _ _ _ _ _ _ C). exact G. }
    split; auto. split; [|split; [|split; [|split; [|split]]]].
    + rewrite <- app_assoc in B2. exact B2.
    + rewrite K2. apply C.
    + intros n k H1 H2. rewrite A2 by auto. eapply connected_attr; eauto.
    + intros x [<- |Hx]; auto. apply (connected_is_node _ _ _ _ _ _ C). auto.
    + eapply same_meta_trans; [apply C|exact M2].
    + intros He Hg Hb'. cbn [map]. rewrite <- (app_assoc L [(g, b)]) in Ed2. apply Ed2.
      * eapply edged_connect; eauto. apply Hb'. left; auto.
      * intros X. apply Hg. right; auto.
      * intros x Hx X. apply in_app_iff in X. destruct X as [X|[X|[]]].
        -- apply (Hb' x); auto. right; auto.
        -- inv X. apply Hg. left; auto.
Qed.

Definition good_rows (rows : dict row) : Prop :=
  NoDup (orders rows) /\ forall o, In o (orders rows) -> label o.

Lemma good_plain : forall rows o, good_rows rows -> In o (orders rows) -> plain o.
Proof. intros rows o [_ H] Ho. apply label_plain. auto. Qed.


(** Where flows start. *)
Lemma row_source : forall rows done o t, plain o -> raw_by rows done o t ->
  In o done /\ (goes_on rows o t \/ (splits rows o /\ t = split_of o) \/ exists m, merges rows o m /\ t = join_of m).
Proof.
  intros rows done o t P H. inversion H; subst; try (exfalso; eapply split_not_plain; eassumption);
    try (exfalso; eapply join_not_plain; eassumption); split; auto.
  right. right. eauto.
Qed.
Lemma split_source : forall rows done o t, good_rows rows -> raw_by rows done (split_of o) t ->
  In o done /\ splits rows o /\ branch rows o t.
Proof.
  intros rows done o t G H.
  assert (X : forall x, onward rows x -> split_of o <> x).
  { intros x Hx E. apply (split_not_plain o). rewrite E. eapply good_plain; eauto. apply onward_in; auto. }
  inversion H as [o1 m I Q E1 E2|o1 I Q E1 E2|o1 b I Q Q' E1 E2|o1 m I Q E1 E2|o1 m I Q E1 E2].
  - exfalso. apply (X _ (proj1 Q)). congruence.
  - exfalso. apply (X _ (proj1 Q)). congruence.
  - apply split_inj in E1. subst o1. auto.
  - exfalso. apply (X _ (proj1 Q)). congruence.
  - exfalso. symmetry in E1. eapply split_join; eauto.
Qed.
Lemma join_source : forall rows done m t, good_rows rows -> raw_by rows done (join_of m) t ->
  t = m /\ exists o, In o done /\ merges rows o m.
Proof.
  intros rows done m t G H.
  assert (X : forall x, onward rows x -> join_of m <> x).
  { intros x Hx E. apply (join_not_plain m). rewrite E. eapply good_plain; eauto. apply onward_in; auto. }
  inversion H as [o1 m1 I Q E1 E2|o1 I Q E1 E2|o1 b I Q Q' E1 E2|o1 m1 I Q E1 E2|o1 m1 I Q E1 E2].
  - exfalso. apply (X _ (proj1 Q)). congruence.
  - exfalso. apply (X _ (proj1 Q)). congruence.
  - exfalso. eapply split_join; eauto.
  - exfalso. apply (X _ (proj1 Q)). congruence.
  - apply join_inj in E1. split; [congruence|]. exists o1. split; [auto|congruence].
Qed.

(** Branches are found. *)
Lemma plain_special : forall c, latin c \/ digit c -> ~ special c.
Proof.
  intros c H S. unfold special, is_in in S. simpl in S. unfold latin, digit, is_in in H. simpl in H.
  repeat (destruct S as [S|S]; [subst c; intuition discriminate|]). contradiction.
Qed.
Lemma numbered_plain : forall s p n, numbered s p n -> plain s -> plain p.
Proof.
  intros s p n [_ [H _]] P c Hc. apply P. 
  assert (X : forall a b, is_in c a -> is_in c (a ++ b)%string).
  { clear. unfold is_in. induction a; simpl; intros b H; [contradiction|]. destruct H; auto. }
  destruct H as [-> | ->]; apply X; auto.
Qed.
Lemma branches_found : forall rows o bs, plain o -> get_all_split_successors o (orders rows) = Ok bs ->
  (forall b, In b bs <-> branch rows o b) /\ (NoDup (orders rows) -> NoDup bs).
Proof.
  intros rows o bs P E. destruct (re_match rx_trailing_number o) as [r|] eqn:R.
  - pose proof (trailing_number_some _ _ R) as N.
    rewrite (all_split_numbered _ _ _ (orders rows) N) in E.
    2: { intros c Hc. apply plain_special. apply (numbered_plain _ _ _ N P). exact Hc. }
    inv E. split.
    + intros b. rewrite filter_In. unfold is_branch. rewrite split_match. unfold branch, next. split.
      * intros [A B]. exists (group 1 r), (group 2 r). auto.
      * intros [p [n [N' [A B]]]]. destruct (numbered_unique _ _ _ _ _ N N') as [<- <-]. auto.
    + intros U. apply NoDup_filter. exact U.
  - rewrite all_split_none in E by (apply trailing_number_none; auto). discriminate.
Qed.

Lemma NoDup_app_intro : forall A (l l' : list A), NoDup l -> NoDup l' -> (forall x, In x l -> In x l' -> False) ->
  NoDup (l ++ l').
Proof.
  induction l as [|a l IH]; simpl; intros l' N N' D; auto. inversion N; subst. constructor.
  - rewrite in_app_iff. intros [C|C]; [auto|]. eapply D; eauto.
  - apply IH; eauto.
Qed.

(** The type of a new join. *)
Lemma merge_type_three : forall rows base done d L m ty, good_rows rows -> filled rows base done d L ->
  number m -> get_merge_node_type m d = Ok ty -> exists t, ty = Some t /\ three_gateways t.
Proof.
  intros rows base done d L m ty G F N H. unfold get_merge_node_type in H.
  destruct (trailing_number_numbered _ _ _ (number_numbered m N)) as [r [E [G1 G2]]]. rewrite E, G1, G2 in H.
  rewrite py_int_value in H by auto. cbn [rbind] in H. destruct (Z.ltb _ _); [discriminate|].
  change (("" ++ zstr (value m - 2))%string) with (zstr (value m - 2)) in H.
  set (sp := split_id (zstr (value m - 2))) in *.
  destruct (gnode (dgraph d) sp) as [a|] eqn:Ga; [|inv H; eexists; split; [reflexivity|]; left; reflexivity].
  assert (Hn : is_node d sp) by (apply is_node_of; exists a; exact Ga).
  apply (fi_nodes _ _ _ _ _ F) in Hn. destruct Hn as [Hn|[[o [Ho [So Eo]]]|[o [m' [Ho [Mo Eo]]]]]].
  - exfalso. apply (split_not_plain (zstr (value m - 2))). eapply good_plain; eauto.
  - destruct (fi_split _ _ _ _ _ F o Ho So) as [t [Gt At]]. rewrite <- Eo in At.
    unfold attr, node_of in At. unfold gnode in Ga. rewrite Ga in At. unfold dgetE in H.
    change k_type with "type" in H. rewrite At in H. cbn [rbind] in H. inv H.
    apply gateway_type_three in Gt. destruct Gt as [-> |[-> | ->]]; eexists; (split; [reflexivity|]);
      unfold three_gateways; auto.
  - exfalso. eapply split_join. exact Eo.
Qed.

Lemma closes_number : forall rows o m, closes rows o m -> number m.
Proof.
  intros rows o m [l [k [q [c [[_ [H _]] [A [-> _]]]]]]]. apply zstr_number.
  destruct (H q c A) as [N _]. pose proof (value_nonneg q N). lia.
Qed.
Lemma follows_unique : forall rows o m m', follows rows o m -> follows rows o m' -> m = m'.
Proof.
  intros rows o m m' [p [n [N [-> _]]]] [p' [n' [N' [-> _]]]].
  destruct (numbered_unique _ _ _ _ _ N N') as [-> ->]. reflexivity.
Qed.

Lemma merge_value : forall m d ty, number m -> get_merge_node_type m d = Ok ty -> (2 <= value m)%Z.
Proof.
  intros m d ty N H. unfold get_merge_node_type in H.
  destruct (trailing_number_numbered _ _ _ (number_numbered m N)) as [r [E [G1 G2]]]. rewrite E, G1, G2 in H.
  rewrite py_int_value in H by auto. cbn [rbind] in H. destruct (Z.ltb_spec (value m - 2) 0); [discriminate|lia].
Qed.

(** * No two rows lead to each other *)
Definition leads (rows : dict row) (s t : string) : Prop :=
  follows rows s t \/ branch rows s t \/ closes rows s t.

Lemma no_line_feed_plain : forall s, plain s -> no_line_feed s.
Proof.
  intros s P C. apply P in C. unfold latin, digit, is_in in C. vm_compute in C. intuition discriminate.
Qed.
(** Plain orders end in their number. *)
Lemma numbered_plain_eq : forall s p n, plain s -> numbered s p n -> s = (p ++ n)%string.
Proof.
  intros s p n P [_ [[H|H] _]]; auto. exfalso. apply (no_line_feed_plain s P). rewrite H.
  apply in_app_str, in_app_str. left. reflexivity.
Qed.
Lemma branch_plain_eq : forall next e, plain e -> branch_of next e ->
  exists c k, latin c /\ e = (next ++ String c (ones k))%string.
Proof.
  intros next e P [c [k [L H]]]. rewrite ones_concat in H. exists c, k.
  assert (X : is_in c e).
  { destruct H as [-> | ->]; apply in_app_str; left; reflexivity. }
  split.
  - destruct L as [L| ->]; auto. apply P in X. unfold latin, digit, is_in in X. vm_compute in X. intuition discriminate.
  - destruct H as [H|H]; auto. exfalso. apply (no_line_feed_plain e P). rewrite H.
    apply in_app_str. right. apply in_app_str. left. reflexivity.
Qed.
Lemma not_digits : forall n c u, number n -> latin c -> n <> (u ++ String c "")%string /\ ~ is_in c n.
Proof.
  intros n c u [_ N] L. assert (X : ~ is_in c n) by (intros C; eapply latin_digit; eauto).
  split; auto. intros ->. apply X. apply in_app_str. left. reflexivity.
Qed.
Lemma ones_number : forall k, k = 0 \/ number (ones k).
Proof.
  intros [|k]; auto. right. split; [discriminate|]. induction k as [|k IH]; intros c Hc.
  - destruct Hc as [<- |[]]. vm_compute. auto 20.
  - destruct Hc as [<- |Hc]; [vm_compute; auto 20|]. apply IH. exact Hc.
Qed.
Lemma next_number : forall n, number n -> number (zstr (value n + 1)) /\ value (zstr (value n + 1)) = (value n + 1)%Z.
Proof.
  intros n N. pose proof (value_nonneg n N). split; [apply zstr_number; lia|apply value_zstr; lia].
Qed.
(** The candidates do not depend on how a label is read. *)
Lemma closes_single : forall rows s m n c k, number n -> latin c -> s = (n ++ String c (ones k))%string ->
  closes rows s m -> m = zstr (value n + 1).
Proof.
  intros rows s m n c k N L E [l [j [q [x [B [I [-> _]]]]]]]. apply merge_successors in B.
  assert (B' : branch_label [(n, c)] (ones k) s).
  { split; [discriminate|]. split; [intros a b [X|[]]; inv X; auto|]. split.
    - destruct (ones_number k) as [-> |X]; [left; reflexivity|auto].
    - rewrite pairs_text_cons. cbn [pairs_text map String.concat]. rewrite E, sapp_assoc. reflexivity. }
  apply merge_successors in B'. rewrite B in B'. injection B' as B'. cbn [map fst] in B'.
  assert (X : In (zstr (value q + 1)) (map (fun p : string * ascii => zstr (value (fst p) + 1)) l)).
  { apply in_map_iff. exists (q, x). auto. }
  rewrite B' in X. destruct X as [X|[]]. auto.
Qed.
Lemma closes_branch : forall rows s m, closes rows s m -> ~ number s.
Proof. intros rows s m [l [k [q [c [B _]]]]]. eapply branch_not_number; eauto. Qed.
Lemma numbered_number : forall s p n, number s -> numbered s p n -> p = "" /\ n = s.
Proof. intros s p n N H. destruct (numbered_unique _ _ _ _ _ H (number_numbered s N)). auto. Qed.

Lemma leads_antisym : forall rows s t, plain s -> plain t -> leads rows s t -> leads rows t s -> False.
Proof.
  intros rows s t Ps Pt A B.
  assert (Z : forall n, number n -> n <> zstr (value n + 2)).
  { intros n N E. pose proof (value_nonneg n N). pose proof (value_zstr (value n + 2)) as V. rewrite <- E in V. lia. }
  destruct A as [[p [n [N [Et _]]]]|[[p [n [N [Bt _]]]]|Ct]].
  - (* t follows s *)
    pose proof (numbered_plain_eq _ _ _ Ps N) as Es. unfold next in Et.
    destruct (next_number n (proj1 N)) as [Nn Vn].
    assert (Nt : numbered t p (zstr (value n + 1))).
    { split; auto. split; [left; auto|]. apply N. }
    destruct B as [[p' [n' [N' [E' _]]]]|[[p' [n' [N' [B' _]]]]|Cs]].
    + destruct (numbered_unique _ _ _ _ _ N' Nt) as [-> ->]. unfold next in E'. rewrite Vn in E'.
      rewrite Es in E'. apply sapp_inv_head in E'. apply (Z n (proj1 N)). rewrite E' at 1. f_equal. lia.
    + destruct (numbered_unique _ _ _ _ _ N' Nt) as [-> ->].
      apply branch_plain_eq in B'; auto. destruct B' as [c [k [L E']]]. unfold next in E'. rewrite Es, sapp_assoc in E'.
      apply sapp_inv_head in E'. apply (proj2 (not_digits n c "" (proj1 N) L)). rewrite E'. apply in_app_str. left; reflexivity.
    + pose proof (closes_number _ _ _ Cs) as Ns. destruct (numbered_number _ _ _ Ns N) as [-> ->].
      apply (closes_branch _ _ _ Cs). rewrite Et. exact Nn.
  - (* t is a branch *)
    pose proof (numbered_plain_eq _ _ _ Ps N) as Es.
    destruct (next_number n (proj1 N)) as [Nn Vn].
    apply branch_plain_eq in Bt; auto. destruct Bt as [c [k [L Et]]]. unfold next in Et.
    assert (X : forall u, s <> ((p ++ zstr (value n + 1)) ++ String c u)%string).
    { intros u E. rewrite Es, sapp_assoc in E. apply sapp_inv_head in E.
      apply (proj2 (not_digits n c "" (proj1 N) L)). rewrite E. apply in_app_str. left; reflexivity. }
    assert (Y : forall p' n', numbered t p' n' -> p' = ((p ++ zstr (value n + 1)) ++ String c "")%string).
    { intros p' n' N'. destruct (ones_number k) as [-> |O].
      - exfalso. cbn [ones] in Et. pose proof (numbered_plain_eq _ _ _ Pt N') as E'. rewrite Et in E'.
        destruct (last_char n') as [Q|[u [x Q]]]; [destruct N' as [[N' _] _]; contradiction|].
        rewrite Q, <- sapp_assoc in E'. apply snoc_inj in E'. destruct E' as [_ E']. subst x.
        apply (proj1 (not_digits n' c u (proj1 N') L)). exact Q.
      - assert (M : numbered t ((p ++ zstr (value n + 1)) ++ String c "") (ones k)).
        { split; auto. split; [left; rewrite Et, !sapp_assoc; reflexivity|]. right. right. exists (p ++ zstr (value n + 1))%string, c.
          split; auto. split; [|left; auto]. intros C. apply (no_line_feed_plain t Pt). rewrite Et.
          clear - C. revert C. generalize (p ++ zstr (value n + 1))%string. unfold is_in.
          induction s as [|y s IH]; simpl; [contradiction|]. intros [C|C]; auto. }
        destruct (numbered_unique _ _ _ _ _ N' M). auto. }
    destruct B as [[p' [n' [N' [E' _]]]]|[[p' [n' [N' [B' _]]]]|Cs]].
    + apply Y in N'. unfold next in E'. rewrite N', sapp_assoc in E'. eapply X; eauto.
    + apply Y in N'. apply branch_plain_eq in B'; auto. destruct B' as [c' [k' [_ E']]]. unfold next in E'.
      rewrite N', !sapp_assoc in E'. rewrite <- sapp_assoc in E'. eapply X. exact E'.
    + pose proof (closes_number _ _ _ Cs) as Ns. destruct (numbered_number _ _ _ Ns N) as [-> ->].
      change ("" ++ zstr (value s + 1))%string with (zstr (value s + 1)) in Et.
      pose proof (closes_single _ _ _ _ _ _ Nn L Et Cs) as E. rewrite Vn in E.
      apply (Z s Ns). rewrite E at 1. f_equal. lia.
  - (* t closes s *)
    pose proof (closes_number _ _ _ Ct) as Nt. pose proof (closes_branch _ _ _ Ct) as Bs.
    destruct B as [[p' [n' [N' [E' _]]]]|[[p' [n' [N' [B' _]]]]|Cs]].
    + destruct (numbered_number _ _ _ Nt N') as [-> ->]. apply Bs. rewrite E'. apply (next_number t Nt).
    + destruct (numbered_number _ _ _ Nt N') as [-> ->]. destruct (next_number t Nt) as [Nn Vn].
      apply branch_plain_eq in B'; auto. destruct B' as [c [k [L Es]]]. unfold next in Es.
      change ("" ++ zstr (value t + 1))%string with (zstr (value t + 1)) in Es.
      pose proof (closes_single _ _ _ _ _ _ Nn L Es Ct) as E. rewrite Vn in E.
      apply (Z t Nt). rewrite E at 1. f_equal. lia.
    + eapply closes_branch; eauto.
Qed.

Lemma no_self : forall rows s, plain s -> leads rows s s -> False.
Proof. intros rows s P H. eapply leads_antisym; eauto. Qed.

Lemma branch_in : forall rows o b, branch rows o b -> In b (orders rows).
Proof. intros rows o b [p [n [_ [_ H]]]]. exact H. Qed.
Lemma closes_in : forall rows o m, closes rows o m -> In m (orders rows).
Proof. intros rows o m [l [k [q [c [_ [_ [_ H]]]]]]]. exact H. Qed.
Lemma follows_in : forall rows o m, follows rows o m -> In m (orders rows).
Proof. intros rows o m [p [n [_ [_ H]]]]. exact H. Qed.

Lemma raw_antisym : forall rows s t, good_rows rows -> raw_flow rows s t -> raw_flow rows t s -> False.
Proof.
  intros rows s t G A B. rewrite <- raw_by_all in B.
  assert (P : forall x, In x (orders rows) -> plain x) by (intros x Hx; eapply good_plain; eauto).
  destruct A as [o m Q|o Q|o b Q Q'|o m Q|o m Q].
  - pose proof (onward_in _ _ (proj1 Q)) as Ho. pose proof (follows_in _ _ _ (proj2 Q)) as Hm.
    apply row_source in B; auto. destruct B as [_ [B|[[_ B]|[x [_ B]]]]].
    + apply (leads_antisym rows o m); auto; left; [apply Q|apply B].
    + apply (split_not_plain m). rewrite <- B. auto.
    + apply (join_not_plain x). rewrite <- B. auto.
  - apply split_source in B; auto. destruct B as [_ [_ B]]. apply (no_self rows o); auto.
    + apply P, onward_in, Q.
    + right. left. exact B.
  - pose proof (branch_in _ _ _ Q') as Hb. apply row_source in B; auto. destruct B as [_ [B|[[_ B]|[x [_ B]]]]].
    + apply (split_not_plain o). apply P. eapply follows_in. apply B.
    + apply split_inj in B. subst b. apply (no_self rows o); auto. right. left. exact Q'.
    + eapply split_join; eauto.
  - apply join_source in B; auto. destruct B as [-> _]. apply (no_self rows m); auto.
    + apply P. apply onward_in, Q.
    + right. right. apply Q.
  - assert (Hm : In m (orders rows)) by (eapply closes_in; apply Q).
    apply row_source in B; auto. destruct B as [_ [B|[[_ B]|[x [M B]]]]].
    + apply (join_not_plain m). apply P. eapply follows_in. apply B.
    + symmetry in B. eapply split_join; eauto.
    + apply join_inj in B. subst x. apply (no_self rows m); auto. right. right. apply M.
Qed.

(** One row. *)
Lemma fill_step : forall rows base done d L n st, good_rows rows -> filled rows base done d L ->
  In n (orders rows) -> ~ In n done -> connect_node (orders rows) n (d, rows) = (st, Ok tt) ->
  snd st = rows /\ exists L', filled rows base (done ++ [n]) (fst st) L'.
Proof.
  intros rows base done d L n st G F Hn Nd H.
  pose proof (good_plain _ _ G Hn) as Pn. pose proof (proj2 G n Hn) as Ln.
  destruct (onward_iff rows n (proj1 G) Hn) as [bE [EE Eon]].
  assert (Back : forall a b, raw_flow rows a b -> ~ In (b, a) L).
  { intros a b X C. apply (fi_flows _ _ _ _ _ F) in C. apply (raw_antisym rows a b G X).
    rewrite <- raw_by_all. eapply raw_by_mono; [|exact C]. apply (fi_done _ _ _ _ _ F). }
  assert (Old : forall t, ~ raw_by rows done n t) by (intros t C; apply row_source in C; tauto).
  apply connect_inv in H. destruct H as
    [E1 -> | l s E1 E2 E3 E4 E5 | l succs ty st1 st2 E1 E2 E3 E4 E5 E6 E7 E8 E9
    | l s E1 E2 E3 E4 E5 E6 E7 E8 | l s ty st1 st2 E1 E2 E3 E4 E5 E6 E7 E8 E9 E10 E11]; cbn [fst snd] in *;
    rewrite E1 in EE; injection EE as <-.
  - (* the end *)
    assert (No : ~ onward rows n) by (intros C; apply Eon in C; discriminate).
    split; auto. exists L. constructor; try apply F.
    + intros x. rewrite (fi_nodes _ _ _ _ _ F). split.
      * intros [X|[[o X]|[o [m X]]]]; [auto|right; left; exists o|right; right; exists o, m]; rewrite in_app_iff; tauto.
      * intros [X|[[o [X Y]]|[o [m [X Y]]]]]; [auto|right; left; exists o|right; right; exists o, m];
          apply in_app_iff in X; destruct X as [X|[<- |[]]]; auto; exfalso; apply No; destruct Y as [[Y _] _]; exact Y.
    + intros s t. rewrite raw_by_cons, (fi_flows _ _ _ _ _ F). split; [auto|]. intros [X|X]; auto. exfalso.
      destruct X as [o m I Q|o I Q|o b I Q Q'|o m I Q|o m I Q]; destruct I as [<- |[]]; apply No; apply Q.
    + intros o Ho On. apply in_app_iff in Ho. destruct Ho as [Ho|[<- |[]]]; [apply F; auto|contradiction].
    + intros o m m' Ho M. apply in_app_iff in Ho. destruct Ho as [Ho|[<- |[]]]; [apply F; auto|]. exfalso. apply No, M.
    + intros o Ho S. apply in_app_iff in Ho. destruct Ho as [Ho|[<- |[]]]; [apply F; auto|]. exfalso. apply No, S.
    + intros o m Ho S. apply in_app_iff in Ho. destruct Ho as [Ho|[<- |[]]]; [eapply fi_join; eauto|]. exfalso. apply No, S.
    + intros o Ho. apply in_app_iff in Ho. destruct Ho as [Ho|[<- |[]]]; [eapply fi_done; eauto|exact Hn].
    + intros o m Ho S. apply in_app_iff in Ho. destruct Ho as [Ho|[<- |[]]]; [eapply fi_val; eauto|]. exfalso. apply No, S.
  - (* a sequence *)
    assert (On : onward rows n) by (apply Eon; auto).
    destruct (the_succ _ _ _ E4) as [S1 [S2 _]].
    assert (Fo : follows rows n s) by (apply (follows_iff rows n l E2); auto).
    apply add_connection_inv in E5; [|apply (fi_books _ _ _ _ _ F)]. destruct E5 as [N1 [N2 [T C]]]. split; auto.
    exists (L ++ [(n, s)]).
    assert (Ns : ~ splits rows n) by (intros [_ [X _]]; eapply X; eauto).
    assert (Nm : forall m, ~ merges rows n m) by (intros m [_ [X _]]; eapply X; eauto).
    constructor.
    + eapply books_connect; eauto. apply F.
    + intros x. rewrite (connected_is_node _ _ _ _ _ _ C), (fi_nodes _ _ _ _ _ F). split.
      * intros [X|[[o X]|[o [m X]]]]; [auto|right; left; exists o|right; right; exists o, m]; rewrite in_app_iff; tauto.
      * intros [X|[[o [X Y]]|[o [m [X Y]]]]]; [auto|right; left; exists o|right; right; exists o, m];
          apply in_app_iff in X; destruct X as [X|[<- |[]]]; auto; exfalso.
        -- apply Ns, Y.
        -- apply (Nm m), Y.
    + intros a b. rewrite raw_by_cons, in_app_iff, (fi_flows _ _ _ _ _ F). split; intros [X|X]; auto.
      * destruct X as [X|[]]. inv X. right. apply rb_sequence; [left; auto|]. split; auto.
      * destruct X as [o m I Q|o I Q|o x I Q Q'|o m I Q|o m I Q]; destruct I as [<- |[]]; try contradiction;
          try (exfalso; eapply Nm; eassumption).
        right. left. f_equal. eapply follows_unique; [exact Fo|apply Q].
    + apply NoDup_app_intro; [apply F|repeat constructor; auto|]. intros p X [<- |[]].
      apply (fi_flows _ _ _ _ _ F) in X. eapply Old; eauto.
    + intros o Ho. apply in_app_iff in Ho. destruct Ho as [Ho|[<- |[]]]; [apply F; auto|]. eauto.
    + intros o m m' Ho M. apply in_app_iff in Ho. destruct Ho as [Ho|[<- |[]]]; [apply F; auto|]. exfalso. eapply Nm; eauto.
    + intros o k Ho K1 K2. rewrite (connected_attr _ _ _ _ _ _ _ C) by auto. apply F; auto.
    + intros o Ho S. rewrite (connected_attr _ _ _ _ _ _ _ C) by discriminate.
      apply in_app_iff in Ho. destruct Ho as [Ho|[<- |[]]]; [apply F; auto|]. contradiction.
    + intros o m Ho S. rewrite (connected_attr _ _ _ _ _ _ _ C) by discriminate.
      apply in_app_iff in Ho. destruct Ho as [Ho|[<- |[]]]; [eapply fi_join; eauto|]. exfalso. eapply Nm; eauto.
    + intros o Ho. apply in_app_iff in Ho. destruct Ho as [Ho|[<- |[]]]; [eapply fi_done; eauto|exact Hn].
    + eapply edged_connect; [apply F|exact C|reflexivity|]. apply Back. apply rf_sequence. split; auto.
    + intros o m Ho S. apply in_app_iff in Ho. destruct Ho as [Ho|[<- |[]]]; [eapply fi_val; eauto|]. exfalso. eapply Nm; eauto.
    + eapply same_meta_trans; [apply F|apply C].
  - (* a split *)
    assert (On : onward rows n) by (apply Eon; auto).
    assert (Nf : forall m, ~ follows rows n m).
    { unfold is_there_sequence_continuation in E2. rinv E2. inv E0. intros m C.
      apply (follows_iff rows n _ E m) in C. rewrite any_false in H0. eapply H0; apply C. }
    assert (Op : opens rows n) by (apply (opens_iff rows n l E3); auto).
    assert (Sp : splits rows n) by (split; auto).
    assert (Ng : ~ is_node d (split_of n)).
    { intros C. apply (fi_nodes _ _ _ _ _ F) in C. destruct C as [C|[[o [C [_ X]]]|[o [m [C [_ X]]]]]].
      - apply (split_not_plain n). eapply good_plain; eauto.
      - apply split_inj in X. subst. auto.
      - eapply split_join; eauto. }
    apply gateway_type_three in E5 as T3.
    apply on_diagram_ok in E7. cbn [fst snd] in E7. destruct E7 as [E7 T1].
    destruct (node_info_new (split_id n) (Some ty) "" default_process_id d Ng) as [d1 [X1 A1]].
    rewrite X1 in E7. injection E7 as E7. rewrite (three_kept _ T3) in A1. change (split_id n) with (split_of n) in *.
    destruct st1 as [d1' tb1]. cbn [fst snd] in *. subst d1' tb1.
    assert (B1 : books d1 L) by (eapply books_add; eauto; [apply F|apply split_simple; auto]).
    apply add_connection_inv in E8; [|apply B1]. destruct E8 as [N1 [N2 [T2 C2]]].
    destruct st2 as [d2 tb2]. cbn [fst snd] in *. subst tb2.
    assert (B2 : books d2 (L ++ [(n, split_of n)])) by (eapply books_connect; eauto).
    assert (Ng2 : is_node d2 (split_of n)) by (apply (connected_is_node _ _ _ _ _ _ C2); auto).
    destruct (fan_out _ _ _ _ _ _ B2 Ng2 E9) as [T3' [B3 [K3 [A3 [N3 [M3 Ed3]]]]]]. split; auto.
    destruct (branches_found rows n succs Pn E6) as [Br NB].
    exists ((L ++ [(n, split_of n)]) ++ map (fun b => (split_of n, b)) succs).
    assert (Nm : forall m, ~ merges rows n m) by (intros m [_ [_ [X _]]]; auto).
    assert (At : forall m k, k <> "outgoing" -> k <> "incoming" -> m <> split_of n -> attr (fst st) m k = attr d m k).
    { intros m k K1 K2 Hm. rewrite A3, (connected_attr _ _ _ _ _ _ _ C2) by auto. apply A1. auto. }
    constructor.
    + exact B3.
    + intros x. unfold is_node. fold (node_keys (fst st)). rewrite K3. change (In x (node_keys d2)) with (is_node d2 x).
      rewrite (connected_is_node _ _ _ _ _ _ C2), (added_is_node _ _ _ _ _ A1), (fi_nodes _ _ _ _ _ F). split.
      * intros [[X|[[o X]|[o [m X]]]]| ->]; [auto|right; left; exists o|right; right; exists o, m|right; left; exists n];
          rewrite in_app_iff; simpl; tauto.
      * intros [X|[[o [X Y]]|[o [m [X Y]]]]]; [auto| |]; apply in_app_iff in X; destruct X as [X|[<- |[]]].
        -- left. right. left. eauto.
        -- right. apply Y.
        -- left. right. right. eauto.
        -- exfalso. apply (Nm m), Y.
    + intros a b. rewrite raw_by_cons, !in_app_iff, (fi_flows _ _ _ _ _ F), in_map_iff. split.
      * intros [[X|[X|[]]]|[x [X Y]]]; auto; inv X; right.
        -- apply rb_split; [left; auto|auto].
        -- apply rb_branch; [left; auto|auto|]. apply Br; auto.
      * intros [X|X]; auto. destruct X as [o m I Q|o I Q|o x I Q Q'|o m I Q|o m I Q]; destruct I as [<- |[]];
          try (exfalso; eapply Nm; eassumption).
        -- exfalso. eapply Nf. apply Q.
        -- left. right. left. auto.
        -- right. exists x. split; auto. apply Br; auto.
    + apply NoDup_app_intro.
      * apply NoDup_app_intro; [apply F|repeat constructor; auto|]. intros p X [<- |[]].
        apply (fi_flows _ _ _ _ _ F) in X. eapply Old; eauto.
      * apply FinFun.Injective_map_NoDup; [intros a b X; inv X; auto|]. apply NB. apply G.
      * intros [a b] X Y. apply in_map_iff in Y. destruct Y as [x [Y _]]. inv Y.
        apply in_app_iff in X. destruct X as [X|[X|[]]].
        -- apply (fi_flows _ _ _ _ _ F) in X. apply split_source in X; auto. tauto.
        -- inv X. apply (split_not_plain n). rewrite <- H0. exact Pn.
    + intros o Ho. apply in_app_iff in Ho. destruct Ho as [Ho|[<- |[]]]; [apply F; auto|]. auto.
    + intros o m m' Ho M. apply in_app_iff in Ho. destruct Ho as [Ho|[<- |[]]]; [apply F; auto|]. exfalso. eapply Nm; eauto.
    + intros o k Ho K1 K2. rewrite At; auto; [apply F; auto|]. intros ->. apply (split_not_plain n). eapply good_plain; eauto.
    + intros o Ho S. apply in_app_iff in Ho. destruct Ho as [Ho|[<- |[]]].
      * rewrite At; [apply F; auto|discriminate|discriminate|]. intros X. apply split_inj in X. subst. auto.
      * exists ty. split; auto. rewrite A3, (connected_attr _ _ _ _ _ _ _ C2) by discriminate. apply A1.
    + intros o m Ho S. apply in_app_iff in Ho. destruct Ho as [Ho|[<- |[]]]; [|exfalso; eapply Nm; eauto].
      rewrite At; [eapply fi_join; eauto|discriminate|discriminate|]. intros X. symmetry in X. eapply split_join; eauto.
    + intros o Ho. apply in_app_iff in Ho. destruct Ho as [Ho|[<- |[]]]; [eapply fi_done; eauto|exact Hn].
    + apply Ed3.
      * eapply edged_connect; [eapply edged_frame; [apply F|apply A1]|exact C2|reflexivity|]. apply Back. apply rf_split. auto.
      * intros X. apply (split_not_plain n). eapply good_plain; eauto. eapply branch_in. apply Br. exact X.
      * intros b Hb X. apply in_app_iff in X. destruct X as [X|[X|[]]].
        -- eapply Back; [|exact X]. apply rf_branch; auto. apply Br; auto.
        -- injection X as <-. apply (no_self rows n Pn). right. left. apply Br. exact Hb.
    + intros o m Ho S. apply in_app_iff in Ho. destruct Ho as [Ho|[<- |[]]]; [eapply fi_val; eauto|]. exfalso. eapply Nm; eauto.
    + eapply same_meta_trans; [apply F|]. eapply same_meta_trans; [|exact M3].
      eapply same_meta_trans; [|apply C2]. destruct (ad_rest _ _ _ _ A1) as [_ X]. exact X.
  - (* an existing join *)
    assert (On : onward rows n) by (apply Eon; auto).
    assert (Nf : forall m, ~ follows rows n m).
    { unfold is_there_sequence_continuation in E2. rinv E2. inv E0. intros m C.
      apply (follows_iff rows n _ E m) in C. rewrite any_false in H0. eapply H0; apply C. }
    assert (No : ~ opens rows n).
    { unfold is_there_split_continuation in E3. rinv E3. inv E0. intros C.
      apply (opens_iff rows n _ E) in C. congruence. }
    destruct (the_succ _ _ _ E6) as [S1 [S2 S3]].
    assert (Cl : forall m, closes rows n m <-> m = s).
    { intros m. rewrite <- (closes_iff rows n l Ln E4 m). split; [intros [X Y]; auto|intros ->; auto]. }
    assert (Me : forall m, merges rows n m <-> m = s).
    { intros m. rewrite <- Cl. split; [intros X; apply X|]. intros X. split; auto. }
    change (join_id s) with (join_of s) in *.
    assert (Ex : exists o, In o done /\ merges rows o s).
    { apply (fi_nodes _ _ _ _ _ F) in E7. destruct E7 as [X|[[o [_ [_ X]]]|[o [m [X [Y Z]]]]]].
      - exfalso. apply (join_not_plain s). eapply good_plain; eauto.
      - exfalso. symmetry in X. eapply split_join; eauto.
      - apply join_inj in Z. subst. eauto. }
    destruct Ex as [o0 [Ho0 Mo0]].
    apply add_connection_inv in E8; [|apply (fi_books _ _ _ _ _ F)]. destruct E8 as [N1 [N2 [T C]]]. split; auto.
    exists (L ++ [(n, join_of s)]).
    assert (Ns : ~ splits rows n) by (intros [_ [_ X]]; auto).
    constructor.
    + eapply books_connect; eauto. apply F.
    + intros x. rewrite (connected_is_node _ _ _ _ _ _ C), (fi_nodes _ _ _ _ _ F). split.
      * intros [X|[[o X]|[o [m X]]]]; [auto|right; left; exists o|right; right; exists o, m]; rewrite in_app_iff; tauto.
      * intros [X|[[o [X Y]]|[o [m [X Y]]]]]; [auto|right; left; exists o|right; right];
          apply in_app_iff in X; destruct X as [X|[<- |[]]].
        -- auto.
        -- exfalso. apply Ns, Y.
        -- eauto.
        -- destruct Y as [Y ->]. apply Me in Y. subst m. eauto.
    + intros a b. rewrite raw_by_cons, in_app_iff, (fi_flows _ _ _ _ _ F). split.
      * intros [X|[X|[]]]; auto. inv X. right. apply rb_join; [left; auto|]. apply Me. auto.
      * intros [X|X]; auto. destruct X as [o m I Q|o I Q|o x I Q Q'|o m I Q|o m I Q]; destruct I as [<- |[]]; try contradiction.
        -- exfalso. eapply Nf. apply Q.
        -- apply Me in Q. subst. right. left. auto.
        -- apply Me in Q. subst. left. eapply rb_after; eauto.
    + apply NoDup_app_intro; [apply F|repeat constructor; auto|]. intros p X [<- |[]].
      apply (fi_flows _ _ _ _ _ F) in X. eapply Old; eauto.
    + intros o Ho. apply in_app_iff in Ho. destruct Ho as [Ho|[<- |[]]]; [apply F; auto|].
      intros _. right. right. exists s. apply Cl. auto.
    + intros o m m' Ho M M'. apply in_app_iff in Ho. destruct Ho as [Ho|[<- |[]]]; [eapply (fi_merge _ _ _ _ _ F); eauto|].
      apply Me in M. apply Me in M'. congruence.
    + intros o k Ho K1 K2. rewrite (connected_attr _ _ _ _ _ _ _ C) by auto. apply F; auto.
    + intros o Ho S. rewrite (connected_attr _ _ _ _ _ _ _ C) by discriminate.
      apply in_app_iff in Ho. destruct Ho as [Ho|[<- |[]]]; [apply F; auto|]. contradiction.
    + intros o m Ho S. rewrite (connected_attr _ _ _ _ _ _ _ C) by discriminate.
      apply in_app_iff in Ho. destruct Ho as [Ho|[<- |[]]]; [eapply fi_join; eauto|].
      apply Me in S. subst m. eapply fi_join; eauto.
    + intros o Ho. apply in_app_iff in Ho. destruct Ho as [Ho|[<- |[]]]; [eapply fi_done; eauto|exact Hn].
    + eapply edged_connect; [apply F|exact C|reflexivity|]. apply Back. apply rf_join. apply Me. auto.
    + intros o m Ho S. apply in_app_iff in Ho. destruct Ho as [Ho|[<- |[]]]; [eapply fi_val; eauto|].
      apply Me in S. subst m. eapply fi_val; eauto.
    + eapply same_meta_trans; [apply F|apply C].
  - (* a new join *)
    assert (On : onward rows n) by (apply Eon; auto).
    assert (Nf : forall m, ~ follows rows n m).
    { unfold is_there_sequence_continuation in E2. rinv E2. inv E0. intros m C.
      apply (follows_iff rows n _ E m) in C. rewrite any_false in H0. eapply H0; apply C. }
    assert (No : ~ opens rows n).
    { unfold is_there_split_continuation in E3. rinv E3. inv E0. intros C.
      apply (opens_iff rows n _ E) in C. congruence. }
    destruct (the_succ _ _ _ E6) as [S1 [S2 S3]].
    assert (Cl : forall m, closes rows n m <-> m = s).
    { intros m. rewrite <- (closes_iff rows n l Ln E4 m). split; [intros [X Y]; auto|intros ->; auto]. }
    assert (Me : forall m, merges rows n m <-> m = s).
    { intros m. rewrite <- Cl. split; [intros X; apply X|]. intros X. split; auto. }
    change (join_id s) with (join_of s) in *.
    assert (Ns : ~ splits rows n) by (intros [_ [_ X]]; auto).
    assert (Num : number s) by (eapply closes_number; apply Cl; reflexivity).
    assert (Val : (2 <= value s)%Z) by (eapply merge_value; eauto).
    destruct (merge_type_three _ _ _ _ _ _ _ G F Num E8) as [t [-> T3]].
    apply on_diagram_ok in E9. cbn [fst snd] in E9. destruct E9 as [E9 T1].
    destruct (node_info_new (join_of s) (Some t) "" default_process_id d E7) as [d1 [X1 A1]].
    rewrite X1 in E9. injection E9 as E9. rewrite (three_kept _ T3) in A1.
    destruct st1 as [d1' tb1]. cbn [fst snd] in *. subst d1' tb1.
    assert (B1 : books d1 L).
    { eapply books_add; eauto; [apply F|]. apply join_simple. apply number_plain; auto. }
    apply add_connection_inv in E10; [|apply B1]. destruct E10 as [N1 [N2 [T2 C2]]].
    destruct st2 as [d2 tb2]. cbn [fst snd] in *. subst tb2.
    assert (B2 : books d2 (L ++ [(join_of s, s)])) by (eapply books_connect; eauto).
    apply add_connection_inv in E11; [|apply B2]. destruct E11 as [N3 [N4 [T4 C3]]]. split; auto.
    exists ((L ++ [(join_of s, s)]) ++ [(n, join_of s)]).
    assert (Nj : forall o, In o done -> ~ merges rows o s).
    { intros o Ho X. apply E7. apply (fi_nodes _ _ _ _ _ F). right. right. eauto. }
    assert (At : forall m k, k <> "outgoing" -> k <> "incoming" -> m <> join_of s -> attr (fst st) m k = attr d m k).
    { intros m k K1 K2 Hm. rewrite (connected_attr _ _ _ _ _ _ _ C3), (connected_attr _ _ _ _ _ _ _ C2) by auto.
      apply A1. auto. }
    constructor.
    + eapply books_connect; eauto.
    + intros x. rewrite (connected_is_node _ _ _ _ _ _ C3), (connected_is_node _ _ _ _ _ _ C2),
        (added_is_node _ _ _ _ _ A1), (fi_nodes _ _ _ _ _ F). split.
      * intros [[X|[[o X]|[o [m X]]]]| ->]; [auto|right; left; exists o|right; right; exists o, m|right; right; exists n, s];
          rewrite in_app_iff; simpl; try tauto. split; auto. split; auto. apply Me; auto.
      * intros [X|[[o [X Y]]|[o [m [X Y]]]]]; [auto| |]; apply in_app_iff in X; destruct X as [X|[<- |[]]].
        -- left. right. left. eauto.
        -- exfalso. apply Ns, Y.
        -- left. right. right. eauto.
        -- destruct Y as [Y ->]. apply Me in Y. subst m. auto.
    + intros a b. rewrite raw_by_cons, !in_app_iff, (fi_flows _ _ _ _ _ F). split.
      * intros [[X|[X|[]]]|[X|[]]]; auto; inv X; right.
        -- eapply rb_after; [left; reflexivity|]. apply Me. auto.
        -- apply rb_join; [left; auto|]. apply Me. auto.
      * intros [X|X]; auto. destruct X as [o m I Q|o I Q|o x I Q Q'|o m I Q|o m I Q]; destruct I as [<- |[]]; try contradiction.
        -- exfalso. eapply Nf. apply Q.
        -- apply Me in Q. subst. right. left. auto.
        -- apply Me in Q. subst. left. right. left. auto.
    + apply NoDup_app_intro; [apply NoDup_app_intro; [apply F|repeat constructor; auto|]|repeat constructor; auto|].
      * intros p X [<- |[]]. apply (fi_flows _ _ _ _ _ F) in X. apply join_source in X; auto.
        destruct X as [_ [o [X Y]]]. eapply Nj; eauto.
      * intros p X [<- |[]]. apply in_app_iff in X. destruct X as [X|[X|[]]].
        -- apply (fi_flows _ _ _ _ _ F) in X. eapply Old; eauto.
        -- injection X as Y1 Y2. apply (join_not_plain s). rewrite Y1. exact Pn.
    + intros o Ho. apply in_app_iff in Ho. destruct Ho as [Ho|[<- |[]]]; [apply F; auto|].
      intros _. right. right. exists s. apply Cl. auto.
    + intros o m m' Ho M M'. apply in_app_iff in Ho. destruct Ho as [Ho|[<- |[]]]; [eapply (fi_merge _ _ _ _ _ F); eauto|].
      apply Me in M. apply Me in M'. congruence.
    + intros o k Ho K1 K2. rewrite At; auto; [apply F; auto|]. intros ->. apply (join_not_plain s). eapply good_plain; eauto.
    + intros o Ho S. apply in_app_iff in Ho. destruct Ho as [Ho|[<- |[]]]; [|contradiction].
      rewrite At; [apply F; auto|discriminate|discriminate|]. apply split_join.
    + intros o m Ho S. apply in_app_iff in Ho. destruct Ho as [Ho|[<- |[]]].
      * rewrite At; [eapply fi_join; eauto|discriminate|discriminate|]. intros X. apply join_inj in X. subst. eapply Nj; eauto.
      * apply Me in S. subst m. exists t. split; auto.
        rewrite (connected_attr _ _ _ _ _ _ _ C3), (connected_attr _ _ _ _ _ _ _ C2) by discriminate. apply A1.
    + intros o Ho. apply in_app_iff in Ho. destruct Ho as [Ho|[<- |[]]]; [eapply fi_done; eauto|exact Hn].
    + eapply edged_connect; [|exact C3|reflexivity|].
      * eapply edged_connect; [eapply edged_frame; [apply F|apply A1]|exact C2|reflexivity|]. apply Back.
        eapply rf_after. apply Me. reflexivity.
      * intros X. apply in_app_iff in X. destruct X as [X|[X|[]]].
        -- eapply Back; [|exact X]. apply rf_join. apply Me. auto.
        -- injection X as ->. apply (no_self rows n Pn). right. right. apply Cl. auto.
    + intros o m Ho S. apply in_app_iff in Ho. destruct Ho as [Ho|[<- |[]]]; [eapply fi_val; eauto|].
      apply Me in S. subst m. exact Val.
    + eapply same_meta_trans; [apply F|]. eapply same_meta_trans; [|apply C3].
      eapply same_meta_trans; [|apply C2]. destruct (ad_rest _ _ _ _ A1) as [_ X]. exact X.
Qed.

Lemma fill_rows : forall rows base todo done d L st, good_rows rows -> orders rows = done ++ todo ->
  filled rows base done d L -> mfor todo (connect_node (orders rows)) (d, rows) = (st, Ok tt) ->
  snd st = rows /\ exists L', filled rows base (orders rows) (fst st) L'.
Proof.
  intros rows base. induction todo as [|n todo IH]; intros done d L st G E F H.
  - inv H. rewrite app_nil_r in E. rewrite E. split; auto. exists L. exact F.
  - cbn [mfor] in H. apply mbind_ok in H. destruct H as [[d1 tb1] [[] [H1 H2]]].
    destruct (fill_step rows base done d L n (d1, tb1) G F) as [T [L1 F1]]; auto.
    + rewrite E. apply in_app_iff. right. left. auto.
    + pose proof (proj1 G) as N. rewrite E in N. apply NoDup_remove_2 in N. intros C. apply N, in_app_iff. auto.
    + cbn [fst snd] in *. subst tb1. apply (IH (done ++ [n]) d1 L1); auto. rewrite <- app_assoc. exact E.
Qed.

Lemma filled_start : forall rows d, rows_in rows d -> filled rows d [] d [].
Proof.
  intros rows d R. constructor; [| | | |intros ? []|intros ? ? ? []| |intros ? []|intros ? ? []|intros ? []| |intros ? ? []|].
  - apply R.
  - intros x. unfold is_node. fold (node_keys d). rewrite (ri_keys _ _ R). split; auto.
    intros [H|[[o [[] _]]|[o [m [[] _]]]]]; auto.
  - intros s t. split; [intros []|]. intros H. destruct H as [? ? []|? []|? ? []|? ? []|? ? []].
  - constructor.
  - auto.
  - intros e He. exfalso. assert (X : linked d (eu e) (ev e)) by (exists e; split; auto; left; auto).
    apply (bk_linked _ _ (ri_books _ _ R)) in X. destruct X as [[]|[]].
  - repeat split.
Qed.

Lemma fill_all : forall rows d st, good_rows rows -> rows_in rows d ->
  fill_graph_connections (d, rows) = (st, Ok tt) ->
  snd st = rows /\ exists L, filled rows d (orders rows) (fst st) L.
Proof.
  intros rows d st G R H. unfold fill_graph_connections in H. rewrite mbind_read in H. cbn [fst] in H.
  change (dkeys (gnodes (dgraph d))) with (node_keys d) in H. rewrite (ri_keys _ _ R) in H.
  eapply (fill_rows rows d (orders rows) []); eauto. apply filled_start; auto.
Qed.
