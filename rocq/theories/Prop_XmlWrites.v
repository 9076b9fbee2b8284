(** Which diagrams can be written to an XML file and read back. *)
From Coq Require Import String List Bool Arith Lia Permutation.
From Verif Require Import Py PyFacts Consts Nx NxFacts Rep SpecRep RepFacts CsvRegex CsvImport CsvFacts Xml Export Import XmlOps
  ImportFacts SpecXml XmlScopes ActionFacts DiFacts LoadFacts Prop_XmlImport XmlLayout Prop_XmlLayout ExportFacts ExportTree Prop_XmlExported
  SpecRound ExportScopes RoundNodes RoundLoad RoundBack RoundDi RoundDemo Prop_XmlRound Prop_XmlDrawn Prop_XmlLanes Prop_XmlLoads SpecWrite ExportOk RoundLoads.
Import ListNotations.
Open Scope string_scope.
Open Scope list_scope.

(** * Nesting of subprocesses *)
Section Nesting.
Variable d : diagram.
Definition above (n : string) : option string :=
  match attr d n "type", attr d n "process" with
  | Some (VStr ty), Some (VStr p) => if String.eqb ty "subProcess" then Some p else None
  | _, _ => None
  end.
Fixpoint depth (k : nat) (n : string) : nat :=
  match k with
  | 0 => 0
  | S k => if in_dec string_dec n (map fst (procs d)) then 0 else match above n with Some p => S (depth k p) | None => 0 end
  end.
Lemma depth_le : forall k n, depth k n <= k.
Proof. induction k as [|k IH]; intros n; cbn [depth]; [lia|]. destruct (in_dec _ _ _); [lia|]. destruct (above n); [specialize (IH s)|]; lia. Qed.
Lemma placed_stable : forall n, placed d n -> exists k, forall j, k <= j -> depth j n = depth k n.
Proof.
  intros n P. induction P as [p I|n p T Pr P [k IH]].
  - exists 1. intros [|j] L; [lia|]. cbn [depth]. destruct (in_dec _ _ _); [reflexivity|contradiction].
  - exists (S k). intros [|j] L; [lia|]. cbn [depth]. destruct (in_dec _ _ _); [reflexivity|]. unfold above. rewrite T, Pr. cbn [String.eqb Ascii.eqb Bool.eqb].
    f_equal. apply IH. lia.
Qed.
Lemma all_stable : forall l, (forall n, In n l -> placed d n) -> exists k, forall n j, In n l -> k <= j -> depth j n = depth k n.
Proof.
  induction l as [|n l IH]; intros P; [exists 0; intros ? ? []|]. destruct IH as [k K]; [intros; apply P; right; assumption|].
  destruct (placed_stable n (P n (or_introl eq_refl))) as [k' K']. exists (max k k'). intros m j [<- |I] L.
  - rewrite (K' j), (K' (max k k')) by lia. reflexivity.
  - rewrite (K m j), (K m (max k k')) by (auto; lia). reflexivity.
Qed.
Lemma complete_subs : storable d -> complete d -> forall n, attr d n "type" = Some (VStr "subProcess") -> placed d n.
Proof.
  intros SB CP n T. assert (N : is_node d n) by (destruct (node_in d n _ _ T) as [a [I _]]; exact (in_is_node d n a I)).
  apply (cp_nodes d CP) in N. destruct N as [(ty & p & T' & K & P & Pl)|(c & a & Hc & Ip & R)].
  - eapply placed_sub; eauto.
  - exfalso. apply (sb_participants _ SB c n a _ Hc Ip R T). simpl. tauto.
Qed.
Lemma nesting_exists : storable d -> complete d -> exists rank bound, nesting d rank /\ forall n, rank n <= bound.
Proof.
  intros SB CP. pose (subs := filter (fun n => match attr d n "type" with Some (VStr ty) => String.eqb ty "subProcess" | _ => false end) (map fst (gnodes (dgraph d)))).
  assert (S : forall n, attr d n "type" = Some (VStr "subProcess") <-> In n subs).
  { intros n. unfold subs. rewrite filter_In. split.
    - intros T. split; [destruct (node_in d n _ _ T) as [a [I _]]; apply in_map_iff; exists (n, a); auto|]. rewrite T. reflexivity.
    - intros [_ T]. destruct (attr d n "type") as [[|ty| | | | |]|]; try discriminate. apply String.eqb_eq in T. subst. reflexivity. }
  destruct (all_stable subs) as [k K]; [intros n I; apply complete_subs; auto; apply S; exact I|].
  exists (fun n => Datatypes.S k - depth (Datatypes.S k) n), (Datatypes.S k). split; [|intros; lia]. intros n m Tn Tm P.
  assert (E : depth (Datatypes.S k) m = Datatypes.S (depth k n)).
  { cbn [depth]. destruct (in_dec _ _ _) as [I|_]; [exfalso; exact (proj2 (sb_subs _ SB m Tm) I)|]. unfold above. rewrite Tm, P. reflexivity. }
  rewrite E. rewrite (K n (Datatypes.S k)) by (try apply S; auto; lia). pose proof (depth_le (Datatypes.S k) m) as L. rewrite E in L. lia.
Qed.
End Nesting.

(** * C74 *)
Theorem C74_saved_and_loaded : forall set_order d, storable d -> complete d -> writable d -> rereadable d ->
  exists bound, forall fuel, bound <= fuel -> exists d', round_trip set_order fuel d d'.
Proof.
  intros so d SB CP WR RR. destruct (nesting_exists d SB CP) as (rank & b & NE & B). exists (b + 2). intros fuel L.
  destruct (tree_succeeds d rank fuel WR (sb_graph _ SB) NE) as [t [TP ST]].
  { split; [lia|]. intros n _. specialize (B n). lia. }
  destruct (document_some t ST) as [file F].
  assert (X : export_xml_file fuel d = Ok file) by (unfold export_xml_file; rewrite TP; exact F).
  destruct (C38_exported so fuel d file empty_diagram (storable_ordinary d SB) X) as (t' & pl & TP' & Y & Z). rewrite TP in TP'. injection TP' as <-.
  assert (N : neat t) by (eapply neat_tree; [apply storable_ordinary; exact SB|exact TP]). destruct (document_neat _ _ N Y) as [-> _].
  destruct (proj2 (C72_loads_iff so (dom_of t)) (exported_loadable d SB CP RR fuel t TP ST)) as [d' D].
  exists d', file. split; [exact X|]. rewrite Z. exact D.
Qed.
(** What it is read back as. *)
Theorem C74_same_diagram : forall set_order d, any_order set_order -> storable d -> complete d -> writable d -> rereadable d ->
  exists bound, forall fuel, bound <= fuel -> exists d', round_trip set_order fuel d d' /\
    (forall n, is_node d' n <-> is_node d n) /\ (forall u v, linked d' u v <-> linked d u v) /\
    (forall p, In p (map fst (procs d')) <-> In p (map fst (procs d))) /\
    (forall n, in_process d n -> kept d d' n "type" /\ kept d d' n "node_name" /\ kept d d' n "process" /\ kept d d' n "incoming" /\ kept d d' n "outgoing").
Proof.
  intros so d Po SB CP WR RR. destruct (C74_saved_and_loaded so d SB CP WR RR) as [b B]. exists b. intros fuel L. destruct (B fuel L) as [d' R].
  exists d'. split; [exact R|]. split; [exact (C34_same_nodes so fuel d d' SB CP R)|]. split; [exact (C35_same_connections so fuel d d' SB CP R)|].
  split; [exact (C36_same_processes so fuel d d' SB R)|]. intros n P. destruct (C34_nodes so fuel d d' n Po SB R P) as (_ & _ & K1 & K2 & K3 & _).
  destruct (C34_flow_lists so fuel d d' n SB R P) as [K4 K5]. auto.
Qed.

Ltac txt := eexists; reflexivity.
Ltac node_of I := cbn [gnodes dgraph drawn] in I; repeat (destruct I as [I|I]; [injection I as <- <-|]); [..|destruct I].
Example drawn_writable : writable drawn.
Proof.
  constructor; [constructor| | | | | | | ].
  - intros n a I. node_of I; txt.
  - intros n a p I P S. node_of I; injection P as <-;
      try (eexists; split; [reflexivity|]; split; [simpl; tauto|]; split; [txt|]; split; [txt|]; split; [txt|]; split;
       [intros k K; cbn in K; repeat (destruct K as [<- |K]; [txt|]); destruct K|split; intros H; try discriminate H; try txt; cbn; auto; right; right; txt]).
    exfalso. destruct S as [S|S]; [cbn in S; intuition discriminate|discriminate S].
  - intros n a I T. node_of I; try discriminate T; reflexivity.
  - intros e p I _ _. edges_of I; (split; [txt|]; split; [txt|]; split; [txt|]; split; [txt|]; cbn; first [left; reflexivity|right; do 2 eexists; reflexivity]).
  - intros p a I. cbn in I. destruct I as [I|[I|[]]]; injection I as <- <-; (split; [txt|]; split; [txt|txt]).
  - split; txt.
  - split; txt.
  - intros n a I. node_of I; (split; [repeat split; txt|]; split; [txt|intros T; try discriminate T; txt]).
  - intros e I. edges_of I; (split; [txt|]; eexists; left; reflexivity).
  - intros p a I. cbn in I. destruct I as [I|[I|[]]]; injection I as <- <-; [right|left; reflexivity]. do 2 eexists. split; [reflexivity|].
    intros i l J. inversion J as [? ? ? J1|? ? ? ? ? ? ? ? ? J1 J2]; subst; (destruct J1 as [J1|[]]); [injection J1 as <- <-; discriminate|].
    injection J1 as <- <- <- <- <- <-. inversion J2 as [? ? ? J3|? ? ? ? ? ? ? ? ? J3 J4]; subst; (destruct J3 as [J3|[]]); [injection J3 as <- <-; discriminate|discriminate J3].
  - intros c p a H I. injection H as <-. cbn in I. repeat (destruct I as [I|I]; [injection I as <- <-; split; [txt|]; split; [txt|]; split; [txt|]; repeat split; txt|]). destruct I.
  - intros c m r H I. injection H as <-. cbn in I. repeat (destruct I as [I|I]; [injection I as <- <-|]); [..|destruct I].
    + exists (nth 4 (gedges (dgraph drawn)) (mkEdge "" "" [])). split; [vm_compute; tauto|reflexivity].
    + exists (nth 5 (gedges (dgraph drawn)) (mkEdge "" "" [])). split; [vm_compute; tauto|reflexivity].
Qed.
Lemma drawn_lanes : forall i l, lane_of drawn i l -> (i = "l1" \/ i = "l2") /\ forall name child refs di, l = Lane name child refs di -> ~ In "" refs.
Proof.
  intros i l (p & a & s & ls & I & D & J). cbn in I. destruct I as [I|[I|[]]]; injection I as <- <-; [|discriminate D]. injection D as <- <-.
  inversion J as [? ? ? J1|? ? ? ? ? ? ? ? ? J1 J2]; subst; (destruct J1 as [J1|[]]).
  - injection J1 as <- <-. split; [auto|]. intros ? ? ? ? E. injection E as <- <- <- <-. simpl. intuition discriminate.
  - injection J1 as <- <- <- <- <- <-. inversion J2 as [? ? ? J3|? ? ? ? ? ? ? ? ? J3 J4]; subst; (destruct J3 as [J3|[]]); [|discriminate J3].
    injection J3 as <- <-. split; [auto|]. intros ? ? ? ? E. injection E as <- <- <- <-. simpl. intuition discriminate.
Qed.
Example drawn_rereadable : rereadable drawn.
Proof.
  constructor.
  - intros e i I. edges_of I; discriminate.
  - intros i name child refs di L. apply (proj2 (drawn_lanes _ _ L) name child refs di eq_refl).
  - intros i l e L I. destruct (proj1 (drawn_lanes _ _ L)) as [-> | ->]; edges_of I; discriminate.
Qed.
Example C74_example : storable drawn /\ complete drawn /\ writable drawn /\ rereadable drawn /\ any_order (fun l => l).
Proof.
  split; [exact drawn_storable|]. split; [exact drawn_complete|]. split; [exact drawn_writable|]. split; [exact drawn_rereadable|].
  intros l. apply Permutation_refl.
Qed.

(** An empty condition makes a file that cannot be read. *)
Definition blank_condition : diagram :=
  mkDiagram (mkGraph [("s", flow_node "s" "startEvent" "" "p" [] ["f1"] ++ [("parallelMultiple", VStr "false"); ("isInterrupting", VStr "true");
                              ("event_definitions", VDefs [])] ++ box "1" "2");
                       ("e", flow_node "e" "endEvent" "" "p" ["f1"] [] ++ [("event_definitions", VDefs [])] ++ box "9" "10")]
                      [mkEdge "s" "e" (flow_atts "f1" "p" "" "s" "e" [("1", "2"); ("3", "4")] ++ [("conditionExpression", VCond "c" "")])])
    [("f1", mkFlow "" "s" "e")]
      [("p", [("id", VStr "p"); ("name", VStr ""); ("isClosed", VStr "false"); ("isExecutable", VStr "false"); ("processType", VStr "None"); ("node_ids", VList ["s"; "e"])])]
      [("id", VStr "dia"); ("name", VStr "")] [("id", VStr "plane"); ("bpmnElement", VStr "")] None.
Theorem C74_empty_condition_refuted : exists d file, writable d /\ export_xml_file 5 d = Ok file /\
  snd (load_diagram_from_xml (fun l => l) file empty_diagram) = Err AttributeError.
Proof.
  destruct (export_xml_file 5 blank_condition) as [file|] eqn:F; [|vm_compute in F; discriminate]. exists blank_condition, file.
  split; [|split; [exact F|vm_compute in F; injection F as <-; vm_compute; reflexivity]].
  constructor; [constructor| | | | | | | ].
  - intros n a I. cbn in I. destruct I as [I|[I|[]]]; injection I as <- <-; txt.
  - intros n a p I P S. cbn in I. destruct I as [I|[I|[]]]; injection I as <- <-;
      (eexists; split; [reflexivity|]; split; [simpl; tauto|]; split; [txt|]; split; [txt|]; split; [txt|]; split;
       [intros k K; cbn in K; repeat (destruct K as [<- |K]; [txt|]); destruct K|split; intros H; try discriminate H; txt]).
  - intros n a I T. cbn in I. destruct I as [I|[I|[]]]; injection I as <- <-; discriminate T.
  - intros e p I _ _. cbn in I. destruct I as [<- |[]]. split; [txt|]; split; [txt|]; split; [txt|]; split; [txt|]. right; do 2 eexists; reflexivity.
  - intros p a I. cbn in I. destruct I as [I|[]]; injection I as <- <-; (split; [txt|]; split; [txt|txt]).
  - split; txt.
  - split; txt.
  - intros n a I. cbn in I. destruct I as [I|[I|[]]]; injection I as <- <-; (split; [repeat split; txt|]; split; [txt|intros T; discriminate T]).
  - intros e I. cbn in I. destruct I as [<- |[]]. split; [txt|]; eexists; left; reflexivity.
  - intros p a I. cbn in I. destruct I as [I|[]]; injection I as <- <-. left. reflexivity.
  - intros c p a H. discriminate H.
  - intros c m r H. discriminate H.
Qed.

Print Assumptions C74_saved_and_loaded.
Print Assumptions C74_same_diagram.
Print Assumptions C74_empty_condition_refuted.
