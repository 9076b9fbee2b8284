(** Where saving what was loaded writes another file: contents of subprocesses and message flows (C102). *)
From Coq Require Import String List Bool Arith Lia ZArith Permutation.
From Verif Require Import Py PyFacts Consts Nx NxFacts Rep SpecRep RepFacts Xml Export Import XmlOps
  ImportFacts SpecXml XmlScopes ExportFacts ExportTree Prop_XmlExported SpecRound ExportScopes RoundBack RoundDemo Prop_XmlRound SpecWrite Prop_XmlLanes
  SpecOrder Prop_Order ProcOrder MessageBack SpecResave ResaveFacts ScopeOrder RoundTidy ResaveScopes Settled Prop_Resave Prop_Settled.
Import ListNotations.
Open Scope string_scope.
Open Scope list_scope.

(** ** One process, a subprocess and a task added before the contents of the subprocess *)
Definition nested : diagram := {|
  dgraph := {|
    gnodes :=
      [("sub", flow_node "sub" "subProcess" "Pack" "p" [] ["f1"] ++
             [("default", VNone); ("triggeredByEvent", VStr "false"); ("node_ids", VList ["u"])] ++ [("isExpanded", VStr "true")] ++ box "3" "4");
       ("t", flow_node "t" "task" "Send" "p" ["f1"] [] ++ [("default", VNone)] ++ box "11" "12");
       ("u", flow_node "u" "userTask" "Wrap" "sub" [] [] ++ [("default", VNone)] ++ box "5" "6")];
    gedges := [mkEdge "sub" "t" (flow_atts "f1" "p" "" "sub" "t" [("3", "4"); ("11", "12")])] |};
  seq_flows := [("f1", mkFlow "" "sub" "t")];
  procs := [("p", [("id", VStr "p"); ("name", VStr "Selling"); ("isClosed", VStr "false"); ("isExecutable", VStr "true");
            ("processType", VStr "None"); ("node_ids", VList ["sub"; "t"])])];
  diag_attrs := [("id", VStr "dia"); ("name", VStr "Example")];
  plane_attrs := [("id", VStr "plane"); ("bpmnElement", VStr "p")];
  collaboration := None |}.
(** ** One process and a message flow drawn before a sequence flow that begins at the same node *)
Definition spoken : diagram := {|
  dgraph := {|
    gnodes :=
      [("a", flow_node "a" "task" "Ask" "p" [] ["m"; "f1"] ++ [("default", VNone)] ++ box "3" "4");
       ("b", flow_node "b" "task" "Wait" "p" ["f1"] [] ++ [("default", VNone)] ++ box "11" "12");
       ("c", flow_node "c" "task" "Answer" "p" ["m"] [] ++ [("default", VNone)] ++ box "5" "6")];
    gedges :=
      [mkEdge "a" "c" [("id", VStr "m"); ("name", VStr "question"); ("sourceRef", VStr "a"); ("targetRef", VStr "c"); ("waypoints", VPoints [("3", "4"); ("5", "6")])];
       mkEdge "a" "b" (flow_atts "f1" "p" "" "a" "b" [("3", "4"); ("11", "12")])] |};
  seq_flows := [("f1", mkFlow "" "a" "b")];
  procs := [("p", [("id", VStr "p"); ("name", VStr "Selling"); ("isClosed", VStr "false"); ("isExecutable", VStr "true");
            ("processType", VStr "None"); ("node_ids", VList ["a"; "b"; "c"])])];
  diag_attrs := [("id", VStr "dia"); ("name", VStr "Example")];
  plane_attrs := [("id", VStr "plane"); ("bpmnElement", VStr "C")];
  collaboration := Some (mkCollab "C" [("P", [("name", VStr "Seller"); ("processRef", VStr "p"); ("isHorizontal", VStr "true")] ++ box "0" "0")] [("m", mkFlow "question" "a" "c")]) |}.

Ltac at_node d H := let a := fresh "a" in let I := fresh "I" in let D := fresh "D" in
  destruct (node_in _ _ _ _ H) as (a & I & D); cbn [gnodes dgraph d] in I;
  repeat (destruct I as [I|I]; [injection I as <- <-|]); [..|destruct I]; cbn in D; try discriminate D.
Ltac at_edge d I := cbn [gedges dgraph d] in I; repeat (destruct I as [<-|I]); [..|destruct I].

Lemma nested_placed : placed nested "p" /\ placed nested "sub".
Proof.
  assert (P : placed nested "p") by (apply placed_process; left; reflexivity).
  split; [exact P|]. apply (placed_sub nested "sub" "p"); [reflexivity|reflexivity|exact P].
Qed.
Lemma nested_inside : forall n, is_node nested n -> in_process nested n.
Proof.
  destruct nested_placed as (P1 & P2). intros n N. unfold is_node in N. cbn in N. unfold in_process, node_kinds.
  repeat (destruct N as [<-|N]; [do 2 eexists; split; [reflexivity|]; split; [simpl; tauto|]; split; [reflexivity|assumption]|]). destruct N.
Qed.
Lemma nested_tidy : tidy nested.
Proof.
  destruct nested_placed as (P1 & P2). constructor.
  - constructor.
    + apply gwf_check; [cbn; repeat (constructor; [simpl; intuition discriminate|]); constructor|reflexivity|reflexivity].
    + cbn. repeat (constructor; [simpl; intuition discriminate|]). constructor.
    + discriminate.
    + intros n N. unfold is_node in N. cbn in N. unfold node_kinds. repeat (destruct N as [<-|N]; [eexists; split; [reflexivity|simpl; tauto]|]). destruct N.
    + intros n H. at_node nested H. split; [reflexivity|]. cbn. intuition discriminate.
    + intros n t ds x T D I. at_node nested D.
    + intros n k l [->| ->] H; at_node nested H; injection D as <-; (split; [repeat (constructor; [simpl; intuition discriminate|]); constructor|simpl; intuition discriminate]).
    + intros e p I P. at_edge nested I; cbn in P; try discriminate P; injection P as <-.
      exists "f1", "sub", "t". unfold flow_edge, same_pair. cbn. intuition (try discriminate).
    + intros e e' f I I' E E'. at_edge nested I; at_edge nested I'; reflexivity.
    + discriminate.
    + discriminate.
  - constructor.
    + intros n. split; [intros N; left; exact (nested_inside n N)|].
      intros [(t & p & T & _)|(c & a & H & I & Z)]; [eapply is_node_attr; exact T|discriminate H].
    + intros e I. at_edge nested I. left. eexists. split; [reflexivity|assumption].
    + discriminate.
  - exact nested_inside.
  - intros e q I Q. at_edge nested I; cbn in Q; injection Q as <-; (split; reflexivity).
  - intros n. unfold definitions_of. destruct (attr nested n "event_definitions") eqn:H; [|cbn; lia]. at_node nested H.
  - intros p a s ls I E. cbn in I. destruct I as [I|[]]; injection I as <- <-; discriminate E.
  - discriminate.
Qed.
Lemma spoken_placed : placed spoken "p".
Proof. apply placed_process; left; reflexivity. Qed.
Lemma spoken_inside : forall n, is_node spoken n -> in_process spoken n.
Proof.
  pose proof spoken_placed as P1. intros n N. unfold is_node in N. cbn in N. unfold in_process, node_kinds.
  repeat (destruct N as [<-|N]; [do 2 eexists; split; [reflexivity|]; split; [simpl; tauto|]; split; [reflexivity|assumption]|]). destruct N.
Qed.
Lemma spoken_tidy : tidy spoken.
Proof.
  pose proof spoken_placed as P1. constructor.
  - constructor.
    + apply gwf_check; [cbn; repeat (constructor; [simpl; intuition discriminate|]); constructor|reflexivity|reflexivity].
    + cbn. repeat (constructor; [simpl; intuition discriminate|]). constructor.
    + intros c H. injection H as <-. split; cbn; repeat (constructor; [simpl; intuition discriminate|]); constructor.
    + intros n N. unfold is_node in N. cbn in N. unfold node_kinds. repeat (destruct N as [<-|N]; [eexists; split; [reflexivity|simpl; tauto]|]). destruct N.
    + intros n H. at_node spoken H.
    + intros n t ds x T D I. at_node spoken D.
    + intros n k l [->| ->] H; at_node spoken H; injection D as <-; (split; [repeat (constructor; [simpl; intuition discriminate|]); constructor|simpl; intuition discriminate]).
    + intros e p I P. at_edge spoken I; cbn in P; try discriminate P; injection P as <-.
      exists "f1", "a", "b". unfold flow_edge, same_pair. cbn. intuition (try discriminate).
    + intros e e' f I I' E E'. at_edge spoken I; at_edge spoken I'; cbn in E, E'; congruence.
    + intros c m r H I. injection H as <-. destruct I as [I|[]]. injection I as <- <-. split; [left; reflexivity|]. split; [left; reflexivity|].
      intros e p I P. at_edge spoken I; cbn in P; try discriminate P; unfold same_pair; cbn; intuition discriminate.
    + intros c p a t H I R T. injection H as <-. cbn in I. destruct I as [I|[]]; injection I as <- <-; discriminate R.
  - constructor.
    + intros n. split; [intros N; left; exact (spoken_inside n N)|].
      intros [(t & p & T & _)|(c & a & H & I & Z)]; [eapply is_node_attr; exact T|]. injection H as <-. cbn in I. destruct I as [I|[]]; injection I as <- <-; discriminate Z.
    + intros e I. at_edge spoken I; [right; do 3 eexists; split; [reflexivity|]; split; [left; reflexivity|left; split; reflexivity]|left..]; (eexists; split; [reflexivity|assumption]).
    + intros c m r H I. injection H as <-. destruct I as [I|[]]. injection I as <- <-. eexists. split; [left; reflexivity|]. split; [left; split; reflexivity|reflexivity].
  - exact spoken_inside.
  - intros e q I Q. at_edge spoken I; cbn in Q; try discriminate Q; injection Q as <-; (split; reflexivity).
  - intros n. unfold definitions_of. destruct (attr spoken n "event_definitions") eqn:H; [|cbn; lia]. at_node spoken H.
  - intros p a s ls I E. cbn in I. destruct I as [I|[]]; injection I as <- <-; discriminate E.
  - intros c p a H I. injection H as <-. cbn in I. destruct I as [I|[]]; injection I as <- <-; unfold is_node; cbn; intuition discriminate.
Qed.

(** The contents of a subprocess come back right after it, so their shapes are written earlier
    (only the order changes: C103). *)
Theorem C102_subprocess_refuted : exists d, tidy d /\ no_messages d /\ length (procs d) = 1 /\
  round_trip (fun l => l) 5 d (back d) /\ ~ file_kept (fun l => l) d.
Proof.
  exists nested. split; [exact nested_tidy|]. split; [discriminate|]. split; [reflexivity|]. split; [apply reload_round; vm_compute; reflexivity|].
  apply other_file. vm_compute. discriminate.
Qed.
(** Message flows come back behind the sequence flows. *)
Theorem C102_messages_refuted : exists d p, tidy d /\ map fst (procs d) = [p] /\ (forall n, is_node d n -> attr d n "process" = Some (VStr p)) /\
  round_trip (fun l => l) 5 d (back d) /\ ~ file_kept (fun l => l) d.
Proof.
  exists spoken, "p". split; [exact spoken_tidy|]. split; [reflexivity|].
  split; [intros n N; unfold is_node in N; cbn in N; repeat (destruct N as [<-|N]; [reflexivity|]); destruct N|].
  split; [apply reload_round; vm_compute; reflexivity|]. apply other_file. vm_compute. discriminate.
Qed.

Print Assumptions C102_subprocess_refuted.
Print Assumptions C102_messages_refuted.
