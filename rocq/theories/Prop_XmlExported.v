(** The exported file is read as if it had not been indented. *)
From Coq Require Import String Ascii List Bool Arith Lia.
From Verif Require Import Py PyFacts Consts Nx NxFacts Rep SpecRep RepFacts CsvRegex CsvImport CsvFacts Xml Export Import XmlOps
  ImportFacts XmlLayout Prop_XmlLayout ExportFacts ExportTree RoundDemo.
Import ListNotations.
Open Scope string_scope.
Open Scope list_scope.

(** * C38 *)
(** Unless a node has the type "incoming", "outgoing", "conditionExpression" or
    "flowNodeRef" (perhaps after a namespace prefix). *)
Definition ordinary_types (d : diagram) : Prop := forall n a s, In (n, a) (gnodes (dgraph d)) -> dget "type" a = Some (VStr s) ->
  ~ In (local_name s) ["incoming"; "outgoing"; "conditionExpression"; "flowNodeRef"].
Theorem C38_exported : forall set_order fuel d file d0, ordinary_types d -> export_xml_file fuel d = Ok file ->
  exists t plain, export_tree fuel d = Ok t /\ document t = Ok plain /\
    load_diagram_from_xml set_order file d0 = load_diagram_from_xml set_order plain d0.
Proof.
  intros so fuel d file d0 T H. unfold export_xml_file in H. destruct (export_tree fuel d) as [t|] eqn:X; [|discriminate]. cbn [rbind] in H.
  pose proof (neat_readable _ (neat_tree _ _ _ T X)) as R. destruct (proj2 (C38_writing t 0 R)) as [r Hr]; [eauto|].
  exists t, r. split; [reflexivity|]. split; [exact Hr|]. eapply C38_loading; eauto.
Qed.
Theorem C38_written : forall fuel d t, ordinary_types d -> export_tree fuel d = Ok t ->
  (exists file, export_xml_file fuel d = Ok file) <-> (exists plain, document t = Ok plain).
Proof.
  intros fuel d t T X. pose proof (neat_readable _ (neat_tree _ _ _ T X)) as R. unfold export_xml_file. rewrite X. cbn [rbind].
  symmetry. apply C38_writing. exact R.
Qed.
(** White space in the file is only what the indentation adds. *)
Definition drawn_plain : dom := match document drawn_tree with Ok r => r | Err _ => DText "" end.
Example C38_example : ordinary_types drawn /\ document drawn_tree = Ok drawn_plain /\ drawn_plain <> drawn_file /\
  d_kids drawn_file <> d_kids drawn_plain /\ stripped (indent 0 drawn_tree) = drawn_tree /\
  load_diagram_from_xml (fun l => l) drawn_plain empty_diagram = (redrawn, Ok tt).
Proof.
  split; [|split; [vm_compute; reflexivity|split; [|split; [|split; vm_compute; reflexivity]]]].
  - intros n a s I. cbn in I. intuition (subst;
      repeat match goal with H : (_, _) = (_, _) |- _ => inversion H; subst; clear H end;
      match goal with H : dget _ _ = Some (VStr _) |- _ => vm_compute in H; inversion H; subst end; vm_compute in *; intuition discriminate).
  - vm_compute. discriminate.
  - vm_compute. discriminate.
Qed.
(** A node of type "incoming" with flows is written with elements inside an element whose
    text is read: the indentation becomes the id of a flow. *)
Definition odd_node : diagram :=
  mkDiagram (mkGraph [("n", [("id", VStr "n"); ("type", VStr "incoming"); ("node_name", VStr ""); ("process", VStr "sub");
                     ("incoming", VList ["f"]); ("outgoing", VList []);
                     ("width", VStr "1"); ("height", VStr "1"); ("x", VStr "1"); ("y", VStr "1")]);
              ("sub", [("id", VStr "sub"); ("type", VStr "subProcess"); ("node_name", VStr ""); ("process", VStr "p");
                     ("incoming", VList []); ("outgoing", VList []); ("triggeredByEvent", VStr "false"); ("isExpanded", VStr "true");
                     ("width", VStr "1"); ("height", VStr "1"); ("x", VStr "1"); ("y", VStr "1")])] []) []
    [("p", [("id", VStr "p"); ("isClosed", VStr "false"); ("isExecutable", VStr "false"); ("processType", VStr "None")])]
    [("id", VStr "d"); ("name", VStr "")] [("id", VStr "pl"); ("bpmnElement", VStr "p")] None.
Theorem C38_exported_refuted : exists fuel d t plain file, export_tree fuel d = Ok t /\ document t = Ok plain /\ export_xml_file fuel d = Ok file /\
  load_diagram_from_xml (fun l => l) file empty_diagram <> load_diagram_from_xml (fun l => l) plain empty_diagram.
Proof.
  exists 5, odd_node.
  destruct (export_tree 5 odd_node) as [t|] eqn:X; [|vm_compute in X; discriminate].
  destruct (document t) as [r|] eqn:R; [|vm_compute in X; inv X; vm_compute in R; discriminate].
  destruct (export_xml_file 5 odd_node) as [f|] eqn:F; [|vm_compute in F; discriminate].
  exists t, r, f. split; [reflexivity|]. split; [exact R|]. split; [reflexivity|].
  vm_compute in X. inv X. vm_compute in R. inv R. vm_compute in F. inv F. vm_compute. discriminate.
Qed.

Print Assumptions C38_structure.
Print Assumptions C38_loading.
Print Assumptions C38_writing.
Print Assumptions C38_exported.
Print Assumptions C38_written.
Print Assumptions C38_exported_refuted.
