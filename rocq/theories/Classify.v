(** Model of the two node classifications: bpmn_diagram_layouter.py:22-142 and
    bpmn_import_utils.py:38-131. *)
From Coq Require Import String List Bool Arith.
From Verif Require Import Py Consts Nx Rep.
Import ListNotations.
Open Scope string_scope.
Open Scope list_scope.

(** The labels (bpmn_diagram_layouter.py:32-36, bpmn_import_utils.py:55-57, 125-126). *)
Definition c_element := "Element".
Definition c_join := "Join".
Definition c_split := "Split".
Definition c_start := "Start Event".
Definition c_end := "End Event".

(** The eleven queried types in order, with the labels every node of the type gets
    (bpmn_diagram_layouter.py:38-135, bpmn_import_utils.py:59-112). *)
Definition classified_types : list (string * list string) :=
  [(t_task, [c_element]); (t_subprocess, [c_element]); (t_complex_gateway, [c_element]);
   (t_event_based_gateway, [c_element]); (t_inclusive_gateway, [c_element]);
   (t_exclusive_gateway, [c_element]); (t_parallel_gateway, [c_element]);
   (t_start_event, [c_element; c_start]); (t_intermediate_catch_event, [c_element]);
   (t_end_event, [c_element; c_end]); (t_intermediate_throw_event, [c_element])].

(** [element[1][k]], a list of flow ids.  Values that are not lists are outside the
    model. *)
Definition flow_list (k : string) (a : attrs) : res (list string) :=
  let* v := dgetE k a in match v with VList l => Ok l | _ => Err Unmodelled end.

(** A classified node: id, the incoming and outgoing lists of its attribute
    dictionary and its labels.  The other attributes are never read through the
    classification. *)
Record cnode : Type := mkCN {
  cid : string; cin : list string; cout : list string; ccls : list string }.

(** One loop body, e.g. bpmn_diagram_layouter.py:40-45. *)
Definition classify (base : list string) (n : string * attrs) : res cnode :=
  let* i := flow_list k_incoming (snd n) in
  let* o := flow_list k_outgoing (snd n) in
  Ok (mkCN (fst n) i o
        (base ++ (if Nat.leb 2 (length i) then [c_join] else [])
              ++ (if Nat.leb 2 (length o) then [c_split] else []))).

(** bpmn_diagram_layouter.py:22-142, first component of the returned pair (the
    second one, all flows with the label "Flow", is not used by any caller). *)
Definition generate_elements_clasification (d : diagram) : res (list cnode) :=
  rfold (fun acc tb =>
           let* ns := get_nodes (Some (fst tb)) d in
           let* cs := rmap (classify (snd tb)) ns in
           Ok (acc ++ cs)) classified_types [].

(** bpmn_import_utils.py:38-114; [split_join_classification] (116-131) stores the
    labels under the node id. *)
Definition generate_nodes_clasification (d : diagram) : res (dict (list string)) :=
  rfold (fun acc tb =>
           let* ns := get_nodes (Some (fst tb)) d in
           rfold (fun acc n => let* c := classify (snd tb) n in Ok (dset (cid c) (ccls c) acc)) ns acc)
        classified_types [].
