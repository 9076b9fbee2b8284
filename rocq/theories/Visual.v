(** Model of bpmn_python/bpmn_diagram_visualizer.py.  The drawing libraries are external: the model
    stops at the arguments of the calls of networkx's drawing functions and of pydotplus.
    [bpmn_diagram_to_dot_file] (lines 59-67) hands the graph to networkx unchanged and is not modelled. *)
From Coq Require Import String List Bool.
From Verif Require Import Py Consts Nx Rep.
Import ListNotations.
Open Scope string_scope.
Open Scope list_scope.

(** [d.get(k)]. *)
Definition get_or_none (k : string) (a : attrs) : pyval := match dget k a with Some v => v | None => VNone end.

(** The drawing of [visualize_diagram]: positions, the calls of draw_networkx_nodes with their shape and
    node list, the node labels, the drawn edges and the edge labels.  Simplified: [edge_labels] is a
    dictionary keyed by the pair of ends; here it is the list of its items, since a graph has at most one
    edge for a pair and the keys never repeat. *)
Record drawing (F : Type) : Type := mkDrawing {
  dr_positions : dict (F * F);
  dr_shapes : list (string * list string);
  dr_labels : dict pyval;
  dr_lines : list (string * string);
  dr_line_labels : list (string * string * pyval) }.
Arguments mkDrawing {F}. Arguments dr_positions {F}. Arguments dr_shapes {F}. Arguments dr_labels {F}.
Arguments dr_lines {F}. Arguments dr_line_labels {F}.

(** Lines 21-42: the node types in the order of the calls, with their shape. *)
Definition shape_calls : list (string * string) :=
  [("s", t_task); ("s", t_subprocess); ("d", t_complex_gateway); ("o", t_event_based_gateway);
   ("d", t_inclusive_gateway); ("d", t_exclusive_gateway); ("d", t_parallel_gateway); ("o", t_start_event);
   ("o", t_intermediate_catch_event); ("o", t_end_event); ("o", t_intermediate_throw_event)].

(** bpmn_diagram_visualizer.py:13-56. *)
Definition visualize_diagram {F} (pyfloat : string -> option F) (d : diagram) : res (drawing F) :=
  let* pos := get_nodes_positions pyfloat d in
  let* shapes := rmap (fun c => let* l := get_nodes_id_list_by_type (snd c) d in Ok (fst c, l)) shape_calls in
  let labels := fold_left (fun acc n => dset (fst n) (get_or_none k_node_name (snd n)) acc) (nodes_view (dgraph d)) [] in
  let lines := map fst (edges_view (dgraph d)) in
  let line_labels := map (fun e => (fst e, get_or_none k_name (snd e))) (edges_view (dgraph d)) in
  Ok (mkDrawing pos shapes labels lines line_labels).

(** A [pydotplus.Node] with its options and a [pydotplus.Edge] of a directed graph (the default of
    [pydotplus.Dot()]). *)
Record dot_node : Type := mkDotNode { dn_name : string; dn_shape : option string; dn_style : option string; dn_label : pyval }.
Record dot_edge : Type := mkDotEdge { de_src : string; de_dst : string; de_label : pyval }.

(** Lines 82-87. *)
Definition png_node (n : string * attrs) : dot_node :=
  let ty := get_or_none k_type (snd n) in
  let label := get_or_none k_node_name (snd n) in
  if veqs ty t_task then mkDotNode (fst n) (Some "box") (Some "rounded") label
  else if veqs ty t_exclusive_gateway then mkDotNode (fst n) (Some "diamond") None label
  else mkDotNode (fst n) None None label.
(** bpmn_diagram_visualizer.py:70-94: the nodes and edges of the graph that is written. *)
Definition bpmn_diagram_to_png (d : diagram) : list dot_node * list dot_edge :=
  (map png_node (nodes_view (dgraph d)),
   map (fun e => mkDotEdge (fst (fst e)) (snd (fst e)) (get_or_none k_name (snd e))) (edges_view (dgraph d))).
