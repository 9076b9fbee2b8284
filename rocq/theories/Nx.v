(** networkx [Graph] as used by bpmn-python: an undirected graph with attribute
    dictionaries on nodes and edges.  networkx is an external library, so this
    file models its documented behaviour for the calls made in
    bpmn_python/bpmn_diagram_rep.py (lines 50, 112, 129, 143, 155, 168, 177, 189,
    258-271, 519-527), bpmn_diagram_import.py, bpmn_process_csv_import.py
    (add_node, add_edge, remove_node, remove_edge) and bpmn_diagram_metrics.py
    (degree).

    At most one edge exists per unordered pair of nodes.  Edges are kept in the
    order in which they were first added; the adjacency dictionary of a node lists
    its neighbours in that order. *)
From Coq Require Import String List Bool Arith.
From Verif Require Import Py.
Import ListNotations.
Open Scope string_scope.
Open Scope list_scope.

Record edge : Type := mkEdge { eu : string; ev : string; eat : attrs }.

Record graph : Type := mkGraph { gnodes : dict attrs; gedges : list edge }.

(** [nx.Graph()] (bpmn_diagram_rep.py:50). *)
Definition empty_graph : graph := mkGraph [] [].

Definition gnode (g : graph) (n : string) : option attrs := dget n (gnodes g).
Definition has_node (g : graph) (n : string) : bool := dhas n (gnodes g).

(** [G.add_node(n)] (bpmn_diagram_rep.py:258): an existing node keeps its
    attributes. *)
Definition add_node (n : string) (g : graph) : graph :=
  if has_node g n then g else mkGraph (gnodes g ++ [(n, [])]) (gedges g).

(** Does the edge connect the unordered pair {u, v}? *)
Definition connects (u v : string) (e : edge) : bool :=
  (String.eqb (eu e) u && String.eqb (ev e) v) || (String.eqb (eu e) v && String.eqb (ev e) u).

Definition find_edge (u v : string) (g : graph) : option edge := find (connects u v) (gedges g).
Definition has_edge (u v : string) (g : graph) : bool :=
  match find_edge u v g with Some _ => true | None => false end.

(** [G.add_edge(u, v)] (bpmn_diagram_rep.py:519): adds missing end nodes, first
    [u] then [v]; an existing edge keeps its place and its attributes. *)
Definition add_edge (u v : string) (g : graph) : graph :=
  let g1 := add_node v (add_node u g) in
  if has_edge u v g1 then g1 else mkGraph (gnodes g1) (gedges g1 ++ [mkEdge u v []]).

(** [G.node[n][k] = x] (bpmn_diagram_rep.py:259): [KeyError] for an unknown node. *)
Definition set_node_attr (n k : string) (x : pyval) (g : graph) : res graph :=
  match gnode g n with
  | None => Err (KeyError n)
  | Some a => Ok (mkGraph (dset n (dset k x a) (gnodes g)) (gedges g))
  end.

(** [G.node[n][k]] (bpmn_diagram_rep.py:529). *)
Definition get_node_attr (n k : string) (g : graph) : res pyval :=
  match gnode g n with
  | None => Err (KeyError n)
  | Some a => dgetE k a
  end.

(** [G.node[n][k].append(s)] (bpmn_diagram_rep.py:533): the stored list is
    extended in place. *)
Definition append_node_attr (n k s : string) (g : graph) : res graph :=
  let* v := get_node_attr n k g in
  match v with
  | VList l => set_node_attr n k (VList (l ++ [s])) g
  | _ => Err AttributeError
  end.

(** Replace the attributes of the edge {u, v}. *)
Definition upd_edges (u v : string) (f : attrs -> attrs) (es : list edge) : list edge :=
  map (fun e => if connects u v e then mkEdge (eu e) (ev e) (f (eat e)) else e) es.

(** [G[u][v][k] = x] (bpmn_diagram_rep.py:520-525): [KeyError] when there is no
    such edge. *)
Definition set_edge_attr (u v k : string) (x : pyval) (g : graph) : res graph :=
  if has_edge u v g
  then Ok (mkGraph (gnodes g) (upd_edges u v (dset k x) (gedges g)))
  else Err (KeyError v).

(** [G.nodes(data=True)] (bpmn_diagram_rep.py:112). *)
Definition nodes_view (g : graph) : list (string * attrs) := gnodes g.

(** Neighbours of [n] with edge data, in adjacency order. *)
Definition incident (n : string) (es : list edge) : list (string * attrs) :=
  flat_map (fun e => if String.eqb (eu e) n then [(ev e, eat e)]
                     else if String.eqb (ev e) n then [(eu e, eat e)] else []) es.

(** [G.edges(data=True)] (bpmn_diagram_rep.py:168): nodes in node order, for each
    node its neighbours in adjacency order, skipping neighbours already treated
    as first components (networkx EdgeDataView.__iter__, with its "seen" dict). *)
Fixpoint edges_from (ns seen : list string) (es : list edge) : list (string * string * attrs) :=
  match ns with
  | [] => []
  | n :: t =>
      map (fun p => (n, fst p, snd p))
          (filter (fun p => negb (smem (fst p) seen)) (incident n es))
      ++ edges_from t (n :: seen) es
  end.

Definition edges_view (g : graph) : list (string * string * attrs) :=
  edges_from (dkeys (gnodes g)) [] (gedges g).

(** [G.degree(n)] (bpmn_diagram_metrics.py:289 uses it): a self-loop counts twice. *)
Definition degree (n : string) (g : graph) : nat :=
  fold_right (fun e acc => (if String.eqb (eu e) n then 1 else 0)
                           + (if String.eqb (ev e) n then 1 else 0) + acc)
             0 (gedges g).

(** [G.remove_edge(u, v)] (bpmn_process_csv_import.py): [NetworkXError] if absent. *)
Definition remove_edge (u v : string) (g : graph) : res graph :=
  if has_edge u v g
  then Ok (mkGraph (gnodes g) (filter (fun e => negb (connects u v e)) (gedges g)))
  else Err NetworkXError.

(** [G.remove_node(n)] (bpmn_process_csv_import.py): drops incident edges. *)
Definition remove_node (n : string) (g : graph) : res graph :=
  if has_node g n
  then Ok (mkGraph (ddel n (gnodes g))
                   (filter (fun e => negb (String.eqb (eu e) n || String.eqb (ev e) n)) (gedges g)))
  else Err NetworkXError.
