(** Model of bpmn_python/bpmn_diagram_layouter.py (and grid_cell_class.py). *)
From Coq Require Import String List Bool Arith ZArith.
From Verif Require Import Py Consts Nx Rep Classify.
Import ListNotations.
Open Scope string_scope.
Open Scope list_scope.

(** [list.remove(x)] on strings: first occurrence, ValueError if absent. *)
Fixpoint sremove (x : string) (l : list string) : res (list string) :=
  match l with
  | [] => Err ValueError
  | y :: t => if String.eqb x y then Ok t else let* r := sremove x t in Ok (y :: r)
  end.

(** [list.remove(node)] on classified nodes.  Python compares the whole
    dictionaries; node ids are unique, so comparing ids is the same. *)
Fixpoint cremove (n : string) (l : list cnode) : res (list cnode) :=
  match l with
  | [] => Err ValueError
  | c :: t => if String.eqb n (cid c) then Ok t else let* r := cremove n t in Ok (c :: r)
  end.

(** [next(c for c in l if c['node'][0] == n)]. *)
Definition cfind (n : string) (l : list cnode) : res cnode :=
  match find (fun c => String.eqb (cid c) n) l with Some c => Ok c | None => Err StopIteration end.

(** Updating the node with a given id in place (the list elements are shared). *)
Definition cupdate (n : string) (f : cnode -> cnode) (l : list cnode) : list cnode :=
  map (fun c => if String.eqb (cid c) n then f c else c) l.
Definition with_cin (l : list string) (c : cnode) : cnode := mkCN (cid c) l (cout c) (ccls c).
Definition with_cout (l : list string) (c : cnode) : cnode := mkCN (cid c) (cin c) l (ccls c).

(** [bpmn_graph.get_flow_by_id(f)[2][k]]; an unknown flow gives [None[2]].
    A reference that is not a string equals no node id; the failure is then reported
    here instead of by the following [next(...)]. *)
Definition flow_ref (d : diagram) (f k : string) : res string :=
  let* t := get_flow_by_id f d in
  match t with
  | None => Err TypeError
  | Some e => let* v := dgetE k (snd e) in
              match v with VStr s => Ok s | _ => Err StopIteration end
  end.

(** bpmn_diagram_layouter.py:184-187: remove the flow from its target's incoming list. *)
Definition drop_incoming (target f : string) (tmp : list cnode) : res (list cnode) :=
  let* c := cfind target tmp in
  let* l := sremove f (cin c) in
  Ok (cupdate target (with_cin l) tmp).
(** bpmn_diagram_layouter.py:199-202. *)
Definition drop_outgoing (source f : string) (tmp : list cnode) : res (list cnode) :=
  let* c := cfind source tmp in
  let* l := sremove f (cout c) in
  Ok (cupdate source (with_cout l) tmp).

(** bpmn_diagram_layouter.py:173-187: the outgoing flows of a node that has already
    been taken out of [tmp]; the removals from the node's own lists (179-180) cannot
    fail and are not observed afterwards. *)
Definition release (d : diagram) (outs : list string) (tmp : list cnode) : res (list cnode) :=
  rfold (fun tmp f =>
           let* target := flow_ref d f k_target_ref in
           drop_incoming target f tmp) outs tmp.

(** bpmn_diagram_layouter.py:163-187: [ready] is [no_incoming_flow_nodes] in the
    order of the [pop()] calls. *)
Fixpoint take_ready (d : diagram) (orig ready tmp sorted : list cnode)
  : res (list cnode * list cnode) :=
  match ready with
  | [] => Ok (tmp, sorted)
  | n :: t =>
      let* tmp1 := cremove (cid n) tmp in
      let* o := cfind (cid n) orig in
      let* tmp2 := release d (cout n) tmp1 in
      take_ready d orig t tmp2 (sorted ++ [o])
  end.

(** bpmn_diagram_layouter.py:193-209 for one flow. *)
Definition cut_flow (d : diagram) (st : list cnode * list string) (f : string)
  : res (list cnode * list string) :=
  let* source := flow_ref d f k_source_ref in
  let* tmp1 := drop_outgoing source f (fst st) in
  let* target := flow_ref d f k_target_ref in
  let* tmp2 := drop_incoming target f tmp1 in
  Ok (tmp2, snd st ++ [f]).

(** bpmn_diagram_layouter.py:189-209; a backward flow is represented by its id. *)
Fixpoint cut_joins (d : diagram) (ns : list string) (st : list cnode * list string)
  : res (list cnode * list string) :=
  match ns with
  | [] => Ok st
  | n :: t =>
      let* c := cfind n (fst st) in
      let* st' := (if smem c_join (ccls c) then rfold (cut_flow d) (cin c) st else Ok st) in
      cut_joins d t st'
  end.

(** bpmn_diagram_layouter.py:157-210, the outer loop, with fuel. *)
Fixpoint topo_loop (fuel : nat) (d : diagram) (orig tmp sorted : list cnode) (back : list string)
  : res (list cnode * list string) :=
  match tmp with
  | [] => Ok (sorted, back)
  | _ :: _ =>
      match fuel with
      | O => Err OutOfFuel
      | S fuel' =>
          match filter (fun c => Nat.eqb (length (cin c)) 0) tmp with
          | [] =>
              let* st := cut_joins d (map cid tmp) (tmp, back) in
              topo_loop fuel' d orig (fst st) sorted (snd st)
          | ready =>
              let* st := take_ready d orig (rev ready) tmp sorted in
              topo_loop fuel' d orig (fst st) (snd st) back
          end
      end
  end.

(** bpmn_diagram_layouter.py:145-210. *)
Definition topological_sort (fuel : nat) (d : diagram) (nodes : list cnode)
  : res (list cnode * list string) := topo_loop fuel d nodes nodes [] [].

(** * The grid *)

(** grid_cell_class.py:8-16. *)
Record cell : Type := mkCell { crow : Z; ccol : Z; cnid : string }.

(** bpmn_python_consts.py:101. *)
Definition grid_column_width : Z := 2.

(** bpmn_diagram_layouter.py:353-373.  When the cell is occupied, the first cell
    with [row >= row] is reached (the occupied one qualifies) and
    [grid_cell.row += "width"] adds a string to an int: TypeError. *)
Definition insert_into_grid (grid : list cell) (row col : Z) (n : string) : res (list cell) :=
  match find (fun c => Z.eqb (crow c) row && Z.eqb (ccol c) col) grid with
  | Some _ => Err TypeError
  | None => Ok (grid ++ [mkCell row col n])
  end.

(** [next(c for c in grid if c.node_id == n)]. *)
Definition gfind (n : string) (grid : list cell) : res cell :=
  match find (fun c => String.eqb (cnid c) n) grid with Some c => Ok c | None => Err StopIteration end.

(** [enforced_row_num if enforced_row_num else row]: zero counts as "not given"
    (lines 256 and 293). *)
Definition enforced_truthy (enforced : option Z) (row : Z) : Z :=
  match enforced with Some r => if Z.eqb r 0 then row else r | None => row end.
(** [enforced_row_num is not None] (line 270). *)
Definition enforced_given (enforced : option Z) (row : Z) : Z :=
  match enforced with Some r => r | None => row end.

(** bpmn_diagram_layouter.py:307-345: the row requested for successor number [index]
    of a split with [k] successors placed in row [row]. *)
Definition split_row (k index : nat) (row : Z) : Z :=
  let centre := Nat.div k 2 in
  if Nat.odd k then
    if Nat.ltb index centre then (row + (Z.of_nat index + 1) * grid_column_width)%Z
    else if Nat.eqb index centre then row
    else (row - (Z.of_nat index - Z.of_nat centre) * grid_column_width)%Z
  else
    if Nat.ltb index centre then (row + (Z.of_nat index + 1) * grid_column_width)%Z
    else (row - (Z.of_nat index - Z.of_nat centre + 1) * grid_column_width)%Z.

(** bpmn_diagram_layouter.py:283-292: row sum and largest column (at least 0) of the
    cells of the predecessors. *)
Definition join_position (preds : list string) (grid : list cell) : Z * Z :=
  fold_left (fun acc c =>
               if smem (cnid c) preds
               then ((fst acc + crow c)%Z, if Z.ltb (snd acc) (ccol c) then ccol c else snd acc)
               else acc) grid (0%Z, 0%Z).

(** State of the placement: grid, last_row, nodes_with_classification.  [last_col] is
    passed around but never changed (it is 1, line 223). *)
Definition pstate : Type := list cell * Z * list cnode.
Definition last_col : Z := 1.

(** bpmn_diagram_layouter.py:252-296: where the node goes.  Result: row used by the
    split below ([current_element_row]), row and column of the insertion, and the new
    last_row. *)
Definition choose_cell (d : diagram) (n : cnode) (grid : list cell) (last_row : Z)
           (enforced : option Z) : res (Z * (Z * Z) * Z) :=
  match cin n with
  | [] => Ok (last_row, (enforced_truthy enforced last_row, last_col),
              (last_row + grid_column_width)%Z)
  | f :: _ =>
      if smem c_join (ccls n) then
        let* preds := rmap (fun f => flow_ref d f k_source_ref) (cin n) in
        let p := join_position preds grid in
        let row := Z.div (fst p) (Z.of_nat (length preds)) in
        Ok (row, (enforced_truthy enforced row, (snd p + 1)%Z), last_row)
      else
        let* pred := flow_ref d f k_source_ref in
        let* c := gfind pred grid in
        Ok (crow c, (enforced_given enforced (crow c), (ccol c + 1)%Z), last_row)
  end.

(** bpmn_diagram_layouter.py:232-350, with fuel for the recursion. *)
Fixpoint place_element (fuel : nat) (d : diagram) (n : cnode) (enforced : option Z) (st : pstate)
  : res pstate :=
  match fuel with
  | O => Err OutOfFuel
  | S fuel' =>
      let '(grid, last_row, tmp) := st in
      let* p := choose_cell d n grid last_row enforced in
      let '(row, (r, c), last_row1) := p in
      let* grid1 := insert_into_grid grid r c (cid n) in
      if smem c_split (ccls n) then
        let* succs := rmap (fun f => flow_ref d f k_target_ref) (cout n) in
        let k := length succs in
        let nodes := filter (fun c => smem (cid c) succs) tmp in
        rfold (fun st index =>
                 match nth_error nodes index with
                 | None => Err IndexError
                 | Some s =>
                     let* st1 := place_element fuel' d s (Some (split_row k index row)) st in
                     let* tmp' := cremove (cid s) (snd st1) in
                     Ok (fst st1, tmp')
                 end) (seq 0 k) (grid1, last_row1, tmp)
      else Ok (grid1, last_row1, tmp)
  end.

(** bpmn_diagram_layouter.py:213-229.  Each round pops a node, so the number of
    nodes bounds the rounds; [fuel] bounds the recursion inside. *)
Fixpoint grid_loop (rounds fuel : nat) (d : diagram) (st : pstate) : res (list cell) :=
  match snd st with
  | [] => Ok (fst (fst st))
  | n :: tmp =>
      match rounds with
      | O => Err OutOfFuel
      | S rounds' =>
          let* st' := place_element fuel d n None (fst st, tmp) in
          grid_loop rounds' fuel d st'
      end
  end.
Definition grid_layout (fuel : nat) (d : diagram) (sorted : list cnode) : res (list cell) :=
  grid_loop (length sorted) fuel d (([], grid_column_width), sorted).

(** bpmn_diagram_layouter.py:376-387. *)
Definition set_coordinates_for_nodes (grid : list cell) : MD unit :=
  do nodes <- mread (get_nodes (Some "")) ;;
  mfor (map fst nodes) (fun n =>
    do c <- mread (fun _ => gfind n grid) ;;
    do_ node_set n k_x (VStr (zstr (ccol c * 150 + 50))) ;;
    node_set n k_y (VStr (zstr (crow c * 100 + 50)))).

(** [int(a[k])].  Strings other than plain decimals are outside the model. *)
Definition icoord (a : attrs) (k : string) : res Z :=
  let* v := dgetE k a in
  match v with
  | VStr s => match zparse s with Some z => Ok z | None => Err Unmodelled end
  | _ => Err Unmodelled
  end.

(** The type test of lines 403 and 416. *)
Definition routed_gateway (v : pyval) : bool :=
  veqs v t_parallel_gateway || veqs v t_inclusive_gateway || veqs v t_exclusive_gateway.

Definition pt (x y : Z) : string * string := (zstr x, zstr y).

(** [v == w] on attribute values, here strings (line 410). *)
Definition same_value (v w : pyval) : bool :=
  match v, w with VStr a, VStr b => String.eqb a b | _, _ => false end.

(** bpmn_diagram_layouter.py:403-427: the waypoints of one flow.  Simplified: when
    several attributes are missing, Python may name another one in the KeyError. *)
Definition waypoints_for (s t : attrs) : res (list (string * string)) :=
  let* stype := dgetE k_type s in
  let* ttype := dgetE k_type t in
  let* vy := dgetE k_y s in
  let* wy := dgetE k_y t in
  let* sx := icoord s k_x in
  let* sy := icoord s k_y in
  let* tx := icoord t k_x in
  let* ty := icoord t k_y in
  Ok (if routed_gateway stype then
        [pt (sx + 50) (sy + 50); pt (sx + 50) (ty + 50); pt tx (ty + 50)]
      else if same_value vy wy then
        [pt (sx + 50) (sy + 50); pt tx (ty + 50)]
      else if routed_gateway ttype then
        [pt (sx + 50) (sy + 50); pt (tx + 50) (sy + 50); pt (tx + 50) ty]
      else
        [pt (sx + 50) (sy + 50); pt tx (ty + 50)]).

(** [bpmn_graph.get_node_by_id(flow[2][k])[1]]. *)
Definition flow_end (d : diagram) (a : attrs) (k : string) : res attrs :=
  let* v := dgetE k a in
  match v with
  | VStr n => match get_node_by_id n d with Some x => Ok (snd x) | None => Err TypeError end
  | _ => Err TypeError
  end.

(** bpmn_diagram_layouter.py:390-427. *)
Definition set_flows_waypoints : MD unit :=
  do flows <- mread (fun d => Ok (get_flows d)) ;;
  mfor flows (fun f =>
    do s <- mread (fun d => flow_end d (snd f) k_source_ref) ;;
    do t <- mread (fun d => flow_end d (snd f) k_target_ref) ;;
    do w <- mread (fun _ => waypoints_for s t) ;;
    edge_set (fst (fst f)) (snd (fst f)) k_waypoints (VPoints w)).

(** bpmn_diagram_layouter.py:11-19. *)
Definition generate_layout (fuel : nat) : MD unit :=
  do cls <- mread generate_elements_clasification ;;
  do sorted <- mread (fun d => topological_sort fuel d cls) ;;
  do grid <- mread (fun d => grid_layout fuel d (fst sorted)) ;;
  do_ set_coordinates_for_nodes grid ;;
  set_flows_waypoints.
