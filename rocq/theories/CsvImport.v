(** Model of bpmn_python/bpmn_process_csv_import.py.

    pandas is an external library: the model starts from the dictionary that
    [read_csv(...).fillna("").to_dict('index')] (line 612) returns.  Its keys are the
    values of the first column, strings or integers; every row has the five
    remaining columns, with string values. *)
From Coq Require Import String Ascii List Bool Arith ZArith.
From Verif Require Import Py Consts Nx Rep CsvRegex.
Import ListNotations.
Open Scope string_scope.
Open Scope list_scope.

(** A row: the columns of bpmn_python_consts.py:40-44. *)
Record row : Type := mkRow {
  r_activity : string; r_condition : string; r_who : string;
  r_subprocess : string; r_terminated : string }.

(** * Strings *)
Fixpoint rstrip_nonempty (s : string) : string :=
  match s with
  | EmptyString => ""
  | String c t =>
      let t' := rstrip_nonempty t in
      if String.eqb t' "" && is_space c then "" else String c t'
  end.
Fixpoint lstrip (s : string) : string :=
  match s with
  | EmptyString => ""
  | String c t => if is_space c then lstrip t else s
  end.
(** [s.strip()]. *)
Definition strip (s : string) : string := rstrip_nonempty (lstrip s).

Definition lower_ascii (c : ascii) : ascii :=
  if between "A" "Z" c then ascii_of_nat (nat_of_ascii c + 32) else c.
(** [s.lower()]. *)
Fixpoint lower (s : string) : string :=
  match s with
  | EmptyString => ""
  | String c t => String (lower_ascii c) (lower t)
  end.

(** [s.split()]: words separated by white space; [w] is the current word. *)
Fixpoint split_words (w s : string) : list string :=
  match s with
  | EmptyString => if String.eqb w "" then [] else [w]
  | String c t =>
      if is_space c then (if String.eqb w "" then [] else [w]) ++ split_words "" t
      else split_words (w ++ String c "") t
  end.
Definition py_split (s : string) : list string := split_words "" s.

(** * Orders *)

(** A key of the pandas dictionary. *)
Inductive order_label : Type := OStr (s : string) | OInt (z : Z).

(** bpmn_process_csv_import.py:91-94: the key a row ends up with. *)
Definition clean_order (o : order_label) : string :=
  match o with
  | OStr s => if String.eqb (strip s) s then s else strip s
  | OInt z => zstr z
  end.

Definition label_eqb (a b : order_label) : bool :=
  match a, b with
  | OStr s, OStr t => String.eqb s t
  | OInt y, OInt z => Z.eqb y z
  | _, _ => false
  end.
(** Dictionaries with label keys. *)
Fixpoint ldel (k : order_label) (l : list (order_label * row)) : list (order_label * row) :=
  match l with
  | [] => []
  | (k', v) :: t => if label_eqb k k' then ldel k t else (k', v) :: ldel k t
  end.
Fixpoint lset (k : order_label) (v : row) (l : list (order_label * row)) : list (order_label * row) :=
  match l with
  | [] => [(k, v)]
  | (k', v') :: t => if label_eqb k k' then (k', v) :: t else (k', v') :: lset k v t
  end.
Definition label_str (o : order_label) : string := match o with OStr s => s | OInt z => zstr z end.
(** bpmn_process_csv_import.py:83-94.  All keys are strings afterwards, the outer
    [map] only changes the type of the dictionary. *)
Definition remove_white_spaces_in_orders (table : list (order_label * row)) : dict row :=
  map (fun p => (label_str (fst p), snd p))
      (fold_left (fun d p => lset (OStr (clean_order (fst p))) (snd p) (ldel (fst p) d)) table table).

(** * The importer.  The state is the diagram and [process_dict]; [sequence_flows] is
    the dictionary of the diagram (line 591). *)
Definition cstate : Type := diagram * dict row.
Definition MC := M cstate.
(** Running a method of the diagram. *)
Definition on_diagram {A} (m : MD A) : MC A :=
  fun s => let r := m (fst s) in ((fst r, snd s), snd r).

(** bpmn_process_csv_import.py:24-25. *)
Definition default_process_id := "process_1".
Definition default_plane_id := "plane_1".

(** bpmn_process_csv_import.py:28-42. *)
Definition get_node_type (order : string) (r : row) : string :=
  if String.eqb order "0" then t_start_event
  else if String.eqb (r_terminated r) "yes" then t_end_event
  else if String.eqb (r_subprocess r) "yes" then t_subprocess
  else t_task.

(** bpmn_process_csv_import.py:45-67.  [node_type] may be None.  The node id is always
    given, so no uuid is drawn. *)
Definition add_node_info_to_diagram_graph (order : string) (node_type : option string) (activity pid : string)
  : MD unit :=
  let is t := match node_type with Some t' => String.eqb t' t | None => false end in
  let forget (m : MD string) : MD unit := do_ m ;; mret tt in
  if is t_start_event then forget (add_start_event_to_diagram pid activity None false true (Some order) "" "")
  else if is t_subprocess then forget (add_subprocess_to_diagram pid activity false false (Some order) "")
  else if is t_end_event then forget (add_end_event_to_diagram pid "" None (Some order) "" "")
  else if is t_inclusive_gateway then
    forget (add_inclusive_gateway_to_diagram pid "" "Unspecified" None (Some order) "")
  else if is t_exclusive_gateway then
    forget (add_exclusive_gateway_to_diagram pid "" "Unspecified" None (Some order) "")
  else if is t_parallel_gateway then
    forget (add_parallel_gateway_to_diagram pid "" "Unspecified" (Some order) "")
  else forget (add_task_to_diagram pid activity (Some order) "").

(** bpmn_process_csv_import.py:70-80. *)
Definition import_nodes_info : MC unit :=
  do rows <- mread (fun s => Ok (snd s)) ;;
  mfor rows (fun p => on_diagram (add_node_info_to_diagram_graph (fst p)
                        (Some (get_node_type (fst p) (snd p))) (r_activity (snd p)) default_process_id)).

(** bpmn_process_csv_import.py:167-174, the set without repetitions. *)
Definition successors_present (possible nodes_ids : list string) : list string :=
  nodup string_dec (filter (fun s => smem s nodes_ids) possible).
(** bpmn_process_csv_import.py:157-164. *)
Definition any_successor_present (possible nodes_ids : list string) : bool :=
  match successors_present possible nodes_ids with [] => false | _ => true end.
(** bpmn_process_csv_import.py:177-188. *)
Definition the_successor_present (possible nodes_ids : list string) : res string :=
  match successors_present possible nodes_ids with
  | [s] => Ok s
  | _ => Err (BpmnPythonError "Some error in program - there should be exactly one found successor.")
  end.

(** bpmn_process_csv_import.py:214-244. *)
Definition is_there_sequence_continuation (n : string) (ids : list string) : res bool :=
  let* l := get_possible_sequence_continuation_successor n in Ok (any_successor_present l ids).
Definition is_there_split_continuation (n : string) (ids : list string) : res bool :=
  let* l := get_possible_split_continuation_successor n in Ok (any_successor_present l ids).
Definition is_there_merge_continuation (n : string) (ids : list string) : res bool :=
  let* l := get_possible_merge_continuation_successors n in Ok (any_successor_present l ids).

(** bpmn_process_csv_import.py:247-254. *)
Definition is_node_the_end_event (n : string) (table : dict row) : res bool :=
  let* r := dgetE n table in Ok (String.eqb (r_terminated r) "yes").

(** bpmn_process_csv_import.py:292-299. *)
Definition get_flow_id (s t : string) : string := s ++ "__" ++ t.

(** bpmn_process_csv_import.py:257-266: [get(...) is None] means missing or None. *)
Definition add_flow_to_node (n k f : string) : MD unit :=
  do a <- gread (fun g => match gnode g n with Some a => Ok a | None => Err (KeyError n) end) ;;
  do_ (match dget k a with
       | None | Some VNone => node_set n k (VList [])
       | Some _ => mret tt
       end) ;;
  ggraph (append_node_attr n k f).
Definition add_outgoing_flow (n succ : string) : MD unit := add_flow_to_node n k_outgoing (get_flow_id n succ).
(** bpmn_process_csv_import.py:269-278. *)
Definition add_incoming_flow (n from : string) : MD unit := add_flow_to_node n k_incoming (get_flow_id from n).

(** bpmn_process_csv_import.py:281-289. *)
Definition connection_condition (n : string) (table : dict row) : option string :=
  option_map r_condition (dget n table).

(** bpmn_process_csv_import.py:302-325. *)
Definition csv_add_edge (s t : string) (condition : option string) : MD unit :=
  let f := get_flow_id s t in
  do_ ggraph (fun g => Ok (add_edge s t g)) ;;
  do_ edge_set s t k_id (VStr f) ;;
  do_ edge_set s t k_process (VStr default_process_id) ;;
  do_ edge_set s t k_name (VStr "") ;;
  do_ edge_set s t k_source_ref (VStr s) ;;
  do_ edge_set s t k_target_ref (VStr t) ;;
  do_ (match condition with
       | Some c => if String.eqb c "" then mret tt
                   else edge_set s t k_condition_expression (VCond (f ++ "_cond") c)
       | None => mret tt
       end) ;;
  mmodify (fun d => with_flows d (dset f (mkFlow f s t) (seq_flows d))).

(** bpmn_process_csv_import.py:328-339. *)
Definition add_connection (s t : string) : MC unit :=
  do_ on_diagram (add_outgoing_flow s t) ;;
  do_ on_diagram (add_incoming_flow t s) ;;
  do c <- mread (fun st => Ok (connection_condition t (snd st))) ;;
  on_diagram (csv_add_edge s t c).

(** bpmn_process_csv_import.py:342-352. *)
Definition get_node_conditions (succs : list string) (table : dict row) : res (list string) :=
  rmap (fun s => let* r := dgetE s table in Ok (strip (r_condition r))) succs.
(** bpmn_process_csv_import.py:355-361. *)
Definition yes_no_conditions (l : list string) : bool :=
  smem "yes" l && smem "no" l && forallb (fun s => smem s ["yes"; "no"]) l.
(** bpmn_process_csv_import.py:364-370. *)
Definition sth_else_conditions (l : list string) : bool := smem "else" l.
(** bpmn_process_csv_import.py:373-382. *)
Definition no_conditions (l : list string) : bool := forallb (fun s => String.eqb s "") l.

(** bpmn_process_csv_import.py:385-400. *)
Definition get_gateway_type (n : string) (ids : list string) (table : dict row) : res string :=
  let* succs := get_all_split_successors n ids in
  let* conditions := get_node_conditions succs table in
  Ok (if Nat.eqb (length succs) 2 && (yes_no_conditions conditions || sth_else_conditions conditions)
      then t_exclusive_gateway
      else if no_conditions conditions then t_parallel_gateway
      else t_inclusive_gateway).

(** bpmn_process_csv_import.py:403-417. *)
Definition split_id (n : string) : string := n ++ "_split".
Definition add_split_gateway (n : string) (ids : list string) : MC string :=
  do t <- mread (fun s => get_gateway_type n ids (snd s)) ;;
  do_ on_diagram (add_node_info_to_diagram_graph (split_id n) (Some t) "" default_process_id) ;;
  mret (split_id n).

(** bpmn_process_csv_import.py:420-439; [None] when the order has no trailing number.
    Attribute values that are not strings are outside the model. *)
Definition get_merge_node_type (succ : string) (d : diagram) : res (option string) :=
  match re_match rx_trailing_number succ with
  | None => Ok None
  | Some m =>
      let* n := py_int (group 2 m) in
      if Z.ltb (n - 2) 0
      then Err (BpmnPythonError ("Something wrong in csv file syntax - look for " ++ succ))
      else
        let split_node_id := split_id (group 1 m ++ zstr (n - 2)) in
        match gnode (dgraph d) split_node_id with
        | None => Ok (Some t_inclusive_gateway)
        | Some a =>
            let* v := dgetE k_type a in
            match v with
            | VStr t => Ok (Some (if String.eqb t "" then t_inclusive_gateway else t))
            | _ => Err Unmodelled
            end
        end
  end.

(** bpmn_process_csv_import.py:442-459. *)
Definition join_id (n : string) : string := n ++ "_join".
Definition add_merge_gateway_if_not_exists (succ : string) : MD (string * bool) :=
  do exists_ <- gread (fun g => Ok (has_node g (join_id succ))) ;;
  if (exists_ : bool) then mret (join_id succ, false)
  else
    do t <- mread (get_merge_node_type succ) ;;
    do_ add_node_info_to_diagram_graph (join_id succ) t "" default_process_id ;;
    mret (join_id succ, true).

(** bpmn_process_csv_import.py:472-495: one round of the loop. *)
Definition connect_node (ids : list string) (n : string) : MC unit :=
  do is_end <- mread (fun s => is_node_the_end_event n (snd s)) ;;
  if (is_end : bool) then mret tt
  else
    do is_seq <- mread (fun _ => is_there_sequence_continuation n ids) ;;
    if (is_seq : bool) then
      do l <- mread (fun _ => get_possible_sequence_continuation_successor n) ;;
      do succ <- mread (fun _ => the_successor_present l ids) ;;
      add_connection n succ
    else
      do is_split <- mread (fun _ => is_there_split_continuation n ids) ;;
      if (is_split : bool) then
        do g <- add_split_gateway n ids ;;
        do_ add_connection n g ;;
        do succs <- mread (fun _ => get_all_split_successors n ids) ;;
        mfor succs (fun s => add_connection g s)
      else
        do is_merge <- mread (fun _ => is_there_merge_continuation n ids) ;;
        if (is_merge : bool) then
          do l <- mread (fun _ => get_possible_merge_continuation_successors n) ;;
          do succ <- mread (fun _ => the_successor_present l ids) ;;
          do g <- on_diagram (add_merge_gateway_if_not_exists succ) ;;
          do_ (if (snd g : bool) then add_connection (fst g) succ else mret tt) ;;
          add_connection n (fst g)
        else mraise (BpmnPythonError ("Something wrong in csv file syntax - look for " ++ n)).

(** bpmn_process_csv_import.py:462-495. *)
Definition fill_graph_connections : MC unit :=
  do ids <- mread (fun s => Ok (dkeys (gnodes (dgraph (fst s))))) ;;
  mfor ids (connect_node ids).

(** [l.remove(x)]. *)
Fixpoint list_remove (x : string) (l : list string) : res (list string) :=
  match l with
  | [] => Err ValueError
  | y :: t => if String.eqb x y then Ok t else let* r := list_remove x t in Ok (y :: r)
  end.
(** [graph.node[n][k]] holding a list; other values are outside the model. *)
Definition node_list (n k : string) (g : graph) : res (list string) :=
  let* v := get_node_attr n k g in match v with VList l => Ok l | _ => Err Unmodelled end.
Definition list_head (l : list string) : res string :=
  match l with x :: _ => Ok x | [] => Err IndexError end.

(** bpmn_process_csv_import.py:498-511. *)
Definition remove_outgoing_connection (base : string) : MD string :=
  do l <- gread (node_list base k_outgoing) ;;
  do f <- mread (fun _ => list_head l) ;;
  do r <- mread (fun d => dgetE f (seq_flows d)) ;;
  do li <- gread (node_list (fl_tgt r) k_incoming) ;;
  do li' <- mread (fun _ => list_remove f li) ;;
  do_ node_set (fl_tgt r) k_incoming (VList li') ;;
  do_ mmodify (fun d => with_flows d (ddel f (seq_flows d))) ;;
  do_ ggraph (remove_edge base (fl_tgt r)) ;;
  mret (fl_tgt r).
(** bpmn_process_csv_import.py:514-527. *)
Definition remove_incoming_connection (base : string) : MD string :=
  do l <- gread (node_list base k_incoming) ;;
  do f <- mread (fun _ => list_head l) ;;
  do r <- mread (fun d => dgetE f (seq_flows d)) ;;
  do lo <- gread (node_list (fl_src r) k_outgoing) ;;
  do lo' <- mread (fun _ => list_remove f lo) ;;
  do_ node_set (fl_src r) k_outgoing (VList lo') ;;
  do_ mmodify (fun d => with_flows d (ddel f (seq_flows d))) ;;
  do_ ggraph (remove_edge (fl_src r) base) ;;
  mret (fl_src r).

(** bpmn_process_csv_import.py:530-544. *)
Definition csv_remove_node (n : string) : MC (string * string) :=
  do s <- on_diagram (remove_incoming_connection n) ;;
  do t <- on_diagram (remove_outgoing_connection n) ;;
  do_ on_diagram (ggraph (remove_node n)) ;;
  do_ mmodify (fun st => (fst st, ddel n (snd st))) ;;
  mret (s, t).

(** [len(node[1].get(k))] of a node of the snapshot (its attribute dictionary is the
    live one). *)
Definition flow_count (n k : string) (d : diagram) : res nat :=
  match gnode (dgraph d) n with
  | None => Err Unmodelled
  | Some a => match dget k a with
              | Some (VList l) => Ok (length l)
              | None | Some VNone => Err TypeError
              | _ => Err Unmodelled
              end
  end.
(** [node[1].get(type) in [inclusive, exclusive, parallel]]. *)
Definition removable_type (n : string) (d : diagram) : bool :=
  match gnode (dgraph d) n with
  | None => false
  | Some a => match dget k_type a with
              | Some v => veqs v t_inclusive_gateway || veqs v t_exclusive_gateway || veqs v t_parallel_gateway
              | None => false
              end
  end.

(** bpmn_process_csv_import.py:547-561.  Only the visited node itself is removed in a
    round, so every node of the snapshot is still in the graph when it is visited. *)
Definition remove_gateway_if_unnecessary (n : string) : MC unit :=
  do g <- mread (fun s => Ok (removable_type n (fst s))) ;;
  if (g : bool) then
    do i <- mread (fun s => flow_count n k_incoming (fst s)) ;;
    if Nat.ltb i 2 then
      do o <- mread (fun s => flow_count n k_outgoing (fst s)) ;;
      if Nat.ltb o 2 then
        do p <- csv_remove_node n ;;
        add_connection (fst p) (snd p)
      else mret tt
    else mret tt
  else mret tt.
Definition remove_unnecessary_merge_gateways : MC unit :=
  do ids <- mread (fun s => Ok (dkeys (gnodes (dgraph (fst s))))) ;;
  mfor ids remove_gateway_if_unnecessary.

(** bpmn_process_csv_import.py:572. *)
Definition is_goto (r : row) : bool := prefix "goto" (lower (r_activity r)).
(** bpmn_process_csv_import.py:574. *)
Definition goto_target (r : row) : res string :=
  match nth_error (py_split (strip (r_activity r))) 1 with Some t => Ok t | None => Err IndexError end.
(** bpmn_process_csv_import.py:564-575. *)
Definition remove_goto_nodes : MC unit :=
  do rows <- mread (fun s => Ok (snd s)) ;;
  mfor rows (fun p =>
    if is_goto (snd p) then
      do st <- csv_remove_node (fst p) ;;
      do t <- mread (fun _ => goto_target (snd p)) ;;
      add_connection (fst st) t
    else mret tt).

(** bpmn_process_csv_import.py:671-683. *)
Definition adjust_node (n : string) : MD unit :=
  let default k v : MD unit :=
    do a <- gread (fun g => match gnode g n with Some a => Ok a | None => Err (KeyError n) end) ;;
    match dget k a with
    | None | Some VNone => node_set n k v
    | Some _ => mret tt
    end in
  do_ default k_incoming (VList []) ;;
  do_ default k_outgoing (VList []) ;;
  default k_event_definitions (VDefs []).
Definition legacy_adjustment : MD unit :=
  do ids <- gread (fun g => Ok (dkeys (gnodes g))) ;;
  mfor ids adjust_node.

(** bpmn_process_csv_import.py:637-669. *)
Definition populate_dicts : MC unit :=
  do orders <- mread (fun s => Ok (dkeys (snd s))) ;;
  on_diagram (mmodify (fun d =>
    let d1 := with_diag d (dset k_name (VStr "diagram_name") (dset k_id (VStr "diagram1") (diag_attrs d))) in
    let d2 := with_procs d1 (dset default_process_id
                [(k_id, VStr default_process_id); (k_name, VStr ""); (k_is_closed, VStr "false");
                 (k_is_executable, VStr "false"); (k_process_type, VStr "None");
                 (k_node_ids, VList orders)] (procs d1)) in
    with_plane d2 (dset k_bpmn_element (VStr default_process_id)
                    (dset k_id (VStr default_plane_id) (plane_attrs d2))))).

(** bpmn_process_csv_import.py:582-603, 626-635, 685-695, from the cleaned table on. *)
Definition import_table : MC unit :=
  do_ populate_dicts ;;
  do_ import_nodes_info ;;
  do_ fill_graph_connections ;;
  do_ on_diagram legacy_adjustment ;;
  do_ remove_goto_nodes ;;
  remove_unnecessary_merge_gateways.

(** bpmn_process_csv_import.py:582-614; bpmn_diagram_rep.py:85-93. *)
Definition load_diagram_from_csv (table : list (order_label * row)) (d : diagram) : diagram * res unit :=
  let r := import_table (d, remove_white_spaces_in_orders table) in (fst (fst r), snd r).
