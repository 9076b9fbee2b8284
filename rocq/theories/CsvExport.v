(** Model of bpmn_python/bpmn_process_csv_export.py. *)
From Coq Require Import String Ascii List Bool Arith ZArith.
From Verif Require Import Py Consts Nx Rep Classify.
Import ListNotations.
Open Scope string_scope.
Open Scope list_scope.

(** A dictionary of [export_elements] (e.g. line 151): the six keys are always
    written together.  Activity and condition are copied from the diagram and may
    have any type. *)
Record erow : Type := mkERow {
  e_order : string; e_activity : pyval; e_condition : pyval;
  e_who : string; e_subprocess : string; e_terminated : string }.

Definition node_t : Type := (string * attrs)%type.

(** [s + v]: TypeError unless [v] is a string. *)
Definition str_add (s : string) (v : pyval) : res pyval :=
  match v with VStr t => Ok (VStr (s ++ t)) | _ => Err TypeError end.

(** Lines 227-231, 268-272: the type of the first event definition, if any. *)
Definition first_definition (a : attrs) : res (option string) :=
  match dget k_event_definitions a with
  | None | Some VNone => Ok None
  | Some (VDefs []) => Ok None
  | Some (VDefs (e :: _)) => Ok (Some (snd e))
  | Some (VList []) => Ok None
  | _ => Err Unmodelled
  end.

(** Lines 233-240. *)
Definition start_activity (a : attrs) : res pyval :=
  let* def := first_definition a in
  let* name := dgetE k_node_name a in
  match def with
  | Some t => if String.eqb t "messageEventDefinition" then str_add "message " name
              else if String.eqb t "timerEventDefinition" then str_add "timer " name
              else Ok name
  | None => Ok name
  end.
(** Lines 274-279. *)
Definition end_activity (a : attrs) : res pyval :=
  let* def := first_definition a in
  let* name := dgetE k_node_name a in
  match def with
  | Some t => if String.eqb t "messageEventDefinition" then str_add "message " name else Ok name
  | None => Ok name
  end.

(** [node[1].get(outgoing)]; values that are not lists are outside the model, [None]
    is Python's None. *)
Definition outgoing_list (a : attrs) : res (option (list string)) :=
  match dget k_outgoing a with
  | None | Some VNone => Ok None
  | Some (VList l) => Ok (Some l)
  | _ => Err Unmodelled
  end.

(** Lines 146-147, 161-162, 199-200: the flow with the given id and its target node.
    [None[2]] and a later [None[1]] are TypeErrors. *)
Definition flow_of (d : diagram) (f : string) : res attrs :=
  let* t := get_flow_by_id f d in
  match t with Some e => Ok (snd e) | None => Err TypeError end.
Definition target_node (d : diagram) (flow : attrs) : res (option node_t) :=
  let* v := dgetE k_target_ref flow in
  Ok (match v with VStr n => get_node_by_id n d | _ => None end).

(** [string.ascii_lowercase[i]] (line 165). *)
Definition ascii_lowercase (i : nat) : res string :=
  if Nat.ltb i 26 then Ok (String (ascii_of_nat (97 + i)) "") else Err IndexError.

(** Lines 132-136. *)
Definition default_flow (ntype : pyval) (a : attrs) : option pyval :=
  if veqs ntype t_parallel_gateway then None
  else match dget k_default a with
       | Some VNone | None => None
       | Some v => Some v
       end.
(** Line 179, [outgoing_flow_id == default_flow_id]. *)
Definition is_default (f : string) (v : option pyval) : bool :=
  match v with Some v => veqs v f | None => false end.

(** Lines 169-173. *)
Definition branch_condition (ntype : pyval) (flow : attrs) : pyval :=
  if veqs ntype t_parallel_gateway then VStr ""
  else match dget k_name flow with
       | Some VNone | None => VStr ""
       | Some v => v
       end.

(** The result: the rows so far and the returned node. *)
Definition eres : Type := res (list erow * option node_t).

(** bpmn_process_csv_export.py:77-284, with fuel for the mutual recursion of
    [export_node], [export_element] and [export_start_event].  [classes] is
    [nodes_classification]. *)
Fixpoint export_node (fuel : nat) (d : diagram) (classes : dict (list string)) (node : option node_t)
         (order : Z) (prefix : string) (condition : pyval) (who : string) (add_join : bool)
         (rows : list erow) {struct fuel} : eres :=
  match fuel with
  | O => Err OutOfFuel
  | S fuel' =>
    match node with
    | None => Err TypeError
    | Some (nid, a) =>
      let* ntype := dgetE k_type a in
      if veqs ntype t_start_event then
        (* lines 207-249 *)
        let* activity := start_activity a in
        let rows1 := rows ++ [mkERow (prefix ++ zstr order)%string activity condition who "" ""] in
        let* v := dgetE k_outgoing a in
        let* outs := match v with VList l => Ok l | _ => Err Unmodelled end in
        let* f := match outs with f :: _ => Ok f | [] => Err IndexError end in
        let* flow := flow_of d f in
        let* next := target_node d flow in
        export_node fuel' d classes next (order + 1) prefix (VStr who) "" false rows1
      else if veqs ntype t_end_event then
        (* lines 251-284 *)
        let* activity := end_activity a in
        Ok (rows ++ [mkERow (prefix ++ zstr order)%string activity condition who "" "yes"], None)
      else
        (* lines 109-205 *)
        let* labels := dgetE nid classes in
        let* oouts := outgoing_list a in
        let dflt := default_flow ntype a in
        if smem c_join labels && negb add_join then
          if veqs ntype t_task || veqs ntype t_subprocess then Ok (rows, node)
          else
            let* outs := match oouts with Some l => Ok l | None => Err TypeError end in
            let* f := match outs with f :: _ => Ok f | [] => Err IndexError end in
            let* flow := flow_of d f in
            let* next := target_node d flow in
            Ok (rows, next)
        else
          let* rows1 :=
            (if veqs ntype t_task then
               let* name := dgetE k_node_name a in
               Ok (rows ++ [mkERow (prefix ++ zstr order)%string name condition who "" ""])
             else if veqs ntype t_subprocess then
               let* name := dgetE k_node_name a in
               Ok (rows ++ [mkERow (prefix ++ zstr order)%string name condition who "yes" ""])
             else Ok rows) in
          if smem c_split labels then
            let* outs := match oouts with Some l => Ok l | None => Err TypeError end in
            let* st :=
              rfold (fun (st : list erow * option node_t * nat) f =>
                       let '(rs, next, i) := st in
                       let* flow := flow_of d f in
                       let* target := target_node d flow in
                       let* suffix := ascii_lowercase i in
                       let next_prefix := (prefix ++ zstr order ++ suffix)%string in
                       let cond := branch_condition ntype flow in
                       let* tid := match target with Some t => Ok (fst t) | None => Err TypeError end in
                       let* tlabels := dgetE tid classes in
                       if smem c_join tlabels then
                         Ok (rs ++ [mkERow (next_prefix ++ "1")%string
                                      (VStr ("goto " ++ prefix ++ zstr (order + 1))) cond who "" ""],
                             next, S i)
                       else
                         let* r := export_node fuel' d classes target 1 next_prefix
                                     (if is_default f dflt then VStr "else" else cond) who false rs in
                         Ok (fst r, match snd r with Some n => Some n | None => next end, S i))
                    outs (rows1, None, 0) in
            match snd (fst st) with
            | Some n => export_node fuel' d classes (Some n) (order + 1) prefix (VStr "") who true (fst (fst st))
            | None => Ok (fst (fst st), None)
            end
          else
            match oouts with
            | None => Err TypeError
            | Some [f] =>
                let* flow := flow_of d f in
                let* next := target_node d flow in
                export_node fuel' d classes next (order + 1) prefix (VStr "") who false rows1
            | Some _ => Ok (rows1, None)
            end
    end
  end.

(** * The file.  The state is the content of the output file, [None] before it is
    opened.  Creating the directory (lines 67-71) always succeeds in the model. *)
Definition MF := M (option string).
Definition fwrite (s : string) : MF unit :=
  mmodify (fun o => Some (match o with Some t => (t ++ s)%string | None => s end)).

(** [a + "," + b]: the fields must be strings. *)
Definition field (v : pyval) : res string := match v with VStr s => Ok s | _ => Err TypeError end.
Definition newline : string := String (ascii_of_nat 10) "".
(** bpmn_process_csv_export.py:297-299. *)
Definition row_line (r : erow) : res string :=
  let* a := field (e_activity r) in
  let* c := field (e_condition r) in
  Ok (e_order r ++ "," ++ a ++ "," ++ c ++ "," ++ e_who r ++ "," ++ e_subprocess r ++ ","
      ++ e_terminated r ++ newline)%string.
(** bpmn_process_csv_export.py:286-299. *)
Definition write_export_node_to_file (rows : list erow) : MF unit :=
  mfor rows (fun r => do l <- mread (fun _ => row_line r) ;; fwrite l).

(** Lines 56-59: the nodes without incoming flows; [len(None)] is a TypeError. *)
Definition entry_nodes (d : diagram) : res (list node_t) :=
  let* nodes := get_nodes (Some "") d in
  rfilter (fun n => match dget k_incoming (snd n) with
                    | None | Some VNone => Err TypeError
                    | Some (VList l) => Ok (Nat.eqb (length l) 0)
                    | _ => Err Unmodelled
                    end) nodes.

(** bpmn_process_csv_export.py:43-75: the rows. *)
Definition export_rows (fuel : nat) (d : diagram) : res (list erow) :=
  let* entries := entry_nodes d in
  match entries with
  | [start] =>
      let* classes := generate_nodes_clasification d in
      let* r := export_node fuel d classes (Some start) 0 "" (VStr "") "" false [] in
      Ok (fst r)
  | _ => Err (BpmnPythonError "Exporting to CSV format accepts only one start event")
  end.
Definition csv_header : string := ("Order,Activity,Condition,Who,Subprocess,Terminated" ++ newline)%string.
Definition export_process_to_csv (fuel : nat) (d : diagram) : MF unit :=
  do rows <- mread (fun _ => export_rows fuel d) ;;
  do_ fwrite csv_header ;;
  write_export_node_to_file rows.
