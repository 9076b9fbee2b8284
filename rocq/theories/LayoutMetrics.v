(** Model of bpmn_python/diagram_layout_metrics.py.

    Floats are exact rationals; [pyfloat] is [float(...)] on strings ([None] stands
    for ValueError; nan and infinities are outside the model).  The helpers
    compute_determinant and check_integer_sign (lines 28-47) have no caller in the
    library.  [copy.deepcopy] is the identity here. *)
From Coq Require Import String List Bool Arith QArith Qminmax.
From Verif Require Import Py Consts Nx Rep.
Import ListNotations.
Open Scope string_scope.
Open Scope list_scope.

(** {x: .., y: ..} dictionaries and {source: .., target: ..} dictionaries
    (diagram_layout_metrics.py:64-65). *)
Record point : Type := mkPt { px : Q; py : Q }.
Record segment : Type := mkSeg { ssrc : point; stgt : point }.

Section Float.
Variable pyfloat : string -> option Q.

Definition floatE (s : string) : res Q :=
  match pyfloat s with Some q => Ok q | None => Err ValueError end.

(** The dictionary with the two converted coordinates (line 64). *)
Definition to_point (w : string * string) : res point :=
  let* x := floatE (fst w) in let* y := floatE (snd w) in Ok (mkPt x y).

(** diagram_layout_metrics.py:28-38; the arguments are pairs like those in the waypoints.  Each
    coordinate is converted twice in the code. *)
Definition compute_determinant (p1 p2 p3 : string * string) : res Q :=
  let* x1 := floatE (fst p1) in let* y2 := floatE (snd p2) in
  let* x2 := floatE (fst p2) in let* y3 := floatE (snd p3) in
  let* x3 := floatE (fst p3) in let* y1 := floatE (snd p1) in
  let det := (x1 * y2 + x2 * y3 + x3 * y1)%Q in
  Ok (det - (x1 * y3 + x2 * y1 + x3 * y2))%Q.

(** diagram_layout_metrics.py:41-47. *)
Definition check_integer_sign (value : Q) : bool := Qle_bool 0 value.

(** diagram_layout_metrics.py:62-66, the inner while loop. *)
Fixpoint segments_from (source : string * string) (waypoints : list (string * string))
  : res (list segment) :=
  match waypoints with
  | [] => Ok []
  | target :: rest =>
      let* s := to_point source in
      let* t := to_point target in
      let* r := segments_from target rest in
      Ok (mkSeg s t :: r)
  end.

(** diagram_layout_metrics.py:60-66: body of the loop over flows; [pop(0)] on an
    empty list raises IndexError.  Waypoints that are not a list of pairs are
    outside the model. *)
Definition flow_segments (flow : string * string * attrs) : res (list segment) :=
  let* v := dgetE k_waypoints (snd flow) in
  match v with
  | VPoints [] => Err IndexError
  | VPoints (source :: rest) => segments_from source rest
  | _ => Err Unmodelled
  end.

(** diagram_layout_metrics.py:50-67. *)
Definition get_flows_segments (flows : list (string * string * attrs)) : res (list segment) :=
  rfold (fun acc f => let* s := flow_segments f in Ok (acc ++ s)) flows [].

(** diagram_layout_metrics.py:85-92. *)
Definition points_are_equal (p1 p2 : point) : bool :=
  Qeq_bool (px p1) (px p2) && Qeq_bool (py p1) (py p2).

(** diagram_layout_metrics.py:70-82. *)
Definition segments_common_points (s1 s2 : segment) : bool :=
  points_are_equal (ssrc s1) (ssrc s2) || points_are_equal (ssrc s1) (stgt s2)
  || points_are_equal (stgt s1) (ssrc s2) || points_are_equal (stgt s1) (stgt s2).

(** [a > b] on floats. *)
Definition Qgt_bool (a b : Q) : bool := negb (Qle_bool a b).

(** diagram_layout_metrics.py:130-149. *)
Definition orientation (p1 p2 p3 : point) : nat :=
  let val := ((py p2 - py p1) * (px p3 - px p2) - (px p2 - px p1) * (py p3 - py p2))%Q in
  if Qeq_bool val 0 then 0%nat
  else if Qgt_bool val 0 then 1%nat
  else 2%nat.

(** diagram_layout_metrics.py:152-163. *)
Definition lies_on_segment (p1 p2 p3 : point) : bool :=
  (Qle_bool (Qmin (px p1) (px p2)) (px p3) && Qle_bool (px p3) (Qmax (px p1) (px p2)))
  && (Qle_bool (Qmin (py p1) (py p2)) (py p3) && Qle_bool (py p3) (Qmax (py p1) (py p2))).

(** diagram_layout_metrics.py:95-127. *)
Definition do_intersect (s1 s2 : segment) : bool :=
  let o1 := orientation (ssrc s1) (stgt s1) (ssrc s2) in
  let o2 := orientation (ssrc s1) (stgt s1) (stgt s2) in
  let o3 := orientation (ssrc s2) (stgt s2) (ssrc s1) in
  let o4 := orientation (ssrc s2) (stgt s2) (stgt s1) in
  if negb (Nat.eqb o1 o2) && negb (Nat.eqb o3 o4) then true
  else if Nat.eqb o1 0 && lies_on_segment (ssrc s1) (stgt s1) (ssrc s2) then true
  else if Nat.eqb o2 0 && lies_on_segment (ssrc s1) (stgt s1) (stgt s2) then true
  else if Nat.eqb o3 0 && lies_on_segment (ssrc s2) (stgt s2) (ssrc s1) then true
  else if Nat.eqb o4 0 && lies_on_segment (ssrc s2) (stgt s2) (stgt s1) then true
  else false.

(** diagram_layout_metrics.py:21-23: comparisons of one popped segment with the
    remaining ones. *)
Definition crossings_with (s1 : segment) (rest : list segment) : nat :=
  length (filter (fun s2 => negb (segments_common_points s1 s2) && do_intersect s1 s2) rest).

(** diagram_layout_metrics.py:18-25; [pop()] takes the last segment, so the list is
    walked in reverse. *)
Fixpoint crossing_loop (rsegments : list segment) : nat :=
  match rsegments with
  | [] => 0%nat
  | s :: rest => (crossings_with s (rev rest) + crossing_loop rest)%nat
  end.

(** diagram_layout_metrics.py:9-25. *)
Definition count_crossing_points (d : diagram) : res nat :=
  let* segments := get_flows_segments (get_flows d) in
  Ok (crossing_loop (rev segments)).

(** diagram_layout_metrics.py:166-173. *)
Definition count_segments (d : diagram) : res nat :=
  let* segments := get_flows_segments (get_flows d) in
  Ok (length segments).
End Float.

(** * Longest paths *)

(** [len(node[1][k])] is applied to lists only. *)
Definition vlistE (v : pyval) : res (list string) :=
  match v with VList l => Ok l | _ => Err Unmodelled end.

(** diagram_layout_metrics.py:185-188 and 236-239. *)
Definition no_incoming (n : string * attrs) : res bool :=
  let* v := dgetE k_incoming (snd n) in
  let* l := vlistE v in
  Ok (match l with [] => true | _ => false end).

(** diagram_layout_metrics.py:218-219 and 273-274.  An unknown flow gives None, and
    [None[2]] raises TypeError; an unknown node gives None, which the recursive call
    subscripts at once (TypeError). *)
Definition flow_target_node (d : diagram) (fid : string) : res (string * attrs) :=
  let* f := get_flow_by_id fid d in
  match f with
  | None => Err TypeError
  | Some flow =>
      let* v := dgetE k_target_ref (snd flow) in
      match v with
      | VStr t => match get_node_by_id t d with Some n => Ok n | None => Err TypeError end
      | _ => Err TypeError
      end
  end.

(** [node in nodes]: Python compares the (id, attributes) tuples.  Both sides are
    nodes of the same diagram, so comparing the ids is equivalent. *)
Definition node_in (n : string * attrs) (l : list (string * attrs)) : bool :=
  existsb (fun m => String.eqb (fst n) (fst m)) l.

(** [if len(b) > len(a)] keep the longer of two paths. *)
Definition longer {A} (a b : list A) : list A := if Nat.ltb (length a) (length b) then b else a.

(** diagram_layout_metrics.py:198-224.  Python recursion is bounded by its recursion
    limit; here by fuel. *)
Fixpoint find_longest_path (fuel : nat) (d : diagram) (previous : list (string * attrs))
         (node : string * attrs) : res (list (string * attrs)) :=
  match fuel with
  | O => Err OutOfFuel
  | S fuel' =>
      let* v := dgetE k_outgoing (snd node) in
      let* out := vlistE v in
      match out with
      | [] => Ok (previous ++ [node])
      | _ :: _ =>
          rfold (fun longest fid =>
                   let* next := flow_target_node d fid in
                   if node_in next previous then Ok longest
                   else let* p := find_longest_path fuel' d (previous ++ [node]) next in
                        Ok (longer longest p))
                out []
      end
  end.

(** diagram_layout_metrics.py:176-195 (the returned length is the path's length). *)
Definition compute_longest_path (fuel : nat) (d : diagram) : res (list (string * attrs)) :=
  let* nodes := get_nodes (Some "") d in
  let* starts := rfilter no_incoming nodes in
  rfold (fun longest n =>
           let* p := find_longest_path fuel d [] n in Ok (longer longest p)) starts [].

(** [node[1]['type'] in {"task", "subProcess"}]. *)
Definition qualified (n : string * attrs) : res bool :=
  let* v := dgetE k_type (snd n) in Ok (veqs v "task" || veqs v "subProcess").

(** [tmp_qualified_nodes] after the optional append (lines 264-266, 277-279). *)
Definition qualify (q : list (string * attrs)) (n : string * attrs) : res (list (string * attrs)) :=
  let* b := qualified n in Ok (if b then q ++ [n] else q).

(** diagram_layout_metrics.py:249-291. *)
Fixpoint find_longest_path_tasks (fuel : nat) (d : diagram) (path quals : list (string * attrs))
         (node : string * attrs) : res (list (string * attrs) * list (string * attrs)) :=
  match fuel with
  | O => Err OutOfFuel
  | S fuel' =>
      let* v := dgetE k_outgoing (snd node) in
      let* out := vlistE v in
      match out with
      | [] => let* q := qualify quals node in Ok (path ++ [node], q)
      | _ :: _ =>
          rfold (fun (best : list (string * attrs) * list (string * attrs)) fid =>
                   let* next := flow_target_node d fid in
                   let* q := qualify quals node in
                   let* cand := (if node_in next path then Ok (path ++ [node], q)
                                 else find_longest_path_tasks fuel' d (path ++ [node]) q next) in
                   Ok (if Nat.ltb (length (snd best)) (length (snd cand)) then cand else best))
                out (path ++ [node], [])
      end
  end.

(** diagram_layout_metrics.py:227-246. *)
Definition compute_longest_path_tasks (fuel : nat) (d : diagram) : res (list (string * attrs)) :=
  let* nodes := get_nodes (Some "") d in
  let* starts := rfilter no_incoming nodes in
  rfold (fun longest n =>
           let* r := find_longest_path_tasks fuel d [] [] n in Ok (longer longest (snd r))) starts [].
