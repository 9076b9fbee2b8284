(** Specification vocabulary: the order of the nodes of a file. *)
From Coq Require Import String List Bool.
From Verif Require Import Py Nx Rep SpecRep Xml SpecXml.
Import ListNotations.
Open Scope string_scope.
Open Scope list_scope.

(** The ids of the flow nodes that stand in an element, in document order; a subprocess is
    followed by what stands in it. *)
Fixpoint below (e : dom) : list string :=
  match e with
  | DElem _ _ ks =>
      flat_map (fun x => match x with
                         | DElem g _ _ =>
                             (if in_dec string_dec (local_name g) node_kinds then [get_attribute "id" x] else []) ++
                             (if string_dec (local_name g) "subProcess" then below x else [])
                         | _ => []
                         end) ks
  | _ => []
  end.
(** The ids that the collaboration mentions: participants without a process and the ends of
    message flows. *)
Definition partners (root : dom) : list string :=
  match collaboration_of root with
  | Some c => flat_map (fun x => match x with
                                 | DElem g _ _ =>
                                     if string_dec (local_name g) "participant" then
                                       if string_dec (get_attribute "processRef" x) "" then [get_attribute "id" x] else []
                                     else if string_dec (local_name g) "messageFlow" then
                                       [get_attribute "sourceRef" x; get_attribute "targetRef" x]
                                     else []
                                 | _ => []
                                 end) (d_kids c)
  | None => []
  end.
(** The list without repetitions: the first of equal elements stays. *)
Fixpoint firsts (l : list string) : list string :=
  match l with
  | [] => []
  | x :: r => x :: filter (fun y => if string_dec y x then false else true) (firsts r)
  end.
(** The sequence flows of each process and subprocess join nodes that stand in it. *)
Definition flows_inside (root : dom) : Prop := forall s x, flow_in root s x ->
  In (get_attribute "sourceRef" x) (below s) /\ In (get_attribute "targetRef" x) (below s).

(** The ids of all nodes, in the order of the diagram. *)
Definition node_order (d : diagram) : list string := map fst (gnodes (dgraph d)).
(** Everything stands directly in the process [p], the only one. *)
Definition all_in (d : diagram) (p : string) : Prop :=
  map fst (procs d) = [p] /\
  (forall n, is_node d n -> attr d n "process" = Some (VStr p) /\ exists t, attr d n "type" = Some (VStr t) /\ In t node_kinds) /\
  (forall e q, In e (gedges (dgraph d)) -> dget "process" (eat e) = Some (VStr q) -> q = p).
