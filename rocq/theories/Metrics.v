(** Model of bpmn_python/bpmn_diagram_metrics.py. *)
From Coq Require Import String List Bool Arith ZArith QArith.
From Verif Require Import Py Consts Nx Rep.
Import ListNotations.
Open Scope string_scope.
Open Scope list_scope.
Open Scope nat_scope.

(** bpmn_diagram_metrics.py:11. *)
Definition GATEWAY_TYPES : list string :=
  ["inclusiveGateway"; "exclusiveGateway"; "parallelGateway"; "eventBasedGateway"; "complexGateway"].

(** bpmn_diagram_metrics.py:12. *)
Definition EVENT_TYPES : list string :=
  ["startEvent"; "endEvent"; "intermediateCatchEvent"; "intermediateThrowEvent"].

(** bpmn_diagram_metrics.py:15-26; [None] is the Python default. *)
Definition get_nodes_count (node_type : option string) (d : diagram) : res nat :=
  let* l := get_nodes node_type d in Ok (length l).

(** [node[1]['type'] in GATEWAY_TYPES] (bpmn_diagram_metrics.py:36). *)
Definition type_in (tys : list string) (n : string * attrs) : res bool :=
  let* v := dgetE k_type (snd n) in Ok (existsb (veqs v) tys).

(** bpmn_diagram_metrics.py:29-38.  In Python 3 the filter is lazy; its only user
    (line 288) consumes it at once. *)
Definition get_all_gateways (d : diagram) : res (list (string * attrs)) :=
  let* l := get_nodes (Some "") d in rfilter (type_in GATEWAY_TYPES) l.

(** Dictionary comprehension over a list of types (lines 50-51, 63-64). *)
Definition counts_of (tys : list string) (d : diagram) : res (dict nat) :=
  rmap (fun t => let* c := get_nodes_count (Some t) d in Ok (t, c)) tys.

(** bpmn_diagram_metrics.py:41-51. *)
Definition get_gateway_counts (d : diagram) : res (dict nat) := counts_of GATEWAY_TYPES d.

(** bpmn_diagram_metrics.py:54-64. *)
Definition get_events_counts (d : diagram) : res (dict nat) := counts_of EVENT_TYPES d.

(** bpmn_diagram_metrics.py:67-81. *)
Definition get_activities_counts (d : diagram) : res (dict nat) :=
  let* t := get_nodes_count (Some "task") d in
  let* s := get_nodes_count (Some "subProcess") d in
  Ok [("task", t); ("subProcess", s)].

(** [sum([count for name, count in c.items()])]. *)
Definition sum_counts (c : dict nat) : nat := fold_right (fun p acc => snd p + acc) 0 c.

(** bpmn_diagram_metrics.py:84-94. *)
Definition all_activities_count (d : diagram) : res nat :=
  let* c := get_activities_counts d in Ok (sum_counts c).

(** bpmn_diagram_metrics.py:97-108. *)
Definition all_gateways_count (d : diagram) : res nat :=
  let* c := get_gateway_counts d in Ok (sum_counts c).

(** bpmn_diagram_metrics.py:111-128: copy and [dict.update]. *)
Definition all_control_flow_elements_count (d : diagram) : res nat :=
  let* g := get_gateway_counts d in
  let* e := get_events_counts d in
  Ok (sum_counts (fold_left (fun acc p => dset (fst p) (snd p) acc) e g)).

(** bpmn_diagram_metrics.py:131-142. *)
Definition all_events_count (d : diagram) : res nat :=
  let* c := get_events_counts d in Ok (sum_counts c).

(** bpmn_diagram_metrics.py:145-153. *)
Definition TNSE_metric (d : diagram) : res nat := get_nodes_count (Some "startEvent") d.

(** bpmn_diagram_metrics.py:156-165. *)
Definition TNIE_metric (d : diagram) : res nat :=
  let* a := get_nodes_count (Some "intermediateCatchEvent") d in
  let* b := get_nodes_count (Some "intermediateThrowEvent") d in
  Ok (a + b).

(** bpmn_diagram_metrics.py:168-176. *)
Definition TNEE_metric (d : diagram) : res nat := get_nodes_count (Some "endEvent") d.

(** bpmn_diagram_metrics.py:179-191. *)
Definition TNE_metric (d : diagram) : res nat :=
  let* c := get_events_counts d in Ok (sum_counts c).

(** bpmn_diagram_metrics.py:194-204. *)
Definition NOA_metric (d : diagram) : res nat :=
  let* c := get_activities_counts d in
  let* a := dgetE "task" c in
  let* b := dgetE "subProcess" c in
  Ok (a + b).

(** bpmn_diagram_metrics.py:207-218. *)
Definition NOAC_metric (d : diagram) : res nat :=
  let* a := all_activities_count d in
  let* c := all_control_flow_elements_count d in
  Ok (a + c).

(** bpmn_diagram_metrics.py:221-232. *)
Definition NOAJS_metric (d : diagram) : res nat :=
  let* a := all_activities_count d in
  let* c := all_gateways_count d in
  Ok (a + c).

(** bpmn_diagram_metrics.py:235-247. *)
Definition NumberOfNodes_metric (d : diagram) : res nat :=
  let* a := all_activities_count d in
  let* c := all_control_flow_elements_count d in
  Ok (a + c).

(** bpmn_diagram_metrics.py:250-264. *)
Definition GatewayHeterogenity_metric (d : diagram) : res nat :=
  let* c := get_gateway_counts d in
  Ok (length (filter (fun p => Nat.ltb 0 (snd p)) c)).

(** [float(a) / float(b)], exact; division by zero raises. *)
Definition fdiv (a b : nat) : res Q :=
  match b with
  | O => Err ZeroDivisionError
  | S b' => Ok (Qmake (Z.of_nat a) (Pos.of_succ_nat b'))
  end.

(** bpmn_diagram_metrics.py:267-276. *)
Definition CoefficientOfNetworkComplexity_metric (d : diagram) : res Q :=
  let* ns := get_nodes (Some "") d in
  fdiv (length (get_flows d)) (length ns).

(** [all_nodes_degrees[gateway_id]] (bpmn_diagram_metrics.py:289-290). *)
Definition degree_of (d : diagram) (n : string) : res nat :=
  if has_node (dgraph d) n then Ok (degree n (dgraph d)) else Err (KeyError n).

(** bpmn_diagram_metrics.py:279-292. *)
Definition AverageGatewayDegree_metric (d : diagram) : res Q :=
  let* gs := get_all_gateways d in
  let* ds := rmap (fun g => degree_of d (fst g)) gs in
  fdiv (fold_right plus 0 ds) (length ds).

(** [Counter(...)] increments. *)
Definition counter_add (c : dict nat) (t : string) : dict nat :=
  dset t (match dget t c with Some n => S n | None => 1 end) c.

(** [node[1]['type'] for node in nodes if node[1]['type']]
    (bpmn_diagram_metrics.py:306, 335).  A list value would be unhashable. *)
Fixpoint truthy_types (l : list (string * attrs)) : res (list string) :=
  match l with
  | [] => Ok []
  | n :: t =>
      let* v := dgetE k_type (snd n) in
      match v with
      | VStr "" | VNone | VList [] => truthy_types t
      | VStr s => let* r := truthy_types t in Ok (s :: r)
      | _ => Err TypeError
      end
  end.

(** bpmn_diagram_metrics.py:306 / 335. *)
Definition all_types_count (d : diagram) : res (dict nat) :=
  let* l := get_nodes (Some "") d in
  let* ts := truthy_types l in
  Ok (fold_left counter_add ts []).

(** [histogram[i] += 1] for an index inside the list. *)
Fixpoint incr (i : nat) (h : list nat) : list nat :=
  match h, i with
  | [], _ => []
  | x :: t, O => S x :: t
  | x :: t, S i' => x :: incr i' t
  end.

(** The loop bpmn_diagram_metrics.py:314-317 over [reversed(list(enumerate(h)))]:
    [pairs] are the (index, count) pairs already reversed. *)
Fixpoint durfee_scan (pairs : list (nat * nat)) (sum : nat) : nat :=
  match pairs with
  | [] => 0
  | (i, c) :: t => let sum' := sum + c in if Nat.leb i sum' then i else durfee_scan t sum'
  end.

(** bpmn_diagram_metrics.py:307-319. *)
Definition durfee_of_counts (counts : list nat) : nat :=
  let len := length counts in
  let histogram := fold_left (fun h c => incr (Nat.min c len) h) counts (repeat 0 (S len)) in
  durfee_scan (rev (combine (seq 0 (S len)) histogram)) 0.

(** bpmn_diagram_metrics.py:295-319. *)
Definition DurfeeSquare_metric (d : diagram) : res nat :=
  let* c := all_types_count d in Ok (durfee_of_counts (map snd c)).

(** Stable descending sort ([Counter.most_common]); only counts are used. *)
Fixpoint insert_desc (x : nat) (l : list nat) : list nat :=
  match l with
  | [] => [x]
  | y :: t => if Nat.leb x y then y :: insert_desc x t else x :: y :: t
  end.
Definition sort_desc (l : list nat) : list nat := fold_left (fun acc x => insert_desc x acc) l [].

Definition nsum (l : list nat) : nat := fold_right plus 0 l.

(** The loop bpmn_diagram_metrics.py:340-346: [i] counts the remaining
    iterations, [p] is potential_perfect_square. *)
Fixpoint perfect_scan (sorted : list nat) (i p : nat) : nat :=
  match i with
  | O => 0
  | S i' => if Nat.leb (p * p) (nsum (firstn p sorted)) then p else perfect_scan sorted i' (p - 1)
  end.

(** bpmn_diagram_metrics.py:336-346; [int(sqrt(n))] is exact for n < 2^52. *)
Definition perfect_of_counts (counts : list nat) : nat :=
  let sorted := sort_desc counts in
  let p := Nat.min (length sorted) (Nat.sqrt (nsum sorted)) in
  perfect_scan sorted p p.

(** bpmn_diagram_metrics.py:322-346. *)
Definition PerfectSquare_metric (d : diagram) : res nat :=
  let* c := all_types_count d in Ok (perfect_of_counts (map snd c)).
