(** Specification vocabulary for the placement of the nodes in rows and columns: where each
    node belongs, given the order in which the nodes are taken. *)
From Coq Require Import String List Bool Arith ZArith.
From Verif Require Import Py Nx Rep SpecRep SpecLayout SpecBlocks SpecFlat SpecPlan.
Import ListNotations.
Open Scope string_scope.
Open Scope list_scope.

(** No node with several incoming flows comes right after a node with several outgoing flows. *)
Definition no_join_after_split (d : diagram) : Prop :=
  forall f p n, flow d f p n -> split_node d p -> ~ join_node d n.
(** Every loop passes a node with several incoming flows. *)
Definition loops_joined (d : diagram) : Prop := forall l, cycle d l -> exists n, In n l /\ join_node d n.
(** The elements of [l] come in the order of [order]. *)
Definition same_order (order l : list string) : Prop := forall x y, before l x y -> before order x y.
(** A node that no flow enters. *)
Definition first_node (d : diagram) (n : string) : Prop := is_node d n /\ forall p, ~ goes d p n.

(** [x] is drawn before it is the turn of [n]: it is earlier in the order, or it comes right
    after a split that is drawn before. *)
Inductive drawn_before (d : diagram) (order : list string) (n : string) : string -> Prop :=
| db_order : forall x, before order x n -> drawn_before d order n x
| db_branch : forall y x, split_node d y -> goes d y x -> drawn_before d order n y -> drawn_before d order n x.

(** The row around which the nodes after the split [p] are placed: its own row, or, when [p]
    itself comes right after a split, the row of that one. *)
Definition fan_row (d : diagram) (pos : string -> Z * Z) (p : string) (row : Z) : Prop :=
  (exists q, goes d q p /\ split_node d q /\ row = fst (pos q)) \/
  ((forall q, goes d q p -> ~ split_node d q) /\ row = fst (pos p)).

(** Given the places of the other nodes, row and column, [c] is the place where [n] belongs. *)
Inductive belongs (d : diagram) (order : list string) (pos : string -> Z * Z) (n : string) (c : Z * Z) : Prop :=
| b_start : forall firsts i, lists (first_node d) firsts -> same_order order firsts -> nth_error firsts i = Some n ->
    c = (2 * (Z.of_nat i + 1), 1)%Z -> belongs d order pos n c
| b_step : forall p, lists (fun x => goes d x n) [p] -> ~ split_node d p ->
    c = (fst (pos p), snd (pos p) + 1)%Z -> belongs d order pos n c
| b_branch : forall p l i row r, lists (fun x => goes d x n) [p] -> split_node d p ->
    lists (goes d p) l -> same_order order l -> nth_error l i = Some n ->
    fan_row d pos p row -> nth_error (fan (length l)) i = Some r ->
    c = (row + (r - 2), snd (pos p) + 1)%Z -> belongs d order pos n c
| b_join : forall l l1, lists (fun x => goes d x n) l -> 2 <= length l ->
    lists (fun x => goes d x n /\ drawn_before d order n x) l1 ->
    c = (fold_right Z.add 0 (map (fun p => fst (pos p)) l1) / Z.of_nat (length l),
         fold_right Z.max 0 (map (fun p => snd (pos p)) l1) + 1)%Z -> belongs d order pos n c.
(** Every node is where it belongs. *)
Definition plan_of (d : diagram) (order : list string) (pos : string -> Z * Z) : Prop :=
  forall n, is_node d n -> belongs d order pos n (pos n).

(** No cell for two nodes. *)
Definition one_cell_each (d : diagram) (pos : string -> Z * Z) : Prop :=
  forall a b, is_node d a -> is_node d b -> pos a = pos b -> a = b.
(** The nodes in an order in which only flows into joins may lead back. *)
Definition layout_order (d : diagram) (order : list string) : Prop :=
  lists (is_node d) order /\ forall x y, goes d x y -> ~ join_node d y -> before order x y.
