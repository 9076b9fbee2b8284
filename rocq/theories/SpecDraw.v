(** Specification vocabulary for the sequence in which the layout draws the nodes, and for
    where it puts them, without any restriction on how splits and joins follow each other. *)
From Coq Require Import String List Bool Arith ZArith.
From Verif Require Import Py Nx Rep SpecRep SpecLayout SpecBlocks SpecFlat SpecPlan SpecCells.
Import ListNotations.
Open Scope string_scope.
Open Scope list_scope.

(** A split draws the nodes right after it. *)
Definition draws (d : diagram) (p n : string) : Prop := split_node d p /\ goes d p n.
(** A node that no split draws is drawn when it is its turn. *)
Definition own_turn (d : diagram) (n : string) : Prop := is_node d n /\ forall p, ~ draws d p n.
(** The nodes drawn in the turn of [n]: [n] itself and, for a split, the nodes right after it,
    one after the other, each followed by the nodes drawn with it. *)
Inductive drawn_with (d : diagram) (order : list string) : string -> list string -> Prop :=
| dw_plain : forall n, ~ split_node d n -> drawn_with d order n [n]
| dw_split : forall n ks ls, split_node d n -> lists (goes d n) ks -> same_order order ks ->
    Forall2 (drawn_with d order) ks ls -> drawn_with d order n (n :: concat ls).
(** [seq] is the sequence in which all the nodes are drawn, each of them once. *)
Record drawing (d : diagram) (order seq : list string) : Prop := {
  dr_turns : exists hs ls, lists (own_turn d) hs /\ same_order order hs /\ Forall2 (drawn_with d order) hs ls /\ seq = concat ls;
  dr_all : lists (is_node d) seq;
  dr_one : forall p q n, draws d p n -> draws d q n -> p = q;
  dr_order : forall h x, own_turn d h -> before order x h -> before seq x h }.

(** The average row of the nodes before [n], where the rows of those not yet drawn count as 0. *)
Definition mean_row (d : diagram) (seq : list string) (pos : string -> Z * Z) (n : string) (m : Z) : Prop :=
  exists l l1, lists (fun p => goes d p n) l /\ lists (fun p => goes d p n /\ before seq p n) l1 /\
    m = (fold_right Z.add 0 (map (fun p => fst (pos p)) l1) / Z.of_nat (length l))%Z.
(** The column right of the nodes before [n] that are drawn already. *)
Definition next_col (d : diagram) (seq : list string) (pos : string -> Z * Z) (n : string) (k : Z) : Prop :=
  exists l1, lists (fun p => goes d p n /\ before seq p n) l1 /\
    k = (fold_right Z.max 0 (map (fun p => snd (pos p)) l1) + 1)%Z.
(** The row around which the nodes after the split [p] are spread. *)
Inductive spread_row (d : diagram) (seq : list string) (pos : string -> Z * Z) (p : string) (row : Z) : Prop :=
| sr_join : join_node d p -> mean_row d seq pos p row -> spread_row d seq pos p row
| sr_inner : forall q, ~ join_node d p -> draws d q p -> row = fst (pos q) -> spread_row d seq pos p row
| sr_own : ~ join_node d p -> own_turn d p -> row = fst (pos p) -> spread_row d seq pos p row.
(** The row that a split asks for when it draws [n]. *)
Definition branch_row (d : diagram) (order seq : list string) (pos : string -> Z * Z) (n : string) (r : Z) : Prop :=
  exists p l i o row, draws d p n /\ lists (goes d p) l /\ same_order order l /\ nth_error l i = Some n /\
    spread_row d seq pos p row /\ nth_error (fan (length l)) i = Some o /\ r = (row + (o - 2))%Z.
(** Given the places of the other nodes, row and column, [c] is the place of [n]. *)
Inductive placed_at (d : diagram) (order seq : list string) (pos : string -> Z * Z) (n : string) (c : Z * Z) : Prop :=
| p_start : forall firsts i, lists (first_node d) firsts -> same_order order firsts -> nth_error firsts i = Some n ->
    c = (2 * (Z.of_nat i + 1), 1)%Z -> placed_at d order seq pos n c
| p_step : forall p, ~ join_node d n -> goes d p n -> ~ split_node d p ->
    c = (fst (pos p), snd (pos p) + 1)%Z -> placed_at d order seq pos n c
| p_branch : forall p r, ~ join_node d n -> draws d p n -> branch_row d order seq pos n r ->
    c = (r, snd (pos p) + 1)%Z -> placed_at d order seq pos n c
| p_join : join_node d n -> own_turn d n -> mean_row d seq pos n (fst c) -> next_col d seq pos n (snd c) ->
    placed_at d order seq pos n c
| p_skip : forall r m, join_node d n -> branch_row d order seq pos n r -> mean_row d seq pos n m ->
    fst c = (if Z.eqb r 0 then m else r) -> next_col d seq pos n (snd c) -> placed_at d order seq pos n c.
(** Every node has its place. *)
Definition layout_plan (d : diagram) (order seq : list string) (pos : string -> Z * Z) : Prop :=
  forall n, is_node d n -> placed_at d order seq pos n (pos n).
