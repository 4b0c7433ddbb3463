(** Specification vocabulary: the same structure with its atoms listed in another order. *)
From Coq Require Import ZArith Reals Arith List.
From Verif Require Import Base LinAlg M_Torch S_Torch M_Gnn S_Gnn.
Import ListNotations.

(** [move] sends the places 0, ..., n-1 to places 0, ..., n-1, no two to the same one. *)
Definition reordering (n : nat) (move : nat -> nat) : Prop :=
  (forall i, i < n -> move i < n) /\ (forall i j, i < n -> j < n -> move i = move j -> i = j).
(** [l'] has at place [move i] what [l] has at place [i]. *)
Definition reordered {A} (move : nat -> nat) (l l' : list A) : Prop :=
  List.length l' = List.length l /\ forall i, i < List.length l -> nth_error l' (move i) = nth_error l i.

(** torch_geometric's triplets of a graph: the ends of every edge, and every pair of edges
    k -> j -> i with i <> k exactly once, as (i, j, k) and the indexes of the two edges.
    [incoming_first] says which of the two comes first (either is allowed). *)
Definition triplet_rows (t : triplets) : list (nat * (nat * (nat * (nat * nat)))) :=
  combine (t_index_i t) (combine (t_index_j t) (combine (t_index_k t) (combine (t_index_ji t) (t_index_kj t)))).
Definition lists_triplets (incoming_first : bool) (edges : list (nat * nat)) (t : triplets) : Prop :=
  t_i t = map snd edges /\ t_j t = map fst edges /\
  (exists k, List.length (t_index_i t) = k /\ List.length (t_index_j t) = k /\ List.length (t_index_k t) = k /\
     List.length (t_index_ji t) = k /\ List.length (t_index_kj t) = k) /\
  NoDup (triplet_rows t) /\
  forall i j k a b, In (i, (j, (k, (a, b)))) (triplet_rows t) <->
    i <> k /\
    nth_error edges (if incoming_first then b else a) = Some (j, i) /\
    nth_error edges (if incoming_first then a else b) = Some (k, j).

(** What torch_geometric's [triplets] does for every graph without loops or repeated edges. *)
Definition triplet_finder (incoming_first : bool) (dimenet_triplets : list (nat * nat) -> nat -> triplets) : Prop :=
  forall edges n, NoDup edges -> Forall (fun e => fst e <> snd e /\ fst e < n /\ snd e < n) edges ->
    lists_triplets incoming_first edges (dimenet_triplets edges n).

(** The two networks have the same learned weights, up to the table of element vectors. *)
Definition same_layers (g g' : potgnn) : Prop :=
  g_node_linear_1 g' = g_node_linear_1 g /\ g_node_linear_2 g' = g_node_linear_2 g /\
  g_node_blocks g' = g_node_blocks g /\ g_edge_blocks g' = g_edge_blocks g /\
  g_pol_linear_1 g' = g_pol_linear_1 g /\ g_batch_norm g' = g_batch_norm g /\
  g_pol_linear_2 g' = g_pol_linear_2 g /\ g_pol_linear_3 g' = g_pol_linear_3 g.
Definition same_weights (g g' : potgnn) : Prop := g_embedding g' = g_embedding g /\ same_layers g g'.
