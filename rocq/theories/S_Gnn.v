(** Specification vocabulary for the graph neural network. *)
From Coq Require Import ZArith Reals Bool Arith List.
From Verif Require Import Base LinAlg M_Validate M_StructUtils S_Lattice M_Torch S_Torch M_Gnn.
Import ListNotations.
Local Open Scope R_scope.

Definition cast_m (cast : R -> R) (m : M3) : M3 := mkM (vmap cast (r0 m)) (vmap cast (r1 m)) (vmap cast (r2 m)).

(** A model with the given weights and mode in place of its own: what training, loading a
    state or [train()]/[eval()] can do. *)
Definition with_weights (g : potgnn) (w : weights) (training : bool) : potgnn :=
  mkGnn (g_lattice g) (g_atomic_numbers g) (g_mean g) (g_stddev g) (g_ref_edges g) (g_triplets g) (g_atom_type_map g)
    (w_embedding w) (w_node_linear_1 w) (w_node_linear_2 w) (g_gaussian g) (w_node_blocks w) (w_edge_blocks w)
    (w_pol_linear_1 w) (w_batch_norm w) (w_pol_linear_2 w) (w_pol_linear_3 w) training.

(** [g] results from [g0] by a history of forward passes, predictions and changes of the
    weights (which keep the number of embedded atom types). *)
Inductive history (g0 : potgnn) : potgnn -> Prop :=
| h_new : history g0 g0
| h_weights g w training : history g0 g -> List.length (w_embedding w) = List.length (g_embedding g0) -> history g0 (with_weights g w training)
| h_forward g lattice numbers n positions : history g0 g -> history g0 (fst (forward g lattice numbers n positions))
| h_calc g cast shape positions : history g0 g -> history g0 (fst (calc_polarizabilities cast g shape positions)).

(** [order] lists the elements of [numbers] without repetition: an iteration order of
    [set(numbers)]. *)
Definition iterates_set (order numbers : list Z) : Prop := NoDup order /\ forall z, In z order <-> In z numbers.

(** A sample with the right number of atoms, no two of which coincide modulo the lattice. *)
Definition apart (cast : R -> R) (n : nat) (p : list V3) : Prop :=
  List.length p = n /\
  forall i j pi pj, i <> j -> nth_error p i = Some pi -> nth_error p j = Some pj -> ~ vcongr (vmap cast pi) (vmap cast pj).
(** A sample in which the two atoms of an edge of the reference graph coincide. *)
Definition collapsed (cast : R -> R) (g : potgnn) (p : list V3) : Prop :=
  exists s i j pi pj, In (s, i, j) (g_ref_edges g) /\ nth_error p i = Some pi /\ nth_error p j = Some pj /\ vcongr (vmap cast pi) (vmap cast pj).

(** [g0] was built from a structure with [numbers] (one position per atom) and [lattice], with
    any hyperparameters, initial weights and default dtype.  torch_geometric's triplets have
    the promised sizes and ranges. *)
Definition built (lattice : M3) (numbers : list Z) (g0 : potgnn) : Prop :=
  exists dimenet_triplets order w cast positions cutoff sn se nm gs ge ms ss mean stddev,
    potgnn_new dimenet_triplets order w cast lattice numbers positions cutoff sn se nm gs ge ms ss mean stddev = Ok g0 /\
    List.length positions = List.length numbers /\ iterates_set order numbers /\ List.length (w_embedding w) = List.length order /\
    triplets_for (List.length numbers) (List.length (g_ref_edges g0))
      (dimenet_triplets (map (fun '(_, i, j) => (i, j)) (g_ref_edges g0)) (List.length numbers)).

(** [g'] results from [g] by predictions, forward passes in evaluation mode and
    [train()]/[eval()]: the weights are untouched.  (A forward pass in training mode would update
    the running statistics of the batch norm, which count as weights.) *)
Definition set_mode (g : potgnn) (training : bool) : potgnn :=
  mkGnn (g_lattice g) (g_atomic_numbers g) (g_mean g) (g_stddev g) (g_ref_edges g) (g_triplets g) (g_atom_type_map g)
    (g_embedding g) (g_node_linear_1 g) (g_node_linear_2 g) (g_gaussian g) (g_node_blocks g) (g_edge_blocks g)
    (g_pol_linear_1 g) (g_batch_norm g) (g_pol_linear_2 g) (g_pol_linear_3 g) training.
Inductive used (g : potgnn) : potgnn -> Prop :=
| u_start : used g g
| u_mode g' training : used g g' -> used g (set_mode g' training)
| u_forward g' lattice numbers n positions : used g g' -> g_training g' = false -> used g (fst (forward g' lattice numbers n positions))
| u_calc g' cast shape positions : used g g' -> used g (fst (calc_polarizabilities cast g' shape positions)).

(** The second sample is the first, moved as a whole and with atoms moved by lattice vectors. *)
Definition moved_sample (p q : list V3) : Prop := exists t, Forall2 (fun a b => vcongr (vadd a t) b) p q.
