(** Model of the running statistics of the batch norm in ramannoodle/pmodel/torch/_gnn.py:534,
    which torch.nn.BatchNorm1d updates in each forward pass in training mode.  The momentum is
    the default, 1/10; the running variance takes the unbiased variance of the rows.  A pass
    without any row changes nothing. *)
From Coq Require Import ZArith Reals Bool Arith List.
From Verif Require Import Base LinAlg M_Validate M_StructUtils M_Torch M_Gnn M_Train.
Import ListNotations.
Local Open Scope R_scope.

(** _gnn.py:617-651 and 533: the rows that the batch norm is given by [forward] *)
Definition norm_input (g : potgnn) (b : list sample) : res (list vec) :=
  let lattice := map s_lattice b in
  let num_atoms := match b with [] => 0%nat | x :: _ => List.length (s_positions x) end in
  let '(edge_index, unit_vector, distance) := batch_graph g lattice num_atoms (map s_positions b) in
  let* node_emb := mapM (node_embedding g) (concat (map s_numbers b)) in
  let* triplets := snd (get_triplets (g_triplets g) (Z.of_nat (List.length lattice))) in
  let '(_, edge_emb) := message_passing (g_node_blocks g) (g_edge_blocks g) triplets node_emb (apply_gaussian (g_gaussian g) distance) in
  Ok (map (apply_linear (g_pol_linear_1 g)) edge_emb).

(** torch.nn.BatchNorm1d: [running = (1 - momentum) * running + momentum * statistic] *)
Definition momentum : R := / 10.
Definition updated (running : vec) (statistic : nat -> R) : vec :=
  map (fun p => (1 - momentum) * fst p + momentum * statistic (snd p)) (combine running (seq 0 (List.length running))).
Definition unbiased (l : list R) : R := total (map (fun x => (x - mean l) ^ 2) l) / INR (List.length l - 1).
Definition running_update (b : batch_norm) (rows : list vec) : batch_norm :=
  match rows with
  | [] => b
  | _ => mkBN (updated (bn_mean b) (fun c => mean (column rows c))) (updated (bn_var b) (fun c => unbiased (column rows c))) (bn_weight b) (bn_bias b)
  end.
(** The batch norm after the forward pass of _train.py:66-70 *)
Definition norm_after (g : potgnn) (b : list sample) : batch_norm :=
  match norm_input g b with Ok rows => running_update (g_batch_norm g) rows | Err _ => g_batch_norm g end.
