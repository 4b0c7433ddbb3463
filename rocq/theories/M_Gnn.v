(** Model of ramannoodle/pmodel/torch/_gnn.py over exact reals.

    A tensor of size [D,W] is the list of its D rows.  The weights of the network are
    arbitrary reals.  Simplifications: arithmetic is exact; the sizes of the weights are those
    the constructor gives them, so that no size mismatch occurs; [torch.linalg.inv] of a NaN
    matrix is a NaN matrix; the progress bar is not modelled. *)
From Coq Require Import ZArith Reals Bool Arith List.
From Verif Require Import Base LinAlg M_Validate M_StructUtils M_Torch.
Import ListNotations.
Local Open Scope R_scope.

Definition vec := list R.
Definition vplus (a b : vec) : vec := map2 Rplus a b.
Definition vtimes (a b : vec) : vec := map2 Rmult a b.
Definition total (l : list R) : R := fold_right Rplus 0 l.
Definition mean (l : list R) : R := total l / INR (List.length l).
Definition variance (l : list R) : R := mean (map (fun x => (x - mean l) ^ 2) l).
Definition eps : R := / 100000.

(** torch.nn.Linear, torch.nn.LayerNorm and their parameters, on one row *)
Record linear := mkLinear { l_weight : list vec; l_bias : vec }.
Definition apply_linear (l : linear) (x : vec) : vec := map2 (fun w b => total (vtimes w x) + b) (l_weight l) (l_bias l).
Record norm := mkNorm { n_weight : vec; n_bias : vec }.
Definition apply_norm (n : norm) (x : vec) : vec :=
  vplus (vtimes (map (fun y => (y - mean x) / sqrt (variance x + eps)) x) (n_weight n)) (n_bias n).

(** torch.nn.BatchNorm1d, on all rows: the statistics are those of the rows in training mode
    and the running ones in evaluation mode.  The update of the running statistics in
    training mode is in M_Running.v. *)
Record batch_norm := mkBN { bn_mean : vec; bn_var : vec; bn_weight : vec; bn_bias : vec }.
Definition column (rows : list vec) (c : nat) : list R := map (fun r => nth c r 0) rows.
Definition apply_batch_norm (training : bool) (b : batch_norm) (rows : list vec) : list vec :=
  let width := List.length (bn_mean b) in
  let m := if training then map (fun c => mean (column rows c)) (seq 0 width) else bn_mean b in
  let v := if training then map (fun c => variance (column rows c)) (seq 0 width) else bn_var b in
  map (fun x => vplus (vtimes (map2 (fun d s => d / sqrt (s + eps)) (map2 Rminus x m) v) (bn_weight b)) (bn_bias b)) rows.

Definition sigmoid (x : R) : R := / (1 + exp (- x)).
Definition tanh (x : R) : R := (exp x - exp (- x)) / (exp x + exp (- x)).
(** torch_geometric ShiftedSoftplus: softplus (linear above 20) minus log 2 *)
Definition shifted_softplus (x : R) : R := (if Rltb 20 x then x else ln (1 + exp x)) - ln 2.

(** [t.chunk(2, dim=1)], one row *)
Definition chunk2 (x : vec) : vec * vec :=
  let k := ((List.length x + 1) / 2)%nat in (firstn k x, skipn k x).
(** The gated message: sigmoid of the first chunk times tanh of the second *)
Definition gate (x : vec) : vec := let (f, c) := chunk2 x in vtimes (map sigmoid f) (map tanh c).

(** [t[idx]] for an integer tensor whose entries are in range, and torch_geometric
    [scatter(src, idx, dim=0, dim_size=n, reduce="sum")] for rows of the given width *)
Definition rows_at (rows : list vec) (idx : list nat) : list vec := map (fun k => nth k rows []) idx.
Definition scatter (width : nat) (src : list vec) (idx : list nat) (n : nat) : list vec :=
  map (fun r => fold_right vplus (repeat 0 width) (map fst (filter (fun p => Nat.eqb (snd p) r) (combine src idx)))) (seq 0 n).

(** _gnn.py:47-82 [_GaussianFilter]; [linspace] gives the offsets *)
Definition linspace (lower upper : R) (steps : nat) : list R :=
  map (fun k => lower + INR k * ((upper - lower) / INR (steps - 1))) (seq 0 steps).
Record gaussian := mkGaussian { gf_coefficient : R; gf_offset : vec }.
(** _gnn.py:61-65: [offset[1]] is an IndexError with a single step *)
Definition gaussian_new (lower upper : R) (steps : nat) : res gaussian :=
  let offset := linspace lower upper steps in
  match offset with
  | o0 :: o1 :: _ => Ok (mkGaussian (- / 2 / (o1 - o0) ^ 2) offset)
  | _ => Err IndexError
  end.
(** _gnn.py:67-82 [_GaussianFilter.forward] *)
Definition apply_gaussian (g : gaussian) (x : list R) : list vec :=
  map (fun d => map (fun o => exp (gf_coefficient g * (d - o) ^ 2)) (gf_offset g)) x.

(** _gnn.py:85-151 [_NodeBlock] *)
Record node_block := mkNB { nb_c1_linear : linear; nb_c1_norm : norm; nb_final_norm : norm; nb_size : nat }.
Definition node_forward (b : node_block) (node_embedding edge_embedding : list vec) (i : list nat) : list vec :=
  let c1 := map2 (fun a e => a ++ e) (rows_at node_embedding i) edge_embedding in
  let c1 := map (fun x => gate (apply_norm (nb_c1_norm b) (apply_linear (nb_c1_linear b) x))) c1 in
  let c1_emb := scatter (nb_size b) c1 i (List.length node_embedding) in
  let c1_emb := map (apply_norm (nb_final_norm b)) c1_emb in
  map2 (fun n c => map tanh (vplus n c)) node_embedding c1_emb.

(** _gnn.py:154-351 [_EdgeBlock] *)
Record edge_block := mkEB {
  eb_c2_linear : linear; eb_c3_linear : linear; eb_c2_norm_1 : norm; eb_c3_norm_1 : norm;
  eb_c2_norm_2 : norm; eb_c3_norm_2 : norm; eb_size : nat }.
(** _gnn.py:200-228 [_get_c2_embedding] *)
Definition get_c2_embedding (b : edge_block) (node_embedding : list vec) (i j : list nat) : list vec :=
  let c2 := map2 vtimes (rows_at node_embedding i) (rows_at node_embedding j) in
  map (fun x => apply_norm (eb_c2_norm_2 b) (gate (apply_norm (eb_c2_norm_1 b) (apply_linear (eb_c2_linear b) x)))) c2.
(** _gnn.py:231-291 [_get_c3_embedding] *)
Definition get_c3_embedding (b : edge_block) (node_embedding edge_embedding : list vec)
    (index_i index_j index_k index_ji index_kj : list nat) : list vec :=
  let c3 := map2 (fun x y => x ++ y) (rows_at node_embedding index_i)
             (map2 (fun x y => x ++ y) (rows_at node_embedding index_j)
               (map2 (fun x y => x ++ y) (rows_at node_embedding index_k)
                 (map2 (fun x y => x ++ y) (rows_at edge_embedding index_ji) (rows_at edge_embedding index_kj)))) in
  let c3 := map (fun x => gate (apply_norm (eb_c3_norm_1 b) (apply_linear (eb_c3_linear b) x))) c3 in
  map (apply_norm (eb_c3_norm_2 b)) (scatter (eb_size b) c3 index_ji (List.length edge_embedding)).
(** _gnn.py:294-351 [_EdgeBlock.forward] *)
Definition edge_forward (b : edge_block) (node_embedding edge_embedding : list vec) (t : triplets) : list vec :=
  let c2_embedding := get_c2_embedding b node_embedding (t_i t) (t_j t) in
  let c3_embedding := get_c3_embedding b node_embedding edge_embedding (t_index_i t) (t_index_j t) (t_index_k t) (t_index_ji t) (t_index_kj t) in
  map2 (fun e c => map tanh (vplus e c)) (map2 vplus edge_embedding c2_embedding) c3_embedding.

(** _gnn.py:354-415 [_get_edge_polarizability_vectors], one row.  [None] is a row of NaN.
    The last step is dataset/torch/utils.py:43-60 [polarizability_tensors_to_vectors]. *)
Definition hadamard (a b : M3) : M3 :=
  let mul v w := mkV (vx v * vx w) (vy v * vy w) (vz v * vz w) in mkM (mul (r0 a) (r0 b)) (mul (r1 a) (r1 b)) (mul (r2 a) (r2 b)).
Definition diag3 (a b c : R) : M3 := mkM (mkV a 0 0) (mkV 0 b 0) (mkV 0 0 c).
Definition to_vector (m : M3) : vec := [vx (r0 m); vy (r1 m); vz (r2 m); vy (r0 m); vz (r0 m); vz (r1 m)].
Definition get_edge_polarizability_vector (emb : vec) (unit_vector : option V3) : res (option vec) :=
  let e k := nth k emb 0 in
  match get_rotation unit_vector with
  | None => Ok None
  | Some rotation =>
      let* inv_rotation := minv rotation in
      let turn a := mmul (mmul rotation a) inv_rotation in
      let a1 := turn (diag3 (e 0%nat) (e 1%nat) (e 1%nat)) in
      let a2 := turn (diag3 (e 2%nat) (e 3%nat) (e 3%nat)) in
      let a3 := turn (diag3 (e 4%nat) (e 5%nat) (e 5%nat)) in
      let a4 := turn (diag3 (e 6%nat) (e 7%nat) (e 7%nat)) in
      let a5 := turn (diag3 (e 8%nat) (e 9%nat) (e 9%nat)) in
      let a6 := turn (diag3 (e 10%nat) (e 11%nat) (e 11%nat)) in
      Ok (Some (to_vector
        (madd (madd (madd (madd (madd
          (hadamard a1 (mkM (mkV 0 1 0) (mkV 1 0 0) (mkV 0 0 0)))
          (hadamard a2 (mkM (mkV 0 0 1) (mkV 0 0 0) (mkV 1 0 0))))
          (hadamard a3 (mkM (mkV 0 0 0) (mkV 0 0 1) (mkV 0 1 0))))
          (hadamard a4 (mkM (mkV 1 0 0) (mkV 0 0 0) (mkV 0 0 0))))
          (hadamard a5 (mkM (mkV 0 0 0) (mkV 0 1 0) (mkV 0 0 0))))
          (hadamard a6 (mkM (mkV 0 0 0) (mkV 0 0 0) (mkV 0 0 1))))))
  end.

(** _gnn.py:484-539 the state of a [PotGNN] *)
Record potgnn := mkGnn {
  g_lattice : M3; g_atomic_numbers : list Z;        (* of the reference structure *)
  g_mean : M3; g_stddev : M3;
  g_ref_edges : list edge; g_triplets : batch_triplets;
  g_atom_type_map : list Z;
  g_embedding : list vec; g_node_linear_1 : linear; g_node_linear_2 : linear;
  g_gaussian : gaussian;
  g_node_blocks : list node_block; g_edge_blocks : list edge_block;
  g_pol_linear_1 : linear; g_batch_norm : batch_norm; g_pol_linear_2 : linear; g_pol_linear_3 : linear;
  g_training : bool }.

(** _gnn.py:541-557 [_convert_to_atom_type], one entry: [self._atom_type_map[z]].  _gnn.py:509
    [Embedding]: the row of the type; a negative type is an IndexError. *)
Definition embed (g : potgnn) (z : Z) : res vec :=
  match py_index (List.length (g_atom_type_map g)) z with
  | None => Err IndexError
  | Some k =>
      let t := nth k (g_atom_type_map g) (-1)%Z in
      if Z.ltb t 0 then Err IndexError
      else match nth_error (g_embedding g) (Z.to_nat t) with Some v => Ok v | None => Err IndexError end
  end.
(** _gnn.py:508-514 [_node_embedding] *)
Definition node_embedding (g : potgnn) (z : Z) : res vec :=
  let* v := embed g z in
  Ok (apply_linear (g_node_linear_2 g) (map shifted_softplus (apply_linear (g_node_linear_1 g) (map shifted_softplus v)))).

(** _gnn.py:568-615 [_batch_graph] *)
Definition batch_graph (g : potgnn) (lattice : list M3) (num_atoms : nat) (positions : list (list V3))
    : list edge * list (option V3) * list R :=
  let edge_indexes := flat_map (fun s => map (fun '(_, i, j) => (s, i, j)) (g_ref_edges g)) (seq 0 (List.length lattice)) in
  get_graph_info (cart_displacement lattice positions) edge_indexes (cart_distance lattice positions) num_atoms.

(** _gnn.py:532-539 [_to_polarizability_embedding] *)
Definition to_polarizability_embedding (g : potgnn) (edge_emb : list vec) : list vec :=
  let x := map (apply_linear (g_pol_linear_1 g)) edge_emb in
  let x := apply_batch_norm (g_training g) (g_batch_norm g) x in
  map (fun r => apply_linear (g_pol_linear_3 g) (map shifted_softplus (apply_linear (g_pol_linear_2 g) (map shifted_softplus r)))) x.

(** _gnn.py:648-650 the message passing loop *)
Fixpoint message_passing (nbs : list node_block) (ebs : list edge_block) (t : triplets) (node edge : list vec) : list vec * list vec :=
  match nbs, ebs with
  | nb :: nbs', eb :: ebs' =>
      let node' := node_forward nb node edge (t_i t) in
      message_passing nbs' ebs' t node' (edge_forward eb node' edge t)
  | _, _ => (node, edge)
  end.

(** _gnn.py:659-664: the mean over the edges of one structure.  The mask multiplies: a row of
    NaN stays a row of NaN (0 * NaN), whichever structure it belongs to.  Without edges the
    mean is 0 / 0. *)
Fixpoint all_some (l : list (option vec)) : option (list vec) :=
  match l with
  | [] => Some []
  | Some v :: l' => match all_some l' with Some r => Some (v :: r) | None => None end
  | None :: _ => None
  end.
Definition structure_mean (edges : list edge) (pols : list (option vec)) (s : nat) : option vec :=
  let mask := map (fun '(g, _, _) => if Nat.eqb g s then 1 else 0) edges in
  let count := total mask in
  match all_some pols with
  | None => None
  | Some rows =>
      if Reqb count 0 then None
      else Some (map (fun x => x / count) (fold_right vplus (repeat 0 6) (map2 (fun r m => map (fun x => x * m) r) rows mask)))
  end.

(** _gnn.py:617-665 [forward]; the triplet cache is updated.  [num_atoms] is
    [positions.size(1)]. *)
Definition forward (g : potgnn) (lattice : list M3) (atomic_numbers : list (list Z)) (num_atoms : nat)
    (positions : list (list V3)) : potgnn * res (list (option vec)) :=
  let '(edge_index, unit_vector, distance) := batch_graph g lattice num_atoms positions in
  match mapM (node_embedding g) (concat atomic_numbers) with
  | Err e => (g, Err e)
  | Ok node_emb =>
      let edge_emb := apply_gaussian (g_gaussian g) distance in
      let (st, r) := get_triplets (g_triplets g) (Z.of_nat (List.length lattice)) in
      let g' := mkGnn (g_lattice g) (g_atomic_numbers g) (g_mean g) (g_stddev g) (g_ref_edges g) st (g_atom_type_map g)
                  (g_embedding g) (g_node_linear_1 g) (g_node_linear_2 g) (g_gaussian g) (g_node_blocks g) (g_edge_blocks g)
                  (g_pol_linear_1 g) (g_batch_norm g) (g_pol_linear_2 g) (g_pol_linear_3 g) (g_training g) in
      (g', let* triplets := r in
           let '(_, edge_emb) := message_passing (g_node_blocks g) (g_edge_blocks g) triplets node_emb edge_emb in
           let polarizability_emb := to_polarizability_embedding g edge_emb in
           let* edge_polarizability := mapM (fun '(e, u) => get_edge_polarizability_vector e u) (combine polarizability_emb unit_vector) in
           Ok (map (structure_mean edge_index edge_polarizability) (seq 0 (List.length positions))))
  end.

(** torch.nn.Module.eval *)
Definition eval_mode (g : potgnn) : potgnn :=
  mkGnn (g_lattice g) (g_atomic_numbers g) (g_mean g) (g_stddev g) (g_ref_edges g) (g_triplets g) (g_atom_type_map g)
    (g_embedding g) (g_node_linear_1 g) (g_node_linear_2 g) (g_gaussian g) (g_node_blocks g) (g_edge_blocks g)
    (g_pol_linear_1 g) (g_batch_norm g) (g_pol_linear_2 g) (g_pol_linear_3 g) false.

(** dataset/torch/utils.py:20-40 [polarizability_vectors_to_tensors], one row *)
Definition to_tensor (v : vec) : M3 :=
  let e k := nth k v 0 in
  mkM (mkV (e 0%nat) (e 3%nat) (e 4%nat)) (mkV (e 3%nat) (e 1%nat) (e 5%nat)) (mkV (e 4%nat) (e 5%nat) (e 2%nat)).

(** [a[start:end] = b] *)
Definition set_slice {A} (start stop : nat) (b a : list A) : list A := firstn start a ++ b ++ skipn stop a.

(** _gnn.py:694-715 the loop over the sub-batches; [cast] converts to the default dtype *)
Fixpoint predict (cast : R -> R) (g : potgnn) (subbatches : list (list (list V3))) (start_index : nat) (polarizabilities : list (option M3))
    : potgnn * res (list (option M3)) :=
  match subbatches with
  | [] => (g, Ok polarizabilities)
  | sub :: rest =>
      let size := List.length sub in
      let castm m := mkM (vmap cast (r0 m)) (vmap cast (r1 m)) (vmap cast (r2 m)) in
      let (g', r) := forward g (repeat (castm (g_lattice g)) size) (repeat (g_atomic_numbers g) size)
                       (List.length (g_atomic_numbers g)) (map (map (vmap cast)) sub) in
      match r with
      | Err e => (g', Err e)
      | Ok p =>
          let stop := (start_index + size)%nat in
          predict cast g' rest stop (set_slice start_index stop (map (option_map to_tensor) p) polarizabilities)
      end
  end.

(** _gnn.py:667-721 [calc_polarizabilities].  [shape] is the shape of the array, [positions]
    its samples.  [None] is a tensor of NaN. *)
Definition calc_polarizabilities (cast : R -> R) (g : potgnn) (shape : list nat) (positions : list (list V3))
    : potgnn * res (list (option M3)) :=
  match verify_ndarray_shape shape [None; Some (List.length (g_atomic_numbers g)); Some 3%nat] with
  | Err e => (g, Err e)
  | Ok _ =>
      let g := eval_mode g in
      match batch_positions shape positions 100 with
      | Err e => (g, Err e)
      | Ok subbatches =>
          let (g', r) := predict cast g subbatches 0 (repeat (Some m0) (List.length positions)) in
          (g', let* p := r in
               Ok (map (option_map (fun t => madd (hadamard t (g_stddev g)) (g_mean g))) p))
      end
  end.

(** _gnn.py:453-539 [PotGNN.__init__].  [order] is the iteration order of the Python set of
    atomic numbers; the initial weights are arbitrary.  [rs_lattice] and [rs_positions] are
    those of the reference structure. *)
Record weights := mkWeights {
  w_embedding : list vec; w_node_linear_1 : linear; w_node_linear_2 : linear;
  w_node_blocks : list node_block; w_edge_blocks : list edge_block;
  w_pol_linear_1 : linear; w_batch_norm : batch_norm; w_pol_linear_2 : linear; w_pol_linear_3 : linear }.
(** _gnn.py:501-506 the atom type map *)
Fixpoint assign_types (order : list Z) (atom_type : Z) (m : list Z) : res (list Z) :=
  match order with
  | [] => Ok m
  | z :: rest =>
      match py_index (List.length m) z with
      | None => Err IndexError
      | Some k => assign_types rest (atom_type + 1) (set_nth k atom_type m)
      end
  end.
Definition potgnn_new (dimenet_triplets : list (nat * nat) -> nat -> triplets) (order : list Z) (w : weights) (cast : R -> R)
    (lattice : M3) (atomic_numbers : list Z) (positions : list V3)
    (cutoff : R) (size_node_embedding size_edge_embedding num_message_passes : Z) (gaussian_filter_start gaussian_filter_end : R)
    (mean_shape stddev_shape : list nat) (mean stddev : M3) : res potgnn :=
  if Rleb cutoff 0 then Err ValueError
  else if Z.leb size_node_embedding 0 then Err ValueError
  else if Z.leb size_edge_embedding 0 then Err ValueError
  else if Z.leb num_message_passes 0 then Err ValueError
  else if Rltb gaussian_filter_start 0 then Err ValueError
  else if Rleb gaussian_filter_end gaussian_filter_start then Err ValueError
  else
    let* _ := verify_ndarray_shape mean_shape [Some 3; Some 3]%nat in
    let* _ := verify_ndarray_shape stddev_shape [Some 3; Some 3]%nat in
    let castm m := mkM (vmap cast (r0 m)) (vmap cast (r1 m)) (vmap cast (r2 m)) in
    let '(ref_edges, _, _) := radius_graph_pbc [castm lattice] (List.length positions) [map (vmap cast) positions] cutoff in
    let bt := batch_triplets_new dimenet_triplets (List.length atomic_numbers) ref_edges in
    let* type_map := assign_types order 0 (repeat (-1)%Z 119) in
    let* gf := gaussian_new gaussian_filter_start gaussian_filter_end (Z.to_nat size_edge_embedding) in
    Ok (mkGnn lattice atomic_numbers mean stddev ref_edges bt type_map (w_embedding w) (w_node_linear_1 w) (w_node_linear_2 w) gf
          (w_node_blocks w) (w_edge_blocks w) (w_pol_linear_1 w) (w_batch_norm w) (w_pol_linear_2 w) (w_pol_linear_3 w) true).
