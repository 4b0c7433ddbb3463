(** Theorems about the PyTorch utilities: C67-C71. *)
From Coq Require Import ZArith Reals Bool Arith List Sorted.
From Verif Require Import Base LinAlg M_Validate M_StructUtils S_Lattice M_Torch S_Torch P_Torch P_Torch2 M_Gnn S_Gnn P_Examples10.
Import ListNotations.
Local Open Scope R_scope.

(** C67: batches of samples. *)
Theorem C67_partition : forall (A : Type) n m (l : list A) k,
  (0 < k)%nat ->
  exists bs, batch_positions [n; m; 3%nat] l (Z.of_nat k) = Ok bs /\ concat bs = l /\
    (forall init last, bs = init ++ [last] -> Forall (fun b => List.length b = k) init /\ (1 <= List.length last <= k)%nat) /\
    (List.length bs = (List.length l + k - 1) / k)%nat.
Proof. exact @f_C67_partition. Qed.
Print Assumptions C67_partition.

Theorem C67_other_sizes : forall (A : Type) n m (l : list A) k,
  (k <= 0)%Z ->
  batch_positions [n; m; 3%nat] l k = if Z.eqb k 0 then Err ValueError else Ok [].
Proof. exact @f_C67_other. Qed.
Print Assumptions C67_other_sizes.

Theorem C67_shape : forall (A : Type) shape (l : list A) k,
  (forall n m, shape <> [n; m; 3%nat]) -> batch_positions shape l k = Err ValueError.
Proof. exact @f_C67_shape. Qed.
Print Assumptions C67_shape.

Example C67_nonvacuous :
  exists bs, batch_positions [5; 2; 3]%nat [11; 12; 13; 14; 15]%nat 2 = Ok bs /\ bs = [[11; 12]; [13; 14]; [15]]%nat.
Proof. exact ex_C67. Qed.

(** C68: the triplets do not depend on the calls made before. *)
Theorem C68_cache_transparent : forall dn n es calls1 calls2 b,
  triplets_for n (List.length es) (dn (map (fun '(_, i, j) => (i, j)) es) n) ->
  snd (get_triplets (after_calls (batch_triplets_new dn n es) calls1) b) = snd (get_triplets (after_calls (batch_triplets_new dn n es) calls2) b).
Proof. exact f_C68. Qed.
Print Assumptions C68_cache_transparent.

Example C68_nonvacuous :
  triplets_for 3 (List.length ex_edges) (ex_dimenet (map (fun '(_, i, j) => (i, j)) ex_edges) 3) /\
  snd (get_triplets (after_calls (batch_triplets_new ex_dimenet 3 ex_edges) [3; 1]%Z) 2) =
  Ok (mkTriplets [1; 2; 0; 0; 4; 5; 3; 3] [0; 0; 1; 2; 3; 3; 4; 5] [1; 2; 4; 5] [0; 0; 3; 3] [2; 1; 5; 4] [3; 2; 7; 6] [0; 1; 4; 5])%nat.
Proof. exact ex_C68. Qed.

(** C69: the triplets of a batch are disjoint shifted copies. *)
Theorem C69_shifted_copies : forall dn n es calls b,
  let ref := dn (map (fun '(_, i, j) => (i, j)) es) n in
  triplets_for n (List.length es) ref ->
  snd (get_triplets (after_calls (batch_triplets_new dn n es) calls) b) =
  if Z.leb b 0 then Err RuntimeError
  else let k := Z.to_nat b in
    Ok (mkTriplets (shifted_copies k n (t_i ref)) (shifted_copies k n (t_j ref)) (shifted_copies k n (t_index_i ref)) (shifted_copies k n (t_index_j ref))
      (shifted_copies k n (t_index_k ref)) (shifted_copies k (List.length es) (t_index_ji ref)) (shifted_copies k (List.length es) (t_index_kj ref))).
Proof. exact f_C69. Qed.
Print Assumptions C69_shifted_copies.

Theorem C69_entries : forall n step l c x v,
  (c < n)%nat -> nth_error l x = Some v ->
  nth_error (shifted_copies n step l) (c * List.length l + x) = Some (v + c * step)%nat.
Proof. exact f_C69_entries. Qed.
Print Assumptions C69_entries.

Example C69_nonvacuous :
  triplets_for 3 (List.length ex_edges) (ex_dimenet (map (fun '(_, i, j) => (i, j)) ex_edges) 3) /\
  snd (get_triplets (after_calls (batch_triplets_new ex_dimenet 3 ex_edges) [3; 1]%Z) 2) =
  Ok (mkTriplets [1; 2; 0; 0; 4; 5; 3; 3] [0; 0; 1; 2; 3; 3; 4; 5] [1; 2; 4; 5] [0; 0; 3; 3] [2; 1; 5; 4] [3; 2; 7; 6] [0; 1; 4; 5])%nat.
Proof. exact ex_C68. Qed.

(** C70: the edges of the radius graph, their order and attributes, and symmetry. *)
Theorem C70_edges : forall lattice n positions cutoff,
  List.length positions = List.length lattice -> Forall (fun p => List.length p = n) positions ->
  forall s a b,
  In (s, a, b) (fst (fst (radius_graph_pbc lattice n positions cutoff))) <->
  exists L p i j v, nth_error lattice s = Some L /\ nth_error positions s = Some p /\ a = (s * n + i)%nat /\ b = (s * n + j)%nat /\ i <> j /\
    half_cell_vector L p i j v /\ vnorm v <= cutoff.
Proof. exact f_C70_edges. Qed.
Print Assumptions C70_edges.

Theorem C70_order : forall lattice n positions cutoff,
  List.length positions = List.length lattice ->
  StronglySorted edge_before (fst (fst (radius_graph_pbc lattice n positions cutoff))) /\ NoDup (fst (fst (radius_graph_pbc lattice n positions cutoff))).
Proof. exact f_C70_order. Qed.
Print Assumptions C70_order.

Theorem C70_attributes : forall lattice n positions cutoff,
  List.length positions = List.length lattice -> Forall (fun p => List.length p = n) positions ->
  forall k s a b,
  let '(es, us, ds) := radius_graph_pbc lattice n positions cutoff in
  List.length us = List.length es /\ List.length ds = List.length es /\
  (nth_error es k = Some (s, a, b) ->
   exists L p i j v, nth_error lattice s = Some L /\ nth_error positions s = Some p /\ a = (s * n + i)%nat /\ b = (s * n + j)%nat /\
    half_cell_vector L p i j v /\ nth_error ds k = Some (vnorm v) /\
    exists u, nth_error us k = Some u /\ (v <> v0 -> exists w, u = Some w /\ v = vscale (vnorm v) w /\ vnorm w = 1) /\ (v = v0 -> u = None)).
Proof. exact f_C70_attributes. Qed.
Print Assumptions C70_attributes.

Theorem C70_symmetric : forall lattice n positions cutoff,
  List.length positions = List.length lattice -> Forall (fun p => List.length p = n) positions ->
  (forall s p i j pi pj, nth_error positions s = Some p -> nth_error p i = Some pi -> nth_error p j = Some pj -> i <> j ->
    vall (fun x => ~ congr1 x (/ 2)) (vsub pj pi)) ->
  forall s a b, In (s, a, b) (fst (fst (radius_graph_pbc lattice n positions cutoff))) -> In (s, b, a) (fst (fst (radius_graph_pbc lattice n positions cutoff))).
Proof. exact f_C70_symmetric. Qed.
Print Assumptions C70_symmetric.

Theorem C70_symmetric_refuted :
  ~ (forall lattice n positions cutoff s a b,
  List.length positions = List.length lattice -> Forall (fun p => List.length p = n) positions ->
  In (s, a, b) (fst (fst (radius_graph_pbc lattice n positions cutoff))) -> In (s, b, a) (fst (fst (radius_graph_pbc lattice n positions cutoff)))).
Proof. exact f_C70_symmetric_refuted. Qed.
Print Assumptions C70_symmetric_refuted.

Example C70_nonvacuous :
  List.length [map (vmap (fun x => x)) ex_positions] = List.length [cast_m (fun x => x) ex_lattice] /\ Forall (fun p => List.length p = 3%nat) [map (vmap (fun x => x)) ex_positions] /\
  In (0, 0, 1)%nat (fst (fst (radius_graph_pbc [cast_m (fun x => x) ex_lattice] 3 [map (vmap (fun x => x)) ex_positions] (3/10)))) /\
  (forall s p i j pi pj, nth_error [map (vmap (fun x => x)) ex_positions] s = Some p -> nth_error p i = Some pi -> nth_error p j = Some pj -> i <> j ->
    vall (fun x => ~ congr1 x (/ 2)) (vsub pj pi)).
Proof. exact ex_C70. Qed.

(** C71: rotations from the x axis. *)
Theorem C71_rotation : forall t,
  t <> v0 -> ~ opposite_to_x t ->
  exists m b, get_rotation (Some t) = Some m /\ rotation3 m /\ mulv m (mkV 1 0 0) = b /\ t = vscale (vnorm t) b /\ vdot b b = 1.
Proof. exact f_C71. Qed.
Print Assumptions C71_rotation.

Theorem C71_opposite_refuted : forall t,
  opposite_to_x t -> get_rotation (Some t) = Some mI /\ mulv mI (mkV 1 0 0) <> vscale (/ vnorm t) t.
Proof. exact f_C71_opposite. Qed.
Print Assumptions C71_opposite_refuted.

Theorem C71_zero :
  get_rotation (Some v0) = None /\ get_rotation None = None.
Proof. exact f_C71_zero. Qed.
Print Assumptions C71_zero.

Theorem C71_always_rotation : forall t m,
  get_rotation t = Some m -> rotation3 m.
Proof. exact rotation_or_identity. Qed.
Print Assumptions C71_always_rotation.

Example C71_nonvacuous :
  mkV 0 3 4 <> v0 /\ ~ opposite_to_x (mkV 0 3 4) /\ opposite_to_x (mkV (-2) 0 0).
Proof. exact ex_C71. Qed.
