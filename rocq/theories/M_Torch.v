(** Model of ramannoodle/pmodel/torch/_utils.py over exact reals.

    Simplifications: arithmetic is exact; devices are not modelled; tensors have the sizes
    the docstrings give.  A row of three NaN is [None]. *)
From Coq Require Import ZArith Reals Bool Arith List.
From Verif Require Import Base LinAlg M_Validate M_StructUtils.
Import ListNotations.
Local Open Scope R_scope.

(** Division of a row by its norm: NaN for the zero row. *)
Definition normalized (v : V3) : option V3 :=
  if Reqb (vnorm v) 0 then None else Some (vscale (/ vnorm v) v).

(** _utils.py:47-53: the cross product matrix *)
Definition k_matrix (v : V3) : M3 :=
  mkM (mkV 0 (- vz v) (vy v)) (mkV (vz v) 0 (- vx v)) (mkV (- vy v) (vx v) 0).

(** _utils.py:24-65 [get_rotations], one row.  Every entry is NaN if the target is zero or
    NaN ([None]).  _utils.py:63 overwrites the rows with [s == 0], in which line 59 divides
    by zero. *)
Definition get_rotation (target : option V3) : option M3 :=
  match target with
  | None => None
  | Some t =>
      match normalized (mkV 1 0 0), normalized t with
      | Some a, Some b =>
          let v := vcross a b in
          let c := vdot a b in
          let s := vnorm v in
          let k := k_matrix v in
          if Reqb s 0 then Some mI
          else Some (madd (madd mI k) (mscale ((1 - c) / s ^ 2) (mmul k k)))
      | _, _ => None
      end
  end.
Definition get_rotations (targets : list (option V3)) : list (option M3) := map get_rotation targets.

(** Edges: graph index, and the two nodes. *)
Definition edge := (nat * nat * nat)%type.

(** _utils.py:122-128 (also _gnn.py:603-611): entry [s,i,j] of [cart_displacement] and of
    [cart_distance_matrix].  [positions.unsqueeze(1) - positions.unsqueeze(2)] is
    [p_j - p_i].  Simplification: as many lattices as position samples. *)
Definition cart_displacement (lattice : list M3) (positions : list (list V3)) (s i j : nat) : V3 :=
  let p := nth s positions [] in
  let displacement := vmap wrapd (vsub (nth j p v0) (nth i p v0)) in
  vmul displacement (nth s lattice m0).
Definition cart_distance (lattice : list M3) (positions : list (list V3)) (s i j : nat) : R :=
  let d := cart_displacement lattice positions s i j in
  sqrt (vx d ^ 2 + vy d ^ 2 + vz d ^ 2).

(** _utils.py:68-90 [get_graph_info] *)
Definition get_graph_info (cart : nat -> nat -> nat -> V3) (edge_indexes : list edge) (dist : nat -> nat -> nat -> R)
    (num_atoms : nat) : list edge * list (option V3) * list R :=
  let unit_vectors := map (fun '(s, i, j) => normalized (cart s i j)) edge_indexes in
  let distances := map (fun '(s, i, j) => dist s i j) edge_indexes in
  (map (fun '(s, i, j) => (s, (i + s * num_atoms)%nat, (j + s * num_atoms)%nat)) edge_indexes, unit_vectors, distances).

(** _utils.py:93-141 [_radius_graph_pbc]: [torch.nonzero] lists the true entries in
    row-major order. *)
Definition radius_graph_pbc (lattice : list M3) (num_atoms : nat) (positions : list (list V3)) (cutoff : R)
    : list edge * list (option V3) * list R :=
  let adjacent s i j := Rleb (cart_distance lattice positions s i j) cutoff && negb (Nat.eqb i j) in
  let edge_indexes :=
    flat_map (fun s => flat_map (fun i => map (fun j => (s, i, j)) (filter (adjacent s i) (seq 0 num_atoms)))
                                (seq 0 num_atoms))
             (seq 0 (List.length lattice)) in
  get_graph_info (cart_displacement lattice positions) edge_indexes (cart_distance lattice positions) num_atoms.

(** The seven tensors returned by [BatchTriplets.get_triplets] *)
Record triplets := mkTriplets {
  t_i : list nat; t_j : list nat; t_index_i : list nat; t_index_j : list nat; t_index_k : list nat;
  t_index_ji : list nat; t_index_kj : list nat }.
Definition each_triplet (f g h : list nat -> list nat) (t : triplets) : triplets :=
  mkTriplets (f (t_i t)) (f (t_j t)) (g (t_index_i t)) (g (t_index_j t)) (g (t_index_k t)) (h (t_index_ji t)) (h (t_index_kj t)).

(** _utils.py:144-168 the state of a [BatchTriplets] *)
Record batch_triplets := mkBT {
  bt_num_nodes : nat; bt_num_edges : nat; bt_ref : triplets; bt_num_triplets : nat;
  bt_cached_batch_size : Z; bt_cached : triplets }.

(** _utils.py:153-168 [BatchTriplets.__init__]; [dimenet_triplets] of torch_geometric is a
    parameter. *)
Definition batch_triplets_new (dimenet_triplets : list (nat * nat) -> nat -> triplets) (num_nodes : nat)
    (ref_edge_indexes : list edge) : batch_triplets :=
  let ref := dimenet_triplets (map (fun '(_, i, j) => (i, j)) ref_edge_indexes) num_nodes in
  mkBT num_nodes (List.length ref_edge_indexes) ref (List.length (t_index_i ref)) 1 ref.

(** [t.repeat(n)] and [torch.tensor([range(n)]).repeat_interleave(k, dim=1)[0]] *)
Definition tensor_repeat (n : nat) (l : list nat) : list nat := concat (repeat l n).
Definition batch_indexes (n k : nat) : list nat := flat_map (fun b => repeat b k) (seq 0 n).

(** _utils.py:175-225 [BatchTriplets.get_triplets].  For 0, [torch.tensor([range(0)])] holds
    floats, which cannot be added in place to an integer tensor; a negative repetition is an
    error as well.  Simplification: in-place addition of tensors of different lengths, which
    would be an error, truncates. *)
Definition get_triplets (st : batch_triplets) (batch_size : Z) : batch_triplets * res triplets :=
  if Z.eqb batch_size (bt_cached_batch_size st) then (st, Ok (bt_cached st))
  else if Z.leb batch_size 0 then (st, Err RuntimeError)
  else
    let n := Z.to_nat batch_size in
    let repeated := each_triplet (tensor_repeat n) (tensor_repeat n) (tensor_repeat n) (bt_ref st) in
    let edges := batch_indexes n (bt_num_edges st) in
    let trips := batch_indexes n (bt_num_triplets st) in
    let add idx step l := map2 (fun a b => (a + b * step)%nat) l idx in
    let t := each_triplet (add edges (bt_num_nodes st)) (add trips (bt_num_nodes st)) (add trips (bt_num_edges st)) repeated in
    (mkBT (bt_num_nodes st) (bt_num_edges st) (bt_ref st) (bt_num_triplets st) batch_size t, Ok t).

(** Python [range(0, n, step)]; [range] rejects a zero step. *)
Definition py_range (n : nat) (step : Z) : res (list nat) :=
  if Z.eqb step 0 then Err ValueError
  else if Z.ltb step 0 then Ok []
  else let k := Z.to_nat step in Ok (map (fun b => (b * k)%nat) (seq 0 ((n + k - 1) / k))).

(** _utils.py:228-249 [batch_positions], run to the end.  The samples of the array are an
    arbitrary list; [shape] is its shape. *)
Definition batch_positions {A} (shape : list nat) (positions : list A) (batch_size : Z) : res (list (list A)) :=
  let* _ := verify_ndarray_shape shape [None; None; Some 3%nat] in
  let n := List.length positions in
  let* starts := py_range n batch_size in
  Ok (map (fun start => firstn (Z.to_nat (Z.min (Z.of_nat start + batch_size) (Z.of_nat n)) - start) (skipn start positions)) starts).
