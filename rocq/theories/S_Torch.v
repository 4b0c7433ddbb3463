(** Specification vocabulary for the PyTorch utilities. *)
From Coq Require Import ZArith Reals Bool Arith List.
From Verif Require Import Base LinAlg S_Lattice M_Torch.
Import ListNotations.
Local Open Scope R_scope.

(** [m] is a rotation: orthogonal with determinant 1. *)
Definition rotation3 (m : M3) : Prop := mmul m (mtrans m) = mI /\ mmul (mtrans m) m = mI /\ mdet m = 1.
(** [t] points along -x. *)
Definition opposite_to_x (t : V3) : Prop := vx t < 0 /\ vy t = 0 /\ vz t = 0.

(** [v] is the Cartesian vector from atom [i] to the image of atom [j] with fractional
    displacement components in (-1/2, 1/2]. *)
Definition half_cell_vector (L : M3) (p : list V3) (i j : nat) (v : V3) : Prop :=
  exists pi pj d, nth_error p i = Some pi /\ nth_error p j = Some pj /\
    vall2 half_image (vsub pj pi) d /\ v = vmul d L.

(** The order of the edges: by sample, then first atom, then second atom. *)
Definition edge_before (a b : edge) : Prop :=
  let '(s, i, j) := a in let '(s', i', j') := b in
  (s < s' \/ (s = s' /\ (i < i' \/ (i = i' /\ j < j'))))%nat.

(** [l] shifted by [step] for each copy, [n] copies *)
Definition shifted_copies (n step : nat) (l : list nat) : list nat :=
  flat_map (fun b => map (fun x => (x + b * step)%nat) l) (seq 0 n).

(** What torch_geometric promises of triplets of a graph with [n] nodes and [e] edges *)
Definition triplets_for (n e : nat) (t : triplets) : Prop :=
  List.length (t_i t) = e /\ List.length (t_j t) = e /\
  (exists k, List.length (t_index_i t) = k /\ List.length (t_index_j t) = k /\ List.length (t_index_k t) = k /\
     List.length (t_index_ji t) = k /\ List.length (t_index_kj t) = k) /\
  Forall (fun x => x < n)%nat (t_i t ++ t_j t ++ t_index_i t ++ t_index_j t ++ t_index_k t) /\
  Forall (fun x => x < e)%nat (t_index_ji t ++ t_index_kj t).

(** A history of calls of [get_triplets] *)
Definition after_calls (st : batch_triplets) (calls : list Z) : batch_triplets :=
  fold_left (fun s b => fst (get_triplets s b)) calls st.
