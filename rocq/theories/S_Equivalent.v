(** Vocabulary for reading the answer of get_equivalent_displacements. *)
From Coq Require Import String ZArith Reals List.
From Verif Require Import Base LinAlg M_StructUtils M_Symmetry M_Reference S_Lattice S_Symmetry.
Import ListNotations.
Local Open Scope R_scope.

(** An (N,3) array read as one long vector *)
Definition rowsR (l : list V3) : list R := flat_map (fun v => [vx v; vy v; vz v]) l.

(** A group read as a list of (displacement, operation) pairs *)
Definition to_group (G : list (list V3 * (M3 * V3))) : group :=
  mkGroup (map (fun e => Fin (fst e)) G) (map snd G).

(** What one listed pair says: displace the atoms by [d], apply the operation,
    put the atoms back in order with the permutation matrix, measure. *)
Definition image_under (pos d : list V3) (op : M3 * V3) (x : list V3) : Prop :=
  exists P q q' q'', permutation_matrix_of pos op = Ok P /\
    displace_positions pos d = Ok q /\ transform_positions q (fst op) (snd op) = Ok q' /\
    bmat_mul P q' = Ok q'' /\ calc_displacement pos q'' = Ok x.

(** The first displacement of every group *)
Definition leaders (Gs : list (list (list V3 * (M3 * V3)))) : list (list V3) :=
  flat_map (fun G => match G with e :: _ => [fst e] | [] => [] end) Gs.
