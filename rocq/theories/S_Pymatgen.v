(** Specification vocabulary for pymatgen objects: C94. *)
From Coq Require Import String ZArith Reals List.
From Verif Require Import Base LinAlg M_Interp M_Pymatgen S_Lattice.
Import ListNotations.
Local Open Scope R_scope.

(** A pymatgen Structure *)
Definition structure (m : M3) (n : list Z) (p : list V3) : pyobj := mkObj (Some (Some m)) (Some p) (Some n).
(** An object without one of the attributes of a Structure *)
Definition not_a_structure (o : pyobj) : Prop := forall m n p, o <> structure m n p.

(** The coordinates of two objects are the same up to whole lattice vectors; nothing is said
    about their lattices and elements. *)
Definition same_coordinates (o o' : pyobj) : Prop :=
  exists p p', ob_coords o = Some p /\ ob_coords o' = Some p' /\ same_mod_lattice p p'.

(** An array with shape (S,N,3) *)
Definition frames_array (n : nat) (frames : list (list V3)) : rarr :=
  mkRarr [List.length frames; n; 3%nat] (flat_map (flat_map (fun v => [vx v; vy v; vz v])) frames).

(** What pymatgen means by the coordinates of a Trajectory: positions, or displacements from
    one frame to the next, starting from the base positions. *)
Fixpoint running (at_ : list V3) (steps : list (list V3)) : list (list V3) :=
  match steps with
  | [] => []
  | d :: steps' => let p := map (fun xy => vadd (fst xy) (snd xy)) (combine at_ d) in p :: running p steps'
  end.
Definition frames_meant (t : pytraj) (coords : list (list V3)) : list (list V3) :=
  if pt_displacement t then running (pt_base t) coords else coords.
