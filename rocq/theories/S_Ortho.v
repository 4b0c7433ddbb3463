(** Specification vocabulary for the orthogonality of degrees of freedom: C92. *)
From Coq Require Import ZArith Reals List.
From Verif Require Import Base LinAlg M_StructUtils M_Symmetry M_Reference M_Interp S_Lattice S_Vec S_Symmetry S_Equivalent S_Interp S_Order.
Import ListNotations.
Local Open Scope R_scope.

(** One operation after another is an operation of [ops]. *)
Definition closed_symmetries (pos : list V3) (ops : list (M3 * V3)) : Prop :=
  forall op pi op' pi', In op ops -> row_symmetry pos (fst op) (snd op) pi ->
    In op' ops -> row_symmetry pos (fst op') (snd op') pi' ->
    exists op2 pi2, In op2 ops /\ row_symmetry pos (fst op2) (snd op2) pi2 /\ fst op2 = mmul (fst op) (fst op') /\
      forall b, (b < List.length pos)%nat -> pi2 b = pi (pi' b).

(** Lattice vectors mutually orthogonal and equally long *)
Definition cubic_lattice (L : M3) : Prop := exists c, 0 < c /\ mmul L (mtrans L) = mscale c mI.

(** Any two different degrees of freedom of [m] are orthogonal (within the code's tolerance). *)
Definition orthogonal_dofs (m : imodel) : Prop :=
  forall i j b c, nth_error (im_basis m) i = Some b -> nth_error (im_basis m) j = Some c -> i <> j ->
    orthogonal_spec (rowsR b) (rowsR c).
