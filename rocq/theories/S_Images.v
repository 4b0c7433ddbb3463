(** Specification vocabulary for symmetry images of polarizability data. *)
From Coq Require Import ZArith Reals List.
From Verif Require Import Base LinAlg M_Validate M_Symmetry M_Reference M_Interp S_Lattice S_Vec S_Symmetry S_Equivalent S_Interp.
Import ListNotations.
Local Open Scope R_scope.

(** [Q] is the Cartesian form of the fractional operation [R] (acting on row vectors)
    in a cell with lattice vectors (rows) [L]: moving to Cartesian coordinates and
    applying [Q] is the same as applying [R] first. *)
Definition cartesian_form (L R Q : M3) : Prop := mmul R L = mmul L Q.
(** [Q] preserves lengths and angles. *)
Definition isometry (Q : M3) : Prop := mmul Q (mtrans Q) = mI /\ mmul (mtrans Q) Q = mI.
(** The polarizability of a structure after applying [Q] to it (rows: u |-> u Q) *)
Definition carried (Q alpha : M3) : M3 := mmul (mmul (mtrans Q) alpha) Q.
(** [Ri] is the inverse of [R]. *)
Definition inverse_of (R Ri : M3) : Prop := mmul R Ri = mI /\ mmul Ri R = mI.

(** A successful call add_dof(cart, amps, pols, order) took the model from [s] to [s']; the
    fractional form of [cart] is [d] and its symmetry images are the groups [gs]. *)
Definition added_with_images (s s' : imodel) (cart d : list V3) (amps pols : rarr) (gs : list group) : Prop :=
  reachable_incl s /\ im_dummy s = false /\ rarr_wf amps /\ rarr_wf pols /\
  length cart = length (rs_positions (im_ref s)) /\ ra_data amps <> [] /\
  (exists order w, add_dof (Fin cart) amps pols order true s = ((s', w), Ok tt)) /\
  get_frac_displacement (im_ref s) cart = Ok d /\
  get_equivalent_displacements (im_ref s) (Fin d) = Ok gs.

(** [p] is the reference structure displaced by one of the supplied amplitudes [a] along
    the image [x], under the symmetry operation (R,t), of the displacement given to
    add_dof; [alpha] is the polarizability supplied with that amplitude.  The image is the
    first of its group or opposite to it, and the basis vector of its group is orthogonal
    to all others. *)
Definition image_sample (s s' : imodel) (R alpha : M3) (p : list V3) : Prop :=
  exists cart d amps pols gs j g lead rest m x t i a b,
    added_with_images s s' cart d amps pols gs /\
    nth_error gs j = Some g /\ g_disp g = Fin lead :: rest /\
    nth_error (g_disp g) m = Some (Fin x) /\ nth_error (g_trans g) m = Some (R, t) /\
    (x = lead \/ x = rows_scale (-1) lead) /\
    nth_error (im_basis s') (length (im_basis s) + j) = Some b /\
    (forall j' c, j' <> (length (im_basis s) + j)%nat -> nth_error (im_basis s') j' = Some c ->
       inner (rowsR c) (rowsR b) = 0) /\
    nth_error (ra_data amps) i = Some a /\ nth_error (mats_of (ra_data pols)) i = Some alpha /\
    length p = length (rs_positions (im_ref s)) /\
    displacement_from (im_ref s) p (rows_scale a (direction_of (rows_mul x (rs_lattice (im_ref s))))).
