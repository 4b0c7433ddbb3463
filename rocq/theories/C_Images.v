(** Theorems about the polarizabilities a model holds for symmetry images: C83. *)
From Coq Require Import ZArith Reals Bool Arith List.
From Verif Require Import Base LinAlg M_Validate M_Symmetry M_Reference M_Interp S_Lattice S_Vec S_Symmetry S_Equivalent
  S_Interp S_Images P_Images P_Images2.
Import ListNotations.
Local Open Scope R_scope.

(** C83: one basis vector per group of symmetry images, along its first member. *)
Theorem C83_directions : forall s s' cart d amps pols gs, added_with_images s s' cart d amps pols gs ->
  List.length (im_basis s') = (List.length (im_basis s) + List.length gs)%nat /\
  forall j g, nth_error gs j = Some g -> exists lead rest, g_disp g = Fin lead :: rest /\
    nth_error (im_basis s') (List.length (im_basis s) + j) = Some (direction_of (rows_mul lead (rs_lattice (im_ref s)))).
Proof. exact f_C83_directions. Qed.
Print Assumptions C83_directions.

(** C83: at a symmetry image the supplied change of polarizability is conjugated with the
    fractional matrix of the operation. *)
Theorem C83_image_data : forall spl s s' R alpha p, interpolating spl -> image_sample s s' R alpha p ->
  exists Ri, inverse_of R Ri /\
    calc_polarizabilities spl s' (batch_of (List.length (rs_positions (im_ref s))) [p])
      = Ok [madd (im_refpol s) (mmul (mmul Ri (msub alpha (im_refpol s))) R)].
Proof. exact f_C83_data. Qed.
Print Assumptions C83_image_data.

(** C83: that is the polarizability of the moved structure when the operation has the same
    matrix in fractional and Cartesian coordinates. *)
Theorem C83_carried : forall spl s s' R Q alpha p, interpolating spl -> image_sample s s' R alpha p ->
  isometry Q -> cartesian_form (rs_lattice (im_ref s)) R Q -> carried Q (im_refpol s) = im_refpol s ->
  mmul R (rs_lattice (im_ref s)) = mmul (rs_lattice (im_ref s)) R ->
  calc_polarizabilities spl s' (batch_of (List.length (rs_positions (im_ref s))) [p]) = Ok [carried Q alpha].
Proof. exact f_C83_carried. Qed.
Print Assumptions C83_carried.
Example C83_nonvacuous : exists s s' R alpha p, image_sample s s' R alpha p /\ R <> mI /\ isometry R /\
  cartesian_form (rs_lattice (im_ref s)) R R /\ carried R (im_refpol s) = im_refpol s /\
  mmul R (rs_lattice (im_ref s)) = mmul (rs_lattice (im_ref s)) R /\ carried R alpha <> alpha.
Proof. exact ex_C83. Qed.

(** C83: without that condition it is not, even for an exact symmetry of the structure. *)
Theorem C83_carried_refuted : ~ (forall spl s s' R Q alpha p pi t, interpolating spl -> image_sample s s' R alpha p ->
  row_symmetry (rs_positions (im_ref s)) R t pi ->
  isometry Q -> cartesian_form (rs_lattice (im_ref s)) R Q -> carried Q (im_refpol s) = im_refpol s ->
  calc_polarizabilities spl s' (batch_of (List.length (rs_positions (im_ref s))) [p]) = Ok [carried Q alpha]).
Proof. exact f_C83_refuted. Qed.
Print Assumptions C83_carried_refuted.
