(** Theorems about the orthogonality of the degrees of freedom of a model: C92. *)
From Coq Require Import String ZArith Reals List Permutation.
From Verif Require Import Base LinAlg M_Validate M_StructUtils M_Symmetry M_Reference M_Interp M_Art M_Shared
  S_Lattice S_Vec S_Symmetry S_Equivalent S_Interp S_Images S_Response S_Order S_Ortho P_Ortho P_Images2 P_Examples12 P_Examples16 P_Examples17.
Import ListNotations.
Local Open Scope R_scope.

(** C92: without symmetry, whatever is added successfully, in any cell. *)
Theorem C92_plain : forall numbers L pos equiv r art pol dummy calls m,
  make_reference numbers L pos (Some ([(mI, v0)], equiv)) = Ok r ->
  (0 < List.length pos)%nat -> separated (/ 100000) pos ->
  Forall (fun a => exists d, starts_from r a d /\ List.length d = List.length pos) calls ->
  all_return art calls (make_model r pol dummy) m -> orthogonal_dofs m.
Proof. exact f_C92_plain. Qed.
Print Assumptions C92_plain.

(** C92: with symmetry, in cubic cells, if the images of each displacement are all along
    degrees of freedom of its own call. *)
Theorem C92_symmetric : forall L pos ops r art pol dummy calls m,
  rigid_symmetries L pos ops r -> closed_symmetries pos ops -> cubic_lattice L ->
  Forall (fun a => exists d, starts_from r a d /\ List.length d = List.length pos /\ images_listed pos ops r d) calls ->
  all_return art calls (make_model r pol dummy) m -> orthogonal_dofs m.
Proof. exact f_C92_orthogonal. Qed.
Print Assumptions C92_symmetric.

(** C92: the condition on the images matters: those that are neither orthogonal nor parallel
    to earlier ones are dropped, and later displacements are not compared with them. *)
Theorem C92_dropped_images_refuted : ~ forall L pos ops r art pol dummy calls m,
  rigid_symmetries L pos ops r -> closed_symmetries pos ops -> cubic_lattice L ->
  Forall (fun a => exists d, starts_from r a d /\ List.length d = List.length pos) calls ->
  all_return art calls (make_model r pol dummy) m -> orthogonal_dofs m.
Proof. exact f_C92_dropped_refuted. Qed.
Print Assumptions C92_dropped_images_refuted.

(** C92: the condition on the cell matters: images are compared as fractional arrays, which
    can be orthogonal when the displacements are not. *)
Theorem C92_skewed_cell_refuted : ~ forall L pos ops r pol l m, crystal L pos ops r -> closed_symmetries pos ops ->
  sampled r pol l m -> orthogonal_dofs m.
Proof. exact f_C92_images_refuted. Qed.
Print Assumptions C92_skewed_cell_refuted.

(** C92: such a model counts contributions twice: C85 fails without its hypothesis that the
    degrees of freedom are orthonormal, although every addition was accepted. *)
Theorem C92_exactness_refuted : ~ forall spl L pos ops r pol l m xs us,
  crystal L pos ops r -> linear_response (List.length pos) l -> symmetric_response pos ops l -> sampled r pol l m ->
  List.length (im_basis m) = (3 * List.length pos)%nat ->
  sample_shape (List.length pos) xs -> Forall2 (displacement_from r) xs us ->
  calc_polarizabilities spl m (batch_of (List.length pos) xs) = Ok (map (fun u => madd pol (l u)) us).
Proof. exact f_C92_exact_refuted. Qed.
Print Assumptions C92_exactness_refuted.

(** Two atoms exchanged by a mirror plane in a cubic cell, with four degrees of freedom *)
Example C92_nonvacuous : exists r m, rigid_symmetries mI sw_pos sw_ops r /\ closed_symmetries sw_pos sw_ops /\ cubic_lattice mI /\
  Forall (fun a => exists d, starts_from r a d /\ List.length d = List.length sw_pos /\ images_listed sw_pos sw_ops r d) [along ex; along ez] /\
  all_return false [along ex; along ez] (make_model r mI false) m /\ List.length (im_basis m) = 4%nat.
Proof. exact ex_C92. Qed.
