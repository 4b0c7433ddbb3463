(** Theorems about the order in which degrees of freedom are added: C91. *)
From Coq Require Import String ZArith Reals List Permutation.
From Verif Require Import Base LinAlg M_Validate M_StructUtils M_Symmetry M_Reference M_Interp M_Art M_Shared
  S_Lattice S_Vec S_Symmetry S_Equivalent S_Interp S_Images S_Order P_Order2 P_Order4 P_Order5 P_Images2 P_Examples12 P_Examples16.
Import ListNotations.
Local Open Scope R_scope.

(** C91: the same additions in two orders, all successful, give the same degrees of freedom
    (in another order) and the same predictions, whatever the model held before. *)
Theorem C91_order : forall art calls calls' m0 m m', consistent m0 -> Permutation calls calls' ->
  all_return art calls m0 m -> all_return art calls' m0 m' ->
  Permutation (im_basis m) (im_basis m') /\
  forall spl b, calc_polarizabilities spl m b = calc_polarizabilities spl m' b.
Proof. exact f_C91_order. Qed.
Print Assumptions C91_order.

(** C91: whether all the additions succeed does not depend on their order, when every
    symmetry image of every displacement is along a degree of freedom of its own call. *)
Theorem C91_acceptance : forall L pos ops r art m0 calls calls', rigid_symmetries L pos ops r -> im_ref m0 = r ->
  Forall (fun a => exists d, starts_from r a d /\ List.length d = List.length pos /\ images_listed pos ops r d) calls ->
  Permutation calls calls' ->
  ((exists m, all_return art calls m0 m) <-> (exists m, all_return art calls' m0 m)).
Proof. exact f_C91_acceptance. Qed.
Print Assumptions C91_acceptance.

(** C91: in particular always, for structures with no symmetry but the identity. *)
Theorem C91_acceptance_plain : forall numbers L pos equiv r art m0 calls calls',
  make_reference numbers L pos (Some ([(mI, v0)], equiv)) = Ok r ->
  (0 < List.length pos)%nat -> separated (/ 100000) pos -> im_ref m0 = r ->
  Forall (fun a => exists d, starts_from r a d /\ List.length d = List.length pos) calls ->
  Permutation calls calls' ->
  ((exists m, all_return art calls m0 m) <-> (exists m, all_return art calls' m0 m)).
Proof. exact f_C91_plain. Qed.
Print Assumptions C91_acceptance_plain.

(** C91: without the condition on the images it can depend on the order: only the
    displacement itself is compared with earlier degrees of freedom, not its images, and
    images neither orthogonal nor parallel to those found before are dropped. *)
Theorem C91_acceptance_refuted : ~ forall L pos ops r art m0 calls calls',
  rigid_symmetries L pos ops r -> im_ref m0 = r -> consistent m0 ->
  Forall (fun a => exists d, starts_from r a d /\ List.length d = List.length pos) calls ->
  Permutation calls calls' ->
  (exists m, all_return art calls m0 m) -> (exists m, all_return art calls' m0 m).
Proof. exact f_C91_refuted. Qed.
Print Assumptions C91_acceptance_refuted.

(** Two atoms exchanged by a mirror plane, and two displacements of the first one *)
Example C91_nonvacuous : exists r m m', rigid_symmetries mI sw_pos sw_ops r /\
  all_return false [along ex; along ez] (make_model r mI false) m /\
  all_return false [along ez; along ex] (make_model r mI false) m' /\
  im_basis m <> im_basis m' /\
  Forall (fun a => exists d, starts_from r a d /\ List.length d = List.length sw_pos /\ images_listed sw_pos sw_ops r d) [along ex; along ez].
Proof. exact ex_C91. Qed.
