(** Theorems about models of nonlinear responses: C88. *)
From Coq Require Import String ZArith Reals Bool Arith List.
From Verif Require Import Base LinAlg M_Validate M_Symmetry M_Reference M_Interp M_Art M_Spectrum M_Dynamics S_Lattice S_Vec S_Symmetry
  S_Equivalent S_Interp S_Images S_Response S_Anharmonic S_Spectrum P_Images2 P_Examples12 P_Anharmonic P_Anharmonic2 P_Anharmonic3 P_Examples14.
Import ListNotations.
Local Open Scope R_scope.

(** C88: a response in which the DOFs act independently, along each of them as a polynomial of
    degree at most the interpolation order, is predicted exactly at every structure. *)
Theorem C88_polynomial_response_exact : forall spl L pos ops r pol f m xs us,
  reproduces_polynomials spl -> crystal L pos ops r ->
  f (repeat v0 (List.length pos)) = m0 -> symmetric_response pos ops f -> sampled_any r pol f m ->
  Forall2 (fun b sp => polynomial_along f b (sp_order sp)) (im_basis m) (im_interp m) ->
  modulates_independently (List.length pos) f (im_basis m) ->
  sample_shape (List.length pos) xs -> Forall2 (displacement_from r) xs us ->
  calc_polarizabilities spl m (batch_of (List.length pos) xs) = Ok (map (fun u => madd pol (f u)) us).
Proof. exact f_C88. Qed.
Print Assumptions C88_polynomial_response_exact.

(** C88: without independence the prediction is still exact along each DOF (DOFs orthonormal). *)
Theorem C88_exact_along_each_dof : forall spl L pos ops r pol f m j b t x,
  reproduces_polynomials spl -> crystal L pos ops r ->
  f (repeat v0 (List.length pos)) = m0 -> symmetric_response pos ops f -> sampled_any r pol f m ->
  Forall2 (fun b sp => polynomial_along f b (sp_order sp)) (im_basis m) (im_interp m) ->
  orthonormal (im_basis m) -> nth_error (im_basis m) j = Some b ->
  List.length x = List.length pos -> displacement_from r x (rows_scale t b) ->
  calc_polarizabilities spl m (batch_of (List.length pos) [x]) = Ok [madd pol (f (rows_scale t b))].
Proof. exact f_C88_along. Qed.
Print Assumptions C88_exact_along_each_dof.

(** C88: phonon tensors see the odd powers only, and are twice the derivative up to the third
    order coefficient times the square of the step 1/1000. *)
Theorem C88_phonon_tensors : forall spl L pos ops r pol f m p css,
  fully_modelled spl L pos ops r pol f m -> phonons_about pos p ->
  Forall2 (fun d cs => forall t, f (rows_scale t (rows_mul d L)) = mpoly cs t) (ph_displacements p) css ->
  phonons_raman_spectrum (as_model spl m) p
  = Ok (mkPS (ph_wavenumbers p) (map (fun cs => mscale 2 (mpoly (odd_coefficients cs) ((1 / 1000) ^ 2))) css)).
Proof. exact f_C88_phonons. Qed.
Print Assumptions C88_phonon_tensors.

(** C88: molecular-dynamics spectra are those of the nonlinear response along the trajectory. *)
Theorem C88_trajectory_spectrum : forall spl L pos ops r pol f m t us,
  fully_modelled spl L pos ops r pol f m ->
  sample_shape (List.length pos) (tr_ts t) -> Forall2 (displacement_from r) (tr_ts t) us ->
  exists s, trajectory_raman_spectrum (as_model spl m) t = Ok s /\
    forall a, measure_md s a = measure_md (mkMD (map f us) (tr_timestep t)) a.
Proof. exact f_C88_md. Qed.
Print Assumptions C88_trajectory_spectrum.

(** Second-order interpolation of a quadratic response on two atoms exchanged by a mirror *)
Example C88_nonvacuous : exists spl r m css, fully_modelled spl mI sw_pos sw_ops r mI quad_resp m /\
  List.length (im_basis m) = 6%nat /\ Forall (fun sp => sp_order sp = 2%nat) (im_interp m) /\ orthonormal (im_basis m) /\
  phonons_about sw_pos ex_phs /\
  Forall2 (fun d cs => forall t, quad_resp (rows_scale t (rows_mul d mI)) = mpoly cs t) (ph_displacements ex_phs) css /\
  (exists u, quad_resp u <> ex_resp u).
Proof. exact ex_C88. Qed.
