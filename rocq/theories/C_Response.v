(** Theorems about models built from a symmetric linear response: C85 and C86. *)
From Coq Require Import String ZArith Reals Bool Arith List.
From Verif Require Import Base LinAlg M_Validate M_Symmetry M_Reference M_Interp M_Art M_Spectrum M_Dynamics S_Lattice S_Vec S_Symmetry
  S_Equivalent S_Interp S_Images S_Response S_Spectrum P_Images2 P_Response P_Response2 P_Response3 P_Examples12.
Import ListNotations.
Local Open Scope R_scope.

(** C85: whatever DOFs were added, by add_dof or add_art, and however many of the images came
    from symmetry, a model with one DOF per coordinate predicts the response exactly. *)
Theorem C85_symmetric_response_exact : forall spl L pos ops r pol l m xs us,
  crystal L pos ops r -> linear_response (List.length pos) l -> symmetric_response pos ops l -> sampled r pol l m ->
  orthonormal (im_basis m) -> List.length (im_basis m) = (3 * List.length pos)%nat ->
  sample_shape (List.length pos) xs -> Forall2 (displacement_from r) xs us ->
  calc_polarizabilities spl m (batch_of (List.length pos) xs) = Ok (map (fun u => madd pol (l u)) us).
Proof. exact f_C85. Qed.
Print Assumptions C85_symmetric_response_exact.

(** C85: orthonormal displacements are never more than the coordinates, and with as many as
    that every displacement is a combination of them. *)
Theorem C85_at_most_three_per_atom : forall n basis, Forall (fun b => List.length b = n) basis -> orthonormal basis ->
  (List.length basis <= 3 * n)%nat /\ (List.length basis = (3 * n)%nat -> spans n basis).
Proof. exact f_C85_count. Qed.
Print Assumptions C85_at_most_three_per_atom.
Example C85_nonvacuous : exists r m m', fully_sampled mI sw_pos sw_ops r mI ex_resp m /\
  fully_sampled mI sw_pos sw_ops r mI ex_resp m' /\ im_basis m <> im_basis m' /\
  sw_ops <> [(mI, v0)] /\ phonons_about sw_pos ex_phs.
Proof. exact ex_C85. Qed.

(** C86: such a model gives the phonon Raman spectrum of the response (tensors twice the
    derivative, see C40), *)
Theorem C86_phonon_tensors : forall spl L pos ops r pol l m p,
  fully_sampled L pos ops r pol l m -> phonons_about pos p ->
  phonons_raman_spectrum (as_model spl m) p
  = Ok (mkPS (ph_wavenumbers p) (map (fun d => mscale 2 (l (rows_mul d L))) (ph_displacements p))).
Proof. exact f_C86_phonons. Qed.
Print Assumptions C86_phonon_tensors.

Theorem C86_phonon_intensities : forall spl L pos ops r pol l m p a s,
  fully_sampled L pos ops r pol l m -> phonons_about pos p -> raw a ->
  phonons_raman_spectrum (as_model spl m) p = Ok s ->
  measure_phonon s a
  = Ok (ph_wavenumbers p, map (fun d => Some (4 * textbook_intensity (l (rows_mul d L)))) (ph_displacements p)).
Proof. exact f_C86_intensities. Qed.
Print Assumptions C86_phonon_intensities.

(** and the molecular-dynamics spectrum of the response along the trajectory, *)
Theorem C86_trajectory_spectrum : forall spl L pos ops r pol l m t us s a,
  fully_sampled L pos ops r pol l m ->
  sample_shape (List.length pos) (tr_ts t) -> Forall2 (displacement_from r) (tr_ts t) us ->
  trajectory_raman_spectrum (as_model spl m) t = Ok s -> measure_md s a = measure_md (mkMD (map l us) (tr_timestep t)) a.
Proof. exact f_C86_md_intensities. Qed.
Print Assumptions C86_trajectory_spectrum.

Theorem C86_trajectory_succeeds : forall spl L pos ops r pol l m t,
  fully_sampled L pos ops r pol l m -> sample_shape (List.length pos) (tr_ts t) ->
  exists s, trajectory_raman_spectrum (as_model spl m) t = Ok s.
Proof. exact f_C86_succeeds. Qed.
Print Assumptions C86_trajectory_succeeds.

(** and does not depend on the degrees of freedom chosen. *)
Theorem C86_choice_of_dofs : forall spl spl' L pos ops r pol l m m',
  fully_sampled L pos ops r pol l m -> fully_sampled L pos ops r pol l m' ->
  (forall xs, sample_shape (List.length pos) xs -> as_model spl m xs = as_model spl' m' xs) /\
  (forall p, phonons_shape p -> List.length (ph_ref p) = List.length pos ->
     phonons_raman_spectrum (as_model spl m) p = phonons_raman_spectrum (as_model spl' m') p) /\
  (forall t, sample_shape (List.length pos) (tr_ts t) ->
     trajectory_raman_spectrum (as_model spl m) t = trajectory_raman_spectrum (as_model spl' m') t).
Proof. exact f_C86_choice. Qed.
Print Assumptions C86_choice_of_dofs.
Example C86_nonvacuous : exists r m m', fully_sampled mI sw_pos sw_ops r mI ex_resp m /\
  fully_sampled mI sw_pos sw_ops r mI ex_resp m' /\ im_basis m <> im_basis m' /\
  sw_ops <> [(mI, v0)] /\ phonons_about sw_pos ex_phs.
Proof. exact ex_C85. Qed.
