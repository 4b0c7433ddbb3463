(** Theorems: one crystal in two orientations (C95) and with polarizabilities in other units or
    counted from another zero (C96).  Specification in S_Turned. *)
From Coq Require Import String ZArith Reals List.
From Verif Require Import Base LinAlg M_Validate M_StructUtils M_Symmetry M_Reference M_Interp M_Art M_Shared M_Spectrum M_Dynamics
  S_Vec S_Images S_Order S_Atoms S_Spectrum S_Interp S_Response S_Turned P_Turned3 P_Examples19 P_Offset.
Import ListNotations.
Local Open Scope R_scope.

(** C95: whatever the symmetries, the turned calls have the same outcomes and warnings, and the
    degrees of freedom are the turned ones, sampled at the same amplitudes. *)
Theorem C95_outcomes : forall Q numbers L pos sym r r' refpol refpol' dummy art calls calls',
  isometry Q -> make_reference numbers L pos sym = Ok r -> make_reference numbers (mmul L Q) pos sym = Ok r' ->
  Forall2 (turned_call Q) calls calls' ->
  let run := run_all art calls (make_model r refpol dummy) in
  let run' := run_all art calls' (make_model r' refpol' dummy) in
  fst run' = fst run /\ im_basis (snd run') = map (fun b => rows_mul b Q) (im_basis (snd run)) /\
  im_mask (snd run') = im_mask (snd run) /\ sampling (snd run') = sampling (snd run).
Proof. exact f_C95_outcomes. Qed.
Print Assumptions C95_outcomes.

(** C95: when the turn commutes with the (fractional) matrices of the symmetry operations, in
    particular without symmetry, predictions turn with the crystal. *)
Theorem C95_turned : forall Q numbers L pos ops equiv r r' refpol dummy art calls calls',
  isometry Q -> make_reference numbers L pos (Some (ops, equiv)) = Ok r ->
  make_reference numbers (mmul L Q) pos (Some (ops, equiv)) = Ok r' ->
  Forall (fun op => mmul (fst op) Q = mmul Q (fst op)) ops -> Forall2 (turned_call Q) calls calls' ->
  let run := run_all art calls (make_model r refpol dummy) in
  let run' := run_all art calls' (make_model r' (carried Q refpol) dummy) in
  fst run' = fst run /\ im_basis (snd run') = map (fun b => rows_mul b Q) (im_basis (snd run)) /\
  im_mask (snd run') = im_mask (snd run) /\
  forall spl b, spline_maps (carried Q) spl ->
    calc_polarizabilities spl (snd run') b = rmap (map (carried Q)) (calc_polarizabilities spl (snd run) b).
Proof. exact f_C95_turned. Qed.
Print Assumptions C95_turned.

(** C95: and measured spectra are the same. *)
Theorem C95_spectra : forall Q numbers L pos ops equiv r r' refpol dummy art calls calls',
  isometry Q -> make_reference numbers L pos (Some (ops, equiv)) = Ok r ->
  make_reference numbers (mmul L Q) pos (Some (ops, equiv)) = Ok r' ->
  Forall (fun op => mmul (fst op) Q = mmul Q (fst op)) ops -> Forall2 (turned_call Q) calls calls' ->
  let m := snd (run_all art calls (make_model r refpol dummy)) in
  let m' := snd (run_all art calls' (make_model r' (carried Q refpol) dummy)) in
  forall spl, spline_maps (carried Q) spl ->
  (forall p sp, phonons_raman_spectrum (as_model spl m) p = Ok sp -> Forall symmetric3 (ps_tensors sp) ->
     exists sp', phonons_raman_spectrum (as_model spl m') p = Ok sp' /\
       forall a, measure_phonon sp' a = measure_phonon sp a) /\
  (forall t sp, trajectory_raman_spectrum (as_model spl m) t = Ok sp -> Forall symmetric3 (md_ts sp) ->
     exists sp', trajectory_raman_spectrum (as_model spl m') t = Ok sp' /\
       forall a, measure_md sp' a = measure_md sp a).
Proof. exact f_C95_spectra. Qed.
Print Assumptions C95_spectra.

Example C95_nonvacuous : exists Q numbers L pos ops equiv r r' refpol calls calls' w s' spl p a,
  isometry Q /\ mdet Q = 1 /\ Q <> mI /\ make_reference numbers L pos (Some (ops, equiv)) = Ok r /\
  make_reference numbers (mmul L Q) pos (Some (ops, equiv)) = Ok r' /\
  (1 < List.length ops)%nat /\ Forall (fun op => mmul (fst op) Q = mmul Q (fst op)) ops /\
  Forall2 (turned_call Q) calls calls' /\ spline_maps (carried Q) spl /\
  run_all false calls (make_model r refpol false) = ([(w, Ok tt)], s') /\ List.length (im_basis s') = 2%nat /\
  calc_polarizabilities spl s' (batch_of 2 [p]) = Ok [a] /\ carried Q a <> a.
Proof. exact ex_C95. Qed.

(** C95: with symmetry operations the turn does not commute with, predictions do not turn with
    the crystal: the polarizabilities of symmetry images depend on the chosen axes. *)
Theorem C95_symmetric_refuted : ~ (forall Q numbers L pos ops equiv r r' refpol art calls calls' spl b,
  isometry Q -> make_reference numbers L pos (Some (ops, equiv)) = Ok r ->
  make_reference numbers (mmul L Q) pos (Some (ops, equiv)) = Ok r' ->
  Forall2 (turned_call Q) calls calls' -> spline_maps (carried Q) spl ->
  calc_polarizabilities spl (snd (run_all art calls' (make_model r' (carried Q refpol) false))) b
    = rmap (map (carried Q)) (calc_polarizabilities spl (snd (run_all art calls (make_model r refpol false))) b)).
Proof. exact f_C95_refuted. Qed.
Print Assumptions C95_symmetric_refuted.

(** C96: which calls succeed, and the degrees of freedom they add, do not depend on the values of
    the polarizabilities. *)
Theorem C96_values : forall r refpol refpol' dummy art calls calls', Forall2 other_call calls calls' ->
  let run := run_all art calls (make_model r refpol dummy) in
  let run' := run_all art calls' (make_model r refpol' dummy) in
  fst run' = fst run /\ im_basis (snd run') = im_basis (snd run) /\ im_mask (snd run') = im_mask (snd run) /\
  sampling (snd run') = sampling (snd run).
Proof. exact f_C96_values. Qed.
Print Assumptions C96_values.

(** C96: polarizabilities in other units give predictions in those units, *)
Theorem C96_units : forall r refpol dummy art k calls calls' spl b,
  Forall2 (rescaled_call k) calls calls' -> spline_maps (mscale k) spl ->
  calc_polarizabilities spl (snd (run_all art calls' (make_model r (mscale k refpol) dummy))) b =
  rmap (map (mscale k)) (calc_polarizabilities spl (snd (run_all art calls (make_model r refpol dummy))) b).
Proof. exact f_C96_units. Qed.
Print Assumptions C96_units.

(** and Raman tensors in those units, and intensities of trajectories in their square. *)
Theorem C96_unit_spectra : forall r refpol dummy art k calls calls' spl,
  Forall2 (rescaled_call k) calls calls' -> spline_maps (mscale k) spl ->
  let m := snd (run_all art calls (make_model r refpol dummy)) in
  let m' := snd (run_all art calls' (make_model r (mscale k refpol) dummy)) in
  (forall p sp, phonons_raman_spectrum (as_model spl m) p = Ok sp ->
     phonons_raman_spectrum (as_model spl m') p = Ok (mkPS (ps_wavenumbers sp) (map (mscale k) (ps_tensors sp)))) /\
  (forall t sp, trajectory_raman_spectrum (as_model spl m) t = Ok sp ->
     exists sp', trajectory_raman_spectrum (as_model spl m') t = Ok sp' /\
       forall a, measure_md sp' a = rmap (fun y => (fst y, times (k ^ 2) (snd y))) (measure_md sp a)).
Proof. exact f_C96_unit_spectra. Qed.
Print Assumptions C96_unit_spectra.

(** C96: a tensor added to all polarizabilities is added to all predictions and leaves spectra
    alone (models that are not dummies). *)
Theorem C96_zero : forall r refpol c art calls calls', Forall2 (offset_call c) calls calls' ->
  let run := run_all art calls (make_model r refpol false) in
  let run' := run_all art calls' (make_model r (madd refpol c) false) in
  fst run' = fst run /\ forall spl,
  (forall b, calc_polarizabilities spl (snd run') b
     = rmap (map (fun a => madd a c)) (calc_polarizabilities spl (snd run) b)) /\
  (forall p, phonons_raman_spectrum (as_model spl (snd run')) p = phonons_raman_spectrum (as_model spl (snd run)) p) /\
  (forall t sp, trajectory_raman_spectrum (as_model spl (snd run)) t = Ok sp ->
     exists sp', trajectory_raman_spectrum (as_model spl (snd run')) t = Ok sp' /\
       forall a, measure_md sp' a = measure_md sp a).
Proof. exact f_C96_zero. Qed.
Print Assumptions C96_zero.

Example C96_nonvacuous : exists r refpol refpol' calls calls' calls'' w s' spl p a,
  Forall2 other_call calls calls' /\ calls' <> calls /\ refpol' <> refpol /\
  Forall2 (rescaled_call 2) calls calls'' /\ spline_maps (mscale 2) spl /\
  run_all false calls (make_model r refpol false) = ([(w, Ok tt)], s') /\ List.length (im_basis s') = 2%nat /\
  calc_polarizabilities spl s' (batch_of 2 [p]) = Ok [a] /\ a <> refpol.
Proof. exact ex_C96. Qed.
