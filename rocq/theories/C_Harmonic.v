(** Theorems about spectra of vibrations: C42 (textbook form of MD intensities) and C89. *)
From Coq Require Import String ZArith Reals Bool Arith List.
From Verif Require Import Base LinAlg M_Validate M_Symmetry M_Reference M_Interp M_Art M_Spectrum M_Dynamics S_Lattice S_Vec S_Symmetry
  S_Equivalent S_Interp S_Images S_Response S_Spectrum S_Harmonic P_Images2 P_Examples4 P_Examples12 P_Harmonic2 P_Harmonic3 P_Harmonic4.
Import ListNotations.
Local Open Scope R_scope.

(** C42: the intensities of a molecular-dynamics spectrum. *)
Theorem C42_md_textbook_intensities : forall ts dt a,
  (3 <= List.length ts)%nat -> 0 < dt -> ma_orientation a = "polycrystalline"%string ->
  (ma_laser a = true -> 0 < ma_wavelength a) -> (ma_bose a = true -> 0 < ma_temperature a) ->
  let n := (List.length ts - 1)%nat in
  exists w i, measure_md (mkMD ts dt) a = Ok (w, i) /\ List.length i = List.length w /\
    forall k, (0 < k)%nat -> (2 * k < n)%nat ->
      let v := INR k * (3335640951981521 / 10 ^ 11) / (INR n * dt) in
      let th := 2 * PI * INR k / INR n in
      nth_error w (k - 1) = Some v /\
      nth_error i (k - 1) = Some (Some (
        (background ts + textbook_intensity (cosine_sum ts th) + textbook_intensity (sine_sum ts th)) / 2
        * (if ma_laser a then ((v - 10 ^ 7 / ma_wavelength a) / 10 ^ 4) ^ 4 / v else 1)
        * (if ma_bose a then bose_einstein v (ma_temperature a) else 1))).
Proof. exact f_C42_textbook. Qed.
Print Assumptions C42_md_textbook_intensities.
Example C42_md_textbook_nonvacuous : (3 <= List.length ex_series)%nat /\ ma_orientation (mkArgs "polycrystalline" true 532 true 300) = "polycrystalline"%string.
Proof. split; [repeat constructor|reflexivity]. Qed.

(** C89: vibrations that fit into the simulation a whole number of times give lines at their own
    wavenumbers only, on a flat background. *)
Theorem C89_lines : forall n A vs dt a,
  0 < dt -> raw a -> resolved n (map v_cycles vs) -> (2 <= n)%nat ->
  exists w i, measure_md (mkMD (map (superposed n A vs) (seq 0 (S n))) dt) a = Ok (w, i) /\
    List.length i = List.length w /\
    forall k, (0 < k)%nat -> (2 * k < n)%nat ->
      nth_error w (k - 1) = Some (INR k * (3335640951981521 / 10 ^ 11) / (INR n * dt)) /\
      nth_error i (k - 1) = Some (Some (rsum (map (fun v => textbook_intensity (v_swing v) *
         (2 * sin (PI * INR (v_cycles v) / INR n) ^ 2 * (INR n / 2 + if Nat.eqb (v_cycles v) k then INR n ^ 2 / 4 else 0))) vs))).
Proof. exact f_C89. Qed.
Print Assumptions C89_lines.

(** C89: every Raman-active vibration is stronger than every wavenumber without one. *)
Theorem C89_peaks : forall n A vs dt a w i v k x y,
  0 < dt -> raw a -> resolved n (map v_cycles vs) -> (2 <= n)%nat ->
  measure_md (mkMD (map (superposed n A vs) (seq 0 (S n))) dt) a = Ok (w, i) ->
  In v vs -> 0 < textbook_intensity (v_swing v) -> (0 < k)%nat -> (2 * k < n)%nat -> ~ In k (map v_cycles vs) ->
  nth_error i (v_cycles v - 1) = Some (Some x) -> nth_error i (k - 1) = Some (Some y) -> y < x.
Proof. exact f_C89_peaks. Qed.
Print Assumptions C89_peaks.

(** C89: molecular dynamics of excited phonons and the phonon calculation agree: each line is the
    phonon intensity times the square of the amplitude, the square of the sine of half the angle
    the phonon turns in one step, and n/4 + n^2/8. *)
Theorem C89_agrees_with_phonons : forall spl L pos ops r pol l m p es n t a sp,
  fully_sampled L pos ops r pol l m -> phonons_about pos p -> ph_displacements p = map e_disp es ->
  resolved n (map e_cycles es) -> (2 <= n)%nat -> raw a ->
  0 < tr_timestep t -> sample_shape (List.length pos) (tr_ts t) ->
  Forall2 (displacement_from r) (tr_ts t) (map (excited (List.length pos) n L es) (seq 0 (S n))) ->
  phonons_raman_spectrum (as_model spl m) p = Ok sp ->
  exists xs smd w i, measure_phonon sp a = Ok (ph_wavenumbers p, map Some xs) /\ List.length xs = List.length es /\
    trajectory_raman_spectrum (as_model spl m) t = Ok smd /\ measure_md smd a = Ok (w, i) /\
    forall k, (0 < k)%nat -> (2 * k < n)%nat ->
      nth_error w (k - 1) = Some (INR k * (3335640951981521 / 10 ^ 11) / (INR n * tr_timestep t)) /\
      nth_error i (k - 1) = Some (Some (rsum (map2 (fun e x =>
        x * e_amp e ^ 2 * sin (PI * INR (e_cycles e) / INR n) ^ 2 * (INR n / 4 + if Nat.eqb (e_cycles e) k then INR n ^ 2 / 8 else 0)) es xs))).
Proof. exact f_C89_agree. Qed.
Print Assumptions C89_agrees_with_phonons.
Example C89_nonvacuous : exists r m, fully_sampled mI sw_pos sw_ops r mI ex_resp m /\ phonons_about sw_pos ex_phs /\
  ph_displacements ex_phs = map e_disp ex_excs /\ resolved 5 (map e_cycles ex_excs) /\
  0 < tr_timestep ex_traj /\ sample_shape (List.length sw_pos) (tr_ts ex_traj) /\
  Forall2 (displacement_from r) (tr_ts ex_traj) (map (excited (List.length sw_pos) 5 mI ex_excs) (seq 0 6)).
Proof. exact ex_C89. Qed.
