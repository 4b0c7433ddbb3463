(** Theorems about Raman spectra, phonons, trajectories and convolution:
    C31, C36-C45, C75. *)
From Coq Require Import String ZArith Reals Lra Lia Psatz Bool Arith List Permutation.
From Verif Require Import Base LinAlg M_Validate M_StructUtils M_Reference M_Interp M_Spectrum M_Dynamics
  S_Interp S_Spectrum P_Signal P_Spectrum P_Dynamics P_Dynamics2 P_Convolve P_Convolve2 P_Gauss2 P_Examples4.
Import ListNotations.
Local Open Scope R_scope.

(** C31: a constant tensor added to every prediction changes no spectrum; shifting the
    reference polarizability of an interpolation (hence also ART) model is such an offset. *)
Theorem C31_phonon_spectra_ignore_offsets : forall calc c p,
  phonons_raman_spectrum (offset_model calc c) p = phonons_raman_spectrum calc p.
Proof. exact f_C31_phonon. Qed.
Print Assumptions C31_phonon_spectra_ignore_offsets.

Theorem C31_md_spectra_ignore_offsets : forall calc c t a,
  rbind (trajectory_raman_spectrum (offset_model calc c) t) (fun s => measure_md s a)
  = rbind (trajectory_raman_spectrum calc t) (fun s => measure_md s a).
Proof. exact f_C31_md. Qed.
Print Assumptions C31_md_spectra_ignore_offsets.

Theorem C31_reference_polarizability_is_an_offset : forall spl s c b,
  calc_polarizabilities spl (mkIM (im_ref s) (madd (im_refpol s) c) (im_dummy s) (im_basis s) (im_interp s) (im_mask s)) b
  = rmap (map (fun m => madd m c)) (calc_polarizabilities spl s b).
Proof. exact f_C31_reference. Qed.
Print Assumptions C31_reference_polarizability_is_an_offset.

Example C31_nonvacuous : exists s, phonons_raman_spectrum (offset_model ex_calc mI) ex_phonons = Ok s /\ ps_tensors s <> [].
Proof. exact ex_offset. Qed.

(** C36: rotation invariance (for symmetric tensors, and not without symmetry). *)
Theorem C36_rotation_invariant : forall q s a,
  orthogonal q -> Forall symmetric3 (ps_tensors s) ->
  measure_phonon (mkPS (ps_wavenumbers s) (map (rotated q) (ps_tensors s))) a = measure_phonon s a.
Proof. exact f_C36. Qed.
Print Assumptions C36_rotation_invariant.

Theorem C36_needs_symmetric_tensors :
  exists q s a, orthogonal q /\
  measure_phonon (mkPS (ps_wavenumbers s) (map (rotated q) (ps_tensors s))) a <> measure_phonon s a.
Proof. exact ex_C36_asym. Qed.
Print Assumptions C36_needs_symmetric_tensors.

Example C36_nonvacuous : exists q s a w i, orthogonal q /\ q <> mI /\ Forall symmetric3 (ps_tensors s) /\
  measure_phonon s a = Ok (w, i) /\ map (rotated q) (ps_tensors s) <> ps_tensors s.
Proof. exact ex_C36. Qed.

(** C37: nonnegative quadratic forms, textbook invariants; orientations. *)
Theorem C37_raw_intensities : forall s a w i,
  raw a -> measure_phonon s a = Ok (w, i) ->
  w = ps_wavenumbers s /\
  Forall2 (fun t x => exists v, x = Some v /\ 0 <= v /\ v = textbook_intensity t /\
     (v = 0 <-> entry t 0 0 = 0 /\ entry t 1 1 = 0 /\ entry t 2 2 = 0 /\
                entry t 0 1 = 0 /\ entry t 0 2 = 0 /\ entry t 1 2 = 0) /\
     (symmetric3 t -> v = 45 * mean_polarizability t ^ 2 + 7 * anisotropy_invariant t))
    (ps_tensors s) i.
Proof. exact f_C37_raw. Qed.
Print Assumptions C37_raw_intensities.

Theorem C37_quadratic_scaling : forall c s a,
  measure_phonon (mkPS (ps_wavenumbers s) (map (mscale c) (ps_tensors s))) a
  = rmap (fun r => (fst r, times (c ^ 2) (snd r))) (measure_phonon s a).
Proof. exact f_C37_scale. Qed.
Print Assumptions C37_quadratic_scaling.

Theorem C37_orientation_phonon : forall s a,
  ma_orientation a <> "polycrystalline"%string ->
  measure_phonon s a = Err NotImplementedError.
Proof. exact f_C37_orientation. Qed.
Print Assumptions C37_orientation_phonon.

Theorem C37_orientation_md : forall s a,
  ma_orientation a <> "polycrystalline"%string ->
  measure_md s a = Err NotImplementedError.
Proof. exact f_C37_orientation_md. Qed.
Print Assumptions C37_orientation_md.

Example C37_nonvacuous : exists s a w i, raw a /\ measure_phonon s a = Ok (w, i) /\ i <> [].
Proof. exists (mkPS [100] [mI]), ex_raw, [100]. eexists. split; [exact ex_raw_ok|split; [reflexivity|discriminate]]. Qed.
Example C37_orientation_nonvacuous : ma_orientation (mkArgs "single" false 532 false 300) <> "polycrystalline"%string.
Proof. discriminate. Qed.

(** C38: Bose-Einstein factor. *)
Theorem C38_values : forall ws T,
  0 < T ->
  exists cs, get_bose_einstein_correction ws T = Ok cs /\
    Forall2 (fun v c =>
      (v <> 0 -> c = Some (bose_einstein v T)) /\
      (0 < v -> exists x, c = Some x /\ 1 < x) /\
      (v < 0 -> exists x, c = Some x /\ x < 0) /\
      (v = 0 -> c = None)) ws cs.
Proof. exact f_C38_values. Qed.
Print Assumptions C38_values.

Theorem C38_monotone : forall ws1 T1 cs1 ws2 T2 cs2 i j v1 v2 c1 c2,
  get_bose_einstein_correction ws1 T1 = Ok cs1 -> get_bose_einstein_correction ws2 T2 = Ok cs2 ->
  nth_error ws1 i = Some v1 -> nth_error cs1 i = Some c1 ->
  nth_error ws2 j = Some v2 -> nth_error cs2 j = Some c2 ->
  0 < v1 -> 0 < v2 ->
  (v1 = v2 /\ T2 < T1 \/ T1 = T2 /\ v1 < v2) ->
  exists x1 x2, c1 = Some x1 /\ c2 = Some x2 /\ x2 < x1.
Proof. exact f_C38_monotone. Qed.
Print Assumptions C38_monotone.

Theorem C38_invalid_temperature : forall ws T,
  get_bose_einstein_correction ws T = Err ValueError <-> T <= 0.
Proof. exact f_C38_invalid. Qed.
Print Assumptions C38_invalid_temperature.

Example C38_nonvacuous : exists c1 c2,
  get_bose_einstein_correction [100; 200] 300 = Ok [c1; c2] /\ (0 < 100 /\ 0 < 200 /\ 100 < 200).
Proof.
  destruct (f_C38_values [100; 200] 300 ltac:(lra)) as (cs & E & F).
  inversion F as [|? c ? ? K Q]; subst. inversion Q as [|? d ? ? K2 Q2]; subst. inversion Q2; subst.
  exists c, d. split; [exact E|lra].
Qed.

(** C39: laser factor; corrected intensities are raw intensities times the factors. *)
Theorem C39_values : forall ws vL,
  0 < vL ->
  exists cs, get_laser_correction ws vL = Ok cs /\
    Forall2 (fun v c =>
      (v = 0 -> c = None) /\
      (v <> 0 -> exists x, c = Some x /\ x = ((v - vL) / 10 ^ 4) ^ 4 / v /\
         (v <> vL -> (0 <= x <-> 0 < v)) /\ (x = 0 <-> v = vL))) ws cs.
Proof. exact f_C39_values. Qed.
Print Assumptions C39_values.

Theorem C39_decreasing : forall ws vL cs i j v w c d,
  get_laser_correction ws vL = Ok cs ->
  nth_error ws i = Some v -> nth_error cs i = Some c ->
  nth_error ws j = Some w -> nth_error cs j = Some d ->
  0 < v -> v < w -> w <= vL ->
  exists x y, c = Some x /\ d = Some y /\ y < x.
Proof. exact f_C39_decreasing. Qed.
Print Assumptions C39_decreasing.

Theorem C39_invalid_wavenumber : forall ws vL,
  get_laser_correction ws vL = Err ValueError <-> vL <= 0.
Proof. exact f_C39_invalid. Qed.
Print Assumptions C39_invalid_wavenumber.

Theorem C39_invalid_wavelength : forall a w i,
  ma_laser a = true ->
  (ma_wavelength a = 0 -> apply_corrections a w i = Err ZeroDivisionError) /\
  (ma_wavelength a < 0 -> apply_corrections a w i = Err ValueError).
Proof. exact corrections_wavelength. Qed.
Print Assumptions C39_invalid_wavelength.

Theorem C39_corrected_intensities : forall s a,
  ma_orientation a = "polycrystalline"%string ->
  List.length (ps_tensors s) = List.length (ps_wavenumbers s) ->
  (ma_laser a = true -> 0 < ma_wavelength a) -> (ma_bose a = true -> 0 < ma_temperature a) ->
  exists i, measure_phonon s a = Ok (ps_wavenumbers s, i) /\ List.length i = List.length (ps_wavenumbers s) /\
  forall k t v, nth_error (ps_tensors s) k = Some t -> nth_error (ps_wavenumbers s) k = Some v -> v <> 0 ->
    nth_error i k = Some (Some (textbook_intensity t
       * (if ma_laser a then ((v - 10 ^ 7 / ma_wavelength a) / 10 ^ 4) ^ 4 / v else 1)
       * (if ma_bose a then bose_einstein v (ma_temperature a) else 1))).
Proof. exact f_C39_measure. Qed.
Print Assumptions C39_corrected_intensities.

Example C39_nonvacuous : exists c1 c2, get_laser_correction [100; 200] 18797 = Ok [c1; c2] /\ 0 < 100 /\ 100 < 200 /\ 200 <= 18797.
Proof.
  destruct (f_C39_values [100; 200] 18797 ltac:(lra)) as (cs & E & F).
  inversion F as [|? c ? ? K Q]; subst. inversion Q as [|? d ? ? K2 Q2]; subst. inversion Q2; subst.
  exists c, d. split; [exact E|lra].
Qed.
Example C39_corrected_nonvacuous : exists i,
  measure_phonon (mkPS [100] [mI]) (mkArgs "polycrystalline" true 532 true 300) = Ok ([100], [Some i]).
Proof.
  destruct (f_C39_measure (mkPS [100] [mI]) (mkArgs "polycrystalline" true 532 true 300) eq_refl eq_refl) as (i & E & L & H).
  - intros _. simpl. lra.
  - intros _. simpl. lra.
  - specialize (H 0%nat mI 100 eq_refl eq_refl ltac:(lra)). destruct i as [|x [|y i]]; try discriminate.
    simpl nth_error in H. injection H as ->. eexists. exact E.
Qed.

(** C40: phonon Raman tensors are twice the directional derivative (the central difference
    is divided by the step, not by twice the step). *)
Theorem C40_twice_the_derivative : forall calc p (tangent : list M3),
  phonons_shape p -> ph_displacements p <> [] ->
  Forall2 (fun d B => exists A even,
      (forall t, even (- t) = even t) /\
      (forall t, Rabs t <= 1 / 1000 ->
         calc [displaced (ph_ref p) d t] = Ok [madd (madd A (mscale t B)) (even t)]))
    (ph_displacements p) tangent ->
  phonons_raman_spectrum calc p = Ok (mkPS (ph_wavenumbers p) (map (mscale 2) tangent)).
Proof. exact f_C40_derivative. Qed.
Print Assumptions C40_twice_the_derivative.

Theorem C40_odd_in_displacement : forall calc p s,
  phonons_raman_spectrum calc p = Ok s ->
  phonons_raman_spectrum calc (mkPh (ph_ref p) (ph_wavenumbers p) (map (map (vscale (-1))) (ph_displacements p)))
  = Ok (mkPS (ps_wavenumbers s) (map (mscale (-1)) (ps_tensors s))).
Proof. exact f_C40_odd. Qed.
Print Assumptions C40_odd_in_displacement.

Theorem C40_one_per_phonon : forall calc p s,
  phonons_raman_spectrum calc p = Ok s ->
  ps_wavenumbers s = ph_wavenumbers p /\
  List.length (ps_tensors s) = List.length (ph_displacements p) /\
  forall i w d, nth_error (ph_wavenumbers p) i = Some w -> nth_error (ph_displacements p) i = Some d ->
    exists t, nth_error (ps_tensors s) i = Some t /\
      phonons_raman_spectrum calc (mkPh (ph_ref p) [w] [d]) = Ok (mkPS [w] [t]).
Proof. exact f_C40_one_per_phonon. Qed.
Print Assumptions C40_one_per_phonon.

Theorem C40_errors : forall calc p,
  (ph_displacements p = [] -> phonons_raman_spectrum calc p = Err ValueError) /\
  (forall d rest e, ph_displacements p = d :: rest ->
     (forall q, calc [q] = Err e) -> is_value_error e = true -> phonons_raman_spectrum calc p = Err ValueError).
Proof. exact f_C40_errors. Qed.
Print Assumptions C40_errors.

Theorem C40_constructor_gives_matching_shapes : forall ref wav disp p,
  rarr_wf ref -> rarr_wf wav -> rarr_wf disp ->
  new_phonons ref wav disp = Ok p -> phonons_shape p.
Proof. exact f_phonons_shape. Qed.
Print Assumptions C40_constructor_gives_matching_shapes.

Example C40_nonvacuous : phonons_shape ex_phonons /\ ph_displacements ex_phonons <> [] /\
  Forall2 (fun d B => exists A even,
      (forall t, even (- t) = even t) /\
      (forall t, Rabs t <= 1 / 1000 ->
         ex_calc [displaced (ph_ref ex_phonons) d t] = Ok [madd (madd A (mscale t B)) (even t)]))
    (ph_displacements ex_phonons) [mI] /\
  exists s, phonons_raman_spectrum ex_calc ex_phonons = Ok s.
Proof. exact ex_C40. Qed.

(** C41: the MD wavenumber grid, and that it is not the documented ceil(S/2) entries. *)
Theorem C41_grid : forall ts dt a w i,
  (3 <= List.length ts)%nat -> 0 < dt -> measure_md (mkMD ts dt) a = Ok (w, i) ->
  let S := List.length ts in
  w = map (fun k => INR k * (3335640951981521 / 10 ^ 11) / (INR (S - 1) * dt)) (seq 1 ((S - 1 + 1) / 2 - 1)) /\
  List.length i = List.length w.
Proof. exact f_C41. Qed.
Print Assumptions C41_grid.

Theorem C41_grid_positive_increasing_documented_length_refuted : forall ts dt a w i,
  (3 <= List.length ts)%nat -> 0 < dt -> measure_md (mkMD ts dt) a = Ok (w, i) ->
  Forall (fun v => 0 < v) w /\
  (forall j k x y, nth_error w j = Some x -> nth_error w k = Some y -> (j < k)%nat -> x < y) /\
  List.length w = (List.length ts / 2 - 1)%nat /\
  List.length w <> ((List.length ts + 1) / 2)%nat.
Proof. exact f_C41_grid. Qed.
Print Assumptions C41_grid_positive_increasing_documented_length_refuted.

Theorem C41_raw_measurement_succeeds : forall ts dt a,
  (3 <= List.length ts)%nat -> 0 < dt -> raw a ->
  exists w i, measure_md (mkMD ts dt) a = Ok (w, map Some i) /\ Forall (fun x => 0 <= x) i.
Proof. exact f_C41_ok. Qed.
Print Assumptions C41_raw_measurement_succeeds.

Example C41_nonvacuous : (3 <= List.length ex_series)%nat /\ 0 < 1 /\ raw ex_raw.
Proof. split; [simpl; lia|split; [lra|exact ex_raw_ok]]. Qed.

(** C42: raw MD intensities are nonnegative; the closed form of a signal's spectrum. *)
Theorem C42_signal_spectrum_nonnegative : forall x dt w i,
  calc_signal_spectrum x dt = Ok (w, i) -> Forall (fun v => 0 <= v) i.
Proof. exact f_C42_signal. Qed.
Print Assumptions C42_signal_spectrum_nonnegative.

Theorem C42_signal_spectrum_formula : forall x dt,
  x <> [] -> 0 < dt ->
  let n := List.length x in
  calc_signal_spectrum x dt =
    Ok (map (fun k => INR k * (3335640951981521 / 10 ^ 11) / (INR n * dt)) (seq 0 ((n + 1) / 2)),
        map (fun k => let th := 2 * PI * INR k / INR n in
                      (energy x + fourier_re x th ^ 2 + fourier_im x th ^ 2) / 2) (seq 0 ((n + 1) / 2))).
Proof. exact f_C42_power. Qed.
Print Assumptions C42_signal_spectrum_formula.

Theorem C42_md_intensities_nonnegative : forall s a w i,
  raw a -> measure_md s a = Ok (w, i) ->
  Forall (fun x => exists v, x = Some v /\ 0 <= v) i.
Proof. exact f_C42_md. Qed.
Print Assumptions C42_md_intensities_nonnegative.

Example C42_nonvacuous : exists w i, calc_signal_spectrum [1; -2; 3] 1 = Ok (w, i) /\ List.length i = 2%nat.
Proof.
  pose proof (f_C42_power [1; -2; 3] 1 ltac:(discriminate) ltac:(lra)) as H. cbv zeta in H.
  do 2 eexists. split; [exact H|reflexivity].
Qed.
Example C42_md_nonvacuous : exists w i, measure_md (mkMD ex_series 1) ex_raw = Ok (w, i) /\ w <> [].
Proof. exact ex_md. Qed.

(** C43: symmetry laws of MD spectra. *)
Theorem C43_rotation : forall q ts dt a,
  orthogonal q -> Forall symmetric3 ts ->
  measure_md (mkMD (map (rotated q) ts) dt) a = measure_md (mkMD ts dt) a.
Proof. exact f_C43_rotation. Qed.
Print Assumptions C43_rotation.

Theorem C43_offset : forall c ts dt a,
  measure_md (mkMD (map (fun m => madd m c) ts) dt) a = measure_md (mkMD ts dt) a.
Proof. exact f_C43_offset. Qed.
Print Assumptions C43_offset.

Theorem C43_reversal : forall ts dt a,
  measure_md (mkMD (rev ts) dt) a = measure_md (mkMD ts dt) a.
Proof. exact f_C43_reversal. Qed.
Print Assumptions C43_reversal.

Theorem C43_scale : forall c ts dt a,
  measure_md (mkMD (map (mscale c) ts) dt) a
  = rmap (fun r => (fst r, times (c ^ 2) (snd r))) (measure_md (mkMD ts dt) a).
Proof. exact f_C43_scale. Qed.
Print Assumptions C43_scale.

Example C43_nonvacuous : orthogonal ex_q /\ Forall symmetric3 ex_series /\ map (rotated ex_q) ex_series <> ex_series /\
  rev ex_series <> ex_series.
Proof. exact ex_C43. Qed.

(** C44: convolution is a positive linear smoothing with unit-area lines. *)
Theorem C44_pointwise_profile : forall f width lines,
  supported f -> 0 < width ->
  exists g, forall grid, convolve lines f width grid = Ok (grid, map g grid).
Proof. exact f_C44_profile. Qed.
Print Assumptions C44_pointwise_profile.

Theorem C44_linear_in_intensities : forall f width w i j c d grid,
  supported f -> 0 < width ->
  List.length i = List.length w -> List.length j = List.length w ->
  exists gi gj,
    convolve (combine w i) f width grid = Ok (grid, gi) /\
    convolve (combine w j) f width grid = Ok (grid, gj) /\
    convolve (combine w (map2 Rplus (map (Rmult c) i) (map (Rmult d) j))) f width grid
      = Ok (grid, map2 Rplus (map (Rmult c) gi) (map (Rmult d) gj)).
Proof. exact f_C44_linear. Qed.
Print Assumptions C44_linear_in_intensities.

Theorem C44_additive_in_lines : forall f width l m grid,
  supported f -> 0 < width ->
  exists gl gm, convolve l f width grid = Ok (grid, gl) /\ convolve m f width grid = Ok (grid, gm) /\
    convolve (l ++ m) f width grid = Ok (grid, map2 Rplus gl gm).
Proof. exact f_C44_additive. Qed.
Print Assumptions C44_additive_in_lines.

Theorem C44_order_of_lines_irrelevant : forall f width l m grid,
  Permutation l m -> convolve l f width grid = convolve m f width grid.
Proof. exact f_C44_order. Qed.
Print Assumptions C44_order_of_lines_irrelevant.

Theorem C44_nonnegative : forall f width lines grid out,
  0 < width ->
  Forall (fun l => 0 <= snd l) lines -> convolve lines f width grid = Ok (grid, out) -> Forall (fun x => 0 <= x) out.
Proof. exact f_C44_nonneg. Qed.
Print Assumptions C44_nonnegative.

Theorem C44_line_shape : forall f width w i,
  supported f -> 0 < width ->
  exists g, (forall grid, convolve [(w, i)] f width grid = Ok (grid, map g grid)) /\
    (forall x, g (w + x) = g (w - x)) /\
    (0 < i -> forall o, o <> w -> 0 < g o < g w) /\
    (f = "lorentzian"%string -> g (w + width / 2) = g w / 2 /\ g (w - width / 2) = g w / 2) /\
    (f = "gaussian"%string -> g (w + width) = g w * exp (- (1 / 2)) /\ g (w - width) = g w * exp (- (1 / 2))).
Proof. exact f_C44_line. Qed.
Print Assumptions C44_line_shape.

Theorem C44_lorentzian_area : forall lines width,
  0 < width ->
  exists g, (forall grid, convolve lines "lorentzian" width grid = Ok (grid, map g grid)) /\
    integrates_to g (rsum (map snd lines)).
Proof. exact f_C44_area. Qed.
Print Assumptions C44_lorentzian_area.

Theorem C44_gaussian_area : forall lines width,
  0 < width ->
  exists g, (forall grid, convolve lines "gaussian" width grid = Ok (grid, map g grid)) /\
    integrates_to g (rsum (map snd lines)).
Proof. exact f_C44_gaussian_area. Qed.
Print Assumptions C44_gaussian_area.

(** The width is the half width at half maximum of a Gaussian line divided by sqrt(2 ln 2) *)
Theorem C44_gaussian_half_maximum : forall width w i,
  0 < width ->
  exists g, (forall grid, convolve [(w, i)] "gaussian" width grid = Ok (grid, map g grid)) /\
    g (w + sqrt (2 * ln 2) * width) = g w / 2 /\ g (w - sqrt (2 * ln 2) * width) = g w / 2.
Proof. exact f_C44_gaussian_half. Qed.
Print Assumptions C44_gaussian_half_maximum.

Example C44_nonvacuous : supported "lorentzian" /\ supported "gaussian" /\ 0 < 5 /\
  exists out, convolve [(100, 2); (200, 3)] "lorentzian" 5 [90; 100; 110] = Ok ([90; 100; 110], out).
Proof.
  split; [right; reflexivity|split; [left; reflexivity|split; [lra|]]].
  destruct (f_C44_profile "lorentzian" 5 [(100, 2); (200, 3)] (or_intror eq_refl) ltac:(lra)) as (g & H). eexists. apply H.
Qed.

(** C45: argument validation and the automatic grid. *)
Theorem C45_explicit_grid_validation : forall w i f width out,
  rarr_wf w -> rarr_wf i -> rarr_wf out ->
  ((exists m l, ra_shape w = [m] /\ ra_shape i = [m] /\ ra_shape out = [l] /\ 0 < width /\ (m = 0%nat \/ supported f)) ->
     exists c, convolve_spectrum w i f width (Some out) = Ok (ra_data out, c) /\ List.length c = List.length (ra_data out)) /\
  (~ (exists m l, ra_shape w = [m] /\ ra_shape i = [m] /\ ra_shape out = [l] /\ 0 < width /\ (m = 0%nat \/ supported f)) ->
     convolve_spectrum w i f width (Some out) = Err ValueError).
Proof. exact f_C45_explicit. Qed.
Print Assumptions C45_explicit_grid_validation.

Theorem C45_automatic_grid : forall w i f width mn mx,
  is_min (ra_data w) mn -> is_max (ra_data w) mx ->
  exists grid num,
    convolve_spectrum w i f width None = convolve_spectrum w i f width (Some (vec_arr grid)) /\
    nearest_even (mx - mn + 200) num /\ Z.of_nat (List.length grid) = num /\ (200 <= num)%Z /\
    nth_error grid 0 = Some (mn - 100) /\ nth_error grid (List.length grid - 1) = Some (mx + 100) /\
    forall k, (k < List.length grid)%nat ->
      nth_error grid k = Some (mn - 100 + INR k * ((mx - mn + 200) / (IZR num - 1))).
Proof. exact f_C45_grid. Qed.
Print Assumptions C45_automatic_grid.

Theorem C45_empty_spectrum_automatic_grid : forall w i f width,
  ra_data w = [] -> convolve_spectrum w i f width None = Err ValueError.
Proof. exact f_C45_empty. Qed.
Print Assumptions C45_empty_spectrum_automatic_grid.

Example C45_valid_nonvacuous : exists m l, ra_shape (vec_arr [100; 200]) = [m] /\ ra_shape (vec_arr [1; 2]) = [m] /\
  ra_shape (vec_arr [50]) = [l] /\ 0 < 5 /\ (m = 0%nat \/ supported "gaussian").
Proof. exists 2%nat, 1%nat. repeat split; [lra|right; left; reflexivity]. Qed.
Example C45_invalid_nonvacuous : convolve_spectrum (vec_arr [100]) (vec_arr [1]) "boxcar" 5 (Some (vec_arr [50])) = Err ValueError /\
  convolve_spectrum (vec_arr []) (vec_arr []) "boxcar" 5 (Some (vec_arr [50])) = Ok ([50], [50 * 0]).
Proof. exact ex_C45. Qed.
Example C45_grid_nonvacuous : is_min [100; 200] 100 /\ is_max [100; 200] 200.
Proof.
  split; split; try (intros y [<-|[<-|[]]]; lra); [left; reflexivity|right; left; reflexivity].
Qed.

(** C75: trajectories are sequences of wrapped frames. *)
Theorem C75_constructor : forall ts dt t,
  rarr_wf ts -> new_trajectory ts dt = Ok t ->
  0 < dt /\ tr_timestep t = dt /\
  exists s n frames, ra_shape ts = [s; n; 3%nat] /\ List.length frames = s /\
    Forall (fun f => List.length f = n) frames /\
    ra_data ts = flat_map (flat_map (fun v => [vx v; vy v; vz v])) frames /\
    tr_ts t = map apply_pbc frames.
Proof. exact f_C75_new. Qed.
Print Assumptions C75_constructor.

Theorem C75_constructor_rejects : forall ts dt,
  dt <= 0 \/ List.length (ra_shape ts) <> 3%nat \/ nth 2 (ra_shape ts) 0%nat <> 3%nat ->
  new_trajectory ts dt = Err ValueError.
Proof. exact f_C75_reject. Qed.
Print Assumptions C75_constructor_rejects.

Theorem C75_len_and_indexing : forall t i,
  trajectory_len t = List.length (tr_ts t) /\
  (forall f, trajectory_get t i = Ok f <->
     (0 <= i < Z.of_nat (trajectory_len t) /\ nth_error (tr_ts t) (Z.to_nat i) = Some f \/
      - Z.of_nat (trajectory_len t) <= i < 0 /\ nth_error (tr_ts t) (Z.to_nat (i + Z.of_nat (trajectory_len t))) = Some f)%Z) /\
  (trajectory_get t i = Err IndexError <-> (i < - Z.of_nat (trajectory_len t) \/ Z.of_nat (trajectory_len t) <= i)%Z).
Proof. exact f_C75_get. Qed.
Print Assumptions C75_len_and_indexing.

Theorem C75_step_one_slices : forall t start stop step,
  step = None \/ step = Some 1%Z ->
  let a := match start with None => 0%nat | Some i => clamp (trajectory_len t) i end in
  let b := match stop with None => trajectory_len t | Some i => clamp (trajectory_len t) i end in
  trajectory_slice t start stop step = Ok (firstn (b - a) (skipn a (tr_ts t))).
Proof. exact f_C75_slice1. Qed.
Print Assumptions C75_step_one_slices.

Theorem C75_all_slices : forall t start stop step,
  step <> 0%Z ->
  let n := Z.of_nat (List.length (tr_ts t)) in
  let a := slice_start n start step in let b := slice_stop n stop step in
  exists l, trajectory_slice t start stop (Some step) = Ok l /\
   forall k, 
     (before (a + Z.of_nat k * step) b step ->
        (0 <= a + Z.of_nat k * step < n)%Z /\
        nth_error l k = nth_error (tr_ts t) (Z.to_nat (a + Z.of_nat k * step))) /\
     (~ before (a + Z.of_nat k * step) b step -> nth_error l k = None).
Proof. exact f_C75_slice_full. Qed.
Print Assumptions C75_all_slices.

Theorem C75_reversed : forall t,
  trajectory_slice t None None (Some (-1)%Z) = Ok (rev (tr_ts t)).
Proof. exact f_C75_reversed. Qed.
Print Assumptions C75_reversed.

Theorem C75_zero_step : forall t start stop,
  trajectory_slice t start stop (Some 0%Z) = Err ValueError.
Proof. exact f_C75_zero_step. Qed.
Print Assumptions C75_zero_step.

Example C75_nonvacuous : exists t f, new_trajectory (mkRarr [2%nat; 1%nat; 3%nat] [0; 0; 0; 3 / 2; 0; 0]) 1 = Ok t /\
  trajectory_len t = 2%nat /\ trajectory_get t (-1)%Z = Ok f /\ f = [mkV (1 / 2) 0 0].
Proof. exact ex_C75. Qed.
Example C75_slice_nonvacuous : (before (slice_start 5 (Some (-2)) (-1) + 1 * (-1)) (slice_stop 5 None (-1)) (-1))%Z.
Proof. vm_compute. reflexivity. Qed.
