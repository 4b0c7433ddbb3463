(** Model of ramannoodle/spectrum/_raman.py and ramannoodle/spectrum/utils.py over exact
    reals.

    Simplifications: arithmetic is exact; arrays hold finite floats on input; an output
    entry is [None] when the code produces a non-finite float (division by zero);
    [orientation] is a string; the timestep and the other scalar arguments are Python
    floats.  The TypeError re-wrapping of non-numeric arguments is not modelled. *)
From Coq Require Import String ZArith Reals Bool Arith List.
From Verif Require Import Base LinAlg M_Validate M_Interp.
Import ListNotations.
Local Open Scope R_scope.

(** NumPy float64 results: [None] is a non-finite value (inf or NaN). *)
Definition nfloat := option R.
Definition ndiv (x y : R) : nfloat := if Req_EM_T y 0 then None else Some (x / y).
Definition nmul (a b : nfloat) : nfloat :=
  match a, b with Some x, Some y => Some (x * y) | _, _ => None end.

(** constants.py:249 [BOLTZMANN_CONSTANT] *)
Definition BOLTZMANN_CONSTANT : R := 8617333262 / 10 ^ 14.

(** spectrum/_raman.py:13-40 [get_bose_einstein_correction] *)
Definition get_bose_einstein_correction (wavenumbers : list R) (temperature : R) : res (list nfloat) :=
  if Rleb temperature 0 then Err ValueError
  else Ok (map (fun w =>
         let energy := w * 29979245800 * (41357 / 10 ^ 19) in
         ndiv 1 (1 - exp (- energy / (BOLTZMANN_CONSTANT * temperature)))) wavenumbers).

(** spectrum/_raman.py:43-69 [get_laser_correction] *)
Definition get_laser_correction (wavenumbers : list R) (laser_wavenumber : R) : res (list nfloat) :=
  if Rleb laser_wavenumber 0 then Err ValueError
  else Ok (map (fun w => ndiv (((w - laser_wavenumber) / 10000) ^ 4) w) wavenumbers).

(** Arguments of [measure], spectrum/_raman.py:122-129 and 241-248 *)
Record margs := mkArgs {
  ma_orientation : string;
  ma_laser : bool;
  ma_wavelength : R;
  ma_bose : bool;
  ma_temperature : R }.

(** spectrum/_raman.py:184-192 and 303-307: the two optional corrections.  The Python
    division [10000000 / laser_wavelength] raises ZeroDivisionError at 0. *)
Definition apply_corrections (a : margs) (wavenumbers : list R) (intensities : list nfloat)
  : res (list nfloat) :=
  rbind (if ma_laser a then
           if Req_EM_T (ma_wavelength a) 0 then Err ZeroDivisionError
           else rmap (map2 nmul intensities)
                  (get_laser_correction wavenumbers (10000000 / ma_wavelength a))
         else Ok intensities) (fun i1 =>
  if ma_bose a then
    rmap (map2 nmul i1) (get_bose_einstein_correction wavenumbers (ma_temperature a))
  else Ok i1).

(** spectrum/_raman.py:72-97 [PhononRamanSpectrum] *)
Record phonon_spectrum := mkPS { ps_wavenumbers : list R; ps_tensors : list M3 }.

Definition new_phonon_spectrum (w t : rarr) : res phonon_spectrum :=
  rbind (verify_ndarray_shape (ra_shape w) [None]) (fun _ =>
  rbind (verify_ndarray_shape (ra_shape t) [Some (hd 0%nat (ra_shape w)); Some 3%nat; Some 3%nat]) (fun _ =>
  Ok (mkPS (ra_data w) (mats_of (ra_data t))))).

(** spectrum/_raman.py:163-182 for one tensor *)
Definition alpha_squared (m : M3) : R := ((vx (r0 m) + vy (r1 m) + vz (r2 m)) / 3) ^ 2.
Definition gamma_squared (m : M3) : R :=
  ((vx (r0 m) - vy (r1 m)) ^ 2 + (vx (r0 m) - vz (r2 m)) ^ 2 + (vy (r1 m) - vz (r2 m)) ^ 2
   + 6 * ((vy (r0 m)) ^ 2 + (vz (r0 m)) ^ 2 + (vz (r1 m)) ^ 2)) / 2.
Definition polycrystalline (m : M3) : R := 45 * alpha_squared m + 7 * gamma_squared m.

(** spectrum/_raman.py:122-194 [PhononRamanSpectrum.measure] *)
Definition measure_phonon (s : phonon_spectrum) (a : margs) : res (list R * list nfloat) :=
  if negb (String.eqb (ma_orientation a) "polycrystalline") then Err NotImplementedError
  else
    let intensities := map (fun m => Some (polycrystalline m)) (ps_tensors s) in
    rbind (apply_corrections a (ps_wavenumbers s) intensities) (fun i =>
    Ok (ps_wavenumbers s, i)).

(** spectrum/utils.py:90 [scipy.signal.correlate(signal, signal, "full")]: entry k is
    the sum over l of x[l] * y[l - k + n - 1], entries outside y being zero. *)
Definition at_z (y : list R) (i : Z) : R :=
  if (0 <=? i)%Z then nth (Z.to_nat i) y 0 else 0.
Definition correlate_full (x y : list R) : list R :=
  let n := List.length y in
  map (fun k => rsum (map (fun l => nth l x 0 * at_z y (Z.of_nat l - Z.of_nat k + Z.of_nat n - 1))
                          (seq 0 (List.length x))))
      (seq 0 (List.length x + List.length y - 1)).

(** spectrum/utils.py:76-92 [_calc_autocorrelation]; SciPy rejects empty signals. *)
Definition calc_autocorrelation (signal : list R) : res (list R) :=
  match signal with
  | [] => Err ValueError
  | _ =>
      let full := correlate_full signal signal in
      Ok (skipn ((List.length full - 1) / 2) full)
  end.

(** [scipy.fftpack.fftfreq(n, d)] (= numpy.fft.fftfreq): [1.0 / (n * d)] raises
    ZeroDivisionError when d is zero. *)
Definition fftfreq (n : nat) (d : R) : res (list R) :=
  if Req_EM_T (INR n * d) 0 then Err ZeroDivisionError
  else Ok (map (fun i => IZR i * (1 / (INR n * d)))
             (map Z.of_nat (seq 0 ((n - 1) / 2 + 1)) ++
              map (fun i => Z.of_nat i - Z.of_nat (n / 2))%Z (seq 0 (n / 2)))).

(** Real part of [scipy.fftpack.fft]: entry k is the sum of a_m cos(2 pi k m / n). *)
Definition fft_real (a : list R) : list R :=
  let n := List.length a in
  map (fun k => rsum (map (fun m => nth m a 0 * cos (2 * PI * INR k * INR m / INR n)) (seq 0 n)))
      (seq 0 n).

(** NumPy boolean-mask selection [xs[mask]] *)
Fixpoint select_mask {A} (mask : list bool) (xs : list A) : list A :=
  match mask, xs with
  | b :: mask', x :: xs' => if b then x :: select_mask mask' xs' else select_mask mask' xs'
  | _, _ => []
  end.

(** spectrum/utils.py:95-124 [calc_signal_spectrum] *)
Definition calc_signal_spectrum (signal : list R) (sampling_rate : R) : res (list R * list R) :=
  rbind (calc_autocorrelation signal) (fun autocorrelation =>
  rbind (fftfreq (List.length autocorrelation) sampling_rate) (fun freqs =>
  let wavenumbers := map (fun f => f * (3335640951981521 / 10 ^ 14) * 1000) freqs in
  let intensities := fft_real autocorrelation in
  let mask := map (Rleb 0) wavenumbers in
  Ok (select_mask mask wavenumbers, select_mask mask intensities))).

(** [np.diff(ts, axis=0)] *)
Fixpoint diff (l : list M3) : list M3 :=
  match l with
  | a :: tl => match tl with b :: _ => msub b a :: diff tl | [] => [] end
  | [] => []
  end.

(** spectrum/_raman.py:197-216 [MDRamanSpectrum] *)
Record md_spectrum := mkMD { md_ts : list M3; md_timestep : R }.

Definition new_md_spectrum (ts : rarr) (timestep : R) : res md_spectrum :=
  rbind (verify_ndarray_shape (ra_shape ts) [None; Some 3%nat; Some 3%nat]) (fun _ =>
  Ok (mkMD (mats_of (ra_data ts)) timestep)).

(** Second component of [calc_signal_spectrum] of a linear combination of the entries
    of the differentiated series, spectrum/_raman.py:284-296 *)
Definition spec1 (f : M3 -> R) (ad : list M3) (dt : R) : res (list R) :=
  rmap snd (calc_signal_spectrum (map f ad) dt).
Definition lscale (c : R) (l : list R) : list R := map (Rmult c) l.
Definition ladd (l m : list R) : list R := map2 Rplus l m.

(** spectrum/_raman.py:241-309 [MDRamanSpectrum.measure] *)
Definition measure_md (s : md_spectrum) (a : margs) : res (list R * list nfloat) :=
  if negb (String.eqb (ma_orientation a) "polycrystalline") then Err NotImplementedError
  else
    let ad := diff (md_ts s) in
    let dt := md_timestep s in
    rbind (calc_signal_spectrum (map (fun m => vx (r0 m)) ad) dt) (fun wi =>
    rbind (spec1 (fun m => vx (r0 m) + vy (r1 m) + vz (r2 m)) ad dt) (fun tr =>
    rbind (spec1 (fun m => vx (r0 m) - vy (r1 m)) ad dt) (fun xy =>
    rbind (spec1 (fun m => vy (r1 m) - vz (r2 m)) ad dt) (fun yz =>
    rbind (spec1 (fun m => vz (r2 m) - vx (r0 m)) ad dt) (fun zx =>
    rbind (spec1 (fun m => vy (r0 m)) ad dt) (fun o01 =>
    rbind (spec1 (fun m => vz (r1 m)) ad dt) (fun o12 =>
    rbind (spec1 (fun m => vz (r0 m)) ad dt) (fun o02 =>
    let alpha2 := lscale (1 / 9) tr in
    let gamma2 := ladd (ladd (ladd (ladd (ladd (lscale (1 / 2) xy) (lscale (1 / 2) yz))
                    (lscale (1 / 2) zx)) (lscale 3 o01)) (lscale 3 o12)) (lscale 3 o02) in
    let intensities := tl (ladd (lscale 45 alpha2) (lscale 7 gamma2)) in
    let wavenumbers := tl (fst wi) in
    rbind (apply_corrections a wavenumbers (map Some intensities)) (fun i =>
    Ok (wavenumbers, i)))))))))).

(** [np.rint]: round half to even, as an integer *)
Definition rint (x : R) : Z :=
  let f := Int_part x in
  let r := x - IZR f in
  if Rltb r (1 / 2) then f
  else if Rltb (1 / 2) r then (f + 1)%Z
  else if Z.even f then f else (f + 1)%Z.

(** [np.linspace(start, stop, num)] *)
Definition linspace (start stop : R) (num : nat) : list R :=
  map (fun i =>
         if Nat.eqb (S i) num && Nat.ltb 1 num then stop
         else INR i * ((stop - start) / INR (num - 1)) + start)
      (seq 0 num).

(** [np.min] / [np.max] over all entries; ValueError on an empty array *)
Definition np_min (l : list R) : res R :=
  match l with [] => Err ValueError | x :: l' => Ok (fold_left Rmin l' x) end.
Definition np_max (l : list R) : res R :=
  match l with [] => Err ValueError | x :: l' => Ok (fold_left Rmax l' x) end.

(** spectrum/utils.py:42-46: the automatic output grid *)
Definition auto_grid (wavenumbers : list R) : res rarr :=
  rbind (np_min wavenumbers) (fun mn =>
  rbind (np_max wavenumbers) (fun mx =>
  let lo := mn - 100 in
  let hi := mx + 100 in
  Ok (vec_arr (linspace lo hi (Z.to_nat (rint (hi - lo))))))).

(** spectrum/utils.py:60-71: the line shape at the output points *)
Definition line_factor (function : string) (width wavenumber : R) (out : list R) : res (list R) :=
  if String.eqb function "gaussian" then
    Ok (map (fun o => (1 / width) * (1 / sqrt (2 * PI))
                      * exp (- ((wavenumber - o) ^ 2) / (2 * width ^ 2))) out)
  else if String.eqb function "lorentzian" then
    Ok (map (fun o => (1 / PI) * (1 / 2 * width / ((wavenumber - o) ^ 2 + (1 / 2 * width) ^ 2))) out)
  else Err ValueError.

(** spectrum/utils.py:58-72: the accumulation loop *)
Fixpoint convolve_loop (function : string) (width : R) (out : list R)
    (lines : list (R * R)) (acc : list R) : res (list R) :=
  match lines with
  | [] => Ok acc
  | (w, i) :: lines' =>
      rbind (line_factor function width w out) (fun factor =>
      convolve_loop function width out lines' (ladd acc (map (fun f => f * i) factor)))
  end.

(** spectrum/utils.py:12-73 [convolve_spectrum] *)
Definition convolve_spectrum (wavenumbers intensities : rarr) (function : string) (width : R)
    (out_wavenumbers : option rarr) : res (list R * list R) :=
  rbind (match out_wavenumbers with
         | Some o => Ok o
         | None => auto_grid (ra_data wavenumbers)
         end) (fun out =>
  rbind (verify_ndarray_shape (ra_shape out) [None]) (fun _ =>
  rbind (verify_ndarray_shape (ra_shape wavenumbers) [None]) (fun _ =>
  rbind (verify_ndarray_shape (ra_shape intensities) [Some (hd 0%nat (ra_shape wavenumbers))]) (fun _ =>
  if Rleb width 0 then Err ValueError
  else
    let zeros := map (fun o => o * 0) (ra_data out) in
    rbind (convolve_loop function width (ra_data out)
             (combine (ra_data wavenumbers) (ra_data intensities)) zeros) (fun c =>
    Ok (ra_data out, c)))))).
