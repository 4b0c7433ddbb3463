(** Specification vocabulary for spectra: textbook formulas, Fourier sums, and the
    transformations (rotation, offset, reversal) that spectra are compared under. *)
From Coq Require Import String ZArith Reals Bool Arith List.
From Verif Require Import Base LinAlg M_Interp M_Spectrum M_Dynamics.
Import ListNotations.
Local Open Scope R_scope.

(** A measurement without corrections *)
Definition raw (a : margs) : Prop :=
  ma_orientation a = "polycrystalline"%string /\ ma_laser a = false /\ ma_bose a = false.

(** The 3x3 entry (i,j) *)
Definition entry (m : M3) (i j : nat) : R :=
  let row := match i with O => r0 m | S O => r1 m | _ => r2 m end in
  match j with O => vx row | S O => vy row | _ => vz row end.

(** Textbook invariants of a Raman tensor: mean polarizability and anisotropy. *)
Definition mean_polarizability (m : M3) : R := mtrace m / 3.
Definition anisotropy_squared (m : M3) : R :=
  1 / 2 * ((entry m 0 0 - entry m 1 1) ^ 2 + (entry m 1 1 - entry m 2 2) ^ 2 + (entry m 2 2 - entry m 0 0) ^ 2)
  + 3 * (entry m 0 1 ^ 2 + entry m 1 2 ^ 2 + entry m 0 2 ^ 2).
Definition textbook_intensity (m : M3) : R :=
  45 * mean_polarizability m ^ 2 + 7 * anisotropy_squared m.
(** Coordinate-free form of the anisotropy of a symmetric tensor *)
Definition anisotropy_invariant (m : M3) : R := (3 * mtrace (mmul m m) - mtrace m ^ 2) / 2.

(** Rotating a tensor *)
Definition rotated (q m : M3) : M3 := mmul (mmul q m) (mtrans q).

(** h c / k_B in cm K with the constants of the code (h in eV s, c in cm/s). *)
Definition second_radiation_constant : R := (29979245800 * (41357 / 10 ^ 19)) / (8617333262 / 10 ^ 14).
Definition bose_einstein (v T : R) : R := / (1 - exp (- (second_radiation_constant * v / T))).

(** Fourier sums of a real signal at angular frequency [th] per sample *)
Fixpoint sum_n (f : nat -> R) (n : nat) : R :=
  match n with O => 0 | S n' => sum_n f n' + f n' end.
Definition fourier_re (x : list R) (th : R) : R :=
  sum_n (fun j => nth j x 0 * cos (th * INR j)) (List.length x).
Definition fourier_im (x : list R) (th : R) : R :=
  sum_n (fun j => nth j x 0 * sin (th * INR j)) (List.length x).
Definition energy (x : list R) : R := sum_n (fun j => nth j x 0 ^ 2) (List.length x).

(** Adding a constant tensor to every prediction of a model *)
Definition offset_model (calc : pol_model) (c : M3) : pol_model :=
  fun b => rmap (map (fun m => madd m c)) (calc b).

(** Fractional displacement of all atoms by [t] times a phonon displacement *)
Definition displaced (ref disp : list V3) (t : R) : list V3 :=
  map2 vadd ref (map (vscale t) disp).

(** What the constructor of [Phonons] guarantees *)
Definition phonons_shape (p : phonons) : Prop :=
  List.length (ph_wavenumbers p) = List.length (ph_displacements p) /\
  Forall (fun d => List.length d = List.length (ph_ref p)) (ph_displacements p).

(** Multiply finite entries by a constant *)
Definition times (c : R) (l : list nfloat) : list nfloat := map (option_map (Rmult c)) l.

(** A call with one-dimensional arrays *)
Definition convolve (lines : list (R * R)) (function : string) (width : R) (grid : list R)
  : res (list R * list R) :=
  convolve_spectrum (vec_arr (map fst lines)) (vec_arr (map snd lines)) function width
    (Some (vec_arr grid)).

Definition supported (function : string) : Prop :=
  function = "gaussian"%string \/ function = "lorentzian"%string.

(** [f] integrates to [l] over the whole real axis (Riemann integral over [a,b] tends to
    [l] as a goes to minus and b to plus infinity). *)
Definition integrates_to (f : R -> R) (l : R) : Prop :=
  forall eps, 0 < eps -> exists M, forall a b, a < - M -> M < b ->
    exists pr : Riemann_integrable f a b, Rabs (RiemannInt pr - l) < eps.

(** [n] is [x] rounded to the nearest integer, ties to even *)
Definition nearest_even (x : R) (n : Z) : Prop :=
  Rabs (IZR n - x) <= 1 / 2 /\ (Rabs (IZR n - x) = 1 / 2 -> Z.even n = true).

(** Smallest and largest element *)
Definition is_min (l : list R) (x : R) : Prop := In x l /\ forall y, In y l -> x <= y.
Definition is_max (l : list R) (x : R) : Prop := In x l /\ forall y, In y l -> y <= x.

(** Python's slice rule on a sequence of length n: negative bounds count from the end and
    both bounds are clipped, to [0,n] for a positive step and to [-1,n-1] for a negative one. *)
Definition from_end (n i : Z) : Z := if (i <? 0)%Z then (i + n)%Z else i.
Definition slice_start (n : Z) (start : option Z) (step : Z) : Z :=
  match start with
  | Some i => if (0 <? step)%Z then Z.max 0 (Z.min n (from_end n i)) else Z.max (-1) (Z.min (n - 1) (from_end n i))
  | None => if (0 <? step)%Z then 0 else (n - 1)
  end%Z.
Definition slice_stop (n : Z) (stop : option Z) (step : Z) : Z :=
  match stop with
  | Some i => if (0 <? step)%Z then Z.max 0 (Z.min n (from_end n i)) else Z.max (-1) (Z.min (n - 1) (from_end n i))
  | None => if (0 <? step)%Z then n else -1
  end%Z.
Definition before (i stop step : Z) : Prop := if (0 <? step)%Z then (i < stop)%Z else (stop < i)%Z.

(** Python's clamping of a step-1 slice bound *)
Definition clamp (n : nat) (i : Z) : nat :=
  Z.to_nat (Z.max 0 (Z.min (Z.of_nat n) (if (i <? 0)%Z then i + Z.of_nat n else i)%Z)).
