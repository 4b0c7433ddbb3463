(** IEEE double-precision model of the polycrystalline phonon intensities
    (spectrum/_raman.py:163-182).  The real-number model is in M_Spectrum; here every
    operation rounds to nearest, ties to even, as NumPy's do on float64 arrays.

    Simplified: tensors are float64 (the class accepts any dtype); one NaN. *)
From Coq Require Import ZArith Reals Bool List.
From Flocq Require Import Core.Core IEEE754.BinarySingleNaN.
From Verif Require Import M_Float.
Import ListNotations.

Definition fmul (a b : f64) : f64 := Bmult mode_NE a b.
Definition fdiv (a b : f64) : f64 := Bdiv mode_NE a b.
(** The literals 2.0, 3.0, 6.0, 7.0 and 45.0 *)
Definition f2 : f64 := @B754_finite 53 1024 false 4503599627370496 (-51) eq_refl.
Definition f3 : f64 := @B754_finite 53 1024 false 6755399441055744 (-51) eq_refl.
Definition f6 : f64 := @B754_finite 53 1024 false 6755399441055744 (-50) eq_refl.
Definition f7 : f64 := @B754_finite 53 1024 false 7881299347898368 (-50) eq_refl.
Definition f45 : f64 := @B754_finite 53 1024 false 6333186975989760 (-47) eq_refl.

(** NumPy computes [x ** 2] as [x * x] *)
Definition fsq (a : f64) : f64 := fmul a a.

(** One Raman tensor: its entry at row [i], column [j] *)
Definition tensor64 : Type := nat -> nat -> f64.

(** spectrum/_raman.py:163-170 [alpha_squared] for one tensor *)
Definition alpha_squared64 (t : tensor64) : f64 :=
  fsq (fdiv (fadd (fadd (t 0 0) (t 1 1)) (t 2 2)) f3)%nat.
(** spectrum/_raman.py:171-181 [gamma_squared] for one tensor *)
Definition gamma_squared64 (t : tensor64) : f64 :=
  fdiv (fadd
    (fadd (fadd (fsq (fsub (t 0 0) (t 1 1))) (fsq (fsub (t 0 0) (t 2 2)))) (fsq (fsub (t 1 1) (t 2 2))))
    (fmul f6 (fadd (fadd (fsq (t 0 1)) (fsq (t 0 2))) (fsq (t 1 2))))) f2 %nat.
(** spectrum/_raman.py:182 *)
Definition intensity64 (t : tensor64) : f64 :=
  fadd (fmul f45 (alpha_squared64 t)) (fmul f7 (gamma_squared64 t)).

(** spectrum/_raman.py:122-194 [PhononRamanSpectrum.measure] without corrections: the
    intensities *)
Definition raw_intensities64 (ts : list tensor64) : list f64 := map intensity64 ts.
