(** IEEE double-precision model of ramannoodle/structure/utils.py (one coordinate; the code
    applies the same operations to every entry of an array) and of the decimal conversions
    used by the structure files.

    Doubles are Flocq's [binary_float 53 1024] (one NaN; signed zeros and infinities).
    NumPy's [x // 1] and [x % 1] on float64 arrays are those of its C function npy_divmod
    with divisor 1.0; arithmetic rounds to nearest, ties to even. *)
From Coq Require Import String ZArith NArith Reals Bool List.
From Flocq Require Import Core.Core IEEE754.BinarySingleNaN.
From Verif Require Import Base LinAlg M_Spectrum M_Text.
Import ListNotations.

Global Instance prec64 : Prec_gt_0 53 := eq_refl.
Global Instance emax64 : Prec_lt_emax 53 1024 := eq_refl.
Definition f64 : Type := binary_float 53 1024.

Definition fzero (s : bool) : f64 := B754_zero s.
Definition fone : f64 := @B754_finite 53 1024 false 4503599627370496 (-52) eq_refl.
Definition fhalf : f64 := @B754_finite 53 1024 false 4503599627370496 (-53) eq_refl.

Definition fadd (a b : f64) : f64 := Bplus mode_NE a b.
Definition fsub (a b : f64) : f64 := Bminus mode_NE a b.
(** C's trunc and floor *)
Definition ftrunc (a : f64) : f64 := Bnearbyint mode_ZR a.
Definition ffloor (a : f64) : f64 := Bnearbyint mode_DN a.
(** C's [fmod(a, 1.0)]: the exact value of [a - trunc(a)]; NaN for infinities.  (The sign
    of a zero result is not followed: npy_divmod replaces it.) *)
Definition fmod1 (a : f64) : f64 := fsub a (ftrunc a).

(** npy_divmod(a, 1.0): quotient and remainder *)
Definition divmod1 (a : f64) : f64 * f64 :=
  let m := fmod1 a in
  let d := fsub a m in
  let '(m, d) :=
    if Beqb m (fzero false) then (fzero false, d)
    else if Bltb m (fzero false) then (fadd m fone, fsub d fone)
    else (m, d) in
  let q :=
    if Beqb d (fzero false) then fzero (Bsign a)
    else let fl := ffloor d in
         if Bltb fhalf (fsub d fl) then fadd fl fone else fl in
  (q, m).
Definition floordiv1 (a : f64) : f64 := fst (divmod1 a).
Definition remainder1 (a : f64) : f64 := snd (divmod1 a).

(** structure/utils.py:13-29 [apply_pbc]: [positions - positions // 1] *)
Definition apply_pbc64 (x : f64) : f64 := fsub x (floordiv1 x).

(** structure/utils.py:32-48 [apply_pbc_displacement]:
    [np.where(d % 1 > 0.5, d % 1 - 1, d % 1)] *)
Definition apply_pbc_displacement64 (d : f64) : f64 :=
  if Bltb fhalf (remainder1 d) then fsub (remainder1 d) fone else remainder1 d.

(** structure/utils.py:51-72 [displace_positions] *)
Definition displace_positions64 (p d : f64) : f64 :=
  apply_pbc64 (fadd (apply_pbc64 p) (apply_pbc_displacement64 d)).

(** structure/utils.py:110-135 [calc_displacement] *)
Definition calc_displacement64 (p1 p2 : f64) : f64 :=
  apply_pbc_displacement64 (fsub (apply_pbc64 p2) (apply_pbc64 p1)).

(** exceptions.py:126-134 [verify_positions] and io/_utils.py: the range check,
    [(0 > array).any() or (array > 1.0).any()] *)
Definition range_error64 (a : list f64) : bool :=
  existsb (fun x => Bltb x (fzero false)) a || existsb (fun x => Bltb fone x) a.

(** ** Decimal conversions *)
(** A double as a Python float of M_Text (which does not tell zeros apart) *)
Definition val (x : f64) : num :=
  match x with
  | B754_infinity s => Inf s
  | B754_nan => NaN
  | _ => Fin (B2R x)
  end.

(** Python's decimal-to-float conversion: nearest double, ties to even; values beyond the
    largest double become infinite *)
Definition fl64 (r : R) : num :=
  let y := round radix2 (FLT_exp (-1074) 53) ZnearestE r in
  if Rlt_bool (Rabs y) (bpow radix2 1024) then Fin y else Inf (Rltb r 0).

(** io/vasp/poscar.py:222-235, io/vasp/xdatcar.py: [f"{x:9.16f}"] of a double, with the sign of zeros *)
Definition fmt64 (x : f64) : text :=
  match x with
  | B754_infinity s => pad_left 9 ((if s then [45%N] else []) ++ txt "inf"%string)
  | B754_nan => pad_left 9 (txt "nan"%string)
  | _ => pad_left 9 ((if Bsign x then [45%N] else []) ++ fmt_body (Fin (Rabs (B2R x))))
  end.

(** [float(s)] is the double [y] *)
Definition reads_as (s : text) (y : f64) : Prop :=
  float_of fl64 s = Some (val y) /\
  (B2R y = 0%R -> is_finite y = true -> Bsign y = fst (sign (strip s))).
