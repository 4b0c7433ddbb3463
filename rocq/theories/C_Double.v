(** Theorems about phonon intensities in double precision: C36, C37. *)
From Coq Require Import ZArith Reals Bool List.
From Verif Require Import Base LinAlg M_Spectrum M_Float M_Double S_Float S_Spectrum S_Double P_Double3.
Import ListNotations.
Local Open Scope R_scope.

(** C37: an intensity computed from finite entries is never negative and never NaN; only
    overflow makes it infinite. *)
Theorem C37_doubles_nonnegative : forall ts,
  Forall2 (fun t x => finite_tensor t -> x = plus_infinity \/ (finite x /\ 0 <= value x))
    ts (raw_intensities64 ts).
Proof. exact f_C37_d_sign. Qed.
Print Assumptions C37_doubles_nonnegative.

(** C37: away from overflow and underflow, its relative error is at most 2^-45. *)
Theorem C37_doubles_accurate : forall ts,
  Forall2 (fun t x => finite_tensor t -> sized (/ 2 ^ 450) (2 ^ 500) t ->
    finite x /\ 0 < value x /\
    Rabs (value x - textbook_intensity (real_tensor t)) <= / 2 ^ 45 * textbook_intensity (real_tensor t))
    ts (raw_intensities64 ts).
Proof. exact f_C37_d_accuracy. Qed.
Print Assumptions C37_doubles_accurate.

(** C37: a NaN in the upper triangle is never hidden, and it stays in its own mode. *)
Theorem C37_doubles_nan : forall ts,
  Forall2 (fun t x => (exists i j, (i <= j < 3)%nat /\ t i j = not_a_number) -> x = not_a_number)
    ts (raw_intensities64 ts).
Proof. exact f_C37_d_nan. Qed.
Print Assumptions C37_doubles_nan.

(** C37: a zero upper triangle gives a zero intensity; the converse fails for tiny tensors,
    and huge tensors overflow. *)
Theorem C37_doubles_zero : forall ts,
  Forall2 (fun t x => finite_tensor t -> (forall i j, (i <= j < 3)%nat -> value (t i j) = 0) ->
    finite x /\ value x = 0) ts (raw_intensities64 ts).
Proof. exact f_C37_d_zero. Qed.
Print Assumptions C37_doubles_zero.

Theorem C37_doubles_vanish_refuted : ~ (forall t, finite_tensor t -> value (intensity64 t) = 0 ->
  forall i j, (i <= j < 3)%nat -> value (t i j) = 0).
Proof. exact f_C37_d_vanish. Qed.
Print Assumptions C37_doubles_vanish_refuted.

Theorem C37_doubles_overflow_refuted : ~ (forall t, finite_tensor t -> finite (intensity64 t)).
Proof. exact f_C37_d_overflow. Qed.
Print Assumptions C37_doubles_overflow_refuted.

(** C36: tensors that are exact rotations of one another have the same intensity up to
    rounding. *)
Theorem C36_doubles : forall t t' q, finite_tensor t -> finite_tensor t' ->
  sized (/ 2 ^ 450) (2 ^ 500) t -> sized (/ 2 ^ 450) (2 ^ 500) t' ->
  orthogonal q -> symmetric3 (real_tensor t) -> real_tensor t' = rotated q (real_tensor t) ->
  Rabs (value (intensity64 t') - value (intensity64 t)) <= / 2 ^ 43 * value (intensity64 t).
Proof. exact f_C36_double. Qed.
Print Assumptions C36_doubles.

Example C37_doubles_nonvacuous : finite_tensor ex_t64 /\ finite_tensor ex_t64'.
Proof. exact ex64_finite. Qed.
Example C37_doubles_sized_nonvacuous : sized (/ 2 ^ 450) (2 ^ 500) ex_t64 /\ sized (/ 2 ^ 450) (2 ^ 500) ex_t64'.
Proof. exact ex64_sized. Qed.
Example C36_doubles_nonvacuous : orthogonal swap_axes /\ symmetric3 (real_tensor ex_t64) /\
  real_tensor ex_t64' = rotated swap_axes (real_tensor ex_t64) /\ real_tensor ex_t64' <> real_tensor ex_t64.
Proof. exact ex64_rot. Qed.
