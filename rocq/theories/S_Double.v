(** Specification vocabulary for intensities computed in double precision *)
From Coq Require Import ZArith Reals Bool List.
From Flocq Require Import Core.Core IEEE754.BinarySingleNaN.
From Verif Require Import Base LinAlg M_Spectrum M_Float M_Double S_Float S_Spectrum.
Import ListNotations.
Local Open Scope R_scope.

(** The tensor whose entries are the real numbers that the doubles stand for *)
Definition real_tensor (t : tensor64) : M3 :=
  (mkM (mkV (value (t 0 0)) (value (t 0 1)) (value (t 0 2)))
       (mkV (value (t 1 0)) (value (t 1 1)) (value (t 1 2)))
       (mkV (value (t 2 0)) (value (t 2 1)) (value (t 2 2))))%nat.

(** Every entry of the tensor is a finite number *)
Definition finite_tensor (t : tensor64) : Prop :=
  forall i j, (i < 3)%nat -> (j < 3)%nat -> finite (t i j).

(** The upper triangle (the entries that an intensity depends on) has an entry of size
    [lo] or more, and none larger than [hi] *)
Definition sized (lo hi : R) (t : tensor64) : Prop :=
  (exists i j, (i <= j < 3)%nat /\ lo <= Rabs (value (t i j))) /\
  (forall i j, (i <= j < 3)%nat -> Rabs (value (t i j)) <= hi).

Definition plus_infinity : f64 := B754_infinity false.
Definition not_a_number : f64 := B754_nan.
