(** Specification vocabulary for double-precision wrapping and structure files. *)
From Coq Require Import ZArith Reals List.
From Flocq Require Import Core.Core IEEE754.BinarySingleNaN.
From Verif Require Import Base LinAlg M_StructUtils M_Text M_Poscar M_Float.
Import ListNotations.
Local Open Scope R_scope.

(** [x] is finite, that is, neither infinite nor NaN; [value x] is the number it stands for *)
Definition finite (x : f64) : Prop := is_finite x = true.
Definition value (x : f64) : R := B2R x.

(** [y] is as close to [r] as a double can be *)
Definition nearest_double (y : f64) (r : R) : Prop :=
  finite y /\ forall z : f64, finite z -> Rabs (value y - r) <= Rabs (value z - r).

(** [a] and [b] differ by an integer, up to [e] *)
Definition same_site (e a b : R) : Prop := exists k : Z, Rabs (a - b - IZR k) <= e.

(** Arrays of doubles as the file model sees them *)
Record arr64 := mkArr64 { a64_shape : list nat; a64_data : list f64 }.
Definition narr64 (a : arr64) : narr := mkNarr (a64_shape a) (map val (a64_data a)).

(** One double is read back as another: exactly the same unless small, and never changed by
    more than 10^-16 *)
Definition kept (x : f64) (y : num) : Prop :=
  exists y' : f64, val y' = y /\
    (finite x -> finite y' /\ Rabs (value y' - value x) <= / 10 ^ 16) /\
    (finite x -> / 2 <= Rabs (value x) -> y' = x) /\
    (~ finite x -> y' = x).

(** Negative numbers that are written with sixteen zeros *)
Definition tiny_negative (x : f64) : Prop := finite x /\ - (5 / 10 ^ 17) <= value x < 0.
