(** Specification vocabulary for lists of ints and floats. *)
From Coq Require Import ZArith Reals.
From Verif Require Import Base M_Text M_FloatNumbers.

(** The entry [n] stands for the floating-point number [x]. *)
Definition stands_for (n : number) (x : num) : Prop := n = Float x \/ exists z, n = Whole z /\ x = Fin (IZR z).
