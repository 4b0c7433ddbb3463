(** Specification vocabulary for words, numbers and line ends in text files. *)
From Coq Require Import String Ascii ZArith NArith Reals Bool Arith List.
From Verif Require Import Base M_Text.
Import ListNotations.
Local Open Scope N_scope.

(** Unicode white space *)
Definition white (c : N) : Prop :=
  9 <= c <= 13 \/ 28 <= c <= 32 \/ c = 133 \/ c = 160 \/ c = 5760 \/ 8192 <= c <= 8202 \/
  c = 8232 \/ c = 8233 \/ c = 8239 \/ c = 8287 \/ c = 12288.
Definition blank (s : text) : Prop := Forall white s.
Definition word (w : text) : Prop := w <> [] /\ Forall (fun c => ~ white c) w.
(** The words of a text, separated by white space *)
Inductive words_of : text -> list text -> Prop :=
| words_none s : blank s -> words_of s []
| words_last pre w : blank pre -> word w -> words_of (pre ++ w) [w]
| words_more pre w c s ws : blank pre -> word w -> white c -> words_of s ws -> words_of (pre ++ w ++ c :: s) (w :: ws).
(** [t] is [s] without white space at both ends *)
Definition trimmed (s t : text) : Prop :=
  exists pre post, s = (pre ++ t ++ post)%list /\ blank pre /\ blank post /\
    (forall c t', t = c :: t' -> ~ white c) /\ (forall t' c, t = (t' ++ [c])%list -> ~ white c).

(** CR LF and CR both end a line *)
Inductive newlines : text -> text -> Prop :=
| newlines_nil : newlines [] []
| newlines_same c s t : c <> 13 -> newlines s t -> newlines (c :: s) (c :: t)
| newlines_crlf s t : newlines s t -> newlines (13 :: 10 :: s) (10 :: t)
| newlines_cr s t : (forall s', s <> 10 :: s') -> newlines s t -> newlines (13 :: s) (10 :: t).

(** One or more decimal digits, single underscores allowed between them *)
Definition digit_is (c d : N) : Prop := d <= 9 /\ c = 48 + d.
Inductive digits : text -> list N -> Prop :=
| digits_one c d : digit_is c d -> digits [c] [d]
| digits_next c d s ds : digit_is c d -> digits s ds -> digits (c :: s) (d :: ds)
| digits_underscore c d s ds : digit_is c d -> digits s ds -> digits (c :: 95 :: s) (d :: ds).
Fixpoint decimal (ds : list N) : N :=
  match ds with [] => 0 | d :: r => d * 10 ^ N.of_nat (List.length r) + decimal r end.
(** [t] is [u] with its sign, if it has one *)
Definition with_sign (t : text) (neg : bool) (u : text) : Prop :=
  (t = 45 :: u /\ neg = true) \/ (t = 43 :: u /\ neg = false) \/
  (t = u /\ neg = false /\ forall u', u <> 45 :: u' /\ u <> 43 :: u').
Definition minus (neg : bool) (z : Z) : Z := if neg then (- z)%Z else z.
Definition int_literal (s : text) (z : Z) : Prop :=
  exists t neg u ds, trimmed s t /\ with_sign t neg u /\ digits u ds /\ z = minus neg (Z.of_N (decimal ds)).

(** ["12", "12.", "12.5", ".5"]: digits before and after the point *)
Inductive mantissa : text -> list N -> list N -> Prop :=
| mantissa_int s i : digits s i -> mantissa s i []
| mantissa_point s i : digits s i -> mantissa (s ++ [46]) i []
| mantissa_both s i t f : digits s i -> digits t f -> mantissa (s ++ 46 :: t) i f
| mantissa_fraction t f : digits t f -> mantissa (46 :: t) [] f.
(** [""], ["e5"], ["E-05"] *)
Inductive exponent : text -> Z -> Prop :=
| exponent_none : exponent [] 0
| exponent_some c t neg u ds : c = 101 \/ c = 69 -> with_sign t neg u -> digits u ds ->
    exponent (c :: t) (minus neg (Z.of_N (decimal ds))).
(** [u] spells the lower-case word [k] in any mixture of cases *)
Definition spells (u : text) (k : string) : Prop := Forall2 (fun c d => c = d \/ c + 32 = d) u (txt k).
Definition literal_value (neg : bool) (i f : list N) (z : Z) : R :=
  ((if neg then -1 else 1) *
   (IZR (Z.of_N (decimal i)) + IZR (Z.of_N (decimal f)) / 10 ^ List.length f) * powerRZ 10 z)%R.
Inductive unsigned_literal (fl : R -> num) (neg : bool) : text -> num -> Prop :=
| literal_inf u : spells u "inf" \/ spells u "infinity" -> unsigned_literal fl neg u (Inf neg)
| literal_nan u : spells u "nan" -> unsigned_literal fl neg u NaN
| literal_number m i f e z : mantissa m i f -> exponent e z ->
    unsigned_literal fl neg (m ++ e) (fl (literal_value neg i f z)).
(** A floating-point literal; its exact value is rounded by [fl] *)
Definition float_literal (fl : R -> num) (s : text) (x : num) : Prop :=
  exists t neg u, trimmed s t /\ with_sign t neg u /\ unsigned_literal fl neg u x.
