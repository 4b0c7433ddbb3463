(** Specification vocabulary for scaling arbitrary numbers: C66; and for escaped text: C48. *)
From Coq Require Import String ZArith NArith Reals Bool Arith List.
From Verif Require Import Base LinAlg M_Text M_Poscar M_Dataset S_Dataset.
Import ListNotations.

(** [y] is [x] less [a], divided by [b], as IEEE 754 says (a zero divisor counts as +0). *)
Definition standardised (x a b y : num) : Prop :=
  match x, a, b with
  | Fin x, Fin a, Fin b =>
      (b <> 0 -> y = Fin ((x - a) / b))%R /\
      (b = 0 -> (x = a -> y = NaN) /\ (x > a -> y = Inf false) /\ (x < a -> y = Inf true))%R
  | Fin _, Fin _, Inf _ => y = Fin 0%R
  | Inf u, Fin _, Fin b => (b >= 0 -> y = Inf u)%R /\ (b < 0 -> y = Inf (negb u))%R
  | Fin _, Inf u, Fin b => (b >= 0 -> y = Inf (negb u))%R /\ (b < 0 -> y = Inf u)%R
  | Inf u, Inf v, Fin b =>
      (u = v -> y = NaN) /\ (u <> v -> (b >= 0 -> y = Inf u)%R /\ (b < 0 -> y = Inf (negb u))%R)
  | _, _, _ => y = NaN
  end.
Definition is_finite (x : num) : Prop := exists r, x = Fin r.
(** The entries of one component over the samples are the reals [xs] *)
Definition component_is (pol : narr) (i j : nat) (xs : list R) : Prop :=
  forall s x, entry pol [s; i; j] x <-> exists r, nth_error xs s = Some r /\ x = Fin r.

(** ** The body of a Python string literal *)
(** Value of a hexadecimal digit 0-9, a-f *)
Definition hex_digit (c d : N) : Prop :=
  ((48 <= c <= 57 /\ d = c - 48) \/ (97 <= c <= 102 /\ d = c - 87))%N.
(** Value of a row of hexadecimal digits, the most significant first *)
Inductive hex_value : text -> N -> Prop :=
| hex_none : hex_value [] 0%N
| hex_more ds v c d : hex_value ds v -> hex_digit c d -> hex_value (ds ++ [c]) (16 * v + d)%N.
(** [literal s l]: between quotation marks, the characters [s] denote the text [l].  A backslash
    introduces an escape; every other character stands for itself. *)
Inductive literal : text -> text -> Prop :=
| literal_end : literal [] []
| literal_plain c s l : c <> 92%N -> literal s l -> literal (c :: s) (c :: l)
| literal_same c s l : In c (txt "\'""") -> literal s l -> literal (92%N :: c :: s) (c :: l)
| literal_tab s l : literal s l -> literal (txt "\t" ++ s) (9%N :: l)
| literal_newline s l : literal s l -> literal (txt "\n" ++ s) (10%N :: l)
| literal_return s l : literal s l -> literal (txt "\r" ++ s) (13%N :: l)
| literal_hex2 h v s l : List.length h = 2 -> hex_value h v -> literal s l -> literal (txt "\x" ++ h ++ s) (v :: l)
| literal_hex4 h v s l : List.length h = 4 -> hex_value h v -> literal s l -> literal (txt "\u" ++ h ++ s) (v :: l)
| literal_hex8 h v s l : List.length h = 8 -> hex_value h v -> literal s l -> literal (txt "\U" ++ h ++ s) (v :: l).
(** Code points of Unicode *)
Definition unicode (l : text) : Prop := Forall (fun c => c < 1114112)%N l.
