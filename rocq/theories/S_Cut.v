(** Specification vocabulary for files whose writing was interrupted. *)
From Coq Require Import String Ascii ZArith NArith Reals Bool Arith List.
From Verif Require Import Base LinAlg M_Text M_Poscar S_Text.
Import ListNotations.
Local Open Scope R_scope.

(** [v'] is what is left of the decimal expansion of [v] when its last digits are missing *)
Definition cut_off (v v' : R) : Prop :=
  exists (j : nat) (k : Z), (j <= 16)%nat /\ v' = IZR k / 10 ^ j /\ v' <= v < v' + / 10 ^ j.

(** What a float becomes by writing it with 16 decimals, losing any number of final characters
    but not all, and reading it back *)
Inductive reread_cut (fl : R -> num) : num -> num -> Prop :=
| cut_fin r v v' : rounded16 r v -> cut_off v v' -> reread_cut fl (Fin r) (fl v')
| cut_nan : reread_cut fl NaN NaN.

(** The numbers of [data] as they are read back from a file, the last of them possibly cut *)
Definition reread_but_last (fl : R -> num) (data got : list num) : Prop :=
  exists l x m y, data = l ++ [x] /\ got = m ++ [y] /\ Forall2 (reread fl) l m /\ reread_cut fl x y.

(** The text ends at the end of a line *)
Definition at_line_end (c : text) : Prop := exists t, c = t ++ [10%N].
