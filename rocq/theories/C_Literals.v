(** Theorems about words, numbers and line ends in text files: C50, C80. *)
From Coq Require Import String ZArith NArith Reals Bool Arith List.
From Verif Require Import Base LinAlg M_Text S_Text S_Literals P_Literals P_ExamplesLit.
Import ListNotations.
Local Open Scope N_scope.

(** C50: a line is read as its words, separated by white space. *)
Theorem C50_words : forall s ws, split s = ws <-> words_of s ws.
Proof. exact f_split. Qed.
Print Assumptions C50_words.

Example C50_words_nonvacuous : words_of tab_line [txt "Si"; txt "O"; txt "Fe"].
Proof. exact ex_words. Qed.

Theorem C50_stripped : forall s t, strip s = t <-> trimmed s t.
Proof. exact f_strip. Qed.
Print Assumptions C50_stripped.

Example C50_stripped_nonvacuous : trimmed tab_line (txt "Si" ++ 9 :: txt "O  Fe")%list.
Proof. exact ex_trimmed. Qed.

(** Which texts are accepted as integers, and their values. *)
Theorem C50_integers : forall s z, int_of s = Some z <-> int_literal s z.
Proof. exact f_int. Qed.
Print Assumptions C50_integers.

Example C50_integers_nonvacuous :
  int_literal (txt " -1_02 ") (-102)%Z /\ (forall z, ~ int_literal (txt "1__2") z) /\ (forall z, ~ int_literal (txt "1.0") z).
Proof. exact ex_int. Qed.

(** Which texts are accepted as real numbers, and the exact values that are rounded. *)
Theorem C50_reals : forall fl s x, float_of fl s = Some x <-> float_literal fl s x.
Proof. exact f_float. Qed.
Print Assumptions C50_reals.

Example C50_reals_nonvacuous : forall fl,
  float_literal fl (txt " -1_2.50E-01") (fl (-5 / 4)%R) /\ float_literal fl (txt "+.5") (fl (1 / 2)%R) /\
  float_literal fl (txt "-Infinity") (Inf true) /\ (forall x, ~ float_literal fl (txt "1.e") x) /\ (forall x, ~ float_literal fl (txt "0x10") x).
Proof. exact ex_float. Qed.

(** The letter that selects direct or Cartesian coordinates may be of either case. *)
Theorem C50_mode_letter : forall l c, 97 <= c <= 122 -> starts l c <-> exists t, l = c :: t \/ l = c - 32 :: t.
Proof. exact f_starts. Qed.
Print Assumptions C50_mode_letter.

(** C80: CR LF and CR are turned into LF when a file is read; nothing else is changed. *)
Theorem C80_line_ends : forall s t, universal s = t <-> newlines s t.
Proof. exact f_universal. Qed.
Print Assumptions C80_line_ends.

Example C80_line_ends_nonvacuous :
  newlines (txt "a" ++ 13 :: 10 :: txt "b" ++ 13 :: 13 :: 10 :: txt "c" ++ [10])%list (txt "a" ++ 10 :: txt "b" ++ 10 :: 10 :: txt "c" ++ [10])%list.
Proof. exact ex_newlines. Qed.
