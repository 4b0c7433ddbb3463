(** Concrete words and numbers. *)
From Coq Require Import String Ascii ZArith NArith Reals Bool Arith List Lia Lra.
From Verif Require Import Base LinAlg M_Text S_Text S_Literals P_Text P_Literals.
Import ListNotations.
Local Open Scope N_scope.

Definition tab_line : text := (txt " Si" ++ 9 :: txt "O  Fe " ++ [160; 13])%list.
Lemma ex_words : words_of tab_line [txt "Si"; txt "O"; txt "Fe"].
Proof. apply f_split. vm_compute. reflexivity. Qed.
Lemma ex_trimmed : trimmed tab_line (txt "Si" ++ 9 :: txt "O  Fe")%list.
Proof. apply f_strip. vm_compute. reflexivity. Qed.
Lemma ex_newlines : newlines (txt "a" ++ 13 :: 10 :: txt "b" ++ 13 :: 13 :: 10 :: txt "c" ++ [10])%list (txt "a" ++ 10 :: txt "b" ++ 10 :: 10 :: txt "c" ++ [10])%list.
Proof. apply f_universal. vm_compute. reflexivity. Qed.
Lemma ex_int : int_literal (txt " -1_02 ") (-102)%Z /\ (forall z, ~ int_literal (txt "1__2") z) /\ (forall z, ~ int_literal (txt "1.0") z).
Proof.
  split; [apply f_int; vm_compute; reflexivity|]. split; intros z H; apply f_int in H; vm_compute in H; discriminate.
Qed.
Lemma ex_float fl : float_literal fl (txt " -1_2.50E-01") (fl (-5 / 4)%R) /\ float_literal fl (txt "+.5") (fl (1 / 2)%R) /\
  float_literal fl (txt "-Infinity") (Inf true) /\ (forall x, ~ float_literal fl (txt "1.e") x) /\ (forall x, ~ float_literal fl (txt "0x10") x).
Proof.
  assert (D : forall c d, d <= 9 -> c = 48 + d -> digit_is c d) by (intros; split; auto).
  split; [|split].
  - exists (txt "-1_2.50E-01"), true, (txt "1_2.50E-01"). split; [apply f_strip; vm_compute; reflexivity|]. split; [left; auto|].
    replace (-5 / 4)%R with (literal_value true [1; 2] [5; 0] (minus true (Z.of_N (decimal [0; 1])))).
    + apply (literal_number fl true (txt "1_2.50") [1; 2] [5; 0] (txt "E-01")).
      * apply (mantissa_both (txt "1_2") [1; 2] (txt "50") [5; 0]); apply digit_part_digits; vm_compute; reflexivity.
      * apply (exponent_some 69 (txt "-01") true (txt "01") [0; 1]); [auto|left; auto|]. apply digit_part_digits. vm_compute. reflexivity.
    + unfold literal_value. cbn. change (Pos.to_nat 1) with 1%nat. cbn [pow]. lra.
  - exists (txt "+.5"), false, (txt ".5"). split; [apply f_strip; vm_compute; reflexivity|]. split; [right; left; auto|].
    replace (1 / 2)%R with (literal_value false [] [5] 0).
    + apply (literal_number fl false (txt ".5") [] [5] []); [|constructor]. apply (mantissa_fraction (txt "5")). apply digit_part_digits. vm_compute. reflexivity.
    + unfold literal_value. cbn. lra.
  - split; [apply f_float; vm_compute; reflexivity|]. split; intros x H; apply f_float in H; vm_compute in H; discriminate.
Qed.
