(** Decimal conversions of doubles: the theorems of C47 *)
From Coq Require Import String ZArith NArith Reals Bool List Lia Lra.
From Flocq Require Import Core.Core IEEE754.BinarySingleNaN.
From Verif Require Import Base LinAlg Constants M_Validate M_Spectrum M_Text M_Poscar M_Float S_Spectrum S_Text S_Float
  P_Convolve2 P_Text P_Poscar P_Poscar2 P_Poscar3 P_Poscar4 P_Float P_Float2.
Import ListNotations.
Local Open Scope R_scope.

(** ** Doubles from reals *)
Lemma sign_of_value : forall x : f64, is_finite x = true -> B2R x <> 0 -> Bsign x = Rltb (B2R x) 0.
Proof.
  intros [s|s| |s m e h] F N; try discriminate; [exfalso; apply N; reflexivity|].
  unfold Rltb. simpl Bsign. destruct s.
  - destruct (Rlt_dec (B2R (B754_finite true m e h)) 0) as [L|L]; [reflexivity|]. exfalso. apply L. apply (F2R_lt_0 radix2). simpl. lia.
  - destruct (Rlt_dec (B2R (B754_finite false m e h)) 0) as [L|L]; [|reflexivity]. exfalso.
    assert (0 < B2R (B754_finite false m e h)) by (apply (F2R_gt_0 radix2); simpl; lia). lra.
Qed.

Lemma f64_exists : forall r, fmt r -> Rabs r < bpow radix2 1024 -> forall s, exists y : f64,
  is_finite y = true /\ B2R y = r /\ (r = 0 -> Bsign y = s).
Proof.
  intros r G B s. 
  set (m := Ztrunc (scaled_mantissa radix2 fexp r)). set (e := cexp radix2 fexp r).
  assert (E : F2R (Float radix2 m e) = r) by (symmetry; exact G).
  assert (C := binary_normalize_correct 53 1024 _ _ mode_NE m e s). cbv zeta in C.
  rewrite E in C. change (round_mode mode_NE) with ZnearestE in C. rewrite (rnd_id r G) in C.
  rewrite Rlt_bool_true in C by exact B. destruct C as (C1 & C2 & C3).
  exists (binary_normalize 53 1024 _ _ mode_NE m e s). split; [exact C2|]. split; [exact C1|].
  intros Z. rewrite C3. rewrite Rcompare_Eq; [reflexivity|exact Z].
Qed.

Lemma f64_eq : forall x y : f64, is_finite x = true -> is_finite y = true -> B2R x = B2R y -> Bsign x = Bsign y -> x = y.
Proof. intros. apply B2R_Bsign_inj; assumption. Qed.

(** ** The nearest double to the sixteen-decimal rounding *)
Definition dec16 (r : R) : R := IZR (sgn16 r) / 10 ^ 16.

Lemma dec16_err : forall r, Rabs (dec16 r - r) <= 5 / 10 ^ 17.
Proof.
  intros r. destruct (sgn16_nearest r) as [H _]. unfold dec16.
  replace (IZR (sgn16 r) / 10 ^ 16 - r) with ((IZR (sgn16 r) - r * 10 ^ 16) * / 10 ^ 16) by (field; lra).
  rewrite Rabs_mult, (Rabs_pos_eq (/ 10 ^ 16)) by (apply Rlt_le, Rinv_0_lt_compat; lra).
  replace (5 / 10 ^ 17) with (1 / 2 * / 10 ^ 16) by lra. apply Rmult_le_compat_r; [|exact H].
  apply Rlt_le, Rinv_0_lt_compat; lra.
Qed.

Lemma scaled16_opp : forall r, scaled16 (- r) = scaled16 r.
Proof. intros r. unfold scaled16. rewrite Rabs_Ropp. reflexivity. Qed.
Lemma scaled16_0 : scaled16 0 = 0%Z.
Proof.
  assert (H := proj1 (rint_spec (Rabs 0 * IZR (10 ^ 16)))). unfold scaled16.
  set (n := rint _) in *. rewrite Rabs_R0, Rmult_0_l, Rminus_0_r in H. apply Rabs_le_inv in H.
  assert (-1 < n < 1)%Z; [|lia]. split; apply lt_IZR; lra.
Qed.
Lemma dec16_opp : forall r, dec16 (- r) = - dec16 r.
Proof.
  intros r. unfold dec16, sgn16. rewrite scaled16_opp. unfold Rltb.
  destruct (Rlt_dec (- r) 0), (Rlt_dec r 0); try rewrite !opp_IZR; try lra.
  assert (r = 0) by lra. subst. rewrite scaled16_0. simpl. lra.
Qed.
Lemma dec16_nonneg : forall r, 0 <= r -> 0 <= dec16 r.
Proof.
  intros r H. unfold dec16, sgn16, Rltb. destruct (Rlt_dec r 0); [lra|].
  apply Rmult_le_pos; [apply IZR_le, scaled16_nonneg|apply Rlt_le, Rinv_0_lt_compat; lra].
Qed.

(** integers over 10^16 are monotone under rounding: bounds by decimals *)
Lemma nearest_le : forall x n k, nearest_even x n -> x <= IZR k -> (n <= k)%Z.
Proof.
  intros x n k [H _] L. apply Rabs_le_inv in H. destruct (Z_le_gt_dec n k) as [K|K]; [exact K|]. exfalso.
  assert (IZR k + 1 <= IZR n) by (rewrite <- plus_IZR; apply IZR_le; lia). lra.
Qed.
Lemma nearest_id : forall n k, nearest_even (IZR k) n -> n = k.
Proof.
  intros n k [H _]. rewrite <- minus_IZR, <- abs_IZR in H. assert (Z.abs (n - k) < 1)%Z; [apply lt_IZR; lra|lia].
Qed.
Lemma nearest_close : forall x n k, nearest_even x n -> Rabs (IZR k - x) < 1 / 2 -> n = k.
Proof.
  intros x n k [H _] L. assert (Z.abs (n - k) < 1)%Z; [|lia]. apply lt_IZR. rewrite abs_IZR, minus_IZR.
  replace (IZR n - IZR k) with ((IZR n - x) - (IZR k - x)) by ring.
  eapply Rle_lt_trans; [apply Rabs_triang|]. rewrite Rabs_Ropp. lra.
Qed.

Lemma dec16_half : dec16 (/ 2) = / 2.
Proof.
  unfold dec16. replace (sgn16 (/ 2)) with 5000000000000000%Z; [lra|]. symmetry. apply nearest_id.
  replace 5000000000000000 with (/ 2 * 10 ^ 16) by lra. apply sgn16_nearest.
Qed.
Lemma dec16_le : forall r k, r <= IZR k / 10 ^ 16 -> dec16 r <= IZR k / 10 ^ 16.
Proof.
  intros r k H. unfold dec16. apply Rmult_le_compat_r; [apply Rlt_le, Rinv_0_lt_compat; lra|].
  apply IZR_le. apply (nearest_le (r * 10 ^ 16)); [apply sgn16_nearest|].
  apply Rmult_le_reg_r with (/ 10 ^ 16); [apply Rinv_0_lt_compat; lra|]. unfold Rdiv in H. 
  rewrite Rmult_assoc, Rinv_r by lra. lra.
Qed.

Lemma rnd_opp : forall r, rnd (- r) = - rnd r.
Proof. intros r. apply round_NE_opp. Qed.

Lemma ulp_ge : forall x, / 2 <= x -> / 2 ^ 53 <= ulp radix2 fexp x.
Proof.
  intros x H. rewrite ulp_neq_0 by lra. replace (/ 2 ^ 53) with (bpow radix2 (-53)) by (simpl; lra).
  apply bpow_le. unfold cexp. assert (0 <= mag radix2 x)%Z.
  { assert (-1 < mag radix2 x)%Z; [|lia]. apply (mag_gt_bpow radix2 x (-1)). simpl. rewrite Rabs_pos_eq; lra. }
  unfold SpecFloat.fexp, SpecFloat.emin. lia.
Qed.

Lemma back_pos : forall x, fmt x -> / 2 <= x -> rnd (dec16 x) = x.
Proof.
  intros x G H. destruct (Req_dec x (/ 2)) as [->|N].
  { rewrite dec16_half. apply rnd_id. exact half_fmt. }
  assert (D := dec16_err x). apply Rabs_le_inv in D.
  assert (P : / 2 <= pred radix2 fexp x).
  { apply pred_ge_gt; [exact _|exact half_fmt|exact G|lra]. }
  assert (Gp : fmt (pred radix2 fexp x)) by (apply generic_format_pred; [exact _|exact G]).
  apply Rle_antisym.
  - apply round_N_le_midp; [exact _|exact G|]. rewrite succ_eq_pos by lra. assert (U := ulp_ge x H). lra.
  - apply round_N_ge_midp; [exact _|exact G|].
    assert (S := succ_pred radix2 fexp x G). rewrite succ_eq_pos in S by lra.
    assert (U := ulp_ge (pred radix2 fexp x) P). lra.
Qed.

Lemma back : forall x, fmt x -> / 2 <= Rabs x -> rnd (dec16 x) = x.
Proof.
  intros x G H. destruct (Rle_lt_dec 0 x) as [L|L].
  - rewrite Rabs_pos_eq in H by exact L. apply back_pos; assumption.
  - rewrite Rabs_left in H by exact L. rewrite <- (Ropp_involutive x) at 1. rewrite dec16_opp, rnd_opp.
    rewrite back_pos; [ring|apply generic_format_opp; exact G|exact H].
Qed.

Lemma small_pos : forall x, 0 <= x < / 2 -> Rabs (rnd (dec16 x) - dec16 x) <= / 2 ^ 55.
Proof.
  intros x H. assert (N : 0 <= dec16 x) by (apply dec16_nonneg; lra).
  assert (L : dec16 x <= / 2).
  { replace (/ 2) with (IZR 5000000000000000 / 10 ^ 16) by lra. apply dec16_le. lra. }
  destruct (Req_dec (dec16 x) (/ 2)) as [->|D].
  - rewrite (rnd_id _ half_fmt), Rminus_diag_eq, Rabs_R0 by reflexivity. lra.
  - replace (/ 2 ^ 55) with (bpow radix2 (-1 - 54)) by (simpl; lra). apply rnd_err; [lia|]. simpl. rewrite Rabs_pos_eq; lra.
Qed.
Lemma small : forall x, Rabs x < / 2 -> Rabs (rnd (dec16 x) - dec16 x) <= / 2 ^ 55.
Proof.
  intros x H. apply Rabs_def2 in H. destruct (Rle_lt_dec 0 x) as [L|L]; [apply small_pos; lra|].
  rewrite <- (Ropp_involutive x). rewrite dec16_opp, rnd_opp.
  replace (- rnd (dec16 (- x)) - - dec16 (- x)) with (- (rnd (dec16 (- x)) - dec16 (- x))) by ring.
  rewrite Rabs_Ropp. apply small_pos. lra.
Qed.

(** summary for one finite double *)
Lemma dec16_back : forall x, fmt x -> Rabs x < bpow radix2 1024 ->
  let y := rnd (dec16 x) in
  Rabs y < bpow radix2 1024 /\ Rabs (y - x) <= / 10 ^ 16 /\ (/ 2 <= Rabs x -> y = x) /\
  scaled16 y = scaled16 x /\ (0 <= x -> 0 <= y) /\ (x <= 0 -> y <= 0) /\ (x <= 1 -> y <= 1).
Proof.
  intros x G B y.
  assert (M0 : 0 <= x -> 0 <= y).
  { intros H. unfold y. rewrite <- (rnd_id 0 fmt_0). apply rnd_le, dec16_nonneg, H. }
  assert (M1 : x <= 0 -> y <= 0).
  { intros H. unfold y. rewrite <- (Ropp_involutive x), dec16_opp, rnd_opp.
    assert (0 <= rnd (dec16 (- x))); [|lra]. rewrite <- (rnd_id 0 fmt_0) at 1. apply rnd_le, dec16_nonneg. lra. }
  assert (M2 : x <= 1 -> y <= 1).
  { intros H. unfold y. rewrite <- (rnd_id 1 fmt_1). apply rnd_le.
    replace 1 with (IZR 10000000000000000 / 10 ^ 16) by lra. apply dec16_le. lra. }
  destruct (Rle_lt_dec (/ 2) (Rabs x)) as [L|L].
  - assert (E : y = x) by (apply back; assumption). rewrite E.
    rewrite Rminus_diag_eq, Rabs_R0 by reflexivity.
    split; [exact B|]. split; [lra|]. split; [reflexivity|]. split; [reflexivity|]. rewrite <- E at 2 4 6. tauto.
  - assert (S := small x L). fold y in S. assert (D := dec16_err x).
    assert (X : Rabs (y - x) <= / 10 ^ 16).
    { replace (y - x) with ((y - dec16 x) + (dec16 x - x)) by ring. eapply Rle_trans; [apply Rabs_triang|]. lra. }
    split; [|split; [exact X|split; [intros; lra|]]].
    { replace y with ((y - x) + x) by ring. eapply Rle_lt_trans; [apply Rabs_triang|]. generalize two_lt_emax. lra. }
    split; [|tauto].
    assert (E : sgn16 y = sgn16 x).
    { apply (nearest_close (y * 10 ^ 16)); [apply sgn16_nearest|].
      replace (IZR (sgn16 x) - y * 10 ^ 16) with (- (y - dec16 x) * 10 ^ 16) by (unfold dec16; field).
      rewrite Rabs_mult, Rabs_Ropp, (Rabs_pos_eq (10 ^ 16)) by lra.
      apply Rle_lt_trans with (/ 2 ^ 55 * 10 ^ 16); [apply Rmult_le_compat_r; [lra|exact S]|lra]. }
    unfold sgn16, Rltb in E. assert (N1 := scaled16_nonneg x). assert (N2 := scaled16_nonneg y).
    destruct (Rlt_dec y 0), (Rlt_dec x 0); lia.
Qed.

(** ** Text *)
Lemma fin_digits_abs : forall r, fin_digits (Rabs r) = fin_digits r.
Proof. intros r. unfold fin_digits, scaled16. rewrite Rabs_Rabsolu. reflexivity. Qed.
Lemma fmt_abs : forall r, fmt_body (Fin (Rabs r)) = fin_digits r.
Proof.
  intros r. rewrite fmt_fin. unfold Rltb. destruct (Rlt_dec (Rabs r) 0) as [L|L].
  - exfalso. generalize (Rabs_pos r). lra.
  - apply fin_digits_abs.
Qed.
Lemma fin_digits_ok : forall r, nospace (fin_digits r) /\ exists d t, fin_digits r = (48 + d)%N :: t /\ (d < 10)%N.
Proof.
  intros r. unfold fin_digits. set (n := Z.to_N (scaled16 r)).
  destruct (dec_digits_spec (n / 10 ^ 16)) as (A & B & C). split.
  - apply nospace_app; [apply nospace_chars; auto|]. constructor; [reflexivity|apply nospace_chars, fixed_digits].
  - destruct (dec_digits (n / 10 ^ 16)) as [|d ds]; [congruence|]. inversion A; subst. exists d. cbn [map app]. eauto.
Qed.

Lemma float_pad : forall fl w t, float_of fl (pad_left w t) = float_of fl t.
Proof. intros fl w t. apply float_of_strip. unfold pad_left. apply strip_spaces, spaces_repeat. Qed.

(** signed digits are read as the signed sixteen-decimal value *)
Lemma float_signed : forall fl (s : bool) r,
  float_of fl ((if s then [45%N] else []) ++ fin_digits r)%list = Some (fl (IZR (if s then - scaled16 r else scaled16 r)%Z / 10 ^ 16)).
Proof.
  intros fl s r.
  assert (H : forall q, scaled16 q = scaled16 r -> Rltb q 0 = s ->
     float_of fl ((if s then [45%N] else []) ++ fin_digits r)%list = Some (fl (IZR (if s then - scaled16 r else scaled16 r)%Z / 10 ^ 16))).
  { intros q E2 E3. assert (H := float_fin fl q). rewrite fmt_fin in H. unfold sgn16 in H.
    replace (fin_digits q) with (fin_digits r) in H by (unfold fin_digits; rewrite E2; reflexivity).
    rewrite E2, E3 in H. exact H. }
  assert (PA := Rabs_pos r).
  destruct s; [|apply (H (Rabs r))].
  - destruct (Req_dec r 0) as [->|N].
    + apply (H (- / 10 ^ 17)).
      * rewrite scaled16_0. unfold scaled16. symmetry. symmetry.
        apply (nearest_close (Rabs (- / 10 ^ 17) * IZR (10 ^ 16))); [apply rint_spec|].
        rewrite Rabs_Ropp, (Rabs_pos_eq (/ 10 ^ 17)) by lra. change (10 ^ 16)%Z with 10000000000000000%Z. rewrite Rabs_left1; lra.
      * unfold Rltb. destruct (Rlt_dec (- / 10 ^ 17) 0); [reflexivity|lra].
    + apply Rabs_pos_lt in N. apply (H (- Rabs r)).
      * rewrite scaled16_opp. unfold scaled16. rewrite Rabs_Rabsolu. reflexivity.
      * unfold Rltb. destruct (Rlt_dec (- Rabs r) 0); [reflexivity|lra].
  - unfold scaled16. rewrite Rabs_Rabsolu. reflexivity.
  - unfold Rltb. destruct (Rlt_dec (Rabs r) 0); [lra|reflexivity].
Qed.

(** ** One double, with its sign *)
Lemma val_finite : forall x : f64, is_finite x = true -> val x = Fin (B2R x).
Proof. intros [s|s| |s m e h] F; try discriminate; reflexivity. Qed.
Lemma val_inj : forall x y : f64, val x = val y -> (B2R x = 0 -> is_finite x = true -> Bsign x = Bsign y) -> x = y.
Proof.
  intros x y E S. destruct (is_finite x) eqn:Fx.
  - rewrite (val_finite x Fx) in E. destruct (is_finite y) eqn:Fy.
    + rewrite (val_finite y Fy) in E. injection E as E. apply f64_eq; auto.
      destruct (Req_dec (B2R x) 0) as [Z|Z]; [auto|]. rewrite !sign_of_value by congruence. congruence.
    + destruct y; discriminate.
  - destruct x as [s|s| |s m e h]; try discriminate Fx; destruct y; try discriminate E; [|reflexivity].
    injection E as ->. reflexivity.
Qed.

Lemma fmt64_finite : forall x : f64, is_finite x = true ->
  fmt64 x = pad_left 9 ((if Bsign x then [45%N] else []) ++ fin_digits (B2R x))%list.
Proof. intros [s|s| |s m e h] F; try discriminate; unfold fmt64; rewrite fmt_abs; reflexivity. Qed.

Lemma signed_value : forall x : f64, is_finite x = true ->
  IZR (if Bsign x then - scaled16 (B2R x) else scaled16 (B2R x))%Z / 10 ^ 16 = dec16 (B2R x).
Proof.
  intros x F. unfold dec16, sgn16. destruct (Req_dec (B2R x) 0) as [Z|Z].
  - rewrite Z, scaled16_0. destruct (Bsign x), (Rltb 0 0); reflexivity.
  - rewrite sign_of_value by assumption. reflexivity.
Qed.

Lemma fl64_rnd : forall r, Rabs (rnd r) < bpow radix2 1024 -> fl64 r = Fin (rnd r).
Proof. intros r H. unfold fl64. cbv zeta. change (FLT_exp (-1074) 53) with fexp. rewrite Rlt_bool_true by exact H. reflexivity. Qed.

Lemma sign_text : forall (s : bool) r, fst (sign (strip (pad_left 9 ((if s then [45%N] else []) ++ fin_digits r)%list))) = s.
Proof.
  intros s r. destruct (fin_digits_ok r) as [NS (d & t & E & D)].
  unfold pad_left. rewrite strip_spaces by apply spaces_repeat.
  rewrite strip_nospace by (apply nospace_app; [destruct s; repeat constructor|exact NS]).
  destruct s; [reflexivity|]. cbn [app]. rewrite E. unfold sign.
  destruct (N.eqb_spec (48 + d) 45); [lia|]. destruct (N.eqb_spec (48 + d) 43); [lia|]. reflexivity.
Qed.

(** the double read back *)
Lemma reads_back : forall x : f64, exists y : f64, reads_as (fmt64 x) y /\
  (finite x -> finite y /\ B2R y = rnd (dec16 (B2R x)) /\ Bsign y = Bsign x) /\ (~ finite x -> y = x).
Proof.
  intros x. destruct (is_finite x) eqn:F.
  - destruct (dec16_back (B2R x) (fmt_B2R x) (abs_B2R_lt_emax 53 1024 x)) as (B & _ & _ & SC & P & Q & _).
    set (v := rnd (dec16 (B2R x))) in *.
    assert (Gv : fmt v) by (apply generic_format_round; [exact _|apply valid_rnd_N]).
    destruct (f64_exists v Gv B (Bsign x)) as (y & Fy & Ey & Sy). exists y.
    assert (SS : Bsign y = Bsign x).
    { destruct (Req_dec v 0) as [Z|Z]; [auto|]. rewrite sign_of_value by (assumption || congruence). rewrite Ey.
      destruct (Req_dec (B2R x) 0) as [Z'|Z'].
      - exfalso. apply Z. unfold v. rewrite Z'. unfold dec16, sgn16. rewrite scaled16_0.
        replace (IZR (if Rltb 0 0 then (- 0)%Z else 0%Z) / 10 ^ 16) with 0 by (destruct (Rltb 0 0); simpl; lra). apply rnd_id, fmt_0.
      - rewrite sign_of_value by assumption. unfold Rltb.
        destruct (Rlt_dec v 0), (Rlt_dec (B2R x) 0); try reflexivity; exfalso; lra. }
    split; [|split; [intros _; split; [exact Fy|split; assumption]|intros N; exfalso; apply N; exact F]].
    rewrite fmt64_finite by exact F. split.
    + rewrite float_pad, float_signed, signed_value by exact F. rewrite fl64_rnd by exact B. rewrite (val_finite y Fy), Ey. reflexivity.
    + intros _ _. rewrite sign_text. exact SS.
  - exists x. split; [|split; [intros H; unfold finite in H; congruence|reflexivity]].
    destruct x as [s|s| |s m e h]; try discriminate F; (split; [|intros _ H; discriminate H]).
    + destruct s; vm_compute; reflexivity.
    + vm_compute; reflexivity.
Qed.

Lemma f_C47_reads : forall x : f64, exists y : f64, reads_as (fmt64 x) y.
Proof. intros x. destruct (reads_back x) as (y & H & _). exists y. exact H. Qed.

Lemma reads_unique : forall t y z, reads_as t y -> reads_as t z -> y = z.
Proof.
  intros t y z [H1 H2] [H3 H4]. assert (E : val y = val z) by congruence. apply val_inj; [exact E|].
  intros Z F. rewrite H2 by assumption. rewrite (val_finite y F) in E. symmetry. 
  destruct (is_finite z) eqn:Fz.
  - rewrite (val_finite z Fz) in E. injection E as E. apply H4; congruence.
  - destruct z; discriminate.
Qed.

Lemma f_C47_number : forall x y : f64, reads_as (fmt64 x) y ->
  (finite x -> / 2 <= Rabs (value x) -> y = x) /\ (~ finite x -> y = x) /\
  (finite x -> finite y /\ Rabs (value y - value x) <= / 10 ^ 16) /\
  fmt64 y = fmt64 x.
Proof.
  intros x y H. destruct (reads_back x) as (y' & H' & Hf & Hn). rewrite <- (reads_unique _ _ _ H H') in *. clear y' H'.
  assert (G := dec16_back (B2R x) (fmt_B2R x) (abs_B2R_lt_emax 53 1024 x)). cbv zeta in G.
  destruct G as (_ & G2 & G3 & G4 & _).
  split; [|split; [exact Hn|split]].
  - intros F L. destruct (Hf F) as (F' & E & S). apply f64_eq; try assumption. rewrite E. apply G3. exact L.
  - intros F. destruct (Hf F) as (F' & E & S). split; [exact F'|]. unfold value. rewrite E. exact G2.
  - destruct (is_finite x) eqn:F.
    + destruct (Hf F) as (F' & E & S). rewrite !fmt64_finite by assumption. rewrite S, E.
      unfold fin_digits. rewrite G4. reflexivity.
    + rewrite Hn; [reflexivity|]. unfold finite. congruence.
Qed.

Lemma f_C47_unique : forall x y z : f64, reads_as (fmt64 x) y -> reads_as (fmt64 x) z -> y = z.
Proof. intros x y z. apply reads_unique. Qed.
