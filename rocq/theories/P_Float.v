(** Double-precision wrapping: lemmas *)
From Coq Require Import ZArith Reals Bool List Lia Lra.
From Flocq Require Import Core.Core IEEE754.BinarySingleNaN.
From Flocq Require Sterbenz.
From Verif Require Import Base LinAlg M_StructUtils P_StructUtils M_Float.
Import ListNotations.
Local Open Scope R_scope.

Notation fexp := (SpecFloat.fexp 53 1024).
Notation rnd := (round radix2 (SpecFloat.fexp 53 1024) ZnearestE).
Notation fmt := (generic_format radix2 (SpecFloat.fexp 53 1024)).

Global Instance fexp_valid : Valid_exp fexp := FLT_exp_valid _ 53.
Global Instance fexp_mono : Monotone_exp fexp := FLT_exp_monotone _ 53.

Lemma fmt_mult : forall (m e : Z), (Z.abs m < 2 ^ 53)%Z -> (-1074 <= e)%Z -> fmt (IZR m * bpow radix2 e).
Proof.
  intros m e Hm He. apply (generic_format_FLT radix2 (-1074) 53).
  exists (Float radix2 m e); simpl; [reflexivity|exact Hm|exact He].
Qed.
Lemma fmt_int : forall m, (Z.abs m < 2 ^ 53)%Z -> fmt (IZR m).
Proof. intros m H. replace (IZR m) with (IZR m * bpow radix2 0) by (simpl; ring). apply fmt_mult; [exact H|lia]. Qed.
Lemma fmt_1 : fmt 1. Proof. apply (fmt_int 1). reflexivity. Qed.
Lemma fmt_0 : fmt 0. Proof. apply (fmt_int 0). reflexivity. Qed.

(** every double is m*2^e *)
Lemma double_form : forall x : f64, exists m e : Z,
  B2R x = IZR m * bpow radix2 e /\ (Z.abs m < 2 ^ 53)%Z /\ (-1074 <= e)%Z.
Proof.
  intros x. assert (H := FLT_format_B2R 53 1024 _ x). destruct H as [f H1 H2 H3].
  exists (Fnum f), (Fexp f). split; [exact H1|]. split; [exact H2|exact H3].
Qed.

Lemma B2R_one : B2R fone = 1.
Proof. unfold fone, B2R, F2R; simpl. lra. Qed.
Lemma B2R_half : B2R fhalf = / 2.
Proof. unfold fhalf, B2R, F2R; simpl. lra. Qed.

Lemma rnd_id : forall x, fmt x -> rnd x = x.
Proof. intros x H. apply round_generic; [apply valid_rnd_N|exact H]. Qed.
Lemma rnd_le : forall x y, x <= y -> rnd x <= rnd y.
Proof. intros. apply round_le; [exact _|apply valid_rnd_N|assumption]. Qed.
Lemma rnd_bounds : forall a b x, fmt a -> fmt b -> a <= x <= b -> a <= rnd x <= b.
Proof. intros a b x Ha Hb H. rewrite <- (rnd_id a Ha), <- (rnd_id b Hb). split; apply rnd_le; lra. Qed.

Lemma lt_emax : forall x b, 0 <= b < bpow radix2 1024 -> Rabs x <= b -> Rlt_bool (Rabs x) (bpow radix2 1024) = true.
Proof. intros x b H1 H2. apply Rlt_bool_true. lra. Qed.
Lemma two_lt_emax : 4 < bpow radix2 1024.
Proof. replace 4 with (bpow radix2 2) by (simpl; lra). apply bpow_lt. lia. Qed.

(** subtraction and addition with a small result, or an exact one *)
Lemma fsub_small : forall x y : f64, is_finite x = true -> is_finite y = true ->
  Rabs (rnd (B2R x - B2R y)) < bpow radix2 1024 ->
  B2R (fsub x y) = rnd (B2R x - B2R y) /\ is_finite (fsub x y) = true.
Proof.
  intros x y Hx Hy H. assert (C := Bminus_correct 53 1024 _ _ mode_NE x y Hx Hy).
  rewrite Rlt_bool_true in C by exact H. destruct C as (C1 & C2 & _). split; assumption.
Qed.
Lemma fadd_small : forall x y : f64, is_finite x = true -> is_finite y = true ->
  Rabs (rnd (B2R x + B2R y)) < bpow radix2 1024 ->
  B2R (fadd x y) = rnd (B2R x + B2R y) /\ is_finite (fadd x y) = true.
Proof.
  intros x y Hx Hy H. assert (C := Bplus_correct 53 1024 _ _ mode_NE x y Hx Hy).
  rewrite Rlt_bool_true in C by exact H. destruct C as (C1 & C2 & _). split; assumption.
Qed.

Lemma ftrunc_spec : forall x, B2R (ftrunc x) = IZR (Ztrunc (B2R x)) /\ is_finite (ftrunc x) = is_finite x.
Proof.
  intros x. destruct (Bnearbyint_correct 53 1024 _ mode_ZR x) as (H1 & H2 & _).
  split; [|exact H2]. unfold ftrunc. rewrite H1. apply round_FIX_IZR.
Qed.
Lemma ffloor_spec : forall x, B2R (ffloor x) = IZR (Zfloor (B2R x)) /\ is_finite (ffloor x) = is_finite x.
Proof.
  intros x. destruct (Bnearbyint_correct 53 1024 _ mode_DN x) as (H1 & H2 & _).
  split; [|exact H2]. unfold ffloor. rewrite H1. apply round_FIX_IZR.
Qed.

(** the fractional part is a double *)
Lemma trunc_abs : forall r, Rabs (r - IZR (Ztrunc r)) <= Rabs r /\ Rabs (r - IZR (Ztrunc r)) < 1.
Proof.
  intros r. unfold Ztrunc. destruct (Rlt_bool_spec r 0) as [H|H].
  - assert (H1 := Zceil_ub r). assert (H2 : IZR (Zceil r) < r + 1).
    { assert (H3 := Zfloor_ub (- r)). unfold Zceil. rewrite opp_IZR. lra. }
    assert (H3 : IZR (Zceil r) <= 0). { apply IZR_le. apply Zceil_glb. simpl. lra. }
    rewrite (Rabs_left1 r) by lra. rewrite Rabs_left1 by lra. lra.
  - assert (H1 := Zfloor_lb r). assert (H2 := Zfloor_ub r).
    assert (H3 : 0 <= IZR (Zfloor r)). { apply IZR_le. apply Zfloor_lub. simpl. lra. }
    rewrite (Rabs_pos_eq r) by lra. rewrite Rabs_pos_eq by lra. lra.
Qed.

Lemma frac_form : forall x : f64, is_finite x = true ->
  (B2R x = IZR (Ztrunc (B2R x))) \/
  (exists m e : Z, B2R x - IZR (Ztrunc (B2R x)) = IZR m * bpow radix2 e /\ (Z.abs m < 2 ^ 53)%Z /\ (-1074 <= e <= -1)%Z /\
     Rabs (B2R x) < bpow radix2 (53 + e) /\ Rabs (B2R x) < bpow radix2 52).
Proof.
  intros x Hx. destruct (double_form x) as (m & e & Hr & Hm & He).
  assert (Hlt : Rabs (B2R x) < bpow radix2 (53 + e)).
  { rewrite Hr, Rabs_mult, (Rabs_pos_eq (bpow radix2 e)) by apply bpow_ge_0.
    rewrite bpow_plus. apply Rmult_lt_compat_r; [apply bpow_gt_0|].
    rewrite <- abs_IZR. change (bpow radix2 53) with (IZR (2 ^ 53)). apply IZR_lt. exact Hm. }
  destruct (Z_le_gt_dec 0 e) as [H|H].
  - left. assert (B2R x = IZR (m * 2 ^ e)) as ->.
    { rewrite Hr, mult_IZR. f_equal. symmetry. apply (IZR_Zpower radix2). exact H. }
    now rewrite Ztrunc_IZR.
  - right.
    assert (Hdiff : B2R x - IZR (Ztrunc (B2R x)) = IZR (m - Ztrunc (B2R x) * 2 ^ (- e)) * bpow radix2 e).
    { rewrite minus_IZR, mult_IZR. rewrite (IZR_Zpower radix2) by lia.
      rewrite Rmult_minus_distr_r, Rmult_assoc, <- bpow_plus.
      replace (- e + e)%Z with 0%Z by lia. simpl (bpow radix2 0). rewrite <- Hr. ring. }
    exists (m - Ztrunc (B2R x) * 2 ^ (- e))%Z, e. split; [exact Hdiff|]. split.
    + apply lt_IZR. rewrite abs_IZR. apply Rle_lt_trans with (Rabs (IZR m)).
      * apply Rmult_le_reg_r with (bpow radix2 e); [apply bpow_gt_0|].
        rewrite <- (Rabs_pos_eq (bpow radix2 e)) by apply bpow_ge_0.
        rewrite <- !Rabs_mult. rewrite <- Hdiff, <- Hr. apply trunc_abs.
      * rewrite <- abs_IZR. apply IZR_lt. exact Hm.
    + split; [lia|]. split; [exact Hlt|]. eapply Rlt_le_trans; [exact Hlt|]. apply bpow_le. lia.
Qed.

Lemma frac_fmt : forall x : f64, is_finite x = true -> fmt (B2R x - IZR (Ztrunc (B2R x))).
Proof.
  intros x Hx. destruct (frac_form x Hx) as [H|(m & e & H1 & H2 & H3 & _)].
  - rewrite <- H. rewrite Rminus_diag_eq by reflexivity. exact fmt_0.
  - rewrite H1. apply fmt_mult; [exact H2|lia].
Qed.

Lemma fmod1_spec : forall x, is_finite x = true ->
  B2R (fmod1 x) = B2R x - IZR (Ztrunc (B2R x)) /\ is_finite (fmod1 x) = true.
Proof.
  intros x Hx. destruct (ftrunc_spec x) as [H1 H2]. rewrite Hx in H2.
  destruct (fsub_small x (ftrunc x) Hx H2) as [H3 H4].
  - rewrite H1, rnd_id by (apply frac_fmt; exact Hx). destruct (trunc_abs (B2R x)) as [_ H]. generalize two_lt_emax. lra.
  - unfold fmod1. rewrite H3, H1. split; [|exact H4]. apply rnd_id, frac_fmt, Hx.
Qed.

Lemma Bltb_spec : forall x y : f64, is_finite x = true -> is_finite y = true ->
  Bltb x y = Rlt_bool (B2R x) (B2R y).
Proof. intros. apply (Bltb_correct 53 1024); assumption. Qed.
Lemma Beqb_spec : forall x y : f64, is_finite x = true -> is_finite y = true ->
  Beqb x y = Req_bool (B2R x) (B2R y).
Proof. intros. apply (Beqb_correct 53 1024); assumption. Qed.

Lemma div0_spec : forall x, is_finite x = true ->
  B2R (fsub x (fmod1 x)) = IZR (Ztrunc (B2R x)) /\ is_finite (fsub x (fmod1 x)) = true.
Proof.
  intros x Hx. destruct (fmod1_spec x Hx) as [H1 H2]. destruct (ftrunc_spec x) as [H3 H4]. rewrite Hx in H4.
  assert (Hd : B2R x - B2R (fmod1 x) = B2R (ftrunc x)) by (rewrite H1, H3; ring).
  destruct (fsub_small x (fmod1 x) Hx H2) as [H5 H6].
  - rewrite Hd, rnd_id by apply generic_format_B2R. apply abs_B2R_lt_emax.
  - split; [|exact H6]. rewrite H5, Hd, rnd_id by apply generic_format_B2R. exact H3.
Qed.

(** NumPy's quotient is the floor, its remainder the rounded fractional part *)
Lemma floor_trunc : forall r, let m := r - IZR (Ztrunc r) in
  (m = 0 -> Zfloor r = Ztrunc r) /\ (m < 0 -> Zfloor r = (Ztrunc r - 1)%Z) /\ (0 < m -> Zfloor r = Ztrunc r).
Proof.
  intros r m. destruct (trunc_abs r) as [_ H]. fold m in H. apply Rabs_def2 in H.
  assert (E : r = IZR (Ztrunc r) + m) by (unfold m; ring).
  split; [|split]; intros Hm; apply Zfloor_imp; try rewrite plus_IZR; try rewrite minus_IZR; simpl; lra.
Qed.

Lemma trunc_small : forall x : f64, is_finite x = true -> B2R x - IZR (Ztrunc (B2R x)) <> 0 ->
  (Z.abs (Ztrunc (B2R x)) <= 2 ^ 52)%Z.
Proof.
  intros x Hx H. destruct (frac_form x Hx) as [E|(m & e & _ & _ & _ & _ & Hb)].
  - exfalso. apply H. lra.
  - apply le_IZR. rewrite abs_IZR. change (IZR (2 ^ 52)) with (bpow radix2 52).
    destruct (trunc_abs (B2R x)) as [H1 _]. 
    assert (Rabs (IZR (Ztrunc (B2R x))) <= Rabs (B2R x)); [|lra].
    unfold Ztrunc. destruct (Rlt_bool_spec (B2R x) 0) as [H2|H2].
    + assert (A := Zceil_ub (B2R x)).
      assert (IZR (Zceil (B2R x)) <= 0) by (apply IZR_le; apply Zceil_glb; simpl; lra).
      rewrite !Rabs_left1 by lra. lra.
    + assert (A := Zfloor_lb (B2R x)).
      assert (0 <= IZR (Zfloor (B2R x))) by (apply IZR_le; apply Zfloor_lub; simpl; lra).
      rewrite !Rabs_pos_eq by lra. lra.
Qed.

Lemma rnd_1_bound : forall m, -1 < m < 0 -> 0 <= rnd (m + 1) <= 1.
Proof. intros m H. apply rnd_bounds; [exact fmt_0|exact fmt_1|lra]. Qed.

Lemma quot_spec : forall d : f64, is_finite d = true -> B2R d = IZR (Zfloor (B2R d)) ->
  forall s, let q := if Beqb d (fzero false) then fzero s
    else let fl := ffloor d in if Bltb fhalf (fsub d fl) then fadd fl fone else fl in
  B2R q = B2R d /\ is_finite q = true.
Proof.
  intros d Hd Hi s q. unfold q. rewrite Beqb_spec by (assumption || reflexivity).
  destruct (Req_bool_spec (B2R d) (B2R (fzero false))) as [E|E].
  - split; [symmetry; exact E|reflexivity].
  - cbv zeta. destruct (ffloor_spec d) as [H1 H2]. rewrite Hd in H2. rewrite <- Hi in H1.
    assert (Z0 : rnd (B2R d - B2R (ffloor d)) = 0).
    { rewrite H1. rewrite Rminus_diag_eq by reflexivity. apply rnd_id, fmt_0. }
    destruct (fsub_small d (ffloor d) Hd H2) as [H3 H4].
    { rewrite Z0, Rabs_R0. apply bpow_gt_0. }
    rewrite Bltb_spec by (assumption || reflexivity). rewrite H3, Z0, B2R_half.
    rewrite Rlt_bool_false by lra. split; assumption.
Qed.

Lemma divmod_spec : forall x, is_finite x = true ->
  (B2R (floordiv1 x) = IZR (Zfloor (B2R x)) /\ is_finite (floordiv1 x) = true) /\
  (B2R (remainder1 x) = rnd (B2R x - IZR (Zfloor (B2R x))) /\ is_finite (remainder1 x) = true).
Proof.
  intros x Hx. destruct (fmod1_spec x Hx) as [M1 M2]. destruct (div0_spec x Hx) as [D1 D2].
  destruct (floor_trunc (B2R x)) as (F0 & F1 & F2). rewrite <- M1 in F0, F1, F2.
  destruct (trunc_abs (B2R x)) as [_ HT]. rewrite <- M1 in HT. apply Rabs_def2 in HT.
  unfold floordiv1, remainder1, divmod1. rewrite Beqb_spec by (assumption || reflexivity).
  change (B2R (fzero false)) with 0.
  destruct (Req_bool_spec (B2R (fmod1 x)) 0) as [E|E].
  - cbn [fst snd]. split.
    + rewrite (F0 E). rewrite <- D1. apply quot_spec; [exact D2|]. rewrite D1, Zfloor_IZR. reflexivity.
    + split; [|reflexivity]. change (B2R (fzero false)) with 0.
      rewrite (F0 E), <- M1, E. symmetry. apply rnd_id, fmt_0.
  - rewrite Bltb_spec by (assumption || reflexivity). change (B2R (fzero false)) with 0.
    destruct (Rlt_bool_spec (B2R (fmod1 x)) 0) as [L|L].
    + assert (Hsm : (Z.abs (Ztrunc (B2R x)) <= 2 ^ 52)%Z) by (apply trunc_small; [exact Hx|rewrite <- M1; exact E]).
      destruct (fsub_small (fsub x (fmod1 x)) fone D2 eq_refl) as [S1 S2].
      { rewrite D1, B2R_one, <- minus_IZR, rnd_id by (apply fmt_int; lia).
        rewrite <- abs_IZR. apply Rlt_le_trans with (IZR (2 ^ 53)); [apply IZR_lt; lia|].
        change (IZR (2 ^ 53)) with (bpow radix2 53). apply bpow_le. lia. }
      rewrite D1, B2R_one, <- minus_IZR, rnd_id in S1 by (apply fmt_int; lia).
      cbn [fst snd]. split.
      * rewrite (F1 L). rewrite <- S1. apply quot_spec; [exact S2|]. rewrite S1, Zfloor_IZR. reflexivity.
      * assert (EE : B2R (fmod1 x) + B2R fone = B2R x - IZR (Zfloor (B2R x))).
        { rewrite (F1 L), minus_IZR, M1, B2R_one. simpl. ring. }
        destruct (fadd_small (fmod1 x) fone M2 eq_refl) as [A1 A2].
        { rewrite B2R_one. assert (B := rnd_1_bound (B2R (fmod1 x)) ltac:(lra)).
          rewrite Rabs_pos_eq by lra. generalize two_lt_emax. lra. }
        rewrite EE in A1. split; assumption.
    + cbn [fst snd]. assert (L' : 0 < B2R (fmod1 x)) by lra. rewrite (F2 L'). split.
      * rewrite <- D1. apply quot_spec; [exact D2|]. rewrite D1, Zfloor_IZR. reflexivity.
      * split; [|exact M2]. rewrite <- M1. symmetry. apply rnd_id, generic_format_B2R.
Qed.

Lemma rfloor_Zfloor : forall r, rfloor r = Zfloor r.
Proof. intros r. reflexivity. Qed.
Lemma wrap_frac : forall r, wrap r = r - IZR (Zfloor r).
Proof. intros r. reflexivity. Qed.

Lemma frac_range : forall r, 0 <= r - IZR (Zfloor r) < 1.
Proof. intros r. assert (H1 := Zfloor_lb r). assert (H2 := Zfloor_ub r). lra. Qed.

Lemma rnd_frac_range : forall r, 0 <= rnd (r - IZR (Zfloor r)) <= 1.
Proof. intros r. apply rnd_bounds; [exact fmt_0|exact fmt_1|]. generalize (frac_range r). lra. Qed.

Lemma pbc_spec : forall x, is_finite x = true ->
  B2R (apply_pbc64 x) = rnd (wrap (B2R x)) /\ is_finite (apply_pbc64 x) = true.
Proof.
  intros x Hx. destruct (divmod_spec x Hx) as [[Q1 Q2] _].
  destruct (fsub_small x (floordiv1 x) Hx Q2) as [H1 H2].
  - rewrite Q1. assert (B := rnd_frac_range (B2R x)). rewrite Rabs_pos_eq by lra. generalize two_lt_emax. lra.
  - rewrite Q1 in H1. split; [exact H1|exact H2].
Qed.

Lemma rem_spec : forall x, is_finite x = true ->
  B2R (remainder1 x) = rnd (wrap (B2R x)) /\ is_finite (remainder1 x) = true.
Proof. intros x Hx. apply divmod_spec. exact Hx. Qed.
