(** Intensities in double precision: lemmas *)
From Coq Require Import ZArith Reals Bool List Lia Lra.
From Flocq Require Import Core.Core IEEE754.BinarySingleNaN Relative.
From Verif Require Import Base LinAlg M_Spectrum M_Float M_Double S_Float S_Spectrum S_Double P_Float P_Float2.
Import ListNotations.
Local Open Scope R_scope.

(** ** Signs *)
(** not NaN, sign bit clear *)
Definition pos (x : f64) : Prop := is_nan x = false /\ Bsign x = false.
Definition num64 (x : f64) : Prop := is_nan x = false.

Lemma fin_num : forall x, finite x -> num64 x.
Proof. intros [ | | |] H; try reflexivity; discriminate. Qed.
Lemma overflow_num : forall x s, B2SF x = binary_overflow 53 1024 mode_NE s -> num64 x.
Proof. intros x s H. unfold binary_overflow in H. simpl in H. destruct x; try discriminate; reflexivity. Qed.
Lemma overflow_inf : forall (x : f64) s, B2SF x = binary_overflow 53 1024 mode_NE s -> x = B754_infinity s.
Proof. intros x s H. apply B2SF_inj. rewrite H. reflexivity. Qed.

Lemma sq_pos : forall x, num64 x -> pos (fsq x).
Proof.
  intros x H. unfold fsq, fmul, pos. destruct x as [s|s| |s m e B]; try discriminate.
  - simpl. rewrite xorb_nilpotent. auto.
  - simpl. rewrite xorb_nilpotent. auto.
  - set (x := B754_finite s m e B). assert (C := Bmult_correct 53 1024 _ _ mode_NE x x).
    match type of C with if ?b then _ else _ => destruct b end.
    + destruct C as (_ & Cf & Cs).
      assert (F : is_finite (Bmult mode_NE x x) = true) by (rewrite Cf; reflexivity).
      assert (N := fin_num _ F). split; [exact N|]. rewrite Cs by exact N. apply xorb_nilpotent.
    + rewrite xorb_nilpotent in C. apply overflow_inf in C. rewrite C. split; reflexivity.
Qed.

Lemma mul_pos : forall s m e (B : SpecFloat.bounded 53 1024 m e = true) x, s = false -> pos x -> pos (fmul (B754_finite s m e B) x).
Proof.
  intros s m e B x -> [H1 H2]. unfold fmul, pos. destruct x as [s|s| |s m' e' B']; try discriminate; simpl in H2; subst.
  - simpl. auto.
  - simpl. auto.
  - set (c := B754_finite false m e B). set (x := B754_finite false m' e' B').
    assert (C := Bmult_correct 53 1024 _ _ mode_NE c x).
    match type of C with if ?b then _ else _ => destruct b end.
    + destruct C as (_ & Cf & Cs).
      assert (F : is_finite (Bmult mode_NE c x) = true) by (rewrite Cf; reflexivity).
      assert (N := fin_num _ F). split; [exact N|]. rewrite Cs by exact N. reflexivity.
    + apply overflow_inf in C. rewrite C. split; reflexivity.
Qed.

Lemma div_num : forall s m e (B : SpecFloat.bounded 53 1024 m e = true) x, num64 x -> num64 (fdiv x (B754_finite s m e B)).
Proof.
  intros s m e B x H. unfold fdiv, num64. destruct x as [s'|s'| |s' m' e' B']; try discriminate.
  - reflexivity.
  - reflexivity.
  - set (c := B754_finite s m e B). set (x := B754_finite s' m' e' B').
    assert (C := Bdiv_correct 53 1024 _ _ mode_NE x c).
    assert (N : B2R c <> 0).
    { unfold c. simpl. apply F2R_neq_0. simpl. destruct s; discriminate. }
    specialize (C N).
    match type of C with if ?b then _ else _ => destruct b end.
    + destruct C as (_ & Cf & Cs).
      apply fin_num. unfold finite. rewrite Cf. reflexivity.
    + apply overflow_num in C. exact C.
Qed.
Lemma div_pos : forall m e (B : SpecFloat.bounded 53 1024 m e = true) x, pos x -> pos (fdiv x (B754_finite false m e B)).
Proof.
  intros m e B x [H1 H2]. unfold fdiv, pos. destruct x as [s'|s'| |s' m' e' B']; try discriminate; simpl in H2; subst.
  - split; reflexivity.
  - split; reflexivity.
  - set (c := B754_finite false m e B). set (x := B754_finite false m' e' B').
    assert (C := Bdiv_correct 53 1024 _ _ mode_NE x c).
    assert (N : B2R c <> 0).
    { unfold c. simpl. apply F2R_neq_0. simpl. discriminate. }
    specialize (C N).
    match type of C with if ?b then _ else _ => destruct b end.
    + destruct C as (_ & Cf & Cs).
      assert (F : is_finite (Bdiv mode_NE x c) = true) by (rewrite Cf; reflexivity).
      assert (N' := fin_num _ F). split; [exact N'|]. rewrite Cs by exact N'. reflexivity.
    + apply overflow_inf in C. rewrite C. split; reflexivity.
Qed.

Lemma add_pos : forall x y, pos x -> pos y -> pos (fadd x y).
Proof.
  intros x y [X1 X2] [Y1 Y2]. unfold fadd.
  destruct (is_finite x) eqn:Fx; [destruct (is_finite y) eqn:Fy|].
  - assert (C := Bplus_correct 53 1024 _ _ mode_NE x y Fx Fy).
    match type of C with if ?b then _ else _ => destruct b end.
    + destruct C as (CR & Cf & Cs). assert (N := fin_num _ Cf). split; [exact N|].
      rewrite Cs, X2, Y2. assert (0 <= B2R x) by (destruct x; simpl in *; try lra; subst; apply F2R_ge_0; simpl; lia).
      assert (0 <= B2R y) by (destruct y; simpl in *; try lra; subst; apply F2R_ge_0; simpl; lia).
      destruct (Rcompare_spec (B2R x + B2R y) 0); [lra|reflexivity|reflexivity].
    + destruct C as [C _]. rewrite X2 in C. apply overflow_inf in C. rewrite C. split; reflexivity.
  - destruct y as [s|s| |s m e B]; try discriminate. simpl in Y2; subst.
    destruct x as [s|s| |s m e B]; try discriminate; simpl in X2; subst; split; reflexivity.
  - destruct x as [s|s| |s m e B]; try discriminate. simpl in X2; subst.
    destruct y as [s|s| |s m e B]; try discriminate; simpl in Y2; subst; split; reflexivity.
Qed.

(** finite plus finite, and anything but NaN plus finite, is not NaN *)
Lemma add_num : forall x y, num64 x -> finite y -> num64 (fadd x y).
Proof.
  intros x y X Y. unfold fadd. destruct (is_finite x) eqn:Fx.
  - assert (C := Bplus_correct 53 1024 _ _ mode_NE x y Fx Y).
    match type of C with if ?b then _ else _ => destruct b end.
    + destruct C as (CR & Cf & Cs). apply fin_num. exact Cf.
    + destruct C as [C _]. apply overflow_num in C. exact C.
  - destruct x as [s|s| |s m e B]; try discriminate.
    destruct y as [s'|s'| |s' m e B]; try discriminate; reflexivity.
Qed.
Lemma sub_num : forall x y, finite x -> finite y -> num64 (fsub x y).
Proof.
  intros x y X Y. unfold fsub.
  assert (C := Bminus_correct 53 1024 _ _ mode_NE x y X Y).
  match type of C with if ?b then _ else _ => destruct b end.
  - destruct C as (CR & Cf & Cs). apply fin_num. exact Cf.
  - destruct C as [C _]. apply overflow_num in C. exact C.
Qed.

Lemma intensity_pos : forall t, finite_tensor t -> pos (intensity64 t).
Proof.
  intros t H. unfold intensity64, alpha_squared64, gamma_squared64.
  assert (F : forall i j, (i < 3)%nat -> (j < 3)%nat -> finite (t i j)) by exact H.
  apply add_pos.
  - apply mul_pos; [reflexivity|]. apply sq_pos. apply div_num. apply add_num; [apply add_num; [apply fin_num|]|]; apply F; lia.
  - apply mul_pos; [reflexivity|]. apply div_pos. apply add_pos.
    + apply add_pos; [apply add_pos|]; apply sq_pos; apply sub_num; apply F; lia.
    + apply mul_pos; [reflexivity|]. apply add_pos; [apply add_pos|]; apply sq_pos, fin_num, F; lia.
Qed.

Lemma pos_cases : forall x, pos x -> x = plus_infinity \/ (finite x /\ 0 <= value x).
Proof.
  intros x [H1 H2]. destruct x as [s|s| |s m e B]; try discriminate; simpl in H2; subst.
  - right. split; [reflexivity|]. unfold value; simpl; lra.
  - left. reflexivity.
  - right. split; [reflexivity|]. unfold value. simpl. apply F2R_ge_0. simpl. lia.
Qed.

Lemma f_C37_double_sign : forall ts t n, nth_error ts n = Some t -> finite_tensor t ->
  exists x, nth_error (raw_intensities64 ts) n = Some x /\ (x = plus_infinity \/ (finite x /\ 0 <= value x)).
Proof.
  intros ts t n H F. exists (intensity64 t). split.
  - unfold raw_intensities64. apply map_nth_error. exact H.
  - apply pos_cases, intensity_pos, F.
Qed.

(** ** NaN is never hidden *)
Lemma add_nan_l : forall y, fadd B754_nan y = B754_nan. Proof. reflexivity. Qed.
Lemma add_nan_r : forall y, fadd y B754_nan = B754_nan. Proof. intros [ | | | ]; reflexivity. Qed.
Lemma sub_nan_l : forall y, fsub B754_nan y = B754_nan. Proof. reflexivity. Qed.
Lemma sub_nan_r : forall y, fsub y B754_nan = B754_nan. Proof. intros [ | | | ]; reflexivity. Qed.
Lemma mul_nan_r : forall y, fmul y B754_nan = B754_nan. Proof. intros [ | | | ]; reflexivity. Qed.
Lemma sq_nan : fsq B754_nan = B754_nan. Proof. reflexivity. Qed.
Lemma div_nan_l : forall y, fdiv B754_nan y = B754_nan. Proof. reflexivity. Qed.

Lemma f_C37_double_nan : forall t i j, (i <= j < 3)%nat -> t i j = not_a_number -> intensity64 t = not_a_number.
Proof.
  intros t i j H E. unfold not_a_number in *. unfold intensity64, alpha_squared64, gamma_squared64.
  assert (C : (i = 0 /\ j = 0 \/ i = 1 /\ j = 1 \/ i = 2 /\ j = 2 \/ i = 0 /\ j = 1 \/ i = 0 /\ j = 2 \/ i = 1 /\ j = 2)%nat) by lia.
  destruct C as [[-> ->]|[[-> ->]|[[-> ->]|[[-> ->]|[[-> ->]|[-> ->]]]]]]; rewrite E;
    repeat (rewrite ?add_nan_l, ?add_nan_r, ?sub_nan_l, ?sub_nan_r, ?sq_nan, ?div_nan_l, ?mul_nan_r); reflexivity.
Qed.

(** ** Accuracy *)
Notation u := (bpow radix2 (-53)).
Definition near (x : f64) (a e : R) : Prop := finite x /\ Rabs (B2R x - a) <= e.

Lemma rnd_rel : forall x M, Rabs x <= M -> bpow radix2 (-1000) <= M -> Rabs (rnd x - x) <= u * M.
Proof.
  intros x M H1 H2. destruct (Rle_or_lt (bpow radix2 (-1022)) (Rabs x)) as [H|H].
  - assert (E := relative_error_N_FLT radix2 (-1074) 53 eq_refl (fun n => negb (Z.even n)) x H).
    change (FLT_exp (-1074) 53) with fexp in E.
    eapply Rle_trans; [exact E|]. replace (/ 2 * bpow radix2 (- (53) + 1)) with u.
    + apply Rmult_le_compat_l; [apply bpow_ge_0|exact H1].
    + replace (/ 2) with (bpow radix2 (-1)) by (simpl; lra). rewrite <- bpow_plus. reflexivity.
  - assert (E := rnd_err x (-1000)). assert (Rabs x < bpow radix2 (-1000)).
    { eapply Rlt_trans; [exact H|]. apply bpow_lt. lia. }
    specialize (E ltac:(lia) H0). eapply Rle_trans; [exact E|].
    replace (bpow radix2 (-1000 - 54)) with (bpow radix2 (-54) * bpow radix2 (-1000)) by (rewrite <- bpow_plus; reflexivity).
    apply Rmult_le_compat; try apply bpow_ge_0; [|exact H2]. apply bpow_le. lia.
Qed.

Lemma rnd_ok : forall x M, Rabs x <= M -> M <= bpow radix2 1020 -> Rabs (rnd x) < bpow radix2 1024.
Proof.
  intros x M H1 H2. apply Rle_lt_trans with (bpow radix2 1020); [|apply bpow_lt; lia].
  apply abs_round_le_generic; try exact _.
  - apply generic_format_bpow. unfold SpecFloat.fexp, SpecFloat.emin. lia.
  - lra.
Qed.

Definition scale (M : R) : Prop := bpow radix2 (-1000) <= M <= bpow radix2 1020.

Lemma near_add : forall x y a b ea eb M, near x a ea -> near y b eb -> scale M ->
  Rabs (a + b) + ea + eb <= M -> near (fadd x y) (a + b) (ea + eb + u * M).
Proof.
  intros x y a b ea eb M [X1 X2] [Y1 Y2] [S1 S2] H.
  assert (B : Rabs (B2R x + B2R y) <= M).
  { replace (B2R x + B2R y) with ((a + b) + ((B2R x - a) + (B2R y - b))) by ring.
    eapply Rle_trans; [apply Rabs_triang|]. assert (T := Rabs_triang (B2R x - a) (B2R y - b)). lra. }
  destruct (fadd_small x y X1 Y1 (rnd_ok _ _ B S2)) as [E F]. split; [exact F|]. rewrite E.
  assert (R := rnd_rel _ _ B S1).
  replace (rnd (B2R x + B2R y) - (a + b)) with ((rnd (B2R x + B2R y) - (B2R x + B2R y)) + ((B2R x - a) + (B2R y - b))) by ring.
  eapply Rle_trans; [apply Rabs_triang|]. assert (T := Rabs_triang (B2R x - a) (B2R y - b)). lra.
Qed.
Lemma near_sub : forall x y a b ea eb M, near x a ea -> near y b eb -> scale M ->
  Rabs (a - b) + ea + eb <= M -> near (fsub x y) (a - b) (ea + eb + u * M).
Proof.
  intros x y a b ea eb M [X1 X2] [Y1 Y2] [S1 S2] H.
  assert (T : Rabs ((B2R x - a) - (B2R y - b)) <= ea + eb).
  { unfold Rminus at 1. eapply Rle_trans; [apply Rabs_triang|]. rewrite Rabs_Ropp. lra. }
  assert (B : Rabs (B2R x - B2R y) <= M).
  { replace (B2R x - B2R y) with ((a - b) + ((B2R x - a) - (B2R y - b))) by ring.
    eapply Rle_trans; [apply Rabs_triang|]. lra. }
  destruct (fsub_small x y X1 Y1 (rnd_ok _ _ B S2)) as [E F]. split; [exact F|]. rewrite E.
  assert (R := rnd_rel _ _ B S1).
  replace (rnd (B2R x - B2R y) - (a - b)) with ((rnd (B2R x - B2R y) - (B2R x - B2R y)) + ((B2R x - a) - (B2R y - b))) by ring.
  eapply Rle_trans; [apply Rabs_triang|]. lra.
Qed.
Lemma near_mul_gen : forall x y p ep M, finite x -> finite y -> Rabs (B2R x * B2R y - p) <= ep -> scale M ->
  Rabs p + ep <= M -> near (fmul x y) p (ep + u * M).
Proof.
  intros x y p ep M X Y E [S1 S2] H.
  assert (B : Rabs (B2R x * B2R y) <= M).
  { replace (B2R x * B2R y) with (p + (B2R x * B2R y - p)) by ring. eapply Rle_trans; [apply Rabs_triang|]. lra. }
  assert (C := Bmult_correct 53 1024 _ _ mode_NE x y).
  rewrite Rlt_bool_true in C by exact (rnd_ok _ _ B S2). destruct C as (C1 & C2 & _).
  split; [unfold finite, fmul; rewrite C2, X, Y; reflexivity|].
  unfold fmul. rewrite C1. assert (R := rnd_rel _ _ B S1).
  match goal with |- Rabs (?r - p) <= _ => replace (r - p) with ((r - B2R x * B2R y) + (B2R x * B2R y - p)) by ring end.
  eapply Rle_trans; [apply Rabs_triang|]. change (SpecFloat.fexp 53 1024) with fexp in *. simpl round_mode. lra.
Qed.
Lemma near_const : forall c x k a ea M, finite c -> B2R c = k -> 0 <= k -> near x a ea -> scale M ->
  k * Rabs a + k * ea <= M -> near (fmul c x) (k * a) (k * ea + u * M).
Proof.
  intros c x k a ea M C K P [X1 X2] S H. apply near_mul_gen; auto.
  - rewrite K. replace (k * B2R x - k * a) with (k * (B2R x - a)) by ring. rewrite Rabs_mult, (Rabs_pos_eq k P).
    apply Rmult_le_compat_l; assumption.
  - rewrite Rabs_mult, (Rabs_pos_eq k P). exact H.
Qed.
Lemma near_sq : forall x a ea A M, near x a ea -> scale M -> Rabs a <= A ->
  A * A + ea * (2 * A + ea) <= M -> near (fsq x) (a ^ 2) (ea * (2 * A + ea) + u * M).
Proof.
  intros x a ea A M [X1 X2] S HA H. assert (0 <= ea) by (eapply Rle_trans; [apply Rabs_pos|exact X2]).
  assert (P := Rabs_pos a). apply near_mul_gen; auto.
  - replace (B2R x * B2R x - a ^ 2) with ((B2R x - a) * (2 * a + (B2R x - a))) by ring. rewrite Rabs_mult.
    apply Rmult_le_compat; try apply Rabs_pos; [exact X2|]. eapply Rle_trans; [apply Rabs_triang|].
    rewrite Rabs_mult, (Rabs_pos_eq 2) by lra. lra.
  - replace (a ^ 2) with (a * a) by ring. rewrite Rabs_mult. assert (Rabs a * Rabs a <= A * A) by (apply Rmult_le_compat; lra). lra.
Qed.
Lemma near_div : forall c x k a ea M, B2R c = k -> 0 < k -> near x a ea -> scale M ->
  Rabs a / k + ea / k <= M -> near (fdiv x c) (a / k) (ea / k + u * M).
Proof.
  intros c x k a ea M K P [X1 X2] [S1 S2] H.
  assert (I : 0 < / k) by (apply Rinv_0_lt_compat; exact P).
  assert (D : Rabs (B2R x / k - a / k) <= ea / k).
  { replace (B2R x / k - a / k) with ((B2R x - a) * / k) by (unfold Rdiv; ring). rewrite Rabs_mult, (Rabs_pos_eq (/k)) by lra.
    apply Rmult_le_compat_r; [lra|exact X2]. }
  assert (B : Rabs (B2R x / B2R c) <= M).
  { rewrite K. replace (B2R x / k) with (a / k + (B2R x / k - a / k)) by ring. eapply Rle_trans; [apply Rabs_triang|].
    unfold Rdiv at 1. rewrite Rabs_mult, (Rabs_pos_eq (/k)) by lra. unfold Rdiv in *. lra. }
  assert (C := Bdiv_correct 53 1024 _ _ mode_NE x c ltac:(rewrite K; lra)).
  rewrite Rlt_bool_true in C by exact (rnd_ok _ _ B S2). destruct C as (C1 & C2 & _).
  split; [unfold finite, fdiv; rewrite C2; exact X1|].
  unfold fdiv. rewrite C1. assert (R := rnd_rel _ _ B S1). rewrite K in *.
  match goal with |- Rabs (?r - ?p) <= _ => replace (r - p) with ((r - B2R x / k) + (B2R x / k - p)) by ring end.
  eapply Rle_trans; [apply Rabs_triang|]. simpl round_mode. lra.
Qed.
Lemma near_le : forall x a e e', near x a e -> e <= e' -> near x a e'.
Proof. intros x a e e' [H1 H2] H. split; [exact H1|lra]. Qed.
Lemma near_self : forall x, finite x -> near x (B2R x) 0.
Proof. intros x H. split; [exact H|]. rewrite Rminus_eq_0, Rabs_R0. lra. Qed.
