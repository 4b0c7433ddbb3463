(** Area and half width of Gaussian lines *)
From Coq Require Import String ZArith Reals Lra Lia Psatz Bool Arith List.
From Coquelicot Require Import Coquelicot.
From Verif Require Import Base LinAlg M_Validate M_Interp M_Spectrum M_Dynamics S_Interp S_Spectrum P_Signal P_Convolve P_Convolve2 P_Gauss.
Import ListNotations.
Local Open Scope R_scope.

Lemma gauss_integral w s i : 0 < s ->
  integrates_to (fun o => (1 / s) * (1 / sqrt (2 * PI)) * exp (- ((w - o) ^ 2) / (2 * s ^ 2)) * i) i.
Proof.
  intros S eps P. pose proof sqrt_pi_pos as SP. assert (S2 : 0 < sqrt 2) by (apply sqrt_lt_R0; lra).
  assert (Pi : 0 < Rabs i + 1) by (pose proof (Rabs_pos i); lra).
  set (r := s * sqrt 2). assert (R0 : 0 < r) by (apply Rmult_lt_0_compat; auto).
  (* the bound 4|i|/PI * 1/(1+M^2) < eps *)
  set (K := 4 * (Rabs i + 1) / (sqrt PI * sqrt PI)). assert (K0 : 0 < K) by (unfold K; apply Rdiv_lt_0_compat; nra).
  set (M := K / eps + 1). assert (M1 : 1 <= M) by (unfold M; assert (0 < K / eps) by (apply Rdiv_lt_0_compat; auto); lra).
  exists (M * r + Rabs w). intros a b A B.
  destruct (Riemann_of_is_RInt _ _ _ _ (gauss_int w s i a b S)) as (pr & R). exists pr. rewrite R. fold r.
  assert (Hb : M <= (b - w) / r).
  { apply (Rmult_le_reg_r r); auto. unfold Rdiv. rewrite Rmult_assoc, Rinv_l, Rmult_1_r by lra. pose proof (Rle_abs w). lra. }
  assert (Ha : M <= - ((a - w) / r)).
  { apply (Rmult_le_reg_r r); auto. replace (- ((a - w) / r) * r) with (w - a) by (field; lra). pose proof (Rle_abs (- w)) as Q. rewrite Rabs_Ropp in Q. lra. }
  set (x := (b - w) / r) in *. replace ((a - w) / r) with (- - ((a - w) / r)) by ring. set (y := - ((a - w) / r)) in *. rewrite Ga_odd.
  assert (T : forall t, M <= t -> Rabs (Ga t - sqrt PI / 2) <= 2 / sqrt PI * / (1 + M)).
  { intros t Ht. eapply Rle_trans; [apply Ga_limit; lra|]. apply Rmult_le_compat_l; [apply Rlt_le, Rdiv_lt_0_compat; lra|].
    eapply Rle_trans; [apply exp_neg_sq|]. apply Rinv_le_contravar; nra. }
  pose proof (T x Hb) as Tx. pose proof (T y Ha) as Ty.
  replace (i / sqrt PI * (Ga x - - Ga y) - i) with (i * (/ sqrt PI * ((Ga x - sqrt PI / 2) + (Ga y - sqrt PI / 2)))) by (field; lra).
  rewrite !Rabs_mult, (Rabs_right (/ sqrt PI)) by (apply Rle_ge, Rlt_le, Rinv_0_lt_compat; auto).
  assert (SUM : Rabs (Ga x - sqrt PI / 2 + (Ga y - sqrt PI / 2)) <= 4 / sqrt PI * / (1 + M)).
  { eapply Rle_trans; [apply Rabs_triang|]. replace (4 / sqrt PI * / (1 + M)) with (2 / sqrt PI * / (1 + M) + 2 / sqrt PI * / (1 + M)) by (field; lra). lra. }
  assert (IP : 0 < / sqrt PI) by (apply Rinv_0_lt_compat; auto).
  apply Rle_lt_trans with ((Rabs i + 1) * (/ sqrt PI * (4 / sqrt PI * / (1 + M)))).
  - apply Rmult_le_compat; [apply Rabs_pos|apply Rmult_le_pos; [lra|apply Rabs_pos]|lra|apply Rmult_le_compat_l; lra].
  - replace ((Rabs i + 1) * (/ sqrt PI * (4 / sqrt PI * / (1 + M)))) with (K / (1 + M)) by (unfold K; field; lra).
    apply (Rmult_lt_reg_r (1 + M)); [lra|]. unfold Rdiv. rewrite Rmult_assoc, Rinv_l, Rmult_1_r by lra.
    replace (eps * (1 + M)) with (K + eps * 2) by (unfold M; field; lra). lra.
Qed.

Lemma f_C44_gaussian_area lines width : 0 < width ->
  exists g, (forall grid, convolve lines "gaussian" width grid = Ok (grid, map g grid)) /\
    integrates_to g (rsum (map snd lines)).
Proof.
  intros W. exists (profile "gaussian" width lines). split.
  { intros. apply convolve_ok; auto. left; auto. }
  induction lines as [|[w i] lines IH].
  - apply (integrates_ext (fun _ => 0)); [reflexivity|]. apply integrates_zero.
  - cbn [map]. rewrite rsum_cons.
    apply (integrates_ext (fun o => (1 / width) * (1 / sqrt (2 * PI)) * exp (- ((w - o) ^ 2) / (2 * width ^ 2)) * i + profile "gaussian" width lines o)).
    + intros x. unfold profile at 2. cbn [map]. rewrite rsum_cons. reflexivity.
    + apply integrates_plus; auto. apply gauss_integral. lra.
Qed.

Lemma f_C44_gaussian_half width w i : 0 < width ->
  exists g, (forall grid, convolve [(w, i)] "gaussian" width grid = Ok (grid, map g grid)) /\
    g (w + sqrt (2 * ln 2) * width) = g w / 2 /\ g (w - sqrt (2 * ln 2) * width) = g w / 2.
Proof.
  intros W. exists (profile "gaussian" width [(w, i)]). split.
  { intros. apply convolve_ok; auto. left; auto. }
  assert (L2 : 0 < ln 2) by (rewrite <- ln_1; apply ln_increasing; lra).
  assert (SQ : sqrt (2 * ln 2) * sqrt (2 * ln 2) = 2 * ln 2) by (apply sqrt_sqrt; lra).
  assert (E2 : exp (- ln 2) = / 2) by (rewrite exp_Ropp, exp_ln by lra; reflexivity).
  set (q := sqrt (2 * ln 2)) in *.
  assert (V : forall o, profile "gaussian" width [(w, i)] o = (1 / width) * (1 / sqrt (2 * PI)) * exp (- ((w - o) ^ 2) / (2 * width ^ 2)) * i).
  { intros o. unfold profile. cbn [map]. rewrite rsum_cons. cbn [map]. unfold shape. simpl. ring. }
  rewrite !V.
  replace (- (w - w) ^ 2 / (2 * width ^ 2)) with 0 by (field; lra). rewrite exp_0.
  replace (- (w - (w + q * width)) ^ 2 / (2 * width ^ 2)) with (- (q * q / 2)) by (field; lra).
  replace (- (w - (w - q * width)) ^ 2 / (2 * width ^ 2)) with (- (q * q / 2)) by (field; lra).
  rewrite SQ. replace (2 * ln 2 / 2) with (ln 2) by field. rewrite E2. split; unfold Rdiv; ring.
Qed.
