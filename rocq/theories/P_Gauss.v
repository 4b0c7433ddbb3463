(** The integral of the Gaussian *)
From Coq Require Import Reals Lra Lia Psatz.
From Coquelicot Require Import Coquelicot.
Local Open Scope R_scope.

Definition ga (x : R) : R := exp (- (x ^ 2)).
Definition Ga (t : R) : R := RInt ga 0 t.
Definition hh (t x : R) : R := exp (- (t ^ 2 * (1 + x ^ 2))) / (1 + x ^ 2).
Definition HH (t : R) : R := RInt (hh t) 0 1.

Lemma onex x : 0 < 1 + x ^ 2.
Proof. pose proof (pow2_ge_0 x). lra. Qed.
Lemma onex_nz x : 1 + x ^ 2 <> 0.
Proof. pose proof (onex x). lra. Qed.
Lemma ga_cont x : continuous ga x.
Proof. apply (ex_derive_continuous (V := R_NormedModule)). unfold ga. auto_derive. exact I. Qed.
Lemma hh_cont t x : continuous (hh t) x.
Proof. apply (ex_derive_continuous (V := R_NormedModule)). unfold hh. auto_derive. pose proof (onex_nz x). simpl in *. auto. Qed.
Lemma ga_int a b : ex_RInt ga a b.
Proof. apply (ex_RInt_continuous (V := R_CompleteNormedModule)). intros; apply ga_cont. Qed.
Lemma hh_int t a b : ex_RInt (hh t) a b.
Proof. apply (ex_RInt_continuous (V := R_CompleteNormedModule)). intros; apply hh_cont. Qed.
Lemma Ga_derive t : is_derive Ga t (ga t).
Proof.
  unfold Ga. apply (is_derive_RInt (V := R_NormedModule) ga (fun t => RInt ga 0 t) 0 t).
  - exists (mkposreal 1 Rlt_0_1). intros y _. apply (RInt_correct (V := R_CompleteNormedModule)). apply ga_int.
  - apply ga_cont.
Qed.
Lemma hh_derive t x : is_derive (fun u => hh u x) t (-2 * t * exp (- (t ^ 2 * (1 + x ^ 2)))).
Proof. unfold hh. auto_derive; [exact I|]. pose proof (onex_nz x). simpl in *. field. intro; apply H; rewrite Rmult_1_r; assumption. Qed.
Lemma HH_derive0 t : is_derive HH t (RInt (fun x => Derive (fun u => hh u x) t) 0 1).
Proof.
  unfold HH. apply is_derive_RInt_param.
  - apply filter_forall. intros y x _. eexists. apply hh_derive.
  - intros x _. apply (continuity_2d_pt_ext (fun u v => -2 * u * exp (- (u ^ 2 * (1 + v ^ 2))))).
    { intros u v. symmetry. apply is_derive_unique, hh_derive. }
    apply continuity_2d_pt_mult.
    + apply continuity_2d_pt_mult; [apply continuity_2d_pt_const|apply continuity_2d_pt_id1].
    + apply (continuity_1d_2d_pt_comp exp (fun u v => - (u ^ 2 * (1 + v ^ 2)))).
      * apply derivable_continuous_pt, derivable_pt_exp.
      * apply continuity_2d_pt_opp. simpl. apply continuity_2d_pt_mult; [|apply continuity_2d_pt_plus; [apply continuity_2d_pt_const|]];
        (apply continuity_2d_pt_mult; [|apply continuity_2d_pt_mult; [|apply continuity_2d_pt_const]]); try apply continuity_2d_pt_id1; apply continuity_2d_pt_id2.
  - apply filter_forall. intros y. apply hh_int.
Qed.
Lemma HH_value t : RInt (fun x => Derive (fun u => hh u x) t) 0 1 = -2 * ga t * Ga t.
Proof.
  transitivity (RInt (fun x => scal (-2 * ga t) (scal t (ga (t * x + 0)))) 0 1).
  - apply RInt_ext. intros x _. transitivity (-2 * t * exp (- (t ^ 2 * (1 + x ^ 2)))); [apply is_derive_unique, hh_derive|]. unfold ga, scal. simpl. unfold mult. simpl.
    replace (- (t * (t * 1) * (1 + x * (x * 1)))) with (- (t * (t * 1)) + - ((t * x + 0) * ((t * x + 0) * 1))) by ring. rewrite exp_plus. ring.
  - rewrite (RInt_scal (V := R_CompleteNormedModule)).
    + etransitivity; [apply f_equal; exact (RInt_comp_lin (V := R_CompleteNormedModule) ga t 0 0 1 (ga_int _ _))|]. unfold scal. simpl. unfold mult. simpl. unfold Ga.
      replace (t * 0 + 0) with 0 by ring. replace (t * 1 + 0) with t by ring. reflexivity.
    + apply (ex_RInt_comp_lin (V := R_NormedModule) ga t 0 0 1). apply ga_int.
Qed.
Lemma HH_derive t : is_derive HH t (-2 * ga t * Ga t).
Proof. rewrite <- HH_value. apply HH_derive0. Qed.
Lemma sum_derive t : is_derive (fun t => Ga t ^ 2 + HH t) t 0.
Proof.
  evar_last.
  - apply (is_derive_plus (V := R_NormedModule) (fun t => Ga t ^ 2) HH); [|apply HH_derive].
    apply (is_derive_ext (fun t => Ga t * Ga t)); [intros; simpl; ring|]. apply (is_derive_mult Ga Ga); [apply Ga_derive|apply Ga_derive|]. intros; apply Rmult_comm.
  - unfold plus, mult. simpl. ring.
Qed.
Lemma HH_0 : HH 0 = PI / 4.
Proof.
  unfold HH. transitivity (RInt (fun x => / (1 + x ^ 2)) 0 1).
  - apply RInt_ext. intros x _. unfold hh. replace (- (0 ^ 2 * (1 + x ^ 2))) with 0 by ring. rewrite exp_0. unfold Rdiv. apply Rmult_1_l.
  - apply is_RInt_unique. evar_last.
    + apply (is_RInt_derive (V := R_CompleteNormedModule) atan).
      * intros x _. evar_last; [apply is_derive_atan|]. unfold Rsqr. simpl. f_equal. ring.
      * intros x _. apply (ex_derive_continuous (V := R_NormedModule)). auto_derive. pose proof (onex_nz x). simpl in *. auto.
    + unfold minus, plus, opp. simpl. rewrite atan_1, atan_0. ring.
Qed.
Lemma sum_const t : 0 <= t -> Ga t ^ 2 + HH t = PI / 4.
Proof.
  intros Ht. destruct (MVT_gen (fun t => Ga t ^ 2 + HH t) 0 t (fun _ => 0)) as (c & _ & E).
  - intros x _. apply sum_derive.
  - intros x _. apply continuity_pt_filterlim. apply (ex_derive_continuous (V := R_NormedModule) (fun t => Ga t ^ 2 + HH t)). eexists. apply sum_derive.
  - rewrite Rmult_0_l in E. apply Rminus_diag_uniq in E. rewrite E, HH_0. unfold Ga. rewrite RInt_point. unfold zero. simpl. ring.
Qed.
Lemma HH_bounds t : 0 <= HH t <= exp (- t ^ 2).
Proof.
  split.
  - apply RInt_ge_0; [lra|apply hh_int|]. intros x _. unfold hh. apply Rlt_le, Rdiv_lt_0_compat; [apply exp_pos|apply onex].
  - replace (exp (- t ^ 2)) with (RInt (fun _ => exp (- t ^ 2)) 0 1) by (rewrite RInt_const; unfold scal; simpl; unfold mult; simpl; ring).
    apply RInt_le; [lra|apply hh_int|apply ex_RInt_const|]. intros x _. unfold hh. pose proof (onex x). pose proof (pow2_ge_0 x).
    apply Rle_trans with (exp (- (t ^ 2 * (1 + x ^ 2)))).
    + apply (Rmult_le_reg_r (1 + x ^ 2)); [auto|]. unfold Rdiv. rewrite Rmult_assoc, Rinv_l, Rmult_1_r by lra. pose proof (exp_pos (- (t ^ 2 * (1 + x ^ 2)))). nra.
    + (destruct (Req_dec (t ^ 2 * x ^ 2) 0) as [Z|N]; [right; f_equal; lra|left; apply exp_increasing; pose proof (pow2_ge_0 t); nra]).
Qed.
Lemma Ga_pos t : 0 <= t -> 0 <= Ga t.
Proof. intros H. apply RInt_ge_0; [exact H|apply ga_int|]. intros x _. apply Rlt_le, exp_pos. Qed.
Lemma Ga_odd t : Ga (- t) = - Ga t.
Proof.
  unfold Ga. assert (E : RInt (fun y => scal (-1) (ga (-1 * y + 0))) 0 t = RInt ga (-1 * 0 + 0) (-1 * t + 0)) by (apply (RInt_comp_lin (V := R_CompleteNormedModule)); apply ga_int).
  replace (-1 * 0 + 0) with 0 in E by ring. replace (-1 * t + 0) with (- t) in E by ring. rewrite <- E.
  transitivity (RInt (fun y => opp (ga y)) 0 t).
  - apply RInt_ext. intros y _. unfold scal, opp. simpl. unfold mult. simpl. unfold ga. replace ((-1 * y + 0) ^ 2) with (y ^ 2) by ring. ring.
  - rewrite (RInt_opp (V := R_CompleteNormedModule)) by apply ga_int. reflexivity.
Qed.
Lemma sqrt_pi_pos : 0 < sqrt PI.
Proof. apply sqrt_lt_R0, PI_RGT_0. Qed.
(** The tail of the integral *)
Lemma Ga_limit t : 0 <= t -> Rabs (Ga t - sqrt PI / 2) <= 2 / sqrt PI * exp (- t ^ 2).
Proof.
  intros Ht. pose proof (sum_const t Ht) as S. pose proof (HH_bounds t) as (B1 & B2). pose proof (Ga_pos t Ht) as P. pose proof sqrt_pi_pos as Q.
  assert (SQ : sqrt PI * sqrt PI = PI) by (apply sqrt_sqrt; pose proof PI_RGT_0; lra).
  assert (K : (Ga t - sqrt PI / 2) * (Ga t + sqrt PI / 2) = - HH t) by (simpl in S; nra).
  assert (K2 : Rabs (Ga t - sqrt PI / 2) * (Ga t + sqrt PI / 2) = HH t).
  { rewrite <- (Rabs_right (Ga t + sqrt PI / 2)) by lra. rewrite <- Rabs_mult, K, Rabs_Ropp. apply Rabs_right. lra. }
  apply (Rmult_le_reg_r (sqrt PI / 2)); [lra|]. replace (2 / sqrt PI * exp (- t ^ 2) * (sqrt PI / 2)) with (exp (- t ^ 2)) by (field; lra).
  pose proof (Rabs_pos (Ga t - sqrt PI / 2)). nra.
Qed.

(** A broadened line integrates to its intensity *)
Lemma gauss_int w s i a b : 0 < s ->
  is_RInt (fun o => (1 / s) * (1 / sqrt (2 * PI)) * exp (- ((w - o) ^ 2) / (2 * s ^ 2)) * i) a b
    (i / sqrt PI * (Ga ((b - w) / (s * sqrt 2)) - Ga ((a - w) / (s * sqrt 2)))).
Proof.
  intros S. set (F := fun x => i / sqrt PI * Ga ((x - w) / (s * sqrt 2))).
  assert (S2 : 0 < sqrt 2) by (apply sqrt_lt_R0; lra). pose proof sqrt_pi_pos as SP.
  assert (Q2 : sqrt 2 * sqrt 2 = 2) by (apply sqrt_sqrt; lra).
  assert (SM : sqrt (2 * PI) = sqrt 2 * sqrt PI) by (apply sqrt_mult; pose proof PI_RGT_0; lra).
  assert (D : forall x, is_derive F x ((1 / s) * (1 / sqrt (2 * PI)) * exp (- ((w - x) ^ 2) / (2 * s ^ 2)) * i)).
  { intros x. unfold F. evar_last.
    - apply is_derive_scal. apply (is_derive_comp (V := R_NormedModule) Ga (fun x => (x - w) / (s * sqrt 2))); [apply Ga_derive|]. auto_derive; [exact I|reflexivity].
    - unfold scal; simpl; unfold mult; simpl. unfold ga. rewrite SM.
      replace (- ((x - w) / (s * sqrt 2)) ^ 2) with (- ((w - x) * ((w - x) * 1)) / (2 * (s * (s * 1)))).
      2:{ transitivity (- ((w - x) * (w - x)) / ((s * s) * (sqrt 2 * sqrt 2))); [rewrite Q2|]; field; lra. }
      field. lra. }
  replace (i / sqrt PI * (Ga ((b - w) / (s * sqrt 2)) - Ga ((a - w) / (s * sqrt 2)))) with (minus (F b) (F a)) by (unfold minus, plus, opp, F; simpl; ring).
  apply (is_RInt_derive (V := R_CompleteNormedModule) F); intros x _; auto.
  apply (ex_derive_continuous (V := R_NormedModule)). auto_derive. simpl. exact I.
Qed.
Lemma exp_neg_sq t : exp (- t ^ 2) <= / (1 + t ^ 2).
Proof.
  rewrite exp_Ropp. apply Rinv_le_contravar; [apply onex|]. pose proof (exp_ineq1_le (t ^ 2)). lra.
Qed.
