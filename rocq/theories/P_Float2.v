(** Double-precision wrapping: the theorems of C08 *)
From Coq Require Import ZArith Reals Bool List Lia Lra.
From Flocq Require Import Core.Core IEEE754.BinarySingleNaN.
From Flocq Require Sterbenz.
From Verif Require Import Base LinAlg M_StructUtils P_StructUtils M_Float S_Float P_Float.
Import ListNotations.
Local Open Scope R_scope.

Lemma rnd_err : forall x k, (-1000 <= k)%Z -> Rabs x < bpow radix2 k -> Rabs (rnd x - x) <= bpow radix2 (k - 54).
Proof.
  intros x k Hk Hx. destruct (Req_dec x 0) as [->|Hn].
  { rewrite (rnd_id 0 fmt_0), Rminus_0_r, Rabs_R0. apply bpow_ge_0. }
  eapply Rle_trans; [apply error_le_half_ulp; exact _|].
  rewrite ulp_neq_0 by exact Hn. replace (bpow radix2 (k - 54)) with (/2 * bpow radix2 (k - 53)).
  - apply Rmult_le_compat_l; [lra|]. apply bpow_le. unfold cexp.
    assert (mag radix2 x <= k)%Z by (apply mag_le_bpow; assumption).
    unfold SpecFloat.fexp, SpecFloat.emin. lia.
  - change (/2) with (bpow radix2 (-1)). rewrite <- bpow_plus. f_equal. lia.
Qed.

Lemma fmt_B2R : forall x : f64, fmt (B2R x).
Proof. intros x. apply generic_format_B2R. Qed.

Lemma nearest_of : forall (y : f64) r, is_finite y = true -> B2R y = rnd r -> nearest_double y r.
Proof.
  intros y r Hf H. split; [exact Hf|]. intros z Hz. unfold value. rewrite H.
  destruct (round_N_pt radix2 fexp (fun n => negb (Z.even n)) r) as [_ P]. apply P. apply fmt_B2R.
Qed.

Lemma wrap_bound : forall r, Rabs (wrap r) < bpow radix2 0.
Proof. intros r. simpl. rewrite wrap_frac. generalize (frac_range r). intros. rewrite Rabs_pos_eq; lra. Qed.

Lemma f_C08_range : forall x, finite x -> finite (apply_pbc64 x) /\ 0 <= value (apply_pbc64 x) <= 1.
Proof.
  intros x Hx. destruct (pbc_spec x Hx) as [H1 H2]. split; [exact H2|]. unfold value. rewrite H1. apply rnd_frac_range.
Qed.

Lemma f_C08_rounded : forall x, finite x ->
  nearest_double (apply_pbc64 x) (wrap (value x)) /\
  Rabs (value (apply_pbc64 x) - wrap (value x)) <= / 2 ^ 54 /\
  (0 <= value x -> value (apply_pbc64 x) = wrap (value x)).
Proof.
  intros x Hx. destruct (pbc_spec x Hx) as [H1 H2]. split; [apply nearest_of; assumption|]. split.
  - unfold value. rewrite H1. replace (/ 2 ^ 54) with (bpow radix2 (0 - 54)).
    + apply rnd_err; [lia|]. apply wrap_bound.
    + simpl. lra.
  - intros Hp. unfold value in *. rewrite H1. apply rnd_id. rewrite wrap_frac.
    rewrite <- Ztrunc_floor by exact Hp. apply frac_fmt. exact Hx.
Qed.

(** ** When the result is exactly 1 *)
Definition tiny : f64 := @B754_finite 53 1024 true 4503599627370496 (-106) eq_refl.
Lemma B2R_tiny : B2R tiny = - / 2 ^ 54.
Proof. unfold tiny, B2R, F2R; simpl. lra. Qed.
Lemma tiny_plus : fadd tiny fone = fone.
Proof. apply B2SF_inj. vm_compute. reflexivity. Qed.
Lemma rnd_tie : rnd (1 - / 2 ^ 54) = 1.
Proof.
  destruct (fadd_small tiny fone eq_refl eq_refl) as [H _].
  - rewrite B2R_tiny, B2R_one. assert (B : 0 <= rnd (- / 2 ^ 54 + 1) <= 1).
    { apply rnd_bounds; [exact fmt_0|exact fmt_1|]. lra. }
    rewrite Rabs_pos_eq by lra. generalize two_lt_emax. lra.
  - rewrite tiny_plus, B2R_tiny, B2R_one in H. rewrite H at 2. f_equal. ring.
Qed.

Lemma pred_1 : pred radix2 fexp 1 = 1 - / 2 ^ 53.
Proof.
  change 1 with (bpow radix2 0) at 1. rewrite pred_bpow. simpl. lra.
Qed.
Lemma rnd_lt_1 : forall w, w < 1 - / 2 ^ 54 -> rnd w < 1.
Proof.
  intros w H. apply Rle_lt_trans with (1 - / 2 ^ 53).
  - rewrite <- pred_1. apply round_N_le_midp; [exact _|apply generic_format_pred; [exact _|exact fmt_1]|].
    rewrite succ_pred by (exact _ || exact fmt_1). rewrite pred_1. lra.
  - assert (0 < / 2 ^ 53) by (apply Rinv_0_lt_compat; lra). lra.
Qed.

Lemma fmt_lt_1 : forall w, fmt w -> w < 1 -> w <= 1 - / 2 ^ 53.
Proof. intros w H1 H2. rewrite <- pred_1. apply pred_ge_gt; [exact _|exact H1|exact fmt_1|exact H2]. Qed.

Lemma wrap_neg : forall r, -1 <= r < 0 -> wrap r = r + 1.
Proof. intros r H. rewrite wrap_frac. replace (Zfloor r) with (-1)%Z; [simpl; lra|]. symmetry. apply Zfloor_imp. simpl. lra. Qed.

Lemma f_C08_one : forall x, finite x -> (value (apply_pbc64 x) = 1 <-> - / 2 ^ 54 <= value x < 0).
Proof.
  intros x Hx. destruct (pbc_spec x Hx) as [H1 H2]. unfold value. rewrite H1.
  assert (P53 : / 2 ^ 53 = 2 * / 2 ^ 54) by lra.
  assert (P54 : 0 < / 2 ^ 54 < / 8) by (split; lra).
  split.
  - intros E. assert (W : 1 - / 2 ^ 54 <= wrap (B2R x)).
    { destruct (Rle_lt_dec (1 - / 2 ^ 54) (wrap (B2R x))) as [L|L]; [exact L|]. apply rnd_lt_1 in L. lra. }
    rewrite wrap_frac in W.
    destruct (floor_trunc (B2R x)) as (F0 & F1 & F2).
    assert (M : fmt (B2R x - IZR (Ztrunc (B2R x)))) by (apply frac_fmt; exact Hx).
    assert (FR := frac_range (B2R x)).
    destruct (Rtotal_order (B2R x - IZR (Ztrunc (B2R x))) 0) as [L|[L|L]].
    + rewrite (F1 L), minus_IZR in W, FR. simpl in W, FR.
      destruct (frac_form x Hx) as [E'|(m & e & E1 & E2 & E3 & E4 & _)]; [lra|].
      assert (T : Ztrunc (B2R x) = 0%Z).
      { destruct (Z.eq_dec (Ztrunc (B2R x)) 0) as [T|T]; [exact T|]. exfalso.
        assert (A1 : 1 <= Rabs (B2R x)).
        { destruct (Rle_lt_dec 1 (Rabs (B2R x))) as [K|K]; [exact K|]. exfalso. apply T.
          unfold Ztrunc. apply Rabs_def2 in K. destruct (Rlt_bool_spec (B2R x) 0) as [S|S].
          - apply Zceil_imp. simpl. lra.
          - apply Zfloor_imp. simpl. lra. }
        assert (A2 : (-52 <= e)%Z).
        { destruct (Z_le_gt_dec (-52) e) as [K|K]; [exact K|]. exfalso.
          assert (Hb : bpow radix2 (53 + e) <= bpow radix2 0) by (apply bpow_le; lia). change (bpow radix2 0) with 1 in Hb. lra. }
        assert (A3 : bpow radix2 (-52) <= Rabs (B2R x - IZR (Ztrunc (B2R x)))).
        { rewrite E1, Rabs_mult, (Rabs_pos_eq (bpow radix2 e)) by apply bpow_ge_0.
          apply Rle_trans with (1 * bpow radix2 e).
          - rewrite Rmult_1_l. apply bpow_le. exact A2.
          - apply Rmult_le_compat_r; [apply bpow_ge_0|]. rewrite <- abs_IZR. apply IZR_le.
            assert (m <> 0)%Z; [|lia]. intros ->. rewrite E1 in L. lra. }
        rewrite Rabs_left in A3 by exact L. change (bpow radix2 (-52)) with (/ 4503599627370496) in A3. lra. }
      rewrite T in *. simpl in *. lra.
    + rewrite (F0 L) in W, FR. lra.
    + rewrite (F2 L) in W, FR. apply fmt_lt_1 in M; lra.
  - intros H. rewrite wrap_neg by lra. apply Rle_antisym.
    + rewrite <- (rnd_id 1 fmt_1) at 2. apply rnd_le. lra.
    + rewrite <- rnd_tie at 1. apply rnd_le. lra.
Qed.

(** ** Idempotence *)
Lemma f_C08_idem : forall x, finite x -> ~ (- / 2 ^ 54 <= value x < 0) ->
  value (apply_pbc64 (apply_pbc64 x)) = value (apply_pbc64 x).
Proof.
  intros x Hx Hn. destruct (f_C08_range x Hx) as [H1 H2].
  destruct (f_C08_rounded (apply_pbc64 x) H1) as (_ & _ & H3). rewrite H3 by lra.
  assert (value (apply_pbc64 x) <> 1) by (rewrite f_C08_one by exact Hx; exact Hn).
  rewrite wrap_frac. replace (Zfloor (value (apply_pbc64 x))) with 0%Z; [simpl; lra|].
  symmetry. apply Zfloor_imp. simpl. lra.
Qed.

Lemma f_C08_idem_fails : forall x, finite x -> - / 2 ^ 54 <= value x < 0 ->
  value (apply_pbc64 x) = 1 /\ value (apply_pbc64 (apply_pbc64 x)) = 0.
Proof.
  intros x Hx H. destruct (f_C08_range x Hx) as [H1 _].
  assert (E : value (apply_pbc64 x) = 1) by (apply f_C08_one; assumption). split; [exact E|].
  destruct (f_C08_rounded (apply_pbc64 x) H1) as (_ & _ & H3). rewrite H3 by lra. rewrite E, wrap_frac.
  replace (Zfloor 1) with 1%Z; [simpl; lra|]. symmetry. apply (Zfloor_IZR 1).
Qed.

(** ** Displacements *)
Lemma half_fmt : fmt (/ 2).
Proof. rewrite <- B2R_half. apply fmt_B2R. Qed.

Lemma disp_spec : forall d, is_finite d = true ->
  is_finite (apply_pbc_displacement64 d) = true /\
  (let m := rnd (wrap (B2R d)) in
   (/ 2 < m /\ B2R (apply_pbc_displacement64 d) = m - 1) \/ (m <= / 2 /\ B2R (apply_pbc_displacement64 d) = m)).
Proof.
  intros d Hd. destruct (rem_spec d Hd) as [R1 R2]. assert (B := rnd_frac_range (B2R d)).
  rewrite <- wrap_frac in B. unfold apply_pbc_displacement64.
  rewrite Bltb_spec by (assumption || reflexivity). rewrite B2R_half, R1.
  destruct (Rlt_bool_spec (/ 2) (rnd (wrap (B2R d)))) as [L|L].
  - assert (G : fmt (rnd (wrap (B2R d)) - 1)).
    { apply Sterbenz.sterbenz; [exact _|exact _|rewrite <- R1; apply fmt_B2R|exact fmt_1|lra]. }
    destruct (fsub_small (remainder1 d) fone R2 eq_refl) as [S1 S2].
    { rewrite R1, B2R_one, rnd_id by exact G. apply Rle_lt_trans with 1; [apply Rabs_le; lra|]. generalize two_lt_emax. lra. }
    rewrite R1, B2R_one, (rnd_id _ G) in S1. split; [exact S2|]. left. split; [exact L|exact S1].
  - split; [exact R2|]. right. split; [exact L|exact R1].
Qed.

Lemma f_C08_disp_range : forall d, finite d ->
  finite (apply_pbc_displacement64 d) /\ - / 2 < value (apply_pbc_displacement64 d) <= / 2.
Proof.
  intros d Hd. destruct (disp_spec d Hd) as [H1 H2]. split; [exact H1|]. unfold value.
  assert (B := rnd_frac_range (B2R d)). rewrite <- wrap_frac in B.
  destruct H2 as [[L ->]|[L ->]]; lra.
Qed.

Lemma site_trans : forall e1 e2 a b c, same_site e1 a b -> same_site e2 b c -> same_site (e1 + e2) a c.
Proof.
  intros e1 e2 a b c [k H1] [l H2]. exists (k + l)%Z. rewrite plus_IZR.
  replace (a - c - (IZR k + IZR l)) with ((a - b - IZR k) + (b - c - IZR l)) by ring.
  eapply Rle_trans; [apply Rabs_triang|]. lra.
Qed.
Lemma site_sym : forall e a b, same_site e a b -> same_site e b a.
Proof.
  intros e a b [k H]. exists (- k)%Z. rewrite opp_IZR. replace (b - a - - IZR k) with (- (a - b - IZR k)) by ring.
  rewrite Rabs_Ropp. exact H.
Qed.
Lemma site_plus : forall e1 e2 a b c d, same_site e1 a b -> same_site e2 c d -> same_site (e1 + e2) (a + c) (b + d).
Proof.
  intros e1 e2 a b c d [k H1] [l H2]. exists (k + l)%Z. rewrite plus_IZR.
  replace (a + c - (b + d) - (IZR k + IZR l)) with ((a - b - IZR k) + (c - d - IZR l)) by ring.
  eapply Rle_trans; [apply Rabs_triang|]. lra.
Qed.
Lemma site_minus : forall e1 e2 a b c d, same_site e1 a b -> same_site e2 c d -> same_site (e1 + e2) (a - c) (b - d).
Proof.
  intros e1 e2 a b c d [k H1] [l H2]. exists (k - l)%Z. rewrite minus_IZR.
  replace (a - c - (b - d) - (IZR k - IZR l)) with ((a - b - IZR k) - (c - d - IZR l)) by ring.
  eapply Rle_trans; [apply Rabs_triang|]. rewrite Rabs_Ropp. lra.
Qed.
Lemma site_near : forall e a b, Rabs (a - b) <= e -> same_site e a b.
Proof. intros e a b H. exists 0%Z. rewrite Rminus_0_r. exact H. Qed.
Lemma site_le : forall e e' a b, e <= e' -> same_site e a b -> same_site e' a b.
Proof. intros e e' a b H [k K]. exists k. lra. Qed.
Lemma site_wrap : forall r, same_site 0 (wrap r) r.
Proof.
  intros r. exists (- Zfloor r)%Z. rewrite wrap_frac, opp_IZR.
  replace (r - IZR (Zfloor r) - r - - IZR (Zfloor r)) with 0 by ring. rewrite Rabs_R0. lra.
Qed.

Lemma f_C08_pbc_site : forall x, finite x -> same_site (/ 2 ^ 54) (value (apply_pbc64 x)) (value x).
Proof.
  intros x Hx. destruct (f_C08_rounded x Hx) as (_ & H & _).
  replace (/ 2 ^ 54) with (/ 2 ^ 54 + 0) by lra. eapply site_trans; [apply site_near; exact H|apply site_wrap].
Qed.

Lemma f_C08_disp_site : forall d, finite d ->
  same_site (/ 2 ^ 54) (value (apply_pbc_displacement64 d)) (value d) /\
  (0 <= value d -> value (apply_pbc_displacement64 d) = wrapd (value d)).
Proof.
  intros d Hd. destruct (disp_spec d Hd) as [_ H2]. split.
  - assert (S : same_site (/ 2 ^ 54) (rnd (wrap (B2R d))) (value d)).
    { replace (/ 2 ^ 54) with (/ 2 ^ 54 + 0) by lra. eapply site_trans; [|apply site_wrap].
      apply site_near. replace (/ 2 ^ 54) with (bpow radix2 (0 - 54)) by (simpl; lra).
      apply rnd_err; [lia|]. apply wrap_bound. }
    unfold value at 1. destruct H2 as [[_ ->]|[_ ->]]; [|exact S].
    destruct S as [k K]. exists (k - 1)%Z. rewrite minus_IZR.
    replace (rnd (wrap (B2R d)) - 1 - value d - (IZR k - 1)) with (rnd (wrap (B2R d)) - value d - IZR k) by ring.
    exact K.
  - intros Hp. assert (E : rnd (wrap (B2R d)) = wrap (B2R d)).
    { apply rnd_id. rewrite wrap_frac. rewrite <- Ztrunc_floor by exact Hp. apply frac_fmt. exact Hd. }
    rewrite E in H2. unfold value. unfold wrapd, rmod1, rfloor. change (up (B2R d) - 1)%Z with (Zfloor (B2R d)).
    rewrite <- wrap_frac. unfold Rltb. destruct H2 as [[L ->]|[L ->]]; destruct (Rlt_dec (/ 2) (wrap (B2R d))); try reflexivity; lra.
Qed.

(** ** Two-argument functions *)
Lemma sum_spec : forall a b : f64, is_finite a = true -> is_finite b = true -> Rabs (B2R a + B2R b) < 2 ->
  is_finite (fadd a b) = true /\ Rabs (B2R (fadd a b) - (B2R a + B2R b)) <= / 2 ^ 53.
Proof.
  intros a b Ha Hb H.
  assert (E : Rabs (rnd (B2R a + B2R b) - (B2R a + B2R b)) <= / 2 ^ 53).
  { replace (/ 2 ^ 53) with (bpow radix2 (1 - 54)) by (simpl; lra). apply rnd_err; [lia|]. simpl. exact H. }
  destruct (fadd_small a b Ha Hb) as [H1 H2].
  - apply Rle_lt_trans with 3; [|generalize two_lt_emax; lra]. apply Rabs_le. apply Rabs_def2 in H.
    assert (/ 2 ^ 53 < 1) by lra. apply Rabs_le_inv in E. lra.
  - split; [exact H2|]. rewrite H1. exact E.
Qed.
Lemma dif_spec : forall a b : f64, is_finite a = true -> is_finite b = true -> Rabs (B2R a - B2R b) < 2 ->
  is_finite (fsub a b) = true /\ Rabs (B2R (fsub a b) - (B2R a - B2R b)) <= / 2 ^ 53.
Proof.
  intros a b Ha Hb H.
  assert (E : Rabs (rnd (B2R a - B2R b) - (B2R a - B2R b)) <= / 2 ^ 53).
  { replace (/ 2 ^ 53) with (bpow radix2 (1 - 54)) by (simpl; lra). apply rnd_err; [lia|]. simpl. exact H. }
  destruct (fsub_small a b Ha Hb) as [H1 H2].
  - apply Rle_lt_trans with 3; [|generalize two_lt_emax; lra]. apply Rabs_le. apply Rabs_def2 in H.
    assert (/ 2 ^ 53 < 1) by lra. apply Rabs_le_inv in E. lra.
  - split; [exact H2|]. rewrite H1. exact E.
Qed.

Lemma f_C08_displace : forall p d, finite p -> finite d ->
  finite (displace_positions64 p d) /\ 0 <= value (displace_positions64 p d) <= 1 /\
  same_site (5 / 2 ^ 54) (value (displace_positions64 p d)) (value p + value d).
Proof.
  intros p d Hp Hd. destruct (f_C08_range p Hp) as [P1 P2]. destruct (f_C08_disp_range d Hd) as [D1 D2].
  destruct (sum_spec (apply_pbc64 p) (apply_pbc_displacement64 d) P1 D1) as [S1 S2].
  { unfold value in *. apply Rabs_def1; lra. }
  destruct (f_C08_range _ S1) as [R1 R2]. split; [exact R1|]. split; [exact R2|].
  replace (5 / 2 ^ 54) with (/ 2 ^ 54 + (/ 2 ^ 53 + (/ 2 ^ 54 + / 2 ^ 54))) by lra.
  eapply site_trans; [apply f_C08_pbc_site; exact S1|].
  eapply site_trans; [apply site_near; exact S2|].
  apply site_plus; [apply f_C08_pbc_site; exact Hp|apply f_C08_disp_site; exact Hd].
Qed.

Lemma f_C08_calc : forall p q, finite p -> finite q ->
  finite (calc_displacement64 p q) /\ - / 2 < value (calc_displacement64 p q) <= / 2 /\
  same_site (5 / 2 ^ 54) (value (calc_displacement64 p q)) (value q - value p).
Proof.
  intros p q Hp Hq. destruct (f_C08_range p Hp) as [P1 P2]. destruct (f_C08_range q Hq) as [Q1 Q2].
  destruct (dif_spec (apply_pbc64 q) (apply_pbc64 p) Q1 P1) as [S1 S2].
  { unfold value in *. apply Rabs_def1; lra. }
  destruct (f_C08_disp_range _ S1) as [R1 R2]. split; [exact R1|]. split; [exact R2|].
  replace (5 / 2 ^ 54) with (/ 2 ^ 54 + (/ 2 ^ 53 + (/ 2 ^ 54 + / 2 ^ 54))) by lra.
  eapply site_trans; [apply f_C08_disp_site; exact S1|].
  eapply site_trans; [apply site_near; exact S2|].
  apply site_minus; apply f_C08_pbc_site; assumption.
Qed.

Lemma f_C08_inverse : forall p d, finite p -> finite d ->
  same_site (10 / 2 ^ 54) (value (calc_displacement64 p (displace_positions64 p d))) (value d).
Proof.
  intros p d Hp Hd. destruct (f_C08_displace p d Hp Hd) as (F & _ & S1).
  destruct (f_C08_calc p _ Hp F) as (_ & _ & S2).
  replace (10 / 2 ^ 54) with (5 / 2 ^ 54 + 5 / 2 ^ 54) by lra. eapply site_trans; [exact S2|].
  destruct S1 as [k K]. exists k.
  replace (value (displace_positions64 p d) - value p - value d - IZR k)
    with (value (displace_positions64 p d) - (value p + value d) - IZR k) by ring. exact K.
Qed.

(** ** Non-finite coordinates and validation *)
Lemma pbc_nonfinite : forall x, is_finite x = false -> apply_pbc64 x = B754_nan.
Proof. intros [s|s| |s m e h]; try discriminate; intros _; [destruct s|]; vm_compute; reflexivity. Qed.

Lemma in_range64 : forall x, finite x -> 0 <= value x <= 1 -> Bltb x (fzero false) = false /\ Bltb fone x = false.
Proof.
  intros x Hx H. unfold value in H. rewrite !Bltb_spec by (assumption || reflexivity). rewrite B2R_one.
  change (B2R (fzero false)) with 0. rewrite !Rlt_bool_false by lra. split; reflexivity.
Qed.

Lemma range_error_iff : forall a, range_error64 a = false <->
  Forall (fun x => Bltb x (fzero false) = false /\ Bltb fone x = false) a.
Proof.
  intros a. unfold range_error64. rewrite orb_false_iff. induction a as [|x a IH]; cbn [existsb].
  - split; [constructor|split; reflexivity].
  - rewrite !orb_false_iff. split.
    + intros [[H1 H2] [H3 H4]]. constructor; [split; assumption|]. apply IH. split; assumption.
    + intros H. inversion H as [|? ? [H1 H2] H3]; subst. apply IH in H3. tauto.
Qed.

Lemma forall_iff : forall {A} (P Q : A -> Prop) l, (forall x, P x <-> Q x) -> (Forall P l <-> Forall Q l).
Proof. intros A P Q l H. split; intros K; eapply Forall_impl; try exact K; intros x; apply H. Qed.

Lemma f_C08_verify_iff : forall a, range_error64 a = false <->
  Forall (fun x => (finite x /\ 0 <= value x <= 1) \/ x = B754_nan) a.
Proof.
  intros a. rewrite range_error_iff. apply forall_iff. intros x. split.
  - intros [H1 H2]. destruct (is_finite x) eqn:F.
    + left. split; [exact F|]. rewrite Bltb_spec in H1, H2 by (assumption || reflexivity). rewrite B2R_one in H2.
      change (B2R (fzero false)) with 0 in H1.
      destruct (Rlt_bool_spec (B2R x) 0); [discriminate|]. destruct (Rlt_bool_spec 1 (B2R x)); [discriminate|].
      unfold value. lra.
    + right. destruct x as [s|s| |s m e h]; try discriminate F; [|reflexivity].
      destruct s; [discriminate H1|discriminate H2].
  - intros [[F H]| ->]; [apply in_range64; assumption|]. split; reflexivity.
Qed.

Lemma pbc_ok : forall x, (finite (apply_pbc64 x) /\ 0 <= value (apply_pbc64 x) <= 1) \/ apply_pbc64 x = B754_nan.
Proof.
  intros x. destruct (is_finite x) eqn:F; [left; apply f_C08_range; exact F|right; apply pbc_nonfinite; exact F].
Qed.
Lemma f_C08_accepted : forall a, range_error64 (map apply_pbc64 a) = false.
Proof.
  intros a. apply f_C08_verify_iff. apply Forall_forall. intros y Hy. apply in_map_iff in Hy.
  destruct Hy as (x & <- & _). apply pbc_ok.
Qed.
Lemma f_C08_displaced_accepted : forall l, range_error64 (map (fun pd => displace_positions64 (fst pd) (snd pd)) l) = false.
Proof.
  intros l. apply f_C08_verify_iff. apply Forall_forall. intros y Hy. apply in_map_iff in Hy.
  destruct Hy as (x & <- & _). apply pbc_ok.
Qed.

(** ** A concrete coordinate *)
Definition ex_tiny : f64 := @B754_finite 53 1024 true 5902958103587057 (-119) eq_refl. (* about -1e-20 *)
Lemma ex_tiny_range : finite ex_tiny /\ - / 2 ^ 54 <= value ex_tiny < 0.
Proof. split; [reflexivity|]. unfold value, ex_tiny, B2R, F2R; simpl. lra. Qed.
Lemma f_C08_half_open_refuted : ~ (forall x, finite x -> value (apply_pbc64 x) < 1).
Proof.
  intros H. destruct ex_tiny_range as [F R]. specialize (H ex_tiny F).
  destruct (f_C08_idem_fails ex_tiny F R) as [E _]. lra.
Qed.
Lemma f_C08_idem_refuted : ~ (forall x, finite x -> value (apply_pbc64 (apply_pbc64 x)) = value (apply_pbc64 x)).
Proof.
  intros H. destruct ex_tiny_range as [F R]. specialize (H ex_tiny F).
  destruct (f_C08_idem_fails ex_tiny F R) as [E E']. lra.
Qed.
