(** Intensities in double precision: their accuracy *)
From Coq Require Import ZArith Reals Bool List Lia Lra.
From Flocq Require Import Core.Core IEEE754.BinarySingleNaN.
From Verif Require Import Base LinAlg M_Spectrum M_Float M_Double S_Float S_Spectrum S_Double P_Float P_Float2 P_Double.
Import ListNotations.
Local Open Scope R_scope.

Lemma B2R_2 : B2R f2 = 2. Proof. unfold f2, B2R, F2R; simpl. lra. Qed.
Lemma B2R_3 : B2R f3 = 3. Proof. unfold f3, B2R, F2R; simpl. lra. Qed.
Lemma B2R_6 : B2R f6 = 6. Proof. unfold f6, B2R, F2R; simpl. lra. Qed.
Lemma B2R_7 : B2R f7 = 7. Proof. unfold f7, B2R, F2R; simpl. lra. Qed.
Lemma B2R_45 : B2R f45 = 45. Proof. unfold f45, B2R, F2R; simpl. lra. Qed.

Definition mid (m : R) : Prop := bpow radix2 (-450) <= m <= bpow radix2 500.

Lemma scale1 : forall c m, 1 <= c <= 256 -> mid m -> scale (c * m).
Proof.
  intros c m Hc [H1 H2]. assert (P := bpow_gt_0 radix2 (-450)). split.
  - apply Rle_trans with m; [|nra]. eapply Rle_trans; [|exact H1]. apply bpow_le. lia.
  - apply Rle_trans with (bpow radix2 8 * bpow radix2 500).
    + apply Rmult_le_compat; try lra. simpl. lra.
    + rewrite <- bpow_plus. apply bpow_le. lia.
Qed.
Lemma scale2 : forall c m, 1 <= c <= 256 -> mid m -> scale (c * (m * m)).
Proof.
  intros c m Hc [H1 H2]. assert (P := bpow_gt_0 radix2 (-450)).
  assert (L : bpow radix2 (-900) <= m * m).
  { change (-900)%Z with (-450 + -450)%Z. rewrite bpow_plus. apply Rmult_le_compat; lra. }
  assert (U : m * m <= bpow radix2 1000).
  { change 1000%Z with (500 + 500)%Z. rewrite bpow_plus. apply Rmult_le_compat; lra. }
  assert (Q := bpow_gt_0 radix2 (-900)). split.
  - apply Rle_trans with (m * m); [|nra]. eapply Rle_trans; [|exact L]. apply bpow_le. lia.
  - apply Rle_trans with (bpow radix2 8 * bpow radix2 1000).
    + apply Rmult_le_compat; try lra. simpl. lra.
    + rewrite <- bpow_plus. apply bpow_le. lia.
Qed.

Lemma u_small : 0 < u <= / 1000000.
Proof.
  split; [apply bpow_gt_0|]. apply Rle_trans with (bpow radix2 (-20)); [apply bpow_le; lia|]. simpl. lra.
Qed.

Lemma sq_le : forall a k, Rabs a <= k -> a ^ 2 <= k * k.
Proof. intros a k H. replace (a ^ 2) with (Rabs a * Rabs a) by (rewrite <- Rabs_mult; rewrite Rabs_pos_eq; [ring|apply Rle_0_sqr]). assert (P := Rabs_pos a). apply Rmult_le_compat; lra. Qed.
Lemma abs_sub2 : forall a b m, Rabs a <= m -> Rabs b <= m -> Rabs (a - b) <= 2 * m.
Proof. intros a b m A B. unfold Rminus. eapply Rle_trans; [apply Rabs_triang|]. rewrite Rabs_Ropp. lra. Qed.

Section Chain.
  Variables (xx yy zz xy xz yz : f64) (m : R).
  Hypothesis Hm : mid m.
  Hypothesis Fxx : finite xx. Hypothesis Fyy : finite yy. Hypothesis Fzz : finite zz.
  Hypothesis Fxy : finite xy. Hypothesis Fxz : finite xz. Hypothesis Fyz : finite yz.
  Hypothesis Bxx : Rabs (B2R xx) <= m. Hypothesis Byy : Rabs (B2R yy) <= m. Hypothesis Bzz : Rabs (B2R zz) <= m.
  Hypothesis Bxy : Rabs (B2R xy) <= m. Hypothesis Bxz : Rabs (B2R xz) <= m. Hypothesis Byz : Rabs (B2R yz) <= m.

  Let mpos : 0 < m. Proof. destruct Hm as [H _]. assert (P := bpow_gt_0 radix2 (-450)). lra. Qed.
  Let qpos : 0 < m * m. Proof. apply Rmult_lt_0_compat; exact mpos. Qed.
  Let um : 0 < u * m <= / 1000000 * m.
  Proof. destruct u_small as [A B]. split; [apply Rmult_lt_0_compat; [exact A|exact mpos]|]. apply Rmult_le_compat_r; [apply Rlt_le; exact mpos|exact B]. Qed.
  Let uq : 0 < u * (m * m) <= / 1000000 * (m * m).
  Proof. destruct u_small as [A B]. split; [apply Rmult_lt_0_compat; [exact A|exact qpos]|]. apply Rmult_le_compat_r; [apply Rlt_le; exact qpos|exact B]. Qed.
  Let uuq : 0 < (u * m) * (u * m) <= / 1000000 * (u * (m * m)).
  Proof.
    destruct u_small as [A B]. destruct um as [C D]. split; [apply Rmult_lt_0_compat; exact C|].
    replace (u * m * (u * m)) with (u * (u * (m * m))) by ring. apply Rmult_le_compat_r; [apply Rlt_le, uq|exact B].
  Qed.

  Lemma near_alpha : near (fsq (fdiv (fadd (fadd xx yy) zz) f3)) (((B2R xx + B2R yy + B2R zz) / 3) ^ 2) (11 * (u * (m * m))).
  Proof.
    assert (U1 := um). assert (U2 := uq). assert (U3 := uuq). assert (Q := qpos). assert (P := mpos).
    assert (A2 : Rabs (B2R xx + B2R yy) <= 2 * m) by (eapply Rle_trans; [apply Rabs_triang|]; lra).
    assert (A3 : Rabs (B2R xx + B2R yy + B2R zz) <= 3 * m) by (eapply Rle_trans; [apply Rabs_triang|]; lra).
    assert (N1 : near (fadd xx yy) (B2R xx + B2R yy) (2 * (u * m))).
    { eapply near_le; [apply near_add with (M := 2 * m); [apply near_self; exact Fxx|apply near_self; exact Fyy|apply scale1; [lra|exact Hm]|]|]; lra. }
    assert (N2 : near (fadd (fadd xx yy) zz) (B2R xx + B2R yy + B2R zz) (6 * (u * m))).
    { eapply near_le; [apply near_add with (M := 4 * m); [exact N1|apply near_self; exact Fzz|apply scale1; [lra|exact Hm]|]|]; lra. }
    assert (N3 : near (fdiv (fadd (fadd xx yy) zz) f3) ((B2R xx + B2R yy + B2R zz) / 3) (4 * (u * m))).
    { eapply near_le; [apply near_div with (M := 2 * m); [exact B2R_3|lra|exact N2|apply scale1; [lra|exact Hm]|]|]; lra. }
    assert (A4 : Rabs ((B2R xx + B2R yy + B2R zz) / 3) <= m).
    { unfold Rdiv. rewrite Rabs_mult, (Rabs_pos_eq (/3)) by lra. lra. }
    eapply near_le; [apply near_sq with (A := m) (M := 2 * (m * m)); [exact N3|apply scale2; [lra|exact Hm]|exact A4|]|]; lra.
  Qed.

  Lemma near_diff : forall a b, finite a -> finite b -> Rabs (B2R a) <= m -> Rabs (B2R b) <= m ->
    near (fsq (fsub a b)) ((B2R a - B2R b) ^ 2) (14 * (u * (m * m))) /\ 0 <= (B2R a - B2R b) ^ 2 <= 4 * (m * m).
  Proof.
    intros a b Fa Fb Ba Bb.
    assert (U1 := um). assert (U2 := uq). assert (U3 := uuq). assert (Q := qpos). assert (P := mpos).
    assert (A := abs_sub2 _ _ _ Ba Bb). split.
    - assert (N : near (fsub a b) (B2R a - B2R b) (2 * (u * m))).
      { eapply near_le; [apply near_sub with (M := 2 * m); [apply near_self; exact Fa|apply near_self; exact Fb|apply scale1; [lra|exact Hm]|]|]; lra. }
      eapply near_le; [apply near_sq with (A := 2 * m) (M := 5 * (m * m)); [exact N|apply scale2; [lra|exact Hm]|exact A|]|]; lra.
    - split; [apply pow2_ge_0|]. assert (S := sq_le _ _ A). lra.
  Qed.
  Lemma near_off : forall a, finite a -> Rabs (B2R a) <= m ->
    near (fsq a) (B2R a ^ 2) (1 * (u * (m * m))) /\ 0 <= B2R a ^ 2 <= m * m.
  Proof.
    intros a Fa Ba. assert (U2 := uq). assert (Q := qpos). split.
    - eapply near_le; [apply near_sq with (A := m) (M := 1 * (m * m)); [apply near_self; exact Fa|apply scale2; [lra|exact Hm]|exact Ba|]|]; lra.
    - split; [apply pow2_ge_0|]. apply sq_le; exact Ba.
  Qed.

  Lemma near_plus : forall x y a b ea eb A B M e, near x a (ea * (u * (m * m))) -> near y b (eb * (u * (m * m))) ->
    0 <= a <= A * (m * m) -> 0 <= b <= B * (m * m) -> 0 <= ea <= 10000 -> 0 <= eb <= 10000 -> 1 <= M <= 256 -> A + B + 1 <= M + / 2 -> ea + eb + M <= e ->
    near (fadd x y) (a + b) (e * (u * (m * m))) /\ 0 <= a + b <= (A + B) * (m * m).
  Proof.
    intros x y a b ea eb A B M e X Y HA HB E1 E2 HM H1 H2. assert (U2 := uq). assert (Q := qpos).
    assert (L1 : 0 <= ea * (u * (m * m)) <= / 100 * (m * m)).
    { split; [apply Rmult_le_pos; lra|]. apply Rle_trans with (10000 * (/ 1000000 * (m * m))); [apply Rmult_le_compat; lra|lra]. }
    assert (L2 : 0 <= eb * (u * (m * m)) <= / 100 * (m * m)).
    { split; [apply Rmult_le_pos; lra|]. apply Rle_trans with (10000 * (/ 1000000 * (m * m))); [apply Rmult_le_compat; lra|lra]. }
    assert (L3 : (A + B + / 2) * (m * m) <= M * (m * m)) by (apply Rmult_le_compat_r; lra).
    split; [|lra].
    eapply near_le; [apply near_add with (M := M * (m * m)); [exact X|exact Y|apply scale2; [lra|exact Hm]|]|].
    - rewrite Rabs_pos_eq by lra. lra.
    - replace (ea * (u * (m * m)) + eb * (u * (m * m)) + u * (M * (m * m))) with ((ea + eb + M) * (u * (m * m))) by ring.
      apply Rmult_le_compat_r; lra.
  Qed.
  Lemma near_times : forall c k x a ea A M e, finite c -> B2R c = k -> 1 <= k <= 50 -> near x a (ea * (u * (m * m))) ->
    0 <= a <= A * (m * m) -> 0 <= ea <= 200 -> 1 <= M <= 256 -> k * A + / 2 <= M -> k * ea + M <= e ->
    near (fmul c x) (k * a) (e * (u * (m * m))) /\ 0 <= k * a <= (k * A) * (m * m).
  Proof.
    intros c k x a ea A M e F K Kb X HA E1 HM H1 H2. assert (U2 := uq). assert (Q := qpos).
    assert (L0 : 0 <= k * ea <= 10000) by (split; [apply Rmult_le_pos; lra|apply Rle_trans with (50 * 200); [apply Rmult_le_compat; lra|lra]]).
    assert (L1 : 0 <= (k * ea) * (u * (m * m)) <= / 100 * (m * m)).
    { split; [apply Rmult_le_pos; lra|]. apply Rle_trans with (10000 * (/ 1000000 * (m * m))); [apply Rmult_le_compat; lra|lra]. }
    assert (L3 : (k * A + / 2) * (m * m) <= M * (m * m)) by (apply Rmult_le_compat_r; lra).
    assert (L4 : 0 <= k * a <= k * (A * (m * m))) by (split; [apply Rmult_le_pos; lra|apply Rmult_le_compat_l; lra]).
    split; [|lra].
    eapply near_le; [apply near_const with (M := M * (m * m)); [exact F|exact K|lra|exact X|apply scale2; [lra|exact Hm]|]|].
    - rewrite Rabs_pos_eq by lra. lra.
    - replace (k * (ea * (u * (m * m))) + u * (M * (m * m))) with ((k * ea + M) * (u * (m * m))) by ring.
      apply Rmult_le_compat_r; lra.
  Qed.

  Lemma near_gamma :
    near (fdiv (fadd (fadd (fadd (fsq (fsub xx yy)) (fsq (fsub xx zz))) (fsq (fsub yy zz)))
                     (fmul f6 (fadd (fadd (fsq xy) (fsq xz)) (fsq yz)))) f2)
         (((B2R xx - B2R yy) ^ 2 + (B2R xx - B2R zz) ^ 2 + (B2R yy - B2R zz) ^ 2
           + 6 * (B2R xy ^ 2 + B2R xz ^ 2 + B2R yz ^ 2)) / 2) (110 * (u * (m * m)))
    /\ 0 <= ((B2R xx - B2R yy) ^ 2 + (B2R xx - B2R zz) ^ 2 + (B2R yy - B2R zz) ^ 2
           + 6 * (B2R xy ^ 2 + B2R xz ^ 2 + B2R yz ^ 2)) / 2 <= 15 * (m * m).
  Proof.
    assert (U2 := uq). assert (Q := qpos).
    destruct (near_diff xx yy) as [N1 B1]; auto. destruct (near_diff xx zz) as [N2 B2]; auto. destruct (near_diff yy zz) as [N3 B3]; auto.
    destruct (near_off xy) as [O1 C1]; auto. destruct (near_off xz) as [O2 C2]; auto. destruct (near_off yz) as [O3 C3]; auto.
    destruct (near_plus _ _ _ _ _ _ 4 4 9 37 N1 N2) as [N4 B4]; try lra.
    destruct (near_plus _ _ _ _ _ _ (4 + 4) 4 13 64 N4 N3) as [N5 B5]; try lra.
    destruct (near_plus _ _ _ _ _ _ 1 1 3 5 O1 O2) as [O4 C4]; try lra.
    destruct (near_plus _ _ _ _ _ _ (1 + 1) 1 4 10 O4 O3) as [O5 C5]; try lra.
    destruct (near_times f6 6 _ _ _ (1 + 1 + 1) 19 79 eq_refl B2R_6 ltac:(lra) O5) as [O6 C6]; try lra.
    destruct (near_plus _ _ _ _ _ _ (4 + 4 + 4) (6 * (1 + 1 + 1)) 31 174 N5 O6) as [N7 B7]; try lra.
    split; [|lra].
    eapply near_le; [apply near_div with (M := 16 * (m * m)); [exact B2R_2|lra|exact N7|apply scale2; [lra|exact Hm]|]|].
    - rewrite Rabs_pos_eq by lra. lra.
    - lra.
  Qed.

  Lemma near_intensity :
    near (fadd (fmul f45 (fsq (fdiv (fadd (fadd xx yy) zz) f3)))
               (fmul f7 (fdiv (fadd (fadd (fadd (fsq (fsub xx yy)) (fsq (fsub xx zz))) (fsq (fsub yy zz)))
                     (fmul f6 (fadd (fadd (fsq xy) (fsq xz)) (fsq yz)))) f2)))
         (45 * ((B2R xx + B2R yy + B2R zz) / 3) ^ 2 +
          7 * (((B2R xx - B2R yy) ^ 2 + (B2R xx - B2R zz) ^ 2 + (B2R yy - B2R zz) ^ 2
           + 6 * (B2R xy ^ 2 + B2R xz ^ 2 + B2R yz ^ 2)) / 2)) (1600 * (u * (m * m))).
  Proof.
    assert (U2 := uq). assert (Q := qpos).
    assert (A := near_alpha). destruct near_gamma as [G1 G2].
    assert (AB : 0 <= ((B2R xx + B2R yy + B2R zz) / 3) ^ 2 <= 1 * (m * m)).
    { split; [apply pow2_ge_0|]. rewrite Rmult_1_l. apply sq_le. unfold Rdiv. rewrite Rabs_mult, (Rabs_pos_eq (/3)) by lra.
      assert (Rabs (B2R xx + B2R yy + B2R zz) <= 3 * m); [|lra].
      eapply Rle_trans; [apply Rabs_triang|]. assert (T := Rabs_triang (B2R xx) (B2R yy)). lra. }
    destruct (near_times f45 45 _ _ _ 1 46 541 eq_refl B2R_45 ltac:(lra) A) as [N1 B1]; try lra.
    destruct (near_times f7 7 _ _ _ 15 106 876 eq_refl B2R_7 ltac:(lra) G1) as [N2 B2]; try lra.
    destruct (near_plus _ _ _ _ _ _ (45 * 1) (7 * 15) 151 1600 N1 N2) as [N3 B3]; try lra.
    exact N3.
  Qed.
End Chain.
