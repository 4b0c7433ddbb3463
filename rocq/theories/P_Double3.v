(** Intensities in double precision: the theorems *)
From Coq Require Import ZArith Reals Bool List Lia Lra.
From Flocq Require Import Core.Core IEEE754.BinarySingleNaN.
From Verif Require Import Base LinAlg M_Spectrum M_Float M_Double S_Float S_Spectrum S_Double
  P_Float P_Float2 P_Spectrum P_Double P_Double2.
Import ListNotations.
Local Open Scope R_scope.

Lemma max6 : forall f : nat -> nat -> R, exists i j, (i <= j < 3)%nat /\ forall i' j', (i' <= j' < 3)%nat -> f i' j' <= f i j.
Proof.
  intros f.
  assert (G : forall l : list (nat * nat), l <> [] -> exists p, In p l /\ forall q, In q l -> f (fst q) (snd q) <= f (fst p) (snd p)).
  { induction l as [|p l IH]; [congruence|]. intros _. destruct l as [|p' l'].
    - exists p. split; [left; reflexivity|]. intros q [->|[]]. lra.
    - destruct IH as (p0 & I0 & M0); [discriminate|].
      destruct (Rle_or_lt (f (fst p) (snd p)) (f (fst p0) (snd p0))) as [H|H].
      + exists p0. split; [right; exact I0|]. intros q [->|Q]; [exact H|apply M0; exact Q].
      + exists p. split; [left; reflexivity|]. intros q [->|Q]; [lra|]. specialize (M0 q Q). lra. }
  destruct (G [(0,0);(1,1);(2,2);(0,1);(0,2);(1,2)]%nat) as ([i j] & I & M); [discriminate|].
  exists i, j. split.
  - simpl in I. repeat (destruct I as [I|I]; [injection I as <- <-; lia|]). destruct I.
  - intros i' j' H. apply (M (i', j')). simpl.
    assert (C : (i' = 0 /\ j' = 0 \/ i' = 1 /\ j' = 1 \/ i' = 2 /\ j' = 2 \/ i' = 0 /\ j' = 1 \/ i' = 0 /\ j' = 2 \/ i' = 1 /\ j' = 2)%nat) by lia.
    destruct C as [[-> ->]|[[-> ->]|[[-> ->]|[[-> ->]|[[-> ->]|[-> ->]]]]]]; tauto.
Qed.

Lemma rabs_bounds : forall x y, Rabs x <= y -> - y <= x <= y.
Proof. intros x y H. generalize (Rle_abs x) (Rle_abs (- x)). rewrite Rabs_Ropp. lra. Qed.
Lemma bpow_2 : forall n, bpow radix2 (Z.of_nat n) = 2 ^ n.
Proof. intros n. rewrite bpow_powerRZ. simpl. rewrite <- pow_powerRZ. reflexivity. Qed.
Lemma bpow_inv2 : forall n, bpow radix2 (- Z.of_nat n) = / 2 ^ n.
Proof. intros n. rewrite bpow_opp, bpow_2. reflexivity. Qed.

Lemma form : forall t : tensor64, 45 * ((value (t 0%nat 0%nat) + value (t 1%nat 1%nat) + value (t 2%nat 2%nat)) / 3) ^ 2 +
          7 * (((value (t 0%nat 0%nat) - value (t 1%nat 1%nat)) ^ 2 + (value (t 0%nat 0%nat) - value (t 2%nat 2%nat)) ^ 2 + (value (t 1%nat 1%nat) - value (t 2%nat 2%nat)) ^ 2
           + 6 * (value (t 0%nat 1%nat) ^ 2 + value (t 0%nat 2%nat) ^ 2 + value (t 1%nat 2%nat) ^ 2)) / 2) = textbook_intensity (real_tensor t).
Proof.
  intros t. unfold textbook_intensity, mean_polarizability, anisotropy_squared, mtrace, real_tensor, entry. simpl. field.
Qed.

(** the intensity is at least 10.5 times the square of the largest entry *)
Lemma form_lower : forall t i j, (i <= j < 3)%nat -> 21 / 2 * (value (t i j)) ^ 2 <= textbook_intensity (real_tensor t).
Proof.
  intros t i j H. rewrite <- form.
  set (a := value (t 0 0)%nat). set (b := value (t 1 1)%nat). set (c := value (t 2 2)%nat).
  set (d := value (t 0 1)%nat). set (e := value (t 0 2)%nat). set (f := value (t 1 2)%nat).
  assert (E : 45 * ((a + b + c) / 3) ^ 2 + 7 * (((a - b) ^ 2 + (a - c) ^ 2 + (b - c) ^ 2 + 6 * (d ^ 2 + e ^ 2 + f ^ 2)) / 2)
    = 21 / 2 * (a ^ 2 + b ^ 2 + c ^ 2 + 2 * (d ^ 2 + e ^ 2 + f ^ 2)) + 3 / 2 * (a + b + c) ^ 2) by field.
  rewrite E.
  assert (A := pow2_ge_0 a). assert (B := pow2_ge_0 b). assert (C := pow2_ge_0 c).
  assert (D := pow2_ge_0 d). assert (E' := pow2_ge_0 e). assert (F := pow2_ge_0 f). assert (G := pow2_ge_0 (a + b + c)).
  assert (K : (i = 0 /\ j = 0 \/ i = 1 /\ j = 1 \/ i = 2 /\ j = 2 \/ i = 0 /\ j = 1 \/ i = 0 /\ j = 2 \/ i = 1 /\ j = 2)%nat) by lia.
  destruct K as [[-> ->]|[[-> ->]|[[-> ->]|[[-> ->]|[[-> ->]|[-> ->]]]]]]; fold a b c d e f; lra.
Qed.

Lemma f_C37_double_accuracy : forall t, finite_tensor t -> sized (/ 2 ^ 450) (2 ^ 500) t ->
  finite (intensity64 t) /\
  Rabs (value (intensity64 t) - textbook_intensity (real_tensor t)) <= / 2 ^ 45 * textbook_intensity (real_tensor t).
Proof.
  intros t F [(i0 & j0 & H0 & L0) U].
  destruct (max6 (fun i j => Rabs (value (t i j)))) as (i & j & H & M).
  set (m := Rabs (value (t i j))) in *.
  assert (Hm : mid m).
  { split.
    - change (-450)%Z with (- Z.of_nat 450)%Z. rewrite bpow_inv2. eapply Rle_trans; [exact L0|]. apply M. exact H0.
    - change 500%Z with (Z.of_nat 500). rewrite bpow_2. apply U. exact H. }
  assert (N := near_intensity (t 0 0)%nat (t 1 1)%nat (t 2 2)%nat (t 0 1)%nat (t 0 2)%nat (t 1 2)%nat m Hm).
  destruct N as [N1 N2]; try (apply F; lia); try (apply M; lia).
  split; [exact N1|]. assert (G := form t). unfold value in G at 1 2 3 4 5 6 7 8 9 10 11 12. unfold value in N2.
  fold (alpha_squared64 t) in N2. fold (gamma_squared64 t) in N2. fold (intensity64 t) in N2.
  rewrite G in N2. unfold value at 1. eapply Rle_trans; [exact N2|].
  assert (Lw := form_lower t i j H).
  assert (E : (value (t i j)) ^ 2 = m * m).
  { unfold m. rewrite <- Rabs_mult, Rabs_pos_eq; [ring|apply Rle_0_sqr]. }
  rewrite E in Lw. replace (/ 2 ^ 45) with (bpow radix2 (-45)) by (change (-45)%Z with (- Z.of_nat 45)%Z; apply bpow_inv2).
  replace (bpow radix2 (-45)) with (256 * u) by (replace 256 with (bpow radix2 8) by (simpl; lra); rewrite <- bpow_plus; reflexivity).
  assert (P := u_small). replace (1600 * (u * (m * m))) with (u * (1600 * (m * m))) by ring.
  replace (256 * u * textbook_intensity (real_tensor t)) with (u * (256 * textbook_intensity (real_tensor t))) by ring.
  apply Rmult_le_compat_l; [lra|]. assert (0 <= m * m) by apply Rle_0_sqr. lra.
Qed.

Lemma f_C37_double_positive : forall t, finite_tensor t -> sized (/ 2 ^ 450) (2 ^ 500) t -> 0 < value (intensity64 t).
Proof.
  intros t F S. destruct (f_C37_double_accuracy t F S) as [_ A]. destruct S as [(i & j & H & L) _].
  assert (Lw := form_lower t i j H).
  assert (P : 0 < / 2 ^ 450) by (apply Rinv_0_lt_compat, pow_lt; lra).
  assert (Q : 0 < (value (t i j)) ^ 2).
  { replace (value (t i j) ^ 2) with (Rabs (value (t i j)) * Rabs (value (t i j))).
    - apply Rmult_lt_0_compat; lra.
    - rewrite <- Rabs_mult, Rabs_pos_eq; [ring|apply Rle_0_sqr]. }
  assert (B : / 2 ^ 45 <= / 2).
  { apply Rinv_le_contravar; [lra|]. replace 2 with (2 ^ 1) at 1 by ring. apply Rle_pow; [lra|lia]. }
  set (x := value (intensity64 t)) in *. set (y := textbook_intensity (real_tensor t)) in *.
  assert (Rabs (x - y) <= / 2 * y).
  { eapply Rle_trans; [exact A|]. apply Rmult_le_compat_r; lra. }
  apply rabs_bounds in H0. lra.
Qed.

Lemma f_C36_double : forall t t' q, finite_tensor t -> finite_tensor t' ->
  sized (/ 2 ^ 450) (2 ^ 500) t -> sized (/ 2 ^ 450) (2 ^ 500) t' ->
  orthogonal q -> symmetric3 (real_tensor t) -> real_tensor t' = rotated q (real_tensor t) ->
  Rabs (value (intensity64 t') - value (intensity64 t)) <= / 2 ^ 43 * value (intensity64 t).
Proof.
  intros t t' q F F' S S' O Sy E.
  destruct (f_C37_double_accuracy t F S) as [_ A]. destruct (f_C37_double_accuracy t' F' S') as [_ A'].
  assert (T : textbook_intensity (real_tensor t') = textbook_intensity (real_tensor t)).
  { rewrite E, <- !poly_textbook. apply poly_rotated; assumption. }
  rewrite T in A'. assert (P := f_C37_double_positive t F S).
  set (x := value (intensity64 t)) in *. set (x' := value (intensity64 t')) in *. set (y := textbook_intensity (real_tensor t)) in *.
  assert (B : / 2 ^ 45 <= / 4).
  { apply Rinv_le_contravar; [lra|]. replace 4 with (2 ^ 2) by ring. apply Rle_pow; [lra|lia]. }
  assert (C : / 2 ^ 43 = 4 * / 2 ^ 45).
  { replace (2 ^ 45) with (4 * 2 ^ 43) by ring. rewrite Rinv_mult_distr; [field; apply pow_nonzero; lra|lra|apply pow_nonzero; lra]. }
  rewrite C. set (e := / 2 ^ 45) in *.
  assert (Ep : 0 < e) by (apply Rinv_0_lt_compat, pow_lt; lra).
  assert (Yp : 0 <= y).
  { destruct S as [(i & j & H & _) _]. assert (Lw := form_lower t i j H). assert (Q := pow2_ge_0 (value (t i j))). unfold y. lra. }
  assert (I1 := rabs_bounds _ _ A).
  assert (I2 := rabs_bounds _ _ A').
  assert (Yx : y <= 2 * x). { assert (e * y <= / 4 * y) by (apply Rmult_le_compat_r; lra). lra. }
  assert (e * y <= e * (2 * x)) by (apply Rmult_le_compat_l; lra).
  apply Rabs_le. lra.
Qed.

Lemma zero_form : forall x, finite x -> value x = 0 -> exists s, x = B754_zero s.
Proof.
  intros [s|s| |s m e B] H V; try discriminate; [exists s; reflexivity|]. exfalso. unfold value in V. simpl in V.
  apply eq_0_F2R in V. simpl in V. destruct s; discriminate.
Qed.
Lemma f_C37_double_zero : forall t, finite_tensor t -> (forall i j, (i <= j < 3)%nat -> value (t i j) = 0) -> intensity64 t = fzero false.
Proof.
  intros t F Z. unfold intensity64, alpha_squared64, gamma_squared64.
  destruct (zero_form (t 0 0)%nat) as [a ->]; [apply F; lia|apply Z; lia|].
  destruct (zero_form (t 1 1)%nat) as [b ->]; [apply F; lia|apply Z; lia|].
  destruct (zero_form (t 2 2)%nat) as [c ->]; [apply F; lia|apply Z; lia|].
  destruct (zero_form (t 0 1)%nat) as [d ->]; [apply F; lia|apply Z; lia|].
  destruct (zero_form (t 0 2)%nat) as [e ->]; [apply F; lia|apply Z; lia|].
  destruct (zero_form (t 1 2)%nat) as [f ->]; [apply F; lia|apply Z; lia|].
  apply B2SF_inj. destruct a, b, c, d, e, f; vm_compute; reflexivity.
Qed.

(** ** Tensors too small and too large *)
Definition fexp2 (e : Z) (H : SpecFloat.bounded 53 1024 4503599627370496 e = true) : f64 := B754_finite false 4503599627370496 e H.
Definition small_tensor : tensor64 := fun _ _ => fexp2 (-652) eq_refl.
Definition large_tensor : tensor64 := fun _ _ => fexp2 500 eq_refl.
Lemma f_C37_double_underflow : exists t, finite_tensor t /\ 0 < textbook_intensity (real_tensor t) /\ intensity64 t = fzero false.
Proof.
  exists small_tensor. split; [intros i j _ _; reflexivity|]. split.
  - assert (H := form_lower small_tensor 0 0 ltac:(lia)).
    assert (P : 0 < value (small_tensor 0%nat 0%nat)).
    { unfold value, small_tensor, fexp2. simpl. apply F2R_gt_0. simpl. lia. }
    assert (0 < value (small_tensor 0%nat 0%nat) ^ 2) by (apply pow_lt; exact P). lra.
  - apply B2SF_inj. vm_compute. reflexivity.
Qed.
Lemma f_C37_double_overflow : exists t, finite_tensor t /\ intensity64 t = plus_infinity.
Proof. exists large_tensor. split; [intros i j _ _; reflexivity|]. apply B2SF_inj. vm_compute. reflexivity. Qed.

(** ** Examples *)
Definition ex_t64 : tensor64 := fun i j => match i, j with
  | O, O => f2 | S O, S O => f7 | O, S O => f3 | S O, O => f3 | _, _ => fzero true end.
Definition ex_t64' : tensor64 := fun i j => match i, j with
  | O, O => f7 | S O, S O => f2 | O, S O => f3 | S O, O => f3 | _, _ => fzero true end.
Definition swap_axes : M3 := mkM (mkV 0 1 0) (mkV 1 0 0) (mkV 0 0 1).

Lemma ex64_finite : finite_tensor ex_t64 /\ finite_tensor ex_t64'.
Proof. split; intros [|[|[|i]]] [|[|[|j]]] _ _; reflexivity. Qed.
Lemma two_up : 7 <= 2 ^ 500.
Proof. apply Rle_trans with (2 ^ 3); [simpl; lra|]. apply Rle_pow; [lra|lia]. Qed.
Lemma two_down : / 2 ^ 450 <= 1.
Proof. rewrite <- Rinv_1. apply Rinv_le_contravar; [lra|]. rewrite <- (pow1 450) at 1. apply pow_incr. lra. Qed.
Lemma ex64_sized : sized (/ 2 ^ 450) (2 ^ 500) ex_t64 /\ sized (/ 2 ^ 450) (2 ^ 500) ex_t64'.
Proof.
  assert (A := two_up). assert (B := two_down). split; (split; [exists 0%nat, 1%nat; split; [lia|]|]).
  1,3: unfold ex_t64, ex_t64', value; rewrite B2R_3, Rabs_pos_eq; lra.
  all: intros [|[|[|i]]] [|[|[|j]]] H; try lia; unfold ex_t64, ex_t64', value;
    rewrite ?B2R_2, ?B2R_3, ?B2R_7; try (rewrite Rabs_pos_eq; lra); simpl B2R; rewrite Rabs_R0; lra.
Qed.
Lemma ex64_rot : orthogonal swap_axes /\ symmetric3 (real_tensor ex_t64) /\ real_tensor ex_t64' = rotated swap_axes (real_tensor ex_t64) /\
  real_tensor ex_t64' <> real_tensor ex_t64.
Proof.
  unfold real_tensor, ex_t64, ex_t64', value. rewrite B2R_2, B2R_3, B2R_7. simpl B2R.
  split; [|split; [|split]].
  - unfold orthogonal, swap_axes, mmul, mtrans, mI, vmul, vadd, vscale; simpl. f_equal; f_equal; lra.
  - unfold symmetric3, mtrans. simpl. reflexivity.
  - unfold rotated, swap_axes, mmul, mtrans, vmul, vadd, vscale; simpl. f_equal; f_equal; lra.
  - intros H. injection H. lra.
Qed.

(** ** Whole spectra *)
Lemma map_all : forall (P : tensor64 -> f64 -> Prop) ts, (forall t, P t (intensity64 t)) -> Forall2 P ts (raw_intensities64 ts).
Proof. intros P ts H. unfold raw_intensities64. induction ts; constructor; auto. Qed.
Lemma f_C37_d_sign : forall ts, Forall2 (fun t x => finite_tensor t -> x = plus_infinity \/ (finite x /\ 0 <= value x)) ts (raw_intensities64 ts).
Proof. intros ts. apply map_all. intros t F. apply pos_cases, intensity_pos, F. Qed.
Lemma f_C37_d_accuracy : forall ts, Forall2 (fun t x => finite_tensor t -> sized (/ 2 ^ 450) (2 ^ 500) t ->
  finite x /\ 0 < value x /\ Rabs (value x - textbook_intensity (real_tensor t)) <= / 2 ^ 45 * textbook_intensity (real_tensor t)) ts (raw_intensities64 ts).
Proof.
  intros ts. apply map_all. intros t F S. destruct (f_C37_double_accuracy t F S) as [A B].
  split; [exact A|]. split; [apply f_C37_double_positive; assumption|exact B].
Qed.
Lemma f_C37_d_nan : forall ts, Forall2 (fun t x => (exists i j, (i <= j < 3)%nat /\ t i j = not_a_number) -> x = not_a_number) ts (raw_intensities64 ts).
Proof. intros ts. apply map_all. intros t (i & j & H & E). eapply f_C37_double_nan; eassumption. Qed.
Lemma f_C37_d_zero : forall ts, Forall2 (fun t x => finite_tensor t -> (forall i j, (i <= j < 3)%nat -> value (t i j) = 0) -> finite x /\ value x = 0) ts (raw_intensities64 ts).
Proof.
  intros ts. apply map_all. intros t F Z. rewrite (f_C37_double_zero t F Z). split; reflexivity.
Qed.
Lemma f_C37_d_vanish : ~ (forall t, finite_tensor t -> value (intensity64 t) = 0 -> forall i j, (i <= j < 3)%nat -> value (t i j) = 0).
Proof.
  intros H. destruct f_C37_double_underflow as (t & F & P & E). specialize (H t F).
  assert (Z : value (intensity64 t) = 0) by (rewrite E; reflexivity). specialize (H Z).
  rewrite <- form in P. rewrite !H in P by lia. lra.
Qed.
Lemma f_C37_d_overflow : ~ (forall t, finite_tensor t -> finite (intensity64 t)).
Proof. intros H. destruct f_C37_double_overflow as (t & F & E). specialize (H t F). rewrite E in H. discriminate. Qed.
