(** Raman intensities, corrections, MD spectra, phonon Raman tensors. *)
From Coq Require Import String ZArith Reals Lra Lia Psatz Bool Arith List.
From Verif Require Import Base LinAlg M_Validate M_StructUtils M_Interp M_Spectrum M_Dynamics S_Spectrum
  P_Interp P_Signal.
Import ListNotations.
Local Open Scope R_scope.

(** * The polycrystalline form *)
Lemma poly_textbook m : polycrystalline m = textbook_intensity m.
Proof.
  destruct m as [[a b c] [d e f] [g h i]].
  unfold polycrystalline, alpha_squared, gamma_squared, textbook_intensity, mean_polarizability,
    anisotropy_squared, mtrace, entry. simpl. field.
Qed.

Lemma sym_entries m : symmetric3 m -> vx (r1 m) = vy (r0 m) /\ vx (r2 m) = vz (r0 m) /\ vy (r2 m) = vz (r1 m).
Proof.
  destruct m as [[a b c] [d e f] [g h i]]. unfold symmetric3, mtrans. simpl. intros [=]. subst. auto.
Qed.

Lemma aniso_inv m : symmetric3 m -> anisotropy_squared m = anisotropy_invariant m.
Proof.
  intros S. destruct (sym_entries m S) as (A & B & C).
  destruct m as [[a b c] [d e f] [g h i]]. simpl in A, B, C. subst.
  unfold anisotropy_squared, anisotropy_invariant, mtrace, mmul, vmul, entry. simpl. field.
Qed.

Lemma mtrace_mmul_comm a b : mtrace (mmul a b) = mtrace (mmul b a).
Proof. destruct a as [[? ? ?] [? ? ?] [? ? ?]], b as [[? ? ?] [? ? ?] [? ? ?]]. unfold mtrace, mmul, vmul. simpl. ring. Qed.

Lemma orthogonal_left q : orthogonal q -> mmul (mtrans q) q = mI.
Proof.
  unfold orthogonal. intros O.
  assert (D : mdet q <> 0).
  { intros Z. assert (mdet (mmul q (mtrans q)) = 1) by (rewrite O; apply mdet_mI).
    rewrite mdet_mmul, Z in H. lra. }
  destruct (minv_exists q D) as [i Hi].
  pose proof (minv_unique q i (mtrans q) Hi O). subst i.
  apply (minv_Ok q _ Hi).
Qed.

Lemma trace_rotated q m : orthogonal q -> mtrace (rotated q m) = mtrace m.
Proof.
  intros O. unfold rotated. rewrite mtrace_mmul_comm, mmul_assoc, (orthogonal_left q O), mmul_mI_l. auto.
Qed.
Lemma rotated_mmul q a b : orthogonal q -> mmul (rotated q a) (rotated q b) = rotated q (mmul a b).
Proof.
  intros O. unfold rotated.
  rewrite <- (mmul_assoc (mmul q a) (mtrans q)), (mmul_assoc (mtrans q)), (mmul_assoc (mtrans q)).
  rewrite (orthogonal_left q O), mmul_mI_l, !mmul_assoc. auto.
Qed.
Lemma rotated_sym q m : symmetric3 m -> symmetric3 (rotated q m).
Proof.
  unfold symmetric3, rotated. intros S. rewrite !mtrans_mmul, mtrans_mtrans, S, mmul_assoc. auto.
Qed.

Lemma poly_rotated q m : orthogonal q -> symmetric3 m -> polycrystalline (rotated q m) = polycrystalline m.
Proof.
  intros O S. rewrite !poly_textbook. unfold textbook_intensity, mean_polarizability.
  rewrite !aniso_inv by (auto using rotated_sym). unfold anisotropy_invariant.
  rewrite rotated_mmul, !trace_rotated by auto. reflexivity.
Qed.

Lemma poly_nonneg m : 0 <= polycrystalline m.
Proof.
  unfold polycrystalline, alpha_squared, gamma_squared.
  assert (forall x, 0 <= x ^ 2) by (intros; apply pow2_ge_0).
  repeat match goal with |- context[?x ^ 2] => lazymatch goal with
    | _ : 0 <= x ^ 2 |- _ => fail | _ => pose proof (H x) end; generalize dependent (x ^ 2); intros end.
  lra.
Qed.

Lemma sq_zero x : x ^ 2 = 0 -> x = 0.
Proof. intros. nra. Qed.

Lemma poly_zero m : polycrystalline m = 0 <->
  (entry m 0 0 = 0 /\ entry m 1 1 = 0 /\ entry m 2 2 = 0 /\ entry m 0 1 = 0 /\ entry m 0 2 = 0 /\ entry m 1 2 = 0).
Proof.
  destruct m as [[a b c] [d e f] [g h i]].
  unfold polycrystalline, alpha_squared, gamma_squared, entry. cbn [r0 r1 r2 vx vy vz].
  split.
  - intros Z.
    pose proof (pow2_ge_0 ((a + e + i) / 3)) as H1. pose proof (pow2_ge_0 (a - e)) as H2.
    pose proof (pow2_ge_0 (a - i)) as H3. pose proof (pow2_ge_0 (e - i)) as H4.
    pose proof (pow2_ge_0 b) as H5. pose proof (pow2_ge_0 c) as H6. pose proof (pow2_ge_0 f) as H7.
    assert (E1 : ((a + e + i) / 3) ^ 2 = 0) by lra.
    assert (E2 : (a - e) ^ 2 = 0) by lra. assert (E3 : (a - i) ^ 2 = 0) by lra.
    assert (E5 : b ^ 2 = 0) by lra. assert (E6 : c ^ 2 = 0) by lra. assert (E7 : f ^ 2 = 0) by lra.
    apply sq_zero in E1, E2, E3, E5, E6, E7. repeat split; lra.
  - intros (-> & -> & -> & -> & -> & ->). field.
Qed.

Lemma poly_scale c m : polycrystalline (mscale c m) = c ^ 2 * polycrystalline m.
Proof.
  destruct m as [[? ? ?] [? ? ?] [? ? ?]].
  unfold polycrystalline, alpha_squared, gamma_squared. simpl. field.
Qed.

(** * Phonon spectra *)
Lemma corrections_raw a w i : raw a -> apply_corrections a w i = Ok i.
Proof. intros (_ & L & B). unfold apply_corrections. rewrite L, B. reflexivity. Qed.

Lemma measure_phonon_raw s a : raw a ->
  measure_phonon s a = Ok (ps_wavenumbers s, map (fun m => Some (textbook_intensity m)) (ps_tensors s)).
Proof.
  intros Ra. unfold measure_phonon. rewrite (proj1 Ra), String.eqb_refl. cbn [negb]. rewrite corrections_raw by auto. cbn [rbind].
  do 2 f_equal. apply map_ext. intros. rewrite poly_textbook. auto.
Qed.

Lemma f_C36 q s a : orthogonal q -> Forall symmetric3 (ps_tensors s) ->
  measure_phonon (mkPS (ps_wavenumbers s) (map (rotated q) (ps_tensors s))) a = measure_phonon s a.
Proof.
  intros O S. unfold measure_phonon. cbn [ps_wavenumbers ps_tensors]. rewrite map_map.
  destruct (negb _); auto.
  replace (map (fun x => Some (polycrystalline (rotated q x))) (ps_tensors s))
    with (map (fun m => Some (polycrystalline m)) (ps_tensors s)); auto.
  apply map_ext_in. intros m I. rewrite poly_rotated; auto. apply (proj1 (Forall_forall _ _) S). auto.
Qed.

Lemma f_C37_raw s a w i : raw a -> measure_phonon s a = Ok (w, i) ->
  w = ps_wavenumbers s /\
  Forall2 (fun t x => exists v, x = Some v /\ 0 <= v /\ v = textbook_intensity t /\
     (v = 0 <-> entry t 0 0 = 0 /\ entry t 1 1 = 0 /\ entry t 2 2 = 0 /\
                entry t 0 1 = 0 /\ entry t 0 2 = 0 /\ entry t 1 2 = 0) /\
     (symmetric3 t -> v = 45 * mean_polarizability t ^ 2 + 7 * anisotropy_invariant t))
    (ps_tensors s) i.
Proof.
  intros Ra. rewrite measure_phonon_raw by auto. intros [= <- <-]. split; auto.
  induction (ps_tensors s) as [|t l IH]; simpl; constructor; auto.
  exists (textbook_intensity t). split; [auto|]. rewrite <- poly_textbook.
  split; [apply poly_nonneg|]. split; [auto|]. split; [apply poly_zero|].
  intros S. rewrite poly_textbook. unfold textbook_intensity. rewrite aniso_inv; auto.
Qed.

Lemma map2_nmul_times c : forall i k, map2 nmul (times c i) k = times c (map2 nmul i k).
Proof.
  induction i as [|x i IH]; intros [|y k]; simpl; auto. f_equal; auto.
  destruct x, y; simpl; auto. f_equal. ring.
Qed.

Lemma corrections_times a w c i :
  apply_corrections a w (times c i) = rmap (times c) (apply_corrections a w i).
Proof.
  unfold apply_corrections.
  destruct (ma_laser a).
  - destruct (Req_EM_T _ _); auto. destruct (get_laser_correction _ _) as [l|]; auto. cbn [rmap rbind].
    rewrite map2_nmul_times. destruct (ma_bose a); auto. destruct (get_bose_einstein_correction _ _); auto.
    cbn [rmap]. rewrite map2_nmul_times. auto.
  - cbn [rbind]. destruct (ma_bose a); auto. destruct (get_bose_einstein_correction _ _); auto.
    cbn [rmap]. rewrite map2_nmul_times. auto.
Qed.

Lemma f_C37_scale c s a :
  measure_phonon (mkPS (ps_wavenumbers s) (map (mscale c) (ps_tensors s))) a
  = rmap (fun r => (fst r, times (c ^ 2) (snd r))) (measure_phonon s a).
Proof.
  unfold measure_phonon. destruct (negb _); auto. cbn [ps_wavenumbers ps_tensors].
  replace (map (fun m => Some (polycrystalline m)) (map (mscale c) (ps_tensors s)))
    with (times (c ^ 2) (map (fun m => Some (polycrystalline m)) (ps_tensors s))).
  2: { unfold times. rewrite !map_map. apply map_ext. intros. simpl option_map. rewrite poly_scale. auto. }
  rewrite corrections_times. destruct (apply_corrections _ _ _); auto.
Qed.

Lemma f_C37_orientation s a : ma_orientation a <> "polycrystalline"%string ->
  measure_phonon s a = Err NotImplementedError.
Proof. intros N. unfold measure_phonon. apply String.eqb_neq in N. rewrite N. auto. Qed.
Lemma f_C37_orientation_md s a : ma_orientation a <> "polycrystalline"%string ->
  measure_md s a = Err NotImplementedError.
Proof. intros N. unfold measure_md. apply String.eqb_neq in N. rewrite N. auto. Qed.

(** * Bose-Einstein correction *)
Lemma crc_pos : 0 < second_radiation_constant.
Proof. unfold second_radiation_constant. lra. Qed.

Lemma be_entry v T : 0 < T -> v <> 0 ->
  ndiv 1 (1 - exp (- (v * 29979245800 * (41357 / 10 ^ 19)) / (BOLTZMANN_CONSTANT * T))) = Some (bose_einstein v T).
Proof.
  intros P N. unfold bose_einstein.
  replace (- (v * 29979245800 * (41357 / 10 ^ 19)) / (BOLTZMANN_CONSTANT * T))
    with (- (second_radiation_constant * v / T)).
  2: { unfold second_radiation_constant, BOLTZMANN_CONSTANT. field. lra. }
  unfold ndiv. destruct (Req_EM_T _ _) as [e|e].
  - exfalso. assert (E : exp (- (second_radiation_constant * v / T)) = exp 0) by (rewrite exp_0; lra).
    apply exp_inv in E. pose proof crc_pos.
    assert (second_radiation_constant * v / T <> 0).
    { unfold Rdiv. apply Rmult_integral_contrapositive_currified; [apply Rmult_integral_contrapositive_currified; lra|].
      apply Rinv_neq_0_compat. lra. }
    lra.
  - f_equal. unfold Rdiv. ring.
Qed.

Lemma be_gt1 v T : 0 < T -> 0 < v -> 1 < bose_einstein v T.
Proof.
  intros. unfold bose_einstein. pose proof crc_pos.
  assert (P : 0 < second_radiation_constant * v / T) by (apply Rdiv_lt_0_compat; auto; nra).
  pose proof (exp_pos (- (second_radiation_constant * v / T))).
  assert (exp (- (second_radiation_constant * v / T)) < 1) by (rewrite <- exp_0; apply exp_increasing; lra).
  rewrite <- Rinv_1. apply Rinv_lt_contravar; lra.
Qed.

Lemma be_neg v T : 0 < T -> v < 0 -> bose_einstein v T < 0.
Proof.
  intros. unfold bose_einstein. pose proof crc_pos.
  assert (P : 0 < - (second_radiation_constant * v / T)).
  { replace (- (second_radiation_constant * v / T)) with (second_radiation_constant * - v / T) by (field; lra).
    apply Rdiv_lt_0_compat; auto; nra. }
  assert (1 < exp (- (second_radiation_constant * v / T))) by (rewrite <- exp_0; apply exp_increasing; lra).
  apply Rinv_lt_0_compat. lra.
Qed.

Lemma be_decreasing v w T U : 0 < T -> 0 < U -> 0 < v -> 0 < w -> v / T < w / U -> bose_einstein w U < bose_einstein v T.
Proof.
  intros PT PU Pv Pw L. unfold bose_einstein. pose proof crc_pos.
  assert (A : second_radiation_constant * v / T < second_radiation_constant * w / U).
  { unfold Rdiv in *. rewrite !Rmult_assoc. apply Rmult_lt_compat_l; auto. }
  assert (P : 0 < second_radiation_constant * v / T) by (apply Rdiv_lt_0_compat; auto; nra).
  assert (exp (- (second_radiation_constant * w / U)) < exp (- (second_radiation_constant * v / T)))
    by (apply exp_increasing; lra).
  assert (exp (- (second_radiation_constant * v / T)) < 1) by (rewrite <- exp_0; apply exp_increasing; lra).
  apply Rinv_lt_contravar; [apply Rmult_lt_0_compat|]; lra.
Qed.

Lemma f_C38_values ws T : 0 < T ->
  exists cs, get_bose_einstein_correction ws T = Ok cs /\
    Forall2 (fun v c =>
      (v <> 0 -> c = Some (bose_einstein v T)) /\
      (0 < v -> exists x, c = Some x /\ 1 < x) /\
      (v < 0 -> exists x, c = Some x /\ x < 0) /\
      (v = 0 -> c = None)) ws cs.
Proof.
  intros P. unfold get_bose_einstein_correction. rewrite (proj2 (Rleb_false T 0)) by lra.
  eexists. split; [reflexivity|].
  induction ws as [|v ws IH]; cbn [map]; constructor; auto. clear IH.
  cbv zeta. repeat split; intros.
  - apply be_entry; auto.
  - rewrite be_entry by lra. eexists; split; eauto. apply be_gt1; auto.
  - rewrite be_entry by lra. eexists; split; eauto. apply be_neg; auto.
  - subst v. unfold ndiv. destruct (Req_EM_T _ _) as [e|e]; auto. exfalso. apply e.
    replace (- (0 * 29979245800 * (41357 / 10 ^ 19)) / (BOLTZMANN_CONSTANT * T)) with 0.
    + rewrite exp_0. ring.
    + unfold BOLTZMANN_CONSTANT. field. lra.
Qed.

Lemma Forall2_nth_error {A B} (P : A -> B -> Prop) l m i a b :
  Forall2 P l m -> nth_error l i = Some a -> nth_error m i = Some b -> P a b.
Proof. intros F. revert i. induction F; intros [|i]; simpl; try discriminate; [congruence|eauto]. Qed.

Lemma f_C38_monotone ws1 T1 cs1 ws2 T2 cs2 i j v1 v2 c1 c2 :
  get_bose_einstein_correction ws1 T1 = Ok cs1 -> get_bose_einstein_correction ws2 T2 = Ok cs2 ->
  nth_error ws1 i = Some v1 -> nth_error cs1 i = Some c1 ->
  nth_error ws2 j = Some v2 -> nth_error cs2 j = Some c2 ->
  0 < v1 -> 0 < v2 ->
  (v1 = v2 /\ T2 < T1 \/ T1 = T2 /\ v1 < v2) ->
  exists x1 x2, c1 = Some x1 /\ c2 = Some x2 /\ x2 < x1.
Proof.
  intros E1 E2 A1 B1 A2 B2 P1 P2 C.
  assert (PT1 : 0 < T1). { unfold get_bose_einstein_correction in E1. destruct (Rleb T1 0) eqn:E; [discriminate|]. apply Rleb_false in E. auto. }
  assert (PT2 : 0 < T2). { unfold get_bose_einstein_correction in E2. destruct (Rleb T2 0) eqn:E; [discriminate|]. apply Rleb_false in E. auto. }
  destruct (f_C38_values ws1 T1 PT1) as (k1 & K1 & F1). rewrite E1 in K1. injection K1 as <-.
  destruct (f_C38_values ws2 T2 PT2) as (k2 & K2 & F2). rewrite E2 in K2. injection K2 as <-.
  destruct (Forall2_nth_error _ _ _ _ _ _ F1 A1 B1) as (V1 & _).
  destruct (Forall2_nth_error _ _ _ _ _ _ F2 A2 B2) as (V2 & _).
  rewrite V1, V2 by lra. do 2 eexists. split; [|split]; eauto.
  apply be_decreasing; auto.
  destruct C as [[<- L]|[<- L]].
  - unfold Rdiv. apply Rmult_lt_compat_l; auto. apply Rinv_lt_contravar; auto. nra.
  - unfold Rdiv. apply Rmult_lt_compat_r; auto. apply Rinv_0_lt_compat; auto.
Qed.

Lemma f_C38_invalid ws T : get_bose_einstein_correction ws T = Err ValueError <-> T <= 0.
Proof.
  unfold get_bose_einstein_correction. destruct (Rleb T 0) eqn:E.
  - apply Rleb_true in E. tauto.
  - apply Rleb_false in E. split; [discriminate|lra].
Qed.

(** * Laser correction *)
Definition laser_value (v vL : R) : R := ((v - vL) / 10000) ^ 4 / v.

Lemma pow4_pos x : x <> 0 -> 0 < x ^ 4.
Proof. intros. replace (x ^ 4) with ((x * x) * (x * x)) by ring. assert (0 < x * x) by nra. nra. Qed.

Lemma pow4_lt x y : 0 <= x -> x < y -> x ^ 4 < y ^ 4.
Proof.
  intros. replace (x ^ 4) with ((x * x) * (x * x)) by ring. replace (y ^ 4) with ((y * y) * (y * y)) by ring.
  assert (0 <= x * x < y * y) by nra. nra.
Qed.

Lemma laser_decreasing v w vL : 0 < v -> v < w -> w <= vL -> laser_value w vL < laser_value v vL.
Proof.
  intros. unfold laser_value.
  assert (A : ((w - vL) / 10000) ^ 4 < ((v - vL) / 10000) ^ 4).
  { replace (((w - vL) / 10000) ^ 4) with (((vL - w) / 10000) ^ 4) by field.
    replace (((v - vL) / 10000) ^ 4) with (((vL - v) / 10000) ^ 4) by field.
    apply pow4_lt; lra. }
  assert (0 <= ((w - vL) / 10000) ^ 4).
  { replace (((w - vL) / 10000) ^ 4) with ((((w - vL) / 10000) ^ 2) ^ 2) by ring. apply pow2_ge_0. }
  assert (IW : 0 < / w) by (apply Rinv_0_lt_compat; lra).
  assert (/ w < / v) by (apply Rinv_lt_contravar; [nra|auto]).
  unfold Rdiv at 1 3. generalize dependent (((w - vL) / 10000) ^ 4). generalize dependent (((v - vL) / 10000) ^ 4).
  generalize dependent (/ w). generalize dependent (/ v). clear. intros. nra.
Qed.

Lemma f_C39_values ws vL : 0 < vL ->
  exists cs, get_laser_correction ws vL = Ok cs /\
    Forall2 (fun v c =>
      (v = 0 -> c = None) /\
      (v <> 0 -> exists x, c = Some x /\ x = ((v - vL) / 10 ^ 4) ^ 4 / v /\
         (v <> vL -> (0 <= x <-> 0 < v)) /\ (x = 0 <-> v = vL))) ws cs.
Proof.
  intros P. unfold get_laser_correction. rewrite (proj2 (Rleb_false vL 0)) by lra.
  eexists. split; [reflexivity|].
  induction ws as [|v ws IH]; cbn [map]; constructor; auto. clear IH.
  unfold ndiv. destruct (Req_EM_T v 0) as [e|e]; split; try (intros; congruence).
  intros _. eexists. split; [reflexivity|]. split; [|split].
  - field. auto.
  - intros N. assert (Q : 0 < ((v - vL) / 10000) ^ 4) by (apply pow4_pos; lra).
    split; intros H.
    + destruct (Rlt_le_dec 0 v); auto. exfalso.
      assert (/ v < 0) by (apply Rinv_lt_0_compat; lra).
      unfold Rdiv at 1 in H. generalize dependent (/ v). intros. nra.
    + apply Rlt_le. apply Rdiv_lt_0_compat; auto.
  - split; intros H.
    + destruct (Req_EM_T v vL); auto. exfalso.
      assert (Q : 0 < ((v - vL) / 10000) ^ 4) by (apply pow4_pos; lra).
      unfold Rdiv at 1 in H. apply Rmult_integral in H. destruct H; [lra|].
      apply Rinv_neq_0_compat in e. auto.
    + subst v. replace ((vL - vL) / 10000) with 0 by field. simpl. field. auto.
Qed.

Lemma f_C39_decreasing ws vL cs i j v w c d :
  get_laser_correction ws vL = Ok cs ->
  nth_error ws i = Some v -> nth_error cs i = Some c ->
  nth_error ws j = Some w -> nth_error cs j = Some d ->
  0 < v -> v < w -> w <= vL ->
  exists x y, c = Some x /\ d = Some y /\ y < x.
Proof.
  intros E A B C D P L Q.
  assert (PL : 0 < vL) by lra.
  destruct (f_C39_values ws vL PL) as (k & K & F). rewrite E in K. injection K as <-.
  destruct (Forall2_nth_error _ _ _ _ _ _ F A B) as (_ & V1).
  destruct (Forall2_nth_error _ _ _ _ _ _ F C D) as (_ & V2).
  destruct V1 as (x & -> & -> & _); [lra|]. destruct V2 as (y & -> & -> & _); [lra|].
  do 2 eexists. split; [|split]; eauto.
  pose proof (laser_decreasing v w vL P L Q) as H. unfold laser_value in H.
  replace (10 ^ 4) with 10000 by ring. auto.
Qed.

Lemma f_C39_invalid ws vL : get_laser_correction ws vL = Err ValueError <-> vL <= 0.
Proof.
  unfold get_laser_correction. destruct (Rleb vL 0) eqn:E.
  - apply Rleb_true in E. tauto.
  - apply Rleb_false in E. split; [discriminate|lra].
Qed.

Lemma corrections_wavelength a w i : ma_laser a = true ->
  (ma_wavelength a = 0 -> apply_corrections a w i = Err ZeroDivisionError) /\
  (ma_wavelength a < 0 -> apply_corrections a w i = Err ValueError).
Proof.
  intros L. unfold apply_corrections. rewrite L. split; intros.
  - destruct (Req_EM_T _ _); [auto|congruence].
  - destruct (Req_EM_T _ _); [lra|].
    replace (get_laser_correction w (10000000 / ma_wavelength a)) with (@Err (list nfloat) ValueError); auto.
    symmetry. apply f_C39_invalid. unfold Rdiv. assert (/ ma_wavelength a < 0) by (apply Rinv_lt_0_compat; auto). lra.
Qed.

(** * MD spectra *)
Lemma spec1_eq f ad dt : List.length ad <> 0%nat -> INR (List.length ad) * dt <> 0 ->
  spec1 f ad dt = Ok (map (fun k => power (2 * PI * INR k / INR (List.length ad)) (map f ad)) (kept (List.length ad) dt)).
Proof.
  intros N D. unfold spec1. rewrite css_eq, map_length.
  destruct (Nat.eqb_spec (List.length ad) 0); [congruence|].
  destruct (Req_EM_T _ _); [congruence|]. reflexivity.
Qed.

Lemma lscale_map {A} c (f : A -> R) l : lscale c (map f l) = map (fun k => c * f k) l.
Proof. unfold lscale. rewrite map_map. auto. Qed.
Lemma ladd_map {A} (f g : A -> R) l : ladd (map f l) (map g l) = map (fun k => f k + g k) l.
Proof. unfold ladd. rewrite map2_map_l, map2_map_r, map2_diag. auto. Qed.

(** Intensity of a differentiated series at one frequency *)
Definition md_int (ad : list M3) (th : R) : R :=
  45 * (1 / 9 * power th (map (fun m => vx (r0 m) + vy (r1 m) + vz (r2 m)) ad)) +
  7 * (1 / 2 * power th (map (fun m => vx (r0 m) - vy (r1 m)) ad) +
       1 / 2 * power th (map (fun m => vy (r1 m) - vz (r2 m)) ad) +
       1 / 2 * power th (map (fun m => vz (r2 m) - vx (r0 m)) ad) +
       3 * power th (map (fun m => vy (r0 m)) ad) +
       3 * power th (map (fun m => vz (r1 m)) ad) +
       3 * power th (map (fun m => vz (r0 m)) ad)).

Definition ang (n k : nat) : R := 2 * PI * INR k / INR n.

Lemma measure_md_eq s a :
  let ad := diff (md_ts s) in let n := List.length ad in let dt := md_timestep s in
  measure_md s a =
  if negb (String.eqb (ma_orientation a) "polycrystalline") then Err NotImplementedError
  else if Nat.eqb n 0 then Err ValueError
  else if Req_EM_T (INR n * dt) 0 then Err ZeroDivisionError
  else
    rmap (fun i => (map (freq_of n dt) (tl (kept n dt)), i))
      (apply_corrections a (map (freq_of n dt) (tl (kept n dt)))
         (map (fun k => Some (md_int ad (ang n k))) (tl (kept n dt)))).
Proof.
  intros ad n dt. unfold measure_md. destruct (negb _); auto. fold ad dt.
  rewrite css_eq, map_length. fold n.
  destruct (Nat.eqb_spec n 0) as [Z|Z]; [reflexivity|].
  destruct (Req_EM_T (INR n * dt) 0) as [D|D]; [reflexivity|].
  cbn [rbind fst].
  rewrite !spec1_eq by auto. cbn [rbind].
  fold n. cbv zeta. repeat (rewrite lscale_map || rewrite ladd_map).
  destruct (kept n dt) as [|k0 ks]; cbn [map tl].
  - destruct (apply_corrections _ _ _); reflexivity.
  - rewrite map_map.
    match goal with |- rbind (apply_corrections a ?w ?i) _ = rmap _ (apply_corrections a ?w ?j) =>
      replace i with j by (apply map_ext; intros; reflexivity) end.
    destruct (apply_corrections _ _ _); reflexivity.
Qed.

(** Matrix Fourier sums *)
Fixpoint mcs (th ph : R) (x : list M3) : M3 :=
  match x with [] => m0 | a :: t => madd (mscale (cos ph) a) (mcs th (ph + th) t) end.
Fixpoint msn (th ph : R) (x : list M3) : M3 :=
  match x with [] => m0 | a :: t => madd (mscale (sin ph) a) (msn th (ph + th) t) end.

Definition linear (f : M3 -> R) : Prop :=
  f m0 = 0 /\ (forall a b, f (madd a b) = f a + f b) /\ (forall c a, f (mscale c a) = c * f a).

Lemma cs_linear f th x : linear f -> forall ph, cs th ph (map f x) = f (mcs th ph x) /\ sn th ph (map f x) = f (msn th ph x).
Proof.
  intros (Z & A & M). induction x as [|a x IH]; intros ph; simpl.
  - rewrite Z. auto.
  - destruct (IH (ph + th)) as [-> ->]. rewrite !A, !M. split; ring.
Qed.

Lemma power_linear f th ad : linear f ->
  power th (map f ad) = 1 / 2 * (rsum (map (fun m => f m ^ 2) ad) + f (mcs th 0 ad) ^ 2 + f (msn th 0 ad) ^ 2).
Proof.
  intros L. unfold power. destruct (cs_linear f th ad L 0) as [-> ->]. rewrite dotl_sumsq, map_map.
  do 3 f_equal. f_equal. apply map_ext. intros; ring.
Qed.

Lemma rsum_map_plus {A} (f g : A -> R) l : rsum (map (fun a => f a + g a) l) = rsum (map f l) + rsum (map g l).
Proof. induction l; cbn [map]; [unfold rsum; simpl; ring|]. rewrite !rsum_cons, IHl. ring. Qed.
Lemma rsum_map_scal {A} c (f : A -> R) l : rsum (map (fun a => c * f a) l) = c * rsum (map f l).
Proof. induction l; cbn [map]; [unfold rsum; simpl; ring|]. rewrite !rsum_cons, IHl. ring. Qed.

Ltac lin := split; [|split]; intros;
  repeat match goal with m : M3 |- _ => destruct m as [[? ? ?] [? ? ?] [? ? ?]] end; simpl; ring.

Lemma md_int_poly ad th :
  md_int ad th = 1 / 2 * (rsum (map polycrystalline ad) + polycrystalline (mcs th 0 ad) + polycrystalline (msn th 0 ad)).
Proof.
  unfold md_int.
  rewrite (power_linear (fun m => vx (r0 m) + vy (r1 m) + vz (r2 m))) by lin.
  rewrite (power_linear (fun m => vx (r0 m) - vy (r1 m))) by lin.
  rewrite (power_linear (fun m => vy (r1 m) - vz (r2 m))) by lin.
  rewrite (power_linear (fun m => vz (r2 m) - vx (r0 m))) by lin.
  rewrite (power_linear (fun m => vy (r0 m))) by lin.
  rewrite (power_linear (fun m => vz (r1 m))) by lin.
  rewrite (power_linear (fun m => vz (r0 m))) by lin.
  assert (E : rsum (map polycrystalline ad) =
     5 * rsum (map (fun m => (vx (r0 m) + vy (r1 m) + vz (r2 m)) ^ 2) ad)
     + 7 / 2 * rsum (map (fun m => (vx (r0 m) - vy (r1 m)) ^ 2) ad)
     + 7 / 2 * rsum (map (fun m => (vy (r1 m) - vz (r2 m)) ^ 2) ad)
     + 7 / 2 * rsum (map (fun m => (vz (r2 m) - vx (r0 m)) ^ 2) ad)
     + 21 * rsum (map (fun m => (vy (r0 m)) ^ 2) ad)
     + 21 * rsum (map (fun m => (vz (r1 m)) ^ 2) ad)
     + 21 * rsum (map (fun m => (vz (r0 m)) ^ 2) ad)).
  { rewrite <- !rsum_map_scal, <- !rsum_map_plus. apply rsum_map_ext_in. intros m _.
    unfold polycrystalline, alpha_squared, gamma_squared. field. }
  rewrite E. unfold polycrystalline, alpha_squared, gamma_squared. field.
Qed.

Lemma diff_map (g : M3 -> M3) : (forall a b, g (msub a b) = msub (g a) (g b)) -> forall l, diff (map g l) = map g (diff l).
Proof.
  intros H. induction l as [|a l IH]; auto. destruct l as [|b l]; auto.
  cbn [map diff] in *. rewrite H. f_equal. exact IH.
Qed.
Lemma diff_length l : List.length (diff l) = (List.length l - 1)%nat.
Proof.
  induction l as [|a l IH]; auto. destruct l as [|b l]; auto.
  cbn [diff List.length] in *. rewrite IH. lia.
Qed.
Lemma mtrans_msub a b : mtrans (msub a b) = msub (mtrans a) (mtrans b). Proof. reflexivity. Qed.
Lemma mtrans_madd a b : mtrans (madd a b) = madd (mtrans a) (mtrans b). Proof. reflexivity. Qed.
Lemma mtrans_mscale c a : mtrans (mscale c a) = mscale c (mtrans a). Proof. reflexivity. Qed.
Lemma diff_sym l : Forall symmetric3 l -> Forall symmetric3 (diff l).
Proof.
  induction l as [|a l IH]; intros F; [constructor|]. destruct l as [|b l]; [constructor|].
  inversion F as [|? ? Fa Fl]; subst. inversion Fl as [|? ? Fb _]; subst. cbn [diff]. constructor; auto.
  unfold symmetric3 in *. rewrite mtrans_msub, Fa, Fb. reflexivity.
Qed.

Lemma mmul_msub_r x y z : mmul x (msub y z) = msub (mmul x y) (mmul x z). Proof. vring. Qed.
Lemma mmul_msub_l x y z : mmul (msub y z) x = msub (mmul y x) (mmul z x). Proof. vring. Qed.
Lemma msub_offset a b c : msub (madd a c) (madd b c) = msub a b. Proof. vring. Qed.
Lemma msub_swap a b : msub a b = mscale (-1) (msub b a). Proof. vring. Qed.
Lemma mscale_msub c a b : mscale c (msub a b) = msub (mscale c a) (mscale c b). Proof. vring. Qed.
Lemma rotated_msub q a b : rotated q (msub a b) = msub (rotated q a) (rotated q b).
Proof. unfold rotated. rewrite mmul_msub_r, mmul_msub_l. auto. Qed.
Lemma rotated_madd q a b : rotated q (madd a b) = madd (rotated q a) (rotated q b).
Proof. unfold rotated. rewrite mmul_madd_r, mmul_madd_l. auto. Qed.
Lemma rotated_mscale q c a : rotated q (mscale c a) = mscale c (rotated q a).
Proof. unfold rotated. rewrite mmul_mscale_r, mmul_mscale_l. auto. Qed.
Lemma rotated_m0 q : rotated q m0 = m0.
Proof. rewrite <- (mscale_0 m0), rotated_mscale, !mscale_0. auto. Qed.

Lemma mcs_rotated q th x : forall ph, mcs th ph (map (rotated q) x) = rotated q (mcs th ph x)
  /\ msn th ph (map (rotated q) x) = rotated q (msn th ph x).
Proof.
  induction x as [|a x IH]; intros; simpl.
  - rewrite rotated_m0. auto.
  - destruct (IH (ph + th)) as [-> ->]. rewrite !rotated_madd, !rotated_mscale. auto.
Qed.
Lemma sym_madd a b : symmetric3 a -> symmetric3 b -> symmetric3 (madd a b).
Proof.
  unfold symmetric3. intros A B. rewrite mtrans_madd, A, B. reflexivity.
Qed.
Lemma sym_mscale c a : symmetric3 a -> symmetric3 (mscale c a).
Proof. unfold symmetric3. intros A. rewrite mtrans_mscale, A. reflexivity. Qed.
Lemma mcs_sym th x : Forall symmetric3 x -> forall ph, symmetric3 (mcs th ph x) /\ symmetric3 (msn th ph x).
Proof.
  induction 1; intros; simpl; [split; reflexivity|]. destruct (IHForall (ph + th)).
  split; apply sym_madd; auto using sym_mscale.
Qed.

Lemma md_int_rotated q ad th : orthogonal q -> Forall symmetric3 ad -> md_int (map (rotated q) ad) th = md_int ad th.
Proof.
  intros O S. rewrite !md_int_poly. destruct (mcs_rotated q th ad 0) as [-> ->]. destruct (mcs_sym th ad S 0).
  rewrite !poly_rotated by auto. do 3 f_equal. rewrite map_map. apply rsum_map_ext_in.
  intros m I. apply poly_rotated; auto. apply (proj1 (Forall_forall _ _) S); auto.
Qed.

Lemma measure_md_ext s1 s2 a : List.length (md_ts s1) = List.length (md_ts s2) -> md_timestep s1 = md_timestep s2 ->
  (forall th, md_int (diff (md_ts s1)) th = md_int (diff (md_ts s2)) th) ->
  measure_md s1 a = measure_md s2 a.
Proof.
  intros L T I. rewrite !measure_md_eq. cbv zeta. rewrite !diff_length, L, T.
  replace (map (fun k => Some (md_int (diff (md_ts s1)) (ang (List.length (md_ts s2) - 1) k)))
            (tl (kept (List.length (md_ts s2) - 1) (md_timestep s2))))
    with (map (fun k => Some (md_int (diff (md_ts s2)) (ang (List.length (md_ts s2) - 1) k)))
            (tl (kept (List.length (md_ts s2) - 1) (md_timestep s2)))); auto.
  apply map_ext. intros. rewrite I. auto.
Qed.

Lemma f_C43_rotation q ts dt a : orthogonal q -> Forall symmetric3 ts ->
  measure_md (mkMD (map (rotated q) ts) dt) a = measure_md (mkMD ts dt) a.
Proof.
  intros O S. apply measure_md_ext; cbn [md_ts md_timestep]; auto using map_length.
  intros th. rewrite diff_map by apply rotated_msub. apply md_int_rotated; auto using diff_sym.
Qed.

Lemma diff_offset c l : diff (map (fun m => madd m c) l) = diff l.
Proof.
  induction l as [|a l IH]; auto. destruct l as [|b l]; auto.
  cbn [map diff] in *. rewrite msub_offset. f_equal; auto.
Qed.
Lemma f_C43_offset c ts dt a :
  measure_md (mkMD (map (fun m => madd m c) ts) dt) a = measure_md (mkMD ts dt) a.
Proof.
  apply measure_md_ext; cbn [md_ts md_timestep]; auto using map_length.
  intros th. rewrite diff_offset. auto.
Qed.

Lemma diff_app l a b : diff ((l ++ [a]) ++ [b]) = diff (l ++ [a]) ++ [msub b a].
Proof.
  induction l as [|x l IH]; auto.
  destruct l as [|y l]; [reflexivity|].
  cbn [app diff] in *. f_equal. exact IH.
Qed.
Lemma diff_rev l : diff (rev l) = rev (map (mscale (-1)) (diff l)).
Proof.
  induction l as [|a l IH]; auto. destruct l as [|b l]; auto.
  cbn [rev]. rewrite diff_app. cbn [diff map rev]. cbn [rev diff] in IH. rewrite IH.
  rewrite <- msub_swap. reflexivity.
Qed.
Lemma power_rev_lin f th ad : linear f -> power th (map f (rev (map (mscale (-1)) ad))) = power th (map f ad).
Proof.
  intros (_ & _ & M). rewrite map_rev, power_rev, map_map.
  rewrite (map_ext _ (fun x => -1 * f x)) by (intros; apply M).
  rewrite <- (map_map f (Rmult (-1))), power_scale. ring.
Qed.
Lemma power_scale_lin f th c ad : linear f -> power th (map f (map (mscale c) ad)) = c ^ 2 * power th (map f ad).
Proof.
  intros (_ & _ & M). rewrite map_map.
  rewrite (map_ext _ (fun x => c * f x)) by (intros; apply M).
  rewrite <- (map_map f (Rmult c)), power_scale. ring.
Qed.

Lemma f_C43_reversal ts dt a : measure_md (mkMD (rev ts) dt) a = measure_md (mkMD ts dt) a.
Proof.
  apply measure_md_ext; cbn [md_ts md_timestep]; auto using rev_length.
  intros th. rewrite diff_rev. unfold md_int. rewrite !power_rev_lin by lin. reflexivity.
Qed.

Lemma f_C43_scale c ts dt a :
  measure_md (mkMD (map (mscale c) ts) dt) a
  = rmap (fun r => (fst r, times (c ^ 2) (snd r))) (measure_md (mkMD ts dt) a).
Proof.
  rewrite !measure_md_eq. cbv zeta. cbn [md_ts md_timestep].
  rewrite diff_map, map_length.
  2: { intros; apply mscale_msub. }
  destruct (negb _); auto. destruct (Nat.eqb _ _); auto. destruct (Req_EM_T _ _) as [?|ND]; auto.
  set (n := List.length (diff ts)).
  replace (map (fun k => Some (md_int (map (mscale c) (diff ts)) (ang n k))) (tl (kept n dt)))
    with (times (c ^ 2) (map (fun k => Some (md_int (diff ts) (ang n k))) (tl (kept n dt)))).
  2: { unfold times. rewrite map_map. apply map_ext. intros k. cbn [option_map]. f_equal.
       unfold md_int. rewrite !power_scale_lin by lin. ring. }
  rewrite corrections_times. destruct (apply_corrections _ _ _); reflexivity.
Qed.

(** * The MD grid *)
Lemma map2_nmul_length i k : List.length (map2 nmul i k) = min (List.length i) (List.length k).
Proof. apply map2_length. Qed.
Lemma corrections_length a w i j : List.length i = List.length w ->
  apply_corrections a w i = Ok j -> List.length j = List.length w.
Proof.
  intros L. unfold apply_corrections.
  assert (A : forall b i', List.length i' = List.length w ->
     rmap (map2 nmul i') (get_bose_einstein_correction w b) = Ok j -> List.length j = List.length w).
  { intros b i' L'. unfold get_bose_einstein_correction. destruct (Rleb _ _); [discriminate|].
    intros [= <-]. rewrite map2_length, map_length. lia. }
  destruct (ma_laser a).
  - destruct (Req_EM_T _ _); [discriminate|]. unfold get_laser_correction.
    destruct (Rleb _ _); [discriminate|]. cbn [rmap rbind].
    destruct (ma_bose a).
    + apply A. rewrite map2_length, map_length. lia.
    + intros [= <-]. rewrite map2_length, map_length. lia.
  - cbn [rbind]. destruct (ma_bose a); [apply A; auto|]. intros [= <-]; auto.
Qed.

Lemma f_C41 ts dt a w i : (3 <= List.length ts)%nat -> 0 < dt -> measure_md (mkMD ts dt) a = Ok (w, i) ->
  let S := List.length ts in
  w = map (fun k => INR k * (3335640951981521 / 10 ^ 11) / (INR (S - 1) * dt)) (seq 1 ((S - 1 + 1) / 2 - 1)) /\
  List.length i = List.length w.
Proof.
  intros L D. rewrite measure_md_eq. cbv zeta. cbn [md_ts md_timestep]. rewrite diff_length.
  set (n := (List.length ts - 1)%nat).
  destruct (negb _); [discriminate|].
  destruct (Nat.eqb_spec n 0) as [Z|Z]; [discriminate|].
  destruct (Req_EM_T _ _); [discriminate|].
  rewrite kept_pos by (auto; lia).
  set (f := freq_of n dt).
  destruct (apply_corrections _ _ _) as [j|] eqn:E; [|discriminate].
  intros H. apply (f_equal (fun r => match r with Ok x => x | Err _ => ([], []) end)) in H.
  cbn [rmap] in H.
  assert (HW := f_equal fst H). assert (HI := f_equal snd H). cbn [fst snd] in HW, HI. subst w i. clear H.
  split.
  2: { apply corrections_length in E; auto. rewrite !map_length. auto. }
  assert (P : (1 <= (n + 1) / 2)%nat).
  { replace 1%nat with (2 / 2)%nat by reflexivity. apply Nat.div_le_mono; lia. }
  assert (TS : forall k, tl (seq 0 k) = seq 1 (k - 1)) by (intros [|k]; simpl; [auto|rewrite Nat.sub_0_r; auto]).
  rewrite TS. apply map_ext_in. intros k I. apply in_seq in I. apply freq_of_pos; auto; lia.
Qed.

Lemma f_C41_ok ts dt a : (3 <= List.length ts)%nat -> 0 < dt -> raw a ->
  exists w i, measure_md (mkMD ts dt) a = Ok (w, map Some i) /\ Forall (fun x => 0 <= x) i.
Proof.
  intros L D Ra. rewrite measure_md_eq. cbv zeta. cbn [md_ts md_timestep]. rewrite diff_length.
  rewrite (proj1 Ra), String.eqb_refl. cbn [negb].
  destruct (Nat.eqb_spec (List.length ts - 1) 0) as [Z|Z]; [lia|].
  destruct (Req_EM_T _ _) as [E|E].
  - exfalso. apply Rmult_integral in E. destruct E; [|lra]. apply INR_eq_0 in H || (apply (not_0_INR _ Z) in H; auto).
  - rewrite corrections_raw by auto. cbn [rmap].
    eexists. exists (map (fun k => md_int (diff ts) (ang (List.length ts - 1) k)) (tl (kept (List.length ts - 1) dt))).
    rewrite map_map. split; [reflexivity|].
    apply Forall_forall. intros x I. apply in_map_iff in I. destruct I as (k & <- & _).
    unfold md_int.
    repeat match goal with |- context[power ?a ?b] => pose proof (power_nonneg a b); generalize dependent (power a b); intros end.
    lra.
Qed.

(** * Nonnegativity *)
Lemma f_C42_signal x dt w i : calc_signal_spectrum x dt = Ok (w, i) -> Forall (fun v => 0 <= v) i.
Proof.
  rewrite css_eq. destruct (Nat.eqb _ _); [discriminate|]. destruct (Req_EM_T _ _); [discriminate|].
  intros [= _ <-]. apply Forall_forall. intros v I. apply in_map_iff in I. destruct I as (k & <- & _). apply power_nonneg.
Qed.

Lemma power_spec th x : power th x = (energy x + fourier_re x th ^ 2 + fourier_im x th ^ 2) / 2.
Proof. unfold power. rewrite fourier_re_cs, fourier_im_sn, energy_dotl. field. Qed.

Lemma f_C42_power x dt : x <> [] -> 0 < dt ->
  let n := List.length x in
  calc_signal_spectrum x dt =
    Ok (map (fun k => INR k * (3335640951981521 / 10 ^ 11) / (INR n * dt)) (seq 0 ((n + 1) / 2)),
        map (fun k => let th := 2 * PI * INR k / INR n in
                      (energy x + fourier_re x th ^ 2 + fourier_im x th ^ 2) / 2) (seq 0 ((n + 1) / 2))).
Proof.
  intros N D n. rewrite css_eq. fold n.
  assert (L : (1 <= n)%nat) by (unfold n; destruct x; [congruence|simpl; lia]).
  destruct (Nat.eqb_spec n 0); [lia|].
  assert (P : 0 < INR n * dt) by (apply Rmult_lt_0_compat; auto; apply lt_0_INR; lia).
  destruct (Req_EM_T _ _); [lra|].
  rewrite kept_pos by auto. do 2 f_equal.
  - apply map_ext_in. intros k I. apply in_seq in I. apply freq_of_pos; auto; lia.
  - apply map_ext. intros k. apply power_spec.
Qed.

Lemma times_1 l : times 1 l = l.
Proof. unfold times. rewrite <- map_id. apply map_ext. intros [r|]; simpl; auto. f_equal. ring. Qed.

Lemma rsum_poly_nonneg l : 0 <= rsum (map polycrystalline l).
Proof. induction l; cbn [map]; [unfold rsum; simpl; lra|]. rewrite rsum_cons. pose proof (poly_nonneg a). lra. Qed.

Lemma f_C42_md s a w i : raw a -> measure_md s a = Ok (w, i) ->
  Forall (fun x => exists v, x = Some v /\ 0 <= v) i.
Proof.
  intros Ra. rewrite measure_md_eq. cbv zeta. destruct (negb _); [discriminate|].
  destruct (Nat.eqb _ _); [discriminate|]. destruct (Req_EM_T _ _); [discriminate|].
  rewrite corrections_raw by auto. cbn [rmap]. intros [= _ <-].
  apply Forall_forall. intros x I. apply in_map_iff in I. destruct I as (k & <- & _).
  eexists. split; eauto.
  rewrite md_int_poly.
  pose proof (poly_nonneg (mcs (ang (List.length (diff (md_ts s))) k) 0 (diff (md_ts s)))).
  pose proof (poly_nonneg (msn (ang (List.length (diff (md_ts s))) k) 0 (diff (md_ts s)))).
  assert (0 <= rsum (map polycrystalline (diff (md_ts s)))).
  { apply rsum_poly_nonneg. }
  lra.
Qed.
