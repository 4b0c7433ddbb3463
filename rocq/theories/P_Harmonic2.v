(** MD intensities in textbook form, and of superposed vibrations. *)
From Coq Require Import String ZArith Reals Lra Lia Psatz Bool Arith List.
From Verif Require Import Base LinAlg M_Validate M_StructUtils M_Interp M_Spectrum M_Dynamics S_Spectrum S_Harmonic
  P_Interp P_Signal P_Spectrum P_Dynamics P_Dynamics2 P_Harmonic.
Import ListNotations.
Local Open Scope R_scope.

(** Corrections multiply nonnegative raw intensities by the factors. *)
Lemma corrections_factors a w (xs : list R) : List.length xs = List.length w -> Forall (fun x => 0 <= x) xs ->
  ma_orientation a = "polycrystalline"%string ->
  (ma_laser a = true -> 0 < ma_wavelength a) -> (ma_bose a = true -> 0 < ma_temperature a) ->
  exists i, apply_corrections a w (map Some xs) = Ok i /\ List.length i = List.length w /\
  forall k x v, nth_error xs k = Some x -> nth_error w k = Some v -> v <> 0 ->
    nth_error i k = Some (Some (x
       * (if ma_laser a then ((v - 10 ^ 7 / ma_wavelength a) / 10 ^ 4) ^ 4 / v else 1)
       * (if ma_bose a then bose_einstein v (ma_temperature a) else 1))).
Proof.
  intros L F O Hl Hb. set (ten := fun x => mscale (sqrt (x / 45)) mI).
  assert (T : forall x, 0 <= x -> polycrystalline (ten x) = x).
  { intros x Hx. unfold ten, polycrystalline, alpha_squared, gamma_squared, mI. cbn [mscale r0 r1 r2 vscale vx vy vz].
    assert (S : sqrt (x / 45) * sqrt (x / 45) = x / 45) by (apply sqrt_sqrt; lra).
    replace (((sqrt (x / 45) * 1 + sqrt (x / 45) * 1 + sqrt (x / 45) * 1) / 3) ^ 2) with (sqrt (x / 45) * sqrt (x / 45)) by field.
    rewrite S. field. }
  destruct (f_C39_measure (mkPS w (map ten xs)) a O) as (i & E & Li & H); cbn [ps_tensors ps_wavenumbers]; auto.
  { rewrite map_length. auto. }
  unfold measure_phonon in E. rewrite O, String.eqb_refl in E. cbn [negb ps_tensors ps_wavenumbers] in E.
  rewrite map_map in E. rewrite (map_ext_in _ Some) in E.
  2: { intros x Hx. rewrite Forall_forall in F. rewrite T; auto. }
  cbn [ps_tensors ps_wavenumbers] in *. destruct (apply_corrections a w (map Some xs)) as [j|]; [|discriminate]. cbn [rbind] in E. injection E as ->.
  exists i. split; [auto|split; [auto|]]. intros k x v Hx Hv NZ.
  rewrite (H k (ten x) v); auto; [|rewrite nth_error_map, Hx; auto].
  rewrite <- poly_textbook, T; auto. rewrite Forall_forall in F. apply F. eapply nth_error_In; eauto.
Qed.

Lemma nth_diff l : forall j, (S j < List.length l)%nat -> nth j (diff l) m0 = change l j.
Proof.
  induction l as [|a l IH]; intros j H; [simpl in H; lia|]. destruct l as [|b l]; [simpl in H; lia|].
  cbn [diff]. destruct j as [|j]; [reflexivity|]. cbn [nth]. unfold change. cbn [nth].
  simpl in H. rewrite IH by (simpl; lia). reflexivity.
Qed.

Lemma diff_changes l : diff l = map (change l) (seq 0 (List.length l - 1)).
Proof.
  apply nth_ext with (d := m0) (d' := m0). { rewrite diff_length, map_length, seq_length. auto. }
  intros j H. rewrite diff_length in H. rewrite nth_diff by lia.
  rewrite (nth_indep _ m0 (change l 0)) by (rewrite map_length, seq_length; auto). rewrite map_nth, seq_nth by auto. auto.
Qed.

Lemma mcs_sum th (f : nat -> M3) n : forall s ph,
  mcs th (ph + th * INR s) (map f (seq s n)) = msum (map (fun j => mscale (cos (ph + th * INR j)) (f j)) (seq s n)) /\
  msn th (ph + th * INR s) (map f (seq s n)) = msum (map (fun j => mscale (sin (ph + th * INR j)) (f j)) (seq s n)).
Proof.
  induction n as [|n IH]; intros s ph; [split; reflexivity|]. cbn [seq map mcs msn msum fold_right].
  replace (ph + th * INR s + th) with (ph + th * INR (S s)) by (rewrite S_INR; ring).
  destruct (IH (S s) ph) as [-> ->]. split; reflexivity.
Qed.

Definition md_form (ts : list M3) (th : R) : R :=
  (background ts + textbook_intensity (cosine_sum ts th) + textbook_intensity (sine_sum ts th)) / 2.
Lemma md_int_form ts th : md_int (diff ts) th = md_form ts th.
Proof.
  rewrite md_int_poly. unfold md_form, background, cosine_sum, sine_sum. rewrite diff_changes.
  destruct (mcs_sum th (change ts) (List.length ts - 1) 0 0) as [E1 E2].
  replace (0 + th * INR 0) with 0 in * by (simpl; ring). rewrite E1, E2, !poly_textbook, map_map.
  rewrite (map_ext (fun x => polycrystalline (change ts x)) (fun j => textbook_intensity (change ts j))) by (intros; apply poly_textbook).
  rewrite (map_ext (fun j => mscale (cos (0 + th * INR j)) (change ts j)) (fun j => mscale (cos (th * INR j)) (change ts j))) by (intros; rewrite Rplus_0_l; auto).
  rewrite (map_ext (fun j => mscale (sin (0 + th * INR j)) (change ts j)) (fun j => mscale (sin (th * INR j)) (change ts j))) by (intros; rewrite Rplus_0_l; auto).
  field.
Qed.

Lemma md_int_nonneg ad th : 0 <= md_int ad th.
Proof.
  rewrite md_int_poly. pose proof (poly_nonneg (mcs th 0 ad)). pose proof (poly_nonneg (msn th 0 ad)). pose proof (rsum_poly_nonneg ad). lra.
Qed.

Definition wn (n : nat) (dt : R) (k : nat) : R := INR k * (3335640951981521 / 10 ^ 11) / (INR n * dt).

Lemma half_bound n k : (2 * k < n)%nat -> (k < (n + 1) / 2)%nat.
Proof. intros H. apply Nat.div_le_lower_bound; lia. Qed.
Lemma half_bound' n k : (k < (n + 1) / 2)%nat -> (2 * k < n)%nat.
Proof. intros H. assert (2 * ((n + 1) / 2) <= n + 1)%nat by (apply Nat.mul_div_le; lia). lia. Qed.

Lemma f_C42_textbook ts dt a : (3 <= List.length ts)%nat -> 0 < dt -> ma_orientation a = "polycrystalline"%string ->
  (ma_laser a = true -> 0 < ma_wavelength a) -> (ma_bose a = true -> 0 < ma_temperature a) ->
  let n := (List.length ts - 1)%nat in
  exists w i, measure_md (mkMD ts dt) a = Ok (w, i) /\ List.length i = List.length w /\
    forall k, (0 < k)%nat -> (2 * k < n)%nat ->
      let v := INR k * (3335640951981521 / 10 ^ 11) / (INR n * dt) in
      let th := 2 * PI * INR k / INR n in
      nth_error w (k - 1) = Some v /\
      nth_error i (k - 1) = Some (Some (
        (background ts + textbook_intensity (cosine_sum ts th) + textbook_intensity (sine_sum ts th)) / 2
        * (if ma_laser a then ((v - 10 ^ 7 / ma_wavelength a) / 10 ^ 4) ^ 4 / v else 1)
        * (if ma_bose a then bose_einstein v (ma_temperature a) else 1))).
Proof.
  intros L D O Hl Hb n. rewrite measure_md_eq. cbv zeta. cbn [md_ts md_timestep]. rewrite diff_length. fold n.
  rewrite O, String.eqb_refl. cbn [negb].
  destruct (Nat.eqb_spec n 0) as [Z|Z]; [unfold n in Z; lia|].
  assert (NP : 0 < INR n) by (apply lt_0_INR; lia).
  destruct (Req_EM_T (INR n * dt) 0) as [E|E]; [exfalso; apply Rmult_integral in E; lra|].
  rewrite kept_pos by (auto; lia).
  assert (TS : forall k, tl (seq 0 k) = seq 1 (k - 1)) by (intros [|k]; simpl; [auto|rewrite Nat.sub_0_r; auto]).
  rewrite TS. set (ks := seq 1 ((n + 1) / 2 - 1)).
  replace (map (fun k => Some (md_int (diff ts) (ang n k))) ks) with (map (@Some R) (map (fun k => md_int (diff ts) (ang n k)) ks)) by (rewrite map_map; auto).
  destruct (corrections_factors a (map (freq_of n dt) ks) (map (fun k => md_int (diff ts) (ang n k)) ks)) as (i & Ei & Li & Hi); auto.
  { rewrite !map_length. auto. }
  { apply Forall_forall. intros x Hx. apply in_map_iff in Hx as (k & <- & _). apply md_int_nonneg. }
  rewrite Ei. cbn [rmap]. do 2 eexists. split; [reflexivity|]. split; [auto|].
  intros k K1 K2. assert (KB := half_bound n k K2).
  assert (NK : nth_error ks (k - 1) = Some k).
  { unfold ks. rewrite (nth_error_nth' _ 0%nat) by (rewrite seq_length; lia). rewrite seq_nth by lia. f_equal. lia. }
  assert (FK : freq_of n dt k = INR k * (3335640951981521 / 10 ^ 11) / (INR n * dt)) by (apply freq_of_pos; auto; lia).
  assert (WK : nth_error (map (freq_of n dt) ks) (k - 1) = Some (INR k * (3335640951981521 / 10 ^ 11) / (INR n * dt))).
  { rewrite nth_error_map, NK. cbn [option_map]. rewrite FK. auto. }
  split; [exact WK|].
  rewrite (Hi (k - 1)%nat (md_int (diff ts) (ang n k)) (INR k * (3335640951981521 / 10 ^ 11) / (INR n * dt))); auto.
  - rewrite md_int_form. reflexivity.
  - rewrite nth_error_map, NK. auto.
  - apply Rgt_not_eq. apply Rdiv_lt_0_compat; [|apply Rmult_lt_0_compat; auto].
    apply Rmult_lt_0_compat; [apply lt_0_INR; lia|]. apply Rdiv_lt_0_compat; [lra|apply pow_lt; lra].
Qed.
