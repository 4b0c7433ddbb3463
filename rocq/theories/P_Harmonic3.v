(** Spectra of superposed vibrations. *)
From Coq Require Import String ZArith Reals Lra Lia Psatz Bool Arith List.
From Verif Require Import Base LinAlg M_Validate M_StructUtils M_Interp M_Spectrum M_Dynamics S_Spectrum S_Harmonic
  P_Interp P_Signal P_Spectrum P_Dynamics P_Dynamics2 P_Harmonic P_Harmonic2.
Import ListNotations.
Local Open Scope R_scope.

Definition vib (v : vibration) : nat * R := (v_cycles v, v_phase v).
Definition series (n : nat) (A : M3) (vs : list vibration) : list M3 := map (superposed n A vs) (seq 0 (S n)).

Lemma linear_msum f l : linear f -> f (msum l) = rsum (map f l).
Proof. intros (Z & P & M). induction l as [|a l IH]; cbn [msum fold_right map]; auto. fold (msum l). rewrite P, IH. reflexivity. Qed.
Lemma linear_sub f a b : linear f -> f (msub a b) = f a - f b.
Proof.
  intros (Z & P & M). replace (msub a b) with (madd a (mscale (-1) b)).
  - rewrite P, M. ring.
  - apply M3_eq; apply V3_eq; cbn [msub madd mscale r0 r1 r2 vsub vadd vscale LinAlg.vx LinAlg.vy LinAlg.vz]; ring.
Qed.

Lemma nth_series n A vs j : (j <= n)%nat -> nth j (series n A vs) m0 = superposed n A vs j.
Proof.
  intros H. unfold series. rewrite (nth_indep _ m0 (superposed n A vs 0)) by (rewrite map_length, seq_length; lia).
  rewrite map_nth, seq_nth by lia. auto.
Qed.

Lemma rsum_map_sub {T} (f g : T -> R) l : rsum (map f l) - rsum (map g l) = rsum (map (fun a => f a - g a) l).
Proof. unfold rsum. induction l as [|a l IH]; cbn [map fold_right]; [ring|]. rewrite <- IH. ring. Qed.

Lemma series_coordinate f n A vs j : linear f -> (j < n)%nat ->
  f (change (series n A vs) j) = mix n (map (fun v => (f (v_swing v), vib v)) vs) j.
Proof.
  intros Lf H. unfold change. rewrite linear_sub by auto. rewrite !nth_series by lia.
  unfold superposed. pose proof Lf as (Z & P & M). rewrite !P, !linear_msum, !map_map by auto.
  unfold mix. rewrite map_map. cbn [fst snd].
  match goal with |- f A + ?X - (f A + ?Y) = _ => replace (f A + X - (f A + Y)) with (X - Y) by ring end.
  rewrite rsum_map_sub. apply rsum_map_ext_in. intros v _. rewrite !M. unfold wave, tone, vib. cbn [fst snd]. ring.
Qed.

Lemma series_length n A vs : List.length (series n A vs) = S n.
Proof. unfold series. rewrite map_length, seq_length. auto. Qed.

Definition factor (n k c : nat) : R := 2 * sin (PI * INR c / INR n) ^ 2 * (INR n / 2 + if Nat.eqb c k then INR n ^ 2 / 4 else 0).

Lemma series_power f n A vs k : linear f -> resolved n (map v_cycles vs) -> (0 < k)%nat -> (2 * k < n)%nat ->
  power (ang n k) (map f (diff (series n A vs))) = rsum (map (fun v => f (v_swing v) ^ 2 * factor n k (v_cycles v)) vs).
Proof.
  intros Lf (ND & F) K1 K2. set (bs := map (fun v => (f (v_swing v), vib v)) vs).
  assert (E : map f (diff (series n A vs)) = map (mix n bs) (seq 0 n)).
  { rewrite diff_changes, series_length, map_map. replace (S n - 1)%nat with n by lia.
    apply map_ext_in. intros j Hj. apply in_seq in Hj. apply series_coordinate; auto; lia. }
  rewrite E, power_spec. unfold energy, fourier_re, fourier_im. rewrite map_length, seq_length.
  assert (NX : forall j, (j < n)%nat -> nth j (map (mix n bs) (seq 0 n)) 0 = mix n bs j).
  { intros j Hj. rewrite (nth_indep _ 0 (mix n bs 0)) by (rewrite map_length, seq_length; auto). rewrite map_nth, seq_nth by auto. auto. }
  rewrite (sum_n_ext (fun j => nth j (map (mix n bs) (seq 0 n)) 0 ^ 2) (fun j => mix n bs j ^ 2)) by (intros; rewrite NX; auto).
  rewrite (sum_n_ext (fun j => nth j (map (mix n bs) (seq 0 n)) 0 * cos (ang n k * INR j)) (fun j => mix n bs j * cos (2 * PI * INR k / INR n * INR j))) by (intros; rewrite NX; auto).
  rewrite (sum_n_ext (fun j => nth j (map (mix n bs) (seq 0 n)) 0 * sin (ang n k * INR j)) (fun j => mix n bs j * sin (2 * PI * INR k / INR n * INR j))) by (intros; rewrite NX; auto).
  rewrite mix_power; auto.
  - unfold bs. rewrite map_map. reflexivity.
  - unfold bs. rewrite Forall_map. rewrite Forall_map in F. eapply Forall_impl; [|exact F]. intros v Hv. exact Hv.
  - unfold bs. rewrite map_map. exact ND.
Qed.

Lemma poly_sum (g : vibration -> R) vs :
  45 * (1 / 9 * rsum (map (fun v => (fun m => vx (r0 m) + vy (r1 m) + vz (r2 m)) (v_swing v) ^ 2 * g v) vs)) +
  7 * (1 / 2 * rsum (map (fun v => (fun m => vx (r0 m) - vy (r1 m)) (v_swing v) ^ 2 * g v) vs) +
       1 / 2 * rsum (map (fun v => (fun m => vy (r1 m) - vz (r2 m)) (v_swing v) ^ 2 * g v) vs) +
       1 / 2 * rsum (map (fun v => (fun m => vz (r2 m) - vx (r0 m)) (v_swing v) ^ 2 * g v) vs) +
       3 * rsum (map (fun v => (fun m => vy (r0 m)) (v_swing v) ^ 2 * g v) vs) +
       3 * rsum (map (fun v => (fun m => vz (r1 m)) (v_swing v) ^ 2 * g v) vs) +
       3 * rsum (map (fun v => (fun m => vz (r0 m)) (v_swing v) ^ 2 * g v) vs))
  = rsum (map (fun v => textbook_intensity (v_swing v) * g v) vs).
Proof.
  unfold rsum. induction vs as [|v vs IH]; cbn [map fold_right]; [ring|]. rewrite <- IH, <- poly_textbook.
  unfold polycrystalline, alpha_squared, gamma_squared. cbv beta. field.
Qed.

Lemma series_int n A vs k : resolved n (map v_cycles vs) -> (0 < k)%nat -> (2 * k < n)%nat ->
  md_int (diff (series n A vs)) (ang n k) = rsum (map (fun v => textbook_intensity (v_swing v) * factor n k (v_cycles v)) vs).
Proof.
  intros H K1 K2. unfold md_int. rewrite !series_power; auto; try lin.
  apply (poly_sum (fun v => factor n k (v_cycles v))).
Qed.

Lemma f_C89 n A vs dt a : 0 < dt -> raw a -> resolved n (map v_cycles vs) -> (2 <= n)%nat ->
  exists w i, measure_md (mkMD (map (superposed n A vs) (seq 0 (S n))) dt) a = Ok (w, i) /\
    List.length i = List.length w /\
    forall k, (0 < k)%nat -> (2 * k < n)%nat ->
      nth_error w (k - 1) = Some (INR k * (3335640951981521 / 10 ^ 11) / (INR n * dt)) /\
      nth_error i (k - 1) = Some (Some (rsum (map (fun v => textbook_intensity (v_swing v) *
         (2 * sin (PI * INR (v_cycles v) / INR n) ^ 2 * (INR n / 2 + if Nat.eqb (v_cycles v) k then INR n ^ 2 / 4 else 0))) vs))).
Proof.
  intros D (O & Rl & Rb) H N.
  destruct (f_C42_textbook (series n A vs) dt a) as (w & i & E & Li & Hk); auto.
  { rewrite series_length. lia. } { congruence. } { congruence. }
  exists w, i. split; [exact E|]. split; [auto|]. intros k K1 K2.
  rewrite series_length in Hk. replace (S n - 1)%nat with n in Hk by lia.
  destruct (Hk k K1 K2) as [W I]. split; [exact W|]. rewrite I, Rl, Rb, !Rmult_1_r. do 2 f_equal.
  pose proof (md_int_form (series n A vs) (2 * PI * INR k / INR n)) as F. unfold md_form in F. rewrite <- F.
  apply (series_int n A vs k); auto.
Qed.

Lemma textbook_nonneg m : 0 <= textbook_intensity m.
Proof. rewrite <- poly_textbook. apply poly_nonneg. Qed.

(** The strongest lines are at the vibrations. *)
Lemma f_C89_peaks n A vs dt a w i v k x y : 0 < dt -> raw a -> resolved n (map v_cycles vs) -> (2 <= n)%nat ->
  measure_md (mkMD (map (superposed n A vs) (seq 0 (S n))) dt) a = Ok (w, i) ->
  In v vs -> 0 < textbook_intensity (v_swing v) -> (0 < k)%nat -> (2 * k < n)%nat -> ~ In k (map v_cycles vs) ->
  nth_error i (v_cycles v - 1) = Some (Some x) -> nth_error i (k - 1) = Some (Some y) -> y < x.
Proof.
  intros D Ra H N E Iv P K1 K2 NK X Y.
  destruct (f_C89 n A vs dt a D Ra H N) as (w' & i' & E' & _ & Hk). rewrite E in E'. injection E' as <- <-.
  assert (C := proj2 H). rewrite Forall_map, Forall_forall in C. destruct (C v Iv) as [C1 C2].
  destruct (Hk _ C1 C2) as [_ X']. destruct (Hk _ K1 K2) as [_ Y']. rewrite X in X'. rewrite Y in Y'.
  apply (f_equal (fun o => match o with Some (Some z) => z | _ => 0 end)) in X'. apply (f_equal (fun o => match o with Some (Some z) => z | _ => 0 end)) in Y'.
  cbv beta iota in X', Y'. subst x y.
  assert (NP : 0 < INR n) by (apply lt_0_INR; lia).
  clear X Y Hk E D H. revert Iv NK C. induction vs as [|u vs IH]; intros Iv NK C; [destruct Iv|].
  cbn [map]. unfold rsum. cbn [fold_right]. change (fold_right Rplus 0) with rsum.
  assert (LE : forall us, (forall z, In z us -> v_cycles z <> k) -> 
    rsum (map (fun z => textbook_intensity (v_swing z) * (2 * sin (PI * INR (v_cycles z) / INR n) ^ 2 * (INR n / 2 + (if v_cycles z =? k then INR n ^ 2 / 4 else 0)))) us)
    <= rsum (map (fun z => textbook_intensity (v_swing z) * (2 * sin (PI * INR (v_cycles z) / INR n) ^ 2 * (INR n / 2 + (if v_cycles z =? v_cycles v then INR n ^ 2 / 4 else 0)))) us)).
  { induction us as [|z us IHu]; intros Q; [simpl; lra|]. cbn [map]. unfold rsum. cbn [fold_right]. change (fold_right Rplus 0) with rsum.
    apply Rplus_le_compat; [|apply IHu; intros; apply Q; right; auto].
    destruct (Nat.eqb_spec (v_cycles z) k); [exfalso; apply (Q z); simpl; auto|].
    apply Rmult_le_compat_l; [apply textbook_nonneg|]. apply Rmult_le_compat_l; [pose proof (pow2_ge_0 (sin (PI * INR (v_cycles z) / INR n))); lra|].
    destruct (_ =? _)%nat; nra. }
  assert (NKs : forall z, In z (u :: vs) -> v_cycles z <> k).
  { intros z Hz Ez. apply NK. rewrite <- Ez. apply in_map. auto. }
  destruct Iv as [->|Iv].
  - rewrite Nat.eqb_refl. destruct (Nat.eqb_spec (v_cycles v) k) as [Ek|Nk]; [exfalso; apply (NKs v); simpl; auto|].
    apply Rplus_lt_le_compat; [|apply LE; intros; apply NKs; right; auto].
    assert (S : 0 < sin (PI * INR (v_cycles v) / INR n)).
    { assert (A1 : 0 < INR (v_cycles v)) by (apply lt_0_INR; lia). assert (A2 : INR (v_cycles v) < INR n) by (apply lt_INR; lia). pose proof PI_RGT_0.
      replace (PI * INR (v_cycles v) / INR n) with (PI * (INR (v_cycles v) / INR n)) by (field; lra).
      assert (Q : 0 < INR (v_cycles v) / INR n) by (apply Rdiv_lt_0_compat; auto).
      assert (Q1 : INR (v_cycles v) / INR n < 1) by (apply Rmult_lt_reg_r with (INR n); auto; unfold Rdiv; rewrite Rmult_assoc, Rinv_l by lra; lra).
      apply sin_gt_0; nra. }
    apply Rmult_lt_compat_l; auto. apply Rmult_lt_compat_l; [nra|nra].
  - apply Rplus_le_lt_compat.
    + specialize (LE [u]). cbn [map rsum fold_right] in LE. unfold rsum in LE. cbn [fold_right] in LE. rewrite !Rplus_0_r in LE. apply LE. intros z [<-|[]]. apply NKs. simpl; auto.
    + apply IH; auto. { intros Q. apply NK. simpl. auto. } { intros z Hz. apply C. right. auto. }
Qed.
