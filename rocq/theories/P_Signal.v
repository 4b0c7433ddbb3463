(** Autocorrelation, Fourier sums and the signal spectrum. *)
From Coq Require Import String ZArith Reals Lra Lia Psatz Bool Arith List.
From Verif Require Import Base LinAlg M_Validate M_Interp M_Spectrum M_Dynamics S_Spectrum.
Import ListNotations.
Local Open Scope R_scope.

Fixpoint dotl (x y : list R) : R :=
  match x, y with a :: x', b :: y' => a * b + dotl x' y' | _, _ => 0 end.

Lemma rsum_app l m : rsum (l ++ m) = rsum l + rsum m.
Proof. unfold rsum. induction l; simpl; [ring | rewrite IHl; ring]. Qed.
Lemma rsum_cons a l : rsum (a :: l) = a + rsum l. Proof. reflexivity. Qed.
Lemma rsum_zero {A} (f : A -> R) l : (forall a, In a l -> f a = 0) -> rsum (map f l) = 0.
Proof.
  induction l; intros; cbn [map]; auto. rewrite rsum_cons, (H a) by (left; reflexivity).
  rewrite IHl by (intros; apply H; right; auto). ring.
Qed.
Lemma rsum_map_ext_in {A} (f g : A -> R) l :
  (forall a, In a l -> f a = g a) -> rsum (map f l) = rsum (map g l).
Proof. intros. f_equal. apply map_ext_in. auto. Qed.
Lemma seq_shift_map (f : nat -> R) a n : map f (seq (S a) n) = map (fun i => f (S i)) (seq a n).
Proof. rewrite <- seq_shift, map_map. reflexivity. Qed.
Lemma seq_plus_map {B} (f : nat -> B) m n : map f (seq m n) = map (fun i => f (m + i)%nat) (seq 0 n).
Proof.
  revert f. induction m; intros; [apply map_ext; auto|].
  rewrite <- seq_shift, map_map, IHm. apply map_ext; auto.
Qed.

Lemma dotl_nil_r x : dotl x [] = 0. Proof. destruct x; auto. Qed.

Lemma dotl_sum y : forall x, (List.length x <= List.length y)%nat ->
  dotl x y = rsum (map (fun j => nth j x 0 * nth j y 0) (seq 0 (List.length x))).
Proof.
  induction y as [|b y IH]; intros [|a x] L; cbn in L; try lia; try reflexivity.
  cbn [dotl List.length seq map]. rewrite rsum_cons, seq_shift_map. cbn [nth].
  rewrite <- IH by lia. reflexivity.
Qed.

Lemma nth_skipn' {A} (d : A) m : forall x j, nth j (skipn m x) d = nth (m + j) x d.
Proof. induction m; intros [|a x] j; simpl; auto. destruct j; auto. Qed.

Lemma autocorr_entry x m : (m < List.length x)%nat ->
  rsum (map (fun l => nth l x 0 * at_z x (Z.of_nat l - Z.of_nat (List.length x - 1 + m) + Z.of_nat (List.length x) - 1))
          (seq 0 (List.length x))) = dotl (skipn m x) x.
Proof.
  intros L. set (n := List.length x) in *.
  assert (E : seq 0 n = seq 0 (m + (n - m))) by (f_equal; lia). rewrite E.
  rewrite seq_app, map_app, rsum_app, rsum_zero, Rplus_0_l.
  2: { intros l I. apply in_seq in I. unfold at_z.
       replace (0 <=? _)%Z with false; [ring|]. symmetry. apply Z.leb_gt. lia. }
  rewrite dotl_sum by (rewrite skipn_length; lia). rewrite skipn_length.
  change (0 + m)%nat with m. rewrite (seq_plus_map _ m). fold n.
  apply rsum_map_ext_in. intros j I. apply in_seq in I.
  rewrite nth_skipn'. f_equal. unfold at_z.
  replace (Z.of_nat (m + j) - Z.of_nat (n - 1 + m) + Z.of_nat n - 1)%Z with (Z.of_nat j) by lia.
  replace (0 <=? Z.of_nat j)%Z with true by (symmetry; apply Z.leb_le; lia).
  rewrite Nat2Z.id. reflexivity.
Qed.

Lemma skipn_map {A B} (f : A -> B) k l : skipn k (map f l) = map f (skipn k l).
Proof. revert l; induction k; intros [|a l]; simpl; auto. Qed.
Lemma skipn_seq' k : forall a n, (k <= n)%nat -> skipn k (seq a n) = seq (a + k) (n - k).
Proof.
  induction k; intros; simpl.
  - f_equal; lia.
  - destruct n; [lia|]. simpl. rewrite IHk by lia. f_equal; lia.
Qed.

Lemma autocorrelation_eq x : x <> [] ->
  calc_autocorrelation x = Ok (map (fun m => dotl (skipn m x) x) (seq 0 (List.length x))).
Proof.
  intros N. unfold calc_autocorrelation.
  destruct x as [|a t] eqn:E; [congruence|]. rewrite <- E. clear N.
  assert (L : (0 < List.length x)%nat) by (rewrite E; simpl; lia). clear a t E.
  f_equal. unfold correlate_full. set (n := List.length x) in *.
  rewrite map_length, seq_length.
  replace ((n + n - 1 - 1) / 2)%nat with (n - 1)%nat.
  2: { replace (n + n - 1 - 1)%nat with ((n - 1) * 2)%nat by lia. symmetry. apply Nat.div_mul. lia. }
  rewrite skipn_map, skipn_seq' by lia.
  replace (n + n - 1 - (n - 1))%nat with n by lia. change (0 + (n - 1))%nat with (n - 1)%nat.
  rewrite (seq_plus_map _ (n - 1)). apply map_ext_in. intros m I. apply in_seq in I.
  apply autocorr_entry. fold n. lia.
Qed.

(** Cosine and sine sums with an initial phase *)
Fixpoint cs (th ph : R) (x : list R) : R :=
  match x with [] => 0 | a :: t => a * cos ph + cs th (ph + th) t end.
Fixpoint sn (th ph : R) (x : list R) : R :=
  match x with [] => 0 | a :: t => a * sin ph + sn th (ph + th) t end.

Lemma cs_shift th x : forall ph ps,
  cs th (ph + ps) x = cos ps * cs th ph x - sin ps * sn th ph x /\
  sn th (ph + ps) x = sin ps * cs th ph x + cos ps * sn th ph x.
Proof.
  induction x as [|a x IH]; intros; simpl.
  - split; ring.
  - replace (ph + ps + th) with (ph + th + ps) by ring.
    destruct (IH (ph + th) ps) as [-> ->].
    rewrite cos_plus, sin_plus. split; ring.
Qed.

Lemma modulus_shift th x ph :
  cs th ph x ^ 2 + sn th ph x ^ 2 = cs th 0 x ^ 2 + sn th 0 x ^ 2.
Proof.
  destruct (cs_shift th x 0 ph) as [A B]. rewrite Rplus_0_l in A, B. rewrite A, B.
  pose proof (sin2_cos2 ph) as H. unfold Rsqr in H.
  transitivity ((sin ph * sin ph + cos ph * cos ph) * (cs th 0 x ^ 2 + sn th 0 x ^ 2)); [ring|].
  rewrite H. ring.
Qed.

Lemma cs_rsum th x : forall ph,
  cs th ph x = rsum (map (fun j => nth j x 0 * cos (ph + th * INR j)) (seq 0 (List.length x))).
Proof.
  induction x as [|a x IH]; intros; [reflexivity|].
  cbn [cs List.length seq map nth]. rewrite rsum_cons, IH, seq_shift_map. f_equal.
  - simpl. do 2 f_equal. ring.
  - apply rsum_map_ext_in. intros j _. cbn [nth]. rewrite S_INR. do 2 f_equal. ring.
Qed.
Lemma sn_rsum th x : forall ph,
  sn th ph x = rsum (map (fun j => nth j x 0 * sin (ph + th * INR j)) (seq 0 (List.length x))).
Proof.
  induction x as [|a x IH]; intros; [reflexivity|].
  cbn [sn List.length seq map nth]. rewrite rsum_cons, IH, seq_shift_map. f_equal.
  - simpl. do 2 f_equal. ring.
  - apply rsum_map_ext_in. intros j _. cbn [nth]. rewrite S_INR. do 2 f_equal. ring.
Qed.

Lemma sum_n_rsum f n : sum_n f n = rsum (map f (seq 0 n)).
Proof.
  induction n; [reflexivity|]. rewrite seq_S, map_app, rsum_app. simpl. rewrite IHn. unfold rsum. simpl. ring.
Qed.
Lemma fourier_re_cs x th : fourier_re x th = cs th 0 x.
Proof.
  unfold fourier_re. rewrite sum_n_rsum, cs_rsum. apply rsum_map_ext_in. intros. do 2 f_equal. ring.
Qed.
Lemma fourier_im_sn x th : fourier_im x th = sn th 0 x.
Proof.
  unfold fourier_im. rewrite sum_n_rsum, sn_rsum. apply rsum_map_ext_in. intros. do 2 f_equal. ring.
Qed.
Lemma energy_dotl x : energy x = dotl x x.
Proof.
  unfold energy. rewrite sum_n_rsum, dotl_sum by lia. apply rsum_map_ext_in. intros; ring.
Qed.

(** The cosine transform of the autocorrelation *)
Definition acf (th : R) (x : list R) : R :=
  rsum (map (fun m => dotl (skipn m x) x * cos (th * INR m)) (seq 0 (List.length x))).

Lemma dotl_skipn_cons a u t : forall m, dotl (skipn m t) (a :: u) = nth m t 0 * a + dotl (skipn (S m) t) u.
Proof.
  induction t as [|b t IH]; intros m.
  - rewrite skipn_nil. destruct m; simpl; ring.
  - destruct m; [reflexivity|]. cbn [skipn nth]. rewrite IH. reflexivity.
Qed.

Lemma acf_eq th x : acf th x = 1 / 2 * (dotl x x + cs th 0 x ^ 2 + sn th 0 x ^ 2).
Proof.
  induction x as [|a t IH].
  - unfold acf, rsum. simpl. ring.
  - assert (E : acf th (a :: t) = a * a + a * cs th th t + acf th t).
    { unfold acf at 1. cbn [List.length seq map skipn]. rewrite rsum_cons, seq_shift_map.
      assert (E1 : rsum (map (fun i => dotl (skipn i t) (a :: t) * cos (th * INR (S i))) (seq 0 (List.length t)))
              = a * cs th th t + (acf th t - dotl t t)).
      { erewrite rsum_map_ext_in.
        2: { intros i _. rewrite dotl_skipn_cons. reflexivity. }
        rewrite (cs_rsum th t th).
        assert (E2 : rsum (map (fun i => dotl (skipn (S i) t) t * cos (th * INR (S i))) (seq 0 (List.length t)))
                     = acf th t - dotl t t).
        { unfold acf. destruct t as [|b u]; [unfold rsum; simpl; ring|].
          set (t := b :: u) in *.
          rewrite <- (seq_shift_map (fun i => dotl (skipn i t) t * cos (th * INR i))).
          change (seq 0 (List.length t)) with (0%nat :: seq 1 (List.length u)).
          replace (List.length t) with (List.length u + 1)%nat by (unfold t; simpl; lia).
          rewrite seq_app, map_app, rsum_app.
          cbn [map seq]. rewrite !rsum_cons.
          rewrite (skipn_all2 (n := 1 + List.length u)) by (unfold t; simpl; lia).
          cbn [skipn INR]. rewrite Rmult_0_r, cos_0. unfold rsum at 2. simpl. ring. }
        rewrite <- E2.
        generalize (seq 0 (List.length t)) as l. induction l; [unfold rsum; simpl; ring|].
        cbn [map]. rewrite !rsum_cons, IHl.
        replace (th + th * INR a0) with (th * INR (S a0)) by (rewrite S_INR; ring). ring. }
      cbn [skipn]. rewrite E1. simpl. rewrite Rmult_0_r, cos_0. ring. }
    rewrite E, IH. cbn [dotl cs sn]. rewrite cos_0, sin_0, Rplus_0_l.
    pose proof (modulus_shift th t th) as M.
    replace (1 / 2 * (a * a + dotl t t + (a * 1 + cs th th t) ^ 2 + (a * 0 + sn th th t) ^ 2))
      with (a * a + a * cs th th t + 1 / 2 * (dotl t t + (cs th th t ^ 2 + sn th th t ^ 2))) by field.
    rewrite M. ring.
Qed.

(** Power spectrum at one frequency *)
Definition power (th : R) (x : list R) : R := 1 / 2 * (dotl x x + cs th 0 x ^ 2 + sn th 0 x ^ 2).

Lemma dotl_nonneg x : 0 <= dotl x x.
Proof. induction x; simpl; [lra|]. pose proof (Rle_0_sqr a). unfold Rsqr in H. lra. Qed.
Lemma power_nonneg th x : 0 <= power th x.
Proof.
  unfold power. pose proof (dotl_nonneg x). pose proof (pow2_ge_0 (cs th 0 x)). pose proof (pow2_ge_0 (sn th 0 x)). lra.
Qed.

(** Entries kept by the nonnegative-wavenumber mask *)
Definition kept (n : nat) (dt : R) : list nat :=
  match fftfreq n dt with
  | Ok f => select_mask (map (Rleb 0) (map (fun f => f * (3335640951981521 / 10 ^ 14) * 1000) f)) (seq 0 n)
  | Err _ => []
  end.
Definition freq_of (n : nat) (dt : R) (k : nat) : R :=
  match fftfreq n dt with
  | Ok f => nth k f 0 * (3335640951981521 / 10 ^ 14) * 1000
  | Err _ => 0
  end.

Lemma select_mask_map {A B} (g : A -> B) mask l : select_mask mask (map g l) = map g (select_mask mask l).
Proof. revert l; induction mask as [|[] mask]; intros [|a l]; simpl; auto. f_equal; auto. Qed.

Lemma fftfreq_length n dt f : (1 <= n)%nat -> fftfreq n dt = Ok f -> List.length f = n.
Proof.
  intros N. unfold fftfreq. destruct (Req_EM_T _ _); [discriminate|]. intros H.
  apply (f_equal (fun r => match r with Ok x => x | Err _ => [] end)) in H. cbv beta iota in H. subst f.
  rewrite map_length, app_length, !map_length, !seq_length.
  pose proof (Nat.div_mod n 2 ltac:(lia)). pose proof (Nat.mod_upper_bound n 2 ltac:(lia)).
  pose proof (Nat.div_mod (n-1) 2 ltac:(lia)). pose proof (Nat.mod_upper_bound (n-1) 2 ltac:(lia)). lia.
Qed.

Lemma map_nth_seq {A} (d : A) l : map (fun k => nth k l d) (seq 0 (List.length l)) = l.
Proof.
  induction l; simpl; auto. f_equal. rewrite <- seq_shift, map_map. rewrite <- IHl at 2. apply map_ext. auto.
Qed.

Lemma fft_real_eq x n : List.length x = n -> 
  fft_real (map (fun m => dotl (skipn m x) x) (seq 0 n))
  = map (fun k => power (2 * PI * INR k / INR n) x) (seq 0 n).
Proof.
  intros L. unfold fft_real. rewrite map_length, seq_length. apply map_ext_in. intros k _.
  unfold power. rewrite <- acf_eq. unfold acf. rewrite L. apply rsum_map_ext_in.
  intros m I. apply in_seq in I.
  f_equal.
  - rewrite (nth_indep _ 0 (dotl (skipn 0 x) x)) by (rewrite map_length, seq_length; lia).
    rewrite (map_nth (fun m => dotl (skipn m x) x) (seq 0 n) 0%nat m), seq_nth by lia. reflexivity.
  - f_equal. assert (INR n <> 0) by (apply not_0_INR; lia). field. auto.
Qed.

Lemma css_eq x dt :
  calc_signal_spectrum x dt =
  if Nat.eqb (List.length x) 0 then Err ValueError
  else if Req_EM_T (INR (List.length x) * dt) 0 then Err ZeroDivisionError
  else Ok (map (freq_of (List.length x) dt) (kept (List.length x) dt),
           map (fun k => power (2 * PI * INR k / INR (List.length x)) x) (kept (List.length x) dt)).
Proof.
  destruct (Nat.eqb_spec (List.length x) 0) as [Z|Z].
  - destruct x; [reflexivity|discriminate].
  - unfold calc_signal_spectrum. rewrite autocorrelation_eq by (intros ->; apply Z; reflexivity).
    cbn [rbind]. rewrite map_length, seq_length.
    unfold kept, freq_of.
    destruct (fftfreq (List.length x) dt) as [f|e] eqn:F.
    + assert (F' := F). unfold fftfreq in F'. destruct (Req_EM_T _ _); [discriminate|]. clear F'.
      cbn [rbind]. rewrite fft_real_eq by reflexivity. rewrite select_mask_map. do 2 f_equal.
      assert (LF : List.length f = List.length x) by (apply (fftfreq_length (List.length x) dt); auto; lia).
      set (mask := map (Rleb 0) _).
      * rewrite <- LF. transitivity (map (fun v => v * (3335640951981521 / 10 ^ 14) * 1000)
          (select_mask mask (map (fun k => nth k f 0) (seq 0 (List.length f))))).
        { rewrite map_nth_seq. reflexivity. }
        rewrite select_mask_map, map_map. reflexivity.
      * apply select_mask_map.
    + unfold fftfreq in F. destruct (Req_EM_T _ _); [|discriminate]. injection F as <-. reflexivity.
Qed.

(** Wavenumbers for a positive sampling rate *)
Lemma select_mask_prefix {A} (l1 l2 : list A) m1 m2 :
  List.length m1 = List.length l1 -> (forall b, In b m1 -> b = true) -> (forall b, In b m2 -> b = false) ->
  select_mask (m1 ++ m2) (l1 ++ l2) = l1.
Proof.
  intros L T F. revert l1 L T. induction m1 as [|b m1 IH]; intros [|a l1] L T; simpl in *; try lia.
  - clear L T. revert l2 F. induction m2; intros l2 F; simpl; auto. destruct l2; auto.
    rewrite (F a) by (simpl; auto). apply IHm2. intros; apply F; simpl; auto.
  - rewrite (T b) by auto. f_equal. apply IH; auto.
Qed.

Lemma kept_pos n dt : (1 <= n)%nat -> 0 < dt -> kept n dt = seq 0 ((n + 1) / 2).
Proof.
  intros N D. unfold kept.
  assert (P : 0 < INR n * dt) by (apply Rmult_lt_0_compat; auto; apply lt_0_INR; lia).
  assert (IP : 0 < 1 / (INR n * dt)) by (apply Rdiv_lt_0_compat; lra).
  unfold fftfreq. destruct (Req_EM_T _ _); [lra|].
  assert (HN : ((n - 1) / 2 + 1 = (n + 1) / 2)%nat).
  { replace (n + 1)%nat with (n - 1 + 1 * 2)%nat by lia. rewrite Nat.div_add by lia. lia. }
  rewrite HN.
  assert (HS : (n = (n + 1) / 2 + n / 2)%nat).
  { pose proof (Nat.div_mod n 2 ltac:(lia)). pose proof (Nat.mod_upper_bound n 2 ltac:(lia)).
    pose proof (Nat.div_mod (n+1) 2 ltac:(lia)). pose proof (Nat.mod_upper_bound (n+1) 2 ltac:(lia)). lia. }
  assert (HQ : seq 0 n = seq 0 ((n + 1) / 2 + n / 2)) by (f_equal; exact HS).
  rewrite HQ, seq_app. rewrite !map_app.
  apply select_mask_prefix.
  - rewrite !map_length, !seq_length. reflexivity.
  - intros b I. rewrite !map_map in I. apply in_map_iff in I. destruct I as (i & <- & I).
    apply Rleb_true. apply Rmult_le_pos; [|lra]. apply Rmult_le_pos; [|lra].
    apply Rmult_le_pos; [|lra]. apply IZR_le. lia.
  - intros b I. rewrite !map_map in I. apply in_map_iff in I. destruct I as (i & <- & I).
    apply in_seq in I. apply Rleb_false.
    assert (IZR (Z.of_nat i - Z.of_nat (n / 2)) <= -1) by (apply IZR_le; lia).
    revert H IP. generalize (IZR (Z.of_nat i - Z.of_nat (n / 2))) (1 / (INR n * dt)). clear.
    intros q p H IP. assert (q * p < 0) by nra. generalize dependent (q * p). intros r Hr. lra.
Qed.

Lemma freq_of_pos n dt k : (1 <= n)%nat -> 0 < dt -> (k < (n + 1) / 2)%nat ->
  freq_of n dt k = INR k * (3335640951981521 / 10 ^ 11) / (INR n * dt).
Proof.
  intros N D K. unfold freq_of.
  assert (P : 0 < INR n * dt) by (apply Rmult_lt_0_compat; auto; apply lt_0_INR; lia).
  unfold fftfreq. destruct (Req_EM_T _ _); [lra|].
  assert (HN : ((n - 1) / 2 + 1 = (n + 1) / 2)%nat).
  { replace (n + 1)%nat with (n - 1 + 1 * 2)%nat by lia. rewrite Nat.div_add by lia. lia. }
  rewrite HN. rewrite map_app, app_nth1 by (rewrite !map_length, seq_length; auto).
  rewrite map_map.
  rewrite (nth_indep _ 0 ((fun i => IZR (Z.of_nat i) * (1 / (INR n * dt))) 0%nat)) by (rewrite map_length, seq_length; auto).
  rewrite (map_nth (fun i => IZR (Z.of_nat i) * (1 / (INR n * dt)))), seq_nth by auto.
  rewrite Nat.add_0_l, <- INR_IZR_INZ. field.
  split; [|assert (0 < INR n) by (apply lt_0_INR; lia)]; lra.
Qed.

(** Reversal, negation and scaling of a signal *)
Lemma cs_app th x : forall ph y,
  cs th ph (x ++ y) = cs th ph x + cs th (ph + th * INR (List.length x)) y /\
  sn th ph (x ++ y) = sn th ph x + sn th (ph + th * INR (List.length x)) y.
Proof.
  induction x as [|a x IH]; intros ph y.
  - simpl. rewrite Rmult_0_r, Rplus_0_r. split; ring.
  - cbn [app cs sn List.length]. destruct (IH (ph + th) y) as [-> ->].
    replace (ph + th + th * INR (List.length x)) with (ph + th * INR (S (List.length x))) by (rewrite S_INR; ring).
    split; ring.
Qed.

Lemma cs_neg th x : forall ph, cs (- th) (- ph) x = cs th ph x /\ sn (- th) (- ph) x = - sn th ph x.
Proof.
  induction x as [|a x IH]; intros; simpl; [split; ring|].
  replace (- ph + - th) with (- (ph + th)) by ring. destruct (IH (ph + th)) as [-> ->].
  rewrite cos_neg, sin_neg. split; ring.
Qed.

Lemma cs_rev th x : forall ph,
  cs th ph (rev x) = cs (- th) (ph + th * (INR (List.length x) - 1)) x /\
  sn th ph (rev x) = sn (- th) (ph + th * (INR (List.length x) - 1)) x.
Proof.
  induction x as [|a x IH]; intros ph.
  - simpl. auto.
  - cbn [rev]. destruct (cs_app th (rev x) ph [a]) as [-> ->].
    destruct (IH ph) as [-> ->]. cbn [cs sn List.length]. rewrite rev_length, S_INR.
    replace (ph + th * (INR (List.length x) + 1 - 1)) with (ph + th * INR (List.length x)) by ring.
    replace (ph + th * INR (List.length x) + - th) with (ph + th * (INR (List.length x) - 1)) by ring.
    split; ring.
Qed.

Lemma dotl_sumsq x : dotl x x = rsum (map (fun a => a * a) x).
Proof. induction x; cbn [dotl map]; auto. rewrite rsum_cons, IHx. auto. Qed.
Lemma rsum_rev l : rsum (rev l) = rsum l.
Proof. induction l; cbn [rev]; auto. rewrite rsum_app, IHl. unfold rsum; simpl. ring. Qed.

Lemma power_rev th x : power th (rev x) = power th x.
Proof.
  unfold power. f_equal. rewrite !dotl_sumsq, map_rev, rsum_rev.
  rewrite !Rplus_assoc. f_equal.
  destruct (cs_rev th x 0) as [-> ->]. rewrite modulus_shift.
  destruct (cs_neg th x 0) as [A B]. rewrite Ropp_0 in A, B. rewrite A, B. ring.
Qed.

Lemma cs_scale th c x : forall ph, cs th ph (map (Rmult c) x) = c * cs th ph x /\ sn th ph (map (Rmult c) x) = c * sn th ph x.
Proof. induction x; intros; simpl; [split; ring|]. destruct (IHx (ph + th)) as [-> ->]. split; ring. Qed.
Lemma power_scale th c x : power th (map (Rmult c) x) = c ^ 2 * power th x.
Proof.
  unfold power. destruct (cs_scale th c x 0) as [-> ->].
  assert (dotl (map (Rmult c) x) (map (Rmult c) x) = c ^ 2 * dotl x x) as ->.
  { induction x; simpl; [ring|]. simpl in IHx. rewrite IHx. ring. }
  field.
Qed.
