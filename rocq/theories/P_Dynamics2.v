(** General slices, corrected intensities, and facts about the MD wavenumber grid. *)
From Coq Require Import String ZArith Reals Lra Lia Psatz Bool Arith List.
From Verif Require Import Base LinAlg M_Validate M_Interp M_Spectrum M_Dynamics S_Interp S_Spectrum P_Signal P_Spectrum P_Dynamics.
Import ListNotations.
Local Open Scope R_scope.

Lemma slice_bounds_spec n start stop step : step <> 0%Z ->
  slice_bounds n start stop step = (slice_start (Z.of_nat n) start step, slice_stop (Z.of_nat n) stop step).
Proof.
  intros N. unfold slice_bounds, slice_start, slice_stop, clip_index, from_end. cbv zeta.
  destruct (Z.ltb_spec 0 step); f_equal.
  1,2: destruct start as [i|]; try reflexivity; destruct stop as [j|]; try reflexivity.
  all: try (destruct start as [i|]; [|reflexivity]); try (destruct stop as [j|]; [|reflexivity]).
  all: repeat match goal with |- context [Z.ltb ?a ?b] => destruct (Z.ltb_spec a b) end; try lia.
Qed.

Lemma slice_count_spec a b step k : step <> 0%Z ->
  ((k < slice_count a b step)%nat <-> before (a + Z.of_nat k * step) b step).
Proof.
  intros N. unfold slice_count, before. destruct (Z.ltb_spec 0 step).
  - pose proof (Z.div_mod (b - a + step - 1) step ltac:(lia)) as D.
    pose proof (Z.mod_pos_bound (b - a + step - 1) step ltac:(lia)) as M.
    set (q := ((b - a + step - 1) / step)%Z) in *. split; intros H1; [assert (Z.of_nat k < q)%Z by lia; nia|].
    assert (Z.of_nat k < q)%Z by nia. lia.
  - pose proof (Z.div_mod (a - b + - step - 1) (- step) ltac:(lia)) as D.
    pose proof (Z.mod_pos_bound (a - b + - step - 1) (- step) ltac:(lia)) as M.
    set (q := ((a - b + - step - 1) / - step)%Z) in *. split; intros H1; [assert (Z.of_nat k < q)%Z by lia; nia|].
    assert (Z.of_nat k < q)%Z by nia. lia.
Qed.

Lemma f_C75_slice_full t start stop step : step <> 0%Z ->
  let n := Z.of_nat (List.length (tr_ts t)) in
  let a := slice_start n start step in let b := slice_stop n stop step in
  exists l, trajectory_slice t start stop (Some step) = Ok l /\
   forall k, 
     (before (a + Z.of_nat k * step) b step ->
        (0 <= a + Z.of_nat k * step < n)%Z /\
        nth_error l k = nth_error (tr_ts t) (Z.to_nat (a + Z.of_nat k * step))) /\
     (~ before (a + Z.of_nat k * step) b step -> nth_error l k = None).
Proof.
  intros N n a b. unfold trajectory_slice. destruct (Z.eqb_spec step 0); [congruence|].
  rewrite slice_bounds_spec by auto. fold n a b.
  eexists. split; [reflexivity|]. intros k. rewrite <- slice_count_spec by auto. split; intros H.
  - assert (G : (0 <= a + Z.of_nat k * step < n)%Z).
    { apply slice_count_spec in H; auto. unfold before in H. unfold a, b, slice_start, slice_stop in *.
      destruct (Z.ltb_spec 0 step).
      - destruct start, stop; nia.
      - destruct start, stop; nia. }
    split; auto. rewrite nth_error_map, (nth_error_nth' _ 0%nat) by (rewrite seq_length; auto).
    rewrite seq_nth by auto. cbn [option_map Nat.add]. symmetry. apply nth_error_nth'. lia.
  - apply nth_error_None. rewrite map_length, seq_length. lia.
Qed.

(** The measured intensity is the raw one times the requested factors. *)
Lemma be_eq v T : v <> 0 -> 0 < T -> exists cs, get_bose_einstein_correction [v] T = Ok [cs] /\ cs = Some (bose_einstein v T).
Proof.
  intros V H. destruct (f_C38_values [v] T H) as (cs & E & F).
  inversion F as [|? c ? ? K Q]; subst. inversion Q; subst. destruct K as [K _]. eauto.
Qed.

Lemma F2len {A B} (P : A -> B -> Prop) l m : Forall2 P l m -> List.length l = List.length m.
Proof. induction 1; simpl; auto. Qed.
Lemma map2_map_both {A B C D E} (f : C -> D -> E) (g : A -> C) (h : B -> D) : forall l m,
  map2 f (map g l) (map h m) = map2 (fun x y => f (g x) (h y)) l m.
Proof. induction l; destruct m; simpl; congruence. Qed.
Lemma map2_as_combine {A B C} (f : A -> B -> C) : forall l m, map2 f l m = map (fun p => f (fst p) (snd p)) (combine l m).
Proof. induction l; destruct m; simpl; congruence. Qed.

Lemma f_C39_measure s a : ma_orientation a = "polycrystalline"%string ->
  List.length (ps_tensors s) = List.length (ps_wavenumbers s) ->
  (ma_laser a = true -> 0 < ma_wavelength a) -> (ma_bose a = true -> 0 < ma_temperature a) ->
  exists i, measure_phonon s a = Ok (ps_wavenumbers s, i) /\ List.length i = List.length (ps_wavenumbers s) /\
  forall k t v, nth_error (ps_tensors s) k = Some t -> nth_error (ps_wavenumbers s) k = Some v -> v <> 0 ->
    nth_error i k = Some (Some (textbook_intensity t
       * (if ma_laser a then ((v - 10 ^ 7 / ma_wavelength a) / 10 ^ 4) ^ 4 / v else 1)
       * (if ma_bose a then bose_einstein v (ma_temperature a) else 1))).
Proof.
  intros O L Hl Hb. 
  assert (LA : exists c1, (if ma_laser a then if Req_EM_T (ma_wavelength a) 0 then Err ZeroDivisionError
           else rmap (map2 nmul (@map M3 nfloat (fun m => Some (polycrystalline m)) (ps_tensors s)))
                  (get_laser_correction (ps_wavenumbers s) (10000000 / ma_wavelength a))
         else Ok (@map M3 nfloat (fun m => Some (polycrystalline m)) (ps_tensors s))) = Ok c1 /\ List.length c1 = List.length (ps_wavenumbers s) /\
     forall k t v, nth_error (ps_tensors s) k = Some t -> nth_error (ps_wavenumbers s) k = Some v -> v <> 0 ->
       nth_error c1 k = Some (Some (polycrystalline t * (if ma_laser a then ((v - 10 ^ 7 / ma_wavelength a) / 10 ^ 4) ^ 4 / v else 1)))).
  { destruct (ma_laser a).
    - specialize (Hl eq_refl). destruct (Req_EM_T (ma_wavelength a) 0); [lra|].
      assert (P : 0 < 10000000 / ma_wavelength a) by (apply Rdiv_lt_0_compat; lra).
      destruct (f_C39_values (ps_wavenumbers s) _ P) as (cs & E & F). rewrite E. cbn [rmap].
      eexists. split; [reflexivity|]. pose proof (F2len _ _ _ F) as LF.
      split; [rewrite map2_length, map_length; unfold nfloat in *; lia|].
      intros k t v T V NZ. rewrite map2_nth_error, nth_error_map, T. cbn [option_map].
      destruct (nth_error cs k) as [c|] eqn:C.
      + destruct (Forall2_nth_error _ _ _ k v c F V C) as [_ K]. destruct (K NZ) as (x & -> & -> & _).
        cbn [nmul]. do 2 f_equal. f_equal. replace (10 ^ 7) with 10000000 by ring. reflexivity.
      + exfalso. apply nth_error_None in C. assert (nth_error (ps_wavenumbers s) k <> None) by congruence. apply nth_error_Some in H. unfold nfloat in *. lia.
    - eexists. split; [reflexivity|]. split; [rewrite map_length; auto|]. intros k t v T V NZ. rewrite nth_error_map, T. cbn [option_map].
      do 2 f_equal. ring. }
  destruct LA as (c1 & E1 & L1 & H1).
  unfold measure_phonon. rewrite O, String.eqb_refl. cbn [negb].
  assert (AC : apply_corrections a (ps_wavenumbers s) (map (fun m => Some (polycrystalline m)) (ps_tensors s))
    = rbind (Ok c1) (fun i1 => if ma_bose a then
        rmap (map2 nmul i1) (get_bose_einstein_correction (ps_wavenumbers s) (ma_temperature a)) else Ok i1))
    by (rewrite <- E1; reflexivity).
  rewrite AC. cbn [rbind].
  destruct (ma_bose a).
  - specialize (Hb eq_refl). destruct (f_C38_values (ps_wavenumbers s) _ Hb) as (cs & E & F). rewrite E. cbn [rmap rbind].
    eexists. split; [reflexivity|]. pose proof (F2len _ _ _ F) as LF. split; [rewrite map2_length; unfold nfloat in *; lia|].
    intros k t v T V NZ. rewrite map2_nth_error, (H1 _ _ _ T V NZ).
    destruct (nth_error cs k) as [c|] eqn:C.
    + destruct (Forall2_nth_error _ _ _ k v c F V C) as [K _]. rewrite (K NZ). cbn [nmul]. rewrite <- poly_textbook. reflexivity.
    + exfalso. apply nth_error_None in C. assert (nth_error (ps_wavenumbers s) k <> None) by congruence. apply nth_error_Some in H. unfold nfloat in *. lia.
  - eexists. split; [reflexivity|]. split; auto. intros k t v T V NZ. rewrite (H1 _ _ _ T V NZ), poly_textbook. do 2 f_equal. ring.
Qed.

Lemma f_C41_grid ts dt a w i : (3 <= List.length ts)%nat -> 0 < dt -> measure_md (mkMD ts dt) a = Ok (w, i) ->
  Forall (fun v => 0 < v) w /\
  (forall j k x y, nth_error w j = Some x -> nth_error w k = Some y -> (j < k)%nat -> x < y) /\
  List.length w = (List.length ts / 2 - 1)%nat /\
  List.length w <> ((List.length ts + 1) / 2)%nat.
Proof.
  intros L D H. destruct (f_C41 ts dt a w i L D H) as [E _]. subst w.
  set (S := List.length ts) in *.
  assert (P : 0 < INR (S - 1) * dt) by (apply Rmult_lt_0_compat; auto; apply lt_0_INR; lia).
  assert (Q : 0 < 3335640951981521 / 10 ^ 11) by (apply Rdiv_lt_0_compat; [lra|apply pow_lt; lra]).
  repeat split.
  - apply Forall_forall. intros x I. apply in_map_iff in I as (k & <- & I). apply in_seq in I.
    apply Rdiv_lt_0_compat; auto. apply Rmult_lt_0_compat; auto. apply lt_0_INR. lia.
  - intros j k x y J K JK. rewrite nth_error_map in J, K.
    destruct (nth_error (seq 1 ((S - 1 + 1) / 2 - 1)) j) eqn:A; [|discriminate].
    destruct (nth_error (seq 1 ((S - 1 + 1) / 2 - 1)) k) eqn:B; [|discriminate].
    pose proof (nth_error_nth _ _ 0%nat A) as A'. pose proof (nth_error_nth _ _ 0%nat B) as B'.
    assert (j < (S - 1 + 1) / 2 - 1)%nat by (assert (X : nth_error (seq 1 ((S - 1 + 1) / 2 - 1)) j <> None) by congruence; apply nth_error_Some in X; rewrite seq_length in X; auto).
    assert (k < (S - 1 + 1) / 2 - 1)%nat by (assert (X : nth_error (seq 1 ((S - 1 + 1) / 2 - 1)) k <> None) by congruence; apply nth_error_Some in X; rewrite seq_length in X; auto).
    rewrite seq_nth in A', B' by auto. subst n n0.
    cbn [option_map] in J, K.
    assert (X : x = INR (1 + j) * (3335640951981521 / 10 ^ 11) / (INR (S - 1) * dt)) by congruence.
    assert (Y : y = INR (1 + k) * (3335640951981521 / 10 ^ 11) / (INR (S - 1) * dt)) by congruence.
    rewrite X, Y. unfold Rdiv at 1 3. apply Rmult_lt_compat_r; [apply Rinv_0_lt_compat; auto|].
    apply Rmult_lt_compat_r; auto. apply lt_INR. lia.
  - rewrite map_length, seq_length. do 2 f_equal. lia.
  - rewrite map_length, seq_length. replace (S - 1 + 1)%nat with S by lia.
    pose proof (Nat.div_le_mono S (S + 1) 2 ltac:(lia) ltac:(lia)).
    pose proof (Nat.div_le_lower_bound (S + 1) 2 1 ltac:(lia) ltac:(lia)). lia.
Qed.
