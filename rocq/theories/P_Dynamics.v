(** Phonon Raman tensors, trajectories, constant offsets. *)
From Coq Require Import String ZArith Reals Lra Lia Psatz Bool Arith List.
From Verif Require Import Base LinAlg M_Validate M_StructUtils M_Reference M_Interp M_Spectrum M_Dynamics S_Interp S_Spectrum
  P_Interp P_Signal P_Spectrum.
Import ListNotations.
Local Open Scope R_scope.

(** * Offsets *)
Lemma predict_offset calc c p : predict_one (offset_model calc c) p = rmap (fun m => madd m c) (predict_one calc p).
Proof. unfold predict_one, offset_model. destruct (calc [p]) as [[|m l]|e]; reflexivity. Qed.

Lemma raman_tensor_offset calc c ref d : raman_tensor (offset_model calc c) ref d = raman_tensor calc ref d.
Proof.
  unfold raman_tensor. cbv zeta. rewrite !predict_offset.
  destruct (predict_one calc (map2 vadd ref _)); auto. cbn [rmap rbind].
  destruct (predict_one calc (map2 vsub ref _)); auto. cbn [rmap rbind]. rewrite msub_offset. auto.
Qed.

Lemma f_C31_phonon calc c p : phonons_raman_spectrum (offset_model calc c) p = phonons_raman_spectrum calc p.
Proof.
  unfold phonons_raman_spectrum. f_equal. apply mapM_ext. intros. apply raman_tensor_offset.
Qed.

Lemma traj_spectrum calc t : trajectory_raman_spectrum calc t =
  rmap (fun ts => mkMD ts (tr_timestep t)) (rewrap (calc (tr_ts t))).
Proof.
  unfold trajectory_raman_spectrum. destruct (rewrap _); auto. cbn [rbind rmap].
  unfold new_md_spectrum, mats_arr. cbn [ra_shape ra_data]. unfold verify_ndarray_shape. simpl.
  rewrite mats_of_entries. auto.
Qed.

Lemma f_C31_md calc c t a :
  rbind (trajectory_raman_spectrum (offset_model calc c) t) (fun s => measure_md s a)
  = rbind (trajectory_raman_spectrum calc t) (fun s => measure_md s a).
Proof.
  rewrite !traj_spectrum. unfold offset_model. destruct (calc (tr_ts t)) as [ts|e]; cbn [rmap rewrap].
  - cbn [rbind]. apply f_C43_offset.
  - destruct (is_value_error e); auto.
Qed.

(** A change of the reference polarizability of an interpolation model is an offset. *)
Lemma f_C31_reference spl s c b :
  calc_polarizabilities spl (mkIM (im_ref s) (madd (im_refpol s) c) (im_dummy s) (im_basis s) (im_interp s) (im_mask s)) b
  = rmap (map (fun m => madd m c)) (calc_polarizabilities spl s b).
Proof.
  unfold calc_polarizabilities. cbn [im_ref im_refpol im_dummy im_basis im_interp im_mask].
  destruct (batch_displacements (im_ref s) b) as [[w rows]|e]; auto. cbn [rbind].
  destruct (sum_dofs _ _ _ _ _ _ _) as [d|e].
  - cbn [rmap]. rewrite map_map. f_equal. apply map_ext. intros. apply madd_assoc.
  - destruct (is_value_error e), (im_dummy s); auto.
Qed.

(** * Phonon Raman tensors *)
Lemma shift_plus ref : forall d,
  map2 vadd ref (map (fun d => mkV (vx d * RAMAN_TENSOR_CENTRAL_DIFFERENCE) (vy d * RAMAN_TENSOR_CENTRAL_DIFFERENCE)
                                 (vz d * RAMAN_TENSOR_CENTRAL_DIFFERENCE)) d)
  = displaced ref d (1 / 1000).
Proof.
  unfold displaced, RAMAN_TENSOR_CENTRAL_DIFFERENCE.
  induction ref as [|r ref IH]; intros [|v d]; auto. cbn [map map2]. rewrite IH. f_equal.
  unfold vadd, vscale. cbn [vx vy vz]. f_equal; ring.
Qed.
Lemma shift_minus ref : forall d,
  map2 vsub ref (map (fun d => mkV (vx d * RAMAN_TENSOR_CENTRAL_DIFFERENCE) (vy d * RAMAN_TENSOR_CENTRAL_DIFFERENCE)
                                 (vz d * RAMAN_TENSOR_CENTRAL_DIFFERENCE)) d)
  = displaced ref d (- (1 / 1000)).
Proof.
  unfold displaced, RAMAN_TENSOR_CENTRAL_DIFFERENCE.
  induction ref as [|r ref IH]; intros [|v d]; auto. cbn [map map2]. rewrite IH. f_equal.
  unfold vsub, vadd, vscale. cbn [vx vy vz]. f_equal; ring.
Qed.

Lemma raman_tensor_eq calc ref d :
  raman_tensor calc ref d =
  rewrap (rbind (predict_one calc (displaced ref d (1 / 1000))) (fun plus =>
          rbind (predict_one calc (displaced ref d (- (1 / 1000)))) (fun minus =>
          Ok (mscale 1000 (msub plus minus))))).
Proof.
  unfold raman_tensor. cbv zeta. rewrite shift_plus, shift_minus.
  destruct (predict_one calc (displaced ref d (1 / 1000))); auto. cbn [rbind].
  destruct (predict_one calc (displaced ref d (- (1 / 1000)))); auto. cbn [rbind rewrap]. f_equal.
  unfold mdivs, vdivs, mscale, vscale, RAMAN_TENSOR_CENTRAL_DIFFERENCE. f_equal; f_equal; field.
Qed.

Lemma new_spectrum_ok w ts : List.length w = List.length ts -> ts <> [] ->
  new_phonon_spectrum (vec_arr w) (match ts with [] => mkRarr [0%nat] [] | _ => mats_arr ts end) = Ok (mkPS w ts).
Proof.
  intros L N. destruct ts as [|t ts]; [congruence|]. set (tt := t :: ts) in *. 
  unfold new_phonon_spectrum, vec_arr, mats_arr. cbn [ra_shape ra_data hd].
  unfold verify_ndarray_shape. cbn [List.length Nat.eqb negb dims_match rbind].
  rewrite L, Nat.eqb_refl, mats_of_entries. auto.
Qed.

Lemma phonons_spectrum_inv calc p s : phonons_raman_spectrum calc p = Ok s ->
  exists ts, mapM (raman_tensor calc (ph_ref p)) (ph_displacements p) = Ok ts /\ ts <> [] /\
    List.length (ph_wavenumbers p) = List.length ts /\ s = mkPS (ph_wavenumbers p) ts.
Proof.
  unfold phonons_raman_spectrum. destruct (mapM _ _) as [ts|] eqn:E; [|discriminate]. cbn [rbind].
  intros H. exists ts. destruct ts as [|t l]; [exfalso; revert H|split; auto; split; [congruence|]].
  - unfold new_phonon_spectrum. cbn [ra_shape]. unfold vec_arr. cbn [ra_shape]. unfold verify_ndarray_shape. simpl. discriminate.
  - set (tt := t :: l) in *. unfold new_phonon_spectrum in H.
    unfold vec_arr, mats_arr in H. cbn [ra_shape ra_data hd] in H.
    unfold verify_ndarray_shape in H. cbn [List.length Nat.eqb negb dims_match rbind] in H.
    destruct (Nat.eqb_spec (List.length tt) (List.length (ph_wavenumbers p))) as [Q|Q]; [|discriminate].
    cbn [rbind] in H. rewrite mats_of_entries in H. injection H as <-. auto.
Qed.

Lemma phonons_spectrum_ok calc p ts : mapM (raman_tensor calc (ph_ref p)) (ph_displacements p) = Ok ts ->
  ph_displacements p <> [] -> phonons_shape p ->
  phonons_raman_spectrum calc p = Ok (mkPS (ph_wavenumbers p) ts).
Proof.
  intros E N [S _]. unfold phonons_raman_spectrum. rewrite E. cbn [rbind].
  pose proof (mapM_length _ _ _ E).
  apply new_spectrum_ok; [lia|]. intros ->. apply N. destruct (ph_displacements p); auto; discriminate.
Qed.

Lemma central_difference A B E0 :
  mscale 1000 (msub (madd (madd A (mscale (1 / 1000) B)) E0) (madd (madd A (mscale (- (1 / 1000)) B)) E0)) = mscale 2 B.
Proof. apply M3_eq; apply V3_eq; simpl; field. Qed.

Lemma f_C40_derivative calc p (tangent : list M3) : phonons_shape p -> ph_displacements p <> [] ->
  Forall2 (fun d B => exists A even,
      (forall t, even (- t) = even t) /\
      (forall t, Rabs t <= 1 / 1000 ->
         calc [displaced (ph_ref p) d t] = Ok [madd (madd A (mscale t B)) (even t)]))
    (ph_displacements p) tangent ->
  phonons_raman_spectrum calc p = Ok (mkPS (ph_wavenumbers p) (map (mscale 2) tangent)).
Proof.
  intros S N F. apply phonons_spectrum_ok; auto. clear S N.
  induction F as [|d B ds Bs (A & ev & Ev & H) F IH]; auto.
  cbn [mapM map]. rewrite raman_tensor_eq. unfold predict_one.
  rewrite (H (1 / 1000)) by (rewrite Rabs_right; lra).
  rewrite (H (- (1 / 1000))) by (rewrite Rabs_left; lra). cbn [rbind rewrap].
  rewrite (Ev (1 / 1000)), central_difference, IH. reflexivity.
Qed.

Lemma displaced_neg ref d t : displaced ref (map (vscale (-1)) d) t = displaced ref d (- t).
Proof.
  unfold displaced. f_equal. rewrite map_map. apply map_ext. intros v. rewrite vscale_vscale. f_equal. ring.
Qed.

Lemma raman_tensor_odd calc ref d m : raman_tensor calc ref d = Ok m ->
  raman_tensor calc ref (map (vscale (-1)) d) = Ok (mscale (-1) m).
Proof.
  rewrite !raman_tensor_eq, !displaced_neg, Ropp_involutive.
  destruct (predict_one calc (displaced ref d (1 / 1000))) as [pl|e]; cbn [rbind rewrap].
  2: { destruct (is_value_error e); discriminate. }
  destruct (predict_one calc (displaced ref d (- (1 / 1000)))) as [mi|e]; cbn [rbind rewrap].
  2: { destruct (is_value_error e); discriminate. }
  intros [= <-]. f_equal. vring.
Qed.

Lemma f_C40_odd calc p s : phonons_raman_spectrum calc p = Ok s ->
  phonons_raman_spectrum calc (mkPh (ph_ref p) (ph_wavenumbers p) (map (map (vscale (-1))) (ph_displacements p)))
  = Ok (mkPS (ps_wavenumbers s) (map (mscale (-1)) (ps_tensors s))).
Proof.
  intros H. destruct (phonons_spectrum_inv _ _ _ H) as (ts & E & N & L & ->). cbn [ps_wavenumbers ps_tensors].
  unfold phonons_raman_spectrum. cbn [ph_ref ph_wavenumbers ph_displacements].
  assert (M : mapM (raman_tensor calc (ph_ref p)) (map (map (vscale (-1))) (ph_displacements p)) = Ok (map (mscale (-1)) ts)).
  { clear H N L. revert ts E. induction (ph_displacements p) as [|d l IH]; intros ts E; cbn [map mapM] in *.
    - injection E as <-. auto.
    - destruct (raman_tensor calc (ph_ref p) d) as [m|] eqn:R; [|discriminate]. cbn [rbind] in E.
      rewrite (raman_tensor_odd _ _ _ _ R). cbn [rbind].
      destruct (mapM _ l) as [tl|]; [|discriminate]. injection E as <-. rewrite (IH tl eq_refl). reflexivity. }
  rewrite M. cbn [rbind]. apply new_spectrum_ok; [rewrite map_length; auto|].
  intros Z. apply map_eq_nil in Z. auto.
Qed.

Lemma mapM_nth {A B} (f : A -> res B) l bs i a : mapM f l = Ok bs -> nth_error l i = Some a ->
  exists b, nth_error bs i = Some b /\ f a = Ok b.
Proof.
  revert bs i. induction l as [|x l IH]; intros bs i E H; [destruct i; discriminate|].
  cbn [mapM] in E. destruct (f x) as [b|] eqn:F; [|discriminate]. cbn [rbind] in E.
  destruct (mapM f l) as [bs'|]; [|discriminate]. injection E as <-.
  destruct i; cbn [nth_error] in *; [injection H as <-; eauto|eauto].
Qed.

Lemma f_C40_one_per_phonon calc p s : phonons_raman_spectrum calc p = Ok s ->
  ps_wavenumbers s = ph_wavenumbers p /\
  List.length (ps_tensors s) = List.length (ph_displacements p) /\
  forall i w d, nth_error (ph_wavenumbers p) i = Some w -> nth_error (ph_displacements p) i = Some d ->
    exists t, nth_error (ps_tensors s) i = Some t /\
      phonons_raman_spectrum calc (mkPh (ph_ref p) [w] [d]) = Ok (mkPS [w] [t]).
Proof.
  intros H. destruct (phonons_spectrum_inv _ _ _ H) as (ts & E & N & L & ->). cbn [ps_wavenumbers ps_tensors].
  split; auto. split; [apply (mapM_length _ _ _ E)|].
  intros i w d W D. destruct (mapM_nth _ _ _ _ _ E D) as (t & T & R). exists t. split; auto.
  unfold phonons_raman_spectrum. cbn [ph_ref ph_wavenumbers ph_displacements mapM]. rewrite R. cbn [rbind].
  apply (new_spectrum_ok [w] [t]); [auto|discriminate].
Qed.

Lemma f_C40_errors calc p :
  (ph_displacements p = [] -> phonons_raman_spectrum calc p = Err ValueError) /\
  (forall d rest e, ph_displacements p = d :: rest ->
     (forall q, calc [q] = Err e) -> is_value_error e = true -> phonons_raman_spectrum calc p = Err ValueError).
Proof.
  unfold phonons_raman_spectrum. split; intros.
  - rewrite H. reflexivity.
  - rewrite H. cbn [mapM]. rewrite raman_tensor_eq. unfold predict_one. rewrite H0. cbn [rbind rewrap]. rewrite H1. auto.
Qed.

(** * Shapes accepted by the constructor *)
Lemma rows_of_length_aux k : forall l, (List.length l <= k)%nat -> List.length (rows_of l) = (List.length l / 3)%nat.
Proof.
  induction k; intros l H.
  - destruct l; [reflexivity|simpl in H; lia].
  - destruct l as [|x [|y [|z l]]]; try reflexivity. cbn [rows_of List.length]. rewrite IHk by (simpl in H; lia).
    replace (S (S (S (List.length l)))) with (List.length l + 1 * 3)%nat by lia. rewrite Nat.div_add by lia. lia.
Qed.
Lemma rows_of_length l n : List.length l = (n * 3)%nat -> List.length (rows_of l) = n.
Proof. intros H. rewrite (rows_of_length_aux (List.length l)) by lia. rewrite H. apply Nat.div_mul. lia. Qed.

Lemma frames_of_spec s n : forall l, List.length l = (s * n)%nat ->
  List.length (frames_of s n l) = s /\ Forall (fun f => List.length f = n) (frames_of s n l).
Proof.
  induction s; intros l H; cbn [frames_of]; [split; auto|].
  destruct (IHs (skipn n l)) as [A B]; [rewrite skipn_length; lia|].
  split; [simpl; auto|]. constructor; auto. rewrite firstn_length. lia.
Qed.

Lemma verify_shape_inv dims spec : verify_ndarray_shape dims spec = Ok tt ->
  List.length dims = List.length spec /\ dims_match dims spec = true.
Proof.
  unfold verify_ndarray_shape. destruct (Nat.eqb_spec (List.length spec) (List.length dims)); [|discriminate]. simpl.
  destruct (dims_match dims spec); [auto|discriminate].
Qed.

Lemma f_phonons_shape ref wav disp p : rarr_wf ref -> rarr_wf wav -> rarr_wf disp ->
  new_phonons ref wav disp = Ok p -> phonons_shape p.
Proof.
  destruct ref as [rs rd], wav as [ws wd], disp as [ds dd]. unfold rarr_wf, new_phonons. cbn [ra_shape ra_data].
  intros R W D H.
  destruct (verify_ndarray_shape rs _) as [[]|] eqn:E1; [|discriminate].
  destruct (verify_ndarray_shape ws _) as [[]|] eqn:E2; [|discriminate].
  destruct (verify_ndarray_shape ds _) as [[]|] eqn:E3; [|discriminate].
  cbn [rbind] in H. injection H as <-.
  apply verify_shape_inv in E1, E2, E3. destruct E1 as [L1 D1], E2 as [L2 D2], E3 as [L3 D3].
  destruct rs as [|n [|c [|]]]; try discriminate. destruct ws as [|m [|]]; try discriminate.
  destruct ds as [|m' [|n' [|c' [|]]]]; try discriminate.
  simpl in D1, D3.
  destruct (Nat.eqb_spec c 3); [|discriminate]. 
  destruct (Nat.eqb_spec m' (List.length wd)); [|discriminate].
  destruct (Nat.eqb_spec n' n); [|discriminate].
  destruct (Nat.eqb_spec c' 3); [|discriminate]. subst.
  unfold phonons_shape. cbn [ph_ref ph_wavenumbers ph_displacements hd].
  cbn [fold_right] in R, D.
  rewrite (rows_of_length rd n) by lia.
  destruct (frames_of_spec (List.length wd) n (rows_of dd)) as [A B].
  { apply rows_of_length. lia. }
  rewrite A. auto.
Qed.

(** * Trajectories *)
Lemma f_C75_new ts dt t : rarr_wf ts -> new_trajectory ts dt = Ok t ->
  0 < dt /\ tr_timestep t = dt /\
  exists s n frames, ra_shape ts = [s; n; 3%nat] /\ List.length frames = s /\
    Forall (fun f => List.length f = n) frames /\
    ra_data ts = flat_map (flat_map (fun v => [vx v; vy v; vz v])) frames /\
    tr_ts t = map apply_pbc frames.
Proof.
  destruct ts as [sh da]. unfold rarr_wf, new_trajectory. cbn [ra_shape ra_data]. intros W H.
  destruct (verify_ndarray_shape sh _) as [[]|] eqn:E1; [|discriminate]. cbn [rbind] in H.
  destruct (Rleb dt 0) eqn:E; [discriminate|]. apply Rleb_false in E. injection H as <-. cbn [tr_ts tr_timestep].
  split; auto. split; auto.
  apply verify_shape_inv in E1. destruct E1 as [L D].
  destruct sh as [|s [|n [|c [|]]]]; try discriminate. simpl in D. destruct (Nat.eqb_spec c 3); [|discriminate]. subst c.
  cbn [fold_right] in W.
  exists s, n, (frames_of s n (rows_of da)). split; auto.
  assert (R : List.length (rows_of da) = (s * n)%nat) by (apply rows_of_length; lia).
  destruct (frames_of_spec s n (rows_of da) R) as [A B]. split; auto. split; auto. split; [|reflexivity].
  assert (C : forall s l, List.length l = (s * n)%nat -> flat_map (flat_map (fun v => [vx v; vy v; vz v])) (frames_of s n l) = flat_map (fun v => [vx v; vy v; vz v]) l).
  { clear. induction s; intros l H; cbn [frames_of flat_map].
    - destruct l; [auto|discriminate].
    - rewrite IHs by (rewrite skipn_length; lia). rewrite <- flat_map_app, firstn_skipn. auto. }
  rewrite C by auto. clear - W.
  assert (G : forall k l, List.length l = (k * 3)%nat -> l = flat_map (fun v => [vx v; vy v; vz v]) (rows_of l)).
  { induction k; intros l H; [destruct l; [auto|discriminate]|].
    destruct l as [|x [|y [|z l]]]; try (simpl in H; lia). cbn [rows_of flat_map app vx vy vz].
    do 3 f_equal. apply IHk. simpl in H. lia. }
  apply (G (s * n)%nat). lia.
Qed.

Lemma f_C75_reject ts dt : dt <= 0 \/ List.length (ra_shape ts) <> 3%nat \/ nth 2 (ra_shape ts) 0%nat <> 3%nat ->
  new_trajectory ts dt = Err ValueError.
Proof.
  intros H. unfold new_trajectory, verify_ndarray_shape.
  destruct (ra_shape ts) as [|a [|b [|c [|d l]]]]; cbn [List.length Nat.eqb negb dims_match nth rbind] in *; auto.
  destruct (Nat.eqb_spec c 3) as [->|N]; cbn [rbind]; auto.
  destruct H as [H|[H|H]]; [|congruence|congruence]. rewrite (proj2 (Rleb_true dt 0) H). auto.
Qed.

Lemma f_C75_get t i :
  trajectory_len t = List.length (tr_ts t) /\
  (forall f, trajectory_get t i = Ok f <->
     (0 <= i < Z.of_nat (trajectory_len t) /\ nth_error (tr_ts t) (Z.to_nat i) = Some f \/
      - Z.of_nat (trajectory_len t) <= i < 0 /\ nth_error (tr_ts t) (Z.to_nat (i + Z.of_nat (trajectory_len t))) = Some f)%Z) /\
  (trajectory_get t i = Err IndexError <-> (i < - Z.of_nat (trajectory_len t) \/ Z.of_nat (trajectory_len t) <= i)%Z).
Proof.
  split; auto. unfold trajectory_len, trajectory_get. set (n := List.length (tr_ts t)).
  unfold py_index.
  destruct (Z.leb_spec 0 i).
  - destruct (Z.ltb_spec i (Z.of_nat n)).
    + destruct (nth_error (tr_ts t) (Z.to_nat i)) as [f|] eqn:E.
      * split; [|split; [discriminate|lia]]. intros g. split.
        -- intros [= <-]. left. split; [lia|auto].
        -- intros [[_ K]|[K _]]; [congruence|lia].
      * exfalso. apply nth_error_None in E. unfold n in *. lia.
    + split; [|split; [lia|auto]]. intros g. split; [discriminate|]. intros [[K _]|[K _]]; lia.
  - destruct (Z.leb_spec (- Z.of_nat n) i).
    + destruct (nth_error (tr_ts t) (Z.to_nat (i + Z.of_nat n))) as [f|] eqn:E.
      * split; [|split; [discriminate|lia]]. intros g. split.
        -- intros [= <-]. right. split; [lia|auto].
        -- intros [[K _]|[_ K]]; [lia|congruence].
      * exfalso. apply nth_error_None in E. unfold n in *. lia.
    + split; [|split; [lia|auto]]. intros g. split; [discriminate|]. intros [[K _]|[K _]]; lia.
Qed.


Lemma seg_nth {A} (d : A) l : forall a k, (a + k <= List.length l)%nat ->
  map (fun i => nth (a + i) l d) (seq 0 k) = firstn k (skipn a l).
Proof.
  intros a k. revert l a. induction k; intros l a H; auto.
  cbn [seq map]. rewrite <- seq_shift, map_map.
  rewrite (map_ext _ (fun i => nth (S a + i) l d)) by (intros; f_equal; lia).
  rewrite IHk by lia. rewrite Nat.add_0_r.
  destruct (skipn a l) as [|x r] eqn:E.
  { assert (K := f_equal (@List.length A) E). rewrite skipn_length in K. simpl in K. lia. }
  cbn [firstn]. f_equal.
  - rewrite <- (firstn_skipn a l) at 1. rewrite app_nth2; rewrite firstn_length; [|lia].
    rewrite E. replace (a - min a (List.length l))%nat with 0%nat by lia. reflexivity.
  - f_equal. replace (S a) with (1 + a)%nat by lia.
    clear - E. revert l E. induction a; intros l E; destruct l; simpl in *; try discriminate.
    + injection E as _ <-. auto.
    + apply IHa. auto.
Qed.

Lemma f_C75_slice1 t start stop step : step = None \/ step = Some 1%Z ->
  let a := match start with None => 0%nat | Some i => clamp (trajectory_len t) i end in
  let b := match stop with None => trajectory_len t | Some i => clamp (trajectory_len t) i end in
  trajectory_slice t start stop step = Ok (firstn (b - a) (skipn a (tr_ts t))).
Proof.
  intros Hs a b. unfold trajectory_slice.
  replace (match step with Some s => s | None => 1%Z end) with 1%Z by (destruct Hs; subst; auto).
  change (1 =? 0)%Z with false. cbv iota.
  unfold slice_bounds. change (0 <? 1)%Z with true. cbv iota.
  set (n := List.length (tr_ts t)).
  assert (C : forall i, clip_index (Z.of_nat n) 0 (Z.of_nat n) 0 (Some i) = Z.of_nat (clamp n i)).
  { intros i. unfold clip_index, clamp. cbv zeta.
    set (j := (if (i <? 0)%Z then i + Z.of_nat n else i)%Z).
    destruct (Z.ltb_spec j 0); destruct (Z.ltb_spec (Z.of_nat n) j); lia. }
  assert (C' : forall i, clip_index (Z.of_nat n) 0 (Z.of_nat n) (Z.of_nat n) (Some i) = Z.of_nat (clamp n i)) by exact C.
  replace (clip_index (Z.of_nat n) 0 (Z.of_nat n) 0 start) with (Z.of_nat a).
  2: { unfold a, trajectory_len. destruct start; [symmetry; apply C|reflexivity]. }
  replace (clip_index (Z.of_nat n) 0 (Z.of_nat n) (Z.of_nat n) stop) with (Z.of_nat b).
  2: { unfold b, trajectory_len. destruct stop; [symmetry; apply C'|reflexivity]. }
  f_equal. unfold slice_count. change (0 <? 1)%Z with true. cbv iota.
  rewrite Z.div_1_r. replace (Z.to_nat (Z.of_nat b - Z.of_nat a + 1 - 1)) with (b - a)%nat by lia.
  assert (B : (b <= n)%nat).
  { unfold b, trajectory_len. fold n. destruct stop; [unfold clamp; lia|lia]. }
  rewrite (map_ext_in _ (fun k => nth (a + k) (tr_ts t) [])).
  2: { intros k _. f_equal. lia. }
  destruct (le_lt_dec a b).
  - apply seg_nth. fold n. lia.
  - replace (b - a)%nat with 0%nat by lia. reflexivity.
Qed.

(** Any step: the entries are those at indexes start, start+step, ... up to the stop. *)
Lemma f_C75_slice t start stop step : step <> 0%Z ->
  exists first l, trajectory_slice t start stop (Some step) = Ok l /\
   forall k f, nth_error l k = Some f ->
     (0 <= first + Z.of_nat k * step < Z.of_nat (trajectory_len t))%Z /\
     nth_error (tr_ts t) (Z.to_nat (first + Z.of_nat k * step)) = Some f.
Proof.
  intros N. unfold trajectory_slice. destruct (Z.eqb_spec step 0); [congruence|].
  destruct (slice_bounds (List.length (tr_ts t)) start stop step) as [a b] eqn:E.
  exists a. eexists. split; [reflexivity|]. intros k f Hk.
  assert (I : (k < slice_count a b step)%nat).
  { assert (nth_error (map (fun k0 => nth (Z.to_nat (a + Z.of_nat k0 * step)) (tr_ts t) []) (seq 0 (slice_count a b step))) k <> None) by congruence.
    apply nth_error_Some in H. rewrite map_length, seq_length in H. auto. }
  assert (Hf : nth (Z.to_nat (a + Z.of_nat k * step)) (tr_ts t) [] = f).
  { rewrite nth_error_map in Hk. rewrite (nth_error_nth' _ 0%nat) in Hk by (rewrite seq_length; auto).
    rewrite seq_nth in Hk by auto. simpl in Hk. congruence. }
  assert (G : (0 <= a + Z.of_nat k * step < Z.of_nat (trajectory_len t))%Z).
  2: { split; auto. rewrite <- Hf. apply nth_error_nth'. unfold trajectory_len in G. lia. }
  clear Hk Hf. unfold trajectory_len.
  unfold slice_bounds in E. unfold slice_count in I.
  set (m := List.length (tr_ts t)) in *.
  destruct (Z.ltb_spec 0 step).
  - assert (A : (0 <= a)%Z /\ (b <= Z.of_nat m)%Z).
    { injection E as <- <-. unfold clip_index. split.
      - destruct start as [i|]; [|lia]. cbv zeta. destruct (Z.ltb_spec (if (i <? 0)%Z then (i + Z.of_nat m)%Z else i) 0); [lia|].
        destruct (Z.ltb_spec (Z.of_nat m) (if (i <? 0)%Z then (i + Z.of_nat m)%Z else i)); lia.
      - destruct stop as [i|]; [|lia]. cbv zeta. destruct (Z.ltb_spec (if (i <? 0)%Z then (i + Z.of_nat m)%Z else i) 0); [lia|].
        destruct (Z.ltb_spec (Z.of_nat m) (if (i <? 0)%Z then (i + Z.of_nat m)%Z else i)); lia. }
    assert (K : (Z.of_nat k < (b - a + step - 1) / step)%Z) by lia.
    assert (Q : (step * ((b - a + step - 1) / step) <= b - a + step - 1)%Z) by (apply Z.mul_div_le; lia).
    assert (Z.of_nat k * step <= b - a - 1)%Z by nia.
    nia.
  - assert (A : (a <= Z.of_nat m - 1)%Z /\ (-1 <= b)%Z).
    { injection E as <- <-. unfold clip_index. split.
      - destruct start as [i|]; [|lia]. cbv zeta. destruct (Z.ltb_spec (if (i <? 0)%Z then (i + Z.of_nat m)%Z else i) (-1)); [lia|].
        destruct (Z.ltb_spec (Z.of_nat m - 1) (if (i <? 0)%Z then (i + Z.of_nat m)%Z else i)); lia.
      - destruct stop as [i|]; [|lia]. cbv zeta. destruct (Z.ltb_spec (if (i <? 0)%Z then (i + Z.of_nat m)%Z else i) (-1)); [lia|].
        destruct (Z.ltb_spec (Z.of_nat m - 1) (if (i <? 0)%Z then (i + Z.of_nat m)%Z else i)); lia. }
    assert (K : (Z.of_nat k < (a - b + - step - 1) / (- step))%Z) by lia.
    assert (Q : ((- step) * ((a - b + - step - 1) / (- step)) <= a - b + - step - 1)%Z) by (apply Z.mul_div_le; lia).
    assert (Z.of_nat k * (- step) <= a - b - 1)%Z by nia.
    nia.
Qed.

Lemma f_C75_reversed t : trajectory_slice t None None (Some (-1)%Z) = Ok (rev (tr_ts t)).
Proof.
  unfold trajectory_slice. change (-1 =? 0)%Z with false. cbv iota. unfold slice_bounds. change (0 <? -1)%Z with false. cbv iota.
  unfold clip_index, slice_count. change (0 <? -1)%Z with false. cbv iota.
  set (l := tr_ts t). f_equal.
  replace (Z.to_nat ((Z.of_nat (List.length l) - 1 - -1 + - -1 - 1) / - -1)) with (List.length l).
  2: { change (- -1)%Z with 1%Z. rewrite Z.div_1_r. lia. }
  rewrite <- (map_nth_seq [] (rev l)), rev_length.
  apply map_ext_in. intros k I. apply in_seq in I. rewrite rev_nth by lia. f_equal. lia.
Qed.

Lemma f_C75_zero_step t start stop : trajectory_slice t start stop (Some 0%Z) = Err ValueError.
Proof. reflexivity. Qed.
