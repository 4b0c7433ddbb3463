(** Polarizabilities counted from another zero: C96 *)
From Coq Require Import String ZArith Reals Lra Lia Bool Arith List.
From Verif Require Import Base LinAlg M_Validate M_StructUtils M_Symmetry M_Reference M_Interp M_Art M_Shared M_Spectrum M_Dynamics
  S_Vec S_Images S_Order S_Atoms S_Spectrum S_Interp S_Response S_Turned P_StructUtils P_Interp P_Interp3 P_Images P_Images2 P_Workflow P_Atoms P_Shared P_Spectrum P_Turned P_Turned2 P_Turned3.
Import ListNotations.
Local Open Scope R_scope.

Section Offset.
Context (c : M3).
Notation up := (fun a => madd a c).
Definition Sh (s : imodel) : imodel := mkIM (im_ref s) (up (im_refpol s)) (im_dummy s) (im_basis s) (im_interp s) (im_mask s).
Definition slift {A} (o : (imodel * list warning) * res A) : (imodel * list warning) * res A := let '((s, w), x) := o in ((Sh s, w), x).
Lemma up_msub a b : msub (up a) (up b) = msub a b.
Proof. apply M3_eq; apply V3_eq; cbn [msub vsub madd vadd r0 r1 r2 vx vy vz]; ring. Qed.
Lemma points_up refpol amps pols child ct : points_of (up refpol) amps (map up pols) child ct = points_of refpol amps pols child ct.
Proof.
  destruct ct as [coll [rot tr]]. unfold points_of. destruct (multiplier child coll) as [k|]; [|reflexivity]. cbn [rbind].
  rewrite combine_map_r, mapM_map. apply mapM_ext. intros [a x] _. cbn [fst snd]. now rewrite up_msub.
Qed.
Lemma group_up r refpol amps pols inc g : dof_of_group r (up refpol) amps (map up pols) inc g = dof_of_group r refpol amps pols inc g.
Proof.
  unfold dof_of_group. destruct (g_disp g) as [|child rest]; [reflexivity|].
  rewrite (mapM_ext (points_of (up refpol) amps (map up pols) child) (points_of refpol amps pols child)); [reflexivity|]. intros ct _. apply points_up.
Qed.
Lemma get_dof_up s parent amps pols inc : get_dof (Sh s) parent amps (map up pols) inc = get_dof s parent amps pols inc.
Proof.
  unfold get_dof. cbn [Sh im_ref im_refpol im_basis]. destruct (is_orthogonal_to_all _ _); [|reflexivity]. cbn [rbind]. destruct (negb _); [reflexivity|].
  destruct (get_equivalent_displacements _ _) as [gs|]; [|reflexivity]. cbn [rbind]. apply mapM_ext. intros g _. apply group_up.
Qed.
Lemma bind_up {A B} (m m' : act A) (f f' : A -> act B) s : m' (Sh s) = slift (m s) -> (forall a s1 w, m s = ((s1, w), Ok a) -> f' a (Sh s1) = slift (f a s1)) ->
  bind m' f' (Sh s) = slift (bind m f s).
Proof.
  intros H1 H2. unfold bind. rewrite H1. destruct (m s) as [[s1 w] [a|e]] eqn:E; cbn [slift]; [|reflexivity].
  rewrite (H2 a s1 w eq_refl). destruct (f a s1) as [[s2 w2] x]. reflexivity.
Qed.
Lemma one_up order pts s : construct_one order pts (Sh s) = slift (construct_one order pts s).
Proof.
  unfold construct_one. destruct (has_duplicates _); [reflexivity|]. destruct (Nat.leb _ _); [reflexivity|]. destruct (all_finite pts) as [ps|]; [|reflexivity].
  unfold bind. rewrite !emit_all_any. reflexivity.
Qed.
Lemma for_each_up order dofs s : for_each (fun d : dof => construct_one order (snd d)) dofs (Sh s) = slift (for_each (fun d : dof => construct_one order (snd d)) dofs s).
Proof.
  revert s. induction dofs as [|d dofs IH]; intros s; [reflexivity|]. cbn [for_each]. apply bind_up; [apply one_up|]. intros x s1 w _. apply bind_up; [apply IH|]. reflexivity.
Qed.
Lemma construct_up dofs order s : im_dummy s = false -> construct_and_add dofs order (Sh s) = slift (construct_and_add dofs order s).
Proof.
  intros HD. unfold construct_and_add. destruct (order <? 1)%Z; [reflexivity|]. apply bind_up; [apply for_each_up|]. intros xs s1 w1 _.
  destruct (all_fin (map fst dofs)) as [bs|]; [|reflexivity]. unfold bind, get, put. cbn [fst snd Sh im_ref im_refpol im_dummy im_basis im_interp im_mask slift]. unfold Sh. reflexivity.
Qed.
Lemma add_dof_up cart amps p p' order inc s : im_dummy s = false -> mapped_data up p p' ->
  add_dof cart amps p' order inc (Sh s) = slift (add_dof cart amps p order inc s).
Proof.
  intros HC HD. unfold add_dof. rewrite !bind_get. cbn [Sh im_ref im_dummy]. rewrite HC.
  apply bind_up. { unfold lift. destruct (get_frac_displacement_arr _ _); reflexivity. }
  intros d s2 w2 E2. injection E2 as <- _ _. clear w2.
  apply bind_up. { unfold lift. destruct (verify_ndarray_shape _ _); reflexivity. }
  intros u s2 w2 E2. injection E2 as <- _ _. clear u w2.
  apply bind_up. { unfold lift. rewrite (data_shape _ _ _ _ HD). destruct (verify_ndarray_shape _ _); reflexivity. }
  intros u s2 w2 E1. injection E1 as <- _ E1. destruct u. clear w2.
  apply bind_up. { unfold lift. rewrite (data_mats _ _ _ _ HD E1), get_dof_up. destruct (get_dof _ _ _ _ _); reflexivity. }
  intros dofs s1 w' E2. injection E2 as <- _ _. now apply construct_up.
Qed.
Lemma read_one_up s x y : im_dummy s = false -> mapped_read up x y -> read_one (Sh s) y = rmap (fun z => (fst z, up (snd z))) (read_one s x).
Proof.
  intros HC. destruct x as [[p q]|e], y as [[p' q']|e']; cbn [mapped_read]; try contradiction; [|intros ->; reflexivity]. intros (-> & ->). unfold read_one. cbn [rbind fst snd Sh im_ref im_dummy].
  rewrite HC. destruct (calc_displacement _ _) as [d|e]; [|destruct (is_value_error e); reflexivity]. reflexivity.
Qed.
Lemma read_dof_up s l l' : im_dummy s = false -> Forall2 (mapped_read up) l l' -> read_dof (Sh s) l' = rmap (fun x => (fst x, map up (snd x))) (read_dof s l).
Proof.
  intros HC H. unfold read_dof.
  assert (E : mapM (read_one (Sh s)) l' = rmap (map (fun z => (fst z, up (snd z)))) (mapM (read_one s) l)).
  { induction H as [|x y l l' H HF IH]; [reflexivity|]. cbn [mapM]. rewrite (read_one_up s x y HC H). destruct (read_one s x); [|reflexivity]. cbn [rmap rbind]. rewrite IH. destruct (mapM _ l); reflexivity. }
  rewrite E. destruct (mapM _ l) as [dps|]; [|reflexivity]. cbn [rmap rbind]. rewrite map_map. cbn [fst]. change (amplitudes_of (Sh s)) with (amplitudes_of s).
  destruct (amplitudes_of s _); [|reflexivity]. cbn [rmap rbind fst snd]. rewrite !map_map. reflexivity.
Qed.
Lemma one_atom_up d0 amps pols s : im_dummy s = false -> add_one_atom d0 amps (map up pols) (Sh s) = slift (add_one_atom d0 amps pols s).
Proof.
  intros HC. unfold add_one_atom. rewrite !bind_get. apply bind_up. { unfold lift. destruct (argmax _); reflexivity. }
  intros k s2 w2 E. injection E as <- _ _. clear w2. destruct (negb _); [reflexivity|]. apply bind_up.
  { unfold lift. rewrite get_dof_up. destruct (get_dof _ _ _ _ _); reflexivity. }
  intros dofs s1 w' E. injection E as <- _ _. destruct dofs as [|x dofs]; [reflexivity|]. destruct (negb _); [reflexivity|]. now apply construct_up.
Qed.
Lemma call_up art a a' s : im_dummy s = false -> mapped_call mI up a a' -> run_adding art a' (Sh s) = slift (run_adding art a s).
Proof.
  intros HC H. destruct a as [x0 x p k i|rds k|ps p k|i d x p|rds|ps p], a' as [c' x' p' k' i'|rds' k'|ps' p' k'|i' d' x' p'|rds'|ps' p']; cbn [mapped_call] in H; try contradiction; cbn [run_adding run_op].
  - destruct H as (-> & -> & H & -> & ->). destruct art; [reflexivity|]. rewrite rows_mul_mI. now apply add_dof_up.
  - destruct H as (H & ->). destruct art; [reflexivity|]. unfold add_dof_from_files. rewrite !bind_get.
    unfold bind, lift. rewrite (read_dof_up s rds rds' HC H). destruct (read_dof s rds) as [[[d am] po]|e]; [|reflexivity]. cbn [rmap rbind fst snd].
    change (im_ref (Sh s)) with (im_ref s). rewrite (add_dof_up _ _ (mats_arr po) (mats_arr (map up po)) _ _ s HC) by apply mats_turned. destruct (add_dof _ _ _ _ _ s) as [[s2 w2] y]. reflexivity.
  - destruct H as (-> & H & ->). destruct art; [reflexivity|]. unfold add_dof_from_pymatgen. rewrite !bind_get. change (displacement_amplitudes (Sh s)) with (displacement_amplitudes s).
    apply bind_up. { unfold lift. destruct (displacement_amplitudes s ps); reflexivity. } intros [d am] s1 w E. injection E as <- _ _. now apply add_dof_up.
  - destruct H as (-> & Hd & -> & HD). destruct art; [|reflexivity]. assert (d' = d) as ->.
    { destruct d as [|q0 [|q1 [|q2 [|q3 d]]]]; cbn [turned_direction] in Hd; try exact Hd. rewrite vmul_mI in Hd. exact Hd. }
    unfold add_art. rewrite !bind_get. cbn [Sh im_ref im_dummy]. rewrite HC.
    apply bind_up. { unfold lift. destruct (get_frac_direction _ _); reflexivity. } intros f s2 w2 E2. injection E2 as <- _ _. clear w2.
    apply bind_up. { unfold lift. destruct (match ra_shape x with [1%nat] | [2%nat] => Ok tt | _ => Err ValueError end); reflexivity. } intros u s2 w2 E2. injection E2 as <- _ _. clear u w2.
    apply bind_up. { unfold lift. rewrite (data_shape _ _ _ _ HD). destruct (verify_ndarray_shape _ _); reflexivity. } intros u s2 w2 E2. injection E2 as <- _ _. clear u w2.
    destruct (py_index _ i) as [k|]; [|reflexivity]. now apply add_dof_up.
  - destruct art; [|reflexivity]. unfold add_art_from_files. rewrite !bind_get. unfold bind, lift. rewrite (read_dof_up s rds rds' HC H). destruct (read_dof s rds) as [[[d am] po]|e]; [|reflexivity]. cbn [rmap rbind fst snd].
    rewrite (one_atom_up d am po s HC). destruct (add_one_atom d am po s) as [[s2 w2] y]. reflexivity.
  - destruct H as (-> & ->). destruct art; [|reflexivity]. unfold add_art_from_pymatgen. rewrite !bind_get. change (displacement_amplitudes (Sh s)) with (displacement_amplitudes s).
    apply bind_up. { unfold lift. destruct (displacement_amplitudes s ps); reflexivity. } intros [d am] s1 w E. injection E as <- _ _. now apply one_atom_up.
Qed.
Lemma runs_up art calls calls' : Forall2 (mapped_call mI up) calls calls' -> forall s, im_dummy s = false ->
  run_all art calls' (Sh s) = (fst (run_all art calls s), Sh (snd (run_all art calls s))).
Proof.
  induction 1 as [|a a' calls calls' H _ IH]; intros s HC; [reflexivity|]. cbn [run_all]. rewrite (call_up art a a' s HC H). destruct (run_adding art a s) as [[s1 w] x] eqn:E. cbn [slift].
  rewrite IH. { destruct (run_all art calls s1) as [os s2]. reflexivity. }
  apply run_adding_cases in E. destruct E as [(e & _ & ->)|(_ & bs & sps & ->)]; exact HC.
Qed.
Lemma predict_up spl s b : im_dummy s = false -> calc_polarizabilities spl (Sh s) b = rmap (map up) (calc_polarizabilities spl s b).
Proof.
  intros HC. unfold calc_polarizabilities. cbn [Sh im_ref im_refpol im_basis im_interp im_mask im_dummy]. rewrite HC. destruct (batch_displacements _ _) as [[n rows]|e]; [|reflexivity]. cbn [rbind].
  destruct (sum_dofs _ _ _ _ _ _ _) as [d|e]; cbn [rmap rbind]; [|destruct (is_value_error e); reflexivity]. f_equal. rewrite map_map. apply map_ext. intros x.
  apply M3_eq; apply V3_eq; cbn [madd vadd r0 r1 r2 vx vy vz]; ring.
Qed.
Lemma tensor_up spl s ref d : im_dummy s = false -> raman_tensor (as_model spl (Sh s)) ref d = raman_tensor (as_model spl s) ref d.
Proof.
  intros HC. assert (K : forall p, predict_one (as_model spl (Sh s)) p = rmap up (predict_one (as_model spl s) p)).
  { intros p. unfold predict_one, as_model. rewrite predict_up by exact HC. cbn [Sh im_ref]. destruct (calc_polarizabilities _ _ _) as [[|x l]|]; reflexivity. }
  unfold raman_tensor. rewrite !K. destruct (predict_one (as_model spl s) (map2 vadd ref _)) as [a|e]; cbn [rmap rbind rewrap]; [|destruct (is_value_error e); reflexivity].
  destruct (predict_one _ _) as [c0|e]; cbn [rmap rbind rewrap]; [|destruct (is_value_error e); reflexivity]. now rewrite up_msub.
Qed.
Lemma run_dummy art calls s : im_dummy s = false -> im_dummy (snd (run_all art calls s)) = false.
Proof.
  revert s. induction calls as [|a calls IH]; intros s HC; [exact HC|]. cbn [run_all]. destruct (run_adding art a s) as [[s1 w] x] eqn:E.
  assert (K : im_dummy s1 = false) by (apply run_adding_cases in E; destruct E as [(e & _ & ->)|(_ & bs & sps & ->)]; exact HC). specialize (IH s1 K). destruct (run_all art calls s1). exact IH.
Qed.
End Offset.

Lemma f_C96_zero r refpol c art calls calls' : Forall2 (offset_call c) calls calls' ->
  let run := run_all art calls (make_model r refpol false) in
  let run' := run_all art calls' (make_model r (madd refpol c) false) in
  fst run' = fst run /\ forall spl,
  (forall b, calc_polarizabilities spl (snd run') b = rmap (map (fun a => madd a c)) (calc_polarizabilities spl (snd run) b)) /\
  (forall p, phonons_raman_spectrum (as_model spl (snd run')) p = phonons_raman_spectrum (as_model spl (snd run)) p) /\
  (forall t sp, trajectory_raman_spectrum (as_model spl (snd run)) t = Ok sp ->
     exists sp', trajectory_raman_spectrum (as_model spl (snd run')) t = Ok sp' /\ forall a, measure_md sp' a = measure_md sp a).
Proof.
  intros HF run run'. unfold run'. change (make_model r (madd refpol c) false) with (Sh c (make_model r refpol false)).
  rewrite (runs_up c art calls calls' HF) by reflexivity. fold run. cbn [fst snd]. split; [reflexivity|]. intros spl.
  assert (HD : im_dummy (snd run) = false) by (apply run_dummy; reflexivity). split; [|split].
  - intros b. now apply predict_up.
  - intros p. unfold phonons_raman_spectrum. rewrite (mapM_ext (raman_tensor (as_model spl (Sh c (snd run))) (ph_ref p)) (raman_tensor (as_model spl (snd run)) (ph_ref p))); [reflexivity|].
    intros d _. now apply tensor_up.
  - intros t sp E. unfold trajectory_raman_spectrum in *. unfold as_model at 1. rewrite predict_up by exact HD. cbn [Sh im_ref]. fold (as_model spl (snd run) (tr_ts t)).
    destruct (as_model spl (snd run) (tr_ts t)) as [l|e]; cbn [rmap rbind rewrap] in *; [|destruct (is_value_error e); discriminate].
    unfold new_md_spectrum in *. cbn [mats_arr ra_shape ra_data] in *. rewrite map_length. destruct (verify_ndarray_shape _ _); [|discriminate]. cbn [rbind] in *.
    injection E as <-. eexists. split; [reflexivity|]. intros ang. rewrite !mats_of_entries. apply f_C43_offset.
Qed.
Lemma f_C96_unit_spectra r refpol dummy art k calls calls' spl : Forall2 (rescaled_call k) calls calls' -> spline_maps (mscale k) spl ->
  let m := snd (run_all art calls (make_model r refpol dummy)) in
  let m' := snd (run_all art calls' (make_model r (mscale k refpol) dummy)) in
  (forall p sp, phonons_raman_spectrum (as_model spl m) p = Ok sp ->
     phonons_raman_spectrum (as_model spl m') p = Ok (mkPS (ps_wavenumbers sp) (map (mscale k) (ps_tensors sp)))) /\
  (forall t sp, trajectory_raman_spectrum (as_model spl m) t = Ok sp ->
     exists sp', trajectory_raman_spectrum (as_model spl m') t = Ok sp' /\
       forall a, measure_md sp' a = rmap (fun y => (fst y, times (k ^ 2) (snd y))) (measure_md sp a)).
Proof.
  intros HF Hs m m'. assert (E : m' = T mI (mscale k) m).
  { unfold m', m. pose proof (model_turn mI (mscale k) r refpol dummy (mscale_m0 k)) as EM. rewrite tref_mI in EM. rewrite EM.
    rewrite (runs_turn mI (mscale k) isometry_mI (mscale_m0 k) (mscale_madd k) (mscale_swap k) art calls calls' HF); [reflexivity|].
    apply Forall_forall. intros op _ i x _. rewrite mmul_mscale_r, mmul_mscale_l. reflexivity. }
  rewrite E. split.
  - intros p sp Ep. rewrite (phonons_turn mI (mscale k) isometry_mI (mscale_m0 k) (mscale_madd k) (mscale_swap k) spl Hs), Ep. reflexivity.
  - intros t sp Et. rewrite (trajectory_turn mI (mscale k) isometry_mI (mscale_m0 k) (mscale_madd k) (mscale_swap k) spl Hs), Et. cbn [rmap rbind].
    eexists. split; [reflexivity|]. intros a. destruct sp as [ts dt]. cbn [md_ts md_timestep]. apply f_C43_scale.
Qed.
