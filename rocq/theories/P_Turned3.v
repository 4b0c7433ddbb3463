(** One crystal in two orientations, runs, predictions and spectra: C95, C96 *)
From Coq Require Import String ZArith Reals Lra Lia Bool Arith List.
From Verif Require Import Base LinAlg M_Validate M_StructUtils M_Symmetry M_Reference M_Interp M_Art M_Shared M_Spectrum M_Dynamics
  S_Vec S_Images S_Order S_Atoms S_Spectrum S_Interp S_Response S_Turned P_StructUtils P_Interp P_Interp3 P_Images P_Images2 P_Workflow P_Atoms P_Shared P_Spectrum P_Turned P_Turned2.
Import ListNotations.
Local Open Scope R_scope.

Section Turn.
Context (Q : M3) (tm : M3 -> M3) (HQ : isometry Q) (tm_m0 : tm m0 = m0) (tm_madd : forall a b, tm (madd a b) = madd (tm a) (tm b)) (tm_mscale : forall k a, tm (mscale k a) = mscale k (tm a)).
Notation T := (T Q tm).
Notation lifted := (lifted Q tm).
Notation fine s := (Forall (commutes tm) (rs_ops (im_ref s))).

Lemma adding_frame art a s s' w x : run_adding art a s = ((s', w), x) -> im_ref s' = im_ref s.
Proof. intros H. apply run_adding_cases in H. destruct H as [(e & _ & ->)|(_ & bs & sps & ->)]; reflexivity. Qed.
Lemma runs_turn art calls calls' : Forall2 (mapped_call Q tm) calls calls' -> forall s, fine s ->
  run_all art calls' (T s) = (fst (run_all art calls s), T (snd (run_all art calls s))).
Proof.
  induction 1 as [|a a' calls calls' H _ IH]; intros s HC; [reflexivity|]. cbn [run_all].
  rewrite (call_turn Q tm HQ tm_m0 tm_madd tm_mscale art a a' s HC H). destruct (run_adding art a s) as [[s1 w] x] eqn:E. cbn [P_Turned.lifted].
  rewrite IH by (rewrite (adding_frame _ _ _ _ _ _ E); exact HC). destruct (run_all art calls s1) as [os s2]. cbn [fst snd]. destruct x as [[]|]; reflexivity.
Qed.

(** *** Predictions *)
Lemma segment_turn p q x : segment (tpt tm p) (tpt tm q) x = tm (segment p q x).
Proof. unfold segment, tpt. cbn [fst snd]. rewrite tm_madd, tm_mscale, (tm_msub tm tm_madd tm_mscale). reflexivity. Qed.
Lemma linear_turn pts x : linear_spline (map (tpt tm) pts) x = tm (linear_spline pts x).
Proof.
  induction pts as [|p [|q [|r pts]] IH]; try (symmetry; exact tm_m0); [apply segment_turn|].
  change (map (tpt tm) (p :: q :: r :: pts)) with (tpt tm p :: tpt tm q :: map (tpt tm) (r :: pts)). cbn [linear_spline map]. change (fst (tpt tm q)) with (fst q).
  destruct (Rltb _ _); [apply segment_turn|apply IH].
Qed.
Context (spl : nat -> list (R * M3) -> R -> M3) (Hspl : spline_maps tm spl).
Lemma eval_turn sp x : eval_spline spl (tsp tm sp) x = tm (eval_spline spl sp x).
Proof. unfold eval_spline, tsp. cbn [sp_order sp_pts]. destruct (Nat.eqb _ _); [apply linear_turn|apply Hspl]. Qed.
Definition like_rows (row row' : list R) : Prop := forall b, ldot (flatten_rows (trows Q b)) row' = ldot (flatten_rows b) row.
Lemma acc_turn sp mk fb fb' rows rows' : Forall2 (fun row row' => ldot fb' row' = ldot fb row) rows rows' -> forall acc,
  map2 (fun a row => madd a (mscale (1 - b2r mk) (eval_spline spl (tsp tm sp) (ldot fb' row)))) (map tm acc) rows' =
  map tm (map2 (fun a row => madd a (mscale (1 - b2r mk) (eval_spline spl sp (ldot fb row)))) acc rows).
Proof.
  induction 1 as [|row row' rows rows' H _ IH]; intros [|a acc]; cbn [map map2]; try reflexivity. rewrite IH, H, eval_turn, tm_madd, tm_mscale. reflexivity.
Qed.
Lemma sum_turn width rows rows' : Forall2 like_rows rows rows' -> forall basis interps mask acc,
  sum_dofs spl width rows' (map (trows Q) basis) (map (tsp tm) interps) mask (map tm acc) = rmap (map tm) (sum_dofs spl width rows basis interps mask acc).
Proof.
  intros HR. induction basis as [|b basis IH]; intros [|sp interps] [|mk mask] acc; try reflexivity. cbn [map sum_dofs].
  rewrite !flat_len, trows_len. destruct (_ || _); [|reflexivity].
  rewrite (acc_turn sp mk (flatten_rows b) (flatten_rows (trows Q b)) rows rows'); [apply IH|].
  clear - HR. induction HR; constructor; auto.
Qed.
Lemma rows_turn r b : match batch_displacements r b, batch_displacements (tref Q r) b with
  | Ok (n, rows), Ok (n', rows') => n' = n /\ Forall2 like_rows rows rows'
  | Err e, Err e' => e' = e | _, _ => False end.
Proof.
  unfold batch_displacements. cbn [tref rs_positions rs_lattice].
  assert (X : forall ns, Forall2 like_rows (repeat [] ns) (repeat [] ns)).
  { intros ns. induction ns as [|ns IH]; constructor; [|exact IH]. intros x. unfold ldot. destruct (flatten_rows (trows Q x)), (flatten_rows x); reflexivity. }
  destruct (b_shape b) as [|ns [|n [|c [|d rest]]]]; try reflexivity.
  - destruct (bdim _ n) as [n'|]; [|reflexivity]. destruct (bdim 3 c) as [[|[|[|[|]]]]|]; try reflexivity. split; [reflexivity|].
    induction (seq 0 ns) as [|s l IH]; constructor; [|exact IH]. intros x. rewrite <- (ldot_turn Q HQ x). f_equal. f_equal. unfold trows, rows_mul. rewrite map_map. apply map_ext. intros i. apply vmul_mmul.
  - destruct (rev _) as [|c' [|n' mid]]; try reflexivity. destruct (bdim _ n') as [n''|]; [|reflexivity]. destruct (bdim 3 c') as [[|[|[|[|]]]]|]; try reflexivity.
    destruct (Nat.eqb _ _); [|reflexivity]. split; [reflexivity|apply X].
Qed.
Lemma predict_turn s b : calc_polarizabilities spl (T s) b = rmap (map tm) (calc_polarizabilities spl s b).
Proof.
  unfold calc_polarizabilities. cbn [P_Turned.T im_ref im_refpol im_basis im_interp im_mask im_dummy]. pose proof (rows_turn (im_ref s) b) as K.
  destruct (batch_displacements (im_ref s) b) as [[n rows]|e], (batch_displacements (tref Q (im_ref s)) b) as [[n' rows']|e']; try contradiction; [|rewrite K; reflexivity].
  destruct K as (-> & K). cbn [rbind].
  assert (Z : map (fun _ : list R => m0) rows' = map tm (map (fun _ => m0) rows)). { clear - K tm_m0. induction K; [reflexivity|]. cbn [map]. rewrite IHK, tm_m0. reflexivity. }
  rewrite Z, (sum_turn n rows rows' K). destruct (sum_dofs _ _ _ _ _ _ _) as [d|e]; cbn [rmap rbind].
  - f_equal. rewrite !map_map. apply map_ext. intros x. now rewrite tm_madd.
  - destruct (is_value_error e); [destruct (im_dummy s)|]; reflexivity.
Qed.

(** *** Spectra *)
Lemma one_turn s p : predict_one (as_model spl (T s)) p = rmap tm (predict_one (as_model spl s) p).
Proof.
  unfold predict_one, as_model. rewrite predict_turn. cbn [P_Turned.T im_ref tref rs_positions]. destruct (calc_polarizabilities _ _ _) as [[|x l]|]; reflexivity.
Qed.
Lemma mdivs_scale a c : mdivs a c = mscale (/ c) a.
Proof. clear. unfold mdivs, vdivs, mscale, vscale, Rdiv. apply M3_eq; apply V3_eq; cbn [r0 r1 r2 vx vy vz]; apply Rmult_comm. Qed.
Lemma tensor_turn s ref d : raman_tensor (as_model spl (T s)) ref d = rmap tm (raman_tensor (as_model spl s) ref d).
Proof.
  unfold raman_tensor. rewrite !one_turn. destruct (predict_one (as_model spl s) (map2 vadd ref _)) as [a|e]; cbn [rmap rbind rewrap]; [|destruct (is_value_error e); reflexivity].
  destruct (predict_one _ _) as [c|e]; cbn [rmap rbind rewrap]; [|destruct (is_value_error e); reflexivity].
  rewrite !mdivs_scale, tm_mscale, (tm_msub tm tm_madd tm_mscale). reflexivity.
Qed.
Lemma phonons_turn s p : phonons_raman_spectrum (as_model spl (T s)) p = rmap (fun sp => mkPS (ps_wavenumbers sp) (map tm (ps_tensors sp))) (phonons_raman_spectrum (as_model spl s) p).
Proof.
  unfold phonons_raman_spectrum. rewrite (mapM_rmap (raman_tensor (as_model spl s) (ph_ref p)) (raman_tensor (as_model spl (T s)) (ph_ref p)) tm) by (intros; apply tensor_turn).
  destruct (mapM _ _) as [ts|]; [|reflexivity]. cbn [rmap rbind]. unfold new_phonon_spectrum. cbn [vec_arr ra_shape ra_data hd]. destruct (verify_ndarray_shape _ [None]); [|reflexivity]. cbn [rbind].
  destruct ts as [|t ts]; [destruct (verify_ndarray_shape _ _); reflexivity|]. cbn [map]. change (tm t :: map tm ts) with (map tm (t :: ts)). cbn [mats_arr ra_shape ra_data]. rewrite map_length.
  destruct (verify_ndarray_shape _ _); [|reflexivity]. cbn [rbind rmap ps_wavenumbers ps_tensors]. rewrite !mats_of_entries. reflexivity.
Qed.
Lemma trajectory_turn s t : trajectory_raman_spectrum (as_model spl (T s)) t = rmap (fun sp => mkMD (map tm (md_ts sp)) (md_timestep sp)) (trajectory_raman_spectrum (as_model spl s) t).
Proof.
  unfold trajectory_raman_spectrum. unfold as_model at 1. rewrite predict_turn. cbn [P_Turned.T im_ref tref rs_positions]. fold (as_model spl s (tr_ts t)).
  destruct (as_model spl s (tr_ts t)) as [l|e]; cbn [rmap rbind rewrap]; [|destruct (is_value_error e); reflexivity].
  unfold new_md_spectrum. cbn [mats_arr ra_shape ra_data]. rewrite map_length. destruct (verify_ndarray_shape _ _); [|reflexivity]. cbn [rbind rmap md_ts md_timestep]. rewrite !mats_of_entries. reflexivity.
Qed.
End Turn.

Lemma isometry_orthogonal Q : isometry Q -> orthogonal (mtrans Q).
Proof. intros [H1 H2]. unfold orthogonal. rewrite mtrans_mtrans. auto. Qed.
Lemma carried_rotated Q a : carried Q a = rotated (mtrans Q) a.
Proof. unfold carried, rotated. now rewrite mtrans_mtrans. Qed.

(** *** The theorems *)
Lemma model_turn Q tm r refpol dummy : tm m0 = m0 -> make_model (tref Q r) (tm refpol) dummy = T Q tm (make_model r refpol dummy).
Proof. intros H. unfold T, make_model. cbn [im_ref im_refpol im_dummy im_basis im_interp im_mask map]. destruct dummy; [|reflexivity]. now rewrite H. Qed.
Lemma f_C95_run Q numbers L pos ops equiv r r' refpol dummy art calls calls' :
  isometry Q -> make_reference numbers L pos (Some (ops, equiv)) = Ok r -> make_reference numbers (mmul L Q) pos (Some (ops, equiv)) = Ok r' ->
  Forall (fun op => mmul (fst op) Q = mmul Q (fst op)) ops -> Forall2 (turned_call Q) calls calls' ->
  run_all art calls' (make_model r' (carried Q refpol) dummy) =
  (fst (run_all art calls (make_model r refpol dummy)), T Q (carried Q) (snd (run_all art calls (make_model r refpol dummy)))).
Proof.
  intros HQ Hr Hr' HC HF. rewrite (make_turn Q), Hr in Hr'. cbn [rmap rbind] in Hr'. injection Hr' as <-. rewrite (model_turn Q (carried Q)) by apply carried_m0.
  rewrite (runs_turn Q (carried Q) HQ (carried_m0 Q) (carried_madd Q) (carried_mscale Q) art calls calls' HF); [reflexivity|].
  cbn [make_model im_ref]. destruct (make_reference_ops _ _ _ _ _ _ Hr) as (-> & _). eapply Forall_impl; [|exact HC]. intros op. apply (carried_commutes Q HQ).
Qed.
Lemma f_C95_turned Q numbers L pos ops equiv r r' refpol dummy art calls calls' :
  isometry Q -> make_reference numbers L pos (Some (ops, equiv)) = Ok r -> make_reference numbers (mmul L Q) pos (Some (ops, equiv)) = Ok r' ->
  Forall (fun op => mmul (fst op) Q = mmul Q (fst op)) ops -> Forall2 (turned_call Q) calls calls' ->
  let run := run_all art calls (make_model r refpol dummy) in
  let run' := run_all art calls' (make_model r' (carried Q refpol) dummy) in
  fst run' = fst run /\ im_basis (snd run') = map (fun b => rows_mul b Q) (im_basis (snd run)) /\ im_mask (snd run') = im_mask (snd run) /\
  forall spl b, spline_maps (carried Q) spl ->
    calc_polarizabilities spl (snd run') b = rmap (map (carried Q)) (calc_polarizabilities spl (snd run) b).
Proof.
  intros HQ Hr Hr' HC HF run run'. unfold run'. rewrite (f_C95_run Q numbers L pos ops equiv r r' refpol dummy art calls calls' HQ Hr Hr' HC HF). fold run. cbn [fst snd].
  split; [reflexivity|]. split; [reflexivity|]. split; [reflexivity|]. intros spl b Hs.
  apply (predict_turn Q (carried Q) HQ (carried_m0 Q) (carried_madd Q) (carried_mscale Q) spl Hs).
Qed.
Lemma f_C95_spectra Q numbers L pos ops equiv r r' refpol dummy art calls calls' :
  isometry Q -> make_reference numbers L pos (Some (ops, equiv)) = Ok r -> make_reference numbers (mmul L Q) pos (Some (ops, equiv)) = Ok r' ->
  Forall (fun op => mmul (fst op) Q = mmul Q (fst op)) ops -> Forall2 (turned_call Q) calls calls' ->
  let m := snd (run_all art calls (make_model r refpol dummy)) in
  let m' := snd (run_all art calls' (make_model r' (carried Q refpol) dummy)) in
  forall spl, spline_maps (carried Q) spl ->
  (forall p sp, phonons_raman_spectrum (as_model spl m) p = Ok sp -> Forall symmetric3 (ps_tensors sp) ->
     exists sp', phonons_raman_spectrum (as_model spl m') p = Ok sp' /\ forall a, measure_phonon sp' a = measure_phonon sp a) /\
  (forall t sp, trajectory_raman_spectrum (as_model spl m) t = Ok sp -> Forall symmetric3 (md_ts sp) ->
     exists sp', trajectory_raman_spectrum (as_model spl m') t = Ok sp' /\ forall a, measure_md sp' a = measure_md sp a).
Proof.
  intros HQ Hr Hr' HC HF m m' spl Hs. unfold m'. rewrite (f_C95_run Q numbers L pos ops equiv r r' refpol dummy art calls calls' HQ Hr Hr' HC HF). cbn [snd]. fold m. split.
  - intros p sp E HS. rewrite (phonons_turn Q (carried Q) HQ (carried_m0 Q) (carried_madd Q) (carried_mscale Q) spl Hs), E. cbn [rmap rbind]. eexists. split; [reflexivity|]. intros a.
    rewrite <- (f_C36 (mtrans Q) sp a (isometry_orthogonal Q HQ) HS). do 2 f_equal.
  - intros t sp E HS. rewrite (trajectory_turn Q (carried Q) HQ (carried_m0 Q) (carried_madd Q) (carried_mscale Q) spl Hs), E. cbn [rmap rbind]. eexists. split; [reflexivity|]. intros a.
    destruct sp as [ts dt]. cbn [md_ts md_timestep] in *. rewrite <- (f_C43_rotation (mtrans Q) ts dt a (isometry_orthogonal Q HQ) HS). do 2 f_equal.
Qed.

(** *** Values of polarizabilities *)
Definition erase (_ : M3) : M3 := m0.
Lemma erase_madd a b : erase (madd a b) = madd (erase a) (erase b).
Proof. clear. unfold erase. apply M3_eq; apply V3_eq; cbn; ring. Qed.
Lemma erase_mscale k a : erase (mscale k a) = mscale k (erase a).
Proof. clear. unfold erase. apply M3_eq; apply V3_eq; cbn; ring. Qed.
Lemma erase_commutes op : commutes erase op.
Proof. intros i x _. unfold erase. now rewrite mmul_m0_r, mmul_m0_l. Qed.
Lemma isometry_mI : isometry mI.
Proof. split; apply M3_eq; apply V3_eq; cbn; ring. Qed.
Lemma tsp_sampling l : map (fun sp => (sp_order sp, map fst (sp_pts sp))) (map (tsp erase) l) = map (fun sp => (sp_order sp, map fst (sp_pts sp))) l.
Proof. rewrite map_map. apply map_ext. intros sp. cbn [tsp sp_pts sp_order]. now rewrite fst_tpt. Qed.
Lemma rows_mul_mI l : rows_mul l mI = l.
Proof. unfold rows_mul. rewrite <- (map_id l) at 2. apply map_ext. intros v. apply vmul_mI. Qed.
Lemma run_erased Q art r refpol refpol' dummy calls calls' es : isometry Q ->
  Forall2 (mapped_call Q erase) calls es -> Forall2 (mapped_call mI erase) calls' es ->
  let run := run_all art calls (make_model r refpol dummy) in
  let run' := run_all art calls' (make_model (tref Q r) refpol' dummy) in
  fst run' = fst run /\ im_basis (snd run') = map (fun b => rows_mul b Q) (im_basis (snd run)) /\ im_mask (snd run') = im_mask (snd run) /\
  sampling (snd run') = sampling (snd run).
Proof.
  intros HQ H1 H2 run run'.
  pose proof (runs_turn Q erase HQ eq_refl erase_madd erase_mscale art calls es H1 (make_model r refpol dummy)) as E1.
  pose proof (runs_turn mI erase isometry_mI eq_refl erase_madd erase_mscale art calls' es H2 (make_model (tref Q r) refpol' dummy)) as E2.
  fold run in E1. fold run' in E2.
  assert (F : forall (m : imodel), Forall (commutes erase) (rs_ops (im_ref m))) by (intros m; apply Forall_forall; intros; apply erase_commutes).
  specialize (E1 (F _)). specialize (E2 (F _)).
  assert (EM : T Q erase (make_model r refpol dummy) = T mI erase (make_model (tref Q r) refpol' dummy)).
  { unfold T, make_model, tref. cbn [im_ref im_refpol im_dummy im_basis im_interp im_mask map rs_numbers rs_lattice rs_positions rs_ops rs_equiv rs_perms]. rewrite mmul_mI_r. reflexivity. }
  rewrite <- EM, E1 in E2. clear EM E1.
  pose proof (f_equal fst E2) as A1. pose proof (f_equal (fun x => im_basis (snd x)) E2) as A2. pose proof (f_equal (fun x => im_interp (snd x)) E2) as A3. pose proof (f_equal (fun x => im_mask (snd x)) E2) as A4.
  clear E2. unfold T in *. cbn [fst snd im_basis im_interp im_mask] in *.
  split; [congruence|]. split.
  { rewrite <- (map_id (im_basis (snd run'))). transitivity (map (trows mI) (im_basis (snd run'))); [apply map_ext; intros b; symmetry; apply rows_mul_mI|]. symmetry. exact A2. }
  split; [congruence|]. unfold sampling. rewrite <- tsp_sampling, <- A3, tsp_sampling. reflexivity.
Qed.
Lemma mapped_any f qs : mapped_data f (mats_arr qs) (mats_arr (map f qs)).
Proof. left. exists qs. auto. Qed.
Lemma erased_repeat l : map erase l = repeat m0 (List.length l).
Proof. induction l as [|x l IH]; [reflexivity|]. cbn [map List.length repeat]. now rewrite IH. Qed.
Lemma other_erased p p' : other_data p p' -> exists e, mapped_data erase p e /\ mapped_data erase p' e.
Proof.
  intros [(qs & qs' & HL & -> & ->)|(HS & N)].
  - exists (mats_arr (map erase qs)). split; [apply mapped_any|]. left. exists qs'. split; [reflexivity|]. now rewrite !erased_repeat, HL.
  - exists p. split; right; split; auto. intros k. rewrite HS. apply N.
Qed.
Lemma mapped_erased f p p' : mapped_data f p p' -> exists e, mapped_data erase p e /\ mapped_data erase p' e.
Proof.
  intros H. apply other_erased. destruct H as [(qs & -> & ->)|H]; [|right; exact H]. left. exists qs, (map f qs). split; [apply map_length|auto].
Qed.
Lemma reads_erased l l' : Forall2 other_read l l' -> exists es, Forall2 (mapped_read erase) l es /\ Forall2 (mapped_read erase) l' es.
Proof.
  induction 1 as [|x y l l' H _ (es & I1 & I2)]; [exists []; auto|]. destruct x as [[p q]|e], y as [[p' q']|e']; cbn in H; try contradiction.
  - exists (Ok (p, m0) :: es). split; constructor; auto; cbn; auto.
  - exists (Err e :: es). split; constructor; auto; cbn; auto.
Qed.
Lemma mapped_other_read f l l' : Forall2 (mapped_read f) l l' -> Forall2 other_read l l'.
Proof. induction 1 as [|x y l l' H _ IH]; constructor; [|exact IH]. destruct x as [[p q]|e], y as [[p' q']|e']; cbn in *; tauto. Qed.
Lemma direction_mI d : turned_direction mI d d.
Proof. destruct d as [|x [|y [|z [|w d]]]]; cbn [turned_direction]; try reflexivity. rewrite vmul_mI. reflexivity. Qed.
Lemma call_erased Q f a a' : mapped_call Q f a a' -> exists e, mapped_call Q erase a e /\ mapped_call mI erase a' e.
Proof.
  destruct a as [c x p k i|rds k|ps p k|i d x p|rds|ps p], a' as [c' x' p' k' i'|rds' k'|ps' p' k'|i' d' x' p'|rds'|ps' p']; cbn [mapped_call]; try contradiction.
  - intros (-> & -> & H & -> & ->). destruct (mapped_erased _ _ _ H) as (e & H1 & H2). exists (Dof (rows_mul c Q) x e k i). cbn [mapped_call]. rewrite rows_mul_mI. auto 10.
  - intros (H & ->). destruct (reads_erased _ _ (mapped_other_read _ _ _ H)) as (e & H1 & H2). exists (DofFiles e k). cbn [mapped_call]. auto.
  - intros (-> & H & ->). destruct (mapped_erased _ _ _ H) as (e & H1 & H2). exists (DofPymatgen ps e k). cbn [mapped_call]. auto.
  - intros (-> & Hd & -> & H). destruct (mapped_erased _ _ _ H) as (e & H1 & H2). exists (Art i d' x e). cbn [mapped_call]. auto using direction_mI.
  - intros H. destruct (reads_erased _ _ (mapped_other_read _ _ _ H)) as (e & H1 & H2). exists (ArtFiles e). cbn [mapped_call]. auto.
  - intros (-> & ->). exists (ArtPymatgen ps (map erase p)). cbn [mapped_call]. split; [auto|]. split; [reflexivity|]. rewrite map_map. reflexivity.
Qed.
Lemma other_call_erased a a' : other_call a a' -> exists e, mapped_call mI erase a e /\ mapped_call mI erase a' e.
Proof.
  destruct a as [c x p k i|rds k|ps p k|i d x p|rds|ps p], a' as [c' x' p' k' i'|rds' k'|ps' p' k'|i' d' x' p'|rds'|ps' p']; cbn [other_call]; try contradiction.
  - intros (-> & -> & H & -> & ->). destruct (other_erased _ _ H) as (e & H1 & H2). exists (Dof c x e k i). cbn [mapped_call]. rewrite rows_mul_mI. auto 10.
  - intros (H & ->). destruct (reads_erased _ _ H) as (e & H1 & H2). exists (DofFiles e k). cbn [mapped_call]. auto.
  - intros (-> & H & ->). destruct (other_erased _ _ H) as (e & H1 & H2). exists (DofPymatgen ps e k). cbn [mapped_call]. auto.
  - intros (-> & -> & -> & H). destruct (other_erased _ _ H) as (e & H1 & H2). exists (Art i d x e). cbn [mapped_call]. auto using direction_mI.
  - intros H. destruct (reads_erased _ _ H) as (e & H1 & H2). exists (ArtFiles e). cbn [mapped_call]. auto.
  - intros (-> & HL). exists (ArtPymatgen ps (map erase p)). cbn [mapped_call]. split; [auto|]. split; [reflexivity|]. rewrite !erased_repeat. now rewrite HL.
Qed.
Lemma forall_erased {A} (R R1 R2 : A -> A -> Prop) l l' : (forall a a', R a a' -> exists e, R1 a e /\ R2 a' e) -> Forall2 R l l' -> exists es, Forall2 R1 l es /\ Forall2 R2 l' es.
Proof.
  intros H. induction 1 as [|a a' l l' Ha _ (es & I1 & I2)]; [exists []; auto|]. destruct (H _ _ Ha) as (e & E1 & E2). exists (e :: es). auto.
Qed.
Lemma f_C95_outcomes Q numbers L pos sym r r' refpol refpol' dummy art calls calls' :
  isometry Q -> make_reference numbers L pos sym = Ok r -> make_reference numbers (mmul L Q) pos sym = Ok r' -> Forall2 (turned_call Q) calls calls' ->
  let run := run_all art calls (make_model r refpol dummy) in
  let run' := run_all art calls' (make_model r' refpol' dummy) in
  fst run' = fst run /\ im_basis (snd run') = map (fun b => rows_mul b Q) (im_basis (snd run)) /\ im_mask (snd run') = im_mask (snd run) /\
  sampling (snd run') = sampling (snd run).
Proof.
  intros HQ Hr Hr' HF. rewrite (make_turn Q), Hr in Hr'. cbn [rmap rbind] in Hr'. injection Hr' as <-.
  destruct (forall_erased _ _ _ _ _ (call_erased Q (carried Q)) HF) as (es & H1 & H2). apply (run_erased Q art r refpol refpol' dummy calls calls' es HQ H1 H2).
Qed.
Lemma tref_mI r : tref mI r = r.
Proof. unfold tref. rewrite mmul_mI_r. destruct r; reflexivity. Qed.
Lemma f_C96_values r refpol refpol' dummy art calls calls' : Forall2 other_call calls calls' ->
  let run := run_all art calls (make_model r refpol dummy) in
  let run' := run_all art calls' (make_model r refpol' dummy) in
  fst run' = fst run /\ im_basis (snd run') = im_basis (snd run) /\ im_mask (snd run') = im_mask (snd run) /\ sampling (snd run') = sampling (snd run).
Proof.
  intros HF. destruct (forall_erased _ _ _ _ _ other_call_erased HF) as (es & H1 & H2).
  pose proof (run_erased mI art r refpol refpol' dummy calls calls' es isometry_mI H1 H2) as K. rewrite tref_mI in K. cbv zeta in *. destruct K as (K1 & K2 & K3 & K4). split; [exact K1|]. split; [|split; assumption].
  rewrite K2. rewrite <- (map_id (im_basis _)) at 2. apply map_ext. intros b. apply rows_mul_mI.
Qed.
Lemma mscale_m0 k : mscale k m0 = m0.
Proof. clear. apply M3_eq; apply V3_eq; cbn; ring. Qed.
Lemma mscale_madd k a b : mscale k (madd a b) = madd (mscale k a) (mscale k b).
Proof. clear. apply M3_eq; apply V3_eq; cbn; ring. Qed.
Lemma mscale_swap k c a : mscale k (mscale c a) = mscale c (mscale k a).
Proof. clear. apply M3_eq; apply V3_eq; cbn; ring. Qed.
Lemma f_C96_units r refpol dummy art k calls calls' spl b : Forall2 (rescaled_call k) calls calls' -> spline_maps (mscale k) spl ->
  calc_polarizabilities spl (snd (run_all art calls' (make_model r (mscale k refpol) dummy))) b =
  rmap (map (mscale k)) (calc_polarizabilities spl (snd (run_all art calls (make_model r refpol dummy))) b).
Proof.
  intros HF Hs. pose proof (model_turn mI (mscale k) r refpol dummy (mscale_m0 k)) as EM. rewrite tref_mI in EM. rewrite EM.
  rewrite (runs_turn mI (mscale k) isometry_mI (mscale_m0 k) (mscale_madd k) (mscale_swap k) art calls calls' HF).
  - cbn [snd]. apply (predict_turn mI (mscale k) isometry_mI (mscale_m0 k) (mscale_madd k) (mscale_swap k) spl Hs).
  - apply Forall_forall. intros op _ i x _. rewrite mmul_mscale_r, mmul_mscale_l. reflexivity.
Qed.
