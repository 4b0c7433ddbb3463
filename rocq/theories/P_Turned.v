(** One crystal in two orientations: C95 *)
From Coq Require Import String ZArith Reals Lra Lia Bool Arith List.
From Verif Require Import Base LinAlg M_Validate M_StructUtils M_Symmetry M_Reference M_Interp M_Art M_Shared
  S_Vec S_Images S_Order S_Atoms S_Turned P_StructUtils P_Interp P_Interp3 P_Images P_Atoms.
Import ListNotations.
Local Open Scope R_scope.

Section Turn.
Context (Q : M3) (tm : M3 -> M3).
Definition tpt (p : R * M3) : R * M3 := (fst p, tm (snd p)).
Definition tptn (p : option R * M3) : option R * M3 := (fst p, tm (snd p)).
Definition tsp (s : spline) : spline := mkSpline (sp_order s) (map tpt (sp_pts s)).
Definition tref (r : refstruct) : refstruct := mkRef (rs_numbers r) (mmul (rs_lattice r) Q) (rs_positions r) (rs_ops r) (rs_equiv r) (rs_perms r).
Definition trows (l : list V3) : list V3 := rows_mul l Q.
Definition tarr (a : arr V3) : arr V3 := match a with Fin l => Fin (trows l) | Nan n => Nan n end.
Definition T (s : imodel) : imodel := mkIM (tref (im_ref s)) (tm (im_refpol s)) (im_dummy s) (map trows (im_basis s)) (map tsp (im_interp s)) (im_mask s).

(** *** Algebra *)
Context (HQ : isometry Q) (tm_m0 : tm m0 = m0) (tm_madd : forall a b, tm (madd a b) = madd (tm a) (tm b)) (tm_mscale : forall k a, tm (mscale k a) = mscale k (tm a)).
Lemma msub_alt a b : msub a b = madd a (mscale (-1) b).
Proof. clear. apply M3_eq; apply V3_eq; cbn [msub vsub madd mscale vadd vscale r0 r1 r2 vx vy vz]; ring. Qed.
Lemma tm_msub a b : tm (msub a b) = msub (tm a) (tm b). Proof. rewrite !msub_alt, tm_madd, tm_mscale. reflexivity. Qed.
Lemma vdot_turn a b : vdot (vmul a Q) (vmul b Q) = vdot a b.
Proof.
  destruct HQ as [H _].
  assert (E : vdot (vmul a Q) (vmul b Q) = vdot (vmul a (mmul Q (mtrans Q))) b).
  { clear. unfold vdot, mmul, mtrans, vmul, vadd, vscale. cbn [r0 r1 r2 vx vy vz]. ring. }
  rewrite E, H, vmul_mI. reflexivity.
Qed.
Lemma rows_dot_turn a b : rows_dot (trows a) (trows b) = rows_dot a b.
Proof.
  revert b. induction a as [|v a IH]; intros [|w b]; try reflexivity. unfold rows_dot, trows in *. cbn [rows_mul map map2 fold_right].
  rewrite vdot_turn. f_equal. apply IH.
Qed.
Lemma rows_norm_turn a : rows_norm (trows a) = rows_norm a.
Proof. unfold rows_norm, rows_norm2. now rewrite rows_dot_turn. Qed.
Lemma rows_scale_turn k a : rows_scale k (trows a) = trows (rows_scale k a).
Proof. unfold rows_scale, trows, rows_mul. rewrite !map_map. apply map_ext. intros v. now rewrite vmul_vscale. Qed.
Lemma trows_len a : List.length (trows a) = List.length a. Proof. apply map_length. Qed.
Lemma ldot_turn a b : ldot (flatten_rows (trows a)) (flatten_rows (trows b)) = ldot (flatten_rows a) (flatten_rows b).
Proof. rewrite !ldot_rows. apply rows_dot_turn. Qed.
Lemma over_norm_turn c a : over_norm c (tarr a) = tarr (over_norm c a).
Proof.
  destruct a as [[|v l]|k]; try reflexivity. unfold over_norm, tarr at 1. change (trows (v :: l)) with (vmul v Q :: trows l). cbv iota.
  change (vmul v Q :: trows l) with (trows (v :: l)). rewrite rows_scale_turn, rows_norm_turn. destruct (Reqb _ 0); cbn [tarr]; [now rewrite trows_len|]. now rewrite rows_scale_turn.
Qed.
Lemma mdet_Q : mdet Q <> 0.
Proof. destruct HQ as [H _]. apply (f_equal mdet) in H. rewrite mdet_mmul, mdet_mtrans, mdet_mI in H. intros E. rewrite E in H. lra. Qed.
Lemma minv_turn L : minv (mmul L Q) = rmap (mmul (mtrans Q)) (minv L).
Proof.
  destruct (Req_dec (mdet L) 0) as [E|E].
  - unfold minv. rewrite mdet_mmul. destruct (Req_EM_T (mdet L) 0); [|tauto]. destruct (Req_EM_T _ 0) as [|N]; [reflexivity|]. exfalso. apply N. rewrite E. ring.
  - destruct (minv_exists L E) as (i & Hi). rewrite Hi. cbn [rmap rbind].
    destruct (minv_exists (mmul L Q)) as (j & Hj). { rewrite mdet_mmul. apply Rmult_integral_contrapositive_currified; [exact E|apply mdet_Q]. }
    rewrite Hj. f_equal. destruct (minv_Ok _ _ Hi) as (A1 & A2 & _). destruct (minv_Ok _ _ Hj) as (B1 & B2 & _). destruct HQ as [Q1 Q2].
    assert (K : mmul (mmul (mtrans Q) i) (mmul L Q) = mI).
    { rewrite mmul_assoc, <- (mmul_assoc (mtrans Q) i L), A2, mmul_mI_r. exact Q2. }
    rewrite <- (mmul_mI_l j), <- K, <- mmul_assoc, B1, mmul_mI_r. reflexivity.
Qed.
Lemma rows_mul_mmul l a b : rows_mul (rows_mul l a) b = rows_mul l (mmul a b).
Proof. unfold rows_mul. rewrite map_map. apply map_ext. intros v. now rewrite vmul_mmul. Qed.
Lemma undo i : mmul Q (mmul (mtrans Q) i) = i.
Proof. destruct HQ as [Q1 _]. now rewrite mmul_assoc, Q1, mmul_mI_l. Qed.

(** *** Reference structures *)
Lemma make_turn numbers L pos sym : make_reference numbers (mmul L Q) pos sym = rmap tref (make_reference numbers L pos sym).
Proof.
  unfold make_reference. destruct (verify_list_len _ _); [|reflexivity]. cbn [rbind]. destruct (verify_ndarray_shape _ _); [|reflexivity]. cbn [rbind].
  destruct sym as [[ops equiv]|]; [|reflexivity]. destruct (compute_permutation_matrices ops pos); reflexivity.
Qed.
Lemma cart_turn r d : get_cart_displacement (tref r) d = trows (get_cart_displacement r d).
Proof. unfold get_cart_displacement, trows. cbn [tref rs_lattice]. now rewrite rows_mul_mmul. Qed.
Lemma cart_arr_turn r d : get_cart_displacement_arr (tref r) d = tarr (get_cart_displacement_arr r d).
Proof. destruct d; [|reflexivity]. cbn [get_cart_displacement_arr tarr]. now rewrite cart_turn. Qed.
Lemma frac_turn r c : get_frac_displacement (tref r) (trows c) = get_frac_displacement r c.
Proof.
  unfold get_frac_displacement. cbn [tref rs_lattice]. rewrite minv_turn. destruct (minv (rs_lattice r)); [|reflexivity]. cbn [rmap rbind].
  unfold trows. rewrite rows_mul_mmul, undo. reflexivity.
Qed.
Lemma frac_arr_turn r c : get_frac_displacement_arr (tref r) (tarr c) = get_frac_displacement_arr r c.
Proof.
  destruct c as [c|k]; cbn [tarr get_frac_displacement_arr]; [now rewrite frac_turn|]. cbn [tref rs_lattice]. rewrite minv_turn.
  destruct (minv (rs_lattice r)); reflexivity.
Qed.
Lemma frac_dir_turn r d d' : turned_direction Q d d' -> get_frac_direction (tref r) d' = get_frac_direction r d.
Proof.
  intros H. unfold turned_direction in H. destruct d as [|x [|y [|z [|w d]]]]; rewrite H; try reflexivity.
  cbv zeta in *. unfold get_frac_direction. cbn [tref rs_lattice]. rewrite minv_turn. destruct (minv (rs_lattice r)) as [i|]; [|reflexivity]. cbn [rmap rbind].
  do 2 f_equal. replace (mkV (vx (vmul (mkV x y z) Q)) (vy (vmul (mkV x y z) Q)) (vz (vmul (mkV x y z) Q))) with (vmul (mkV x y z) Q) by (apply V3_eq; reflexivity).
  rewrite <- vmul_mmul, undo. reflexivity.
Qed.
Lemma equiv_loop_turn r d ops st : equivalent_loop (tref r) d ops st = equivalent_loop r d ops st.
Proof. revert st. induction ops as [|[op P] ops IH]; intros st; [reflexivity|]. cbn [equivalent_loop]. change (candidate (tref r) d op P) with (candidate r d op P).
  destruct (candidate r d op P); [|reflexivity]. cbn [rbind]. destruct (classify _ _ _); [|reflexivity]. cbn [rbind]. apply IH. Qed.
Lemma equiv_turn r d : get_equivalent_displacements (tref r) d = get_equivalent_displacements r d.
Proof. unfold get_equivalent_displacements. cbn [tref rs_positions rs_ops rs_perms]. rewrite equiv_loop_turn. reflexivity. Qed.

(** the operations reported are those of the structure *)
Lemma add_to_group_trans k d op gs (P : M3 * V3 -> Prop) : P op -> Forall (fun g => Forall P (g_trans g)) gs -> Forall (fun g => Forall P (g_trans g)) (add_to_group k d op gs).
Proof.
  intros HP H. revert k. induction H as [|g gs Hg HF IH]; intros [|k]; cbn [add_to_group]; try constructor; auto.
  cbn [g_trans]. apply Forall_app. auto.
Qed.
Lemma classify_trans st cd op st' (P : M3 * V3 -> Prop) : P op -> Forall (fun g => Forall P (g_trans g)) (fst st) -> classify st cd op = Ok st' -> Forall (fun g => Forall P (g_trans g)) (fst st').
Proof.
  intros HP H. destruct st as [res orth]. unfold classify. cbn [fst] in H.
  destruct (is_orthogonal_to_all _ _) as [o|]; [|discriminate]. cbn [rbind]. destruct (o =? -1)%Z.
  - intros [= <-]. cbn [fst]. apply Forall_app. split; [exact H|]. constructor; [|constructor]. cbn. auto.
  - destruct (is_non_collinear_with_all _ _) as [c|]; [|discriminate]. cbn [rbind]. destruct (negb _); [|intros [= <-]; exact H].
    destruct (nth_error res _); [|discriminate]. destruct (existsb _ _); intros [= <-]; [exact H|]. cbn [fst]. now apply add_to_group_trans.
Qed.
Lemma loop_trans r d (P : M3 * V3 -> Prop) ops : Forall (fun x => P (fst x)) ops -> forall st st', Forall (fun g => Forall P (g_trans g)) (fst st) -> equivalent_loop r d ops st = Ok st' -> Forall (fun g => Forall P (g_trans g)) (fst st').
Proof.
  induction 1 as [|[op M] ops Hp HF IH]; intros st st' H; cbn [equivalent_loop]; [intros [= <-]; exact H|].
  destruct (candidate r d op M); [|discriminate]. cbn [rbind]. destruct (classify st a op) as [st1|] eqn:E; [|discriminate]. cbn [rbind].
  apply IH. eapply classify_trans; [exact Hp|exact H|exact E].
Qed.
Lemma groups_trans r d gs (P : M3 * V3 -> Prop) : Forall P (rs_ops r) -> get_equivalent_displacements r d = Ok gs -> Forall (fun g => Forall P (g_trans g)) gs.
Proof.
  intros H. unfold get_equivalent_displacements. destruct (displace_positions _ _); [|discriminate]. cbn [rbind].
  destruct (equivalent_loop _ _ _ _) as [st|] eqn:E; [|discriminate]. intros [= <-]. eapply (loop_trans r (scale_displacement d) P _ _ ([], []) st); [constructor|exact E].
  Unshelve. apply Forall_forall. intros [op M] Hin. apply in_combine_l in Hin. rewrite Forall_forall in H. apply H, Hin.
Qed.

(** *** Degrees of freedom *)
Definition commutes (op : M3 * V3) : Prop := forall i x, minv (fst op) = Ok i -> mmul (mmul i (tm x)) (fst op) = tm (mmul (mmul i x) (fst op)).
Lemma mapM_rmap {A B C} (f : A -> res B) (g : A -> res C) h l : (forall a, In a l -> g a = rmap h (f a)) -> mapM g l = rmap (map h) (mapM f l).
Proof.
  induction l as [|a l IH]; intros H; [reflexivity|]. cbn [mapM]. rewrite H by now left. destruct (f a); [|reflexivity]. cbn [rmap rbind].
  rewrite IH by (intros; apply H; now right). destruct (mapM f l); reflexivity.
Qed.
Lemma mapM_map {A B C} (f : B -> res C) (g : A -> B) l : mapM f (map g l) = mapM (fun a => f (g a)) l.
Proof. induction l as [|a l IH]; [reflexivity|]. cbn [map mapM]. now rewrite IH. Qed.
Lemma combine_map_r {A B C} (g : B -> C) (l : list A) m : combine l (map g m) = map (fun x => (fst x, g (snd x))) (combine l m).
Proof. revert m. induction l as [|a l IH]; intros [|b m]; cbn [combine map]; try reflexivity. now rewrite IH. Qed.
Lemma points_turn refpol amps pols child ct : commutes (snd ct) ->
  points_of (tm refpol) amps (map tm pols) child ct = rmap (map tptn) (points_of refpol amps pols child ct).
Proof.
  destruct ct as [coll [rot tr]]. unfold commutes. cbn [fst snd]. intros H. unfold points_of. destruct (multiplier child coll) as [k|]; [|reflexivity]. cbn [rbind].
  rewrite combine_map_r, mapM_map. apply mapM_rmap. intros [a x] _. cbn [fst snd]. destruct (minv rot) as [i|] eqn:E; [|reflexivity]. cbn [rmap rbind tptn fst snd].
  f_equal. unfold tptn. cbn [fst snd]. f_equal. rewrite <- tm_msub. apply H. reflexivity.
Qed.
Definition tdof (d : dof) : dof := (tarr (fst d), map tptn (snd d)).
Lemma group_turn r refpol amps pols inc g : Forall commutes (g_trans g) ->
  dof_of_group (tref r) (tm refpol) amps (map tm pols) inc g = rmap tdof (dof_of_group r refpol amps pols inc g).
Proof.
  intros H. unfold dof_of_group. destruct (g_disp g) as [|child rest]; [reflexivity|].
  rewrite (mapM_rmap (points_of refpol amps pols child) (points_of (tm refpol) amps (map tm pols) child) (map tptn)).
  2: { intros [c op] Hin. apply points_turn. apply in_combine_r in Hin. rewrite Forall_forall in H. apply H, Hin. }
  destruct (mapM _ _) as [pss|]; [|reflexivity]. cbn [rmap rbind tdof fst snd]. rewrite cart_arr_turn, over_norm_turn. f_equal. unfold tdof. cbn [fst snd]. f_equal.
  rewrite map_app, concat_map. f_equal. destruct inc; [|reflexivity]. unfold tptn. cbn [map fst snd]. now rewrite tm_m0.
Qed.
Lemma normal_turn a : normal_rows (tarr a) = tarr (normal_rows a).
Proof.
  destruct a as [[|v l]|k]; try reflexivity. unfold normal_rows, tarr at 1. change (trows (v :: l)) with (vmul v Q :: trows l). cbv iota.
  change (vmul v Q :: trows l) with (trows (v :: l)). rewrite rows_norm_turn. destruct (Reqb _ 0); cbn [tarr]; [now rewrite trows_len|]. now rewrite rows_scale_turn.
Qed.
Lemma tarr_len a : arr_len (tarr a) = arr_len a. Proof. destruct a; [apply trows_len|reflexivity]. Qed.
Lemma flat_arr_len z : arr_len (flatten z) = (3 * arr_len z)%nat.
Proof. destruct z; cbn [flatten arr_len]; [apply flat_len|reflexivity]. Qed.
Lemma npdot_turn a b : npdot (normalise (flatten (tarr a))) (normalise (flatten (tarr b))) = npdot (normalise (flatten a)) (normalise (flatten b)).
Proof.
  rewrite !normalise_rows, !normal_turn. generalize (normal_rows a) (normal_rows b). clear a b. intros a b. unfold npdot. rewrite !flat_arr_len, !tarr_len.
  destruct (Nat.eqb _ _); [|reflexivity]. destruct a, b; cbn [flatten tarr]; try reflexivity. now rewrite ldot_turn.
Qed.
Lemma orth_turn a l : is_orthogonal_to_all (flatten (tarr a)) (map flatten (map tarr l)) = is_orthogonal_to_all (flatten a) (map flatten l).
Proof.
  unfold is_orthogonal_to_all. generalize 0%nat. induction l as [|b l IH]; intros k; [reflexivity|]. cbn [map scan_from]. unfold non_orthogonal at 1 3. rewrite npdot_turn.
  destruct (npdot _ _); [|reflexivity]. cbn [rbind]. destruct (negb _); [reflexivity|]. apply IH.
Qed.
Lemma get_dof_turn s parent amps pols inc : Forall commutes (rs_ops (im_ref s)) ->
  get_dof (T s) parent amps (map tm pols) inc = rmap (map tdof) (get_dof s parent amps pols inc).
Proof.
  intros H. unfold get_dof. cbn [T im_ref im_refpol im_basis]. rewrite cart_arr_turn, equiv_turn.
  assert (E : map (fun b => flatten (Fin b)) (map trows (im_basis s)) = map flatten (map tarr (map Fin (im_basis s)))) by (rewrite !map_map; reflexivity).
  rewrite E, orth_turn, map_map. destruct (is_orthogonal_to_all _ _); [|reflexivity]. cbn [rbind]. destruct (negb _); [reflexivity|].
  destruct (get_equivalent_displacements _ _) as [gs|] eqn:G; [|reflexivity]. cbn [rbind]. apply mapM_rmap. intros g Hg. apply group_turn.
  pose proof (groups_trans _ _ _ _ H G) as K. rewrite Forall_forall in K. apply K, Hg.
Qed.

(** *** Interpolations *)
Definition lifted {A B} (h : A -> B) (o : (imodel * list warning) * res A) : (imodel * list warning) * res B :=
  let '((s, w), x) := o in ((T s, w), rmap h x).
Lemma all_finite_turn l : all_finite (map tptn l) = option_map (map tpt) (all_finite l).
Proof. induction l as [|[[x|] y] l IH]; cbn [map all_finite tptn fst snd]; try reflexivity. rewrite IH. destruct (all_finite l); reflexivity. Qed.
Lemma insert_turn p l : insert_pt (tpt p) (map tpt l) = map tpt (insert_pt p l).
Proof. induction l as [|q l IH]; [reflexivity|]. cbn [map insert_pt]. change (fst (tpt p)) with (fst p). change (fst (tpt q)) with (fst q). destruct (Rleb _ _); [reflexivity|]. cbn [map]. now rewrite IH. Qed.
Lemma sort_turn l : sort_pts (map tpt l) = map tpt (sort_pts l).
Proof. induction l as [|p l IH]; [reflexivity|]. cbn [map sort_pts fold_right] in *. unfold sort_pts in IH. now rewrite IH, insert_turn. Qed.
Lemma fst_tpt l : map fst (map tpt l) = map fst l. Proof. rewrite map_map. reflexivity. Qed.
Lemma fst_tptn l : map fst (map tptn l) = map fst l. Proof. rewrite map_map. reflexivity. Qed.
Lemma emit_all_any ws s : emit_all ws s = ((s, ws), Ok tt).
Proof. induction ws as [|w ws IH]; [reflexivity|]. cbn [emit_all]. unfold bind at 1, emit at 1. rewrite IH. reflexivity. Qed.
Lemma construct_one_turn order pts s : construct_one order (map tptn pts) (T s) = lifted tsp (construct_one order pts s).
Proof.
  unfold construct_one. rewrite fst_tptn, map_length, all_finite_turn. destruct (has_duplicates _); [reflexivity|]. destruct (Nat.leb _ _); [reflexivity|].
  destruct (all_finite pts) as [ps|]; [|reflexivity]. cbn [option_map]. unfold span_warnings. rewrite fst_tpt, sort_turn.
  unfold bind. rewrite !emit_all_any. cbn [ret lifted rmap rbind]. reflexivity.
Qed.
Lemma for_each_turn order dofs s : for_each (fun d : dof => construct_one order (snd d)) (map tdof dofs) (T s) = lifted (map tsp) (for_each (fun d : dof => construct_one order (snd d)) dofs s).
Proof.
  revert s. induction dofs as [|d dofs IH]; intros s; [reflexivity|]. cbn [map for_each]. unfold bind at 1 3. cbn [tdof snd]. rewrite construct_one_turn.
  destruct (construct_one order (snd d) s) as [[s1 w1] [x|e]]; cbn [lifted rmap rbind]; [|reflexivity].
  unfold bind at 1 2. rewrite IH. destruct (for_each _ dofs s1) as [[s2 w2] [xs|e]]; cbn [lifted rmap rbind ret]; reflexivity.
Qed.
Lemma all_fin_turn l : all_fin (map fst (map tdof l)) = option_map (map trows) (all_fin (map fst l)).
Proof. rewrite map_map. induction l as [|[[a|k] p] l IH]; cbn [map all_fin fst snd]; try reflexivity. cbn [tarr all_fin]. change (fst (tdof ?x)) with (tarr (fst x)) in IH. cbn [tdof fst tarr all_fin] in IH |- *. rewrite IH. destruct (all_fin (map fst l)); reflexivity. Qed.
Lemma bind_turn {A B A' B'} (h : A -> A') (k : B -> B') (m : act A) (m' : act A') (f : A -> act B) (f' : A' -> act B') s :
  m' (T s) = lifted h (m s) -> (forall a s1 w, m s = ((s1, w), Ok a) -> f' (h a) (T s1) = lifted k (f a s1)) ->
  bind m' f' (T s) = lifted k (bind m f s).
Proof.
  intros H1 H2. unfold bind. rewrite H1. destruct (m s) as [[s1 w] [a|e]] eqn:E; cbn [lifted rmap rbind]; [|reflexivity].
  rewrite (H2 a s1 w eq_refl). destruct (f a s1) as [[s2 w2] x]. reflexivity.
Qed.
Lemma construct_turn dofs order s : construct_and_add (map tdof dofs) order (T s) = lifted (fun x => x) (construct_and_add dofs order s).
Proof.
  unfold construct_and_add. destruct (order <? 1)%Z; [reflexivity|].
  apply (bind_turn (map tsp)); [apply for_each_turn|]. intros xs s1 w1 _. rewrite all_fin_turn.
  destruct (all_fin (map fst dofs)) as [bs|]; [|reflexivity]. cbn [option_map].
  unfold bind, get, put. cbn [fst snd]. cbn [T im_ref im_refpol im_dummy im_basis im_interp im_mask lifted rmap rbind]. unfold T. cbn [im_ref im_refpol im_dummy im_basis im_interp im_mask]. rewrite !map_length, map_app.
  destruct (im_dummy s1); [reflexivity|]. rewrite map_app. reflexivity.
Qed.
End Turn.

(** *** Polarizabilities that turn with the crystal *)
Section Carried.
Context (Q : M3) (HQ : isometry Q).
Lemma mmul_m0_r a : mmul a m0 = m0.
Proof. clear. apply M3_eq; apply V3_eq; cbn [mmul vmul vadd vscale m0 v0 r0 r1 r2 vx vy vz]; ring. Qed.
Lemma mmul_m0_l a : mmul m0 a = m0.
Proof. clear. apply M3_eq; apply V3_eq; cbn [mmul vmul vadd vscale m0 v0 r0 r1 r2 vx vy vz]; ring. Qed.
Lemma carried_m0 : carried Q m0 = m0. Proof. unfold carried. now rewrite mmul_m0_r, mmul_m0_l. Qed.
Lemma carried_madd a b : carried Q (madd a b) = madd (carried Q a) (carried Q b). Proof. unfold carried. now rewrite mmul_madd_r, mmul_madd_l. Qed.
Lemma carried_mscale k a : carried Q (mscale k a) = mscale k (carried Q a). Proof. unfold carried. now rewrite mmul_mscale_r, mmul_mscale_l. Qed.
Lemma inv_commutes A i : minv A = Ok i -> mmul A Q = mmul Q A -> mmul i Q = mmul Q i /\ mmul i (mtrans Q) = mmul (mtrans Q) i.
Proof.
  intros Hi H. destruct (minv_Ok _ _ Hi) as (A1 & A2 & _). destruct HQ as [Q1 Q2].
  assert (E : mmul i Q = mmul Q i).
  { transitivity (mmul (mmul i Q) (mmul A i)); [now rewrite A1, mmul_mI_r|].
    rewrite mmul_assoc, <- (mmul_assoc i Q A), <- H, (mmul_assoc i A Q), A2, mmul_mI_l. reflexivity. }
  split; [exact E|].
  transitivity (mmul (mmul (mtrans Q) Q) (mmul i (mtrans Q))); [now rewrite Q2, mmul_mI_l|].
  rewrite <- mmul_assoc, (mmul_assoc Q i), <- E, <- (mmul_assoc i Q), Q1, mmul_mI_r. reflexivity.
Qed.
Lemma conj_turn A i x : minv A = Ok i -> mmul A Q = mmul Q A -> mmul (mmul i (carried Q x)) A = carried Q (mmul (mmul i x) A).
Proof.
  intros Hi H. destruct (inv_commutes A i Hi H) as (_ & E). unfold carried. rewrite !mmul_assoc, E, <- !mmul_assoc, H. reflexivity.
Qed.
Lemma carried_commutes op : mmul (fst op) Q = mmul Q (fst op) -> commutes (carried Q) op.
Proof. intros H i x Hi. apply conj_turn; assumption. Qed.
End Carried.
