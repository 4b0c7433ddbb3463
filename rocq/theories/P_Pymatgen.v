(** Conversions from pymatgen objects: C94 *)
From Coq Require Import String ZArith Reals Lra Lia Bool Arith List.
From Verif Require Import M_Dataset.
From Verif Require Import Base LinAlg M_Validate M_StructUtils M_Symmetry M_Reference M_Interp M_Art M_Spectrum M_Dynamics M_Pymatgen
  S_Lattice S_Vec S_Pymatgen P_StructUtils P_StructFinal P_Dynamics P_Workflow.
Import ListNotations.
Local Open Scope R_scope.

Lemma structure_or o : (exists m n p, o = structure m n p) \/ not_a_structure o.
Proof.
  destruct o as [[[m|]|] [p|] [n|]]; [left; exists m, n, p; reflexivity|right; intros ? ? ? ?; discriminate..].
Qed.
Lemma f_C94_structure o m n p : get_structure o = Ok (m, n, p) <-> o = structure m n p.
Proof.
  destruct o as [[[m'|]|] [p'|] [n'|]]; cbn; split; try discriminate; intros [= <- <- <-]; reflexivity.
Qed.
Lemma f_C94_structure_error o : get_structure o = Err TypeError <-> not_a_structure o.
Proof.
  split.
  - intros H m n p ->. discriminate.
  - intros H. destruct o as [[[m'|]|] [p'|] [n'|]]; try reflexivity. exfalso. apply (H m' n' p'). reflexivity.
Qed.
Lemma not_structure_err o : not_a_structure o -> forall sym, construct_ref_structure o sym = Err TypeError.
Proof.
  intros H sym. destruct o as [[[m'|]|] [p'|] [n'|]]; try reflexivity. exfalso. apply (H m' n' p'). reflexivity.
Qed.

Lemma f_C94_reference m n p ops equiv : Forall (vall (fun x => 0 <= x <= 1)) p -> List.length p = List.length n ->
  exists r, construct_ref_structure (structure m n p) (Some (ops, equiv)) = Ok r /\
    rs_lattice r = m /\ rs_numbers r = n /\ rs_positions r = p /\ rs_ops r = ops.
Proof.
  intros H L. destruct (f_C07c n m p ops equiv H L) as (r & E & A & B & C & D). exists r. repeat split; auto.
Qed.
Lemma f_C94_reference_sound o sym r : construct_ref_structure o sym = Ok r ->
  exists p, o = structure (rs_lattice r) (rs_numbers r) p /\ rs_positions r = p /\ List.length p = List.length (rs_numbers r) /\
    (rs_ops r <> [] -> Forall (vall (fun x => 0 <= x <= 1)) p).
Proof.
  destruct (structure_or o) as [(m & n & p & ->)|N]; [|intros H; rewrite (not_structure_err o N) in H; discriminate].
  unfold construct_ref_structure. cbn [structure get_atomic_numbers get_lattice get_positions ob_numbers ob_lattice ob_coords rbind].
  intros H. pose proof H as H'. unfold make_reference in H'. cbn [verify_list_len rbind] in H'.
  destruct (verify_ndarray_shape _ _) as [[]|] eqn:V; [|discriminate]. cbn [rbind] in H'.
  destruct sym as [[ops equiv]|]; [|discriminate]. destruct (compute_permutation_matrices ops p); [|discriminate]. cbn [rbind] in H'. injection H' as <-.
  cbn [rs_lattice rs_numbers rs_positions rs_ops]. exists p. split; [reflexivity|]. split; [reflexivity|]. split.
  - unfold verify_ndarray_shape in V. cbn [List.length Nat.eqb negb dims_match] in V. destruct (Nat.eqb_spec (List.length p) (List.length n)); [assumption|discriminate].
  - intros Hne. destruct ops as [|op ops]; [congruence|]. destruct (Forall_dec (vall (fun x => 0 <= x <= 1))) with (l := p) as [F|F]; [|exact F|].
    + intros v. unfold vall. destruct (Rle_dec 0 (vx v)), (Rle_dec (vx v) 1), (Rle_dec 0 (vy v)), (Rle_dec (vy v) 1), (Rle_dec 0 (vz v)), (Rle_dec (vz v) 1); try (left; tauto); right; tauto.
    + exfalso. rewrite (f_C07b n m p op ops equiv F) in H. discriminate.
Qed.
Lemma f_C94_outside m n p op ops equiv : ~ Forall (vall (fun x => 0 <= x <= 1)) p ->
  construct_ref_structure (structure m n p) (Some (op :: ops, equiv)) = Err ValueError.
Proof. intros H. exact (f_C07b n m p op ops equiv H). Qed.

Lemma f_C94_images_refuted : ~ forall m n p p' sym r, same_mod_lattice p p' ->
  construct_ref_structure (structure m n p) sym = Ok r -> exists r', construct_ref_structure (structure m n p') sym = Ok r'.
Proof.
  intros G. destruct (f_C94_reference mI [8%Z] [mkV (9/10) 0 0] [(mI, v0)] [0%nat]) as (r & E & _).
  - constructor; [|constructor]. unfold vall. cbn. lra.
  - reflexivity.
  - destruct (G mI [8%Z] [mkV (9/10) 0 0] [mkV (- / 10) 0 0] (Some ([(mI, v0)], [0%nat])) r) as (r' & E').
    + constructor; [|constructor]. split; [exists 1%Z; cbn; lra|split; exists 0%Z; cbn; lra].
    + exact E.
    + rewrite f_C94_outside in E'; [discriminate|]. intros F. apply Forall_inv in F. destruct F as (F & _). cbn in F. lra.
Qed.

(** ** Datasets *)
Lemma object_loop_full lattice numbers l :
  object_loop lattice numbers (map (fun s => structure (pm_lattice s) (pm_numbers s) (pm_positions s)) l) = pm_loop lattice numbers l.
Proof.
  unfold object_loop, pm_loop. induction l as [|s l IH]; [reflexivity|]. cbn [map mapM]. rewrite IH. reflexivity.
Qed.
Lemma f_C94_dataset cast l pols :
  construct_polarizability_dataset cast (map (fun s => structure (pm_lattice s) (pm_numbers s) (pm_positions s)) l) pols = construct_dataset cast l pols.
Proof.
  unfold construct_polarizability_dataset, construct_dataset. rewrite map_length. destruct l as [|s l]; [reflexivity|].
  destruct (verify_list_len _ _); [|reflexivity]. cbn [rbind]. destruct (verify_ndarray_shape _ _); [|reflexivity]. cbn [rbind].
  pose proof (object_loop_full (pm_lattice s) (pm_numbers s) (s :: l)) as K. cbn [map] in K |- *. rewrite <- K. reflexivity.
Qed.
Lemma f_C94_dataset_error cast l pols o : In o l -> not_a_structure o -> exists e, construct_polarizability_dataset cast l pols = Err e.
Proof.
  intros Hin H. unfold construct_polarizability_dataset. cbn [verify_list_len rbind]. destruct (verify_ndarray_shape _ _) as [[]|e]; [|exists e; reflexivity]. cbn [rbind].
  destruct l as [|o0 l']; [destruct Hin|]. destruct (get_structure o0) as [[[m n] p]|e]; [|exists e; reflexivity]. cbn [rbind].
  assert (K : exists e, object_loop m n (o0 :: l') = Err e).
  { clear pols cast. induction (o0 :: l') as [|a l IH]; [destruct Hin|]. unfold object_loop in *. cbn [mapM].
    destruct Hin as [->|Hin].
    - destruct (get_lattice o) as [m1|] eqn:E1; cbn [rbind]; [|eauto]. destruct (M_Dataset.np_allclose _ _) as [[]|]; cbn [rbind negb]; eauto.
      destruct (get_atomic_numbers o) as [n1|] eqn:E2; cbn [rbind]; [|eauto]. destruct (negb _); cbn [rbind]; eauto.
      destruct (get_positions o) as [p1|] eqn:E3; cbn [rbind]; [|eauto]. exfalso.
      unfold get_lattice, get_atomic_numbers, get_positions in *. destruct o as [[[?|]|] [?|] [?|]]; cbn in *; try discriminate. eapply H. reflexivity.
    - match goal with |- context [rbind ?x _] => destruct x end; cbn [rbind]; [|eauto]. destruct (IH Hin) as (e & ->). cbn. eauto. }
  destruct K as (e & ->). cbn. eauto.
Qed.

(** ** Trajectories *)
Lemma rows_of_flat l : rows_of (flat_map (fun v => [vx v; vy v; vz v]) l) = l.
Proof. induction l as [|[x y z] l IH]; [reflexivity|]. cbn [flat_map List.app vx vy vz rows_of]. rewrite IH. reflexivity. Qed.
Lemma frames_of_flat n frames : Forall (fun f => List.length f = n) frames -> frames_of (List.length frames) n (List.concat frames) = frames.
Proof.
  induction 1 as [|f l Hf HF IH]; [reflexivity|]. cbn [List.length frames_of List.concat].
  rewrite firstn_app, skipn_app, Hf, Nat.sub_diag, firstn_O, app_nil_r. cbn [skipn]. rewrite <- Hf, firstn_all, skipn_all. cbn [List.app]. rewrite Hf, IH. reflexivity.
Qed.
Lemma flat_concat (frames : list (list V3)) : flat_map (flat_map (fun v => [vx v; vy v; vz v])) frames = flat_map (fun v => [vx v; vy v; vz v]) (List.concat frames).
Proof. induction frames as [|f l IH]; [reflexivity|]. cbn [flat_map List.concat]. rewrite IH, flat_map_app. reflexivity. Qed.
Lemma new_frames n frames dt : Forall (fun f => List.length f = n) frames -> 0 < dt ->
  new_trajectory (frames_array n frames) dt = Ok (mkTr (map apply_pbc frames) dt).
Proof.
  intros HF Hd. unfold new_trajectory, frames_array. cbn [ra_shape ra_data nth].
  unfold verify_ndarray_shape. cbn [List.length Nat.eqb negb dims_match rbind].
  destruct (Rleb dt 0) eqn:E; [apply Rleb_true in E; lra|]. rewrite flat_concat, rows_of_flat, frames_of_flat by exact HF. reflexivity.
Qed.
Lemma F2_map {A B} (R : A -> B -> Prop) f l : (forall a, R a (f a)) -> Forall2 R l (map f l).
Proof. intros H. induction l; constructor; auto. Qed.
Lemma f_C94_trajectory t n frames dt :
  pt_constant t = Some true -> pt_coords t = Some (frames_array n frames) -> Forall (fun f => List.length f = n) frames ->
  pt_displacement t = false -> 0 < dt ->
  exists tr, construct_trajectory t dt = Ok tr /\ tr_timestep tr = dt /\ Forall2 cell_images (frames_meant t frames) (tr_ts tr).
Proof.
  intros H1 H2 H3 H4 H5. unfold construct_trajectory. rewrite H1, H2, new_frames by assumption. eexists. split; [reflexivity|]. split; [reflexivity|].
  unfold frames_meant. rewrite H4. cbn [tr_ts]. apply F2_map. intros f. apply apply_pbc_spec. reflexivity.
Qed.
Lemma f_C94_trajectory_error t dt :
  (pt_constant t = None -> construct_trajectory t dt = Err TypeError) /\
  (pt_constant t = Some false -> construct_trajectory t dt = Err ValueError) /\
  (pt_constant t = Some true -> pt_coords t = None -> construct_trajectory t dt = Err AttributeError) /\
  (forall c, pt_constant t = Some true -> pt_coords t = Some c ->
     dt <= 0 \/ List.length (ra_shape c) <> 3%nat \/ nth 2 (ra_shape c) 0%nat <> 3%nat -> construct_trajectory t dt = Err ValueError).
Proof.
  unfold construct_trajectory. split; [|split; [|split]].
  - intros ->. reflexivity.
  - intros ->. reflexivity.
  - intros -> ->. reflexivity.
  - intros c -> -> H. apply f_C75_reject. exact H.
Qed.
Lemma f_C94_displacements_refuted : ~ forall t n frames dt tr,
  pt_coords t = Some (frames_array n frames) -> Forall (fun f => List.length f = n) frames -> List.length (pt_base t) = n ->
  construct_trajectory t dt = Ok tr -> Forall2 cell_images (frames_meant t frames) (tr_ts tr).
Proof.
  intros G. set (fr := [[v0]; [mkV (1/4) 0 0]; [mkV (1/4) 0 0]]).
  set (t := mkTraj (Some true) (Some (frames_array 1 fr)) true [v0]).
  assert (F : Forall (fun f : list V3 => List.length f = 1%nat) fr) by (repeat constructor).
  assert (E : construct_trajectory t 1 = Ok (mkTr (map apply_pbc fr) 1)).
  { unfold construct_trajectory, t. cbn [pt_constant pt_coords]. apply new_frames; [exact F|lra]. }
  pose proof (G t 1%nat fr 1 _ eq_refl F eq_refl E) as K. cbn [tr_ts] in K. unfold frames_meant, t, fr in K. cbn [pt_displacement pt_base running combine map fst snd] in K.
  inversion K as [|? ? ? ? _ K1]; subst. inversion K1 as [|? ? ? ? _ K2]; subst. inversion K2 as [|? ? ? ? K3 _]; subst.
  apply apply_pbc_spec in K3. unfold apply_pbc in K3. cbn [map] in K3. injection K3 as K3. 
  assert (W : forall x, 0 <= x < 1 -> wrap x = x). { intros x Hx. pose proof (wrap_image x) as ((k & Hk) & Hr). assert (k = 0)%Z as ->; [|cbn in Hk; lra]. assert (-1 < IZR k < 1) as [Ha Hb] by lra. apply (lt_IZR (-1) k) in Ha; apply (lt_IZR k 1) in Hb. lia. }
  rewrite !W in K3 by lra. lra.
Qed.

(** ** Additions *)
Lemma object_amplitudes_full s l ps : Forall2 (fun o p => ob_coords o = Some p) l ps ->
  object_amplitudes true s l = displacement_amplitudes s ps.
Proof.
  intros H. unfold object_amplitudes, displacement_amplitudes. cbn [negb]. 
  assert (E : mapM (object_displacement s) l = mapM (fun p => match calc_displacement (rs_positions (im_ref s)) p with Ok d => Ok d | Err e => if is_value_error e then Err InvalidDOFException else Err e end) ps).
  { induction H as [|o p l ps Ho HF IH]; [reflexivity|]. cbn [mapM]. unfold object_displacement at 1, get_positions. rewrite Ho. cbn [rbind]. rewrite IH. reflexivity. }
  rewrite E. reflexivity.
Qed.
Lemma f_C94_additions l ps pols order mats s : Forall2 (fun o p => ob_coords o = Some p) l ps ->
  add_dof_from_objects true l pols order s = add_dof_from_pymatgen ps pols order s /\
  add_art_from_objects true l mats s = add_art_from_pymatgen ps mats s.
Proof.
  intros H. unfold add_dof_from_objects, add_dof_from_pymatgen, add_art_from_objects, add_art_from_pymatgen. rewrite !bind_get. cbn [negb verify_list_len].
  rewrite bind_lift, !(object_amplitudes_full s l ps H). split; reflexivity.
Qed.
Lemma f_C94_images l l' pols order mats s : Forall2 same_coordinates l l' ->
  add_dof_from_objects true l pols order s = add_dof_from_objects true l' pols order s /\
  add_art_from_objects true l mats s = add_art_from_objects true l' mats s.
Proof.
  intros H. unfold add_dof_from_objects, add_art_from_objects. rewrite !bind_get. cbn [negb verify_list_len]. rewrite !bind_lift.
  assert (E : mapM (object_displacement s) l = mapM (object_displacement s) l').
  { induction H as [|o o' l l' (p & p' & Ho & Ho' & HP) HF IH]; [reflexivity|]. cbn [mapM]. unfold object_displacement at 1 3, get_positions. rewrite Ho, Ho'. cbn [rbind].
    assert (C : calc_displacement (rs_positions (im_ref s)) p = calc_displacement (rs_positions (im_ref s)) p').
    { unfold calc_displacement. rewrite (apply_pbc_proper p p' HP). reflexivity. }
    rewrite C, IH. reflexivity. }
  unfold object_amplitudes. cbn [negb]. rewrite E. split; reflexivity.
Qed.
Lemma f_C94_missing present l o pols order mats s : In o l -> ob_coords o = None \/ present = false ->
  (exists e, add_dof_from_objects present l pols order s = ((s, []), Err e)) /\ (exists e, add_art_from_objects present l mats s = ((s, []), Err e)).
Proof.
  intros Hin H. unfold add_dof_from_objects, add_art_from_objects. rewrite !bind_get. destruct present; cbn [negb].
  2: { split; eexists; reflexivity. }
  destruct H as [H|H]; [|discriminate]. cbn [verify_list_len]. rewrite bind_lift.
  assert (K : exists e, object_amplitudes true s l = Err e).
  { unfold object_amplitudes. cbn [negb]. assert (K : exists e, mapM (object_displacement s) l = Err e).
    { induction l as [|a l IH]; [destruct Hin|]. cbn [mapM]. destruct Hin as [->|Hin].
      - unfold object_displacement at 1, get_positions. rewrite H. cbn. eauto.
      - destruct (object_displacement s a); cbn [rbind]; [|eauto]. destruct (IH Hin) as (e & ->). cbn. eauto. }
    destruct K as (e & ->). cbn. eauto. }
  destruct K as (e & ->). rewrite !bind_lift_err. eauto.
Qed.
