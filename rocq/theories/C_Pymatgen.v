(** Theorems about structures and trajectories handed over by pymatgen: C94. *)
From Coq Require Import String ZArith Reals List.
From Verif Require Import M_Dataset.
From Verif Require Import Base LinAlg M_Validate M_StructUtils M_Symmetry M_Reference M_Interp M_Art M_Spectrum M_Dynamics M_Pymatgen
  S_Lattice S_Vec S_Interp S_Dataset S_Pymatgen P_Examples1 P_Pymatgen P_Pymatgen2.
Import ListNotations.
Local Open Scope R_scope.

(** C94: what is read from an object, and which objects are rejected. *)
Theorem C94_structure : forall o m n p, get_structure o = Ok (m, n, p) <-> o = structure m n p.
Proof. exact f_C94_structure. Qed.
Print Assumptions C94_structure.
Theorem C94_structure_error : forall o, get_structure o = Err TypeError <-> not_a_structure o.
Proof. exact f_C94_structure_error. Qed.
Print Assumptions C94_structure_error.

(** C94: reference structures. *)
Theorem C94_reference : forall m n p ops equiv,
  Forall (vall (fun x => 0 <= x <= 1)) p -> List.length p = List.length n ->
  exists r, construct_ref_structure (structure m n p) (Some (ops, equiv)) = Ok r /\
    rs_lattice r = m /\ rs_numbers r = n /\ rs_positions r = p /\ rs_ops r = ops.
Proof. exact f_C94_reference. Qed.
Print Assumptions C94_reference.
Theorem C94_reference_sound : forall o sym r, construct_ref_structure o sym = Ok r ->
  exists p, o = structure (rs_lattice r) (rs_numbers r) p /\ rs_positions r = p /\ List.length p = List.length (rs_numbers r) /\
    (rs_ops r <> [] -> Forall (vall (fun x => 0 <= x <= 1)) p).
Proof. exact f_C94_reference_sound. Qed.
Print Assumptions C94_reference_sound.
(** Coordinates outside the cell, which pymatgen allows, are rejected ... *)
Theorem C94_outside : forall m n p op ops equiv, ~ Forall (vall (fun x => 0 <= x <= 1)) p ->
  construct_ref_structure (structure m n p) (Some (op :: ops, equiv)) = Err ValueError.
Proof. exact f_C94_outside. Qed.
Print Assumptions C94_outside.
(** ... so that success depends on the periodic images the caller happened to choose. *)
Theorem C94_images_refuted : ~ forall m n p p' sym r, same_mod_lattice p p' ->
  construct_ref_structure (structure m n p) sym = Ok r -> exists r', construct_ref_structure (structure m n p') sym = Ok r'.
Proof. exact f_C94_images_refuted. Qed.
Print Assumptions C94_images_refuted.

(** C94: datasets. *)
Theorem C94_dataset : forall cast s l ts, Forall pm_formed (s :: l) -> List.length ts = List.length (s :: l) ->
  let objs := map (fun s' => structure (pm_lattice s') (pm_numbers s') (pm_positions s')) (s :: l) in
  (Forall (fun s' => lattice_close (pm_lattice s') (pm_lattice s) /\ pm_numbers s' = pm_numbers s) (s :: l) ->
     exists d, construct_polarizability_dataset cast objs (tensors ts) = Ok d /\
       ds_lattice d = cast_all cast (tensor (pm_lattice s)) /\ ds_numbers d = pm_numbers s /\
       ds_positions d = cast_all cast (frames (List.length (pm_numbers s)) (map pm_positions (s :: l))) /\ ds_raw d = tensors ts) /\
  (~ Forall (fun s' => lattice_close (pm_lattice s') (pm_lattice s) /\ pm_numbers s' = pm_numbers s) (s :: l) ->
     construct_polarizability_dataset cast objs (tensors ts) = Err IncompatibleStructureException).
Proof. exact f_C94_dataset_content. Qed.
Print Assumptions C94_dataset.
Theorem C94_dataset_error : forall cast l pols o, In o l -> not_a_structure o ->
  exists e, construct_polarizability_dataset cast l pols = Err e.
Proof. exact f_C94_dataset_error. Qed.
Print Assumptions C94_dataset_error.

(** C94: trajectories of positions. *)
Theorem C94_trajectory : forall t n frames dt,
  pt_constant t = Some true -> pt_coords t = Some (frames_array n frames) -> Forall (fun f => List.length f = n) frames ->
  pt_displacement t = false -> 0 < dt ->
  exists tr, construct_trajectory t dt = Ok tr /\ tr_timestep tr = dt /\ Forall2 cell_images (frames_meant t frames) (tr_ts tr).
Proof. exact f_C94_trajectory. Qed.
Print Assumptions C94_trajectory.
Theorem C94_trajectory_error : forall t dt,
  (pt_constant t = None -> construct_trajectory t dt = Err TypeError) /\
  (pt_constant t = Some false -> construct_trajectory t dt = Err ValueError) /\
  (pt_constant t = Some true -> pt_coords t = None -> construct_trajectory t dt = Err AttributeError) /\
  (forall c, pt_constant t = Some true -> pt_coords t = Some c ->
     dt <= 0 \/ List.length (ra_shape c) <> 3%nat \/ nth 2 (ra_shape c) 0%nat <> 3%nat -> construct_trajectory t dt = Err ValueError).
Proof. exact f_C94_trajectory_error. Qed.
Print Assumptions C94_trajectory_error.
(** Trajectories of displacements, a mode of pymatgen's, are misread as positions. *)
Theorem C94_displacements_refuted : ~ forall t n frames dt tr,
  pt_coords t = Some (frames_array n frames) -> Forall (fun f => List.length f = n) frames -> List.length (pt_base t) = n ->
  construct_trajectory t dt = Ok tr -> Forall2 cell_images (frames_meant t frames) (tr_ts tr).
Proof. exact f_C94_displacements_refuted. Qed.
Print Assumptions C94_displacements_refuted.

(** C94: adding degrees of freedom and ART tensors from structures does what reading the same
    coordinates and polarizabilities from files does. *)
Theorem C94_files : forall l ps qs order s, Forall2 (fun o p => ob_coords o = Some p) l ps -> List.length ps = List.length qs ->
  add_dof_from_objects true l (mats_arr qs) order s = add_dof_from_files (map Ok (combine ps qs)) order s /\
  (im_dummy s = false -> add_art_from_objects true l qs s = add_art_from_files (map Ok (combine ps qs)) s).
Proof. exact f_C94_files. Qed.
Print Assumptions C94_files.
(** Only the coordinates modulo lattice vectors matter ... *)
Theorem C94_images : forall l l' pols order mats s, Forall2 same_coordinates l l' ->
  add_dof_from_objects true l pols order s = add_dof_from_objects true l' pols order s /\
  add_art_from_objects true l mats s = add_art_from_objects true l' mats s.
Proof. exact f_C94_images. Qed.
Print Assumptions C94_images.
(** ... so that structures of another material are accepted. *)
Theorem C94_material_refuted : exists numbers m pos sym r s' w l,
  make_reference numbers m pos (Some sym) = Ok r /\ identity_first r [] /\
  Forall (fun o => exists m' n' p, o = structure m' n' p /\ m' <> m /\ forall x, In x n' -> ~ In x numbers) l /\
  add_dof_from_objects true l (mats_arr [mI; mI]) 1 (make_model r mI false) = ((s', w), Ok tt) /\
  im_basis s' <> [].
Proof. exact f_C94_material_refuted. Qed.
Print Assumptions C94_material_refuted.
(** An object without coordinates, or pymatgen missing, is an error that leaves the model as it was. *)
Theorem C94_missing : forall l o pols order mats s, In o l ->
  (ob_coords o = None -> exists e, (e = TypeError \/ e = InvalidDOFException) /\
     add_dof_from_objects true l pols order s = ((s, []), Err e) /\ add_art_from_objects true l mats s = ((s, []), Err e)) /\
  (add_dof_from_objects false l pols order s = ((s, []), Err UserError) /\ add_art_from_objects false l mats s = ((s, []), Err UserError)).
Proof. exact f_C94_missing_exact. Qed.
Print Assumptions C94_missing.

Example C94_nonvacuous : exists r : refstruct,
  Forall (vall (fun x => 0 <= x <= 1)) ex_pos /\ List.length ex_pos = List.length [8%Z; 14%Z] /\
  construct_ref_structure (structure ex_lat [8%Z; 14%Z] ex_pos) (Some ([(mI, v0)], [0%nat; 1%nat])) = Ok r /\
  not_a_structure (mkObj None (Some ex_pos) (Some [8%Z; 14%Z])) /\
  ~ Forall (vall (fun x => 0 <= x <= 1)) [mkV (- / 10) 0 0] /\
  same_coordinates (structure ex_lat [8%Z; 14%Z] ex_pos) (structure mI [92%Z; 1%Z] [mkV (5/4) 0 (-3); mkV (3/4) 0 0]).
Proof. exact ex_C94. Qed.
Example C94_trajectory_nonvacuous : let fr := [[v0; mkV (/ 4) 0 0]; [mkV 1 0 0; mkV (1 / 3) 0 (5 / 4)]] in
  let t := mkTraj (Some true) (Some (frames_array 2 fr)) false [] in
  pt_constant t = Some true /\ pt_coords t = Some (frames_array 2 fr) /\ Forall (fun f => List.length f = 2%nat) fr /\
  pt_displacement t = false /\ 0 < 1.
Proof. exact ex_C94_trajectory. Qed.
