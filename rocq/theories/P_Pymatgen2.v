(** Files and pymatgen structures; a structure of another material: C94 *)
From Coq Require Import String ZArith Reals Lra Lia Bool Arith List.
From Verif Require Import M_Dataset.
From Verif Require Import Base LinAlg M_Validate M_StructUtils M_Symmetry M_Reference M_Interp M_Art M_Spectrum M_Dynamics M_Pymatgen
  S_Lattice S_Vec S_Symmetry S_Interp S_Dataset S_Pymatgen P_StructUtils P_Symmetry P_Equivalent P_Equiv3 P_StructFinal P_Dynamics P_Interp P_Interp2 P_Interp3 P_Interp4 P_Interp5 P_Interp6 P_Interp7
  P_Displace P_Examples1 P_Examples2 P_Examples12 P_Images P_Images2 P_Workflow P_Dataset3 P_Pymatgen.
Import ListNotations.
Local Open Scope R_scope.

Lemma reads_displacements s qs pols : List.length qs = List.length pols ->
  mapM (read_one s) (map Ok (combine qs pols)) =
    rmap (fun ds => combine ds (if im_dummy s then map (fun _ => m0) pols else pols))
      (mapM (fun p => match calc_displacement (rs_positions (im_ref s)) p with
                            | Ok d => Ok d
                            | Err e => if is_value_error e then Err InvalidDOFException else Err e
                            end) qs) /\
    forall ds, mapM (fun p => match calc_displacement (rs_positions (im_ref s)) p with
                            | Ok d => Ok d
                            | Err e => if is_value_error e then Err InvalidDOFException else Err e
                            end) qs = Ok ds -> List.length ds = List.length pols.
Proof.
  revert pols. induction qs as [|q qs IH]; intros [|p pols] Lq; try discriminate.
  - split; [destruct (im_dummy s); reflexivity|intros ds [= <-]; reflexivity].
  - destruct (IH pols) as [I1 I2]; [now injection Lq|]. cbn [combine map mapM]. unfold read_one at 1. cbn [rbind fst snd].
    destruct (calc_displacement (rs_positions (im_ref s)) q) as [x|e]; cbn [rbind].
    + rewrite I1. destruct (mapM _ qs) as [ds|e]; cbn [rmap rbind].
      * split; [destruct (im_dummy s); reflexivity|]. intros ds' [= <-]. cbn. f_equal. now apply I2.
      * split; [reflexivity|discriminate].
    + destruct (is_value_error e); cbn [rbind]; (split; [reflexivity|discriminate]).
Qed.

(** The same positions and polarizabilities, read from files or taken from structures *)
Lemma f_C94_files l ps qs order s : Forall2 (fun o p => ob_coords o = Some p) l ps -> List.length ps = List.length qs ->
  add_dof_from_objects true l (mats_arr qs) order s = add_dof_from_files (map Ok (combine ps qs)) order s /\
  (im_dummy s = false -> add_art_from_objects true l qs s = add_art_from_files (map Ok (combine ps qs)) s).
Proof.
  intros H Lq. destruct (f_C94_additions l ps (mats_arr qs) order qs s H) as (-> & ->).
  destruct (reads_displacements s ps qs Lq) as (HD & HL).
  unfold add_dof_from_pymatgen, add_dof_from_files, add_art_from_pymatgen, add_art_from_files. rewrite !bind_get.
  unfold read_dof, displacement_amplitudes. rewrite HD.
  destruct (mapM (fun p => match calc_displacement (rs_positions (im_ref s)) p with Ok d => Ok d | Err e => if is_value_error e then Err InvalidDOFException else Err e end) ps) as [ds|e]; cbn [rmap rbind]; [|split; reflexivity].
  specialize (HL ds eq_refl).
  rewrite map_fst_combine, map_snd_combine by (destruct (im_dummy s); rewrite ?map_length; exact HL).
  destruct (amplitudes_of s ds) as [[d0 am]|e]; cbn [rbind]; [|split; reflexivity].
  rewrite !bind_lift. cbn [fst snd]. split.
  - destruct (im_dummy s) eqn:Es; [|reflexivity]. now apply add_dof_dummy.
  - intros ->. reflexivity.
Qed.

(** Quartz-like cell with identity lattice; the structures handed in are of another material *)
Definition am : list R := [/ 10; - / 10].
Definition foreign (p : list V3) : pyobj := structure (mscale 7 mI) [92%Z; 1%Z] p.
Lemma lone_reference : exists r, make_reference [8%Z; 14%Z] mI ex_pos (Some ([(mI, v0)], [0%nat; 1%nat])) = Ok r /\
  identity_first r [] /\ rs_lattice r = mI /\ rs_positions r = ex_pos /\ rs_numbers r = [8%Z; 14%Z].
Proof.
  destruct (f_C07c [8%Z; 14%Z] mI ex_pos [(mI, v0)] [0%nat; 1%nat] ex_pos_ok eq_refl) as (r & H & H1 & H2 & H3 & H4).
  exists r. split; [exact H|]. split; [|auto]. exists [8%Z; 14%Z], mI, ex_pos, [0%nat; 1%nat]. split; [auto|].
  split; [simpl; lia|apply ex_separated].
Qed.
Lemma d1_norm : rows_norm ex_d1 = / 10.
Proof. apply norm_tenth. unfold ex_d1, rows_norm2, rows_dot. vunf. lra. Qed.

Lemma f_C94_material_refuted : exists numbers m pos sym r s' w l,
  make_reference numbers m pos (Some sym) = Ok r /\ identity_first r [] /\
  Forall (fun o => exists m' n' p, o = structure m' n' p /\ m' <> m /\ forall x, In x n' -> ~ In x numbers) l /\
  add_dof_from_objects true l (mats_arr [mI; mI]) 1 (make_model r mI false) = ((s', w), Ok tt) /\
  im_basis s' <> [].
Proof.
  destruct lone_reference as (r & Hm & Hi & HL & Hp & _).
  set (s0 := make_model r mI false).
  assert (I0: inv s0) by (apply make_model_inv, valid_reference_wf; eapply identity_first_valid; eauto).
  assert (D1 : mdet (rs_lattice r) <> 0) by (rewrite HL, mdet_mI; lra).
  assert (Ll : List.length ex_d1 = List.length (rs_positions r)) by now rewrite Hp.
  assert (Hn : exists v, In v ex_d1 /\ v <> v0).
  { exists (mkV (/10) 0 0). split; [left; reflexivity|]. intros H. apply (f_equal vx) in H. cbn in H. lra. }
  destruct (f_C55_positions r ex_d1 am D1 Ll Hn) as (qs & Hq & _).
  pose proof (f_C77_pymatgen ex_d1 (/ 10) [- / 10] [mI; mI] qs 1 s0) as E. cbn [im_ref s0 make_model] in E.
  assert (Ed : ex_d1 = rows_mul ex_d1 (rs_lattice (im_ref s0))) by (cbn [im_ref s0 make_model]; rewrite HL, rows_mul_mI; reflexivity).
  pose proof (add_dof_lone s0 ex_d1 am [mI; mI] 1 true Hi I0 eq_refl D1 Ll ex_d1_half) as A. cbv zeta in A.
  rewrite <- Ed in A.
  do 2 eexists. exists ex_pos, ([(mI, v0)], [0%nat; 1%nat]), r. do 2 eexists. exists (map foreign qs).
  split; [exact Hm|]. split; [exact Hi|]. split; [|split].
  - apply Forall_forall. intros o Ho. apply in_map_iff in Ho as (p & <- & _). exists (mscale 7 mI), [92%Z; 1%Z], p.
    split; [reflexivity|]. split.
    + intros K. apply (f_equal (fun M => vx (r0 M))) in K. cbn in K. lra.
    + intros x [<- | [<- | []]] [K | [K | []]]; discriminate.
  - fold s0. destruct (f_C94_additions (map foreign qs) qs (mats_arr [mI; mI]) 1 [mI; mI] s0) as (-> & _).
    { clear. induction qs; constructor; auto. }
    rewrite E; auto.
    + apply A; auto.
      * rewrite d1_norm. lra.
      * intros b [].
      * lia.
      * cbn [combine am map List.app fst]. unfold spaced, too_close. repeat split; auto; simpl; intros y H;
        repeat (destruct H as [<-|H]); try tauto; unfold Rabs; repeat destruct (Rcase_abs _); lra.
      * cbn. lia.
    + lra.
    + constructor; [lra|constructor].
    + intros x Hx. rewrite HL, rows_mul_mI in Hx. rewrite Hx. exact ex_d1_half.
    + intros a x Ha Hx. rewrite HL, rows_mul_mI in Hx. rewrite Hx. unfold direction_of. rewrite magnitude_rows, d1_norm.
      destruct Ha as [<- | [<- | []]]; repeat apply Forall_cons; try apply Forall_nil; unfold vall; cbn [vscale vx vy vz ex_d1 v0]; lra.
  - cbn [appended im_basis]. discriminate.
Qed.

Lemma object_displacement_err s o e : object_displacement s o = Err e -> e = TypeError \/ e = InvalidDOFException.
Proof.
  unfold object_displacement, get_positions. destruct (ob_coords o); cbn [rbind]; [|intros [= <-]; auto].
  assert (K : forall p q x, calc_displacement p q = Err x -> x = ValueError).
  { intros p q x. unfold calc_displacement, bcast2. destruct (Nat.eqb _ _); [discriminate|].
    destruct (apply_pbc q) as [|a [|b c]], (apply_pbc p) as [|a' [|b' c']]; cbn [rbind]; congruence. }
  destruct (calc_displacement _ _) as [d|x] eqn:E; [discriminate|]. rewrite (K _ _ _ E). cbn [is_value_error]. intros [= <-]. auto.
Qed.
Lemma f_C94_missing_exact l o pols order mats s : In o l ->
  (ob_coords o = None -> exists e, (e = TypeError \/ e = InvalidDOFException) /\
     add_dof_from_objects true l pols order s = ((s, []), Err e) /\ add_art_from_objects true l mats s = ((s, []), Err e)) /\
  (add_dof_from_objects false l pols order s = ((s, []), Err UserError) /\ add_art_from_objects false l mats s = ((s, []), Err UserError)).
Proof.
  intros Hin. split; [|split; reflexivity]. intros H.
  assert (K : exists e, (e = TypeError \/ e = InvalidDOFException) /\ mapM (object_displacement s) l = Err e).
  { induction l as [|a l IH]; [destruct Hin|]. cbn [mapM].
    destruct (object_displacement s a) eqn:E; cbn [rbind]; [|eauto using object_displacement_err].
    destruct Hin as [->|Hin].
    - unfold object_displacement, get_positions in E. rewrite H in E. discriminate.
    - destruct (IH Hin) as (e & He & ->). cbn. eauto. }
  destruct K as (e & He & K). exists e. split; [exact He|].
  unfold add_dof_from_objects, add_art_from_objects, object_amplitudes. rewrite !bind_get. cbn [negb verify_list_len]. rewrite bind_lift, K. cbn [rbind].
  rewrite !bind_lift_err. auto.
Qed.

Lemma f_C94_dataset_content cast s l ts : Forall pm_formed (s :: l) -> List.length ts = List.length (s :: l) ->
  let objs := map (fun s' => structure (pm_lattice s') (pm_numbers s') (pm_positions s')) (s :: l) in
  (Forall (fun s' => lattice_close (pm_lattice s') (pm_lattice s) /\ pm_numbers s' = pm_numbers s) (s :: l) ->
     exists d, construct_polarizability_dataset cast objs (tensors ts) = Ok d /\
       ds_lattice d = cast_all cast (tensor (pm_lattice s)) /\ ds_numbers d = pm_numbers s /\
       ds_positions d = cast_all cast (frames (List.length (pm_numbers s)) (map pm_positions (s :: l))) /\ ds_raw d = tensors ts) /\
  (~ Forall (fun s' => lattice_close (pm_lattice s') (pm_lattice s) /\ pm_numbers s' = pm_numbers s) (s :: l) ->
     construct_polarizability_dataset cast objs (tensors ts) = Err IncompatibleStructureException).
Proof. intros W Hn objs. unfold objs. rewrite f_C94_dataset. exact (f_C64_pymatgen cast s l ts W Hn). Qed.

(** Examples *)
Lemma ex_C94 : exists r : refstruct,
  Forall (vall (fun x => 0 <= x <= 1)) ex_pos /\ List.length ex_pos = List.length [8%Z; 14%Z] /\
  construct_ref_structure (structure ex_lat [8%Z; 14%Z] ex_pos) (Some ([(mI, v0)], [0%nat; 1%nat])) = Ok r /\
  not_a_structure (mkObj None (Some ex_pos) (Some [8%Z; 14%Z])) /\
  ~ Forall (vall (fun x => 0 <= x <= 1)) [mkV (- / 10) 0 0] /\
  same_coordinates (structure ex_lat [8%Z; 14%Z] ex_pos) (structure mI [92%Z; 1%Z] [mkV (5/4) 0 (-3); mkV (3/4) 0 0]).
Proof.
  destruct (f_C94_reference ex_lat [8%Z; 14%Z] ex_pos [(mI, v0)] [0%nat; 1%nat] ex_pos_ok eq_refl) as (r & E & _).
  exists r. split; [exact ex_pos_ok|]. split; [reflexivity|]. split; [exact E|]. split; [intros m n p; discriminate|]. split.
  - intros F. apply Forall_inv in F. unfold vall in F. cbn in F. lra.
  - do 2 eexists. split; [reflexivity|]. split; [reflexivity|]. constructor; [|constructor; [|constructor]].
    + split; [exists (-1)%Z; cbn; lra|split; [exists 0%Z; cbn; lra|exists 3%Z; cbn; lra]].
    + split; [exists 0%Z; cbn; lra|split; exists 0%Z; cbn; lra].
Qed.
Lemma ex_C94_trajectory : let fr := [[v0; mkV (/ 4) 0 0]; [mkV 1 0 0; mkV (1 / 3) 0 (5 / 4)]] in
  let t := mkTraj (Some true) (Some (frames_array 2 fr)) false [] in
  pt_constant t = Some true /\ pt_coords t = Some (frames_array 2 fr) /\ Forall (fun f => List.length f = 2%nat) fr /\
  pt_displacement t = false /\ 0 < 1.
Proof. cbn. repeat split; try reflexivity; [repeat constructor|lra]. Qed.
