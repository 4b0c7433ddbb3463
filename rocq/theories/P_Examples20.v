(** Cases of C77 for ART models: a crystal without symmetry, where the structures written by the
    library and the direct call agree, and an atom on a twofold axis, where they do not. *)
From Coq Require Import String ZArith Reals Lra Lia Psatz Bool Arith List Permutation.
From Verif Require Import Base LinAlg M_Validate M_StructUtils M_Symmetry M_Reference M_Interp M_Art M_Displace
  S_Lattice S_Vec S_Symmetry S_Equivalent S_Interp S_Displace S_Images S_Response P_StructUtils P_Symmetry P_Equivalent P_Equiv2 P_Equiv3 P_EquivTotal
  P_StructFinal P_Examples1
  P_Interp P_Interp2 P_InterpEval P_Interp3 P_Interp4 P_Interp5 P_Interp6 P_Interp7 P_Examples2 P_Art P_Art2 P_Examples3 P_Images P_Images2 P_Displace P_Workflow P_Workflow2
  P_Response2 P_Response3 P_Examples12 P_Order P_Order2 P_Examples16 P_Atoms P_Atoms2 P_Atoms3 P_Atoms4 S_Order S_Atoms P_Examples18.
Import ListNotations.
Local Open Scope R_scope.

Definition art_dir : V3 := mkV (/ 5) 0 0.

Lemma art_dir_nz : art_dir <> v0.
Proof. unfold art_dir, v0. intros E. apply (f_equal vx) in E. cbn in E. lra. Qed.
Lemma art_dir_norm : vnorm art_dir = / 5.
Proof. unfold vnorm, art_dir. replace (vnorm2 _) with (/ 5 * / 5) by (vunf; ring). rewrite sqrt_square; lra. Qed.

Lemma ex_C77_art : exists s qs s' w,
  let r := im_ref s in
  valid_reference r /\ mdet (rs_lattice r) <> 0 /\ art_dir <> v0 /\
  (forall x, vmul x (rs_lattice r) = art_dir -> half_cell [x]) /\
  (forall a x, In a [/ 10; - / 10] -> vmul x (rs_lattice r) = vscale (a / vnorm art_dir) art_dir -> half_cell [x]) /\
  get_ast_displaced_positions r 0%Z art_dir (Some [/ 10; - / 10]) = Ok (map Fin qs) /\
  add_art_from_files (map Ok (combine qs [mI; mscale 2 mI])) s = ((s', w), Ok tt) /\ s' <> s.
Proof.
  destruct ex2_reference as (r & Hi & HL & Hp). set (s := make_model r m0 false).
  assert (Hv : valid_reference r) by (eapply identity_first_valid; eauto).
  assert (I0: inv s) by (apply make_model_inv, valid_reference_wf; auto).
  assert (Hdet : mdet (rs_lattice r) <> 0) by (rewrite HL; apply ex_det).
  assert (Hx : forall c x, Rabs c <= / 5 -> vmul x ex_lat = mkV c 0 0 -> half_cell [x]).
  { intros c [x y z] Hc E. unfold ex_lat in E.
    assert (E1 := f_equal vx E). assert (E2 := f_equal vy E). assert (E3 := f_equal vz E). clear E. cbn in E1, E2, E3. ring_simplify in E1; ring_simplify in E2; ring_simplify in E3.
    constructor; [|constructor]. unfold vall; cbn. revert Hc; unfold Rabs; destruct (Rcase_abs c); intros; repeat split; lra. }
  destruct (f_C55_ast r 0%Z 0 art_dir [/ 10; - / 10] Hdet art_dir_nz) as (qs & Hq & _); [rewrite Hp; cbn; lia|now left|].
  assert (H1 : forall x, vmul x (rs_lattice r) = art_dir -> half_cell [x]).
  { rewrite HL. intros x E. apply (Hx (/ 5)); [rewrite Rabs_right; lra|exact E]. }
  assert (H2 : forall a x, In a [/ 10; - / 10] -> vmul x (rs_lattice r) = vscale (a / vnorm art_dir) art_dir -> half_cell [x]).
  { rewrite HL, art_dir_norm. intros a x Ha E. apply (Hx a).
    - destruct Ha as [<-|[<-|[]]]; rewrite ?Rabs_Ropp, Rabs_right; lra.
    - rewrite E. unfold art_dir, vscale; cbn. f_equal; field. }
  assert (Hf : vmul (mkV (/ 10) 0 0) (rs_lattice r) = art_dir) by (rewrite HL; unfold ex_lat, art_dir; vunf; f_equal; lra).
  destruct (add_art_lone s 0 (mkV (/ 10) 0 0) (/ 10) (- / 10) mI (mscale 2 mI)) as (ps & w & Eps & A); auto.
  { cbn. rewrite Hp. cbn. lia. }
  { intros E. apply (f_equal vx) in E. cbn in E. lra. }
  { cbn. tauto. }
  { unfold spaced, too_close. repeat split; auto; simpl; intros z Hz;
    repeat (destruct Hz as [<-|Hz]); try tauto; unfold Rabs; repeat destruct (Rcase_abs _); lra. }
  cbn [make_model s im_ref] in A. fold s in A. rewrite Hf in A.
  destruct (f_C77_art s 0%Z art_dir (/ 10) [- / 10] [mI; mscale 2 mI] qs) as (_ & B & _); auto.
  { exact art_dir_nz. } { lra. } { repeat constructor; lra. }
  destruct (B _ _ A) as [B1|(_ & B1)].
  - exists s, qs. do 2 eexists. cbv zeta. repeat (split; [first [exact Hv|exact Hdet|exact art_dir_nz|exact H1|exact H2|exact Hq]|]).
    split; [rewrite B1; exact A|]. intros E. apply (f_equal (fun s => List.length (im_basis s))) in E. cbn in E. discriminate.
  - exfalso. destruct (B1 eq_refl) as (sp & sps & E & L). cbn in E. injection E as <- _. cbn [sp_pts] in L. rewrite sort_pts_length, Eps in L. cbn in L. lia.
Qed.

(** ** An atom on a twofold axis *)
Definition lone_x (x : R) : list V3 := [mkV x 0 0].
Lemma lone_norm : rows_norm2 (lone_x (/ 10)) = / 100.
Proof. unfold lone_x, rows_norm2, rows_dot. vunf. lra. Qed.
Lemma lone_norm' : rows_norm2 (lone_x (- / 10)) = / 100.
Proof. unfold lone_x, rows_norm2, rows_dot. vunf. lra. Qed.
Lemma lone_half : half_cell (lone_x (/ 10)).
Proof. apply half_cell_small. rewrite lone_norm. lra. Qed.
Lemma lone_symmetry : row_symmetry one_pos c2 v0 (fun b => b).
Proof.
  split; [|split].
  - unfold c2. repeat split; simpl; try (exists 0%Z; reflexivity); try (exists 1%Z; reflexivity); exists (-1)%Z; simpl; lra.
  - split; [|split]; auto. intros b Hb. exists b. auto.
  - intros [|b] H; simpl in *; [|lia]; unfold vcongr, c2; vunf. split; [exists 0%Z|split; [exists 0%Z|exists 0%Z]]; lra.
Qed.

Section Axis.
Context (r : refstruct) (H : make_reference [8%Z] mI one_pos (Some (axis_ops, [0%nat])) = Ok r).
Let tied := lone_x (/ 10).
Let coll := lone_x (- / 10).
Lemma lx_parts : rs_positions r = one_pos /\ rs_lattice r = mI /\ rs_ops r = axis_ops.
Proof. apply make_reference_ops in H. tauto. Qed.
Lemma lx_first : identity_first r [(c2, v0)].
Proof. exists [8%Z], mI, one_pos, [0%nat]. split; [exact H|]. split; [cbn; lia|apply one_separated]. Qed.
Lemma lx_perms : combine (rs_ops r) (rs_perms r) = [((mI, v0), perm_matrix 1 (fun b => b)); ((c2, v0), perm_matrix 1 (fun b => b))].
Proof.
  pose proof H as H'. pose proof lx_first as Hi. apply identity_first_ok in Hi. destruct lx_parts as (Ep & _). rewrite Ep in Hi.
  apply make_reference_ops in H' as (E1 & _ & _ & _ & _ & Ec). rewrite E1.
  unfold compute_permutation_matrices, axis_ops in Ec. cbn [mapM] in Ec.
  rewrite (permutation_matrix_correct one_pos mI v0 (fun b => b) Hi (id_row_symmetry one_pos) one_separated) in Ec.
  rewrite (permutation_matrix_correct one_pos c2 v0 (fun b => b) Hi lone_symmetry one_separated) in Ec.
  cbn [rbind] in Ec. injection Ec as <-. reflexivity.
Qed.
Lemma lx_groups : get_equivalent_displacements r (Fin tied) = Ok [mkGroup [Fin tied; Fin coll] [(mI, v0); (c2, v0)]].
Proof.
  destruct lx_parts as (Ep & El & Eo).
  unfold get_equivalent_displacements. rewrite scale_parent by apply lone_norm.
  assert (Hl: List.length tied = List.length (rs_positions r)) by (rewrite Ep; auto).
  destruct (displace_positions_same (rs_positions r) tied) as (q & ->); [eapply identity_first_ok, lx_first|auto|]. cbn [rbind].
  rewrite lx_perms. cbn [equivalent_loop].
  assert (C1: candidate r (Fin tied) (mI, v0) (perm_matrix 1 (fun b => b)) = Ok (Fin tied)).
  { destruct (identity_candidate r [(c2, v0)] tied lx_first Hl lone_half) as (perms & _ & C). rewrite Ep in C. exact C. }
  assert (C2: candidate r (Fin tied) (c2, v0) (perm_matrix 1 (fun b => b)) = Ok (Fin coll)).
  { pose proof (candidate_exact r c2 v0 (fun b => b) tied) as C. rewrite Ep in C. change (List.length one_pos) with 1%nat in C. rewrite C; auto.
    - unfold coll, tied, lone_x, c2. cbn. do 3 f_equal. vunf. f_equal; ring.
    - exact lone_symmetry.
    - unfold tied, lone_x, c2. repeat constructor; vunf; lra. }
  rewrite C1. cbn [rbind]. rewrite first_classify. cbn [rbind]. rewrite C2. cbn [rbind].
  assert (N1 : rows_norm tied = / 10) by (apply norm_tenth, lone_norm).
  assert (N2 : rows_norm coll = / 10) by (apply norm_tenth, lone_norm').
  assert (Hdot : rows_dot coll tied = - / 100) by (unfold coll, tied, lone_x, rows_dot; vunf; lra).
  assert (Cos : cosine (rowsR coll) (rowsR tied) = - 1).
  { unfold cosine. rewrite inner_rows, !magnitude_rows, N1, N2, Hdot. field. }
  destruct (nonorth_read coll tied 1 eq_refl eq_refl) as (O & _ & Co & _); [lia|].
  assert (T : tol1 < / 10000) by (unfold tol1; lra).
  unfold classify at 1.
  assert (E1: is_orthogonal_to_all (flatten (Fin coll)) (map flatten [Fin tied]) = Ok 0%Z).
  { unfold is_orthogonal_to_all. cbn [map scan_from]. rewrite (proj2 O).
    - reflexivity.
    - intros (_ & _ & K). rewrite Cos, Rabs_left in K by lra. lra. }
  assert (Nn : nonzero_vec (rowsR tied)) by (apply nonzero_inner; rewrite inner_rows; change (rows_norm2 tied <> 0); unfold tied; rewrite lone_norm; lra).
  assert (Nc : nonzero_vec (rowsR coll)) by (apply nonzero_inner; rewrite inner_rows; change (rows_norm2 coll <> 0); unfold coll; rewrite lone_norm'; lra).
  assert (E2: is_non_collinear_with_all (flatten (Fin coll)) (map flatten [Fin tied]) = Ok 0%Z).
  { unfold is_non_collinear_with_all. cbn [map scan_from]. rewrite (proj2 Co); [reflexivity|].
    split; [auto|split; [auto|]]. rewrite Cos, Rabs_left by lra. unfold tol1. lra. }
  rewrite E1. cbn [rbind Z.eqb]. rewrite E2. cbn [rbind Z.eqb negb Z.to_nat nth_error g_disp existsb].
  assert (A : arr_close (Fin coll) (Fin tied) = false).
  { destruct (arr_close (Fin coll) (Fin tied)) eqn:A; [|reflexivity]. exfalso.
    apply arr_close_spec in A; [|reflexivity]. unfold coll, tied, lone_x in A.
    inversion A as [|? ? ? ? A1 _]. destruct A1 as (A1 & _). unfold near1 in A1. cbn [vx] in A1.
    rewrite (Rabs_left (_ - _)), (Rabs_right (/ 10)) in A1 by lra. lra. }
  rewrite A. reflexivity.
Qed.
Lemma lx_multiplier : multiplier (Fin tied) (Fin coll) = Ok (Some (-1)).
Proof.
  unfold multiplier. rewrite (argmax_is _ 0).
  - cbn [rbind]. cbn [nth_error tied coll lone_x flatten_rows flat_map List.app vx flatten].
    destruct (Reqb (- / 10) 0) eqn:E; [apply Reqb_true in E; lra|]. do 2 f_equal. field.
  - unfold tied, lone_x. cbn. unfold first_max. rewrite Rabs_R0, !Rabs_right by lra.
    split; [cbn; lia|]. split; [|intros; lia]. intros j Hj. cbn in Hj. do 3 (destruct j as [|j]; [cbn; lra|]). lia.
Qed.
Definition lx_pts : list (R * M3) :=
  [(/ 10, msub mI m0); (/ 5, msub (mscale 2 mI) m0);
   (-1 * / 10, mmul (mmul c2 (msub mI m0)) c2); (-1 * / 5, mmul (mmul c2 (msub (mscale 2 mI) m0)) c2)].
Let m1 := make_model r m0 false.
Lemma lx_dof : get_dof m1 (over_norm 10 (Fin (lone_x 1))) [/ 10; / 5] [mI; mscale 2 mI] false =
  Ok [(Fin (rows_scale 10 tied), map (fun q : R * M3 => (Some (fst q), snd q)) lx_pts)].
Proof.
  destruct lx_parts as (Ep & El & Eo).
  assert (N1: rows_norm tied = / 10) by (apply norm_tenth; apply lone_norm).
  assert (P: over_norm 10 (Fin (lone_x 1)) = Fin tied).
  { assert (N : rows_norm (lone_x 1) = 1).
    { unfold rows_norm. replace (rows_norm2 (lone_x 1)) with (1 * 1) by (unfold rows_norm2, rows_dot, lone_x; vunf; ring). rewrite sqrt_square; lra. }
    destruct (parent_norm (lone_x 1)) as [-> _]; rewrite N.
    - lra.
    - unfold tied, lone_x, rows_scale. cbn. unfold vscale. cbn. do 3 f_equal; field. }
  rewrite P. eapply get_dof_complete.
  - reflexivity.
  - apply lx_groups.
  - constructor; [|constructor].
    unfold dof_of_group. cbn [g_disp g_trans combine mapM]. unfold points_of. rewrite multiplier_one by (rewrite ?N1; lra). rewrite lx_multiplier.
    cbn [rbind]. rewrite minv_mI, c2_inv. erewrite mapM_all_ok by (intros; reflexivity). cbn [rbind]. erewrite mapM_all_ok by (intros; reflexivity). cbn [rbind].
    cbn [get_cart_displacement_arr m1 make_model im_ref]. unfold get_cart_displacement. rewrite El, pbc_half_cell, rows_mul_mI by apply lone_half.
    assert (U : over_norm 1 (Fin tied) = Fin (rows_scale 10 tied)).
    { unfold over_norm, tied, lone_x. fold (lone_x (/ 10)). fold tied. rewrite rows_scale_1, N1. destruct (Reqb (/ 10) 0) eqn:E0; [apply Reqb_true in E0; lra|]. do 2 f_equal. field. }
    rewrite U. do 2 f_equal. unfold lx_pts. cbn [combine map List.concat List.app fst snd option_map m1 make_model im_refpol].
    rewrite !Rmult_1_l, !mmul_mI_l, !mmul_mI_r. reflexivity.
Qed.
End Axis.

Lemma ex_C77_art_refused : exists s qs s' w,
  let r := im_ref s in
  let direct := add_art 0%Z [vx art_dir; vy art_dir; vz art_dir] (vec_arr [/ 10; / 5]) (mats_arr [mI; mscale 2 mI]) s in
  valid_reference r /\ mdet (rs_lattice r) <> 0 /\ art_dir <> v0 /\
  (forall x, vmul x (rs_lattice r) = art_dir -> half_cell [x]) /\
  (forall a x, In a [/ 10; / 5] -> vmul x (rs_lattice r) = vscale (a / vnorm art_dir) art_dir -> half_cell [x]) /\
  get_ast_displaced_positions r 0%Z art_dir (Some [/ 10; / 5]) = Ok (map Fin qs) /\
  direct = ((s', w), Ok tt) /\
  add_art_from_files (map Ok (combine qs [mI; mscale 2 mI])) s = ((s, []), Err InvalidDOFException).
Proof.
  destruct (f_C07c [8%Z] mI one_pos axis_ops [0%nat] one_pos_ok eq_refl) as (r & H & _).
  destruct (lx_parts r H) as (Ep & El & Eo). set (s := make_model r m0 false).
  assert (Hv : valid_reference r) by (eapply identity_first_valid, lx_first; auto).
  assert (Hdet : mdet (rs_lattice r) <> 0) by (rewrite El; vunf; lra).
  assert (Hx : forall c x, Rabs c <= / 5 -> vmul x mI = mkV c 0 0 -> half_cell [x]).
  { intros c [x y z] Hc E.
    assert (E1 := f_equal vx E). assert (E2 := f_equal vy E). assert (E3 := f_equal vz E). clear E. cbn in E1, E2, E3. ring_simplify in E1; ring_simplify in E2; ring_simplify in E3.
    constructor; [|constructor]. unfold vall; cbn. revert Hc; unfold Rabs; destruct (Rcase_abs c); intros; repeat split; lra. }
  destruct (f_C55_ast r 0%Z 0 art_dir [/ 10; / 5] Hdet art_dir_nz) as (qs & Hq & _); [rewrite Ep; cbn; lia|now left|].
  assert (H1 : forall x, vmul x (rs_lattice r) = art_dir -> half_cell [x]).
  { rewrite El. intros x E. apply (Hx (/ 5)); [rewrite Rabs_right; lra|exact E]. }
  assert (H2 : forall a x, In a [/ 10; / 5] -> vmul x (rs_lattice r) = vscale (a / vnorm art_dir) art_dir -> half_cell [x]).
  { rewrite El, art_dir_norm. intros a x Ha E. apply (Hx a).
    - destruct Ha as [<-|[<-|[]]]; rewrite Rabs_right; lra.
    - rewrite E. unfold art_dir, vscale; cbn. f_equal; field. }
  assert (Hi : minv (rs_lattice r) = Ok mI) by (rewrite El; apply minv_mI).
  assert (Hk : py_index (List.length (rs_positions r)) 0%Z = Some 0%nat) by (rewrite Ep; reflexivity).
  assert (Hpos : 0 < / 10) by lra.
  assert (Hnz : Forall (fun a => a <> 0) [/ 5]) by (repeat constructor; lra).
  pose proof (files_eq s 0%Z 0 art_dir (/ 10) [/ 5] [mI; mscale 2 mI] qs) as F. 
  pose proof (art_eq s 0%Z 0 art_dir (/ 10) [/ 5] [mI; mscale 2 mI] qs) as A. 
  cbn [im_ref make_model s] in F, A. fold s in F, A.
  assert (X : at_atom 0 (List.length (rs_positions r)) (vmul (vscale (/ vnorm art_dir) art_dir) mI) = lone_x 1).
  { rewrite Ep, art_dir_norm. unfold at_atom, lone_x, art_dir. cbn. f_equal. vunf. f_equal; field. }
  specialize (F) with (li := mI). specialize (A) with (li := mI). rewrite X in F, A. cbn [im_dummy make_model s] in F, A. fold s in F, A.
  unfold s in F at 2; unfold s in A at 2. rewrite (lx_dof r H) in F, A.
  assert (D : exists s' w, construct_and_add [(Fin (rows_scale 10 (lone_x (/ 10))), map (fun q : R * M3 => (Some (fst q), snd q)) lx_pts)] 1 s = ((s', w), Ok tt)).
  { do 2 eexists. apply (construct_and_add_complete [(Fin (rows_scale 10 (lone_x (/ 10))), map (fun q : R * M3 => (Some (fst q), snd q)) lx_pts)] 1 s [rows_scale 10 (lone_x (/ 10))] [lx_pts]).
    - lia.
    - reflexivity.
    - repeat constructor.
    - constructor; [|constructor]. split; [|cbn; lia]. unfold lx_pts. cbn [map fst].
      unfold spaced, too_close. repeat split; auto; simpl; intros z Hz;
      repeat (destruct Hz as [<-|Hz]); try tauto; unfold Rabs; repeat destruct (Rcase_abs _); lra. }
  destruct D as (s' & w & D). exists s, qs, s', w. cbv zeta.
  repeat (split; [first [exact Hv|exact Hdet|exact art_dir_nz|exact H1|exact H2|exact Hq]|]).
  assert (Hkn : (0 < List.length (rs_positions r))%nat) by (rewrite Ep; cbn; lia).
  split.
  - rewrite (A Hdet Hk Hkn art_dir_nz Hpos Hnz eq_refl H1 H2 Hq Hi) by (cbn; lia). rewrite bind_lift. exact D.
  - rewrite (F Hdet Hk Hkn art_dir_nz Hpos Hnz eq_refl H1 H2 Hq Hi). rewrite bind_lift. reflexivity.
Qed.
