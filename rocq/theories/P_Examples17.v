(** One atom in a rhombic cell with a mirror plane: the images of a displacement are
    orthogonal as fractional arrays but not as displacements.  Cases of C92. *)
From Coq Require Import String ZArith Reals Lra Lia Psatz Bool Arith List Permutation.
From Verif Require Import Base LinAlg M_Validate M_StructUtils M_Symmetry M_Reference M_Interp M_Art M_Shared
  S_Lattice S_Vec S_Symmetry S_Equivalent S_Interp S_Images S_Response S_Order S_Ortho P_StructUtils P_Symmetry P_Equivalent P_Equiv2 P_Equiv3 P_EquivTotal
  P_StructFinal P_Examples1
  P_Interp P_Interp2 P_InterpEval P_Interp3 P_Interp4 P_Interp5 P_Interp6 P_Interp7 P_Examples2 P_Images P_Images2
  P_Response P_Response2 P_Response3 P_Examples12 P_Order P_Order2 P_Order3 P_Order4 P_Ortho P_Examples16.
Import ListNotations.
Local Open Scope R_scope.

Definition rl : M3 := mkM (mkV (4/5) (3/5) 0) (mkV (3/5) (4/5) 0) (mkV 0 0 1).
Definition rp : list V3 := [v0].
Definition dx : list V3 := [mkV (/10) 0 0].
Definition dy : list V3 := [mkV 0 (/10) 0].
Definition dz : list V3 := [mkV 0 0 (/10)].
Lemma rp_symmetry : row_symmetry rp sw v0 (fun b => b).
Proof.
  split; [|split].
  - unfold sw. repeat split; simpl; try (exists 0%Z; reflexivity); exists 1%Z; reflexivity.
  - split; [auto|split; [auto|]]. intros a Ha. exists a; auto.
  - intros [|b] H; simpl in *; [|lia]. unfold vcongr, sw; vunf. split; [exists 0%Z|split; [exists 0%Z|exists 0%Z]]; lra.
Qed.
Lemma rp_separated : separated (/ 100000) rp.
Proof. intros b c n Hb Hc N. simpl in *. lia. Qed.
Lemma rp_one pi R t : row_symmetry rp R t pi -> forall b, (b < 1)%nat -> pi b = b.
Proof. intros (_ & (P & _) & _) b Hb. specialize (P b Hb). simpl in P. lia. Qed.

Lemma rp_reference : exists r, make_reference [8%Z] rl rp (Some (sw_ops, [0%nat])) = Ok r.
Proof.
  destruct (f_C07c [8%Z] rl rp sw_ops [0%nat]) as (r & H & _); [repeat constructor; simpl; lra|reflexivity|]. eauto.
Qed.

Section Built.
Context (r : refstruct) (H : make_reference [8%Z] rl rp (Some (sw_ops, [0%nat])) = Ok r).
Lemma rp_parts : rs_positions r = rp /\ rs_lattice r = rl /\ rs_ops r = sw_ops.
Proof. apply make_reference_ops in H. tauto. Qed.
Lemma rp_first : identity_first r [(sw, v0)].
Proof. exists [8%Z], rl, rp, [0%nat]. split; [exact H|]. split; [simpl; lia|apply rp_separated]. Qed.
Lemma rp_crystal : crystal rl rp sw_ops r.
Proof.
  split; [eauto|]. split; [simpl; lia|]. split; [discriminate|]. split; [apply rp_separated|].
  constructor; [|constructor; [|constructor]]; cbn [fst snd].
  - split; [|split; [|split]].
    + unfold short_columns. vunf. lra.
    + split; vring.
    + rewrite mmul_mI_l, mmul_mI_r. auto.
    + exists (fun b => b). apply id_row_symmetry.
  - split; [|split; [|split]].
    + unfold short_columns, sw. vunf. lra.
    + split; unfold sw; vring.
    + unfold sw, rl. vring.
    + exists (fun b => b). apply rp_symmetry.
Qed.
Lemma rp_rigid : rigid_symmetries rl rp sw_ops r.
Proof.
  destruct rp_crystal as (C1 & C2 & C3 & C4 & C5). do 4 (split; [auto|]). split.
  - eapply Forall_impl; [|exact C5]. intros op (A & B & C & D). split; [auto|split; [|auto]]. exists (fst op). split; auto.
  - intros op pi Ho Hp. exists op, pi. split; [auto|split; [auto|split]].
    + destruct Ho as [<-|[<-|[]]]; cbn [fst]; [vring|unfold sw; vring].
    + intros b Hb. rewrite !(rp_one pi _ _ Hp); auto. rewrite (rp_one pi _ _ Hp); auto.
Qed.
Lemma rp_closed : closed_symmetries rp sw_ops.
Proof.
  intros op pi op' pi' Ho Hp Ho' Hp'.
  assert (K : exists o2, In o2 sw_ops /\ fst o2 = mmul (fst op) (fst op')).
  { destruct Ho as [<-|[<-|[]]], Ho' as [<-|[<-|[]]]; cbn [fst].
    - exists (mI, v0). split; [simpl; auto|cbn; vring].
    - exists (sw, v0). split; [simpl; auto|cbn; unfold sw; vring].
    - exists (sw, v0). split; [simpl; auto|cbn; unfold sw; vring].
    - exists (mI, v0). split; [simpl; auto|cbn; unfold sw; vring]. }
  destruct K as (o2 & Ho2 & E). exists o2, (fun b => b). split; [auto|]. split.
  - destruct Ho2 as [<-|[<-|[]]]; cbn [fst snd]; [apply id_row_symmetry|apply rp_symmetry].
  - split; [auto|]. intros b Hb. rewrite (rp_one pi' _ _ Hp'), (rp_one pi _ _ Hp) by auto. auto.
Qed.

Lemma rp_perms : combine (rs_ops r) (rs_perms r) =
  [((mI, v0), perm_matrix 1 (fun b => b)); ((sw, v0), perm_matrix 1 (fun b => b))].
Proof.
  pose proof H as H'. pose proof rp_first as Hi. apply identity_first_ok in Hi. destruct rp_parts as (Ep & _). rewrite Ep in Hi.
  apply make_reference_ops in H' as (E1 & _ & _ & _ & _ & Ec). rewrite E1.
  unfold compute_permutation_matrices, sw_ops in Ec. cbn [mapM] in Ec.
  rewrite (permutation_matrix_correct rp mI v0 (fun b => b) Hi (id_row_symmetry rp) rp_separated) in Ec.
  rewrite (permutation_matrix_correct rp sw v0 (fun b => b) Hi rp_symmetry rp_separated) in Ec.
  cbn [rbind] in Ec. injection Ec as <-. reflexivity.
Qed.

Lemma rp_candidates v : vnorm2 v = / 100 ->
  candidate r (Fin [v]) (mI, v0) (perm_matrix 1 (fun b => b)) = Ok (Fin [v]) /\
  candidate r (Fin [v]) (sw, v0) (perm_matrix 1 (fun b => b)) = Ok (Fin [vmul v sw]).
Proof.
  intros Hv. destruct rp_parts as (Ep & _).
  assert (Hh : forall w, vnorm2 w = / 100 -> half_cell [w]).
  { intros w Hw. apply half_cell_small. unfold rows_norm2, rows_dot. cbn. unfold vnorm2 in Hw. rewrite Hw. lra. }
  split.
  - destruct (identity_candidate r [(sw, v0)] [v] rp_first) as (perms & _ & C); [rewrite Ep; auto|auto|]. rewrite Ep in C. exact C.
  - pose proof (candidate_exact r sw v0 (fun b => b) [v]) as C. rewrite Ep in C. change (List.length rp) with 1%nat in C.
    rewrite C; auto using rp_symmetry. pose proof (Hh (vmul v sw)) as K. rewrite sw_norm in K. specialize (K Hv).
    constructor; [|constructor]. exact (Forall_inv K).
Qed.

Lemma one_norm v : rows_norm2 [v] = vnorm2 v.
Proof. unfold rows_norm2, rows_dot. destruct v; vunf. ring. Qed.
Lemma one_dot v w : rows_dot [v] [w] = vdot v w.
Proof. unfold rows_dot. destruct v, w; vunf. ring. Qed.

Lemma x_groups : get_equivalent_displacements r (Fin dx) = Ok [mkGroup [Fin dx] [(mI, v0)]; mkGroup [Fin dy] [(sw, v0)]].
Proof.
  destruct rp_parts as (Ep & _). assert (N : vnorm2 (mkV (/10) 0 0) = / 100) by (vunf; lra).
  unfold get_equivalent_displacements, dx. rewrite scale_parent by (rewrite one_norm; auto).
  destruct (displace_positions_same (rs_positions r) [mkV (/10) 0 0]) as (q & ->); [eapply identity_first_ok, rp_first|rewrite Ep; auto|]. cbn [rbind].
  rewrite rp_perms. cbn [equivalent_loop]. destruct (rp_candidates _ N) as (C1 & C2).
  replace (vmul (mkV (/10) 0 0) sw) with (mkV 0 (/10) 0) in C2 by (unfold sw; vring).
  rewrite C1. cbn [rbind]. rewrite first_classify. cbn [rbind]. rewrite C2. cbn [rbind]. fold dx dy.
  unfold classify at 1.
  destruct (nonorth_read dy dx 1 eq_refl eq_refl) as (_ & O & _); [lia|].
  assert (E1: is_orthogonal_to_all (flatten (Fin dy)) (map flatten [Fin dx]) = Ok (-1)%Z).
  { unfold is_orthogonal_to_all. apply scan_all_false. intros a [<-|[]]. apply O. apply orth_rows; [reflexivity|].
    unfold dx, dy. rewrite one_dot, !norm_tenth by (rewrite one_norm; vunf; lra).
    split; [lra|split; [lra|]]. replace (vdot (mkV 0 (/10) 0) (mkV (/10) 0 0)) with 0 by (vunf; lra). rewrite Rabs_R0. pose proof tol1_bounds. nra. }
  rewrite E1. reflexivity.
Qed.

Lemma z_groups : get_equivalent_displacements r (Fin dz) = Ok [mkGroup [Fin dz] [(mI, v0)]].
Proof.
  destruct rp_parts as (Ep & _). assert (N : vnorm2 (mkV 0 0 (/10)) = / 100) by (vunf; lra).
  unfold get_equivalent_displacements, dz. rewrite scale_parent by (rewrite one_norm; auto).
  destruct (displace_positions_same (rs_positions r) [mkV 0 0 (/10)]) as (q & ->); [eapply identity_first_ok, rp_first|rewrite Ep; auto|]. cbn [rbind].
  rewrite rp_perms. cbn [equivalent_loop]. destruct (rp_candidates _ N) as (C1 & C2).
  replace (vmul (mkV 0 0 (/10)) sw) with (mkV 0 0 (/10)) in C2 by (unfold sw; vring).
  rewrite C1. cbn [rbind]. rewrite first_classify. cbn [rbind]. rewrite C2. cbn [rbind]. fold dz.
  unfold classify at 1.
  destruct (nonorth_read dz dz 1 eq_refl eq_refl) as (O & _ & Co & _); [lia|].
  assert (Nz : rows_norm dz = / 10) by (unfold dz; apply norm_tenth; rewrite one_norm; auto).
  assert (Dz : rows_dot dz dz = / 100) by (unfold dz; rewrite one_dot; vunf; lra).
  assert (Cos : cosine (rowsR dz) (rowsR dz) = 1).
  { unfold cosine. rewrite inner_rows, !magnitude_rows, Nz, Dz. field. }
  assert (T : tol1 < / 10000) by (unfold tol1; lra).
  assert (E1: is_orthogonal_to_all (flatten (Fin dz)) (map flatten [Fin dz]) = Ok 0%Z).
  { unfold is_orthogonal_to_all. cbn [map scan_from]. rewrite (proj2 O); [reflexivity|].
    intros (_ & _ & K). rewrite Cos, Rabs_right in K by lra. lra. }
  assert (Nn : nonzero_vec (rowsR dz)) by (apply nonzero_inner; rewrite inner_rows, Dz; lra).
  assert (E2: is_non_collinear_with_all (flatten (Fin dz)) (map flatten [Fin dz]) = Ok 0%Z).
  { unfold is_non_collinear_with_all. cbn [map scan_from]. rewrite (proj2 Co); [reflexivity|].
    split; [auto|split; [auto|]]. rewrite Cos, Rabs_right by lra. pose proof tol1_bounds. lra. }
  rewrite E1. cbn [rbind Z.eqb]. rewrite E2. cbn [rbind Z.eqb negb Z.to_nat nth_error g_disp existsb].
  assert (A : arr_close (Fin dz) (Fin dz) = true).
  { apply arr_close_spec; [reflexivity|]. constructor; [|constructor]. unfold vall2, near1. cbn.
    rewrite !Rminus_diag_eq, !Rabs_R0 by auto. pose proof (Rabs_pos (/10)). repeat split; lra. }
  rewrite A. reflexivity.
Qed.

Definition cx : list V3 := [mkV (4/50) (3/50) 0].
Definition bx : list V3 := [mkV (4/5) (3/5) 0].
Definition by_ : list V3 := [mkV (3/5) (4/5) 0].
Definition bz : list V3 := [mkV 0 0 1].
Lemma rl_inv : exists li, minv rl = Ok li.
Proof. apply minv_exists. unfold rl. vunf. lra. Qed.
Lemma cart_x : rows_mul dx rl = cx.
Proof. unfold dx, cx, rl, rows_mul. cbn [map]. f_equal. apply V3_eq; vunf; lra. Qed.
Lemma cart_y : rows_mul dy rl = [mkV (3/50) (4/50) 0].
Proof. unfold dy, rl, rows_mul. cbn [map]. f_equal. apply V3_eq; vunf; lra. Qed.
Lemma cart_z : rows_mul dz rl = dz.
Proof. unfold dz, rl, rows_mul. cbn [map]. f_equal. apply V3_eq; vunf; lra. Qed.
Lemma one_half v : vnorm2 v = / 100 -> half_cell [v].
Proof. intros Hv. apply half_cell_small. rewrite one_norm, Hv. lra. Qed.

Lemma frac_of d c : half_cell d -> rows_mul d rl = c -> get_frac_displacement r c = Ok d.
Proof.
  intros Hh <-. destruct rp_parts as (_ & El & _). destruct rl_inv as (li & E).
  unfold get_frac_displacement. rewrite El, E. cbn [rbind]. rewrite (cart_frac _ _ _ E), pbc_half_cell; auto.
Qed.
Lemma parent_one v : vnorm2 v = / 100 -> over_norm 10 (Fin [v]) = Fin [v].
Proof.
  intros Hv. assert (N1: rows_norm [v] = / 10) by (apply norm_tenth; rewrite one_norm; auto).
  destruct (parent_norm [v]) as [-> _]; [lra|]. rewrite N1. replace (/ (10 * / 10)) with 1 by field. rewrite rows_scale_1. auto.
Qed.
Lemma unit_one v w u : half_cell [v] -> vmul v rl = w -> vnorm2 w = / 100 -> vscale 10 w = u ->
  over_norm 1 (get_cart_displacement_arr r (Fin [v])) = Fin [u].
Proof.
  intros Hh <- Hn <-. destruct rp_parts as (_ & El & _). cbn [get_cart_displacement_arr]. unfold get_cart_displacement. rewrite El, pbc_half_cell by auto.
  unfold over_norm, rows_mul. cbn [map]. rewrite rows_scale_1, norm_tenth by (rewrite one_norm; auto).
  destruct (Reqb (/ 10) 0) eqn:E0; [apply Reqb_true in E0; lra|]. unfold rows_scale. cbn [map]. do 3 f_equal. field.
Qed.

Lemma unit_dx : over_norm 1 (get_cart_displacement_arr r (Fin dx)) = Fin bx.
Proof.
  apply (unit_one _ (mkV (4/50) (3/50) 0)).
  - apply one_half. vunf. lra.
  - apply V3_eq; unfold rl; vunf; lra.
  - vunf. lra.
  - apply V3_eq; vunf; lra.
Qed.
Lemma unit_dy : over_norm 1 (get_cart_displacement_arr r (Fin dy)) = Fin by_.
Proof.
  apply (unit_one _ (mkV (3/50) (4/50) 0)).
  - apply one_half. vunf. lra.
  - apply V3_eq; unfold rl; vunf; lra.
  - vunf. lra.
  - apply V3_eq; vunf; lra.
Qed.
Lemma unit_dz : over_norm 1 (get_cart_displacement_arr r (Fin dz)) = Fin bz.
Proof.
  apply (unit_one _ (mkV 0 0 (/10))).
  - apply one_half. vunf. lra.
  - apply V3_eq; unfold rl; vunf; lra.
  - vunf. lra.
  - apply V3_eq; vunf; lra.
Qed.

Lemma x_add s q1 q2 : im_ref s = r -> im_dummy s = false -> im_basis s = [] -> inv s ->
  exists s' w, add_dof (Fin cx) (vec_arr sw_amps) (mats_arr [q1; q2]) 1 true s = ((s', w), Ok tt) /\ im_basis s' = [bx; by_].
Proof.
  intros Hr Hdu Hb Hinv.
  assert (Nx : vnorm2 (mkV (/10) 0 0) = / 100) by (vunf; lra). assert (Ny : vnorm2 (mkV 0 (/10) 0) = / 100) by (vunf; lra).
  set (ps1 := [(0, m0); (- / 10, msub q1 (im_refpol s)); (/ 10, msub q2 (im_refpol s))]).
  set (ps2 := [(0, m0); (- / 10, mmul (mmul sw (msub q1 (im_refpol s))) sw); (/ 10, mmul (mmul sw (msub q2 (im_refpol s))) sw)]).
  pose proof unit_dx as U1.
  pose proof unit_dy as U2.
  assert (N1 : rows_norm dx = / 10) by (unfold dx; apply norm_tenth; rewrite one_norm; auto).
  assert (N2 : rows_norm dy = / 10) by (unfold dy; apply norm_tenth; rewrite one_norm; auto).
  do 2 eexists. split.
  1: rewrite (add_dof_complete (Fin cx) (vec_arr sw_amps) (mats_arr [q1; q2]) 1 true s (Fin dx)
     [(Fin bx, map (fun q : R * M3 => (Some (fst q), snd q)) ps1); (Fin by_, map (fun q : R * M3 => (Some (fst q), snd q)) ps2)]
     [bx; by_] [ps1; ps2]).
  - reflexivity.
  - lia.
  - cbn [get_frac_displacement_arr]. rewrite Hr, (frac_of dx cx); [reflexivity|apply one_half; auto|apply cart_x].
  - apply verify_ndarray_shape_spec. repeat constructor.
  - intros _. apply verify_ndarray_shape_spec. simpl. repeat constructor.
  - unfold dx. rewrite (parent_one _ Nx). fold dx. eapply get_dof_complete.
    + rewrite Hb. reflexivity.
    + rewrite Hr. apply x_groups.
    + unfold dof_pols. rewrite Hdu. cbn [mats_arr ra_data vec_arr]. rewrite mats_of_entries, Hr.
      constructor; [|constructor; [|constructor]].
      * unfold dof_of_group. cbn [g_disp g_trans combine mapM]. unfold points_of. rewrite multiplier_one by lra.
        cbn [rbind]. rewrite minv_mI. erewrite mapM_all_ok by (intros; reflexivity). cbn [rbind]. rewrite U1.
        do 2 f_equal. unfold sw_amps, ps1. cbn [combine map List.concat List.app fst snd option_map].
        rewrite !Rmult_1_l, !mmul_mI_l, !mmul_mI_r. reflexivity.
      * unfold dof_of_group. cbn [g_disp g_trans combine mapM]. unfold points_of. rewrite multiplier_one by lra.
        cbn [rbind]. rewrite sw_inv. erewrite mapM_all_ok by (intros; reflexivity). cbn [rbind]. rewrite U2.
        do 2 f_equal. unfold sw_amps, ps2. cbn [combine map List.concat List.app fst snd option_map].
        rewrite !Rmult_1_l. reflexivity.
  - reflexivity.
  - repeat constructor.
  - constructor; [|constructor; [|constructor]]; (split; [exact ex_spaced|cbn; lia]).
  - cbn [appended im_basis]. rewrite Hb. reflexivity.
Qed.

Lemma z_add s q1 q2 : im_ref s = r -> im_dummy s = false -> im_basis s = [bx; by_] -> inv s ->
  exists s' w, add_dof (Fin dz) (vec_arr sw_amps) (mats_arr [q1; q2]) 1 true s = ((s', w), Ok tt) /\ im_basis s' = [bx; by_; bz].
Proof.
  intros Hr Hdu Hb Hinv. destruct rp_parts as (_ & El & _).
  assert (Nx : vnorm2 (mkV 0 0 (/10)) = / 100) by (vunf; lra).
  set (ps1 := [(0, m0); (- / 10, msub q1 (im_refpol s)); (/ 10, msub q2 (im_refpol s))]).
  pose proof unit_dz as U1.
  assert (N1 : rows_norm dz = / 10) by (unfold dz; apply norm_tenth; rewrite one_norm; auto).
  assert (Hz : half_cell dz) by (apply one_half; auto).
  do 2 eexists. split.
  1: rewrite (add_dof_complete (Fin dz) (vec_arr sw_amps) (mats_arr [q1; q2]) 1 true s (Fin dz)
     [(Fin bz, map (fun q : R * M3 => (Some (fst q), snd q)) ps1)] [bz] [ps1]).
  - reflexivity.
  - lia.
  - cbn [get_frac_displacement_arr]. rewrite Hr, (frac_of dz dz); [reflexivity|exact Hz|apply cart_z].
  - apply verify_ndarray_shape_spec. repeat constructor.
  - intros _. apply verify_ndarray_shape_spec. simpl. repeat constructor.
  - unfold dz. rewrite (parent_one _ Nx). fold dz. eapply get_dof_complete.
    + unfold is_orthogonal_to_all. apply scan_all_false. rewrite Hb. intros a Ha. apply in_map_iff in Ha as (b & <- & Hb').
      cbn [get_cart_displacement_arr]. unfold get_cart_displacement. rewrite Hr, El, pbc_half_cell, cart_z by auto.
      assert (K : List.length b = 1%nat /\ rows_norm b = 1 /\ rows_dot dz b = 0).
      { destruct Hb' as [<-|[<-|[]]]; (split; [reflexivity|split]).
        - apply norm_one. unfold bx. rewrite one_norm. vunf. lra.
        - unfold dz, bx. rewrite one_dot. vunf. lra.
        - apply norm_one. unfold by_. rewrite one_norm. vunf. lra.
        - unfold dz, by_. rewrite one_dot. vunf. lra. }
      destruct K as (K1 & K2 & K3). destruct (nonorth_read dz b 1 eq_refl K1) as (_ & O & _); [lia|]. apply O.
      apply orth_rows; [rewrite K1; reflexivity|]. rewrite K2, K3, N1, Rabs_R0. split; [lra|split; [lra|]]. pose proof tol1_bounds. nra.
    + rewrite Hr. apply z_groups.
    + unfold dof_pols. rewrite Hdu. cbn [mats_arr ra_data vec_arr]. rewrite mats_of_entries, Hr.
      constructor; [|constructor].
      unfold dof_of_group. cbn [g_disp g_trans combine mapM]. unfold points_of. rewrite multiplier_one by lra.
      cbn [rbind]. rewrite minv_mI. erewrite mapM_all_ok by (intros; reflexivity). cbn [rbind]. rewrite U1.
      do 2 f_equal. unfold sw_amps, ps1. cbn [combine map List.concat List.app fst snd option_map].
      rewrite !Rmult_1_l, !mmul_mI_l, !mmul_mI_r. reflexivity.
  - reflexivity.
  - repeat constructor.
  - constructor; [|constructor]; (split; [exact ex_spaced|cbn; lia]).
  - cbn [appended im_basis]. rewrite Hb. reflexivity.
Qed.
End Built.

(** A linear response with the symmetry of the crystal *)
Definition rh_resp (u : list V3) : M3 := match u with [a] => mscale (vx a + vy a) mI | _ => m0 end.
Lemma rh_linear : linear_response 1 rh_resp.
Proof.
  split.
  - intros [|a [|b u]] [|c [|d w]] H1 H2; try discriminate. unfold rows_add. cbn [map2 rh_resp]. vring.
  - intros c [|a [|b u]] H1; try discriminate. unfold rows_scale. cbn [map rh_resp]. vring.
Qed.
Lemma rh_symmetric : symmetric_response rp sw_ops rh_resp.
Proof.
  intros op pi u Ho Hp Hu. destruct u as [|a [|b u]]; try discriminate. unfold moved. cbn [List.length seq map].
  rewrite (rp_one pi _ _ Hp) by lia. cbn [nth rh_resp]. unfold carried. rewrite mmul_mscale_r, mmul_mI_r, mmul_mscale_l.
  assert (K : op = (mI, v0) \/ op = (sw, v0) -> mmul (mtrans (fst op)) (fst op) = mI).
  { clear. intros [-> | ->]; cbn [fst]; [vring|unfold sw; vring]. }
  rewrite K by (destruct Ho as [<-|[<-|[]]]; auto). f_equal.
  destruct Ho as [<-|[<-|[]]]; cbn [fst]; destruct a; [rewrite vmul_mI|unfold sw; vunf]; cbn; ring.
Qed.

Lemma rh_built : exists r m, crystal rl rp sw_ops r /\ rigid_symmetries rl rp sw_ops r /\ closed_symmetries rp sw_ops /\
  sampled r mI rh_resp m /\ im_basis m = [bx; by_; bz].
Proof.
  destruct rp_reference as (r & H). pose proof (rp_crystal r H) as HC. destruct (rp_parts r H) as (Ep & El & _).
  assert (I0 : inv (make_model r mI false)).
  { apply make_model_inv, valid_reference_wf. eapply crystal_valid; eauto. }
  assert (D : forall c a, exists q1 q2, data_along mI rh_resp c sw_amps = mats_arr [q1; q2] /\ a = tt) by (intros c []; do 2 eexists; split; reflexivity).
  destruct (D cx tt) as (q1 & q2 & D1 & _). destruct (D dz tt) as (q3 & q4 & D2 & _).
  destruct (x_add r H (make_model r mI false) q1 q2 eq_refl eq_refl eq_refl I0) as (m1 & w1 & A1 & B1).
  assert (S1 : sampled r mI rh_resp m1).
  { apply (sampled_dof r mI rh_resp (make_model r mI false) dx cx sw_amps true m1 w1).
    - constructor.
    - rewrite Ep. reflexivity.
    - apply one_half. vunf. lra.
    - intros gs g Hg Hin. rewrite (x_groups r H) in Hg. injection Hg as <-.
      destruct Hin as [<-|[<-|[]]]; do 2 eexists; (split; [reflexivity|]); intros x [Hx|[]]; injection Hx as <-; auto.
    - rewrite El. symmetry. apply cart_x.
    - discriminate.
    - rewrite D1. exact A1. }
  destruct (sampled_follows _ _ _ _ _ _ _ HC rh_linear rh_symmetric S1) as (I1 & I2 & I3 & _ & I5 & _).
  destruct (z_add r H m1 q3 q4 I1 I3 B1 I5) as (m2 & w2 & A2 & B2).
  exists r, m2. split; [auto|]. split; [apply rp_rigid; auto|]. split; [apply rp_closed|]. split; [|exact B2].
  apply (sampled_dof r mI rh_resp m1 dz dz sw_amps true m2 w2).
  - exact S1.
  - rewrite Ep. reflexivity.
  - apply one_half. vunf. lra.
  - intros gs g Hg Hin. rewrite (z_groups r H) in Hg. injection Hg as <-.
    destruct Hin as [<-|[]]; do 2 eexists; (split; [reflexivity|]); intros x [Hx|[]]; injection Hx as <-; auto.
  - rewrite El. symmetry. apply cart_z.
  - discriminate.
  - rewrite D2. exact A2.
Qed.

(** Degrees of freedom that are not orthogonal *)
Lemma f_C92_images_refuted : ~ forall L pos ops r pol l m, crystal L pos ops r -> closed_symmetries pos ops ->
  sampled r pol l m -> orthogonal_dofs m.
Proof.
  intros G. destruct rh_built as (r & m & HC & _ & HS & S & B).
  specialize (G rl rp sw_ops r mI rh_resp m HC HS S 0%nat 1%nat bx by_). rewrite B in G.
  destruct (G eq_refl eq_refl) as (_ & _ & K); [discriminate|]. unfold cosine in K.
  rewrite inner_rows, !magnitude_rows in K. unfold bx, by_ in K.
  rewrite one_dot, !norm_one in K by (rewrite one_norm; vunf; lra).
  replace (vdot _ _) with (24/25) in K by (vunf; lra).
  replace (24 / 25 / (1 * 1)) with (24/25) in K by field. rewrite Rabs_right in K by lra. unfold tol1 in K. lra.
Qed.

(** Predictions that are wrong *)
Lemma f_C92_exact_refuted : ~ forall spl L pos ops r pol l m xs us,
  crystal L pos ops r -> linear_response (List.length pos) l -> symmetric_response pos ops l -> sampled r pol l m ->
  List.length (im_basis m) = (3 * List.length pos)%nat ->
  sample_shape (List.length pos) xs -> Forall2 (displacement_from r) xs us ->
  calc_polarizabilities spl m (batch_of (List.length pos) xs) = Ok (map (fun u => madd pol (l u)) us).
Proof.
  intros G. destruct rh_built as (r & m & HC & _ & HS & S & B). destruct (crystal_parts _ _ _ _ HC) as (Ep & El & _).
  specialize (G (fun _ _ _ => m0) rl rp sw_ops r mI rh_resp m [dx] [cx] HC rh_linear rh_symmetric S).
  rewrite B in G. specialize (G eq_refl).
  assert (Sh : sample_shape (List.length rp) [dx]) by (repeat constructor).
  assert (Df : displacement_from r dx cx).
  { exists dx. rewrite Ep, El. split; [|symmetry; apply cart_x]. apply apply_pbc_displacement_spec.
    replace (rows_sub dx rp) with dx.
    - symmetry. apply pbc_half_cell, one_half. vunf. lra.
    - unfold rp, dx, rows_sub. cbn [map2]. f_equal. apply V3_eq; vunf; lra. }
  specialize (G Sh (Forall2_cons _ _ Df (Forall2_nil _))).
  destruct (sampled_follows _ _ _ _ _ _ _ HC rh_linear rh_symmetric S) as (I1 & I2 & I3 & I4 & I5 & I6).
  pose proof (calc_regular (fun _ _ _ => m0) m [dx] I5 I3) as K. rewrite I1, Ep in K. rewrite (K Sh) in G. clear K.
  apply (f_equal (fun x => match x with Ok [a] => a | _ => m0 end)) in G. cbn [map] in G. unfold predict in G. rewrite I1, <- (displacement_from_unique _ _ _ Df), I2 in G.
  destruct I5 as (_ & (C1 & C2 & _) & _ & Hsp). rewrite B in C1, C2, I6.
  destruct (im_mask m) as [|k1 [|k2 [|k3 [|k4 ms]]]]; try discriminate.
  inversion I6 as [|? sp1 ? i1 L1 I6a E1 E2]. subst. inversion I6a as [|? sp2 ? i2 L2 I6b E3 E4]. subst.
  inversion I6b as [|? sp3 ? i3 L3 I6c E5 E6]. subst. inversion I6c. subst.
  rewrite <- E2 in Hsp, G. rewrite B in G.
  pose proof (Forall_inv I4) as K1. pose proof (Forall_inv (Forall_inv_tail I4)) as K2. pose proof (Forall_inv (Forall_inv_tail (Forall_inv_tail I4))) as K3.
  cbv beta in K1, K2, K3. subst k1 k2 k3. cbn [prediction] in G.
  assert (Ok1 := Forall_inv Hsp). assert (Ok2 := Forall_inv (Forall_inv_tail Hsp)). assert (Ok3 := Forall_inv (Forall_inv_tail (Forall_inv_tail Hsp))).
  rewrite (eval_on_line _ _ _ _ Ok1 L1), (eval_on_line _ _ _ _ Ok2 L2), (eval_on_line _ _ _ _ Ok3 L3) in G.
  rewrite !inner_rows in G. unfold bx, by_, bz, cx in G. rewrite !one_dot in G. cbn [rh_resp] in G.
  apply (f_equal (fun a : M3 => vx (r0 a))) in G.
  assert (F1 : forall A B : M3, vx (r0 (madd A B)) = vx (r0 A) + vx (r0 B)) by reflexivity.
  assert (F2 : forall k (A : M3), vx (r0 (mscale k A)) = k * vx (r0 A)) by reflexivity.
  assert (F3 : forall a b c x y z, vdot (mkV a b c) (mkV x y z) = a * x + b * y + c * z) by reflexivity.
  assert (F4 : forall a b c, vx (mkV a b c) = a) by reflexivity. assert (F5 : forall a b c, vy (mkV a b c) = b) by reflexivity.
  assert (F6 : vx (r0 mI) = 1) by reflexivity. assert (F7 : vx (r0 m0) = 0) by reflexivity.
  rewrite !F1, !F2, !F3, !F4, !F5, !F6, !F7 in G. clear -G. revert G. lra.
Qed.

(** ** Two atoms exchanged by a mirror plane, cubic cell *)
Lemma mirror_closed : closed_symmetries sw_pos sw_ops.
Proof.
  assert (K : forall op pi, In op sw_ops -> row_symmetry sw_pos (fst op) (snd op) pi ->
    (op = (mI, v0) /\ pi 0%nat = 0%nat /\ pi 1%nat = 1%nat) \/ (op = (sw, v0) /\ pi 0%nat = 1%nat /\ pi 1%nat = 0%nat)).
  { intros op pi Ho Hp. assert (C : op = (mI, v0) \/ op = (sw, v0)) by (destruct Ho as [<-|[<-|[]]]; auto). clear Ho.
    destruct C as [-> | ->]; cbn [fst snd] in Hp.
    - left. split; [auto|]. pose proof (pi_unique mI pi (or_introl eq_refl) Hp) as U. cbn in U.
      destruct (Reqb 1 0) eqn:E; [apply Reqb_true in E; lra|]. rewrite (U 0%nat), (U 1%nat) by lia. auto.
    - right. split; [auto|]. pose proof (pi_unique sw pi (or_intror eq_refl) Hp) as U. cbn in U.
      destruct (Reqb 0 0) eqn:E; [|apply Reqb_false in E; lra]. rewrite (U 0%nat), (U 1%nat) by lia. auto. }
  intros op pi op' pi' Ho Hp Ho' Hp'.
  assert (T : forall (f : nat -> nat) g, f 0%nat = g 0%nat -> f 1%nat = g 1%nat -> forall b, (b < List.length sw_pos)%nat -> f b = g b).
  { intros f g F0 F1 [|[|b]] Hb; auto. cbn in Hb. lia. }
  destruct (K op pi Ho Hp) as [(-> & P0 & P1)|(-> & P0 & P1)], (K op' pi' Ho' Hp') as [(-> & P0' & P1')|(-> & P0' & P1')].
  - exists (mI, v0), (fun b => b). split; [simpl; auto|]. split; [apply id_row_symmetry|]. split; [cbn; vring|].
    apply (T (fun b => b) (fun b => pi (pi' b))); rewrite ?P0', ?P1'; auto.
  - exists (sw, v0), swap2. split; [simpl; auto|]. split; [apply sw_symmetry|]. split; [cbn; unfold sw; vring|].
    apply (T swap2 (fun b => pi (pi' b))); rewrite ?P0', ?P1', ?P0, ?P1; auto.
  - exists (sw, v0), swap2. split; [simpl; auto|]. split; [apply sw_symmetry|]. split; [cbn; unfold sw; vring|].
    apply (T swap2 (fun b => pi (pi' b))); rewrite ?P0', ?P1', ?P0, ?P1; auto.
  - exists (mI, v0), (fun b => b). split; [simpl; auto|]. split; [apply id_row_symmetry|]. split; [cbn; unfold sw; vring|].
    apply (T (fun b => b) (fun b => pi (pi' b))); rewrite ?P0', ?P1', ?P0, ?P1; auto.
Qed.
Lemma cubic_mI : cubic_lattice mI.
Proof. exists 1. split; [lra|]. vring. Qed.

Lemma skew_along_basis r : make_reference [8%Z; 8%Z] mI sw_pos (Some (sw_ops, [0%nat; 0%nat])) = Ok r ->
  exists m, all_return false [skew_call; along ez] (make_model r mI false) m /\
    nth_error (im_basis m) 0 = Some (rows_scale 10 skew) /\ nth_error (im_basis m) 2 = Some (on2 (vscale 10 (vmul ez sw))).
Proof.
  intros H. pose proof (m00_inv r H) as I0.
  destruct (skew_add r H (make_model r mI false) eq_refl eq_refl eq_refl I0) as (s1 & w1 & A1 & B1).
  pose proof A1 as A0. apply add_dof_cases in A0 as [(e & Ee & _)|(_ & Ho & disp & dofs & bs & pss & H1 & H2 & H3 & H4 & H5 & H6 & H7 & H8 & E1)]; [discriminate|].
  assert (I1: inv s1) by (eapply add_dof_inv; [exact I0|exact A1]).
  destruct (on_add r H s1 ez mI mI) as (s2 & w2 & A2 & B2); [rewrite E1; auto|rewrite E1; auto|exact I1|unfold ez; vunf; lra| |].
  { rewrite B1. intros b [<-|[]]. unfold skew, ez, on1, rows_scale, rows_dot. vunf. lra. }
  exists s2. split; [|rewrite B2, B1; split; reflexivity]. exists s1, w1. split; [exact A1|]. exists s2, w2. split; [exact A2|reflexivity].
Qed.

Lemma f_C92_dropped_refuted : ~ forall L pos ops r art pol dummy calls m,
  rigid_symmetries L pos ops r -> closed_symmetries pos ops -> cubic_lattice L ->
  Forall (fun a => exists d, starts_from r a d /\ List.length d = List.length pos) calls ->
  all_return art calls (make_model r pol dummy) m -> orthogonal_dofs m.
Proof.
  intros G. destruct (sw_reference mI) as (r & E & _). destruct (skew_along_basis r E) as (m & A & B0 & B2).
  assert (O : orthogonal_dofs m).
  { apply (G mI sw_pos sw_ops r false mI false [skew_call; along ez] m); auto using mirror_closed, cubic_mI.
    - apply mirror_rigid; auto.
    - constructor; [|constructor; [|constructor]].
      + exists skew. split; [apply skew_starts; auto|reflexivity].
      + exists (on1 ez). split; [apply along_starts; auto; unfold ez; vunf; lra|reflexivity]. }
  destruct (O 0%nat 2%nat _ _ B0 B2) as (_ & _ & K); [discriminate|]. clear -K.
  unfold cosine in K. rewrite inner_rows, !magnitude_rows in K. rewrite rows_norm_scale, (Rabs_right 10) in K by lra.
  rewrite (norm_tenth skew skew_norm) in K.
  rewrite (norm_one (on2 (vscale 10 (vmul ez sw)))) in K by (rewrite on2_norm; unfold ez, sw; vunf; lra).
  replace (rows_dot _ _) with (2/3) in K by (unfold skew, ez, sw, on2, rows_scale, rows_dot; vunf; lra).
  replace (2 / 3 / (10 * / 10 * 1)) with (2/3) in K by field. rewrite Rabs_right in K by lra. unfold tol1 in K. lra.
Qed.

Lemma ex_C92 : exists r m, rigid_symmetries mI sw_pos sw_ops r /\ closed_symmetries sw_pos sw_ops /\ cubic_lattice mI /\
  Forall (fun a => exists d, starts_from r a d /\ List.length d = List.length sw_pos /\ images_listed sw_pos sw_ops r d) [along ex; along ez] /\
  all_return false [along ex; along ez] (make_model r mI false) m /\ List.length (im_basis m) = 4%nat.
Proof.
  destruct (sw_reference mI) as (r & E & _). exists r.
  assert (N1: vnorm2 ex = / 100) by (unfold ex; vunf; lra). assert (N2: vnorm2 ez = / 100) by (unfold ez; vunf; lra).
  destruct (two_along r E ex ez N1 N2) as (m & A & B); [unfold ex, ez; vunf; lra|].
  exists m. split; [apply mirror_rigid; auto|]. split; [apply mirror_closed|]. split; [apply cubic_mI|]. split.
  - constructor; [|constructor; [|constructor]]; eexists; (split; [apply along_starts; auto|]); (split; [reflexivity|apply along_listed; auto]).
  - split; [exact A|]. rewrite B. reflexivity.
Qed.
