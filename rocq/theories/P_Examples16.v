(** Orders of additions on two atoms exchanged by a mirror plane: cases of C91. *)
From Coq Require Import String ZArith Reals Lra Lia Psatz Bool Arith List Permutation.
From Verif Require Import Base LinAlg M_Validate M_StructUtils M_Symmetry M_Reference M_Interp M_Art M_Shared
  S_Lattice S_Vec S_Symmetry S_Equivalent S_Interp S_Images S_Response S_Order P_StructUtils P_Symmetry P_Equivalent P_Equiv2 P_Equiv3 P_EquivTotal
  P_StructFinal P_Examples1
  P_Interp P_Interp2 P_InterpEval P_Interp3 P_Interp4 P_Interp5 P_Interp6 P_Interp7 P_Examples2 P_Images P_Images2
  P_Response P_Response2 P_Response3 P_Examples12 P_Order P_Order2 P_Order3 P_Order4.
Import ListNotations.
Local Open Scope R_scope.

(** A displacement of both atoms, neither orthogonal nor parallel to its mirror image *)
Definition skew : list V3 := [mkV 0 (/15) 0; mkV (/30) 0 (/15)].
Definition skew' : list V3 := [mkV 0 (/30) (/15); mkV (/15) 0 0].
Definition flat_pols : rarr := mats_arr [mI; mI].
Definition along (v : V3) : adding := Dof (on1 v) (vec_arr sw_amps) flat_pols 1 true.
Definition skew_call : adding := Dof skew (vec_arr sw_amps) flat_pols 1 true.
Definition ez : V3 := mkV 0 0 (/10).
Definition ex : V3 := mkV (/10) 0 0.
Lemma skew_norm : rows_norm2 skew = / 100.
Proof. unfold skew, rows_norm2, rows_dot. vunf. lra. Qed.
Lemma skew'_norm : rows_norm2 skew' = / 100.
Proof. unfold skew', rows_norm2, rows_dot. vunf. lra. Qed.

Section Built.
Context (r : refstruct) (H : make_reference [8%Z; 8%Z] mI sw_pos (Some (sw_ops, [0%nat; 0%nat])) = Ok r).

Lemma mirror_rigid : rigid_symmetries mI sw_pos sw_ops r.
Proof.
  split; [eauto|]. split; [simpl; lia|]. split; [discriminate|]. split; [apply sw_separated|]. split.
  - constructor; [|constructor; [|constructor]]; cbn [fst snd]; (split; [|split]).
    + unfold short_columns. vunf. lra.
    + exists mI. split; [split; vring|]. unfold cartesian_form. auto.
    + exists (fun b => b). apply id_row_symmetry.
    + unfold short_columns, sw. vunf. lra.
    + exists sw. split; [split; unfold sw; vring|]. unfold cartesian_form, sw. vring.
    + exists swap2. apply sw_symmetry.
  - intros op pi [<-|[<-|[]]] Hp; cbn [fst snd] in Hp.
    + exists (mI, v0), pi. split; [simpl; auto|]. split; [auto|]. split; [vring|].
      pose proof (pi_unique mI pi (or_introl eq_refl) Hp) as U. cbn in U.
      destruct (Reqb 1 0) eqn:E; [apply Reqb_true in E; lra|].
      intros [|[|b]] Hb; cbn in Hb; [| |lia]; rewrite ?(U 0%nat), ?(U 1%nat) by lia; cbn [Nat.eqb]; rewrite ?(U 0%nat), ?(U 1%nat) by lia; reflexivity.
    + exists (sw, v0), pi. split; [simpl; auto|]. split; [auto|]. split; [unfold sw; vring|].
      pose proof (pi_unique sw pi (or_intror eq_refl) Hp) as U. cbn in U.
      destruct (Reqb 0 0) eqn:E; [|apply Reqb_false in E; lra].
      intros [|[|b]] Hb; cbn in Hb; [| |lia]; rewrite ?(U 0%nat), ?(U 1%nat) by lia; cbn [Nat.eqb]; rewrite ?(U 0%nat), ?(U 1%nat) by lia; reflexivity.
Qed.

Lemma along_starts v : vnorm2 v = / 100 -> starts_from r (along v) (on1 v).
Proof.
  intros Hv. destruct (sw_reference mI) as (r' & E & Hi & Hva & Hlat & Hpos). rewrite H in E. injection E as <-.
  cbn [starts_from along]. unfold get_frac_displacement. rewrite Hlat, minv_mI. cbn [rbind]. rewrite rows_mul_mI, pbc_half_cell; auto.
  apply half_cell_small. rewrite on1_norm, Hv. lra.
Qed.
Lemma along_listed v : vnorm2 v = / 100 -> images_listed sw_pos sw_ops r (on1 v).
Proof.
  intros Hv. eexists. split; [apply (on_groups r H v Hv)|].
  intros op pi [<-|[<-|[]]] Hp; cbn [fst snd] in Hp |- *.
  - pose proof (pi_unique mI pi (or_introl eq_refl) Hp) as U. cbn in U. destruct (Reqb 1 0) eqn:E; [apply Reqb_true in E; lra|].
    do 3 eexists. exists 1. split; [left; reflexivity|]. split; [reflexivity|]. rewrite rows_scale_1.
    cbn [sw_pos List.length seq map]. rewrite (U 0%nat), (U 1%nat) by lia. cbn [Nat.eqb]. unfold on1. cbn [nth].
    rewrite !vmul_mI. reflexivity.
  - pose proof (pi_unique sw pi (or_intror eq_refl) Hp) as U. cbn in U. destruct (Reqb 0 0) eqn:E; [|apply Reqb_false in E; lra].
    do 3 eexists. exists 1. split; [right; left; reflexivity|]. split; [reflexivity|]. rewrite rows_scale_1.
    cbn [sw_pos List.length seq map]. rewrite (U 0%nat), (U 1%nat) by lia. cbn [Nat.eqb]. unfold on1, on2. cbn [nth].
    rewrite !vmul_v0. reflexivity.
Qed.

Lemma skew_starts : starts_from r skew_call skew.
Proof.
  destruct (sw_reference mI) as (r' & E & Hi & Hva & Hlat & Hpos). rewrite H in E. injection E as <-.
  cbn [starts_from skew_call]. unfold get_frac_displacement. rewrite Hlat, minv_mI. cbn [rbind]. rewrite rows_mul_mI, pbc_half_cell; auto.
  apply half_cell_small. rewrite skew_norm. lra.
Qed.

Lemma skew_groups : get_equivalent_displacements r (Fin skew) = Ok [mkGroup [Fin skew] [(mI, v0)]].
Proof.
  pose proof H as H'. destruct (sw_reference mI) as (r' & E & Hi & Hva & Hlat & Hpos).
  rewrite H in E. injection E as <-.
  unfold get_equivalent_displacements. rewrite scale_parent by apply skew_norm.
  assert (Hl: List.length skew = List.length (rs_positions r)) by (rewrite Hpos; auto).
  destruct (displace_positions_same (rs_positions r) skew) as (q & ->); eauto using identity_first_ok. simpl.
  assert (Hh: half_cell skew) by (apply half_cell_small; rewrite skew_norm; lra).
  assert (Hp: combine (rs_ops r) (rs_perms r) =
     [((mI, v0), perm_matrix 2 (fun b => b)); ((sw, v0), perm_matrix 2 swap2)]).
  { unfold make_reference in H'.
    destruct (verify_list_len _ _); simpl in H'; [|discriminate].
    destruct (compute_permutation_matrices sw_ops sw_pos) as [perms|] eqn:Ec; simpl in H'; [|discriminate].
    injection H' as <-. cbn [rs_positions rs_ops rs_perms] in *.
    unfold compute_permutation_matrices, sw_ops in Ec. cbn [mapM] in Ec.
    assert (Hok: M_StructUtils.positions_ok sw_pos = true) by (eapply identity_first_ok in Hi; exact Hi).
    rewrite (permutation_matrix_correct sw_pos mI v0 (fun b => b) Hok (id_row_symmetry sw_pos) sw_separated) in Ec.
    rewrite (permutation_matrix_correct sw_pos sw v0 swap2 Hok sw_symmetry sw_separated) in Ec.
    cbn [rbind] in Ec. injection Ec as <-. reflexivity. }
  rewrite Hp. cbn [equivalent_loop].
  assert (C1: candidate r (Fin skew) (mI, v0) (perm_matrix 2 (fun b => b)) = Ok (Fin skew)).
  { destruct (identity_candidate r [(sw, v0)] skew Hi Hl Hh) as (perms & _ & C). rewrite Hpos in C. exact C. }
  assert (Im: map (fun b => vmul (nth (swap2 b) skew v0) sw) (seq 0 2) = skew').
  { cbn [seq map nth swap2 skew]. unfold skew', sw. f_equal; [|f_equal]; apply V3_eq; vunf; lra. }
  assert (C2: candidate r (Fin skew) (sw, v0) (perm_matrix 2 swap2) = Ok (Fin skew')).
  { pose proof (candidate_exact r sw v0 swap2 skew) as C. rewrite Hpos in C.
    change (List.length sw_pos) with 2%nat in C. rewrite C; auto using sw_symmetry.
    - rewrite Im. reflexivity.
    - unfold skew, sw. repeat constructor; vunf; lra. }
  rewrite C1. cbn [rbind]. rewrite first_classify. cbn [rbind]. rewrite C2. cbn [rbind].
  assert (N1 : rows_norm skew = / 10) by (apply norm_tenth, skew_norm).
  assert (N2 : rows_norm skew' = / 10) by (apply norm_tenth, skew'_norm).
  assert (Cos : cosine (rowsR skew') (rowsR skew) = 4/9).
  { unfold cosine. rewrite inner_rows, !magnitude_rows, N1, N2. unfold skew, skew', rows_dot. vunf. field. }
  destruct (nonorth_read skew' skew 2 eq_refl eq_refl) as (O & _ & _ & Co); [lia|].
  assert (T : tol1 < / 10000) by (unfold tol1; lra).
  unfold classify at 1.
  assert (E1: is_orthogonal_to_all (flatten (Fin skew')) (map flatten [Fin skew]) = Ok 0%Z).
  { unfold is_orthogonal_to_all. cbn [map scan_from]. rewrite (proj2 O).
    - reflexivity.
    - intros (_ & _ & K). rewrite Cos, Rabs_right in K by lra. lra. }
  assert (E2: is_non_collinear_with_all (flatten (Fin skew')) (map flatten [Fin skew]) = Ok (-1)%Z).
  { unfold is_non_collinear_with_all. apply scan_all_false. intros a [<-|[]]. apply Co.
    intros (_ & _ & K). rewrite Cos, Rabs_right in K by lra. lra. }
  rewrite E1. cbn [rbind Z.eqb]. rewrite E2. reflexivity.
Qed.

Lemma skew_add s : im_ref s = r -> im_dummy s = false -> im_basis s = [] -> inv s ->
  exists s' w, add_dof (Fin skew) (vec_arr sw_amps) flat_pols 1 true s = ((s', w), Ok tt) /\ im_basis s' = [rows_scale 10 skew].
Proof.
  intros Hr Hdu Hb Hinv. destruct (sw_reference mI) as (r' & E & Hi & Hva & Hlat & Hpos). rewrite H in E. injection E as <-.
  assert (Hh: half_cell skew) by (apply half_cell_small; rewrite skew_norm; lra).
  assert (F: get_frac_displacement r skew = Ok skew).
  { unfold get_frac_displacement. rewrite Hlat, minv_mI. cbn [rbind]. rewrite rows_mul_mI, pbc_half_cell; auto. }
  assert (N1: rows_norm skew = / 10) by (apply norm_tenth; apply skew_norm).
  assert (P: over_norm 10 (Fin skew) = Fin skew).
  { destruct (parent_norm skew) as [-> _]; [lra|]. rewrite N1.
    replace (/ (10 * / 10)) with 1 by field. rewrite rows_scale_1. auto. }
  set (ps1 := [(0, m0); (- / 10, msub mI (im_refpol s)); (/ 10, msub mI (im_refpol s))]).
  do 2 eexists. split.
  1: rewrite (add_dof_complete (Fin skew) (vec_arr sw_amps) flat_pols 1 true s (Fin skew)
     [(Fin (rows_scale 10 skew), map (fun q : R * M3 => (Some (fst q), snd q)) ps1)]
     [rows_scale 10 skew] [ps1]).
  - reflexivity.
  - lia.
  - cbn [get_frac_displacement_arr]. rewrite Hr, F. reflexivity.
  - apply verify_ndarray_shape_spec. repeat constructor.
  - intros _. apply verify_ndarray_shape_spec. simpl. repeat constructor.
  - rewrite P. eapply get_dof_complete.
    + rewrite Hb. reflexivity.
    + rewrite Hr. apply skew_groups; auto.
    + unfold dof_pols. rewrite Hdu. unfold flat_pols. cbn [mats_arr ra_data vec_arr]. rewrite mats_of_entries, Hr.
      constructor; [|constructor].
      unfold dof_of_group. cbn [g_disp g_trans combine mapM]. unfold points_of. rewrite multiplier_one by lra.
      cbn [rbind]. rewrite minv_mI. erewrite mapM_all_ok by (intros; reflexivity). cbn [rbind].
      cbn [get_cart_displacement_arr]. unfold get_cart_displacement. rewrite Hlat, pbc_half_cell, rows_mul_mI by auto.
      assert (U : over_norm 1 (Fin skew) = Fin (rows_scale 10 skew)).
      { unfold over_norm, skew. fold skew. rewrite rows_scale_1, N1. destruct (Reqb (/ 10) 0) eqn:E0; [apply Reqb_true in E0; lra|]. do 2 f_equal. field. }
      rewrite U. do 2 f_equal. unfold sw_amps, ps1. cbn [combine map List.concat List.app fst snd option_map].
      rewrite !Rmult_1_l, !mmul_mI_l, !mmul_mI_r. reflexivity.
  - reflexivity.
  - repeat constructor.
  - constructor; [|constructor]. split; [exact ex_spaced|cbn; lia].
  - cbn [appended im_basis]. rewrite Hb. reflexivity.
Qed.

Let m00 := make_model r mI false.
Lemma m00_inv : inv m00.
Proof. apply make_model_inv. apply valid_reference_wf. eapply rigid_valid, mirror_rigid. Qed.

(** the skew displacement first, then one of the first atom: both are accepted *)
Lemma skew_along : exists m, all_return false [skew_call; along ez] m00 m.
Proof.
  destruct (skew_add m00 eq_refl eq_refl eq_refl m00_inv) as (s1 & w1 & A1 & B1).
  pose proof A1 as A0. apply add_dof_cases in A0 as [(e & Ee & _)|(_ & Ho & disp & dofs & bs & pss & H1 & H2 & H3 & H4 & H5 & H6 & H7 & H8 & E1)]; [discriminate|].
  assert (I1: inv s1) by (eapply add_dof_inv; [apply m00_inv|exact A1]).
  destruct (on_add r H s1 ez mI mI) as (s2 & w2 & A2 & B2); [rewrite E1; auto|rewrite E1; auto|exact I1|unfold ez; vunf; lra| |].
  { rewrite B1. intros b [<-|[]]. unfold skew, ez, on1, rows_scale, rows_dot. vunf. lra. }
  exists s2. cbn [all_return]. exists s1, w1. split; [exact A1|]. exists s2, w2. split; [exact A2|reflexivity].
Qed.

(** in the other order they are not *)
Lemma along_skew : ~ exists m, all_return false [along ez; skew_call] m00 m.
Proof.
  intros (m & A). apply all_return_iff in A as (W & _ & F & _).
  inversion F as [|? ? F1 _]; subst. apply Forall_inv in F1.
  pose proof (Forall_inv W) as Wa. pose proof (Forall_inv (Forall_inv_tail W)) as Wb.
  assert (Nz : vnorm2 ez = / 100) by (unfold ez; vunf; lra).
  eapply (accepted_images mI sw_pos sw_ops r mirror_rigid false m00 eq_refl (along ez) skew_call (on1 ez) skew Wa (along_starts ez Nz) eq_refl Wb skew_starts eq_refl (along_listed ez Nz)) in F1.
  2: right; left; reflexivity. 2: cbn [fst snd]; apply sw_symmetry.
  cbn [fst snd] in F1. destruct F1 as (_ & _ & F1). unfold im in F1. cbn [sw_pos List.length seq map swap2 nth fst on1] in F1.
  rewrite !rows_mul_mI in F1. unfold cosine in F1. rewrite inner_rows, !magnitude_rows in F1.
  assert (N1: rows_norm skew = / 10) by (apply norm_tenth; apply skew_norm). rewrite N1 in F1.
  assert (N2: rows_norm [vmul v0 sw; vmul ez sw] = / 10).
  { apply norm_tenth. unfold ez, sw, rows_norm2, rows_dot. vunf. lra. }
  rewrite N2 in F1.
  assert (D: rows_dot skew [vmul v0 sw; vmul ez sw] = / 150).
  { unfold skew, ez, sw, rows_dot. vunf. lra. }
  rewrite D in F1. replace (/ 150 / (/ 10 * / 10)) with (2/3) in F1 by field.
  rewrite Rabs_right in F1 by lra. unfold tol1 in F1. lra.
Qed.

(** two displacements of the first atom: accepted in both orders *)
Lemma two_along v w : vnorm2 v = / 100 -> vnorm2 w = / 100 -> vdot v w = 0 ->
  exists m, all_return false [along v; along w] m00 m /\
    im_basis m = [on1 (vscale 10 v); on2 (vscale 10 (vmul v sw)); on1 (vscale 10 w); on2 (vscale 10 (vmul w sw))].
Proof.
  intros Nv Nw D.
  destruct (on_add r H m00 v mI mI eq_refl eq_refl m00_inv Nv) as (s1 & w1 & A1 & B1); [intros b []|].
  pose proof A1 as A0. apply add_dof_cases in A0 as [(e & Ee & _)|(_ & Ho & disp & dofs & bs & pss & H1 & H2 & H3 & H4 & H5 & H6 & H7 & H8 & E1)]; [discriminate|].
  assert (I1: inv s1) by (eapply add_dof_inv; [apply m00_inv|exact A1]).
  cbn [m00 make_model im_basis List.app] in B1.
  destruct (on_add r H s1 w mI mI) as (s2 & w2 & A2 & B2); [rewrite E1; auto|rewrite E1; auto|exact I1|exact Nw| |].
  { rewrite B1. intros b [<-|[<-|[]]]; rewrite ?dot11, ?dot21, ?dot_ten1, ?D; lra. }
  exists s2. split; [|rewrite B2, B1; reflexivity]. exists s1, w1. split; [exact A1|]. exists s2, w2. split; [exact A2|reflexivity].
Qed.
End Built.

Lemma f_C91_refuted : ~ forall L pos ops r art m0 calls calls', rigid_symmetries L pos ops r -> im_ref m0 = r -> consistent m0 ->
  Forall (fun a => exists d, starts_from r a d /\ List.length d = List.length pos) calls ->
  Permutation calls calls' ->
  (exists m, all_return art calls m0 m) -> (exists m, all_return art calls' m0 m).
Proof.
  intros G. destruct (sw_reference mI) as (r & E & _). apply (along_skew r E).
  apply (G mI sw_pos sw_ops r false (make_model r mI false) [skew_call; along ez] [along ez; skew_call]).
  - apply mirror_rigid; auto.
  - reflexivity.
  - repeat split; auto.
  - constructor; [|constructor; [|constructor]].
    + exists skew. split; [apply skew_starts; auto|reflexivity].
    + exists (on1 ez). split; [apply along_starts; auto; unfold ez; vunf; lra|reflexivity].
  - apply perm_swap.
  - apply skew_along; auto.
Qed.

Lemma ex_C91 : exists r m m', rigid_symmetries mI sw_pos sw_ops r /\
  all_return false [along ex; along ez] (make_model r mI false) m /\
  all_return false [along ez; along ex] (make_model r mI false) m' /\
  im_basis m <> im_basis m' /\
  Forall (fun a => exists d, starts_from r a d /\ List.length d = List.length sw_pos /\ images_listed sw_pos sw_ops r d) [along ex; along ez].
Proof.
  destruct (sw_reference mI) as (r & E & _). exists r.
  assert (N1: vnorm2 ex = / 100) by (unfold ex; vunf; lra). assert (N2: vnorm2 ez = / 100) by (unfold ez; vunf; lra).
  destruct (two_along r E ex ez N1 N2) as (m & A & B); [unfold ex, ez; vunf; lra|].
  destruct (two_along r E ez ex N2 N1) as (m' & A' & B'); [unfold ex, ez; vunf; lra|].
  exists m, m'. split; [apply mirror_rigid; auto|]. split; [auto|]. split; [auto|]. split.
  - rewrite B, B'. intros C. apply (f_equal (fun l => vx (nth 0 (nth 0 l []) v0))) in C. unfold ex, ez in C. cbn in C. lra.
  - constructor; [|constructor; [|constructor]]; eexists; (split; [apply along_starts; auto|]); (split; [reflexivity|apply along_listed; auto]).
Qed.
