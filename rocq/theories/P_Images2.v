(** Two atoms exchanged by a diagonal mirror plane: a square cell, where the symmetry
    images of polarizability data are right, and an oblique one, where they are not. *)
From Coq Require Import String ZArith Reals Lra Lia Psatz Bool Arith List.
From Verif Require Import Base LinAlg M_Validate M_StructUtils M_Symmetry M_Reference M_Interp
  S_Lattice S_Vec S_Symmetry S_Equivalent S_Interp S_Images P_StructUtils P_Symmetry P_Equivalent P_Equiv2 P_Equiv3 P_EquivTotal
  P_StructFinal P_Examples1
  P_Interp P_Interp2 P_InterpEval P_Interp3 P_Interp4 P_Interp5 P_Interp6 P_Interp7 P_Examples2 P_Images.
Import ListNotations.
Local Open Scope R_scope.

Definition sw : M3 := mkM (mkV 0 1 0) (mkV 1 0 0) (mkV 0 0 1).
Definition sw_pos : list V3 := [mkV (1/10) (3/10) 0; mkV (3/10) (1/10) 0].
Definition sw_ops : list (M3 * V3) := [(mI, v0); (sw, v0)].
Definition sw_d1 : list V3 := [mkV 0 0 (/10); v0].
Definition sw_d2 : list V3 := [v0; mkV 0 0 (/10)].
Definition e3rows1 : list V3 := [mkV 0 0 1; v0].
Definition e3rows2 : list V3 := [v0; mkV 0 0 1].

Lemma sw_pos_ok : Forall (vall (fun x => 0 <= x <= 1)) sw_pos.
Proof. unfold sw_pos. repeat (constructor; [unfold vall; simpl; lra|]). constructor. Qed.
Lemma sw_symmetry : row_symmetry sw_pos sw v0 swap2.
Proof.
  split; [|split; [apply ex_swap|]].
  - unfold sw. repeat split; simpl; try (exists 0%Z; reflexivity); exists 1%Z; reflexivity.
  - intros [|[|b]] H; simpl in *; try lia; unfold vcongr, sw; vunf; (split; [exists 0%Z|split; [exists 0%Z|exists 0%Z]]; lra).
Qed.
Lemma sw_separated : separated (/ 100000) sw_pos.
Proof.
  intros b c [n1 n2 n3] Hb Hc N ((k1 & H1) & _). simpl in H1. subst n1.
  assert (I: (k1 = 0)%Z \/ IZR k1 <= -1 \/ 1 <= IZR k1).
  { destruct (Z.eq_dec k1 0); auto. right. destruct (Z_lt_le_dec k1 0);
    [left; replace (-1) with (IZR (-1)) by reflexivity|right; replace 1 with (IZR 1) by reflexivity];
    apply IZR_le; lia. }
  apply Rsqr_incr_0_var; [|apply sqrt_pos]. rewrite Rsqr_sqrt by apply vnorm2_nonneg.
  unfold Rsqr, vnorm2, vdot.
  destruct b as [|[|b]], c as [|[|c]]; simpl in Hb, Hc; try lia; simpl.
  all: match goal with |- _ <= ?x * ?x + ?y * ?y + ?z * ?z =>
    assert (4/100 <= x * x) by (destruct I as [->|[?|?]]; nra);
    pose proof (Rle_0_sqr y); pose proof (Rle_0_sqr z); unfold Rsqr in *; lra end.
Qed.
Lemma sw_inv : minv sw = Ok sw.
Proof.
  destruct (minv_exists sw) as (i & H); [unfold sw; vunf; lra|]. rewrite H. f_equal. symmetry.
  apply (minv_unique sw i sw); auto. unfold sw. vring.
Qed.

Lemma sw_reference L : exists r, make_reference [8%Z; 8%Z] L sw_pos (Some (sw_ops, [0%nat; 0%nat])) = Ok r /\
  identity_first r [(sw, v0)] /\ valid_reference r /\ rs_lattice r = L /\ rs_positions r = sw_pos.
Proof.
  destruct (f_C07c [8%Z; 8%Z] L sw_pos sw_ops [0%nat; 0%nat] sw_pos_ok eq_refl) as (r & H & _ & H2 & H3 & H4).
  assert (Hi: identity_first r [(sw, v0)]).
  { exists [8%Z; 8%Z], L, sw_pos, [0%nat; 0%nat]. split; [auto|]. split; [simpl; lia|apply sw_separated]. }
  exists r. split; [auto|]. split; [auto|]. split; [eapply identity_first_valid; eauto|auto].
Qed.

Lemma sw_d_norm2 : rows_norm2 sw_d1 = / 100.
Proof. unfold sw_d1, rows_norm2, rows_dot. vunf. lra. Qed.
Lemma norm_tenth p : rows_norm2 p = / 100 -> rows_norm p = / 10.
Proof.
  intros H. unfold rows_norm. rewrite H. replace (/ 100) with (Rsqr (/ 10)) by (unfold Rsqr; lra). apply sqrt_Rsqr. lra.
Qed.
Lemma norm_one p : rows_norm2 p = 1 -> rows_norm p = 1.
Proof. intros H. unfold rows_norm. rewrite H. apply sqrt_1. Qed.

Lemma sw_groups L r : make_reference [8%Z; 8%Z] L sw_pos (Some (sw_ops, [0%nat; 0%nat])) = Ok r ->
  get_equivalent_displacements r (Fin sw_d1)
  = Ok [mkGroup [Fin sw_d1] [(mI, v0)]; mkGroup [Fin sw_d2] [(sw, v0)]].
Proof.
  intros H. pose proof H as H'. destruct (sw_reference L) as (r' & E & Hi & Hv & Hlat & Hpos).
  rewrite H in E. injection E as <-.
  unfold get_equivalent_displacements. rewrite scale_parent by apply sw_d_norm2.
  assert (Hl: List.length sw_d1 = List.length (rs_positions r)) by (rewrite Hpos; auto).
  destruct (displace_positions_same (rs_positions r) sw_d1) as (q & ->); eauto using identity_first_ok. simpl.
  assert (Hh: half_cell sw_d1) by (unfold sw_d1; repeat constructor; simpl; lra).
  assert (Hp: exists P, combine (rs_ops r) (rs_perms r) =
     [((mI, v0), perm_matrix 2 (fun b => b)); ((sw, v0), perm_matrix 2 swap2)] /\ P = 0%nat).
  { exists 0%nat. split; [|auto]. unfold make_reference in H'.
    destruct (verify_list_len _ _); simpl in H'; [|discriminate].
    destruct (compute_permutation_matrices sw_ops sw_pos) as [perms|] eqn:Ec; simpl in H'; [|discriminate].
    injection H' as <-. cbn [rs_positions rs_ops rs_perms] in *.
    unfold compute_permutation_matrices, sw_ops in Ec. cbn [mapM] in Ec.
    assert (Hok: positions_ok sw_pos = true) by (eapply identity_first_ok in Hi; exact Hi).
    rewrite (permutation_matrix_correct sw_pos mI v0 (fun b => b) Hok (id_row_symmetry sw_pos) sw_separated) in Ec.
    rewrite (permutation_matrix_correct sw_pos sw v0 swap2 Hok sw_symmetry sw_separated) in Ec.
    cbn [rbind] in Ec. injection Ec as <-. reflexivity. }
  destruct Hp as (_ & -> & _). cbn [equivalent_loop].
  assert (C1: candidate r (Fin sw_d1) (mI, v0) (perm_matrix 2 (fun b => b)) = Ok (Fin sw_d1)).
  { destruct (identity_candidate r [(sw, v0)] sw_d1 Hi Hl Hh) as (perms & _ & C). rewrite Hpos in C. exact C. }
  assert (C2: candidate r (Fin sw_d1) (sw, v0) (perm_matrix 2 swap2) = Ok (Fin sw_d2)).
  { pose proof (candidate_exact r sw v0 swap2 sw_d1) as C. rewrite Hpos in C. 
    change (List.length sw_pos) with 2%nat in C. rewrite C; auto using sw_symmetry.
    - f_equal. f_equal. cbn [seq map nth swap2 sw_d1]. unfold sw_d2, sw. repeat f_equal; vring.
    - unfold sw_d1, sw. repeat constructor; vunf; lra. }
  rewrite C1. cbn [rbind]. rewrite first_classify. cbn [rbind]. rewrite C2. cbn [rbind].
  unfold classify at 1.
  assert (O: is_orthogonal_to_all (flatten (Fin sw_d2)) (map flatten [Fin sw_d1]) = Ok (-1)%Z).
  { unfold is_orthogonal_to_all. apply scan_all_false. intros a [<-|[]].
    destruct (non_orthogonal_spec (flatten_rows sw_d2) (flatten_rows sw_d1)) as (t & T1 & T2); [reflexivity|discriminate|].
    cbn [flatten]. rewrite T1. f_equal. destruct t; auto. exfalso. apply (proj1 T2 eq_refl).
    split; [|split].
    - exists (/ 10). split; [cbn; auto 10|lra].
    - exists (/ 10). split; [cbn; auto 10|lra].
    - unfold cosine. replace (inner (flatten_rows sw_d2) (flatten_rows sw_d1)) with 0.
      2: { unfold inner, flatten_rows. cbn. ring. }
      unfold Rdiv. rewrite Rmult_0_l, Rabs_R0. pose proof tol1_bounds. lra. }
  rewrite O. reflexivity.
Qed.

Definition sw_amps : list R := [- / 10; / 10].
Definition sw_pts (ref q1 q2 : M3) : list (R * M3) := [(0, m0); (- / 10, msub q1 ref); (/ 10, msub q2 ref)].
Definition sw_pts' (ref q1 q2 : M3) : list (R * M3) :=
  [(0, m0); (- / 10, mmul (mmul sw (msub q1 ref)) sw); (/ 10, mmul (mmul sw (msub q2 ref)) sw)].

Lemma sw_add L r ref q1 q2 : make_reference [8%Z; 8%Z] L sw_pos (Some (sw_ops, [0%nat; 0%nat])) = Ok r ->
  mdet L <> 0 -> r2 L = mkV 0 0 1 ->
  get_frac_displacement r sw_d1 = Ok sw_d1 /\
  exists w, add_dof (Fin sw_d1) (vec_arr sw_amps) (mats_arr [q1; q2]) 1 true (make_model r ref false) =
    ((appended (make_model r ref false) [e3rows1; e3rows2]
       (map (fun ps => mkSpline 1 (sort_pts ps)) [sw_pts ref q1 q2; sw_pts' ref q1 q2]), w), Ok tt).
Proof.
  intros H HL H2. destruct (sw_reference L) as (r' & E & Hi & Hv & Hlat & Hpos). rewrite H in E. injection E as <-.
  assert (D: rows_mul sw_d1 L = sw_d1).
  { unfold sw_d1. cbn [rows_mul map]. destruct L as [a b [x y z]]. cbn in H2. injection H2 as -> -> ->.
    repeat f_equal; vunf; f_equal; ring. }
  assert (D2: rows_mul sw_d2 L = sw_d2).
  { unfold sw_d2. cbn [rows_mul map]. destruct L as [a b [x y z]]. cbn in H2. injection H2 as -> -> ->.
    repeat f_equal; vunf; f_equal; ring. }
  assert (Hh: half_cell sw_d1) by (unfold sw_d1; repeat constructor; simpl; lra).
  assert (Hh2: half_cell sw_d2) by (unfold sw_d2; repeat constructor; simpl; lra).
  destruct (minv_exists _ HL) as (li & Li).
  assert (F: get_frac_displacement r sw_d1 = Ok sw_d1).
  { unfold get_frac_displacement. rewrite Hlat, Li. cbn [rbind]. rewrite <- D at 1.
    rewrite (cart_frac _ _ _ Li), pbc_half_cell; auto. }
  split; [exact F|]. eexists.
  assert (N10: rows_norm sw_d1 = / 10) by (apply norm_tenth, sw_d_norm2).
  assert (P: over_norm 10 (Fin sw_d1) = Fin sw_d1).
  { destruct (parent_norm sw_d1) as [-> _]; [lra|]. rewrite N10.
    replace (/ (10 * / 10)) with 1 by field. rewrite rows_scale_1. auto. }
  assert (N20: rows_norm sw_d2 = / 10).
  { apply norm_tenth. unfold sw_d2, rows_norm2, rows_dot. vunf. lra. }
  assert (U1: over_norm 1 (get_cart_displacement_arr r (Fin sw_d1)) = Fin e3rows1).
  { cbn [get_cart_displacement_arr]. unfold get_cart_displacement. rewrite Hlat, pbc_half_cell, D by auto.
    unfold over_norm. unfold sw_d1 at 1. cbv iota. rewrite rows_scale_1. fold sw_d1.
    rewrite N10. destruct (Reqb (/ 10) 0) eqn:E0; [apply Reqb_true in E0; lra|]. f_equal.
    unfold sw_d1, e3rows1. cbn [rows_scale map]. repeat f_equal; vunf; f_equal; field. }
  assert (U2: over_norm 1 (get_cart_displacement_arr r (Fin sw_d2)) = Fin e3rows2).
  { cbn [get_cart_displacement_arr]. unfold get_cart_displacement. rewrite Hlat, pbc_half_cell, D2 by auto.
    unfold over_norm. unfold sw_d2 at 1. cbv iota. rewrite rows_scale_1. fold sw_d2.
    rewrite N20. destruct (Reqb (/ 10) 0) eqn:E0; [apply Reqb_true in E0; lra|]. f_equal.
    unfold sw_d2, e3rows2. cbn [rows_scale map]. repeat f_equal; vunf; f_equal; field. }
  rewrite (add_dof_complete (Fin sw_d1) (vec_arr sw_amps) (mats_arr [q1; q2]) 1 true (make_model r ref false) (Fin sw_d1)
     [(Fin e3rows1, map (fun q : R * M3 => (Some (fst q), snd q)) (sw_pts ref q1 q2));
      (Fin e3rows2, map (fun q : R * M3 => (Some (fst q), snd q)) (sw_pts' ref q1 q2))]
     [e3rows1; e3rows2] [sw_pts ref q1 q2; sw_pts' ref q1 q2]).
  - reflexivity.
  - lia.
  - cbn [im_ref make_model get_frac_displacement_arr]. rewrite F. reflexivity.
  - apply verify_ndarray_shape_spec. repeat constructor.
  - intros _. apply verify_ndarray_shape_spec. simpl. repeat constructor.
  - rewrite P. eapply get_dof_complete.
    + reflexivity.
    + apply sw_groups with (1 := H).
    + unfold dof_pols. cbn [im_dummy make_model mats_arr ra_data vec_arr im_ref im_refpol]. rewrite mats_of_entries.
      constructor; [|constructor; [|constructor]].
      * unfold dof_of_group. cbn [g_disp g_trans combine mapM]. unfold points_of. rewrite multiplier_one by lra.
        cbn [rbind]. rewrite minv_mI. erewrite mapM_all_ok by (intros; reflexivity). cbn [rbind]. rewrite U1.
        do 2 f_equal. unfold sw_amps, sw_pts. cbn [combine map List.concat List.app fst snd option_map].
        rewrite !Rmult_1_l, !mmul_mI_l, !mmul_mI_r. reflexivity.
      * unfold dof_of_group. cbn [g_disp g_trans combine mapM]. unfold points_of. rewrite multiplier_one by lra.
        cbn [rbind]. rewrite sw_inv. erewrite mapM_all_ok by (intros; reflexivity). cbn [rbind]. rewrite U2.
        do 2 f_equal. unfold sw_amps, sw_pts'. cbn [combine map List.concat List.app fst snd option_map].
        rewrite !Rmult_1_l. reflexivity.
  - reflexivity.
  - repeat constructor.
  - constructor; [|constructor; [|constructor]]; (split; [exact ex_spaced|cbn; lia]).
Qed.

(** ** The two cells *)
Definition oblique : M3 := mkM (mkV 2 1 0) (mkV 2 (-1) 0) (mkV 0 0 1).
Definition sw_q : M3 := mkM (mkV 1 0 0) (mkV 0 (-1) 0) (mkV 0 0 1).
Definition sw_alpha : M3 := mkM (mkV 2 0 0) (mkV 0 1 0) (mkV 0 0 1).
Definition sw_p : list V3 := [mkV (1/10) (3/10) 0; mkV (3/10) (1/10) (/10)].

Lemma sw_sample L : mdet L <> 0 -> r2 L = mkV 0 0 1 -> exists r s', 
  make_reference [8%Z; 8%Z] L sw_pos (Some (sw_ops, [0%nat; 0%nat])) = Ok r /\ rs_lattice r = L /\ rs_positions r = sw_pos /\
  image_sample (make_model r mI false) s' sw sw_alpha sw_p.
Proof.
  intros HL H2. destruct (sw_reference L) as (r & E & Hi & Hv & Hlat & Hpos).
  destruct (sw_add L r mI sw_alpha sw_alpha E HL H2) as (F & w & A).
  exists r. eexists. split; [auto|split; [auto|split; [auto|]]].
  exists sw_d1, sw_d1, (vec_arr sw_amps), (mats_arr [sw_alpha; sw_alpha]).
  exists [mkGroup [Fin sw_d1] [(mI, v0)]; mkGroup [Fin sw_d2] [(sw, v0)]], 1%nat, (mkGroup [Fin sw_d2] [(sw, v0)]), sw_d2, [], 0%nat, sw_d2, v0, 1%nat, (/ 10), e3rows2.
  split; [|split; [reflexivity|]].
  { split; [|split; [reflexivity|split; [reflexivity|split; [reflexivity|split; [|split; [discriminate|split; [|split]]]]]]].
    - exists r, mI, false, []. split; [auto|]. repeat constructor.
    - cbn [im_ref make_model]. rewrite Hpos. reflexivity.
    - exists 1%Z, w. exact A.
    - exact F.
    - apply sw_groups with (1 := E). }
  split; [reflexivity|split; [reflexivity|split; [reflexivity|split; [auto|split; [reflexivity|]]]]].
  split.
  { intros [|[|j']] c Hj Hc; cbn in Hc; [|cbn in Hj; lia|destruct j'; discriminate].
    injection Hc as <-. rewrite inner_rows. unfold e3rows1, e3rows2, rows_dot. vunf. ring. }
  split; [reflexivity|split; [|split]].
  - cbn [mats_arr ra_data]. rewrite mats_of_entries. reflexivity.
  - cbn [im_ref make_model]. rewrite Hpos. reflexivity.
  - cbn [im_ref make_model]. exists sw_d2. split.
    + rewrite Hpos. unfold sw_p, sw_pos, sw_d2, rows_sub. cbn [map2]. repeat constructor; cbn; try lra; exists 0%Z; cbn; lra.
    + rewrite Hlat. assert (D2: rows_mul sw_d2 L = sw_d2).
      { unfold sw_d2. cbn [rows_mul map]. destruct L as [a b [x y z]]. cbn in H2. injection H2 as -> -> ->.
        repeat f_equal; vunf; f_equal; ring. }
      rewrite D2. unfold direction_of. rewrite magnitude_rows.
      assert (N20: rows_norm sw_d2 = / 10) by (apply norm_tenth; unfold sw_d2, rows_norm2, rows_dot; vunf; lra).
      rewrite N20, rows_scale_scale. replace (/ 10 * / / 10) with 1 by field. rewrite rows_scale_1. auto.
Qed.

Lemma sw_self : mmul sw sw = mI.
Proof. unfold sw. vring. Qed.

Lemma sw_carried : carried sw sw_alpha = mkM (mkV 1 0 0) (mkV 0 2 0) (mkV 0 0 1).
Proof.
  unfold carried. replace (mmul (mtrans sw) sw_alpha) with (mkM (mkV 0 1 0) (mkV 2 0 0) (mkV 0 0 1)) by (unfold sw, sw_alpha; vring).
  unfold sw. vring.
Qed.

Lemma ex_C83 : exists s s' R alpha p, image_sample s s' R alpha p /\ R <> mI /\ isometry R /\
  cartesian_form (rs_lattice (im_ref s)) R R /\ carried R (im_refpol s) = im_refpol s /\
  mmul R (rs_lattice (im_ref s)) = mmul (rs_lattice (im_ref s)) R /\ carried R alpha <> alpha.
Proof.
  destruct (sw_sample mI) as (r & s' & E & Hlat & Hpos & Hs); [rewrite mdet_mI; lra|reflexivity|].
  exists (make_model r mI false), s', sw, sw_alpha, sw_p. split; [auto|].
  cbn [im_ref im_refpol make_model]. rewrite Hlat.
  split; [|split; [|split; [|split; [|split]]]].
  - intros C. apply (f_equal (fun m => LinAlg.vx (r0 m))) in C. cbn in C. lra.
  - split; unfold sw; vring.
  - unfold cartesian_form, sw. vring.
  - unfold carried. rewrite mmul_mI_r. unfold sw. vring.
  - unfold sw. vring.
  - intros C. rewrite sw_carried in C. apply (f_equal (fun m => LinAlg.vx (r0 m))) in C. cbn in C. lra.
Qed.

Lemma sw_q_iso : isometry sw_q.
Proof. split; unfold sw_q; vring. Qed.
Lemma sw_q_form : cartesian_form oblique sw sw_q.
Proof. unfold cartesian_form, sw, oblique, sw_q. vring. Qed.
Lemma sw_q_mI : carried sw_q mI = mI.
Proof. unfold carried. rewrite mmul_mI_r. apply sw_q_iso. Qed.
Lemma sw_true : carried sw_q sw_alpha = sw_alpha.
Proof.
  unfold carried. replace (mmul (mtrans sw_q) sw_alpha) with (mkM (mkV 2 0 0) (mkV 0 (-1) 0) (mkV 0 0 1)) by (unfold sw_q, sw_alpha; vring).
  unfold sw_q, sw_alpha. vring.
Qed.
Lemma sw_image : madd mI (mmul (mmul sw (msub sw_alpha mI)) sw) = mkM (mkV 1 0 0) (mkV 0 2 0) (mkV 0 0 1).
Proof.
  replace (msub sw_alpha mI) with (mkM (mkV 1 0 0) v0 v0) by (unfold sw_alpha; vring).
  replace (mmul sw (mkM (mkV 1 0 0) v0 v0)) with (mkM v0 (mkV 1 0 0) v0) by (unfold sw; vring).
  replace (mmul (mkM v0 (mkV 1 0 0) v0) sw) with (mkM v0 (mkV 0 1 0) v0) by (unfold sw; vring).
  vring.
Qed.

Lemma f_C83_refuted : ~ (forall spl s s' R Q alpha p pi t, interpolating spl -> image_sample s s' R alpha p ->
  row_symmetry (rs_positions (im_ref s)) R t pi ->
  isometry Q -> cartesian_form (rs_lattice (im_ref s)) R Q -> carried Q (im_refpol s) = im_refpol s ->
  calc_polarizabilities spl s' (batch_of (List.length (rs_positions (im_ref s))) [p]) = Ok [carried Q alpha]).
Proof.
  intros H. destruct (sw_sample oblique) as (r & s' & E & Hlat & Hpos & Hs); [unfold oblique; vunf; lra|reflexivity|].
  destruct interpolating_exists as (spl & Hi).
  specialize (H spl (make_model r mI false) s' sw sw_q sw_alpha sw_p swap2 v0 Hi Hs).
  cbn [im_ref im_refpol make_model] in H. rewrite Hlat, Hpos in H.
  destruct (f_C83_data spl _ _ _ _ _ Hi Hs) as (Ri & Hinv & C).
  cbn [im_ref im_refpol make_model] in C. rewrite Hpos in C. rewrite C in H.
  assert (Ri = sw) as ->.
  { apply (inverse_unique sw Ri sw Hinv). split; apply sw_self. }
  clear Hinv C Hs E.
  assert (K: Ok [madd mI (mmul (mmul sw (msub sw_alpha mI)) sw)] = Ok [carried sw_q sw_alpha]).
  { apply H; [apply sw_symmetry|apply sw_q_iso|apply sw_q_form|apply sw_q_mI]. }
  clear H. assert (K': madd mI (mmul (mmul sw (msub sw_alpha mI)) sw) = carried sw_q sw_alpha)
    by exact (f_equal (fun r => match r with Ok (x :: _) => x | _ => m0 end) K).
  clear K. rename K' into K. rewrite sw_image, sw_true in K. apply (f_equal (fun m => LinAlg.vx (r0 m))) in K.
  cbn in K. lra.
Qed.
