(** Two atoms exchanged by a mirror plane, fully sampled in two ways: a case of C85 and C86. *)
From Coq Require Import String ZArith Reals Lra Lia Psatz Bool Arith List.
From Verif Require Import Base LinAlg M_Validate M_StructUtils M_Symmetry M_Reference M_Interp M_Art M_Spectrum M_Dynamics
  S_Lattice S_Vec S_Symmetry S_Equivalent S_Interp S_Images S_Response S_Spectrum P_StructUtils P_Symmetry P_Equivalent P_Equiv2 P_Equiv3 P_EquivTotal
  P_StructFinal P_Examples1
  P_Interp P_Interp2 P_InterpEval P_Interp3 P_Interp4 P_Interp5 P_Interp6 P_Interp7 P_Examples2 P_Images P_Images2
  P_Response P_Response2 P_Response3.
Import ListNotations.
Local Open Scope R_scope.

Definition on1 (v : V3) : list V3 := [v; v0].
Definition on2 (v : V3) : list V3 := [v0; v].
Lemma on1_norm v : rows_norm2 (on1 v) = vnorm2 v.
Proof. unfold on1, rows_norm2, rows_dot. destruct v; vunf. ring. Qed.
Lemma on2_norm v : rows_norm2 (on2 v) = vnorm2 v.
Proof. unfold on2, rows_norm2, rows_dot. destruct v; vunf. ring. Qed.
Lemma sw_norm v : vnorm2 (vmul v sw) = vnorm2 v.
Proof. destruct v; unfold sw; vunf. ring. Qed.

Section Built.
Context (r : refstruct) (H : make_reference [8%Z; 8%Z] mI sw_pos (Some (sw_ops, [0%nat; 0%nat])) = Ok r).

Lemma on_groups v : vnorm2 v = / 100 ->
  get_equivalent_displacements r (Fin (on1 v))
  = Ok [mkGroup [Fin (on1 v)] [(mI, v0)]; mkGroup [Fin (on2 (vmul v sw))] [(sw, v0)]].
Proof.
  intros Hv. pose proof H as H'. destruct (sw_reference mI) as (r' & E & Hi & Hva & Hlat & Hpos).
  rewrite H in E. injection E as <-.
  unfold get_equivalent_displacements. rewrite scale_parent by (rewrite on1_norm; auto).
  assert (Hl: List.length (on1 v) = List.length (rs_positions r)) by (rewrite Hpos; auto).
  destruct (displace_positions_same (rs_positions r) (on1 v)) as (q & ->); eauto using identity_first_ok. simpl.
  assert (Hh: half_cell (on1 v)) by (apply half_cell_small; rewrite on1_norm, Hv; lra).
  assert (Hp: combine (rs_ops r) (rs_perms r) =
     [((mI, v0), perm_matrix 2 (fun b => b)); ((sw, v0), perm_matrix 2 swap2)]).
  { unfold make_reference in H'.
    destruct (verify_list_len _ _); simpl in H'; [|discriminate].
    destruct (compute_permutation_matrices sw_ops sw_pos) as [perms|] eqn:Ec; simpl in H'; [|discriminate].
    injection H' as <-. cbn [rs_positions rs_ops rs_perms] in *.
    unfold compute_permutation_matrices, sw_ops in Ec. cbn [mapM] in Ec.
    assert (Hok: positions_ok sw_pos = true) by (eapply identity_first_ok in Hi; exact Hi).
    rewrite (permutation_matrix_correct sw_pos mI v0 (fun b => b) Hok (id_row_symmetry sw_pos) sw_separated) in Ec.
    rewrite (permutation_matrix_correct sw_pos sw v0 swap2 Hok sw_symmetry sw_separated) in Ec.
    cbn [rbind] in Ec. injection Ec as <-. reflexivity. }
  rewrite Hp. cbn [equivalent_loop].
  assert (C1: candidate r (Fin (on1 v)) (mI, v0) (perm_matrix 2 (fun b => b)) = Ok (Fin (on1 v))).
  { destruct (identity_candidate r [(sw, v0)] (on1 v) Hi Hl Hh) as (perms & _ & C). rewrite Hpos in C. exact C. }
  assert (C2: candidate r (Fin (on1 v)) (sw, v0) (perm_matrix 2 swap2) = Ok (Fin (on2 (vmul v sw)))).
  { pose proof (candidate_exact r sw v0 swap2 (on1 v)) as C. rewrite Hpos in C.
    change (List.length sw_pos) with 2%nat in C. rewrite C; auto using sw_symmetry.
    - f_equal. f_equal. cbn [seq map nth swap2 on1]. rewrite vmul_v0. reflexivity.
    - assert (K: half_cell (on1 (vmul v sw))) by (apply half_cell_small; rewrite on1_norm, sw_norm, Hv; lra).
      unfold on1 in K |- *. inversion K as [|? ? K1 K2]; subst. constructor; [exact K1|constructor; [|constructor]].
      rewrite vmul_v0. inversion K2; auto. }
  rewrite C1. cbn [rbind]. rewrite first_classify. cbn [rbind]. rewrite C2. cbn [rbind].
  unfold classify at 1.
  assert (O: is_orthogonal_to_all (flatten (Fin (on2 (vmul v sw)))) (map flatten [Fin (on1 v)]) = Ok (-1)%Z).
  { unfold is_orthogonal_to_all. apply scan_all_false. intros a [<-|[]].
    destruct (non_orthogonal_spec (flatten_rows (on2 (vmul v sw))) (flatten_rows (on1 v))) as (t & T1 & T2); [reflexivity|discriminate|].
    cbn [flatten]. rewrite T1. f_equal. destruct t; auto. exfalso. apply (proj1 T2 eq_refl).
    split; [|split].
    - apply nonzero_inner. rewrite <- rows_dot_flat. fold (rows_norm2 (on2 (vmul v sw))). rewrite on2_norm, sw_norm, Hv. lra.
    - apply nonzero_inner. rewrite <- rows_dot_flat. fold (rows_norm2 (on1 v)). rewrite on1_norm, Hv. lra.
    - unfold cosine. rewrite <- rows_dot_flat. replace (rows_dot (on2 (vmul v sw)) (on1 v)) with 0.
      2: { unfold on1, on2, rows_dot. generalize (vmul v sw). intros w. destruct w, v. vunf. ring. }
      unfold Rdiv. rewrite Rmult_0_l, Rabs_R0. pose proof tol1_bounds. lra. }
  rewrite O. reflexivity.
Qed.

Lemma on_add s v q1 q2 : im_ref s = r -> im_dummy s = false -> inv s -> vnorm2 v = / 100 ->
  (forall b, In b (im_basis s) -> rows_dot b (on1 v) = 0) ->
  exists s' w, add_dof (Fin (on1 v)) (vec_arr sw_amps) (mats_arr [q1; q2]) 1 true s = ((s', w), Ok tt) /\
    im_basis s' = im_basis s ++ [on1 (vscale 10 v); on2 (vscale 10 (vmul v sw))].
Proof.
  intros Hr Hdu Hinv Hv Ho. destruct (sw_reference mI) as (r' & E & Hi & Hva & Hlat & Hpos). rewrite H in E. injection E as <-.
  assert (Hh: half_cell (on1 v)) by (apply half_cell_small; rewrite on1_norm, Hv; lra).
  assert (Hh2: half_cell (on2 (vmul v sw))) by (apply half_cell_small; rewrite on2_norm, sw_norm, Hv; lra).
  assert (F: get_frac_displacement r (on1 v) = Ok (on1 v)).
  { unfold get_frac_displacement. rewrite Hlat, minv_mI. cbn [rbind]. rewrite rows_mul_mI, pbc_half_cell; auto. }
  assert (N1: rows_norm (on1 v) = / 10) by (apply norm_tenth; rewrite on1_norm; auto).
  assert (N2: rows_norm (on2 (vmul v sw)) = / 10) by (apply norm_tenth; rewrite on2_norm, sw_norm; auto).
  assert (P: over_norm 10 (Fin (on1 v)) = Fin (on1 v)).
  { destruct (parent_norm (on1 v)) as [-> _]; [lra|]. rewrite N1.
    replace (/ (10 * / 10)) with 1 by field. rewrite rows_scale_1. auto. }
  assert (U: forall d, d <> [] -> half_cell d -> rows_norm d = / 10 ->
     over_norm 1 (get_cart_displacement_arr r (Fin d)) = Fin (rows_scale 10 d)).
  { intros d Hd Hc Hn. cbn [get_cart_displacement_arr]. unfold get_cart_displacement. rewrite Hlat, pbc_half_cell, rows_mul_mI by auto.
    unfold over_norm. destruct d as [|x d]; [tauto|]. rewrite rows_scale_1, Hn.
    destruct (Reqb (/ 10) 0) eqn:E0; [apply Reqb_true in E0; lra|]. do 2 f_equal. field. }
  set (ps1 := [(0, m0); (- / 10, msub q1 (im_refpol s)); (/ 10, msub q2 (im_refpol s))]).
  set (ps2 := [(0, m0); (- / 10, mmul (mmul sw (msub q1 (im_refpol s))) sw); (/ 10, mmul (mmul sw (msub q2 (im_refpol s))) sw)]).
  do 2 eexists. split.
  1: rewrite (add_dof_complete (Fin (on1 v)) (vec_arr sw_amps) (mats_arr [q1; q2]) 1 true s (Fin (on1 v))
     [(Fin (rows_scale 10 (on1 v)), map (fun q : R * M3 => (Some (fst q), snd q)) ps1);
      (Fin (rows_scale 10 (on2 (vmul v sw))), map (fun q : R * M3 => (Some (fst q), snd q)) ps2)]
     [rows_scale 10 (on1 v); rows_scale 10 (on2 (vmul v sw))] [ps1; ps2]).
  - reflexivity.
  - lia.
  - cbn [get_frac_displacement_arr]. rewrite Hr, F. reflexivity.
  - apply verify_ndarray_shape_spec. repeat constructor.
  - intros _. apply verify_ndarray_shape_spec. simpl. repeat constructor.
  - rewrite P. eapply get_dof_complete.
    + unfold is_orthogonal_to_all. apply scan_all_false. intros a Ha. apply in_map_iff in Ha as (b & <- & Hb).
      cbn [get_cart_displacement_arr flatten]. unfold get_cart_displacement. rewrite Hr, Hlat, pbc_half_cell, rows_mul_mI by auto.
      assert (Lb: List.length b = 2%nat /\ unit_length b).
      { destruct Hinv as (_ & _ & Hbo & _). unfold basis_ok in Hbo. rewrite Hr, Hpos, Forall_forall in Hbo. auto. }
      destruct Lb as [Lb Ub].
      destruct (non_orthogonal_spec (flatten_rows (on1 v)) (flatten_rows b)) as (t & T1 & T2).
      * rewrite !flatten_rows_length, Lb. auto.
      * discriminate.
      * rewrite T1. f_equal. destruct t; auto. exfalso. apply (proj1 T2 eq_refl).
        split; [|split].
        -- apply nonzero_inner. rewrite <- rows_dot_flat. fold (rows_norm2 (on1 v)). rewrite on1_norm, Hv. lra.
        -- apply nonzero_inner. rewrite <- rowsR_flatten. unfold unit_length in Ub. rewrite Ub. lra.
        -- unfold cosine. rewrite <- rows_dot_flat, rows_dot_comm, Ho by auto.
           unfold Rdiv. rewrite Rmult_0_l, Rabs_R0. pose proof tol1_bounds. lra.
    + rewrite Hr. apply on_groups; auto.
    + unfold dof_pols. rewrite Hdu. cbn [mats_arr ra_data vec_arr]. rewrite mats_of_entries, Hr.
      constructor; [|constructor; [|constructor]].
      * unfold dof_of_group. cbn [g_disp g_trans combine mapM]. unfold points_of. rewrite multiplier_one by lra.
        cbn [rbind]. rewrite minv_mI. erewrite mapM_all_ok by (intros; reflexivity). cbn [rbind]. rewrite U; [|discriminate|auto|auto].
        do 2 f_equal. unfold sw_amps, ps1. cbn [combine map List.concat List.app fst snd option_map].
        rewrite !Rmult_1_l, !mmul_mI_l, !mmul_mI_r. reflexivity.
      * unfold dof_of_group. cbn [g_disp g_trans combine mapM]. unfold points_of. rewrite multiplier_one by lra.
        cbn [rbind]. rewrite sw_inv. erewrite mapM_all_ok by (intros; reflexivity). cbn [rbind]. rewrite U; [|discriminate|auto|auto].
        do 2 f_equal. unfold sw_amps, ps2. cbn [combine map List.concat List.app fst snd option_map].
        rewrite !Rmult_1_l. reflexivity.
  - reflexivity.
  - repeat constructor.
  - constructor; [|constructor; [|constructor]]; (split; [exact ex_spaced|cbn; lia]).
  - cbn [appended im_basis]. f_equal. unfold on1, on2, rows_scale. cbn [map]. rewrite !vscale_v0. reflexivity.
Qed.
End Built.

(** ** The response *)
Definition ex_resp (u : list V3) : M3 :=
  match u with
  | [a; b] => mkM (mkV (vx a) (vz a + vz b) 0) (mkV (vz a + vz b) (vy b) 0) (mkV 0 0 (vy a + vx b))
  | _ => m0
  end.
Lemma ex_resp_linear : linear_response 2 ex_resp.
Proof.
  split.
  - intros [|a [|b [|x u]]] [|c [|d [|y w]]] H1 H2; try discriminate. unfold rows_add. cbn [map2 ex_resp]. vring.
  - intros c [|a [|b [|x u]]] H1; try discriminate. unfold rows_scale. cbn [map ex_resp]. vring.
Qed.
Lemma no_fifth k : IZR k = / 5 \/ IZR k = - / 5 -> False.
Proof.
  intros H. assert (K: IZR (5 * k) = 1 \/ IZR (5 * k) = -1) by (rewrite mult_IZR; simpl; lra).
  destruct K as [K|K]; apply eq_IZR in K; lia.
Qed.
Lemma pi_unique R (pi : nat -> nat) : R = mI \/ R = sw -> row_symmetry sw_pos R v0 pi ->
  forall b, (b < 2)%nat -> pi b = (if Nat.eqb b 0 then (if Reqb (vx (r0 R)) 0 then 1 else 0) else (if Reqb (vx (r0 R)) 0 then 0 else 1))%nat.
Proof.
  intros HR (_ & (P & _) & HS) b Hb. specialize (P b Hb). specialize (HS b Hb). change (List.length sw_pos) with 2%nat in P.
  destruct (Reqb (vx (r0 R)) 0) eqn:E; [apply Reqb_true in E|apply Reqb_false in E];
  destruct b as [|[|b]]; [| |lia| | |lia]; cbn [Nat.eqb];
  (destruct (pi _) as [|[|k]]; [| |lia]); try reflexivity; exfalso; unfold sw_pos in HS; cbn [nth] in HS;
  destruct HR as [-> | ->]; try (cbn in E; lra); destruct HS as ((k & Hk) & _); unfold sw in Hk; cbn in Hk;
  apply (no_fifth k); lra.
Qed.
Lemma ex_resp_symmetric : symmetric_response sw_pos sw_ops ex_resp.
Proof.
  intros op pi [|a [|b [|x u]]] Hop HS Hu; try discriminate.
  assert (Hop': op = (mI, v0) \/ op = (sw, v0)) by (destruct Hop as [<-|[<-|[]]]; auto).
  assert (HR: fst op = mI \/ fst op = sw) by (destruct Hop' as [-> | ->]; auto).
  assert (Hs: snd op = v0) by (destruct Hop' as [-> | ->]; auto). rewrite Hs in HS.
  pose proof (pi_unique _ _ HR HS) as U. unfold moved. cbn [List.length seq map].
  rewrite (U 0%nat), (U 1%nat) by lia. cbn [Nat.eqb]. clear U HS Hs.
  destruct HR as [-> | ->].
  - destruct (Reqb (vx (r0 mI)) 0) eqn:E; [apply Reqb_true in E; cbn in E; lra|]. cbn [nth]. rewrite !vmul_mI.
    unfold carried. generalize (ex_resp [a; b]). intros M. clear. rewrite mmul_mI_r. destruct M as [[] [] []]. vring.
  - destruct (Reqb (vx (r0 sw)) 0) eqn:E; [|apply Reqb_false in E; cbn in E; lra]. cbn [nth].
    unfold carried. clear. destruct a as [a1 a2 a3], b as [b1 b2 b3].
    replace (vmul (mkV a1 a2 a3) sw) with (mkV a2 a1 a3) by (unfold sw; vring).
    replace (vmul (mkV b1 b2 b3) sw) with (mkV b2 b1 b3) by (unfold sw; vring).
    cbn [ex_resp LinAlg.vx LinAlg.vy LinAlg.vz].
    replace (mmul (mtrans sw) (mkM (mkV a1 (a3 + b3) 0) (mkV (a3 + b3) b2 0) (mkV 0 0 (a2 + b1))))
      with (mkM (mkV (a3 + b3) b2 0) (mkV a1 (a3 + b3) 0) (mkV 0 0 (a2 + b1))) by (unfold sw; vring).
    unfold sw. vring.
Qed.

Lemma ex_crystal : exists r, crystal mI sw_pos sw_ops r /\
  make_reference [8%Z; 8%Z] mI sw_pos (Some (sw_ops, [0%nat; 0%nat])) = Ok r.
Proof.
  destruct (sw_reference mI) as (r & E & _). exists r. split; [|auto].
  split; [eauto|]. split; [simpl; lia|]. split; [discriminate|]. split; [apply sw_separated|].
  constructor; [|constructor; [|constructor]]; cbn [fst snd].
  - split; [|split; [|split]].
    + unfold short_columns. vunf. lra.
    + split; vring.
    + reflexivity.
    + exists (fun b => b). apply id_row_symmetry.
  - split; [|split; [|split]].
    + unfold short_columns, sw. vunf. lra.
    + split; unfold sw; vring.
    + unfold sw; vring.
    + exists swap2. apply sw_symmetry.
Qed.

Section Sampled.
Context (r : refstruct) (HC : crystal mI sw_pos sw_ops r)
  (H : make_reference [8%Z; 8%Z] mI sw_pos (Some (sw_ops, [0%nat; 0%nat])) = Ok r).

Lemma on_sampled m v : sampled r mI ex_resp m -> vnorm2 v = / 100 ->
  (forall b, In b (im_basis m) -> rows_dot b (on1 v) = 0) ->
  exists m', sampled r mI ex_resp m' /\ im_basis m' = im_basis m ++ [on1 (vscale 10 v); on2 (vscale 10 (vmul v sw))].
Proof.
  intros Hm Hv Ho. destruct (crystal_parts _ _ _ _ HC) as (Ep & El & _).
  destruct (sampled_follows _ _ _ _ _ _ _ HC ex_resp_linear ex_resp_symmetric Hm) as (I1 & I2 & I3 & _ & I5 & _).
  pose proof (fun q1 q2 => on_add r H m v q1 q2 I1 I3 I5 Hv Ho) as A.
  destruct (A (madd mI (ex_resp (rows_scale (- / 10) (direction_of (on1 v)))))
              (madd mI (ex_resp (rows_scale (/ 10) (direction_of (on1 v)))))) as (m' & w & A1 & A2).
  exists m'. split; [|exact A2].
  apply (sampled_dof r mI ex_resp m (on1 v) (on1 v) sw_amps true m' w); auto.
  - rewrite Ep. reflexivity.
  - apply half_cell_small. rewrite on1_norm, Hv. lra.
  - intros gs g Hg Hin. rewrite (on_groups r H v Hv) in Hg. injection Hg as <-.
    destruct Hin as [<-|[<-|[]]]; do 2 eexists; (split; [reflexivity|]); intros x [Hx|[]]; injection Hx as <-; auto.
  - rewrite El, rows_mul_mI. auto.
  - discriminate.
Qed.

Lemma dot11 a b : rows_dot (on1 a) (on1 b) = vdot a b.
Proof. unfold on1, rows_dot. destruct a, b. vunf. ring. Qed.
Lemma dot22 a b : rows_dot (on2 a) (on2 b) = vdot a b.
Proof. unfold on2, rows_dot. destruct a, b. vunf. ring. Qed.
Lemma dot12 a b : rows_dot (on1 a) (on2 b) = 0.
Proof. unfold on1, on2, rows_dot. destruct a, b. vunf. ring. Qed.
Lemma dot21 a b : rows_dot (on2 a) (on1 b) = 0.
Proof. unfold on1, on2, rows_dot. destruct a, b. vunf. ring. Qed.
Lemma dot_ten a b : vdot (vscale 10 a) (vscale 10 b) = 100 * vdot a b.
Proof. destruct a, b. vunf. ring. Qed.
Lemma dot_ten1 a b : vdot (vscale 10 a) b = 10 * vdot a b.
Proof. destruct a, b. vunf. ring. Qed.
Lemma dot_sw a b : vdot (vmul a sw) (vmul b sw) = vdot a b.
Proof. destruct a, b. unfold sw. vunf. ring. Qed.

Lemma ex_full v1 v2 v3 : vnorm2 v1 = / 100 -> vnorm2 v2 = / 100 -> vnorm2 v3 = / 100 ->
  vdot v1 v2 = 0 -> vdot v1 v3 = 0 -> vdot v2 v3 = 0 ->
  exists m, fully_sampled mI sw_pos sw_ops r mI ex_resp m /\
    im_basis m = [on1 (vscale 10 v1); on2 (vscale 10 (vmul v1 sw)); on1 (vscale 10 v2); on2 (vscale 10 (vmul v2 sw));
                  on1 (vscale 10 v3); on2 (vscale 10 (vmul v3 sw))].
Proof.
  intros N1 N2 N3 D12 D13 D23. assert (D21: vdot v2 v1 = 0) by (rewrite <- D12; destruct v1, v2; vunf; ring).
  assert (D31: vdot v3 v1 = 0) by (rewrite <- D13; destruct v1, v3; vunf; ring).
  assert (D32: vdot v3 v2 = 0) by (rewrite <- D23; destruct v3, v2; vunf; ring).
  destruct (on_sampled (make_model r mI false) v1 (sampled_new _ _ _) N1) as (m1 & S1 & B1); [intros b []|].
  cbn [make_model im_basis List.app] in B1.
  destruct (on_sampled m1 v2 S1 N2) as (m2 & S2 & B2).
  { rewrite B1. intros b [<-|[<-|[]]]; rewrite ?dot11, ?dot21, ?dot_ten1, ?D12; lra. }
  rewrite B1 in B2. cbn [List.app] in B2.
  destruct (on_sampled m2 v3 S2 N3) as (m3 & S3 & B3).
  { rewrite B2. intros b [<-|[<-|[<-|[<-|[]]]]]; rewrite ?dot11, ?dot21, ?dot_ten1, ?D13, ?D23; lra. }
  rewrite B2 in B3. cbn [List.app] in B3.
  exists m3. split; [|auto]. split; [auto|]. split; [apply ex_resp_linear|]. split; [apply ex_resp_symmetric|]. split; [auto|].
  rewrite B3. split; [|reflexivity]. unfold vnorm2 in *.
  intros i j b c Hi Hj. rewrite inner_rows.
  do 6 (destruct i as [|i]; [cbn in Hi; injection Hi as <-;
    do 6 (destruct j as [|j]; [cbn in Hj; injection Hj as <-; cbn [Nat.eqb];
      rewrite ?dot11, ?dot22, ?dot12, ?dot21, ?dot_ten, ?dot_sw, ?N1, ?N2, ?N3, ?D12, ?D13, ?D23, ?D21, ?D31, ?D32; lra|]);
    destruct j; discriminate|]).
  destruct i; discriminate.
Qed.
End Sampled.

Definition ex_phs : phonons := mkPh sw_pos [100; 200] [[mkV 1 2 3; v0]; [mkV 0 0 1; mkV 0 1 0]].
Lemma ex_phs_about : phonons_about sw_pos ex_phs.
Proof.
  split; [reflexivity|]. split; [discriminate|]. split; [reflexivity|].
  repeat constructor; cbn; lra.
Qed.

Lemma ex_C85 : exists r m m', fully_sampled mI sw_pos sw_ops r mI ex_resp m /\
  fully_sampled mI sw_pos sw_ops r mI ex_resp m' /\ im_basis m <> im_basis m' /\
  sw_ops <> [(mI, v0)] /\ phonons_about sw_pos ex_phs.
Proof.
  destruct ex_crystal as (r & HC & H). exists r.
  destruct (ex_full r HC H (mkV (/10) 0 0) (mkV 0 (/10) 0) (mkV 0 0 (/10))) as (m & F & B); try (vunf; lra).
  destruct (ex_full r HC H (mkV (3/50) (4/50) 0) (mkV (4/50) (-3/50) 0) (mkV 0 0 (/10))) as (m' & F' & B'); try (vunf; lra).
  exists m, m'. split; [auto|]. split; [auto|]. split; [|split; [discriminate|apply ex_phs_about]].
  rewrite B, B'. intros E. apply (f_equal (fun l => vx (nth 0 (nth 0 l []) v0))) in E. cbn in E. lra.
Qed.
