(** A quadratic response on two atoms exchanged by a mirror plane, sampled with second-order
    interpolation: a case of C88.  Newton interpolation as an instance of [reproduces_polynomials]. *)
From Coq Require Import String ZArith Reals Lra Lia Psatz Bool Arith List.
From Verif Require Import Base LinAlg M_Validate M_StructUtils M_Symmetry M_Reference M_Interp M_Art M_Spectrum M_Dynamics
  S_Lattice S_Vec S_Symmetry S_Equivalent S_Interp S_Images S_Response S_Anharmonic S_Spectrum P_StructUtils P_Symmetry P_Equivalent P_Equiv2 P_Equiv3 P_EquivTotal
  P_StructFinal P_Examples1
  P_Interp P_Interp2 P_InterpEval P_Interp3 P_Interp4 P_Interp5 P_Interp6 P_Interp7 P_Examples2 P_Images P_Images2
  P_Response P_Response2 P_Response3 P_Examples12 P_Anharmonic P_Anharmonic2 P_Anharmonic3.
Import ListNotations.
Local Open Scope R_scope.

(** ** Newton interpolation *)
Fixpoint newton (k : nat) (pts : list (R * M3)) (x : R) : M3 :=
  match k, pts with
  | S k', (x0, y0) :: pts' =>
      madd y0 (mscale (x - x0) (newton k' (map (fun p => (fst p, mscale (/ (fst p - x0)) (msub (snd p) y0))) pts') x))
  | _, _ => m0
  end.
Fixpoint quotient (x0 : R) (cs : list M3) : list M3 :=
  match cs with
  | [] => []
  | _ :: cs' => match cs' with [] => [] | _ => mpoly cs' x0 :: quotient x0 cs' end
  end.
Lemma quotient_length x0 cs : List.length (quotient x0 cs) = (List.length cs - 1)%nat.
Proof. induction cs as [|c cs IH]; auto. cbn [quotient]. destruct cs; auto. cbn [List.length] in *. lia. Qed.
Lemma quotient_spec x0 cs x : mpoly cs x = madd (mpoly cs x0) (mscale (x - x0) (mpoly (quotient x0 cs) x)).
Proof.
  induction cs as [|c cs IH]; [vring|]. cbn [quotient]. destruct cs as [|d cs].
  - cbn [mpoly fold_right]. apply M3_eq; apply V3_eq; cbn [msub madd mscale r0 r1 r2 vsub vadd vscale LinAlg.vx LinAlg.vy LinAlg.vz m0 v0]; ring.
  - set (cs' := d :: cs) in *. cbn [mpoly fold_right]. fold (mpoly cs' x). fold (mpoly cs' x0). fold (mpoly (quotient x0 cs') x).
    rewrite IH. set (a := mpoly cs' x0). set (q := mpoly (quotient x0 cs') x).
    apply M3_eq; apply V3_eq; cbn [msub madd mscale r0 r1 r2 vsub vadd vscale LinAlg.vx LinAlg.vy LinAlg.vz]; ring.
Qed.
Lemma newton_poly k : forall pts cs x, (List.length cs <= k)%nat -> (k <= List.length pts)%nat -> increasing pts ->
  (forall p, In p pts -> snd p = mpoly cs (fst p)) -> newton k pts x = mpoly cs x.
Proof.
  induction k as [|k IH]; intros pts cs x Lc Lp Hi Hp.
  - destruct cs; [reflexivity|cbn in Lc; lia].
  - destruct pts as [|[x0 y0] pts]; [cbn in Lp; lia|]. apply increasing_cons in Hi as [H1 H2]. cbn [newton fst] in *.
    rewrite (IH _ (quotient x0 cs)).
    + rewrite (quotient_spec x0 cs x). f_equal. apply (Hp (x0, y0)). left. reflexivity.
    + rewrite quotient_length. lia.
    + rewrite map_length. cbn in Lp. lia.
    + clear - H2. induction pts as [|p pts IH]; auto. apply increasing_cons in H2 as [A B]. cbn [map]. apply increasing_cons. split; [|auto].
      intros q Hq. apply in_map_iff in Hq as (q' & <- & Hq). cbn [fst]. auto.
    + intros p Hq. apply in_map_iff in Hq as (q & <- & Hq). cbn [fst snd]. specialize (H1 q Hq). 
      rewrite (Hp q) by (right; auto). pose proof (Hp (x0, y0) (or_introl eq_refl)) as E. cbn [fst snd] in E. rewrite E.
      rewrite (quotient_spec x0 cs (fst q)).
      set (a := mpoly cs x0). set (b := mpoly (quotient x0 cs) (fst q)).
      apply M3_eq; apply V3_eq; cbn [msub madd mscale r0 r1 r2 vsub vadd vscale LinAlg.vx LinAlg.vy LinAlg.vz]; field; lra.
Qed.
Lemma newton_reproduces : reproduces_polynomials (fun k => newton (S k)).
Proof. intros k pts cs H1 H2 H3 H4 H5 x. apply newton_poly; auto. Qed.

Section Built.
Context (r : refstruct) (H : make_reference [8%Z; 8%Z] mI sw_pos (Some (sw_ops, [0%nat; 0%nat])) = Ok r).

Lemma on_add2 s v q1 q2 : im_ref s = r -> im_dummy s = false -> inv s -> vnorm2 v = / 100 ->
  (forall b, In b (im_basis s) -> rows_dot b (on1 v) = 0) ->
  exists s' w, add_dof (Fin (on1 v)) (vec_arr sw_amps) (mats_arr [q1; q2]) 2 true s = ((s', w), Ok tt) /\
    im_basis s' = im_basis s ++ [on1 (vscale 10 v); on2 (vscale 10 (vmul v sw))] /\
    (Forall (fun sp => sp_order sp = 2%nat) (im_interp s) -> Forall (fun sp => sp_order sp = 2%nat) (im_interp s')).
Proof.
  intros Hr Hdu Hinv Hv Ho. destruct (sw_reference mI) as (r' & E & Hi & Hva & Hlat & Hpos). rewrite H in E. injection E as <-.
  assert (Hh: half_cell (on1 v)) by (apply half_cell_small; rewrite on1_norm, Hv; lra).
  assert (Hh2: half_cell (on2 (vmul v sw))) by (apply half_cell_small; rewrite on2_norm, sw_norm, Hv; lra).
  assert (F: get_frac_displacement r (on1 v) = Ok (on1 v)).
  { unfold get_frac_displacement. rewrite Hlat, minv_mI. cbn [rbind]. rewrite rows_mul_mI, pbc_half_cell; auto. }
  assert (N1: rows_norm (on1 v) = / 10) by (apply norm_tenth; rewrite on1_norm; auto).
  assert (N2: rows_norm (on2 (vmul v sw)) = / 10) by (apply norm_tenth; rewrite on2_norm, sw_norm; auto).
  assert (P: over_norm 10 (Fin (on1 v)) = Fin (on1 v)).
  { destruct (parent_norm (on1 v)) as [-> _]; [lra|]. rewrite N1.
    replace (/ (10 * / 10)) with 1 by field. rewrite rows_scale_1. auto. }
  assert (U: forall d, d <> [] -> half_cell d -> rows_norm d = / 10 ->
     over_norm 1 (get_cart_displacement_arr r (Fin d)) = Fin (rows_scale 10 d)).
  { intros d Hd Hc Hn. cbn [get_cart_displacement_arr]. unfold get_cart_displacement. rewrite Hlat, pbc_half_cell, rows_mul_mI by auto.
    unfold over_norm. destruct d as [|x d]; [tauto|]. rewrite rows_scale_1, Hn.
    destruct (Reqb (/ 10) 0) eqn:E0; [apply Reqb_true in E0; lra|]. do 2 f_equal. field. }
  set (ps1 := [(0, m0); (- / 10, msub q1 (im_refpol s)); (/ 10, msub q2 (im_refpol s))]).
  set (ps2 := [(0, m0); (- / 10, mmul (mmul sw (msub q1 (im_refpol s))) sw); (/ 10, mmul (mmul sw (msub q2 (im_refpol s))) sw)]).
  do 2 eexists. split.
  1: rewrite (add_dof_complete (Fin (on1 v)) (vec_arr sw_amps) (mats_arr [q1; q2]) 2 true s (Fin (on1 v))
     [(Fin (rows_scale 10 (on1 v)), map (fun q : R * M3 => (Some (fst q), snd q)) ps1);
      (Fin (rows_scale 10 (on2 (vmul v sw))), map (fun q : R * M3 => (Some (fst q), snd q)) ps2)]
     [rows_scale 10 (on1 v); rows_scale 10 (on2 (vmul v sw))] [ps1; ps2]).
  - reflexivity.
  - lia.
  - cbn [get_frac_displacement_arr]. rewrite Hr, F. reflexivity.
  - apply verify_ndarray_shape_spec. repeat constructor.
  - intros _. apply verify_ndarray_shape_spec. simpl. repeat constructor.
  - rewrite P. eapply get_dof_complete.
    + unfold is_orthogonal_to_all. apply scan_all_false. intros a Ha. apply in_map_iff in Ha as (b & <- & Hb).
      cbn [get_cart_displacement_arr flatten]. unfold get_cart_displacement. rewrite Hr, Hlat, pbc_half_cell, rows_mul_mI by auto.
      assert (Lb: List.length b = 2%nat /\ unit_length b).
      { destruct Hinv as (_ & _ & Hbo & _). unfold basis_ok in Hbo. rewrite Hr, Hpos, Forall_forall in Hbo. auto. }
      destruct Lb as [Lb Ub].
      destruct (non_orthogonal_spec (flatten_rows (on1 v)) (flatten_rows b)) as (t & T1 & T2).
      * rewrite !flatten_rows_length, Lb. auto.
      * discriminate.
      * rewrite T1. f_equal. destruct t; auto. exfalso. apply (proj1 T2 eq_refl).
        split; [|split].
        -- apply nonzero_inner. rewrite <- rows_dot_flat. fold (rows_norm2 (on1 v)). rewrite on1_norm, Hv. lra.
        -- apply nonzero_inner. rewrite <- rowsR_flatten. unfold unit_length in Ub. rewrite Ub. lra.
        -- unfold cosine. rewrite <- rows_dot_flat, rows_dot_comm, Ho by auto.
           unfold Rdiv. rewrite Rmult_0_l, Rabs_R0. pose proof tol1_bounds. lra.
    + rewrite Hr. apply on_groups; auto.
    + unfold dof_pols. rewrite Hdu. cbn [mats_arr ra_data vec_arr]. rewrite mats_of_entries, Hr.
      constructor; [|constructor; [|constructor]].
      * unfold dof_of_group. cbn [g_disp g_trans combine mapM]. unfold points_of. rewrite multiplier_one by lra.
        cbn [rbind]. rewrite minv_mI. erewrite mapM_all_ok by (intros; reflexivity). cbn [rbind]. rewrite U; [|discriminate|auto|auto].
        do 2 f_equal. unfold sw_amps, ps1. cbn [combine map List.concat List.app fst snd option_map].
        rewrite !Rmult_1_l, !mmul_mI_l, !mmul_mI_r. reflexivity.
      * unfold dof_of_group. cbn [g_disp g_trans combine mapM]. unfold points_of. rewrite multiplier_one by lra.
        cbn [rbind]. rewrite sw_inv. erewrite mapM_all_ok by (intros; reflexivity). cbn [rbind]. rewrite U; [|discriminate|auto|auto].
        do 2 f_equal. unfold sw_amps, ps2. cbn [combine map List.concat List.app fst snd option_map].
        rewrite !Rmult_1_l. reflexivity.
  - reflexivity.
  - repeat constructor.
  - constructor; [|constructor; [|constructor]]; (split; [exact ex_spaced|cbn; lia]).
  - split; [|cbn [appended im_interp]; rewrite Hdu; intros K; apply Forall_app; split; [exact K|repeat constructor]].
    cbn [appended im_basis]. f_equal. unfold on1, on2, rows_scale. cbn [map]. rewrite !vscale_v0. reflexivity.
Qed.
End Built.

(** ** The response *)
Definition quad_resp (u : list V3) : M3 := madd (ex_resp u) (mscale (rows_norm2 u) mI).
Lemma quad_zero : quad_resp (repeat v0 2) = m0.
Proof. unfold quad_resp. cbn. unfold rows_norm2, rows_dot. vring. Qed.
Lemma quad_symmetric : symmetric_response sw_pos sw_ops quad_resp.
Proof.
  intros op pi u Hop HS Hu. unfold quad_resp. rewrite (ex_resp_symmetric op pi u Hop HS Hu).
  assert (Hiso: isometry (fst op)).
  { destruct Hop as [<-|[<-|[]]]; cbn [fst]; split; unfold sw; vring. }
  assert (N: rows_norm2 (moved (fst op) pi u) = rows_norm2 u).
  { assert (E: rows_norm (moved (fst op) pi u) = rows_norm u).
    { apply moved_norm; auto. rewrite Hu. apply HS. }
    unfold rows_norm in E. apply sqrt_inj in E; auto; apply rows_norm2_nonneg. }
  rewrite N. unfold carried. destruct Hiso as [I1 I2].
  rewrite mmul_madd_r, mmul_madd_l. f_equal. rewrite mmul_mscale_r, mmul_mscale_l, mmul_mI_r. rewrite ?I1, ?I2. reflexivity.
Qed.
Lemma quad_poly b : List.length b = 2%nat -> polynomial_along quad_resp b 2.
Proof.
  intros Hb. exists [m0; ex_resp b; mscale (rows_norm2 b) mI]. split; [cbn; lia|]. intros t. unfold quad_resp.
  destruct ex_resp_linear as [_ E]. rewrite E by auto.
  assert (N: rows_norm2 (rows_scale t b) = t * t * rows_norm2 b).
  { unfold rows_norm2. rewrite rows_dot_scale_l, rows_dot_comm, rows_dot_scale_l. ring. }
  rewrite N. cbn [mpoly fold_right]. set (a := ex_resp b). set (c := rows_norm2 b).
  apply M3_eq; apply V3_eq; cbn [msub madd mscale r0 r1 r2 vsub vadd vscale LinAlg.vx LinAlg.vy LinAlg.vz m0 v0]; ring.
Qed.

Section Sampled.
Context (r : refstruct) (HC : crystal mI sw_pos sw_ops r)
  (H : make_reference [8%Z; 8%Z] mI sw_pos (Some (sw_ops, [0%nat; 0%nat])) = Ok r).

Lemma on_sampled2 m v : sampled_any r mI quad_resp m -> Forall (fun sp => sp_order sp = 2%nat) (im_interp m) -> vnorm2 v = / 100 ->
  (forall b, In b (im_basis m) -> rows_dot b (on1 v) = 0) ->
  exists m', sampled_any r mI quad_resp m' /\ Forall (fun sp => sp_order sp = 2%nat) (im_interp m') /\
    im_basis m' = im_basis m ++ [on1 (vscale 10 v); on2 (vscale 10 (vmul v sw))].
Proof.
  intros Hm Hor Hv Ho. destruct (crystal_parts _ _ _ _ HC) as (Ep & El & _).
  destruct (sampled_traces _ _ _ _ _ _ _ HC quad_zero quad_symmetric Hm) as (I1 & I2 & I3 & _ & I5 & _).
  pose proof (fun q1 q2 => on_add2 r H m v q1 q2 I1 I3 I5 Hv Ho) as A.
  destruct (A (madd mI (quad_resp (rows_scale (- / 10) (direction_of (on1 v)))))
              (madd mI (quad_resp (rows_scale (/ 10) (direction_of (on1 v)))))) as (m' & w & A1 & A2 & A3).
  exists m'. split; [|split; [exact (A3 Hor)|exact A2]].
  apply (any_dof r mI quad_resp m (on1 v) (on1 v) sw_amps 2 true m' w); auto.
  - rewrite Ep. reflexivity.
  - apply half_cell_small. rewrite on1_norm, Hv. lra.
  - intros gs g Hg Hin. rewrite (on_groups r H v Hv) in Hg. injection Hg as <-.
    destruct Hin as [<-|[<-|[]]]; do 2 eexists; (split; [reflexivity|]); intros x [Hx|[]]; injection Hx as <-; auto.
  - rewrite El, rows_mul_mI. auto.
  - discriminate.
Qed.

Lemma ex_modelled : exists m, fully_modelled (fun k => newton (S k)) mI sw_pos sw_ops r mI quad_resp m /\
  List.length (im_basis m) = 6%nat /\ Forall (fun sp => sp_order sp = 2%nat) (im_interp m) /\ orthonormal (im_basis m).
Proof.
  set (v1 := mkV (/10) 0 0). set (v2 := mkV 0 (/10) 0). set (v3 := mkV 0 0 (/10)).
  assert (N1: vnorm2 v1 = / 100) by (unfold v1; vunf; lra). assert (N2: vnorm2 v2 = / 100) by (unfold v2; vunf; lra).
  assert (N3: vnorm2 v3 = / 100) by (unfold v3; vunf; lra).
  assert (D12: vdot v1 v2 = 0) by (unfold v1, v2; vunf; lra). assert (D13: vdot v1 v3 = 0) by (unfold v1, v3; vunf; lra).
  assert (D23: vdot v2 v3 = 0) by (unfold v2, v3; vunf; lra).
  destruct (on_sampled2 (make_model r mI false) v1 (any_new _ _ _)) as (m1 & S1 & O1 & B1); [constructor|auto|intros b []|].
  cbn [make_model im_basis List.app] in B1.
  destruct (on_sampled2 m1 v2 S1 O1 N2) as (m2 & S2 & O2 & B2).
  { rewrite B1. intros b [<-|[<-|[]]]; rewrite ?dot11, ?dot21, ?dot_ten1, ?D12; lra. }
  rewrite B1 in B2. cbn [List.app] in B2.
  destruct (on_sampled2 m2 v3 S2 O2 N3) as (m3 & S3 & O3 & B3).
  { rewrite B2. intros b [<-|[<-|[<-|[<-|[]]]]]; rewrite ?dot11, ?dot21, ?dot_ten1, ?D13, ?D23; lra. }
  rewrite B2 in B3. cbn [List.app] in B3.
  assert (EB: im_basis m3 = [on1 (mkV 1 0 0); on2 (mkV 0 1 0); on1 (mkV 0 1 0); on2 (mkV 1 0 0); on1 (mkV 0 0 1); on2 (mkV 0 0 1)]).
  { rewrite B3. unfold v1, v2, v3, sw. unfold vmul, vadd, vscale. cbn [LinAlg.vx LinAlg.vy LinAlg.vz r0 r1 r2].
    repeat (f_equal; try field). }
  exists m3. split; [|split; [rewrite EB; auto|split; [auto|]]].
  - destruct (sampled_traces _ _ _ _ _ _ _ HC quad_zero quad_symmetric S3) as (I1 & I2 & I3 & _ & I5 & I6).
    split; [apply newton_reproduces|]. split; [auto|]. split; [apply quad_zero|]. split; [apply quad_symmetric|]. split; [auto|].
    split.
    + destruct I5 as (_ & (_ & C & _) & Hb & _). specialize (C I3). unfold basis_ok in Hb.
      assert (Hb': Forall (fun b => List.length b = 2%nat) (im_basis m3)).
      { eapply Forall_impl; [|exact Hb]. intros b [A _]. rewrite A, I1. destruct (crystal_parts _ _ _ _ HC) as (-> & _). reflexivity. }
      clear - C Hb' O3. revert O3 C. generalize (im_interp m3) as sps. induction Hb' as [|b bs Lb _ IH]; intros [|sp sps] O C; try discriminate; constructor.
      * inversion O as [|? ? O1 O2]; subst. rewrite O1. apply quad_poly. auto.
      * inversion O; subst. apply IH; auto.
    + rewrite EB. intros [|a [|b [|? ?]]] Hu; try discriminate. destruct a as [a1 a2 a3], b as [b1 b2 b3].
      assert (P1: forall x y z, inner (rowsR (on1 (mkV x y z))) (rowsR [mkV a1 a2 a3; mkV b1 b2 b3]) = x * a1 + y * a2 + z * a3)
        by (intros; rewrite inner_rows; unfold rows_dot, on1; vunf; ring).
      assert (P2: forall x y z, inner (rowsR (on2 (mkV x y z))) (rowsR [mkV a1 a2 a3; mkV b1 b2 b3]) = x * b1 + y * b2 + z * b3)
        by (intros; rewrite inner_rows; unfold rows_dot, on2; vunf; ring).
      cbn [map fold_right]. rewrite !P1, !P2.
      assert (Q1: forall t x y z, quad_resp (rows_scale t (on1 (mkV x y z))) =
         mkM (mkV (t * x + t * t * (x * x + y * y + z * z)) (t * z) 0) (mkV (t * z) (t * t * (x * x + y * y + z * z)) 0)
             (mkV 0 0 (t * y + t * t * (x * x + y * y + z * z)))).
      { intros. unfold quad_resp, rows_norm2, rows_dot, rows_scale, on1. cbn. apply M3_eq; apply V3_eq; cbn [msub madd mscale r0 r1 r2 vsub vadd vscale LinAlg.vx LinAlg.vy LinAlg.vz mI]; vunf; ring. }
      assert (Q2: forall t x y z, quad_resp (rows_scale t (on2 (mkV x y z))) =
         mkM (mkV (t * t * (x * x + y * y + z * z)) (t * z) 0) (mkV (t * z) (t * y + t * t * (x * x + y * y + z * z)) 0)
             (mkV 0 0 (t * x + t * t * (x * x + y * y + z * z)))).
      { intros. unfold quad_resp, rows_norm2, rows_dot, rows_scale, on2. cbn. apply M3_eq; apply V3_eq; cbn [msub madd mscale r0 r1 r2 vsub vadd vscale LinAlg.vx LinAlg.vy LinAlg.vz mI]; vunf; ring. }
      rewrite !Q1, !Q2. unfold quad_resp, rows_norm2, rows_dot. clear.
      apply M3_eq; apply V3_eq; cbn [ex_resp map2 fold_right msub madd mscale r0 r1 r2 vsub vadd vscale LinAlg.vx LinAlg.vy LinAlg.vz m0 v0 mI]; vunf; ring.
  - rewrite EB. intros i j b c Hi Hj. rewrite inner_rows.
    do 6 (destruct i as [|i]; [cbn in Hi; injection Hi as <-;
      do 6 (destruct j as [|j]; [cbn in Hj; injection Hj as <-; cbn [Nat.eqb];
        rewrite ?dot11, ?dot22, ?dot12, ?dot21; vunf; lra|]);
      destruct j; discriminate|]).
    destruct i; discriminate.
Qed.
End Sampled.

Lemma ex_C88 : exists spl r m css, fully_modelled spl mI sw_pos sw_ops r mI quad_resp m /\
  List.length (im_basis m) = 6%nat /\ Forall (fun sp => sp_order sp = 2%nat) (im_interp m) /\ orthonormal (im_basis m) /\
  phonons_about sw_pos ex_phs /\
  Forall2 (fun d cs => forall t, quad_resp (rows_scale t (rows_mul d mI)) = mpoly cs t) (ph_displacements ex_phs) css /\
  (exists u, quad_resp u <> ex_resp u).
Proof.
  destruct ex_crystal as (r & HC & H). destruct (ex_modelled r HC H) as (m & F & L6 & O & ON).
  assert (P: forall d, List.length d = 2%nat -> exists cs, forall t, quad_resp (rows_scale t (rows_mul d mI)) = mpoly cs t).
  { intros d Hd. rewrite rows_mul_mI. destruct (quad_poly d Hd) as (cs & _ & E). eauto. }
  destruct (P [mkV 1 2 3; v0] eq_refl) as (c1 & E1). destruct (P [mkV 0 0 1; mkV 0 1 0] eq_refl) as (c2 & E2).
  exists (fun k => newton (S k)), r, m, [c1; c2]. split; [auto|]. split; [auto|]. split; [auto|]. split; [auto|].
  split; [apply ex_phs_about|]. split; [repeat constructor; auto|].
  exists [mkV 0 1 0; v0]. unfold quad_resp. intros E. apply (f_equal (fun M => vx (r0 M))) in E. revert E. cbn. vunf. lra.
Qed.
