(** Proofs of C88, continued: models of nonlinear responses. *)
From Coq Require Import String ZArith Reals Lra Lia Psatz Bool Arith List Permutation.
From Verif Require Import Base LinAlg M_Validate M_StructUtils M_Symmetry M_Reference M_Interp M_Art
  S_Lattice S_Vec S_Symmetry S_Equivalent S_Interp S_Images S_Response S_Anharmonic P_StructUtils P_Symmetry P_Equivalent P_Equiv2 P_Equiv3 P_EquivTotal
  P_Interp P_Interp2 P_InterpEval P_Interp3 P_Interp4 P_Interp5 P_Interp6 P_StructFinal P_Images P_Response P_Response2 P_Anharmonic.
Import ListNotations.
Local Open Scope R_scope.

Lemma traces_art L pos ops r pol l m f v i k amps m' w : crystal L pos ops r ->
  l (repeat v0 (List.length pos)) = m0 -> symmetric_response pos ops l -> traces r pol l m ->
  half_cell [f] -> f <> v0 -> v = vmul f L -> py_index (List.length pos) i = Some k ->
  exact_images r (set_nth k f (repeat v0 (List.length pos))) -> amps <> [] ->
  add_art i [vx v; vy v; vz v] (vec_arr amps) (data_along pol l (set_nth k v (repeat v0 (List.length pos))) amps) m = ((m', w), Ok tt) ->
  traces r pol l m'.
Proof.
  intros HC Hl Hs HF Hh Hf0 Hv Hk Hex Hne H. pose proof HF as (I1 & I2 & I3 & _).
  destruct (crystal_parts _ _ _ _ HC) as (Ep & El & _).
  apply add_art_cases in H as [(e & E & _)|(_ & _ & f' & k' & Hf & Hk' & H)]; [discriminate|].
  rewrite I1, Ep, Hk in Hk'. injection Hk' as <-. rewrite I1 in Hf. rewrite I1, I3 in H.
  unfold get_frac_direction in Hf. rewrite El in Hf. destruct (minv L) as [li|] eqn:M; simpl in Hf; [|discriminate].
  injection Hf as <-.
  assert (Ef: vmap wrapd (vmul (mkV (vx v) (vy v) (vz v)) li) = f).
  { replace (mkV (vx v) (vy v) (vz v)) with v by (destruct v; auto). rewrite Hv, <- vmul_mmul.
    apply minv_Ok in M as (M & _). rewrite M, vmul_mI. apply vmap_wrapd_id. inversion Hh; auto. }
  rewrite Ef in H. set (n := List.length pos) in *. pose proof (py_index_lt _ _ _ Hk) as Hkn.
  set (d := set_nth k f (repeat v0 n)) in *.
  assert (Nf: vnorm2 f <> 0) by (intros E; apply Hf0, vnorm2_zero; auto).
  assert (Nfp: 0 < vnorm2 f). { assert (0 <= vnorm2 f) by (destruct f; unfold vnorm2, vdot; simpl; nra). lra. }
  assert (Nd: rows_norm d = sqrt (vnorm2 f)) by (unfold rows_norm, d; rewrite norm2_single; auto).
  assert (Sp: 0 < sqrt (vnorm2 f)) by (apply sqrt_lt_R0; auto).
  assert (Nn: sqrt (vnorm2 (vscale 10 f)) = 10 * rows_norm d).
  { rewrite Nd. replace (vnorm2 (vscale 10 f)) with (10 ^ 2 * vnorm2 f) by (destruct f; vunf; ring).
    rewrite sqrt_mult by (try apply pow2_ge_0; lra). rewrite sqrt_pow2 by lra. auto. }
  assert (Hnz: rows_norm d <> 0) by lra.
  destruct (parent_norm d Hnz) as (P1 & P2).
  assert (Ed: art_displacement r k f = Fin (rows_scale (/ (10 * rows_norm d)) d)).
  { unfold art_displacement. rewrite Nn, Ep. fold n. destruct (Reqb (10 * rows_norm d) 0) eqn:E; [apply Reqb_true in E; lra|].
    f_equal. unfold d, rows_scale. rewrite map_single; auto. unfold vscale, v0; simpl; f_equal; ring. }
  set (c := / (10 * rows_norm d)) in *. assert (Hc: 0 < c) by (apply Rinv_0_lt_compat; lra).
  assert (Hcell: half_cell (rows_scale c d)) by (apply half_cell_small; lra).
  assert (Ec: rows_mul d L = set_nth k v (repeat v0 n)).
  { unfold d, rows_mul. rewrite map_single by apply vmul_v0. subst v. auto. }
  rewrite Ed in H. cbn [get_cart_displacement_arr] in H. unfold get_cart_displacement in H. rewrite pbc_half_cell, El in H by auto.
  apply (traces_step L pos ops r pol l m (rows_scale c d) (rows_mul (rows_scale c d) L) amps 1 false m' w); auto.
  - unfold rows_scale. rewrite map_length. unfold d. apply single_length.
  - intros gs g G1 G2. apply (Hex gs g); auto. rewrite <- G1, <- P1. symmetry. apply parent_groups; auto.
    apply pbc_half_cell. unfold half_cell, d. clear - Hh. assert (Z: Forall (vall (fun x => - / 2 < x <= / 2)) (repeat v0 n)).
    { apply Forall_forall. intros x Hx. apply repeat_spec in Hx. subst. unfold vall, v0; simpl. lra. }
    revert k Z. induction (repeat v0 n) as [|a z IH]; intros [|k] Z; simpl; auto; inversion Z; subst; constructor; auto. inversion Hh; auto.
  - unfold data_along. rewrite rows_mul_scale, Ec in H |- *. rewrite direction_scale by auto. exact H.
Qed.

Lemma sampled_traces L pos ops r pol l m : crystal L pos ops r ->
  l (repeat v0 (List.length pos)) = m0 -> symmetric_response pos ops l -> sampled_any r pol l m -> traces r pol l m.
Proof.
  intros HC Hl Hs. destruct (crystal_parts _ _ _ _ HC) as (Ep & El & _).
  induction 1 as [|m d cart amps order inc m' w H IH Ld Hh Hex Ec Hne Hadd|m f v i k amps m' w H IH Hh Hf Hv Hk Hex Hne Hadd].
  - unfold traces, make_model. cbn. do 4 (split; [auto|]). split; auto. apply (make_model_inv r pol false).
    apply valid_reference_wf. eapply crystal_valid; eauto.
  - rewrite Ep, El in *. eapply traces_step; eauto.
  - rewrite Ep, El in *. eapply traces_art; eauto.
Qed.


(** ** Evaluation *)
Lemma eval_traced spl sp f b x : reproduces_polynomials spl -> spline_ok sp ->
  (forall p, In p (sp_pts sp) -> snd p = f (rows_scale (fst p) b)) -> polynomial_along f b (sp_order sp) ->
  eval_spline spl sp x = f (rows_scale x b).
Proof.
  intros Hr (S1 & S2 & S3) Hp (cs & Lc & Hc). unfold eval_spline. destruct (Nat.eqb_spec (sp_order sp) 1) as [E|E].
  - rewrite E in *. rewrite Hc. 
    assert (exists a g, forall t, mpoly cs t = madd a (mscale t g)) as (a & g & A).
    { destruct cs as [|a [|g [|? ?]]]; cbn [mpoly fold_right List.length] in *; try lia.
      - exists m0, m0. intros t. vring.
      - exists a, m0. intros t. destruct a as [[] [] []]. vring.
      - exists a, g. intros t. destruct a as [[] [] []], g as [[] [] []]. vring. }
    rewrite A. apply linear_spline_line; auto. intros p H. rewrite Hp by auto. rewrite Hc. apply A.
  - rewrite Hc. apply Hr; auto; [lia|]. intros p H. rewrite Hp by auto. apply Hc.
Qed.

Lemma prediction_traced spl f u : reproduces_polynomials spl -> forall basis interps mask,
  Forall spline_ok interps ->
  Forall2 (fun b sp => forall p, In p (sp_pts sp) -> snd p = f (rows_scale (fst p) b)) basis interps ->
  Forall2 (fun b sp => polynomial_along f b (sp_order sp)) basis interps ->
  Forall (fun k => k = false) mask -> List.length mask = List.length basis ->
  prediction (eval_spline spl) u basis interps mask
  = fold_right madd m0 (map (fun b => f (rows_scale (inner (rowsR b) (rowsR u)) b)) basis).
Proof.
  intros Hr. induction basis as [|b basis IH]; intros interps mask Ho Ht Hp Hm Lm.
  - inversion Ht; subst. destruct mask; auto.
  - inversion Ht as [|? sp ? interps' Ht1 Ht2]; subst. inversion Hp; subst. inversion Ho; subst.
    destruct mask as [|k mask]; [discriminate|]. inversion Hm; subst. cbn [prediction map fold_right]. f_equal.
    + apply eval_traced; auto.
    + apply IH; auto.
Qed.

Lemma f_C88 spl L pos ops r pol f m xs us : reproduces_polynomials spl -> crystal L pos ops r ->
  f (repeat v0 (List.length pos)) = m0 -> symmetric_response pos ops f -> sampled_any r pol f m ->
  Forall2 (fun b sp => polynomial_along f b (sp_order sp)) (im_basis m) (im_interp m) ->
  modulates_independently (List.length pos) f (im_basis m) ->
  sample_shape (List.length pos) xs -> Forall2 (displacement_from r) xs us ->
  calc_polarizabilities spl m (batch_of (List.length pos) xs) = Ok (map (fun u => madd pol (f u)) us).
Proof.
  intros Hr HC H0 Hs Hm Hp Hi Hx Hu. destruct (crystal_parts _ _ _ _ HC) as (Ep & El & _).
  destruct (sampled_traces _ _ _ _ _ _ _ HC H0 Hs Hm) as (I1 & I2 & I3 & I4 & I5 & I6).
  rewrite <- Ep, <- I1. rewrite <- Ep, <- I1 in Hx. rewrite <- I1 in Hu. rewrite calc_regular; auto. f_equal.
  destruct I5 as (Wf & (C1 & C2 & C3) & Hb & Hsp).
  induction Hu as [|p u xs us Hpu Hu IH]; simpl; auto. inversion Hx; subst. rewrite IH by auto. f_equal.
  unfold predict. rewrite madd_comm. f_equal. rewrite <- (displacement_from_unique _ _ _ Hpu).
  rewrite prediction_traced with (f := f); auto. symmetry. apply Hi.
  rewrite (displacement_from_unique _ _ _ Hpu), cart_disp_length; auto.
Qed.
