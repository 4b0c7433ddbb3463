(** Proofs of C88: models of nonlinear responses. *)
From Coq Require Import String ZArith Reals Lra Lia Psatz Bool Arith List Permutation.
From Verif Require Import Base LinAlg M_Validate M_StructUtils M_Symmetry M_Reference M_Interp M_Art
  S_Lattice S_Vec S_Symmetry S_Equivalent S_Interp S_Images S_Response S_Anharmonic P_StructUtils P_Symmetry P_Equivalent P_Equiv2 P_Equiv3 P_EquivTotal
  P_Interp P_Interp2 P_InterpEval P_Interp3 P_Interp4 P_Interp5 P_Interp6 P_StructFinal P_Images P_Response P_Response2.
Import ListNotations.
Local Open Scope R_scope.

Definition traces (r : refstruct) (pol : M3) (f : list V3 -> M3) (m : imodel) : Prop :=
  im_ref m = r /\ im_refpol m = pol /\ im_dummy m = false /\ Forall (fun k => k = false) (im_mask m) /\ inv m /\
  Forall2 (fun b sp => forall p, In p (sp_pts sp) -> snd p = f (rows_scale (fst p) b)) (im_basis m) (im_interp m).

Lemma rows_scale_zero u : rows_scale 0 u = repeat v0 (List.length u).
Proof. induction u as [|v u IH]; cbn; f_equal; auto. destruct v; unfold vscale, v0; cbn; f_equal; ring. Qed.

Lemma traces_step L pos ops r pol l m d cart amps order inc m' w : crystal L pos ops r ->
  l (repeat v0 (List.length pos)) = m0 -> symmetric_response pos ops l ->
  traces r pol l m -> List.length d = List.length pos -> half_cell d -> exact_images r d ->
  cart = rows_mul d L -> amps <> [] ->
  add_dof (Fin cart) (vec_arr amps) (data_along pol l cart amps) order inc m = ((m', w), Ok tt) ->
  traces r pol l m'.
Proof.
  intros HC Hl Hs (I1 & I2 & I3 & I5 & I6 & I7) Ld Hh Hex Ec Hne Hadd.
  pose proof (crystal_valid _ _ _ _ HC) as Hv. destruct (crystal_parts _ _ _ _ HC) as (Ep & El & Eo).
  assert (Lc: List.length cart = List.length (rs_positions (im_ref m))).
  { subst cart. unfold rows_mul. rewrite map_length, I1, Ep. auto. }
  pose proof (add_dof_inv _ _ _ _ _ _ _ _ _ I6 Hadd) as Inv'.
  assert (Wp: rarr_wf (data_along pol l cart amps)).
  { unfold rarr_wf, data_along, mats_arr. simpl. rewrite map_length. clear. induction amps; simpl; auto. rewrite IHamps. lia. }
  assert (Hfd: get_frac_displacement r cart = Ok d).
  { pose proof Hadd as K. apply add_dof_cases in K as [(e & E & _)|(_ & _ & disp & dofs & bs & pss & H1 & _)]; [discriminate|].
    cbn [get_frac_displacement_arr] in H1. rewrite I1 in H1. unfold get_frac_displacement in *.
    rewrite El in *. destruct (minv L) as [li|] eqn:M; simpl in *; [|discriminate].
    rewrite Ec, (cart_frac _ _ _ M), pbc_half_cell by auto. auto. }
  assert (Hgs: exists gs, get_equivalent_displacements r (Fin d) = Ok gs).
  { destruct Hv as (nu & L' & pos' & ops' & eq & V1 & V2 & V3). eapply f_C16_total; eauto. simpl.
    apply make_reference_ops in V1 as (_ & <- & _). rewrite Ep. auto. }
  destruct Hgs as (gs & Hgs).
  assert (Hv': valid_reference (im_ref m)) by (rewrite I1; auto).
  destruct (group_dofs cart (vec_arr amps) (data_along pol l cart amps) order inc m m' w d gs Hv' Wp Lc Hne Hadd) as (bs & pss & E & Lb & Lp & Hc & Hnz & Hall);
    [rewrite I1; auto|rewrite I1; auto|].
  assert (Hred: apply_pbc_displacement d = d) by (apply pbc_half_cell; auto).
  rewrite E in Inv' |- *. unfold appended in *. cbn [im_ref im_refpol im_dummy im_basis im_mask im_interp] in *.
  rewrite I3 in *.
  split; [auto|split; [auto|split; [auto|split; [|split; [auto|]]]]].
  { apply Forall_app. split; auto. clear. induction (List.length bs); simpl; auto. }
  apply Forall2_app; auto.
  assert (G: forall j b, nth_error bs j = Some b -> exists ps, nth_error pss j = Some ps /\
     forall p, In p ps -> snd p = l (rows_scale (fst p) b)).
  { intros j b Hb. assert (Hj: (j < List.length gs)%nat) by (rewrite <- Lb; apply nth_error_Some; congruence).
    destruct (nth_error gs j) as [g|] eqn:Hg; [|apply nth_error_None in Hg; lia].
    destruct (Hall j g Hg) as (lead & rest & ps & dd & G1 & G2 & G3 & G4 & G5 & G6).
    rewrite G3 in Hb. injection Hb as <-. rewrite I1, El in *. exists ps. split; [auto|]. intros [x y] Hxy. simpl.
    destruct (Hex gs g Hgs (nth_error_In _ _ Hg)) as (lead' & rest' & X1 & X2). rewrite G1 in X1. injection X1 as <- <-.
    pose proof (crystal_images _ _ _ _ _ _ HC Ld Hred Hnz Hgs) as Him. rewrite Forall_forall in Him.
    specialize (Him g (nth_error_In _ _ Hg)).
    assert (Llead: List.length lead = List.length pos).
    { inversion Him as [A B|dd0 op0 l1 l2 (pi0 & W1 & W2 & W3) Him' W4 W5].
      - rewrite G1 in A. discriminate.
      - rewrite G1 in W4. injection W4 as -> _. injection W3 as ->. rewrite map_length, seq_length. auto. }
    destruct (group_points _ _ _ _ _ _ _ _ _ _ G5 G6 Hc Hxy) as [(-> & ->)|(child & rest2 & c & R & t & Ri & k & a & q & K1 & K2 & K3 & K4 & K5 & K6 & K7)].
    { cbn [fst snd]. rewrite rows_scale_zero. unfold direction_of, rows_scale, rows_mul. rewrite !map_length.
      rewrite Llead. auto. }
    rewrite K1 in G1. injection G1 as -> ->.
    set (s := / (rows_norm d * 10)) in *.
    destruct (in_combine_f2 _ _ _ _ _ Him K2) as (pi & O1 & O2 & O3). cbn [fst snd] in O2, O3.
    assert (exists R0 pi0, isometry R0 /\ permutes (List.length cart) pi0 /\
       rows_mul lead L = rows_scale s (moved R0 pi0 cart)) as (R0 & pi0 & Z1 & Z2 & Z3).
    { inversion Him as [|dd0 op0 l1 l2 (pi0 & W1 & W2 & W3) Him' W4 W5].
      - rewrite K1 in H. discriminate.
      - rewrite K1 in W4. injection W4 as -> _. injection W3 as ->.
        destruct HC as (_ & _ & _ & _ & HC). rewrite Forall_forall in HC. destruct (HC op0 W1) as (_ & Y1 & Y2 & _).
        exists (fst op0), pi0. split; [auto|]. split; [rewrite Lc, ?I1, Ep; apply W2|].
        rewrite Ec. apply image_cart; auto. }
    pose proof HC as (_ & _ & _ & _ & HC'). rewrite Forall_forall in HC'. destruct (HC' _ O1) as (_ & Y1 & Y2 & _).
    cbn [fst] in Y1, Y2. subst c.
    set (xx := map (fun b => vmul (vscale s (nth (pi b) d v0)) R) (seq 0 (List.length pos))) in *.
    assert (X3: rows_mul xx L = rows_scale s (moved R pi cart)) by (rewrite Ec; apply image_cart; auto).
    assert (K2': In (Fin xx) (g_disp g)) by (eapply in_combine_l; eauto).
    assert (exists kk, k = kk /\ rows_mul xx L = rows_scale kk (rows_mul lead L)) as (kk & -> & X4).
    { destruct (X2 _ K2') as [X|X]; rewrite X in K3 |- *.
      - apply multiplier_self in K3. exists 1. split; [auto|]. rewrite rows_scale_1. auto.
      - apply multiplier_neg in K3. exists (-1). split; [auto|]. apply rows_mul_scale. }
    assert (Hcl: List.length cart = List.length pos) by (rewrite Lc, ?I1, ?Ep; auto).
    assert (Hs0: s <> 0) by (apply Rinv_neq_0_compat; lra).
    assert (Hpos: 0 < s).
    { apply Rinv_0_lt_compat. assert (0 <= rows_norm d) by apply sqrt_pos. lra. }
    assert (Ll: List.length (rows_mul lead L) = List.length pos).
    { rewrite Z3. unfold rows_scale. rewrite map_length, moved_length. auto. }
    assert (Hn: rows_norm (rows_mul lead L) = s * rows_norm cart).
    { rewrite Z3, rows_norm_scale, moved_norm, Rabs_right by (auto; lra). auto. }
    assert (Hc0: rows_norm cart <> 0).
    { intros C. destruct Inv' as (_ & _ & B & _). unfold basis_ok in B. cbn [im_basis] in B. apply Forall_app in B as [_ B].
      rewrite Forall_forall in B. destruct (B _ (nth_error_In _ _ G3)) as [_ B1]. unfold unit_length in B1. rewrite inner_rows in B1.
      assert (B2: rows_norm (direction_of (rows_mul lead L)) = 1) by (unfold rows_norm, rows_norm2; rewrite B1; apply sqrt_1).
      unfold direction_of in B2. rewrite rows_norm_scale, Hn, C in B2. lra. }
    assert (E1: moved R pi cart = rows_scale (kk * rows_norm cart) (direction_of (rows_mul lead L))).
    { unfold direction_of. rewrite magnitude_rows, Hn, rows_scale_scale.
      rewrite <- (rows_scale_1 (moved R pi cart)). replace 1 with (/ s * s) by (field; auto).
      rewrite <- rows_scale_scale, <- X3, X4, rows_scale_scale. f_equal. field. split; auto. }
    assert (Eq: q = madd pol (l (rows_scale a (direction_of cart)))).
    { clear - K5 I3. unfold dof_pols, data_along in K5. rewrite I3 in K5. simpl in K5. rewrite mats_of_entries in K5.
      induction amps as [|z amps IH]; simpl in K5; [destruct K5|]. destruct K5 as [[= <- <-]|K5]; auto. }
    assert (ERi: Ri = mtrans R).
    { apply (inverse_unique R); [apply minv_Ok in K4; unfold inverse_of; tauto|]. exact Y1. }
    assert (E3: msub q (im_refpol m) = l (rows_scale (a / rows_norm cart) cart)).
    { rewrite Eq, I2. unfold direction_of. rewrite magnitude_rows, rows_scale_scale. apply madd_sub_cancel. }
    assert (E4: y = l (rows_scale (a / rows_norm cart) (moved R pi cart))).
    { rewrite K7, E3, ERi. change (carried R (l (rows_scale (a / rows_norm cart) cart)) = l (rows_scale (a / rows_norm cart) (moved R pi cart))).
      rewrite <- moved_scale. symmetry. apply (Hs (R, t) pi _ O1 O2). unfold rows_scale. rewrite map_length; auto. }
    rewrite E4, E1, K6, rows_scale_scale. do 2 f_equal. field. auto. }
  clear - G Lb Lp. assert (Lpb: List.length pss = List.length bs) by congruence. clear Lb Lp.
  revert pss G Lpb. induction bs as [|b bs IH]; intros [|ps pss] G Lpb; simpl in *; try discriminate; constructor.
  - destruct (G 0%nat b eq_refl) as (ps' & [= <-] & K). intros p Hp. simpl in Hp. rewrite sort_pts_In in Hp. auto.
  - apply IH; [|lia]. intros j c Hj. exact (G (S j) c Hj).
Qed.
