(** Proofs of C25, C26, C29 and C30. *)
From Coq Require Import String ZArith Reals Lra Lia Psatz Bool Arith List.
From Verif Require Import Base LinAlg M_Validate M_StructUtils M_Symmetry M_Reference M_Interp
  S_Lattice S_Vec S_Symmetry S_Equivalent S_Interp P_StructUtils P_Symmetry P_Equivalent P_Equiv2 P_Equiv3 P_EquivTotal
  P_Interp P_Interp2 P_InterpEval P_Interp3 P_Interp4 P_Interp5.
Import ListNotations.
Local Open Scope R_scope.

(** ** C25 *)
Lemma prediction_app value u b1 b2 i1 i2 m1 m2 :
  List.length i1 = List.length b1 -> List.length m1 = List.length b1 ->
  prediction value u (b1 ++ b2) (i1 ++ i2) (m1 ++ m2) =
  madd (prediction value u b1 i1 m1) (prediction value u b2 i2 m2).
Proof.
  revert i1 m1; induction b1 as [|b b1 IH]; intros [|i i1] [|m m1]; simpl; try discriminate.
  - intros _ _. rewrite madd_m0_l. auto.
  - intros H1 H2. rewrite IH by auto. apply madd_assoc.
Qed.
Lemma inner_scale_r a b c : inner (rowsR b) (rowsR (rows_scale a c)) = a * inner (rowsR b) (rowsR c).
Proof. rewrite !inner_rows. apply rows_dot_scale_r. Qed.

Lemma magnitude_rows c : magnitude (rowsR c) = rows_norm c.
Proof. unfold magnitude, rows_norm, rows_norm2. rewrite inner_rows. auto. Qed.

(** A fractional half-cell displacement survives the trip through Cartesian coordinates *)
Lemma cart_frac L li d : minv L = Ok li -> rows_mul (rows_mul d L) li = d.
Proof.
  intros H. apply minv_Ok in H as (H & _). rewrite <- rows_mul_mmul, H. apply rows_mul_mI.
Qed.

Lemma nth_error_combine {A B} (l : list A) (m : list B) i a b :
  nth_error l i = Some a -> nth_error m i = Some b -> nth_error (combine l m) i = Some (a, b).
Proof.
  revert m i; induction l as [|x l IH]; intros [|y m] [|i]; simpl; try discriminate; auto. congruence.
Qed.

Lemma f_C25 spl others cart amps pols order s s' w : interpolating spl ->
  reachable_incl s -> im_dummy s = false -> identity_first (im_ref s) others ->
  rarr_wf amps -> rarr_wf pols -> List.length cart = List.length (rs_positions (im_ref s)) -> ra_data amps <> [] ->
  add_dof (Fin cart) amps pols order true s = ((s', w), Ok tt) ->
  let k := List.length (im_basis s) in
  exists b, nth_error (im_basis s') k = Some b /\ unit_length b /\
    (forall d, half_cell d -> cart = rows_mul d (rs_lattice (im_ref s)) -> b = direction_of cart) /\
    ((forall j c, j <> k -> nth_error (im_basis s') j = Some c -> inner (rowsR c) (rowsR b) = 0) ->
     forall i a alpha p, nth_error (ra_data amps) i = Some a -> nth_error (mats_of (ra_data pols)) i = Some alpha ->
       List.length p = List.length (rs_positions (im_ref s)) ->
       displacement_from (im_ref s) p (rows_scale a b) ->
       calc_polarizabilities spl s' (batch_of (List.length (rs_positions (im_ref s))) [p]) = Ok [alpha]).
Proof.
  intros Hspl Hr Hd Hi Wa Wp Hlc Hne Hadd k.
  assert (Hr': reachable_incl s').
  { destruct Hr as (r & pol & dm & ops & A & B & C & ->).
    exists r, pol, dm, (ops ++ [OpAddDof cart amps pols order true]). split; [auto|].
    split; [apply Forall_app; split; auto; repeat constructor; auto|].
    split; [apply Forall_app; split; auto; repeat constructor; auto|].
    unfold run in *. rewrite fold_left_app. cbn [fold_left]. set (m := fold_left step ops (make_model r pol dm)) in *.
    unfold step, run_op. rewrite Hadd. auto. }
  pose proof (reachable_incl_zero _ Hr') as Hz'.
  pose proof (reachable_inv _ (reachable_incl_reachable _ Hr)) as (Wf & (C1 & C2 & C3) & _).
  pose proof (reachable_inv _ (reachable_incl_reachable _ Hr')) as Inv'.
  pose proof Inv' as (Wf' & (C1' & C2' & C3') & Hb' & Hs').
  destruct (first_dof others cart amps pols order true s s' w Hi Wp Hlc Hne Hadd)
    as (li & b & ps & bs & pss & tl & F1 & F2 & F3 & F4 & F5 & F6 & _).
  set (u := rows_mul (apply_pbc_displacement (rows_mul cart li)) (rs_lattice (im_ref s))) in *.
  assert (Eb: im_basis s' = im_basis s ++ b :: bs) by (rewrite F4; auto).
  assert (Hk: nth_error (im_basis s') k = Some b).
  { rewrite Eb, nth_error_app2 by (unfold k; lia). unfold k. rewrite Nat.sub_diag. auto. }
  assert (Hu: unit_length b).
  { unfold basis_ok in Hb'. rewrite Forall_forall in Hb'. apply (Hb' b). eapply nth_error_In; eauto. }
  exists b. split; [auto|split; [auto|split]].
  - intros d Hh Hc. rewrite F3. unfold u. rewrite Hc. rewrite (cart_frac _ _ _ F1), (pbc_half_cell _ Hh).
    unfold direction_of. rewrite magnitude_rows. auto.
  - intros Horth i a alpha p Ha Hal Hp Hdisp.
    assert (Href: im_ref s' = im_ref s) by (rewrite F4; auto).
    rewrite <- Href. rewrite calc_regular; auto; [|rewrite F4; auto|repeat constructor; rewrite Href; auto].
    simpl. f_equal. f_equal. unfold predict. rewrite Href, <- (displacement_from_unique _ _ _ Hdisp).
    assert (Ei: im_interp s' = im_interp s ++ mkSpline (Z.to_nat order) (sort_pts ps) ::
                map (fun ps => mkSpline (Z.to_nat order) (sort_pts ps)) pss).
    { rewrite F4. simpl. rewrite Hd. auto. }
    assert (Em: im_mask s' = im_mask s ++ false :: repeat false (List.length bs)) by (rewrite F4; auto).
    rewrite Eb, Ei, Em. rewrite prediction_app by auto. cbn [prediction].
    rewrite Ei in Hs', Hz'. apply Forall_app in Hs' as [S1 S2]. apply Forall_app in Hz' as [Z1 Z2].
    inversion S2 as [|? ? S3 S4]; subst x l. inversion Z2 as [|? ? Z3 Z4]; subst x l.
    rewrite prediction_zero; auto.
    2: { intros c Hc. rewrite inner_scale_r. apply In_nth_error in Hc as (j & Hj).
         assert (j < k)%nat by (unfold k; apply nth_error_Some; congruence).
         rewrite (Horth j c); [ring|lia|]. rewrite Eb, nth_error_app1 by (unfold k in *; auto). auto. }
    rewrite prediction_zero; auto.
    2: { intros c Hc. rewrite inner_scale_r. apply In_nth_error in Hc as (j & Hj).
         rewrite (Horth (S k + j)%nat c); [ring|lia|]. rewrite Eb, nth_error_app2 by (unfold k in *; lia).
         replace (S k + j - List.length (im_basis s))%nat with (S j) by (unfold k; lia). auto. }
    rewrite inner_scale_r. unfold unit_length in Hu. rewrite Hu, Rmult_1_r.
    rewrite (eval_spline_knot spl _ a (msub alpha (im_refpol s))); auto.
    + assert (Hrp: im_refpol s' = im_refpol s) by (rewrite F4; auto). rewrite Hrp. vring.
    + simpl. apply sort_pts_In. rewrite F6. apply in_or_app. right. apply in_or_app. left.
      apply in_map_iff. exists (a, alpha). split; auto. eapply nth_error_In.
      apply nth_error_combine; eauto. unfold dof_pols. rewrite Hd. eauto.
Qed.

(** ** C29 *)
Lemma over_norm_scale k c l : 0 < c -> over_norm k (Fin (rows_scale c l)) = over_norm k (Fin l).
Proof.
  intros Hc. unfold over_norm. destruct l as [|v l]; auto.
  change (rows_scale c (v :: l)) with (vscale c v :: rows_scale c l).
  cbv iota beta. change (vscale c v :: rows_scale c l) with (rows_scale c (v :: l)).
  set (x := v :: l). rewrite !rows_norm_scale, (Rabs_right c) by lra.
  destruct (Reqb (Rabs k * rows_norm x) 0) eqn:E.
  - apply Reqb_true in E. rewrite <- Rmult_assoc, (Rmult_comm (Rabs k) c), Rmult_assoc, E, Rmult_0_r.
    destruct (Reqb 0 0) eqn:E0; [|apply Reqb_false in E0; tauto]. unfold rows_scale. rewrite map_length. auto.
  - apply Reqb_false in E. destruct (Reqb (Rabs k * (c * rows_norm x)) 0) eqn:E0.
    + apply Reqb_true in E0. exfalso. apply E. apply (Rmult_eq_reg_l c); [|lra].
      rewrite Rmult_0_r, <- E0. ring.
    + f_equal. rewrite rows_scale_scale. f_equal. apply Reqb_false in E0. field.
      repeat split; try lra; intros C; apply E; rewrite C; ring.
Qed.

Lemma f_C29 c d amps pols order inc s : 0 < c -> half_cell d -> half_cell (rows_scale c d) ->
  let cart := rows_mul d (rs_lattice (im_ref s)) in
  add_dof (Fin (rows_scale c cart)) amps pols order inc s = add_dof (Fin cart) amps pols order inc s.
Proof.
  intros Hc H1 H2 cart. unfold add_dof, bind, get, lift, get_frac_displacement_arr, get_frac_displacement.
  destruct (minv (rs_lattice (im_ref s))) as [li|] eqn:E; cbn [rbind rmap]; auto.
  unfold cart. rewrite <- rows_mul_scale. rewrite !(cart_frac _ _ _ E). rewrite !pbc_half_cell by auto.
  rewrite over_norm_scale by auto. auto.
Qed.

(** ** C26 *)
Lemma lincomb_length n cs basis : Forall (fun b => List.length b = n) basis -> List.length (lincomb n cs basis) = n.
Proof.
  intros H. revert cs; induction H as [|b basis Hb H IH]; intros [|c cs]; simpl; try apply repeat_length.
  rewrite rows_add_length; unfold rows_scale; rewrite map_length; auto. rewrite IH. auto.
Qed.
Lemma linear_zero n l : linear_response n l -> l (repeat v0 n) = m0.
Proof.
  intros [_ H]. replace (repeat v0 n) with (rows_scale 0 (repeat v0 n)).
  - rewrite H by apply repeat_length. apply mscale_0.
  - clear. unfold rows_scale. induction n; simpl; auto. rewrite IHn, vscale_0; auto.
Qed.

Lemma rows_dot_add_r b u v : List.length u = List.length v -> rows_dot b (rows_add u v) = rows_dot b u + rows_dot b v.
Proof.
  revert u v; induction b as [|x b IH]; intros [|y u] [|z v]; try discriminate; intros H;
    try (unfold rows_dot; simpl; lra).
  change (rows_add (y :: u) (z :: v)) with (vadd y z :: rows_add u v).
  rewrite !rows_dot_cons, IH by (simpl in H; lia). rewrite (vdot_comm x (vadd y z)), vdot_vadd_l, (vdot_comm y), (vdot_comm z). ring.
Qed.
Lemma rows_dot_zero b n : rows_dot b (repeat v0 n) = 0.
Proof.
  revert n; induction b as [|x b IH]; intros [|n]; try (unfold rows_dot; simpl; lra).
  simpl repeat. rewrite rows_dot_cons, IH, vdot_v0_r. ring.
Qed.

Lemma lincomb_dot n b : forall basis cs i, Forall (fun c => List.length c = n) basis ->
  (forall j c, nth_error basis j = Some c -> inner (rowsR b) (rowsR c) = if Nat.eqb i j then 1 else 0) ->
  (List.length cs <= List.length basis)%nat ->
  inner (rowsR b) (rowsR (lincomb n cs basis)) = nth i cs 0.
Proof.
  induction basis as [|c basis IH]; intros cs i Hl Ho Hc.
  - destruct cs; [|simpl in Hc; lia]. simpl. rewrite inner_rows, rows_dot_zero. destruct i; auto.
  - destruct cs as [|x cs].
    { simpl. rewrite inner_rows, rows_dot_zero. destruct i; auto. }
    inversion Hl; subst. simpl lincomb. rewrite inner_rows, rows_dot_add_r.
    2: { unfold rows_scale. rewrite map_length, lincomb_length; auto. }
    rewrite <- !inner_rows, inner_scale_r. rewrite (Ho 0%nat c) by auto.
    destruct i as [|i]; simpl.
    + assert (E: inner (rowsR b) (rowsR (lincomb (List.length c) cs basis)) = nth (List.length basis) cs 0).
      { apply IH; auto; [|simpl in Hc; lia]. intros j d Hj. rewrite (Ho (S j) d) by auto. simpl.
        assert (j < List.length basis)%nat by (apply nth_error_Some; congruence).
        destruct (Nat.eqb_spec (List.length basis) j); auto. lia. }
      rewrite E, nth_overflow by (simpl in Hc; lia). ring.
    + rewrite (IH cs i); auto; [ring| |simpl in Hc; lia]. intros j d Hj. rewrite (Ho (S j) d) by auto. auto.
Qed.

(** Points of an interpolation lie on the line x |-> x g. *)
Definition on_line (sp : spline) (g : M3) : Prop :=
  sp_order sp = 1%nat /\ forall p, In p (sp_pts sp) -> snd p = mscale (fst p) g.

Lemma eval_on_line spl sp g x : spline_ok sp -> on_line sp g -> eval_spline spl sp x = mscale x g.
Proof.
  intros (H1 & H2 & H3) (L1 & L2). unfold eval_spline. rewrite L1, Nat.eqb_refl.
  rewrite (linear_spline_line _ m0 g x); auto; [apply madd_m0_l|lia|].
  intros p Hp. rewrite madd_m0_l. auto.
Qed.

Lemma prediction_line spl n l u : linear_response n l -> forall basis interps mask cs,
  Forall (fun b => List.length b = n) basis ->
  Forall spline_ok interps -> Forall2 (fun b sp => on_line sp (l b)) basis interps ->
  Forall (fun k => k = false) mask -> List.length mask = List.length basis -> List.length cs = List.length basis ->
  (forall j b, nth_error basis j = Some b -> inner (rowsR b) (rowsR u) = nth j cs 0) ->
  prediction (eval_spline spl) u basis interps mask = l (lincomb n cs basis).
Proof.
  intros Hl. induction basis as [|b basis IH]; intros interps mask cs Hn Hs F Hm Lm Lc Hc.
  - destruct cs; [|discriminate]. simpl. symmetry. apply linear_zero; auto.
  - destruct cs as [|c cs]; [discriminate|]. destruct mask as [|k mask]; [discriminate|].
    inversion F as [|? sp ? interps' L F']; subst. inversion Hn; inversion Hs; inversion Hm; subst. simpl.
    rewrite (eval_on_line spl sp (l b)) by auto. rewrite (Hc 0%nat b) by auto. simpl.
    rewrite (IH interps' mask cs); auto.
    + destruct Hl as [Ha Hb]. rewrite Ha, Hb; auto.
      * unfold rows_scale. rewrite map_length; auto.
      * apply lincomb_length; auto.
    + intros j d Hj. apply (Hc (S j) d). auto.
Qed.

Lemma f_C26_state spl m l xs us : inv m -> im_dummy m = false ->
  let n := List.length (rs_positions (im_ref m)) in
  linear_response n l -> orthonormal (im_basis m) -> spans n (im_basis m) ->
  Forall (fun k => k = false) (im_mask m) ->
  Forall2 (fun b sp => on_line sp (l b)) (im_basis m) (im_interp m) ->
  sample_shape n xs -> Forall2 (displacement_from (im_ref m)) xs us ->
  calc_polarizabilities spl m (batch_of n xs) = Ok (map (fun u => madd (im_refpol m) (l u)) us).
Proof.
  intros I Hd n Hl Ho Hsp Hm Hli Hx Hu. unfold n. rewrite calc_regular; auto. f_equal.
  destruct I as (Wf & (C1 & C2 & C3) & Hb & Hs).
  induction Hu as [|p u xs us Hpu Hu IH]; simpl; auto. inversion Hx; subst. rewrite IH by auto. f_equal.
  unfold predict. rewrite madd_comm. f_equal. rewrite <- (displacement_from_unique _ _ _ Hpu).
  assert (Lu: List.length u = n).
  { rewrite (displacement_from_unique _ _ _ Hpu). apply cart_disp_length. auto. }
  destruct (Hsp u Lu) as (cs & Lc & E).
  assert (Hbn: Forall (fun b => List.length b = n) (im_basis m)).
  { eapply Forall_impl; [|exact Hb]. intros b [A _]; auto. }
  rewrite E at 2. apply prediction_line; auto.
  intros j b Hj. rewrite E. apply lincomb_dot; auto; try lia.
Qed.

Lemma adds_inv r pol l carts m : identity_first r [] ->
  linear_response (List.length (rs_positions r)) l -> adds r pol l carts m ->
  im_ref m = r /\ im_refpol m = pol /\ im_dummy m = false /\ im_basis m = map direction_of carts /\
  Forall (fun k => k = false) (im_mask m) /\ inv m /\
  Forall2 (fun b sp => on_line sp (l b)) (im_basis m) (im_interp m).
Proof.
  intros Hi Hl. induction 1 as [|carts m d cart amps inc m' w H IH Ld Hh Hne Ec Hadd].
  - simpl. do 5 (split; [auto|]). split; auto. apply make_model_inv.
    apply valid_reference_wf. eapply identity_first_valid; eauto.
  - destruct IH as (I1 & I2 & I3 & I4 & I5 & I6 & I7).
    assert (Lc: List.length cart = List.length (rs_positions (im_ref m))).
    { subst cart. unfold rows_mul. rewrite map_length, I1. auto. }
    pose proof (add_dof_inv _ _ _ _ _ _ _ _ _ I6 Hadd) as Inv'.
    apply (first_dof []) in Hadd as (li & b & ps & bs & pss & tl & F1 & F2 & F3 & F4 & F5 & F6 & F7); auto.
    2: { rewrite I1; auto. }
    2: { unfold rarr_wf, mats_arr. simpl. rewrite map_length. clear. induction amps; simpl; auto. rewrite IHamps. lia. }
    destruct (F7 eq_refl) as [-> ->]. destruct pss; [|discriminate].
    assert (Eb: b = direction_of cart).
    { rewrite F3. rewrite I1 in *. rewrite Ec. rewrite (cart_frac _ _ _ F1), pbc_half_cell by auto.
      unfold direction_of. rewrite magnitude_rows. auto. }
    rewrite F4 in *. unfold appended in *. cbn [im_ref im_refpol im_dummy im_basis im_mask im_interp] in *.
    rewrite I3 in *.
    split; [auto|split; [auto|split; [auto|split; [|split; [|split; [auto|]]]]]].
    + rewrite map_app, I4, Eb. auto.
    + apply Forall_app. split; auto. repeat constructor.
    + apply Forall2_app; auto. constructor; auto. split; auto.
      intros p Hp. simpl in Hp. rewrite sort_pts_In in Hp. rewrite F6, app_nil_r in Hp.
      apply in_app_or in Hp as [Hp|Hp].
      * destruct inc; [|destruct Hp]. destruct Hp as [<-|[]]. simpl. rewrite mscale_0. auto.
      * apply in_map_iff in Hp as ([a q] & <- & Hp). simpl in *.
        unfold dof_pols in Hp. rewrite I3 in Hp. simpl in Hp. rewrite mats_of_entries in Hp.
        assert (Hq: q = madd pol (l (rows_scale a (direction_of cart)))).
        { clear - Hp. induction amps as [|x amps IH]; simpl in Hp; [destruct Hp|]. destruct Hp as [[= <- <-]|Hp]; auto. }
        rewrite Hq, I2, Eb. destruct Hl as [_ Hl]. rewrite Hl.
        -- vring.
        -- unfold direction_of, rows_scale. rewrite map_length, Lc, I1. auto.
Qed.

Lemma f_C26 spl r pol l carts m xs us : identity_first r [] ->
  let n := List.length (rs_positions r) in
  linear_response n l -> adds r pol l carts m ->
  orthonormal (map direction_of carts) -> spans n (map direction_of carts) ->
  sample_shape n xs -> Forall2 (displacement_from r) xs us ->
  calc_polarizabilities spl m (batch_of n xs) = Ok (map (fun u => madd pol (l u)) us).
Proof.
  intros Hi n Hl Ha Ho Hs Hx Hu. destruct (adds_inv r pol l carts m Hi Hl Ha) as (I1 & I2 & I3 & I4 & I5 & I6 & I7).
  unfold n. rewrite <- I1, <- I2. apply f_C26_state; auto; rewrite ?I1, ?I4; auto.
Qed.
