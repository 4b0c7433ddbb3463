(** Proofs of C83: the data a model holds for symmetry images of a displacement. *)
From Coq Require Import String ZArith Reals Lra Lia Psatz Bool Arith List.
From Verif Require Import Base LinAlg M_Validate M_StructUtils M_Symmetry M_Reference M_Interp
  S_Lattice S_Vec S_Symmetry S_Equivalent S_Interp S_Images P_StructUtils P_Symmetry P_Equivalent P_Equiv2 P_Equiv3 P_EquivTotal
  P_Interp P_Interp2 P_InterpEval P_Interp3 P_Interp4 P_Interp5 P_Interp6.
Import ListNotations.
Local Open Scope R_scope.

Lemma flatten_rows_scale c l : flatten_rows (rows_scale c l) = map (Rmult c) (flatten_rows l).
Proof. induction l as [|[x y z] l IH]; simpl; auto. rewrite IH. auto. Qed.

Lemma multiplier_neg l k : multiplier (Fin l) (Fin (rows_scale (-1) l)) = Ok (Some k) -> k = -1.
Proof.
  unfold multiplier. destruct (argmax _) as [i|]; simpl; [|discriminate].
  rewrite flatten_rows_scale, nth_error_map.
  destruct (nth_error (flatten_rows l) i) as [x|]; simpl; [|discriminate].
  destruct (Reqb (-1 * x) 0) eqn:E; [discriminate|]. apply Reqb_false in E. intros [= <-]. field. lra.
Qed.

Lemma f2len {A B} {P : A -> B -> Prop} {l m} : Forall2 P l m -> List.length l = List.length m.
Proof. induction 1; cbn; congruence. Qed.

Lemma Forall2_nth_l {A B} (P : A -> B -> Prop) l m i a : Forall2 P l m -> nth_error l i = Some a ->
  exists b, nth_error m i = Some b /\ P a b.
Proof.
  intros H. revert i. induction H; intros [|i]; simpl; try discriminate; eauto. intros [= <-]; eauto.
Qed.

(** The points contributed by one member of a group *)
Lemma member_points r refpol amps pols inc g d ps lead rest m x R t c :
  dof_of_group r refpol amps pols inc g = Ok d ->
  snd d = map (fun p => (Some (fst p), snd p)) ps -> combine amps pols <> [] ->
  g_disp g = Fin lead :: rest ->
  nth_error (g_disp g) m = Some (Fin x) -> nth_error (g_trans g) m = Some (R, t) ->
  (x = lead /\ c = 1) \/ (x = rows_scale (-1) lead /\ c = -1) ->
  exists Ri, minv R = Ok Ri /\ forall a q, In (a, q) (combine amps pols) ->
    In (c * a, mmul (mmul Ri (msub q refpol)) R) ps.
Proof.
  intros H Hs Hne Hg Hx Ht Hc. apply dof_of_group_Ok in H as (child & rest' & pss & H1 & _ & H3 & H4).
  rewrite Hg in H1. injection H1 as <- <-.
  pose proof (nth_error_combine _ _ _ _ _ Hx Ht) as Hm.
  destruct (Forall2_nth_l _ _ _ _ _ H4 Hm) as (pts & P1 & P2).
  unfold points_of in P2. destruct (multiplier (Fin lead) (Fin x)) as [mult|] eqn:M; simpl in P2; [|discriminate].
  apply mapM_points in P2 as (Ri & Hinv & ->); auto. exists Ri. split; auto.
  assert (Hin: forall ap, In ap (combine amps pols) ->
     In (option_map (fun k => k * fst ap) mult, mmul (mmul Ri (msub (snd ap) refpol)) R)
        (map (fun p => (Some (fst p), snd p)) ps)).
  { intros ap Hap. rewrite <- Hs, H3. apply in_or_app. right. apply in_concat. eexists. split.
    - eapply nth_error_In; eauto.
    - apply in_map_iff. exists ap. auto. }
  intros a q Haq. specialize (Hin _ Haq). simpl in Hin.
  apply in_map_iff in Hin as ([y z] & E & Hyz). simpl in E. injection E as E1 E2.
  destruct mult as [k|]; [|discriminate]. simpl in E1. injection E1 as ->.
  assert (k = c) as ->.
  { destruct Hc as [[-> ->]|[-> ->]]; [apply multiplier_self in M|apply multiplier_neg in M]; auto. }
  subst z. auto.
Qed.

(** A leader is a reduced displacement *)
Lemma pbc_idem l : apply_pbc_displacement (apply_pbc_displacement l) = apply_pbc_displacement l.
Proof. apply pbc_half_cell. apply Forall_forall. intros v Hv. apply in_map_iff in Hv as (x & <- & _). apply vall_wrapd. Qed.

Lemma candidate_reduced r d op P l : candidate r d op P = Ok (Fin l) -> apply_pbc_displacement l = l.
Proof.
  unfold candidate. destruct d as [d|n].
  2: { destruct (displace_positions _ _); simpl; [|discriminate]. destruct (bmat_mul _ _); simpl; discriminate. }
  destruct (displace_positions _ _); simpl; [|discriminate].
  destruct (transform_positions _ _ _); simpl; [|discriminate].
  destruct (bmat_mul _ _); simpl; [|discriminate].
  destruct (calc_displacement _ _) as [q|] eqn:E; simpl; [|discriminate]. intros [= <-].
  unfold calc_displacement in E. destruct (bcast2 _ _ _) as [b|]; simpl in E; [|discriminate].
  injection E as <-. apply pbc_idem.
Qed.

Lemma frac_reduced r cart d : get_frac_displacement r cart = Ok d -> apply_pbc_displacement d = d.
Proof.
  unfold get_frac_displacement. destruct (minv _); simpl; [|discriminate]. intros [= <-]. apply pbc_idem.
Qed.

(** [add_dof] asks for the symmetry images of the fractional displacement *)
Lemma parent_groups r d : apply_pbc_displacement d = d -> rows_norm d <> 0 ->
  get_equivalent_displacements r (over_norm 10 (Fin d)) = get_equivalent_displacements r (Fin d).
Proof.
  intros H1 H2. destruct (parent_norm d H2) as [E N]. rewrite E. unfold get_equivalent_displacements.
  rewrite scale_parent by auto. rewrite scale_displacement_fin by (rewrite H1; auto). rewrite H1.
  replace (rows_norm d * 10) with (10 * rows_norm d) by ring. reflexivity.
Qed.

Lemma direction_of_neg c : direction_of (rows_scale (-1) c) = rows_scale (-1) (direction_of c).
Proof.
  unfold direction_of. rewrite !magnitude_rows, rows_norm_scale, Rabs_left by lra. rewrite !rows_scale_scale.
  f_equal. replace (- -1 * rows_norm c) with (rows_norm c) by ring. ring.
Qed.

(** The DOFs a successful call adds, group by group *)
Lemma group_dofs cart amps pols order inc s s' w d gs :
  valid_reference (im_ref s) -> rarr_wf pols ->
  List.length cart = List.length (rs_positions (im_ref s)) -> ra_data amps <> [] ->
  add_dof (Fin cart) amps pols order inc s = ((s', w), Ok tt) ->
  get_frac_displacement (im_ref s) cart = Ok d ->
  get_equivalent_displacements (im_ref s) (Fin d) = Ok gs ->
  exists bs pss, s' = appended s bs (map (fun ps => mkSpline (Z.to_nat order) (sort_pts ps)) pss) /\
    List.length bs = List.length gs /\ List.length pss = List.length gs /\
    combine (ra_data amps) (dof_pols s amps pols) <> [] /\ rows_norm d <> 0 /\
    forall j g, nth_error gs j = Some g ->
      exists lead rest ps dd, g_disp g = Fin lead :: rest /\ apply_pbc_displacement lead = lead /\
        nth_error bs j = Some (direction_of (rows_mul lead (rs_lattice (im_ref s)))) /\
        nth_error pss j = Some ps /\
        dof_of_group (im_ref s) (im_refpol s) (ra_data amps) (dof_pols s amps pols) inc g = Ok dd /\
        snd dd = map (fun p => (Some (fst p), snd p)) ps.
Proof.
  intros Hv Wp Hl Hne H Hd Hgs. pose proof (valid_reference_wf _ Hv) as Hwf.
  apply add_dof_cases in H as [(e & E & _)|(_ & Ho & disp & dofs & bs & pss & H1 & H2 & H3 & H4 & H5 & H6 & H7 & H8 & ->)];
    [discriminate|].
  pose proof (dof_pols_length s amps pols Wp H3) as Hpl.
  assert (Hc: combine (ra_data amps) (dof_pols s amps pols) <> []).
  { intros C. apply (f_equal (@List.length _)) in C. rewrite combine_length, Hpl, Nat.min_id in C.
    destruct (ra_data amps); [tauto|discriminate]. }
  cbn [get_frac_displacement_arr] in H1. rewrite Hd in H1. cbn [rbind] in H1. injection H1 as <-.
  pose proof (frac_reduced _ _ _ Hd) as Hred.
  assert (Hdl: List.length d = List.length (rs_positions (im_ref s))).
  { revert Hd. unfold get_frac_displacement. destruct (minv _); simpl; [|discriminate]. intros [= <-].
    rewrite apply_pbc_displacement_length. unfold rows_mul. rewrite map_length. auto. }
  assert (Hdne: d <> []).
  { intros E. rewrite E in Hdl. destruct Hwf as (_ & W & _). simpl in Hdl. lia. }
  apply get_dof_Ok in H4 as (_ & gs' & G & F).
  (* a group cannot be led by NaN *)
  assert (Lead: forall j g dd ps, nth_error gs' j = Some g -> nth_error dofs j = Some dd -> nth_error pss j = Some ps ->
     dof_of_group (im_ref s) (im_refpol s) (ra_data amps) (dof_pols s amps pols) inc g = Ok dd ->
     snd dd = map (fun p => (Some (fst p), snd p)) ps ->
     exists lead rest op P, g_disp g = Fin lead :: rest /\ candidate (im_ref s) (scale_displacement (over_norm 10 (Fin d))) op P = Ok (Fin lead) /\
       fst dd = over_norm 1 (Fin (get_cart_displacement (im_ref s) lead))).
  { intros j g dd ps Hg Hdd Hps Hdof Hsnd.
    destruct (g_disp g) as [|child rest] eqn:Eg.
    { unfold dof_of_group in Hdof. rewrite Eg in Hdof. discriminate. }
    destruct (group_leader _ _ _ g child rest Hwf G (nth_error_In _ _ Hg) Eg) as (Hlen & op & P & HP & HC).
    eapply first_points in Hdof as (l & rest' & rot & t & ops & inv & tl & D1 & D2 & D3 & D4 & D5); eauto.
    rewrite Eg in D1. injection D1 as -> <-. exists l, rest, op, P. auto. }
  assert (Hnz: rows_norm d <> 0).
  { intros Hz. pose proof (groups_nonempty _ _ _ (valid_ops _ Hv) Hwf G) as Hg.
    destruct F as [|g dd gs'' dofs Hdof F]; [tauto|]. inversion H6 as [|? ps ? pss' E1 E2]; subst.
    destruct (Lead 0%nat g dd ps eq_refl eq_refl eq_refl Hdof E1) as (lead & rest & op & P & L1 & HC & _).
    rewrite over_norm_nan in HC; auto.
    - change (scale_displacement (Nan (List.length d))) with (@Nan V3 (List.length d)) in HC.
      apply candidate_nan in HC as (k & HC). discriminate.
    - rewrite rows_norm_scale, Hz. ring. }
  rewrite parent_groups in G by auto. rewrite Hgs in G. injection G as <-.
  assert (Lb: List.length bs = List.length dofs).
  { apply (f_equal (@List.length _)) in H5. rewrite !map_length in H5. auto. }
  exists bs, pss. split; [reflexivity|]. split; [rewrite Lb; symmetry; eapply f2len; eauto|].
  split; [transitivity (List.length dofs); symmetry; [exact (f2len H6)|exact (f2len F)]|]. split; [auto|]. split; [auto|].
  intros j g Hg. destruct (Forall2_nth_l _ _ _ _ _ F Hg) as (dd & Hdd & Hdof).
  destruct (Forall2_nth_l _ _ _ _ _ H6 Hdd) as (ps & Hps & Hsnd).
  destruct (Lead j g dd ps Hg Hdd Hps Hdof Hsnd) as (lead & rest & op & P & L1 & HC & L3).
  exists lead, rest, ps, dd. split; [auto|]. pose proof (candidate_reduced _ _ _ _ _ HC) as Hlr. split; [auto|].
  split; [|auto].
  pose proof (f_equal (fun l => nth_error l j) H5) as Hj. cbv beta in Hj. rewrite !nth_error_map in Hj.
  pose proof (eq_trans (eq_sym Hj) (f_equal (option_map fst) Hdd)) as Hj'. clear Hj. rename Hj' into Hj.
  simpl in Hj. destruct (nth_error bs j) as [b|]; [|discriminate]. simpl in Hj.
  injection Hj as Hj. rewrite L3 in Hj. f_equal. unfold get_cart_displacement in Hj. rewrite Hlr in Hj.
  destruct (rows_mul lead (rs_lattice (im_ref s))) as [|v l] eqn:Ev.
  { simpl in Hj. injection Hj as ->. reflexivity. }
  symmetry in Hj. apply over_norm_unit in Hj as (U1 & -> & U3); [|discriminate].
  unfold direction_of. rewrite magnitude_rows. reflexivity.
Qed.

Lemma reachable_incl_step cart amps pols order s s' w : reachable_incl s -> rarr_wf amps -> rarr_wf pols ->
  add_dof (Fin cart) amps pols order true s = ((s', w), Ok tt) -> reachable_incl s'.
Proof.
  intros (r & pol & dm & ops & A & B & C & ->) Wa Wp Hadd.
  exists r, pol, dm, (ops ++ [OpAddDof cart amps pols order true]). split; [auto|].
  split; [apply Forall_app; split; auto; repeat constructor; auto|].
  split; [apply Forall_app; split; auto; repeat constructor; auto|].
  unfold run in *. rewrite fold_left_app. cbn [fold_left]. set (m := fold_left step ops (make_model r pol dm)) in *.
  unfold step, run_op. rewrite Hadd. auto.
Qed.

Lemma nth_error_cut {A} (l : list A) j x : nth_error l j = Some x ->
  exists l1 l2, l = l1 ++ x :: l2 /\ List.length l1 = j.
Proof. apply nth_error_split. Qed.

(** The prediction at a knot of one DOF, when no other basis vector sees the displacement *)
Lemma predict_at_knot spl m j b sp x y p : interpolating spl -> reachable_incl m -> im_dummy m = false ->
  nth_error (im_basis m) j = Some b -> nth_error (im_interp m) j = Some sp -> nth_error (im_mask m) j = Some false ->
  In (x, y) (sp_pts sp) -> unit_length b ->
  (forall j' c, j' <> j -> nth_error (im_basis m) j' = Some c -> inner (rowsR c) (rowsR b) = 0) ->
  List.length p = List.length (rs_positions (im_ref m)) ->
  displacement_from (im_ref m) p (rows_scale x b) ->
  calc_polarizabilities spl m (batch_of (List.length (rs_positions (im_ref m))) [p]) = Ok [madd (im_refpol m) y].
Proof.
  intros Hspl Hr Hd Hb Hi Hm Hxy Hu Horth Hp Hdisp.
  pose proof (reachable_incl_zero _ Hr) as Hz.
  pose proof (reachable_inv _ (reachable_incl_reachable _ Hr)) as Inv.
  pose proof Inv as (Wf & (C1 & C2 & C3) & Hbs & Hs). specialize (C2 Hd).
  rewrite calc_regular; auto; [|repeat constructor; auto].
  simpl. f_equal. f_equal. unfold predict. rewrite <- (displacement_from_unique _ _ _ Hdisp).
  destruct (nth_error_cut _ _ _ Hb) as (b1 & b2 & Eb & Lb).
  destruct (nth_error_cut _ _ _ Hi) as (i1 & i2 & Ei & Li).
  destruct (nth_error_cut _ _ _ Hm) as (m1 & m2 & Em & Lm).
  rewrite Eb, Ei, Em. rewrite prediction_app by congruence. cbn [prediction].
  rewrite Ei in Hs, Hz. apply Forall_app in Hs as [S1 S2]. apply Forall_app in Hz as [Z1 Z2].
  inversion S2 as [|? ? S3 S4]; subst x0 l. inversion Z2 as [|? ? Z3 Z4]; subst x0 l.
  rewrite prediction_zero; auto.
  2: { intros c Hc. rewrite inner_scale_r. apply In_nth_error in Hc as (k & Hk).
       assert (k < List.length b1)%nat by (apply nth_error_Some; congruence).
       rewrite (Horth k c); [ring|lia|]. rewrite Eb, nth_error_app1 by auto. auto. }
  rewrite prediction_zero; auto.
  2: { intros c Hc. rewrite inner_scale_r. apply In_nth_error in Hc as (k & Hk).
       rewrite (Horth (S j + k)%nat c); [ring|lia|]. rewrite Eb, nth_error_app2 by lia.
       replace (S j + k - List.length b1)%nat with (S k) by lia. auto. }
  rewrite inner_scale_r. unfold unit_length in Hu. rewrite Hu, Rmult_1_r.
  rewrite (eval_spline_knot spl _ x y); auto. vring.
Qed.

Lemma f_C83 spl cart d gs amps pols order s s' w : interpolating spl ->
  reachable_incl s -> im_dummy s = false -> rarr_wf amps -> rarr_wf pols ->
  List.length cart = List.length (rs_positions (im_ref s)) -> ra_data amps <> [] ->
  add_dof (Fin cart) amps pols order true s = ((s', w), Ok tt) ->
  get_frac_displacement (im_ref s) cart = Ok d ->
  get_equivalent_displacements (im_ref s) (Fin d) = Ok gs ->
  List.length (im_basis s') = (List.length (im_basis s) + List.length gs)%nat /\
  forall j g, nth_error gs j = Some g ->
  let k := (List.length (im_basis s) + j)%nat in
  exists lead rest b, g_disp g = Fin lead :: rest /\
    nth_error (im_basis s') k = Some b /\ b = direction_of (rows_mul lead (rs_lattice (im_ref s))) /\
    forall m x R t, nth_error (g_disp g) m = Some (Fin x) -> nth_error (g_trans g) m = Some (R, t) ->
    x = lead \/ x = rows_scale (-1) lead ->
    exists Ri, inverse_of R Ri /\
    ((forall j' c, j' <> k -> nth_error (im_basis s') j' = Some c -> inner (rowsR c) (rowsR b) = 0) ->
     forall i a alpha p, nth_error (ra_data amps) i = Some a -> nth_error (mats_of (ra_data pols)) i = Some alpha ->
       List.length p = List.length (rs_positions (im_ref s)) ->
       displacement_from (im_ref s) p (rows_scale a (direction_of (rows_mul x (rs_lattice (im_ref s))))) ->
       calc_polarizabilities spl s' (batch_of (List.length (rs_positions (im_ref s))) [p])
         = Ok [madd (im_refpol s) (mmul (mmul Ri (msub alpha (im_refpol s))) R)]).
Proof.
  intros Hspl Hr Hd Wa Wp Hlc Hne Hadd Hfd Hgs.
  pose proof (reachable_incl_step _ _ _ _ _ _ _ Hr Wa Wp Hadd) as Hr'.
  pose proof (reachable_inv _ (reachable_incl_reachable _ Hr)) as (Wf & (C1 & C2 & C3) & _). specialize (C2 Hd).
  pose proof (reachable_inv _ (reachable_incl_reachable _ Hr')) as (_ & _ & Hb' & _).
  assert (Hv: valid_reference (im_ref s)).
  { destruct Hr as (r & pol & dm & ops & A & B & C & ->). destruct (run_frame (make_model r pol dm) ops) as (-> & _). exact A. }
  destruct (group_dofs _ _ _ _ _ _ _ _ _ _ Hv Wp Hlc Hne Hadd Hfd Hgs) as (bs & pss & E & Lb & Lp & Hc & _ & Hall).
  assert (Eb: im_basis s' = im_basis s ++ bs) by (rewrite E; auto).
  split; [rewrite Eb, app_length; lia|]. intros j g Hg k.
  destruct (Hall j g Hg) as (lead & rest & ps & dd & G1 & G2 & G3 & G4 & G5 & G6).
  set (b := direction_of (rows_mul lead (rs_lattice (im_ref s)))) in *.
  assert (Hkb: nth_error (im_basis s') k = Some b).
  { rewrite Eb, nth_error_app2 by (unfold k; lia). unfold k. rewrite Nat.add_comm, Nat.add_sub. auto. }
  exists lead, rest, b. split; [auto|split; [auto|split; [auto|]]].
  intros m x R t Hx Ht Hpm.
  assert (exists c, ((x = lead /\ c = 1) \/ (x = rows_scale (-1) lead /\ c = -1)) /\
     direction_of (rows_mul x (rs_lattice (im_ref s))) = rows_scale c b) as (c & Hcx & Hdir).
  { destruct Hpm as [->| ->].
    - exists 1. split; [auto|]. rewrite rows_scale_1. auto.
    - exists (-1). split; [auto|]. rewrite rows_mul_scale. apply direction_of_neg. }
  destruct (member_points _ _ _ _ _ _ _ _ _ _ _ _ _ _ _ G5 G6 Hc G1 Hx Ht Hcx) as (Ri & Hinv & Hin).
  exists Ri. split; [apply minv_Ok in Hinv; unfold inverse_of; tauto|].
  intros Horth i a alpha p Ha Hal Hp Hdisp.
  assert (Href: im_ref s' = im_ref s) by (rewrite E; auto).
  assert (Hrp: im_refpol s' = im_refpol s) by (rewrite E; auto).
  assert (Hkj: (j < List.length gs)%nat) by (apply nth_error_Some; congruence).
  rewrite <- Href, <- Hrp.
  apply (predict_at_knot spl s' k b (mkSpline (Z.to_nat order) (sort_pts ps)) (c * a)); auto.
  - rewrite E; auto.
  - rewrite E. simpl. rewrite Hd, nth_error_app2 by (unfold k; lia).
    replace (k - List.length (im_interp s))%nat with j by (unfold k; lia).
    rewrite nth_error_map, G4. auto.
  - rewrite E. simpl. rewrite nth_error_app2 by (unfold k; lia).
    replace (k - List.length (im_mask s))%nat with j by (unfold k; lia).
    apply nth_error_repeat. lia.
  - simpl. apply sort_pts_In. rewrite Hrp. apply Hin. eapply nth_error_In. apply nth_error_combine; eauto.
    unfold dof_pols. rewrite Hd. eauto.
  - unfold basis_ok in Hb'. rewrite Forall_forall in Hb'. apply (Hb' b). eapply nth_error_In; eauto.
  - rewrite Href. auto.
  - rewrite Href. rewrite Hdir, rows_scale_scale in Hdisp. rewrite Rmult_comm. auto.
Qed.

Lemma f_C83_directions s s' cart d amps pols gs : added_with_images s s' cart d amps pols gs ->
  List.length (im_basis s') = (List.length (im_basis s) + List.length gs)%nat /\
  forall j g, nth_error gs j = Some g -> exists lead rest, g_disp g = Fin lead :: rest /\
    nth_error (im_basis s') (List.length (im_basis s) + j) = Some (direction_of (rows_mul lead (rs_lattice (im_ref s)))).
Proof.
  intros (A1 & A2 & A3 & A4 & A5 & A6 & (order & w & A7) & A8 & A9).
  assert (Hi: interpolating (fun k pts x => match find (fun q => Reqb (fst q) x) pts with Some q => snd q | None => m0 end)).
  { intros k pts x y _ _ Hinc Hin. induction pts as [|[x0 y0] pts IH]; [destruct Hin|]. cbn [find fst].
    destruct (Reqb x0 x) eqn:E.
    - apply Reqb_true in E. subst x0. destruct Hin as [[= ->]|Hin]; [auto|]. exfalso.
      assert (K: forall q, In q pts -> x < fst q).
      { clear - Hinc. revert x y0 Hinc. induction pts as [|[x1 y1] pts IH]; intros x y0 Hinc q Hq; [destruct Hq|].
        destruct Hinc as (H1 & H2). simpl in H1. destruct Hq as [<-|Hq]; [exact H1|].
        apply Rlt_trans with x1; [exact H1|]. apply (IH x1 y1); auto. }
      specialize (K _ Hin). simpl in K. lra.
    - apply Reqb_false in E. destruct Hin as [[= -> ->]|Hin]; [tauto|]. apply IH; auto.
      destruct Hinc as (_ & H2). exact H2. }
  destruct (f_C83 _ cart d gs amps pols order s s' w Hi A1 A2 A3 A4 A5 A6 A7 A8 A9) as (H1 & H2).
  split; [exact H1|]. intros j g Hg. destruct (H2 j g Hg) as (lead & rest & b & B1 & B2 & -> & _). eauto.
Qed.

Lemma f_C83_data spl s s' R alpha p : interpolating spl -> image_sample s s' R alpha p ->
  exists Ri, inverse_of R Ri /\
    calc_polarizabilities spl s' (batch_of (List.length (rs_positions (im_ref s))) [p])
      = Ok [madd (im_refpol s) (mmul (mmul Ri (msub alpha (im_refpol s))) R)].
Proof.
  intros Hi (cart & d & amps & pols & gs & j & g & lead & rest & m & x & t & i & a & b & 
    (A1 & A2 & A3 & A4 & A5 & A6 & (order & w & A7) & A8 & A9) & B1 & B2 & B3 & B4 & B5 & B6 & B7 & B8 & B9 & B10 & B11).
  destruct (f_C83 _ cart d gs amps pols order s s' w Hi A1 A2 A3 A4 A5 A6 A7 A8 A9) as (_ & H2).
  destruct (H2 j g B1) as (lead' & rest' & b' & C1 & C2 & C3 & C4).
  rewrite B2 in C1. injection C1 as <- <-. rewrite B6 in C2. injection C2 as <-.
  destruct (C4 m x R t B3 B4 B5) as (Ri & D1 & D2). exists Ri. split; [auto|]. eapply D2; eauto.
Qed.

Lemma inverse_unique R Ri Rj : inverse_of R Ri -> inverse_of R Rj -> Ri = Rj.
Proof.
  intros (H1 & H2) (H3 & H4). transitivity (mmul Ri (mmul R Rj)).
  - rewrite H3, mmul_mI_r. auto.
  - rewrite mmul_assoc, H2, mmul_mI_l. auto.
Qed.

Lemma mmul_sub_r (a b c : M3) : mmul a (msub b c) = msub (mmul a b) (mmul a c).
Proof. destruct a as [[] [] []], b as [[] [] []], c as [[] [] []]. vring. Qed.
Lemma mmul_sub_l (a b c : M3) : mmul (msub a b) c = msub (mmul a c) (mmul b c).
Proof. destruct a as [[] [] []], b as [[] [] []], c as [[] [] []]. vring. Qed.
Lemma conj_sub (a b ref q : M3) : mmul (mmul a (msub b ref)) q = msub (mmul (mmul a b) q) (mmul (mmul a ref) q).
Proof. rewrite mmul_sub_r, mmul_sub_l. reflexivity. Qed.

Lemma lattice_cancel L Q R li : minv L = Ok li -> mmul L Q = mmul L R -> Q = R.
Proof.
  intros H E. apply minv_Ok in H as (H1 & H2). rewrite <- (mmul_mI_l Q), <- (mmul_mI_l R).
  replace mI with (mmul li L) by tauto. rewrite <- !mmul_assoc, E. reflexivity.
Qed.

Lemma f_C83_carried spl s s' R Q alpha p : interpolating spl -> image_sample s s' R alpha p ->
  isometry Q -> cartesian_form (rs_lattice (im_ref s)) R Q -> carried Q (im_refpol s) = im_refpol s ->
  mmul R (rs_lattice (im_ref s)) = mmul (rs_lattice (im_ref s)) R ->
  calc_polarizabilities spl s' (batch_of (List.length (rs_positions (im_ref s))) [p]) = Ok [carried Q alpha].
Proof.
  intros Hi Hs HQ HC Hr Hcomm.
  assert (Q = R) as ->.
  { destruct Hs as (cart & d & amps & pols & gs & j & g & lead & rest & m & x & t & i & a & b & 
      (A1 & A2 & A3 & A4 & A5 & A6 & A7 & A8 & A9) & _).
    unfold get_frac_displacement in A8. destruct (minv (rs_lattice (im_ref s))) as [li|] eqn:Li; [|discriminate].
    apply (lattice_cancel _ _ _ _ Li). unfold cartesian_form in HC. congruence. }
  destruct HQ as (I1 & I2). destruct (f_C83_data spl s s' R alpha p Hi Hs) as (Ri & Hinv & ->).
  f_equal. f_equal. rewrite (inverse_unique R Ri (mtrans R) Hinv) by (split; auto).
  rewrite conj_sub. unfold carried in *. rewrite Hr. generalize (mmul (mmul (mtrans R) alpha) R). intros q.
  destruct q as [[] [] []], (im_refpol s) as [[] [] []]. vring.
Qed.
