(** Proofs of C25 and C29: what the DOF of the identity operation looks like. *)
From Coq Require Import String ZArith Reals Lra Lia Psatz Bool Arith List.
From Verif Require Import Base LinAlg M_Validate M_StructUtils M_Symmetry M_Reference M_Interp
  S_Lattice S_Vec S_Symmetry S_Equivalent S_Interp P_StructUtils P_Symmetry P_Equivalent P_Equiv2 P_Equiv3 P_EquivTotal
  P_Interp P_Interp2 P_InterpEval P_Interp3 P_Interp4.
Import ListNotations.
Local Open Scope R_scope.

(** ** Wrapping short displacements *)
Lemma pbc_half_cell d : half_cell d -> apply_pbc_displacement d = d.
Proof.
  unfold half_cell, apply_pbc_displacement. induction 1 as [|v d H _ IH]; simpl; auto. rewrite IH. f_equal.
  apply vmap_wrapd_id; auto.
Qed.

Lemma half_cell_small d : rows_norm2 d <= / 100 -> half_cell d.
Proof.
  intros H. apply Forall_forall. intros v Hv. pose proof (row_norm2_le d v Hv) as K.
  destruct v as [x y z]; unfold vnorm2, vdot in K; simpl in K. unfold vall; simpl. repeat split; nra.
Qed.

(** The parent displacement [add_dof] passes on *)
Lemma parent_norm disp : rows_norm disp <> 0 ->
  over_norm 10 (Fin disp) = Fin (rows_scale (/ (10 * rows_norm disp)) disp) /\
  rows_norm2 (rows_scale (/ (10 * rows_norm disp)) disp) = / 100.
Proof.
  intros H. split.
  - unfold over_norm. destruct disp as [|v l].
    { exfalso. apply H. unfold rows_norm, rows_norm2, rows_dot. simpl. apply sqrt_0. }
    rewrite rows_norm_scale. rewrite (Rabs_right 10) by lra.
    destruct (Reqb (10 * rows_norm (v :: l)) 0) eqn:E; auto. apply Reqb_true in E. exfalso; apply H; lra.
  - rewrite rows_norm2_scale, <- rows_norm_sq. field. auto.
Qed.

Lemma scale_parent p : rows_norm2 p = / 100 -> scale_displacement (Fin p) = Fin p.
Proof.
  intros H. assert (K: apply_pbc_displacement p = p) by (apply pbc_half_cell, half_cell_small; lra).
  assert (N: rows_norm p = / 10).
  { unfold rows_norm. rewrite H. replace (/ 100) with (Rsqr (/ 10)) by (unfold Rsqr; lra). apply sqrt_Rsqr. lra. }
  rewrite scale_displacement_fin; rewrite K, N; [|lra].
  replace (/ (/ 10 * 10)) with 1 by field. rewrite rows_scale_1. auto.
Qed.

(** ** The first group is led by the displacement itself *)
Lemma id_row_symmetry pos : row_symmetry pos mI v0 (fun b => b).
Proof.
  split; [|split].
  - repeat split; simpl; try (exists 0%Z; reflexivity); exists 1%Z; reflexivity.
  - repeat split; eauto.
  - intros b Hb. rewrite vmul_mI, vadd_0_r. apply vcongr_refl.
Qed.

Lemma identity_candidate r others p : identity_first r others ->
  List.length p = List.length (rs_positions r) -> half_cell p ->
  exists perms, combine (rs_ops r) (rs_perms r) =
     ((mI, v0), perm_matrix (List.length (rs_positions r)) (fun b => b)) :: combine others perms /\
    candidate r (Fin p) (mI, v0) (perm_matrix (List.length (rs_positions r)) (fun b => b)) = Ok (Fin p).
Proof.
  intros (nu & L & pos & eq & H & Hn & Hsep) Hl Hh.
  assert (Hok: positions_ok pos = true).
  { pose proof H as H'. apply make_reference_wf in H' as (_ & _ & _ & _ & W); auto; [|discriminate].
    apply make_reference_ops in H as (_ & Hp & _). congruence. }
  pose proof H as H0. clear H.
  unfold make_reference in H0.
  destruct (verify_list_len _ _); simpl in H0; [|discriminate].
  destruct (verify_ndarray_shape _ _); simpl in H0; [|discriminate].
  destruct (compute_permutation_matrices ((mI, v0) :: others) pos) as [perms|] eqn:Ec; simpl in H0; [|discriminate].
  injection H0 as <-. cbn [rs_positions rs_ops rs_perms] in *.
  unfold compute_permutation_matrices in Ec. cbn [mapM] in Ec.
  rewrite (permutation_matrix_correct pos mI v0 (fun b => b) Hok (id_row_symmetry pos) Hsep) in Ec. cbn [rbind] in Ec.
  destruct (mapM (permutation_matrix_of pos) others) as [perms'|]; simpl in Ec; [|discriminate].
  injection Ec as <-. exists perms'. split; [reflexivity|].
  match goal with |- candidate ?x (Fin ?y) _ _ = _ => set (r := x) end.
  change (List.length pos) with (List.length (rs_positions r)).
  rewrite (candidate_exact r mI v0 (fun b => b) p); auto using id_row_symmetry.
  - f_equal. f_equal. simpl. rewrite <- Hl. transitivity (map (fun v => v) p); [|apply map_id].
    rewrite <- (map_seq_nth (fun v : V3 => v) p v0). apply map_ext. intros. apply vmul_mI.
  - eapply Forall_impl; [|exact Hh]. intros v. rewrite vmul_mI. auto.
Qed.

Definition headed (d : arr V3) (op : M3 * V3) (gs : list group) : Prop :=
  exists g gs' ds ts, gs = g :: gs' /\ g_disp g = d :: ds /\ g_trans g = op :: ts.
Lemma headed_app d op gs gs' : headed d op gs -> headed d op (gs ++ gs').
Proof. intros (g & l & ds & ts & -> & H). exists g, (l ++ gs'), ds, ts. auto. Qed.
Lemma headed_add d op gs k cd op' : headed d op gs -> headed d op (add_to_group k cd op' gs).
Proof.
  intros (g & l & ds & ts & -> & H1 & H2). destruct k as [|k]; simpl.
  - do 2 eexists. exists (ds ++ [cd]), (ts ++ [op']). split; eauto. simpl. rewrite H1, H2. auto.
  - exists g. eexists _, ds, ts. eauto.
Qed.
Lemma classify_headed d op gs orth cd op' st' : headed d op gs ->
  classify (gs, orth) cd op' = Ok st' -> headed d op (fst st').
Proof.
  intros H. unfold classify. destruct (is_orthogonal_to_all _ _) as [o|]; simpl; [|discriminate].
  destruct (o =? -1)%Z; [intros [= <-]; apply headed_app; auto|].
  destruct (is_non_collinear_with_all _ _) as [c|]; simpl; [|discriminate].
  destruct (negb _); [|intros [= <-]; auto].
  destruct (nth_error gs (Z.to_nat c)) as [g|]; [|discriminate].
  destruct (existsb _ _); intros [= <-]; auto. apply headed_add; auto.
Qed.
Lemma loop_headed r x d op ops st st' : headed d op (fst st) ->
  equivalent_loop r x ops st = Ok st' -> headed d op (fst st').
Proof.
  revert st. induction ops as [|[o P] ops IH]; simpl; intros st H; [intros [= <-]; auto|].
  destruct (candidate _ _ _ _) as [cd|]; simpl; [|discriminate].
  destruct (classify st cd o) as [st1|] eqn:E; simpl; [|discriminate].
  apply IH. destruct st. eapply classify_headed; eauto.
Qed.

Lemma first_classify cd op : classify ([], []) cd op = Ok ([mkGroup [cd] [op]], [cd]).
Proof. reflexivity. Qed.

Lemma displace_positions_same pos p : positions_ok pos = true -> List.length p = List.length pos ->
  exists q, displace_positions pos p = Ok q.
Proof. intros. eexists. apply displace_positions_eq; auto. Qed.

Lemma identity_first_ok r others : identity_first r others -> positions_ok (rs_positions r) = true.
Proof.
  intros (nu & L & pos & eq & H & Hn & Hsep). apply make_reference_wf in H as (_ & _ & _ & _ & W); auto. discriminate.
Qed.
Lemma identity_first_valid r others : identity_first r others -> valid_reference r.
Proof. intros (nu & L & pos & eq & H & Hn & Hsep). exists nu, L, pos, ((mI, v0) :: others), eq. split; [auto|]. split; [auto|discriminate]. Qed.

Lemma identity_groups r others p gs : identity_first r others ->
  List.length p = List.length (rs_positions r) -> rows_norm2 p = / 100 ->
  get_equivalent_displacements r (Fin p) = Ok gs -> headed (Fin p) (mI, v0) gs.
Proof.
  intros Hi Hl Hn. unfold get_equivalent_displacements. rewrite scale_parent by auto.
  destruct (displace_positions_same (rs_positions r) p) as (q & ->); eauto using identity_first_ok. simpl.
  assert (Hh: half_cell p) by (apply half_cell_small; lra).
  destruct (identity_candidate r others p Hi Hl Hh) as (perms & -> & C). cbn [equivalent_loop]. rewrite C.
  cbn [rbind]. rewrite first_classify. cbn [rbind].
  destruct (equivalent_loop _ _ _ _) as [st|] eqn:E; simpl; [|discriminate]. intros [= <-].
  eapply loop_headed; eauto. simpl. exists (mkGroup [Fin p] [(mI, v0)]), [], [], []. auto.
Qed.

(** With no other operation there is just that group. *)
Lemma lone_group r p : identity_first r [] ->
  List.length p = List.length (rs_positions r) -> rows_norm2 p = / 100 ->
  get_equivalent_displacements r (Fin p) = Ok [mkGroup [Fin p] [(mI, v0)]].
Proof.
  intros Hi Hl Hn. unfold get_equivalent_displacements. rewrite scale_parent by auto.
  destruct (displace_positions_same (rs_positions r) p) as (q & ->); eauto using identity_first_ok. simpl.
  assert (Hh: half_cell p) by (apply half_cell_small; lra).
  destruct (identity_candidate r [] p Hi Hl Hh) as (perms & -> & C). cbn [equivalent_loop]. rewrite C.
  cbn [rbind]. rewrite first_classify. reflexivity.
Qed.

(** ** The first DOF of a call *)
Lemma minv_mI : minv mI = Ok mI.
Proof.
  destruct (minv_exists mI) as (i & H); [rewrite mdet_mI; lra|]. rewrite H. f_equal. symmetry.
  apply (minv_unique mI i mI); auto. apply mmul_mI_l.
Qed.

Lemma over_norm_nan c l : rows_norm (rows_scale c l) = 0 -> l <> [] -> over_norm c (Fin l) = Nan (List.length l).
Proof.
  intros H Hl. unfold over_norm. destruct l; [tauto|]. rewrite H. destruct (Reqb 0 0) eqn:E; auto.
  apply Reqb_false in E. tauto.
Qed.

Lemma first_dof others cart amps pols order inc s s' w :
  identity_first (im_ref s) others -> rarr_wf pols ->
  List.length cart = List.length (rs_positions (im_ref s)) -> ra_data amps <> [] ->
  add_dof (Fin cart) amps pols order inc s = ((s', w), Ok tt) ->
  exists li b ps bs pss tl, let u := rows_mul (apply_pbc_displacement (rows_mul cart li)) (rs_lattice (im_ref s)) in
    minv (rs_lattice (im_ref s)) = Ok li /\ rows_norm u <> 0 /\ b = rows_scale (/ rows_norm u) u /\
    s' = appended s (b :: bs) (map (fun ps => mkSpline (Z.to_nat order) (sort_pts ps)) (ps :: pss)) /\
    List.length bs = List.length pss /\
    ps = (if inc then [(0, m0)] else []) ++
         map (fun ap => (fst ap, msub (snd ap) (im_refpol s))) (combine (ra_data amps) (dof_pols s amps pols)) ++ tl /\
    (others = [] -> bs = [] /\ tl = []).
Proof.
  intros Hi Wp Hl Hne H.
  pose proof (identity_first_valid _ _ Hi) as Hv. pose proof (valid_reference_wf _ Hv) as Hwf.
  apply add_dof_cases in H as [(e & E & _)|(_ & Ho & disp & dofs & bs & pss & H1 & H2 & H3 & H4 & H5 & H6 & H7 & H8 & ->)];
    [discriminate|].
  pose proof (dof_pols_length s amps pols Wp H3) as Hpl.
  assert (Hc: combine (ra_data amps) (dof_pols s amps pols) <> []).
  { intros C. apply (f_equal (@List.length _)) in C. rewrite combine_length, Hpl, Nat.min_id in C.
    destruct (ra_data amps); [tauto|discriminate]. }
  simpl in H1. unfold get_frac_displacement in H1. destruct (minv (rs_lattice (im_ref s))) as [li|] eqn:Li; simpl in H1; [|discriminate].
  injection H1 as <-. set (d := apply_pbc_displacement (rows_mul cart li)) in *.
  assert (Hdl: List.length d = List.length (rs_positions (im_ref s))).
  { unfold d. rewrite apply_pbc_displacement_length. unfold rows_mul. rewrite map_length. auto. }
  assert (Hdne: d <> []).
  { intros E. rewrite E in Hdl. destruct Hwf as (_ & W & _). simpl in Hdl. lia. }
  apply get_dof_Ok in H4 as (_ & gs & G & F).
  pose proof (groups_nonempty _ _ _ (valid_ops _ Hv) Hwf G) as Hg.
  destruct F as [|g dd gs dofs Hd F]; [tauto|]. inversion H6 as [|? ps ? pss' E1 E2]; subst.
  destruct bs as [|b bs]; [discriminate|]. simpl in H5. injection H5 as Eb Ebs.
  destruct (g_disp g) as [|child rest] eqn:Eg.
  { unfold dof_of_group in Hd. rewrite Eg in Hd. discriminate. }
  destruct (group_leader _ _ _ g child rest Hwf G (or_introl eq_refl) Eg) as (Hlen & op & P & HP & HC).
  pose proof Hd as Hd'.
  eapply first_points in Hd as (l & rest' & rot & t & ops & inv & tl & D1 & D2 & D3 & D4 & D5); eauto.
  rewrite Eg in D1. injection D1 as -> <-.
  destruct (Req_dec (rows_norm d) 0) as [Hz|Hnz].
  { rewrite over_norm_nan in HC; auto.
    - change (scale_displacement (Nan (List.length d))) with (@Nan V3 (List.length d)) in HC.
      apply candidate_nan in HC as (k & HC). discriminate.
    - rewrite rows_norm_scale, Hz. ring. }
  destruct (parent_norm d Hnz) as [Ep Np]. rewrite Ep in G.
  set (p := rows_scale (/ (10 * rows_norm d)) d) in *.
  assert (Lp: List.length p = List.length (rs_positions (im_ref s))).
  { unfold p, rows_scale. rewrite map_length. auto. }
  assert (Hone: others = [] -> bs = [] /\ tl = []).
  { intros ->. rewrite (lone_group (im_ref s) p Hi Lp Np) in G. injection G as <- <-.
    inversion F; subst. destruct bs; [|discriminate]. split; auto.
    apply dof_of_group_Ok in Hd' as (child & rest' & pss & A1 & A2 & A3 & A4). simpl in A4.
    inversion A4 as [|? q1 ? pss0 Q1 Q2]; subst. inversion Q2; subst.
    simpl in A1, D2. injection A1 as <- <-. injection D2 as <- <- <-.
    unfold points_of in Q1. destruct (multiplier _ _) as [mult|]; simpl in Q1; [|discriminate].
    apply mapM_points in Q1 as (i & Hi' & ->); auto. rewrite E1 in A3.
    apply (f_equal (@List.length _)) in A3. revert A3. unfold include_pts. simpl. rewrite app_nil_r.
    rewrite map_length, !app_length, map_length. unfold own_points. rewrite map_length.
    destruct inc; simpl; destruct tl; simpl; auto; lia. }
  apply (identity_groups _ _ _ _ Hi Lp Np) in G as (g' & gs' & ds & ts & [= <- <-] & G1 & G2).
  rewrite Eg in G1. injection G1 as -> <-. rewrite D2 in G2. injection G2 as -> -> <-.
  rewrite minv_mI in D3. injection D3 as <-.
  rewrite Eb in D4. symmetry in D4.
  assert (Hcp: get_cart_displacement (im_ref s) p = rows_scale (/ (10 * rows_norm d)) (rows_mul d (rs_lattice (im_ref s)))).
  { unfold get_cart_displacement. rewrite pbc_half_cell by (apply half_cell_small; lra). unfold p. apply rows_mul_scale. }
  rewrite Hcp in D4.
  assert (Hk: 0 < / (10 * rows_norm d)).
  { apply Rinv_0_lt_compat. pose proof (sqrt_pos (rows_norm2 d)). unfold rows_norm in *. lra. }
  set (k := / (10 * rows_norm d)) in *. set (u := rows_mul d (rs_lattice (im_ref s))) in *.
  assert (Lu: List.length u = List.length (rs_positions (im_ref s))).
  { unfold u, rows_mul. rewrite map_length. auto. }
  apply over_norm_unit in D4 as (U1 & -> & U3).
  2: { intros C. apply (f_equal (@List.length _)) in C. unfold rows_scale in C. rewrite map_length, Lu in C.
       destruct Hwf as (_ & W & _). simpl in C. lia. }
  rewrite rows_norm_scale, Rabs_right in U1 |- * by lra.
  assert (Un: rows_norm u <> 0) by (intros C; apply U1; rewrite C; ring).
  exists li. eexists. exists ps, bs, pss', tl. cbv zeta. fold d. fold u.
  split; [auto|split; [auto|split; [|split; [|split; [|split; [|exact Hone]]]]]].
  2: reflexivity.
  - rewrite rows_scale_scale. f_equal. field. repeat split; auto; lra.
  - apply (f_equal (@List.length _)) in Ebs. rewrite !map_length in Ebs. rewrite <- Ebs.
    clear - E2. induction E2; simpl; auto.
  - rewrite D5. f_equal. f_equal. unfold own_points. apply map_ext. intros [a q]. simpl.
    rewrite mmul_mI_l, mmul_mI_r. auto.
Qed.
