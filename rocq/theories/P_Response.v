(** Proofs of C85 and C86: models built from a symmetric linear response. *)
From Coq Require Import String ZArith Reals Lra Lia Psatz Bool Arith List Permutation.
From Verif Require Import Base LinAlg M_Validate M_StructUtils M_Symmetry M_Reference M_Interp M_Art
  S_Lattice S_Vec S_Symmetry S_Equivalent S_Interp S_Images S_Response P_StructUtils P_Symmetry P_Equivalent P_Equiv2 P_Equiv3 P_EquivTotal
  P_Interp P_Interp2 P_InterpEval P_Interp3 P_Interp4 P_Interp5 P_Interp6 P_StructFinal P_Images.
Import ListNotations.
Local Open Scope R_scope.

(** The points of a group come from its members, or are the reference point. *)
Lemma group_points r refpol amps pols inc g d ps x y :
  dof_of_group r refpol amps pols inc g = Ok d ->
  snd d = map (fun p => (Some (fst p), snd p)) ps -> combine amps pols <> [] -> In (x, y) ps ->
  (x = 0 /\ y = m0) \/
  exists child rest c R t Ri k a q, g_disp g = child :: rest /\
    In (c, (R, t)) (combine (g_disp g) (g_trans g)) /\ multiplier child c = Ok (Some k) /\ minv R = Ok Ri /\
    In (a, q) (combine amps pols) /\ x = k * a /\ y = mmul (mmul Ri (msub q refpol)) R.
Proof.
  intros H Hs Hne Hin. apply dof_of_group_Ok in H as (child & rest & pss & H1 & _ & H3 & H4).
  assert (K: In (Some x, y) (snd d)).
  { rewrite Hs. apply in_map_iff. exists (x, y). auto. }
  rewrite H3 in K. apply in_app_or in K as [K|K].
  - left. destruct inc; simpl in K; [|tauto]. destruct K as [[= <- <-]|[]]. auto.
  - right. apply in_concat in K as (pts & P1 & P2).
    assert (exists ct, In ct (combine (g_disp g) (g_trans g)) /\ points_of refpol amps pols child ct = Ok pts) as ((c & R & t) & Q1 & Q2).
    { clear - H4 P1. induction H4 as [|ct p l l' E F IH]; [destruct P1|]. destruct P1 as [->|P1].
      - exists ct. simpl; auto.
      - destruct (IH P1) as (ct' & A & B). exists ct'. simpl; auto. }
    unfold points_of in Q2. destruct (multiplier child c) as [mult|] eqn:M; simpl in Q2; [|discriminate].
    apply mapM_points in Q2 as (Ri & Hinv & ->); auto.
    apply in_map_iff in P2 as ([a q] & E & Haq). simpl in E. injection E as E1 E2.
    destruct mult as [k|]; [|discriminate]. simpl in E1. injection E1 as E1.
    exists child, rest, c, R, t, Ri, k, a, q. rewrite E1, E2. auto 10.
Qed.

(** ** Symmetry images of Cartesian displacements *)
Lemma isometry_norm Q v : isometry Q -> vnorm2 (vmul v Q) = vnorm2 v.
Proof.
  intros (H & _). destruct Q as [[a b c] [d e f] [g h i]], v as [x y z].
  unfold mmul, mtrans, mI in H. cbn in H. unfold vmul, vadd, vscale in H. cbn in H.
  injection H as A1 A2 A3 B1 B2 B3 C1 C2 C3. unfold vnorm2, vdot, vmul, vadd, vscale. cbn [vx vy vz r0 r1 r2].
  transitivity (x*x*(a * a + (b * b + c * c)) + y*y*(d * d + (e * e + f * f)) + z*z*(g * g + (h * h + i * i))
    + 2*x*y*(a * d + (b * e + c * f)) + 2*x*z*(a * g + (b * h + c * i)) + 2*y*z*(d * g + (e * h + f * i))); [ring|].
  rewrite A1, A2, A3, B2, B3, C3. ring.
Qed.

Lemma rows_norm2_sum l : rows_norm2 l = rsum (map vnorm2 l).
Proof. unfold rows_norm2, rows_dot, rsum. induction l as [|v l IH]; simpl; auto. rewrite IH. auto. Qed.

Lemma rsum_perm l m : Permutation l m -> rsum l = rsum m.
Proof. unfold rsum. induction 1; simpl; lra. Qed.

Lemma permutes_perm n pi : permutes n pi -> Permutation (map pi (seq 0 n)) (seq 0 n).
Proof.
  intros (H1 & H2 & H3). apply NoDup_Permutation.
  - assert (N: NoDup (seq 0 n)) by apply seq_NoDup.
    assert (B: forall x, In x (seq 0 n) -> (x < n)%nat) by (intros x; rewrite in_seq; lia).
    revert N B. generalize (seq 0 n). induction l as [|x l IH]; intros N B; simpl; [constructor|].
    inversion N; subst. constructor.
    + intros C. apply in_map_iff in C as (y & E & Hy). assert (y = x) by (apply H2; auto; [apply B; simpl; auto|apply B; simpl; auto]). congruence.
    + apply IH; auto. intros; apply B; simpl; auto.
  - apply seq_NoDup.
  - intros x. rewrite in_map_iff, in_seq. split.
    + intros (y & <- & Hy). apply in_seq in Hy. specialize (H1 y). lia.
    + intros Hx. destruct (H3 x) as (b & Hb & E); [lia|]. exists b. rewrite in_seq. split; [auto|lia].
Qed.

Lemma map_nth_seq {A} (l : list A) d : map (fun i => nth i l d) (seq 0 (List.length l)) = l.
Proof.
  induction l as [|x l IH]; simpl; auto. f_equal. rewrite <- seq_shift, map_map. exact IH.
Qed.

Lemma moved_length R pi u : List.length (moved R pi u) = List.length u.
Proof. unfold moved. rewrite map_length, seq_length. auto. Qed.

Lemma moved_norm R pi u : isometry R -> permutes (List.length u) pi -> rows_norm (moved R pi u) = rows_norm u.
Proof.
  intros HR Hp. unfold rows_norm. f_equal. rewrite !rows_norm2_sum. unfold moved. rewrite map_map.
  erewrite map_ext by (intros; apply isometry_norm; auto).
  rewrite <- (map_map pi (fun i => vnorm2 (nth i u v0))).
  rewrite (rsum_perm _ (map (fun i => vnorm2 (nth i u v0)) (seq 0 (List.length u)))).
  2: { apply Permutation_map, permutes_perm. auto. }
  rewrite <- (map_map (fun i => nth i u v0) vnorm2), map_nth_seq. auto.
Qed.

Lemma moved_scale R pi c u : moved R pi (rows_scale c u) = rows_scale c (moved R pi u).
Proof.
  unfold moved. unfold rows_scale at 2. rewrite map_length. unfold rows_scale. rewrite map_map. apply map_ext. intros b.
  replace v0 with (vscale c v0) at 1 by (unfold vscale, v0; cbn; f_equal; ring). rewrite map_nth.
  destruct (nth (pi b) u v0), R as [[] [] []]. vring.
Qed.

(** The Cartesian form of an image of a fractional displacement *)
Lemma image_cart R L pi s d n : mmul R L = mmul L R -> List.length d = n ->
  rows_mul (map (fun b => vmul (vscale s (nth (pi b) d v0)) R) (seq 0 n)) L = rows_scale s (moved R pi (rows_mul d L)).
Proof.
  intros H Hn. rewrite <- moved_scale. unfold moved, rows_mul, rows_scale. rewrite !map_length, Hn, !map_map. apply map_ext. intros b.
  rewrite <- vmul_mmul, H, vmul_mmul. f_equal.
  assert (E: vscale s (vmul v0 L) = v0) by (destruct L as [[] [] []]; unfold vscale, vmul, vadd, v0; cbn; f_equal; ring).
  rewrite <- E at 2. rewrite (map_nth (fun x => vscale s (vmul x L))).
  destruct (nth (pi b) d v0), L as [[] [] []]. vring.
Qed.

Lemma in_combine_f2 {A B} (P : A -> B -> Prop) l m a b : Forall2 P l m -> In (a, b) (combine l m) -> P a b.
Proof. induction 1; simpl; [tauto|]. intros [[= <- <-]|H1]; auto. Qed.

Lemma madd_sub_cancel a b : msub (madd a b) a = b.
Proof. destruct a as [[] [] []], b as [[] [] []]. vring. Qed.

Lemma mscale_twice a b m : mscale a (mscale b m) = mscale (a * b) m.
Proof. destruct m as [[] [] []]. vring. Qed.
Lemma mscale_one m : mscale 1 m = m.
Proof. destruct m as [[] [] []]. vring. Qed.

(** ** One call *)
Definition follows (r : refstruct) (pol : M3) (l : list V3 -> M3) (m : imodel) : Prop :=
  im_ref m = r /\ im_refpol m = pol /\ im_dummy m = false /\ Forall (fun k => k = false) (im_mask m) /\ inv m /\
  Forall2 (fun b sp => on_line sp (l b)) (im_basis m) (im_interp m).

Lemma crystal_valid L pos ops r : crystal L pos ops r -> valid_reference r.
Proof. intros ((nu & eq & H) & H1 & H2 & _). exists nu, L, pos, ops, eq. auto. Qed.

Lemma crystal_parts L pos ops r : crystal L pos ops r -> rs_positions r = pos /\ rs_lattice r = L /\ rs_ops r = ops.
Proof. intros ((nu & eq & H) & _). apply make_reference_ops in H. tauto. Qed.

Lemma crystal_images L pos ops r d gs : crystal L pos ops r -> List.length d = List.length pos ->
  apply_pbc_displacement d = d -> rows_norm d <> 0 -> get_equivalent_displacements r (Fin d) = Ok gs ->
  Forall (fun g => Forall2 (fun disp op => exists pi, In op ops /\ row_symmetry pos (fst op) (snd op) pi /\
      disp = Fin (map (fun b => vmul (vscale (/ (rows_norm d * 10)) (nth (pi b) d v0)) (fst op)) (seq 0 (List.length pos))))
    (g_disp g) (g_trans g)) gs.
Proof.
  intros ((nu & eq & H) & H1 & H2 & H3 & H4) Hl Hp Hn Hg.
  eapply f_C17; eauto.
  - apply positions_ok_spec. destruct (make_reference_wf _ _ _ _ _ _ H1 H2 H) as (_ & _ & _ & _ & K).
    apply make_reference_ops in H as (_ & <- & _). auto.
  - eapply Forall_impl; [|exact H4]. intros op (A & _ & _ & B). auto.
  - apply apply_pbc_displacement_spec. auto.
Qed.

Lemma follows_step L pos ops r pol l m d cart amps inc m' w : crystal L pos ops r ->
  linear_response (List.length pos) l -> symmetric_response pos ops l ->
  follows r pol l m -> List.length d = List.length pos -> half_cell d -> exact_images r d ->
  cart = rows_mul d L -> amps <> [] ->
  add_dof (Fin cart) (vec_arr amps) (data_along pol l cart amps) 1 inc m = ((m', w), Ok tt) ->
  follows r pol l m'.
Proof.
  intros HC Hl Hs (I1 & I2 & I3 & I5 & I6 & I7) Ld Hh Hex Ec Hne Hadd.
  pose proof (crystal_valid _ _ _ _ HC) as Hv. destruct (crystal_parts _ _ _ _ HC) as (Ep & El & Eo).
  assert (Lc: List.length cart = List.length (rs_positions (im_ref m))).
  { subst cart. unfold rows_mul. rewrite map_length, I1, Ep. auto. }
  pose proof (add_dof_inv _ _ _ _ _ _ _ _ _ I6 Hadd) as Inv'.
  assert (Wp: rarr_wf (data_along pol l cart amps)).
  { unfold rarr_wf, data_along, mats_arr. simpl. rewrite map_length. clear. induction amps; simpl; auto. rewrite IHamps. lia. }
  assert (Hfd: get_frac_displacement r cart = Ok d).
  { pose proof Hadd as K. apply add_dof_cases in K as [(e & E & _)|(_ & _ & disp & dofs & bs & pss & H1 & _)]; [discriminate|].
    cbn [get_frac_displacement_arr] in H1. rewrite I1 in H1. unfold get_frac_displacement in *.
    rewrite El in *. destruct (minv L) as [li|] eqn:M; simpl in *; [|discriminate].
    rewrite Ec, (cart_frac _ _ _ M), pbc_half_cell by auto. auto. }
  assert (Hgs: exists gs, get_equivalent_displacements r (Fin d) = Ok gs).
  { destruct Hv as (nu & L' & pos' & ops' & eq & V1 & V2 & V3). eapply f_C16_total; eauto. simpl.
    apply make_reference_ops in V1 as (_ & <- & _). rewrite Ep. auto. }
  destruct Hgs as (gs & Hgs).
  assert (Hv': valid_reference (im_ref m)) by (rewrite I1; auto).
  destruct (group_dofs cart (vec_arr amps) (data_along pol l cart amps) 1 inc m m' w d gs Hv' Wp Lc Hne Hadd) as (bs & pss & E & Lb & Lp & Hc & Hnz & Hall);
    [rewrite I1; auto|rewrite I1; auto|].
  assert (Hred: apply_pbc_displacement d = d) by (apply pbc_half_cell; auto).
  rewrite E in Inv' |- *. unfold appended in *. cbn [im_ref im_refpol im_dummy im_basis im_mask im_interp] in *.
  rewrite I3 in *.
  split; [auto|split; [auto|split; [auto|split; [|split; [auto|]]]]].
  { apply Forall_app. split; auto. clear. induction (List.length bs); simpl; auto. }
  apply Forall2_app; auto.
  assert (G: forall j b, nth_error bs j = Some b -> exists ps, nth_error pss j = Some ps /\
     forall p, In p ps -> snd p = mscale (fst p) (l b)).
  { intros j b Hb. assert (Hj: (j < List.length gs)%nat) by (rewrite <- Lb; apply nth_error_Some; congruence).
    destruct (nth_error gs j) as [g|] eqn:Hg; [|apply nth_error_None in Hg; lia].
    destruct (Hall j g Hg) as (lead & rest & ps & dd & G1 & G2 & G3 & G4 & G5 & G6).
    rewrite G3 in Hb. injection Hb as <-. rewrite I1, El in *. exists ps. split; [auto|]. intros [x y] Hxy. simpl.
    destruct (Hex gs g Hgs (nth_error_In _ _ Hg)) as (lead' & rest' & X1 & X2). rewrite G1 in X1. injection X1 as <- <-.
    pose proof (crystal_images _ _ _ _ _ _ HC Ld Hred Hnz Hgs) as Him. rewrite Forall_forall in Him.
    specialize (Him g (nth_error_In _ _ Hg)).
    destruct (group_points _ _ _ _ _ _ _ _ _ _ G5 G6 Hc Hxy) as [(-> & ->)|(child & rest2 & c & R & t & Ri & k & a & q & K1 & K2 & K3 & K4 & K5 & K6 & K7)].
    { rewrite mscale_0. auto. }
    rewrite K1 in G1. injection G1 as -> ->.
    set (s := / (rows_norm d * 10)) in *.
    destruct (in_combine_f2 _ _ _ _ _ Him K2) as (pi & O1 & O2 & O3). cbn [fst snd] in O2, O3.
    assert (exists R0 pi0, isometry R0 /\ permutes (List.length cart) pi0 /\
       rows_mul lead L = rows_scale s (moved R0 pi0 cart)) as (R0 & pi0 & Z1 & Z2 & Z3).
    { inversion Him as [|dd0 op0 l1 l2 (pi0 & W1 & W2 & W3) Him' W4 W5].
      - rewrite K1 in H. discriminate.
      - rewrite K1 in W4. injection W4 as -> _. injection W3 as ->.
        destruct HC as (_ & _ & _ & _ & HC). rewrite Forall_forall in HC. destruct (HC op0 W1) as (_ & Y1 & Y2 & _).
        exists (fst op0), pi0. split; [auto|]. split; [rewrite Lc, ?I1, Ep; apply W2|].
        rewrite Ec. apply image_cart; auto. }
    pose proof HC as (_ & _ & _ & _ & HC'). rewrite Forall_forall in HC'. destruct (HC' _ O1) as (_ & Y1 & Y2 & _).
    cbn [fst] in Y1, Y2. subst c.
    set (xx := map (fun b => vmul (vscale s (nth (pi b) d v0)) R) (seq 0 (List.length pos))) in *.
    assert (X3: rows_mul xx L = rows_scale s (moved R pi cart)) by (rewrite Ec; apply image_cart; auto).
    assert (K2': In (Fin xx) (g_disp g)) by (eapply in_combine_l; eauto).
    assert (exists kk, k = kk /\ rows_mul xx L = rows_scale kk (rows_mul lead L)) as (kk & -> & X4).
    { destruct (X2 _ K2') as [X|X]; rewrite X in K3 |- *.
      - apply multiplier_self in K3. exists 1. split; [auto|]. rewrite rows_scale_1. auto.
      - apply multiplier_neg in K3. exists (-1). split; [auto|]. apply rows_mul_scale. }
    assert (Hcl: List.length cart = List.length pos) by (rewrite Lc, ?I1, ?Ep; auto).
    assert (Hs0: s <> 0) by (apply Rinv_neq_0_compat; lra).
    assert (Hpos: 0 < s).
    { apply Rinv_0_lt_compat. assert (0 <= rows_norm d) by apply sqrt_pos. lra. }
    destruct Hl as (Hla & Hlb).
    assert (Ll: List.length (rows_mul lead L) = List.length pos).
    { rewrite Z3. unfold rows_scale. rewrite map_length, moved_length. auto. }
    assert (Hn: rows_norm (rows_mul lead L) = s * rows_norm cart).
    { rewrite Z3, rows_norm_scale, moved_norm, Rabs_right by (auto; lra). auto. }
    assert (E1: l (direction_of (rows_mul lead L)) = mscale (/ (s * rows_norm cart)) (l (rows_mul lead L))).
    { unfold direction_of. rewrite magnitude_rows, Hn. apply Hlb. auto. }
    assert (E2: mscale s (l (moved R pi cart)) = mscale kk (l (rows_mul lead L))).
    { rewrite <- !Hlb by (auto; rewrite moved_length; auto). f_equal. rewrite <- X3. auto. }
    assert (Eq: q = madd pol (l (rows_scale a (direction_of cart)))).
    { clear - K5 I3. unfold dof_pols, data_along in K5. rewrite I3 in K5. simpl in K5. rewrite mats_of_entries in K5.
      induction amps as [|z amps IH]; simpl in K5; [destruct K5|]. destruct K5 as [[= <- <-]|K5]; auto. }
    assert (ERi: Ri = mtrans R).
    { apply (inverse_unique R); [apply minv_Ok in K4; unfold inverse_of; tauto|]. exact Y1. }
    assert (E3: msub q (im_refpol m) = l (rows_scale (a / rows_norm cart) cart)).
    { rewrite Eq, I2. unfold direction_of. rewrite magnitude_rows, rows_scale_scale. apply madd_sub_cancel. }
    assert (E4: y = mscale (a / rows_norm cart) (l (moved R pi cart))).
    { rewrite K7, E3, ERi. change (carried R (l (rows_scale (a / rows_norm cart) cart)) = mscale (a / rows_norm cart) (l (moved R pi cart))).
      assert (S1: forall u, List.length u = List.length pos -> carried R (l u) = l (moved R pi u)).
      { intros u Hu. symmetry. apply (Hs (R, t) pi u O1 O2 Hu). }
      rewrite S1 by (unfold rows_scale; rewrite map_length; auto).
      rewrite moved_scale. apply Hlb. rewrite moved_length. auto. }
    rewrite E4, E1, K6. clear - E2 Hs0.
    assert (l (moved R pi cart) = mscale (/ s) (mscale kk (l (rows_mul lead L)))) as ->.
    { rewrite <- E2, mscale_twice. replace (/ s * s) with 1 by (field; auto). symmetry. apply mscale_one. }
    rewrite Rinv_mult, !mscale_twice. f_equal. unfold Rdiv. ring. }
  clear - G Lb Lp. assert (Lpb: List.length pss = List.length bs) by congruence. clear Lb Lp.
  revert pss G Lpb. induction bs as [|b bs IH]; intros [|ps pss] G Lpb; simpl in *; try discriminate; constructor.
  - destruct (G 0%nat b eq_refl) as (ps' & [= <-] & K). split; [auto|]. intros p Hp. simpl in Hp. rewrite sort_pts_In in Hp. auto.
  - apply IH; [|lia]. intros j c Hj. exact (G (S j) c Hj).
Qed.
