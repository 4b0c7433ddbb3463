(** Symmetry of acceptance. *)
From Coq Require Import String ZArith Reals Lra Lia Bool Arith List Permutation.
From Verif Require Import Base LinAlg M_Validate M_StructUtils M_Symmetry M_Reference M_Interp M_Art M_Shared
  S_Lattice S_Vec S_Symmetry S_Equivalent S_Interp S_Images S_Response S_Order P_StructUtils P_Symmetry P_Equivalent P_Equiv3 P_EquivTotal P_StructFinal P_Interp P_Interp2
  P_Interp4 P_Interp5 P_Interp6 P_Images P_Response P_Response2 P_Examples2 P_Examples3 P_Order P_Order2 P_Order3 P_Interp3.
Import ListNotations.
Local Open Scope R_scope.

Lemma f2imp {A B} (P Q : A -> B -> Prop) l m : (forall a b, P a b -> Q a b) -> Forall2 P l m -> Forall2 Q l m.
Proof. intros H. induction 1; constructor; auto. Qed.
Lemma f2nth_r {A B} (P : A -> B -> Prop) l m i b : Forall2 P l m -> nth_error m i = Some b ->
  exists a, nth_error l i = Some a /\ P a b.
Proof. intros H. revert i. induction H; intros [|i]; simpl; try discriminate; eauto. intros [= <-]; eauto. Qed.

Lemma f2head {A B} (P : A -> B -> Prop) a l b m : Forall2 P (a :: l) (b :: m) -> P a b.
Proof. intros H. inversion H; auto. Qed.

Definition im (n : nat) (op : M3 * V3) (pi : nat -> nat) (d : list V3) : list V3 :=
  map (fun b => vmul (nth (pi b) d v0) (fst op)) (seq 0 n).

Lemma im_scaled n op pi c d : map (fun b => vmul (vscale c (nth (pi b) d v0)) (fst op)) (seq 0 n) = rows_scale c (im n op pi d).
Proof. unfold im, rows_scale. rewrite map_map. apply map_ext. intros b. apply vmul_vscale. Qed.

Section Rigid.
Variables (L : M3) (pos : list V3) (ops : list (M3 * V3)) (r : refstruct).
Hypothesis HR : rigid_symmetries L pos ops r.
Let n := List.length pos.

Lemma rigid_parts : rs_positions r = pos /\ rs_lattice r = L /\ rs_ops r = ops.
Proof. destruct HR as ((nu & eq & H) & _). apply make_reference_ops in H. tauto. Qed.
Lemma rigid_valid : valid_reference r.
Proof. destruct HR as ((nu & eq & H) & H1 & H2 & _). exists nu, L, pos, ops, eq. auto. Qed.

Lemma rigid_images d gs : List.length d = n -> apply_pbc_displacement d = d -> rows_norm d <> 0 ->
  get_equivalent_displacements r (Fin d) = Ok gs ->
  Forall (fun g => Forall2 (fun disp op => exists pi, In op ops /\ row_symmetry pos (fst op) (snd op) pi /\
      disp = Fin (rows_scale (/ (rows_norm d * 10)) (im n op pi d)))
    (g_disp g) (g_trans g)) gs.
Proof.
  destruct HR as ((nu & eq & H) & H1 & H2 & H3 & H4 & _). intros Hl Hp Hn Hg.
  assert (K : Forall (fun g => Forall2 (fun disp op => exists pi, In op ops /\ row_symmetry pos (fst op) (snd op) pi /\
      disp = Fin (map (fun b => vmul (vscale (/ (rows_norm d * 10)) (nth (pi b) d v0)) (fst op)) (seq 0 (List.length pos))))
    (g_disp g) (g_trans g)) gs).
  { eapply f_C17; eauto.
    - apply positions_ok_spec. destruct (make_reference_wf _ _ _ _ _ _ H1 H2 H) as (_ & _ & _ & _ & K).
      apply make_reference_ops in H as (_ & <- & _). auto.
    - eapply Forall_impl; [|exact H4]. intros op (A & _ & B). auto.
    - apply apply_pbc_displacement_spec. auto. }
  eapply Forall_impl; [|exact K]. intros g Hg'. eapply f2imp; [|exact Hg'].
  intros disp op (pi & A & B & ->). exists pi. split; [auto|split; [auto|]]. f_equal. apply im_scaled.
Qed.

Variables (art : bool) (s : imodel).
Hypothesis Hs : im_ref s = r.

(** What a working call contributes *)
Lemma call_parts a d : works art s a -> starts_from r a d -> List.length d = n ->
  rows_norm d <> 0 /\ (exists c, 0 < c /\ starts art s a = Fin (rows_scale c (rows_mul d L))) /\
  exists gs, get_equivalent_displacements r (Fin d) = Ok gs /\
    Forall2 (fun g b => exists ld rest op pi k c, g_disp g = Fin ld :: rest /\ In op ops /\ row_symmetry pos (fst op) (snd op) pi /\
        0 < k /\ ld = rows_scale k (im n op pi d) /\ 0 < c /\ b = rows_scale c (rows_mul ld L)) gs (fst (contrib art s a)).
Proof.
  intros W S Ld. pose proof rigid_valid as Hv. pose proof (valid_reference_wf _ Hv) as Hwf. destruct rigid_parts as (Ep & El & Eo).
  assert (Hn : (0 < n)%nat) by (destruct HR as (_ & H & _); exact H).
  destruct (parent_form art s a d W) as (Hred & HP); [rewrite Hs; auto|rewrite Hs, Ep; auto|].
  destruct (works_dofs art s a W) as (amps & pols & inc & dofs & G & B).
  apply get_dof_Ok in G as (_ & gs & G & F). cbn [fresh im_ref im_refpol] in G, F. rewrite Hs in G, F.
  assert (Hdne : d <> []) by (intros ->; simpl in Ld; lia).
  assert (Nz : rows_norm d <> 0).
  { intros Z. pose proof (groups_nonempty _ _ _ (valid_ops _ Hv) Hwf G) as Hg.
    destruct gs as [|g gs]; [tauto|]. inversion F as [|? dd ? dofs' Hdof F']; subst.
    apply dof_of_group_Ok in Hdof as (child & rest & pss & D1 & D2 & _).
    destruct (group_leader _ _ _ g child rest Hwf G (or_introl eq_refl) D1) as (_ & op & P & _ & HC).
    assert (E : exists k, scale_displacement (parent art a s) = Nan k).
    { destruct HP as [-> | ->].
      - rewrite over_norm_nan; [eexists; reflexivity| |auto]. rewrite rows_norm_scale, Z. ring.
      - unfold scale_displacement. rewrite Hred, Z. destruct (Reqb 0 0) eqn:E; [|apply Reqb_false in E; tauto].
        destruct d; [tauto|]. eauto. }
    destruct E as (k & E). rewrite E in HC. apply candidate_nan in HC as (k' & ->).
    cbn [map] in B. destruct (fst (contrib art s a)) as [|b bs]; [discriminate|]. cbn [map] in B. injection B as B _.
    rewrite D2 in B. discriminate. }
  split; [exact Nz|]. pose proof (rows_norm_nonneg d). split.
  { unfold starts, lead. destruct HP as [-> | ->].
    - destruct (parent_norm d Nz) as (-> & P2). cbn [get_cart_displacement_arr]. unfold get_cart_displacement.
      exists (/ (10 * rows_norm d)). split; [apply Rinv_0_lt_compat; lra|].
      rewrite pbc_half_cell by (apply half_cell_small; lra). rewrite Hs, El, rows_mul_scale. reflexivity.
    - exists 1. split; [lra|]. cbn [get_cart_displacement_arr]. unfold get_cart_displacement. rewrite Hred, Hs, El, rows_scale_1. reflexivity. }
  assert (G' : get_equivalent_displacements r (Fin d) = Ok gs).
  { rewrite <- G. destruct HP as [-> | ->]; [symmetry; apply parent_groups; auto|auto]. }
  exists gs. split; [exact G'|]. pose proof (rigid_images d gs Ld Hred Nz G') as Im.
  clear G. revert B. generalize (fst (contrib art s a)). 
  assert (Lg : forall g, In g gs -> forall l rest, g_disp g = Fin l :: rest -> List.length l = n).
  { intros g Hg l rest E. unfold n. rewrite <- Ep. eapply group_leader_fin; [exact Hwf|exact G'|exact Hg|exact E]. }
  assert (Lr : forall g, In g gs -> forall l rest, g_disp g = Fin l :: rest -> apply_pbc_displacement l = l).
  { intros g Hg l rest E. destruct (group_leader _ _ _ g _ rest Hwf G' Hg E) as (_ & op & P & _ & HC). eapply candidate_reduced; eauto. }
  clear G' HP. induction F as [|g dd gs' dofs' Hdof F IH]; intros bs B.
  - destruct bs; [constructor|discriminate].
  - destruct bs as [|b bs]; [discriminate|]. cbn [map] in B. injection B as B B'.
    pose proof (Forall_inv Im) as Ig. cbv beta in Ig. pose proof (Forall_inv_tail Im) as Im'. clear Im. constructor.
    + apply dof_of_group_Ok in Hdof as (child & rest & pss & D1 & D2 & _). pose proof Ig as Ig0. rewrite D1 in Ig0.
      destruct (g_trans g) as [|op tr]; [inversion Ig0|]. apply f2head in Ig0 as (pi & I1 & I2 & I3). rewrite I3 in D1, D2.
      set (k := / (rows_norm d * 10)) in *. set (ld := rows_scale k (im n op pi d)) in *.
      rewrite D2 in B. cbn [get_cart_displacement_arr] in B. unfold get_cart_displacement in B.
      rewrite (Lr g (or_introl eq_refl) ld rest D1), El in B.
      assert (Ne : rows_mul ld L <> []).
      { intros E. apply (f_equal (@List.length _)) in E. unfold rows_mul in E. rewrite map_length, (Lg g (or_introl eq_refl) ld rest D1) in E. simpl in E. lia. }
      apply over_norm_unit in B as (U1 & -> & U3); [|exact Ne].
      exists ld, rest, op, pi, k, (/ rows_norm (rows_mul ld L)). pose proof (rows_norm_nonneg (rows_mul ld L)).
      split; [exact D1|]. split; [exact I1|]. split; [exact I2|]. split; [apply Rinv_0_lt_compat; lra|]. split; [reflexivity|].
      split; [apply Rinv_0_lt_compat; lra|reflexivity].
    + apply IH; auto. intros; eapply Lg; simpl; eauto. intros; eapply Lr; simpl; eauto.
Qed.

(** Moving by an operation preserves Cartesian products *)
Lemma mmul_inv_comm A B : mmul A B = mI -> mmul B A = mI.
Proof.
  intros H. assert (D : mdet A <> 0).
  { intros E. pose proof (f_equal mdet H) as K. rewrite mdet_mmul in K. rewrite E in K. rewrite Rmult_0_l in K. unfold mI, mdet, vdot, vcross in K. cbn in K. lra. }
  destruct (minv_exists A D) as (Ai & M). pose proof (minv_unique _ _ _ M H) as ->. apply minv_Ok in M. tauto.
Qed.

Lemma isometry_dot Q v w : isometry Q -> vdot (vmul v Q) (vmul w Q) = vdot v w.
Proof.
  intros H. assert (P : forall x y, vdot x y = (vnorm2 (vadd x y) - vnorm2 x - vnorm2 y) / 2).
  { intros [] []. unfold vnorm2, vdot, vadd. cbn. field. }
  rewrite (P (vmul v Q)), (P v w), <- vmul_vadd, !isometry_norm by auto. reflexivity.
Qed.

Lemma rigid_op op : In op ops -> exists Q, isometry Q /\ cartesian_form L (fst op) Q.
Proof. intros H. destruct HR as (_ & _ & _ & _ & F & _). rewrite Forall_forall in F. destruct (F op H) as (_ & K & _). exact K. Qed.

Lemma op_dot op x y : In op ops -> vdot (vmul (vmul x (fst op)) L) (vmul (vmul y (fst op)) L) = vdot (vmul x L) (vmul y L).
Proof.
  intros H. destruct (rigid_op op H) as (Q & I & C). unfold cartesian_form in C. rewrite <- !vmul_mmul, C, !vmul_mmul. apply isometry_dot; auto.
Qed.

Lemma dot_sum (f g : nat -> V3) l : rows_dot (map f l) (map g l) = rsum (map (fun i => vdot (f i) (g i)) l).
Proof. induction l as [|i l IH]; [reflexivity|]. cbn [map]. rewrite rows_dot_cons, IH. reflexivity. Qed.

Lemma as_nth (d : list V3) : List.length d = n -> rows_mul d L = map (fun b => vmul (nth b d v0) L) (seq 0 n).
Proof. intros H. rewrite <- (map_nth_seq d v0) at 1. rewrite H. unfold rows_mul. rewrite map_map. reflexivity. Qed.

Lemma im_norm op pi d : In op ops -> row_symmetry pos (fst op) (snd op) pi -> List.length d = n ->
  rows_norm (rows_mul (im n op pi d) L) = rows_norm (rows_mul d L).
Proof.
  intros Ho (_ & Hp & _) Hl. unfold rows_norm. f_equal. unfold rows_norm2. rewrite (as_nth d Hl). unfold im, rows_mul. rewrite !map_map, !dot_sum.
  erewrite map_ext by (intros; apply op_dot; exact Ho).
  rewrite <- (map_map pi (fun i => vdot (vmul (nth i d v0) L) (vmul (nth i d v0) L))).
  apply rsum_perm, Permutation_map, permutes_perm. exact Hp.
Qed.

Lemma im_swap op pi op' pi' d e : In op ops -> row_symmetry pos (fst op) (snd op) pi ->
  In op' ops -> row_symmetry pos (fst op') (snd op') pi' -> mmul (fst op) (fst op') = mI ->
  (forall b, (b < n)%nat -> pi (pi' b) = b) -> List.length d = n -> List.length e = n ->
  rows_dot (rows_mul d L) (rows_mul (im n op pi e) L) = rows_dot (rows_mul e L) (rows_mul (im n op' pi' d) L).
Proof.
  intros Ho _ Ho' (_ & Hp' & _) Hm Hpp Hd He. rewrite (as_nth d Hd), (as_nth e He). unfold im, rows_mul. rewrite !map_map, !dot_sum.
  rewrite (rsum_perm (map (fun i => vdot (vmul (nth i d v0) L) (vmul (vmul (nth (pi i) e v0) (fst op)) L)) (seq 0 n))
    (map (fun i => vdot (vmul (nth i d v0) L) (vmul (vmul (nth (pi i) e v0) (fst op)) L)) (map pi' (seq 0 n)))).
  2: { apply Permutation_map. symmetry. apply permutes_perm. exact Hp'. }
  rewrite map_map. f_equal. apply map_ext_in. intros b Hb. apply in_seq in Hb. rewrite Hpp by lia.
  rewrite (vdot_comm (vmul (nth b e v0) L)).
  rewrite <- (op_dot op (vmul (nth (pi' b) d v0) (fst op')) (nth b e v0) Ho), <- !vmul_mmul.
  rewrite (mmul_assoc (fst op') (fst op)), (mmul_inv_comm _ _ Hm), mmul_mI_l. reflexivity.
Qed.

Lemma im_length op pi d : List.length (im n op pi d) = n.
Proof. unfold im. rewrite map_length, seq_length. auto. Qed.
Lemma rows_mul_length (d : list V3) M : List.length (rows_mul d M) = List.length d.
Proof. unfold rows_mul. apply map_length. Qed.
Lemma rows_scale_length c (d : list V3) : List.length (rows_scale c d) = List.length d.
Proof. unfold rows_scale. apply map_length. Qed.

Lemma ortho_read u b : List.length u = n -> List.length b = n -> ortho (Fin u) b <-> orthogonal_spec (rowsR u) (rowsR b).
Proof.
  intros Hu Hb. assert (Hn : (0 < n)%nat) by (destruct HR as (_ & H & _); exact H).
  destruct (nonorth_read u b n Hu Hb Hn) as (_ & H & _). exact H.
Qed.

(** Acceptance of [b] after [a], in terms of all images of [a] *)
Lemma accepted_images a b d e : works art s a -> starts_from r a d -> List.length d = n ->
  works art s b -> starts_from r b e -> List.length e = n -> images_listed pos ops r d ->
  Forall (ortho (starts art s b)) (fst (contrib art s a)) <->
  forall op pi, In op ops -> row_symmetry pos (fst op) (snd op) pi ->
    orthogonal_spec (rowsR (rows_mul e L)) (rowsR (rows_mul (im n op pi d) L)).
Proof.
  intros Wa Sa La Wb Sb Lb HI.
  destruct (call_parts a d Wa Sa La) as (Na & _ & gs & G & F).
  destruct (call_parts b e Wb Sb Lb) as (Nb & (c & Hc & ->) & _).
  destruct HI as (gs' & G' & HI). rewrite G in G'. injection G' as <-.
  split.
  - intros H op pi Ho Hp. destruct (HI op pi Ho Hp) as (g & ld & rest & k & Hg & Eg & Ei).
    change (im n op pi d = rows_scale k ld) in Ei.
    destruct (In_nth_error _ _ Hg) as (j & Hj). destruct (Forall2_nth_l _ _ _ _ _ F Hj) as (bv & Hb & Pb).
    destruct Pb as (ld' & rest' & op2 & pi2 & k2 & c2 & E1 & Ho2 & Hp2 & Hk2 & E2 & Hc2 & E3).
    rewrite Eg in E1. injection E1 as <- <-.
    rewrite Forall_forall in H. pose proof (H bv (nth_error_In _ _ Hb)) as O.
    assert (Ll : List.length ld = n) by (rewrite E2, rows_scale_length; apply im_length).
    rewrite E3, ortho_read in O by (rewrite !rows_scale_length, !rows_mul_length; auto).
    rewrite orth_scaled in O by (rewrite ?rows_mul_length; try lra; congruence).
    rewrite Ei, rows_mul_scale. rewrite <- (rows_scale_1 (rows_mul e L)).
    apply orth_scaled; [rewrite !rows_mul_length; congruence|lra| |exact O].
    intros ->. (* the image would vanish *)
    apply orth_rows in O as (_ & O & _); [|rewrite !rows_mul_length; congruence].
    apply O. apply (f_equal (fun x => rows_norm (rows_mul x L))) in Ei. rewrite rows_mul_scale, rows_norm_scale, Rabs_R0, Rmult_0_l in Ei.
    rewrite (im_norm op pi d Ho Hp La) in Ei.
    rewrite E2, rows_mul_scale, rows_norm_scale, (im_norm op2 pi2 d Ho2 Hp2 La), Ei. ring.
  - intros H. apply Forall_forall. intros bv Hb. apply In_nth_error in Hb as (j & Hj).
    destruct (f2nth_r _ _ _ _ _ F Hj) as (g & Hg & ld & rest & op & pi & k & c2 & E1 & Ho & Hp & Hk & E2 & Hc2 & E3).
    rewrite E3, E2, rows_mul_scale. rewrite rows_scale_scale.
    apply ortho_read; [rewrite rows_scale_length, rows_mul_length; auto|rewrite rows_scale_length, rows_mul_length; apply im_length|].
    apply orth_scaled; [rewrite !rows_mul_length, im_length; auto|lra|nra|]. apply H; auto.
Qed.

Lemma accepted_symmetric a b d e : works art s a -> starts_from r a d -> List.length d = n ->
  works art s b -> starts_from r b e -> List.length e = n -> images_listed pos ops r d -> images_listed pos ops r e ->
  Forall (ortho (starts art s b)) (fst (contrib art s a)) -> Forall (ortho (starts art s a)) (fst (contrib art s b)).
Proof.
  intros Wa Sa La Wb Sb Lb Ia Ib H. rewrite (accepted_images a b d e) in H by auto. apply (accepted_images b a e d); auto.
  intros op pi Ho Hp. pose proof HR as (_ & _ & _ & _ & _ & Inv). destruct (Inv op pi Ho Hp) as (op' & pi' & Ho' & Hp' & Hm & Hpp).
  specialize (H op' pi' Ho' Hp'). rewrite orth_rows in H |- * by (rewrite !rows_mul_length, im_length; auto).
  rewrite im_norm in H |- * by auto. destruct H as (H1 & H2 & H3). split; [auto|split; [auto|]].
  rewrite (im_swap op pi op' pi' d e) by auto. rewrite (Rmult_comm (rows_norm (rows_mul d L))). exact H3.
Qed.
End Rigid.

Lemma f_C91_acceptance L pos ops r art m0 calls calls' : rigid_symmetries L pos ops r -> im_ref m0 = r ->
  Forall (fun a => exists d, starts_from r a d /\ List.length d = List.length pos /\ images_listed pos ops r d) calls ->
  Permutation calls calls' ->
  ((exists m, all_return art calls m0 m) <-> (exists m, all_return art calls' m0 m)).
Proof.
  intros HR Hm HC P. assert (K : forall cs cs', Permutation cs cs' ->
    Forall (fun a => exists d, starts_from r a d /\ List.length d = List.length pos /\ images_listed pos ops r d) cs ->
    (exists m, all_return art cs m0 m) -> (exists m, all_return art cs' m0 m)).
  { clear calls calls' HC P. intros cs cs' P HC. apply accepted_perm; auto. rewrite Forall_forall in HC.
    intros a b Ha Hb Wa Wb. destruct (HC a Ha) as (d & S1 & L1 & I1). destruct (HC b Hb) as (e & S2 & L2 & I2).
    eapply accepted_symmetric; eauto. }
  split; apply K; auto; [symmetry; auto|]. eapply Permutation_Forall; eauto.
Qed.
