(** Which additions are accepted does not depend on their order, for rigid symmetries whose
    images are all listed. *)
From Coq Require Import String ZArith Reals Lra Lia Bool Arith List Permutation.
From Verif Require Import Base LinAlg M_Validate M_StructUtils M_Symmetry M_Reference M_Interp M_Art M_Shared
  S_Lattice S_Vec S_Symmetry S_Equivalent S_Interp S_Images S_Response S_Order P_StructUtils P_Symmetry P_Equivalent P_Equiv3 P_EquivTotal P_StructFinal P_Interp P_Interp2
  P_Interp4 P_Interp5 P_Interp6 P_Images P_Response P_Response2 P_Examples2 P_Examples3 P_Order P_Order2.
Import ListNotations.
Local Open Scope R_scope.

Lemma FOP_in {A} (R S : A -> A -> Prop) l : (forall a b, In a l -> In b l -> R a b -> S a b) -> ForallOrdPairs R l -> ForallOrdPairs S l.
Proof.
  intros H F. induction F as [|a l Fa F IH]; constructor.
  - rewrite Forall_forall in *. intros b Hb. apply H; simpl; auto.
  - apply IH. intros; apply H; simpl; auto.
Qed.
Lemma FOP_perm {A} (R : A -> A -> Prop) l l' : Permutation l l' -> (forall a b, In a l -> In b l -> R a b -> R b a) ->
  ForallOrdPairs R l -> ForallOrdPairs R l'.
Proof.
  induction 1 as [|a l l' P IH|a b l|l l' l'' P1 IH1 P2 IH2]; intros S F; auto.
  - inversion F as [|? ? Fa F']; subst. constructor.
    + rewrite Forall_forall in *. intros b Hb. apply Fa. eapply Permutation_in; [symmetry; exact P|auto].
    + apply IH; auto. intros; apply S; simpl; auto.
  - inversion F as [|? ? Fb F']; subst. inversion F' as [|? ? Fa F'']; subst. inversion Fb as [|? ? Fab Fb']; subst.
    constructor; [constructor; auto|constructor; auto]. apply S; simpl; auto.
  - apply IH2; [|apply IH1; auto]. intros x y Hx Hy. apply S; eapply Permutation_in; try (symmetry; exact P1); auto.
Qed.

Lemma accepted_perm art calls calls' s :
  (forall a b, In a calls -> In b calls -> works art s a -> works art s b ->
     Forall (ortho (starts art s b)) (fst (contrib art s a)) -> Forall (ortho (starts art s a)) (fst (contrib art s b))) ->
  Permutation calls calls' -> (exists m, all_return art calls s m) -> exists m', all_return art calls' s m'.
Proof.
  intros S P (m & H). apply all_return_iff in H as (W & O & F & _).
  eexists. apply all_return_iff. split; [|split; [|split; [|reflexivity]]].
  - eapply Permutation_Forall; eauto.
  - eapply Permutation_Forall; eauto.
  - eapply FOP_perm; eauto. rewrite Forall_forall in W. intros a b Ha Hb. apply S; auto.
Qed.

(** ** The DOFs of a working call *)
Lemma dof_added c am po k i s f : (exists w, add_dof c am po k i (fresh s) = ((f, w), Ok tt)) ->
  exists amps pols inc dofs, get_dof (fresh s) (dof_parent (im_ref s) c) amps pols inc = Ok dofs /\ map fst dofs = map Fin (im_basis f).
Proof.
  intros (w & Q). apply add_dof_cases in Q as [(e & E & _)|(_ & Ho & disp & dofs & bs' & pss & H1 & H2 & H3 & H4 & H5 & H6 & H7 & H8 & ->)]; [discriminate|].
  unfold dof_parent. cbn [fresh im_ref] in H1. rewrite H1. do 4 eexists. split; [exact H4|]. rewrite H5. reflexivity.
Qed.

Lemma works_dofs art s a : works art s a -> exists amps pols inc dofs,
  get_dof (fresh s) (parent art a s) amps pols inc = Ok dofs /\ map fst dofs = map Fin (fst (contrib art s a)).
Proof.
  intros (f & w & H). unfold contrib. rewrite H. cbn [fst].
  assert (A : forall parent amps pols inc order wq, added (fresh s) parent amps pols inc order wq f ->
     exists am po i dofs, get_dof (fresh s) parent am po i = Ok dofs /\ map fst dofs = map Fin (im_basis f)).
  { intros p0 am po inc order wq (dofs & bs' & pss & H1 & H2 & _ & _ & _ & ->). do 4 eexists. split; [exact H1|]. rewrite H2. reflexivity. }
  rename H into R.
  destruct art, a as [c xx pp k i|r k|ps pp k|i d xx pp|r|ps pp]; cbn [run_adding run_op] in R; try discriminate; unfold parent.
  - apply add_art_cases in R as [(e & E & _)|(_ & _ & ff & k & K1 & K2 & R)]; [discriminate|]. cbn [fresh im_ref] in K1, K2, R. rewrite K1, K2.
    apply (dof_added _ _ _ _ _ _ _ (ex_intro _ w R)).
  - unfold add_art_from_files in R. rewrite get_ok in R. apply lift_ok in R as ([[d0 am] po] & K & R). rewrite K.
    apply add_one_atom_cases in R as [(e & E & _)|(_ & _ & _ & R)]; [discriminate|]. eapply A; exact R.
  - unfold add_art_from_pymatgen in R. rewrite get_ok in R. apply lift_ok in R as (y & K & R). rewrite K.
    apply add_one_atom_cases in R as [(e & E & _)|(_ & _ & _ & R)]; [discriminate|]. eapply A; exact R.
  - apply (dof_added _ _ _ _ _ _ _ (ex_intro _ w R)).
  - unfold add_dof_from_files in R. rewrite get_ok in R. apply lift_ok in R as ([[d0 am] po] & K & R). rewrite K.
    cbn [fresh im_ref] in R. apply (dof_added _ _ _ _ _ _ _ (ex_intro _ w R)).
  - unfold add_dof_from_pymatgen in R. rewrite get_ok in R. apply lift_ok in R as (y & K & R). rewrite K.
    cbn [fresh im_ref] in R. apply (dof_added _ _ _ _ _ _ _ (ex_intro _ w R)).
Qed.

(** ** The displacement a call starts from *)
Lemma calc_reduced pos p d : calc_displacement pos p = Ok d -> apply_pbc_displacement d = d.
Proof.
  unfold calc_displacement. destruct (bcast2 _ _ _) as [b|]; simpl; [|discriminate]. intros [= <-]. apply pbc_idem.
Qed.

Lemma frac_of_cart r li d : minv (rs_lattice r) = Ok li -> apply_pbc_displacement d = d ->
  get_frac_displacement r (get_cart_displacement r d) = Ok d.
Proof.
  intros M H. unfold get_frac_displacement, get_cart_displacement. rewrite M. cbn [rbind]. rewrite H, (cart_frac _ _ _ M), H. auto.
Qed.

Lemma read_first s rds d0 am po : read_dof s rds = Ok (d0, am, po) ->
  exists p y rest, rds = Ok (p, y) :: rest /\ calc_displacement (rs_positions (im_ref s)) p = Ok d0.
Proof.
  unfold read_dof. destruct rds as [|[[p y]|e] rest]; simpl; try discriminate.
  unfold read_one at 1. cbn [rbind fst snd].
  destruct (calc_displacement (rs_positions (im_ref s)) p) as [d|e] eqn:D; [|destruct (is_value_error e); simpl; discriminate].
  simpl. destruct (mapM _ rest) as [l|e]; simpl; [|discriminate].
  destruct (is_collinear_with_all _ _) as [z|e]; simpl; [|discriminate].
  destruct (negb (z =? -1)%Z); [discriminate|].
  match goal with |- context [match ?x with Fin _ => _ | Nan _ => _ end] => destruct x end; simpl; [|discriminate].
  intros [= <- _ _]. eauto 6.
Qed.
Lemma pymatgen_first s poss x : displacement_amplitudes s poss = Ok x ->
  exists p rest, poss = p :: rest /\ calc_displacement (rs_positions (im_ref s)) p = Ok (fst x).
Proof.
  unfold displacement_amplitudes. destruct poss as [|p rest]; simpl; [discriminate|].
  destruct (calc_displacement (rs_positions (im_ref s)) p) as [d|e] eqn:D; [|destruct (is_value_error e); simpl; discriminate].
  simpl. destruct (mapM _ rest) as [l|e]; simpl; [|discriminate].
  destruct (is_collinear_with_all _ _) as [z|e]; simpl; [|discriminate].
  destruct (negb (z =? -1)%Z); [discriminate|].
  match goal with |- context [match ?x with Fin _ => _ | Nan _ => _ end] => destruct x end; simpl; [|discriminate].
  intros [= <-]. simpl. eauto 6.
Qed.

Lemma add_dof_minv c am po k i s f w : add_dof c am po k i s = ((f, w), Ok tt) -> exists li, minv (rs_lattice (im_ref s)) = Ok li.
Proof.
  intros Q. apply add_dof_cases in Q as [(e & E & _)|(_ & Ho & disp & dofs & bs' & pss & H1 & _)]; [discriminate|].
  destruct c as [l|n]; unfold get_frac_displacement_arr, get_frac_displacement, rmap in H1; destruct (minv _) as [li|]; simpl in H1; try discriminate; eauto.
Qed.
Lemma works_minv art s a : works art s a ->
  match a with ArtFiles _ | ArtPymatgen _ _ => True | _ => exists li, minv (rs_lattice (im_ref s)) = Ok li end.
Proof.
  intros (f & w & R).
  destruct art, a as [c xx pp k i|r k|ps pp k|i d xx pp|r|ps pp]; cbn [run_adding run_op] in R; try discriminate; auto.
  - apply add_art_cases in R as [(e & E & _)|(_ & _ & ff & k & K1 & K2 & R)]; [discriminate|]. apply add_dof_minv in R. exact R.
  - apply add_dof_minv in R. exact R.
  - unfold add_dof_from_files in R. rewrite get_ok in R. apply lift_ok in R as ([[d0 am] po] & K & R). apply add_dof_minv in R. exact R.
  - unfold add_dof_from_pymatgen in R. rewrite get_ok in R. apply lift_ok in R as (y & K & R). apply add_dof_minv in R. exact R.
Qed.

Lemma dof_parent_cart r li d : minv (rs_lattice r) = Ok li -> apply_pbc_displacement d = d ->
  dof_parent r (Fin (get_cart_displacement r d)) = over_norm 10 (Fin d).
Proof.
  intros M H. unfold dof_parent, get_frac_displacement_arr. rewrite (frac_of_cart r li d M H). reflexivity.
Qed.

Lemma wrapd_vec_reduced v k n : apply_pbc_displacement (set_nth k (vmap wrapd v) (repeat v0 n)) = set_nth k (vmap wrapd v) (repeat v0 n).
Proof.
  apply pbc_half_cell. unfold half_cell. assert (Z: Forall (vall (fun x => - / 2 < x <= / 2)) (repeat v0 n)).
  { apply Forall_forall. intros x Hx. apply repeat_spec in Hx. subst. unfold vall, v0; simpl. lra. }
  revert k Z. induction (repeat v0 n) as [|a z IH]; intros [|k] Z; simpl; auto; inversion Z; subst; constructor; auto. apply vall_wrapd.
Qed.

Lemma over_norm_pos k l : 0 < k -> over_norm 10 (Fin (rows_scale k l)) = over_norm 10 (Fin l).
Proof. apply over_norm_scale. Qed.

Lemma art_parent r li k f n : minv (rs_lattice r) = Ok li -> List.length (rs_positions r) = n -> (k < n)%nat ->
  apply_pbc_displacement (set_nth k f (repeat v0 n)) = set_nth k f (repeat v0 n) ->
  dof_parent r (get_cart_displacement_arr r (art_displacement r k f)) = over_norm 10 (Fin (set_nth k f (repeat v0 n))).
Proof.
  intros M <- Hk Hred. set (n := List.length (rs_positions r)) in *. set (d := set_nth k f (repeat v0 n)) in *.
  assert (Hf: 0 <= vnorm2 f) by (destruct f; unfold vnorm2, vdot; simpl; nra).
  assert (Nd: rows_norm d = sqrt (vnorm2 f)) by (unfold rows_norm, d; rewrite norm2_single; auto).
  assert (Nn: sqrt (vnorm2 (vscale 10 f)) = 10 * rows_norm d).
  { rewrite Nd. replace (vnorm2 (vscale 10 f)) with (10 ^ 2 * vnorm2 f) by (destruct f; vunf; ring).
    rewrite sqrt_mult by (try apply pow2_ge_0; lra). rewrite sqrt_pow2 by lra. auto. }
  assert (Ld : List.length d = n) by apply single_length.
  unfold art_displacement. fold n. rewrite Nn. destruct (Reqb (10 * rows_norm d) 0) eqn:E.
  - apply Reqb_true in E. cbn [get_cart_displacement_arr]. unfold dof_parent, get_frac_displacement_arr. rewrite M. cbn [rbind].
    rewrite over_norm_nan.
    + rewrite Ld. reflexivity.
    + rewrite rows_norm_scale, Rabs_right by lra. lra.
    + intros C. rewrite C in Ld. simpl in Ld. lia.
  - apply Reqb_false in E. assert (Hnz : rows_norm d <> 0) by lra.
    assert (0 <= rows_norm d) by (unfold rows_norm; apply sqrt_pos).
    destruct (parent_norm d Hnz) as (P1 & P2).
    assert (Ed: set_nth k (vscale (/ (10 * rows_norm d)) f) (repeat v0 n) = rows_scale (/ (10 * rows_norm d)) d).
    { unfold d, rows_scale. rewrite map_single; auto. unfold vscale, v0; simpl; f_equal; ring. }
    rewrite Ed. cbn [get_cart_displacement_arr].
    rewrite (dof_parent_cart r li).
    + apply over_norm_scale. apply Rinv_0_lt_compat. lra.
    + auto.
    + apply pbc_half_cell, half_cell_small. lra.
Qed.

Lemma parent_form art s a d : works art s a -> starts_from (im_ref s) a d -> (0 < List.length (rs_positions (im_ref s)))%nat ->
  apply_pbc_displacement d = d /\ (parent art a s = over_norm 10 (Fin d) \/ parent art a s = Fin d).
Proof.
  intros W S N. pose proof (works_minv art s a W) as M. pose proof W as (f & w & R).
  destruct art, a as [c xx pp k i|r k|ps pp k|i dir xx pp|r|ps pp]; cbn [run_adding run_op] in R; try discriminate; cbn [starts_from] in S; unfold parent.
  - destruct S as (ff & k & S1 & S2 & ->). rewrite S1, S2. destruct M as (li & M).
    pose proof (py_index_lt _ _ _ S2) as Hk.
    assert (Hred : apply_pbc_displacement (set_nth k ff (repeat v0 (List.length (rs_positions (im_ref s))))) = set_nth k ff (repeat v0 (List.length (rs_positions (im_ref s))))).
    { unfold get_frac_direction in S1. destruct dir as [|x [|y [|z []]]]; try discriminate. rewrite M in S1. cbn [rbind] in S1. injection S1 as <-.
      apply wrapd_vec_reduced. }
    split; [auto|]. left. eapply art_parent; eauto.
  - unfold add_art_from_files in R. rewrite get_ok in R. apply lift_ok in R as ([[d0 am] po] & K & R). rewrite K.
    apply read_first in K as (p & y & rest & -> & K). cbn [fresh im_ref] in K. rewrite K in S. injection S as ->.
    split; [eapply calc_reduced; eauto|auto].
  - unfold add_art_from_pymatgen in R. rewrite get_ok in R. apply lift_ok in R as (y & K & R). rewrite K.
    apply pymatgen_first in K as (p & rest & -> & K). cbn [fresh im_ref] in K. rewrite K in S. injection S as <-.
    split; [eapply calc_reduced; eauto|auto].
  - split; [eapply frac_reduced; eauto|]. left. unfold dof_parent, get_frac_displacement_arr. rewrite S. reflexivity.
  - destruct M as (li & M). unfold add_dof_from_files in R. rewrite get_ok in R. apply lift_ok in R as ([[d0 am] po] & K & R). rewrite K.
    apply read_first in K as (p & y & rest & -> & K). cbn [fresh im_ref] in K. rewrite K in S. injection S as ->.
    assert (apply_pbc_displacement d = d) by (eapply calc_reduced; eauto). split; [auto|]. left. eapply dof_parent_cart; eauto.
  - destruct M as (li & M). unfold add_dof_from_pymatgen in R. rewrite get_ok in R. apply lift_ok in R as (y & K & R). rewrite K.
    apply pymatgen_first in K as (p & rest & -> & K). cbn [fresh im_ref] in K. rewrite K in S. injection S as <-.
    assert (apply_pbc_displacement (fst y) = fst y) by (eapply calc_reduced; eauto). split; [auto|]. left. eapply dof_parent_cart; eauto.
Qed.

(** ** Lists of Cartesian displacements up to positive factors *)
Lemma rows_norm_nonneg l : 0 <= rows_norm l.
Proof. unfold rows_norm. apply sqrt_pos. Qed.

Lemma orth_rows u v : List.length u = List.length v ->
  orthogonal_spec (rowsR u) (rowsR v) <-> rows_norm u <> 0 /\ rows_norm v <> 0 /\ Rabs (rows_dot u v) <= tol1 * (rows_norm u * rows_norm v).
Proof.
  intros HL. unfold orthogonal_spec. rewrite <- (magnitude_rows u), <- (magnitude_rows v), <- inner_rows.
  assert (Z : forall w, nonzero_vec w <-> magnitude w <> 0).
  { intros w. pose proof (inner_self_nonneg w). unfold magnitude. split.
    - intros H0 E. apply sqrt_eq_0 in E; auto. apply inner_self_zero in E. tauto.
    - intros H0. destruct (Req_dec (inner w w) 0) as [E|E].
      + rewrite E, sqrt_0 in H0. tauto.
      + rewrite inner_self_zero in E. unfold nonzero_vec in *.
        destruct (existsb (fun x => negb (Reqb x 0)) w) eqn:X.
        * apply existsb_exists in X as (x & Hx & Hn). exists x. split; auto. intros ->. destruct (Reqb 0 0) eqn:Q; [discriminate|]. apply Reqb_false in Q. tauto.
        * exfalso. apply E. intros (x & Hx & Hn). assert (existsb (fun x => negb (Reqb x 0)) w = true); [|congruence].
          apply existsb_exists. exists x. split; auto. destruct (Reqb x 0) eqn:Q; auto. apply Reqb_true in Q. tauto. }
  rewrite !Z. assert (P : forall w, 0 <= magnitude w) by (intros; unfold magnitude; apply sqrt_pos).
  split; intros (A & B & C); (split; [exact A|split; [exact B|]]);
    assert (0 < magnitude (rowsR u) * magnitude (rowsR v)) by (apply Rmult_lt_0_compat; [specialize (P (rowsR u))|specialize (P (rowsR v))]; lra).
  - unfold cosine, Rdiv in C. rewrite Rabs_mult, Rabs_inv, (Rabs_right (_ * _)) in C by lra.
    apply (Rmult_le_compat_r (magnitude (rowsR u) * magnitude (rowsR v))) in C; [|lra].
    rewrite Rmult_assoc, Rinv_l, Rmult_1_r in C by lra. exact C.
  - unfold cosine, Rdiv. rewrite Rabs_mult, Rabs_inv, (Rabs_right (_ * _)) by lra.
    apply (Rmult_le_reg_r (magnitude (rowsR u) * magnitude (rowsR v))); [lra|]. rewrite Rmult_assoc, Rinv_l, Rmult_1_r by lra. exact C.
Qed.

Lemma orth_scaled u v a b : List.length u = List.length v -> a <> 0 -> b <> 0 ->
  orthogonal_spec (rowsR (rows_scale a u)) (rowsR (rows_scale b v)) <-> orthogonal_spec (rowsR u) (rowsR v).
Proof.
  intros HL Ha Hb. rewrite !orth_rows by (unfold rows_scale; rewrite ?map_length; auto).
  rewrite !rows_norm_scale, rows_dot_scale_l, rows_dot_scale_r, !Rabs_mult.
  assert (0 < Rabs a) by (apply Rabs_pos_lt; auto). assert (0 < Rabs b) by (apply Rabs_pos_lt; auto).
  split; intros (A & B & C).
  - split; [intros E; apply A; rewrite E; ring|]. split; [intros E; apply B; rewrite E; ring|].
    apply (Rmult_le_reg_l (Rabs a * Rabs b)); [apply Rmult_lt_0_compat; auto|]. lra.
  - split; [apply Rmult_integral_contrapositive_currified; lra|]. split; [apply Rmult_integral_contrapositive_currified; lra|].
    apply (Rmult_le_compat_l (Rabs a * Rabs b)) in C; [|apply Rlt_le, Rmult_lt_0_compat; auto]. lra.
Qed.
