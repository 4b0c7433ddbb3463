(** Three atoms on an axis, two of them exchanged by a twofold rotation: a displacement whose
    image is parallel to it only within the tolerance.  Cases of C93. *)
From Coq Require Import String ZArith Reals Lra Lia Psatz Bool Arith List Permutation.
From Verif Require Import Base LinAlg M_Validate M_StructUtils M_Symmetry M_Reference M_Interp M_Art M_Shared
  S_Lattice S_Vec S_Symmetry S_Equivalent S_Interp S_Images S_Response S_Order S_Relabel S_Atoms P_StructUtils P_Symmetry P_Equivalent P_Equiv2 P_Equiv3 P_EquivTotal
  P_StructFinal P_Examples1
  P_Interp P_Interp2 P_InterpEval P_Interp3 P_Interp4 P_Interp5 P_Interp6 P_Interp7 P_Examples2 P_Images P_Images2
  P_Response P_Response2 P_Response3 P_Examples12 P_Order P_Order2 P_Order3 P_Order4 P_Examples16 P_Atoms P_Atoms2 P_Atoms3 P_Atoms4.
Import ListNotations.
Local Open Scope R_scope.

Definition c2 : M3 := mkM (mkV (-1) 0 0) (mkV 0 1 0) (mkV 0 0 (-1)).
Definition axis_ops : list (M3 * V3) := [(mI, v0); (c2, v0)].
Definition at_z (z : R) : V3 := mkV 0 0 z.
Definition on_x (x : R) : V3 := mkV x 0 0.
Definition xa : R := 330 / 5710.
Definition xb : R := 329 / 5710.
Definition tied : list V3 := [on_x xa; on_x xa; on_x xb].
Definition tied_call : adding := Dof tied (vec_arr sw_amps) flat_pols 1 true.
Definition axis_pos : list V3 := [at_z 0; at_z (1/4); at_z (3/4)].
Definition axis_pos' : list V3 := [at_z (1/4); at_z 0; at_z (3/4)].
Definition ax_pi (b : nat) : nat := match b with 1%nat => 2%nat | 2%nat => 1%nat | _ => b end.
Definition ax_pi' (b : nat) : nat := match b with 0%nat => 2%nat | 2%nat => 0%nat | _ => b end.
Definition ax_move (b : nat) : nat := match b with 0%nat => 1%nat | 1%nat => 0%nat | _ => b end.
Definition im1 : list V3 := [on_x (- xa); on_x (- xb); on_x (- xa)].
Definition im2 : list V3 := [on_x (- xb); on_x (- xa); on_x (- xa)].

Lemma tied_norm : rows_norm2 tied = / 100.
Proof. unfold tied, on_x, xa, xb, rows_norm2, rows_dot. vunf. lra. Qed.
Lemma im1_norm : rows_norm2 im1 = / 100.
Proof. unfold im1, on_x, xa, xb, rows_norm2, rows_dot. vunf. lra. Qed.
Lemma im2_norm : rows_norm2 im2 = / 100.
Proof. unfold im2, on_x, xa, xb, rows_norm2, rows_dot. vunf. lra. Qed.
Lemma tied_half : half_cell tied.
Proof. apply half_cell_small. rewrite tied_norm. lra. Qed.

Lemma ax_symmetry : row_symmetry axis_pos c2 v0 ax_pi.
Proof.
  split; [|split].
  - unfold c2. repeat split; simpl; try (exists 0%Z; reflexivity); try (exists 1%Z; reflexivity); exists (-1)%Z; simpl; lra.
  - split; [|split].
    + intros [|[|[|b]]] H; simpl in *; lia.
    + intros [|[|[|b]]] [|[|[|c]]] H1 H2 H3; simpl in *; lia.
    + intros [|[|[|b]]] H; simpl in *; [exists 0%nat|exists 2%nat|exists 1%nat|]; simpl; lia.
  - intros [|[|[|b]]] H; simpl in *; [| | |lia]; unfold vcongr, c2, at_z; vunf.
    + split; [exists 0%Z|split; [exists 0%Z|exists 0%Z]]; lra.
    + split; [exists 0%Z|split; [exists 0%Z|exists (-1)%Z]]; lra.
    + split; [exists 0%Z|split; [exists 0%Z|exists (-1)%Z]]; lra.
Qed.
Lemma ax_symmetry' : row_symmetry axis_pos' c2 v0 ax_pi'.
Proof.
  split; [|split].
  - unfold c2. repeat split; simpl; try (exists 0%Z; reflexivity); try (exists 1%Z; reflexivity); exists (-1)%Z; simpl; lra.
  - split; [|split].
    + intros [|[|[|b]]] H; simpl in *; lia.
    + intros [|[|[|b]]] [|[|[|c]]] H1 H2 H3; simpl in *; lia.
    + intros [|[|[|b]]] H; simpl in *; [exists 2%nat|exists 1%nat|exists 0%nat|]; simpl; lia.
  - intros [|[|[|b]]] H; simpl in *; [| | |lia]; unfold vcongr, c2, at_z; vunf.
    + split; [exists 0%Z|split; [exists 0%Z|exists (-1)%Z]]; lra.
    + split; [exists 0%Z|split; [exists 0%Z|exists 0%Z]]; lra.
    + split; [exists 0%Z|split; [exists 0%Z|exists (-1)%Z]]; lra.
Qed.

Lemma int_gap (k : Z) : (k = 0)%Z \/ IZR k <= -1 \/ 1 <= IZR k.
Proof.
  destruct (Z.eq_dec k 0); auto. right. destruct (Z_lt_le_dec k 0);
    [left; replace (-1) with (IZR (-1)) by reflexivity|right; replace 1 with (IZR 1) by reflexivity]; apply IZR_le; lia.
Qed.
Lemma ax_separated : separated (/ 100000) axis_pos.
Proof.
  intros b c [n1 n2 n3] Hb Hc N (_ & _ & (k1 & H1)). simpl in H1. subst n3. pose proof (int_gap k1) as I.
  apply Rsqr_incr_0_var; [|apply sqrt_pos]. rewrite Rsqr_sqrt by apply vnorm2_nonneg. unfold Rsqr, vnorm2, vdot.
  destruct b as [|[|[|b]]], c as [|[|[|c]]]; simpl in Hb, Hc; try lia; simpl.
  all: match goal with |- _ <= ?x * ?x + ?y * ?y + ?z * ?z =>
    assert (4/100 <= z * z) by (destruct I as [->|[?|?]]; nra);
    pose proof (Rle_0_sqr y); pose proof (Rle_0_sqr x); unfold Rsqr in *; lra end.
Qed.
Lemma ax_separated' : separated (/ 100000) axis_pos'.
Proof.
  intros b c [n1 n2 n3] Hb Hc N (_ & _ & (k1 & H1)). simpl in H1. subst n3. pose proof (int_gap k1) as I.
  apply Rsqr_incr_0_var; [|apply sqrt_pos]. rewrite Rsqr_sqrt by apply vnorm2_nonneg. unfold Rsqr, vnorm2, vdot.
  destruct b as [|[|[|b]]], c as [|[|[|c]]]; simpl in Hb, Hc; try lia; simpl.
  all: match goal with |- _ <= ?x * ?x + ?y * ?y + ?z * ?z =>
    assert (4/100 <= z * z) by (destruct I as [->|[?|?]]; nra);
    pose proof (Rle_0_sqr y); pose proof (Rle_0_sqr x); unfold Rsqr in *; lra end.
Qed.

Section One.
Context (pos : list V3) (pi : nat -> nat) (coll : list V3) (r : refstruct)
  (H : make_reference [8%Z; 8%Z; 8%Z] mI pos (Some (axis_ops, [0%nat; 1%nat; 1%nat])) = Ok r)
  (Hlen : List.length pos = 3%nat) (Hsep : separated (/ 100000) pos) (Hsym : row_symmetry pos c2 v0 pi)
  (Him : map (fun b => vmul (nth (pi b) tied v0) c2) (seq 0 3) = coll)
  (Hcn : rows_norm2 coll = / 100) (Hdot : rows_dot coll tied = - (326040 / 326041 / 100))
  (y : R) (rest : list R) (Hy : flatten_rows coll = y :: rest) (Hy0 : y <= - xb).

Lemma ax_parts : rs_positions r = pos /\ rs_lattice r = mI /\ rs_ops r = axis_ops.
Proof. apply make_reference_ops in H. tauto. Qed.
Lemma ax_first : identity_first r [(c2, v0)].
Proof. exists [8%Z; 8%Z; 8%Z], mI, pos, [0%nat; 1%nat; 1%nat]. split; [exact H|]. split; [lia|exact Hsep]. Qed.
Lemma ax_perms : combine (rs_ops r) (rs_perms r) = [((mI, v0), perm_matrix 3 (fun b => b)); ((c2, v0), perm_matrix 3 pi)].
Proof.
  pose proof H as H'. pose proof ax_first as Hi. apply identity_first_ok in Hi. destruct ax_parts as (Ep & _). rewrite Ep in Hi.
  apply make_reference_ops in H' as (E1 & _ & _ & _ & _ & Ec). rewrite E1.
  unfold compute_permutation_matrices, axis_ops in Ec. cbn [mapM] in Ec.
  rewrite (permutation_matrix_correct pos mI v0 (fun b => b) Hi (id_row_symmetry pos) Hsep) in Ec.
  rewrite (permutation_matrix_correct pos c2 v0 pi Hi Hsym Hsep) in Ec.
  cbn [rbind] in Ec. injection Ec as <-. rewrite Hlen. reflexivity.
Qed.
Lemma ax_len : List.length coll = 3%nat.
Proof. rewrite <- Him, map_length. reflexivity. Qed.

Lemma ax_groups : get_equivalent_displacements r (Fin tied) = Ok [mkGroup [Fin tied; Fin coll] [(mI, v0); (c2, v0)]].
Proof.
  destruct ax_parts as (Ep & El & Eo).
  unfold get_equivalent_displacements. rewrite scale_parent by apply tied_norm.
  assert (Hl: List.length tied = List.length (rs_positions r)) by (rewrite Ep, Hlen; auto).
  destruct (displace_positions_same (rs_positions r) tied) as (q & ->); [eapply identity_first_ok, ax_first|auto|]. cbn [rbind].
  rewrite ax_perms. cbn [equivalent_loop].
  assert (C1: candidate r (Fin tied) (mI, v0) (perm_matrix 3 (fun b => b)) = Ok (Fin tied)).
  { destruct (identity_candidate r [(c2, v0)] tied ax_first Hl tied_half) as (perms & _ & C). rewrite Ep, Hlen in C. exact C. }
  assert (C2: candidate r (Fin tied) (c2, v0) (perm_matrix 3 pi) = Ok (Fin coll)).
  { pose proof (candidate_exact r c2 v0 pi tied) as C. rewrite Ep, Hlen in C. rewrite C; auto.
    - rewrite Him. reflexivity.
    - unfold tied, on_x, xa, xb, c2. repeat constructor; vunf; lra. }
  rewrite C1. cbn [rbind]. rewrite first_classify. cbn [rbind]. rewrite C2. cbn [rbind].
  assert (N1 : rows_norm tied = / 10) by (apply norm_tenth, tied_norm).
  assert (N2 : rows_norm coll = / 10) by (apply norm_tenth, Hcn).
  assert (Cos : cosine (rowsR coll) (rowsR tied) = - (326040 / 326041)).
  { unfold cosine. rewrite inner_rows, !magnitude_rows, N1, N2, Hdot. field. }
  destruct (nonorth_read coll tied 3 ax_len eq_refl) as (O & _ & Co & _); [lia|].
  assert (T : tol1 < / 10000) by (unfold tol1; lra).
  unfold classify at 1.
  assert (E1: is_orthogonal_to_all (flatten (Fin coll)) (map flatten [Fin tied]) = Ok 0%Z).
  { unfold is_orthogonal_to_all. cbn [map scan_from]. rewrite (proj2 O).
    - reflexivity.
    - intros (_ & _ & K). rewrite Cos, Rabs_Ropp, Rabs_right in K by lra. lra. }
  assert (Nn : nonzero_vec (rowsR tied)) by (apply nonzero_inner; rewrite inner_rows; change (rows_norm2 tied <> 0); rewrite tied_norm; lra).
  assert (Nc : nonzero_vec (rowsR coll)) by (apply nonzero_inner; rewrite inner_rows; change (rows_norm2 coll <> 0); rewrite Hcn; lra).
  assert (E2: is_non_collinear_with_all (flatten (Fin coll)) (map flatten [Fin tied]) = Ok 0%Z).
  { unfold is_non_collinear_with_all. cbn [map scan_from]. rewrite (proj2 Co); [reflexivity|].
    split; [auto|split; [auto|]]. rewrite Cos, Rabs_Ropp, Rabs_right by lra. unfold tol1. lra. }
  rewrite E1. cbn [rbind Z.eqb]. rewrite E2. cbn [rbind Z.eqb negb Z.to_nat nth_error g_disp existsb].
  assert (A : arr_close (Fin coll) (Fin tied) = false).
  { destruct (arr_close (Fin coll) (Fin tied)) eqn:A; [|reflexivity]. exfalso.
    apply arr_close_spec in A; [|rewrite ax_len; reflexivity]. destruct coll as [|[c1 c3 c4] l]; [discriminate|].
    apply Forall2_inv_head in A || inversion A as [|? ? ? ? A1 _]. destruct A1 as (A1 & _). unfold near1, tied, on_x in A1. cbn [vx] in A1.
    cbn in Hy. injection Hy as E _. unfold xa, xb in *. subst c1. rewrite (Rabs_left (y - _)), (Rabs_right (330 / 5710)) in A1 by lra. lra. }
  rewrite A. reflexivity.
Qed.

Lemma ax_multiplier : multiplier (Fin tied) (Fin coll) = Ok (Some (xa / y)).
Proof.
  unfold multiplier. rewrite (argmax_is _ 0).
  - cbn [rbind]. rewrite Hy. cbn [nth_error tied flatten_rows flat_map List.app on_x vx].
    destruct (Reqb y 0) eqn:E; [|reflexivity]. apply Reqb_true in E. unfold xb in Hy0. lra.
  - unfold tied, on_x, xa, xb. cbn. unfold first_max. rewrite Rabs_R0, !Rabs_right by lra.
    split; [cbn; lia|]. split; [|intros; lia]. intros j Hj. cbn in Hj. do 9 (destruct j as [|j]; [cbn; lra|]). lia.
Qed.

Lemma c2_inv : minv c2 = Ok c2.
Proof.
  destruct (minv_exists c2) as (i & E); [unfold c2; vunf; lra|]. rewrite E. f_equal. symmetry.
  apply (minv_unique c2 i c2); auto. unfold c2. vring.
Qed.

Definition ax_pts : list (R * M3) :=
  [(0, m0); (- / 10, msub mI mI); (/ 10, msub mI mI);
   (xa / y * - / 10, mmul (mmul c2 (msub mI mI)) c2); (xa / y * / 10, mmul (mmul c2 (msub mI mI)) c2)].
Let m1 := make_model r mI false.

Lemma ax_frac : get_frac_displacement r tied = Ok tied.
Proof. destruct ax_parts as (_ & El & _). unfold get_frac_displacement. rewrite El, minv_mI. cbn [rbind]. rewrite rows_mul_mI, pbc_half_cell; auto using tied_half. Qed.
Lemma ax_dof : get_dof m1 (over_norm 10 (Fin tied)) sw_amps (dof_pols m1 (vec_arr sw_amps) flat_pols) true =
  Ok [(Fin (rows_scale 10 tied), map (fun q : R * M3 => (Some (fst q), snd q)) ax_pts)].
Proof.
  destruct ax_parts as (Ep & El & Eo).
  assert (N1: rows_norm tied = / 10) by (apply norm_tenth; apply tied_norm).
  assert (P: over_norm 10 (Fin tied) = Fin tied).
  { destruct (parent_norm tied) as [-> _]; [lra|]. rewrite N1. replace (/ (10 * / 10)) with 1 by field. rewrite rows_scale_1. auto. }
  rewrite P. eapply get_dof_complete.
  - reflexivity.
  - apply ax_groups.
  - unfold dof_pols. cbn [m1 make_model im_dummy im_ref im_refpol]. unfold flat_pols. cbn [mats_arr ra_data vec_arr]. rewrite mats_of_entries.
    constructor; [|constructor].
    unfold dof_of_group. cbn [g_disp g_trans combine mapM]. unfold points_of. rewrite multiplier_one by lra. rewrite ax_multiplier.
    cbn [rbind]. rewrite minv_mI, c2_inv. erewrite mapM_all_ok by (intros; reflexivity). cbn [rbind]. erewrite mapM_all_ok by (intros; reflexivity). cbn [rbind].
    cbn [get_cart_displacement_arr]. unfold get_cart_displacement. rewrite El, pbc_half_cell, rows_mul_mI by apply tied_half.
    assert (U : over_norm 1 (Fin tied) = Fin (rows_scale 10 tied)).
    { unfold over_norm, tied. fold tied. rewrite rows_scale_1, N1. destruct (Reqb (/ 10) 0) eqn:E0; [apply Reqb_true in E0; lra|]. do 2 f_equal. field. }
    rewrite U. do 2 f_equal. unfold sw_amps, ax_pts. cbn [combine map List.concat List.app fst snd option_map].
    rewrite !Rmult_1_l, !mmul_mI_l, !mmul_mI_r. reflexivity.
Qed.

Lemma ax_accepted : y = - xb -> exists w m, run_all false [tied_call] m1 = ([(w, Ok tt)], m).
Proof.
  intros Ey. cbn [run_all run_adding tied_call run_op]. rewrite (add_dof_complete (Fin tied) (vec_arr sw_amps) flat_pols 1 true m1 (Fin tied)
     [(Fin (rows_scale 10 tied), map (fun q : R * M3 => (Some (fst q), snd q)) ax_pts)] [rows_scale 10 tied] [ax_pts]).
  - eauto.
  - lia.
  - cbn [get_frac_displacement_arr m1 make_model im_ref]. rewrite ax_frac. reflexivity.
  - apply verify_ndarray_shape_spec. repeat constructor.
  - intros _. apply verify_ndarray_shape_spec. simpl. repeat constructor.
  - apply ax_dof.
  - reflexivity.
  - repeat constructor.
  - constructor; [|constructor]. split; [|cbn; lia]. unfold ax_pts. cbn [map fst]. rewrite Ey. unfold xa, xb.
    replace (330 / 5710 / - (329 / 5710)) with (- (330 / 329)) by field.
    unfold spaced, too_close. repeat split; auto; simpl; intros z Hz;
    repeat (destruct Hz as [<-|Hz]); try tauto; unfold Rabs; repeat destruct (Rcase_abs _); lra.
Qed.

Lemma ax_rejected : y = - xa -> ~ exists w m, run_all false [tied_call] m1 = ([(w, Ok tt)], m).
Proof.
  intros Ey (w & m & E). cbn [run_all run_adding tied_call run_op] in E.
  destruct (add_dof (Fin tied) (vec_arr sw_amps) flat_pols 1 true m1) as [[s' w'] x] eqn:A. injection E as -> -> _.
  apply add_dof_cases in A as [(e & Ee & _)|(_ & Ho & disp & dofs & bs & pss & H1 & H2 & H3 & H4 & H5 & H6 & H7 & H8 & E1)]; [discriminate|].
  cbn [get_frac_displacement_arr m1 make_model im_ref] in H1. rewrite ax_frac in H1. injection H1 as <-.
  cbn [vec_arr ra_data] in H4. rewrite ax_dof in H4. injection H4 as <-.
  destruct pss as [|ps pss']; [inversion H6|]. inversion H6 as [|? ? ? ? E2 E3]. cbn [snd] in E2. apply Forall_inv in H8 as (S & _).
  assert (Ef : map fst ps = map fst ax_pts).
  { assert (map (fun q : R * M3 => Some (fst q)) ps = map (fun q : R * M3 => Some (fst q)) ax_pts) as K.
    { apply (f_equal (map fst)) in E2. rewrite !map_map in E2. cbn [fst] in E2. symmetry. exact E2. }
    clear - K. revert ps K. induction ax_pts as [|a l IH]; intros [|b ps] K; cbn in K |- *; try discriminate; [reflexivity|]. injection K as K1 K2. f_equal; auto. }
  rewrite Ef in S. unfold ax_pts in S. cbn [map fst spaced] in S. destruct S as (_ & S & _). apply (S (xa / y * / 10)); [right; right; left; reflexivity|].
  rewrite Ey. replace (xa / - xa * / 10) with (- / 10) by (unfold xa; field). unfold too_close. rewrite Rminus_diag_eq, Rabs_R0 by auto.
  pose proof (Rabs_pos (- / 10)). lra.
Qed.
End One.

Lemma ax_reference p : (p = axis_pos \/ p = axis_pos') -> exists r, make_reference [8%Z; 8%Z; 8%Z] mI p (Some (axis_ops, [0%nat; 1%nat; 1%nat])) = Ok r.
Proof.
  intros Hp. destruct (f_C07c [8%Z; 8%Z; 8%Z] mI p axis_ops [0%nat; 1%nat; 1%nat]) as (r & H & _); [|destruct Hp as [->| ->]; reflexivity|eauto].
  destruct Hp as [->| ->]; unfold axis_pos, axis_pos', at_z; repeat apply Forall_cons; try apply Forall_nil; unfold vall; cbn [vx vy vz]; lra.
Qed.
Lemma ax_reordering : reordering 3 ax_move.
Proof. split; [intros [|[|[|i]]]|intros [|[|[|i]]] [|[|[|j]]]]; cbn; lia. Qed.
Lemma ax_reordered : reordered ax_move axis_pos axis_pos'.
Proof. split; [reflexivity|]. intros [|[|[|i]]] Hi; cbn in Hi |- *; try reflexivity; lia. Qed.
Lemma ax_same_call : same_call 3 ax_move tied_call tied_call.
Proof. cbn. repeat split. intros [|[|[|i]]] Hi; cbn in Hi |- *; try reflexivity; lia. Qed.

Lemma f_C93_ties : exists L pos pos' ops numbers equiv r r' move calls calls',
  reordering (List.length pos) move /\ reordered move pos pos' /\
  make_reference numbers L pos (Some (ops, equiv)) = Ok r /\ make_reference numbers L pos' (Some (ops, equiv)) = Ok r' /\
  separated (/ 100000) pos /\ Forall (fun op => exists pi, row_symmetry pos (fst op) (snd op) pi) ops /\
  Forall2 (same_call (List.length pos) move) calls calls' /\
  ~ (exists w m, run_all false calls (make_model r mI false) = ([(w, Ok tt)], m)) /\
  (exists w m, run_all false calls' (make_model r' mI false) = ([(w, Ok tt)], m)).
Proof.
  destruct (ax_reference axis_pos (or_introl eq_refl)) as (r & E). destruct (ax_reference axis_pos' (or_intror eq_refl)) as (r' & E').
  exists mI, axis_pos, axis_pos', axis_ops, [8%Z; 8%Z; 8%Z], [0%nat; 1%nat; 1%nat], r, r', ax_move, [tied_call], [tied_call].
  split; [apply ax_reordering|]. split; [apply ax_reordered|]. split; [exact E|]. split; [exact E'|]. split; [apply ax_separated|].
  split. { constructor; [|constructor; [|constructor]]; cbn [fst snd]; [exists (fun b => b); apply id_row_symmetry|exists ax_pi; apply ax_symmetry]. }
  split; [constructor; [apply ax_same_call|constructor]|]. split.
  - apply (ax_rejected axis_pos ax_pi im1 r E eq_refl ax_separated ax_symmetry) with (y := - xa) (rest := [0; 0; - xb; 0; 0; - xa; 0; 0]).
    + cbn [seq map nth ax_pi tied]. unfold im1, on_x, c2. f_equal; [|f_equal; [|f_equal]]; apply V3_eq; vunf; ring.
    + apply im1_norm.
    + unfold im1, tied, on_x, xa, xb, rows_dot. vunf. lra.
    + reflexivity.
    + unfold xa, xb. lra.
    + reflexivity.
  - apply (ax_accepted axis_pos' ax_pi' im2 r' E' eq_refl ax_separated' ax_symmetry') with (y := - xb) (rest := [0; 0; - xa; 0; 0; - xa; 0; 0]).
    + cbn [seq map nth ax_pi' tied]. unfold im2, on_x, c2. f_equal; [|f_equal; [|f_equal]]; apply V3_eq; vunf; ring.
    + apply im2_norm.
    + unfold im2, tied, on_x, xa, xb, rows_dot. vunf. lra.
    + reflexivity.
    + lra.
    + reflexivity.
Qed.

Lemma f_C93_refuted : ~ forall numbers numbers' L pos pos' ops equiv equiv' r r' move refpol dummy art calls calls',
  reordering (List.length pos) move -> reordered move pos pos' ->
  make_reference numbers L pos (Some (ops, equiv)) = Ok r -> make_reference numbers' L pos' (Some (ops, equiv')) = Ok r' ->
  Forall2 (same_call (List.length pos) move) calls calls' ->
  separated (/ 100000) pos -> Forall (fun op => exists pi, row_symmetry pos (fst op) (snd op) pi) ops ->
  map snd (fst (run_all art calls' (make_model r' refpol dummy))) = map snd (fst (run_all art calls (make_model r refpol dummy))).
Proof.
  intros G. destruct f_C93_ties as (L & pos & pos' & ops & numbers & equiv & r & r' & move & calls & calls' & H1 & H2 & H3 & H4 & H5 & H6 & H7 & H8 & (w & m & H9)).
  pose proof (G numbers numbers L pos pos' ops equiv equiv r r' move mI false false calls calls' H1 H2 H3 H4 H7 H5 H6) as K.
  rewrite H9 in K. cbn [fst map snd] in K. apply H8.
  destruct (run_all false calls (make_model r mI false)) as [os m2]. cbn [fst] in K.
  destruct os as [|[w1 x1] [|? ?]]; cbn in K; try discriminate. injection K as <-. eauto.
Qed.

Definition along' (v : V3) : adding := Dof (on2 v) (vec_arr sw_amps) flat_pols 1 true.
Lemma along_unambiguous r v : make_reference [8%Z; 8%Z] mI sw_pos (Some (sw_ops, [0%nat; 0%nat])) = Ok r ->
  vnorm2 v = / 100 -> unambiguous r (along v).
Proof.
  intros E Hv d Hd. pose proof (along_starts r E v Hv) as K. unfold along in Hd. cbn [starts_from along] in Hd, K. rewrite K in Hd. injection Hd as <-.
  split; [|exact I]. intros gs g lead rest e Hg Hin Eg He. rewrite (on_groups r E v Hv) in Hg. injection Hg as <-.
  left. exists 1. rewrite rows_scale_1. destruct Hin as [<-|[<-|[]]]; cbn in Eg; injection Eg as <- <-; destruct He as [He|[]]; congruence.
Qed.
Lemma ex_C93 : exists r r' m,
  make_reference [8%Z; 8%Z] mI sw_pos (Some (sw_ops, [0%nat; 0%nat])) = Ok r /\
  make_reference [8%Z; 8%Z] mI (rev sw_pos) (Some (sw_ops, [0%nat; 0%nat])) = Ok r' /\
  reordering 2 swap2 /\ reordered swap2 sw_pos (rev sw_pos) /\
  Forall2 (same_call 2 swap2) [along ex; along ez] [along' ex; along' ez] /\
  Forall (unambiguous r) [along ex; along ez] /\
  all_return false [along ex; along ez] (make_model r mI false) m /\ List.length (im_basis m) = 4%nat.
Proof.
  destruct (sw_reference mI) as (r & E & _).
  destruct (f_C07c [8%Z; 8%Z] mI (rev sw_pos) sw_ops [0%nat; 0%nat]) as (r' & E' & _); [|reflexivity|].
  { cbn [sw_pos rev List.app]. repeat apply Forall_cons; try apply Forall_nil; unfold vall; cbn [vx vy vz]; lra. }
  assert (N1: vnorm2 ex = / 100) by (unfold ex; vunf; lra). assert (N2: vnorm2 ez = / 100) by (unfold ez; vunf; lra).
  destruct (two_along r E ex ez N1 N2) as (m & A & B); [unfold ex, ez; vunf; lra|].
  exists r, r', m. split; [exact E|]. split; [exact E'|]. split; [split; [intros [|[|i]]|intros [|[|i]] [|[|j]]]; cbn; lia|].
  assert (S : forall A (a b : A), reordered swap2 [a; b] [b; a]).
  { intros T a b. split; [reflexivity|]. intros [|[|i]] Hi; cbn in Hi |- *; try reflexivity; lia. }
  split; [apply S|]. split.
  { repeat constructor; apply S. }
  split; [constructor; [|constructor; [|constructor]]; apply along_unambiguous; auto|]. split; [exact A|rewrite B; reflexivity].
Qed.
