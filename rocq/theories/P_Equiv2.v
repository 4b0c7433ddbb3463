From Coq Require Import String ZArith Reals Lra Lia Psatz Bool List.
From Verif Require Import Base LinAlg Constants M_Validate M_StructUtils M_Symmetry M_Reference
  S_Lattice S_Vec S_Symmetry P_StructUtils P_Minimal P_Reference P_Symmetry P_Equivalent.
Import ListNotations.
Local Open Scope R_scope.

Lemma vdot_cs a b : vdot a b * vdot a b <= vnorm2 a * vnorm2 b.
Proof.
  destruct a as [a1 a2 a3], b as [b1 b2 b3]; unfold vnorm2, vdot; simpl.
  pose proof (Rle_0_sqr (a1*b2-a2*b1)); pose proof (Rle_0_sqr (a1*b3-a3*b1)); pose proof (Rle_0_sqr (a2*b3-a3*b2)).
  unfold Rsqr in *. lra.
Qed.

Lemma row_norm2_le l v : In v l -> vnorm2 v <= rows_norm2 l.
Proof.
  induction l as [|w l IH]; [intros []|]. rewrite rows_norm2_cons.
  pose proof (vnorm2_nonneg w). pose proof (rows_norm2_nonneg l).
  intros [->|H1]; [lra|]. specialize (IH H1). lra.
Qed.

(** The displacement the code actually transforms: wrapped, then scaled to a
    fractional Frobenius norm of one tenth. *)
Definition scaled_dir (l : list V3) : list V3 :=
  rows_scale (/ (rows_norm (apply_pbc_displacement l) * 10)) (apply_pbc_displacement l).

Lemma scaled_dir_norm2 l : rows_norm (apply_pbc_displacement l) <> 0 -> rows_norm2 (scaled_dir l) = / 100.
Proof.
  intros H. unfold scaled_dir. rewrite rows_norm2_scale, <- rows_norm_sq. field. auto.
Qed.
Lemma scaled_dir_length l : List.length (scaled_dir l) = List.length l.
Proof. unfold scaled_dir, rows_scale. rewrite map_length. apply apply_pbc_displacement_length. Qed.

Lemma small_image v R : vnorm2 v <= / 100 -> short_columns R ->
  vall (fun x => - / 2 < x <= / 2) (vmul v R).
Proof.
  intros Hv (H0 & H1 & H2).
  assert (G: forall c, vnorm2 c < 25 -> - / 2 < vdot v c <= / 2).
  { intros c Hc. pose proof (vdot_cs v c) as CS. pose proof (vnorm2_nonneg v). pose proof (vnorm2_nonneg c).
    assert (vdot v c * vdot v c < / 4) by nra. split; nra. }
  destruct v, R as [[] [] []]. unfold vall; simpl in *. unfold vdot in G; simpl in G.
  specialize (G _ H0) as G0; specialize (G _ H1) as G1; specialize (G _ H2) as G2; simpl in *.
  rewrite !Rplus_assoc in *. auto.
Qed.

Lemma combine_perms_In ops pos perms op P :
  mapM (permutation_matrix_of pos) ops = Ok perms -> In (op, P) (combine ops perms) ->
  permutation_matrix_of pos op = Ok P.
Proof.
  intros H. apply mapM_Ok in H. induction H; simpl; [intros []|].
  intros [[= -> ->]|G]; auto.
Qed.

Lemma equivalent_displacements_images numbers L pos ops equiv r l gs :
  make_reference numbers L pos (Some (ops, equiv)) = Ok r ->
  positions_ok pos = true -> separated ptol pos -> (0 < List.length pos)%nat ->
  Forall (fun op => short_columns (fst op) /\ exists pi, row_symmetry pos (fst op) (snd op) pi) ops ->
  List.length l = List.length pos -> rows_norm (apply_pbc_displacement l) <> 0 ->
  get_equivalent_displacements r (Fin l) = Ok gs ->
  Forall (fun g => Forall2 (fun disp op => exists pi, In op ops /\ row_symmetry pos (fst op) (snd op) pi /\
      disp = Fin (map (fun b => vmul (nth (pi b) (scaled_dir l) v0) (fst op)) (seq 0 (List.length pos))))
    (g_disp g) (g_trans g)) gs.
Proof.
  intros Hr Hok Hsep Hn Hops Hl Hnz Hgs.
  destruct (equivalent_displacements_inv _ _ _ Hgs) as [orth [I1 _]]. cbn [fst snd] in I1.
  rewrite scale_displacement_fin in I1 by auto. fold (scaled_dir l) in I1.
  unfold make_reference in Hr. simpl in Hr.
  destruct (verify_ndarray_shape _ _); simpl in Hr; [|discriminate].
  destruct (compute_permutation_matrices ops pos) as [perms|] eqn:Hp; simpl in Hr; [|discriminate].
  injection Hr as <-. simpl in I1.
  clear Hgs. induction I1 as [|g o gs' orth' H I1 IH]; constructor; auto. clear IH I1.
  destruct H as (_ & Hlen & _ & Him). revert Hlen Him. generalize (g_disp g) (g_trans g).
  intros ds ts. revert ts. induction ds as [|disp ds IH]; intros [|op ts] Hlen Him; try discriminate; constructor.
  - inversion Him as [|? ? (P & HP & Hc) _]; subst. simpl in HP, Hc.
    assert (Hin: In op ops) by (apply in_combine_l in HP; auto).
    rewrite Forall_forall in Hops. destruct (Hops op Hin) as [Hsc [pi Hpi]].
    exists pi. split; [auto|split; [auto|]].
    pose proof (combine_perms_In _ _ _ _ _ Hp HP) as HPm. destruct op as [R t]. simpl in *.
    rewrite (permutation_matrix_correct pos R t pi) in HPm by auto. injection HPm as <-.
    pose proof (candidate_exact (mkRef numbers L pos ops equiv perms) R t pi (scaled_dir l)) as CE.
    match goal with |- disp = ?X => assert (E: Ok disp = Ok X) end.
    { etransitivity; [symmetry; exact Hc|]. apply CE; auto.
      - rewrite scaled_dir_length; auto.
      - apply Forall_forall. intros v Hv. apply small_image; auto.
        rewrite <- (scaled_dir_norm2 l Hnz). apply row_norm2_le; auto. }
    injection E; auto.
  - inversion Him; subst. apply IH; auto.
Qed.

(** ** spglib's convention: a hexagonal witness *)
Definition hexL : M3 := mkM (mkV 1 0 0) (mkV (-1/2) (sqrt 3 / 2) 0) (mkV 0 0 1).
Definition hexR : M3 := mkM (mkV 0 (-1) 0) (mkV 1 (-1) 0) (mkV 0 0 1).
Definition hexpos : list V3 := [mkV (/10) (3/10) 0; mkV (7/10) (8/10) 0; mkV (2/10) (9/10) 0].
Definition hexpi (b : nat) : nat := match b with 0 => 2 | 1 => 0 | 2 => 1 | n => n end%nat.

Lemma is_int_IZR z : is_int (IZR z). Proof. exists z; auto. Qed.

Lemma hexR_int : integer_matrix hexR.
Proof.
  unfold hexR. repeat split; simpl; try (exists 0%Z; reflexivity); try (exists 1%Z; reflexivity);
  exists (-1)%Z; reflexivity.
Qed.

Lemma hex_permutes : permutes 3 hexpi.
Proof.
  split; [|split].
  - intros [|[|[|b]]] H; simpl; lia.
  - intros [|[|[|b]]] [|[|[|c]]] H1 H2; simpl; try lia.
  - intros [|[|[|a]]] H; [exists 1%nat|exists 2%nat|exists 0%nat|]; simpl; try lia; split; auto.
Qed.

Lemma hex_column_symmetry : column_symmetry hexpos hexR v0 hexpi.
Proof.
  split; [apply hexR_int|split; [apply hex_permutes|]].
  intros [|[|[|b]]] H; simpl in *; try lia; unfold vcongr, hexR; vunf.
  - split; [exists (-1)%Z|split; [exists (-1)%Z|exists 0%Z]]; lra.
  - split; [exists (-1)%Z|split; [exists (-1)%Z|exists 0%Z]]; lra.
  - split; [exists (-1)%Z|split; [exists (-1)%Z|exists 0%Z]]; lra.
Qed.

Lemma hex_metric : mmul hexL (mtrans hexL) = mkM (mkV 1 (-/2) 0) (mkV (-/2) 1 0) (mkV 0 0 1).
Proof.
  assert (H: sqrt 3 * sqrt 3 = 3) by (apply sqrt_sqrt; lra).
  unfold hexL. revert H. generalize (sqrt 3). intros s H.
  apply M3_eq; apply V3_eq; cbn; lra.
Qed.
Lemma hex_isometry : column_isometry hexL hexR.
Proof.
  unfold column_isometry. rewrite hex_metric. unfold hexR. cbv zeta.
  match goal with |- mmul _ ?M = _ => let E := fresh in
    assert (E: M = mkM (mkV (-/2) (-/2) 0) (mkV 1 (-/2) 0) (mkV 0 0 1)) by (apply M3_eq; apply V3_eq; cbn; lra);
    rewrite E end.
  apply M3_eq; apply V3_eq; cbn; lra.
Qed.

Lemma hex_separated : separated ptol hexpos.
Proof.
  assert (G: forall x y z : R, / 100 <= x * x \/ / 100 <= y * y -> ptol <= sqrt (vnorm2 (mkV x y z))).
  { intros x y z H. unfold ptol. apply Rsqr_incr_0_var; [|apply sqrt_pos].
    rewrite Rsqr_sqrt by apply vnorm2_nonneg. unfold Rsqr, vnorm2, vdot; simpl. nra. }
  assert (I: forall k : Z, (k = 0)%Z \/ IZR k <= -1 \/ 1 <= IZR k).
  { intros k. destruct (Z.eq_dec k 0); auto. right.
    destruct (Z_lt_le_dec k 0); [left; replace (-1) with (IZR (-1)) by reflexivity|right; replace 1 with (IZR 1) by reflexivity];
    apply IZR_le; lia. }
  intros b c [n1 n2 n3] Hb Hc N ((k1 & H1) & (k2 & H2) & (k3 & H3)). simpl in H1, H2, H3. subst.
  destruct b as [|[|[|b]]], c as [|[|[|c]]]; simpl in Hb, Hc; try lia; simpl; unfold vsub; simpl; apply G;
    destruct (I k1) as [->|[?|?]]; simpl; try (left; nra).
Qed.

Lemma hex_row_bad : exists P, permutation_matrix_of hexpos (hexR, v0) = Ok P /\
  exists row, In row P /\ forall b, In b row -> b = false.
Proof.
  assert (Hok: positions_ok hexpos = true).
  { apply positions_ok_spec. unfold hexpos.
    constructor; [|constructor; [|constructor; [|constructor]]]; unfold vall; simpl; lra. }
  unfold permutation_matrix_of. rewrite displace_positions_one. cbn [rbind fst snd].
  rewrite transform_ok_eq by (auto using hexR_int). cbn [rbind].
  eexists; split; [reflexivity|].
  unfold get_positions_permutation_matrix, apply_pbc. rewrite !map_map.
  eexists. split; [left; reflexivity|].
  intros x Hx. apply in_map_iff in Hx as (w & <- & Hw). apply in_map_iff in Hw as (v & <- & Hv).
  assert (Hfar: forall a b : V3, close_pts (vmap wrap (vadd a (com_shift hexpos)))
     (vmap wrap (vadd b (vadd v0 (com_shift hexpos)))) = close_pts a b).
  { intros a b. unfold close_pts. f_equal. f_equal. f_equal. apply vmap_wrapd_proper.
    replace (vsub a b) with (vsub (vadd a (com_shift hexpos)) (vadd b (vadd v0 (com_shift hexpos)))) by vring.
    apply vcongr_vsub; apply vcongr_sym, vcongr_wrap. }
  rewrite Hfar.
  assert (I: forall k : Z, (k = 0)%Z \/ (k = 1)%Z \/ (k = -1)%Z \/ IZR k <= -2 \/ 2 <= IZR k).
  { intros k. destruct (Z.eq_dec k 0); auto. destruct (Z.eq_dec k 1); auto. destruct (Z.eq_dec k (-1)); auto.
    do 3 right. destruct (Z_lt_le_dec k 0);
    [left; replace (-2) with (IZR (-2)) by reflexivity|right; replace 2 with (IZR 2) by reflexivity];
    apply IZR_le; lia. }
  apply close_pts_far. intros [n1 n2 n3] ((k1 & H1) & _). simpl in H1. subst n1.
  unfold ptol. apply Rsqr_incr_0_var; [|apply sqrt_pos].
  rewrite Rsqr_sqrt by apply vnorm2_nonneg. unfold Rsqr, vnorm2, vdot; simpl.
  unfold hexpos in Hv. simpl in Hv.
  assert (Hx : / 100 <= (/ 10 - vx (vmul v hexR) - IZR k1) * (/ 10 - vx (vmul v hexR) - IZR k1)).
  { destruct Hv as [<-|[<-|[<-|[]]]]; unfold hexR, vmul, vadd, vscale; simpl;
    destruct (I k1) as [->|[->|[->|[?|?]]]]; nra. }
  match goal with |- _ <= ?x * ?x + ?y * ?y + ?z * ?z =>
    pose proof (Rle_0_sqr y); pose proof (Rle_0_sqr z); unfold Rsqr in *;
    replace (x * x) with ((/ 10 - vx (vmul v hexR) - IZR k1) * (/ 10 - vx (vmul v hexR) - IZR k1))
      by (unfold hexR; vunf; ring) end.
  lra.
Qed.

Lemma hex_det : mdet hexL <> 0.
Proof.
  assert (H: 0 < sqrt 3) by (apply sqrt_lt_R0; lra). unfold hexL. revert H. generalize (sqrt 3).
  intros s H. vunf. lra.
Qed.
