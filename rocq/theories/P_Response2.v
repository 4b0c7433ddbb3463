(** Proofs of C85, continued: histories, and counting degrees of freedom. *)
From Coq Require Import String ZArith Reals Lra Lia Psatz Bool Arith List Permutation.
From Verif Require Import Base LinAlg M_Validate M_StructUtils M_Symmetry M_Reference M_Interp M_Art
  S_Lattice S_Vec S_Symmetry S_Equivalent S_Interp S_Images S_Response P_StructUtils P_Symmetry P_Equivalent P_Equiv2 P_Equiv3 P_EquivTotal
  P_Interp P_Interp2 P_InterpEval P_Interp3 P_Interp4 P_Interp5 P_Interp6 P_Images P_Response.
Import ListNotations.
Local Open Scope R_scope.

Lemma norm2_single n k v : (k < n)%nat -> rows_norm2 (set_nth k v (repeat v0 n)) = vnorm2 v.
Proof.
  revert k. induction n as [|n IH]; intros [|k] H; [lia|lia| |]; cbn [repeat set_nth]; rewrite rows_norm2_sum; cbn [map rsum fold_right].
  - assert (Z : rsum (map vnorm2 (repeat v0 n)) = 0).
    { clear. induction n as [|n IH]; [reflexivity|]. cbn [repeat map rsum fold_right] in *. unfold rsum in IH. rewrite IH. vunf. lra. }
    unfold rsum in Z. rewrite Z. lra.
  - specialize (IH k ltac:(lia)). rewrite rows_norm2_sum in IH. unfold rsum in IH. rewrite IH. vunf. lra.
Qed.

Lemma map_single (f : V3 -> V3) n k v : f v0 = v0 ->
  map f (set_nth k v (repeat v0 n)) = set_nth k (f v) (repeat v0 n).
Proof.
  intros H. revert k. induction n as [|n IH]; intros [|k]; cbn [repeat set_nth map]; auto.
  - f_equal. clear - H. induction n; simpl; auto. rewrite H, IHn. auto.
  - rewrite IH, H. auto.
Qed.

Lemma single_length n k (v : V3) : List.length (set_nth k v (repeat v0 n)) = n.
Proof. revert k. induction n as [|n IH]; intros [|k]; simpl; auto. rewrite repeat_length. auto. Qed.

Lemma vnorm2_zero v : vnorm2 v = 0 -> v = v0.
Proof. destruct v as [x y z]. unfold vnorm2, vdot, v0. simpl. intros. f_equal; nra. Qed.

Lemma direction_scale c l : 0 < c -> direction_of (rows_scale c l) = direction_of l.
Proof.
  intros H. unfold direction_of. rewrite !magnitude_rows, rows_norm_scale, Rabs_right by lra.
  rewrite rows_scale_scale. f_equal. rewrite Rinv_mult. replace (/ c * / rows_norm l * c) with (c * / c * / rows_norm l) by ring.
  rewrite Rinv_r by lra. ring.
Qed.

Lemma py_index_lt n i k : py_index n i = Some k -> (k < n)%nat.
Proof.
  unfold py_index. destruct (0 <=? i)%Z eqn:E1.
  - destruct (i <? Z.of_nat n)%Z eqn:E2; [|discriminate]. intros [= <-]. apply Z.leb_le in E1. apply Z.ltb_lt in E2. lia.
  - destruct (- Z.of_nat n <=? i)%Z eqn:E2; [|discriminate]. intros [= <-]. apply Z.leb_gt in E1. apply Z.leb_le in E2. lia.
Qed.

Lemma art_step L pos ops r pol l m f v i k amps m' w : crystal L pos ops r ->
  linear_response (List.length pos) l -> symmetric_response pos ops l -> follows r pol l m ->
  half_cell [f] -> f <> v0 -> v = vmul f L -> py_index (List.length pos) i = Some k ->
  exact_images r (set_nth k f (repeat v0 (List.length pos))) -> amps <> [] ->
  add_art i [vx v; vy v; vz v] (vec_arr amps) (data_along pol l (set_nth k v (repeat v0 (List.length pos))) amps) m = ((m', w), Ok tt) ->
  follows r pol l m'.
Proof.
  intros HC Hl Hs HF Hh Hf0 Hv Hk Hex Hne H. pose proof HF as (I1 & I2 & I3 & _).
  destruct (crystal_parts _ _ _ _ HC) as (Ep & El & _).
  apply add_art_cases in H as [(e & E & _)|(_ & _ & f' & k' & Hf & Hk' & H)]; [discriminate|].
  rewrite I1, Ep, Hk in Hk'. injection Hk' as <-. rewrite I1 in Hf. rewrite I1, I3 in H.
  unfold get_frac_direction in Hf. rewrite El in Hf. destruct (minv L) as [li|] eqn:M; simpl in Hf; [|discriminate].
  injection Hf as <-.
  assert (Ef: vmap wrapd (vmul (mkV (vx v) (vy v) (vz v)) li) = f).
  { replace (mkV (vx v) (vy v) (vz v)) with v by (destruct v; auto). rewrite Hv, <- vmul_mmul.
    apply minv_Ok in M as (M & _). rewrite M, vmul_mI. apply vmap_wrapd_id. inversion Hh; auto. }
  rewrite Ef in H. set (n := List.length pos) in *. pose proof (py_index_lt _ _ _ Hk) as Hkn.
  set (d := set_nth k f (repeat v0 n)) in *.
  assert (Nf: vnorm2 f <> 0) by (intros E; apply Hf0, vnorm2_zero; auto).
  assert (Nfp: 0 < vnorm2 f). { assert (0 <= vnorm2 f) by (destruct f; unfold vnorm2, vdot; simpl; nra). lra. }
  assert (Nd: rows_norm d = sqrt (vnorm2 f)) by (unfold rows_norm, d; rewrite norm2_single; auto).
  assert (Sp: 0 < sqrt (vnorm2 f)) by (apply sqrt_lt_R0; auto).
  assert (Nn: sqrt (vnorm2 (vscale 10 f)) = 10 * rows_norm d).
  { rewrite Nd. replace (vnorm2 (vscale 10 f)) with (10 ^ 2 * vnorm2 f) by (destruct f; vunf; ring).
    rewrite sqrt_mult by (try apply pow2_ge_0; lra). rewrite sqrt_pow2 by lra. auto. }
  assert (Hnz: rows_norm d <> 0) by lra.
  destruct (parent_norm d Hnz) as (P1 & P2).
  assert (Ed: art_displacement r k f = Fin (rows_scale (/ (10 * rows_norm d)) d)).
  { unfold art_displacement. rewrite Nn, Ep. fold n. destruct (Reqb (10 * rows_norm d) 0) eqn:E; [apply Reqb_true in E; lra|].
    f_equal. unfold d, rows_scale. rewrite map_single; auto. unfold vscale, v0; simpl; f_equal; ring. }
  set (c := / (10 * rows_norm d)) in *. assert (Hc: 0 < c) by (apply Rinv_0_lt_compat; lra).
  assert (Hcell: half_cell (rows_scale c d)) by (apply half_cell_small; lra).
  assert (Ec: rows_mul d L = set_nth k v (repeat v0 n)).
  { unfold d, rows_mul. rewrite map_single by apply vmul_v0. subst v. auto. }
  rewrite Ed in H. cbn [get_cart_displacement_arr] in H. unfold get_cart_displacement in H. rewrite pbc_half_cell, El in H by auto.
  apply (follows_step L pos ops r pol l m (rows_scale c d) (rows_mul (rows_scale c d) L) amps false m' w); auto.
  - unfold rows_scale. rewrite map_length. unfold d. apply single_length.
  - intros gs g G1 G2. apply (Hex gs g); auto. rewrite <- G1, <- P1. symmetry. apply parent_groups; auto.
    apply pbc_half_cell. unfold half_cell, d. clear - Hh. assert (Z: Forall (vall (fun x => - / 2 < x <= / 2)) (repeat v0 n)).
    { apply Forall_forall. intros x Hx. apply repeat_spec in Hx. subst. unfold vall, v0; simpl. lra. }
    revert k Z. induction (repeat v0 n) as [|a z IH]; intros [|k] Z; simpl; auto; inversion Z; subst; constructor; auto. inversion Hh; auto.
  - unfold data_along. rewrite rows_mul_scale, Ec in H |- *. rewrite direction_scale by auto. exact H.
Qed.

Lemma sampled_follows L pos ops r pol l m : crystal L pos ops r ->
  linear_response (List.length pos) l -> symmetric_response pos ops l -> sampled r pol l m -> follows r pol l m.
Proof.
  intros HC Hl Hs. destruct (crystal_parts _ _ _ _ HC) as (Ep & El & _).
  induction 1 as [|m d cart amps inc m' w H IH Ld Hh Hex Ec Hne Hadd|m f v i k amps m' w H IH Hh Hf Hv Hk Hex Hne Hadd].
  - unfold follows, make_model. cbn. do 4 (split; [auto|]). split; auto. apply (make_model_inv r pol false).
    apply valid_reference_wf. eapply crystal_valid; eauto.
  - rewrite Ep, El in *. eapply follows_step; eauto.
  - rewrite Ep, El in *. eapply art_step; eauto.
Qed.

(** ** 3N orthonormal displacements span the displacements of N atoms *)
Fixpoint onb (bs : list (list V3)) : Prop :=
  match bs with
  | [] => True
  | b :: bs' => rows_dot b b = 1 /\ Forall (fun c => rows_dot b c = 0) bs' /\ onb bs'
  end.
Definition off (b u : list V3) : list V3 := rows_add u (rows_scale (- rows_dot b u) b).
Definition coeffs2 (bs : list (list V3)) (u : list V3) : R := rsum (map (fun b => rows_dot b u * rows_dot b u) bs).

Lemma rows_add_length u v : List.length u = List.length v -> List.length (rows_add u v) = List.length u.
Proof. unfold rows_add. revert v. induction u as [|x u IH]; intros [|y v] H; simpl in *; try discriminate; auto. Qed.
Lemma off_length b u : List.length b = List.length u -> List.length (off b u) = List.length u.
Proof. intros H. unfold off. apply rows_add_length. unfold rows_scale. rewrite map_length. auto. Qed.
Lemma dot_off c b u : List.length b = List.length u -> rows_dot c (off b u) = rows_dot c u - rows_dot b u * rows_dot c b.
Proof.
  intros H. unfold off. rewrite rows_dot_add_r by (unfold rows_scale; rewrite map_length; auto).
  rewrite rows_dot_scale_r. ring.
Qed.

Lemma bessel n bs : Forall (fun b => List.length b = n) bs -> onb bs ->
  forall u, List.length u = n -> coeffs2 bs u <= rows_dot u u.
Proof.
  induction 1 as [|b bs Hb Hbs IH]; intros Ho u Hu.
  - unfold coeffs2. simpl. apply rows_norm2_nonneg.
  - destruct Ho as (N & O & Ho). specialize (IH Ho (off b u) ltac:(rewrite off_length; congruence)).
    assert (E: coeffs2 bs (off b u) = coeffs2 bs u).
    { unfold coeffs2. f_equal. apply map_ext_in. intros c Hc. rewrite Forall_forall in O. specialize (O c Hc).
      rewrite dot_off by congruence. rewrite (rows_dot_comm c b), O. ring. }
    rewrite E in IH. unfold coeffs2 in *. cbn [map rsum fold_right]. unfold rsum in *.
    rewrite dot_off in IH by congruence. rewrite (rows_dot_comm (off b u) u), (rows_dot_comm (off b u) b), !dot_off in IH by congruence.
    rewrite N, (rows_dot_comm u b) in IH. lra.
Qed.

Fixpoint units (n : nat) : list (list V3) :=
  match n with
  | O => []
  | S k => (mkV 1 0 0 :: repeat v0 k) :: (mkV 0 1 0 :: repeat v0 k) :: (mkV 0 0 1 :: repeat v0 k) :: map (cons v0) (units k)
  end.
Lemma units_length n : List.length (units n) = (3 * n)%nat.
Proof. induction n as [|n IH]; auto. simpl. rewrite map_length, IH. lia. Qed.
Lemma units_ok n : Forall (fun e => List.length e = n /\ rows_dot e e = 1) (units n).
Proof.
  induction n as [|n IH]; simpl; repeat constructor; simpl; rewrite ?repeat_length, ?rows_dot_cons, ?rows_dot_zero; try reflexivity; try (vunf; lra).
  apply Forall_forall. intros x Hx. apply in_map_iff in Hx as (y & <- & Hy). rewrite Forall_forall in IH. apply IH in Hy as (H1 & H2).
  simpl. split; [lia|]. rewrite rows_dot_cons, H2. vunf. lra.
Qed.
Lemma parseval n b : List.length b = n -> rsum (map (fun e => rows_dot b e * rows_dot b e) (units n)) = rows_dot b b.
Proof.
  revert b. induction n as [|n IH]; intros [|v b] H; try discriminate; [reflexivity|]. injection H as H.
  cbn [units map rsum fold_right]. rewrite !rows_dot_cons, !rows_dot_zero, map_map. fold (rsum (map (fun x => rows_dot (v :: b) (v0 :: x) * rows_dot (v :: b) (v0 :: x)) (units n))).
  rewrite <- (IH b H). rewrite (map_ext (fun x => rows_dot (v :: b) (v0 :: x) * rows_dot (v :: b) (v0 :: x)) (fun x => rows_dot b x * rows_dot b x)).
  2:{ intros x. rewrite rows_dot_cons. replace (vdot v v0) with 0 by (vunf; ring). ring. }
  destruct v. vunf. ring.
Qed.
Lemma rsum_plus {A} (f g : A -> R) l : rsum (map (fun x => f x + g x) l) = rsum (map f l) + rsum (map g l).
Proof. induction l as [|a l IH]; simpl; [lra|]. unfold rsum in *. simpl. rewrite IH. lra. Qed.
Lemma exchange bs es : rsum (map (fun e => coeffs2 bs e) es) = rsum (map (fun b => rsum (map (fun e => rows_dot b e * rows_dot b e) es)) bs).
Proof.
  induction bs as [|b bs IH].
  - unfold coeffs2. simpl. induction es; simpl; [reflexivity|]. unfold rsum in *. simpl. lra.
  - cbn [map rsum fold_right]. unfold rsum in IH at 2. rewrite <- IH. unfold coeffs2. cbn [map rsum fold_right].
    fold rsum. apply (rsum_plus (fun e => rows_dot b e * rows_dot b e) (fun e => fold_right Rplus 0 (map (fun b => rows_dot b e * rows_dot b e) bs))).
Qed.
Lemma rsum_ones {A} (f : A -> R) l : Forall (fun x => f x = 1) l -> rsum (map f l) = INR (List.length l).
Proof. induction 1 as [|a l H _ IH]; [reflexivity|]. cbn [map rsum fold_right List.length]. unfold rsum in IH. rewrite IH, H, S_INR. lra. Qed.
Lemma rsum_le {A} (f g : A -> R) l : Forall (fun x => f x <= g x) l -> rsum (map f l) <= rsum (map g l).
Proof. induction 1 as [|a l H _ IH]; [simpl; unfold rsum; simpl; lra|]. cbn [map rsum fold_right]. unfold rsum in IH. lra. Qed.

Lemma onb_unit bs : onb bs -> Forall (fun b => rows_dot b b = 1) bs.
Proof. induction bs; simpl; intros H; constructor; tauto. Qed.

Lemma onb_count n bs : Forall (fun b => List.length b = n) bs -> onb bs -> (List.length bs <= 3 * n)%nat.
Proof.
  intros Hb Ho. apply INR_le. rewrite <- units_length. rewrite <- (rsum_ones (fun e => rows_dot e e) (units n)).
  2:{ eapply Forall_impl; [|apply units_ok]. intros e (_ & He). exact He. }
  rewrite <- (rsum_ones (fun b => rsum (map (fun e => rows_dot b e * rows_dot b e) (units n))) bs).
  - rewrite <- exchange. apply rsum_le. eapply Forall_impl; [|apply units_ok]. intros e (He & _). eapply bessel; eauto.
  - pose proof (onb_unit bs Ho) as Hu. rewrite Forall_forall in *. intros b Hx. rewrite parseval; auto.
Qed.

Lemma rows_add_zero n u : List.length u = n -> rows_add (repeat v0 n) u = u.
Proof. intros <-. induction u as [|v u IH]; simpl; auto. unfold rows_add in *. simpl. rewrite IH. f_equal. destruct v; vunf; f_equal; ring. Qed.
Lemma rows_off_back b u w : List.length b = List.length u -> List.length w = List.length u -> off b u = w ->
  u = rows_add (rows_scale (rows_dot b u) b) w.
Proof.
  intros H1 H2 <-. unfold off. clear H2. generalize (rows_dot b u) as c. intros c. revert b H1.
  induction u as [|v u IH]; intros [|x b] H; try discriminate; [reflexivity|]. injection H as H.
  unfold rows_add, rows_scale in *. simpl. rewrite <- IH by auto. f_equal. destruct v, x; vunf; f_equal; ring.
Qed.
Lemma rows_add_assoc a b c : List.length a = List.length b -> List.length b = List.length c ->
  rows_add a (rows_add b c) = rows_add (rows_add a b) c.
Proof.
  revert b c. induction a as [|v a IH]; intros [|w b] [|x c] H1 H2; try discriminate; auto.
  unfold rows_add in *. simpl in *. rewrite IH by congruence. f_equal. destruct v, w, x; vunf; f_equal; ring.
Qed.
Lemma lincomb_len n cs bs : Forall (fun b => List.length b = n) bs -> List.length (lincomb n cs bs) = n.
Proof.
  intros H. revert cs. induction H as [|b bs Hb _ IH]; intros [|c cs]; simpl; rewrite ?repeat_length; auto.
  rewrite rows_add_length; unfold rows_scale; rewrite ?map_length; auto. rewrite IH. auto.
Qed.

Lemma residual n bs : Forall (fun b => List.length b = n) bs -> onb bs ->
  forall u, List.length u = n -> exists cs w, List.length cs = List.length bs /\ List.length w = n /\
    u = rows_add (lincomb n cs bs) w /\ Forall (fun b => rows_dot b w = 0) bs /\
    forall c, Forall (fun b => rows_dot c b = 0) bs -> rows_dot c w = rows_dot c u.
Proof.
  induction 1 as [|b bs Hb Hbs IH]; intros Ho u Hu.
  - exists [], u. simpl. rewrite rows_add_zero by auto. repeat split; auto.
  - destruct Ho as (N & O & Ho). destruct (IH Ho (off b u)) as (cs & w & Lc & Lw & E & Hw & Hc).
    { rewrite off_length; congruence. }
    exists (rows_dot b u :: cs), w. split; [simpl; congruence|]. split; [auto|]. split; [|split].
    + cbn [lincomb]. rewrite <- rows_add_assoc, <- E; try (unfold rows_scale; rewrite ?map_length, lincomb_len; congruence).
      apply rows_off_back; auto; try congruence. rewrite off_length; congruence.
    + constructor; auto. rewrite Hc by auto. rewrite dot_off, N by congruence. ring.
    + intros c Fc. inversion Fc; subst. rewrite Hc by auto. rewrite dot_off by congruence. rewrite H1. ring.
Qed.

Lemma rows_zero n w : List.length w = n -> rows_dot w w = 0 -> w = repeat v0 n.
Proof.
  intros <- H. apply rows_norm2_0 in H. induction H as [|v w Hv _ IH]; simpl; auto. rewrite <- IH. subst. auto.
Qed.

Lemma full_spans n bs : Forall (fun b => List.length b = n) bs -> onb bs -> List.length bs = (3 * n)%nat -> spans n bs.
Proof.
  intros Hb Ho Hn u Hu. destruct (residual n bs Hb Ho u Hu) as (cs & w & Lc & Lw & E & Hw & _).
  exists cs. split; auto. assert (Z: rows_dot w w = 0).
  { destruct (Req_dec (rows_dot w w) 0) as [|Hz]; auto. exfalso.
    assert (P: 0 < rows_dot w w) by (pose proof (rows_norm2_nonneg w); unfold rows_norm2 in *; lra).
    pose proof (sqrt_lt_R0 _ P) as Sp. set (c := / sqrt (rows_dot w w)).
    assert (Hle: (List.length (rows_scale c w :: bs) <= 3 * n)%nat).
    { apply onb_count.
      - constructor; auto. unfold rows_scale. rewrite map_length. auto.
      - simpl. split; [|split; auto].
        + rewrite rows_dot_scale_l, rows_dot_scale_r. unfold c. rewrite <- (sqrt_sqrt (rows_dot w w)) at 3 by lra. field. lra.
        + eapply Forall_impl; [|exact Hw]. intros b Hx. simpl in Hx. rewrite rows_dot_scale_l, rows_dot_comm, Hx. ring. }
    simpl in Hle. lia. }
  apply rows_zero with (n := n) in Z; auto. rewrite Z in E. rewrite E at 1.
  transitivity (rows_add (repeat v0 n) (lincomb n cs bs)); [|apply rows_add_zero, lincomb_len; auto].
  generalize (lincomb n cs bs) as q, (repeat v0 n) as z. induction q as [|a q IH]; intros [|b z]; auto.
  unfold rows_add in *. simpl. rewrite IH. f_equal. destruct a, b; vunf; f_equal; ring.
Qed.

Lemma orthonormal_onb bs : orthonormal bs -> onb bs.
Proof.
  induction bs as [|b bs IH]; intros H; simpl; auto. split; [|split].
  - rewrite <- inner_rows. apply (H 0%nat 0%nat b b); auto.
  - apply Forall_forall. intros c Hc. apply In_nth_error in Hc as (k & Hk). rewrite <- inner_rows.
    apply (H 0%nat (S k) b c); auto.
  - apply IH. intros i j x y Hx Hy. apply (H (S i) (S j) x y); auto.
Qed.

Lemma f_C85 spl L pos ops r pol l m xs us : crystal L pos ops r ->
  linear_response (List.length pos) l -> symmetric_response pos ops l -> sampled r pol l m ->
  orthonormal (im_basis m) -> List.length (im_basis m) = (3 * List.length pos)%nat ->
  sample_shape (List.length pos) xs -> Forall2 (displacement_from r) xs us ->
  calc_polarizabilities spl m (batch_of (List.length pos) xs) = Ok (map (fun u => madd pol (l u)) us).
Proof.
  intros HC Hl Hs Hm Ho Hn Hx Hu. destruct (crystal_parts _ _ _ _ HC) as (Ep & El & _).
  destruct (sampled_follows _ _ _ _ _ _ _ HC Hl Hs Hm) as (I1 & I2 & I3 & I4 & I5 & I6).
  rewrite <- I2, <- Ep, <- I1. apply f_C26_state; rewrite ?I1, ?Ep; auto.
  apply full_spans; auto; [|apply orthonormal_onb; auto]. destruct I5 as (_ & _ & B & _). unfold basis_ok in B.
  rewrite I1, Ep in B. eapply Forall_impl; [|exact B]. intros b (A & _). auto.
Qed.

Lemma f_C85_count n basis : Forall (fun b => List.length b = n) basis -> orthonormal basis ->
  (List.length basis <= 3 * n)%nat /\ (List.length basis = (3 * n)%nat -> spans n basis).
Proof.
  intros Hb Ho. apply orthonormal_onb in Ho. split; [apply onb_count; auto|apply full_spans; auto].
Qed.
