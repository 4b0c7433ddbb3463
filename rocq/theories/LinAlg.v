(** 3-vectors and 3x3 matrices over the reals; (N,3) NumPy arrays are lists of
    rows.  Row-vector conventions throughout, as in the code ([x @ M]). *)
From Coq Require Import ZArith Reals Lra Lia Arith List.
From Verif Require Import Base.
Import ListNotations.
Local Open Scope R_scope.

Record V3 := mkV { vx : R; vy : R; vz : R }.
Record M3 := mkM { r0 : V3; r1 : V3; r2 : V3 }.

Definition v0 : V3 := mkV 0 0 0.
Definition vadd (a b : V3) := mkV (vx a + vx b) (vy a + vy b) (vz a + vz b).
Definition vsub (a b : V3) := mkV (vx a - vx b) (vy a - vy b) (vz a - vz b).
Definition vopp (a : V3) := mkV (- vx a) (- vy a) (- vz a).
Definition vscale (c : R) (a : V3) := mkV (c * vx a) (c * vy a) (c * vz a).
Definition vdot (a b : V3) := vx a * vx b + vy a * vy b + vz a * vz b.
Definition vnorm2 (a : V3) := vdot a a.
Definition vnorm (a : V3) := sqrt (vnorm2 a).
Definition vmap (f : R -> R) (a : V3) := mkV (f (vx a)) (f (vy a)) (f (vz a)).
(** all components satisfy a predicate *)
Definition vall (p : R -> Prop) (a : V3) := p (vx a) /\ p (vy a) /\ p (vz a).
Definition vallb (p : R -> bool) (a : V3) := andb (p (vx a)) (andb (p (vy a)) (p (vz a))).
Definition vall2 (p : R -> R -> Prop) (a b : V3) :=
  p (vx a) (vx b) /\ p (vy a) (vy b) /\ p (vz a) (vz b).

Definition m0 : M3 := mkM v0 v0 v0.
Definition mI : M3 := mkM (mkV 1 0 0) (mkV 0 1 0) (mkV 0 0 1).
Definition madd (a b : M3) := mkM (vadd (r0 a) (r0 b)) (vadd (r1 a) (r1 b)) (vadd (r2 a) (r2 b)).
Definition msub (a b : M3) := mkM (vsub (r0 a) (r0 b)) (vsub (r1 a) (r1 b)) (vsub (r2 a) (r2 b)).
Definition mscale (c : R) (a : M3) := mkM (vscale c (r0 a)) (vscale c (r1 a)) (vscale c (r2 a)).
(** row vector times matrix: [v @ M] *)
Definition vmul (v : V3) (m : M3) : V3 :=
  vadd (vscale (vx v) (r0 m)) (vadd (vscale (vy v) (r1 m)) (vscale (vz v) (r2 m))).
(** matrix times column vector: [M @ v] *)
Definition mulv (m : M3) (v : V3) : V3 := mkV (vdot (r0 m) v) (vdot (r1 m) v) (vdot (r2 m) v).
Definition mmul (a b : M3) : M3 := mkM (vmul (r0 a) b) (vmul (r1 a) b) (vmul (r2 a) b).
Definition mtrans (m : M3) : M3 :=
  mkM (mkV (vx (r0 m)) (vx (r1 m)) (vx (r2 m)))
      (mkV (vy (r0 m)) (vy (r1 m)) (vy (r2 m)))
      (mkV (vz (r0 m)) (vz (r1 m)) (vz (r2 m))).
Definition vcross (a b : V3) : V3 :=
  mkV (vy a * vz b - vz a * vy b) (vz a * vx b - vx a * vz b) (vx a * vy b - vy a * vx b).
Definition mdet (m : M3) : R := vdot (r0 m) (vcross (r1 m) (r2 m)).
Definition mtrace (m : M3) : R := vx (r0 m) + vy (r1 m) + vz (r2 m).
(** Adjugate, so that [mmul m (madj m) = det m * I]. *)
Definition madj (m : M3) : M3 :=
  mtrans (mkM (vcross (r1 m) (r2 m)) (vcross (r2 m) (r0 m)) (vcross (r0 m) (r1 m))).
(** [np.linalg.inv]: LinAlgError on singular matrices (exact arithmetic). *)
Definition minv (m : M3) : res M3 :=
  if Req_EM_T (mdet m) 0 then Err LinAlgError else Ok (mscale (/ mdet m) (madj m)).

(** Lists of rows *)
Definition rows_dot (a b : list V3) : R := fold_right Rplus 0 (map2 vdot a b).
Definition rows_norm2 (a : list V3) : R := rows_dot a a.
(** [np.linalg.norm] of an (N,3) array (Frobenius norm) *)
Definition rows_norm (a : list V3) : R := sqrt (rows_norm2 a).
Definition rows_scale (c : R) (a : list V3) : list V3 := map (vscale c) a.
Definition rows_mul (a : list V3) (m : M3) : list V3 := map (fun v => vmul v m) a.
Definition vsum (l : list V3) : V3 := fold_right vadd v0 l.
Definition msum (l : list M3) : M3 := fold_right madd m0 l.
Definition rsum (l : list R) : R := fold_right Rplus 0 l.

Definition orthogonal (q : M3) : Prop := mmul q (mtrans q) = mI.
Definition symmetric3 (m : M3) : Prop := mtrans m = m.

(** ** Basic algebra *)
Lemma V3_eq a b : vx a = vx b -> vy a = vy b -> vz a = vz b -> a = b.
Proof. destruct a, b; simpl; intros; subst; auto. Qed.
Lemma M3_eq a b : r0 a = r0 b -> r1 a = r1 b -> r2 a = r2 b -> a = b.
Proof. destruct a, b; simpl; intros; subst; auto. Qed.

Ltac vunf := unfold mtrace, mdet, madj, vcross, mtrans, mmul, mulv, vmul, mscale, msub, madd, mI, m0,
  vall2, vall, vmap, vnorm2, vdot, vscale, vopp, vsub, vadd, v0 in *; simpl in *.
Ltac vring := intros; repeat match goal with v : V3 |- _ => destruct v | m : M3 |- _ => destruct m as [[] [] []] end;
  vunf; try reflexivity;
  repeat first [apply M3_eq; simpl | apply V3_eq; simpl]; ring.

Lemma vadd_comm a b : vadd a b = vadd b a. Proof. vring. Qed.
Lemma vadd_assoc a b c : vadd a (vadd b c) = vadd (vadd a b) c. Proof. vring. Qed.
Lemma vadd_0_r a : vadd a v0 = a. Proof. vring. Qed.
Lemma vadd_0_l a : vadd v0 a = a. Proof. vring. Qed.
Lemma vsub_diag a : vsub a a = v0. Proof. vring. Qed.
Lemma vscale_1 a : vscale 1 a = a. Proof. vring. Qed.
Lemma vscale_0 a : vscale 0 a = v0. Proof. vring. Qed.
Lemma vscale_v0 c : vscale c v0 = v0. Proof. vring. Qed.
Lemma vscale_vscale c d a : vscale c (vscale d a) = vscale (c * d) a. Proof. vring. Qed.
Lemma vscale_vadd c a b : vscale c (vadd a b) = vadd (vscale c a) (vscale c b). Proof. vring. Qed.
Lemma vscale_plus c d a : vscale (c + d) a = vadd (vscale c a) (vscale d a). Proof. vring. Qed.
Lemma vmul_vadd a b m : vmul (vadd a b) m = vadd (vmul a m) (vmul b m). Proof. vring. Qed.
Lemma vmul_vsub a b m : vmul (vsub a b) m = vsub (vmul a m) (vmul b m). Proof. vring. Qed.
Lemma vmul_vscale c a m : vmul (vscale c a) m = vscale c (vmul a m). Proof. vring. Qed.
Lemma vmul_mmul v a b : vmul v (mmul a b) = vmul (vmul v a) b. Proof. vring. Qed.
Lemma vmul_mI v : vmul v mI = v. Proof. vring. Qed.
Lemma vmul_v0 m : vmul v0 m = v0. Proof. vring. Qed.
Lemma vmul_mscale v c m : vmul v (mscale c m) = vscale c (vmul v m). Proof. vring. Qed.
Lemma vdot_comm a b : vdot a b = vdot b a. Proof. vring. Qed.
Lemma vdot_vadd_l a b c : vdot (vadd a b) c = vdot a c + vdot b c. Proof. vring. Qed.
Lemma vdot_vsub_l a b c : vdot (vsub a b) c = vdot a c - vdot b c. Proof. vring. Qed.
Lemma vdot_vscale_l c a b : vdot (vscale c a) b = c * vdot a b. Proof. vring. Qed.
Lemma vdot_vscale_r c a b : vdot a (vscale c b) = c * vdot a b. Proof. vring. Qed.
Lemma vdot_v0_l a : vdot v0 a = 0. Proof. vring. Qed.
Lemma vdot_v0_r a : vdot a v0 = 0. Proof. vring. Qed.
Lemma vnorm2_vscale c a : vnorm2 (vscale c a) = c * c * vnorm2 a. Proof. vring. Qed.
Lemma mmul_assoc a b c : mmul a (mmul b c) = mmul (mmul a b) c. Proof. vring. Qed.
Lemma mmul_mI_l a : mmul mI a = a. Proof. vring. Qed.
Lemma mmul_mI_r a : mmul a mI = a. Proof. vring. Qed.
Lemma mmul_madd_l a b c : mmul (madd a b) c = madd (mmul a c) (mmul b c). Proof. vring. Qed.
Lemma mmul_madd_r a b c : mmul a (madd b c) = madd (mmul a b) (mmul a c). Proof. vring. Qed.
Lemma mmul_mscale_l k a b : mmul (mscale k a) b = mscale k (mmul a b). Proof. vring. Qed.
Lemma mmul_mscale_r k a b : mmul a (mscale k b) = mscale k (mmul a b). Proof. vring. Qed.
Lemma madd_comm a b : madd a b = madd b a. Proof. vring. Qed.
Lemma madd_assoc a b c : madd a (madd b c) = madd (madd a b) c. Proof. vring. Qed.
Lemma madd_m0_l a : madd m0 a = a. Proof. vring. Qed.
Lemma madd_m0_r a : madd a m0 = a. Proof. vring. Qed.
Lemma msub_diag a : msub a a = m0. Proof. vring. Qed.
Lemma mscale_1 a : mscale 1 a = a. Proof. vring. Qed.
Lemma mscale_0 a : mscale 0 a = m0. Proof. vring. Qed.
Lemma mscale_m0 c : mscale c m0 = m0. Proof. vring. Qed.
Lemma mscale_mscale c d a : mscale c (mscale d a) = mscale (c * d) a. Proof. vring. Qed.
Lemma mscale_madd c a b : mscale c (madd a b) = madd (mscale c a) (mscale c b). Proof. vring. Qed.
Lemma mscale_plus c d a : mscale (c + d) a = madd (mscale c a) (mscale d a). Proof. vring. Qed.
Lemma mtrans_mtrans a : mtrans (mtrans a) = a. Proof. vring. Qed.
Lemma mtrans_mmul a b : mtrans (mmul a b) = mmul (mtrans b) (mtrans a). Proof. vring. Qed.
Lemma mulv_vmul m v : mulv m v = vmul v (mtrans m). Proof. vring. Qed.
Lemma mdet_mmul a b : mdet (mmul a b) = mdet a * mdet b. Proof. vring. Qed.
Lemma mdet_mtrans a : mdet (mtrans a) = mdet a. Proof. vring. Qed.
Lemma mmul_madj m : mmul m (madj m) = mscale (mdet m) mI. Proof. vring. Qed.
Lemma madj_mmul m : mmul (madj m) m = mscale (mdet m) mI. Proof. vring. Qed.
Lemma mdet_mI : mdet mI = 1. Proof. vring. Qed.
Lemma mdet_mscale c a : mdet (mscale c a) = c * c * c * mdet a. Proof. vring. Qed.

Lemma minv_Ok m i : minv m = Ok i -> mmul m i = mI /\ mmul i m = mI /\ mdet m <> 0.
Proof.
  unfold minv. destruct (Req_EM_T (mdet m) 0) as [|H]; [discriminate|].
  intros [= <-]. rewrite mmul_mscale_r, mmul_mscale_l, mmul_madj, madj_mmul, mscale_mscale.
  rewrite Rinv_l, mscale_1; auto.
Qed.

Lemma minv_exists m : mdet m <> 0 -> exists i, minv m = Ok i.
Proof. intros H; unfold minv; destruct (Req_EM_T (mdet m) 0); [tauto|eauto]. Qed.

Lemma minv_singular m : mdet m = 0 -> minv m = Err LinAlgError.
Proof. intros H; unfold minv; destruct (Req_EM_T (mdet m) 0); [auto|tauto]. Qed.

Lemma minv_unique m i j : minv m = Ok i -> mmul m j = mI -> j = i.
Proof.
  intros H Hj. apply minv_Ok in H as (H1 & H2 & _).
  rewrite <- (mmul_mI_l j), <- H2, <- mmul_assoc, Hj, mmul_mI_r; auto.
Qed.

Lemma vnorm2_nonneg a : 0 <= vnorm2 a.
Proof. unfold vnorm2, vdot; nra. Qed.

Lemma vnorm2_0 a : vnorm2 a = 0 -> a = v0.
Proof. destruct a; unfold vnorm2, vdot, v0; simpl; intros; apply V3_eq; simpl; nra. Qed.

Lemma rows_norm2_nonneg a : 0 <= rows_norm2 a.
Proof.
  unfold rows_norm2, rows_dot. rewrite map2_diag. induction a as [|v a IH]; simpl; [lra|].
  pose proof (vnorm2_nonneg v). unfold vnorm2 in *; lra.
Qed.

Lemma rows_norm2_cons v a : rows_norm2 (v :: a) = vnorm2 v + rows_norm2 a.
Proof. reflexivity. Qed.

Lemma rows_dot_cons v a w b : rows_dot (v :: a) (w :: b) = vdot v w + rows_dot a b.
Proof. reflexivity. Qed.

Lemma rows_norm2_0 a : rows_norm2 a = 0 -> Forall (fun v => v = v0) a.
Proof.
  induction a as [|v a IH]; constructor; rewrite rows_norm2_cons in H;
  pose proof (vnorm2_nonneg v); pose proof (rows_norm2_nonneg a);
  [apply vnorm2_0 | apply IH]; lra.
Qed.

Lemma rows_dot_scale_l c a b : rows_dot (rows_scale c a) b = c * rows_dot a b.
Proof.
  revert b; induction a as [|v a IH]; intros [|w b]; unfold rows_dot; simpl; try ring.
  change (vdot (vscale c v) w + rows_dot (rows_scale c a) b = c * (vdot v w + rows_dot a b)).
  rewrite IH, vdot_vscale_l; ring.
Qed.

Lemma rows_dot_comm a b : rows_dot a b = rows_dot b a.
Proof.
  revert b; induction a as [|v a IH]; intros [|w b]; auto.
  rewrite !rows_dot_cons, IH, vdot_comm; auto.
Qed.

Lemma rows_dot_scale_r c a b : rows_dot a (rows_scale c b) = c * rows_dot a b.
Proof. rewrite rows_dot_comm, rows_dot_scale_l, rows_dot_comm; auto. Qed.

Lemma rows_norm2_scale c a : rows_norm2 (rows_scale c a) = c * c * rows_norm2 a.
Proof. unfold rows_norm2. rewrite rows_dot_scale_l, rows_dot_scale_r; ring. Qed.

Lemma rows_norm_scale c a : rows_norm (rows_scale c a) = Rabs c * rows_norm a.
Proof.
  unfold rows_norm. rewrite rows_norm2_scale, sqrt_mult_alt by nra.
  f_equal. replace (c * c) with (Rsqr c) by reflexivity. apply sqrt_Rsqr_abs.
Qed.

Lemma rows_scale_scale c d a : rows_scale c (rows_scale d a) = rows_scale (c * d) a.
Proof. unfold rows_scale. rewrite map_map. apply map_ext; intros; apply vscale_vscale. Qed.

Lemma rows_scale_1 a : rows_scale 1 a = a.
Proof. unfold rows_scale. rewrite <- (map_id a) at 2. apply map_ext; intros; apply vscale_1. Qed.

Lemma rows_mul_scale c a m : rows_mul (rows_scale c a) m = rows_scale c (rows_mul a m).
Proof. unfold rows_mul, rows_scale; rewrite !map_map. apply map_ext; intros; apply vmul_vscale. Qed.

Lemma rows_mul_mmul a m n : rows_mul a (mmul m n) = rows_mul (rows_mul a m) n.
Proof. unfold rows_mul; rewrite !map_map; apply map_ext; intros; apply vmul_mmul. Qed.

Lemma rows_mul_mI a : rows_mul a mI = a.
Proof. unfold rows_mul. rewrite <- (map_id a) at 2. apply map_ext; intros; apply vmul_mI. Qed.

Lemma rows_norm_pos a : rows_norm2 a <> 0 -> 0 < rows_norm a.
Proof. intros H. apply sqrt_lt_R0. pose proof (rows_norm2_nonneg a); lra. Qed.

Lemma rows_norm_eq_0 a : rows_norm a = 0 <-> rows_norm2 a = 0.
Proof.
  unfold rows_norm; split; intros H.
  - apply sqrt_eq_0; auto. apply rows_norm2_nonneg.
  - rewrite H; apply sqrt_0.
Qed.

Lemma rows_norm_sq a : rows_norm a * rows_norm a = rows_norm2 a.
Proof. apply sqrt_sqrt, rows_norm2_nonneg. Qed.

(** Cauchy-Schwarz for lists of rows *)
Lemma rows_cauchy_schwarz a b :
  rows_dot a b * rows_dot a b <= rows_norm2 a * rows_norm2 b.
Proof.
  assert (Hq: forall t, 0 <= rows_norm2 a + 2 * t * rows_dot a b + t * t * rows_norm2 b).
  { intros t. revert b; induction a as [|v a IH]; intros [|w b].
    - unfold rows_norm2, rows_dot; simpl; nra.
    - unfold rows_dot at 1; simpl. pose proof (rows_norm2_nonneg (w :: b)).
      unfold rows_norm2 at 1, rows_dot at 1; simpl. nra.
    - unfold rows_dot, rows_norm2 at 2; simpl. pose proof (rows_norm2_nonneg (v :: a)).
      unfold rows_dot at 1; simpl. nra.
    - rewrite !rows_norm2_cons, rows_dot_cons. specialize (IH b).
      pose proof (vnorm2_nonneg (vadd v (vscale t w))) as Hv.
      replace (vnorm2 (vadd v (vscale t w))) with (vnorm2 v + 2 * t * vdot v w + t * t * vnorm2 w) in Hv
        by (unfold vnorm2, vdot, vadd, vscale; simpl; ring).
      nra. }
  pose proof (rows_norm2_nonneg a) as Ha. pose proof (rows_norm2_nonneg b) as Hb.
  destruct (Req_dec (rows_norm2 b) 0) as [E|E].
  - rewrite E. assert (rows_dot a b = 0); [|nra].
    destruct (Req_dec (rows_dot a b) 0) as [|N]; auto.
    specialize (Hq (- (rows_norm2 a + 1) / (2 * rows_dot a b))). rewrite E in Hq.
    replace (2 * (- (rows_norm2 a + 1) / (2 * rows_dot a b)) * rows_dot a b)
      with (- (rows_norm2 a + 1)) in Hq by (field; auto). lra.
  - specialize (Hq (- rows_dot a b / rows_norm2 b)).
    assert (0 < rows_norm2 b) by lra.
    apply (Rmult_le_compat_l (rows_norm2 b)) in Hq; [|lra].
    rewrite Rmult_0_r in Hq.
    replace (rows_norm2 b * (rows_norm2 a + 2 * (- rows_dot a b / rows_norm2 b) * rows_dot a b +
       - rows_dot a b / rows_norm2 b * (- rows_dot a b / rows_norm2 b) * rows_norm2 b))
      with (rows_norm2 a * rows_norm2 b - rows_dot a b * rows_dot a b) in Hq by (field; auto).
    lra.
Qed.
