From Coq Require Import ZArith Reals Lra Lia Psatz List Bool.
From Verif Require Import Base LinAlg M_Validate M_StructUtils S_Lattice.
Import ListNotations.
Local Open Scope R_scope.

Lemma rfloor_spec x : IZR (rfloor x) <= x < IZR (rfloor x) + 1.
Proof.
  unfold rfloor. rewrite minus_IZR. destruct (archimed x) as [H1 H2]. lra.
Qed.

Lemma IZR_small_0 k : -1 < IZR k < 1 -> k = 0%Z.
Proof.
  intros [H1 H2]. replace (-1) with (IZR (-1)) in H1 by reflexivity.
  replace 1 with (IZR 1) in H2 by reflexivity.
  apply lt_IZR in H1. apply lt_IZR in H2. lia.
Qed.

Lemma congr1_refl x : congr1 x x.
Proof. exists 0%Z. simpl; lra. Qed.
Lemma congr1_sym x y : congr1 x y -> congr1 y x.
Proof. intros [k H]; exists (- k)%Z; rewrite opp_IZR; lra. Qed.
Lemma congr1_trans x y z : congr1 x y -> congr1 y z -> congr1 x z.
Proof. intros [k H] [l G]; exists (k + l)%Z; rewrite plus_IZR; lra. Qed.
Lemma congr1_plus x y a b : congr1 x y -> congr1 a b -> congr1 (x + a) (y + b).
Proof. intros [k H] [l G]; exists (k + l)%Z; rewrite plus_IZR; lra. Qed.
Lemma congr1_minus x y a b : congr1 x y -> congr1 a b -> congr1 (x - a) (y - b).
Proof. intros [k H] [l G]; exists (k - l)%Z; rewrite minus_IZR; lra. Qed.
Lemma congr1_opp x y : congr1 x y -> congr1 (- x) (- y).
Proof. intros [k H]; exists (- k)%Z; rewrite opp_IZR; lra. Qed.
Lemma congr1_mult_int x y m : congr1 x y -> is_int m -> congr1 (x * m) (y * m).
Proof. intros [k H] [l ->]; exists (k * l)%Z; rewrite mult_IZR, <- H; ring. Qed.
Lemma congr1_shift x k : congr1 (x + IZR k) x.
Proof. exists k; lra. Qed.

Lemma congr1_close_eq x y : congr1 x y -> -1 < x - y < 1 -> x = y.
Proof. intros [k H] Hr. rewrite H in Hr. apply IZR_small_0 in Hr. subst. simpl in H. lra. Qed.

Lemma wrap_image x : cell_image x (wrap x).
Proof.
  unfold wrap. pose proof (rfloor_spec x). split; [|lra].
  exists (rfloor x). lra.
Qed.

Lemma cell_image_unique x r s : cell_image x r -> cell_image x s -> r = s.
Proof.
  intros [H1 ?] [H2 ?]. apply congr1_close_eq; [|lra].
  eapply congr1_trans; [apply congr1_sym|]; eauto.
Qed.

Lemma wrap_unique x r : cell_image x r -> r = wrap x.
Proof. intros H. eapply cell_image_unique; eauto. apply wrap_image. Qed.

Lemma wrap_congr x : congr1 x (wrap x).
Proof. apply wrap_image. Qed.

Lemma wrap_range x : 0 <= wrap x < 1.
Proof. apply wrap_image. Qed.

Lemma wrap_proper x y : congr1 x y -> wrap x = wrap y.
Proof.
  intros H. symmetry. apply wrap_unique. split; [|apply wrap_range].
  eapply congr1_trans; eauto. apply wrap_congr.
Qed.

Lemma wrap_id x : 0 <= x < 1 -> wrap x = x.
Proof. intros H. symmetry; apply wrap_unique. split; auto. apply congr1_refl. Qed.

Lemma wrapd_image x : half_image x (wrapd x).
Proof.
  unfold wrapd, rmod1. pose proof (rfloor_spec x).
  destruct (Rltb (/2) (x - IZR (rfloor x))) eqn:E.
  - apply Rltb_true in E. split; [exists (rfloor x + 1)%Z; rewrite plus_IZR; simpl; lra|lra].
  - apply Rltb_false in E. split; [exists (rfloor x); lra|lra].
Qed.

Lemma half_image_unique x r s : half_image x r -> half_image x s -> r = s.
Proof.
  intros [H1 ?] [H2 ?]. apply congr1_close_eq; [|lra].
  eapply congr1_trans; [apply congr1_sym|]; eauto.
Qed.

Lemma wrapd_unique x r : half_image x r -> r = wrapd x.
Proof. intros H. eapply half_image_unique; eauto. apply wrapd_image. Qed.

Lemma wrapd_congr x : congr1 x (wrapd x).
Proof. apply wrapd_image. Qed.
Lemma wrapd_range x : - / 2 < wrapd x <= / 2.
Proof. apply wrapd_image. Qed.

Lemma wrapd_proper x y : congr1 x y -> wrapd x = wrapd y.
Proof.
  intros H. symmetry. apply wrapd_unique. split; [|apply wrapd_range].
  eapply congr1_trans; eauto. apply wrapd_congr.
Qed.

Lemma wrapd_id x : - / 2 < x <= / 2 -> wrapd x = x.
Proof. intros H. symmetry; apply wrapd_unique. split; auto. apply congr1_refl. Qed.

Lemma wrapd_0 : wrapd 0 = 0.
Proof. apply wrapd_id; lra. Qed.

Lemma half_minimal x r y : half_image x r -> congr1 x y -> Rabs r <= Rabs y.
Proof.
  intros [H1 Hr] H2.
  assert (H: congr1 y r) by (eapply congr1_trans; [apply congr1_sym|]; eauto).
  destruct H as [k H]. destruct (Z.eq_dec k 0) as [->|N].
  - simpl in H. replace y with r by lra. lra.
  - assert (Hk: IZR k <= -1 \/ 1 <= IZR k).
    { destruct (Z_lt_le_dec k 0); [left|right].
      - replace (-1) with (IZR (-1)) by reflexivity. apply IZR_le; lia.
      - replace 1 with (IZR 1) by reflexivity. apply IZR_le; lia. }
    unfold Rabs. destruct (Rcase_abs r), (Rcase_abs y); lra.
Qed.

(** ** Vectors *)
Lemma vall2_vmap (P : R -> R -> Prop) f v : (forall x, P x (f x)) -> vall2 P v (vmap f v).
Proof. intros H; destruct v; repeat split; simpl; auto. Qed.

Lemma vall2_unique (P : R -> R -> Prop) f v w :
  (forall x r, P x r -> r = f x) -> vall2 P v w -> w = vmap f v.
Proof. intros H (A & B & C); apply V3_eq; simpl; auto. Qed.

Lemma vcongr_refl a : vcongr a a.
Proof. repeat split; apply congr1_refl. Qed.
Lemma vcongr_sym a b : vcongr a b -> vcongr b a.
Proof. intros (A & B & C); repeat split; apply congr1_sym; auto. Qed.
Lemma vcongr_trans a b c : vcongr a b -> vcongr b c -> vcongr a c.
Proof. intros (A & B & C) (D & E & F); repeat split; eapply congr1_trans; eauto. Qed.
Lemma vcongr_vadd a b c d : vcongr a b -> vcongr c d -> vcongr (vadd a c) (vadd b d).
Proof. intros (A & B & C) (D & E & F); repeat split; simpl; apply congr1_plus; auto. Qed.
Lemma vcongr_vsub a b c d : vcongr a b -> vcongr c d -> vcongr (vsub a c) (vsub b d).
Proof. intros (A & B & C) (D & E & F); repeat split; simpl; apply congr1_minus; auto. Qed.
Lemma vcongr_wrap a : vcongr a (vmap wrap a).
Proof. repeat split; simpl; apply wrap_congr. Qed.
Lemma vcongr_wrapd a : vcongr a (vmap wrapd a).
Proof. repeat split; simpl; apply wrapd_congr. Qed.
Lemma vcongr_vmul a b m : vcongr a b -> integer_matrix m -> vcongr (vmul a m) (vmul b m).
Proof.
  intros (A & B & C) ((? & ? & ?) & (? & ? & ?) & (? & ? & ?)).
  repeat split; simpl; repeat apply congr1_plus; apply congr1_mult_int; auto.
Qed.
Lemma vmap_wrap_proper a b : vcongr a b -> vmap wrap a = vmap wrap b.
Proof. intros (A & B & C); apply V3_eq; simpl; apply wrap_proper; auto. Qed.
Lemma vmap_wrapd_proper a b : vcongr a b -> vmap wrapd a = vmap wrapd b.
Proof. intros (A & B & C); apply V3_eq; simpl; apply wrapd_proper; auto. Qed.
Lemma vmap_wrapd_id a : vall (fun x => - / 2 < x <= / 2) a -> vmap wrapd a = a.
Proof. intros (A & B & C); apply V3_eq; simpl; apply wrapd_id; auto. Qed.
Lemma vmap_wrap_id a : vall (fun x => 0 <= x < 1) a -> vmap wrap a = a.
Proof. intros (A & B & C); apply V3_eq; simpl; apply wrap_id; auto. Qed.
Lemma vall_wrapd a : vall (fun x => - / 2 < x <= / 2) (vmap wrapd a).
Proof. repeat split; apply wrapd_range. Qed.
Lemma vall_wrap a : vall (fun x => 0 <= x < 1) (vmap wrap a).
Proof. repeat split; apply wrap_range. Qed.

Lemma Forall2_map_r {A B} (P : A -> B -> Prop) f l : (forall a, P a (f a)) -> Forall2 P l (map f l).
Proof. intros; induction l; simpl; constructor; auto. Qed.

Lemma apply_pbc_spec p q : q = apply_pbc p <-> cell_images p q.
Proof.
  split.
  - intros ->. apply Forall2_map_r. intros; apply vall2_vmap, wrap_image.
  - intros H; induction H; simpl; auto.
    f_equal; auto. eapply vall2_unique; eauto. apply wrap_unique.
Qed.

Lemma apply_pbc_displacement_spec p q : q = apply_pbc_displacement p <-> half_images p q.
Proof.
  split.
  - intros ->. apply Forall2_map_r. intros; apply vall2_vmap, wrapd_image.
  - intros H; induction H; simpl; auto.
    f_equal; auto. eapply vall2_unique; eauto. apply wrapd_unique.
Qed.

Lemma apply_pbc_length p : length (apply_pbc p) = length p.
Proof. apply map_length. Qed.
Lemma apply_pbc_displacement_length p : length (apply_pbc_displacement p) = length p.
Proof. apply map_length. Qed.

Lemma apply_pbc_proper p q : same_mod_lattice p q -> apply_pbc p = apply_pbc q.
Proof. intros H; induction H; simpl; auto. f_equal; auto. apply vmap_wrap_proper; auto. Qed.

Lemma apply_pbc_displacement_proper p q :
  same_mod_lattice p q -> apply_pbc_displacement p = apply_pbc_displacement q.
Proof. intros H; induction H; simpl; auto. f_equal; auto. apply vmap_wrapd_proper; auto. Qed.

Lemma same_apply_pbc p : same_mod_lattice p (apply_pbc p).
Proof. apply Forall2_map_r, vcongr_wrap. Qed.
Lemma same_apply_pbc_displacement p : same_mod_lattice p (apply_pbc_displacement p).
Proof. apply Forall2_map_r, vcongr_wrapd. Qed.
Lemma same_refl p : same_mod_lattice p p.
Proof. induction p; constructor; auto. apply vcongr_refl. Qed.
Lemma same_sym p q : same_mod_lattice p q -> same_mod_lattice q p.
Proof. intros H; induction H; constructor; auto. apply vcongr_sym; auto. Qed.
Lemma same_trans p q r : same_mod_lattice p q -> same_mod_lattice q r -> same_mod_lattice p r.
Proof.
  intros H; revert r; induction H; intros r G; inversion G; subst; constructor.
  - eapply vcongr_trans; eauto.
  - apply IHForall2; auto.
Qed.
Lemma same_length p q : same_mod_lattice p q -> length p = length q.
Proof. intros H; induction H; simpl; auto. Qed.
Lemma same_map2 (f : V3 -> V3 -> V3) p q p' q' :
  (forall a b c d, vcongr a b -> vcongr c d -> vcongr (f a c) (f b d)) ->
  same_mod_lattice p p' -> same_mod_lattice q q' ->
  same_mod_lattice (map2 f p q) (map2 f p' q').
Proof.
  intros Hf H; revert q q'; induction H; intros q q' G; simpl; [constructor|].
  destruct G; constructor; auto. apply IHForall2; auto.
Qed.

Lemma displace_positions_eq p d : length p = length d ->
  displace_positions p d = Ok (apply_pbc (rows_add p d)).
Proof.
  intros H. unfold displace_positions. rewrite bcast2_eq.
  - simpl. f_equal. apply apply_pbc_proper. apply same_map2; [apply vcongr_vadd| |].
    + apply same_sym, same_apply_pbc.
    + apply same_sym, same_apply_pbc_displacement.
  - rewrite apply_pbc_length, apply_pbc_displacement_length; auto.
Qed.

Lemma displace_positions_one p t :
  displace_positions p [t] = Ok (apply_pbc (map (fun v => vadd v t) p)).
Proof.
  unfold displace_positions. simpl apply_pbc_displacement. rewrite bcast2_one_r. simpl. f_equal.
  apply apply_pbc_proper. unfold apply_pbc; rewrite map_map.
  induction p; simpl; constructor; auto.
  apply vcongr_vadd; [apply vcongr_sym, vcongr_wrap|apply vcongr_sym, vcongr_wrapd].
Qed.

Lemma calc_displacement_eq p q : length p = length q ->
  calc_displacement p q = Ok (apply_pbc_displacement (rows_sub q p)).
Proof.
  intros H. unfold calc_displacement. rewrite bcast2_eq.
  - simpl. f_equal. apply apply_pbc_displacement_proper.
    apply same_map2; [apply vcongr_vsub| |]; apply same_sym, same_apply_pbc.
  - rewrite !apply_pbc_length; auto.
Qed.

Lemma rows_sub_add p d : length p = length d -> rows_sub (rows_add p d) p = d.
Proof.
  revert d; induction p; intros [|b d]; simpl; intros; try discriminate; auto.
  unfold rows_sub, rows_add in *; simpl. rewrite IHp by lia. f_equal. vring.
Qed.
Lemma rows_add_sub p q : length p = length q -> rows_add p (rows_sub q p) = q.
Proof.
  revert q; induction p; intros [|b d]; simpl; intros; try discriminate; auto.
  unfold rows_sub, rows_add in *; simpl. rewrite IHp by lia. f_equal. vring.
Qed.
Lemma rows_sub_length p q : length p = length q -> length (rows_sub p q) = length p.
Proof. apply map2_length_eq. Qed.
Lemma rows_add_length p q : length p = length q -> length (rows_add p q) = length p.
Proof. apply map2_length_eq. Qed.

Lemma calc_after_displace p d : length p = length d ->
  exists q, displace_positions p d = Ok q /\ calc_displacement p q = Ok (apply_pbc_displacement d).
Proof.
  intros H. exists (apply_pbc (rows_add p d)). split; [apply displace_positions_eq; auto|].
  rewrite calc_displacement_eq by (rewrite apply_pbc_length, rows_add_length; auto).
  f_equal. apply apply_pbc_displacement_proper.
  rewrite <- (rows_sub_add p d H) at 2.
  apply same_map2; [apply vcongr_vsub| |].
  - apply same_sym, same_apply_pbc.
  - apply same_refl.
Qed.

Lemma displace_after_calc p q : length p = length q ->
  exists d, calc_displacement p q = Ok d /\ displace_positions p d = Ok (apply_pbc q).
Proof.
  intros H. exists (apply_pbc_displacement (rows_sub q p)).
  split; [apply calc_displacement_eq; auto|].
  rewrite displace_positions_eq by (rewrite apply_pbc_displacement_length, rows_sub_length; auto; lia).
  f_equal. apply apply_pbc_proper.
  rewrite <- (rows_add_sub p q H) at 2.
  apply same_map2; [apply vcongr_vadd| |].
  - apply same_refl.
  - apply same_sym, same_apply_pbc_displacement.
Qed.

Lemma calc_displacement_periodic p p' q q' :
  same_mod_lattice p p' -> same_mod_lattice q q' ->
  calc_displacement p q = calc_displacement p' q'.
Proof.
  intros H G. unfold calc_displacement. rewrite (apply_pbc_proper _ _ H), (apply_pbc_proper _ _ G). auto.
Qed.
Lemma displace_positions_periodic p p' d d' :
  same_mod_lattice p p' -> same_mod_lattice d d' ->
  displace_positions p d = displace_positions p' d'.
Proof.
  intros H G. unfold displace_positions.
  rewrite (apply_pbc_proper _ _ H), (apply_pbc_displacement_proper _ _ G). auto.
Qed.

Lemma displace_mismatch p d :
  length p <> length d -> length p <> 1%nat -> length d <> 1%nat ->
  displace_positions p d = Err ValueError.
Proof.
  intros H Hp Hd. unfold displace_positions, bcast2.
  rewrite apply_pbc_length, apply_pbc_displacement_length.
  destruct (Nat.eqb_spec (length p) (length d)); [tauto|].
  destruct p as [|? [|? ?]], d as [|? [|? ?]]; simpl in *; try tauto; auto.
Qed.

(** ** Antisymmetry *)
Lemma wrapd_opp x : wrapd x <> / 2 -> wrapd (- x) = - wrapd x.
Proof.
  intros H. symmetry; apply wrapd_unique. pose proof (wrapd_range x).
  split; [|lra]. apply congr1_opp, wrapd_congr.
Qed.

Lemma wrapd_opp_half x : wrapd x = / 2 -> wrapd (- x) = / 2.
Proof.
  intros H. symmetry; apply wrapd_unique. split; [|lra].
  destruct (wrapd_congr x) as [k Hk]. exists (- k - 1)%Z. rewrite minus_IZR, opp_IZR. lra.
Qed.

(** ** transform_positions *)
Lemma coord_ok_spec x : coord_ok x = true <-> 0 <= x <= 1.
Proof.
  unfold coord_ok. rewrite negb_true_iff, orb_false_iff, !Rltb_false. tauto.
Qed.

Lemma positions_ok_spec p : positions_ok p = true <-> Forall (vall (fun x => 0 <= x <= 1)) p.
Proof.
  unfold positions_ok. rewrite forallb_forall, Forall_forall.
  split; intros H v Hv; specialize (H v Hv); unfold vallb, vall in *.
  - apply andb_true_iff in H as [H1 H]. apply andb_true_iff in H as [H2 H3].
    rewrite coord_ok_spec in *; auto.
  - rewrite !andb_true_iff, !coord_ok_spec. tauto.
Qed.

Lemma transform_ok_eq p rot t :
  positions_ok p = true -> integer_matrix rot ->
  transform_positions p rot t = Ok (apply_pbc (map (fun v => vadd (vmul v rot) t) p)).
Proof.
  intros H Hr. unfold transform_positions. rewrite H, displace_positions_one. f_equal.
  apply apply_pbc_proper. unfold apply_pbc, rows_mul. rewrite !map_map.
  clear H; induction p; simpl; constructor; auto.
  apply vcongr_vadd; [|apply vcongr_refl].
  apply vcongr_sym. eapply vcongr_trans; [|apply vcongr_wrap].
  apply vcongr_vmul; auto. apply vcongr_wrap.
Qed.

(** general rotations: only the wrapped positions are rotated *)
Lemma transform_ok_gen p rot t :
  positions_ok p = true ->
  transform_positions p rot t = Ok (apply_pbc (map (fun v => vadd (vmul (vmap wrap v) rot) t) p)).
Proof.
  intros H. unfold transform_positions. rewrite H, displace_positions_one. f_equal.
  apply apply_pbc_proper. unfold apply_pbc, rows_mul. rewrite !map_map.
  clear H; induction p; simpl; constructor; auto.
  apply vcongr_vadd; [|apply vcongr_refl].
  apply vcongr_sym, vcongr_wrap.
Qed.

Lemma apply_pbc_positions_ok p : positions_ok (apply_pbc p) = true.
Proof.
  apply positions_ok_spec. apply Forall_forall. intros v Hv.
  apply in_map_iff in Hv as (w & <- & _).
  pose proof (wrap_range (vx w)); pose proof (wrap_range (vy w)); pose proof (wrap_range (vz w)).
  repeat split; simpl; lra.
Qed.

Lemma transform_length p rot t q : transform_positions p rot t = Ok q -> length q = length p.
Proof.
  unfold transform_positions. destruct (positions_ok p); [|discriminate].
  rewrite displace_positions_one. intros [= <-].
  unfold rows_mul; rewrite apply_pbc_length, map_length, apply_pbc_length, map_length, apply_pbc_length; auto.
Qed.

Lemma transform_compose p ra ta rb tb q :
  integer_matrix ra -> integer_matrix rb ->
  transform_positions p ra ta = Ok q ->
  transform_positions q rb tb = transform_positions p (mmul ra rb) (vadd (vmul ta rb) tb).
Proof.
  intros Ha Hb Hq.
  assert (Hp: positions_ok p = true).
  { unfold transform_positions in Hq. destruct (positions_ok p); auto; discriminate. }
  rewrite transform_ok_eq in Hq by auto. injection Hq as <-.
  assert (Hab: integer_matrix (mmul ra rb)).
  { destruct Ha as ((?&?&?)&(?&?&?)&(?&?&?)), Hb as ((?&?&?)&(?&?&?)&(?&?&?)).
    assert (P: forall a b, is_int a -> is_int b -> is_int (a + b))
      by (intros ? ? [i ->] [j ->]; exists (i+j)%Z; rewrite plus_IZR; auto).
    assert (M: forall a b, is_int a -> is_int b -> is_int (a * b))
      by (intros ? ? [i ->] [j ->]; exists (i*j)%Z; rewrite mult_IZR; auto).
    repeat split; simpl; repeat apply P; apply M; auto. }
  rewrite !transform_ok_eq; auto using apply_pbc_positions_ok.
  f_equal. apply apply_pbc_proper. unfold apply_pbc. rewrite !map_map.
  clear Hp Hab; induction p as [|v p IH]; simpl; constructor; auto.
  replace (vadd (vmul v (mmul ra rb)) (vadd (vmul ta rb) tb))
    with (vadd (vmul (vadd (vmul v ra) ta) rb) tb) by vring.
  apply vcongr_vadd; [|apply vcongr_refl]. apply vcongr_vmul; auto.
  apply vcongr_sym, vcongr_wrap.
Qed.

Lemma mI_integer : integer_matrix mI.
Proof.
  repeat split; simpl; try (exists 0%Z; reflexivity); exists 1%Z; reflexivity.
Qed.

Lemma transform_identity p : positions_ok p = true ->
  transform_positions p mI v0 = Ok (apply_pbc p).
Proof.
  intros H. rewrite transform_ok_eq by auto using mI_integer. f_equal. apply apply_pbc_proper.
  clear; induction p; simpl; constructor; auto.
  rewrite vmul_mI, vadd_0_r. apply vcongr_refl.
Qed.

(** ** validators *)
Lemma dims_match_spec dims spec : length dims = length spec ->
  (dims_match dims spec = true <->
   Forall2 (fun d s => match s with Some n => d = n | None => True end) dims spec).
Proof.
  revert spec; induction dims as [|d dims IH]; intros [|s spec]; simpl; try discriminate; intros H.
  - split; auto.
  - injection H as H. specialize (IH spec H). destruct s as [n|].
    + destruct (Nat.eqb_spec d n).
      * rewrite IH. split; [constructor; auto | intros G; inversion G; auto].
      * split; [discriminate|]. intros G; inversion G; tauto.
    + rewrite IH. split; [constructor; auto | intros G; inversion G; auto].
Qed.

Lemma verify_ndarray_shape_spec dims spec :
  (verify_ndarray_shape dims spec = Ok tt <->
   Forall2 (fun d s => match s with Some n => d = n | None => True end) dims spec) /\
  (verify_ndarray_shape dims spec <> Ok tt -> verify_ndarray_shape dims spec = Err ValueError).
Proof.
  unfold verify_ndarray_shape. destruct (Nat.eqb_spec (length spec) (length dims)) as [E|E]; simpl.
  - pose proof (dims_match_spec dims spec (eq_sym E)) as H. destruct (dims_match dims spec); split; auto.
    + split; intros; auto. apply H; auto.
    + intros G; congruence.
    + split; intros G; [discriminate|]. apply H in G. discriminate.
  - split; auto. split; [discriminate|].
    intros H. exfalso; apply E. clear E. induction H; simpl; auto.
Qed.
