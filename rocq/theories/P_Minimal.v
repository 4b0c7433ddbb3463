From Coq Require Import ZArith Reals Lra Lia Psatz List Bool.
From Verif Require Import Base LinAlg M_Validate M_StructUtils S_Lattice P_StructUtils.
Import ListNotations.
Local Open Scope R_scope.

Lemma cart_norm2_orthogonal L d : orthogonal_cell L ->
  vnorm2 (vmul d L) = vx d * vx d * vnorm2 (r0 L) + vy d * vy d * vnorm2 (r1 L) + vz d * vz d * vnorm2 (r2 L).
Proof.
  intros (H1 & H2 & H3).
  transitivity (vx d * vx d * vnorm2 (r0 L) + vy d * vy d * vnorm2 (r1 L) + vz d * vz d * vnorm2 (r2 L)
    + 2 * (vx d * vy d * vdot (r0 L) (r1 L) + vx d * vz d * vdot (r0 L) (r2 L) + vy d * vz d * vdot (r1 L) (r2 L))).
  - destruct d, L as [[] [] []]; vunf; ring.
  - rewrite H1, H2, H3; ring.
Qed.

Lemma sq_le_abs a b : Rabs a <= Rabs b -> a * a <= b * b.
Proof.
  intros H. assert (0 <= Rabs a) by apply Rabs_pos.
  replace (a * a) with (Rabs a * Rabs a) by (rewrite <- Rabs_mult; apply Rabs_right; nra).
  replace (b * b) with (Rabs b * Rabs b) by (rewrite <- Rabs_mult; apply Rabs_right; nra).
  nra.
Qed.

Lemma half_shortest_orthogonal L a d e :
  orthogonal_cell L -> vall2 half_image a d -> vcongr a e ->
  vnorm2 (vmul d L) <= vnorm2 (vmul e L).
Proof.
  intros HL (H1 & H2 & H3) (G1 & G2 & G3). rewrite !cart_norm2_orthogonal by auto.
  pose proof (sq_le_abs _ _ (half_minimal _ _ _ H1 G1)).
  pose proof (sq_le_abs _ _ (half_minimal _ _ _ H2 G2)).
  pose proof (sq_le_abs _ _ (half_minimal _ _ _ H3 G3)).
  pose proof (vnorm2_nonneg (r0 L)); pose proof (vnorm2_nonneg (r1 L)); pose proof (vnorm2_nonneg (r2 L)).
  nra.
Qed.

Lemma calc_displacement_shortest L p q d :
  orthogonal_cell L -> length p = length q -> calc_displacement p q = Ok d ->
  forall e, same_mod_lattice (rows_sub q p) e ->
  Forall2 (fun a b => vnorm2 (vmul a L) <= vnorm2 (vmul b L)) d e.
Proof.
  intros HL Hlen Hd e He. rewrite calc_displacement_eq in Hd by auto. injection Hd as <-.
  induction He; simpl; constructor; auto.
  eapply half_shortest_orthogonal; eauto. apply vall2_vmap, wrapd_image.
Qed.

Definition skew_cell : M3 := mkM (mkV 1 0 0) (mkV 1 (/10) 0) (mkV 0 0 1).

Lemma calc_displacement_not_shortest :
  exists (L : M3) (p q d e : V3),
    mdet L <> 0 /\ calc_displacement [p] [q] = Ok [d] /\ vcongr (vsub q p) e /\
    vnorm2 (vmul e L) < vnorm2 (vmul d L).
Proof.
  exists skew_cell, v0, (mkV (2/5) (2/5) 0), (mkV (2/5) (2/5) 0), (mkV (-3/5) (2/5) 0).
  split; [unfold skew_cell; vunf; lra|]. split; [|split].
  - rewrite calc_displacement_eq by auto. unfold rows_sub; simpl. f_equal. f_equal.
    rewrite vmap_wrapd_id; [apply V3_eq; simpl; lra|]. repeat split; simpl; lra.
  - repeat split; simpl; [exists 1%Z|exists 0%Z|exists 0%Z]; lra.
  - unfold skew_cell; vunf; lra.
Qed.

(** ** The index-level reading of antisymmetry *)
Lemma calc_displacement_swap p q d :
  length p = length q -> calc_displacement p q = Ok d ->
  exists d', calc_displacement q p = Ok d' /\
  Forall2 (vall2 (fun x y => (x <> / 2 -> y = - x) /\ (x = / 2 -> y = / 2))) d d'.
Proof.
  intros Hlen Hd. rewrite calc_displacement_eq in Hd by auto. injection Hd as <-.
  eexists. rewrite calc_displacement_eq by auto. split; [reflexivity|].
  clear - Hlen. revert q Hlen; induction p as [|a p IH]; intros [|b q] H; try discriminate; simpl; constructor.
  - repeat split; simpl; intros E.
    all: match goal with
         | |- wrapd (?u - ?v) = - wrapd (?v - ?u) => replace (u - v) with (- (v - u)) by ring; apply wrapd_opp; auto
         | |- wrapd (?u - ?v) = / 2 => replace (u - v) with (- (v - u)) by ring; apply wrapd_opp_half; auto
         end.
  - apply IH; auto.
Qed.

(** ** Validation *)
Lemma verify_positions_spec a :
  verify_positions a = Ok tt <->
  (exists n, nd_shape a = [n; 3%nat]) /\ (forall x, In (Some x) (nd_data a) -> 0 <= x <= 1).
Proof.
  unfold verify_positions.
  destruct (verify_ndarray_shape_spec (nd_shape a) [None; Some 3%nat]) as [H1 H2].
  destruct (verify_ndarray_shape (nd_shape a) [None; Some 3%nat]) as [[]|e] eqn:E.
  - destruct H1 as [H1 _]. specialize (H1 eq_refl).
    assert (Hs: exists n, nd_shape a = [n; 3%nat]).
    { inversion H1 as [|n ? l ? _ H1']; subst. inversion H1' as [|m ? l' ? Hm H1'']; subst. inversion H1''; subst.
      exists n; auto. }
    destruct (existsb out_of_range (nd_data a)) eqn:X.
    + split; [discriminate|]. intros [_ H]. apply existsb_exists in X as (o & Ho & X).
      destruct o as [x|]; [|discriminate]. specialize (H x Ho). simpl in X.
      apply orb_true_iff in X as [X|X]; apply Rltb_true in X; lra.
    + split; auto. intros _. split; auto. intros x Hx.
      destruct (out_of_range (Some x)) eqn:Y.
      * assert (existsb out_of_range (nd_data a) = true) by (apply existsb_exists; eauto). congruence.
      * simpl in Y. apply orb_false_iff in Y as [Y1 Y2]. apply Rltb_false in Y1, Y2. lra.
  - split; [discriminate|]. intros [(n & Hn) _]. destruct H1 as [_ H1]. rewrite Hn in H1.
    discriminate H1. repeat constructor.
Qed.

Lemma verify_positions_err a : verify_positions a <> Ok tt -> verify_positions a = Err ValueError.
Proof.
  unfold verify_positions.
  destruct (verify_ndarray_shape_spec (nd_shape a) [None; Some 3%nat]) as [_ H2].
  destruct (verify_ndarray_shape (nd_shape a) [None; Some 3%nat]) as [[]|e].
  - destruct (existsb _ _); auto; tauto.
  - intros _. apply H2. discriminate.
Qed.

Lemma nd_of_rows_ok p :
  verify_positions (nd_of_rows p) = Ok tt <-> positions_ok p = true.
Proof.
  rewrite verify_positions_spec, positions_ok_spec. split.
  - intros [_ H]. apply Forall_forall. intros v Hv.
    assert (G: forall x, In (Some x) [Some (vx v); Some (vy v); Some (vz v)] -> 0 <= x <= 1)
      by (intros x Hx; apply H; simpl; apply in_flat_map; eauto).
    split; [|split]; apply G; simpl; auto.
  - intros H. split; [eexists; reflexivity|]. intros x Hx. simpl in Hx. apply in_flat_map in Hx as (v & Hv & Hx).
    rewrite Forall_forall in H. destruct (H v Hv) as (A & B & C).
    simpl in Hx. destruct Hx as [[= <-]|[[= <-]|[[= <-]|[]]]]; auto.
Qed.

Lemma rows_of_nd_of_rows p : rows_of (nd_data (nd_of_rows p)) = Some p.
Proof. induction p as [|[x y z] p IH]; simpl in *; auto. rewrite IH; auto. Qed.

Lemma transform_nd_ok_iff a rot t :
  (exists r, transform_positions_nd a rot t = Ok r) <->
  (exists n, nd_shape a = [n; 3%nat]) /\ (forall x, In (Some x) (nd_data a) -> 0 <= x <= 1).
Proof.
  rewrite <- verify_positions_spec. unfold transform_positions_nd.
  destruct (verify_positions a) as [[]|e] eqn:E; simpl.
  - split; auto. intros _. destruct (rows_of (nd_data a)) as [p|] eqn:R; [|eauto].
    assert (positions_ok p = true).
    { apply positions_ok_spec. apply verify_positions_spec in E as [_ H].
      clear - H R. revert p R H.
      assert (G: forall k l p, (length l <= k)%nat -> rows_of l = Some p ->
                 (forall x, In (Some x) l -> 0 <= x <= 1) -> Forall (vall (fun x => 0 <= x <= 1)) p).
      { induction k; intros l p Hk R H.
        - destruct l; simpl in *; [|lia]. injection R as <-; constructor.
        - destruct l as [|[x|] [|[y|] [|[z|] l]]]; simpl in R; try discriminate.
          + injection R as <-; constructor.
          + destruct (rows_of l) as [q|] eqn:Q; [|discriminate]. injection R as <-.
            constructor; [split; [|split]; apply H; simpl; auto|].
            apply (IHk l); auto; [simpl in Hk; lia|]. intros; apply H; simpl; auto. }
      intros p R H. eapply G; eauto. }
    unfold transform_positions. rewrite H. rewrite displace_positions_one. simpl. eauto.
  - split; [intros [r H]; discriminate | discriminate].
Qed.

Lemma transform_nd_err a rot t e :
  transform_positions_nd a rot t = Err e -> e = ValueError.
Proof.
  unfold transform_positions_nd. destruct (verify_positions a) as [[]|e'] eqn:E; simpl.
  - destruct (rows_of (nd_data a)); [|discriminate].
    unfold transform_positions. destruct (positions_ok l); simpl; [|congruence].
    rewrite displace_positions_one. discriminate.
  - intros [= <-]. assert (verify_positions a = Err ValueError); [|congruence].
    apply verify_positions_err. rewrite E; discriminate.
Qed.

Lemma verify_list_len_spec len n :
  (verify_list_len len (Some n) = Ok tt <-> len = n /\ (n <= 256)%nat) /\
  (verify_list_len len (Some n) <> Ok tt -> verify_list_len len (Some n) = Err ValueError) /\
  verify_list_len len None = Ok tt.
Proof.
  unfold verify_list_len, int_is. split; [|split; [|reflexivity]].
  - destruct ((Z.of_nat len =? Z.of_nat n) && ((-5 <=? Z.of_nat len) && (Z.of_nat len <=? 256)))%Z eqn:E.
    + rewrite !andb_true_iff, Z.eqb_eq, !Z.leb_le in E. split; auto. intros _; lia.
    + split; [discriminate|]. intros [-> H].
      rewrite Z.eqb_refl in E. simpl in E. apply andb_false_iff in E as [E|E]; apply Z.leb_gt in E; lia.
  - destruct (_ && _)%bool; auto. tauto.
Qed.
