From Coq Require Import ZArith Reals Lra Lia Psatz Bool List.
From Verif Require Import Base LinAlg M_Symmetry S_Vec.
Import ListNotations.
Local Open Scope R_scope.

Lemma ldot_inner v w : ldot v w = inner v w.
Proof.
  revert w; induction v as [|x v IH]; intros [|y w]; unfold ldot in *; simpl; auto.
  rewrite IH; auto.
Qed.
Lemma lnorm_magnitude v : lnorm v = magnitude v.
Proof. unfold lnorm, lnorm2, magnitude. rewrite ldot_inner; auto. Qed.

Lemma inner_comm v w : inner v w = inner w v.
Proof. revert w; induction v; intros [|y w]; simpl; auto. rewrite IHv; ring. Qed.
Lemma inner_self_nonneg v : 0 <= inner v v.
Proof. induction v; simpl; nra. Qed.
Lemma inner_scale_l c v w : inner (map (fun x => c * x) v) w = c * inner v w.
Proof. revert w; induction v; intros [|y w]; simpl; try ring. rewrite IHv; ring. Qed.
Lemma inner_scale_r c v w : inner v (map (fun x => c * x) w) = c * inner v w.
Proof. rewrite inner_comm, inner_scale_l, inner_comm; auto. Qed.
Lemma inner_self_zero v : inner v v = 0 <-> ~ nonzero_vec v.
Proof.
  induction v as [|x v IH]; simpl.
  - split; auto. intros _ (x & [] & _).
  - pose proof (inner_self_nonneg v). split.
    + intros E (y & [<-|Hy] & N); [nra|]. apply IH; [nra|exists y; auto].
    + intros N. assert (x = 0).
      { destruct (Req_dec x 0); auto. exfalso; apply N; exists x; simpl; auto. }
      rewrite (proj2 IH); [subst; ring|]. intros (y & Hy & Ny). apply N. exists y; simpl; auto.
Qed.
Lemma nonzero_inner v : nonzero_vec v <-> inner v v <> 0.
Proof.
  split; intros H.
  - intros E; apply inner_self_zero in E; auto.
  - destruct (Req_dec (inner v v) 0) as [E|E]; [tauto|]. clear H.
    induction v as [|x v IH]; simpl in E; [lra|].
    destruct (Req_dec x 0) as [->|N]; [|exists x; simpl; auto].
    destruct IH as (y & Hy & Ny); [lra|]. exists y; simpl; auto.
Qed.
Lemma magnitude_pos v : nonzero_vec v -> 0 < magnitude v.
Proof. intros H; apply nonzero_inner in H. apply sqrt_lt_R0. pose proof (inner_self_nonneg v); lra. Qed.
Lemma magnitude_zero v : magnitude v = 0 <-> ~ nonzero_vec v.
Proof.
  split; intros H.
  - intros N. apply magnitude_pos in N. lra.
  - apply inner_self_zero in H. unfold magnitude. rewrite H. apply sqrt_0.
Qed.
Lemma magnitude_sq v : magnitude v * magnitude v = inner v v.
Proof. apply sqrt_sqrt, inner_self_nonneg. Qed.

Lemma inner_quad t v w : length v = length w ->
  0 <= inner v v + 2 * t * inner v w + t * t * inner w w.
Proof.
  revert w; induction v as [|x v IH]; intros [|y w] H; try discriminate; simpl; [lra|].
  injection H as H. specialize (IH w H).
  pose proof (Rle_0_sqr (x + t * y)) as Hs; unfold Rsqr in Hs. lra.
Qed.

Lemma cauchy_schwarz v w : length v = length w ->
  inner v w * inner v w <= inner v v * inner w w.
Proof.
  intros Hl.
  pose proof (inner_self_nonneg v) as Ha. pose proof (inner_self_nonneg w) as Hb.
  destruct (Req_dec (inner w w) 0) as [E|E].
  - rewrite E. assert (inner v w = 0); [|nra].
    destruct (Req_dec (inner v w) 0) as [|N]; auto.
    pose proof (inner_quad (- (inner v v + 1) / (2 * inner v w)) v w Hl) as Hq. rewrite E in Hq.
    replace (2 * (- (inner v v + 1) / (2 * inner v w)) * inner v w)
      with (- (inner v v + 1)) in Hq by (field; auto). lra.
  - pose proof (inner_quad (- inner v w / inner w w) v w Hl) as Hq.
    assert (0 < inner w w) by lra.
    apply (Rmult_le_compat_l (inner w w)) in Hq; [|lra].
    rewrite Rmult_0_r in Hq.
    replace (inner w w * (inner v v + 2 * (- inner v w / inner w w) * inner v w +
       - inner v w / inner w w * (- inner v w / inner w w) * inner w w))
      with (inner v v * inner w w - inner v w * inner v w) in Hq by (field; auto).
    lra.
Qed.

Lemma cosine_le_1 v w : length v = length w -> nonzero_vec v -> nonzero_vec w ->
  Rabs (cosine v w) <= 1.
Proof.
  intros Hl Hv Hw. pose proof (magnitude_pos v Hv). pose proof (magnitude_pos w Hw).
  pose proof (cauchy_schwarz v w Hl) as CS. rewrite <- !magnitude_sq in CS.
  unfold cosine, Rdiv. rewrite Rabs_mult, Rabs_inv, (Rabs_right (magnitude v * magnitude w)) by nra.
  apply (Rmult_le_reg_r (magnitude v * magnitude w)); [nra|].
  rewrite Rmult_assoc, Rinv_l, Rmult_1_r, Rmult_1_l by nra.
  assert (Ha: Rabs (inner v w) <= Rabs (magnitude v * magnitude w))
    by (apply Rsqr_le_abs_0; unfold Rsqr; lra).
  rewrite (Rabs_right (magnitude v * magnitude w)) in Ha by nra. auto.
Qed.

Lemma normalise_fin v : nonzero_vec v -> normalise (Fin v) = Fin (map (fun x => / magnitude v * x) v).
Proof.
  intros H. unfold normalise. destruct v as [|x v]; auto.
  rewrite lnorm_magnitude. pose proof (magnitude_pos _ H).
  destruct (Reqb (magnitude (x :: v)) 0) eqn:E; [apply Reqb_true in E; lra|].
  f_equal. apply map_ext. intros; unfold Rdiv; ring.
Qed.
Lemma normalise_zero v : ~ nonzero_vec v -> v <> [] -> normalise (Fin v) = Nan (length v).
Proof.
  intros H Hn. unfold normalise. destruct v as [|x v]; [tauto|].
  rewrite lnorm_magnitude. apply magnitude_zero in H. rewrite H.
  rewrite (proj2 (Reqb_true 0 0)) by auto. auto.
Qed.
Lemma normalise_len a : arr_len (normalise a) = arr_len a.
Proof.
  destruct a as [[|x l]|n]; simpl; auto. destruct (Reqb _ _); simpl; auto. rewrite map_length; auto.
Qed.

Lemma normalised_dot v w : nonzero_vec v -> nonzero_vec w ->
  ldot (map (fun x => / magnitude v * x) v) (map (fun x => / magnitude w * x) w) = cosine v w.
Proof.
  intros Hv Hw. pose proof (magnitude_pos v Hv). pose proof (magnitude_pos w Hw).
  rewrite ldot_inner, inner_scale_l, inner_scale_r. unfold cosine. field. lra.
Qed.

(** The NaN-aware dot product of normalised vectors *)
Lemma npdot_normalised v w : length v = length w -> v <> [] ->
  (nonzero_vec v /\ nonzero_vec w /\ npdot (normalise (Fin v)) (normalise (Fin w)) = Ok (Some (cosine v w))) \/
  (~ (nonzero_vec v /\ nonzero_vec w) /\ npdot (normalise (Fin v)) (normalise (Fin w)) = Ok None).
Proof.
  intros Hl Hne.
  assert (Hd: forall u, nonzero_vec u \/ ~ nonzero_vec u)
    by (intros u; destruct (Req_dec (inner u u) 0); [right; apply inner_self_zero; auto|left; apply nonzero_inner; auto]).
  assert (Hw: w <> []) by (destruct v, w; simpl in *; congruence).
  unfold npdot. rewrite !normalise_len. simpl arr_len. rewrite Hl, Nat.eqb_refl.
  destruct (Hd v) as [Hv|Hv].
  - destruct (Hd w) as [Hw'|Hw'].
    + left. split; [auto|split; [auto|]]. rewrite !normalise_fin by auto. rewrite normalised_dot; auto.
    + right. split; [tauto|]. rewrite normalise_fin, (normalise_zero w) by auto. auto.
  - right. split; [tauto|]. rewrite (normalise_zero v) by auto. auto.
Qed.

Lemma isclose_spec a b : isclose a b = true <-> Rabs (a - b) <= atol0 + rtol * Rabs b.
Proof. unfold isclose, isclose_at. apply Rleb_true. Qed.

Lemma tol1_bounds : 0 < tol1 < 1.
Proof. unfold tol1. lra. Qed.

Lemma are_collinear_spec v w : length v = length w -> v <> [] ->
  exists b, are_collinear (Fin v) (Fin w) = Ok b /\ (b = true <-> collinear_spec v w).
Proof.
  intros Hl Hne. unfold are_collinear.
  destruct (npdot_normalised v w Hl Hne) as [(Hv & Hw & ->)|(N & ->)]; simpl.
  - eexists; split; [reflexivity|]. rewrite orb_true_iff, !isclose_spec.
    pose proof (cosine_le_1 v w Hl Hv Hw) as Hc. unfold collinear_spec, tol1, atol0, rtol.
    rewrite (Rabs_right 1), (Rabs_left (-1)) by lra.
    set (c := cosine v w) in *. clearbody c. 
    split.
    + intros H. split; [auto|split; [auto|]].
      unfold Rabs in *; destruct (Rcase_abs c), (Rcase_abs (c - 1)), (Rcase_abs (c - -1)); lra.
    + intros (_ & _ & H).
      unfold Rabs in *; destruct (Rcase_abs c), (Rcase_abs (c - 1)), (Rcase_abs (c - -1)); lra.
  - eexists; split; [reflexivity|]. split; [discriminate|]. intros (H1 & H2 & _). tauto.
Qed.

Lemma are_collinear_mismatch v w : length v <> length w ->
  are_collinear (Fin v) (Fin w) = Err ValueError.
Proof.
  intros H. unfold are_collinear, npdot. rewrite !normalise_len. simpl.
  apply Nat.eqb_neq in H. rewrite H. auto.
Qed.

Lemma non_orthogonal_spec v w : length v = length w -> v <> [] ->
  exists b, non_orthogonal (normalise (Fin v)) (Fin w) = Ok b /\ (b = true <-> ~ orthogonal_spec v w).
Proof.
  intros Hl Hne. unfold non_orthogonal.
  destruct (npdot_normalised v w Hl Hne) as [(Hv & Hw & ->)|(N & ->)]; simpl.
  - eexists; split; [reflexivity|]. rewrite negb_true_iff.
    assert (E: isclose (cosine v w + 1) 1 = true <-> orthogonal_spec v w).
    { rewrite isclose_spec. unfold orthogonal_spec, tol1, atol0, rtol. rewrite (Rabs_right 1) by lra.
      replace (cosine v w + 1 - 1) with (cosine v w) by ring. rewrite Rmult_1_r. tauto. }
    destruct (isclose (cosine v w + 1) 1).
    + split; [discriminate|]. intros H; exfalso; apply H, E; auto.
    + split; auto. intros _ H. apply E in H. discriminate.
  - eexists; split; [reflexivity|]. split; auto. intros _ (H1 & H2 & _). tauto.
Qed.

(** ** Symmetry and scale invariance *)
Lemma nonzero_scale c v : c <> 0 -> (nonzero_vec (map (fun x => c * x) v) <-> nonzero_vec v).
Proof.
  intros Hc. unfold nonzero_vec. split.
  - intros (x & Hx & N). apply in_map_iff in Hx as (y & <- & Hy). exists y. split; auto.
    intros ->. apply N; ring.
  - intros (x & Hx & N). exists (c * x). split; [apply in_map_iff; eauto|]. apply Rmult_integral_contrapositive; auto.
Qed.
Lemma magnitude_scale c v : magnitude (map (fun x => c * x) v) = Rabs c * magnitude v.
Proof.
  unfold magnitude. rewrite inner_scale_l, inner_scale_r, <- Rmult_assoc, sqrt_mult_alt by nra.
  f_equal. apply (sqrt_Rsqr_abs c).
Qed.
Lemma cosine_scale c v w : c <> 0 -> nonzero_vec v -> nonzero_vec w ->
  Rabs (cosine (map (fun x => c * x) v) w) = Rabs (cosine v w).
Proof.
  intros Hc Hv Hw. pose proof (magnitude_pos v Hv). pose proof (magnitude_pos w Hw).
  unfold cosine. rewrite inner_scale_l, magnitude_scale.
  assert (0 < Rabs c) by (apply Rabs_pos_lt; auto).
  unfold Rdiv. rewrite !Rabs_mult, !Rabs_inv, !Rabs_mult, Rabs_Rabsolu. field.
  repeat split; apply Rgt_not_eq; auto; rewrite Rabs_right; lra.
Qed.
Lemma cosine_comm v w : cosine v w = cosine w v.
Proof. unfold cosine. rewrite inner_comm, Rmult_comm; auto. Qed.

Lemma collinear_spec_sym v w : collinear_spec v w -> collinear_spec w v.
Proof. intros (A & B & C). repeat split; auto. rewrite cosine_comm; auto. Qed.
Lemma collinear_spec_scale c v w : c <> 0 ->
  (collinear_spec (map (fun x => c * x) v) w <-> collinear_spec v w).
Proof.
  intros Hc. unfold collinear_spec. rewrite nonzero_scale by auto.
  split; intros (A & B & C); (split; [auto|split; [auto|]]);
    [rewrite <- (cosine_scale c) by auto | rewrite cosine_scale by auto]; auto.
Qed.

Lemma are_collinear_sym v w : length v = length w -> v <> [] ->
  are_collinear (Fin v) (Fin w) = are_collinear (Fin w) (Fin v).
Proof.
  intros Hl Hne.
  destruct (are_collinear_spec v w Hl Hne) as (b & -> & Hb).
  destruct (are_collinear_spec w v (eq_sym Hl)) as (b' & -> & Hb').
  { destruct v, w; simpl in *; congruence. }
  f_equal. apply eq_true_iff_eq. rewrite Hb, Hb'. split; apply collinear_spec_sym.
Qed.

Lemma are_collinear_scale c v w : length v = length w -> v <> [] -> c <> 0 ->
  are_collinear (Fin (map (fun x => c * x) v)) (Fin w) = are_collinear (Fin v) (Fin w).
Proof.
  intros Hl Hne Hc.
  destruct (are_collinear_spec v w Hl Hne) as (b & -> & Hb).
  destruct (are_collinear_spec (map (fun x => c * x) v) w) as (b' & -> & Hb').
  { rewrite map_length; auto. } { destruct v; simpl; congruence. }
  f_equal. apply eq_true_iff_eq. rewrite Hb, Hb'. apply collinear_spec_scale; auto.
Qed.

(** exactly parallel vectors *)
Lemma cosine_self_scale c v : c <> 0 -> nonzero_vec v -> Rabs (cosine v (map (fun x => c * x) v)) = 1.
Proof.
  intros Hc Hv. pose proof (magnitude_pos v Hv).
  unfold cosine. rewrite inner_scale_r, magnitude_scale, <- magnitude_sq.
  assert (0 < Rabs c) by (apply Rabs_pos_lt; auto).
  unfold Rdiv. rewrite !Rabs_mult, !Rabs_inv, !Rabs_mult, Rabs_Rabsolu, (Rabs_right (magnitude v)) by lra. field. lra.
Qed.

(** ** Scans *)
Lemma scan_from_total {A} (test : A -> res bool) (f : A -> bool) k l :
  (forall a, In a l -> test a = Ok (f a)) -> scan_from test k l = Ok (find_index_from f k l).
Proof.
  revert k; induction l as [|a l IH]; intros k H; simpl; auto.
  rewrite H by (simpl; auto). simpl. destruct (f a); auto. apply IH. intros; apply H; simpl; auto.
Qed.

Lemma scan_map {A B} (g : A -> B) (test : B -> res bool) (f : A -> bool) k l :
  (forall a, In a l -> test (g a) = Ok (f a)) -> scan_from test k (map g l) = Ok (find_index_from f k l).
Proof.
  revert k; induction l as [|a l IH]; intros k H; simpl; auto.
  rewrite H by (simpl; auto). simpl. destruct (f a); auto. apply IH. intros; apply H; simpl; auto.
Qed.

Lemma scan_range {A} (test : A -> res bool) k l z :
  scan_from test k l = Ok z -> z = (-1)%Z \/
  exists n a, z = Z.of_nat (k + n) /\ nth_error l n = Some a /\ test a = Ok true /\
    forall m b, (m < n)%nat -> nth_error l m = Some b -> test b = Ok false.
Proof.
  revert k; induction l as [|a l IH]; intros k; simpl.
  - intros [= <-]; auto.
  - destruct (test a) as [b|] eqn:E; simpl; [|discriminate]. destruct b.
    + intros [= <-]. right. exists 0%nat, a. rewrite Nat.add_0_r. repeat split; auto. intros; lia.
    + intros H. destruct (IH _ H) as [|(n & a' & -> & Hn & Ha & Hm)]; auto.
      right. exists (S n), a'. repeat split; auto; [f_equal; lia|].
      intros [|m] b Hlt Hb; simpl in Hb; [injection Hb as <-; auto|]. apply (Hm m); auto; lia.
Qed.

Lemma scan_none {A} (test : A -> res bool) k l :
  scan_from test k l = Ok (-1)%Z -> forall a, In a l -> test a = Ok false.
Proof.
  revert k; induction l as [|a l IH]; intros k; simpl; [intros _ ? []|].
  destruct (test a) as [[|]|] eqn:E; simpl; try discriminate.
  - intros [= H]. lia.
  - intros H b [<-|Hb]; auto. eapply IH; eauto.
Qed.

Lemma first_failure_find {A} (P : A -> Prop) (f : A -> bool) l z :
  (forall a, In a l -> (f a = true <-> ~ P a)) -> (forall a, In a l -> P a \/ ~ P a) ->
  (find_index f l = z <-> first_failure P l z).
Proof.
  intros Hf Hd.
  assert (Hff: forall a, In a l -> f a = false -> P a).
  { intros a Ha E. destruct (Hd a Ha) as [|N]; auto. apply Hf in N; auto. congruence. }
  assert (Hft: forall a, In a l -> P a -> f a = false).
  { intros a Ha Pa. destruct (f a) eqn:E; auto. apply Hf in E; auto. tauto. }
  unfold first_failure. split.
  - intros <-. destruct (find_index_range f l) as [E|(n & Hn & E)]; rewrite E.
    + left. split; auto. intros a Ha. apply Hff; auto. apply (proj1 (find_index_none f l) E); auto.
    + right. apply find_index_some in E as [(a & Ha & Fa) H]. exists n, a. repeat split; auto.
      * apply Hf; auto. eapply nth_error_In; eauto.
      * intros m b Hm Hb. apply Hff; [eapply nth_error_In; eauto|]. eapply H; eauto.
  - intros [[-> H]|(n & a & -> & Ha & Na & H)].
    + apply find_index_none. auto.
    + apply find_index_some. split.
      * exists a. split; auto. apply Hf; auto. eapply nth_error_In; eauto.
      * intros m b Hm Hb. apply Hft; [eapply nth_error_In; eauto|eapply H; eauto].
Qed.

Lemma Rle_dec_prop a b : a <= b \/ ~ a <= b.
Proof. destruct (Rle_dec a b); auto. Qed.
Lemma nonzero_dec v : nonzero_vec v \/ ~ nonzero_vec v.
Proof. destruct (Req_dec (inner v v) 0); [right; apply inner_self_zero; auto|left; apply nonzero_inner; auto]. Qed.
Lemma collinear_spec_dec v w : collinear_spec v w \/ ~ collinear_spec v w.
Proof.
  unfold collinear_spec. destruct (nonzero_dec v), (nonzero_dec w), (Rle_dec_prop (1 - tol1) (Rabs (cosine v w))); tauto.
Qed.
Lemma orthogonal_spec_dec v w : orthogonal_spec v w \/ ~ orthogonal_spec v w.
Proof.
  unfold orthogonal_spec. destruct (nonzero_dec v), (nonzero_dec w), (Rle_dec_prop (Rabs (cosine v w)) tol1); tauto.
Qed.

Section Scans.
  Variables (v : list R) (ws : list (list R)).
  Hypothesis Hv : v <> [].
  Hypothesis Hws : forall w, In w ws -> length v = length w.

  Lemma orth_scan z : is_orthogonal_to_all (Fin v) (map Fin ws) = Ok z <-> first_failure (orthogonal_spec v) ws z.
  Proof.
    unfold is_orthogonal_to_all.
    pose (f := fun w => match non_orthogonal (normalise (Fin v)) (Fin w) with Ok b => b | Err _ => false end).
    assert (E: scan_from (non_orthogonal (normalise (Fin v))) 0 (map Fin ws) = Ok (find_index f ws)).
    { unfold find_index. apply scan_map. intros w Hw.
      destruct (non_orthogonal_spec v w (Hws w Hw) Hv) as (b & Hb & _). unfold f. rewrite Hb. reflexivity. }
    rewrite E. rewrite <- (first_failure_find (orthogonal_spec v) f ws z).
    - split; [intros [= ->]; auto|intros ->; auto].
    - intros w Hw. unfold f. destruct (non_orthogonal_spec v w (Hws w Hw) Hv) as (b & -> & Hb). auto.
    - intros; apply orthogonal_spec_dec.
  Qed.

  Lemma collinear_scan z : is_collinear_with_all (Fin v) (map Fin ws) = Ok z <-> first_failure (collinear_spec v) ws z.
  Proof.
    unfold is_collinear_with_all.
    pose (f := fun w => match are_collinear (Fin v) (Fin w) with Ok b => negb b | Err _ => false end).
    assert (E: scan_from (fun w => rmap negb (are_collinear (Fin v) w)) 0 (map Fin ws) = Ok (find_index f ws)).
    { unfold find_index. apply scan_map. intros w Hw.
      destruct (are_collinear_spec v w (Hws w Hw) Hv) as (b & Hb & _). unfold f. rewrite Hb. reflexivity. }
    rewrite E. rewrite <- (first_failure_find (collinear_spec v) f ws z).
    - split; [intros [= ->]; auto|intros ->; auto].
    - intros w Hw. unfold f. destruct (are_collinear_spec v w (Hws w Hw) Hv) as (b & -> & Hb).
      rewrite negb_true_iff. destruct b; split; intros H; try congruence; auto; try tauto.
      intros C. apply Hb in C. congruence.
    - intros; apply collinear_spec_dec.
  Qed.

  Lemma non_collinear_scan z :
    is_non_collinear_with_all (Fin v) (map Fin ws) = Ok z <-> first_failure (fun w => ~ collinear_spec v w) ws z.
  Proof.
    unfold is_non_collinear_with_all.
    pose (f := fun w => match are_collinear (Fin v) (Fin w) with Ok b => b | Err _ => false end).
    assert (E: scan_from (are_collinear (Fin v)) 0 (map Fin ws) = Ok (find_index f ws)).
    { unfold find_index. apply scan_map. intros w Hw.
      destruct (are_collinear_spec v w (Hws w Hw) Hv) as (b & Hb & _). unfold f. rewrite Hb. reflexivity. }
    rewrite E. rewrite <- (first_failure_find (fun w => ~ collinear_spec v w) f ws z).
    - split; [intros [= ->]; auto|intros ->; auto].
    - intros w Hw. unfold f. destruct (are_collinear_spec v w (Hws w Hw) Hv) as (b & -> & Hb).
      rewrite Hb. destruct (collinear_spec_dec v w); tauto.
    - intros a _; destruct (collinear_spec_dec v a); tauto.
  Qed.
End Scans.
