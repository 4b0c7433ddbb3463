(** Line-shape convolution. *)
From Coq Require Import String ZArith Reals Lra Lia Psatz Bool Arith List Permutation.
From Verif Require Import Base LinAlg M_Validate M_Interp M_Spectrum M_Dynamics S_Spectrum P_Signal.
Import ListNotations.
Local Open Scope R_scope.

Definition shape (function : string) (width w o : R) : R :=
  if String.eqb function "gaussian" then
    (1 / width) * (1 / sqrt (2 * PI)) * exp (- ((w - o) ^ 2) / (2 * width ^ 2))
  else (1 / PI) * (1 / 2 * width / ((w - o) ^ 2 + (1 / 2 * width) ^ 2)).

(** Broadened spectrum at one output point *)
Definition profile (function : string) (width : R) (lines : list (R * R)) (o : R) : R :=
  rsum (map (fun l => shape function width (fst l) o * snd l) lines).

Lemma line_factor_ok f width w out : supported f -> line_factor f width w out = Ok (map (shape f width w) out).
Proof.
  intros [-> | ->]; unfold line_factor, shape.
  - rewrite String.eqb_refl. reflexivity.
  - change (String.eqb "lorentzian" "gaussian") with false. rewrite String.eqb_refl. reflexivity.
Qed.

Lemma loop_ok f width out lines : supported f -> forall g,
  convolve_loop f width out lines (map g out) = Ok (map (fun o => g o + profile f width lines o) out).
Proof.
  intros S. induction lines as [|[w i] lines IH]; intros g; cbn [convolve_loop].
  - f_equal. apply map_ext. intros. unfold profile, rsum. simpl. ring.
  - rewrite line_factor_ok by auto. cbn [rbind].
    unfold ladd. rewrite map_map, map2_map_l, map2_map_r, map2_diag, IH. f_equal. apply map_ext. intros o.
    unfold profile. cbn [map]. rewrite rsum_cons. simpl. ring.
Qed.

Lemma combine_split_eq {A B} (l : list (A * B)) : combine (map fst l) (map snd l) = l.
Proof. induction l as [|[a b] l IH]; simpl; auto. rewrite IH. auto. Qed.

Lemma convolve_ok f width lines grid : supported f -> 0 < width ->
  convolve lines f width grid = Ok (grid, map (profile f width lines) grid).
Proof.
  intros S W. unfold convolve, convolve_spectrum, vec_arr. cbn [rbind ra_shape ra_data hd].
  unfold verify_ndarray_shape. cbn [List.length Nat.eqb negb dims_match rbind].
  rewrite !map_length, Nat.eqb_refl. cbn [rbind]. rewrite (proj2 (Rleb_false width 0)) by auto.
  rewrite combine_split_eq, loop_ok by auto. cbn [rbind]. do 2 f_equal. apply map_ext. intros. ring.
Qed.

(** The broadened spectrum is one function, evaluated on whatever grid is given. *)
Lemma f_C44_profile f width lines : supported f -> 0 < width ->
  exists g, forall grid, convolve lines f width grid = Ok (grid, map g grid).
Proof. intros S W. eexists. intros. apply convolve_ok; auto. Qed.

Lemma profile_scale f width c lines o :
  profile f width (map (fun l => (fst l, c * snd l)) lines) o = c * profile f width lines o.
Proof.
  unfold profile. rewrite map_map. induction lines; [unfold rsum; simpl; ring|].
  cbn [map]. rewrite !rsum_cons, IHlines. simpl. ring.
Qed.
Lemma profile_add f width w (i j : list R) o : List.length i = List.length w -> List.length j = List.length w ->
  profile f width (combine w (map2 Rplus i j)) o
  = profile f width (combine w i) o + profile f width (combine w j) o.
Proof.
  unfold profile. revert i j. induction w as [|v w IH]; intros [|a i] [|b j] A B; simpl in A, B; try lia.
  - unfold rsum; simpl; ring.
  - cbn [combine map map2]. rewrite !rsum_cons, IH by lia. simpl. ring.
Qed.
Lemma profile_app f width l m o : profile f width (l ++ m) o = profile f width l o + profile f width m o.
Proof. unfold profile. rewrite map_app, rsum_app. auto. Qed.
Lemma profile_perm f width l m o : Permutation l m -> profile f width l o = profile f width m o.
Proof.
  unfold profile. induction 1; auto.
  - cbn [map]. rewrite !rsum_cons, IHPermutation. auto.
  - cbn [map]. rewrite !rsum_cons. ring.
  - congruence.
Qed.

Lemma sqrt2pi_pos : 0 < sqrt (2 * PI).
Proof. apply sqrt_lt_R0. pose proof PI_RGT_0. lra. Qed.

Lemma shape_pos f width w o : supported f -> 0 < width -> 0 < shape f width w o.
Proof.
  intros [-> | ->] W; unfold shape.
  - rewrite String.eqb_refl. apply Rmult_lt_0_compat; [apply Rmult_lt_0_compat|apply exp_pos].
    + apply Rdiv_lt_0_compat; lra.
    + apply Rdiv_lt_0_compat; [lra|apply sqrt2pi_pos].
  - change (String.eqb "lorentzian" "gaussian") with false. cbv iota. pose proof PI_RGT_0.
    apply Rmult_lt_0_compat; [apply Rdiv_lt_0_compat; lra|].
    apply Rdiv_lt_0_compat; [lra|]. pose proof (pow2_ge_0 (w - o)).
    assert (0 < (1 / 2 * width) ^ 2) by (apply pow_lt; lra). lra.
Qed.

Lemma profile_nonneg f width lines o : supported f -> 0 < width ->
  Forall (fun l => 0 <= snd l) lines -> 0 <= profile f width lines o.
Proof.
  intros S W F. unfold profile. induction F; [unfold rsum; simpl; lra|].
  cbn [map]. rewrite rsum_cons. pose proof (shape_pos f width (fst x) o S W).
  assert (0 <= shape f width (fst x) o * snd x) by (apply Rmult_le_pos; lra). lra.
Qed.

Lemma shape_sym f width w o : shape f width w (2 * w - o) = shape f width w o.
Proof. unfold shape. replace ((w - (2 * w - o)) ^ 2) with ((w - o) ^ 2) by ring. auto. Qed.

Lemma shape_max f width w o : supported f -> 0 < width -> o <> w -> shape f width w o < shape f width w w.
Proof.
  intros S W N. assert (P : 0 < (w - o) ^ 2) by (assert (w - o <> 0) by lra; nra).
  destruct S as [-> | ->]; unfold shape.
  - rewrite String.eqb_refl. apply Rmult_lt_compat_l.
    + apply Rmult_lt_0_compat; [apply Rdiv_lt_0_compat; lra|]. apply Rdiv_lt_0_compat; [lra|apply sqrt2pi_pos].
    + apply exp_increasing. replace ((w - w) ^ 2) with 0 by ring.
      assert (Q : 0 < 2 * width ^ 2) by (assert (0 < width ^ 2) by (apply pow_lt; auto); lra).
      unfold Rdiv. apply Rmult_lt_compat_r; [apply Rinv_0_lt_compat; auto|lra].
  - change (String.eqb "lorentzian" "gaussian") with false. cbv iota. pose proof PI_RGT_0.
    apply Rmult_lt_compat_l; [apply Rdiv_lt_0_compat; lra|].
    replace ((w - w) ^ 2) with 0 by ring. rewrite Rplus_0_l.
    assert (Q : 0 < (1 / 2 * width) ^ 2) by (apply pow_lt; lra).
    unfold Rdiv at 1 3. apply Rmult_lt_compat_l; [lra|].
    apply Rinv_lt_contravar; [apply Rmult_lt_0_compat|]; lra.
Qed.

Lemma profile_one f width w i o : profile f width [(w, i)] o = shape f width w o * i.
Proof. unfold profile, rsum. simpl. ring. Qed.

Lemma f_C44_linear f width w i j c d grid : supported f -> 0 < width ->
  List.length i = List.length w -> List.length j = List.length w ->
  exists gi gj,
    convolve (combine w i) f width grid = Ok (grid, gi) /\
    convolve (combine w j) f width grid = Ok (grid, gj) /\
    convolve (combine w (map2 Rplus (map (Rmult c) i) (map (Rmult d) j))) f width grid
      = Ok (grid, map2 Rplus (map (Rmult c) gi) (map (Rmult d) gj)).
Proof.
  intros S W Li Lj. rewrite !convolve_ok by auto. do 2 eexists. split; [reflexivity|]. split; [reflexivity|].
  do 2 f_equal. set (L := combine w (map2 _ _ _)). rewrite !map_map, map2_map_l, map2_map_r, map2_diag. apply map_ext. intros o.
  unfold L. rewrite profile_add by (rewrite map_length; auto).
  assert (K : forall c l, List.length l = List.length w -> profile f width (combine w (map (Rmult c) l)) o = c * profile f width (combine w l) o).
  { clear. intros c l L. rewrite <- profile_scale. f_equal. revert l L.
    induction w as [|v w IH]; intros [|a l] L; simpl in *; auto. rewrite IH by lia. auto. }
  rewrite !K by auto. auto.
Qed.

Lemma f_C44_additive f width l m grid : supported f -> 0 < width ->
  exists gl gm, convolve l f width grid = Ok (grid, gl) /\ convolve m f width grid = Ok (grid, gm) /\
    convolve (l ++ m) f width grid = Ok (grid, map2 Rplus gl gm).
Proof.
  intros S W. rewrite !convolve_ok by auto. do 2 eexists. split; [reflexivity|]. split; [reflexivity|].
  do 2 f_equal. rewrite map2_map_l, map2_map_r, map2_diag. apply map_ext. intros. apply profile_app.
Qed.

Lemma convolve_loop_unsupported f width out l acc : ~ supported f -> l <> [] -> convolve_loop f width out l acc = Err ValueError.
Proof.
  intros N L. destruct l as [|[w i] l]; [congruence|]. cbn [convolve_loop]. unfold line_factor.
  destruct (String.eqb_spec f "gaussian"); [exfalso; apply N; left; auto|].
  destruct (String.eqb_spec f "lorentzian"); [exfalso; apply N; right; auto|]. auto.
Qed.

Lemma supported_dec f : {supported f} + {~ supported f}.
Proof.
  destruct (String.string_dec f "gaussian"); [left; left; auto|].
  destruct (String.string_dec f "lorentzian"); [left; right; auto|]. right. intros [|]; auto.
Qed.

Lemma f_C44_order f width l m grid : Permutation l m -> convolve l f width grid = convolve m f width grid.
Proof.
  intros P. destruct (Rlt_le_dec 0 width) as [W|W].
  - destruct (supported_dec f) as [S|S].
    + rewrite !convolve_ok by auto. do 2 f_equal. apply map_ext. intros. apply profile_perm. auto.
    + unfold convolve, convolve_spectrum, vec_arr. cbn [rbind ra_shape ra_data hd].
      unfold verify_ndarray_shape. cbn [List.length Nat.eqb negb dims_match rbind].
      rewrite !map_length, !Nat.eqb_refl. cbn [rbind]. rewrite (proj2 (Rleb_false width 0)) by auto.
      rewrite !combine_split_eq.
      destruct l as [|x l]; [apply Permutation_nil in P; subst; auto|].
      destruct m as [|y m]; [apply Permutation_sym, Permutation_nil in P; discriminate|].
      rewrite !convolve_loop_unsupported by (auto; discriminate). auto.
  - unfold convolve, convolve_spectrum, vec_arr. cbn [rbind ra_shape ra_data hd].
    unfold verify_ndarray_shape. cbn [List.length Nat.eqb negb dims_match rbind].
    rewrite !map_length, !Nat.eqb_refl. cbn [rbind]. rewrite (proj2 (Rleb_true width 0)) by auto. auto.
Qed.

Lemma f_C44_nonneg f width lines grid out : 0 < width ->
  Forall (fun l => 0 <= snd l) lines -> convolve lines f width grid = Ok (grid, out) -> Forall (fun x => 0 <= x) out.
Proof.
  intros W F. destruct (supported_dec f) as [S|S].
  - rewrite convolve_ok by auto. intros [= <-]. apply Forall_forall. intros x I. apply in_map_iff in I.
    destruct I as (o & <- & _). apply profile_nonneg; auto.
  - unfold convolve, convolve_spectrum, vec_arr. cbn [rbind ra_shape ra_data hd].
    unfold verify_ndarray_shape. cbn [List.length Nat.eqb negb dims_match rbind].
    rewrite !map_length, !Nat.eqb_refl. cbn [rbind]. rewrite (proj2 (Rleb_false width 0)) by auto.
    rewrite !combine_split_eq. destruct lines as [|l lines].
    + cbn [convolve_loop rbind]. intros [= <-]. apply Forall_forall. intros x I. apply in_map_iff in I.
      destruct I as (o & <- & _). lra.
    + rewrite !convolve_loop_unsupported by (auto; discriminate). discriminate.
Qed.

Lemma f_C44_line f width w i : supported f -> 0 < width ->
  exists g, (forall grid, convolve [(w, i)] f width grid = Ok (grid, map g grid)) /\
    (forall x, g (w + x) = g (w - x)) /\
    (0 < i -> forall o, o <> w -> 0 < g o < g w) /\
    (f = "lorentzian"%string -> g (w + width / 2) = g w / 2 /\ g (w - width / 2) = g w / 2) /\
    (f = "gaussian"%string -> g (w + width) = g w * exp (- (1 / 2)) /\ g (w - width) = g w * exp (- (1 / 2))).
Proof.
  intros S W. exists (profile f width [(w, i)]).
  split; [intros; apply convolve_ok; auto|].
  split.
  { intros x. rewrite !profile_one. rewrite <- (shape_sym f width w (w + x)). do 2 f_equal. ring. }
  split.
  { intros I o N. rewrite !profile_one. pose proof (shape_pos f width w o S W).
    pose proof (shape_max f width w o S W N). split; [apply Rmult_lt_0_compat; auto|apply Rmult_lt_compat_r; auto]. }
  pose proof PI_RGT_0 as HP. assert (Q : 0 < width ^ 2) by (apply pow_lt; auto).
  split.
  - intros ->. rewrite !profile_one. unfold shape. change (String.eqb "lorentzian" "gaussian") with false. cbv iota.
    split; field; nra.
  - intros ->. rewrite !profile_one. unfold shape. rewrite String.eqb_refl.
    replace (- (w - (w + width)) ^ 2 / (2 * width ^ 2)) with (- (1 / 2)) by (field; lra).
    replace (- (w - (w - width)) ^ 2 / (2 * width ^ 2)) with (- (1 / 2)) by (field; lra).
    replace (- (w - w) ^ 2 / (2 * width ^ 2)) with 0 by (field; lra). rewrite exp_0. split; ring.
Qed.
