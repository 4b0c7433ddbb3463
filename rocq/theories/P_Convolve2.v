(** Area under broadened lines; validation and automatic grid of convolve_spectrum. *)
From Coq Require Import String ZArith Reals Lra Lia Psatz Bool Arith List Permutation.
From Coquelicot Require Import Coquelicot.
From Verif Require Import Base LinAlg M_Validate M_Interp M_Spectrum M_Dynamics S_Interp S_Spectrum P_Signal P_Convolve.
Import ListNotations.
Local Open Scope R_scope.

Lemma Riemann_of_is_RInt f a b v : is_RInt f a b v -> exists pr : Riemann_integrable f a b, RiemannInt pr = v.
Proof.
  intros H. assert (E : ex_RInt f a b) by (exists v; auto).
  exists (ex_RInt_Reals_0 f a b E). rewrite <- RInt_Reals. apply is_RInt_unique. auto.
Qed.
Lemma is_RInt_of_Riemann f a b (pr : Riemann_integrable f a b) : is_RInt f a b (RiemannInt pr).
Proof. rewrite <- RInt_Reals. apply (RInt_correct (V := R_CompleteNormedModule)). apply ex_RInt_Reals_1. auto. Qed.

Lemma integrates_ext f g l : (forall x, f x = g x) -> integrates_to f l -> integrates_to g l.
Proof.
  intros E H eps P. destruct (H eps P) as (M & K). exists M. intros a b A B.
  destruct (K a b A B) as (pr & Q).
  destruct (Riemann_of_is_RInt g a b (RiemannInt pr)) as (pr' & R).
  - apply (is_RInt_ext f); auto. apply is_RInt_of_Riemann.
  - exists pr'. rewrite R. auto.
Qed.

Lemma integrates_plus f g l m : integrates_to f l -> integrates_to g m -> integrates_to (fun x => f x + g x) (l + m).
Proof.
  intros F G eps P. destruct (F (eps / 2)) as (M & K); [lra|]. destruct (G (eps / 2)) as (N & L); [lra|].
  exists (Rmax M N). intros a b A B.
  pose proof (Rmax_l M N). pose proof (Rmax_r M N).
  destruct (K a b) as (p1 & Q1); [lra|lra|]. destruct (L a b) as (p2 & Q2); [lra|lra|].
  destruct (Riemann_of_is_RInt (fun x => f x + g x) a b (RiemannInt p1 + RiemannInt p2)) as (pr & R).
  - apply (is_RInt_plus (V := R_NormedModule)); apply is_RInt_of_Riemann.
  - exists pr. rewrite R.
    replace (RiemannInt p1 + RiemannInt p2 - (l + m)) with ((RiemannInt p1 - l) + (RiemannInt p2 - m)) by ring.
    eapply Rle_lt_trans; [apply Rabs_triang|]. lra.
Qed.

Lemma integrates_zero : integrates_to (fun _ => 0) 0.
Proof.
  intros eps P. exists 0. intros a b _ _.
  destruct (Riemann_of_is_RInt (fun _ => 0) a b 0) as (pr & R).
  - assert (Z : scal (b - a) (0 : R_NormedModule) = 0) by (unfold scal; simpl; unfold mult; simpl; ring).
    pose proof (is_RInt_const (V := R_NormedModule) a b 0) as K. rewrite Z in K. exact K.
  - exists pr. rewrite R. rewrite Rminus_0_r, Rabs_R0. auto.
Qed.

Lemma atan_limit e : 0 < e -> exists M, 0 < M /\ forall x, M < x -> PI / 2 - e < atan x < PI / 2.
Proof.
  intros E. pose proof PI_RGT_0.
  set (t := Rmax (PI / 4) (PI / 2 - e)).
  assert (T : PI / 4 <= t < PI / 2) by (unfold t; split; [apply Rmax_l|apply Rmax_lub_lt; lra]).
  exists (tan t). split; [apply tan_gt_0; lra|].
  intros x Hx. split; [|apply atan_bound].
  apply atan_increasing in Hx. rewrite atan_tan in Hx by lra.
  pose proof (Rmax_r (PI / 4) (PI / 2 - e)). fold t in H0. lra.
Qed.

Lemma lorentz_integral w g i : 0 < g ->
  integrates_to (fun o => (1 / PI) * (g / ((w - o) ^ 2 + g ^ 2)) * i) i.
Proof.
  intros G eps P. pose proof PI_RGT_0 as HP.
  set (e := PI * eps / (2 * (Rabs i + 1)) / 2).
  assert (Pi : 0 < Rabs i + 1) by (pose proof (Rabs_pos i); lra).
  assert (E : 0 < e) by (unfold e; repeat apply Rdiv_lt_0_compat; nra).
  destruct (atan_limit e E) as (M & M0 & HM).
  exists (M * g + Rabs w). intros a b A B.
  set (F := fun x => i / PI * atan ((x - w) / g)).
  assert (D : forall x, is_derive F x ((1 / PI) * (g / ((w - x) ^ 2 + g ^ 2)) * i)).
  { intros x. unfold F.
    assert (Q : 0 < (w - x) ^ 2 + g ^ 2) by (pose proof (pow2_ge_0 (w - x)); assert (0 < g ^ 2) by (apply pow_lt; auto); lra).
    evar_last.
    - apply is_derive_scal. apply is_derive_comp; [apply is_derive_atan|].
      auto_derive; [auto|reflexivity].
    - unfold scal; simpl; unfold mult; simpl. 
      replace (1 + Rsqr ((x - w) / g)) with (((w - x) * ((w - x) * 1) + g * (g * 1)) / (g * g)) by (unfold Rsqr; field; lra).
      simpl in Q. field. repeat split; lra. }
  assert (I : is_RInt (fun o => (1 / PI) * (g / ((w - o) ^ 2 + g ^ 2)) * i) a b (minus (F b) (F a))).
  { apply (is_RInt_derive F); intros x _; auto.
    apply continuity_pt_filterlim. 
    assert (Q : (w - x) ^ 2 + g ^ 2 <> 0) by (pose proof (pow2_ge_0 (w - x)); assert (0 < g ^ 2) by (apply pow_lt; auto); lra).
    reg. }
  destruct (Riemann_of_is_RInt _ _ _ _ I) as (pr & R). exists pr. rewrite R.
  unfold minus, plus, opp; simpl. unfold F.
  assert (Hb : M < (b - w) / g).
  { apply (Rmult_lt_reg_r g); auto. unfold Rdiv. rewrite Rmult_assoc, Rinv_l, Rmult_1_r by lra.
    pose proof (Rle_abs w). lra. }
  assert (Ha : M < - ((a - w) / g)).
  { apply (Rmult_lt_reg_r g); auto. replace (- ((a - w) / g) * g) with (w - a) by (field; lra).
    pose proof (Rle_abs (- w)). rewrite Rabs_Ropp in H. lra. }
  pose proof (HM _ Hb) as B1. pose proof (HM _ Ha) as A1. rewrite atan_opp in A1.
  set (x := atan ((b - w) / g)) in *. set (y := atan ((a - w) / g)) in *.
  replace (i / PI * x + - (i / PI * y) - i) with (i * ((x - y - PI) / PI)) by (field; lra).
  rewrite Rabs_mult.
  assert (Z : Rabs ((x - y - PI) / PI) <= 2 * e / PI).
  { unfold Rdiv. rewrite Rabs_mult, (Rabs_right (/ PI)) by (apply Rle_ge, Rlt_le, Rinv_0_lt_compat; auto).
    apply Rmult_le_compat_r; [apply Rlt_le, Rinv_0_lt_compat; auto|]. apply Rabs_le. lra. }
  assert (Z2 : 2 * e / PI = eps / (2 * (Rabs i + 1))) by (unfold e; field; lra).
  rewrite Z2 in Z. pose proof (Rabs_pos i).
  apply Rle_lt_trans with (Rabs i * (eps / (2 * (Rabs i + 1)))); [apply Rmult_le_compat_l; auto|].
  apply (Rmult_lt_reg_r (2 * (Rabs i + 1))); [lra|].
  replace (Rabs i * (eps / (2 * (Rabs i + 1))) * (2 * (Rabs i + 1))) with (Rabs i * eps) by (field; lra).
  nra.
Qed.

Lemma f_C44_area lines width : 0 < width ->
  exists g, (forall grid, convolve lines "lorentzian" width grid = Ok (grid, map g grid)) /\
    integrates_to g (rsum (map snd lines)).
Proof.
  intros W. exists (profile "lorentzian" width lines). split.
  { intros. apply convolve_ok; auto. right; auto. }
  induction lines as [|[w i] lines IH].
  - apply (integrates_ext (fun _ => 0)); [reflexivity|]. apply integrates_zero.
  - cbn [map]. rewrite rsum_cons.
    apply (integrates_ext (fun o => (1 / PI) * ((1 / 2 * width) / ((w - o) ^ 2 + (1 / 2 * width) ^ 2)) * i + profile "lorentzian" width lines o)).
    + intros x. unfold profile at 2. cbn [map]. rewrite rsum_cons. reflexivity.
    + apply integrates_plus; auto. apply lorentz_integral. lra.
Qed.

(** * Validation *)
Lemma verify1 sh : verify_ndarray_shape sh [None] = match sh with [_] => Ok tt | _ => Err ValueError end.
Proof. destruct sh as [|a [|b l]]; reflexivity. Qed.
Lemma verify1n sh n : verify_ndarray_shape sh [Some n] = match sh with [m] => if Nat.eqb m n then Ok tt else Err ValueError | _ => Err ValueError end.
Proof. destruct sh as [|a [|b l]]; try reflexivity. unfold verify_ndarray_shape. simpl. destruct (Nat.eqb a n); auto. Qed.

Lemma loop_ok' f width out lines : forall acc, List.length acc = List.length out ->
  (lines = [] \/ supported f) -> exists c, convolve_loop f width out lines acc = Ok c /\ List.length c = List.length out.
Proof.
  induction lines as [|[w i] lines IH]; intros acc L H; cbn [convolve_loop].
  - eauto.
  - destruct H as [|S]; [discriminate|]. rewrite line_factor_ok by auto. cbn [rbind].
    apply IH; auto. unfold ladd. rewrite map2_length, !map_length. lia.
Qed.

Lemma f_C45_explicit w i f width out : rarr_wf w -> rarr_wf i -> rarr_wf out ->
  ((exists m l, ra_shape w = [m] /\ ra_shape i = [m] /\ ra_shape out = [l] /\ 0 < width /\ (m = 0%nat \/ supported f)) ->
     exists c, convolve_spectrum w i f width (Some out) = Ok (ra_data out, c) /\ List.length c = List.length (ra_data out)) /\
  (~ (exists m l, ra_shape w = [m] /\ ra_shape i = [m] /\ ra_shape out = [l] /\ 0 < width /\ (m = 0%nat \/ supported f)) ->
     convolve_spectrum w i f width (Some out) = Err ValueError).
Proof.
  intros Ww Wi Wo. unfold convolve_spectrum. cbn [rbind]. rewrite !verify1, verify1n. split.
  - intros (m & l & A & B & C & W & S). unfold rarr_wf in *. rewrite A in *. rewrite B, C in *. cbn [rbind hd].
    rewrite Nat.eqb_refl. cbn [rbind]. rewrite (proj2 (Rleb_false width 0)) by auto.
    destruct (loop_ok' f width (ra_data out) (combine (ra_data w) (ra_data i)) (map (fun o => o * 0) (ra_data out))) as (c & E & L).
    + apply map_length.
    + destruct S as [->|S]; auto. left. simpl in Ww. destruct (ra_data w); [auto|discriminate].
    + rewrite E. exists c. auto.
  - intros N. destruct (ra_shape out) as [|l [|]] eqn:C; auto. cbn [rbind].
    destruct (ra_shape w) as [|m [|]] eqn:A; auto. cbn [rbind hd].
    destruct (ra_shape i) as [|m' [|]] eqn:B; auto. destruct (Nat.eqb_spec m' m); auto. subst m'. cbn [rbind].
    destruct (Rleb width 0) eqn:W; auto. apply Rleb_false in W.
    destruct (combine (ra_data w) (ra_data i)) as [|p lines] eqn:K.
    + exfalso. apply N. exists m, l. repeat split; auto. left.
      unfold rarr_wf in *. rewrite A in Ww. rewrite B in Wi. simpl in Ww, Wi. rewrite Nat.mul_1_r in *.
      assert (Q := f_equal (@List.length _) K). rewrite combine_length in Q. simpl in Q. lia.
    + rewrite convolve_loop_unsupported; auto; [|discriminate].
      intros S. apply N. exists m, l. repeat split; auto.
Qed.

(** * Automatic grid *)
Lemma fold_min l : forall x, is_min (x :: l) (fold_left Rmin l x).
Proof.
  induction l as [|y l IH]; intros x; cbn [fold_left].
  - split; [left; auto|]. intros y [->|[]]; lra.
  - destruct (IH (Rmin x y)) as [A B]. split.
    + destruct A as [A|A]; [|right; right; auto]. rewrite <- A. unfold Rmin. destruct (Rle_dec x y); [left|right; left]; auto.
    + intros z [->|[->|I]].
      * eapply Rle_trans; [apply B; left; reflexivity|]. apply Rmin_l.
      * eapply Rle_trans; [apply B; left; reflexivity|]. apply Rmin_r.
      * apply B. right; auto.
Qed.
Lemma fold_max l : forall x, is_max (x :: l) (fold_left Rmax l x).
Proof.
  induction l as [|y l IH]; intros x; cbn [fold_left].
  - split; [left; auto|]. intros y [->|[]]; lra.
  - destruct (IH (Rmax x y)) as [A B]. split.
    + destruct A as [A|A]; [|right; right; auto]. rewrite <- A. unfold Rmax. destruct (Rle_dec x y); [right; left|left]; auto.
    + intros z [->|[->|I]].
      * eapply Rle_trans; [|apply B; left; reflexivity]. apply Rmax_l.
      * eapply Rle_trans; [|apply B; left; reflexivity]. apply Rmax_r.
      * apply B. right; auto.
Qed.
Lemma is_min_unique l x y : is_min l x -> is_min l y -> x = y.
Proof. intros [A B] [C D]. apply Rle_antisym; auto. Qed.
Lemma is_max_unique l x y : is_max l x -> is_max l y -> x = y.
Proof. intros [A B] [C D]. apply Rle_antisym; auto. Qed.

Lemma rint_spec x : nearest_even x (rint x).
Proof.
  unfold nearest_even, rint. cbv zeta. pose proof (base_Int_part x) as [A B].
  set (r := x - IZR (Int_part x)). assert (Hr : 0 <= r < 1) by (unfold r; lra).
  destruct (Rltb r (1 / 2)) eqn:E1; [apply Rltb_true in E1|apply Rltb_false in E1].
  - replace (IZR (Int_part x) - x) with (- r) by (unfold r; ring). rewrite Rabs_Ropp, Rabs_right by lra.
    split; [lra|]. intros; lra.
  - destruct (Rltb (1 / 2) r) eqn:E2; [apply Rltb_true in E2|apply Rltb_false in E2].
    + rewrite plus_IZR. replace (IZR (Int_part x) + 1 - x) with (1 - r) by (unfold r; ring). rewrite Rabs_right by lra.
      split; [lra|]. intros; lra.
    + assert (r = 1 / 2) by lra. destruct (Z.even (Int_part x)) eqn:EV.
      * replace (IZR (Int_part x) - x) with (- r) by (unfold r; ring). rewrite Rabs_Ropp, Rabs_right by lra. split; [lra|auto].
      * rewrite plus_IZR. replace (IZR (Int_part x) + 1 - x) with (1 - r) by (unfold r; ring). rewrite Rabs_right by lra.
        split; [lra|]. intros _. rewrite Z.even_add, EV. reflexivity.
Qed.

Lemma f_C45_grid w i f width mn mx : is_min (ra_data w) mn -> is_max (ra_data w) mx ->
  exists grid num,
    convolve_spectrum w i f width None = convolve_spectrum w i f width (Some (vec_arr grid)) /\
    nearest_even (mx - mn + 200) num /\ Z.of_nat (List.length grid) = num /\ (200 <= num)%Z /\
    nth_error grid 0 = Some (mn - 100) /\ nth_error grid (List.length grid - 1) = Some (mx + 100) /\
    forall k, (k < List.length grid)%nat ->
      nth_error grid k = Some (mn - 100 + INR k * ((mx - mn + 200) / (IZR num - 1))).
Proof.
  intros Hmn Hmx.
  destruct (ra_data w) as [|x l] eqn:E; [destruct Hmn as [[] _]|].
  set (num := rint (mx - mn + 200)).
  exists (linspace (mn - 100) (mx + 100) (Z.to_nat num)), num.
  assert (LE : mn <= mx) by (apply Hmx; apply Hmn).
  pose proof (rint_spec (mx - mn + 200)) as NE. fold num in NE.
  assert (G : (200 <= num)%Z).
  { destruct NE as [A _]. apply Rabs_le_between in A.
    assert (199 < IZR num) by lra. apply lt_IZR in H. lia. }
  assert (LN : List.length (linspace (mn - 100) (mx + 100) (Z.to_nat num)) = Z.to_nat num)
    by (unfold linspace; rewrite map_length, seq_length; auto).
  assert (NT : forall k, (k < Z.to_nat num)%nat ->
     nth_error (linspace (mn - 100) (mx + 100) (Z.to_nat num)) k
     = Some (mn - 100 + INR k * ((mx - mn + 200) / (IZR num - 1)))).
  { intros k Hk. unfold linspace. rewrite nth_error_map, (nth_error_nth' _ 0%nat) by (rewrite seq_length; auto).
    rewrite seq_nth by auto. cbn [option_map Nat.add]. f_equal.
    assert (N1 : INR (Z.to_nat num - 1) = IZR num - 1).
    { rewrite minus_INR by lia. rewrite INR_IZR_INZ, Z2Nat.id by lia. simpl. auto. }
    assert (P : 0 < IZR num - 1) by (apply IZR_le in G; lra).
    destruct (Nat.eqb_spec (S k) (Z.to_nat num)) as [Q|Q]; cbn [andb].
    - rewrite (proj2 (Nat.ltb_lt 1 (Z.to_nat num))) by lia.
      replace k with (Z.to_nat num - 1)%nat by lia. rewrite N1. field. lra.
    - rewrite N1. field. lra. }
  split; [|split; [exact NE|split; [rewrite LN; lia|split; [exact G|]]]].
  - unfold convolve_spectrum. f_equal. unfold auto_grid. rewrite E. cbn [np_min np_max rbind].
    rewrite (is_min_unique _ _ _ (fold_min l x) Hmn), (is_max_unique _ _ _ (fold_max l x) Hmx).
    replace (mx + 100 - (mn - 100)) with (mx - mn + 200) by ring. reflexivity.
  - rewrite LN. split; [|split].
    + rewrite NT by lia. f_equal. simpl. ring.
    + rewrite NT by lia. f_equal.
      assert (N1 : INR (Z.to_nat num - 1) = IZR num - 1).
      { rewrite minus_INR by lia. rewrite INR_IZR_INZ, Z2Nat.id by lia. simpl. auto. }
      assert (P : 0 < IZR num - 1) by (apply IZR_le in G; lra).
      rewrite N1. field. lra.
    + intros k Hk. apply NT. auto.
Qed.

Lemma f_C45_empty w i f width : ra_data w = [] -> convolve_spectrum w i f width None = Err ValueError.
Proof. intros E. unfold convolve_spectrum, auto_grid. rewrite E. reflexivity. Qed.
