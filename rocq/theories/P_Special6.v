(** C99: predictions for positions that are not finite. *)
From Coq Require Import String ZArith Reals Lra Lia Bool Arith List.
From Verif Require Import Base LinAlg S_Lattice M_Validate M_Text M_Poscar M_Outcar M_Vasprun M_Dataset M_StructUtils M_Symmetry M_Reference
  M_Interp M_Art M_Special S_Interp S_Special P_StructUtils P_Symmetry P_Equivalent P_EquivTotal P_Interp P_Interp2 P_InterpEval P_Interp4 P_Interp6 P_Art P_Art2 P_Examples2 P_Examples3 P_Images
  P_Atoms2 P_Special P_Special2 P_Special3 P_Special4 P_Special5.
Import ListNotations.
Local Open Scope R_scope.

Definition nrow_of (r : refstruct) (q : list n3) : list num :=
  nentries (map (fun i => nrow_mul (n3_map nwrapd (n3_map2 num_sub (n3_map nwrap (nth i q (fin3 v0))) (n3_map nwrap (fin3 (nth i (rs_positions r) v0)))))
    (rs_lattice r)) (seq 0 (List.length (rs_positions r)))).
Lemma bix_same n i : (i < n)%nat -> bix n i = i.
Proof. intros H. unfold bix. destruct (Nat.eqb_spec n 1); lia. Qed.
Lemma ncoord_eta v : mkN3 (ncoord v 0) (ncoord v 1) (ncoord v 2) = v.
Proof. destruct v; reflexivity. Qed.
Lemma nbatch_rows r samples : nbatch_displacements r (nbatch_of (List.length (rs_positions r)) samples) =
  Ok ((List.length (rs_positions r) * 3)%nat, map (nrow_of r) samples).
Proof.
  unfold nbatch_displacements. cbn [nb_shape nbatch_of]. unfold bdim. rewrite Nat.eqb_refl. cbn [Nat.eqb]. f_equal. f_equal.
  rewrite <- (map_seq_nth _ samples []). apply map_ext_in. intros s Hs. unfold nrow_of. f_equal. apply map_ext_in. intros i Hi. apply in_seq in Hi.
  f_equal. unfold nbdisp. rewrite !bix_same by lia. change (bix 3 0) with 0%nat. change (bix 3 1) with 1%nat. change (bix 3 2) with 2%nat.
  cbn [nb_at nbatch_of]. rewrite ncoord_eta. reflexivity.
Qed.
Lemma nrow_fin r p : List.length p = List.length (rs_positions r) -> nrow_of r (map fin3 p) = map FinN (flatten_rows (cart_disp r p)).
Proof.
  intros L. unfold nrow_of. rewrite <- nentries_fin. f_equal. unfold cart_disp, rows_mul. rewrite !map_map.
  set (dd := apply_pbc_displacement (rows_sub p (rs_positions r))).
  assert (Hd : List.length dd = List.length (rs_positions r)) by (unfold dd; rewrite apply_pbc_displacement_length, rows_sub_length; auto).
  rewrite <- (map_seq_nth (fun v => fin3 (vmul v (rs_lattice r))) dd v0), Hd. apply map_ext_in. intros i Hi. apply in_seq in Hi.
  rewrite map_nth. rewrite <- nrow_mul_fin. f_equal. pose proof (bdisp_regular (rs_positions r) [p] 0 i) as B. cbn [nth] in B.
  unfold dd. rewrite <- B by (auto; lia). unfold bdisp. rewrite !bix_same by lia. cbn [b_at batch_of nth]. change (bix 3 0) with 0%nat. change (bix 3 1) with 1%nat. change (bix 3 2) with 2%nat.
  rewrite coord_eta. reflexivity.
Qed.
Lemma nrow_len r q : List.length (nrow_of r q) = (List.length (rs_positions r) * 3)%nat.
Proof.
  unfold nrow_of, nentries. generalize (seq 0 (List.length (rs_positions r))) (seq_length (List.length (rs_positions r)) 0). generalize (List.length (rs_positions r)).
  intros n l <-. induction l as [|i l IH]; [reflexivity|]. cbn [map flat_map]. rewrite app_length. cbn [List.length] in *. cbn in IH. rewrite IH. cbn. lia.
Qed.
Lemma nrow_nan r q : List.length q = List.length (rs_positions r) -> Exists row_not_finite q -> Exists (fun x => x = NaN) (nrow_of r q).
Proof.
  intros L H. apply Exists_exists in H as (v & Hv & N). apply (In_nth _ _ (fin3 v0)) in Hv as (i & Hi & E). unfold nrow_of, nentries. apply Exists_exists.
  set (w := n3_map nwrapd (n3_map2 num_sub (n3_map nwrap (nth i q (fin3 v0))) (n3_map nwrap (fin3 (nth i (rs_positions r) v0))))).
  assert (W : nx w = NaN \/ ny w = NaN \/ nz w = NaN).
  { unfold w. rewrite E. destruct v as [a b c]. unfold row_not_finite in N. cbn in *. destruct N as [N|[N|N]]; [left; destruct a|right; left; destruct b|right; right; destruct c]; cbn in *; tauto. }
  exists NaN. split; [|reflexivity]. apply in_flat_map. exists (nrow_mul w (rs_lattice r)). split.
  - apply in_map_iff. exists i. split; [reflexivity|]. apply in_seq. lia.
  - assert (A : forall x, num_add x NaN = NaN) by (intros []; reflexivity). left. destruct W as [W|[W|W]]; unfold nrow_mul; destruct w as [wx wy wz]; cbn in *; rewrite W; cbn.
    + reflexivity.
    + rewrite A. reflexivity.
    + apply A.
Qed.

Section Eval.
Variable spl : nat -> list (R * M3) -> R -> M3.
Variable at_infinity : spline -> bool -> nmat.

Fixpoint nvalue (row : list num) (basis : list (arr V3)) (interps : list spline) (mask : list bool) (a : nmat) : nmat :=
  match basis, interps, mask with
  | b :: basis', sp :: interps', mk :: mask' =>
      nvalue row basis' interps' mask' (nmat_map2 num_add a (nmat_map (num_mul (FinN (1 - b2r mk))) (neval spl at_infinity sp (ndot b row))))
  | _, _, _ => a
  end.
Lemma nsum_value width rows basis interps mask acc :
  List.length interps = List.length basis -> List.length mask = List.length basis -> Forall (fun b : arr V3 => (arr_len b * 3)%nat = width) basis ->
  List.length acc = List.length rows ->
  nsum_dofs spl at_infinity width rows basis interps mask acc = Ok (map2 (fun a row => nvalue row basis interps mask a) acc rows).
Proof.
  revert interps mask acc. induction basis as [|b basis IH]; intros [|s interps] [|k mask] acc; cbn [List.length]; try discriminate; intros Hi Hm Hw Ha.
  - cbn. f_equal. revert rows Ha. induction acc as [|a acc IHa]; intros [|w rows]; cbn; try discriminate; [reflexivity|]. intros Ha. rewrite <- IHa by lia. reflexivity.
  - inversion Hw; subst. cbn [nsum_dofs]. rewrite Nat.eqb_refl. cbn [orb]. rewrite IH; auto; [|rewrite map2_length; lia].
    f_equal. clear. revert rows. induction acc as [|a acc IHa]; intros [|w rows]; cbn; try reflexivity. rewrite IHa. reflexivity.
Qed.
Lemma ndot_fin b row : ndot (FinA b) (map FinN row) = FinN (ldot (flatten_rows b) row).
Proof.
  unfold ndot, ldot. rewrite <- fin_sum. f_equal. generalize (flatten_rows b). intros l. revert row. induction l as [|x l IH]; intros [|y row]; cbn; try reflexivity. rewrite IH. reflexivity.
Qed.
Lemma nvalue_fin u basis interps mask a :
  nvalue (map FinN (flatten_rows u)) (map FinA basis) interps mask (fin_mat a) = fin_mat (madd a (prediction (eval_spline spl) u basis interps mask)).
Proof.
  revert interps mask a. induction basis as [|b basis IH]; intros [|s interps] [|k mask] a; cbn [map nvalue prediction]; try (rewrite madd_m0_r; reflexivity).
  rewrite ndot_fin. cbn [neval]. rewrite nmat_scale_fin, nmat_add_fin, IH. f_equal. rewrite <- madd_assoc. f_equal. f_equal.
  rewrite <- ldot_inner. destruct k; cbn [b2r].
  - replace (1 - 1) with 0 by ring. apply mscale_0.
  - replace (1 - 0) with 1 by ring. apply mscale_1.
Qed.
Lemma sum_nan l : Exists (fun x => x = NaN) l -> num_sum l = NaN.
Proof.
  assert (K : forall l, fold_left num_add l NaN = NaN) by (induction l0; [reflexivity|assumption]).
  unfold num_sum. generalize (FinN 0). intros a H. revert a. induction H as [x k ->|x k H IH]; intros a; cbn; [|apply IH].
  replace (num_add a NaN) with NaN by (destruct a; reflexivity). apply K.
Qed.
Lemma ndot_nan b row : List.length row = List.length (flatten_rows b) -> Exists (fun x => x = NaN) row -> ndot (FinA b) row = NaN.
Proof.
  intros L H. unfold ndot. apply sum_nan. revert L. generalize (flatten_rows b). induction H as [x k ->|x k H IH]; intros [|y l] L; try discriminate; cbn.
  - apply Exists_cons_hd. reflexivity.
  - apply Exists_cons_tl, IH. cbn in L. lia.
Qed.
Lemma nan_add_r a : nmat_map2 num_add a nan_mat = nan_mat.
Proof. destruct a as [[a b c] [d e f] [g h i]]. unfold nmat_map2, nan_mat, n3_map2; cbn. destruct a, b, c, d, e, f, g, h, i; reflexivity. Qed.
Lemma nan_add_l a : nmat_map2 num_add nan_mat a = nan_mat.
Proof. reflexivity. Qed.
Lemma nvalue_nan_acc row basis interps mask : nvalue row basis interps mask nan_mat = nan_mat.
Proof. revert interps mask. induction basis as [|b basis IH]; intros [|s interps] [|k mask]; cbn [nvalue]; try reflexivity. rewrite nan_add_l. apply IH. Qed.
Lemma nvalue_nan row basis interps mask a : basis <> [] -> List.length interps = List.length basis -> List.length mask = List.length basis ->
  Forall (fun b => List.length row = List.length (flatten_rows b)) basis -> Exists (fun x => x = NaN) row ->
  nvalue row (map FinA basis) interps mask a = nan_mat.
Proof.
  destruct basis as [|b basis]; [congruence|]. intros _. destruct interps as [|s interps], mask as [|k mask]; try discriminate. intros _ _ F H. inversion F; subst.
  cbn [map nvalue]. rewrite ndot_nan by assumption. cbn [neval]. replace (nmat_map (num_mul (FinN (1 - b2r k))) nan_mat) with nan_mat by reflexivity.
  rewrite nan_add_r. apply nvalue_nan_acc.
Qed.
Lemma nan_zero t : nmat_map2 num_add (fin_mat m0) t = t.
Proof.
  assert (Z : forall x, num_add (FinN 0) x = x) by (intros [x| |]; cbn; [f_equal; ring|reflexivity|reflexivity]).
  destruct t as [[a b c] [d e f] [g h i]]. unfold nmat_map2, n3_map2; cbn [q0 q1 q2 nx ny nz fin_mat fin3 m0 r0 r1 r2 v0 vx vy vz]. rewrite !Z. reflexivity.
Qed.

Lemma ncalc_samples m samples : inv m -> im_dummy m = false ->
  ncalc_polarizabilities spl at_infinity (of_model m) (nbatch_of (List.length (rs_positions (im_ref m))) samples) =
  Ok (map (fun q => nmat_map2 num_add (nvalue (nrow_of (im_ref m) q) (map FinA (im_basis m)) (im_interp m) (im_mask m) (fin_mat m0)) (fin_mat (im_refpol m))) samples).
Proof.
  intros (Hwf & (C1 & C2 & C3) & Hb & _) Hd. unfold ncalc_polarizabilities. cbn [of_model nm_ref nm_basis nm_interp nm_mask nm_refpol nm_dummy].
  rewrite nbatch_rows. cbn [rbind]. rewrite nsum_value.
  - f_equal. rewrite map_map. induction samples as [|q samples IH]; [reflexivity|]. cbn [map map2]. cbn [map map2] in IH. rewrite IH. reflexivity.
  - rewrite map_length. auto.
  - rewrite map_length. auto.
  - apply Forall_map. eapply Forall_impl; [|exact Hb]. intros b [H _]. cbn. rewrite H. reflexivity.
  - rewrite !map_length. reflexivity.
Qed.

Lemma f_C99_predictions m samples : reachable m -> im_dummy m = false ->
  Forall (fun q => List.length q = List.length (rs_positions (im_ref m))) samples ->
  exists ps, ncalc_polarizabilities spl at_infinity (of_model m) (nbatch_of (List.length (rs_positions (im_ref m))) samples) = Ok ps /\
    List.length ps = List.length samples /\
    forall k q, nth_error samples k = Some q ->
      (forall p, q = map fin3 p -> exists t, calc_polarizabilities spl m (batch_of (List.length (rs_positions (im_ref m))) [p]) = Ok [t] /\ nth_error ps k = Some (fin_mat t)) /\
      (Exists row_not_finite q -> im_basis m <> [] -> nth_error ps k = Some nan_mat) /\
      (im_basis m = [] -> nth_error ps k = Some (fin_mat (im_refpol m))).
Proof.
  intros Hr Hd HS. apply reachable_inv in Hr as I. eexists. split; [apply ncalc_samples; assumption|]. split; [apply map_length|].
  intros k q Hq. rewrite Forall_forall in HS. assert (Hl := HS q (nth_error_In _ _ Hq)). repeat split.
  - intros p ->. rewrite map_length in Hl. exists (predict spl m p). split; [rewrite calc_regular; [reflexivity|exact I|exact Hd|repeat constructor; exact Hl]|].
    rewrite nth_error_map, Hq. cbn [option_map]. f_equal. rewrite nrow_fin by exact Hl. rewrite nvalue_fin, madd_m0_l. reflexivity.
  - intros N Hb. rewrite nth_error_map, Hq. cbn [option_map]. f_equal. destruct I as (Hwf & (C1 & C2 & C3) & B & _). rewrite nvalue_nan; auto.
    + eapply Forall_impl; [|exact B]. intros b [H _]. rewrite nrow_len, flatten_rows_length. lia.
    + apply nrow_nan; assumption.
  - intros Hb. rewrite nth_error_map, Hq. cbn [option_map]. f_equal. rewrite Hb. cbn [map nvalue]. apply nan_zero.
Qed.
Lemma f_C99_bare r refpol samples :
  ncalc_polarizabilities spl at_infinity (make_nmodel r refpol false) (nbatch_of (List.length (rs_positions r)) samples) = Ok (map (fun _ => refpol) samples).
Proof.
  unfold ncalc_polarizabilities. cbn [make_nmodel nm_ref nm_basis nm_interp nm_mask nm_refpol nm_dummy]. rewrite nbatch_rows. cbn [rbind nsum_dofs]. f_equal.
  rewrite !map_map. apply map_ext. intros q. apply nan_zero.
Qed.
End Eval.
