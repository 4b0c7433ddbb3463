(** A sufficient condition for [add_dof] to succeed on a structure without symmetry, and
    concrete models built with it: the non-vacuity witnesses of the C_Interp theorems. *)
From Coq Require Import String ZArith Reals Lra Lia Psatz Bool Arith List.
From Verif Require Import Base LinAlg M_Validate M_StructUtils M_Symmetry M_Reference M_Interp
  S_Lattice S_Vec S_Symmetry S_Equivalent S_Interp P_StructUtils P_Symmetry P_Equivalent P_Equiv2 P_Equiv3 P_EquivTotal
  P_StructFinal P_Examples1
  P_Interp P_Interp2 P_InterpEval P_Interp3 P_Interp4 P_Interp5 P_Interp6 P_Interp7.
Import ListNotations.
Local Open Scope R_scope.

(** ** argmax *)
Lemma argmax_from_spec l : forall best bi k (full : list R),
  nth_error full bi = Some best -> (forall i, (k <= i)%nat -> nth_error full i = nth_error l (i - k)) ->
  exists m, nth_error full (argmax_from best bi k l) = Some m /\ best <= m /\ forall x, In x l -> x <= m.
Proof.
  induction l as [|a l IH]; intros best bi k full Hb Hf; simpl.
  - exists best. split; auto. split; [lra|]. intros x [].
  - assert (Ha: nth_error full k = Some a) by (rewrite Hf, Nat.sub_diag by lia; auto).
    assert (Hf': forall i, (S k <= i)%nat -> nth_error full i = nth_error l (i - S k)).
    { intros i Hi. rewrite Hf by lia. replace (i - k)%nat with (S (i - S k)) by lia. auto. }
    destruct (Rltb best a) eqn:E.
    + apply Rltb_true in E. destruct (IH a k (S k) full Ha Hf') as (m & M1 & M2 & M3).
      exists m. split; auto. split; [lra|]. intros x [<-|Hx]; auto.
    + apply Rltb_false in E. destruct (IH best bi (S k) full Hb Hf') as (m & M1 & M2 & M3).
      exists m. split; auto. split; [lra|]. intros x [<-|Hx]; auto. lra.
Qed.
Lemma argmax_spec l : l <> [] -> exists k m, argmax l = Ok k /\ nth_error l k = Some m /\ forall x, In x l -> x <= m.
Proof.
  destruct l as [|a l]; [tauto|]. intros _.
  destruct (argmax_from_spec l a 0%nat 1%nat (a :: l)) as (m & M1 & M2 & M3); auto.
  { intros [|i] Hi; [lia|]. simpl. rewrite Nat.sub_0_r. auto. }
  exists (argmax_from a 0 1 l), m. split; auto. split; auto. intros x [<-|Hx]; auto.
Qed.

Lemma rows_dot_flat a b : rows_dot a b = inner (flatten_rows a) (flatten_rows b).
Proof. rewrite <- ldot_rows, ldot_inner. auto. Qed.

Lemma multiplier_one l : rows_norm l <> 0 -> multiplier (Fin l) (Fin l) = Ok (Some 1).
Proof.
  intros H. assert (N: nonzero_vec (flatten_rows l)).
  { apply nonzero_inner. rewrite <- rows_dot_flat. intros E. apply H, rows_norm_eq_0. exact E. }
  destruct N as (x & Hx & Nx). unfold multiplier.
  destruct (argmax_spec (map Rabs (flatten_rows l))) as (k & m & -> & K2 & K3).
  { intros E. apply (in_map Rabs) in Hx. rewrite E in Hx. destruct Hx. }
  simpl. rewrite nth_error_map in K2. destruct (nth_error (flatten_rows l) k) as [y|]; [|discriminate].
  simpl in K2. injection K2 as <-. specialize (K3 _ (in_map Rabs _ _ Hx)).
  assert (y <> 0). { intros ->. rewrite Rabs_R0 in K3. pose proof (Rabs_pos_lt x Nx). lra. }
  destruct (Reqb y 0) eqn:E; [apply Reqb_true in E; tauto|]. f_equal. f_equal. field. auto.
Qed.

Lemma scan_all_false {A} (test : A -> res bool) k l : (forall a, In a l -> test a = Ok false) -> scan_from test k l = Ok (-1)%Z.
Proof.
  revert k; induction l as [|a l IH]; intros k H; simpl; auto. rewrite H by (simpl; auto). simpl. apply IH. intros; apply H; simpl; auto.
Qed.

Lemma rows_mul_nonzero d L : mdet L <> 0 -> rows_norm (rows_mul d L) <> 0 -> rows_norm d <> 0.
Proof.
  intros HL H E. apply H. apply rows_norm_eq_0. apply rows_norm_eq_0, rows_norm2_0 in E.
  clear H. induction E as [|v d Ev E IH]; [unfold rows_norm2, rows_dot; simpl; auto|].
  subst v. change (rows_mul (v0 :: d) L) with (vmul v0 L :: rows_mul d L).
  rewrite rows_norm2_cons, vmul_v0, IH. unfold vnorm2. rewrite vdot_v0_l. ring.
Qed.

Lemma add_dof_lone_gen s d (amps : list R) (pols : list M3) order (inc : bool) :
  identity_first (im_ref s) [] -> inv s -> mdet (rs_lattice (im_ref s)) <> 0 ->
  List.length d = List.length (rs_positions (im_ref s)) -> half_cell d ->
  let cart := rows_mul d (rs_lattice (im_ref s)) in
  rows_norm cart <> 0 ->
  (forall b, In b (im_basis s) -> inner (rowsR b) (rowsR cart) = 0) ->
  List.length pols = List.length amps -> (1 <= order)%Z ->
  let ps := (if inc then [(0, m0)] else []) ++ map (fun ap : R * M3 => (fst ap, msub (snd ap) (im_refpol s))) (combine amps (if im_dummy s then repeat m0 (List.length amps) else pols)) in
  spaced (map fst ps) -> (Z.to_nat order < List.length ps)%nat ->
  add_dof (Fin cart) (vec_arr amps) (mats_arr pols) order inc s =
   ((appended s [direction_of cart] [mkSpline (Z.to_nat order) (sort_pts ps)], span_warnings ps), Ok tt).
Proof.
  intros Hi Hinv HL Hl Hh cart Hn Ho Lp Hord ps Hs Hlen.
  destruct (minv_exists _ HL) as (li & Li). set (L := rs_lattice (im_ref s)) in *.
  pose proof (rows_mul_nonzero d L HL Hn) as Hd.
  destruct (parent_norm d Hd) as [Ep Np]. set (p := rows_scale (/ (10 * rows_norm d)) d) in *.
  assert (Lpp: List.length p = List.length (rs_positions (im_ref s))) by (unfold p, rows_scale; rewrite map_length; auto).
  assert (Hkpos: 0 < / (10 * rows_norm d)).
  { apply Rinv_0_lt_compat. pose proof (sqrt_pos (rows_norm2 d)). unfold rows_norm in *. lra. }
  assert (Hcp: get_cart_displacement (im_ref s) p = rows_scale (/ (10 * rows_norm d)) cart).
  { unfold get_cart_displacement. rewrite pbc_half_cell by (apply half_cell_small; lra). unfold p. apply rows_mul_scale. }
  assert (Hcn: rows_norm (rows_scale (/ (10 * rows_norm d)) cart) <> 0).
  { rewrite rows_norm_scale, Rabs_right by lra. intros E. apply Rmult_integral in E as [E|E]; [lra|tauto]. }
  assert (Wf: wf_ref (im_ref s)) by apply Hinv.
  assert (Hcl: List.length cart = List.length (rs_positions (im_ref s))) by (unfold cart, rows_mul; rewrite map_length; auto).
  assert (Hcne: cart <> []).
  { intros E. rewrite E in Hcl. destruct Wf as (_ & W & _). simpl in Hcl. lia. }
  rewrite (add_dof_complete (Fin cart) (vec_arr amps) (mats_arr pols) order inc s (Fin d)
     [(Fin (direction_of cart), map (fun q : R * M3 => (Some (fst q), snd q)) ps)] [direction_of cart] [ps]).
  - unfold flat_map. simpl map. rewrite app_nil_r. auto.
  - auto.
  - simpl. unfold get_frac_displacement. fold L. rewrite Li. simpl. unfold cart. rewrite (cart_frac _ _ _ Li), pbc_half_cell; auto.
  - apply verify_ndarray_shape_spec. repeat constructor.
  - intros _. apply verify_ndarray_shape_spec. simpl. rewrite Lp. repeat constructor.
  - rewrite Ep. eapply get_dof_complete.
    + unfold is_orthogonal_to_all. apply scan_all_false. intros a Ha. apply in_map_iff in Ha as (b & <- & Hb).
      cbn [get_cart_displacement_arr]. rewrite Hcp. cbn [flatten].
      assert (Lb: List.length b = List.length (rs_positions (im_ref s)) /\ unit_length b).
      { destruct Hinv as (_ & _ & Hbo & _). unfold basis_ok in Hbo. rewrite Forall_forall in Hbo. auto. }
      destruct Lb as [Lb Ub].
      set (k := / (10 * rows_norm d)) in *.
      destruct (non_orthogonal_spec (flatten_rows (rows_scale k cart)) (flatten_rows b)) as (t & T1 & T2).
      * rewrite !flatten_rows_length. unfold rows_scale. rewrite map_length, Hcl, Lb. auto.
      * intros E. apply (f_equal (@List.length _)) in E. rewrite flatten_rows_length in E. unfold rows_scale in E.
        rewrite map_length, Hcl in E. destruct Wf as (_ & W & _). simpl in E. lia.
      * rewrite T1. f_equal. destruct t; auto. exfalso. apply (proj1 T2 eq_refl).
        split; [|split].
        -- apply nonzero_inner. rewrite <- rows_dot_flat. intros E. apply Hcn, rows_norm_eq_0. exact E.
        -- apply nonzero_inner. rewrite <- rowsR_flatten. unfold unit_length in Ub. rewrite Ub. lra.
        -- unfold cosine. rewrite inner_comm, <- !rowsR_flatten, P_Interp6.inner_scale_r, Ho, Rmult_0_r by auto.
           unfold Rdiv. rewrite Rmult_0_l, Rabs_R0. pose proof tol1_bounds. lra.
    + apply lone_group; auto.
    + constructor; [|constructor]. unfold dof_of_group. simpl g_disp. simpl g_trans. cbn [combine mapM points_of].
      rewrite multiplier_one.
      2: { intros E. apply rows_norm_eq_0 in E. lra. }
      cbn [rbind]. rewrite minv_mI.
      erewrite mapM_all_ok by (intros; reflexivity). cbn [rbind]. f_equal. f_equal.
      * cbn [get_cart_displacement_arr]. rewrite Hcp. rewrite over_norm_scale by auto.
        unfold over_norm. destruct cart as [|v c] eqn:Ec; [tauto|]. rewrite <- Ec in *. rewrite rows_scale_1.
        destruct (Reqb (rows_norm cart) 0) eqn:E0; [apply Reqb_true in E0; tauto|].
        unfold direction_of. rewrite magnitude_rows. auto.
      * unfold ps. cbn [List.concat]. rewrite app_nil_r, map_app. f_equal; [destruct inc; auto|].
        replace (dof_pols s (vec_arr amps) (mats_arr pols)) with (if im_dummy s then repeat m0 (List.length amps) else pols)
          by (unfold dof_pols; simpl; rewrite mats_of_entries; auto).
        rewrite map_map. apply map_ext. intros [a q].
        simpl. rewrite Rmult_1_l, mmul_mI_l, mmul_mI_r. auto.
  - auto.
  - repeat constructor.
  - repeat constructor; auto.
Qed.

Lemma add_dof_lone s d (amps : list R) (pols : list M3) order (inc : bool) :
  identity_first (im_ref s) [] -> inv s -> im_dummy s = false -> mdet (rs_lattice (im_ref s)) <> 0 ->
  List.length d = List.length (rs_positions (im_ref s)) -> half_cell d ->
  let cart := rows_mul d (rs_lattice (im_ref s)) in
  rows_norm cart <> 0 ->
  (forall b, In b (im_basis s) -> inner (rowsR b) (rowsR cart) = 0) ->
  List.length pols = List.length amps -> (1 <= order)%Z ->
  let ps := (if inc then [(0, m0)] else []) ++ map (fun ap : R * M3 => (fst ap, msub (snd ap) (im_refpol s))) (combine amps pols) in
  spaced (map fst ps) -> (Z.to_nat order < List.length ps)%nat ->
  add_dof (Fin cart) (vec_arr amps) (mats_arr pols) order inc s =
   ((appended s [direction_of cart] [mkSpline (Z.to_nat order) (sort_pts ps)], span_warnings ps), Ok tt).
Proof.
  intros Hi Hinv Hdm HL Hl Hh cart Hn Ho Lp Hord ps Hs Hlen.
  pose proof (add_dof_lone_gen s d amps pols order inc Hi Hinv HL Hl Hh Hn Ho Lp Hord) as G.
  rewrite Hdm in G. apply G; auto.
Qed.

(** ** A two-atom structure without symmetry and a one-atom cubic one *)
Lemma ex2_reference : exists r, identity_first r [] /\ rs_lattice r = ex_lat /\ rs_positions r = ex_pos.
Proof.
  destruct (f_C07c [8%Z; 14%Z] ex_lat ex_pos [(mI, v0)] [0%nat; 1%nat] ex_pos_ok eq_refl) as (r & H & _ & H2 & H3 & H4).
  exists r. split; [|auto]. exists [8%Z; 14%Z], ex_lat, ex_pos, [0%nat; 1%nat]. split; [auto|].
  split; [simpl; lia|apply ex_separated].
Qed.
Definition one_pos : list V3 := [v0].
Lemma one_pos_ok : Forall (vall (fun x => 0 <= x <= 1)) one_pos.
Proof. unfold one_pos. repeat (constructor; [unfold vall; simpl; lra|]). constructor. Qed.
Lemma one_separated : separated (/ 100000) one_pos.
Proof. intros b c n Hb Hc N. simpl in *. lia. Qed.
Lemma one_reference : exists r, identity_first r [] /\ rs_lattice r = mI /\ rs_positions r = one_pos.
Proof.
  destruct (f_C07c [8%Z] mI one_pos [(mI, v0)] [0%nat] one_pos_ok eq_refl) as (r & H & _ & H2 & H3 & H4).
  exists r. split; [|auto]. exists [8%Z], mI, one_pos, [0%nat]. split; [auto|].
  split; [simpl; lia|apply one_separated].
Qed.

(** Amplitudes -1/10 and 1/10 with the reference *)
Lemma ex_spaced : spaced [0; - / 10; / 10].
Proof.
  unfold spaced, too_close. repeat split; auto; simpl; intros y H;
  repeat (destruct H as [<-|H]); try tauto; unfold Rabs; repeat destruct (Rcase_abs _); lra.
Qed.

Definition ex_d1 : list V3 := [mkV (/10) 0 0; v0].
Definition ex_d2 : list V3 := [v0; mkV 0 (/5) (/5)].
Lemma ex_d1_half : half_cell ex_d1. Proof. unfold ex_d1. repeat constructor; simpl; lra. Qed.
Lemma ex_d2_half : half_cell ex_d2. Proof. unfold ex_d2. repeat constructor; simpl; lra. Qed.
Definition ex_pols (p : M3) : list M3 := [mscale 2 p; mscale 3 p].
Lemma ex_nonzero d : rows_norm2 (rows_mul d ex_lat) <> 0 -> rows_norm (rows_mul d ex_lat) <> 0.
Proof. intros H E. apply H, rows_norm_eq_0. auto. Qed.

Definition ex_amps : list R := [- / 10; / 10].
Definition ex_cart (d : list V3) : list V3 := rows_mul d ex_lat.

Lemma ex_cart1_nz : rows_norm (ex_cart ex_d1) <> 0.
Proof. apply ex_nonzero. unfold ex_d1, ex_lat, rows_norm2, rows_dot. vunf. lra. Qed.
Lemma ex_cart2_nz : rows_norm (ex_cart ex_d2) <> 0.
Proof. apply ex_nonzero. unfold ex_d2, ex_lat, rows_norm2, rows_dot. vunf. lra. Qed.
Lemma ex_cart_orth k : inner (rowsR (rows_scale k (ex_cart ex_d1))) (rowsR (ex_cart ex_d2)) = 0.
Proof. rewrite inner_rows. unfold ex_cart, ex_d1, ex_d2, ex_lat, rows_dot. vunf. lra. Qed.

(** Two DOFs, one of first and one of second order *)
Lemma ex_two pol : exists r s1 s2 w1 w2,
  identity_first r [] /\ rs_lattice r = ex_lat /\ rs_positions r = ex_pos /\
  add_dof (Fin (ex_cart ex_d1)) (vec_arr ex_amps) (mats_arr (ex_pols pol)) 1 true (make_model r pol false) = ((s1, w1), Ok tt) /\
  add_dof (Fin (ex_cart ex_d2)) (vec_arr ex_amps) (mats_arr (ex_pols pol)) 2 true s1 = ((s2, w2), Ok tt) /\
  im_ref s1 = r /\ im_ref s2 = r /\ im_dummy s1 = false /\ im_dummy s2 = false /\
  im_basis s1 = [direction_of (ex_cart ex_d1)] /\
  im_basis s2 = [direction_of (ex_cart ex_d1); direction_of (ex_cart ex_d2)] /\
  reachable_incl s1 /\ reachable_incl s2.
Proof.
  destruct ex2_reference as (r & Hi & HL & Hp).
  set (s0 := make_model r pol false).
  assert (I0: inv s0) by (apply make_model_inv, valid_reference_wf; eapply identity_first_valid; eauto).
  assert (A1: exists s1 w1, add_dof (Fin (ex_cart ex_d1)) (vec_arr ex_amps) (mats_arr (ex_pols pol)) 1 true s0 = ((s1, w1), Ok tt)
     /\ im_ref s1 = r /\ im_dummy s1 = false /\ im_basis s1 = [direction_of (ex_cart ex_d1)]).
  { unfold ex_cart. rewrite <- HL. do 2 eexists. split; [apply (add_dof_lone s0 ex_d1 ex_amps (ex_pols pol) 1 true)|].
    - auto.
    - auto.
    - auto.
    - simpl. rewrite HL. apply ex_det.
    - simpl. rewrite Hp. auto.
    - apply ex_d1_half.
    - simpl. rewrite HL. apply ex_cart1_nz.
    - simpl. tauto.
    - auto.
    - lia.
    - apply ex_spaced.
    - simpl. lia.
    - auto. }
  destruct A1 as (s1 & w1 & A1 & R1 & D1 & B1).
  assert (I1: inv s1) by (eapply add_dof_inv; eauto).
  assert (A2: exists s2 w2, add_dof (Fin (ex_cart ex_d2)) (vec_arr ex_amps) (mats_arr (ex_pols pol)) 2 true s1 = ((s2, w2), Ok tt)
     /\ im_ref s2 = r /\ im_dummy s2 = false /\ im_basis s2 = [direction_of (ex_cart ex_d1); direction_of (ex_cart ex_d2)]).
  { assert (E: ex_cart ex_d2 = rows_mul ex_d2 (rs_lattice (im_ref s1))) by (rewrite R1, HL; auto).
    rewrite E. do 2 eexists.
    split; [apply (add_dof_lone s1 ex_d2 ex_amps (ex_pols pol) 2 true)|].
    - rewrite R1. auto.
    - auto.
    - auto.
    - rewrite R1, HL. apply ex_det.
    - rewrite R1, Hp. auto.
    - apply ex_d2_half.
    - rewrite R1, HL. apply ex_cart2_nz.
    - rewrite B1, R1, HL. intros b [<-|[]]. apply ex_cart_orth.
    - auto.
    - lia.
    - apply ex_spaced.
    - simpl; lia.
    - cbn [appended im_ref im_dummy im_basis]. rewrite B1. auto. }
  destruct A2 as (s2 & w2 & A2 & R2 & D2 & B2).
  exists r, s1, s2, w1, w2. repeat (split; [auto; fail|]).
  assert (W: forall k, iop_wf (OpAddDof (ex_cart ex_d1) (vec_arr ex_amps) (mats_arr (ex_pols pol)) k true)) by (intros; split; reflexivity).
  split.
  - exists r, pol, false, [OpAddDof (ex_cart ex_d1) (vec_arr ex_amps) (mats_arr (ex_pols pol)) 1 true].
    split; [eapply identity_first_valid; eauto|split; [repeat constructor|split; [repeat constructor|]]].
    unfold run, step. cbn [fold_left run_op]. fold s0. rewrite A1. auto.
  - exists r, pol, false, [OpAddDof (ex_cart ex_d1) (vec_arr ex_amps) (mats_arr (ex_pols pol)) 1 true;
                           OpAddDof (ex_cart ex_d2) (vec_arr ex_amps) (mats_arr (ex_pols pol)) 2 true].
    split; [eapply identity_first_valid; eauto|split; [repeat constructor|split; [repeat constructor|]]].
    unfold run, step. cbn [fold_left run_op]. fold s0. rewrite A1. cbn [fst]. rewrite A2. auto.
Qed.

(** A dummy model with a DOF *)
Lemma interpolating_exists : exists spl, interpolating spl.
Proof.
  exists (fun _ pts x => match find (fun p => Reqb (fst p) x) pts with Some p => snd p | None => m0 end).
  intros k pts x y _ _ Hi Hin. induction pts as [|p pts IH]; [destruct Hin|].
  apply increasing_cons in Hi as [H1 H2]. simpl. destruct (Reqb (fst p) x) eqn:E.
  - apply Reqb_true in E. destruct Hin as [->|Hin]; auto. specialize (H1 _ Hin). simpl in H1. lra.
  - destruct Hin as [->|Hin]; [simpl in E; apply Reqb_false in E; tauto|]. auto.
Qed.

(** ** C29: outside the half cell the direction changes *)
Definition c29_cart : list V3 := [mkV (3/10) (1/10) 0].
Definition c29_wrapped : list V3 := [mkV (-4/10) (2/10) 0].
Lemma f_C29_refuted : exists r cart amps pols order pol s1 s2 w1 w2 b1 b2,
  valid_reference r /\ mdet (rs_lattice r) <> 0 /\
  add_dof (Fin cart) amps pols order true (make_model r pol false) = ((s1, w1), Ok tt) /\
  add_dof (Fin (rows_scale 2 cart)) amps pols order true (make_model r pol false) = ((s2, w2), Ok tt) /\
  im_basis s1 = [b1] /\ im_basis s2 = [b2] /\ ~ collinear_spec (rowsR b1) (rowsR b2).
Proof.
  destruct one_reference as (r & Hi & HL & Hp).
  set (s0 := make_model r mI false).
  assert (I0: inv s0) by (apply make_model_inv, valid_reference_wf; eapply identity_first_valid; eauto).
  assert (G: forall d, List.length d = 1%nat -> half_cell d -> rows_norm d <> 0 ->
    exists s1 w1, add_dof (Fin d) (vec_arr ex_amps) (mats_arr (ex_pols mI)) 1 true s0 = ((s1, w1), Ok tt)
     /\ im_basis s1 = [direction_of d]).
  { intros d Ld Hh Hn. pose proof (add_dof_lone s0 d ex_amps (ex_pols mI) 1 true) as A. simpl im_ref in A. rewrite HL, rows_mul_mI in A.
    do 2 eexists. split; [apply A|]; clear A.
    - auto.
    - auto.
    - auto.
    - rewrite mdet_mI. lra.
    - rewrite Hp. auto.
    - auto.
    - auto.
    - simpl. tauto.
    - auto.
    - lia.
    - apply ex_spaced.
    - simpl; lia.
    - auto. }
  destruct (G c29_cart) as (s1 & w1 & A1 & B1); [auto|repeat constructor; simpl; lra| |].
  { intros E. apply rows_norm_eq_0 in E. revert E. unfold c29_cart, rows_norm2, rows_dot. vunf. lra. }
  destruct (G c29_wrapped) as (s2 & w2 & A2 & B2); [auto|repeat constructor; simpl; lra| |].
  { intros E. apply rows_norm_eq_0 in E. revert E. unfold c29_wrapped, rows_norm2, rows_dot. vunf. lra. }
  exists r, c29_cart, (vec_arr ex_amps), (mats_arr (ex_pols mI)), 1%Z, mI, s1, s2, w1, w2, (direction_of c29_cart), (direction_of c29_wrapped).
  split; [eapply identity_first_valid; eauto|]. split; [rewrite HL, mdet_mI; lra|]. split; [auto|]. split; [|split; [auto|split; [auto|]]].
  - rewrite <- A2. fold s0. unfold add_dof, bind, get, lift, get_frac_displacement_arr, get_frac_displacement.
    simpl im_ref. rewrite HL, minv_mI. cbn [rbind rmap]. rewrite !rows_mul_mI.
    replace (apply_pbc_displacement (rows_scale 2 c29_cart)) with (apply_pbc_displacement c29_wrapped); auto.
    unfold apply_pbc_displacement, c29_wrapped, c29_cart, rows_scale. simpl. f_equal. apply vmap_wrapd_proper.
    unfold vcongr. vunf. split; [exists (-1)%Z; lra|split; exists 0%Z; lra].
  - intros (_ & _ & C). revert C.
    assert (E: Rabs (cosine (rowsR (direction_of c29_cart)) (rowsR (direction_of c29_wrapped))) = Rabs (cosine (rowsR c29_cart) (rowsR c29_wrapped))).
    { assert (K: forall k l, rowsR (rows_scale k l) = map (fun x => k * x) (rowsR l)).
      { intros k l. unfold rowsR, rows_scale. induction l as [|[x y z] l IH]; simpl; auto. rewrite IH. auto. }
      assert (N1: nonzero_vec (rowsR c29_cart)) by (exists (3/10); simpl; split; [auto|lra]).
      assert (N2: nonzero_vec (rowsR c29_wrapped)) by (exists (-4/10); simpl; split; [auto|lra]).
      pose proof (magnitude_pos _ N1). pose proof (magnitude_pos _ N2).
      assert (/ magnitude (rowsR c29_cart) <> 0) by (apply Rinv_neq_0_compat; lra).
      assert (/ magnitude (rowsR c29_wrapped) <> 0) by (apply Rinv_neq_0_compat; lra).
      unfold direction_of. rewrite !K. rewrite cosine_scale; auto.
      - rewrite cosine_comm, cosine_scale, cosine_comm; auto.
      - apply nonzero_scale; auto. }
    rewrite E. clear E.
    assert (S: Rabs (cosine (rowsR c29_cart) (rowsR c29_wrapped)) * Rabs (cosine (rowsR c29_cart) (rowsR c29_wrapped)) = /2).
    { rewrite <- Rabs_mult, Rabs_right by (apply Rle_ge, Rle_0_sqr).
      assert (M1: magnitude (rowsR c29_cart) * magnitude (rowsR c29_cart) = /10) by (rewrite magnitude_sq; simpl; lra).
      assert (M2: magnitude (rowsR c29_wrapped) * magnitude (rowsR c29_wrapped) = /5) by (rewrite magnitude_sq; simpl; lra).
      unfold cosine. replace (inner (rowsR c29_cart) (rowsR c29_wrapped)) with (-1/10) by (simpl; lra).
      assert (magnitude (rowsR c29_cart) <> 0) by (intros Z0; rewrite Z0 in M1; lra).
      assert (magnitude (rowsR c29_wrapped) <> 0) by (intros Z0; rewrite Z0 in M2; lra).
      revert M1 M2 H H0. generalize (magnitude (rowsR c29_cart)), (magnitude (rowsR c29_wrapped)). intros x y M1 M2 Hx Hy.
      replace (-1 / 10 / (x * y) * (-1 / 10 / (x * y))) with (1 / 100 / ((x * x) * (y * y))) by (field; auto).
      rewrite M1, M2. lra. }
    pose proof (Rabs_pos (cosine (rowsR c29_cart) (rowsR c29_wrapped))). unfold tol1. nra.
Qed.

(** ** C26: three first-order DOFs of a one-atom structure *)
Definition e_k (k : nat) : V3 := match k with O => mkV 1 0 0 | S O => mkV 0 1 0 | _ => mkV 0 0 1 end.
Definition c26_l (u : list V3) : M3 :=
  match u with
  | v :: _ => mkM (mkV (vx v) (2 * vy v) 0) (mkV (2 * vy v) (3 * vz v) (vx v)) (mkV 0 (vx v) (vy v - vz v))
  | [] => m0
  end.
Lemma c26_linear : linear_response 1 c26_l.
Proof.
  split.
  - intros [|u [|u' lu]] [|w [|w' lw]]; try discriminate. intros _ _. simpl. destruct u, w. apply M3_eq; apply V3_eq; simpl; ring.
  - intros c [|u [|u' lu]]; try discriminate. intros _. simpl. destruct u. apply M3_eq; apply V3_eq; simpl; ring.
Qed.
Definition c26_d (k : nat) : list V3 := [vscale (/ 4) (e_k k)].
Lemma c26_dir k : direction_of (c26_d k) = [e_k k].
Proof.
  unfold direction_of. assert (M: magnitude (rowsR (c26_d k)) = / 4).
  { unfold magnitude. replace (inner (rowsR (c26_d k)) (rowsR (c26_d k))) with (Rsqr (/ 4)).
    - apply sqrt_Rsqr. lra.
    - unfold Rsqr. destruct k as [|[|k]]; simpl; lra. }
  rewrite M. unfold c26_d, rows_scale. simpl. f_equal. rewrite vscale_vscale. replace (/ / 4 * / 4) with 1 by field. apply vscale_1.
Qed.
Lemma c26_orthonormal : orthonormal [[e_k 0]; [e_k 1]; [e_k 2]].
Proof.
  intros i j b c. destruct i as [|[|[|i]]]; simpl; try (destruct i; discriminate);
  intros [= <-]; destruct j as [|[|[|j]]]; simpl; try (destruct j; discriminate); intros [= <-]; simpl; lra.
Qed.
Lemma c26_spans : spans 1 [[e_k 0]; [e_k 1]; [e_k 2]].
Proof.
  intros [|[x y z] [|u' lu]]; try discriminate. intros _. exists [x; y; z]. split; auto. simpl. unfold rows_scale, rows_add. simpl. f_equal.
  apply V3_eq; simpl; ring.
Qed.
Lemma c26_adds pol : exists r m, identity_first r [] /\ rs_positions r = one_pos /\
  adds r pol c26_l [c26_d 0; c26_d 1; c26_d 2] m.
Proof.
  destruct one_reference as (r & Hi & HL & Hp). exists r.
  assert (G: forall carts m k, adds r pol c26_l carts m -> (k < 3)%nat ->
     (forall b, In b (map direction_of carts) -> inner (rowsR b) (rowsR (c26_d k)) = 0) ->
     exists m', adds r pol c26_l (carts ++ [c26_d k]) m').
  { intros carts m k Ha Hk Ho.
    destruct (adds_inv r pol c26_l carts m Hi) as (I1 & I2 & I3 & I4 & I5 & I6 & I7); auto.
    { rewrite Hp. apply c26_linear. }
    assert (Hh: half_cell (c26_d k)) by (unfold c26_d; destruct k as [|[|k]]; repeat constructor; simpl; lra).
    eexists. eapply (adds_cons r pol c26_l carts m (c26_d k) (c26_d k) ex_amps true); eauto.
    - rewrite Hp. auto.
    - discriminate.
    - rewrite HL, rows_mul_mI. auto.
    - pose proof (add_dof_lone m (c26_d k) ex_amps
        (map (fun a => madd pol (c26_l (rows_scale a (direction_of (c26_d k))))) ex_amps) 1 true) as A.
      rewrite I1, HL, rows_mul_mI in A. apply A; auto; clear A.
      + rewrite mdet_mI; lra.
      + rewrite Hp; auto.
      + intros E. apply rows_norm_eq_0 in E. revert E. unfold rows_norm2. rewrite <- inner_rows. unfold c26_d. destruct k as [|[|k]]; simpl; lra.
      + rewrite I4. auto.
      + lia.
      + apply ex_spaced.
      + simpl. lia. }
  destruct (G [] _ 0%nat (adds_nil r pol c26_l)) as (m1 & A1); [lia|intros b []|].
  destruct (G _ _ 1%nat A1) as (m2 & A2); [lia| |].
  { simpl. rewrite c26_dir. intros b [<-|[]]. simpl. ring. }
  destruct (G _ _ 2%nat A2) as (m3 & A3); [lia| |].
  { simpl. rewrite !c26_dir. intros b [<-|[<-|[]]]; simpl; ring. }
  exists m3. auto.
Qed.

(** ** A dummy model with one DOF *)
Lemma ex_dummy (pol : M3) : exists m, reachable m /\ im_dummy m = true /\ im_basis m = [direction_of (ex_cart ex_d1)] /\
  rs_positions (im_ref m) = ex_pos.
Proof.
  destruct ex2_reference as (r & Hi & HL & Hp). set (s0 := make_model r pol true).
  assert (I0: inv s0) by (apply make_model_inv, valid_reference_wf; eapply identity_first_valid; eauto).
  assert (A1: exists s1 w1, add_dof (Fin (ex_cart ex_d1)) (vec_arr ex_amps) (mats_arr (ex_pols pol)) 1 true s0 = ((s1, w1), Ok tt)
     /\ im_ref s1 = r /\ im_dummy s1 = true /\ im_basis s1 = [direction_of (ex_cart ex_d1)]).
  { unfold ex_cart. rewrite <- HL. do 2 eexists. split; [apply (add_dof_lone_gen s0 ex_d1 ex_amps (ex_pols pol) 1 true)|].
    - auto.
    - auto.
    - simpl. rewrite HL. apply ex_det.
    - simpl. rewrite Hp. auto.
    - apply ex_d1_half.
    - simpl. rewrite HL. apply ex_cart1_nz.
    - simpl. tauto.
    - auto.
    - lia.
    - apply ex_spaced.
    - simpl. lia.
    - auto. }
  destruct A1 as (s1 & w1 & A1 & R1 & D1 & B1). exists s1. split; [|repeat split; auto; congruence].
  left. exists r, pol, true, [OpAddDof (ex_cart ex_d1) (vec_arr ex_amps) (mats_arr (ex_pols pol)) 1 true].
  split; [eapply identity_first_valid; eauto|split; [repeat constructor|]].
  unfold run, step. cbn [fold_left run_op]. fold s0. rewrite A1. auto.
Qed.
