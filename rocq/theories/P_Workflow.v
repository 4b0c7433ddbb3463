(** Displaced structures, fed back into a model. *)
From Coq Require Import ZArith Reals Bool Arith List Lia Lra.
From Verif Require Import Base LinAlg M_Validate M_StructUtils M_Symmetry M_Reference M_Interp M_Displace
  S_Lattice S_Vec S_Interp S_Displace P_StructUtils P_Reference P_Reference2 P_Symmetry P_StructFinal
  P_Interp P_Interp5 P_Interp6 P_InterpFinal P_Art2 P_Displace.
Import ListNotations.
Local Open Scope R_scope.

Definition sign_of (a : R) : R := if Rle_dec 0 a then 1 else -1.
Lemma sign_abs a : a <> 0 -> / Rabs a * a = sign_of a.
Proof.
  intros H. unfold sign_of. destruct (Rle_dec 0 a).
  - rewrite Rabs_right by lra. field. lra.
  - rewrite Rabs_left by lra. field. lra.
Qed.
Lemma flatten_scale a x : flatten_rows (rows_scale a x) = map (fun y => a * y) (flatten_rows x).
Proof.
  unfold flatten_rows, rows_scale. induction x as [|v x IH]; [reflexivity|]. cbn [map flat_map]. rewrite IH. reflexivity.
Qed.
Lemma rows_nonzero x : rows_norm x <> 0 -> nonzero_vec (flatten_rows x).
Proof.
  intros H. destruct (Forall_Exists_dec (fun v => v = v0) (fun v => ltac:(destruct (Req_EM_T (vnorm2 v) 0); [left; now apply vnorm2_0|right; intros ->; apply n; vunf; ring])) x) as [F|E].
  - exfalso. apply H. now apply zero_norm.
  - apply Exists_exists in E as (v & Hi & Hv).
    destruct (Req_EM_T (vx v) 0) as [Hx|Hx]; [destruct (Req_EM_T (vy v) 0) as [Hy|Hy]; [destruct (Req_EM_T (vz v) 0) as [Hz|Hz]|]|].
    + exfalso. apply Hv. apply V3_eq; auto.
    + exists (vz v). split; auto. apply in_flat_map. exists v. cbn. auto.
    + exists (vy v). split; auto. apply in_flat_map. exists v. cbn. auto.
    + exists (vx v). split; auto. apply in_flat_map. exists v. cbn. auto.
Qed.
Lemma collinear_all x a0 amps : a0 <> 0 -> Forall (fun a => a <> 0) amps -> rows_norm x <> 0 ->
  is_collinear_with_all (flatten (Fin (rows_scale a0 x))) (map (fun a => flatten (Fin (rows_scale a x))) amps) = Ok (-1)%Z.
Proof.
  intros H0 HF Hx. unfold is_collinear_with_all. generalize 0%nat.
  induction HF as [|a amps Ha HF IH]; intros k; [reflexivity|]. cbn [map scan_from].
  assert (E : are_collinear (flatten (Fin (rows_scale a0 x))) (flatten (Fin (rows_scale a x))) = Ok true).
  { cbn [flatten]. replace (flatten_rows (rows_scale a x)) with (map (fun y => (a / a0) * y) (flatten_rows (rows_scale a0 x))).
    - apply f_C09_parallel; [unfold Rdiv; apply Rmult_integral_contrapositive_currified; auto using Rinv_neq_0_compat|].
      apply rows_nonzero. rewrite rows_norm_scale. apply Rmult_integral_contrapositive_currified; auto using Rabs_no_R0.
    - rewrite !flatten_scale, map_map. apply map_ext. intros y. field. auto. }
  rewrite E. cbn [rmap rbind negb]. apply IH.
Qed.

Lemma amplitudes_of_multiples s x a0 amps :
  a0 <> 0 -> Forall (fun a => a <> 0) amps -> Forall (fun a => half_cell (rows_scale a x)) (a0 :: amps) ->
  rows_norm (rows_mul x (rs_lattice (im_ref s))) = 1 ->
  amplitudes_of s (map (fun a => rows_scale a x) (a0 :: amps)) =
  Ok (rows_scale a0 x, map (fun a => sign_of a0 * a) (a0 :: amps)).
Proof.
  intros H0 HF HH Hu. set (L := rs_lattice (im_ref s)) in *.
  assert (Hx : rows_norm x <> 0).
  { intros E. apply rows_norm_eq_0, rows_norm2_0 in E.
    assert (Z : rows_norm (rows_mul x L) = 0).
    { apply zero_norm. unfold rows_mul. apply Forall_map. eapply Forall_impl; [|exact E]. intros v ->.
      apply V3_eq; vunf; ring. }
    lra. }
  assert (HC : forall a, In a (a0 :: amps) -> get_cart_displacement (im_ref s) (rows_scale a x) = rows_scale a (rows_mul x L)).
  { intros a Ha. unfold get_cart_displacement. rewrite Forall_forall in HH.
    rewrite (pbc_half_cell _ (HH a Ha)). apply rows_mul_scale. }
  unfold amplitudes_of. cbn [map].
  change (flatten (Fin (rows_scale a0 x)) :: map (fun d => flatten (Fin d)) (map (fun a => rows_scale a x) amps))
    with (map (fun d => flatten (Fin d)) (map (fun a => rows_scale a x) (a0 :: amps))).
  rewrite map_map. rewrite collinear_all by auto. cbn [rbind].
  change (negb (-1 =? -1)%Z) with false. cbn iota.
  rewrite (HC a0) by now left.
  assert (Hb : over_norm 1 (Fin (rows_scale a0 (rows_mul x L))) = Fin (rows_scale (sign_of a0) (rows_mul x L))).
  { unfold over_norm. destruct (rows_scale a0 (rows_mul x L)) as [|v l] eqn:E.
    - exfalso. destruct x as [|v x]; [|discriminate]. cbn in Hu. unfold rows_norm, rows_norm2, rows_dot in Hu. cbn in Hu.
      rewrite sqrt_0 in Hu. lra.
    - rewrite <- E. rewrite rows_scale_1, rows_norm_scale, Hu, Rmult_1_r.
      destruct (Reqb_spec (Rabs a0) 0) as [Z|Z]; [now apply Rabs_no_R0 in Z|].
      rewrite rows_scale_scale, sign_abs by exact H0. reflexivity. }
  rewrite Hb.
  assert (HA : forall a, get_amplitude (rows_scale (sign_of a0) (rows_mul x L)) (rows_scale a (rows_mul x L)) = sign_of a0 * a).
  { intros a. unfold get_amplitude. rewrite ldot_rows, rows_dot_scale_l, rows_dot_scale_r.
    change (rows_dot (rows_mul x L) (rows_mul x L)) with (rows_norm2 (rows_mul x L)).
    rewrite <- rows_norm_sq, Hu. ring. }
  rewrite HA. do 3 f_equal. rewrite map_map. apply map_ext_in. intros a Ha. rewrite (HC a) by now right. apply HA.
Qed.

Lemma moved_back r p L x step q : p = rs_positions r -> rows_mul x L = step -> mdet L <> 0 -> half_cell x ->
  List.length x = List.length p -> moved L p step q -> calc_displacement p q = Ok x.
Proof.
  intros _ Hx Hd Hh Hl (y & Hy & Hc).
  assert (y = x).
  { destruct (minv_exists _ Hd) as [li Hi]. rewrite <- (cart_frac _ _ y Hi), Hy, <- Hx. now apply cart_frac. }
  subst y. assert (Hq : List.length q = List.length p).
  { apply F2_length in Hc. rewrite <- Hc. unfold rows_add. apply map2_length_eq. congruence. }
  rewrite calc_displacement_eq by congruence. f_equal.
  apply apply_pbc_spec in Hc. rewrite <- (pbc_half_cell x Hh) at 1. apply apply_pbc_displacement_proper.
  rewrite <- (rows_sub_add p x) by congruence. unfold rows_sub.
  apply same_map2; [apply vcongr_vsub| |apply same_refl]. rewrite Hc. apply same_sym, same_apply_pbc.
Qed.

(** Structures displaced along [d] by [amps], with their polarizabilities, as read from files *)
Lemma read_back s d amps pols qs x :
  let r := im_ref s in
  mdet (rs_lattice r) <> 0 -> rows_mul x (rs_lattice r) = direction_of d -> List.length x = List.length (rs_positions r) ->
  Forall (fun a => half_cell (rows_scale a x)) amps -> List.length pols = List.length amps ->
  Forall2 (fun a q => moved (rs_lattice r) (rs_positions r) (rows_scale a (direction_of d)) q) amps qs ->
  mapM (read_one s) (map Ok (combine qs pols)) =
  Ok (combine (map (fun a => rows_scale a x) amps) (if im_dummy s then map (fun _ => m0) pols else pols)).
Proof.
  intros r Hd Hx Hl HH Hp HF. revert pols Hp HH.
  induction HF as [|a q amps qs Hm HF IH]; intros [|p pols] Hp HH; try discriminate.
  - destruct (im_dummy s); reflexivity.
  - inversion HH as [|? ? Ha HH']; subst. cbn [combine map mapM].
    unfold read_one at 1. cbn [rbind fst snd]. try fold r.
    rewrite (moved_back r _ (rs_lattice r) (rows_scale a x) (rows_scale a (direction_of d)) q eq_refl); auto.
    + cbn [rbind]. rewrite IH by auto. cbn [rbind]. destruct (im_dummy s); reflexivity.
    + now rewrite rows_mul_scale, Hx.
    + unfold rows_scale. now rewrite map_length.
Qed.
Lemma map_fst_combine {A B} (l : list A) (m : list B) : List.length l = List.length m -> map fst (combine l m) = l.
Proof. revert m. induction l as [|a l IH]; intros [|b m] H; try discriminate; cbn; [reflexivity|]. f_equal. apply IH. now injection H. Qed.
Lemma map_snd_combine {A B} (l : list A) (m : list B) : List.length l = List.length m -> map snd (combine l m) = m.
Proof. revert m. induction l as [|a l IH]; intros [|b m] H; try discriminate; cbn; [reflexivity|]. f_equal. apply IH. now injection H. Qed.

Lemma direction_unit d : rows_norm d <> 0 -> rows_norm (direction_of d) = 1.
Proof.
  intros H. unfold direction_of. rewrite magnitude_rows, rows_norm_scale.
  assert (0 < rows_norm d) by (pose proof (sqrt_pos (rows_norm2 d)); unfold rows_norm in *; lra).
  rewrite Rabs_right; [field; lra|]. apply Rle_ge, Rlt_le, Rinv_0_lt_compat. lra.
Qed.

Lemma add_dof_dummy cart amps pols pols' order inc s : im_dummy s = true ->
  add_dof cart amps pols order inc s = add_dof cart amps pols' order inc s.
Proof.
  intros H. unfold add_dof, bind, get, lift. destruct (get_frac_displacement_arr (im_ref s) cart); [|reflexivity].
  destruct (verify_ndarray_shape (ra_shape amps) [None]); [|reflexivity]. now rewrite H.
Qed.

Lemma bind_get {A} (f : imodel -> act A) s : bind get f s = f s s.
Proof. unfold bind, get. destruct (f s s) as [[s2 w2] r2]. reflexivity. Qed.
Lemma bind_lift {A B} (x : A) (f : A -> act B) s : bind (lift (Ok x)) f s = f x s.
Proof. unfold bind, lift, ret. destruct (f x s) as [[s2 w2] r2]. reflexivity. Qed.
Lemma bind_lift_err {A B} e (f : A -> act B) s : bind (lift (Err e)) f s = ((s, []), Err e).
Proof. reflexivity. Qed.

Lemma f_C77_gen d a0 amps pols qs order s :
  let r := im_ref s in
  mdet (rs_lattice r) <> 0 -> List.length d = List.length (rs_positions r) -> (exists v, In v d /\ v <> v0) ->
  Forall (fun a => a <> 0) (a0 :: amps) -> List.length pols = List.length (a0 :: amps) ->
  (forall a x, In a (a0 :: amps) -> rows_mul x (rs_lattice r) = rows_scale a (direction_of d) -> half_cell x) ->
  get_displaced_positions r (Rows (Fin d)) (Some (a0 :: amps)) = Ok (map Fin qs) ->
  add_dof_from_files (map Ok (combine qs pols)) order s =
  add_dof (Fin (rows_scale a0 (direction_of d))) (vec_arr (map (fun a => sign_of a0 * a) (a0 :: amps)))
    (mats_arr pols) order true s.
Proof.
  intros r Hd Hl Hn Hz Hp Hh Hq.
  destruct (f_C55_positions r d (a0 :: amps) Hd Hl Hn) as (qs' & Hq' & HF).
  assert (qs' = qs).
  { rewrite Hq in Hq'. assert (E : map Fin qs = map Fin qs') by congruence. clear - E. revert qs' E.
    induction qs as [|q qs IH]; intros [|q' qs'] E; try discriminate; auto. cbn in E. injection E as <- E. f_equal. auto. }
  subst qs'. destruct (minv_exists _ Hd) as [li Hi].
  set (x := rows_mul (direction_of d) li).
  assert (Hx : rows_mul x (rs_lattice r) = direction_of d).
  { unfold x. rewrite <- rows_mul_mmul. apply minv_Ok in Hi as (_ & Hi & _). rewrite Hi. apply rows_mul_mI. }
  assert (Hlx : List.length x = List.length (rs_positions r)).
  { unfold x, rows_mul, direction_of, rows_scale. now rewrite !map_length. }
  assert (HH : Forall (fun a => half_cell (rows_scale a x)) (a0 :: amps)).
  { apply Forall_forall. intros a Ha. apply (Hh a); auto. now rewrite rows_mul_scale, Hx. }
  unfold add_dof_from_files. rewrite bind_get.
  unfold read_dof. fold r. rewrite (read_back s d (a0 :: amps) pols qs x Hd Hx Hlx HH Hp HF).
  assert (Hlen : List.length (map (fun a => rows_scale a x) (a0 :: amps)) =
                 List.length (if im_dummy s then map (fun _ => m0) pols else pols)).
  { rewrite map_length. destruct (im_dummy s); rewrite ?map_length; auto. }
  cbn [rbind]. rewrite map_fst_combine, map_snd_combine by exact Hlen.
  inversion Hz as [|? ? Hz0 Hz']; subst.
  rewrite amplitudes_of_multiples; auto.
  2:{ fold r. rewrite Hx. apply direction_unit. now apply nonzero_norm. }
  cbn [rbind]. rewrite bind_lift. unfold get_cart_displacement. fold r.
  inversion HH as [|? ? HH0 _]; subst. rewrite (pbc_half_cell _ HH0), rows_mul_scale, Hx.
  destruct (im_dummy s) eqn:Es; [|reflexivity]. apply add_dof_dummy. exact Es.
Qed.

(** The workflow of the tutorials *)
Lemma f_C77 d a0 amps pols qs order s :
  let r := im_ref s in
  mdet (rs_lattice r) <> 0 -> List.length d = List.length (rs_positions r) -> (exists v, In v d /\ v <> v0) ->
  0 < a0 -> Forall (fun a => a <> 0) amps -> List.length pols = List.length (a0 :: amps) ->
  (forall x, rows_mul x (rs_lattice r) = d -> half_cell x) ->
  (forall a x, In a (a0 :: amps) -> rows_mul x (rs_lattice r) = rows_scale a (direction_of d) -> half_cell x) ->
  get_displaced_positions r (Rows (Fin d)) (Some (a0 :: amps)) = Ok (map Fin qs) ->
  add_dof_from_files (map Ok (combine qs pols)) order s =
  add_dof (Fin d) (vec_arr (a0 :: amps)) (mats_arr pols) order true s.
Proof.
  intros r Hd Hl Hn H0 Hz Hp Hhd Hh Hq.
  rewrite (f_C77_gen d a0 amps pols qs order s); auto.
  2:{ constructor; auto. lra. }
  assert (E : map (fun a => sign_of a0 * a) (a0 :: amps) = a0 :: amps).
  { rewrite <- (map_id (a0 :: amps)) at 2. apply map_ext. intros a. unfold sign_of. destruct (Rle_dec 0 a0); [ring|lra]. }
  rewrite E. destruct (minv_exists _ Hd) as [li Hi].
  set (x := rows_mul d li).
  assert (Hx : rows_mul x (rs_lattice r) = d).
  { unfold x. rewrite <- rows_mul_mmul. apply minv_Ok in Hi as (_ & Hi & _). rewrite Hi. apply rows_mul_mI. }
  pose proof (nonzero_norm d Hn) as Hnz.
  assert (Hpos : 0 < rows_norm d) by (pose proof (sqrt_pos (rows_norm2 d)); unfold rows_norm in *; lra).
  replace (rows_scale a0 (direction_of d)) with (rows_scale (a0 / rows_norm d) (rows_mul x (rs_lattice r))).
  2:{ unfold direction_of. rewrite Hx, rows_scale_scale, magnitude_rows. reflexivity. }
  rewrite <- Hx at 2. apply f_C29.
  - apply Rdiv_lt_0_compat; lra.
  - now apply Hhd.
  - apply (Hh a0); [now left|]. rewrite rows_mul_scale, Hx. unfold direction_of. now rewrite rows_scale_scale, magnitude_rows.
Qed.
Lemma f_C77_pymatgen d a0 amps pols qs order s :
  let r := im_ref s in
  mdet (rs_lattice r) <> 0 -> List.length d = List.length (rs_positions r) -> (exists v, In v d /\ v <> v0) ->
  0 < a0 -> Forall (fun a => a <> 0) amps -> List.length pols = List.length (a0 :: amps) ->
  (forall x, rows_mul x (rs_lattice r) = d -> half_cell x) ->
  (forall a x, In a (a0 :: amps) -> rows_mul x (rs_lattice r) = rows_scale a (direction_of d) -> half_cell x) ->
  get_displaced_positions r (Rows (Fin d)) (Some (a0 :: amps)) = Ok (map Fin qs) ->
  add_dof_from_pymatgen qs (mats_arr pols) order s =
  add_dof (Fin d) (vec_arr (a0 :: amps)) (mats_arr pols) order true s.
Proof.
  intros r Hd Hl Hn H0 Hz Hp Hhd Hh Hq.
  rewrite <- (f_C77 d a0 amps pols qs order s); auto.
  assert (Lq : List.length qs = List.length pols).
  { destruct (f_C55_positions r d (a0 :: amps) Hd Hl Hn) as (qs' & Hq' & HF). rewrite Hq in Hq'.
    assert (G : map Fin qs = map Fin qs') by congruence. apply (f_equal (@List.length _)) in G. rewrite !map_length in G.
    apply F2_length in HF. congruence. }
  unfold add_dof_from_pymatgen, add_dof_from_files. rewrite !bind_get.
  assert (HD : mapM (read_one s) (map Ok (combine qs pols)) =
    rmap (fun ds => combine ds (if im_dummy s then map (fun _ => m0) pols else pols))
      (mapM (fun p => match calc_displacement (rs_positions (im_ref s)) p with
                            | Ok d => Ok d
                            | Err e => if is_value_error e then Err InvalidDOFException else Err e
                            end) qs) /\
    forall ds, mapM (fun p => match calc_displacement (rs_positions (im_ref s)) p with
                            | Ok d => Ok d
                            | Err e => if is_value_error e then Err InvalidDOFException else Err e
                            end) qs = Ok ds -> List.length ds = List.length pols).
  { clear - Lq. revert pols Lq. induction qs as [|q qs IH]; intros [|p pols] Lq; try discriminate.
    - split; [destruct (im_dummy s); reflexivity|intros ds [= <-]; reflexivity].
    - destruct (IH pols) as [I1 I2]; [now injection Lq|]. cbn [combine map mapM]. unfold read_one at 1. cbn [rbind fst snd]. try fold r.
      destruct (calc_displacement (rs_positions (im_ref s)) q) as [x|e]; cbn [rbind].
      + rewrite I1. destruct (mapM _ qs) as [ds|e]; cbn [rmap rbind].
        * split; [destruct (im_dummy s); reflexivity|]. intros ds' [= <-]. cbn. f_equal. now apply I2.
        * split; [reflexivity|discriminate].
      + destruct (is_value_error e); cbn [rbind]; (split; [reflexivity|discriminate]). }
  destruct HD as [HD HL]. unfold read_dof, displacement_amplitudes. rewrite HD.
  destruct (mapM (fun p => match calc_displacement (rs_positions (im_ref s)) p with Ok d => Ok d | Err e => if is_value_error e then Err InvalidDOFException else Err e end) qs) as [ds|e]; cbn [rmap rbind]; [|reflexivity].
  specialize (HL ds eq_refl).
  rewrite map_fst_combine, map_snd_combine by (destruct (im_dummy s); rewrite ?map_length; exact HL).
  destruct (amplitudes_of s ds) as [[d0 am]|e]; cbn [rbind]; [|reflexivity].
  rewrite !bind_lift. cbn [fst snd].
  destruct (im_dummy s) eqn:Es; [|reflexivity]. now apply add_dof_dummy.
Qed.
