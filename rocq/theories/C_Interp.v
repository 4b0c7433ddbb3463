(** Properties of interpolation polarizability models (C18-C30): statements only.
    [reachable m]: some history of add_dof / add_dof_from_files / add_dof_from_pymatgen /
    mask assignment / unmask calls on a new model ends in [m].  [spl] is SciPy's spline
    evaluation for orders above one; first order is computed. *)
From Coq Require Import String ZArith Reals Lra Lia Bool Arith List.
From Verif Require Import Base LinAlg M_Validate M_StructUtils M_Symmetry M_Reference M_Interp
  S_Lattice S_Vec S_Symmetry S_Equivalent S_Interp P_Examples1
  P_Interp P_Interp2 P_InterpEval P_Interp3 P_Interp4 P_Interp5 P_Interp6 P_Interp7 P_InterpFinal P_Examples2.
Import ListNotations.
Local Open Scope R_scope.

(** C18 *)
Theorem C18_tables_consistent : forall m, reachable m -> consistent m /\ Forall unit_length (im_basis m).
Proof. exact f_C18. Qed.
Print Assumptions C18_tables_consistent.
Example C18_nonvacuous : exists m b1 b2, reachable m /\ im_basis m = [b1; b2] /\ im_dummy m = false.
Proof.
  destruct (ex_two mI) as (r & s1 & s2 & w1 & w2 & H). exists s2. do 2 eexists.
  split; [apply reachable_incl_reachable; apply H|split; apply H].
Qed.

(** C19: whatever the call, an exception leaves the model as it was. *)
Theorem C19_exception_safe : forall o s s' w e, run_op o s = ((s', w), Err e) -> s' = s.
Proof. exact f_C19. Qed.
Print Assumptions C19_exception_safe.
Example C19_nonvacuous : exists s, reachable s /\ im_basis s <> [] /\
  run_op (OpSetMask [7%nat] []) s = ((s, []), Err ValueError).
Proof.
  destruct (ex_two mI) as (r & s1 & s2 & w1 & w2 & H). exists s2.
  assert (R: reachable s2) by (apply reachable_incl_reachable; apply H).
  split; [auto|]. destruct (f_C18 _ R) as ((L & _) & _). destruct H as (_ & _ & _ & _ & _ & _ & _ & _ & _ & _ & B & _).
  rewrite B in *. split; [discriminate|]. simpl. unfold set_mask, bind, get, lift. rewrite L. reflexivity.
Qed.

(** C20 *)
Theorem C20_add_only_appends : forall cart amps pols order inc s s' w,
  valid_reference (im_ref s) ->
  add_dof cart amps pols order inc s = ((s', w), Ok tt) ->
  exists bs sps, bs <> [] /\
    im_basis s' = im_basis s ++ bs /\
    im_mask s' = im_mask s ++ repeat false (List.length bs) /\
    im_interp s' = im_interp s ++ sps /\
    (im_dummy s = true -> sps = []) /\ (im_dummy s = false -> List.length sps = List.length bs) /\
    im_ref s' = im_ref s /\ im_refpol s' = im_refpol s /\ im_dummy s' = im_dummy s.
Proof. exact f_C20. Qed.
Print Assumptions C20_add_only_appends.
(** No call of any kind changes the structure, the reference polarizability or the flag. *)
Theorem C20_frame : forall s ops, im_ref (run s ops) = im_ref s /\ im_refpol (run s ops) = im_refpol s /\
  im_dummy (run s ops) = im_dummy s.
Proof. exact run_frame. Qed.
Print Assumptions C20_frame.
Example C20_nonvacuous : exists s s' w, reachable s /\ im_basis s <> [] /\ valid_reference (im_ref s) /\
  add_dof (Fin (ex_cart ex_d2)) (vec_arr ex_amps) (mats_arr (ex_pols mI)) 2 true s = ((s', w), Ok tt).
Proof.
  destruct (ex_two mI) as (r & s1 & s2 & w1 & w2 & Hi & _ & _ & _ & A2 & R1 & _ & _ & _ & B1 & _ & Hr & _).
  exists s1, s2, w2. split; [apply reachable_incl_reachable; auto|].
  split; [rewrite B1; discriminate|]. split; [rewrite R1; eapply identity_first_valid; eauto|auto].
Qed.

(** C21: every sample gets its own value, given by a formula in which only that sample
    occurs; concatenating batches concatenates results. *)
Theorem C21_pointwise : forall spl m xs, reachable m -> im_dummy m = false ->
  sample_shape (List.length (rs_positions (im_ref m))) xs ->
  exists us, Forall2 (displacement_from (im_ref m)) xs us /\
  calc_polarizabilities spl m (batch_of (List.length (rs_positions (im_ref m))) xs) =
  Ok (map (fun u => madd (prediction (eval_spline spl) u (im_basis m) (im_interp m) (im_mask m)) (im_refpol m)) us).
Proof. exact f_C21. Qed.
Print Assumptions C21_pointwise.
Theorem C21_concatenation : forall spl m xs ys, reachable m -> im_dummy m = false ->
  let n := List.length (rs_positions (im_ref m)) in
  sample_shape n xs -> sample_shape n ys ->
  exists rx ry, List.length rx = List.length xs /\ List.length ry = List.length ys /\
    calc_polarizabilities spl m (batch_of n xs) = Ok rx /\
    calc_polarizabilities spl m (batch_of n ys) = Ok ry /\
    calc_polarizabilities spl m (batch_of n (xs ++ ys)) = Ok (rx ++ ry) /\
    forall i p, nth_error xs i = Some p -> exists a, nth_error rx i = Some a /\
      calc_polarizabilities spl m (batch_of n [p]) = Ok [a].
Proof. exact f_C21b. Qed.
Print Assumptions C21_concatenation.

(** C22 *)
Theorem C22_periodic : forall spl m xs ys, reachable m ->
  let n := List.length (rs_positions (im_ref m)) in
  sample_shape n xs -> Forall2 same_mod_lattice xs ys ->
  calc_polarizabilities spl m (batch_of n xs) = calc_polarizabilities spl m (batch_of n ys).
Proof. exact f_C22. Qed.
Print Assumptions C22_periodic.
Example C21_C22_nonvacuous : exists m xs ys, reachable m /\ im_dummy m = false /\ im_basis m <> [] /\
  List.length xs = 2%nat /\ sample_shape (List.length (rs_positions (im_ref m))) xs /\
  xs <> ys /\ Forall2 same_mod_lattice xs ys.
Proof.
  destruct (ex_two mI) as (r & s1 & s2 & w1 & w2 & Hi & _ & Hp & _ & _ & _ & R2 & _ & D2 & _ & B2 & _ & Hr).
  exists s2, [ex_pos; [v0; v0]], [ex_pos; [mkV 1 0 0; mkV (-2) 0 0]]. rewrite R2, Hp, B2.
  split; [apply reachable_incl_reachable; auto|]. split; [auto|]. split; [discriminate|]. split; [auto|].
  split; [repeat constructor|]. split.
  - intros E. injection E as E _. lra.
  - assert (Z: forall a, congr1 a a) by (intros a; exists 0%Z; lra).
    repeat constructor; simpl; auto; [exists (-1)%Z|exists 2%Z]; lra.
Qed.

(** C23: masks.  True switches a DOF off. *)
Theorem C23_masked_model : forall m idx,
  let J := List.length (im_mask m) in
  ((forall i, In i idx -> - Z.of_nat J <= i < Z.of_nat J)%Z ->
     exists mask, get_masked_model m idx =
        Ok (mkIM (im_ref m) (im_refpol m) (im_dummy m) (im_basis m) (im_interp m) mask) /\
        List.length mask = J /\
        forall j, (j < J)%nat ->
          (nth_error mask j = Some true <-> In (Z.of_nat j) idx \/ In (Z.of_nat j - Z.of_nat J)%Z idx)) /\
  ((exists i, In i idx /\ ~ (- Z.of_nat J <= i < Z.of_nat J)%Z) -> get_masked_model m idx = Err IndexError).
Proof. exact f_C23_masked. Qed.
Print Assumptions C23_masked_model.
Theorem C23_unmask : forall m m' w r, unmask m = ((m', w), r) ->
  r = Ok tt /\ m' = mkIM (im_ref m) (im_refpol m) (im_dummy m) (im_basis m) (im_interp m)
                         (repeat false (List.length (im_mask m))).
Proof. exact f_C23_unmask. Qed.
Print Assumptions C23_unmask.
Theorem C23_setter : forall m shape value, List.length value = fold_right Nat.mul 1%nat shape ->
  (shape = [List.length (im_mask m)] -> set_mask shape value m =
     ((mkIM (im_ref m) (im_refpol m) (im_dummy m) (im_basis m) (im_interp m) value, []), Ok tt)) /\
  (shape <> [List.length (im_mask m)] -> set_mask shape value m = ((m, []), Err ValueError)).
Proof. exact f_C23_setter. Qed.
Print Assumptions C23_setter.
(** The contributions under a mask and under its complement add up to those of all DOFs. *)
Theorem C23_complement : forall spl m mask xs ma mb mc, reachable m -> im_dummy m = false ->
  let n := List.length (rs_positions (im_ref m)) in
  sample_shape n xs ->
  set_mask [List.length mask] mask m = ((ma, []), Ok tt) ->
  set_mask [List.length mask] (map negb mask) m = ((mb, []), Ok tt) ->
  unmask m = ((mc, []), Ok tt) ->
  exists ra rb rc,
    calc_polarizabilities spl ma (batch_of n xs) = Ok ra /\
    calc_polarizabilities spl mb (batch_of n xs) = Ok rb /\
    calc_polarizabilities spl mc (batch_of n xs) = Ok rc /\
    map (fun a => msub a (im_refpol m)) rc =
    map2 madd (map (fun a => msub a (im_refpol m)) ra) (map (fun a => msub a (im_refpol m)) rb).
Proof. exact f_C23_complement_api. Qed.
Print Assumptions C23_complement.
(** With every DOF masked the reference polarizability is returned. *)
Theorem C23_all_masked : forall spl m xs ma, reachable m -> im_dummy m = false ->
  let n := List.length (rs_positions (im_ref m)) in
  sample_shape n xs ->
  set_mask [List.length (im_basis m)] (repeat true (List.length (im_basis m))) m = ((ma, []), Ok tt) ->
  calc_polarizabilities spl ma (batch_of n xs) = Ok (repeat (im_refpol m) (List.length xs)).
Proof. exact f_C23_all. Qed.
Print Assumptions C23_all_masked.
Example C23_nonvacuous : exists m ma mb mc, reachable m /\ im_dummy m = false /\
  set_mask [2%nat] [true; false] m = ((ma, []), Ok tt) /\ set_mask [2%nat] [false; true] m = ((mb, []), Ok tt) /\
  unmask m = ((mc, []), Ok tt).
Proof.
  destruct (ex_two mI) as (r & s1 & s2 & w1 & w2 & Hi & _ & Hp & _ & _ & _ & R2 & _ & D2 & _ & B2 & _ & Hr).
  assert (R: reachable s2) by (apply reachable_incl_reachable; auto).
  destruct (f_C18 _ R) as ((L & _) & _). rewrite B2 in L. exists s2. do 3 eexists. split; [auto|]. split; [auto|].
  split; [apply f_C23_setter; [auto|rewrite L; auto]|]. split; [apply f_C23_setter; [auto|rewrite L; auto]|reflexivity].
Qed.

(** C24 *)
Theorem C24_reference_polarizability : forall spl m xs, interpolating spl -> reachable_incl m -> im_dummy m = false ->
  Forall (fun p => same_mod_lattice p (rs_positions (im_ref m))) xs ->
  calc_polarizabilities spl m (batch_of (List.length (rs_positions (im_ref m))) xs) =
  Ok (repeat (im_refpol m) (List.length xs)).
Proof. exact f_C24. Qed.
Print Assumptions C24_reference_polarizability.
Example C24_nonvacuous : exists spl m, interpolating spl /\ reachable_incl m /\ im_dummy m = false /\
  List.length (im_basis m) = 2%nat.
Proof.
  destruct interpolating_exists as (spl & Hs).
  destruct (ex_two mI) as (r & s1 & s2 & w1 & w2 & Hi & _ & Hp & _ & _ & _ & R2 & _ & D2 & _ & B2 & _ & Hr).
  exists spl, s2. rewrite B2. auto.
Qed.

(** C25 *)
Theorem C25_reproduces_data : forall spl others cart amps pols order s s' w, interpolating spl ->
  reachable_incl s -> im_dummy s = false -> identity_first (im_ref s) others ->
  rarr_wf amps -> rarr_wf pols -> List.length cart = List.length (rs_positions (im_ref s)) -> ra_data amps <> [] ->
  add_dof (Fin cart) amps pols order true s = ((s', w), Ok tt) ->
  let k := List.length (im_basis s) in
  exists b, nth_error (im_basis s') k = Some b /\ unit_length b /\
    (forall d, half_cell d -> cart = rows_mul d (rs_lattice (im_ref s)) -> b = direction_of cart) /\
    ((forall j c, j <> k -> nth_error (im_basis s') j = Some c -> inner (rowsR c) (rowsR b) = 0) ->
     forall i a alpha p, nth_error (ra_data amps) i = Some a -> nth_error (mats_of (ra_data pols)) i = Some alpha ->
       List.length p = List.length (rs_positions (im_ref s)) ->
       displacement_from (im_ref s) p (rows_scale a b) ->
       calc_polarizabilities spl s' (batch_of (List.length (rs_positions (im_ref s))) [p]) = Ok [alpha]).
Proof. exact f_C25. Qed.
Print Assumptions C25_reproduces_data.
Example C25_nonvacuous : exists spl s s' w, interpolating spl /\ reachable_incl s /\ im_dummy s = false /\
  identity_first (im_ref s) [] /\
  add_dof (Fin (ex_cart ex_d2)) (vec_arr ex_amps) (mats_arr (ex_pols mI)) 2 true s = ((s', w), Ok tt) /\
  (forall j b c, j <> 1%nat -> nth_error (im_basis s') 1 = Some b -> nth_error (im_basis s') j = Some c ->
     inner (rowsR c) (rowsR b) = 0).
Proof.
  destruct interpolating_exists as (spl & Hs).
  destruct (ex_two mI) as (r & s1 & s2 & w1 & w2 & Hi & _ & Hp & _ & A2 & R1 & R2 & D1 & D2 & B1 & B2 & Hr1 & Hr).
  exists spl, s1, s2, w2. rewrite R1, B2. repeat (split; [auto; fail|]).
  intros [|[|[|j]]] b c Hj; simpl; try tauto; try discriminate; intros [= <-] [= <-].
  change (inner (rowsR (direction_of (ex_cart ex_d1))) (rowsR (direction_of (ex_cart ex_d2))) = 0).
  unfold direction_of at 2. rewrite P_Interp6.inner_scale_r. unfold direction_of. rewrite ex_cart_orth. ring.
Qed.

(** C26: any complete orthonormal set of directions; the response [l] is any linear map. *)
Theorem C26_linear_response_exact : forall spl r pol l carts m xs us, identity_first r [] ->
  let n := List.length (rs_positions r) in
  linear_response n l -> adds r pol l carts m ->
  orthonormal (map direction_of carts) -> spans n (map direction_of carts) ->
  sample_shape n xs -> Forall2 (displacement_from r) xs us ->
  calc_polarizabilities spl m (batch_of n xs) = Ok (map (fun u => madd pol (l u)) us).
Proof. exact f_C26. Qed.
Print Assumptions C26_linear_response_exact.
(** Also with symmetry: the stored data need only lie on the response, however it was
    generated. *)
Theorem C26_linear_response_exact_tables : forall spl m l xs us, reachable m -> im_dummy m = false ->
  let n := List.length (rs_positions (im_ref m)) in
  linear_response n l -> orthonormal (im_basis m) -> spans n (im_basis m) ->
  Forall (fun k => k = false) (im_mask m) ->
  Forall2 (fun b sp => sp_order sp = 1%nat /\ forall p, In p (sp_pts sp) -> snd p = mscale (fst p) (l b))
    (im_basis m) (im_interp m) ->
  sample_shape n xs -> Forall2 (displacement_from (im_ref m)) xs us ->
  calc_polarizabilities spl m (batch_of n xs) = Ok (map (fun u => madd (im_refpol m) (l u)) us).
Proof. exact f_C26_tables. Qed.
Print Assumptions C26_linear_response_exact_tables.
Example C26_nonvacuous : exists r m, identity_first r [] /\ linear_response (List.length (rs_positions r)) c26_l /\
  adds r mI c26_l [c26_d 0; c26_d 1; c26_d 2] m /\
  orthonormal (map direction_of [c26_d 0; c26_d 1; c26_d 2]) /\
  spans (List.length (rs_positions r)) (map direction_of [c26_d 0; c26_d 1; c26_d 2]).
Proof.
  destruct (c26_adds mI) as (r & m & H1 & H2 & H3). exists r, m. simpl map. rewrite !c26_dir, H2.
  split; [auto|]. split; [apply c26_linear|]. split; [auto|]. split; [apply c26_orthonormal|apply c26_spans].
Qed.

(** C27 *)
Theorem C27_dummy_models : forall spl m xs, reachable m -> im_dummy m = true ->
  let n := List.length (rs_positions (im_ref m)) in
  sample_shape n xs ->
  (im_basis m <> [] -> calc_polarizabilities spl m (batch_of n xs) = Err UserError) /\
  (im_basis m = [] -> calc_polarizabilities spl m (batch_of n xs) = Ok (repeat m0 (List.length xs))).
Proof. exact f_C27. Qed.
Print Assumptions C27_dummy_models.
Example C27_nonvacuous : exists m b, reachable m /\ im_dummy m = true /\ im_basis m = [b].
Proof. destruct (ex_dummy mI) as (m & H1 & H2 & H3 & _). exists m. eexists. split; [exact H1|split; [exact H2|exact H3]]. Qed.

(** C28 *)
Theorem C28_stored_points : forall cart amps pols order inc s s' w,
  add_dof cart amps pols order inc s = ((s', w), Ok tt) ->
  (1 <= order)%Z /\
  exists sps ws, im_interp s' = (if im_dummy s then im_interp s else im_interp s ++ sps) /\
    List.length (im_basis s') = (List.length (im_basis s) + List.length sps)%nat /\
    Forall (fun sp => Z.of_nat (sp_order sp) = order /\ (order < Z.of_nat (List.length (sp_pts sp)))%Z /\
       increasing (sp_pts sp) /\
       forall p q, In p (sp_pts sp) -> In q (sp_pts sp) -> fst p <> fst q -> / 100000000 < Rabs (fst p - fst q)) sps /\
    w = List.concat ws /\
    Forall2 (fun sp wl => NoDup wl /\ forall x, In x wl <-> due_warning (sp_pts sp) x) sps ws.
Proof. exact f_C28_pos. Qed.
Print Assumptions C28_stored_points.
Theorem C28_close_amplitudes_rejected : forall cart amps pols order inc s s' w,
  valid_reference (im_ref s) -> rarr_wf pols ->
  add_dof cart amps pols order inc s = ((s', w), Ok tt) ->
  (forall i j x y, (i < j)%nat -> nth_error (ra_data amps) i = Some x -> nth_error (ra_data amps) j = Some y ->
     ~ too_close x y) /\
  (inc = true -> forall x, In x (ra_data amps) -> ~ too_close 0 x).
Proof. exact f_C28_neg. Qed.
Print Assumptions C28_close_amplitudes_rejected.
Theorem C28_order_below_one : forall cart amps pols order order' inc s s' w,
  add_dof cart amps pols order inc s = ((s', w), Ok tt) -> (order' < 1)%Z ->
  add_dof cart amps pols order' inc s = ((s, []), Err ValueError).
Proof. exact f_C28_order. Qed.
Print Assumptions C28_order_below_one.
Theorem C28_order_below_one_always : forall cart amps pols order inc s, (order < 1)%Z ->
  exists e, add_dof cart amps pols order inc s = ((s, []), Err e).
Proof. exact f_C28_order_always. Qed.
Print Assumptions C28_order_below_one_always.

(** C29 *)
Theorem C29_only_direction_matters : forall c d amps pols order inc s, 0 < c -> half_cell d -> half_cell (rows_scale c d) ->
  let cart := rows_mul d (rs_lattice (im_ref s)) in
  add_dof (Fin (rows_scale c cart)) amps pols order inc s = add_dof (Fin cart) amps pols order inc s.
Proof. exact f_C29. Qed.
Print Assumptions C29_only_direction_matters.
Example C29_nonvacuous : half_cell ex_d1 /\ half_cell (rows_scale 3 ex_d1).
Proof. split; [exact ex_d1_half|]. unfold ex_d1. repeat constructor; simpl; lra. Qed.
Theorem C29_magnitude_ignored_refuted : exists r cart amps pols order pol s1 s2 w1 w2 b1 b2,
  valid_reference r /\ mdet (rs_lattice r) <> 0 /\
  add_dof (Fin cart) amps pols order true (make_model r pol false) = ((s1, w1), Ok tt) /\
  add_dof (Fin (rows_scale 2 cart)) amps pols order true (make_model r pol false) = ((s2, w2), Ok tt) /\
  im_basis s1 = [b1] /\ im_basis s2 = [b2] /\ ~ collinear_spec (rowsR b1) (rowsR b2).
Proof. exact f_C29_refuted. Qed.
Print Assumptions C29_magnitude_ignored_refuted.

(** C30: (S,n,c) with n in {N,1} and c in {3,1} is accepted and treated as its broadcast
    copy; every other rank-3 shape is rejected, and so is every array of another rank with
    no zero extent. *)
Theorem C30_broadcast : forall spl m b ns n c, reachable m ->
  let N := List.length (rs_positions (im_ref m)) in
  b_shape b = [ns; n; c] -> (n = N \/ n = 1)%nat -> (c = 3 \/ c = 1)%nat ->
  calc_polarizabilities spl m b = calc_polarizabilities spl m (batch_of N (broadcast_samples b ns n c N)) /\
  (im_dummy m = false -> exists out, calc_polarizabilities spl m b = Ok out /\ List.length out = ns).
Proof. exact f_C30_ok. Qed.
Print Assumptions C30_broadcast.
Theorem C30_shape_errors : forall spl m b, reachable m -> im_dummy m = false -> im_basis m <> [] ->
  let N := List.length (rs_positions (im_ref m)) in
  (forall ns n c, b_shape b = [ns; n; c] -> ~ ((n = N \/ n = 1)%nat /\ (c = 3 \/ c = 1)%nat)) ->
  (List.length (b_shape b) = 3%nat \/ Forall (fun d => (0 < d)%nat) (b_shape b)) ->
  calc_polarizabilities spl m b = Err ValueError.
Proof. exact f_C30_err. Qed.
Print Assumptions C30_shape_errors.
Example C28_C30_nonvacuous : exists m b, reachable m /\ im_dummy m = false /\ im_basis m <> [] /\ 
  List.length (rs_positions (im_ref m)) = 2%nat /\ b_shape b = [4%nat; 1%nat; 3%nat].
Proof.
  destruct (ex_two mI) as (r & s1 & s2 & w1 & w2 & Hi & _ & Hp & _ & _ & _ & R2 & _ & D2 & _ & B2 & _ & Hr).
  exists s2, (mkBatch [4%nat; 1%nat; 3%nat] (fun s i c => INR (s + c))). rewrite R2, Hp, B2.
  split; [apply reachable_incl_reachable; auto|]. repeat split; auto. discriminate.
Qed.
