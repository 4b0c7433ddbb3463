(** Proofs of C18-C24, C27: histories, masks, batches. *)
From Coq Require Import String ZArith Reals Lra Lia Bool Arith List.
From Verif Require Import Base LinAlg M_Validate M_StructUtils M_Symmetry M_Reference M_Interp
  S_Lattice S_Vec S_Symmetry S_Equivalent S_Interp P_StructUtils P_Symmetry P_Equivalent P_EquivTotal
  P_Interp P_Interp2 P_InterpEval.
Import ListNotations.
Local Open Scope R_scope.

Lemma f_C18 m : reachable m -> consistent m /\ Forall unit_length (im_basis m).
Proof.
  intros H. apply reachable_inv in H as (_ & C & B & _). split; auto.
  eapply Forall_impl; [|exact B]. intros b [_ U]; auto.
Qed.

Lemma f_C19 o s s' w e : run_op o s = ((s', w), Err e) -> s' = s.
Proof. intros H. apply run_op_cases in H as [(e' & _ & ->)|(E & _)]; [auto|discriminate]. Qed.

Lemma make_reference_ops nu L pos ops eq r : make_reference nu L pos (Some (ops, eq)) = Ok r ->
  rs_ops r = ops /\ rs_positions r = pos /\ rs_lattice r = L /\ rs_numbers r = nu /\ rs_equiv r = eq /\
  compute_permutation_matrices ops pos = Ok (rs_perms r).
Proof.
  unfold make_reference. simpl. destruct (verify_ndarray_shape _ _); simpl; [|discriminate].
  destruct (compute_permutation_matrices _ _); simpl; [|discriminate]. intros E. injection E as E. rewrite <- E.
  repeat split.
Qed.

Lemma f_C20 cart amps pols order inc s s' w :
  valid_reference (im_ref s) ->
  add_dof cart amps pols order inc s = ((s', w), Ok tt) ->
  exists bs sps, bs <> [] /\
    im_basis s' = im_basis s ++ bs /\
    im_mask s' = im_mask s ++ repeat false (List.length bs) /\
    im_interp s' = im_interp s ++ sps /\
    (im_dummy s = true -> sps = []) /\ (im_dummy s = false -> List.length sps = List.length bs) /\
    im_ref s' = im_ref s /\ im_refpol s' = im_refpol s /\ im_dummy s' = im_dummy s.
Proof.
  intros Hr H.
  apply add_dof_cases in H as [(e & E & _)|(_ & Ho & disp & dofs & bs & pss & H1 & H2 & H3 & H4 & H5 & H6 & H7 & H8 & ->)];
    [discriminate|].
  assert (Hlen: List.length pss = List.length bs).
  { apply (f_equal (@List.length _)) in H5. rewrite !map_length in H5. rewrite <- H5.
    clear - H6. induction H6; simpl; auto. }
  assert (Hne: bs <> []).
  { intros ->. apply map_eq_nil in H5. subst dofs. apply get_dof_Ok in H4 as (_ & gs & G & F).
    inversion F; subst. pose proof (valid_reference_wf _ Hr) as Hwf.
    destruct Hr as (nu & L & pos & ops & eq & Hm & Hp & Hops).
    assert (rs_ops (im_ref s) = ops).
    { eapply make_reference_ops; eauto. }
    apply groups_nonempty in G; auto. rewrite H. auto. }
  exists bs, (if im_dummy s then [] else map (fun ps => mkSpline (Z.to_nat order) (sort_pts ps)) pss).
  unfold appended; simpl. split; [auto|split; [auto|split; [auto|]]].
  destruct (im_dummy s); rewrite ?app_nil_r; repeat split; auto; try discriminate.
  intros _. rewrite map_length. auto.
Qed.

(** ** Batches *)
Lemma f_C21 spl m xs : reachable m -> im_dummy m = false ->
  sample_shape (List.length (rs_positions (im_ref m))) xs ->
  exists us, Forall2 (displacement_from (im_ref m)) xs us /\
  calc_polarizabilities spl m (batch_of (List.length (rs_positions (im_ref m))) xs) =
  Ok (map (fun u => madd (prediction (eval_spline spl) u (im_basis m) (im_interp m) (im_mask m)) (im_refpol m)) us).
Proof.
  intros H Hd Hs. apply reachable_inv in H. exists (map (cart_disp (im_ref m)) xs). split.
  - apply Forall2_map_r. apply cart_disp_spec.
  - rewrite calc_regular, map_map by auto. reflexivity.
Qed.

Lemma f_C21b spl m xs ys : reachable m -> im_dummy m = false ->
  let n := List.length (rs_positions (im_ref m)) in
  sample_shape n xs -> sample_shape n ys ->
  exists rx ry, List.length rx = List.length xs /\ List.length ry = List.length ys /\
    calc_polarizabilities spl m (batch_of n xs) = Ok rx /\
    calc_polarizabilities spl m (batch_of n ys) = Ok ry /\
    calc_polarizabilities spl m (batch_of n (xs ++ ys)) = Ok (rx ++ ry) /\
    forall i p, nth_error xs i = Some p -> exists a, nth_error rx i = Some a /\
      calc_polarizabilities spl m (batch_of n [p]) = Ok [a].
Proof.
  intros H Hd n Hx Hy. apply reachable_inv in H.
  exists (map (predict spl m) xs), (map (predict spl m) ys). unfold n in *.
  rewrite !map_length. split; [auto|split; [auto|]].
  split; [apply calc_regular; auto|split; [apply calc_regular; auto|split]].
  - rewrite calc_regular by (auto; apply Forall_app; auto). rewrite map_app. auto.
  - intros i p Hi. exists (predict spl m p). split; [apply map_nth_error; auto|].
    rewrite calc_regular; auto. constructor; [|constructor].
    unfold sample_shape in Hx. rewrite Forall_forall in Hx. apply Hx. eapply nth_error_In; eauto.
Qed.

Lemma same_sample_shape n xs ys : Forall2 same_mod_lattice xs ys -> sample_shape n xs -> sample_shape n ys.
Proof.
  intros H; induction H as [|x y xs ys E H IH]; intros S; [constructor|]. inversion S; subst. constructor; auto.
  symmetry. apply same_length; auto.
  apply IH; auto.
Qed.

Lemma f_C22 spl m xs ys : reachable m -> 
  let n := List.length (rs_positions (im_ref m)) in
  sample_shape n xs -> Forall2 same_mod_lattice xs ys ->
  calc_polarizabilities spl m (batch_of n xs) = calc_polarizabilities spl m (batch_of n ys).
Proof.
  intros H n Hx E. apply reachable_inv in H. unfold n in *.
  unfold calc_polarizabilities.
  rewrite !batch_displacements_regular by (auto; eapply same_sample_shape; eauto).
  assert (K: map (fun p => flatten_rows (cart_disp (im_ref m) p)) xs = map (fun p => flatten_rows (cart_disp (im_ref m) p)) ys).
  { clear - E. induction E; simpl; auto. rewrite IHE. f_equal. f_equal. apply cart_disp_periodic; auto. }
  rewrite K. auto.
Qed.

(** ** Masks *)
Lemma mask_indexes_length idx mask mask' : mask_indexes idx mask = Ok mask' -> List.length mask' = List.length mask.
Proof.
  revert mask; induction idx as [|i idx IH]; simpl; intros mask; [intros [= <-]; auto|].
  destruct (py_index _ _); [|discriminate]. intros H. apply IH in H. rewrite set_nth_length in H. auto.
Qed.
Lemma mask_indexes_spec idx mask mask' : mask_indexes idx mask = Ok mask' ->
  forall j, (j < List.length mask)%nat ->
    (nth_error mask' j = Some true <-> nth_error mask j = Some true \/ exists i, In i idx /\ py_index (List.length mask) i = Some j).
Proof.
  revert mask; induction idx as [|i idx IH]; simpl; intros mask.
  - intros [= <-] j Hj. split; [auto|intros [H|(i & [] & _)]; auto].
  - destruct (py_index (List.length mask) i) as [k|] eqn:E; [|discriminate].
    intros H j Hj. rewrite (IH _ H j) by (rewrite set_nth_length; auto).
    rewrite set_nth_length, set_nth_nth_error.
    destruct (Nat.eqb_spec j k).
    + subst. destruct (Nat.ltb_spec k (List.length mask)); [|lia]. split; intros _; [right; exists i; auto|left; auto].
    + split; [intros [G|(i' & G1 & G2)]; [auto|right; exists i'; auto]|].
      intros [G|(i' & [<-|G1] & G2)]; auto; [|right; exists i'; auto]. rewrite E in G2. injection G2 as ->. tauto.
Qed.
Lemma mask_indexes_ok idx mask : (forall i, In i idx -> py_index (List.length mask) i <> None) ->
  exists mask', mask_indexes idx mask = Ok mask'.
Proof.
  revert mask; induction idx as [|i idx IH]; simpl; intros mask H; [eauto|].
  destruct (py_index (List.length mask) i) as [k|] eqn:E.
  - apply IH. intros j Hj. rewrite set_nth_length. auto.
  - exfalso. apply (H i); auto.
Qed.
Lemma mask_indexes_err idx mask : (exists i, In i idx /\ py_index (List.length mask) i = None) ->
  mask_indexes idx mask = Err IndexError.
Proof.
  revert mask; induction idx as [|i idx IH]; simpl; intros mask (j & Hj & E); [destruct Hj|].
  destruct Hj as [->|Hj]; [rewrite E; auto|].
  destruct (py_index (List.length mask) i) as [k|] eqn:F; auto.
  apply IH. exists j. rewrite set_nth_length. auto.
Qed.

Lemma f_C23_masked m idx :
  let J := List.length (im_mask m) in
  ((forall i, In i idx -> - Z.of_nat J <= i < Z.of_nat J)%Z ->
     exists mask, get_masked_model m idx =
        Ok (mkIM (im_ref m) (im_refpol m) (im_dummy m) (im_basis m) (im_interp m) mask) /\
        List.length mask = J /\
        forall j, (j < J)%nat ->
          (nth_error mask j = Some true <-> In (Z.of_nat j) idx \/ In (Z.of_nat j - Z.of_nat J)%Z idx)) /\
  ((exists i, In i idx /\ ~ (- Z.of_nat J <= i < Z.of_nat J)%Z) -> get_masked_model m idx = Err IndexError).
Proof.
  intros J. unfold get_masked_model. set (z := map (fun _ => false) (im_mask m)).
  assert (HJ: List.length z = J) by (apply map_length).
  split.
  - intros H. destruct (mask_indexes_ok idx z) as (mask & E).
    { intros i Hi. rewrite HJ. intros N. apply py_index_None in N. specialize (H i Hi). lia. }
    rewrite E. simpl. exists mask. split; [auto|split].
    + apply mask_indexes_length in E. lia.
    + intros j Hj. rewrite (mask_indexes_spec _ _ _ E) by lia. rewrite HJ. split.
      * intros [G|(i & Hi & G)].
        -- exfalso. unfold z in G. rewrite nth_error_map in G. destruct (nth_error (im_mask m) j); discriminate.
        -- apply py_index_Some in G as [_ [-> | ->]]; auto.
      * intros [G|G]; right; eexists; (split; [exact G|]); apply py_index_Some; split; auto.
  - intros (i & Hi & N). rewrite mask_indexes_err; auto. exists i. split; auto.
    rewrite HJ. apply py_index_None. lia.
Qed.

Lemma f_C23_unmask m m' w r : unmask m = ((m', w), r) ->
  r = Ok tt /\ m' = mkIM (im_ref m) (im_refpol m) (im_dummy m) (im_basis m) (im_interp m)
                         (repeat false (List.length (im_mask m))).
Proof.
  unfold unmask, bind, get, put. simpl. intros [= <- <- <-]. split; auto. f_equal.
  induction (im_mask m); simpl; congruence.
Qed.

Lemma prediction_complement value u basis interps mask :
  List.length interps = List.length basis -> List.length mask = List.length basis ->
  madd (prediction value u basis interps mask) (prediction value u basis interps (map negb mask)) =
  prediction value u basis interps (repeat false (List.length mask)).
Proof.
  revert interps mask; induction basis as [|b basis IH]; intros [|s interps] [|k mask]; simpl; try discriminate; intros H1 H2.
  - apply madd_m0_l.
  - rewrite <- IH by lia. destruct k; simpl; vring.
Qed.

Definition with_mask (m : imodel) (mask : list bool) : imodel :=
  mkIM (im_ref m) (im_refpol m) (im_dummy m) (im_basis m) (im_interp m) mask.

Lemma with_mask_inv m mask : inv m -> List.length mask = List.length (im_mask m) -> inv (with_mask m mask).
Proof.
  intros (H1 & (C1 & C2 & C3) & H3 & H4) E. split; [auto|split; [|split; auto]].
  split; simpl; [lia|auto].
Qed.

Lemma f_C23_complement spl m mask xs : reachable m -> im_dummy m = false ->
  let n := List.length (rs_positions (im_ref m)) in
  sample_shape n xs -> List.length mask = List.length (im_mask m) ->
  exists ra rb rc,
    calc_polarizabilities spl (with_mask m mask) (batch_of n xs) = Ok ra /\
    calc_polarizabilities spl (with_mask m (map negb mask)) (batch_of n xs) = Ok rb /\
    calc_polarizabilities spl (with_mask m (repeat false (List.length mask))) (batch_of n xs) = Ok rc /\
    map (fun a => msub a (im_refpol m)) rc =
    map2 madd (map (fun a => msub a (im_refpol m)) ra) (map (fun a => msub a (im_refpol m)) rb).
Proof.
  intros H Hd n Hs Hm. apply reachable_inv in H.
  assert (C: forall k, List.length k = List.length (im_mask m) ->
     calc_polarizabilities spl (with_mask m k) (batch_of n xs) = Ok (map (predict spl (with_mask m k)) xs)).
  { intros k Hk. apply (calc_regular spl (with_mask m k)); auto. apply with_mask_inv; auto. }
  exists (map (predict spl (with_mask m mask)) xs), (map (predict spl (with_mask m (map negb mask))) xs),
    (map (predict spl (with_mask m (repeat false (List.length mask)))) xs).
  split; [apply C; auto|split; [apply C; rewrite map_length; auto|split; [apply C; rewrite repeat_length; auto|]]].
  rewrite !map_map, map2_map_l, map2_map_r, map2_diag. apply map_ext. intros p. unfold predict; simpl.
  destruct H as (_ & (C1 & C2 & _) & _).
  rewrite <- (prediction_complement _ _ _ _ mask); [vring|auto|lia].
Qed.

(** ** Reference *)
Definition zero_pt (s : spline) : Prop := In (0, m0) (sp_pts s).

Lemma add_dof_zero cart amps pols order s s' w r :
  Forall zero_pt (im_interp s) -> add_dof cart amps pols order true s = ((s', w), r) ->
  Forall zero_pt (im_interp s').
Proof.
  intros I H. apply add_dof_cases in H as [(e & -> & ->)|(-> & Ho & disp & dofs & bs & pss & H1 & H2 & H3 & H4 & H5 & H6 & H7 & H8 & ->)]; auto.
  unfold appended; simpl. destruct (im_dummy s); auto. apply Forall_app. split; auto.
  apply get_dof_Ok in H4 as (_ & gs & _ & F).
  clear H5 H7 H8. revert gs F. induction H6 as [|d ps dofs pss Ed H6 IH]; intros gs F; simpl; [constructor|].
  inversion F as [|g ? gs' ? Hd F']; subst. constructor; [|eapply IH; eauto].
  apply dof_of_group_Ok in Hd as (child & rest & qss & _ & _ & E & _).
  unfold zero_pt; simpl. apply sort_pts_In. rewrite E in Ed. simpl in Ed.
  destruct ps as [|[x y] ps]; simpl in Ed; [discriminate|]. injection Ed as -> -> _. simpl; auto.
Qed.

Lemma run_zero s ops : Forall includes_ref ops -> Forall zero_pt (im_interp s) -> Forall zero_pt (im_interp (run s ops)).
Proof.
  unfold run. revert s; induction ops as [|o ops IH]; intros s W I; simpl; auto.
  inversion W; subst. apply IH; auto. unfold step. destruct (run_op o s) as [[s' w] r] eqn:E. simpl.
  apply run_op_cases in E as [(e & _ & ->)|(_ & [(c & a & p & k & i & E & Hi)|(mask & -> & _)])]; auto.
  rewrite Hi in E by auto. eapply add_dof_zero; eauto.
Qed.

Lemma reachable_incl_zero m : reachable_incl m -> Forall zero_pt (im_interp m).
Proof.
  intros (r & pol & dummy & ops & Hr & W & I & ->). apply run_zero; auto. constructor.
Qed.
Lemma reachable_incl_reachable m : reachable_incl m -> reachable m.
Proof. intros (r & pol & dummy & ops & Hr & W & I & E). left. exists r, pol, dummy, ops. auto. Qed.

Lemma inner_zero_rows b u : Forall (fun v => v = v0) u -> inner (rowsR b) (rowsR u) = 0.
Proof.
  intros H. rewrite inner_rows. revert b; induction H as [|v u E H IH]; intros [|w b]; auto.
  subst. rewrite rows_dot_cons, IH, vdot_v0_r. ring.
Qed.

Lemma prediction_zero spl u basis interps mask : interpolating spl ->
  (forall b, In b basis -> inner (rowsR b) (rowsR u) = 0) -> Forall spline_ok interps -> Forall zero_pt interps ->
  prediction (eval_spline spl) u basis interps mask = m0.
Proof.
  intros Hi. revert interps mask; induction basis as [|b basis IH]; intros [|s interps] [|k mask] Hb Ho Hz; simpl; auto.
  inversion Ho; inversion Hz; subst. rewrite IH; auto; [|intros; apply Hb; simpl; auto].
  rewrite Hb by (simpl; auto). destruct k; [apply madd_m0_l|].
  rewrite (eval_spline_knot spl s 0 m0); auto. apply madd_m0_l.
Qed.

Lemma cart_disp_self r p : same_mod_lattice p (rs_positions r) -> Forall (fun v => v = v0) (cart_disp r p).
Proof.
  intros H. rewrite (cart_disp_periodic _ _ _ H). unfold cart_disp, rows_mul, apply_pbc_displacement, rows_sub.
  rewrite map2_diag, !map_map. apply Forall_forall. intros v Hv. apply in_map_iff in Hv as (w & <- & _).
  rewrite vsub_diag. replace (vmap wrapd v0) with v0 by (apply V3_eq; simpl; symmetry; apply wrapd_0).
  apply vmul_v0.
Qed.

Lemma f_C24 spl m xs : interpolating spl -> reachable_incl m -> im_dummy m = false ->
  Forall (fun p => same_mod_lattice p (rs_positions (im_ref m))) xs ->
  calc_polarizabilities spl m (batch_of (List.length (rs_positions (im_ref m))) xs) =
  Ok (repeat (im_refpol m) (List.length xs)).
Proof.
  intros Hi H Hd Hx. pose proof (reachable_incl_zero m H) as Hz.
  apply reachable_incl_reachable, reachable_inv in H.
  rewrite calc_regular; auto.
  - f_equal. clear - Hi H Hz Hx. induction xs as [|p xs IH]; simpl; auto. inversion Hx; subst. rewrite IH by auto. f_equal.
    unfold predict. rewrite prediction_zero; auto; [apply madd_m0_l| |apply H].
    intros b _. apply inner_zero_rows. apply cart_disp_self; auto.
  - eapply Forall_impl; [|exact Hx]. intros p Hp. apply same_length; auto.
Qed.

(** ** Dummy models *)
Lemma dummy_refpol m : reachable m -> im_dummy m = true -> im_refpol m = m0.
Proof.
  intros [(r & pol & dummy & ops & _ & _ & ->)|(r & pol & dummy & ops & _ & _ & ->)].
  - destruct (run_frame (make_model r pol dummy) ops) as (_ & -> & ->). simpl. intros ->. auto.
  - destruct (arun_frame (make_model r pol dummy) ops) as (_ & -> & ->). simpl. intros ->. auto.
Qed.
Lemma f_C27 spl m xs : reachable m -> im_dummy m = true ->
  let n := List.length (rs_positions (im_ref m)) in
  sample_shape n xs ->
  (im_basis m <> [] -> calc_polarizabilities spl m (batch_of n xs) = Err UserError) /\
  (im_basis m = [] -> calc_polarizabilities spl m (batch_of n xs) = Ok (repeat m0 (List.length xs))).
Proof.
  intros H Hd n Hs. pose proof (dummy_refpol m H Hd) as Hp. apply reachable_inv in H. split; intros Hb.
  - apply calc_dummy; auto.
  - unfold calc_polarizabilities, n in *. rewrite batch_displacements_regular by auto. simpl rbind. cbv iota beta.
    destruct H as (_ & (C1 & C2 & C3) & _). rewrite Hb in C1. rewrite C3 by auto.
    destruct (im_mask m); [|discriminate]. rewrite Hb. simpl. rewrite !map_map, Hp. f_equal.
    clear. induction xs; simpl; auto. rewrite IHxs, madd_m0_l. auto.
Qed.
