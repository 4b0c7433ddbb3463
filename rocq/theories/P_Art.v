(** Proofs of C32, C33 and C35: what ART models accept and store. *)
From Coq Require Import String ZArith Reals Lra Lia Psatz Bool Arith List.
From Verif Require Import Base LinAlg M_Validate M_StructUtils M_Symmetry M_Reference M_Interp M_Art
  S_Lattice S_Vec S_Symmetry S_Equivalent S_Interp S_Art P_StructUtils P_Reference P_Symmetry P_Equivalent P_Equiv2 P_Equiv3 P_EquivTotal
  P_Interp P_Interp2 P_InterpEval P_Interp3 P_Interp4 P_Interp5 P_Interp6 P_InterpFinal P_Examples2.
Import ListNotations.
Local Open Scope R_scope.

(** ** C32 *)
Lemma f_C32 s cart amps pols order inc rds poss :
  art_add_dof cart amps pols order inc s = ((s, []), Err UserError) /\
  art_add_dof_from_files rds order s = ((s, []), Err UserError) /\
  art_add_dof_from_pymatgen poss pols order s = ((s, []), Err UserError).
Proof. repeat split. Qed.

Definition is_art_entry (o : aop) : Prop := match o with OpBase _ => False | _ => True end.
Lemma f_C32_history s ops : (forall o, In o ops -> match o with OpBase _ => True | _ => False end) ->
  im_basis (arun s ops) = im_basis s /\ im_interp (arun s ops) = im_interp s.
Proof.
  unfold arun. revert s; induction ops as [|o ops IH]; intros s H; simpl; auto.
  destruct (IH (astep s o)) as [-> ->]; [intros; apply H; simpl; auto|].
  specialize (H o (or_introl eq_refl)). destruct o as [o| | |]; try contradiction.
  unfold astep. destruct o; simpl; auto.
  unfold set_mask, bind, get, lift, put. destruct (verify_ndarray_shape _ _); simpl; auto.
Qed.

Lemma f_C19_art o s s' w e : run_aop o s = ((s', w), Err e) -> s' = s.
Proof. intros H. apply run_aop_cases in H as [(e' & _ & ->)|(E & _)]; [auto|discriminate]. Qed.

(** ** Arrays with one nonzero row *)
Definition only (k : nat) (l : list V3) : Prop := forall j, j <> k -> nth j l v0 = v0.
Lemma only_map k l g : g v0 = v0 -> only k l -> only k (map g l).
Proof. intros G H j Hj. rewrite <- G at 1. rewrite map_nth, H; auto. Qed.
Lemma nth_repeat_v0 j n : nth j (repeat v0 n) v0 = v0.
Proof. revert j; induction n; intros [|j]; simpl; auto. Qed.
Lemma nth_set_nth k j (x : V3) l : nth j (set_nth k x l) v0 = if Nat.eqb j k then (if Nat.ltb j (List.length l) then x else v0) else nth j l v0.
Proof.
  revert k j; induction l as [|a l IH]; intros [|k] [|j]; simpl; auto.
  - destruct (j =? k)%nat; auto.
  - rewrite IH. auto.
Qed.
Lemma only_set k x n : only k (set_nth k x (repeat v0 n)).
Proof. intros j Hj. rewrite nth_set_nth. destruct (Nat.eqb_spec j k); [tauto|]. apply nth_repeat_v0. Qed.
Lemma pbc_v0 : vmap wrapd v0 = v0.
Proof. apply V3_eq; simpl; apply wrapd_0. Qed.
Lemma only_pbc k l : only k l -> only k (apply_pbc_displacement l).
Proof. apply only_map. apply pbc_v0. Qed.
Lemma only_mul k l m : only k l -> only k (rows_mul l m).
Proof. apply only_map. apply vmul_v0. Qed.
Lemma only_scale k l c : only k l -> only k (rows_scale c l).
Proof. apply only_map. apply vscale_v0. Qed.

Lemma only_unit_nonzero k b : only k b -> unit_length b -> moves_only b k.
Proof.
  intros H U.
  assert (N: forall l m, (forall j, nth j l v0 = v0) -> inner (rowsR l) (rowsR m) = 0).
  { induction l as [|v l IH]; intros [|u m] Z; auto. simpl. rewrite (Z 0%nat : v = v0). simpl.
    rewrite IH by (intros j; apply (Z (S j))). ring. }
  assert (Hk: nth k b v0 <> v0).
  { intros E. unfold unit_length in U. rewrite N in U; [lra|]. intros j. destruct (Nat.eq_dec j k) as [->|J]; auto. }
  split; [|split; auto]. destruct (le_lt_dec (List.length b) k); auto. rewrite nth_overflow in Hk by auto. tauto.
Qed.

(** ** C33 *)
Lemma added_groups s parent amps pols inc order w s' :
  valid_reference (im_ref s) -> added s parent amps pols inc order w s' ->
  exists dofs bs pss groups, get_equivalent_displacements (im_ref s) parent = Ok groups /\
    Forall2 (fun g d => dof_of_group (im_ref s) (im_refpol s) amps pols inc g = Ok d) groups dofs /\ groups <> [] /\
    map fst dofs = map Fin bs /\
    Forall2 (fun d ps => snd d = map (fun p : R * M3 => (Some (fst p), snd p)) ps) dofs pss /\
    w = flat_map span_warnings pss /\
    Forall (fun ps : list (R * M3) => spaced (map fst ps) /\ (order < List.length ps)%nat) pss /\
    s' = appended s bs (map (fun ps => mkSpline order (sort_pts ps)) pss).
Proof.
  intros Hv (dofs & bs & pss & G & H). apply get_dof_Ok in G as (_ & gs & G & F). exists dofs, bs, pss, gs.
  repeat (split; [tauto|]). split; [|tauto]. eapply groups_nonempty; eauto using valid_reference_wf, valid_ops.
Qed.

Lemma nan_parent r n gs g : wf_ref r -> get_equivalent_displacements r (Nan n) = Ok gs -> In g gs ->
  forall l rest, g_disp g <> Fin l :: rest.
Proof.
  intros Hwf G Hg l rest E. destruct (group_leader _ _ _ _ _ _ Hwf G Hg E) as (_ & op & P & _ & C).
  change (scale_displacement (Nan n)) with (@Nan V3 n) in C. apply candidate_nan in C as (k & C). discriminate.
Qed.

Lemma parent_finite r disp gs dofs bs refpol amps pols inc : wf_ref r -> gs <> [] ->
  get_equivalent_displacements r (over_norm 10 disp) = Ok gs ->
  Forall2 (fun g d => dof_of_group r refpol amps pols inc g = Ok d) gs dofs -> map fst dofs = map Fin bs ->
  exists l, disp = Fin l /\ (l = [] \/ rows_norm l <> 0).
Proof.
  intros Hwf Hne G F Hb. destruct F as [|g d gs dofs Hd F]; [tauto|].
  destruct bs as [|b bs]; [discriminate|]. simpl in Hb. injection Hb as Eb _.
  assert (K: exists l rest, g_disp g = Fin l :: rest).
  { apply dof_of_group_Ok in Hd as (child & rest & pss & H1 & H2 & _). rewrite H2 in Eb.
    destruct child as [l|n]; [eauto|discriminate]. }
  destruct K as (l & rest & K).
  destruct disp as [x|n].
  2: { exfalso. eapply (nan_parent r n (g :: gs) g); eauto. simpl; auto. }
  exists x. split; auto. destruct x as [|v x]; auto. right. intros Hz.
  rewrite over_norm_nan in G; [|rewrite rows_norm_scale, Hz; ring|discriminate].
  eapply nan_parent; eauto. simpl; auto.
Qed.

Lemma art_basis r (disp : arr V3) k gs dofs bs refpol amps pols inc : symmetric_reference r -> gs <> [] ->
  get_equivalent_displacements r (over_norm 10 disp) = Ok gs ->
  Forall2 (fun g d => dof_of_group r refpol amps pols inc g = Ok d) gs dofs -> map fst dofs = map Fin bs ->
  arr_len disp = List.length (rs_positions r) -> (forall l, disp = Fin l -> only k l) -> (k < List.length (rs_positions r))%nat ->
  Forall unit_length bs ->
  Forall (fun b => exists j op pi, moves_only b j /\ In op (rs_ops r) /\
     row_symmetry (rs_positions r) (fst op) (snd op) pi /\ pi j = k) bs.
Proof.
  intros (nu & L & pos & ops & eq & Hr & Hn & Hops & Hsep & Hsym) Hne G F Hb Hlen Honly Hk Hu.
  assert (Hwf: wf_ref r) by (eapply make_reference_wf; eauto).
  destruct (make_reference_ops _ _ _ _ _ _ Hr) as (Ro & Rp & RL & _).
  destruct (parent_finite _ _ _ _ _ _ _ _ _ Hwf Hne G F Hb) as (d & -> & Hz). simpl in Hlen.
  destruct Hz as [->|Hnz].
  { exfalso. simpl in Hlen. rewrite Rp in Hlen. simpl in Hlen. lia. }
  destruct (parent_norm d Hnz) as [Ep Np]. rewrite Ep in G.
  set (p := rows_scale (/ (10 * rows_norm d)) d) in *.
  assert (Lp: List.length p = List.length pos).
  { unfold p, rows_scale. rewrite map_length. congruence. }
  assert (Op: only k p) by (apply only_scale, Honly; auto).
  assert (Pp: apply_pbc_displacement p = p) by (apply pbc_half_cell, half_cell_small; lra).
  assert (Hok: positions_ok pos = true) by (destruct Hwf as (_ & _ & _ & _ & W); congruence).
  assert (Np': rows_norm (apply_pbc_displacement p) <> 0).
  { rewrite Pp. intros E. apply rows_norm_eq_0 in E. lra. }
  pose proof (equivalent_displacements_images nu L pos ops eq r p gs Hr Hok Hsep Hn Hsym Lp Np' G) as I.
  assert (Os: only k (scaled_dir p)) by (unfold scaled_dir; apply only_scale, only_pbc; auto).
  rewrite Rp, Ro in *. clear G Hne. revert bs Hb Hu I.
  induction F as [|g dd gs dofs Hd F IH]; intros [|b bs] Hb Hu I; try discriminate; constructor.
  - simpl in Hb. injection Hb as Eb _. inversion I as [|? ? Ig _]; subst. inversion Hu as [|? ? Ub _]; subst.
    apply dof_of_group_Ok in Hd as (child & rest & pss & H1 & H2 & _). rewrite H1 in Ig.
    inversion Ig as [|? op ? ops' (pi & Hin & Hrow & ->) _]; subst.
    rewrite H2 in Eb. simpl in Eb. pose proof Hrow as (_ & (P1 & P2 & P3) & _).
    destruct (P3 k) as (j & Hj & Ej); auto. exists j, op, pi. split; [|auto].
    apply only_unit_nonzero; auto.
    assert (Oc: only j (map (fun b => vmul (nth (pi b) (scaled_dir p) v0) (fst op)) (seq 0 (List.length (rs_positions r))))).
    { intros i Hi. destruct (le_lt_dec (List.length (rs_positions r)) i) as [Hle|Hlt].
      - apply nth_overflow. rewrite map_length, seq_length. auto.
      - rewrite nth_map_lt with (d := 0%nat) by (rewrite seq_length; auto). rewrite seq_nth by auto. simpl.
        rewrite Os; [apply vmul_v0|]. intros E. apply Hi. apply P2; auto. congruence. }
    apply over_norm_unit in Eb as (_ & -> & _).
    + apply only_scale. unfold get_cart_displacement. apply only_mul, only_pbc. auto.
    + intros E. apply (f_equal (@List.length _)) in E. rewrite get_cart_displacement_length, map_length, seq_length in E. simpl in E. lia.
  - apply IH; [simpl in Hb; congruence|inversion Hu; auto|inversion I; auto].
Qed.

(** Amplitudes of the stored points come from the given amplitudes. *)
Lemma multiplier_nonzero l c k : rows_norm l <> 0 -> multiplier (Fin l) c = Ok (Some k) -> k <> 0.
Proof.
  intros H. destruct c as [d|n]; [|discriminate].
  unfold multiplier. assert (Hn: nonzero_vec (flatten_rows l)).
  { apply nonzero_inner. rewrite <- rows_dot_flat. fold (rows_norm2 l). rewrite <- rows_norm_sq. intros E. apply H. nra. }
  destruct Hn as (x & Hx & Nx).
  destruct (argmax_spec (map Rabs (flatten_rows l))) as (i & m & -> & K2 & K3).
  { intros E. apply (in_map Rabs) in Hx. rewrite E in Hx. destruct Hx. }
  simpl. rewrite nth_error_map in K2. destruct (nth_error (flatten_rows l) i) as [y|]; [|discriminate].
  simpl in K2. injection K2 as <-. specialize (K3 _ (in_map Rabs _ _ Hx)).
  assert (y <> 0). { intros ->. rewrite Rabs_R0 in K3. pose proof (Rabs_pos_lt x Nx). lra. }
  destruct (nth_error (flatten_rows d) i) as [z|]; [|discriminate].
  destruct (Reqb z 0) eqn:E; [discriminate|]. apply Reqb_false in E. intros [= <-].
  unfold Rdiv. apply Rmult_integral_contrapositive_currified; auto. apply Rinv_neq_0_compat; auto.
Qed.

Lemma points_amplitudes r refpol amps pols g d ps b : wf_ref r ->
  (forall l, In (Fin l) (g_disp g) -> List.length l = List.length (rs_positions r)) ->
  dof_of_group r refpol amps pols false g = Ok d -> fst d = Fin b ->
  snd d = map (fun p : R * M3 => (Some (fst p), snd p)) ps ->
  forall p, In p ps -> exists a k, In a amps /\ k <> 0 /\ fst p = k * a.
Proof.
  intros Hwf Hl Hd Hb Hs p Hp. apply dof_of_group_Ok in Hd as (child & rest & pss & H1 & H2 & H3 & H4).
  rewrite H2 in Hb. destruct child as [l|n]; [|discriminate]. simpl in Hb.
  assert (Ll: List.length l = List.length (rs_positions r)) by (apply Hl; rewrite H1; simpl; auto).
  assert (Hne: get_cart_displacement r l <> []).
  { intros E0. apply (f_equal (@List.length _)) in E0. rewrite get_cart_displacement_length in E0.
    destruct Hwf as (_ & Hpos & _). simpl in E0. lia. }
  apply over_norm_unit in Hb as (Hn & _ & _); auto.
  assert (Hnl: rows_norm l <> 0).
  { intros E. apply Hn. apply rows_norm_eq_0 in E.
    assert (Z: forall v, In v l -> v = v0).
    { intros v Hv. pose proof (row_norm2_le l v Hv) as K. pose proof (vnorm2_nonneg v).
      destruct v as [x y z]; unfold vnorm2, vdot in *; simpl in *. apply V3_eq; simpl; nra. }
    unfold rows_norm. replace (rows_norm2 _) with 0; [apply sqrt_0|]. symmetry.
    assert (Q: get_cart_displacement r l = repeat v0 (List.length l)).
    { clear - Z. unfold get_cart_displacement, rows_mul, apply_pbc_displacement. induction l as [|v l IH]; simpl; auto.
      rewrite IH by (intros; apply Z; simpl; auto). f_equal. rewrite (Z v) by (simpl; auto). rewrite pbc_v0. apply vmul_v0. }
    rewrite Q. clear. unfold rows_norm2. induction (List.length l); simpl; auto.
    rewrite rows_dot_cons, IHn. vunf. ring. }
  assert (Hin: In (Some (fst p), snd p) (List.concat pss)).
  { unfold include_pts in H3. simpl in H3. rewrite H3 in Hs. rewrite Hs. apply in_map_iff. eauto. }
  apply in_concat in Hin as (qs & Hq & Hi).
  assert (K: exists ct, points_of refpol amps pols (Fin l) ct = Ok qs).
  { clear - H4 Hq. induction H4; [destruct Hq|]. destruct Hq as [<-|Hq]; eauto. }
  destruct K as ([coll [rot t]] & K). unfold points_of in K.
  destruct (multiplier (Fin l) coll) as [mult|] eqn:M; simpl in K; [|discriminate].
  apply mapM_Ok in K. assert (E: exists ap, In ap (combine amps pols) /\ option_map (fun k => k * fst ap) mult = Some (fst p)).
  { clear - K Hi. induction K as [|ap q l l' E K IH]; [destruct Hi|]. destruct Hi as [Hi|Hi].
    - subst q. exists ap. split; [simpl; auto|]. destruct (minv rot); simpl in E; [|discriminate]. congruence.
    - destruct (IH Hi) as (x & X1 & X2). exists x. simpl; auto. }
  destruct E as ([a q] & E1 & E2). destruct mult as [k|]; [|discriminate]. simpl in E2. injection E2 as E2.
  exists a, k. split; [eapply in_combine_l; eauto|]. split; [eapply multiplier_nonzero; eauto|auto].
Qed.

Lemma groups_lengths r parent gs g l : wf_ref r -> get_equivalent_displacements r parent = Ok gs -> In g gs ->
  In (Fin l) (g_disp g) -> List.length l = List.length (rs_positions r).
Proof.
  intros Hwf E Hg Hl. apply equivalent_displacements_inv in E as (orth & I1 & _). simpl in I1.
  assert (exists o, members_ok r (scale_displacement parent) (combine (rs_ops r) (rs_perms r)) g o) as (o & M).
  { clear - I1 Hg. induction I1; [destruct Hg|]. destruct Hg as [<-|Hg]; eauto. }
  destruct M as (_ & Hlen & _ & Hc).
  assert (exists op P, In P (rs_perms r) /\ candidate r (scale_displacement parent) op P = Ok (Fin l)) as (op & P & HP & C).
  { revert Hlen Hc Hl. generalize (g_trans g). induction (g_disp g) as [|x ds IH]; intros [|t ts] Hlen Hc; try discriminate; intros [].
    - subst x. simpl in Hc. inversion Hc as [|? ? (P & HP & HC) _]; subst. simpl in *. exists t, P. split; auto.
      apply in_combine_r in HP. auto.
    - simpl in Hc. inversion Hc; subst. eapply (IH ts); eauto. }
  destruct (scale_displacement parent) as [d|n].
  - apply candidate_fin in C as (l' & [= <-] & H); auto.
  - apply candidate_nan in C as (k & H). discriminate.
Qed.

Lemma f_C33 atom dir amps pols s s' w :
  symmetric_reference (im_ref s) ->
  add_art atom dir amps pols s = ((s', w), Ok tt) ->
  exists bs sps, bs <> [] /\ im_basis s' = im_basis s ++ bs /\
    im_interp s' = (if im_dummy s then im_interp s else im_interp s ++ sps) /\ List.length sps = List.length bs /\
    Forall (fun b => exists j op pi, moves_only b j /\ In op (rs_ops (im_ref s)) /\
       row_symmetry (rs_positions (im_ref s)) (fst op) (snd op) pi /\
       names_atom (List.length (rs_positions (im_ref s))) atom (pi j)) bs /\
    Forall (fun sp => sp_order sp = 1%nat /\
       forall p, In p (sp_pts sp) -> exists a c, In a (ra_data amps) /\ c <> 0 /\ fst p = c * a) sps.
Proof.
  intros Hsym H. assert (Hv: valid_reference (im_ref s)).
  { destruct Hsym as (nu & L & pos & ops & eq & Hr & Hn & Hops & _). exists nu, L, pos, ops, eq. auto. }
  pose proof (valid_reference_wf _ Hv) as Hwf.
  apply add_art_cases in H as [(e & E & _)|(_ & _ & f & k & Hf & Hk & H)]; [discriminate|].
  apply add_dof_cases in H as [(e & E & _)|(_ & _ & disp & dofs & bs & pss & H1 & _ & _ & H4 & H5 & H6 & H7 & H8 & ->)]; [discriminate|].
  pose proof (new_basis_ok _ _ _ _ _ _ _ Hwf H4 H5) as Hu.
  apply get_dof_Ok in H4 as (_ & gs & G & F).
  pose proof (groups_nonempty _ _ _ (valid_ops _ Hv) Hwf G) as Hne.
  set (sps := map (fun ps => mkSpline (Z.to_nat 1) (sort_pts ps)) pss).
  assert (Ln: List.length pss = List.length bs).
  { apply (f_equal (@List.length _)) in H5. rewrite !map_length in H5. rewrite <- H5. clear - H6. induction H6; simpl; auto. }
  exists bs, sps. split.
  { intros ->. apply map_eq_nil in H5. subst. inversion F; subst; tauto. }
  split; [reflexivity|]. split; [reflexivity|]. split; [unfold sps; rewrite map_length; auto|].
  set (N := List.length (rs_positions (im_ref s))) in *. split.
  - apply py_index_Some in Hk as [Hk1 Hk2].
    assert (B: Forall (fun b => exists j op pi, moves_only b j /\ In op (rs_ops (im_ref s)) /\
       row_symmetry (rs_positions (im_ref s)) (fst op) (snd op) pi /\ pi j = k) bs).
    { eapply (art_basis (im_ref s) disp k gs dofs bs); eauto.
      - revert H1. unfold art_displacement. destruct (Reqb _ 0); simpl.
        + destruct (minv _); simpl; [|discriminate]. intros [= <-]. auto.
        + unfold get_frac_displacement. destruct (minv _); simpl; [|discriminate]. intros [= <-]. simpl.
          rewrite apply_pbc_displacement_length. unfold rows_mul. rewrite map_length, get_cart_displacement_length, set_nth_length, repeat_length. auto.
      - intros l ->. revert H1. unfold art_displacement. destruct (Reqb _ 0); simpl.
        + destruct (minv _); simpl; discriminate.
        + unfold get_frac_displacement. destruct (minv _); simpl; [|discriminate]. intros [= <-].
          apply only_pbc, only_mul. unfold get_cart_displacement. apply only_mul, only_pbc, only_set.
      - eapply Forall_impl; [|exact Hu]. intros b [_ U]; auto. }
    eapply Forall_impl; [|exact B]. intros b (j & op & pi & X1 & X2 & X3 & X4). exists j, op, pi.
    split; [auto|split; [auto|split; [auto|]]]. rewrite X4. split; auto.
  - unfold sps. apply Forall_forall. intros sp Hsp. apply in_map_iff in Hsp as (ps & <- & Hps). split; [auto|].
    intros p Hp. simpl in Hp. rewrite sort_pts_In in Hp.
    assert (K: exists g d b, In g gs /\ dof_of_group (im_ref s) (im_refpol s) (ra_data amps)
       (dof_pols s amps (if im_dummy s then mats_arr (repeat m0 (List.length (ra_data amps))) else pols)) false g = Ok d /\
       fst d = Fin b /\ snd d = map (fun p : R * M3 => (Some (fst p), snd p)) ps).
    { clear - F H5 H6 Hps. revert bs H5 pss H6 Hps.
      induction F as [|g d gs dofs Hd F IH]; intros bs H5 pss H6 Hps; inversion H6; subst; [destruct Hps|].
      destruct bs as [|b bs]; [discriminate|]. simpl in H5. injection H5 as E1 E2. destruct Hps as [<-|Hps].
      - exists g, d, b. simpl; auto.
      - edestruct IH as (g' & d' & b' & X1 & X2); eauto. exists g', d', b'. simpl; auto. }
    destruct K as (g & d & b & K1 & K2 & K3 & K4).
    eapply points_amplitudes; eauto. intros l Hl. eapply groups_lengths; eauto.
Qed.

(** Over whole histories *)
Lemma f_C33_order m : reachable_art m -> Forall (fun sp => sp_order sp = 1%nat) (im_interp m).
Proof.
  intros (r & pol & dummy & ops & _ & _ & ->). unfold arun.
  assert (H: Forall (fun sp => sp_order sp = 1%nat) (im_interp (make_model r pol dummy))) by constructor.
  revert H. generalize (make_model r pol dummy). induction ops as [|o ops IH]; intros s H; simpl; auto.
  apply IH. unfold astep. destruct (run_aop o s) as [[s' w] q] eqn:E. simpl.
  apply run_aop_cases in E as [(e & _ & ->)|(_ & [(c & a & p & dofs & bs & pss & H1 & H2 & H3 & H4 & H5 & ->)|(mask & -> & _)])]; auto.
  unfold appended; simpl. destruct (im_dummy s); auto. apply Forall_app. split; auto.
  apply Forall_forall. intros sp Hsp. apply in_map_iff in Hsp as (ps & <- & _). auto.
Qed.

Lemma f_C33_history r pol dummy ops : symmetric_reference r -> Forall adds_by_add_art ops ->
  Forall (fun b => exists k, moves_only b k) (im_basis (arun (make_model r pol dummy) ops)).
Proof.
  intros Hs W. unfold arun.
  assert (H: Forall (fun b => exists k, moves_only b k) (im_basis (make_model r pol dummy))) by constructor.
  assert (R: im_ref (make_model r pol dummy) = r) by auto.
  revert H R. generalize (make_model r pol dummy). induction ops as [|o ops IH]; intros s H R; simpl; auto.
  inversion W; subst. destruct (run_aop o s) as [[s' w] q] eqn:E. apply IH; auto.
  2: { unfold astep. rewrite E. simpl. apply run_aop_frame in E as (E & _). auto. }
  unfold astep. rewrite E. simpl. destruct o as [o|atom dir amps pols|rds|poss pols]; try contradiction.
  - assert (B: im_basis (arun s [OpBase o]) = im_basis s) by (apply f_C32_history; intros ? [<-|[]]; auto).
    unfold arun, astep in B. cbn [fold_left] in B. rewrite E in B. simpl in B. rewrite B. auto.
  - destruct q as [[]|e].
    + apply f_C33 in E as (bs & sps & _ & -> & _ & _ & B & _); auto. apply Forall_app. split; auto.
      eapply Forall_impl; [|exact B]. intros b (j & op & pi & M & _). eauto.
    + apply f_C19_art in E. subst. auto.
Qed.
