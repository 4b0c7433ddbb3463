(** Evaluation of InterpolationModel: closed form for regular batches, splines at their
    knots, shapes. *)
From Coq Require Import String ZArith Reals Lra Lia Bool Arith List.
From Verif Require Import Base LinAlg M_Validate M_StructUtils M_Symmetry M_Reference M_Interp
  S_Lattice S_Vec S_Symmetry S_Equivalent S_Interp P_StructUtils P_Symmetry P_Equivalent P_EquivTotal
  P_Interp P_Interp2.
Import ListNotations.
Local Open Scope R_scope.

(** ** Linear splines *)
Lemma segment_l p q : fst p <> fst q -> segment p q (fst p) = snd p.
Proof.
  intros H. unfold segment. replace ((fst p - fst p) / (fst q - fst p)) with 0 by (field; lra).
  rewrite mscale_0, madd_m0_r. auto.
Qed.
Lemma segment_r p q : fst p <> fst q -> segment p q (fst q) = snd q.
Proof.
  intros H. unfold segment. replace ((fst q - fst p) / (fst q - fst p)) with 1 by (field; lra).
  rewrite mscale_1. vring.
Qed.
Lemma linear_cons3 p q r l x :
  linear_spline (p :: q :: r :: l) x =
  if Rltb x (fst q) then segment p q x else linear_spline (q :: r :: l) x.
Proof. reflexivity. Qed.

Lemma linear_spline_knot pts x y : increasing pts -> (1 < List.length pts)%nat -> In (x, y) pts ->
  linear_spline pts x = y.
Proof.
  induction pts as [|p pts IH]; simpl List.length; [lia|]. intros Hi Hl Hin.
  apply increasing_cons in Hi as [H1 H2].
  destruct pts as [|q [|r pts]]; simpl in Hl; [lia| |].
  - assert (fst p < fst q) by (apply H1; simpl; auto). simpl.
    destruct Hin as [->|[->|[]]]; [apply (segment_l (x, y) q)|apply (segment_r p (x, y))]; simpl in *; lra.
  - rewrite linear_cons3. assert (fst p < fst q) by (apply H1; simpl; auto).
    destruct Hin as [->|Hin].
    + destruct (Rltb x (fst q)) eqn:E; [|apply Rltb_false in E; simpl in *; lra].
      apply (segment_l (x, y) q); simpl in *; lra.
    + destruct (Rltb x (fst q)) eqn:E.
      * apply Rltb_true in E. exfalso. apply increasing_cons in H2 as [H2 _].
        destruct Hin as [->|Hin]; [simpl in *; lra|]. specialize (H2 _ Hin). simpl in H2. lra.
      * apply IH; auto. simpl; lia.
Qed.

(** Points on a line are interpolated and extrapolated by that line. *)
Lemma linear_spline_line pts (a g : M3) x : increasing pts -> (1 < List.length pts)%nat ->
  (forall p, In p pts -> snd p = madd a (mscale (fst p) g)) ->
  linear_spline pts x = madd a (mscale x g).
Proof.
  assert (S: forall p q : R * M3, fst p < fst q -> snd p = madd a (mscale (fst p) g) ->
     snd q = madd a (mscale (fst q) g) -> segment p q x = madd a (mscale x g)).
  { intros p q Hlt Hp Hq. unfold segment. rewrite Hp, Hq.
    replace (msub (madd a (mscale (fst q) g)) (madd a (mscale (fst p) g))) with (mscale (fst q - fst p) g) by vring.
    rewrite mscale_mscale. replace ((x - fst p) / (fst q - fst p) * (fst q - fst p)) with (x - fst p) by (field; lra).
    vring. }
  induction pts as [|p pts IH]; simpl List.length; [lia|]. intros Hi Hl Hp.
  apply increasing_cons in Hi as [H1 H2].
  destruct pts as [|q [|r pts]]; simpl in Hl; [lia| |].
  - apply S; [apply H1|apply Hp|apply Hp]; simpl; auto.
  - rewrite linear_cons3. destruct (Rltb x (fst q)).
    + apply S; [apply H1|apply Hp|apply Hp]; simpl; auto.
    + apply IH; auto; [simpl; lia|]. intros; apply Hp; simpl; auto.
Qed.

Lemma eval_spline_knot spl s x y : interpolating spl -> spline_ok s -> In (x, y) (sp_pts s) ->
  eval_spline spl s x = y.
Proof.
  intros Hs (H1 & H2 & H3) Hin. unfold eval_spline. destruct (Nat.eqb_spec (sp_order s) 1).
  - apply linear_spline_knot; auto. lia.
  - apply Hs; auto. lia.
Qed.

(** ** Displacements of a batch *)
Definition cart_disp (r : refstruct) (p : list V3) : list V3 :=
  rows_mul (apply_pbc_displacement (rows_sub p (rs_positions r))) (rs_lattice r).

Lemma cart_disp_spec r p : displacement_from r p (cart_disp r p).
Proof.
  exists (apply_pbc_displacement (rows_sub p (rs_positions r))). split; auto.
  apply apply_pbc_displacement_spec. auto.
Qed.
Lemma displacement_from_unique r p u : displacement_from r p u -> u = cart_disp r p.
Proof. intros (d & H & ->). apply apply_pbc_displacement_spec in H. subst. auto. Qed.
Lemma cart_disp_length r p : List.length p = List.length (rs_positions r) ->
  List.length (cart_disp r p) = List.length (rs_positions r).
Proof.
  intros H. unfold cart_disp, rows_mul. rewrite map_length, apply_pbc_displacement_length.
  rewrite rows_sub_length; auto.
Qed.
Lemma cart_disp_periodic r p q : same_mod_lattice p q -> cart_disp r p = cart_disp r q.
Proof.
  intros H. unfold cart_disp. f_equal. apply apply_pbc_displacement_proper.
  apply same_map2; auto using vcongr_vsub, same_refl.
Qed.

Lemma coord_eta v : mkV (coord v 0) (coord v 1) (coord v 2) = v.
Proof. destruct v; auto. Qed.

Lemma bdisp_regular pos samples s i : (i < List.length pos)%nat ->
  List.length (nth s samples []) = List.length pos ->
  bdisp pos (batch_of (List.length pos) samples) (List.length pos) 3 s i
  = nth i (apply_pbc_displacement (rows_sub (nth s samples []) pos)) v0.
Proof.
  intros Hi Hl. unfold bdisp. cbn [b_at batch_of].
  assert (E: bix (List.length pos) i = i).
  { unfold bix. destruct (Nat.eqb_spec (List.length pos) 1); auto. lia. }
  rewrite !E. change (bix 3 0) with 0%nat. change (bix 3 1) with 1%nat. change (bix 3 2) with 2%nat.
  rewrite coord_eta.
  unfold apply_pbc_displacement. rewrite (nth_map_lt _ _ i v0) by (rewrite rows_sub_length by auto; lia).
  unfold rows_sub. rewrite (map2_nth _ _ _ i v0 v0) by lia.
  apply vmap_wrapd_proper, vcongr_vsub; apply vcongr_sym, vcongr_wrap.
Qed.

Lemma map_seq_nth {A B} (f : A -> B) (l : list A) d : map (fun i => f (nth i l d)) (seq 0 (List.length l)) = map f l.
Proof.
  induction l as [|a l IH]; simpl; auto. f_equal. rewrite <- seq_shift, map_map. apply IH.
Qed.

Lemma batch_displacements_regular r samples :
  sample_shape (List.length (rs_positions r)) samples ->
  batch_displacements r (batch_of (List.length (rs_positions r)) samples) =
  Ok ((List.length (rs_positions r) * 3)%nat, map (fun p => flatten_rows (cart_disp r p)) samples).
Proof.
  intros Hs. unfold batch_displacements. simpl b_shape. cbv iota beta.
  unfold bdim. rewrite Nat.eqb_refl. simpl. f_equal. f_equal.
  rewrite <- (map_seq_nth _ samples []). apply map_ext_in. intros s Hin. apply in_seq in Hin.
  f_equal. unfold cart_disp, rows_mul.
  set (pos := rs_positions r) in *.
  assert (Hl: List.length (nth s samples []) = List.length pos).
  { unfold sample_shape in Hs. rewrite Forall_forall in Hs. apply Hs. apply nth_In. lia. }
  set (dd := apply_pbc_displacement (rows_sub (nth s samples []) pos)).
  assert (Hd: List.length dd = List.length pos).
  { unfold dd. rewrite apply_pbc_displacement_length, rows_sub_length; auto. }
  rewrite <- (map_seq_nth _ dd v0), Hd. apply map_ext_in. intros i Hi. apply in_seq in Hi.
  f_equal. apply bdisp_regular; auto. lia.
Qed.

Lemma sum_dofs_ok spl width rows basis interps mask acc :
  List.length interps = List.length basis -> List.length mask = List.length basis ->
  Forall (fun b => List.length (flatten_rows b) = width) basis -> List.length acc = List.length rows ->
  exists out, sum_dofs spl width rows basis interps mask acc = Ok out /\ List.length out = List.length rows.
Proof.
  revert interps mask acc; induction basis as [|b basis IH]; intros [|s interps] [|k mask] acc; simpl; try discriminate.
  - eauto.
  - intros Hi Hm Hw Ha. inversion Hw; subst. rewrite Nat.eqb_refl. simpl.
    apply IH; auto. rewrite map2_length; lia.
Qed.

Lemma sum_dofs_prediction spl width (us : list (list V3)) basis interps mask acc :
  List.length interps = List.length basis -> List.length mask = List.length basis ->
  Forall (fun b => List.length (flatten_rows b) = width) basis -> List.length acc = List.length us ->
  sum_dofs spl width (map flatten_rows us) basis interps mask acc =
  Ok (map2 (fun a u => madd a (prediction (eval_spline spl) u basis interps mask)) acc us).
Proof.
  revert interps mask acc; induction basis as [|b basis IH]; intros [|s interps] [|k mask] acc; simpl; try discriminate.
  - intros _ _ _ Ha. f_equal. revert us Ha; induction acc as [|a acc IHa]; intros [|u us]; simpl; try discriminate; auto.
    intros Ha. rewrite madd_m0_r, <- IHa; auto.
  - intros Hi Hm Hw Ha. inversion Hw; subst. rewrite Nat.eqb_refl. simpl. rewrite IH; auto.
    2: { rewrite map2_length, map_length; lia. }
    f_equal. clear. revert us; induction acc as [|a acc IHa]; intros [|u us]; simpl; auto.
    rewrite IHa. f_equal. rewrite <- madd_assoc. f_equal. f_equal.
    rewrite ldot_rows, <- inner_rows. unfold b2r. destruct k.
    + replace (1 - 1) with 0 by lra. apply mscale_0.
    + replace (1 - 0) with 1 by lra. apply mscale_1.
Qed.

Definition predict spl (m : imodel) (p : list V3) : M3 :=
  madd (prediction (eval_spline spl) (cart_disp (im_ref m) p) (im_basis m) (im_interp m) (im_mask m)) (im_refpol m).

Lemma calc_regular spl m samples : inv m -> im_dummy m = false ->
  sample_shape (List.length (rs_positions (im_ref m))) samples ->
  calc_polarizabilities spl m (batch_of (List.length (rs_positions (im_ref m))) samples) =
  Ok (map (predict spl m) samples).
Proof.
  intros (Hwf & (C1 & C2 & C3) & Hb & _) Hd Hs. unfold calc_polarizabilities.
  rewrite batch_displacements_regular by auto. simpl rbind. cbv iota beta.
  rewrite <- (map_map (cart_disp (im_ref m)) flatten_rows).
  rewrite sum_dofs_prediction; auto.
  - f_equal. rewrite !map_map. rewrite map_map2, map2_map_l, map2_map_r.
    rewrite map2_diag. apply map_ext. intros p. unfold predict. rewrite madd_m0_l. auto.
  - eapply Forall_impl; [|exact Hb]. intros b [H _]. rewrite flatten_rows_length. lia.
  - rewrite !map_length. auto.
Qed.

Lemma calc_dummy spl m samples : inv m -> im_dummy m = true -> im_basis m <> [] ->
  sample_shape (List.length (rs_positions (im_ref m))) samples ->
  calc_polarizabilities spl m (batch_of (List.length (rs_positions (im_ref m))) samples) = Err UserError.
Proof.
  intros (Hwf & (C1 & C2 & C3) & Hb & _) Hd Hne Hs. unfold calc_polarizabilities.
  rewrite batch_displacements_regular by auto. simpl rbind. cbv iota beta.
  rewrite C3 by auto. destruct (im_basis m) as [|b bs]; [tauto|]. simpl. rewrite Hd. auto.
Qed.
