(** Invariants of InterpolationModel over all histories. *)
From Coq Require Import String ZArith Reals Lra Lia Bool Arith List.
From Verif Require Import Base LinAlg M_Validate M_StructUtils M_Symmetry M_Reference M_Interp M_Art
  S_Lattice S_Vec S_Symmetry S_Equivalent S_Interp P_StructUtils P_Symmetry P_Equivalent P_Equiv3 P_EquivTotal P_Interp.
Import ListNotations.
Local Open Scope R_scope.

Definition include_pts (inc : bool) : list (option R * M3) := if inc then [(Some 0, m0)] else [].

Lemma dof_of_group_Ok r refpol amps pols inc g d :
  dof_of_group r refpol amps pols inc g = Ok d ->
  exists child rest pss, g_disp g = child :: rest /\
    fst d = over_norm 1 (get_cart_displacement_arr r child) /\
    snd d = include_pts inc ++ List.concat pss /\
    Forall2 (fun ct ps => points_of refpol amps pols child ct = Ok ps) (combine (g_disp g) (g_trans g)) pss.
Proof.
  unfold dof_of_group. destruct (g_disp g) as [|child rest] eqn:E; [discriminate|].
  destruct (mapM _ _) as [pss|] eqn:F; simpl; [|discriminate]. intros [= <-]. simpl.
  exists child, rest, pss. apply mapM_Ok in F. auto.
Qed.

Lemma get_dof_Ok m parent amps pols inc dofs :
  get_dof m parent amps pols inc = Ok dofs ->
  is_orthogonal_to_all (flatten (get_cart_displacement_arr (im_ref m) parent))
     (map (fun b => flatten (Fin b)) (im_basis m)) = Ok (-1)%Z /\
  exists groups, get_equivalent_displacements (im_ref m) parent = Ok groups /\
    Forall2 (fun g d => dof_of_group (im_ref m) (im_refpol m) amps pols inc g = Ok d) groups dofs.
Proof.
  unfold get_dof. destruct (is_orthogonal_to_all _ _) as [z|] eqn:O; simpl; [|discriminate].
  destruct (Z.eqb_spec z (-1)); simpl; [|discriminate]. subst z.
  destruct (get_equivalent_displacements _ _) as [gs|] eqn:E; simpl; [|discriminate].
  intros F. apply mapM_Ok in F. eauto.
Qed.

Lemma get_dof_complete m parent amps pols inc groups dofs :
  is_orthogonal_to_all (flatten (get_cart_displacement_arr (im_ref m) parent))
     (map (fun b => flatten (Fin b)) (im_basis m)) = Ok (-1)%Z ->
  get_equivalent_displacements (im_ref m) parent = Ok groups ->
  Forall2 (fun g d => dof_of_group (im_ref m) (im_refpol m) amps pols inc g = Ok d) groups dofs ->
  get_dof m parent amps pols inc = Ok dofs.
Proof.
  intros O E F. unfold get_dof. rewrite O. simpl. rewrite E. simpl. apply mapM_Ok. auto.
Qed.

(** Every group comes from candidates *)
Lemma group_leader r parent gs g child rest :
  wf_ref r -> get_equivalent_displacements r parent = Ok gs -> In g gs -> g_disp g = child :: rest ->
  List.length (g_disp g) = List.length (g_trans g) /\
  exists op P, In P (rs_perms r) /\ candidate r (scale_displacement parent) op P = Ok child.
Proof.
  intros Hwf E Hg Hd. apply equivalent_displacements_inv in E as (orth & I1 & _). simpl in I1.
  assert (exists o, members_ok r (scale_displacement parent) (combine (rs_ops r) (rs_perms r)) g o) as (o & M).
  { clear - I1 Hg. induction I1; [destruct Hg|]. destruct Hg as [<-|Hg]; eauto. }
  destruct M as ((rest' & E1 & _) & Hl & _ & Hc). split; auto.
  rewrite Hd in Hl, Hc. destruct (g_trans g) as [|op ops] eqn:Et; [discriminate|].
  simpl in Hc. inversion Hc as [|? ? (P & HP & HC) _]; subst. simpl in *.
  exists op, P. split; auto. apply in_combine_r in HP. auto.
Qed.

Lemma candidate_nan r n op P cd : candidate r (Nan n) op P = Ok cd -> exists k, cd = Nan k.
Proof.
  unfold candidate. destruct (displace_positions _ _); simpl; [|discriminate].
  destruct (bmat_mul _ _); simpl; [|discriminate]. intros [= <-]. eauto.
Qed.

Lemma group_leader_fin r parent gs g l rest :
  wf_ref r -> get_equivalent_displacements r parent = Ok gs -> In g gs -> g_disp g = Fin l :: rest ->
  List.length l = List.length (rs_positions r).
Proof.
  intros Hwf E Hg Hd. destruct (group_leader _ _ _ _ _ _ Hwf E Hg Hd) as (_ & op & P & HP & HC).
  destruct (scale_displacement parent) as [d|n].
  - apply candidate_fin in HC as (l' & [= <-] & H); auto.
  - apply candidate_nan in HC as (k & H). discriminate.
Qed.

Lemma get_cart_displacement_length r l : List.length (get_cart_displacement r l) = List.length l.
Proof. unfold get_cart_displacement, rows_mul. rewrite map_length. apply apply_pbc_displacement_length. Qed.

(** New basis vectors have N rows and unit length. *)
Lemma new_basis_ok m parent amps pols inc dofs bs :
  wf_ref (im_ref m) -> get_dof m parent amps pols inc = Ok dofs -> map fst dofs = map Fin bs ->
  Forall (fun b => List.length b = List.length (rs_positions (im_ref m)) /\ unit_length b) bs.
Proof.
  intros Hwf G Hb. apply get_dof_Ok in G as (_ & gs & E & F).
  assert (K: forall g d, In g gs -> dof_of_group (im_ref m) (im_refpol m) amps pols inc g = Ok d ->
             forall b, fst d = Fin b -> List.length b = List.length (rs_positions (im_ref m)) /\ unit_length b).
  { intros g d Hg Hd b Eb. apply dof_of_group_Ok in Hd as (child & rest & pss & H1 & H2 & _).
    rewrite H2 in Eb. destruct child as [l|n]; simpl in Eb; [|discriminate].
    pose proof (group_leader_fin _ _ _ _ _ _ Hwf E Hg H1) as Hl.
    assert (Hne: get_cart_displacement (im_ref m) l <> []).
    { intros E0. apply (f_equal (@List.length _)) in E0. rewrite get_cart_displacement_length in E0.
      destruct Hwf as (_ & Hpos & _). simpl in E0. lia. }
    apply over_norm_unit in Eb as (_ & -> & U); auto. split; auto.
    unfold rows_scale. rewrite map_length, get_cart_displacement_length. auto. }
  clear E. revert bs Hb. induction F as [|g d gs dofs Hd F IH]; simpl; intros [|b bs]; try discriminate; auto.
  simpl. intros [= Eb Ebs]. constructor.
  - apply (K g d); simpl; auto.
  - apply IH; auto. intros; eapply K; simpl; eauto.
Qed.

(** The invariant *)
Definition spline_ok (s : spline) : Prop :=
  (1 <= sp_order s)%nat /\ (sp_order s < List.length (sp_pts s))%nat /\ increasing (sp_pts s).
Definition basis_ok (m : imodel) : Prop :=
  Forall (fun b => List.length b = List.length (rs_positions (im_ref m)) /\ unit_length b) (im_basis m).
Definition inv (m : imodel) : Prop :=
  wf_ref (im_ref m) /\ consistent m /\ basis_ok m /\ Forall spline_ok (im_interp m).

Lemma appended_consistent s bs (sps : list spline) : List.length sps = List.length bs ->
  consistent s -> consistent (appended s bs sps).
Proof.
  intros H (H1 & H2 & H3). unfold consistent, appended; simpl.
  rewrite !app_length, repeat_length. split; [lia|].
  destruct (im_dummy s); split; intros; try discriminate; auto. rewrite app_length, H2; auto.
Qed.

Lemma appended_inv s parent amps pols inc dofs bs pss order : (1 <= order)%nat ->
  inv s -> get_dof s parent amps pols inc = Ok dofs -> map fst dofs = map Fin bs ->
  Forall2 (fun d ps => snd d = map (fun p : R * M3 => (Some (fst p), snd p)) ps) dofs pss ->
  Forall (fun ps : list (R * M3) => spaced (map fst ps) /\ (order < List.length ps)%nat) pss ->
  inv (appended s bs (map (fun ps => mkSpline order (sort_pts ps)) pss)).
Proof.
  intros Ho I H4 H5 H6 H8.
  destruct I as (Hwf & Hc & Hb & Hs). split; [auto|split; [|split]].
  - apply appended_consistent; auto. rewrite map_length.
    apply (f_equal (@List.length _)) in H5. rewrite !map_length in H5. rewrite <- H5.
    clear - H6. induction H6; simpl; auto.
  - unfold basis_ok, appended; simpl. apply Forall_app. split; auto.
    eapply new_basis_ok; eauto.
  - unfold appended; simpl. assert (N: Forall spline_ok (map (fun ps => mkSpline order (sort_pts ps)) pss)).
    { apply Forall_forall. intros sp Hsp. apply in_map_iff in Hsp as (ps & <- & Hps).
      rewrite Forall_forall in H8. destruct (H8 ps Hps) as [G1 G2].
      split; [simpl; lia|split; simpl; [rewrite sort_pts_length; auto|apply spaced_sorted; auto]]. }
    destruct (im_dummy s); auto. apply Forall_app; auto.
Qed.

Lemma add_dof_inv cart amps pols order inc s s' w r :
  inv s -> add_dof cart amps pols order inc s = ((s', w), r) -> inv s'.
Proof.
  intros I H. apply add_dof_cases in H as [(e & -> & ->)|(-> & Ho & disp & dofs & bs & pss & H1 & H2 & H3 & H4 & H5 & H6 & H7 & H8 & ->)]; auto.
  eapply appended_inv; eauto. lia.
Qed.

(** What one call can do *)
Lemma run_op_cases o s s' w r :
  run_op o s = ((s', w), r) ->
  (exists e, r = Err e /\ s' = s) \/
  (r = Ok tt /\
   ((exists cart amps pols order inc, add_dof cart amps pols order inc s = ((s', w), Ok tt) /\
       (includes_ref o -> inc = true)) \/
    (exists mask, s' = mkIM (im_ref s) (im_refpol s) (im_dummy s) (im_basis s) (im_interp s) mask /\
       (iop_wf o -> List.length mask = List.length (im_mask s)) /\ w = []))).
Proof.
  assert (A: forall c a p k i, add_dof c a p k i s = ((s', w), r) -> (includes_ref o -> i = true) ->
     (exists e, r = Err e /\ s' = s) \/
     (r = Ok tt /\ (exists cart amps pols order inc, add_dof cart amps pols order inc s = ((s', w), Ok tt) /\
       (includes_ref o -> inc = true)))).
  { intros c a p k i H G. pose proof H as H'.
    apply add_dof_cases in H as [H|(-> & _)]; auto. right. split; auto. exists c, a, p, k, i. auto. }
  destruct o as [c a p k i|rds k|poss p k|sh v|]; simpl.
  - intros H. destruct (A _ a p k i H) as [G|[G1 G2]]; auto.
  - unfold add_dof_from_files, bind, get, lift. destruct (read_dof s rds) as [[[d0 am] po]|e].
    2: { intros [= <- <- <-]; left; eauto. }
    destruct (add_dof _ _ _ _ _ s) as [[s2 w2] r2] eqn:E. simpl. intros [= <- <- <-].
    destruct (A _ _ _ _ _ E) as [G|[G1 G2]]; simpl; auto.
  - unfold add_dof_from_pymatgen, bind, get, lift. destruct (displacement_amplitudes s poss) as [x|e].
    2: { intros [= <- <- <-]; left; eauto. }
    destruct (add_dof _ _ _ _ _ s) as [[s2 w2] r2] eqn:E. simpl. intros [= <- <- <-].
    destruct (A _ _ _ _ _ E) as [G|[G1 G2]]; simpl; auto.
  - unfold set_mask, bind, get, lift, put.
    destruct (verify_ndarray_shape_spec sh [Some (List.length (im_mask s))]) as [V _].
    destruct (verify_ndarray_shape sh [Some (List.length (im_mask s))]) as [[]|e].
    2: { intros [= <- <- <-]; left; eauto. }
    simpl. intros [= <- <- <-]. right. split; auto. right. exists v. split; [auto|split; [|auto]].
    intros Hv. destruct V as [V _]. specialize (V eq_refl). inversion V as [|? ? ? ? E V']; subst.
    inversion V'; subst. simpl in Hv. lia.
  - unfold unmask, bind, get, put. simpl. intros [= <- <- <-]. right. split; auto. right.
    eexists. split; [reflexivity|split; [intros; apply map_length|auto]].
Qed.

Lemma step_inv s o : iop_wf o -> inv s -> inv (step s o).
Proof.
  intros W I. unfold step. destruct (run_op o s) as [[s' w] r] eqn:E. simpl.
  apply run_op_cases in E as [(e & _ & ->)|(_ & [(c & a & p & k & i & E & _)|(mask & -> & Hm & _)])]; auto.
  - eapply add_dof_inv; eauto.
  - destruct I as (I1 & (C1 & C2 & C3) & I3 & I4). split; [auto|split; [|split; auto]].
    split; simpl; [rewrite Hm; auto|auto].
Qed.

Lemma run_inv s ops : Forall iop_wf ops -> inv s -> inv (run s ops).
Proof.
  unfold run. revert s; induction ops as [|o ops IH]; intros s W I; simpl; auto.
  inversion W; subst. apply IH; auto. apply step_inv; auto.
Qed.

Lemma valid_reference_wf r : valid_reference r -> wf_ref r.
Proof. intros (nu & L & pos & ops & eq & H & H1 & H2). eapply make_reference_wf; eauto. Qed.

Lemma make_model_inv r pol dummy : wf_ref r -> inv (make_model r pol dummy).
Proof.
  intros H. split; [auto|split; [|split; constructor]]. split; [auto|split; auto].
Qed.

(** ** ART models *)
Definition added (s : imodel) (parent : arr V3) (amps : list R) (pols : list M3) (inc : bool) (order : nat)
    (w : list warning) (s' : imodel) : Prop :=
  exists dofs bs pss, get_dof s parent amps pols inc = Ok dofs /\ map fst dofs = map Fin bs /\
    Forall2 (fun d ps => snd d = map (fun p : R * M3 => (Some (fst p), snd p)) ps) dofs pss /\
    w = flat_map span_warnings pss /\
    Forall (fun ps : list (R * M3) => spaced (map fst ps) /\ (order < List.length ps)%nat) pss /\
    s' = appended s bs (map (fun ps => mkSpline order (sort_pts ps)) pss).

Lemma add_art_cases atom dir amps pols s s' w r : add_art atom dir amps pols s = ((s', w), r) ->
  (exists e, r = Err e /\ s' = s) \/
  (r = Ok tt /\ (ra_shape amps = [1%nat] \/ ra_shape amps = [2%nat]) /\
   exists f k, get_frac_direction (im_ref s) dir = Ok f /\
     py_index (List.length (rs_positions (im_ref s))) atom = Some k /\
     add_dof (get_cart_displacement_arr (im_ref s) (art_displacement (im_ref s) k f)) amps
       (if im_dummy s then mats_arr (repeat m0 (List.length (ra_data amps))) else pols) 1 false s = ((s', w), Ok tt)).
Proof.
  unfold add_art. unfold bind at 1, get at 1.
  unfold bind at 1, lift at 1. destruct (get_frac_direction _ _) as [f|e]; [|intros [= <- <- <-]; left; eauto].
  unfold bind at 1, lift at 1.
  destruct (match ra_shape amps with [1%nat] | [2%nat] => Ok tt | _ => Err ValueError end) as [[]|e] eqn:V;
    [|intros [= <- <- <-]; left; eauto].
  unfold bind at 1, lift at 1. destruct (verify_ndarray_shape _ _) as [[]|e]; [|intros [= <- <- <-]; left; eauto].
  destruct (py_index _ _) as [k|] eqn:K; [|intros [= <- <- <-]; left; eauto].
  match goal with |- context [add_dof ?a ?b ?c ?d ?e s] => destruct (add_dof a b c d e s) as [[s1 w1] r1] eqn:A end.
  simpl. intros [= <- <- <-]. pose proof A as A'.
  apply add_dof_cases in A' as [(e & -> & ->)|(-> & _)]; [left; eauto|]. right. split; [auto|]. split.
  - destruct (ra_shape amps) as [|[|[|[|]]] []]; try discriminate; auto.
  - exists f, k. auto.
Qed.

Lemma add_one_atom_cases d0 amps pols s s' w r : add_one_atom d0 amps pols s = ((s', w), r) ->
  (exists e, r = Err e /\ s' = s) \/
  (r = Ok tt /\ (exists k, argmax (map vnorm2 d0) = Ok k /\ forallb row_small (set_nth k v0 d0) = true) /\
   (exists d dofs, get_dof s (Fin d0) amps pols false = Ok (d :: dofs) /\ List.length (snd d) = 2%nat) /\
   added s (Fin d0) amps pols false 1 w s').
Proof.
  unfold add_one_atom. unfold bind at 1, get at 1.
  unfold bind at 1, lift at 1. destruct (argmax _) as [k|e] eqn:K; [|intros [= <- <- <-]; left; eauto].
  destruct (forallb row_small (set_nth k v0 d0)) eqn:F; [|intros [= <- <- <-]; left; eauto].
  cbn [negb]. unfold bind at 1, lift at 1.
  destruct (get_dof _ _ _ _ _) as [dofs|e] eqn:G; [|intros [= <- <- <-]; left; eauto].
  destruct dofs as [|d dofs]; [intros [= <- <- <-]; left; eauto|].
  destruct (Nat.eqb_spec (List.length (snd d)) 2) as [L|L]; [|intros [= <- <- <-]; left; eauto].
  cbn [negb]. destruct (construct_and_add (d :: dofs) 1 s) as [[s1 w1] r1] eqn:C. simpl. intros [= <- <- <-].
  apply construct_and_add_cases in C as [(e & -> & ->)|(-> & _ & bs & pss & H1 & H2 & H3 & H4 & H5)]; [left; eauto|].
  right. split; [auto|]. split; [eauto|]. split; [eauto|]. exists (d :: dofs), bs, pss. auto 10.
Qed.

Lemma run_aop_cases o s s' w r : run_aop o s = ((s', w), r) ->
  (exists e, r = Err e /\ s' = s) \/
  (r = Ok tt /\
   ((exists parent amps pols, added s parent amps pols false 1 w s') \/
    (exists mask, s' = mkIM (im_ref s) (im_refpol s) (im_dummy s) (im_basis s) (im_interp s) mask /\
       (aop_wf o -> List.length mask = List.length (im_mask s)) /\ w = []))).
Proof.
  assert (B: forall o', match o' with OpSetMask _ _ | OpUnmask => True | _ => False end ->
    run_op o' s = ((s', w), r) -> o = OpBase o' ->
    (exists e, r = Err e /\ s' = s) \/
    (r = Ok tt /\ (exists mask, s' = mkIM (im_ref s) (im_refpol s) (im_dummy s) (im_basis s) (im_interp s) mask /\
       (aop_wf o -> List.length mask = List.length (im_mask s)) /\ w = []))).
  { intros o' T H ->. destruct o'; try contradiction; simpl in H.
    - unfold set_mask, bind, get, lift, put in H.
      destruct (verify_ndarray_shape_spec shape [Some (List.length (im_mask s))]) as [V _].
      destruct (verify_ndarray_shape shape [Some (List.length (im_mask s))]) as [[]|e].
      2: { injection H as <- <- <-; left; eauto. }
      simpl in H. injection H as <- <- <-. right. split; auto. exists value. split; [auto|split; [|auto]].
      simpl. intros Hv. destruct V as [V _]. specialize (V eq_refl). inversion V as [|? ? ? ? E V']; subst.
      inversion V'; subst. simpl in Hv. lia.
    - unfold unmask, bind, get, put in H. simpl in H. injection H as <- <- <-. right. split; auto.
      eexists. split; [reflexivity|split; [intros; apply map_length|auto]]. }
  assert (U: ((s, []), Err UserError) = ((s', w), r) -> exists e, r = Err e /\ s' = s) by (intros [= <- <- <-]; eauto).
  assert (A: forall d0 amps pols, add_one_atom d0 amps pols s = ((s', w), r) ->
    (exists e, r = Err e /\ s' = s) \/ (r = Ok tt /\ (exists parent amps pols, added s parent amps pols false 1 w s'))).
  { intros d0 amps pols H. apply add_one_atom_cases in H as [H|(-> & _ & _ & H)]; eauto 10. }
  destruct o as [[c a p k i|rds k|poss p k|sh v|]|atom dir amps pols|rds|poss pols]; simpl.
  - intros H. left. auto.
  - intros H. left. auto.
  - intros H. left. auto.
  - intros H. destruct (B (OpSetMask sh v) I H eq_refl) as [G|[G1 G2]]; auto.
  - intros H. destruct (B OpUnmask I H eq_refl) as [G|[G1 G2]]; auto.
  - intros H. apply add_art_cases in H as [H|(-> & _ & f & k & _ & _ & H)]; [auto|]. right. split; [auto|]. left.
    apply add_dof_cases in H as [(e & E & _)|(_ & _ & disp & dofs & bs & pss & _ & _ & _ & H4 & H5 & H6 & H7 & H8 & ->)]; [discriminate|].
    do 3 eexists. exists dofs, bs, pss. split; [exact H4|]. auto 10.
  - unfold add_art_from_files, bind, get, lift. destruct (read_dof s rds) as [[[d0 am] po]|e].
    2: { intros [= <- <- <-]; left; eauto. }
    destruct (add_one_atom d0 am po s) as [[s2 w2] r2] eqn:E. simpl. intros [= <- <- <-].
    destruct (A _ _ _ E) as [G|[G1 G2]]; auto.
  - unfold add_art_from_pymatgen, bind, get, lift. destruct (displacement_amplitudes s poss) as [x|e].
    2: { intros [= <- <- <-]; left; eauto. }
    destruct (add_one_atom (fst x) (snd x) pols s) as [[s2 w2] r2] eqn:E. simpl. intros [= <- <- <-].
    destruct (A _ _ _ E) as [G|[G1 G2]]; auto.
Qed.

Lemma astep_inv s o : aop_wf o -> inv s -> inv (astep s o).
Proof.
  intros W I. unfold astep. destruct (run_aop o s) as [[s' w] r] eqn:E. simpl.
  apply run_aop_cases in E as [(e & _ & ->)|(_ & [(c & a & p & dofs & bs & pss & H1 & H2 & H3 & H4 & H5 & ->)|(mask & -> & Hm & _)])]; auto.
  - eapply appended_inv; eauto.
  - destruct I as (I1 & (C1 & C2 & C3) & I3 & I4). split; [auto|split; [|split; auto]].
    split; simpl; [rewrite Hm; auto|auto].
Qed.
Lemma arun_inv s ops : Forall aop_wf ops -> inv s -> inv (arun s ops).
Proof.
  unfold arun. revert s; induction ops as [|o ops IH]; intros s W I; simpl; auto.
  inversion W; subst. apply IH; auto. apply astep_inv; auto.
Qed.

Lemma reachable_art_inv m : reachable_art m -> inv m.
Proof.
  intros (r & pol & dummy & ops & Hr & W & ->). apply arun_inv; auto.
  apply make_model_inv, valid_reference_wf; auto.
Qed.
Lemma reachable_inv m : reachable m -> inv m.
Proof.
  intros [(r & pol & dummy & ops & Hr & W & ->)|H]; [|apply reachable_art_inv; auto]. apply run_inv; auto.
  apply make_model_inv, valid_reference_wf; auto.
Qed.

(** Data that never changes *)
Lemma run_op_frame o s s' w r : run_op o s = ((s', w), r) ->
  im_ref s' = im_ref s /\ im_refpol s' = im_refpol s /\ im_dummy s' = im_dummy s.
Proof.
  intros H. apply run_op_cases in H as [(e & _ & ->)|(_ & [(c & a & p & k & i & E & _)|(mask & -> & _)])]; auto.
  apply add_dof_cases in E as [(e & E & _)|(_ & _ & disp & dofs & bs & pss & _ & _ & _ & _ & _ & _ & _ & _ & ->)];
    [discriminate|auto].
Qed.
Lemma run_frame s ops : im_ref (run s ops) = im_ref s /\ im_refpol (run s ops) = im_refpol s /\
  im_dummy (run s ops) = im_dummy s.
Proof.
  unfold run. revert s; induction ops as [|o ops IH]; intros s; simpl; auto.
  destruct (IH (step s o)) as (-> & -> & ->). unfold step. destruct (run_op o s) as [[s' w] r] eqn:E.
  simpl. eapply run_op_frame; eauto.
Qed.

Lemma run_aop_frame o s s' w r : run_aop o s = ((s', w), r) ->
  im_ref s' = im_ref s /\ im_refpol s' = im_refpol s /\ im_dummy s' = im_dummy s.
Proof.
  intros H. apply run_aop_cases in H as [(e & _ & ->)|(_ & [(c & a & p & dofs & bs & pss & _ & _ & _ & _ & _ & ->)|(mask & -> & _)])]; auto.
Qed.
Lemma arun_frame s ops : im_ref (arun s ops) = im_ref s /\ im_refpol (arun s ops) = im_refpol s /\
  im_dummy (arun s ops) = im_dummy s.
Proof.
  unfold arun. revert s; induction ops as [|o ops IH]; intros s; simpl; auto.
  destruct (IH (astep s o)) as (-> & -> & ->). unfold astep. destruct (run_aop o s) as [[s' w] r] eqn:E.
  simpl. eapply run_aop_frame; eauto.
Qed.

(** ** At least one DOF *)
Lemma classify_nonempty st cd op st' : classify st cd op = Ok st' ->
  (fst st <> [] -> fst st' <> []) /\ (snd st = [] -> fst st' <> []).
Proof.
  destruct st as [gs orth]. unfold classify.
  destruct (is_orthogonal_to_all (flatten cd) (map flatten orth)) as [o|] eqn:Ho; simpl; [|discriminate].
  destruct (Z.eqb_spec o (-1)) as [->|No].
  - intros [= <-]. simpl. split; intros _ H; apply app_eq_nil in H as [_ H]; discriminate.
  - destruct (is_non_collinear_with_all (flatten cd) (map flatten orth)) as [c|] eqn:Hc; simpl; [|discriminate].
    assert (N: orth = [] -> False).
    { intros ->. unfold is_orthogonal_to_all in Ho. simpl in Ho. congruence. }
    destruct (Z.eqb_spec c (-1)); simpl.
    + intros [= <-]; simpl; split; [auto|intros E; destruct (N E)].
    + destruct (nth_error gs (Z.to_nat c)); [|discriminate]. destruct (existsb _ _); intros [= <-]; simpl.
      * split; [auto|intros E; destruct (N E)].
      * split; [|intros E; destruct (N E)]. intros H E. apply H.
        apply (f_equal (@List.length _)) in E. rewrite add_to_group_length in E. destruct gs; auto; discriminate.
Qed.
Lemma equivalent_loop_nonempty r d ops st st' : equivalent_loop r d ops st = Ok st' ->
  (fst st <> [] -> fst st' <> []) /\ (snd st = [] -> ops <> [] -> fst st' <> []).
Proof.
  revert st; induction ops as [|[op P] ops IH]; intros st; simpl.
  - intros [= <-]. split; auto.
  - destruct (candidate r d op P) as [cd|]; simpl; [|discriminate].
    destruct (classify st cd op) as [st1|] eqn:C; simpl; [|discriminate].
    intros E. apply classify_nonempty in C as [C1 C2]. apply IH in E as [E1 E2]. split; auto.
Qed.
Lemma groups_nonempty r parent gs : rs_ops r <> [] -> wf_ref r ->
  get_equivalent_displacements r parent = Ok gs -> gs <> [].
Proof.
  intros Ho (_ & _ & Hl & _). unfold get_equivalent_displacements.
  destruct (displace_positions _ _); simpl; [|discriminate].
  destruct (equivalent_loop r _ _ _) as [st|] eqn:E; simpl; [|discriminate]. intros [= <-].
  apply equivalent_loop_nonempty in E as [_ E]. apply E; auto.
  destruct (rs_ops r), (rs_perms r); simpl in *; try discriminate; auto.
Qed.
