(** Proofs about M_Interp: what a successful add_dof does to the model. *)
From Coq Require Import String ZArith Reals Lra Lia Bool Arith List.
From Verif Require Import Base LinAlg M_Validate M_StructUtils M_Symmetry M_Reference M_Interp
  S_Lattice S_Vec S_Symmetry S_Equivalent S_Interp P_StructUtils P_Symmetry P_Equivalent P_EquivTotal.
Import ListNotations.
Local Open Scope R_scope.

(** ** The monad *)
Definition stateless {A} (m : act A) : Prop :=
  exists w r, forall s, m s = ((s, w), r).

Lemma stateless_ret {A} (a : A) : stateless (ret a).
Proof. exists [], (Ok a); auto. Qed.
Lemma stateless_raise {A} e : stateless (@raise A e).
Proof. exists [], (Err e); auto. Qed.
Lemma stateless_emit w : stateless (emit w).
Proof. exists [w], (Ok tt); auto. Qed.
Lemma stateless_bind {A B} (m : act A) (k : A -> act B) :
  stateless m -> (forall a, stateless (k a)) -> stateless (bind m k).
Proof.
  intros (w & r & H) G. destruct r as [a|e].
  - destruct (G a) as (w2 & r2 & H2). exists (w ++ w2), r2. intros s. unfold bind. rewrite H, H2. auto.
  - exists w, (Err e). intros s. unfold bind. rewrite H. auto.
Qed.
Lemma stateless_emit_all ws : stateless (emit_all ws).
Proof. induction ws; simpl; [apply stateless_ret|]. apply stateless_bind; [apply stateless_emit|auto]. Qed.
Lemma emit_all_eq ws s : emit_all ws s = ((s, ws), Ok tt).
Proof. induction ws as [|w ws IH]; simpl; auto. unfold bind. simpl. rewrite IH. auto. Qed.
Lemma stateless_for {A B} (f : A -> act B) l : (forall a, stateless (f a)) -> stateless (for_each f l).
Proof.
  intros H; induction l; simpl; [apply stateless_ret|].
  apply stateless_bind; auto. intros b. apply stateless_bind; auto. intros; apply stateless_ret.
Qed.
Lemma stateless_construct k pts : stateless (construct_one k pts).
Proof.
  unfold construct_one. destruct (has_duplicates _); [apply stateless_raise|].
  destruct (Nat.leb _ _); [apply stateless_raise|]. destruct (all_finite pts); [|apply stateless_raise].
  apply stateless_bind; [apply stateless_emit_all|intros; apply stateless_ret].
Qed.
Lemma stateless_state {A} (m : act A) s : stateless m -> fst (fst (m s)) = s.
Proof. intros (w & r & H). rewrite H. auto. Qed.

(** ** Construction of one interpolation *)
Lemma all_finite_map pts ps : all_finite pts = Some ps ->
  pts = map (fun p => (Some (fst p), snd p)) ps.
Proof.
  revert ps; induction pts as [|[[x|] y] pts IH]; simpl; intros ps; try discriminate.
  - intros [= <-]; auto.
  - destruct (all_finite pts) as [r|]; [|discriminate]. intros [= <-]. simpl. rewrite (IH r); auto.
Qed.
Lemma all_finite_inv ps : all_finite (map (fun p : R * M3 => (Some (fst p), snd p)) ps) = Some ps.
Proof. induction ps as [|[x y] ps IH]; simpl; auto. rewrite IH; auto. Qed.

Fixpoint spaced (l : list R) : Prop :=
  match l with [] => True | x :: l' => (forall y, In y l' -> ~ too_close x y) /\ spaced l' end.

Lemma isclose_too_close x y : isclose x y = true <-> too_close x y.
Proof. unfold isclose, isclose_at, too_close, atol0, rtol. apply Rleb_true. Qed.

Lemma has_duplicates_spec l : has_duplicates (map Some l) = false <-> spaced l.
Proof.
  induction l as [|x l IH]; simpl; [tauto|]. rewrite orb_false_iff, IH.
  assert (H: existsb (close_n (Some x)) (map Some l) = false <-> (forall y, In y l -> ~ too_close x y)).
  { clear IH. split.
    - intros H y Hy C. apply isclose_too_close in C.
      assert (existsb (close_n (Some x)) (map Some l) = true).
      { apply existsb_exists. exists (Some y). split; [apply in_map; auto|auto]. }
      congruence.
    - intros H. destruct (existsb _ _) eqn:E; auto. apply existsb_exists in E as (o & Ho & Hc).
      apply in_map_iff in Ho as (y & <- & Hy). simpl in Hc. apply isclose_too_close in Hc.
      exfalso. eapply H; eauto. }
  rewrite H. tauto.
Qed.

Lemma construct_one_Ok k pts s s' w sp :
  construct_one k pts s = ((s', w), Ok sp) ->
  exists ps, pts = map (fun p => (Some (fst p), snd p)) ps /\ s' = s /\ w = span_warnings ps /\
    sp = mkSpline k (sort_pts ps) /\ spaced (map fst ps) /\ (k < List.length ps)%nat.
Proof.
  unfold construct_one. destruct (has_duplicates (map fst pts)) eqn:D; [discriminate|].
  destruct (Nat.leb (List.length pts) k) eqn:L; [discriminate|].
  destruct (all_finite pts) as [ps|] eqn:F; [|discriminate].
  unfold bind. rewrite emit_all_eq. simpl. intros [= <- <- <-].
  apply all_finite_map in F. subst pts. exists ps.
  rewrite app_nil_r. rewrite map_map in D. simpl in D. rewrite map_length in L.
  apply Nat.leb_gt in L.
  split; [auto|split; [auto|split; [auto|split; [auto|split; [|auto]]]]].
  apply has_duplicates_spec. rewrite map_map. auto.
Qed.

Lemma construct_one_complete k ps s :
  spaced (map fst ps) -> (k < List.length ps)%nat ->
  construct_one k (map (fun p => (Some (fst p), snd p)) ps) s =
    ((s, span_warnings ps), Ok (mkSpline k (sort_pts ps))).
Proof.
  intros H L. unfold construct_one. rewrite map_map. simpl.
  apply has_duplicates_spec in H. rewrite map_map in H. rewrite H.
  rewrite map_length. apply Nat.leb_gt in L. rewrite L. rewrite all_finite_inv.
  unfold bind. rewrite emit_all_eq. simpl. rewrite app_nil_r. auto.
Qed.

(** [for_each] over the DOFs *)
Lemma for_each_Ok k (l : list dof) s s' w sps :
  for_each (fun d : dof => construct_one k (snd d)) l s = ((s', w), Ok sps) ->
  s' = s /\ exists pss, Forall2 (fun d ps => snd d = map (fun p => (Some (fst p), snd p)) ps) l pss /\
    w = flat_map span_warnings pss /\ sps = map (fun ps => mkSpline k (sort_pts ps)) pss /\
    Forall (fun ps => spaced (map fst ps) /\ (k < List.length ps)%nat) pss.
Proof.
  revert s' w sps; induction l as [|d l IH]; simpl; intros s' w sps.
  - unfold ret. intros [= <- <- <-]. split; auto. exists []. simpl. auto.
  - unfold bind at 1. destruct (construct_one k (snd d) s) as [[s1 w1] [sp|e]] eqn:E; [|discriminate].
    apply construct_one_Ok in E as (ps & E1 & -> & -> & -> & Hs & Hl).
    unfold bind at 1. destruct (for_each _ l s) as [[s2 w2] [sps2|e]] eqn:F; [|discriminate].
    specialize (IH _ _ _ eq_refl) as (-> & pss & H1 & -> & -> & H2).
    unfold ret. intros [= <- <- <-]. split; auto. exists (ps :: pss). simpl.
    rewrite app_nil_r. split; [constructor; auto|split; [auto|split; [auto|constructor; auto]]].
Qed.

Lemma for_each_complete k (l : list dof) pss s :
  Forall2 (fun d ps => snd d = map (fun p => (Some (fst p), snd p)) ps) l pss ->
  Forall (fun ps => spaced (map fst ps) /\ (k < List.length ps)%nat) pss ->
  for_each (fun d : dof => construct_one k (snd d)) l s =
    ((s, flat_map span_warnings pss), Ok (map (fun ps => mkSpline k (sort_pts ps)) pss)).
Proof.
  intros H; induction H as [|d ps l pss E H IH]; simpl; intros G; [reflexivity|].
  inversion G as [|? ? [G1 G2] G3]; subst. unfold bind at 1. rewrite E, construct_one_complete by auto.
  unfold bind at 1. rewrite IH by auto. unfold ret. rewrite app_nil_r. auto.
Qed.

Lemma all_fin_map l bs : all_fin l = Some bs -> l = map Fin bs.
Proof.
  revert bs; induction l as [|[a|n] l IH]; simpl; intros bs; try discriminate.
  - intros [= <-]; auto.
  - destruct (all_fin l); [|discriminate]. intros [= <-]. simpl. rewrite (IH l0); auto.
Qed.
Lemma all_fin_inv bs : all_fin (map Fin bs) = Some bs.
Proof. induction bs; simpl; auto. rewrite IHbs; auto. Qed.

(** What a successful addition appends *)
Definition appended (s : imodel) (bs : list (list V3)) (sps : list spline) : imodel :=
  mkIM (im_ref s) (im_refpol s) (im_dummy s) (im_basis s ++ bs)
       (if im_dummy s then im_interp s else im_interp s ++ sps)
       (im_mask s ++ repeat false (List.length bs)).

Lemma construct_and_add_cases dofs order s s' w r :
  construct_and_add dofs order s = ((s', w), r) ->
  (exists e, r = Err e /\ s' = s) \/
  (r = Ok tt /\ (1 <= order)%Z /\ exists bs pss,
     map fst dofs = map Fin bs /\
     Forall2 (fun d ps => snd d = map (fun p => (Some (fst p), snd p)) ps) dofs pss /\
     w = flat_map span_warnings pss /\
     Forall (fun ps => spaced (map fst ps) /\ (Z.to_nat order < List.length ps)%nat) pss /\
     s' = appended s bs (map (fun ps => mkSpline (Z.to_nat order) (sort_pts ps)) pss)).
Proof.
  unfold construct_and_add. destruct (Z.ltb_spec order 1).
  { unfold raise. intros [= <- <- <-]. left; eauto. }
  unfold bind at 1.
  assert (HS: stateless (for_each (fun d : dof => construct_one (Z.to_nat order) (snd d)) dofs))
    by (apply stateless_for; intros; apply stateless_construct).
  destruct (for_each _ dofs s) as [[s1 w1] [sps|e]] eqn:F.
  2: { intros [= <- <- <-]. left. exists e; split; auto.
       apply (stateless_state _ s) in HS. rewrite F in HS. auto. }
  apply for_each_Ok in F as (-> & pss & H1 & -> & -> & H2).
  destruct (all_fin (map fst dofs)) as [bs|] eqn:A.
  2: { unfold raise. intros [= <- <- <-]. left; eauto. }
  unfold get, put, bind. simpl. rewrite app_nil_r. intros [= <- <- <-].
  right. split; [auto|split; [auto|]]. exists bs, pss.
  apply all_fin_map in A. split; [auto|split; [auto|split; [auto|split; [auto|]]]].
  reflexivity.
Qed.

Lemma construct_and_add_complete dofs order s bs pss :
  (1 <= order)%Z -> map fst dofs = map Fin bs ->
  Forall2 (fun d ps => snd d = map (fun p => (Some (fst p), snd p)) ps) dofs pss ->
  Forall (fun ps => spaced (map fst ps) /\ (Z.to_nat order < List.length ps)%nat) pss ->
  construct_and_add dofs order s =
    ((appended s bs (map (fun ps => mkSpline (Z.to_nat order) (sort_pts ps)) pss),
      flat_map span_warnings pss), Ok tt).
Proof.
  intros Ho Hb H1 H2. unfold construct_and_add. destruct (Z.ltb_spec order 1); [lia|].
  unfold bind at 1. rewrite (for_each_complete _ _ _ _ H1 H2). rewrite Hb, all_fin_inv.
  unfold get, put, bind. simpl. rewrite app_nil_r. reflexivity.
Qed.

(** ** add_dof *)
Definition dof_pols (s : imodel) (amps pols : rarr) : list M3 :=
  if im_dummy s then repeat m0 (List.length (ra_data amps)) else mats_of (ra_data pols).

Lemma mats_of_entries l : mats_of (flat_map mat_entries l) = l.
Proof. induction l as [|[[] [] []] l IH]; simpl; auto. rewrite IH; auto. Qed.

Lemma add_dof_cases cart amps pols order inc s s' w r :
  add_dof cart amps pols order inc s = ((s', w), r) ->
  (exists e, r = Err e /\ s' = s) \/
  (r = Ok tt /\ (1 <= order)%Z /\ exists disp dofs bs pss,
     get_frac_displacement_arr (im_ref s) cart = Ok disp /\
     verify_ndarray_shape (ra_shape amps) [None] = Ok tt /\
     (im_dummy s = false -> verify_ndarray_shape (ra_shape pols)
        [Some (List.length (ra_data amps)); Some 3%nat; Some 3%nat] = Ok tt) /\
     get_dof s (over_norm 10 disp) (ra_data amps) (dof_pols s amps pols) inc = Ok dofs /\
     map fst dofs = map Fin bs /\
     Forall2 (fun d ps => snd d = map (fun p => (Some (fst p), snd p)) ps) dofs pss /\
     w = flat_map span_warnings pss /\
     Forall (fun ps => spaced (map fst ps) /\ (Z.to_nat order < List.length ps)%nat) pss /\
     s' = appended s bs (map (fun ps => mkSpline (Z.to_nat order) (sort_pts ps)) pss)).
Proof.
  unfold add_dof. unfold bind at 1, get at 1.
  unfold bind at 1, lift at 1. destruct (get_frac_displacement_arr (im_ref s) cart) as [disp|e] eqn:D.
  2: { intros [= <- <- <-]; left; eauto. }
  unfold bind at 1, lift at 1. destruct (verify_ndarray_shape (ra_shape amps) [None]) as [[]|e] eqn:V1.
  2: { intros [= <- <- <-]; left; eauto. }
  unfold bind at 1, lift at 1.
  destruct (verify_ndarray_shape
    (ra_shape (if im_dummy s then mats_arr (repeat m0 (List.length (ra_data amps))) else pols)) _) as [[]|e] eqn:V2.
  2: { intros [= <- <- <-]; left; eauto. }
  unfold bind at 1, lift at 1.
  replace (mats_of (ra_data (if im_dummy s then mats_arr (repeat m0 (List.length (ra_data amps))) else pols)))
    with (dof_pols s amps pols).
  2: { unfold dof_pols. destruct (im_dummy s); auto. simpl. rewrite mats_of_entries. auto. }
  destruct (get_dof s (over_norm 10 disp) (ra_data amps) (dof_pols s amps pols) inc) as [dofs|e] eqn:G.
  2: { intros [= <- <- <-]; left; eauto. }
  destruct (construct_and_add dofs order s) as [[s1 w1] r1] eqn:C. simpl. intros [= <- <- <-].
  apply construct_and_add_cases in C as [(e & -> & ->)|(-> & Ho & bs & pss & H1 & H2 & H3 & H4 & H5)].
  - left; eauto.
  - right. split; [auto|split; [auto|]]. exists disp, dofs, bs, pss.
    repeat (split; [auto|]); auto.
    intros Hd. rewrite Hd in V2. auto.
Qed.

Lemma add_dof_complete cart amps pols order inc s disp dofs bs pss :
  (1 <= order)%Z ->
  get_frac_displacement_arr (im_ref s) cart = Ok disp ->
  verify_ndarray_shape (ra_shape amps) [None] = Ok tt ->
  (im_dummy s = false -> verify_ndarray_shape (ra_shape pols)
      [Some (List.length (ra_data amps)); Some 3%nat; Some 3%nat] = Ok tt) ->
  get_dof s (over_norm 10 disp) (ra_data amps) (dof_pols s amps pols) inc = Ok dofs ->
  map fst dofs = map Fin bs ->
  Forall2 (fun d ps => snd d = map (fun p => (Some (fst p), snd p)) ps) dofs pss ->
  Forall (fun ps => spaced (map fst ps) /\ (Z.to_nat order < List.length ps)%nat) pss ->
  add_dof cart amps pols order inc s =
    ((appended s bs (map (fun ps => mkSpline (Z.to_nat order) (sort_pts ps)) pss),
      flat_map span_warnings pss), Ok tt).
Proof.
  intros Ho D V1 V2 G H1 H2 H3. unfold add_dof. unfold bind at 1, get at 1.
  unfold bind at 1, lift at 1. rewrite D.
  unfold bind at 1, lift at 1. rewrite V1.
  unfold bind at 1, lift at 1.
  assert (V: verify_ndarray_shape
    (ra_shape (if im_dummy s then mats_arr (repeat m0 (List.length (ra_data amps))) else pols))
    [Some (List.length (ra_data amps)); Some 3%nat; Some 3%nat] = Ok tt).
  { destruct (im_dummy s); auto. simpl ra_shape. apply verify_ndarray_shape_spec.
    rewrite repeat_length. repeat constructor. }
  rewrite V.
  unfold bind at 1, lift at 1.
  replace (mats_of (ra_data (if im_dummy s then mats_arr (repeat m0 (List.length (ra_data amps))) else pols)))
    with (dof_pols s amps pols).
  2: { unfold dof_pols. destruct (im_dummy s); auto. simpl. rewrite mats_of_entries. auto. }
  rewrite G, (construct_and_add_complete dofs order s bs pss) by auto. reflexivity.
Qed.

(** ** Sorting *)
Lemma insert_pt_In p l q : In q (insert_pt p l) <-> q = p \/ In q l.
Proof.
  induction l as [|a l IH]; simpl; [intuition|]. destruct (Rleb (fst p) (fst a)); simpl; [intuition|].
  rewrite IH. intuition.
Qed.
Lemma sort_pts_In l q : In q (sort_pts l) <-> In q l.
Proof.
  induction l as [|a l IH]; simpl; [tauto|]. fold (sort_pts l). rewrite insert_pt_In, IH. intuition.
Qed.
Lemma insert_pt_length p l : List.length (insert_pt p l) = S (List.length l).
Proof. induction l; simpl; auto. destruct (Rleb _ _); simpl; auto. Qed.
Lemma sort_pts_length l : List.length (sort_pts l) = List.length l.
Proof. induction l; simpl; auto. fold (sort_pts l). rewrite insert_pt_length; auto. Qed.

Lemma increasing_cons p l : increasing (p :: l) <-> (forall q, In q l -> fst p < fst q) /\ increasing l.
Proof.
  revert p; induction l as [|a l IH]; intros p.
  - simpl. intuition.
  - change (increasing (p :: a :: l)) with (fst p < fst a /\ increasing (a :: l)). split.
    + intros [H1 H2]. split; auto. intros q [<-|Hq]; auto. apply IH in H2 as [H2 _].
      specialize (H2 q Hq). lra.
    + intros [H1 H2]. split; auto. apply H1; simpl; auto.
Qed.

Lemma insert_increasing p l : increasing l -> (forall q, In q l -> fst q <> fst p) -> increasing (insert_pt p l).
Proof.
  induction l as [|a l IH]; intros H N; simpl; [auto|].
  destruct (Rleb (fst p) (fst a)) eqn:E.
  - apply increasing_cons. split; auto. apply Rleb_true in E.
    assert (fst p < fst a) by (specialize (N a (or_introl eq_refl)); lra).
    intros q [<-|Hq]; auto. apply increasing_cons in H as [H _]. specialize (H q Hq). lra.
  - apply Rleb_false in E. apply increasing_cons in H as [H1 H2]. apply increasing_cons. split.
    + intros q Hq. apply insert_pt_In in Hq as [->|Hq]; auto.
    + apply IH; auto. intros q Hq. apply N; simpl; auto.
Qed.

Lemma not_close_neq x y : ~ too_close x y -> x <> y.
Proof.
  intros H E. apply H. subst. unfold too_close. rewrite Rminus_diag_eq, Rabs_R0 by auto.
  pose proof (Rabs_pos y). lra.
Qed.

Lemma spaced_sorted ps : spaced (map fst ps) -> increasing (sort_pts ps).
Proof.
  induction ps as [|p ps IH]; simpl; auto. intros [H1 H2]. fold (sort_pts ps).
  apply insert_increasing; auto. intros q Hq. rewrite sort_pts_In in Hq.
  intros E. apply (not_close_neq (fst p) (fst q)); [apply H1; apply in_map; auto|auto].
Qed.

(** pairs of distinct points are further apart than 1e-8 *)
Lemma spaced_gap l x y : spaced l -> In x l -> In y l -> x <> y -> / 100000000 < Rabs (x - y).
Proof.
  assert (G: forall a b, ~ too_close a b -> / 100000000 < Rabs (a - b)).
  { intros a b H. unfold too_close in H. pose proof (Rabs_pos b). lra. }
  induction l as [|a l IH]; simpl; [tauto|]. intros [H1 H2] [<-|Hx] [<-|Hy] N.
  - tauto.
  - apply G; auto.
  - rewrite Rabs_minus_sym. apply G; auto.
  - auto.
Qed.

(** Basis vectors produced by [over_norm] *)
Lemma rowsR_flatten l : rowsR l = flatten_rows l.
Proof. reflexivity. Qed.
Lemma inner_rows a b : inner (rowsR a) (rowsR b) = rows_dot a b.
Proof.
  revert b; induction a as [|v a IH]; intros [|w b]; simpl; auto.
  rewrite rows_dot_cons, <- IH. unfold vdot. unfold rowsR. ring.
Qed.
Lemma ldot_rows a b : ldot (flatten_rows a) (flatten_rows b) = rows_dot a b.
Proof. rewrite ldot_inner. apply inner_rows. Qed.

Lemma over_norm_unit l b : l <> [] -> over_norm 1 (Fin l) = Fin b ->
  rows_norm l <> 0 /\ b = rows_scale (/ rows_norm l) l /\ unit_length b.
Proof.
  intros Hl. unfold over_norm. destruct l as [|v l]; [tauto|].
  rewrite rows_scale_1. destruct (Reqb (rows_norm (v :: l)) 0) eqn:E; [discriminate|].
  apply Reqb_false in E. intros [= <-]. split; [auto|split; [reflexivity|]].
  unfold unit_length. change (inner (rowsR (rows_scale (/ rows_norm (v :: l)) (v :: l)))
    (rowsR (rows_scale (/ rows_norm (v :: l)) (v :: l))) = 1). rewrite inner_rows.
  fold (rows_norm2 (rows_scale (/ rows_norm (v :: l)) (v :: l))).
  rewrite rows_norm2_scale, <- rows_norm_sq. field. auto.
Qed.
