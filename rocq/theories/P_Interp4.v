(** Proofs of C25, C26, C28, C29: the data a DOF is built from. *)
From Coq Require Import String ZArith Reals Lra Lia Psatz Bool Arith List.
From Verif Require Import Base LinAlg M_Validate M_StructUtils M_Symmetry M_Reference M_Interp
  S_Lattice S_Vec S_Symmetry S_Equivalent S_Interp P_StructUtils P_Symmetry P_Equivalent P_Equiv2 P_Equiv3 P_EquivTotal
  P_Interp P_Interp2 P_InterpEval P_Interp3.
Import ListNotations.
Local Open Scope R_scope.

(** ** The amplitudes of a DOF include those supplied *)
Lemma multiplier_self l k : multiplier (Fin l) (Fin l) = Ok (Some k) -> k = 1.
Proof.
  unfold multiplier. destruct (argmax _) as [i|]; simpl; [|discriminate].
  destruct (nth_error (flatten_rows l) i) as [x|]; [|discriminate].
  destruct (Reqb x 0) eqn:E; [discriminate|]. apply Reqb_false in E. intros [= <-]. field. auto.
Qed.

Definition own_points (refpol rot inv : M3) (amps : list R) (pols : list M3) : list (R * M3) :=
  map (fun ap : R * M3 => (fst ap, mmul (mmul inv (msub (snd ap) refpol)) rot)) (combine amps pols).

Lemma mapM_points refpol amps pols mult rot ps :
  mapM (fun ap : R * M3 => let* inv := minv rot in
          Ok (option_map (fun k => k * fst ap) mult, mmul (mmul inv (msub (snd ap) refpol)) rot))
       (combine amps pols) = Ok ps ->
  combine amps pols <> [] ->
  exists inv, minv rot = Ok inv /\
    ps = map (fun ap : R * M3 => (option_map (fun k => k * fst ap) mult, mmul (mmul inv (msub (snd ap) refpol)) rot))
             (combine amps pols).
Proof.
  destruct (minv rot) as [inv|e]; simpl.
  - intros H _. exists inv. split; auto. erewrite mapM_all_ok in H; [|intros; reflexivity]. congruence.
  - destruct (combine amps pols); [tauto|]. discriminate.
Qed.

Lemma first_points r refpol amps pols inc g d ps :
  dof_of_group r refpol amps pols inc g = Ok d ->
  List.length (g_disp g) = List.length (g_trans g) ->
  snd d = map (fun p => (Some (fst p), snd p)) ps -> combine amps pols <> [] ->
  exists l rest rot t ops inv tl,
    g_disp g = Fin l :: rest /\ g_trans g = (rot, t) :: ops /\ minv rot = Ok inv /\
    fst d = over_norm 1 (Fin (get_cart_displacement r l)) /\
    ps = (if inc then [(0, m0)] else []) ++ own_points refpol rot inv amps pols ++ tl.
Proof.
  intros H Hl Hs Hne. apply dof_of_group_Ok in H as (child & rest & pss & H1 & H2 & H3 & H4).
  rewrite H1 in H4, Hl. destruct (g_trans g) as [|[rot t] ops] eqn:Et; [discriminate|].
  simpl in H4. inversion H4 as [|? p1 ? pss' E1 E2]; subst. unfold points_of in E1.
  destruct (multiplier child child) as [mult|] eqn:M; simpl in E1; [|discriminate].
  apply mapM_points in E1 as (inv & Hinv & ->); auto.
  rewrite H3 in Hs. unfold include_pts in Hs. simpl in Hs.
  assert (K: exists ps', ps = (if inc then [(0, m0)] else []) ++ ps' /\
     map (fun ap : R * M3 => (option_map (fun k => k * fst ap) mult, mmul (mmul inv (msub (snd ap) refpol)) rot)) (combine amps pols)
       ++ List.concat pss' = map (fun p => (Some (fst p), snd p)) ps').
  { destruct inc; simpl in Hs.
    - destruct ps as [|[x y] ps]; [discriminate|]. simpl in Hs. injection Hs as <- <- Hs. exists ps. auto.
    - exists ps. auto. }
  destruct K as (ps' & -> & K).
  assert (Hm: exists k, mult = Some k).
  { destruct (combine amps pols) as [|ap l]; [tauto|]. destruct ps' as [|[x y] ps']; [discriminate|].
    simpl in K. destruct mult; [eauto|discriminate]. }
  destruct Hm as (k & ->).
  destruct child as [l|n]; [|discriminate]. apply multiplier_self in M. subst k.
  exists l, rest, rot, t, ops, inv, (skipn (List.length (combine amps pols)) ps').
  split; [auto|split; [auto|split; [auto|split; [auto|]]]]. f_equal.
  clear - K. unfold own_points. revert ps' K. induction (combine amps pols) as [|ap l IH]; intros ps' K; simpl; auto.
  destruct ps' as [|[x y] ps']; [discriminate|]. simpl in K. injection K as E1 E2 K. subst.
  simpl. rewrite <- IH by auto. rewrite Rmult_1_l. auto.
Qed.

Lemma spaced_app l m : spaced (l ++ m) -> spaced l /\ spaced m /\ forall x y, In x l -> In y m -> ~ too_close x y.
Proof.
  induction l as [|a l IH]; simpl; [intros; repeat split; auto; intros x y []|].
  intros [H1 H2]. apply IH in H2 as (H2 & H3 & H4). repeat split; auto.
  - intros y Hy. apply H1. apply in_or_app; auto.
  - intros x y [<-|Hx] Hy; auto. apply H1. apply in_or_app; auto.
Qed.
Lemma spaced_nth l i j x y : spaced l -> (i < j)%nat -> nth_error l i = Some x -> nth_error l j = Some y -> ~ too_close x y.
Proof.
  revert i j; induction l as [|a l IH]; intros [|i] [|j] H; simpl; try lia; try discriminate; destruct H as [H1 H2].
  - intros _ [= <-] Hy. apply H1. eapply nth_error_In; eauto.
  - intros Hij. apply IH; auto. lia.
Qed.

Lemma own_points_fst refpol rot inv amps pols : List.length amps = List.length pols ->
  map fst (own_points refpol rot inv amps pols) = amps.
Proof.
  unfold own_points. revert pols; induction amps as [|a amps IH]; intros [|p pols]; simpl; try discriminate; auto.
  intros H. rewrite IH; auto.
Qed.

Lemma mats_of_length_aux k : forall l, (List.length l <= k)%nat ->
  forall n, List.length l = (n * 9)%nat -> List.length (mats_of l) = n.
Proof.
  induction k as [|k IH]; intros l Hk n Hn.
  - destruct l; simpl in *; [|lia]. lia.
  - destruct n as [|n]; [destruct l; simpl in *; [auto|lia]|].
    do 9 (destruct l as [|? l]; [simpl in Hn; lia|]). simpl in *. f_equal. apply IH; lia.
Qed.
Lemma mats_of_length l n : List.length l = (n * 9)%nat -> List.length (mats_of l) = n.
Proof. intros H. eapply mats_of_length_aux; eauto. Qed.

Lemma dof_pols_length s amps pols :
  rarr_wf pols -> (im_dummy s = false -> verify_ndarray_shape (ra_shape pols)
        [Some (List.length (ra_data amps)); Some 3%nat; Some 3%nat] = Ok tt) ->
  List.length (dof_pols s amps pols) = List.length (ra_data amps).
Proof.
  intros W V. unfold dof_pols. destruct (im_dummy s); [apply repeat_length|].
  specialize (V eq_refl). apply verify_ndarray_shape_spec in V. unfold rarr_wf in W.
  inversion V as [|d1 ? t1 ? E1 V1]; subst. inversion V1 as [|d2 ? t2 ? E2 V2]; subst.
  inversion V2 as [|d3 ? t3 ? E3 V3]; subst. inversion V3; subst.
  apply mats_of_length. rewrite W. rewrite <- H. simpl. lia.
Qed.

(** For every new DOF, the supplied amplitudes are among its points, in order. *)
Lemma add_dof_points cart amps pols order inc s s' w :
  wf_ref (im_ref s) -> rarr_wf pols ->
  add_dof cart amps pols order inc s = ((s', w), Ok tt) -> ra_data amps <> [] -> rs_ops (im_ref s) <> [] ->
  exists (ps : list (R * M3)) tl, spaced (map fst ps) /\ map fst ps = (if inc then [0] else []) ++ ra_data amps ++ tl.
Proof.
  intros Hwf Wp H Hne Hops.
  apply add_dof_cases in H as [(e & E & _)|(_ & Ho & disp & dofs & bs & pss & H1 & H2 & H3 & H4 & H5 & H6 & H7 & H8 & ->)];
    [discriminate|].
  apply get_dof_Ok in H4 as (_ & gs & G & F). pose proof (groups_nonempty _ _ _ Hops Hwf G) as Hg.
  destruct F as [|g d gs dofs Hd F]; [tauto|]. inversion H6 as [|? ps ? pss' E1 E2]; subst.
  inversion H8 as [|? ? [Hs _] _]; subst.
  pose proof (dof_pols_length s amps pols Wp H3) as Hpl.
  destruct (g_disp g) as [|child rest] eqn:Eg.
  { unfold dof_of_group in Hd. rewrite Eg in Hd. discriminate. }
  destruct (group_leader _ _ _ g child rest Hwf G (or_introl eq_refl) Eg) as (Hlen & _).
  eapply first_points in Hd as (l & rest' & rot & t & ops & inv & tl & D1 & D2 & D3 & D4 & D5); eauto.
  2: { intros C. apply (f_equal (@List.length _)) in C. rewrite combine_length, Hpl, Nat.min_id in C.
       destruct (ra_data amps); [tauto|discriminate]. }
  exists ps, (map fst tl). split; auto. rewrite D5, !map_app, own_points_fst by auto.
  destruct inc; auto.
Qed.

Lemma valid_ops r : valid_reference r -> rs_ops r <> [].
Proof.
  intros (nu & L & pos & ops & eq & H & _ & Ho). apply make_reference_ops in H as (-> & _). auto.
Qed.

(** C28, negative part *)
Lemma f_C28_neg cart amps pols order inc s s' w :
  valid_reference (im_ref s) -> rarr_wf pols ->
  add_dof cart amps pols order inc s = ((s', w), Ok tt) ->
  (forall i j x y, (i < j)%nat -> nth_error (ra_data amps) i = Some x -> nth_error (ra_data amps) j = Some y ->
     ~ too_close x y) /\
  (inc = true -> forall x, In x (ra_data amps) -> ~ too_close 0 x).
Proof.
  intros Hr Wp H.
  destruct (list_eq_dec Req_EM_T (ra_data amps) []) as [E|E].
  { rewrite E. split; [intros i j x y _ Hx; destruct i; discriminate|intros _ x []]. }
  eapply add_dof_points in H as (ps & tl & Hs & Hp); eauto using valid_reference_wf, valid_ops.
  rewrite Hp in Hs. apply spaced_app in Hs as (_ & Hs & Hc).
  split.
  - intros i j x y Hij Hx Hy. apply spaced_app in Hs as (Hs & _). eapply spaced_nth; eauto.
  - intros -> x Hx. apply Hc; [simpl; auto|]. apply in_or_app; auto.
Qed.

(** Warnings *)
Lemma fold_max_le l x b : rmax_list x l <= b <-> x <= b /\ forall y, In y l -> y <= b.
Proof.
  unfold rmax_list. revert x; induction l as [|a l IH]; intros x; simpl; [intuition|].
  rewrite IH. split.
  - intros [H1 H2]. pose proof (Rmax_l x a). pose proof (Rmax_r x a). split; [lra|]. intros y [<-|]; auto. lra.
  - intros [H1 H2]. split; auto. apply Rmax_lub; auto.
Qed.
Lemma fold_min_ge l x b : b <= rmin_list x l <-> b <= x /\ forall y, In y l -> b <= y.
Proof.
  unfold rmin_list. revert x; induction l as [|a l IH]; intros x; simpl; [intuition|].
  rewrite IH. split.
  - intros [H1 H2]. pose proof (Rmin_l x a). pose proof (Rmin_r x a). split; [lra|]. intros y [<-|]; auto. lra.
  - intros [H1 H2]. split; auto. apply Rmin_glb; auto.
Qed.

Lemma span_warnings_spec ps : ps <> [] ->
  NoDup (span_warnings ps) /\ forall w, In w (span_warnings ps) <-> due_warning ps w.
Proof.
  intros Hne. unfold span_warnings. destruct (map fst ps) as [|x xs] eqn:E.
  { destruct ps; [tauto|discriminate]. }
  assert (Hin: forall y, In y (x :: xs) <-> exists p, In p ps /\ fst p = y).
  { intros y. rewrite <- E, in_map_iff. split; intros (p & A & B); exists p; auto. }
  assert (Hmx: isclose_at warn_tol (rmax_list x xs) 0 || Rleb (rmax_list x xs) 0 = true <-> rmax_list x xs <= / 1000).
  { rewrite orb_true_iff. unfold isclose_at, warn_tol, rtol. rewrite !Rleb_true, Rabs_R0, Rminus_0_r.
    split; [intros [H|H]; [pose proof (Rle_abs (rmax_list x xs)); lra|lra]|].
    intros H. destruct (Rle_dec (rmax_list x xs) 0); [auto|left]. rewrite Rabs_right; lra. }
  assert (Hmn: isclose_at warn_tol (rmin_list x xs) 0 || Rleb 0 (rmin_list x xs) = true <-> - / 1000 <= rmin_list x xs).
  { rewrite orb_true_iff. unfold isclose_at, warn_tol, rtol. rewrite !Rleb_true, Rabs_R0, Rminus_0_r.
    split; [intros [H|H]; [pose proof (Rle_abs (- rmin_list x xs)) as A; rewrite Rabs_Ropp in A; lra|lra]|].
    intros H. destruct (Rle_dec 0 (rmin_list x xs)); [auto|left]. rewrite Rabs_left; lra. }
  assert (Dmx: due_warning ps MaxNotPositive <-> rmax_list x xs <= / 1000).
  { simpl. rewrite fold_max_le. split.
    - intros H. split; [|intros y Hy]; [destruct (proj1 (Hin x) (or_introl eq_refl)) as (p & A & <-)|
        destruct (proj1 (Hin y) (or_intror Hy)) as (p & A & <-)]; auto.
    - intros [H1 H2] p Hp. assert (K: In (fst p) (x :: xs)) by (apply Hin; eauto). destruct K as [<-|K]; auto. }
  assert (Dmn: due_warning ps MinNotNegative <-> - / 1000 <= rmin_list x xs).
  { simpl. rewrite fold_min_ge. split.
    - intros H. split; [|intros y Hy]; [destruct (proj1 (Hin x) (or_introl eq_refl)) as (p & A & <-)|
        destruct (proj1 (Hin y) (or_intror Hy)) as (p & A & <-)]; auto.
    - intros [H1 H2] p Hp. assert (K: In (fst p) (x :: xs)) by (apply Hin; eauto). destruct K as [<-|K]; auto. }
  split.
  - destruct (_ || _), (_ || _); simpl; repeat (constructor; simpl; try tauto); intros [?|[]]; discriminate.
  - intros w. rewrite in_app_iff. destruct w.
    + rewrite Dmx, <- Hmx. destruct (isclose_at warn_tol (rmax_list x xs) 0 || Rleb (rmax_list x xs) 0),
        (isclose_at warn_tol (rmin_list x xs) 0 || Rleb 0 (rmin_list x xs)); simpl; intuition discriminate.
    + rewrite Dmn, <- Hmn. destruct (isclose_at warn_tol (rmax_list x xs) 0 || Rleb (rmax_list x xs) 0),
        (isclose_at warn_tol (rmin_list x xs) 0 || Rleb 0 (rmin_list x xs)); simpl; intuition discriminate.
Qed.

Lemma due_warning_sort ps w : due_warning (sort_pts ps) w <-> due_warning ps w.
Proof. destruct w; simpl; split; intros H p Hp; apply H; apply sort_pts_In; auto. Qed.

Lemma f_C28_pos cart amps pols order inc s s' w :
  add_dof cart amps pols order inc s = ((s', w), Ok tt) ->
  (1 <= order)%Z /\
  exists sps ws, im_interp s' = (if im_dummy s then im_interp s else im_interp s ++ sps) /\
    List.length (im_basis s') = (List.length (im_basis s) + List.length sps)%nat /\
    Forall (fun sp => Z.of_nat (sp_order sp) = order /\ (order < Z.of_nat (List.length (sp_pts sp)))%Z /\
       increasing (sp_pts sp) /\
       forall p q, In p (sp_pts sp) -> In q (sp_pts sp) -> fst p <> fst q -> / 100000000 < Rabs (fst p - fst q)) sps /\
    w = List.concat ws /\
    Forall2 (fun sp wl => NoDup wl /\ forall x, In x wl <-> due_warning (sp_pts sp) x) sps ws.
Proof.
  intros H. apply add_dof_cases in H as [(e & E & _)|(_ & Ho & disp & dofs & bs & pss & H1 & H2 & H3 & H4 & H5 & H6 & H7 & H8 & ->)];
    [discriminate|].
  split; auto. exists (map (fun ps => mkSpline (Z.to_nat order) (sort_pts ps)) pss), (map span_warnings pss).
  simpl. split; [auto|]. split; [|split; [|split]].
  - rewrite app_length, map_length. f_equal. apply (f_equal (@List.length _)) in H5. rewrite !map_length in H5.
    rewrite <- H5. clear - H6. induction H6; simpl; auto.
  - apply Forall_forall. intros sp Hsp. apply in_map_iff in Hsp as (ps & <- & Hps).
    rewrite Forall_forall in H8. destruct (H8 ps Hps) as [G1 G2]. simpl.
    split; [lia|split; [rewrite sort_pts_length; lia|split; [apply spaced_sorted; auto|]]].
    intros p q Hp Hq N. rewrite sort_pts_In in Hp, Hq.
    apply (spaced_gap _ _ _ G1); auto using in_map.
  - rewrite H7. apply flat_map_concat_map.
  - clear - H8. induction H8 as [|ps pss [G1 G2] H8 IH]; simpl; constructor; auto. simpl.
    destruct (span_warnings_spec ps) as [A B]; [intros ->; simpl in G2; lia|].
    split; auto. intros x. rewrite due_warning_sort. apply B.
Qed.

Lemma f_C28_order cart amps pols order order' inc s s' w :
  add_dof cart amps pols order inc s = ((s', w), Ok tt) -> (order' < 1)%Z ->
  add_dof cart amps pols order' inc s = ((s, []), Err ValueError).
Proof.
  intros H Ho.
  apply add_dof_cases in H as [(e & E & _)|(_ & _ & disp & dofs & bs & pss & H1 & H2 & H3 & H4 & H5 & H6 & H7 & H8 & _)];
    [discriminate|].
  unfold add_dof. unfold bind at 1, get at 1. unfold bind at 1, lift at 1. rewrite H1.
  unfold bind at 1, lift at 1. rewrite H2. unfold bind at 1, lift at 1.
  assert (V: verify_ndarray_shape
    (ra_shape (if im_dummy s then mats_arr (repeat m0 (List.length (ra_data amps))) else pols))
    [Some (List.length (ra_data amps)); Some 3%nat; Some 3%nat] = Ok tt).
  { destruct (im_dummy s); auto. simpl ra_shape. apply verify_ndarray_shape_spec.
    rewrite repeat_length. repeat constructor. }
  rewrite V. unfold bind at 1, lift at 1.
  replace (mats_of (ra_data (if im_dummy s then mats_arr (repeat m0 (List.length (ra_data amps))) else pols)))
    with (dof_pols s amps pols).
  2: { unfold dof_pols. destruct (im_dummy s); auto. simpl. rewrite mats_of_entries. auto. }
  rewrite H4. unfold construct_and_add. destruct (Z.ltb_spec order' 1); [|lia]. reflexivity.
Qed.
