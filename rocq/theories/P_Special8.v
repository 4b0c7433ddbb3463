(** C99: calls with NaN or both infinities among the amplitudes give no warnings. *)
From Coq Require Import String ZArith Reals Lra Lia Bool Arith List.
From Verif Require Import Base LinAlg M_Validate M_Text M_Poscar M_Outcar M_Vasprun M_Dataset M_StructUtils M_Symmetry M_Reference
  M_Interp M_Art M_Special S_Interp S_Special P_Examples2 P_Examples3 P_Special P_Special3 P_Special5 P_Special7 P_Shared.
Import ListNotations.
Local Open Scope R_scope.

Lemma max_nan l : forall x, In NaN (x :: l) -> fold_left num_max l x = NaN.
Proof.
  induction l as [|y l IH]; intros x H; cbn [fold_left]; [destruct H as [H | []]; exact H|]. apply IH.
  destruct H as [-> | [-> | H]]; [left; reflexivity|left; destruct x as [|[|]|]; reflexivity|right; exact H].
Qed.
Lemma max_inf l : forall x, In (Inf false) (x :: l) -> fold_left num_max l x = NaN \/ fold_left num_max l x = Inf false.
Proof.
  induction l as [|y l IH]; intros x H; cbn [fold_left]; [right; destruct H as [H | []]; exact H|].
  assert (K : num_max x y = NaN \/ In (Inf false) (num_max x y :: l)).
  { destruct H as [-> | [-> | H]]; [destruct y as [|[|]|]|destruct x as [|[|]|]|right; right; exact H]; cbn; auto. }
  destruct K as [-> | K]; [left; apply max_nan; left; reflexivity|apply IH, K].
Qed.
Lemma opp_opp x : num_opp (num_opp x) = x.
Proof. destruct x as [r|[|]|]; cbn; try reflexivity. f_equal. lra. Qed.
Lemma min_max l : forall x, fold_left num_min l x = num_opp (fold_left num_max (map num_opp l) (num_opp x)).
Proof. induction l as [|y l IH]; intros x; cbn [fold_left map]; [symmetry; apply opp_opp|]. rewrite IH. unfold num_min. rewrite opp_opp. reflexivity. Qed.
Definition wild (l : list num) : Prop := In NaN l \/ (In (Inf true) l /\ In (Inf false) l).
Lemma wild_silent l : wild l -> nspan_warnings l = [].
Proof.
  destruct l as [|x l]; [reflexivity|]. intros H. unfold nspan_warnings. rewrite min_max.
  assert (A : fold_left num_max l x = NaN \/ fold_left num_max l x = Inf false) by (destruct H as [H | [_ H]]; [left; apply max_nan, H|apply max_inf, H]).
  assert (B : fold_left num_max (map num_opp l) (num_opp x) = NaN \/ fold_left num_max (map num_opp l) (num_opp x) = Inf false).
  { destruct H as [H | [H _]]; [left; apply max_nan|apply max_inf]; apply (in_map num_opp) in H; exact H. }
  destruct A as [-> | ->], B as [-> | ->]; reflexivity.
Qed.
Lemma wild_scaled mu l : wild l -> wild (map (num_mul mu) l).
Proof.
  intros [H | [H1 H2]].
  - left. apply (in_map (num_mul mu)) in H. destruct mu as [r|[|]|]; exact H.
  - apply (in_map (num_mul mu)) in H1. apply (in_map (num_mul mu)) in H2. destruct mu as [r|[|]|]; cbn in H1, H2.
    + destruct (Req_EM_T r 0); [left; exact H1|]. right. destruct (Rltb r 0); cbn in *; auto.
    + right; auto.
    + right; auto.
    + left; exact H1.
Qed.
Lemma points_fst refpol amps pols child ct ps : List.length amps = List.length pols -> npoints_of refpol amps pols child ct = Ok ps ->
  exists mu, map fst ps = map (num_mul mu) amps.
Proof.
  destruct ct as [coll [rot tr]]. unfold npoints_of. destruct (nmultiplier child coll) as [mu|]; [|discriminate]. cbn [rbind]. intros L H. exists mu. apply mapM_all in H. revert pols L H. revert ps.
  induction amps as [|a amps IH]; intros ps [|p pols] L H; cbn in L; try discriminate; cbn [combine] in H; inversion H as [|x y l m H1 H2]; subst; [reflexivity|].
  cbn [fst snd] in H1. destruct (minv rot); [|discriminate]. cbn [rbind] in H1. injection H1 as <-. cbn [map fst]. f_equal. apply (IH m pols); [lia|exact H2].
Qed.
Lemma group_wild r refpol amps pols inc g d : List.length amps = List.length pols -> wild amps -> ndof_of_group r refpol amps pols inc g = Ok d ->
  wild (map fst (snd d)) \/ (List.length (snd d) <= 1)%nat.
Proof.
  intros L W. unfold ndof_of_group. destruct (g_disp g) as [|child rest]; [discriminate|]. destruct (mapM _ _) as [pss|] eqn:E; [|discriminate]. cbn [rbind]. intros H. injection H as <-. cbn [snd].
  apply mapM_all in E. destruct E as [|ct ps cts pss E1 _].
  - right. cbn [concat]. destruct inc; cbn; lia.
  - left. destruct (points_fst _ _ _ _ _ _ L E1) as (mu & Q). apply (wild_scaled mu) in W. rewrite <- Q in W. cbn [concat]. rewrite !map_app.
    assert (K : forall x, In x (map fst ps) -> In x (map fst (if inc then [(FinN 0, fin_mat m0)] else []) ++ map fst ps ++ map fst (concat pss))%list) by (intros x Hx; apply in_or_app; right; apply in_or_app; left; exact Hx).
    destruct W as [W | [W1 W2]]; [left|right]; auto.
Qed.
Lemma construct_silent order (ds : list ndof) : (1 <= order)%nat -> Forall (fun d => wild (map fst (snd d)) \/ (List.length (snd d) <= 1)%nat) ds -> fst (construct_all order (map snd ds)) = [].
Proof.
  intros HO H. induction H as [|d ds Hd _ IH]; [reflexivity|]. cbn [map construct_all].
  assert (K : fst (construct_n order (snd d)) = []).
  { unfold construct_n. destruct (nhas_duplicates _); [reflexivity|]. destruct (Nat.leb_spec (List.length (snd d)) order) as [Q|Q]; [reflexivity|]. cbn [fst]. destruct Hd as [Hd | Hd]; [apply wild_silent, Hd|lia]. }
  destruct (construct_n order (snd d)) as [w [sp|e]]; cbn [fst] in K; subst w; [|reflexivity]. destruct (construct_all order (map snd ds)) as [w' r']. exact IH.
Qed.
Lemma nadd_dof_silent s cart amps pols order inc : narr_wf pols -> wild (na_data amps) -> fst (nadd_dof s cart amps pols order inc) = [].
Proof.
  intros Hw W. unfold nadd_dof. destruct (nget_frac_displacement _ _) as [disp|]; [|reflexivity]. cbn [nbind]. destruct (verify_ndarray_shape (na_shape amps) [None]); [|reflexivity]. cbn [nbind].
  destruct (verify_ndarray_shape _ [Some _; Some 3%nat; Some 3%nat]) as [[]|] eqn:Hs; [|reflexivity]. cbn [nbind].
  assert (L : List.length (na_data amps) = List.length (nmats_of (na_data (if nm_dummy s then nmats_arr (repeat (fin_mat m0) (List.length (na_data amps))) else pols)))).
  { destruct (nm_dummy s); [rewrite nmats_of_arr, repeat_length; reflexivity|]. symmetry. apply nmats_len. apply shape_ok in Hs.
    unfold narr_wf in Hw. inversion Hs as [|d1 ? s1 ? A1 B1]; subst. inversion B1 as [|d2 ? s2 ? A2 B2]; subst. inversion B2 as [|d3 ? s3 ? A3 B3]; subst. inversion B3; subst.
    rewrite Hw, <- H. cbn. lia. }
  destruct (nget_dof _ _ _ _ _) as [dofs|] eqn:G; [|reflexivity]. cbn [nbind]. unfold nconstruct_and_add. destruct (Z.ltb_spec order 1) as [Q|Q]; [reflexivity|].
  assert (F : Forall (fun d : ndof => wild (map fst (snd d)) \/ (List.length (snd d) <= 1)%nat) dofs).
  { unfold nget_dof in G. destruct (is_orthogonal_to_all _ _) as [z|]; [|discriminate]. cbn [rbind] in G. destruct (negb _); [discriminate|]. destruct (get_equivalent_displacements _ _) as [gs|]; [|discriminate]. cbn [rbind] in G.
    apply mapM_all in G. induction G as [|g d gs ds Hg _ IH]; constructor; [eapply group_wild; eassumption|exact IH]. }
  pose proof (construct_silent (Z.to_nat order) dofs ltac:(lia) F) as K. destruct (construct_all _ _) as [w r']. exact K.
Qed.
Lemma f_C99_silent art s o : nop_wf o ->
  (exists c a p k i, o = NAddDof c a p k i /\ wild (na_data a)) \/ (exists j d a p, o = NArt j d a p /\ wild (na_data a)) -> fst (run_nop art s o) = [].
Proof.
  intros Hw [(c & a & p & k & i & -> & W) | (j & d & a & p & -> & W)]; cbn [run_nop nop_wf] in *; destruct art; try reflexivity.
  - apply nadd_dof_silent; [apply Hw|exact W].
  - unfold nadd_art. destruct (nget_frac_direction _ _) as [f|]; [|reflexivity]. cbn [nbind]. destruct (match na_shape a with [1%nat] | [2%nat] => Ok tt | _ => Err ValueError end); [|reflexivity]. cbn [nbind].
    destruct (verify_ndarray_shape _ _) as [[]|]; [|reflexivity]. cbn [nbind]. destruct (py_index _ _); [|reflexivity]. apply nadd_dof_silent; [|exact W].
    destruct (nm_dummy s); [|apply Hw]. unfold narr_wf, nmats_arr. cbn [na_shape na_data fold_right].
    set (l := repeat (fin_mat m0) (List.length (na_data a))). clearbody l. induction l as [|q l IH]; [reflexivity|]. cbn [flat_map List.length nmat_entries app]. rewrite IH. lia.
Qed.

Definition wild_op : nop := NAddDof (map fin3 (ex_cart ex_d1)) (mkNarr [2%nat] [Inf true; Inf false]) (nmats_arr [fin_mat m0; fin_mat mI]) 1 true.
Lemma ex_C99_silent : exists r o c a p, valid_reference r /\ nop_wf o /\ o = NAddDof c a p 1 true /\
  In (Inf true) (na_data a) /\ In (Inf false) (na_data a) /\
  exists e, run_nop false (make_nmodel r (fin_mat mI) false) o = ([], Err e).
Proof.
  destruct ex_C99_history as (r & m & V & _). exists r, wild_op, (map fin3 (ex_cart ex_d1)), (mkNarr [2%nat] [Inf true; Inf false]), (nmats_arr [fin_mat m0; fin_mat mI]).
  assert (W : nop_wf wild_op) by (split; reflexivity). split; [exact V|]. split; [exact W|]. split; [reflexivity|]. split; [left; reflexivity|]. split; [right; left; reflexivity|].
  assert (T : tainted (nm_dummy (make_nmodel r (fin_mat mI) false)) wild_op) by (right; left; apply Exists_cons_hd; exact I).
  destruct (f_C99_refused false (make_nmodel r (fin_mat mI) false) wild_op V W (or_introl T)) as [(w & e & H) _].
  pose proof (f_C99_silent false (make_nmodel r (fin_mat mI) false) wild_op W (or_introl (ex_intro _ _ (ex_intro _ _ (ex_intro _ _ (ex_intro _ _ (ex_intro _ _ (conj eq_refl (or_intror (conj (or_introl eq_refl) (or_intror (or_introl eq_refl))))))))))) ) as K.
  exists e. rewrite H in *. cbn [fst] in K. subst w. reflexivity.
Qed.
