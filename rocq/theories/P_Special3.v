(** Additions fail when a number they use is not finite, and agree with M_Interp.v otherwise. *)
From Coq Require Import String ZArith Reals Lra Lia Bool Arith List.
From Verif Require Import Base LinAlg M_Validate M_Text M_Poscar M_Outcar M_Vasprun M_Dataset M_StructUtils M_Symmetry M_Reference
  M_Interp M_Art M_Special S_Interp S_Special P_StructUtils P_Symmetry P_Equivalent P_EquivTotal P_Interp P_Interp2 P_Interp6 P_Art P_Art2 P_Examples2 P_Images
  P_Atoms2 P_Special P_Special2.
Import ListNotations.
Local Open Scope R_scope.

Lemma ngroup_first refpol amps pols r inc g d op ops child rest : g_disp g = child :: rest -> g_trans g = op :: ops ->
  ndof_of_group r refpol amps pols inc g = Ok d ->
  fst d = over_norm 1 (get_cart_displacement_arr r child) /\
  exists ps, npoints_of refpol amps pols child (child, op) = Ok ps /\ incl ps (snd d).
Proof.
  intros E1 E2. unfold ndof_of_group. rewrite E1, E2. cbn [combine mapM].
  destruct (npoints_of refpol amps pols child (child, op)) as [ps|]; cbn [rbind]; [|discriminate].
  destruct (mapM _ _) as [pss|]; cbn [rbind]; [|discriminate]. intros [= <-]. cbn [fst snd]. split; [reflexivity|].
  exists ps. split; [reflexivity|]. intros x Hx. apply in_or_app. right. cbn. apply in_or_app. left. exact Hx.
Qed.
Lemma ngroup_empty refpol amps pols r inc g d : combine amps pols = [] ->
  ndof_of_group r refpol amps pols inc g = Ok d -> (List.length (snd d) <= 1)%nat.
Proof.
  intros E. unfold ndof_of_group. destruct (g_disp g) as [|child rest]; [discriminate|].
  destruct (mapM _ _) as [pss|] eqn:M; cbn [rbind]; [|discriminate]. intros [= <-]. cbn [snd].
  assert (Z : List.concat pss = []).
  { apply mapM_Ok in M. clear - M E. induction M as [|[c [rot t]] ps l pss H M IH]; [reflexivity|]. cbn. rewrite IH, app_nil_r.
    unfold npoints_of in H. destruct (nmultiplier child c); cbn [rbind] in H; [|discriminate]. rewrite E in H. cbn in H. congruence. }
  rewrite Z, app_nil_r. destruct inc; cbn; lia.
Qed.
Lemma npoints_all refpol amps pols child ct ps : npoints_of refpol amps pols child ct = Ok ps ->
  forall ap, In ap (combine amps pols) -> exists mu inv, nmultiplier child (fst ct) = Ok mu /\ minv (fst (snd ct)) = Ok inv /\
    In (num_mul mu (fst ap), nmat_mul_r (nmat_mul_l inv (nmat_map2 num_sub (snd ap) refpol)) (fst (snd ct))) ps.
Proof.
  destruct ct as [coll [rot t]]. unfold npoints_of. cbn [fst snd]. destruct (nmultiplier child coll) as [mu|]; cbn [rbind]; [|discriminate].
  intros M ap Hap. apply mapM_Ok in M. destruct (minv rot) as [inv|e] eqn:E.
  - exists mu, inv. split; [reflexivity|split; [reflexivity|]]. cbn [rbind] in M. clear - M Hap.
    induction M as [|a q l ps H M IH]; [destruct Hap|]. destruct Hap as [->|Hap]; [left|right; apply IH, Hap]. congruence.
  - exfalso. cbn [rbind] in M. destruct M; [destruct Hap|discriminate].
Qed.

(** An amplitude or a polarizability that is not finite, or a reference polarizability that is not finite *)
Definition bad_data (refpol : nmat) (amps : list num) (pols : list nmat) : Prop :=
  tensor_not_finite refpol \/ Exists (fun ap => not_finite (fst ap) \/ tensor_not_finite (snd ap)) (combine amps pols).
Lemma bad_data_pts refpol amps pols r inc g d op ops child rest : g_disp g = child :: rest -> g_trans g = op :: ops ->
  ndof_of_group r refpol amps pols inc g = Ok d -> bad_data refpol amps pols -> bad_pts (snd d).
Proof.
  intros E1 E2 E H. destruct (combine amps pols) as [|ap0 l] eqn:C; [left; eapply ngroup_empty; eassumption|].
  right. destruct (ngroup_first _ _ _ _ _ _ _ _ _ _ _ E1 E2 E) as (_ & ps & Ep & Hi).
  assert (exists ap, In ap (combine amps pols) /\ (tensor_not_finite refpol \/ not_finite (fst ap) \/ tensor_not_finite (snd ap))) as (ap & Hap & N).
  { destruct H as [H|H]; [exists ap0; rewrite C; split; [left; reflexivity|left; exact H]|].
    apply Exists_exists in H as (ap & H1 & H2). exists ap; split; [exact H1|right; exact H2]. }
  destruct (npoints_all _ _ _ _ _ _ Ep ap Hap) as (mu & inv & _ & _ & Hin). apply Exists_exists. eexists. split; [apply Hi, Hin|]. cbn [fst snd].
  destruct N as [N|[N|N]]; [right|left|right]; auto using nf_mul_r, nmat_mul_r_nf, nmat_mul_l_nf, nmat_sub_r, nmat_sub_l.
Qed.
(** A first displacement that is NaN or zero *)
Lemma bad_child_pts refpol amps pols r inc g d op ops child rest : g_disp g = child :: rest -> g_trans g = op :: ops ->
  ndof_of_group r refpol amps pols inc g = Ok d -> (forall mu, nmultiplier child child = Ok mu -> not_finite mu) -> bad_pts (snd d).
Proof.
  intros E1 E2 E H. destruct (combine amps pols) as [|ap0 l] eqn:C; [left; eapply ngroup_empty; eassumption|].
  right. destruct (ngroup_first _ _ _ _ _ _ _ _ _ _ _ E1 E2 E) as (_ & ps & Ep & Hi).
  destruct (npoints_all _ _ _ _ _ _ Ep ap0) as (mu & inv & Hm & _ & Hin); [rewrite C; left; reflexivity|].
  apply Exists_exists. eexists. split; [apply Hi, Hin|]. left. apply nf_mul_l, H, Hm.
Qed.
Lemma zero_child c : Forall (fun v => v = v0) c -> forall mu, nmultiplier (FinA c) (FinA c) = Ok mu -> not_finite mu.
Proof.
  intros H mu. cbn [nmultiplier]. destruct (argmax _) as [k|]; cbn [rbind]; [|discriminate].
  destruct (nth_error (flatten_rows c) k) as [x|] eqn:E; [|discriminate]. intros [= <-].
  assert (x = 0) as ->.
  { apply nth_error_In in E. unfold flatten_rows in E. apply in_flat_map in E as (v & Hv & Hx). rewrite Forall_forall in H. rewrite (H v Hv) in Hx.
    cbn in Hx. intuition. }
  cbn. destruct (Req_EM_T 0 0); [exact I|congruence].
Qed.

Section Ref.
Variable r : refstruct.
Hypothesis Hwf : wf_ref r.
Hypothesis Hops : rs_ops r <> [].
Hypothesis Hdet : mdet (rs_lattice r) <> 0.

Lemma group_parts parent gs g : get_equivalent_displacements r parent = Ok gs -> In g gs ->
  exists child rest op ops, g_disp g = child :: rest /\ g_trans g = op :: ops /\
    (exists op P, In P (rs_perms r) /\ candidate r (scale_displacement parent) op P = Ok child).
Proof.
  intros E Hg. destruct (g_disp g) as [|child rest] eqn:D.
  - exfalso. apply equivalent_displacements_inv in E as (orth & I1 & _). cbn in I1.
    assert (exists o, members_ok r (scale_displacement parent) (combine (rs_ops r) (rs_perms r)) g o) as (o & (x & E1 & _) & _).
    { clear - I1 Hg. induction I1; [destruct Hg|]. destruct Hg as [<-|Hg]; eauto. }
    congruence.
  - destruct (group_leader _ _ _ _ _ _ Hwf E Hg D) as (L & K). rewrite D in L. destruct (g_trans g) as [|op ops]; [discriminate|]. eauto 8.
Qed.
Lemma candidate_half d op P c : candidate r d op P = Ok (FinA c) -> apply_pbc_displacement c = c.
Proof.
  destruct d as [l|n]; cbn [candidate].
  - destruct (displace_positions _ _); cbn [rbind]; [|discriminate]. destruct (transform_positions _ _ _); cbn [rbind]; [|discriminate].
    destruct (bmat_mul _ _); cbn [rbind]; [|discriminate]. unfold calc_displacement. destruct (bcast2 _ _ _); cbn [rbind]; [|discriminate].
    intros [= <-]. apply pbc_idem.
  - destruct (displace_positions _ _); cbn [rbind]; [|discriminate]. destruct (bmat_mul _ _); discriminate.
Qed.

Lemma nan_basis_pts refpol amps pols inc parent gs g d n : get_equivalent_displacements r parent = Ok gs -> In g gs ->
  ndof_of_group r refpol amps pols inc g = Ok d -> fst d = Nan n -> bad_pts (snd d).
Proof.
  intros E Hg Ed En. destruct (group_parts _ _ _ E Hg) as (child & rest & op & ops & E1 & E2 & op' & P & _ & HC).
  destruct (ngroup_first _ _ _ _ _ _ _ _ _ _ _ E1 E2 Ed) as (Ef & _). rewrite Ef in En.
  eapply bad_child_pts; [exact E1|exact E2|exact Ed|]. destruct child as [c|k]; [|cbn; intros mu [= <-]; exact I].
  apply zero_child. apply candidate_half in HC. cbn [get_cart_displacement_arr] in En. unfold get_cart_displacement in En. rewrite HC in En.
  destruct c as [|v c]; [constructor|]. destruct (minv_exists _ Hdet) as (li & Hi). apply minv_Ok in Hi as (Hi & _ & _).
  rewrite over_norm_cons in En by discriminate. destruct (Reqb _ 0) eqn:Z; [|discriminate]. apply Reqb_true, rows_norm_eq_0, rows_norm2_0 in Z.
  assert (K : forall u, vscale 1 (vmul u (rs_lattice r)) = v0 -> u = v0).
  { intros u Hu. assert (Hv : vmul u (rs_lattice r) = v0).
    { rewrite <- Hu. destruct (vmul u (rs_lattice r)) as [a b d']. unfold vscale; cbn. f_equal; ring. }
    rewrite <- (vmul_mI u), <- Hi, vmul_mmul, Hv. destruct li as [[? ? ?] [? ? ?] [? ? ?]]. unfold vmul, vadd, vscale, v0; cbn. f_equal; ring. }
  apply Forall_forall. intros u Hu. apply K. rewrite Forall_forall in Z. apply Z. unfold rows_scale, rows_mul. rewrite map_map.
  apply (in_map (fun x => vscale 1 (vmul x (rs_lattice r)))), Hu.
Qed.

Lemma nget_dof_ok s parent amps pols inc dofs : nm_ref s = r -> nget_dof s parent amps pols inc = Ok dofs ->
  exists gs, gs <> [] /\ get_equivalent_displacements r parent = Ok gs /\
    Forall2 (fun g d => ndof_of_group r (nm_refpol s) amps pols inc g = Ok d) gs dofs.
Proof.
  intros Er. unfold nget_dof. rewrite Er. destruct (is_orthogonal_to_all _ _); cbn [rbind]; [|discriminate]. destruct (negb _); [discriminate|].
  destruct (get_equivalent_displacements r parent) as [gs|] eqn:E; cbn [rbind]; [|discriminate]. intros M. apply mapM_Ok in M.
  exists gs. split; [|split; [reflexivity|exact M]]. eapply groups_nonempty; eassumption.
Qed.
Lemma nget_dof_nan s parent amps pols inc dofs : nm_ref s = r -> nget_dof s parent amps pols inc = Ok dofs ->
  forall d n, In d dofs -> fst d = Nan n -> bad_pts (snd d).
Proof.
  intros Er E d n Hd En. destruct (nget_dof_ok _ _ _ _ _ _ Er E) as (gs & _ & G & F).
  assert (exists g, In g gs /\ ndof_of_group r (nm_refpol s) amps pols inc g = Ok d) as (g & Hg & Q).
  { clear - F Hd. induction F; [destruct Hd|]. destruct Hd as [<-|Hd]; [eexists; split; [left; reflexivity|assumption]|].
    destruct (IHF Hd) as (g & ? & ?). exists g; split; [right|]; assumption. }
  eapply nan_basis_pts; eassumption.
Qed.
Lemma nget_dof_bad s parent amps pols inc dofs : nm_ref s = r -> nget_dof s parent amps pols inc = Ok dofs ->
  bad_data (nm_refpol s) amps pols \/ (exists n, parent = Nan n) -> Exists (fun d : ndof => bad_pts (snd d)) dofs.
Proof.
  intros Er E H. destruct (nget_dof_ok _ _ _ _ _ _ Er E) as (gs & Hn & G & F). destruct F as [|g d gs dofs Q F]; [congruence|].
  apply Exists_cons_hd. destruct (group_parts _ _ _ G (or_introl eq_refl)) as (child & rest & op & ops & E1 & E2 & op' & P & _ & HC).
  destruct H as [H|(n & ->)]; [eapply bad_data_pts; eassumption|]. eapply bad_child_pts; try eassumption.
  cbn [scale_displacement] in HC. apply candidate_nan in HC as (k & ->). cbn. intros mu [= <-]. exact I.
Qed.

(** ** The tail of [add_dof] *)
Definition ntail (s : nmodel) (parent : arr V3) (amps pols : narr) (order : Z) (inc : bool) : ncall :=
  nbind (verify_ndarray_shape (na_shape amps) [None]) (fun _ =>
  let n := List.length (na_data amps) in
  let pols := if nm_dummy s then nmats_arr (repeat (fin_mat m0) n) else pols in
  nbind (verify_ndarray_shape (na_shape pols) [Some n; Some 3%nat; Some 3%nat]) (fun _ =>
  nbind (nget_dof s parent (na_data amps) (nmats_of (na_data pols)) inc) (fun dofs =>
  nconstruct_and_add s dofs order))).
Definition fails (c : ncall) : Prop := exists w e, c = (w, Err e).
Lemma fails_bind {A} (x : res A) f : (forall a, x = Ok a -> fails (f a)) -> fails (nbind x f).
Proof. destruct x as [a|e]; cbn; [auto|]. intros _. exists [], e. reflexivity. Qed.
Lemma fails_dofs s parent amps pols inc order : nm_ref s = r ->
  bad_data (nm_refpol s) amps pols \/ (exists n, parent = Nan n) ->
  fails (nbind (nget_dof s parent amps pols inc) (fun dofs => nconstruct_and_add s dofs order)).
Proof. intros Er H. apply fails_bind. intros dofs E. eapply nconstruct_bad, nget_dof_bad; eassumption. Qed.

Lemma shape_ok sh want : verify_ndarray_shape sh want = Ok tt -> Forall2 (fun d w => match w with Some k => d = k | None => True end) sh want.
Proof. apply verify_ndarray_shape_spec. Qed.
Lemma in_combine_l2 {A B} (l : list A) (m : list B) x : List.length l = List.length m -> In x l -> exists y, In (x, y) (combine l m).
Proof.
  revert m. induction l as [|a l IH]; intros [|b m] L H; try discriminate; [destruct H|]. cbn in L. destruct H as [->|H]; [exists b; left; reflexivity|].
  destruct (IH m) as (y & Hy); [lia|exact H|]. exists y. right. exact Hy.
Qed.
Lemma in_combine_r2 {A B} (l : list A) (m : list B) y : List.length l = List.length m -> In y m -> exists x, In (x, y) (combine l m).
Proof.
  revert m. induction l as [|a l IH]; intros [|b m] L H; try discriminate; [destruct H|]. cbn in L. destruct H as [->|H]; [exists a; left; reflexivity|].
  destruct (IH m) as (x & Hx); [lia|exact H|]. exists x. right. exact Hx.
Qed.
Lemma nmats_len n l : List.length l = (9 * n)%nat -> List.length (nmats_of l) = n.
Proof.
  revert l. induction n as [|n IH]; intros l L; [destruct l; [reflexivity|discriminate]|].
  assert ((9 * S n = S (S (S (S (S (S (S (S (S (9 * n))))))))))%nat) as E by lia. rewrite E in L. clear E.
  destruct l as [|a [|b [|c [|d [|e [|f [|g [|h [|i l]]]]]]]]]; try discriminate L. cbn [nmats_of List.length]. f_equal. apply IH.
  cbn [List.length] in L; lia.
Qed.

(** What makes [ntail] fail *)
Lemma ntail_fails s parent amps pols order inc : nm_ref s = r -> narr_wf pols ->
  tensor_not_finite (nm_refpol s) \/ (exists n, parent = Nan n) \/ Exists not_finite (na_data amps) \/ (nm_dummy s = false /\ Exists not_finite (na_data pols)) ->
  fails (ntail s parent amps pols order inc).
Proof using Hwf Hops.
  clear Hdet.
  intros Er Hw H. unfold ntail. apply fails_bind. intros _ _. cbv zeta. apply fails_bind. intros [] Hs. apply fails_dofs; [exact Er|].
  destruct H as [H|[H|[H|(Hd & H)]]]; [left; left; exact H|right; exact H|left; right|left; right].
  - apply Exists_exists in H as (a & Ha & N).
    assert (L : List.length (na_data amps) = List.length (nmats_of (na_data (if nm_dummy s then nmats_arr (repeat (fin_mat m0) (List.length (na_data amps))) else pols)))).
    { destruct (nm_dummy s); [rewrite nmats_of_arr, repeat_length; reflexivity|]. symmetry. apply nmats_len. apply shape_ok in Hs.
      unfold narr_wf in Hw. inversion Hs as [|d1 ? s1 ? A1 B1]; subst. inversion B1 as [|d2 ? s2 ? A2 B2]; subst. inversion B2 as [|d3 ? s3 ? A3 B3]; subst. inversion B3; subst.
      rewrite Hw, <- H. cbn. lia. }
    destruct (in_combine_l2 _ _ a L Ha) as (t & Ht). apply Exists_exists. exists (a, t). split; [exact Ht|left; exact N].
  - rewrite Hd in *. apply shape_ok in Hs. unfold narr_wf in Hw.
    inversion Hs as [|d1 ? s1 ? A1 B1]; subst. inversion B1 as [|d2 ? s2 ? A2 B2]; subst. inversion B2 as [|d3 ? s3 ? A3 B3]; subst. inversion B3; subst.
    rewrite <- H0 in Hw. assert (L : List.length (na_data pols) = (9 * List.length (na_data amps))%nat) by (rewrite Hw; cbn; lia).
    destruct (nmats_of_nf _ _ L H) as (L2 & X). apply Exists_exists in X as (t & Ht & N).
    destruct (in_combine_r2 (na_data amps) _ t (eq_sym L2) Ht) as (a & Ha). apply Exists_exists. exists (a, t). split; [exact Ha|right; exact N].
Qed.
End Ref.
