(** Degrees of freedom from numbers that may not be finite. *)
From Coq Require Import String ZArith Reals Lra Lia Bool Arith List.
From Verif Require Import Base LinAlg M_Validate M_Text M_Poscar M_Outcar M_Vasprun M_Dataset M_StructUtils M_Symmetry M_Reference
  M_Interp M_Art M_Special S_Interp S_Special P_StructUtils P_Symmetry P_Equivalent P_Interp P_Interp2 P_Special.
Import ListNotations.
Local Open Scope R_scope.

Definition res_rel {A B} (P : A -> B -> Prop) (x : res A) (y : res B) : Prop :=
  match x, y with Ok a, Ok b => P a b | Err e, Err e' => e = e' | _, _ => False end.
Lemma mapM_rel {A A' B B'} (Rl : A -> A' -> Prop) (P : B -> B' -> Prop) (f : A -> res B) (g : A' -> res B') l l' :
  Forall2 Rl l l' -> (forall a a', Rl a a' -> res_rel P (f a) (g a')) -> res_rel (Forall2 P) (mapM f l) (mapM g l').
Proof.
  intros H K. induction H as [|a a' l l' Ha H IH]; cbn [mapM]; [constructor|].
  specialize (K _ _ Ha). destruct (f a), (g a'); cbn in K |- *; try contradiction; [|exact K].
  destruct (mapM f l), (mapM g l'); cbn in IH |- *; try contradiction; [constructor; assumption|exact IH].
Qed.

(** ** Points *)
Definition opt_rel (o : option R) (x : num) : Prop := match o with Some r => x = FinN r | None => not_finite x end.
Definition pt_rel (p : option R * M3) (q : num * nmat) : Prop := opt_rel (fst p) (fst q) /\ snd q = fin_mat (snd p).
Definition dof_rel (d : dof) (e : ndof) : Prop := fst e = fst d /\ Forall2 pt_rel (snd d) (snd e).

Lemma multiplier_rel child coll : res_rel opt_rel (multiplier child coll) (nmultiplier child coll).
Proof.
  destruct child as [c|n], coll as [d|k]; cbn [multiplier nmultiplier res_rel opt_rel]; try exact I.
  destruct (argmax _) as [k|e]; cbn [rbind res_rel]; [|reflexivity].
  destruct (nth_error (flatten_rows c) k) as [x|], (nth_error (flatten_rows d) k) as [y|]; cbn [res_rel]; try reflexivity.
  unfold Reqb. destruct (Req_EM_T y 0) as [->|N]; cbn [opt_rel].
  - cbn. destruct (Req_EM_T 0 0); [|congruence]. destruct (Req_EM_T x 0); exact I.
  - apply num_quot_fin, N.
Qed.
Lemma points_rel refpol amps pols child ct :
  res_rel (Forall2 pt_rel) (points_of refpol amps pols child ct) (npoints_of (fin_mat refpol) (map FinN amps) (map fin_mat pols) child ct).
Proof.
  destruct ct as [coll [rot t]]. unfold points_of, npoints_of. pose proof (multiplier_rel child coll) as M.
  destruct (multiplier child coll) as [mu|e], (nmultiplier child coll) as [nu|e']; cbn in M; try contradiction; cbn [rbind]; [|exact M].
  apply (mapM_rel (fun ap q => q = (FinN (fst ap), fin_mat (snd ap)))).
  - clear. revert pols. induction amps as [|a amps IH]; intros [|p pols]; cbn; constructor; auto.
  - intros [a p] q ->. cbn [fst snd]. destruct (minv rot) as [inv|e]; cbn [rbind res_rel]; [|reflexivity]. split; cbn [fst snd].
    + destruct mu as [k|]; cbn in *; [subst nu; reflexivity|]. apply nf_mul_l, M.
    + rewrite nmat_sub_fin, nmat_mul_l_fin, nmat_mul_r_fin. reflexivity.
Qed.
Lemma Forall2_concat {A B} (P : A -> B -> Prop) l l' : Forall2 (Forall2 P) l l' -> Forall2 P (List.concat l) (List.concat l').
Proof. induction 1; cbn; [constructor|]. apply Forall2_app; assumption. Qed.
Lemma Forall2_same {A} (l : list A) : Forall2 eq l l.
Proof. induction l; constructor; auto. Qed.
Lemma group_rel r refpol amps pols inc g :
  res_rel dof_rel (dof_of_group r refpol amps pols inc g) (ndof_of_group r (fin_mat refpol) (map FinN amps) (map fin_mat pols) inc g).
Proof.
  unfold dof_of_group, ndof_of_group. destruct (g_disp g) as [|child rest]; [reflexivity|].
  pose proof (mapM_rel eq (Forall2 pt_rel) (points_of refpol amps pols child) (npoints_of (fin_mat refpol) (map FinN amps) (map fin_mat pols) child)
    (combine (child :: rest) (g_trans g)) _ (Forall2_same _)) as K.
  assert (K' := K (fun a a' E => eq_ind a (fun a' => res_rel _ _ (npoints_of _ _ _ _ a')) (points_rel refpol amps pols child a) a' E)). clear K.
  destruct (mapM (points_of _ _ _ _) _) as [pss|], (mapM (npoints_of _ _ _ _) _) as [qss|]; cbn in K' |- *; try contradiction; [|exact K'].
  split; [reflexivity|]. cbn [snd]. apply Forall2_app; [|apply Forall2_concat, K'].
  destruct inc; [|constructor]. constructor; [|constructor]. split; reflexivity.
Qed.
Lemma get_dof_rel m parent amps pols inc :
  res_rel (Forall2 dof_rel) (get_dof m parent amps pols inc) (nget_dof (of_model m) parent (map FinN amps) (map fin_mat pols) inc).
Proof.
  unfold get_dof, nget_dof. cbn [of_model nm_ref nm_basis nm_refpol]. rewrite map_map.
  destruct (is_orthogonal_to_all _ _) as [z|e]; cbn [rbind]; [|reflexivity]. destruct (negb _); [reflexivity|].
  destruct (get_equivalent_displacements _ _) as [gs|e]; cbn [rbind]; [|reflexivity].
  apply (mapM_rel eq dof_rel _ _ gs gs (Forall2_same _)). intros g ? <-. apply group_rel.
Qed.

(** ** Splines *)
Lemma ndup_fin l : nhas_duplicates (map FinN l) = has_duplicates (map Some l).
Proof.
  induction l as [|x l IH]; [reflexivity|]. cbn [map nhas_duplicates has_duplicates]. rewrite IH. f_equal.
  clear IH. induction l as [|y l IH]; [reflexivity|]. cbn. rewrite IH. reflexivity.
Qed.
Lemma nspan_fin ps : nspan_warnings (map FinN (map fst ps)) = span_warnings ps.
Proof.
  unfold nspan_warnings, span_warnings. destruct (map fst ps) as [|x xs]; [reflexivity|]. cbn [map].
  assert (A : forall l a, fold_left num_max (map FinN l) (FinN a) = FinN (rmax_list a l)).
  { unfold rmax_list. induction l as [|y l IH]; intros a; [reflexivity|]. cbn. apply IH. }
  assert (B : forall l a, fold_left num_min (map FinN l) (FinN a) = FinN (rmin_list a l)).
  { unfold rmin_list. induction l as [|y l IH]; intros a; [reflexivity|]. cbn. rewrite <- IH. f_equal. f_equal.
    unfold Rmax, Rmin. destruct (Rle_dec (- a) (- y)), (Rle_dec a y); lra. }
  rewrite A, B. cbn. f_equal. replace (Rleb (- rmin_list x xs) 0) with (Rleb 0 (rmin_list x xs)); [reflexivity|].
  apply eq_true_iff_eq. rewrite !Rleb_true. lra.
Qed.
Definition fin_pt (p : R * M3) : num * nmat := (FinN (fst p), fin_mat (snd p)).
Lemma finite_points_fin ps : finite_points (map fin_pt ps) = Some ps.
Proof. induction ps as [|[x y] ps IH]; [reflexivity|]. cbn [map finite_points fin_pt fst snd]. rewrite finite_mat_fin, IH. reflexivity. Qed.
Lemma finite_mat_some t m : finite_mat t = Some m -> t = fin_mat m.
Proof. destruct (mat_dec t) as [(x & ->)|H]; [rewrite finite_mat_fin; congruence|rewrite finite_mat_none by exact H; discriminate]. Qed.
Lemma finite_points_some qs ps : finite_points qs = Some ps -> qs = map fin_pt ps.
Proof.
  revert ps. induction qs as [|[[x| |] y] qs IH]; cbn [finite_points]; intros ps; try discriminate; [intros [= <-]; reflexivity|].
  destruct (finite_mat y) as [m|] eqn:E; [|discriminate]. destruct (finite_points qs) as [r|]; [|discriminate]. intros [= <-].
  cbn [map fin_pt fst snd]. rewrite <- (IH r) by reflexivity. apply finite_mat_some in E. rewrite E. reflexivity.
Qed.
Lemma construct_n_fin k ps s : construct_n k (map fin_pt ps) =
  (snd (fst (construct_one k (map (fun p => (Some (fst p), snd p)) ps) s)), snd (construct_one k (map (fun p => (Some (fst p), snd p)) ps) s)).
Proof.
  unfold construct_n, construct_one. rewrite !map_map, !map_length. cbn [fst snd fin_pt].
  replace (map (fun x : R * M3 => FinN (fst x)) ps) with (map FinN (map fst ps)) by apply map_map.
  replace (map (fun x : R * M3 => Some (fst x)) ps) with (map Some (map fst ps)) by apply map_map.
  rewrite ndup_fin. destruct (has_duplicates _); [reflexivity|]. destruct (Nat.leb _ _); [reflexivity|].
  rewrite nspan_fin, finite_points_fin, all_finite_inv. unfold bind. rewrite emit_all_eq. cbn. rewrite app_nil_r. reflexivity.
Qed.

(** Points no spline can be made of *)
Definition bad_pts (qs : list (num * nmat)) : Prop :=
  (List.length qs <= 1)%nat \/ Exists (fun q => not_finite (fst q) \/ tensor_not_finite (snd q)) qs.
Lemma construct_n_bad k qs : (1 <= k)%nat -> bad_pts qs -> exists w e, construct_n k qs = (w, Err e).
Proof.
  intros Hk H. unfold construct_n. destruct (nhas_duplicates _); [eauto|]. destruct (Nat.leb_spec (List.length qs) k); [eauto|].
  destruct H as [H|H]; [lia|]. destruct (finite_points qs) as [ps|] eqn:E; [|eauto]. apply finite_points_some in E. subst qs. exfalso.
  apply Exists_exists in H as (q & Hq & N). apply in_map_iff in Hq as (p & <- & _). destruct N as [N|N]; [exact N|exact (mat_fin _ N)].
Qed.
Lemma construct_all_ok k l w sps : construct_all k l = (w, Ok sps) -> Forall (fun qs => exists w sp, construct_n k qs = (w, Ok sp)) l.
Proof.
  revert w sps. induction l as [|qs l IH]; intros w sps; cbn [construct_all]; [constructor|].
  destruct (construct_n k qs) as [w1 [sp|e]] eqn:E; [|discriminate]. destruct (construct_all k l) as [w2 [r|e]]; cbn [rmap]; [|discriminate].
  intros _. constructor; [eauto|]. eapply IH. reflexivity.
Qed.
Lemma nconstruct_bad s dofs order : Exists (fun d : ndof => bad_pts (snd d)) dofs -> exists w e, nconstruct_and_add s dofs order = (w, Err e).
Proof.
  intros H. unfold nconstruct_and_add. destruct (Z.ltb_spec order 1) as [|L]; [eauto|].
  destruct (construct_all (Z.to_nat order) (map snd dofs)) as [w [sps|e]] eqn:E; [|exists w, e; reflexivity].
  apply construct_all_ok in E. apply Exists_exists in H as (d & Hd & B). rewrite Forall_forall in E.
  destruct (E (snd d)) as (w1 & sp & Q); [apply in_map, Hd|]. destruct (construct_n_bad (Z.to_nat order) (snd d)) as (w2 & e & Q'); [lia|exact B|].
  congruence.
Qed.

(** ** One addition with finite numbers *)
Definition agrees (c : ncall) (x : (imodel * list warning) * res unit) : Prop :=
  match x with
  | ((m', w), Ok _) => c = (w, Ok (of_model m'))
  | (_, Err _) => exists w e, c = (w, Err e)
  end.

Lemma pts_all_some pts qs : Forall2 pt_rel pts qs -> forall ps, qs = map fin_pt ps -> pts = map (fun p => (Some (fst p), snd p)) ps.
Proof.
  induction 1 as [|p q pts qs [H1 H2] H IH]; intros [|x ps] E; try discriminate; [reflexivity|]. cbn [map] in E |- *.
  injection E as E1 E2. rewrite (IH _ E2). f_equal. subst q. destruct p as [o m], x as [a t]. cbn [fst snd fin_pt] in *.
  f_equal; [destruct o as [r|]; cbn in H1; [congruence|contradiction]|].
  apply (f_equal finite_mat) in H2. rewrite !finite_mat_fin in H2. congruence.
Qed.
Lemma pts_all_fin pts qs ps : Forall2 pt_rel pts qs -> pts = map (fun p => (Some (fst p), snd p)) ps -> qs = map fin_pt ps.
Proof.
  intros H. revert ps. induction H as [|p q pts qs [H1 H2] H IH]; intros [|x ps] E; try discriminate; [reflexivity|]. cbn [map] in E |- *.
  injection E as E1 E2. rewrite (IH _ E2). f_equal. subst p. cbn [fst snd opt_rel] in *. destruct q; cbn in *. unfold fin_pt. congruence.
Qed.
Lemma all_fin_none l : all_fin l = None -> exists n, In (Nan n) l.
Proof.
  induction l as [|[a|n] l IH]; cbn; [discriminate| |intros _; exists n; auto].
  destruct (all_fin l); [discriminate|]. intros _. destruct IH as (n & H); [reflexivity|]. eauto.
Qed.

Lemma construct_rel s dofs ndofs order : Forall2 dof_rel dofs ndofs ->
  (forall d n, In d ndofs -> fst d = Nan n -> bad_pts (snd d)) ->
  agrees (nconstruct_and_add (of_model s) ndofs order) (construct_and_add dofs order s).
Proof.
  intros HR HN. destruct (construct_and_add dofs order s) as [[s' w] r] eqn:E.
  destruct (construct_and_add_cases dofs order s s' w r E) as [(e & -> & ->)|(-> & Ho & bs & pss & Hb & Hp & -> & Hs & ->)]; cbn [agrees].
  - unfold nconstruct_and_add. destruct (Z.ltb_spec order 1) as [|L]; [eauto|].
    destruct (construct_all (Z.to_nat order) (map snd ndofs)) as [w1 [sps|e1]] eqn:C; [|cbn; eauto]. exfalso.
    apply construct_all_ok in C.
    assert (B : exists bs, map fst dofs = map FinA bs).
    { destruct (all_fin (map fst dofs)) as [bs|] eqn:A; [exists bs; apply all_fin_map, A|]. exfalso.
      apply all_fin_none in A as (n & A). apply in_map_iff in A as (d & Ed & Hd).
      assert (exists d', In d' ndofs /\ fst d' = Nan n) as (d' & Hd' & Ed').
      { clear - HR Hd Ed. induction HR as [|x y l m [H1 _] H IH]; [destruct Hd|]. destruct Hd as [->|Hd]; [exists y; split; [left; auto|congruence]|].
        destruct (IH Hd) as (z & Hz & Ez). exists z; split; [right; exact Hz|exact Ez]. }
      specialize (HN _ _ Hd' Ed'). rewrite Forall_forall in C. destruct (C (snd d')) as (w2 & sp & Q); [apply in_map, Hd'|].
      destruct (construct_n_bad (Z.to_nat order) (snd d')) as (w3 & e3 & Q'); [lia|exact HN|]. congruence. }
    destruct B as (bs & Hb).
    assert (P : exists pss, Forall2 (fun (d : dof) ps => snd d = map (fun p : R * M3 => (Some (fst p), snd p)) ps) dofs pss /\
        Forall (fun ps => spaced (map fst ps) /\ (Z.to_nat order < List.length ps)%nat) pss).
    { clear - HR C. induction HR as [|d e l m [H1 H2] H IH]; [exists []; split; constructor|]. cbn [map] in C. apply Forall_inv in C as C1.
      apply Forall_inv_tail in C. destruct (IH C) as (pss & I1 & I2). destruct C1 as (w & sp & Q). unfold construct_n in Q.
      destruct (nhas_duplicates (map fst (snd e))) eqn:D; [discriminate|]. destruct (Nat.leb_spec (List.length (snd e)) (Z.to_nat order)) as [|LL]; [discriminate|].
      destruct (finite_points (snd e)) as [ps|] eqn:F; [|discriminate]. apply finite_points_some in F. exists (ps :: pss). split; constructor; auto.
      - eapply pts_all_some; eassumption.
      - rewrite F in D, LL. rewrite map_length in LL. split; [|exact LL]. apply has_duplicates_spec. rewrite <- ndup_fin, map_map. rewrite map_map in D. exact D. }
    destruct P as (pss & P1 & P2). pose proof (construct_and_add_complete dofs order s bs pss L Hb P1 P2) as Q. rewrite E in Q. discriminate Q.
  - unfold nconstruct_and_add. destruct (Z.ltb_spec order 1) as [|_]; [lia|].
    assert (K : construct_all (Z.to_nat order) (map snd ndofs) =
      (flat_map span_warnings pss, Ok (map (fun ps => mkSpline (Z.to_nat order) (sort_pts ps)) pss))).
    { clear - s HR Hp Hs. revert pss Hp Hs. induction HR as [|d e l m [H1 H2] H IH]; intros pss Hp Hs; inversion Hp as [|? ps ? pss' G1 G2]; subst; [reflexivity|].
      inversion Hs as [|? ? [S1 S2] S3]; subst. cbn [map construct_all flat_map]. rewrite (pts_all_fin _ _ _ H2 G1).
      rewrite (construct_n_fin _ ps s), construct_one_complete by assumption. cbn [fst snd]. rewrite (IH _ G2 S3). reflexivity. }
    rewrite K. cbn [rbind]. f_equal. f_equal. unfold of_model, appended; cbn. f_equal.
    + assert (Eb : map fst ndofs = map fst dofs) by (clear - HR; induction HR as [|? ? ? ? [H1 _]]; cbn; congruence).
      rewrite Eb, Hb, map_app. reflexivity.
    + f_equal. f_equal. apply (f_equal (@List.length _)) in Hb. rewrite !map_length in Hb. rewrite <- Hb.
      clear - HR. induction HR; cbn; congruence.
Qed.
