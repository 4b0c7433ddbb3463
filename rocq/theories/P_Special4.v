(** Calls with finite numbers do what M_Interp.v and M_Art.v say. *)
From Coq Require Import String ZArith Reals Lra Lia Bool Arith List.
From Verif Require Import Base LinAlg M_Validate M_Text M_Poscar M_Outcar M_Vasprun M_Dataset M_StructUtils M_Symmetry M_Reference
  M_Interp M_Art M_Special S_Interp S_Special P_StructUtils P_Symmetry P_Equivalent P_EquivTotal P_Interp P_Interp2 P_Interp6 P_Art P_Art2 P_Examples2 P_Examples3 P_Images
  P_Atoms2 P_Special P_Special2 P_Special3.
Import ListNotations.
Local Open Scope R_scope.

Lemma bind_lift_ok {A B} (a : A) (k : A -> act B) m : bind (lift (Ok a)) k m = k a m.
Proof. unfold bind, lift. destruct (k a m) as [[? ?] ?]. reflexivity. Qed.
Lemma bind_lift_err {A B} e (k : A -> act B) m : bind (lift (Err e)) k m = ((m, []), Err e).
Proof. reflexivity. Qed.
Lemma bind_get' {B} (k : imodel -> act B) m : bind get k m = k m m.
Proof. unfold bind, get. destruct (k m m) as [[? ?] ?]. reflexivity. Qed.
Lemma agrees_bind {A B} (P : A -> B -> Prop) (x : res A) (y : res B) (k : A -> act unit) f m :
  res_rel P x y -> (forall a b, P a b -> agrees (f b) (k a m)) -> agrees (nbind y f) (bind (lift x) k m).
Proof.
  destruct x as [a|e], y as [b|e']; cbn [res_rel]; intros H K; try contradiction.
  - rewrite bind_lift_ok. cbn. apply K, H.
  - rewrite bind_lift_err. cbn. eauto.
Qed.
Lemma res_rel_refl {A} (x : res A) : res_rel eq x x.
Proof. destruct x; reflexivity. Qed.
Lemma res_rel_map {A B C} (x : res A) (f : A -> B) (g : A -> C) : res_rel (fun b c => exists a, x = Ok a /\ b = f a /\ c = g a) (rmap f x) (rmap g x).
Proof. destruct x; cbn; eauto. Qed.

Section Ref.
Variable m : imodel.
Let r := im_ref m.
Hypothesis Hwf : wf_ref r.
Hypothesis Hops : rs_ops r <> [].
Hypothesis Hdet : mdet (rs_lattice r) <> 0.

Lemma dofs_agree parent amps pols inc order :
  agrees (nbind (nget_dof (of_model m) parent (map FinN amps) (map fin_mat pols) inc) (fun dofs => nconstruct_and_add (of_model m) dofs order))
    (bind (lift (get_dof m parent amps pols inc)) (fun dofs => construct_and_add dofs order) m).
Proof.
  pose proof (nget_dof_nan r Hwf Hops Hdet (of_model m) parent (map FinN amps) (map fin_mat pols) inc) as N.
  pose proof (get_dof_rel m parent amps pols inc) as K.
  destruct (get_dof m parent amps pols inc) as [a|e], (nget_dof _ _ _ _ _) as [b|e'] eqn:E; cbn in K; try contradiction.
  - rewrite bind_lift_ok. cbn [nbind]. apply construct_rel; [exact K|]. apply N; reflexivity.
  - rewrite bind_lift_err. cbn. eauto.
Qed.

Lemma dummy_pols (d : bool) n p : (if d then nmats_arr (repeat (fin_mat m0) n) else fin_arr p) = fin_arr (if d then mats_arr (repeat m0 n) else p).
Proof. destruct d; [|reflexivity]. rewrite <- nmats_arr_fin, map_repeat'. reflexivity. Qed.

Lemma tail_agree parent amps pols order inc :
  agrees (ntail (of_model m) parent (fin_arr amps) (fin_arr pols) order inc)
   (bind (lift (verify_ndarray_shape (ra_shape amps) [None])) (fun _ =>
      let n := List.length (ra_data amps) in
      let pols := if im_dummy m then mats_arr (repeat m0 n) else pols in
      bind (lift (verify_ndarray_shape (ra_shape pols) [Some n; Some 3%nat; Some 3%nat])) (fun _ =>
      bind (lift (get_dof m parent (ra_data amps) (mats_of (ra_data pols)) inc)) (fun dofs =>
      construct_and_add dofs order))) m).
Proof.
  unfold ntail. cbn [of_model nm_dummy]. apply (agrees_bind eq); [apply res_rel_refl|]. intros ? ? _. cbn [fin_arr na_data na_shape]. rewrite map_length.
  cbv zeta. change (mkNarr (ra_shape pols) (map FinN (ra_data pols))) with (fin_arr pols). rewrite dummy_pols.
  apply (agrees_bind eq); [apply res_rel_refl|]. intros ? ? _. cbn [fin_arr na_data]. rewrite nmats_of_fin. apply dofs_agree.
Qed.

Lemma add_dof_agree cart c' amps pols order inc :
  res_rel (fun disp d => as_arr (nover_norm 10 d) = over_norm 10 disp) (get_frac_displacement_arr r cart) (nget_frac_displacement r c') ->
  agrees (nadd_dof (of_model m) c' (fin_arr amps) (fin_arr pols) order inc) (add_dof cart amps pols order inc m).
Proof.
  intros H. unfold add_dof. rewrite bind_get'. change (nadd_dof (of_model m) c' (fin_arr amps) (fin_arr pols) order inc) with
    (nbind (nget_frac_displacement r c') (fun disp => ntail (of_model m) (as_arr (nover_norm 10 disp)) (fin_arr amps) (fin_arr pols) order inc)).
  eapply agrees_bind; [exact H|]. intros disp d E. cbv beta in E. rewrite E. apply tail_agree.
Qed.
Lemma add_dof_fin c amps pols order inc :
  agrees (nadd_dof (of_model m) (map fin3 c) (fin_arr amps) (fin_arr pols) order inc) (add_dof (FinA c) amps pols order inc m).
Proof.
  apply add_dof_agree. rewrite frac_fin. cbn [get_frac_displacement_arr]. destruct (get_frac_displacement r c) as [d|e]; cbn; [|reflexivity].
  apply nover_norm_fin. lra.
Qed.

(** ** Files and pymatgen *)
Lemma map2_map {A A' B B' C} (f : A' -> B' -> C) (g : A -> A') (h : B -> B') l k : map2 f (map g l) (map h k) = map2 (fun a b => f (g a) (h b)) l k.
Proof. revert k. induction l; intros [|b k]; cbn; congruence. Qed.
Lemma map2_out {A B C D} (f : A -> B -> C) (g : C -> D) l k : map g (map2 f l k) = map2 (fun a b => g (f a b)) l k.
Proof. revert k. induction l; intros [|b k]; cbn; congruence. Qed.
Lemma bcast2_nat {A A' B B' C C'} (f : A -> B -> C) (f' : A' -> B' -> C') g h k l l' : (forall a b, f' (g a) (h b) = k (f a b)) ->
  bcast2 f' (map g l) (map h l') = rmap (map k) (bcast2 f l l').
Proof.
  intros H. unfold bcast2. rewrite !map_length. destruct (Nat.eqb _ _).
  - cbn. f_equal. rewrite map2_map, map2_out. apply map2_ext_in. auto.
  - destruct l as [|a [|a2 l]]; cbn [map].
    + destruct l' as [|b [|b2 l']]; reflexivity.
    + cbn. f_equal. rewrite !map_map. apply map_ext. auto.
    + destruct l' as [|b [|b2 l']]; try reflexivity. cbn. rewrite !H. f_equal. f_equal. f_equal. rewrite !map_map. apply map_ext. auto.
Qed.
Lemma ncalc_fin p1 p2 : ncalc_displacement p1 (map fin3 p2) = rmap (map fin3) (calc_displacement p1 p2).
Proof.
  unfold ncalc_displacement, calc_displacement.
  replace (map (n3_map nwrap) (map fin3 p2)) with (map fin3 (apply_pbc p2)) by (unfold apply_pbc; rewrite !map_map; reflexivity).
  replace (map (fun v => n3_map nwrap (fin3 v)) p1) with (map fin3 (apply_pbc p1)) by (unfold apply_pbc; rewrite !map_map; reflexivity).
  rewrite (bcast2_nat vsub (n3_map2 num_sub) fin3 fin3 fin3) by reflexivity. destruct (bcast2 vsub _ _) as [d|e]; cbn; [|reflexivity].
  f_equal. unfold apply_pbc_displacement. rewrite !map_map. reflexivity.
Qed.
Lemma mapM_nat {A A' B B'} (f : A -> res B) (f' : A' -> res B') g k l : (forall a, f' (g a) = rmap k (f a)) -> mapM f' (map g l) = rmap (map k) (mapM f l).
Proof.
  intros H. induction l as [|a l IH]; [reflexivity|]. cbn [map mapM]. rewrite H. destruct (f a); cbn; [|reflexivity].
  rewrite IH. destruct (mapM f l); reflexivity.
Qed.
Lemma namplitudes_fin ds : namplitudes_of (of_model m) (map (map fin3) ds) = rmap (fun x => (fst x, map FinN (snd x))) (amplitudes_of m ds).
Proof.
  unfold namplitudes_of, amplitudes_of. rewrite map_map. rewrite (map_ext _ _ as_arr_fin). destruct ds as [|d0 ds]; [reflexivity|]. cbn [map].
  replace (flatten (FinA d0) :: map flatten (map FinA ds)) with (flatten (FinA d0) :: map (fun d => flatten (FinA d)) ds) by (rewrite map_map; reflexivity).
  destruct (is_collinear_with_all _ _) as [z|e]; cbn [rbind]; [|reflexivity]. destruct (negb _); [reflexivity|].
  change (FinA d0 :: map FinA ds) with (map FinA (d0 :: ds)). rewrite all_fin_inv. cbn [of_model nm_ref].
  destruct (over_norm 1 _) as [b|k]; [|reflexivity]. cbn [rmap fst snd map]. rewrite map_map. reflexivity.
Qed.
Lemma read_dof_fin rds : nread_dof (of_model m) (fin_reads rds) =
  rmap (fun x => (fst (fst x), map FinN (snd (fst x)), map fin_mat (snd x))) (read_dof m rds).
Proof.
  unfold nread_dof, read_dof, fin_reads.
  rewrite (mapM_nat (read_one m) (nread_one (of_model m)) _ (fun dp => (map fin3 (fst dp), fin_mat (snd dp)))).
  - destruct (mapM (read_one m) rds) as [dps|e]; cbn [rmap rbind]; [|reflexivity].
    replace (map fst (map (fun dp : list V3 * M3 => (map fin3 (fst dp), fin_mat (snd dp))) dps)) with (map (map fin3) (map fst dps)) by (rewrite !map_map; reflexivity).
    rewrite namplitudes_fin. destruct (amplitudes_of m _) as [da|e]; cbn [rmap rbind fst snd]; [|reflexivity]. rewrite !map_map. reflexivity.
  - intros [[p t]|e]; cbn [rmap]; [|reflexivity]. unfold nread_one, read_one; cbn [rbind fst snd of_model nm_dummy nm_ref]. rewrite ncalc_fin.
    destruct (calc_displacement _ p) as [d|e]; cbn [rmap]; [destruct (im_dummy m); reflexivity|]. destruct (is_value_error e); reflexivity.
Qed.
Lemma displacement_fin ps : ndisplacement_amplitudes (of_model m) (map (map fin3) ps) = rmap (fun x => (fst x, map FinN (snd x))) (displacement_amplitudes m ps).
Proof.
  unfold ndisplacement_amplitudes, displacement_amplitudes.
  rewrite (mapM_nat (fun p => match calc_displacement (rs_positions (im_ref m)) p with Ok d => Ok d | Err e => if is_value_error e then Err InvalidDOFException else Err e end) _ _ (map fin3)).
  - destruct (mapM _ ps) as [ds|e]; cbn [rmap rbind]; [|reflexivity]. apply namplitudes_fin.
  - intros p. cbn [of_model nm_ref]. rewrite ncalc_fin. destruct (calc_displacement _ p) as [d|e]; cbn [rmap]; [reflexivity|]. destruct (is_value_error e); reflexivity.
Qed.
Lemma files_agree rds order : agrees (nadd_dof_from_files (of_model m) (fin_reads rds) order) (add_dof_from_files rds order m).
Proof.
  unfold nadd_dof_from_files, add_dof_from_files. rewrite bind_get', read_dof_fin. destruct (read_dof m rds) as [[[d0 amps] pols]|e]; cbn [rmap nbind fst snd].
  - rewrite bind_lift_ok. rewrite nvec_arr_fin, nmats_arr_fin. apply add_dof_fin.
  - rewrite bind_lift_err. cbn. eauto.
Qed.
Lemma pymatgen_agree ps p order : agrees (nadd_dof_from_pymatgen (of_model m) (map (map fin3) ps) (fin_arr p) order) (add_dof_from_pymatgen ps p order m).
Proof.
  unfold nadd_dof_from_pymatgen, add_dof_from_pymatgen. rewrite bind_get', displacement_fin. destruct (displacement_amplitudes m ps) as [[d0 amps]|e]; cbn [rmap nbind fst snd].
  - rewrite bind_lift_ok. cbn [fst snd]. rewrite nvec_arr_fin. apply add_dof_fin.
  - rewrite bind_lift_err. cbn. eauto.
Qed.

(** ** Atomic Raman tensors *)
Lemma one_atom_agree d0 amps pols : agrees (nadd_one_atom (of_model m) d0 (map FinN amps) (map fin_mat pols)) (add_one_atom d0 amps pols m).
Proof.
  unfold nadd_one_atom, add_one_atom. rewrite bind_get'. apply (agrees_bind eq); [apply res_rel_refl|]. intros k ? <-.
  destruct (negb (forallb _ _)); [cbn; eauto|].
  pose proof (nget_dof_nan r Hwf Hops Hdet (of_model m) (FinA d0) (map FinN amps) (map fin_mat pols) false) as N.
  pose proof (get_dof_rel m (FinA d0) amps pols false) as K.
  destruct (get_dof m _ amps pols false) as [a|e], (nget_dof _ _ _ _ _) as [b|e'] eqn:E; cbn in K; try contradiction; [|rewrite bind_lift_err; cbn; eauto].
  rewrite bind_lift_ok. cbn [nbind]. destruct K as [|d d' a b [K1 K2] K]; [cbn; eauto|].
  replace (List.length (snd d')) with (List.length (snd d)) by (clear - K2; induction K2; cbn; congruence).
  destruct (negb _); [cbn; eauto|]. apply construct_rel; [constructor; [split; assumption|exact K]|]. apply N; reflexivity.
Qed.
Lemma art_files_agree rds : agrees (nadd_art_from_files (of_model m) (fin_reads rds)) (add_art_from_files rds m).
Proof.
  unfold nadd_art_from_files, add_art_from_files. rewrite bind_get', read_dof_fin. destruct (read_dof m rds) as [[[d0 amps] pols]|e]; cbn [rmap nbind fst snd].
  - rewrite bind_lift_ok. apply one_atom_agree.
  - rewrite bind_lift_err. cbn. eauto.
Qed.
Lemma art_pymatgen_agree ps p : agrees (nadd_art_from_pymatgen (of_model m) (map (map fin3) ps) (map fin_mat p)) (add_art_from_pymatgen ps p m).
Proof.
  unfold nadd_art_from_pymatgen, add_art_from_pymatgen. rewrite bind_get', displacement_fin. destruct (displacement_amplitudes m ps) as [[d0 amps]|e]; cbn [rmap nbind fst snd].
  - rewrite bind_lift_ok. cbn [fst snd]. apply one_atom_agree.
  - rewrite bind_lift_err. cbn. eauto.
Qed.
Lemma direction_fin d : nget_frac_direction r (map FinN d) = rmap fin3 (get_frac_direction r d).
Proof.
  destruct d as [|x [|y [|z [|? ?]]]]; try reflexivity. cbn [map nget_frac_direction get_frac_direction]. destruct (minv (rs_lattice r)) as [li|e]; cbn [rbind rmap]; [|reflexivity].
  f_equal. change (mkN3 (FinN x) (FinN y) (FinN z)) with (fin3 (mkV x y z)). rewrite nrow_mul_fin. reflexivity.
Qed.
Lemma set_nth_map {A B} (f : A -> B) k x l : set_nth k (f x) (map f l) = map f (set_nth k x l).
Proof. revert k. induction l as [|a l IH]; intros [|k]; cbn; try reflexivity. rewrite IH. reflexivity. Qed.
Lemma ncart_fin d : nget_cart_displacement r (map fin3 d) = map fin3 (get_cart_displacement r d).
Proof. unfold nget_cart_displacement, get_cart_displacement, rows_mul, apply_pbc_displacement. rewrite !map_map. apply map_ext. intros v. rewrite nwrapd_fin, nrow_mul_fin. reflexivity. Qed.
Lemma row_norm_fin f : nnorm 10 [fin3 f] = FinN (sqrt (vnorm2 (vscale 10 f))).
Proof. change [fin3 f] with (map fin3 [f]). rewrite nnorm_fin. f_equal. unfold rows_norm. f_equal. unfold rows_norm2, rows_dot, vnorm2; cbn. ring. Qed.
Lemma py_index_lt n i k : py_index n i = Some k -> (k < n)%nat.
Proof. unfold py_index. repeat match goal with |- context [if ?b then _ else _] => destruct b eqn:? end; intros [= <-]; lia. Qed.
Lemma set_nth_in {A} k (x : A) l : (k < List.length l)%nat -> In x (set_nth k x l).
Proof. revert k. induction l as [|a l IH]; intros [|k] H; cbn in *; try lia; [left; reflexivity|right; apply IH; lia]. Qed.

Lemma art_agree atom d amps pols : agrees (nadd_art (of_model m) atom (map FinN d) (fin_arr amps) (fin_arr pols)) (add_art atom d amps pols m).
Proof.
  unfold nadd_art, add_art. rewrite bind_get'. cbn [of_model nm_ref nm_dummy]. cbv zeta. fold r. rewrite direction_fin.
  destruct (get_frac_direction r d) as [f|e]; cbn [rmap]; [|rewrite bind_lift_err; cbn; eauto]. rewrite bind_lift_ok. cbn [nbind].
  apply (agrees_bind eq); [apply res_rel_refl|]. intros ? ? _. cbn [fin_arr na_data na_shape]. rewrite map_length.
  change (mkNarr (ra_shape pols) (map FinN (ra_data pols))) with (fin_arr pols). rewrite dummy_pols.
  apply (agrees_bind eq); [apply res_rel_refl|]. intros ? ? _.
  destruct (py_index _ atom) as [k|] eqn:Ek; [|cbn; eauto].
  change (mkNarr (ra_shape amps) (map FinN (ra_data amps))) with (fin_arr amps).
  rewrite row_norm_fin. unfold art_displacement. fold r. destruct (Reqb _ 0) eqn:Z.
  - apply Reqb_true in Z. rewrite Z. apply add_dof_agree. cbn [get_cart_displacement_arr get_frac_displacement_arr].
    assert (F0 : f = v0).
    { apply sqrt_eq_0 in Z; [|unfold vnorm2, vdot; nra]. clear - Z. destruct f as [fa fb fc]. unfold vnorm2, vdot, vscale in Z; cbn in Z. unfold v0. f_equal; nra. }
    rewrite (nquot_zero f F0).
    assert (X : Exists row_not_finite (nget_cart_displacement r (set_nth k (mkN3 NaN NaN NaN) (repeat (fin3 v0) (List.length (rs_positions r)))))).
    { apply Exists_exists. eexists. split; [unfold nget_cart_displacement; apply in_map, set_nth_in; rewrite repeat_length; eapply py_index_lt, Ek|].
      apply nrow_mul_row. left. exact I. }
    pose proof (frac_nf r _ (match nget_frac_displacement r (nget_cart_displacement r (set_nth k (mkN3 NaN NaN NaN) (repeat (fin3 v0) (List.length (rs_positions r))))) with Ok d => d | Err _ => [] end) X) as Y.
    unfold nget_frac_displacement in *. destruct (minv (rs_lattice r)) as [li|e']; cbn [rbind] in *; [|reflexivity]. cbn [res_rel over_norm].
    rewrite (proj1 (Y eq_refl)). unfold nget_cart_displacement. rewrite map_length, set_nth_length, repeat_length. reflexivity.
  - apply Reqb_false in Z. cbn [get_cart_displacement_arr]. rewrite (nquot_row f _ Z), <- (map_repeat' fin3), set_nth_map, ncart_fin. apply add_dof_fin.
Qed.

Lemma op_agree art o : agrees (run_nop art (of_model m) (fin_op o)) (exact_op art o m).
Proof.
  destruct art, o as [[c a p k i|rds k|ps p k|sh v|]|i d a p|rds|ps p]; cbn [run_nop fin_op exact_op run_op run_aop]; try (cbn; eauto; fail);
    auto using add_dof_fin, files_agree, pymatgen_agree, art_agree, art_files_agree, art_pymatgen_agree.
  - unfold nset_mask, set_mask. rewrite bind_get'. apply (agrees_bind eq); [apply res_rel_refl|]. intros ? ? _. reflexivity.
  - unfold nset_mask, set_mask. rewrite bind_get'. apply (agrees_bind eq); [apply res_rel_refl|]. intros ? ? _. reflexivity.
Qed.
End Ref.
