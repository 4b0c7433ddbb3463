(** Numbers that may not be finite: arithmetic, and arrays. *)
From Coq Require Import String ZArith Reals Lra Lia Bool Arith List.
From Verif Require Import Base LinAlg M_Validate M_Text M_Poscar M_Outcar M_Vasprun M_Dataset M_StructUtils M_Symmetry M_Reference
  M_Interp M_Art M_Special S_Interp S_Special P_StructUtils P_Symmetry P_Equivalent P_Interp P_Interp2.
Import ListNotations.
Local Open Scope R_scope.

(** ** Numbers *)
Lemma nf_dec x : {r | x = FinN r} + {not_finite x}.
Proof. destruct x as [r| |]; [left; exists r; reflexivity|right; exact I|right; exact I]. Qed.
Lemma nf_add_l x y : not_finite x -> not_finite (num_add x y).
Proof. destruct x as [|a|], y as [|b|]; cbn; try tauto. destruct (Bool.eqb a b); exact (fun _ => I). Qed.
Lemma nf_add_r x y : not_finite y -> not_finite (num_add x y).
Proof. destruct x as [|a|], y as [|b|]; cbn; try tauto. destruct (Bool.eqb a b); exact (fun _ => I). Qed.
Lemma nf_mul_l x y : not_finite x -> not_finite (num_mul x y).
Proof. destruct x, y; cbn; try tauto. destruct (Req_EM_T _ _); exact (fun _ => I). Qed.
Lemma nf_mul_r x y : not_finite y -> not_finite (num_mul x y).
Proof. destruct x, y; cbn; try tauto. destruct (Req_EM_T _ _); exact (fun _ => I). Qed.
Lemma nf_opp x : not_finite x -> not_finite (num_opp x).
Proof. destruct x; cbn; tauto. Qed.
Lemma nf_sub_l x y : not_finite x -> not_finite (num_sub x y).
Proof. apply nf_add_l. Qed.
Lemma nf_sub_r x y : not_finite y -> not_finite (num_sub x y).
Proof. intros H. apply nf_add_r, nf_opp, H. Qed.
Lemma fin_sub a b : num_sub (FinN a) (FinN b) = FinN (a - b).
Proof. reflexivity. Qed.
Lemma nf_sum l : Exists not_finite l -> not_finite (num_sum l).
Proof.
  unfold num_sum. assert (K : forall l a, not_finite a -> not_finite (fold_left num_add l a)).
  { induction l0 as [|x l0 IH]; intros a H; cbn; [exact H|]. apply IH, nf_add_l, H. }
  generalize (FinN 0). induction l as [|x l IH]; intros a H; [inversion H|]. cbn.
  inversion H as [? ? Hx|? ? Hx]; subst; [apply K, nf_add_r, Hx|apply IH, Hx].
Qed.
Lemma fin_sum l : num_sum (map FinN l) = FinN (rsum l).
Proof.
  unfold num_sum. assert (K : forall l a, fold_left num_add (map FinN l) (FinN a) = FinN (a + rsum l)).
  { induction l0 as [|x l0 IH]; intros a; cbn; [f_equal; lra|]. rewrite IH. f_equal. unfold rsum. lra. }
  rewrite K. f_equal. lra.
Qed.

(** ** Rows *)
Lemma finite3_fin v : finite3 (fin3 v) = Some v.
Proof. destruct v; reflexivity. Qed.
Lemma finite3_some v w : finite3 v = Some w -> v = fin3 w.
Proof. destruct v as [a b c]; unfold finite3; cbn. destruct a, b, c; try discriminate. intros [= <-]. reflexivity. Qed.
Lemma finite3_none v : finite3 v = None <-> row_not_finite v.
Proof. destruct v as [a b c]; unfold finite3, row_not_finite; cbn. destruct a, b, c; cbn; split; try tauto; discriminate. Qed.
Lemma row_dec v : {w | v = fin3 w} + {row_not_finite v}.
Proof.
  destruct (finite3 v) as [w|] eqn:E; [left; exists w; apply finite3_some, E|right; apply finite3_none, E].
Qed.
Lemma row_fin v : ~ row_not_finite (fin3 v).
Proof. unfold row_not_finite; cbn; tauto. Qed.

Lemma nrow_mul_fin v m : nrow_mul (fin3 v) m = fin3 (vmul v m).
Proof. destruct v as [a b c], m as [[x0 y0 z0] [x1 y1 z1] [x2 y2 z2]]. unfold nrow_mul, fin3, vmul, vadd, vscale; cbn. f_equal; f_equal; ring. Qed.
Lemma nrow_mul_nf v m : row_not_finite v -> not_finite (nx (nrow_mul v m)) /\ not_finite (ny (nrow_mul v m)) /\ not_finite (nz (nrow_mul v m)).
Proof.
  intros [H|[H|H]]; unfold nrow_mul; cbn [nx ny nz]; repeat split;
    solve [apply nf_add_l, nf_add_l, nf_mul_l, H|apply nf_add_l, nf_add_r, nf_mul_l, H|apply nf_add_r, nf_mul_l, H].
Qed.
Lemma nrow_mul_row v m : row_not_finite v -> row_not_finite (nrow_mul v m).
Proof. intros H. apply nrow_mul_nf with (m := m) in H. left. apply H. Qed.
Lemma nrow_mul_dec v m : row_not_finite (nrow_mul v m) -> row_not_finite v.
Proof. destruct (row_dec v) as [(w & ->)|H]; [|intros _; exact H]. rewrite nrow_mul_fin. intros H; destruct (row_fin _ H). Qed.

(** ** Matrices *)
Lemma finite_mat_fin m : finite_mat (fin_mat m) = Some m.
Proof. destruct m as [x y z]. unfold finite_mat, fin_mat; cbn [q0 q1 q2 r0 r1 r2]. rewrite !finite3_fin. reflexivity. Qed.
Lemma finite_mat_none m : tensor_not_finite m -> finite_mat m = None.
Proof.
  destruct m as [a b c]. unfold finite_mat, tensor_not_finite; cbn. intros [H|[H|H]]; apply finite3_none in H; rewrite H; auto.
  - destruct (finite3 a); auto.
  - destruct (finite3 a), (finite3 b); auto.
Qed.
Lemma mat_dec t : {m | t = fin_mat m} + {tensor_not_finite t}.
Proof.
  destruct t as [a b c]. destruct (row_dec a) as [(x & ->)|H]; [|right; left; exact H].
  destruct (row_dec b) as [(y & ->)|H]; [|right; right; left; exact H].
  destruct (row_dec c) as [(z & ->)|H]; [|right; right; right; exact H].
  left. exists (mkM x y z). reflexivity.
Qed.
Lemma mat_fin m : ~ tensor_not_finite (fin_mat m).
Proof. unfold tensor_not_finite; cbn. intros [H|[H|H]]; exact (row_fin _ H). Qed.

Lemma nmat_sub_fin a b : nmat_map2 num_sub (fin_mat a) (fin_mat b) = fin_mat (msub a b).
Proof. reflexivity. Qed.
Lemma nmat_add_fin a b : nmat_map2 num_add (fin_mat a) (fin_mat b) = fin_mat (madd a b).
Proof. reflexivity. Qed.
Lemma nmat_scale_fin c a : nmat_map (num_mul (FinN c)) (fin_mat a) = fin_mat (mscale c a).
Proof. reflexivity. Qed.
Lemma nmat_mul_r_fin a m : nmat_mul_r (fin_mat a) m = fin_mat (mmul a m).
Proof. unfold nmat_mul_r, fin_mat, mmul; cbn [q0 q1 q2 r0 r1 r2]. rewrite !nrow_mul_fin. reflexivity. Qed.
Lemma nmat_mul_l_fin m a : nmat_mul_l m (fin_mat a) = fin_mat (mmul m a).
Proof.
  destruct m as [[x0 y0 z0] [x1 y1 z1] [x2 y2 z2]], a as [[a0 b0 c0] [a1 b1 c1] [a2 b2 c2]].
  unfold nmat_mul_l, fin_mat, mmul, vmul, vadd, vscale, fin3, n3_map2, n3_map; cbn.
  repeat match goal with |- mkNmat _ _ _ = _ => f_equal | |- mkN3 _ _ _ = _ => f_equal | |- FinN _ = FinN _ => apply f_equal; ring end.
Qed.
Lemma nmat_sub_l a b : tensor_not_finite a -> tensor_not_finite (nmat_map2 num_sub a b).
Proof.
  unfold tensor_not_finite, row_not_finite; cbn.
  intuition auto using nf_sub_l.
Qed.
Lemma nmat_sub_r a b : tensor_not_finite b -> tensor_not_finite (nmat_map2 num_sub a b).
Proof.
  unfold tensor_not_finite, row_not_finite; cbn. intuition auto using nf_sub_r.
Qed.
Lemma nmat_mul_r_nf a m : tensor_not_finite a -> tensor_not_finite (nmat_mul_r a m).
Proof. unfold tensor_not_finite; cbn [nmat_mul_r q0 q1 q2]. intuition auto using nrow_mul_row. Qed.
Lemma nmat_mul_l_nf m a : tensor_not_finite a -> tensor_not_finite (nmat_mul_l m a).
Proof.
  unfold tensor_not_finite, row_not_finite. cbn [nmat_mul_l q0 q1 q2 n3_map2 n3_map nx ny nz].
  intros [[H|[H|H]]|[[H|[H|H]]|[H|[H|H]]]]; left;
    [left|right; left|right; right|left|right; left|right; right|left|right; left|right; right];
    solve [apply nf_add_l, nf_add_l, nf_mul_r, H|apply nf_add_l, nf_add_r, nf_mul_r, H|apply nf_add_r, nf_mul_r, H].
Qed.
Lemma nmats_of_fin l : nmats_of (map FinN l) = map fin_mat (mats_of l).
Proof.
  assert (K : forall n l, (List.length l <= n)%nat -> nmats_of (map FinN l) = map fin_mat (mats_of l)).
  { induction n as [|n IH]; intros k H; [destruct k; [reflexivity|cbn in H; lia]|].
    destruct k as [|a [|b [|c [|d [|e [|f [|g [|h [|i k]]]]]]]]]; try reflexivity.
    cbn [map nmats_of mats_of]. rewrite IH by (cbn in H; lia). reflexivity. }
  eapply K, le_n.
Qed.
Lemma nmats_of_arr l : nmats_of (na_data (nmats_arr l)) = l.
Proof. cbn [nmats_arr na_data]. induction l as [|[[? ? ?] [? ? ?] [? ? ?]] l IH]; [reflexivity|]. cbn. cbn in IH. rewrite IH. reflexivity. Qed.
Lemma nmats_arr_fin l : nmats_arr (map fin_mat l) = fin_arr (mats_arr l).
Proof.
  unfold nmats_arr, fin_arr, mats_arr; cbn [ra_shape ra_data]. rewrite map_length. f_equal.
  induction l as [|[[? ? ?] [? ? ?] [? ? ?]] l IH]; [reflexivity|]. cbn. cbn in IH. rewrite IH. reflexivity.
Qed.
Lemma nvec_arr_fin l : nvec_arr (map FinN l) = fin_arr (vec_arr l).
Proof. unfold nvec_arr, fin_arr, vec_arr; cbn. rewrite map_length. reflexivity. Qed.
Lemma nmats_of_nf n l : List.length l = (9 * n)%nat -> Exists not_finite l ->
  List.length (nmats_of l) = n /\ Exists tensor_not_finite (nmats_of l).
Proof.
  revert l. induction n as [|n IH]; intros l L H; [destruct l; [inversion H|discriminate]|].
  assert ((9 * S n = S (S (S (S (S (S (S (S (S (9 * n))))))))))%nat) as E by lia. rewrite E in L. clear E.
  destruct l as [|a [|b [|c [|d [|e [|f [|g [|h [|i l]]]]]]]]]; try discriminate L.
  assert (L' : List.length l = (9 * n)%nat) by (cbn [List.length] in L; lia). clear L.
  cbn [nmats_of].
  assert (Z : List.length (nmats_of l) = n).
  { clear - L'. revert l L'. induction n as [|n IH]; intros l L; [destruct l; [reflexivity|discriminate]|].
    assert ((9 * S n = S (S (S (S (S (S (S (S (S (9 * n))))))))))%nat) as E by lia. rewrite E in L. clear E.
    destruct l as [|a [|b [|c [|d [|e [|f [|g [|h [|i l]]]]]]]]]; try discriminate L. cbn [nmats_of List.length]. f_equal. apply IH.
    cbn [List.length] in L; lia. }
  split; [cbn; f_equal; exact Z|].
  apply Exists_exists in H as (x & Hx & N). cbn [In] in Hx.
  unfold tensor_not_finite, row_not_finite.
  destruct Hx as [<-|[<-|[<-|[<-|[<-|[<-|[<-|[<-|[<-|Hx]]]]]]]]];
    try (apply Exists_cons_hd; cbn; tauto).
  apply Exists_cons_tl, IH; [exact L'|]. apply Exists_exists. exists x. auto.
Qed.

(** ** Arrays of rows *)
Lemma all_rows_fin l : all_rows (map fin3 l) = Some l.
Proof. induction l as [|v l IH]; [reflexivity|]. cbn [map all_rows]. rewrite finite3_fin, IH. reflexivity. Qed.
Lemma all_rows_none l : Exists row_not_finite l -> all_rows l = None.
Proof.
  induction l as [|v l IH]; intros H; [inversion H|]. cbn [all_rows]. inversion H as [? ? Hx|? ? Hx]; subst.
  - apply finite3_none in Hx. rewrite Hx. reflexivity.
  - rewrite IH by exact Hx. destruct (finite3 v); reflexivity.
Qed.
Lemma rows_dec l : {r | l = map fin3 r} + {Exists row_not_finite l}.
Proof.
  induction l as [|v l IH]; [left; exists []; reflexivity|].
  destruct (row_dec v) as [(w & ->)|H]; [|right; apply Exists_cons_hd, H].
  destruct IH as [(r & ->)|H]; [left; exists (w :: r); reflexivity|right; apply Exists_cons_tl, H].
Qed.
Lemma as_arr_fin l : as_arr (map fin3 l) = FinA l.
Proof. unfold as_arr. rewrite all_rows_fin. reflexivity. Qed.
Lemma as_arr_nf l : Exists row_not_finite l -> as_arr l = Nan (List.length l).
Proof. intros H. unfold as_arr. rewrite all_rows_none by exact H. reflexivity. Qed.

Lemma nentries_fin l : nentries (map fin3 l) = map FinN (flatten_rows l).
Proof. unfold nentries, flatten_rows. induction l as [|v l IH]; [reflexivity|]. cbn. rewrite IH. reflexivity. Qed.
Lemma nentries_nf l : Exists row_not_finite l -> Exists not_finite (nentries l).
Proof.
  induction 1 as [v l H|v l H IH]; cbn.
  - destruct H as [H|[H|H]]; [apply Exists_cons_hd|apply Exists_cons_tl, Exists_cons_hd|apply Exists_cons_tl, Exists_cons_tl, Exists_cons_hd]; exact H.
  - do 3 apply Exists_cons_tl. exact IH.
Qed.
Lemma nnorm_fin c l : nnorm c (map fin3 l) = FinN (rows_norm (rows_scale c l)).
Proof.
  unfold nnorm. rewrite nentries_fin, map_map. cbn [num_mul].
  replace (map (fun x => FinN (x * c * (x * c))) (flatten_rows l)) with (map FinN (map (fun x => x * c * (x * c)) (flatten_rows l)))
    by (rewrite map_map; reflexivity).
  rewrite fin_sum. assert (E : rsum (map (fun x => x * c * (x * c)) (flatten_rows l)) = rows_norm2 (rows_scale c l)).
  { induction l as [|v l IH]; [reflexivity|]. change (rows_norm2 (rows_scale c (v :: l))) with (vdot (vscale c v) (vscale c v) + rows_norm2 (rows_scale c l)).
    rewrite <- IH. cbn. unfold rsum, vdot, vscale, flatten_rows. cbn. ring. }
  rewrite E. cbn. unfold rows_norm. pose proof (rows_norm2_nonneg (rows_scale c l)).
  destruct (Rltb (rows_norm2 (rows_scale c l)) 0) eqn:L; [|reflexivity]. apply Rltb_true in L. lra.
Qed.

Lemma nnorm_nan c l : Exists (fun x => x = NaN) (nentries l) -> nnorm c l = NaN.
Proof.
  intros H. unfold nnorm. enough (num_sum (map (fun x => num_mul (num_mul x (FinN c)) (num_mul x (FinN c))) (nentries l)) = NaN) as -> by reflexivity.
  assert (K : forall l, fold_left num_add l NaN = NaN) by (induction l0; [reflexivity|assumption]).
  unfold num_sum. generalize (FinN 0). induction H as [x k ->|x k H IH]; intros a; cbn; [|apply IH].
  replace (num_add a NaN) with NaN by (destruct a; reflexivity). apply K.
Qed.
Lemma over_norm_cons c l : l <> [] -> over_norm c (FinA l) =
  if Reqb (rows_norm (rows_scale c l)) 0 then Nan (List.length l) else FinA (rows_scale (/ rows_norm (rows_scale c l)) l).
Proof. destruct l; [congruence|reflexivity]. Qed.
Lemma num_quot_fin x y : y <> 0 -> num_quot (FinN x) (FinN y) = FinN (x / y).
Proof. intros H. cbn. destruct (Req_EM_T y 0); [contradiction|reflexivity]. Qed.
Lemma nquot_row v n : n <> 0 -> n3_map (fun x => num_quot x (FinN n)) (fin3 v) = fin3 (vscale (/ n) v).
Proof.
  intros H. unfold n3_map, fin3; cbn [nx ny nz]. rewrite !num_quot_fin by exact H. unfold vscale, Rdiv; cbn.
  rewrite !(Rmult_comm (/ n)). reflexivity.
Qed.
Lemma nquot_zero v : v = v0 -> n3_map (fun x => num_quot x (FinN 0)) (fin3 v) = mkN3 NaN NaN NaN.
Proof.
  intros ->. unfold n3_map, fin3; cbn. destruct (Req_EM_T 0 0); [reflexivity|congruence].
Qed.
Lemma nover_norm_fin c l : c <> 0 -> as_arr (nover_norm c (map fin3 l)) = over_norm c (FinA l).
Proof.
  intros Hc. destruct l as [|v l]; [reflexivity|]. rewrite over_norm_cons by discriminate. unfold nover_norm. rewrite nnorm_fin, map_map.
  destruct (Reqb _ 0) eqn:E.
  - apply Reqb_true in E. rewrite E. assert (Z' : v = v0).
    { apply rows_norm_eq_0, rows_norm2_0, Forall_inv in E as Z. destruct v as [a b d]. unfold vscale, v0 in *; cbn in Z. injection Z as Z1 Z2 Z3.
      f_equal; apply (Rmult_eq_reg_l c); lra. }
    rewrite as_arr_nf; [rewrite map_length; reflexivity|]. cbn [map]. apply Exists_cons_hd. rewrite nquot_zero by exact Z'. left. exact I.
  - apply Reqb_false in E. erewrite map_ext; [|intros a; apply nquot_row, E]. unfold rows_scale at 2. rewrite <- (map_map (vscale (/ rows_norm (rows_scale c (v :: l)))) fin3).
    apply as_arr_fin.
Qed.

(** [over_norm] of an array with a NaN is NaN everywhere, so that [as_arr] loses nothing. *)
Lemma nover_norm_nan c l : Exists (fun x => x = NaN) (nentries l) -> nover_norm c l = map (fun _ => mkN3 NaN NaN NaN) l.
Proof.
  intros H. unfold nover_norm. rewrite nnorm_nan by exact H. apply map_ext. intros [a b d]. unfold n3_map; cbn.
  f_equal; [destruct a|destruct b|destruct d]; reflexivity.
Qed.
Lemma nwrapd_fin v : n3_map nwrapd (fin3 v) = fin3 (vmap wrapd v).
Proof. reflexivity. Qed.
Lemma nwrap_fin v : n3_map nwrap (fin3 v) = fin3 (vmap wrap v).
Proof. reflexivity. Qed.
Lemma nwrapd_row v : row_not_finite v -> Exists (fun x => x = NaN) [nx (n3_map nwrapd v); ny (n3_map nwrapd v); nz (n3_map nwrapd v)].
Proof.
  unfold row_not_finite. destruct v as [a b c]; cbn. intros [H|[H|H]];
    [apply Exists_cons_hd|apply Exists_cons_tl, Exists_cons_hd|apply Exists_cons_tl, Exists_cons_tl, Exists_cons_hd];
    [destruct a|destruct b|destruct c]; cbn in *; tauto.
Qed.
Lemma nwrapd_rows l : Exists row_not_finite l -> Exists (fun x => x = NaN) (nentries (map (n3_map nwrapd) l)).
Proof.
  unfold nentries. induction 1 as [v l H|v l H IH]; cbn [map flat_map].
  - apply Exists_app. left. apply nwrapd_row, H.
  - apply Exists_app. right. exact IH.
Qed.
Lemma nwrapd_nf l : Exists row_not_finite l -> Exists row_not_finite (map (n3_map nwrapd) l).
Proof.
  induction 1 as [v l H|v l H IH]; cbn [map]; [apply Exists_cons_hd|apply Exists_cons_tl, IH].
  destruct H as [H|[H|H]]; [left|right; left|right; right]; destruct v as [a b c]; cbn in *; [destruct a|destruct b|destruct c]; cbn in *; tauto.
Qed.

(** The parent displacement of [add_dof] *)
Lemma frac_fin r c : nget_frac_displacement r (map fin3 c) = rmap (map fin3) (get_frac_displacement r c).
Proof.
  unfold nget_frac_displacement, get_frac_displacement. destruct (minv (rs_lattice r)) as [li|e]; cbn [rbind rmap]; [|reflexivity].
  f_equal. unfold apply_pbc_displacement, rows_mul. rewrite !map_map. apply map_ext. intros v. rewrite nrow_mul_fin. reflexivity.
Qed.
Lemma frac_nf r c d : Exists row_not_finite c -> nget_frac_displacement r c = Ok d ->
  as_arr (nover_norm 10 d) = Nan (List.length c) /\ nover_norm 10 d = map (fun _ => mkN3 NaN NaN NaN) c.
Proof.
  intros H. unfold nget_frac_displacement. destruct (minv (rs_lattice r)) as [li|]; cbn [rbind]; [|discriminate]. intros [= <-].
  assert (E : nover_norm 10 (map (fun v => n3_map nwrapd (nrow_mul v li)) c) = map (fun _ => mkN3 NaN NaN NaN) c).
  { rewrite nover_norm_nan; [apply map_map|]. rewrite <- (map_map (fun v => nrow_mul v li) (n3_map nwrapd)). apply nwrapd_rows.
    clear - H. induction H as [v l H|v l H IH]; cbn [map]; [apply Exists_cons_hd, nrow_mul_row, H|apply Exists_cons_tl, IH]. }
  split; [|exact E]. rewrite E, as_arr_nf; [rewrite map_length; reflexivity|].
  inversion H; cbn [map]; apply Exists_cons_hd; left; exact I.
Qed.
