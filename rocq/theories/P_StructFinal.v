(** Packaging of the structure lemmas into the statements used by C_Struct.v. *)
From Coq Require Import String ZArith Reals Lra Lia Bool Sorted List.
From Verif Require Import Base LinAlg Constants M_Validate M_StructUtils M_Symmetry M_Reference
  S_Lattice S_Vec S_Symmetry S_Equivalent P_StructUtils P_Minimal P_Reference P_Reference2 P_Symmetry P_Equivalent P_Equiv2 P_Equiv3 P_EquivTotal.
Import ListNotations.
Local Open Scope R_scope.

Lemma f_C01 p :
  (forall q, q = apply_pbc p <-> cell_images p q) /\ length (apply_pbc p) = length p /\
  apply_pbc (apply_pbc p) = apply_pbc p /\ (forall q, same_mod_lattice p q -> apply_pbc q = apply_pbc p).
Proof.
  split; [intros; apply apply_pbc_spec|split; [apply apply_pbc_length|split]].
  - apply apply_pbc_proper, same_sym, same_apply_pbc.
  - intros q H. apply apply_pbc_proper, same_sym; auto.
Qed.

Lemma f_C02 p :
  (forall q, q = apply_pbc_displacement p <-> half_images p q) /\
  (forall q, same_mod_lattice p q -> Forall2 (vall2 (fun r y => Rabs r <= Rabs y)) (apply_pbc_displacement p) q).
Proof.
  split; [intros; apply apply_pbc_displacement_spec|].
  intros q H. induction H as [|[x y z] [x' y' z'] p q [Hx [Hy Hz]] H IH]; simpl; constructor; auto.
  repeat split; simpl in *; eapply half_minimal; eauto using wrapd_image.
Qed.

Lemma f_C03 p d q : length p = length d -> length p = length q ->
  (exists m, displace_positions p d = Ok m /\
     exists d', calc_displacement p m = Ok d' /\ half_images d d' /\ cell_images (rows_add p d) m) /\
  (exists d', calc_displacement p q = Ok d' /\ half_images (rows_sub q p) d' /\
     exists m, displace_positions p d' = Ok m /\ cell_images q m) /\
  (forall p' q', same_mod_lattice p p' -> same_mod_lattice q q' -> calc_displacement p' q' = calc_displacement p q).
Proof.
  intros Hd Hq. split; [|split].
  - destruct (calc_after_displace p d Hd) as (m & Hm & Hc). exists m. split; auto.
    eexists; split; [exact Hc|]. split; [apply apply_pbc_displacement_spec; auto|].
    rewrite displace_positions_eq in Hm by auto. injection Hm as <-. apply apply_pbc_spec; auto.
  - destruct (displace_after_calc p q Hq) as (d' & Hc & Hm). exists d'. split; auto. split.
    + rewrite calc_displacement_eq in Hc by auto. injection Hc as <-. apply apply_pbc_displacement_spec; auto.
    + eexists; split; [exact Hm|]. apply apply_pbc_spec; auto.
  - intros. apply calc_displacement_periodic; apply same_sym; auto.
Qed.

Lemma f_C06 p R t : Forall (vall (fun x => 0 <= x <= 1)) p -> integer_matrix R ->
  exists q, transform_positions p R t = Ok q /\ cell_images (map (fun v => vadd (vmul v R) t) p) q /\
  (forall p', Forall (vall (fun x => 0 <= x <= 1)) p' -> same_mod_lattice p p' -> transform_positions p' R t = Ok q) /\
  (forall R' t', integer_matrix R' ->
     transform_positions q R' t' = transform_positions p (mmul R R') (vadd (vmul t R') t')) /\
  transform_positions p mI v0 = Ok (apply_pbc p).
Proof.
  intros Hp HR. apply positions_ok_spec in Hp. eexists. split; [apply transform_ok_eq; auto|].
  split; [apply apply_pbc_spec; auto|split; [|split]].
  - intros p' Hp' Hs. apply positions_ok_spec in Hp'. rewrite transform_ok_eq by auto. f_equal.
    apply apply_pbc_proper. clear - Hs HR. induction Hs; simpl; constructor; auto.
    apply vcongr_vadd; [|apply vcongr_refl]. apply vcongr_vmul; auto. apply vcongr_sym; auto.
  - intros R' t' HR'. apply transform_compose; auto. apply transform_ok_eq; auto.
  - apply transform_identity; auto.
Qed.

Lemma f_C07 a rot t :
  ((exists r, transform_positions_nd a rot t = Ok r) <->
   (exists n, nd_shape a = [n; 3%nat]) /\ (forall x, In (Some x) (nd_data a) -> 0 <= x <= 1)) /\
  (forall e, transform_positions_nd a rot t = Err e -> e = ValueError) /\
  (forall p, a = nd_of_rows p -> Forall (vall (fun x => 0 <= x <= 1)) p ->
     transform_positions_nd a rot t = rmap Some (transform_positions p rot t)).
Proof.
  split; [apply transform_nd_ok_iff|split; [apply transform_nd_err|]].
  intros p -> Hp. unfold transform_positions_nd. rewrite (proj2 (nd_of_rows_ok p)).
  - cbn [rbind]. rewrite rows_of_nd_of_rows. auto.
  - apply positions_ok_spec; auto.
Qed.

Lemma f_C07b numbers lattice positions op ops equiv :
  ~ Forall (vall (fun x => 0 <= x <= 1)) positions ->
  make_reference numbers lattice positions (Some (op :: ops, equiv)) = Err ValueError.
Proof.
  intros H. apply make_reference_bad_positions. destruct (positions_ok positions) eqn:E; auto.
  apply positions_ok_spec in E. tauto.
Qed.
Lemma f_C07c numbers lattice positions ops equiv :
  Forall (vall (fun x => 0 <= x <= 1)) positions -> length positions = length numbers ->
  exists r, make_reference numbers lattice positions (Some (ops, equiv)) = Ok r /\
    rs_numbers r = numbers /\ rs_lattice r = lattice /\ rs_positions r = positions /\ rs_ops r = ops.
Proof.
  intros H Hl. apply positions_ok_spec in H.
  destruct (make_reference_ok_positions numbers lattice positions ops equiv H Hl) as (r & H1 & H2 & H3 & H4 & H5 & _).
  exists r; auto.
Qed.

Lemma f_C09 v w : length v = length w -> v <> [] ->
  exists b, are_collinear (Fin v) (Fin w) = Ok b /\ (b = true <-> collinear_spec v w) /\
    are_collinear (Fin w) (Fin v) = Ok b /\
    (forall c, c <> 0 -> are_collinear (Fin (map (fun x => c * x) v)) (Fin w) = Ok b /\
                         are_collinear (Fin v) (Fin (map (fun x => c * x) w)) = Ok b).
Proof.
  intros Hl Hne. destruct (are_collinear_spec v w Hl Hne) as (b & Hb & Hs).
  assert (Hne': w <> []) by (destruct v, w; try discriminate; congruence).
  exists b. split; [auto|split; [auto|split]].
  - rewrite <- are_collinear_sym; auto.
  - intros c Hc. split.
    + rewrite are_collinear_scale; auto.
    + rewrite are_collinear_sym; [|rewrite map_length; auto|auto]. rewrite are_collinear_scale; auto.
      rewrite <- are_collinear_sym; auto.
Qed.
Lemma f_C09_parallel c v : c <> 0 -> nonzero_vec v ->
  are_collinear (Fin v) (Fin (map (fun x => c * x) v)) = Ok true.
Proof.
  intros Hc Hv. assert (v <> []) by (destruct Hv as (x & [] & _) || (destruct v; [destruct Hv as (x & [] & _)|discriminate])).
  destruct (are_collinear_spec v (map (fun x => c * x) v)) as (b & Hb & Hs); [rewrite map_length; auto|auto|].
  rewrite Hb. f_equal. apply Hs. split; [auto|split].
  - apply nonzero_scale; auto.
  - rewrite cosine_self_scale by auto. pose proof tol1_bounds. lra.
Qed.
Lemma f_C09_orth v w : length v = length w -> v <> [] ->
  (is_orthogonal_to_all (Fin v) [Fin w] = Ok (-1)%Z <-> orthogonal_spec v w) /\
  (is_orthogonal_to_all (Fin v) [Fin w] = Ok 0%Z <-> ~ orthogonal_spec v w).
Proof.
  intros Hl Hne.
  assert (S: forall z, is_orthogonal_to_all (Fin v) [Fin w] = Ok z <-> first_failure (orthogonal_spec v) [w] z).
  { intros z. apply (orth_scan v [w]); auto. intros u [<-|[]]; auto. }
  rewrite !S. unfold first_failure. split; split.
  - intros [[_ H]|(n & a & E & _)]; [apply H; simpl; auto|lia].
  - intros H. left. split; auto. intros a [<-|[]]; auto.
  - intros [[E _]|(n & a & E & Ha & N & _)]; [discriminate|].
    assert (n = 0%nat) by lia. subst. simpl in Ha. injection Ha as <-; auto.
  - intros H. right. exists 0%nat, w. split; [auto|split; [auto|split; [auto|]]]. intros; lia.
Qed.

Lemma f_C10 v ws : v <> [] -> (forall w, In w ws -> length v = length w) ->
  forall z,
  (is_orthogonal_to_all (Fin v) (map Fin ws) = Ok z <-> first_failure (orthogonal_spec v) ws z) /\
  (is_collinear_with_all (Fin v) (map Fin ws) = Ok z <-> first_failure (collinear_spec v) ws z) /\
  (is_non_collinear_with_all (Fin v) (map Fin ws) = Ok z <-> first_failure (fun w => ~ collinear_spec v w) ws z).
Proof.
  intros Hv Hws z. split; [apply orth_scan; auto|split; [apply collinear_scan; auto|apply non_collinear_scan; auto]].
Qed.
Lemma f_C10_total v ws : v <> [] -> (forall w, In w ws -> length v = length w) ->
  exists z1 z2 z3, is_orthogonal_to_all (Fin v) (map Fin ws) = Ok z1 /\
    is_collinear_with_all (Fin v) (map Fin ws) = Ok z2 /\ is_non_collinear_with_all (Fin v) (map Fin ws) = Ok z3.
Proof.
  intros Hv Hws.
  assert (T: forall (test : arr R -> res bool) k, (forall w, In w ws -> exists b, test (Fin w) = Ok b) ->
     exists z, scan_from test k (map Fin ws) = Ok z).
  { intros test. clear Hws. induction ws as [|w ws' IH]; intros k H; simpl; [eauto|].
    destruct (H w) as [b ->]; [simpl; auto|]. simpl. destruct b; [eauto|]. apply IH. intros; apply H; simpl; auto. }
  destruct (T (non_orthogonal (normalise (Fin v))) 0%nat) as [z1 H1].
  { intros w Hw. destruct (non_orthogonal_spec v w (Hws w Hw) Hv) as (b & Hb & _). eauto. }
  destruct (T (fun w => rmap negb (are_collinear (Fin v) w)) 0%nat) as [z2 H2].
  { intros w Hw. destruct (are_collinear_spec v w (Hws w Hw) Hv) as (b & Hb & _). rewrite Hb. simpl. eauto. }
  destruct (T (are_collinear (Fin v)) 0%nat) as [z3 H3].
  { intros w Hw. destruct (are_collinear_spec v w (Hws w Hw) Hv) as (b & Hb & _). eauto. }
  exists z1, z2, z3. auto.
Qed.

Lemma f_C11 r c d : mdet (rs_lattice r) <> 0 ->
  (exists d', get_frac_displacement r (get_cart_displacement r d) = Ok d' /\ half_images d d') /\
  (exists f, get_frac_displacement r c = Ok f /\ Forall (vall (fun x => - / 2 < x <= / 2)) f /\
     Forall2 (fun a b => exists n, integer_vector n /\ vsub a b = vmul n (rs_lattice r)) c (get_cart_displacement r f) /\
     (get_cart_displacement r f = c <->
      exists g, map (fun v => vmul v (rs_lattice r)) g = c /\ Forall (vall (fun x => - / 2 < x <= / 2)) g)).
Proof.
  intros Hdet. destruct (minv_exists _ Hdet) as [li Hli]. split.
  - eexists; split; [eapply frac_of_cart; eauto|]. apply apply_pbc_displacement_spec; auto.
  - destruct (frac_displacement_ok r c Hdet) as (f & Hf & Hlen). exists f. split; [auto|].
    assert (Hr: Forall (vall (fun x => - / 2 < x <= / 2)) f).
    { unfold get_frac_displacement in Hf. rewrite Hli in Hf. simpl in Hf. injection Hf as <-.
      apply Forall_forall. intros v Hv. apply in_map_iff in Hv as (u & <- & _). apply vall_wrapd. }
    split; [auto|split; [apply cart_of_frac; auto|]]. split.
    + intros H. exists f. split; auto. etransitivity; [|exact H]. unfold get_cart_displacement, rows_mul.
      unfold apply_pbc_displacement. rewrite map_map. apply map_ext_in. intros v Hv.
      rewrite Forall_forall in Hr. rewrite (vmap_wrapd_id v); auto.
    + intros (g & <- & Hg). apply (cart_of_frac_exact _ _ _ _ Hli Hf).
      apply minv_Ok in Hli as [Hli1 _]. 
      apply Forall_forall. intros v Hv. apply in_map_iff in Hv as (u & <- & Hu).
      rewrite <- vmul_mmul. rewrite Hli1. rewrite vmul_mI. rewrite Forall_forall in Hg; auto.
Qed.

Lemma f_C12 r x y z : mdet (rs_lattice r) <> 0 ->
  exists cx cy cz, get_cart_direction r [x; y; z] = Ok [mkV cx cy cz] /\
    exists f, get_frac_direction r [cx; cy; cz] = Ok f /\ vall2 half_image (mkV x y z) f.
Proof.
  intros Hdet. destruct (minv_exists _ Hdet) as [li Hli]. unfold get_cart_direction.
  destruct (vmul (vmap wrapd (mkV x y z)) (rs_lattice r)) as [cx cy cz] eqn:E.
  exists cx, cy, cz. split; auto. unfold get_frac_direction. rewrite Hli. simpl rbind.
  eexists; split; [reflexivity|]. rewrite <- E, <- vmul_mmul.
  apply minv_Ok in Hli as [Hli1 _]. rewrite Hli1, vmul_mI.
  unfold vall2, vmap; simpl. rewrite !wrapd_wrapd. repeat split; apply wrapd_image.
Qed.
Lemma f_C12_shape r c : length c <> 3%nat -> get_frac_direction r c = Err ValueError.
Proof. intros H. destruct c as [|? [|? [|? [|? ?]]]]; simpl in *; try lia; auto. Qed.
Lemma f_C12_refuted : forall r d out, get_cart_direction r d = Ok out -> length out = 1%nat.
Proof. intros r [|? [|? [|? [|? ?]]]] out; simpl; try discriminate. intros [= <-]; auto. Qed.

Lemma f_C13 r wanted : (forall n, In n (rs_numbers r) -> exists s, atom_symbol n = Ok s) ->
  exists l, get_atom_indexes r wanted = Ok l /\ StronglySorted lt l /\
   forall i, In i l <-> exists n s, nth_error (rs_numbers r) i = Some n /\ atom_symbol n = Ok s /\ In s wanted.
Proof.
  intros H. unfold get_atom_indexes.
  assert (E: exists syms, mapM atom_symbol (rs_numbers r) = Ok syms).
  { revert H. generalize (rs_numbers r). induction l as [|n l IH]; simpl; intros H; [eauto|].
    destruct (H n) as [s ->]; auto. destruct IH as [syms ->]; auto. simpl. eauto. }
  destruct E as [syms E]. rewrite E. simpl. eexists; split; [reflexivity|split; [apply atom_index_loop_sorted|]].
  intros i. rewrite atom_index_loop_spec. apply mapM_Ok in E.
  assert (N: forall j s, nth_error syms j = Some s <-> exists n, nth_error (rs_numbers r) j = Some n /\ atom_symbol n = Ok s).
  { clear - E. induction E as [|n s ns ss Hs E IH]; intros [|j] s'; simpl.
    - split; [discriminate|intros (? & ? & _); discriminate].
    - split; [discriminate|intros (? & ? & _); discriminate].
    - split; [intros [= <-]; eauto|]. intros (n' & [= <-] & Hn'). congruence.
    - apply IH. }
  split.
  - intros (j & s & -> & Hj & Hs). simpl. apply N in Hj as (n & Hn & Hns). eauto.
  - intros (n & s & Hn & Hns & Hs). exists i, s. split; auto. split; auto. apply N. eauto.
Qed.
Lemma f_C13_unknown r wanted : (exists n, In n (rs_numbers r) /\ atom_symbol n = Err KeyError) ->
  get_atom_indexes r wanted = Err KeyError.
Proof.
  intros (n & Hn & Hs). unfold get_atom_indexes.
  assert (E: mapM atom_symbol (rs_numbers r) = Err KeyError).
  { revert Hn. generalize (rs_numbers r). induction l as [|m l IH]; simpl; [intros []|].
    intros [->|Hn]; [rewrite Hs; auto|]. destruct (atom_symbol m) eqn:E.
    - simpl. rewrite IH; auto.
    - simpl. unfold atom_symbol in E. destruct (atom_symbol_opt m); congruence. }
  rewrite E. auto.
Qed.

(** C15 *)
Lemma f_C15 pos R t pi : Forall (vall (fun x => 0 <= x <= 1)) pos ->
  row_symmetry pos R t pi -> separated (/ 100000) pos ->
  exists P, permutation_matrix_of pos (R, t) = Ok P /\ length P = length pos /\
    forall b, (b < length pos)%nat -> exists row, nth_error P b = Some row /\ length row = length pos /\
      forall a, (a < length pos)%nat -> nth_error row a = Some (Nat.eqb a (pi b)).
Proof.
  intros Hp Hs Hsep. apply positions_ok_spec in Hp. eexists; split; [apply permutation_matrix_correct; eauto|].
  unfold perm_matrix. rewrite map_length, seq_length. split; auto.
  intros b Hb. eexists. split.
  - rewrite nth_error_map, (nth_error_nth_lt _ _ 0%nat) by (rewrite seq_length; auto). rewrite seq_nth by auto. reflexivity.
  - rewrite map_length, seq_length. split; auto. intros a Ha.
    rewrite nth_error_map, (nth_error_nth_lt _ _ 0%nat) by (rewrite seq_length; auto). rewrite seq_nth by auto. reflexivity.
Qed.

Lemma f_C15_refuted : exists L pos R t pi P,
  mdet L <> 0 /\ Forall (vall (fun x => 0 <= x <= 1)) pos /\ separated (/ 100000) pos /\
  column_isometry L R /\ column_symmetry pos R t pi /\
  permutation_matrix_of pos (R, t) = Ok P /\ exists row, In row P /\ forall b, In b row -> b = false.
Proof.
  destruct hex_row_bad as (P & HP & Hrow). exists hexL, hexpos, hexR, v0, hexpi, P.
  split; [apply hex_det|split; [|split; [apply hex_separated|split; [apply hex_isometry|split; [apply hex_column_symmetry|auto]]]]].
  unfold hexpos. repeat (constructor; [unfold vall; simpl; lra|]). constructor.
Qed.

Lemma f_C16 numbers L pos ops equiv r l w gs :
  make_reference numbers L pos (Some (ops, equiv)) = Ok r ->
  (0 < List.length pos)%nat -> ops <> [] ->
  half_images l w -> rows_norm w <> 0 ->
  get_equivalent_displacements r (Fin l) = Ok gs ->
  exists Gs, gs = map to_group Gs /\
    Forall (fun G => G <> [] /\
       (forall e, In e G -> In (snd e) ops /\ image_under pos (rows_scale (/ (rows_norm w * 10)) w) (snd e) (fst e)) /\
       (forall e0 rest, G = e0 :: rest -> Forall (fun e => collinear_spec (rowsR (fst e)) (rowsR (fst e0))) rest) /\
       ForallOrdPairs (fun e1 e2 => ~ near_rows (fst e2) (fst e1)) G) Gs /\
    ForallOrdPairs (fun a b => orthogonal_spec (rowsR b) (rowsR a)) (leaders Gs) /\
    (forall op, In op ops -> exists x, image_under pos (rows_scale (/ (rows_norm w * 10)) w) op x /\
       ((exists G e, In G Gs /\ In e G /\ near_rows x (fst e)) \/
        (exists k, (exists o, In o (firstn k (leaders Gs)) /\ ~ orthogonal_spec (rowsR x) (rowsR o)) /\
                   (forall o, In o (firstn k (leaders Gs)) -> ~ collinear_spec (rowsR x) (rowsR o))))).
Proof.
  intros Hr Hn Hops Hw Hnz Hgs. apply apply_pbc_displacement_spec in Hw. subst w.
  eapply equivalent_displacements_full; eauto.
Qed.

Lemma f_C17 numbers L pos ops equiv r l w gs :
  make_reference numbers L pos (Some (ops, equiv)) = Ok r ->
  Forall (vall (fun x => 0 <= x <= 1)) pos -> separated (/ 100000) pos -> (0 < List.length pos)%nat ->
  Forall (fun op => short_columns (fst op) /\ exists pi, row_symmetry pos (fst op) (snd op) pi) ops ->
  List.length l = List.length pos -> half_images l w -> rows_norm w <> 0 ->
  get_equivalent_displacements r (Fin l) = Ok gs ->
  Forall (fun g => Forall2 (fun disp op => exists pi, In op ops /\ row_symmetry pos (fst op) (snd op) pi /\
      disp = Fin (map (fun b => vmul (vscale (/ (rows_norm w * 10)) (nth (pi b) w v0)) (fst op)) (seq 0 (List.length pos))))
    (g_disp g) (g_trans g)) gs.
Proof.
  intros Hr Hp Hsep Hn Hops Hl Hw Hnz Hgs. apply apply_pbc_displacement_spec in Hw. subst w.
  apply positions_ok_spec in Hp.
  pose proof (equivalent_displacements_images _ _ _ _ _ _ _ _ Hr Hp Hsep Hn Hops Hl Hnz Hgs) as H.
  eapply Forall_impl; [|exact H]. intros g Hg. clear - Hg Hl. induction Hg as [|disp op ds ts (pi & H1 & H2 & ->) Hg IH]; constructor; auto.
  exists pi. split; [auto|split; [auto|]]. f_equal. apply map_ext. intros b. f_equal. unfold scaled_dir, rows_scale.
  replace v0 with (vscale (/ (rows_norm (apply_pbc_displacement l) * 10)) v0) at 1 by vring.
  rewrite map_nth. auto.
Qed.

Lemma f_C16_total numbers L pos ops equiv r d :
  make_reference numbers L pos (Some (ops, equiv)) = Ok r ->
  (0 < List.length pos)%nat -> ops <> [] -> arr_len d = List.length pos ->
  exists gs, get_equivalent_displacements r d = Ok gs.
Proof.
  intros Hr Hn Hops Hd. pose proof (make_reference_wf _ _ _ _ _ _ Hn Hops Hr) as Hwf.
  apply equivalent_displacements_total; auto. rewrite Hd.
  unfold make_reference in Hr. simpl in Hr. destruct (verify_ndarray_shape _ _); simpl in Hr; [|discriminate].
  destruct (compute_permutation_matrices ops pos); simpl in Hr; [|discriminate]. injection Hr as <-. auto.
Qed.
