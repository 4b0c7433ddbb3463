(** Atoms displaced by the library, fed back into an ARTModel. *)
From Coq Require Import ZArith Reals Bool Arith List Lia Lra.
From Verif Require Import Base LinAlg M_Validate M_StructUtils M_Symmetry M_Reference M_Interp M_Art M_Displace
  S_Lattice S_Vec S_Interp S_Art S_Displace P_StructUtils P_Reference P_Reference2 P_Symmetry P_StructFinal
  P_Interp P_Interp2 P_Interp4 P_Interp5 P_Interp6 P_InterpFinal P_Art P_Art2 P_Displace P_Images P_Workflow.
Import ListNotations.
Local Open Scope R_scope.

Definition at_atom (k n : nat) (v : V3) : list V3 := set_nth k v (repeat v0 n).
Lemma at_len k n v : List.length (at_atom k n v) = n.
Proof. unfold at_atom. rewrite set_nth_length. apply repeat_length. Qed.
Lemma at_S k n v : at_atom (S k) (S n) v = v0 :: at_atom k n v. Proof. reflexivity. Qed.
Lemma at_O n v : at_atom 0 (S n) v = v :: repeat v0 n. Proof. reflexivity. Qed.
Lemma zeros_map n g : g v0 = v0 -> map g (repeat v0 n) = repeat v0 n.
Proof. intros H. induction n; cbn; [reflexivity|]. rewrite H, IHn. reflexivity. Qed.
Lemma at_map k n v g : g v0 = v0 -> map g (at_atom k n v) = at_atom k n (g v).
Proof.
  intros H. revert k. induction n as [|n IH]; intros [|k]; try reflexivity.
  - rewrite !at_O. cbn [map]. rewrite zeros_map by exact H. reflexivity.
  - rewrite !at_S. cbn [map]. rewrite H, IH. reflexivity.
Qed.
Lemma at_scale c k n v : rows_scale c (at_atom k n v) = at_atom k n (vscale c v).
Proof. unfold rows_scale. apply at_map. apply V3_eq; vunf; ring. Qed.
Lemma at_mul m k n v : rows_mul (at_atom k n v) m = at_atom k n (vmul v m).
Proof. unfold rows_mul. apply at_map. apply V3_eq; vunf; ring. Qed.
Lemma at_norm k n v : (k < n)%nat -> rows_norm (at_atom k n v) = vnorm v.
Proof. intros H. unfold rows_norm, at_atom. rewrite rows_norm2_single by exact H. reflexivity. Qed.
Lemma at_half k n v : half_cell [v] -> half_cell (at_atom k n v).
Proof.
  intros H. inversion H as [|? ? H1 _]; subst. assert (Z : half_cell (repeat v0 n)) by (apply Forall_forall; intros w Hw; apply repeat_spec in Hw; subst; unfold vall, v0; cbn; repeat split; lra).
  unfold at_atom. revert k. unfold half_cell in *. induction Z as [|w l Hw Z IH]; intros [|k]; cbn; constructor; auto.
Qed.

(** ** Positive factors do not matter *)
Lemma normalise_scale c l : 0 < c -> normalise (Fin (map (fun y => c * y) l)) = normalise (Fin l).
Proof.
  intros Hc. destruct (Forall_Exists_dec (fun x => x = 0) (fun x => Req_EM_T x 0) l) as [F|E].
  - assert (map (fun y => c * y) l = l) as ->; [|reflexivity]. clear Hc. induction F as [|x l -> F IH]; [reflexivity|]. cbn. rewrite IH, Rmult_0_r. reflexivity.
  - assert (N : nonzero_vec l) by (apply Exists_exists in E as (x & Hx & Nx); exists x; auto).
    assert (N' : nonzero_vec (map (fun y => c * y) l)).
    { destruct N as (x & Hx & Nx). exists (c * x). split; [apply in_map_iff; eauto|]. apply Rmult_integral_contrapositive_currified; lra. }
    rewrite !normalise_fin by assumption. f_equal. rewrite map_map. apply map_ext. intros y.
    assert (M : magnitude (map (fun y => c * y) l) = c * magnitude l).
    { unfold magnitude. replace (inner (map (fun y => c * y) l) (map (fun y => c * y) l)) with (c * c * inner l l).
      - rewrite sqrt_mult_alt, sqrt_square by nra. reflexivity.
      - clear. rewrite <- !ldot_inner. unfold ldot, rsum. induction l as [|x l IH]; cbn; [ring|]. cbn in IH. rewrite <- IH. ring. }
    rewrite M. assert (magnitude l <> 0).
    { intros Z. unfold magnitude in Z. destruct N as (x & Hx & Nx). apply sqrt_eq_0 in Z.
      - clear - Z Hx Nx. rewrite <- ldot_inner in Z. unfold ldot, rsum in Z.
        assert (P : forall k, 0 <= fold_right Rplus 0 (map2 Rmult k k)) by (induction k; cbn; [lra|nra]).
        induction l as [|y l IH]; [destruct Hx|]. cbn in Z. specialize (P l). destruct Hx as [->|Hx]; [nra|]. apply IH; auto. nra.
      - rewrite <- ldot_inner. unfold ldot, rsum. clear. induction l; cbn; [lra|nra]. }
    field. split; lra.
Qed.
Lemma orth_scale c x ws : 0 < c -> is_orthogonal_to_all (flatten (Fin (rows_scale c x))) ws = is_orthogonal_to_all (flatten (Fin x)) ws.
Proof. intros Hc. unfold is_orthogonal_to_all. cbn [flatten]. rewrite flatten_scale, normalise_scale by exact Hc. reflexivity. Qed.
Lemma get_dof_scale s c x amps pols inc : 0 < c -> half_cell (rows_scale c x) -> rows_norm x <> 0 ->
  get_dof s (Fin (rows_scale c x)) amps pols inc = get_dof s (over_norm 10 (Fin x)) amps pols inc.
Proof.
  intros Hc H1 Hn. unfold get_dof.
  assert (G : get_equivalent_displacements (im_ref s) (Fin (rows_scale c x)) = get_equivalent_displacements (im_ref s) (over_norm 10 (Fin x))).
  { rewrite <- (over_norm_scale 10 c x Hc). symmetry. apply parent_groups; [apply pbc_half_cell, H1|]. rewrite rows_norm_scale. apply Rmult_integral_contrapositive_currified; [|exact Hn]. rewrite Rabs_right; lra. }
  rewrite G. destruct (parent_norm x Hn) as [E N]. rewrite E. cbn [get_cart_displacement_arr]. unfold get_cart_displacement.
  rewrite (pbc_half_cell _ H1), (pbc_half_cell (rows_scale (/ (10 * rows_norm x)) x)) by (apply half_cell_small; lra).
  assert (P : 0 < rows_norm x) by (pose proof (sqrt_pos (rows_norm2 x)); unfold rows_norm in *; lra).
  rewrite !rows_mul_scale, !orth_scale; [reflexivity| |exact Hc]. apply Rinv_0_lt_compat. lra.
Qed.

Lemma vmul_vscale' c v m : vmul (vscale c v) m = vscale c (vmul v m).
Proof. destruct v, m as [[] [] []]. vunf. f_equal; ring. Qed.
Lemma vmul_mI' v : vmul v mI = v.
Proof. destruct v. vunf. f_equal; ring. Qed.
Lemma vmul_mmul' v a b : vmul v (mmul a b) = vmul (vmul v a) b.
Proof. destruct v, a as [[] [] []], b as [[] [] []]. vunf. f_equal; ring. Qed.

(** ** Reading back displaced atoms *)
Section Art.
Variables (s : imodel) (atom : Z) (k : nat) (dir : V3) (a0 : R) (amps : list R) (pols : list M3) (qs : list (list V3)).
Let r := im_ref s.
Let L := rs_lattice r.
Let n := List.length (rs_positions r).
Hypothesis Hdet : mdet L <> 0.
Hypothesis Hk : py_index n atom = Some k.
Hypothesis Hkn : (k < n)%nat.
Hypothesis Hdir : dir <> v0.
Hypothesis Ha0 : 0 < a0.
Hypothesis Hamps : Forall (fun a => a <> 0) amps.
Hypothesis Hpols : List.length pols = List.length (a0 :: amps).
Hypothesis Hhd : forall x, vmul x L = dir -> half_cell [x].
Hypothesis Hh : forall a x, In a (a0 :: amps) -> vmul x L = vscale (a / vnorm dir) dir -> half_cell [x].
Hypothesis Hq : get_ast_displaced_positions r atom dir (Some (a0 :: amps)) = Ok (map Fin qs).
Let pols' := if im_dummy s then map (fun _ => m0) pols else pols.

Lemma dir_norm : 0 < vnorm dir.
Proof.
  assert (vnorm2 dir <> 0) by (intros Z; apply Hdir, vnorm2_0, Z). unfold vnorm. apply sqrt_lt_R0.
  assert (0 <= vnorm2 dir) by (destruct dir; vunf; nra). lra.
Qed.
Let u := vscale (/ vnorm dir) dir.
Lemma u_norm : vnorm u = 1.
Proof.
  change (sqrt (vnorm2 (vscale (/ vnorm dir) dir)) = 1). rewrite vnorm2_unit by exact Hdir. apply sqrt_1.
Qed.
Let d := at_atom k n u.
Lemma d_norm : rows_norm d = 1.
Proof. unfold d. rewrite at_norm by exact Hkn. apply u_norm. Qed.
Lemma d_dir : direction_of d = d.
Proof.
  unfold direction_of. rewrite magnitude_rows, d_norm. rewrite Rinv_1. unfold rows_scale. rewrite <- (map_id d) at 2. apply map_ext. intros v. destruct v; vunf; f_equal; ring.
Qed.
Lemma positions_eq : get_displaced_positions r (Rows (Fin d)) (Some (a0 :: amps)) = Ok (map Fin qs).
Proof.
  pose proof dir_norm as P. rewrite <- Hq. unfold get_ast_displaced_positions. fold n. rewrite Hk. destruct (Reqb_spec (vnorm dir) 0); [lra|]. reflexivity.
Qed.
Lemma read_back_art li : minv L = Ok li -> let x := vmul u li in
  half_cell [vscale a0 x] /\ read_dof s (map Ok (combine qs pols)) = Ok (at_atom k n (vscale a0 x), a0 :: amps, pols') /\
  vmul x L = u.
Proof.
  intros Hi x.
  assert (Hx : vmul x L = u).
  { unfold x. pose proof (minv_Ok _ _ Hi) as (_ & Hi' & _). rewrite <- vmul_mmul', Hi'. apply vmul_mI'. }
  assert (HH : forall a, In a (a0 :: amps) -> half_cell [vscale a x]).
  { intros a Ha. apply (Hh a); [exact Ha|]. rewrite vmul_vscale', Hx. unfold u. unfold Rdiv.
    unfold vscale; cbn [vx vy vz]. f_equal; ring. }
  split; [apply HH; now left|]. split; [|exact Hx].
  assert (Hn : exists v, In v d /\ v <> v0).
  { exists u. split.
    - unfold d, at_atom. apply (nth_error_In _ k). rewrite nth_error_set_nth by now rewrite repeat_length. now rewrite Nat.eqb_refl.
    - intros E. pose proof u_norm as U. rewrite E in U. unfold vnorm in U. replace (vnorm2 v0) with 0 in U by (vunf; ring). rewrite sqrt_0 in U. lra. }
  destruct (f_C55_positions r d (a0 :: amps) Hdet (at_len _ _ _) Hn) as (qs' & Hq' & HF).
  assert (qs' = qs).
  { rewrite positions_eq in Hq'. assert (E : map Fin qs = map Fin qs') by congruence. clear - E. revert qs' E.
    induction qs as [|q l IH]; intros [|q' l'] E; try discriminate; auto. cbn in E. injection E as <- E. f_equal. auto. }
  subst qs'. unfold read_dof. fold r.
  assert (HA : Forall (fun a => half_cell (rows_scale a (at_atom k n x))) (a0 :: amps)).
  { apply Forall_forall. intros a Ha. rewrite at_scale. apply at_half, HH, Ha. }
  assert (HX : rows_mul (at_atom k n x) L = d) by (rewrite at_mul, Hx; reflexivity).
  rewrite (read_back s d (a0 :: amps) pols qs (at_atom k n x) Hdet); [|rewrite d_dir; exact HX|apply at_len|exact HA|exact Hpols|exact HF].
  assert (Hlen : List.length (map (fun a => rows_scale a (at_atom k n x)) (a0 :: amps)) = List.length (if im_dummy s then map (fun _ => m0) pols else pols)).
  { rewrite map_length. destruct (im_dummy s); rewrite ?map_length; auto. }
  cbn [rbind]. rewrite map_fst_combine, map_snd_combine by exact Hlen.
  rewrite amplitudes_of_multiples; auto; [|lra|fold r L; rewrite HX; apply d_norm].
  cbn [rbind]. rewrite at_scale. fold pols'. do 2 f_equal. f_equal. rewrite <- (map_id (a0 :: amps)) at 2. apply map_ext. intros a.
  unfold sign_of. destruct (Rle_dec 0 a0); [ring|lra].
Qed.

Variable li : M3.
Hypothesis Hli : minv L = Ok li.
Let x := vmul u li.
Let found := get_dof s (over_norm 10 (Fin (at_atom k n x))) (a0 :: amps) pols' false.
Lemma x_frac : vmul x L = u. Proof. apply (read_back_art li Hli). Qed.
Lemma x_nz : 0 < vnorm2 x.
Proof.
  assert (P : 0 <= vnorm2 x) by (destruct x; vunf; nra). destruct (Req_EM_T (vnorm2 x) 0) as [Z|Z]; [|lra]. exfalso.
  apply vnorm2_0 in Z. pose proof x_frac as F. rewrite Z in F. pose proof u_norm as U. rewrite <- F in U. unfold vnorm in U.
  replace (vnorm2 (vmul v0 L)) with 0 in U by (vunf; ring). rewrite sqrt_0 in U. lra.
Qed.
Lemma files_eq : add_art_from_files (map Ok (combine qs pols)) s =
  bind (lift found) (fun dofs => match dofs with
    | [] => raise IndexError
    | d :: _ => if negb (Nat.eqb (List.length (snd d)) 2) then raise InvalidDOFException else construct_and_add dofs 1
    end) s.
Proof.
  destruct (read_back_art li Hli) as (Hhc & Hrd & _). fold x in Hhc, Hrd. unfold add_art_from_files. rewrite bind_get, Hrd, bind_lift.
  unfold add_one_atom. rewrite bind_get.
  assert (N : 0 < vnorm2 (vscale a0 x)).
  { pose proof x_nz. replace (vnorm2 (vscale a0 x)) with (a0 * a0 * vnorm2 x) by (clear; destruct x; vunf; ring). apply Rmult_lt_0_compat; [apply Rmult_lt_0_compat; exact Ha0|assumption]. }
  assert (NZ : forall j, nth j (at_atom k n (vscale a0 x)) v0 = if Nat.eqb j k then vscale a0 x else v0).
  { intros j. unfold at_atom. rewrite nth_set_nth, repeat_length, nth_repeat_v0. destruct (Nat.eqb_spec j k); [|reflexivity]. subst. destruct (Nat.ltb_spec k n); [reflexivity|lia]. }
  assert (Z0 : vnorm2 v0 = 0) by (vunf; ring).
  assert (M : most_displaced (at_atom k n (vscale a0 x)) k).
  { split; [rewrite at_len; exact Hkn|]. split; intros j; rewrite !NZ, Nat.eqb_refl; destruct (Nat.eqb_spec j k); intros; try lia; lra. }
  rewrite (argmax_displaced _ _ M), bind_lift.
  assert (C : forallb row_small (set_nth k v0 (at_atom k n (vscale a0 x))) = true).
  { apply one_atom_check; [rewrite at_len; exact Hkn|]. intros j Hj E. rewrite NZ in E. destruct (Nat.eqb_spec j k); [tauto|].
    unfold exceeds, v0 in E. cbn in E. rewrite Rabs_R0 in E. lra. }
  rewrite C. cbn [negb]. rewrite <- at_scale, get_dof_scale; [reflexivity|exact Ha0|rewrite at_scale; apply at_half, Hhc|].
  rewrite at_norm by exact Hkn. unfold vnorm. apply Rgt_not_eq, sqrt_lt_R0, x_nz.
Qed.
Lemma art_eq : (List.length amps <= 1)%nat ->
  add_art atom [vx dir; vy dir; vz dir] (vec_arr (a0 :: amps)) (mats_arr pols) s = bind (lift found) (fun dofs => construct_and_add dofs 1) s.
Proof.
  intros Hle. unfold add_art. rewrite bind_get. fold r n. unfold get_frac_direction. fold L. rewrite Hli. cbn [rbind].
  pose proof dir_norm as P. pose proof x_nz as X.
  assert (D : mkV (vx dir) (vy dir) (vz dir) = dir) by (destruct dir; reflexivity). rewrite D.
  assert (F : vmul dir li = vscale (vnorm dir) x).
  { unfold x, u. rewrite vmul_vscale'. destruct (vmul dir li) as [p q t]. unfold vscale; cbn. f_equal; field; lra. }
  assert (Hf : half_cell [vmul dir li]).
  { apply Hhd. rewrite F, vmul_vscale', x_frac. unfold u. destruct dir as [p q t]; unfold vscale; cbn. f_equal; field; cbn in P; lra. }
  pose proof (pbc_half_cell _ Hf) as Q. cbn in Q. injection Q as Q1 Q2 Q3.
  assert (W : vmap wrapd (vmul dir li) = vmul dir li) by (apply pbc_half_cell in Hf; unfold apply_pbc_displacement in Hf; cbn [map] in Hf; congruence).
  rewrite W, bind_lift. clear Q1 Q2 Q3.
  assert (S1 : (match ra_shape (vec_arr (a0 :: amps)) with [1%nat] | [2%nat] => Ok tt | _ => Err ValueError end) = Ok tt).
  { destruct amps as [|a [|b l]]; cbn in *; [reflexivity|reflexivity|lia]. }
  rewrite S1, bind_lift. cbn [ra_data vec_arr].
  set (pl := if im_dummy s then mats_arr (repeat m0 (List.length (a0 :: amps))) else mats_arr pols).
  assert (PL : pl = mats_arr pols').
  { unfold pl, pols'. destruct (im_dummy s); [|reflexivity]. f_equal. rewrite <- Hpols. clear. induction pols; cbn; congruence. }
  assert (LP : List.length pols' = List.length (a0 :: amps)) by (unfold pols'; destruct (im_dummy s); rewrite ?map_length; exact Hpols).
  assert (S2 : verify_ndarray_shape (ra_shape pl) [Some (List.length (a0 :: amps)); Some 3%nat; Some 3%nat] = Ok tt).
  { rewrite PL. apply verify_ndarray_shape_spec. cbn [ra_shape mats_arr]. rewrite LP. repeat constructor. }
  rewrite S2, bind_lift, Hk. unfold art_displacement. fold n.
  set (nf := sqrt (vnorm2 (vscale 10 (vmul dir li)))).
  assert (V : vnorm2 (vscale 10 (vmul dir li)) = 100 * (vnorm dir * vnorm dir * vnorm2 x)) by (rewrite F; clear; destruct x; vunf; ring).
  assert (N2 : 0 < vnorm2 (vscale 10 (vmul dir li))) by (rewrite V; apply Rmult_lt_0_compat; [lra|]; apply Rmult_lt_0_compat; [apply Rmult_lt_0_compat; exact P|exact X]).
  assert (NF : 0 < nf) by (apply sqrt_lt_R0, N2).
  destruct (Reqb_spec nf 0); [lra|].
  change (set_nth k (vscale (/ nf) (vmul dir li)) (repeat v0 n)) with (at_atom k n (vscale (/ nf) (vmul dir li))).
  assert (F' : vscale (/ nf) (vmul dir li) = vscale (vnorm dir / nf) x) by (rewrite F; destruct x; unfold vscale; cbn; f_equal; field; lra).
  assert (HS : half_cell (at_atom k n (vscale (/ nf) (vmul dir li)))).
  { apply half_cell_small. unfold at_atom. rewrite rows_norm2_single by exact Hkn.
    assert (E : vnorm2 (vscale (/ nf) (vmul dir li)) = / 100); [|lra].
    replace (vnorm2 (vscale (/ nf) (vmul dir li))) with (/ nf * / nf * / 100 * vnorm2 (vscale 10 (vmul dir li))) by (destruct (vmul dir li); vunf; field; lra).
    replace (vnorm2 (vscale 10 (vmul dir li))) with (nf * nf) by (apply sqrt_def; lra). field. lra. }
  rewrite F' in HS |- *. cbn [get_cart_displacement_arr]. unfold get_cart_displacement. rewrite (pbc_half_cell _ HS).
  unfold add_dof. rewrite bind_get. cbn [get_frac_displacement_arr]. unfold get_frac_displacement. fold r L. rewrite Hli. cbn [rbind rmap].
  rewrite (cart_frac _ _ _ Hli), (pbc_half_cell _ HS), bind_lift, <- at_scale, over_norm_scale by (apply Rdiv_lt_0_compat; lra).
  assert (S3 : verify_ndarray_shape (ra_shape (vec_arr (a0 :: amps))) [None] = Ok tt) by (apply verify_ndarray_shape_spec; repeat constructor).
  rewrite S3, bind_lift. cbn [ra_data vec_arr].
  assert (PL2 : (if im_dummy s then mats_arr (repeat m0 (List.length (a0 :: amps))) else pl) = mats_arr pols').
  { rewrite <- PL. unfold pl. destruct (im_dummy s); reflexivity. }
  rewrite PL2. rewrite PL in S2. rewrite S2, bind_lift. cbn [ra_data mats_arr]. rewrite mats_of_entries. reflexivity.
Qed.
End Art.

Lemma f_C77_art s atom dir a0 amps pols qs :
  let r := im_ref s in
  valid_reference r -> mdet (rs_lattice r) <> 0 -> dir <> v0 -> 0 < a0 -> Forall (fun a => a <> 0) amps -> (List.length amps <= 1)%nat ->
  List.length pols = List.length (a0 :: amps) ->
  (forall x, vmul x (rs_lattice r) = dir -> half_cell [x]) ->
  (forall a x, In a (a0 :: amps) -> vmul x (rs_lattice r) = vscale (a / vnorm dir) dir -> half_cell [x]) ->
  get_ast_displaced_positions r atom dir (Some (a0 :: amps)) = Ok (map Fin qs) ->
  let files := add_art_from_files (map Ok (combine qs pols)) s in
  let direct := add_art atom [vx dir; vy dir; vz dir] (vec_arr (a0 :: amps)) (mats_arr pols) s in
  (snd files = Ok tt -> files = direct) /\
  (forall s' w, direct = ((s', w), Ok tt) ->
     files = direct \/
     (files = ((s, []), Err InvalidDOFException) /\
      (im_dummy s = false -> exists sp sps, im_interp s' = im_interp s ++ sp :: sps /\ (2 < List.length (sp_pts sp))%nat))) /\
  (forall s' w e, direct = ((s', w), Err e) -> s' = s /\ exists w' e', files = ((s, w'), Err e')).
Proof.
  intros r Hv Hdet Hdir Ha0 Hamps Hle Hpols Hhd Hh Hq.
  destruct (py_index (List.length (rs_positions r)) atom) as [k|] eqn:Hk.
  2: { unfold get_ast_displaced_positions in Hq. rewrite Hk in Hq. discriminate. }
  assert (Hkn : (k < List.length (rs_positions r))%nat) by (apply py_index_Some in Hk; tauto).
  destruct (minv_exists _ Hdet) as [li Hi].
  cbv zeta. rewrite (files_eq s atom k dir a0 amps pols qs) with (li := li); auto.
  rewrite (art_eq s atom k dir a0 amps pols qs) with (li := li); auto. fold r.
  set (found := get_dof s _ _ _ _). destruct found as [dofs|e] eqn:Ef.
  2: { rewrite !bind_lift_err. split; [discriminate|]. split; [intros; discriminate|]. intros s' w e' [= <- <- <-]. eauto. }
  rewrite !bind_lift. destruct dofs as [|d dofs].
  { exfalso. subst found. unfold get_dof in Ef. fold r in Ef. destruct (is_orthogonal_to_all _ _) as [z|]; [|discriminate Ef]. cbn [rbind] in Ef. destruct (negb _); [discriminate Ef|].
    destruct (get_equivalent_displacements _ _) as [gs|] eqn:Eg; [|discriminate Ef]. cbn [rbind] in Ef.
    apply (groups_nonempty r _ gs (valid_ops r Hv) (valid_reference_wf r Hv)) in Eg. destruct gs as [|g gs]; [congruence|]. cbn [mapM] in Ef.
    destruct (dof_of_group _ _ _ _ _ g); [|discriminate Ef]. cbn [rbind] in Ef. destruct (mapM _ gs); discriminate Ef. }
  destruct (construct_and_add (d :: dofs) 1 s) as [[s1 w1] r1] eqn:Ec. pose proof (construct_and_add_cases _ _ _ _ _ _ Ec) as C.
  destruct (Nat.eqb_spec (List.length (snd d)) 2) as [E2|E2]; cbn [negb].
  - rewrite Ec. split; [reflexivity|]. split; [intros; left; reflexivity|]. intros s' w e [= <- <- ->]. destruct C as [(e' & _ & ->)|(C & _)]; [|discriminate C]. eauto.
  - split; [discriminate|]. split.
    + intros s' w [= -> -> ->]. right. split; [reflexivity|]. intros Hd. destruct C as [(e' & C & _)|(_ & _ & bs & pss & C1 & C2 & C3 & C4 & ->)]; [discriminate C|].
      inversion C2 as [|? ps ? pss' P1 P2]; subst. inversion C4 as [|? ? (_ & C5) _]; subst. exists (mkSpline 1 (sort_pts ps)), (map (fun ps => mkSpline 1 (sort_pts ps)) pss').
      split; [cbn; rewrite Hd; reflexivity|]. cbn [sp_pts]. rewrite sort_pts_length. rewrite P1, map_length in E2. change (Z.to_nat 1) with 1%nat in C5. lia.
    + intros s' w e [= -> -> ->]. destruct C as [(e' & _ & ->)|(C & _)]; [|discriminate C]. split; [reflexivity|]. do 2 eexists. reflexivity.
Qed.
