(** add_art on a structure without symmetry, and concrete ART models. *)
From Coq Require Import String ZArith Reals Lra Lia Psatz Bool Arith List.
From Verif Require Import Base LinAlg Constants M_Validate M_StructUtils M_Symmetry M_Reference M_Interp M_Art
  S_Lattice S_Vec S_Symmetry S_Equivalent S_Interp S_Art P_StructUtils P_Reference P_Reference2 P_Symmetry P_Equivalent P_Equiv2 P_Equiv3 P_EquivTotal
  P_StructFinal P_Examples1 P_Interp P_Interp2 P_InterpEval P_Interp3 P_Interp4 P_Interp5 P_Interp6 P_InterpFinal P_Examples2 P_Art P_Art2.
Import ListNotations.
Local Open Scope R_scope.

Definition single (k : nat) (v : V3) (n : nat) : list V3 := set_nth k v (repeat v0 n).
Lemma single_length k v n : List.length (single k v n) = n.
Proof. unfold single. rewrite set_nth_length, repeat_length. auto. Qed.
Lemma map_set_nth {A B} (f : A -> B) k x l : map f (set_nth k x l) = set_nth k (f x) (map f l).
Proof. revert k; induction l; destruct k; simpl; auto. f_equal. auto. Qed.
Lemma map_repeat' {A B} (f : A -> B) x n : map f (repeat x n) = repeat (f x) n.
Proof. induction n; simpl; congruence. Qed.
Lemma single_scale c k v n : rows_scale c (single k v n) = single k (vscale c v) n.
Proof. unfold rows_scale, single. rewrite map_set_nth, map_repeat', vscale_v0; auto. Qed.
Lemma single_mul L k v n : rows_mul (single k v n) L = single k (vmul v L) n.
Proof.
  unfold rows_mul, single. rewrite map_set_nth, map_repeat'. do 2 f_equal. destruct L as [[] [] []]. vunf. f_equal; ring.
Qed.
Lemma single_half k v n : half_cell [v] -> half_cell (single k v n).
Proof.
  intros H. inversion H; subst. unfold single, half_cell.
  assert (R: Forall (vall (fun x => - / 2 < x <= / 2)) (repeat v0 n)).
  { apply Forall_forall. intros x Hx. apply repeat_spec in Hx. subst. unfold vall, v0. simpl. lra. }
  clear H. revert k. induction R; destruct k; simpl; auto.
Qed.
Lemma single_nz k v n : (k < n)%nat -> rows_norm2 (single k v n) = vnorm2 v.
Proof.
  revert k; induction n; intros k Hk; [lia|]. unfold single in *. destruct k; simpl.
  - unfold rows_norm2, rows_dot in *. simpl. assert (Z: fold_right Rplus 0 (Base.map2 vdot (repeat v0 n) (repeat v0 n)) = 0).
    { clear. induction n; simpl; auto. rewrite IHn. vunf. lra. }
    rewrite Z. unfold vnorm2. lra.
  - unfold rows_norm2, rows_dot in *. simpl. rewrite IHn by lia. vunf. lra.
Qed.

Lemma direction_of_scale c l : 0 < c -> direction_of (rows_scale c l) = direction_of l.
Proof.
  intros Hc. unfold direction_of. rewrite rows_scale_scale, !magnitude_rows, rows_norm_scale, Rabs_right by lra.
  destruct (Req_dec (rows_norm l) 0) as [E|E].
  - apply rows_norm_eq_0, rows_norm2_0 in E. unfold rows_scale. apply map_ext_in. intros v Hv. rewrite Forall_forall in E.
    rewrite (E v Hv), !vscale_v0. auto.
  - f_equal. field. split; lra.
Qed.
Lemma rows_dot_single b k v n : List.length b = n -> rows_dot b (single k v n) = vdot (nth k b v0) (if Nat.ltb k n then v else v0).
Proof.
  intros <-. revert k. induction b as [|w b IH]; intros k; simpl.
  - unfold rows_dot, single. destruct k; simpl; vunf; lra.
  - unfold single in *. destruct k; simpl.
    + unfold rows_dot in *. simpl. assert (Z: fold_right Rplus 0 (Base.map2 vdot b (repeat v0 (List.length b))) = 0).
      { clear. induction b; simpl; auto. rewrite IHb. vunf. lra. }
      rewrite Z. lra.
    + unfold rows_dot in *. simpl. rewrite IH.
      change (S k <? S (List.length b))%nat with (k <? List.length b)%nat.
      assert (vdot w v0 = 0) by (vunf; lra). lra.
Qed.

Lemma add_art_lone s k f a1 a2 q1 q2 :
  identity_first (im_ref s) [] -> inv s -> mdet (rs_lattice (im_ref s)) <> 0 ->
  (k < List.length (rs_positions (im_ref s)))%nat -> half_cell [f] -> f <> v0 ->
  let d := vmul f (rs_lattice (im_ref s)) in
  (forall b, In b (im_basis s) -> vdot (nth k b v0) d = 0) ->
  spaced [a1; a2] ->
  exists ps w, ps = combine [a1; a2] (if im_dummy s then [msub m0 (im_refpol s); msub m0 (im_refpol s)]
                                      else [msub q1 (im_refpol s); msub q2 (im_refpol s)]) /\
  add_art (Z.of_nat k) [vx d; vy d; vz d] (vec_arr [a1; a2]) (mats_arr [q1; q2]) s =
   ((appended s [direction_of (single k d (List.length (rs_positions (im_ref s))))] [mkSpline 1 (sort_pts ps)], w), Ok tt).
Proof.
  intros Hi Hinv HL Hk Hh Hf d Ho Hs. set (N := List.length (rs_positions (im_ref s))) in *.
  destruct (minv_exists _ HL) as (li & Li).
  assert (Nf: 0 < vnorm2 f).
  { destruct f as [x y z]. destruct (Req_dec x 0), (Req_dec y 0), (Req_dec z 0); subst; try (vunf; nra). exfalso; apply Hf; auto. }
  set (nf := sqrt (vnorm2 (vscale 10 f))).
  assert (Pn: 0 < nf).
  { apply sqrt_lt_R0. replace (vnorm2 (vscale 10 f)) with (100 * vnorm2 f) by (destruct f; vunf; ring). lra. }
  assert (Sn: nf * nf = 100 * vnorm2 f).
  { unfold nf. rewrite sqrt_sqrt by apply vnorm2_nonneg. destruct f; vunf; ring. }
  set (g := vscale (/ nf) f).
  assert (Ng: vnorm2 g = / 100).
  { unfold g. replace (vnorm2 (vscale (/ nf) f)) with (vnorm2 f / (nf * nf)) by (destruct f; vunf; field; lra).
    rewrite Sn. field. lra. }
  assert (Hg: half_cell (single k g N)).
  { apply half_cell_small. rewrite single_nz by auto. lra. }
  set (ps := combine [a1; a2] (if im_dummy s then [msub m0 (im_refpol s); msub m0 (im_refpol s)]
                                      else [msub q1 (im_refpol s); msub q2 (im_refpol s)])).
  exists ps, (span_warnings ps). split; auto.
  assert (Hd: vmul g (rs_lattice (im_ref s)) = vscale (/ nf) d).
  { unfold g, d. destruct (rs_lattice (im_ref s)) as [[] [] []], f. vunf. f_equal; ring. }
  assert (Pi: 0 < / nf) by (apply Rinv_0_lt_compat; auto).
  unfold add_art, bind, get, lift, get_frac_direction. rewrite Li. cbn [rbind].
  replace (mkV (vx d) (vy d) (vz d)) with d by (destruct d; auto).
  assert (F: vmap wrapd (vmul d li) = f).
  { pose proof (cart_frac _ _ [f] Li) as G. simpl in G. injection G as G. unfold d. rewrite G. apply pbc_half_cell in Hh. simpl in Hh. congruence. }
  rewrite F. cbn [ra_shape vec_arr List.length].
  assert (V: forall m : list M3, List.length m = 2%nat -> verify_ndarray_shape (ra_shape (mats_arr m)) [Some 2%nat; Some 3%nat; Some 3%nat] = Ok tt).
  { intros m E. apply verify_ndarray_shape_spec. simpl. rewrite E. repeat constructor. }
  cbn [ra_data vec_arr List.length].
  replace (verify_ndarray_shape (ra_shape (if im_dummy s then mats_arr (repeat m0 2) else mats_arr [q1; q2])) [Some 2%nat; Some 3%nat; Some 3%nat]) with (@Ok unit tt)
    by (symmetry; destruct (im_dummy s); apply V; auto).
  fold N. rewrite (proj2 (py_index_Some N (Z.of_nat k) k)) by (split; [lia|auto]).
  unfold art_displacement. fold N. fold nf. destruct (Reqb nf 0) eqn:E0; [apply Reqb_true in E0; lra|]. fold g.
  cbn [get_cart_displacement_arr]. unfold get_cart_displacement. fold (single k g N). rewrite pbc_half_cell by auto.
  set (pp := if im_dummy s then repeat m0 2 else [q1; q2]).
  replace (if im_dummy s then mats_arr (repeat m0 2) else mats_arr [q1; q2]) with (mats_arr pp) by (unfold pp; destruct (im_dummy s); auto).
  pose proof (add_dof_lone_gen s (single k g N) [a1; a2] pp 1 false Hi Hinv HL (single_length k g N) Hg) as A. cbv zeta in A.
  cbn [app] in A.
  match type of A with context [span_warnings ?q] => assert (Eps: q = ps) by (unfold pp, ps; destruct (im_dummy s); auto) end.
  rewrite Eps in A.
  rewrite A.
  - rewrite single_mul, Hd, <- single_scale, direction_of_scale by auto. auto.
  - intros C. apply rows_mul_regular in C; auto. rewrite Forall_forall in C.
    assert (g = v0).
    { apply C. assert (G: nth k (single k g N) v0 = g).
      { unfold single. rewrite nth_set_nth, Nat.eqb_refl, repeat_length. destruct (Nat.ltb_spec k N); [auto|lia]. }
      rewrite <- G at 1. apply nth_In. rewrite single_length. auto. }
    rewrite H in Ng. revert Ng. vunf. lra.
  - intros b Hb. rewrite inner_rows, single_mul, rows_dot_single.
    + destruct (Nat.ltb_spec k N); [|lia]. rewrite Hd. pose proof (Ho b Hb) as Z. revert Z. generalize (nth k b v0). intros [x y z].
      destruct d as [u v t]. vunf. intros Z. replace (x * (/ nf * u) + y * (/ nf * v) + z * (/ nf * t)) with (/ nf * (x * u + y * v + z * t)) by ring.
      rewrite Z. ring.
    + destruct Hinv as (_ & _ & B & _). unfold basis_ok in B. rewrite Forall_forall in B. apply B; auto.
  - unfold pp. destruct (im_dummy s); auto.
  - lia.
  - unfold ps. destruct (im_dummy s); simpl; auto.
  - unfold ps. destruct (im_dummy s); simpl; lia.
Qed.

(** ** A concrete ART model: two DOFs of the first atom, one of the second *)
Definition ex_amps2 : list R := [- / 10; / 10].
Lemma ex_spaced2 : spaced [- / 10; / 10].
Proof.
  unfold spaced, too_close. repeat split; auto; simpl; intros y H;
  repeat (destruct H as [<-|H]); try tauto; unfold Rabs; repeat destruct (Rcase_abs _); lra.
Qed.
Lemma identity_symmetric r : identity_first r [] -> symmetric_reference r.
Proof.
  intros (numbers & L & pos & equiv & H & H1 & H2). exists numbers, L, pos, [(mI, v0)], equiv.
  split; [auto|split; [auto|split; [discriminate|split; [auto|]]]]. constructor; [|constructor]. split.
  - apply ex_short.
  - exists (fun b => b). split; [apply mI_integer|split].
    + split; [auto|split; [auto|]]. intros a Ha; exists a; auto.
    + intros b Hb. cbn [fst snd]. rewrite vmul_mI. replace (vadd (nth b pos v0) v0) with (nth b pos v0) by vring. apply vcongr_refl.
Qed.

Lemma ex_art pol dummy : exists r s1 s2 w1 w2,
  identity_first r [] /\ rs_lattice r = ex_lat /\ rs_positions r = ex_pos /\
  add_art 0 [/5; 0; 0] (vec_arr ex_amps2) (mats_arr (ex_pols pol)) (make_model r pol dummy) = ((s1, w1), Ok tt) /\
  add_art 1 [0; 3/10; 0] (vec_arr ex_amps2) (mats_arr (ex_pols pol)) s1 = ((s2, w2), Ok tt) /\
  reachable_art s2 /\ symmetric_reference (im_ref s2) /\ rs_numbers (im_ref s2) = [8%Z; 14%Z] /\
  rs_equiv (im_ref s2) = [0; 1]%nat /\ im_ref s1 = r /\ im_ref s2 = r /\
  im_basis s2 = [direction_of [mkV (/5) 0 0; v0]; direction_of [v0; mkV 0 (3/10) 0]].
Proof.
  assert (X: exists r, identity_first r [] /\ rs_lattice r = ex_lat /\ rs_positions r = ex_pos /\ rs_numbers r = [8%Z; 14%Z] /\ rs_equiv r = [0; 1]%nat).
  { destruct (f_C07c [8%Z; 14%Z] ex_lat ex_pos [(mI, v0)] [0%nat; 1%nat] ex_pos_ok eq_refl) as (r & H & H1 & H2 & H3 & H4).
    exists r. split; [|].
    - exists [8%Z; 14%Z], ex_lat, ex_pos, [0%nat; 1%nat]. split; [auto|]. split; [simpl; lia|apply ex_separated].
    - split; [auto|split; [auto|]]. revert H. unfold make_reference.
      destruct (verify_list_len _ _); [|discriminate]. cbn [rbind].
      destruct (verify_ndarray_shape _ _); [|discriminate]. cbn [rbind].
      destruct (compute_permutation_matrices _ _); [|discriminate]. cbn [rbind]. intros [= <-]. auto. }
  destruct X as (r & Hi & HL & Hp & Hn & He).
  set (s0 := make_model r pol dummy).
  assert (I0: inv s0) by (apply make_model_inv, valid_reference_wf; eapply identity_first_valid; eauto).
  destruct (add_art_lone s0 0 (mkV (/10) 0 0) (- / 10) (/ 10) (mscale 2 pol) (mscale 3 pol)) as (ps1 & w1 & _ & A1).
  - auto.
  - auto.
  - simpl. rewrite HL. apply ex_det.
  - simpl. rewrite Hp. simpl. lia.
  - repeat constructor; simpl; lra.
  - intros C. injection C. lra.
  - simpl. tauto.
  - apply ex_spaced2.
  - assert (E1: vmul (mkV (/10) 0 0) (rs_lattice (im_ref s0)) = mkV (/5) 0 0).
    { simpl. rewrite HL. unfold ex_lat. vunf. f_equal; lra. }
    rewrite E1 in A1. cbn [vx vy vz im_ref s0 make_model] in A1. rewrite Hp in A1. 
    match type of A1 with _ = ((?s, _), _) => set (s1 := s) in A1 end.
    assert (I1: inv s1).
    { destruct (run_aop_cases (OpArt 0 [/5; 0; 0] (vec_arr ex_amps2) (mats_arr (ex_pols pol))) s0 s1 w1 (Ok tt) A1) as [(e & [=] & _)|(_ & [H|H])].
      - eapply (astep_inv s0 (OpArt 0 [/5; 0; 0] (vec_arr ex_amps2) (mats_arr (ex_pols pol)))) in I0; [|split; reflexivity].
        unfold astep, run_aop in I0. change (Z.of_nat 0) with 0%Z in A1. unfold ex_amps2, ex_pols in I0. rewrite A1 in I0. auto.
      - eapply (astep_inv s0 (OpArt 0 [/5; 0; 0] (vec_arr ex_amps2) (mats_arr (ex_pols pol)))) in I0; [|split; reflexivity].
        unfold astep, run_aop in I0. change (Z.of_nat 0) with 0%Z in A1. unfold ex_amps2, ex_pols in I0. rewrite A1 in I0. auto. }
    destruct (add_art_lone s1 1 (mkV 0 (/10) 0) (- / 10) (/ 10) (mscale 2 pol) (mscale 3 pol)) as (ps2 & w2 & _ & A2).
    + auto.
    + auto.
    + simpl. rewrite HL. apply ex_det.
    + simpl. rewrite Hp. simpl. lia.
    + repeat constructor; simpl; lra.
    + intros C. injection C. lra.
    + simpl. intros b [<-|[]]. unfold direction_of, rows_scale. simpl. rewrite vscale_v0. vunf. lra.
    + apply ex_spaced2.
    + assert (E2: vmul (mkV 0 (/10) 0) (rs_lattice (im_ref s1)) = mkV 0 (3/10) 0).
      { simpl. rewrite HL. unfold ex_lat. vunf. f_equal; lra. }
      rewrite E2 in A2. cbn [vx vy vz im_ref s1 appended s0 make_model] in A2. rewrite Hp in A2.
      match type of A2 with _ = ((?s, _), _) => set (s2 := s) in A2 end.
      exists r, s1, s2, w1, w2. split; [auto|]. split; [auto|]. split; [auto|]. split; [exact A1|]. split; [exact A2|].
      split.
      { exists r, pol, dummy, [OpArt 0 [/5; 0; 0] (vec_arr ex_amps2) (mats_arr (ex_pols pol));
          OpArt 1 [0; 3/10; 0] (vec_arr ex_amps2) (mats_arr (ex_pols pol))].
        split; [eapply identity_first_valid; eauto|]. split; [repeat constructor|].
        unfold arun, astep. cbn [fold_left run_aop]. fold s0. unfold ex_amps2, ex_pols. change (Z.of_nat 0) with 0%Z in A1.
        rewrite A1. cbn [fst]. change (Z.of_nat 1) with 1%Z in A2. rewrite A2. auto. }
      split; [apply identity_symmetric; auto|]. repeat split; auto.
Qed.

(** ** add_art_from_files on the one-atom cubic structure *)
Definition exf_d : list V3 := [mkV (/10) 0 0].
Definition exf_m : list V3 := [mkV (-/10) 0 0].
Definition exf_reads (q1 q2 : M3) : reads := [Ok ([mkV (/10) 0 0], q1); Ok ([mkV (9/10) 0 0], q2)].
Lemma exf_norm : rows_norm exf_d = / 10.
Proof.
  unfold rows_norm. replace (rows_norm2 exf_d) with (/10 * /10) by (unfold exf_d, rows_norm2, rows_dot; vunf; lra).
  apply sqrt_square. lra.
Qed.
Lemma exf_half : half_images (rows_sub [mkV (/10) 0 0] one_pos) exf_d.
Proof.
  apply apply_pbc_displacement_spec. unfold rows_sub, one_pos, exf_d, apply_pbc_displacement. simpl. f_equal. symmetry.
  replace (vsub (mkV (/10) 0 0) v0) with (mkV (/10) 0 0) by (vunf; f_equal; lra).
  apply vmap_wrapd_id. unfold vall. simpl. lra.
Qed.

Lemma ex_art_files pol q1 q2 : exists r s1 w1,
  identity_first r [] /\ rs_positions r = one_pos /\
  add_art_from_files (exf_reads q1 q2) (make_model r pol false) = ((s1, w1), Ok tt).
Proof.
  destruct one_reference as (r & Hi & HL & Hp). set (s0 := make_model r pol false).
  assert (I0: inv s0) by (apply make_model_inv, valid_reference_wf; eapply identity_first_valid; eauto).
  assert (Hh: half_cell exf_d) by (unfold exf_d; repeat constructor; simpl; lra).
  assert (A: exists s1 w1, add_dof (Fin exf_d) (vec_arr [/10; -/10]) (mats_arr [q1; q2]) 1 false s0 = ((s1, w1), Ok tt) /\
     exists dofs, get_dof s0 (Fin exf_d) [/10; -/10] [q1; q2] false = Ok dofs /\ construct_and_add dofs 1 s0 = ((s1, w1), Ok tt) /\
       exists b pts, dofs = [(b, pts)] /\ List.length pts = 2%nat).
  { pose proof (add_dof_lone s0 exf_d [/10; -/10] [q1; q2] 1 false) as A. simpl im_ref in A. rewrite HL, rows_mul_mI in A.
    do 2 eexists. assert (A': add_dof (Fin exf_d) (vec_arr [/10; -/10]) (mats_arr [q1; q2]) 1 false s0 = 
      ((appended s0 [direction_of exf_d] [mkSpline 1 (sort_pts [(/10, msub q1 pol); (-/10, msub q2 pol)])], span_warnings [(/10, msub q1 pol); (-/10, msub q2 pol)]), Ok tt)).
    { apply A; clear A; auto.
      - rewrite mdet_mI. lra.
      - rewrite Hp. auto.
      - rewrite exf_norm. lra.
      - simpl; tauto.
      - lia.
      - simpl. unfold spaced, too_close. repeat split; auto; simpl; intros y H;
        repeat (destruct H as [<-|H]); try tauto; unfold Rabs; repeat destruct (Rcase_abs _); lra. }
    split; [exact A'|]. clear A.
    pose proof A' as C. apply add_dof_cases in C as [(e & [=] & _)|(_ & _ & disp & dofs & bs & pss & E1 & E2 & E3 & E4 & E5 & E6 & E7 & E8 & E9)].
    assert (disp = Fin exf_d) as ->.
    { revert E1. simpl. unfold get_frac_displacement. rewrite HL, minv_mI. cbn [rbind rmap]. rewrite rows_mul_mI, pbc_half_cell by auto. congruence. }
    assert (O: over_norm 10 (Fin exf_d) = Fin exf_d).
    { destruct (parent_norm exf_d) as [-> _]; [rewrite exf_norm; lra|]. rewrite exf_norm. replace (/ (10 * / 10)) with 1 by field. rewrite rows_scale_1. auto. }
    assert (Dp: dof_pols s0 (vec_arr [/10; -/10]) (mats_arr [q1; q2]) = [q1; q2]) by (unfold dof_pols; cbn [im_dummy s0 make_model mats_arr ra_data]; apply mats_of_entries).
    rewrite O, Dp in E4. cbn [ra_data vec_arr] in E4.
    exists dofs. split; [exact E4|]. split.
    - rewrite <- A'. unfold add_dof, bind at 1, get at 1. unfold bind at 1, lift at 1. rewrite E1.
      unfold bind at 1, lift at 1. rewrite E2. unfold bind at 1, lift at 1. simpl im_dummy. cbv iota. rewrite E3 by auto.
      unfold bind at 1, lift at 1. rewrite O. cbn [ra_data vec_arr mats_arr]. rewrite mats_of_entries, E4.
      destruct (construct_and_add dofs 1 s0) as [[? ?] ?]. auto.
    - assert (B: bs = [direction_of exf_d]).
      { apply (f_equal im_basis) in E9. simpl in E9. congruence. }
      subst bs. destruct dofs as [|[b pts] [|]]; try discriminate. exists b, pts. split; auto.
      inversion E6 as [|? ps ? ? P1 P2]; subst. inversion P2; subst. simpl in P1. subst pts. rewrite map_length.
      apply (f_equal im_interp) in E9. cbn [im_interp appended im_dummy s0 make_model app map] in E9.
      apply (f_equal (fun l => match l with sp :: _ => List.length (sp_pts sp) | [] => 0%nat end)) in E9.
      cbn [sp_pts] in E9. rewrite !sort_pts_length in E9. symmetry. exact E9. }
  destruct A as (s1 & w1 & _ & dofs & G & C & b & pts & -> & Lp).
  exists r, s1, w1. split; [auto|split; [auto|]]. fold s0.
  unfold add_art_from_files, bind at 1, get at 1. unfold bind at 1, lift at 1.
  assert (Rd: read_dof s0 (exf_reads q1 q2) = Ok (exf_d, [/10; -/10], [q1; q2])).
  { unfold read_dof, exf_reads. cbn [mapM]. unfold read_one. cbn [rbind fst snd].
    rewrite !displacements_ok by (simpl; rewrite Hp; auto). simpl im_ref. rewrite Hp.
    pose proof exf_half as X. apply apply_pbc_displacement_spec in X. rewrite <- X.
    replace (apply_pbc_displacement (rows_sub [mkV (9/10) 0 0] one_pos)) with exf_m.
    2: { unfold rows_sub, one_pos, exf_m, apply_pbc_displacement. simpl. f_equal.
         replace (mkV (- / 10) 0 0) with (vmap wrapd (mkV (- / 10) 0 0)) by (apply vmap_wrapd_id; unfold vall; simpl; lra).
         apply vmap_wrapd_proper. unfold vcongr. vunf. split; [exists (-1)%Z; lra|split; exists 0%Z; lra]. }
    cbn [rbind map fst snd im_dummy s0 make_model]. unfold amplitudes_of.
    assert (K: is_collinear_with_all (flatten (Fin exf_d)) (map (fun d => flatten (Fin d)) [exf_d; exf_m]) = Ok (-1)%Z).
    { unfold is_collinear_with_all. apply scan_all_false. intros a Ha. simpl in Ha.
      assert (Nz: nonzero_vec (flatten_rows exf_d)) by (exists (/10); simpl; split; [auto|lra]).
      destruct Ha as [<-|[<-|[]]].
      - pose proof (f_C09_parallel 1 _ ltac:(lra) Nz) as P. simpl in P. rewrite !Rmult_1_l in P. simpl. rewrite P. auto.
      - pose proof (f_C09_parallel (-1) _ ltac:(lra) Nz) as P. simpl in P. rewrite !Rmult_0_r in P.
        replace (-1 * /10) with (- /10) in P by lra. simpl. rewrite P. auto. }
    rewrite K. cbn [rbind Z.eqb negb]. simpl im_ref. unfold get_cart_displacement. rewrite HL, !rows_mul_mI.
    rewrite !pbc_half_cell by (unfold exf_d, exf_m; repeat constructor; simpl; lra).
    change ((-1 =? -1)%Z) with true. cbn [negb].
    unfold over_norm. unfold exf_d at 1. fold exf_d. rewrite rows_scale_1, exf_norm.
    destruct (Reqb (/10) 0) eqn:Z; [apply Reqb_true in Z; lra|]. cbn [rbind].
    replace (/ / 10) with 10 by field. cbn [map]. rewrite !pbc_half_cell, !rows_mul_mI by (unfold exf_d, exf_m; repeat constructor; simpl; lra).
    unfold get_amplitude, exf_d, exf_m. simpl. unfold ldot. simpl. repeat f_equal; lra. }
  rewrite Rd. unfold add_one_atom, bind at 1, get at 1. unfold bind at 1, lift at 1. simpl argmax.
  assert (Z: forallb row_small (set_nth 0 v0 exf_d) = true).
  { apply (proj2 (one_atom_check exf_d 0 ltac:(simpl; lia))). intros [|j] Hj; [tauto|]. simpl. destruct j; unfold exceeds; simpl; rewrite Rabs_R0; lra. }
  unfold bind, lift. rewrite Z. cbn [negb]. rewrite G. cbn [snd]. rewrite Lp. change (negb (2 =? 2)%nat) with false. cbv iota. rewrite C. auto.
Qed.

(** Two atoms displaced together *)
Lemma ex_two_move : exists d, half_images (rows_sub [mkV (35/100) 0 0; mkV (76/100) 0 0] ex_pos) d /\
  most_displaced d 0 /\ exceeds (/ 1000000) (nth 1 d v0).
Proof.
  exists [mkV (/10) 0 0; mkV (/100) 0 0]. split; [|split].
  - apply apply_pbc_displacement_spec. unfold rows_sub, ex_pos, apply_pbc_displacement. simpl.
    replace (vsub (mkV (35/100) 0 0) (mkV (/4) 0 0)) with (mkV (/10) 0 0) by (vunf; f_equal; lra).
    replace (vsub (mkV (76/100) 0 0) (mkV (3/4) 0 0)) with (mkV (/100) 0 0) by (vunf; f_equal; lra).
    rewrite !vmap_wrapd_id by (unfold vall; simpl; lra). auto.
  - split; [simpl; lia|split]; [|intros; lia]. intros [|[|[|j]]]; vunf; lra.
  - simpl. unfold exceeds. simpl. rewrite Rabs_right; lra.
Qed.

Lemma f_C35_accepts s k f a1 a2 q1 q2 :
  identity_first (im_ref s) [] -> reachable s -> mdet (rs_lattice (im_ref s)) <> 0 ->
  (k < List.length (rs_positions (im_ref s)))%nat -> half_cell [f] -> f <> v0 ->
  let d := vmul f (rs_lattice (im_ref s)) in
  (forall b, In b (im_basis s) -> vdot (nth k b v0) d = 0) ->
  ~ too_close a1 a2 -> im_dummy s = false ->
  exists s' w b sp,
    add_art (Z.of_nat k) [vx d; vy d; vz d] (vec_arr [a1; a2]) (mats_arr [q1; q2]) s = ((s', w), Ok tt) /\
    im_basis s' = im_basis s ++ [b] /\ im_interp s' = im_interp s ++ [sp] /\ moves_only b k /\
    (forall p, In p (sp_pts sp) <-> p = (a1, msub q1 (im_refpol s)) \/ p = (a2, msub q2 (im_refpol s))).
Proof.
  intros Hi Hr HL Hk Hh Hf d Ho Ha Hd. apply reachable_inv in Hr.
  destruct (add_art_lone s k f a1 a2 q1 q2 Hi Hr HL Hk Hh Hf Ho) as (ps & w & Eps & A).
  { simpl. split; [|split; [intros y []|auto]]. intros y [<-|[]]; auto. }
  rewrite Hd in Eps. fold d in A. do 2 eexists. exists (direction_of (single k d (List.length (rs_positions (im_ref s))))), (mkSpline 1 (sort_pts ps)).
  split; [exact A|]. cbn [im_basis im_interp appended]. rewrite Hd. split; [auto|split; [auto|split]].
  - assert (Dn: d <> v0).
    { intros E. apply Hf. destruct (minv_exists _ HL) as (li & Li). pose proof (cart_frac _ _ [f] Li) as G. simpl in G. injection G as G.
      fold d in G. rewrite E in G. rewrite <- G. destruct li as [[] [] []]. vunf. f_equal; ring. }
    assert (Pd: 0 < vnorm2 d).
    { clear - Dn. destruct d as [x y z]. destruct (Req_dec x 0), (Req_dec y 0), (Req_dec z 0); subst; try (vunf; nra). exfalso; apply Dn; auto. }
    unfold direction_of. rewrite single_scale. split; [rewrite single_length; auto|]. split.
    + rewrite magnitude_rows. unfold rows_norm. rewrite single_nz by auto.
      unfold single. rewrite nth_set_nth, Nat.eqb_refl, repeat_length. destruct (Nat.ltb_spec k (List.length (rs_positions (im_ref s)))); [|lia].
      intros E. apply (f_equal vnorm2) in E. assert (0 < sqrt (vnorm2 d)) by (apply sqrt_lt_R0; auto).
      replace (vnorm2 (vscale (/ sqrt (vnorm2 d)) d)) with (/ sqrt (vnorm2 d) * / sqrt (vnorm2 d) * vnorm2 d) in E by (generalize (/ sqrt (vnorm2 d)); clear; intros c; destruct d; vunf; ring).
      assert (0 < / sqrt (vnorm2 d)) by (apply Rinv_0_lt_compat; auto).
      assert (vnorm2 v0 = 0) by (vunf; ring). rewrite H2 in E.
      apply Rmult_integral in E as [E|E]; [|lra]. apply Rmult_integral in E. lra.
    + intros j Hj. unfold single. rewrite nth_set_nth. destruct (Nat.eqb_spec j k); [tauto|]. apply nth_repeat_v0.
  - intros p. cbn [sp_pts]. rewrite sort_pts_In, Eps. simpl. split; [intros [<-|[<-|[]]]; auto|intros [-> | ->]; auto].
Qed.
