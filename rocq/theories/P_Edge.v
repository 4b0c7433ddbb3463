(** Proofs about the edge polarizabilities of the graph neural network. *)
From Coq Require Import ZArith Reals Bool Arith List Lia Lra.
From Verif Require Import Base LinAlg M_Validate M_StructUtils S_Lattice P_StructUtils M_Torch S_Torch P_Torch P_Torch2 M_Gnn S_Gnn P_Gnn P_Gnn2 P_Gnn3 P_Gnn4 S_Edge.
Import ListNotations.
Local Open Scope R_scope.

Ltac lc H := apply Rminus_diag_uniq; refine (eq_trans _ (Rminus_diag_eq _ _ H)); ring.
(** A rotation that takes the x axis to [u] turns diag(a, b, b) into b I + (a - b) u u^T. *)
Lemma turned m a b : mmul m (mtrans m) = mI ->
  let u := mulv m (mkV 1 0 0) in
  mmul (mmul m (diag3 a b b)) (mtrans m) =
  mkM (mkV (b + (a - b) * (vx u * vx u)) ((a - b) * (vx u * vy u)) ((a - b) * (vx u * vz u)))
      (mkV ((a - b) * (vy u * vx u)) (b + (a - b) * (vy u * vy u)) ((a - b) * (vy u * vz u)))
      (mkV ((a - b) * (vz u * vx u)) ((a - b) * (vz u * vy u)) (b + (a - b) * (vz u * vz u))).
Proof.
  intros H u. subst u. destruct m as [[m00 m01 m02] [m10 m11 m12] [m20 m21 m22]].
  unfold mmul, mtrans, vmul, vadd, vscale, mI in H. cbn [r0 r1 r2 vx vy vz] in H. injection H as H1 H2 H3 H4 H5 H6 H7 H8 H9.
  apply (f_equal (Rmult b)) in H1, H2, H3, H4, H5, H6, H7, H8, H9.
  unfold mmul, mtrans, vmul, vadd, vscale, mulv, vdot, diag3. cbn [r0 r1 r2 vx vy vz].
  f_equal; f_equal; [lc H1|lc H2|lc H3|lc H4|lc H5|lc H6|lc H7|lc H8|lc H9].
Qed.
Lemma inverse_is_transpose m : rotation3 m -> minv m = Ok (mtrans m).
Proof.
  intros (H1 & H2 & H3). destruct (minv_exists m) as (i & E); [lra|]. rewrite E. f_equal. symmetry. exact (minv_unique _ _ _ E H1).
Qed.
Lemma picked a1 a2 a3 a4 a5 a6 :
  to_vector (madd (madd (madd (madd (madd
          (hadamard a1 (mkM (mkV 0 1 0) (mkV 1 0 0) (mkV 0 0 0)))
          (hadamard a2 (mkM (mkV 0 0 1) (mkV 0 0 0) (mkV 1 0 0))))
          (hadamard a3 (mkM (mkV 0 0 0) (mkV 0 0 1) (mkV 0 1 0))))
          (hadamard a4 (mkM (mkV 1 0 0) (mkV 0 0 0) (mkV 0 0 0))))
          (hadamard a5 (mkM (mkV 0 0 0) (mkV 0 1 0) (mkV 0 0 0))))
          (hadamard a6 (mkM (mkV 0 0 0) (mkV 0 0 0) (mkV 0 0 1)))) =
  [vx (r0 a4); vy (r1 a5); vz (r2 a6); vy (r0 a1); vz (r0 a2); vz (r1 a3)].
Proof.
  destruct a1 as [[] [] []], a2 as [[] [] []], a3 as [[] [] []], a4 as [[] [] []], a5 as [[] [] []], a6 as [[] [] []].
  cbv [to_vector hadamard madd vadd LinAlg.r0 LinAlg.r1 LinAlg.r2 LinAlg.vx LinAlg.vy LinAlg.vz]. repeat (f_equal; [ring|]). f_equal. ring.
Qed.
Lemma rotated_edge emb m t : rotation3 m -> get_rotation (Some t) = Some m ->
  get_edge_polarizability_vector emb (Some t) = Ok (Some (six (edge_tensor (fun k => nth k emb 0) (mulv m (mkV 1 0 0))))).
Proof.
  intros HR E. unfold get_edge_polarizability_vector. rewrite E, (inverse_is_transpose m HR). cbn [rbind].
  rewrite picked, !(turned m _ _ (proj1 HR)). unfold six, edge_tensor. cbn [r0 r1 r2 vx vy vz]. reflexivity.
Qed.
Lemma edge_tensor_even e u : edge_tensor e (vopp u) = edge_tensor e u.
Proof. destruct u as [x y z]. unfold edge_tensor, vopp. cbn [vx vy vz]. f_equal; f_equal; ring. Qed.
Lemma f_C81_closed emb t : t <> v0 ->
  exists u, vdot u u = 1 /\ t = vscale (vnorm t) u /\
    get_edge_polarizability_vector emb (Some t) = Ok (Some (six (edge_tensor (fun k => nth k emb 0) u))).
Proof.
  intros H0. assert (D : opposite_to_x t \/ ~ opposite_to_x t).
  { unfold opposite_to_x. destruct (Rlt_dec (vx t) 0), (Req_dec (vy t) 0), (Req_dec (vz t) 0); tauto. }
  destruct D as [Ho | Ho].
  - destruct (f_C71_opposite t Ho) as (E & _). exists (mkV (-1) 0 0). split; [unfold vdot; cbn; ring|]. split.
    + destruct Ho as (Hx & Hy & Hz). destruct t as [x y z]. cbn in *. subst y z. unfold vnorm, vnorm2, vdot, vscale. cbn.
      replace (x * x + 0 * 0 + 0 * 0) with ((- x) * (- x)) by ring. rewrite sqrt_square by lra. f_equal; ring.
    + rewrite (rotated_edge emb mI t); [|exact (rotation_or_identity _ _ E)|exact E].
      do 3 f_equal. transitivity (edge_tensor (fun k => nth k emb 0) (vopp (mulv mI (mkV 1 0 0)))); [symmetry; apply edge_tensor_even|].
      f_equal. unfold mulv, mI, vopp, vdot. cbn. f_equal; ring.
  - destruct (f_C71 t H0 Ho) as (m & b & E & HR & Hb & Ht & Db). exists b. split; [exact Db|]. split; [exact Ht|]. rewrite (rotated_edge emb m t HR E), Hb. reflexivity.
Qed.
Lemma norm_scale c t : vnorm (vscale c t) = Rabs c * vnorm t.
Proof.
  unfold vnorm, vnorm2, vdot, vscale. cbn [vx vy vz]. rewrite <- sqrt_Rsqr_abs, <- sqrt_mult_alt by apply Rle_0_sqr. f_equal. unfold Rsqr. ring.
Qed.
Lemma unit_part t u w : t <> v0 -> t = vscale (vnorm t) u -> t = vscale (vnorm t) w -> u = w.
Proof.
  intros H0 H1 H2. pose proof (norm_pos t H0) as P. rewrite H1 in H2 at 1. destruct u, w. unfold vscale in H2. cbn in H2. injection H2 as A B C. f_equal; eapply Rmult_eq_reg_l; try eassumption; lra.
Qed.
Lemma f_C81_axis emb t c : t <> v0 -> c <> 0 -> get_edge_polarizability_vector emb (Some (vscale c t)) = get_edge_polarizability_vector emb (Some t).
Proof.
  intros H0 Hc. assert (H0' : vscale c t <> v0). { intros E. apply H0. destruct t as [x y z]. unfold vscale, v0 in *. cbn in E. injection E as E1 E2 E3. f_equal; nra. }
  destruct (f_C81_closed emb t H0) as (u & Du & Hu & ->). destruct (f_C81_closed emb _ H0') as (w & Dw & Hw & ->). do 3 f_equal.
  assert (N : vnorm (vscale c t) = Rabs c * vnorm t) by apply norm_scale. rewrite N in Hw. pose proof (norm_pos t H0) as P.
  destruct (Rlt_dec c 0) as [Hn | Hp].
  - rewrite Rabs_left in Hw by lra. assert (w = vopp u); [|subst w; apply edge_tensor_even].
    rewrite Hu in Hw at 1. destruct u, w. unfold vscale, vopp in *. cbn in *. injection Hw as A B C. f_equal; (apply Rmult_eq_reg_l with (c * vnorm t); [lra|nra]).
  - rewrite Rabs_right in Hw by lra. f_equal.
    rewrite Hu in Hw at 1. destruct u, w. unfold vscale in *. cbn in *. injection Hw as A B C. f_equal; (apply Rmult_eq_reg_l with (c * vnorm t); [lra|nra]).
Qed.
(** Covariance *)
Lemma f_C81_covariant (e : nat -> R) c d q u : mmul q (mtrans q) = mI ->
  e 7%nat = c -> e 9%nat = c -> e 11%nat = c -> e 0%nat - e 1%nat = d -> e 2%nat - e 3%nat = d -> e 4%nat - e 5%nat = d ->
  e 6%nat - e 7%nat = d -> e 8%nat - e 9%nat = d -> e 10%nat - e 11%nat = d ->
  edge_tensor e (mulv q u) = mmul (mmul q (edge_tensor e u)) (mtrans q).
Proof.
  intros H C1 C2 C3 D1 D2 D3 D4 D5 D6. unfold edge_tensor. rewrite D1, D2, D3, D4, D5, D6, C1, C2, C3. clear - H.
  destruct q as [[m00 m01 m02] [m10 m11 m12] [m20 m21 m22]], u as [x y z].
  unfold mmul, mtrans, vmul, vadd, vscale, mI in H. cbn [r0 r1 r2 vx vy vz] in H. injection H as H1 H2 H3 H4 H5 H6 H7 H8 H9.
  apply (f_equal (Rmult c)) in H1, H2, H3, H4, H5, H6, H7, H8, H9.
  unfold mmul, mtrans, vmul, vadd, vscale, mulv, vdot. cbn [r0 r1 r2 vx vy vz].
  f_equal; f_equal; symmetry; [lc H1|lc H2|lc H3|lc H4|lc H5|lc H6|lc H7|lc H8|lc H9].
Qed.
Definition tilt : M3 := mkM (mkV (3/5) (-4/5) 0) (mkV (4/5) (3/5) 0) (mkV 0 0 1).
Lemma tilt_rotation : rotation3 tilt.
Proof. unfold rotation3, tilt, mmul, mtrans, mdet, vmul, vadd, vscale, mI, vdot, vcross. cbn [r0 r1 r2 vx vy vz]. repeat split; try (f_equal; f_equal); try lra. Qed.

Definition first_channel : vec := [1;0;0;0;0;0;0;0;0;0;0;0].
Lemma f_C81_covariant_refuted :
  ~ (forall e q u, rotation3 q -> vdot u u = 1 -> edge_tensor e (mulv q u) = mmul (mmul q (edge_tensor e u)) (mtrans q)).
Proof.
  intros H. specialize (H (fun k => nth k first_channel 0) tilt (mkV 1 0 0) tilt_rotation ltac:(unfold vdot; cbn; ring)).
  assert (E : edge_tensor (fun k => nth k first_channel 0) (mkV 1 0 0) = m0). { unfold edge_tensor, m0, v0. cbn [nth first_channel vx vy vz]. f_equal; f_equal; ring. }
  assert (E2 : mmul (mmul tilt m0) (mtrans tilt) = m0). { generalize tilt as q. vring. }
  assert (E3 : mulv tilt (mkV 1 0 0) = mkV (3/5) (4/5) 0). { unfold mulv, tilt, vdot. cbn [r0 r1 r2 vx vy vz]. f_equal; lra. }
  rewrite E, E2, E3 in H. apply (f_equal (fun m => vy (r0 m))) in H. unfold edge_tensor in H. cbn [r0 vy vx m0 v0 nth first_channel] in H. lra.
Qed.

(** ** Inversion *)
Lemma pols_ext cast g ne ps qs : net_ok g -> mapM (node_embedding g) (g_atomic_numbers g) = Ok ne ->
  Forall2 (fun p q => sample_pols (eval_mode g) (cast_m cast (g_lattice g)) ne (map (vmap cast) p) = sample_pols (eval_mode g) (cast_m cast (g_lattice g)) ne (map (vmap cast) q)) ps qs ->
  snd (calc_polarizabilities cast g [List.length ps; List.length (g_atomic_numbers g); 3%nat] ps) = snd (calc_polarizabilities cast g [List.length qs; List.length (g_atomic_numbers g); 3%nat] qs).
Proof.
  intros HG HM HP. rewrite !(calc_eq cast g _ ne HG HM). fold (chops ps). fold (chops qs). f_equal. f_equal.
  assert (HL : List.length ps = List.length qs) by (clear - HP; induction HP; cbn; congruence).
  unfold chops. rewrite HL, !map_map. apply map_ext. intros b. f_equal. unfold block. f_equal. rewrite !chop_firstn.
  assert (HP' : Forall2 (fun p q => sample_pols (eval_mode g) (cast_m cast (g_lattice g)) ne (map (vmap cast) p) = sample_pols (eval_mode g) (cast_m cast (g_lattice g)) ne (map (vmap cast) q)) (firstn 100 (skipn (b * 100) ps)) (firstn 100 (skipn (b * 100) qs))).
  { assert (S1 : forall n, Forall2 (fun p q => sample_pols (eval_mode g) (cast_m cast (g_lattice g)) ne (map (vmap cast) p) = sample_pols (eval_mode g) (cast_m cast (g_lattice g)) ne (map (vmap cast) q)) (skipn n ps) (skipn n qs)).
    { clear - HP. intros n. revert n. induction HP; intros [|n]; cbn; auto. }
    specialize (S1 (b * 100)%nat). revert S1. generalize (skipn (b * 100) ps) (skipn (b * 100) qs). clear. intros u v H. generalize 100%nat as n. induction H; intros [|n]; cbn; auto. }
  revert HP'. generalize (firstn 100 (skipn (b * 100) ps)) (firstn 100 (skipn (b * 100) qs)). clear. intros u v H. unfold sub_result.
  change (g_lattice (eval_mode g)) with (g_lattice g). rewrite !map_map.
  assert (E1 : map (fun x => sample_pols (eval_mode g) (cast_m cast (g_lattice g)) ne (map (vmap cast) x)) u = map (fun x => sample_pols (eval_mode g) (cast_m cast (g_lattice g)) ne (map (vmap cast) x)) v) by (induction H; cbn; congruence).
  rewrite E1. destruct (all_some _); clear E1; induction H as [|p q u v H H' IH]; cbn [map]; try reflexivity; f_equal; auto. unfold sample_result. rewrite H. reflexivity.
Qed.
Lemma vopp_scale v : vopp v = vscale (-1) v.
Proof. vring. Qed.
Lemma epv_opp e v : epv e (normalized (vopp v)) = epv e (normalized v).
Proof.
  destruct (Reqb (vnorm v) 0) eqn:E.
  - assert (N : vnorm (vopp v) = vnorm v). { rewrite vopp_scale, norm_scale. replace (Rabs (-1)) with 1; [ring|]. rewrite Rabs_left; lra. }
    unfold normalized. rewrite N, E. reflexivity.
  - assert (N : vnorm (vopp v) = vnorm v). { rewrite vopp_scale, norm_scale. replace (Rabs (-1)) with 1; [ring|]. rewrite Rabs_left; lra. }
    apply Reqb_false in E. assert (H0 : v <> v0) by (intros ->; apply E, norm_zero; reflexivity).
    destruct (normalized_spec v H0) as (b & Eb & Hb & Db). unfold normalized in *. rewrite N. destruct (Reqb (vnorm v) 0) eqn:E'; [apply Reqb_true in E'; contradiction|].
    injection Eb as Eb. replace (vscale (/ vnorm v) (vopp v)) with (vscale (-1) (vscale (/ vnorm v) v)) by (generalize (/ vnorm v); intros; clear; vring). unfold epv.
    rewrite f_C81_axis; [reflexivity| |lra]. rewrite Eb. intros ->. rewrite vdot_v0_l in Db. lra.
Qed.
Lemma f_C81_inverted lattice numbers g0 g ps qs : built lattice numbers g0 -> history g0 g -> Forall (fun p => List.length p = List.length numbers) ps -> Forall no_half_cell ps -> Forall2 inverted_sample ps qs ->
  snd (calc_polarizabilities (fun x => x) g [List.length qs; List.length numbers; 3%nat] qs) = snd (calc_polarizabilities (fun x => x) g [List.length ps; List.length numbers; 3%nat] ps).
Proof.
  intros HB HH HL HN HQ. destruct (reachable _ _ _ _ HB HH) as (HG & EL & EN & ER & ne & HM). subst numbers. symmetry. apply (pols_ext _ g ne); [exact HG|exact HM|].
  assert (HQ' : Forall2 (fun p q => List.length p = List.length (g_atomic_numbers g) /\ no_half_cell p /\ inverted_sample p q) ps qs).
  { clear - HL HN HQ. induction HQ; constructor; inversion HL; inversion HN; subst; auto. }
  eapply f2impl; [|exact HQ']. intros p q (Hl & Hh & t & HT).
  rewrite cast_m_id, !map_vmap_id.
  assert (D : forall s i j, In (s, i, j) (g_ref_edges g) -> cart_displacement [g_lattice g] [q] 0 i j = vopp (cart_displacement [g_lattice g] [p] 0 i j)).
  { intros s i j Hin. destruct HG as (_ & _ & _ & HR & _). unfold edges_ok in HR. rewrite Forall_forall in HR. specialize (HR _ Hin). cbn in HR. destruct HR as (_ & Hi & Hj). rewrite <- Hl in Hi, Hj.
    unfold cart_displacement. cbn [nth].
    assert (HV : forall x, (x < List.length p)%nat -> vcongr (vsub t (nth x p v0)) (nth x q v0)). { clear - HT. induction HT; intros [|x0] Hx; cbn in *; try lia; auto. apply IHHT. lia. }
    destruct (HV i Hi) as (A1 & A2 & A3). destruct (HV j Hj) as (B1 & B2 & B3).
    destruct (Hh (nth i p v0) (nth j p v0) (nth_In _ _ Hi) (nth_In _ _ Hj)) as (N1 & N2 & N3).
    assert (C : forall a b c d t, congr1 (t - a) b -> congr1 (t - c) d -> ~ congr1 (c - a) (/ 2) -> wrapd (d - b) = - wrapd (c - a)).
    { intros a b c d t' [k K] [l' K'] NC. rewrite <- (wrapd_opp (c - a) NC). apply wrapd_proper. exists (k - l')%Z. rewrite minus_IZR. lra. }
    assert (E : vmap wrapd (vsub (nth j q v0) (nth i q v0)) = vopp (vmap wrapd (vsub (nth j p v0) (nth i p v0)))).
    { apply V3_eq; [exact (C _ _ _ _ _ A1 B1 N1)|exact (C _ _ _ _ _ A2 B2 N2)|exact (C _ _ _ _ _ A3 B3 N3)]. }
    rewrite E. generalize (vmap wrapd (vsub (nth j p v0) (nth i p v0))) (g_lattice g). clear. vring. }
  assert (E2 : sample_distances (eval_mode g) (g_lattice g) p = sample_distances (eval_mode g) (g_lattice g) q).
  { unfold sample_distances. apply map_ext_in. intros [[s i] j] Hin. unfold cart_distance. rewrite (D s i j Hin). unfold vopp. cbn [vx vy vz]. f_equal. ring. }
  unfold sample_pols, sample_embedding. rewrite E2.
  match goal with |- map _ (combine ?l _) = _ => generalize l end. unfold sample_vectors. change (g_ref_edges (eval_mode g)) with (g_ref_edges g).
  revert D. generalize (g_ref_edges g) as es. clear. induction es as [|[[s i] j] es IH]; intros D l; destruct l as [|x l]; cbn [map combine]; try reflexivity. f_equal.
  - rewrite (D s i j (or_introl eq_refl)). symmetry. apply epv_opp.
  - apply IH. intros s' i' j' H. apply (D s' i' j'). right. exact H.
Qed.

(** ** An example *)
From Verif Require Import P_Examples10.
Definition ex_flipped : list V3 := map (vsub (mkV (/3) 2 0)) ex_good.
Lemma not_half x : -1 < x < 1 -> x <> / 2 -> x <> - / 2 -> ~ congr1 x (/ 2).
Proof.
  intros H N1 N2 [k K]. assert (-2 < IZR k < 1) by lra. destruct H0 as [A B].
  change (-2) with (IZR (-2)) in A. change 1 with (IZR 1) in B. apply lt_IZR in A, B.
  assert (D : k = (-1)%Z \/ k = 0%Z) by lia. destruct D as [-> | ->]; [apply N2|apply N1]; lra.
Qed.
Lemma ex_C81 : exists g0 g, built ex_lattice ex_numbers g0 /\ history g0 g /\ g_ref_edges g0 <> [] /\
  List.length ex_good = List.length ex_numbers /\ no_half_cell ex_good /\ inverted_sample ex_good ex_flipped.
Proof.
  destruct ex_C72 as (g0 & g & HB & HH & _ & _ & _ & HE & _). exists g0, g. split; [exact HB|]. split; [exact HH|]. split; [exact HE|]. split; [reflexivity|]. split.
  - intros a b Ha Hb. unfold ex_good in *. cbn in Ha, Hb. decompose [or] Ha; decompose [or] Hb; subst; try contradiction; repeat split; cbn; apply not_half; lra.
  - exists (mkV (/3) 2 0). unfold ex_flipped. induction ex_good as [|a l IH]; cbn; constructor; auto. repeat split; exists 0%Z; cbn; lra.
Qed.
