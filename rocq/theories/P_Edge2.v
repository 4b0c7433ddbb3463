(** PotGNN: a prediction is the scaled mean of the contributions of the edges: C81 *)
From Coq Require Import ZArith Reals Bool Arith List Lia Lra.
From Verif Require Import Base LinAlg M_Validate M_StructUtils S_Lattice P_StructUtils M_Torch S_Torch P_Torch P_Torch2 M_Gnn S_Gnn P_Gnn P_Gnn2 P_Gnn3 P_Gnn4 P_Relabel3 S_Edge P_Edge.
Import ListNotations.
Local Open Scope R_scope.

Lemma six_tensor m : symmetric3 m -> to_tensor (six m) = m.
Proof. unfold symmetric3. destruct m as [[] [] []]. intros H. cbn in H. injection H. intros. subst. reflexivity. Qed.
Lemma edge_tensor_sym e u : symmetric3 (edge_tensor e u).
Proof. reflexivity. Qed.
Lemma fold_sym l : Forall symmetric3 l -> symmetric3 (fold_right madd m0 l).
Proof.
  induction 1 as [|m l H _ IH]; [reflexivity|]. cbn [fold_right]. revert H IH. unfold symmetric3. generalize (fold_right madd m0 l) as k. intros [[] [] []]. destruct m as [[] [] []]. cbn. intros H1 H2.
  injection H1. injection H2. intros. subst. reflexivity.
Qed.
Lemma six_sum l : fold_right vplus (repeat 0 6) (map six l) = six (fold_right madd m0 l).
Proof. induction l as [|m l IH]; [reflexivity|]. cbn [map fold_right]. rewrite IH. reflexivity. Qed.
Lemma six_mean l : map (fun x => x / INR (List.length l)) (six (fold_right madd m0 l)) = six (mean_tensor l).
Proof. unfold mean_tensor, six. cbn [map mscale vscale r0 r1 r2 vx vy vz]. unfold Rdiv. repeat (apply f_equal2; [ring|]). reflexivity. Qed.
Lemma mean_sym l : Forall symmetric3 l -> symmetric3 (mean_tensor l).
Proof. intros H. apply fold_sym in H. unfold mean_tensor. revert H. generalize (fold_right madd m0 l). intros [[] [] []]. unfold symmetric3. cbn. intros H. injection H. intros. subst. reflexivity. Qed.

Definition hidden_row (g : potgnn) (r : vec) : vec :=
  map shifted_softplus (apply_linear (g_pol_linear_2 g) (map shifted_softplus (nth 0 (apply_batch_norm false (g_batch_norm g) [apply_linear (g_pol_linear_1 g) r]) []))).
Lemma row_is g r : g_training g = false -> row_embedding g r = apply_linear (g_pol_linear_3 g) (hidden_row g r).
Proof. intros H. unfold row_embedding, to_polarizability_embedding, hidden_row. rewrite H. reflexivity. Qed.

Lemma unit_idem u : vdot u u = 1 -> exists b, u <> v0 /\ vnorm u = 1 /\ b = u.
Proof.
  intros H. exists u. split; [intros ->; rewrite vdot_v0_l in H; lra|]. split; [|reflexivity]. unfold vnorm, vnorm2. rewrite H. apply sqrt_1.
Qed.
Lemma epv_unit emb u : vdot u u = 1 -> epv emb (Some u) = Some (six (edge_tensor (fun k => nth k emb 0) u)).
Proof.
  intros H. destruct (unit_idem u H) as (_ & N & V & _). destruct (f_C81_closed emb u N) as (w & Dw & Ew & E). rewrite V, vscale_1 in Ew. subst w. unfold epv. rewrite E. reflexivity.
Qed.
Lemma all_some_map_some {A} (f : A -> vec) l : all_some (map (fun x => Some (f x)) l) = Some (map f l).
Proof. induction l as [|a l IH]; [reflexivity|]. cbn [map all_some]. rewrite IH. reflexivity. Qed.

Lemma unit_vectors cast g p : net_ok g -> mdet (cast_m cast (g_lattice g)) <> 0 -> apart cast (List.length (g_atomic_numbers g)) p ->
  exists us, Forall2 (points_along (cast_m cast (g_lattice g)) (map (vmap cast) p)) (g_ref_edges g) us /\
    sample_vectors g (cast_m cast (g_lattice g)) (map (vmap cast) p) = map Some us.
Proof.
  intros (HC & HN & HE & HR & HT) HD (Hl & HA). unfold sample_vectors. unfold edges_ok in HR. revert HR. generalize (g_ref_edges g) as es. induction es as [|[[s i] j] es IH]; intros HR.
  - exists []. split; [constructor|reflexivity].
  - apply Forall_cons_iff in HR. destruct HR as [(Nij & Hi & Hj) HR]. destruct (IH HR) as (us & HU & EU). clear IH HR.
    destruct (nth_error p i) as [pi|] eqn:Ei; [|apply nth_error_None in Ei; lia]. destruct (nth_error p j) as [pj|] eqn:Ej; [|apply nth_error_None in Ej; lia].
    assert (Hd : cart_displacement [cast_m cast (g_lattice g)] [map (vmap cast) p] 0 i j = vmul (vmap wrapd (vsub (vmap cast pj) (vmap cast pi))) (cast_m cast (g_lattice g))).
    { unfold cart_displacement. cbn [nth]. rewrite (nth_error_nth (map (vmap cast) p) i v0 (map_nth_error _ _ _ Ei)), (nth_error_nth (map (vmap cast) p) j v0 (map_nth_error _ _ _ Ej)). reflexivity. }
    assert (Hv : cart_displacement [cast_m cast (g_lattice g)] [map (vmap cast) p] 0 i j <> v0).
    { rewrite Hd. intros E. destruct (minv_exists _ HD) as [inv Einv]. apply minv_Ok in Einv. destruct Einv as (I1 & _).
      assert (E0 : vmap wrapd (vsub (vmap cast pj) (vmap cast pi)) = v0). { rewrite <- (vmul_mI (vmap wrapd _)), <- I1, vmul_mmul, E. apply vmul_v0. }
      apply (HA i j pi pj Nij Ei Ej). assert (C : forall a b, wrapd (a - b) = 0 -> congr1 b a). { intros a b Ew. pose proof (wrapd_congr (a - b)) as [k K]. rewrite Ew in K. exists (- k)%Z. rewrite opp_IZR. lra. }
      injection E0. cbn [vsub vx vy vz vmap]. intros E3 E2 E1. split; [|split]; cbn [vx vy vz vmap]; apply C; assumption. }
    destruct (normalized_spec _ Hv) as (u & Eu & Hu & Du). exists (u :: us). split.
    + constructor; [|exact HU]. split; [exact Du|]. exists (vmap cast pi), (vmap cast pj), (vmap wrapd (vsub (vmap cast pj) (vmap cast pi))), (vnorm (cart_displacement [cast_m cast (g_lattice g)] [map (vmap cast) p] 0 i j)).
      split; [apply (map_nth_error _ _ _ Ei)|]. split; [apply (map_nth_error _ _ _ Ej)|]. split; [split; [|split]; apply wrapd_image|]. split; [apply norm_pos, Hv|]. rewrite <- Hd. exact Hu.
    + cbn [map]. rewrite Eu, EU. reflexivity.
Qed.

Lemma affine_channels_is l x : affine_channels l x = apply_linear l x.
Proof.
  unfold affine_channels, apply_linear. generalize (l_weight l) (l_bias l). intros ws. induction ws as [|w ws IH]; intros [|b bs]; cbn [combine map map2]; try reflexivity.
  rewrite IH. f_equal. cbn [fst snd]. f_equal. unfold total. f_equal. clear. unfold vtimes. revert x. induction w as [|a w IH]; intros [|y x]; cbn [combine map map2]; try reflexivity. rewrite IH. reflexivity.
Qed.
Lemma f_C81_prediction lattice numbers g0 g cast p : built lattice numbers g0 -> history g0 g -> mdet (cast_m cast lattice) <> 0 ->
  apart cast (List.length numbers) p -> g_ref_edges g0 <> [] ->
  exists us hidden, Forall2 (points_along (cast_m cast lattice) (map (vmap cast) p)) (g_ref_edges g0) us /\ List.length hidden = List.length us /\
    snd (calc_polarizabilities cast g [1; List.length numbers; 3]%nat [p]) =
    Ok [Some (madd (g_mean g0) (hadamard (g_stddev g0) (mean_tensor (map2 (contribution (g_pol_linear_3 g)) hidden us))))].
Proof.
  intros HB HH HD HA Hne. destruct (built_ok _ _ _ HB) as (H0 & _). destruct (history_same g0 g H0 HH) as (_ & _ & EM & ES & _).
  destruct (reachable _ _ _ _ HB HH) as (HG & EL & EN & ER & ne & HM). subst lattice numbers.
  assert (HG' : net_ok (eval_mode g)) by exact HG.
  destruct (unit_vectors cast (eval_mode g) p HG' HD HA) as (us & HU & EU). change (g_ref_edges (eval_mode g)) with (g_ref_edges g) in HU. change (g_lattice (eval_mode g)) with (g_lattice g) in *.
  pose proof (good_sample cast (eval_mode g) ne p HG' HM HD HA) as HS. change (g_lattice (eval_mode g)) with (g_lattice g) in HS.
  exists us, (map (hidden_row (eval_mode g)) (snd (message_passing (g_node_blocks (eval_mode g)) (g_edge_blocks (eval_mode g)) (bt_ref (g_triplets (eval_mode g))) ne
     (apply_gaussian (g_gaussian (eval_mode g)) (sample_distances (eval_mode g) (cast_m cast (g_lattice g)) (map (vmap cast) p)))))).
  rewrite <- ER. split; [exact HU|].
  assert (LU : List.length us = List.length (g_ref_edges g)) by (clear - HU; induction HU; cbn; congruence).
  pose proof (sample_pols_length (eval_mode g) (cast_m cast (g_lattice g)) ne) as LP.
  destruct HG' as (HC & HN & HE & HR & HT). specialize (LP HC HN HE HM (map (vmap cast) p)). change (g_ref_edges (eval_mode g)) with (g_ref_edges g) in LP.
  assert (EP : sample_pols (eval_mode g) (cast_m cast (g_lattice g)) ne (map (vmap cast) p) =
    map (fun x => Some (six x)) (map2 (contribution (g_pol_linear_3 g)) (map (hidden_row (eval_mode g)) (snd (message_passing (g_node_blocks (eval_mode g)) (g_edge_blocks (eval_mode g)) (bt_ref (g_triplets (eval_mode g))) ne
     (apply_gaussian (g_gaussian (eval_mode g)) (sample_distances (eval_mode g) (cast_m cast (g_lattice g)) (map (vmap cast) p)))))) us)).
  { unfold sample_pols, sample_embedding. rewrite EU.
    match goal with |- map _ (combine (map _ ?l) _) = _ => generalize l end. assert (DU : Forall (fun u => vdot u u = 1) us). { clear - HU. induction HU as [|[[? ?] ?] ? ? ? H]; constructor; [apply H|assumption]. }
    clear - DU. induction DU as [|u us Hu _ IH]; intros [|r l]; cbn [map combine map2]; try reflexivity. rewrite IH. f_equal. rewrite (epv_unit _ u Hu). rewrite row_is by reflexivity. unfold contribution. rewrite affine_channels_is. reflexivity. }
  assert (LM : List.length (snd (message_passing (g_node_blocks (eval_mode g)) (g_edge_blocks (eval_mode g)) (bt_ref (g_triplets (eval_mode g))) ne
     (apply_gaussian (g_gaussian (eval_mode g)) (sample_distances (eval_mode g) (cast_m cast (g_lattice g)) (map (vmap cast) p))))) = List.length us).
  { rewrite LU. pose proof (message_len (List.length (g_atomic_numbers g)) (List.length (g_ref_edges g)) (bt_ref (g_triplets (eval_mode g))) (ref_ok (eval_mode g) HC HN HE) (g_node_blocks (eval_mode g)) (g_edge_blocks (eval_mode g))
      (ne, apply_gaussian (g_gaussian (eval_mode g)) (sample_distances (eval_mode g) (cast_m cast (g_lattice g)) (map (vmap cast) p)))) as K.
    apply K. split; cbn [fst snd]; [apply (ne_length (eval_mode g) ne HM)|]. unfold apply_gaussian, sample_distances. rewrite !map_length. reflexivity. }
  split; [rewrite map_length; exact LM|].
  etransitivity; [exact (calc_good cast g ne [p] HG HM (Forall_cons p HS (Forall_nil _)))|]. cbn [map]. unfold answer, sample_result. rewrite mean_of by exact LP.
  rewrite EP in *. rewrite all_some_map_some. rewrite LP. destruct (Reqb _ 0) eqn:E0.
  { apply Reqb_true in E0. exfalso. apply Hne. rewrite <- ER. destruct (g_ref_edges g); [reflexivity|]. cbn [List.length] in E0. pose proof (lt_0_INR (S (List.length l)) ltac:(lia)). lra. }
  rewrite <- LP, map_length, six_sum, six_mean. unfold finish. cbn [option_map]. rewrite six_tensor.
  - rewrite EM, ES. do 3 f_equal. rewrite madd_comm. f_equal. unfold hadamard. apply M3_eq; apply V3_eq; cbn [r0 r1 r2 vx vy vz]; apply Rmult_comm.
  - apply mean_sym. apply Forall_forall. intros m Hm. clear - Hm. revert Hm. match goal with |- In _ (map2 _ ?a ?b) -> _ => generalize a b end. intros a. induction a as [|x a IH]; intros [|y b] Hm; cbn in Hm; try contradiction. destruct Hm as [<-|Hm]; [apply edge_tensor_sym|eapply IH, Hm].
Qed.

From Verif Require Import P_Examples10.
Lemma ex_C81_prediction : exists g0, built ex_lattice ex_numbers g0 /\ mdet (cast_m (fun x => x) ex_lattice) <> 0 /\
  apart (fun x => x) (List.length ex_numbers) ex_good /\ g_ref_edges g0 <> [].
Proof. destruct ex_C72 as (g0 & g & H1 & H2 & H3 & H4 & H5 & H6 & _). exists g0. apply Forall_inv in H5. auto. Qed.
