(** A prediction follows the equations of the network: C81. *)
From Coq Require Import ZArith Reals Bool Arith List Lia Lra Permutation.
From Verif Require Import Base LinAlg M_Validate M_StructUtils M_Torch S_Dataset S_Lattice P_StructUtils S_Torch M_Gnn S_Gnn S_Edge S_Relabel S_Network
  P_Torch P_Torch2 P_Gnn P_Gnn2 P_Gnn3 P_Gnn4 P_GnnNew P_Edge P_Edge2 P_Relabel P_Relabel2 P_Relabel3 P_Relabel4 P_Network.
Import ListNotations.
Local Open Scope R_scope.

Lemma smeared_is start stop m gf ds : gaussian_new start stop m = Ok gf -> start <> stop -> apply_gaussian gf ds = map (smeared start stop m) ds.
Proof.
  intros H N. unfold gaussian_new, linspace in H. destruct m as [|[|m]]; try discriminate. assert (OI : forall (A : Type) (a b : A), Ok a = Ok b -> b = a) by (intros A a b Q; congruence). cbn [seq map] in H. apply OI in H. subst gf. unfold apply_gaussian. apply map_ext. intros d.
  cbn [gf_coefficient gf_offset]. unfold smeared. change (S (S m) - 1)%nat with (S m). set (w := (stop - start) / INR (S m)).
  assert (W : w <> 0). { unfold w. apply Rmult_integral_contrapositive. split; [lra|]. apply Rinv_neq_0_compat. apply not_0_INR. discriminate. }
  clearbody w. change (start + INR 0 * w :: start + INR 1 * w :: map (fun k => start + INR k * w) (seq 2 m)) with (map (fun k => start + INR k * w) (seq 0 (S (S m)))).
  rewrite map_map. apply map_ext. intros k. f_equal. cbn [INR]. field. replace (start + 1 * w - (start + 0 * w)) with w by ring. exact W.
Qed.
Lemma rows_embed g l ne : mapM (node_embedding g) l = Ok ne -> exists vs, Forall2 (fun z v => embed g z = Ok v) l vs /\ ne = map (atom_row g) vs.
Proof.
  revert ne. induction l as [|z l IH]; intros ne H; cbn [mapM] in H; [injection H as <-; exists []; split; [constructor|reflexivity]|].
  unfold node_embedding at 1 in H. destruct (embed g z) as [v|] eqn:E; [|discriminate]. cbn [rbind] in H. destruct (mapM (node_embedding g) l) as [r|]; [|discriminate]. cbn [rbind] in H. injection H as <-.
  destruct (IH _ eq_refl) as (vs & F & ->). exists (v :: vs). split; [constructor; assumption|]. cbn [map]. f_equal. unfold atom_row. rewrite !affine_is, !(map_ext _ _ activation_is). reflexivity.
Qed.
Lemma geometry cast g p : net_ok g -> mdet (cast_m cast (g_lattice g)) <> 0 -> apart cast (List.length (g_atomic_numbers g)) p ->
  exists geo, Forall2 (edge_geometry (cast_m cast (g_lattice g)) (map (vmap cast) p)) (pairs_of (g_ref_edges g)) geo /\
    sample_vectors g (cast_m cast (g_lattice g)) (map (vmap cast) p) = map (fun x => Some (snd x)) geo /\
    sample_distances g (cast_m cast (g_lattice g)) (map (vmap cast) p) = map fst geo.
Proof.
  intros (HC & HN & HE & HR & HT) HD (Hl & HA). unfold sample_vectors, sample_distances, pairs_of. unfold edges_ok in HR. revert HR. generalize (g_ref_edges g) as es. induction es as [|[[s i] j] es IH]; intros HR.
  - exists []. repeat split. constructor.
  - apply Forall_cons_iff in HR. destruct HR as [(Nij & Hi & Hj) HR]. destruct (IH HR) as (geo & HU & EU & ED). clear IH HR.
    destruct (nth_error p i) as [pi|] eqn:Ei; [|apply nth_error_None in Ei; lia]. destruct (nth_error p j) as [pj|] eqn:Ej; [|apply nth_error_None in Ej; lia].
    assert (Hd : cart_displacement [cast_m cast (g_lattice g)] [map (vmap cast) p] 0 i j = vmul (vmap wrapd (vsub (vmap cast pj) (vmap cast pi))) (cast_m cast (g_lattice g))).
    { unfold cart_displacement. cbn [nth]. rewrite (nth_error_nth (map (vmap cast) p) i v0 (map_nth_error _ _ _ Ei)), (nth_error_nth (map (vmap cast) p) j v0 (map_nth_error _ _ _ Ej)). reflexivity. }
    assert (Hv : cart_displacement [cast_m cast (g_lattice g)] [map (vmap cast) p] 0 i j <> v0).
    { rewrite Hd. intros E. destruct (minv_exists _ HD) as [inv Einv]. apply minv_Ok in Einv. destruct Einv as (I1 & _).
      assert (E0 : vmap wrapd (vsub (vmap cast pj) (vmap cast pi)) = v0). { rewrite <- (vmul_mI (vmap wrapd _)), <- I1, vmul_mmul, E. apply vmul_v0. }
      apply (HA i j pi pj Nij Ei Ej). assert (C : forall a b, wrapd (a - b) = 0 -> congr1 b a). { intros a b Ew. pose proof (wrapd_congr (a - b)) as [k K]. rewrite Ew in K. exists (- k)%Z. rewrite opp_IZR. lra. }
      injection E0. cbn [vsub vx vy vz vmap]. intros E3 E2 E1. split; [|split]; cbn [vx vy vz vmap]; apply C; assumption. }
    destruct (normalized_spec _ Hv) as (u & Eu & Hu & Du). exists ((vnorm (cart_displacement [cast_m cast (g_lattice g)] [map (vmap cast) p] 0 i j), u) :: geo). split; [|split].
    + cbn [map]. constructor; [|exact HU]. split; [apply norm_pos, Hv|]. split; [exact Du|]. exists (vmap cast pi), (vmap cast pj), (vmap wrapd (vsub (vmap cast pj) (vmap cast pi))).
      split; [apply (map_nth_error _ _ _ Ei)|]. split; [apply (map_nth_error _ _ _ Ej)|]. split; [split; [|split]; apply wrapd_image|]. rewrite <- Hd. exact Hu.
    + cbn [map snd]. rewrite Eu, EU. reflexivity.
    + cbn [map fst]. rewrite ED. f_equal. unfold cart_distance, vnorm, vnorm2, vdot. f_equal. ring.
Qed.
Section Main.
Context (first : bool) (dimenet : list (nat * nat) -> nat -> triplets) (HD : triplet_finder first dimenet).
Lemma f_C81_network order w cast lattice numbers positions cutoff node edge num_passes start stop ms ss mean stddev g0 g cast' p :
  potgnn_new dimenet order w cast lattice numbers positions cutoff node edge num_passes start stop ms ss mean stddev = Ok g0 ->
  List.length positions = List.length numbers -> iterates_set order numbers -> List.length (w_embedding w) = List.length order ->
  history g0 g -> mdet (cast_m cast' lattice) <> 0 -> apart cast' (List.length numbers) p -> g_ref_edges g0 <> [] ->
  let E := map (fun '(_, i, j) => (i, j)) (g_ref_edges g0) in
  exists vs geo, Forall2 (fun z v => embed g z = Ok v) numbers vs /\
    Forall2 (edge_geometry (cast_m cast' lattice) (map (vmap cast') p)) E geo /\
    let rows := passes first E (g_node_blocks g) (g_edge_blocks g) (map (atom_row g) vs)
                  (map (fun x => smeared start stop (Z.to_nat edge) (fst x)) geo) in
    snd (calc_polarizabilities cast' g [1; List.length numbers; 3]%nat [p]) =
    Ok [Some (madd mean (hadamard stddev (mean_tensor (map2 (fun r x => edge_tensor (fun k => nth k (channels g r) 0) (snd x)) rows geo))))].
Proof.
  intros N HL HO HW H HDet HA Hne E.
  destruct (new_triplets first dimenet HD _ _ _ _ _ _ _ _ _ _ _ _ _ _ _ _ _ N HL) as [T1 T2].
  assert (B : built lattice numbers g0) by (do 15 eexists; split; [exact N|]; split; [exact HL|]; split; [exact HO|]; split; [exact HW|exact T2]).
  destruct (built_ok _ _ _ B) as (K & _ & EN). pose proof (history_same g0 g K H) as S. pose proof (same_net_ok _ _ K S) as HG.
  destruct (new_parts _ _ _ _ _ _ _ _ _ _ _ _ _ _ _ _ _ _ N) as (P1 & P2 & P3 & P4 & P5 & P6 & P7 & P8).
  destruct S as (S1 & S2 & S3 & S4 & S5 & S6 & S7 & S8 & (_ & _ & S9 & _) & _).
  assert (EL : g_lattice g = lattice) by congruence. assert (EN2 : g_atomic_numbers g = numbers) by congruence.
  assert (ER : g_ref_edges g = g_ref_edges g0) by congruence. assert (EG : g_gaussian g = g_gaussian g0) by congruence.
  assert (EM : g_mean g = mean) by congruence. assert (ES : g_stddev g = stddev) by congruence. assert (ET : bt_ref (g_triplets g) = bt_ref (g_triplets g0)) by congruence.
  assert (HN : start <> stop).
  { destruct (f_C84_filter _ _ _ _ _ _ _ _ _ _ _ _ _ _ _ _ _ _ _ N H) as (step & Hs & Hstop & _).
    assert (HE : (2 <= edge)%Z). { unfold gaussian_new, linspace in P8. destruct (Z.to_nat edge) as [|[|m]] eqn:EE; try discriminate. lia. }
    apply IZR_le in HE. rewrite minus_IZR in Hstop. nra. }
  destruct (embed_ok g (proj2 (proj2 (proj2 (proj2 HG))))) as [ne HM]. rewrite EN2 in HM. destruct (rows_embed _ _ _ HM) as (vs & HV & EV).
  rewrite <- EL, <- EN2 in *. destruct (geometry cast' (eval_mode g) p HG HDet HA) as (geo & HU & EU & ED). change (g_ref_edges (eval_mode g)) with (g_ref_edges g) in HU. change (g_lattice (eval_mode g)) with (g_lattice g) in *.
  exists vs, geo. split; [exact HV|]. split; [unfold E; rewrite <- ER; exact HU|]. intros rows.
  pose proof (good_sample cast' (eval_mode g) ne p HG HM HDet HA) as HS. change (g_lattice (eval_mode g)) with (g_lattice g) in HS.
  pose proof (sample_pols_length (eval_mode g) (cast_m cast' (g_lattice g)) ne) as LP.
  pose proof HG as (HC & HNn & HE & HR & HT). specialize (LP HC HNn HE HM (map (vmap cast') p)). change (g_ref_edges (eval_mode g)) with (g_ref_edges g) in LP.
  assert (ERows : snd (message_passing (g_node_blocks g) (g_edge_blocks g) (bt_ref (g_triplets g)) ne
     (apply_gaussian (g_gaussian g) (sample_distances (eval_mode g) (cast_m cast' (g_lattice g)) (map (vmap cast') p)))) = rows).
  { unfold rows. rewrite ED, ET, EG, (smeared_is _ _ _ _ _ P8 HN), map_map, EV. change (map (fun '(_, i, j) => (i, j)) (g_ref_edges g0)) with (pairs_of (g_ref_edges g0)) in E. fold E in T1 |- *.
    apply passes_is; [exact T1|]. rewrite map_length. assert (L : List.length E = List.length geo); [|symmetry; exact L]. clear - HU ER. unfold E, pairs_of in *. rewrite <- ER. clear E ER. induction HU; cbn; congruence. }
  assert (EP : sample_pols (eval_mode g) (cast_m cast' (g_lattice g)) ne (map (vmap cast') p) =
    map (fun x => Some (six x)) (map2 (fun r x => edge_tensor (fun k => nth k (channels g r) 0) (snd x)) rows geo)).
  { unfold sample_pols, sample_embedding. rewrite EU. change (g_node_blocks (eval_mode g)) with (g_node_blocks g). change (g_edge_blocks (eval_mode g)) with (g_edge_blocks g). change (g_triplets (eval_mode g)) with (g_triplets g). change (g_gaussian (eval_mode g)) with (g_gaussian g).
    rewrite ERows. clear ERows. assert (DU : Forall (fun x => vdot (snd x) (snd x) = 1) geo). { clear - HU. induction HU as [|[? ?] [? ?] ? ? H]; constructor; [apply H|assumption]. }
    clear - DU. clearbody rows. revert rows. induction DU as [|[d u] geo Hu _ IH]; intros [|r l]; cbn [map combine map2]; try reflexivity. rewrite IH. f_equal. cbn [snd] in *. rewrite (epv_unit _ u Hu). rewrite channels_is by reflexivity. reflexivity. }
  etransitivity; [exact (calc_good cast' g ne [p] HG HM (Forall_cons p HS (Forall_nil _)))|]. cbn [map]. unfold answer, sample_result. rewrite mean_of by exact LP.
  rewrite EP in *. rewrite all_some_map_some. rewrite LP. destruct (Reqb _ 0) eqn:E0.
  { apply Reqb_true in E0. exfalso. apply Hne. rewrite <- ER. destruct (g_ref_edges g); [reflexivity|]. cbn [List.length] in E0. pose proof (lt_0_INR (Datatypes.S (List.length l)) ltac:(lia)). lra. }
  rewrite <- LP, map_length, six_sum, six_mean. unfold finish. cbn [option_map]. rewrite six_tensor.
  - rewrite EM, ES. do 3 f_equal. rewrite madd_comm. f_equal. unfold hadamard. apply M3_eq; apply V3_eq; cbn [r0 r1 r2 vx vy vz]; apply Rmult_comm.
  - apply mean_sym. apply Forall_forall. intros m Hm. clear - Hm. revert Hm. generalize rows geo. intros a. induction a as [|x a IH]; intros [|y b] Hm; cbn in Hm; try contradiction. destruct Hm as [<-|Hm]; [apply edge_tensor_sym|eapply IH, Hm].
Qed.
End Main.
