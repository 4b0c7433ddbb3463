(** Calls without ties: a single operation, and displacements of a single atom (C93) *)
From Coq Require Import String ZArith Reals Bool Arith List Permutation Lia Lra.
From Verif Require Import Base LinAlg M_Validate M_StructUtils M_Symmetry M_Reference M_Interp M_Art M_Shared S_Lattice S_Vec S_Symmetry S_Equivalent S_Order
  P_StructUtils P_Symmetry P_Equivalent P_Equiv2 P_StructFinal P_Interp P_Interp3 P_Response2 P_Interp5 P_Examples3 P_Images P_Order P_Order3 S_Relabel P_Relabel S_Atoms P_Atoms2 P_Atoms3.
Import ListNotations.
Local Open Scope R_scope.

Lemma f_C93_single_operation numbers L pos op equiv r d : make_reference numbers L pos (Some ([op], equiv)) = Ok r -> decisive r d.
Proof.
  intros H gs g lead rest e Hg Hin Ed He. apply make_reference_ops in H as (Eo & _).
  unfold get_equivalent_displacements in Hg. destruct (displace_positions _ _); [|discriminate]. cbn [rbind] in Hg. rewrite Eo in Hg.
  destruct (rs_perms r) as [|P ps]; cbn [combine equivalent_loop rmap fst] in Hg; [injection Hg as <-; destruct Hin|].
  destruct (candidate r _ op P) as [c|]; [|discriminate]. cbn [rbind classify] in Hg. unfold is_orthogonal_to_all in Hg. cbn in Hg. injection Hg as <-. destruct Hin as [<-|[]]. cbn in Ed. injection Ed as -> <-.
  destruct He as [He|[]]. injection He as <-. left. exists 1. rewrite rows_scale_1. reflexivity.
Qed.

Lemma biggest_v0 : biggest v0 = 0.
Proof. unfold biggest, v0. cbn. rewrite Rabs_R0. unfold Rmax. destruct (Rle_dec 0 0); destruct (Rle_dec 0 _); lra. Qed.
Lemma biggest_pos v : v <> v0 -> 0 < biggest v.
Proof.
  intros H. pose proof (comp_biggest v 0 ltac:(lia)) as H0. pose proof (comp_biggest v 1 ltac:(lia)) as H1. pose proof (comp_biggest v 2 ltac:(lia)) as H2. cbn [comp] in *.
  destruct (Rle_lt_dec (biggest v) 0) as [K|K]; [|exact K]. exfalso. apply H.
  assert (Z : forall x, Rabs x <= 0 -> x = 0). { intros x Hx. destruct (Req_dec x 0) as [|N]; [assumption|]. pose proof (Rabs_pos_lt x N). lra. }
  destruct v as [a b c]; cbn in *. unfold v0. f_equal; apply Z; lra.
Qed.

Lemma f_C93_single_atom numbers L pos ops equiv r i direction amps pols :
  make_reference numbers L pos (Some (ops, equiv)) = Ok r ->
  separated (/ 100000) pos -> (0 < List.length pos)%nat -> ops <> [] ->
  Forall (fun op => short_columns (fst op) /\ mdet (fst op) <> 0 /\ exists pi, row_symmetry pos (fst op) (snd op) pi) ops ->
  unambiguous r (Art i direction amps pols).
Proof.
  intros H Hsep Hn Hne Hops d (f & k & Ef & Ek & Ed). split; [|exact I].
  pose proof H as H'. apply make_reference_ops in H' as (Eo & Ep & El & _).
  pose proof (make_reference_wf _ _ _ _ _ _ Hn Hne H) as (_ & _ & _ & _ & Hok). rewrite Ep in *.
  apply positions_ok_spec in Hok. pose proof (py_index_lt _ _ _ Ek) as Hk.
  assert (Hred : apply_pbc_displacement d = d).
  { subst d. unfold get_frac_direction in Ef. destruct direction as [|x [|y [|z []]]]; try discriminate. destruct (minv _); [|discriminate]. cbn [rbind] in Ef. injection Ef as <-. apply wrapd_vec_reduced. }
  assert (Ld : List.length d = List.length pos) by (subst d; rewrite set_nth_length, repeat_length; reflexivity).
  destruct (Req_dec (rows_norm d) 0) as [Z|Nz].
  - intros gs g lead rest e Hg. apply (nan_steady gs).
    assert (S : scale_displacement (Fin d) = Nan (List.length d)).
    { cbn [scale_displacement]. rewrite Hred, Z. destruct (Reqb 0 0) eqn:Q; [|apply Reqb_false in Q; tauto]. destruct d; [cbn in Ld; lia|reflexivity]. }
    apply (groups_nan r (List.length d)). rewrite <- Hg. unfold get_equivalent_displacements. rewrite S. reflexivity.
  - intros gs g lead rest e Hg Hin Eg _. right.
    assert (K := f_C17 numbers L pos ops equiv r d d gs H Hok Hsep Hn).
    rewrite Forall_forall in Hops.
    assert (Ho1 : Forall (fun op => short_columns (fst op) /\ exists pi, row_symmetry pos (fst op) (snd op) pi) ops).
    { apply Forall_forall. intros op Ho. destruct (Hops op Ho) as (A & _ & B). split; assumption. }
    assert (Hh : half_images d d) by (apply apply_pbc_displacement_spec; symmetry; exact Hred).
    specialize (K Ho1 Ld Hh Nz Hg).
    rewrite Forall_forall in K. specialize (K g Hin). rewrite Eg in K. inversion K as [|? op ? ? (pi & Ho & Hs & E) _ E1 E2]. clear E1 E2. injection E as ->. subst d.
    destruct (Hops op Ho) as (_ & Hdet & _). destruct Hs as (_ & (P1 & P2 & P3) & _). destruct (P3 k Hk) as (b0 & Hb0 & Eb0).
    assert (LL : forall F : nat -> V3, List.length (map F (seq 0 (List.length pos))) = List.length pos) by (intros; rewrite map_length; apply seq_length).
    assert (NN : forall (F : nat -> V3) b, (b < List.length pos)%nat -> nth b (map F (seq 0 (List.length pos))) v0 = F b).
    { intros F b Hb. rewrite (nth_indep _ _ (F 0%nat)) by (rewrite LL; exact Hb). rewrite map_nth, seq_nth by exact Hb. reflexivity. }
    assert (ND : forall b, nth b (set_nth k f (repeat v0 (List.length pos))) v0 = if Nat.eqb b k then f else v0).
    { intros b. destruct (lt_dec b (List.length pos)) as [Hb|Hb].
      - apply nth_error_nth. rewrite set_nth_nth_error, repeat_length. destruct (Nat.eqb_spec b k) as [->|C]; [destruct (Nat.ltb_spec k (List.length pos)); [reflexivity|lia]|].
        destruct (lt_some (repeat v0 (List.length pos)) b) as [x0 Ex]; [rewrite repeat_length; exact Hb|]. rewrite Ex. apply nth_error_In, repeat_spec in Ex. congruence.
      - rewrite nth_overflow by (rewrite set_nth_length, repeat_length; lia). destruct (Nat.eqb_spec b k); [lia|reflexivity]. }
    exists b0. split; [rewrite LL; exact Hb0|]. intros b Hb Hbn. rewrite LL in Hb. rewrite !NN by assumption. rewrite !ND.
    destruct (Nat.eqb_spec (pi b) k) as [C|C]; [exfalso; apply Hbn; apply P2; try assumption; congruence|]. rewrite Eb0, Nat.eqb_refl.
    rewrite vscale_v0, vmul_v0, biggest_v0. apply biggest_pos. intros E0. set (c := / (rows_norm (set_nth k f (repeat v0 (List.length pos))) * 10)) in *.
    destruct (minv_exists (fst op) Hdet) as (inv & Hinv). apply minv_Ok in Hinv as (I1 & _ & _).
    assert (Ef0 : vscale c f = v0). { rewrite <- (vmul_mI (vscale c f)), <- I1, vmul_mmul, E0, vmul_v0. reflexivity. }
    assert (Hc : c <> 0) by (unfold c; apply Rinv_neq_0_compat; lra).
    assert (f = v0). { rewrite <- (vscale_1 f). replace 1 with (/ c * c) by (field; exact Hc). rewrite <- vscale_vscale, Ef0, vscale_v0. reflexivity. }
    apply Nz. unfold rows_norm. rewrite norm2_single by exact Hk. subst f. replace (vnorm2 v0) with 0 by (vunf; ring). apply sqrt_0.
Qed.
