(** Small corollaries in the form the C_Interp theorems state them. *)
From Coq Require Import String ZArith Reals Lra Lia Psatz Bool Arith List.
From Verif Require Import Base LinAlg M_Validate M_StructUtils M_Symmetry M_Reference M_Interp
  S_Lattice S_Vec S_Symmetry S_Equivalent S_Interp P_StructUtils P_Symmetry P_Equivalent P_Equiv2 P_Equiv3 P_EquivTotal
  P_Interp P_Interp2 P_InterpEval P_Interp3 P_Interp4 P_Interp5 P_Interp6 P_Interp7.
Import ListNotations.
Local Open Scope R_scope.

Lemma f_C23_setter m shape value : List.length value = fold_right Nat.mul 1%nat shape ->
  (shape = [List.length (im_mask m)] -> set_mask shape value m =
     ((mkIM (im_ref m) (im_refpol m) (im_dummy m) (im_basis m) (im_interp m) value, []), Ok tt)) /\
  (shape <> [List.length (im_mask m)] -> set_mask shape value m = ((m, []), Err ValueError)).
Proof.
  intros _. unfold set_mask, bind, get, lift, put. split.
  - intros ->. assert (V: verify_ndarray_shape [List.length (im_mask m)] [Some (List.length (im_mask m))] = Ok tt)
      by (apply verify_ndarray_shape_spec; repeat constructor).
    rewrite V. reflexivity.
  - intros H. destruct (verify_ndarray_shape shape [Some (List.length (im_mask m))]) as [[]|e] eqn:V.
    + exfalso. apply H. apply verify_ndarray_shape_spec in V. inversion V as [|d ? t ? E V']; subst. inversion V'; subst. auto.
    + assert (W := proj2 (verify_ndarray_shape_spec shape [Some (List.length (im_mask m))])).
      rewrite V in W. rewrite W; [reflexivity|discriminate].
Qed.

Lemma f_C23_complement_api spl m mask xs ma mb mc : reachable m -> im_dummy m = false ->
  let n := List.length (rs_positions (im_ref m)) in
  sample_shape n xs ->
  set_mask [List.length mask] mask m = ((ma, []), Ok tt) ->
  set_mask [List.length mask] (map negb mask) m = ((mb, []), Ok tt) ->
  unmask m = ((mc, []), Ok tt) ->
  exists ra rb rc,
    calc_polarizabilities spl ma (batch_of n xs) = Ok ra /\
    calc_polarizabilities spl mb (batch_of n xs) = Ok rb /\
    calc_polarizabilities spl mc (batch_of n xs) = Ok rc /\
    map (fun a => msub a (im_refpol m)) rc =
    map2 madd (map (fun a => msub a (im_refpol m)) ra) (map (fun a => msub a (im_refpol m)) rb).
Proof.
  intros Hr Hd n Hx Ha Hb Hc.
  assert (L: List.length mask = List.length (im_mask m)).
  { destruct (Nat.eq_dec (List.length mask) (List.length (im_mask m))) as [E|E]; auto.
    rewrite (proj2 (f_C23_setter m [List.length mask] mask ltac:(simpl; lia))) in Ha; [discriminate|congruence]. }
  rewrite (proj1 (f_C23_setter m [List.length mask] mask ltac:(simpl; lia))) in Ha by congruence.
  rewrite (proj1 (f_C23_setter m [List.length mask] (map negb mask) ltac:(simpl; rewrite map_length; lia))) in Hb by congruence.
  apply f_C23_unmask in Hc as [_ ->]. injection Ha as <-. injection Hb as <-.
  destruct (f_C23_complement spl m mask xs Hr Hd Hx L) as (ra & rb & rc & A & B & C & D).
  exists ra, rb, rc. rewrite <- L. auto.
Qed.

Lemma f_C23_all spl m xs ma : reachable m -> im_dummy m = false ->
  let n := List.length (rs_positions (im_ref m)) in
  sample_shape n xs ->
  set_mask [List.length (im_basis m)] (repeat true (List.length (im_basis m))) m = ((ma, []), Ok tt) ->
  calc_polarizabilities spl ma (batch_of n xs) = Ok (repeat (im_refpol m) (List.length xs)).
Proof.
  intros Hr Hd n Hx Ha. apply reachable_inv in Hr. pose proof Hr as (Wf & (C1 & C2 & C3) & Hb & Hs).
  rewrite (proj1 (f_C23_setter m [List.length (im_basis m)] (repeat true (List.length (im_basis m)))
    ltac:(simpl; rewrite repeat_length; lia))) in Ha by congruence.
  injection Ha as <-.
  assert (I: inv (with_mask m (repeat true (List.length (im_basis m))))).
  { apply with_mask_inv; auto. rewrite repeat_length. auto. }
  unfold n. etransitivity; [exact (calc_regular spl (with_mask m (repeat true (List.length (im_basis m)))) xs I Hd Hx)|].
  f_equal. unfold with_mask. clear. induction xs as [|p xs IH]; simpl; auto. rewrite IH. f_equal.
  unfold predict. simpl. generalize (cart_disp (im_ref m) p). intros u.
  replace (prediction _ u _ _ _) with m0; [apply madd_m0_l|]. symmetry.
  clear IH. generalize (im_interp m). induction (im_basis m) as [|b bs IHb]; intros [|i is]; simpl; auto.
  rewrite IHb. apply madd_m0_l.
Qed.

Lemma f_C26_tables spl m l xs us : reachable m -> im_dummy m = false ->
  let n := List.length (rs_positions (im_ref m)) in
  linear_response n l -> orthonormal (im_basis m) -> spans n (im_basis m) ->
  Forall (fun k => k = false) (im_mask m) ->
  Forall2 (fun b sp => sp_order sp = 1%nat /\ forall p, In p (sp_pts sp) -> snd p = mscale (fst p) (l b))
    (im_basis m) (im_interp m) ->
  sample_shape n xs -> Forall2 (displacement_from (im_ref m)) xs us ->
  calc_polarizabilities spl m (batch_of n xs) = Ok (map (fun u => madd (im_refpol m) (l u)) us).
Proof. intros Hr. apply f_C26_state. apply reachable_inv. auto. Qed.

Lemma f_C28_order_always cart amps pols order inc s : (order < 1)%Z ->
  exists e, add_dof cart amps pols order inc s = ((s, []), Err e).
Proof.
  intros Ho. unfold add_dof. unfold bind at 1, get at 1. unfold bind at 1, lift at 1.
  destruct (get_frac_displacement_arr _ _); [|eauto].
  unfold bind at 1, lift at 1. destruct (verify_ndarray_shape _ _); [|eauto].
  unfold bind at 1, lift at 1. destruct (verify_ndarray_shape _ _); [|eauto].
  unfold bind at 1, lift at 1. destruct (get_dof _ _ _ _ _); [|eauto].
  unfold construct_and_add. destruct (Z.ltb_spec order 1); [|lia]. simpl. eauto.
Qed.
