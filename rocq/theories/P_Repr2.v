(** Examples and a counterexample for C97 *)
From Coq Require Import String ZArith NArith Reals Lra Lia Bool Arith List.
From Verif Require Import Base LinAlg M_Validate M_StructUtils M_Symmetry M_Reference M_Interp M_Art M_Text M_Repr
  S_Lattice S_Vec S_Symmetry S_Equivalent S_Interp S_Art S_Images S_Response S_Repr P_Interp P_Interp2 P_Interp3 P_Examples1 P_Examples2 P_Examples3
  P_Images P_Images2 P_Response P_Response2 P_Examples12 P_Examples17 P_Interp5 P_Turned3  P_Repr.
Import ListNotations.
Local Open Scope R_scope.

Lemma f_C97_trust_refuted : ~ forall spl L pos ops r pol l m k n xs us,
  crystal L pos ops r -> linear_response (List.length pos) l -> symmetric_response pos ops l -> sampled r pol l m ->
  begins_with Green k n (interpolation_repr m) ->
  sample_shape (List.length pos) xs -> Forall2 (displacement_from r) xs us ->
  calc_polarizabilities spl m (batch_of (List.length pos) xs) = Ok (map (fun u => madd pol (l u)) us).
Proof.
  intros G. apply f_C92_exact_refuted. intros spl L pos ops r pol l m xs us HC Hl Hs Hm Hn Hx Hu.
  apply (G spl L pos ops r pol l m (List.length (im_basis m)) (3 * List.length pos)%nat xs us); auto.
  apply f_C97_count. destruct (crystal_parts _ _ _ _ HC) as (Ep & _). destruct (sampled_follows _ _ _ _ _ _ _ HC Hl Hs Hm) as (I1 & _). rewrite I1, Ep. cbn. auto.
Qed.

Lemma moves_first v : v <> v0 -> moves_only [v; v0] 0.
Proof. intros H. split; [cbn; lia|]. split; [exact H|]. intros [|[|[|j]]] Hj; try reflexivity. lia. Qed.
Lemma moves_second v : v <> v0 -> moves_only [v0; v] 1.
Proof. intros H. split; [cbn; lia|]. split; [exact H|]. intros [|[|[|j]]] Hj; try reflexivity. lia. Qed.
(** Two inequivalent atoms, one direction each *)
Lemma ex_C97_art : exists set m d, lists_set set /\ reachable m /\ orthonormal (im_basis m) /\ List.length (im_basis m) = 2%nat /\
  no_equivalent_atoms (im_ref m) /\ Forall (fun b => exists j, moves_only b j) (im_basis m) /\
  List.length (rs_equiv (im_ref m)) = List.length (rs_positions (im_ref m)) /\ get_equivalent_atom_dict (im_ref m) = Ok d.
Proof.
  destruct (ex_art mI false) as (r & s1 & s2 & w1 & w2 & _ & _ & Hp & _ & _ & R & _ & N & E & _ & E2 & B).
  exists (nodup Z.eq_dec), s2, [(0%nat, []); (1%nat, [])].
  assert (HR : reachable s2) by (right; exact R).
  pose proof (reachable_inv s2 HR) as (_ & _ & Bo & _). unfold basis_ok in Bo. rewrite B in Bo.
  inversion Bo as [|? ? (_ & U1) Bo']; subst. inversion Bo' as [|? ? (_ & U2) _]; subst.
  set (b1 := direction_of [mkV (/ 5) 0 0; v0]) in *. set (b2 := direction_of [v0; mkV 0 (3 / 10) 0]) in *.
  assert (Z : forall k, vscale k v0 = v0) by (intros; unfold vscale, v0; cbn; f_equal; ring).
  assert (exists x, b1 = [x; v0]) as (x & X).
  { unfold b1, direction_of, rows_scale. cbn [map]. rewrite Z. eauto. }
  assert (exists y, b2 = [v0; y]) as (y & Y).
  { unfold b2, direction_of, rows_scale. cbn [map]. rewrite Z. eauto. }
  assert (M1 : moves_only b1 0).
  { rewrite X. apply moves_first. intros ->. rewrite X in U1. unfold unit_length in U1. rewrite inner_rows in U1. unfold rows_dot in U1. cbn in U1. unfold vdot, v0 in U1. cbn in U1. lra. }
  assert (M2 : moves_only b2 1).
  { rewrite Y. apply moves_second. intros ->. rewrite Y in U2. unfold unit_length in U2. rewrite inner_rows in U2. unfold rows_dot in U2. cbn in U2. unfold vdot, v0 in U2. cbn in U2. lra. }
  assert (D12 : rows_dot b1 b2 = 0) by (rewrite X, Y; unfold rows_dot; cbn; unfold vdot, v0; cbn; ring).
  assert (D21 : rows_dot b2 b1 = 0) by (rewrite X, Y; unfold rows_dot; cbn; unfold vdot, v0; cbn; ring).
  split; [intros l; split; [apply NoDup_nodup|intros z; apply nodup_In]|].
  split; [exact HR|]. rewrite B. split.
  { intros [|[|i]] [|[|j]] b c Hb Hc; cbn in Hb, Hc; try (destruct i; discriminate); try (destruct j; discriminate); injection Hb as <-; injection Hc as <-; cbn [Nat.eqb]; auto; rewrite inner_rows; auto. }
  split; [reflexivity|]. split; [unfold no_equivalent_atoms; rewrite E, Hp; reflexivity|].
  split; [repeat constructor; eauto|]. rewrite E, Hp. split; [reflexivity|]. unfold get_equivalent_atom_dict. rewrite E. reflexivity.
Qed.

(** A complete model of two atoms exchanged by a mirror plane *)
Section Complete.
Context (r : refstruct) (HC : crystal mI sw_pos sw_ops r)
  (H : make_reference [8%Z; 8%Z] mI sw_pos (Some (sw_ops, [0%nat; 0%nat])) = Ok r).
Lemma on_reached m v : sampled r mI ex_resp m -> reachable_incl m -> vnorm2 v = / 100 ->
  (forall b, In b (im_basis m) -> rows_dot b (on1 v) = 0) ->
  exists m', sampled r mI ex_resp m' /\ reachable_incl m' /\ im_basis m' = im_basis m ++ [on1 (vscale 10 v); on2 (vscale 10 (vmul v sw))].
Proof.
  intros Hm Hr Hv Ho. destruct (crystal_parts _ _ _ _ HC) as (Ep & El & _).
  destruct (sampled_follows _ _ _ _ _ _ _ HC ex_resp_linear ex_resp_symmetric Hm) as (I1 & I2 & I3 & _ & I5 & _).
  pose proof (fun q1 q2 => on_add r H m v q1 q2 I1 I3 I5 Hv Ho) as A.
  destruct (A (madd mI (ex_resp (rows_scale (- / 10) (direction_of (on1 v)))))
              (madd mI (ex_resp (rows_scale (/ 10) (direction_of (on1 v)))))) as (m' & w & A1 & A2).
  exists m'. split; [|split; [|exact A2]].
  - apply (sampled_dof r mI ex_resp m (on1 v) (on1 v) sw_amps true m' w); auto.
    + rewrite Ep. reflexivity.
    + apply half_cell_small. rewrite on1_norm, Hv. lra.
    + intros gs g Hg Hin. rewrite (on_groups r H v Hv) in Hg. injection Hg as <-.
      destruct Hin as [<-|[<-|[]]]; do 2 eexists; (split; [reflexivity|]); intros x [Hx|[]]; injection Hx as <-; auto.
    + rewrite El, rows_mul_mI. auto.
    + discriminate.
  - refine (reachable_incl_step _ _ _ _ _ _ _ Hr _ _ A1); reflexivity.
Qed.
Lemma complete_model : exists m, fully_sampled mI sw_pos sw_ops r mI ex_resp m /\ reachable_incl m.
Proof.
  assert (R0 : reachable_incl (make_model r mI false)) by (exists r, mI, false, []; repeat split; try constructor; eapply crystal_valid; eauto).
  destruct (on_reached (make_model r mI false) (mkV (/ 10) 0 0) (sampled_new _ _ _) R0) as (m1 & S1 & R1 & B1); [vunf; lra|intros b []|].
  cbn [make_model im_basis List.app] in B1.
  destruct (on_reached m1 (mkV 0 (/ 10) 0) S1 R1) as (m2 & S2 & R2 & B2); [vunf; lra| |].
  { rewrite B1. intros b [<-|[<-|[]]]; rewrite ?dot11, ?dot21; vunf; lra. }
  rewrite B1 in B2. cbn [List.app] in B2.
  destruct (on_reached m2 (mkV 0 0 (/ 10)) S2 R2) as (m3 & S3 & R3 & B3); [vunf; lra| |].
  { rewrite B2. intros b [<-|[<-|[<-|[<-|[]]]]]; rewrite ?dot11, ?dot21; vunf; lra. }
  rewrite B2 in B3. cbn [List.app] in B3.
  exists m3. split; [|exact R3]. split; [auto|]. split; [apply ex_resp_linear|]. split; [apply ex_resp_symmetric|]. split; [auto|].
  rewrite B3. split; [|reflexivity].
  intros i j b c Hi Hj. rewrite inner_rows.
  do 6 (destruct i as [|i]; [cbn in Hi; injection Hi as <-;
    do 6 (destruct j as [|j]; [cbn in Hj; injection Hj as <-; cbn [Nat.eqb];
      rewrite ?dot11, ?dot22, ?dot12, ?dot21, ?dot_ten, ?dot_sw; unfold vdot; cbn [vx vy vz]; lra|]);
    destruct j; discriminate|]).
  destruct i; discriminate.
Qed.
End Complete.

(** It prints in green, a new one in red. *)
Lemma ex_C97 : exists r m, fully_sampled mI sw_pos sw_ops r mI ex_resp m /\ reachable m /\
  begins_with Green 6 6 (interpolation_repr m) /\ begins_with Red 0 6 (interpolation_repr (make_model r mI false)) /\
  interpolation_repr m <> interpolation_repr (make_model r mI false).
Proof.
  destruct ex_crystal as (r & HC & HM). destruct (complete_model r HC HM) as (m & F & R). exists r, m. pose proof F as (_ & Hl & Hs & Hm & Ho & Hn).
  destruct (crystal_parts _ _ _ _ HC) as (Ep & _). destruct (sampled_follows _ _ _ _ _ _ _ HC Hl Hs Hm) as (I1 & _).
  split; [exact F|]. split; [left; destruct R as (r' & pol & dm & ops & A & B & _ & C); eauto 8|].
  assert (G : begins_with Green 6 6 (interpolation_repr m)) by (apply f_C97_count; rewrite Hn, I1, Ep; cbn; auto).
  split; [exact G|]. split.
  - apply f_C97_count. unfold make_model. cbn. rewrite Ep. cbn. lia.
  - intros K. rewrite K in G. apply f_C97_count in G as (G & _). cbn in G. discriminate.
Qed.
