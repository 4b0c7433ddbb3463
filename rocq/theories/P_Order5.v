(** With no symmetry but the identity, acceptance never depends on the order. *)
From Coq Require Import String ZArith Reals Lra Lia Bool Arith List Permutation.
From Verif Require Import Base LinAlg M_Validate M_StructUtils M_Symmetry M_Reference M_Interp M_Art M_Shared
  S_Lattice S_Vec S_Symmetry S_Equivalent S_Interp S_Images S_Response S_Order P_StructUtils P_Symmetry P_Equivalent P_Equiv3 P_EquivTotal P_StructFinal P_Interp P_Interp2
  P_Interp4 P_Interp5 P_Interp6 P_Images P_Response P_Response2 P_Examples2 P_Examples3 P_Order P_Order2 P_Order3 P_Interp3 P_Order4.
Import ListNotations.
Local Open Scope R_scope.

Lemma identity_fixes pos pi : separated (/ 100000) pos -> row_symmetry pos mI v0 pi ->
  forall b, (b < List.length pos)%nat -> pi b = b.
Proof.
  intros S (_ & (P & _) & H) b Hb. destruct (Nat.eq_dec (pi b) b) as [E|N]; [auto|exfalso].
  specialize (H b Hb). destruct H as ((kx & Hx) & (ky & Hy) & (kz & Hz)).
  specialize (S (pi b) b (mkV (IZR kx) (IZR ky) (IZR kz)) (P b Hb) Hb N).
  rewrite vmul_mI in Hx, Hy, Hz.
  assert (Z : vsub (vsub (nth (pi b) pos v0) (nth b pos v0)) (mkV (IZR kx) (IZR ky) (IZR kz)) = v0).
  { apply V3_eq; cbn [vsub vadd v0 vx vy vz] in *; lra. }
  rewrite Z in S. replace (vnorm2 v0) with 0 in S by (vunf; ring). rewrite sqrt_0 in S.
  assert (/ 100000 <= 0) by (apply S; split; [|split]; eexists; reflexivity). lra.
Qed.

Lemma plain_rigid numbers L pos equiv r : make_reference numbers L pos (Some ([(mI, v0)], equiv)) = Ok r ->
  (0 < List.length pos)%nat -> separated (/ 100000) pos -> rigid_symmetries L pos [(mI, v0)] r.
Proof.
  intros H Hn Hs. split; [eauto|]. split; [auto|]. split; [discriminate|]. split; [auto|]. split.
  - constructor; [|constructor]. cbn [fst snd]. split; [|split].
    + unfold short_columns. vunf. lra.
    + exists mI. split; [split; vring|]. unfold cartesian_form. rewrite mmul_mI_l, mmul_mI_r. auto.
    + exists (fun b => b). apply id_row_symmetry.
  - intros op pi [<-|[]] Hp. exists (mI, v0), pi. split; [simpl; auto|]. split; [auto|]. split; [cbn; apply mmul_mI_l|].
    intros b Hb. cbn [fst snd] in Hp. rewrite !(identity_fixes pos pi); auto. rewrite (identity_fixes pos pi); auto.
Qed.

Lemma plain_listed numbers L pos equiv r d : make_reference numbers L pos (Some ([(mI, v0)], equiv)) = Ok r ->
  (0 < List.length pos)%nat -> separated (/ 100000) pos -> List.length d = List.length pos -> apply_pbc_displacement d = d ->
  rows_norm d <> 0 -> images_listed pos [(mI, v0)] r d.
Proof.
  intros H Hn Hs Hl Hr Nz. assert (I : identity_first r []) by (exists numbers, L, pos, equiv; auto).
  destruct (make_reference_ops _ _ _ _ _ _ H) as (E1 & E2 & E3).
  destruct (parent_norm d Nz) as (P1 & P2).
  assert (G : get_equivalent_displacements r (Fin d) = Ok [mkGroup [Fin (rows_scale (/ (10 * rows_norm d)) d)] [(mI, v0)]]).
  { rewrite <- (lone_group r (rows_scale (/ (10 * rows_norm d)) d) I); auto.
    - rewrite <- P1. symmetry. apply parent_groups; auto.
    - unfold rows_scale. rewrite map_length. congruence. }
  eexists. split; [exact G|]. intros op pi [<-|[]] Hp. cbn [fst snd] in *.
  exists (mkGroup [Fin (rows_scale (/ (10 * rows_norm d)) d)] [(mI, v0)]), (rows_scale (/ (10 * rows_norm d)) d), [], (10 * rows_norm d).
  split; [simpl; auto|]. split; [reflexivity|]. rewrite rows_scale_scale.
  replace (10 * rows_norm d * / (10 * rows_norm d)) with 1 by (field; auto). rewrite rows_scale_1.
  transitivity (map (fun i => nth i d v0) (seq 0 (List.length d))); [|apply map_nth_seq]. rewrite Hl. apply map_ext_in. intros b Hb. apply in_seq in Hb.
  rewrite (identity_fixes pos pi); auto; [|lia]. apply vmul_mI.
Qed.

Lemma f_C91_plain numbers L pos equiv r art m0 calls calls' : make_reference numbers L pos (Some ([(mI, v0)], equiv)) = Ok r ->
  (0 < List.length pos)%nat -> separated (/ 100000) pos -> im_ref m0 = r ->
  Forall (fun a => exists d, starts_from r a d /\ List.length d = List.length pos) calls ->
  Permutation calls calls' ->
  ((exists m, all_return art calls m0 m) <-> (exists m, all_return art calls' m0 m)).
Proof.
  intros H Hn Hs Hm HC P. pose proof (plain_rigid _ _ _ _ _ H Hn Hs) as HR.
  destruct (make_reference_ops _ _ _ _ _ _ H) as (E1 & E2 & E3).
  assert (K : forall cs cs', Permutation cs cs' ->
    Forall (fun a => exists d, starts_from r a d /\ List.length d = List.length pos) cs ->
    (exists m, all_return art cs m0 m) -> (exists m, all_return art cs' m0 m)).
  { clear calls calls' HC P. intros cs cs' P HC. apply accepted_perm; auto. rewrite Forall_forall in HC.
    assert (Li : forall a d, works art m0 a -> starts_from r a d -> List.length d = List.length pos -> images_listed pos [(mI, v0)] r d).
    { intros a d W S Ld. eapply plain_listed; eauto.
      - apply (parent_form art m0 a d W); rewrite Hm; [auto|rewrite E2; auto].
      - eapply call_parts; eauto. }
    intros a b Ha Hb Wa Wb. destruct (HC a Ha) as (d & S1 & L1). destruct (HC b Hb) as (e & S2 & L2).
    eapply accepted_symmetric; eauto. }
  split; apply K; auto; [symmetry; auto|]. eapply Permutation_Forall; eauto.
Qed.
