(** A concrete structure used as non-vacuity witness: two atoms exchanged by a mirror. *)
From Coq Require Import String ZArith Reals Lra Lia Psatz Bool List.
From Verif Require Import Base LinAlg Constants M_Validate M_StructUtils M_Symmetry M_Reference
  S_Lattice S_Vec S_Symmetry S_Equivalent P_StructUtils P_Minimal P_Reference P_Symmetry P_Equivalent P_Equiv2 P_Equiv3
  P_EquivTotal P_StructFinal.
Import ListNotations.
Local Open Scope R_scope.

Definition ex_pos : list V3 := [mkV (/4) 0 0; mkV (3/4) 0 0].
Definition ex_mirror : M3 := mkM (mkV (-1) 0 0) (mkV 0 1 0) (mkV 0 0 1).
Definition ex_lat : M3 := mkM (mkV 2 0 0) (mkV 0 3 0) (mkV 0 0 4).
Definition ex_ops : list (M3 * V3) := [(mI, v0); (ex_mirror, v0)].
Definition swap2 (b : nat) : nat := match b with 0 => 1 | 1 => 0 | n => n end%nat.
Definition ex_disp : list V3 := [mkV (/10) (/5) 0; v0].

Lemma ex_pos_ok : Forall (vall (fun x => 0 <= x <= 1)) ex_pos.
Proof. unfold ex_pos. repeat (constructor; [unfold vall; simpl; lra|]). constructor. Qed.
Lemma ex_mirror_int : integer_matrix ex_mirror.
Proof.
  unfold ex_mirror. repeat split; simpl; try (exists 0%Z; reflexivity); try (exists 1%Z; reflexivity);
  exists (-1)%Z; reflexivity.
Qed.
Lemma ex_swap : permutes 2 swap2.
Proof.
  split; [|split].
  - intros [|[|b]] H; simpl; lia.
  - intros [|[|b]] [|[|c]] H1 H2; simpl; try lia.
  - intros [|[|a]] H; [exists 1%nat|exists 0%nat|]; simpl; try lia; split; auto.
Qed.
Lemma ex_id : permutes 2 (fun b => b).
Proof. split; [auto|split; [auto|]]. intros a H; exists a; auto. Qed.
Lemma ex_row_symmetry : row_symmetry ex_pos ex_mirror v0 swap2.
Proof.
  split; [apply ex_mirror_int|split; [apply ex_swap|]].
  intros [|[|b]] H; simpl in *; try lia; unfold vcongr, ex_mirror; vunf.
  - split; [exists (-1)%Z|split; [exists 0%Z|exists 0%Z]]; lra.
  - split; [exists (-1)%Z|split; [exists 0%Z|exists 0%Z]]; lra.
Qed.
Lemma ex_row_identity : row_symmetry ex_pos mI v0 (fun b => b).
Proof.
  split; [apply mI_integer|split; [apply ex_id|]].
  intros b Hb. rewrite vmul_mI. replace (vadd (nth b ex_pos v0) v0) with (nth b ex_pos v0) by vring. apply vcongr_refl.
Qed.
Lemma ex_separated : separated (/ 100000) ex_pos.
Proof.
  intros b c [n1 n2 n3] Hb Hc N ((k1 & H1) & _). simpl in H1. subst n1.
  assert (I: (k1 = 0)%Z \/ (k1 = 1)%Z \/ (k1 = -1)%Z \/ IZR k1 <= -2 \/ 2 <= IZR k1).
  { destruct (Z.eq_dec k1 0); auto. destruct (Z.eq_dec k1 1); auto. destruct (Z.eq_dec k1 (-1)); auto.
    do 3 right. destruct (Z_lt_le_dec k1 0);
    [left; replace (-2) with (IZR (-2)) by reflexivity|right; replace 2 with (IZR 2) by reflexivity];
    apply IZR_le; lia. }
  apply Rsqr_incr_0_var; [|apply sqrt_pos]. rewrite Rsqr_sqrt by apply vnorm2_nonneg.
  unfold Rsqr, vnorm2, vdot.
  destruct b as [|[|b]], c as [|[|c]]; simpl in Hb, Hc; try lia; simpl;
    destruct I as [->|[->|[->|[?|?]]]]; nra.
Qed.
Lemma ex_short : short_columns mI /\ short_columns ex_mirror.
Proof. unfold short_columns, vnorm2, vdot; simpl; lra. Qed.
Lemma ex_disp_nz : rows_norm (apply_pbc_displacement ex_disp) <> 0.
Proof.
  assert (E: apply_pbc_displacement ex_disp = ex_disp).
  { unfold ex_disp, apply_pbc_displacement. simpl. repeat f_equal; apply vmap_wrapd_id; unfold vall; simpl; lra. }
  rewrite E. intros H. pose proof (rows_norm_sq ex_disp) as S. rewrite H in S.
  unfold ex_disp, rows_norm2, rows_dot, vdot in S. simpl in S. lra.
Qed.
Lemma ex_det : mdet ex_lat <> 0.
Proof. unfold ex_lat; vunf. lra. Qed.

Lemma ex_reference : exists r, make_reference [8%Z; 8%Z] ex_lat ex_pos (Some (ex_ops, [0%nat; 0%nat])) = Ok r /\
  wf_ref r /\ rs_lattice r = ex_lat /\ rs_positions r = ex_pos /\ rs_ops r = ex_ops.
Proof.
  destruct (f_C07c [8%Z; 8%Z] ex_lat ex_pos ex_ops [0%nat; 0%nat] ex_pos_ok eq_refl) as (r & H & _ & H2 & H3 & H4).
  exists r. split; auto. split; [|auto]. eapply make_reference_wf; eauto; [simpl; lia|discriminate].
Qed.
Lemma ex_equivalents : exists r gs, make_reference [8%Z; 8%Z] ex_lat ex_pos (Some (ex_ops, [0%nat; 0%nat])) = Ok r /\
  get_equivalent_displacements r (Fin ex_disp) = Ok gs.
Proof.
  destruct ex_reference as (r & H & Hwf & _ & Hp & _).
  destruct (equivalent_displacements_total r (Fin ex_disp) Hwf) as [gs Hgs]; [rewrite Hp; auto|].
  exists r, gs; auto.
Qed.
Lemma ex_ops_ok : Forall (fun op => short_columns (fst op) /\ exists pi, row_symmetry ex_pos (fst op) (snd op) pi) ex_ops.
Proof.
  constructor; [|constructor; [|constructor]]; simpl.
  - split; [apply ex_short|]. exists (fun b => b). apply ex_row_identity.
  - split; [apply ex_short|]. exists swap2. apply ex_row_symmetry.
Qed.
