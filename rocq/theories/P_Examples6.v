(** A displacement workflow that meets the hypotheses of C77. *)
From Coq Require Import ZArith Reals Bool Arith List Lia Lra.
From Verif Require Import Base LinAlg M_Validate M_StructUtils M_Symmetry M_Reference M_Interp M_Displace
  S_Lattice S_Vec S_Interp S_Displace P_StructUtils P_Interp6 P_Displace P_Workflow P_Examples5.
Import ListNotations.
Local Open Scope R_scope.

Definition exd1 : list V3 := [v0; mkV (/10) 0 0; v0].
Definition exs1 : imodel := make_model exr mI false.
Lemma exd1_norm : rows_norm exd1 = / 10.
Proof.
  unfold rows_norm, rows_norm2, rows_dot, exd1. cbn. replace (_ + _) with (/10 * /10) by (vunf; cbn; ring).
  apply sqrt_square. lra.
Qed.
Lemma ex_C77 : exists qs,
  let r := im_ref exs1 in
  mdet (rs_lattice r) <> 0 /\ List.length exd1 = List.length (rs_positions r) /\ (exists v, In v exd1 /\ v <> v0) /\
  0 < / 5 /\ Forall (fun a => a <> 0) [- / 5] /\ List.length [mI; mI] = List.length [/ 5; - / 5] /\
  (forall x, rows_mul x (rs_lattice r) = exd1 -> half_cell x) /\
  (forall a x, In a [/ 5; - / 5] -> rows_mul x (rs_lattice r) = rows_scale a (direction_of exd1) -> half_cell x) /\
  get_displaced_positions r (Rows (Fin exd1)) (Some [/ 5; - / 5]) = Ok (map Fin qs).
Proof.
  assert (Hn : exists v, In v exd1 /\ v <> v0).
  { exists (mkV (/10) 0 0). split; [right; left; reflexivity|]. intros H. apply (f_equal vx) in H. cbn in H. lra. }
  destruct (f_C55_positions exr exd1 [/ 5; - / 5] ex_mI eq_refl Hn) as (qs & Hq & _).
  exists qs. cbn [im_ref exs1 make_model]. change (rs_lattice (im_ref exs1)) with mI.
  split; [exact ex_mI|]. split; [reflexivity|]. split; [exact Hn|]. split; [lra|]. split; [repeat constructor; lra|].
  split; [reflexivity|]. split; [|split; [|exact Hq]].
  - intros x Hx. rewrite rows_mul_mI in Hx. subst. repeat constructor; cbn; lra.
  - intros a x Ha Hx. rewrite rows_mul_mI in Hx. subst. unfold direction_of. rewrite magnitude_rows, exd1_norm.
    cbn in Ha. destruct Ha as [<- | [<- | []]]; repeat constructor; cbn; lra.
Qed.
