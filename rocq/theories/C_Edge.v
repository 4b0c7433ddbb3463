(** Theorems about the edge polarizabilities of the graph neural network: C81. *)
From Coq Require Import ZArith Reals Bool Arith List.
From Verif Require Import Base LinAlg M_Validate M_StructUtils S_Lattice M_Torch S_Torch M_Gnn S_Gnn P_Examples10 S_Edge P_Edge P_Edge2.
Import ListNotations.
Local Open Scope R_scope.

(** C81: what an edge contributes, and inversion symmetry of the predictions. *)
Theorem C81_closed_form : forall emb t, t <> v0 ->
  exists u, vdot u u = 1 /\ t = vscale (vnorm t) u /\
    get_edge_polarizability_vector emb (Some t) = Ok (Some (six (edge_tensor (fun k => nth k emb 0) u))).
Proof. exact f_C81_closed. Qed.
Print Assumptions C81_closed_form.

Theorem C81_axis_only : forall emb t c, t <> v0 -> c <> 0 ->
  get_edge_polarizability_vector emb (Some (vscale c t)) = get_edge_polarizability_vector emb (Some t).
Proof. exact f_C81_axis. Qed.
Print Assumptions C81_axis_only.

Theorem C81_inverted_samples : forall lattice numbers g0 g ps qs,
  built lattice numbers g0 -> history g0 g -> Forall (fun p => List.length p = List.length numbers) ps ->
  Forall no_half_cell ps -> Forall2 inverted_sample ps qs ->
  snd (calc_polarizabilities (fun x => x) g [List.length qs; List.length numbers; 3%nat] qs) =
  snd (calc_polarizabilities (fun x => x) g [List.length ps; List.length numbers; 3%nat] ps).
Proof. exact f_C81_inverted. Qed.
Print Assumptions C81_inverted_samples.

Theorem C81_rotates_with_edge : forall (e : nat -> R) c d q u, mmul q (mtrans q) = mI ->
  e 7%nat = c -> e 9%nat = c -> e 11%nat = c -> e 0%nat - e 1%nat = d -> e 2%nat - e 3%nat = d -> e 4%nat - e 5%nat = d ->
  e 6%nat - e 7%nat = d -> e 8%nat - e 9%nat = d -> e 10%nat - e 11%nat = d ->
  edge_tensor e (mulv q u) = mmul (mmul q (edge_tensor e u)) (mtrans q).
Proof. exact f_C81_covariant. Qed.
Print Assumptions C81_rotates_with_edge.

Theorem C81_rotates_with_edge_refuted :
  ~ (forall e q u, rotation3 q -> vdot u u = 1 -> edge_tensor e (mulv q u) = mmul (mmul q (edge_tensor e u)) (mtrans q)).
Proof. exact f_C81_covariant_refuted. Qed.
Print Assumptions C81_rotates_with_edge_refuted.

Theorem C81_prediction : forall lattice numbers g0 g cast p,
  built lattice numbers g0 -> history g0 g -> mdet (cast_m cast lattice) <> 0 -> apart cast (List.length numbers) p -> g_ref_edges g0 <> [] ->
  exists us hidden, Forall2 (points_along (cast_m cast lattice) (map (vmap cast) p)) (g_ref_edges g0) us /\ List.length hidden = List.length us /\
    snd (calc_polarizabilities cast g [1; List.length numbers; 3]%nat [p]) =
    Ok [Some (madd (g_mean g0) (hadamard (g_stddev g0) (mean_tensor (map2 (contribution (g_pol_linear_3 g)) hidden us))))].
Proof. exact f_C81_prediction. Qed.
Print Assumptions C81_prediction.

Example C81_nonvacuous : exists g0 g, built ex_lattice ex_numbers g0 /\ history g0 g /\ g_ref_edges g0 <> [] /\
  List.length ex_good = List.length ex_numbers /\ no_half_cell ex_good /\ inverted_sample ex_good ex_flipped.
Proof. exact ex_C81. Qed.
Example C81_rotation_nonvacuous : rotation3 tilt /\ mkV 1 0 0 <> v0 /\
  (let e k := if Nat.eqb (Nat.modulo k 2) 0 then 3 else 1 in e 7%nat = 1 /\ e 9%nat = 1 /\ e 11%nat = 1 /\ e 0%nat - e 1%nat = 2 /\ e 10%nat - e 11%nat = 2).
Proof. split; [exact tilt_rotation|]. split; [intros H; injection H; apply R1_neq_R0|]. cbn. repeat split; ring. Qed.
Example C81_prediction_nonvacuous : exists g0, built ex_lattice ex_numbers g0 /\ mdet (cast_m (fun x => x) ex_lattice) <> 0 /\
  apart (fun x => x) (List.length ex_numbers) ex_good /\ g_ref_edges g0 <> [].
Proof. exact ex_C81_prediction. Qed.
