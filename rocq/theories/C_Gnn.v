(** Theorems about the graph neural network: C72, C79. *)
From Coq Require Import ZArith Reals Bool Arith List Sorted.
From Verif Require Import Base LinAlg M_Validate M_StructUtils S_Lattice M_Torch S_Torch P_Torch P_Torch2 M_Gnn S_Gnn P_Gnn4 P_Examples10.
Import ListNotations.
Local Open Scope R_scope.

(** C72: predictions of the graph neural network, sample by sample. *)
Theorem C72_per_sample : forall lattice numbers g0 g cast ps,
  built lattice numbers g0 -> history g0 g -> mdet (cast_m cast lattice) <> 0 ->
  Forall (apart cast (List.length numbers)) ps ->
  exists rs, snd (calc_polarizabilities cast g [List.length ps; List.length numbers; 3%nat] ps) = Ok rs /\ List.length rs = List.length ps /\
    forall k p r, nth_error ps k = Some p -> nth_error rs k = Some r ->
      snd (calc_polarizabilities cast g [1; List.length numbers; 3]%nat [p]) = Ok [r] /\ (g_ref_edges g0 <> [] -> r <> None).
Proof. exact f_C72. Qed.
Print Assumptions C72_per_sample.

Theorem C72_shape : forall lattice numbers g0 g cast shape ps,
  built lattice numbers g0 -> history g0 g -> (forall n, shape <> [n; List.length numbers; 3%nat]) ->
  calc_polarizabilities cast g shape ps = (g, Err ValueError).
Proof. exact f_C72_shape. Qed.
Print Assumptions C72_shape.

Theorem C72_history : forall lattice numbers g0 g g' cast shape ps,
  built lattice numbers g0 -> history g0 g -> used g g' ->
  snd (calc_polarizabilities cast g' shape ps) = snd (calc_polarizabilities cast g shape ps).
Proof. exact f_C72_history. Qed.
Print Assumptions C72_history.

Theorem C72_spoiled : forall lattice numbers g0 g cast ps,
  built lattice numbers g0 -> history g0 g ->
  exists rs, snd (calc_polarizabilities cast g [List.length ps; List.length numbers; 3%nat] ps) = Ok rs /\ List.length rs = List.length ps /\
    forall k m q, nth_error ps m = Some q -> collapsed cast g0 q -> (k < List.length ps)%nat -> (k / 100 = m / 100)%nat -> nth_error rs k = Some None.
Proof. exact f_C72_spoiled. Qed.
Print Assumptions C72_spoiled.

Theorem C72_independent_refuted :
  ~ (forall lattice numbers g0 cast ps k p rs, built lattice numbers g0 -> mdet (cast_m cast lattice) <> 0 ->
  snd (calc_polarizabilities cast g0 [List.length ps; List.length numbers; 3%nat] ps) = Ok rs -> nth_error ps k = Some p -> apart cast (List.length numbers) p ->
  exists r, nth_error rs k = Some r /\ snd (calc_polarizabilities cast g0 [1; List.length numbers; 3]%nat [p]) = Ok [r]).
Proof. exact f_C72_independent_refuted. Qed.
Print Assumptions C72_independent_refuted.

Example C72_nonvacuous :
  exists g0 g, built ex_lattice ex_numbers g0 /\ history g0 g /\ used g (set_mode (fst (calc_polarizabilities (fun x => x) g [2; 3; 3]%nat [ex_good; ex_bad])) true) /\
  mdet (cast_m (fun x => x) ex_lattice) <> 0 /\ Forall (apart (fun x => x) (List.length ex_numbers)) [ex_good; ex_good] /\ g_ref_edges g0 <> [] /\ collapsed (fun x => x) g0 ex_bad /\
  symmetric3 (g_mean g0) /\ symmetric3 (g_stddev g0) /\ moved_sample ex_good (map (vadd (mkV 1 (/3) 0)) ex_good).
Proof. exact ex_C72. Qed.

(** C79: symmetries of the predictions. *)
Theorem C79_moved_samples : forall lattice numbers g0 g ps qs,
  built lattice numbers g0 -> history g0 g -> Forall (fun p => List.length p = List.length numbers) ps -> Forall2 moved_sample ps qs ->
  snd (calc_polarizabilities (fun x => x) g [List.length qs; List.length numbers; 3%nat] qs) = snd (calc_polarizabilities (fun x => x) g [List.length ps; List.length numbers; 3%nat] ps).
Proof. exact f_C79_moved. Qed.
Print Assumptions C79_moved_samples.

Theorem C79_symmetric : forall lattice numbers g0 g cast n ps rs,
  built lattice numbers g0 -> history g0 g -> symmetric3 (g_mean g0) -> symmetric3 (g_stddev g0) ->
  snd (calc_polarizabilities cast g [n; List.length numbers; 3%nat] ps) = Ok rs -> forall a, In (Some a) rs -> symmetric3 a.
Proof. exact f_C79_symmetric. Qed.
Print Assumptions C79_symmetric.
