(** Theorems about the running statistics of a model in training: C82. *)
From Coq Require Import ZArith Reals Bool Arith List Permutation.
From Verif Require Import Base LinAlg M_StructUtils S_Lattice M_Torch S_Torch P_Torch2 M_Gnn S_Gnn P_Examples10 M_Train S_Train P_Train4 M_Running S_Running P_Running P_Running2 P_Running3.
Import ListNotations.
Local Open Scope R_scope.

(** What [norm_input] says: predictions are made from these rows, normalised. *)
Theorem C82_rows : forall g b, snd (forward_batch g b) =
  let* rows := norm_input g b in
  let '(edges, units, _) := batch_graph g (map s_lattice b) (match b with [] => 0%nat | x :: _ => List.length (s_positions x) end) (map s_positions b) in
  let* polarizability := mapM (fun '(e, u) => get_edge_polarizability_vector e u)
    (combine (map (fun r => apply_linear (g_pol_linear_3 g) (map shifted_softplus (apply_linear (g_pol_linear_2 g) (map shifted_softplus r)))) (apply_batch_norm (g_training g) (g_batch_norm g) rows)) units) in
  Ok (map (structure_mean edges polarizability) (seq 0 (List.length b))).
Proof. exact f_C82_rows. Qed.
Print Assumptions C82_rows.

(** C82: after an epoch the running means and variances are moving averages of those of the
    rows that the normalisation got for each batch, from the model as it was then.  Validation
    adds nothing to them. *)
Theorem C82_statistics : forall O (e : env O) shuffle lattice numbers g0 st tset vset bs,
  built lattice numbers g0 -> history g0 (tr_model st) -> keeps_sizes e -> (forall l, Permutation (shuffle l) l) ->
  (forall g b, List.length (e_gradient e g b) = List.length (tr_grad st)) ->
  (forall g b, e_track e g b = norm_after g b) -> keeps_statistics e ->
  forall st' v, train_single_epoch e shuffle st tset vset bs = (st', Ok v) ->
  let before := g_batch_norm (tr_model st) in let after := g_batch_norm (tr_model st') in
  exists batches gs g rows, cut_in (Z.to_nat bs) (shuffle tset) batches /\
    trace e (tr_grad st) (set_mode (tr_model st) true) (tr_opt st) batches gs g (tr_opt st') /\
    Forall2 (fun gb r => norm_input (fst gb) (snd gb) = Ok r) (combine gs batches) rows /\ List.length rows = List.length batches /\
    (forall c, (c < List.length (bn_mean before))%nat ->
      nth c (bn_mean after) 0 = moving (nth c (bn_mean before) 0) (map (column_average c) (with_rows rows))) /\
    (forall c, (c < List.length (bn_var before))%nat ->
      nth c (bn_var after) 0 = moving (nth c (bn_var before) 0) (map (column_variance c) (with_rows rows))).
Proof. exact f_C82_statistics. Qed.
Print Assumptions C82_statistics.

(** C82: running variances stay positive. *)
Theorem C82_variances_positive : forall O (e : env O) shuffle lattice numbers g0 st tset vset bs,
  built lattice numbers g0 -> history g0 (tr_model st) -> keeps_sizes e -> (forall l, Permutation (shuffle l) l) ->
  (forall g b, List.length (e_gradient e g b) = List.length (tr_grad st)) ->
  (forall g b, e_track e g b = norm_after g b) -> keeps_statistics e ->
  forall st' v, train_single_epoch e shuffle st tset vset bs = (st', Ok v) ->
  Forall (fun x => 0 < x) (bn_var (g_batch_norm (tr_model st))) -> Forall (fun x => 0 < x) (bn_var (g_batch_norm (tr_model st'))).
Proof. exact f_C82_variances. Qed.
Print Assumptions C82_variances_positive.

Example C82_statistics_nonvacuous : exists g0 g, built ex_lattice ex_numbers g0 /\ history g0 (tr_model (ex_trainer g)) /\ keeps_sizes ex_tracking /\ keeps_statistics ex_tracking /\
  (forall g b, e_track ex_tracking g b = norm_after g b) /\
  (forall g' b, List.length (e_gradient ex_tracking g' b) = List.length (tr_grad (ex_trainer g))) /\
  bn_mean (g_batch_norm g) = [0] /\ bn_var (g_batch_norm g) = [1] /\
  (exists st' v, train_single_epoch ex_tracking (fun l => l) (ex_trainer g) [ex_sample 2; ex_sample 3; ex_sample 4; ex_sample 5; ex_sample 6] ex_vset 3 = (st', Ok v)) /\
  moving 1 [2; 3] = 129 / 100.
Proof. exact ex_C82_statistics. Qed.

(** C82: predictions in training mode do not depend on the running statistics. *)
Theorem C82_training_mode : forall g m v b, List.length m = List.length (bn_mean (g_batch_norm g)) ->
  g_training g = true ->
  let g' := with_weights g (put_batch_norm (weights_of g) (mkBN m v (bn_weight (g_batch_norm g)) (bn_bias (g_batch_norm g)))) true in
  snd (forward_batch g' b) = snd (forward_batch g b).
Proof. exact f_C82_training_mode. Qed.
Print Assumptions C82_training_mode.

Example C82_training_mode_nonvacuous : exists g0 g, built ex_lattice ex_numbers g0 /\ history g0 g /\ g_training g = true /\ bn_mean (g_batch_norm g) = [0] /\ bn_var (g_batch_norm g) = [1] /\
  List.length [5] = List.length (bn_mean (g_batch_norm g)).
Proof. exact ex_C82_training_mode. Qed.
