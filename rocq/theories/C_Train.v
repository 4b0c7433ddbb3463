(** Theorems about training: C82. *)
From Coq Require Import ZArith Reals Bool Arith List Permutation.
From Verif Require Import Base LinAlg M_StructUtils S_Lattice M_Torch S_Torch P_Torch2 M_Gnn S_Gnn P_Examples10 M_Train S_Train P_Train2 P_Train3 P_Train4 P_Train5.
Import ListNotations.
Local Open Scope R_scope.

(** C82: one epoch of training. *)
Theorem C82_epoch : forall O (e : env O) shuffle lattice numbers g0 st tset vset bs,
  built lattice numbers g0 -> history g0 (tr_model st) -> keeps_sizes e -> (forall l, Permutation (shuffle l) l) ->
  (forall g b, List.length (e_gradient e g b) = List.length (tr_grad st)) ->
  forall st' tl vl vv, train_single_epoch e shuffle st tset vset bs = (st', Ok (tl, vl, vv)) ->
  exists batches g losses blocks outs,
    cut_in (Z.to_nat bs) (shuffle tset) batches /\
    steps e (tr_grad st) (set_mode (tr_model st) true) (tr_opt st) batches g (tr_opt st') losses /\ averages losses tl /\
    used (set_mode g false) (tr_model st') /\ g_training (tr_model st') = false /\ Forall (fun x => x = 0) (tr_grad st') /\
    cut_in (Nat.min 100 (List.length vset)) vset blocks /\
    Forall2 (fun b out => snd (apply_model (tr_model st') b) = Ok out) blocks outs /\
    averages (map2 (fun out b => e_loss e out (map s_target b)) outs blocks) vl /\
    List.length vv = 6%nat /\
    (forall c, (c < 6)%nat -> exists vs, Forall2 (fun out v => spread out c v) outs vs /\ averages vs (nth c vv None)).
Proof. exact @f_C82_epoch. Qed.
Print Assumptions C82_epoch.

Theorem C82_own_gradients : forall O (e : env O) shuffle lattice numbers g0 st tset vset bs,
  built lattice numbers g0 -> history g0 (tr_model st) -> keeps_sizes e -> (forall l, Permutation (shuffle l) l) ->
  (forall g b, List.length (e_gradient e g b) = List.length (tr_grad st)) ->
  forall st' v n, train_single_epoch e shuffle st tset vset bs = (st', Ok v) -> tr_grad st = repeat 0 n ->
  exists batches g losses, cut_in (Z.to_nat bs) (shuffle tset) batches /\ Permutation (concat batches) tset /\
    clean_steps e (set_mode (tr_model st) true) (tr_opt st) batches g (tr_opt st') losses /\ used (set_mode g false) (tr_model st').
Proof. exact @f_C82_clean. Qed.
Print Assumptions C82_own_gradients.

Theorem C82_validation_harmless : forall O (e : env O) shuffle lattice numbers g0 st tset vset bs,
  built lattice numbers g0 -> history g0 (tr_model st) -> keeps_sizes e -> (forall l, Permutation (shuffle l) l) ->
  (forall g b, List.length (e_gradient e g b) = List.length (tr_grad st)) ->
  forall st' v, train_single_epoch e shuffle st tset vset bs = (st', Ok v) ->
  exists batches g losses, steps e (tr_grad st) (set_mode (tr_model st) true) (tr_opt st) batches g (tr_opt st') losses /\ Permutation (concat batches) tset /\
    forall cast shape ps, snd (calc_polarizabilities cast (tr_model st') shape ps) = snd (calc_polarizabilities cast g shape ps).
Proof. exact @f_C82_predictions. Qed.
Print Assumptions C82_validation_harmless.

Theorem C82_arguments : forall O (e : env O) shuffle st tset vset bs,
  tset = [] \/ vset = [] \/ (bs <= 0)%Z -> train_single_epoch e shuffle st tset vset bs = (st, Err ValueError).
Proof. exact @f_C82_arguments. Qed.
Print Assumptions C82_arguments.

Theorem C82_succeeds : forall O (e : env O) shuffle lattice numbers g0 st tset vset bs,
  built lattice numbers g0 -> history g0 (tr_model st) -> keeps_sizes e -> (forall l, Permutation (shuffle l) l) ->
  (forall g b, List.length (e_gradient e g b) = List.length (tr_grad st)) ->
  forall L L', goes_with numbers L tset -> goes_with numbers L' vset -> tset <> [] -> vset <> [] -> (0 < bs)%Z ->
  ~ (List.length (g_ref_edges g0) = 1%nat /\ single_sample_batch (List.length tset) bs) ->
  exists st' v, train_single_epoch e shuffle st tset vset bs = (st', Ok v).
Proof. exact @f_C82_total. Qed.
Print Assumptions C82_succeeds.

(** With one bond in all, a batch of one sample gives the batch norm a single row. *)
Theorem C82_single_row : forall O (e : env O) shuffle lattice numbers g0 st tset vset bs,
  built lattice numbers g0 -> history g0 (tr_model st) -> keeps_sizes e -> (forall l, Permutation (shuffle l) l) ->
  (forall g b, List.length (e_gradient e g b) = List.length (tr_grad st)) ->
  forall L L', goes_with numbers L tset -> goes_with numbers L' vset -> tset <> [] -> vset <> [] -> (0 < bs)%Z ->
  List.length (g_ref_edges g0) = 1%nat -> single_sample_batch (List.length tset) bs ->
  exists st', train_single_epoch e shuffle st tset vset bs = (st', Err ValueError).
Proof. exact @f_C82_single. Qed.
Print Assumptions C82_single_row.

Theorem C82_succeeds_refuted : ~ (forall O (e : env O) shuffle lattice numbers g0 st tset vset bs,
  built lattice numbers g0 -> history g0 (tr_model st) -> keeps_sizes e -> (forall l, Permutation (shuffle l) l) ->
  (forall g b, List.length (e_gradient e g b) = List.length (tr_grad st)) ->
  forall L L', goes_with numbers L tset -> goes_with numbers L' vset -> tset <> [] -> vset <> [] -> (0 < bs)%Z ->
  exists st' v, train_single_epoch e shuffle st tset vset bs = (st', Ok v)).
Proof. exact f_C82_succeeds_refuted. Qed.
Print Assumptions C82_succeeds_refuted.

(** The number of bonds is even unless two atoms are exactly half a cell apart along an axis. *)
Theorem C82_pairs : forall dimenet_triplets order w cast lattice numbers positions cutoff sn se nm gs ge ms ss mean stddev g0,
  potgnn_new dimenet_triplets order w cast lattice numbers positions cutoff sn se nm gs ge ms ss mean stddev = Ok g0 ->
  (forall i j pi pj, nth_error positions i = Some pi -> nth_error positions j = Some pj -> i <> j ->
    vall (fun x => ~ congr1 x (/ 2)) (vsub (vmap cast pj) (vmap cast pi))) ->
  Nat.Even (List.length (g_ref_edges g0)).
Proof. exact f_C82_pairs. Qed.
Print Assumptions C82_pairs.

Theorem C82_interrupted : forall O (e : env O) shuffle lattice numbers g0 st tset vset bs,
  built lattice numbers g0 -> history g0 (tr_model st) -> keeps_sizes e ->
  (forall g b, List.length (e_gradient e g b) = List.length (tr_grad st)) ->
  forall st' x, train_single_epoch e shuffle st tset vset bs = (st', Err x) -> tset <> [] -> vset <> [] -> (0 < bs)%Z ->
  exists batches g losses, cut_in (Z.to_nat bs) (shuffle tset) batches /\
    ((exists front b rest, batches = front ++ b :: rest /\
        steps e (tr_grad st) (set_mode (tr_model st) true) (tr_opt st) front g (tr_opt st') losses /\ apply_model g b = (tr_model st', Err x)) \/
     (steps e (tr_grad st) (set_mode (tr_model st) true) (tr_opt st) batches g (tr_opt st') losses /\
        used (set_mode g false) (tr_model st') /\ exists b, b <> [] /\ incl b vset /\ snd (apply_model (set_mode g false) b) = Err x)).
Proof. exact @f_C82_interrupted. Qed.
Print Assumptions C82_interrupted.

Theorem C82_variance_nan : forall O (e : env O) shuffle lattice numbers g0 st tset vset bs,
  built lattice numbers g0 -> history g0 (tr_model st) -> keeps_sizes e -> (forall l, Permutation (shuffle l) l) ->
  (forall g b, List.length (e_gradient e g b) = List.length (tr_grad st)) ->
  forall st' tl vl vv, train_single_epoch e shuffle st tset vset bs = (st', Ok (tl, vl, vv)) ->
  (List.length vset mod 100 = 1)%nat -> vv = repeat None 6.
Proof. exact @f_C82_variance_nan. Qed.
Print Assumptions C82_variance_nan.

Theorem C82_variance_finite : forall O (e : env O) shuffle lattice numbers g0 st tset vset bs,
  built lattice numbers g0 -> history g0 (tr_model st) -> keeps_sizes e -> (forall l, Permutation (shuffle l) l) ->
  (forall g b, List.length (e_gradient e g b) = List.length (tr_grad st)) ->
  forall st' tl vl vv, train_single_epoch e shuffle st tset vset bs = (st', Ok (tl, vl, vv)) -> (List.length vset mod 100 <> 1)%nat ->
  goes_with numbers lattice vset -> mdet lattice <> 0 -> g_ref_edges g0 <> [] ->
  Forall (fun s => apart (fun x => x) (List.length numbers) (s_positions s)) vset ->
  Forall (fun v => v <> None) vv.
Proof. exact @f_C82_variance_finite. Qed.
Print Assumptions C82_variance_finite.

Theorem C82_sample_mean : forall O (e : env O) shuffle lattice numbers g0 st tset vset bs,
  built lattice numbers g0 -> history g0 (tr_model st) -> keeps_sizes e -> (forall l, Permutation (shuffle l) l) ->
  (forall g b, List.length (e_gradient e g b) = List.length (tr_grad st)) ->
  forall per_sample st' tl vl vv, mean_loss e per_sample -> train_single_epoch e shuffle st tset vset bs = (st', Ok (tl, vl, vv)) ->
  (List.length vset <= 100)%nat \/ (List.length vset mod 100 = 0)%nat ->
  exists blocks outs, cut_in (Nat.min 100 (List.length vset)) vset blocks /\
    Forall2 (fun b out => snd (apply_model (tr_model st') b) = Ok out) blocks outs /\
    vl = Some (fold_right Rplus 0 (map2 per_sample (concat outs) (map s_target vset)) / INR (List.length vset)).
Proof. exact @f_C82_mean. Qed.
Print Assumptions C82_sample_mean.

Theorem C82_sample_mean_refuted :
  ~ (forall O (e : env O) shuffle lattice numbers g0 st tset vset bs per_sample st' tl vl vv,
  built lattice numbers g0 -> history g0 (tr_model st) -> keeps_sizes e -> (forall l, Permutation (shuffle l) l) ->
  (forall g b, List.length (e_gradient e g b) = List.length (tr_grad st)) -> mean_loss e per_sample ->
  train_single_epoch e shuffle st tset vset bs = (st', Ok (tl, vl, vv)) ->
  exists blocks outs, cut_in (Nat.min 100 (List.length vset)) vset blocks /\
    Forall2 (fun b out => snd (apply_model (tr_model st') b) = Ok out) blocks outs /\
    vl = Some (fold_right Rplus 0 (map2 per_sample (concat outs) (map s_target vset)) / INR (List.length vset))).
Proof. exact f_C82_mean_refuted. Qed.
Print Assumptions C82_sample_mean_refuted.

Example C82_nonvacuous : exists g0, built ex_lattice ex_numbers g0 /\ history g0 (tr_model (ex_trainer g0)) /\ keeps_sizes ex_env /\ mean_loss ex_env ex_per_sample /\
  g_ref_edges g0 <> [] /\ mdet ex_lattice <> 0 /\
  (forall g b, List.length (e_gradient ex_env g b) = List.length (tr_grad (ex_trainer g0))) /\
  goes_with ex_numbers ex_lattice ex_vset /\ Forall (fun s => apart (fun x => x) (List.length ex_numbers) (s_positions s)) ex_vset /\
  exists st' v, train_single_epoch ex_env (fun l => l) (ex_trainer g0) [ex_sample 2; ex_sample 3; ex_sample 4; ex_sample 5; ex_sample 6] ex_vset 3 = (st', Ok v).
Proof. exact ex_C82. Qed.

Example C82_single_row_nonvacuous : exists g0, built skew [1; 8]%Z g0 /\ history g0 (tr_model (ex_trainer g0)) /\ List.length (g_ref_edges g0) = 1%nat /\ single_sample_batch 3 2 /\
  goes_with [1; 8]%Z skew (map skew_sample [1; 2; 3]) /\
  exists st', train_single_epoch ex_env (fun l => l) (ex_trainer g0) (map skew_sample [1; 2; 3]) (map skew_sample [4; 5]) 2 = (st', Err ValueError).
Proof. exact ex_C82_single. Qed.

Example C82_pairs_nonvacuous : exists g0, ex_net ex_weights = Ok g0 /\ g_ref_edges g0 <> [] /\
  (forall i j pi pj, nth_error ex_positions i = Some pi -> nth_error ex_positions j = Some pj -> i <> j ->
    vall (fun x => ~ congr1 x (/ 2)) (vsub (vmap (fun x => x) pj) (vmap (fun x => x) pi))).
Proof. exact ex_C82_pairs. Qed.
