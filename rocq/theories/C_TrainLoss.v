(** Theorems about training with a loss function that may raise: C82. *)
From Coq Require Import ZArith Reals Bool Arith List Permutation.
From Verif Require Import Base LinAlg M_StructUtils S_Lattice M_Torch S_Torch P_Torch2 M_Gnn S_Gnn P_Examples10 M_Train S_Train P_Train4 M_TrainLoss S_TrainLoss P_TrainLoss P_TrainLoss2.
Import ListNotations.
Local Open Scope R_scope.

(** C82: an epoch that returns has called the loss function once for each batch and each block,
    without an exception, and the averages are over what it returned. *)
Theorem C82_loss_epoch : forall O (e : env O) loss shuffle lattice numbers g0 st tset vset bs,
  built lattice numbers g0 -> history g0 (tr_model st) -> keeps_sizes e ->
  (forall g b, List.length (e_gradient e g b) = List.length (tr_grad st)) -> (forall l, Permutation (shuffle l) l) ->
  forall st' tl vl vv, train_single_epoch_with e loss shuffle st tset vset bs = (st', Ok (tl, vl, vv)) ->
  exists batches g losses blocks outs vlosses,
    cut_in (Z.to_nat bs) (shuffle tset) batches /\
    loss_steps e loss (tr_grad st) (set_mode (tr_model st) true) (tr_opt st) batches g (tr_opt st') (tr_grad st') losses /\ averages losses tl /\
    used (set_mode g false) (tr_model st') /\ g_training (tr_model st') = false /\ Forall (fun x => x = 0) (tr_grad st') /\
    cut_in (Nat.min 100 (List.length vset)) vset blocks /\
    Forall2 (fun b out => snd (apply_model (tr_model st') b) = Ok out) blocks outs /\
    Forall2 (fun ob v => loss (fst ob) (map s_target (snd ob)) = Ok v) (combine outs blocks) vlosses /\ averages vlosses vl /\
    List.length vv = 6%nat /\
    (forall c, (c < 6)%nat -> exists vs, Forall2 (fun out v => spread out c v) outs vs /\ averages vs (nth c vv None)).
Proof. exact @f_C82_with_epoch. Qed.
Print Assumptions C82_loss_epoch.

(** C82: an epoch that raises in a training batch has made the steps of the batches before, and
    none for this one; if the loss function raised, the running statistics have seen the batch.
    An epoch that raises in validation has made all of its steps, and predictions are those of
    the trained model. *)
Theorem C82_loss_interrupted : forall O (e : env O) loss shuffle lattice numbers g0 st tset vset bs,
  built lattice numbers g0 -> history g0 (tr_model st) -> keeps_sizes e ->
  (forall g b, List.length (e_gradient e g b) = List.length (tr_grad st)) ->
  forall st' x, train_single_epoch_with e loss shuffle st tset vset bs = (st', Err x) -> tset <> [] -> vset <> [] -> (0 < bs)%Z ->
  exists batches g losses, cut_in (Z.to_nat bs) (shuffle tset) batches /\
    ((exists front b rest, batches = front ++ b :: rest /\
        loss_steps e loss (tr_grad st) (set_mode (tr_model st) true) (tr_opt st) front g (tr_opt st') (tr_grad st') losses /\
        (apply_model g b = (tr_model st', Err x) \/
         exists out, snd (apply_model g b) = Ok out /\ loss out (map s_target b) = Err x /\ tr_model st' = after_pass e g b)) \/
     (loss_steps e loss (tr_grad st) (set_mode (tr_model st) true) (tr_opt st) batches g (tr_opt st') (tr_grad st') losses /\
        (forall cast shape ps, snd (calc_polarizabilities cast (tr_model st') shape ps) = snd (calc_polarizabilities cast g shape ps)) /\
        exists b, b <> [] /\ incl b vset /\
          (snd (apply_model (set_mode g false) b) = Err x \/
           exists out, snd (apply_model (set_mode g false) b) = Ok out /\ loss out (map s_target b) = Err x))).
Proof. exact @f_C82_with_interrupted. Qed.
Print Assumptions C82_loss_interrupted.

Theorem C82_loss_arguments : forall O (e : env O) loss shuffle st tset vset bs,
  tset = [] \/ vset = [] \/ (bs <= 0)%Z -> train_single_epoch_with e loss shuffle st tset vset bs = (st, Err ValueError).
Proof. exact @f_C82_with_arguments. Qed.
Print Assumptions C82_loss_arguments.

(** C82: with a loss function that never raises, an epoch is one of those that the theorems
    above are about. *)
Theorem C82_loss_quiet : forall O (e : env O) loss shuffle st tset vset bs, (forall out target, exists v, loss out target = Ok v) ->
  train_single_epoch_with e loss shuffle st tset vset bs = train_single_epoch (never_raising e loss) shuffle st tset vset bs.
Proof. exact @f_C82_never. Qed.
Print Assumptions C82_loss_quiet.

Example C82_loss_nonvacuous : exists g0, built ex_lattice ex_numbers g0 /\ history g0 (tr_model (ex_trainer g0)) /\ keeps_sizes ex_env /\
  (forall g b, List.length (e_gradient ex_env g b) = List.length (tr_grad (ex_trainer g0))) /\
  (exists st' v, train_single_epoch_with ex_env ex_quiet (fun l => l) (ex_trainer g0) ex_tset ex_vset 3 = (st', Ok v)) /\
  exists st', train_single_epoch_with ex_env ex_loss (fun l => l) (ex_trainer g0) ex_tset ex_vset 3 = (st', Err TypeError) /\
    tr_opt st' = 1%nat /\ g_training (tr_model st') = true.
Proof. exact ex_C82_loss. Qed.
