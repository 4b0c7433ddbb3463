(** Specification vocabulary for training with a loss function that may raise. *)
From Coq Require Import ZArith Reals Bool Arith List Permutation.
From Verif Require Import Base LinAlg M_Torch M_Gnn S_Gnn M_Train S_Train M_TrainLoss.
Import ListNotations.
Local Open Scope R_scope.

(** One optimizer step for each batch, in order, none of which raised: as [steps], with the
    losses the loss function returned. *)
Inductive loss_steps {O} (e : env O) (loss : loss_function) : vec -> potgnn -> O -> list (list sample) -> potgnn -> O -> vec -> list (option R) -> Prop :=
| l_done stale g o : loss_steps e loss stale g o [] g o stale []
| l_step stale g o b out v w' o' bs g' o'' grad losses :
    snd (apply_model g b) = Ok out -> loss out (map s_target b) = Ok v ->
    e_step e (put_batch_norm (weights_of g) (e_track e g b)) o (vplus stale (e_gradient e g b)) = (w', o') ->
    loss_steps e loss (repeat 0 (List.length stale)) (with_weights (fst (apply_model g b)) w' true) o' bs g' o'' grad losses ->
    loss_steps e loss stale g o (b :: bs) g' o'' grad (v :: losses).

(** The model [g] after a forward pass in training mode: only the running statistics (and what
    it remembers of its geometry) differ. *)
Definition after_pass {O} (e : env O) (g : potgnn) (b : list sample) : potgnn :=
  with_weights (fst (apply_model g b)) (put_batch_norm (weights_of g) (e_track e g b)) true.

(** The same setting where the loss function never raises: [nan] in place of an exception. *)
Definition never_raising {O} (e : env O) (loss : loss_function) : env O :=
  mkEnv O (fun out target => match loss out target with Ok v => v | Err _ => None end) (e_gradient e) (e_step e) (e_track e).
