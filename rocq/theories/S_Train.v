(** Specification vocabulary for training. *)
From Coq Require Import ZArith Reals Bool Arith List Permutation.
From Verif Require Import Base LinAlg M_Torch M_Gnn S_Gnn M_Train.
Import ListNotations.
Local Open Scope R_scope.

(** [batches] cuts [l] into consecutive pieces of [k], the last one possibly shorter. *)
Definition cut_in {A} (k : nat) (l : list A) (batches : list (list A)) : Prop :=
  concat batches = l /\
  (forall b, In b batches -> (1 <= List.length b <= k)%nat) /\
  (forall i b, nth_error batches i = Some b -> (S i < List.length batches)%nat -> List.length b = k).

(** One optimizer step for each batch, in order.  Each forward pass is made by the model as the
    previous steps left it; the loss of the batch is taken before the step; the step gets the
    gradient for this batch, to which only the first adds [stale], the gradients left over from
    before the epoch. *)
Inductive steps {O} (e : env O) : vec -> potgnn -> O -> list (list sample) -> potgnn -> O -> list (option R) -> Prop :=
| s_done stale g o : steps e stale g o [] g o []
| s_step stale g o b out w' o' bs g' o'' losses :
    snd (apply_model g b) = Ok out ->
    e_step e (put_batch_norm (weights_of g) (e_track e g b)) o (vplus stale (e_gradient e g b)) = (w', o') ->
    steps e (repeat 0 (List.length stale)) (with_weights (fst (apply_model g b)) w' true) o' bs g' o'' losses ->
    steps e stale g o (b :: bs) g' o'' (e_loss e out (map s_target b) :: losses).
(** The same without leftovers: every step gets the gradient for its batch. *)
Inductive clean_steps {O} (e : env O) : potgnn -> O -> list (list sample) -> potgnn -> O -> list (option R) -> Prop :=
| c_done g o : clean_steps e g o [] g o []
| c_step g o b out w' o' bs g' o'' losses :
    snd (apply_model g b) = Ok out ->
    e_step e (put_batch_norm (weights_of g) (e_track e g b)) o (e_gradient e g b) = (w', o') ->
    clean_steps e (with_weights (fst (apply_model g b)) w' true) o' bs g' o'' losses ->
    clean_steps e g o (b :: bs) g' o'' (e_loss e out (map s_target b) :: losses).

(** The average of floats: NaN ([None]) if one is NaN. *)
Inductive averages : list (option R) -> option R -> Prop :=
| av_some l : l <> [] -> averages (map Some l) (Some (fold_right Rplus 0 l / INR (List.length l)))
| av_nan l : In None l -> averages l None.

(** A data set that goes with a model: one lattice, the atomic numbers of the model. *)
Definition goes_with (numbers : list Z) (L : M3) (l : list sample) : Prop :=
  Forall (fun s => s_lattice s = L /\ s_numbers s = numbers /\ List.length (s_positions s) = List.length numbers) l.
(** Optimizer steps do not resize parameters. *)
Definition keeps_sizes {O} (e : env O) : Prop := forall w o d, List.length (w_embedding (fst (e_step e w o d))) = List.length (w_embedding w).

(** A loss that averages over the samples of a batch *)
Definition mean_loss {O} (e : env O) (per_sample : option vec -> vec -> R) : Prop :=
  forall out targets, List.length out = List.length targets -> out <> [] ->
  e_loss e out targets = Some (fold_right Rplus 0 (map2 per_sample out targets) / INR (List.length out)).

(** [v] is the unbiased variance of component [c] over the predictions of a batch; it is NaN
    for a single prediction or when there is a NaN. *)
Definition spread (out : list (option vec)) (c : nat) (v : option R) : Prop :=
  (exists rows, out = map Some rows /\ (2 <= List.length rows)%nat /\
     let col := map (fun r => nth c r 0) rows in
     let m := fold_right Rplus 0 col / INR (List.length rows) in
     v = Some (fold_right Rplus 0 (map (fun x => (x - m) ^ 2) col) / INR (List.length rows - 1))) \/
  ((In None out \/ (List.length out <= 1)%nat) /\ v = None).

(** Cutting [n] samples into batches of [bs] leaves a batch with one sample. *)
Definition single_sample_batch (n : nat) (bs : Z) : Prop := bs = 1%Z \/ (Z.of_nat n mod bs = 1)%Z.
