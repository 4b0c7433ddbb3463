(** Specification vocabulary for running statistics. *)
From Coq Require Import ZArith Reals Bool Arith List.
From Verif Require Import Base LinAlg M_Torch M_Gnn S_Gnn M_Train S_Train M_Running.
Import ListNotations.
Local Open Scope R_scope.

(** As [steps], with the models [gs] that make the forward passes. *)
Inductive trace {O} (e : env O) : vec -> potgnn -> O -> list (list sample) -> list potgnn -> potgnn -> O -> Prop :=
| t_done stale g o : trace e stale g o [] [] g o
| t_step stale g o b out w' o' bs gs g' o'' :
    snd (apply_model g b) = Ok out ->
    e_step e (put_batch_norm (weights_of g) (e_track e g b)) o (vplus stale (e_gradient e g b)) = (w', o') ->
    trace e (repeat 0 (List.length stale)) (with_weights (fst (apply_model g b)) w' true) o' bs gs g' o'' ->
    trace e stale g o (b :: bs) (g :: gs) g' o''.

(** The exponentially weighted average of a start value and the values after it: the last has
    the weight 1/10, and each has 9/10 of the weight of the next *)
Definition moving (start : R) (l : list R) : R :=
  (9 / 10) ^ List.length l * start +
  fold_right Rplus 0 (map (fun i => / 10 * (9 / 10) ^ (List.length l - 1 - i) * nth i l 0) (seq 0 (List.length l))).
(** The average and the unbiased variance of component [c] over the rows *)
Definition column_average (c : nat) (rows : list vec) : R := fold_right Rplus 0 (map (fun r => nth c r 0) rows) / INR (List.length rows).
Definition column_variance (c : nat) (rows : list vec) : R :=
  fold_right Rplus 0 (map (fun r => (nth c r 0 - column_average c rows) ^ 2) rows) / INR (List.length rows - 1).
(** The passes that had any rows *)
Definition with_rows (l : list (list vec)) : list (list vec) := filter (fun rows => negb (Nat.eqb (List.length rows) 0)) l.

(** The optimizer leaves the running statistics alone. *)
Definition keeps_statistics {O} (e : env O) : Prop := forall w o d,
  bn_mean (w_batch_norm (fst (e_step e w o d))) = bn_mean (w_batch_norm w) /\ bn_var (w_batch_norm (fst (e_step e w o d))) = bn_var (w_batch_norm w).
