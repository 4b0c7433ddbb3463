(** Specification vocabulary for the construction of a PotGNN. *)
From Coq Require Import ZArith Reals List.
From Verif Require Import Base LinAlg.
Import ListNotations.
Local Open Scope R_scope.

(** The settings PotGNN checks: positive cutoff, sizes and number of message passes, a
    nonempty filter interval of nonnegative distances, (3,3) mean and standard deviation *)
Definition good_settings (cutoff : R) (node edge passes : Z) (start stop : R) (mean_shape stddev_shape : list nat) : Prop :=
  0 < cutoff /\ (0 < node)%Z /\ (0 < edge)%Z /\ (0 < passes)%Z /\ 0 <= start /\ start < stop /\
  mean_shape = [3%nat; 3%nat] /\ stddev_shape = [3%nat; 3%nat].
