(** Specification vocabulary for flat vectors and lists. *)
From Coq Require Import ZArith Reals List.
Import ListNotations.
Local Open Scope R_scope.

(** Euclidean inner product, length and cosine of the angle between two vectors. *)
Fixpoint inner (v w : list R) : R :=
  match v, w with
  | x :: v', y :: w' => x * y + inner v' w'
  | _, _ => 0
  end.
Definition magnitude (v : list R) : R := sqrt (inner v v).
Definition cosine (v w : list R) : R := inner v w / (magnitude v * magnitude w).
Definition nonzero_vec (v : list R) : Prop := exists x, In x v /\ x <> 0.
(** The tolerance np.allclose uses around 1: atol + rtol * 1. *)
Definition tol1 : R := / 100000000 + / 100000.

Definition collinear_spec (v w : list R) : Prop :=
  nonzero_vec v /\ nonzero_vec w /\ 1 - tol1 <= Rabs (cosine v w).
Definition orthogonal_spec (v w : list R) : Prop :=
  nonzero_vec v /\ nonzero_vec w /\ Rabs (cosine v w) <= tol1.

(** [z] is the smallest index whose element does not satisfy [P]; -1 if none. *)
Definition first_failure {A} (P : A -> Prop) (l : list A) (z : Z) : Prop :=
  (z = (-1)%Z /\ forall a, In a l -> P a) \/
  (exists n a, z = Z.of_nat n /\ nth_error l n = Some a /\ ~ P a /\
     forall m b, (m < n)%nat -> nth_error l m = Some b -> P b).
