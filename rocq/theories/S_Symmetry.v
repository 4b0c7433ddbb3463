(** Specification of symmetry operations acting on a periodic structure. *)
From Coq Require Import ZArith Reals List.
From Verif Require Import LinAlg S_Lattice.
Import ListNotations.
Local Open Scope R_scope.

(** [pi] restricted to [0..n-1] is a permutation. *)
Definition permutes (n : nat) (pi : nat -> nat) : Prop :=
  (forall b, (b < n)%nat -> (pi b < n)%nat) /\
  (forall b c, (b < n)%nat -> (c < n)%nat -> pi b = pi c -> b = c) /\
  (forall a, (a < n)%nat -> exists b, (b < n)%nat /\ pi b = a).

(** The operation x |-> x R + t (row vectors, the code's convention) carries atom
    [pi b] onto atom [b], modulo lattice translations. *)
Definition row_symmetry (pos : list V3) (R : M3) (t : V3) (pi : nat -> nat) : Prop :=
  integer_matrix R /\ permutes (length pos) pi /\
  forall b, (b < length pos)%nat ->
    vcongr (vadd (vmul (nth (pi b) pos v0) R) t) (nth b pos v0).

(** The same for x |-> R x + t (column vectors, spglib's documented convention). *)
Definition column_symmetry (pos : list V3) (R : M3) (t : V3) (pi : nat -> nat) : Prop :=
  integer_matrix R /\ permutes (length pos) pi /\
  forall b, (b < length pos)%nat ->
    vcongr (vadd (mulv R (nth (pi b) pos v0)) t) (nth b pos v0).

(** The lattice (rows are lattice vectors) is left invariant by the column
    operation: R preserves the metric tensor G = L L^T. *)
Definition column_isometry (L R : M3) : Prop :=
  let G := mmul L (mtrans L) in mmul (mtrans R) (mmul G R) = G.

(** No periodic image of one atom is within distance [tol] (fractional
    coordinates) of another atom. *)
Definition separated (tol : R) (pos : list V3) : Prop :=
  forall b c n, (b < length pos)%nat -> (c < length pos)%nat -> b <> c -> integer_vector n ->
    tol <= sqrt (vnorm2 (vsub (vsub (nth b pos v0) (nth c pos v0)) n)).

(** Two displacement arrays agree within the tolerance used for duplicates:
    |x - y| <= 1e-5 + 1e-5 |y| in every coordinate (np.isclose with atol=1e-5). *)
Definition near1 (x y : R) : Prop := Rabs (x - y) <= / 100000 + / 100000 * Rabs y.
Definition near_rows (a b : list V3) : Prop := Forall2 (vall2 near1) a b.

(** Columns of length below 5: satisfied by every crystallographic rotation
    expressed in a reasonable basis (entries in {-1,0,1}). *)
Definition short_columns (R : M3) : Prop :=
  let T := mtrans R in vnorm2 (r0 T) < 25 /\ vnorm2 (r1 T) < 25 /\ vnorm2 (r2 T) < 25.

