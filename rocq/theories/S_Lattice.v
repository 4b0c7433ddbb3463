(** Specification vocabulary for periodic coordinates.  No model function is used. *)
From Coq Require Import ZArith Reals List.
From Verif Require Import LinAlg Base.
Import ListNotations.
Local Open Scope R_scope.

(** Two coordinates are periodic images of one another. *)
Definition congr1 (x y : R) : Prop := exists k : Z, x - y = IZR k.
(** ... for whole vectors and arrays *)
Definition vcongr (a b : V3) : Prop := vall2 congr1 a b.
Definition same_mod_lattice (p q : list V3) : Prop := Forall2 vcongr p q.

(** [r] is the image of [x] in the unit cell [0,1). *)
Definition cell_image (x r : R) : Prop := congr1 x r /\ 0 <= r < 1.
(** [r] is the image of [x] in (-1/2, 1/2]. *)
Definition half_image (x r : R) : Prop := congr1 x r /\ - / 2 < r <= / 2.

Definition cell_images (p q : list V3) : Prop := Forall2 (vall2 cell_image) p q.
Definition half_images (p q : list V3) : Prop := Forall2 (vall2 half_image) p q.

(** Row-wise sum, difference (same length understood), negation. *)
Definition rows_add (p q : list V3) : list V3 := Base.map2 vadd p q.
Definition rows_sub (p q : list V3) : list V3 := Base.map2 vsub p q.

(** Matrices with integer entries *)
Definition is_int (x : R) : Prop := exists k : Z, x = IZR k.
Definition integer_matrix (m : M3) : Prop :=
  vall is_int (r0 m) /\ vall is_int (r1 m) /\ vall is_int (r2 m).
Definition integer_vector (v : V3) : Prop := vall is_int v.

(** The lattice vectors (rows) are mutually orthogonal. *)
Definition orthogonal_cell (L : M3) : Prop :=
  vdot (r0 L) (r1 L) = 0 /\ vdot (r0 L) (r2 L) = 0 /\ vdot (r1 L) (r2 L) = 0.

(** The labelling is "smallest index of the orbit": every label is at most the
    index, and the atom it names carries its own label. *)
Definition orbit_labels (labels : list nat) : Prop :=
  forall i l, nth_error labels i = Some l -> (l <= i)%nat /\ nth_error labels l = Some l.
