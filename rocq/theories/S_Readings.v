(** Specification vocabulary for datasets read from files that hold any numbers. *)
From Coq Require Import ZArith Reals Bool Arith List.
From Verif Require Import Base LinAlg M_Validate M_Text M_Poscar M_Dataset S_Dataset.
Import ListNotations.
Local Open Scope nat_scope.

(** Numbers agree as the documentation of numpy.allclose says, with both tolerances 1e-5:
    infinities agree if equal, and not-a-number agrees with nothing *)
Inductive near : num -> num -> Prop :=
| near_finite a b : (Rabs (a - b) <= 1 / 10 ^ 5 + 1 / 10 ^ 5 * Rabs b)%R -> near (Fin a) (Fin b)
| near_infinite s : near (Inf s) (Inf s).
(** What the reader of one file returns: lattice, atomic numbers, positions, polarizability *)
Definition output : Type := narr * list Z * narr * narr.
Definition o_lattice (o : output) : narr := fst (fst (fst o)).
Definition o_numbers (o : output) : list Z := snd (fst (fst o)).
Definition o_positions (o : output) : narr := snd (fst o).
Definition o_polarizability (o : output) : narr := snd o.
Definition formed (o : output) : Prop :=
  narr_wf (o_lattice o) /\ na_shape (o_lattice o) = [3; 3] /\
  na_shape (o_positions o) = [List.length (o_numbers o); 3] /\ na_shape (o_polarizability o) = [3; 3].
(** Each lattice is near the one before, and all list the same atoms *)
Definition near_lattices (a b : narr) : Prop := forall i j x y, entry a [i; j] x -> entry b [i; j] y -> near x y.
Definition agreeing (os : list output) : Prop :=
  (forall i o o', nth_error os i = Some o -> nth_error os (S i) = Some o' -> near_lattices (o_lattice o) (o_lattice o')) /\
  (forall o o', In o os -> In o' os -> o_numbers o = o_numbers o').
(** Arrays one after another along a new first axis *)
Definition stacked (l : list narr) (shape : list nat) : narr := mkNarr (List.length l :: shape) (concat (map na_data l)).
