(** Specification vocabulary for polarizability datasets. *)
From Coq Require Import ZArith Reals Bool Arith List.
From Verif Require Import Base LinAlg M_Validate M_Text M_Poscar M_Dataset.
Import ListNotations.
Local Open Scope nat_scope.

(** [x] is the entry of the row-major array [a] at [idx] *)
Fixpoint offset (shape idx : list nat) : nat :=
  match shape, idx with
  | _ :: shape', i :: idx' => i * prod_list shape' + offset shape' idx'
  | _, _ => 0
  end.
Definition entry (a : narr) (idx : list nat) (x : num) : Prop :=
  Forall2 lt idx (na_shape a) /\ nth_error (na_data a) (offset (na_shape a) idx) = Some x.
(** Every 3x3 tensor of a batch is symmetric *)
Definition symmetric_batch (a : narr) : Prop := forall s i j x, entry a [s; i; j] x -> entry a [s; j; i] x.
(** The six independent components xx, yy, zz, xy, xz, yz *)
Definition components : list (nat * nat) := [(0, 0); (1, 1); (2, 2); (0, 1); (0, 2); (1, 2)].

(** Entries of vectors and matrices by index *)
Definition vent (v : V3) (j : nat) : R := match j with 0 => vx v | 1 => vy v | _ => vz v end.
Definition ment (m : M3) (i j : nat) : R := match i with 0 => vent (r0 m) j | 1 => vent (r1 m) j | _ => vent (r2 m) j end.
(** Arrays of shape (3,3), (S,3,3) and (S,N,3) with finite entries *)
Definition tensor (m : M3) : narr :=
  mkNarr [3; 3] (map Fin [vx (r0 m); vy (r0 m); vz (r0 m); vx (r1 m); vy (r1 m); vz (r1 m); vx (r2 m); vy (r2 m); vz (r2 m)]).
Definition tensors (ts : list M3) : narr := mkNarr [List.length ts; 3; 3] (flat_map (fun t => na_data (tensor t)) ts).
Definition flat3 (vs : list V3) : list num := flat_map (fun v => [Fin (vx v); Fin (vy v); Fin (vz v)]) vs.
Definition frame (vs : list V3) : narr := mkNarr [List.length vs; 3] (flat3 vs).
Definition frames (n : nat) (fs : list (list V3)) : narr := mkNarr [List.length fs; n; 3] (flat_map flat3 fs).

(** Statistics of a list of reals *)
Definition rsum (l : list R) : R := fold_right Rplus 0%R l.
Definition mean (l : list R) : R := (rsum l / INR (List.length l))%R.
Definition variance (l : list R) : R := mean (map (fun x => (x - mean l) ^ 2)%R l).
Definition stddev (l : list R) : R := sqrt (variance l).
Definition constant (l : list R) : Prop := forall x y, In x l -> In y l -> x = y.

(** Lattices agree as the documentation of numpy.allclose says, the second being the
    reference, with both tolerances 1e-5 *)
Definition lattice_close (a b : M3) : Prop :=
  forall i j, i < 3 -> j < 3 -> (Rabs (ment a i j - ment b i j) <= 1 / 10 ^ 5 + 1 / 10 ^ 5 * Rabs (ment b i j))%R.
(** What one file says *)
Record reading := mkReading { rd_lattice : M3; rd_numbers : list Z; rd_positions : list V3; rd_polarizability : M3 }.
Definition well_formed (r : reading) : Prop := List.length (rd_positions r) = List.length (rd_numbers r) /\ rd_numbers r <> [].
Definition reads {Path} (read_fn : Path -> res (narr * list Z * narr * narr)) (p : Path) (r : reading) : Prop :=
  read_fn p = Ok (tensor (rd_lattice r), rd_numbers r, frame (rd_positions r), tensor (rd_polarizability r)).
(** Every lattice is close to the one before, and all files list the same atoms *)
Definition consecutive_close (rs : list reading) : Prop :=
  forall i r r', nth_error rs i = Some r -> nth_error rs (S i) = Some r' -> lattice_close (rd_lattice r) (rd_lattice r').
Definition same_atoms (rs : list reading) : Prop :=
  forall r r', In r rs -> In r' rs -> rd_numbers r = rd_numbers r'.

(** Calls of scale_polarizabilities with valid arguments *)
Definition valid_scaling (c : narr * narr) : Prop := na_shape (fst c) = [3; 3] /\ na_shape (snd c) = [3; 3].
(** A history of calls; a call that raises leaves the dataset as it was *)
Inductive scalings : dataset -> list (narr * narr) -> dataset -> Prop :=
| scalings_nil d : scalings d [] d
| scalings_ok d m s h d' d'' : scale_polarizabilities d m s = Ok d' -> scalings d' h d'' -> scalings d ((m, s) :: h) d''
| scalings_raise d m s h e d'' : scale_polarizabilities d m s = Err e -> scalings d h d'' -> scalings d ((m, s) :: h) d''.

(** The reader of "files" that are given by what they say *)
Definition read_back (r : reading) : res (narr * list Z * narr * narr) :=
  Ok (tensor (rd_lattice r), rd_numbers r, frame (rd_positions r), tensor (rd_polarizability r)).
(** One position per atomic number *)
Definition pm_formed (s : pm_structure) : Prop := List.length (pm_positions s) = List.length (pm_numbers s).
