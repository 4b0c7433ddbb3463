(** When the constructors of M_Alias accept what the caller holds, in terms of shapes (C74) *)
From Coq Require Import ZArith Reals List.
From Verif Require Import Base LinAlg M_Alias.
Import ListNotations.

Definition holds_arr (s : state) (i : nat) (a : aref) : Prop := exists g, nth_error (st_held s) i = Some (HArr a, g).
Definition holds_lst (s : state) (i : nat) (b : nat) : Prop := exists g, nth_error (st_held s) i = Some (HLst b, g).

(** The array's number of entries *)
Definition entries (a : aref) : nat := length (a_cells a).

Definition constructs (o : op) : Prop :=
  match o with MakeStruct _ _ _ | MakePhonons _ _ _ | MakeTrajectory _ _ | MakePhononSpectrum _ _ | MakeMDSpectrum _ _ => True | _ => False end.

Definition acceptable (k : kernel) (s : state) (o : op) : Prop :=
  match o with
  | MakeStruct n l p => exists numbers lattice positions,
      holds_lst s n numbers /\ holds_arr s l lattice /\ holds_arr s p positions /\
      a_shape lattice = [3; 3] /\ a_shape positions = [length (buffer (st_mem s) numbers); 3] /\
      (* the symmetry search succeeds, and its operations permute the atoms *)
      exists count rotations translations labels permutations,
        k_spglib k (load (st_mem s) lattice) (load (st_mem s) positions) (buffer (st_mem s) numbers)
          = Some (count, rotations, translations, labels) /\
        k_perms k rotations translations (load (st_mem s) positions) = Ok permutations
  | MakePhonons r w d => exists ref wavenumbers displacements atoms modes,
      holds_arr s r ref /\ holds_arr s w wavenumbers /\ holds_arr s d displacements /\
      a_shape ref = [atoms; 3] /\ a_shape wavenumbers = [modes] /\
      a_shape displacements = [entries wavenumbers; atoms; 3]
  | MakeTrajectory t dt => exists positions frames atoms,
      holds_arr s t positions /\ a_shape positions = [frames; atoms; 3] /\ (0 < dt)%R
  | MakePhononSpectrum w t => exists wavenumbers tensors modes,
      holds_arr s w wavenumbers /\ holds_arr s t tensors /\
      a_shape wavenumbers = [modes] /\ a_shape tensors = [modes; 3; 3]
  | MakeMDSpectrum t _ => exists polarizabilities frames,
      holds_arr s t polarizabilities /\ a_shape polarizabilities = [frames; 3; 3]
  | _ => True
  end.
