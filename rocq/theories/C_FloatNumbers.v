(** C78: floats in the list of atomic numbers of a dataset. *)
From Coq Require Import String ZArith Reals Bool List.
From Verif Require Import Base LinAlg M_Validate M_Text M_Poscar M_Dataset M_Int32 M_FloatNumbers S_FloatNumbers P_FloatNumbers.
Import ListNotations.
Local Open Scope R_scope.

(** A list of ints is treated as before. *)
Theorem C78_ints : forall cast undefined lattice ints positions pol,
  dataset_new_any cast undefined lattice (map Whole ints) positions pol = dataset_new_ints cast lattice ints positions pol.
Proof. exact f_C78_whole. Qed.
Print Assumptions C78_ints.

(** A list with a float is accepted or refused just like a list of ints of the same length.
    The data are the same, and each atomic number is the entry, rounded to the default type,
    without what comes after the point. *)
Theorem C78_floats : forall cast undefined lattice numbers positions pol, (exists x, In (Float x) numbers) ->
  forall ints, List.length ints = List.length numbers ->
  match dataset_new_any cast undefined lattice numbers positions pol, dataset_new cast lattice ints positions pol with
  | Ok d, Ok d0 => ds_lattice d = ds_lattice d0 /\ ds_positions d = ds_positions d0 /\ ds_raw d = ds_raw d0 /\ ds_scaled d = ds_scaled d0 /\
      Forall2 (fun n w => forall x r, stands_for n x -> cast x = Fin r -> Rabs r < 2 ^ 31 ->
        Rabs (IZR w) <= Rabs r < Rabs (IZR w) + 1 /\ 0 <= IZR w * r) numbers (ds_numbers d)
  | Err e, Err e0 => e = e0
  | _, _ => False
  end.
Proof. exact f_C78_floats. Qed.
Print Assumptions C78_floats.

(** Floats that are whole numbers and exact in the default type do no harm. *)
Theorem C78_whole_floats : forall cast undefined lattice numbers ints positions pol, (exists x, In (Float x) numbers) ->
  Forall2 (fun n z => stands_for n (Fin (IZR z)) /\ cast (Fin (IZR z)) = Fin (IZR z) /\ (- 2 ^ 31 <= z < 2 ^ 31)%Z) numbers ints ->
  dataset_new_any cast undefined lattice numbers positions pol = dataset_new cast lattice ints positions pol.
Proof. exact f_C78_float_whole. Qed.
Print Assumptions C78_whole_floats.

(** Others silently become some element: 1.9 is hydrogen. *)
Theorem C78_floats_refuted : exists lattice n1 n2 positions pol d, n1 = [Float (Fin (19 / 10))] /\ n2 = [Whole 1] /\
  dataset_new_any (fun x => x) (fun _ => 0%Z) lattice n1 positions pol = Ok d /\
  dataset_new_any (fun x => x) (fun _ => 0%Z) lattice n2 positions pol = Ok d.
Proof. exact f_C78_float_refuted. Qed.
Print Assumptions C78_floats_refuted.

Example C78_floats_nonvacuous : (exists x, In (Float x) [Float (Fin 8); Whole 22; Float (Fin (- 5 / 2))]) /\
  map (fun n => truncated (fun _ => 0%Z) (value n)) [Float (Fin 8); Whole 22; Float (Fin (- 5 / 2))] = [8; 22; -2]%Z /\
  Forall2 (fun n z => stands_for n (Fin (IZR z)) /\ (- 2 ^ 31 <= z < 2 ^ 31)%Z) [Float (Fin 8); Whole 22] [8; 22]%Z.
Proof. exact ex_C78_floats. Qed.
