(** Model of ramannoodle/io/pymatgen.py, and of the methods that receive pymatgen objects
    (ramannoodle/pmodel/_interpolation.py:528-627, ramannoodle/pmodel/_art.py:254-304).

    The code only reads attributes of these objects, so any Python object will do: [None] for
    an attribute the object does not have.  Attributes that are there hold arrays of the
    documented shapes (entries finite, one row of three per atom); the module-level import
    test (pymatgen.py:23-27) is the flag [present] where the code tests it. *)
From Coq Require Import String ZArith Reals Bool Arith List.
From Verif Require Import M_Dataset.
From Verif Require Import Base LinAlg M_Validate M_StructUtils M_Symmetry M_Reference M_Interp M_Art M_Dynamics.
Import ListNotations.
Local Open Scope R_scope.

(** An object in place of a pymatgen Structure: [lattice] (and its [matrix]), [frac_coords],
    [atomic_numbers] *)
Record pyobj := mkObj { ob_lattice : option (option M3); ob_coords : option (list V3); ob_numbers : option (list Z) }.

(** pymatgen.py:30-48 [_get_lattice] *)
Definition get_lattice (o : pyobj) : res M3 :=
  match ob_lattice o with Some (Some m) => Ok m | _ => Err TypeError end.
(** pymatgen.py:51-69 [get_positions] *)
Definition get_positions (o : pyobj) : res (list V3) :=
  match ob_coords o with Some p => Ok p | None => Err TypeError end.
(** pymatgen.py:72-90 [_get_atomic_numbers] *)
Definition get_atomic_numbers (o : pyobj) : res (list Z) :=
  match ob_numbers o with Some n => Ok n | None => Err TypeError end.
(** pymatgen.py:93-113 [get_structure] *)
Definition get_structure (o : pyobj) : res (M3 * list Z * list V3) :=
  let* m := get_lattice o in
  let* n := get_atomic_numbers o in
  let* p := get_positions o in
  Ok (m, n, p).

(** pymatgen.py:116-146 [construct_polarizability_dataset].  [positions[i] = ...] broadcasts a
    single row, as in M_Dataset.  Without PyTorch the last line raises NameError, which is
    not modelled: PyTorch is installed here. *)
Definition object_loop (lattice : M3) (numbers : list Z) (l : list pyobj) : res (list (list V3)) :=
  mapM (fun o =>
    let* m := get_lattice o in
    let* c := M_Dataset.np_allclose (narr_m3 m) (narr_m3 lattice) in
    if negb c then Err IncompatibleStructureException
    else
      let* n := get_atomic_numbers o in
      if negb (znumbers_eqb n numbers) then Err IncompatibleStructureException
      else let* p := get_positions o in pm_row (List.length numbers) p) l.
Definition construct_polarizability_dataset (cast : M_Text.num -> M_Text.num) (l : list pyobj) (polarizabilities : M_Poscar.narr) : res dataset :=
  let* _ := verify_list_len (List.length l) None in
  let* _ := verify_ndarray_shape (M_Poscar.na_shape polarizabilities) [Some (List.length l); Some 3%nat; Some 3%nat] in
  match l with
  | [] => Err IndexError
  | o0 :: _ =>
      let* (lattice, numbers, _) := get_structure o0 in
      let* ps := object_loop lattice numbers l in
      dataset_new cast (narr_m3 lattice) numbers
        (M_Poscar.mkNarr [List.length l; List.length numbers; 3%nat]
           (flat_map (fun v => [M_Text.Fin (vx v); M_Text.Fin (vy v); M_Text.Fin (vz v)]) (concat ps)))
        polarizabilities
  end.

(** pymatgen.py:149-164 [construct_ref_structure]; [sym] is spglib's answer for the cell *)
Definition construct_ref_structure (o : pyobj) (sym : option (list (M3 * V3) * list nat)) : res refstruct :=
  let* n := get_atomic_numbers o in
  let* m := get_lattice o in
  let* p := get_positions o in
  make_reference n m p sym.

(** An object in place of a pymatgen Trajectory: [constant_lattice], [coords].  The other two
    attributes are not read by ramannoodle: [coords_are_displacement] and [base_positions]
    say what pymatgen means by [coords]. *)
Record pytraj := mkTraj { pt_constant : option bool; pt_coords : option rarr; pt_displacement : bool; pt_base : list V3 }.
(** pymatgen.py:167-190 [construct_trajectory].  [coords] is read outside of the [try]. *)
Definition construct_trajectory (t : pytraj) (timestep : R) : res trajectory :=
  match pt_constant t with
  | None => Err TypeError
  | Some false => Err ValueError
  | Some true =>
      match pt_coords t with
      | None => Err AttributeError
      | Some c => new_trajectory c timestep
      end
  end.

(** _interpolation.py:528-583 [_get_displacement_amplitudes_pymatgen] *)
Definition object_displacement (s : imodel) (o : pyobj) : res (list V3) :=
  let* p := get_positions o in
  match calc_displacement (rs_positions (im_ref s)) p with
  | Ok d => Ok d
  | Err e => if is_value_error e then Err InvalidDOFException else Err e
  end.
Definition object_amplitudes (present : bool) (s : imodel) (l : list pyobj) : res (list V3 * list R) :=
  if negb present then Err UserError
  else let* ds := mapM (object_displacement s) l in amplitudes_of s ds.
(** _interpolation.py:585-627 [add_dof_from_pymatgen] *)
Definition add_dof_from_objects (present : bool) (l : list pyobj) (pols : rarr) (order : Z) : act unit :=
  do s <- get;
  if negb present then raise UserError
  else
    do _ <- lift (verify_list_len (List.length l) None);
    do x <- lift (object_amplitudes present s l);
    add_dof (Fin (get_cart_displacement (im_ref s) (fst x))) (vec_arr (snd x)) pols order true.
(** _art.py:254-304 [add_art_from_pymatgen] *)
Definition add_art_from_objects (present : bool) (l : list pyobj) (pols : list M3) : act unit :=
  do s <- get;
  do x <- lift (object_amplitudes present s l);
  add_one_atom (fst x) (snd x) pols.
