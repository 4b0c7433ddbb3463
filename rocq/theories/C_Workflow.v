(** Theorems about whole workflows: C77. *)
From Coq Require Import ZArith Reals Bool Arith List Lia Lra.
From Verif Require Import Base LinAlg M_Validate M_StructUtils M_Symmetry M_Reference M_Interp M_Art M_Displace
  S_Lattice S_Vec S_Interp S_Displace P_StructUtils P_Interp6 P_Displace P_Interp4 P_Workflow P_Workflow2 P_Examples5 P_Examples6 P_Examples20.
Import ListNotations.
Local Open Scope R_scope.

(** C77: structures displaced by the library, with the polarizabilities computed for them, give
    the same degree of freedom as stating the displacement and amplitudes directly. *)
Theorem C77_dof_from_written_displacements : forall d a0 amps pols qs order s,
  let r := im_ref s in
  mdet (rs_lattice r) <> 0 -> List.length d = List.length (rs_positions r) -> (exists v, In v d /\ v <> v0) ->
  0 < a0 -> Forall (fun a => a <> 0) amps -> List.length pols = List.length (a0 :: amps) ->
  (forall x, rows_mul x (rs_lattice r) = d -> half_cell x) ->
  (forall a x, In a (a0 :: amps) -> rows_mul x (rs_lattice r) = rows_scale a (direction_of d) -> half_cell x) ->
  get_displaced_positions r (Rows (Fin d)) (Some (a0 :: amps)) = Ok (map Fin qs) ->
  add_dof_from_files (map Ok (combine qs pols)) order s =
  add_dof (Fin d) (vec_arr (a0 :: amps)) (mats_arr pols) order true s.
Proof. exact f_C77. Qed.
Print Assumptions C77_dof_from_written_displacements.

Theorem C77_dof_from_pymatgen_structures : forall d a0 amps pols qs order s,
  let r := im_ref s in
  mdet (rs_lattice r) <> 0 -> List.length d = List.length (rs_positions r) -> (exists v, In v d /\ v <> v0) ->
  0 < a0 -> Forall (fun a => a <> 0) amps -> List.length pols = List.length (a0 :: amps) ->
  (forall x, rows_mul x (rs_lattice r) = d -> half_cell x) ->
  (forall a x, In a (a0 :: amps) -> rows_mul x (rs_lattice r) = rows_scale a (direction_of d) -> half_cell x) ->
  get_displaced_positions r (Rows (Fin d)) (Some (a0 :: amps)) = Ok (map Fin qs) ->
  add_dof_from_pymatgen qs (mats_arr pols) order s =
  add_dof (Fin d) (vec_arr (a0 :: amps)) (mats_arr pols) order true s.
Proof. exact f_C77_pymatgen. Qed.
Print Assumptions C77_dof_from_pymatgen_structures.

Theorem C77_first_amplitude_fixes_the_sign : forall d a0 amps pols qs order s,
  let r := im_ref s in
  mdet (rs_lattice r) <> 0 -> List.length d = List.length (rs_positions r) -> (exists v, In v d /\ v <> v0) ->
  Forall (fun a => a <> 0) (a0 :: amps) -> List.length pols = List.length (a0 :: amps) ->
  (forall a x, In a (a0 :: amps) -> rows_mul x (rs_lattice r) = rows_scale a (direction_of d) -> half_cell x) ->
  get_displaced_positions r (Rows (Fin d)) (Some (a0 :: amps)) = Ok (map Fin qs) ->
  add_dof_from_files (map Ok (combine qs pols)) order s =
  add_dof (Fin (rows_scale a0 (direction_of d))) (vec_arr (map (fun a => sign_of a0 * a) (a0 :: amps)))
    (mats_arr pols) order true s.
Proof. exact f_C77_gen. Qed.
Print Assumptions C77_first_amplitude_fixes_the_sign.

Example C77_nonvacuous :
  exists qs,
  let r := im_ref exs1 in
  mdet (rs_lattice r) <> 0 /\ List.length exd1 = List.length (rs_positions r) /\ (exists v, In v exd1 /\ v <> v0) /\
  0 < / 5 /\ Forall (fun a => a <> 0) [- / 5] /\ List.length [mI; mI] = List.length [/ 5; - / 5] /\
  (forall x, rows_mul x (rs_lattice r) = exd1 -> half_cell x) /\
  (forall a x, In a [/ 5; - / 5] -> rows_mul x (rs_lattice r) = rows_scale a (direction_of exd1) -> half_cell x) /\
  get_displaced_positions r (Rows (Fin exd1)) (Some [/ 5; - / 5]) = Ok (map Fin qs).
Proof. exact ex_C77. Qed.

(** The same for an ART model: structures with one displaced atom, read back from files, against
    naming the atom, the direction and the amplitudes.  Whatever the files give, the direct call
    gives too; the direct call can only succeed where the files are refused when the symmetry
    images of the displacement are opposite to it, so that the degree of freedom has more than two
    amplitudes; and where the direct call is refused, so are the files, the model unchanged. *)
Theorem C77_art_from_written_displacements : forall s atom dir a0 amps pols qs,
  let r := im_ref s in
  valid_reference r -> mdet (rs_lattice r) <> 0 -> dir <> v0 -> 0 < a0 -> Forall (fun a => a <> 0) amps -> (List.length amps <= 1)%nat ->
  List.length pols = List.length (a0 :: amps) ->
  (forall x, vmul x (rs_lattice r) = dir -> half_cell [x]) ->
  (forall a x, In a (a0 :: amps) -> vmul x (rs_lattice r) = vscale (a / vnorm dir) dir -> half_cell [x]) ->
  get_ast_displaced_positions r atom dir (Some (a0 :: amps)) = Ok (map Fin qs) ->
  let files := add_art_from_files (map Ok (combine qs pols)) s in
  let direct := add_art atom [vx dir; vy dir; vz dir] (vec_arr (a0 :: amps)) (mats_arr pols) s in
  (snd files = Ok tt -> files = direct) /\
  (forall s' w, direct = ((s', w), Ok tt) ->
     files = direct \/
     (files = ((s, []), Err InvalidDOFException) /\
      (im_dummy s = false -> exists sp sps, im_interp s' = im_interp s ++ sp :: sps /\ (2 < List.length (sp_pts sp))%nat))) /\
  (forall s' w e, direct = ((s', w), Err e) -> s' = s /\ exists w' e', files = ((s, w'), Err e')).
Proof. exact f_C77_art. Qed.
Print Assumptions C77_art_from_written_displacements.

(** Both outcomes of the direct call occur: the files can be accepted (no symmetry), *)
Example C77_art_nonvacuous : exists s qs s' w,
  let r := im_ref s in
  valid_reference r /\ mdet (rs_lattice r) <> 0 /\ art_dir <> v0 /\
  (forall x, vmul x (rs_lattice r) = art_dir -> half_cell [x]) /\
  (forall a x, In a [/ 10; - / 10] -> vmul x (rs_lattice r) = vscale (a / vnorm art_dir) art_dir -> half_cell [x]) /\
  get_ast_displaced_positions r 0%Z art_dir (Some [/ 10; - / 10]) = Ok (map Fin qs) /\
  add_art_from_files (map Ok (combine qs [mI; mscale 2 mI])) s = ((s', w), Ok tt) /\ s' <> s.
Proof. exact ex_C77_art. Qed.

(** and refused where the direct call succeeds (an atom on a twofold axis): the two ways of
    adding the same data are not interchangeable. *)
Theorem C77_art_same_outcome_refuted : exists s qs s' w,
  let r := im_ref s in
  let direct := add_art 0%Z [vx art_dir; vy art_dir; vz art_dir] (vec_arr [/ 10; / 5]) (mats_arr [mI; mscale 2 mI]) s in
  valid_reference r /\ mdet (rs_lattice r) <> 0 /\ art_dir <> v0 /\
  (forall x, vmul x (rs_lattice r) = art_dir -> half_cell [x]) /\
  (forall a x, In a [/ 10; / 5] -> vmul x (rs_lattice r) = vscale (a / vnorm art_dir) art_dir -> half_cell [x]) /\
  get_ast_displaced_positions r 0%Z art_dir (Some [/ 10; / 5]) = Ok (map Fin qs) /\
  direct = ((s', w), Ok tt) /\
  add_art_from_files (map Ok (combine qs [mI; mscale 2 mI])) s = ((s, []), Err InvalidDOFException).
Proof. exact ex_C77_art_refused. Qed.
Print Assumptions C77_art_same_outcome_refuted.
