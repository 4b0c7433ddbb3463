(** Theorems about the vasprun.xml readers: C61, C62. *)
From Coq Require Import String Ascii ZArith NArith QArith Qreals Reals Bool Arith List Lia Lra.
From Verif Require Import Base LinAlg Constants M_Validate M_StructUtils M_Text M_Poscar M_Outcar M_Vasprun
  S_Text S_Lattice S_Outcar S_Vasprun P_Text P_Outcar P_Outcar2 P_Outcar3 P_Vasprun P_Timestep P_Outcar4 P_Examples7 P_Examples7b.
Import ListNotations.
Local Open Scope nat_scope.

(** C61, vasprun.xml half: phonons, and the lost sign. *)
Theorem C61_vasprun_phonons : forall E parse content root symbols masses A B ps xs vss,
  parse content = Tree root ->
  symbols_are root symbols -> symbols <> [] -> masses_are symbols masses ->
  array_at E root initial_path (array2 ps) -> List.length ps = List.length symbols ->
  array_at E root lattice_path (matrix A) -> mmul A B = mI ->
  eigenvalues_at E root (map Fin xs) -> eigenvectors_at E root vss ->
  List.length xs = List.length vss -> Forall (fun vs => List.length vs = List.length symbols) vss -> vss <> [] ->
  vasprun_read_phonons E parse content =
    Ok (array2 ps, mkNarr [List.length xs] (map (fun x => Fin (sqrt (Rabs x) / light_cm_ps)) xs),
        array3 (List.length symbols) (map (displacements_of B masses) vss)).
Proof. exact f_C61_vasprun. Qed.
Print Assumptions C61_vasprun_phonons.

Theorem C61_vasprun_sign_lost : forall E parse content ref wav disp,
  vasprun_read_phonons E parse content = Ok (ref, wav, disp) ->
  exists root xs, parse content = Tree root /\ eigenvalues_at E root xs /\ List.length (na_data wav) = List.length xs /\
    forall i x, nth_error xs i = Some x ->
      nth_error (na_data wav) i = Some match x with Fin r => Fin (sqrt (Rabs r) / light_cm_ps) | Inf _ => Inf false | NaN => NaN end.
Proof. exact f_C61_sign_lost. Qed.
Print Assumptions C61_vasprun_sign_lost.

Theorem C61_vasprun_only_errors : forall E parse content e,
  vasprun_read_phonons E parse content = Err e ->
  (exists m, e = InvalidFileException m) \/ e = ValueError \/ e = IndexError \/ e = KeyError \/ e = LinAlgError \/
  parse content = Raises e.
Proof. exact f_vasprun_phonon_errors. Qed.
Print Assumptions C61_vasprun_only_errors.

Example C61_vasprun_nonvacuous :
  symbols_are v_root [txt "H"] /\ masses_are [txt "H"] [Q2R (1008 # 1000)] /\
  array_at oE v_root initial_path (array2 [mkV 0 1 0]) /\ array_at oE v_root lattice_path (matrix mI) /\ mmul mI mI = mI /\
  eigenvalues_at oE v_root (map Fin [5; -5; 0]%R) /\ eigenvectors_at oE v_root [[mkV 1 0 0]; [mkV 0 1 0]; [mkV 0 0 1]].
Proof. exact ex_C61_vasprun. Qed.

(** C62: trajectories and structures. *)
Theorem C62_trajectory : forall E parse content root structs n fs dt,
  parse content = Tree root ->
  unnamed_structures root structs -> structs <> [] ->
  Forall2 (fun s vs => exists v, first_at s [tag "varray"] v /\ varray3 E v vs) structs fs ->
  Forall (fun vs => List.length vs = n) fs -> 0 < n ->
  timestep_at E root (Fin dt) -> (0 < dt)%R ->
  exists ps, vasprun_read_trajectory E parse content = Ok (array3 n ps, Fin dt) /\ Forall2 cell_images fs ps.
Proof. exact f_C62. Qed.
Print Assumptions C62_trajectory.

Theorem C62_no_structures : forall E parse content root,
  parse content = Tree root -> unnamed_structures root [] ->
  vasprun_read_trajectory E parse content = Err (InvalidFileException (txt "no trajectory found")).
Proof. exact f_C62_none. Qed.
Print Assumptions C62_no_structures.

Theorem C62_timestep : forall E parse content root structs n fs dt,
  parse content = Tree root ->
  unnamed_structures root structs -> structs <> [] ->
  Forall2 (fun s vs => exists v, first_at s [tag "varray"] v /\ varray3 E v vs) structs fs ->
  Forall (fun vs => List.length vs = n) fs -> 0 < n ->
  timestep_at E root (Fin dt) -> (dt <= 0)%R ->
  vasprun_read_trajectory E parse content = Err ValueError.
Proof. exact f_C62_timestep. Qed.
Print Assumptions C62_timestep.

Theorem C62_frames_must_agree : forall E parse content root structs fs dt vs vs',
  parse content = Tree root ->
  unnamed_structures root structs ->
  Forall2 (fun s vs => exists v, first_at s [tag "varray"] v /\ varray3 E v vs) structs fs ->
  Forall (fun vs => vs <> []) fs -> In vs fs -> In vs' fs -> List.length vs <> List.length vs' ->
  timestep_at E root dt -> vasprun_read_trajectory E parse content = Err ValueError.
Proof. exact f_C62_differ. Qed.
Print Assumptions C62_frames_must_agree.

Theorem C62_trajectory_only_errors : forall E parse content e,
  vasprun_read_trajectory E parse content = Err e ->
  (exists m, e = InvalidFileException m) \/ e = ValueError \/ parse content = Raises e.
Proof. exact f_vasprun_trajectory_errors. Qed.
Print Assumptions C62_trajectory_only_errors.

Theorem C62_positions_only_errors : forall E parse content e,
  vasprun_read_positions E parse content = Err e \/ vasprun_read_positions_and_polarizability E parse content = Err e ->
  (exists m, e = InvalidFileException m) \/ e = ValueError \/ parse content = Raises e.
Proof. exact f_vasprun_positions_errors. Qed.
Print Assumptions C62_positions_only_errors.

Theorem C62_structure_only_errors : forall E parse content e,
  vasprun_read_structure_and_polarizability E parse content = Err e ->
  (exists m, e = InvalidFileException m) \/ e = ValueError \/ e = IndexError \/ e = KeyError \/ parse content = Raises e.
Proof. exact f_vasprun_structure_errors. Qed.
Print Assumptions C62_structure_only_errors.

Example C62_errors_nonvacuous :
  (exists structs fs vs vs', unnamed_structures w_root structs /\
    Forall2 (fun s vs => exists v, first_at s [tag "varray"] v /\ varray3 oE v vs) structs fs /\
    Forall (fun vs => vs <> []) fs /\ In vs fs /\ In vs' fs /\ List.length vs <> List.length vs' /\ timestep_at oE w_root (Fin 1)) /\
  vasprun_read_structure_and_polarizability oE (fun _ => Tree v_unknown) [] = Err KeyError /\
  vasprun_read_structure_and_polarizability oE (fun _ => Tree v_empty) [] = Err IndexError /\
  vasprun_read_positions oE (fun _ => ParseError) [] = Err (InvalidFileException (txt "root xml element could not be found")).
Proof. exact ex_C62_errors. Qed.

Theorem C62_only_unnamed_structures : forall E parse content shape data dt,
  vasprun_read_trajectory E parse content = Ok (mkNarr shape data, dt) ->
  exists root structs arrays, parse content = Tree root /\ unnamed_structures root structs /\ structs <> [] /\
    Forall2 (fun s a => exists v, first_at s [tag "varray"] v /\ varray_is E v a) structs arrays /\
    hd 0 shape = List.length structs /\ Forall2 in_unit_cell (concat (map na_data arrays)) data /\ timestep_at E root dt.
Proof. exact f_C62_converse_cell. Qed.
Print Assumptions C62_only_unnamed_structures.

Theorem C62_positions : forall E parse content a,
  vasprun_read_positions E parse content = Ok a <->
  exists root, parse content = Tree root /\ array_at E root initial_path a.
Proof. exact f_C62_positions. Qed.
Print Assumptions C62_positions.

Theorem C62_positions_and_polarizability : forall E parse content a t,
  vasprun_read_positions_and_polarizability E parse content = Ok (a, t) <->
  exists root, parse content = Tree root /\ array_at E root initial_path a /\ array_at E root tensor_path t.
Proof. exact f_C62_positions_polarizability. Qed.
Print Assumptions C62_positions_and_polarizability.

Theorem C62_structure : forall E parse content lat numbers a t,
  vasprun_read_structure_and_polarizability E parse content = Ok (lat, numbers, a, t) <->
  exists root symbols, parse content = Tree root /\ symbols_are root symbols /\ numbers_are symbols numbers /\
    array_at E root lattice_path lat /\ array_at E root initial_path a /\ array_at E root tensor_path t.
Proof. exact f_C62_structure. Qed.
Print Assumptions C62_structure.

Theorem C62_ref_structure : forall {A} (mk : list Z -> narr -> narr -> res A) E parse content s,
  vasprun_read_ref_structure mk E parse content = Ok s <->
  exists root symbols numbers lat a, parse content = Tree root /\ symbols_are root symbols /\ numbers_are symbols numbers /\
    array_at E root lattice_path lat /\ array_at E root initial_path a /\ mk numbers lat a = Ok s.
Proof. exact (@f_C62_ref_structure). Qed.
Print Assumptions C62_ref_structure.

Example C62_nonvacuous :
  exists fs, unnamed_structures v_root v_structs /\
  Forall2 (fun s vs => exists v, first_at s [tag "varray"] v /\ varray3 oE v vs) v_structs fs /\
  Forall (fun vs => List.length vs = 1) fs /\ timestep_at oE v_root (Fin 1) /\ fs = [[mkV 0 1 5]; [mkV 5 0 1]].
Proof. exact ex_C62. Qed.

Example C62_none_nonvacuous :
  unnamed_structures (el "modeling" [eln "structure" "initialpos" []; el "calculation" [el "structure" []]]) [].
Proof. exact ex_C62_none. Qed.
