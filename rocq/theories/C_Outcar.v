(** Theorems about the OUTCAR readers: C57-C61. *)
From Coq Require Import String Ascii ZArith NArith QArith Qreals Reals Bool Arith List Lia Lra.
From Verif Require Import Base LinAlg Constants M_Validate M_StructUtils M_Text M_Poscar M_Outcar M_Vasprun
  S_Text S_Lattice S_Outcar S_Vasprun P_Text P_Outcar P_Outcar2 P_Outcar3 P_Timestep P_Vasprun P_Outcar4 P_Examples7 P_Examples7b.
Import ListNotations.
Local Open Scope nat_scope.

(** C57: skipping to a marker.  The lines of a file are determined by its content. *)
Theorem C57_lines : forall content,
  exists f, file_lines content f /\ forall g, file_lines content g -> g = f.
Proof. exact f_C57_lines. Qed.
Print Assumptions C57_lines.

Theorem C57_skip_finds_first : forall m,
  forall f l r, skip_until m f = Ok (l, r) <-> first_with m f l r.
Proof. exact skip_until_ok. Qed.
Print Assumptions C57_skip_finds_first.

Theorem C57_skip_raises : forall m,
  forall f e, skip_until m f = Err e <-> e = NoMatchingLineFoundException /\ nowhere m f.
Proof. exact skip_until_err. Qed.
Print Assumptions C57_skip_raises.

Example C57_nonvacuous :
  first_with (txt "ions per type") o_file (ln "   ions per type =               1   1") (o_time ++ o_lattice ++ (o_marker :: o_body) ++ o_tensor ++ o_blocks) /\
  nowhere (txt "no such marker") o_file.
Proof. exact ex_C57. Qed.

(** C58: position tables. *)
Theorem C58_positions : forall E content f a,
  file_lines content f ->
  outcar_read_positions E content = Ok a <->
  exists symbols r r', species f symbols r /\ fractional_block E (List.length symbols) r a r'.
Proof. exact f_C58_positions. Qed.
Print Assumptions C58_positions.

Theorem C58_positions_and_polarizability : forall E content f a t,
  file_lines content f ->
  outcar_read_positions_and_polarizability E content = Ok (a, t) <->
  exists symbols r r' r'', species f symbols r /\ fractional_block E (List.length symbols) r a r' /\
    tensor_block E r' t r''.
Proof. exact f_C58_positions_polarizability. Qed.
Print Assumptions C58_positions_and_polarizability.

Theorem C58_complete_rows : forall E content f symbols r l body r' vs,
  file_lines content f ->
  species f symbols r ->
  first_with (txt "position of ions in fractional coordinates (direct lattice)") r l (body ++ r') ->
  rows3_at E body vs -> List.length body = List.length symbols -> symbols <> [] ->
  outcar_read_positions E content = Ok (array2 vs).
Proof. exact f_C58_complete. Qed.
Print Assumptions C58_complete_rows.

Theorem C58_truncated_after_header_refuted : forall E content f symbols r l,
  file_lines content f ->
  species f symbols r ->
  first_with (txt "position of ions in fractional coordinates (direct lattice)") r l [] ->
  symbols <> [] ->
  outcar_read_positions E content = Ok (mkNarr [List.length symbols; 0] []).
Proof. exact f_C58_truncated_header. Qed.
Print Assumptions C58_truncated_after_header_refuted.

Theorem C58_truncated_within_table : forall E content f symbols r l body vs,
  file_lines content f ->
  species f symbols r ->
  first_with (txt "position of ions in fractional coordinates (direct lattice)") r l body ->
  rows3_at E body vs -> body <> [] -> List.length body < List.length symbols ->
  outcar_read_positions E content = Err ValueError.
Proof. exact f_C58_truncated_table. Qed.
Print Assumptions C58_truncated_within_table.

Theorem C58_only_errors : forall E content f e,
  file_lines content f -> outcar_read_positions E content = Err e ->
  (exists m, e = InvalidFileException m) \/ e = ValueError.
Proof. exact f_C58_errors. Qed.
Print Assumptions C58_only_errors.

Theorem C58_polarizability_only_errors : forall E content e,
  outcar_read_positions_and_polarizability E content = Err e \/ outcar_read_structure_and_polarizability E content = Err e ->
  (exists m, e = InvalidFileException m) \/ e = ValueError.
Proof. exact f_outcar_errors. Qed.
Print Assumptions C58_polarizability_only_errors.

Theorem C58_bare_value_errors : forall E content f,
  file_lines content f ->
  outcar_read_positions E content = Err ValueError <->
  bad_counts f \/
  (exists symbols r l r1, species f symbols r /\
     first_with (txt "position of ions in fractional coordinates (direct lattice)") r l r1 /\
     ragged E (List.length symbols) r1).
Proof. exact f_C58_value_error. Qed.
Print Assumptions C58_bare_value_errors.

Example C58_nonvacuous :
  exists r, file_lines (concat o_file) o_file /\ species o_file o_species r /\
  first_with (txt "position of ions in fractional coordinates (direct lattice)") r o_marker (o_body ++ o_tensor ++ o_blocks) /\
  rows3_at oE o_body [mkV 0 0 0; mkV 0 1 0] /\ List.length o_body = List.length o_species /\ o_species <> [].
Proof. exact ex_C58. Qed.

Example C58_truncated_nonvacuous :
  (exists r, file_lines (concat o_cut0) o_cut0 /\ species o_cut0 o_species r /\
    first_with (txt "position of ions in fractional coordinates (direct lattice)") r o_marker []) /\
  (exists r, file_lines (concat o_cut1) o_cut1 /\ species o_cut1 o_species r /\
    first_with (txt "position of ions in fractional coordinates (direct lattice)") r o_marker [ln " 0 0 0"] /\
    rows3_at oE [ln " 0 0 0"] [mkV 0 0 0] /\ 1 < List.length o_species).
Proof. exact ex_C58_cut. Qed.

(** C59: which position blocks make up a trajectory. *)
Theorem C59_steps_determined : forall bs,
  exists l, steps_are bs l /\ forall l', steps_are bs l' -> l' = l.
Proof. exact f_C59_steps. Qed.
Print Assumptions C59_steps_determined.

Theorem C59_trajectory : forall E content f symbols r0 lt r1 dt A B r2 bs steps,
  file_lines content f ->
  species f symbols r0 -> symbols <> [] ->
  first_with (txt "time-step for ionic-motion") r0 lt r1 -> timestep_line E lt (Fin dt) -> (0 < dt)%R ->
  lattice_block E r1 (matrix A) r2 -> mmul A B = mI ->
  blocks_in E (List.length symbols) r2 bs -> bs <> [] -> steps_are bs steps ->
  exists fs, outcar_read_trajectory E content = Ok (array3 (List.length symbols) fs, Fin dt) /\
    Forall2 (fun cart frac => cell_images (rows_mul cart B) frac) steps fs.
Proof. exact f_C59. Qed.
Print Assumptions C59_trajectory.

Theorem C59_no_blocks : forall E content f symbols r0 lt r1 dt lat r2,
  file_lines content f ->
  species f symbols r0 ->
  first_with (txt "time-step for ionic-motion") r0 lt r1 -> timestep_line E lt dt ->
  lattice_block E r1 lat r2 -> nowhere block_marker r2 ->
  outcar_read_trajectory E content = Err (InvalidFileException (txt "no trajectory found")).
Proof. exact f_C59_none. Qed.
Print Assumptions C59_no_blocks.
Theorem C59_timestep : forall E content f symbols r0 lt r1 dt A B r2 bs,
  file_lines content f ->
  species f symbols r0 -> symbols <> [] ->
  first_with (txt "time-step for ionic-motion") r0 lt r1 -> timestep_line E lt (Fin dt) -> (dt <= 0)%R ->
  lattice_block E r1 (matrix A) r2 -> mmul A B = mI ->
  blocks_in E (List.length symbols) r2 bs -> bs <> [] ->
  outcar_read_trajectory E content = Err ValueError.
Proof. exact f_C59_timestep. Qed.
Print Assumptions C59_timestep.
Example C59_timestep_nonvacuous : first_with (txt "time-step for ionic-motion") (ln "   POTIM = 0    time-step for ionic-motion" :: o_lattice) (ln "   POTIM = 0    time-step for ionic-motion") o_lattice /\
  timestep_line oE (ln "   POTIM = 0    time-step for ionic-motion") (Fin 0).
Proof. exact ex_C59_timestep. Qed.

Theorem C59_timestep_not_a_number : forall E content f symbols r0 lt r1 w,
  file_lines content f -> species f symbols r0 ->
  first_with (txt "time-step for ionic-motion") r0 lt r1 -> nth_error (split lt) 2 = Some w -> float_of (e_fl E) w = None ->
  outcar_read_trajectory E content = Err ValueError.
Proof. exact f_timestep_garbled. Qed.
Print Assumptions C59_timestep_not_a_number.

Theorem C59_singular_lattice : forall E content f symbols r0 lt r1 dt A r2 b bs,
  file_lines content f ->
  species f symbols r0 -> symbols <> [] ->
  first_with (txt "time-step for ionic-motion") r0 lt r1 -> timestep_line E lt dt ->
  lattice_block E r1 (matrix A) r2 -> mdet A = 0%R -> blocks_in E (List.length symbols) r2 (b :: bs) ->
  outcar_read_trajectory E content = Err LinAlgError.
Proof. exact f_singular. Qed.
Print Assumptions C59_singular_lattice.

Theorem C59_stopped_within_step : forall E content f symbols r0 lt r1 dt A B r2 bs l rest vs,
  file_lines content f ->
  species f symbols r0 -> symbols <> [] ->
  first_with (txt "time-step for ionic-motion") r0 lt r1 -> timestep_line E lt dt ->
  lattice_block E r1 (matrix A) (r2 ++ l :: rest) -> mmul A B = mI ->
  blocks_in E (List.length symbols) r2 bs -> occurs block_marker l ->
  rows3_at E (tl rest) vs -> List.length vs < List.length symbols ->
  occurs (txt "(ML)") l \/ (forall bs' b, bs = bs' ++ [b] -> fst b = false) ->
  outcar_read_trajectory E content = Err ValueError.
Proof. exact f_stopped. Qed.
Print Assumptions C59_stopped_within_step.

Theorem C59_stopped_within_skipped_block : forall E content f symbols r0 lt r1 dt A B r2 bs vs0 l rest steps,
  file_lines content f ->
  species f symbols r0 -> symbols <> [] ->
  first_with (txt "time-step for ionic-motion") r0 lt r1 -> timestep_line E lt (Fin dt) -> (0 < dt)%R ->
  lattice_block E r1 (matrix A) (r2 ++ l :: rest) -> mmul A B = mI ->
  blocks_in E (List.length symbols) r2 (bs ++ [(true, vs0)]) -> occurs block_marker l -> ~ occurs (txt "(ML)") l -> nowhere block_marker rest ->
  steps_are (bs ++ [(true, vs0)]) steps ->
  exists fs, outcar_read_trajectory E content = Ok (array3 (List.length symbols) fs, Fin dt) /\
    Forall2 (fun cart frac => cell_images (rows_mul cart B) frac) steps fs.
Proof. exact f_stopped_skipped. Qed.
Print Assumptions C59_stopped_within_skipped_block.

Theorem C59_only_errors : forall E content e,
  outcar_read_trajectory E content = Err e ->
  (exists m, e = InvalidFileException m) \/ e = ValueError \/ e = LinAlgError.
Proof. exact f_trajectory_errors. Qed.
Print Assumptions C59_only_errors.

Example C59_errors_nonvacuous :
  (first_with (txt "time-step for ionic-motion") s_word (hd [] s_word) (tl s_word) /\
   nth_error (split (hd [] s_word)) 2 = Some (txt "fs") /\ float_of (e_fl oE) (txt "fs") = None) /\
  (lattice_block oE s_flat (matrix s_singular) [] /\ mdet s_singular = 0%R) /\
  (blocks_in oE 2 s_done [(true, [mkV 1 0 0; mkV 0 1 0])] /\ occurs block_marker s_next /\ ~ occurs (txt "(ML)") s_next /\
   occurs block_marker s_ml /\ occurs (txt "(ML)") s_ml /\ rows3_at oE (tl s_rest) [mkV 0 0 0] /\ nowhere block_marker s_rest /\
   steps_are [(true, [mkV 1 0 0; mkV 0 1 0])] [[mkV 1 0 0; mkV 0 1 0]]).
Proof. exact ex_C59_errors. Qed.

Example C59_nonvacuous :
  exists lt r r1,
  first_with (txt "time-step for ionic-motion") (o_time ++ o_lattice ++ r) lt r1 /\ timestep_line oE lt (Fin 1) /\
  lattice_block oE r1 (matrix mI) r /\ mmul mI mI = mI /\ blocks_in oE 2 r o_steps /\
  steps_are o_steps [[mkV 0 0 0; mkV 0 1 0]; [mkV 1 0 0; mkV 0 1 0]; [mkV 5 0 0; mkV 0 1 5]].
Proof. exact ex_C59. Qed.

(** C60: element lists. *)
Theorem C60_structure : forall E content f lat numbers a t,
  file_lines content f ->
  outcar_read_structure_and_polarizability E content = Ok (lat, numbers, a, t) <->
  exists symbols r0 r1 r2 r3, species f symbols r0 /\ numbers_are symbols numbers /\
    lattice_block E r0 lat r1 /\ fractional_block E (List.length symbols) r1 a r2 /\ tensor_block E r2 t r3.
Proof. exact f_C60_structure. Qed.
Print Assumptions C60_structure.

Theorem C60_ref_structure : forall {A} (mk : list Z -> narr -> narr -> res A) E content f s,
  file_lines content f ->
  outcar_read_ref_structure mk E content = Ok s <->
  exists symbols numbers lat a r0 r1 r2, species f symbols r0 /\ numbers_are symbols numbers /\
    lattice_block E r0 lat r1 /\ fractional_block E (List.length symbols) r1 a r2 /\ mk numbers lat a = Ok s.
Proof. exact (@f_C60_ref_structure). Qed.
Print Assumptions C60_ref_structure.

Example C60_nonvacuous :
  exists lat a t, outcar_read_structure_and_polarizability oE (concat o_file) = Ok (lat, [1; 8]%Z, a, t).
Proof. exact ex_C60. Qed.

(** C61, OUTCAR half: phonons, and the sign of imaginary modes. *)
Theorem C61_outcar_phonons : forall E content f symbols f0 masses A B f1 ps f2 lm f3 ms,
  file_lines content f ->
  species f symbols f0 -> symbols <> [] -> masses_are symbols masses ->
  lattice_block E f0 (matrix A) f1 -> mmul A B = mI ->
  fractional_block E (List.length symbols) f1 (array2 ps) f2 ->
  first_with (txt "Eigenvectors and eigenvalues of the dynamical matrix") f2 lm f3 ->
  modes_in E (List.length symbols) f3 ms -> List.length ms = List.length symbols * 3 ->
  outcar_read_phonons E content =
    Ok (array2 ps, mkNarr [List.length ms] (map fst ms),
        array3 (List.length symbols) (map (fun m => displacements_of B masses (snd m)) ms)).
Proof. exact f_C61_outcar. Qed.
Print Assumptions C61_outcar_phonons.

Theorem C61_outcar_imaginary_negative : forall E l w x,
  wavenumber_of E l w -> occurs (txt "f/i") l ->
  (exists s, nth_error (split l) 6 = Some s /\ float_of (e_fl E) s = Some (Fin x)) -> (0 < x)%R ->
  exists r, w = Fin r /\ (r < 0)%R.
Proof. exact f_C61_imaginary. Qed.
Print Assumptions C61_outcar_imaginary_negative.

Theorem C61_outcar_wavenumber_unreadable : forall E content f symbols f0 A B f1 ps f2 lm f3 ms g,
  file_lines content f ->
  species f symbols f0 -> symbols <> [] ->
  lattice_block E f0 (matrix A) f1 -> mmul A B = mI ->
  fractional_block E (List.length symbols) f1 ps f2 ->
  first_with (txt "Eigenvectors and eigenvalues of the dynamical matrix") f2 lm f3 ->
  modes_then E (List.length symbols) f3 ms g -> List.length ms < List.length symbols * 3 ->
  (nowhere (txt "cm-1") g \/
   (exists l r, first_with (txt "cm-1") g l r /\
     (List.length (split l) < 7 \/ (~ occurs (txt "f/i") l /\ List.length (split l) = 7))) ->
   outcar_read_phonons E content = Err (InvalidFileException (txt "eigenvalue could not be parsed"))) /\
  (forall l r w, first_with (txt "cm-1") g l r ->
     (occurs (txt "f/i") l /\ nth_error (split l) 6 = Some w) \/ (~ occurs (txt "f/i") l /\ nth_error (split l) 7 = Some w) ->
     float_of (e_fl E) w = None -> outcar_read_phonons E content = Err ValueError).
Proof. exact f_wavenumber. Qed.
Print Assumptions C61_outcar_wavenumber_unreadable.

Theorem C61_outcar_only_errors : forall E content e,
  outcar_read_phonons E content = Err e ->
  (exists m, e = InvalidFileException m) \/ e = ValueError.
Proof. exact f_phonon_errors. Qed.
Print Assumptions C61_outcar_only_errors.

Example C61_outcar_errors_nonvacuous :
  modes_then oE 1 q_modes [(Fin 5, [mkV 1 0 0])] q_after /\
  first_with (txt "cm-1") q_after (hd [] q_after) (tl q_after) /\ occurs (txt "f/i") (hd [] q_after) /\
  first_with (txt "cm-1") q_bad (hd [] q_bad) (tl q_bad) /\ occurs (txt "f/i") (hd [] q_bad) /\
  nth_error (split (hd [] q_bad)) 6 = Some (txt "*****") /\ float_of (e_fl oE) (txt "*****") = None.
Proof. exact ex_C61_errors. Qed.

Example C61_outcar_nonvacuous :
  exists f0 f1 f2 f3, file_lines (concat q_file) q_file /\ species q_file [txt "H"] f0 /\
  masses_are [txt "H"] [Q2R (1008 # 1000)] /\ lattice_block oE f0 (matrix mI) f1 /\ mmul mI mI = mI /\
  fractional_block oE 1 f1 (array2 [mkV 0 0 0]) f2 /\
  first_with (txt "Eigenvectors and eigenvalues of the dynamical matrix") f2 q_eig f3 /\
  modes_in oE 1 f3 q_list /\ List.length q_list = 1 * 3.
Proof. exact ex_C61. Qed.
