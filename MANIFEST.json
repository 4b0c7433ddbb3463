{
 "claims": [
  {
   "property": "C01",
   "status": "proved",
   "theorems": [
    "C01_any_shape",
    "C01_apply_pbc_canonical"
   ],
   "note": ""
  },
  {
   "property": "C02",
   "status": "proved",
   "theorems": [
    "C02_any_shape",
    "C02_apply_pbc_displacement_canonical"
   ],
   "note": ""
  },
  {
   "property": "C03",
   "status": "proved",
   "theorems": [
    "C03_displace_any_shape",
    "C03_measure_any_shape",
    "C03_inverse_any_shape",
    "C03_reaches_any_shape",
    "C03_displace_calc_inverse",
    "C03_shape_mismatch"
   ],
   "note": "Exact arithmetic. The *_any_shape theorems are about arrays of any shape with NumPy's broadcasting, entries NaN and infinite included."
  },
  {
   "property": "C04",
   "status": "proved",
   "theorems": [
    "C04_calc_displacement_swap"
   ],
   "note": ""
  },
  {
   "property": "C05",
   "status": "proved",
   "theorems": [
    "C05_shortest_in_orthogonal_cells",
    "C05_minimum_refuted"
   ],
   "note": "Shortest for orthogonal cells; the docstring's unrestricted claim is refuted by a skewed-cell witness."
  },
  {
   "property": "C06",
   "status": "proved",
   "theorems": [
    "C06_values_any_shape",
    "C06_shapes_refuted",
    "C06_transform_is_action"
   ],
   "note": "Exact arithmetic. Arrays of any shape in C06_values_any_shape; 'rotations must be (3,3)' is refuted, since any rotation array the matrix product takes is accepted."
  },
  {
   "property": "C07",
   "status": "proved",
   "theorems": [
    "C07_transform_any_shape",
    "C07_position_validation",
    "C07_constructor_rejects",
    "C07_constructor_accepts"
   ],
   "note": ""
  },
  {
   "property": "C08",
   "status": "proved",
   "theorems": [
    "C08_closed_interval",
    "C08_correctly_rounded",
    "C08_one_iff_tiny_negative",
    "C08_idempotent_elsewhere",
    "C08_not_idempotent_there",
    "C08_half_open_refuted",
    "C08_idempotence_refuted",
    "C08_displacement_range",
    "C08_displacement_accuracy",
    "C08_displace_positions",
    "C08_calc_displacement",
    "C08_displace_then_calc",
    "C08_validation",
    "C08_wrapped_positions_accepted",
    "C08_displaced_positions_accepted"
   ],
   "note": "On Flocq's binary64. x // 1 and x % 1 follow NumPy's npy_divmod (C source, not part of the repository). One coordinate; arrays are elementwise. C08_half_open_refuted and C08_idempotence_refuted: apply_pbc(-1e-20) is 1.0."
  },
  {
   "property": "C09",
   "status": "proved",
   "theorems": [
    "C09_collinear",
    "C09_parallel",
    "C09_orthogonal"
   ],
   "note": ""
  },
  {
   "property": "C10",
   "status": "proved",
   "theorems": [
    "C10_first_index",
    "C10_total"
   ],
   "note": ""
  },
  {
   "property": "C11",
   "status": "proved",
   "theorems": [
    "C11_frac_cart",
    "C11_singular"
   ],
   "note": ""
  },
  {
   "property": "C12",
   "status": "proved",
   "theorems": [
    "C12_direction_roundtrip",
    "C12_frac_direction_shape",
    "C12_cart_direction_shape_refuted"
   ],
   "note": "Values proved; the documented output shape (3,) is refuted (always (1,3))."
  },
  {
   "property": "C13",
   "status": "proved",
   "theorems": [
    "C13_atom_indexes",
    "C13_unknown_element"
   ],
   "note": ""
  },
  {
   "property": "C14",
   "status": "proved",
   "theorems": [
    "C14_equivalent_atom_dict",
    "C14_exactly_orbit_labels"
   ],
   "note": ""
  },
  {
   "property": "C15",
   "status": "proved",
   "theorems": [
    "C15_permutation_matrix",
    "C15_column_convention_refuted"
   ],
   "note": "Proved in the code's row convention; refuted for spglib's column convention (hexagonal witness)."
  },
  {
   "property": "C16",
   "status": "proved",
   "theorems": [
    "C16_equivalent_displacements",
    "C16_total"
   ],
   "note": "Structure, completeness and totality for arbitrary operations."
  },
  {
   "property": "C17",
   "status": "proved",
   "theorems": [
    "C17_rotated_permuted_copies"
   ],
   "note": "Needs rotation columns shorter than 5 so that the 0.1-scaled displacement does not wrap."
  },
  {
   "property": "C18",
   "status": "proved",
   "theorems": [
    "C18_tables_consistent"
   ],
   "note": ""
  },
  {
   "property": "C19",
   "status": "proved",
   "theorems": [
    "C19_art_exception_safe",
    "C19_exception_safe"
   ],
   "note": ""
  },
  {
   "property": "C20",
   "status": "proved",
   "theorems": [
    "C20_add_only_appends",
    "C20_frame"
   ],
   "note": ""
  },
  {
   "property": "C21",
   "status": "proved",
   "theorems": [
    "C21_pointwise",
    "C21_concatenation"
   ],
   "note": ""
  },
  {
   "property": "C22",
   "status": "proved",
   "theorems": [
    "C22_periodic"
   ],
   "note": ""
  },
  {
   "property": "C23",
   "status": "proved",
   "theorems": [
    "C23_masked_model",
    "C23_unmask",
    "C23_setter",
    "C23_complement",
    "C23_all_masked"
   ],
   "note": ""
  },
  {
   "property": "C24",
   "status": "proved",
   "theorems": [
    "C24_reference_polarizability"
   ],
   "note": ""
  },
  {
   "property": "C25",
   "status": "proved",
   "theorems": [
    "C25_reproduces_data"
   ],
   "note": "For structures whose first symmetry operation is the identity and data including the reference; the new DOF orthogonal to the others."
  },
  {
   "property": "C26",
   "status": "proved",
   "theorems": [
    "C26_linear_response_exact",
    "C26_linear_response_exact_tables"
   ],
   "note": "API level for structures with the identity as only symmetry operation; table level (any reachable model whose data lie on the response) in general."
  },
  {
   "property": "C27",
   "status": "proved",
   "theorems": [
    "C27_dummy_models"
   ],
   "note": "Dummy models with DOFs raise; a dummy model without DOFs returns zeros instead of raising."
  },
  {
   "property": "C28",
   "status": "proved",
   "theorems": [
    "C28_stored_points",
    "C28_close_amplitudes_rejected",
    "C28_order_below_one",
    "C28_order_below_one_always"
   ],
   "note": ""
  },
  {
   "property": "C29",
   "status": "proved",
   "theorems": [
    "C29_art_only_direction_matters",
    "C29_only_direction_matters",
    "C29_magnitude_ignored_refuted"
   ],
   "note": "Holds for displacements within half a cell (add_dof and add_art); the unrestricted claim is refuted by a wrapping witness."
  },
  {
   "property": "C30",
   "status": "proved",
   "theorems": [
    "C30_broadcast",
    "C30_shape_errors"
   ],
   "note": "(S,n,c) with n in {N,1}, c in {3,1} accepted and broadcast; all other rank-3 shapes rejected."
  },
  {
   "property": "C31",
   "status": "proved",
   "theorems": [
    "C31_phonon_spectra_ignore_offsets",
    "C31_md_spectra_ignore_offsets",
    "C31_reference_polarizability_is_an_offset"
   ],
   "note": "Stated for an arbitrary polarizability model (a function from batches to tensors); for interpolation models the reference polarizability is shown to be such an offset."
  },
  {
   "property": "C32",
   "status": "proved",
   "theorems": [
    "C32_disabled_entry_points",
    "C32_history"
   ],
   "note": ""
  },
  {
   "property": "C33",
   "status": "proved",
   "theorems": [
    "C33_single_atom",
    "C33_first_order",
    "C33_history"
   ],
   "note": "For structures whose symmetry operations permute the atoms in the row convention of the code."
  },
  {
   "property": "C34",
   "status": "proved",
   "theorems": [
    "C34_dof_indexes",
    "C34_specification_tuples"
   ],
   "note": "Python set order is a parameter; atomic numbers in the symbol table."
  },
  {
   "property": "C35",
   "status": "proved",
   "theorems": [
    "C35_add_art_shapes",
    "C35_add_art_accepts",
    "C35_files_accepted",
    "C35_pymatgen_accepted",
    "C35_files_several_atoms_rejected",
    "C35_pymatgen_several_atoms_rejected"
   ],
   "note": "The single-atom check is stated relative to the first most displaced atom, as the code does; only the first new DOF is checked to have two points."
  },
  {
   "property": "C36",
   "status": "proved",
   "theorems": [
    "C36_doubles",
    "C36_rotation_invariant",
    "C36_needs_symmetric_tensors"
   ],
   "note": "Exact invariance over the reals; in binary64, for tensors that are exact rotations of one another, invariance up to a relative 2^-43."
  },
  {
   "property": "C37",
   "status": "proved",
   "theorems": [
    "C37_doubles_nonnegative",
    "C37_doubles_accurate",
    "C37_doubles_nan",
    "C37_doubles_zero",
    "C37_doubles_vanish_refuted",
    "C37_doubles_overflow_refuted",
    "C37_raw_intensities",
    "C37_quadratic_scaling",
    "C37_orientation_phonon",
    "C37_orientation_md"
   ],
   "note": "Exact over the reals; C37_doubles_* are about the same formula evaluated in binary64 (no corrections). Vanishing and finiteness fail for tiny and huge tensors (C37_doubles_*_refuted)."
  },
  {
   "property": "C38",
   "status": "proved",
   "theorems": [
    "C38_values",
    "C38_monotone",
    "C38_invalid_temperature"
   ],
   "note": "Over the reals; a wavenumber of exactly zero (division by zero in numpy) is the non-finite value None."
  },
  {
   "property": "C39",
   "status": "proved",
   "theorems": [
    "C39_values",
    "C39_decreasing",
    "C39_invalid_wavenumber",
    "C39_invalid_wavelength",
    "C39_corrected_intensities"
   ],
   "note": "As C38; also states that measure multiplies the raw intensities by the requested factors."
  },
  {
   "property": "C40",
   "status": "proved",
   "theorems": [
    "C40_twice_the_derivative",
    "C40_odd_in_displacement",
    "C40_one_per_phonon",
    "C40_errors",
    "C40_constructor_gives_matching_shapes"
   ],
   "note": ""
  },
  {
   "property": "C41",
   "status": "proved",
   "theorems": [
    "C41_grid",
    "C41_grid_positive_increasing_documented_length_refuted",
    "C41_raw_measurement_succeeds"
   ],
   "note": "The documented length ceil(S/2) is shown to be wrong for every S >= 3 (in the same theorem)."
  },
  {
   "property": "C42",
   "status": "proved",
   "theorems": [
    "C42_md_textbook_intensities",
    "C42_signal_spectrum_nonnegative",
    "C42_signal_spectrum_formula",
    "C42_md_intensities_nonnegative"
   ],
   "note": "The discrete Fourier transform and scipy's correlate are modelled by their defining sums over the reals."
  },
  {
   "property": "C43",
   "status": "proved",
   "theorems": [
    "C43_rotation",
    "C43_offset",
    "C43_reversal",
    "C43_scale"
   ],
   "note": ""
  },
  {
   "property": "C44",
   "status": "proved",
   "theorems": [
    "C44_pointwise_profile",
    "C44_linear_in_intensities",
    "C44_additive_in_lines",
    "C44_order_of_lines_irrelevant",
    "C44_nonnegative",
    "C44_line_shape",
    "C44_lorentzian_area",
    "C44_gaussian_area",
    "C44_gaussian_half_maximum"
   ],
   "note": "The areas of Lorentzian and Gaussian lines are Riemann integrals over the real axis; proved with Coquelicot, stated with the standard library."
  },
  {
   "property": "C45",
   "status": "proved",
   "theorems": [
    "C45_explicit_grid_validation",
    "C45_automatic_grid",
    "C45_empty_spectrum_automatic_grid"
   ],
   "note": ""
  },
  {
   "property": "C46",
   "status": "proved",
   "theorems": [
    "C46_codec",
    "C46_bytes",
    "C46_write_succeeds_iff_valid",
    "C46_write_failures",
    "C46_round_trip"
   ],
   "note": "To sixteen decimals, then the float parser's rounding (a parameter of the model). C46_codec shows the model's encoder and decoder to be UTF-8 as tabulated in the Unicode Standard."
  },
  {
   "property": "C47",
   "status": "proved",
   "theorems": [
    "C47_reads_one_double",
    "C47_number_round_trip",
    "C47_small_values_exact_refuted",
    "C47_structure_file",
    "C47_trajectory_file"
   ],
   "note": "On Flocq's binary64; Python's formatting and float() are correctly rounded. Numbers keep the sign of zero; the file model has no negative zero, so the rewriting clause of C47_structure_file excludes lattice entries in [-5e-17,0)."
  },
  {
   "property": "C48",
   "status": "proved",
   "theorems": [
    "C48_encodable",
    "C48_structure_label",
    "C48_trajectory_label",
    "C48_label_told",
    "C48_label_unambiguous"
   ],
   "note": "str.isprintable of non-ASCII characters is an arbitrary function; C48_encodable assumes that it is false of surrogates. C48_label_told covers every text of Unicode code points."
  },
  {
   "property": "C49",
   "status": "proved",
   "theorems": [
    "C49_grouping",
    "C49_succeeds_iff_contiguous",
    "C49_symbols_one_to_one"
   ],
   "note": ""
  },
  {
   "property": "C50",
   "status": "proved",
   "theorems": [
    "C50_bytes",
    "C50_other_encoding_refuted",
    "C50_sound",
    "C50_undecodable",
    "C50_format",
    "C50_positions_reader_agrees",
    "C50_one_row_per_atom",
    "C50_failures",
    "C50_words",
    "C50_stripped",
    "C50_integers",
    "C50_reals",
    "C50_mode_letter"
   ],
   "note": "Exact characterisation of what is read; exceptions other than InvalidFileException classified. What counts as a word, an integer and a real number is given as a grammar in S_Literals.v, without non-ASCII digits. C50_other_encoding_refuted: the handler formats a variable that the failing read has not bound. C50_sound and C50_undecodable: for any bytes and any division into blocks, what is returned was in the text the file begins with, and does not depend on what follows it."
  },
  {
   "property": "C51",
   "status": "proved",
   "theorems": [
    "C51_lattice_scaled",
    "C51_scale_is_product",
    "C51_cartesian_converted",
    "C51_cartesian_scaled_refuted"
   ],
   "note": "Lattice scaling and Cartesian conversion proved; agreement with the POSCAR format refuted for scale factors other than 1. Scaling is stated with a separate definition of the floating-point product (without rounding)."
  },
  {
   "property": "C52",
   "status": "proved",
   "theorems": [
    "C52_bytes",
    "C52_write_succeeds_iff_valid",
    "C52_write_failures",
    "C52_round_trip"
   ],
   "note": ""
  },
  {
   "property": "C53",
   "status": "proved",
   "theorems": [
    "C53_bytes",
    "C53_sound",
    "C53_bytes_errors",
    "C53_whole_file_refuted",
    "C53_undecodable_refuted",
    "C53_format",
    "C53_failures"
   ],
   "note": "Includes the quirk that a malformed line containing the stop message also ends reading. C53_sound and C53_bytes_errors: for any bytes and any division into blocks. Two _refuted theorems show that undecodable bytes may pass unnoticed, once even in the middle of a configuration."
  },
  {
   "property": "C54",
   "status": "proved",
   "theorems": [
    "C54_cut_structure_bytes",
    "C54_cut_trajectory_bytes",
    "C54_invalid_structure_touches_nothing",
    "C54_invalid_trajectory_touches_nothing",
    "C54_valid_structure",
    "C54_valid_trajectory",
    "C54_history_without_overwrite_preserves",
    "C54_history_of_failures_preserves",
    "C54_generic_structure",
    "C54_generic_trajectory",
    "C54_reading_interrupted_structure",
    "C54_reading_interrupted_trajectory",
    "C54_interrupted_trajectory_reads_shorter",
    "C54_interruption_detected_refuted"
   ],
   "note": "Every interruption point of a buffered writer (also inside a character), every outcome, every history of calls; and reading back what an interrupted call left."
  },
  {
   "property": "C55",
   "status": "proved",
   "theorems": [
    "C55_displaced_positions",
    "C55_magnitude_ignored",
    "C55_single_atom",
    "C55_written_in_order",
    "C55_single_atom_written_in_order",
    "C55_bad_index",
    "C55_bad_shape",
    "C55_bad_amplitudes",
    "C55_bad_rows",
    "C55_counts_differ",
    "C55_more_than_256_files_refuted",
    "C55_unsupported_format"
   ],
   "note": "Up to 256 files; more are always rejected (refuted claim)."
  },
  {
   "property": "C56",
   "status": "proved",
   "theorems": [
    "C56_nan_positions",
    "C56_nan_positions_single_atom",
    "C56_written"
   ],
   "note": ""
  },
  {
   "property": "C57",
   "status": "proved",
   "theorems": [
    "C57_lines",
    "C57_skip_finds_first",
    "C57_skip_raises"
   ],
   "note": ""
  },
  {
   "property": "C58",
   "status": "proved",
   "theorems": [
    "C58_bytes",
    "C58_other_encoding_refuted",
    "C58_rest_of_file",
    "C58_rest_of_file_polarizability",
    "C58_blocks_refuted",
    "C58_bytes_only_errors",
    "C58_sound",
    "C58_undecodable",
    "C58_positions",
    "C58_positions_and_polarizability",
    "C58_complete_rows",
    "C58_truncated_after_header_refuted",
    "C58_truncated_within_table",
    "C58_only_errors",
    "C58_polarizability_only_errors",
    "C58_bare_value_errors"
   ],
   "note": "Exact characterisation of what is read and of the errors; the truncation right after the header is the refuted claim, truncation within the table is a bare ValueError. OUTCAR files are also modelled as bytes read in blocks of any size: C58_other_encoding_refuted (UnboundLocalError), C58_blocks_refuted (stray bytes are noticed or not depending on the blocks), C58_rest_of_file. C58_sound and C58_undecodable: for any bytes and any division into blocks, what is returned was in the text the file begins with, and does not depend on what follows it."
  },
  {
   "property": "C59",
   "status": "proved",
   "theorems": [
    "C59_bytes",
    "C59_whole_file",
    "C59_bytes_only_errors",
    "C59_steps_determined",
    "C59_trajectory",
    "C59_no_blocks",
    "C59_timestep",
    "C59_timestep_not_a_number",
    "C59_singular_lattice",
    "C59_stopped_within_step",
    "C59_stopped_within_skipped_block",
    "C59_only_errors"
   ],
   "note": "For finite coordinates and separators that are not themselves markers; the steps are shown to exist and be unique. Stopped runs: the last block may be cut after any complete line. As bytes: a trajectory is returned only of files that are UTF-8 to their end (C59_whole_file)."
  },
  {
   "property": "C60",
   "status": "proved",
   "theorems": [
    "C60_bytes",
    "C60_rest_of_file",
    "C60_structure",
    "C60_ref_structure"
   ],
   "note": ""
  },
  {
   "property": "C61",
   "status": "proved",
   "theorems": [
    "C61_bytes",
    "C61_bytes_only_errors",
    "C61_undecodable_refuted",
    "C61_outcar_phonons",
    "C61_outcar_imaginary_negative",
    "C61_outcar_wavenumber_unreadable",
    "C61_outcar_only_errors",
    "C61_vasprun_phonons",
    "C61_vasprun_sign_lost",
    "C61_vasprun_only_errors"
   ],
   "note": "Both readers' full results; the XML parser is a parameter and exact real arithmetic follows the parsing of literals. Complete lists of exceptions for both readers. The OUTCAR reader also for files of any bytes (C61_bytes_only_errors)."
  },
  {
   "property": "C62",
   "status": "proved",
   "theorems": [
    "C62_trajectory",
    "C62_no_structures",
    "C62_timestep",
    "C62_frames_must_agree",
    "C62_trajectory_only_errors",
    "C62_positions_only_errors",
    "C62_structure_only_errors",
    "C62_only_unnamed_structures",
    "C62_positions",
    "C62_positions_and_polarizability",
    "C62_structure",
    "C62_ref_structure"
   ],
   "note": "The XML parser is a parameter; paths follow ElementTree's find. Also covers the other vasprun readers. Complete lists of exceptions."
  },
  {
   "property": "C63",
   "status": "proved",
   "theorems": [
    "C63_phonons",
    "C63_trajectory",
    "C63_positions_and_polarizability",
    "C63_structure_and_polarizability",
    "C63_dataset",
    "C63_positions",
    "C63_ref_structure",
    "C63_unsupported",
    "C63_missing_file",
    "C63_never_masked",
    "C63_masked",
    "C63_dataset_masked",
    "C63_message_refuted",
    "C63_bytes",
    "C63_dataset_bytes",
    "C63_bytes_sound",
    "C63_bytes_trajectory",
    "C63_bytes_errors",
    "C63_dataset_bytes_errors",
    "C63_undecodable_refuted"
   ],
   "note": "The XML parser is a parameter. no_key_errors says that neither opening the file nor the XML parser raises KeyError, so the only one left is an unknown element symbol. On bytes (C63_bytes...), whether the XML parser finds an error before the first undecodable bytes is a parameter (early)."
  },
  {
   "property": "C64",
   "status": "proved",
   "theorems": [
    "C64_reads",
    "C64_read_error",
    "C64_empty",
    "C64_no_torch",
    "C64_sound",
    "C64_drift_bounded_refuted",
    "C64_pymatgen",
    "C64_pymatgen_empty",
    "C64_any_reads",
    "C64_nan"
   ],
   "note": "Success iff, contents and errors for file lists and pymatgen; the claim that accepted lists stay close to the first lattice is refuted for every distance. C64_any_reads: the same for files with infinities and not-a-number."
  },
  {
   "property": "C65",
   "status": "proved",
   "theorems": [
    "C65_inverse",
    "C65_symmetric",
    "C65_iff",
    "C65_components",
    "C65_accepts",
    "C65_vectors_rejected",
    "C65_tensors_rejected"
   ],
   "note": "For arrays of any entries (including NaN and infinities)."
  },
  {
   "property": "C66",
   "status": "proved",
   "theorems": [
    "C66_standard",
    "C66_constant",
    "C66_statistics",
    "C66_rejects",
    "C66_unscaled",
    "C66_last_wins",
    "C66_any_scaling",
    "C66_not_finite",
    "C66_one_component"
   ],
   "note": "Finite data in C66_standard, C66_constant and C66_last_wins, any numbers in C66_any_scaling, C66_not_finite and C66_one_component (zero has no sign). Casting to the default dtype is an arbitrary idempotent function. A constant component becomes NaN (0/0)."
  },
  {
   "property": "C67",
   "status": "proved",
   "theorems": [
    "C67_partition",
    "C67_other_sizes",
    "C67_shape"
   ],
   "note": "C67_other_sizes: a zero batch size raises ValueError (from range), a negative one yields nothing. The generator is modelled by the list of its items."
  },
  {
   "property": "C68",
   "status": "proved",
   "theorems": [
    "C68_cache_transparent"
   ],
   "note": "dimenet_triplets of torch_geometric is a parameter; triplets_for states the sizes and index ranges it promises."
  },
  {
   "property": "C69",
   "status": "proved",
   "theorems": [
    "C69_shifted_copies",
    "C69_entries"
   ],
   "note": "Which of the two returned edge-index tensors torch_geometric puts first cannot be checked without the library: the names index_ji and index_kj follow the code."
  },
  {
   "property": "C70",
   "status": "proved",
   "theorems": [
    "C70_edges",
    "C70_order",
    "C70_attributes",
    "C70_symmetric",
    "C70_symmetric_refuted"
   ],
   "note": "C70_symmetric_refuted: in a skewed cell a displacement component of exactly 1/2 makes the graph one-directional, so symmetry is proved for the other positions."
  },
  {
   "property": "C71",
   "status": "proved",
   "theorems": [
    "C71_rotation",
    "C71_opposite_refuted",
    "C71_zero",
    "C71_always_rotation"
   ],
   "note": "C71_opposite_refuted shows the identity returned for targets along -x, which does not map the x axis to the target. NaN is None."
  },
  {
   "property": "C72",
   "status": "proved",
   "theorems": [
    "C72_per_sample",
    "C72_shape",
    "C72_history",
    "C72_spoiled",
    "C72_independent_refuted"
   ],
   "note": "Weights, layer sizes and rounding to the default dtype are arbitrary. Layers are modelled over exact reals; NaN rows are None. C72_independent_refuted and C72_spoiled: 0 * NaN in the masked sum spreads a NaN to the whole block of 100. The update of batch-norm statistics by training-mode forward passes counts as a change of weights (history)."
  },
  {
   "property": "C73",
   "status": "proved",
   "theorems": [
    "C73_reachable_states_sound",
    "C73_copies_protect",
    "C73_measure_leaks",
    "C73_phonons_leak_through_spectrum",
    "C73_indexing_leaks",
    "C73_polarizability_ts_leaks",
    "C73_transformations_leak",
    "C73_slices_leak"
   ],
   "note": "Memory model of NumPy views; numerical results are arbitrary functions of contents. The answers compared include contents of all results and new objects. Polarizability models are assumed to return new arrays. C73_slices_leak: the same for slices with any step."
  },
  {
   "property": "C74",
   "status": "proved",
   "theorems": [
    "C74_accepted",
    "C74_phonons_follow",
    "C74_phonon_spectrum_follows",
    "C74_md_spectrum_follows",
    "C74_structure_follows",
    "C74_write_seen",
    "C74_trajectory_immune"
   ],
   "note": "For every later history; a ReferenceStructure keeps the symmetry data of construction time while its positions follow the caller. C74_accepted: the constructors accept exactly arrays of matching shapes, in every reachable state."
  },
  {
   "property": "C75",
   "status": "proved",
   "theorems": [
    "C75_constructor",
    "C75_constructor_rejects",
    "C75_len_and_indexing",
    "C75_step_one_slices",
    "C75_all_slices",
    "C75_reversed",
    "C75_zero_step"
   ],
   "note": ""
  },
  {
   "property": "C76",
   "status": "proved",
   "theorems": [
    "C76_verify_shape",
    "C76_verify_list_len"
   ],
   "note": "Includes the len-is-not-length defect above 256."
  },
  {
   "property": "C77",
   "status": "proved",
   "theorems": [
    "C77_dof_from_written_displacements",
    "C77_dof_from_pymatgen_structures",
    "C77_first_amplitude_fixes_the_sign",
    "C77_art_from_written_displacements",
    "C77_art_same_outcome_refuted"
   ],
   "note": "The ART part is stated with the code's own asymmetry: add_art accepts one or two amplitudes and keeps the points symmetry adds, add_art_from_files insists on exactly two points; C77_art_same_outcome_refuted exhibits data on which they differ."
  },
  {
   "property": "C78",
   "status": "proved",
   "theorems": [
    "C78_numbers_fit",
    "C78_numbers",
    "C78_numbers_refuted",
    "C78_new",
    "C78_length",
    "C78_item",
    "C78_range",
    "C78_error",
    "C78_ints",
    "C78_floats",
    "C78_whole_floats",
    "C78_floats_refuted"
   ],
   "note": "C78_numbers: atomic numbers beyond 32 bits are silently replaced by congruent ones (C78_numbers_refuted), beyond 64 bits refused; a dataset without samples has no atomic numbers to show. Floats in the list are cut off at the point (C78_floats, C78_floats_refuted); what PyTorch makes of NaN, infinities and floats beyond 32 bits is a parameter."
  },
  {
   "property": "C79",
   "status": "proved",
   "theorems": [
    "C79_moved_samples",
    "C79_symmetric"
   ],
   "note": "Exact arithmetic: no rounding to the default dtype in C79_moved_samples."
  },
  {
   "property": "C80",
   "status": "proved",
   "theorems": [
    "C80_structure",
    "C80_positions_ts",
    "C80_phonons",
    "C80_trajectory",
    "C80_positions_and_polarizability",
    "C80_structure_and_polarizability",
    "C80_positions",
    "C80_ref_structure",
    "C80_dataset",
    "C80_line_ends"
   ],
   "note": "vasprun.xml is left out: its line ends are the XML parser's business, which is a parameter."
  },
  {
   "property": "C81",
   "status": "proved",
   "theorems": [
    "C81_closed_form",
    "C81_axis_only",
    "C81_inverted_samples",
    "C81_rotates_with_edge",
    "C81_rotates_with_edge_refuted",
    "C81_prediction",
    "C81_network"
   ],
   "note": "Exact arithmetic. C81_rotates_with_edge_refuted: with independent channels the contribution of a rotated edge is not the rotated contribution. C81_network: predictions are the graph equations of S_Network.v, written without the model's layers, for every weight, depth and triplet order."
  },
  {
   "property": "C82",
   "status": "proved",
   "theorems": [
    "C82_rows",
    "C82_statistics",
    "C82_variances_positive",
    "C82_training_mode",
    "C82_epoch",
    "C82_own_gradients",
    "C82_validation_harmless",
    "C82_arguments",
    "C82_succeeds",
    "C82_single_row",
    "C82_succeeds_refuted",
    "C82_pairs",
    "C82_interrupted",
    "C82_variance_nan",
    "C82_variance_finite",
    "C82_sample_mean",
    "C82_sample_mean_refuted",
    "C82_loss_epoch",
    "C82_loss_interrupted",
    "C82_loss_arguments",
    "C82_loss_quiet"
   ],
   "note": "Loss, gradient, optimizer and sampling order are arbitrary, and so are batch-norm statistics except in C82_statistics and C82_variances_positive, which are about PyTorch's (M_Running). Devices are not modelled; C82_loss_* are about loss functions that may raise (M_TrainLoss), and C82_loss_quiet ties them to the other theorems; the optimizer holds all parameters. C82_sample_mean_refuted: with 150 validation samples the validation loss is not the sample average. C82_succeeds_refuted: in a skewed cell with a single one-directional bond a batch of one sample makes the batch norm raise ValueError (C82_single_row says exactly when)."
  },
  {
   "property": "C83",
   "status": "proved",
   "theorems": [
    "C83_directions",
    "C83_image_data",
    "C83_carried",
    "C83_carried_refuted"
   ],
   "note": "Exact arithmetic. The hypothesis that an image equals plus or minus the first of its group holds for exact symmetries; the tolerance of the collinearity test is not used. C83_carried_refuted: a rhombic cell with a diagonal mirror plane."
  },
  {
   "property": "C84",
   "status": "proved",
   "theorems": [
    "C84_outcome",
    "C84_own_row",
    "C84_distance_filter"
   ],
   "note": "Initial weights, the DimeNet triplet routine and the iteration order of the element set are arbitrary."
  },
  {
   "property": "C85",
   "status": "proved",
   "theorems": [
    "C85_symmetric_response_exact",
    "C85_at_most_three_per_atom"
   ],
   "note": "Exact arithmetic. Images that the collinearity test groups together must be exactly equal or opposite (exact_images); operations must have the same orthogonal matrix in both coordinate systems, since otherwise C83_carried_refuted applies. Non-vacuity: two atoms exchanged by a mirror plane, six degrees of freedom from three add_dof calls, in two different bases."
  },
  {
   "property": "C86",
   "status": "proved",
   "theorems": [
    "C86_phonon_tensors",
    "C86_phonon_intensities",
    "C86_trajectory_spectrum",
    "C86_trajectory_succeeds",
    "C86_choice_of_dofs"
   ],
   "note": "Same hypotheses as C85; the factor 2 of C40 appears as the factor 4 in intensities."
  },
  {
   "property": "C87",
   "status": "proved",
   "theorems": [
    "C87_calls_agree",
    "C87_mask_is_shared",
    "C87_unmask_reaches_sharers",
    "C87_polarizability_is_shared",
    "C87_dummy_polarizability_zero",
    "C87_add_detaches",
    "C87_old_objects_untouched",
    "C87_masked_model_independent",
    "C87_returned_arrays_are_copies",
    "C87_write",
    "C87_directions_are_shared",
    "C87_value_semantics"
   ],
   "note": "Arrays are views of shared buffers (M_Alias.v); spline objects and the reference structure are values. C87_directions_are_shared and C87_mask_is_shared are the documented and undocumented exceptions to independence."
  },
  {
   "property": "C88",
   "status": "proved",
   "theorems": [
    "C88_polynomial_response_exact",
    "C88_exact_along_each_dof",
    "C88_phonon_tensors",
    "C88_trajectory_spectrum"
   ],
   "note": "Same setting as C85 (exact images, operations with one matrix in both coordinate systems). Of scipy it is assumed, in the statement, that splines of order 2 and more reproduce polynomials of their order (reproduces_polynomials); order 1 is modelled and needs no assumption. Non-vacuity: Newton interpolation as the spline, a quadratic response on two atoms exchanged by a mirror."
  },
  {
   "property": "C89",
   "status": "proved",
   "theorems": [
    "C89_lines",
    "C89_peaks",
    "C89_agrees_with_phonons"
   ],
   "note": "Exact arithmetic. C89_agrees_with_phonons uses the setting of C85 (linear response, 3N orthonormal degrees of freedom). The flat background comes from the one-sided autocorrelation: its transform is half the power spectrum plus half the zero-lag value."
  },
  {
   "property": "C90",
   "status": "proved",
   "theorems": [
    "C90_order",
    "C90_embeddings",
    "C90_exchange",
    "C90_iteration_order_refuted"
   ],
   "note": "Exact arithmetic. torch_geometric's triplets function is a parameter assumed to list every pair of consecutive edges once (either order of its last two tensors). The independence fails with another iteration order of the element set (C90_iteration_order_refuted)."
  },
  {
   "property": "C91",
   "status": "proved",
   "theorems": [
    "C91_order",
    "C91_acceptance",
    "C91_acceptance_plain",
    "C91_acceptance_refuted"
   ],
   "note": "Exact arithmetic, splines of any order. The displacements must have one row per atom for C91_acceptance (a single row is broadcast, C30). The independence of acceptance fails in general (C91_acceptance_refuted: two atoms exchanged by a mirror plane)."
  },
  {
   "property": "C92",
   "status": "proved",
   "theorems": [
    "C92_plain",
    "C92_symmetric",
    "C92_dropped_images_refuted",
    "C92_skewed_cell_refuted",
    "C92_exactness_refuted"
   ],
   "note": "Exact arithmetic; orthogonal means |cos| <= 1.001e-5, as in the code. Orthogonality in general is refuted (C92_dropped_images_refuted, C92_skewed_cell_refuted), and so is exactness of predictions for accepted degrees of freedom in skewed cells (C92_exactness_refuted)."
  },
  {
   "property": "C93",
   "status": "proved",
   "theorems": [
    "C93_order",
    "C93_images",
    "C93_single_operation",
    "C93_single_atom",
    "C93_ties_refuted"
   ],
   "note": "Exact arithmetic. The structures are built with the same list of symmetry operations (what spglib returns for the two orders is a parameter of the model). C93_order needs that no tie between atoms decides (`unambiguous`); C93_single_operation and C93_single_atom give it for structures without symmetry and for add_art; C93_ties_refuted shows that it is needed."
  },
  {
   "property": "C94",
   "status": "proved",
   "theorems": [
    "C94_structure",
    "C94_structure_error",
    "C94_reference",
    "C94_reference_sound",
    "C94_outside",
    "C94_images_refuted",
    "C94_dataset",
    "C94_dataset_error",
    "C94_trajectory",
    "C94_trajectory_error",
    "C94_displacements_refuted",
    "C94_files",
    "C94_images",
    "C94_material_refuted",
    "C94_missing"
   ],
   "note": "Exact arithmetic. Objects are records of optional attributes (an absent attribute raises AttributeError in Python). pymatgen's meaning of displacement-mode trajectories is part of the specification only (S_Pymatgen). C94_images_refuted, C94_displacements_refuted and C94_material_refuted show claims a user may expect that the code does not satisfy."
  },
  {
   "property": "C95",
   "status": "proved",
   "theorems": [
    "C95_outcomes",
    "C95_turned",
    "C95_spectra",
    "C95_symmetric_refuted"
   ],
   "note": "Exact arithmetic; splines of order 2 and above enter as a parameter that commutes with the linear map (true of interpolating splines). The two structures are built with the same list of operations, which are fractional. Covariance for operations that do not commute with the turn is refuted (C95_symmetric_refuted); the defect is the one described under C83."
  },
  {
   "property": "C96",
   "status": "proved",
   "theorems": [
    "C96_values",
    "C96_units",
    "C96_unit_spectra",
    "C96_zero"
   ],
   "note": "Exact arithmetic; splines as in C95. C96_zero is for models that are not dummies (a dummy ignores all polarizabilities and predicts zero, C27)."
  },
  {
   "property": "C97",
   "status": "proved",
   "theorems": [
    "C97_count",
    "C97_alike",
    "C97_green",
    "C97_green_exact",
    "C97_green_exact_refuted",
    "C97_table",
    "C97_table_atoms",
    "C97_table_row",
    "C97_table_total",
    "C97_table_notes"
   ],
   "note": "np.array2string and tabulate are parameters. The exactness of green models needs orthonormality (refuted without)."
  },
  {
   "property": "C98",
   "status": "proved",
   "theorems": [
    "C98_shape_check",
    "C98_unique",
    "C98_reference_structure",
    "C98_phonons",
    "C98_phonons_tensor_refuted",
    "C98_phonon_spectrum",
    "C98_md_spectrum",
    "C98_model",
    "C98_mask",
    "C98_add_dof",
    "C98_add_art",
    "C98_add_art_rejects",
    "C98_dataset",
    "C98_scale_refuted",
    "C98_scale",
    "C98_potgnn",
    "C98_potgnn_positions",
    "C98_convolve",
    "C98_positive_numbers",
    "C98_trajectory_accepts",
    "C98_trajectory_rejects",
    "C98_write_structure",
    "C98_write_trajectory",
    "C98_write_structure_rejects",
    "C98_bad_atomic_number",
    "C98_tensor_check",
    "C98_shape_told",
    "C98_type_told",
    "C98_length_told_refuted",
    "C98_scalar_shape_refuted",
    "C98_typed_shape",
    "C98_typed_list",
    "C98_typed_structure",
    "C98_wrap",
    "C98_wrap_displacement",
    "C98_displace",
    "C98_measure",
    "C98_measure_name_refuted",
    "C98_transform_positions",
    "C98_transform_rotation",
    "C98_transform_translation_refuted",
    "C98_transform_arrays",
    "C98_paths"
   ],
   "note": "Values are numbers, texts, lists, arrays, tensors and other objects; texts produced by NumPy and Python themselves are parameters. Misnamed arguments, tensors as wavenumbers, untold list lengths and the shape of scalars are stated as refutations. A tensor with several elements as a time step and int overflow are not modelled. The structure utilities and path arguments are in C_Values.v (tensors excluded; what NumPy makes of lists on the right of @ is a parameter)."
  },
  {
   "property": "C99",
   "status": "proved",
   "theorems": [
    "C99_finite_calls",
    "C99_refused",
    "C99_silent",
    "C99_history",
    "C99_reference",
    "C99_predictions"
   ],
   "note": "Arithmetic on finite numbers is exact; NaN and infinities follow IEEE rules, and an array of displacements holding one is NaN as a whole once it is normalized. scipy's refusal of non-finite points (check_finite) is modelled. Cells are not singular (spglib refuses singular ones) for C99_finite_calls and C99_history. That masked degrees of freedom still pass NaN on, and that a model without degrees of freedom hides it, are part of C99_predictions."
  }
 ]
}
