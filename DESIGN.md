# Formal model of ramannoodle in Rocq (Coq 8.16.1)

Generated by `scripts/design.py` from `scripts/design.md` (text), `MANIFEST.json` (theorems)
and `scripts/assumptions.json` (captured output of `Print Assumptions`).

## 1. Shape of the development

Everything is under `rocq/theories` (logical name `Verif`):

| kind | files | contents |
|---|---|---|
| base | `Base.v`, `LinAlg.v`, `Constants.v` | exceptions as values, lists, 3-vectors and 3x3 matrices over `R`, element table |
| model | `M_*.v` | total Gallina functions mirroring the Python, branch by branch; every definition cites file and lines |
| spec | `S_*.v` | small specifications written without the model's helpers (congruence mod 1, permutation, "first index such that", textbook intensity, file layout, ...) |
| proofs | `P_*.v` | lemmas and worked examples |
| properties | `C_*.v` | the theorems `Cnn_...`, each closed by `exact`, followed by `Print Assumptions`; examples named `..._nonvacuous` meet the hypotheses |

Conventions

* Python exceptions are values: `res A := Ok a | Err exn`. A method that mutates `self` is a
  function from state to `(state * warnings) * res result`, so "the call raised *and* changed
  something" is expressible. Nothing is rolled back unless the code does so.
* Numbers. Numeric code (wrapping, displacements, interpolation, spectra, network) is modelled
  over the reals `R` of Coq's standard library, i.e. in exact arithmetic. Double precision is
  treated separately with Flocq's binary64 in `M_Float.v` (C08, C47) and `M_Double.v` (C36, C37). The text readers work on
  lists of code points and produce `num := Fin r | Inf sign | NaN`; converting a decimal
  literal to a double is an arbitrary rounding function, visible in each theorem.
* NaN from `0/0` is a value (`Nan`, `None`), never Coq's total division.
* External code is an explicit argument: spglib's symmetry data, scipy's splines of order >= 2,
  the XML parser, losses, gradients, the optimizer, the sampler, weights. What is assumed
  about it is a visible hypothesis of the theorem.
* A claim made by the documentation that the code violates is proved false as a theorem with
  suffix `_refuted` (an explicit witness), next to the theorem describing what the code does.

## 2. Per-property plan and what was proved

| id | modelled | how proved |
|---|---|---|
| C01 | `apply_pbc` (`x - floor x`) | floor characterisation; uniqueness of representative |
| C02 | `apply_pbc_displacement` (`where (x mod 1 > 1/2)`) | case analysis on the fractional part, minimality by integrality |
| C03 | `displace_positions`, `calc_displacement` | congruence mod 1 + C01/C02 uniqueness; broadcasting on row-major arrays by induction on shapes (`M_Arrays.v`) |
| C04 | `calc_displacement` | uniqueness of representative in (-1/2,1/2) |
| C05 | `calc_displacement` + lattice product | per-component minimality; explicit skewed lattice witness |
| C06 | `transform_positions` | integer matrices preserve congruence mod 1 |
| C07 | `verify_positions`, constructor path | case analysis over shapes and values |
| C08 | binary64 `apply_pbc`, `apply_pbc_displacement` (`M_Float.v`) | Sterbenz and monotonicity of rounding; computed witnesses |
| C09 | `are_collinear`, orthogonality predicate over `list R` | algebra on normalised dot products |
| C10 | the three list scans | induction on the list |
| C11 | `get_cart_displacement`, `get_frac_displacement` with adjugate inverse | matrix algebra |
| C12 | direction conversions with shapes | as C11, shapes by computation |
| C13 | `get_atom_indexes` | induction |
| C14 | `get_equivalent_atom_dict` as a fold over an insertion-ordered dict | fold invariant |
| C15 | `_compute_permutation_matrices` | separation argument for the 1e-5 test; refuting witness for the column convention |
| C16, C17 | `get_equivalent_displacements` loop | loop invariant over the operation list; cancellation of translations mod 1 |
| C18-C20 | `InterpolationModel` as state machine | step invariant, induction on histories |
| C21, C22 | `calc_polarizabilities` | map structure; C01 invariance |
| C23 | mask operations | list algebra |
| C24-C26 | spline oracle with interpolation property (k >= 2), concrete piecewise linear (k = 1) | algebra on projections |
| C27 | dummy models | strict zip |
| C28 | amplitude checks | duplicates test, sorting |
| C29 | scaling of the displacement | uniqueness of wrap inside half a cell; witness outside |
| C30 | shapes of batches | broadcasting model |
| C31 | phonon and MD spectra | cancellation |
| C32-C35 | `ARTModel` | state machine, list filtering |
| C36, C37 | phonon intensities | polynomial identities with orthogonality relations; in binary64 (`M_Double.v`) signs by case analysis and a running error bound against a lower bound of the quadratic form |
| C38, C39 | correction factors | monotonicity of exp and power |
| C40 | `Phonons.get_raman_spectrum` | algebra |
| C41-C43 | autocorrelation and FFT as finite sums with `cos` | Wiener-Khinchin by double-sum expansion |
| C44, C45 | `convolve_spectrum` | algebra; Riemann integrals for the areas: limit of atan for the Lorentzian, differentiation of a parameter integral for the Gaussian |
| C46, C48-C53 | character-level POSCAR / XDATCAR reader and writer | print-then-parse lemmas, induction on files |
| C47 | binary64 printing with 16 decimals | error bounds of decimal rounding vs ulp |
| C54-C56 | file-system map, crash prefixes; the readers applied to any such prefix | induction on the write list; prefix case analysis line by line |
| C57-C60 | line-based OUTCAR readers, their exceptions, runs that were stopped | induction on lines |
| C61, C62 | vasprun readers on an XML tree datatype | computation on trees |
| C63 | dispatch tables | case analysis |
| C64 | dataset reader loop (files and pymatgen) | loop invariant; drift witness |
| C65, C66, C78 | torch dataset functions | algebra, finite sums, list lemmas |
| C67-C71 | torch utilities | list algebra, matrix algebra |
| C72, C79, C81, C84 | the PotGNN layer by layer, arbitrary weights | per-sample decomposition of batches, invariance of edge geometry; closed form of an edge contribution |
| C73, C74 | memory of buffers and views, objects holding references | history induction over caller operations |
| C75 | `Trajectory` | list lemmas |
| C76 | validators, CPython small-int identity | case analysis |
| C77 | displacement module composed with interpolation and ART models | uniqueness of displacements in half a cell; both ART calls reduced to the same search for degrees of freedom |
| C80 | all text readers on a `TextIO` with universal newlines | line-splitting lemma, congruence of every reader |
| C82 | `train_single_epoch` with arbitrary loss/gradient/optimizer/sampler | invariant of the training and validation loops |
| C83 | symmetry images inside `_get_dof` | composition of C16/C17 with evaluation at knots; rhombic witness |
| C85 | histories of `add_dof`/`add_art` with data from a symmetric linear response | invariant "every stored point lies on the response"; Bessel and counting argument for 3N orthonormal vectors |
| C86 | C85 composed with C37, C40, C43 | equality of predictions on all samples |
| C87 | programs over arrays (views of buffers) and model objects holding them (`M_Shared.v`) | soundness invariant of views; a frame lemma for memory used only by given objects; agreement with the value-level model call by call |
| C88 | the histories of C85 with any spline order, the spline an argument assumed to reproduce polynomials | invariant "every stored point lies on the response along its basis vector"; uniqueness of the polynomial; sum over independent degrees of freedom |
| C89 | `measure` of MD spectra on superposed cosines; C86 for the model side | orthogonality of sampled cosines by telescoping; closed form of C42 |
| C90 | two networks `potgnn_new`, `history`, `calc_polarizabilities` of M_Gnn on reordered structures | the edges, triplets, node and edge rows of one network are those of the other carried along a reordering; sums and means do not depend on the order |
| C91 | `run_adding` of M_Shared (all six ways of adding), `calc_polarizabilities` | what a successful call contributes does not depend on what the model holds; sums do not depend on their order; acceptance is a relation between two calls, symmetric when all images are listed (isometries undone by other operations) |
| C92 | as C91 | each degree of freedom is an image of the displacement of its call; isometries carry the test of one displacement to all pairs of images; witnesses in a rhombic cell and for a dropped image |
| C93 | as C91, and `make_reference`, `get_equivalent_displacements` | simulation between the two models through every call, failing ones included: permutation matrices, candidates, groups, inner products and norms do not depend on the order of rows; the first largest component does unless it is unique or members are exact multiples; witness of a tie on a twofold axis |
| C94 | `io/pymatgen.py`, the pymatgen variants of add_dof/add_art, on records of optional attributes | case analysis; equality with the file variants step by step; witnesses for the three refutations |
| C95 | every addition, prediction and spectrum of a crystal and of the turned crystal | a map T of models (turned lattice and basis, mapped polarizabilities) with run(T s) = T(run s), for any linear map of tensors that commutes with the operations; the map to zero gives the outcomes; witness for the refutation |
| C96 | the same with the lattice kept | T with multiplication by a number; a second map of models for the added tensor |
| C97 | `__repr__` of interpolation and ART models as functions to code points; `np.array2string` and `tabulate` are parameters | texts parsed back (digits cannot run into what follows them); the count theorems use the orthonormality lemmas of C85 and the partition of C14; the refutation is the model of C92 |
| C98 | Python values of any type (numbers, texts, lists, arrays, tensors, others); `_shape_string`, `get_type_error`, `get_shape_error`, `verify_*` with their texts; the checks at the head of constructors, `add_dof`, `add_art`, `mask`, `convolve_spectrum`, writers | one `reported` relation (first unmet requirement); texts parsed back; `forget` relates the checks to the ones of the typed models |
| C99 | `add_dof`, `add_art` and their variants, masks and `calc_polarizabilities` over numbers that may be NaN or infinite (`M_Special.v`) | simulation: calls with finite numbers agree with `M_Interp.v`/`M_Art.v`; every place of a number that is not finite leads to an exception (case analysis along each call); induction over histories; row-wise evaluation of batches |

Theorems per property (from `MANIFEST.json`):

* C01 (proved): `C01_any_shape`, `C01_apply_pbc_canonical`
* C02 (proved): `C02_any_shape`, `C02_apply_pbc_displacement_canonical`
* C03 (proved): `C03_displace_any_shape`, `C03_measure_any_shape`, `C03_inverse_any_shape`, `C03_reaches_any_shape`, `C03_displace_calc_inverse`, `C03_shape_mismatch`
* C04 (proved): `C04_calc_displacement_swap`
* C05 (proved): `C05_shortest_in_orthogonal_cells`, `C05_minimum_refuted`
* C06 (proved): `C06_values_any_shape`, `C06_shapes_refuted`, `C06_transform_is_action`
* C07 (proved): `C07_transform_any_shape`, `C07_position_validation`, `C07_constructor_rejects`, `C07_constructor_accepts`
* C08 (proved): `C08_closed_interval`, `C08_correctly_rounded`, `C08_one_iff_tiny_negative`, `C08_idempotent_elsewhere`, `C08_not_idempotent_there`, `C08_half_open_refuted`, `C08_idempotence_refuted`, `C08_displacement_range`, `C08_displacement_accuracy`, `C08_displace_positions`, `C08_calc_displacement`, `C08_displace_then_calc`, `C08_validation`, `C08_wrapped_positions_accepted`, `C08_displaced_positions_accepted`
* C09 (proved): `C09_collinear`, `C09_parallel`, `C09_orthogonal`
* C10 (proved): `C10_first_index`, `C10_total`
* C11 (proved): `C11_frac_cart`, `C11_singular`
* C12 (proved): `C12_direction_roundtrip`, `C12_frac_direction_shape`, `C12_cart_direction_shape_refuted`
* C13 (proved): `C13_atom_indexes`, `C13_unknown_element`
* C14 (proved): `C14_equivalent_atom_dict`, `C14_exactly_orbit_labels`
* C15 (proved): `C15_permutation_matrix`, `C15_column_convention_refuted`
* C16 (proved): `C16_equivalent_displacements`, `C16_total`
* C17 (proved): `C17_rotated_permuted_copies`
* C18 (proved): `C18_tables_consistent`
* C19 (proved): `C19_art_exception_safe`, `C19_exception_safe`
* C20 (proved): `C20_add_only_appends`, `C20_frame`
* C21 (proved): `C21_pointwise`, `C21_concatenation`
* C22 (proved): `C22_periodic`
* C23 (proved): `C23_masked_model`, `C23_unmask`, `C23_setter`, `C23_complement`, `C23_all_masked`
* C24 (proved): `C24_reference_polarizability`
* C25 (proved): `C25_reproduces_data`
* C26 (proved): `C26_linear_response_exact`, `C26_linear_response_exact_tables`
* C27 (proved): `C27_dummy_models`
* C28 (proved): `C28_stored_points`, `C28_close_amplitudes_rejected`, `C28_order_below_one`, `C28_order_below_one_always`
* C29 (proved): `C29_art_only_direction_matters`, `C29_only_direction_matters`, `C29_magnitude_ignored_refuted`
* C30 (proved): `C30_broadcast`, `C30_shape_errors`
* C31 (proved): `C31_phonon_spectra_ignore_offsets`, `C31_md_spectra_ignore_offsets`, `C31_reference_polarizability_is_an_offset`
* C32 (proved): `C32_disabled_entry_points`, `C32_history`
* C33 (proved): `C33_single_atom`, `C33_first_order`, `C33_history`
* C34 (proved): `C34_dof_indexes`, `C34_specification_tuples`
* C35 (proved): `C35_add_art_shapes`, `C35_add_art_accepts`, `C35_files_accepted`, `C35_pymatgen_accepted`, `C35_files_several_atoms_rejected`, `C35_pymatgen_several_atoms_rejected`
* C36 (proved): `C36_doubles`, `C36_rotation_invariant`, `C36_needs_symmetric_tensors`
* C37 (proved): `C37_doubles_nonnegative`, `C37_doubles_accurate`, `C37_doubles_nan`, `C37_doubles_zero`, `C37_doubles_vanish_refuted`, `C37_doubles_overflow_refuted`, `C37_raw_intensities`, `C37_quadratic_scaling`, `C37_orientation_phonon`, `C37_orientation_md`
* C38 (proved): `C38_values`, `C38_monotone`, `C38_invalid_temperature`
* C39 (proved): `C39_values`, `C39_decreasing`, `C39_invalid_wavenumber`, `C39_invalid_wavelength`, `C39_corrected_intensities`
* C40 (proved): `C40_twice_the_derivative`, `C40_odd_in_displacement`, `C40_one_per_phonon`, `C40_errors`, `C40_constructor_gives_matching_shapes`
* C41 (proved): `C41_grid`, `C41_grid_positive_increasing_documented_length_refuted`, `C41_raw_measurement_succeeds`
* C42 (proved): `C42_md_textbook_intensities`, `C42_signal_spectrum_nonnegative`, `C42_signal_spectrum_formula`, `C42_md_intensities_nonnegative`
* C43 (proved): `C43_rotation`, `C43_offset`, `C43_reversal`, `C43_scale`
* C44 (proved): `C44_pointwise_profile`, `C44_linear_in_intensities`, `C44_additive_in_lines`, `C44_order_of_lines_irrelevant`, `C44_nonnegative`, `C44_line_shape`, `C44_lorentzian_area`, `C44_gaussian_area`, `C44_gaussian_half_maximum`
* C45 (proved): `C45_explicit_grid_validation`, `C45_automatic_grid`, `C45_empty_spectrum_automatic_grid`
* C46 (proved): `C46_codec`, `C46_bytes`, `C46_write_succeeds_iff_valid`, `C46_write_failures`, `C46_round_trip`
* C47 (proved): `C47_reads_one_double`, `C47_number_round_trip`, `C47_small_values_exact_refuted`, `C47_structure_file`, `C47_trajectory_file`
* C48 (proved): `C48_encodable`, `C48_structure_label`, `C48_trajectory_label`, `C48_label_told`, `C48_label_unambiguous`
* C49 (proved): `C49_grouping`, `C49_succeeds_iff_contiguous`, `C49_symbols_one_to_one`
* C50 (proved): `C50_bytes`, `C50_other_encoding_refuted`, `C50_sound`, `C50_undecodable`, `C50_format`, `C50_positions_reader_agrees`, `C50_one_row_per_atom`, `C50_failures`, `C50_words`, `C50_stripped`, `C50_integers`, `C50_reals`, `C50_mode_letter`
* C51 (proved): `C51_lattice_scaled`, `C51_scale_is_product`, `C51_cartesian_converted`, `C51_cartesian_scaled_refuted`
* C52 (proved): `C52_bytes`, `C52_write_succeeds_iff_valid`, `C52_write_failures`, `C52_round_trip`
* C53 (proved): `C53_bytes`, `C53_sound`, `C53_bytes_errors`, `C53_whole_file_refuted`, `C53_undecodable_refuted`, `C53_format`, `C53_failures`
* C54 (proved): `C54_cut_structure_bytes`, `C54_cut_trajectory_bytes`, `C54_invalid_structure_touches_nothing`, `C54_invalid_trajectory_touches_nothing`, `C54_valid_structure`, `C54_valid_trajectory`, `C54_history_without_overwrite_preserves`, `C54_history_of_failures_preserves`, `C54_generic_structure`, `C54_generic_trajectory`, `C54_reading_interrupted_structure`, `C54_reading_interrupted_trajectory`, `C54_interrupted_trajectory_reads_shorter`, `C54_interruption_detected_refuted`
* C55 (proved): `C55_displaced_positions`, `C55_magnitude_ignored`, `C55_single_atom`, `C55_written_in_order`, `C55_single_atom_written_in_order`, `C55_bad_index`, `C55_bad_shape`, `C55_bad_amplitudes`, `C55_bad_rows`, `C55_counts_differ`, `C55_more_than_256_files_refuted`, `C55_unsupported_format`
* C56 (proved): `C56_nan_positions`, `C56_nan_positions_single_atom`, `C56_written`
* C57 (proved): `C57_lines`, `C57_skip_finds_first`, `C57_skip_raises`
* C58 (proved): `C58_bytes`, `C58_other_encoding_refuted`, `C58_rest_of_file`, `C58_rest_of_file_polarizability`, `C58_blocks_refuted`, `C58_bytes_only_errors`, `C58_sound`, `C58_undecodable`, `C58_positions`, `C58_positions_and_polarizability`, `C58_complete_rows`, `C58_truncated_after_header_refuted`, `C58_truncated_within_table`, `C58_only_errors`, `C58_polarizability_only_errors`, `C58_bare_value_errors`
* C59 (proved): `C59_bytes`, `C59_whole_file`, `C59_bytes_only_errors`, `C59_steps_determined`, `C59_trajectory`, `C59_no_blocks`, `C59_timestep`, `C59_timestep_not_a_number`, `C59_singular_lattice`, `C59_stopped_within_step`, `C59_stopped_within_skipped_block`, `C59_only_errors`
* C60 (proved): `C60_bytes`, `C60_rest_of_file`, `C60_structure`, `C60_ref_structure`
* C61 (proved): `C61_bytes`, `C61_bytes_only_errors`, `C61_undecodable_refuted`, `C61_outcar_phonons`, `C61_outcar_imaginary_negative`, `C61_outcar_wavenumber_unreadable`, `C61_outcar_only_errors`, `C61_vasprun_phonons`, `C61_vasprun_sign_lost`, `C61_vasprun_only_errors`
* C62 (proved): `C62_trajectory`, `C62_no_structures`, `C62_timestep`, `C62_frames_must_agree`, `C62_trajectory_only_errors`, `C62_positions_only_errors`, `C62_structure_only_errors`, `C62_only_unnamed_structures`, `C62_positions`, `C62_positions_and_polarizability`, `C62_structure`, `C62_ref_structure`
* C63 (proved): `C63_phonons`, `C63_trajectory`, `C63_positions_and_polarizability`, `C63_structure_and_polarizability`, `C63_dataset`, `C63_positions`, `C63_ref_structure`, `C63_unsupported`, `C63_missing_file`, `C63_never_masked`, `C63_masked`, `C63_dataset_masked`, `C63_message_refuted`, `C63_bytes`, `C63_dataset_bytes`, `C63_bytes_sound`, `C63_bytes_trajectory`, `C63_bytes_errors`, `C63_dataset_bytes_errors`, `C63_undecodable_refuted`
* C64 (proved): `C64_reads`, `C64_read_error`, `C64_empty`, `C64_no_torch`, `C64_sound`, `C64_drift_bounded_refuted`, `C64_pymatgen`, `C64_pymatgen_empty`, `C64_any_reads`, `C64_nan`
* C65 (proved): `C65_inverse`, `C65_symmetric`, `C65_iff`, `C65_components`, `C65_accepts`, `C65_vectors_rejected`, `C65_tensors_rejected`
* C66 (proved): `C66_standard`, `C66_constant`, `C66_statistics`, `C66_rejects`, `C66_unscaled`, `C66_last_wins`, `C66_any_scaling`, `C66_not_finite`, `C66_one_component`
* C67 (proved): `C67_partition`, `C67_other_sizes`, `C67_shape`
* C68 (proved): `C68_cache_transparent`
* C69 (proved): `C69_shifted_copies`, `C69_entries`
* C70 (proved): `C70_edges`, `C70_order`, `C70_attributes`, `C70_symmetric`, `C70_symmetric_refuted`
* C71 (proved): `C71_rotation`, `C71_opposite_refuted`, `C71_zero`, `C71_always_rotation`
* C72 (proved): `C72_per_sample`, `C72_shape`, `C72_history`, `C72_spoiled`, `C72_independent_refuted`
* C73 (proved): `C73_reachable_states_sound`, `C73_copies_protect`, `C73_measure_leaks`, `C73_phonons_leak_through_spectrum`, `C73_indexing_leaks`, `C73_polarizability_ts_leaks`, `C73_transformations_leak`, `C73_slices_leak`
* C74 (proved): `C74_accepted`, `C74_phonons_follow`, `C74_phonon_spectrum_follows`, `C74_md_spectrum_follows`, `C74_structure_follows`, `C74_write_seen`, `C74_trajectory_immune`
* C75 (proved): `C75_constructor`, `C75_constructor_rejects`, `C75_len_and_indexing`, `C75_step_one_slices`, `C75_all_slices`, `C75_reversed`, `C75_zero_step`
* C76 (proved): `C76_verify_shape`, `C76_verify_list_len`
* C77 (proved): `C77_dof_from_written_displacements`, `C77_dof_from_pymatgen_structures`, `C77_first_amplitude_fixes_the_sign`, `C77_art_from_written_displacements`, `C77_art_same_outcome_refuted`
* C78 (proved): `C78_numbers_fit`, `C78_numbers`, `C78_numbers_refuted`, `C78_new`, `C78_length`, `C78_item`, `C78_range`, `C78_error`, `C78_ints`, `C78_floats`, `C78_whole_floats`, `C78_floats_refuted`
* C79 (proved): `C79_moved_samples`, `C79_symmetric`
* C80 (proved): `C80_structure`, `C80_positions_ts`, `C80_phonons`, `C80_trajectory`, `C80_positions_and_polarizability`, `C80_structure_and_polarizability`, `C80_positions`, `C80_ref_structure`, `C80_dataset`, `C80_line_ends`
* C81 (proved): `C81_closed_form`, `C81_axis_only`, `C81_inverted_samples`, `C81_rotates_with_edge`, `C81_rotates_with_edge_refuted`, `C81_prediction`, `C81_network`
* C82 (proved): `C82_rows`, `C82_statistics`, `C82_variances_positive`, `C82_training_mode`, `C82_epoch`, `C82_own_gradients`, `C82_validation_harmless`, `C82_arguments`, `C82_succeeds`, `C82_single_row`, `C82_succeeds_refuted`, `C82_pairs`, `C82_interrupted`, `C82_variance_nan`, `C82_variance_finite`, `C82_sample_mean`, `C82_sample_mean_refuted`, `C82_loss_epoch`, `C82_loss_interrupted`, `C82_loss_arguments`, `C82_loss_quiet`
* C83 (proved): `C83_directions`, `C83_image_data`, `C83_carried`, `C83_carried_refuted`
* C84 (proved): `C84_outcome`, `C84_own_row`, `C84_distance_filter`
* C85 (proved): `C85_symmetric_response_exact`, `C85_at_most_three_per_atom`
* C86 (proved): `C86_phonon_tensors`, `C86_phonon_intensities`, `C86_trajectory_spectrum`, `C86_trajectory_succeeds`, `C86_choice_of_dofs`
* C87 (proved): `C87_calls_agree`, `C87_mask_is_shared`, `C87_unmask_reaches_sharers`, `C87_polarizability_is_shared`, `C87_dummy_polarizability_zero`, `C87_add_detaches`, `C87_old_objects_untouched`, `C87_masked_model_independent`, `C87_returned_arrays_are_copies`, `C87_write`, `C87_directions_are_shared`, `C87_value_semantics`
* C88 (proved): `C88_polynomial_response_exact`, `C88_exact_along_each_dof`, `C88_phonon_tensors`, `C88_trajectory_spectrum`
* C89 (proved): `C89_lines`, `C89_peaks`, `C89_agrees_with_phonons`
* C90 (proved): `C90_order`, `C90_embeddings`, `C90_exchange`, `C90_iteration_order_refuted`
* C91 (proved): `C91_order`, `C91_acceptance`, `C91_acceptance_plain`, `C91_acceptance_refuted`
* C92 (proved): `C92_plain`, `C92_symmetric`, `C92_dropped_images_refuted`, `C92_skewed_cell_refuted`, `C92_exactness_refuted`
* C93 (proved): `C93_order`, `C93_images`, `C93_single_operation`, `C93_single_atom`, `C93_ties_refuted`
* C94 (proved): `C94_structure`, `C94_structure_error`, `C94_reference`, `C94_reference_sound`, `C94_outside`, `C94_images_refuted`, `C94_dataset`, `C94_dataset_error`, `C94_trajectory`, `C94_trajectory_error`, `C94_displacements_refuted`, `C94_files`, `C94_images`, `C94_material_refuted`, `C94_missing`
* C95 (proved): `C95_outcomes`, `C95_turned`, `C95_spectra`, `C95_symmetric_refuted`
* C96 (proved): `C96_values`, `C96_units`, `C96_unit_spectra`, `C96_zero`
* C97 (proved): `C97_count`, `C97_alike`, `C97_green`, `C97_green_exact`, `C97_green_exact_refuted`, `C97_table`, `C97_table_atoms`, `C97_table_row`, `C97_table_total`, `C97_table_notes`
* C98 (proved): `C98_shape_check`, `C98_unique`, `C98_reference_structure`, `C98_phonons`, `C98_phonons_tensor_refuted`, `C98_phonon_spectrum`, `C98_md_spectrum`, `C98_model`, `C98_mask`, `C98_add_dof`, `C98_add_art`, `C98_add_art_rejects`, `C98_dataset`, `C98_scale_refuted`, `C98_scale`, `C98_potgnn`, `C98_potgnn_positions`, `C98_convolve`, `C98_positive_numbers`, `C98_trajectory_accepts`, `C98_trajectory_rejects`, `C98_write_structure`, `C98_write_trajectory`, `C98_write_structure_rejects`, `C98_bad_atomic_number`, `C98_tensor_check`, `C98_shape_told`, `C98_type_told`, `C98_length_told_refuted`, `C98_scalar_shape_refuted`, `C98_typed_shape`, `C98_typed_list`, `C98_typed_structure`, `C98_wrap`, `C98_wrap_displacement`, `C98_displace`, `C98_measure`, `C98_measure_name_refuted`, `C98_transform_positions`, `C98_transform_rotation`, `C98_transform_translation_refuted`, `C98_transform_arrays`, `C98_paths`
* C99 (proved): `C99_finite_calls`, `C99_refused`, `C99_silent`, `C99_history`, `C99_reference`, `C99_predictions`

## 3. Trusted base

1. Coq's kernel (8.16.1) and the standard library.
2. The axioms listed by `Print Assumptions`. All come from the standard library; none is declared
   here. Flocq is used for definitions and lemmas about binary64; it adds no axioms of its own.
3. The faithfulness of the `M_*.v` files to `/repo`, with the simplifications stated in their
   comments and in section 4.

Axioms used: `A1` = `ClassicalDedekindReals.sig_forall_dec`, `A2` =
`ClassicalDedekindReals.sig_not_dec`, `A3` =
`FunctionalExtensionality.functional_extensionality_dep` (all three through `Reals`), `A4` =
`Classical_Prop.classic` (through `Reals`' integration/analysis lemmas and Flocq).

**none (closed under the global context)** (73 theorems): `C13_atom_indexes`, `C13_unknown_element`, `C14_equivalent_atom_dict`, `C14_exactly_orbit_labels`, `C23_masked_model`, `C23_setter`, `C23_unmask`, `C32_disabled_entry_points`, `C40_constructor_gives_matching_shapes`, `C46_codec`, `C48_label_unambiguous`, `C49_grouping`, `C49_succeeds_iff_contiguous`, `C49_symbols_one_to_one`, `C50_integers`, `C50_mode_letter`, `C50_stripped`, `C50_words`, `C55_bad_amplitudes`, `C57_lines`, `C57_skip_finds_first`, `C57_skip_raises`, `C59_steps_determined`, `C64_empty`, `C64_no_torch`, `C65_accepts`, `C65_components`, `C65_iff`, `C65_inverse`, `C65_symmetric`, `C65_tensors_rejected`, `C65_vectors_rejected`, `C67_other_sizes`, `C67_partition`, `C67_shape`, `C68_cache_transparent`, `C69_entries`, `C69_shifted_copies`, `C75_all_slices`, `C75_len_and_indexing`, `C75_reversed`, `C75_step_one_slices`, `C75_zero_step`, `C76_verify_list_len`, `C76_verify_shape`, `C78_error`, `C78_range`, `C80_line_ends`, `C94_structure`, `C94_structure_error`, `C97_alike`, `C97_count`, `C97_table_atoms`, `C98_dataset`, `C98_length_told_refuted`, `C98_mask`, `C98_md_spectrum`, `C98_paths`, `C98_phonon_spectrum`, `C98_phonons`, `C98_phonons_tensor_refuted`, `C98_potgnn`, `C98_potgnn_positions`, `C98_reference_structure`, `C98_scalar_shape_refuted`, `C98_scale`, `C98_shape_check`, `C98_shape_told`, `C98_tensor_check`, `C98_type_told`, `C98_typed_list`, `C98_typed_shape`, `C98_unique`

**A1** (5 theorems): `C98_add_art`, `C98_add_art_rejects`, `C98_add_dof`, `C98_model`, `C98_scale_refuted`

**A1, A3** (175 theorems): `C01_any_shape`, `C01_apply_pbc_canonical`, `C02_any_shape`, `C02_apply_pbc_displacement_canonical`, `C03_displace_any_shape`, `C03_displace_calc_inverse`, `C03_inverse_any_shape`, `C03_measure_any_shape`, `C03_reaches_any_shape`, `C03_shape_mismatch`, `C04_calc_displacement_swap`, `C05_minimum_refuted`, `C05_shortest_in_orthogonal_cells`, `C06_shapes_refuted`, `C06_transform_is_action`, `C06_values_any_shape`, `C07_position_validation`, `C07_transform_any_shape`, `C11_frac_cart`, `C11_singular`, `C12_cart_direction_shape_refuted`, `C12_direction_roundtrip`, `C12_frac_direction_shape`, `C31_phonon_spectra_ignore_offsets`, `C31_reference_polarizability_is_an_offset`, `C39_decreasing`, `C39_invalid_wavenumber`, `C39_values`, `C40_errors`, `C40_odd_in_displacement`, `C40_one_per_phonon`, `C40_twice_the_derivative`, `C46_bytes`, `C46_round_trip`, `C46_write_failures`, `C46_write_succeeds_iff_valid`, `C48_encodable`, `C48_label_told`, `C48_structure_label`, `C48_trajectory_label`, `C50_bytes`, `C50_failures`, `C50_format`, `C50_one_row_per_atom`, `C50_other_encoding_refuted`, `C50_positions_reader_agrees`, `C50_reals`, `C50_sound`, `C50_undecodable`, `C51_cartesian_converted`, `C51_cartesian_scaled_refuted`, `C51_lattice_scaled`, `C51_scale_is_product`, `C52_bytes`, `C52_round_trip`, `C52_write_failures`, `C52_write_succeeds_iff_valid`, `C53_bytes`, `C53_bytes_errors`, `C53_failures`, `C53_format`, `C53_sound`, `C53_undecodable_refuted`, `C53_whole_file_refuted`, `C54_cut_structure_bytes`, `C54_cut_trajectory_bytes`, `C54_generic_structure`, `C54_generic_trajectory`, `C54_history_of_failures_preserves`, `C54_history_without_overwrite_preserves`, `C54_interrupted_trajectory_reads_shorter`, `C54_interruption_detected_refuted`, `C54_invalid_structure_touches_nothing`, `C54_invalid_trajectory_touches_nothing`, `C54_reading_interrupted_structure`, `C54_reading_interrupted_trajectory`, `C54_valid_structure`, `C54_valid_trajectory`, `C58_bare_value_errors`, `C58_bytes`, `C58_bytes_only_errors`, `C58_complete_rows`, `C58_only_errors`, `C58_polarizability_only_errors`, `C58_positions`, `C58_positions_and_polarizability`, `C58_rest_of_file`, `C58_rest_of_file_polarizability`, `C58_truncated_after_header_refuted`, `C58_truncated_within_table`, `C59_bytes`, `C59_no_blocks`, `C59_only_errors`, `C59_singular_lattice`, `C59_stopped_within_skipped_block`, `C59_stopped_within_step`, `C59_timestep`, `C59_timestep_not_a_number`, `C59_trajectory`, `C60_bytes`, `C60_ref_structure`, `C60_rest_of_file`, `C60_structure`, `C61_outcar_imaginary_negative`, `C62_frames_must_agree`, `C62_no_structures`, `C62_only_unnamed_structures`, `C62_positions`, `C62_positions_and_polarizability`, `C62_positions_only_errors`, `C62_ref_structure`, `C62_structure`, `C62_structure_only_errors`, `C62_timestep`, `C62_trajectory`, `C62_trajectory_only_errors`, `C63_never_masked`, `C63_positions`, `C63_positions_and_polarizability`, `C63_ref_structure`, `C63_structure_and_polarizability`, `C63_trajectory`, `C64_nan`, `C66_any_scaling`, `C66_last_wins`, `C66_rejects`, `C66_unscaled`, `C73_copies_protect`, `C73_indexing_leaks`, `C73_measure_leaks`, `C73_phonons_leak_through_spectrum`, `C73_polarizability_ts_leaks`, `C73_reachable_states_sound`, `C73_slices_leak`, `C73_transformations_leak`, `C74_accepted`, `C74_md_spectrum_follows`, `C74_phonon_spectrum_follows`, `C74_phonons_follow`, `C74_structure_follows`, `C74_trajectory_immune`, `C74_write_seen`, `C75_constructor`, `C75_constructor_rejects`, `C80_positions`, `C80_positions_and_polarizability`, `C80_positions_ts`, `C80_ref_structure`, `C80_structure`, `C80_structure_and_polarizability`, `C80_trajectory`, `C81_rotates_with_edge`, `C81_rotates_with_edge_refuted`, `C94_displacements_refuted`, `C94_trajectory`, `C94_trajectory_error`, `C97_table_notes`, `C98_bad_atomic_number`, `C98_convolve`, `C98_displace`, `C98_measure`, `C98_measure_name_refuted`, `C98_positive_numbers`, `C98_trajectory_accepts`, `C98_trajectory_rejects`, `C98_transform_arrays`, `C98_transform_positions`, `C98_transform_rotation`, `C98_transform_translation_refuted`, `C98_typed_structure`, `C98_wrap`, `C98_wrap_displacement`, `C98_write_structure`, `C98_write_structure_rejects`, `C98_write_trajectory`

**A1, A2, A3** (231 theorems): `C07_constructor_accepts`, `C07_constructor_rejects`, `C09_collinear`, `C09_orthogonal`, `C09_parallel`, `C10_first_index`, `C10_total`, `C15_column_convention_refuted`, `C15_permutation_matrix`, `C16_equivalent_displacements`, `C16_total`, `C17_rotated_permuted_copies`, `C18_tables_consistent`, `C19_art_exception_safe`, `C19_exception_safe`, `C20_add_only_appends`, `C20_frame`, `C21_concatenation`, `C21_pointwise`, `C22_periodic`, `C23_all_masked`, `C23_complement`, `C24_reference_polarizability`, `C25_reproduces_data`, `C26_linear_response_exact`, `C26_linear_response_exact_tables`, `C27_dummy_models`, `C28_close_amplitudes_rejected`, `C28_order_below_one`, `C28_order_below_one_always`, `C28_stored_points`, `C29_art_only_direction_matters`, `C29_magnitude_ignored_refuted`, `C29_only_direction_matters`, `C30_broadcast`, `C30_shape_errors`, `C31_md_spectra_ignore_offsets`, `C32_history`, `C33_first_order`, `C33_history`, `C33_single_atom`, `C34_dof_indexes`, `C34_specification_tuples`, `C35_add_art_accepts`, `C35_add_art_shapes`, `C35_files_accepted`, `C35_files_several_atoms_rejected`, `C35_pymatgen_accepted`, `C35_pymatgen_several_atoms_rejected`, `C36_needs_symmetric_tensors`, `C36_rotation_invariant`, `C37_orientation_md`, `C37_orientation_phonon`, `C37_quadratic_scaling`, `C37_raw_intensities`, `C38_invalid_temperature`, `C39_invalid_wavelength`, `C41_grid`, `C41_grid_positive_increasing_documented_length_refuted`, `C41_raw_measurement_succeeds`, `C42_md_intensities_nonnegative`, `C42_signal_spectrum_formula`, `C42_signal_spectrum_nonnegative`, `C43_offset`, `C43_reversal`, `C43_rotation`, `C43_scale`, `C44_additive_in_lines`, `C44_linear_in_intensities`, `C44_nonnegative`, `C44_order_of_lines_irrelevant`, `C44_pointwise_profile`, `C45_automatic_grid`, `C45_empty_spectrum_automatic_grid`, `C45_explicit_grid_validation`, `C55_bad_index`, `C55_bad_rows`, `C55_bad_shape`, `C55_counts_differ`, `C55_displaced_positions`, `C55_magnitude_ignored`, `C55_more_than_256_files_refuted`, `C55_single_atom`, `C55_single_atom_written_in_order`, `C55_unsupported_format`, `C55_written_in_order`, `C56_nan_positions`, `C56_nan_positions_single_atom`, `C56_written`, `C58_blocks_refuted`, `C58_other_encoding_refuted`, `C58_sound`, `C58_undecodable`, `C59_bytes_only_errors`, `C59_whole_file`, `C61_bytes`, `C61_bytes_only_errors`, `C61_outcar_only_errors`, `C61_outcar_phonons`, `C61_outcar_wavenumber_unreadable`, `C61_undecodable_refuted`, `C61_vasprun_only_errors`, `C61_vasprun_phonons`, `C61_vasprun_sign_lost`, `C63_bytes`, `C63_bytes_errors`, `C63_bytes_sound`, `C63_bytes_trajectory`, `C63_dataset`, `C63_dataset_bytes`, `C63_dataset_bytes_errors`, `C63_dataset_masked`, `C63_masked`, `C63_message_refuted`, `C63_missing_file`, `C63_phonons`, `C63_undecodable_refuted`, `C63_unsupported`, `C64_any_reads`, `C64_drift_bounded_refuted`, `C64_pymatgen`, `C64_pymatgen_empty`, `C64_read_error`, `C64_reads`, `C64_sound`, `C66_constant`, `C66_not_finite`, `C66_one_component`, `C66_standard`, `C66_statistics`, `C70_attributes`, `C70_edges`, `C70_order`, `C70_symmetric`, `C70_symmetric_refuted`, `C71_always_rotation`, `C71_opposite_refuted`, `C71_rotation`, `C71_zero`, `C77_art_from_written_displacements`, `C77_art_same_outcome_refuted`, `C77_dof_from_pymatgen_structures`, `C77_dof_from_written_displacements`, `C77_first_amplitude_fixes_the_sign`, `C78_floats`, `C78_floats_refuted`, `C78_ints`, `C78_item`, `C78_length`, `C78_new`, `C78_numbers`, `C78_numbers_fit`, `C78_numbers_refuted`, `C78_whole_floats`, `C80_dataset`, `C80_phonons`, `C81_axis_only`, `C81_closed_form`, `C82_pairs`, `C83_carried`, `C83_carried_refuted`, `C83_directions`, `C83_image_data`, `C84_outcome`, `C85_at_most_three_per_atom`, `C85_symmetric_response_exact`, `C86_choice_of_dofs`, `C86_phonon_intensities`, `C86_phonon_tensors`, `C86_trajectory_spectrum`, `C86_trajectory_succeeds`, `C87_add_detaches`, `C87_calls_agree`, `C87_directions_are_shared`, `C87_dummy_polarizability_zero`, `C87_mask_is_shared`, `C87_masked_model_independent`, `C87_old_objects_untouched`, `C87_polarizability_is_shared`, `C87_returned_arrays_are_copies`, `C87_unmask_reaches_sharers`, `C87_value_semantics`, `C87_write`, `C88_exact_along_each_dof`, `C88_phonon_tensors`, `C88_polynomial_response_exact`, `C88_trajectory_spectrum`, `C91_acceptance`, `C91_acceptance_plain`, `C91_acceptance_refuted`, `C91_order`, `C92_dropped_images_refuted`, `C92_exactness_refuted`, `C92_plain`, `C92_skewed_cell_refuted`, `C92_symmetric`, `C93_images`, `C93_order`, `C93_single_atom`, `C93_single_operation`, `C93_ties_refuted`, `C94_dataset`, `C94_dataset_error`, `C94_files`, `C94_images`, `C94_images_refuted`, `C94_material_refuted`, `C94_missing`, `C94_outside`, `C94_reference`, `C94_reference_sound`, `C95_outcomes`, `C95_spectra`, `C95_symmetric_refuted`, `C95_turned`, `C96_unit_spectra`, `C96_units`, `C96_values`, `C96_zero`, `C97_green`, `C97_green_exact`, `C97_green_exact_refuted`, `C97_table`, `C97_table_row`, `C97_table_total`, `C99_finite_calls`, `C99_history`, `C99_predictions`, `C99_reference`, `C99_refused`, `C99_silent`

**A1, A2, A3, A4** (74 theorems): `C08_calc_displacement`, `C08_closed_interval`, `C08_correctly_rounded`, `C08_displace_positions`, `C08_displace_then_calc`, `C08_displaced_positions_accepted`, `C08_displacement_accuracy`, `C08_displacement_range`, `C08_half_open_refuted`, `C08_idempotence_refuted`, `C08_idempotent_elsewhere`, `C08_not_idempotent_there`, `C08_one_iff_tiny_negative`, `C08_validation`, `C08_wrapped_positions_accepted`, `C36_doubles`, `C37_doubles_accurate`, `C37_doubles_nan`, `C37_doubles_nonnegative`, `C37_doubles_overflow_refuted`, `C37_doubles_vanish_refuted`, `C37_doubles_zero`, `C38_monotone`, `C38_values`, `C39_corrected_intensities`, `C42_md_textbook_intensities`, `C44_gaussian_area`, `C44_gaussian_half_maximum`, `C44_line_shape`, `C44_lorentzian_area`, `C47_number_round_trip`, `C47_reads_one_double`, `C47_small_values_exact_refuted`, `C47_structure_file`, `C47_trajectory_file`, `C72_history`, `C72_independent_refuted`, `C72_per_sample`, `C72_shape`, `C72_spoiled`, `C79_moved_samples`, `C79_symmetric`, `C81_inverted_samples`, `C81_network`, `C81_prediction`, `C82_arguments`, `C82_epoch`, `C82_interrupted`, `C82_loss_arguments`, `C82_loss_epoch`, `C82_loss_interrupted`, `C82_loss_quiet`, `C82_own_gradients`, `C82_rows`, `C82_sample_mean`, `C82_sample_mean_refuted`, `C82_single_row`, `C82_statistics`, `C82_succeeds`, `C82_succeeds_refuted`, `C82_training_mode`, `C82_validation_harmless`, `C82_variance_finite`, `C82_variance_nan`, `C82_variances_positive`, `C84_distance_filter`, `C84_own_row`, `C89_agrees_with_phonons`, `C89_lines`, `C89_peaks`, `C90_embeddings`, `C90_exchange`, `C90_iteration_order_refuted`, `C90_order`


## 4. What is modelled and what is not

| source file | modelled | not modelled |
|---|---|---|
| `structure/utils.py` | all five functions (`M_StructUtils.v`; in doubles `M_Float.v`; on arrays of any shape `M_Arrays.v`; on any Python value `M_Values.v`) | PyTorch tensors as arguments |
| `structure/_symmetry_utils.py` | all (`M_Symmetry.v`), with the exact tolerances of `np.isclose` | |
| `structure/_reference.py` | all (`M_Reference.v`); spglib's result is an input | spglib's search; lattice inverse of non-3x3 arrays |
| `structure/_displace.py` | all (`M_Displace.v`) | |
| `pmodel/_interpolation.py` | everything (`M_Interp.v`, NaN and infinities in `M_Special.v`, objects in memory in `M_Shared.v`, `__repr__` in `M_Repr.v`) | construction of splines of order >= 2 (assumed to interpolate); texts of messages |
| `pmodel/_art.py` | everything (`M_Art.v`, NaN and infinities in `M_Special.v`, objects in memory in `M_Shared.v`, `__repr__` in `M_Repr.v`) | `np.array2string` and `tabulate` (parameters) |
| `pmodel/torch/_gnn.py` | constructor, all blocks, `forward`, `calc_polarizabilities` (`M_Gnn.v`) | rounding, devices, `reset_parameters`, progress bar, weights of the wrong size |
| `pmodel/torch/_train.py` | `train_single_epoch` (`M_Train.v`; with losses that raise, `M_TrainLoss.v`; running statistics, `M_Running.v`) | devices |
| `pmodel/torch/_utils.py` | all (`M_Torch.v`) | error texts |
| `dynamics/_phonon.py`, `dynamics/_trajectory.py` | all (`M_Dynamics.v`, aliasing in `M_Alias.v`) | |
| `spectrum/_raman.py`, `spectrum/utils.py` | all (`M_Spectrum.v`; phonon intensities in doubles `M_Double.v`) | rounding of the corrections, of MD spectra and of the FFT |
| `io/vasp/poscar.py`, `io/vasp/xdatcar.py` | all, character by character (`M_Text.v`, `M_Poscar.v`, `M_Files.v`), and byte by byte as UTF-8 in blocks of any size (`M_Bytes.v`) | non-ASCII digits, the 4300-digit limit of `int`, signed zeros |
| `io/vasp/outcar.py` | all (`M_Outcar.v`), and byte by byte (`M_BytesOutcar.v`) | same |
| `io/vasp/vasprun.py` | all, on XML trees (`M_Vasprun.v`) | the XML parser (a parameter) |
| `io/generic.py` | all (`M_Generic.v`, `M_Files.v`), and on files of any bytes (`M_GenericBytes.v`) | |
| `io/_utils.py` | all (`M_Poscar.v`, `M_Dataset.v`, `M_Outcar.v`; `pathify` of any object in `M_Values.v`) | |
| `io/pymatgen.py` | all functions (`M_Pymatgen.v`, `M_Dataset.v`), on records of optional attributes | pymatgen objects themselves; the NameError raised without PyTorch |
| `dataset/torch/*.py` | all (`M_Dataset.v`, `M_Int32.v`; floats as atomic numbers, `M_FloatNumbers.v`) | entries that are neither ints nor floats |
| `exceptions.py` | `verify_ndarray_shape`, `verify_list_len`, `verify_positions` (`M_Validate.v`); with values of any type and texts: `_shape_string`, `get_type_error`, `get_shape_error`, `verify_ndarray`, `verify_ndarray_shape`, `verify_list_len`, `verify_positions` (`M_Args.v`) | texts of NumPy's and Python's own exceptions; `get_torch_missing_error`, `get_pymatgen_missing_error` texts |
| `constants.py` | element table, weights, physical constants (`Constants.v`, generated by `scripts/gen_constants.py`); ANSI colours (`M_Repr.v`) | |
| `abstract.py` | as the type `pol_model` | |

Across all files: warnings are modelled as events, not texts; memory limits, signals and
concurrent modification of directories are not modelled; distinct paths are distinct files;
arithmetic is exact outside `M_Float.v`; NumPy's `npy_divmod` semantics are assumed in
`M_Float.v`; in `M_Alias.v` numerical kernels are arbitrary functions of array contents,
polarizability models return fresh arrays, and private attributes are not touched.

## 5. Testing the theorems

`seeded/LOG.jsonl` records wrong programs: each line is an edit of one model definition, the
claim it breaks, the theorems that then failed to build, and the theorems tightened because of it.
