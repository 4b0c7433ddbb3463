{
 "C05": {
  "note": "Shortest for orthogonal cells; the docstring's unrestricted claim is refuted by a skewed-cell witness."
 },
 "C08": {
  "note": "On Flocq's binary64. x // 1 and x % 1 follow NumPy's npy_divmod (C source, not part of the repository). One coordinate; arrays are elementwise. C08_half_open_refuted and C08_idempotence_refuted: apply_pbc(-1e-20) is 1.0."
 },
 "C12": {
  "note": "Values proved; the documented output shape (3,) is refuted (always (1,3))."
 },
 "C15": {
  "note": "Proved in the code's row convention; refuted for spglib's column convention (hexagonal witness)."
 },
 "C16": {
  "note": "Structure, completeness and totality for arbitrary operations."
 },
 "C17": {
  "note": "Needs rotation columns shorter than 5 so that the 0.1-scaled displacement does not wrap."
 },
 "C25": {
  "note": "For structures whose first symmetry operation is the identity and data including the reference; the new DOF orthogonal to the others."
 },
 "C26": {
  "note": "API level for structures with the identity as only symmetry operation; table level (any reachable model whose data lie on the response) in general."
 },
 "C27": {
  "note": "Dummy models with DOFs raise; a dummy model without DOFs returns zeros instead of raising."
 },
 "C29": {
  "note": "Holds for displacements within half a cell (add_dof and add_art); the unrestricted claim is refuted by a wrapping witness."
 },
 "C30": {
  "note": "(S,n,c) with n in {N,1}, c in {3,1} accepted and broadcast; all other rank-3 shapes rejected."
 },
 "C31": {
  "note": "Stated for an arbitrary polarizability model (a function from batches to tensors); for interpolation models the reference polarizability is shown to be such an offset."
 },
 "C33": {
  "note": "For structures whose symmetry operations permute the atoms in the row convention of the code."
 },
 "C34": {
  "note": "Python set order is a parameter; atomic numbers in the symbol table."
 },
 "C35": {
  "note": "The single-atom check is stated relative to the first most displaced atom, as the code does; only the first new DOF is checked to have two points."
 },
 "C38": {
  "note": "Over the reals; a wavenumber of exactly zero (division by zero in numpy) is the non-finite value None."
 },
 "C39": {
  "note": "As C38; also states that measure multiplies the raw intensities by the requested factors."
 },
 "C41": {
  "note": "The documented length ceil(S/2) is shown to be wrong for every S >= 3 (in the same theorem)."
 },
 "C42": {
  "note": "The discrete Fourier transform and scipy's correlate are modelled by their defining sums over the reals."
 },
 "C44": {
  "note": "The areas of Lorentzian and Gaussian lines are Riemann integrals over the real axis; proved with Coquelicot, stated with the standard library."
 },
 "C46": {
  "note": "To sixteen decimals, then the float parser's rounding (a parameter of the model). C46_codec shows the model's encoder and decoder to be UTF-8 as tabulated in the Unicode Standard."
 },
 "C47": {
  "note": "On Flocq's binary64; Python's formatting and float() are correctly rounded. Numbers keep the sign of zero; the file model has no negative zero, so the rewriting clause of C47_structure_file excludes lattice entries in [-5e-17,0)."
 },
 "C50": {
  "note": "Exact characterisation of what is read; exceptions other than InvalidFileException classified. What counts as a word, an integer and a real number is given as a grammar in S_Literals.v, without non-ASCII digits. C50_other_encoding_refuted: the handler formats a variable that the failing read has not bound. C50_sound and C50_undecodable: for any bytes and any division into blocks, what is returned was in the text the file begins with, and does not depend on what follows it."
 },
 "C51": {
  "note": "Lattice scaling and Cartesian conversion proved; agreement with the POSCAR format refuted for scale factors other than 1. Scaling is stated with a separate definition of the floating-point product (without rounding)."
 },
 "C53": {
  "note": "Includes the quirk that a malformed line containing the stop message also ends reading. C53_sound and C53_bytes_errors: for any bytes and any division into blocks. Two _refuted theorems show that undecodable bytes may pass unnoticed, once even in the middle of a configuration."
 },
 "C54": {
  "note": "Every interruption point of a buffered writer (also inside a character), every outcome, every history of calls; and reading back what an interrupted call left."
 },
 "C55": {
  "note": "Up to 256 files; more are always rejected (refuted claim)."
 },
 "C58": {
  "note": "Exact characterisation of what is read and of the errors; the truncation right after the header is the refuted claim, truncation within the table is a bare ValueError. OUTCAR files are also modelled as bytes read in blocks of any size: C58_other_encoding_refuted (UnboundLocalError), C58_blocks_refuted (stray bytes are noticed or not depending on the blocks), C58_rest_of_file. C58_sound and C58_undecodable: for any bytes and any division into blocks, what is returned was in the text the file begins with, and does not depend on what follows it."
 },
 "C59": {
  "note": "For finite coordinates and separators that are not themselves markers; the steps are shown to exist and be unique. Stopped runs: the last block may be cut after any complete line. As bytes: a trajectory is returned only of files that are UTF-8 to their end (C59_whole_file)."
 },
 "C61": {
  "note": "Both readers' full results; the XML parser is a parameter and exact real arithmetic follows the parsing of literals. Complete lists of exceptions for both readers. The OUTCAR reader also for files of any bytes (C61_bytes_only_errors)."
 },
 "C62": {
  "note": "The XML parser is a parameter; paths follow ElementTree's find. Also covers the other vasprun readers. Complete lists of exceptions."
 },
 "C63": {
  "note": "The XML parser is a parameter. no_key_errors says that neither opening the file nor the XML parser raises KeyError, so the only one left is an unknown element symbol. On bytes (C63_bytes...), whether the XML parser finds an error before the first undecodable bytes is a parameter (early)."
 },
 "C64": {
  "note": "Success iff, contents and errors for file lists and pymatgen; the claim that accepted lists stay close to the first lattice is refuted for every distance. C64_any_reads: the same for files with infinities and not-a-number."
 },
 "C65": {
  "note": "For arrays of any entries (including NaN and infinities)."
 },
 "C66": {
  "note": "Finite data in C66_standard, C66_constant and C66_last_wins, any numbers in C66_any_scaling, C66_not_finite and C66_one_component (zero has no sign). Casting to the default dtype is an arbitrary idempotent function. A constant component becomes NaN (0/0)."
 },
 "C67": {
  "note": "C67_other_sizes: a zero batch size raises ValueError (from range), a negative one yields nothing. The generator is modelled by the list of its items."
 },
 "C68": {
  "note": "dimenet_triplets of torch_geometric is a parameter; triplets_for states the sizes and index ranges it promises."
 },
 "C69": {
  "note": "Which of the two returned edge-index tensors torch_geometric puts first cannot be checked without the library: the names index_ji and index_kj follow the code."
 },
 "C70": {
  "note": "C70_symmetric_refuted: in a skewed cell a displacement component of exactly 1/2 makes the graph one-directional, so symmetry is proved for the other positions."
 },
 "C71": {
  "note": "C71_opposite_refuted shows the identity returned for targets along -x, which does not map the x axis to the target. NaN is None."
 },
 "C72": {
  "note": "Weights, layer sizes and rounding to the default dtype are arbitrary. Layers are modelled over exact reals; NaN rows are None. C72_independent_refuted and C72_spoiled: 0 * NaN in the masked sum spreads a NaN to the whole block of 100. The update of batch-norm statistics by training-mode forward passes counts as a change of weights (history)."
 },
 "C76": {
  "note": "Includes the len-is-not-length defect above 256."
 },
 "C79": {
  "note": "Exact arithmetic: no rounding to the default dtype in C79_moved_samples."
 },
 "C80": {
  "note": "vasprun.xml is left out: its line ends are the XML parser's business, which is a parameter."
 },
 "C73": {
  "note": "Memory model of NumPy views; numerical results are arbitrary functions of contents. The answers compared include contents of all results and new objects. Polarizability models are assumed to return new arrays. C73_slices_leak: the same for slices with any step."
 },
 "C74": {
  "note": "For every later history; a ReferenceStructure keeps the symmetry data of construction time while its positions follow the caller. C74_accepted: the constructors accept exactly arrays of matching shapes, in every reachable state."
 },
 "C81": {
  "note": "Exact arithmetic. C81_rotates_with_edge_refuted: with independent channels the contribution of a rotated edge is not the rotated contribution. C81_network: predictions are the graph equations of S_Network.v, written without the model's layers, for every weight, depth and triplet order."
 },
 "C82": {
  "note": "Loss, gradient, optimizer and sampling order are arbitrary, and so are batch-norm statistics except in C82_statistics and C82_variances_positive, which are about PyTorch's (M_Running). Devices are not modelled; C82_loss_* are about loss functions that may raise (M_TrainLoss), and C82_loss_quiet ties them to the other theorems; the optimizer holds all parameters. C82_sample_mean_refuted: with 150 validation samples the validation loss is not the sample average. C82_succeeds_refuted: in a skewed cell with a single one-directional bond a batch of one sample makes the batch norm raise ValueError (C82_single_row says exactly when)."
 },
 "C83": {
  "note": "Exact arithmetic. The hypothesis that an image equals plus or minus the first of its group holds for exact symmetries; the tolerance of the collinearity test is not used. C83_carried_refuted: a rhombic cell with a diagonal mirror plane."
 },
 "C84": {
  "note": "Initial weights, the DimeNet triplet routine and the iteration order of the element set are arbitrary."
 },
 "C85": {
  "note": "Exact arithmetic. Images that the collinearity test groups together must be exactly equal or opposite (exact_images); operations must have the same orthogonal matrix in both coordinate systems, since otherwise C83_carried_refuted applies. Non-vacuity: two atoms exchanged by a mirror plane, six degrees of freedom from three add_dof calls, in two different bases."
 },
 "C86": {
  "note": "Same hypotheses as C85; the factor 2 of C40 appears as the factor 4 in intensities."
 },
 "C87": {
  "note": "Arrays are views of shared buffers (M_Alias.v); spline objects and the reference structure are values. C87_directions_are_shared and C87_mask_is_shared are the documented and undocumented exceptions to independence."
 },
 "C88": {
  "note": "Same setting as C85 (exact images, operations with one matrix in both coordinate systems). Of scipy it is assumed, in the statement, that splines of order 2 and more reproduce polynomials of their order (reproduces_polynomials); order 1 is modelled and needs no assumption. Non-vacuity: Newton interpolation as the spline, a quadratic response on two atoms exchanged by a mirror."
 },
 "C89": {
  "note": "Exact arithmetic. C89_agrees_with_phonons uses the setting of C85 (linear response, 3N orthonormal degrees of freedom). The flat background comes from the one-sided autocorrelation: its transform is half the power spectrum plus half the zero-lag value."
 },
 "C90": {
  "note": "Exact arithmetic. torch_geometric's triplets function is a parameter assumed to list every pair of consecutive edges once (either order of its last two tensors). The independence fails with another iteration order of the element set (C90_iteration_order_refuted)."
 },
 "C91": {
  "note": "Exact arithmetic, splines of any order. The displacements must have one row per atom for C91_acceptance (a single row is broadcast, C30). The independence of acceptance fails in general (C91_acceptance_refuted: two atoms exchanged by a mirror plane)."
 },
 "C92": {
  "note": "Exact arithmetic; orthogonal means |cos| <= 1.001e-5, as in the code. Orthogonality in general is refuted (C92_dropped_images_refuted, C92_skewed_cell_refuted), and so is exactness of predictions for accepted degrees of freedom in skewed cells (C92_exactness_refuted)."
 },
 "C93": {
  "note": "Exact arithmetic. The structures are built with the same list of symmetry operations (what spglib returns for the two orders is a parameter of the model). C93_order needs that no tie between atoms decides (`unambiguous`); C93_single_operation and C93_single_atom give it for structures without symmetry and for add_art; C93_ties_refuted shows that it is needed."
 },
 "C94": {
  "note": "Exact arithmetic. Objects are records of optional attributes (an absent attribute raises AttributeError in Python). pymatgen's meaning of displacement-mode trajectories is part of the specification only (S_Pymatgen). C94_images_refuted, C94_displacements_refuted and C94_material_refuted show claims a user may expect that the code does not satisfy."
 },
 "C95": {
  "note": "Exact arithmetic; splines of order 2 and above enter as a parameter that commutes with the linear map (true of interpolating splines). The two structures are built with the same list of operations, which are fractional. Covariance for operations that do not commute with the turn is refuted (C95_symmetric_refuted); the defect is the one described under C83."
 },
 "C96": {
  "note": "Exact arithmetic; splines as in C95. C96_zero is for models that are not dummies (a dummy ignores all polarizabilities and predicts zero, C27)."
 },
 "C97": {
  "note": "np.array2string and tabulate are parameters. The exactness of green models needs orthonormality (refuted without)."
 },
 "C98": {
  "note": "Values are numbers, texts, lists, arrays, tensors and other objects; texts produced by NumPy and Python themselves are parameters. Misnamed arguments, tensors as wavenumbers, untold list lengths and the shape of scalars are stated as refutations. A tensor with several elements as a time step and int overflow are not modelled. The structure utilities and path arguments are in C_Values.v (tensors excluded; what NumPy makes of lists on the right of @ is a parameter)."
 },
 "C99": {
  "note": "Arithmetic on finite numbers is exact; NaN and infinities follow IEEE rules, and an array of displacements holding one is NaN as a whole once it is normalized. scipy's refusal of non-finite points (check_finite) is modelled. Cells are not singular (spglib refuses singular ones) for C99_finite_calls and C99_history. That masked degrees of freedom still pass NaN on, and that a model without degrees of freedom hides it, are part of C99_predictions."
 },
 "C77": {
  "note": "The ART part is stated with the code's own asymmetry: add_art accepts one or two amplitudes and keeps the points symmetry adds, add_art_from_files insists on exactly two points; C77_art_same_outcome_refuted exhibits data on which they differ."
 },
 "C03": {
  "note": "Exact arithmetic. The *_any_shape theorems are about arrays of any shape with NumPy's broadcasting, entries NaN and infinite included."
 },
 "C06": {
  "note": "Exact arithmetic. Arrays of any shape in C06_values_any_shape; 'rotations must be (3,3)' is refuted, since any rotation array the matrix product takes is accepted."
 },
 "C36": {
  "note": "Exact invariance over the reals; in binary64, for tensors that are exact rotations of one another, invariance up to a relative 2^-43."
 },
 "C37": {
  "note": "Exact over the reals; C37_doubles_* are about the same formula evaluated in binary64 (no corrections). Vanishing and finiteness fail for tiny and huge tensors (C37_doubles_*_refuted)."
 },
 "C48": {
  "note": "str.isprintable of non-ASCII characters is an arbitrary function; C48_encodable assumes that it is false of surrogates. C48_label_told covers every text of Unicode code points."
 },
 "C78": {
  "note": "C78_numbers: atomic numbers beyond 32 bits are silently replaced by congruent ones (C78_numbers_refuted), beyond 64 bits refused; a dataset without samples has no atomic numbers to show. Floats in the list are cut off at the point (C78_floats, C78_floats_refuted); what PyTorch makes of NaN, infinities and floats beyond 32 bits is a parameter."
 }
}