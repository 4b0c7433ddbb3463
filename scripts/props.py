#!/usr/bin/env python3
"""Source of properties.jsonl (python3 scripts/props.py > properties.jsonl)."""
import json
P = []
def p(title, statement, quantifier, why, *anchors):
    P.append(dict(id="C%02d" % (len(P) + 1), title=title, statement=statement,
                  quantifier=quantifier, why_tests_cant=why, anchors=list(anchors)))

SU = "ramannoodle/structure/utils.py"
RS = "ramannoodle/structure/_reference.py"
SY = "ramannoodle/structure/_symmetry_utils.py"
DI = "ramannoodle/structure/_displace.py"
IM = "ramannoodle/pmodel/_interpolation.py"
AR = "ramannoodle/pmodel/_art.py"
SP = "ramannoodle/spectrum/_raman.py"
SPU = "ramannoodle/spectrum/utils.py"
PH = "ramannoodle/dynamics/_phonon.py"
TR = "ramannoodle/dynamics/_trajectory.py"
PO = "ramannoodle/io/vasp/poscar.py"
XD = "ramannoodle/io/vasp/xdatcar.py"
OU = "ramannoodle/io/vasp/outcar.py"
VR = "ramannoodle/io/vasp/vasprun.py"
GE = "ramannoodle/io/generic.py"
IU = "ramannoodle/io/_utils.py"
PM = "ramannoodle/io/pymatgen.py"
DS = "ramannoodle/dataset/torch/_dataset.py"
DU = "ramannoodle/dataset/torch/utils.py"
TU = "ramannoodle/pmodel/torch/_utils.py"
GN = "ramannoodle/pmodel/torch/_gnn.py"
EX = "ramannoodle/exceptions.py"
CO = "ramannoodle/constants.py"

# ---- structure utilities -------------------------------------------------
p("apply_pbc returns the canonical image of every coordinate",
  "apply_pbc keeps the array's shape and maps every coordinate x to the unique number r in [0,1) such that x - r is an integer; hence it is idempotent and invariant under adding integers. NaN and infinities become NaN.",
  "all arrays of any shape", "infinitely many coordinates; tests check three", SU + ":apply_pbc")
p("apply_pbc_displacement returns the canonical shortest image",
  "apply_pbc_displacement maps every coordinate x to the unique number r in (-1/2,1/2] with x - r an integer; |r| is minimal among all numbers congruent to x.",
  "all arrays of real displacements", "infinitely many inputs, boundary behaviour at exactly 1/2", SU + ":apply_pbc_displacement")
p("Displacing and measuring displacements are inverse",
  "calc_displacement(p, displace_positions(p, d)) is the canonical image of d, and displace_positions(p, calc_displacement(p, q)) is the canonical image of q. calc_displacement only depends on the two structures modulo lattice translations. Arrays of any two shapes are matched by NumPy's broadcasting rule, entry by entry; shapes that do not match raise ValueError.",
  "all pairs of arrays of any shapes", "universally quantified round trip", SU + ":displace_positions", SU + ":calc_displacement")
p("calc_displacement is antisymmetric away from the half-cell boundary",
  "calc_displacement(q,p) = -calc_displacement(p,q) in every coordinate whose displacement is not exactly one half; at exactly one half both directions return +1/2.",
  "all pairs of positions", "the exception is a measure-zero boundary that random tests never hit", SU + ":calc_displacement")
p("calc_displacement is the minimum displacement for orthogonal cells only",
  "For a lattice whose vectors are mutually orthogonal the displacement returned by calc_displacement is, in Cartesian length, no longer than any other displacement between periodic images. For skewed lattices this fails (the docstring's 'minimum displacement' is refuted by a witness).",
  "all orthogonal lattices, all positions, all integer translations; existential for the refutation", "minimality ranges over infinitely many images", SU + ":calc_displacement", RS + ":get_cart_displacement")
p("transform_positions is an action of affine maps on the torus",
  "For integer rotations, transform_positions(p,R,t) is the canonical image of p R + t, is unaffected by replacing p by lattice-equivalent positions, and applying (R1,t1) then (R2,t2) equals applying (R1 R2, t1 R2 + t2); (I,0) acts as apply_pbc. Of arrays of other shapes exactly those are accepted that NumPy can multiply with the positions and broadcast with the translation, so a rotation that is not (3,3) need not be rejected, and the result need not have the shape of the positions.",
  "all position arrays, all integer 3x3 matrices and real translations", "algebraic law over infinite domains", SU + ":transform_positions")
p("Position validation accepts exactly coordinates in [0,1]",
  "transform_positions raises ValueError iff the array is not (N,3) or has a coordinate outside [0,1]; consequently constructing a ReferenceStructure from positions outside [0,1] always fails with ValueError when the symmetry search succeeds with at least one operation.",
  "all arrays of any shape", "all shapes and all values", EX + ":verify_positions", SU + ":transform_positions", RS + ":ReferenceStructure.__init__")
p("apply_pbc in double precision can return exactly 1.0",
  "For every finite double x the double-precision apply_pbc lies in the closed interval [0,1] and is the double nearest to the exact fractional part; it is 1.0 exactly for -2^-54 <= x < 0, where the half-open claim and idempotence fail; apply_pbc_displacement, displace_positions and calc_displacement stay in (-1/2,1/2], [0,1] and (-1/2,1/2] and agree with exact arithmetic up to whole cells and a few 2^-54; wrapped positions (also of infinities and NaN) always pass the [0,1] validation of the writers.",
  "all binary64 numbers", "2^64 inputs; failure region near zero is tiny", SU + ":apply_pbc", SU + ":apply_pbc_displacement", EX + ":verify_positions")
# ---- symmetry utilities --------------------------------------------------
p("Collinearity and orthogonality tests depend only on directions",
  "are_collinear(v,w) holds iff v and w are nonzero and |cos angle| >= 1 - 1.001e-5; is symmetric, invariant under nonzero rescaling of either argument, and false when either vector is zero. The orthogonality test holds iff |cos angle| <= 1.001e-5.",
  "all pairs of real vectors of equal length", "continuous domain, tolerance boundary, zero vectors", SY + ":are_collinear", SY + ":is_orthogonal_to_all")
p("First-index semantics of the vector-list tests",
  "is_orthogonal_to_all / is_collinear_with_all / is_non_collinear_with_all return -1 exactly when every listed vector passes / is collinear / is non-collinear, and otherwise the smallest offending index.",
  "all vectors and all lists of vectors", "unbounded list length", SY + ":is_orthogonal_to_all", SY + ":is_collinear_with_all", SY + ":is_non_collinear_with_all")
# ---- reference structure -------------------------------------------------
p("Fractional and Cartesian displacements convert into one another",
  "For an invertible lattice, get_frac_displacement(get_cart_displacement(d)) is the canonical image of d; get_cart_displacement(get_frac_displacement(c)) differs from c by an integer combination of lattice vectors and equals c iff the fractional coordinates of c lie in (-1/2,1/2]. A singular lattice makes get_frac_displacement raise.",
  "all 3x3 lattices, all displacements", "algebraic identity over reals", RS + ":get_cart_displacement", RS + ":get_frac_displacement")
p("Direction conversions: values and shapes",
  "get_frac_direction inverts get_cart_direction modulo lattice vectors; get_cart_direction returns an array of shape (1,3), not the documented (3,); get_frac_direction rejects every array whose shape is not (3,).",
  "all directions and lattices", "documentation claim contradicted for every input", RS + ":get_cart_direction", RS + ":get_frac_direction")
p("get_atom_indexes returns exactly the matching atoms in increasing order",
  "get_atom_indexes(symbols) returns, in strictly increasing order and without duplicates, exactly the indexes of atoms whose element symbol is among the given symbols.",
  "all structures of any size and all symbol lists", "unbounded number of atoms", RS + ":get_atom_indexes", CO + ":ATOM_SYMBOLS")
p("get_equivalent_atom_dict partitions the atoms",
  "When the symmetry search labels each atom with the smallest index of its orbit, the dictionary's keys with their lists partition {0..N-1}, each key is the smallest member of its class, and the number of keys equals num_nonequivalent_atoms; labels violating the ordering raise KeyError.",
  "all orbit labellings of any length", "unbounded number of atoms and labellings", RS + ":get_equivalent_atom_dict", RS + ":num_nonequivalent_atoms")
p("Permutation matrices computed for symmetry operations are permutations",
  "If x -> x R + t maps the atoms onto themselves (mod 1) and distinct atoms are at least 1e-5 apart, the matrix computed for (R,t) is exactly the permutation matrix of that map. For spglib's column convention x -> R x + t this fails: a genuine symmetry can yield a matrix with zero rows.",
  "all structures, all affine symmetries", "all structures and operations; failure needs non-orthogonal cells", RS + ":_compute_permutation_matrices", RS + ":_get_positions_permutation_matrix")
p("Structure of get_equivalent_displacements' answer",
  "For every displacement and every list of operations: groups are non-empty, displacements and transformations have equal length in each group, group leaders are pairwise orthogonal (in the code's test), every member of a group is collinear with its leader, no group has near-duplicates, and every listed displacement is the image of the normalised input under the listed transformation.",
  "all structures, displacements, operation lists of any length", "invariant of an unbounded loop", RS + ":get_equivalent_displacements")
p("Equivalent displacements are rotated, permuted copies of the input",
  "If the operation (R,t) is a symmetry in the code's row convention with atom permutation pi, the candidate displacement of atom b is exactly d[pi b] R (no wrap, no residue of positions or translation).",
  "all structures, symmetry operations and displacements", "exact algebraic cancellation for all inputs", RS + ":get_equivalent_displacements", SU + ":transform_positions")
# ---- interpolation model -------------------------------------------------
p("The model's DOF tables stay consistent through any history",
  "After any sequence of add_dof / mask assignment / unmask calls, successful or failing, the number of basis vectors equals the mask length, and equals the number of interpolations for a real model; a dummy model holds no interpolations. All basis vectors have unit Cartesian norm.",
  "all operation histories of any length", "unbounded histories", IM + ":InterpolationModel")
p("Failed operations leave the model unchanged",
  "If add_dof, the mask setter or an ART addition raises, the model's observable state (basis vectors, interpolations, mask, reference data) is identical to the state before the call.",
  "all states, all arguments, all failure points", "all failure points of all inputs", IM + ":add_dof", IM + ":_construct_and_add_interpolations", IM + ":mask")
p("Adding DOFs only appends",
  "A successful add_dof keeps all previous basis vectors, interpolations and mask entries as a prefix, adds at least one DOF when at least one symmetry operation exists, and leaves the new DOFs unmasked; reference structure and polarizability never change.",
  "all states and arguments", "all histories", IM + ":add_dof")
p("Batch evaluation is pointwise",
  "calc_polarizabilities returns one 3x3 tensor per sample, and the tensor of a sample does not depend on the other samples, their order or the batch size; concatenating batches concatenates results.",
  "all models and batches of any size", "unbounded batches", IM + ":calc_polarizabilities")
p("Polarizability respects periodicity",
  "Adding integers to any fractional coordinates of the input positions does not change calc_polarizabilities.",
  "all models, positions, integer shifts", "infinite translation group", IM + ":calc_polarizabilities")
p("Masking removes exactly the masked contributions",
  "The polarizability of a model is its reference plus the sum of contributions of DOFs whose mask entry is False; contributions of a masked model and of its complement add up to that of the unmasked model; get_masked_model sets exactly the listed entries (negative indexes count from the end), ignores the previous mask, raises IndexError for out-of-range indexes and never alters the original; unmask clears every entry. A False entry means active (the setter's docstring says the opposite).",
  "all models, masks, index lists, positions", "all subsets of unboundedly many DOFs", IM + ":get_masked_model", IM + ":unmask", IM + ":mask")
p("The reference structure gets the reference polarizability",
  "If every DOF was added with include_ref_polarizability, calc_polarizabilities at the reference positions returns exactly the reference polarizability, for any interpolation scheme that passes through its data points.",
  "all models built by add_dof, all histories", "all histories and schemes", IM + ":calc_polarizabilities", IM + ":_get_dof")
p("A single-DOF model reproduces the supplied data",
  "For a model with one parent DOF whose basis vector is orthogonal to the others, displacing the reference by amplitude a_i along the DOF (inside the half cell) returns exactly the polarizability supplied for a_i.",
  "all amplitudes, polarizabilities and orders", "all data sets", IM + ":add_dof", IM + ":calc_polarizabilities")
p("First-order models are exact for linear response",
  "If the true polarizability is an affine function of Cartesian displacement and a first-order model has a complete orthonormal set of DOFs with data sampled from it, calc_polarizabilities is exact for every displacement inside the half cell, independently of the basis chosen (phonon or atomic).",
  "all affine responses, all orthonormal bases, all displacements", "documentation claim over all bases", IM + ":InterpolationModel", AR + ":ARTModel")
p("Dummy models cannot evaluate, except when empty",
  "A dummy model with at least one DOF raises UserError for every well-shaped batch; a dummy model without DOFs silently returns zero tensors.",
  "all dummy models and batches", "all histories", IM + ":calc_polarizabilities")
p("Amplitude validation in add_dof",
  "add_dof succeeds only if, for every generated DOF, the amplitudes (with symmetry images, and 0 when the reference is included) are pairwise separated by more than 1e-8 and number at least order+1; the stored points are strictly increasing. Orders below 1 always raise ValueError. DOFWarnings are emitted exactly when the amplitudes do not span zero.",
  "all amplitude lists and orders", "all combinations of amplitudes with symmetry images", IM + ":_construct_and_add_interpolations", IM + ":find_duplicates")
p("Only the direction of a displacement matters while it fits in half a cell",
  "Scaling cart_displacement by c > 0 does not change the outcome of add_dof or add_art as long as the fractional displacement stays inside the half cell both before and after; outside, the wrap changes the direction (documented 'magnitude is ignored' refuted).",
  "all displacements and positive factors", "needs all magnitudes", IM + ":add_dof", AR + ":add_art", RS + ":get_frac_displacement")
p("Shape checking of batches",
  "calc_polarizabilities raises ValueError for every array whose shape cannot be broadcast to (S,N,3); batches of shape (S,1,3) for an N-atom model are silently broadcast instead of rejected.",
  "all array shapes", "all shapes", IM + ":calc_polarizabilities")
p("Constant polarizability offsets do not affect Raman spectra",
  "Adding a constant tensor to a model's predictions leaves the phonon Raman tensors and the MD spectrum unchanged.",
  "all models, phonons, trajectories, constants", "documentation claim over all inputs", PH + ":get_raman_spectrum", SP + ":MDRamanSpectrum.measure", AR + ":ARTModel")
# ---- ART -----------------------------------------------------------------
p("ARTModel forbids generic DOF addition",
  "On an ARTModel, add_dof, add_dof_from_files and add_dof_from_pymatgen always raise UserError and change nothing, so every DOF was added through the ART entry points in any history.",
  "all states, arguments, histories", "all histories", AR + ":add_dof", AR + ":add_dof_from_files", AR + ":add_dof_from_pymatgen")
p("Every ART degree of freedom moves one atom",
  "If the symmetry operations act as permutations of atoms, each basis vector added by add_art is nonzero on exactly one atom; the interpolation is always first order and never includes the reference point.",
  "all structures, atoms, directions, histories", "all histories and operation lists", AR + ":add_art")
p("get_dof_indexes finds exactly the DOFs of the requested atoms",
  "For any list of atom indexes and symbols, an index is returned iff its DOF displaces (beyond 1e-5 in some component) one of the requested atoms; specification tuples list for each representative atom its equivalents and exactly its specified directions.",
  "all models and requests", "unbounded models", AR + ":get_dof_indexes", AR + ":get_specification_tuples")
p("add_art accepts one or two amplitudes only",
  "add_art raises ValueError unless amplitudes has shape (1,) or (2,) and polarizabilities the matching shape; the single-atom check of add_art_from_files accepts exactly displacements whose other atoms move by at most 1e-6 in every component; the point-count check rejects everything but exactly two points.",
  "all argument shapes and displacements", "all shapes", AR + ":add_art", AR + ":add_art_from_files")
# ---- spectra -------------------------------------------------------------
p("Polycrystalline phonon intensities are rotation invariant",
  "Replacing every (symmetric) Raman tensor R by Q R Q^T for an orthogonal Q leaves the measured intensities unchanged (in double precision: unchanged up to a relative 2^-43).",
  "all orthogonal matrices and symmetric tensors", "continuous group", SP + ":PhononRamanSpectrum.measure")
p("Phonon intensities are nonnegative quadratic forms",
  "Uncorrected intensities are >= 0, vanish iff the tensor's used components vanish, scale with the square of the tensor, and equal the textbook 45 a^2 + 7 g^2 invariants; wavenumbers are returned unchanged; orientations other than polycrystalline raise NotImplementedError In double precision, finite entries give an intensity that is >= 0 or +inf and never NaN, with a relative error of at most 2^-45 unless entries are extremely small or large; a NaN entry gives NaN.",
  "all tensors", "continuous domain", SP + ":PhononRamanSpectrum.measure")
p("Bose-Einstein correction",
  "For T > 0 and positive wavenumbers the correction is finite and > 1, strictly increases with temperature and strictly decreases with wavenumber; for negative wavenumbers it is negative; T <= 0 raises ValueError.",
  "all temperatures and wavenumbers", "continuous domain", SP + ":get_bose_einstein_correction")
p("Laser correction",
  "For a positive laser wavenumber the correction equals ((v - vL)/10^4)^4 / v: nonnegative exactly for positive wavenumbers (v <> vL), zero exactly at the laser line, decreasing on (0, vL); nonpositive wavelengths raise (ZeroDivisionError at 0).",
  "all wavenumbers and laser wavelengths", "continuous domain", SP + ":get_laser_correction")
p("Phonon Raman tensors are twice the directional derivative",
  "For a model that is affine along a phonon displacement, the Raman tensor returned by get_raman_spectrum is exactly two times the directional derivative of the polarizability (the central difference is not divided by two); for any model it is odd in the displacement and one tensor is produced per phonon in order.",
  "all models and phonons", "all models", PH + ":get_raman_spectrum")
p("MD wavenumber grid",
  "For S >= 3 configurations and timestep dt > 0 MDRamanSpectrum.measure returns exactly ceil((S-1)/2)-1 wavenumbers k*33356.40951981521/((S-1) dt), k = 1.., strictly increasing and positive; this is not the documented ceil(S/2) entries.",
  "all trajectory lengths and timesteps", "all lengths, parity cases", SP + ":MDRamanSpectrum.measure", SPU + ":calc_signal_spectrum")
p("MD intensities are nonnegative",
  "Every raw intensity returned by calc_signal_spectrum, and by MDRamanSpectrum.measure, is >= 0 in exact arithmetic (Wiener-Khinchin), for every signal. The intensity at the k-th wavenumber is half the sum of the textbook intensities of all polarizability steps (a background independent of k) and of their cosine and sine sums at that frequency, times the requested corrections.",
  "all signals of any length", "unbounded signal length", SPU + ":calc_signal_spectrum", SPU + ":_calc_autocorrelation")
p("MD spectra: rotation, offset, scale and time-reversal laws",
  "MD intensities are unchanged when every symmetric polarizability is conjugated by one orthogonal matrix, when a constant tensor is added, or when the trajectory is reversed, and scale with c^2.",
  "all time series, orthogonal matrices, constants", "unbounded series, continuous group", SP + ":MDRamanSpectrum.measure")
p("convolve_spectrum is a positive linear smoothing",
  "For width > 0 the result is linear in the intensities, additive in the line list, independent of the order of lines, nonnegative for nonnegative intensities, symmetric around each line with its maximum on the line, and a line of intensity I, Gaussian or Lorentzian, integrates to I over the real axis; the Lorentzian width is the full width at half maximum, the Gaussian width is the standard deviation (half the maximum at sqrt(2 ln 2) widths).",
  "all line lists, widths and output grids", "continuous, unbounded", SPU + ":convolve_spectrum")
p("convolve_spectrum validation and automatic grid",
  "width <= 0 and mismatched shapes raise ValueError; an unsupported function name raises ValueError iff there is at least one line (silently accepted for an empty spectrum with explicit grid); the automatic grid has rint(range+200) equally spaced points from min-100 to max+100 inclusive.",
  "all arguments", "edge cases of empty input", SPU + ":convolve_spectrum")
# ---- VASP text IO --------------------------------------------------------
p("POSCAR write/read round trip",
  "For every valid structure (grouped atomic numbers, positions in [0,1]) and any label, reading the file written by write_structure returns the same atomic numbers, and lattice and positions equal to the originals rounded to 16 decimals (then to double); on the disk the text is UTF-8, and the blocks in which the file arrives do not matter.",
  "all structures of any size, all labels", "unbounded structures, character-level formatting", PO + ":write_structure", PO + ":read_structure")
p("POSCAR round trip in double precision",
  "A binary64 value of magnitude at least 0.5 (or not finite) survives write+read bit-exactly; smaller values change by at most 1e-16 (and some do change), and a second write produces the same text as the first. The same holds of whole structure and trajectory files.",
  "all binary64 values; all structures and trajectories", "2^64 inputs", PO + ":_get_lattice_str", PO + ":_get_positions_str", PO + ":_read_positions")
p("Labels cannot corrupt a structure file",
  "Whatever label string is given, the first line of the written file is a single line; the remaining lines are independent of the label. Read as the inside of a Python string literal, the first line is the label. Whatever the label, even lone surrogates, the file can be written in UTF-8.",
  "all label strings", "all strings including control characters", PO + ":write_structure", XD + ":write_trajectory")
p("Element grouping in structure files",
  "Writing succeeds only if equal atomic numbers are contiguous; in that case expanding the written symbols and counts gives back the list; otherwise ValueError. An empty list raises IndexError. Symbols and numbers correspond one-to-one for 1..118.",
  "all lists of atomic numbers", "unbounded lists", PO + ":_get_symbols_str", PO + ":_read_atomic_symbols", CO + ":ATOM_SYMBOLS")
p("POSCAR reading is total with known outcomes",
  "For every file content, read_positions either returns exactly N rows of three numbers, where N is the sum of the ion counts (negative counts count as 0; for N = 0 the array has shape (0,)), or raises InvalidFileException, except that a file ending right after 'Selective dynamics' raises a bare IndexError, Cartesian coordinates with a singular lattice raise LinAlgError, and Cartesian coordinates of no atoms raise a bare ValueError. A line is taken apart at white space of any kind; a count is accepted iff it is an optional sign and decimal digits with single underscores between them, a coordinate iff it is an optional sign followed by such digits with an optional point and exponent, or by inf, infinity or nan in any case, and it has the value its digits say, rounded. Any UTF-8 file is read as the text it encodes, wherever the blocks delivered by the operating system end; a file in another encoding is refused with UnboundLocalError instead of InvalidFileException. Whatever the bytes, a returned result is the one for a text the file begins with, and if the file is not UTF-8 it does not depend on what follows that text.",
  "all file contents", "all strings, all truncation points", PO + ":read_positions", PO + ":_read_lattice", PO + ":_read_atomic_symbols", PO + ":_read_positions")
p("POSCAR scale factor and Cartesian mode",
  "The lattice returned is the file's vectors times the scale factor (infinities and NaN included). Cartesian coordinates are converted with the scaled lattice but are not themselves scaled, so for scale factors other than 1 they disagree with the POSCAR format.",
  "all scale factors, lattices and coordinates", "all inputs", PO + ":_read_lattice", PO + ":_read_positions")
p("XDATCAR write/read round trip",
  "For every trajectory with at least one atom, reading the written file returns one configuration per written configuration, in order, each rounded to 16 decimals; also through the UTF-8 bytes on the disk, in any blocks.",
  "all trajectories of any length", "unbounded length", XD + ":write_trajectory", XD + ":read_positions_ts")
p("XDATCAR reading stops at the first blank label",
  "Reading returns the configurations before the first configuration line that is blank or starts with white space, or the end of the file; later data are ignored; malformed configurations raise InvalidFileException (or IndexError, LinAlgError, ValueError as for single structures), except that a malformed line which contains the text of the stop message also ends reading silently.",
  "all file contents", "all strings", XD + ":read_positions_ts")
p("Writers never touch the file system on invalid input and never clobber",
  "write_structure / write_trajectory with invalid structure data raise before opening the file, so the file system is unchanged; with overwrite=False an existing file is never modified and FileExistsError is raised; a successful write changes only the given path and its content is the full text; an interruption leaves a prefix of it. A file left by an interrupted write is refused by the reader with InvalidFileException, or read as the structure (for a trajectory: as its leading configurations), exact except that the very last number returned may have lost final digits, which can only happen when the file does not end at the end of a line. The reader does not notice every interruption: any number of leading configurations of a trajectory can be what is read, and the last coordinate of a structure can be read as 0. The same holds of a file cut after any number of bytes, except that when the cut falls inside a character of the label the reader raises UnboundLocalError.",
  "all file systems, inputs, crash points", "all crash points", PO + ":write_structure", XD + ":write_trajectory", IU + ":verify_structure", PO + ":read_structure", XD + ":read_positions_ts")
p("Writing displaced structures",
  "get_displaced_positions returns for each amplitude a the reference displaced by a times the unit direction (mod 1), independent of the magnitude of the direction; write_displaced_structures writes file i with amplitude i; it stops at the first failing file leaving earlier ones written; it raises ValueError when counts differ, and also when counts agree but exceed 256 (identity comparison of integers).",
  "all structures, directions, amplitude lists, file systems", "unbounded counts; the failure starts at 257", DI + ":get_displaced_positions", DI + ":write_displaced_structures", EX + ":verify_list_len")
p("A zero displacement direction yields NaN positions, silently",
  "get_displaced_positions / get_ast_displaced_positions with a zero direction do not raise: they return arrays full of NaN, which pass the writer's validation.",
  "all structures and amplitude lists", "documented inputs only sampled", DI + ":get_displaced_positions", EX + ":verify_positions")
p("OUTCAR cursor semantics",
  "Skipping to a marker stops at the first line at or after the cursor containing it and leaves the cursor on the next line; it raises exactly when no such line remains.",
  "all files, cursors, markers", "all strings", IU + ":_skip_file_until_line_contains")
p("OUTCAR tables: shape is not checked",
  "Reading N position rows from an OUTCAR consumes exactly N lines; complete rows are returned exactly; a file truncated right after the table header makes outcar.read_positions return N empty rows instead of raising InvalidFileException. Nothing but InvalidFileException and ValueError is raised by the readers of positions, structures and polarizabilities, for files that are UTF-8, whatever blocks the operating system reads them in. Once complete tables have been read, the coming blocks do not matter, even if they are no text. A file in another encoding raises UnboundLocalError, and whether stray bytes are noticed depends on the blocks. Whatever the bytes, a returned result is the one for a text the file begins with, and if the file is not UTF-8 it does not depend on what follows that text.",
  "all files, truncation points", "all truncation points", OU + ":_read_positions", OU + ":read_positions")
p("OUTCAR trajectories skip the ab initio step after each machine-learned step",
  "Of the position blocks in file order, read_trajectory keeps exactly those that are (ML) blocks or whose preceding block is not an (ML) block, in order; it raises InvalidFileException when none is found, ValueError when the time step in the file is not positive or not a number, and LinAlgError when the lattice is singular. The file of a run stopped while a kept block was being written is refused with ValueError; one stopped within a skipped block reads as the steps before it. No other exception occurs, unless the file is not UTF-8 to its end: then no trajectory is returned.",
  "all block sequences of any length", "unbounded sequences", OU + ":read_trajectory")
p("OUTCAR element lists",
  "Reading the POTCAR block and the ions-per-type line yields each symbol repeated by its count, in order; the extra POTCAR line followed by VRHFIN is dropped.",
  "all files with POTCAR blocks of any length", "unbounded lists", OU + ":_read_atomic_symbols")
p("Imaginary modes: OUTCAR negative, vasprun.xml positive",
  "outcar.read_phonons reports an imaginary mode as a negative wavenumber; vasprun.read_phonons returns nonnegative wavenumbers for every eigenvalue, so imaginary and real modes of equal magnitude are indistinguishable. A wavenumber line that is missing or too short raises InvalidFileException, one with an unreadable number ValueError, in whichever mode it occurs.",
  "all eigenvalues", "sign bug for every imaginary mode", VR + ":_parse_eigenvalues", OU + ":read_phonons")
p("vasprun.xml trajectories",
  "vasprun.read_trajectory returns the positions of exactly the unnamed top-level structures in document order and raises InvalidFileException when there is none; a time step that is not positive, or structures with different numbers of atoms, raise ValueError. Each vasprun reader raises only a fixed set of exceptions besides those of the XML parser.",
  "all XML trees", "unbounded documents", VR + ":read_trajectory")
p("Generic readers dispatch by format and mask KeyErrors",
  "A generic reader with a supported format behaves as the specific reader except that a KeyError raised inside it (e.g. an unknown element symbol in vasprun.xml) is reported as 'unsupported format'; an unsupported format always raises ValueError without touching the file. For files of any bytes, delivered in any blocks, what a generic reader returns is what it returns for a text the file begins with, and encoding errors are raised only for files that are not UTF-8 (they are Python's own UnicodeDecodeError or UnboundLocalError, not InvalidFileException).",
  "all formats and files", "all inputs", GE)
p("Dataset reading checks consecutive lattices only",
  "read_polarizability_dataset succeeds only if all files have identical atomic numbers and equal position shapes and each lattice is close to the previous file's lattice; distances to the first lattice are not bounded (drift), whereas the pymatgen constructor compares every lattice with the first. This holds whatever numbers the files hold: equal infinities agree, and a lattice with not-a-number agrees with nothing.",
  "all file lists of any length", "drift needs long lists", IU + ":_read_polarizability_dataset", PM + ":construct_polarizability_dataset")
# ---- dataset / torch -----------------------------------------------------
p("Polarizability vectors and tensors convert losslessly",
  "tensors_to_vectors(vectors_to_tensors(v)) = v; vectors_to_tensors returns symmetric tensors; vectors_to_tensors(tensors_to_vectors(a)) = a iff a is symmetric.",
  "all batches", "all tensors", DU + ":polarizability_vectors_to_tensors", DU + ":polarizability_tensors_to_vectors")
p("Dataset scaling",
  "Standard scaling gives every non-constant component mean 0 and population variance 1 over the samples and is inverted by multiplying with the standard deviation and adding the mean; rescaling with other statistics always starts from the raw data, so the last call wins. Whatever numbers are involved, each component is treated on its own: a component with an entry that is not finite becomes NaN in every sample and the others are unaffected.",
  "all datasets of any size, all call histories", "unbounded datasets and histories", DS + ":PolarizabilityDataset", DS + ":scale_polarizabilities")
p("batch_positions partitions the samples",
  "For batch_size >= 1 concatenating the yielded batches gives the input; every batch but the last has exactly batch_size samples and the last is nonempty and no larger; batch_size 0 raises ValueError; negative sizes yield nothing.",
  "all arrays and batch sizes", "unbounded sizes", TU + ":batch_positions")
p("Triplet cache is transparent",
  "get_triplets(b) returns the same value regardless of the history of previous calls, for every reference graph.",
  "all call histories", "unbounded histories", TU + ":BatchTriplets")
p("Batched triplets are disjoint copies",
  "get_triplets(b) is the concatenation of b copies of the reference triplets with node indexes shifted by multiples of the atom count and edge indexes by multiples of the edge count; edge indexes point into the batched edge list at the same edge of the same copy.",
  "all graphs and batch sizes", "unbounded", TU + ":BatchTriplets.get_triplets", GN + ":_batch_graph")
p("Radius graph",
  "The graph has an edge (i,j) iff i <> j and the wrapped displacement's Cartesian length is at most the cutoff; edges are listed in row-major order without duplicates; it is symmetric when no fractional displacement component is exactly 1/2, and can be asymmetric otherwise.",
  "all structures and cutoffs", "all structures; boundary case", TU + ":_radius_graph_pbc")
p("get_rotations returns rotations onto the target, except opposite to x",
  "For every nonzero target not antiparallel to (1,0,0) the matrix is orthogonal with determinant 1 and maps (1,0,0) to the normalised target; for targets antiparallel to (1,0,0) it returns the identity, which does not.",
  "all nonzero vectors", "measure-zero failure random tests never hit", TU + ":get_rotations")
p("PotGNN predictions are per-sample",
  "For every batch of structures in which no two atoms coincide, calc_polarizabilities returns one tensor per sample, equal to the tensor it returns for that sample alone, whatever the other samples and their number, the weights, and the forward passes, predictions and mode switches made before (the cached triplets never show). A batch of the wrong shape raises ValueError. If two atoms joined by an edge coincide in one sample, however, the results of all samples of its block of 100 are NaN.",
  "all batches, graphs, weights and histories of use", "unbounded sizes and histories; the sub-batch boundary at 100", GN + ":PotGNN.forward", GN + ":calc_polarizabilities")
# ---- python object semantics --------------------------------------------
p("Properties hand out copies",
  "Mutating any array obtained from the documented 'copy of' properties of ReferenceStructure, Phonons, Trajectory.positions_ts, PhononRamanSpectrum never changes the object, for any sequence of reads and mutations; MDRamanSpectrum.polarizability_ts, Trajectory indexing, PhononRamanSpectrum.measure (its wavenumbers, also those of the Phonons it was computed from) and ReferenceStructure.get_equivalent_displacements (its transformations) return internal storage, so mutations leak.",
  "all histories of reads and in-place writes", "all histories", RS, PH, TR, SP)
p("Constructors keep references to caller arrays",
  "Mutating the arrays passed to ReferenceStructure, Phonons, PhononRamanSpectrum or MDRamanSpectrum after construction changes the object's observable data; Trajectory is immune because it stores a new wrapped array.",
  "all histories", "all histories", RS + ":__init__", PH + ":__init__", TR + ":__init__", SP)
p("Trajectories behave as sequences of wrapped frames",
  "len, indexing (negative from the end, IndexError outside) and step-1 slices of a Trajectory agree with the list of wrapped frames; timesteps must be positive.",
  "all trajectories, indexes and slices", "all indexes", TR)
p("Shape and length validators accept exactly the right arguments",
  "verify_ndarray_shape accepts an array iff its rank and all non-wildcard dimensions match; verify_list_len accepts lists of the required length up to 256 and, for larger lengths, rejects even correct ones when the two lengths are distinct int objects.",
  "all shapes and lengths", "all shapes; failure starts at 257", EX + ":verify_ndarray_shape", EX + ":verify_list_len")
# ---- whole workflows -----------------------------------------------------
p("Displaced structures and file data give the same degree of freedom as add_dof",
  "Displacing the reference structure along d with get_displaced_positions at amplitudes a0, a1, ... and handing the resulting structures with their polarizabilities to add_dof_from_files (or the pymatgen variant) changes an interpolation model exactly as add_dof with d, these amplitudes and these polarizabilities (same result or same exception), as long as no displacement leaves half a cell; a negative first amplitude only flips the sign convention. For an ARTModel, handing the structures of get_ast_displaced_positions to add_art_from_files has, whenever it succeeds, exactly the effect of add_art with that atom, direction, amplitudes and polarizabilities; when add_art is refused so are the files; and the files are refused where add_art succeeds only if symmetry gives the degree of freedom more than two points, which does happen.",
  "all structures, directions, amplitude lists, polarizabilities, spline orders and models", "round trip through another module; all inputs", DI + ":get_displaced_positions", IM + ":add_dof_from_files", IM + ":add_dof_from_pymatgen", IM + ":add_dof", DI + ":get_ast_displaced_positions", AR + ":add_art", AR + ":add_art_from_files")
# ---- datasets --------------------------------------------------------------
p("Indexing a dataset",
  "Constructing a PolarizabilityDataset succeeds iff the lattice is (3,3), the positions (S,N,3) for the N given atomic numbers and the polarizabilities (S,3,3); item i for 0 <= i < S (or i - S counted from the end) is the lattice, the atomic numbers, the i-th positions and the i-th row of the currently scaled six-component polarizabilities, whatever rescaling calls were made before; any other index raises IndexError. Atomic numbers that do not fit in 64 bits raise RuntimeError; those that do not fit in 32 bits are replaced by the congruent 32-bit number, so two different lists can give the same dataset. A list that holds a float is treated like a list of ints of the same length, with every entry rounded to the default type and cut off at the point (1.9 silently becomes 1).",
  "all datasets, rescaling histories and indexes", "all sizes, histories and indexes", DS + ":PolarizabilityDataset.__init__", DS + ":PolarizabilityDataset.__getitem__")
# ---- more about the network and the readers --------------------------------
p("Symmetries of PotGNN predictions",
  "Predictions do not change when a sample is moved as a whole or when any of its atoms are moved by lattice vectors, and every predicted tensor is symmetric when the mean and standard deviation used for scaling are.",
  "all models, histories, batches, translations and lattice shifts (exact arithmetic)", "infinitely many inputs, unbounded sizes", GN + ":PotGNN.forward", GN + ":calc_polarizabilities", TU + ":radius_graph_pbc")
p("Line ends do not matter",
  "Every reader of POSCAR, XDATCAR and OUTCAR files gives the same result (or exception) for a file with Windows (CR LF) or old Macintosh (CR) line ends as for the same file with Unix line ends. CR LF and CR become LF; every other character is kept.",
  "all texts and formats", "all file contents", PO, XD, OU, GE)
p("Edge contributions and inversion symmetry of PotGNN",
  "The tensor an edge contributes depends only on the axis of the edge, not on its sense or length: it is given in closed form by the twelve channels of the edge and the outer product of its unit vector, also for edges along -x where the rotation helper returns the identity. Hence predictions do not change when samples are inverted in a point (atoms exactly half a cell apart excepted). A prediction is exactly the mean of these contributions over the edges of the reference graph, each along the current direction of its edge, times the standard deviation, plus the mean of the data set. The channels follow the published equations of the network on the reference graph: atoms start from the vector of their element and edges from their smeared length, every pass updates the atoms from the edges that enter them and then the edges from their atoms and from the paths of two edges. The contribution turns with the edge under every orthogonal transformation when all channels agree, but not in general: the model is not equivariant under rotations.",
  "all channel values and edge vectors; all models, histories, batches and inversion centres (exact arithmetic)", "infinitely many inputs, unbounded sizes", GN + ":_get_edge_polarizability_vectors", GN + ":PotGNN.forward", TU + ":get_rotations")
p("One epoch of training",
  "train_single_epoch visits every training sample exactly once, in batches of batch_size (the last may be shorter); every batch is predicted by the model as the previous optimizer steps left it, and every optimizer step gets the gradient of its own batch only (the first one also gets whatever gradients the caller had left behind). Validation afterwards changes no prediction of the model, which is left in evaluation mode with zero gradients. Returned are the average batch losses and the average over validation blocks (of at most 100 samples) of the unbiased variance of each component; the variance is NaN whenever the last validation block holds a single sample, and the validation loss is the average over samples only if all blocks have equal size. Empty data sets and batch sizes below one raise ValueError and leave the model unchanged; if a batch fails, because the loss function raises or otherwise, the steps made before it remain and none is made for it (only the running statistics have seen a batch whose loss raised), and a failure in validation keeps the predictions of the trained model. Running means and variances of the batch norm become moving averages (weight 1/10 for the latest) of those of the rows it got for each training batch; validation adds nothing to them, and running variances stay positive. Predictions in training mode do not depend on them. Samples of the model's structure never make it fail, except that PyTorch's batch norm raises ValueError when a training batch holds one sample and the model has exactly one bond; the number of bonds is even unless two reference atoms are exactly half a cell apart along an axis.",
  "all models, histories, data sets, batch sizes, orders drawn by the sampler, losses, gradients and optimizers (exact arithmetic)", "all schedules of the random sampler, all failure points, unbounded sizes", "ramannoodle/pmodel/torch/_train.py:train_single_epoch")
p("Polarizabilities supplied for one direction are carried to its symmetry images",
  "A successful add_dof adds one basis vector per group of symmetry images of the displacement, along the first image of the group. At a structure displaced along an image by a supplied amplitude (other basis vectors orthogonal) the model predicts ref + R^-1 (alpha - ref) R, where R is the fractional matrix of the operation. When R is also the Cartesian matrix of the operation (cubic, tetragonal and orthorhombic axes) and the reference polarizability is invariant, this is the polarizability of the moved structure, Q^T alpha Q; in other cells it is not, even for exact symmetries: the rotation is applied in the wrong basis.",
  "all structures, symmetry operations, displacements, amplitudes, polarizabilities, spline orders and histories of the model", "all symmetry groups and data; tests use cubic cells", IM + ":_get_dof", RS + ":get_equivalent_displacements")
p("Construction of a PotGNN",
  "The constructor raises ValueError exactly when cutoff, an embedding size or the number of message passes is not positive, the filter interval is empty or starts below zero, or a polarizability array is not (3,3). Otherwise it raises IndexError exactly when size_edge_embedding is 1 (a setting its checks accept) or an atomic number is outside -119..118, and succeeds in all other cases. Each element of the structure keeps its own row of the embedding table through every later history; elements absent from the structure raise IndexError. Distances are filtered by size_edge_embedding Gaussians centred at evenly spaced distances from the start to the end of the filter interval, with the spacing as width, throughout the life of the model.",
  "all settings, structures, weights and histories", "all settings and histories", GN + ":PotGNN.__init__", GN + ":PotGNN._convert_to_atom_type")

p("A symmetric linear response is reproduced exactly from symmetry-reduced data",
  "Let the polarizability respond linearly to displacements, with the symmetry of the crystal, and let every symmetry operation have the same orthogonal matrix in fractional and Cartesian coordinates. A model built by any sequence of successful add_dof and add_art calls with data from that response (spline order 1, displacements below half a cell), whose degrees of freedom are orthonormal and number 3N, predicts the response exactly at every structure, even though only symmetry-inequivalent displacements were supplied. Orthonormal degrees of freedom can never number more than 3N, and 3N of them span all displacements.",
  "all crystals, symmetry groups, responses, orders of adding, amplitudes and structures (exact arithmetic)", "all groups, sizes and histories of the model", IM + ":add_dof", AR + ":add_art", IM + ":calc_polarizabilities", RS + ":get_equivalent_displacements")
p("Spectra do not depend on the degrees of freedom chosen",
  "For such a model the phonon spectrum has tensors twice the response to each phonon displacement and raw intensities four times the textbook formula; the molecular-dynamics spectrum is that of the response along the trajectory. Two models built from the same response through different degrees of freedom (phonon displacements, atomic displacements, ART) give identical predictions, phonon spectra and molecular-dynamics spectra.",
  "all crystals, responses, pairs of models, phonons and trajectories (exact arithmetic)", "all pairs of models, unbounded sizes", IM + ":InterpolationModel", PH + ":get_raman_spectrum", TR + ":get_raman_spectrum", SP + ":measure")

p("What interpolation and ART models share with their caller and with each other",
  "Getters, predictions and get_masked_model answer with independent copies, and calls that modify neither a model nor an array of the caller leave it unchanged, whatever is done to newer objects; programs that never write into an array or assign a mask see each model as if it were alone. The exceptions are these. An array assigned as mask stays the mask: later writes to it, or unmask of another model given the same array, change the model's mask, until DOFs are added, which detaches it. The reference polarizability given to the constructor stays shared for ever (a dummy model has its own zero one). The directions returned by ART get_specification_tuples are the model's own basis vectors: writing to one changes the model.",
  "all programs of array and model operations, sharing arrays in any way", "all histories of calls and all patterns of sharing", IM + ":mask", IM + ":unmask", IM + ":get_masked_model", IM + ":ref_polarizability", AR + ":get_specification_tuples")

p("Higher-order interpolation reproduces nonlinear responses",
  "Let the polarizability respond to displacements with the symmetry of the crystal, each degree of freedom acting independently and along each as a polynomial of degree at most the interpolation order given to add_dof. A model built from symmetry-reduced data of that response by any sequence of successful add_dof and add_art calls predicts it exactly at every structure; without independence it is still exact along each of its orthonormal degrees of freedom. Phonon spectra of such a model see only the odd powers of the response along the phonon (twice the derivative, up to the cubic coefficient times 1e-6); molecular-dynamics spectra are those of the full nonlinear response along the trajectory.",
  "all crystals, symmetry groups, polynomial responses, orders, histories of the model, structures, phonons and trajectories (exact arithmetic)", "all responses, orders, groups and histories", IM + ":add_dof", IM + ":calc_polarizabilities", AR + ":add_art", PH + ":get_raman_spectrum", TR + ":get_raman_spectrum")

p("Molecular-dynamics spectra have their lines at the vibrations and agree with phonon spectra",
  "When the polarizability is a superposition of vibrations that complete whole numbers of cycles during the simulation (more than two steps per cycle, all different), the raw molecular-dynamics spectrum is a flat background plus one line per vibration at its wavenumber and nowhere else, so every Raman-active vibration is stronger than every wavenumber without one. For a model of a linear response and a trajectory of excited phonons each line is the intensity of that phonon in the phonon Raman spectrum, times amplitude^2 sin^2(pi c/n) (n/4 + n^2/8) for c cycles in n steps.",
  "all sets of vibrations, phases, amplitudes, lengths of simulation, time steps, crystals and models (exact arithmetic)", "all superpositions and unbounded lengths; tests use two fixed trajectories", SP + ":MDRamanSpectrum.measure", SPU + ":calc_signal_spectrum", TR + ":get_raman_spectrum", PH + ":get_raman_spectrum")

p("PotGNN predictions do not depend on the order in which atoms are listed",
  "Two networks made from the same structure with its atoms listed in two orders, with the same settings and weights, predict the same polarizabilities for samples reordered alike, whatever happened to the networks before, provided every element has the same embedding vector in both. The rows of the embedding table are assigned in the iteration order of set(atomic_numbers), which may depend on the order of the atoms: with the same weights but another iteration order (hydrogen and fluorine, for instance) the predictions can differ. Exchanging, in a sample, atoms of the same element that have the same neighbours in the reference graph never changes a network's predictions.",
  "all structures, reorderings, settings, weights, histories and samples (exact arithmetic)", "all reorderings and unbounded sizes of graphs and batches; tests compare a few fixed structures", GN + ":PotGNN.__init__", GN + ":PotGNN.calc_polarizabilities", GN + ":PotGNN.forward", GN + ":_NodeBlock.forward", GN + ":_EdgeBlock.forward")

p("The order in which degrees of freedom are added does not matter",
  "When the same additions (add_dof, add_art and their variants for files and pymatgen) are made on equal models in two orders and all of them return, the two models have the same degrees of freedom and predict the same polarizabilities. Whether all of them return does not depend on the order either, provided every symmetry image of every displacement is along a degree of freedom listed for it (always so without symmetry). In general it does: only the displacement itself is compared with earlier degrees of freedom, and images that are neither orthogonal nor parallel to earlier images are dropped, so one order can be accepted and another rejected.",
  "all models, all lists of additions and their permutations, all structures and symmetry operations (exact arithmetic)", "all permutations of unbounded histories", IM + ":InterpolationModel.add_dof", IM + ":InterpolationModel._get_dof", AR + ":ARTModel.add_art", RS + ":ReferenceStructure.get_equivalent_displacements")

p("Degrees of freedom of a model are mutually orthogonal only under conditions",
  "The documentation allows any degrees of freedom so long as they are orthogonal, and additions that are not orthogonal to earlier ones are rejected. Without symmetry all degrees of freedom of a model are then mutually orthogonal (within the tolerance of the test), in any cell. With symmetry images this holds in cubic cells if every image of each displacement is along a degree of freedom of its call. It fails when images are dropped (neither orthogonal nor parallel to earlier ones), and in skewed cells, because images are compared as fractional arrays: then accepted additions give overlapping degrees of freedom and predictions that count contributions twice.",
  "all structures, symmetry groups, cells and lists of successful additions; existential for the refutations (exact arithmetic)", "unbounded histories and all symmetry groups; tests use structures where the images happen to be orthogonal", IM + ":InterpolationModel._get_dof", IM + ":InterpolationModel.add_dof", AR + ":ARTModel.add_art", RS + ":ReferenceStructure.get_equivalent_displacements")

p("Interpolation and ART models do not depend on the order in which atoms are listed",
  "Let one structure be given twice, its atoms listed in two orders, and the same sequence of additions (add_dof, add_art and their variants for files and pymatgen, the rows of positions and displacements reordered alike) be made on an InterpolationModel or ARTModel of each. Every call has the same warnings and the same result or exception, the degrees of freedom and the mask are the same up to the order of the rows, and all predictions for reordered samples are the same, provided no tie between atoms decides what a call adds: in each group of equivalent displacements the members are exact multiples of the first one, or one atom alone has its largest component; for atomic Raman tensors read from structures one atom moves farthest. This holds in structures without symmetry and for every atomic Raman tensor of one atom. In general it fails: amplitudes of images are read off the first largest component, so with a tie a call can be accepted in one order and rejected in another. Equivalent displacements themselves never depend on the order.",
  "all structures, reorderings, symmetry operations, sequences of additions (failing ones included), samples and splines (exact arithmetic)", "all reorderings of unbounded structures and histories", IM + ":InterpolationModel.add_dof", IM + ":InterpolationModel._get_dof", IM + ":InterpolationModel.calc_polarizabilities", AR + ":ARTModel.add_art", RS + ":ReferenceStructure.get_equivalent_displacements")

p("Structures and trajectories taken from pymatgen",
  "Lattice, atomic numbers and positions are read unchanged from a pymatgen structure, and objects lacking one of these attributes are rejected with TypeError. construct_ref_structure gives a reference structure with exactly these data; coordinates outside [0,1], which pymatgen allows, are a ValueError, so success depends on the choice of periodic image. construct_polarizability_dataset gives the dataset of the structures, or IncompatibleStructureException when lattices or elements differ. construct_trajectory gives the wrapped frames of a constant-lattice trajectory of positions and rejects the others; a pymatgen trajectory in displacement mode is misread as positions. add_dof_from_pymatgen and add_art_from_pymatgen do what the variants for files do with the same coordinates and polarizabilities; they depend on coordinates modulo lattice vectors only, so structures with another lattice or other elements are accepted. Missing coordinates, or pymatgen missing, raise and leave the model as it was.",
  "all objects (duck-typed), lists of them, trajectories, models and polarizabilities (exact arithmetic)", "all objects and unbounded lists; tests convert a few files", PM + ":construct_ref_structure", PM + ":construct_polarizability_dataset", PM + ":construct_trajectory", PM + ":get_structure", IM + ":InterpolationModel.add_dof_from_pymatgen", AR + ":ARTModel.add_art_from_pymatgen")

p("Models and spectra turn with the crystal",
  "Let one crystal be described twice, the second time turned in space by a rotation or reflection (lattice, Cartesian displacements and polarizabilities turned; fractional coordinates, amplitudes and symmetry operations the same), and let the same sequence of additions be made on a model of each. Every call has the same warnings and the same result or exception, and the degrees of freedom are the turned ones, sampled at the same amplitudes. If the turn commutes with the matrices of the symmetry operations (always so without symmetry), all predicted polarizabilities are the turned ones and all phonon and molecular-dynamics spectra (of symmetric tensors) are unchanged. In general predictions do not turn with the crystal: polarizabilities of symmetry images are transformed with the fractional matrices, so they depend on how the axes were chosen.",
  "all crystals, turns, symmetry operations, sequences of additions (failing ones included), structures, phonons, trajectories and linear splines (exact arithmetic)", "all turns and unbounded histories; the refutation needs a turn and a symmetry that do not commute", IM + ":InterpolationModel.add_dof", IM + ":InterpolationModel._get_dof", IM + ":InterpolationModel.calc_polarizabilities", AR + ":ARTModel.add_art", PH + ":get_raman_spectrum", TR + ":get_raman_spectrum")

p("Polarizabilities may be in any units and counted from any zero",
  "Whether additions succeed, their warnings, and the degrees of freedom they add do not depend on the values of the polarizabilities. Multiplying the reference polarizability and all polarizabilities given to a model by a number multiplies all its predictions and Raman tensors by that number, and molecular-dynamics intensities by its square. Adding a tensor to all of them adds it to all predictions of a model that is not a dummy, and changes no phonon or molecular-dynamics spectrum.",
  "all reference structures, polarizabilities, factors, tensors, sequences of additions (failing ones included), structures, phonons and trajectories (exact arithmetic)", "all values and unbounded histories", IM + ":InterpolationModel.add_dof", IM + ":InterpolationModel.add_dof_from_files", IM + ":InterpolationModel.calc_polarizabilities", AR + ":ARTModel.add_art", AR + ":ARTModel.add_art_from_files", PH + ":get_raman_spectrum", TR + ":get_raman_spectrum")

p("What printing a model tells",
  "The text of an InterpolationModel begins with the number of its degrees of freedom, of three per atom, in green exactly when these are equal, and two models print alike exactly when these numbers, the number of masked degrees of freedom and being a dummy agree. If the degrees of freedom are orthonormal, green means that every displacement is a combination of them and that the model is exact for every symmetric linear response it was sampled from, and red means that there are none. If they are not orthonormal a green model can be wrong. The text of an ARTModel has a row for each group of equivalent atoms, with the directions of its first atom and their number of three; every atom is in one row, no row counts more than three orthonormal directions, three are complete, and without equivalent atoms the counts add up to the number of degrees of freedom. Masked tensors and dummy models are always reported.",
  "all models reachable by histories of calls, all structures and responses (exact arithmetic)", "all histories of models", IM + ":InterpolationModel.__repr__", AR + ":ARTModel.__repr__", AR + ":ARTModel.get_specification_tuples", AR + ":_get_specified_str")

p("Arguments of any type and shape are checked, and complained about by name",
  "For arguments of any Python type, the constructors (ReferenceStructure, Phonons, Trajectory, the spectra, InterpolationModel, PolarizabilityDataset, PotGNN), add_dof, add_art, the mask, convolve_spectrum and the writers look at their arguments in a fixed order, accept exactly those with the required shapes, and otherwise raise about the first that does not fit: a TypeError naming the argument and its type if it has no shape (or is no list), else a ValueError naming the argument, its shape and the required shape. Two such texts are equal only if argument, found and expected agree. The structure utilities calculate with numbers and arrays and raise such a TypeError for anything else (calc_displacement calls both arguments positions, transform_positions calls the translation displacement, and a number as rotation raises AttributeError); paths are texts or path objects, alone or in a list that is not empty. Exceptions: a bad stddev is reported as mean by scale_polarizabilities, tensors pass as arrays except as the wavenumbers of Phonons, where the displacements are blamed, a list of the wrong length is reported without the required length, and the shape of a scalar is shown as ). Writers accept atomic numbers of any numeric type with the values 1 to 118 and coordinates between 0 and 1 or nan; a Trajectory accepts as a time step anything float() reads, texts included, that is positive or nan.",
  "all argument values of all types, all shapes", "all types and shapes", EX + ":verify_ndarray_shape", EX + ":verify_list_len", EX + ":verify_positions", EX + ":get_shape_error", EX + ":get_type_error", RS + ":ReferenceStructure.__init__", PH + ":Phonons.__init__", TR + ":Trajectory.__init__", SP + ":PhononRamanSpectrum.__init__", SP + ":MDRamanSpectrum.__init__", IM + ":InterpolationModel.__init__", IM + ":InterpolationModel.add_dof", AR + ":ARTModel.add_art", DS + ":PolarizabilityDataset.__init__", DS + ":PolarizabilityDataset.scale_polarizabilities", DU + ":verify_tensor_size", IU + ":verify_structure", IU + ":verify_trajectory", SPU + ":convolve_spectrum", GN + ":PotGNN.__init__")

p("NaN and infinities are refused or stay where they are",
  "Numbers given to models may be NaN or infinite. A call that adds degrees of freedom or atomic Raman tensors raises and leaves the model as it was if any displacement, direction, amplitude, position or polarizability it uses is not finite (a dummy model ignores polarizabilities). Amplitudes with NaN or both infinities among them are refused without a warning. So after any sequence of calls with any numbers, a model with a finite reference polarizability is one that calls with finite numbers can build: no stored number is ever NaN or infinite. A reference polarizability that is not finite is accepted, but no degree of freedom can ever be added then and every prediction is that polarizability. In a batch of predictions a structure with a coordinate that is not finite gets a tensor of NaN, and the other structures what they get alone; this also holds when every degree of freedom is masked, and a model without degrees of freedom gives the reference polarizability whatever the coordinates.",
  "all reference structures of cells that are not singular, numbers (NaN and infinities included), sequences of calls (failing ones included), splines and batches (otherwise exact arithmetic)", "all places of a NaN in unbounded arrays and histories", IM + ":InterpolationModel.add_dof", IM + ":InterpolationModel.add_dof_from_files", IM + ":InterpolationModel.add_dof_from_pymatgen", IM + ":InterpolationModel.calc_polarizabilities", IM + ":InterpolationModel._construct_and_add_interpolations", AR + ":ARTModel.add_art", AR + ":ARTModel.add_art_from_files", AR + ":ARTModel.add_art_from_pymatgen")

if __name__ == "__main__":
    for q in P:
        print(json.dumps(q))
