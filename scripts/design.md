# Formal model of ramannoodle in Rocq (Coq 8.16.1)

Generated by `scripts/design.py` from `scripts/design.md` (text), `MANIFEST.json` (theorems)
and `scripts/assumptions.json` (captured output of `Print Assumptions`).

## 1. Shape of the development

Everything is under `rocq/theories` (logical name `Verif`):

| kind | files | contents |
|---|---|---|
| base | `Base.v`, `LinAlg.v`, `Constants.v` | exceptions as values, lists, 3-vectors and 3x3 matrices over `R`, element table |
| model | `M_*.v` | total Gallina functions mirroring the Python, branch by branch; every definition cites file and lines |
| spec | `S_*.v` | small specifications written without the model's helpers (congruence mod 1, permutation, "first index such that", textbook intensity, file layout, ...) |
| proofs | `P_*.v` | lemmas and worked examples |
| properties | `C_*.v` | the theorems `Cnn_...`, each closed by `exact`, followed by `Print Assumptions`; examples named `..._nonvacuous` meet the hypotheses |

Conventions

* Python exceptions are values: `res A := Ok a | Err exn`. A method that mutates `self` is a
  function from state to `(state * warnings) * res result`, so "the call raised *and* changed
  something" is expressible. Nothing is rolled back unless the code does so.
* Numbers. Numeric code (wrapping, displacements, interpolation, spectra, network) is modelled
  over the reals `R` of Coq's standard library, i.e. in exact arithmetic. Double precision is
  treated separately with Flocq's binary64 in `M_Float.v` (C08, C47) and `M_Double.v` (C36, C37). The text readers work on
  lists of code points and produce `num := Fin r | Inf sign | NaN`; converting a decimal
  literal to a double is an arbitrary rounding function, visible in each theorem.
* NaN from `0/0` is a value (`Nan`, `None`), never Coq's total division.
* External code is an explicit argument: spglib's symmetry data, scipy's splines of order >= 2,
  the XML parser, losses, gradients, the optimizer, the sampler, weights. What is assumed
  about it is a visible hypothesis of the theorem.
* A claim made by the documentation that the code violates is proved false as a theorem with
  suffix `_refuted` (an explicit witness), next to the theorem describing what the code does.

## 2. Per-property plan and what was proved

| id | modelled | how proved |
|---|---|---|
| C01 | `apply_pbc` (`x - floor x`) | floor characterisation; uniqueness of representative |
| C02 | `apply_pbc_displacement` (`where (x mod 1 > 1/2)`) | case analysis on the fractional part, minimality by integrality |
| C03 | `displace_positions`, `calc_displacement` | congruence mod 1 + C01/C02 uniqueness; broadcasting on row-major arrays by induction on shapes (`M_Arrays.v`) |
| C04 | `calc_displacement` | uniqueness of representative in (-1/2,1/2) |
| C05 | `calc_displacement` + lattice product | per-component minimality; explicit skewed lattice witness |
| C06 | `transform_positions` | integer matrices preserve congruence mod 1 |
| C07 | `verify_positions`, constructor path | case analysis over shapes and values |
| C08 | binary64 `apply_pbc`, `apply_pbc_displacement` (`M_Float.v`) | Sterbenz and monotonicity of rounding; computed witnesses |
| C09 | `are_collinear`, orthogonality predicate over `list R` | algebra on normalised dot products |
| C10 | the three list scans | induction on the list |
| C11 | `get_cart_displacement`, `get_frac_displacement` with adjugate inverse | matrix algebra |
| C12 | direction conversions with shapes | as C11, shapes by computation |
| C13 | `get_atom_indexes` | induction |
| C14 | `get_equivalent_atom_dict` as a fold over an insertion-ordered dict | fold invariant |
| C15 | `_compute_permutation_matrices` | separation argument for the 1e-5 test; refuting witness for the column convention |
| C16, C17 | `get_equivalent_displacements` loop | loop invariant over the operation list; cancellation of translations mod 1 |
| C18-C20 | `InterpolationModel` as state machine | step invariant, induction on histories |
| C21, C22 | `calc_polarizabilities` | map structure; C01 invariance |
| C23 | mask operations | list algebra |
| C24-C26 | spline oracle with interpolation property (k >= 2), concrete piecewise linear (k = 1) | algebra on projections |
| C27 | dummy models | strict zip |
| C28 | amplitude checks | duplicates test, sorting |
| C29 | scaling of the displacement | uniqueness of wrap inside half a cell; witness outside |
| C30 | shapes of batches | broadcasting model |
| C31 | phonon and MD spectra | cancellation |
| C32-C35 | `ARTModel` | state machine, list filtering |
| C36, C37 | phonon intensities | polynomial identities with orthogonality relations; in binary64 (`M_Double.v`) signs by case analysis and a running error bound against a lower bound of the quadratic form |
| C38, C39 | correction factors | monotonicity of exp and power |
| C40 | `Phonons.get_raman_spectrum` | algebra |
| C41-C43 | autocorrelation and FFT as finite sums with `cos` | Wiener-Khinchin by double-sum expansion |
| C44, C45 | `convolve_spectrum` | algebra; Riemann integrals for the areas: limit of atan for the Lorentzian, differentiation of a parameter integral for the Gaussian |
| C46, C48-C53 | character-level POSCAR / XDATCAR reader and writer | print-then-parse lemmas, induction on files |
| C47 | binary64 printing with 16 decimals | error bounds of decimal rounding vs ulp |
| C54-C56 | file-system map, crash prefixes; the readers applied to any such prefix | induction on the write list; prefix case analysis line by line |
| C57-C60 | line-based OUTCAR readers, their exceptions, runs that were stopped | induction on lines |
| C61, C62 | vasprun readers on an XML tree datatype | computation on trees |
| C63 | dispatch tables | case analysis |
| C64 | dataset reader loop (files and pymatgen) | loop invariant; drift witness |
| C65, C66, C78 | torch dataset functions | algebra, finite sums, list lemmas |
| C67-C71 | torch utilities | list algebra, matrix algebra |
| C72, C79, C81, C84 | the PotGNN layer by layer, arbitrary weights | per-sample decomposition of batches, invariance of edge geometry; closed form of an edge contribution |
| C73, C74 | memory of buffers and views, objects holding references | history induction over caller operations |
| C75 | `Trajectory` | list lemmas |
| C76 | validators, CPython small-int identity | case analysis |
| C77 | displacement module composed with interpolation and ART models | uniqueness of displacements in half a cell; both ART calls reduced to the same search for degrees of freedom |
| C80 | all text readers on a `TextIO` with universal newlines | line-splitting lemma, congruence of every reader |
| C82 | `train_single_epoch` with arbitrary loss/gradient/optimizer/sampler | invariant of the training and validation loops |
| C83 | symmetry images inside `_get_dof` | composition of C16/C17 with evaluation at knots; rhombic witness |
| C85 | histories of `add_dof`/`add_art` with data from a symmetric linear response | invariant "every stored point lies on the response"; Bessel and counting argument for 3N orthonormal vectors |
| C86 | C85 composed with C37, C40, C43 | equality of predictions on all samples |
| C87 | programs over arrays (views of buffers) and model objects holding them (`M_Shared.v`) | soundness invariant of views; a frame lemma for memory used only by given objects; agreement with the value-level model call by call |
| C88 | the histories of C85 with any spline order, the spline an argument assumed to reproduce polynomials | invariant "every stored point lies on the response along its basis vector"; uniqueness of the polynomial; sum over independent degrees of freedom |
| C89 | `measure` of MD spectra on superposed cosines; C86 for the model side | orthogonality of sampled cosines by telescoping; closed form of C42 |
| C90 | two networks `potgnn_new`, `history`, `calc_polarizabilities` of M_Gnn on reordered structures | the edges, triplets, node and edge rows of one network are those of the other carried along a reordering; sums and means do not depend on the order |
| C91 | `run_adding` of M_Shared (all six ways of adding), `calc_polarizabilities` | what a successful call contributes does not depend on what the model holds; sums do not depend on their order; acceptance is a relation between two calls, symmetric when all images are listed (isometries undone by other operations) |
| C92 | as C91 | each degree of freedom is an image of the displacement of its call; isometries carry the test of one displacement to all pairs of images; witnesses in a rhombic cell and for a dropped image |
| C93 | as C91, and `make_reference`, `get_equivalent_displacements` | simulation between the two models through every call, failing ones included: permutation matrices, candidates, groups, inner products and norms do not depend on the order of rows; the first largest component does unless it is unique or members are exact multiples; witness of a tie on a twofold axis |
| C94 | `io/pymatgen.py`, the pymatgen variants of add_dof/add_art, on records of optional attributes | case analysis; equality with the file variants step by step; witnesses for the three refutations |
| C95 | every addition, prediction and spectrum of a crystal and of the turned crystal | a map T of models (turned lattice and basis, mapped polarizabilities) with run(T s) = T(run s), for any linear map of tensors that commutes with the operations; the map to zero gives the outcomes; witness for the refutation |
| C96 | the same with the lattice kept | T with multiplication by a number; a second map of models for the added tensor |
| C97 | `__repr__` of interpolation and ART models as functions to code points; `np.array2string` and `tabulate` are parameters | texts parsed back (digits cannot run into what follows them); the count theorems use the orthonormality lemmas of C85 and the partition of C14; the refutation is the model of C92 |
| C98 | Python values of any type (numbers, texts, lists, arrays, tensors, others); `_shape_string`, `get_type_error`, `get_shape_error`, `verify_*` with their texts; the checks at the head of constructors, `add_dof`, `add_art`, `mask`, `convolve_spectrum`, writers | one `reported` relation (first unmet requirement); texts parsed back; `forget` relates the checks to the ones of the typed models |
| C99 | `add_dof`, `add_art` and their variants, masks and `calc_polarizabilities` over numbers that may be NaN or infinite (`M_Special.v`) | simulation: calls with finite numbers agree with `M_Interp.v`/`M_Art.v`; every place of a number that is not finite leads to an exception (case analysis along each call); induction over histories; row-wise evaluation of batches |
@PLAN@

Theorems per property (from `MANIFEST.json`):

@THEOREMS@

## 3. Trusted base

1. Coq's kernel (8.16.1) and the standard library.
2. The axioms listed by `Print Assumptions`. All come from the standard library; none is declared
   here. Flocq is used for definitions and lemmas about binary64; it adds no axioms of its own.
3. The faithfulness of the `M_*.v` files to `/repo`, with the simplifications stated in their
   comments and in section 4.

Axioms used: `A1` = `ClassicalDedekindReals.sig_forall_dec`, `A2` =
`ClassicalDedekindReals.sig_not_dec`, `A3` =
`FunctionalExtensionality.functional_extensionality_dep` (all three through `Reals`), `A4` =
`Classical_Prop.classic` (through `Reals`' integration/analysis lemmas and Flocq).

@ASSUMPTIONS@

## 4. What is modelled and what is not

| source file | modelled | not modelled |
|---|---|---|
| `structure/utils.py` | all five functions (`M_StructUtils.v`; in doubles `M_Float.v`; on arrays of any shape `M_Arrays.v`; on any Python value `M_Values.v`) | PyTorch tensors as arguments |
| `structure/_symmetry_utils.py` | all (`M_Symmetry.v`), with the exact tolerances of `np.isclose` | |
| `structure/_reference.py` | all (`M_Reference.v`); spglib's result is an input | spglib's search; lattice inverse of non-3x3 arrays |
| `structure/_displace.py` | all (`M_Displace.v`) | |
| `pmodel/_interpolation.py` | everything (`M_Interp.v`, NaN and infinities in `M_Special.v`, objects in memory in `M_Shared.v`, `__repr__` in `M_Repr.v`) | construction of splines of order >= 2 (assumed to interpolate); texts of messages |
| `pmodel/_art.py` | everything (`M_Art.v`, NaN and infinities in `M_Special.v`, objects in memory in `M_Shared.v`, `__repr__` in `M_Repr.v`) | `np.array2string` and `tabulate` (parameters) |
| `pmodel/torch/_gnn.py` | constructor, all blocks, `forward`, `calc_polarizabilities` (`M_Gnn.v`) | rounding, devices, `reset_parameters`, progress bar, weights of the wrong size |
| `pmodel/torch/_train.py` | `train_single_epoch` (`M_Train.v`; with losses that raise, `M_TrainLoss.v`; running statistics, `M_Running.v`) | devices |
| `pmodel/torch/_utils.py` | all (`M_Torch.v`) | error texts |
| `dynamics/_phonon.py`, `dynamics/_trajectory.py` | all (`M_Dynamics.v`, aliasing in `M_Alias.v`) | |
| `spectrum/_raman.py`, `spectrum/utils.py` | all (`M_Spectrum.v`; phonon intensities in doubles `M_Double.v`) | rounding of the corrections, of MD spectra and of the FFT |
| `io/vasp/poscar.py`, `io/vasp/xdatcar.py` | all, character by character (`M_Text.v`, `M_Poscar.v`, `M_Files.v`), and byte by byte as UTF-8 in blocks of any size (`M_Bytes.v`) | non-ASCII digits, the 4300-digit limit of `int`, signed zeros |
| `io/vasp/outcar.py` | all (`M_Outcar.v`), and byte by byte (`M_BytesOutcar.v`) | same |
| `io/vasp/vasprun.py` | all, on XML trees (`M_Vasprun.v`) | the XML parser (a parameter) |
| `io/generic.py` | all (`M_Generic.v`, `M_Files.v`), and on files of any bytes (`M_GenericBytes.v`) | |
| `io/_utils.py` | all (`M_Poscar.v`, `M_Dataset.v`, `M_Outcar.v`; `pathify` of any object in `M_Values.v`) | |
| `io/pymatgen.py` | all functions (`M_Pymatgen.v`, `M_Dataset.v`), on records of optional attributes | pymatgen objects themselves; the NameError raised without PyTorch |
| `dataset/torch/*.py` | all (`M_Dataset.v`, `M_Int32.v`; floats as atomic numbers, `M_FloatNumbers.v`) | entries that are neither ints nor floats |
| `exceptions.py` | `verify_ndarray_shape`, `verify_list_len`, `verify_positions` (`M_Validate.v`); with values of any type and texts: `_shape_string`, `get_type_error`, `get_shape_error`, `verify_ndarray`, `verify_ndarray_shape`, `verify_list_len`, `verify_positions` (`M_Args.v`) | texts of NumPy's and Python's own exceptions; `get_torch_missing_error`, `get_pymatgen_missing_error` texts |
| `constants.py` | element table, weights, physical constants (`Constants.v`, generated by `scripts/gen_constants.py`); ANSI colours (`M_Repr.v`) | |
| `abstract.py` | as the type `pol_model` | |

Across all files: warnings are modelled as events, not texts; memory limits, signals and
concurrent modification of directories are not modelled; distinct paths are distinct files;
arithmetic is exact outside `M_Float.v`; NumPy's `npy_divmod` semantics are assumed in
`M_Float.v`; in `M_Alias.v` numerical kernels are arbitrary functions of array contents,
polarizability models return fresh arrays, and private attributes are not touched.

## 5. Testing the theorems

`seeded/LOG.jsonl` records wrong programs: each line is an edit of one model definition, the
claim it breaks, the theorems that then failed to build, and the theorems tightened because of it.
