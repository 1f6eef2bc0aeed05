# hermipy: formal model and proofs

The model is in `rocq/theories/` (Coq 8.16.1, logical name `Verif`). It follows the C++ kernel
(`/repo/cpp/src/hermite`) and the Python layer (`/repo/hermipy`) function by function.

## 1. Method

* `Base.v`: outcome type `res` with distinct outcomes for normal results (`Ok`), undefined behaviour (`Ub`),
  process exit (`Exit code`), C++/Python exceptions (`Throw name`) and exhausted fuel (`NoFuel`); bounds-checked
  vector reads and writes (`vget`, `vset`: out of range is `Ub`); loop combinators with `break`/`return`.
  `PyBase.v`: the same for Python lists (out of range is `Throw "IndexError"`).
* Model files (`*Model.v`) contain only definitions, each citing the lines it models and stating its simplifications.
  Fuel is used for `while` loops; the theorems prove that the fuel suffices (an `Ok` result is claimed).
* Specification files (`*Spec.v`) contain the vocabulary of the statements: index sets, tensor products, quadratures,
  positions, partitions and so on, written without the model's functions. They also contain the assumptions about external
  code, and the small concrete instances that the examples use to show that these assumptions can be met.
* `Properties*.v` contain the property theorems `Cnn_...`, each closed by `exact lemma` and followed by
  `Print Assumptions`, next to `Example`s that instantiate the hypotheses on concrete non-trivial data (and the few lemmas
  these examples need). All other files contain lemmas.
* A property that is false of the code gets a theorem `Cnn_..._refuted` (the negation of the statement, proved by a concrete
  witness), plus the strongest true versions. It is marked "proved" in the manifest with a note that begins with the failure.
* External code (SymPy, NumPy/SciPy, the C++ compiler and loader, the file system) enters as universally quantified
  functions; what a theorem needs of them is among its hypotheses (`sympy_ok`, `sympy_lin`, `sympy_arith`, `maps`, `numpy_ok`, `eig_ok`, ...),
  never an axiom.

## 2. Modelling decisions

* The release build is modelled (`CMakeLists.txt` sets `-O3 -DNDEBUG`/`-Ofast`): `assert` is a no-op, `#ifdef DEBUG` code is out.
* Multi-index entries are `nat`. C15 proves, on a second model with explicit arithmetic modulo 2^32 (`MachineModel.v`), that this is exact.
  Where wrap-around is the point (sizes, bisection, the product test of `cross_nc`, the signs of the dense `varfd`) `mod 2^32` is explicit in the main model.
* A `double -> unsigned` conversion of a value outside `[0, 2^32)` is `Ub`.
* `boost::math::binomial_coefficient<double>` and `pow` on integers are taken as exact.
* Numbers: `num` (Num.v) is an arbitrary type with 0, 1, +, -, *, and a test for equality; where a theorem needs ring laws it assumes `num_laws`.
  `fnum` (Fnum.v) adds division, square roots, sine and cosine, comparisons. Theorems about analysis instantiate it by the real numbers (`fnum_R`).
  Rounding is not modelled: theorems over an arbitrary `num` without laws hold of doubles too (C16, C19, C43, ...), those over the reals do not speak about rounding errors.
* `unordered_map<string, u_int>` is an association list keyed by the printed string.
* Uninitialised memory is an arbitrary value (`junk`).
* Python `set` iteration order is a universally quantified oracle (C51), except for `list(set)` of small ints, which CPython enumerates in increasing order (stated at each use).
* Symbolic expressions are an arbitrary type `E`.

## 3. What is modelled

| model file | code |
|------------|------|
| `IndexModel.v`, `MachineModel.v` | `iterators.cpp`: constructors, `s_increment`, `s_index`, `s_size`, `s_get_degree`, `s_find_dim`, `pos_bissect`, hash tables, the grid iterator |
| `LinModel.v` | `project.cpp`, `tensorize.cpp` (vectors, dense and sparse matrices), `inner.cpp`, `sparse.cpp`, `matrix.cpp`, `lib.cpp` |
| `NdModel.v` | `converters.cpp`: NumPy arrays with strides, boost multi-arrays and ublas matrices |
| `CalcModel.v` | `hermite.cpp`, `transform.cpp` (transform, integrate), `varf.cpp` (triple products, varf, varfd), `discretize.cpp:33-86` |
| `InternModel.v` | `discretize.cpp:88-127`: compilation to a shared object in `/tmp`, with a crashing and concurrent environment |
| `DiscModel.v` | `quad.py:242-254`: `Quad.discretize` of an expression from its symbols to the compiled text, `Quad.mapped_nodes` |
| `ShowModel.v` | `varf.py:242-285` `Varf.plot` (points and lines); `series.py:165-181, 217-259`: `Series.__repr__`, `__float__`, `__getitem__`, `plot` |
| `HeapModel.v` | the memory of `series.py:63-216, 261-290` and `quad.py` `Quad.plot`: buffers, numpy views, series objects; which operations copy, share or write in place |
| `DebugModel.v` | `tensorize.cpp:40-81, 98-104, 285-335` with `DEBUG`: `check_dims`, `check_degree`, and tensorize with them |
| `AlgModel.v` | `position.py:118-121`, `quad.py:157-158`: products of positions and of quadratures, over `PosModel.v` and `PyQuadModel.v` |
| `RndModel.v` | the arithmetic with a rounding after each operation, on which `hermite.cpp`, `transform.cpp` and `tensorize.cpp` are run for C109 |
| `VecModel.v` | `templates.cpp`, `templates.hpp` (operators, `fabs`), `matrix.cpp:51-97` (`naive_convert`), `io.hpp` (printing) |
| `QuadModel.v`, `PyQuadModel.v`, `OpQuadModel.v` | `quad.py`: `Quad.__init__`, `fourier` (its rule), `tensorize`, `project`, `discretize`, `transform`, `eval`, `varf`, `varfd`, `discretize_op` |
| `TensQuadModel.v` | `quad.py`: the decorator `tensorize_at` (for a Function as argument), and `transform` with it |
| `TensVarfModel.v` | `varf.py`: `Varf.tensorize` and `__mul__` with a Varf (dense matrices), `core.py`: `tensorize` of dense matrices; `quad.py`: `varf` with `tensorize_at` |
| `TensOpModel.v` | `quad.py`: `varfd` and `discretize_op` with `tensorize_at` |
| `CcodeModel.v` | `function.py`: `ccode` |
| `OpArithModel.v` | `operator.py`: arithmetic, `__call__`, `map`; `function.py`: arithmetic, `tensorize`, the checks of `__init__` |
| `QuadIntModel.v` | `quad.py:256-285` (`integrate`, `norm`), `position.py:131-140` |
| `QuadMakeModel.v` | `quad.py:52-155` (`__init__`, `gauss_hermite`, `fourier`, `newton_cotes`), `lib.py:24-33` |
| `EqnModel.v` | `equations.py:26-27`, `equations.py:81-466`: the equations as operators with symbolic coefficients |
| `NoiseModel.v` | the coefficient of the noise computed from Vy, equations.py:205-223 |
| `LibModel.v` | isAligned with one direction, hash_multi_ind, project_vec_1d, project_mat_1d: lib.cpp:30-40, 63-74, project.cpp:60-76, 111-129 |
| `TripleModel.v` | core.triple_products, core.triple_products_fourier: core.py:161-166, varf.cpp:51, 101 |
| `GetModel.v` | Series.__getitem__, Varf.__getitem__: series.py:180-181, varf.py:239-240 |
| `ParamModel.v` | `equations.py`: the methods `params`, and the equations as functions of the dictionary of parameters |
| `SteadyModel.v` | `hermipy/equations.py`: `solve_gaussian` (30-78) |
| `CompModel.v` | `compquad.py`: composite quadratures |
| `ProjModel.v` | `series.py`, `varf.py`: `project` |
| `EigModel.v` | `varf.py:228-237` (`eigs`), `varf.py:208-215` (gmres) |
| `WeightModel.v` | `position.py:131-145`: `weight`, `weights` |
| `PlotSpec.v` | coordinates of nodes, what a picture shows, stream functions, levels |
| `CoreSpec.v` | contents of dense and csr arrays, names of the index sets |
| `FnSample.v` | sample expressions meeting the laws, used in examples only |
| `CheckSpec.v` | indices, tolerance, the assumed laws of the spectral norm |
| `RestrictSpec.v` | when a projection is meaningful and when two series are the same (C99; no new model: subdegree, project, sums and multiples are those of SeriesModel.v and ProjModel.v) |
| `FormSpec.v` | the quadratic form of a matrix on an index set (C100; no new model: the matrices are those of CalcModel.v) |
| `OuSpec.v` | matrices made by varfd, the functions 1 and x_k on the grid (C101; no new model) |
| `CheckModel.v` | `cache.py`: `gen_error` (67-92) and the comparison (149-160), with NumPy's broadcasting |
| `FnSpec.v` | coordinates and parameters, closest fractions, the assumed laws of SymPy |
| `FnModel.v` | `function.py`: the constructor with its table of names (24-74), `as_xyz` (112-116), `sanitize` (196-212); `operator.py:103-105` |
| `CoreModel.v` | `hermipy/core.py`: `tensorize`, `project`, `inner` and the conversions between Python values and C++ arrays (29-119, 198-276, 335-346); overload resolution of `cpp/src/hermite/python/module.cpp` (104-128) |
| `Core2Model.v` | `hermipy/core.py`: `integrate`, `transform`, `varf`, `varfd` on arrays and sparse matrices (136-195) |
| `PlotModel.v` | `hermipy/quad.py`: `Quad.plot` (468-554), `plot_hf` (427-466), `series` (412-425), `streamlines` (556-618) up to what is handed to matplotlib |
| `EqModel.v` | `__eq__` of `position.py:112-116`, `series.py:108-113`, `varf.py:78-83`, `quad.py:160-167` |
| `PosModel.v` | `position.py`: `Position.__init__`, `tensorize`, `project` |
| `SeriesModel.v`, `MulModel.v`, `ToFunModel.v` | `series.py`: `Series.__init__`, arithmetic, `__mul__`, `tensorize`, `inner`, `subdegree`, `to_cross`, `to_function`; the corresponding parts of `varf.py`; `core.py` wrappers |
| `SolveModel.v` | `varf.py:170-225` `Varf.solve` (direct solver), `series.py:158-163` |
| `SplitModel.v`, `PartModel.v` | `function.py`: `split`, `project`; `lib.py`: `finest_common` |
| `OpModel.v` | `operator.py`: `split` |
| `CacheModel.v`, `KeyModel.v` | `cache.py`: the `cache` decorator with its files, keys |
| `StatsModel.v` | `stats.py`: `log_stats` |
| `OptModel.v` | `quad.py`: which computation the decorator `tensorize_at` chooses from positional arguments, keywords and settings |
| `MixedModel.v` | `series.py`, `varf.py`: which method Python calls for +, -, *, / and `sum` on series, forms and numbers |
| `TrailModel.v` | `stats.py`: what `log_stats` records and prints, `print_stats`, `debug` |
| `CacheRaceModel.v`, `CacheRaceSpec.v` | cache.cache as the system calls of several processes that share the directory, with crashes: exists, makedirs, isfile, open, reads, truncation, writes |

### Not modelled

* Floating-point overflow, underflow, `NaN`, `inf` and fused multiply-add. Rounding is in the model only for C109 (`RndModel.v`); elsewhere `double` is the real numbers, or an arbitrary structure. The internals of SymPy, NumPy and SciPy (eigenvalues, inverses, solvers, `expand`), the C++ compiler and the loader, Boost.Python marshalling beyond the buffers of `converters.cpp`.
* What matplotlib draws (the data handed to it are modelled), `io.cpp`,
  the nodes of NumPy's `hermegauss`.
* C++ exceptions thrown by allocation failure; stack overflow.


## 4. Properties: what is modelled and how it is proved

The exact English statements are in `properties.jsonl`, the status and notes in `MANIFEST.json`.

| id | property | proof | theorems (file) |
|----|----------|-------|-----------------|
| C01 | Triangle index set is complete and duplicate-free | recursive list of the levels; the increment links consecutive elements; membership, NoDup, length by induction | `C01_triangle_complete` (Properties1.v) |
| C02 | Cube index set is complete and duplicate-free | shells of the maximum; mixed radix inside a shell | `C02_cube_complete` (Properties1.v) |
| C03 | Rectangle index set is complete and duplicate-free | as C02 with the weighted maximum | `C03_rectangle_complete` (Properties1.v) |
| C04 | Hyperbolic cross index set is complete and duplicate-free | 0/1 vectors, then ordered factorisations by product | `C04_cross_complete` (Properties1.v) |
| C05 | Non-consistent cross enumerates the same set as the cross | filter of the triangle list; the last member is (degree,1,..,1); witness for the overflow | `C05_cross_nc_complete`, `C05_cross_nc_overflow_refuted` (Properties1.v) |
| C06 | Consistent orderings: a smaller degree is a prefix of a larger one | prefixes of the level lists; witness for cross_nc | `C06_cross_nc_prefix_refuted`, `C06_prefix` (Properties1.v) |
| C07 | Closed-form triangle index agrees with the enumeration | induction along the list | `C07_triangle_index` (Properties1.v) |
| C08 | Closed-form cube index agrees with the enumeration | mixed radix arithmetic | `C08_cube_index`, `C08_cube_index_zero_refuted` (Properties1.v) |
| C09 | Iterator lookup is exact | injectivity of decimal printing with separators; association lists | `C09_hash_injective`, `C09_lookup` (Properties1.v) |
| C10 | Iteration protocol | induction over histories of increments and resets | `C10_iteration_protocol` (Properties1.v) |
| C100 | The matrix of a multiplication operator | Proof: symmetry from the formula of C37 and the symmetry of the tables of C30 and C31; the form from C36 by exchanging sums; the bounds from the orthonormality of the basis on the grid (exact rules) and nonnegativity of each term. | `C100_cross_refuted`, `C100_eigenvalue`, `C100_form`, `C100_identity`, `C100_linear`, `C100_positive`, `C100_range`, `C100_symmetric` (Properties34.v) |
| C101 | The calculus of the discretized derivatives | Proof: the entries of varfd from C39 and C40, the matrix of 1 from C100, the three-term recurrence lifted to tensor basis functions, orthonormality on the grid direction by direction. | `C101_antisymmetric`, `C101_by_parts`, `C101_computed`, `C101_coordinate`, `C101_kept`, `C101_laplacian`, `C101_number`, `C101_ornstein_uhlenbeck`, `C101_ornstein_uhlenbeck_total` (Properties35.v) |
| C102 | integrate, transform, varf and varfd on NumPy arrays and sparse matrices | Proof: the conversions of C27 and C95 composed with the C++ functions of C32, C36, C39 and C40; composition with C101; witness for the view. | `C102_composed`, `C102_galerkin`, `C102_integrate`, `C102_integrate_refuted`, `C102_inverse`, `C102_transform`, `C102_unknown`, `C102_varf`, `C102_varfd`, `C102_view_refuted` (Properties36.v) |
| C103 | solve_gaussian returns the Gaussian steady state | Proof: the values of the three ansatz expressions after substitution, the determinant by its expansion, and linearity of the operator: the ansatz at the solution is mapped to the ansatz times a polynomial whose coefficients vanish, and the factor does not depend on the variables; witness for the unbounded case. | `C103_density_refuted`, `C103_gaussian`, `C103_raises`, `C103_returns` (Properties37.v) |
| C104 | Discretizing an expression, from its symbols to the array | Proof: composition of C96 (constructor), C74 (text), C44 (files and histories) and C43 (grid), through a contract of the printer and the compiler in terms of tokens; the six steps of a call alone by computation; for mapped_nodes, that the text x_0 is kept by every substitution. | `C104_alone`, `C104_discretize`, `C104_mapped_nodes_refuted`, `C104_uncompiled` (Properties38.v) |
| C105 | What the pictures and texts of series and forms show | Proof: the loop over the multi-indices is split at the boundary of each degree; each layer of the enumeration (C01-C05) begins with a multi-index whose degree function is the new degree and contains none above it. | `C105_dense`, `C105_float`, `C105_lines`, `C105_lines_cross`, `C105_lines_refuted`, `C105_repr`, `C105_same`, `C105_same_refuted`, `C105_series`, `C105_series_raises`, `C105_sparse` (Properties39.v) |
| C106 | Which arrays and series share memory | Proof: an invariant of every reachable state (views within their buffers, contiguous coefficients), a frame lemma per call, and a refinement of each call to the function without memory. | `C106_calls`, `C106_changes_refuted`, `C106_contiguous`, `C106_frame`, `C106_fresh`, `C106_harmless`, `C106_new_shares`, `C106_own_refuted`, `C106_plot`, `C106_rounds`, `C106_subdegree_shares`, `C106_tensorize_one` (Properties40.v) |
| C107 | The debug build checks its arguments and otherwise agrees with the release build | Proof: the loop of check_dims keeps the set of marked directions; a list without repetitions that marks all of 0 .. dim-1 is a permutation; sizes are compared with the sizes of C11 at the recovered degree (C13); then C19 and C20. | `C107_axes`, `C107_check_dims`, `C107_check_dims_undefined`, `C107_columns_refuted`, `C107_matrices`, `C107_release_unchecked`, `C107_same_refuted`, `C107_vectors` (Properties41.v) |
| C108 | Products of positions and of quadratures | Proof: C45's description of tensorize; a position with increasing directions and a diagonal covariance is determined by its records, so each law reduces to one about symmetric differences. For quadratures the loop invariant of C61 is used with the list of all the rules, which is not a quadrature; the raising cases follow the loop to the first direction that the position dropped, or to the comparison of lengths. | `C108_associates`, `C108_associates_raises_refuted`, `C108_associates_refuted`, `C108_commutes`, `C108_list`, `C108_list_refuted`, `C108_neutral`, `C108_product`, `C108_quads`, `C108_quads_associate`, `C108_quads_commute`, `C108_quads_points`, `C108_quads_shared`, `C108_raises`, `C108_square` (Properties42.v) |
| C109 | Rounding errors of transforms, integrals, products of series and of matrices, and of the tables and matrices of varf.cpp | Proof: the model of the C++ functions is generic in its arithmetic, so it is run on the reals with a rounding after every operation. A value computed with n roundings is kept within (1-u)^-n - 1 times a majorant of the exact one; the count adds up over products, takes the maximum plus one over sums, and is carried through the three-term recurrence, the products over directions and the sums over the grid. Bernoulli's inequality gives gamma_n. For a round trip the error of the values passes linearly through the quadrature. The loops of inner are shown to compute the left-to-right sum of the rounded products; terms outside the index sets, which the code skips, add zero, and adding zero to a rounded number changes nothing. For the table of triple products the loops are first shown, for any numbers, to compute a recurrence on the rows; for Fourier functions, varfd and tensor products of matrices the computation with rounding is shown to make the same writes in the same order as the exact one. | `C109_apply`, `C109_backward`, `C109_dot`, `C109_double`, `C109_double_idempotent`, `C109_forward`, `C109_gamma`, `C109_hermite`, `C109_inner`, `C109_integrate`, `C109_no_rounding`, `C109_norm`, `C109_product`, `C109_round_trip`, `C109_tensorize` (Properties43.v); `C109_project`, `C109_tensorize_mats`, `C109_tensorize_sparse`, `C109_triple`, `C109_triple_abs`, `C109_triple_fourier`, `C109_varfd`, `C109_varfd_dense`, `C109_varfd_sparse` (Properties47.v) |
| C11 | Degree recovery inverts size | strict monotonicity of sizes; interval invariant of the bisection; computation of the bound 250 | `C11_degree_recovery`, `C11_degree_recovery_any_dim` (Properties1.v) |
| C110 | Operators on vectors and matrices, conversions through ublas, printing | Proof: loop lemmas for accumulation into one cell and for loops whose iterations write different cells give every entry; undefined cases follow because a loop that returns has visited every index. The laws are exchanges of finite sums; Cauchy-Schwarz by induction on the vectors. | `C110_apply`, `C110_associates`, `C110_composes`, `C110_convert`, `C110_convert_refuted`, `C110_convert_sparse`, `C110_difference`, `C110_dot`, `C110_dot_symmetric`, `C110_identity`, `C110_multiple`, `C110_norm`, `C110_norm_dot`, `C110_norm_matrix_sum`, `C110_norm_multiple`, `C110_norm_sum`, `C110_print`, `C110_product`, `C110_product_refuted`, `C110_sum` (Properties44.v) |
| C111 | The cache survives killed processes and parallel runs | Proof: CacheRaceModel.v is a transition system whose steps are the system calls of the wrapper, with crashes. Invariants over all histories: the file is a prefix and a writer at k has written k bytes (one writer); the last opener has written everything before its position correctly and the others only ever write right bytes (no crash); a measure for the call on its own; every byte right or zero (always). Concrete histories refute the rest. | `C111_corruption`, `C111_dense`, `C111_directory_refuted`, `C111_one_writer`, `C111_race_refuted`, `C111_repaired`, `C111_settles`, `C111_stuck` (Properties45.v) |
| C112 | The transform gives the best approximation | Proof: the values of the basis functions on the grid are orthonormal (C33), the coefficients are the inner products (C32); the square error of any series is expanded and completed to a square. | `C112_bessel`, `C112_best`, `C112_degree`, `C112_larger`, `C112_pythagoras`, `C112_stable` (Properties46.v) |
| C113 | Equations depend on exactly the parameters they document | Proof: lookups in a list of pairs with distinct keys; a missing key is found by going through the lookups in the order of the code. | `C113_backward`, `C113_fokker_planck`, `C113_friction_ignored`, `C113_generalized`, `C113_generalized_params`, `C113_harmonic`, `C113_mckean`, `C113_params`, `C113_white` (Properties48.v) |
| C114 | Statistics and trails tell what was called | Proof: induction over programs of nested calls, for an arbitrary state of the global variables; the lines of a trail are split at the first call into the call, the lines inside it and the lines after it. | `C114_debug`, `C114_firsts`, `C114_print_stats`, `C114_settings`, `C114_silent`, `C114_times`, `C114_trail`, `C114_trail_refuted` (Properties49.v) |
| C115 | Expressions of series, forms and numbers | Proof: each method gives the entries of its operator on objects that the constructors made; induction over expressions. | `C115_commutes_refuted`, `C115_expressions`, `C115_rewriting`, `C115_sum`, `C115_sum_series_refuted` (Properties50.v) |
| C116 | Options of integrate, transform, varf and varfd | Proof: Python's binding of arguments to parameters as a recursive function over the signature; moving the last positional argument to the keywords does not change it. | `C116_function_keyword_refuted`, `C116_keywords`, `C116_positions`, `C116_sparse`, `C116_sparse_refuted`, `C116_tensorize_refuted`, `C116_unknown` (Properties51.v) |
| C117 | Coefficient of the noise from a potential | Model: NoiseModel.v follows equations.py:205-223 line by line on top of the models of the quadratures, of discretize_op and of transform; sympy, numpy.linalg.solve and limit_denominator are parameters. Proof: NoiseFacts.v constructs the quadrature of the first integral and applies the result on integrals in Hermite directions (C29); the product with the right-hand side is treated as a quadratic form; the fraction with the lemmas of C97. The matrix: NoiseFacts2.v computes the derivatives of the factor times a Hermite polynomial, uses the differential equation of the polynomials, and applies the theorem on discretize_op (C67). NoiseFacts3.v constructs the quadrature with the factor and applies the theorem on transform (C66) for the right-hand side. C117_repaired joins the system and the product for the computation with a repaired integral. | `C117_equation`, `C117_product`, `C117_rational`, `C117_undefined` (Properties52.v); `C117_factor`, `C117_matrix`, `C117_repaired`, `C117_system` (Properties53.v) |
| C118 | Projections on one direction in C++ and keys of multi-indices | Model: LibModel.v follows lib.cpp:30-40 and 63-74 with unsigned arithmetic modulo 2^32, and project.cpp:60-76 and 111-129 on top of the models of project (C16, C17). Proof: the loop of the key is a number in base degree + 1; the projections follow from C16 and C17. | `C118_aligned`, `C118_hash`, `C118_hash_injective`, `C118_hash_refuted`, `C118_project_mat`, `C118_project_spmat`, `C118_project_vec`, `C118_unknown` (Properties54.v) |
| C119 | Tables of triple products for every degree | Model: TripleModel.v adds to the models of C30 and C31 the conversion of the Python int and the sizes of the vectors of varf.cpp:51 and 101 with int arithmetic. Proof: TripleFacts.v shows with derivatives that the Hermite polynomials are linearly independent, so that expansions are unique; the symmetry compares the two ways to multiply three polynomials. For the Fourier functions TripleFacts2.v writes each entry as a quadrature of the product of three functions. | `C119_entries`, `C119_fourier`, `C119_fourier_entries`, `C119_fourier_unique`, `C119_hermite`, `C119_unique` (Properties55.v) |
| C12 | Bisection terminates and is sound for every size function | interval invariant, decreasing width | `C12_bisection_complete`, `C12_bisection_total` (Properties1.v) |
| C120 | The coefficients of a series are determined by its values | Model: the backward transform of CalcModel.v (C32). Proof: IndepFacts.v; the Hermite polynomials are linearly independent by their derivatives, the Fourier functions by the quadrature on equidistant points, and the products by induction on the dimension, collecting the multi-indices with the same first entry. IndepFacts2.v applies this to Quad.eval (C65). | `C120_eval`, `C120_function`, `C120_values` (Properties56.v) |
| C121 | Subscripts of series and variational forms | Model: GetModel.v models the subscripts of numpy along an axis, series.py:180-181 and varf.py:239-240. Proof: GetFacts.v, with the order of the multi-indices (C01-C06). | `C121_series`, `C121_varf` (Properties57.v) |
| C122 | Printed vectors, matrices and cubes can be read back | Model: VecModel.v (io.hpp:31-91), with the decimal digits of std::to_string as the text of an element; IoSpec.v has the texts. Proof: IoFacts.v; the text of an element cannot be continued by a bracket, a comma or a new line, and a sequence of such texts is read from left to right by induction. | `C122_readable`, `C122_text` (Properties58.v) |
| C13 | Degree recovery is defined in dimension 5 and above | shape of the polynomial in dimension >= 5; computation | `C13_get_degree_rectangle_refuted`, `C13_get_degree_refuted` (Properties1.v) |
| C14 | Grid enumeration is row-major and index is its inverse | lexicographic list, row-major index | `C14_grid` (Properties1.v) |
| C15 | Index-set entries never overflow | simulation between the machine and the unbounded model | `C15_no_overflow` (Properties1.v) |
| C16 | Projecting a coefficient vector keeps exactly the aligned coefficients | position lookup in duplicate-free sets closed under restriction | `C16_project_vec`, `C16_unordered_dirs_refuted` (Properties2.v) |
| C17 | Projecting a matrix keeps exactly the aligned entries | as C16 | `C17_project_mat`, `C17_project_spmat` (Properties2.v) |
| C18 | Projections compose | composition of restrictions | `C18_project_compose` (Properties2.v) |
| C19 | Tensorizing vectors multiplies coefficients | merge of increasing directions; induction over the arguments | `C19_tensorize_axes`, `C19_tensorize_vectors` (Properties2.v) |
| C20 | Tensorizing matrices multiplies entries | as C19, with sums over sparse rows | `C20_tensorize_mats`, `C20_tensorize_spmats` (Properties2.v) |
| C21 | Tensorization does not depend on argument order | permutation invariance of the product form of C19, C20 | `C21_tensorize_matrices_any_order`, `C21_tensorize_vectors_any_order` (Properties2.v) |
| C22 | Projection undoes tensorization | C16 with C19 | `C22_project_tensorize`, `C22_rectangle_refuted` (Properties2.v) |
| C23 | Tensorizing with the identity | C19 with unit vectors | `C23_matrix_with_identity`, `C23_vector_with_constants` (Properties2.v) |
| C24 | Inner product contracts the shared directions | re-indexing of sums over the index set | `C24_inner_contracts`, `C24_nothing_missed` (Properties2.v) |
| C25 | Inner product is symmetric and bilinear | from C24 | `C25_inner_agrees_with_tensorize`, `C25_inner_dot`, `C25_inner_is_tensor_product`, `C25_inner_linear`, `C25_inner_symmetric` (Properties2.v) |
| C26 | Sparse and dense conversions are faithful | row-wise association lists | `C26_csr_duplicates_refuted`, `C26_dense_sparse_dense`, `C26_empty_matrix_undefined`, `C26_from_csr`, `C26_full`, `C26_row_col_val` (Properties2.v) |
| C27 | NumPy to C++ matrix conversion preserves every entry | arithmetic on strides; witnesses | `C27_boost_formula`, `C27_boost_nonsquare_refuted`, `C27_boost_overrun`, `C27_column_stride`, `C27_contiguous`, `C27_dimension`, `C27_roundtrip`, `C27_strided_refuted`, `C27_to_bmat_formula`, `C27_to_mat_formula`, `C27_to_mat_overrun` (Properties6.v) |
| C28 | Hermite evaluation computes the normalised Hermite polynomials | three-term recurrence over R | `C28_hermite_eval` (Properties3.v) |
| C29 | Integration is memory safe | execution of the loop body for an arbitrary node | `C29_integrate_fourier`, `C29_integrate_refuted` (Properties3.v) |
| C30 | Triple products are the linearisation coefficients of Hermite products | linearisation formula by induction over the recurrence | `C30_triple_products` (Properties3.v) |
| C31 | Fourier triple products are the linearisation coefficients of trigonometric products | trigonometric identities | `C31_odd`, `C31_triple_fourier` (Properties3.v) |
| C32 | Forward transform and evaluation compute the defining sums | exchange of finite sums | `C32_backward`, `C32_forward` (Properties3.v) |
| C33 | Transform inverts evaluation on an exact quadrature | discrete orthogonality | `C33_transform_inverts_eval` (Properties3.v) |
| C34 | The Fourier quadrature is exact | sums of roots of unity, by telescoping | `C34_fourier_exact`, `C34_fourier_inverts` (Properties3.v) |
| C35 | Tensorized transform equals the full transform | Fubini for finite sums | `C35_transform`, `C35_varf` (Properties4.v) |
| C36 | varf is the discrete Galerkin matrix | linearisation (C30, C31) and the transform at degree 2d | `C36_varf_galerkin` (Properties4.v) |
| C37 | varf on the hyperbolic cross is the discrete Galerkin matrix | witness; the formula by unfolding the loops | `C37_cross_refuted`, `C37_cross_witness`, `C37_varf_formula` (Properties4.v) |
| C38 | Thresholding error of varf is bounded | bound on the dropped terms by the triangle inequality | `C38_varf_bound` (Properties4.v) |
| C39 | varfd composes the operator with a derivative | columns of the matrix, derivative of the recurrence | `C39_C40_varfd_composes`, `C39_hermite_derivative`, `C39_varfd_hermite` (Properties5.v) |
| C40 | varfd for Fourier directions | as C39; existence of a sine without cosine | `C40_cube`, `C40_triangle_throws`, `C40_unpaired_throws`, `C40_varfd_fourier` (Properties5.v) |
| C41 | Dense and sparse varfd agree | witness; explicit modular arithmetic | `C41_dense_fourier`, `C41_fourier_refuted`, `C41_fourier_witness`, `C41_overloads_hermite` (Properties5.v) |
| C42 | Derivative directions commute | from C39, C40 | `C42_varfd_commute` (Properties5.v) |
| C43 | Discretization evaluates the function at the mapped nodes in row-major order | induction over the grid | `C43_discretize`, `C43_discretize_R` (Properties5.v) |
| C44 | Compiled-function cache returns the right function for every call history | invariant over all histories of calls, crashes and interleavings; witnesses | `C44_collision_refuted`, `C44_crash_refuted`, `C44_overlap_refuted`, `C44_returns`, `C44_right`, `C44_sequential`, `C44_uncompilable`, `C44_unfinished_for_ever` (Properties15.v) |
| C45 | Position.tensorize keeps exactly the unshared directions | induction over the argument list | `C45_nondiagonal_raises`, `C45_project`, `C45_project_raises`, `C45_tensorize`, `C45_tensorize_raises`, `C45_types_not_compared` (Properties7.v) |
| C46 | Series.subdegree acts by multi-index | C06 and C16 | `C46_cross_nc_raises`, `C46_subdegree` (Properties8.v) |
| C47 | Varf.subdegree acts by multi-index | as C46; witness | `C47_cross_nc_refuted`, `C47_high_raises`, `C47_subdegree` (Properties8.v) |
| C48 | to_cross acts by multi-index | prefix and lookup lemmas; witness | `C48_degree0_raises`, `C48_guard_refuted`, `C48_series`, `C48_series_raises`, `C48_varf`, `C48_varf_degree0_raises` (Properties8.v) |
| C49 | to_cross preserves the factor | witness | `C49_factor_refuted` (Properties8.v) |
| C50 | Series accepts exactly the valid sizes | C11, C12 | `C50_accepts`, `C50_dim0`, `C50_dim0_refuted`, `C50_fields`, `C50_rejects_cross`, `C50_rejects_exit` (Properties8.v) |
| C51 | finest_common computes the finest common coarsening | invariant of the two loops, for every enumeration order; minimality by induction | `C51_finest_common`, `C51_order_irrelevant` (Properties9.v) |
| C52 | Function.split factors each term over disjoint groups of variables | invariant of the dictionary | `C52_legacy`, `C52_legacy_inseparable`, `C52_split` (Properties9.v) |
| C53 | Function.project loses nothing silently | from C52; witness | `C53_product`, `C53_project`, `C53_raises`, `C53_refuted`, `C53_sum_raises` (Properties9.v) |
| C54 | Operator.split recovers the coefficients of a differential operator | induction over orders; monomials are dual to derivatives | `C54_raises`, `C54_split` (Properties10.v) |
| C55 | The result cache is transparent | invariant over histories of calls, crashes and file damage; witness | `C55_no_write`, `C55_once`, `C55_refuted`, `C55_sparse_lost`, `C55_transparent`, `C55_unreadable` (Properties11.v) |
| C56 | Distinct arguments have distinct cache keys | injectivity of the printed form on the stated types; witness | `C56_injective`, `C56_refuted` (Properties11.v) |
| C57 | Call statistics are exact and balanced | big-step semantics of programs of decorated calls; induction | `C57_balanced`, `C57_counters`, `C57_indent`, `C57_refuted` (Properties10.v) |
| C58 | Bordered solve returns a solution orthogonal to the removed vector | linear algebra of the bordered system over a commutative ring | `C58_bordered`, `C58_keep`, `C58_kernel`, `C58_left_kernel`, `C58_raises`, `C58_remove0` (Properties12.v) |
| C59 | Series.to_function agrees with evaluation | explicit expression built by the loop; witness | `C59_refuted`, `C59_unit_variances`, `C59_values` (Properties14.v) |
| C60 | Linear structure of Series and Varf | position lookup; finite sums | `C60_add`, `C60_add_raises`, `C60_broadcast`, `C60_call`, `C60_call_add`, `C60_call_factor_refuted`, `C60_call_raises`, `C60_call_scale`, `C60_degrees_refuted`, `C60_scale`, `C60_sub`, `C60_varf_add`, `C60_varf_add_raises`, `C60_varf_scale` (Properties8.v) |
| C61 | Quad.project and Quad.tensorize are inverse | partition lemmas; C45 and C53; witness | `C61_straddling_refuted`, `C61_tensorize_projections` (Properties13.v) |
| C62 | varf on a triangle with a Fourier direction is the discrete Galerkin matrix | witness | `C62_triangle_fourier_refuted`, `C62_triangle_fourier_witness` (Properties4.v) |
| C63 | The Position constructor accepts exactly consistent arguments | case analysis of the constructor | `C63_init_accepts`, `C63_init_fields`, `C63_no_dimension` (Properties7.v) |
| C64 | Product of series contracts the shared directions | C24, C45, C53 | `C64_commutes`, `C64_float`, `C64_mul`, `C64_raises`, `C64_scalar` (Properties12.v) |
| C65 | Quad.discretize and Quad.eval give values at the mapped grid points | C43 with diagonal matrices; C32 | `C65_discretize`, `C65_eval`, `C65_types_refuted` (Properties13.v) |
| C66 | Quad.transform computes the weighted coefficients and inverts Quad.eval | C32, C33, C65 | `C66_transform`, `C66_transform_eval` (Properties13.v) |
| C67 | Quad.varfd and Quad.discretize_op give the Galerkin matrices of derivatives and differential operators | C36, C39, C40, C54; derivatives over R (unique, product with a factor through the specification of Operator.map) | `C67_discretize_op`, `C67_varfd` (Properties16.v) |
| C68 | Tensorizing a transform does not change its result | Model: the decorator as written (split, finest_common, projections, method, tensor product, sum), with the enumeration order of Python's sets as an arbitrary permutation. Proof: the groups partition the directions (C52), the projected quadratures are the parts of the quadrature (C61), the transform of each part is a quadrature (C66), products of quadratures are quadratures on the product grid (C35), series multiply (C64); linearity adds the terms up; equality of all coefficients gives equality of the lists. | `C68_direct_position`, `C68_position_refuted`, `C68_sum_factor_raises`, `C68_transform`, `C68_transform_ok` (Properties17.v) |
| C69 | Products of variational forms multiply entries | Model: the dict of matrices by frozenset of directions (a later form with the same directions replaces the earlier one), core.tensorize, Position.tensorize and the constructor. Proof: disjoint directions give one dict entry per form; the C++ tensorize multiplies entries (C20); positions merge (C48). Counterexample by computation with integer entries. | `C69_mul`, `C69_shared_refuted`, `C69_tensorize` (Properties18.v) |
| C70 | Tensorizing a variational form does not change it | Model: the decorator of C68 applied to Quad.varf. Proof: as for C68 with C36 (entries are Galerkin entries when nothing is dropped), products of Galerkin entries on the product grid, C69 for the products of forms and C55/C56 for sums and multiples. Counterexample: the constant function 1e-13. | `C70_entries`, `C70_small_refuted`, `C70_sum_factor`, `C70_varf`, `C70_varf_ok` (Properties18.v) |
| C71 | Tensorizing a form with derivatives does not change it | Model: the decorator of C68 applied to Quad.varfd. Proof: as for C70, with C67 for each part: differentiating along the directions of a part multiplies the entry by the constant of the derivative of the basis function of this part, and the constants and indices of the parts combine to those of all directions. | `C71_entries`, `C71_sum_factor`, `C71_varfd`, `C71_varfd_ok` (Properties19.v) |
| C72 | Tensorizing a discretized operator does not change it | Model: Quad.discretize_op with the decorated varfd. Proof: induction over the terms of the operator: the sums of the tensorized and of the direct forms agree entry by entry (C71 for each term); the entries then follow from C67. | `C72_discretize_op`, `C72_discretize_op_ok`, `C72_entries` (Properties19.v) |
| C73 | The dimension of a triangle is recovered or rejected | Model: the loop with fuel. Proof: the sizes are binomial coefficients, strictly increasing with the dimension for degrees of at least 1 and constant for degree 0. | `C73_degree0_loops`, `C73_found`, `C73_not_found` (Properties20.v) |
| C74 | Generated C++ reads the right coordinates | Model: re.sub of the pattern \bx<d> on strings, in a loop over the directions. Proof: one substitution acts on each name and sign of the text separately (induction over the parts); the text v[i] that it inserts contains no x, so that later substitutions leave it alone (induction over the directions). | `C74_ccode`, `C74_parts`, `C74_prefix_refuted` (Properties21.v) |
| C75 | Sums and multiples of operators | Model: an operator is the list of its terms c D^n f. Proof: induction over the terms. | `C75_add`, `C75_directions`, `C75_mul`, `C75_neg`, `C75_sub` (Properties22.v) |
| C76 | Composition and application of operators | Model: substitution and doit as the product rule on the list of terms. Proof: the product rule for one variable (derivatives of sums and products in the standard library), induction over the variables of the derivative, then uniqueness of derivatives. | `C76_apply`, `C76_compose`, `C76_directions_refuted` (Properties22.v) |
| C77 | Conjugation of an operator with a factor | Model: as C76, for the operator of multiplication by the factor, then division. Proof: as C76; since the variables are taken in order, the symmetry of the second derivatives is not needed. The corollary discharges the assumption of C67 on Operator.map and constructs the derivatives of the weighted basis functions. | `C77_discretize_op`, `C77_map` (Properties22.v) |
| C78 | Arithmetic of functions | Model: function by function. Proof: direct, and induction over the list of functions for tensorize. | `C78_arith`, `C78_directions`, `C78_tensorize` (Properties22.v) |
| C79 | Integrals and norms with a quadrature | Model: function by function, over tensorize_at of C68 and integrate of C29. Proof: values on the grid, then Fubini for the products of groups of variables; Parseval from the orthonormality on the grid. | `C79_hermite`, `C79_integrate`, `C79_norm`, `C79_parseval`, `C79_tensorize` (Properties23.v) |
| C80 | Quadratures on boxes with Fourier directions | Model: the constructor with its defaults. Proof: the mean and variance that it derives from the bounds, exactness of equispaced points from C34, and C66. | `C80_counts`, `C80_integrate`, `C80_inverts`, `C80_lengths`, `C80_made`, `C80_norm`, `C80_position_refuted`, `C80_ragged` (Properties23.v) |
| C81 | Gauss-Hermite quadratures | Model: the constructor with hermegauss as an oracle. Proof: moments of the Gaussian, products of Hermite polynomials as combinations of powers, induction; C66. | `C81_inverts`, `C81_made`, `C81_ragged`, `C81_zero` (Properties23.v) |
| C82 | Newton-Cotes quadratures | Model: the loops over the intervals. Proof: the loop that adds half of each interval to both its ends, by induction over the intervals. | `C82_newton`, `C82_small` (Properties23.v) |
| C83 | Equations in divergence form | Model: the expressions as operators with symbolic coefficients, over the derivative of C76. Proof: the value of a derivative is the derivative of the value, and uniqueness of limits. | `C83_fokker_planck`, `C83_harmonic`, `C83_langevin`, `C83_mckean`, `C83_noise`, `C83_white` (Properties24.v) |
| C84 | Steady states of the equations | Proof: the flux vanishes (or its divergence does), from C83 and the rules for partial derivatives. | `C84_fokker_planck`, `C84_harmonic`, `C84_langevin`, `C84_mckean`, `C84_white` (Properties24.v) |
| C85 | Backward operators are generators | Model: the three branches; sympy decides whether the determinant is 0. Proof: values term by term; product rule for first and second derivatives. | `C85_constant`, `C85_gle1`, `C85_gle2`, `C85_gle_friction`, `C85_gle_raises`, `C85_langevin`, `C85_overdamped`, `C85_product` (Properties24.v) |
| C86 | Invariant measures, adjoints and map_operator | Proof: partial derivatives of the explicit fields, then field arithmetic; C76 for map_operator. | `C86_adjoint`, `C86_gle1`, `C86_gle2`, `C86_gle_friction`, `C86_langevin`, `C86_langevin_adjoint`, `C86_map`, `C86_mapped`, `C86_overdamped` (Properties24.v) |
| C87 | Variational forms act as Galerkin approximations | Proof: C67 and C77 for the entries of the matrix, C66 for the coefficients of the transform, and linearity of derivatives: both sides are the same quadrature of the same sum. | `C87_operator`, `C87_varf` (Properties25.v) |
| C88 | Composite quadratures are weighted sums | Model: the loops of compquad.py over the models of the methods of Quad. Proof: induction over the quadratures, with the arithmetic of variational forms (C60). | `C88_eq_refuted`, `C88_init`, `C88_integrate`, `C88_raises`, `C88_transform_refuted`, `C88_varf` (Properties25.v) |
| C89 | Projecting a series averages over the other directions | Proof: the projection of coefficient vectors (C16) with the embedding of multi-indices; the integral of a product of basis functions with averaging rules is a product over the directions, 0 unless the multi-index vanishes outside the directions. | `C89_averages`, `C89_factor`, `C89_marginal`, `C89_missing`, `C89_order`, `C89_project`, `C89_varf_refuted` (Properties26.v) |
| C90 | Eigenvectors of a variational form, and solving with gmres | Proof: complex numbers as pairs; the matrix is real, so the real and imaginary parts of the eigenvector equation separate; dropping an imaginary part of norm at most 1e-15 leaves an error of |Im lam| 1e-15 in each coefficient. gmres replaces the direct solver in the model of Varf.solve (C58). | `C90_eigs`, `C90_gmres`, `C90_gmres_never`, `C90_gmres_refuted`, `C90_gmres_unbound`, `C90_remove0`, `C90_remove0_raises` (Properties27.v) |
| C91 | Equality of positions, series, variational forms and quadratures | Proof: differences with NumPy's broadcasting are antisymmetric in the operands, and norms are even and bound each entry. | `C91_broadcast_refuted`, `C91_factor_refuted`, `C91_position`, `C91_quad`, `C91_reflexive`, `C91_series`, `C91_sets_refuted`, `C91_symmetric`, `C91_transitive_refuted`, `C91_varf` (Properties28.v) |
| C92 | The weight of a position is the Gaussian density | Proof: the quadratic form of a diagonal matrix is a sum over the Hermite directions, the exponential of the sum a product, and the determinant a product. | `C92_mixed`, `C92_mixed_refuted`, `C92_none`, `C92_weight`, `C92_weights` (Properties28.v) |
| C93 | Plots show the function | Proof: the model computes the list of values, the coordinates (projecting the quadrature on each direction and discretizing its variable) and the reshaped and transposed array. grid_1 and grid_2 give the position of every point of the row-major grid, transpose_at the entry of the transposed array; together with C65 (values of Functions and Series on the grid) this gives plot_shows. | `C93_array`, `C93_dimension_refuted`, `C93_factor_refuted`, `C93_function`, `C93_hf`, `C93_hf_bad`, `C93_series` (Properties29.v) |
| C94 | Streamlines are level lines of a stream function | Proof: by induction along the first row and along the rows (psi_first_at, psi_rows_at), then stream_all by induction on the row for flows without discrete divergence. The levels: a case analysis of the two thresholds (range_ok). | `C94_constant`, `C94_directions_refuted`, `C94_functions_refuted`, `C94_levels`, `C94_solenoidal`, `C94_stream` (Properties29.v) |
| C95 | The low-level functions on Python values | Proof: every branch is reduced to the C++ function it ends in (to_cpp_array, todense and to_csr are shown to preserve contents), and the theorems about those functions (C05 to C09, C13, C31) give the entries. frozenset_small: CPython puts a small number in the slot given by its value. | `C95_dict_matrices`, `C95_dict_vectors`, `C95_duplicates_refuted`, `C95_inner`, `C95_large_directions_refuted`, `C95_list_matrices`, `C95_list_vectors`, `C95_numbers`, `C95_one_matrix`, `C95_one_vector`, `C95_project_matrix`, `C95_project_one`, `C95_project_vector`, `C95_small_directions`, `C95_sparse_vectors_refuted`, `C95_unknown_set_refuted`, `C95_wrong_arguments` (Properties30.v) |
| C96 | A Function is the expression it is made of | Proof: by induction on the list of symbols being replaced, for the value (to_x_value) and for the free symbols (to_x_free); the conversion table is shown to be the coordinate of a name (conv_coordinate). | `C96_accepts`, `C96_accepts_only`, `C96_default`, `C96_depends`, `C96_dimension`, `C96_directions_refuted`, `C96_round_trip`, `C96_same_constructor`, `C96_symbols`, `C96_value`, `C96_xyz` (Properties31.v) |
| C97 | Cleaning decimal coefficients | Proof: the value of the result is the sum over terms of the products of the cleaned factors (sanitize_value); closest_exact, closest_half and closest_small are the facts about the closest fraction. | `C97_drops`, `C97_exact`, `C97_near`, `C97_relative_refuted` (Properties31.v) |
| C98 | Recomputing detects a wrong stored result | Proof: the norm of the difference is at least every entry in absolute value (norm_entry); broadcasting of equal shapes is the identity (sub_same); a csr entry without duplicates is one stored number (csr_entry_one). | `C98_arrays_differ`, `C98_arrays_same`, `C98_call`, `C98_formats`, `C98_lengths`, `C98_numbers`, `C98_quiet`, `C98_shapes_refuted`, `C98_sparse`, `C98_sparse_refuted` (Properties32.v) |
| C99 | Restrictions of series compose | Proof: C46 (subdegree), C60 (sums, multiples) and C89 (projection) give the coefficients of each step; the projection formula is first extended to every tuple of the right length, whether or not it is a multi-index, because the restriction of a multi-index is one (in_set_sub); re-indexing twice is re-indexing once. | `C99_degree_back`, `C99_degree_lower`, `C99_degree_multiple`, `C99_degree_sum`, `C99_degree_twice`, `C99_project_degree`, `C99_project_multiple`, `C99_project_sum`, `C99_project_twice`, `C99_rectangle_refuted` (Properties33.v) |

## 5. Trusted base

Coq's kernel; the faithfulness of the model to the cited lines (checked by reading only: nothing was run); the definitions in the `*Spec.v` files as readings of the English properties. There are no axioms, parameters or admitted proofs of our own, no functors, no disabled kernel checks. `Print Assumptions` gives, for each theorem, one of the following lists of standard-library axioms.

* **Closed under the global context** (no axioms):
  `C01_triangle_complete`, `C02_cube_complete`, `C03_rectangle_complete`, `C04_cross_complete`, `C05_cross_nc_complete`, `C05_cross_nc_overflow_refuted`, `C06_cross_nc_prefix_refuted`, `C06_prefix`, `C07_triangle_index`, `C08_cube_index`, `C08_cube_index_zero_refuted`, `C09_hash_injective`, `C09_lookup`, `C103_raises`, `C104_mapped_nodes_refuted`, `C104_uncompiled`, `C105_dense`, `C105_float`, `C105_lines`, `C105_lines_cross`, `C105_lines_refuted`, `C105_repr`, `C105_same`, `C105_same_refuted`, `C105_series`, `C105_series_raises`, `C105_sparse`, `C106_calls`, `C106_changes_refuted`, `C106_contiguous`, `C106_frame`, `C106_fresh`, `C106_harmless`, `C106_new_shares`, `C106_own_refuted`, `C106_plot`, `C106_rounds`, `C106_subdegree_shares`, `C106_tensorize_one`, `C107_axes`, `C107_check_dims`, `C107_check_dims_undefined`, `C107_columns_refuted`, `C107_matrices`, `C107_release_unchecked`, `C107_same_refuted`, `C107_vectors`, `C108_associates`, `C108_associates_raises_refuted`, `C108_associates_refuted`, `C108_commutes`, `C108_list`, `C108_list_refuted`, `C108_neutral`, `C108_product`, `C108_quads`, `C108_quads_associate`, `C108_quads_commute`, `C108_quads_points`, `C108_quads_shared`, `C108_raises`, `C108_square`, `C10_iteration_protocol`, `C110_apply`, `C110_associates`, `C110_composes`, `C110_convert`, `C110_convert_refuted`, `C110_convert_sparse`, `C110_difference`, `C110_dot`, `C110_dot_symmetric`, `C110_identity`, `C110_multiple`, `C110_print`, `C110_product`, `C110_product_refuted`, `C110_sum`, `C111_corruption`, `C111_dense`, `C111_directory_refuted`, `C111_one_writer`, `C111_race_refuted`, `C111_repaired`, `C111_settles`, `C111_stuck`, `C113_backward`, `C113_fokker_planck`, `C113_friction_ignored`, `C113_generalized`, `C113_generalized_params`, `C113_harmonic`, `C113_mckean`, `C113_params`, `C113_white`, `C114_debug`, `C114_firsts`, `C114_print_stats`, `C114_settings`, `C114_silent`, `C114_times`, `C114_trail`, `C114_trail_refuted`, `C116_function_keyword_refuted`, `C116_keywords`, `C116_positions`, `C116_sparse`, `C116_sparse_refuted`, `C116_tensorize_refuted`, `C116_unknown`, `C118_aligned`, `C118_hash`, `C118_hash_injective`, `C118_hash_refuted`, `C118_project_mat`, `C118_project_spmat`, `C118_project_vec`, `C118_unknown`, `C11_degree_recovery`, `C11_degree_recovery_any_dim`, `C121_series`, `C121_varf`, `C122_readable`, `C122_text`, `C12_bisection_complete`, `C12_bisection_total`, `C13_get_degree_rectangle_refuted`, `C13_get_degree_refuted`, `C14_grid`, `C15_no_overflow`, `C16_project_vec`, `C16_unordered_dirs_refuted`, `C17_project_mat`, `C17_project_spmat`, `C18_project_compose`, `C19_tensorize_axes`, `C19_tensorize_vectors`, `C20_tensorize_mats`, `C20_tensorize_spmats`, `C21_tensorize_matrices_any_order`, `C21_tensorize_vectors_any_order`, `C22_project_tensorize`, `C22_rectangle_refuted`, `C23_matrix_with_identity`, `C23_vector_with_constants`, `C24_inner_contracts`, `C24_nothing_missed`, `C25_inner_agrees_with_tensorize`, `C25_inner_dot`, `C25_inner_is_tensor_product`, `C25_inner_linear`, `C25_inner_symmetric`, `C26_csr_duplicates_refuted`, `C26_dense_sparse_dense`, `C26_empty_matrix_undefined`, `C26_from_csr`, `C26_full`, `C26_row_col_val`, `C27_boost_formula`, `C27_boost_nonsquare_refuted`, `C27_boost_overrun`, `C27_column_stride`, `C27_contiguous`, `C27_dimension`, `C27_roundtrip`, `C27_strided_refuted`, `C27_to_bmat_formula`, `C27_to_mat_formula`, `C27_to_mat_overrun`, `C29_integrate_refuted`, `C31_odd`, `C43_discretize`, `C44_collision_refuted`, `C44_crash_refuted`, `C44_overlap_refuted`, `C44_returns`, `C44_right`, `C44_sequential`, `C44_uncompilable`, `C44_unfinished_for_ever`, `C45_nondiagonal_raises`, `C45_project`, `C45_project_raises`, `C45_tensorize`, `C45_tensorize_raises`, `C45_types_not_compared`, `C46_cross_nc_raises`, `C46_subdegree`, `C47_cross_nc_refuted`, `C47_high_raises`, `C47_subdegree`, `C48_degree0_raises`, `C48_guard_refuted`, `C48_series`, `C48_series_raises`, `C48_varf`, `C48_varf_degree0_raises`, `C49_factor_refuted`, `C50_accepts`, `C50_dim0`, `C50_dim0_refuted`, `C50_fields`, `C50_rejects_cross`, `C50_rejects_exit`, `C51_finest_common`, `C51_order_irrelevant`, `C52_legacy`, `C52_legacy_inseparable`, `C52_split`, `C53_product`, `C53_project`, `C53_raises`, `C53_refuted`, `C53_sum_raises`, `C54_raises`, `C54_split`, `C55_no_write`, `C55_once`, `C55_refuted`, `C55_sparse_lost`, `C55_transparent`, `C55_unreadable`, `C56_injective`, `C56_refuted`, `C57_balanced`, `C57_counters`, `C57_indent`, `C57_refuted`, `C58_bordered`, `C58_keep`, `C58_raises`, `C58_remove0`, `C60_add`, `C60_add_raises`, `C60_broadcast`, `C60_call`, `C60_call_add`, `C60_call_factor_refuted`, `C60_call_raises`, `C60_call_scale`, `C60_degrees_refuted`, `C60_scale`, `C60_sub`, `C60_varf_add`, `C60_varf_add_raises`, `C60_varf_scale`, `C61_straddling_refuted`, `C61_tensorize_projections`, `C63_init_accepts`, `C63_init_fields`, `C63_no_dimension`, `C64_commutes`, `C64_float`, `C64_mul`, `C64_raises`, `C64_scalar`, `C69_mul`, `C69_shared_refuted`, `C69_tensorize`, `C73_degree0_loops`, `C73_found`, `C73_not_found`, `C74_ccode`, `C74_parts`, `C74_prefix_refuted`, `C75_directions`, `C78_directions`, `C85_gle_raises`, `C89_factor`, `C89_missing`, `C89_order`, `C89_project`, `C89_varf_refuted`, `C90_gmres`, `C90_gmres_never`, `C90_gmres_refuted`, `C90_gmres_unbound`, `C95_dict_matrices`, `C95_dict_vectors`, `C95_duplicates_refuted`, `C95_inner`, `C95_large_directions_refuted`, `C95_list_matrices`, `C95_list_vectors`, `C95_numbers`, `C95_one_matrix`, `C95_one_vector`, `C95_project_matrix`, `C95_project_one`, `C95_project_vector`, `C95_small_directions`, `C95_sparse_vectors_refuted`, `C95_unknown_set_refuted`, `C95_wrong_arguments`, `C96_accepts`, `C96_accepts_only`, `C96_default`, `C96_depends`, `C96_dimension`, `C96_directions_refuted`, `C96_round_trip`, `C96_same_constructor`, `C96_symbols`, `C96_value`, `C96_xyz`, `C99_degree_back`, `C99_degree_lower`, `C99_degree_multiple`, `C99_degree_sum`, `C99_degree_twice`, `C99_project_degree`, `C99_project_multiple`, `C99_project_sum`, `C99_project_twice`, `C99_rectangle_refuted`

* `ClassicalDedekindReals.sig_forall_dec`, `FunctionalExtensionality.functional_extensionality_dep`:
  `C103_returns`, `C109_gamma`, `C109_project`, `C115_commutes_refuted`, `C115_expressions`, `C115_rewriting`, `C115_sum`, `C115_sum_series_refuted`, `C75_add`, `C75_mul`, `C75_neg`, `C75_sub`, `C76_apply`, `C76_compose`, `C77_map`, `C78_arith`, `C78_tensorize`, `C85_constant`, `C85_product`, `C94_constant`, `C94_solenoidal`, `C97_drops`, `C97_exact`, `C97_near`, `C97_relative_refuted`

* `ClassicalDedekindReals.sig_forall_dec`, `ClassicalDedekindReals.sig_not_dec`, `FunctionalExtensionality.functional_extensionality_dep`:
  `C100_cross_refuted`, `C100_eigenvalue`, `C100_form`, `C100_identity`, `C100_linear`, `C100_positive`, `C100_range`, `C100_symmetric`, `C101_antisymmetric`, `C101_by_parts`, `C101_computed`, `C101_coordinate`, `C101_laplacian`, `C101_number`, `C101_ornstein_uhlenbeck`, `C101_ornstein_uhlenbeck_total`, `C102_composed`, `C102_galerkin`, `C102_integrate`, `C102_integrate_refuted`, `C102_inverse`, `C102_transform`, `C102_unknown`, `C102_varf`, `C102_varfd`, `C102_view_refuted`, `C103_gaussian`, `C104_alone`, `C104_discretize`, `C109_apply`, `C109_dot`, `C109_hermite`, `C109_inner`, `C109_no_rounding`, `C109_norm`, `C109_product`, `C109_tensorize`, `C109_tensorize_mats`, `C109_tensorize_sparse`, `C109_triple`, `C109_triple_abs`, `C109_triple_fourier`, `C109_varfd`, `C109_varfd_dense`, `C109_varfd_sparse`, `C110_norm`, `C110_norm_dot`, `C110_norm_matrix_sum`, `C110_norm_multiple`, `C110_norm_sum`, `C112_bessel`, `C112_best`, `C112_degree`, `C112_larger`, `C112_pythagoras`, `C112_stable`, `C117_equation`, `C117_factor`, `C117_matrix`, `C117_product`, `C117_rational`, `C117_repaired`, `C117_system`, `C117_undefined`, `C119_entries`, `C119_fourier`, `C119_fourier_entries`, `C119_fourier_unique`, `C119_hermite`, `C119_unique`, `C120_eval`, `C120_function`, `C120_values`, `C28_hermite_eval`, `C29_integrate_fourier`, `C30_triple_products`, `C31_triple_fourier`, `C32_backward`, `C32_forward`, `C33_transform_inverts_eval`, `C34_fourier_exact`, `C34_fourier_inverts`, `C35_transform`, `C35_varf`, `C36_varf_galerkin`, `C37_cross_refuted`, `C37_cross_witness`, `C37_varf_formula`, `C38_varf_bound`, `C39_C40_varfd_composes`, `C39_hermite_derivative`, `C39_varfd_hermite`, `C40_cube`, `C40_triangle_throws`, `C40_unpaired_throws`, `C40_varfd_fourier`, `C41_dense_fourier`, `C41_fourier_refuted`, `C41_fourier_witness`, `C41_overloads_hermite`, `C42_varfd_commute`, `C43_discretize_R`, `C58_kernel`, `C58_left_kernel`, `C59_refuted`, `C59_unit_variances`, `C59_values`, `C65_discretize`, `C65_eval`, `C66_transform`, `C66_transform_eval`, `C67_discretize_op`, `C67_varfd`, `C68_direct_position`, `C68_position_refuted`, `C68_sum_factor_raises`, `C68_transform`, `C68_transform_ok`, `C70_entries`, `C70_small_refuted`, `C70_sum_factor`, `C70_varf`, `C70_varf_ok`, `C71_entries`, `C71_sum_factor`, `C71_varfd`, `C71_varfd_ok`, `C72_discretize_op`, `C72_discretize_op_ok`, `C72_entries`, `C76_directions_refuted`, `C77_discretize_op`, `C79_hermite`, `C79_integrate`, `C79_norm`, `C79_parseval`, `C79_tensorize`, `C80_counts`, `C80_integrate`, `C80_inverts`, `C80_lengths`, `C80_made`, `C80_norm`, `C80_position_refuted`, `C80_ragged`, `C81_inverts`, `C81_made`, `C81_ragged`, `C81_zero`, `C82_newton`, `C82_small`, `C83_fokker_planck`, `C83_harmonic`, `C83_langevin`, `C83_mckean`, `C83_noise`, `C83_white`, `C84_fokker_planck`, `C84_harmonic`, `C84_langevin`, `C84_mckean`, `C84_white`, `C85_gle1`, `C85_gle2`, `C85_gle_friction`, `C85_langevin`, `C85_overdamped`, `C86_adjoint`, `C86_gle1`, `C86_gle2`, `C86_gle_friction`, `C86_langevin`, `C86_langevin_adjoint`, `C86_map`, `C86_mapped`, `C86_overdamped`, `C87_operator`, `C87_varf`, `C88_eq_refuted`, `C88_init`, `C88_integrate`, `C88_raises`, `C88_transform_refuted`, `C88_varf`, `C89_averages`, `C89_marginal`, `C90_eigs`, `C90_remove0`, `C90_remove0_raises`, `C91_broadcast_refuted`, `C91_factor_refuted`, `C91_position`, `C91_quad`, `C91_reflexive`, `C91_series`, `C91_sets_refuted`, `C91_symmetric`, `C91_transitive_refuted`, `C91_varf`, `C92_mixed`, `C92_none`, `C92_weight`, `C92_weights`, `C93_array`, `C93_dimension_refuted`, `C93_factor_refuted`, `C93_function`, `C93_hf`, `C93_hf_bad`, `C93_series`, `C94_directions_refuted`, `C94_functions_refuted`, `C94_levels`, `C94_stream`, `C98_arrays_differ`, `C98_arrays_same`, `C98_call`, `C98_formats`, `C98_lengths`, `C98_numbers`, `C98_quiet`, `C98_shapes_refuted`, `C98_sparse`, `C98_sparse_refuted`

* `ClassicalDedekindReals.sig_forall_dec`, `ClassicalDedekindReals.sig_not_dec`, `Classical_Prop.classic`, `FunctionalExtensionality.functional_extensionality_dep`:
  `C101_kept`, `C103_density_refuted`, `C109_backward`, `C109_double`, `C109_double_idempotent`, `C109_forward`, `C109_integrate`, `C109_round_trip`, `C62_triangle_fourier_refuted`, `C62_triangle_fourier_witness`, `C65_types_refuted`, `C92_mixed_refuted`

All of these belong to the standard library's classical real numbers (`Coq.Reals`) and functional extensionality, which `Coq.Reals` uses. `vcheck` also lists, among the axioms and parameters of the libraries loaded, `Coq.ssr.ssrunder` (`Under_rel` and its companions, loaded with Coq's own tactic library) and the opaque module fields `RbaseSymbolsImpl`/`RinvImpl` of `Coq.Reals`; no theorem depends on the former, and the latter are definitions sealed by a module type.


## 6. Findings

Numbers in parentheses are properties with a `_refuted` theorem or a theorem about the failure; findings without one were seen while reading the code.

1. `integrate` calls the transform with degree 0, which reads and writes out of bounds for every Hermite direction: undefined behaviour (C29).
2. `Cube_iterator::s_index` of the zero vector is undefined behaviour (C08).
3. `s_get_degree` in dimension 5 and above is undefined behaviour for every size (triangle, cube); a rectangle of dimension 5 exits the process with code 0 (C13). A degree above 250 is never found.
4. A Series or Varf with a number of coefficients that is not a size of the index set terminates the interpreter through `exit` in `pos_bissect` (C50); a cross gives ValueError or undefined behaviour.
5. `cross_nc`: the overflow of the product test makes the set wrong (C05); lists of lower degrees are not prefixes (C06); `Varf.subdegree` accepts it and gives wrong entries (C47); degrees 0 and 1 coincide for both crosses (C04, C11).
6. The dense `varfd` multiplies by a negative number in unsigned arithmetic for Fourier directions: wrong entries (C41). The generic `varfd` throws for Fourier directions on every triangle of dimension at least 2 (C40).
7. `varf` is not the Galerkin matrix on a cross (C37) and on a triangle with Fourier and Hermite directions (C62); on a rectangle the degree must be a multiple of 4 if a direction other than the first is Fourier. `transform` and `varf` on a cross of degree 0 are undefined behaviour.
8. `to_boost_mat`, `to_mat`, `to_bmat` are wrong or undefined for non-square arrays and for views with strides (C27). With duplicate CSR entries the last wins instead of the sum (C26).
9. `project` onto directions that are not increasing throws on rectangles (C16). On rectangles projection and tensor product do not commute unless direction 0 is kept (C22).
10. `Series.to_cross` drops the factor (C49), and `to_cross(0)` passes its guard and raises IndexError (C48).
11. `Series.to_function` multiplies by the square root of the variance where it must divide, ignores the factor and the Fourier types (C59).
12. A Series without directions accepts any number of coefficients (C50). `Series.__add__` broadcasts a series with one coefficient; adding a number adds it to every coefficient (C60). `Varf.__call__` ignores the factor of the series (C60). `Varf.__eq__` ignores factor and index set.
13. `Quad.eval` uses the types of the quadrature and ignores those of the series (C65); it multiplies two matrices elementwise; a one-dimensional quadrature is broadcast.
14. `Quad.varfd` takes the eigenvalues of the covariance in the order of `la.eig`, which need not be the order of the directions when the covariance is not diagonal.
15. `Function.project` silently drops a factor with variables inside and outside of the directions (C53), so that `Quad.project` and `tensorize` can lose the factor of the weight (C61). The projection of a function without variables raises IndexError.
16. The product of two series raises ValueError when a factor is a sum, even if the series share no direction (C64).
17. Cache keys collide (C56): arguments of different types with the same printed form. A cache file that cannot be read for another reason than ValueError makes every later call fail (C55). A corrupt .npy for a sparse result is saved under `k.npy.npz` and never read. Tuples from gmres/eigs cannot be reloaded.
18. The shared objects in `/tmp` are keyed by `std::hash`: colliding bodies, an interrupted link and concurrent first use give wrong values or undefined behaviour, after an interrupted link for ever (C44).
19. `log_stats`: an exception leaves the indentation too large for the rest of the process (C57); methods with the same name in the same module share a counter.
20. `Position(mean=...)` without dim or dirs raises TypeError (C63); `Position.tensorize` does not compare the types of shared directions (C45); duplicate directions are accepted.
21. `Varf.project` uses a nonexistent attribute; `CompQuad.project` raises NameError; `Varf.solve(use_gmres=True)` without 'ilu' reads an unbound variable; `Quad.mapped_nodes` uses `'x_0'`; `boost_mat.size1/size2` are bound to methods of spmat; `CompQuad.discretize_op` passes wrong arguments; `Position.weight` normalises with `self.dim` instead of the number of Hermite directions; `s_find_dim` does not terminate for degree 0; `to_spmat` of an empty matrix is undefined behaviour (C26); `Quad.__init__` does not compare the number of node lists with the dimension.
22. `tensorize_at`, on by default: a function declared with fewer directions than the quadrature gives a series in these directions only (C68); a quadrature whose factor is a sum raises ValueError, for `integrate` too, which does not use the factor; the terms of a sum raise ValueError when the products of the parts of the factor do not compare equal; where the factor is 0, each part divides by the small number.
23. `Varf.tensorize` and `v * w` accept forms that share directions (C69). The dict of matrices keeps one matrix per set of directions, while `Position.tensorize` removes the shared directions: the result can be a form of degree 3 in direction 1 from two forms of degree 1 in directions 0, 1 and 0, or the process exits.
24. `Quad.varf` ignores coefficients under 1e-12 times the norm (or 1e-12), so it drops a function like `1e-13 * x`; with `tensorize` the constant coefficient is split off first and the term is kept (C70). A function declared in fewer directions than the quadrature is sampled with the coordinates of the first directions of the quadrature without `tensorize`, and with its own with `tensorize`.
25. `Triangle_iterator::s_find_dim` with degree 0 and more than one polynomial loops for ever instead of reporting an error (C73).
26. `Function.ccode` replaces the prefix of a name: in a function of x1 a parameter x10 becomes `v[0]0`, which is not C++ (C74).
27. `Operator.__call__` does not compare the directions of two operators, unlike `+`, `-`, `*` and `map`: the composition of an operator in x1 with one in x0 gives an operator with directions [0] whose coefficients contain x1 (C76).
28. `Quad.integrate` with a Hermite direction is undefined behaviour: it is a transform of degree 0, which writes the polynomial of degree 1 past the end of its buffer (C79, from C29).
29. `Quad.fourier(n, position=p)` without `dirs` and `bounds` takes the dimension 1 instead of that of the position, so that the nodes do not fit (C80).
30. `Quad.fourier(n, bounds).integrate(1)` is (2 pi)^dim, not the volume of the box (C80).
31. `Quad.norm` with n other than 1 and 2 returns None without an error (C79); `Quad.newton_cotes` with one point divides by zero (C82).
32. `Generalized_Langevin.backward` raises for a singular matrix A (for example A11 = A12 = 0, or alpha = 0) although the inverse is only used to print an effective friction (C85).
33. `CompQuad.transform` always raises TypeError: the sum starts at the int 0 and `Series` has no `__radd__`. `CompQuad.varfd` and `CompQuad.discretize_op` always raise TypeError (the arguments do not bind) and `CompQuad.project` NameError (C88).
34. `CompQuad.__eq__` ignores the weights: composite quadratures that are equal integrate differently (C88).
35. `Varf.project` reads `self.dirs`, an attribute no Varf has, and raises AttributeError for every list of directions (C89).
36. `Varf.solve(use_gmres=True)` without `preconditioner='ilu'` reads the unassigned variable `M` and raises UnboundLocalError, for every form and right-hand side (C90).
37. `Varf.solve(use_gmres=True)` ignores gmres's convergence flag: an iterate that is not a solution is returned as the solution (C90).
38. `Position.weight` normalises with (2 pi)^dim instead of (2 pi)^(number of Hermite directions): for a position with Fourier directions it is not the product of `weights()` (C92).
39. `Series.__eq__` does not compare index sets: series over different sets with equally many coefficients can be equal (triangle of degree 7 and cube of degree 5 in two dimensions) (C91).
40. `Series.__eq__` broadcasts: the series of degree 0 with coefficient 1 equals the series of degree 1 with coefficients 1, 1, 1 (C91).
41. `Varf.__eq__` ignores the factor (and the index set) (C91).
42. `Quad.plot` with an axes object in three or more dimensions computes everything and then raises UnboundLocalError, because `plot` is only assigned in one and two dimensions (C93_dimension_refuted). A Series with an array as `factor` raises UnboundLocalError too: the array case is skipped by `elif not isinstance(factor, np.ndarray)` and `solution` is never assigned (C93_factor_refuted).
43. `Quad.streamlines` accepts expressions and Functions but never draws them: it assigns `fx, fy = self.discretize(fx), ...` and then uses `sx`, `sy`, which are only assigned for Series; an array as factor has the same effect (C94_functions_refuted). It calls `self.project(i)` with the position of the direction instead of the direction, so it raises for every quadrature whose directions are not 0 and 1 (C94_directions_refuted). For a flow at rest all ten levels are equal (C94_levels), which matplotlib rejects.
44. `core.tensorize(..., sparse=True)` on vectors always raises `Boost.Python.ArgumentError`, because `tensorize_sp` is registered for matrices only (C95_sparse_vectors_refuted).
45. An unknown index set raises `ValueError` in the enumeration functions but ends the Python process (`exit(1)` in C++) in `tensorize` and `project` (C95_unknown_set_refuted).
46. `core.tensorize` of a dictionary lists the directions of a frozenset in CPython's hash order; from direction 8 on this is not the increasing order the C++ code needs, e.g. `frozenset({1, 8})` is listed as 8, 1, and the product has its directions exchanged (C95_large_directions_refuted). Not reachable through `Quad`, whose directions are below 5 (C96). `project` of a csr matrix with duplicate entries keeps the last one although `tensorize` adds them (C95_duplicates_refuted). The size methods of `boost_mat` are bound to those of `spmat` (module.cpp:75-76).
47. A Position can have any directions, but Functions exist in the directions 0 to 4 only: with a direction of 5 or more the constructor raises IndexError, also when the expression does not read it (C96_directions_refuted). Directions given twice (`dirs=[0, 0]`) are accepted.
48. `Function.sanitize` drops terms whose decimal coefficient is below 1/(2 max_denom), 5e-9 by default, although its own threshold for zero is 1e-14 (C97_drops, C97_relative_refuted).
49. The comparison of a recomputed sparse matrix with the stored one looks at the stored numbers only (`la.norm(u.data - v.data, 2)`), so a matrix with the same numbers in other places, or of another size, is accepted (C98_sparse_refuted); vectors of different lengths are accepted when one of them has length 1 and NumPy broadcasts it (C98_shapes_refuted). Before it raises ValueError the code calls `pdb.set_trace()`, which stops a batch job.
50. On a rectangular index set (the first direction up to the degree, the others up to half of it), projecting a series on directions without the first one and changing its degree do not commute: project then subdegree keeps coefficients that subdegree then project replaces by 0 (C99_rectangle_refuted).
51. The matrix that varf makes of a positive function on the hyperbolic cross can be indefinite: for f = 1 on one node at the origin, degree 1, dimension 2, it has the diagonal entry -1 (C100_cross_refuted, from the failure recorded as C37).
52. `hermipy.core.varfd` of a view with strides, such as the first columns of a wider array, succeeds and returns the derivative of another matrix (C102, from C27). `hermipy.core.integrate` with its default of do_fourier is undefined behaviour for every argument (C102, from C29).
53. `solve_gaussian` takes the first solution of the system and checks neither that the precision matrix is positive definite nor that its determinant is positive: it can return an exponential that grows (C103_density_refuted: -2f - x f_x - y f_y + f_xx + f_yy gives exp((x^2+y^2)/2)/(2 pi)) and prints nothing, since the equation does hold; if the test at its end fails it prints a message and returns the wrong function all the same. With no variable, or more than three, it raises UnboundLocalError; if there is no solution, IndexError.
54. `Quad.mapped_nodes` never returns (C104_mapped_nodes_refuted): it discretizes the texts 'x_0', 'x_1', ..., but the coordinates are named x0, x1, ... (or x, y, ...), so that the C++ text contains an undeclared name, does not compile, and the null function is called (C44); for a quadrature of dimension 0 np.vstack raises ValueError.
55. `Varf.plot` takes the absolute value of the entries of a dense form but not of those of a sparse one (C105_same_refuted), and hands both to LogNorm, which has no colour for what is not positive; the horizontal axis is the row and the vertical one the column. The remark in the code that the lines only work for the cube and the triangle is too cautious about the rectangle (C105_lines) and right about the crosses (C105_lines_refuted). `Series.plot` raises UnboundLocalError when it is given axes in more than two dimensions (C105_series_raises).
56. `Series(coeffs, ..., significant=n)` rounds the array that the caller gave, in place, and so every other series that shares it, even if the constructor then raises (C106_rounds). `Quad.plot(series)` replaces the coefficients of a complex series by their real parts for good (C106_plot). `Series.subdegree` to a degree that is not higher returns a view, to a higher degree a copy (C106_subdegree_shares, C106_fresh); `Series.tensorize([f])` is `f` itself; a series shares its array or not depending on whether the array is contiguous (C106_new_shares). `series + 1` adds 1 to every coefficient, not the function 1 (C106_calls).
57. The debug build: `check_dims` indexes a vector<bool> with directions that it has not compared with the dimension, so directions such as 1 and 3, which the release build handles, are undefined behaviour there (C107_check_dims_undefined, C107_same_refuted); the numbers of columns are not checked (C107_columns_refuted). The assertions of tensorize.cpp are in no build: `CMAKE_CXX_FLAGS_DEBUG` starts with the release flags, which contain -DNDEBUG, and one group is under `#ifdef DEGUB`. The release build computes something for repeated directions (C107_release_unchecked).
58. Products of positions: a direction of both factors disappears (`p * p` has no directions), the types of the disappearing directions are not compared, so that the product does not associate (C108_associates_refuted), and `p * q * r` differs from `Position.tensorize([p, q, r])`, which raises when a direction is in all three (C108_list_refuted). Quadratures with a common direction cannot be multiplied, even equal ones (C108_quads_shared).
59. `operator*(mat, mat)` and `operator*(mat, vec)` (templates.cpp:25-45) run every loop up to the number of rows of the first matrix: the product of a 2x3 and a 3x2 matrix silently ignores the third column and row (C110_product_refuted), that of a 3x2 and a 2x3 matrix reads out of range. `printVec` reads the first element of an empty vector, `naive_convert` the first row of an empty matrix.
60. Two processes that compute the same cached result at the same time write the same file without a lock or a rename. When the second one truncates it while the first one is writing, the file has zeros where the first one had already written, with the right length, and a third call that reads it then returns a wrong result without an exception (C111_race_refuted). It is right again when the last of them has ended (C111_settles).
61. os.path.exists and os.makedirs are two steps: of two first calls at the same time one may raise FileExistsError (C111_directory_refuted).
62. The wrapper catches ValueError only. A truncated .npz raises zipfile.BadZipFile and, depending on the version of numpy, an empty .npy raises OSError or EOFError: after a process was killed in save at such a point every later call with these arguments raises, until somebody deletes the file (C111_stuck). When an incomplete file does raise ValueError it is written again (C111_repaired).
63. `Generalized_Langevin.params` offers no way to the usual Langevin equation that `backward` supports (`n_extra = 0` fails the assertion), and a friction `γ` added to a dictionary with `α` or `A11` is silently ignored (C113_friction_ignored).
64. After an exception inside a decorated function that the caller catches (for example the `ValueError` of `core.iterator_size` for an unknown index set), `indent` stays too large: for the rest of the session the trail shows every call as if it were made by the function that raised, whatever the program (C114_trail_refuted).
65. The operators are not symmetric: `series + 1` adds 1 to every coefficient but `1 + series` raises TypeError (no `__radd__`), so `sum(list_of_series)` always raises (C115_sum_series_refuted, C115_commutes_refuted), while `1 + varf` and `sum(list_of_varfs)` work; `1 - varf` raises although `varf - 1` and `1 + (-varf)` do not; a series can be divided by a number, a form cannot (C115_expressions).
66. `tensorize_at` looks for `tensorize` and `sparse` among the keywords only: `quad.integrate(f, False, True)` ignores the request to tensorize (C116_tensorize_refuted), `quad.varf(f, degree, True)` returns a dense form when the computation is tensorized over several groups of variables and the setting is dense (C116_sparse_refuted), and `quad.transform(function=f, degree=3)` raises IndexError (C116_function_keyword_refuted).
67. McKean_Vlasov.equation with a Vy that is a given function always runs into undefined behaviour: its first step is Quad.integrate with a Gauss-Hermite quadrature, which writes past its buffers (C117_undefined, C117_equation). If this were repaired, a number below 5e-9, as for the potential K y^2/2 with K above 14143, would be replaced by the fraction 0, and the coefficient of the noise by the root of a division by 0 (C117_rational). For the potential 5 y^2/2 the density is the Gaussian of the code, and the first row of the matrix is zero in exact arithmetic (C117_system with V' = 5 y): the linear system is singular.
68. hash_multi_ind, which no other function calls, computes modulo 2^32: in dimension 33 the multi-index with the single entry 1 in the last direction has the key of the zero multi-index for the degree 1 (C118_hash_refuted). For the largest int as the degree, degree + 1 overflows, which is undefined behaviour.
69. core.triple_products accepts ints from 2^30 to 2^31 - 1 and from -2^31 to -2^30 - 1, for which 2 * degree + 1 overflows an int, which is undefined behaviour; negative degrees from -2^30 raise RuntimeError because a vector of negative size is asked for; core.triple_products_fourier ends the process for odd degrees (C119_hermite, C119_fourier).

## 7. Mutation testing

`seeded/LOG.jsonl` has one line for each edit of the model that was tried in a scratch copy: the definition, the edit, the claim it breaks, the theorems that failed, and the theorems that were tightened because of it.
