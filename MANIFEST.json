{
 "claims": [
  {
   "property": "C01",
   "status": "proved",
   "theorems": [
    "C01_triangle_complete"
   ],
   "note": "Size above 2^32 is undefined behaviour in the code (double to unsigned); stated in the theorem."
  },
  {
   "property": "C02",
   "status": "proved",
   "theorems": [
    "C02_cube_complete"
   ],
   "note": "As C01."
  },
  {
   "property": "C03",
   "status": "proved",
   "theorems": [
    "C03_rectangle_complete"
   ],
   "note": "The size is computed modulo 2^32; stated in the theorem."
  },
  {
   "property": "C04",
   "status": "proved",
   "theorems": [
    "C04_cross_complete"
   ],
   "note": "Includes degree 0 (same as degree 1)."
  },
  {
   "property": "C05",
   "status": "proved",
   "theorems": [
    "C05_cross_nc_complete",
    "C05_cross_nc_overflow_refuted"
   ],
   "note": "Under the no-overflow hypothesis of the property; without it the statement is refuted (dim 2, degree 2^17-1)."
  },
  {
   "property": "C06",
   "status": "proved",
   "theorems": [
    "C06_cross_nc_prefix_refuted",
    "C06_prefix"
   ],
   "note": "For cross_nc the prefix property is refuted, as the property says."
  },
  {
   "property": "C07",
   "status": "proved",
   "theorems": [
    "C07_triangle_index"
   ],
   "note": "For positions below 2^32."
  },
  {
   "property": "C08",
   "status": "proved",
   "theorems": [
    "C08_cube_index",
    "C08_cube_index_zero_refuted"
   ],
   "note": "The zero vector is undefined behaviour, in every dimension."
  },
  {
   "property": "C09",
   "status": "proved",
   "theorems": [
    "C09_hash_injective",
    "C09_lookup"
   ],
   "note": ""
  },
  {
   "property": "C10",
   "status": "proved",
   "theorems": [
    "C10_iteration_protocol"
   ],
   "note": "Any history of increments and resets."
  },
  {
   "property": "C11",
   "status": "proved",
   "theorems": [
    "C11_degree_recovery",
    "C11_degree_recovery_any_dim"
   ],
   "note": "Degrees 0 and 1 of the crosses are the same set; the recovered degree is given exactly."
  },
  {
   "property": "C12",
   "status": "proved",
   "theorems": [
    "C12_bisection_complete",
    "C12_bisection_total"
   ],
   "note": ""
  },
  {
   "property": "C13",
   "status": "proved",
   "theorems": [
    "C13_get_degree_rectangle_refuted",
    "C13_get_degree_refuted"
   ],
   "note": "The property is false of the code: refuted for every n in every dimension >= 5 (triangle, cube) and by a witness (rectangle)."
  },
  {
   "property": "C14",
   "status": "proved",
   "theorems": [
    "C14_grid"
   ],
   "note": ""
  },
  {
   "property": "C15",
   "status": "proved",
   "theorems": [
    "C15_no_overflow"
   ],
   "note": "Separate model with explicit modulo-M arithmetic, proved equal to the unbounded one."
  },
  {
   "property": "C16",
   "status": "proved",
   "theorems": [
    "C16_project_vec",
    "C16_unordered_dirs_refuted"
   ],
   "note": "Holds for any arithmetic. Extra: with directions out of order the call throws on a rectangle."
  },
  {
   "property": "C17",
   "status": "proved",
   "theorems": [
    "C17_project_mat",
    "C17_project_spmat"
   ],
   "note": "Dense and sparse."
  },
  {
   "property": "C18",
   "status": "proved",
   "theorems": [
    "C18_project_compose"
   ],
   "note": "Every index set."
  },
  {
   "property": "C19",
   "status": "proved",
   "theorems": [
    "C19_tensorize_axes",
    "C19_tensorize_vectors"
   ],
   "note": "Any arithmetic, any argument order; axes version included."
  },
  {
   "property": "C20",
   "status": "proved",
   "theorems": [
    "C20_tensorize_mats",
    "C20_tensorize_spmats"
   ],
   "note": "Exact arithmetic (num_laws)."
  },
  {
   "property": "C21",
   "status": "proved",
   "theorems": [
    "C21_tensorize_matrices_any_order",
    "C21_tensorize_vectors_any_order"
   ],
   "note": "Exact arithmetic."
  },
  {
   "property": "C22",
   "status": "proved",
   "theorems": [
    "C22_project_tensorize",
    "C22_rectangle_refuted"
   ],
   "note": "On rectangles direction 0 must be among the projected ones; refuted otherwise."
  },
  {
   "property": "C23",
   "status": "proved",
   "theorems": [
    "C23_matrix_with_identity",
    "C23_vector_with_constants"
   ],
   "note": ""
  },
  {
   "property": "C24",
   "status": "proved",
   "theorems": [
    "C24_inner_contracts",
    "C24_nothing_missed"
   ],
   "note": ""
  },
  {
   "property": "C25",
   "status": "proved",
   "theorems": [
    "C25_inner_agrees_with_tensorize",
    "C25_inner_dot",
    "C25_inner_is_tensor_product",
    "C25_inner_linear",
    "C25_inner_symmetric"
   ],
   "note": ""
  },
  {
   "property": "C26",
   "status": "proved",
   "theorems": [
    "C26_csr_duplicates_refuted",
    "C26_dense_sparse_dense",
    "C26_empty_matrix_undefined",
    "C26_from_csr",
    "C26_full",
    "C26_row_col_val"
   ],
   "note": "Duplicate CSR entries: refuted; empty dense matrix: undefined behaviour."
  },
  {
   "property": "C27",
   "status": "proved",
   "theorems": [
    "C27_boost_formula",
    "C27_boost_nonsquare_refuted",
    "C27_boost_overrun",
    "C27_column_stride",
    "C27_contiguous",
    "C27_dimension",
    "C27_roundtrip",
    "C27_strided_refuted",
    "C27_to_bmat_formula",
    "C27_to_mat_formula",
    "C27_to_mat_overrun"
   ],
   "note": "Holds for C-contiguous arrays. The property is false of the code for non-square arrays (to_boost_mat) and for views with a larger row stride: refuted with witnesses, the value computed is given, and so are the cases that read out of bounds."
  },
  {
   "property": "C28",
   "status": "proved",
   "theorems": [
    "C28_hermite_eval"
   ],
   "note": "Over the reals; entries beyond the degree are unchanged."
  },
  {
   "property": "C29",
   "status": "proved",
   "theorems": [
    "C29_integrate_fourier",
    "C29_integrate_refuted"
   ],
   "note": "The property is false of the code: every call with a node in a Hermite direction is undefined behaviour, in any arithmetic. The remaining calls (Fourier directions only) are proved to return the quadrature sum."
  },
  {
   "property": "C30",
   "status": "proved",
   "theorems": [
    "C30_triple_products"
   ],
   "note": "Over the reals; includes memory safety, symmetry and the support of the table."
  },
  {
   "property": "C31",
   "status": "proved",
   "theorems": [
    "C31_odd",
    "C31_triple_fourier"
   ],
   "note": "Over the reals."
  },
  {
   "property": "C32",
   "status": "proved",
   "theorems": [
    "C32_backward",
    "C32_forward"
   ],
   "note": "Over the reals; degree >= 1 for Hermite directions and even for Fourier ones (flags_ok)."
  },
  {
   "property": "C33",
   "status": "proved",
   "theorems": [
    "C33_transform_inverts_eval"
   ],
   "note": "Over the reals."
  },
  {
   "property": "C34",
   "status": "proved",
   "theorems": [
    "C34_fourier_exact",
    "C34_fourier_inverts"
   ],
   "note": "Over the reals; each direction may have its own number of points."
  },
  {
   "property": "C35",
   "status": "proved",
   "theorems": [
    "C35_transform",
    "C35_varf"
   ],
   "note": "Over the reals. For varf the equality needs that varf drops no coefficient (C38 bounds what dropping does) and a set closed under products (C36, C37, C62)."
  },
  {
   "property": "C36",
   "status": "proved",
   "theorems": [
    "C36_varf_galerkin"
   ],
   "note": "Over the reals; equality when no nonzero coefficient is dropped, C38 otherwise. Also covers Fourier directions on the cube, in one dimension, and on rectangles where they are first or the degree is a multiple of 4."
  },
  {
   "property": "C37",
   "status": "proved",
   "theorems": [
    "C37_cross_refuted",
    "C37_cross_witness",
    "C37_varf_formula"
   ],
   "note": "The property is false of the code: C37_cross_refuted. C37_varf_formula says what varf computes on every set."
  },
  {
   "property": "C38",
   "status": "proved",
   "theorems": [
    "C38_varf_bound"
   ],
   "note": "Over the reals."
  },
  {
   "property": "C39",
   "status": "proved",
   "theorems": [
    "C39_C40_varfd_composes",
    "C39_hermite_derivative",
    "C39_varfd_hermite"
   ],
   "note": "For every set, dimension, degree, direction and matrix over the reals, dense and sparse, with the composition with a partial derivative."
  },
  {
   "property": "C40",
   "status": "proved",
   "theorems": [
    "C40_cube",
    "C40_triangle_throws",
    "C40_unpaired_throws",
    "C40_varfd_fourier"
   ],
   "note": "Formula for every set that contains the cosine of each sine; never throws on the cube of even degree; throws on every triangle of dimension at least 2 (the generic code lacks a membership test)."
  },
  {
   "property": "C41",
   "status": "proved",
   "theorems": [
    "C41_dense_fourier",
    "C41_fourier_refuted",
    "C41_fourier_witness",
    "C41_overloads_hermite"
   ],
   "note": "Holds for Hermite directions. The property is false of the code for Fourier directions: refuted with a witness, and the value the dense overload computes is given."
  },
  {
   "property": "C42",
   "status": "proved",
   "theorems": [
    "C42_varfd_commute"
   ],
   "note": "Any mix of Hermite and Fourier directions (for the latter on sets where varfd does not throw)."
  },
  {
   "property": "C43",
   "status": "proved",
   "theorems": [
    "C43_discretize",
    "C43_discretize_R"
   ],
   "note": "For any number type, so rounding included, and specialised to the reals."
  },
  {
   "property": "C44",
   "status": "proved",
   "theorems": [
    "C44_collision_refuted",
    "C44_crash_refuted",
    "C44_overlap_refuted",
    "C44_returns",
    "C44_right",
    "C44_sequential",
    "C44_uncompilable",
    "C44_unfinished_for_ever"
   ],
   "note": "C44_right and C44_sequential prove the property under the conditions its statement names (no colliding hashes, no crash while linking, no overlapping first use). C44_collision_refuted, C44_crash_refuted and C44_overlap_refuted show that the code needs each condition; C44_unfinished_for_ever shows that a crash in the linker is permanent; C44_uncompilable: a body that does not compile is undefined behaviour."
  },
  {
   "property": "C45",
   "status": "proved",
   "theorems": [
    "C45_nondiagonal_raises",
    "C45_project",
    "C45_project_raises",
    "C45_tensorize",
    "C45_tensorize_raises",
    "C45_types_not_compared"
   ],
   "note": "Model of Position.tensorize and Position.project; the spectral-norm test of a diagonal covariance is an arbitrary function that is false of diagonal matrices. Types of a shared direction are not compared (C45_types_not_compared)."
  },
  {
   "property": "C46",
   "status": "proved",
   "theorems": [
    "C46_cross_nc_raises",
    "C46_subdegree"
   ],
   "note": "For dimensions and index sets in the domain of degree recovery; degree <= 250."
  },
  {
   "property": "C47",
   "status": "proved",
   "theorems": [
    "C47_cross_nc_refuted",
    "C47_high_raises",
    "C47_subdegree"
   ],
   "note": "The property is false of the code for cross_nc, which subdegree accepts: C47_cross_nc_refuted. For every other index set it is proved."
  },
  {
   "property": "C48",
   "status": "proved",
   "theorems": [
    "C48_degree0_raises",
    "C48_guard_refuted",
    "C48_series",
    "C48_series_raises",
    "C48_varf",
    "C48_varf_degree0_raises"
   ],
   "note": "The property is false of the code at degree 0, where the guard lets through indices that are out of range (IndexError): C48_guard_refuted, C48_degree0_raises. Everywhere else it is proved."
  },
  {
   "property": "C49",
   "status": "proved",
   "theorems": [
    "C49_factor_refuted"
   ],
   "note": "The property is false of the code: Series.to_cross resets the factor to 1 (C49_factor_refuted, C48_series). Varf.to_cross keeps it (C48_varf)."
  },
  {
   "property": "C50",
   "status": "proved",
   "theorems": [
    "C50_accepts",
    "C50_dim0",
    "C50_dim0_refuted",
    "C50_fields",
    "C50_rejects_cross",
    "C50_rejects_exit"
   ],
   "note": "The property is false of the code for a position without directions, where any number of coefficients is accepted. Other numbers of coefficients do not raise: the process exits, or an out-of-range read happens for the cross."
  },
  {
   "property": "C51",
   "status": "proved",
   "theorems": [
    "C51_finest_common",
    "C51_order_irrelevant"
   ],
   "note": "For every order in which Python may enumerate its sets, the function terminates and returns the finest partition both arguments refine; two orders give the same blocks."
  },
  {
   "property": "C52",
   "status": "proved",
   "theorems": [
    "C52_legacy",
    "C52_legacy_inseparable",
    "C52_split"
   ],
   "note": "sympy enters through the assumptions of sympy_ok (SplitSpec.v): products, sums and free variables. Also proved: the groups are the finest possible, and the legacy mode."
  },
  {
   "property": "C53",
   "status": "proved",
   "theorems": [
    "C53_product",
    "C53_project",
    "C53_raises",
    "C53_refuted",
    "C53_sum_raises"
   ],
   "note": "The property is false of the code: C53_refuted. True version: without a straddling factor the projection is the product of the inner factors and the projections on complementary directions multiply to the function (C53_project, C53_product); sums and factors around the directions raise."
  },
  {
   "property": "C54",
   "status": "proved",
   "theorems": [
    "C54_raises",
    "C54_split"
   ],
   "note": "Over any commutative ring of coefficients; sympy's expand, subs, doit, diff and simplify are assumed correct (sympy_lin), the order limit of the code (5) is a hypothesis and exceeding it raises."
  },
  {
   "property": "C55",
   "status": "proved",
   "theorems": [
    "C55_no_write",
    "C55_once",
    "C55_refuted",
    "C55_sparse_lost",
    "C55_transparent",
    "C55_unreadable"
   ],
   "note": "The property is false of the code for cache files whose loading raises something else than ValueError (C55_refuted, C55_unreadable); for every other history it holds (C55_transparent)."
  },
  {
   "property": "C56",
   "status": "proved",
   "theorems": [
    "C56_injective",
    "C56_refuted"
   ],
   "note": "The property is false of the code: see C56_refuted for the colliding arguments. C56_injective is the strongest version proved. Floats, dicts and frozensets are not modelled."
  },
  {
   "property": "C57",
   "status": "proved",
   "theorems": [
    "C57_balanced",
    "C57_counters",
    "C57_indent",
    "C57_refuted"
   ],
   "note": "The property is false of the code when an exception escapes a logged function (C57_refuted); the exact value of the indentation and of the counters is given for every execution."
  },
  {
   "property": "C58",
   "status": "proved",
   "theorems": [
    "C58_bordered",
    "C58_keep",
    "C58_kernel",
    "C58_left_kernel",
    "C58_raises",
    "C58_remove0"
   ],
   "note": "Varf.solve with use_gmres=False; the linear solver is an oracle whose answers are assumed to be solutions; the eigenvector used by remove0 is an oracle."
  },
  {
   "property": "C59",
   "status": "proved",
   "theorems": [
    "C59_refuted",
    "C59_unit_variances",
    "C59_values"
   ],
   "note": "The property is false of the code: with a variance other than 1 to_function differs from Quad.eval. What it computes is proved, and the agreement for unit variances, Hermite directions and factor 1."
  },
  {
   "property": "C60",
   "status": "proved",
   "theorems": [
    "C60_add",
    "C60_add_raises",
    "C60_broadcast",
    "C60_call",
    "C60_call_add",
    "C60_call_factor_refuted",
    "C60_call_raises",
    "C60_call_scale",
    "C60_degrees_refuted",
    "C60_scale",
    "C60_sub",
    "C60_varf_add",
    "C60_varf_add_raises",
    "C60_varf_scale"
   ],
   "note": "False of the code in one point: a series with one coefficient is broadcast instead of rejected (C60_degrees_refuted), and __call__ ignores the factor of the series. The vector space laws follow from the coefficient-wise equations."
  },
  {
   "property": "C61",
   "status": "proved",
   "theorems": [
    "C61_straddling_refuted",
    "C61_tensorize_projections"
   ],
   "note": "Proved for factors that are one product without straddling factors; the unconditional claim is refuted (the factor is lost silently). A factor that is a sum makes Quad.project raise ValueError."
  },
  {
   "property": "C62",
   "status": "proved",
   "theorems": [
    "C62_triangle_fourier_refuted",
    "C62_triangle_fourier_witness"
   ],
   "note": "The property is false of the code: refuted by a triangle of degree 2 with one Fourier and one Hermite direction."
  },
  {
   "property": "C63",
   "status": "proved",
   "theorems": [
    "C63_init_accepts",
    "C63_init_fields",
    "C63_no_dimension"
   ],
   "note": "Includes that mean or cov alone raises TypeError or ValueError."
  },
  {
   "property": "C64",
   "status": "proved",
   "theorems": [
    "C64_commutes",
    "C64_float",
    "C64_mul",
    "C64_raises",
    "C64_scalar"
   ],
   "note": "sympy operations are oracles; num is any commutative ring. A factor that is a sum is refused even if no direction is shared (C64_raises)."
  },
  {
   "property": "C65",
   "status": "proved",
   "theorems": [
    "C65_discretize",
    "C65_eval",
    "C65_types_refuted"
   ],
   "note": "For quadratures with diagonal covariance and the real-number reading of doubles; NumPy/SciPy on diagonal matrices are assumptions (numpy_ok). Evaluating a series of other types than the quadrature's is refuted: the types of the series are ignored."
  },
  {
   "property": "C66",
   "status": "proved",
   "theorems": [
    "C66_transform",
    "C66_transform_eval"
   ],
   "note": "As C65; the round trip needs exact rules and a factor without zeros on the grid. For cross_nc the recorded degree may differ (C50)."
  },
  {
   "property": "C67",
   "status": "proved",
   "theorems": [
    "C67_discretize_op",
    "C67_varfd"
   ],
   "note": "With tensorize=False and dense matrices. sympy, NumPy's eigenvalues (of diagonal matrices) and Operator.map are oracles with the specifications in OpSpec.v and OpQuadSpec.v (maps). C77 proves the assumption on Operator.map for the modelled code."
  },
  {
   "property": "C68",
   "status": "proved",
   "theorems": [
    "C68_direct_position",
    "C68_position_refuted",
    "C68_sum_factor_raises",
    "C68_transform",
    "C68_transform_ok"
   ],
   "note": "The part \"same result\" is proved with ValueError as an explicit alternative; C68_transform_ok excludes it. False of the code for functions declared with fewer directions than the quadrature (C68_position_refuted); with a factor that is a sum the call always raises ValueError (C68_sum_factor_raises)."
  },
  {
   "property": "C69",
   "status": "proved",
   "theorems": [
    "C69_mul",
    "C69_shared_refuted",
    "C69_tensorize"
   ],
   "note": "For any number of forms in disjoint groups of directions. Forms that share directions: refuted (the product can have the wrong degree and directions)."
  },
  {
   "property": "C70",
   "status": "proved",
   "theorems": [
    "C70_entries",
    "C70_small_refuted",
    "C70_sum_factor",
    "C70_varf",
    "C70_varf_ok"
   ],
   "note": "Given that no coefficient is under the threshold of varf; without this hypothesis the equality is refuted (the direct form drops small terms, the tensorized one keeps them), and the entries of the tensorized form are proved to be the Galerkin matrix."
  },
  {
   "property": "C71",
   "status": "proved",
   "theorems": [
    "C71_entries",
    "C71_sum_factor",
    "C71_varfd",
    "C71_varfd_ok"
   ],
   "note": "Given that no coefficient is under the threshold of varf, as in C70."
  },
  {
   "property": "C72",
   "status": "proved",
   "theorems": [
    "C72_discretize_op",
    "C72_discretize_op_ok",
    "C72_entries"
   ],
   "note": "Given that no coefficient is under the threshold of varf, as in C70; Operator.map is assumed to give the operator f -> L(w f)/w, as in C67. C77 proves the assumption on Operator.map for the modelled code."
  },
  {
   "property": "C73",
   "status": "proved",
   "theorems": [
    "C73_degree0_loops",
    "C73_found",
    "C73_not_found"
   ],
   "note": "The loop for degree 0 is proved not to return: the property is false for degree 0."
  },
  {
   "property": "C74",
   "status": "proved",
   "theorems": [
    "C74_ccode",
    "C74_parts",
    "C74_prefix_refuted"
   ],
   "note": "Given that no other name in the text begins with the variable of a direction; C74_prefix_refuted shows that the condition is needed."
  },
  {
   "property": "C75",
   "status": "proved",
   "theorems": [
    "C75_add",
    "C75_directions",
    "C75_mul",
    "C75_neg",
    "C75_sub"
   ],
   "note": ""
  },
  {
   "property": "C76",
   "status": "proved",
   "theorems": [
    "C76_apply",
    "C76_compose",
    "C76_directions_refuted"
   ],
   "note": "Composition is proved for operators on the same variables; C76_directions_refuted shows that other operators are not rejected."
  },
  {
   "property": "C77",
   "status": "proved",
   "theorems": [
    "C77_discretize_op",
    "C77_map"
   ],
   "note": "The factor has no singularities (its derivatives by sympy are right at all points). The order is limited to 5 as in Operator.split."
  },
  {
   "property": "C78",
   "status": "proved",
   "theorems": [
    "C78_arith",
    "C78_directions",
    "C78_tensorize"
   ],
   "note": ""
  },
  {
   "property": "C79",
   "status": "proved",
   "theorems": [
    "C79_hermite",
    "C79_integrate",
    "C79_norm",
    "C79_parseval",
    "C79_tensorize"
   ],
   "note": "Position.weight is 1 without Hermite directions; its density is an arbitrary expression otherwise, as those integrals are undefined behaviour (C79_hermite)."
  },
  {
   "property": "C80",
   "status": "proved",
   "theorems": [
    "C80_counts",
    "C80_integrate",
    "C80_inverts",
    "C80_lengths",
    "C80_made",
    "C80_norm",
    "C80_position_refuted",
    "C80_ragged"
   ],
   "note": "C80_position_refuted: with position= and a single n the quadrature has one list of nodes."
  },
  {
   "property": "C81",
   "status": "proved",
   "theorems": [
    "C81_inverts",
    "C81_made",
    "C81_ragged",
    "C81_zero"
   ],
   "note": "That hermegauss gives the Gauss rule (moments up to 2n - 1) is a hypothesis, met by the two-point rule in the examples."
  },
  {
   "property": "C82",
   "status": "proved",
   "theorems": [
    "C82_newton",
    "C82_small"
   ],
   "note": "The same number of points in every direction, as the constructor requires."
  },
  {
   "property": "C83",
   "status": "proved",
   "theorems": [
    "C83_fokker_planck",
    "C83_harmonic",
    "C83_langevin",
    "C83_mckean",
    "C83_noise",
    "C83_white"
   ],
   "note": "The coefficient of the noise for a given potential Vy, computed with a quadrature, is an arbitrary number here; its computation is the subject of C117."
  },
  {
   "property": "C84",
   "status": "proved",
   "theorems": [
    "C84_fokker_planck",
    "C84_harmonic",
    "C84_langevin",
    "C84_mckean",
    "C84_white"
   ],
   "note": "Twice differentiable densities: V has two derivatives."
  },
  {
   "property": "C85",
   "status": "proved",
   "theorems": [
    "C85_constant",
    "C85_gle1",
    "C85_gle2",
    "C85_gle_friction",
    "C85_gle_raises",
    "C85_langevin",
    "C85_overdamped",
    "C85_product"
   ],
   "note": "A diffusion is given by its drift and diffusion matrix; stochastic processes are not modelled."
  },
  {
   "property": "C86",
   "status": "proved",
   "theorems": [
    "C86_adjoint",
    "C86_gle1",
    "C86_gle2",
    "C86_gle_friction",
    "C86_langevin",
    "C86_langevin_adjoint",
    "C86_map",
    "C86_mapped",
    "C86_overdamped"
   ],
   "note": "Invariance and adjointness are stated as divergences of explicit fields, without integrals."
  },
  {
   "property": "C87",
   "status": "proved",
   "theorems": [
    "C87_operator",
    "C87_varf"
   ],
   "note": "Exact arithmetic; the numpy and sympy calls are oracles with stated laws. Where the C++ code drops Hermite coefficients below 1e-12 the theorem assumes that nothing is dropped."
  },
  {
   "property": "C88",
   "status": "proved",
   "theorems": [
    "C88_eq_refuted",
    "C88_init",
    "C88_integrate",
    "C88_raises",
    "C88_transform_refuted",
    "C88_varf"
   ],
   "note": "The transform and the equality are refuted (findings 33 and 34); integrals, variational forms and the constructor are proved."
  },
  {
   "property": "C89",
   "status": "proved",
   "theorems": [
    "C89_averages",
    "C89_factor",
    "C89_marginal",
    "C89_missing",
    "C89_order",
    "C89_project",
    "C89_varf_refuted"
   ],
   "note": "The version for variational forms is refuted (finding 35). The statement about the mean is about the expansion in the basis functions, without the factor."
  },
  {
   "property": "C90",
   "status": "proved",
   "theorems": [
    "C90_eigs",
    "C90_gmres",
    "C90_gmres_never",
    "C90_gmres_refuted",
    "C90_gmres_unbound",
    "C90_remove0",
    "C90_remove0_raises"
   ],
   "note": "That gmres gives a solution is refuted (findings 36 and 37); proved for runs that converged. Eigensolver and gmres are oracles: any function that returns eigenpairs, respectively any function."
  },
  {
   "property": "C91",
   "status": "proved",
   "theorems": [
    "C91_broadcast_refuted",
    "C91_factor_refuted",
    "C91_position",
    "C91_quad",
    "C91_reflexive",
    "C91_series",
    "C91_sets_refuted",
    "C91_symmetric",
    "C91_transitive_refuted",
    "C91_varf"
   ],
   "note": "Transitivity, and that equal series or forms have the same coefficients and factors, are refuted (findings 39 to 41); proved for the same index set and degree. The spectral norm is an oracle: any function that is 0 on zero matrices, even, and not smaller than any entry."
  },
  {
   "property": "C92",
   "status": "proved",
   "theorems": [
    "C92_mixed",
    "C92_mixed_refuted",
    "C92_none",
    "C92_weight",
    "C92_weights"
   ],
   "note": "For mixed positions the product formula is refuted (finding 38), with the exact factor proved. Covariance diagonal; the expression is represented by its values."
  },
  {
   "property": "C93",
   "status": "proved",
   "theorems": [
    "C93_array",
    "C93_dimension_refuted",
    "C93_factor_refuted",
    "C93_function",
    "C93_hf",
    "C93_hf_bad",
    "C93_series"
   ],
   "note": "Proved in at most two dimensions. Refuted beyond: on given axes every plot in three or more dimensions raises UnboundLocalError (C93_dimension_refuted), and so does a Series with an array as factor (C93_factor_refuted). The degree of the basis function must be at least 1 in Hermite directions and even in Fourier directions, as for every evaluation (C65). The vertical and horizontal lines of the option bounds, the contour lines and the title are not modelled."
  },
  {
   "property": "C94",
   "status": "proved",
   "theorems": [
    "C94_constant",
    "C94_directions_refuted",
    "C94_functions_refuted",
    "C94_levels",
    "C94_solenoidal",
    "C94_stream"
   ],
   "note": "Proved for flows given as two Series on a quadrature in the directions 0 and 1. Refuted otherwise: two Functions or expressions, or an array as factor, always raise (C94_functions_refuted), and so does every quadrature in directions other than 0 and 1 (C94_directions_refuted)."
  },
  {
   "property": "C95",
   "status": "proved",
   "theorems": [
    "C95_dict_matrices",
    "C95_dict_vectors",
    "C95_duplicates_refuted",
    "C95_inner",
    "C95_large_directions_refuted",
    "C95_list_matrices",
    "C95_list_vectors",
    "C95_numbers",
    "C95_one_matrix",
    "C95_one_vector",
    "C95_project_matrix",
    "C95_project_one",
    "C95_project_vector",
    "C95_small_directions",
    "C95_sparse_vectors_refuted",
    "C95_unknown_set_refuted",
    "C95_wrong_arguments"
   ],
   "note": "Proved for all formats that are accepted. Refuted as stated in four cases: a sparse result for vectors always raises (C95_sparse_vectors_refuted), project of a csr matrix with duplicates keeps the last of them (C95_duplicates_refuted), an unknown index set ends the process (C95_unknown_set_refuted) and a dictionary with directions of 8 and more can give the wrong product (C95_large_directions_refuted). The caching decorator around these functions is modelled in CacheModel.v (C55, C56)."
  },
  {
   "property": "C96",
   "status": "proved",
   "theorems": [
    "C96_accepts",
    "C96_accepts_only",
    "C96_default",
    "C96_depends",
    "C96_dimension",
    "C96_directions_refuted",
    "C96_round_trip",
    "C96_same_constructor",
    "C96_symbols",
    "C96_value",
    "C96_xyz"
   ],
   "note": "SymPy's subs, expand and free_symbols are parameters with the laws listed in FnSpec.v (sympy_laws), instantiated by sample expressions. Refuted for directions of 5 and more, where every Function raises IndexError (C96_directions_refuted)."
  },
  {
   "property": "C97",
   "status": "proved",
   "theorems": [
    "C97_drops",
    "C97_exact",
    "C97_near",
    "C97_relative_refuted"
   ],
   "note": "The error is absolute: coefficients below 1/(2 max_denom) are dropped, so a small relative error is refuted (C97_relative_refuted). Decimal numbers inside functions and powers are left as they are. limit_denominator is assumed to give a closest fraction."
  },
  {
   "property": "C98",
   "status": "proved",
   "theorems": [
    "C98_arrays_differ",
    "C98_arrays_same",
    "C98_call",
    "C98_formats",
    "C98_lengths",
    "C98_numbers",
    "C98_quiet",
    "C98_shapes_refuted",
    "C98_sparse",
    "C98_sparse_refuted"
   ],
   "note": "Proved for numbers, for vectors and matrices of the same shape, for a dense against a sparse result, and for sparse matrices that store the same positions. Refuted otherwise: of sparse matrices only the stored numbers are compared, not their positions (C98_sparse_refuted), and arrays of different shapes are broadcast (C98_shapes_refuted). The largest singular value (numpy.linalg.norm of order 2) is a parameter with two laws."
  },
  {
   "property": "C99",
   "status": "proved",
   "theorems": [
    "C99_degree_back",
    "C99_degree_lower",
    "C99_degree_multiple",
    "C99_degree_sum",
    "C99_degree_twice",
    "C99_project_degree",
    "C99_project_multiple",
    "C99_project_sum",
    "C99_project_twice",
    "C99_rectangle_refuted"
   ],
   "note": "C99_rectangle_refuted: on a rectangular index set, projecting out the first direction and changing the degree do not commute. The theorems compare the directions, the index set, the multi-indices and the coefficients; the factors of the two paths can be different expressions, which is why same_series does not compare them."
  },
  {
   "property": "C100",
   "status": "proved",
   "theorems": [
    "C100_cross_refuted",
    "C100_eigenvalue",
    "C100_form",
    "C100_identity",
    "C100_linear",
    "C100_positive",
    "C100_range",
    "C100_symmetric"
   ],
   "note": "C100_cross_refuted: on the hyperbolic cross the matrix of the function 1, with nonnegative weights, has a negative diagonal entry. The theorems on positivity, eigenvalues and the identity use the hypotheses of C36 (closed_products, nothing_dropped)."
  },
  {
   "property": "C101",
   "status": "proved",
   "theorems": [
    "C101_antisymmetric",
    "C101_by_parts",
    "C101_computed",
    "C101_coordinate",
    "C101_kept",
    "C101_laplacian",
    "C101_number",
    "C101_ornstein_uhlenbeck",
    "C101_ornstein_uhlenbeck_total"
   ],
   "note": "Under the hypotheses of C36 (closed_products, nothing_dropped); C101_kept shows that rules exact up to twice the degree meet nothing_dropped for the functions 1 and x_k. The entries of x_k in the corner where both indices have the full degree, and integration by parts, need the rule to be exact up to degree 2 degree + 1 (one_more), as Gauss rules of degree + 1 points are."
  },
  {
   "property": "C102",
   "status": "proved",
   "theorems": [
    "C102_composed",
    "C102_galerkin",
    "C102_integrate",
    "C102_integrate_refuted",
    "C102_inverse",
    "C102_transform",
    "C102_unknown",
    "C102_varf",
    "C102_varfd",
    "C102_view_refuted"
   ],
   "note": "Proved of transform, varf and varfd on C-contiguous arrays of fewer than 2^31 bytes and csr_matrices without entries stored twice. Refuted of integrate with the default of do_fourier (undefined behaviour, C29) and of varfd on a view with strides (C102_view_refuted: the call succeeds with the entries of another matrix). An unknown name of an index set ends the process (C102_unknown)."
  },
  {
   "property": "C103",
   "status": "proved",
   "theorems": [
    "C103_density_refuted",
    "C103_gaussian",
    "C103_raises",
    "C103_returns"
   ],
   "note": "Proved of second order operators in one to three variables, for any correct symbolic division, polynomial collection and solver, and a positive determinant. That the result is then a density is refuted (C103_density_refuted: an operator of two unstable directions)."
  },
  {
   "property": "C104",
   "status": "proved",
   "theorems": [
    "C104_alone",
    "C104_discretize",
    "C104_mapped_nodes_refuted",
    "C104_uncompiled"
   ],
   "note": "Proved for expressions in the coordinates of the quadrature, any sympy printer that separates names, and any compiler that computes the value of a printed expression. That mapped_nodes returns the mapped nodes is refuted for every quadrature (C104_mapped_nodes_refuted)."
  },
  {
   "property": "C105",
   "status": "proved",
   "theorems": [
    "C105_dense",
    "C105_float",
    "C105_lines",
    "C105_lines_cross",
    "C105_lines_refuted",
    "C105_repr",
    "C105_same",
    "C105_same_refuted",
    "C105_series",
    "C105_series_raises",
    "C105_sparse"
   ],
   "note": "Proved for the data handed to matplotlib. That the lines separate the degrees for every index set is refuted (C105_lines_refuted: the two crosses), and that the pictures of a sparse form and of its dense copy agree is refuted (C105_same_refuted: signs)."
  },
  {
   "property": "C106",
   "status": "proved",
   "theorems": [
    "C106_calls",
    "C106_changes_refuted",
    "C106_contiguous",
    "C106_frame",
    "C106_fresh",
    "C106_harmless",
    "C106_new_shares",
    "C106_own_refuted",
    "C106_plot",
    "C106_rounds",
    "C106_subdegree_shares",
    "C106_tensorize_one"
   ],
   "note": "Proved on a heap of buffers, views and series objects, for every history. That only assignments to elements change a series is refuted (C106_changes_refuted: significant digits, plot) and that the result of an operation owns its coefficients is refuted (C106_own_refuted: subdegree)."
  },
  {
   "property": "C107",
   "status": "proved",
   "theorems": [
    "C107_axes",
    "C107_check_dims",
    "C107_check_dims_undefined",
    "C107_columns_refuted",
    "C107_matrices",
    "C107_release_unchecked",
    "C107_same_refuted",
    "C107_vectors"
   ],
   "note": "Proved for directions below the dimension. Outside, the check reads out of bounds (C107_check_dims_undefined), so that the builds do not agree on directions that the release build accepts (C107_same_refuted); that the checks exclude undefined behaviour is refuted for matrices (C107_columns_refuted: the number of columns)."
  },
  {
   "property": "C108",
   "status": "proved",
   "theorems": [
    "C108_associates",
    "C108_associates_raises_refuted",
    "C108_associates_refuted",
    "C108_commutes",
    "C108_list",
    "C108_list_refuted",
    "C108_neutral",
    "C108_product",
    "C108_quads",
    "C108_quads_associate",
    "C108_quads_commute",
    "C108_quads_points",
    "C108_quads_shared",
    "C108_raises",
    "C108_square"
   ],
   "note": "Proved for positions that agree where they meet. Associativity without that is refuted, both for the result (types are not compared: C108_associates_refuted) and for raising (C108_associates_raises_refuted); that p * q * r is the product of the list is refuted when a direction is in all three (C108_list_refuted)."
  },
  {
   "property": "C109",
   "status": "proved",
   "theorems": [
    "C109_apply",
    "C109_backward",
    "C109_dot",
    "C109_double",
    "C109_double_idempotent",
    "C109_forward",
    "C109_gamma",
    "C109_hermite",
    "C109_inner",
    "C109_integrate",
    "C109_no_rounding",
    "C109_norm",
    "C109_product",
    "C109_project",
    "C109_round_trip",
    "C109_tensorize",
    "C109_tensorize_mats",
    "C109_tensorize_sparse",
    "C109_triple",
    "C109_triple_abs",
    "C109_triple_fourier",
    "C109_varfd",
    "C109_varfd_dense",
    "C109_varfd_sparse"
   ],
   "note": "Rounding with unbounded exponents: overflow, underflow, NaN and the contraction to fused multiply-add are excluded. The accuracy of sqrt, sin, cos and pi is a hypothesis, met by correctly rounded functions (C109_double). Integrate is covered for Fourier axes. The bound for inner assumes that a rounded number is not changed by rounding it again (true of double, C109_double_idempotent)."
  },
  {
   "property": "C110",
   "status": "proved",
   "theorems": [
    "C110_apply",
    "C110_associates",
    "C110_composes",
    "C110_convert",
    "C110_convert_refuted",
    "C110_convert_sparse",
    "C110_difference",
    "C110_dot",
    "C110_dot_symmetric",
    "C110_identity",
    "C110_multiple",
    "C110_norm",
    "C110_norm_dot",
    "C110_norm_matrix_sum",
    "C110_norm_multiple",
    "C110_norm_sum",
    "C110_print",
    "C110_product",
    "C110_product_refuted",
    "C110_sum"
   ],
   "note": "The product of matrices that are not square is refuted as a matrix product (C110_product_refuted), and converting a matrix without rows as defined (C110_convert_refuted)."
  },
  {
   "property": "C111",
   "status": "proved",
   "theorems": [
    "C111_corruption",
    "C111_dense",
    "C111_directory_refuted",
    "C111_one_writer",
    "C111_race_refuted",
    "C111_repaired",
    "C111_settles",
    "C111_stuck"
   ],
   "note": "Proved for one writer at a time with any crashes, and for any number of writers without crashes. Refuted without these: two writers at the same time can make a third call return a wrong result without an exception (C111_race_refuted), two first calls race on os.makedirs (C111_directory_refuted), and a process killed in save leaves a file that makes all later calls raise when reading it raises something else than ValueError, as for .npz (C111_stuck). C111_corruption bounds the damage in every case."
  },
  {
   "property": "C112",
   "status": "proved",
   "theorems": [
    "C112_bessel",
    "C112_best",
    "C112_degree",
    "C112_larger",
    "C112_pythagoras",
    "C112_stable"
   ],
   "note": "In exact arithmetic (C109 bounds the rounding errors)."
  },
  {
   "property": "C113",
   "status": "proved",
   "theorems": [
    "C113_backward",
    "C113_fokker_planck",
    "C113_friction_ignored",
    "C113_generalized",
    "C113_generalized_params",
    "C113_harmonic",
    "C113_mckean",
    "C113_params",
    "C113_white"
   ],
   "note": "The equations themselves are those of C83, C84 and C85. The number that McKean_Vlasov.fluxes computes with a quadrature from a defined Vy is a parameter of this model that may raise; C117 models its computation."
  },
  {
   "property": "C114",
   "status": "proved",
   "theorems": [
    "C114_debug",
    "C114_firsts",
    "C114_print_stats",
    "C114_settings",
    "C114_silent",
    "C114_times",
    "C114_trail",
    "C114_trail_refuted"
   ],
   "note": "The depth of the trail is wrong after a caught exception (C114_trail_refuted, finding 64); the statement holds as given for the other programs. Clock values are integers: the rounding of the sums of durations is not modelled."
  },
  {
   "property": "C115",
   "status": "proved",
   "theorems": [
    "C115_commutes_refuted",
    "C115_expressions",
    "C115_rewriting",
    "C115_sum",
    "C115_sum_series_refuted"
   ],
   "note": "Products of two series or of two forms are the subject of C64 and C69. Division by the number 0 is excluded. Two expected laws are refuted: sum(series) raises, and number + series raises although series + number does not (finding 65)."
  },
  {
   "property": "C116",
   "status": "proved",
   "theorems": [
    "C116_function_keyword_refuted",
    "C116_keywords",
    "C116_positions",
    "C116_sparse",
    "C116_sparse_refuted",
    "C116_tensorize_refuted",
    "C116_unknown"
   ],
   "note": "The expectation that all options may be given by position, and the function by keyword, is refuted (finding 66)."
  },
  {
   "property": "C117",
   "status": "proved",
   "theorems": [
    "C117_equation",
    "C117_factor",
    "C117_matrix",
    "C117_product",
    "C117_rational",
    "C117_repaired",
    "C117_system",
    "C117_undefined"
   ],
   "note": "That the coefficient is computed without undefined behaviour is false of the code: C117_undefined and C117_equation prove undefined behaviour for every such potential (finding 67). C117_repaired is about lines 209-223 with a quadrature of exp(-V) that returns a positive number in place of that integral. C117_matrix, C117_system and C117_repaired suppose a rule that is exact up to the degree, that discretize_op drops no coefficient below its tolerance, and that sympy gives the operator with the factor, as in C67."
  },
  {
   "property": "C118",
   "status": "proved",
   "theorems": [
    "C118_aligned",
    "C118_hash",
    "C118_hash_injective",
    "C118_hash_refuted",
    "C118_project_mat",
    "C118_project_spmat",
    "C118_project_vec",
    "C118_unknown"
   ],
   "note": "That keys are different is false of the code when there are more than 2^32 multi-indices: C118_hash_refuted (finding 68); C118_hash_injective proves it below."
  },
  {
   "property": "C119",
   "status": "proved",
   "theorems": [
    "C119_entries",
    "C119_fourier",
    "C119_fourier_entries",
    "C119_fourier_unique",
    "C119_hermite",
    "C119_unique"
   ],
   "note": "That every other int raises an exception is false of the code: C119_hermite and C119_fourier prove undefined behaviour where 2 * degree + 1 does not fit into an int, and the end of the process for odd degrees of the Fourier basis (finding 69)."
  },
  {
   "property": "C120",
   "status": "proved",
   "theorems": [
    "C120_eval",
    "C120_function",
    "C120_values"
   ],
   "note": "C120_values is about the backward transform on grids of one point, C120_function about the functions, C120_eval about Series and Quad.eval with a factor that vanishes nowhere."
  },
  {
   "property": "C121",
   "status": "proved",
   "theorems": [
    "C121_series",
    "C121_varf"
   ],
   "note": "For dense matrices and subscripts that are ints or pairs of ints; slices and the sparse matrices of scipy are not modelled."
  },
  {
   "property": "C122",
   "status": "proved",
   "theorems": [
    "C122_readable",
    "C122_text"
   ],
   "note": "For unsigned integers; doubles are printed with six digits, so that different ones can be printed alike. That every object can be printed is false of the code: C122_text proves undefined behaviour for empty ones."
  }
 ]
}