{"id": "C01", "title": "Triangle index set is complete and duplicate-free", "statement": "iterator_list_indices(dim, degree, 'triangle') returns every multi-index of length dim whose entries sum to at most degree, each exactly once, and nothing else; iterator_size(dim, degree) is its length.", "quantifier": "every dim >= 1 and every degree", "why_tests_cant": "tests look at dim 2, degree 9; the enumeration is produced by an in-place successor function and must be right for all dims and degrees", "anchors": ["cpp/src/hermite/iterators.cpp: Triangle_iterator::s_increment, Triangle_iterator::Triangle_iterator, s_list, s_size", "hermipy/core.py: iterator_list_indices, iterator_size"]}
{"id": "C02", "title": "Cube index set is complete and duplicate-free", "statement": "iterator_list_indices(dim, degree, 'cube') returns every multi-index of length dim with all entries at most degree, each exactly once; iterator_size gives (degree+1)^dim.", "quantifier": "every dim >= 1 and every degree", "why_tests_cant": "unbounded dims and degrees", "anchors": ["cpp/src/hermite/iterators.cpp: Cube_iterator::s_increment, Cube_iterator::Cube_iterator, s_list, s_size"]}
{"id": "C03", "title": "Rectangle index set is complete and duplicate-free", "statement": "iterator_list_indices(dim, degree, 'rectangle') returns every multi-index whose first entry is at most degree and whose other entries are at most degree/2, each exactly once; iterator_size is its length.", "quantifier": "every dim >= 1 and every degree", "why_tests_cant": "unbounded dims and degrees; odd and even degrees take different branches", "anchors": ["cpp/src/hermite/iterators.cpp: Rectangle_iterator::s_increment, Rectangle_iterator::Rectangle_iterator, s_list, s_size"]}
{"id": "C04", "title": "Hyperbolic cross index set is complete and duplicate-free", "statement": "iterator_list_indices(dim, degree, 'cross') returns every multi-index m with prod_i max(1, m_i) <= degree, each exactly once (degree >= 1); at degree 0 a release build returns the degree-1 set.", "quantifier": "every dim >= 1 and every degree", "why_tests_cant": "the successor function walks ordered factorisations; a bug shows only at particular divisors", "anchors": ["cpp/src/hermite/iterators.cpp: Cross_iterator::s_increment, Cross_iterator::Cross_iterator, s_list, s_size"]}
{"id": "C05", "title": "Non-consistent cross enumerates the same set as the cross", "statement": "iterator_list_indices(dim, degree, 'cross_nc') contains exactly the multi-indices with prod_i max(1, m_i) <= max(1, degree), each once, in triangle order, and never reaches its 'triangle is full' exit.", "quantifier": "every dim >= 1 and every degree with no 32-bit overflow of the product", "why_tests_cant": "the stop condition must be reached before the enclosing triangle is exhausted, for all dims/degrees", "anchors": ["cpp/src/hermite/iterators.cpp: Cross_iterator_nc::s_increment, Cross_iterator_nc::Cross_iterator_nc"]}
{"id": "C06", "title": "Consistent orderings: a smaller degree is a prefix of a larger one", "statement": "For the triangle, cube, rectangle and cross sets the list for degree d is a prefix of the list for any d' >= d (this is what makes truncating a coefficient vector meaningful); for cross_nc it is not.", "quantifier": "every dim >= 1 and every pair d <= d'", "why_tests_cant": "quantifies over all pairs of degrees", "anchors": ["cpp/src/hermite/iterators.cpp: s_increment of all iterators; comment 'Consistent orderings'", "cpp/src/hermite/iterators.hpp"]}
{"id": "C07", "title": "Closed-form triangle index agrees with the enumeration", "statement": "iterator_index(m, 'triangle') is the position of m in iterator_list_indices(dim, degree, 'triangle') for every degree >= |m|.", "quantifier": "every multi-index of every dimension", "why_tests_cant": "tests check dim 2, degree 9 only", "anchors": ["cpp/src/hermite/iterators.cpp: Triangle_iterator::s_index"]}
{"id": "C08", "title": "Closed-form cube index agrees with the enumeration", "statement": "iterator_index(m, 'cube') is the position of m in the cube list, for every m other than the zero vector; for the zero vector the code converts -1.0 to unsigned (undefined behaviour).", "quantifier": "every multi-index of every dimension whose index fits in 32 bits", "why_tests_cant": "needs the mixed-radix identity for all maxima, dims", "anchors": ["cpp/src/hermite/iterators.cpp: Cube_iterator::s_index"]}
{"id": "C09", "title": "Iterator lookup is exact", "statement": "For an iterator object built with (dim, degree), has(m) is true exactly for the members of the set, index(m) is the position of m in the enumeration, and index of a non-member throws: no two different multi-indices share a hash-table key.", "quantifier": "every multi-index (any length, any entries)", "why_tests_cant": "a key collision occurs, if at all, only for particular digit patterns", "anchors": ["cpp/src/hermite/lib.cpp: hash_print", "cpp/src/hermite/iterators.hpp: Multi_index_iterator::has", "cpp/src/hermite/iterators.cpp: Multi_index_iterator::index"]}
{"id": "C10", "title": "Iteration protocol", "statement": "For every iterator object, repeatedly calling get/increment until isFull visits exactly the enumerated list in order, after any number of previous increments followed by reset.", "quantifier": "every iterator, every history of increments and resets", "why_tests_cant": "histories are unbounded", "anchors": ["cpp/src/hermite/iterators.hpp: Vector_iterator::reset, Multi_index_iterator::reset", "cpp/src/hermite/iterators.cpp: Multi_index_iterator::increment"]}
{"id": "C11", "title": "Degree recovery inverts size", "statement": "iterator_get_degree(dim, iterator_size(dim, degree)) = degree for triangle, cube, rectangle and cross_nc, and for cross.", "quantifier": "every degree <= 250 and every dim for which size(dim, 250) fits in 32 bits (dim <= 4)", "why_tests_cant": "all dims and degrees", "anchors": ["cpp/src/hermite/iterators.cpp: s_get_degree of all iterators, DEGREE_BISSECT_MAX", "cpp/src/hermite/lib.cpp: pos_bissect", "hermipy/core.py: iterator_get_degree"]}
{"id": "C12", "title": "Bisection terminates and is sound for every size function", "statement": "The degree search always terminates: it returns x only if f(x) equals the requested size, and otherwise ends the process; for monotone f it finds a solution whenever one exists.", "quantifier": "every function f, every image, every maximum", "why_tests_cant": "quantifies over all functions, including non-monotone (overflowing) ones", "anchors": ["cpp/src/hermite/lib.cpp: pos_bissect"]}
{"id": "C13", "title": "Degree recovery is defined in dimension 5 and above", "statement": "iterator_get_degree(dim, n) must be well defined for dim >= 5 (the test-suite uses dim 5). It is not: probing degree 250 converts a double above 2^32 to a 32-bit unsigned integer.", "quantifier": "every dim >= 5, every n", "why_tests_cant": "undefined behaviour that happens to be benign on the test machine", "anchors": ["cpp/src/hermite/iterators.cpp: Triangle_iterator::s_size, Cube_iterator::s_size, s_get_degree"]}
{"id": "C14", "title": "Grid enumeration is row-major and index is its inverse", "statement": "list_cube_indices(bounds) is the lexicographic list of all vectors below bounds, each once, and Grid_iterator::index of the i-th one is i.", "quantifier": "every vector of positive bounds", "why_tests_cant": "all dims and bounds", "anchors": ["cpp/src/hermite/iterators.cpp: Grid_iterator::increment, list, index"]}
{"id": "C15", "title": "Index-set entries never overflow", "statement": "Every intermediate entry while enumerating a set for (dim, degree) is at most max(degree,1)+1, (or, for products, at most degree times that) so no 32-bit wrap-around can occur for any degree that fits the machine word with that slack.", "quantifier": "every dim >= 1, every degree", "why_tests_cant": "overflow boundary cannot be reached by tests", "anchors": ["cpp/src/hermite/iterators.cpp: s_increment functions"]}
{"id": "C16", "title": "Projecting a coefficient vector keeps exactly the aligned coefficients", "statement": "project(v, dim, dirs): for each multi-index s of the lower-dimensional set, the result's coefficient at s equals v's coefficient at the embedding of s along dirs (zero elsewhere), or 0 if the embedding is outside the big set; the call never throws.", "quantifier": "every index set, dim, strictly increasing dirs, every vector", "why_tests_cant": "all index sets, dims, dirs", "anchors": ["cpp/src/hermite/project.cpp: project(vec), project_vec_nd, project_vec_1d", "cpp/src/hermite/lib.cpp: isAligned, extract"]}
{"id": "C17", "title": "Projecting a matrix keeps exactly the aligned entries", "statement": "project(M, dim, dirs): entry (r,c) of the result equals M's entry at the embeddings of r and c.", "quantifier": "every index set, dim, strictly increasing dirs, every square matrix", "why_tests_cant": "all index sets, dims, dirs", "anchors": ["cpp/src/hermite/project.cpp: project(M), project_mat_nd"]}
{"id": "C18", "title": "Projections compose", "statement": "Projecting on dirs1 and then on dirs2 (relative) equals projecting once on the composed directions.", "quantifier": "every dim, nested direction lists, triangle, cube and cross sets, every vector", "why_tests_cant": "all nested direction lists", "anchors": ["cpp/src/hermite/project.cpp"]}
{"id": "C19", "title": "Tensorizing vectors multiplies coefficients", "statement": "tensorize of vectors on a partition of the directions: the coefficient of the result at m is the product, in argument order, of the input coefficients at the restrictions of m.", "quantifier": "every index set, every partition of 0..dim-1 into increasing lists, all inputs", "why_tests_cant": "all partitions and sets", "anchors": ["cpp/src/hermite/tensorize.cpp: tensorize(mat, imat), tensorize_vecs_dirs, tensorize_vecs_axes, tensorize_vec_id"]}
{"id": "C20", "title": "Tensorizing matrices multiplies entries", "statement": "tensorize of matrices on a partition of the directions: entry (r,c) of the result is the product of the input entries at the restrictions of r and c; truncating the intermediate products loses nothing.", "quantifier": "every index set, every partition into increasing lists, all square inputs of matching degree", "why_tests_cant": "all partitions and sets, folding order", "anchors": ["cpp/src/hermite/tensorize.cpp: tensorize_dirs, tensorize(spmat,spmat), _tensorize_mats_dirs, _tensorize_mats_axes"]}
{"id": "C21", "title": "Tensorization does not depend on argument order", "statement": "Permuting the (matrix, directions) pairs given to tensorize leaves the result unchanged (exact arithmetic).", "quantifier": "every permutation of the arguments", "why_tests_cant": "all permutations", "anchors": ["cpp/src/hermite/tensorize.cpp", "hermipy/core.py: tensorize"]}
{"id": "C22", "title": "Projection undoes tensorization", "statement": "Projecting tensorize(v_1..v_n) on the directions of v_j gives v_j scaled by the product of the other inputs' constant coefficients.", "quantifier": "every index set, every partition, all inputs", "why_tests_cant": "all partitions", "anchors": ["cpp/src/hermite/project.cpp", "cpp/src/hermite/tensorize.cpp"]}
{"id": "C23", "title": "Tensorizing with the identity", "statement": "tensorize(M, dim, dir) is the matrix acting as M in direction dir and as the identity in the others; tensorize(v, dim, dir) is v placed on the axis dir and zero elsewhere.", "quantifier": "every index set, dim, dir < dim, degree, M", "why_tests_cant": "all dims/dirs", "anchors": ["cpp/src/hermite/tensorize.cpp: tensorize_vec_id, tensorize_mat_id"]}
{"id": "C24", "title": "Inner product contracts the shared directions", "statement": "inner(s1, s2, d1, d2): the coefficient of the result at r is the sum over all multi-indices q on the shared directions of s1 at (r,q) times s2 at (r,q), over the pairs that lie in both sets; directions of the result are the symmetric difference in increasing order.", "quantifier": "every index set, every pair of increasing direction lists, all series", "why_tests_cant": "all overlaps of directions", "anchors": ["cpp/src/hermite/inner.cpp: inner"]}
{"id": "C25", "title": "Inner product is symmetric and bilinear", "statement": "inner(s1,s2,d1,d2) = inner(s2,s1,d2,d1), and inner is linear in each argument (exact arithmetic); on identical directions it is the dot product, on disjoint directions the tensor product.", "quantifier": "every index set, direction lists, series, scalars", "why_tests_cant": "algebraic law over all inputs", "anchors": ["cpp/src/hermite/inner.cpp: inner", "hermipy/series.py: Series.__mul__"]}
{"id": "C26", "title": "Sparse and dense conversions are faithful", "statement": "full(to_spmat(M)) = M; converting row_col_val(S) back gives S; to_spmat of a CSR triple with distinct columns per row has the entries the triple denotes; every conversion keeps the shape.", "quantifier": "every rectangular matrix, every sparse matrix, every CSR triple", "why_tests_cant": "all shapes and sparsity patterns", "anchors": ["cpp/src/hermite/sparse.cpp: to_spmat, full, row_col_val", "cpp/src/hermite/matrix.cpp: naive_convert, convert", "hermipy/core.py: convert_to_cpp_sparse, to_csr"]}
{"id": "C27", "title": "NumPy to C++ matrix conversion preserves every entry", "statement": "to_mat / to_bmat / to_boost_mat of a 2-d array with unit column stride yields the matrix of its entries. True for C-contiguous arrays (square ones for to_boost_mat); false for non-square arrays (to_boost_mat) and for strided views.", "quantifier": "every shape and row stride", "why_tests_cant": "tests use one square contiguous matrix", "anchors": ["cpp/src/hermite/python/converters.cpp: to_mat, to_bmat, to_boost_mat"]}
{"id": "C28", "title": "Hermite evaluation computes the normalised Hermite polynomials", "statement": "The values used by transform/eval are He_n(x)/sqrt(n!) for n = 0..degree.", "quantifier": "every real x and every degree >= 1", "why_tests_cant": "all degrees and points", "anchors": ["cpp/src/hermite/hermite.cpp: hermite_eval", "cpp/src/hermite/hermite.hpp: REC_A, REC_B"]}
{"id": "C29", "title": "Integration is memory safe", "statement": "integrate(f, nodes, weights) touches only memory it owns. It does not: it evaluates Hermite polynomials at degree 0 into one-element vectors and writes element 1.", "quantifier": "every call with at least one Hermite direction with at least one node", "why_tests_cant": "an out-of-bounds heap write that goes unnoticed", "anchors": ["cpp/src/hermite/transform.cpp: integrate, _transform", "cpp/src/hermite/hermite.cpp: hermite_eval"]}
{"id": "C30", "title": "Triple products are the linearisation coefficients of Hermite products", "statement": "With T = triple_products(degree), h_i(x) h_j(x) = sum_k T[k][i][j] h_k(x) for all real x and i, j <= degree; T is symmetric in (i,j), and the computation stays in bounds.", "quantifier": "every degree, all i, j <= degree, every real x", "why_tests_cant": "all degrees; three-term recurrences with shifting ranges", "anchors": ["cpp/src/hermite/varf.cpp: triple_products_1d"]}
{"id": "C31", "title": "Fourier triple products are the linearisation coefficients of trigonometric products", "statement": "With T = triple_products_fourier(degree), e_i(x) e_j(x) = sum_k T[k][i][j] e_k(x) for the basis 1/sqrt(2 pi), sin(kx)/sqrt(pi), cos(kx)/sqrt(pi); odd degrees end the process.", "quantifier": "every even degree, all i, j <= degree, every real x", "why_tests_cant": "all degrees and sign cases", "anchors": ["cpp/src/hermite/varf.cpp: triple_products_fourier", "cpp/src/hermite/transform.hpp: COS, SIN"]}
{"id": "C32", "title": "Forward transform and evaluation compute the defining sums", "statement": "transform(forward) returns for each multi-index m of the set the sum over grid points of value * weight * basis function; transform(backward) returns at each grid point the sum of coefficient * basis function; grid points in row-major order.", "quantifier": "every index set, degree >= 1, nodes, weights, inputs", "why_tests_cant": "all dims, grids", "anchors": ["cpp/src/hermite/transform.cpp: _transform, transform"]}
{"id": "C33", "title": "Transform inverts evaluation on an exact quadrature", "statement": "If the 1-d rules integrate products of two basis functions exactly, transform(eval(c)) = c for every coefficient vector, in any dimension and for any index set.", "quantifier": "every dim, degree, index set, coefficient vector, exact rule", "why_tests_cant": "all dims/degrees/sets", "anchors": ["cpp/src/hermite/transform.cpp: _transform", "hermipy/quad.py: Quad.transform, Quad.eval"]}
{"id": "C34", "title": "The Fourier quadrature is exact", "statement": "Quad.fourier(n_points) integrates products of two basis functions of an even degree < n_points exactly, hence transform(eval(c)) = c.", "quantifier": "every even degree and every n_points > degree", "why_tests_cant": "all degrees and numbers of points", "anchors": ["hermipy/quad.py: Quad.fourier", "cpp/src/hermite/transform.cpp: _transform"]}
{"id": "C35", "title": "Tensorized transform equals the full transform", "statement": "For a grid function that is a product of functions of disjoint groups of directions, transforming the factors and tensorizing gives the same coefficients as transforming the product.", "quantifier": "every partition of the directions, every factor functions, weights, nodes", "why_tests_cant": "settings['tensorize'] on/off must agree for all inputs", "anchors": ["hermipy/quad.py: Quad.tensorize_at, transform", "cpp/src/hermite/tensorize.cpp", "cpp/src/hermite/transform.cpp"]}
{"id": "C36", "title": "varf is the discrete Galerkin matrix", "statement": "varf(degree, f) has entry (r,c) equal to sum over grid points of weight * f * phi_r * phi_c, up to the coefficients dropped by the 1e-12 threshold, for the triangle, cube and rectangle sets with Hermite directions.", "quantifier": "every dim, degree, grid, weights, grid function", "why_tests_cant": "all inputs", "anchors": ["cpp/src/hermite/varf.cpp: varf"]}
{"id": "C37", "title": "varf on the hyperbolic cross is the discrete Galerkin matrix", "statement": "The same statement for index_set='cross'. It is false: the transform of f is truncated to the cross of degree 2*degree, which misses products of basis functions of the set.", "quantifier": "every dim, degree, grid function", "why_tests_cant": "fails only for functions with mixed high-order content", "anchors": ["cpp/src/hermite/varf.cpp: varf"]}
{"id": "C38", "title": "Thresholding error of varf is bounded", "statement": "Each entry of varf differs from the discrete Galerkin matrix by at most 1e-12 * max(1, ||Hf||) * sum_m |prod_d T|, the contribution of dropped coefficients; if no coefficient is dropped they are equal.", "quantifier": "every input", "why_tests_cant": "real-valued bound over all inputs", "anchors": ["cpp/src/hermite/varf.cpp: varf, THRESHOLD"]}
{"id": "C39", "title": "varfd composes the operator with a derivative", "statement": "varfd(dim, degree, direction, A) (Hermite): column m of the result is sqrt(m_dir) times column m - e_dir of A (zero when m_dir = 0), which is the matrix of A composed with d/dx_dir because h_n' = sqrt(n) h_(n-1).", "quantifier": "every index set, dim, degree, direction, matrix", "why_tests_cant": "all sets/dims/directions", "anchors": ["cpp/src/hermite/varf.cpp: varfd"]}
{"id": "C40", "title": "varfd for Fourier directions", "statement": "For a Fourier direction column m of the result is the derivative combination: sin_k column = k * cos_k column, cos_k column = -k * sin_k column; the call never throws on the cube set of even degree, but throws on the triangle set.", "quantifier": "every even degree, dim, direction, matrix", "why_tests_cant": "throws only for mixed multi-indices on the boundary of the triangle", "anchors": ["cpp/src/hermite/varf.cpp: varfd"]}
{"id": "C41", "title": "Dense and sparse varfd agree", "statement": "The dense overload of varfd returns the same matrix as the sparse one. True for Hermite directions; false for Fourier directions, where -k is computed in unsigned arithmetic.", "quantifier": "every set, dim, degree, direction, matrix", "why_tests_cant": "sign error only in one overload and one branch", "anchors": ["cpp/src/hermite/varf.cpp: varfd<T>, varfd<mat>"]}
{"id": "C42", "title": "Derivative directions commute", "statement": "varfd in direction a then b equals varfd in direction b then a.", "quantifier": "every set, dim, degree, pair of Hermite directions, matrix", "why_tests_cant": "all directions", "anchors": ["cpp/src/hermite/varf.cpp: varfd", "hermipy/quad.py: Quad.varfd"]}
{"id": "C43", "title": "Discretization evaluates the function at the mapped nodes in row-major order", "statement": "discretize(f, nodes, translation, dilation)[i] = f(translation + dilation * node_i) where node_i is the i-th point of the tensor grid in row-major order.", "quantifier": "every dim, grid, affine map, function", "why_tests_cant": "all dims/grids", "anchors": ["cpp/src/hermite/discretize.cpp: map_point, discretize"]}
{"id": "C44", "title": "Compiled-function cache returns the right function for every call history", "statement": "discretize(body,...) evaluates the given body whatever bodies were discretized before by any process, provided body hashes do not collide, compilation succeeds, no process dies while the linker writes an object and no two processes make and use the same object at once; with a collision, a failed or interrupted compilation, or an overlapping first use it does not.", "quantifier": "every history of calls and crash points", "why_tests_cant": "collisions, crash points", "anchors": ["cpp/src/hermite/discretize.cpp: intern_function, discretize_from_string"]}
{"id": "C45", "title": "Position.tensorize keeps exactly the unshared directions", "statement": "Position.tensorize(args): the result's directions are those that appear exactly once, sorted, with the mean, variance and type of their owner; a direction appearing three times, or shared with different mean/variance, raises ValueError.", "quantifier": "every list of diagonal positions", "why_tests_cant": "all overlaps", "anchors": ["hermipy/position.py: Position.tensorize, Position.project"]}
{"id": "C46", "title": "Series.subdegree acts by multi-index", "statement": "series.subdegree(d) has, at each multi-index of the degree-d set, the coefficient the original has there (zero if it has none), for the triangle, cube, rectangle and cross sets; cross_nc is rejected.", "quantifier": "every dim, pair of degrees, coefficients", "why_tests_cant": "relies on consistent ordering for all degrees", "anchors": ["hermipy/series.py: Series.subdegree"]}
{"id": "C47", "title": "Varf.subdegree acts by multi-index", "statement": "varf.subdegree(d) keeps, for each pair of multi-indices of the degree-d set, the original entry, for every index set it accepts. False for cross_nc, which it accepts.", "quantifier": "every index set, dim, pair of degrees", "why_tests_cant": "silently wrong for one index set", "anchors": ["hermipy/varf.py: Varf.subdegree"]}
{"id": "C48", "title": "to_cross acts by multi-index", "statement": "series.to_cross(d) / varf.to_cross(d) have at each multi-index of the degree-d cross the coefficient of the triangle series there; the guard d + dim - 1 <= degree guarantees all indices are in range.", "quantifier": "every dim, degree, coefficients", "why_tests_cant": "guard must be sufficient for all dims", "anchors": ["hermipy/series.py: Series.to_cross", "hermipy/varf.py: Varf.to_cross", "hermipy/lib.py: cross_in_triangle"]}
{"id": "C49", "title": "to_cross preserves the factor", "statement": "series.to_cross(d) describes the same function space as the series: position and factor are preserved. False: the factor is reset to 1.", "quantifier": "every series with a non-trivial factor", "why_tests_cant": "only visible with a factor", "anchors": ["hermipy/series.py: Series.to_cross"]}
{"id": "C50", "title": "Series accepts exactly the valid sizes", "statement": "Series(coeffs, position, index_set) succeeds exactly when the number of coefficients is the size of some degree of the index set (<= 250), and its degree is that degree.", "quantifier": "every dim <= 4, every length, every index set", "why_tests_cant": "all lengths", "anchors": ["hermipy/series.py: Series.__init__", "hermipy/core.py: iterator_get_degree"]}
{"id": "C51", "title": "finest_common computes the finest common coarsening", "statement": "lib.finest_common(P, Q) terminates and returns the finest partition that both partitions refine, whatever the iteration order of Python sets.", "quantifier": "all pairs of partitions of the same finite set, all set iteration orders", "why_tests_cant": "arbitrary set orders, termination of a nested loop with recursion", "anchors": ["hermipy/lib.py: finest_common"]}
{"id": "C52", "title": "Function.split factors each term over disjoint groups of variables", "statement": "f.split(legacy=False): for each additive term the keys are pairwise disjoint, cover the directions, every factor depends only on its key's variables, and the product of the values is the term.", "quantifier": "every term, every order of its factors", "why_tests_cant": "all groupings/orders", "anchors": ["hermipy/function.py: Function.split"]}
{"id": "C53", "title": "Function.project loses nothing silently", "statement": "Projecting a splittable function on a set of directions either raises or returns the product of all factors that involve those directions. False: a factor that straddles the boundary is dropped when neither side contains the other.", "quantifier": "every function, every list of directions", "why_tests_cant": "only for overlapping groups", "anchors": ["hermipy/function.py: Function.project"]}
{"id": "C54", "title": "Operator.split recovers the coefficients of a differential operator", "statement": "For a linear operator sum_n c_n D^n of order at most 5, split returns exactly the map n -> c_n (non-zero entries); any higher-order term raises ValueError.", "quantifier": "every operator, dimension, coefficients", "why_tests_cant": "all multi-indices and orders of terms", "anchors": ["hermipy/operator.py: Operator.split"]}
{"id": "C55", "title": "The result cache is transparent", "statement": "With distinct keys for distinct arguments, every call of a cached function returns what the function returns, for every history of calls, settings changes and unreadable cache files.", "quantifier": "every history of calls, cache flags, initial (consistent) cache directory contents and corrupted entries", "why_tests_cant": "unbounded histories", "anchors": ["hermipy/cache.py: cache"]}
{"id": "C56", "title": "Distinct arguments have distinct cache keys", "statement": "Two calls with different arguments never share a cache entry (assuming MD5 is collision free). False: -1 and -2, arrays with equal bytes but different shapes, None and '' have equal keys.", "quantifier": "all pairs of argument lists", "why_tests_cant": "specific pairs", "anchors": ["hermipy/cache.py: gen_hash"]}
{"id": "C57", "title": "Call statistics are exact and balanced", "statement": "After any sequence of (nested) decorated calls the call counters equal the number of completed calls and the indentation is back to its initial value. False for the indentation when a call raises.", "quantifier": "every tree of nested calls, with or without exceptions", "why_tests_cant": "all call trees", "anchors": ["hermipy/stats.py: log_stats"]}
{"id": "C58", "title": "Bordered solve returns a solution orthogonal to the removed vector", "statement": "varf.solve(b, remove_vec=v): if the linear solver is exact, the returned x satisfies A x = b - lambda v for some lambda and <v, x> = 0.", "quantifier": "every matrix, vectors, exact solver", "why_tests_cant": "all matrices", "anchors": ["hermipy/varf.py: Varf.solve"]}
{"id": "C59", "title": "Series.to_function agrees with evaluation", "statement": "series.to_function() is the function that Quad.eval evaluates. False when the variance is not 1: the variable is multiplied, not divided, by the standard deviation.", "quantifier": "every series with diagonal position", "why_tests_cant": "only visible for cov != 1", "anchors": ["hermipy/series.py: Series.to_function", "hermipy/quad.py: Quad.eval"]}
{"id": "C60", "title": "Linear structure of Series and Varf", "statement": "series addition, subtraction, negation and scaling act coefficient-wise by multi-index and satisfy the vector space laws; adding series with different index sets, positions or factors raises; varf(series) is the matrix-vector product and is linear.", "quantifier": "all series/varfs/scalars", "why_tests_cant": "algebraic laws", "anchors": ["hermipy/series.py: Series.__add__, __mul__, __sub__, __neg__", "hermipy/varf.py: Varf.__add__, __mul__, __call__"]}
{"id": "C61", "title": "Quad.project and Quad.tensorize are inverse", "statement": "Tensorizing the projections of a quadrature on the groups of a partition of its directions restores its nodes, weights, means, variances, types and factor, provided the factor is one product in which no factor has variables both inside and outside a group. Without that condition the factor can be lost silently.", "quantifier": "every quadrature with diagonal position, every partition of its directions", "why_tests_cant": "all partitions", "anchors": ["hermipy/quad.py: Quad.tensorize, Quad.project"]}
{"id": "C62", "title": "varf on a triangle with a Fourier direction is the discrete Galerkin matrix", "statement": "The statement of C36 for the triangle set with at least one Fourier direction. It is false: the product of two sines of order i contains a cosine of index 2i+2, outside the triangle of degree 2*degree.", "quantifier": "every dim, even degree, grid function, choice of Fourier directions", "why_tests_cant": "fails only for functions with mixed content on mixed bases", "anchors": ["cpp/src/hermite/varf.cpp: varf, triple_products_fourier"]}
{"id": "C63", "title": "The Position constructor accepts exactly consistent arguments", "statement": "Position(dim, mean, cov, dirs, types) succeeds exactly when all the given arguments agree on the dimension and dim or dirs is given; the position then carries the given arguments and the defaults (first directions, zero mean, identity covariance, Hermite). A mean or covariance alone always raises.", "quantifier": "every combination of given and omitted arguments of every length", "why_tests_cant": "32 combinations of omitted arguments times unbounded lengths and contents", "anchors": ["hermipy/position.py: Position.__init__"]}
{"id": "C64", "title": "Product of series contracts the shared directions", "statement": "f * g of two series has exactly the directions that one of them has and the other does not; its coefficient at a multi-index is the sum over the multi-indices on the shared directions of the products of the coefficients of f and g; on the same directions float(f * g) is the sum of the products of the coefficients; a series without directions acts as a number; the coefficients of g * f are those of f * g; incompatible series are refused with ValueError.", "quantifier": "every pair of series, index set, degree, directions", "why_tests_cant": "all directions, degrees and coefficients", "anchors": ["hermipy/series.py: Series.tensorize, Series.__mul__, Series.__float__", "hermipy/core.py: inner"]}
{"id": "C65", "title": "Quad.discretize and Quad.eval give values at the mapped grid points", "statement": "Quad.discretize(f) lists the values of f, and Quad.eval(series) the values of the series times its factor, at the points mean + sqrt(variance) * node of the quadrature's grid in row-major order, also when the series has another mean and variance than the quadrature. The basis is that of the quadrature's types: the types of the series are ignored.", "quantifier": "every quadrature with diagonal position, every function, every series on the same directions, every index set and degree", "why_tests_cant": "all means, variances, dimensions, degrees and coefficients", "anchors": ["hermipy/quad.py: Quad.discretize, Quad.eval", "hermipy/position.py: Position", "cpp/src/hermite/transform.cpp"]}
{"id": "C66", "title": "Quad.transform computes the weighted coefficients and inverts Quad.eval", "statement": "Quad.transform(values, degree, index_set) is the series on the quadrature's position and with its factor whose coefficients are the quadratures of values/factor against the basis functions; with rules exact for products of two basis functions and a factor without zeros on the grid, Quad.transform(Quad.eval(f)) is f.", "quantifier": "every quadrature with diagonal position, every array of values, index set and degree; every series", "why_tests_cant": "all sizes, factors and coefficients", "anchors": ["hermipy/quad.py: Quad.transform, Quad.eval", "hermipy/core.py: transform"]}
{"id": "C67", "title": "Quad.varfd and Quad.discretize_op give the Galerkin matrices of derivatives and differential operators", "statement": "Quad.varfd(f, degree, directions, index_set) has the entries: quadrature of f phi_r d(phi_c)/dx along the directions, in the physical coordinates (directions that the quadrature does not have are ignored). Quad.discretize_op(L, degree, index_set), for a linear differential operator L of order at most 5 and a quadrature with factor w, has the entries: quadrature of phi_r L(w phi_c)/w. Conditions: diagonal covariance; index sets closed under the products that varf and varfd use (C36, C37, C40); no transform coefficient below varf's threshold other than 0; w without zeros on the grid.", "quantifier": "every quadrature with diagonal position, every function, operator, list of directions, index set and degree", "why_tests_cant": "all sizes, operators, orders of derivatives and variances", "anchors": ["hermipy/quad.py: Quad.varfd, Quad.discretize_op", "hermipy/operator.py: Operator.split, Operator.map", "hermipy/core.py: varfd"]}
{"id": "C68", "title": "Tensorizing a transform does not change its result", "statement": "With the setting (or keyword argument) tensorize, Quad.transform splits a function into terms, each term into groups of variables, transforms each group with the projected quadrature, multiplies the results together and adds the terms up. For a quadrature with diagonal covariance and a factor that is not 0 at the nodes, whatever the order in which Python enumerates the sets of groups, the call either raises ValueError or returns a series with the same coefficients, position, index set, degree and values of the factor as without tensorize. It raises no error when the factor of the quadrature is not a sum and the factors of the terms compare equal; it always raises ValueError when the factor is a sum. A function declared with fewer directions than the quadrature gives a series in these directions only.", "quantifier": "all dimensions, degrees, index sets, nodes, weights, means and variances; all functions, factors and groupings of their variables; all enumeration orders of Python sets", "why_tests_cant": "The groups depend on the function, on the factor and on hash order: a test sees some functions and one order, not every grouping of every dimension.", "anchors": ["hermipy/quad.py:tensorize_at", "hermipy/quad.py:Quad.transform", "hermipy/quad.py:Quad.project", "hermipy/function.py:Function.split", "hermipy/lib.py:finest_common", "hermipy/series.py:Series.tensorize"]}
{"id": "C69", "title": "Products of variational forms multiply entries", "statement": "Varf.tensorize (and v * w) of variational forms in disjoint groups of directions, with the same index set and degree, returns a form in the union of the directions: its entry at multi-indices r, c is the product of the entries of the forms at the parts of r and c in their own directions, its factor is the product of the factors, and every direction keeps its mean, variance and type. Forms that share a direction are not rejected: the product can come back with the wrong degree and directions.", "quantifier": "all numbers of forms, directions, index sets, degrees, matrices and factors", "why_tests_cant": "the tests multiply two or three particular one-dimensional operators; the groups of directions, the order of the arguments and the matrices are unbounded", "anchors": ["hermipy/varf.py:Varf.tensorize", "hermipy/varf.py:Varf.__mul__", "hermipy/core.py:tensorize", "cpp/src/hermite/tensorize.cpp"]}
{"id": "C70", "title": "Tensorizing a variational form does not change it", "statement": "With the setting (or keyword argument) tensorize, Quad.varf of a function either raises ValueError or returns the same matrix, position, index set, degree and values of the factor as without tensorize, whatever the order in which Python enumerates the sets of groups, provided that no non-zero coefficient of the transform of the function, or of a part of one of its terms, is under the threshold of varf (1e-12 times the norm). It raises no error when the factor of the quadrature is not a sum and the factors of the terms compare equal; it always does when the factor is a sum. The entries are the discrete Galerkin matrix of the function even if constant coefficients of terms are under the threshold, where without tensorize the terms are dropped.", "quantifier": "all quadratures with diagonal covariance, functions, degrees, index sets of usable size and enumeration orders", "why_tests_cant": "the tests compare both ways for a few functions; the splitting depends on the expression and on the hash order of sets", "anchors": ["hermipy/quad.py:tensorize_at", "hermipy/quad.py:Quad.varf", "hermipy/varf.py:Varf.tensorize", "hermipy/varf.py:Varf.__add__"]}
{"id": "C71", "title": "Tensorizing a form with derivatives does not change it", "statement": "With the setting (or keyword argument) tensorize, Quad.varfd of a function and a list of directions of differentiation either raises ValueError or returns the same matrix, position, index set, degree and values of the factor as without tensorize, whatever the order in which Python enumerates the sets of groups, provided that no non-zero coefficient of the transform of the function, or of a part of one of its terms, is under the threshold of varf. It raises no error when the factor of the quadrature is not a sum and the factors of the terms compare equal; it always does when the factor is a sum. The entries are the quadratures of phi_r times the function times the derivative of phi_c in the physical coordinates.", "quantifier": "all quadratures with diagonal covariance, functions, lists of directions, degrees, index sets of usable size (in which the Fourier functions come in pairs) and enumeration orders", "why_tests_cant": "the tests compare both ways for a few functions and one derivative; the splitting of the function and of the directions depends on the expression and on the hash order of sets", "anchors": ["hermipy/quad.py:tensorize_at", "hermipy/quad.py:Quad.varfd", "hermipy/varf.py:Varf.tensorize", "cpp/src/hermite/varf.cpp:varfd"]}
{"id": "C72", "title": "Tensorizing a discretized operator does not change it", "statement": "With the setting tensorize (on by default), Quad.discretize_op of a linear differential operator either raises ValueError or returns the same matrix, position, index set, degree and values of the factor as without tensorize, whatever the order in which Python enumerates the sets of groups in each of the calls of varfd, provided that no non-zero coefficient of a transform is under the threshold of varf. It raises no error when the factor of the quadrature is not a sum and sympy finds that expressions with equal values are equal. The entries are the quadratures of phi_r times L(w psi_c)/w.", "quantifier": "all quadratures with diagonal covariance, operators of order at most 5, degrees, index sets of usable size and enumeration orders", "why_tests_cant": "the tests discretize a few operators; the number of terms, the splitting of each coefficient in groups of variables and the hash order of sets are unbounded", "anchors": ["hermipy/quad.py:tensorize_at", "hermipy/quad.py:Quad.discretize_op", "hermipy/quad.py:Quad.varfd", "hermipy/operator.py:Operator.split", "hermipy/varf.py:Varf.__add__"]}
{"id": "C73", "title": "The dimension of a triangle is recovered or rejected", "statement": "Triangle_iterator::s_find_dim(degree, n), for degree at least 1, returns the dimension whose triangle of that degree has n multi-indices; if there is none it exits the process (or is undefined, when the first larger size exceeds 2^32 - 1). For degree 0 and n > 1 it never returns.", "quantifier": "all degrees, dimensions and numbers of polynomials", "why_tests_cant": "the loop has no bound and no test covers numbers that are not sizes", "anchors": ["cpp/src/hermite/iterators.cpp:Triangle_iterator::s_find_dim"]}
{"id": "C74", "title": "Generated C++ reads the right coordinates", "statement": "Function.ccode returns the C++ text of the function in which each variable x_d of a direction d of the function is replaced by v[i], where i is the place of d in the list of directions, and all other names, numbers and signs are unchanged, provided that no other name in the text begins with the name of such a variable. Without this condition it is false: a parameter x10 of a function of x1 becomes v[0]0.", "quantifier": "all texts printed by sympy and all lists of directions", "why_tests_cant": "The replacements are done one after the other on the result of the previous ones; a test fixes a few expressions, and the failures come from names and directions that are prefixes of one another.", "anchors": ["hermipy/function.py:Function.ccode"]}
{"id": "C75", "title": "Sums and multiples of operators", "statement": "For operators A and B on functions of the same variables, A + B, A - B, -A and A*g, with a function g of these variables, are the operators that map every function f to A f + B f, A f - B f, -(A f) and g A f; with different directions the sum, the difference, the multiple and Operator.map raise ValueError.", "quantifier": "all operators, all functions with derivatives, all points", "why_tests_cant": "The values must agree for every operator and every function; tests compare a few symbolic expressions.", "anchors": ["hermipy/operator.py:Operator.__add__", "hermipy/operator.py:Operator.__sub__", "hermipy/operator.py:Operator.__neg__", "hermipy/operator.py:Operator.__mul__"]}
{"id": "C76", "title": "Composition and application of operators", "statement": "For operators A and B on functions of the same variables, A(B) is the operator f -> A(B f) for every smooth f, and A(g) is the function A g, when the coefficients of B, and g, have no singularities. The composition of operators with different directions is not rejected, and its coefficients may contain variables that are not among its directions.", "quantifier": "all operators of any order in any number of variables, all smooth functions, all points", "why_tests_cant": "The product rule has to hold for derivatives of every order in every set of variables.", "anchors": ["hermipy/operator.py:Operator.__call__"]}
{"id": "C77", "title": "Conjugation of an operator with a factor", "statement": "Operator.map(w) of an operator L of order at most 5 gives the operator f -> L(w f)/w, for every f with derivatives up to this order, wherever w is not 0. Hence Quad.discretize_op of L, for a quadrature with the factor w, has the entries quadrature of phi_r L(w psi_c)/w, without any assumption on Operator.map.", "quantifier": "all operators, factors without singularities, functions, points, quadratures and index sets", "why_tests_cant": "The identity is between operators: it has to hold on every function, and for every factor.", "anchors": ["hermipy/operator.py:Operator.map", "hermipy/quad.py:Quad.discretize_op"]}
{"id": "C78", "title": "Arithmetic of functions", "statement": "The product, the sum and the quotient of two functions of the same variables are the functions with these values (the quotient where the divisor is not 0), and raise ValueError if the directions differ. Function.tensorize of functions without common directions is the product of their values on the sorted union of the directions; if two share a direction it raises ValueError.", "quantifier": "all functions, lists of functions and points", "why_tests_cant": "It is a statement about the values at all points of all functions, for lists of any length.", "anchors": ["hermipy/function.py:Function.__mul__", "hermipy/function.py:Function.__truediv__", "hermipy/function.py:Function.__add__", "hermipy/function.py:Function.tensorize", "hermipy/function.py:Function.__init__"]}
{"id": "C79", "title": "Integrals and norms with a quadrature", "statement": "With a quadrature all of whose directions are of type fourier, Quad.integrate of a function is the sum over the grid of the products of weights and values, with or without the setting tensorize (which raises ValueError if the factor of the quadrature is a sum) and whatever the flag flat; Quad.norm is the square root of the sum of weights times squares for n = 2, the sum of weights times absolute values for n = 1 and None otherwise; and the norm of a series with the factor 1 on the position of a quadrature that is exact up to its degree is the Euclidean norm of its coefficients. With a direction of type hermite Quad.integrate is undefined behaviour.", "quantifier": "all quadratures, functions, arrays, series, index sets, degrees and orders in which sets are enumerated", "why_tests_cant": "The equality with the sum, between the two settings and with the norm of the coefficients must hold for every function, grid and decomposition; the undefined behaviour usually goes unnoticed when run.", "anchors": ["hermipy/quad.py:Quad.integrate", "hermipy/quad.py:Quad.norm", "hermipy/quad.py:tensorize_at", "hermipy/position.py:Position.weight", "hermipy/core.py:integrate", "cpp/src/hermite/transform.cpp:integrate"]}
{"id": "C80", "title": "Quadratures on boxes with Fourier directions", "statement": "Quad.fourier(n, bounds, dirs) gives the n equispaced points left + (right - left) k / n of every direction, with the weights 2 pi / n; the rules are exact for all pairs of Fourier modes of every even degree below n; the integral of g is (2 pi / n)^dim times the sum of the values of g; the norm of a series of even degree below n is that of its coefficients; and transform after eval gives the series back. Different numbers of points per direction, or of bounds and directions, raise. With a position and one number of points, but no dirs, the nodes do not fit positions of dimension 2 or more.", "quantifier": "all numbers of points, boxes, directions, functions, series of even degree below n, index sets", "why_tests_cant": "Exactness and inversion hold for every n, box, dimension and series; tests take a few.", "anchors": ["hermipy/quad.py:Quad.fourier", "hermipy/quad.py:Quad.__init__", "hermipy/quad.py:Quad.eval", "hermipy/quad.py:Quad.transform"]}
{"id": "C81", "title": "Gauss-Hermite quadratures", "statement": "Quad.gauss_hermite(n, dim, dirs, mean, cov) with a diagonal covariance gives in every direction a rule that is exact for all pairs of Hermite polynomials of degree below n, on the position with the given mean and covariance, if NumPy gives the nodes and weights of the Gauss rule; hence transform after eval gives back every series of degree from 1 to n - 1. Different numbers of points per direction, and 0 points, raise ValueError.", "quantifier": "all numbers of points, dimensions, directions, means, variances, factors without zeros, series and index sets", "why_tests_cant": "Exactness is needed for all pairs of polynomials below n for every n, and inversion for every series.", "anchors": ["hermipy/quad.py:Quad.gauss_hermite", "hermipy/lib.py:hermegauss_nd", "hermipy/quad.py:Quad.__init__"]}
{"id": "C82", "title": "Newton-Cotes quadratures", "statement": "Quad.newton_cotes(n_points, extrema) gives in every direction equispaced nodes from -e to e, and the sum of weights times values of g is the trapezoidal rule on [-e, e] for g times the standard Gaussian density. With one point it raises ZeroDivisionError, with none IndexError.", "quantifier": "all numbers of points, extrema, functions g, means, variances and directions", "why_tests_cant": "The identity of the rule with the trapezoidal rule is for every g and every number of points.", "anchors": ["hermipy/quad.py:Quad.newton_cotes"]}
{"id": "C83", "title": "Equations in divergence form", "statement": "The Fokker-Planck and McKean-Vlasov equations (white, coloured and harmonic noise) and the forward Langevin equation that equations.py builds, applied to a function f, are the divergence of the fluxes of the model: drift times f plus diffusion times the gradient of f. With an undefined potential of the noise its coefficient is sqrt(1/beta).", "quantifier": "all twice differentiable functions f, differentiable potentials, parameters beta, gamma, epsilon, theta, m with beta and epsilon not 0, and points", "why_tests_cant": "It is an identity of differential operators for every potential and every function; a test evaluates one of each.", "anchors": ["hermipy/equations.py:Fokker_Planck_1d.equation", "hermipy/equations.py:McKean_Vlasov_white.equation", "hermipy/equations.py:McKean_Vlasov.equation", "hermipy/equations.py:McKean_Vlasov_harmonic_noise.equation", "hermipy/equations.py:Langevin.forward"]}
{"id": "C84", "title": "Steady states of the equations", "statement": "exp(-beta V) solves the one-dimensional Fokker-Planck equation; exp(-beta (V + theta (x - m)^2/2)) the McKean-Vlasov equation with white noise; with gamma = 1, the same times exp(-Vy(y)) the one with coloured noise, whatever the coefficient of the noise, and times exp(-(y^2 + z^2)/2) the one with harmonic noise; and exp(-(x^2 + y^2)/2) the forward Langevin equation.", "quantifier": "all potentials, parameters, points and constant factors", "why_tests_cant": "The identity holds for every potential; the notebooks check it for one.", "anchors": ["hermipy/equations.py:Fokker_Planck_1d", "hermipy/equations.py:McKean_Vlasov_white", "hermipy/equations.py:McKean_Vlasov", "hermipy/equations.py:McKean_Vlasov_harmonic_noise", "hermipy/equations.py:Langevin.forward"]}
{"id": "C85", "title": "Backward operators are generators", "statement": "Overdamped.backward, Langevin.backward and Generalized_Langevin.backward with no, one or two auxiliary processes are the generators of the corresponding diffusions, with the drift and the diffusion matrix of the model; hence they map constants to 0 and satisfy the product rule with the carre du champ. Generalized_Langevin.backward raises ValueError without the parameters of one of its cases, and if the matrix A is found to be singular.", "quantifier": "all potentials, parameters, twice differentiable functions and points", "why_tests_cant": "The identities are for all functions and potentials.", "anchors": ["hermipy/equations.py:Overdamped.backward", "hermipy/equations.py:Langevin.backward", "hermipy/equations.py:Generalized_Langevin.backward"]}
{"id": "C86", "title": "Invariant measures, adjoints and map_operator", "statement": "For each backward operator L and its Gibbs measure mu, mu L f is the divergence of an explicit vector field that contains mu as a factor; the Fokker-Planck operator is the adjoint of the overdamped generator and Langevin.forward that of Langevin.backward with beta = 1 and V = y^2/2, up to an explicit divergence; map_operator(L, f, w) is L(w f)/w, and turns the Fokker-Planck operator into the overdamped generator for w = exp(-beta V).", "quantifier": "all potentials, parameters, functions and points", "why_tests_cant": "The identities are for all functions and potentials.", "anchors": ["hermipy/equations.py:map_operator", "hermipy/equations.py:Overdamped.backward", "hermipy/equations.py:Langevin", "hermipy/equations.py:Generalized_Langevin.backward", "hermipy/equations.py:Fokker_Planck_1d.equation"]}
{"id": "C87", "title": "Variational forms act as Galerkin approximations", "statement": "Quad.varf(f) applied to a series u is Quad.transform of the product of the values of f and of u on the grid, and Quad.discretize_op(L) applied to u is Quad.transform of the values on the grid of L applied to the function u stands for: the same series, with the same coefficients, position, factor and degree.", "quantifier": "all quadratures with diagonal covariance, index sets, degrees, functions f, differential operators L of order at most 5, factors that do not vanish on the grid, and series u of the same degree", "why_tests_cant": "It is an identity between two pipelines for all functions, operators and series; a test compares single matrices.", "anchors": ["hermipy/quad.py:Quad.varf", "hermipy/quad.py:Quad.discretize_op", "hermipy/quad.py:Quad.transform", "hermipy/quad.py:Quad.eval", "hermipy/varf.py:Varf.__call__"]}
{"id": "C88", "title": "Composite quadratures are weighted sums", "statement": "A CompQuad is made of at least one quadrature, as many weights, and equal positions, or raises ValueError. Its integrals and variational forms are the sums of those of the quadratures times the weights (ValueError if the factors of the first two differ). Its transform should be the same sum, but raises TypeError; equal composite quadratures should give equal integrals, but equality ignores the weights; its other methods raise.", "quantifier": "all lists of quadratures and weights, functions, index sets and degrees", "why_tests_cant": "The sums are for every list of quadratures and every function.", "anchors": ["hermipy/compquad.py:CompQuad"]}
{"id": "C89", "title": "Projecting a series averages over the other directions", "statement": "Series.project(directions) keeps the coefficients whose multi-indices are zero outside the directions, in the same kind of index set, with the position of the directions and the projection of the factor; as a function it is the mean of the series over the other directions. A direction the series does not have raises ValueError. Varf.project should do the same for operators, but always raises AttributeError.", "quantifier": "all series (dimensions, index sets, degrees, coefficients, factors), all non-empty increasing lists of directions, all points and all rules that average exactly", "why_tests_cant": "The coefficients kept depend on the set, the dimension and the directions, and the mean is a statement about every series and every point.", "anchors": ["hermipy/series.py:Series.project", "hermipy/varf.py:Varf.project", "hermipy/position.py:Position.project"]}
{"id": "C90", "title": "Eigenvectors of a variational form, and solving with gmres", "statement": "Varf.eigs returns the eigenvalues found by SciPy and for each a series with the position, the index set and the factor of the form which the form maps to the eigenvalue times the series; an imaginary part that is only rounding noise is dropped. Varf.solve with remove0 solves with the eigenvector of smallest eigenvalue removed, and raises if the eigensolver does not return exactly one. Varf.solve(use_gmres=True) should return a series the form maps to the right-hand side; it does so only with preconditioner='ilu' and when gmres has converged: without a preconditioner it always raises UnboundLocalError, and a result that has not converged is returned without notice.", "quantifier": "all variational forms (dimension, index set, degree, real matrix, factor), all eigenvalue solvers that return eigenpairs, all right-hand sides and all behaviours of gmres", "why_tests_cant": "The claim ranges over all matrices and over what the external solvers may return, including complex eigenvalues and failures to converge.", "anchors": ["hermipy/varf.py:Varf.eigs", "hermipy/varf.py:Varf.solve"]}
{"id": "C91", "title": "Equality of positions, series, variational forms and quadratures", "statement": "Comparing two positions, series, variational forms or quadratures with == is reflexive and symmetric, and objects that compare equal agree: same directions, types and factor, and means, covariances, coefficients, matrices, nodes and weights that differ by less than 1e-10 in each entry. Equal series should have the same coefficient at each multi-index, and equal forms the same factor; this fails because the index set, the degree and (for forms) the factor are not compared, and a series with one coefficient is broadcast. Equality is not transitive.", "quantifier": "all positions (any dimension, mean, covariance, types), all series, variational forms and quadratures, all multi-indices", "why_tests_cant": "Reflexivity, symmetry and what equality implies are statements about all pairs; the counterexamples need index sets of the same size.", "anchors": ["hermipy/position.py:Position.__eq__", "hermipy/series.py:Series.__eq__", "hermipy/varf.py:Varf.__eq__", "hermipy/quad.py:Quad.__eq__"]}
{"id": "C92", "title": "The weight of a position is the Gaussian density", "statement": "Position.weights() returns for each direction the normal density with the mean and variance of that direction (1 for a direction that is not Hermite), and Position.weight() should be their product. It is when all directions are Hermite or none is; for a mixed position it is too small by a factor sqrt(2 pi) for each direction that is not Hermite.", "quantifier": "all positions with diagonal covariance (any dimension, means, positive variances, types) and all points", "why_tests_cant": "An identity between functions of the point for every dimension, mean, covariance and list of types.", "anchors": ["hermipy/position.py:Position.weight", "hermipy/position.py:Position.weights"]}
{"id": "C93", "title": "Plots show the function", "statement": "Quad.plot draws the values of what it is given (a Function, an array of values on the grid, or a Series with an optional factor) at the mapped nodes mean + standard deviation * node, with every value at its own point: in one dimension a line through (x_i, f(x_i)), in two dimensions a map whose entry in row j and column i is f(x_i, y_j). Quad.plot_hf draws the basis function of the given multi-index times the factor of the quadrature, and raises ValueError for a multi-index of the wrong length.", "quantifier": "every quadrature with a diagonal Gaussian position in at most two dimensions, any directions, any numbers of nodes, means and variances; every Function, array, Series, factor and multi-index", "why_tests_cant": "A picture is rarely compared with numbers at all, and a swapped axis is invisible for symmetric functions, equal numbers of nodes or unit variances; the property is about every grid and every function.", "anchors": ["hermipy/quad.py:Quad.plot", "hermipy/quad.py:Quad.plot_hf", "hermipy/quad.py:Quad.series", "hermipy/quad.py:Quad.discretize", "hermipy/quad.py:Quad.eval"]}
{"id": "C94", "title": "Streamlines are level lines of a stream function", "statement": "Quad.streamlines draws level lines of a function psi on the grid that vanishes at the first node and satisfies psi(x_i, y_{j+1}) - psi(x_i, y_j) = u(x_i, y_{j+1}) (y_{j+1} - y_j) in every column and psi(x_{i+1}, y_0) - psi(x_i, y_0) = - v(x_{i+1}, y_0) (x_{i+1} - x_i) in the first row, where (u, v) is the given flow; if the flow has no discrete divergence the second equation holds in every row, and a constant flow gives psi = u (y - y_0) - v (x - x_0). The ten levels are equidistant, lie between the extreme values of psi and increase unless psi is constant. This should hold for flows given as Functions or Series, in any two directions.", "quantifier": "every quadrature with a diagonal Gaussian position in two dimensions, every flow, factor, number of nodes, mean and variance", "why_tests_cant": "The stream function is only seen as a picture; that it integrates the flow along every row and column, whatever the grid and the flow, and that the levels always increase, are universal statements.", "anchors": ["hermipy/quad.py:Quad.streamlines"]}
{"id": "C95", "title": "The low-level functions on Python values", "statement": "tensorize of a dictionary, a list or a single array (dense or sparse, matrices or vectors) gives the tensor product of what it is given, in the format asked for by its option sparse; numbers are multiplied; project keeps the entries with index zero in the other directions, a dense matrix giving a dense one and a sparse matrix a sparse one; inner contracts the shared directions. Which of these formats is used never changes a value.", "quantifier": "every index set, degree, number of factors, set of directions, dense or csr representation (any order of the stored entries, explicit zeros, and for tensorize duplicates) and all values", "why_tests_cant": "the formats multiply: dictionaries, lists and single arrays, dense and sparse in and out, five index sets, any dimension; a test meets a few of them", "anchors": ["hermipy/core.py:tensorize", "hermipy/core.py:project", "hermipy/core.py:inner", "hermipy/core.py:to_cpp_array", "hermipy/core.py:to_csr", "hermipy/core.py:convert_to_cpp_sparse", "hermipy/core.py:to_numpy", "cpp/src/hermite/python/module.cpp:BOOST_PYTHON_MODULE"]}
{"id": "C96", "title": "A Function is the expression it is made of", "statement": "Function(expr, dirs, dim) has the value of the expression at every point, whichever names the expression uses for the coordinates (x, y, z, w, v or x0 to x4) and whatever the assumptions of its symbols; symbols of other names are parameters and are kept. It depends on no coordinate outside its directions, and expressions that do are refused. Without directions the expression is always accepted, with the directions 0 to the largest coordinate it reads. as_xyz has the same value in the names x, y, z, w, v, and the Function made of it again is the same function.", "quantifier": "every expression, every list of directions, every number of dimensions, all points and all values of the parameters", "why_tests_cant": "expressions and mixtures of names are unlimited", "anchors": ["hermipy/function.py:Function.__init__", "hermipy/function.py:Function.as_xyz", "hermipy/operator.py:Operator.as_xyz"]}
{"id": "C97", "title": "Cleaning decimal coefficients", "statement": "Function.sanitize replaces the decimal coefficients of an expression by fractions with a denominator of at most max_denom. It keeps the value exactly when every decimal coefficient is such a fraction, and otherwise moves it by at most 1/(2 max_denom) times the sum of the absolute values of what stands beside the decimal coefficients.", "quantifier": "every expression with at most one decimal factor per term, every point, every max_denom of at most 5e13", "why_tests_cant": "the bound is over all real coefficients and all expressions", "anchors": ["hermipy/function.py:Function.sanitize"]}
{"id": "C98", "title": "Recomputing detects a wrong stored result", "statement": "A call with cache=False whose result is already stored compares the new result with the stored one: it returns the new result if they agree, raises ValueError if an entry differs by 1e-10 or more, and changes no file.", "quantifier": "all numbers, vectors, matrices and sparse matrices as new and as stored result", "why_tests_cant": "the comparison has one branch per type and ranges over all values", "anchors": ["hermipy/cache.py:gen_error", "hermipy/cache.py:cache"]}
{"id": "C99", "title": "Restrictions of series compose", "statement": "Series.subdegree and Series.project compose as their names promise. Changing the degree twice gives the multi-indices of the second degree with the coefficients of the series at those also of the first degree and 0 elsewhere, so lowering in two steps is lowering once and raising then lowering gives the series back. Projecting on a list of directions and then on a part of it is projecting on that part. Projecting commutes with changing the degree, except on a rectangular index set when the first direction is projected out, where it does not. Both operations commute with sums and multiples of series.", "quantifier": "all series, degrees up to 250, lists of directions in increasing order, all index sets (CrossNc has no subdegree), every number type satisfying the ring laws for sums and multiples", "why_tests_cant": "the claim relates two paths of operations for every series, pair of degrees and pair of lists of directions; the one combination that fails, a rectangle without its first direction, is easily missed by samples", "anchors": ["hermipy/series.py: Series.subdegree", "hermipy/series.py: Series.project", "hermipy/series.py: Series.__add__", "hermipy/series.py: Series.__mul__", "cpp/src/hermite/project.cpp: project"]}
{"id": "C100", "title": "The matrix of a multiplication operator", "statement": "Quad.varf / core.varf of a function f gives a symmetric matrix (on every index set, also when small coefficients are dropped). Where it is the discrete Galerkin matrix (C36), u . A v is the discrete integral of f times the two functions with coefficients u and v; the matrix depends linearly on f; it is positive semidefinite when f >= 0 on the grid and the weights are nonnegative; with exact rules every eigenvalue lies between the bounds of f on the grid and the matrix of f = 1 is the identity. On the hyperbolic cross positivity fails.", "quantifier": "all index sets, dimensions and degrees in the domain of the library, all grids, positive weights where stated and values of the function on the grid; exact real arithmetic", "why_tests_cant": "the statements are about every vector of coefficients and every function; positivity and the location of the spectrum cannot be sampled", "anchors": ["cpp/src/hermite/varf.cpp: varf", "hermipy/core.py: varf", "hermipy/quad.py: Quad.varf"]}
{"id": "C101", "title": "The calculus of the discretized derivatives", "statement": "With quadrature rules exact for the basis, the matrices computed by varf and varfd obey the rules of the continuous operators. The matrix of x_k has exactly the entries sqrt(n+1) and sqrt(n) of the three-term recurrence; the matrix of d/dx_k plus its transpose is the matrix of x_k (integration by parts with the Gaussian weight); the Ornstein-Uhlenbeck operator d^2/dx_k^2 - x_k d/dx_k is diagonal with entries minus the degree in direction k, equals minus D^T D, and summed over the directions gives minus the total degree. In a periodic direction the matrix of the derivative is antisymmetric and that of the second derivative is diagonal, with entries minus the square of the frequency.", "quantifier": "all index sets, dimensions, degrees and directions in the domain of the library, all exact quadrature rules (any number of nodes), all entries of the matrices; dense and sparse overloads; exact real arithmetic", "why_tests_cant": "the identities concern every entry of matrices of every size, dimension and index set, for every exact rule", "anchors": ["cpp/src/hermite/varf.cpp: varf, varfd", "hermipy/core.py: varf, varfd", "hermipy/quad.py: Quad.varf, Quad.varfd, Quad.discretize_op"]}
{"id": "C102", "title": "integrate, transform, varf and varfd on NumPy arrays and sparse matrices", "statement": "The functions transform, varf and varfd of the Python interface, called with arrays and lists of arrays, give the values that their description promises: transform the integrals against the basis functions, and backward the values of the series, each inverse to the other with exact rules; varf an array or a csr_matrix, as asked, with the same entries, which are the integrals of the function times two basis functions; varfd a matrix of the same kind as its argument, with the entries of the derivative. Calls compose: the Ornstein-Uhlenbeck operator built from varf and varfd is diagonal with the right eigenvalues. Without do_fourier the directions are Hermite ones. integrate does the same for the integral, and any matrix is accepted by varfd.", "quantifier": "all index sets, dimensions and degrees in the domain of the library, all rules and values on the grid, dense and sparse, all matrices (arrays with any strides, csr_matrices), all names of index sets; exact real arithmetic", "why_tests_cant": "the entries of matrices of every size, in both formats and through both conversions, are claimed; the failures depend on the memory layout of the argument", "anchors": ["hermipy/core.py: integrate, transform, varf, varfd, to_cpp_array, to_numpy, convert_to_cpp_sparse", "cpp/src/hermite/python/converters.cpp: to_boost_mat, to_numpy", "cpp/src/hermite/varf.cpp: varf, varfd", "cpp/src/hermite/transform.cpp: transform, integrate"]}
{"id": "C103", "title": "solve_gaussian returns the Gaussian steady state", "statement": "solve_gaussian(operator, f, variables), for an operator of order at most two in one, two or three variables, returns the Gaussian density of mean zero whose precision matrix is the solution found, with its normalisation constant, and the operator maps that function to zero, whenever the determinant of the matrix is positive. The check at its end only prints a message and does not change the result. A positive determinant does not make the result a density: the function returned can be unbounded, without a message. Another number of variables, a quotient that is not a polynomial and a system without solutions raise exceptions that do not name the cause.", "quantifier": "every operator of order at most two, number of variables, values of the parameters, and behaviour of the symbolic division, collection and solver that is correct", "why_tests_cant": "The tests try a few equations; the formulas for the determinant, the normalisation constant and the substitution must be right for every solution of the system, and for every value of the parameters.", "anchors": ["hermipy/equations.py: solve_gaussian"]}
{"id": "C104", "title": "Discretizing an expression, from its symbols to the array", "statement": "Quad.discretize(expr), for an expression whose symbols are names of coordinates of the quadrature (x, y, z, w, v or x0 to x4, with any assumptions), returns the values of the expression at the mapped nodes (mean plus factor times node), in the order of the grid. This holds of the whole path: the constructor of Function, the C++ text, the files in /tmp that processes share, the compiler and the evaluation; in every history of processes in which no two texts share a hash, no object is used while it is made and no process dies in the linker. A text that does not compile is undefined behaviour. Quad.mapped_nodes never returns, for any quadrature.", "quantifier": "every expression, list of directions, quadrature, number type of the nodes, state of /tmp and history of processes", "why_tests_cant": "The path crosses the symbolic conversion, a textual substitution by regular expressions, files shared between processes and compiled code; tests run a few expressions in one process with an empty /tmp.", "anchors": ["hermipy/quad.py: Quad.discretize, Quad.mapped_nodes", "hermipy/function.py: Function.__init__, Function.ccode", "cpp/src/hermite/discretize.cpp: intern_function, discretize_from_string, discretize"]}
{"id": "C105", "title": "What the pictures and texts of series and forms show", "statement": "Varf.plot draws a line after the last basis function of each degree for the triangle, the cube and the rectangle (for the hyperbolic cross from degree 1 on); it draws the entries of a dense form above the threshold, each once, at abscissa row and ordinate column, with their absolute values, and the stored entries of a sparse form with their signs. Series.plot draws each coefficient at its multi-index in one and two dimensions. repr of a series is one line per multi-index in the order of the coefficients; float of a series is its coefficient in dimension 0 and raises otherwise; series[i] is the coefficient of the i-th multi-index.", "quantifier": "all index sets, dimensions, degrees, matrices, series, and functions that print numbers", "why_tests_cant": "The positions of the lines follow from the order of the enumeration in every dimension and degree; a test compares one picture.", "anchors": ["hermipy/varf.py:Varf.plot", "hermipy/series.py:Series.plot", "hermipy/series.py:Series.__repr__", "hermipy/series.py:Series.__float__", "hermipy/series.py:Series.__getitem__"]}
{"id": "C106", "title": "Which arrays and series share memory", "statement": "After every sequence of constructions, operations and assignments to elements of arrays, each operation on series returns or raises what it would for copies of its arguments. Arithmetic, products of several series, projections, to_cross and subdegree to a higher degree change none of their arguments and return coefficients shared with nothing. A series changes only when somebody writes to an array that has an element in common with its coefficients, makes a series with significant digits from such an array, or plots it. A series made from a contiguous array shares it, one made from another array has a copy; subdegree to a degree that is not higher shares; tensorize of one series returns it.", "quantifier": "all histories of calls, all arrays (slices with any step included), series, positions, factors, index sets and degrees", "why_tests_cant": "Aliasing is a property of histories: whether a later write reaches a series depends on every earlier call that made or sliced an array.", "anchors": ["hermipy/series.py:Series.__init__", "hermipy/series.py:Series.subdegree", "hermipy/series.py:Series.tensorize", "hermipy/series.py:Series.__add__", "hermipy/series.py:Series.project", "hermipy/quad.py:Quad.plot"]}
{"id": "C107", "title": "The debug build checks its arguments and otherwise agrees with the release build", "statement": "Built with DEBUG, tensorize returns the same tensor product as the release build whenever the directions are 0 .. dim-1, each once, and all sizes belong to the same degree, and ends the process otherwise. The two builds agree on one matrix per axis, which is what the variational forms use.", "quantifier": "all index sets, degrees, dimensions, lists of directions and lists of vectors and of matrices", "why_tests_cant": "The two builds are two programs; a test suite runs one of them, and the checks have to accept every valid call and reject every other one.", "anchors": ["cpp/src/hermite/tensorize.cpp:check_dims", "cpp/src/hermite/tensorize.cpp:check_degree", "cpp/src/hermite/tensorize.cpp:_tensorize_mats_dirs", "cpp/CMakeLists.txt"]}
{"id": "C108", "title": "Products of positions and of quadratures", "statement": "The product p * q of two positions that have the same mean, variance and type in their common directions has exactly the directions that belong to one of them only, with their records; it does not depend on the order, has the position without directions as neutral element, cancels for p * p, associates, and for three positions is the product of their list when no direction is in all three. Positions that disagree on a mean or a variance raise. The product of quadratures in different directions with the same numbers of points has in each direction the rule of its owner, the position with all their records and the product of the factors; it commutes and associates up to the way the factor is written. Quadratures with different numbers of points or a common direction raise ValueError.", "quantifier": "all positions, quadratures, directions, means, variances, types, nodes, weights and factors; for the quadratures, lists of any length", "why_tests_cant": "A test multiplies a few positions. That the product of any two is independent of the order and that any three associate, and exactly when it raises, quantifies over all directions and records.", "anchors": ["hermipy/position.py:Position.__mul__", "hermipy/position.py:Position.tensorize", "hermipy/quad.py:Quad.__mul__", "hermipy/quad.py:Quad.tensorize"]}
{"id": "C109", "title": "Rounding errors of transforms, integrals, products of series and of matrices, and of the tables and matrices of varf.cpp", "statement": "In floating-point arithmetic whose operations have relative error at most u, every value of hermite_eval, every coefficient and every value returned by the two directions of transform, the result of integrate on Fourier axes, every coefficient of a tensorized product and of an inner product over common variables, and the products of vectors and matrices and the Euclidean norm differ from the exact ones by at most gamma_n = n u / (1 - n u) times the same sum with all signs made positive, where n is a stated count, linear in the number of grid points, of coefficients, and in the degree. Evaluating a series on a grid with exact rules and transforming the values back changes each coefficient by at most such a bound. For products of series in different variables the bound is relative to the coefficient itself. Every entry of the table of triple products of Hermite polynomials differs from the exact one by at most gamma_n, n = 15 min(i, j), times the corresponding number computed by the recurrence with positive signs; the table for Fourier functions and the matrices with a derivative returned by varfd have relative accuracy gamma_12 and gamma_4, entry by entry. Every entry of a tensor product of k matrices, dense or sparse, has relative accuracy gamma_(k-1), and projections round nothing. Double precision meets the hypothesis with u = 2^-53.", "quantifier": "all accurate roundings, dimensions, degrees, index sets, bases, grids, weights and inputs with n u < 1", "why_tests_cant": "a test compares a few values with a tolerance; a bound on the error must hold for every grid, degree and input, including those with cancellation", "anchors": ["cpp/src/hermite/transform.cpp: transform, integrate", "cpp/src/hermite/hermite.cpp: hermite_eval", "cpp/src/hermite/tensorize.cpp: tensorize", "cpp/src/hermite/inner.cpp: inner", "cpp/src/hermite/templates.cpp: operator*", "cpp/src/hermite/templates.hpp: fabs", "cpp/src/hermite/varf.cpp: triple_products_1d, triple_products_fourier, varfd"]}
{"id": "C110", "title": "Operators on vectors and matrices, conversions through ublas, printing", "statement": "For square matrices of the same size the operators * of the C++ library are the matrix product and its application to vectors: they associate, have eye as neutral element and compose. Vector sums, differences and multiples are entry by entry, the product of vectors is symmetric, and fabs is the Euclidean norm of vectors and the Frobenius norm of matrices: homogeneous, subadditive, zero only for zero, with the Cauchy-Schwarz inequality. Conversions of dense and sparse matrices to ublas matrices and back keep every entry. Printing writes the elements between brackets. For other shapes: the product of an n x m and a p x q matrix only uses the leading n rows and columns, and is undefined when they do not exist; a second vector that is shorter, a matrix without rows to convert and an empty vector to print are undefined behaviour.", "quantifier": "all sizes and entries, all arithmetics (exact ones for the laws, the reals for the norm)", "why_tests_cant": "the laws and the shapes for which the loops stay in range are statements about all sizes; a test with square matrices does not see the missing bounds", "anchors": ["cpp/src/hermite/templates.cpp: operator*", "cpp/src/hermite/templates.hpp: operator-, operator+, fabs, operator*", "cpp/src/hermite/matrix.cpp: naive_convert, convert", "cpp/src/hermite/io.hpp: printVec, printMat"]}
{"id": "C111", "title": "The cache survives killed processes and parallel runs", "statement": "Several processes that share a cache directory call the same cached function with the same arguments, in any interleaving of their system calls, and any of them may be killed at any point. As long as at most one of them is writing the file at a time, every call that ends returns the result of the function (dense results: always, if the directory exists and an incomplete file raises ValueError), the file is always a beginning of the right one, and after any such history a call on its own ends, returns the result and leaves the complete file. If nobody is killed the file is absent or complete whenever nobody writes, even with many writers.", "quantifier": "all interleavings of all numbers of processes, all crash points, all sizes of the reads and writes, all contents and formats of the file", "why_tests_cant": "the interleavings, the crash points and the ways the system splits reads and writes are unbounded in number, and the bad ones take microseconds", "anchors": ["hermipy/cache.py: cache"]}
{"id": "C112", "title": "The transform gives the best approximation", "statement": "For a quadrature that integrates the products of the basis functions exactly, the series that transform returns is the one with the smallest weighted square error at the grid points among all series with these basis functions, and the only one; the error is orthogonal to the basis functions; more basis functions never give a larger error; with nonnegative weights the coefficients are not longer than the function and a change of the values changes them by no more than its length.", "quantifier": "all index sets, degrees, dimensions, exact rules (Hermite and Fourier), lists of values and competing coefficient vectors", "why_tests_cant": "the comparison is with every other series, for every function and every grid", "anchors": ["cpp/src/hermite/transform.cpp: _transform, transform"]}
{"id": "C113", "title": "Equations depend on exactly the parameters they document", "statement": "equation(params) (backward(params) for Overdamped, Langevin and Generalized_Langevin) reads a fixed set of keys of the dictionary: two dictionaries that agree on these keys give the same equation whatever else they contain and in whatever order, and a dictionary without one of them raises a KeyError. The dictionary that params() returns has exactly these keys, so equation(params()) is the equation with symbolic parameters. Generalized_Langevin.backward has one auxiliary process as soon as the key α is present, two as soon as A11 is and α is not, and otherwise the friction γ, without which it raises a ValueError; params(n) raises an AssertionError unless n is 1 or 2, and a friction γ added to its result is ignored.", "quantifier": "all dictionaries of parameters (any keys, values and order), all potentials, with or without undefined functions", "why_tests_cant": "a test tries a few dictionaries; that no other key is read, and which case wins when several keys are present, concerns every dictionary", "anchors": ["hermipy/equations.py: Fokker_Planck_1d, McKean_Vlasov_white, McKean_Vlasov, McKean_Vlasov_harmonic_noise, Overdamped.backward, Langevin.backward, Generalized_Langevin.params, Generalized_Langevin.backward"]}
{"id": "C114", "title": "Statistics and trails tell what was called", "statement": "Whatever the program, its exceptions, its nesting and recursion, and the settings, the statistics of a decorated function are the number and the total duration of its calls that returned. The settings and the decorator change neither what a program returns or raises nor its statistics, and without trails nothing is printed. With trails, a program that raises nothing prints well nested lines: one for each call, at its depth, in the order in which calls begin, and one for each call that took longer than the threshold, in the order in which they end. print_stats prints one line for each function with a call that returned, with these numbers, in the order of the first returns. The debug decorator prints nothing unless enabled or forced, and otherwise one line for each argument and keyword, in order.", "quantifier": "all programs of nested, recursive and failing decorated calls with any clock values, all settings and thresholds, all ways of writing numbers and times, all lists of arguments", "why_tests_cant": "the indentation and the statistics are global variables that every decorated call of a session changes, so they depend on the whole history of calls and exceptions", "anchors": ["hermipy/stats.py: log_stats, print_stats, debug, stats, indent, threshold"]}
{"id": "C115", "title": "Expressions of series, forms and numbers", "statement": "An expression with +, -, * and / of series and variational forms (each with the same position, index set, factor and size), numbers and other objects either gives a number, a series or a form whose entries are those of the expression computed entry by entry, a number counting as a constant array, or raises the first exception in the order of evaluation; which of the two depends only on the kinds of the operands, by a fixed table. Hence expressions can be rewritten with the laws of arithmetic as long as both sides are accepted. sum(forms) is the sum of the forms.", "quantifier": "all expressions of any size and shape, all series, forms and numbers, all positions, index sets, factors and sizes", "why_tests_cant": "which method Python calls depends on the kinds of both operands, and the combinations in nested expressions are without bound", "anchors": ["hermipy/series.py: Series.__add__, __mul__, __rmul__, __sub__, __neg__, __truediv__", "hermipy/varf.py: Varf.__add__, __radd__, __mul__, __rmul__, __sub__, __neg__"]}
{"id": "C116", "title": "Options of integrate, transform, varf and varfd", "statement": "With the options given as keywords, in any order, a call of Quad.integrate, transform, varf or varfd is tensorized exactly when the option tensorize (or, if it is None or missing, the setting) asks for it, the quadrature is diagonal and the argument is a function rather than an array or a series; every other option has the given value or its default; varf and varfd return a sparse form exactly when the option sparse (or else the setting) asks for it. An option other than sparse and tensorize has the same effect by position. A call with an unknown option or too many arguments raises TypeError.", "quantifier": "all four methods, all settings, all lists of positional arguments and all dictionaries of keyword arguments in any order, all numbers of groups of variables", "why_tests_cant": "the meaning of a call depends on the settings and on which of the arguments are given by position, by keyword or not at all; a test tries a few combinations", "anchors": ["hermipy/quad.py: Quad.tensorize_at, integrate, transform, varf, varfd", "hermipy/varf.py: Varf.tensorize"]}
{"id": "C117", "title": "Coefficient of the noise from a potential", "statement": "McKean_Vlasov.equation with a dictionary whose Vy is a given function of y computes the coefficient of the noise without undefined behaviour. The number it computes by a linear system does not depend on which solution the solver returns when the matrix is symmetric, it is then the largest value of 2 v.b - v.Av, and it is replaced by a fraction within 1/(2 10^8) of it. The matrix of the generator V' f' - f'', discretized with the factor of the code, is symmetric: the matrix of the Ornstein-Uhlenbeck operator plus the quadrature of a function of V' and V''. The right-hand side holds the coefficients of y divided by the factor. Were the integral computed, the result would be limit_denominator(x.b) for every solution x of that system.", "quantifier": "all dictionaries of parameters, all potentials Vy without undefined functions, all nodes and weights, all linear solvers that return solutions, all symmetric matrices and right-hand sides", "why_tests_cant": "A test runs one potential, where reads and writes past a buffer may go unnoticed, and one solver; the claims are about every potential and every solver.", "anchors": ["hermipy/equations.py: McKean_Vlasov.fluxes, McKean_Vlasov.equation", "hermipy/quad.py: Quad.integrate, Quad.gauss_hermite, Quad.discretize_op, Quad.transform"]}
{"id": "C118", "title": "Projections on one direction in C++ and keys of multi-indices", "statement": "hermite_cpp.project with one direction keeps exactly the coefficients, or entries, of the multi-indices that vanish in the other directions, for vectors, dense and sparse matrices, and ends the process for a name that is not one of an index set. isAligned with one direction holds exactly if the other entries vanish. hash_multi_ind gives different keys to different multi-indices of the same length with entries up to the degree.", "quantifier": "all index sets, dimensions, degrees up to 250 that the code supports, directions, vectors and matrices over any numbers, all names; all multi-indices and degrees", "why_tests_cant": "A test projects a few vectors and compares a few keys; collisions of keys need many dimensions, and the claim is about every vector, direction and multi-index.", "anchors": ["cpp/src/hermite/project.cpp: project_vec_1d, project_mat_1d, project_vec_nd, project_mat_nd", "cpp/src/hermite/lib.cpp: isAligned, hash_multi_ind", "cpp/src/hermite/python/module.cpp: project"]}
{"id": "C119", "title": "Tables of triple products for every degree", "statement": "core.triple_products(degree) returns the table of the products of the Hermite polynomials up to the degree, and core.triple_products_fourier(degree) that of the Fourier functions for an even degree; every other int raises an exception. Each table is the only one with its shape and products, it does not depend on the order of the three indices, and tables for two degrees have the same entries.", "quantifier": "all Python ints as degrees, all indices, all real arguments of the polynomials and functions", "why_tests_cant": "A test computes the tables for a few small degrees; the claims are about every degree, including the negative ones and those where int arithmetic overflows, and about all tables.", "anchors": ["hermipy/core.py: triple_products, triple_products_fourier", "cpp/src/hermite/varf.cpp: triple_products_1d, triple_products_fourier", "cpp/src/hermite/python/module.cpp: triple_products, triple_products_fourier"]}
{"id": "C120", "title": "The coefficients of a series are determined by its values", "statement": "Two vectors of coefficients over the same index set whose backward transforms have the same values at all points are the same vector: no two series over the same set of directions represent the same function. Two Series with the same position, index set, degree and factor that Quad.eval gives the same values everywhere are equal, if the factor vanishes nowhere.", "quantifier": "all index sets, dimensions and degrees the code supports, all choices of Hermite and Fourier directions, all pairs of vectors of coefficients", "why_tests_cant": "A test compares a few vectors at a few points; the claim is about every pair of vectors, in every dimension and degree.", "anchors": ["cpp/src/hermite/transform.cpp: transform", "hermipy/core.py: transform", "hermipy/series.py: Series", "hermipy/quad.py: Quad.eval"]}
{"id": "C121", "title": "Subscripts of series and variational forms", "statement": "series[i] is the coefficient of the i-th multi-index of series.multi_indices(), counted from the end for a negative i; varf[i] is the row, and varf[i, j] the entry, of the multi-indices that i and j name in the same way. Every other int raises IndexError.", "quantifier": "all ints as subscripts, all series and dense variational forms over any numbers, index sets, dimensions and degrees the code supports", "why_tests_cant": "A test reads a few elements; the claim is about every subscript, index set and degree.", "anchors": ["hermipy/series.py: Series.__getitem__", "hermipy/varf.py: Varf.__getitem__"]}
{"id": "C122", "title": "Printed vectors, matrices and cubes can be read back", "statement": "Writing a vector, a matrix or a cube of unsigned integers to a stream writes its elements in order between brackets, separated by commas in a vector and by new lines elsewhere. The text determines what was written and where it ends, whatever is written after it: no two different vectors, matrices or cubes are printed alike. Nothing can be printed, because the behaviour is undefined, exactly when the object or one of its parts is empty.", "quantifier": "all vectors, matrices (with rows of any lengths) and cubes of unsigned integers, and all texts written after them", "why_tests_cant": "A test prints a few matrices; that no two are printed alike is a claim about all pairs.", "anchors": ["cpp/src/hermite/io.hpp: printVec, printMat, printCube, operator<<"]}
