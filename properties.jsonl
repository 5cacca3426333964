{"id": "C01", "title": "Group names are reported once each, in order of first appearance", "statement": "The list of group names used to label every grouped analysis has no duplicates, contains exactly the names that occur in the problem's `groups` (or `names` when no groups are given), lists them in order of first appearance, and the reported count is its length.", "quantifier": "every problem dictionary: any list of names, any (possibly missing or empty) list of groups", "why_tests_cant": "tests check two or three hand-written group lists; the order/duplicate/coverage law ranges over all lists", "anchors": ["src/SALib/util/__init__.py:extract_group_names", "src/SALib/util/__init__.py:compute_groups_matrix"]}
{"id": "C02", "title": "The group matrix assigns every parameter to exactly one group", "statement": "In the 0/1 matrix built from a group list, entry (i,k) is 1 exactly when parameter i belongs to the k-th group name; each row has exactly one 1, each column at least one.", "quantifier": "every list of group labels", "why_tests_cant": "finite examples cannot cover all label lists (repetitions, interleavings)", "anchors": ["src/SALib/util/__init__.py:compute_groups_matrix", "src/SALib/sample/morris/morris.py:_generate_trajectory", "src/SALib/analyze/morris.py:_compute_grouped_metric"]}
{"id": "C03", "title": "Uniform scaling maps the unit cube onto the bounds, monotonically", "statement": "After scaling a matrix with entries in [0,1] to bounds [l,u], every entry lies within its parameter's bounds, 0 maps to l and 1 to u, the order of two values of a column is preserved and distinct values stay distinct; shape is unchanged.", "quantifier": "every sample matrix and every list of bounds accepted by the scaler", "why_tests_cant": "interval membership and monotonicity are claims about all real inputs", "anchors": ["src/SALib/util/__init__.py:_scale_samples", "src/SALib/util/__init__.py:scale_samples"]}
{"id": "C04", "title": "Bounds are accepted exactly when every lower bound is below its upper bound, and rejection changes nothing", "statement": "Scaling (and unscaling) raises ValueError exactly when some parameter has lower >= upper; when it raises, the caller's sample array is unmodified and the problem is not marked as scaled.", "quantifier": "every bounds list, including mixtures of valid and invalid rows", "why_tests_cant": "the iff and the absence of partial mutation are quantified over every position of the bad row", "anchors": ["src/SALib/util/__init__.py:_scale_samples", "src/SALib/util/__init__.py:_unscale_samples", "src/SALib/util/util_funcs.py:_check_bounds", "src/SALib/util/__init__.py:scale_samples"]}
{"id": "C05", "title": "Unscaling inverts scaling", "statement": "Scaling then unscaling (and unscaling then scaling) with the same accepted bounds returns the original matrix.", "quantifier": "every matrix and every accepted bounds list", "why_tests_cant": "round-trip law over all matrices", "anchors": ["src/SALib/util/__init__.py:_scale_samples", "src/SALib/util/__init__.py:_unscale_samples"]}
{"id": "C06", "title": "Non-uniform scaling keeps samples in the support and preserves order, and rejects invalid distribution parameters", "statement": "For each column the chosen inverse CDF is applied to that column only; unif, triang, logunif and truncnorm columns land within [lower, upper], lognorm columns are positive and weibull columns are not below their location; within a column order is preserved; unknown distribution names and the documented invalid parameter combinations raise ValueError, and so does a mismatch between the number of distributions and of columns; a missing bounds entry raises IndexError.", "quantifier": "every matrix with entries in [0,1], every list of (bounds, dist) pairs", "why_tests_cant": "support and monotonicity are infinite claims; rejection must hold for all parameter values", "anchors": ["src/SALib/util/__init__.py:_nonuniform_scale_samples", "src/SALib/util/__init__.py:scale_samples"]}
{"id": "C07", "title": "Parameter files give one parameter per row, with faithful defaults", "statement": "Reading a parameter file yields one name, one bounds pair per non-comment row in file order; `groups` is absent exactly when every row's group is its own name; a file where all parameters share a single foreign group is rejected; `dists` is absent exactly when every row is uniform; num_vars equals the number of names, bounds and (if present) groups and dists.", "quantifier": "every sequence of parsed rows, including comments and missing columns", "why_tests_cant": "all combinations of present/absent columns across arbitrarily many rows", "anchors": ["src/SALib/util/util_funcs.py:read_param_file", "src/SALib/util/util_funcs.py:_check_groups"]}
{"id": "C08", "title": "Grouping defaults are consistent and idempotent", "statement": "Completing a problem with default groups gives one label per parameter or raises ValueError on a length mismatch, never changes an explicit valid grouping, and doing it twice equals doing it once; the sampler's group test returns a grouping exactly when it has at least two distinct labels and differs from the names.", "quantifier": "every problem dictionary", "why_tests_cant": "universal over names/groups lists", "anchors": ["src/SALib/util/__init__.py:_define_problem_with_groups", "src/SALib/util/util_funcs.py:_define_problem_with_groups", "src/SALib/util/util_funcs.py:_check_groups"]}
{"id": "C09", "title": "Latin hypercube: every parameter has exactly one sample in each of the N strata", "statement": "For every column of the N-row Latin hypercube (before scaling) and every k<N, exactly one row has its value in [k/N,(k+1)/N); after uniform scaling the same holds for the N equal sub-intervals of the parameter's bounds.", "quantifier": "every N>=1, every number of parameters and groups, every outcome of the random draws and shuffles", "why_tests_cant": "must hold for every random stream", "anchors": ["src/SALib/sample/latin.py:sample"]}
{"id": "C10", "title": "Latin hypercube: parameters of a group move together, shape is N x D", "statement": "The sample has N rows and one column per parameter, and before scaling two parameters in the same group have identical columns.", "quantifier": "every grouping, every random stream", "why_tests_cant": "quantifies over random streams and all groupings", "anchors": ["src/SALib/sample/latin.py:sample"]}
{"id": "C11", "title": "Saltelli design: which coordinates each row takes from A and from B", "statement": "The k-th AB row of a block equals the A row except on the parameters of group k, where it equals the B row; the k-th BA row is the mirror image; the first row is A and the last is B. The number of rows is N(2G+2) with second order and N(G+2) without, G being the number of groups (or parameters).", "quantifier": "every base matrix, every N, number of parameters, grouping, and both settings of calc_second_order", "why_tests_cant": "row/column index arithmetic over all sizes and groupings", "anchors": ["src/SALib/sample/sobol.py:sample", "src/SALib/sample/saltelli.py:sample"]}
{"id": "C12", "title": "Sobol' analysis reads back exactly what the sampler laid out", "statement": "Evaluating any deterministic model row by row on a Saltelli design and splitting the output vector in the analyser yields the model's values at A, B, AB_k and BA_k, in order, for each k; no output is dropped, duplicated or attributed to another group.", "quantifier": "every model function, base sample, N, grouping and both settings of calc_second_order", "why_tests_cant": "sampler and analyser are separate files whose index arithmetic must agree for all sizes", "anchors": ["src/SALib/sample/sobol.py:sample", "src/SALib/sample/saltelli.py:sample", "src/SALib/analyze/sobol.py:separate_output_values", "src/SALib/analyze/sobol.py:analyze"]}
{"id": "C13", "title": "Output vectors of the wrong length are rejected by the Sobol' analyser", "statement": "sobol.analyze raises RuntimeError exactly when the number of outputs is not a multiple of the block size (2G+2 or G+2) and never reads outside the vector; and the sampler's and analyser's notions of G agree for every problem, so that a design of one is accepted by the other.", "quantifier": "every output length, every problem (including single-group problems)", "why_tests_cant": "agreement between two independently computed group counts over all problems", "anchors": ["src/SALib/analyze/sobol.py:analyze", "src/SALib/util/util_funcs.py:_check_groups", "src/SALib/util/__init__.py:extract_group_names"]}
{"id": "C14", "title": "A parameter group the model ignores gets zero first- and total-order index", "statement": "If the model's output does not depend on the parameters of group k and the computed standard deviation of the output is not 0, the reported S1 and ST of group k are exactly 0 (in real arithmetic), and so are its confidence intervals and kept bootstrap resamples wherever they are numbers.", "quantifier": "every model ignoring group k, every base sample and resampling", "why_tests_cant": "universally quantified over models and samples", "anchors": ["src/SALib/analyze/sobol.py:first_order", "src/SALib/analyze/sobol.py:total_order", "src/SALib/analyze/sobol.py:analyze"]}
{"id": "C15", "title": "Sobol' indices: total-order indices are never negative; results are unaffected by rescaling the output", "statement": "Every reported ST is >= 0, and replacing Y by a*Y+b with a>0 leaves every S1, ST and S2 unchanged (a<0 too).", "quantifier": "every output vector of legal length, all real a<>0, b", "why_tests_cant": "universal algebraic law over all outputs", "anchors": ["src/SALib/analyze/sobol.py:analyze", "src/SALib/analyze/sobol.py:first_order", "src/SALib/analyze/sobol.py:total_order", "src/SALib/analyze/sobol.py:second_order"]}
{"id": "C16", "title": "A constant model output yields all-zero Sobol' indices, not a division by zero", "statement": "When all outputs used by an estimator are equal, first_order, total_order and second_order return 0 and their confidence is 0, rather than NaN; this holds in serial and in parallel mode.", "quantifier": "every constant output of every legal length", "why_tests_cant": "the degenerate branch must be taken for all sizes and both execution modes", "anchors": ["src/SALib/analyze/sobol.py:first_order", "src/SALib/analyze/sobol.py:total_order", "src/SALib/analyze/sobol.py:second_order", "src/SALib/analyze/sobol.py:sobol_parallel"]}
{"id": "C17", "title": "Sobol' analysis gives the same table whatever the number of processors", "statement": "The parallel analysis computes each of the S1/S1_conf/ST/ST_conf entries for each group and each S2/S2_conf pair j<k exactly once and stores it in the right cell, however the tasks are interleaved and chunked over processors.", "quantifier": "every number of groups, every number of processors, both settings of calc_second_order", "why_tests_cant": "schedules and chunkings are unbounded", "anchors": ["src/SALib/analyze/sobol.py:create_task_list", "src/SALib/analyze/sobol.py:sobol_parallel", "src/SALib/analyze/sobol.py:Si_list_to_dict", "src/SALib/analyze/sobol.py:analyze"]}
{"id": "C18", "title": "Second-order estimator is symmetric-consistent and reported only for pairs j<k", "statement": "S2[j,k] is filled exactly for j<k and NaN elsewhere; the data-frame conversion lists each unordered pair of distinct names exactly once together with its own entry.", "quantifier": "every number of groups", "why_tests_cant": "index-pair bookkeeping for all sizes", "anchors": ["src/SALib/analyze/sobol.py:analyze", "src/SALib/analyze/sobol.py:Si_to_pandas_dict", "src/SALib/analyze/sobol.py:Si_list_to_dict"]}
{"id": "C19", "title": "Sobol' sequence points lie in [0,1) and generation never leaves its tables", "statement": "Every generated coordinate is in [0,1); all direction-number lookups are in range for every N whose bit count (as computed) is at most 31 and every dimension the tables support; every other request (N = 0 included) raises ValueError and nothing else.", "quantifier": "every N and D", "why_tests_cant": "bit-level invariants for all N (up to 2^31) and 21201 dimensions", "anchors": ["src/SALib/sample/sobol_sequence.py:sample", "src/SALib/sample/sobol_sequence.py:index_of_least_significant_zero_bit", "src/SALib/sample/directions.py:directions"]}
{"id": "C20", "title": "Sobol' sequence: the first 2^k points of every dimension hit each of the 2^k equal strata exactly once", "statement": "For every k with 2^k <= N and every dimension, exactly one of the first 2^k points lies in [i/2^k,(i+1)/2^k) for each i<2^k; the same holds for every aligned block of 2^k consecutive points.", "quantifier": "every k, dimension and aligned block", "why_tests_cant": "a digital-net property over all powers of two", "anchors": ["src/SALib/sample/sobol_sequence.py:sample"]}
{"id": "C21", "title": "Direction-number table is well formed", "statement": "For every dimension in the shipped table, the initial direction numbers m_1..m_s are odd and m_j<2^j, and the coded polynomial coefficient fits its degree, which is what stratification of that dimension needs.", "quantifier": "all rows of the shipped table", "why_tests_cant": "tests sample a few dimensions; the claim covers the whole table and is used as a hypothesis of the stratification theorem", "anchors": ["src/SALib/sample/directions.py:directions", "src/SALib/sample/sobol_sequence.py:sample"]}
{"id": "C22", "title": "FAST sampler: frequencies are positive, bounded and interference-free", "statement": "Whenever the sampler accepts N and M, the driver frequency omega_0>=2M·m with m>=1, every complementary frequency is between 1 and m, no zero modulus is ever taken, and N > 2·M·omega_0, so that the harmonics used by the analyser are below the Nyquist index.", "quantifier": "every N, M, D accepted by the sampler", "why_tests_cant": "integer inequality with floors over all N, M, D", "anchors": ["src/SALib/sample/fast_sampler.py:sample"]}
{"id": "C23", "title": "FAST sampler: shape, range and which column gets the driver frequency", "statement": "The sample has N*D rows and D columns with values in [0,1] before scaling; in block i, column i is driven at omega_0 and the other columns receive the complementary frequencies in order, each exactly once.", "quantifier": "every N, D, M and every random phase shift", "why_tests_cant": "for all phases and sizes", "anchors": ["src/SALib/sample/fast_sampler.py:sample"]}
{"id": "C24", "title": "FAST analyser: 0 <= S1 <= ST <= 1, spectrum lookups stay in range, and the reference power is the output variance", "statement": "For every output vector of more than 4M values per parameter (all accepted FAST designs), all spectrum indices used for S1 and ST are distinct and within the spectrum, 0 <= S1 <= ST <= 1 whenever the visible spectrum is not zero and both are nan otherwise; twice the visible power equals the variance of the block (odd N) or the variance less the share of the highest frequency (even N). For smaller samples, which the analyser accepts too, S1 can exceed 1.", "quantifier": "every spectrum, every N, M accepted by the sampler", "why_tests_cant": "index and inequality laws over all N, M and outputs", "anchors": ["src/SALib/analyze/fast.py:analyze", "src/SALib/analyze/fast.py:compute_orders"]}
{"id": "C25", "title": "FAST analyser pairs each parameter with its own block", "statement": "The outputs analysed for parameter i are exactly the model's values on the i-th block of the FAST design; lengths not divisible by the number of parameters are rejected.", "quantifier": "every model, N, D", "why_tests_cant": "slicing arithmetic for all sizes", "anchors": ["src/SALib/analyze/fast.py:analyze", "src/SALib/sample/fast_sampler.py:sample"]}
{"id": "C26", "title": "Fractional factorial design is balanced and orthogonal", "statement": "The contrast matrix has entries +1/-1, 2·2^k rows and 2^k columns where 2^k is the least power of two >= number of parameters; every two distinct columns are orthogonal, every column sums to zero, and scaled samples use only the lower and upper bounds, equally often.", "quantifier": "every number of parameters up to 512", "why_tests_cant": "orthogonality for all k is an inductive fact", "anchors": ["src/SALib/sample/ff.py:generate_contrast", "src/SALib/sample/ff.py:sample", "src/SALib/sample/ff.py:find_smallest"]}
{"id": "C27", "title": "Fractional factorial main effects recover linear coefficients", "statement": "For Y = c0 + sum_j c_j x_j + (products of two factors) evaluated on the design, the reported ME of factor j equals c_j(u_j-l_j)/2 for the linear part, dummy variables get 0, and two-factor products contribute nothing to main effects when expressed in coded units.", "quantifier": "every coefficient vector, bounds and number of parameters", "why_tests_cant": "algebraic identity for all models of the class", "anchors": ["src/SALib/analyze/ff.py:analyze", "src/SALib/sample/ff.py:sample"]}
{"id": "C28", "title": "Fractional factorial interactions vanish for additive models and are listed once per pair", "statement": "For a model linear in the factors every reported interaction effect is exactly 0, and the interaction list contains each unordered pair of (real and dummy) factors exactly once, with its names in the same order as its value.", "quantifier": "every coefficient vector and every number of parameters", "why_tests_cant": "all pairs, all sizes, all coefficients", "anchors": ["src/SALib/analyze/ff.py:interactions"]}
{"id": "C29", "title": "Padding the problem to a power of two is idempotent and only appends dummies", "statement": "extend_bounds keeps the original names and bounds as a prefix, appends unit-range dummies up to the least power of two, gives equally many names, bounds and num_vars, and applying it again changes nothing; more than 512 parameters cannot be handled, and a problem that also specifies distributions is still sampled.", "quantifier": "every problem", "why_tests_cant": "all sizes; interaction with optional fields", "anchors": ["src/SALib/sample/ff.py:extend_bounds", "src/SALib/sample/ff.py:find_smallest", "src/SALib/sample/ff.py:sample", "src/SALib/analyze/ff.py:analyze"]}
{"id": "C30", "title": "Morris trajectories change one group at a time by exactly delta", "statement": "Each trajectory has G+1 points; consecutive points differ exactly on the parameters of one group, each of which moves by +delta or -delta; over a trajectory every group moves exactly once.", "quantifier": "every number of parameters, grouping, number of levels and every random draw", "why_tests_cant": "for all random orders, directions and starting points", "anchors": ["src/SALib/sample/morris/morris.py:_generate_trajectory", "src/SALib/sample/morris/morris.py:_compute_b_star"]}
{"id": "C31", "title": "Morris points stay in the unit cube and on the level grid", "statement": "Every coordinate of every trajectory point is in [0,1]; for an even number of levels p it is a multiple of 1/(p-1).", "quantifier": "every even p>=2 for the grid, every p for the cube, every random draw", "why_tests_cant": "for all levels and draws; the tests only use p=4", "anchors": ["src/SALib/sample/morris/morris.py:_generate_x_star", "src/SALib/sample/morris/morris.py:_generate_trajectory", "src/SALib/util/__init__.py:_compute_delta"]}
{"id": "C32", "title": "Morris elementary effects recover a linear model exactly", "statement": "For a linear model evaluated on any Morris design without groups, every elementary effect of parameter j equals c_j times its range, hence mu = c_j·range, mu_star = |c_j|·range and sigma = 0 (unscaled analysis).", "quantifier": "every linear model, bounds, number of trajectories, levels and random draw", "why_tests_cant": "sampler and analyser must agree for every trajectory order/direction", "anchors": ["src/SALib/analyze/morris.py:_compute_elementary_effects", "src/SALib/analyze/morris.py:_reorganize_output_matrix", "src/SALib/analyze/morris.py:analyze", "src/SALib/sample/morris/morris.py:sample"]}
{"id": "C33", "title": "Morris measures: mu_star >= |mu|, sigma >= 0, ignored parameters get zero", "statement": "For every output vector mu_star >= |mu| and sigma >= 0; a parameter on which the model does not depend gets mu = mu_star = sigma = 0; a group's mu_star is the mean of its members' and sigma is reported only for singleton groups.", "quantifier": "every output and every grouping", "why_tests_cant": "inequality over all outputs", "anchors": ["src/SALib/analyze/morris.py:_compute_statistical_outputs", "src/SALib/analyze/morris.py:_compute_grouped_metric", "src/SALib/analyze/morris.py:_compute_grouped_sigma"]}
{"id": "C34", "title": "Morris analysis splits the output vector into whole trajectories", "statement": "If the number of outputs is a multiple of G+1 the output is split into exactly that many trajectories of G+1 points; otherwise the mismatch is reported rather than silently analysed.", "quantifier": "every output length and group count", "why_tests_cant": "integer arithmetic for all sizes", "anchors": ["src/SALib/analyze/morris.py:analyze"]}
{"id": "C35", "title": "Brute-force optimal trajectories really are optimal", "statement": "The brute-force strategy returns k distinct, increasing trajectory indices whose spread score is at least that of every other k-subset, independent of how the combinations are chunked.", "quantifier": "every distance matrix, every N and k with 2<=k<N, every chunk size", "why_tests_cant": "optimality over all subsets and matrices", "anchors": ["src/SALib/sample/morris/brute.py:BruteForce", "src/SALib/sample/morris/strategy.py:Strategy"]}
{"id": "C36", "title": "Local-optimisation strategy returns k distinct trajectories", "statement": "The locally optimised strategy returns k distinct, increasing, in-range trajectory indices.", "quantifier": "every distance matrix (symmetric, zero diagonal), every N and k", "why_tests_cant": "distinctness can fail only on special matrices that tests do not build", "anchors": ["src/SALib/sample/morris/local.py:LocalOptimisation"]}
{"id": "C37", "title": "Optimal-trajectory output consists of whole original trajectories", "statement": "The optimised sample is the concatenation of the selected trajectories, each copied unchanged (all rows, all columns) from the input sample; the requested count k is rejected when k<2 or k>=N.", "quantifier": "every sample matrix, selection, N, k", "why_tests_cant": "block copying for all sizes", "anchors": ["src/SALib/sample/morris/strategy.py:Strategy.sample", "src/SALib/sample/morris/strategy.py:Strategy.compile_output", "src/SALib/sample/morris/strategy.py:Strategy.run_checks"]}
{"id": "C38", "title": "Finite-difference design: base point followed by one-at-a-time steps inside the bounds", "statement": "The sample has N(D+1) rows; each block is a base point followed by D rows, the j-th differing from the base at most in coordinate j; all points lie within the bounds; the step actually differs from the base unless the base coordinate is zero or at a bound.", "quantifier": "every base sample, bounds, delta", "why_tests_cant": "all base points including zero and clamped coordinates", "anchors": ["src/SALib/sample/finite_diff.py:sample"]}
{"id": "C39", "title": "DGSM on a linear model", "statement": "For a linear model evaluated on any finite-difference design in which no perturbed coordinate equals its base, vi of parameter j is c_j^2 and its vi_std is 0; lengths that are not multiples of D+1 are rejected; vi is never negative.", "quantifier": "every linear model, design and bounds", "why_tests_cant": "sampler/analyser agreement on strides for all sizes", "anchors": ["src/SALib/analyze/dgsm.py:analyze", "src/SALib/analyze/dgsm.py:calc_vi_stats", "src/SALib/analyze/dgsm.py:calc_dgsm"]}
{"id": "C40", "title": "RBD-FAST reordering is a permutation and the index is in [0,1]", "statement": "The reordering of outputs by a parameter's values is a permutation of the outputs whose parameter values rise and then fall; the raw first-order ratio lies in [0,1]; bias correction never increases it, fixes 1, and is increasing.", "quantifier": "every sample column, output and spectrum", "why_tests_cant": "all orders/ties; algebraic law in real arithmetic", "anchors": ["src/SALib/analyze/rbd_fast.py:permute_outputs", "src/SALib/analyze/rbd_fast.py:compute_first_order", "src/SALib/analyze/rbd_fast.py:unskew_S1"]}
{"id": "C41", "title": "PAWN conditioning slices partition the sample", "statement": "Every sample point of a parameter is used in exactly one conditioning slice, and the summary statistics satisfy 0 <= minimum <= median, mean <= maximum <= 1.", "quantifier": "every sample column, every number of slices", "why_tests_cant": "quantile boundaries and ties over all samples", "anchors": ["src/SALib/analyze/pawn.py:analyze"]}
{"id": "C42", "title": "RSA bins partition the sample and only report bins with enough points on both sides", "statement": "Every sample point falls into exactly one of the regional bins; a bin's index is computed only when it and its complement are both usable, otherwise NaN; group aggregation works for every grouping.", "quantifier": "every sample, output, number of bins, grouping", "why_tests_cant": "bin boundary and ties over all samples; all groupings", "anchors": ["src/SALib/analyze/rsa.py:analyze", "src/SALib/analyze/rsa.py:rsa", "src/SALib/analyze/rsa.py:_has_samples"]}
{"id": "C43", "title": "Discrepancy sensitivities are a normalised share per reported name", "statement": "The reported sensitivities are non-negative and sum to 1 (when their raw sum is positive), and there is exactly one value per reported name, with or without groups.", "quantifier": "every sample/output, every grouping", "why_tests_cant": "all groupings; normalisation law", "anchors": ["src/SALib/analyze/discrepancy.py:analyze"]}
{"id": "C44", "title": "Delta: merging undersized bins loses no data", "statement": "Merging bins keeps every sample point exactly once and in order, and afterwards every bin except possibly the last has at least the minimum number of points (none has fewer when merging suffices).", "quantifier": "every list of bins and every minimum size", "why_tests_cant": "loop invariant over arbitrary bin lists", "anchors": ["src/SALib/analyze/delta.py:obtain_bins_indices"]}
{"id": "C45", "title": "Delta: resampled subsets have the requested size and come from the right bins", "statement": "The balanced resample draws from each bin sizes differing by at most one, all indices come from the bin they are drawn for, and their total is exactly the requested number of resamples; a constant parameter is reported as an error instead of being analysed.", "quantifier": "every sample, bin specification, requested size and random draw", "why_tests_cant": "all bin configurations incl. empty bins", "anchors": ["src/SALib/analyze/delta.py:obtain_resampled_subset", "src/SALib/analyze/delta.py:check_specified_bininfo"]}
{"id": "C46", "title": "Delta: the reported first-order index is a variance ratio in [0,1]", "statement": "The S1 value reported by the moment-independent analysis lies in [0,1] for every sample and every class partition, and is 0 for constant output.", "quantifier": "every output and every partition into classes", "why_tests_cant": "law of total variance over all samples", "anchors": ["src/SALib/analyze/delta.py:sobol_first"]}
{"id": "C47", "title": "ProblemSpec: results always belong to the current samples", "statement": "Through any sequence of the public sampling, setting, evaluating and analysing calls (including failing ones), whenever both samples and results are present and results were produced after the samples were set, they have the same number of rows; new samples discard old results.", "quantifier": "every finite sequence of calls and every outcome (success/exception) of the user callbacks", "why_tests_cant": "histories are unbounded, including exceptions in callbacks", "anchors": ["src/SALib/util/problem.py:ProblemSpec"]}
{"id": "C48", "title": "ProblemSpec: an available analysis reflects the current results", "statement": "Whenever an analysis is present it was computed from the results currently held.", "quantifier": "every finite sequence of calls", "why_tests_cant": "histories", "anchors": ["src/SALib/util/problem.py:ProblemSpec.analyze", "src/SALib/util/problem.py:ProblemSpec.samples", "src/SALib/util/problem.py:ProblemSpec.results", "src/SALib/util/problem.py:ProblemSpec.set_results", "src/SALib/util/problem.py:ProblemSpec.sample"]}
{"id": "C49", "title": "ProblemSpec: parallel evaluation equals serial evaluation", "statement": "For a model evaluated row by row, evaluating in parallel gives the same results in the same order as evaluating serially, for any number of processors (even more processors than samples).", "quantifier": "every model, sample, processor count", "why_tests_cant": "all chunkings", "anchors": ["src/SALib/util/problem.py:ProblemSpec.evaluate_parallel", "src/SALib/util/problem.py:ProblemSpec._collect_results", "src/SALib/util/problem.py:ProblemSpec.evaluate"]}
{"id": "C50", "title": "ProblemSpec: multi-output analysis is per output, serial and parallel alike", "statement": "With several outputs, the analysis stored under each output name is the analysis of that output's column, in serial and parallel mode, and single-output analyses are not nested; nothing is analysed without results.", "quantifier": "every analysis function, number of outputs and processors", "why_tests_cant": "all output counts and schedules", "anchors": ["src/SALib/util/problem.py:ProblemSpec.analyze", "src/SALib/util/problem.py:ProblemSpec.analyze_parallel"]}
{"id": "C51", "title": "ProblemSpec: analyses that need several groups refuse single-parameter and single-group problems", "statement": "Calling analyze on a problem with only one parameter or whose parameters all belong to one group raises ValueError.", "quantifier": "every problem", "why_tests_cant": "all groupings", "anchors": ["src/SALib/util/problem.py:ProblemSpec.analyze", "src/SALib/util/problem.py:ProblemSpec.analyze_parallel"]}
{"id": "C52", "title": "ProblemSpec: construction and output naming", "statement": "A constructed problem has as many bounds as names, num_vars equal to that number; storing results names exactly one output per results column or raises ValueError, in which case previously stored results are kept.", "quantifier": "every specification dictionary, results shape and history", "why_tests_cant": "histories and shapes", "anchors": ["src/SALib/util/problem.py:ProblemSpec.__init__", "src/SALib/util/problem.py:ProblemSpec.results"]}
{"id": "C53", "title": "HDMR term bookkeeping enumerates each interaction once", "statement": "For d parameters and maximum order 1..3 the term list consists of the d singles followed by each unordered pair and each unordered triple exactly once, the number of terms being d + d(d-1)/2 + d(d-1)(d-2)/6, and each term's label names its own parameters.", "quantifier": "every d and maximum order", "why_tests_cant": "combinatorial identity for all d", "anchors": ["src/SALib/analyze/hdmr.py:_init", "src/SALib/analyze/hdmr.py:_finalize", "src/SALib/analyze/enhanced_hdmr.py:_core_params"]}
{"id": "C54", "title": "HDMR total-order index sums exactly the terms containing the parameter", "statement": "The reported total index of parameter r is the sum of the term indices over exactly those terms that contain r.", "quantifier": "every d, maximum order and vector of term indices", "why_tests_cant": "for all d and orders", "anchors": ["src/SALib/analyze/hdmr.py:_finalize", "src/SALib/analyze/enhanced_hdmr.py:_finalize"]}
{"id": "C55", "title": "HDMR significance test uses each term's own number of parameters", "statement": "The F-test of every component term uses the coefficient count of that term's own order.", "quantifier": "every d and maximum order", "why_tests_cant": "boundary indices between orders for all d", "anchors": ["src/SALib/analyze/hdmr.py:f_test", "src/SALib/analyze/enhanced_hdmr.py:_f_test"]}
{"id": "C56", "title": "Analyses do not modify the caller's problem", "statement": "Running the analysis twice on the same problem gives an accepted call and the same labels both times; in particular the problem's parameter names are unchanged.", "quantifier": "every problem and number of repetitions", "why_tests_cant": "aliasing effects over repeated calls", "anchors": ["src/SALib/analyze/enhanced_hdmr.py:_core_params", "src/SALib/analyze/enhanced_hdmr.py:_check_args", "src/SALib/analyze/hdmr.py:analyze"]}
{"id": "C57", "title": "Enhanced HDMR basis blocks belong to the parameters of their term", "statement": "In the extended basis, the block of a second-order (third-order) term consists of the first-order blocks of its own parameters (and the pair blocks of its own pairs) followed by their products.", "quantifier": "every d and polynomial order", "why_tests_cant": "index arithmetic for all d", "anchors": ["src/SALib/analyze/enhanced_hdmr.py:_basis_matrix", "src/SALib/analyze/enhanced_hdmr.py:_prod"]}
{"id": "C58", "title": "HDMR variance decomposition: structural plus correlative equals total contribution", "statement": "For each term the structural and correlative contributions add up to the term's total contribution to the output variance.", "quantifier": "every matrix of component outputs", "why_tests_cant": "algebraic identity over all data", "anchors": ["src/SALib/analyze/hdmr.py:ancova", "src/SALib/analyze/enhanced_hdmr.py:_ancova"]}
{"id": "C59", "title": "Analyses with an explicit seed are reproducible", "statement": "Two runs with the same seed, inputs and options give identical results regardless of the prior state of the global random generator, for every integer seed.", "quantifier": "every seed (including 0) and every prior generator state", "why_tests_cant": "all prior states of the global generator", "anchors": ["src/SALib/analyze/sobol.py:analyze", "src/SALib/analyze/morris.py:analyze", "src/SALib/analyze/fast.py:analyze", "src/SALib/analyze/delta.py:analyze", "src/SALib/analyze/dgsm.py:analyze", "src/SALib/util/util_funcs.py:handle_seed"]}
{"id": "C60", "title": "Sobol' G test function: analytic indices are consistent", "statement": "The analytic first-order indices lie in [0,1], total-order indices dominate first-order ones, the first-order indices sum to at most 1 and the total-order to at least 1, for every coefficient vector a>=0 (and delta, alpha); and they equal the variance ratios of the G function.", "quantifier": "every coefficient vector of every length", "why_tests_cant": "inequalities for all vectors", "anchors": ["src/SALib/test_functions/Sobol_G.py"]}
{"id": "C61", "title": "Command-line options reach the library call", "statement": "Each option accepted on the command line of a sampler or analyser is passed to the corresponding function; none is silently ignored.", "quantifier": "every command line", "why_tests_cant": "all option combinations", "anchors": ["src/SALib/sample/sobol.py:cli_action", "src/SALib/sample/saltelli.py:cli_action", "src/SALib/scripts/salib.py", "src/SALib/sample/common_args.py"]}
{"id": "C62", "title": "Sobol' indices and confidence intervals are non-negative finite numbers where they should be", "statement": "For an output whose computed standard deviation is not 0, every S1 and ST is a number, and every S1_conf and ST_conf is a number not below 0.", "quantifier": "every problem, output array, resampling and confidence level", "why_tests_cant": "the exceptional resamples are rare random events", "anchors": ["src/SALib/analyze/sobol.py:analyze", "src/SALib/analyze/sobol.py:first_order", "src/SALib/analyze/sobol.py:total_order"]}
{"id": "C63", "title": "Reported Sobol' indices equal the published Saltelli/Jansen estimators of the raw outputs", "statement": "S1, ST and S2 equal the closed estimator formulas applied to the raw (unnormalised) outputs at the A, B, AB and BA points; normalisation does not change them.", "quantifier": "every problem, number of base points and output array", "why_tests_cant": "an identity for all real outputs and all sizes", "anchors": ["src/SALib/analyze/sobol.py:analyze", "src/SALib/analyze/sobol.py:first_order", "src/SALib/analyze/sobol.py:total_order", "src/SALib/analyze/sobol.py:second_order"]}
{"id": "C64", "title": "Fractional factorial interactions are reported up to their aliases", "statement": "If the output is the product of two coded factors a and b, the reported interaction effect is exactly 1 for every pair (i, j) whose 0-based positions satisfy i xor j = a xor b and exactly 0 for every other pair, so an interaction can only be confused with those pairs.", "quantifier": "every number of parameters up to 512, every bounds, every pair", "why_tests_cant": "the alias structure for all design sizes and all pairs is an inductive fact", "anchors": ["src/SALib/analyze/ff.py:interactions", "src/SALib/sample/ff.py:generate_contrast"]}
{"id": "C65", "title": "Delta: the density distance is bounded and depends on ranks only", "statement": "The distance estimate behind the delta index lies between 0 and the mass of the density estimates on the grid, depends on a parameter only through the order of its values, is positive when the parameter determines a non-constant output, and the reported (bias-corrected) index is not negative.", "quantifier": "every sample, output, grid, class count and density estimator", "why_tests_cant": "all samples and all density estimates; the interplay of bias correction and skipped constant classes", "anchors": ["src/SALib/analyze/delta.py:calc_delta", "src/SALib/analyze/delta.py:bias_reduced_delta"]}
{"id": "C66", "title": "The HDMR emulator reproduces the fit and predicts each point by itself", "statement": "Evaluating the emulator on the analysed samples and outputs gives the fitted outputs; its prediction at a point depends on that point only.", "quantifier": "every sample, output and option; every later evaluation matrix", "why_tests_cant": "dependence on the other rows of an evaluation matrix shows only for all matrices", "anchors": ["src/SALib/analyze/hdmr.py:emulate", "src/SALib/analyze/hdmr.py:B_spline"]}
{"id": "C67", "title": "The HDMR spline basis is non-negative and a partition of a constant", "statement": "At each sample the m+3 spline values of a parameter that varies are non-negative and add up to m^3.", "quantifier": "every number of intervals and every column of samples", "why_tests_cant": "piecewise cubic identity for all reals and all m", "anchors": ["src/SALib/analyze/hdmr.py:B_spline"]}
{"id": "C68", "title": "HDMR refuses exactly the data and options outside the documented ranges", "statement": "The analyser raises RuntimeError exactly for samples, outputs and options outside the documented ranges; every other input without constant parameter is analysed, each bootstrap using distinct rows, as many as documented.", "quantifier": "every sample, output and option", "why_tests_cant": "all option values and shapes", "anchors": ["src/SALib/analyze/hdmr.py:_check_settings", "src/SALib/analyze/hdmr.py:_init", "src/SALib/analyze/hdmr.py:analyze"]}
{"id": "C69", "title": "HDMR summary entries match the per-term entries", "statement": "The reported sums are the sums of the reported indices, every per-term list has one entry per label, and the half-widths of the sums reflect the spread over the bootstraps.", "quantifier": "every sample, output and option", "why_tests_cant": "all data and bootstrap counts", "anchors": ["src/SALib/analyze/hdmr.py:_finalize"]}
{"id": "C70", "title": "Enhanced HDMR polynomials are orthonormal over the sample", "statement": "The polynomial columns built for each parameter have mean zero over the analysed samples and are orthonormal; they exist exactly when every parameter takes more different values than the polynomial order.", "quantifier": "every sample and polynomial order", "why_tests_cant": "identity of determinants for all samples and orders", "anchors": ["src/SALib/analyze/enhanced_hdmr.py:_orth_poly_coeff", "src/SALib/analyze/enhanced_hdmr.py:_basis_matrix"]}
{"id": "C71", "title": "Enhanced HDMR cost matrix measures hierarchical orthogonality", "statement": "The cost of a term's coefficients is the squared mean of the term's function plus its squared inner products with the term's lower-order columns, hence zero exactly for hierarchically orthogonal functions; first-order terms cost nothing.", "quantifier": "every sample, term and coefficient vector", "why_tests_cant": "quadratic identity for all coefficients", "anchors": ["src/SALib/analyze/enhanced_hdmr.py:_cost_matrix"]}
{"id": "C72", "title": "Enhanced HDMR accepts exactly the documented options and then reports a result", "statement": "Calls with data and options in the documented ranges return a result when the samples have enough different values; all others raise ValueError or RuntimeError.", "quantifier": "every sample, output and option", "why_tests_cant": "all option values and shapes", "anchors": ["src/SALib/analyze/enhanced_hdmr.py:_check_args", "src/SALib/analyze/enhanced_hdmr.py:_finalize"]}
{"id": "C73", "title": "Sobol' G: the analytic indices need the curvatures that evaluate accepts", "statement": "sensitivity_index and total_sensitivity_index return variance shares (first-order indices adding up to at most 1) for every alpha they accept, just as evaluate refuses alpha that is not positive.", "quantifier": "every coefficient and curvature vector", "why_tests_cant": "all vectors; the tests never pass a negative curvature", "anchors": ["src/SALib/test_functions/Sobol_G.py"]}
{"id": "C74", "title": "Sobol' G: the indices quoted in the file are those of the default coefficients", "statement": "The first-order index quoted for the default coefficient vector is, to the digits given, the value that sensitivity_index returns for it.", "quantifier": "the default coefficient vector", "why_tests_cant": "tests compare estimates with a tolerance of percents", "anchors": ["src/SALib/test_functions/Sobol_G.py"]}
{"id": "C75", "title": "Ishigami: evaluate has the analytic variance, first-order and total effects", "statement": "For every A and B the function computed by evaluate on [-pi, pi]^3 has variance 1/2 + B pi^4/5 + B^2 pi^8/18 + A^2/8, first-order effects (1 + B pi^4/5)^2/2, A^2/8, 0 and total effects 1/2 + B pi^4/5 + B^2 pi^8/18, A^2/8, 8 B^2 pi^8/225; at A = 7, B = 0.1 the first-order indices round to the quoted 0.3139, 0.4424, 0.", "quantifier": "all A and B and all points of the box", "why_tests_cant": "integrals over a continuum; the tests check estimates from one sample", "anchors": ["src/SALib/test_functions/Ishigami.py"]}
{"id": "C76", "title": "Lake problem: reliability is the fraction of simulated values below the critical value", "statement": "Each output row holds the largest simulated pollution, the discounted utility, the inertia and the reliability, where reliability is the share of the simulated values below the critical one; it is 1 for a lake that always stays below.", "quantifier": "every parameter matrix, inflow draw, critical value and number of decision variables", "why_tests_cant": "all inputs; no test evaluates the lake problem's reliability", "anchors": ["src/SALib/test_functions/lake_problem.py"]}
{"id": "C77", "title": "Linear test models: first-order and total effects agree and add up to the variance", "statement": "On every box the linear models have first-order and total effects c_i^2 (hi_i - lo_i)^2 / 12, which add up to the variance.", "quantifier": "every box and, for model 1, every number of inputs", "why_tests_cant": "integrals over every box", "anchors": ["src/SALib/test_functions/linear_model_1.py", "src/SALib/test_functions/linear_model_2.py"]}
{"id": "C78", "title": "Seeded calls leave the caller's global generator alone", "statement": "A sampler or analyser that is given a seed does not change the state of numpy's global random generator.", "quantifier": "every seed and every prior state", "why_tests_cant": "all prior generator states, all seeds", "anchors": ["src/SALib/util/util_funcs.py:handle_seed", "src/SALib/sample/fast_sampler.py:sample", "src/SALib/analyze/dgsm.py:analyze", "src/SALib/analyze/pawn.py:analyze", "src/SALib/sample/latin.py:sample", "src/SALib/analyze/sobol.py:analyze"]}
{"id": "C79", "title": "A Generator given as seed is the one that is drawn from", "statement": "When the caller passes a numpy Generator, draws come from it and advance it, so that consecutive calls continue one stream; other generators are unaffected.", "quantifier": "every generator state and every number of calls in a row", "why_tests_cant": "streams of unbounded length", "anchors": ["src/SALib/util/util_funcs.py:handle_seed", "src/SALib/analyze/sobol.py:analyze", "src/SALib/sample/sobol.py:sample"]}
{"id": "C80", "title": "Every non-negative integer is accepted as a seed", "statement": "Every function that takes a seed accepts every non-negative integer, Python's or numpy's, and rejects the negative ones.", "quantifier": "every integer", "why_tests_cant": "all integers", "anchors": ["src/SALib/util/util_funcs.py:handle_seed"]}
{"id": "C81", "title": "Leaving an option out on the command line means the library's default", "statement": "If an optional option is not given, the function is called with the default value of its own signature.", "quantifier": "every command line without the option, every method", "why_tests_cant": "all option combinations", "anchors": ["src/SALib/analyze/morris.py:cli_parse", "src/SALib/analyze/dgsm.py:cli_parse", "src/SALib/analyze/delta.py:cli_parse", "src/SALib/analyze/pawn.py:cli_parse", "src/SALib/analyze/rsa.py:cli_parse", "src/SALib/analyze/ff.py:cli_parse"]}
{"id": "C82", "title": "Boolean options mean what their text says", "statement": "A boolean option given as \"False\" turns the feature off and given as \"True\" turns it on.", "quantifier": "every text and every command line", "why_tests_cant": "all texts", "anchors": ["src/SALib/sample/morris/morris.py:cli_parse", "src/SALib/analyze/morris.py:cli_parse", "src/SALib/analyze/enhanced_hdmr.py:cli_parse", "src/SALib/analyze/sobol.py:cli_parse"]}
{"id": "C83", "title": "The Sobol' estimators estimate the variance-based effects", "statement": "When the base points of a Saltelli design are independent draws from the law of the inputs, the numerators of the reported total-, first- and second-order indices expect the total effect, the first-order effect and the interaction of the groups of parameters - exactly for total order, up to a bias of a constant divided by the sample size for the others, which are centred by the mean of all outputs - and the variance they are divided by expects the variance of the model up to the factor 1 - 1/(2N).", "quantifier": "every sample size, number of parameters, grouping, model and product law with finitely many values", "why_tests_cant": "an average over all samples, for all models and laws", "anchors": ["src/SALib/sample/saltelli.py:sample", "src/SALib/sample/sobol.py:sample", "src/SALib/analyze/sobol.py:first_order", "src/SALib/analyze/sobol.py:total_order", "src/SALib/analyze/sobol.py:second_order"]}
{"id": "C84", "title": "Joint uniformity of the Sobol' sequence", "statement": "Every aligned block of 2^m points of the built-in Sobol' sequence has exactly one point in each of the 2^m boxes of any dyadic division of the plane of its first two coordinates, and, when m coordinates are halved, in each orthant of the first m coordinates; the A points of the Saltelli sampler inherit the former.", "quantifier": "every sample size, number of dimensions, block, division of the plane and orthant", "why_tests_cant": "all blocks and divisions, up to 2^31 points", "anchors": ["src/SALib/sample/sobol_sequence.py:sample", "src/SALib/sample/directions.py:directions", "src/SALib/sample/saltelli.py:sample"]}
{"id": "C85", "title": "Extended FAST recovers the indices of additive models", "statement": "Sampling, evaluating and analysing with extended FAST a model that is a sum of one cosine series of at most M harmonics per parameter gives S1 = ST for every parameter, for every random phase; when the complementary frequencies share no harmonic that the model uses (for one harmonic per parameter: N > 4 M^2 (D-1)) both equal the parameter's exact variance-based index.", "quantifier": "every number of parameters, sample size, M, coefficients, box and random phase", "why_tests_cant": "tests check one function (Ishigami) with a tolerance; this is exact equality for a dense class of additive functions, and says for which sample sizes it holds", "anchors": ["src/SALib/sample/fast_sampler.py", "src/SALib/analyze/fast.py"]}
{"id": "C86", "title": "Morris designs are uniform over the grid and their statistics unbiased", "statement": "For SALib.sample.morris.sample without optimal trajectories and an even num_levels = 2n: for every order of the steps, every point of every trajectory is equally likely to be any of the (2n)^D grid points (exactly one of the equally likely combinations of directions and starting positions gives it). Hence for any model f, group structure and number of trajectories, the expected mu and mu_star returned by SALib.analyze.morris.analyze on this sample are the means over the grid of the signed and absolute elementary effects, and the expected sigma**2 is their variance over the grid. For an odd num_levels the middle level is never sampled.", "quantifier": "all problems, groups, bounds, models, numbers of trajectories, even numbers of levels, orders of the steps; all odd numbers of levels for the refutation", "why_tests_cant": "Unbiasedness is a statement about the distribution over all random choices; a test sees a handful of seeds and can only compare with tolerance.", "anchors": ["src/SALib/sample/morris/morris.py:_generate_trajectory", "src/SALib/sample/morris/morris.py:_compute_b_star", "src/SALib/sample/morris/morris.py:_generate_x_star", "src/SALib/analyze/morris.py:analyze"]}
{"id": "C87", "title": "What Latin hypercube samples estimate", "statement": "For SALib.sample.latin.sample on a problem with bounds and groups: when the rows of each group are shuffled uniformly and independently, every row is equally likely to be any combination of one drawn value per group, whatever the positions drawn within the strata, so the mean of any model over the sample has the expectation of independent stratified draws; its variance is at most the variance of one such draw divided by N - 1 (N >= 2). For a sum of one monotone function per parameter the mean over the sample differs from the average over the box by at most (sum of the rises) / N, for every draw.", "quantifier": "all box problems, groups, sample sizes, positions within strata and models; all draws for the additive bound", "why_tests_cant": "The law ranges over all N!^G shuffles and arbitrary model functions; the error bound must hold for every draw, not just for a seed.", "anchors": ["src/SALib/sample/latin.py:sample", "src/SALib/util/__init__.py:scale_samples"]}
{"id": "C88", "title": "Bar charts pair every index with its own confidence interval", "statement": "Result.plot draws one group of bars per sensitivity index over the names of the parameters or groups, with exactly the column named <index>_conf as its error bars, and no bars for the confidence columns themselves; it fails exactly when there is nothing numeric to draw or an error bar is negative. Consequently every successful analysis by Morris, FAST, RBD-FAST, DGSM, delta and Sobol' (two or more groups when second order is computed), by PAWN with one row per name and by ff with interactions can be plotted, and the bars are the returned numbers. It fails for PAWN when all parameters have one group label, for ff without interactions and for second-order Sobol' results of a single group.", "quantifier": "all frames with regular column names; all successful analyses", "why_tests_cant": "Figures are compared by eye, if at all; that an index is never drawn with the interval of another one concerns all frames.", "anchors": ["src/SALib/plotting/bar.py:plot", "src/SALib/util/results.py:ResultDict.plot", "src/SALib/util/results.py:ResultDict.to_df", "src/SALib/analyze/sobol.py:to_df", "src/SALib/analyze/ff.py:to_df"]}
{"id": "C89", "title": "Heat maps show each index under its own label", "statement": "SALib.plotting.heatmap.heatmap shows one row per chosen index, the row being the stored values and its label the name of that index, one column per distinct group or parameter; for several outputs the chosen metric is the one shown. The default maps of Sobol', Morris, DGSM and PAWN results are right. For index lists that mix shapes (S1, S2, ST) rows are labelled with the name of another index, and the default maps of FAST, RBD-FAST, delta and HDMR results raise AttributeError.", "quantifier": "all problems, result dictionaries, index lists and metrics", "why_tests_cant": "A wrong label on a row of a picture is not an error any test of the library looks for.", "anchors": ["src/SALib/plotting/heatmap.py:heatmap", "src/SALib/util/problem.py:ProblemSpec.heatmap"]}
{"id": "C90", "title": "Plots of several outputs", "statement": "ProblemSpec.plot with k >= 2 outputs draws output i in row i of the figure, under its own name, with the charts its own result would give; without analysis it raises RuntimeError. It raises TypeError for result objects whose plot method was replaced (HDMR, RSA) and for ff results without interactions.", "quantifier": "all numbers of outputs and results", "why_tests_cant": "The layout depends on the number of outputs, frames and dictionary keys together.", "anchors": ["src/SALib/util/problem.py:ProblemSpec.plot", "src/SALib/util/results.py:ResultDict.plot"]}
{"id": "C91", "title": "Plots of Morris results", "statement": "horizontal_bar_plot draws every parameter exactly once, at the position its sort key has, with its own name, mu_star and confidence interval. sample_histograms shows the i-th column under the i-th name for two to nine parameters; for one parameter it raises IndexError, for ten or more ValueError. covariance_plot of a grouped analysis (every group with two members) plots nan against mu_star instead of the confidence intervals.", "quantifier": "all results, sort orders, samples and numbers of parameters", "why_tests_cant": "Needs all numbers of parameters and all orders.", "anchors": ["src/SALib/plotting/morris.py:horizontal_bar_plot", "src/SALib/plotting/morris.py:sample_histograms", "src/SALib/plotting/morris.py:covariance_plot"]}
{"id": "C92", "title": "Plots of HDMR results", "statement": "The HDMR plot shows the last ten bootstrap trials (all of them when there are fewer), each in its own panel, and every parameter once under its own name in panels of three per figure. With more than ten trials whose number is not a multiple of ten it raises UnboundLocalError.", "quantifier": "all numbers of trials and parameters", "why_tests_cant": "The failure depends on the number of trials modulo ten.", "anchors": ["src/SALib/plotting/hdmr.py:plot"]}
{"id": "C93", "title": "HDMR's backfitting descends to the joint ridge regression", "statement": "For SALib.analyze.hdmr.analyze: the first-order component functions start from the best single spline terms (each minimising the penalised sum of squares alone) and are improved by between one and maxiter backfitting passes. No pass increases the penalised sum of squares of the joint fit; with lambdax > 0 every pass multiplies the excess over the optimum by at most G / (G + lambdax^2), G the sum of the squared entries of the Gram matrix, so the loop converges to the joint ridge regression; coefficients that a pass does not change are that regression, which is unique. Second- and third-order terms are the best single terms for the residual left by the lower order. Where the Gram matrix of a term is singular its coefficients are zero, as the comment in the source says (false of first-order terms: they are computed from memory that was never written).", "quantifier": "all data, orders, splines, bootstraps and penalties for which the linear solver returns the solution of its system; for the last sentence, all data for which it has none", "why_tests_cant": "Convergence to the optimum concerns all data; a test that compares indices with reference values cannot tell a sweep that forgets one term from one that converges slowly.", "anchors": ["src/SALib/analyze/hdmr.py:_first_order", "src/SALib/analyze/hdmr.py:_second_order", "src/SALib/analyze/hdmr.py:_third_order"]}
{"id": "C94", "title": "The notes of the delta analyser are accurate", "statement": "For SALib.analyze.delta.analyze: unless a parameter failed (its note is then the error), its note flags a difference between the balanced and the raw score exactly when they differ by more than 0.1, and states their distance; it says that the step score was left out, with the numbers of values <= 0 and > 0, exactly when one of them is below max(N // 200, 10), and the step score is then nan.", "quantifier": "all data, methods, bins and random draws", "why_tests_cant": "The flag depends on two random estimates; tests check the presence of keys, not that the text matches the numbers.", "anchors": ["src/SALib/analyze/delta.py:analyze", "src/SALib/analyze/delta.py:check_specified_bininfo"]}
{"id": "C95", "title": "Scaling in double precision stays within the bounds below 1, not at 1", "statement": "For the scaling step x * (ub - lb) + lb of every sampler (SALib.util.scale_samples without distributions), computed in double precision: 0 becomes exactly the lower bound, the order of points is kept, no point falls below the lower bound, no double below 1 exceeds the upper bound, and every result is within 2^-50 (|lb| + |ub|) of the exact value. The points of SALib's Sobol' sequence are computed without rounding and so stay within the bounds. The point 1, which Morris and factorial designs contain, also stays within the bounds (false: with bounds [-1, 0.1] it becomes 0.10000000000000009; the excess is at most 2^-51 (|lb| + |ub|)).", "quantifier": "all doubles lb < ub and all doubles x in [0, 1], up to overflow", "why_tests_cant": "The sentences concern every pair of doubles; tests use a few round bounds, for which the rounding happens to cancel.", "anchors": ["src/SALib/util/__init__.py:_scale_samples", "src/SALib/sample/sobol_sequence.py:sample"]}
{"id": "C96", "title": "Morris trajectories survive rounding", "statement": "For SALib.sample.morris.sample without optimisation, before scaling, computed in double precision with 2 to 2^52 levels: the sample is the exact one with each level replaced by one double within 2^-51 of it, the same double wherever the level occurs. Hence between consecutive points exactly the coordinates of one group change, by the step up to 2^-50, the others being bitwise equal, and every group changes once per trajectory; all coordinates are in [0, 1], so the error 'Input sample must be scaled between 0 and 1' is never raised.", "quantifier": "all numbers of trajectories, group structures, random choices, and levels from 2 to 2^52", "why_tests_cant": "A rounding error could push one coordinate above 1 for some number of levels or make an unchanged coordinate differ in its last bit; tests use 4 levels.", "anchors": ["src/SALib/sample/morris/morris.py:_compute_b_star", "src/SALib/sample/morris/morris.py:_generate_x_star", "src/SALib/sample/morris/morris.py:_compute_optimised_trajectories", "src/SALib/util/__init__.py:_compute_delta"]}
{"id": "C97", "title": "FAST frequencies in double precision", "statement": "For SALib.sample.fast_sampler.sample with N up to 2^50: the driver frequency and the number m of available complementary frequencies, computed with floating-point division and floor, are the exact integer quotients; the complementary frequencies lie in 1..m, are within one of the exact ones, and, when at most m are needed and N is at most 2^26, are distinct and increasing. They are the exact ones (false: N = 125, M = 1 and 24 parameters give 15 where the exact value is 16).", "quantifier": "all N up to 2^50 (2^26 for distinctness), all M and numbers of parameters that are accepted", "why_tests_cant": "floor of a rounded quotient is off by one exactly when rounding crosses an integer; no finite set of sizes excludes it, and the distinctness of frequencies depends on it.", "anchors": ["src/SALib/sample/fast_sampler.py:sample"]}
{"id": "C98", "title": "Latin strata and finite differences in double precision", "statement": "For SALib.sample.latin.sample and SALib.sample.finite_diff.sample in double precision: a Latin hypercube value lies in [0, 1], within 2^-51 of its stratum, and never above a value of a higher stratum, but it may lie just outside its stratum (N = 3) and may be exactly 1 (N = 4). A perturbed coordinate of the finite-difference sampler stays within the bounds; for a relative step of at least 2^-51 it differs from the base coordinate, by which the analysis divides, unless that sits at a bound or is tiny; for any positive step (false: 2^-60).", "quantifier": "all sample sizes up to 2^51, strata and draws; all doubles within the bounds and all steps, up to overflow", "why_tests_cant": "Tests draw a few thousand numbers; the values at the edges of the strata are hit with probability about 2^-53.", "anchors": ["src/SALib/sample/latin.py:sample", "src/SALib/sample/finite_diff.py:sample"]}
{"id": "C99", "title": "Derivative-based measures bound total-order indices", "statement": "For a model with continuous slope in a parameter, over any box of parameters, the total effect of the parameter is at most the mean square slope times the squared width over pi squared. With designs of SALib.sample.finite_diff.sample whose base points fill the box and whose relative step tends to zero, SALib.analyze.dgsm reports vi tending to the mean square slope and dgsm tending to that bound over the variance, so that eventually dgsm exceeds S_tot minus any tolerance, as the docstring of calc_dgsm says (S_tot <= dgsm). For every data set the mean absolute secant is at most sqrt(vi). The bound need not hold at a given sample (false: dgsm 0 for S_tot = 1), nor is the inequality with mu* strict (false: a straight line).", "quantifier": "all boxes of positive width in any dimension, all models continuously differentiable in the parameter, all sequences of designs that fill the box with shrinking steps; all data sets for mu*", "why_tests_cant": "The claim is an inequality between integrals over all models (Poincare's inequality with its best constant) and a limit over sample sizes; tests evaluate a few models at a few sizes.", "anchors": ["src/SALib/analyze/dgsm.py:analyze", "src/SALib/analyze/dgsm.py:calc_vi_stats", "src/SALib/analyze/dgsm.py:calc_dgsm", "src/SALib/sample/finite_diff.py:sample"]}
{"id": "C100", "title": "Sobol' analysis of continuous models converges to the true indices", "statement": "For every model continuous on the box of its parameters: sampling with SALib.sample.sobol.sample and analysing with SALib.analyze.sobol.analyze gives S1, ST and S2 that tend to the variance-based indices defined by integrals over the box (variance of the conditional mean, mean of the conditional variance, and the joint part of two), with or without groups and second-order indices, whenever the point sets of the quasi-random generator fill the unit cube of twice the dimension. These integrals exist, and sampling and analysis succeed at every size. On the Ishigami function S1 ends within 0.0001 of the documented 0.3139, 0.4424 and 0.", "quantifier": "all continuous models, all consistent problems without distributions (any bounds, groups), all generators whose points are equidistributed, all skips, resamplings and worker settings", "why_tests_cant": "A limit statement over sample sizes and all continuous models; the project's tests compare a few functions at one size with wide tolerances.", "anchors": ["src/SALib/sample/sobol.py:sample", "src/SALib/analyze/sobol.py:analyze", "src/SALib/analyze/sobol.py:first_order", "src/SALib/analyze/sobol.py:total_order", "src/SALib/analyze/sobol.py:second_order", "src/SALib/test_functions/Ishigami.py:evaluate"]}
{"id": "C101", "title": "Results already obtained are not changed by later calls", "statement": "In a session of samplings and analyses on problem dictionaries, the row labels of a result obtained earlier (what to_df returns) stay as they were when further calls are made, as long as no call extends a list of names in place. A fresh result of a well-formed ungrouped problem can always be tabulated and its first rows are the parameters. Calls that do extend the list of names (fractional factorial sampling or analysis of a problem whose size is not a power of two, enhanced HDMR of order two or more) make every earlier result sharing the list impossible to tabulate.", "quantifier": "all states of lists, problems and results, all finite sequences of calls (failing or not), all sizes and names", "why_tests_cant": "The effect runs through a list object shared between the caller's dictionary and results of other methods; a test analyses one method at a time on a fresh problem and looks at the result at once.", "anchors": ["src/SALib/sample/ff.py:34-56", "src/SALib/analyze/fast.py:87", "src/SALib/analyze/enhanced_hdmr.py:591-621", "src/SALib/analyze/sobol.py:400-440", "src/SALib/util/results.py:15-19"]}
{"id": "C102", "title": "Names, bounds and groups keep matching the number of parameters", "statement": "After any session, each problem has as many names and bounds as num_vars, and no groups or one group per parameter, provided the session has no HDMR of a ProblemSpec and no enhanced HDMR with interactions, and explicit groups are only given for sizes that need no padding. The two excluded kinds of calls and padding of explicitly grouped problems do break the match, and Morris or the tables of later results then fail.", "quantifier": "all initial states in which problems match and share no list of names, all finite sequences of calls", "why_tests_cant": "Needs an invariant over all sequences of calls of different methods that mutate one dictionary; groups may be the very list of names, which padding then extends too.", "anchors": ["src/SALib/util/__init__.py:353-378", "src/SALib/sample/ff.py:34-56", "src/SALib/analyze/hdmr.py:802-822", "src/SALib/analyze/enhanced_hdmr.py:591-621", "src/SALib/analyze/morris.py:138"]}
{"id": "C103", "title": "Problems that share no list do not affect one another", "statement": "Whatever sequence of samplings and analyses is run on other problems, a problem whose lists are its own, and the tables of its results, are unchanged. Two problem dictionaries made from one list of names are not independent: fractional factorial sampling of one leaves the other with more names than parameters.", "quantifier": "all states, all finite sequences of calls on other problems", "why_tests_cant": "A frame property over all interleavings of calls on several problems.", "anchors": ["src/SALib/sample/ff.py:34-56", "src/SALib/analyze/enhanced_hdmr.py:591-621", "src/SALib/analyze/hdmr.py:802-822"]}
{"id": "C104", "title": "D-MORPH regression picks the cheapest of the best fits", "statement": "In enhanced HDMR with the extended basis, the coefficients D-MORPH regression returns are a least-squares fit of the output, and every other least-squares fit has a strictly larger cost (hierarchical orthogonality), provided there are at least as many samples as coefficients and the cost is positive on coefficients that predict zero; the number the normal equations are divided by does not matter. With fewer samples than coefficients the cost is not minimised (for a basis of full row rank it is ignored), and with a cost that vanishes on such coefficients the result need not fit at all.", "quantifier": "all real fields, all basis matrices, costs, outputs and sizes; all pseudo-inverses, ranks and singular value decompositions meeting their definitions", "why_tests_cant": "Optimality compares the result with infinitely many other coefficient vectors; a test sees only the indices of one sample, and only samples larger than the basis.", "anchors": ["src/SALib/analyze/enhanced_hdmr.py:947-1001", "src/SALib/analyze/enhanced_hdmr.py:888-944", "src/SALib/analyze/enhanced_hdmr.py:850-858"]}
{"id": "C105", "title": "Enhanced HDMR without the extended basis backfits without its penalty", "statement": "A successful enhanced_hdmr.analyze(..., extended_base=False) returns, for every bootstrap, first-order coefficients obtained from the centred output and second-order coefficients obtained from what the first-order terms leave. Both start from one ridge regression per term with l2_penalty and then pass over the terms, at least once and at most max_iter + 1 times, each pass replacing the coefficients of every term by its least squares fit to what the other terms leave; passes stop as soon as no squared coefficient changes by 1e-4. A pass never increases the sum of squared residuals, coefficients a pass leaves alone are a joint least squares fit, and with independent columns the excess over that fit shrinks geometrically. Hence l2_penalty only moves the starting point: with orthogonal terms it has no effect on the result, and the result is not the penalised fit.", "quantifier": "all samples, outputs, options accepted by the analyser, bootstrap rows, and all linear solvers that return solutions of their systems; all families of blocks of columns for the statements about passes", "why_tests_cant": "A test compares indices of one run with stored numbers. It cannot show that every run is the stated sequence of fits, that every pass descends for every basis, or that the penalty is irrelevant for every orthogonal basis.", "anchors": ["src/SALib/analyze/enhanced_hdmr.py:846-883", "src/SALib/analyze/enhanced_hdmr.py:1004-1092", "src/SALib/analyze/enhanced_hdmr.py:1095-1186"]}
{"id": "C106", "title": "Enhanced HDMR with the extended basis returns the cheapest best fit, with hierarchically orthogonal interactions", "statement": "A successful enhanced_hdmr.analyze(..., extended_base=True) whose columns without extension are independent on the rows of a bootstrap, and which has at least as many rows as coefficients, returns the only coefficients that minimise, among all least squares fits of the centred output, the sum over the pairs of the squared mean of the pair's function and of its squared inner products with the first-order columns of both parameters. The stored component functions are those with these coefficients. With num_bootstrap 1 the function of every pair is exactly orthogonal to every first-order column of its two parameters, S = Sa + Sb holds for every single parameter, and with two parameters Sb of their interaction is zero.", "quantifier": "all samples, outputs, options accepted by the analyser and bootstrap rows; all pinv, matrix_rank and svd that return what numpy defines them to return", "why_tests_cant": "A test compares indices of one run with stored numbers. Optimality among all coefficient vectors, its uniqueness and exact orthogonality for every sample are statements about all alternatives and all inputs.", "anchors": ["src/SALib/analyze/enhanced_hdmr.py:846-883", "src/SALib/analyze/enhanced_hdmr.py:886-944", "src/SALib/analyze/enhanced_hdmr.py:947-1001", "src/SALib/analyze/enhanced_hdmr.py:1295-1355"]}
{"id": "C107", "title": "PAWN accepts every number of slices, in double precision", "statement": "pawn.analyze with S slices uses the S + 1 quantile levels 0, 1/S, ..., 1 and returns a result for every S. With the levels computed as numpy computes np.arange(0, 1 + step, step) in double precision this fails for some S: there are S + 2 levels, the last one is above 1, and np.nanquantile raises ValueError for every sample. For all other S the levels increase strictly from 0 to at least 1 - 2^-53, each is within 2^-51 of k/S, and every sample value but the largest falls in exactly one slice.", "quantifier": "all numbers of slices up to 2^49, all samples with up to 2^53 values, with and without groups", "why_tests_cant": "Whether a number of slices is accepted depends on the rounding of three quotients; a test of S = 10 or of a few other values does not say which S fail, nor that the failing ones fail for every sample.", "anchors": ["src/SALib/analyze/pawn.py:114-119", "src/SALib/analyze/pawn.py:121-134"]}
{"id": "C108", "title": "Regional sensitivity analysis labels its bins, in double precision", "statement": "rsa.analyze with b bins reports b lower edges 0, 1/b, ... in Si['bins'], to_df labels the b values of every parameter with them, and every value of the binned array is in exactly one bin. With the edges computed as numpy computes np.arange(0, 1, 1/b) in double precision this fails for some b, 49 and 98 being the only ones up to 100: there are b + 1 edges, to_df raises ValueError for every result, and with 49 bins the largest value is in no bin. For all other b the property holds, the levels increase strictly from 0 to 1 and each is within 2^-51 of k/b.", "quantifier": "all numbers of bins up to 2^49, all samples and outputs, both targets", "why_tests_cant": "The number of edges depends on the rounding of a quotient; tests with the default of 20 bins see the right number, and no finite set of tests says that 49 and 98 are the only exceptions or that they fail for all results.", "anchors": ["src/SALib/analyze/rsa.py:127", "src/SALib/analyze/rsa.py:145", "src/SALib/analyze/rsa.py:156-170", "src/SALib/analyze/rsa.py:193-208"]}
{"id": "C109", "title": "Morris designs computed in double precision are analysed as the exact ones", "statement": "The sample that morris.sample computes and scales in double precision gives, with any outputs and any analysis settings (unscaled effects), the same result as the exact sample: every coordinate that changes between two consecutive points of a trajectory changes in the same direction after rounding, and the other coordinates stay the same double. So the reported statistics summarise the elementary effects of the model between the points actually evaluated.", "quantifier": "all problems with bounds that are doubles at least 2^-1000 apart, all groups, numbers of trajectories, up to 2^47 levels, all random draws, outputs and models", "why_tests_cant": "Bounds may be adjacent doubles, where only two scaled values are left; whether a step is lost depends on the rounding of three operations for every pair of bounds and levels, which no finite set of tests covers.", "anchors": ["src/SALib/sample/morris/morris.py:24-150", "src/SALib/util/__init__.py:25-53", "src/SALib/analyze/morris.py:284-327", "src/SALib/analyze/morris.py:381-383", "src/SALib/analyze/morris.py:440-458"]}
{"id": "C110", "title": "Sobol' indices of a constant output, in double precision", "statement": "sobol.analyze divides the outputs by their computed standard deviation. For constant outputs the result depends on how numpy rounds their mean: if the computed mean is the constant, all indices and confidences are nan; if rounding moves it by a unit in the last place, S1, ST and S2 are 0. The first happens for every order of addition when the constant has few digits (k 2^e with |k| times the number of outputs at most 2^53); six outputs of 0.1 give the second.", "quantifier": "all constants of magnitude at least 2^-400, up to 2^53 outputs, all orders in which numpy may add the outputs up, all problems, serial and parallel runs", "why_tests_cant": "A test with one constant sees nan or 0 and cannot tell which constants give which, nor exclude other values; the order of the additions depends on the number of outputs and on numpy's build.", "anchors": ["src/SALib/analyze/sobol.py:134-138", "src/SALib/analyze/sobol.py:208-260"]}
{"id": "C111", "title": "Samples written to a file and read back", "statement": "The samplers of the command line write numbers with 'precision' digits after the leading one (default 8) and the analyses read them back. With precision 16 or more a sample is read back unchanged. With less, every number is off by at most half a unit of its last written digit and two roundings, the order of numbers is kept, points stay within bounds that have no more digits than are written, and writing what was read gives the same file, except with precision 15. A Morris sample written with bounds at least 10^(1-precision) of their magnitude apart is analysed exactly like the sample itself.", "quantifier": "all doubles, all precisions, all bounds, all Morris samples of up to 2^47 levels, all outputs", "why_tests_cant": "A test writes a few numbers; whether a decimal with 9 or 16 digits is read back as the same double depends on how the decimal and the binary grids lie around that number, and the exception at precision 15 needs a number such as 10^23.", "anchors": ["src/SALib/sample/common_args.py:15-35", "src/SALib/sample/morris/morris.py:455-473", "src/SALib/sample/latin.py:96-101", "src/SALib/analyze/morris.py:640-659"]}
{"id": "C112", "title": "Shape of samples and outputs read by the analyses of the command line", "statement": "An analysis started from the command line gets the sample of the file as a table with one row per run and one column per parameter, and the asked-for column of the outputs (counted from the right if negative) in order, so that it computes what the library function computes. For a single parameter this fails with pawn, rbd_fast, rsa and discrepancy: the table arrives as a vector and the analysis raises IndexError or ValueError, although the library function accepts the table.", "quantifier": "all command lines, all files with at least two runs, all columns, all twelve analyses", "why_tests_cant": "The command-line tests use one problem with several parameters; which of the twelve readers keep two dimensions does not show there.", "anchors": ["src/SALib/analyze/rbd_fast.py:178-192", "src/SALib/analyze/rsa.py:263-281", "src/SALib/analyze/discrepancy.py:129-145", "src/SALib/analyze/pawn.py:186-195", "src/SALib/analyze/delta.py:618-624", "src/SALib/analyze/common_args.py:8-31"]}
{"id": "C113", "title": "Sobol' indices in double precision: zeros, signs and units", "statement": "Computed in double precision, with the sums arranged in any way, the Sobol' analysis keeps these facts exactly: a group the model does not respond to gets S1 = ST = 0 and confidence intervals 0 (whenever these are numbers; if one index is nan all are), two such groups get S2 = 0 with interval 0, ST and all confidence intervals are never negative, and multiplying the outputs by a power of two or by -1 changes no digit of the result. The second-order index of such a group with an influential one, 0 in exact arithmetic, is a rounding error instead and can be negative.", "quantifier": "all problems, all double outputs, all arrangements of numpy's sums, all resamples, all scale factors 2^k (outputs 0 or above 2^-300, at most 2^53 of them)", "why_tests_cant": "Tests compare with a tolerance. That an exact 0 or an unchanged digit survives every rounding, whatever the order in which numpy adds up, cannot be seen from a finite number of comparisons.", "anchors": ["src/SALib/analyze/sobol.py:134-185", "src/SALib/analyze/sobol.py:208-246"]}
{"id": "C114", "title": "Morris measures in double precision: zeros, signs and units", "statement": "Computed in double precision, with the sums arranged in any way, the Morris analysis keeps these facts exactly: |mu| <= mu_star, sigma and mu_star_conf are never negative, a group along whose steps the output never changes gets mu = mu_star = sigma = mu_star_conf = 0 (whenever these are numbers), mu equals mu_star for a group in which the output never decreases and -mu_star for one in which it never increases, negating the outputs negates mu and changes nothing else, and multiplying them by a power of two multiplies every unscaled result by exactly this power. Equal effects in all trajectories, which give sigma = 0 in exact arithmetic, give a positive sigma instead.", "quantifier": "all problems with and without groups, all designs in which a parameter moves at most once per trajectory, all double outputs, all arrangements of numpy's sums, all resamples, all scale factors 2^k (outputs 0 or above 2^-100, counts up to 2^53)", "why_tests_cant": "Tests compare with a tolerance. Whether mu_star can fall below |mu| by a rounding error, or a parameter without influence get 1e-17, depends on the order in which numpy adds up and on the digits of the outputs.", "anchors": ["src/SALib/analyze/morris.py:175-223", "src/SALib/analyze/morris.py:256-327", "src/SALib/analyze/morris.py:330-437", "src/SALib/analyze/morris.py:531-588"]}
{"id": "C115", "title": "DGSM in double precision: zeros, signs, nan and units", "statement": "Computed in double precision, with the sums arranged in any way, the DGSM analysis keeps these facts exactly: vi, vi_std, dgsm and dgsm_conf are never negative, a parameter whose steps never change the output gets 0 in all four (whenever these are numbers), vi and vi_std are nan exactly for parameters with a step of 0, negating the outputs changes no digit, and multiplying them by 2^k multiplies vi, vi_std and dgsm_conf by exactly 4^k and leaves dgsm unchanged. Constant base outputs, for which dgsm is nan in exact arithmetic, can give a huge number instead.", "quantifier": "all problems, designs of doubles, double outputs, arrangements of numpy's sums, resamples, scale factors 2^k (outputs 0 or at least 2^-a, steps at most 2^b with a + b <= 40)", "why_tests_cant": "Tests compare with a tolerance and use outputs that vary. Whether a zero, a nan or a digit survives rounding depends on every operation and on the order of the additions.", "anchors": ["src/SALib/analyze/dgsm.py:59-102", "src/SALib/analyze/dgsm.py:105-141"]}
{"id": "C116", "title": "Sizes computed with floating-point division are the integer quotients", "statement": "The analysers compute numbers of blocks, trajectories and frequencies as int(a / b), that is through a rounded quotient. For every array of fewer than 2^53 values this is exactly the integer quotient, so an array laid out in blocks of b rows is cut into the right number of blocks. The same holds for math.ceil(n / 2), math.ceil(n * 0.5) and int(n * 0.5), and for the class size max(int(n * 0.005), 10) of the Delta analysis although 0.005 is not a double. Beyond 2^53 the quotient can be one too large.", "quantifier": "all dividends below 2^53 and all positive divisors; all lengths up to 2^53 (halves) and 2^50 (class size)", "why_tests_cant": "A rounded quotient could be off at single pairs of numbers; tests use a few sizes.", "anchors": ["src/SALib/analyze/sobol.py:124-126", "src/SALib/analyze/morris.py:149-150", "src/SALib/analyze/morris.py:479", "src/SALib/analyze/dgsm.py:65", "src/SALib/analyze/fast.py:74", "src/SALib/analyze/fast.py:109", "src/SALib/analyze/fast.py:128", "src/SALib/analyze/rbd_fast.py:147", "src/SALib/analyze/delta.py:229", "src/SALib/sample/morris/morris.py:321"]}
{"id": "C117", "title": "Sobol' sequences are nested, and do not suffer from the rounded logarithm that gives the number of bits", "statement": "sobol_sequence.sample(N, D) uses math.ceil(math.log(N) / math.log(2)) bits. With any logarithm accurate to 2^-51 this is the least sufficient number of bits, or one more for a power of two; the rows do not depend on it. So every N below 2^31 works, every N above is refused, and sample(N, D) is the upper left part of sample(M, E) for N <= M and D <= E. The default skip_values of saltelli.sample is the least power of two not below N and 16, or twice N; the rows exist for every N below 2^30. With correctly rounded logarithms the superfluous bit appears exactly at 2^29 and 2^31: sample(2^31, D) is refused though 31 bits are enough, saltelli.sample(2^30) is refused, and the default skip for 2^29 is 2^30.", "quantifier": "all N, M, D, E, and all logarithms with relative error at most 2^-51", "why_tests_cant": "The rounded quotient misses the integer at single powers of two only (2^29, 2^31), which are too large for tests; nesting relates all pairs of sizes.", "anchors": ["src/SALib/sample/sobol_sequence.py:49-91", "src/SALib/sample/saltelli.py:112-118", "src/SALib/sample/saltelli.py:157-165"]}
{"id": "C118", "title": "The quoted analytic indices of the Oakley-O'Hagan example belong to a different input distribution", "statement": "test_functions.oakley2004.evaluate returns, for every row, the sum of a1_i x_i + a2_i sin x_i + a3_i cos x_i and of all M_ij x_i x_j. For independent normal inputs every first-order index of this function has a closed form for any coefficients. With the coefficients in the file and standard deviation 1 the closed form agrees with the fifteen values called analytic to 2e-5. With the standard deviation 0.835 that the file itself samples, the five largest indices exceed the quoted values by more than 0.01 each.", "quantifier": "all numbers of inputs, coefficients and deviations (value, decomposition and limit); all fifteen inputs of the example (quoted values)", "why_tests_cant": "The comparison in the file is a random estimate with confidence intervals, run only as a script; no test checks the quoted values against the function.", "anchors": ["src/SALib/test_functions/oakley2004.py:6-27", "src/SALib/test_functions/oakley2004.py:31-315", "src/SALib/test_functions/oakley2004.py:317-360"]}
{"id": "C119", "title": "Delta bootstrap subsets: failures do not depend on chance; what the saved table contains", "statement": "In delta.analyze, whether drawing a subset raises, which exception it raises and how many rows it draws depend on the sample, the mode and the cut points only, never on the random numbers. Hence once the first subset exists every bootstrap subset exists with the same size, and the RuntimeError about unstable bins is never reported in notes. The table for bootstrap_savedf has distinct column names when the parameters have. Each column has y_resamples entries: the parameter's values at the rows used for the index, in order, or nan throughout when the subset has another size. That every reported index has its subset in the table is false. The path always ends in .parquet and the suffix is never doubled.", "quantifier": "all samples, outputs, modes, cut points, sizes, random draws, density estimators and paths", "why_tests_cant": "A test fixes a seed, so it cannot show that success is independent of the draws; the handler in question cannot be reached by any input.", "anchors": ["src/SALib/analyze/delta.py:181-183", "src/SALib/analyze/delta.py:236-267", "src/SALib/analyze/delta.py:387-428", "src/SALib/analyze/delta.py:455-526", "src/SALib/analyze/delta.py:295-303"]}
{"id": "C120", "title": "Warnings of the Sobol' samplers say what they should", "statement": "sobol.sample and saltelli.sample warn that skip_values (saltelli also N) is not a power of two exactly for the numbers other than 2, 4, 8, ...; that 1 = 2^0 is accepted is false. With correctly rounded logarithms and numbers below 2^31 they warn of too few skipped points exactly when some power of two is above skip_values and at most N; with any monotone logarithm the warning implies N > skip_values. That every N > skip_values is reported, as the comment says, is false: after skipping 2^k points nothing is said for 2^k < N < 2^(k+1). saltelli.sample announces duplicate samples exactly for skip_values = 0; then, and also for skip_values = 1, all rows of the first block are equal, so no announcement does not mean no duplicates.", "quantifier": "all N, skip_values, monotone or correctly rounded logarithms, problems with uniform inputs, groupings and both settings of calc_second_order", "why_tests_cant": "the exponents come from rounded quotients of logarithms, whose truncation could be off at any power of two; a test compares a few sizes", "anchors": ["src/SALib/sample/sobol.py:109-131", "src/SALib/sample/saltelli.py:97-145"]}
{"id": "C121", "title": "HDMR plots show the fitted data", "statement": "The emulator panels of an HDMR result show the last ten trials in order, numbered backwards (\"Trial 1\" is the last); each pairs the emulated with the observed output of the same row, and the squared distances from the 1:1 line add up to the number of rows times the squared RMSE. The panel of a parameter, under its own name, draws the samples of the last trial and, over the same abscissae, points on the graph of one function of that parameter: the component fitted in the last trial plus the mean over all trials of the mean outputs. That these points are the fit of the last trial, as the title says, is false when its mean is another one. The testing panel compares predictions with the observations given to emulate; on the data analysed without bootstrap it repeats the only trial and its SSR is N times the squared RMSE. After emulate without observations the plot raises KeyError, or compares with the observations of an earlier call, raising ValueError when their numbers differ.", "quantifier": "all accepted analyses (data, orders, bootstraps, regressions, draws), all emulator calls before the plot", "why_tests_cant": "the plot tests only check that figures are produced; which rows are paired and which trial a curve belongs to depends on the bootstrap", "anchors": ["src/SALib/plotting/hdmr.py:14-113", "src/SALib/analyze/hdmr.py:284-372", "src/SALib/analyze/hdmr.py:796-914"]}
{"id": "C122", "title": "Brute-force Morris selection in single precision is nearly optimal", "statement": "Points are compared in double precision, the distances of trajectories and the scores of combinations are rounded to single precision. Whatever the order in which the sums are taken, the k trajectories selected by brute force are k different ones, and their exact spread (the root of the summed squared distances of all pairs) times a factor that depends only on the numbers of dimensions D, of points g+1 per trajectory and on k is at least that of every other selection; for k <= 10 (the most morris.sample accepts without local optimisation) and D + (g+1)^2 <= 2^20 the shortfall is at most one part in 2^17. This holds for every sample the Morris sampler draws in double precision with up to 2^48 levels, and for all samples whose coordinates are equal or 2^-60 apart. That the selection has the largest spread is false: trajectories (0,1/2), (1/4,3/4), (1/4+2^-26,3/4+2^-26).", "quantifier": "all samples, numbers of trajectories, groups, selections and chunk sizes, all orders of summation", "why_tests_cant": "tests compare the selection with expected ones on samples where the best is well ahead; how far rounding to float32 can mislead the argmax is a statement about all samples", "anchors": ["src/SALib/sample/morris/strategy.py:221-299", "src/SALib/sample/morris/brute.py:21-185", "src/SALib/sample/morris/morris.py:328-369"]}
{"id": "C123", "title": "PAWN figures in double precision", "statement": "With the quantile levels, the Kolmogorov-Smirnov distances and all figures computed from them rounded to double precision, and whatever the order in which sums are taken: the same calls raise the same exceptions as with exact figures; in every reported row, of parameters and of groups, 0 <= minimum <= median <= maximum <= 1 and mean, CV and stdev are not negative; the rows are nan where the exact ones are; without groups minimum and maximum are the exact ones correctly rounded, the mean is off by a factor of at most (1 - 2^-53)^(S+1), the median by at most two roundings, and CV is a number unless all distances are 0; with groups minimum, mean, median and maximum are off by at most S + D + 1 roundings. That the mean lies between minimum and maximum, and that equal slices have standard deviation 0, is false: ten runs in three slices with distance 1/10 each give mean 0.10000000000000002 and maximum 0.1.", "quantifier": "all problems, samples and outputs (up to 2^53 runs, slices and parameters), all orders of summation", "why_tests_cant": "tests compare figures of a few samples with a tolerance; neither the order of the figures nor an error bound follows for other samples", "anchors": ["src/SALib/analyze/pawn.py:108-175"]}
{"id": "C124", "title": "Forward errors of the Sobol' estimators", "statement": "In double precision and whatever the order of the additions, for arrays of N doubles: np.sum is off by at most N-1 relative rounding errors of the sum of the magnitudes and np.mean by N of the mean magnitude; np.var is the variance about a point within the error of the mean, up to N+3 relative rounding errors; total_order(A, AB, B) is within N+5 relative rounding errors of half the mean squared difference divided by the variance that is used, relative to itself; first_order and second_order are within N+3 and N+5 relative rounding errors of the mean magnitudes of the products they add up. (n relative rounding errors are at most 2n * 2^-53 for n up to 2^52; underflow adds multiples of 2^-1022.) That first-order indices are accurate relative to themselves is false: first_order can return 0 where the exact index is positive.", "quantifier": "all arrays of doubles A, AB, BA, B of equal length that are not all equal, all orders of summation", "why_tests_cant": "tests compare a few indices with reference values up to a tolerance; an error bound for all outputs and all orders of summation does not follow", "anchors": ["src/SALib/analyze/sobol.py:209-246"]}
{"id": "C125", "title": "Fractional factorial effects in double precision", "statement": "With every operation of analyze.ff rounded to double precision, and whatever the order in which np.dot adds up: the same calls raise the same exceptions and the results have the same names and pairs; every main effect and interaction is off by at most 2n relative rounding errors of the mean magnitude of the outputs (2n runs); outputs that are integer multiples of a power of two with magnitudes adding up to at most 2^53 units are analysed exactly; for linear models the main effects, dummies and interactions are within that limit of the coefficient, 0 and 0. That dummies of a linear model get exactly 0 is false: with outputs 2^53, -1, 2^53, -1, -2^53, 1, -2^53, 1 for three parameters the dummy gets -1/8.", "quantifier": "all problems, all vectors of doubles, all orders of summation", "why_tests_cant": "tests use a handful of outputs for which the sums are exact or compare with a tolerance; how large a dummy may get by rounding alone does not follow", "anchors": ["src/SALib/analyze/ff.py:70-96", "src/SALib/analyze/ff.py:123-158"]}
{"id": "C126", "title": "Errors of Morris and DGSM measures in double precision", "statement": "With every operation of analyze.morris and analyze.dgsm rounded to double precision, and whatever the order in which numpy adds up: mu and mu_star of a group are off the mean of the exact elementary effects and of their magnitudes by at most N + D + 4 relative rounding errors of the mean magnitude (N trajectories, D parameters, up to 2^52 levels), so mu_star is accurate relative to itself; vi is off the mean square of the exact secant slopes by at most N + 9 rounding errors relative to itself, and dgsm by N + 11 given the computed variance and width, up to underflow. That mu is accurate relative to itself is false: it is 0 for three trajectories with effects 2^53, 1 and -2^53.", "quantifier": "all problems with or without groups, all samples of doubles in which each parameter of the group moves once per trajectory, all vectors of doubles, all orders of summation", "why_tests_cant": "tests compare a few results with stored numbers up to a tolerance; they do not tell how the error grows with the number of trajectories or which measures may lose all digits", "anchors": ["src/SALib/analyze/morris.py:110-223", "src/SALib/analyze/morris.py:256-281", "src/SALib/analyze/morris.py:330-437", "src/SALib/analyze/dgsm.py:84-141", "src/SALib/util/__init__.py:381-393"]}
{"id": "C127", "title": "Quality of the locally optimised Morris trajectories", "statement": "The spread (root of the sum of squared distances) of the k trajectories selected by the local strategy is at least 1/sqrt(k-1) of the largest possible spread of k trajectories, so two trajectories are selected optimally. Three are not: the strategy misses the best three of five. The docstring of sum_distances says that purely summing distances would lead to the same result: true for two trajectories, false for three of four.", "quantifier": "all samples of N trajectories, all k with 2 <= k < N, all ways in which argsort breaks ties", "why_tests_cant": "tests compare the local strategy with brute force on a few samples, where both happen to agree; a worst-case guarantee speaks about all samples", "anchors": ["src/SALib/sample/morris/local.py:20-178", "src/SALib/sample/morris/strategy.py:221-299", "src/SALib/sample/morris/brute.py:117-146"]}
{"id": "C128", "title": "The local strategy as computed, in single precision", "statement": "With the distances in double precision stored in single precision and the scores computed in single precision, as numpy does, the local strategy returns k trajectories (different ones if the generated ones differ). No k trajectories are spread by more than sqrt(k-1) times the spread of the returned ones, up to a factor of at most 1 + 2^-13 for k <= 10. In particular for every sample the Morris sampler generates. The best pair, which the strategy finds in exact arithmetic, may be missed: two distances that differ can round to the same single precision number.", "quantifier": "all samples whose coordinates are equal or at least 2^-60 apart, all k with 2 <= k < N, all ways in which argsort breaks ties, all orders in which numpy adds", "why_tests_cant": "rounding matters only for trajectories nearly equally far apart; the order of additions depends on the machine", "anchors": ["src/SALib/sample/morris/local.py:20-178", "src/SALib/sample/morris/strategy.py:196-299"]}
{"id": "C129", "title": "The figure of regional sensitivity analysis", "statement": "plot() of an RSA result draws one panel per parameter, in order; each panel shows the parameter's column of the table, a point per bin at the bin's lower edge, with gaps for nan. plot(factors=...) draws exactly the panels asked for in the order asked; an unknown factor is a KeyError and an empty list a TypeError. A result without its names, bins or target is a KeyError, whatever the factors. The axis label promises percentiles, but the positions are fractions below 1.", "quantifier": "all ungrouped problems whose parameters are not called names, bins or target; all samples, outputs, numbers of bins, targets and lists of factors", "why_tests_cant": "tests only check that plotting does not raise; which column lands in which panel, for every selection and order, is not inspected", "anchors": ["src/SALib/analyze/rsa.py:188-241"]}
{"id": "C130", "title": "How far standard deviations, Morris' sigma, vi_std and the stdev of PAWN in double precision are off", "statement": "np.std of n doubles, with ddof 0 or 1, is off the exact deviation by at most 2n + 5 roundings of the deviation plus twice the mean magnitude; sigma of analyze/morris for a parameter alone in its group is a number and off the exact deviation of the elementary effects by at most 2N + D + 9 roundings of three times their root mean square; vi_std of analyze/dgsm is off the exact deviation of the squared secant slopes by at most 2N + 14 roundings of three times their root mean square. The stdev of analyze/pawn for an ungrouped parameter is off that of the exact distances by at most 4 times 2S + 6 roundings of 1. None is accurate relative to itself.", "quantifier": "all arrays of doubles of any length and every order in which the sums are taken; all problems, proper samples of at least two trajectories, outputs, up to 2^52 levels (even or odd) and resamples", "why_tests_cant": "tests compare a few rounded results; a bound for all sizes, magnitudes and orders of summation is not a finite check", "anchors": ["src/SALib/analyze/morris.py:120-253", "src/SALib/analyze/dgsm.py:94-114", "src/SALib/analyze/pawn.py:136-143"]}
{"id": "C131", "title": "How far the confidence intervals of Morris and DGSM in double precision are off", "statement": "mu_star_conf of a group, from R resamples of N trajectories, is a number and off the mean over the members of z times the standard deviation of the exact resampled mean effects by at most 2R + N + D + 10 roundings of z times three times the root mean square of these means; dgsm_conf is off z times the deviation of the exact resampled means of the squared secant slopes by at most 2R + N + 15 such roundings.", "quantifier": "all problems, proper samples, outputs, up to 2^52 levels, confidence levels, resamples of any number of at least two, and all orders in which the sums are taken", "why_tests_cant": "intervals are random and tests at most check them loosely; a bound over all resamples and magnitudes is not a finite check", "anchors": ["src/SALib/analyze/morris.py:531-579", "src/SALib/analyze/dgsm.py:125-141"]}
