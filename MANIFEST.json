{
 "claims": [
  {
   "property": "C01",
   "status": "proved",
   "theorems": [
    "C01_group_names",
    "C01_matrix_names"
   ],
   "note": ""
  },
  {
   "property": "C02",
   "status": "proved",
   "theorems": [
    "C02_group_matrix_total",
    "C02_group_matrix_entries",
    "C02_group_matrix_partition"
   ],
   "note": ""
  },
  {
   "property": "C03",
   "status": "proved",
   "theorems": [
    "C03_uniform_scaling"
   ],
   "note": ""
  },
  {
   "property": "C04",
   "status": "proved",
   "theorems": [
    "C04_legal_bounds_iff",
    "C04_rejection_leaves_samples",
    "C04_rejection_leaves_problem"
   ],
   "note": ""
  },
  {
   "property": "C05",
   "status": "proved",
   "theorems": [
    "C05_scale_unscale"
   ],
   "note": ""
  },
  {
   "property": "C06",
   "status": "partial",
   "theorems": [
    "C06_nonuniform_scaling",
    "C06_refused_iff",
    "C06_proper_accepted_partial",
    "C06_rejections",
    "C06_accepted_gives_numbers_refuted",
    "C06_logunif_unchecked_refuted",
    "C06_negative_triangle_refuted",
    "C06_truncnorm_file_refuted"
   ],
   "note": "Support, order, column-locality, exact rejection set and non-mutation proved. False parts refuted: some accepted parameters give only nan (zero-width triangle, reversed log-uniform), proper triangles with a negative end are refused, truncnorm from a parameter file is unusable."
  },
  {
   "property": "C07",
   "status": "proved",
   "theorems": [
    "C07_param_file",
    "C07_param_file_rejected",
    "C07_param_rows_functional"
   ],
   "note": ""
  },
  {
   "property": "C08",
   "status": "proved",
   "theorems": [
    "C08_default_groups",
    "C08_default_groups_idempotent",
    "C08_grouped_iff"
   ],
   "note": ""
  },
  {
   "property": "C09",
   "status": "proved",
   "theorems": [
    "C09_strata",
    "C09_strata_scaled"
   ],
   "note": ""
  },
  {
   "property": "C10",
   "status": "proved",
   "theorems": [
    "C10_shape_and_groups",
    "C10_no_samples"
   ],
   "note": ""
  },
  {
   "property": "C11",
   "status": "proved",
   "theorems": [
    "C11_saltelli_layout",
    "C11_sobol_sample",
    "C11_saltelli_sample",
    "C11_saltelli_default_skip",
    "C11_given_skip"
   ],
   "note": ""
  },
  {
   "property": "C12",
   "status": "proved",
   "theorems": [
    "C12_roundtrip"
   ],
   "note": ""
  },
  {
   "property": "C13",
   "status": "partial",
   "theorems": [
    "C13_accepted_lengths",
    "C13_same_group_count_partial",
    "C13_single_group_refuted"
   ],
   "note": "Rejection and acceptance are proved for every input; agreement of the group counts is proved for unambiguous problems and refuted for problems whose several parameters share one group label (sampler: one swap per parameter, analyser: one group)."
  },
  {
   "property": "C14",
   "status": "proved",
   "theorems": [
    "C14_ignored_group_zero"
   ],
   "note": ""
  },
  {
   "property": "C15",
   "status": "proved",
   "theorems": [
    "C15_total_nonnegative",
    "C15_affine_invariant"
   ],
   "note": ""
  },
  {
   "property": "C16",
   "status": "partial",
   "theorems": [
    "C16_constant_output_refuted",
    "C16_constant_output_partial"
   ],
   "note": "Refuted in exact arithmetic: outputs are divided by their standard deviation 0 first, so all indices are nan. Partial: zeros if the computed deviation is not 0."
  },
  {
   "property": "C17",
   "status": "partial",
   "theorems": [
    "C17_parallel_equals_serial_partial",
    "C17_any_order",
    "C17_constant_resamples_refuted",
    "C17_kept_resamples_refuted",
    "C17_kept_resamples_serial_refuted"
   ],
   "note": "Proved when two drawn outputs differ; refuted for constant resamples (0 serial, nan parallel) and for keep_resamples (parallel returns zeros)."
  },
  {
   "property": "C18",
   "status": "partial",
   "theorems": [
    "C18_upper_triangle",
    "C18_data_frame_partial",
    "C18_single_parameter_refuted"
   ],
   "note": "to_df is proved for at least two groups; with one group it raises IndexError (refuted)."
  },
  {
   "property": "C19",
   "status": "proved",
   "theorems": [
    "C19_total",
    "C19_range"
   ],
   "note": "The bit count is an oracle with N <= 2^bits(N); every dimension and N."
  },
  {
   "property": "C20",
   "status": "proved",
   "theorems": [
    "C20_strata",
    "C20_saltelli_strata"
   ],
   "note": ""
  },
  {
   "property": "C21",
   "status": "proved",
   "theorems": [
    "C21_table_well_formed"
   ],
   "note": ""
  },
  {
   "property": "C22",
   "status": "proved",
   "theorems": [
    "C22_accepts",
    "C22_frequencies"
   ],
   "note": "Exact arithmetic for np.linspace."
  },
  {
   "property": "C23",
   "status": "proved",
   "theorems": [
    "C23_unit_sample",
    "C23_sample",
    "C23_refused",
    "C23_curve_unique"
   ],
   "note": ""
  },
  {
   "property": "C24",
   "status": "proved",
   "theorems": [
    "C24_orders",
    "C24_variance",
    "C24_any_size_refuted"
   ],
   "note": "Proved for more than 4M outputs per parameter; C24_any_size_refuted shows that the size condition is needed."
  },
  {
   "property": "C25",
   "status": "proved",
   "theorems": [
    "C25_blocks",
    "C25_rejected"
   ],
   "note": ""
  },
  {
   "property": "C26",
   "status": "proved",
   "theorems": [
    "C26_contrast",
    "C26_sample"
   ],
   "note": ""
  },
  {
   "property": "C27",
   "status": "proved",
   "theorems": [
    "C27_formula",
    "C27_linear",
    "C27_products"
   ],
   "note": ""
  },
  {
   "property": "C28",
   "status": "proved",
   "theorems": [
    "C28_additive",
    "C28_listing"
   ],
   "note": ""
  },
  {
   "property": "C29",
   "status": "partial",
   "theorems": [
    "C29_padding",
    "C29_too_many",
    "C29_wrong_length",
    "C29_distributions_refuted"
   ],
   "note": "Padding proved; the clause about distributions is refuted: the padding does not extend dists, so sampling raises ValueError unless the number of parameters is a power of two."
  },
  {
   "property": "C30",
   "status": "proved",
   "theorems": [
    "C30_sample",
    "C30_design"
   ],
   "note": ""
  },
  {
   "property": "C31",
   "status": "proved",
   "theorems": [
    "C31_range"
   ],
   "note": ""
  },
  {
   "property": "C32",
   "status": "proved",
   "theorems": [
    "C32_linear",
    "C32_pipeline"
   ],
   "note": ""
  },
  {
   "property": "C33",
   "status": "proved",
   "theorems": [
    "C33_order",
    "C33_effects",
    "C33_scaled_effects",
    "C33_group_mu_star",
    "C33_ignored"
   ],
   "note": ""
  },
  {
   "property": "C34",
   "status": "partial",
   "theorems": [
    "C34_lengths_partial",
    "C34_refuted"
   ],
   "note": "Proved: whole trajectories are analysed as such (C33_effects), and the exact set of accepted lengths. Refuted: lengths that are not a multiple of G+1 can be analysed silently."
  },
  {
   "property": "C35",
   "status": "proved",
   "theorems": [
    "C35_optimal",
    "C35_sum_of_squares",
    "C35_chunks"
   ],
   "note": ""
  },
  {
   "property": "C36",
   "status": "partial",
   "theorems": [
    "C36_local_partial",
    "C36_refuted"
   ],
   "note": "Proved for pairwise distinct trajectories; refuted when trajectories repeat (the same index is returned twice)."
  },
  {
   "property": "C37",
   "status": "proved",
   "theorems": [
    "C37_blocks"
   ],
   "note": ""
  },
  {
   "property": "C38",
   "status": "partial",
   "theorems": [
    "C38_design",
    "C38_zero_step",
    "C38_positive_box",
    "C38_distributions_refuted"
   ],
   "note": "Proved for problems without a dists entry; with distributions the step is clamped to the distribution parameters (C38_distributions_refuted)."
  },
  {
   "property": "C39",
   "status": "proved",
   "theorems": [
    "C39_rejected",
    "C39_nonneg",
    "C39_formula",
    "C39_linear",
    "C39_ignored",
    "C39_affine",
    "C39_pipeline",
    "C39_origin_nan"
   ],
   "note": ""
  },
  {
   "property": "C40",
   "status": "partial",
   "theorems": [
    "C40_reorder",
    "C40_rise_fall",
    "C40_ratio",
    "C40_unskew",
    "C40_correction",
    "C40_correction_refuted",
    "C40_analyze",
    "C40_division",
    "C40_small_sample",
    "C40_affine",
    "C40_rescaled_parameters",
    "C40_row_order",
    "C40_harmonic"
   ],
   "note": "Reordering, ratio and analyser are proved for every input; the laws of the bias correction hold for N > 2M and fail (C40_correction_refuted) for 0 < N < 2M, which the code accepts."
  },
  {
   "property": "C41",
   "status": "partial",
   "theorems": [
    "C41_rows",
    "C41_partition_partial",
    "C41_largest_refuted",
    "C41_order",
    "C41_groups",
    "C41_one_label_refuted",
    "C41_increasing_outputs",
    "C41_rescaled_parameters",
    "C41_row_order",
    "C41_constant_parameter",
    "C41_no_slices"
   ],
   "note": "Rows, order, groups and invariances proved for every input; refuted: the largest value of a parameter is in no slice, and one shared label gives one name for several rows."
  },
  {
   "property": "C42",
   "status": "partial",
   "theorems": [
    "C42_partition",
    "C42_cells",
    "C42_cells_apply",
    "C42_statistic",
    "C42_complement",
    "C42_single_complement_refuted",
    "C42_report",
    "C42_singleton_groups",
    "C42_groups_refuted",
    "C42_one_label_refuted",
    "C42_reserved_name_refuted",
    "C42_row_order",
    "C42_rescaled",
    "C42_bad_arguments",
    "C42_normalised_refuted"
   ],
   "note": "Bins, cells, report and invariances proved for every input. Refuted: one run outside a bin raises ValueError instead of nan; groups of two or more parameters raise IndexError; one shared label reports the first parameter only; parameters called names, bins or target lose their results."
  },
  {
   "property": "C43",
   "status": "partial",
   "theorems": [
    "C43_shares",
    "C43_groups",
    "C43_group_names_refuted",
    "C43_group_sum_refuted",
    "C43_rejects",
    "C43_affine_outputs",
    "C43_units",
    "C43_row_order"
   ],
   "note": "Shares, groups, rejections and invariances proved for every discrepancy function that is defined and non-negative on the unit square. Refuted with groups: the names are those of the parameters (more names than values, to_df raises) and the group means do not sum to 1."
  },
  {
   "property": "C44",
   "status": "partial",
   "theorems": [
    "C44_merge",
    "C44_no_point_lost",
    "C44_bins_used",
    "C44_bins_cover",
    "C44_last_bin_refuted"
   ],
   "note": "Proved: exact description of the bins and of merging, nothing lost, order kept, every bin but the last at least the minimum. Refuted: the last bin can stay below the minimum although merging it would suffice."
  },
  {
   "property": "C45",
   "status": "partial",
   "theorems": [
    "C45_balanced",
    "C45_shares",
    "C45_total",
    "C45_raw",
    "C45_step",
    "C45_step_total",
    "C45_top_edge_refuted",
    "C45_two_valued_refuted",
    "C45_constant",
    "C45_notes_lost_refuted",
    "C45_constant_sobol_refuted"
   ],
   "note": "Proved: shares, own bins, totals, raw and step modes, nan plus note for constant parameters. Refuted: totals when a specified edge equals the largest value or (step) all positive values are equal; no notes when every parameter is constant; method sobol analyses constant parameters."
  },
  {
   "property": "C46",
   "status": "partial",
   "theorems": [
    "C46_sobol",
    "C46_all_methods",
    "C46_constant_output",
    "C46_classes",
    "C46_rescaling",
    "C46_constant_all_refuted"
   ],
   "note": "Proved: S1 is a variance share in [0,1] for every sample and method, 0 for constant output, invariant under rescaling. Refuted: with the delta part constant output raises."
  },
  {
   "property": "C47",
   "status": "partial",
   "theorems": [
    "C47_rows",
    "C47_produced_after",
    "C47_new_samples",
    "C47_evaluate_refuted"
   ],
   "note": "Invariant over all histories of the modelled calls, given row-preserving models for serial evaluation and for direct assignment; refuted without, because neither checks the number of rows."
  },
  {
   "property": "C48",
   "status": "partial",
   "theorems": [
    "C48_current_partial",
    "C48_stale_refuted"
   ],
   "note": "Holds for histories that replace samples/results only while no analysis is present; refuted otherwise: set_samples, set_results, results assignment and evaluate keep a stale analysis."
  },
  {
   "property": "C49",
   "status": "partial",
   "theorems": [
    "C49_one_output",
    "C49_several_outputs",
    "C49_few_processors",
    "C49_progress_bar_refuted",
    "C49_empty_chunk_refuted"
   ],
   "note": "Proved for row-wise models and any processor count without p_tqdm; refuted with p_tqdm (TypeError) and for models losing the output count on empty chunks."
  },
  {
   "property": "C50",
   "status": "partial",
   "theorems": [
    "C50_per_output",
    "C50_single",
    "C50_no_results",
    "C50_positional_refuted",
    "C50_repeated_names_refuted"
   ],
   "note": "Proved for distinct output names and no extra positional arguments; refuted for positional arguments (bound before the problem) and repeated names."
  },
  {
   "property": "C51",
   "status": "partial",
   "theorems": [
    "C51_one_parameter",
    "C51_one_group_refuted",
    "C51_parallel_refuted"
   ],
   "note": "One parameter refused by analyze; refuted for one group (the code tests len of the string 'groups') and for analyze_parallel called directly."
  },
  {
   "property": "C52",
   "status": "proved",
   "theorems": [
    "C52_constructed",
    "C52_refused",
    "C52_store",
    "C52_numbered",
    "C52_history"
   ],
   "note": ""
  },
  {
   "property": "C53",
   "status": "proved",
   "theorems": [
    "C53_ehdmr",
    "C53_hdmr"
   ],
   "note": "Both analysers, every order; for the enhanced analyser also of the list of names it leaves in the problem."
  },
  {
   "property": "C54",
   "status": "partial",
   "theorems": [
    "C54_ehdmr_partial",
    "C54_ehdmr_refuted",
    "C54_hdmr"
   ],
   "note": "hdmr.py: proved for every run. enhanced_hdmr.py: proved for every run that succeeds (max_order 2); refuted for max_order 1 and 3, which always raise."
  },
  {
   "property": "C55",
   "status": "partial",
   "theorems": [
    "C55_ehdmr",
    "C55_ehdmr_counts",
    "C55_hdmr_partial",
    "C55_hdmr_first_pair",
    "C55_hdmr_refuted"
   ],
   "note": "hdmr.py: proved for every term but the first pair and the first triple; refuted for the first pair, tested with the count of a first-order term. enhanced_hdmr.py: proved for every run."
  },
  {
   "property": "C56",
   "status": "partial",
   "theorems": [
    "C56_ehdmr_refuted",
    "C56_ehdmr_rejected"
   ],
   "note": "Refuted for enhanced_hdmr.py: names are extended in place and every later call is rejected; rejected calls and max_order 1 only add missing entries."
  },
  {
   "property": "C57",
   "status": "partial",
   "theorems": [
    "C57_ehdmr_partial",
    "C57_ehdmr_components",
    "C57_ehdmr_refuted"
   ],
   "note": "Proved up to order 2, for bases that are not extended and for three parameters; refuted for extended triples of four parameters or more."
  },
  {
   "property": "C58",
   "status": "partial",
   "theorems": [
    "C58_ehdmr_partial",
    "C58_ehdmr_exact",
    "C58_ehdmr_refuted",
    "C58_hdmr_partial",
    "C58_hdmr_refuted"
   ],
   "note": "hdmr.py: the exact difference is proved for every run; refuted even of a perfect emulator (mixed divisors R and R-1). enhanced_hdmr.py: exact difference proved for every run (covariance with the residual), equality for an exact fit, refuted otherwise."
  },
  {
   "property": "C59",
   "status": "partial",
   "theorems": [
    "C59_rng",
    "C59_global",
    "C59_sobol",
    "C59_qmc",
    "C59_undrawn",
    "C59_zero_refuted",
    "C59_hdmr_refuted"
   ],
   "note": "Proved for every prior state of the generators for the samplers and analysers that seed: every numeric seed for the handle_seed functions and scipy's engines, every non-zero one for those that call np.random.seed and for analyze.sobol. Refuted: seed 0 is treated like no seed there, and hdmr's seed argument does not determine its draws. Random generators are abstract; a function's own computation is an arbitrary body over its draws."
  },
  {
   "property": "C60",
   "status": "proved",
   "theorems": [
    "C60_indices",
    "C60_variance_ratios",
    "C60_effects_unique",
    "C60_domain"
   ],
   "note": "For every coefficient vector without -1 and every positive curvature vector: bounds, sums, and equality with the variance ratios of the function evaluate computes (iterated Riemann integrals). Default coefficients when a is omitted are only used in C74."
  },
  {
   "property": "C61",
   "status": "partial",
   "theorems": [
    "C61_reaches",
    "C61_parameter",
    "C61_files",
    "C61_required",
    "C61_column",
    "C61_dispatch",
    "C61_ignored_refuted",
    "C61_ignored_exist_refuted"
   ],
   "note": "Proved for every command line (as a list of option/text pairs) and every option of the nineteen methods except five, for which the opposite is proved (refuted): sample sobol --seed and --skip-values, sample ff --samples, analyze hdmr and enhanced_hdmr --seed."
  },
  {
   "property": "C62",
   "status": "partial",
   "theorems": [
    "C62_indices_numeric",
    "C62_confidence_partial",
    "C62_confidence_nan_refuted"
   ],
   "note": "Indices proved; confidences proved if each resample is varied, refuted otherwise (one constant resample makes them nan)."
  },
  {
   "property": "C63",
   "status": "proved",
   "theorems": [
    "C63_index_formulas"
   ],
   "note": ""
  },
  {
   "property": "C64",
   "status": "proved",
   "theorems": [
    "C64_aliasing"
   ],
   "note": ""
  },
  {
   "property": "C65",
   "status": "partial",
   "theorems": [
    "C65_bounds",
    "C65_ranks",
    "C65_determined_refuted",
    "C65_negative_refuted"
   ],
   "note": "Proved: bounds and rank dependence. Refuted: distance 0 for a determined output; negative reported index."
  },
  {
   "property": "C66",
   "status": "partial",
   "theorems": [
    "C66_ehdmr_training_partial",
    "C66_ehdmr_elsewhere_refuted",
    "C66_training",
    "C66_elsewhere_refuted"
   ],
   "note": "Proved on the analysed data without bootstrap; refuted elsewhere: points are rescaled by the range of the evaluation matrix, so the prediction at a point depends on the other rows. enhanced_hdmr.py: training predictions lack the mean; refuted elsewhere."
  },
  {
   "property": "C67",
   "status": "proved",
   "theorems": [
    "C67_basis"
   ],
   "note": "Proved."
  },
  {
   "property": "C68",
   "status": "partial",
   "theorems": [
    "C68_accepted",
    "C68_rows",
    "C68_column_refuted"
   ],
   "note": "Proved for one-dimensional outputs, given a solver that does not raise; refuted for an N x 1 output, which passes the checks and then raises ValueError."
  },
  {
   "property": "C69",
   "status": "partial",
   "theorems": [
    "C69_ehdmr",
    "C69_ehdmr_sum_widths_refuted",
    "C69_sums",
    "C69_lengths",
    "C69_sum_widths_refuted"
   ],
   "note": "Sums and lengths proved (the list of test decisions has an entry per term and bootstrap); refuted for the half-widths of the sums, which are 0 or nan. The same for enhanced_hdmr.py (with one significance entry per term)."
  },
  {
   "property": "C70",
   "status": "proved",
   "theorems": [
    "C70_orthonormal",
    "C70_exist"
   ],
   "note": "Determinants are exact (numpy.linalg.det is modelled as the determinant)."
  },
  {
   "property": "C71",
   "status": "partial",
   "theorems": [
    "C71_cost_partial",
    "C71_triples_refuted"
   ],
   "note": "Proved: second order for every number of parameters, third order for three. Refuted: triples among four parameters or more (C71_triples_refuted, for every such number)."
  },
  {
   "property": "C72",
   "status": "partial",
   "theorems": [
    "C72_success_partial",
    "C72_options_refuted",
    "C72_degenerate"
   ],
   "note": "Which calls succeed is characterised; refuted for max_order 1 and 3 and max_iter 1000."
  },
  {
   "property": "C73",
   "status": "partial",
   "theorems": [
    "C73_curvature_refuted"
   ],
   "note": "Refuted: alpha = -1 is accepted and the first-order indices add up to 2."
  },
  {
   "property": "C74",
   "status": "partial",
   "theorems": [
    "C74_quoted_refuted"
   ],
   "note": "Refuted: quoted 0.7165, computed value between 0.71615 and 0.71625."
  },
  {
   "property": "C75",
   "status": "proved",
   "theorems": [
    "C75_effects",
    "C75_quoted"
   ],
   "note": "Riemann integrals over [-pi, pi]^3; pi bounded by the standard library's series."
  },
  {
   "property": "C76",
   "status": "partial",
   "theorems": [
    "C76_outputs",
    "C76_reliability_refuted",
    "C76_recycling"
   ],
   "note": "The row contents are proved; refuted that reliability is a share: 25 values are simulated and the count is divided by nvars (100), so it never exceeds 1/4. Inflows and brentq are oracles."
  },
  {
   "property": "C77",
   "status": "proved",
   "theorems": [
    "C77_linear_1",
    "C77_linear_2"
   ],
   "note": ""
  },
  {
   "property": "C78",
   "status": "partial",
   "theorems": [
    "C78_untouched",
    "C78_sobol",
    "C78_consumes",
    "C78_global_refuted"
   ],
   "note": "Proved for the functions on handle_seed, default_rng and scipy's engines; refuted for those that call np.random.seed."
  },
  {
   "property": "C79",
   "status": "partial",
   "theorems": [
    "C79_child",
    "C79_row",
    "C79_object",
    "C79_instance_refuted"
   ],
   "note": "What happens to the caller's Generator is proved exactly; that it is the instance drawn from is refuted for handle_seed, which draws from a spawned child."
  },
  {
   "property": "C80",
   "status": "partial",
   "theorems": [
    "C80_accepted_partial",
    "C80_numpy_refuted"
   ],
   "note": "Exact acceptance of Python integers proved; numpy integers refuted for handle_seed."
  },
  {
   "property": "C81",
   "status": "partial",
   "theorems": [
    "C81_default_partial",
    "C81_default_refuted"
   ],
   "note": "Proved for every optional option except seven, for which the opposite is proved (refuted): morris, dgsm, delta --resamples, pawn --slices, rsa --bins and --target, ff --max-order. delta's bins_specs, files and required options are outside the partial theorem."
  },
  {
   "property": "C82",
   "status": "partial",
   "theorems": [
    "C82_text_partial",
    "C82_morris_refuted",
    "C82_parallel"
   ],
   "note": "Proved for enhanced_hdmr and for sobol's flag; refuted for morris --local and --scaled, where \"False\" means true."
  },
  {
   "property": "C83",
   "status": "proved",
   "theorems": [
    "C83_reported",
    "C83_total",
    "C83_first",
    "C83_second",
    "C83_centred",
    "C83_variance",
    "C83_unbiased_refuted"
   ],
   "note": "Inputs take finitely many values; the base points are independent draws where the code takes a low-discrepancy sequence. The bias of the centred terms is real (C83_unbiased_refuted shows that exact unbiasedness fails); centred by any constant they are unbiased (C83_first, C83_second)."
  },
  {
   "property": "C84",
   "status": "proved",
   "theorems": [
    "C84_plane",
    "C84_orthants",
    "C84_saltelli_plane",
    "C84_quarters_refuted"
   ],
   "note": "Linear independence over two elements of the leading bits of the direction numbers, decided by the kernel for the shipped table and every number of bits up to 31. The stronger division into quarters of four coordinates does not hold (C84_quarters_refuted)."
  },
  {
   "property": "C85",
   "status": "proved",
   "theorems": [
    "C85_additive",
    "C85_exact",
    "C85_first_harmonic",
    "C85_few_samples_refuted"
   ],
   "note": "S1 = ST and the exact value for sums of cosine series; with N <= 4 M^2 (D-1) the sampler gives two parameters one frequency and the indices are wrong (C85_few_samples_refuted), so the bound in the statement is sharp."
  },
  {
   "property": "C86",
   "status": "partial",
   "theorems": [
    "C86_points",
    "C86_unbiased",
    "C86_sigma",
    "C86_odd_refuted"
   ],
   "note": "Proved for every even number of levels. C86_odd_refuted: for every odd number of levels the middle level is never sampled (the code warns)."
  },
  {
   "property": "C87",
   "status": "proved",
   "theorems": [
    "C87_shuffles",
    "C87_law",
    "C87_additive"
   ],
   "note": "Proved for every problem with bounds (no distributions) and every group structure; the law is over the shuffles with the positions within strata fixed arbitrarily."
  },
  {
   "property": "C88",
   "status": "partial",
   "theorems": [
    "C88_bars",
    "C88_refused",
    "C88_morris",
    "C88_fast",
    "C88_rbd_fast",
    "C88_dgsm",
    "C88_delta",
    "C88_sobol",
    "C88_pawn",
    "C88_pawn_refuted",
    "C88_ff_refuted",
    "C88_hdmr"
   ],
   "note": "Proved for the stated analysers; refuted for PAWN with a single group label, for ff without interactions and (part of C88_sobol) for second order of one group."
  },
  {
   "property": "C89",
   "status": "partial",
   "theorems": [
    "C89_heatmap",
    "C89_metric",
    "C89_defaults",
    "C89_labels_refuted",
    "C89_lists_refuted"
   ],
   "note": "Proved when the indices of the first shape come first; refuted for mixed lists (wrong labels) and for the default maps of FAST, RBD-FAST, delta and HDMR."
  },
  {
   "property": "C90",
   "status": "partial",
   "theorems": [
    "C90_one_frame",
    "C90_sobol",
    "C90_several_frames",
    "C90_own_plot_refuted",
    "C90_ff_refuted"
   ],
   "note": "Proved for inherited plots; refuted for HDMR, RSA and ff without interactions."
  },
  {
   "property": "C91",
   "status": "partial",
   "theorems": [
    "C91_bars",
    "C91_histograms",
    "C91_histograms_refuted",
    "C91_covariance_refuted"
   ],
   "note": "Bars proved; histograms proved for two to nine parameters and refuted otherwise; covariance plots refuted for grouped analyses."
  },
  {
   "property": "C92",
   "status": "partial",
   "theorems": [
    "C92_trials",
    "C92_regressions",
    "C92_trials_refuted"
   ],
   "note": "Proved for at most ten trials or multiples of ten; refuted for every other number."
  },
  {
   "property": "C93",
   "status": "partial",
   "theorems": [
    "C93_pass",
    "C93_fixed_point",
    "C93_first_order",
    "C93_higher_order",
    "C93_default_zero_refuted"
   ],
   "note": "The linear solver is an argument; its specification (B^T B + lambda I) T = B^T is a hypothesis of the theorems that need it. When the Gram matrix is singular, higher-order terms are zero, as the source comment says, but first-order terms are computed from uninitialised memory (C93_default_zero_refuted). That theorem takes the case in which no regression is possible and no bootstrap is used."
  },
  {
   "property": "C94",
   "status": "proved",
   "theorems": [
    "C94_notes"
   ],
   "note": "Bin specifications with fewer than -1 bins raise before any note."
  },
  {
   "property": "C95",
   "status": "partial",
   "theorems": [
    "C95_scale",
    "C95_accuracy",
    "C95_one_refuted",
    "C95_excess",
    "C95_sobol"
   ],
   "note": "Rounding to nearest even with 53 bits and gradual underflow (Flocq's FLT format); overflow is not modelled. Refuted at the point 1, with a bound on the excess."
  },
  {
   "property": "C96",
   "status": "proved",
   "theorems": [
    "C96_sample",
    "C96_trajectories"
   ],
   "note": "The products of integer matrices are taken as exact (they are sums of at most 2k small integers); overflow is not modelled. Up to 2^52 levels."
  },
  {
   "property": "C97",
   "status": "partial",
   "theorems": [
    "C97_frequencies",
    "C97_exact_refuted"
   ],
   "note": "Proved up to N = 2^50, distinctness up to N = 2^26; equality with the exact frequencies refuted."
  },
  {
   "property": "C98",
   "status": "partial",
   "theorems": [
    "C98_latin",
    "C98_stratum_refuted",
    "C98_below_one_refuted",
    "C98_perturbed",
    "C98_any_step_refuted"
   ],
   "note": "rng.uniform is modelled as low + (high - low) * u in double precision. Exact strata, values below 1 and arbitrary steps refuted."
  },
  {
   "property": "C99",
   "status": "partial",
   "theorems": [
    "C99_total_effect",
    "C99_converges",
    "C99_limit_bound",
    "C99_sampler",
    "C99_mu_star",
    "C99_sample_refuted",
    "C99_strict_refuted"
   ],
   "note": "Bound, limits and the mu* inequality proved; the documented bound refuted for a given finite sample, and the strict inequality with mu* refuted. Slopes are required to exist on both sides of the bounds."
  },
  {
   "property": "C100",
   "status": "proved",
   "theorems": [
    "C100_converges",
    "C100_parameters",
    "C100_design",
    "C100_shares",
    "C100_runs",
    "C100_ishigami"
   ],
   "note": "Over the reals. That scipy's generator fills the cube is an assumption on the oracle; grids are shown to satisfy it."
  },
  {
   "property": "C101",
   "status": "partial",
   "theorems": [
    "C101_kept",
    "C101_fresh",
    "C101_padded_refuted",
    "C101_ehdmr_refuted"
   ],
   "note": "Kept and fresh tables proved for all sessions without in-place extension; refuted for padding and for enhanced HDMR with interactions, for every state."
  },
  {
   "property": "C102",
   "status": "partial",
   "theorems": [
    "C102_matched",
    "C102_padding",
    "C102_default",
    "C102_explicit_refuted",
    "C102_spec_hdmr_refuted",
    "C102_ehdmr_refuted"
   ],
   "note": "Invariant proved; agreement with the value-level models of ff.sample and _define_problem_with_groups proved; refuted for explicit groups with padding, HDMR of a ProblemSpec and enhanced HDMR."
  },
  {
   "property": "C103",
   "status": "partial",
   "theorems": [
    "C103_frame",
    "C103_shared_refuted"
   ],
   "note": "Frame proved for all calls; refuted when the list of names is shared."
  },
  {
   "property": "C104",
   "status": "partial",
   "theorems": [
    "C104_best",
    "C104_full_rank",
    "C104_few_refuted",
    "C104_zero_cost_refuted"
   ],
   "note": "Over any mathcomp realFieldType with exact pinv/matrix_rank/svd contracts (no tolerances, no rounding). Holds for samples >= coefficients and a cost definite on the null space (C104_best); C104_full_rank says what happens with full rank. Refuted for fewer samples than coefficients (reachable: only 300 samples are required, ten parameters at order two have 705 coefficients) and for costs with a common null vector (reachable: two equal parameter columns)."
  },
  {
   "property": "C105",
   "status": "partial",
   "theorems": [
    "C105_run",
    "C105_sweep",
    "C105_unpenalised",
    "C105_penalty_ignored",
    "C105_penalty_refuted"
   ],
   "note": "C105_run describes the coefficients of every fit of a run; C105_sweep and C105_unpenalised say what the passes do to the misfit (the rate needs columns that are jointly independent); C105_penalty_ignored shows that the penalty changes nothing for orthogonal terms. Refuted part: the coefficients are not the fit penalised with l2_penalty. scipy.linalg.solve is an argument assumed to return solutions."
  },
  {
   "property": "C106",
   "status": "proved",
   "theorems": [
    "C106_run",
    "C106_hierarchical"
   ],
   "note": "C106_run composes the basis, the cost matrix and D-MORPH regression for every fit of a run; C106_hierarchical adds what follows without bootstrap, when the first-order columns have mean zero on the rows of the fit. Exact arithmetic; pinv, matrix_rank and svd are arguments that meet their definitions without tolerances. Independence of the columns and enough rows are hypotheses: they are not implied by the checks of the analyser."
  },
  {
   "property": "C107",
   "status": "partial",
   "theorems": [
    "C107_six_slices_refuted",
    "C107_hundred",
    "C107_slices_partial",
    "C107_powers"
   ],
   "note": "C107_six_slices_refuted: six slices raise for every sample. C107_hundred lists the seventeen bad numbers up to 100. C107_slices_partial reduces every S up to 2^49 to one quotient; missing: a closed form of the bad S. The levels and their number are rounded as in binary64; quantiles at these levels and everything after them are exact."
  },
  {
   "property": "C108",
   "status": "partial",
   "theorems": [
    "C108_extra_bin_refuted",
    "C108_hundred",
    "C108_bins_partial",
    "C108_doubling",
    "C108_family",
    "C108_powers"
   ],
   "note": "C108_extra_bin_refuted: 49 bins. C108_hundred: 49 and 98 only, up to 100. C108_doubling: a number is bad exactly when its double is, so 49 * 2^k is bad for every k up to 43 (C108_family). C108_bins_partial reduces every number of bins up to 2^49 to one quotient; missing: a closed form. The levels, their number and the labels are rounded as in binary64; quantiles and statistics are exact. pandas' refusal of a column whose length differs from the index is modelled."
  },
  {
   "property": "C109",
   "status": "partial",
   "theorems": [
    "C109_analysis",
    "C109_effects",
    "C109_signs",
    "C109_small_steps_refuted"
   ],
   "note": "C109_small_steps_refuted shows that steps below one half of the range may be lost, so the length of the Morris steps matters. Without optimised trajectories and without distributions; scaled effects divide by the rounded distance and are not covered. Outputs and statistics are exact; overflow is not modelled."
  },
  {
   "property": "C110",
   "status": "partial",
   "theorems": [
    "C110_constant",
    "C110_short",
    "C110_nan_refuted"
   ],
   "note": "C110_nan_refuted: six outputs of 0.1. Mean, standard deviation and normalised outputs are rounded as in binary64, with the additions in any arrangement; the estimators after the normalisation are exact (only the equality of the normalised outputs matters here)."
  },
  {
   "property": "C111",
   "status": "partial",
   "theorems": [
    "C111_exact",
    "C111_error",
    "C111_resave",
    "C111_resave_refuted",
    "C111_bounds",
    "C111_bounds_refuted",
    "C111_default_refuted",
    "C111_morris"
   ],
   "note": "Refuted: precision 15 and 10^23 (C111_resave_refuted), bounds with more digits than are written (C111_bounds_refuted), different numbers written alike with the default precision (C111_default_refuted). Overflow is excluded as everywhere; numbers below 2^-1021 are excluded where stated."
  },
  {
   "property": "C112",
   "status": "partial",
   "theorems": [
    "C112_sample",
    "C112_outputs",
    "C112_single_run",
    "C112_pawn_refuted",
    "C112_rbd_refuted",
    "C112_rsa_refuted",
    "C112_discrepancy_refuted"
   ],
   "note": "C112_sample and C112_outputs hold for two or more parameters; C112_pawn_refuted, C112_rbd_refuted, C112_rsa_refuted and C112_discrepancy_refuted are the single-parameter case. np.loadtxt's squeezing is modelled; the splitting of lines into numbers is not."
  },
  {
   "property": "C113",
   "status": "partial",
   "theorems": [
    "C113_silent",
    "C113_silent_pair",
    "C113_signs",
    "C113_scaled",
    "C113_sums",
    "C113_second_exact",
    "C113_second_refuted"
   ],
   "note": "C113_second_refuted is the rounding error in S2 (six outputs, -2^-54); C113_second_exact is the exact counterpart. Serial analysis without keep_resamples; underflow is modelled (FLT format), overflow is excluded."
  },
  {
   "property": "C114",
   "status": "partial",
   "theorems": [
    "C114_bounds",
    "C114_total",
    "C114_flat",
    "C114_rising",
    "C114_falling",
    "C114_sign",
    "C114_unit",
    "C114_sigma_refuted"
   ],
   "note": "C114_sigma_refuted is the positive sigma of six equal effects of 0.1. C114_unit is about unscaled effects. Underflow is modelled (FLT format), overflow is excluded."
  },
  {
   "property": "C115",
   "status": "partial",
   "theorems": [
    "C115_signs",
    "C115_ignored",
    "C115_nan",
    "C115_sign_free",
    "C115_unit",
    "C115_constant_refuted"
   ],
   "note": "C115_constant_refuted is the number reported for six base outputs of 0.1. The square of the width of the bounds (Python's float power) and pi^2 are arguments of the model, not negative. Underflow is modelled (FLT format), overflow is excluded."
  },
  {
   "property": "C116",
   "status": "partial",
   "theorems": [
    "C116_quotient",
    "C116_blocks",
    "C116_quotient_refuted",
    "C116_halves",
    "C116_class_size"
   ],
   "note": "C116_quotient_refuted shows that the bound 2^53 matters: (2^54 - 1) / 2. The models of the analysers use integer division; these theorems justify it."
  },
  {
   "property": "C117",
   "status": "partial",
   "theorems": [
    "C117_bits",
    "C117_rounded",
    "C117_any_bits",
    "C117_sizes",
    "C117_largest_refuted",
    "C117_nested",
    "C117_skip",
    "C117_skip_refuted",
    "C117_saltelli",
    "C117_saltelli_refuted"
   ],
   "note": "C117_largest_refuted, C117_skip_refuted and C117_saltelli_refuted are the failures at 2^31, 2^29 and 2^30 with correctly rounded logarithms. C117_rounded uses an enclosure of ln 2 that is proved from its series."
  },
  {
   "property": "C118",
   "status": "partial",
   "theorems": [
    "C118_value",
    "C118_decomposition",
    "C118_limit",
    "C118_quoted",
    "C118_problem_refuted"
   ],
   "note": "Real arithmetic. The average is the normal law cut off outside [-a, a]; the indices are limits as a goes to infinity. The quoted values hold for standard deviation 1 (C118_quoted) and fail for the 0.835 of the sampled problem (C118_problem_refuted); the randomised estimate in the script is not modelled."
  },
  {
   "property": "C119",
   "status": "partial",
   "theorems": [
    "C119_draws",
    "C119_all_draws",
    "C119_no_bootstrap_error",
    "C119_names",
    "C119_columns",
    "C119_saved_refuted",
    "C119_path"
   ],
   "note": "The density estimate is an argument; C119_no_bootstrap_error assumes that it never raises RuntimeError, C119_saved_refuted that it succeeds. Refuted part: with the largest value as a cut point the balanced index is a number but its saved column is nan throughout (C119_saved_refuted). Writing the parquet file is not modelled."
  },
  {
   "property": "C120",
   "status": "partial",
   "theorems": [
    "C120_powers",
    "C120_one_refuted",
    "C120_few",
    "C120_justified",
    "C120_missed",
    "C120_more_points_refuted",
    "C120_none",
    "C120_duplicates",
    "C120_silent_duplicates_refuted"
   ],
   "note": "Refuted parts: skip_values = 1 is reported as no power of two (C120_one_refuted); N = 7 with 4 points skipped is not reported (C120_more_points_refuted); skip_values = 1 gives duplicates without the announcement (C120_silent_duplicates_refuted). C120_few assumes correctly rounded ln and log2. The generator of sobol.sample is scipy's, so the statement about duplicates is for saltelli.sample, whose sequence is modelled."
  },
  {
   "property": "C121",
   "status": "partial",
   "theorems": [
    "C121_trials",
    "C121_regressions",
    "C121_constant",
    "C121_last_trial_refuted",
    "C121_testing",
    "C121_training",
    "C121_unobserved_refuted"
   ],
   "note": "Refuted parts: the black points of the panels titled (Last Trial) are shifted by the difference between the mean over all trials and that of the last one (C121_last_trial_refuted); emulate without observations leaves stale or no observations (C121_unobserved_refuted). The 1:1 lines, axis limits and the rounding of the SSR to two decimals are not modelled."
  },
  {
   "property": "C122",
   "status": "partial",
   "theorems": [
    "C122_bound",
    "C122_near",
    "C122_sample",
    "C122_grid",
    "C122_exact_refuted"
   ],
   "note": "Refuted part: exact optimality (witness with three trajectories of one parameter). Overflow and fused multiply-add are not modelled."
  },
  {
   "property": "C123",
   "status": "partial",
   "theorems": [
    "C123_errors",
    "C123_order",
    "C123_figures",
    "C123_near",
    "C123_mean_refuted"
   ],
   "note": "Refuted part: mean <= maximum and stdev = 0 for equal slices. The KS statistic is taken to be the correctly rounded exact one, and the quantiles at the rounded levels are exact. No error bound is given for stdev and CV."
  },
  {
   "property": "C124",
   "status": "partial",
   "theorems": [
    "C124_err",
    "C124_sum",
    "C124_variance",
    "C124_total",
    "C124_first",
    "C124_second",
    "C124_relative_refuted"
   ],
   "note": "Refuted part: relative accuracy of first-order indices. The bounds of the three estimators are relative to the computed variance, whose own error is the subject of C124_variance; overflow is not modelled."
  },
  {
   "property": "C125",
   "status": "partial",
   "theorems": [
    "C125_near",
    "C125_exact",
    "C125_noise",
    "C125_dummy_refuted"
   ],
   "note": "Refuted part: dummies of linear models are exactly 0. Overflow is not modelled."
  },
  {
   "property": "C126",
   "status": "partial",
   "theorems": [
    "C126_morris",
    "C126_mu_refuted",
    "C126_vi",
    "C126_dgsm"
   ],
   "note": "Refuted part: mu is accurate relative to itself. Only unscaled elementary effects; sigma and the confidence intervals have no error bound here. Overflow is not modelled."
  },
  {
   "property": "C127",
   "status": "partial",
   "theorems": [
    "C127_ratio",
    "C127_pair",
    "C127_optimal_refuted",
    "C127_sum_pair",
    "C127_sum_refuted"
   ],
   "note": "Refuted parts: three trajectories are selected optimally; summing distances selects the same trajectories. Exact arithmetic (C127_sum_pair: any rounding of the distances that keeps their sign). The witnesses are trajectories that stay at one point."
  },
  {
   "property": "C128",
   "status": "partial",
   "theorems": [
    "C128_bound",
    "C128_near",
    "C128_sample",
    "C128_pair_refuted",
    "C128_checked"
   ],
   "note": "Refuted part: two trajectories are selected as well as possible. C128_bound has no limit on k or the size; C128_near and C128_sample put k <= 10 and D + (G+1)^2 <= 2^20 to state one constant. No overflow, no fused multiply-add, as for C122."
  },
  {
   "property": "C129",
   "status": "partial",
   "theorems": [
    "C129_panels",
    "C129_factors",
    "C129_incomplete",
    "C129_percentile_refuted"
   ],
   "note": "Refuted part: the horizontal positions are percentiles. pandas and matplotlib enter by what they draw and refuse. Parameters called names, bins or target are C42_reserved_name_refuted."
  },
  {
   "property": "C130",
   "status": "partial",
   "theorems": [
    "C130_std",
    "C130_sd1",
    "C130_sigma",
    "C130_vi_std",
    "C130_pawn_std",
    "C130_relative_refuted"
   ],
   "note": "Refuted part: accuracy relative to the deviation itself (2 instead of the root of 2 for 2^53 and 2^53 + 2). Overflow is outside the number model, as for C124-C126; the terms 2^-455 and 2^-456 account for underflow."
  },
  {
   "property": "C131",
   "status": "proved",
   "theorems": [
    "C131_conf",
    "C131_dgsm_conf"
   ],
   "note": "The quantile z enters as the double that scipy returns. Overflow is outside the number model, as for C124-C126."
  }
 ]
}