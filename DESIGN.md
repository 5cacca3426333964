# Formal model of SALib in Rocq: design

## Method

* The Python functions are transcribed, one by one, into total Gallina functions (`rocq/theories/Model*.v`). Every definition cites the file
  and lines it models and states its simplifications. Exceptions are values (`Err ValueError`, …).
* What a property says is written down separately in `Spec*.v`, or directly in the statement, with quantifiers and elementary notions: `In`,
  `nth_error`, `NoDup`, `Permutation`, sums over index lists, integrals.
* `Proofs*.v` contain the proofs. `Properties*.v` contain the property theorems with short proofs, an `Example` that meets their hypotheses,
  and `Print Assumptions`.
* Randomness, inverse normal CDF, KDE, argsort, linear solvers, float32 rounding, worker counts, user models and the numbers that Python reads
  in texts are *arguments* (universally quantified functions), never axioms. A theorem holds for every such function that meets the hypotheses
  written in its statement.
* A property that is false of the faithful model has a `…_refuted` theorem with a witness, and the part that holds is proved next to it. Such
  properties have the status `partial` in `MANIFEST.json`, with a note.

## Number model

* Layout, index arithmetic, bookkeeping and state machines: polymorphic in the element type or over `nat`/`N`/`Z`; exact.
* Double precision (`ModelDouble`, C95–C98): the scaling step, `np.linspace`, Morris trajectories, FAST frequencies, Latin draws, Sobol' points and
  finite-difference steps are also modelled with every operation rounded to the nearest double (Flocq's FLT format with 53 bits, ties to
  even). Overflow and `-0.0` are not modelled. Flocq declares no axioms; only its definitions and lemmas are used.
* `ModelLevels` (C107, C108) rounds the quantile levels of PAWN and RSA, their number and the labels of the bins; numpy's `arange` is modelled with its length
  `ceil((stop - start) / step)` and its entries. Quantiles at these levels and all later steps are exact.
* `ModelDouble2` (C109) rounds the scaling of whole Morris samples and the differences the Morris analyser compares with 0. `ModelDouble3` (C110) rounds the mean, the
  standard deviation and the normalised outputs of the Sobol' analysis; the order in which numpy adds numbers up is left open (a relation that allows every arrangement).
* `ModelDouble4` (C113, C124) rounds every operation of the serial Sobol' analysis. A sum is a binary tree of rounded additions, one tree for each length; the statements hold for
  every choice of trees. Comparisons `ptp == 0`, divisions by 0 and nan behave as in the exact model.
* `ModelDouble5` (C114) rounds every operation of the Morris analysis in the same way, with one choice of trees for each kind of sum. The products with 0 and 1 in
  `np.einsum` are exact. `ModelDouble6` (C115) does the same for DGSM; the square of the width of the bounds (C's `pow`) and `np.pi**2` are arguments of the model.
* `ModelDouble7` (C125) rounds every operation of the fractional factorial analysis; products with 1 and -1 are exact, so fused multiply-adds make no difference.
* `ModelCounts` (C116, C117) models the sizes that the code computes in floating point: `int(a / b)` and similar, and the number of bits from quotients of logarithms. `math.log` is an argument (`lg`) with relative error at most 2^-51; the theorems about the exact failing sizes take it correctly rounded.
* `ModelFiles` (C111) models the text of a number, `%.pe`, as its value rounded to p + 1 significant decimal digits (Flocq's FLX format of radix 10, ties to even;
  both C's printf and numpy round the exact value) and reading as rounding to the nearest double.
* C99 uses Coquelicot's integral of a derivative in its proofs (no axioms of its own); all statements use the standard library's Riemann integral.
* Elsewhere, scaling and statistics are over real numbers `R` (Coq stdlib): rounding, overflow and `-0.0` are *not* modelled. Where nan or an infinity is a
  value that the code can produce from finite data (division by zero, S2 lower triangle, skipped slices, sigma of groups), the model uses
  `fval = option R` with `None` for "not a finite number".
* The Sobol' sequence is over `N` with bitwise operations; the final division by 2^31 is exact in binary floating point.
* Consequence: apart from C95–C98, C107–C111, C113–C117, C122–C126, C128, C130 and C131, statements such as "equals" or "is in [0,1]" hold of the exact values. A float run can differ by rounding. Refutations rely on
  small exact witnesses only.

## Trusted base

1. Coq 8.16.1's kernel (and `coqchk`).
2. Axioms: exactly those that `Print Assumptions` lists below each theorem, in the table at the end. They are all of the standard library:
   `ClassicalDedekindReals.sig_forall_dec` (F), `ClassicalDedekindReals.sig_not_dec` (N),
   `FunctionalExtensionality.functional_extensionality_dep` (E), `Classical_Prop.classic` (C) and, for C106 only, `ClassicalEpsilon.constructive_indefinite_description`
   (D; it makes the real numbers a choice type, which mathcomp's real fields require). No axiom is declared in this development.
3. The transcription of the Python source, as documented in each definition's comment.
4. The semantics given to numpy, pandas and scipy primitives in `Base.v`, `Arrays.v`, `Stats.v`, `Quant.v`, `Det.v` and at their use (listed
   below). These were written from the libraries' documentation; nothing was executed.

## What is modelled

| Source | Model | Left out or simplified |
|---|---|---|
| `util/__init__.py` grouping (292-393), `util_funcs.py` `read_param_file`, `_check_groups`, `_check_bounds` | `ModelGroups`, `ModelScale` | CSV sniffing and tokenising (rows arrive as records); labels are strings; a missing key and an explicit `None` are the same; objects are values here (sharing of lists between dictionaries and results is in `ModelShared`) |
| D-MORPH regression: `enhanced_hdmr._d_morph` (947-1001) | `ModelDmorph` | over any real field, with `pinv`, `matrix_rank` and `svd` as arguments meeting their definitions exactly (no tolerances); the list model of enhanced HDMR (`ModelEhdmr`) takes `_d_morph` as an argument; the cost is any matrix |
| `_d_morph` called on the arrays of enhanced HDMR (853-858, 906) | `ModelDfit` (over `RField`: the real numbers of the standard library as a real field) | lists of columns become matrices; the cost matrix is block diagonal by construction |
| Which lists problems and results share: `_define_problem_with_groups`, `extend_bounds`, `Si["names"]`/`Si["Term"]` of all analysers, `to_df` labels | `ModelShared` | the numbers in results; what the rest of a call computes is an arbitrary outcome (`rest`); a call that raises leaves no mark of scaling; `names` are lists (not tuples or arrays); the caller does not change dictionaries between calls |
| `util/__init__.py` scaling (25-289) | `ModelScale` | normal and truncated normal quantiles are arguments, triangular, log-uniform and Weibull ones are closed forms with scipy's domain checks; warnings |
| `util_funcs.py` `handle_seed` and every use of a seed | `ModelSeeds` | generators are abstract states; the computation after seeding is an arbitrary program over draws; strings and foreign objects as seeds |
| `util/problem.py` | `ModelProblemSpec`, `ModelPlotting` | samplers, models and analysers are arguments; process pools are order-preserving maps over chunks, servers of `evaluate_distributed` that fail to start, printing; arrays of three and more dimensions |
| `util/results.py`, `plotting/*.py` | `ModelPlotting`, `ModelHdmrPlot`, `ModelRsaPlot` (`plot` in `analyze/rsa.py`); `to_df` of the Sobol', RSA and discrepancy results | what is drawn where is modelled (bars, error bars, rows, labels, panels), pandas and matplotlib by what they draw and refuse; colours, fonts, legends, reference lines |
| `sample/latin.py`, `sample/sobol.py`, `sample/saltelli.py`, `sample/fast_sampler.py`, `sample/ff.py`, `sample/finite_diff.py` | `ModelLatin`, `ModelSobol`, `ModelWarnings`, `ModelFast`, `ModelFF`, `ModelDgsm` | scipy's Sobol' engine is an arbitrary matrix; `math.log` is exact in `ModelSobol` (see `ModelCounts`); warnings other than those of the Sobol' samplers |
| `sample/sobol_sequence.py`, `sample/directions.py` | `ModelSobolSeq`, `Directions1`–`Directions4` (the whole table) | the number of bits, a rounded logarithm, is an argument with the needed bound as hypothesis; C117 proves that bound for every logarithm accurate to 2^-51 (`ModelCounts`) |
| `sample/morris/*.py` | `ModelMorris`; `ModelSingle` and `ModelLocalSingle` (brute force and the local strategy with their roundings to double and single precision) | argsort, and in `ModelMorris` float32 rounding and the float32 score, are arguments; overflow and fused multiply-add in `ModelSingle` and `ModelLocalSingle`; the progress messages; `sys.maxsize` check |
| `analyze/sobol.py` | `ModelSobol` | printing, logging; `cpu_count` is an argument |
| `analyze/fast.py`, `analyze/rbd_fast.py` | `ModelFast`, `ModelRbd` | FFT and periodogram are the exact transforms |
| `analyze/ff.py`, `analyze/morris.py`, `analyze/dgsm.py`, `analyze/pawn.py`, `analyze/rsa.py`, `analyze/discrepancy.py` | `ModelFF`, `ModelMorrisAnalyze`, `ModelDgsm`, `ModelPawn`, `ModelPawn2` (figures in double precision), `ModelRsa`, `ModelLevels`, `ModelDiscrepancy` | KS and Cramér–von Mises statistics are exact (the KS statistic correctly rounded in `ModelPawn2`); scipy's discrepancy is an argument; broadcasting of mis-shaped inputs where noted; the RSA plot |
| `analyze/delta.py` | `ModelDelta`, `ModelDeltaBoot` | KDE and normal quantile are arguments; messages; writing the parquet file |
| `analyze/hdmr.py`, `analyze/enhanced_hdmr.py` | `ModelHdmr`, `ModelEhdmr` | linear solvers, the F quantile and the morphing step are arguments; printing; `np.linalg.det` is the determinant |
| `test_functions/*.py` except `oakley2004.py` | `ModelTestFunctions` | inflow draws and `brentq` are arguments |
| `test_functions/oakley2004.py` | `ModelOakley` | the function, its coefficients and the quoted indices; the sampling and the estimate in the script are not modelled |
| `scripts/salib.py`, `*/common_args.py`, every `cli_parse`/`cli_action` | `ModelCli`, `ModelFiles` (digits written and read), `ModelFiles2` (shape of what np.loadtxt returns) | how argparse splits a command line (abbreviations, `--x=y`, help); how lines are split into numbers; `int` and `float` of texts are arguments |

Not modelled at all: printing, timing, memory, real process scheduling.

## Per area: main ideas of the proofs

| Properties | How |
|---|---|
| C01, C02, C07, C08 | induction on lists, generalised over accumulators; positions in duplicate-free lists |
| C03–C06 | pointwise real algebra and monotonicity lifted over rows; closed-form quantiles by calculus |
| C09, C10 | counting through `Permutation` |
| C87 | enumeration of all arrangements; sums over pairs of rows; stratum-by-stratum bounds on the integral |
| C84 | linear independence over two elements decided by elimination (`vm_compute` over the shipped table), pigeonhole |
| C83 | finite product laws as weighted lists; exchange of the selected inputs between two independent points; sums over the points |
| C11–C18, C62, C63 | strided slices by index arithmetic; sums; permutation of task lists |
| C19–C21 | xor-linear maps, Gray codes, triangular invertibility; the 21201 rows of the table by one `vm_compute` each |
| C22–C25, C40, C85 | integer division, orthogonality of roots of unity, Parseval; multiple-angle formula on the search curve |
| C26–C29, C64 | induction on the order of the Hadamard matrix |
| C86 | product laws; a bijection between choices and grid points |
| C95–C98 | monotonicity of rounding, relative error bounds, Sterbenz' lemma; explicit mantissas for the witnesses |
| C109 | two numbers that round to the same double are at most half as far apart as its neighbours; the analysis only uses the order of consecutive coordinates |
| C110 | induction over the arrangement of the additions; distance of distinct doubles; a verified rounding of fractions |
| C113–C115 | induction over the trees of additions; rounding commutes with powers of two; a verified rounding of fractions |
| C116, C117 | quotients of integers below 2^53 stay on their side of the next integer; series enclosures of ln 2; direction numbers as prefixes |
| C118 | induction over the inputs with a linear shift; integration by parts and a differential equation for the average of the cosine; alternating series; integer arithmetic |
| C122 | agreement up to a factor in both directions, propagated through roundings, trees of additions, squares and roots of numbers that are 0 or not tiny; gaps of the level grid |
| C123 | the tools of C122 for distances that are 0 or at least 2^-106; means are monotone for a fixed order of addition and exact for ones; the witness by verified rounding of fractions |
| C124–C126 | standard forward error analysis: one factor 1 + 2^-53 per operation on the way from an entry to the result, additions without underflow term; Bernoulli's inequality |
| C127 | the sum of Euclidean distances between trajectories obeys the triangle inequality, so each trajectory added to the farthest pair adds half the square of its distance; witnesses found by search and checked for every argsort |
| C128 | the argument of C127 for any matrix and score within a relative error of the exact ones, then the errors of C122; refuted by a tie made by rounding |
| C129 | columns of the table by position; names are distinct, so a label selects one column |
| C130, C131 | the bound of the mean enters the spread about the computed mean; roots of nearby numbers; Minkowski's inequality from that of Cauchy and Schwarz |
| C111, C112 | distance of decimals and doubles around a number; case analysis of the command table |
| C107, C108 | relative error of the deciding quotient; a verified rounding of fractions, evaluated for 1 to 100; interpolation near level 1 |
| C99 | Poincaré's inequality from a cotangent comparison function on an interval, then slice by slice; mean value theorem for the secants |
| C100 | averages of continuous functions are limits of grid sums; the estimator's terms are functions of a pair of points whose average is the index |
| C93 | exact expansion of the quadratic objective around a block update; Cauchy–Schwarz for the contraction |
| C105 | the same expansion with no penalty over blocks of columns; the loop unrolled into sweeps, the solver assumed to return solutions; orthogonality makes every right-hand side independent of the other terms |
| C106 | `_d_morph` of C104 at the basis and cost of C71/C72: the cost is the sum of squared means and inner products; independence without extension makes costless changes zero; perturbing a pair against its parameters gives orthogonality |
| C88–C92 | the charts as data; arithmetic of panels |
| C30–C37 | matrix entries by index, completeness of combinations, loop invariants |
| C38, C39 | index arithmetic and algebra |
| C41–C46, C65 | quantiles as monotone edges, partitions, law of total variance |
| C47–C52 | invariants over histories |
| C53–C58, C66–C72 | enumeration of terms, regression algebra, Gram determinants |
| C60, C73–C77 | iterated Riemann integrals of the standard library, products over coordinates |
| C59, C78–C80 | case analysis over kinds of seeds, for abstract generators |
| C61, C81, C82 | last-assignment lemma for parsing, with a finite check of the option tables |

## Tests against wrong programs

`seeded/LOG.jsonl` records edits of model definitions in a scratch copy and which property theorems no longer hold. Edits that no theorem
noticed led to stronger statements; these are marked.

## Axioms per theorem

Letters as above; – means "Closed under the global context".

| Property | Theorem: axioms |
|---|---|
| C01 | `group_names`: –, `matrix_names`: – |
| C02 | `group_matrix_total`: –, `group_matrix_entries`: –, `group_matrix_partition`: – |
| C03 | `uniform_scaling`: FE |
| C04 | `legal_bounds_iff`: FE, `rejection_leaves_samples`: FE, `rejection_leaves_problem`: FNEC |
| C05 | `scale_unscale`: FE |
| C06 | `nonuniform_scaling`: FNEC, `refused_iff`: FNEC, `proper_accepted_partial`: FNEC, `rejections`: FNEC, `accepted_gives_numbers_refuted`: FNEC, `logunif_unchecked_refuted`: FNEC, `negative_triangle_refuted`: FNEC, `truncnorm_file_refuted`: FNEC |
| C07 | `param_file`: –, `param_file_rejected`: –, `param_rows_functional`: – |
| C08 | `default_groups`: –, `default_groups_idempotent`: –, `grouped_iff`: – |
| C09 | `strata`: FE, `strata_scaled`: FNEC |
| C10 | `shape_and_groups`: FE, `no_samples`: FE |
| C100 | `converges`: FNEC, `parameters`: FNEC, `design`: FNEC, `shares`: FNEC, `runs`: FNEC, `ishigami`: FNEC |
| C101 | `kept`: F, `fresh`: FC, `padded_refuted`: F, `ehdmr_refuted`: F |
| C102 | `matched`: F, `padding`: FNEC, `default`: F, `explicit_refuted`: F, `spec_hdmr_refuted`: FC, `ehdmr_refuted`: F |
| C103 | `frame`: F, `shared_refuted`: F |
| C104 | `best`: –, `full_rank`: –, `few_refuted`: –, `zero_cost_refuted`: – |
| C105 | `run`: FNEC, `sweep`: FE, `unpenalised`: FE, `penalty_ignored`: FE, `penalty_refuted`: FE |
| C106 | `run`: FNECD, `hierarchical`: FNECD |
| C107 | `six_slices_refuted`: FNEC, `hundred`: FNEC, `slices_partial`: FNEC, `powers`: FNEC |
| C108 | `extra_bin_refuted`: FNEC, `hundred`: FNEC, `bins_partial`: FNEC, `powers`: FNEC, `doubling`: FNEC, `family`: FNEC |
| C109 | `analysis`: FNEC, `effects`: FNEC, `signs`: FNEC, `small_steps_refuted`: FNEC |
| C11 | `saltelli_layout`: –, `sobol_sample`: FNEC, `saltelli_sample`: FNEC, `saltelli_default_skip`: –, `given_skip`: FNEC |
| C110 | `constant`: FNEC, `short`: FNEC, `nan_refuted`: FNEC |
| C111 | `exact`: FNEC, `error`: FNEC, `resave`: FNEC, `resave_refuted`: FNEC, `bounds`: FNEC, `bounds_refuted`: FNEC, `default_refuted`: FNEC, `morris`: FNEC |
| C112 | `sample`: FE, `outputs`: FE, `pawn_refuted`: FNE, `rbd_refuted`: FNE, `rsa_refuted`: FE, `discrepancy_refuted`: FE, `single_run`: FE |
| C113 | `silent`: FNEC, `silent_pair`: FNEC, `signs`: FNEC, `scaled`: FNEC, `sums`: FNEC, `second_exact`: FNEC, `second_refuted`: FNEC |
| C114 | `bounds`: FNEC, `total`: FNEC, `flat`: FNEC, `rising`: FNEC, `falling`: FNEC, `sign`: FNEC, `unit`: FNEC, `sigma_refuted`: FNEC |
| C115 | `signs`: FNEC, `ignored`: FNEC, `nan`: FNEC, `sign_free`: FNEC, `unit`: FNEC, `constant_refuted`: FNEC |
| C116 | `quotient`: FNEC, `blocks`: FNEC, `quotient_refuted`: FNEC, `halves`: FNEC, `class_size`: FNEC |
| C117 | `bits`: FNEC, `rounded`: FNEC, `any_bits`: FNEC, `sizes`: FNEC, `largest_refuted`: FNEC, `nested`: FNEC, `skip`: FNEC, `skip_refuted`: FNEC, `saltelli`: FNEC, `saltelli_refuted`: FNEC |
| C118 | `value`: FNE, `decomposition`: FNEC, `limit`: FNEC, `quoted`: FNEC, `problem_refuted`: FNEC |
| C119 | `draws`: FE, `all_draws`: FE, `no_bootstrap_error`: FNEC, `names`: FNEC, `columns`: FNEC, `saved_refuted`: FNEC, `path`: – |
| C12 | `roundtrip`: – |
| C120 | `powers`: FNEC, `one_refuted`: FE, `few`: FNEC, `justified`: FNEC, `missed`: FNEC, `more_points_refuted`: FNEC, `none`: FNEC, `duplicates`: FNEC, `silent_duplicates_refuted`: FNEC |
| C121 | `trials`: FNE, `regressions`: FNE, `constant`: FNE, `last_trial_refuted`: FNEC, `testing`: FE, `training`: FNEC, `unobserved_refuted`: FEC |
| C122 | `bound`: FNEC, `near`: FNEC, `sample`: FNEC, `grid`: FNEC, `exact_refuted`: FNEC |
| C123 | `errors`: FNEC, `order`: FNEC, `figures`: FNEC, `near`: FNEC, `mean_refuted`: FNEC |
| C124 | `err`: FE, `sum`: FNEC, `variance`: FNEC, `total`: FNEC, `first`: FNEC, `second`: FNEC, `relative_refuted`: FNEC |
| C125 | `near`: FNEC, `exact`: FNEC, `noise`: FNEC, `dummy_refuted`: FNEC |
| C126 | `morris`: FNEC, `mu_refuted`: FNEC, `vi`: FNEC, `dgsm`: FNEC |
| C127 | `ratio`: FNE, `pair`: FNE, `optimal_refuted`: FNE, `sum_pair`: FNE, `sum_refuted`: FNE |
| C128 | `bound`: FNEC, `near`: FNEC, `sample`: FNEC, `pair_refuted`: FNEC, `checked`: FNEC |
| C129 | `panels`: FE, `factors`: FE, `percentile_refuted`: FE, `incomplete`: – |
| C13 | `accepted_lengths`: FNE, `same_group_count_partial`: –, `single_group_refuted`: – |
| C130 | `std`: FNEC, `sd1`: FNEC, `sigma`: FNEC, `relative_refuted`: FNEC, `vi_std`: FNEC, `pawn_std`: FNEC |
| C131 | `conf`: FNEC, `dgsm_conf`: FNEC |
| C14 | `ignored_group_zero`: FNE |
| C15 | `total_nonnegative`: FNE, `affine_invariant`: FNE |
| C16 | `constant_output_refuted`: FNE, `constant_output_partial`: FNE |
| C17 | `parallel_equals_serial_partial`: FNE, `any_order`: FNE, `constant_resamples_refuted`: FNE, `kept_resamples_refuted`: FNE, `kept_resamples_serial_refuted`: FNE |
| C18 | `upper_triangle`: FNE, `data_frame_partial`: FNE, `single_parameter_refuted`: FNE |
| C19 | `total`: FE, `range`: FE |
| C20 | `strata`: FE, `saltelli_strata`: FNEC |
| C21 | `table_well_formed`: – |
| C22 | `accepts`: –, `frequencies`: – |
| C23 | `unit_sample`: FNEC, `sample`: FNEC, `refused`: FNEC, `curve_unique`: FNEC |
| C24 | `orders`: FNE, `variance`: FNE, `any_size_refuted`: FNE |
| C25 | `blocks`: FNEC, `rejected`: FNE |
| C26 | `contrast`: –, `sample`: FNEC |
| C27 | `formula`: FNEC, `linear`: FNEC, `products`: FNEC |
| C28 | `additive`: FNEC, `listing`: FNEC |
| C29 | `padding`: F, `too_many`: FNEC, `wrong_length`: FE, `distributions_refuted`: FNEC |
| C30 | `sample`: FNEC, `design`: FNEC |
| C31 | `range`: FNEC |
| C32 | `linear`: FNE, `pipeline`: FNEC |
| C33 | `order`: FNE, `effects`: FNE, `scaled_effects`: FNE, `group_mu_star`: FNE, `ignored`: FNE |
| C34 | `lengths_partial`: FNE, `refuted`: FNE |
| C35 | `optimal`: FNEC, `sum_of_squares`: FNEC, `chunks`: FNEC |
| C36 | `local_partial`: FNE, `refuted`: FNE |
| C37 | `blocks`: FNEC |
| C38 | `design`: FNEC, `zero_step`: FE, `positive_box`: FNEC, `distributions_refuted`: FNEC |
| C39 | `rejected`: FNE, `nonneg`: FNE, `formula`: FNE, `linear`: FNE, `ignored`: FNE, `affine`: FNE, `pipeline`: FNEC, `origin_nan`: FNEC |
| C40 | `reorder`: F, `rise_fall`: F, `ratio`: FNE, `unskew`: FE, `correction`: FE, `correction_refuted`: FE, `analyze`: FNE, `division`: FNE, `small_sample`: FNE, `affine`: FNE, `rescaled_parameters`: FNE, `row_order`: FNE, `harmonic`: FNE |
| C41 | `rows`: FNE, `partition_partial`: FE, `largest_refuted`: FE, `order`: FNE, `groups`: FNE, `one_label_refuted`: FNE, `increasing_outputs`: FNE, `rescaled_parameters`: FNE, `row_order`: FNE, `constant_parameter`: FNE, `no_slices`: – |
| C42 | `partition`: FE, `cells`: FE, `cells_apply`: FE, `statistic`: FE, `complement`: FE, `single_complement_refuted`: FE, `report`: FE, `singleton_groups`: FE, `groups_refuted`: FE, `one_label_refuted`: FE, `reserved_name_refuted`: FE, `row_order`: FE, `rescaled`: FE, `bad_arguments`: FE, `normalised_refuted`: FE |
| C43 | `shares`: FE, `groups`: FE, `group_names_refuted`: FE, `group_sum_refuted`: FE, `rejects`: FE, `affine_outputs`: FE, `units`: FE, `row_order`: FE |
| C44 | `merge`: FE, `no_point_lost`: FE, `bins_used`: FE, `bins_cover`: FE, `last_bin_refuted`: FE |
| C45 | `balanced`: FE, `shares`: –, `total`: FE, `raw`: FE, `step`: FE, `step_total`: FE, `top_edge_refuted`: FE, `two_valued_refuted`: FE, `constant`: FNEC, `notes_lost_refuted`: FNEC, `constant_sobol_refuted`: FNEC |
| C46 | `sobol`: FNEC, `all_methods`: FNEC, `constant_output`: FNEC, `classes`: FE, `rescaling`: FNEC, `constant_all_refuted`: FNEC |
| C47 | `rows`: –, `produced_after`: –, `new_samples`: –, `evaluate_refuted`: F |
| C48 | `current_partial`: –, `stale_refuted`: F |
| C49 | `one_output`: –, `several_outputs`: –, `few_processors`: –, `progress_bar_refuted`: –, `empty_chunk_refuted`: F |
| C50 | `per_output`: –, `single`: –, `no_results`: –, `positional_refuted`: F, `repeated_names_refuted`: F |
| C51 | `one_parameter`: –, `one_group_refuted`: F, `parallel_refuted`: F |
| C52 | `constructed`: –, `refused`: –, `store`: –, `numbered`: –, `history`: – |
| C53 | `ehdmr`: FNEC, `hdmr`: FNEC |
| C54 | `ehdmr_partial`: FNEC, `ehdmr_refuted`: FNE, `hdmr`: FNEC |
| C55 | `ehdmr`: FNEC, `ehdmr_counts`: C, `hdmr_partial`: FNE, `hdmr_first_pair`: FNE, `hdmr_refuted`: FNE |
| C56 | `ehdmr_refuted`: FNE, `ehdmr_rejected`: FNE |
| C57 | `ehdmr_partial`: FNEC, `ehdmr_components`: FNEC, `ehdmr_refuted`: FNEC |
| C58 | `ehdmr_partial`: FNEC, `ehdmr_exact`: FE, `ehdmr_refuted`: FE, `hdmr_partial`: FNEC, `hdmr_refuted`: FE |
| C59 | `rng`: –, `global`: –, `sobol`: –, `qmc`: –, `undrawn`: –, `zero_refuted`: –, `hdmr_refuted`: – |
| C60 | `indices`: FE, `variance_ratios`: FNEC, `effects_unique`: FNEC, `domain`: FNEC |
| C61 | `reaches`: FE, `parameter`: FE, `files`: FE, `required`: FE, `column`: FE, `dispatch`: FE, `ignored_refuted`: FE, `ignored_exist_refuted`: FE |
| C62 | `indices_numeric`: FNE, `confidence_partial`: FNE, `confidence_nan_refuted`: FNE |
| C63 | `index_formulas`: FNE |
| C64 | `aliasing`: FNEC |
| C65 | `bounds`: FE, `ranks`: FNE, `determined_refuted`: FE, `negative_refuted`: FNEC |
| C66 | `ehdmr_training_partial`: FNEC, `ehdmr_elsewhere_refuted`: FNE, `training`: FNEC, `elsewhere_refuted`: FE |
| C67 | `basis`: FE |
| C68 | `accepted`: FNEC, `rows`: FNE, `column_refuted`: FNE |
| C69 | `ehdmr`: FNEC, `ehdmr_sum_widths_refuted`: FNE, `sums`: FNEC, `lengths`: FNEC, `sum_widths_refuted`: FNEC |
| C70 | `orthonormal`: FNE, `exist`: FNE |
| C71 | `cost_partial`: FEC, `triples_refuted`: FEC |
| C72 | `success_partial`: FNEC, `options_refuted`: FNE, `degenerate`: FNE |
| C73 | `curvature_refuted`: FE |
| C74 | `quoted_refuted`: FE |
| C75 | `effects`: FNEC, `quoted`: FNEC |
| C76 | `outputs`: FNEC, `reliability_refuted`: FNEC, `recycling`: FNEC |
| C77 | `linear_1`: FNEC, `linear_2`: FNEC |
| C78 | `untouched`: –, `sobol`: –, `consumes`: –, `global_refuted`: – |
| C79 | `child`: –, `row`: –, `object`: –, `instance_refuted`: – |
| C80 | `accepted_partial`: –, `numpy_refuted`: – |
| C81 | `default_partial`: FE, `default_refuted`: FE |
| C82 | `text_partial`: FE, `morris_refuted`: FE, `parallel`: FE |
| C83 | `reported`: FNE, `total`: FE, `first`: FE, `second`: FE, `centred`: FE, `variance`: FE, `unbiased_refuted`: FE |
| C84 | `plane`: FE, `orthants`: FE, `saltelli_plane`: FNEC, `quarters_refuted`: FE |
| C85 | `additive`: FNEC, `exact`: FNEC, `first_harmonic`: FNEC, `few_samples_refuted`: FNEC |
| C86 | `points`: FNEC, `unbiased`: FNEC, `sigma`: FNEC, `odd_refuted`: FNEC |
| C87 | `shuffles`: –, `law`: FNEC, `additive`: FNEC |
| C88 | `bars`: FE, `refused`: FE, `morris`: FNE, `fast`: FNE, `rbd_fast`: FNE, `dgsm`: FNE, `delta`: FNEC, `sobol`: FNE, `pawn`: FE, `pawn_refuted`: FNE, `ff_refuted`: FE, `hdmr`: F |
| C89 | `heatmap`: –, `metric`: –, `defaults`: –, `labels_refuted`: –, `lists_refuted`: F |
| C90 | `one_frame`: FE, `sobol`: FNE, `several_frames`: FE, `own_plot_refuted`: FE, `ff_refuted`: FE |
| C91 | `bars`: FE, `histograms`: F, `histograms_refuted`: F, `covariance_refuted`: FNE |
| C92 | `trials`: –, `regressions`: –, `trials_refuted`: – |
| C93 | `pass`: FE, `fixed_point`: FE, `first_order`: FNE, `higher_order`: FE, `default_zero_refuted`: FNEC |
| C94 | `notes`: FNEC |
| C95 | `scale`: FNEC, `accuracy`: FNEC, `one_refuted`: FNEC, `excess`: FNEC, `sobol`: FNEC |
| C96 | `sample`: FNEC, `trajectories`: FNEC |
| C97 | `frequencies`: FNEC, `exact_refuted`: FNEC |
| C98 | `latin`: FNEC, `stratum_refuted`: FNEC, `below_one_refuted`: FNEC, `perturbed`: FNEC, `any_step_refuted`: FNEC |
| C99 | `total_effect`: FNEC, `converges`: FNEC, `limit_bound`: FNEC, `sampler`: FNEC, `mu_star`: FNE, `sample_refuted`: FNEC, `strict_refuted`: FNE |
