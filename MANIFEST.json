{
 "claims": [
  {
   "property": "C01",
   "status": "proved",
   "theorems": [
    "C01_two_factor_outputs"
   ],
   "note": "All eight implemented models, scalar and matrix form, any length."
  },
  {
   "property": "C02",
   "status": "proved",
   "theorems": [
    "C02_three_factor_outputs"
   ],
   "note": "All eight implemented models, scalar and tensor form, any length."
  },
  {
   "property": "C03",
   "status": "proved",
   "theorems": [
    "C03_lom_generate_data"
   ],
   "note": "All 36 models, any arity >= 1, any shapes."
  },
  {
   "property": "C04",
   "status": "proved",
   "theorems": [
    "C04_fast_equals_generic"
   ],
   "note": "Every model string, any number of factors, {-1,1} factors."
  },
  {
   "property": "C05",
   "status": "proved",
   "theorems": [
    "C05_canonise_sound"
   ],
   "note": "All 36 names, any arity and latent size."
  },
  {
   "property": "C06",
   "status": "partial",
   "theorems": [
    "C06_add_layer_partial",
    "C06_refuted"
   ],
   "note": "FALSE of the code in one respect: a matrix sharing its array with the child of an inverted model is negated too. Everything else proved."
  },
  {
   "property": "C07",
   "status": "proved",
   "theorems": [
    "C07_score_2d"
   ],
   "note": "Model: posterior_score_fcts.py 2D functions with int16 return wrap; exact when D<=32767 and data in {-1,0,1}."
  },
  {
   "property": "C08",
   "status": "proved",
   "theorems": [
    "C08_score_3d"
   ],
   "note": "Model: posterior_score_fcts.py 3D functions (int64 return treated as unbounded)."
  },
  {
   "property": "C09",
   "status": "partial",
   "theorems": [
    "C09_score_any_size_refuted",
    "C07_score_2d"
   ],
   "note": "FALSE of the code: int16 return type. Refuted for each of the eight models with 32768 data points; C07_score_2d gives the true statement (exact modulo 2^16, exact up to 32767 points)."
  },
  {
   "property": "C10",
   "status": "proved",
   "theorems": [
    "C10_conditional_2d",
    "C10_conditional_3d"
   ],
   "note": "The whole update (argument construction, transposition, kernel loop) equals the reference sweep that draws every non-fixed entry from its exact conditional under the joint posterior; two-factor case for at most 32767 data points per row (int16 score)."
  },
  {
   "property": "C11",
   "status": "proved",
   "theorems": [
    "C11_no_child_one_parent",
    "C11_no_child_two_parents",
    "C11_child_one_parent",
    "C11_child_two_parents",
    "C11_three_factor_parent_score"
   ],
   "note": "Two-factor layers (three-factor layers with a parent do not compile in the code: misplaced parenthesis; three-axis matrices with a parent: signature of six types for seven arguments)."
  },
  {
   "property": "C12",
   "status": "partial",
   "theorems": [
    "C12_two_parent_models_refuted"
   ],
   "note": "FALSE of the code: the score function selected for the first parent is overwritten by the one for the second; a failing state exists for every ordered pair of different implemented models. The true part (equal models) is C11."
  },
  {
   "property": "C13",
   "status": "proved",
   "theorems": [
    "C13_flip",
    "C13_detailed_balance",
    "C13_gibbs_flip"
   ],
   "note": "Measures stated as Riemann integrals over [0,1]."
  },
  {
   "property": "C14",
   "status": "proved",
   "theorems": [
    "C14_invariance_2d",
    "C14_invariance_3d",
    "C14_invariance_hierarchical"
   ],
   "note": "Expectations over the draws are iterated Riemann integrals whose existence is part of the statement."
  },
  {
   "property": "C15",
   "status": "proved",
   "theorems": [
    "C15_shape_entries_fixed",
    "C15_max_and"
   ],
   "note": "All samplers dispatched by LOM_sampler for two and three factors, with and without parents, and the MAX-AND sampler; that siblings and data are untouched is by the kernels' signature in the model (they return only the updated factor)."
  },
  {
   "property": "C16",
   "status": "proved",
   "theorems": [
    "C16_schedule_independent"
   ],
   "note": "Small-step semantics with atomic reads and writes; every interleaving."
  },
  {
   "property": "C17",
   "status": "proved",
   "theorems": [
    "C17_optimum_2d",
    "C17_optimum_3d",
    "C17_formula",
    "C17_optimum_qL"
   ],
   "note": "Two- and three-factor layers of all eight implemented models and qL-AND, exact reals. MAX-AND has its own update (C40)."
  },
  {
   "property": "C18",
   "status": "proved",
   "theorems": [
    "C18_counter_2d",
    "C18_counter_3d",
    "C18_IBP"
   ],
   "note": "int64 counters are unbounded in the model."
  },
  {
   "property": "C19",
   "status": "proved",
   "theorems": [
    "C19_fuzzy_2d"
   ],
   "note": "Probability as a finite sum over all Boolean tables of independent bits; floats are exact reals."
  },
  {
   "property": "C20",
   "status": "partial",
   "theorems": [
    "C20_fuzzy_3d_partial",
    "C20_OR_XOR_refuted",
    "C20_OR_XOR_partial"
   ],
   "note": "FALSE of the code for OR-XOR: misplaced sign in OR_XOR_product_fuzzy_3d, value -1 at certain inputs. Proved for the other seven models; for OR-XOR C20_OR_XOR_partial says what is returned instead."
  },
  {
   "property": "C21",
   "status": "proved",
   "theorems": [
    "C21_generic_fuzzy",
    "C21_errors"
   ],
   "note": "All 36 operator pairs, any number of factors, expectation of the {-1,1} output; error branches included."
  },
  {
   "property": "C22",
   "status": "partial",
   "theorems": [
    "C22_range_partial",
    "C22_max_and_partial",
    "C22_factor_mean",
    "C22_range_refuted"
   ],
   "note": "FALSE of the code for qL-AND (returns -1/1), factor_mean_old (returns an expectation in [-1,1]), factor_mean with three factors outside OR-AND (crisp -1/1), factor_mean of MAX-AND with tied dispersions (8/5). True part: all other techniques and the two-factor and OR-AND factor_mean of the implemented models."
  },
  {
   "property": "C23",
   "status": "proved",
   "theorems": [
    "C23_outputs",
    "C23_mc_needs_samples"
   ],
   "note": "All 36 operator pairs, any number of factors, any trace length >= 1."
  },
  {
   "property": "C24",
   "status": "proved",
   "theorems": [
    "C24_noisy_emission"
   ],
   "note": "Entrywise formula of MachineLayer.output; the flip probability is stated as an iterated integral over two uniform draws."
  },
  {
   "property": "C25",
   "status": "partial",
   "theorems": [
    "C25_traces_partial",
    "C25_last_slice",
    "C25_refuted"
   ],
   "note": "FALSE of the code for IBP layers, whose slices are padded with -1. Proved for all other matrices and dispersions, for every successful run; C72 shows runs of standard machines succeed."
  },
  {
   "property": "C26",
   "status": "proved",
   "theorems": [
    "C26_terminates",
    "C26_sweep_bound",
    "C26_negative"
   ],
   "note": "Also: with a negative burn_in_min burn-in never returns."
  },
  {
   "property": "C27",
   "status": "partial",
   "theorems": [
    "C27_windows_partial",
    "C27_refuted"
   ],
   "note": "FALSE of the code: the first check reads one entry that was never written. Proved for all others, and that nothing is written out of bounds in successful runs."
  },
  {
   "property": "C28",
   "status": "partial",
   "theorems": [
    "C28_burn_in_iters_partial",
    "C28_refuted"
   ],
   "note": "FALSE of the code for every run with burn_in_min other than 1; what is reported is stated exactly."
  },
  {
   "property": "C29",
   "status": "partial",
   "theorems": [
    "C29_schedule",
    "C29_in_range",
    "C29_refuted"
   ],
   "note": "FALSE of the code: the last value is the target times (b+1)/b. Schedule and range of the lookup proved."
  },
  {
   "property": "C30",
   "status": "partial",
   "theorems": [
    "C30_fixed_kept_partial",
    "C30_fixed_dispersions",
    "C30_refuted"
   ],
   "note": "FALSE of the code: clean-up and the IBP update (C71) change fixed factors. Proved for all other matrices with an array of their own, and for dispersions."
  },
  {
   "property": "C31",
   "status": "proved",
   "theorems": [
    "C31_inactive"
   ],
   "note": ""
  },
  {
   "property": "C32",
   "status": "partial",
   "theorems": [
    "C32_no_inactive_partial",
    "C32_refuted"
   ],
   "note": "FALSE of the code: two neighbouring inactive dimensions, or three equal ones, are not all removed. Proved: no inactive dimension is left when no two neighbours are both inactive."
  },
  {
   "property": "C33",
   "status": "partial",
   "theorems": [
    "C33_output_partial",
    "C33_never_adds",
    "C33_refuted"
   ],
   "note": "FALSE of the code: dimensions agreeing in a single factor are merged and the OR-AND output changes. Proved when agreement in one factor implies agreement in all. For every OR-AND layer a clean-up never turns a predicted zero into a one (C33_never_adds)."
  },
  {
   "property": "C34",
   "status": "proved",
   "theorems": [
    "C34_clean_up",
    "C34_no_action"
   ],
   "note": "Also proved: with neither flag the function raises UnboundLocalError exactly when there is something to clean."
  },
  {
   "property": "C35",
   "status": "partial",
   "theorems": [
    "C35_reset_partial",
    "C35_removed_refuted"
   ],
   "note": "FALSE of the code for every layer and every removal. Proved for resets. Dimensions added by the IBP sampler: see C36."
  },
  {
   "property": "C36",
   "status": "proved",
   "theorems": [
    "C36_well_formed"
   ],
   "note": "For N >= 1 rows; no condition on data, parameters or draws."
  },
  {
   "property": "C37",
   "status": "partial",
   "theorems": [
    "C37_marginal_half_partial",
    "C37_swapped",
    "C37_refuted"
   ],
   "note": "FALSE of the code for every feature prior other than 1/2: q and 1-q are interchanged. Proved for q = 1/2 and any number of new columns."
  },
  {
   "property": "C38",
   "status": "partial",
   "theorems": [
    "C38_no_column_partial",
    "C38_shifted",
    "C38_refuted"
   ],
   "note": "FALSE of the code whenever a column is kept: the weight is the Poisson probability of L+k. Proved for L = 0."
  },
  {
   "property": "C39",
   "status": "partial",
   "theorems": [
    "C39_maximum_refuted",
    "C39_minimum_partial",
    "C39_layer_outputs_partial"
   ],
   "note": "FALSE of the code: argsort is ascending, so the smallest active dispersion is returned (proved), and 0 rather than the clamped dispersion if none is active."
  },
  {
   "property": "C40",
   "status": "proved",
   "theorems": [
    "C40_dispersion_update",
    "C40_ratio_tables",
    "C40_other_arity"
   ],
   "note": "Exact reals (the code stores the ratio tables as float32)."
  },
  {
   "property": "C41",
   "status": "partial",
   "theorems": [
    "C41_truncation_refuted",
    "C41_unsorted_refuted",
    "C41_decreasing_partial",
    "C41_accumulated_score_partial",
    "C41_any_order_partial"
   ],
   "note": "FALSE of the code: int32 return type truncates the log-odds, and the column index is used as a rank unless dispersions are decreasing. True part for strictly decreasing dispersions; for any other order C41_any_order_partial says which log-odds is computed."
  },
  {
   "property": "C42",
   "status": "proved",
   "theorems": [
    "C42_qL_threshold",
    "C42_qL_counter",
    "C42_layer_output"
   ],
   "note": "For q >= 1; layer output and the counter used by the dispersion update included."
  },
  {
   "property": "C43",
   "status": "proved",
   "theorems": [
    "C43_scores"
   ],
   "note": ""
  },
  {
   "property": "C44",
   "status": "partial",
   "theorems": [
    "C44_unit_lambda_partial",
    "C44_ignored",
    "C44_refuted"
   ],
   "note": "FALSE of the code: lambda, prior and fixed entries are ignored. Proved exact for lambda = 1, prior 1/2, no fixed entry."
  },
  {
   "property": "C45",
   "status": "partial",
   "theorems": [
    "C45_intervals_partial",
    "C45_fallthrough",
    "C45_long_refuted"
   ],
   "note": "FALSE of the code for more than 127 categories: the int8 return type turns index 128 into -128. Proved for every vector of at most 127 probabilities; the only caller passes 5."
  },
  {
   "property": "C46",
   "status": "proved",
   "theorems": [
    "C46_split",
    "C46_success"
   ],
   "note": "Arrays are flat entry lists; np.random.choice is any duplicate-free draw. That the input is not modified is by the value semantics of the model (the code copies)."
  },
  {
   "property": "C47",
   "status": "proved",
   "theorems": [
    "C47_split"
   ],
   "note": "Both codings, error case included. Non-modification is by value semantics (the code copies)."
  },
  {
   "property": "C48",
   "status": "partial",
   "theorems": [
    "C48_noise_2d",
    "C48_extremes",
    "C48_noise_biased",
    "C48_noise_3d_bool_partial",
    "C48_noise_3d_int_refuted"
   ],
   "note": "FALSE of the code for add_bernoulli_noise on integer arrays (bitwise complement). Proved for the two 2D functions and for Boolean 3D arrays."
  },
  {
   "property": "C49",
   "status": "partial",
   "theorems": [
    "C49_seed_refuted",
    "C49_exists_refuted",
    "C49_value_ignored"
   ],
   "note": "FALSE of the code: a given seed is never used (the generator is reseeded only when no seed is given)."
  },
  {
   "property": "C50",
   "status": "proved",
   "theorems": [
    "C50_recoding"
   ],
   "note": ""
  },
  {
   "property": "C51",
   "status": "proved",
   "theorems": [
    "C51_product"
   ],
   "note": "Related to the {-1,1} OR-AND specification of C01."
  },
  {
   "property": "C52",
   "status": "partial",
   "theorems": [
    "C52_density_partial",
    "C52_density_refuted",
    "C52_above_one_refuted",
    "C52_unknown_names"
   ],
   "note": "FALSE of the code for XOR-XOR and NXOR-XOR with K <> 2 factors and L >= 2 (wrong for every 0<f<1; can be 2). Proved for the other 34 models and all L, K >= 1, and for those two with K = 2 or L = 1."
  },
  {
   "property": "C53",
   "status": "proved",
   "theorems": [
    "C53_lom_class"
   ],
   "note": "All 36 names, any arity and latent size."
  },
  {
   "property": "C54",
   "status": "proved",
   "theorems": [
    "C54_unique"
   ],
   "note": ""
  },
  {
   "property": "C55",
   "status": "partial",
   "theorems": [
    "C55_antichain",
    "C55_disjoint_partial",
    "C55_disjoint_refuted"
   ],
   "note": "FALSE of the code in both directions; what it decides is proved (C55_antichain)."
  },
  {
   "property": "C56",
   "status": "partial",
   "theorems": [
    "C56_equal_partial",
    "C56_padded_refuted"
   ],
   "note": "FALSE of the code for N <> n: the array has max(n,N+1) entries. Log-odds entries are right."
  },
  {
   "property": "C57",
   "status": "partial",
   "theorems": [
    "C57_no_effect_partial",
    "C57_from_shape",
    "C57_refuted"
   ],
   "note": "FALSE of the code for models that invert the data: a call with child and shape fails after negating the child, and no layer can be made from a shape. Proved for all other calls."
  },
  {
   "property": "C58",
   "status": "partial",
   "theorems": [
    "C58_present_state_partial",
    "C74_two_factors",
    "C74_three_factors",
    "C74_one_parent",
    "C58_refuted"
   ],
   "note": "FALSE of the code for bernoulli_prior, which is captured when the first infer makes the closure. Proved for data, siblings, dispersion, fixed entries."
  },
  {
   "property": "C59",
   "status": "partial",
   "theorems": [
    "C59_rejected_partial",
    "C59_refuted",
    "C74_two_parents"
   ],
   "note": "FALSE of the code: further parents are ignored. Rejection proved for three-factor layers, for parents with other than two factors and for matrices without relatives."
  },
  {
   "property": "C60",
   "status": "partial",
   "theorems": [
    "C60_unchanged_partial",
    "C60_unchanged_refuted"
   ],
   "note": "FALSE of the code when an OR-AND-IBP layer raises: the model name stays 'OR-AND'. True on every other path."
  },
  {
   "property": "C61",
   "status": "partial",
   "theorems": [
    "C61_lazy_partial",
    "C61_lazy_refuted"
   ],
   "note": "FALSE of the code: the cache ignores the technique and map_to_probabilities. True for a repeat of the same call with map_to_probabilities=True."
  },
  {
   "property": "C62",
   "status": "proved",
   "theorems": [
    "C62_links"
   ],
   "note": "Over exact reals; also that the shifted exponents of logsumexp never exceed 1."
  },
  {
   "property": "C63",
   "status": "proved",
   "theorems": [
    "C63_sweeps"
   ],
   "note": "Every machine built through the interface (any edits of values, flags and settings in between), every successful run."
  },
  {
   "property": "C64",
   "status": "partial",
   "theorems": [
    "C64_refuted"
   ],
   "note": "FALSE of the code: such a run never succeeds. No true part is claimed."
  },
  {
   "property": "C65",
   "status": "proved",
   "theorems": [
    "C65_canonical_loms",
    "C65_unknown"
   ],
   "note": "Both modes, clans and families; any other level or mode raises ValueError."
  },
  {
   "property": "C66",
   "status": "partial",
   "theorems": [
    "C66_bbp_partial",
    "C66_bbp_refuted"
   ],
   "note": "FALSE of the code for b = 1 (ZeroDivisionError at k = n). Proved for every other b > 0."
  },
  {
   "property": "C67",
   "status": "partial",
   "theorems": [
    "C67_thresholds_partial",
    "C67_refuted"
   ],
   "note": "FALSE of the code: the data values are never read. Proved: range 1..5, shape, and that the draw is from the conditional given all-ones data."
  },
  {
   "property": "C68",
   "status": "proved",
   "theorems": [
    "C68_existing_columns"
   ],
   "note": "Columns used by no other row still take part in the likelihood while the others are redrawn and are dropped afterwards."
  },
  {
   "property": "C69",
   "status": "partial",
   "theorems": [
    "C69_new_columns_partial",
    "C69_row",
    "C69_refuted"
   ],
   "note": "FALSE of the code (C37, C38). Proved when no column is used by another row and the feature prior is 1/2; the weights used in every other state are given by C69_row."
  },
  {
   "property": "C70",
   "status": "partial",
   "theorems": [
    "C70_new_features_partial",
    "C70_row",
    "C70_refuted"
   ],
   "note": "FALSE of the code for a feature prior other than 1/2, which is ignored. Proved for 1/2."
  },
  {
   "property": "C71",
   "status": "partial",
   "theorems": [
    "C71_refuted"
   ],
   "note": "FALSE of the code: fixed entries and a fixed sibling are overwritten. No true part is claimed."
  },
  {
   "property": "C72",
   "status": "proved",
   "theorems": [
    "C72",
    "C72_annealing"
   ],
   "note": "With annealing inference completes exactly when annealing starts with the first round and the dispersions to be annealed are not 0 (C72_annealing: otherwise every call raises). Ordinary machines: any sequence of adding data and standard layers (stacked up to two parents of one model per factor), changing values and settings, and infer."
  },
  {
   "property": "C73",
   "status": "proved",
   "theorems": [
    "C73"
   ],
   "note": "Ordinary machines as in C72."
  },
  {
   "property": "C74",
   "status": "proved",
   "theorems": [
    "C74_two_factors",
    "C74_three_factors",
    "C74_one_parent",
    "C74_two_parents"
   ],
   "note": "Up to 32767 data columns or rows; the prior is that of the time of the first infer (C58); two parents have the same model (C12)."
  },
  {
   "property": "C75",
   "status": "proved",
   "theorems": [
    "C75_two_factors",
    "C75_three_factors"
   ],
   "note": "All eight implemented models."
  },
  {
   "property": "C76",
   "status": "partial",
   "theorems": [
    "C76_refuted",
    "C76_shape_partial"
   ],
   "note": "FALSE of the code: infer always raises ValueError if the array has two or more entries. True part: add_matrix accepts the array exactly when it has the shape of the data (C76_shape_partial)."
  },
  {
   "property": "C77",
   "status": "proved",
   "theorems": [
    "C77"
   ],
   "note": "Ordinary machines as in C72; int16 bound 32767 on the axes of two-factor data; priors of factors are changed before the first run only (C58)."
  },
  {
   "property": "C78",
   "status": "proved",
   "theorems": [
    "C78"
   ],
   "note": "Single matrix update within the whole machine; ordinary machines as in C72."
  },
  {
   "property": "C79",
   "status": "partial",
   "theorems": [
    "C79_counts_partial",
    "C79_refuted"
   ],
   "note": "FALSE of the code: the int8 counter wraps at 128 active sources. Proved modulo 256, hence exactly while the count fits."
  },
  {
   "property": "C80",
   "status": "proved",
   "theorems": [
    "C80"
   ],
   "note": "The order of the pass is the one the permutation stream gives, whatever it is; dispersions are held fixed during a pass, as in the code."
  },
  {
   "property": "C81",
   "status": "proved",
   "theorems": [
    "C81"
   ],
   "note": "Dispersions fixed; the update orders are arbitrary but do not depend on the draws of the updates (separate streams in the model)."
  },
  {
   "property": "C82",
   "status": "partial",
   "theorems": [
    "C82_expected_output_partial",
    "C82_layer_output_partial",
    "C82_order_refuted",
    "C82_unexplained_refuted"
   ],
   "note": "FALSE of the code: dimensions are ordered by frequency times dispersion instead of dispersion, ties are counted twice (C22_range_refuted), and the dispersion of unexplained cells is dropped. Proved where the two orders agree, dispersions differ and an unexplained cell counts as 0."
  },
  {
   "property": "C83",
   "status": "partial",
   "theorems": [
    "C83_partial",
    "C83_refuted"
   ],
   "note": "FALSE of the code for layers with a fixed factor or a fixed dispersion: after a successful run their 'mc' output raises AttributeError (C83_refuted). Proved for every other layer, all techniques; 'factor_mean' for two-axis data and for OR-AND."
  },
  {
   "property": "C84",
   "status": "proved",
   "theorems": [
    "C84"
   ],
   "note": "Dispersions fixed; update orders as in C81."
  },
  {
   "property": "C85",
   "status": "proved",
   "theorems": [
    "C85"
   ],
   "note": "All 36 model names on data with two axes; on data with three axes those translated to OR-AND."
  },
  {
   "property": "C86",
   "status": "partial",
   "theorems": [
    "C86_partial",
    "C86_refuted",
    "C86_chunk_refuted"
   ],
   "note": "FALSE of the code: int8 training data is negated in place by models translated to negated data (C86_refuted), so that experiments that share the array and run in one process train on negated data after an odd number of such models (C86_chunk_refuted). Proved for all other arrays and models (C86_partial)."
  },
  {
   "property": "C87",
   "status": "partial",
   "theorems": [
    "C87_partial",
    "C87_refuted",
    "C87_unsplittable_refuted",
    "C87_default_refuted"
   ],
   "note": "FALSE of the code: with more than 112 combinations on int8 data, experiments of one chunk share the training data, which data-negating models negate (C87_refuted); if no test set can be split, the retry loop never ends (C87_unsplittable_refuted); the default list of models is a NameError (C87_default_refuted). Proved for a given list of models on splittable data with at most 112 combinations or another type (C87_partial)."
  },
  {
   "property": "C88",
   "status": "partial",
   "theorems": [
    "C88_run_partial",
    "C88_decreasing_partial",
    "C88_gibbs_refuted",
    "C88_annealing",
    "C88_built",
    "C88_scalar"
   ],
   "note": "FALSE of the code: unless the dispersions are decreasing, an update uses the log-odds of another entry (C88_gibbs_refuted). Proved: without annealing every run completes, every change is explained (C88_run_partial) and updates are right while dispersions are strictly decreasing, up to truncation (C88_decreasing_partial); with annealing a run with a free dispersion fails (C88_annealing); machines as built satisfy the hypotheses (C88_built); a scalar dispersion is a TypeError (C88_scalar)."
  },
  {
   "property": "C89",
   "status": "partial",
   "theorems": [
    "C89_conditional_refuted",
    "C89_fixed_refuted",
    "C89_thresholds_refuted",
    "C89_completes_refuted",
    "C89_run_partial",
    "C89_built"
   ],
   "note": "FALSE of the code: updates of factors ignore dispersion, prior and fixed entries, updates of thresholds treat all data as 1, and inference fails with ValueError if both factors are fixed while the thresholds are not. Proved: otherwise, and without annealing, every run completes and every change is explained by what the updates do compute (C89_run_partial); machines as built satisfy the hypotheses (C89_built)."
  },
  {
   "property": "C90",
   "status": "partial",
   "theorems": [
    "C90_conditional_refuted",
    "C90_fixed_refuted",
    "C90_bounds_refuted",
    "C90_completes_refuted",
    "C90_run_partial",
    "C90_built"
   ],
   "note": "FALSE of the code: an update of the first factor draws new columns and features from the wrong distribution, changes a second factor that is fixed, can make the second factor wider than its array of fixed entries (read out of bounds afterwards), and a run fails with ValueError when a sample is more than ten columns wider than the factors were when sampling began. Proved: without annealing, and with out-of-bounds entries read as not fixed, a run fails in no other way; it completes if the first factor is fixed or 2N times the number of samples is at most 10; every change in a completed run is explained by what the updates do compute (C90_run_partial); machines as built satisfy the hypotheses (C90_built)."
  },
  {
   "property": "C91",
   "status": "proved",
   "theorems": [
    "C91_result",
    "C91_density",
    "C91_entries",
    "C91_factors",
    "C91_raises"
   ],
   "note": "Expectations are iterated integrals over independent uniform draws; np.power is modelled for bases that are not negative."
  },
  {
   "property": "C92",
   "status": "partial",
   "theorems": [
    "C92_disjoint_refuted",
    "C92_terminates_refuted",
    "C92_product_partial",
    "C92_draws_partial",
    "C92_returns_partial"
   ],
   "note": "FALSE of the code: columns may overlap (only no column is contained in another), and with one row and more than one latent dimension the call never returns. Proved: whatever is returned has the right shapes and coding, no column is contained in another, X is the Boolean product; with at least L rows the first attempts can succeed."
  },
  {
   "property": "C93",
   "status": "proved",
   "theorems": [
    "C93",
    "C93_two_axes",
    "C93_hyperparameters"
   ],
   "note": "For three axes; two-axis data raise IndexError after the run, fewer than two hyperparameters raise IndexError. return_layer=True, which returns the layer object, is not modelled."
  },
  {
   "property": "C94",
   "status": "partial",
   "theorems": [
    "C94_refuted",
    "C94_partial"
   ],
   "note": "FALSE of the code: if no -1 occurs, all missing entries are turned into observed -1 (C94_refuted: the result is the same, whatever is drawn, as for data with the missing entries observed as -1). Proved: if a -1 occurs the data are factorised as given (C94_partial, with D as in C93)."
  },
  {
   "property": "C95",
   "status": "partial",
   "theorems": [
    "C95_refuted",
    "C95_closest_partial",
    "C95_unknown"
   ],
   "note": "FALSE of the code: if a candidate of the solver lies outside [0,1] the call raises TypeError, since func then returns a plain number that is indexed. Proved: for candidates in [0,1] the best one is returned (except XOR-XOR and NXOR-XOR with other than two factors, see C52); names of no logical model raise. The solver itself is a parameter."
  },
  {
   "property": "C96",
   "status": "partial",
   "theorems": [
    "C96_refuted",
    "C96_split_partial",
    "C96_complete",
    "C96_type"
   ],
   "note": "FALSE of the code with missing entries: positions are drawn from all entries but index the observed ones, so fewer are held out, possibly none (C96_refuted). Proved: what is held out for every draw; the full statement if nothing is missing; other types raise AssertionError."
  },
  {
   "property": "C97",
   "status": "partial",
   "theorems": [
    "C97_coding_refuted",
    "C97_zero_refuted",
    "C97_expectation_refuted",
    "C97_forward_partial"
   ],
   "note": "FALSE for the {-1,1} coding of the layers (negative results), for a dispersion 0, and for probabilities. Proved: for 0/1 matrices and positive dispersions it is the MaxMachine output."
  },
  {
   "property": "C98",
   "status": "proved",
   "theorems": [
    "C98_centers",
    "C98_unordered_refuted"
   ],
   "note": "C98_unordered_refuted shows the hypothesis of adjacent labels (stated in the docstring) is needed. Labels are integers in the model."
  },
  {
   "property": "C99",
   "status": "partial",
   "theorems": [
    "C99_refuted"
   ],
   "note": "FALSE of the code: zip is an iterator, used up by the labels; the call raises for every input. That sklearn.metrics has been imported elsewhere (the module imports only sklearn) is assumed."
  },
  {
   "property": "C100",
   "status": "partial",
   "theorems": [
    "C100_forgets_partial",
    "C100_only_negates",
    "C100_refuted"
   ],
   "note": "FALSE of the code when configurations one entry apart are equally probable: log-odds 0 always flip, so if all configurations are equally probable a run only negates all free entries back and forth (C100_only_negates) and never forgets its start (C100_refuted: one missing data point, default prior). Proved for machines without such ties; the exact condition with ties is C102 (all orders) and C103 (random orders)."
  },
  {
   "property": "C101",
   "status": "partial",
   "theorems": [
    "C101_consistent_partial",
    "C101_refuted"
   ],
   "note": "FALSE of the code with ties (C101_refuted). Proved for machines without configurations one entry apart that are equally probable, both for arbitrary bounded functions and for reported means; machines with ties are covered by C102 and C103."
  },
  {
   "property": "C102",
   "status": "proved",
   "theorems": [
    "C102_forgets_iff",
    "C102_averages",
    "C102_default_prior"
   ],
   "note": "Exact condition for convergence whatever the update orders; C102_default_prior exhibits a machine with observed data and the default prior on which some orders never forget the start."
  },
  {
   "property": "C103",
   "status": "proved",
   "theorems": [
    "C103_forgets_iff",
    "C103_averages",
    "C103_compare",
    "C103_not_always"
   ],
   "note": "Exact condition for convergence on average over uniformly random orders; C103_compare orders the conditions and separates C102's from C103's, C103_not_always shows that the condition can fail."
  },
  {
   "property": "C104",
   "status": "proved",
   "theorems": [
    "C104_logical",
    "C104_special_matrix",
    "C104_special_tensor",
    "C104_fixed_factors",
    "C104_unknown"
   ],
   "note": "OR-AND-IBP on matrices is C90; arrays with one or more than three axes are outside the model."
  },
  {
   "property": "C105",
   "status": "partial",
   "theorems": [
    "C105_agree",
    "C105_certain_priors",
    "C105_out_of_range",
    "C105_rejected_refuted"
   ],
   "note": "FALSE of the code in one part: a prior outside the unit interval is not rejected; its logit is NaN and every update succeeds without changing anything (C105_out_of_range, C105_rejected_refuted). The part on priors 1 and 0 is proved (C105_certain_priors)."
  },
  {
   "property": "C106",
   "status": "partial",
   "theorems": [
    "C106_greedy_2d",
    "C106_greedy_3d",
    "C106_noise_free_parent",
    "C106_conflict",
    "C106_limit_refuted"
   ],
   "note": "FALSE of the code on ties: infinity times a zero score is NaN, so an entry on which the data are silent is never updated, while every finite dispersion samples it from the prior (C106_limit_refuted). Everything else is proved (C106_greedy_2d, C106_greedy_3d, C106_noise_free_parent)."
  },
  {
   "property": "C107",
   "status": "partial",
   "theorems": [
    "C107_zero_stays",
    "C107_one_layer",
    "C107_two_layers",
    "C107_imputed_refuted"
   ],
   "note": "FALSE of the code: a zero entry stays zero in every update (C107_zero_stays), so nothing is imputed (C107_imputed_refuted). Proved: every observed entry that is not fixed is redrawn from its conditional given the first one or two layers on the matrix, with their own factors and dispersions, and nothing else changes (C107_one_layer, C107_two_layers). By C64 a whole run of infer on such a machine fails; the theorems are about the update function it installs."
  },
  {
   "property": "C108",
   "status": "partial",
   "theorems": [
    "C108_value",
    "C108_total",
    "C108_ties_refuted",
    "C108_clamped",
    "C108_total_refuted",
    "C108_available_refuted"
   ],
   "note": "FALSE of the code in four ways: layers have no attribute eigenvals, so every call on a layer as built raises, a first result is cached for ever and 'plugin' raises (C108_available_refuted); with equal dispersions ones are credited repeatedly (C108_ties_refuted); the clamped dimension gets its mean dispersion divided by the number of ones (C108_clamped) instead of the ones left to it (C108_total_refuted). Proved: the values of the latent dimensions are the expected probabilities with which they emit the ones (C108_value), and add up when dispersions are distinct (C108_total)."
  },
  {
   "property": "C109",
   "status": "partial",
   "theorems": [
    "C109_written",
    "C109_product_partial",
    "C109_single",
    "C109_single_refuted",
    "C109_range",
    "C109_stale_refuted"
   ],
   "note": "FALSE of the code in two ways: a factor file with exactly one line raises TypeError (C109_single, C109_single_refuted), and the exit status of the program is ignored, so files of an earlier run are returned (C109_stale_refuted). Proved: the file written lists the ones (C109_written), and for factor files with zero or at least two lines, all within the factors, the factors and the reconstruction are those listed (C109_product_partial). The program is an arbitrary function; files are lists of numbers."
  },
  {
   "property": "C110",
   "status": "partial",
   "theorems": [
    "C110_mean_partial",
    "C110_mean_refuted",
    "C110_map",
    "C110_map_refuted",
    "C110_state",
    "C110_missing",
    "C110_other"
   ],
   "note": "FALSE of the code: the mean is rescaled to the unit interval only if one entry of the matrix is negative (C110_mean_refuted), and 'map' thresholds the frequencies at 3/4, not 1/2 (C110_map, C110_map_refuted). Proved: the mean when some entry is below one half (C110_mean_partial), the state, missing data and unknown techniques. Only the numbers handed to the plotting library are modelled."
  },
  {
   "property": "C111",
   "status": "partial",
   "theorems": [
    "C111_added",
    "C111_cached",
    "C111_stale",
    "C111_refuted"
   ],
   "note": "FALSE of the code: update functions are cached on the matrices, so a factor updated before the layer was added keeps being updated from the posterior without it (C111_cached, C111_stale, C111_refuted). Proved: adding the layer makes the factor its child and keeps everything else (C111_added); layers added before the first call enter the posterior (C74_one_parent, C74_two_parents)."
  },
  {
   "property": "C112",
   "status": "partial",
   "theorems": [
    "C112_completes",
    "C112_well_formed",
    "C112_explained",
    "C112_sizes",
    "C112_stacked",
    "C112_refuted"
   ],
   "note": "FALSE of the code where a flagged layer carries another layer: removing a dimension changes the data of the upper layer, whose factor for that axis keeps its old size (C112_stacked for every such removal, C112_refuted for a run of infer). Proved for all machines whose flagged layers carry no other layer and whose data have no empty axis, any number of runs with adjustments in between: infer ends without an exception, its result is of the same kind again, the log is explained by Gibbs updates of the posterior, dispersion updates and clean-ups of superfluous dimensions, and only latent sizes of flagged layers change, in all factors alike and never upwards."
  },
  {
   "property": "C113",
   "status": "proved",
   "theorems": [
    "C113_reduction",
    "C113_completes",
    "C113_counter_2d",
    "C113_counter_3d",
    "C113_counter_qL",
    "C113_outputs_2d",
    "C113_outputs_3d",
    "C113_fuzzy_2d",
    "C113_fuzzy_3d"
   ],
   "note": "Counters are int64 (wrapping); the exact number follows for fewer than 2^63 points. How numba deals out rows and reduces counters is modelled as arbitrary; that it privatises the counter of a reduction is taken from its documentation."
  },
  {
   "property": "C114",
   "status": "partial",
   "theorems": [
    "C114_rounding",
    "C114_error_2d",
    "C114_error_3d",
    "C114_range_2d",
    "C114_range_3d_partial",
    "C114_certain_2d",
    "C114_certain_3d",
    "C114_refuted"
   ],
   "note": "FALSE of the code: with three factors XOR-XOR gives -5/2^53 and XOR-NXOR gives 1+4/2^53 for means of three samples (p_XOR_fuzzy_3d cancels); layer.output does not reach these two functions (only OR-AND with three factors), the dispatcher does. Proved: distance to the exact probability for all models (3D OR-XOR excepted, which is wrong in exact arithmetic already: C20), range [0,1] for two factors and for OR-AND, OR-NAND, NAND-XOR, XOR-AND, XOR-NAND with three (upper bound under an outer XOR for at most 4096 dimensions), exactness for certain factors. Open: the upper bound under an outer XOR beyond 4096 dimensions; there the output exceeds 1 by at most the error bound."
  },
  {
   "property": "C115",
   "status": "proved",
   "theorems": [
    "C115_mean",
    "C115_map",
    "C115_prob",
    "C115_factor_mean_2d",
    "C115_factor_mean_3d"
   ],
   "note": "numpy's mean of int8 samples along the first axis: sums in double precision (exact here, so the order of summation does not matter), one division."
  },
  {
   "property": "C116",
   "status": "proved",
   "theorems": [
    "C116_update_2d",
    "C116_update_3d",
    "C116_update_parent",
    "C116_update_child_parent",
    "C116_update_child_two_parents",
    "C116_update_two_parents",
    "C116_posterior_2d",
    "C116_posterior_3d",
    "C116_posterior_parent",
    "C116_rounds",
    "C116_safe_2d",
    "C116_safe_3d"
   ],
   "note": "The error of scipy's logit enters as d, that of math.exp as good_exp (two roundings of 1; C116_exp_example: a correctly rounded one qualifies). numpy's and numba's draws are taken as uniform on the multiples of 2^-53 in [0,1), independent. Updates with two parents are not covered; with one child and one parent the factor is the first one of its layer."
  },
  {
   "property": "C117",
   "status": "partial",
   "theorems": [
    "C117_refuted"
   ],
   "note": "FALSE of the code: a change of probability exp(-100) is made with probability at least 2^-53, more than 10^14 times too often (the draw 0 accepts everything). Harmless in absolute terms: C116."
  },
  {
   "property": "C118",
   "status": "partial",
   "theorems": [
    "C118_update_2d",
    "C118_update_3d",
    "C118_update_qL",
    "C118_default",
    "C118_never_nan",
    "C118_refuted"
   ],
   "note": "FALSE of the code for weak priors: with the Beta(1, 2^-60) prior and one point, predicted correctly, the prior is rounded away and the dispersion is infinite; the optimum is finite. Proved: whenever 16 (ND+alpha+beta) 2^-53 <= ND-P+beta and alpha >= 1, the value is finite and within d + 8 (ND+alpha+beta) 2^-53 / (ND-P+beta) of the optimum, d the error of the logarithm; with the default prior for all data below 2^48 points; never NaN for any positive prior."
  },
  {
   "property": "C119",
   "status": "proved",
   "theorems": [
    "C119",
    "C119_passes",
    "C119_safe",
    "C119_unobserved"
   ],
   "note": "Exact dispersions held fixed during the updates; the error of one update of matrix i is at most (number of its entries) ((16 + 5 (dispersions of its parents + |log-odds of its prior|)) 2^-53 + d), d the error of the computed log-odds. Exponential function within 2 roundings of 1; draws on the grid of 2^-53; no overflow."
  },
  {
   "property": "C120",
   "status": "proved",
   "theorems": [
    "C120",
    "C120_samples"
   ],
   "note": "Dispersions held fixed. T comes from the mixing of the exact chain (C102) and is not computed; the errors of the updates are those of C119. Exponential function within 2 roundings of 1; draws on the grid of 2^-53; no overflow."
  },
  {
   "property": "C121",
   "status": "proved",
   "theorems": [
    "C121"
   ],
   "note": "Dispersions held fixed; T as in C120. The averages are taken in real arithmetic (their rounding is C115)."
  },
  {
   "property": "C122",
   "status": "proved",
   "theorems": [
    "C122",
    "C122_averages"
   ],
   "note": "Dispersions held fixed. All orders equally probable and independent of the draws. T comes from C103 and is not computed; the errors of the updates are those of C119."
  },
  {
   "property": "C123",
   "status": "partial",
   "theorems": [
    "C123_refuted",
    "C123_partial"
   ],
   "note": "FALSE of the code: line 611 prints the shape of mut, a name that is not defined, so the function never returns (C123_refuted; NameError whenever the labels are distinct). Proved: what is computed before that line is the common part, and the assertions hold just when common labels occur equally often in both frames (C123_partial)."
  },
  {
   "property": "C124",
   "status": "proved",
   "theorems": [
    "C124_update",
    "C124_posterior"
   ],
   "note": "Exponential function within 2 roundings of 1; draws on the grid of 2^-53. The log-odds are integers, so only the exponential function and the draws are inexact. That dispersion, prior and fixed entries are ignored by the code is C44."
  },
  {
   "property": "C125",
   "status": "proved",
   "theorems": [
    "C125_dispersions",
    "C125_bound_needed"
   ],
   "note": "The order can change from 2^27 cells on (second theorem). Counts are machine integers and exact; the previous dispersions are doubles. The float32 tables of log ratios computed afterwards are not covered (exact in C40)."
  },
  {
   "property": "C126",
   "status": "partial",
   "theorems": [
    "C126_refuted",
    "C126_partial"
   ],
   "note": "FALSE of the code: with 2^27 + 1 ones in a column, two different rates round to the same double, the first dimension is picked instead of the better one and gets a dispersion above 0.99 where the exact one is 1/2. True below 94906264 cells (second theorem); between the two bounds the question is open."
  }
 ]
}