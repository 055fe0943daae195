# Formal model of LogicalFactorisationMachines in Coq 8.16.1

## Shape of the development

`rocq/theories` (logical name `Verif`) holds five kinds of files.

- `Base.v`, `BaseR.v`: arrays as lists, indexing, updating, Python loop idioms, machine-integer wrap, exceptions as values,
  finite sums and products of reals. Nothing here models a particular function. `BaseLemmas.v`, `BaseRLemmas.v`: their lemmas.
- Model files (listed below, function by function): definitions only, one Gallina function per Python function where
  possible. Each definition has a comment citing the file and lines it models; simplifications are stated there or in the header of
  the file.
- `Spec*.v` and `Invariance.v`: the specifications. `Spec.v`, `SpecR.v`, `SpecF.v`, `SpecMax.v`, `SpecMaxF.v`, `SpecHelpers.v`,
  `SpecQL.v`, `SpecIbp.v` and `Invariance.v` do not use the model: logical operators as quantifiers, probabilities as finite
  sums or iterated integrals, posteriors as products. `SpecClean.v`, `SpecOut.v`, `SpecMachine.v`, `SpecOrdinary.v`, `SpecPass.v`,
  `SpecPredict.v`, `SpecExperiments.v` and `SpecMaxRun.v` speak about states of the model (its records), not about the functions that change them, except where a
  property is about runs.
- `*Proofs*.v`, `PreserveLog.v`, `*Examples.v`: lemmas and concrete machines.
- `Prop*.v`: the property theorems and nothing else. Each is closed by `exact`, followed by `Print Assumptions` and a
  non-vacuity `Example`.

Conventions: a theorem that covers part of a property ends in `_partial` and its comment says what is missing. A property
that is false of the code has a theorem ending in `_refuted`, usually "for every ... there is a run that violates it" or a
concrete witness; its MANIFEST status is `partial`, and the note begins with "FALSE of the code".

## Modelling decisions

- numpy integer arrays are `list Z`, `list (list Z)` and so on, read with `nth`. A read out of range gives a default in the model;
  theorems carry shape hypotheses that put all reads in range. C72, C73 and C77 show that every machine of standard layers
  that can be built and run through the interface meets them. A list of rows forgets the number of columns of an array without rows.
- Floats are exact reals: no rounding, no overflow, except in FloatFuzzy.v, where fuzzy outputs and sample means are computed with every operation rounded to double precision (C114, C115; no overflow, all values are below 2^60), and in FloatSampling.v, where factors are updated with rounded log-odds and draws on the grid of 2^-53 (C116, C117; no overflow), and in FloatLambda.v, the dispersion update (C118). FloatMachine.v runs the updates of FloatSampling.v on whole machines (C119 to C122); in FloatQL.v the same for qL-AND factors (C124); in FloatMax.v the rates of MAX-AND dispersions (C125, C126). Infinities and NaN are modelled only in Extended.v (degenerate priors and infinite dispersions of the standard samplers, C105 and C106); elsewhere theorems assume finite values and priors strictly between 0 and 1.
- Machine integers are unbounded except where a signature truncates: int16 return of the two-factor and qL scores, int32
  return of the MAX-AND score, the int8 `l_order` array, int8 return of `random_choice`, the int8 counter of `compute_g`, negation of int8 arrays.
  There the wrap is written out, and it matters (C09, C41, C45, C79).
- Every random draw is an argument. Theorems quantify over all draws; distributional theorems integrate over uniform draws
  (iterated Riemann integrals whose existence is part of the statement). Draws of different updates, and update orders, come from separate
  streams (`oracle` in `Machine.v`), so an update order does not depend on the draws of updates.
- Arrays live in a store and matrices refer to them by index, so sharing and in-place mutation are visible (C06, C30). A
  closure (`sample_mat = ...`) is a constructor plus the values it captured when it was made; everything else is read when it is called
  (C58).
- In `Dispatch.compute` the arrays passed to a kernel are read as values and the result is written back to the array of
  the updated matrix. This presumes that the updated matrix does not share its array with the other arguments; theorems about runs assume
  it (`own_array`) and C73 proves it for all ordinary machines.
- Python exceptions are values of `res`. `while` loops have fuel; theorems either show that a known amount suffices (C26, C34, C72) or
  speak about runs that return.
- The parallel loops are sequential in the model of the samplers; `Parallel.v` models all interleavings and C16 shows that they agree.
- `pool.map` (`Experiments.v`) is a list of chunks; each runs in a process of its own with copies of the arrays and its own random stream.
- numba compilation is not modelled. Two places of the code cannot be compiled at all (a parent of a three-factor layer, a
  three-axis matrix with a parent); the notes of C11 and C64 say so.

## Trusted base

- The Coq 8.16.1 kernel, and the reading of the Python source by which the definitions were written. The code was not run.
- Axioms: only those of the standard library's real numbers and classical logic. No axiom is added; Coquelicot is used for `is_RInt`
  and Flocq for rounding to double precision; neither brings an axiom of its own. `Print Assumptions` of the theorems named in MANIFEST.json gives one of the following sets.

  `S` = `ClassicalDedekindReals.sig_forall_dec`, `N` = `ClassicalDedekindReals.sig_not_dec`, `F` = `FunctionalExtensionality.functional_extensionality_dep`, `C` = `Classical_Prop.classic`.

  - none (closed under the global context): C01_two_factor_outputs, C02_three_factor_outputs, C03_lom_generate_data, C04_fast_equals_generic, C05_canonise_sound, C07_score_2d, C08_score_3d, C09_score_any_size_refuted, C11_three_factor_parent_score, C18_IBP, C31_inactive, C32_no_inactive_partial, C32_refuted, C33_output_partial, C33_never_adds, C33_refuted, C34_clean_up, C34_no_action, C35_reset_partial, C35_removed_refuted, C42_qL_threshold, C42_qL_counter, C43_scores, C50_recoding, C51_product, C53_lom_class, C54_unique, C55_antichain, C55_disjoint_partial, C55_disjoint_refuted, C65_canonical_loms, C65_unknown, C79_counts_partial, C79_refuted, C87_default_refuted, C94_partial, C98_centers, C98_unordered_refuted, C109_written, C109_product_partial, C109_single, C109_single_refuted, C109_range, C109_stale_refuted, C113_reduction, C113_completes, C113_counter_qL, C113_outputs_2d, C113_outputs_3d
  - `S`: C52_unknown_names, C99_refuted, C113_fuzzy_2d, C113_fuzzy_3d, C123_refuted, C123_partial
  - `S` `F`: C13_gibbs_flip, C19_fuzzy_2d, C20_fuzzy_3d_partial, C20_OR_XOR_refuted, C20_OR_XOR_partial, C21_generic_fuzzy, C21_errors, C29_in_range, C39_maximum_refuted, C39_minimum_partial, C40_dispersion_update, C40_other_arity, C45_intervals_partial, C45_fallthrough, C45_long_refuted, C46_split, C46_success, C47_split, C48_noise_2d, C48_extremes, C48_noise_biased, C48_noise_3d_bool_partial, C48_noise_3d_int_refuted, C49_seed_refuted, C49_exists_refuted, C49_value_ignored, C52_density_partial, C52_density_refuted, C52_above_one_refuted, C59_rejected_partial, C59_refuted, C76_shape_partial, C82_expected_output_partial, C82_order_refuted, C82_unexplained_refuted, C92_disjoint_refuted, C92_terminates_refuted, C92_product_partial, C92_draws_partial, C92_returns_partial, C95_refuted, C95_closest_partial, C95_unknown, C96_refuted, C96_split_partial, C96_complete, C96_type, C97_coding_refuted, C97_zero_refuted, C97_expectation_refuted, C97_forward_partial, C108_value, C108_total, C108_ties_refuted, C108_clamped, C108_total_refuted, C108_available_refuted, C110_mean_partial, C110_mean_refuted, C110_map, C110_map_refuted, C110_state, C110_missing, C110_other, C111_cached
  - `S` `N` `F`: C13_detailed_balance, C15_max_and, C16_schedule_independent, C22_max_and_partial, C22_factor_mean, C22_range_refuted, C23_outputs, C23_mc_needs_samples, C39_layer_outputs_partial, C42_layer_output, C44_ignored, C60_unchanged_partial, C60_unchanged_refuted, C61_lazy_partial, C61_lazy_refuted, C82_layer_output_partial
  - `S` `N` `C` `F`: C06_add_layer_partial, C06_refuted, C10_conditional_2d, C10_conditional_3d, C11_no_child_one_parent, C11_no_child_two_parents, C11_child_one_parent, C11_child_two_parents, C12_two_parent_models_refuted, C13_flip, C14_invariance_2d, C14_invariance_3d, C14_invariance_hierarchical, C15_shape_entries_fixed, C17_optimum_2d, C17_optimum_3d, C17_formula, C17_optimum_qL, C18_counter_2d, C18_counter_3d, C22_range_partial, C24_noisy_emission, C25_traces_partial, C25_last_slice, C25_refuted, C26_terminates, C26_sweep_bound, C26_negative, C27_windows_partial, C27_refuted, C28_burn_in_iters_partial, C28_refuted, C29_schedule, C29_refuted, C30_fixed_kept_partial, C30_fixed_dispersions, C30_refuted, C36_well_formed, C37_marginal_half_partial, C37_swapped, C37_refuted, C38_no_column_partial, C38_shifted, C38_refuted, C40_ratio_tables, C41_truncation_refuted, C41_unsorted_refuted, C41_decreasing_partial, C41_accumulated_score_partial, C41_any_order_partial, C44_unit_lambda_partial, C44_refuted, C56_equal_partial, C56_padded_refuted, C57_no_effect_partial, C57_from_shape, C57_refuted, C58_present_state_partial, C74_two_factors, C74_three_factors, C74_one_parent, C58_refuted, C74_two_parents, C62_links, C63_sweeps, C64_refuted, C66_bbp_partial, C66_bbp_refuted, C67_thresholds_partial, C67_refuted, C68_existing_columns, C69_new_columns_partial, C69_row, C69_refuted, C70_new_features_partial, C70_row, C70_refuted, C71_refuted, C72, C72_annealing, C73, C75_two_factors, C75_three_factors, C76_refuted, C77, C78, C80, C81, C83_partial, C83_refuted, C84, C85, C86_partial, C86_refuted, C86_chunk_refuted, C87_partial, C87_refuted, C87_unsplittable_refuted, C88_run_partial, C88_decreasing_partial, C88_gibbs_refuted, C88_annealing, C88_built, C88_scalar, C89_conditional_refuted, C89_fixed_refuted, C89_thresholds_refuted, C89_completes_refuted, C89_run_partial, C89_built, C90_conditional_refuted, C90_fixed_refuted, C90_bounds_refuted, C90_completes_refuted, C90_run_partial, C90_built, C91_result, C91_density, C91_entries, C91_factors, C91_raises, C93, C93_two_axes, C93_hyperparameters, C94_refuted, C100_forgets_partial, C100_only_negates, C100_refuted, C101_consistent_partial, C101_refuted, C102_forgets_iff, C102_averages, C102_default_prior, C103_forgets_iff, C103_averages, C103_compare, C103_not_always, C104_logical, C104_special_matrix, C104_special_tensor, C104_fixed_factors, C104_unknown, C105_agree, C105_certain_priors, C105_out_of_range, C105_rejected_refuted, C106_greedy_2d, C106_greedy_3d, C106_noise_free_parent, C106_conflict, C106_limit_refuted, C107_zero_stays, C107_one_layer, C107_two_layers, C107_imputed_refuted, C111_added, C111_stale, C111_refuted, C112_completes, C112_well_formed, C112_explained, C112_sizes, C112_stacked, C112_refuted, C113_counter_2d, C113_counter_3d, C114_rounding, C114_error_2d, C114_error_3d, C114_range_2d, C114_range_3d_partial, C114_certain_2d, C114_certain_3d, C114_refuted, C115_mean, C115_map, C115_prob, C115_factor_mean_2d, C115_factor_mean_3d, C116_update_2d, C116_update_3d, C116_update_parent, C116_update_child_parent, C116_update_child_two_parents, C116_update_two_parents, C116_posterior_2d, C116_posterior_3d, C116_posterior_parent, C116_rounds, C116_safe_2d, C116_safe_3d, C117_refuted, C118_update_2d, C118_update_3d, C118_update_qL, C118_default, C118_never_nan, C118_refuted, C119, C119_passes, C119_safe, C119_unobserved, C120, C120_samples, C121, C122, C122_averages, C124_update, C124_posterior, C125_dispersions, C125_bound_needed, C126_refuted, C126_partial

## Which code is modelled

For each function of `lom/`: its lines and the definitions that model it.

### _numba/lambda_updates_numba.py

- get_scalar_output_function_2d (15-51): `FloatFuzzy`: a_output_2d; `Fuzzy`: get_scalar_output_function_2d_fuzzy; `Outputs`: get_scalar_output_function_2d
- get_scalar_output_function_3d (54-88): `FloatFuzzy`: a_output_3d; `Fuzzy`: get_scalar_output_function_3d_fuzzy; `Outputs`: get_scalar_output_function_3d
- make_output_function_2d (91-106): `Outputs`: output_function_2d; `ParallelReduce`: fill_step, fill_run, parallel_fill, parallel_output_2d, parallel_output_3d, parallel_output_2d_fuzzy, parallel_output_3d_fuzzy
- make_output_function_3d (109-126): `Outputs`: output_function_3d; `ParallelReduce`: parallel_output_2d, parallel_output_3d, parallel_output_2d_fuzzy, parallel_output_3d_fuzzy
- make_output_function_2d_fuzzy (129-143): `Fuzzy`: output_function_2d_fuzzy, output_function_3d_fuzzy; `ParallelReduce`: parallel_output_2d, parallel_output_3d, parallel_output_2d_fuzzy, parallel_output_3d_fuzzy
- make_output_function_3d_fuzzy (146-162): `Fuzzy`: output_function_2d_fuzzy, output_function_3d_fuzzy; `ParallelReduce`: parallel_output_2d, parallel_output_3d, parallel_output_2d_fuzzy, parallel_output_3d_fuzzy
- make_correct_predictions_counter (165-227): `Lambda`: counter_2d, counter_3d, counter_qL, counted_model, make_correct_predictions_counter_2d, make_correct_predictions_counter_3d; `ParallelReduce`: block, worker, start, count_step, count_run, done, parallel_count, parallel_counter_2d, parallel_counter_3d, parallel_counter_qL
- make_lbda_update_fct (230-274): `Dispatch`: get_update_fct, compute_lbda; `FloatLambda`: double_log_argument, double_lbda_update_2d, double_lbda_update_3d, double_lbda_update_qL; `Lambda`: no_of_points_2d, no_of_points_3d, lbda_log_argument, lbda_val, lbda_update_2d, lbda_update_3d, lbda_update_qL; `Machine`: assign_disp

### _numba/lom_outputs.py

- compute_g (15-23): `Outputs`: compute_g
- qL_AND_product (27-36): `Outputs`: qL_loop, qL_AND_product
- OR_AND_product (39-44): `Outputs`: any_loop, OR_AND_product
- OR_AND_product_3d (47-52): `Outputs`: OR_AND_product_3d
- OR_AND_product_expand (55-68): `Outputs`: OR_AND_product_expand
- OR_AND_single_n (70-82): `Outputs`: OR_AND_single_n
- OR_NAND_product (86-91): `Outputs`: OR_NAND_product
- OR_NAND_product_3d (94-99): `Outputs`: OR_NAND_product_3d
- OR_XOR_product (103-108): `Outputs`: OR_XOR_product
- OR_XOR_product_3d (111-116): `Outputs`: OR_XOR_product_3d
- NAND_XOR_product (120-125): `Outputs`: NAND_XOR_product
- NAND_XOR_product_3d (128-133): `Outputs`: NAND_XOR_product_3d
- XOR_AND_product (137-148): `Outputs`: xor_loop, XOR_AND_product
- XOR_AND_product_3d (151-162): `Outputs`: XOR_AND_product_3d
- XOR_XOR_product (166-177): `Outputs`: XOR_XOR_product
- XOR_XOR_product_3d (180-191): `Outputs`: XOR_XOR_product_3d
- XOR_NXOR_product (195-206): `Outputs`: XOR_NXOR_product
- XOR_NXOR_product_3d (209-220): `Outputs`: XOR_NXOR_product_3d
- XOR_NAND_product (224-235): `Outputs`: XOR_NAND_product
- XOR_NAND_product_3d (238-249): `Outputs`: XOR_NAND_product_3d
- MAX_AND_product_2d (254-262): `LayerOutput`: max_and, max_and_output; `Machine`: oracle; `MaxMachine`: butlast, col, rmat_build, rat2, fill_zeros, MAX_AND_product_2d

### _numba/lom_outputs_fuzzy.py

- OR_AND_product_fuzzy (14-22): `FloatFuzzy`: a_prod, a_skip, a_sum, a_OR_AND; `Fuzzy`: prod_loop, OR_AND_product_fuzzy
- OR_AND_product_fuzzy_3d (25-33): `FloatFuzzy`: a_OR_AND_3d; `Fuzzy`: OR_AND_product_fuzzy_3d
- XOR_AND_product_fuzzy (37-46): `FloatFuzzy`: a_prod, a_skip, a_sum, a_XOR_AND; `Fuzzy`: skip_loop, sum_loop, XOR_AND_product_fuzzy
- XOR_AND_product_fuzzy_3d (49-58): `FloatFuzzy`: a_XOR_AND_3d; `Fuzzy`: XOR_AND_product_fuzzy_3d
- XOR_NAND_product_fuzzy (62-71): `FloatFuzzy`: a_XOR_NAND; `Fuzzy`: XOR_NAND_product_fuzzy
- XOR_NAND_product_fuzzy_3d (74-83): `FloatFuzzy`: a_XOR_NAND_3d; `Fuzzy`: XOR_NAND_product_fuzzy_3d
- OR_XOR_product_fuzzy (87-92): `FloatFuzzy`: a_OR_XOR; `Fuzzy`: OR_XOR_product_fuzzy
- OR_XOR_product_fuzzy_3d (95-103): `FloatFuzzy`: a_OR_XOR_3d; `Fuzzy`: OR_XOR_product_fuzzy_3d
- NAND_XOR_product_fuzzy (107-112): `FloatFuzzy`: a_NAND_XOR; `Fuzzy`: NAND_XOR_product_fuzzy
- NAND_XOR_product_fuzzy_3d (115-123): `FloatFuzzy`: a_NAND_XOR_3d; `Fuzzy`: NAND_XOR_product_fuzzy_3d
- XOR_XOR_product_fuzzy (127-137): `FloatFuzzy`: a_XOR_XOR; `Fuzzy`: XOR_XOR_product_fuzzy
- p_XOR_fuzzy_3d (140-145): `FloatFuzzy`: a_p_XOR; `Fuzzy`: p_XOR_fuzzy_3d
- XOR_XOR_product_fuzzy_3d (148-158): `FloatFuzzy`: a_XOR_XOR_3d; `Fuzzy`: XOR_XOR_product_fuzzy_3d
- XOR_NXOR_product_fuzzy (162-172): `FloatFuzzy`: a_XOR_NXOR; `Fuzzy`: XOR_NXOR_product_fuzzy
- XOR_NXOR_product_fuzzy_3d (175-185): `FloatFuzzy`: a_XOR_NXOR_3d; `Fuzzy`: XOR_NXOR_product_fuzzy_3d
- OR_NAND_product_fuzzy (189-194): `FloatFuzzy`: a_OR_NAND; `Fuzzy`: OR_NAND_product_fuzzy
- OR_NAND_product_fuzzy_3d (197-202): `FloatFuzzy`: a_OR_NAND_3d; `Fuzzy`: OR_NAND_product_fuzzy_3d
- MAX_AND_product_fuzzy (206-228): `MaxMachine`: MAX_AND_product_fuzzy

### _numba/matrix_updates_numba.py

- flip_metropolised_gibbs_numba (18-35): `Extended`: xscale, xle0, xge0, xexp_gt, flip_x; `FloatSampling`: double_flip; `Machine`: oracle; `Sampling`: flip_branch, flip_metropolised_branch, flip_metropolised_gibbs_numba
- flip_gibbs_numba (38-47): `Sampling`: flip_gibbs_numba
- flip_metropolised_gibbs_numba_classic (50-71): `Sampling`: flip_metropolised_gibbs_numba_classic
- get_posterior_score_fct (74-115): `Dispatch`: known2, known3, knownp; `Scores`: get_posterior_score_fct_2d, get_posterior_score_fct_3d
- get_parent_score_fct (118-154): `Dispatch`: known2, known3, knownp; `Scores`: get_parent_score_fct_2d, get_parent_score_fct_3d
- make_sampling_fct_onechild (157-191): `Extended`: xadd, xscale, sample_cell_x, sample_loop_x, run_call_x; `FloatSampling`: double_cell, double_loop, double_logit_2d, double_logit_3d; `Machine`: with_val, with_layer, with_parent, with_sfct, with_lbda, with_ratios, with_alpha, with_lv, with_lsfct; `Parallel`: thread, only_row, step, pstate, pinit, pstep, exec, finished, parallel_result, sampler_logit; `Sampling`: sample_cell, sample_loop, logit_onechild_2d, logit_onechild_3d, sampling_fct_onechild_2d, sampling_fct_onechild_3d
- make_sampling_fct_onechild_oneparent (194-235): `FloatSampling`: double_logit_1c1p; `Parallel`: sampler_logit; `Sampling`: logit_onechild_oneparent_2d, sampling_fct_onechild_oneparent_2d
- make_sampling_fct_nochild_oneparent (238-278): `Extended`: run_call_x; `FloatSampling`: double_logit_0c1p; `Parallel`: sampler_logit; `Sampling`: logit_nochild_oneparent_2d, sampling_fct_nochild_oneparent_2d
- make_sampling_fct_nochild_twoparents (281-339): `Extended`: run_call_x; `FloatSampling`: double_logit_0c2p, double_logit_1c2p, double_sampler_0c2p, double_sampler_1c2p; `Parallel`: sampler_logit; `Sampling`: logit_nochild_twoparents_2d, sampling_fct_nochild_twoparents_2d
- make_sampling_fct_onechild_twoparents (342-381): `Extended`: run_call_x; `FloatSampling`: double_logit_0c2p, double_logit_1c2p, double_sampler_0c2p, double_sampler_1c2p; `Parallel`: sampler_logit; `Sampling`: logit_onechild_twoparents_2d, sampling_fct_onechild_twoparents_2d
- sample_2d_IBP (384-485): `Ibp`: FN_factor, TN_factor, take_cols, used_by_others, ibp_existing, tn_count, fn_count, prior_L_new, log_L_new, p_L_new, choose_L_new, ibp_new_features, ibp_row, sample_2d_IBP
- random_choice (511-523): `Helpers`: choice_loop, random_choice
- sample_qL_q (530-562): `QL`: true_predictions, qL_logconditional, max_list, qL_feature, sample_qL_q
- posterior_score_fct_qL_Z (566-597): `QL`: qL_count, posterior_score_fct_qL_Z
- posterior_score_fct_qL_U (600-624): `QL`: posterior_score_fct_qL_U
- sample_qL_factors_Z (627-641): `FloatQL`: double_qL_factors_Z; `QL`: sample_qL_factors_Z
- sample_qL_factors_U (644-659): `FloatQL`: double_qL_factors_U; `QL`: sample_qL_factors_U

### _numba/max_machine_sampler.py

- draw_MAX_AND_2D (13-21): `MaxMachine`: logit_MAX_AND, draw_MAX_AND_2D
- posterior_score_MAX_AND_2D (24-71): `MaxMachine`: first_such, score_MAX_AND_float, trunc, posterior_score_MAX_AND_2D
- lbda_MAX_AND (74-141): `Dispatch`: compute_lbda; `FloatMax`: double_pp_rate, double_MAX_AND_step, double_lbda_MAX_AND; `MaxMachine`: argmax, rmin, count_nonzero, mstate, pp_rate, lbda_MAX_AND_step, set_last, lbda_MAX_AND, lbda_MAX_AND_K
- compute_lbda_ratios (145-166): `MaxMachine`: rmat_build, rat2, rset2, compute_lbda_ratios
- maxmachine_relevance (194-270): `Relevance`: constructed, predicts, predicted_above, ones_credited, relevance_step, relevance_mcmc, maxmachine_relevance
- maxmachine_forward_pass (273-285): `Tools`: maxmachine_forward_pass

### _numba/posterior_score_fcts.py

- posterior_score_OR_AND_2D (11-37): `Scores`: flag_loop, for_d, posterior_score_OR_AND_2D
- posterior_score_OR_AND_3D (40-70): `Scores`: for_dm, posterior_score_OR_AND_3D
- posterior_score_XOR_AND_2D (74-104): `Scores`: count_in_loop, posterior_score_XOR_AND_2D
- posterior_score_XOR_AND_3D (107-140): `Scores`: posterior_score_XOR_AND_3D
- posterior_score_XOR_NAND_2D (144-173): `Scores`: posterior_score_XOR_NAND_2D
- posterior_score_XOR_NAND_3D (176-205): `Scores`: posterior_score_XOR_NAND_3D
- posterior_score_OR_NAND_2D (209-234): `Scores`: posterior_score_OR_NAND_2D
- posterior_score_OR_NAND_3D (237-261): `Scores`: posterior_score_OR_NAND_3D
- posterior_score_OR_XOR_2D (265-287): `Scores`: posterior_score_OR_XOR_2D
- posterior_score_OR_XOR_3D (290-312): `Scores`: posterior_score_OR_XOR_3D
- posterior_score_NAND_XOR_2D (316-332): `Scores`: posterior_score_NAND_XOR_2D
- posterior_score_NAND_XOR_3D (335-356): `Scores`: posterior_score_NAND_XOR_3D
- posterior_score_XOR_XOR_2D (360-379): `Scores`: count_out_loop, posterior_score_XOR_XOR_2D
- posterior_score_XOR_XOR_3D (382-407): `Scores`: posterior_score_XOR_XOR_3D
- posterior_score_XOR_NXOR_2D (411-430): `Scores`: posterior_score_XOR_NXOR_2D
- posterior_score_XOR_NXOR_3D (433-458): `Scores`: posterior_score_XOR_NXOR_3D

### auxiliary_functions.py

- expit (19-28): `Lambda`: expit
- logit (31-40): `Lambda`: logit_aux
- logsumexp (43-55): `Lambda`: logsumexp
- compute_bp (58-77): `Helpers`: compute_bp
- compute_bbp (80-88): `Helpers`: compute_bbp
- unique_ordered (91-97): `Helpers`: unique_loop, unique_ordered
- clean_up_codes (100-145): `Clean`: while, mapM, get_col, cleaning_action, inactive_body, dup_for, dup_body, below, dup_outer, clean_up_codes; `Inference`: clean_layer
- remove_dimension (148-154): `Clean`: del, remove_dimension, clayer, on_layer; `Inference`: clean_layer
- reset_dimension (157-159): `Clean`: reset_dimension, clayer, on_layer; `Inference`: clean_layer
- plot_matrix (194-232): `Show`: plot_matrix
- get_roc_auc (278-288): `Tools`: get_roc_auc
- split_test_train (329-363): `Helpers`: choice, split_test_train
- check_binary_coding (469-478): `Helpers`: check_binary_coding
- check_convergence_single_trace (481-495): `Inference`: mean, check_convergence_single_trace
- boolean_tensor_product (498-521): `Helpers`: boolean_tensor_product
- add_bernoulli_noise (524-534): `Helpers`: noise_cell_bool, add_bernoulli_noise_bool, noise_cell_int, add_bernoulli_noise_int
- add_bernoulli_noise_2d (537-551): `Helpers`: scan, noise_cell, add_bernoulli_noise_2d, stream, seeding, noise_2d_call, noise_2d_biased_call
- add_bernoulli_noise_2d_biased (554-573): `Helpers`: biased_cell, add_bernoulli_noise_2d_biased, seeding, noise_2d_call, noise_2d_biased_call
- intersect_dataframes (592-613): `Frames`: frame, index, isin, keep_rows, positions, pick, insert_row, sort_index, assert_same, common_frames, intersect_dataframes
- all_columsn_are_disjoint (616-624): `Helpers`: all_columsn_are_disjoint
- generate_orm_product (631-654): `Generators`: random_mat, disjoint_columns_mat, bool_dot, to_pm, generate_orm_product
- get_lop (657-693): `Lops`: lop_fn_OR, lop_fn_NOR, lop_fn_AND, lop_fn_NAND, lop_fn_XOR, lop_fn_NXOR, get_lop
- get_fuzzy_lop (696-736): `Fuzzy`: fuzzy_fn_AND, fuzzy_fn_OR, fuzzy_fn_XOR, fuzzy_fn_NAND, fuzzy_fn_NOR, fuzzy_fn_NXOR, get_fuzzy_lop
- lom_generate_data_fast (739-769): `Fuzzy`: lom_generate_data_fast_fuzzy; `Lops`: lom_generate_data_fast
- lom_generate_data (772-798): `Fuzzy`: generate_entry_real, lom_generate_data_real; `Lops`: nd_build, split_dash, generate_entry, lom_generate_data
- lom_generate_data_fuzzy (801-823): `Fuzzy`: fuzzy_entry, lom_generate_data_fuzzy
- canonise_model (826-961): `Canon`: canonise_name; `Machine`: neg_arr, canonise_model
- canonical_loms (964-988): `Canon`: canonical_loms
- implemented_loms (991-993): `Lops`: implemented_loms
- replace_equivalent_model (996-1018): `Canon`: equivalent_pairs, replace_equivalent_model
- expected_density (1021-1069): `Density`: invert, identity, inv_fn, expected_density
- factor_density (1072-1108): `Tools`: residual, try_guess, factor_density
- get_lom_class (1111-1199): `Canon`: get_lom_class
- find_centers_of_ordered_list (1202-1218): `Tools`: unique, find_centers_of_ordered_list

### experiments.py

- generate_random_tensor (14-39): `Generators`: power, d_f, random_bits, generate_random_tensor
- dbtf_reconstruct (42-95): `Dbtf`: tensor_file, files, program, sparse, loaded, loadtxt, np_index, set_pairs, dense, dbtf_reconstruct
- tensorm_reconstruct (98-123): `Reconstruct`: only_01, recode, prepared, tensorm_settings, tensorm_reconstruct
- split_train_test (162-232): `Experiments`: fill2, fill3, fill; `Helpers`: positions, count_by, training, split_train_test
- split_tensor_train_test_old (235-256): `Tools`: split_tensor_train_test_old
- LOM_predictive (259-289): `Experiments`: masked, agreement, experiment, experiment_settings, set_anneal, outcome, LOM_predictive
- parallel_function (296-307): `Experiments`: run_chunk, chunk_size, cut
- LOM_hyperparms_parallel_gridsearch (310-353): `Experiments`: retry_split, configurations, gridsearch

### lambda_update_wrappers.py

- get_update_fct (14-29): `Dispatch`: get_update_fct; `Machine`: lfct; `MaxMachine`: lbda_MAX_AND_K

### machine.py

- Trace.__call__ (110-111): `Machine`: value, disp
- Trace.allocate_trace_arrays_IBP (113-124): `Inference`: allocate_m
- Trace.update_trace_IBP (126-130): `Inference`: state, overlay, update_trace_m
- Trace.allocate_trace_arrays (132-142): `Inference`: state, allocate_l, allocate_m; `Machine`: oracle; `Predict`: factor_view
- Trace.update_trace (144-146): `Inference`: state, update_trace_l, update_trace_m; `Predict`: factor_view
- Trace.mean (148-153): `FloatFuzzy`: double_sum, double_mean; `LayerOutput`: mean_at, factor_mean, lbda_mean
- Trace.check_convergence (155-170): `Inference`: component, check_convergence
- MachineParameter.__init__ (178-183): `Machine`: param
- MachineMatrix.__init__ (208-241): `Clean`: cfactor; `Dispatch`: own_layer; `LayerOutput`: factor; `Machine`: arr, shape_of, zeros_like, fixedness, matrix, oracle, random_arr, new_matrix, new_random_matrix; `Predict`: factor_view
- MachineMatrix.__call__ (243-244): `Machine`: matrix, value
- MachineMatrix.show (246-254): `Show`: show
- MachineMatrix.siblings (266-269): `Dispatch`: siblings; `Sampling`: LOM_sampler_2d
- MachineMatrix.set_to_map (271-273): `LayerOutput`: set_to_map
- MachineLayer.__init__ (278-308): `Clean`: clayer, on_layer; `Dispatch`: siblings; `LayerOutput`: lstate; `Machine`: layer, new_layer; `Predict`: layer_view; `Relevance`: constructed
- MachineLayer.z (310-312): `Reconstruct`: tensorm_reconstruct
- MachineLayer.u (314-316): `Reconstruct`: tensorm_reconstruct
- MachineLayer.v (318-320): `Reconstruct`: tensorm_reconstruct
- MachineLayer.size (322-324): `Clean`: csize
- MachineLayer.L (326-328): `Clean`: csize
- MachineLayer.output (341-452): `FloatFuzzy`: double_prob, double_map, double_mc; `Lambda`: noisy_emission; `LayerOutput`: threshold, nd_mapR, ndR_map, ndR_add, ndR_of_rmat, nd_shape, samples_at, mc_loop, qL_output, lom_technique, lom_branch, set_model, set_prediction, output; `Predict`: layer_output
- Machine.__init__ (461-467): `Inference`: all_layers, fresh_state; `Machine`: world, new_machine
- Machine.members (469-481): `Inference`: fresh_state; `Machine`: members
- Machine.lbdas (483-485): `Inference`: all_layers, fresh_state
- Machine.add_layer (487-531): `Inference`: fresh_state; `Machine`: lval, contains, lbda_init, add_layer
- Machine.add_matrix (533-542): `Inference`: fresh_state; `Machine`: source, add_matrix
- Machine.burn_in (544-670): `Dispatch`: run_mat, run_lbda; `FloatMachine`: double_run; `Inference`: event, state, foldM, call_mat, sweep, call_lbda, update_lbdas, rewind_l, check_all, clean_all, final_clean, ceil, arange, annealing_steps, anneal_step, settings, div_ok, pre_body, main_body, burn_in; `Machine`: assign_disp, oracle
- Machine.infer (672-775): `Dispatch`: own_layer; `Experiments`: experiment_settings, set_anneal; `Inference`: truth, not_fixed, free_lbdas, assign_mat, assign_lbda, is_ibp, allocate_m, sample_body, samples, prepare, infer; `Reconstruct`: tensorm_settings; `Relevance`: rel_layer

### matrix_update_wrappers.py

- get_sampling_fct (11-231): `Dispatch`: axis_of, transpose_order, axis2, axis3, child2, child3, pick, read2, parent_args, get_sampling_fct, effect, in_order, compute; `Extended`: xlogit, call, run_call, own2, other2, data2, own3, first3, second3, data3; `FloatMachine`: double_compute; `FloatQL`: double_qL_sampler; `FloatSampling`: double_sampler_2d, double_sampler_3d, double_sampler_0c1p, double_sampler_1c1p; `Ibp`: IBP_sampler; `Machine`: fct, assign_val; `MaxMachine`: MAX_AND_2D; `QL`: qL_sampler; `Sampling`: logit, dim3, transpose3, LOM_sampler_2d, LOM_sampler_3d, LOM_sampler_1c1p_2d, LOM_sampler_0c1p_2d, LOM_sampler_0c2p_2d, LOM_sampler_1c2p_2d
- get_relatives_models (234-255): `Dispatch`: get_relatives_models; `Scores`: replace_dash, model_tag

## Which code is not modelled

- plotting and functions that call a module which does not exist: `plot_matrix_ax` (auxiliary_functions.py:162-190), `plot_codes` (auxiliary_functions.py:236-275), `predict_applicability_simple` (auxiliary_functions.py:291-326), `predict_applicability_fast` (auxiliary_functions.py:366-466).
- helpers without a property: `random_machine_matrix` (auxiliary_functions.py:627-628).
- benchmarks: `generate_data` (benchmarks/bm_lambda_updates.py:17-41), `time_lambda` (benchmarks/bm_lambda_updates.py:44-56), `generate_data` (benchmarks/bm_matrix_updates.py:17-38), `time_lambda` (benchmarks/bm_matrix_updates.py:41-55).
- experiment scripts: `tensorm_reconstruct_indp` (experiments.py:126-159), `LOM_factorise` (experiments.py:292-293).
- dead code for machines that no longer exist (never called, attributes missing): `draw_lbda_or` (lambda_update_wrappers.py:35-65), `draw_lbda_tensorm_indp_p` (lambda_update_wrappers.py:68-87), `draw_lbda_tensorm_indp_m` (lambda_update_wrappers.py:91-106), `draw_lbda_or_balanced` (lambda_update_wrappers.py:111-123).
- accessors and printing (read directly in the model): `MachineParameter.print_value` (machine.py:185-191), `MachineMatrix.model` (machine.py:256-264), `MachineLayer.dimensionality` (machine.py:330-332), `MachineLayer.__iter__` (machine.py:334-335), `MachineLayer.__repr__` (machine.py:337-339).

## Plan per property

Each line: what is modelled and how it is proved, then the status and the theorems.

- **C01** Two-factor outputs mean what the model name says. Outputs.v scalar functions as early-exit loops over index lists; both sides reduced to a count of active dimensions. *proved*: C01_two_factor_outputs.
- **C02** Three-factor outputs mean what the model name says. As C01 for three vectors. *proved*: C02_three_factor_outputs.
- **C03** lom_generate_data implements all 36 operator machines for any arity. Lops.v: nd arrays as trees built over index lists, generic over K; entrywise against Spec.v. *proved*: C03_lom_generate_data.
- **C04** Fast and generic data generation agree. Equality of trees, from C01-C03. *proved*: C04_fast_equals_generic.
- **C05** Canonicalisation of a model preserves its meaning. Canon.v: canonise_model on strings; finite case split over 36 names, each closed by a logical lemma valid for all arities. *proved*: C05_canonise_sound.
- **C06** Adding a layer negates the child data exactly when it says so. Machine.v heap model; add_layer returns new heap; frame conditions stated on all other ids. *partial*: C06_add_layer_partial, C06_refuted.
- **C07** Two-factor posterior scores count exactly the explanations gained. Scores.v with the int16 wrap written out; equation against the outputs of Outputs.v with the entry set to 1 / -1. *proved*: C07_score_2d.
- **C08** Three-factor posterior scores count exactly the explanations gained. As C07, no wrap (int64). *proved*: C08_score_3d.
- **C09** Scores are exact for data of any size. False of the code: refuted by a 32768-entry row; partial = C07. *partial*: C09_score_any_size_refuted, C07_score_2d.
- **C10** The sampler uses the exact conditional log-odds of the model posterior. SpecR.v: posterior as a real product; log-odds identity by C07/C08 and ln sigma(x)-ln sigma(-x)=x. *proved*: C10_conditional_2d, C10_conditional_3d.
- **C11** Hierarchical layers use the exact conditional log-odds. As C10 with the parents' emission factors. *proved*: C11_no_child_one_parent, C11_no_child_two_parents, C11_child_one_parent, C11_child_two_parents, C11_three_factor_parent_score.
- **C12** Two parents of different models are both respected. False of the code: refuted by a concrete pair; partial when models agree (C11). *partial*: C12_two_parent_models_refuted.
- **C13** A single flip is a correct Metropolised-Gibbs move. Sampling.v over reals with the uniform draw as argument; measure of the flipping set is its length. *proved*: C13_flip, C13_detailed_balance, C13_gibbs_flip.
- **C14** A full sampling sweep leaves the posterior invariant. Expectation over the uniform draws as iterated Riemann integral of the code's update; finite sum over all +-1 matrices; involution argument per cell, induction over cells. *proved*: C14_invariance_2d, C14_invariance_3d, C14_invariance_hierarchical.
- **C15** Factor updates keep entries in {-1,1}, shapes, and fixed entries. Sampling.v: invariant over the fold. *proved*: C15_shape_entries_fixed, C15_max_and.
- **C16** Parallel row updates are schedule independent. Small-step interleaving semantics with a read and a write step per cell; invariant row-by-row. *proved*: C16_schedule_independent.
- **C17** The dispersion update is the regularised optimum. Lambda.v over reals; concavity via ln x <= x-1. *proved*: C17_optimum_2d, C17_optimum_3d, C17_formula, C17_optimum_qL.
- **C18** Correct-prediction counting ignores missing data and matches the likelihood. Counting folds; log-likelihood as sum. *proved*: C18_counter_2d, C18_counter_3d, C18_IBP.
- **C19** Two-factor fuzzy outputs are exact probabilities. Fuzzy.v over reals vs expectation over Boolean assignments defined by recursion. *proved*: C19_fuzzy_2d.
- **C20** Three-factor fuzzy outputs are exact probabilities. As C19; false for OR-XOR 3D (refuted), other seven proved. *partial*: C20_fuzzy_3d_partial, C20_OR_XOR_refuted, C20_OR_XOR_partial.
- **C21** Generic fuzzy generation returns expected outputs. Generic fuzzy operators, any K. *proved*: C21_generic_fuzzy, C21_errors.
- **C22** layer.output returns probabilities of emitting a one. LayerOutput.v; false for qL-AND, factor_mean_old and 3D factor_mean (refuted); proved for the others. *partial*: C22_range_partial, C22_max_and_partial, C22_factor_mean, C22_range_refuted.
- **C23** Monte-Carlo output is the fraction of samples predicting one. Traces as lists; counting. *proved*: C23_outputs, C23_mc_needs_samples.
- **C24** Noisy emission mixes with the dispersion. Real arithmetic. *proved*: C24_noisy_emission.
- **C25** The trace holds exactly the requested samples in order. Inference.v: infer as a fold of sweeps; trace as array writes at trace_index. *partial*: C25_traces_partial, C25_last_slice, C25_refuted.
- **C26** Burn-in terminates with a bounded number of sweeps. burn_in as a fuelled loop; fuel sufficiency proved; convergence verdicts are an arbitrary oracle. *proved*: C26_terminates, C26_sweep_bound, C26_negative.
- **C27** Convergence checks only look at recorded dispersion values. False for the first window (refuted); proved for all later windows; bounds proved. *partial*: C27_windows_partial, C27_refuted.
- **C28** burn_in_iters reports the number of burn-in iterations. False (refuted); exact reported value on both exits proved. *partial*: C28_burn_in_iters_partial, C28_refuted.
- **C29** Annealing ends at the target dispersion. False (refuted: overshoots by lambda/burn_in_min); exact schedule proved. *partial*: C29_schedule, C29_in_range, C29_refuted.
- **C30** infer never changes what is declared fixed. Frame property of the machine-level run; false for IBP and for cleaning (refuted); proved for other models. *partial*: C30_fixed_kept_partial, C30_fixed_dispersions, C30_refuted.
- **C31** Removing or resetting inactive latent dimensions does not change the prediction. Clean.v; matrices as lists of rows. *proved*: C31_inactive.
- **C32** clean_up_codes removes every inactive dimension. False (refuted by two adjacent inactive columns). *partial*: C32_no_inactive_partial, C32_refuted.
- **C33** clean_up_codes preserves the layer's prediction. False (refuted: one equal factor column suffices for deletion). *partial*: C33_output_partial, C33_never_adds, C33_refuted.
- **C34** clean_up_codes terminates, reports honestly and keeps factors aligned. Explicit measure for the while loops; invariant. *proved*: C34_clean_up, C34_no_action.
- **C35** Changing the latent size keeps per-entry bookkeeping aligned. False (refuted). *partial*: C35_reset_partial, C35_removed_refuted.
- **C36** IBP update keeps the factorisation well-formed. Ibp.v: loop over rows with oracles for draws; invariant. *proved*: C36_well_formed.
- **C37** IBP new-dish likelihood is the marginal likelihood. True for prior 1/2 (proved as partial), refuted otherwise. *partial*: C37_marginal_half_partial, C37_swapped, C37_refuted.
- **C38** IBP new-dish prior is Poisson. False for L>0 (refuted), true for L=0 (partial). *partial*: C38_no_column_partial, C38_shifted, C38_refuted.
- **C39** MAX-AND output is the maximum over active dispersions. False (refuted: returns the minimum); exact value proved. *partial*: C39_maximum_refuted, C39_minimum_partial, C39_layer_outputs_partial.
- **C40** MAX-AND dispersion update yields valid, clamped-minimal rates. MaxMachine.v greedy loop; invariant on TP/FP/mask. *proved*: C40_dispersion_update, C40_ratio_tables, C40_other_arity.
- **C41** MAX-AND entry update uses the conditional log-odds. False for unsorted dispersions and because of integer truncation (refuted); partial for sorted dispersions before truncation. *partial*: C41_truncation_refuted, C41_unsorted_refuted, C41_decreasing_partial, C41_accumulated_score_partial, C41_any_order_partial.
- **C42** qL-AND output thresholds the number of active sources. Counting. *proved*: C42_qL_threshold, C42_qL_counter, C42_layer_output.
- **C43** qL-AND updates use exact scores. Counting with break. *proved*: C43_scores.
- **C44** qL-AND updates respect lambda, priors and fixed entries. False (refuted). *partial*: C44_unit_lambda_partial, C44_ignored, C44_refuted.
- **C45** Categorical draws follow the given probabilities. Prefix sums. *partial*: C45_intervals_partial, C45_fallthrough, C45_long_refuted.
- **C46** Train/test splitting hides only observed entries. Splits with the random selection as an arbitrary NoDup index list. *proved*: C46_split, C46_success.
- **C47** split_test_train hides the same number of positives and negatives. As C46. *proved*: C47_split.
- **C48** Bernoulli noise only flips signs of observed entries. Draw per cell as oracle. *partial*: C48_noise_2d, C48_extremes, C48_noise_biased, C48_noise_3d_bool_partial, C48_noise_3d_int_refuted.
- **C49** Passing a seed makes noise reproducible. False (refuted): the seed argument never reaches the generator. *partial*: C49_seed_refuted, C49_exists_refuted, C49_value_ignored.
- **C50** Binary recoding is idempotent and correct. Integer arrays. *proved*: C50_recoding.
- **C51** Boolean tensor product is the Boolean tensor product. Boolean matrices. *proved*: C51_product.
- **C52** expected_density is the true expected density. Via C21 with constant probabilities; false for XOR-XOR/NXOR-XOR with K>=3 (refuted). *partial*: C52_density_partial, C52_density_refuted, C52_above_one_refuted, C52_unknown_names.
- **C53** get_lom_class inversion triples are correct. Case split over 36 names. *proved*: C53_lom_class.
- **C54** unique_ordered removes duplicates keeping first occurrences. List induction. *proved*: C54_unique.
- **C55** all_columsn_are_disjoint tests disjointness. False (refuted); exact meaning (no column contains another) proved. *partial*: C55_antichain, C55_disjoint_partial, C55_disjoint_refuted.
- **C56** compute_bp returns N log-odds. False when N<>n (refuted); exact length proved. *partial*: C56_equal_partial, C56_padded_refuted.
- **C57** A failed add_layer has no effect. False (refuted, three ways); successful calls: C06. *partial*: C57_no_effect_partial, C57_from_shape, C57_refuted.
- **C58** Settings changed between infer calls take effect. False for bernoulli_prior (refuted); proved for the values read at call time. *partial*: C58_present_state_partial, C74_two_factors, C74_three_factors, C74_one_parent, C58_refuted.
- **C59** Unsupported family structures are rejected. False (refuted): the guard is unreachable. *partial*: C59_rejected_partial, C59_refuted, C74_two_parents.
- **C60** output leaves the layer unchanged. False for OR-AND-IBP with an unknown technique (refuted); proved otherwise. *partial*: C60_unchanged_partial, C60_unchanged_refuted.
- **C61** Lazy output equals the requested output. False (refuted). *partial*: C61_lazy_partial, C61_lazy_refuted.
- **C62** Link functions are consistent. Real analysis. *proved*: C62_links.
- **C63** Each sweep updates every non-fixed matrix exactly once. Event log of a run; permutation oracle. *proved*: C63_sweeps.
- **C64** An unfixed data matrix can be inferred. False (refuted): attribute error at trace allocation. *partial*: C64_refuted.
- **C65** canonical_loms lists a complete, irredundant set of representatives. Canon.v: the lists as written; finite case split over the 36 names, semantic equivalence through Spec.v. *proved*: C65_canonical_loms, C65_unknown.
- **C66** compute_bbp returns beta-binomial log-odds. Helpers.v over reals; Gamma function specified by its recurrence; false for b = 1 (refuted). *partial*: C66_bbp_partial, C66_bbp_refuted.
- **C67** qL-AND threshold update draws from its conditional. QL.v: normalised weights per feature and the categorical draw; false because the data are never read (refuted). *partial*: C67_thresholds_partial, C67_refuted.
- **C68** IBP update of existing columns is Gibbs sampling. Ibp.v: the fold over existing columns equals the reference Gibbs update. *proved*: C68_existing_columns.
- **C69** IBP number of new columns. Ibp.v: weights of 0, 1, 2 new columns against Poisson times marginal likelihood; false because of C37 and C38 (refuted). *partial*: C69_new_columns_partial, C69_row, C69_refuted.
- **C70** IBP features of new columns. Ibp.v: the nested fold over features and new columns against the reference update. *partial*: C70_new_features_partial, C70_row, C70_refuted.
- **C71** IBP update respects what is fixed. Witness states (refuted). *partial*: C71_refuted.
- **C72** Inference on a machine of standard layers always completes. SpecOrdinary.v: inductive set of machines; induction over its constructors and over the run; fuel computed from the settings. *proved*: C72, C72_annealing.
- **C73** Machines of standard layers stay well-formed. Invariant of the inductive set of C72. *proved*: C73.
- **C74** An update during inference samples from the posterior of the whole machine. Dispatch.v: the closure that get_sampling_fct chooses, executed on the present state, equals the reference update for the posterior of all layers the matrix takes part in. *proved*: C74_two_factors, C74_three_factors, C74_one_parent, C74_two_parents.
- **C75** A dispersion update during inference finds the optimum for the current state. Dispatch.v: the closure of get_update_fct against C17. *proved*: C75_two_factors, C75_three_factors.
- **C76** A factor may be declared fixed by an array. Every run raises ValueError (refuted). *partial*: C76_refuted, C76_shape_partial.
- **C77** What a whole call of infer does. Replay of the event log by a specification relation. *proved*: C77.
- **C78** Matrix updates leave the joint posterior of the machine invariant. C14 inside the whole machine: factors of the joint posterior not involving the matrix cancel. *proved*: C78.
- **C79** compute_g counts active sources. Count modulo 256; refuted by 128 active sources. *partial*: C79_counts_partial, C79_refuted.
- **C80** A pass over all factors leaves the joint posterior invariant. Composition of C78 along the order of the pass, expectation over consecutive batches of draws. *proved*: C80.
- **C81** Every sample of a run with fixed dispersions is posterior distributed if the start is. Iteration of C80 over burn-in and sampling, whose number of passes is fixed when no dispersion is monitored. *proved*: C81.
- **C82** The fuzzy MAX-AND output is the expected MaxMachine output. Expectation over tables against the sequential formula; false for the order the code uses (refuted). *partial*: C82_expected_output_partial, C82_layer_output_partial, C82_order_refuted, C82_unexplained_refuted.
- **C83** Layer outputs after a run summarise the recorded samples. Predict.v joins Inference.v and LayerOutput.v; C25 and C73 supply the sampled layer that C22 and C23 need; false for fixed parameters (refuted). *partial*: C83_partial, C83_refuted.
- **C84** Averages over recorded samples are unbiased. Linearity of the expectation applied to C81, and Trace.mean as the average of the slots. *proved*: C84.
- **C85** An experiment reports the held-out accuracy of the requested model. Experiments.v joins Machine.v, Inference.v and LayerOutput.v; C72 and C83 give the run and the output, C65 and duality of the expected value under independence the requested model. *proved*: C85.
- **C86** Experiments do not change the arrays of the caller. Experiments.v: store of arrays before and after; false for int8 data of data-negating models (refuted), by induction for a chunk. *partial*: C86_partial, C86_refuted, C86_chunk_refuted.
- **C87** A grid search evaluates every combination on the same split. Experiments.v: retry loop with fuel, pool.map as a list of chunks with copied arrays; C46 gives the split, C85 and C86 each row; false beyond 112 combinations, without a possible split and by default (refuted). *partial*: C87_partial, C87_refuted, C87_unsplittable_refuted, C87_default_refuted.
- **C88** Inference with a MAX-AND layer completes and updates by the right conditionals. EngineProofs.v: generic theorem about infer for any invariant kept by all updates; instance for one MAX-AND layer (MaxRunProofs.v), with the log-odds of a factor update for dispersions in any order (MaxOrderProofs.v); false that it is the conditional (refuted). *partial*: C88_run_partial, C88_decreasing_partial, C88_gibbs_refuted, C88_annealing, C88_built, C88_scalar.
- **C89** Inference with a qL-AND layer completes and updates by the right conditionals. SpecQRun states what an update should do and what it does; QRunProofs composes C44, C67 and C17 with the run engine of C88 (EngineProofs); the refutations place the 1x1 counterexamples of C44 and C67 in a machine. *partial*: C89_conditional_refuted, C89_fixed_refuted, C89_thresholds_refuted, C89_completes_refuted, C89_run_partial, C89_built.
- **C90** Inference with an OR-AND-IBP layer completes and updates by the right conditionals. SpecIbpRun states what an update should do and what it does, row by row; IbpRunProofs composes C68-C70 into an update of the first factor and bounds its growth by two columns per row, IbpRunProofs2 the run; the refutations place counterexamples of C70 and C71 in a machine, and grow a factor by two columns per row until a trace overflows. *partial*: C90_conditional_refuted, C90_fixed_refuted, C90_bounds_refuted, C90_completes_refuted, C90_run_partial, C90_built.
- **C91** Generated tensors have the requested expected density. GeneratorProofs: expectation over independent bits, independence of functions of disjoint draws, reduction of integrals over uniform draws to it; GeneratorProofs2 connects the code. SpecGenerators has the share of ones. *proved*: C91_result, C91_density, C91_entries, C91_factors, C91_raises.
- **C92** Generated OR-AND products have disjoint factors. GeneratorProofs3: unfold an accepted attempt; C55 says what the test of an attempt accepts; counterexamples. *partial*: C92_disjoint_refuted, C92_terminates_refuted, C92_product_partial, C92_draws_partial, C92_returns_partial.
- **C93** Reconstructing a tensor returns what the recorded samples say. ReconstructProofs: recoding, the machine built and its settings; ReconstructProofs2: composition with C72 and C83 (run and outputs), means of traces against majorities; ReconstructProofs3: two axes and short hyperparameter lists. *proved*: C93, C93_two_axes, C93_hyperparameters.
- **C94** Missing entries stay missing in tensorm_reconstruct. ReconstructProofs3: when 0/1 recoding happens; two inputs that prepare to the same data. *partial*: C94_refuted, C94_partial.
- **C95** factor_density inverts expected_density. ToolsProofs: the loop over the guesses keeps the best so far; C52 identifies densities with probabilities. *partial*: C95_refuted, C95_closest_partial, C95_unknown.
- **C96** The older split holds out the requested number of observed entries. ToolsProofs: counting members of duplicate-free lists; the draw of the largest indices as counterexample. *partial*: C96_refuted, C96_split_partial, C96_complete, C96_type.
- **C97** maxmachine_forward_pass computes the MaxMachine output. ToolsProofs: the entrywise loop stops at the first nonzero term, which is the largest by the order of argsort. *partial*: C97_coding_refuted, C97_zero_refuted, C97_expectation_refuted, C97_forward_partial.
- **C98** Label positions are the centres of their stretches. ToolsProofs: positions of a label form an interval; sum of an interval. *proved*: C98_centers, C98_unordered_refuted.
- **C99** get_roc_auc returns the area under the ROC curve. ToolsProofs: the second run through an exhausted iterator yields nothing. *partial*: C99_refuted.
- **C100** Late samples are posterior samples, wherever the run started. ErgodicProofs: a product of metropolised Gibbs updates as an operator on functions; without ties the set of configurations reachable with positive probability grows to everything within a number of passes that does not depend on the orders, so the range of an expectation over the starting configuration shrinks geometrically (Doeblin). ErgodicProofs2/3: the sites of a machine, connectedness, transfer to infer by the run theorem behind C81. ErgodicProofs4: with equal weights every update negates its entry; ErgodicExamples: machines with a single data point. *partial*: C100_forgets_partial, C100_only_negates, C100_refuted.
- **C101** Averages over recorded samples converge to posterior expectations. ErgodicProofs: variance of averages over a sequence whose conditional expectations converge uniformly; ErgodicProofs3: transfer to run averages and reported means (C84). Refutation: the product of two entries never changes on the machine of C100_refuted. *partial*: C101_consistent_partial, C101_refuted.
- **C102** When runs forget their start, whatever the update orders. ErgodicProofs5: the mean square of an expectation over the starting configuration, under the posterior, never grows under an update, and drops unless the function is invariant under the update; a function that keeps its mean square through m passes is constant on linked configurations; with finitely many orders of m passes the contraction is uniform. ErgodicProofs6: transfer to infer; conversely a class of configurations closed under the links is mapped by the passes to its negation with certainty. ErgodicExamples2: alternating orders isolate a configuration of a machine with one observed one. *proved*: C102_forgets_iff, C102_averages, C102_default_prior.
- **C103** When runs forget their start, with random update orders. ErgodicProofs7: averages over orders of compositions of such operators contract as soon as one sequence of orders does. ErgodicProofs8: transfer to infer with prescribed orders, second moments of run averages over the orders, and the converse by a closed class as for C102. *proved*: C103_forgets_iff, C103_averages, C103_compare, C103_not_always.
- **C104** Which models can be fitted to which data. AcceptProofs: every name outside the 39 falls through the tests of canonise_model; construction lemmas of C85, C88, C89 followed by their completion theorems; on three axes the worlds are computed and the first request for a sampling function fails. *proved*: C104_logical, C104_special_matrix, C104_special_tensor, C104_fixed_factors, C104_unknown.
- **C105** Certain and impossible priors. Extended.v repeats the samplers over floats with infinities and NaN; ExtendedProofs shows agreement with Sampling.v on finite values, then evaluates the flip at plus infinity, minus infinity and NaN and carries it through the loop. *partial*: C105_agree, C105_certain_priors, C105_out_of_range, C105_rejected_refuted.
- **C106** Infinite dispersions are the noise-free limit. ExtendedProofs: the score is half the change in agreement (C07, C08); its sign decides the flip, a zero score gives NaN and keeps the entry; induction over the cells. Refuted by a one-entry layer. *partial*: C106_greedy_2d, C106_greedy_3d, C106_noise_free_parent, C106_conflict, C106_limit_refuted.
- **C107** Missing entries of data that are not fixed are imputed. ImputeProofs: a zero takes the last branch of the flip, where both results are zero; the logits do not depend on the matrix itself, so the loop is pointwise; the closure installed for a matrix without layer and the arguments it reads are followed through Dispatch. Refuted by a one-entry machine. *partial*: C107_zero_stays, C107_one_layer, C107_two_layers, C107_imputed_refuted.
- **C108** Relevance of the dimensions of a MaxMachine. RelevanceProofs: what the inner loop credits to a dimension is decided by being active and exceeded by no active one; induction over dimensions and samples; with distinct dispersions exactly one dimension is credited per explained one. Refuted by one-entry traces. *partial*: C108_value, C108_total, C108_ties_refuted, C108_clamped, C108_total_refuted, C108_available_refuted.
- **C109** The interface to DBTF. Dbtf.v models dbtf_reconstruct with the external program as an arbitrary function from the tensor file and the old factor files to new ones; np.loadtxt with its collapse of one-line files; negative indices count from the end. DbtfProofs characterises the result cell by cell. *partial*: C109_written, C109_product_partial, C109_single, C109_single_refuted, C109_range, C109_stale_refuted.
- **C110** Pictures show frequencies. Show.v models show and the array arithmetic of plot_matrix up to the array given to imshow. ShowProofs relates the entries to the frequencies of the trace. *partial*: C110_mean_partial, C110_mean_refuted, C110_map, C110_map_refuted, C110_state, C110_missing, C110_other.
- **C111** Layers added between two calls of infer. GrownProofs: add_layer keeps all objects and closures (`grown`); a closure made earlier computes the same sweep in the grown machine; GrownExamples gives a machine where one draw separates the two posteriors. *partial*: C111_added, C111_cached, C111_stale, C111_refuted.
- **C112** Clean-up during inference keeps the machine together. SpecTidy: machines built as in C72-C77 with clean-up flags on layers that carry no other layer (`tidying`), and what a run does (`tidily`: C77 with `tidied` steps). TidyProofs: all methods commute with switching the flags off (`unflagged`). TidyProofs2: a clean-up changes the values of one layer's factors only (`touched`), keeps the invariant `sound` (`revalued`) and is a `tidied` step by C34. TidyProofs3-4: induction over the run with `infer_log_clean`; completion with `enough`. TidyProofs5: sizes by induction over `tidily`; the mismatch after a removal below another layer. *partial*: C112_completes, C112_well_formed, C112_explained, C112_sizes, C112_stacked, C112_refuted.
- **C113** Parallel counting and filling do not depend on the schedule. ParallelReduce.v: small-step model of the parallel loops (workers with positions left and their own int64 counter; one shared array). Counting: the sum of counters and of hits still to come is invariant modulo 2^64. Filling: every position is still to come or already has its value. Both for every schedule that ends; C113_completes gives the schedules that do. Linked to the sequential loops of Lambda.v, Outputs.v and Fuzzy.v and through C18 and C42 to the number of correct predictions. *proved*: C113_reduction, C113_completes, C113_counter_2d, C113_counter_3d, C113_counter_qL, C113_outputs_2d, C113_outputs_3d, C113_fuzzy_2d, C113_fuzzy_3d.
- **C114** Fuzzy outputs in double precision are probabilities. FloatFuzzy.v: the sixteen functions over an abstract arithmetic; with exact operations they are definitionally those of Fuzzy.v, with every operation rounded to nearest even (Flocq's FLT format, emin -1074, 53 bits) they are the compiled code. C114_rounding ties the rounding to an elementary definition of a double. Error bounds by propagation through the loops; ranges by monotonicity of rounding (Sterbenz-like argument for x + (1 - x)); XOR outputs cannot pass 1 because a sum near 1 has one dominant term and all others together are absorbed by rounding; the counterexample by tracing all roundings as integers times 2^-54. *partial*: C114_rounding, C114_error_2d, C114_error_3d, C114_range_2d, C114_range_3d_partial, C114_certain_2d, C114_certain_3d, C114_refuted.
- **C115** Means, decisions and probabilities of samples in double precision. Sums of at most 2^53 samples are exact integers; one rounded division keeps sign, the bounds and the extreme values (parity: a mean below 1 is below 1 - 2/T). The output bound adds the Lipschitz constant 1 of the probability in every entry (expectation over independent bits). *proved*: C115_mean, C115_map, C115_prob, C115_factor_mean_2d, C115_factor_mean_3d.
- **C116** Updates of factors in double precision stay close to the exact sampler. FloatSampling.v: the sampling loops with every operation rounded, exponential function as parameter; SpecFloatRun.v: draws on the grid of 2^-53, closeness of updates as total variation. The loop is a sequence of flips with acceptance probabilities; the rounded log-odds have a relative and an absolute error, which exp turns into an absolute error of the acceptance probability (t exp(-t) is bounded); the grid adds one 2^-53 per entry; a coupling-free induction over the entries adds up the errors. Near invariance from C14 and uniqueness of the expectations. *proved*: C116_update_2d, C116_update_3d, C116_update_parent, C116_update_child_parent, C116_update_child_two_parents, C116_update_two_parents, C116_posterior_2d, C116_posterior_3d, C116_posterior_parent, C116_rounds, C116_safe_2d, C116_safe_3d.
- **C117** Rare changes are made about as often as they should be. One entry, one data point, dispersion 100: the exact expectation is exp(-100), the grid mean has the term of the draw 0. *partial*: C117_refuted.
- **C118** The dispersion update in double precision. FloatLambda.v: the formula with five roundings. Relative error of the quotient, absolute error of the difference with 1, relative error of that by the prior's lower bound on it, then ln y - ln x between 1 - x/y and y/x - 1. The optimum is the one of C17, which is unique because sigma is increasing. Never NaN by monotonicity of rounding. *partial*: C118_update_2d, C118_update_3d, C118_update_qL, C118_default, C118_never_nan, C118_refuted.
- **C119** Passes over a whole machine in double precision stay close to the posterior. FloatMachine.v: the closures of Dispatch.v on top of FloatSampling.v. Each closure of an ordinary machine is paired with its exact twin (C116 bounds, by kind of factor); the exact twin draws from the conditional of the joint posterior (C78), so the sum over all configurations is preserved up to the error (the sums of C80); induction over the updates. *proved*: C119, C119_passes, C119_safe, C119_unobserved.
- **C120** Long runs in double precision stay close to the posterior from any start. The update in double precision is close to the exact one from every configuration (C119), the exact one is a sequence of single-entry flips (C100), which is a contraction; so T passes in double precision stay within T times the error of T exact passes, which forget their start (C102). What happened before the last T passes only chooses the configuration they start from. *proved*: C120, C120_samples.
- **C121** Averages over long runs in double precision approach posterior averages. The mean of the square of the sum of n centred quantities grows by at most 1 + 2 (T + n delta) per pass, because the expected sum of the later ones is small by C120; divided by n squared. *proved*: C121.
- **C122** Random orders in double precision: linked machines approach the posterior. One pass in a random order is a linear, monotone operator that keeps constants. T such passes in double precision are within T times the error of T exact ones, which forget their start (C103); earlier passes only choose where the last T start. Mean squares as in C121, for any such operator. *proved*: C122, C122_averages.
- **C123** intersect_dataframes returns the common part of two tables. Sorted lists with the same counts are equal; selecting a column label selects it as often as it occurs; entries are followed through the row filter, the column selection and the sort as a relation between labels and entries. *partial*: C123_refuted, C123_partial.
- **C124** qL-AND updates in double precision stay close to the exact ones. Both updates are the general loops of C116 with integer log-odds and no fixed entries, so each entry adds 3 roundings; the exact update preserves the posterior at dispersion 1 (C44). *proved*: C124_update, C124_posterior.
- **C125** Rounding does not change the greedy order of MAX-AND dispersions. Two different fractions below 1 with denominators at most the square root of 2^53 differ by more than two half units in the last place, so rounding keeps every comparison; hence every argmax, the masks, the counts and the final minimum are those of the exact update (C40). *proved*: C125_dispersions, C125_bound_needed.
- **C126** MAX-AND dispersions in double precision are close to the exact ones for data of any size. One column of 2^27 + 1 ones, one dimension that explains all of them and one before it that misses the last: (2^27+1)/(2^27+2) and (2^27+2)/(2^27+3) have the same nearest double, so argmax returns the first. The counts are computed for a symbolic number of rows. *partial*: C126_refuted, C126_partial.
