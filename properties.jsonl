{"id": "C01", "title": "Two-factor outputs mean what the model name says", "statement": "For each of the eight implemented models, the deterministic output for two {-1,1} vectors of equal length is 1 exactly when OUTER over the latent dimensions of INNER over the two entries is true (XOR = exactly one), and -1 otherwise.", "quantifier": "every implemented model, every latent size L, every pair of {-1,1} vectors of length L", "why_tests_cant": "The test suite samples ten random vectors at L=3; the early-exit loops must be right for every length and every vector.", "anchors": ["lom/_numba/lom_outputs.py: OR_AND_product .. XOR_NAND_product", "lom/_numba/lambda_updates_numba.py: get_scalar_output_function_2d, make_output_function_2d"]}
{"id": "C02", "title": "Three-factor outputs mean what the model name says", "statement": "For each of the eight implemented models, the deterministic three-factor output is 1 exactly when OUTER over latent dimensions of INNER over the three entries is true, where XOR of three entries means exactly one of them is 1, and -1 otherwise.", "quantifier": "every implemented model, every L, every triple of {-1,1} vectors of length L", "why_tests_cant": "Encodings such as u+z+v == -1 must be right for all 8^L inputs at every L.", "anchors": ["lom/_numba/lom_outputs.py: OR_AND_product_3d .. XOR_NAND_product_3d", "lom/_numba/lambda_updates_numba.py: get_scalar_output_function_3d, make_output_function_3d"]}
{"id": "C03", "title": "lom_generate_data implements all 36 operator machines for any arity", "statement": "lom_generate_data(factors, 'OUTER-INNER') returns an array whose shape is the list of row counts of the factors and whose entry at (i1..iK) is 1 exactly when OUTER over l of INNER over k of [factor_k[i_k,l]==1] holds, else -1.", "quantifier": "every pair of the six operators, every number of factors K>=1, every L, all factor matrices", "why_tests_cant": "The arity, sizes and contents are unbounded; tests try K=2,3 and L=3 for eight models.", "anchors": ["lom/auxiliary_functions.py: lom_generate_data, get_lop"]}
{"id": "C04", "title": "Fast and generic data generation agree", "statement": "lom_generate_data_fast(factors, model) (fuzzy=False) returns the same array as lom_generate_data(factors, model).", "quantifier": "every one of the 36 models, every number of factors, every {-1,1} factor matrices", "why_tests_cant": "Agreement of two implementations is an equation between functions on an infinite domain.", "anchors": ["lom/auxiliary_functions.py: lom_generate_data_fast, lom_generate_data, implemented_loms"]}
{"id": "C05", "title": "Canonicalisation of a model preserves its meaning", "statement": "For every model name, canonise_model returns an implemented model and two inversion flags such that the requested model's output on any factors equals the canonical model's output on the factors (negated if the factor flag is set), negated if the data flag is set; hence the data the layer is fitted to agrees with the canonical output exactly where the user's data agrees with the requested model.", "quantifier": "all 36 operator pairs, every arity, every L, all {-1,1} factors", "why_tests_cant": "36 table rows times all inputs of all sizes; a wrong flag in one row is invisible unless that row is exercised on a distinguishing input.", "anchors": ["lom/auxiliary_functions.py: canonise_model, replace_equivalent_model"]}
{"id": "C06", "title": "Adding a layer negates the child data exactly when it says so", "statement": "A successful add_layer on an existing child leaves the child's stored values unchanged when layer.invert_data is False and multiplies every entry by -1 (missing entries stay 0) when it is True; the values of all other matrices are unchanged, and the new factors have shapes (dim_i, latent_size) with entries in {-1,1}.", "quantifier": "every machine, every child matrix, every model, every latent size", "why_tests_cant": "Side effects on shared arrays must be excluded for every machine state and model.", "anchors": ["lom/machine.py: Machine.add_layer, MachineMatrix.__init__", "lom/auxiliary_functions.py: canonise_model"]}
{"id": "C07", "title": "Two-factor posterior scores count exactly the explanations gained", "statement": "The score used to update entry l of a row is the sum over observed data points of x * (output with the entry set to 1 - output with the entry set to -1)/2, i.e. newly correct minus newly incorrect predictions; missing data (0) contribute nothing.", "quantifier": "every implemented two-factor model, every L, every position l, all {-1,1} factors, every data row with at most 32767 entries", "why_tests_cant": "The explaining-away loops with early breaks must be right for every position and every combination of the other dimensions.", "anchors": ["lom/_numba/posterior_score_fcts.py: posterior_score_*_2D"]}
{"id": "C08", "title": "Three-factor posterior scores count exactly the explanations gained", "statement": "Same as C07 for the three-factor models: the score is the sum over (d,m) of x[d,m] * (output with the entry at 1 - output with the entry at -1)/2.", "quantifier": "every implemented three-factor model, every L, every position l, all sizes", "why_tests_cant": "As C07; the loops range over a product of two unbounded dimensions.", "anchors": ["lom/_numba/posterior_score_fcts.py: posterior_score_*_3D"]}
{"id": "C09", "title": "Scores are exact for data of any size", "statement": "The two-factor score equals the exact integer count of C07 no matter how many data points a row or column has.", "quantifier": "every number of data points", "why_tests_cant": "A test would need tens of thousands of aligned data points to hit the 16-bit return type.", "anchors": ["lom/_numba/posterior_score_fcts.py: int16 signatures", "lom/_numba/matrix_updates_numba.py: make_sampling_fct_onechild"]}
{"id": "C10", "title": "The sampler uses the exact conditional log-odds of the model posterior", "statement": "The log-odds used to resample entry (n,l) of a factor equal log P(entry=1 | everything else) - log P(entry=-1 | everything else) under the posterior prod sigma(lambda*x*f) times the i.i.d. Bernoulli prior.", "quantifier": "every implemented model, both factors via transposed data and 2 or 3 factors, every lambda, every prior in (0,1), all sizes (two-factor rows up to 32767 data points), any missing data", "why_tests_cant": "A probabilistic identity over all states; sampling tests cannot distinguish a slightly wrong conditional.", "anchors": ["lom/_numba/matrix_updates_numba.py: make_sampling_fct_onechild", "lom/matrix_update_wrappers.py: get_sampling_fct"]}
{"id": "C11", "title": "Hierarchical layers use the exact conditional log-odds", "statement": "For a two-factor matrix that is itself the child of one parent layer, or of two parent layers of the same model, the log-odds used are exactly those of the joint posterior including the parents' emission probabilities.", "quantifier": "all implemented models for child and parent, all sizes, all states", "why_tests_cant": "As C10.", "anchors": ["lom/_numba/matrix_updates_numba.py: make_sampling_fct_onechild_oneparent, make_sampling_fct_nochild_oneparent, make_sampling_fct_nochild_twoparents, make_sampling_fct_onechild_twoparents"]}
{"id": "C12", "title": "Two parents of different models are both respected", "statement": "When a matrix has two parent layers with different models, each parent's contribution to the log-odds is computed with that parent's own model.", "quantifier": "all pairs of parent models", "why_tests_cant": "Needs a differing pair of models and a distinguishing state.", "anchors": ["lom/_numba/matrix_updates_numba.py: make_sampling_fct_nochild_twoparents, make_sampling_fct_onechild_twoparents"]}
{"id": "C13", "title": "A single flip is a correct Metropolised-Gibbs move", "statement": "Given logit L and current z in {-1,1}, the new value is z or -z; the set of uniform draws that flips z is [0,a) with a = min(1, exp(-z*L)); the move satisfies detailed balance with respect to P(z=1)=sigma(L); the exponential is only ever evaluated at non-positive arguments; the probability-based variant makes the same decision for every draw; the plain Gibbs flip returns 1 with probability exactly p.", "quantifier": "every real logit, every z, every uniform draw in [0,1)", "why_tests_cant": "Statement about all reals and about the measure of a set of random draws.", "anchors": ["lom/_numba/matrix_updates_numba.py: flip_metropolised_gibbs_numba, flip_gibbs_numba, flip_metropolised_gibbs_numba_classic"]}
{"id": "C14", "title": "A full sampling sweep leaves the posterior invariant", "statement": "Running one matrix update on a factor drawn from the posterior (given data, other factors, lambda, prior and fixed entries) with independent uniform draws yields a factor distributed according to the same posterior.", "quantifier": "every implemented model with 2 or 3 factors, all sizes, all fixed-entry masks, every lambda and prior", "why_tests_cant": "Invariance of a distribution over an exponentially large state space cannot be sampled exhaustively.", "anchors": ["lom/_numba/matrix_updates_numba.py: make_sampling_fct_onechild, flip_metropolised_gibbs_numba"]}
{"id": "C15", "title": "Factor updates keep entries in {-1,1}, shapes, and fixed entries", "statement": "After a standard matrix update the updated factor has the same shape, all entries are in {-1,1}, every entry flagged 1 in fixed_entries is unchanged, and sibling factors, parents and data are untouched.", "quantifier": "every model dispatched to the standard samplers, every state, every sequence of random draws", "why_tests_cant": "Must hold for every stream of random numbers.", "anchors": ["lom/_numba/matrix_updates_numba.py: make_sampling_fct_*", "lom/matrix_update_wrappers.py: get_sampling_fct"]}
{"id": "C16", "title": "Parallel row updates are schedule independent", "statement": "Because rows are updated in a parallel loop, the resulting factor must not depend on how the row updates are interleaved, given the random draw consumed at each cell.", "quantifier": "every interleaving of the per-row computations, every number of rows/threads", "why_tests_cant": "Thread schedules cannot be enumerated by tests.", "anchors": ["lom/_numba/matrix_updates_numba.py: prange loops in make_sampling_fct_*"]}
{"id": "C17", "title": "The dispersion update is the regularised optimum", "statement": "After a dispersion update lambda >= 0 and sigma(lambda) = max(1/2, (P+alpha)/(ND+alpha+beta)) where P is the number of correct predictions and ND the number of observed data points; this lambda maximises (P+alpha) log sigma(lambda) + (ND-P+beta) log sigma(-lambda) over lambda >= 0; the logarithm's argument is always positive.", "quantifier": "every data set, every factor state, every beta prior with alpha, beta > 0", "why_tests_cant": "Optimality over all reals for all states.", "anchors": ["lom/_numba/lambda_updates_numba.py: make_lbda_update_fct, make_correct_predictions_counter"]}
{"id": "C18", "title": "Correct-prediction counting ignores missing data and matches the likelihood", "statement": "The counter returns the number of data points equal to the deterministic output; missing points (0) are never counted, so it is at most ND; and the data log-likelihood equals P log sigma(lambda) + (ND-P) log sigma(-lambda) + (missing) log(1/2).", "quantifier": "all implemented models, 2 and 3 factors, all sizes, data in {-1,0,1}", "why_tests_cant": "Unbounded sizes and arbitrary missingness patterns.", "anchors": ["lom/_numba/lambda_updates_numba.py: make_correct_predictions_counter"]}
{"id": "C19", "title": "Two-factor fuzzy outputs are exact probabilities", "statement": "For probability vectors z,u the fuzzy output is the probability that the Boolean output is 1 when all entries are independent Bernoulli variables; hence it lies in [0,1] and equals the crisp output on 0/1 inputs.", "quantifier": "all eight models, every L, all probability vectors", "why_tests_cant": "An identity between a closed form and a sum over 4^L assignments.", "anchors": ["lom/_numba/lom_outputs_fuzzy.py: *_product_fuzzy", "lom/_numba/lambda_updates_numba.py: get_scalar_output_function_2d(fuzzy=True)"]}
{"id": "C20", "title": "Three-factor fuzzy outputs are exact probabilities", "statement": "As C19 for three probability vectors.", "quantifier": "all eight models, every L, all probability vectors", "why_tests_cant": "Tests only cover the two-factor fuzzy functions.", "anchors": ["lom/_numba/lom_outputs_fuzzy.py: *_product_fuzzy_3d, p_XOR_fuzzy_3d"]}
{"id": "C21", "title": "Generic fuzzy generation returns expected outputs", "statement": "lom_generate_data_fuzzy on factor means in [-1,1] returns, at every index, the expectation of the {-1,1} output when every factor entry is an independent sign with that mean; values lie in [-1,1].", "quantifier": "all 36 models, every arity and size", "why_tests_cant": "As C19 for unbounded arity.", "anchors": ["lom/auxiliary_functions.py: lom_generate_data_fuzzy, get_fuzzy_lop"]}
{"id": "C22", "title": "layer.output returns probabilities of emitting a one", "statement": "Every technique of layer.output (default arguments) returns values in [0,1], as its docstring promises.", "quantifier": "every model, technique, number of factors and trace", "why_tests_cant": "Each (model, technique, arity) combination takes a different code path over unbounded data.", "anchors": ["lom/machine.py: MachineLayer.output"]}
{"id": "C23", "title": "Monte-Carlo output is the fraction of samples predicting one", "statement": "output('mc') at an entry is the fraction of saved samples whose deterministic output is 1; output('point_estimate') is 1/0 according to the current state; output('factor_map') thresholds posterior means at 0; set_to_map stores the same thresholded signs.", "quantifier": "every trace length T>=1, all sizes, all implemented models", "why_tests_cant": "Unbounded traces.", "anchors": ["lom/machine.py: MachineLayer.output, MachineMatrix.set_to_map, Trace.mean"]}
{"id": "C24", "title": "Noisy emission mixes with the dispersion", "statement": "With noisy_emission=True an output probability p becomes p*sigma(lambda)+(1-p)*sigma(-lambda), which lies between sigma(-|lambda|) and sigma(|lambda|) and is monotone in p for lambda >= 0; it is the probability of observing a one after flipping each output bit with probability sigma(-lambda).", "quantifier": "every probability p in [0,1], every real lambda", "why_tests_cant": "Statement about all reals.", "anchors": ["lom/machine.py: MachineLayer.output (lines 439-442)"]}
{"id": "C25", "title": "The trace holds exactly the requested samples in order", "statement": "After infer(no_samples=S) every non-fixed matrix and lambda has a trace of length S whose t-th slice is the value after the t-th sampling sweep, trace_index equals S, no write is out of bounds, and the last slice equals the current value.", "quantifier": "every S >= 0, every machine, all random draws, any number of earlier infer calls", "why_tests_cant": "History property over arbitrary many sweeps and repeated calls.", "anchors": ["lom/machine.py: Trace.allocate_trace_arrays, Trace.update_trace, Machine.infer"]}
{"id": "C26", "title": "Burn-in terminates with a bounded number of sweeps", "statement": "For burn_in_min >= 0 and a positive window, burn-in always stops; it performs exactly burn_in_min sweeps without convergence checks and in total at most max(burn_in_min, burn_in_max) sweeps; fewer only if convergence was detected with no clean-up pending.", "quantifier": "all settings, all convergence verdicts and clean-up outcomes at each check", "why_tests_cant": "Termination over every run and every sequence of check outcomes.", "anchors": ["lom/machine.py: Machine.burn_in"]}
{"id": "C27", "title": "Convergence checks only look at recorded dispersion values", "statement": "Every burn-in convergence check compares the two halves of a window in which every entry was written by a dispersion update of this run; writes to the window never run out of bounds.", "quantifier": "every window size >= 1, every run", "why_tests_cant": "Depends on index bookkeeping over unbounded runs and on uninitialised memory contents.", "anchors": ["lom/machine.py: Machine.burn_in, Trace.check_convergence", "lom/auxiliary_functions.py: check_convergence_single_trace"]}
{"id": "C28", "title": "burn_in_iters reports the number of burn-in iterations", "statement": "After burn-in, machine.burn_in_iters is the total number of burn-in iterations (pre-burn-in plus monitored), irrespective of how burn-in ended.", "quantifier": "every run", "why_tests_cant": "The two exit paths must agree for all settings.", "anchors": ["lom/machine.py: Machine.burn_in lines 649, 664"]}
{"id": "C29", "title": "Annealing ends at the target dispersion", "statement": "With anneal=True the dispersion is raised in equal steps during pre-burn-in and its value at the last annealing step is the initially given target value; lookup in the schedule is always in range.", "quantifier": "every target lambda > 0 and every burn_in_min >= 1", "why_tests_cant": "Schedule arithmetic for every length.", "anchors": ["lom/machine.py: Machine.burn_in lines 585-601"]}
{"id": "C30", "title": "infer never changes what is declared fixed", "statement": "Matrices with fixed=True and dispersions with fixed=True have the same value after infer as before, and the data child of a layer is never written.", "quantifier": "every machine, every model, every setting, all random draws", "why_tests_cant": "Must hold for every run and every model's sampler.", "anchors": ["lom/machine.py: Machine.infer", "lom/matrix_update_wrappers.py: get_sampling_fct", "lom/auxiliary_functions.py: clean_up_codes"]}
{"id": "C31", "title": "Removing or resetting inactive latent dimensions does not change the prediction", "statement": "If some factor's column l is all -1 then deleting that latent dimension from all factors, or resetting it to -1 in all factors, leaves every output of the OR-AND and XOR-AND models unchanged.", "quantifier": "every number of factors, every size, every inactive dimension", "why_tests_cant": "Unbounded shapes.", "anchors": ["lom/auxiliary_functions.py: remove_dimension, reset_dimension, clean_up_codes"]}
{"id": "C32", "title": "clean_up_codes removes every inactive dimension", "statement": "After clean_up_codes(layer, reset=False, clean=True) no latent dimension has an all -1 column in any factor, and no two dimensions are duplicates.", "quantifier": "every layer", "why_tests_cant": "Needs adjacent inactive dimensions, absent from tests.", "anchors": ["lom/auxiliary_functions.py: clean_up_codes"]}
{"id": "C33", "title": "clean_up_codes preserves the layer's prediction", "statement": "Removing redundant or all-zero dimensions does not change the deterministic output of an OR-AND layer.", "quantifier": "every layer", "why_tests_cant": "Needs a distinguishing state.", "anchors": ["lom/auxiliary_functions.py: clean_up_codes"]}
{"id": "C34", "title": "clean_up_codes terminates, reports honestly and keeps factors aligned", "statement": "clean_up_codes always terminates; it returns True iff it applied at least one action; when it returns False nothing changed; row counts never change; all factors keep a common number of columns, which never increases; with clean each remaining column is an original column (same column index in all factors, in the original order).", "quantifier": "every layer with any number of factors", "why_tests_cant": "A while loop over a shrinking structure.", "anchors": ["lom/auxiliary_functions.py: clean_up_codes, remove_dimension, reset_dimension"]}
{"id": "C35", "title": "Changing the latent size keeps per-entry bookkeeping aligned", "statement": "After latent dimensions are removed or added, fixed_entries still has the factor's shape and flags the same entries, and MAX-AND dispersions still has one value per dimension plus the clamped unit.", "quantifier": "every layer and every removal", "why_tests_cant": "State invariant across histories.", "anchors": ["lom/auxiliary_functions.py: remove_dimension", "lom/_numba/matrix_updates_numba.py: sample_2d_IBP", "lom/machine.py: MachineMatrix.fixed_entries"]}
{"id": "C36", "title": "IBP update keeps the factorisation well-formed", "statement": "After an IBP update both factors have the same number of columns, row counts are unchanged, all entries are in {-1,1}, at most 2 columns per data row were added, and every remaining column has at least one active object.", "quantifier": "every data set, lambda, concentration and prior, all random draws", "why_tests_cant": "Dynamic column addition/removal across arbitrarily many rows.", "anchors": ["lom/_numba/matrix_updates_numba.py: sample_2d_IBP", "lom/matrix_update_wrappers.py: IBP_sampler"]}
{"id": "C37", "title": "IBP new-dish likelihood is the marginal likelihood", "statement": "The precomputed log factors for k new dishes equal the log-probability of an uncovered 1 (resp. -1) after integrating out k new feature bits with the feature prior P(u=1)=bernoulli_prior.", "quantifier": "every lambda, every prior in (0,1), k = 0,1,2", "why_tests_cant": "An analytic identity.", "anchors": ["lom/_numba/matrix_updates_numba.py: sample_2d_IBP lines 405-408"]}
{"id": "C38", "title": "IBP new-dish prior is Poisson", "statement": "The log prior weights of k new dishes are, up to a common constant, those of a Poisson(alpha/N) distribution.", "quantifier": "every alpha, N, L", "why_tests_cant": "An analytic identity depending on the current latent size.", "anchors": ["lom/_numba/matrix_updates_numba.py: sample_2d_IBP lines 453-456"]}
{"id": "C39", "title": "MAX-AND output is the maximum over active dispersions", "statement": "The MAX-AND product at (n,d) equals the largest dispersion among latent dimensions active in both factors and the clamped dispersion if none is active.", "quantifier": "all sizes, all factor states, all dispersions in (0,1)", "why_tests_cant": "Order of ties and sorting over arbitrary dispersions.", "anchors": ["lom/_numba/lom_outputs.py: MAX_AND_product_2d, OR_AND_product_expand"]}
{"id": "C40", "title": "MAX-AND dispersion update yields valid, clamped-minimal rates", "statement": "After the update every dispersion lies strictly in (0,1), the last (clamped) one is the minimum, each latent dimension is assigned exactly once with the Laplace-smoothed precision on the data points it explains that no earlier-assigned dimension explains, and the cached log-ratio tables are antisymmetric and agree with the new dispersions.", "quantifier": "all data, all factor states", "why_tests_cant": "Greedy loop with index juggling over shrinking lists.", "anchors": ["lom/_numba/max_machine_sampler.py: lbda_MAX_AND, compute_lbda_ratios"]}
{"id": "C41", "title": "MAX-AND entry update uses the conditional log-odds", "statement": "The log-odds used to update entry (n,l) in the MAX-AND model equal the exact conditional log-odds under the MaxMachine likelihood for every ordering of the dispersions.", "quantifier": "all states, all dispersions", "why_tests_cant": "Needs an unsorted dispersion vector.", "anchors": ["lom/_numba/max_machine_sampler.py: posterior_score_MAX_AND_2D, draw_MAX_AND_2D", "lom/matrix_update_wrappers.py: MAX_AND_2D"]}
{"id": "C42", "title": "qL-AND output thresholds the number of active sources", "statement": "The qL-AND output is 1 iff at least q latent dimensions are active in both factors, for q >= 1.", "quantifier": "all L, all vectors, all q >= 1", "why_tests_cant": "Early-return loop over unbounded vectors.", "anchors": ["lom/_numba/lom_outputs.py: qL_AND_product"]}
{"id": "C43", "title": "qL-AND updates use exact scores", "statement": "The qL-AND score of an entry is the sum over data of x*(output with entry 1 - output with entry -1)/2, for both factors and per-feature thresholds q>=1.", "quantifier": "all sizes (up to 32767 data points), all states, all thresholds", "why_tests_cant": "As C07.", "anchors": ["lom/_numba/matrix_updates_numba.py: posterior_score_fct_qL_Z, posterior_score_fct_qL_U"]}
{"id": "C44", "title": "qL-AND updates respect lambda, priors and fixed entries", "statement": "The qL-AND factor update uses log-odds lambda*score + prior and leaves entries flagged in fixed_entries unchanged, like every other model.", "quantifier": "all states", "why_tests_cant": "Needs a fixed entry or a non-unit lambda and a distinguishing draw.", "anchors": ["lom/_numba/matrix_updates_numba.py: sample_qL_factors_Z, sample_qL_factors_U"]}
{"id": "C45", "title": "Categorical draws follow the given probabilities", "statement": "random_choice(p) returns an index in 1..len(p) whenever the probabilities sum to one, and returns i exactly for draws in an interval of length p[i-1].", "quantifier": "every probability vector, every draw in [0,1)", "why_tests_cant": "Statement about all draws.", "anchors": ["lom/_numba/matrix_updates_numba.py: random_choice"]}
{"id": "C46", "title": "Train/test splitting hides only observed entries", "statement": "split_train_test returns a boolean mask contained in the observed entries; the training tensor is 0 on the mask and equals the input elsewhere; the input is not modified; in balanced mode exactly S ones and S minus-ones are hidden, S = int(observed*split/2).", "quantifier": "every tensor with missing data, every split, every random draw", "why_tests_cant": "Random selection over arbitrary tensors.", "anchors": ["lom/experiments.py: split_train_test"]}
{"id": "C47", "title": "split_test_train hides the same number of positives and negatives", "statement": "On {-1,1} (or {0,1}) data split_test_train returns a copy in {-1,1} coding in which exactly int(size*p/2) ones and as many minus-ones are set to 0 and all other entries are unchanged; the input is not modified.", "quantifier": "every matrix, every p for which enough entries exist, every draw", "why_tests_cant": "Random selection over arbitrary matrices.", "anchors": ["lom/auxiliary_functions.py: split_test_train"]}
{"id": "C48", "title": "Bernoulli noise only flips signs of observed entries", "statement": "add_bernoulli_noise_2d / _biased / 3D return an array of the same shape in which every entry is the original or its negation, missing entries stay missing, p=0 changes nothing, p>=1 negates everything; the entry flips iff its draw is below p (p_plus for ones, p_minus for minus ones); the input is not modified.", "quantifier": "every array, every p, every draw sequence", "why_tests_cant": "All draw sequences.", "anchors": ["lom/auxiliary_functions.py: add_bernoulli_noise, add_bernoulli_noise_2d, add_bernoulli_noise_2d_biased"]}
{"id": "C49", "title": "Passing a seed makes noise reproducible", "statement": "Calling add_bernoulli_noise_2d twice with the same seed gives the same result irrespective of the global generator state.", "quantifier": "every input, seed and generator state", "why_tests_cant": "Depends on hidden global state.", "anchors": ["lom/auxiliary_functions.py: add_bernoulli_noise_2d, add_bernoulli_noise_2d_biased"]}
{"id": "C50", "title": "Binary recoding is idempotent and correct", "statement": "check_binary_coding maps 0/1 data to -1/1, leaves data containing -1 unchanged, and applying it twice equals applying it once on 0/1 data.", "quantifier": "every array", "why_tests_cant": "All arrays.", "anchors": ["lom/auxiliary_functions.py: check_binary_coding"]}
{"id": "C51", "title": "Boolean tensor product is the Boolean tensor product", "statement": "boolean_tensor_product(Z,U,V)[n,d,m] is True iff some l has Z[n,l], U[d,l], V[m,l] all True, and equals the three-factor OR-AND output under the {-1,1} coding; mismatching latent sizes are rejected.", "quantifier": "all Boolean matrices", "why_tests_cant": "Unbounded sizes.", "anchors": ["lom/auxiliary_functions.py: boolean_tensor_product"]}
{"id": "C52", "title": "expected_density is the true expected density", "statement": "expected_density(model,L,K,f) equals the probability that the model's output is 1 when all L*K factor entries are independent Bernoulli(f).", "quantifier": "all 36 models, L >= 1, K >= 1, f in [0,1]", "why_tests_cant": "A closed form against a sum over 2^(LK) states; the test only prints on failure.", "anchors": ["lom/auxiliary_functions.py: expected_density, get_lom_class"]}
{"id": "C53", "title": "get_lom_class inversion triples are correct", "statement": "For every model, the class and inversion triple (outer, hidden, inner) returned by get_lom_class reproduce the model's output: inverting the factors, the inner results and the outer result of the class as instructed gives the requested model.", "quantifier": "all 36 models, every arity and size", "why_tests_cant": "36 table rows times all inputs.", "anchors": ["lom/auxiliary_functions.py: get_lom_class"]}
{"id": "C54", "title": "unique_ordered removes duplicates keeping first occurrences", "statement": "unique_ordered(seq) has no duplicates, the same elements as seq, and orders them by first occurrence.", "quantifier": "every sequence", "why_tests_cant": "All sequences.", "anchors": ["lom/auxiliary_functions.py: unique_ordered"]}
{"id": "C55", "title": "all_columsn_are_disjoint tests disjointness", "statement": "all_columsn_are_disjoint(mat) returns True iff no row has a 1 in two different columns.", "quantifier": "every matrix", "why_tests_cant": "Needs an overlapping pair that is not nested.", "anchors": ["lom/auxiliary_functions.py: all_columsn_are_disjoint"]}
{"id": "C56", "title": "compute_bp returns N log-odds", "statement": "compute_bp(q,n,N) returns an array of length N with the binomial log-odds for k<n and -inf beyond.", "quantifier": "every n, N", "why_tests_cant": "Length arithmetic for all n, N.", "anchors": ["lom/auxiliary_functions.py: compute_bp"]}
{"id": "C57", "title": "A failed add_layer has no effect", "statement": "If add_layer raises, the machine and the child data are as before; and a layer can be created from a shape for every model.", "quantifier": "every machine, model and argument combination", "why_tests_cant": "Error paths in every state.", "anchors": ["lom/machine.py: Machine.add_layer", "lom/auxiliary_functions.py: canonise_model"]}
{"id": "C58", "title": "Settings changed between infer calls take effect", "statement": "A change of a factor's bernoulli_prior, fixed_entries, data, siblings or lambda between two infer calls is used by the next infer call.", "quantifier": "every machine and every sequence of infer calls", "why_tests_cant": "History property.", "anchors": ["lom/matrix_update_wrappers.py: get_sampling_fct (line 20)", "lom/machine.py: Machine.infer"]}
{"id": "C59", "title": "Unsupported family structures are rejected", "statement": "A matrix with more than two parent layers is rejected with NotImplementedError rather than silently sampled from a different model.", "quantifier": "every family structure", "why_tests_cant": "Structure space.", "anchors": ["lom/matrix_update_wrappers.py: get_relatives_models"]}
{"id": "C60", "title": "output leaves the layer unchanged", "statement": "layer.output never changes the layer's model, factors, dispersions or data - also when it raises; only the cached prediction is updated.", "quantifier": "every layer, every technique string", "why_tests_cant": "Error paths.", "anchors": ["lom/machine.py: MachineLayer.output"]}
{"id": "C61", "title": "Lazy output equals the requested output", "statement": "With lazy=True output returns the value the same call with lazy=False would have returned, as long as the state has not changed since the last call.", "quantifier": "every pair of calls", "why_tests_cant": "History property.", "anchors": ["lom/machine.py: MachineLayer.output lines 361-365"]}
{"id": "C62", "title": "Link functions are consistent", "statement": "expit maps reals into (0,1), is strictly increasing, expit(-x)=1-expit(x), logit inverts it, and the fallback logsumexp equals log(sum(exp)).", "quantifier": "all reals, all non-empty lists", "why_tests_cant": "All reals.", "anchors": ["lom/auxiliary_functions.py: expit, logit, logsumexp"]}
{"id": "C63", "title": "Each sweep updates every non-fixed matrix exactly once", "statement": "In every sweep of burn-in and sampling each non-fixed member (layer factors, free matrices, qL thresholds) is updated exactly once, in some order, and each non-fixed dispersion exactly once afterwards (not during the first fix_lbda_iters pre-burn-in sweeps).", "quantifier": "every machine, every random permutation", "why_tests_cant": "All permutations and runs.", "anchors": ["lom/machine.py: Machine.members, Machine.burn_in, Machine.infer"]}
{"id": "C64", "title": "An unfixed data matrix can be inferred", "statement": "A machine whose top-level matrix is not fixed (e.g. to impute data from parents) can be run through infer without error.", "quantifier": "every such machine", "why_tests_cant": "Needs a configuration outside the tests.", "anchors": ["lom/machine.py: Machine.infer line 726"]}
{"id": "C65", "title": "canonical_loms lists a complete, irredundant set of representatives", "statement": "Every one of the 36 operator machines equals, up to inversion of the data and of all factors, exactly one machine of canonical_loms(level='clans') and, up to inversion of the factors only, exactly one machine of canonical_loms(level='families'), in both modes.", "quantifier": "all 36 machines, both levels and modes, all factors, arities and latent sizes", "why_tests_cant": "Equivalence of machines is a statement about all factors of all sizes; irredundancy is a statement about all pairs.", "anchors": ["lom/auxiliary_functions.py: canonical_loms"]}
{"id": "C66", "title": "compute_bbp returns beta-binomial log-odds", "statement": "compute_bbp(n,a,b) returns, for every a,b>0 and every k<n, the log of the ratio of the beta-binomial weights of k+1 and k successes, and -inf at k=n.", "quantifier": "every n, every a,b>0", "why_tests_cant": "a test with a few (a,b) pairs does not cover the singular prior b=1", "anchors": ["lom/auxiliary_functions.py:80-88"]}
{"id": "C67", "title": "qL-AND threshold update draws from its conditional", "statement": "The update of the per-feature thresholds keeps the shape of q and draws each threshold from 1..5 with probability proportional to Poisson(gamma) times the likelihood of the feature's data column under that threshold.", "quantifier": "every state, data, lambda, gamma > 0 and draw", "why_tests_cant": "A distributional statement over unbounded states; no test runs the qL-AND threshold update.", "anchors": ["lom/_numba/matrix_updates_numba.py: sample_qL_q", "lom/matrix_update_wrappers.py: q_sampler"]}
{"id": "C68", "title": "IBP update of existing columns is Gibbs sampling", "statement": "When a row is updated, every column used by m > 0 other rows is redrawn, in order, from its conditional: P(z=1) proportional to (m/N) times the likelihood with z=1, P(z=-1) proportional to (1-m/N) times the likelihood with z=-1.", "quantifier": "every state, data set, dispersion and draw (up to 32767 data columns)", "why_tests_cant": "A statement about exact conditional probabilities in every state.", "anchors": ["lom/_numba/matrix_updates_numba.py: sample_2d_IBP lines 411-430"]}
{"id": "C69", "title": "IBP number of new columns", "statement": "The number of new columns of a row is drawn from {0,1,2} with probability proportional to the Poisson(alpha/N) probability times the marginal likelihood of the row's data.", "quantifier": "every state, data set, dispersion, prior in (0,1), concentration and draw", "why_tests_cant": "A statement about exact conditional probabilities in every state.", "anchors": ["lom/_numba/matrix_updates_numba.py: sample_2d_IBP lines 437-467"]}
{"id": "C70", "title": "IBP features of new columns", "statement": "The feature bits of the new columns are redrawn one by one from their conditional given the data, with the sibling's Bernoulli prior.", "quantifier": "every state, data set, dispersion, prior and draw", "why_tests_cant": "A statement about exact conditional probabilities in every state.", "anchors": ["lom/_numba/matrix_updates_numba.py: sample_2d_IBP lines 469-481"]}
{"id": "C71", "title": "IBP update respects what is fixed", "statement": "An IBP update leaves fixed entries of the updated factor, and a sibling declared fixed, unchanged.", "quantifier": "every state, data set and draw", "why_tests_cant": "Must hold for every state and draw.", "anchors": ["lom/matrix_update_wrappers.py: IBP_sampler lines 108-120", "lom/_numba/matrix_updates_numba.py: sample_2d_IBP"]}
{"id": "C72", "title": "Inference on a machine of standard layers always completes", "statement": "Starting from an empty machine, after any sequence of adding ternary data, adding layers of the eight standard models (also on top of factors of two-factor layers), changing values, priors, dispersions and fixed flags, and earlier calls of infer, a call of infer with usable settings terminates without an exception, and the machine can be used further in the same way.", "quantifier": "every sequence of calls, all sizes, values, models, settings, update orders and random draws", "why_tests_cant": "Unbounded sequences of calls and all random streams cannot be tried.", "anchors": ["lom/machine.py: infer, burn_in, add_layer, add_matrix lines 487-542, 544-775", "lom/matrix_update_wrappers.py: get_sampling_fct lines 11-228"]}
{"id": "C73", "title": "Machines of standard layers stay well-formed", "statement": "In every machine reachable as in C72, each layer has one {-1,1}-valued factor per axis of its data, with the right number of rows and a common latent size, and ternary data; no two matrices share the array of a factor; the parents list of a factor holds exactly the layers whose child it is.", "quantifier": "every reachable machine", "why_tests_cant": "The reachable machines are infinitely many and depend on random draws.", "anchors": ["lom/machine.py lines 187-309, 460-542, 672-775"]}
{"id": "C74", "title": "An update during inference samples from the posterior of the whole machine", "statement": "When a factor of a layer with an implemented two- or three-factor model is updated during inference, every non-fixed entry is redrawn in turn from its exact conditional given the current data, sibling factors, dispersion and, if the factor is itself the child of further layers, the current factors and dispersions of those; nothing but the factor changes.", "quantifier": "every machine, layer, model, family of at most two parents, value, mask and draw", "why_tests_cant": "Quantifies over machines and all states they can be in; the right answer is an exact posterior.", "anchors": ["lom/matrix_update_wrappers.py: get_sampling_fct lines 11-228", "lom/machine.py: siblings, transpose_order lines 257-269"]}
{"id": "C75", "title": "A dispersion update during inference finds the optimum for the current state", "statement": "When the dispersion of a two- or three-factor layer is updated during inference, it becomes the best dispersion (posterior mode) for the current factors and data; nothing else changes.", "quantifier": "every machine, layer, model, value and Beta prior", "why_tests_cant": "Quantifies over machines and states; the right answer is an exact optimum.", "anchors": ["lom/lambda_update_wrappers.py lines 15-31", "lom/_numba/lambda_updates_numba.py lines 229-276"]}
{"id": "C76", "title": "A factor may be declared fixed by an array", "statement": "MachineMatrix accepts fixed as an array of the shape of its value; a machine with such a matrix can be run through infer.", "quantifier": "every machine and array", "why_tests_cant": "Every array of two or more entries must be considered.", "anchors": ["lom/machine.py: MachineMatrix.__init__ lines 236-238", "lom/machine.py: infer line 684"]}
{"id": "C77", "title": "What a whole call of infer does", "statement": "Every change a call of infer makes to the values of a machine of standard layers is one of: a matrix that is not fixed is resampled entry by entry from the joint posterior of all layers of the machine given everything else; a dispersion that is not fixed is set to its optimum for the current state. Fixed matrices, data and all settings stay.", "quantifier": "every machine as in C72, all settings, update orders, draws and numbers of samples", "why_tests_cant": "An end-to-end statement about exact posteriors over all runs.", "anchors": ["lom/machine.py: infer lines 672-775, burn_in lines 544-670", "lom/matrix_update_wrappers.py", "lom/lambda_update_wrappers.py", "lom/_numba/matrix_updates_numba.py"]}
{"id": "C78", "title": "Matrix updates leave the joint posterior of the machine invariant", "statement": "If a factor of a machine of standard layers is distributed according to the joint posterior of the whole machine given everything else and its fixed entries, it has the same distribution after an update with independent uniform draws, also if it is at the same time the data of further layers.", "quantifier": "every machine as in C72, every factor, mask and value", "why_tests_cant": "Invariance of a distribution over an exponentially large state space.", "anchors": ["lom/matrix_update_wrappers.py: get_sampling_fct lines 11-228", "lom/_numba/matrix_updates_numba.py"]}
{"id": "C79", "title": "compute_g counts active sources", "statement": "compute_g adds to g[n,d] the number of latent dimensions in which row n of Z and row d of U are both 1.", "quantifier": "all sizes and values", "why_tests_cant": "The count wraps silently at 128 latent dimensions; tests use few.", "anchors": ["lom/_numba/lom_outputs.py: compute_g lines 14-23"]}
{"id": "C80", "title": "A pass over all factors leaves the joint posterior invariant", "statement": "If the values of any set of factors of a machine of standard layers are jointly distributed according to the posterior of the whole machine given everything else and their fixed entries, they have the same joint distribution after one pass of infer over them (each updated once, in the drawn order, with independent uniform draws).", "quantifier": "every machine as in C72, every set of factors that have update functions, every order, mask and value", "why_tests_cant": "Invariance of a distribution over an exponentially large joint state space.", "anchors": ["lom/machine.py: infer line 737, burn_in lines 579, 668", "lom/matrix_update_wrappers.py: get_sampling_fct lines 11-228", "lom/_numba/matrix_updates_numba.py"]}
{"id": "C81", "title": "Every sample of a run with fixed dispersions is posterior distributed if the start is", "statement": "If the values of the unfixed factors of a machine of standard layers with fixed dispersions are distributed according to the joint posterior given everything else, then after a whole call of infer every recorded sample has that joint distribution, for every setting of the burn-in, number of samples and sequence of update orders.", "quantifier": "every machine as in C72 whose dispersions are fixed, all settings, numbers of samples and update orders", "why_tests_cant": "A statement about the distribution of all recorded samples over whole runs.", "anchors": ["lom/machine.py: infer lines 672-775, burn_in lines 544-670"]}
{"id": "C82", "title": "The fuzzy MAX-AND output is the expected MaxMachine output", "statement": "The factor_mean output of a MAX-AND layer at (n,d) is the expectation of the largest active dispersion (that of unexplained cells if none is active) when the entries of the factors are independent and 1 with their sample frequencies, with the mean dispersions.", "quantifier": "all sizes, frequencies and dispersions", "why_tests_cant": "The expectation ranges over exponentially many states; a wrong order is visible only for particular frequencies.", "anchors": ["lom/_numba/lom_outputs_fuzzy.py: MAX_AND_product_fuzzy lines 206-228", "lom/machine.py: output lines 388-392"]}
{"id": "C83", "title": "Layer outputs after a run summarise the recorded samples", "statement": "After a call of infer for n samples, the output of a layer with technique 'mc' is at every entry the share of the n recorded states in which the formula of its model holds, 'point_estimate' is the formula in the final state, 'factor_map' the formula of the entrywise majority of the recorded states, and 'factor_mean' the probability of the formula under the recorded frequencies of the factor entries; the recorded states are those after the n sampling iterations.", "quantifier": "every machine as in C72, every layer, all settings, draws and numbers of samples", "why_tests_cant": "Combines burn-in, trace allocation and indexing with the outputs; fixed parameters are a corner that tests with default settings miss.", "anchors": ["lom/machine.py: infer lines 672-775, output lines 341-452, Trace lines 104-170"]}
{"id": "C84", "title": "Averages over recorded samples are unbiased", "statement": "If the unfixed factors of a machine of standard layers with fixed dispersions start out distributed according to their joint posterior, the expected average over the recorded samples of any function of these factors is its posterior expectation; in particular the reported mean of every factor entry is an unbiased estimate of its posterior mean.", "quantifier": "every machine as in C72 whose dispersions are fixed, all settings, numbers of samples, update orders and functions of the factors", "why_tests_cant": "A statement about expectations over all random draws of a run.", "anchors": ["lom/machine.py: infer lines 672-775, Trace.mean lines 148-153"]}
{"id": "C85", "title": "An experiment reports the held-out accuracy of the requested model", "statement": "A predictive experiment with any of the 36 models succeeds, runs inference on the data (negated if the translation of the model says so) with one layer of the translated model, and reports the share of held-out entries predicted correctly by the requested model when every factor entry is true independently with its recorded frequency.", "quantifier": "every training array of two axes with any model name, or of three axes with a model translated to OR-AND; all latent sizes, masks, initial dispersions, annealing on or off, all random draws", "why_tests_cant": "Experiments are random runs of hundreds of sweeps; a test sees one accuracy and has no independent value to compare it with.", "anchors": ["lom/experiments.py: LOM_predictive lines 259-289"]}
{"id": "C86", "title": "Experiments do not change the arrays of the caller", "statement": "An experiment leaves all arrays of the caller as they were, so that experiments sharing the training data do not influence each other.", "quantifier": "all experiments as in C85, in any number and order in one process", "why_tests_cant": "Needs experiments with negated data that share an int8 array in one process; accuracies change without any error.", "anchors": ["lom/experiments.py: LOM_predictive lines 259-289, parallel_function lines 296-307", "lom/auxiliary_functions.py: lines 940-955"]}
{"id": "C87", "title": "A grid search evaluates every combination on the same split", "statement": "A grid search over models, latent sizes and repetitions ends and returns one row per combination in order, each the outcome of an experiment with that model and latent size trained on the same data, which lack only a test set of observed entries.", "quantifier": "all data that an experiment accepts, all lists of models and sizes, balanced or not, all draws", "why_tests_cant": "Needs searches of more than 112 configurations on 28 processes, and data on which the retry loop never ends.", "anchors": ["lom/experiments.py: LOM_hyperparms_parallel_gridsearch lines 310-353, parallel_function lines 296-307, split_train_test lines 162-232"]}
{"id": "C88", "title": "Inference with a MAX-AND layer completes and updates by the right conditionals", "statement": "A run on a machine with one MAX-AND layer completes; it changes nothing but unfixed factors and dispersions, resamples every entry of a factor from its conditional given everything else, and after every dispersion update dispersions and ratio tables fit the factors.", "quantifier": "all data and shapes, latent sizes, dispersions in (0,1), fixed entries, settings, numbers of samples, all random draws and all orders argsort may give to ties", "why_tests_cant": "A wrong log-odds leaves a sampler that runs and yields binary factors; only a comparison with the exact conditional at every step would show it.", "anchors": ["lom/_numba/max_machine_sampler.py: lines 7-191", "lom/matrix_update_wrappers.py: lines 36-60", "lom/_numba/lambda_updates_numba.py: lines 245-274", "lom/machine.py: lines 487-700"]}
{"id": "C89", "title": "Inference with a qL-AND layer completes and updates by the right conditionals", "statement": "A run on a machine with one qL-AND layer completes; it changes nothing but unfixed factors, thresholds and the dispersion, resamples every entry of a factor that is not fixed and every threshold from its conditional given everything else, and sets the dispersion to its optimum.", "quantifier": "all data and shapes up to 32767, latent sizes, thresholds, dispersions, priors, fixed entries, settings, numbers of samples and random draws", "why_tests_cant": "Thresholds, dispersion, prior and fixed entries are ignored silently; the failure with both factors fixed needs a combination of flags no example uses.", "anchors": ["lom/_numba/matrix_updates_numba.py: lines 531-665", "lom/matrix_update_wrappers.py: lines 61-94", "lom/machine.py: lines 262-330, 487-700"]}
{"id": "C90", "title": "Inference with an OR-AND-IBP layer completes and updates by the right conditionals", "statement": "A run on a machine with one OR-AND-IBP layer completes; it changes nothing but unfixed factors, the latent size and the dispersion; an update of the first factor follows the Indian buffet process given everything else and leaves a fixed second factor alone; an update of the second resamples unfixed entries from their conditionals; the dispersion becomes its optimum.", "quantifier": "all data with entries -1, 0, 1 and shapes up to 32767, latent sizes (including 0), dispersions, feature priors, concentrations, fixed matrices and entries, settings, numbers of samples and random draws", "why_tests_cant": "The latent size depends on the draws: overflowing a trace needs a run that happens to add more than ten columns, and wrong weights for new columns leave a sampler that still runs.", "anchors": ["lom/_numba/matrix_updates_numba.py: lines 384-485", "lom/matrix_update_wrappers.py: lines 96-130", "lom/machine.py: lines 113-130, 544-775"]}
{"id": "C91", "title": "Generated tensors have the requested expected density", "statement": "generate_random_tensor(L, dims, noise, density) returns three random factors, their Boolean product X and a copy of X in which every entry is flipped with probability noise; the expected share of ones of X is density, that of the noisy tensor density*(1-noise) + (1-density)*noise, and the returned factor density is the probability of a one in a factor.", "quantifier": "all L >= 1, all dimensions, density and noise in [0,1]", "why_tests_cant": "The expectation is over all (N+D+M)L + NDM draws; a test sees a few samples and needs a tolerance.", "anchors": ["lom/experiments.py: generate_random_tensor lines 14-39", "lom/auxiliary_functions.py: boolean_tensor_product, add_bernoulli_noise"]}
{"id": "C92", "title": "Generated OR-AND products have disjoint factors", "statement": "generate_orm_product(N, D, L) returns {-1,1} matrices U (D x L) and Z (N x L) with disjoint columns and their Boolean product X.", "quantifier": "all sizes, all draws", "why_tests_cant": "The tests use the defaults, for which overlapping columns and an endless loop do not show.", "anchors": ["lom/auxiliary_functions.py: generate_orm_product lines 631-654, all_columsn_are_disjoint"]}
{"id": "C93", "title": "Reconstructing a tensor returns what the recorded samples say", "statement": "tensorm_reconstruct on a three-axis array coded 0/1 or -1/0/1 completes, leaves the arrays of the caller unchanged, runs inference with one OR-AND layer of the given latent size on the data coded -1/1, and returns the means of the 50 recorded samples of the three factors, the probability of the formula at every position when factor entries are true independently with their recorded frequencies, and the formula of the entries with positive means; the hyperparameters have no influence.", "quantifier": "all three-axis arrays without empty axes and with entries 0/1 or -1/0/1, int8 or not, all latent sizes, hyperparameters and random draws", "why_tests_cant": "A random run of more than a hundred sweeps; a test has no independent value to compare the returned tensors with.", "anchors": ["lom/experiments.py: tensorm_reconstruct lines 98-123"]}
{"id": "C94", "title": "Missing entries stay missing in tensorm_reconstruct", "statement": "Entries marked 0 in data coded -1/0/1 are treated as missing.", "quantifier": "all data coded -1/0/1", "why_tests_cant": "Data with missing entries whose observed entries are all 1 look like 0/1 coded data; the result is plausible either way.", "anchors": ["lom/experiments.py: tensorm_reconstruct lines 103-104"]}
{"id": "C95", "title": "factor_density inverts expected_density", "statement": "factor_density returns a factor density for which the expected data density of the model is as close to the requested one as that of any of the five candidates found by the solver, and exactly the requested one if some candidate achieves it.", "quantifier": "all models, latent sizes, numbers of factors, requested densities, and everything the solver may return", "why_tests_cant": "Whether the solver leaves [0,1] depends on model, sizes and density; tests call it for a few.", "anchors": ["lom/auxiliary_functions.py: factor_density lines 1072-1108, expected_density"]}
{"id": "C96", "title": "The older split holds out the requested number of observed entries", "statement": "split_tensor_train_test_old(tensor, split) returns the data without floor(split * size) held-out entries and a mask marking exactly these; only observed entries are held out.", "quantifier": "all int8 tensors, splits in [0,1] and draws", "why_tests_cant": "The draw is over all positions but indexes observed entries only; the shortfall is random and silent.", "anchors": ["lom/experiments.py: split_tensor_train_test_old lines 235-256"]}
{"id": "C97", "title": "maxmachine_forward_pass computes the MaxMachine output", "statement": "maxmachine_forward_pass(u, z, alpha)[n,d] is the largest alpha[l] over dimensions l active in row n of z and row d of u, alpha[-1] if none is; for matrices of probabilities the expectation of that.", "quantifier": "all sizes, matrices, dispersions and all orders argsort may give to ties", "why_tests_cant": "Wrong for a coding or a dispersion that single examples do not use; ties are ordered arbitrarily.", "anchors": ["lom/_numba/max_machine_sampler.py: maxmachine_forward_pass lines 273-285"]}
{"id": "C98", "title": "Label positions are the centres of their stretches", "statement": "find_centers_of_ordered_list(ls) returns for every distinct label, in order of appearance, the middle index of its stretch, for lists in which equal labels are adjacent.", "quantifier": "all such lists, any number of labels and lengths of stretches", "why_tests_cant": "Rounding and order for stretches of all lengths.", "anchors": ["lom/auxiliary_functions.py: find_centers_of_ordered_list lines 1202-1218"]}
{"id": "C99", "title": "get_roc_auc returns the area under the ROC curve", "statement": "get_roc_auc(data, data_train, prediction) returns the area under the ROC curve of the predictions at the entries missing from the training data.", "quantifier": "all matrices, every AUC routine that needs one score per label", "why_tests_cant": "It has no test; it fails on every input.", "anchors": ["lom/auxiliary_functions.py: get_roc_auc lines 278-288"]}
{"id": "C100", "title": "Late samples are posterior samples, wherever the run started", "statement": "On a machine with fixed dispersions, for every error bound there is a number of passes after which every recorded sample is distributed as the joint posterior of the unfixed factors up to that error: the expectation of every bounded function of all unfixed factors is its posterior expectation up to the error, for every starting configuration, settings, number of samples and update orders.", "quantifier": "all ordinary machines with fixed dispersions (any number of layers, depths, models, shapes), all starting configurations, bounded functions, settings and update orders, the exact distribution over random draws", "why_tests_cant": "Convergence in distribution is about the law of infinitely many runs; a test sees a few samples of one. The failure needs exact ties, which show as perfectly ordinary samples.", "anchors": ["lom/_numba/matrix_updates_numba.py: flip_metropolised_gibbs_numba lines 19-35, samplers", "lom/machine.py: burn_in, infer lines 544-720"]}
{"id": "C101", "title": "Averages over recorded samples converge to posterior expectations", "statement": "On a machine with fixed dispersions the mean squared difference between the average of a function over the n recorded samples and its posterior expectation tends to 0 as n grows, uniformly in starting configuration, settings and update orders; the same holds for the posterior means of factor entries that the machine reports.", "quantifier": "all ordinary machines with fixed dispersions, all bounded functions, starting configurations, settings and update orders", "why_tests_cant": "A limit statement over all random draws and run lengths.", "anchors": ["lom/_numba/matrix_updates_numba.py: flip_metropolised_gibbs_numba lines 19-35, samplers", "lom/machine.py: infer lines 672-720, MachineMatrix.mean"]}
{"id": "C102", "title": "When runs forget their start, whatever the update orders", "statement": "On a machine with fixed dispersions, samples recorded late enough follow the joint posterior up to any error, for all update orders, exactly when there is a number of passes after which, in any orders, all configurations are linked by steps that the posterior tells apart (two configurations one entry apart and not equally probable, carried through the later updates by negation). Under that condition averages over samples and reported means converge in mean square to posterior expectations. It fails for a machine with a single observed one and the default prior.", "quantifier": "all ordinary machines with fixed dispersions, with or without ties; all starting configurations, bounded functions, settings and update orders", "why_tests_cant": "An exact condition for convergence over all orders and infinitely many passes; the failing order sequences alternate forever and any finite test sees plausible samples.", "anchors": ["lom/_numba/matrix_updates_numba.py: flip_metropolised_gibbs_numba lines 19-35, samplers", "lom/machine.py: burn_in, infer lines 544-720"]}
{"id": "C103", "title": "When runs forget their start, with random update orders", "statement": "With every pass going through the unfixed factors in an independent uniformly random order, as the code does, late samples follow the joint posterior on average over the orders exactly when all configurations are linked by steps that some sequence of passes tells apart; then averages over samples and reported means converge in mean square, also on average over the orders. The condition is strictly weaker than that of C102 and fails when all configurations are equally probable.", "quantifier": "all ordinary machines with fixed dispersions, with or without ties; all starting configurations, bounded functions, settings, numbers of samples", "why_tests_cant": "The law of a run over all draws and all orders, in the limit of long runs, is not observable in a test.", "anchors": ["lom/_numba/matrix_updates_numba.py: flip_metropolised_gibbs_numba lines 19-35, samplers", "lom/machine.py: burn_in, infer lines 544-720"]}
{"id": "C104", "title": "Which models can be fitted to which data", "statement": "On a new machine with fixed data, adding a layer and running inference succeeds for each of the 36 pairs of logical operators on every array with two or three axes, and for MAX-AND and qL-AND on every matrix; on an array with three axes each of MAX-AND, qL-AND and OR-AND-IBP passes add_layer and makes inference raise NotImplementedError; any other name makes add_layer raise NotImplementedError and leaves the machine unchanged.", "quantifier": "all strings as model names, all data arrays of entries -1, 0, 1 (two-axis axes up to 32767), latent sizes, usable settings, numbers of samples and random streams", "why_tests_cant": "The set of strings and shapes is infinite, and the dispatch goes through five tables of names that have to agree.", "anchors": ["lom/machine.py: add_layer lines 487-531, add_matrix lines 533-542, infer lines 672-720", "lom/auxiliary_functions.py: canonise_model lines 826-961", "lom/matrix_update_wrappers.py: get_sampling_fct lines 11-228", "lom/lambda_update_wrappers.py: get_update_fct lines 14-29"]}
{"id": "C105", "title": "Certain and impossible priors", "statement": "An update of a factor whose Bernoulli prior is 1 (or 0) sets every entry that is not fixed to 1 (or -1), whatever data, dispersions, siblings, parents and draws; a prior outside the unit interval is rejected.", "quantifier": "all priors, all six update kinds (two and three factors; with and without child; no, one or two parents), models, matrices, finite dispersions and draws in [0,1)", "why_tests_cant": "The prior is a public attribute that no test sets to a boundary value; the result rests on how infinities and NaN travel through scipy's logit, the sum and the comparisons.", "anchors": ["lom/_numba/matrix_updates_numba.py: flip_metropolised_gibbs_numba lines 18-35, samplers lines 157-381", "lom/matrix_update_wrappers.py: LOM_sampler lines 140-226", "lom/machine.py: MachineMatrix.bernoulli_prior line 217"]}
{"id": "C106", "title": "Infinite dispersions are the noise-free limit", "statement": "With an infinite dispersion an update sets each free entry to the value that agrees with more data given the rest, or, for an infinite parent dispersion, to the parents' output; entries on which the data are silent follow the prior, as under every finite dispersion.", "quantifier": "all implemented models, two and three factors, every factor, data in {-1,0,1} (two-factor axes up to 32767), priors strictly inside the unit interval, all draws", "why_tests_cant": "Tests use finite dispersions; infinity times a zero score is NaN, which silently disables the update of exactly the entries without evidence.", "anchors": ["lom/_numba/matrix_updates_numba.py: flip_metropolised_gibbs_numba lines 18-35, samplers lines 157-381", "lom/matrix_update_wrappers.py: LOM_sampler lines 140-226"]}
{"id": "C107", "title": "Missing entries of data that are not fixed are imputed", "statement": "An update of a data matrix that is not fixed redraws every entry that is not fixed, missing (zero) ones included, from its conditional distribution given the layers on that matrix, so that no missing entry is left.", "quantifier": "every machine with a two-axis data matrix under one or more layers of an implemented model, data in {-1,0,1}, all fixed entries, priors strictly inside the unit interval, all draws", "why_tests_cant": "An imputation test would have to follow single zero entries through the sampler for all draws; zero takes the branch meant for +-1, where flipping and keeping coincide, so nothing fails visibly.", "anchors": ["lom/_numba/matrix_updates_numba.py: flip_metropolised_gibbs_numba lines 18-35, make_sampling_fct_nochild_oneparent lines 238-278, make_sampling_fct_nochild_twoparents lines 281-339", "lom/matrix_update_wrappers.py: LOM_sampler lines 175-206"]}
{"id": "C108", "title": "Relevance of the dimensions of a MaxMachine", "statement": "For every inferred MAX-AND layer maxmachine_relevance returns, from the current traces, for each dimension the expected probability with which a one of the data is emitted by it (each one being credited to the active dimension of largest dispersion, else to the clamped one); the values add up to the expected output at the ones.", "quantifier": "all traces of dispersions and factors, all data with at least one one, all shapes", "why_tests_cant": "The function fails on every layer as built, so no test can reach the formula; double credit and the clamped value only show in sums over all samples and ones.", "anchors": ["lom/_numba/max_machine_sampler.py: maxmachine_relevance lines 194-270", "lom/auxiliary_functions.py: plot_codes line 254", "lom/machine.py: MachineLayer.__init__ lines 278-308"]}
{"id": "C109", "title": "The interface to DBTF", "statement": "dbtf_reconstruct hands the ones of the tensor to the external program and returns, for the factor files that program writes, the binary factors with ones at the listed positions and the union of the L blocks they span as the reconstruction.", "quantifier": "all tensors, all sizes, all behaviours of the external program, all factor files left by earlier runs", "why_tests_cant": "The program is a binary that the repository does not contain; the failing cases (a factor with a single one, a program that fails) depend on the files it leaves behind.", "anchors": ["lom/experiments.py: dbtf_reconstruct lines 42-95"]}
{"id": "C110", "title": "Pictures show frequencies", "statement": "MachineMatrix.show draws the relative frequency of a one for 'mean', the maximum a posteriori estimate for 'map' and the ones of the current state for 'state', each on the unit interval; any other technique raises ValueError.", "quantifier": "all traces and states of all shapes", "why_tests_cant": "The rescaling depends on the minimum over all entries and the thresholds on exact frequencies; a plot is inspected by eye, and a wrong scale looks plausible.", "anchors": ["lom/machine.py: MachineMatrix.show lines 247-255", "lom/auxiliary_functions.py: plot_matrix lines 194-233"]}
{"id": "C111", "title": "Layers added between two calls of infer", "statement": "When a layer is added on a factor after infer has been called, the next call updates that factor from the posterior of the whole machine, the new layer included.", "quantifier": "every machine as built by the methods, every factor with an update function made before the layer was added, all draws", "why_tests_cant": "The stale update function still samples from a posterior, only not that of the machine; results differ in distribution and look plausible, and no exception is raised.", "anchors": ["lom/matrix_update_wrappers.py: get_sampling_fct lines 11-21", "lom/machine.py: Machine.add_layer lines 487-531, infer lines 692-696"]}
{"id": "C112", "title": "Clean-up during inference keeps the machine together", "statement": "On a machine whose layers are flagged for clean-up (auto_clean, auto_reset), infer ends; besides Gibbs and dispersion updates it removes or resets only superfluous latent dimensions, in all factors of a layer at once; afterwards factors, data and layers fit together as before, and infer can be called again.", "quantifier": "every machine of standard layers as built by the methods, all flags, all settings of infer, all draws, any number of calls", "why_tests_cant": "Whether a clean-up happens depends on the draws; a factor that no longer fits the layer on top of it shows only in the next sweep, as an index outside an array in compiled code without bounds checks.", "anchors": ["lom/machine.py: burn_in lines 560-668", "lom/auxiliary_functions.py: clean_up_codes lines 100-159"]}
{"id": "C113", "title": "Parallel counting and filling do not depend on the schedule", "statement": "The parallel loops that count correct predictions and that fill arrays of outputs return the same for every distribution of rows over threads, every interleaving and every order of adding the threads' counters: the number of correct predictions, and the array filled in order.", "quantifier": "every distribution of rows, every interleaving, every order of reduction, all shapes, all eight models and qL-AND, 2D and 3D, fuzzy outputs included", "why_tests_cant": "A test sees the few interleavings that happen; a lost increment or a cell written twice shows rarely and only as a slightly wrong dispersion.", "anchors": ["lom/_numba/lambda_updates_numba.py: make_output_function_2d, make_output_function_3d, make_output_function_2d_fuzzy, make_output_function_3d_fuzzy, make_correct_predictions_counter lines 90-229"]}
{"id": "C114", "title": "Fuzzy outputs in double precision are probabilities", "statement": "Computed in double precision, the fuzzy outputs of the eight models stay in [0,1] for factors in [0,1], are within a few units of rounding of the exact probability, and are exact for certain factors.", "quantifier": "all eight models, two and three factors, all rows of doubles in [0,1], up to 2^20 dimensions", "why_tests_cant": "Errors of a few units in the last place are hidden by tolerances; a probability of -5.6e-16 needs particular sample means, and becomes NaN only in a logarithm later.", "anchors": ["lom/_numba/lom_outputs_fuzzy.py: all functions lines 14-202", "lom/_numba/lambda_updates_numba.py: get_scalar_output_function_2d, get_scalar_output_function_3d lines 18-88", "lom/machine.py: LOM_layer.output lines 417-422"]}
{"id": "C115", "title": "Means, decisions and probabilities of samples in double precision", "statement": "Means of saved samples computed in double precision lie in [-1,1] and are within one rounding of the exact mean; the decision 'mean > 0' is the strict majority of samples exactly; probabilities from means and Monte Carlo averages lie in [0,1] and are exact at 0 and 1; outputs from them are within a few roundings of the probability for the exact shares.", "quantifier": "all traces of -1/1 samples of any length up to 2^53, all eight models", "why_tests_cant": "A sign decision turned by rounding would need a mean within 1e-16 of zero, which tests with few samples do not produce.", "anchors": ["lom/machine.py: MachineMatrix.mean lines 148-153, set_to_map lines 271-273, LOM_layer.output lines 405-437"]}
{"id": "C116", "title": "Updates of factors in double precision stay close to the exact sampler", "statement": "With log-odds rounded to double precision, the exponential of a C library and random draws that are multiples of 2^-53, an update of a factor leaves every event within (number of entries) x (a few roundings) of its probability under the exact update, keeps the posterior invariant up to that error, and errors of T rounds at most add up; entries stay -1 or 1 and fixed entries stay unchanged whatever is drawn.", "quantifier": "all eight models, two and three factors, with and without a parent, all shapes, all data, all events, any exponential function within two roundings of 1", "why_tests_cant": "The differences are of the order 1e-15 per entry and vanish in the noise of any simulation.", "anchors": ["lom/_numba/matrix_updates_numba.py: flip_metropolised_gibbs_numba lines 18-35, sampling functions lines 157-278", "lom/matrix_update_wrappers.py: get_sampling_fct lines 140-190"]}
{"id": "C117", "title": "Rare changes are made about as often as they should be", "statement": "The probability with which an entry changes in double precision is within a constant factor of its exact probability.", "quantifier": "all factors, all data, any dispersion", "why_tests_cant": "Events of probability 1e-16 never occur in a test.", "anchors": ["lom/_numba/matrix_updates_numba.py: flip_metropolised_gibbs_numba lines 18-35"]}
{"id": "C118", "title": "The dispersion update in double precision", "statement": "Computed in double precision, the dispersion update gives a finite, non-negative value close to the optimum for the counts, for every positive Beta prior.", "quantifier": "all eight models and qL-AND, two and three factors, all data, all positive priors", "why_tests_cant": "The rounding only matters when almost every point is predicted and the prior is weak or the data are huge; then the dispersion is infinite.", "anchors": ["lom/_numba/lambda_updates_numba.py: lbda_update_fct lines 241-251 and 265-272", "lom/machine.py: MachineParameter lines 160-184"]}
{"id": "C119", "title": "Passes over a whole machine in double precision stay close to the posterior", "statement": "Run in double precision with the random draws of a computer, any sequence of factor updates of a machine changes posterior probabilities by at most the sum of explicit small errors, and no update ever fails or touches a fixed entry.", "quantifier": "all machines built by add_layer from standard layers (any depth, two or three factors, up to two parents per factor), any data, any order and number of updates, any event", "why_tests_cant": "Tests compare single runs; a drift of the stationary distribution by rounding would be invisible in them and could build up over many passes.", "anchors": ["lom/matrix_update_wrappers.py: lines 140-226", "lom/_numba/matrix_updates_numba.py: flip_metropolised_gibbs_numba lines 18-35, sampling functions lines 157-381", "lom/machine.py: infer, line 579"]}
{"id": "C120", "title": "Long runs in double precision stay close to the posterior from any start", "statement": "A machine that mixes in real arithmetic, prepared as infer does and run in double precision with the random draws of a computer: after T passes or more, however many, every event has its posterior probability up to eps plus the rounding errors of T passes; the errors do not add up over the run. Whether or not it mixes, each sample recorded by infer has the distribution of the same passes in double precision up to the errors of these passes.", "quantifier": "all machines built by add_layer from standard layers with fixed dispersions, any data, any starting values, any orders and number of passes, any event, any exponential function and logit within the stated errors", "why_tests_cant": "A run shows one sample path; whether rounding errors pile up over millions of passes, or depend on the start, cannot be seen in it.", "anchors": ["lom/machine.py: infer lines 672-775, burn_in lines 544-670", "lom/matrix_update_wrappers.py: lines 140-226", "lom/_numba/matrix_updates_numba.py: flip_metropolised_gibbs_numba lines 18-35"]}
{"id": "C121", "title": "Averages over long runs in double precision approach posterior averages", "statement": "In double precision with the random draws of a computer, the average of any quantity over n passes of a mixing machine, after any burn-in, is off its posterior average in mean square by at most (1 + 2 T) / n plus a bound on the rounding errors of T passes that does not grow with n.", "quantifier": "all machines built by add_layer from standard layers with fixed dispersions that mix, any data, any starting values, orders, burn-in and number of passes, any quantity between 0 and 1", "why_tests_cant": "Tests would need the exact posterior and averages over all random streams; the samples of one run are dependent, so its spread does not tell the error.", "anchors": ["lom/machine.py: infer lines 672-775", "lom/matrix_update_wrappers.py: lines 140-226", "lom/_numba/matrix_updates_numba.py: flip_metropolised_gibbs_numba lines 18-35"]}
{"id": "C122", "title": "Random orders in double precision: linked machines approach the posterior", "statement": "With the orders of the passes uniformly random, as infer shuffles them, a linked machine run in double precision has, after T passes or more, every event at its posterior probability up to eps plus the rounding errors of T passes; averages over n passes after any burn-in are off in mean square by at most (1 + 2 T) / n plus twice that bound. Machines with the default prior 1/2 are covered although they need not mix in a fixed order.", "quantifier": "all machines built by add_layer from standard layers with fixed dispersions that are linked, any data, any starting values, burn-in and number of passes, any quantity between 0 and 1, averaged over all orders and draws", "why_tests_cant": "Tests cannot average over all orders and all random streams, nor tell a machine that forgets its start only slowly from one that never does.", "anchors": ["lom/machine.py: infer lines 672-775, burn_in and draw_samples", "lom/matrix_update_wrappers.py: lines 140-226", "lom/_numba/matrix_updates_numba.py: flip_metropolised_gibbs_numba lines 18-35"]}
{"id": "C123", "title": "intersect_dataframes returns the common part of two tables", "statement": "Given two data frames, the rows and columns whose labels occur in both are returned, in the same order in both and with the entries they had at these labels.", "quantifier": "all pairs of data frames with integer labels, any order in which a set lists its elements", "why_tests_cant": "Which labels are repeated and in which order a set lists the columns differs between data and between runs; tests fix both.", "anchors": ["lom/auxiliary_functions.py: intersect_dataframes lines 592-613"]}
{"id": "C124", "title": "qL-AND updates in double precision stay close to the exact ones", "statement": "With rounded arithmetic, the exponential function of the C library and the random draws of a computer, the probability of every event after an update of a qL-AND factor is within 3 roundings per entry of that after the exact update; the posterior for dispersion 1 and a flat prior is preserved up to this error.", "quantifier": "all factor matrices, data, thresholds, dispersions, priors and fixed entries, both factors, any event, any exponential function within the stated error", "why_tests_cant": "Differences of 1e-16 per entry cannot be seen in samples, and the exponential function differs between platforms.", "anchors": ["lom/_numba/matrix_updates_numba.py: lines 18-35, 627-659", "lom/matrix_update_wrappers.py: lines 74-94"]}
{"id": "C125", "title": "Rounding does not change the greedy order of MAX-AND dispersions", "statement": "For data of fewer than 94906264 cells (about the square root of 2^53), the dispersion update of a MAX-AND layer in double precision picks the dimensions in a greedy order of the exact smoothed precisions; every dispersion, the clamped one included, is the double nearest to the exact value and lies strictly between 0 and 1, and two dispersions compare as the exact ones do.", "quantifier": "all factor matrices, data (with missing values), shapes up to the bound and previous dispersions", "why_tests_cant": "Two rates that differ by less than a rounding error could swap the order and change every later count; tests cannot find the closest pair of rates among all data sets.", "anchors": ["lom/_numba/max_machine_sampler.py: lines 74-138"]}
{"id": "C126", "title": "MAX-AND dispersions in double precision are close to the exact ones for data of any size", "statement": "The dispersion update of a MAX-AND layer in double precision is within one rounding of 1 of the exact greedy dispersions, whatever the size of the data.", "quantifier": "all factor matrices, data, shapes and previous dispersions", "why_tests_cant": "The failing data set has 2^27 + 1 cells and a tie that depends on the last bit; no test generates it, and smaller data never show the error.", "anchors": ["lom/_numba/max_machine_sampler.py: lines 97-138"]}
