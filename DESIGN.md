# Formal model of hmmlearn in Rocq (Coq 8.16.1)

## Approach

* **Numbers.** Array entries are *extended reals* `xnum = Fin r | PInf | NInf | NaN`
  (`theories/XR.v`), with IEEE-like rules for infinities and NaN (so division by zero,
  `log 0 = -inf`, `-inf - -inf = nan` are visible) over Coq's real numbers `R`.
  Every arithmetic operation takes a rounding parameter `fp : R -> xnum`; `exact := Fin`
  is exact arithmetic.  Theorems on values are stated for `exact`; theorems that survive
  rounding are stated for every (monotone) `fp`, and `C53_binary64` instantiates one of
  them with Flocq's binary64.
* **Arrays** are lists (rows) with explicit shapes; kernels check shapes as the C++ does.
* **Exceptions are values**: `res A = Ok a | Err e`, where `e` names the Python exception
  (or `UB` for out-of-bounds reads in the native code).
* **Objects** are records of attributes (`option` = "attribute not set"); methods are
  functions from objects to results; log records / warnings are output lists.
* **Emission classes** are records of functions (`emclass` in Base.v): the base class calls
  them exactly where Python dispatches to the subclass.  A theorem stated for every `E` with
  hypothesis `ready E h ...` holds for each class for which `ready` is proved.
* **Oracles** (random streams, k-means, LAPACK) are explicit function arguments, universally
  quantified in the theorems.

## Files (theories/)

* Model, no proofs: `XR.v` numbers, `Arr.v` arrays, `Hmmc.v` (ext/_hmmc.cpp),
  `Utils.v` (utils.py, _utils.py), `Base.v` (base.py), `Sample.v` (BaseHMM.sample),
  `Rows.v` (multi-feature arrays), `Categorical.v`, `Poisson.v` and the other class files
  (hmm.py, _emissions.py) listed below.
* Specification, independent of the model: `Spec.v` (state paths, joint probability,
  likelihood, marginals, expected counts), `Spec_sample.v`, `Spec_checks.v`, `Ready.v`
  (what it means for an object to hold given real parameters), `Link.v` (`fvec`, `fmat`, `lmat`:
  a table of reals, or of logarithms of reals, as an array).
* Proofs: `*_proofs.v`, `Sums.v`, `Paths.v`, `XRL.v`, `EMath.v`, `*_thms.v`.
* Property theorems: `Properties_*.v` contain only theorems and examples, each closed by
  `exact ...` with `Print Assumptions`.
* `Examples.v`: the concrete two-state, three-symbol model used by the non-vacuity examples.

## Trusted base

* Coq 8.16.1's kernel (no kernel check is switched off; no `vm_compute` oracle beyond the
  kernel's own; no `Admitted`, no axiom, parameter, functor or module type of our own).
* The axioms of the standard library's real numbers, exactly as `Print Assumptions` lists
  them (table at the end of this file).  All theorems use a subset of
  `ClassicalDedekindReals.sig_forall_dec`, `ClassicalDedekindReals.sig_not_dec`,
  `FunctionalExtensionality.functional_extensionality_dep`, `Classical_Prop.classic`.
  Flocq (binary64 rounding) and Coquelicot are used as libraries of proved lemmas only;
  they add no axiom.
* The reading of the source: the code was not run.  Each definition cites the lines it
  models.  What the model leaves out or simplifies is listed below.

## How statuses are assigned in MANIFEST.json

`proved`: the statement in properties.jsonl is a theorem about the model (the note lists any
restriction of the arithmetic).  `partial`: the statement, as written, is false of the code and
refuted by a `..._refuted` theorem (the true part is proved beside it), or it is proved for
some of the classes it ranges over only; the note says which.

## What is modelled, what is not

| source | model | remarks |
|---|---|---|
| ext/_hmmc.cpp: forward_scaling, forward_log, backward_scaling, backward_log, compute_scaling_xi_sum, compute_log_xi_sum, viterbi, logsumexp, logaddexp, shape guards | Hmmc.v | all of it; `std::log/exp/log1p` are the rounded real functions; signed zeros and NaN payloads are not represented; indexing outside an array is `Err UB` |
| utils.py: normalize, log_normalize; _utils.py: split_X_lengths | Utils.v | `np.sum` is a left-to-right sum (numpy sums pairwise: differs only in rounding) |
| base.py: ConvergenceMonitor, score_samples, score, _score*, decode, _decode_map, _decode_viterbi, predict, predict_proba, _check, _check_sum_1, _initialize_sufficient_statistics, _accumulate_sufficient_statistics*, _do_estep, _do_mstep, fit (loop) | Base.v | `check_is_fitted` = the attributes are set; warnings and log records are returned as events; deprecation shims not modelled |
| base.py: sample | Sample.v | random draws come from an arbitrary generator `rand : G -> R * G` |
| base.py: sample with its random_state argument; `_generate_sample_from_state` of all classes | Sample_em.v | numpy's multivariate_normal, poisson and multinomial and their validation of arguments are arbitrary functions (`srng`), except `choice`, whose test of the sum and inversion are modelled |
| hmm.py/_emissions.py: CategoricalHMM | Categorical.v | `_init` and `_generate_sample_from_state` see Init.v / Sample.v |
| hmm.py/_emissions.py: PoissonHMM | Poisson.v (helpers in Rows.v) | `scipy.stats.poisson` by its documented formula; `lambdas_` is taken to be two-dimensional; BLAS summation order not modelled |
| hmm.py/_emissions.py: GaussianHMM; stats.py: densities; utils.py: fill_covars | Gaussian.v | all four covariance types for densities, statistics, M-step, `covars_` and its setter; `_init` see Init.v; Cholesky and triangular solves are the textbook algorithms; priors are scalars or 1-d/2-d arrays, broadcast as numpy does (3-d arrays for "full" are not modelled); `eigvalsh` positivity is decided by Cholesky pivots |
| hmm.py/_emissions.py: MultinomialHMM | Multinomial.v | `scipy.stats.multinomial` by its documented formula, including the replacement of the last probability; `n = 0` is allowed, as in scipy >= 1.9; int64 overflow of row sums not modelled |
| hmm.py/_emissions.py: GMMHMM | Nd.v, Gmm.v | all four covariance types for validation, densities, statistics, M-step; numpy broadcasting of hyper-parameters of any number of dimensions; `scipy.linalg.eigvalsh` in `_check` is an arbitrary function `eig` (theorems hold for every such function that is non-negative on the matrices at hand); sampling is in Sample_em.v |
| hmm.py:533-591 GMMHMM._init, _emissions.py:186-201 | Init_gmm.v | KMeans and `multivariate_normal` are arbitrary functions of their arguments and a generator state (record `grng`); KMeans consumes `random_state`, `multivariate_normal` always numpy's global generator, as in the code |
| base.py: _init, _needs_init, _check_and_set_n_features, fit (whole), aic, bic; `_init`, `_check_and_set_n_features`, `_get_n_fit_scalars_per_param` of the four classes above; _utils.py: distribute_covar_matrix_to_match_covariance_type; sklearn check_random_state | Init.v | numpy's RandomState and sklearn's KMeans are arbitrary functions from a state to a value and a next state (`rng`); theorems that need fit to return assume that Dirichlet samples sum to 1 and uniform draws are positive (`sane_rng`) |
| what the above (and GMMHMM's `_init`, `_check`, `_fix_priors_shape`, `_do_mstep`) have assigned when they raise | Interrupt.v | the events logged before an exception are not modelled; numpy draws that raise leave the generator alone |
| what `_init`, `_check`, `_estep_begin`, `_do_mstep` of the variational classes (base.py:1050-1240, vhmm.py) have assigned when they raise | Vinterrupt.v | as above; the derived `*_subnorm_` attributes other than `emissionprob_log_subnorm_` are not part of the state |
| what score, score_samples, predict, predict_proba, decode, aic, bic leave behind, all classes | Query.v | |
| predict, predict_proba of the variational classes | Vpredict.v | |
| base.py: VariationalBaseHMM (all), fit as the variational classes run it; vhmm.py: VariationalCategoricalHMM; _kl_divergence.py: kl_dirichlet | Vbase.v, Vcat.v (special functions in Special.v) | scipy's gammaln and digamma are the functions `lgam`, `psi` of Special.v (Gauss' limits), +inf and -inf at 0; negative arguments yield NaN in the model; numpy's `dirichlet` refuses an `alpha` that is not one-dimensional |
| _kl_divergence.py: the other divergences; _utils.py: logdet | Kl.v | `numpy.linalg.inv` and `slogdet` are the fields of a record `linalg`; value theorems assume `la_right` (Spec_vg.v): on a positive definite matrix they return the inverse, and sign 1 with the logarithm of the determinant (exact arithmetic) |
| vhmm.py: VariationalGaussianHMM (all) | Vgauss.v | `np.linalg.inv`/`slogdet` as in Kl.v; einsum/dot sums in exact arithmetic order-free; posteriors of the shapes `_init` produces; hyper-parameters scalars or arrays of the documented shapes |
| base.py: get_stationary_distribution | Stationary.v | `scipy.linalg.eig` is an arbitrary function; theorems assume `eig_right` (Spec_stat.v): it lists eigenvalues with eigenvectors, misses no eigenvalue, and returns real vectors for real eigenvalues; numpy orders complex numbers lexicographically |
| base.py, hmm.py, vhmm.py: every `__init__`; sklearn.base.clone | Construct.v | clone = the constructor applied to copies of the present values of the attributes named after its arguments; a copied generator has its own state; the warning logged by MultinomialHMM's constructor is left out; arguments are of the types listed above |
| not modelled | | set_params and validation of input dtypes beyond "2-d numeric array, at least one sample"; the text of messages; pickling, examples and docs |

## Findings (properties the code does not have)

Each is a theorem; line numbers refer to /repo/src/hmmlearn.

| theorem | finding |
|---|---|
| C07_map_log_prob_refuted, C07_map_value_not_log_prob | `decode(algorithm="map")` documents its first result as the log probability of the state sequence; it is the sum over time of the maximal posterior probabilities (base.py:294-298, 323-324), a number between T/n_components and T |
| C10_lengths_validation_refuted | `lengths=[]` raises IndexError, not ValueError, and lists with negative entries that sum to the sample count are accepted (_utils.py split_X_lengths) |
| C16_sampled_path_possible_refuted | `sample` takes `(cdf > u).argmax()`; `_check` accepts parameters that sum to slightly less than 1, and then a draw above the last cdf value selects state 0 even when that state has probability 0 (base.py:434-449) |
| C19_startprob_refuted | with `startprob_prior` below 1 every start weight can be clipped to 0, and `normalize` without axis divides by 0: startprob_ becomes NaN (base.py:958-967; the axis=1 variant used for transmat_ guards against it) |
| C26_tol_ignored_refuted, C26_n_iter_ignored_refuted | `monitor_` copies tol and n_iter in the constructor (base.py:861, 1047); changing `model.tol` or `model.n_iter` afterwards has no effect on convergence checks |
| C27_negative_probabilities_refuted | `_check` verifies sums only: negative "probabilities" are accepted (base.py:484-500) |
| C28_fit_then_use_refuted, C28_single_samples | a fit whose data never leaves some state leaves an all-zero transmat_ row, which `_check` rejects: after a successful `fit`, `score`/`predict`/`sample` raise ValueError (base.py:484-500, 958-977) |
| C30_rejects_negative_refuted | `score`/`decode` of CategoricalHMM do not validate symbols; a negative symbol reads emissionprob_ from the right end (_emissions.py:79-84) |
| C52_implementation_checked_refuted | Viterbi decoding never looks at `implementation`; an unknown name is only noticed by score/fit |
| C54_zero_length_refuted | a 0 in `lengths` makes the native kernels read row -1/0 of an empty array (undefined behaviour) |
| (C18 hypothesis) | `_check` accepts rows summing to 1 within 1e-5; if they sum to more than 1 the first EM step may decrease the recorded likelihood, so C18 assumes sums of at most 1 |
| C41_gamma_prior_refuted, C41_gamma_prior | with a gamma prior PoissonHMM weights the data by the total number of samples instead of the occupancy of the state (hmm.py:1069-1075: `n = stats['post'].sum()`), so the update is not the posterior mean |
| C41_unused_state_nan | a state with zero posterior weight gets NaN rates (0/0 at hmm.py:1070) |
| C34_rare_state_refuted, C35_rare_state_refuted | the denominator of the variance update is floored at 1e-5 (hmm.py:366: `np.maximum(c_d, 1e-5)`); a state with occupancy below 1e-5 gets the variance scatter/1e-5, which is not the weighted scatter and can lower the likelihood even with covars_prior = 0 |
| C36_frozen_means_refuted, C36_frozen_means | with params "c" but not "m" the statistics `post` and `obs` are never accumulated (_emissions.py:151, hmm.py:334-336: the block is guarded by `_needs_sufficient_statistics_for_mean`), so the variance becomes 1e5*(prior + weighted sum of squares): samples 1, 1 with mean 0 give variance 200000 |
| C36_full_frozen_means | with params "c" but not "m" and covariance_type 'full' or 'tied' every entry of the new covariances is x/0 (infinite or NaN), and the next score raises ValueError (hmm.py:381-387) |
| C64_scalar_prior_refuted | a scalar `covars_prior` (default 0.01) is added to every entry of a full or tied covariance matrix (hmm.py:382-387), not to its diagonal: it does not keep the matrix from becoming singular |
| C65_collapse_refuted | an update that makes a covariance singular is scored with 1e-7 added to the diagonal, so the recorded likelihood can drop from one iteration to the next |
| C37_fitted_spherical_refuted, C37_fitted_spherical | fit stores "spherical" variances as an n_components x n_features array; `fill_covars` flattens it, so `covars_` has n_components*n_features matrices and `covars_[i]`, which sampling uses (_emissions.py:180), belongs to state i // n_features |
| C33_regularised | a covariance matrix that is not positive definite is not rejected: its density is evaluated with 1e-7 added to the diagonal (stats.py:82-90), and only if that fails is ValueError raised |
| C33_subnormal_refuted | 'diag' floors variances at 2^-1022 and 'full' does not, so they differ on subnormal variances (stats.py:50, 80) |
| C42_row_sums_refuted | MultinomialHMM does not check that emission rows sum to 1 (hmm.py:926-936), and `scipy.stats.multinomial` silently replaces the last probability: a row (1/2, 1/8) is scored as (1/2, 1/2) |
| C42_normalised_counts | a state whose expected counts are all zero gets a NaN emission row (hmm.py:941-942) |
| C22_multinomial_refuted | MultinomialHMM._init does not call `_needs_init` (hmm.py:920-924): a set emissionprob_ is overwritten without the warning, and an unset one whose letter is missing from init_params is not initialised, so that fit fails with AttributeError |
| C29_categorical_refuted, C29_poisson_refuted, C29_multinomial_refuted, C29_second_start | `_init` assigns `self.random_state = check_random_state(self.random_state)` (hmm.py:131, 920, 1039): the integer seed is replaced by a generator object, and a second fit continues from the generator after the emission draws of the first, so it starts from other parameters |
| C42_trials_remembered_refuted | with `n_trials=None` the first fit stores the row totals in `n_trials` (_emissions.py:315-317); a later fit on data with other totals is rejected although no n_trials was given |
| C43_unset_n_features_refuted | `aic`/`bic` of a model whose parameters were assigned by hand raise TypeError (CategoricalHMM, `None - 1`) or AttributeError (others) as long as no method has stored n_features, because the parameter count is evaluated before `score` (base.py:1000, 1024) |
| (Init.v: dict_sum) | an unknown letter in `params` makes fit raise KeyError (base.py:939) |
| C39_spherical_refuted, C39_spherical_divisor | GMMHMM with covariance_type="spherical" and default priors: `_init_covar_priors` uses -(n_mix + 2)/2 (hmm.py:606-608) where the flat value is -(n_features + 2)/2, so the scatter is divided by n_features*weight + n_features - n_mix instead of n_features*weight (witness: 1/3 instead of 1/2) |
| C39_spherical_decrease_refuted | as a consequence one iteration of fit with default arguments lowers the likelihood |
| C28_gmm_refuted | and the variance may become negative (-1 in the witness): after a successful fit, `score` raises ValueError |
| C58_zero_weight_refuted | a mixture component with weight 0 gets NaN covariances (0/0 with the default flat prior, hmm.py:760-805) and the model then scores NaN |
| C43_gmm_refuted | aic/bic of GMMHMM count n_mix - 1 mixture weights for the whole model instead of n_components*(n_mix - 1) (_emissions.py:200): 12 parameters instead of 13 for two states, two components, one feature, diagonal covariances |
| C29_gmm_refuted | GMMHMM._init draws means from numpy's global generator (`np.random.multivariate_normal`, hmm.py:565-567) when a cluster has fewer than n_mix samples: two fits of the same seeded estimator start from different means |
| C59_gmm_refuted | GMMHMM._init runs KMeans even when every parameter is set and init_params="" (hmm.py:549-569): a valid model cannot be trained on fewer samples than it has states |
| C61_refuted, C61_no_transmat, C61_fresh_no_transmat | `fit` reads `self.transmat_` after every iteration (base.py:497); variational classes set it in the M-step only if "t" is in params, so a fresh variational model with params="se" raises AttributeError as soon as a second iteration starts |
| C61_not_fitted_refuted, C61_no_emissions_refuted | without "s" (or "e") in params `startprob_` (`emissionprob_`) is never set: `fit` succeeds and `score` raises NotFittedError (AttributeError) although posteriors exist (base.py:1222-1240, vhmm.py:201-217) |
| C62_array_prior_refuted | VariationalCategoricalHMM documents `emissionprob_prior` as an array of shape (n_components, n_features) (vhmm.py:81-86); `_init` passes `[prior] * n_features` to `dirichlet` (vhmm.py:151-158), which refuses the resulting nested array |
| C50_zero_posterior_refuted, C50_zero_posterior, C63_zero_entry | a zero in a posterior (Dirichlet draws with small parameters round to 0) makes kl_dirichlet inf - inf: the bound recorded in that iteration is NaN (_kl_divergence.py:13-27) |
| C49_assertion_refuted | `kl_normal_distribution` asserts that its result is non-negative (_kl_divergence.py:34); in double precision rounding makes it negative for equal means and nearly equal variances (3 and 3 - 2^-50): AssertionError.  `kl_gamma_distribution` has the same assertion; neither function is called by the package itself |
| C48_params_c_refuted | VariationalGaussianHMM with params "c" but not "m": the scale update subtracts beta*outer(mean, mean) with the stale mean (vhmm.py `_do_mstep`), so scale_posterior_ and the variances can become negative (-99 in the witness) |
| C71_shape_refuted | the setter of `covars_` does not compare the numbers of components and features with the model for "diag" and "full" (_utils.py:31-66): a model with 2 states accepts 3 covariances |
| C71_nan_refuted | NaN variances pass the test `np.any(covars <= 0)` for "diag" and "spherical" |
| C71_asymmetric_refuted, C71_tied_partial | the setter compares a matrix with its transpose only up to `np.allclose`'s tolerances (1e-8 + 1e-5 relative), so asymmetric matrices are accepted and stored; positive definiteness is decided from the lower triangle alone |
| C70_spherical_refuted | the "spherical" start value is `tied_cv.mean()`, the mean of all entries of the covariance matrix including the off-diagonal ones (_utils.py:73-74): anti-correlated samples (1,-1), (-1,1) give 0.0005 instead of 2.001 |
| C70_one_sample_refuted, C70_one_sample | with one sample `np.cov` is NaN: "diag" and "spherical" silently store NaN variances, "full" and "tied" raise ValueError about positive definiteness |
| C45_reducible_refuted | get_stationary_distribution normalises the first eigenvector of eigenvalue 1 by its sum (base.py:869-871); for a chain with two closed classes that vector may be (1,-1): the result is (inf,-inf) |
| C22_variational_refuted | variational `_init`: the attributes of one letter are replaced together as soon as one of them is unset (base.py:1066-1086, vhmm.py `_init`): a startprob_prior_ set by the user is overwritten although "s" is not in init_params, without a warning |
| C22_variational_silent_refuted | `_needs_init(a) or _needs_init(b)` warns about the first name only: with the letter in init_params, startprob_prior_ (transmat_prior_, ...) set by the user is overwritten without being named in a warning |
| C72_equal_samples_refuted, C72_last_cluster | VariationalGaussianHMM._init uses `np.bincount` of the k-means labels without `minlength` (vhmm.py `_init`): when the last cluster is empty (fewer distinct samples than states) beta_posterior_ is too short and fit raises ValueError about its shape |
| C73_means_prior_refuted, C73_means_prior | `means_prior` is documented with shape (n_components,) (vhmm.py:368); `_check` wants (n_components, n_features), so no prior of the documented shape can be used |
| C73_values_refuted | the documented ValueError of VariationalGaussianHMM._check ("e.g. if startprob_ don't sum to 1") never comes: values are not looked at and the base class check is not called (vhmm.py:583-652) |
| C74_spherical_refuted | after fit, a "spherical" GaussianHMM with several features stores one variance per state and feature, and the getter of `covars_` used by `sample` ravels them: state 1 is sampled with a variance of state 0 (1 instead of the 4 used for scoring) |
| C74_gmm_weights_refuted, C74_gmm_weights | GMMHMM: `_check` accepts weights that sum to 1 within 1e-5, but `sample` calls `random_state.choice(p=...)`, whose tolerance is about 1.5e-8: the model validates and scores but sampling raises ValueError |
| C74_multinomial_trials | MultinomialHMM fitted on rows with different totals stores n_trials as an array; `sample` then raises ValueError |
| C75_fitted_categorical_refuted, C75_fitted_others | CategoricalHMM, MultinomialHMM and PoissonHMM overwrite `random_state` with a generator in `_init`: `sample()` of an estimator created with an integer is repeatable before fit and not after it; GaussianHMM and GMMHMM stay repeatable (C75_fitted_gaussian, C75_fitted_gmm) |
| C76_single_samples_refuted, C76_single_samples | a new GaussianHMM fitted on sequences of one sample each (params with "t"): fit returns, but `transmat_` is all zeros and score, decode, predict and sample raise ValueError from then on |
| C79_categorical_refuted, C79_poisson_refuted, C79_multinomial_refuted, C79_random_state | fit replaces the argument `random_state` of CategoricalHMM, PoissonHMM and MultinomialHMM (an integer by a generator, None by the global one), CategoricalHMM and VariationalCategoricalHMM replace `n_features=None` by the size found, MultinomialHMM `n_trials=None` by the row totals of the training data: `sklearn.clone` of a fitted estimator does not give the unfitted one |
| C79_gmm_refuted, C79_gmm_partial | GMMHMM overwrites its arguments weights_prior, means_prior, means_weight, covars_prior and covars_weight with arrays broadcast to the shapes of the first data (hmm.py `_fix_priors_shape`, called by `_init` and `_check`, so also by score); None becomes the default of the covariance type |
| C80_integer_generator_refuted, C80_categorical_seed | with an integer `random_state` the subclass's `_init` (hmm.py:131, 920, 1039, vhmm.py:148; KMeans at hmm.py:312, 547, vhmm.py:476) seeds a second generator with it, so the emission start values reuse the random numbers behind startprob_ and transmat_; `random_state=k` and `random_state=RandomState(k)` give different start values |
| C80_vcategorical_seed | VariationalCategoricalHMM with an integer seed, default priors and n_features = n_components: row 0 of the initial emissionprob_posterior_ is proportional to startprob_posterior_ and row i+1 equals row i of transmat_posterior_ |
| C80_gmm | GMMHMM with an integer seed runs KMeans on the whole data and inside each cluster from the same generator state |
| C81_unchanged_refuted, C81_lengths | `lengths` that do not add up to n_samples (or an unknown `implementation`) are only noticed in the first E-step (base.py:486), after `_init` has overwritten the fitted parameters: calling fit with a typo in `lengths` destroys the trained model |
| C81_gaussian_refuted | GaussianHMM with `covars_weight` of the documented array shape: `max(array, 0)` (hmm.py:365, 381) raises in the first M-step, after startprob_, transmat_ and means_ have been assigned; the covariances are still the old ones |
| C81_gaussian_mixed_refuted | GaussianHMM refitted with min_covar=0 to data with a constant feature: `_init` replaces means_ (hmm.py:310-315), then the covars_ setter rejects the start values (hmm.py:316-322); the estimator keeps the means of the new data and the covariances of the old |
| C81_vmixed_refuted | VariationalCategoricalHMM refitted with a `transmat_prior` that cannot be broadcast to (n_components, n_components): `np.full` raises (base.py:1083) after startprob_prior_ and startprob_posterior_ have been replaced (base.py:1063-1075); the estimator keeps new start attributes next to old transition attributes |
| C81_multinomial_untouched_refuted | MultinomialHMM assigns n_features (_emissions.py:317) before it looks at the counts; after data with a negative count has been rejected, data with another number of columns is rejected too |
| C81_categorical_again_refuted | CategoricalHMM replaces `random_state` by a generator (hmm.py:131) even if fit raises later: repeating the call with correct arguments gives other parameters than the first call would have given |
| C82_raises_refuted | training cannot always be continued: a state that is never left gets a zero row in transmat_ in the M-step; within one call of fit that is never looked at, but a second call of fit rejects the model in `_check` (base.py:484) |
| C82_stop_refuted | `monitor_._reset()` forgets the last log-likelihood, so the improvement from the last iteration of one call to the first of the next is not compared with tol: n_iter=3 stops after two iterations, n_iter=1 followed by n_iter=2 makes three |
| C83_gmm_refuted | GMMHMM counts `n_mix - 1` weights instead of n_components times as many (_emissions.py:200), so the warning about too few data comes too late |
| C84_first_refuted | scoring an estimator whose parameters were assigned fixes `n_features`; a later `fit` on data with another number of columns (CategoricalHMM: with a larger symbol) raises, without the call it would have returned |
| C84_assigned_refuted | GaussianHMM's `_check` overwrites `n_features` with the width of `means_`: assigning `means_` of another width and scoring makes the next `fit` on the old data raise |
| C37_getter_unset | covars_ that were assigned cannot be read back before n_features is set: the getter raises AttributeError (hmm.py:294-298) |
| C59_vgaussian_refuted | VariationalGaussianHMM._init runs KMeans even when every parameter is set and init_params="": a model that needs no start values cannot be trained on fewer samples than it has states |
| C86_criteria_refuted | `aic` and `bic` count the parameters before they score: called on a new estimator they raise TypeError (CategoricalHMM, `None - 1`) or AttributeError (`n_features`) instead of NotFittedError |
| C87_origin_refuted | with "c" but not "m" in `params`, GaussianHMM trains variances that depend on the origin of the data: mean 0 and samples 1, 1 give variance 2·10^5; mean -1 and samples 0, 0 give variance 0 |
| C90_seed_refuted | `clone` of a trained CategoricalHMM (PoissonHMM, MultinomialHMM) with an integer random_state does not train as the original did: fit has replaced the seed by a generator (hmm.py:131, 920, 1039), which the clone copies in its advanced state |
| C90_n_features_refuted, C90_vcategorical_refuted | `clone` of a trained CategoricalHMM or VariationalCategoricalHMM built without n_features keeps the number of symbols of the old data and raises ValueError for data with a larger symbol, which the original accepts |
| C90_n_trials_refuted | `clone` of a trained MultinomialHMM built without n_trials keeps the totals of the rows of the old data and raises ValueError for data with another number of rows |
| C90_gmm_refuted | `clone` of a trained GMMHMM keeps priors in the shapes of the old data and raises ValueError for data with another number of features |

## Plan per property

| id | model | proof method |
|----|-------|--------------|
| C01 | Hmmc.viterbi | induction over time: lattice = max over path prefixes; backtrack attains it |
| C02 | Hmmc.forward_log | log-domain homomorphism `xln` + induction: lattice = log of prefix path sums |
| C03 | Hmmc.forward_scaling | scaled lattice * product of scales = linear forward lattice |
| C04,C05 | backward_*, posteriors | backward lattice = suffix path sums; product = paths through (t,i) |
| C06,C07 | Base.decode_map | argmax lemma; witness for the documentation mismatch |
| C08 | viterbi, forward_log | max <= sum <= count*max over paths |
| C09,C10 | split_X_lengths, score, decode | induction over list of lengths |
| C11 | kernels | reindexing path sums by a permutation |
| C12 | categorical + forward_log | exchange sums over symbols and paths |
| C13,C14 | xi kernels, estep | path sums; double counting |
| C15-C17 | sample | cumulative sums, induction over draws |
| C18 | fit / CategoricalHMM | Jensen (ln x <= x-1) over paths + Gibbs for each M-step block |
| C19,C20,C21 | mstep | algebra on normalize; invariants lifted to the fit loop |
| C22-C24,C26 | init, monitor, fit loop | induction over iterations |
| C25 | estep log/scaling | both equal the spec, hence equal; induction over iterations |
| C27,C28 | check | decision rule; witness trajectory |
| C29 | RNG state machine | two-call history witness / theorem |
| C30,C31 | categorical | index semantics of numpy; witness for negative symbols |
| C32,C33 | stats.py | algebra; triangular solve as oracle with its equation |
| C34-C36 | Gaussian M-step | algebra of weighted sums, Jensen; witness for params='c' |
| C37 | fill_covars | shape/value law; witness for fitted spherical |
| C38-C40 | GMM | log-sum-exp homomorphism; generalized EM |
| C41,C42 | Poisson, Multinomial | algebra, Jensen |
| C43 | parameter counts | arithmetic; witness for GMM weights |
| C44 | utils | algebra |
| C45 | stationary | eigen oracle; infinity-norm argument |
| C46-C48,C50 | variational | algebra, Gibbs-type inequality |
| C49 | KL | ln x <= x-1 |
| C51,C52 | methods | the model returns the object: unchanged attributes |
| C53,C55 | kernels with rounding | monotone rounding; relative error propagation |
| C54 | shape guards | case analysis; witness for zero length |
| C56,C57,C62,C68,C72 | fit | progress: every partial operation of one iteration is defined on valid models; invariant through the loop |
| C58 | GMMHMM M-step | algebra; witness for weight 0 |
| C59,C61,C63 | init / variational fit | case analysis on `_needs_init`; witnesses |
| C60,C66,C67,C69 | variational classes | coordinate ascent: each block of the update maximises the bound; Gibbs and Kullback-Leibler inequalities |
| C64,C65 | full / tied Gaussian M-step | Loewner order, determinant inequality, Jensen |
| C70,C71 | start covariances, setter | sum-of-squares positivity; Cholesky succeeds exactly on positive definite matrices |
| C73 | variational `_check` | decision rule for shapes; witnesses for values |
| C74 | sample, emissions | inversion of one uniform number; samplers as functions; witnesses |
| C75 | sample, random_state | case analysis on the attribute and the argument; witness |
| C76 | fit from a new estimator | initial values positive; the support clause of each class keeps all probabilities positive through training |
| C77 | fit, two estimators | path sums are invariant under renumbering; a simulation carries the relation through every E- and M-step; the M-step of each class commutes with renumbering |
| C78 | fit, two orders of the data | the statistics are sums over the sequences, invariant under Permutation of the chunks; same simulation |
| C79 | fit, arguments | each of _init, _check and _do_mstep is shown to keep (or replace once) each argument; lifted through the loop |
| C80 | start values | with n_iter=0 fit is _init and _check; draws are described by the sequence of generator states, read off the nested draws of the model |
| C81 | a fit that raises | Interrupt.v repeats fit with the attributes assigned so far; n_iter only bounds the iterations, so the interrupted run is compared with a shorter one |
| C82 | training in two parts | the loop split at iteration a; the second `_init` and `_check` leave a trained model unchanged |
| C83 | warning about too few data | the events of fit; the counts compared with the dimensions of the parameters (C43) |
| C84 | scoring between two fits changes nothing | the whole estimator, before and after; the result of a later fit |
| C85 | the methods for inference agree | results and exceptions of score, score_samples, predict, predict_proba, decode |
| C86 | an estimator without parameters says so | NotFittedError if and only if startprob_ (transmat_) is unset |
| C87 | recoded observations train the same model | permuted symbols and features, reflected and shifted features; results and fitted parameters |
| C88 | a positive tolerance ends training | bound on the number of iterations from a bound on the objective |
| C89 | n_iter is only a limit | runs that stop early do not depend on n_iter; with C88, training settles |
| C90 | a clone trains like a new estimator | C79 gives the arguments left by fit; the constructor builds the rest; idempotence of broadcasting for GMMHMM |
| C91 | rounding errors of posterior probabilities | as C55, with the backward pass and the normalisation: every entry is the true one up to a counted number of factors 1 ± u; common factors cancel in the normalisation |
| C92 | training on repeated data | simulation of the two training loops: statistics, pseudo-counts, log-likelihoods and tolerance all scale by m, ratios do not change |
| C93 | redundant states | forward and backward sums of the large model, added over copies, satisfy the recursions of the small one; paths through unvisited states have weight 0 |
| C94 | symmetric start values | C77 with the model renumbered into itself |
| C95 | time reversal | the joint probability of a path is that of the reversed path; forward sums of one model are start probability times emission times backward sums of the other |
| C96 | continuing a sequence | forward sums of x + y past x are the likelihood of x times the forward sums of y from the predicted start; backward sums agree |
| C97 | no memory | forward and backward sums are products of mixture densities; a best path can be improved at one sample only if the state there is not the likeliest |

## Assumptions per theorem

`Print Assumptions` output, abbreviated: FD = ClassicalDedekindReals.sig_forall_dec, ND = ClassicalDedekindReals.sig_not_dec, FE = FunctionalExtensionality.functional_extensionality_dep, CL = Classical_Prop.classic; "closed" = closed under the global context.

* **CL, FD, FE, ND**: C85_categorical, C85_poisson, C85_multinomial, C85_gaussian, C85_gmm, C85_vcategorical, C85_vgaussian, C86_unfitted, C86_vunfitted, C86_categorical, C86_poisson, C86_multinomial, C86_gaussian, C86_gmm, C86_vcategorical, C86_vgaussian, C86_criteria, C86_criteria_categorical, C86_criteria_poisson, C86_criteria_multinomial, C86_criteria_gaussian, C86_criteria_gmm, C86_after_fit, C86_criteria_refuted, C94_categorical, C94_poisson, C94_multinomial, C94_gaussian, C94_gaussian_full, C94_gmm, C11_score, C11_posteriors, C11_viterbi, C12_sums_to_one, C12_score_decreases, C27_methods_reject, C27_negative_probabilities_refuted, C28_fit_then_use_refuted, C28_single_samples, C28_usable_iff, C30_out_of_range, C30_negative_symbols, C30_rejects_negative_refuted, C44_log_normalize, C44_log_normalize_single_column, C51_repeated_calls, C51_categorical, C52_unknown_algorithm, C52_known_algorithms, C52_unknown_implementation, C52_implementation_checked_refuted, C54_shape_mismatch, C54_xi_shape_mismatch, C54_shapes_match, C54_zero_length, C54_zero_length_refuted, C90_gaussian, C90_gaussian_trains, C90_vgaussian, C90_vgaussian_trains, C90_gmm_partial, C90_categorical_partial, C90_poisson_partial, C90_multinomial_partial, C90_vcategorical_partial, C90_unfitted, C90_vunfitted, C90_obeys, C90_vobeys, C76_default_categorical, C76_default_poisson, C76_default_multinomial, C76_default_gaussian, C76_default_gmm, C62_default, C90_seed_refuted, C90_n_features_refuted, C90_n_trials_refuted, C90_gmm_refuted, C90_vcategorical_refuted, C33_lower_triangle, C83_categorical, C83_poisson, C83_multinomial, C83_gaussian, C83_gmm_count, C83_gmm_refuted, C83_vcategorical, C83_vgaussian, C02_poisson_ready, C41_weighted_means, C41_gamma_prior, C41_unused_state_nan, C21_poisson, C25_poisson, C14_poisson, C41_gamma_prior_refuted, C02_gaussian_ready, C32_floored_density, C32_diag_density, C32_spherical_is_diag, C32_never_nan, C21_gaussian_means, C21_gaussian_covars, C25_gaussian, C14_gaussian, C34_means_and_variances, C35_penalised_monotone, C36_frozen_means, C37_matrix_types, C37_fitted_spherical, C34_rare_state_refuted, C35_rare_state_refuted, C37_fitted_spherical_refuted, C36_frozen_means_refuted, C33_full_density, C33_full_is_log_density, C33_tied_is_full, C33_diagonal, C33_subnormal_refuted, C33_regularised, C02_gaussian_full_ready, C25_gaussian_full, C14_gaussian_full, C64_covariances, C65_full_monotone, C36_full_frozen_means, C64_scalar_prior_refuted, C65_collapse_refuted, C02_multinomial_ready, C14_multinomial, C42_normalised_counts, C42_training, C21_multinomial, C25_multinomial, C42_row_sums_refuted, C74_categorical, C74_poisson, C74_multinomial, C74_multinomial_trials, C74_gaussian, C74_matrix, C74_spherical_refuted, C74_gmm, C74_gmm_weights, C74_vcategorical, C74_vgaussian, C75_fitted_gaussian, C75_fitted_gmm, C75_fitted_others, C75_fitted_categorical_refuted, C74_gmm_weights_refuted, C96_score, C96_posteriors, C76_trains, C76_single_samples, C76_single_samples_refuted, C57_gaussian, C76_categorical, C76_poisson, C76_multinomial, C76_gmm, C02_gmm_ready, C38_diag_density, C38_spherical_density, C38_full_density, C38_tied_density, C38_weights, C39_diag, C39_full, C39_tied, C39_spherical_divisor, C40_penalised_monotone, C40_monotone, C25_gmm, C21_gmm, C39_spherical_refuted, C39_spherical_decrease_refuted, C28_gmm_refuted, C58_zero_weight_refuted, C58_finite, C79_gaussian, C79_poisson_partial, C79_categorical_partial, C79_multinomial_partial, C79_gmm_partial, C79_vcategorical_partial, C79_vgaussian, C79_random_state, C79_categorical_refuted, C79_poisson_refuted, C79_multinomial_refuted, C79_gmm_refuted, C01_viterbi_optimal, C01_viterbi_optimal_lengths, C02_score_is_log_likelihood, C02_score_lengths, C03_scaling_agrees, C04_posteriors, C04_posteriors_lengths, C05_posterior_rows, C06_map_decoding, C06_map_decoding_lengths, C07_map_value_not_log_prob, C07_map_log_prob_refuted, C08_viterbi_score_sandwich, C09_score_independent, C09_decode_independent, C10_score_decode_reject, C53_viterbi_rounded, C53_binary64, C22_categorical_warnings, C22_poisson_warnings, C22_gaussian_warnings, C22_multinomial_warnings_partial, C29_gaussian, C29_categorical_reseeded_partial, C29_poisson_reseeded_partial, C29_multinomial_reseeded_partial, C29_second_start, C29_categorical_refuted, C29_multinomial_refuted, C29_poisson_refuted, C22_multinomial_refuted, C31_alphabet, C31_first_fit, C31_later_fit, C42_trials_validated, C42_trials_inferred, C42_trials_remembered_refuted, C43_categorical, C43_multinomial, C43_poisson, C43_gaussian, C43_unset_n_features_refuted, C57_categorical, C57_poisson, C57_multinomial, C43_gmm_count, C43_gmm_partial, C22_gmm_warnings, C43_gmm_refuted, C29_gmm_refuted, C29_gmm_partial, C59_categorical, C59_poisson, C59_multinomial, C59_gaussian, C59_gmm_partial, C59_gmm_refuted, C81_outcome, C81_categorical, C81_poisson, C81_multinomial, C81_gmm, C81_gaussian_partial, C81_lengths, C81_untouched, C81_gaussian_arguments, C81_gaussian_again, C81_gaussian_retry, C81_gaussian_refuted, C81_unchanged_refuted, C81_categorical_again_refuted, C81_multinomial_untouched_refuted, C81_gaussian_mixed_refuted, C93_score, C93_posteriors, C93_viterbi, C93_posteriors_lengths, C93_viterbi_lengths, C95_posteriors_lengths, C95_viterbi_lengths, C95_map, C96_map, C97_map, C25_vcategorical, C25_vgaussian, C14_vcategorical, C14_vgaussian, C14_gmm, C97_score, C97_order, C97_posteriors, C97_viterbi, C55_scaling_factors, C55_relative_error, C55_score, C55_returns, C55_binary_precision, C91_posteriors, C91_map, C91_returns, C91_categorical, C91_categorical_map, C45_invariant_or_nothing, C45_unique, C45_irreducible, C45_all_possible, C84_categorical, C84_poisson, C84_multinomial, C84_gaussian, C84_gmm, C84_vcategorical, C84_vgaussian, C51_categorical_again, C51_poisson_again, C51_multinomial_again, C51_gaussian_again, C51_gmm_again, C51_vcategorical_again, C51_vgaussian_again, C84_poisson_first, C84_multinomial_first, C84_gaussian_first, C84_categorical_first, C84_gmm_first, C84_first_refuted, C84_assigned_refuted, C87_categorical, C87_categorical_answers, C87_poisson, C87_poisson_answers, C87_multinomial, C87_multinomial_answers, C87_gaussian, C87_gaussian_answers, C87_gaussian_full, C87_gaussian_full_answers, C87_origin_refuted, C77_categorical, C77_poisson, C77_multinomial, C77_gaussian, C77_gaussian_full, C78_categorical, C78_poisson, C78_multinomial, C78_gaussian, C78_gaussian_full, C77_gmm, C78_gmm, C92_categorical, C92_poisson, C92_multinomial, C92_gaussian, C92_gaussian_full, C95_score, C95_posteriors, C95_viterbi, C95_stationary, C15_sample_inverts_cdf, C15_sample_currstate_inverts_cdf, C15_start_interval, C15_transition_interval, C16_sampled_path_possible, C16_categorical_sample_possible, C16_sampled_path_possible_refuted, C17_sample_shape, C17_sample_succeeds, C17_sample_continues, C29_vcategorical, C29_vgaussian, C59_vcategorical, C59_vgaussian_partial, C59_vgaussian_refuted, C80_categorical, C80_multinomial, C80_poisson, C80_gaussian, C80_gmm, C80_vcategorical, C80_vgaussian, C80_categorical_seed, C80_vcategorical_seed, C80_integer_generator_refuted, C23_variational, C24_variational, C88_vcategorical, C89_vcategorical_settles, C88_categorical, C88_poisson, C88_multinomial, C88_gaussian, C89_categorical, C89_poisson, C89_multinomial, C89_gaussian, C89_gmm, C89_vcategorical, C89_vgaussian, C89_categorical_settles, C89_poisson_settles, C89_multinomial_settles, C89_gaussian_settles, C13_transition_statistics, C13_same_statistics, C14_mass, C14_occupancy, C56_map_objective_monotone, C18_history_monotone, C18_fit_succeeds, C19_mstep_categorical, C19_fit, C19_startprob_refuted, C20_step, C20_run, C20_fit, C21_base_params, C21_categorical, C23_stopping_and_history, C24_fit, C25_same_training, C26_tol_ignored_refuted, C26_n_iter_ignored_refuted, C46_fit, C46_update, C46_fit_returns, C50_lower_bound, C50_bound_value, C47_weights, C47_estep, C63_kl_dirichlet, C60_point_estimate, C60_after_fit, C61_no_transmat, C61_no_startprob, C61_no_emissionprob, C62_fit_returns, C63_special_functions, C61_fresh_no_transmat, C61_refuted, C61_not_fitted_refuted, C61_no_emissions_refuted, C62_array_prior_refuted, C63_zero_entry, C50_zero_posterior, C50_zero_posterior_refuted, C49_normal, C49_multivariate_normal, C49_gamma, C49_wishart, C49_assertion_refuted, C66_fit, C66_one_iteration, C66_update, C48_positive_partial, C67_lower_bound, C67_bound_value, C68_fit_returns, C47_gaussian_estep, C69_after_fit, C48_params_c_refuted, C21_variational, C21_vcategorical, C21_vgaussian, C22_vcategorical_warnings_partial, C22_vgaussian_warnings_partial, C72_fit_returns, C73_vgaussian_accepts, C73_vgaussian_rejects, C73_vcategorical_accepts, C73_vcategorical_rejects, C73_score, C73_values_refuted, C73_means_prior, C72_last_cluster, C73_means_prior_refuted, C72_equal_samples_refuted, C81_vcategorical, C81_vgaussian, C81_voutcome, C81_vcategorical_lengths, C81_vgaussian_lengths, C81_vcategorical_untouched, C81_vgaussian_untouched, C81_vcategorical_arguments, C81_vgaussian_arguments, C81_vgaussian_retry, C81_vcategorical_retry, C81_vmixed_refuted, C82_categorical, C82_poisson, C82_multinomial, C82_gaussian, C82_gmm, C82_categorical_returns, C82_poisson_returns, C82_multinomial_returns, C82_gaussian_returns, C82_raises_refuted, C82_stop_refuted, C82_vcategorical, C82_vgaussian, C82_vcategorical_returns
* **FD**: C30_exact_lookup
* **FD, FE**: C86_stationary, C27_validation, C27_valid_accepted, C44_normalize, C44_normalize_rows, C51_parameters_unchanged, C37_vector_types, C37_getter_unset, C75_seed, C75_generator, C75_global, C76_poisson_start_rates, C22_categorical, C22_poisson, C22_multinomial_partial, C43_simplex_dim, C22_gmm, C45_reducible_refuted, C19_mstep, C24_report, C62_init, C62_array_prior, C22_vcategorical_partial, C22_variational_refuted, C22_variational_silent_refuted
* **FD, FE, ND**: C71_spherical, C71_diag_partial, C71_tied_partial, C71_full_partial, C71_symmetric, C71_asymmetric_refuted, C71_shape_refuted, C71_nan_refuted, C70_start_covariances, C70_one_sample, C70_init, C70_spherical_refuted, C70_one_sample_refuted, C22_gaussian, C22_vgaussian_partial, C72_init
* **closed**: C10_split, C10_lengths_validation_refuted, C43_symmetric_dim
