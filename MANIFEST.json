{
 "claims": [
  {
   "property": "C01",
   "status": "proved",
   "theorems": [
    "C01_viterbi_optimal",
    "C01_viterbi_optimal_lengths"
   ],
   "note": "exact arithmetic; every emission class through `ready`; see C53 for rounded arithmetic"
  },
  {
   "property": "C02",
   "status": "proved",
   "theorems": [
    "C02_score_is_log_likelihood",
    "C02_score_lengths",
    "C02_poisson_ready",
    "C02_gaussian_ready",
    "C02_multinomial_ready",
    "C02_gmm_ready",
    "C02_gaussian_full_ready"
   ],
   "note": "exact arithmetic"
  },
  {
   "property": "C03",
   "status": "proved",
   "theorems": [
    "C03_scaling_agrees"
   ],
   "note": "exact arithmetic"
  },
  {
   "property": "C04",
   "status": "proved",
   "theorems": [
    "C04_posteriors",
    "C04_posteriors_lengths"
   ],
   "note": ""
  },
  {
   "property": "C05",
   "status": "proved",
   "theorems": [
    "C05_posterior_rows"
   ],
   "note": ""
  },
  {
   "property": "C06",
   "status": "proved",
   "theorems": [
    "C06_map_decoding",
    "C06_map_decoding_lengths"
   ],
   "note": ""
  },
  {
   "property": "C07",
   "status": "partial",
   "theorems": [
    "C07_map_log_prob_refuted",
    "C07_map_value_not_log_prob"
   ],
   "note": "false of the code as stated: the theorems refute it and give the value actually returned"
  },
  {
   "property": "C08",
   "status": "proved",
   "theorems": [
    "C08_viterbi_score_sandwich"
   ],
   "note": ""
  },
  {
   "property": "C09",
   "status": "proved",
   "theorems": [
    "C09_score_independent",
    "C09_decode_independent"
   ],
   "note": ""
  },
  {
   "property": "C10",
   "status": "partial",
   "theorems": [
    "C10_split",
    "C10_score_decode_reject",
    "C10_lengths_validation_refuted"
   ],
   "note": "splitting and rejection of wrong sums proved for non-empty lists; as stated false for empty lengths (IndexError) and negative lengths (accepted): refuted"
  },
  {
   "property": "C11",
   "status": "proved",
   "theorems": [
    "C11_score",
    "C11_posteriors",
    "C11_viterbi"
   ],
   "note": "every emission class through `ready`; log implementation, exact arithmetic"
  },
  {
   "property": "C12",
   "status": "proved",
   "theorems": [
    "C12_sums_to_one",
    "C12_score_decreases"
   ],
   "note": "exact arithmetic"
  },
  {
   "property": "C13",
   "status": "proved",
   "theorems": [
    "C13_transition_statistics",
    "C13_same_statistics"
   ],
   "note": "exact arithmetic, every emission class"
  },
  {
   "property": "C14",
   "status": "proved",
   "theorems": [
    "C14_mass",
    "C14_occupancy",
    "C14_poisson",
    "C14_gaussian",
    "C14_multinomial",
    "C14_gaussian_full",
    "C14_gmm",
    "C14_vcategorical",
    "C14_vgaussian"
   ],
   "note": "start/transition mass for every class; emission statistics for every class (GMMHMM: each state's share is again divided among its components)"
  },
  {
   "property": "C15",
   "status": "proved",
   "theorems": [
    "C15_sample_inverts_cdf",
    "C15_sample_currstate_inverts_cdf",
    "C15_start_interval",
    "C15_transition_interval"
   ],
   "note": "for every generator and emission sampler; draws in [0,1)"
  },
  {
   "property": "C16",
   "status": "partial",
   "theorems": [
    "C16_sampled_path_possible",
    "C16_categorical_sample_possible",
    "C16_sampled_path_possible_refuted"
   ],
   "note": "proved when the parameters sum to exactly 1; false for parameters accepted by _check whose sum is below 1 (refuted)"
  },
  {
   "property": "C17",
   "status": "proved",
   "theorems": [
    "C17_sample_shape",
    "C17_sample_succeeds",
    "C17_sample_continues"
   ],
   "note": ""
  },
  {
   "property": "C18",
   "status": "proved",
   "theorems": [
    "C18_history_monotone",
    "C18_fit_succeeds"
   ],
   "note": "CategoricalHMM, exact arithmetic, initial rows summing to at most 1, default (flat) priors"
  },
  {
   "property": "C19",
   "status": "partial",
   "theorems": [
    "C19_mstep",
    "C19_mstep_categorical",
    "C19_fit",
    "C19_startprob_refuted"
   ],
   "note": "transmat_ and emissionprob_ proved for all priors, startprob_ unless every start weight is clipped; then it becomes NaN (refuted)"
  },
  {
   "property": "C20",
   "status": "proved",
   "theorems": [
    "C20_step",
    "C20_run",
    "C20_fit"
   ],
   "note": "any class and rounding up to NaN; no proviso in exact arithmetic with priors >= 1 (CategoricalHMM)"
  },
  {
   "property": "C21",
   "status": "proved",
   "theorems": [
    "C21_base_params",
    "C21_categorical",
    "C21_poisson",
    "C21_gaussian_means",
    "C21_gaussian_covars",
    "C21_multinomial",
    "C21_gmm",
    "C21_variational",
    "C21_vcategorical",
    "C21_vgaussian"
   ],
   "note": "all classes, any rounding, whenever the iterations return; startprob_/transmat_ once for every EM class and once for every variational class"
  },
  {
   "property": "C22",
   "status": "partial",
   "theorems": [
    "C22_categorical",
    "C22_categorical_warnings",
    "C22_poisson",
    "C22_poisson_warnings",
    "C22_gaussian",
    "C22_gaussian_warnings",
    "C22_multinomial_partial",
    "C22_multinomial_warnings_partial",
    "C22_multinomial_refuted",
    "C22_gmm",
    "C22_gmm_warnings",
    "C22_vcategorical_partial",
    "C22_vcategorical_warnings_partial",
    "C22_vgaussian_partial",
    "C22_vgaussian_warnings_partial",
    "C22_variational_refuted",
    "C22_variational_silent_refuted"
   ],
   "note": "proved for CategoricalHMM, PoissonHMM, GaussianHMM, GMMHMM (any rounding, any generator); false for the emission matrix of MultinomialHMM and for the variational classes, where the attributes of one letter are replaced together as soon as one of them is unset and only the first name is ever warned about; the exact rule of these classes is proved"
  },
  {
   "property": "C23",
   "status": "proved",
   "theorems": [
    "C23_stopping_and_history",
    "C23_variational"
   ],
   "note": "any class and rounding; fit after initialisation"
  },
  {
   "property": "C24",
   "status": "proved",
   "theorems": [
    "C24_report",
    "C24_fit",
    "C24_variational"
   ],
   "note": "any rounding"
  },
  {
   "property": "C25",
   "status": "partial",
   "theorems": [
    "C25_same_training",
    "C25_poisson",
    "C25_gaussian",
    "C25_multinomial",
    "C25_gmm",
    "C25_gaussian_full",
    "C25_vcategorical",
    "C25_vgaussian"
   ],
   "note": "every class and covariance type, exact arithmetic; assumes priors >= 1 (point-estimate classes) and, for VariationalGaussianHMM, params not containing 'c' without 'm' (then scale matrices may leave the positive definite cone, C48_params_c_refuted)"
  },
  {
   "property": "C26",
   "status": "partial",
   "theorems": [
    "C26_tol_ignored_refuted",
    "C26_n_iter_ignored_refuted"
   ],
   "note": "false of the code as stated (monitor_ is built once by the constructor): both theorems refute it"
  },
  {
   "property": "C27",
   "status": "proved",
   "theorems": [
    "C27_validation",
    "C27_methods_reject",
    "C27_valid_accepted",
    "C27_negative_probabilities_refuted"
   ],
   "note": "the documented conditions are checked exactly; finding: non-negativity is not one of them (refuted theorem)"
  },
  {
   "property": "C28",
   "status": "partial",
   "theorems": [
    "C28_fit_then_use_refuted",
    "C28_single_samples",
    "C28_usable_iff",
    "C28_gmm_refuted"
   ],
   "note": "false of the code as stated: refuted with a witness; proved: the exact condition under which a fitted CategoricalHMM is accepted again; a second witness for GMMHMM (negative variance)"
  },
  {
   "property": "C29",
   "status": "partial",
   "theorems": [
    "C29_gaussian",
    "C29_categorical_reseeded_partial",
    "C29_poisson_reseeded_partial",
    "C29_multinomial_reseeded_partial",
    "C29_second_start",
    "C29_categorical_refuted",
    "C29_multinomial_refuted",
    "C29_poisson_refuted",
    "C29_gmm_partial",
    "C29_gmm_refuted",
    "C29_vcategorical",
    "C29_vgaussian"
   ],
   "note": "true for GaussianHMM, VariationalCategoricalHMM and VariationalGaussianHMM; false for Categorical, Multinomial and PoissonHMM, whose _init replaces the integer by a generator object (there it holds when the integer is assigned again); false for GMMHMM when a cluster has fewer than n_mix samples (the global generator is used), true otherwise"
  },
  {
   "property": "C30",
   "status": "partial",
   "theorems": [
    "C30_exact_lookup",
    "C30_out_of_range",
    "C30_negative_symbols",
    "C30_rejects_negative_refuted"
   ],
   "note": "lookup and rejection of symbols outside -n_features..n_features-1 proved; rejection of negative symbols is false of the code (refuted): they read other columns"
  },
  {
   "property": "C31",
   "status": "proved",
   "theorems": [
    "C31_alphabet",
    "C31_first_fit",
    "C31_later_fit",
    "C19_mstep_categorical"
   ],
   "note": "the two iff statements in exact arithmetic, for otherwise valid arguments and a sane generator; C31_alphabet for any arithmetic; columns: C19_mstep_categorical"
  },
  {
   "property": "C32",
   "status": "proved",
   "theorems": [
    "C32_floored_density",
    "C32_diag_density",
    "C32_spherical_is_diag",
    "C32_never_nan"
   ],
   "note": "densities in exact arithmetic; never-NaN also for binary64 with finite variances (including zero and negative ones)"
  },
  {
   "property": "C33",
   "status": "partial",
   "theorems": [
    "C33_full_density",
    "C33_full_is_log_density",
    "C33_tied_is_full",
    "C33_diagonal",
    "C33_regularised",
    "C33_subnormal_refuted",
    "C33_lower_triangle"
   ],
   "note": "'full' on positive-definite matrices and 'tied' proved as stated (exact arithmetic; 'tied' in every rounding mode); 'full' on a diagonal matrix equals 'diag' for variances >= 2^-1022 and differs below, where 'diag' floors the variance; symmetric matrices that are not positive definite are replaced by themselves plus 1e-7 on the diagonal or rejected"
  },
  {
   "property": "C34",
   "status": "partial",
   "theorems": [
    "C34_means_and_variances",
    "C34_rare_state_refuted"
   ],
   "note": "means and positivity proved for whole training runs (diag, spherical); the scatter clause holds when every occupancy is at least 1e-5 and is refuted for rarer states"
  },
  {
   "property": "C35",
   "status": "partial",
   "theorems": [
    "C35_penalised_monotone",
    "C35_rare_state_refuted"
   ],
   "note": "proved for every iteration in which all occupancies are at least 1e-5 (and whenever covariances are not trained); refuted for rarer states"
  },
  {
   "property": "C36",
   "status": "partial",
   "theorems": [
    "C36_frozen_means",
    "C36_frozen_means_refuted",
    "C36_full_frozen_means"
   ],
   "note": "false of the code: for diag and spherical the variances become 1e5 * (prior + weighted sum of squares); for full and tied every entry becomes infinite or NaN and scoring raises; refuted, and what is computed is proved"
  },
  {
   "property": "C37",
   "status": "partial",
   "theorems": [
    "C37_vector_types",
    "C37_matrix_types",
    "C37_fitted_spherical",
    "C37_fitted_spherical_refuted",
    "C37_getter_unset"
   ],
   "note": "proved for user-set values of all four types; false after fit with \"spherical\" and n_features > 1"
  },
  {
   "property": "C38",
   "status": "proved",
   "theorems": [
    "C38_diag_density",
    "C38_spherical_density",
    "C38_full_density",
    "C38_tied_density",
    "C38_weights"
   ],
   "note": "exact arithmetic"
  },
  {
   "property": "C39",
   "status": "partial",
   "theorems": [
    "C39_diag",
    "C39_full",
    "C39_tied",
    "C39_spherical_divisor",
    "C39_spherical_refuted",
    "C39_spherical_decrease_refuted"
   ],
   "note": "proved for diag, full and tied; false for spherical: the default prior depends on n_mix instead of n_features (refuted, exact divisor proved). The scatter is about the previous means"
  },
  {
   "property": "C40",
   "status": "proved",
   "theorems": [
    "C40_monotone",
    "C40_penalised_monotone"
   ],
   "note": "exact arithmetic"
  },
  {
   "property": "C41",
   "status": "partial",
   "theorems": [
    "C41_weighted_means",
    "C41_gamma_prior",
    "C41_gamma_prior_refuted",
    "C41_unused_state_nan"
   ],
   "note": "weighted means and monotone likelihood proved for whole training runs; the gamma-prior clause is false of the code (the total number of samples is used instead of the occupancy) and refuted"
  },
  {
   "property": "C42",
   "status": "partial",
   "theorems": [
    "C42_normalised_counts",
    "C42_training",
    "C42_trials_validated",
    "C42_trials_inferred",
    "C42_row_sums_refuted",
    "C42_trials_remembered_refuted"
   ],
   "note": "proved for a given n_trials; totals inferred by a first fit are enforced on later fits although n_trials was not given"
  },
  {
   "property": "C43",
   "status": "partial",
   "theorems": [
    "C43_simplex_dim",
    "C43_symmetric_dim",
    "C43_categorical",
    "C43_multinomial",
    "C43_poisson",
    "C43_gaussian",
    "C43_unset_n_features_refuted",
    "C43_gmm_count",
    "C43_gmm_partial",
    "C43_gmm_refuted"
   ],
   "note": "proved for Categorical, Multinomial, Poisson and GaussianHMM (all covariance types) once n_features is stored; both methods raise before that; false for GMMHMM with at least two states and two mixture components (the weights are counted for one state only), true for GMMHMM otherwise"
  },
  {
   "property": "C44",
   "status": "proved",
   "theorems": [
    "C44_normalize",
    "C44_normalize_rows",
    "C44_log_normalize",
    "C44_log_normalize_single_column"
   ],
   "note": "exact arithmetic; log_normalize on matrices in which no row is entirely -inf"
  },
  {
   "property": "C45",
   "status": "partial",
   "theorems": [
    "C45_invariant_or_nothing",
    "C45_unique",
    "C45_irreducible",
    "C45_all_possible",
    "C45_reducible_refuted"
   ],
   "note": "scipy.linalg.eig assumed right on the matrix at hand (eig_right: all eigenvalues, real eigenvectors for real eigenvalues); proved when the stationary distribution is unique, in particular when all states communicate or all transitions are possible; with several closed classes an admissible eigenvector sums to 0 and no entry of the result is a number: refuted"
  },
  {
   "property": "C46",
   "status": "proved",
   "theorems": [
    "C46_fit",
    "C46_update",
    "C46_fit_returns"
   ],
   "note": "VariationalCategoricalHMM; expected counts are those of the path distribution with weights exp(E[ln parameter]); entries of parameters not in params keep their value"
  },
  {
   "property": "C47",
   "status": "proved",
   "theorems": [
    "C47_weights",
    "C47_estep",
    "C47_gaussian_estep"
   ],
   "note": "both variational classes; VariationalCategoricalHMM and VariationalGaussianHMM, both implementations"
  },
  {
   "property": "C48",
   "status": "partial",
   "theorems": [
    "C48_positive_partial",
    "C48_params_c_refuted"
   ],
   "note": "proved for params with 'm' or without 'c'; with 'c' and without 'm' scale_posterior_ can become negative: refuted"
  },
  {
   "property": "C49",
   "status": "partial",
   "theorems": [
    "C49_normal",
    "C49_multivariate_normal",
    "C49_gamma",
    "C49_wishart",
    "C49_assertion_refuted"
   ],
   "note": "in exact arithmetic every divergence is non-negative (normal: zero iff the distributions coincide; numpy.linalg inv/slogdet assumed right on positive definite matrices); refuted in binary64, where the assertion of kl_normal_distribution fails for variances 3 and 3 - 2^-50"
  },
  {
   "property": "C50",
   "status": "partial",
   "theorems": [
    "C50_lower_bound",
    "C50_bound_value",
    "C50_zero_posterior",
    "C50_zero_posterior_refuted"
   ],
   "note": "proved for positive posteriors (any params); refuted for a posterior with a zero entry, where the first recorded bound is NaN"
  },
  {
   "property": "C51",
   "status": "proved",
   "theorems": [
    "C51_categorical",
    "C51_categorical_again",
    "C51_gaussian_again",
    "C51_gmm_again",
    "C51_multinomial_again",
    "C51_parameters_unchanged",
    "C51_poisson_again",
    "C51_repeated_calls",
    "C51_vcategorical_again",
    "C51_vgaussian_again"
   ],
   "note": "any rounding; for every class, also if the first call raises: n_features and the shapes of GMMHMM's priors are all that can change"
  },
  {
   "property": "C52",
   "status": "partial",
   "theorems": [
    "C52_unknown_algorithm",
    "C52_known_algorithms",
    "C52_unknown_implementation",
    "C52_implementation_checked_refuted"
   ],
   "note": "proved for algorithm names, and for implementation in scoring and fit; false for Viterbi decoding, which never looks at implementation (refuted)"
  },
  {
   "property": "C53",
   "status": "proved",
   "theorems": [
    "C53_viterbi_rounded",
    "C53_binary64"
   ],
   "note": "any monotone idempotent rounding; libm log is taken as the rounded logarithm"
  },
  {
   "property": "C54",
   "status": "partial",
   "theorems": [
    "C54_shape_mismatch",
    "C54_xi_shape_mismatch",
    "C54_shapes_match",
    "C54_zero_length",
    "C54_zero_length_refuted"
   ],
   "note": "shape checks proved; the zero-length half is false of the code (refuted)"
  },
  {
   "property": "C55",
   "status": "proved",
   "theorems": [
    "C55_scaling_factors",
    "C55_relative_error",
    "C55_score",
    "C55_returns",
    "C55_binary_precision"
   ],
   "note": "relative error at most u in every operation including log (no underflow or overflow); k = T*(n_components+3)+n_components; sums are sequential as in the C++ code; the emission likelihoods handed to the kernel are taken as given"
  },
  {
   "property": "C56",
   "status": "proved",
   "theorems": [
    "C56_map_objective_monotone"
   ],
   "note": "CategoricalHMM, exact arithmetic, all priors >= 1"
  },
  {
   "property": "C57",
   "status": "proved",
   "theorems": [
    "C57_categorical",
    "C57_poisson",
    "C57_multinomial",
    "C57_gaussian"
   ],
   "note": ""
  },
  {
   "property": "C58",
   "status": "partial",
   "theorems": [
    "C58_finite",
    "C58_zero_weight_refuted"
   ],
   "note": "false of the code as stated (a zero mixture weight gives NaN); proved for positive weights, spherical needs n_mix <= n_features"
  },
  {
   "property": "C59",
   "status": "partial",
   "theorems": [
    "C59_categorical",
    "C59_poisson",
    "C59_multinomial",
    "C59_gaussian",
    "C59_gmm_partial",
    "C59_gmm_refuted",
    "C59_vcategorical",
    "C59_vgaussian_partial",
    "C59_vgaussian_refuted"
   ],
   "note": "proved for Categorical, Poisson, Multinomial, GaussianHMM and VariationalCategoricalHMM; false for GMMHMM and VariationalGaussianHMM, which always cluster the data: with fewer samples than states fit raises; there only the trained model is independent of the generators"
  },
  {
   "property": "C60",
   "status": "proved",
   "theorems": [
    "C60_point_estimate",
    "C60_after_fit"
   ],
   "note": ""
  },
  {
   "property": "C61",
   "status": "partial",
   "theorems": [
    "C61_no_transmat",
    "C61_fresh_no_transmat",
    "C61_no_startprob",
    "C61_no_emissionprob",
    "C61_refuted",
    "C61_not_fitted_refuted",
    "C61_no_emissions_refuted"
   ],
   "note": "false: each of the three letters, when left out, makes fit or the following score raise; with t in params fit returns (C46_fit_returns) and with all three score works (C60_after_fit)"
  },
  {
   "property": "C62",
   "status": "partial",
   "theorems": [
    "C62_init",
    "C62_fit_returns",
    "C62_array_prior",
    "C62_array_prior_refuted",
    "C62_default"
   ],
   "note": "proved for scalar or absent priors under the assumption that Dirichlet draws are positive and sum to 1; refuted for the documented array form of emissionprob_prior"
  },
  {
   "property": "C63",
   "status": "proved",
   "theorems": [
    "C63_kl_dirichlet",
    "C63_zero_entry",
    "C63_special_functions"
   ],
   "note": "for two or more entries; with one entry both distributions are the same point mass and the divergence is zero; gammaln and digamma are taken to be exact"
  },
  {
   "property": "C64",
   "status": "partial",
   "theorems": [
    "C64_covariances",
    "C64_scalar_prior_refuted"
   ],
   "note": "formulas, symmetry, semi-definiteness and definiteness under a positive definite matrix covars_prior proved; a positive scalar covars_prior (the default 0.01) is added to every entry of the matrix and does not make it positive definite: refuted. Scalar means_weight; every state used, or means_weight and covars_weight large enough for the divisions to be defined"
  },
  {
   "property": "C65",
   "status": "partial",
   "theorems": [
    "C65_full_monotone",
    "C65_collapse_refuted"
   ],
   "note": "proved for every iteration whose updated covariances are positive definite (always, if covars_prior is a positive definite matrix, by C64_covariances); refuted when an update is singular, because scoring then adds 1e-7 to the diagonal; scalar means_weight"
  },
  {
   "property": "C66",
   "status": "proved",
   "theorems": [
    "C66_fit",
    "C66_one_iteration",
    "C66_update"
   ],
   "note": "numpy.linalg.inv and slogdet assumed right on positive definite matrices (la_right); parameters after initialisation"
  },
  {
   "property": "C67",
   "status": "proved",
   "theorems": [
    "C67_lower_bound",
    "C67_bound_value"
   ],
   "note": "the weights leave out the constant factor (2 pi)^(-n_features/2) per sample, as the code does; la_right"
  },
  {
   "property": "C68",
   "status": "proved",
   "theorems": [
    "C68_fit_returns"
   ],
   "note": "'t' in params or transmat_ set (see C61); la_right"
  },
  {
   "property": "C69",
   "status": "proved",
   "theorems": [
    "C69_after_fit"
   ],
   "note": "all four letters in params and n_iter > 0; la_right"
  },
  {
   "property": "C70",
   "status": "partial",
   "theorems": [
    "C70_start_covariances",
    "C70_init",
    "C70_one_sample",
    "C70_spherical_refuted",
    "C70_one_sample_refuted"
   ],
   "note": "proved for two or more samples and 'full', 'tied', 'diag'; 'spherical' starts from the mean of all entries of the matrix, not of its diagonal: refuted; with one sample the covariances are NaN: refuted"
  },
  {
   "property": "C71",
   "status": "partial",
   "theorems": [
    "C71_spherical",
    "C71_tied_partial",
    "C71_symmetric",
    "C71_diag_partial",
    "C71_full_partial",
    "C71_shape_refuted",
    "C71_nan_refuted",
    "C71_asymmetric_refuted"
   ],
   "note": "positivity proved to be decided exactly for finite arrays (for 'full' and 'tied': from the lower triangle, together with symmetry up to numpy's default tolerances); the number of components and features is not checked for 'diag' and 'full', NaN variances and slightly asymmetric matrices are accepted: refuted"
  },
  {
   "property": "C72",
   "status": "partial",
   "theorems": [
    "C72_init",
    "C72_fit_returns",
    "C72_last_cluster",
    "C72_equal_samples_refuted"
   ],
   "note": "proved when k-means gives every cluster at least n_features samples (log implementation, numpy.linalg.inv/slogdet as la_right, Dirichlet draws positive and summing to 1); with fewer distinct samples than states k-means leaves the last cluster empty and fit raises ValueError about beta_posterior_: refuted"
  },
  {
   "property": "C73",
   "status": "partial",
   "theorems": [
    "C73_vgaussian_accepts",
    "C73_vgaussian_rejects",
    "C73_vcategorical_accepts",
    "C73_vcategorical_rejects",
    "C73_score",
    "C73_means_prior",
    "C73_means_prior_refuted",
    "C73_values_refuted"
   ],
   "note": "shapes are decided exactly; values are not looked at: refuted; the documented shape (n_components,) of means_prior is rejected: refuted"
  },
  {
   "property": "C74",
   "status": "partial",
   "theorems": [
    "C74_categorical",
    "C74_poisson",
    "C74_multinomial",
    "C74_multinomial_trials",
    "C74_gaussian",
    "C74_matrix",
    "C74_spherical_refuted",
    "C74_gmm",
    "C74_gmm_weights",
    "C74_gmm_weights_refuted",
    "C74_vcategorical",
    "C74_vgaussian"
   ],
   "note": "proved for all classes except GaussianHMM 'spherical' after fit (variances per feature stored, sample uses another state's variance: refuted) and GMMHMM weights summing to 1 only within 1e-5 (sample raises ValueError although the model validates and scores: refuted); multinomial needs one common n_trials; numpy's normal, Poisson and multinomial samplers are arbitrary functions of their parameters"
  },
  {
   "property": "C75",
   "status": "partial",
   "theorems": [
    "C75_seed",
    "C75_generator",
    "C75_global",
    "C75_fitted_gaussian",
    "C75_fitted_gmm",
    "C75_fitted_others",
    "C75_fitted_categorical_refuted"
   ],
   "note": "proved; after fit only GaussianHMM and GMMHMM keep the integer, the other classes replace it by a generator so repeated calls of sample differ: refuted for CategoricalHMM"
  },
  {
   "property": "C76",
   "status": "partial",
   "theorems": [
    "C76_trains",
    "C76_single_samples",
    "C76_single_samples_refuted",
    "C76_categorical",
    "C76_poisson",
    "C76_poisson_start_rates",
    "C76_multinomial",
    "C76_gmm",
    "C76_default_categorical",
    "C76_default_poisson",
    "C76_default_multinomial",
    "C76_default_gaussian",
    "C76_default_gmm"
   ],
   "note": "proved for GaussianHMM (all covariance types; for full and tied, params with 'c' must also contain 'm'; at least two samples), CategoricalHMM, PoissonHMM (counts not all equal) and MultinomialHMM (every sample with a positive total), and GMMHMM (all covariance types; spherical: n_mix <= n_features; at least n_components and two samples; eigvalsh reports no negative eigenvalue for positive semidefinite matrices). If all sequences have one sample, fit still returns but every later call raises ValueError because the transition matrix becomes zero: refuted"
  },
  {
   "property": "C77",
   "status": "proved",
   "theorems": [
    "C77_categorical",
    "C77_poisson",
    "C77_multinomial",
    "C77_gaussian",
    "C77_gaussian_full",
    "C77_gmm"
   ],
   "note": "gaussian: diag and spherical covariances; gaussian_full: full and tied covariances; the second estimator is required to be a valid model with the renumbered parameters, the run of the first to succeed"
  },
  {
   "property": "C78",
   "status": "proved",
   "theorems": [
    "C78_categorical",
    "C78_poisson",
    "C78_multinomial",
    "C78_gaussian",
    "C78_gaussian_full",
    "C78_gmm"
   ],
   "note": "gaussian: diag and spherical covariances; gaussian_full: full and tied covariances"
  },
  {
   "property": "C79",
   "status": "partial",
   "theorems": [
    "C79_gaussian",
    "C79_vgaussian",
    "C79_categorical_partial",
    "C79_poisson_partial",
    "C79_multinomial_partial",
    "C79_gmm_partial",
    "C79_vcategorical_partial",
    "C79_random_state",
    "C79_categorical_refuted",
    "C79_poisson_refuted",
    "C79_multinomial_refuted",
    "C79_gmm_refuted"
   ],
   "note": "true of GaussianHMM and VariationalGaussianHMM; refuted for the other classes, whose _partial theorems give the arguments that are kept and what the others become"
  },
  {
   "property": "C80",
   "status": "partial",
   "theorems": [
    "C80_categorical",
    "C80_multinomial",
    "C80_poisson",
    "C80_gaussian",
    "C80_gmm",
    "C80_vcategorical",
    "C80_vgaussian",
    "C80_categorical_seed",
    "C80_vcategorical_seed",
    "C80_integer_generator_refuted"
   ],
   "note": "refuted for integers: the emission parameters start from the seed again (C80_vcategorical_seed, C80_integer_generator_refuted). The theorems give the state each value is drawn from; for generator objects it is the state where the transition matrix stopped, as stated. GMMHMM: which generator the within-cluster KMeans uses is stated for integers only"
  },
  {
   "property": "C81",
   "status": "partial",
   "theorems": [
    "C81_outcome",
    "C81_categorical",
    "C81_poisson",
    "C81_multinomial",
    "C81_gmm",
    "C81_gaussian_partial",
    "C81_gaussian_refuted",
    "C81_lengths",
    "C81_unchanged_refuted",
    "C81_untouched",
    "C81_multinomial_untouched_refuted",
    "C81_gaussian_arguments",
    "C81_gaussian_again",
    "C81_gaussian_retry",
    "C81_categorical_again_refuted",
    "C81_voutcome",
    "C81_vcategorical",
    "C81_vgaussian",
    "C81_vcategorical_lengths",
    "C81_vgaussian_lengths",
    "C81_vcategorical_untouched",
    "C81_vgaussian_untouched",
    "C81_vcategorical_arguments",
    "C81_vgaussian_arguments",
    "C81_vgaussian_retry",
    "C81_vcategorical_retry",
    "C81_gaussian_mixed_refuted",
    "C81_vmixed_refuted"
   ],
   "note": "complete iterations: proved for CategoricalHMM, PoissonHMM, MultinomialHMM and GMMHMM, refuted for GaussianHMM (array covars_weight), where all but startprob_, transmat_ and means_ is proved. Rejected data: refuted for MultinomialHMM (n_features stays). Trying again: proved for GaussianHMM, refuted for CategoricalHMM (random_state was replaced). Wrong lengths are only noticed after the start values have replaced the parameters (C81_lengths, C81_unchanged_refuted). For the variational classes everything is proved once the start values have been set (complete iterations up to the derived attribute emissionprob_log_subnorm_; trying again provided n_features, where the failed call set it, is that of the new data). A transmat_prior that cannot be broadcast is noticed after the start attributes have been replaced (C81_vmixed_refuted)"
  },
  {
   "property": "C82",
   "status": "partial",
   "theorems": [
    "C82_categorical",
    "C82_poisson",
    "C82_multinomial",
    "C82_gaussian",
    "C82_gmm",
    "C82_categorical_returns",
    "C82_poisson_returns",
    "C82_multinomial_returns",
    "C82_gaussian_returns",
    "C82_raises_refuted",
    "C82_stop_refuted",
    "C82_vcategorical",
    "C82_vgaussian",
    "C82_vcategorical_returns"
   ],
   "note": "proved for all seven classes when the second call returns and the single call makes at least a+2 or exactly a+b iterations (GaussianHMM: means_ has n_features columns). The second call returns if the model passes _check (GaussianHMM: and covars_ can be read; VariationalCategoricalHMM: log implementation, exact arithmetic; not proved for GMMHMM and VariationalGaussianHMM); otherwise it may raise (C82_raises_refuted). The tolerance is not compared across the two calls, so the second part can make iterations the single call would not (C82_stop_refuted)"
  },
  {
   "property": "C83",
   "status": "partial",
   "theorems": [
    "C83_categorical",
    "C83_poisson",
    "C83_multinomial",
    "C83_gaussian",
    "C83_gmm_count",
    "C83_gmm_refuted",
    "C83_vcategorical",
    "C83_vgaussian"
   ],
   "note": "proved for all classes but GMMHMM, which counts the mixture weights of a single state (C83_gmm_count, C83_gmm_refuted: 13 free parameters, 12 numbers, no warning). A letter that occurs twice in params counts twice. MultinomialHMM: X has at least one column"
  },
  {
   "property": "C84",
   "status": "partial",
   "theorems": [
    "C84_categorical",
    "C84_poisson",
    "C84_multinomial",
    "C84_gaussian",
    "C84_gmm",
    "C84_vcategorical",
    "C84_vgaussian",
    "C84_poisson_first",
    "C84_multinomial_first",
    "C84_gaussian_first",
    "C84_categorical_first",
    "C84_gmm_first",
    "C84_first_refuted",
    "C84_assigned_refuted"
   ],
   "note": "after fit: proved for every class, GaussianHMM with scalar means_prior and means_weight; a query changes at most n_features (and, GMMHMM, the shapes of the priors). False before the first fit, where a query fixes n_features (C84_first_refuted), and after means_ of another width was assigned to a fitted GaussianHMM (C84_assigned_refuted); the *_first theorems say exactly when a later fit is unaffected and when it raises"
  },
  {
   "property": "C85",
   "status": "proved",
   "theorems": [
    "C85_categorical",
    "C85_poisson",
    "C85_multinomial",
    "C85_gaussian",
    "C85_gmm",
    "C85_vcategorical",
    "C85_vgaussian"
   ],
   "note": "every class; any data and rounding. Sizes of the results: lengths not negative; for the variational classes the number of states is the length of startprob_"
  },
  {
   "property": "C86",
   "status": "partial",
   "theorems": [
    "C86_unfitted",
    "C86_vunfitted",
    "C86_stationary",
    "C86_categorical",
    "C86_poisson",
    "C86_multinomial",
    "C86_gaussian",
    "C86_gmm",
    "C86_vcategorical",
    "C86_vgaussian",
    "C86_criteria",
    "C86_criteria_categorical",
    "C86_criteria_poisson",
    "C86_criteria_multinomial",
    "C86_criteria_gaussian",
    "C86_criteria_gmm",
    "C86_after_fit",
    "C86_criteria_refuted"
   ],
   "note": "proved except for aic and bic, where it is false: they count the parameters first, and an estimator whose n_features is not known raises TypeError (CategoricalHMM) or AttributeError (C86_criteria_refuted); with n_features known it is true (C86_criteria_*). After fit: BaseHMM classes (for the variational classes see C61_no_startprob)"
  },
  {
   "property": "C87",
   "status": "partial",
   "theorems": [
    "C87_categorical",
    "C87_categorical_answers",
    "C87_poisson",
    "C87_poisson_answers",
    "C87_multinomial",
    "C87_multinomial_answers",
    "C87_gaussian",
    "C87_gaussian_answers",
    "C87_gaussian_full",
    "C87_gaussian_full_answers",
    "C87_origin_refuted"
   ],
   "note": "false of GaussianHMM if the covariances are trained and the means are not: the variances then depend on the origin (C87_origin_refuted). Proved otherwise, over the exact reals, for start values that are given and priors of at least 1. Tied and full covariances: the origin only"
  },
  {
   "property": "C88",
   "status": "proved",
   "theorems": [
    "C88_vcategorical",
    "C88_categorical",
    "C88_poisson",
    "C88_multinomial",
    "C88_gaussian"
   ],
   "note": "exact arithmetic; start values given"
  },
  {
   "property": "C89",
   "status": "proved",
   "theorems": [
    "C89_vcategorical_settles",
    "C89_categorical",
    "C89_poisson",
    "C89_multinomial",
    "C89_gaussian",
    "C89_gmm",
    "C89_vcategorical",
    "C89_vgaussian",
    "C89_categorical_settles",
    "C89_poisson_settles",
    "C89_multinomial_settles",
    "C89_gaussian_settles"
   ],
   "note": "the first part for any rounding"
  },
  {
   "property": "C90",
   "status": "partial",
   "theorems": [
    "C90_gaussian",
    "C90_gaussian_trains",
    "C90_vgaussian",
    "C90_vgaussian_trains",
    "C90_gmm_partial",
    "C90_categorical_partial",
    "C90_poisson_partial",
    "C90_multinomial_partial",
    "C90_vcategorical_partial",
    "C90_unfitted",
    "C90_vunfitted",
    "C90_obeys",
    "C90_vobeys",
    "C90_seed_refuted",
    "C90_n_features_refuted",
    "C90_n_trials_refuted",
    "C90_gmm_refuted",
    "C90_vcategorical_refuted"
   ],
   "note": "holds for GaussianHMM and VariationalGaussianHMM; refuted for the other classes, whose fit overwrites random_state, n_features, n_trials or the priors; what remains true of them is proved (\u2026_partial)"
  },
  {
   "property": "C91",
   "status": "proved",
   "theorems": [
    "C91_posteriors",
    "C91_map",
    "C91_returns",
    "C91_categorical",
    "C91_categorical_map"
   ],
   "note": "rounding with unbounded exponents; the bound concerns the operations of the two passes and the normalisation, with the emission likelihoods as computed by the class"
  },
  {
   "property": "C92",
   "status": "proved",
   "theorems": [
    "C92_categorical",
    "C92_poisson",
    "C92_multinomial",
    "C92_gaussian",
    "C92_gaussian_full"
   ],
   "note": "real arithmetic; the warnings are not compared (the threshold of \"Model is not converging\" is absolute); every state used by the data where the class divides by its occupancy, as in C25"
  },
  {
   "property": "C93",
   "status": "proved",
   "theorems": [
    "C93_score",
    "C93_posteriors",
    "C93_viterbi",
    "C93_posteriors_lengths",
    "C93_viterbi_lengths"
   ],
   "note": "real arithmetic"
  },
  {
   "property": "C94",
   "status": "proved",
   "theorems": [
    "C94_categorical",
    "C94_poisson",
    "C94_multinomial",
    "C94_gaussian",
    "C94_gaussian_full",
    "C94_gmm"
   ],
   "note": "real arithmetic; every state used by the data where the class divides by its occupancy, as in C25; a consequence of C77"
  },
  {
   "property": "C95",
   "status": "proved",
   "theorems": [
    "C95_score",
    "C95_posteriors",
    "C95_viterbi",
    "C95_stationary",
    "C95_posteriors_lengths",
    "C95_viterbi_lengths",
    "C95_map"
   ],
   "note": "real arithmetic; scipy.linalg.eig assumed right on the matrix at hand as in C45"
  },
  {
   "property": "C96",
   "status": "proved",
   "theorems": [
    "C96_score",
    "C96_posteriors",
    "C96_map"
   ],
   "note": "real arithmetic; one sequence x (C09 reduces several sequences to one)"
  },
  {
   "property": "C97",
   "status": "proved",
   "theorems": [
    "C97_score",
    "C97_order",
    "C97_posteriors",
    "C97_viterbi",
    "C97_map"
   ],
   "note": "real arithmetic; posteriors and decoding for samples of positive mixture density"
  }
 ]
}