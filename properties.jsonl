{"id": "C01", "title": "Viterbi decoding is optimal", "statement": "decode(X, algorithm='viterbi') on one sequence returns a state sequence whose joint log probability with X (start, transition and emission terms) equals the returned log_prob and is at least that of every other state sequence of the same length.", "quantifier": "all numbers of states >= 1, sequence lengths >= 1, start/transition probabilities (zeros allowed) and emission log-likelihoods (-inf allowed), all competing paths", "why_tests_cant": "there are nc^T competing paths and continuum-many parameter values; a test compares a few hand-worked examples", "anchors": ["ext/_hmmc.cpp:viterbi", "src/hmmlearn/base.py:_AbstractHMM._decode_viterbi", "src/hmmlearn/base.py:_AbstractHMM.decode"]}
{"id": "C02", "title": "score is the exact log-likelihood", "statement": "score(X) with implementation='log' equals the logarithm of the sum, over all state sequences, of the joint probability of the state sequence and X; it is -inf exactly when every state sequence has probability zero.", "quantifier": "all models with non-negative parameters, all sequence lengths and state counts, likelihoods possibly zero", "why_tests_cant": "the defining sum has nc^T terms; tests check one 5x2 example", "anchors": ["ext/_hmmc.cpp:forward_log", "ext/_hmmc.cpp:logsumexp", "src/hmmlearn/base.py:_AbstractHMM.score"]}
{"id": "C03", "title": "'scaling' and 'log' implementations agree on score", "statement": "score with implementation='scaling' either returns the same value as implementation='log', or raises ValueError; it raises exactly when, for some t, the conditional likelihood of sample t given the preceding samples is below 1e-300.", "quantifier": "all non-negative parameters and emission likelihoods, all lengths", "why_tests_cant": "agreement must hold for all inputs, and the raise condition concerns an unbounded set of underflowing inputs", "anchors": ["ext/_hmmc.cpp:forward_scaling", "src/hmmlearn/base.py:_AbstractHMM._score_scaling", "src/hmmlearn/base.py:_AbstractHMM._score_log"]}
{"id": "C04", "title": "predict_proba returns the exact smoothing marginals", "statement": "For every sample t and state i, predict_proba(X)[t, i] equals the total joint probability of the state sequences passing through i at time t divided by the total probability of X, for both implementations.", "quantifier": "all models/sequences with positive likelihood (and, for scaling, no underflow error)", "why_tests_cant": "marginals are ratios of exponentially large sums over real parameters", "anchors": ["ext/_hmmc.cpp:backward_log", "ext/_hmmc.cpp:backward_scaling", "src/hmmlearn/base.py:_compute_posteriors_log", "src/hmmlearn/base.py:_compute_posteriors_scaling"]}
{"id": "C05", "title": "Posterior rows are probability distributions", "statement": "Every row of predict_proba(X) consists of finite numbers in [0, 1] that sum to 1, whenever X has positive likelihood; with implementation='log' and zero likelihood the rows are NaN if there are at least two states, and 1.0 if there is one.", "quantifier": "all models, sequences, both implementations", "why_tests_cant": "a normalisation failure can hide at any unvisited input (zeros, single state, degenerate rows)", "anchors": ["src/hmmlearn/utils.py:normalize", "src/hmmlearn/utils.py:log_normalize", "src/hmmlearn/base.py:predict_proba"]}
{"id": "C06", "title": "MAP decoding maximises every marginal", "statement": "decode(X, algorithm='map') returns, for each sample, the lowest-numbered state whose posterior marginal is maximal, and the reported value is the sum over samples of these maximal posteriors.", "quantifier": "all models with positive likelihood, all samples", "why_tests_cant": "ties and orderings range over all real posteriors", "anchors": ["src/hmmlearn/base.py:_AbstractHMM._decode_map"]}
{"id": "C07", "title": "The value returned by MAP decoding is a log probability (documented contract)", "statement": "decode(X, algorithm='map')[0] is documented as the log probability of the produced state sequence, hence must be <= 0 and equal the joint log probability of the returned path.", "quantifier": "all models and sequences decoded with algorithm='map'", "why_tests_cant": "documented semantic contract over all inputs; no test checks the value", "anchors": ["src/hmmlearn/base.py:_AbstractHMM._decode_map", "src/hmmlearn/base.py:_AbstractHMM.decode"]}
{"id": "C08", "title": "Best path never beats the total", "statement": "The Viterbi log probability is at most score(X), and score(X) is at most the Viterbi log probability plus T*log(n_components).", "quantifier": "all models and sequences", "why_tests_cant": "relates two algorithms over all inputs", "anchors": ["ext/_hmmc.cpp:viterbi", "ext/_hmmc.cpp:forward_log"]}
{"id": "C09", "title": "Sequences given through lengths are independent", "statement": "score/decode/predict/predict_proba on a concatenation with lengths equal, respectively, the sum / (sum, concatenation) / concatenation / concatenation of the results on the individual sequences; no transition is counted across a boundary.", "quantifier": "all lists of sequences and lengths summing to n_samples, all models", "why_tests_cant": "number and sizes of sequences unbounded", "anchors": ["src/hmmlearn/_utils.py:split_X_lengths", "src/hmmlearn/base.py:_score_log", "src/hmmlearn/base.py:_score_scaling", "src/hmmlearn/base.py:decode"]}
{"id": "C10", "title": "lengths that do not add up are rejected, those that do split exactly", "statement": "With lengths given, an array X is rejected with ValueError iff the lengths do not sum to the number of samples; otherwise (non-negative lengths) the pieces concatenate back to X and piece k has lengths[k] rows. lengths=None gives the single piece X.", "quantifier": "all arrays and all length lists", "why_tests_cant": "unbounded lists", "anchors": ["src/hmmlearn/_utils.py:split_X_lengths"]}
{"id": "C11", "title": "Relabelling the states does not change anything observable", "statement": "Permuting the states of a model (start probabilities, transition rows and columns, emission columns) leaves score unchanged and permutes predict_proba columns accordingly.", "quantifier": "all models, all permutations, all sequences", "why_tests_cant": "all permutations of all sizes", "anchors": ["ext/_hmmc.cpp:forward_log", "ext/_hmmc.cpp:backward_log", "src/hmmlearn/base.py:score"]}
{"id": "C12", "title": "Likelihoods of a categorical model form a probability distribution", "statement": "For a CategoricalHMM whose startprob_, transmat_ and emissionprob_ rows sum to 1, the values exp(score(X)) over all symbol sequences X of a fixed length sum to 1; hence score(X) <= 0, and extending a sequence never increases its score.", "quantifier": "all stochastic parameters, all lengths and alphabet sizes", "why_tests_cant": "sum ranges over n_features^T sequences", "anchors": ["src/hmmlearn/_emissions.py:BaseCategoricalHMM._compute_likelihood", "ext/_hmmc.cpp:forward_log"]}
{"id": "C13", "title": "Transition statistics are the exact expected transition counts", "statement": "The transition statistics accumulated from one sequence equal, for each (i, j), the posterior expected number of i->j transitions; both implementations give the same matrix; the row sum for state i equals the sum over all but the last sample of the posterior of i.", "quantifier": "all models/sequences with positive likelihood", "why_tests_cant": "sums over nc^T paths for arbitrary reals", "anchors": ["ext/_hmmc.cpp:compute_log_xi_sum", "ext/_hmmc.cpp:compute_scaling_xi_sum", "src/hmmlearn/base.py:_accumulate_sufficient_statistics_log", "src/hmmlearn/base.py:_accumulate_sufficient_statistics_scaling"]}
{"id": "C14", "title": "E-step statistics conserve mass", "statement": "After an E-step on sequences of positive likelihood the start statistics sum to the number of sequences, the transition statistics sum to the total number of adjacent pairs inside sequences, state occupancies sum to the number of samples, and length-1 sequences contribute nothing to the transition statistics.", "quantifier": "all data sets, lengths, models", "why_tests_cant": "unbounded number of sequences", "anchors": ["src/hmmlearn/base.py:_do_estep", "src/hmmlearn/base.py:_accumulate_sufficient_statistics_log", "src/hmmlearn/_emissions.py:_accumulate_sufficient_statistics"]}
{"id": "C15", "title": "sample draws states by exact inverse-CDF", "statement": "Given the uniform draw u in [0,1), the next state is i iff u lies in the half-open interval between the cumulative probabilities before and after i (when the row sums to 1), so the set of draws selecting i has length exactly the i-th probability.", "quantifier": "all rows of transition/start/emission probabilities summing to 1, all u", "why_tests_cant": "holds for each u in a continuum", "anchors": ["src/hmmlearn/base.py:_AbstractHMM.sample", "src/hmmlearn/_emissions.py:BaseCategoricalHMM._generate_sample_from_state"]}
{"id": "C16", "title": "sample never produces an impossible path", "statement": "Every state sequence returned by sample has strictly positive probability under the model (starts in a state with positive start probability and only uses transitions with positive probability).", "quantifier": "all models accepted by the library, all random streams, all n_samples", "why_tests_cant": "needs all random streams; failures sit on measure-tiny rounding gaps", "anchors": ["src/hmmlearn/base.py:_AbstractHMM.sample", "src/hmmlearn/base.py:BaseHMM._check_sum_1"]}
{"id": "C17", "title": "sample returns n_samples rows with states in range and continues from currstate", "statement": "sample(n) for n >= 1 returns n observations and n states in range(n_components); with currstate given the first state is currstate; continuing with sample(m+1, currstate=last state) re-emits an observation for that state and then produces exactly the remaining m samples of sample(n+m), given the remaining random stream.", "quantifier": "all n, all models, all random streams", "why_tests_cant": "unbounded n and streams", "anchors": ["src/hmmlearn/base.py:_AbstractHMM.sample"]}
{"id": "C18", "title": "Training never decreases the likelihood (CategoricalHMM)", "statement": "For CategoricalHMM with default (flat) priors, started from parameters giving the data positive likelihood, the values recorded in monitor_.history during fit are non-decreasing, for either implementation and any subset of params; consequently the 'Model is not converging' warning is never emitted (exact arithmetic).", "quantifier": "all data sets, initial parameters, numbers of iterations, params subsets", "why_tests_cant": "EM monotonicity is an inequality over all reals/all trajectories", "anchors": ["src/hmmlearn/base.py:_AbstractHMM.fit", "src/hmmlearn/base.py:BaseHMM._do_mstep", "src/hmmlearn/hmm.py:CategoricalHMM._do_mstep"]}
{"id": "C19", "title": "Training keeps start/transition/emission parameters stochastic", "statement": "After every M-step startprob_ has non-negative entries summing to 1 and every row of transmat_ (and CategoricalHMM.emissionprob_) is non-negative and sums to 1 or is identically zero.", "quantifier": "all statistics produced by E-steps, all priors, all iterations", "why_tests_cant": "must hold at every iteration of every run", "anchors": ["src/hmmlearn/base.py:BaseHMM._do_mstep", "src/hmmlearn/utils.py:normalize", "src/hmmlearn/hmm.py:CategoricalHMM._do_mstep"]}
{"id": "C20", "title": "Structural zeros survive training", "statement": "An entry of startprob_ or transmat_ that is zero before fit (and not re-initialised) is zero after fit: left-right topologies are preserved.", "quantifier": "all models, data, priors, iteration counts", "why_tests_cant": "invariant over whole histories", "anchors": ["src/hmmlearn/base.py:BaseHMM._do_mstep"]}
{"id": "C21", "title": "fit only updates the parameters named in params", "statement": "A fitted attribute whose letter is not in params is left exactly unchanged by the EM iterations, for every class.", "quantifier": "all params strings, data, iteration counts", "why_tests_cant": "all subsets and all trajectories", "anchors": ["src/hmmlearn/base.py:BaseHMM._do_mstep", "src/hmmlearn/hmm.py:_do_mstep", "src/hmmlearn/vhmm.py:_do_mstep"]}
{"id": "C22", "title": "init_params decides what is initialised", "statement": "At the start of fit an attribute is overwritten iff its letter is in init_params or it is not set; a warning is logged iff a set attribute is overwritten.", "quantifier": "all init_params strings and attribute states", "why_tests_cant": "all combinations", "anchors": ["src/hmmlearn/base.py:_AbstractHMM._needs_init", "src/hmmlearn/base.py:BaseHMM._init"]}
{"id": "C23", "title": "fit stops correctly and records its history", "statement": "fit performs k iterations where k is the least number such that k = n_iter or the improvement between the last two recorded values is below tol; afterwards monitor_.iter = len(monitor_.history) = k <= n_iter, and history[j] is the objective of the parameters before the j-th update.", "quantifier": "all data, tol, n_iter (including 0 and 1)", "why_tests_cant": "loop over unbounded iterations", "anchors": ["src/hmmlearn/base.py:ConvergenceMonitor", "src/hmmlearn/base.py:_AbstractHMM.fit"]}
{"id": "C24", "title": "The non-convergence warning is accurate", "statement": "report logs 'Model is not converging' iff there is a previous value and the new one is smaller by more than sqrt(eps).", "quantifier": "all histories", "why_tests_cant": "all histories of reals", "anchors": ["src/hmmlearn/base.py:ConvergenceMonitor.report"]}
{"id": "C25", "title": "'log' and 'scaling' train identically", "statement": "Running fit with implementation='log' and 'scaling' from the same parameters gives the same parameters, statistics and history after every iteration, as long as scaling does not raise.", "quantifier": "all data, models, iteration counts", "why_tests_cant": "equality of whole trajectories", "anchors": ["src/hmmlearn/base.py:_do_estep", "src/hmmlearn/base.py:BaseHMM._fit_log", "src/hmmlearn/base.py:BaseHMM._fit_scaling"]}
{"id": "C26", "title": "fit honours the estimator's current tol and n_iter", "statement": "Changing tol or n_iter on an estimator (set_params or assignment) takes effect in the next fit.", "quantifier": "all estimators and parameter changes", "why_tests_cant": "history dependent: concerns constructor/attribute/fit interleavings", "anchors": ["src/hmmlearn/base.py:BaseHMM.__init__", "src/hmmlearn/base.py:ConvergenceMonitor"]}
{"id": "C27", "title": "Parameter validation accepts exactly what it documents", "statement": "score/decode/sample/fit raise ValueError unless startprob_ has length n_components and sums to 1 (within numpy allclose tolerance) and transmat_ has shape (n_components, n_components) with rows summing to 1; valid distributions are always accepted.", "quantifier": "all arrays of all shapes", "why_tests_cant": "all arrays", "anchors": ["src/hmmlearn/base.py:BaseHMM._check", "src/hmmlearn/base.py:BaseHMM._check_sum_1"]}
{"id": "C28", "title": "A model that fit successfully can be used for prediction", "statement": "If fit returns without error, a subsequent predict/score/sample on the training data does not raise a parameter-validation error.", "quantifier": "all data sets and initialisations", "why_tests_cant": "depends on training trajectory", "anchors": ["src/hmmlearn/base.py:_AbstractHMM.fit", "src/hmmlearn/base.py:BaseHMM._check", "src/hmmlearn/utils.py:normalize"]}
{"id": "C29", "title": "Refitting with an integer seed is reproducible", "statement": "Calling fit twice on the same estimator with random_state given as an integer and all init_params set produces the same initial parameters.", "quantifier": "all seeds, classes, data", "why_tests_cant": "history of RNG states over repeated calls", "anchors": ["src/hmmlearn/hmm.py:CategoricalHMM._init", "src/hmmlearn/hmm.py:PoissonHMM._init", "src/hmmlearn/hmm.py:MultinomialHMM._init", "src/hmmlearn/base.py:BaseHMM._init", "src/hmmlearn/vhmm.py:VariationalCategoricalHMM._init", "src/hmmlearn/vhmm.py:VariationalGaussianHMM._init"]}
{"id": "C30", "title": "Categorical emissions are looked up exactly and out-of-range symbols are rejected", "statement": "For symbols in range, the emission likelihood of sample t under state i is emissionprob_[i, X[t]]; a symbol outside 0..n_features-1 passed to score/decode/predict raises an error.", "quantifier": "all symbol arrays incl. negative and too large values", "why_tests_cant": "all integers", "anchors": ["src/hmmlearn/_emissions.py:BaseCategoricalHMM._compute_likelihood", "src/hmmlearn/_emissions.py:BaseCategoricalHMM._check_and_set_n_features"]}
{"id": "C31", "title": "fit infers and then enforces the alphabet", "statement": "CategoricalHMM.fit with n_features unset sets n_features to max symbol+1; later fits raise ValueError iff a symbol is negative or >= n_features; emission M-step columns correspond to symbols.", "quantifier": "all integer data sets", "why_tests_cant": "unbounded integers", "anchors": ["src/hmmlearn/_emissions.py:BaseCategoricalHMM._check_and_set_n_features"]}
{"id": "C32", "title": "Diagonal and spherical Gaussian log densities are exact", "statement": "log_multivariate_normal_density with 'diag' (variances at least the floor) returns the log of the product of univariate normal densities; 'spherical' equals 'diag' with the variance repeated; zero variances are replaced by the tiny floor so the result is never NaN for finite inputs.", "quantifier": "all dimensions, points, means, positive variances", "why_tests_cant": "continuum of inputs, all dimensions", "anchors": ["src/hmmlearn/stats.py:_log_multivariate_normal_density_diag", "src/hmmlearn/stats.py:_log_multivariate_normal_density_spherical"]}
{"id": "C33", "title": "Full and tied Gaussian log densities are exact", "statement": "'full' returns -(nf log 2pi + log det Sigma + (x-mu)' Sigma^-1 (x-mu))/2 whenever the factorisation succeeds; 'tied' equals 'full' with a repeated matrix; 'full' on a diagonal matrix equals 'diag'.", "quantifier": "all dimensions, all positive-definite matrices", "why_tests_cant": "all matrices of all sizes", "anchors": ["src/hmmlearn/stats.py:_log_multivariate_normal_density_full", "src/hmmlearn/stats.py:_log_multivariate_normal_density_tied"]}
{"id": "C34", "title": "Gaussian M-step yields weighted means and positive variances", "statement": "With default mean prior, GaussianHMM means_ become the posterior-weighted averages of the samples; with covars_prior > 0 the diag/spherical variances are strictly positive, and with covars_prior = 0 they equal the weighted scatter about the new mean.", "quantifier": "all data, posteriors, dimensions", "why_tests_cant": "all data", "anchors": ["src/hmmlearn/hmm.py:GaussianHMM._do_mstep", "src/hmmlearn/_emissions.py:BaseGaussianHMM._accumulate_sufficient_statistics"]}
{"id": "C35", "title": "Gaussian training never decreases the penalised likelihood", "statement": "For GaussianHMM (diag covariances, default priors) each iteration does not decrease the log-likelihood penalised by covars_prior/(2 variance); with covars_prior = 0 it does not decrease the likelihood itself.", "quantifier": "all data sets, initial parameters, iterations", "why_tests_cant": "inequality over all reals", "anchors": ["src/hmmlearn/hmm.py:GaussianHMM._do_mstep", "src/hmmlearn/base.py:fit"]}
{"id": "C36", "title": "GaussianHMM can train covariances with means frozen", "statement": "With params containing 'c' but not 'm', the updated variances are the posterior-weighted scatter (plus prior) about the frozen means divided by the state occupancy.", "quantifier": "all params strings, data", "why_tests_cant": "combination of params not sampled by tests", "anchors": ["src/hmmlearn/_emissions.py:BaseGaussianHMM._accumulate_sufficient_statistics", "src/hmmlearn/hmm.py:GaussianHMM._needs_sufficient_statistics_for_mean"]}
{"id": "C37", "title": "covars_ exposes one full covariance matrix per state", "statement": "For every covariance_type the covars_ property of a GaussianHMM has n_components matrices of size n_features^2, the i-th being the covariance used for state i in scoring (and hence in sampling).", "quantifier": "all covariance types, dimensions, states; both user-set and fitted values", "why_tests_cant": "shape/value law over all dimensions and histories", "anchors": ["src/hmmlearn/utils.py:fill_covars", "src/hmmlearn/hmm.py:GaussianHMM.covars_", "src/hmmlearn/hmm.py:GaussianHMM._do_mstep", "src/hmmlearn/_utils.py:distribute_covar_matrix_to_match_covariance_type"]}
{"id": "C38", "title": "GMMHMM emission density is the weighted mixture and its weights stay normalised", "statement": "The emission log-likelihood of state i is log(sum_k w_ik N(x; mu_ik, Sigma_ik)); after each M-step with flat weights prior every row of weights_ of a visited state is non-negative and sums to 1.", "quantifier": "all mixtures, data, iterations", "why_tests_cant": "all reals", "anchors": ["src/hmmlearn/_emissions.py:BaseGMMHMM._compute_log_likelihood", "src/hmmlearn/hmm.py:GMMHMM._do_mstep"]}
{"id": "C39", "title": "GMMHMM default covariance priors are flat", "statement": "With covars_prior and covars_weight left at None the covariance M-step divides the weighted scatter by the total weight (times n_features for spherical), i.e. is the maximum-likelihood update, for every covariance_type.", "quantifier": "all covariance types, n_mix, n_features", "why_tests_cant": "all dimension combinations", "anchors": ["src/hmmlearn/hmm.py:GMMHMM._init_covar_priors", "src/hmmlearn/hmm.py:GMMHMM._do_mstep"]}
{"id": "C40", "title": "GMMHMM training never decreases the likelihood", "statement": "With flat priors and diag covariances the data likelihood does not decrease across an iteration although covariances are accumulated about the previous means.", "quantifier": "all data, mixtures", "why_tests_cant": "inequality over reals", "anchors": ["src/hmmlearn/hmm.py:GMMHMM._do_mstep", "src/hmmlearn/_emissions.py:BaseGMMHMM._accumulate_sufficient_statistics"]}
{"id": "C41", "title": "PoissonHMM updates rates to weighted means", "statement": "With default priors each lambdas_ entry becomes the posterior-weighted mean of the counts (non-negative), and the likelihood does not decrease; with a gamma prior (alpha, beta) the rate of state c is (alpha + weighted sum)/(beta + occupancy of c).", "quantifier": "all count data, posteriors, priors", "why_tests_cant": "all data and priors", "anchors": ["src/hmmlearn/hmm.py:PoissonHMM._do_mstep"]}
{"id": "C42", "title": "MultinomialHMM emission rows are normalised expected counts and trials are validated", "statement": "After an M-step each emissionprob_ row of a state with positive expected count is non-negative and sums to 1; fit raises ValueError iff counts are negative or row totals differ from a given n_trials.", "quantifier": "all count data", "why_tests_cant": "all data", "anchors": ["src/hmmlearn/hmm.py:MultinomialHMM._do_mstep", "src/hmmlearn/_emissions.py:BaseMultinomialHMM._check_and_set_n_features"]}
{"id": "C43", "title": "aic/bic use the true number of free parameters", "statement": "aic = -2 score + 2k and bic = -2 score + k log(n_samples) where k is the dimension of the parameter manifold of the model class (start, transition, emission), for every class and covariance_type.", "quantifier": "all classes, sizes", "why_tests_cant": "all sizes", "anchors": ["src/hmmlearn/base.py:BaseHMM.aic", "src/hmmlearn/base.py:BaseHMM.bic", "src/hmmlearn/_emissions.py:_get_n_fit_scalars_per_param"]}
{"id": "C44", "title": "normalize and log_normalize contracts", "statement": "normalize(a) makes a vector with non-zero sum sum to 1; normalize(a, axis=1) makes every row sum to 1 or leaves an all-zero row unchanged; log_normalize(a, axis=1) makes exp of each row sum to 1 (unless the row is entirely -inf), and preserves differences.", "quantifier": "all arrays", "why_tests_cant": "all arrays", "anchors": ["src/hmmlearn/utils.py:normalize", "src/hmmlearn/utils.py:log_normalize"]}
{"id": "C45", "title": "The stationary distribution is stationary", "statement": "get_stationary_distribution returns a vector summing to 1 with pi P = pi; if all transitions are possible it is non-negative.", "quantifier": "all stochastic matrices of all sizes", "why_tests_cant": "all matrices", "anchors": ["src/hmmlearn/base.py:BaseHMM.get_stationary_distribution"]}
{"id": "C46", "title": "Variational posteriors are prior plus expected counts", "statement": "After each VB iteration startprob_posterior_/transmat_posterior_/emissionprob_posterior_ equal the prior plus the expected counts, remain strictly positive for positive priors, and their total mass is the prior mass plus the number of sequences/transitions/samples; startprob_, transmat_ and emissionprob_ are stochastic.", "quantifier": "all data, priors, iterations", "why_tests_cant": "histories", "anchors": ["src/hmmlearn/base.py:VariationalBaseHMM._do_mstep", "src/hmmlearn/vhmm.py:VariationalCategoricalHMM._do_mstep"]}
{"id": "C47", "title": "Variational E-step on sub-normalised parameters", "statement": "The VB E-step computes the marginals of the path distribution proportional to the product of exp(E[log parameter]) terms; the result is a probability distribution although the sub-normalised parameters do not sum to 1.", "quantifier": "all posteriors", "why_tests_cant": "all reals", "anchors": ["src/hmmlearn/base.py:VariationalBaseHMM._fit_log", "src/hmmlearn/base.py:VariationalBaseHMM._estep_begin"]}
{"id": "C48", "title": "VariationalGaussianHMM scale posteriors stay positive", "statement": "After each update with positive scale_prior the diag/spherical scale_posterior_ (and variances covars_) are strictly positive, for every params setting.", "quantifier": "all data, priors, params", "why_tests_cant": "all data and params", "anchors": ["src/hmmlearn/vhmm.py:VariationalGaussianHMM._do_mstep"]}
{"id": "C49", "title": "KL divergences are non-negative", "statement": "kl_normal_distribution never trips its assertion for positive variances and is 0 iff the distributions coincide; kl_multivariate_normal_distribution is non-negative for positive-definite covariances.", "quantifier": "all parameters", "why_tests_cant": "continuum", "anchors": ["src/hmmlearn/_kl_divergence.py:kl_normal_distribution", "src/hmmlearn/_kl_divergence.py:kl_multivariate_normal_distribution"]}
{"id": "C50", "title": "The variational lower bound never decreases", "statement": "For VariationalCategoricalHMM the lower bound recorded in monitor_.history is non-decreasing over iterations.", "quantifier": "all data, priors, iterations", "why_tests_cant": "inequality over all trajectories", "anchors": ["src/hmmlearn/vhmm.py:VariationalCategoricalHMM._compute_lower_bound", "src/hmmlearn/base.py:VariationalBaseHMM._compute_lower_bound", "src/hmmlearn/_kl_divergence.py:kl_dirichlet"]}
{"id": "C51", "title": "Scoring and decoding do not change the model", "statement": "score, score_samples, predict, predict_proba, decode leave startprob_, transmat_ and emission parameters unchanged, and repeated calls give equal results.", "quantifier": "all models, data, call histories", "why_tests_cant": "all call sequences", "anchors": ["src/hmmlearn/base.py:_score", "src/hmmlearn/base.py:decode"]}
{"id": "C52", "title": "Unknown algorithm or implementation names are rejected", "statement": "decode with an algorithm other than 'viterbi'/'map' raises ValueError; an implementation other than 'log'/'scaling' raises; valid names never raise for that reason.", "quantifier": "all strings", "why_tests_cant": "all strings", "anchors": ["src/hmmlearn/base.py:decode", "src/hmmlearn/base.py:_score"]}
{"id": "C53", "title": "Viterbi is optimal even in floating point", "statement": "With any monotone rounding of additions (in particular IEEE binary64), no path has a larger floating-point-evaluated score than the path returned, and the returned log_prob is exactly the floating-point-evaluated score of the returned path.", "quantifier": "all monotone rounding functions, all inputs", "why_tests_cant": "all rounding behaviours", "anchors": ["ext/_hmmc.cpp:viterbi"]}
{"id": "C54", "title": "Degenerate inputs to the kernels", "statement": "Shape mismatches raise ValueError; a zero-length sequence (a 0 in lengths) is never passed to the native kernels.", "quantifier": "all shapes and lengths", "why_tests_cant": "all shapes; memory-safety relevant corner", "anchors": ["ext/_hmmc.cpp:forward_log", "ext/_hmmc.cpp:viterbi", "src/hmmlearn/base.py:decode", "src/hmmlearn/_utils.py:split_X_lengths"]}
{"id": "C55", "title": "Rounding error of the scaled likelihood is bounded", "statement": "With relative rounding error u per operation (no underflow) the likelihood accumulated by the scaling implementation has relative error at most (1+u)^k-1-type bound with k linear in T*n_components.", "quantifier": "all inputs, all rounding functions with relative error u", "why_tests_cant": "all inputs", "anchors": ["ext/_hmmc.cpp:forward_scaling"]}
{"id": "C56", "title": "Training with priors maximises the posterior", "statement": "With Dirichlet priors (all parameters at least 1) every EM iteration of CategoricalHMM.fit leaves the log-likelihood of the data plus the log-density of the priors at least as large as before, even when the recorded log-likelihood itself goes down.", "quantifier": "all models, data, priors >= 1, iteration counts", "why_tests_cant": "inequality over all data and whole histories", "anchors": ["src/hmmlearn/base.py:BaseHMM._do_mstep", "src/hmmlearn/hmm.py:CategoricalHMM._do_mstep"]}
{"id": "C57", "title": "Training never raises after validation", "statement": "With implementation='log', once the parameters pass the validation at the start of fit and the data are valid (symbols or rows of the right width, valid lengths), the training loop of CategoricalHMM, MultinomialHMM, PoissonHMM and of GaussianHMM with diagonal or spherical covariances (parameters of the documented shapes, scalar hyper-parameters) never raises, whatever rounding errors, infinities or NaNs occur.", "quantifier": "all rounding behaviours of the arithmetic, parameters, data, lengths, iteration counts", "why_tests_cant": "every rounding pattern and every degenerate parameter reached during training is covered", "anchors": ["src/hmmlearn/base.py:_AbstractHMM.fit", "src/hmmlearn/base.py:_AbstractHMM._do_estep", "src/hmmlearn/base.py:BaseHMM._do_mstep"]}
{"id": "C58", "title": "Training a mixture leaves finite parameters", "statement": "For GMMHMM with default hyper-parameters, finite data and a valid model, weights_, means_ and covars_ after fit are finite numbers and the weights are non-negative, also when a mixture weight is zero.", "quantifier": "all mixtures, data, iteration counts", "why_tests_cant": "depends on every training trajectory", "anchors": ["src/hmmlearn/hmm.py:GMMHMM._do_mstep", "src/hmmlearn/hmm.py:GMMHMM._init_covar_priors"]}
{"id": "C59", "title": "A fully specified model is trained without randomness", "statement": "If every parameter is set and init_params names none of them, fit neither draws random numbers nor clusters the data: it raises the same exception or produces the same model and warnings whatever random_state and the generators are, and numpy's global generator is left untouched.", "quantifier": "all models with every parameter set, data, lengths, generators, random states, rounding behaviours", "why_tests_cant": "independence of every generator and every seed cannot be sampled", "anchors": ["src/hmmlearn/base.py:BaseHMM._init", "src/hmmlearn/base.py:_AbstractHMM._needs_init", "src/hmmlearn/hmm.py:CategoricalHMM._init", "src/hmmlearn/hmm.py:GaussianHMM._init", "src/hmmlearn/hmm.py:GMMHMM._init", "src/hmmlearn/hmm.py:MultinomialHMM._init", "src/hmmlearn/hmm.py:PoissonHMM._init", "src/hmmlearn/vhmm.py:VariationalCategoricalHMM._init", "src/hmmlearn/vhmm.py:VariationalGaussianHMM._init"]}
{"id": "C60", "title": "A trained variational model behaves as its point estimate", "statement": "Once a VariationalCategoricalHMM has been trained with params naming s, t and e, its startprob_, transmat_ and emissionprob_ are stochastic and score, score_samples, decode, predict return exactly what a CategoricalHMM holding these parameters returns, exceptions included.", "quantifier": "all trained models, data, lengths, decoding algorithms", "why_tests_cant": "all models and data", "anchors": ["src/hmmlearn/base.py:_AbstractHMM._score", "src/hmmlearn/base.py:_AbstractHMM.decode", "src/hmmlearn/vhmm.py:VariationalCategoricalHMM._check", "src/hmmlearn/vhmm.py:VariationalCategoricalHMM._do_mstep"]}
{"id": "C61", "title": "A variational model can be trained on part of its parameters", "statement": "fit of a fresh VariationalCategoricalHMM with any subset of the letters s, t, e in params returns, and afterwards score works.", "quantifier": "all params, data, random states", "why_tests_cant": "all data and settings", "anchors": ["src/hmmlearn/base.py:_AbstractHMM.fit", "src/hmmlearn/base.py:VariationalBaseHMM._do_mstep", "src/hmmlearn/vhmm.py:VariationalCategoricalHMM._do_mstep"]}
{"id": "C62", "title": "Variational initialisation", "statement": "fit of a fresh VariationalCategoricalHMM on symbols in range initialises priors with the given scalar or 1/n_components, 1/n_features, and strictly positive posteriors whose total masses are the number of sequences (start) and n_samples/n_components (each transition and emission row), then trains without raising; every documented form of emissionprob_prior is accepted.", "quantifier": "all data, seeds, scalar priors", "why_tests_cant": "all data, seeds and priors", "anchors": ["src/hmmlearn/base.py:VariationalBaseHMM._init", "src/hmmlearn/vhmm.py:VariationalCategoricalHMM._init"]}
{"id": "C63", "title": "The Dirichlet KL divergence is a divergence", "statement": "kl_dirichlet of two vectors of positive parameters is finite, non-negative, and zero exactly if the two vectors are equal.", "quantifier": "all positive parameter vectors of all lengths", "why_tests_cant": "continuum", "anchors": ["src/hmmlearn/_kl_divergence.py:kl_dirichlet"]}
{"id": "C64", "title": "Full and tied covariance updates", "statement": "After each EM iteration of a GaussianHMM with covariance_type 'full' or 'tied' training means and covariances, the mean of each state is (means_weight*means_prior + weighted sum of its samples)/(means_weight + occupancy), its covariance is (covars_prior + means_weight * outer product of mean - means_prior + weighted scatter about the new mean)/(max(covars_weight - n_features, 0) + occupancy) (numerators and occupancies pooled over states for 'tied'), and the stored matrices are symmetric positive semi-definite, and positive definite whenever covars_prior is a positive number or a positive definite matrix.", "quantifier": "all models, data, numbers of states, features and iterations", "why_tests_cant": "continuum", "anchors": ["src/hmmlearn/hmm.py:GaussianHMM._do_mstep", "src/hmmlearn/_emissions.py:BaseGaussianHMM._accumulate_sufficient_statistics"]}
{"id": "C65", "title": "Training full and tied Gaussians never lowers the penalised likelihood", "statement": "Every EM iteration of a GaussianHMM with covariance_type 'full' or 'tied' leaves log-likelihood plus log-prior of means and covariances no smaller, where the covariance of each state is the one used for scoring.", "quantifier": "all models, data and iterations", "why_tests_cant": "continuum", "anchors": ["src/hmmlearn/hmm.py:GaussianHMM._do_mstep", "src/hmmlearn/stats.py:_log_multivariate_normal_density_full"]}
{"id": "C66", "title": "VariationalGaussianHMM posteriors are prior plus expected statistics", "statement": "After fit of a VariationalGaussianHMM the Dirichlet, mean and Wishart posteriors are, after every iteration, the values obtained from the priors and the expected counts, sums and outer products of the samples under the path distribution with weights exp(E[log parameter]): startprob/transmat posterior = prior + expected counts, beta = beta_prior + occupancy, mean = (beta_prior*mean_prior + weighted sum)/beta, degrees of freedom = prior + occupancy (summed over states for 'tied'), scale = prior + scatter (restricted to what the covariance type keeps); attributes whose letter is not in params keep their values.", "quantifier": "all priors, posteriors, data, covariance types, params with 'm' or without 'c'", "why_tests_cant": "continuum", "anchors": ["src/hmmlearn/vhmm.py:VariationalGaussianHMM._do_mstep", "src/hmmlearn/vhmm.py:VariationalGaussianHMM._estep_begin"]}
{"id": "C67", "title": "The VariationalGaussianHMM lower bound never decreases", "statement": "The lower bounds recorded by fit of a VariationalGaussianHMM are finite and never decrease, and each is the log normaliser of the path distribution minus the Kullback-Leibler divergences of the posteriors from the priors.", "quantifier": "all priors, data, covariance types, params with 'm' or without 'c'", "why_tests_cant": "continuum", "anchors": ["src/hmmlearn/vhmm.py:VariationalGaussianHMM._compute_lower_bound"]}
{"id": "C68", "title": "Training a VariationalGaussianHMM returns", "statement": "fit of a VariationalGaussianHMM with valid parameters on finite data returns (log implementation) and never warns that it is not converging.", "quantifier": "all valid parameters and finite data", "why_tests_cant": "continuum", "anchors": ["src/hmmlearn/vhmm.py:VariationalGaussianHMM", "src/hmmlearn/base.py:BaseHMM.fit"]}
{"id": "C69", "title": "A fitted VariationalGaussianHMM is used through its point estimate", "statement": "After fit with all parameters trained, score and decode of a VariationalGaussianHMM are those of a GaussianHMM with start and transition probabilities the posterior means, means the posterior means and covariances scale_posterior_/dof_posterior_, which are valid parameters.", "quantifier": "all priors and data", "why_tests_cant": "continuum", "anchors": ["src/hmmlearn/vhmm.py:VariationalGaussianHMM._do_mstep", "src/hmmlearn/_emissions.py:BaseGaussianHMM._compute_log_likelihood"]}
{"id": "C70", "title": "Start covariances of GaussianHMM", "statement": "Initialisation of a GaussianHMM from data with finite entries sets every covariance to the sample covariance plus min_covar on the diagonal, restricted to what covariance_type keeps (all of it, its diagonal, the average of its diagonal); the result is positive definite (positive) and accepted by the setter, and a fresh estimator is then a valid model.", "quantifier": "all finite data, all generators with positive Dirichlet draws and finite k-means centres", "why_tests_cant": "continuum", "anchors": ["src/hmmlearn/hmm.py:GaussianHMM._init", "src/hmmlearn/_utils.py:distribute_covar_matrix_to_match_covariance_type"]}
{"id": "C71", "title": "The covars_ setter accepts exactly valid covariances", "statement": "Assigning covars_ on a GaussianHMM succeeds exactly for arrays of the shape documented for covariance_type with positive variances (positive definite matrices), and raises ValueError otherwise.", "quantifier": "all arrays", "why_tests_cant": "continuum", "anchors": ["src/hmmlearn/hmm.py:GaussianHMM.covars_", "src/hmmlearn/_utils.py:_validate_covars"]}
{"id": "C72", "title": "A new VariationalGaussianHMM can be trained", "statement": "fit of a new VariationalGaussianHMM (default or valid prior arguments) on two or more finite samples initialises the priors from the arguments (or the documented defaults), the posterior means from the k-means centres, the counts from the cluster sizes and the scale matrices from the sample covariance, and returns a valid model whose recorded lower bounds do not decrease.", "quantifier": "all data, all generators with positive Dirichlet draws, all k-means results with at least n_features samples per cluster", "why_tests_cant": "continuum; depends on random numbers", "anchors": ["src/hmmlearn/vhmm.py:VariationalGaussianHMM._init", "src/hmmlearn/base.py:VariationalBaseHMM._init"]}
{"id": "C73", "title": "Validation of the parameters of the variational classes", "statement": "Before training and before inference the variational classes check that all prior and posterior attributes have the documented shapes; models with other shapes, or with invalid values such as a startprob_ that does not sum to 1, are rejected with ValueError.", "quantifier": "all attribute values", "why_tests_cant": "continuum", "anchors": ["src/hmmlearn/vhmm.py:VariationalGaussianHMM._check", "src/hmmlearn/vhmm.py:VariationalCategoricalHMM._check", "src/hmmlearn/base.py:VariationalBaseHMM._check"]}
{"id": "C74", "title": "Samples come from the distribution of the state", "statement": "In every class, sample draws each observation with the generator from the emission distribution of the current state that is used for scoring: the categorical or multinomial probabilities of the state, its Poisson rates, its normal distribution, or a component chosen with the mixture weights and then the normal distribution of this component; for the variational classes the point estimates. A valid model can always be sampled from.", "quantifier": "all valid models, all random generators, all lengths and start states", "why_tests_cant": "needs all generators and parameters; statistical tests only detect large deviations", "anchors": ["src/hmmlearn/base.py:_AbstractHMM.sample", "src/hmmlearn/_emissions.py:_generate_sample_from_state"]}
{"id": "C75", "title": "The random generator used by sample", "statement": "sample uses the generator given as argument, otherwise the attribute random_state, otherwise numpy's global generator. With an integer the result is the same for every call and neither the estimator nor the global generator changes; also after fit, repeated calls of an estimator created with an integer give the same samples. A generator object is advanced by exactly the draws made.", "quantifier": "all estimators, generators, seeds and calls", "why_tests_cant": "all generators; sequences of calls", "anchors": ["src/hmmlearn/base.py:_AbstractHMM.sample", "src/hmmlearn/hmm.py:CategoricalHMM._init", "src/hmmlearn/hmm.py:PoissonHMM._init"]}
{"id": "C76", "title": "A new estimator can be trained and then used", "statement": "fit on a newly created estimator with default hyper-parameters and implementation='log', on finite data of the right kind (at least one sequence with two samples), returns; all recorded log-likelihoods are finite, the trained start and transition probabilities are positive and sum to one, and afterwards score and decode give finite results on every sequence made of training samples (GaussianHMM and GMMHMM: on every finite sequence; GMMHMM: at least n_components samples, for 'spherical' at most as many mixture components as features). PoissonHMM starts from rates drawn from the gamma distribution that has the mean and the variance of the counts.", "quantifier": "all data, random draws (positive Dirichlet, gamma and uniform draws, finite cluster centres), covariance types, params, numbers of states, symbols, features and iterations, in exact arithmetic", "why_tests_cant": "all data and all random initialisations", "anchors": ["src/hmmlearn/base.py:_AbstractHMM.fit", "src/hmmlearn/hmm.py:GaussianHMM._init", "src/hmmlearn/hmm.py:CategoricalHMM._init", "src/hmmlearn/hmm.py:PoissonHMM._init", "src/hmmlearn/hmm.py:MultinomialHMM._init", "src/hmmlearn/hmm.py:GMMHMM._init"]}
{"id": "C77", "title": "Training does not depend on how the states are numbered", "statement": "If fit, started from given parameters, returns, then fit started from the same parameters with the states renumbered (hyper-parameters given per state renumbered alike; for GMMHMM also the components of each state renumbered) returns too: the trained parameters are those of the first run, renumbered, and the histories of log-likelihoods and the emitted messages are equal. Stated for CategoricalHMM, PoissonHMM, MultinomialHMM, GaussianHMM and GMMHMM with all their covariance types.", "quantifier": "all permutations, parameters, hyper-parameters (Dirichlet priors at least 1, other hyper-parameters in their documented ranges), data that is possible under the start values and uses every state whose emissions are trained, params, implementations and numbers of iterations, in exact arithmetic", "why_tests_cant": "all permutations and all training runs", "anchors": ["src/hmmlearn/base.py:_AbstractHMM.fit", "src/hmmlearn/base.py:BaseHMM._do_mstep", "src/hmmlearn/hmm.py:CategoricalHMM._do_mstep", "src/hmmlearn/hmm.py:PoissonHMM._do_mstep", "src/hmmlearn/hmm.py:MultinomialHMM._do_mstep", "src/hmmlearn/hmm.py:GaussianHMM._do_mstep", "src/hmmlearn/hmm.py:GMMHMM._do_mstep"]}
{"id": "C78", "title": "Training does not depend on the order of the sequences", "statement": "If fit, started from given parameters, returns for some sequences, it returns for the same sequences concatenated in any other order (with lengths reordered alike) and gives the same estimator: parameters, history of log-likelihoods and emitted messages. Stated for CategoricalHMM, PoissonHMM, MultinomialHMM, GaussianHMM and GMMHMM with all their covariance types.", "quantifier": "all orders of all sequences, parameters, hyper-parameters (Dirichlet priors at least 1, other hyper-parameters in their documented ranges), data that is possible under the start values and uses every state whose emissions are trained, params, implementations and numbers of iterations, in exact arithmetic", "why_tests_cant": "all orders of all sets of sequences", "anchors": ["src/hmmlearn/base.py:_AbstractHMM.fit", "src/hmmlearn/base.py:_AbstractHMM._do_estep", "src/hmmlearn/_utils.py:split_X_lengths"]}
{"id": "C79", "title": "fit leaves the constructor's arguments as they were given", "statement": "After a successful fit every argument of the constructor has the value it had before (random_state: the same kind of object; the trained attributes with a trailing underscore are not arguments). Stated for all seven classes.", "quantifier": "all estimators, data, lengths, generators and roundings for which fit returns", "why_tests_cant": "all estimators and data; some arguments are replaced only when they were None", "anchors": ["src/hmmlearn/base.py:_AbstractHMM.fit", "src/hmmlearn/base.py:BaseHMM._init", "src/hmmlearn/hmm.py:CategoricalHMM._init", "src/hmmlearn/hmm.py:MultinomialHMM._init", "src/hmmlearn/hmm.py:PoissonHMM._init", "src/hmmlearn/hmm.py:GMMHMM._init", "src/hmmlearn/hmm.py:GMMHMM._fix_priors_shape", "src/hmmlearn/vhmm.py:VariationalGaussianHMM._init"]}
{"id": "C80", "title": "The start values are a known function of random_state", "statement": "fit with n_iter=0 stores the start values themselves. startprob_ is one Dirichlet(1/n_components) draw, transmat_ n_components further ones, in this order, beginning with the state of the generator random_state stands for; then come the emission parameters (uniform numbers divided by their row sums for emissionprob_, gamma variates with the mean and the variance of the counts for lambdas_, the KMeans centres for means_, Dirichlet draws times n_samples/n_components for emissionprob_posterior_), drawn from where the transition matrix stopped, so that no random number serves twice and an integer is as good as the generator it seeds. What is not initialised keeps its value and uses no random number.", "quantifier": "all estimators, data, lengths and generators for which fit returns", "why_tests_cant": "all generators: the state each value is drawn from cannot be seen in a test with one numpy version", "anchors": ["src/hmmlearn/base.py:BaseHMM._init", "src/hmmlearn/base.py:VariationalBaseHMM._init", "src/hmmlearn/base.py:_AbstractHMM._needs_init", "src/hmmlearn/hmm.py:CategoricalHMM._init", "src/hmmlearn/hmm.py:MultinomialHMM._init", "src/hmmlearn/hmm.py:PoissonHMM._init", "src/hmmlearn/hmm.py:GaussianHMM._init", "src/hmmlearn/hmm.py:GMMHMM._init", "src/hmmlearn/vhmm.py:VariationalCategoricalHMM._init", "src/hmmlearn/vhmm.py:VariationalGaussianHMM._init"]}
{"id": "C81", "title": "A fit that raises leaves a usable estimator", "statement": "When fit raises, the estimator is as after a complete number k of iterations, i.e. as fit with n_iter=k would have left it. The arguments of the constructor keep their values. If X is rejected (empty, not finite, a symbol outside the alphabet, the wrong number of columns), nothing changes at all, and with an integer random_state and all letters in init_params the same call with correct arguments afterwards gives what it would have given at first.", "quantifier": "all estimators, data, lengths and generators, whatever the reason of the exception", "why_tests_cant": "an exception can come from every line; tests look at the message, not at the attributes left behind", "anchors": ["src/hmmlearn/base.py:_AbstractHMM.fit", "src/hmmlearn/base.py:BaseHMM._init", "src/hmmlearn/hmm.py:GaussianHMM._do_mstep", "src/hmmlearn/hmm.py:GMMHMM._check", "src/hmmlearn/_emissions.py:BaseMultinomialHMM._check_and_set_n_features", "src/hmmlearn/base.py:_AbstractHMM._check_and_set_n_features", "src/hmmlearn/base.py:VariationalBaseHMM._init", "src/hmmlearn/vhmm.py:VariationalCategoricalHMM._init", "src/hmmlearn/vhmm.py:VariationalGaussianHMM._init"]}
{"id": "C82", "title": "Training can be continued", "statement": "Calling fit with n_iter=a and then again with init_params=\"\" and n_iter=b gives the model, and in total the history, of a single call with n_iter=a+b. If the single call stops within a iterations, the first call alone gives it.", "quantifier": "all estimators, data, lengths and generators, and all a and b for which the single call returns", "why_tests_cant": "a test compares one split of one training run; the equality depends on which attributes _init and _check touch a second time", "anchors": ["src/hmmlearn/base.py:_AbstractHMM.fit", "src/hmmlearn/base.py:ConvergenceMonitor", "src/hmmlearn/base.py:_AbstractHMM._needs_init", "src/hmmlearn/hmm.py:CategoricalHMM._init", "src/hmmlearn/hmm.py:GMMHMM._check"]}
{"id": "C83", "title": "The warning about too few data", "statement": "fit warns that the solution will be degenerate if and only if X has fewer entries than there are free parameters behind the letters of params; params with any other letter makes fit raise.", "quantifier": "all classes, covariance types, estimators, data, generators and rounding modes", "why_tests_cant": "the count depends on class, covariance type, sizes and params; tests look at one or two combinations", "anchors": ["src/hmmlearn/base.py:BaseHMM._init", "src/hmmlearn/base.py:VariationalBaseHMM._init", "src/hmmlearn/_emissions.py:_get_n_fit_scalars_per_param", "src/hmmlearn/vhmm.py:VariationalGaussianHMM._get_n_fit_scalars_per_param"]}
{"id": "C84", "title": "Scoring between two fits changes nothing", "statement": "After fit, score, score_samples, predict, predict_proba, decode, aic and bic change no attribute of the estimator, whether they return or raise, so that a later fit gives what it would have given without them. The same holds before the first fit, when the parameters were assigned.", "quantifier": "all classes, estimators, data, generators and rounding modes", "why_tests_cant": "n_features and the shapes of the priors are set in _check, which every call runs; the effect shows only in a later fit on other data", "anchors": ["src/hmmlearn/base.py:BaseHMM._score", "src/hmmlearn/base.py:BaseHMM.decode", "src/hmmlearn/hmm.py:CategoricalHMM._check", "src/hmmlearn/hmm.py:GaussianHMM._check", "src/hmmlearn/hmm.py:GMMHMM._check", "src/hmmlearn/hmm.py:MultinomialHMM._check", "src/hmmlearn/hmm.py:PoissonHMM._check", "src/hmmlearn/vhmm.py:VariationalCategoricalHMM._check", "src/hmmlearn/vhmm.py:VariationalGaussianHMM._check"]}
{"id": "C85", "title": "The methods for inference agree with each other", "statement": "For the same data and lengths, score and predict_proba return the two components of score_samples; predict returns the states of decode; decode without an algorithm uses the one of the constructor; decoding with \"map\" gives for each sample the first state of largest posterior in predict_proba. If one of them raises, so does the other, with the same exception. Every result has one row, or one state below n_components, per sample.", "quantifier": "all classes, estimators (valid or not), data, lengths and rounding modes", "why_tests_cant": "the methods share private helpers; a wrong delegation shows only for estimators whose algorithm differs from the default, or on several sequences", "anchors": ["src/hmmlearn/base.py:_AbstractHMM.score", "src/hmmlearn/base.py:_AbstractHMM.score_samples", "src/hmmlearn/base.py:_AbstractHMM.decode", "src/hmmlearn/base.py:_AbstractHMM.predict", "src/hmmlearn/base.py:_AbstractHMM.predict_proba"]}
{"id": "C86", "title": "An estimator without parameters says so", "statement": "score, score_samples, predict, predict_proba, decode and sample raise NotFittedError if startprob_ is not set, whatever the other arguments, and the first five raise it only then; get_stationary_distribution raises it if and only if transmat_ is not set. aic and bic raise it too if startprob_ is not set. After a fit that returned, it is never raised.", "quantifier": "all classes, estimators, data, lengths and rounding modes", "why_tests_cant": "the exception depends on the order of the checks, and its absence has to be shown for every other failure", "anchors": ["src/hmmlearn/base.py:_AbstractHMM.score", "src/hmmlearn/base.py:_AbstractHMM.score_samples", "src/hmmlearn/base.py:_AbstractHMM.decode", "src/hmmlearn/base.py:_AbstractHMM.predict", "src/hmmlearn/base.py:_AbstractHMM.predict_proba", "src/hmmlearn/base.py:_AbstractHMM.sample", "src/hmmlearn/base.py:BaseHMM.get_stationary_distribution", "src/hmmlearn/base.py:BaseHMM.aic", "src/hmmlearn/base.py:BaseHMM.bic"]}
{"id": "C87", "title": "Recoded observations train the same model", "statement": "Renaming the symbols of a CategoricalHMM, reordering the features of a PoissonHMM, MultinomialHMM or GaussianHMM, changing the sign of features or the origin from which they are measured (GaussianHMM), together with the start values and priors, changes nothing else: scores, posteriors and decoded states are the same; fit returns the same history, startprob_ and transmat_, and emission parameters recoded the same way.", "quantifier": "all estimators with valid parameters, permutations, shifts, data and sequence lengths", "why_tests_cant": "tests use one coding of the data; an index or an origin used in the wrong place agrees on symmetric data", "anchors": ["src/hmmlearn/hmm.py:CategoricalHMM._do_mstep", "src/hmmlearn/hmm.py:PoissonHMM._do_mstep", "src/hmmlearn/hmm.py:MultinomialHMM._do_mstep", "src/hmmlearn/hmm.py:GaussianHMM._do_mstep", "src/hmmlearn/stats.py:log_multivariate_normal_density", "src/hmmlearn/base.py:BaseHMM.fit"]}
{"id": "C88", "title": "A positive tolerance ends training", "statement": "If tol > 0, fit makes at most 2 + (U - L0)/tol iterations, where L0 is the value recorded first (for BaseHMM classes the score of the start values) and U bounds the objective: U = 0 for CategoricalHMM, PoissonHMM, MultinomialHMM and VariationalCategoricalHMM, U = 511 ln 2 for every number in the data for GaussianHMM with diagonal or spherical covariances. If n_iter is larger than that, the last improvement is below tol.", "quantifier": "all estimators of these classes with valid parameters and priors of at least 1, all data, sequence lengths, tolerances and n_iter", "why_tests_cant": "tests run a few iterations on a few data sets; termination by the tolerance for every data set cannot be observed", "anchors": ["src/hmmlearn/base.py:ConvergenceMonitor.converged", "src/hmmlearn/base.py:ConvergenceMonitor.report", "src/hmmlearn/base.py:BaseHMM.fit", "src/hmmlearn/base.py:BaseHMM._compute_lower_bound"]}
{"id": "C89", "title": "n_iter is only a limit", "statement": "If fit makes fewer iterations than n_iter allows, fit with any other n_iter that allows as many trains the same model, with the same history, warnings and use of random numbers. With tol > 0 there is such an n_iter (classes of C88): from some n_iter on, the trained model no longer depends on it.", "quantifier": "every class, all estimators, data, sequence lengths, values of n_iter and any rounding of arithmetic; the second part for the classes of C88 with implementation log, in exact arithmetic", "why_tests_cant": "tests compare at most two values of n_iter on one data set", "anchors": ["src/hmmlearn/base.py:ConvergenceMonitor.converged", "src/hmmlearn/base.py:BaseHMM.fit"]}
{"id": "C90", "title": "A clone trains like a new estimator", "statement": "sklearn.base.clone of an estimator, trained or not, is an unfitted estimator whose training obeys the present n_iter and tol. The clone of an estimator that was constructed and then trained equals the estimator as constructed, so that training the clone on any data gives what training the original would have given.", "quantifier": "every class, all constructor arguments with random_state None or an integer, all training data, all data for the clone, any rounding of arithmetic", "why_tests_cant": "tests clone a few estimators with default arguments, mostly before fit", "anchors": ["src/hmmlearn/base.py:_AbstractHMM.__init__", "src/hmmlearn/base.py:BaseHMM.__init__", "src/hmmlearn/base.py:VariationalBaseHMM.__init__", "src/hmmlearn/hmm.py:CategoricalHMM.__init__", "src/hmmlearn/hmm.py:GaussianHMM.__init__", "src/hmmlearn/hmm.py:GMMHMM.__init__", "src/hmmlearn/hmm.py:MultinomialHMM.__init__", "src/hmmlearn/hmm.py:PoissonHMM.__init__", "src/hmmlearn/vhmm.py:VariationalCategoricalHMM.__init__", "src/hmmlearn/vhmm.py:VariationalGaussianHMM.__init__"]}
{"id": "C91", "title": "Rounding errors of posterior probabilities do not grow beyond the number of operations", "statement": "With relative rounding error u per operation (no underflow) predict_proba under implementation=\"scaling\" returns, for every sequence, numbers that agree with the posterior probabilities of the states up to a number of roundings linear in the length of that sequence; every row sums to one up to n_components + 1 roundings, however long the sequence; and the states chosen by decode(algorithm=\"map\") have nearly maximal posterior probability.", "quantifier": "all models, all data and lengths, all rounding functions with relative error u; emission likelihoods given (for CategoricalHMM they are the parameters themselves)", "why_tests_cant": "tests compare with posteriors computed by the same floating-point recursion on short sequences", "anchors": ["ext/_hmmc.cpp:forward_scaling", "ext/_hmmc.cpp:backward_scaling", "src/hmmlearn/base.py:_AbstractHMM._compute_posteriors_scaling", "src/hmmlearn/base.py:_AbstractHMM.predict_proba", "src/hmmlearn/base.py:_AbstractHMM._decode_map", "src/hmmlearn/utils.py:normalize"]}
{"id": "C92", "title": "Only relative frequencies matter: repeating the data", "statement": "If every sequence of the training data is given m times, in any order, and the pseudo-counts of the priors (startprob_prior - 1, transmat_prior - 1, emissionprob_prior - 1; lambdas_alpha and lambdas_beta; means_weight, covars_prior and the excess of covars_weight) and tol are multiplied by m, fit does the same number of iterations and leaves the same parameters; every log-likelihood in monitor_.history is multiplied by m. With flat priors only tol changes.", "quantifier": "all models with valid parameters, all data, lengths and m >= 1, both implementations, all params; CategoricalHMM, PoissonHMM, MultinomialHMM, GaussianHMM with any covariance type (for \"diag\" and \"spherical\" the excess of covars_weight over 1 is at least 1e-5, the floor of the denominator)", "why_tests_cant": "tests fit one data set at a time; a relation between two trainings is never looked at", "anchors": ["src/hmmlearn/base.py:BaseHMM._accumulate_sufficient_statistics", "src/hmmlearn/base.py:BaseHMM._do_mstep", "src/hmmlearn/base.py:ConvergenceMonitor.converged", "src/hmmlearn/hmm.py:CategoricalHMM._do_mstep", "src/hmmlearn/hmm.py:PoissonHMM._do_mstep", "src/hmmlearn/hmm.py:MultinomialHMM._do_mstep", "src/hmmlearn/hmm.py:GaussianHMM._do_mstep"]}
{"id": "C93", "title": "Redundant states do not change anything observable", "statement": "A model in which states are split into copies (the copies share the start probability of the state, the probabilities of moving to the copies of a state add up to the probability of moving to that state, all copies emit alike) and in which states are added that have start probability 0 and are never entered from the others gives the same score, or raises the same error, as the original model; its posterior probabilities, added over the copies of a state, are those of the state, and 0 for the added states. If states are only added, Viterbi decoding returns the same log probability and a best path of the original model.", "quantifier": "all models with valid parameters, all data and lengths, both implementations, any two classes with the same kind of observations", "why_tests_cant": "tests compare methods on one model; the relation between two models with different numbers of states is never looked at", "anchors": ["src/hmmlearn/base.py:_AbstractHMM.score", "src/hmmlearn/base.py:_AbstractHMM.predict_proba", "src/hmmlearn/base.py:_AbstractHMM.decode", "ext/_hmmc.cpp:forward_log", "ext/_hmmc.cpp:forward_scaling", "ext/_hmmc.cpp:viterbi"]}
{"id": "C94", "title": "States that start alike stay alike", "statement": "If a renumbering of the states (GMMHMM: and of the mixture components of each state) changes none of the parameters that training starts from and none of the priors, then it changes none of the fitted parameters: in particular two states with equal start values are equal after fit, whatever the data.", "quantifier": "all models with valid parameters, all renumberings, all data and lengths, both implementations, all params and n_iter; CategoricalHMM, PoissonHMM, MultinomialHMM, GaussianHMM and GMMHMM with any covariance type", "why_tests_cant": "tests start from random or well separated values; a symmetric start is never tried", "anchors": ["src/hmmlearn/base.py:_AbstractHMM.fit", "src/hmmlearn/base.py:BaseHMM._accumulate_sufficient_statistics", "src/hmmlearn/base.py:BaseHMM._do_mstep", "src/hmmlearn/hmm.py:CategoricalHMM._do_mstep", "src/hmmlearn/hmm.py:PoissonHMM._do_mstep", "src/hmmlearn/hmm.py:MultinomialHMM._do_mstep", "src/hmmlearn/hmm.py:GaussianHMM._do_mstep", "src/hmmlearn/hmm.py:GMMHMM._do_mstep"]}
{"id": "C95", "title": "A stationary model read backwards", "statement": "If startprob_ is a stationary distribution of transmat_, the model whose transmat_ is that of the chain run backwards (startprob_[i] transmat_[i, j] = startprob_[j] transmat2[j, i]) gives every sequence read from its end the score, the Viterbi log probability and, in reversed order, the posterior probabilities that the original model gives the sequence; the Viterbi path read from its end is a best path of the other model, and MAP decoding of the reversed sequence returns the reversed states and the same value. For a model whose states communicate such a model exists, and only one, when startprob_ is what get_stationary_distribution returns.", "quantifier": "all models with valid parameters, all data and lengths, both implementations (scaling: when neither run underflows), any class", "why_tests_cant": "relates two models and two data sets; tests look at one model in one direction of time", "anchors": ["src/hmmlearn/base.py:_AbstractHMM.score", "src/hmmlearn/base.py:_AbstractHMM.predict_proba", "src/hmmlearn/base.py:_AbstractHMM.decode", "src/hmmlearn/base.py:BaseHMM.get_stationary_distribution", "ext/_hmmc.cpp:forward_log", "ext/_hmmc.cpp:forward_scaling", "ext/_hmmc.cpp:backward_log", "ext/_hmmc.cpp:viterbi"]}
{"id": "C96", "title": "A sequence can be continued from its last posterior", "statement": "If p is the last row of predict_proba(x), the same model with startprob_ replaced by p @ transmat_ continues the sequence: for every continuation y, score(x + y) is score(x) plus the score the new model gives y, and the rows of predict_proba(x + y) that belong to y are what the new model returns for y, and so are the states MAP decoding assigns to y. In particular exp(score(x + [o]) - score(x)) is the predictive probability of o.", "quantifier": "all models with valid parameters, all sequences x that can be scored and all continuations y, both implementations (scaling: when the whole sequence does not underflow), any class", "why_tests_cant": "relates three calls on two models for every split of every sequence; tests call score on whole sequences only", "anchors": ["src/hmmlearn/base.py:_AbstractHMM.score", "src/hmmlearn/base.py:_AbstractHMM.predict_proba", "ext/_hmmc.cpp:forward_log", "ext/_hmmc.cpp:forward_scaling", "ext/_hmmc.cpp:backward_log", "ext/_hmmc.cpp:backward_scaling"]}
{"id": "C97", "title": "A model without memory is a mixture model", "statement": "If every row of transmat_ equals startprob_, then score is the sum over the samples of the log density of the mixture with weights startprob_, whatever lengths is and in whatever order the samples come; each row of predict_proba is the responsibility startprob_[i] b_i(o) / sum_k startprob_[k] b_k(o) of its own sample; and Viterbi decoding assigns to every sample a state that maximises startprob_[i] b_i(o), MAP decoding the lowest-numbered one.", "quantifier": "all models with valid parameters, all data and lengths, both implementations (scaling: when no sample has mixture density below 1e-300), any class", "why_tests_cant": "an equality with another model class for all parameters and data; tests compare fixed numbers", "anchors": ["src/hmmlearn/base.py:_AbstractHMM.score", "src/hmmlearn/base.py:_AbstractHMM.predict_proba", "src/hmmlearn/base.py:_AbstractHMM.decode", "ext/_hmmc.cpp:forward_log", "ext/_hmmc.cpp:forward_scaling", "ext/_hmmc.cpp:backward_log", "ext/_hmmc.cpp:viterbi"]}
