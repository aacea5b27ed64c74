{"id": "C01", "title": "k_fold partitions the units", "statement": "For every well-formed dataset and k >= 1, d.k_fold(k) returns exactly k datasets; every unit of d lands in exactly one of them, with its covariate row, exposure and response still at the same position as each other, in the original relative order; a missing exp/rsp stays missing and the number of features is unchanged.", "quantifier": "every dataset, every k >= 1, every outcome of np.random.permutation", "why_tests_cant": "the split is random; a seeded test looks at one permutation of four units", "anchors": ["causal_effect_bandits/data.py:ExpData.k_fold"]}
{"id": "C02", "title": "k_fold sizes are balanced", "statement": "Fold i of d.k_fold(k) holds exactly as many units as there are j in 0..n-1 with j mod k = i, so two folds never differ by more than one unit.", "quantifier": "every dataset size, k, fold index and permutation", "why_tests_cant": "needs every n and k, not samples", "anchors": ["causal_effect_bandits/data.py:ExpData.k_fold"]}
{"id": "C03", "title": "k_fold error behaviour", "statement": "d.k_fold(k) raises ValueError exactly when k < 1; otherwise TypeError when d has no covariates, IndexError when a present field's length differs from n_units, and it succeeds in every other case.", "quantifier": "every dataset (aligned or not) and every integer k", "why_tests_cant": "the exact error boundary ranges over all shapes", "anchors": ["causal_effect_bandits/data.py:ExpData.k_fold"]}
{"id": "C04", "title": "subsample splits in two", "statement": "d.subsample(p) raises ValueError exactly when p is outside [0,1] or NaN; otherwise it returns two datasets such that each unit is in exactly one of them, rows stay aligned and in order.", "quantifier": "every aligned dataset, every p, every random mask", "why_tests_cant": "random mask, all p including NaN", "anchors": ["causal_effect_bandits/data.py:ExpData.subsample"]}
{"id": "C05", "title": "append concatenates", "statement": "When a.append(b) returns normally on aligned data with the same trailing shape, every field of a becomes a's rows followed by b's, n_units becomes the sum and n_features is unchanged; appending batch after batch is the same as appending their concatenation.", "quantifier": "every pair (and every sequence) of compatible datasets", "why_tests_cant": "all sizes, all numbers of batches", "anchors": ["causal_effect_bandits/data.py:ExpData.append"]}
{"id": "C06", "title": "append failure is not atomic", "statement": "a.append(b) raises exactly when the feature counts or trailing shapes differ, or a has exp/rsp and b lacks it (or its shape differs); a failure caused by exp or rsp leaves a with its covariates already extended but exp/rsp and n_units old, after which len(a) disagrees with a.cov and k_fold raises IndexError; a failure before that leaves a unchanged.", "quantifier": "every pair of datasets and every failure point inside append", "why_tests_cant": "needs every failure point", "anchors": ["causal_effect_bandits/data.py:ExpData.append"]}
{"id": "C07", "title": "the empty dataset is not a neutral element", "statement": "Appending any dataset with at least one feature to an empty ExpData(None, ...) raises ValueError, and appending the empty dataset to itself makes it report two units.", "quantifier": "every dataset", "why_tests_cant": "quantifies over every dataset", "anchors": ["causal_effect_bandits/data.py:ExpData.__init__", "causal_effect_bandits/data.py:ExpData.append"]}
{"id": "C08", "title": "slicing consecutive windows", "statement": "For an aligned d, d[a:b] returns the units with positions a..b-1 that exist (never an error, possibly none), aligned; the consecutive windows d[0:u], d[u:2u], ... concatenate back to exactly d, with no unit repeated or skipped.", "quantifier": "every dataset, every window, every window width >= 1", "why_tests_cant": "every offset and width", "anchors": ["causal_effect_bandits/data.py:ExpData.__getitem__"]}
{"id": "C09", "title": "data transformers keep units and select columns", "statement": "On 2-d covariates get_coordinate_mask_fn(idx) keeps n_units, exp and rsp and makes column j of the result column idx[j] (negative indices from the end), failing with IndexError exactly on an out-of-range index; get_remove_coordinates_fn(i) equals masking with all columns but i; the identity transformer returns its argument.", "quantifier": "every dataset, every index list", "why_tests_cant": "all shapes and index lists", "anchors": ["causal_effect_bandits/data.py:get_coordinate_mask_fn", "causal_effect_bandits/data.py:get_remove_coordinates_fn", "causal_effect_bandits/data.py:get_identity_fn"]}
{"id": "C10", "title": "transformers commute with splitting", "statement": "Transforming the covariates and then splitting (k_fold or slicing) gives the same datasets as splitting and then transforming, for the same permutation.", "quantifier": "every dataset, index list, k and permutation", "why_tests_cant": "relates two random computations for all permutations", "anchors": ["causal_effect_bandits/data.py:get_coordinate_mask_fn", "causal_effect_bandits/data.py:ExpData.k_fold", "causal_effect_bandits/arms.py:SampleSplittingArm.update"]}
{"id": "C11", "title": "column mask on one-dimensional covariates drops units", "statement": "On a 1-d covariate vector get_coordinate_mask_fn(idx) selects units instead of features: the result's n_units is len(idx) while exp and rsp keep their length, so the result is misaligned unless len(idx) equals n_units; get_remove_coordinates_fn raises.", "quantifier": "every dataset with 1-d covariates, every in-range index list", "why_tests_cant": "all sizes", "anchors": ["causal_effect_bandits/data.py:get_coordinate_mask_fn", "causal_effect_bandits/data.py:get_remove_coordinates_fn"]}
{"id": "C12", "title": "linear generator response", "statement": "LinearDataGenerator.generate(n) returns n units with y_i = x_i.beta + tau*t_i + e_i where e is the second draw of noise_model, t binary; only the first draw is length-checked, so a second draw of length 1 is silently broadcast to all units.", "quantifier": "every generator, n, noise model and random draw", "why_tests_cant": "all noise models; the noise model is stateful", "anchors": ["causal_effect_bandits/data.py:LinearDataGenerator.generate", "causal_effect_bandits/data.py:LinearDataGenerator.__init__"]}
{"id": "C13", "title": "tabular CPD: unsmoothed cells are exact frequencies", "statement": "After fitting a fresh TabularCPD, the predicted P(z|x) of a seen pair row in which no cell violates the bounds equals count(x,z)/count(x), and x_marginal[x] is count(x)/n.", "quantifier": "every dataset and ratio", "why_tests_cant": "all datasets", "anchors": ["causal_effect_bandits/data.py:TabularCPD.fit", "causal_effect_bandits/data.py:TabularCPD.predict"]}
{"id": "C14", "title": "tabular CPD: rows sum to one exactly when no cell exceeds 1-min_prob", "statement": "For min_ratio_to_uniform >= 1 and at least two z values, the predicted row P(.|x) sums to 1 if no raw frequency exceeds 1-min_prob; if one does, the row sums to 1+(s-2)*min_prob, s the number of z values; with a single z value it sums to 1-min_prob.", "quantifier": "every dataset, every seen x, every ratio >= 1", "why_tests_cant": "exact identity over all count tables", "anchors": ["causal_effect_bandits/data.py:TabularCPD.fit"]}
{"id": "C15", "title": "tabular CPD: smoothing floor", "statement": "A raw frequency below min_prob is replaced by exactly min_prob and the remaining cells are all lowered by the same amount; the lowered cells can fall below min_prob and even below zero, so a predicted probability may be negative.", "quantifier": "every dataset; existence of a dataset", "why_tests_cant": "the failing tables are rare; the characterisation covers all", "anchors": ["causal_effect_bandits/data.py:TabularCPD.fit"]}
{"id": "C16", "title": "tabular CPD: predict is total and pure up to unseen keys", "statement": "predict never raises; on an unseen x or z it returns 0; it returns min(len(x),len(z)) values; repeated or interleaved predict calls never change what any predict returns; but after predicting on an unseen x, printing the table raises KeyError.", "quantifier": "every table, every query sequence", "why_tests_cant": "histories of queries", "anchors": ["causal_effect_bandits/data.py:TabularCPD.predict", "causal_effect_bandits/data.py:TabularCPD.__str__"]}
{"id": "C17", "title": "tabular CPD: refitting keeps the old support", "statement": "fit clears counts but not the remembered x and z values: refitting on data that lacks a previously seen x raises ZeroDivisionError, and a z value seen only in an earlier fit still gets probability and still counts in min_prob; when the new data has the same supports the refit predicts exactly what a fresh fit would.", "quantifier": "every pair of successive datasets", "why_tests_cant": "histories of fits", "anchors": ["causal_effect_bandits/data.py:TabularCPD.fit"]}
{"id": "C18", "title": "tabular CPD: order of units is irrelevant", "statement": "Permuting the (x,z) units passed to a fresh fit does not change any predicted probability or marginal.", "quantifier": "every dataset and permutation", "why_tests_cant": "all permutations", "anchors": ["causal_effect_bandits/data.py:TabularCPD.fit"]}
{"id": "C19", "title": "SCM constructor validation", "statement": "SCM(...) succeeds exactly when every variable has an entry in parents and in cpds, the treatment and response are variables and every covariate is a variable; otherwise it raises ValueError.", "quantifier": "every graph description", "why_tests_cant": "all graphs", "anchors": ["causal_effect_bandits/scm.py:SCM.__init__"]}
{"id": "C20", "title": "SCM.generate accepts exactly topological orders", "statement": "When the CPDs do not raise, generate(n) succeeds if and only if every variable's parents precede it in var_names (for duplicate-free var_names), otherwise it raises ValueError.", "quantifier": "every graph, order, n", "why_tests_cant": "all DAGs and orders", "anchors": ["causal_effect_bandits/scm.py:SCM.generate"]}
{"id": "C21", "title": "SCM.generate draws each variable once from its parents' samples", "statement": "A successful generate calls the CPD of each variable exactly once, in order, with n and with the list of samples of its declared parents in declared order; the returned covariates are the samples of cov_variables side by side in that order, exp and rsp those of the treatment and response variable, and the SCM itself is unchanged.", "quantifier": "every SCM, n, random state", "why_tests_cant": "all graphs", "anchors": ["causal_effect_bandits/scm.py:SCM.generate"]}
{"id": "C22", "title": "intervening on a variable only affects its descendants", "statement": "For deterministic CPDs, replacing one variable's CPD leaves the sample of every non-descendant unchanged.", "quantifier": "every SCM, every replaced CPD", "why_tests_cant": "non-interference over all graphs", "anchors": ["causal_effect_bandits/scm.py:SCM.generate"]}
{"id": "C23", "title": "compute_treatment_effect never returns", "statement": "compute_treatment_effect always raises (AttributeError whenever generation reaches the treatment variable), and it leaves the model's treatment CPD replaced, so every later generate that reaches the treatment raises AttributeError too.", "quantifier": "every constructed SCM and n", "why_tests_cant": "every SCM and later call", "anchors": ["causal_effect_bandits/scm.py:SCM.compute_treatment_effect"]}
{"id": "C24", "title": "categorical_conditioning", "statement": "categorical_conditioning(parents, j, ds) raises ValueError when j >= len(parents); otherwise entry i of the result is the first draw of ds[int(parents[j][i])] on the remaining parents' i-th values, in order, and the caller's parent list has lost entry j.", "quantifier": "every parent list, index and distribution list", "why_tests_cant": "all lists", "anchors": ["causal_effect_bandits/scm.py:categorical_conditioning"]}
{"id": "C25", "title": "arm data is persisted and partitioned", "statement": "With stable_splits, after any sequence of updates the two folds of a SampleSplittingArm together contain exactly the transformed units of all batches, each once; every batch contributes to the folds sizes differing by at most one, and get_num_units() is the total number of units fed.", "quantifier": "every history of updates, every permutation drawn", "why_tests_cant": "histories and randomness", "anchors": ["causal_effect_bandits/arms.py:SampleSplittingArm.update", "causal_effect_bandits/arms.py:SampleSplittingArm.get_num_units"]}
{"id": "C26", "title": "sample splitting separation", "statement": "With stable_splits, a unit's fold never changes once assigned: at every update the nuisance parameter is fitted on exactly fold 0 and scored on exactly fold 1, and no unit is ever used for both, over the whole history.", "quantifier": "every history of updates", "why_tests_cant": "histories and randomness", "anchors": ["causal_effect_bandits/arms.py:SampleSplittingArm.update"]}
{"id": "C27", "title": "stable_splits=False forgets earlier data", "statement": "With stable_splits=False the arm's folds after an update contain only the last batch, and get_num_units() is the size of that batch.", "quantifier": "every history", "why_tests_cant": "histories", "anchors": ["causal_effect_bandits/arms.py:SampleSplittingArm.update"]}
{"id": "C28", "title": "delta is validated first", "statement": "update with delta outside (0,1) (or NaN) raises ValueError and changes nothing at all in the arm; with delta inside, num_pulled grows by exactly one even if a later step raises.", "quantifier": "every arm state, batch, delta", "why_tests_cant": "every failure point", "anchors": ["causal_effect_bandits/arms.py:SampleSplittingArm.update", "causal_effect_bandits/arms.py:BootstrapArm.update"]}
{"id": "C29", "title": "too few samples gives the vacuous interval", "statement": "If after fitting the nuisance parameter reports it lacks samples, update returns (0, inf), ate is nan and var_est is inf.", "quantifier": "every arm state and batch", "why_tests_cant": "every state", "anchors": ["causal_effect_bandits/arms.py:SampleSplittingArm.update"]}
{"id": "C30", "title": "finite-sample interval brackets the estimate", "statement": "With FINITE_SAMPLE and valid parameters, whenever the computed half-width is not NaN, it is nonnegative, the interval's lower end is max(var_est-width,0), and unless estimate and half-width are both +inf, 0 <= lower <= var_est <= upper, in binary64 arithmetic as well; below burn-in the interval is (0, inf).", "quantifier": "every arm state, batch, delta, oracle outcome", "why_tests_cant": "all floats including inf/NaN", "anchors": ["causal_effect_bandits/arms.py:SampleSplittingArm.update"]}
{"id": "C31", "title": "finite-sample half-width", "statement": "The half-width is at least eta_width^2 and (when the argument of the square root is nonnegative) is nonincreasing in delta and nondecreasing in eta_width and tau_bound; for a small enough sub_gscale the square root's argument is negative and the interval is (nan, nan).", "quantifier": "every parameter setting", "why_tests_cant": "real-analytic statement over all parameters", "anchors": ["causal_effect_bandits/arms.py:SampleSplittingArm.update"]}
{"id": "C32", "title": "default configuration raises on first usable data", "statement": "A SampleSplittingArm built with default options (FINITE_SAMPLE, burn_in=0) raises ValueError at every update at which the nuisance parameter has enough samples, leaving ate/var_est new but the interval old.", "quantifier": "every history", "why_tests_cant": "histories", "anchors": ["causal_effect_bandits/arms.py:SampleSplittingArm.__init__", "causal_effect_bandits/arms.py:SampleSplittingArm.update"]}
{"id": "C33", "title": "CLT interval", "statement": "With CLT, whenever the quantile product is not NaN and the quantiles have the right sign, 0 <= lower <= var_est <= upper; the per-update error budgets delta/k^2 sum to more than delta from the second update on.", "quantifier": "every history and delta", "why_tests_cant": "sums over unbounded histories", "anchors": ["causal_effect_bandits/arms.py:SampleSplittingArm.update"]}
{"id": "C34", "title": "reset makes an arm as good as new", "statement": "After reset, any sequence of updates returns the same intervals, estimates and errors as on a freshly constructed arm, provided the nuisance parameter's reset restores its initial state; before the next update, however, ci is (None, None) instead of (-inf, inf).", "quantifier": "every history before and after the reset", "why_tests_cant": "trace equivalence over all histories", "anchors": ["causal_effect_bandits/arms.py:VarianceEstimatorArm.reset", "causal_effect_bandits/arms.py:SampleSplittingArm.reset"]}
{"id": "C35", "title": "base arm cannot be updated", "statement": "VarianceEstimatorArm.update always raises AttributeError, after having set ci to (0, inf).", "quantifier": "every arm state and argument", "why_tests_cant": "all states", "anchors": ["causal_effect_bandits/arms.py:VarianceEstimatorArm.update"]}
{"id": "C36", "title": "bootstrap interval is ordered", "statement": "A successful BootstrapArm.update without NaN bootstrap values returns ci with lower <= upper, both among the bootstrap variances; the quantile positions computed in binary64 are always inside the sample for 0<delta<1 and 1 to 2^53 bootstraps.", "quantifier": "every delta in (0,1), every number of bootstraps, every sample", "why_tests_cant": "all delta and sizes", "anchors": ["causal_effect_bandits/arms.py:BootstrapArm.update"]}
{"id": "C37", "title": "bootstrap arm leaves eta fitted on the last resample", "statement": "After BootstrapArm.update with at least one bootstrap, the nuisance parameter was last fitted on the last bootstrap subsample, not on fold 0, and var_est/ate are computed with it; get_num_units() is always 0.", "quantifier": "every history", "why_tests_cant": "histories and randomness", "anchors": ["causal_effect_bandits/arms.py:BootstrapArm.update", "causal_effect_bandits/arms.py:VarianceEstimatorArm.get_num_units"]}
{"id": "C38", "title": "AIPW fits exactly when both groups are large enough", "statement": "AIPW.fit on binary exposures fits (and from then on reports enough samples) exactly when there are at least min_units treated and min_units control units; otherwise the previous model and flag are kept; with growing data, once it has enough samples it always has.", "quantifier": "every dataset and fit history", "why_tests_cant": "histories", "anchors": ["causal_effect_bandits/parameters.py:AIPW.fit", "causal_effect_bandits/parameters.py:AIPW.has_enough_samples"]}
{"id": "C39", "title": "AIPW score formula", "statement": "For a fitted AIPW and binary exposures the score of unit i is mu1-mu0 + (y-mu_x)/e for treated and mu1-mu0 - (y-mu_x)/(1-e) for control units, e the propensity clipped to [min_overlap, 1-min_overlap]; one score per unit.", "quantifier": "every dataset, model output, overlap in (1e-15, 1/2]", "why_tests_cant": "all real inputs", "anchors": ["causal_effect_bandits/parameters.py:AIPW.transform", "causal_effect_bandits/parameters.py:AIPW._phi", "causal_effect_bandits/parameters.py:AIPW.calculate_score"]}
{"id": "C40", "title": "AIPW double robustness", "statement": "On any finite population with overlap, the mean AIPW score equals the average treatment effect if either the response model or the (unclipped) propensity model is correct.", "quantifier": "every finite-support distribution, every wrong model for the other nuisance", "why_tests_cant": "identity over all distributions", "anchors": ["causal_effect_bandits/parameters.py:AIPW._phi"]}
{"id": "C41", "title": "unfitted AIPW yields NaN scores, never an exception", "statement": "calculate_score on an AIPW that was never fitted returns n_units NaNs regardless of the feature count.", "quantifier": "every dataset", "why_tests_cant": "all inputs", "anchors": ["causal_effect_bandits/parameters.py:AIPW.transform", "causal_effect_bandits/parameters.py:AIPW._phi"]}
{"id": "C42", "title": "AIPW confidence width", "statement": "For delta in (0,1), positive rho and sub_g, the not-enough-samples branch is never taken, and the width is mu_radius*(1/min_overlap-1): nonnegative, nonincreasing in delta.", "quantifier": "every Gram matrix (given det(sub_g V + rho I) >= rho^d), delta", "why_tests_cant": "all reals", "anchors": ["causal_effect_bandits/parameters.py:AIPW.calculate_cs_width"]}
{"id": "C43", "title": "front-door score formula", "statement": "FrontDoorLinearFiniteZ.calculate_score computes (y-mu)(p1-p0)/p + f1 + w(f2-f3) with w=1/P(X=1) for treated and -1/P(X=0) for control units and p's clipped.", "quantifier": "every dataset and model output", "why_tests_cant": "all inputs", "anchors": ["causal_effect_bandits/parameters.py:FrontDoorLinearFiniteZ.transform", "causal_effect_bandits/parameters.py:FrontDoorLinearFiniteZ._phi"]}
{"id": "C44", "title": "front-door f1 vanishes for multi-dimensional covariates", "statement": "The f1 component equals sum_z' mu(z',x)(P(z'|1)-P(z'|0)) when there is one covariate column, and is 0 for every unit as soon as there are two or more columns.", "quantifier": "every dataset with >=2 columns", "why_tests_cant": "all datasets", "anchors": ["causal_effect_bandits/parameters.py:FrontDoorLinearFiniteZ.transform", "causal_effect_bandits/data.py:TabularCPD.predict"]}
{"id": "C45", "title": "front-door score is biased", "statement": "Even with all nuisances set to the truth on a finite population, the mean front-door score is 2*ATE - (E[f3|X=1]-E[f3|X=0]), which differs from the ATE for some populations.", "quantifier": "every finite population; existence of a counterexample", "why_tests_cant": "identity over all distributions", "anchors": ["causal_effect_bandits/parameters.py:FrontDoorLinearFiniteZ._phi", "causal_effect_bandits/parameters.py:FrontDoorLinearFiniteZ.transform"]}
{"id": "C46", "title": "linear-regression parameter score mean", "statement": "On the data it was fitted on, the mean of LinearRegressionParameter's scores is the exposure coefficient (first entry) of (D'D + l_reg I)^-1 D'Y.", "quantifier": "every dataset, every inverse oracle", "why_tests_cant": "all datasets", "anchors": ["causal_effect_bandits/parameters.py:LinearRegressionParameter.fit", "causal_effect_bandits/parameters.py:LinearRegressionParameter._phi"]}
{"id": "C47", "title": "linear-regression parameter ignores reset", "statement": "reset() on a LinearRegressionParameter changes nothing, so an arm built on it keeps reporting enough samples with the stale model after reset and behaves differently from a fresh arm.", "quantifier": "every state; existence of a history", "why_tests_cant": "histories", "anchors": ["causal_effect_bandits/parameters.py:LinearRegressionParameter", "causal_effect_bandits/parameters.py:NuisanceParameter.reset", "causal_effect_bandits/arms.py:VarianceEstimatorArm.reset"]}
{"id": "C48", "title": "LinearParameterBinaryTreatment arms never estimate", "statement": "A SampleSplittingArm over LinearParameterBinaryTreatment returns (0, inf) or raises at every update of every history; fitting it without a treated (or control) unit raises instead of skipping.", "quantifier": "every history", "why_tests_cant": "histories", "anchors": ["causal_effect_bandits/parameters.py:LinearParameterBinaryTreatment", "causal_effect_bandits/parameters.py:NuisanceParameter.has_enough_samples", "causal_effect_bandits/arms.py:SampleSplittingArm.update"]}
{"id": "C49", "title": "bandit constructor validation", "statement": "BAIBanditAlgorithm(...) succeeds exactly when 0<error_prob<1, error_tol is not negative, confidence is None or in (0,1), and not (confidence None with infinite or missing sample_limit); LUCB and SuccessiveElimination with default arguments always raise TypeError.", "quantifier": "every argument combination", "why_tests_cant": "all floats including NaN", "anchors": ["causal_effect_bandits/bandits.py:BAIBanditAlgorithm.__init__", "causal_effect_bandits/bandits.py:LUCBAlgorithm.__init__", "causal_effect_bandits/bandits.py:SuccessiveEliminationAlgorithm.__init__"]}
{"id": "C50", "title": "uniform: accounting", "statement": "A returned UniformAlgorithm run of R rounds has cum_samples[t]=(t+1)*K*u, every per-arm history of length R, samples_by_arm constantly u, and every arm updated exactly R times, with the same batch as the other arms and delta=error_prob/K.", "quantifier": "every arm behaviour, data source, run length", "why_tests_cant": "all runs", "anchors": ["causal_effect_bandits/bandits.py:UniformAlgorithm.run"]}
{"id": "C51", "title": "uniform: termination and overshoot", "statement": "With K,u >= 1 and a finite sample_limit a UniformAlgorithm run always stops within sample_limit/(K*u)+1 rounds (or propagates an arm's exception), and the last cum_samples is at most sample_limit+K*u.", "quantifier": "every arm behaviour", "why_tests_cant": "termination for all behaviours", "anchors": ["causal_effect_bandits/bandits.py:UniformAlgorithm.run"]}
{"id": "C52", "title": "no sample limit, no termination", "statement": "With sample_limit=inf and arms whose upper bound stays infinite, UniformAlgorithm.run never returns.", "quantifier": "every number of rounds", "why_tests_cant": "non-termination", "anchors": ["causal_effect_bandits/bandits.py:UniformAlgorithm.run"]}
{"id": "C53", "title": "stopping rule is sound", "statement": "When Uniform or LUCB stop by confidence, exactly one arm i is returned, and its recorded upper bound plus error_tol is strictly below the recorded lower bound of every other arm (exactly, despite rounding); so if the recorded intervals contain the true cost-adjusted variances, arm i's is smaller than every other arm's by more than error_tol.", "quantifier": "every run, all binary64 values", "why_tests_cant": "all floats and runs", "anchors": ["causal_effect_bandits/bandits.py:BAIBanditAlgorithm._check_fixed_conf_end_condition", "causal_effect_bandits/bandits.py:UniformAlgorithm.run", "causal_effect_bandits/bandits.py:LUCBAlgorithm.run"]}
{"id": "C54", "title": "stopping at the sample limit returns the arg-min arms", "statement": "When a run of any algorithm stops by the limit, the returned arms are exactly those whose last recorded variance estimate equals the minimum; non-empty if no estimate is NaN; cum_samples[-1] > sample_limit.", "quantifier": "every run", "why_tests_cant": "all runs", "anchors": ["causal_effect_bandits/bandits.py:UniformAlgorithm.run", "causal_effect_bandits/bandits.py:LUCBAlgorithm.run", "causal_effect_bandits/bandits.py:SuccessiveEliminationAlgorithm.run"]}
{"id": "C55", "title": "histories record the arms' state", "statement": "In every returned run all lcb/ucb/var_est/sample histories of all arms have the same length as cum_samples, and their last entries are cost times the arm's current ci and var_est.", "quantifier": "every run of every algorithm", "why_tests_cant": "all runs", "anchors": ["causal_effect_bandits/bandits.py:BanditData", "causal_effect_bandits/bandits.py:UniformAlgorithm.run", "causal_effect_bandits/bandits.py:LUCBAlgorithm.run", "causal_effect_bandits/bandits.py:SuccessiveEliminationAlgorithm.run"]}
{"id": "C56", "title": "successive elimination: only candidates are sampled, eliminated arms stay eliminated", "statement": "In a SuccessiveElimination run, from the round an arm gets 0 samples it gets 0 samples in all later rounds and its recorded lcb, ucb and var_est never change again; every arm is sampled in the first round.", "quantifier": "every run", "why_tests_cant": "all runs", "anchors": ["causal_effect_bandits/bandits.py:SuccessiveEliminationAlgorithm.run"]}
{"id": "C57", "title": "successive elimination: accounting", "statement": "cum_samples[t] is the sum over arms of samples recorded up to round t; each entry is 0 or u.", "quantifier": "every run", "why_tests_cant": "all runs", "anchors": ["causal_effect_bandits/bandits.py:SuccessiveEliminationAlgorithm.run"]}
{"id": "C58", "title": "successive elimination: termination", "statement": "With u >= 1 and finite sample_limit it always stops, within sample_limit/(2u)+2 rounds, and total samples stay at most sample_limit+K*u.", "quantifier": "every arm behaviour", "why_tests_cant": "termination", "anchors": ["causal_effect_bandits/bandits.py:SuccessiveEliminationAlgorithm.run"]}
{"id": "C59", "title": "successive elimination: the best arm survives", "statement": "If every recorded interval contains the arm's true value and is non-degenerate (lcb<ucb), then at every point some candidate is at least as good as every arm ever eliminated; a run that stops by elimination returns exactly one arm and its true value is minimal.", "quantifier": "every run, all true values", "why_tests_cant": "all runs", "anchors": ["causal_effect_bandits/bandits.py:SuccessiveEliminationAlgorithm.run"]}
{"id": "C60", "title": "successive elimination: degenerate intervals can eliminate everything", "statement": "If some candidate interval has lcb >= ucb the candidate set can become empty and the run returns best_arm=[]; if all lcb<ucb among finite comparisons it never becomes empty.", "quantifier": "every round; existence", "why_tests_cant": "all floats", "anchors": ["causal_effect_bandits/bandits.py:SuccessiveEliminationAlgorithm.run"]}
{"id": "C61", "title": "successive elimination: the limit can resurrect an eliminated arm", "statement": "When stopped by the sample limit the returned arms are chosen among all arms, not the candidates: there is a run returning only an arm eliminated earlier.", "quantifier": "existence of a run", "why_tests_cant": "needs a specific history", "anchors": ["causal_effect_bandits/bandits.py:SuccessiveEliminationAlgorithm.run"]}
{"id": "C62", "title": "successive elimination ignores error_tol", "statement": "Two runs differing only in error_tol are identical.", "quantifier": "every run", "why_tests_cant": "relational", "anchors": ["causal_effect_bandits/bandits.py:SuccessiveEliminationAlgorithm.run"]}
{"id": "C63", "title": "LUCB: arms chosen", "statement": "With no NaN, select_arms returns a pair (a,b): a has the same upper bound as the largest upper bound among the minimum-estimate arms, b has the same lower bound as the smallest lower bound among the other arms; it raises ValueError exactly when all variance estimates are equal (in particular with one arm, or when no arm has enough samples yet).", "quantifier": "every state, every random choice", "why_tests_cant": "all floats", "anchors": ["causal_effect_bandits/bandits.py:LUCBAlgorithm.select_arms"]}
{"id": "C64", "title": "LUCB: the same arm can be drawn twice", "statement": "The two returned arms may coincide even though candidates are disjoint; then samples_by_arm undercounts: cum_samples increments by 2u but only u is recorded. If the two arms differ in every round the accounts agree.", "quantifier": "every run; existence", "why_tests_cant": "all runs", "anchors": ["causal_effect_bandits/bandits.py:LUCBAlgorithm.select_arms", "causal_effect_bandits/bandits.py:LUCBAlgorithm.run"]}
{"id": "C65", "title": "LUCB: termination", "statement": "With u >= 1 and finite sample_limit LUCB always stops, within (sample_limit - K*u)/(2u)+2 recorded rounds, cum_samples[t]=K*u+2*u*t, and the total stays at most sample_limit+max(K,2)*u.", "quantifier": "every arm behaviour", "why_tests_cant": "termination", "anchors": ["causal_effect_bandits/bandits.py:LUCBAlgorithm.run"]}
{"id": "C66", "title": "stable order: arms read the data sequentially", "statement": "With all_data given and arms that count the units they received, the k-th batch any arm receives is all_data[k*u:(k+1)*u] with delta error_prob/K, in all three algorithms, so the inputs an arm sees in one algorithm are a prefix of those it sees in another.", "quantifier": "every run of every algorithm", "why_tests_cant": "all runs, relational", "anchors": ["causal_effect_bandits/bandits.py:UniformAlgorithm.run", "causal_effect_bandits/bandits.py:LUCBAlgorithm.run", "causal_effect_bandits/bandits.py:SuccessiveEliminationAlgorithm.run"]}
{"id": "C67", "title": "sample_limit + K*u rows of data suffice", "statement": "With all_data of at least sample_limit+K*u units and the arms starting fresh, every batch handed to an arm has exactly u units.", "quantifier": "every run of every algorithm", "why_tests_cant": "all runs", "anchors": ["causal_effect_bandits/bandits.py:UniformAlgorithm.run", "causal_effect_bandits/bandits.py:LUCBAlgorithm.run", "causal_effect_bandits/bandits.py:SuccessiveEliminationAlgorithm.run", "notebooks/paper_experiments.ipynb"]}
{"id": "C68", "title": "confidence sequences are not identical across algorithms", "statement": "Although the inputs agree, splitting draws from the shared global random state: there is a data set and an arm whose interval after its second update differs between two algorithms.", "quantifier": "existence", "why_tests_cant": "randomness interleaving", "anchors": ["causal_effect_bandits/bandits.py:UniformAlgorithm.run", "causal_effect_bandits/data.py:ExpData.k_fold"]}
{"id": "C69", "title": "bandit reset", "statement": "After bandit.reset() a run returns exactly what it would return on newly constructed arms, for arms whose reset is faithful.", "quantifier": "every history", "why_tests_cant": "trace equivalence", "anchors": ["causal_effect_bandits/bandits.py:BAIBanditAlgorithm.reset"]}
{"id": "C70", "title": "single-armed bandits", "statement": "With one arm UniformAlgorithm raises ValueError at the first round whose upper bound is finite and within the limit, LUCB raises ValueError before its second round, SuccessiveElimination returns that arm without sampling.", "quantifier": "every single-arm run", "why_tests_cant": "all runs", "anchors": ["causal_effect_bandits/bandits.py:BAIBanditAlgorithm._check_fixed_conf_end_condition", "causal_effect_bandits/bandits.py:LUCBAlgorithm.select_arms", "causal_effect_bandits/bandits.py:SuccessiveEliminationAlgorithm.run"]}
{"id": "C71", "title": "selection masks enumerate the adjustment sets", "statement": "Whenever generate_example_from_cpd succeeds there is one front-door arm (mask: the columns of Z0, cost z0_cost) followed by exactly 2^M back-door arms; arm k chooses V_i or Z_i on path i according to bit i-1 of k, every choice is made by exactly one k, and the name, the mask, the cost and n_features of arm k are those of its choice: names differ between arms, mask indices are distinct and below the sum of all dimensions, their number is the sum of the chosen dimensions, the cost (over the reals) is #V * v_cost + #Z * z_cost. M = 0 always ends in RecursionError.", "quantifier": "every M, all lists of dimensions, all costs, CPDs, options and random states", "why_tests_cant": "2^M arms for every M and every list of dimensions", "anchors": ["causal_effect_bandits/paper_utils.py:435-618"]}
{"id": "C72", "title": "selection masks read the wrong columns", "statement": "The masks count columns in the order Z0,Z1..ZM,V1..VM while generated data has them in the order Z0,V1,Z1,V2,Z2..: for every execution of the SCM the front-door mask reads exactly Z0, but with one positive dimension for all paths no arm reads, for any path, the variable it is named after (the variable it reads instead is given in closed form), and for any positive dimensions every arm named after Z_1 gets as its first covariate the first column of V_1.", "quantifier": "every M >= 1, all positive dimensions, CPDs, numbers of units and random states", "why_tests_cant": "columns are exchangeable to a test that only looks at shapes; the claim holds for all M, dimensions and executions", "anchors": ["causal_effect_bandits/paper_utils.py:435-618", "causal_effect_bandits/scm.py:87-126"]}
{"id": "C73", "title": "paper SCM is well formed", "statement": "If the CPD dictionary covers X, Y, Z0, V_i and Z_i the SCM is accepted, its variable order is topological and without repetition, the variables, covariates, treatment and response are the declared ones and the parents are exactly V_i -> X, V_i -> Z_i, X -> Z0, Z0 -> Y, Z_i -> Y; if one of these CPDs is missing the constructor raises ValueError.", "quantifier": "every M and every dictionary of CPDs", "why_tests_cant": "all M", "anchors": ["causal_effect_bandits/paper_utils.py:471-501", "causal_effect_bandits/scm.py:34-85"]}
{"id": "C74", "title": "section 5.1 tau selection", "statement": "The selection of Z0's distributions returns, if the effect of the tenth draw is positive, the first later draw whose effect is not smaller, otherwise the tenth draw itself (of non-positive effect); it does not end iff the tenth effect is positive and all later effects are smaller; the effect is the difference of the means of support.beta0 under p1 and p0; the threshold is not the maximum of the ten draws (counterexample).", "quantifier": "every stream of draws, support and coefficients", "why_tests_cant": "all streams, including those on which the loop does not end", "anchors": ["causal_effect_bandits/paper_utils.py:127-144", "causal_effect_bandits/paper_utils.py:220-237"]}
{"id": "C75", "title": "random function components coincide", "statement": "All out_dim components of a function returned by generate_random_nd_function are the same function: each output row is one predicted value repeated out_dim times (the seed drawn at the first component is kept for the later ones). The global generator is advanced by exactly one randint when no seed is given and out_dim >= 1, and left alone otherwise; the result depends on it only through that draw. The inputs of the Gaussian process are np^dim points of length dim with coordinates in [min, max].", "quantifier": "every dim, out_dim, seed, number of points, range, Gaussian-process oracle and generator state", "why_tests_cant": "all dimensions, seeds and oracles; a test sees a few functions at a few points", "anchors": ["causal_effect_bandits/nonlinear_utils.py:34-101"]}
{"id": "C76", "title": "softmax is a probability vector", "statement": "softmax of a non-empty finite vector has entries exp(x_i)/sum_j exp(x_j), positive and summing to one, and is invariant under adding a constant; an infinite or NaN maximum gives NaN entries; the empty vector raises ValueError. In binary64, with an exponential that maps the non-positive doubles into [0,1] and 0 to 1, no entry is NaN or exceeds 1, for every finite vector: the subtraction of the maximum prevents overflow.", "quantifier": "every real vector; every vector of finite doubles and every such exponential", "why_tests_cant": "all vectors, including those at the overflow threshold", "anchors": ["causal_effect_bandits/nonlinear_utils.py:29-31", "causal_effect_bandits/paper_utils.py:35-37", "causal_effect_bandits/test_utils.py:113-115"]}
{"id": "C77", "title": "example SCM moments", "statement": "back_door_scm and frontdoor_scm succeed; their SCMs sample exactly the stated structural equations; tau is the effect of the intervention and the dictionary's means and variances of Z, X (and U) and the mean of Y are those of the sampled law. var_y is not: it lacks 2*tau*beta*alpha*p(1-p), respectively 2*gamma*alpha_2*P(Z=1,U=1), and so is right iff alpha = 0 or beta = 0, respectively iff alpha_2 = 0.", "quantifier": "every outcome of the random draws within their ranges, every sample size and every noise law of mean 0 and variance 1", "why_tests_cant": "identities over all real parameters and all laws; a sampling test has a tolerance", "anchors": ["causal_effect_bandits/example_scm.py:27-84", "causal_effect_bandits/example_scm.py:87-169"]}
{"id": "C78", "title": "single-arm benchmark schedule", "statement": "run_single_arm, when it returns, has performed the least number k of rounds with k*increment >= max_samples, each drawing increment new units and updating the arm with the full error budget; n_samples[i] = (i+1)*increment and the other four lists record the arm after each of these rounds in order; the ATE list is under key 'ATE_estmitates', the documented key 'ATE_estimates' is absent. With increment >= 1 the number is ceil(max_samples/increment) and the run returns if no round raises; with increment <= 0 < max_samples it never returns.", "quantifier": "every arm behaviour, generator, increment, max_samples and fuel", "why_tests_cant": "all schedules and arm behaviours, and non-termination", "anchors": ["causal_effect_bandits/test_utils.py:27-84"]}
{"id": "C79", "title": "bootstrap arms re-read the first batch of pre-drawn data", "statement": "BootstrapArm inherits get_num_units() == 0, so when a bandit algorithm runs on pre-drawn data every update of a BootstrapArm receives the same rows 0..units-1 of the data set; fresh rows are never used.", "quantifier": "every algorithm, data set, configuration, random state and number of rounds", "why_tests_cant": "a test sees one data set and a few rounds; the claim covers every batch of every run, including runs that raise", "anchors": ["causal_effect_bandits/arms.py:103-105", "causal_effect_bandits/arms.py:294-376", "causal_effect_bandits/bandits.py:233-239", "causal_effect_bandits/bandits.py:352-358", "causal_effect_bandits/bandits.py:496-502"]}
{"id": "C81", "title": "construction and configuration of the paper examples", "statement": "generate_example_from_cpd succeeds exactly if the CPDs cover the variables, 1 <= M < len(z_dim), M < len(v_dim) and the big sample can be generated; then there are 2^M + 1 arms, the LUCB and successive-elimination bandits share one configuration (error_prob .05, tolerance 0, no confidence), the uniform bandit has confidence .05, and all arms have the same options: stabilized, requested CI algorithm, sub-Gaussian scale var(exposures)+var(covariates)+var(responses) of the big sample; only the nuisance parameters differ (front-door with Z0's dimension, AIPW with the arm's own dimension).", "quantifier": "every argument and random state", "why_tests_cant": "equivalence over all arguments", "anchors": ["causal_effect_bandits/paper_utils.py:435-618"]}
{"id": "C82", "title": "dimensions whose arms can never be updated", "statement": "With M >= 2 a back-door arm that chooses a variable of dimension 0 has a float-typed mask and its covariate selection raises IndexError on every data set; with a non-zero placeholder v_dim[0] every arm observing V_M raises IndexError on every generated data set.", "quantifier": "every M, all dimensions, all data sets", "why_tests_cant": "all data sets and dimensions", "anchors": ["causal_effect_bandits/paper_utils.py:503-541"]}
{"id": "C80", "title": "the CHI2 interval of sample splitting arms", "statement": "With ci_algorithm CHI2 an update that returns normally gives (var*(n-1)/q(1-delta/2), var*(n-1)/q(delta/2)), n the number of units in the second split and q the chi-squared quantile with n-1 degrees of freedom, or (0, inf) if there is not enough data; unlike CLT the error probability is this call's delta, undivided. With one unit (0 degrees of freedom, NaN quantiles) both ends are NaN. In exact arithmetic, for n >= 2, a nonnegative estimate and positive ordered quantiles the interval is ordered and nonnegative, and it contains the estimate if n-1 lies between the quantiles.", "quantifier": "every arm state, batch, delta, random state, nuisance parameter and quantile function", "why_tests_cant": "universal over quantile functions and arm states", "anchors": ["causal_effect_bandits/arms.py:192-291"]}
{"id": "C83", "title": "width of the front-door confidence sequence", "statement": "calculate_cs_width of LinearFrontDoorBinary is the sum of the regression radius and the boundary radius weighted by the overlap bound (formula given independently with real Gram matrices), is infinite below the boundary threshold, does not increase when delta grows, does not depend on the support size of the fitted conditional distribution (the radius computed from it is dropped), and raises AttributeError before any data was kept; the same for AIPW without data.", "quantifier": "every data set, dimension, overlap bound, delta, rho, sub-Gaussian parameter and eigenvalue oracle meeting the stated hypotheses", "why_tests_cant": "universal over real parameters; monotonicity relates two calls", "anchors": ["causal_effect_bandits/parameters.py:627-675", "causal_effect_bandits/parameters.py:363-395"]}
{"id": "C84", "title": "plug-in scores of LinearParametersBinaryTreatment", "statement": "The score of LinearParametersBinaryTreatment on a unit is treated model minus control model at the unit's covariates; exposures and responses are ignored. After set_to_truth the score is tau for every unit if the parameter was fitted, and NaN otherwise (the flag is not set).", "quantifier": "every data set, model pair, dimension and truth", "why_tests_cant": "universal over data and models", "anchors": ["causal_effect_bandits/parameters.py:210-275"]}
{"id": "C85", "title": "reset of a nuisance parameter forgets its history", "statement": "Any sequence of later method calls on a reset AIPW or front-door parameter gives the same results and exceptions as on a newly constructed one (for AIPW: built from clones of the constructor's models).", "quantifier": "every sequence of method calls before and after the reset, every data set and estimator for which clone(fit(m)) = clone(m)", "why_tests_cant": "relates two unbounded call sequences", "anchors": ["causal_effect_bandits/parameters.py:330-334", "causal_effect_bandits/parameters.py:590-598"]}
{"id": "C86", "title": "AIPW.set_to_truth keeps the fitted response intercept", "statement": "set_to_truth replaces the coefficients of the response model but not its intercept, so the scores of a fitted parameter are the AIPW scores of the true model with the old intercept b subtracted from every residual, not the true AIPW scores (unless b = 0). (AIPWLinearLogistic fits its response with fit_intercept=False, so b = 0 there; any other response estimator passed to AIPW shows the difference.)", "quantifier": "every population of units, dimension, truth, link function and intercept", "why_tests_cant": "universal over real parameters", "anchors": ["causal_effect_bandits/parameters.py:461-474"]}
{"id": "C87", "title": "what fitting the front-door parameter learns", "statement": "A fit of LinearFrontDoorBinary that returns normally on a sample with enough units per group trains the outcome model on (exposure, covariates) with the responses, sets the treatment probability to the share of treated units clipped to [min_overlap, 1-min_overlap], and the conditional probability of z given x to the sample's relative frequency moved into [m, 1-m] minus a common correction, m = 1/(support size * ratio); no frequency outside the band means no correction. After the first fit on a sample (one covariate column) whose frequencies respect both bands, with an outcome model reproducing the cell means, everything held equals the sample's distribution, so the mean score of that sample is the (biased) value of C45.", "quantifier": "every reachable parameter state, sample, coding, dimension, overlap bound, ratio >= 1 and outcome estimator", "why_tests_cant": "universal over samples and earlier states", "anchors": ["causal_effect_bandits/parameters.py:600-625", "causal_effect_bandits/data.py:320-372"]}
{"id": "C88", "title": "estimate_true_variance", "statement": "estimate_true_variance returns the population variance of the scores computed after set_to_truth. For an AIPW parameter that was never fitted it is NaN although the truth was set, and for a non-linear generator it raises ValueError after drawing the data; for the plug-in parameter it is 0 once fitted and NaN before; the two parameters inheriting the empty set_to_truth are evaluated at their current estimates whatever the truth, so an unfitted linear-regression parameter gets 0.", "quantifier": "every generator, parameter state, sample and truth", "why_tests_cant": "universal over states and samples", "anchors": ["causal_effect_bandits/test_utils.py:87-110", "causal_effect_bandits/parameters.py:461-474"]}
{"id": "C89", "title": "normal_cpd samples the linear Gaussian it documents", "statement": "In exact arithmetic unit j of normal_cpd is sum_i parents[i][j].betas[i] plus noise number j (component-wise for matrix coefficients), the noise being drawn once with one mean/scale per unit; extra coefficients are ignored. No parents or too few coefficients raise IndexError, a coefficient of the wrong length ValueError, and then nothing was drawn.", "quantifier": "every number of parents, dimensions, units, coefficients, mean, covariance and generator", "why_tests_cant": "universal over shapes and real values", "anchors": ["causal_effect_bandits/scm.py:164-186"]}
{"id": "C90", "title": "logistic_linear_bernoulli_cpd draws Bernoulli variables with the sigmoid of the linear predictor", "statement": "The probabilities passed to the Bernoulli draw are sigmoid(sum_i parents[i][j].gammas[i]), strictly between 0 and 1 in exact arithmetic and in [0, 1] in binary64 for every argument but NaN (also when exp overflows), so a generator accepting probabilities never raises and one 0/1 value per unit is returned. Without parents a single number with probability 1/2 is returned instead of n samples.", "quantifier": "every list of parents, dimensions, units, coefficients, generator; every binary64 value and non-negative exp", "why_tests_cant": "universal over shapes, reals and all floats", "anchors": ["causal_effect_bandits/scm.py:275-308"]}
{"id": "C91", "title": "add_gaussian_noise: shapes and errors", "statement": "One-dimensional x (shape (n,) or (n,1)) with a scalar, one-entry or per-unit mean and variance gives shape (n,), entry j being x_j plus noise j; x of shape (n,k), k <> 1, with a mean of length k and a k by k covariance gives (n,k). A scalar mean for multi-dimensional x raises TypeError, a mean of other length ValueError. Two shapes the docstring allows always raise ValueError: a mean of shape (x_dim,1), and a covariance of shape (1,1) for one-dimensional x. A refused call draws nothing.", "quantifier": "every x, mean, covariance and generator of the given shapes", "why_tests_cant": "universal over shapes and values", "anchors": ["causal_effect_bandits/scm.py:189-212"]}
{"id": "C92", "title": "structural_equation_with_noise and transformed_normal_cpd", "statement": "structural_equation_with_noise applies f to the parents of each unit side by side and adds noise: shape (n,) for a scalar mean, (n,d) for a mean of length d; a mean of shape (d,1), which the docstring allows, always raises ValueError. transformed_normal_cpd returns sum_i f_i(parents[i].betas[i])_j plus noise j.", "quantifier": "every list of parents, dimensions, units, functions, mean, covariance and generator", "why_tests_cant": "universal over functions and shapes", "anchors": ["causal_effect_bandits/scm.py:215-272"]}
{"id": "C93", "title": "get_section_5_1_cpds: which calls raise, which variables get a CPD", "statement": "An empty z_dim, or a z_dim or v_dim with at most M entries (M >= 1), raises IndexError; M = 0 raises NameError (strength and i are read after a loop that did not run). Every other call returns a dict with a CPD for X, Y, Z0, V_1..V_M, Z_1..Z_M and no other key, unless the search for the distributions of Z0 never ends.", "quantifier": "every z_dim, v_dim, M, seed, entropy, number type and generator; every number of rounds", "why_tests_cant": "universal over dimensions and generators; includes non-termination", "anchors": ["causal_effect_bandits/paper_utils.py:40-164"]}
{"id": "C94", "title": "The CPDs of Section 5.1 are the structural equations of a linear model", "statement": "For a seeded generator returning real numbers, the returned dict samples V_i ~ N(0, I), Z_i = V_i alpha_i + N(0, 0.1 I), X ~ Bernoulli(sigmoid(sum gamma_i V_i)), Z0 from one of two distributions on 10 points chosen by X unit by unit, Y = sum_{i=0..M} beta_i Z_i + N(0, 0.1), for coefficients of the declared dimensions and probabilities in (0, 1] that sum to 1; the additional coefficient beta_{M+1} is never used. The effect of X on Y of the model found need not be positive: refuted by a generator for which it is negative however long the search may run.", "quantifier": "every z_dim, v_dim, M, seed and real-valued generators; every input of the CPDs", "why_tests_cant": "functional equation over all samples and coefficients", "anchors": ["causal_effect_bandits/paper_utils.py:40-164", "causal_effect_bandits/scm.py:133-186", "causal_effect_bandits/scm.py:275-308"]}
{"id": "C95", "title": "The Section 5.1 example runs end to end, and its back-door arms read the wrong columns", "statement": "With generators that behave as documented and dimensions >= 1 on the back-door paths, generate(n) with n >= 1 succeeds from every state and returns n units with covariates Z0, V1, Z1, V2, Z2, ... of the declared widths, 0/1 treatments and real responses; get_section_5_1_example never raises. With equal dimensions on the paths every data set drawn from the returned SCM gives every back-door arm, on every path, the columns of a variable other than the one it is named after.", "quantifier": "every dimension list, M, seed, n, state, arm", "why_tests_cant": "universal over dimensions, generators and arms", "anchors": ["causal_effect_bandits/paper_utils.py:335-382", "causal_effect_bandits/paper_utils.py:435-618", "causal_effect_bandits/scm.py:76-103"]}
{"id": "C96", "title": "What the seed of the Section 5 examples determines", "statement": "Two successful calls of get_section_5_1_example with the same seed return the same SCM, the same bandits, and arms with the same names, estimators, covariate selections and costs; only the sub-Gaussian scale may differ, whatever the global generator, the entropy, the rounds of the search and the size of the Monte Carlo sample. In Section 5.2 the strengths drawn from the global generator have no influence on the result (only on the generator's state), while the seed does not determine the CPDs: refuted by one seed and two states of the global generator whose CPDs give different values of Z1 to the same parent.", "quantifier": "every dimension list, M, seed, number type and generator; every pair of states, entropies and numbers of rounds", "why_tests_cant": "relational property over all pairs of runs", "anchors": ["causal_effect_bandits/paper_utils.py:40-164", "causal_effect_bandits/paper_utils.py:167-332", "causal_effect_bandits/paper_utils.py:335-382", "causal_effect_bandits/nonlinear_utils.py:34-101"]}
{"id": "C97", "title": "Section 5.2: an additive model with one function per Z_i, and lists that must have exactly M+1 entries", "statement": "With generators and Gaussian process regressors that behave as documented and dimension lists of M+1 positive entries, get_section_5_2_cpds returns (or its search never ends) CPDs following V_i ~ N(0, I), Z_i = (h_i(V_i), ..., h_i(V_i)) + N(0, 0.1 I) with one and the same function for every component, X ~ Bernoulli(sigmoid(sum f_i(V_i))), Z0 from one of two distributions chosen by X, Y = sum g_i(Z_i) + N(0, 0.1); generate(n) with n >= 1 then succeeds from every state with n units of the declared widths, and get_section_5_2_example never raises. When z_dim or v_dim has more than M+1 entries (harmless in Section 5.1) the CPDs are returned all the same, but every generate(n), n >= 1, raises IndexError. Shorter lists raise IndexError and M = 0 NameError at once.", "quantifier": "every dimension list, M, seed, entropy, state, n; every real-valued generator and regressor class", "why_tests_cant": "functional equations over all samples and all fitted functions", "anchors": ["causal_effect_bandits/paper_utils.py:167-332", "causal_effect_bandits/paper_utils.py:385-432", "causal_effect_bandits/nonlinear_utils.py:34-101", "causal_effect_bandits/scm.py:76-103"]}
{"id": "C98", "title": "Plots of bandit results show exactly what was recorded", "statement": "plot_bandit_results on the results of any finished run of any of the three algorithms, for any of its arms, succeeds and adds four marks per arm in the given order (estimate with the arm's name, lower and upper bound in one colour for all arms, band between them), whose points are the cumulative samples and the readings recorded from the first drawn round on; initial_points_to_ignore = None draws all rounds, k >= 0 the rounds from k on, -k the last k; the legend grows by exactly the names of the arms. The x values strictly increase along every curve. An arm of another bandit raises KeyError after the arms before it have been drawn. An arm of hand-made data can be drawn exactly when its three sequences exist and are as long as cum_samples.", "quantifier": "every algorithm, arm behaviour, configuration, generator, finished run, list of arms, names, initial_points_to_ignore and previous content of the axes", "why_tests_cant": "relates the marks to the recorded history for all runs and all slices", "anchors": ["causal_effect_bandits/plotting_utils.py:28-64", "causal_effect_bandits/bandits.py:29-55"]}
{"id": "C99", "title": "plot_3d_function: the height over (x_j, y_i) is the function value there", "statement": "For a function with one finite value per row (as vector or column) plot_3d_function draws a 100 x 100 surface with x_j = x0 + (x1-x0) j/99 along the columns, y_i = y0 + (y1-y0) i/99 along the rows and height f(x_j, y_i). A function with any other number of values per row raises ValueError. Hence the random functions of nonlinear_utils with two inputs can be drawn when they have one output and raise ValueError when they have more.", "quantifier": "every real function, axis limits, and random function of the package with two inputs and k outputs", "why_tests_cant": "all functions and limits; the row and column order only matters for asymmetric functions", "anchors": ["causal_effect_bandits/plotting_utils.py:67-82", "causal_effect_bandits/nonlinear_utils.py:34-101"]}
{"id": "C100", "title": "Notebook: the list of best arms and the gap test say what they are used for", "statement": "The list comprehension that keeps the arms whose last variance estimate lies below the m-th entry of the sorted estimates raises IndexError when there are at most m arms; otherwise it returns, in the order of arm_list, exactly the arms that belong to the m lowest together with all the arms they tie with (an arm is kept when at most m estimates are at or below its own), so never more than m and fewer when there are ties at the cutoff. After every finished run with a round the last estimate exists for every arm, and without a round the expression raises IndexError. The gap test compares the two smallest estimates (IndexError for fewer than two); an accepted instance of finite estimates has one arm that all others exceed by more than 5 as real numbers.", "quantifier": "every list of estimates including NaN and infinities, every m, every algorithm and finished run, every list of arms of the run", "why_tests_cant": "all orders, ties and non-finite estimates; the real-number gap holds despite rounding of the difference", "anchors": ["notebooks/paper_experiments.ipynb:374-375", "notebooks/paper_experiments.ipynb:450-454", "notebooks/paper_experiments.ipynb:563-567", "causal_effect_bandits/bandits.py:29-55"]}
{"id": "C101", "title": "Notebook: the bar for uniform sampling is the cost of sampling every arm in every round of successive elimination", "statement": "After every finished run of successive elimination with K >= 1 arms the bar (largest number of samples of one arm) * K equals K * units * rounds; it is never below the samples used, at most K/2 times as large, and equal exactly when no arm was left out in any round. With no arm it raises ValueError, with no round the number used raises IndexError. Refuted: that it is what UniformAlgorithm uses; with the same arms, data and settings the uniform algorithm can use fewer samples (the bar may exceed the sample limit) or more.", "quantifier": "every arm behaviour, configuration, data source and finished run of successive elimination", "why_tests_cant": "relates history lengths, eliminated arms and sample counts over all runs; the refutation needs particular interval sequences", "anchors": ["notebooks/paper_experiments.ipynb:468-480", "notebooks/paper_experiments.ipynb:581-593", "notebooks/paper_experiments.ipynb:677-684", "causal_effect_bandits/bandits.py:416-530"]}
{"id": "C102", "title": "Notebook: the bar for uniform sampling is exact for arms with shrinking intervals", "statement": "Let the arms' intervals after their k-th update depend only on the k-th slice of the data and only shrink with k, let error_tolerance be 0. If successive elimination returns before its sample limit and the bar is within the limit, then UniformAlgorithm on the same data returns the same arm after the same number of rounds and uses exactly as many samples as the bar says.", "quantifier": "every arm type with nested intervals, at least two arms, every data set, configuration, fuel and random state", "why_tests_cant": "compares two different algorithms over all runs of arbitrary length", "anchors": ["notebooks/paper_experiments.ipynb:477-480", "notebooks/paper_experiments.ipynb:590-593", "causal_effect_bandits/bandits.py:197-267", "causal_effect_bandits/bandits.py:416-530"]}
{"id": "C103", "title": "Notebook, experiment with more back-door paths: the cell cannot finish", "statement": "The call in the cell passes num_back_door_paths=3 although z_dimensions and v_dimensions are built for back_door_size paths. For back_door_size >= 4 the instance cannot be constructed: if the loops of section_5_2_cpds end, section_5_2_example raises IndexError (SCM.generate for the scale). So the cell never reaches its figure. With num_back_door_paths=back_door_size every instance with at least one path can be constructed and has 2^b + 1 arms.", "quantifier": "every generator that fits the documented ranges, every instance number, entropy threshold, number of back-door paths and whatever the bandits do", "why_tests_cant": "random search loops inside; the statement is about every seed and every outcome of the runs before", "anchors": ["notebooks/paper_experiments.ipynb:639-685", "causal_effect_bandits/paper_utils.py:167-333", "causal_effect_bandits/paper_utils.py:385-560"]}
{"id": "C104", "title": "Notebook: bookkeeping of the experiment loop", "statement": "When the loop over instances is left, exactly n_instances instances were accepted, each recorded n_repetitions times and in increasing order, the lists of results have n_instances * n_repetitions entries and entry k of every list comes from repetition k mod n_repetitions of the instance at k. When it is left by an exception the lists of results still agree and only the history may have one entry more. If the verdict on an instance depends on its number only, the accepted ones are the first n_instances that pass; the loop ends if there are that many and does not end otherwise. With n_repetitions = 0 nothing is tried.", "quantifier": "every probe and repetition function with arbitrary state, every n_instances, n_repetitions and fuel", "why_tests_cant": "loop invariants with exceptions at any point", "anchors": ["notebooks/paper_experiments.ipynb:418-480", "notebooks/paper_experiments.ipynb:531-593"]}
{"id": "C105", "title": "Notebook, minimum working example: what the SCM generates", "statement": "The SCM of the minimum working example can be constructed and sampled with any number of units: covariates (Z, Z2), X and Y = noise + X/4 + Z2/4. The data transformers give one arm Z alone and the other Z2 alone. The effect of X on Y is 1/4; adjusting for Z gives it, the difference of the group means is 1/4 + 1/448. Refuted: the description in the text (E[Y|x,z] = 1/2 + x/4 - z/4 for no x, z; Z2 is correlated with both Z and Y).", "quantifier": "every number of units, every generator that draws as many numbers as asked for, every noise of mean 0 and variance 1", "why_tests_cant": "all sample sizes and random states; the effect is an expectation", "anchors": ["notebooks/paper_experiments.ipynb:155-216", "notebooks/paper_experiments.ipynb:243-270", "causal_effect_bandits/scm.py:33-130", "causal_effect_bandits/data.py:164-183"]}
{"id": "C106", "title": "probability of returning a wrong arm", "statement": "If each arm's recorded intervals are proper and all contain its true value, except with probability at most error_prob / K as the bandit computes it, then a run of any of the three algorithms returns before the sample limit anything else than exactly one best arm (better by error_tol than every other arm for Uniform and LUCB) with probability at most (1 + 2^-53) * error_prob. Any other level p per arm gives K * p. The bound K * p is reached. Refuted: that the levels never add up to more than error_prob (five arms, 1/4: rounding).", "quantifier": "every algorithm, number of arms below 2^53, arms, world, data and generator depending on the outcome in any way, every probability (monotone, union bound), all runs", "why_tests_cant": "a probability over all executions; the failure is rare by design", "anchors": ["causal_effect_bandits/bandits.py:BAIBanditAlgorithm._check_fixed_conf_end_condition", "causal_effect_bandits/bandits.py:UniformAlgorithm.run", "causal_effect_bandits/bandits.py:LUCBAlgorithm.run", "causal_effect_bandits/bandits.py:SuccessiveEliminationAlgorithm.run"]}
{"id": "C107", "title": "error budget of the rounds", "statement": "What is recorded for an arm in a round without samples for it is what was recorded in the round before, and every arm is sampled in the first round. So if in the n-th round in which an arm is sampled its interval is wrong with probability at most lev n, a run of at most T rounds returns a wrong arm before the limit with probability at most K * (lev 1 + ... + lev T). With the levels delta / n^2 of the CLT intervals this is at most 2 * (1 + 2^-53) * error_prob. Refuted for Uniform and SuccessiveElimination: that it is at most error_prob; with the CLT levels, and with the constant level of the CHI2 intervals, a bandit with two arms and at most three rounds is wrong with more than 4/3 of error_prob.", "quantifier": "every algorithm, number of arms and rounds, arms, world, data and generator depending on the outcome in any way, every probability; the refutation: a concrete bandit with seven outcomes", "why_tests_cant": "a probability over all executions and numbers of rounds", "anchors": ["causal_effect_bandits/arms.py:239-257", "causal_effect_bandits/bandits.py:UniformAlgorithm.run", "causal_effect_bandits/bandits.py:LUCBAlgorithm.run", "causal_effect_bandits/bandits.py:SuccessiveEliminationAlgorithm.run"]}
{"id": "C108", "title": "whole runs: updates, units and levels of each arm", "statement": "In every run that returns, each arm is updated exactly once in every round for which the bandit records samples for it (LUCB: once or twice). So num_pulled of an arm is the number n of its updates, which is the number of those rounds (LUCB: between it and its double); a sample splitting arm on fresh data holds units_per_round units for each update (with stable_splits=False: only those of the last); and every interval recorded for a CLT arm is the vacuous one or was computed with the level (error_prob / K) / n^2, n the number of updates so far; and the values recorded for an arm are its interval and variance times its own cost.", "quantifier": "every run of the three algorithms with any mixture of sample splitting and bootstrap arms, every nuisance parameter, transformer, generator and random state; the induction principle for any arms", "why_tests_cant": "all runs, arms and random states", "anchors": ["causal_effect_bandits/bandits.py:UniformAlgorithm.run", "causal_effect_bandits/bandits.py:LUCBAlgorithm.run", "causal_effect_bandits/bandits.py:SuccessiveEliminationAlgorithm.run", "causal_effect_bandits/arms.py:SampleSplittingArm.update", "causal_effect_bandits/arms.py:SampleSplittingArm.get_num_units"]}
{"id": "C109", "title": "arms with stable_splits=False re-read the second batch of pre-drawn data", "statement": "If all arms are sample splitting arms with stable_splits=False and the run gets pre-drawn data, the first update of an arm gets the rows 0 to u and every later update the rows u to 2u (u = units_per_round), because get_num_units counts only the rows of the last batch. The samples are charged as if they were new.", "quantifier": "every run of the three algorithms that returns, all data, transformers that keep the units, nuisance parameters and random states", "why_tests_cant": "all runs and data", "anchors": ["causal_effect_bandits/arms.py:205-217", "causal_effect_bandits/arms.py:SampleSplittingArm.get_num_units", "causal_effect_bandits/bandits.py:UniformAlgorithm.run", "causal_effect_bandits/bandits.py:LUCBAlgorithm.run", "causal_effect_bandits/bandits.py:SuccessiveEliminationAlgorithm.run"]}
{"id": "C110", "title": "parameters of the linear response over any history", "statement": "get_response_parameters of an AIPWLinearLogistic either returns coefficients with intercept 0, or raises AttributeError, and then has_enough_samples is false. Without a call of fit since construction or the last reset it raises AttributeError, even after set_to_truth. A fit that trains makes it return what the solver returned; set_to_truth after that makes it return (tau, beta). With the returned coefficients c every score is c_0 + w (y - c . (x, z)) with the weight w = 1/e or -1/(1-e), e the clipped logistic propensity, so that the effect of the model is the same number c_0 for all units. calculate_score never raises AttributeError. After reset each of the three classes behaves as a new object. With units of one group only, min_units <= 0 makes fit raise ValueError after training the response, min_units >= 1 trains nothing.", "quantifier": "every history of fit, calculate_score, calculate_cs_width, has_enough_samples, set_to_truth and reset, every dataset, every solver", "why_tests_cant": "all histories, data and solvers", "anchors": ["causal_effect_bandits/parameters.py:AIPWLinearLogistic.get_response_parameters", "causal_effect_bandits/parameters.py:AIPW.fit", "causal_effect_bandits/parameters.py:AIPW.set_to_truth", "causal_effect_bandits/parameters.py:AIPW.reset"]}
{"id": "C111", "title": "no training after set_to_truth", "statement": "set_to_truth assigns the int 0 to intercept_ of the LogisticRegression(warm_start=True). Until reset, every later fit with enough units in both groups trains the response and then raises TypeError; the propensity keeps the numbers of the last set_to_truth and has_enough_samples does not change. A sample splitting arm with such a parameter can finish an update only if its training half has too few units in a group. estimate_true_variance leaves the parameter of the arm in this state. Without set_to_truth since construction or reset, a fit with enough units succeeds whenever the solvers do, and the propensity is started from its last solution.", "quantifier": "every state before set_to_truth, every later history without reset, every dataset with binary exposures, every response model (AIPWLinearLogistic and AIPWKernelRidgeLogistic), every arm, transformer and random state", "why_tests_cant": "all histories, data and arms; the existing tests never fit after set_to_truth", "anchors": ["causal_effect_bandits/parameters.py:AIPW.set_to_truth", "causal_effect_bandits/parameters.py:AIPW.fit", "causal_effect_bandits/parameters.py:AIPWLinearLogistic.__init__", "causal_effect_bandits/parameters.py:AIPWKernelRidgeLogistic.__init__", "causal_effect_bandits/test_utils.py:estimate_true_variance", "causal_effect_bandits/arms.py:SampleSplittingArm.update"]}
{"id": "C112", "title": "set_to_truth without effect", "statement": "For AIPWKernelGradientBoosting no observation after set_to_truth (scores, widths, exceptions, has_enough_samples, over any later history) differs from what it would have been without it, and estimate_true_variance returns the variance of the scores of the fitted model instead of the true one. For AIPWKernelRidgeLogistic the predicted responses stay those of the fitted model.", "quantifier": "every state, generator, later history, dataset, and every training and prediction function", "why_tests_cant": "all histories and data, and equality of all observations", "anchors": ["causal_effect_bandits/parameters.py:AIPW.set_to_truth", "causal_effect_bandits/parameters.py:AIPWKernelGradientBoosting.__init__", "causal_effect_bandits/parameters.py:AIPWKernelRidgeLogistic.__init__", "causal_effect_bandits/test_utils.py:estimate_true_variance"]}
{"id": "C113", "title": "ridge regression as response model", "statement": "In exact arithmetic the trained response of AIPWLinearLogistic depends only on the multiset of units: not on their order nor on earlier training. If the responses are exactly linear in exposure and covariates with coefficients theta, then |theta_hat| is at most |theta|, the squared errors over all units sum to at most |theta|^2 - |theta_hat|^2, theta_hat is never theta unless theta = 0, and if the training rows vary by lambda in every direction, every score of noiseless units is within (1 + |(x, z)| / min_overlap) |theta| / sqrt(lambda) of the effect. The ridge problem has exactly one solution for every dataset.", "quantifier": "every finite set of units with real covariates, every permutation, every coefficient vector, every propensity model, every earlier state", "why_tests_cant": "all datasets and real parameters", "anchors": ["causal_effect_bandits/parameters.py:AIPWLinearLogistic.__init__", "causal_effect_bandits/parameters.py:AIPW.fit", "causal_effect_bandits/parameters.py:AIPW.calculate_score"]}
{"id": "C114", "title": "successive elimination: samples in terms of the gaps", "statement": "If every recorded interval contains the arm's true value and its estimate, and W_j(n) bounds the width after the n-th round with samples for arm j, then arm j gets at most N batches as soon as W_j(N) + W_k(N) + W_k'(N) <= v_j - v_b for all arms k, k' (three widths). The run then needs at most max N_j rounds and (sum of N_j + max N_j) batches, ends even without a sample limit, and returns the best arm. Two widths are not enough: only the upper bound of the arm with the smallest estimate counts, so an arm whose lower bound has reached the best arm's upper bound may stay.", "quantifier": "every bandit, every number of arms, every sequence of readings, every width function, all gaps, every fuel", "why_tests_cant": "all runs and all real widths and gaps", "anchors": ["causal_effect_bandits/bandits.py:SuccessiveEliminationAlgorithm.run"]}
{"id": "C115", "title": "uniform sampling: rounds in terms of the gaps", "statement": "Under the same conditions the uniform algorithm stops in round N at the latest if W_b(N) + W_j(N) + 2 error_tol < v_j - v_b for every other arm j (twice the tolerance absorbs the rounding of the end condition), with or without a sample limit.", "quantifier": "every bandit, every number of arms, every sequence of readings, every width function, every finite tolerance, every fuel", "why_tests_cant": "all runs, all floating-point bounds and tolerances", "anchors": ["causal_effect_bandits/bandits.py:UniformAlgorithm.run", "causal_effect_bandits/bandits.py:BAIBanditAlgorithm._check_fixed_conf_end_condition"]}
{"id": "C116", "title": "LUCB: rounds in terms of the gaps", "statement": "Under the same conditions, if no two arms share a bound or an estimate and 2 (W_x(n) + error_tol) is below the gap of arm x from n = N_x on, LUCB needs at most 2 + sum of (N_x - 1) rounds: whenever it goes on, one of the two arms drawn is not yet narrow. With ties this fails: arms are drawn by the value of their bound, and unlucky choices among equal values can starve an arm for ever.", "quantifier": "every bandit, every number of arms, every sequence of readings, every width function, every choice among ties, every fuel", "why_tests_cant": "all runs and a potential argument over them; for the counterexample infinitely many rounds", "anchors": ["causal_effect_bandits/bandits.py:LUCBAlgorithm.run", "causal_effect_bandits/bandits.py:LUCBAlgorithm.select_arms", "causal_effect_bandits/bandits.py:BAIBanditAlgorithm._check_fixed_conf_end_condition"]}
{"id": "C117", "title": "generated data follow the factorisation along the graph", "statement": "If every CPD draws its array from a law that depends on its parents' samples only (fresh randomness for every call), the joint law of the samples in a run of SCM.generate is the product over the variables of P(x_v | x_parents(v)). Replacing the CPD of one variable by a constant, as compute_treatment_effect does, removes the factor of this variable and changes nothing else.", "quantifier": "every SCM with parents before children, every law with finitely many outcomes, every number of units, every joint value", "why_tests_cant": "a statement about a law: samples only approximate it, and there are infinitely many SCMs", "anchors": ["causal_effect_bandits/scm.py:SCM.generate", "causal_effect_bandits/scm.py:SCM.compute_treatment_effect"]}
{"id": "C118", "title": "adjusting for V_i or Z_i on every path gives the effect of the treatment", "statement": "In the graph of the paper's experiments, for every set of covariates that contains V_i or Z_i for each path i (and nothing but such variables), the mean over the law of the covariates of E[Y | X = a, covariates] equals the mean of Y when X is set to a, provided treated units occur wherever the covariates do. In particular all 2^m sets the arms are named after estimate the same effect.", "quantifier": "every number of paths, every CPD law with finitely many outcomes, every number of units, every value a, every function of the response", "why_tests_cant": "identification is a statement about all laws on the graph; a simulation checks one law up to sampling error", "anchors": ["causal_effect_bandits/paper_utils.py:generate_example_from_cpd", "causal_effect_bandits/scm.py:SCM.generate"]}
{"id": "C119", "title": "the front-door formula through Z0 gives the same effect", "statement": "In the same graph the front-door formula (the mean over Z0 given X = a of the mean over the law of X of E[Y | X, Z0]) equals the mean of Y when X is set to a, provided every value of Z0 under X = a occurs with every value of X.", "quantifier": "every number of paths, every CPD law with finitely many outcomes, every number of units, every value a, every function of the response", "why_tests_cant": "identification is a statement about all laws on the graph", "anchors": ["causal_effect_bandits/paper_utils.py:generate_example_from_cpd", "causal_effect_bandits/scm.py:SCM.generate"]}
{"id": "C120", "title": "what the arms can learn from the columns they get", "statement": "The back-door arms do not get the variables they are named after (C72). An arm whose columns contain all columns of V_i or all columns of Z_i for every path still estimates the effect of the treatment. For every other arm there are CPDs for which the treatment has no effect on the response and adjusting for what the arm gets reports an effect of 1/2. With the notebook's dimensions, 3 for every Z_i and 2 for every V_i, every arm is of the second kind as soon as there are two paths. With equal dimensions and an even number m of paths the arms of the first kind are those that are named after V on exactly one of the paths 2t+1 and 2t+2 for every t; with an odd number they are the two whose names alternate between V and Z. For m >= 2 the arms Z_1...Z_m and V_1...V_m are of the second kind.", "quantifier": "every number of paths, all dimensions of at least 1, every arm, every CPD law with finitely many outcomes, every number of units", "why_tests_cant": "2^m arms for every m, and all laws on the graph; tests with one SCM see a biased estimate and cannot tell it from a different true effect", "anchors": ["causal_effect_bandits/paper_utils.py:generate_example_from_cpd", "causal_effect_bandits/scm.py:SCM.generate", "notebooks/paper_experiments.ipynb:415-416"]}
{"id": "C121", "title": "the mean score of an arm is the effect of the treatment", "statement": "For data drawn from the graph of Section 5, take an arm whose columns contain all of V_i or all of Z_i for every path. If its response function is E[Y | X, Z] or its propensity is P(X = 1 | Z) and lies in [1/4, 3/4], for the columns Z it gets, then the mean of the score AIPW gives a unit is the difference of the mean responses with the treatment set to 1 and to 0. The mean of the average score of a batch of any size is the same. For every other arm there are CPDs for which the treatment has no effect, the propensity 1/2 is right, and yet the mean score is 1/2 whenever one of the two functions is right.", "quantifier": "every number of paths, all dimensions of at least 1, every arm, every CPD law with finitely many outcomes, every number of units, every pair of nuisance functions of which one is right", "why_tests_cant": "unbiasedness is about the mean over all datasets, for all laws; a test sees finitely many datasets of one SCM and the error of an average", "anchors": ["causal_effect_bandits/parameters.py:AIPW.transform", "causal_effect_bandits/parameters.py:AIPW._phi", "causal_effect_bandits/parameters.py:AIPW.calculate_score", "causal_effect_bandits/paper_utils.py:generate_example_from_cpd", "causal_effect_bandits/scm.py:SCM.generate"]}
{"id": "C122", "title": "the average score converges to the effect of the treatment", "statement": "Under the hypotheses of C121, with units drawn independently, the mean squared error of the average score of n units is the mean squared error of one unit divided by n. So the probability that the average is eps or more away from the effect is at most that error over n eps^2, and it tends to 0 as n grows.", "quantifier": "every number n of units, every eps and delta above 0, and as in C121", "why_tests_cant": "a rate in n and a limit, for all laws", "anchors": ["causal_effect_bandits/parameters.py:AIPW.transform", "causal_effect_bandits/parameters.py:AIPW._phi", "causal_effect_bandits/parameters.py:AIPW.calculate_score", "causal_effect_bandits/paper_utils.py:generate_example_from_cpd", "causal_effect_bandits/scm.py:SCM.generate"]}
{"id": "C123", "title": "the estimate of the effect a sample-splitting arm reports is unbiased", "statement": "Take a SampleSplittingArm with AIPW whose columns contain all of V_i or all of Z_i for every path, and update it any number of times with generated batches of n units. Suppose fits do not raise and a parameter that calls itself fitted has the right response function or the right propensity. After the last update the arm reports a number exactly if the parameter is fitted, the parameter was trained on units of the first fold only, and the mean of the reported estimate (0 where there is none) is the effect of the treatment times the probability that there is one. So given that the arm reports, the mean of its estimate is the effect, although the parameter was learnt from the same batches. This holds with and without stable splits.", "quantifier": "every number of updates, every batch size of at least 2, every law of the permutation that ignores the data, every number of paths, all dimensions of at least 1, every CPD law with finitely many outcomes, every interval algorithm and option", "why_tests_cant": "unbiasedness is about the mean over all datasets, for all laws and all numbers of updates; it depends on no unit of the second fold reaching the fit in any update", "anchors": ["causal_effect_bandits/arms.py:SampleSplittingArm.update", "causal_effect_bandits/data.py:ExpData.k_fold", "causal_effect_bandits/data.py:ExpData.append", "causal_effect_bandits/parameters.py:AIPW.fit", "causal_effect_bandits/parameters.py:AIPW.calculate_score", "causal_effect_bandits/paper_utils.py:generate_example_from_cpd", "causal_effect_bandits/scm.py:SCM.generate"]}
{"id": "C124", "title": "the variance a sample-splitting arm reports is too small by the factor 1 - 1/n", "statement": "Under the hypotheses of C123 the mean of the reported variance estimate is 1 - 1/N times the mean of the variance of the score of one unit under the fitted parameter, where N is the number of units in the second fold: half the batch size rounded down, times the number of updates if the splits are stable. The code divides by N where the unbiased estimate divides by N - 1. With one unit in the second fold the reported variance has mean 0.", "quantifier": "as in C123", "why_tests_cant": "a bias is a statement about the mean over all datasets; a test sees finitely many and cannot tell a bias of 1/N from noise", "anchors": ["causal_effect_bandits/arms.py:SampleSplittingArm.update", "causal_effect_bandits/data.py:ExpData.k_fold", "causal_effect_bandits/data.py:ExpData.append", "causal_effect_bandits/parameters.py:AIPW.fit", "causal_effect_bandits/parameters.py:AIPW.calculate_score", "causal_effect_bandits/paper_utils.py:generate_example_from_cpd", "causal_effect_bandits/scm.py:SCM.generate"]}
{"id": "C125", "title": "the squared error of the reported estimate, and its consistency", "statement": "Under the hypotheses of C123 the mean squared error of the reported estimate of the effect (counting 0 where the arm reports none) is the mean of the variance of the score of one unit under the fitted parameter, divided by the number N of units in the second fold. For N >= 2 it equals the mean of the reported variance divided by N - 1, so the arm's own numbers estimate its squared error without bias. The probability that the arm reports an estimate off by eps or more is at most the mean squared error over eps squared. If the variances of the scores under all parameters that can be learnt have a common bound, this probability tends to 0 as the batches grow, for every fixed list of levels.", "quantifier": "as in C123; for the last part every eps and every delta above 0", "why_tests_cant": "a mean squared error is a mean over all datasets, and consistency is a statement about all large batch sizes", "anchors": ["causal_effect_bandits/arms.py:SampleSplittingArm.update", "causal_effect_bandits/data.py:ExpData.k_fold", "causal_effect_bandits/data.py:ExpData.append", "causal_effect_bandits/parameters.py:AIPW.fit", "causal_effect_bandits/parameters.py:AIPW.calculate_score", "causal_effect_bandits/paper_utils.py:generate_example_from_cpd", "causal_effect_bandits/scm.py:SCM.generate"]}
{"id": "C126", "title": "an arm that misses the confounder reports a wrong effect however much data it gets", "statement": "Drop from C123 and C125 the condition that the arm's columns contain all of V_i or Z_i for every path. Then the mean of the reported estimate, given that there is one, is what adjusting for the arm's columns gives: the difference between treated and untreated units with equal columns, averaged over the columns. The estimate converges to this number in probability. It need not be the effect. With one path, a one-dimensional Z_1 and a two-dimensional V_1 the arm named Z_1 gets the first column of V_1 (C72). In a model where the second column of V_1 drives Z_1, X and Y the treatment has no effect. Yet the arm's estimate, with the right propensity for its column, always has mean 1/2, and the probability that it is within 1/4 of the effect tends to 0 as the batches grow.", "quantifier": "first part as in C123; in the counterexample every number of updates, every batch size of at least 2", "why_tests_cant": "a limit over all batch sizes; on any one dataset a wrong estimate cannot be told from noise, and the code raises nothing", "anchors": ["causal_effect_bandits/arms.py:SampleSplittingArm.update", "causal_effect_bandits/data.py:ExpData.k_fold", "causal_effect_bandits/data.py:ExpData.append", "causal_effect_bandits/parameters.py:AIPW.fit", "causal_effect_bandits/parameters.py:AIPW.calculate_score", "causal_effect_bandits/paper_utils.py:generate_example_from_cpd", "causal_effect_bandits/scm.py:SCM.generate"]}
{"id": "C127", "title": "the front-door arm's scores on generated data do not have the effect as their mean", "statement": "Take the model with a finite number of paths that generate_example_from_cpd builds, with a binary treatment, and one unit drawn from it with Z0 as the mediators. Give the front-door arm a fitted parameter in which everything estimated is the truth: E[Y | X, Z0], P(X = 1), P(Z0 | X) and the values of Z0, none of them clipped. Then the mean score of the unit is twice the effect of setting the treatment minus the shift of f_3 if Z0 has one column. It is the effect minus the shift if Z0 has two or more columns. The shift is the difference of the means of f_3 among treated and untreated units. The first fit on a sample gives such a parameter for the sample's own distribution. In a model where the effect is 1/2 the mean score is 7/8 with one column and 3/8 with two equal columns.", "quantifier": "every number of paths and dimensions, every family of CPDs with independent draws and a finite law, every coding of the units that is consistent for the treatment, every right parameter (for two or more columns: that the code can reach); existence for the last sentence", "why_tests_cant": "a mean over all datasets a model can draw, for all models; the scores of one dataset scatter around a wrong number and nothing is raised", "anchors": ["causal_effect_bandits/parameters.py:FrontDoorLinearFiniteZ.calculate_score", "causal_effect_bandits/parameters.py:FrontDoorLinearFiniteZ.fit", "causal_effect_bandits/paper_utils.py:generate_example_from_cpd", "causal_effect_bandits/scm.py:SCM.generate"]}
{"id": "C128", "title": "more data does not mend the front-door arm's average score", "statement": "Under the hypotheses of C127, and with every CPD drawing the units independently, score a batch of n units with the front-door arm's fixed right parameter. The average score has the mean of C127 for every n: twice the effect minus the shift of f_3 for one mediator column, the effect minus the shift for two or more. Its mean squared error as an estimate of the effect is the variance of one unit's score divided by n plus the square of the bias, so it does not tend to 0 unless the bias is 0. The average converges in probability to the number of C127. If that number is not the effect, the probability that the average is nearer to the effect than half the bias tends to 0. In the models of C127 the effect is 1/2 and the probability that the average is within 1/16 of it tends to 0, with one column and with two.", "quantifier": "as in C127, and every batch size of at least 1, every eps and delta above 0", "why_tests_cant": "limits over all batch sizes and means over all datasets", "anchors": ["causal_effect_bandits/parameters.py:FrontDoorLinearFiniteZ.calculate_score", "causal_effect_bandits/parameters.py:FrontDoorLinearFiniteZ.fit", "causal_effect_bandits/paper_utils.py:generate_example_from_cpd", "causal_effect_bandits/scm.py:SCM.generate"]}
{"id": "C129", "title": "ExpData as a sequence: integer keys, len, iteration and reversed", "statement": "For covariates with two or more axes and aligned arrays, d[i] with an integer key in range (negative keys count from the end) holds the rows i of the three arrays, but len(d[i]) is the number of columns of d, not 1. With a one-dimensional covariate array every integer key raises IndexError, and so does every integer key on d[i] of a matrix. Iterating over d ends without an exception. It yields d[0], d[1], ... up to the smallest number of rows of the arrays present, and the lengths of these objects sum to that number times the number of columns. If the arrays have equally many rows, the entries of these objects one after the other are those of the three arrays. With a one-dimensional covariate array it yields nothing although len(d) may be positive. Without covariates it raises TypeError. reversed(d) yields the same objects in the other order if the arrays have equally many rows, and nothing if treatments or responses are fewer than the units.", "quantifier": "every dataset, every shape with at least one axis, every integer key", "why_tests_cant": "all shapes and keys; the wrong lengths and the silent empty loop raise nothing", "anchors": ["causal_effect_bandits/data.py:ExpData.__getitem__", "causal_effect_bandits/data.py:ExpData.__len__", "causal_effect_bandits/data.py:ExpData.__init__"]}
