# Formal model of deepmind/abcei_mab in Rocq (Coq 8.16.1)

## 1. What is modelled, and how

The code is Python/numpy. It is modelled as a shallow embedding: small total
Gallina functions that mirror the source function by function and branch by
branch. Python exceptions are values (`exn`); a method that mutates an object
returns the new object *also when it raises*, so partial updates are visible.
`while True` loops are a `step` function iterated with fuel; theorems talk
about every fuel and out-of-fuel is a separate outcome.

Layers (files under `rocq/theories/`):

| file group | models | numbers |
|---|---|---|
| `PyBase` | exceptions, Python `min`/`max`/list helpers | - |
| `Num` | IEEE binary64 (`F`, Flocq `BinarySingleNaN`, round to nearest even) and `X`, exact reals extended with +-inf and NaN with IEEE special cases; `numops`, the record of operations both implement | - |
| `Data*` | `data.py` ExpData, transformers, LinearDataGenerator | any element type |
| `Tabular*` | `data.py` TabularCPD | exact reals / binary64 |
| `Scm*` | `scm.py` SCM, categorical_conditioning | any sample type |
| `Arms*` | `arms.py` | `numops` (binary64 and exact) |
| `Params*` | `parameters.py` | `numops` |
| `Bandits*` | `bandits.py` all three algorithms | binary64, bit exact |
| `Paper*` | `paper_utils.py` selection masks, index lists, Dirichlet draws, `generate_example_from_cpd` and the two example functions | nat / `numops` |
| `Util*` | `nonlinear_utils.py`, `test_utils.py`, `softmax` | exact reals, GP regressors as oracle |
| `Example*` | `example_scm.py` | exact reals |
| `Cpd*`, `Sec*` | the conditional distributions of `scm.py` and the two `get_section_5_*_cpds` of `paper_utils.py` (definitions in `CpdModel`) | exact reals |
| `Plot*` | `plotting_utils.py`: the marks added to the axes | binary64 / exact reals |
| `End*` | `bandits.py` with the arms of `arms.py`, of different kinds in one bandit | binary64 |
| `Lin*` | the subclasses of `AIPW` in `parameters.py`: which attributes of the scikit-learn estimators are read and written | any; reals |
| `Pac*` | no code of its own: `BanditModel` and `ArmModel` with random outcomes | binary64 / exact reals |
| `Law*` | no code of its own: `ScmModel` and `PaperModel` with random draws | exact reals |
| `Score*` | no code of its own: the scores `ParamModel` gives data from `PaperModel` with random draws | exact reals |
| `Split*` | no code of its own: `ArmModel` with the parameter of `ParamModel` on data from `PaperModel` with random draws | exact reals |
| `Front*` | no code of its own: `FrontDoorLinearFiniteZ` of `ParamModel` on data from `PaperModel` with random draws | exact reals |
| `Seq*` | `data.py` ExpData with integer keys, `len`, iteration | any element type |
| `Gap*` | no code of its own: `BanditModel` with intervals of known width | binary64 |
| `Nb*` | `notebooks/paper_experiments.ipynb`: the code of the cells between the calls of the package | binary64 / exact reals |

In each group `*Model.v` holds the definitions (each citing file:lines),
`*Spec.v` the small independent vocabulary used in statements,
`*Proofs.v` lemmas, `*Props.v` only the property theorems (closed by `exact`),
each followed by `Print Assumptions`, and `Example Cnn_case`s showing a concrete case that
meets the hypotheses.

Randomness (`np.random.*`) is an oracle: an arbitrary state threaded through
the calls, or an arbitrary permutation/mask; theorems quantify over it.
Third-party numerics (sklearn fits, scipy quantiles, `np.log`, `np.linalg`,
`np.mean` rounding order) are arbitrary functions given as arguments; what a
theorem needs of them is an explicit hypothesis in its statement.

Properties the *code violates* are stated as what the code really does:
the exact characterisation is proved for all inputs, and the violated
expectation is refuted by a concrete witness (`..._refuted`).

## 2. Plan per property

C01-C04 `k_fold`/`subsample` over an arbitrary permutation/mask; induction on rows.
C05-C07 `append` with exception-carrying state; case analysis on every failure point.
C08 slices = `firstn/skipn`; induction on windows.
C09-C11 transformers on arrays with an explicit trailing shape.
C12 linear generator with a stateful noise oracle.
C13-C18 TabularCPD as association lists; invariants of the counting loop, algebra over R; binary64/rational witnesses.
C19-C24 SCM as association lists of CPD oracles; induction on `var_names`.
C25-C37 arms as state machines over an abstract nuisance parameter; induction on update histories; order facts of binary64 from Flocq.
C38-C48 parameters over predictor oracles; algebra over exact reals, expectations over finite populations.
C49-C70 bandits over abstract arms (arbitrary state type, arbitrary update/readout, may raise); loop invariants; termination by sample counting; order facts of binary64.
C71-C78 recursion on the number of back-door paths; stream-driven loops; real algebra.
C79, C80, C83 runs of arms on pre-drawn data, width of the CHI2 and front-door intervals; invariants of update histories.
C81, C82 `generate_example_from_cpd` and the example functions over any dictionary of CPDs.
C84-C88 parameters and `test_utils.py` over estimator oracles: which state survives reset and refitting; algebra over exact reals.
C89-C92 conditional distributions of `scm.py` as functions on arrays with at most two axes; broadcasting, exceptions, shapes.
C93-C97 the search loops of Section 5.1 and 5.2: loop invariants over any random generator, structural equations of the generated data, effects.
C98-C99 plots as lists of marks; induction on the arms, grid algebra.
C100-C105 notebook: sorting of binary64 with NaN, simulation between successive elimination and uniform sampling, loop invariants, expectations.
C106-C107 probability of a wrong answer: union bound over arms and rounds for an arbitrary probability; invariant that unsampled arms keep their reading; finite counterexamples.
C108-C109 bandits over mixed arms: induction over the updates of each arm within a run.
C110-C113 subclasses of `AIPW` with the attributes of their scikit-learn estimators: invariants over histories of fit, set_to_truth and reset; C113 from the strict convexity of the ridge loss.
C114-C116 rounds and samples in terms of the gaps: loop invariants that relate the widths of the recorded intervals to the candidates (successive elimination), to the end condition (uniform) and to a potential of missing samples (LUCB); counterexamples for two widths and for ties.
C117-C120 law of the generated data when every CPD call has fresh randomness with finitely many outcomes: factorisation along the graph by induction over the variables; back-door and front-door adjustment in the graph of Section 5 by induction over the paths; which arms read columns that block every path.
C121-C122 mean and mean squared error of the AIPW scores on generated data: double robustness over a finite law, joined to the back-door theorem of C120; batches as independent copies of one unit; Chebyshev's inequality.
C123-C126 the estimates of SampleSplittingArm after any number of updates on generated batches: the units of a batch are
independent copies of one unit, so the second fold may be redrawn after the fit on the first; the average and the
population variance of the scores of the second fold, and the squared error of the average; the same for
arms that leave a path open, with a model in which the limit is not the effect.
C127 the mean score of the front-door arm on generated data: the outcomes of the tapes as a finite population (C45 for any
number of columns), joined to the front-door theorem of C119; a model with an effect of 1/2 and mean scores of 7/8 and 3/8.
C128 the average front-door score of a batch of independent units: bias, squared error and limit, as for C122.
C129 ExpData as a sequence, for arrays of any shape: what integer keys return, and where Python's iteration over `__getitem__` stops.

No property is planned as not_applicable. Probabilistic coverage of the
confidence intervals themselves (that the interval contains the truth with
probability 1-delta) is outside the model: it is a theorem of statistics about
the i.i.d. sampling distribution, not of this code. The bandit theorems take the
event "all recorded intervals are valid" as a hypothesis; C106 and C107 take bounds for the
probability that it fails, per arm and per round.

## 3. Trusted base

**Checker.** The Coq 8.16.1 kernel (`coqc`; the `.vo` files are also accepted by `coqchk`), including
`vm_compute`; `native_compute` is not used. No kernel check is switched off, there is no plugin, no
`Admitted`, no axiom of this development, no functor or module type. The statements rest on the
model being right: that is not checked by machine, every definition of a `*Model.v` file cites the
lines it mirrors so that it can be compared.

**Axioms.** All come from Coq's standard library. What `Print Assumptions` lists:

* closed under the global context (135 theorems): C25_data_partitioned, C26_separation,
  C26_log_faithful, C26_each_update, C26_folds_grow, C27_unstable_forgets, C29_too_few_samples,
  C34_reset_as_new, C35_base_arm, C37_units_always_zero, C80_interval, C80_single_unit,
  C89_errors, C91_errors, C92_errors, C01_k_fold_partition, C02_k_fold_sizes, C03_k_fold_errors,
  C05_append_concatenates, C05_append_associative, C05_append_batches, C06_append_failure,
  C06_append_half_done, C07_empty_not_neutral, C07_empty_twice, C08_slice_window,
  C08_windows_cover, C08_slice_last, C09_mask_fn, C09_remove_fn, C09_identity_fn,
  C10_mask_k_fold_commute, C10_remove_k_fold_commute, C10_mask_slice_commute, C11_mask_fn_vector,
  C11_remove_fn_vector, C12_linear_generate, C12_linear_init, C120_notebook_refuted,
  C120_equal_dims, C120_even, C120_odd, C120_pure_refuted, C110_parameters, C110_no_fit, C110_fit,
  C111_refit_raises, C111_never_trained, C111_arm, C111_true_variance,
  C112_boosting_ignores_truth, C112_variance, C112_kernel_keeps_response,
  C110_no_missing_attribute, C110_reset, C110_one_group, C111_trains_otherwise, C111_warm_start,
  C104_returned, C104_raised, C104_verdict, C104_no_repetitions, C71_one_to_one, C71_distinct,
  C72_front_door_right, C73_accepted, C73_missing_cpd, C74_result, C74_terminates,
  C38_fits_iff_groups_large, C38_history, C38_growing_data, C38_stays_fitted, C41_unfitted_is_nan,
  C41_truth_is_nan, C47_reset_changes_nothing, C47_reset_arm_differs, C47_refit_forgets,
  C48_never_estimates, C48_fits_the_two_groups, C48_missing_group_raises, C83_support_ignored,
  C83_no_data, C85_aipw, C85_front_door, C19_constructor, C20_topological,
  C20_success_implies_topological, C20_cyclic_graph_never_accepted, C20_no_covariates, C21_calls,
  C21_result, C22_nondescendants_unaffected, C22_shared_stream_refuted, C23_never_returns,
  C23_attribute_error, C23_later_calls, C23_later_attribute_error, C24_index_too_large,
  C24_index_too_small, C24_caller_list, C24_samples, C24_unknown_category, C93_errors,
  C93_complete, C96_strength_unused, C97_errors, C129_item, C129_no_item,
  C129_item_of_item_refuted, C129_listed, C129_rebuilt, C129_reversed, C129_reversed_refuted,
  C129_empty, C13_exact_frequencies, C15_floor, C16_predict, C16_pure, C16_unseen_is_zero,
  C16_printing, C17_support_accumulates, C17_missing_x_raises, C17_same_support_order, C76_empty,
  C75_same_components, C75_generator, C75_no_rows, C75_grid, C78_schedule, C78_returns,
  C78_no_progress, C78_count, C88_aipw_other_generator, C88_inherited.
* `ClassicalDedekindReals.sig_forall_dec`: C105_transformers.
* `ClassicalDedekindReals.sig_forall_dec`,
  `FunctionalExtensionality.functional_extensionality_dep`: C53_confidence_stop_sound, C105_law,
  C105_text_refuted, C113_exists, C117_factorises, C117_intervention, C118_back_door,
  C118_named_sets, C119_front_door.
* `ClassicalDedekindReals.sig_forall_dec`, `ClassicalDedekindReals.sig_not_dec`,
  `FunctionalExtensionality.functional_extensionality_dep`: C77_var_y_right_iff.
* all the others (196 theorems) use the axioms of the classical real numbers,
  `ClassicalDedekindReals.sig_forall_dec`, `ClassicalDedekindReals.sig_not_dec`,
  `Classical_Prop.classic` and `FunctionalExtensionality.functional_extensionality_dep`. Flocq's
  binary64 is specified through real numbers, hence they also occur in theorems about floats.

**Specifications.** The `*Spec.v` files (a few hundred lines) and the statements in `*Props.v` have
to be read to know what was proved.

**Oracles.** Random draws, sklearn estimators, scipy quantiles, `np.log`, `np.exp` in binary64,
eigenvalues, `np.mean`/`np.var` in binary64 and everything an abstract arm does are arguments.
What a theorem assumes of them is among its hypotheses; the records with their assumptions are
`regular`, `real_rng`, `real_gp`, `sane_global` (`CpdSpec`, `SecSpec`), `fair` (`ExampleSpec`),
`scripted` (`NbSpec`) and the ones in `ParamSpec`. Each `Cnn_case` shows an instance that meets them.

### Modelled
`data.py`, `scm.py`, `arms.py`, `parameters.py`, `bandits.py`, `paper_utils.py`, `example_scm.py`,
`nonlinear_utils.py`, `test_utils.py`, `plotting_utils.py`: all functions and methods except the ones below.
`notebooks/paper_experiments.ipynb`: the experiment loops, the list of top arms, the gap test, the bar
for uniform sampling, the cell with more back-door paths, the minimum working example.

### Not modelled
* `ExpData.__str__` and the text built by `TabularCPD.__str__` (only the cells it lists are).
* inside scikit-learn: the numerical solvers, the kernels and the trees are oracles. `LinModel` has the
  attributes `coef_`, `intercept_`, `classes_` of `Ridge` and `LogisticRegression` and which methods read
  and write them, as documented by scikit-learn: `Ridge(fit_intercept=False)` sets `intercept_` to 0.0, a warm
  start reads `intercept_[:, np.newaxis]`, `clone` drops all of them. `parameters.py` relies on these.
* printing, warnings, labels, colours of the axes, legends other than their entries, and figures of
  the notebook. The cell at line 599 of the notebook reads a name that is not defined there
  (`u_bandit_samples`); it raises NameError whatever the data and is not modelled further.
* the unit tests (`*_test.py`) and packaging.

### Simplifications
* Numbers. binary64 is Flocq's `BinarySingleNaN` (one NaN, round to nearest even). The exact model
  `xreal` has the reals, +inf, -inf and one NaN, and only one zero, so that 1/0 = +inf. Sums and dot
  products are taken left to right, numpy may use another order. `x**2` never raises OverflowError.
  Where a theorem is about `xreal` it says nothing about rounding.
* Sequences (C129): arrays have a numeric dtype, so that an entry of a 1-d array is a numpy scalar with shape ();
  Python's iteration over `__getitem__` and `reversed` (both stop at IndexError) are modelled, `==` and `in` are not.
* Elsewhere arrays have an explicit trailing shape; 0-d arrays and, except where stated, arrays with more than
  two axes are not represented (`OracleError`, which no Python code raises). dtypes are ignored: no
  promotion, no error on casting. Ragged input raises ValueError as in numpy >= 1.24.
* Datasets are values. In Python `recent_data` of a parameter is the same object as the first fold of its
  arm, so rows appended to the fold show in it before the next `fit`; this can be seen only if an update
  raises between the two and the width is then asked for. The generated `ExpData.__eq__` is not modelled.
* `__getitem__` of ExpData: slices without step. None where an array is needed gives `OracleError`
  in `ParamModel`.
* Dictionaries are association lists in insertion order. The keys of TabularCPD are byte strings
  modelled as the tuples they encode. An SCM does not share its dictionaries with the caller.
* CPDs do not mutate the arrays of their parents and only change the random generator.
* Dimensions, numbers of paths, units per round and sizes are integers >= 0. Python integers are
  unbounded, so are ours; conversions to float are correctly rounded.
* `error_prob is None` cannot happen in the algorithms (the constructor sets it), the tests are omitted.
* Loops that need not end are functions of fuel. Theorems hold for every fuel; statements of
  termination say how much is enough.
* Laws (C117-C120). Every CPD call draws at most one fresh value, independent of the earlier ones, from a law
  with finitely many outcomes; the value may encode the noise of all units. Continuous laws are not covered.
* Scores (C121-C122). The laws are those above, over the exact reals, and every CPD draws the units independently
  (`unitwise`). The nuisance functions are fixed functions that do not depend on the data that is scored, as after a fit
  on another fold; one of them is assumed to be right. What the fit learns is not covered. A treatment that is not 0 or 1
  is excluded by `one_unit`, arrays of the wrong shape by `regular`, and propensities outside [1/4, 3/4] are clipped,
  so `right_propensity` asks for one inside.
* Sample splitting (C123-C126). As for the scores; every batch has the same number of units and a fresh tape, the folds
  are drawn by a permutation that does not look at the data, and the confidence levels are fixed in advance. `learns`
  says that fits on units that can be drawn do not raise and that a parameter that calls itself fitted has a right response
  function or a right propensity. So the statements are about the split and the averages, not about what a fit learns,
  and not about an algorithm that chooses when to pull by looking at the intervals.
* Front-door scores (C127-C128). As for the scores; the unit is scored with a fixed parameter in which everything is right
  (`right_front`), and P(Z0 | X) lies in [1/4, 3/4], where the code does not clip.
* matplotlib: the axes are a list of marks (curve, band, surface) and a list of legend entries;
  sequences of unequal length raise ValueError, broadcasting of length 1 is omitted.

### Tests of the theorems
`seeded/LOG.jsonl` lists the wrong programs the theorems were tried on: the definition of the model,
the edit, the claim it breaks, which theorems then fail, and which theorems were tightened because
one had survived. In the scratch copy a proof that fails, or that does not end within a time limit, is left
open and the build goes on. A theorem counts as failed if its own proof is left open or it rests on a
lemma whose proof is. So the list of failed theorems can be too long: the script of a lemma may fail
although the theorem is still true. For a theorem outside `claim_broken`, being in the list says
nothing about its truth. That a claim is broken was judged by reading, not by a proof of its negation.
Where a note says so, only some files were rebuilt, or the attempt tested nothing.
