{
 "claims": [
  {
   "property": "C01",
   "status": "proved",
   "theorems": [
    "C01_k_fold_partition"
   ],
   "note": "(DataProps.v)"
  },
  {
   "property": "C02",
   "status": "proved",
   "theorems": [
    "C02_k_fold_sizes"
   ],
   "note": "(DataProps.v)"
  },
  {
   "property": "C03",
   "status": "proved",
   "theorems": [
    "C03_k_fold_errors"
   ],
   "note": "(DataProps.v)"
  },
  {
   "property": "C04",
   "status": "proved",
   "theorems": [
    "C04_subsample",
    "C04_subsample_nan",
    "C04_subsample_extremes"
   ],
   "note": "(DataProps.v)"
  },
  {
   "property": "C05",
   "status": "proved",
   "theorems": [
    "C05_append_concatenates",
    "C05_append_associative",
    "C05_append_batches"
   ],
   "note": "(DataProps.v)"
  },
  {
   "property": "C06",
   "status": "proved",
   "theorems": [
    "C06_append_failure",
    "C06_append_half_done"
   ],
   "note": "(DataProps.v)"
  },
  {
   "property": "C07",
   "status": "proved",
   "theorems": [
    "C07_empty_not_neutral",
    "C07_empty_twice"
   ],
   "note": "(DataProps.v)"
  },
  {
   "property": "C08",
   "status": "proved",
   "theorems": [
    "C08_slice_window",
    "C08_windows_cover",
    "C08_slice_last"
   ],
   "note": "(DataProps.v)"
  },
  {
   "property": "C09",
   "status": "proved",
   "theorems": [
    "C09_mask_fn",
    "C09_remove_fn",
    "C09_identity_fn"
   ],
   "note": "(DataProps.v)"
  },
  {
   "property": "C10",
   "status": "proved",
   "theorems": [
    "C10_mask_k_fold_commute",
    "C10_remove_k_fold_commute",
    "C10_mask_slice_commute"
   ],
   "note": "(DataProps.v)"
  },
  {
   "property": "C11",
   "status": "proved",
   "theorems": [
    "C11_mask_fn_vector",
    "C11_remove_fn_vector"
   ],
   "note": "(DataProps.v)"
  },
  {
   "property": "C12",
   "status": "proved",
   "theorems": [
    "C12_linear_generate",
    "C12_linear_init"
   ],
   "note": "(DataProps.v)"
  },
  {
   "property": "C13",
   "status": "proved",
   "theorems": [
    "C13_exact_frequencies",
    "C13_binary64"
   ],
   "note": "(TabProps.v)"
  },
  {
   "property": "C14",
   "status": "proved",
   "theorems": [
    "C14_row_sums"
   ],
   "note": "(TabProps.v)"
  },
  {
   "property": "C15",
   "status": "proved",
   "theorems": [
    "C15_floor",
    "C15_common_amount",
    "C15_negative_probability",
    "C15_negative_exact"
   ],
   "note": "(TabProps.v)"
  },
  {
   "property": "C16",
   "status": "proved",
   "theorems": [
    "C16_predict",
    "C16_pure",
    "C16_unseen_is_zero",
    "C16_printing"
   ],
   "note": "(TabProps.v)"
  },
  {
   "property": "C17",
   "status": "proved",
   "theorems": [
    "C17_support_accumulates",
    "C17_missing_x_raises",
    "C17_old_z_keeps_probability",
    "C17_same_support",
    "C17_same_support_order"
   ],
   "note": "(TabProps.v)"
  },
  {
   "property": "C18",
   "status": "proved",
   "theorems": [
    "C18_order_irrelevant",
    "C18_binary64_order_matters"
   ],
   "note": "(TabProps.v)"
  },
  {
   "property": "C19",
   "status": "proved",
   "theorems": [
    "C19_constructor"
   ],
   "note": "(ScmProps.v)"
  },
  {
   "property": "C20",
   "status": "proved",
   "theorems": [
    "C20_topological",
    "C20_success_implies_topological",
    "C20_cyclic_graph_never_accepted",
    "C20_no_covariates"
   ],
   "note": "(ScmProps.v)"
  },
  {
   "property": "C21",
   "status": "proved",
   "theorems": [
    "C21_calls",
    "C21_result"
   ],
   "note": "(ScmProps.v)"
  },
  {
   "property": "C22",
   "status": "proved",
   "theorems": [
    "C22_nondescendants_unaffected",
    "C22_shared_stream_refuted"
   ],
   "note": "(ScmProps.v)"
  },
  {
   "property": "C23",
   "status": "proved",
   "theorems": [
    "C23_never_returns",
    "C23_attribute_error",
    "C23_later_calls",
    "C23_later_attribute_error"
   ],
   "note": "(ScmProps.v)"
  },
  {
   "property": "C24",
   "status": "proved",
   "theorems": [
    "C24_index_too_large",
    "C24_index_too_small",
    "C24_caller_list",
    "C24_samples",
    "C24_unknown_category"
   ],
   "note": "(ScmProps.v)"
  },
  {
   "property": "C25",
   "status": "proved",
   "theorems": [
    "C25_data_partitioned"
   ],
   "note": "(ArmProps.v)"
  },
  {
   "property": "C26",
   "status": "proved",
   "theorems": [
    "C26_separation",
    "C26_log_faithful",
    "C26_each_update",
    "C26_folds_grow"
   ],
   "note": "(ArmProps.v)"
  },
  {
   "property": "C27",
   "status": "proved",
   "theorems": [
    "C27_unstable_forgets"
   ],
   "note": "(ArmProps.v)"
  },
  {
   "property": "C28",
   "status": "proved",
   "theorems": [
    "C28_invalid_delta_changes_nothing",
    "C28_valid_delta_counts",
    "C28_float_delta"
   ],
   "note": "(ArmProps.v, ArmProps2.v)"
  },
  {
   "property": "C29",
   "status": "proved",
   "theorems": [
    "C29_too_few_samples"
   ],
   "note": "(ArmProps.v)"
  },
  {
   "property": "C30",
   "status": "proved",
   "theorems": [
    "C30_finite_sample_interval"
   ],
   "note": "(ArmProps2.v)"
  },
  {
   "property": "C31",
   "status": "proved",
   "theorems": [
    "C31_half_width",
    "C31_monotone",
    "C31_small_scale_gives_nan"
   ],
   "note": "(ArmProps2.v)"
  },
  {
   "property": "C32",
   "status": "proved",
   "theorems": [
    "C32_default_never_computes",
    "C32_default_raises"
   ],
   "note": "(ArmProps2.v)"
  },
  {
   "property": "C33",
   "status": "proved",
   "theorems": [
    "C33_clt_interval",
    "C33_budget_exceeds_delta"
   ],
   "note": "(ArmProps2.v)"
  },
  {
   "property": "C34",
   "status": "proved",
   "theorems": [
    "C34_reset_as_new"
   ],
   "note": "(ArmProps.v)"
  },
  {
   "property": "C35",
   "status": "proved",
   "theorems": [
    "C35_base_arm"
   ],
   "note": "(ArmProps.v)"
  },
  {
   "property": "C36",
   "status": "proved",
   "theorems": [
    "C36_bootstrap_interval",
    "C36_positions_in_range"
   ],
   "note": "(ArmProps2.v)"
  },
  {
   "property": "C37",
   "status": "proved",
   "theorems": [
    "C37_last_fit_is_a_resample",
    "C37_units_always_zero"
   ],
   "note": "(ArmProps.v)"
  },
  {
   "property": "C38",
   "status": "proved",
   "theorems": [
    "C38_fits_iff_groups_large",
    "C38_history",
    "C38_growing_data",
    "C38_stays_fitted",
    "C38_binary64"
   ],
   "note": "(ParamProps.v)"
  },
  {
   "property": "C39",
   "status": "proved",
   "theorems": [
    "C39_score"
   ],
   "note": "(ParamProps.v)"
  },
  {
   "property": "C40",
   "status": "proved",
   "theorems": [
    "C40_double_robustness"
   ],
   "note": "(ParamProps.v)"
  },
  {
   "property": "C41",
   "status": "proved",
   "theorems": [
    "C41_unfitted_is_nan",
    "C41_binary64",
    "C41_truth_is_nan"
   ],
   "note": "(ParamProps.v)"
  },
  {
   "property": "C42",
   "status": "proved",
   "theorems": [
    "C42_width",
    "C42_nonincreasing"
   ],
   "note": "(ParamProps.v)"
  },
  {
   "property": "C43",
   "status": "proved",
   "theorems": [
    "C43_score"
   ],
   "note": "(ParamProps.v)"
  },
  {
   "property": "C44",
   "status": "proved",
   "theorems": [
    "C44_one_column",
    "C44_two_or_more_columns"
   ],
   "note": "(ParamProps.v)"
  },
  {
   "property": "C45",
   "status": "proved",
   "theorems": [
    "C45_mean_of_scores",
    "C45_refuted"
   ],
   "note": "(ParamProps.v)"
  },
  {
   "property": "C46",
   "status": "proved",
   "theorems": [
    "C46_mean_score",
    "C46_exposure_coefficient"
   ],
   "note": "(ParamProps.v)"
  },
  {
   "property": "C47",
   "status": "proved",
   "theorems": [
    "C47_reset_changes_nothing",
    "C47_reset_arm_differs",
    "C47_refit_forgets"
   ],
   "note": "(ParamProps.v)"
  },
  {
   "property": "C48",
   "status": "proved",
   "theorems": [
    "C48_never_estimates",
    "C48_fits_the_two_groups",
    "C48_missing_group_raises"
   ],
   "note": "(ParamProps.v)"
  },
  {
   "property": "C49",
   "status": "proved",
   "theorems": [
    "C49_bandit_init",
    "C49_bandit_init_errors",
    "C49_defaults"
   ],
   "note": "(BanditProps.v)"
  },
  {
   "property": "C50",
   "status": "proved",
   "theorems": [
    "C50_uniform_accounting"
   ],
   "note": "(BanditProps.v)"
  },
  {
   "property": "C51",
   "status": "proved",
   "theorems": [
    "C51_uniform_termination",
    "C51_uniform_overshoot"
   ],
   "note": "(BanditProps.v)"
  },
  {
   "property": "C52",
   "status": "proved",
   "theorems": [
    "C52_no_limit_no_return"
   ],
   "note": "(BanditProps.v)"
  },
  {
   "property": "C53",
   "status": "proved",
   "theorems": [
    "C53_confidence_stop",
    "C53_confidence_stop_sound"
   ],
   "note": "(BanditProps.v)"
  },
  {
   "property": "C54",
   "status": "proved",
   "theorems": [
    "C54_limit_stop",
    "C54_smallest_nonempty"
   ],
   "note": "(BanditProps.v)"
  },
  {
   "property": "C55",
   "status": "proved",
   "theorems": [
    "C55_histories"
   ],
   "note": "(BanditProps.v)"
  },
  {
   "property": "C56",
   "status": "proved",
   "theorems": [
    "C56_only_candidates_sampled"
   ],
   "note": "(BanditProps.v)"
  },
  {
   "property": "C57",
   "status": "proved",
   "theorems": [
    "C57_se_accounting"
   ],
   "note": "(BanditProps.v)"
  },
  {
   "property": "C58",
   "status": "proved",
   "theorems": [
    "C58_se_termination",
    "C58_se_overshoot"
   ],
   "note": "(BanditProps.v)"
  },
  {
   "property": "C59",
   "status": "proved",
   "theorems": [
    "C59_best_arm_survives"
   ],
   "note": "(BanditProps.v)"
  },
  {
   "property": "C60",
   "status": "proved",
   "theorems": [
    "C60_never_empty",
    "C60_degenerate_refuted"
   ],
   "note": "(BanditProps.v)"
  },
  {
   "property": "C61",
   "status": "proved",
   "theorems": [
    "C61_limit_resurrects"
   ],
   "note": "(BanditProps.v)"
  },
  {
   "property": "C62",
   "status": "proved",
   "theorems": [
    "C62_se_ignores_error_tol",
    "C62_confidence_never_used"
   ],
   "note": "(BanditProps.v)"
  },
  {
   "property": "C63",
   "status": "proved",
   "theorems": [
    "C63_select_arms"
   ],
   "note": "(BanditProps.v)"
  },
  {
   "property": "C64",
   "status": "proved",
   "theorems": [
    "C64_recorded_rounds",
    "C64_distinct_arms_accounts_agree",
    "C64_same_arm_twice"
   ],
   "note": "(BanditProps.v)"
  },
  {
   "property": "C65",
   "status": "proved",
   "theorems": [
    "C65_lucb_termination",
    "C65_lucb_accounting",
    "C65_total_is_last"
   ],
   "note": "(BanditProps.v)"
  },
  {
   "property": "C66",
   "status": "proved",
   "theorems": [
    "C66_arms_read_sequentially",
    "C66_inputs_agree_across_algorithms",
    "C66_expdata"
   ],
   "note": "(BanditProps.v)"
  },
  {
   "property": "C67",
   "status": "proved",
   "theorems": [
    "C67_enough_rows",
    "C67_limit_rows_not_enough"
   ],
   "note": "(BanditProps.v)"
  },
  {
   "property": "C68",
   "status": "proved",
   "theorems": [
    "C68_sequences_differ",
    "C68_identical_without_randomness"
   ],
   "note": "(ArmProps3.v)"
  },
  {
   "property": "C69",
   "status": "proved",
   "theorems": [
    "C69_reset_then_run"
   ],
   "note": "(BanditProps.v)"
  },
  {
   "property": "C70",
   "status": "proved",
   "theorems": [
    "C70_uniform_one_arm",
    "C70_uniform_one_arm_raises",
    "C70_lucb_one_arm",
    "C70_se_one_arm"
   ],
   "note": "(BanditProps.v)"
  },
  {
   "property": "C71",
   "status": "proved",
   "theorems": [
    "C71_arms",
    "C71_one_to_one",
    "C71_distinct",
    "C71_costs",
    "C71_no_paths"
   ],
   "note": "(PaperProps.v)"
  },
  {
   "property": "C72",
   "status": "proved",
   "theorems": [
    "C72_front_door_right",
    "C72_back_door_wrong",
    "C72_first_column"
   ],
   "note": "(PaperProps.v)"
  },
  {
   "property": "C73",
   "status": "proved",
   "theorems": [
    "C73_accepted",
    "C73_missing_cpd"
   ],
   "note": "(PaperProps.v)"
  },
  {
   "property": "C74",
   "status": "proved",
   "theorems": [
    "C74_result",
    "C74_terminates",
    "C74_bound",
    "C74_effect",
    "C74_not_max_refuted"
   ],
   "note": "(PaperProps.v)"
  },
  {
   "property": "C75",
   "status": "proved",
   "theorems": [
    "C75_same_components",
    "C75_generator",
    "C75_no_rows",
    "C75_grid",
    "C75_grid_range"
   ],
   "note": "(UtilProps.v)"
  },
  {
   "property": "C76",
   "status": "proved",
   "theorems": [
    "C76_softmax",
    "C76_shift",
    "C76_infinite",
    "C76_empty",
    "C76_binary64"
   ],
   "note": "(UtilProps.v)"
  },
  {
   "property": "C77",
   "status": "proved",
   "theorems": [
    "C77_back_door",
    "C77_front_door",
    "C77_var_y_right_iff"
   ],
   "note": "(ExampleProps.v)"
  },
  {
   "property": "C78",
   "status": "proved",
   "theorems": [
    "C78_schedule",
    "C78_returns",
    "C78_no_progress",
    "C78_count"
   ],
   "note": "(UtilProps.v)"
  },
  {
   "property": "C79",
   "status": "proved",
   "theorems": [
    "C79_bootstrap_rereads_first_batch"
   ],
   "note": "(ArmProps3.v)"
  },
  {
   "property": "C81",
   "status": "proved",
   "theorems": [
    "C81_succeeds_iff",
    "C81_configuration"
   ],
   "note": "(PaperProps.v)"
  },
  {
   "property": "C82",
   "status": "proved",
   "theorems": [
    "C82_zero_dimension",
    "C82_placeholder"
   ],
   "note": "(PaperProps.v)"
  },
  {
   "property": "C80",
   "status": "proved",
   "theorems": [
    "C80_interval",
    "C80_single_unit",
    "C80_ordered"
   ],
   "note": "(ArmProps4.v)"
  },
  {
   "property": "C83",
   "status": "proved",
   "theorems": [
    "C83_width",
    "C83_nonincreasing",
    "C83_support_ignored",
    "C83_no_data"
   ],
   "note": "(ParamProps2.v)"
  },
  {
   "property": "C84",
   "status": "proved",
   "theorems": [
    "C84_plug_in",
    "C84_truth"
   ],
   "note": "(ParamProps2.v)"
  },
  {
   "property": "C85",
   "status": "proved",
   "theorems": [
    "C85_aipw",
    "C85_front_door"
   ],
   "note": "(ParamProps2.v)"
  },
  {
   "property": "C86",
   "status": "proved",
   "theorems": [
    "C86_truth_keeps_intercept"
   ],
   "note": "(ParamProps2.v)"
  },
  {
   "property": "C87",
   "status": "proved",
   "theorems": [
    "C87_learns",
    "C87_sample_truth"
   ],
   "note": "(ParamProps3.v)"
  },
  {
   "property": "C88",
   "status": "proved",
   "theorems": [
    "C88_value",
    "C88_aipw_unfitted",
    "C88_aipw_other_generator",
    "C88_plug_in",
    "C88_inherited",
    "C88_linear_unfitted"
   ],
   "note": "(UtilProps2.v)"
  },
  {
   "property": "C89",
   "status": "proved",
   "theorems": [
    "C89_univariate",
    "C89_multivariate",
    "C89_noise_kind",
    "C89_errors"
   ],
   "note": "(CpdProps.v)"
  },
  {
   "property": "C90",
   "status": "proved",
   "theorems": [
    "C90_linear",
    "C90_succeeds",
    "C90_no_parents",
    "C90_binary64"
   ],
   "note": "(CpdProps.v)"
  },
  {
   "property": "C91",
   "status": "proved",
   "theorems": [
    "C91_one_dimensional",
    "C91_multi_dimensional",
    "C91_errors"
   ],
   "note": "(CpdProps.v)"
  },
  {
   "property": "C92",
   "status": "proved",
   "theorems": [
    "C92_structural_scalar",
    "C92_structural_vector",
    "C92_errors",
    "C92_transformed"
   ],
   "note": "(CpdProps.v)"
  },
  {
   "property": "C93",
   "status": "proved",
   "theorems": [
    "C93_errors",
    "C93_complete"
   ],
   "note": "(SecProps.v)"
  },
  {
   "property": "C94",
   "status": "proved",
   "theorems": [
    "C94_structural",
    "C94_positive_effect_refuted"
   ],
   "note": "(SecProps.v)"
  },
  {
   "property": "C95",
   "status": "proved",
   "theorems": [
    "C95_generate",
    "C95_example",
    "C95_back_door_wrong"
   ],
   "note": "(SecProps.v)"
  },
  {
   "property": "C96",
   "status": "proved",
   "theorems": [
    "C96_section_5_1",
    "C96_strength_unused",
    "C96_section_5_2_refuted"
   ],
   "note": "(SecProps2.v)"
  },
  {
   "property": "C97",
   "status": "proved",
   "theorems": [
    "C97_errors",
    "C97_structural",
    "C97_generate",
    "C97_example",
    "C97_long_lists"
   ],
   "note": "(SecProps3.v)"
  },
  {
   "property": "C98",
   "status": "proved",
   "theorems": [
    "C98_plots",
    "C98_foreign_arm",
    "C98_axis_increases",
    "C98_any_data"
   ],
   "note": "(PlotProps.v)"
  },
  {
   "property": "C99",
   "status": "proved",
   "theorems": [
    "C99_surface",
    "C99_wrong_width",
    "C99_random_function"
   ],
   "note": "(PlotProps.v)"
  },
  {
   "property": "C100",
   "status": "proved",
   "theorems": [
    "C100_top_arms",
    "C100_after_run",
    "C100_gap",
    "C100_accepted"
   ],
   "note": "(NbProps.v)"
  },
  {
   "property": "C101",
   "status": "proved",
   "theorems": [
    "C101_bar",
    "C101_uniform_refuted"
   ],
   "note": "(NbProps.v)"
  },
  {
   "property": "C102",
   "status": "proved",
   "theorems": [
    "C102_bar_exact"
   ],
   "note": "(NbProps.v)"
  },
  {
   "property": "C103",
   "status": "proved",
   "theorems": [
    "C103_more_paths_refuted",
    "C103_cell_refuted",
    "C103_own_paths"
   ],
   "note": "(NbProps2.v)"
  },
  {
   "property": "C104",
   "status": "proved",
   "theorems": [
    "C104_returned",
    "C104_raised",
    "C104_verdict",
    "C104_no_repetitions"
   ],
   "note": "(NbProps2.v)"
  },
  {
   "property": "C105",
   "status": "proved",
   "theorems": [
    "C105_generate",
    "C105_transformers",
    "C105_law",
    "C105_text_refuted"
   ],
   "note": "(NbProps2.v)"
  },
  {
   "property": "C106",
   "status": "proved",
   "theorems": [
    "C106_union",
    "C106_pac",
    "C106_rounding_refuted"
   ],
   "note": "(PacProps.v)"
  },
  {
   "property": "C107",
   "status": "proved",
   "theorems": [
    "C107_stale",
    "C107_rounds",
    "C107_clt",
    "C107_over_refuted"
   ],
   "note": "(PacProps.v)"
  },
  {
   "property": "C108",
   "status": "proved",
   "theorems": [
    "C108_updates",
    "C108_pulled",
    "C108_units",
    "C108_clt_level",
    "C108_cost"
   ],
   "note": "(EndProps.v)"
  },
  {
   "property": "C109",
   "status": "proved",
   "theorems": [
    "C109_reread"
   ],
   "note": "(EndProps.v)"
  },
  {
   "property": "C110",
   "status": "proved",
   "theorems": [
    "C110_parameters",
    "C110_no_fit",
    "C110_fit",
    "C110_scores",
    "C110_no_missing_attribute",
    "C110_reset",
    "C110_one_group"
   ],
   "note": "(LinProps.v, LinProps2.v)"
  },
  {
   "property": "C111",
   "status": "proved",
   "theorems": [
    "C111_refit_raises",
    "C111_never_trained",
    "C111_arm",
    "C111_true_variance",
    "C111_trains_otherwise",
    "C111_warm_start"
   ],
   "note": "(LinProps.v, LinProps2.v)"
  },
  {
   "property": "C112",
   "status": "proved",
   "theorems": [
    "C112_boosting_ignores_truth",
    "C112_variance",
    "C112_kernel_keeps_response"
   ],
   "note": "(LinProps.v)"
  },
  {
   "property": "C113",
   "status": "proved",
   "theorems": [
    "C113_order",
    "C113_noiseless",
    "C113_scores",
    "C113_exists"
   ],
   "note": "(LinProps.v, LinProps2.v)"
  },
  {
   "property": "C114",
   "status": "proved",
   "theorems": [
    "C114_arm",
    "C114_rounds",
    "C114_terminates",
    "C114_answer",
    "C114_two_widths_refuted"
   ],
   "note": "(GapProps.v)"
  },
  {
   "property": "C115",
   "status": "proved",
   "theorems": [
    "C115_rounds",
    "C115_terminates"
   ],
   "note": "(GapProps.v)"
  },
  {
   "property": "C116",
   "status": "proved",
   "theorems": [
    "C116_rounds",
    "C116_terminates",
    "C116_ties_refuted"
   ],
   "note": "(GapProps.v)"
  },
  {
   "property": "C117",
   "status": "proved",
   "theorems": [
    "C117_factorises",
    "C117_intervention"
   ],
   "note": "(LawProps.v)"
  },
  {
   "property": "C118",
   "status": "proved",
   "theorems": [
    "C118_back_door",
    "C118_named_sets"
   ],
   "note": "(LawProps.v)"
  },
  {
   "property": "C119",
   "status": "proved",
   "theorems": [
    "C119_front_door"
   ],
   "note": "(LawProps.v)"
  },
  {
   "property": "C120",
   "status": "proved",
   "theorems": [
    "C120_arm_identifies",
    "C120_open_refuted",
    "C120_notebook_refuted",
    "C120_equal_dims",
    "C120_even",
    "C120_odd",
    "C120_pure_refuted"
   ],
   "note": "(LawProps2.v)"
  },
  {
   "property": "C121",
   "status": "proved",
   "theorems": [
    "C121_unbiased",
    "C121_batch",
    "C121_open_refuted"
   ],
   "note": "(ScoreProps.v)"
  },
  {
   "property": "C122",
   "status": "proved",
   "theorems": [
    "C122_error"
   ],
   "note": "(ScoreProps.v)"
  },
  {
   "property": "C123",
   "status": "proved",
   "theorems": [
    "C123_unbiased"
   ],
   "note": "(SplitProps.v)"
  },
  {
   "property": "C124",
   "status": "proved",
   "theorems": [
    "C124_variance"
   ],
   "note": "(SplitProps.v)"
  },
  {
   "property": "C125",
   "status": "proved",
   "theorems": [
    "C125_error"
   ],
   "note": "(SplitProps.v)"
  },
  {
   "property": "C126",
   "status": "proved",
   "theorems": [
    "C126_adjusted",
    "C126_open_refuted"
   ],
   "note": "(SplitProps2.v)"
  },
  {
   "property": "C127",
   "status": "proved",
   "theorems": [
    "C127_one_column",
    "C127_more_columns",
    "C127_fit",
    "C127_effect_refuted"
   ],
   "note": "(FrontProps.v)"
  },
  {
   "property": "C128",
   "status": "proved",
   "theorems": [
    "C128_average",
    "C128_effect_refuted"
   ],
   "note": "(FrontProps2.v)"
  },
  {
   "property": "C129",
   "status": "proved",
   "theorems": [
    "C129_item",
    "C129_no_item",
    "C129_item_of_item_refuted",
    "C129_listed",
    "C129_rebuilt",
    "C129_reversed",
    "C129_reversed_refuted",
    "C129_empty"
   ],
   "note": "(SeqProps.v)"
  }
 ]
}