{
 "claims": [
  {
   "property": "C01",
   "status": "proved",
   "theorems": [
    "C01_unroll_is_iteration"
   ],
   "note": ""
  },
  {
   "property": "C02",
   "status": "proved",
   "theorems": [
    "C02_unroll_causal",
    "C02_unroll_prefix"
   ],
   "note": ""
  },
  {
   "property": "C03",
   "status": "proved",
   "theorems": [
    "C03_unroll_resume",
    "C03_unroll_resume_with_rng_refuted"
   ],
   "note": ""
  },
  {
   "property": "C04",
   "status": "proved",
   "theorems": [
    "C04_static_eq_dynamic",
    "C04_static_fails_without_step"
   ],
   "note": ""
  },
  {
   "property": "C05",
   "status": "proved",
   "theorems": [
    "C05_skip_first"
   ],
   "note": ""
  },
  {
   "property": "C06",
   "status": "proved",
   "theorems": [
    "C06_override_both",
    "C06_override_each"
   ],
   "note": ""
  },
  {
   "property": "C07",
   "status": "proved",
   "theorems": [
    "C07_fori_loop",
    "C07_fori_loop_same_key",
    "C07_fori_loop_with_rng_refuted"
   ],
   "note": ""
  },
  {
   "property": "C08",
   "status": "proved",
   "theorems": [
    "C08_gym_static_unroll_skip",
    "C08_gym_static_unroll_noskip_drops_first",
    "C08_one_output_per_observation_refuted"
   ],
   "note": ""
  },
  {
   "property": "C09",
   "status": "proved",
   "theorems": [
    "C09_vmap_lanes",
    "C09_vmap_total",
    "C09_vmap_noninterference",
    "C09_vmap_init",
    "C09_add_batch",
    "C09_unroll_lift",
    "C09_unroll_lift_keys"
   ],
   "note": ""
  },
  {
   "property": "C10",
   "status": "proved",
   "theorems": [
    "C10_buffer_sliding_window",
    "C10_buffer_plain",
    "C10_buffer_recorded_part"
   ],
   "note": ""
  },
  {
   "property": "C11",
   "status": "proved",
   "theorems": [
    "C11_lag",
    "C11_lag_return_state_returns_buffer"
   ],
   "note": ""
  },
  {
   "property": "C12",
   "status": "proved",
   "theorems": [
    "C12_diff",
    "C12_diff_periods"
   ],
   "note": ""
  },
  {
   "property": "C13",
   "status": "proved",
   "theorems": [
    "C13_pct_change",
    "C13_pct_change_callable"
   ],
   "note": ""
  },
  {
   "property": "C14",
   "status": "proved",
   "theorems": [
    "C14_rolling_mean",
    "C14_rolling_mean_finite"
   ],
   "note": ""
  },
  {
   "property": "C15",
   "status": "proved",
   "theorems": [
    "C15_has_changed",
    "C15_float_inequality",
    "C15_first_step"
   ],
   "note": ""
  },
  {
   "property": "C16",
   "status": "proved",
   "theorems": [
    "C16_ffill",
    "C16_ffill_identity",
    "C16_ffill_idempotent"
   ],
   "note": ""
  },
  {
   "property": "C17",
   "status": "proved",
   "theorems": [
    "C17_fill_nan_inf",
    "C17_fill_nan_inf_finite",
    "C17_fill_nan_inf_idempotent"
   ],
   "note": ""
  },
  {
   "property": "C18",
   "status": "proved",
   "theorems": [
    "C18_counter"
   ],
   "note": ""
  },
  {
   "property": "C19",
   "status": "proved",
   "theorems": [
    "C19_ewma_adjust_true",
    "C19_com_or_alpha"
   ],
   "note": ""
  },
  {
   "property": "C20",
   "status": "proved",
   "theorems": [
    "C20_ewma_adjust_false",
    "C20_recursion_on_complete_data",
    "C20_closed_form"
   ],
   "note": ""
  },
  {
   "property": "C21",
   "status": "proved",
   "theorems": [
    "C21_ewma_within_range",
    "C21_missing_input_keeps_output"
   ],
   "note": ""
  },
  {
   "property": "C22",
   "status": "proved",
   "theorems": [
    "C22_ewma_linear",
    "C22_plain_mean"
   ],
   "note": ""
  },
  {
   "property": "C23",
   "status": "proved",
   "theorems": [
    "C23_ewmvar_is_weighted_variance",
    "C23_ewmvar_nonnegative",
    "C23_ewmvar_constant_series",
    "C23_ewmvar_affine"
   ],
   "note": ""
  },
  {
   "property": "C24",
   "status": "proved",
   "theorems": [
    "C24_ewmcov_entries",
    "C24_assume_centered",
    "C24_ewmcov_transpose",
    "C24_ewmcov_diagonal",
    "C24_ewmcov_positive_semidefinite"
   ],
   "note": ""
  },
  {
   "property": "C25",
   "status": "proved",
   "theorems": [
    "C25_numba_agrees_with_jax"
   ],
   "note": ""
  },
  {
   "property": "C26",
   "status": "proved",
   "theorems": [
    "C26_numba_resume"
   ],
   "note": ""
  },
  {
   "property": "C27",
   "status": "proved",
   "theorems": [
    "C27_apply_mask",
    "C27_apply_mask_axis0",
    "C27_apply_mask_axis1",
    "C27_apply_mask_raises",
    "C27_apply_mask_tree"
   ],
   "note": ""
  },
  {
   "property": "C28",
   "status": "proved",
   "theorems": [
    "C28_mask_mean",
    "C28_mask_mean_axis0",
    "C28_mask_mean_axis1",
    "C28_mask_std",
    "C28_mask_std_axis0",
    "C28_mask_std_axis1_centered",
    "C28_mask_std_axis1_raises",
    "C28_mask_std_axis1_refuted",
    "C28_masked_values_irrelevant",
    "C28_mask_normalize",
    "C28_mask_normalize_finite"
   ],
   "note": ""
  },
  {
   "property": "C29",
   "status": "proved",
   "theorems": [
    "C29_ohlc",
    "C29_bar_order",
    "C29_ohlc_reset"
   ],
   "note": ""
  },
  {
   "property": "C30",
   "status": "proved",
   "theorems": [
    "C30_update_on_event",
    "C30_only_events_matter"
   ],
   "note": ""
  },
  {
   "property": "C31",
   "status": "proved",
   "theorems": [
    "C31_arma",
    "C31_arma_unique",
    "C31_arma_linear",
    "C31_arma_finite"
   ],
   "note": ""
  },
  {
   "property": "C32",
   "status": "proved",
   "theorems": [
    "C32_snarimax",
    "C32_accepted_orders",
    "C32_forecast_is_causal_refuted"
   ],
   "note": ""
  },
  {
   "property": "C33",
   "status": "proved",
   "theorems": [
    "C33_gym_feedback"
   ],
   "note": ""
  },
  {
   "property": "C34",
   "status": "proved",
   "theorems": [
    "C34_partition_merge",
    "C34_update_params",
    "C34_online_optimizer",
    "C34_non_trainable_unchanged",
    "C34_only_finite_gradients",
    "C34_func_optimizer_init",
    "C34_func_optimizer_step"
   ],
   "note": ""
  },
  {
   "property": "C35",
   "status": "proved",
   "theorems": [
    "C35_sherman_morrison",
    "C35_sherman_morrison_nonsymmetric_refuted",
    "C35_newton_tracks_inverse",
    "C35_newton_denominator",
    "C35_newton_step",
    "C35_newton_strict_descent",
    "C35_newton_learning_rate",
    "C35_newton_leaves",
    "C35_newton_tree"
   ],
   "note": ""
  },
  {
   "property": "C36",
   "status": "proved",
   "theorems": [
    "C36_roundtrip",
    "C36_total",
    "C36_overflow",
    "C36_surjective",
    "C36_injective",
    "C36_timestamp_roundtrip",
    "C36_datetime_roundtrip"
   ],
   "note": ""
  },
  {
   "property": "C37",
   "status": "proved",
   "theorems": [
    "C37_less_same_sign",
    "C37_less_unsigned",
    "C37_less_mixed_sign_refuted"
   ],
   "note": ""
  },
  {
   "property": "C38",
   "status": "proved",
   "theorems": [
    "C38_floor",
    "C38_floor_unique",
    "C38_floor_idempotent",
    "C38_floor_monotone",
    "C38_floor_overflow_refuted",
    "C38_floor_commutes_with_encoding",
    "C38_only_days"
   ],
   "note": ""
  },
  {
   "property": "C39",
   "status": "proved",
   "theorems": [
    "C39_datetime64_encoder",
    "C39_labels_roundtrip",
    "C39_labels_order",
    "C39_string_encoder_roundtrip",
    "C39_string_encoder_shape_refuted",
    "C39_dataset_roundtrip"
   ],
   "note": ""
  },
  {
   "property": "C40",
   "status": "proved",
   "theorems": [
    "C40_causality",
    "C40_only_past_observations",
    "C40_daily_embedding"
   ],
   "note": ""
  },
  {
   "property": "C41",
   "status": "proved",
   "theorems": [
    "C41_ffill_latest_past_observation",
    "C41_daily_embedding_monotone"
   ],
   "note": ""
  },
  {
   "property": "C42",
   "status": "proved",
   "theorems": [
    "C42_new_observations_only",
    "C42_first_step"
   ],
   "note": ""
  },
  {
   "property": "C43",
   "status": "proved",
   "theorems": [
    "C43_window_ffill",
    "C43_window_no_ffill",
    "C43_window_no_ffill_first",
    "C43_dataset_generator_chronological",
    "C43_dataset_first_observation_duplicated"
   ],
   "note": ""
  },
  {
   "property": "C44",
   "status": "proved",
   "theorems": [
    "C44_traced_indices",
    "C44_traced_local_indices",
    "C44_nonnegative_default_refuted",
    "C44_constant_scalars",
    "C44_constant_vectors_refuted"
   ],
   "note": ""
  },
  {
   "property": "C45",
   "status": "proved",
   "theorems": [
    "C45_one_item_per_local_time",
    "C45_one_output_per_stream",
    "C45_merge_defined",
    "C45_dataset_items",
    "C45_unroll_stream",
    "C45_unroll_stream_runs",
    "C45_unroll_stream_skip_first_one_leaf",
    "C45_unroll_stream_skip_first_refuted",
    "C45_local_time"
   ],
   "note": ""
  },
  {
   "property": "C46",
   "status": "proved",
   "theorems": [
    "C46_every_call_in_order",
    "C46_deterministic",
    "C46_environment_terminates",
    "C46_stop_terminates",
    "C46_stop_answers",
    "C46_stop_exact",
    "C46_record",
    "C46_get_outputs"
   ],
   "note": ""
  },
  {
   "property": "C47",
   "status": "proved",
   "theorems": [
    "C47_scopes_restore",
    "C47_with_removes",
    "C47_with_installs",
    "C47_unroll_restores",
    "C47_nested_unrolls",
    "C47_explicit_callbacks_refuted",
    "C47_reinstall_refuted"
   ],
   "note": ""
  },
  {
   "property": "C48",
   "status": "proved",
   "theorems": [
    "C48_labelled_exactly",
    "C48_formats",
    "C48_plain",
    "C48_leaf_by_leaf"
   ],
   "note": ""
  },
  {
   "property": "C49",
   "status": "proved",
   "theorems": [
    "C49_window",
    "C49_haiku",
    "C49_wrap_refuted"
   ],
   "note": ""
  },
  {
   "property": "C50",
   "status": "proved",
   "theorems": [
    "C50_lag",
    "C50_diff",
    "C50_pct_change",
    "C50_rolling_mean",
    "C50_ffill",
    "C50_has_changed",
    "C50_counter",
    "C50_ewma",
    "C50_ewma_infinite_refuted",
    "C50_ewmvar",
    "C50_ewmcov",
    "C50_ewmcov_com"
   ],
   "note": ""
  },
  {
   "property": "C51",
   "status": "proved",
   "theorems": [
    "C51_first_input_twice_refuted",
    "C51_skip_first",
    "C51_given_state",
    "C51_continues",
    "C51_unroll_given_in_part"
   ],
   "note": ""
  },
  {
   "property": "C52",
   "status": "proved",
   "theorems": [
    "C52_every_state_once",
    "C52_dependencies_first",
    "C52_acyclic"
   ],
   "note": ""
  },
  {
   "property": "C53",
   "status": "proved",
   "theorems": [
    "C53_transitions",
    "C53_outputs",
    "C53_total"
   ],
   "note": "Reading of flax (cannot be run here): the class defines its own __init__ without parent/name, so that binding it seems to raise; the theorems speak of its methods as written."
  },
  {
   "property": "C54",
   "status": "proved",
   "theorems": [
    "C54_segments",
    "C54_segments_shape",
    "C54_no_reset",
    "C54_initial_state",
    "C54_key_without_state_raises",
    "C54_streaming_scan_module"
   ],
   "note": ""
  },
  {
   "property": "C55",
   "status": "proved",
   "theorems": [
    "C55_cached_output",
    "C55_inner_state_advances",
    "C55_no_event_fn"
   ],
   "note": ""
  },
  {
   "property": "C56",
   "status": "proved",
   "theorems": [
    "C56_selector_history",
    "C56_pipeline",
    "C56_parallel",
    "C56_hierarchical",
    "C56_unknown_strategy"
   ],
   "note": ""
  },
  {
   "property": "C57",
   "status": "proved",
   "theorems": [
    "C57_downsample",
    "C57_sampled",
    "C57_none",
    "C57_ewma"
   ],
   "note": ""
  },
  {
   "property": "C58",
   "status": "proved",
   "theorems": [
    "C58_levels"
   ],
   "note": ""
  },
  {
   "property": "C59",
   "status": "proved",
   "theorems": [
    "C59_agent_is_unroll",
    "C59_agent_reset",
    "C59_agent_reset_keyless",
    "C59_env_is_unroll",
    "C59_env_done",
    "C59_gym_unroll",
    "C59_gym_unroll_terminates",
    "C59_reset_keys_refuted"
   ],
   "note": ""
  },
  {
   "property": "C60",
   "status": "proved",
   "theorems": [
    "C60_transform_batch_resume",
    "C60_transform_batch_trace",
    "C60_transform_batch_init_apply",
    "C60_transform_batch_init_empty",
    "C60_transform_batch_skip_first",
    "C60_transform_batch_static",
    "C60_transform_batch_key_refuted"
   ],
   "note": ""
  },
  {
   "property": "C61",
   "status": "proved",
   "theorems": [
    "C61_effective_center_of_mass"
   ],
   "note": ""
  },
  {
   "property": "C62",
   "status": "proved",
   "theorems": [
    "C62_ewma_weights_independent_of_values"
   ],
   "note": ""
  },
  {
   "property": "C63",
   "status": "proved",
   "theorems": [
    "C63_numba_overwrites_given_state",
    "C63_replay_refuted"
   ],
   "note": ""
  },
  {
   "property": "C64",
   "status": "proved",
   "theorems": [
    "C64_common_dims",
    "C64_array_dims",
    "C64_each_dims",
    "C64_tuple_refuted",
    "C64_stream_accessor",
    "C64_dataframe",
    "C64_dataframe_generated",
    "C64_dataframe_each",
    "C64_series",
    "C64_series_each"
   ],
   "note": ""
  },
  {
   "property": "C65",
   "status": "proved",
   "theorems": [
    "C65_called_once",
    "C65_sequential_parallel",
    "C65_hierarchical",
    "C65_set_order_irrelevant",
    "C65_total"
   ],
   "note": ""
  },
  {
   "property": "C66",
   "status": "proved",
   "theorems": [
    "C66_conditional_update"
   ],
   "note": "Reading of flax (cannot be run here): the class defines its own __init__ without parent/name, so that binding it seems to raise; the theorems speak of its methods as written."
  },
  {
   "property": "C67",
   "status": "proved",
   "theorems": [
    "C67_hierarchical_state"
   ],
   "note": "Reading of flax (cannot be run here): the class defines its own __init__ without parent/name, so that binding it seems to raise; the theorems speak of its methods as written."
  },
  {
   "property": "C68",
   "status": "proved",
   "theorems": [
    "C68_model_unaffected",
    "C68_scale",
    "C68_from_scratch"
   ],
   "note": ""
  },
  {
   "property": "C69",
   "status": "proved",
   "theorems": [
    "C69_estimates",
    "C69_quantiles",
    "C69_between",
    "C69_monotone"
   ],
   "note": ""
  },
  {
   "property": "C70",
   "status": "proved",
   "theorems": [
    "C70_sketch_counts",
    "C70_table_overestimates",
    "C70_not_a_frequency_refuted"
   ],
   "note": ""
  },
  {
   "property": "C71",
   "status": "proved",
   "theorems": [
    "C71_memory_constant",
    "C71_memory_report",
    "C71_total"
   ],
   "note": ""
  },
  {
   "property": "C72",
   "status": "proved",
   "theorems": [
    "C72_bars",
    "C72_haiku",
    "C72_missing_value_poisons",
    "C72_haiku_nan_refuted"
   ],
   "note": ""
  },
  {
   "property": "C73",
   "status": "proved",
   "theorems": [
    "C73_recursion",
    "C73_single_coefficient_ignored",
    "C73_documented_refuted",
    "C73_missing_input"
   ],
   "note": ""
  },
  {
   "property": "C74",
   "status": "proved",
   "theorems": [
    "C74_mean_all",
    "C74_mean_axis",
    "C74_std_all",
    "C74_std_axis0",
    "C74_std_axis1",
    "C74_std_haiku",
    "C74_std_missing",
    "C74_std_missing_refuted",
    "C74_row_mask_mean",
    "C74_row_mask_std",
    "C74_vector_mask_axis1",
    "C74_normalize",
    "C74_normalize_finite"
   ],
   "note": ""
  },
  {
   "property": "C75",
   "status": "proved",
   "theorems": [
    "C75_features",
    "C75_target_leak_refuted"
   ],
   "note": ""
  },
  {
   "property": "C76",
   "status": "proved",
   "theorems": [
    "C76_outputs",
    "C76_state",
    "C76_initial_state",
    "C76_loop"
   ],
   "note": ""
  },
  {
   "property": "C77",
   "status": "proved",
   "theorems": [
    "C77_partition",
    "C77_bare_array",
    "C77_merge",
    "C77_roundtrip",
    "C77_mixed_module_refuted",
    "C77_slash_name_refuted"
   ],
   "note": ""
  },
  {
   "property": "C78",
   "status": "proved",
   "theorems": [
    "C78_step",
    "C78_run",
    "C78_sgd",
    "C78_grads_finite",
    "C78_mixed_module_refuted",
    "C78_slash_name_refuted"
   ],
   "note": ""
  },
  {
   "property": "C79",
   "status": "proved",
   "theorems": [
    "C79_plain_function",
    "C79_learner_refuted",
    "C79_collection_filter",
    "C79_frozen_lost_refuted",
    "C79_all_trainable",
    "C79_sgd",
    "C79_grads_finite"
   ],
   "note": ""
  },
  {
   "property": "C80",
   "status": "proved",
   "theorems": [
    "C80_parameter_free",
    "C80_params_lost_refuted",
    "C80_nothing_mutable"
   ],
   "note": ""
  },
  {
   "property": "C81",
   "status": "proved",
   "theorems": [
    "C81_mean",
    "C81_nan",
    "C81_empty"
   ],
   "note": ""
  },
  {
   "property": "C82",
   "status": "proved",
   "theorems": [
    "C82_records",
    "C82_disabled",
    "C82_hook",
    "C82_breakpoint",
    "C82_state_change_hook",
    "C82_no_condition_refuted",
    "C82_copy_all",
    "C82_copy_all_refuted"
   ],
   "note": ""
  },
  {
   "property": "C83",
   "status": "proved",
   "theorems": [
    "C83_step_interval",
    "C83_value_threshold",
    "C83_state_change",
    "C83_state_change_absent",
    "C83_state_change_broadcast",
    "C83_state_change_shapes",
    "C83_state_change_nan",
    "C83_state_change_nan_first_refuted",
    "C83_performance_monitor",
    "C83_performance_monitor_stale_refuted"
   ],
   "note": ""
  },
  {
   "property": "C84",
   "status": "proved",
   "theorems": [
    "C84_debug",
    "C84_profile",
    "C84_memory"
   ],
   "note": ""
  },
  {
   "property": "C85",
   "status": "proved",
   "theorems": [
    "C85_records",
    "C85_sizes",
    "C85_two_records_per_call_refuted",
    "C85_module_summary_refuted",
    "C85_always_irregular_refuted",
    "C85_time_variance_refuted",
    "C85_first_memory_refuted",
    "C85_no_jit_refuted",
    "C85_large_input_refuted",
    "C85_recommendations",
    "C85_bottlenecks",
    "C85_leak",
    "C85_result_loses_bottlenecks_refuted",
    "C85_result_grows_refuted"
   ],
   "note": ""
  },
  {
   "property": "C86",
   "status": "proved",
   "theorems": [
    "C86_snapshots",
    "C86_schedule",
    "C86_module_histories",
    "C86_reset",
    "C86_check",
    "C86_severity",
    "C86_leak_sound",
    "C86_no_growth_no_leak",
    "C86_small_history_refuted",
    "C86_slope",
    "C86_least_squares",
    "C86_slow_leak_refuted",
    "C86_rate_refuted",
    "C86_state_memory",
    "C86_decorated",
    "C86_breakdown",
    "C86_array_state",
    "C86_others_refuted",
    "C86_lower"
   ],
   "note": ""
  },
  {
   "property": "C87",
   "status": "proved",
   "theorems": [
    "C87_rows_in_order",
    "C87_dataarray_labels",
    "C87_dataarray_reduced",
    "C87_dataarray_trees",
    "C87_dataframe_labels",
    "C87_dataframe_reduced",
    "C87_series_labels",
    "C87_skip_first_refuted",
    "C87_no_time_axis",
    "C87_ambiguous_time_axis",
    "C87_time_not_first"
   ],
   "note": ""
  },
  {
   "property": "C88",
   "status": "proved",
   "theorems": [
    "C88_ewm_dataarray",
    "C88_ewm_dataframe",
    "C88_ewm_series",
    "C88_ewm_weighted_average",
    "C88_ewm_arguments"
   ],
   "note": ""
  },
  {
   "property": "C89",
   "status": "proved",
   "theorems": [
    "C89_apply_is_unroll",
    "C89_local_rows",
    "C89_constants",
    "C89_constant_vectors_refuted",
    "C89_latest_row",
    "C89_new_row",
    "C89_window",
    "C89_no_exception"
   ],
   "note": ""
  },
  {
   "property": "C90",
   "status": "proved",
   "theorems": [
    "C90_no_look_ahead"
   ],
   "note": ""
  },
  {
   "property": "C91",
   "status": "proved",
   "theorems": [
    "C91_constant_matrix_refuted",
    "C91_buffered_matrix_refuted",
    "C91_square_window_refuted"
   ],
   "note": ""
  },
  {
   "property": "C92",
   "status": "proved",
   "theorems": [
    "C92_learner_run",
    "C92_stateful_refused",
    "C92_predicts_before_learning",
    "C92_optax_keeps_dictionaries",
    "C92_sgd_step",
    "C92_sgd_missing_observation"
   ],
   "note": ""
  },
  {
   "property": "C93",
   "status": "proved",
   "theorems": [
    "C93_unroll_of_a_function",
    "C93_deprecated_functions",
    "C93_already_unrolled_keeps_skip_first",
    "C93_nested_unroll_is_flat",
    "C93_nested_unroll_keys",
    "C93_static_scan_without_inputs_raises",
    "C93_data_unroll_stacks",
    "C93_data_unroll_then_unroll"
   ],
   "note": ""
  },
  {
   "property": "C94",
   "status": "proved",
   "theorems": [
    "C94_wrapper",
    "C94_state_machine",
    "C94_state_machine_hierarchical",
    "C94_attention",
    "C94_compose_names",
    "C94_compose_parallel",
    "C94_compose_pipeline",
    "C94_compose_unknown",
    "C94_compressed_memory",
    "C94_hierarchical_memory",
    "C94_optimizer",
    "C94_optimizer_aux",
    "C94_optimizer_aux_start",
    "C94_target"
   ],
   "note": ""
  },
  {
   "property": "C95",
   "status": "proved",
   "theorems": [
    "C95_vector",
    "C95_dictionary",
    "C95_truncated",
    "C95_relevant_is_oldest_refuted"
   ],
   "note": ""
  },
  {
   "property": "C96",
   "status": "proved",
   "theorems": [
    "C96_names",
    "C96_level_names",
    "C96_defaults",
    "C96_settings",
    "C96_ewma_levels"
   ],
   "note": ""
  },
  {
   "property": "C97",
   "status": "proved",
   "theorems": [
    "C97_one_output_per_local_time",
    "C97_dataset_labels",
    "C97_dataset_trees",
    "C97_default_format_dims_refuted"
   ],
   "note": ""
  },
  {
   "property": "C98",
   "status": "proved",
   "theorems": [
    "C98_nodes",
    "C98_type",
    "C98_edges_refuted",
    "C98_nested_refuted",
    "C98_reuse_refuted",
    "C98_plain_function"
   ],
   "note": ""
  },
  {
   "property": "C99",
   "status": "proved",
   "theorems": [
    "C99_ends",
    "C99_forest",
    "C99_levels",
    "C99_parents",
    "C99_clusters",
    "C99_cluster_label",
    "C99_drawn_once",
    "C99_edges",
    "C99_summary",
    "C99_analyzed",
    "C99_nesting_refuted",
    "C99_prefix_refuted"
   ],
   "note": ""
  },
  {
   "property": "C100",
   "status": "proved",
   "theorems": [
    "C100_history",
    "C100_module_history",
    "C100_recent",
    "C100_clear",
    "C100_recent_zero_refuted",
    "C100_flags_refuted",
    "C100_parts_refuted",
    "C100_curves",
    "C100_shapes",
    "C100_sizes",
    "C100_values",
    "C100_flow_rate",
    "C100_flow_rate_refuted",
    "C100_animation",
    "C100_last_step_refuted",
    "C100_failed_frame_refuted"
   ],
   "note": ""
  },
  {
   "property": "C101",
   "status": "proved",
   "theorems": [
    "C101_data",
    "C101_tracker",
    "C101_unregistered",
    "C101_performance",
    "C101_alerts",
    "C101_alerts_refuted",
    "C101_broadcast",
    "C101_silent",
    "C101_clients"
   ],
   "note": ""
  },
  {
   "property": "C102",
   "status": "proved",
   "theorems": [
    "C102_bokeh",
    "C102_bokeh_unknown",
    "C102_bokeh_zero_refuted",
    "C102_jupyter",
    "C102_parameters",
    "C102_callbacks",
    "C102_quiet",
    "C102_panel",
    "C102_flow",
    "C102_flow_refuted",
    "C102_stages",
    "C102_animation"
   ],
   "note": ""
  },
  {
   "property": "C103",
   "status": "proved",
   "theorems": [
    "C103_statistics",
    "C103_determined",
    "C103_between",
    "C103_debugger",
    "C103_hook",
    "C103_export",
    "C103_clear_refuted",
    "C103_profile",
    "C103_efficiency",
    "C103_allocated_refuted",
    "C103_result_stats",
    "C103_module",
    "C103_memory",
    "C103_repeated_refuted",
    "C103_module_memory"
   ],
   "note": ""
  },
  {
   "property": "C104",
   "status": "proved",
   "theorems": [
    "C104_bands",
    "C104_order",
    "C104_position",
    "C104_position_in_unit_interval_refuted"
   ],
   "note": ""
  },
  {
   "property": "C105",
   "status": "proved",
   "theorems": [
    "C105_macd",
    "C105_constant",
    "C105_scaling",
    "C105_trend"
   ],
   "note": ""
  },
  {
   "property": "C106",
   "status": "proved",
   "theorems": [
    "C106_held_report",
    "C106_breakout_without_event_refuted",
    "C106_flat"
   ],
   "note": ""
  },
  {
   "property": "C107",
   "status": "proved",
   "theorems": [
    "C107_regime",
    "C107_signal_ignores_regime_refuted"
   ],
   "note": ""
  },
  {
   "property": "C108",
   "status": "proved",
   "theorems": [
    "C108_bounded",
    "C108_formula",
    "C108_flat_market_is_short_refuted"
   ],
   "note": ""
  },
  {
   "property": "C109",
   "status": "proved",
   "theorems": [
    "C109_not_cumulative_refuted",
    "C109_positions"
   ],
   "note": ""
  },
  {
   "property": "C110",
   "status": "proved",
   "theorems": [
    "C110_single_is_a_rounding",
    "C110_double_is_a_rounding",
    "C110_error_adjust",
    "C110_error_no_adjust",
    "C110_single_adjust",
    "C110_double_adjust",
    "C110_exact_arithmetic",
    "C110_in_range_refuted"
   ],
   "note": ""
  },
  {
   "property": "C111",
   "status": "proved",
   "theorems": [
    "C111_nonnegative_adjust",
    "C111_nonnegative",
    "C111_power",
    "C111_single",
    "C111_exact_arithmetic"
   ],
   "note": ""
  },
  {
   "property": "C112",
   "status": "proved",
   "theorems": [
    "C112_diff",
    "C112_pct_change",
    "C112_rolling_mean",
    "C112_exact_arithmetic"
   ],
   "note": ""
  },
  {
   "property": "C113",
   "status": "proved",
   "theorems": [
    "C113_variance_nonnegative_refuted",
    "C113_exact_arithmetic"
   ],
   "note": ""
  },
  {
   "property": "C114",
   "status": "proved",
   "theorems": [
    "C114_ewmvar_is_the_diagonal_of_ewmcov"
   ],
   "note": ""
  },
  {
   "property": "C115",
   "status": "proved",
   "theorems": [
    "C115_ewma_forgets",
    "C115_ewma_enters_the_range",
    "C115_ewma_converges"
   ],
   "note": ""
  },
  {
   "property": "C116",
   "status": "proved",
   "theorems": [
    "C116_lags_add_up",
    "C116_diff_sums_back",
    "C116_pct_change_compounds"
   ],
   "note": ""
  },
  {
   "property": "C117",
   "status": "proved",
   "theorems": [
    "C117_arma_stable",
    "C117_arma_forgets"
   ],
   "note": ""
  },
  {
   "property": "C118",
   "status": "proved",
   "theorems": [
    "C118_newton_steps_are_bounded",
    "C118_newton_moves_are_square_summable",
    "C118_newton_total_displacement",
    "C118_newton_matrix_decreases"
   ],
   "note": ""
  },
  {
   "property": "C119",
   "status": "proved",
   "theorems": [
    "C119_newton_regret_identity",
    "C119_newton_regret",
    "C119_newton_regret_is_sublinear",
    "C119_newton_leverage_is_logarithmic",
    "C119_newton_logarithmic_regret"
   ],
   "note": ""
  },
  {
   "property": "C120",
   "status": "proved",
   "theorems": [
    "C120_online_gradient_descent_regret"
   ],
   "note": ""
  },
  {
   "property": "C121",
   "status": "proved",
   "theorems": [
    "C121_schema_raises",
    "C121_schema_names",
    "C121_schema_check",
    "C121_text",
    "C121_date",
    "C121_number",
    "C121_codes",
    "C121_words",
    "C121_text_ffill",
    "C121_date_ffill",
    "C121_text_no_ffill",
    "C121_date_no_ffill",
    "C121_missing_date_refuted",
    "C121_text_matrix_refuted",
    "C121_constant",
    "C121_constant_texts_refuted",
    "C121_raises",
    "C121_buffered_dates_refuted",
    "C121_no_exception"
   ],
   "note": ""
  },
  {
   "property": "C122",
   "status": "proved",
   "theorems": [
    "C122_signal_processor",
    "C122_signal_bounds",
    "C122_no_price",
    "C122_constant",
    "C122_trend",
    "C122_shift"
   ],
   "note": ""
  },
  {
   "property": "C123",
   "status": "proved",
   "theorems": [
    "C123_own_processor",
    "C123_positional",
    "C123_order_refuted",
    "C123_new_asset_raises"
   ],
   "note": ""
  },
  {
   "property": "C124",
   "status": "proved",
   "theorems": [
    "C124_processor",
    "C124_simple_processor",
    "C124_scan_equals_loop",
    "C124_mean_of_prices_refuted"
   ],
   "note": ""
  },
  {
   "property": "C125",
   "status": "proved",
   "theorems": [
    "C125_baseline",
    "C125_baseline_signal",
    "C125_raises_iff",
    "C125_demo_runs_refuted",
    "C125_last_event"
   ],
   "note": ""
  },
  {
   "property": "C126",
   "status": "proved",
   "theorems": [
    "C126_split_defined",
    "C126_split",
    "C126_split_keys",
    "C126_stream",
    "C126_stream_trace",
    "C126_merged_defined",
    "C126_axis_stream",
    "C126_merged_local",
    "C126_merged_ffill",
    "C126_merged_no_ffill",
    "C126_merged_window",
    "C126_time_not_first_refuted"
   ],
   "note": ""
  },
  {
   "property": "C127",
   "status": "proved",
   "theorems": [
    "C127_same_shapes",
    "C127_text_unique",
    "C127_same_structure",
    "C127_self",
    "C127_self_refuted",
    "C127_shapes_refuted",
    "C127_symmetric_refuted",
    "C127_unique_dtype",
    "C127_dict_map"
   ],
   "note": ""
  },
  {
   "property": "C128",
   "status": "proved",
   "theorems": [
    "C128_affine",
    "C128_portfolio_variance",
    "C128_correlation",
    "C128_pairwise_missing_refuted"
   ],
   "note": ""
  },
  {
   "property": "C129",
   "status": "proved",
   "theorems": [
    "C129_ewmvar_moments",
    "C129_ewmvar_forgets"
   ],
   "note": ""
  },
  {
   "property": "C130",
   "status": "proved",
   "theorems": [
    "C130_read_back",
    "C130_quoting",
    "C130_readable_iff",
    "C130_export",
    "C130_export_statements",
    "C130_color"
   ],
   "note": ""
  },
  {
   "property": "C131",
   "status": "proved",
   "theorems": [
    "C131_rolling_affine",
    "C131_rolling_additive",
    "C131_rolling_within",
    "C131_rolling_of_diff"
   ],
   "note": ""
  },
  {
   "property": "C132",
   "status": "proved",
   "theorems": [
    "C132_diff_affine",
    "C132_pct_change_unit"
   ],
   "note": ""
  },
  {
   "property": "C133",
   "status": "proved",
   "theorems": [
    "C133_ewma_com_zero_is_ffill",
    "C133_ewmvar_com_zero",
    "C133_horizon_one",
    "C133_event_at_every_step"
   ],
   "note": ""
  },
  {
   "property": "C134",
   "status": "proved",
   "theorems": [
    "C134_bars_merge",
    "C134_bar_algebra"
   ],
   "note": ""
  },
  {
   "property": "C135",
   "status": "proved",
   "theorems": [
    "C135_counts_steps",
    "C135_never_stops",
    "C135_second_run_refuted",
    "C135_haiku",
    "C135_with_target_refuted"
   ],
   "note": ""
  },
  {
   "property": "C136",
   "status": "proved",
   "theorems": [
    "C136_leafwise",
    "C136_tree_lag"
   ],
   "note": ""
  },
  {
   "property": "C137",
   "status": "proved",
   "theorems": [
    "C137_split_combine",
    "C137_shadow_refuted",
    "C137_combine_split",
    "C137_history",
    "C137_wrapper",
    "C137_wrapper_init"
   ],
   "note": ""
  },
  {
   "property": "C138",
   "status": "proved",
   "theorems": [
    "C138_scope",
    "C138_step",
    "C138_frozen",
    "C138_refines",
    "C138_nested_refuted"
   ],
   "note": ""
  },
  {
   "property": "C139",
   "status": "proved",
   "theorems": [
    "C139_ensemble_outputs",
    "C139_target_ignored",
    "C139_missing_volume",
    "C139_constant_inputs"
   ],
   "note": ""
  },
  {
   "property": "C140",
   "status": "proved",
   "theorems": [
    "C140_adaptive_outputs",
    "C140_scale_moves_slowly",
    "C140_predictions",
    "C140_missing_target"
   ],
   "note": ""
  },
  {
   "property": "C141",
   "status": "proved",
   "theorems": [
    "C141_mean",
    "C141_std",
    "C141_normalized",
    "C141_normalize_units",
    "C141_disjoint_masks"
   ],
   "note": ""
  },
  {
   "property": "C142",
   "status": "proved",
   "theorems": [
    "C142_any_order",
    "C142_blocked",
    "C142_latest_past_refuted",
    "C142_times_increase_refuted"
   ],
   "note": ""
  },
  {
   "property": "C143",
   "status": "proved",
   "theorems": [
    "C143_error",
    "C143_variance_almost_nonnegative",
    "C143_single",
    "C143_double",
    "C143_transpose",
    "C143_exact_arithmetic"
   ],
   "note": ""
  },
  {
   "property": "C144",
   "status": "proved",
   "theorems": [
    "C144_error",
    "C144_counts",
    "C144_single",
    "C144_double"
   ],
   "note": ""
  },
  {
   "property": "C145",
   "status": "proved",
   "theorems": [
    "C145_error",
    "C145_double",
    "C145_constant_exact",
    "C145_agreement",
    "C145_bitwise_agreement_refuted",
    "C145_exact_arithmetic"
   ],
   "note": ""
  },
  {
   "property": "C146",
   "status": "proved",
   "theorems": [
    "C146_error_linear",
    "C146_single_linear"
   ],
   "note": ""
  },
  {
   "property": "C147",
   "status": "proved",
   "theorems": [
    "C147_cytoscape",
    "C147_d3",
    "C147_colors",
    "C147_configured",
    "C147_ids",
    "C147_no_clash"
   ],
   "note": ""
  },
  {
   "property": "C148",
   "status": "proved",
   "theorems": [
    "C148_nesting",
    "C148_ancestors",
    "C148_node"
   ],
   "note": ""
  },
  {
   "property": "C149",
   "status": "proved",
   "theorems": [
    "C149_ewma",
    "C149_ewma_only_then",
    "C149_ewma_overflow_refuted",
    "C149_ewma_single",
    "C149_ewma_double",
    "C149_ewmvar",
    "C149_ewmcov",
    "C149_ewmcov_com",
    "C149_ewmcov_com_refuted",
    "C149_diff",
    "C149_pct_change",
    "C149_rolling_mean",
    "C149_exact_arithmetic"
   ],
   "note": ""
  },
  {
   "property": "C150",
   "status": "proved",
   "theorems": [
    "C150_heatmap",
    "C150_scale",
    "C150_scale_refuted",
    "C150_empty_heatmap",
    "C150_time_series",
    "C150_colors_refuted",
    "C150_distribution",
    "C150_histogram",
    "C150_arrays_refuted",
    "C150_performance",
    "C150_performance_refuted",
    "C150_correlation",
    "C150_correlation_refuted",
    "C150_registry"
   ],
   "note": ""
  },
  {
   "property": "C151",
   "status": "proved",
   "theorems": [
    "C151_nodes",
    "C151_lines",
    "C151_defined",
    "C151_connections_refuted",
    "C151_plain",
    "C151_depth_refuted"
   ],
   "note": ""
  },
  {
   "property": "C152",
   "status": "proved",
   "theorems": [
    "C152_summary_exists",
    "C152_summary",
    "C152_steps_times_average_refuted",
    "C152_constant_memory_refuted",
    "C152_allocated_at_least_peak_refuted",
    "C152_report_of_nothing_refuted",
    "C152_report",
    "C152_compilations_misplaced_refuted"
   ],
   "note": ""
  },
  {
   "property": "C153",
   "status": "proved",
   "theorems": [
    "C153_summary_exists",
    "C153_summary",
    "C153_total_growth_refuted",
    "C153_leak_count_refuted",
    "C153_module_exists",
    "C153_module",
    "C153_report",
    "C153_severity"
   ],
   "note": ""
  },
  {
   "property": "C154",
   "status": "proved",
   "theorems": [
    "C154_backend",
    "C154_needs_a_tracker",
    "C154_update",
    "C154_drawing",
    "C154_filters_refuted",
    "C154_older_figures_refuted",
    "C154_cleared_refuted",
    "C154_plotly_refuted",
    "C154_text_empty",
    "C154_text",
    "C154_value"
   ],
   "note": ""
  },
  {
   "property": "C155",
   "status": "proved",
   "theorems": [
    "C155_answers",
    "C155_fresh",
    "C155_dictionary_refuted",
    "C155_summary_refuted",
    "C155_ends"
   ],
   "note": ""
  },
  {
   "property": "C156",
   "status": "proved",
   "theorems": [
    "C156_axis0",
    "C156_axis1",
    "C156_no_axis",
    "C156_same_shape",
    "C156_raises",
    "C156_tree",
    "C156_haiku",
    "C156_statistics",
    "C156_shape_refuted"
   ],
   "note": ""
  },
  {
   "property": "C157",
   "status": "proved",
   "theorems": [
    "C157_read_back",
    "C157_injective",
    "C157_nodes",
    "C157_edges",
    "C157_way",
    "C157_ways",
    "C157_names_refuted"
   ],
   "note": ""
  },
  {
   "property": "C158",
   "status": "proved",
   "theorems": [
    "C158_tags",
    "C158_names",
    "C158_details",
    "C158_edges",
    "C158_escape_refuted"
   ],
   "note": ""
  },
  {
   "property": "C159",
   "status": "proved",
   "theorems": [
    "C159_laid_out",
    "C159_drawing",
    "C159_labels_refuted"
   ],
   "note": ""
  }
 ]
}