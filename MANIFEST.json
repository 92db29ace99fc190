{
 "claims": [
  {
   "property": "C01",
   "status": "proved",
   "theorems": [
    "C01_cash_never_negative",
    "C01_cash_stays_number"
   ],
   "note": "All histories of orders over any columns sharing cash, exact rational arithmetic with NaN and infinities; fee rates above -100%."
  },
  {
   "property": "C02",
   "status": "partial",
   "theorems": [
    "C02_long_only_never_short_partial",
    "C02_short_only_never_long",
    "C02_long_only_percent_refuted"
   ],
   "note": "Proved for all histories; long-only with a percentage size below -100% is excluded, because the code then opens a short position (refuted by a concrete witness)."
  },
  {
   "property": "C03",
   "status": "proved",
   "theorems": [
    "C03_unfilled_no_effect",
    "C03_filled_one_record",
    "C03_snap_meaning"
   ],
   "note": "For every number type, including IEEE doubles; balances within 1e-12 of zero are reset to zero even by an unfilled order."
  },
  {
   "property": "C04",
   "status": "proved",
   "theorems": [
    "C04_fill_accounting"
   ],
   "note": "Exact arithmetic; additions that the code snaps to zero are stated with the code's own tolerance."
  },
  {
   "property": "C05",
   "status": "partial",
   "theorems": [
    "C05_size_limits",
    "C05_requested_size",
    "C05_size_positive_partial",
    "C05_zero_size_fill_refuted"
   ],
   "note": "Limits, requested size and partial-fill rule proved. Positivity of the filled size is false for buys with a size granularity (refuted by a concrete witness) and proved for the rest."
  },
  {
   "property": "C06",
   "status": "partial",
   "theorems": [
    "C06_nan_size_skips",
    "C06_zero_amount_or_value_skips_partial",
    "C06_zero_percent_long_only_skips_partial",
    "C06_zero_percent_refuted"
   ],
   "note": "NaN size for every number type; zero size for Amount, Value and long-only Percent. Zero Percent in the other directions is refuted: the order fills and cash becomes NaN."
  },
  {
   "property": "C07",
   "status": "proved",
   "theorems": [
    "C07_debt_consistent",
    "C07_free_cash_consistent"
   ],
   "note": "All histories; the free cash identity holds up to an explicit tolerance per order because the code snaps near-zero sums."
  },
  {
   "property": "C08",
   "status": "partial",
   "theorems": [
    "C08_lock_cash_partial",
    "C08_fixed_fees_refuted",
    "C08_shared_cash_refuted"
   ],
   "note": "Single order; buys leave free cash non-negative, sells up to the code's tolerance. With fixed fees above free cash or several shorted assets sharing cash the property is refuted by concrete histories."
  },
  {
   "property": "C09",
   "status": "proved",
   "theorems": [
    "C09_target_reached"
   ],
   "note": "Exact arithmetic."
  },
  {
   "property": "C10",
   "status": "proved",
   "theorems": [
    "C10_value_after_fill",
    "C10_value_unchanged_without_update"
   ],
   "note": "Exact arithmetic."
  },
  {
   "property": "C11",
   "status": "proved",
   "theorems": [
    "C11_record_bookkeeping",
    "C11_records_append_only",
    "C11_full_buffers_raise"
   ],
   "note": "For every number type and every sequence of calls."
  },
  {
   "property": "C12",
   "status": "proved",
   "theorems": [
    "C12_no_look_ahead",
    "C12_shared_generator_refuted"
   ],
   "note": "Any number type (IEEE doubles included), any grouping, call sequence and lengths of the two runs. Runs with random rejection are covered for a single group; with several groups the shared generator leaks the future of one group into the past of the next (concrete witness)."
  },
  {
   "property": "C13",
   "status": "proved",
   "theorems": [
    "C13_groups_independent_signals",
    "C13_groups_independent"
   ],
   "note": "Any number type. Stated for runs without random rejection, since groups share one generator; the alone-run uses the same buffer sizes."
  },
  {
   "property": "C14",
   "status": "proved",
   "theorems": [
    "C14_signal_orders_chronological",
    "C14_signals_one_order_per_bar",
    "C14_signals_default_buffer_suffices",
    "C14_orders_chronological",
    "C14_one_order_per_bar",
    "C14_default_buffer_suffices"
   ],
   "note": "from_orders: range, chronology, one order per bar when no call sequence row repeats a column, and the default buffer never overflows. from_signals is covered under C19."
  },
  {
   "property": "C15",
   "status": "proved",
   "theorems": [
    "C15_assets_match_simulated_position",
    "C15_cash_matches_simulated_cash",
    "C15_assets_follow_the_ledger",
    "C15_cash_follows_the_ledger",
    "C15_replay_accepts"
   ],
   "note": "Both the simulator and the replays are compared with an exact rational ledger; the difference is bounded by the number of orders times the zero-snapping tolerance at the magnitude traded. Every simulation of from-orders with finite initial cash, fee rates above -100%, non-zero percentage sizes and closes that are not infinite. Replay of total cash (not free cash)."
  },
  {
   "property": "C16",
   "status": "proved",
   "theorems": [
    "C16_auto_call_seq_permutes",
    "C16_auto_call_seq_ascending",
    "C16_auto_call_seq_stable",
    "C16_doubles_are_ordered",
    "C16_columns_visited_by_value",
    "C16_call_seq_permuted"
   ],
   "note": "Permutation for any number type; order and stability for any number type satisfying the comparison laws, proved for exact numbers and for IEEE doubles."
  },
  {
   "property": "C17",
   "status": "proved",
   "theorems": [
    "C17_default_is_ascending",
    "C17_reversed_is_mirrored",
    "C17_random_is_permutation",
    "C17_slices_meaning",
    "C17_empty_group_refuted"
   ],
   "note": "Groups with at least one column (as group lengths always are); the behaviour for an empty group is shown by a witness."
  },
  {
   "property": "C18",
   "status": "proved",
   "theorems": [
    "C18_signals_act_as_documented",
    "C18_conflicts_resolve_as_documented",
    "C18_other_sizes_refused",
    "C18_one_signal_survives_refuted"
   ],
   "note": "Model: signal resolution, sizing and the per-column signal pass, for every number type with an order. The wording of the draft (at most one signal survives) is refuted by a witness and was replaced by: the documented order is placed."
  },
  {
   "property": "C19",
   "status": "proved",
   "theorems": [
    "C19_no_look_ahead"
   ],
   "note": "Two-run lockstep over the whole simulation, any number type; callbacks for signals and stop adjustment are arbitrary functions of bar, column, position and valuation price."
  },
  {
   "property": "C20",
   "status": "proved",
   "theorems": [
    "C20_stops_trigger_exactly",
    "C20_limit_stop_fills_at_stop_price",
    "C20_missing_bar_prices",
    "C20_trailing_stop_long",
    "C20_trailing_stop_short"
   ],
   "note": "Trigger and price for one bar and trailing over any number of bars, any ordered number type; fill price of limit stops in exact arithmetic. Stop adjustment callbacks off. A position within the zero-snapping tolerance is excluded for trailing."
  },
  {
   "property": "C21",
   "status": "proved",
   "theorems": [
    "C21_exit_trades_conserve",
    "C21_exit_trade_profit",
    "C21_profits_add_up_to_total_profit",
    "C21_open_remainder"
   ],
   "note": "Exact arithmetic; every order history with finite numbers, sizes above 1e-12 and positive prices (such histories are shown to be accepted). Bounds are explicit: number of orders times the zero-snapping tolerance at the volume traded."
  },
  {
   "property": "C22",
   "status": "proved",
   "theorems": [
    "C22_entry_trades_conserve",
    "C22_entry_trade_profit",
    "C22_totals_agree",
    "C22_positions_of_both_splits_agree",
    "C22_positions_merge_trades",
    "C22_position_profit",
    "C22_positions_agree",
    "C22_same_positions_near_zero_refuted"
   ],
   "note": "As C21. Column totals agree for every history; positions agree one by one when every running position is zero or clear of the tolerance. A witness shows that the two splits count different positions otherwise."
  },
  {
   "property": "C23",
   "status": "proved",
   "theorems": [
    "C23_records_are_numbered",
    "C23_trades_span_orders",
    "C23_entry_not_after_exit",
    "C23_exit_trades",
    "C23_entry_trades"
   ],
   "note": "As C21, both kinds of trades; bars need the bars of a column's orders to ascend."
  },
  {
   "property": "C24",
   "status": "proved",
   "theorems": [
    "C24_total_profit_is_final_value_minus_cash",
    "C24_total_profit_is_ledger_profit",
    "C24_no_orders_no_close_refuted"
   ],
   "note": "Any order history with finite numbers, bound proportional to the number of orders. Without orders and without a last close the profit is 0 while the value is NaN (refuted witness), so the property speaks of columns with a known last close."
  },
  {
   "property": "C25",
   "status": "proved",
   "theorems": [
    "C25_ffill",
    "C25_bfill",
    "C25_fill_twice",
    "C25_ffill_causal",
    "C25_shift"
   ],
   "note": "One-dimensional kernels, any number format."
  },
  {
   "property": "C26",
   "status": "proved",
   "theorems": [
    "C26_rolling_min",
    "C26_rolling_max",
    "C26_accepts",
    "C26_rolling_mean",
    "C26_mean_accepts",
    "C26_causal",
    "C26_mean_infinite_refuted"
   ],
   "note": "Minimum and maximum for every number format with consistent ordering (exact numbers and binary64); mean in exact arithmetic. An infinite value breaks the incremental mean for later windows (refuted witness), hence the wording."
  },
  {
   "property": "C27",
   "status": "proved",
   "theorems": [
    "C27_rolling_std",
    "C27_accepts",
    "C27_causal"
   ],
   "note": "Exact arithmetic: whatever the stability threshold does, the argument of the square root is the variance of the window. Rounding error of the binary64 run is not bounded."
  },
  {
   "property": "C28",
   "status": "proved",
   "theorems": [
    "C28_expanding_min_max",
    "C28_expanding_mean",
    "C28_expanding_std",
    "C28_ewm_adjusted",
    "C28_ewm_recursive",
    "C28_ewm_accepts",
    "C28_causal"
   ],
   "note": "Exact arithmetic for means; minimum and maximum for every ordered format. Adjusted weights for span at least 2 (with span 1 and a NaN bar the weights are 0/0). ewm_std is not modelled."
  },
  {
   "property": "C29",
   "status": "proved",
   "theorems": [
    "C29_ranges",
    "C29_mask",
    "C29_coverage",
    "C29_duration"
   ],
   "note": "Any number format; records to mask, coverage (not normalised) and duration included."
  },
  {
   "property": "C30",
   "status": "proved",
   "theorems": [
    "C30_drawdowns",
    "C30_last_bar_refuted"
   ],
   "note": "Every ordered number format. If the last bar is NaN the running drawdown is dropped (refuted witness), hence the wording."
  },
  {
   "property": "C31",
   "status": "proved",
   "theorems": [
    "C31_crossed_above",
    "C31_one_direction",
    "C31_causal"
   ],
   "note": "Every ordered number format. crossed_below is crossed_above with arguments exchanged (generic/accessors.py:1554)."
  },
  {
   "property": "C32",
   "status": "proved",
   "theorems": [
    "C32_clean",
    "C32_complete"
   ],
   "note": "clean_enex_1d_nb, all columns alike; complete description of what is kept and dropped."
  },
  {
   "property": "C33",
   "status": "proved",
   "theorems": [
    "C33_exits_in_window",
    "C33_exits_exact",
    "C33_checked",
    "C33_raises",
    "C33_generate",
    "C33_generate_raises",
    "C33_builtin_choices",
    "C33_random_count"
   ],
   "note": "generate_nb and generate_ex_nb for any choice function (its state is modelled by the call number); built-in choice functions."
  },
  {
   "property": "C34",
   "status": "proved",
   "theorems": [
    "C34_alternating_groups",
    "C34_alternate",
    "C34_terminates",
    "C34_unsorted_choice_refuted"
   ],
   "note": "generate_enex_nb: groups of bars, alternation, termination with an explicit bound. A witness shows that the loop need not end for a choice function that does not return ascending indices."
  },
  {
   "property": "C35",
   "status": "proved",
   "theorems": [
    "C35_stop_bars",
    "C35_extremes",
    "C35_ohlc_stop_bars"
   ],
   "note": "stop_choice_nb for any number type with the comparison laws (exact and IEEE), ohlc_stop_choice_nb for any number type. A trailing level takes the entry bar and the bars of the range before; with wait > 1 the skipped bars are not looked at, as in the code."
  },
  {
   "property": "C36",
   "status": "proved",
   "theorems": [
    "C36_position_with_gaps",
    "C36_position_in_run",
    "C36_run_number"
   ],
   "note": "rank_nb with sig_pos_rank_nb (with and without gaps) and part_pos_rank_nb."
  },
  {
   "property": "C37",
   "status": "proved",
   "theorems": [
    "C37_nth_index",
    "C37_true_positions"
   ],
   "note": "nth_index_1d_nb."
  },
  {
   "property": "C38",
   "status": "proved",
   "theorems": [
    "C38_between",
    "C38_to_next",
    "C38_from_previous",
    "C38_partitions",
    "C38_between_partitions"
   ],
   "note": "All four range kernels, as sorted lists of exactly the ranges defined."
  },
  {
   "property": "C39",
   "status": "proved",
   "theorems": [
    "C39_map_groups_by_column",
    "C39_map_lists_every_record_once",
    "C39_range",
    "C39_sorted_checks"
   ],
   "note": "Any column array with columns in range, any contents of uninitialised memory."
  },
  {
   "property": "C40",
   "status": "proved",
   "theorems": [
    "C40_select_indices_by_map",
    "C40_select_records_by_map",
    "C40_range_agrees_with_map"
   ],
   "note": "Any selection, repeated and empty columns included; any record type; range and map implementations agree whenever the range exists."
  },
  {
   "property": "C41",
   "status": "proved",
   "theorems": [
    "C41_top_n",
    "C41_bottom_n",
    "C41_doubles"
   ],
   "note": "Any number type satisfying the comparison laws (exact numbers and IEEE doubles), NaN and ties included; the tie rule is proved too."
  },
  {
   "property": "C42",
   "status": "proved",
   "theorems": [
    "C42_expandable",
    "C42_expand",
    "C42_expandable_values_in_place",
    "C42_stack"
   ],
   "note": "Any shape; duplicates of a cell resolve to the last value."
  },
  {
   "property": "C43",
   "status": "proved",
   "theorems": [
    "C43_relative_change",
    "C43_compounding_restores_values",
    "C43_total_return",
    "C43_cumulative_meaning",
    "C43_final_is_last",
    "C43_causal"
   ],
   "note": "Exact arithmetic (rationals with NaN); causality for any number type."
  },
  {
   "property": "C44",
   "status": "proved",
   "theorems": [
    "C44_drawdown_series",
    "C44_max_drawdown",
    "C44_starting_capital_refuted",
    "C44_total_loss_first_bar_refuted"
   ],
   "note": "Exact arithmetic. Two witnesses show what the drawdown of returns does not see: the loss of the first bar, and any drawdown at all after a total loss on the first bar."
  },
  {
   "property": "C45",
   "status": "proved",
   "theorems": [
    "C45_extrema_alternate",
    "C45_no_extremum_missed",
    "C45_thresholds"
   ],
   "note": "Any number type with lawful comparisons (exact and IEEE doubles). The label of the last extremum, which a later bar could still move, is included."
  },
  {
   "property": "C46",
   "status": "proved",
   "theorems": [
    "C46_first_breakout",
    "C46_one_label_per_bar"
   ],
   "note": "Any number type."
  },
  {
   "property": "C47",
   "status": "proved",
   "theorems": [
    "C47_rsi_between_0_and_100",
    "C47_rsi_value",
    "C47_stoch_between_0_and_100",
    "C47_stoch_value",
    "C47_true_range_value",
    "C47_true_range_bounds",
    "C47_average_true_range_nonneg",
    "C47_bands_ordered",
    "C47_on_balance_volume"
   ],
   "note": "Exact arithmetic, series without infinities; moving averages simple or exponential."
  },
  {
   "property": "C48",
   "status": "proved",
   "theorems": [
    "C48_moving_average_cache",
    "C48_deviation_cache",
    "C48_bands_cache",
    "C48_rsi_cache",
    "C48_stochastic_cache",
    "C48_macd_cache",
    "C48_true_range_cache",
    "C48_unlisted_raises",
    "C48_colliding_hashes_refuted"
   ],
   "note": "For any arithmetic and any hash function without collisions on the listed combinations. C48_colliding_hashes_refuted: keys are hashes only, so a collision would return the wrong series."
  },
  {
   "property": "C49",
   "status": "proved",
   "theorems": [
    "C49_flexible_indexing_is_broadcasting"
   ],
   "note": "Any element type; rejected shapes are outside the premise."
  },
  {
   "property": "C50",
   "status": "proved",
   "theorems": [
    "C50_lengths_of_runs",
    "C50_unsorted_rejected",
    "C50_grouper_lengths",
    "C50_grouper_rejects",
    "C50_ungrouped_lengths",
    "C50_start_and_end",
    "C50_missing_label_refuted"
   ],
   "note": "Labels present on all columns; C50_missing_label_refuted shows what happens to columns without one."
  },
  {
   "property": "C51",
   "status": "proved",
   "theorems": [
    "C51_sets_cover_every_range",
    "C51_accepted_exactly",
    "C51_rolling_windows",
    "C51_range_windows",
    "C51_given_ranges",
    "C51_expanding_windows",
    "C51_negative_length_refuted"
   ],
   "note": "Whole and fractional lengths as exact rationals. C51_negative_length_refuted: negative set lengths are not checked."
  },
  {
   "property": "C52",
   "status": "proved",
   "theorems": [
    "C52_product_shape",
    "C52_every_combination",
    "C52_each_combination_once",
    "C52_order_of_combinations",
    "C52_combined_index_lists_the_product",
    "C52_dropping_duplicates_keeps_distinctions",
    "C52_broadcast_parameters",
    "C52_broadcast_accepts",
    "C52_empty_list_refuted",
    "C52_dropping_redundant_refuted"
   ],
   "note": "Two witnesses show an empty parameter list and a redundant level that was not redundant."
  },
  {
   "property": "C53",
   "status": "proved",
   "theorems": [
    "C53_merge",
    "C53_merge_leaves",
    "C53_same_keys",
    "C53_same_keys_nested_refuted",
    "C53_same_keys_empty_refuted",
    "C53_atomic_refuted",
    "C53_single_refuted"
   ],
   "note": "Heap of dictionaries with aliasing; deep-copy mode is not modelled. Witnesses: same_keys does not reach nested dictionaries or an empty first dictionary, an atomic dictionary nested in the first is merged into, one argument alone raises IndexError."
  },
  {
   "property": "C54",
   "status": "proved",
   "theorems": [
    "C54_read_only",
    "C54_frozen_keys",
    "C54_attributes_are_items",
    "C54_attributes_from_creation",
    "C54_reset",
    "C54_inherited_refuted",
    "C54_nested_refuted",
    "C54_frozen_reset_refuted",
    "C54_reset_not_nested_refuted"
   ],
   "note": "Calls from any heap. Reset assumes nested copies of plain dictionaries. Witnesses: setdefault and |= are not denied, nested plain dictionaries of a read-only config change, reset ignores frozen keys, reset without nested copies does not restore deep changes."
  },
  {
   "property": "C55",
   "status": "proved",
   "theorems": [
    "C55_caching_transparent",
    "C55_cached_results_are_computed",
    "C55_property_computed_once",
    "C55_method_computed_once",
    "C55_method_results_bounded",
    "C55_best_condition_decides",
    "C55_threads_transparent",
    "C55_threads_compute_once",
    "C55_threads_exclusive",
    "C55_threads_no_deadlock",
    "C55_equal_keys_refuted",
    "C55_overridden_property_refuted",
    "C55_overridden_method_refuted",
    "C55_method_condition_refuted",
    "C55_threads_deadlock_refuted",
    "C55_clear_race_refuted"
   ],
   "note": "Values by a refinement from the run without caches (valid for every fuel), schedules by an invariant over all interleavings. Witnesses show where it does not hold: equal keys of different type (1 and True), a property or method overridden under the same name and read through super, a condition naming a cached method (TypeError on every cached property), two threads that block each other when properties cross between instances, and two threads clearing at once."
  },
  {
   "property": "C56",
   "status": "proved",
   "theorems": [
    "C56_execute_order_agrees",
    "C56_process_order_agrees",
    "C56_process_order_agrees_f64",
    "C56_tolerant_arithmetic_agrees_f64",
    "C56_zero_percent_refuted",
    "C56_division_refuted",
    "C56_granularity_f64_refuted",
    "C56_order_value_agrees",
    "C56_order_value_refuted",
    "C56_simulation_agrees",
    "C56_simulation_agrees_f64",
    "C56_empty_group_refuted"
   ],
   "note": "RustOrder.v and RustSim.v model the order core and the from-orders simulators of rust/src/portfolio.rs; agreement proved with the Numba model over exact numbers and, through laws shared by both number types, bit by bit over IEEE doubles. The exclusions are needed: witnesses show that a zero percentage, fees of -100%, a size granularity on doubles and an asset value that is not a number make the engines differ, and so does an empty group. Random numbers are the same stream in both models; the generators of the engines differ."
  },
  {
   "property": "C57",
   "status": "proved",
   "theorems": [
    "C57_streaks"
   ],
   "note": "Exact numbers including NaN and infinities."
  },
  {
   "property": "C58",
   "status": "proved",
   "theorems": [
    "C58_reduce",
    "C58_reduce_to_index",
    "C58_apply",
    "C58_value_counts"
   ],
   "note": "Any reducer, mapper and column array with columns in range."
  },
  {
   "property": "C59",
   "status": "proved",
   "theorems": [
    "C59_directional_arrays",
    "C59_long_short_arrays",
    "C59_direction_translates"
   ],
   "note": "Equality of whole simulations, any number type. Callback entry point and array entry point share the model of the loop; their code is duplicated in the source."
  },
  {
   "property": "C60",
   "status": "proved",
   "theorems": [
    "C60_rolling_is_window",
    "C60_rolling_accepts",
    "C60_rolling_causal",
    "C60_benchmark_aligned"
   ],
   "note": "Any number type and any applied function; the benchmark alignment is stated for beta."
  },
  {
   "property": "C61",
   "status": "proved",
   "theorems": [
    "C61_value_at_risk",
    "C61_conditional_value_at_risk",
    "C61_conditional_not_above",
    "C61_missing_returns_refuted"
   ],
   "note": "Exact arithmetic; np.percentile and np.partition are modelled from their documentation. Witness for missing returns."
  },
  {
   "property": "C62",
   "status": "proved",
   "theorems": [
    "C62_beta",
    "C62_beta_of_levered_benchmark"
   ],
   "note": "Exact arithmetic."
  },
  {
   "property": "C63",
   "status": "proved",
   "theorems": [
    "C63_missing_returns_ignored",
    "C63_annualized_return_refuted"
   ],
   "note": "Exact arithmetic with arbitrary power, square root and truncation functions."
  },
  {
   "property": "C64",
   "status": "proved",
   "theorems": [
    "C64_binary",
    "C64_continuous",
    "C64_saturated",
    "C64_percentage"
   ],
   "note": "Exact arithmetic."
  },
  {
   "property": "C65",
   "status": "proved",
   "theorems": [
    "C65_future_extremes",
    "C65_future_mean",
    "C65_future_std",
    "C65_fixed_labels",
    "C65_mean_labels",
    "C65_symmetric_thresholds"
   ],
   "note": "Extremes for any number type with lawful comparisons; mean and deviation in exact arithmetic. The exponentially weighted variants are modelled for the mean (no theorem) and not for the deviation."
  },
  {
   "property": "C66",
   "status": "proved",
   "theorems": [
    "C66_ewm_std_adjusted",
    "C66_ewm_std_nonneg",
    "C66_ddof_has_no_effect"
   ],
   "note": "Exact arithmetic. The square root is a parameter. For adjust=False non-negativity only."
  },
  {
   "property": "C67",
   "status": "proved",
   "theorems": [
    "C67_enabling",
    "C67_disabling",
    "C67_modifying",
    "C67_keeping",
    "C67_groups_follow_labels",
    "C67_group_count_refuted"
   ],
   "note": "Complete labels. Witness: is_group_count_changed compares lengths of label lists."
  },
  {
   "property": "C68",
   "status": "proved",
   "theorems": [
    "C68_aligned_positions_agree",
    "C68_equal_indexes_unchanged",
    "C68_ambiguous_indexes_refused",
    "C68_missing_tuple_refuted",
    "C68_names_ignored_refuted"
   ],
   "note": "Sortedness and lookups as documented by pandas. Witnesses: a missing combination of labels, levels that traded names."
  },
  {
   "property": "C69",
   "status": "proved",
   "theorems": [
    "C69_position_record",
    "C69_revalued",
    "C69_closed_record_is_kept",
    "C69_snapped_fill_refuted"
   ],
   "note": "Positions move by exactly the filled size (no snapping to zero by the tolerance); profit is exact up to the tolerance of the difference. Witness: a fill that leaves the position at zero."
  },
  {
   "property": "C70",
   "status": "proved",
   "theorems": [
    "C70_no_look_ahead",
    "C70_failures",
    "C70_column_wise_refuted"
   ],
   "note": "Callbacks are arbitrary functions of context and memory that may raise. Witness for column-wise simulation."
  },
  {
   "property": "C71",
   "status": "proved",
   "theorems": [
    "C71_calls_by_column",
    "C71_calls_by_row"
   ],
   "note": "Calls are observed by wrapping the callbacks so that they append to their memory."
  },
  {
   "property": "C72",
   "status": "proved",
   "theorems": [
    "C72_seen_by_column",
    "C72_seen_by_row"
   ],
   "note": "The previous value refers to calls after segments, so it is stated for simulations that call these for all segments (call_post_segment)."
  },
  {
   "property": "C73",
   "status": "proved",
   "theorems": [
    "C73_account_by_column",
    "C73_account_by_row"
   ],
   "note": "Exact rationals. Fee rates of -100% and below and infinite prices are outside (C02)."
  },
  {
   "property": "C74",
   "status": "proved",
   "theorems": [
    "C74_flexible_by_column",
    "C74_flexible_by_row"
   ],
   "note": "The number of orders allowed per segment must be at least the number of columns of every group."
  },
  {
   "property": "C75",
   "status": "proved",
   "theorems": [
    "C75_arrays_as_callbacks",
    "C75_missing_valuation_price_refuted"
   ],
   "note": "With automatic call sequence the given one must be the default, as both functions document."
  },
  {
   "property": "C76",
   "status": "proved",
   "theorems": [
    "C76_random_pairs",
    "C76_no_room",
    "C76_both_waits_one",
    "C76_random_entries",
    "C76_no_room_waits_one_refuted",
    "C76_none_refuted"
   ],
   "note": "Random floats are exact rationals. A number of 0 with other waiting times accesses an array out of bounds (witness)."
  },
  {
   "property": "C77",
   "status": "proved",
   "theorems": [
    "C77_stops_one_after_another",
    "C77_ohlc_stops_one_after_another",
    "C77_same_exits_refuted"
   ],
   "note": "Stop prices and types written by the stop functions are covered by C35, not here."
  },
  {
   "property": "C78",
   "status": "proved",
   "theorems": [
    "C78_signals_agree",
    "C78_signals_agree_f64",
    "C78_error_class_refuted",
    "C78_zero_price_refuted"
   ],
   "note": ""
  },
  {
   "property": "C79",
   "status": "proved",
   "theorems": [
    "C79_values",
    "C79_shared_labels",
    "C79_stacked_labels",
    "C79_strict_labels",
    "C79_accepts",
    "C79_rebroadcast",
    "C79_alignment",
    "C79_empty_refuted",
    "C79_alignment_refuted"
   ],
   "note": "C79_empty_refuted and C79_alignment_refuted show the two corners."
  },
  {
   "property": "C80",
   "status": "proved",
   "theorems": [
    "C80_exit_trades_agree",
    "C80_exit_trades_agree_f64",
    "C80_entry_trades_agree",
    "C80_entry_trades_agree_f64",
    "C80_positions_agree",
    "C80_positions_agree_f64",
    "C80_trades_kept_together",
    "C80_trades_kept_together_f64",
    "C80_streaks_agree",
    "C80_streaks_agree_f64",
    "C80_words_refuted",
    "C80_mixed_columns_refuted"
   ],
   "note": "C80_words_refuted and C80_mixed_columns_refuted are the witnesses."
  },
  {
   "property": "C81",
   "status": "proved",
   "theorems": [
    "C81_value_while_simulating",
    "C81_changed_order_refuted",
    "C81_returns_while_simulating",
    "C81_returns_compound",
    "C81_asset_return",
    "C81_asset_return_is_that_of_the_price",
    "C81_benchmark_follows_the_price",
    "C81_benchmark_return",
    "C81_benchmark_of_a_group",
    "C81_benchmark_needs_the_first_price",
    "C81_exposure",
    "C81_cash_of_a_group",
    "C81_cash_of_a_column",
    "C81_automatic_cash",
    "C81_automatic_cash_aligned",
    "C81_cash_is_the_balance",
    "C81_total_return",
    "C81_profit_of_a_group"
   ],
   "note": "C81_changed_order_refuted is the witness for changing call orders."
  },
  {
   "property": "C82",
   "status": "proved",
   "theorems": [
    "C82_asset_flow_agrees",
    "C82_asset_flow_agrees_f64",
    "C82_cash_flow_agrees",
    "C82_cash_flow_agrees_f64",
    "C82_balances_agree",
    "C82_balances_agree_f64",
    "C82_initial_cash_agrees",
    "C82_initial_cash_agrees_f64",
    "C82_values_in_simulation_order_agree",
    "C82_values_in_simulation_order_agree_f64",
    "C82_total_profit_agrees",
    "C82_total_profit_agrees_f64",
    "C82_ratios_agree",
    "C82_ratios_agree_f64",
    "C82_benchmark_agrees",
    "C82_benchmark_rounding_refuted",
    "C82_unknown_cash_refuted",
    "C82_groups_not_checked_refuted"
   ],
   "note": "C82_benchmark_rounding_refuted, C82_unknown_cash_refuted and C82_groups_not_checked_refuted are witnesses of the exceptions."
  },
  {
   "property": "C83",
   "status": "proved",
   "theorems": [
    "C83_numba_means_numba",
    "C83_rust_means_rust",
    "C83_auto",
    "C83_setting_and_names",
    "C83_random",
    "C83_support_of_arguments",
    "C83_support_of_numbers",
    "C83_values_kept",
    "C83_written_arrays_exact",
    "C83_choice_cannot_be_seen",
    "C83_availability",
    "C83_single_precision_refuted"
   ],
   "note": "C83_single_precision_refuted is the witness of the exception."
  },
  {
   "property": "C84",
   "status": "proved",
   "theorems": [
    "C84_volatility",
    "C84_sharpe",
    "C84_downside_risk",
    "C84_sortino",
    "C84_omega",
    "C84_information",
    "C84_alpha",
    "C84_annualized_and_calmar",
    "C84_capture",
    "C84_up_and_down_capture",
    "C84_tail"
   ],
   "note": "Exact rationals; square root and power are parameters. C84_alpha takes beta as given (C62) and Calmar the maximum drawdown (C44)."
  },
  {
   "property": "C85",
   "status": "proved",
   "theorems": [
    "C85_columns",
    "C85_product",
    "C85_broadcast",
    "C85_unique_not_visible",
    "C85_raw_results_reused",
    "C85_per_column",
    "C85_select_one",
    "C85_select_many",
    "C85_select_nothing",
    "C85_combinations",
    "C85_combinations_unique_not_visible",
    "C85_loops_agree",
    "C85_number_of_outputs",
    "C85_raw_per_column_refuted",
    "C85_some_in_outputs_refuted",
    "C85_all_hidden_refuted",
    "C85_select_hidden_refuted"
   ],
   "note": "Refuted corners with witnesses: raw results reused with one combination per column take another column's output for a repeated combination; in-place outputs given only partly are dropped; hiding every level of several combinations fails; selecting by a hidden parameter fails although such columns exist."
  },
  {
   "property": "C86",
   "status": "proved",
   "theorems": [
    "C86_long_assets",
    "C86_short_assets",
    "C86_free_cash",
    "C86_free_cash_computed",
    "C86_cash_in_calling_order",
    "C86_calling_order_forgotten",
    "C86_fee_of_small_order_refuted"
   ],
   "note": "Tolerances are counted: each addition may snap to zero within 1e-9 of its operands. C86_fee_of_small_order_refuted is a witness for the excluded corner."
  },
  {
   "property": "C87",
   "status": "proved",
   "theorems": [
    "C87_symbols_share_rows_and_columns",
    "C87_nothing_refused_without_need",
    "C87_download",
    "C87_keyword_arguments",
    "C87_values_under_another_name_refuted"
   ],
   "note": "C87_values_under_another_name_refuted is a witness for the exception."
  },
  {
   "property": "C88",
   "status": "proved",
   "theorems": [
    "C88_update",
    "C88_no_value_lost",
    "C88_known_values_overwritten_refuted"
   ],
   "note": "C88_known_values_overwritten_refuted is a witness for the exception. A Series must be updated by an object that has its column."
  },
  {
   "property": "C89",
   "status": "proved",
   "theorems": [
    "C89_one_frame_per_column",
    "C89_get_a_column",
    "C89_get_the_only_column"
   ],
   "note": "Lists of columns are not modelled."
  },
  {
   "property": "C90",
   "status": "proved",
   "theorems": [
    "C90_rolling_apply",
    "C90_refused_only_by_the_function",
    "C90_no_look_ahead",
    "C90_expanding_apply",
    "C90_on_all_columns",
    "C90_on_all_columns_missing_refuted"
   ],
   "note": "C90_on_all_columns_missing_refuted shows that rolling_matrix_apply_nb, which resets its count of missing values at every row, calls the function on windows with too few values."
  },
  {
   "property": "C91",
   "status": "proved",
   "theorems": [
    "C91_reduce_columns",
    "C91_reduce_groups",
    "C91_reduce_groups_to_arrays",
    "C91_positions_name_rows",
    "C91_idxmin_idxmax_of_groups",
    "C91_idxmin_idxmax_of_columns",
    "C91_doubles",
    "C91_only_infinite_values_refuted",
    "C91_group_without_numbers_refuted",
    "C91_reducers"
   ],
   "note": "C91_only_infinite_values_refuted: with [NaN, inf] idxmin gives the row of the NaN. C91_group_without_numbers_refuted: NaN for a column, ValueError for the same column as a group."
  },
  {
   "property": "C92",
   "status": "proved",
   "theorems": [
    "C92_squeeze",
    "C92_flatten",
    "C92_value_counts"
   ],
   "note": ""
  },
  {
   "property": "C93",
   "status": "proved",
   "theorems": [
    "C93_applymap",
    "C93_filter",
    "C93_groups_of_rows",
    "C93_columns_and_rows"
   ],
   "note": ""
  },
  {
   "property": "C94",
   "status": "proved",
   "theorems": [
    "C94_keeps_cells_and_labels",
    "C94_accepts_exactly",
    "C94_columns_only",
    "C94_columns_only_accepts",
    "C94_columns_keep_groups",
    "C94_groups",
    "C94_groups_and_rows",
    "C94_ranges",
    "C94_empty_range_refuted",
    "C94_three_groups_refuted"
   ],
   "note": "Pandas operations are functions from labels to the positions picked and the new labels. Refuted and kept with witnesses: selecting three or more groups keeps their grouping (C94_three_groups_refuted; wrong for every such selection, last conjunct of C94_groups and C94_groups_and_rows) and get_ranges_arr with an empty range (C94_empty_range_refuted)."
  },
  {
   "property": "C95",
   "status": "proved",
   "theorems": [
    "C95_construct",
    "C95_select",
    "C95_sort",
    "C95_mask",
    "C95_top_n",
    "C95_bottom_n",
    "C95_reduce",
    "C95_reduce_to_label",
    "C95_count",
    "C95_top_n_group_by_refuted"
   ],
   "note": "Refuted and kept with a witness: top_n(n, group_by=...) of an ungrouped array keeps the n best values of every group (C95_top_n_group_by_refuted: the mask is computed without the grouping passed). Reducers with the grouping of the array; passing group_by to reduce is not covered."
  },
  {
   "property": "C96",
   "status": "proved",
   "theorems": [
    "C96_to_pandas",
    "C96_to_mapped",
    "C96_round_trip"
   ],
   "note": "dropna replaces any NaN by the NaN used for filling. ignore_index is C42."
  },
  {
   "property": "C97",
   "status": "proved",
   "theorems": [
    "C97_fill",
    "C97_fill_columns",
    "C97_shift",
    "C97_shift_columns",
    "C97_rolling",
    "C97_expanding",
    "C97_ewm_mean",
    "C97_spans_exact",
    "C97_columns",
    "C97_records",
    "C97_argmin_argmax",
    "C97_argmin_infinite_refuted"
   ],
   "note": "Rows of several columns after filling agree up to the kind of NaN. The exponential mean needs the span to be exact as a number (shown for rationals and for spans below 2^53 in doubles). Refuted and kept with a witness: argmin of NaN and infinity is the NaN in Numba, the infinity in Rust (C97_argmin_infinite_refuted)."
  },
  {
   "property": "C98",
   "status": "proved",
   "theorems": [
    "C98_rolling_mean",
    "C98_expanding_mean",
    "C98_expanding_std",
    "C98_agreement",
    "C98_expanding_period_refuted",
    "C98_empty_window_refuted",
    "C98_rolling_mean_rounding_refuted",
    "C98_expanding_std_cancellation_refuted"
   ],
   "note": "Exact rationals. Refuted for doubles and kept with witnesses: the rolling mean rounds differently (C98_rolling_mean_rounding_refuted), the expanding variance of 2^30, 2^30+1, 2^30+2 is 0 in Rust and 1 in Numba (C98_expanding_std_cancellation_refuted). Also refuted: a period longer than the series is refused by Numba only (C98_expanding_period_refuted); an empty window with period 0 divides by zero in Numba only (C98_empty_window_refuted)."
  },
  {
   "property": "C99",
   "status": "proved",
   "theorems": [
    "C99_sum",
    "C99_product",
    "C99_cumulative",
    "C99_mean_std",
    "C99_median",
    "C99_describe",
    "C99_describe_none",
    "C99_describe_refuses"
   ],
   "note": "Exact rationals. Square root and truncation are parameters, of which only that they compute a function of the number is assumed."
  },
  {
   "property": "C100",
   "status": "proved",
   "theorems": [
    "C100_sums",
    "C100_rows",
    "C100_extremes",
    "C100_median",
    "C100_std",
    "C100_std_rows",
    "C100_describe",
    "C100_std_layout_refuted",
    "C100_empty_refuted",
    "C100_percentile_range_refuted"
   ],
   "note": "Refuted and kept with witnesses: in doubles the variance of one and the same column depends on the memory layout of its array, 1 column by column and 0 row by row for 2^30, 2^30+1, 2^30+2 (C100_std_layout_refuted); an empty column is refused by Numba only (C100_empty_refuted); percentiles outside [0, 1] are refused by Numba, while Rust clamps negative ones and panics above 1 (C100_percentile_range_refuted)."
  },
  {
   "property": "C101",
   "status": "proved",
   "theorems": [
    "C101_col_range",
    "C101_select_by_range",
    "C101_col_map",
    "C101_one_column",
    "C101_select_by_map",
    "C101_strided_refuted",
    "C101_sorted",
    "C101_expand",
    "C101_stack_and_count",
    "C101_rank"
   ],
   "note": "C101_strided_refuted is the witness that the restriction to contiguous record arrays is needed."
  },
  {
   "property": "C102",
   "status": "proved",
   "theorems": [
    "C102_local_extrema",
    "C102_trends",
    "C102_between_extrema",
    "C102_infinities",
    "C102_zero_price_refuted",
    "C102_breakouts",
    "C102_fixed",
    "C102_future_extremes",
    "C102_future_mean",
    "C102_future_std",
    "C102_future_variance_float_refuted",
    "C102_strided",
    "C102_ewm"
   ],
   "note": "C102_zero_price_refuted and C102_future_variance_float_refuted are the witnesses of the two exceptions."
  },
  {
   "property": "C103",
   "status": "proved",
   "theorems": [
    "C103_returns",
    "C103_downside",
    "C103_benchmark",
    "C103_cond_value_at_risk",
    "C103_c_order",
    "C103_arithmetics",
    "C103_deviations",
    "C103_drawdowns",
    "C103_quantiles",
    "C103_rolling",
    "C103_rolling_statistics",
    "C103_no_columns_refuted",
    "C103_minp_refuted",
    "C103_cutoff_refuted",
    "C103_empty_refuted",
    "C103_levy_refuted"
   ],
   "note": "C103_no_columns_refuted, C103_minp_refuted, C103_cutoff_refuted, C103_empty_refuted and C103_levy_refuted are the witnesses of the exceptions."
  },
  {
   "property": "C104",
   "status": "proved",
   "theorems": [
    "C104_exponential",
    "C104_averages",
    "C104_rows",
    "C104_true_range",
    "C104_on_balance_volume",
    "C104_cached",
    "C104_exact",
    "C104_bands_exact",
    "C104_macd_exact",
    "C104_stochastic_exact",
    "C104_stochastic",
    "C104_macd",
    "C104_lengths",
    "C104_zero_window_refuted",
    "C104_rounding_refuted"
   ],
   "note": "C104_zero_window_refuted and C104_rounding_refuted are the witnesses of the exceptions."
  },
  {
   "property": "C105",
   "status": "proved",
   "theorems": [
    "C105_clean",
    "C105_between_ranges",
    "C105_between_two_ranges",
    "C105_partition_ranges",
    "C105_between_partition_ranges",
    "C105_signal_rank",
    "C105_partition_rank",
    "C105_nth_index",
    "C105_average_index",
    "C105_average_value"
   ],
   "note": "The normalised average is compared in exact arithmetic; the sum of positions is an integer below 2^53 for any array that fits in memory, so floating point does the same steps, but that is not proved."
  },
  {
   "property": "C106",
   "status": "proved",
   "theorems": [
    "C106_stop_choice",
    "C106_stop_exits",
    "C106_stop_entries_exits",
    "C106_ohlc_choice",
    "C106_ohlc_exits",
    "C106_ohlc_entries_exits"
   ],
   "note": "The stop prices and types are compared for one scan, not for the arrays the OHLC generators fill over several scans."
  },
  {
   "property": "C107",
   "status": "proved",
   "theorems": [
    "C107_rand",
    "C107_rand_by_prob",
    "C107_rand_exits",
    "C107_rand_exits_by_prob",
    "C107_rand_entries_exits_by_prob"
   ],
   "note": "That the draws of the two random generators have the same distribution is not modelled; random entries and exits by number are C108."
  },
  {
   "property": "C108",
   "status": "proved",
   "theorems": [
    "C108_same",
    "C108_same_inputs",
    "C108_no_room",
    "C108_zero_refuted"
   ],
   "note": "Exact numbers instead of floating point for the uniform numbers. C108_zero_refuted is the witness that zero pairs differ."
  }
 ]
}