{"id": "C01", "title": "Cash never goes negative", "statement": "Starting from a cash balance that is not negative and not NaN, executing any sequence of orders leaves the cash balance non-negative after every order: an order that would need more cash is cut down, rejected or raises, but never overdraws the account.", "quantifier": "every account state with non-negative cash, every order (any size, size type, direction, price, fees above -100%, fixed fees, slippage, limits, granularity, lock_cash, partial-fill flag), and every finite sequence of orders", "why_tests_cant": "the balance depends on the interplay of limits, tolerances and granularity over an unbounded order history; tests sample a handful of states", "anchors": ["vectorbt/portfolio/nb.py:buy_nb", "vectorbt/portfolio/nb.py:sell_nb", "vectorbt/portfolio/nb.py:execute_order_nb", "vectorbt/utils/math_.py:add_nb"]}
{"id": "C02", "title": "Direction limits are respected", "statement": "With direction long-only no order ever makes the position negative, and with direction short-only no order ever makes the position positive.", "quantifier": "every account state and every order with that direction, and every sequence of such orders", "why_tests_cant": "sizes, percentages, caps, granularity and rounding tolerances combine in infinitely many ways", "anchors": ["vectorbt/portfolio/nb.py:buy_nb", "vectorbt/portfolio/nb.py:sell_nb", "vectorbt/portfolio/nb.py:execute_order_nb", "vectorbt/portfolio/enums.py:Direction"]}
{"id": "C03", "title": "Unfilled orders have no effect", "statement": "An order that is ignored or rejected changes neither cash, position, debt nor free cash (beyond snapping values within 1e-12 of zero to zero), changes neither valuation price nor value, and creates no order record; a filled order creates exactly one order record carrying its own size, price, fees and side.", "quantifier": "every state, every order, every status outcome", "why_tests_cant": "there are more than twenty distinct exit paths, each reachable with unboundedly many inputs", "anchors": ["vectorbt/portfolio/nb.py:execute_order_nb", "vectorbt/portfolio/nb.py:process_order_nb", "vectorbt/portfolio/nb.py:order_not_filled_nb"]}
{"id": "C04", "title": "Fills are accounted for exactly", "statement": "When an order fills, the fill price is the order price moved by slippage against the trader (up when buying, down when selling); fees are fill value times the fee rate plus fixed fees; cash falls by value plus fees when buying and rises by value minus fees when selling; position moves by exactly the filled size. Deviations are limited to the documented zero-snapping tolerance.", "quantifier": "every state and every order that fills", "why_tests_cant": "the identity must hold for every branch that computes the size (full, cash-limited, granular, percent) and all real values", "anchors": ["vectorbt/portfolio/nb.py:buy_nb", "vectorbt/portfolio/nb.py:sell_nb"]}
{"id": "C05", "title": "Filled sizes obey the order's limits", "statement": "A filled order's size is positive, never above the requested size nor max_size, not below min_size (up to tolerance), a whole multiple of size_granularity when that is set, and equal to the requested size when allow_partial is off (up to tolerance).", "quantifier": "every state and every order that fills", "why_tests_cant": "limits interact; an unlucky combination (cash-limited and granular) is a single point in a continuous space", "anchors": ["vectorbt/portfolio/nb.py:buy_nb", "vectorbt/portfolio/nb.py:sell_nb", "vectorbt/portfolio/enums.py:Order"]}
{"id": "C06", "title": "A size of zero or NaN skips the bar", "statement": "An order whose size is NaN, or zero, is never filled, whatever its size type and direction (the Order documentation: 'Set to np.nan or 0 to skip').", "quantifier": "every state, size type (amount, value, percent), direction and flag combination", "why_tests_cant": "each size type and direction takes a different path; the claim is universal over all of them", "anchors": ["vectorbt/portfolio/nb.py:execute_order_nb", "vectorbt/portfolio/enums.py:Order"]}
{"id": "C07", "title": "Debt and free cash stay consistent", "statement": "Debt is never negative, is zero whenever no short position is open, and for an account trading one asset free cash equals cash minus twice the debt after every order, up to the zero-snapping tolerance.", "quantifier": "every order sequence from an account with no position", "why_tests_cant": "an invariant over unbounded order histories", "anchors": ["vectorbt/portfolio/nb.py:buy_nb", "vectorbt/portfolio/nb.py:sell_nb", "vectorbt/portfolio/nb.py:execute_order_nb"]}
{"id": "C08", "title": "Locking cash keeps free cash non-negative", "statement": "With lock_cash enabled, an order executed from non-negative free cash never makes free cash negative (the Order documentation: 'prevents free_cash from turning negative when buying or short selling').", "quantifier": "every state with consistent debt and free cash, and every order with lock_cash", "why_tests_cant": "requires solving for the largest affordable size in every branch; tests check selected prices", "anchors": ["vectorbt/portfolio/nb.py:buy_nb", "vectorbt/portfolio/nb.py:sell_nb", "vectorbt/portfolio/enums.py:Order"]}
{"id": "C09", "title": "Target orders reach their target", "statement": "A completely filled target-amount order leaves the position at the target; a target-value order leaves the position at target value divided by valuation price; a target-percent order at that fraction of the group value divided by valuation price.", "quantifier": "every state and every target order which is filled in full", "why_tests_cant": "holds over a continuum of values, prices and positions of either sign", "anchors": ["vectorbt/portfolio/nb.py:execute_order_nb"]}
{"id": "C10", "title": "Group value after a fill", "statement": "After a filled order with value updating on, the new valuation price is the fill price and the new group value equals the old value plus the cash flow plus the change in asset value of that column; without updating, both are unchanged.", "quantifier": "every state and order", "why_tests_cant": "arithmetic identity over all reals including zero positions with NaN valuation prices", "anchors": ["vectorbt/portfolio/nb.py:update_value_nb", "vectorbt/portfolio/nb.py:process_order_nb"]}
{"id": "C11", "title": "Order and log record bookkeeping", "statement": "Order ids are consecutive from zero in the order of filling; a log record is written exactly for orders with log enabled, its order id pointing to the order record or -1 when unfilled; when the record buffers are full an error is raised and no record is lost or overwritten.", "quantifier": "every sequence of orders and every buffer capacity", "why_tests_cant": "needs an induction over the sequence and over the capacity", "anchors": ["vectorbt/portfolio/nb.py:process_order_nb", "vectorbt/portfolio/nb.py:fill_order_record_nb", "vectorbt/portfolio/nb.py:fill_log_record_nb"]}
{"id": "C12", "title": "Portfolio.from_orders does not look ahead", "statement": "Orders simulated at bar t depend only on inputs at bars up to and including t: two runs whose order sizes, prices and other per-bar inputs agree on the first k bars produce the same order and log records for those bars. Data after a bar can never change what happened in it. (Random rejection draws from one generator shared by all groups, so it is included only for a single group.)", "quantifier": "every pair of input matrices agreeing on a prefix, every prefix length, every grouping and call sequence", "why_tests_cant": "a relational property over pairs of inputs of unbounded size", "anchors": ["vectorbt/portfolio/nb.py:simulate_from_orders_nb"]}
{"id": "C13", "title": "Groups are simulated independently", "statement": "Simulating several groups of columns together yields for each group the same records, cash and position as simulating this group alone, unless orders are rejected at random (the groups share one generator).", "quantifier": "every number of groups, group sizes and inputs", "why_tests_cant": "relational property over unbounded shapes", "anchors": ["vectorbt/portfolio/nb.py:simulate_from_orders_nb"]}
{"id": "C14", "title": "Order records are chronological", "statement": "Within each column order records appear in non-decreasing bar order, within range, and with at most one order per bar for from_orders and from_signals.", "quantifier": "every input matrix of any shape", "why_tests_cant": "induction over the simulation loop", "anchors": ["vectorbt/portfolio/nb.py:simulate_from_orders_nb", "vectorbt/portfolio/nb.py:simulate_from_signals_nb"]}
{"id": "C15", "title": "Replaying order records reproduces the account", "statement": "Rebuilding the position from the order records (Portfolio.assets) gives the simulated position, and rebuilding cash from initial cash and order records (Portfolio.cash) gives the simulated cash at every bar, up to the zero-snapping tolerance.", "quantifier": "every order history", "why_tests_cant": "two independent implementations must agree for every history", "anchors": ["vectorbt/portfolio/nb.py:asset_flow_nb", "vectorbt/portfolio/nb.py:assets_nb", "vectorbt/portfolio/nb.py:cash_flow_nb", "vectorbt/portfolio/nb.py:cash_nb"]}
{"id": "C16", "title": "Automatic call sequence sorts by order value", "statement": "With call_seq='auto' the columns of a group are executed in ascending order of their approximate order value, every column exactly once.", "quantifier": "every group size and every vector of order values, including ties and NaN", "why_tests_cant": "sorting correctness for all lengths", "anchors": ["vectorbt/portfolio/nb.py:sort_call_seq_out_nb", "vectorbt/utils/array_.py:insert_argsort_nb", "vectorbt/portfolio/nb.py:approx_order_value_nb"]}
{"id": "C17", "title": "Built call sequences are permutations", "statement": "Every row of a built call sequence (default, reversed, random) is a permutation of the columns of each non-empty group, default being ascending and reversed being its mirror image.", "quantifier": "every shape, grouping and every outcome of the random generator", "why_tests_cant": "unbounded shapes and all random outcomes", "anchors": ["vectorbt/portfolio/nb.py:build_call_seq_nb", "vectorbt/portfolio/nb.py:build_call_seq", "vectorbt/portfolio/nb.py:shuffle_call_seq_nb"]}
{"id": "C18", "title": "Signal conflicts resolve as documented", "statement": "For every combination of simultaneous entry/exit and long/short signals, current position, conflict, direction-conflict, opposite-entry and accumulation mode, the column places exactly the order the documentation prescribes (nothing, open, add, reduce, close or reverse, with its size, size type and direction), at most one per bar. Target size types and negative sizes are refused. (More than one signal may survive the resolution; only one acts.)", "quantifier": "all signal combinations, modes and positions", "why_tests_cant": "position is a real number; the decision table has thousands of rows", "anchors": ["vectorbt/portfolio/nb.py:resolve_signal_conflict_nb", "vectorbt/portfolio/nb.py:resolve_dir_conflict_nb", "vectorbt/portfolio/nb.py:resolve_opposite_entry_nb", "vectorbt/portfolio/nb.py:signals_to_size_nb"]}
{"id": "C19", "title": "Portfolio.from_signals does not look ahead", "statement": "Runs of from_signals whose signals and prices agree on the first k bars produce the same order records for those bars, including stop-loss, trailing-stop and take-profit processing and user callbacks for signals and stop adjustment (with random rejection: for a single group, since groups share one generator).", "quantifier": "every pair of inputs agreeing on a prefix", "why_tests_cant": "relational property over unbounded inputs", "anchors": ["vectorbt/portfolio/nb.py:simulate_from_signals_nb"]}
{"id": "C20", "title": "Stop orders trigger exactly when hit", "statement": "In a bar with open, high and low in order, a stop-loss or take-profit exit is placed exactly when the bar's range reaches the stop price, the stop-loss first; it is the documented exit (close or reverse) at the documented price, which for limit and market stops is the open when the bar gaps through the stop and the stop price otherwise, and it overrides the user's signals. While a position is held, the reference price of a trailing stop is the highest high (lowest low) seen since it was set, so the level never moves against the position.", "quantifier": "every bar, stop value and position side", "why_tests_cant": "continuum of prices; trailing is an invariant over bar histories", "anchors": ["vectorbt/portfolio/nb.py:get_stop_price_nb", "vectorbt/portfolio/nb.py:generate_stop_signal_nb", "vectorbt/portfolio/nb.py:resolve_stop_price_and_slippage_nb", "vectorbt/portfolio/nb.py:simulate_from_signals_nb"]}
{"id": "C21", "title": "Exit trades conserve size, fees and profit", "statement": "Trades built from order records account for every unit traded: per column the fees of exit trades add up to the fees of the orders, twice their sizes to the traded volume plus the open remainder, and their PnL to the total profit of the replayed account valued at the last close, up to the zero-snapping tolerance per order. The remainder, if any, is one open trade of that size and direction, provided no running position falls within the tolerance of zero without being zero.", "quantifier": "every order history", "why_tests_cant": "sum invariant over unbounded histories with reversals and partial exits", "anchors": ["vectorbt/portfolio/nb.py:get_exit_trades_nb", "vectorbt/portfolio/nb.py:get_trade_stats_nb", "vectorbt/portfolio/nb.py:fill_trade_record_nb"]}
{"id": "C22", "title": "Entry trades, exit trades and positions agree", "statement": "For the same orders the total fees, size and PnL of a column are the same, up to the zero-snapping tolerance per order, whether trades are split by entries, by exits or merged to positions. Position by position, size, entry value, exit value, fees, bars, direction and status agree exactly, provided no running position falls within the tolerance of zero without being zero.", "quantifier": "every order history", "why_tests_cant": "three implementations must agree on all histories", "anchors": ["vectorbt/portfolio/nb.py:get_entry_trades_nb", "vectorbt/portfolio/nb.py:get_exit_trades_nb", "vectorbt/portfolio/nb.py:get_positions_nb"]}
{"id": "C23", "title": "Trade records are well formed", "statement": "Every trade has entry bar not after exit bar and positive size; it begins at an order on the side of its direction and, if closed, ends at a later order on the other side, if open, at the last bar; trade ids are consecutive; position ids start at zero, never decrease and have no gaps; trades of one position share column and direction; per column at most the last exit trade is open.", "quantifier": "every order history", "why_tests_cant": "structural invariant over unbounded histories", "anchors": ["vectorbt/portfolio/nb.py:get_exit_trades_nb", "vectorbt/portfolio/nb.py:get_entry_trades_nb"]}
{"id": "C24", "title": "Total profit equals final value minus initial cash", "statement": "For every column with a known last close, the total profit computed from order records equals final portfolio value minus initial cash, up to the zero-snapping tolerance of the sums involved.", "quantifier": "every order history and close series", "why_tests_cant": "telescoping identity over unbounded histories", "anchors": ["vectorbt/portfolio/nb.py:total_profit_nb", "vectorbt/portfolio/nb.py:value_nb", "vectorbt/portfolio/nb.py:cash_nb", "vectorbt/portfolio/nb.py:asset_value_nb"]}
{"id": "C25", "title": "Forward and backward filling and shifting", "statement": "Forward fill replaces each NaN by the last valid value before it and keeps everything else; backward fill is its mirror image; shifting by n moves values by exactly n bars and fills with the given value; forward filling twice changes nothing more.", "quantifier": "every array and every shift", "why_tests_cant": "all lengths and NaN patterns", "anchors": ["vectorbt/generic/nb.py:ffill_nb", "vectorbt/generic/nb.py:bfill_nb", "vectorbt/generic/nb.py:fshift_nb", "vectorbt/generic/nb.py:bshift_nb"]}
{"id": "C26", "title": "Rolling minimum, maximum and mean equal their window definition", "statement": "The value at bar i is the minimum/maximum/mean of the non-NaN values among the last `window` bars (at least one bar) if at least `minp` of them are valid, otherwise NaN; it never depends on bars after i. For the mean the data must not contain infinities, which would poison later windows.", "quantifier": "every array, window and minp", "why_tests_cant": "the incremental implementation must agree with the definition for all lengths and NaN patterns", "anchors": ["vectorbt/generic/nb.py:rolling_min_1d_nb", "vectorbt/generic/nb.py:rolling_max_1d_nb", "vectorbt/generic/nb.py:rolling_mean_1d_nb"]}
{"id": "C27", "title": "Rolling standard deviation equals its window definition", "statement": "The incremental (add and remove) rolling variance equals the variance of the non-NaN values in the window for every ddof.", "quantifier": "every array, window, minp and ddof", "why_tests_cant": "numerically incremental algorithm; equality is an invariant over unbounded streams", "anchors": ["vectorbt/generic/nb.py:rolling_std_1d_nb"]}
{"id": "C28", "title": "Expanding and exponential statistics", "statement": "Expanding minimum/maximum/mean equal the statistic of all non-NaN values so far; exponential means follow the documented weighted average.", "quantifier": "every array, span and minp", "why_tests_cant": "recurrences over unbounded streams", "anchors": ["vectorbt/generic/nb.py:expanding_min_1d_nb", "vectorbt/generic/nb.py:expanding_max_1d_nb", "vectorbt/generic/nb.py:expanding_mean_1d_nb", "vectorbt/generic/nb.py:ewm_mean_1d_nb"]}
{"id": "C29", "title": "Ranges are the maximal runs of a mask", "statement": "The ranges found in a series are exactly its maximal runs of valid values, disjoint and in order, closed unless they reach the last bar.", "quantifier": "every series", "why_tests_cant": "all lengths and patterns", "anchors": ["vectorbt/generic/nb.py:find_ranges_nb", "vectorbt/generic/nb.py:ranges_to_mask_nb", "vectorbt/generic/nb.py:range_coverage_nb"]}
{"id": "C30", "title": "Drawdown records describe the drawdowns of the series", "statement": "Each drawdown starts at a running maximum, its valley is the lowest value until its end, it is recovered exactly when the series returns to the peak, consecutive drawdowns do not overlap, and a drawdown still running at the last bar is reported as active, provided the last bar holds a value. Every bar below an earlier value lies inside a reported drawdown.", "quantifier": "every price series", "why_tests_cant": "invariant over unbounded series with NaN gaps", "anchors": ["vectorbt/generic/nb.py:get_drawdowns_nb"]}
{"id": "C31", "title": "Crossovers", "statement": "A crossover is reported exactly at the bar, `wait` bars after the first series has moved above the second and stayed there, if it had been below the second before without a NaN in either series since; never in both directions at once.", "quantifier": "every pair of series, every wait", "why_tests_cant": "state machine over unbounded series with NaN and ties", "anchors": ["vectorbt/generic/nb.py:crossed_above_1d_nb"]}
{"id": "C32", "title": "Cleaned signals alternate", "statement": "After cleaning, entries and exits strictly alternate (starting with an entry when entry_first), never coincide, are subsets of the input, and cleaning again changes nothing.", "quantifier": "every pair of signal arrays", "why_tests_cant": "all lengths and patterns", "anchors": ["vectorbt/signals/nb.py:clean_enex_1d_nb", "vectorbt/signals/nb.py:clean_enex_nb"]}
{"id": "C33", "title": "Generated exits stay in their window", "statement": "Every generated exit lies at least `wait` bars after its entry, before the next entry when until_next is set, and inside the array; a choice function returning anything else raises.", "quantifier": "every entry array, choice function, wait and flags", "why_tests_cant": "quantifies over arbitrary user functions", "anchors": ["vectorbt/signals/nb.py:generate_ex_nb", "vectorbt/signals/nb.py:generate_nb"]}
{"id": "C34", "title": "Generated entry/exit pairs alternate", "statement": "Entries and exits generated one after another alternate in time respecting entry_wait and exit_wait, and generation always terminates, for waits that are not both 0 and choice functions that return ascending indices whenever all of them are used.", "quantifier": "every shape, wait setting and pair of choice functions", "why_tests_cant": "termination and ordering for arbitrary user functions", "anchors": ["vectorbt/signals/nb.py:generate_enex_nb"]}
{"id": "C35", "title": "Stop exit signals fire at the first hit", "statement": "A stop signal is placed at the first bar in range whose price reaches the (trailing) stop level computed from the entry bar, and nowhere if there is none; a trailing level is the extreme since entry times the stop factor.", "quantifier": "every price series, stop and range", "why_tests_cant": "running-extreme invariant over unbounded series", "anchors": ["vectorbt/signals/nb.py:stop_choice_nb", "vectorbt/signals/nb.py:ohlc_stop_choice_nb"]}
{"id": "C36", "title": "Signal ranking", "statement": "The rank of a signal is its 0-based position in its partition of consecutive signals (or the index of the partition), restarted by reset signals.", "quantifier": "every signal array and reset array", "why_tests_cant": "state machine over unbounded arrays", "anchors": ["vectorbt/signals/nb.py:rank_nb", "vectorbt/signals/nb.py:sig_pos_rank_nb", "vectorbt/signals/nb.py:part_pos_rank_nb"]}
{"id": "C37", "title": "N-th signal index", "statement": "nth_index(n) is the position of the n-th true value from the front (n>=0) or back (n<0), or -1 if there are fewer.", "quantifier": "every array and n", "why_tests_cant": "all lengths", "anchors": ["vectorbt/signals/nb.py:nth_index_1d_nb"]}
{"id": "C38", "title": "Ranges between signals", "statement": "Ranges between consecutive signals, from each signal to the next in another array, partitions and gaps between partitions each match their definition.", "quantifier": "every pair of signal arrays", "why_tests_cant": "two-pointer algorithms over unbounded arrays", "anchors": ["vectorbt/signals/nb.py:between_ranges_nb", "vectorbt/signals/nb.py:between_two_ranges_nb", "vectorbt/signals/nb.py:partition_ranges_nb", "vectorbt/signals/nb.py:between_partition_ranges_nb"]}
{"id": "C39", "title": "Column maps partition the records", "statement": "A column map lists every record index exactly once, grouped by column, in original order; the column range is the special case of sorted columns.", "quantifier": "every column array", "why_tests_cant": "counting-sort correctness for all lengths", "anchors": ["vectorbt/records/nb.py:col_map_nb", "vectorbt/records/nb.py:col_range_nb"]}
{"id": "C40", "title": "Selecting columns from records", "statement": "Selecting columns returns, for each requested column in request order, exactly that column's records in original order relabelled to the new column number; the range and the map implementation agree on sorted records.", "quantifier": "every record array and column selection, including repeated and empty columns", "why_tests_cant": "agreement of two implementations on all inputs", "anchors": ["vectorbt/records/nb.py:col_map_select_nb", "vectorbt/records/nb.py:col_range_select_nb", "vectorbt/records/nb.py:record_col_map_select_nb", "vectorbt/records/nb.py:record_col_range_select_nb"]}
{"id": "C41", "title": "Top and bottom N", "statement": "top_n keeps exactly min(n, count) values per column and none dropped is greater than one kept; bottom_n symmetrically.", "quantifier": "every mapped array including NaN and ties", "why_tests_cant": "selection correctness for all lengths", "anchors": ["vectorbt/records/nb.py:top_n_inout_map_nb", "vectorbt/records/nb.py:bottom_n_inout_map_nb"]}
{"id": "C42", "title": "Expanding mapped arrays", "statement": "Expanding a mapped array to a matrix puts each value at its bar and column and the fill value elsewhere whenever the array is expandable, i.e. no two values share a cell.", "quantifier": "every mapped array", "why_tests_cant": "all shapes", "anchors": ["vectorbt/records/nb.py:is_mapped_expandable_nb", "vectorbt/records/nb.py:expand_mapped_nb", "vectorbt/records/nb.py:stack_expand_mapped_nb"]}
{"id": "C43", "title": "Returns compound to the value series", "statement": "Compounding the per-bar returns of a positive value series starting from the initial value reproduces the series; total return equals final over initial minus one.", "quantifier": "every value series", "why_tests_cant": "product telescoping over unbounded series", "anchors": ["vectorbt/returns/nb.py:get_return_nb", "vectorbt/returns/nb.py:returns_1d_nb", "vectorbt/returns/nb.py:cum_returns_1d_nb", "vectorbt/returns/nb.py:cum_returns_final_1d_nb"]}
{"id": "C44", "title": "Maximum drawdown of returns", "statement": "For returns that never lose more than everything, the drawdown series lies between -1 and 0 and the maximum drawdown is the largest relative loss from the value after any bar to the value after a later bar. (A loss from the starting capital on the first bar is not part of it, and a total loss on the first bar gives no number: both are shown by witnesses.)", "quantifier": "every return series", "why_tests_cant": "universal over series", "anchors": ["vectorbt/returns/nb.py:drawdown_1d_nb", "vectorbt/returns/nb.py:max_drawdown_1d_nb"]}
{"id": "C45", "title": "Local extrema alternate", "statement": "Labels of local extrema alternate between peaks and troughs; adjacent extrema differ by at least the threshold of the earlier one and no bar between them reaches the later one. Nothing is missed: after the last extremum no bar goes beyond it or a threshold away from it. Zero thresholds are rejected.", "quantifier": "every price series (also with missing prices), exact or in doubles, and thresholds per bar", "why_tests_cant": "state machine over unbounded series", "anchors": ["vectorbt/labels/nb.py:local_extrema_apply_nb"]}
{"id": "C46", "title": "Breakout labels report the first hit", "statement": "The breakout label of a bar is 1 or -1 according to which threshold is hit first within the look-ahead window and 0 if none.", "quantifier": "every series, window, wait and thresholds", "why_tests_cant": "all series", "anchors": ["vectorbt/labels/nb.py:breakout_labels_nb"]}
{"id": "C47", "title": "Indicator bounds", "statement": "RSI and stochastic values are undefined or lie between 0 and 100 (stochastic: when the close lies between low and high), true range is non-negative and at least high minus low, Bollinger bands are ordered and symmetric around the mean; RSI, %K, true range and on-balance volume have their textbook values.", "quantifier": "every price series and parameter", "why_tests_cant": "universal inequalities", "anchors": ["vectorbt/indicators/nb.py:rsi_apply_nb", "vectorbt/indicators/nb.py:stoch_apply_nb", "vectorbt/indicators/nb.py:true_range_nb", "vectorbt/indicators/nb.py:bb_apply_nb"]}
{"id": "C48", "title": "Indicator caches are transparent", "statement": "Results taken from the per-parameter cache equal direct computation, for any list of parameter combinations including repetitions, provided the hashes of distinct listed combinations differ; a combination that was not listed raises.", "quantifier": "every parameter list", "why_tests_cant": "arbitrary lists and collisions of keys", "anchors": ["vectorbt/indicators/nb.py:ma_cache_nb", "vectorbt/indicators/nb.py:macd_cache_nb", "vectorbt/indicators/nb.py:bb_cache_nb"]}
{"id": "C49", "title": "Flexible indexing equals broadcasting", "statement": "Selecting element (i, col) from an array kept in its original shape gives the element of its NumPy broadcast to the target shape.", "quantifier": "every shape that broadcasts and every position", "why_tests_cant": "all shapes", "anchors": ["vectorbt/base/reshape_fns.py:flex_select_auto_nb", "vectorbt/base/reshape_fns.py:flex_choose_i_and_col_nb", "vectorbt/base/reshape_fns.py:flex_select_nb"]}
{"id": "C50", "title": "Group lengths", "statement": "Group lengths of a sorted group array sum to the number of columns and give the size of every group; unsorted groups are rejected. (Columns without a label are merged into the next group: shown by a witness.)", "quantifier": "every group array", "why_tests_cant": "all lengths", "anchors": ["vectorbt/base/column_grouper.py:get_group_lens_nb", "vectorbt/base/column_grouper.py:ColumnGrouper"]}
{"id": "C51", "title": "Splitters partition ranges", "statement": "Each split range is divided into consecutive, disjoint, non-empty sets covering the range exactly; rolling windows have the requested length and lie inside the data. (Negative set lengths are not refused: shown by a witness.)", "quantifier": "every range and set lengths", "why_tests_cant": "all lengths", "anchors": ["vectorbt/generic/splitters.py:split_ranges_into_sets", "vectorbt/generic/splitters.py:RollingSplitter", "vectorbt/generic/splitters.py:ExpandingSplitter"]}
{"id": "C52", "title": "Parameter products and index stacking", "statement": "The Cartesian product of parameters enumerates every combination once, and the combined column index built by repeat and tile lists combinations in the same order; dropping duplicate levels loses no distinction. (Dropping redundant levels can, and an empty list is lost: shown by witnesses.)", "quantifier": "every list of parameter lists", "why_tests_cant": "all shapes", "anchors": ["vectorbt/utils/params.py:create_param_product", "vectorbt/utils/params.py:broadcast_params", "vectorbt/base/index_fns.py:combine_indexes", "vectorbt/base/index_fns.py:repeat_index", "vectorbt/base/index_fns.py:tile_index"]}
{"id": "C53", "title": "Merging configs", "statement": "Merging dictionaries gives the last value for every leaf and keeps the keys of all, recursing into nested dictionaries and treating an atomic dictionary of a later argument as one value; it changes no dictionary that existed before and returns a new one. With same_keys and a first dictionary that is not empty, no key absent from the first appears at the top level.", "quantifier": "every tree of dictionaries of any depth, shared in any way, any number of arguments", "why_tests_cant": "unbounded nesting and aliasing", "anchors": ["vectorbt/utils/config.py:merge_dicts", "vectorbt/utils/config.py:update_dict", "vectorbt/utils/config.py:convert_to_dict", "vectorbt/utils/config.py:copy_dict"]}
{"id": "C54", "title": "Read-only and frozen configs cannot be changed; reset restores", "statement": "No sequence of unforced calls of methods that Config defines changes the items of a read-only config, or, resets aside, the keys of a config with frozen keys. Attributes of a config with attribute access always equal its items. With nested copies, reset returns a config to what it held at its creation or last checkpoint, at every level, whatever was edited in between.", "quantifier": "every sequence of calls on any objects, with any arguments and exceptions, from any heap", "why_tests_cant": "arbitrary operation histories and aliasing", "anchors": ["vectorbt/utils/config.py:Config"]}
{"id": "C55", "title": "Caching is transparent", "statement": "For instances that do not change, every read of a cached property or method gives what its function gives without caching, for any history of reads, cache clears and changes of the caching settings and for any interleaving of threads, provided an instance has one function per name and arguments with equal keys give equal results. A cached property is not computed again until it is cleared, and once over all threads; a cached method keeps at most maxsize results. The best-ranked matching condition decides whether to cache, and the global flag on ties. Threads cannot block each other for good when properties read only properties of lower layers.", "quantifier": "every call history, condition list, number of threads and schedule", "why_tests_cant": "arbitrary histories and interleavings", "anchors": ["vectorbt/utils/decorators.py:cached_property", "vectorbt/utils/decorators.py:cached_method", "vectorbt/utils/decorators.py:should_cache"]}
{"id": "C56", "title": "The Rust engine simulates like the Numba engine", "statement": "An order executed by the Rust engine gives the same new state, fill, status, order record, log record and exception as with the Numba engine, for every account state and every order, provided that Numba does not divide by zero, that a size given in percent is a number other than zero, that a target of zero percent is not taken of an infinite value and that free cash is not minus infinity. In exact arithmetic this includes size granularity and locked cash; on doubles the results are equal bit by bit for orders without size granularity that do not lock cash while short. Comparisons with a tolerance and tolerant additions are equal bit by bit on all doubles. A simulation from orders over any shape of data, grouping without empty groups, call sequence and record limits returns the same order records, log records and call sequence or raises the same exception with both engines, provided that its inputs satisfy the same conditions.", "quantifier": "every account state, order, stream of random numbers and record buffer; every table of inputs, grouping and flags of a simulation", "why_tests_cant": "two implementations over a continuum of inputs", "anchors": ["rust/src/portfolio.rs", "vectorbt/portfolio/nb.py", "vectorbt/utils/math_.py"]}
{"id": "C57", "title": "Winning and losing streaks", "statement": "The winning (losing) streak of a trade is the number of consecutive trades with a profit above (below) zero that end with it.", "quantifier": "every sequence of trades", "why_tests_cant": "counts over unbounded sequences", "anchors": ["vectorbt/portfolio/nb.py:trade_winning_streak_nb", "vectorbt/portfolio/nb.py:trade_losing_streak_nb"]}
{"id": "C58", "title": "Reducing and mapping values by column", "statement": "Reducing a mapped array applies the reducer to exactly each column's values in order and uses the fill value for columns without records; applying a function per column writes its results back to that column's own records; value counts count every value in every column.", "quantifier": "every column array, values and per-column function", "why_tests_cant": "functions and array lengths are unbounded; a wrong segment shows only for some column orders", "anchors": ["vectorbt/records/nb.py:reduce_mapped_nb", "vectorbt/records/nb.py:reduce_mapped_to_idx_nb", "vectorbt/records/nb.py:apply_on_mapped_nb", "vectorbt/records/nb.py:mapped_value_counts_nb"]}
{"id": "C59", "title": "Ways of passing signals agree", "statement": "Passing entries and exits with a direction, or separate long and short signals, simulates exactly as passing the ready-made signal function for them; entries and exits with one direction can be rewritten as long and short signals without any change.", "quantifier": "every signal array, direction, grouping, stop setting and price input", "why_tests_cant": "equality of two simulation entry points over unbounded inputs", "anchors": ["vectorbt/portfolio/nb.py:simulate_from_signals_nb", "vectorbt/portfolio/nb.py:simulate_from_signal_func_nb", "vectorbt/portfolio/nb.py:dir_enex_signal_func_nb", "vectorbt/portfolio/nb.py:ls_enex_signal_func_nb"]}
{"id": "C60", "title": "Rolling statistics are statistics of the window", "statement": "A rolling (or expanding) statistic of returns at a bar is the statistic of exactly the last `window` bars if they hold at least `minp` numbers and NaN otherwise; it never depends on later bars, and statistics against a benchmark pair up the same bars of both series.", "quantifier": "every series, window, minimum number of periods and applied function, also one that raises", "why_tests_cant": "windows and series are unbounded; misaligned windows show only for some NaN patterns", "anchors": ["vectorbt/generic/nb.py:rolling_apply_nb", "vectorbt/returns/nb.py:rolling_beta_nb", "vectorbt/returns/nb.py:rolling_max_drawdown_nb", "vectorbt/returns/nb.py:rolling_cum_returns_final_nb"]}
{"id": "C61", "title": "Value at risk and expected shortfall", "statement": "The value at risk at a cutoff is the corresponding quantile of the known returns; the conditional value at risk of a series without missing returns is the mean of the lowest returns up to the cutoff and never above the value at risk.", "quantifier": "every finite return series and cutoff between 0 and 1", "why_tests_cant": "order statistics over unbounded series and all cutoffs", "anchors": ["vectorbt/returns/nb.py:value_at_risk_1d_nb", "vectorbt/returns/nb.py:cond_value_at_risk_1d_nb"]}
{"id": "C62", "title": "Beta measures exposure to the benchmark", "statement": "Beta is the covariance of returns and benchmark over the variance of the benchmark, over the bars where both are known; a strategy that returns a constant plus k times the benchmark has beta k.", "quantifier": "every pair of series whose known benchmark returns have a variance of at least 1e-30", "why_tests_cant": "algebraic identity over unbounded series", "anchors": ["vectorbt/returns/nb.py:beta_1d_nb"]}
{"id": "C63", "title": "Missing returns do not count", "statement": "Total return, value at risk, tail ratio, Sharpe, Sortino and Omega ratios and downside risk of a series with missing returns equal those of the known returns alone. (Annualised return and conditional value at risk do count missing bars: shown by witnesses.)", "quantifier": "every return series and every pattern of missing values", "why_tests_cant": "equality over all NaN patterns", "anchors": ["vectorbt/returns/nb.py:sharpe_ratio_1d_nb", "vectorbt/returns/nb.py:sortino_ratio_1d_nb", "vectorbt/returns/nb.py:omega_ratio_1d_nb", "vectorbt/returns/nb.py:downside_risk_1d_nb", "vectorbt/returns/nb.py:total_return_apply_nb", "vectorbt/returns/nb.py:value_at_risk_1d_nb"]}
{"id": "C64", "title": "Trend labels describe the way to the next extremum", "statement": "Bars from one local extremum to the next are labelled and no others: 1 on the way up and 0 on the way down; or linearly from 1 at the lowest to 0 at the highest price; or the same saturated at the thresholds; or the percentage change to the next extremum, normalised by the peak on request. Labels of the first three modes lie between 0 and 1.", "quantifier": "every positive price series and non-zero thresholds per bar", "why_tests_cant": "two chained state machines over unbounded series", "anchors": ["vectorbt/labels/nb.py:trend_labels_apply_nb", "vectorbt/labels/nb.py:bn_trend_labels_nb", "vectorbt/labels/nb.py:bn_cont_trend_labels_nb", "vectorbt/labels/nb.py:bn_cont_sat_trend_labels_nb", "vectorbt/labels/nb.py:pct_trend_labels_nb"]}
{"id": "C65", "title": "Look-ahead labels describe exactly the period ahead", "statement": "The future mean, deviation, minimum or maximum at a bar is that of exactly the window bars starting wait bars ahead, NaN if they are not all known; fixed and mean labels are the relative change to the price n bars ahead or the mean ahead; symmetric thresholds undo each other.", "quantifier": "every series, window and wait", "why_tests_cant": "off-by-one errors of reversal and shift show only for some sizes", "anchors": ["vectorbt/labels/nb.py:future_mean_apply_nb", "vectorbt/labels/nb.py:future_std_apply_nb", "vectorbt/labels/nb.py:future_min_apply_nb", "vectorbt/labels/nb.py:future_max_apply_nb", "vectorbt/labels/nb.py:fixed_labels_apply_nb", "vectorbt/labels/nb.py:mean_labels_apply_nb", "vectorbt/labels/nb.py:get_symmetric_pos_th_nb", "vectorbt/labels/nb.py:get_symmetric_neg_th_nb"]}
{"id": "C66", "title": "Exponentially weighted deviation", "statement": "With adjusted weights the result at every bar is the square root of the bias-corrected weighted variance of the known values so far, weight (1-2/(span+1))^age, undefined below the minimum number of values and for fewer than two; in every variant the root is taken of a non-negative number; the ddof argument has no effect.", "quantifier": "every series without infinities, span, minimum and variant", "why_tests_cant": "the incremental formula must equal the definition for every history, including gaps", "anchors": ["vectorbt/generic/nb.py:ewm_std_1d_nb", "vectorbt/indicators/nb.py:mstd_nb"]}
{"id": "C67", "title": "Restrictions on regrouping", "statement": "Whether groups may be enabled, disabled or modified is decided by the three flags given on construction and by nothing else; relabelling that keeps the same columns together is always allowed; groups put together exactly the columns with equal labels. (The test whether the number of groups changed compares numbers of columns: shown by a witness.)", "quantifier": "every grouper, label list and combination of flags", "why_tests_cant": "all label lists and all ways of relabelling", "anchors": ["vectorbt/base/column_grouper.py:ColumnGrouper.check_group_by", "vectorbt/base/column_grouper.py:ColumnGrouper.is_grouping_modified", "vectorbt/base/column_grouper.py:get_groups_and_index"]}
{"id": "C68", "title": "Aligning indexes", "statement": "Aligning one index to another gives, for each position of the second, a position of the first that agrees on all common levels, provided there is one; indexes with equal labels are left as they are. Duplicated labels, no common level, several candidate levels and labels missing from the first index are refused. (A missing combination and levels with swapped names: shown by witnesses.)", "quantifier": "every pair of indexes with levels of equal length", "why_tests_cant": "unbounded indexes, levels and repeated labels", "anchors": ["vectorbt/base/index_fns.py:align_index_to", "vectorbt/base/index_fns.py:_align_index_to_nb"]}
{"id": "C69", "title": "The position record handed to callbacks", "statement": "After any sequence of filled orders in a column, the position record that order functions see describes the position these fills build: running number, direction, bar of entry, status and bar of exit, total size, average entry price over the fills that enter, average exit price over the fills that leave, fees of both, and profit and return as if the rest were closed at the valuation price; an order that reverses the position starts a new record with the exceeding size and its share of the fees; while nothing is held the record of the last position is kept. (A fill so small that the position stays at zero is taken for an increase: shown by a witness.)", "quantifier": "every finite sequence of fills with positive size and price, and every valuation price", "why_tests_cant": "running averages and fee shares must be right for every history of entries, partial exits and reversals", "anchors": ["vectorbt/portfolio/nb.py:update_pos_record_nb", "vectorbt/portfolio/nb.py:update_open_pos_stats_nb", "vectorbt/portfolio/enums.py:SimulationContext.last_pos_record"]}
{"id": "C70", "title": "No look-ahead in simulation with callbacks", "statement": "Simulating row by row with user-defined order functions, whatever happens before row t depends only on prices, masks and what the callbacks do before row t: two simulations that agree there, of any length and with any memory in the callbacks, write the same orders and logs before row t, and a simulation whose first t rows fail fails in the same way if extended. (Column by column this fails for callbacks with a memory, since the second group starts after the last row of the first: shown by a witness.)", "quantifier": "every row, every pair of simulations agreeing before it, all callbacks and their memory, following the call sequence or flexible", "why_tests_cant": "user-defined functions with arbitrary memory, arbitrary future data", "anchors": ["vectorbt/portfolio/nb.py:simulate_row_wise_nb", "vectorbt/portfolio/nb.py:flex_simulate_row_wise_nb", "vectorbt/portfolio/nb.py:simulate_nb"]}
{"id": "C71", "title": "Order of the callback calls", "statement": "Callbacks are called in the documented order and number: before and after the simulation, before and after every group (column by column) or row (row by row), before every segment, then for every column in the order of the call sequence an order function and the function after it - in flexible mode for the columns the order function chooses until it chooses none - then after the segment; inactive segments only call the functions before and after, and only if asked to. Observing the calls changes nothing.", "quantifier": "every configuration of groups, rows, masks and options, all callbacks and executions", "why_tests_cant": "the protocol must hold for every mask, grouping and user function", "anchors": ["vectorbt/portfolio/nb.py:simulate_nb", "vectorbt/portfolio/nb.py:simulate_row_wise_nb", "vectorbt/portfolio/nb.py:flex_simulate_nb", "vectorbt/portfolio/nb.py:flex_simulate_row_wise_nb"]}
{"id": "C72", "title": "What callbacks are shown", "statement": "Every callback sees, for each column, the positions of its latest order and log record. Before the first order of a segment the value is cash plus the worth of the positions at the current valuation prices and the return compares it with the previous value. After a segment positions are valued at the closing prices of the row where known, value and return agree with that, and the previous value is the value shown after the previous segment of the same group, or the initial cash.", "quantifier": "every call in every execution, with and without cash sharing, column- and row-wise, flexible or not", "why_tests_cant": "the context is built from arrays that are updated in place at many points of every execution", "anchors": ["vectorbt/portfolio/nb.py:simulate_nb", "vectorbt/portfolio/nb.py:simulate_row_wise_nb", "vectorbt/portfolio/enums.py:SimulationContext.last_value", "vectorbt/portfolio/enums.py:SimulationContext.second_last_value", "vectorbt/portfolio/enums.py:SimulationContext.last_oidx"]}
{"id": "C73", "title": "The account shown to callbacks is that of the records", "statement": "In a simulation with user-defined order functions, what every callback is shown (and what is left in the end) agrees with the order records written so far: the position of a column is the sum of its bought less its sold sizes, and the cash of a group (or column, without cash sharing) is its initial cash plus what its orders brought less what they cost including fees, up to the tolerance at which amounts are taken for zero, added up over the orders.", "quantifier": "every callback call in every execution, all callbacks whose fee rates are above -100% and whose percentage sizes are non-zero numbers", "why_tests_cant": "arrays are updated in place by every order; must hold for every history of user orders", "anchors": ["vectorbt/portfolio/nb.py:simulate_nb", "vectorbt/portfolio/nb.py:simulate_row_wise_nb", "vectorbt/portfolio/nb.py:flex_simulate_nb", "vectorbt/portfolio/nb.py:process_order_nb"]}
{"id": "C74", "title": "A flexible order function can follow the call sequence", "statement": "A flexible order function that returns the columns of the group one after the other in the order of the call sequence, and then none, gives exactly the simulation of the ordinary order function with that call sequence: same records, same account, same memory of the callbacks, same errors, column- and row-wise.", "quantifier": "all callbacks with complete and valid call sequences, all groupings, masks, options and number types", "why_tests_cant": "two simulators must agree for every user function", "anchors": ["vectorbt/portfolio/nb.py:flex_simulate_nb", "vectorbt/portfolio/nb.py:flex_simulate_row_wise_nb", "vectorbt/portfolio/nb.py:simulate_nb", "vectorbt/portfolio/nb.py:simulate_row_wise_nb"]}
{"id": "C75", "title": "Orders given as arrays agree with order functions", "statement": "Simulating orders given as arrays (from_orders) writes exactly the order and log records that the simulation with callbacks writes if the order function reads the arrays, the valuation prices are set before each segment and the call sequence is sorted where asked for; errors are the same. (Missing valuation prices that are to be forward-filled are the exception: the array version keeps the last valuation price, callbacks see the last close - shown by a witness.)", "quantifier": "all arrays, groupings without empty groups, cash, flags and number types (including IEEE doubles)", "why_tests_cant": "documented as an adaptation of simulate_nb; must agree for all inputs", "anchors": ["vectorbt/portfolio/nb.py:simulate_from_orders_nb", "vectorbt/portfolio/nb.py:simulate_nb", "vectorbt/portfolio/nb.py:sort_call_seq_out_nb"]}
{"id": "C76", "title": "Random entries and exits come in the number asked for", "statement": "Generating random signals by number gives exactly that number of entries and exits per column (as many columns as numbers), in turn and starting with an entry, each exit at least exit_wait bars after its entry and before the end of the data, each next entry at least entry_wait bars after the exit; a number for which the bars do not suffice raises. Random signals without exits are as many as asked for or all bars. With both waiting times 1 too large a number is not noticed and gives the alternating signals that fit (shown by a witness).", "quantifier": "all numbers of rows and columns, numbers of signals per column from 1, waiting times not both 0, and all outcomes of the random generator", "why_tests_cant": "depends on sequences of random draws, rounding and index arithmetic; tests fix a seed", "anchors": ["vectorbt/signals/nb.py:generate_rand_enex_nb", "vectorbt/signals/nb.py:generate_rand_nb", "vectorbt/utils/array_.py:rescale_float_to_int_nb", "vectorbt/utils/array_.py:uniform_summing_to_one_nb"]}
{"id": "C77", "title": "Stop signals one after another are those with skip_until_exit", "statement": "Generating entries and stop exits one after another ends without error; its entries are among the given ones and its exits among those generated with skip_until_exit=True. If every kept entry with a bar left to exit at exits, the exits are exactly the same; if every kept entry exits, the removed entries are exactly ones that come after a kept entry and not after its (last) exit. (The documented 'same logic' fails when a kept entry never exits: then no later entry is looked at - shown by a witness.)", "quantifier": "all entries, prices, stop values (fixed or trailing; with open, high, low, close: non-negative or missing stops), exit waiting times, with or without pick_first; entry waiting time 1", "why_tests_cant": "a documented equivalence of two generators over all inputs", "anchors": ["vectorbt/signals/nb.py:generate_stop_enex_nb", "vectorbt/signals/nb.py:generate_stop_ex_nb", "vectorbt/signals/nb.py:generate_ohlc_stop_enex_nb", "vectorbt/signals/nb.py:generate_ohlc_stop_ex_nb"]}
{"id": "C78", "title": "Both engines give the same simulation from signals", "statement": "A simulation from signal arrays - entries and exits, conflict and opposite-entry modes, accumulation, stop-loss, trailing stop and take-profit, with or without cash sharing and automatic call sequences - returns the same order records, log records and call sequence with the Rust engine as with the Numba engine, or raises an exception with the same message, unless Numba raises ZeroDivisionError. For five messages the class of the exception differs (ValueError in Numba, RejectedOrderError in Rust), and where Numba divides by a zero valuation price Rust goes on and places an order for infinitely many units - shown by witnesses.", "quantifier": "all signal arrays, prices, sizes, modes, stops, fees, cash, group lengths (no empty group), record limits and random draws; on exact numbers: fees above -100%, cash a number or infinite, no infinite percentages; on doubles: no size granularity and no locked cash; no percentages with automatic call sequences", "why_tests_cant": "two implementations of the same simulation, over all inputs", "anchors": ["vectorbt/portfolio/nb.py:simulate_from_signals_nb", "rust/src/portfolio.rs:simulate_from_signals_inner", "rust/src/portfolio.rs:simulate_from_signals_non_shared_inner"]}
{"id": "C79", "title": "Broadcasting gives one shape, the right values and one set of labels", "statement": "vbt.base.reshape_fns.broadcast returns objects of one common shape; each shows at every position the element of its argument there (its only element along an axis where it has one; a Series is a column and a one-dimensional array a row next to two-dimensional data), and an argument kept raw gives the same elements under flexible indexing. All results carry the same index and columns, as many labels as the shape says: with the strict rule the labels of every argument that are not a plain range; with the stacking rule every level of every argument that tells positions apart, in the order of the arguments. Without empty axes broadcasting is refused exactly when the arguments have no common size on an axis or their indexes disagree under the strict rule, and broadcasting the results again changes nothing. Frames with fewer columns are first replaced by their columns whose labels agree with those of a widest frame. Two corners fall short: an empty frame next to a one-row frame is refused although the shapes are compatible, and a column whose tuple of labels is missing in the narrower frame is filled from whatever column number uninitialised memory holds - shown by witnesses.", "quantifier": "all lists of scalars, arrays, Series and DataFrames of any shape with single- or multi-level labels, all options for labels, stacking, raw arguments and shape (results forced to frames are left out)", "why_tests_cant": "every combination of shapes, labels and options", "anchors": ["vectorbt/base/reshape_fns.py:broadcast", "vectorbt/base/reshape_fns.py:broadcast_index", "vectorbt/base/reshape_fns.py:wrap_broadcasted", "vectorbt/base/index_fns.py:stack_indexes", "vectorbt/base/index_fns.py:align_indexes"]}
{"id": "C80", "title": "Both engines derive the same trades and positions from orders", "statement": "Entry trades, exit trades, positions and winning and losing streaks derived from the same records with the Rust engine equal those of the Numba engine in every field of every record - in exact arithmetic and, bit by bit, on doubles - including which records are refused; only the words of the refusal of an order with a size or price of zero or less differ. Runs in which Numba divides by zero are left out. Positions agree for trades kept column by column, which trades derived from orders always are; when trades of another column lie between those of a position, Numba counts them into the position and Rust does not (shown by a witness).", "quantifier": "all order records, closing prices and numbers of columns; all trade records kept column by column", "why_tests_cant": "histories of fills, partial exits and reversals are unbounded; every one must give the same records in two separate implementations", "anchors": ["rust/src/portfolio.rs:get_entry_trades_inner", "rust/src/portfolio.rs:get_exit_trades_inner", "rust/src/portfolio.rs:get_positions_inner", "rust/src/portfolio.rs:trade_winning_streak_py", "vectorbt/portfolio/nb.py:get_exit_trades_nb", "vectorbt/portfolio/nb.py:get_entry_trades_nb", "vectorbt/portfolio/nb.py:get_positions_nb"]}
{"id": "C81", "title": "Performance series follow from cash, asset values and prices", "statement": "Value in simulation order is, at each call, the cash of that moment plus the latest value of every column of the group (unknown exactly if one of these is) - at the first bar, at bars called in the same order as the bar before and at the last call of every bar; when the order changes between bars, earlier calls of a bar can be wrong (shown by a witness). Returns in simulation order are those of these values call by call and compound from the initial cash to the last value. The asset return of a bar is the profit of the shares held and traded over the value held; orders at the close without fees leave it the return of the price (negated for shorts). The benchmark is the initial cash moved by the price relative to the first bar, a group's gives every column the same share; its total return is last over first price minus one. Gross exposure is assets over assets plus cash, in [0, 1] when neither is negative. A group without cash sharing has the cash of its columns together, a column with cash sharing that of its group. Automatic initial cash is the least that keeps the running balance from becoming negative, 1 if none is needed; aligned, that of the neediest column.", "quantifier": "all numbers of bars and columns, groupings, call sequences that call every column once per bar, cash flows, asset values with missing values, prices and initial cash", "why_tests_cant": "the loops carry sums and a count of calls since the last missing value over an unbounded series of calls, and the order of calls can be any permutation at each bar", "anchors": ["vectorbt/portfolio/nb.py:value_in_sim_order_nb", "vectorbt/portfolio/nb.py:returns_in_sim_order_nb", "vectorbt/portfolio/nb.py:asset_returns_nb", "vectorbt/portfolio/nb.py:benchmark_value_nb", "vectorbt/portfolio/nb.py:benchmark_value_grouped_nb", "vectorbt/portfolio/nb.py:gross_exposure_nb", "vectorbt/portfolio/nb.py:init_cash_nb", "vectorbt/portfolio/nb.py:init_cash_grouped_nb", "vectorbt/portfolio/base.py:Portfolio.get_init_cash"]}
{"id": "C82", "title": "The Rust engine keeps the same account and performance as the Numba engine", "statement": "From the same order records both engines give, bit by bit, the same asset flow, cash flow (of all and of free cash), assets, cash, cash and value and returns in the order of the simulation, initial cash per column, total profit of columns and groups, asset returns, benchmark of groups, benchmark return and gross exposure - unless the Numba engine raises a division by zero. The exceptions are shown by witnesses: the benchmark of a column agrees in exact arithmetic but is rounded differently on doubles; initial cash that is not a number is forward-filled by Numba only; group lengths that do not cover the columns are refused by Numba only.", "quantifier": "all order records, columns, groupings, call sequences, flows, values, prices and initial cash, in exact numbers and in IEEE doubles", "why_tests_cant": "the two engines are separate programs; tests compare them on a handful of portfolios and with a tolerance", "anchors": ["rust/src/portfolio.rs", "vectorbt/portfolio/nb.py:asset_flow_nb", "vectorbt/portfolio/nb.py:cash_flow_nb", "vectorbt/portfolio/nb.py:value_in_sim_order_nb", "vectorbt/portfolio/nb.py:returns_in_sim_order_nb", "vectorbt/portfolio/nb.py:total_profit_nb", "vectorbt/portfolio/nb.py:benchmark_value_nb", "vectorbt/portfolio/nb.py:init_cash_nb"]}
{"id": "C83", "title": "The choice of the engine is explicit, safe and cannot be seen in the values", "statement": "engine='numba' always runs Numba; engine='rust' runs Rust or raises (import error if vectorbt-rust is not usable, otherwise the reason the call is not supported), never Numba; 'auto' runs Rust exactly if it is available and supports the call and never raises; no argument means the global setting, other names are refused; randomized functions run Rust only if the call names it. A call is supported exactly if each argument is, the reported reason being that of the first that is not. Arrays reach Rust with the expected type and every value and the shape unchanged; arrays written into must have the exact type. If the kernels agree on values, every engine that answers gives the same answer. Rust is usable if it is installed in a version differing at most in the last component, as found at the first question since the start or the last clearing of the cache. Exception, shown by a witness: single-precision arrays are converted for Rust, which then computes in double precision where Numba computes in single.", "quantifier": "all engine arguments, global settings, versions, histories of questions, installations and cache clearings, lists of argument checks, data types, shapes and values", "why_tests_cant": "the number of combinations of settings, installations, argument types and values is unbounded, and the cached answer depends on the history of the process", "anchors": ["vectorbt/_engine.py:resolve_engine", "vectorbt/_engine.py:is_rust_available", "vectorbt/_engine.py:array_compatible_with_rust", "vectorbt/_engine.py:prepare_array_for_rust", "vectorbt/_engine.py:combine_rust_support", "vectorbt/_engine.py:resolve_random_engine", "vectorbt/generic/dispatch.py:diff_1d"]}
{"id": "C84", "title": "Risk and reward ratios have their textbook meaning", "statement": "With missing returns left out: annualized volatility is the standard deviation (with the requested degrees of freedom taken off) times the yearly factor to the power 1/alpha; the Sharpe ratio is the mean excess return over its standard deviation times the root of the yearly factor; downside risk is the root of the mean squared shortfall, annualized, and the Sortino ratio is the annualized mean excess return over it; the Omega ratio is gains above the threshold over losses below it; the information ratio is the mean difference to the benchmark over its standard deviation; alpha is the compounded mean return that beta does not explain; the annualized return is total growth to the power yearly factor / number of bars, Calmar is it over the maximum drawdown, and capture is it over that of the benchmark, up and down capture being restricted to bars on which the benchmark rises or falls; the tail ratio is the 95% quantile over the 5% quantile in size. A zero denominator gives infinity (Calmar: missing), never an exception.", "quantifier": "all return and benchmark series of any length with missing values anywhere, yearly factors, risk-free and required returns, degrees of freedom, and all square root and power functions of the machine", "why_tests_cant": "unbounded series of numbers; tests compare a few numbers with another library", "anchors": ["vectorbt/returns/nb.py:annualized_volatility_1d_nb", "vectorbt/returns/nb.py:sharpe_ratio_1d_nb", "vectorbt/returns/nb.py:downside_risk_1d_nb", "vectorbt/returns/nb.py:sortino_ratio_1d_nb", "vectorbt/returns/nb.py:omega_ratio_1d_nb", "vectorbt/returns/nb.py:information_ratio_1d_nb", "vectorbt/returns/nb.py:alpha_1d_nb", "vectorbt/returns/nb.py:calmar_ratio_1d_nb", "vectorbt/returns/nb.py:capture_1d_nb", "vectorbt/returns/nb.py:tail_ratio_1d_nb", "vectorbt/generic/nb.py:nanstd_1d_nb"]}
{"id": "C85", "title": "Running an indicator over parameters", "statement": "An indicator built from a calculation and run over parameters has one column for every combination and every input column: it holds exactly what the calculation gives for that combination on that column's inputs, next to that input, and its labels name the combination and the input column (levels are left out only by hiding, or when unnamed and uninformative). Combinations are all of the product, each list in turn varying, or values at one position after single values are repeated. Calculating equal combinations once (run_unique), reusing raw results of an earlier run over the same inputs, and the compiled loop give the same as calculating everything in the Python loop. With one combination per column every column is calculated alone. Selecting by a parameter keeps the columns calculated with it - all, nothing else, in order and unchanged, without the level when it is one key - and a value with no column raises KeyError. Running combinations gives one indicator per member, over the members at its position of all combinations.", "quantifier": "all calculations that return arrays in the shape of the inputs, all inputs, in-place outputs (all or none given), parameter lists, namings, contents of new memory, chains of selections", "why_tests_cant": "tests look at a few built-in indicators with two or three parameters; that no output lands under another combination's label must hold for every calculation, list of parameters, repetition and selection", "anchors": ["vectorbt/indicators/factory.py:run_pipeline", "vectorbt/indicators/factory.py:build_columns", "vectorbt/indicators/factory.py:IndicatorFactory.from_apply_func", "vectorbt/indicators/factory.py:IndicatorBase", "vectorbt/base/combine_fns.py:apply_and_concat_multiple", "vectorbt/base/combine_fns.py:apply_and_concat_multiple_nb", "vectorbt/base/indexing.py:ParamLoc", "vectorbt/utils/params.py:create_param_product", "vectorbt/utils/params.py:broadcast_params"]}
{"id": "C86", "title": "Long, short and free-cash sides of an account follow its orders; cash in simulation order follows the calls", "statement": "Replayed from order records, the long-only assets of a column are at every bar the part of its position that is held, and the short-only assets the part that is owed, also across orders that turn the position around. Free cash is the initial cash plus the cash that moved, less twice what the currently shorted units were sold for, where buying back a part of them takes away the same part of that debt; it is computed for every history whose record numbers do not decrease. Cash in simulation order is, at each call, the initial cash of the group plus what moved in all its columns in earlier bars and in the columns called so far in this bar; after the last call of a bar the order of calls leaves no trace. (For free cash positions and orders must be clear of the rounding tolerance: the fee of an order below the tolerance of its position is not taken from free cash.)", "quantifier": "all order histories with finite numbers, of any length, over any number of bars and columns, and all call sequences that call every column once per bar", "why_tests_cant": "unbounded histories with reversals and partial covers; tests replay a handful of orders", "anchors": ["vectorbt/portfolio/nb.py:get_long_size_nb", "vectorbt/portfolio/nb.py:get_short_size_nb", "vectorbt/portfolio/nb.py:asset_flow_nb", "vectorbt/portfolio/nb.py:get_free_cash_diff_nb", "vectorbt/portfolio/nb.py:cash_flow_nb", "vectorbt/portfolio/nb.py:cash_in_sim_order_nb"]}
{"id": "C87", "title": "Data of several symbols is aligned without moving a value", "statement": "A data set made from several symbols gives all of them the same rows and columns, and each symbol shows its own value wherever it has that row and column and NaN elsewhere; no value lands in another row, column or symbol. With missing='nan' the rows are all rows of all symbols, in ascending order if symbols differ; with 'drop' they are the rows every symbol has, in the order of the first; with 'raise' differing rows are refused and nothing else is. The same holds for columns. Arrays are numbered from 0; clock times become the instants they denote in the given zone. Downloading asks for every symbol once per mention with the keyword arguments meant for it. (Exception: if all symbols are Series under different names and missing columns are to be NaN, every symbol but those of the first name loses all values.)", "quantifier": "all sets of symbols, sources (arrays, Series, frames with distinct labels), zones and missing modes, of any size", "why_tests_cant": "any number of symbols with any overlap of rows and columns in any order; tests align two or three small frames", "anchors": ["vectorbt/data/base.py:Data.align_index", "vectorbt/data/base.py:Data.align_columns", "vectorbt/data/base.py:Data.from_data", "vectorbt/data/base.py:Data.download", "vectorbt/data/base.py:Data.select_symbol_kwargs"]}
{"id": "C88", "title": "Updating data keeps history and takes over what is new", "statement": "After an update every symbol has its old rows that were not received, in their order, followed by the rows received, and the columns it had before; in rows that were not received every value is unchanged, and in received rows each symbol has the value received for it. All symbols still share rows and columns, so updates can be repeated. Arrays are numbered on from the last row, which they replace. Unless rows missing from some symbol are filled with NaN, an old value only gives way to a new value of the same symbol, row and column. (With NaN-filling, the default, a known value is replaced by NaN if another symbol's update brings that row and this symbol's does not.)", "quantifier": "all data sets whose symbols share rows and columns, and all updates (arrays, Series, frames with distinct labels), of any size", "why_tests_cant": "any overlap between old and new rows and between symbols; tests update one or two small samples", "anchors": ["vectorbt/data/base.py:Data.update", "vectorbt/data/base.py:Data.update_symbol"]}
{"id": "C89", "title": "Columns of several symbols stand side by side", "statement": "Concatenating a data set gives for every column one object over the common rows with one column per symbol, in the order of symbols, holding exactly the symbol's values in that column; it never fails. Getting a column of several symbols gives that object. If symbols have a single column, getting without a column gives it, and so does getting any column that is not there; the name of a symbol gives that symbol.", "quantifier": "all data sets whose symbols share rows and columns, of any size", "why_tests_cant": "any number of symbols and columns; tests use two symbols and a few columns", "anchors": ["vectorbt/data/base.py:Data.concat", "vectorbt/data/base.py:Data.get"]}
{"id": "C90", "title": "Functions applied to rolling and expanding windows", "statement": "df.vbt.rolling_apply(window, f, minp) gives an object of the same shape. In each cell it holds what f returns for the last `window` values of the column up to and including that row (fewer at the top), if at least minp of them (by default: window of them) are not NaN, and NaN otherwise; f is called for no other window and an exception can come only from such a call. Rows do not depend on later rows. expanding_apply does the same with all rows so far. With on_matrix=True and no missing values f gets the same rows of all columns and its result, one value or a row, fills the row. With missing values on_matrix=True does not count them over the window: f can be called on a window with fewer than minp values (refuted as a general claim).", "quantifier": "every array, window, minp and function given by the user", "why_tests_cant": "the numbers of missing values are kept incrementally and subtracted at the window's far end, so an error shows only for particular positions of NaN relative to the window", "anchors": ["vectorbt/generic/nb.py:rolling_apply_nb", "vectorbt/generic/nb.py:rolling_matrix_apply_nb", "vectorbt/generic/nb.py:expanding_apply_nb", "vectorbt/generic/nb.py:expanding_matrix_apply_nb", "vectorbt/generic/accessors.py:GenericAccessor.rolling_apply", "vectorbt/generic/accessors.py:GenericAccessor.expanding_apply"]}
{"id": "C91", "title": "Reducing columns and groups of columns", "statement": "df.vbt.reduce passes to the function, for every column or group, exactly the values of that column or group - as an array, or flattened row by row (order='C') or column by column ('F') - and puts the results in the order of the columns or groups. If results are positions in a flattened group, the row reported is the row of the value at that position. idxmin and idxmax report, for every column or group, the row of the first least or greatest number in that order, provided one number is below (above) infinity. min, max, count and the n-th value (also counted from the end) are what their names say. A column without numbers gives NaN, but idxmin and idxmax refuse a group without numbers.", "quantifier": "every array, every division of its columns into groups, every function given by the user, every order of flattening; doubles and exact numbers", "why_tests_cant": "divisions and remainders by group lengths and row counts are right or wrong only for particular shapes of groups", "anchors": ["vectorbt/generic/nb.py:reduce_nb", "vectorbt/generic/nb.py:reduce_to_array_nb", "vectorbt/generic/nb.py:apply_and_reduce_nb", "vectorbt/generic/nb.py:reduce_grouped_nb", "vectorbt/generic/nb.py:flat_reduce_grouped_nb", "vectorbt/generic/nb.py:reduce_grouped_to_array_nb", "vectorbt/generic/nb.py:flat_reduce_grouped_to_array_nb", "vectorbt/generic/nb.py:flatten_forder_nb", "vectorbt/generic/nb.py:nth_reduce_nb", "vectorbt/generic/nb.py:nth_index_reduce_nb", "vectorbt/generic/nb.py:min_reduce_nb", "vectorbt/generic/nb.py:max_reduce_nb", "vectorbt/generic/nb.py:count_reduce_nb", "vectorbt/generic/nb.py:argmin_reduce_nb", "vectorbt/generic/nb.py:argmax_reduce_nb", "vectorbt/generic/accessors.py:GenericAccessor.reduce", "vectorbt/generic/accessors.py:GenericAccessor.idxmin", "vectorbt/generic/accessors.py:GenericAccessor.idxmax", "vectorbt/generic/accessors.py:GenericAccessor.apply_and_reduce"]}
{"id": "C92", "title": "Squeezing, flattening and counting groups of columns", "statement": "squeeze_grouped gives one column per group that holds, in every row, what the function returns for the values of the group in that row. flatten_grouped puts every value of a group exactly once under the label of its row, in the order asked for, and fills the places a shorter group leaves with NaN; no cell shows uninitialised memory. value_counts gives, for every group and value, the number of cells of the group with that value.", "quantifier": "every array, every division of its columns into groups, both orders, any contents of uninitialised memory", "why_tests_cant": "strided writes into memory that was not initialised go wrong only for particular combinations of group lengths", "anchors": ["vectorbt/generic/nb.py:squeeze_grouped_nb", "vectorbt/generic/nb.py:flatten_grouped_nb", "vectorbt/generic/nb.py:flatten_uniform_grouped_nb", "vectorbt/generic/nb.py:value_counts_nb", "vectorbt/generic/accessors.py:GenericDFAccessor.squeeze_grouped", "vectorbt/generic/accessors.py:GenericAccessor.flatten_grouped"]}
{"id": "C93", "title": "Mapping and filtering cells, columns, rows and groups of rows", "statement": "applymap and filter leave NaN as it is, call the function with the row, the column and the value of every other cell, and keep the shape; applymap stores the result, filter keeps the value or puts NaN. groupby_apply calls the function, for every group of rows and column, with exactly the values of those rows in that order; with on_matrix=True with all columns of those rows. apply_along_axis calls it for every column or row. An exception can come only from the function.", "quantifier": "every array, every grouping of its rows and every function given by the user", "why_tests_cant": "must hold for every function and placement of missing values", "anchors": ["vectorbt/generic/nb.py:applymap_nb", "vectorbt/generic/nb.py:filter_nb", "vectorbt/generic/nb.py:groupby_apply_nb", "vectorbt/generic/nb.py:groupby_matrix_apply_nb", "vectorbt/generic/nb.py:apply_nb", "vectorbt/generic/nb.py:row_apply_nb", "vectorbt/generic/accessors.py:GenericAccessor.applymap", "vectorbt/generic/accessors.py:GenericAccessor.filter", "vectorbt/generic/accessors.py:GenericAccessor.groupby_apply", "vectorbt/generic/accessors.py:GenericAccessor.apply_along_axis"]}
{"id": "C94", "title": "Indexing a wrapped object selects the same cells, labels and groups everywhere", "statement": "Selecting rows and columns of an indexable object with pandas syntax ([], loc, iloc) returns an object whose arrays hold exactly the cells pandas would take, in the order taken and under the labels pandas gives, whatever the selection (reordered, repeated, one row or one column as a Series). A selection is refused exactly when it is a single cell, nothing at all, or cells that share neither row nor column, and in a grouped object also a row as a Series. Selecting columns only gives whole columns and is refused for an object with one dimension. In a grouped object every selected column stays in its group. Selecting groups selects exactly the columns of those groups in order; with one or two groups the result is grouped by the selected groups. With three or more different groups it never is: the code marks the borders between groups at the lengths of the groups and not at their sums, so columns move to other groups.", "quantifier": "all objects, labels, groupings and indexing operations picking any cells; all arrays wrapped", "why_tests_cant": "A test picks a few selections on small frames; that every pick of cells, and of groups of any sizes, is repeated on every array needs a proof. The tests of group selection use two groups, for which the wrong borders are right.", "anchors": ["vectorbt/base/array_wrapper.py:ArrayWrapper.indexing_func_meta", "vectorbt/base/array_wrapper.py:ArrayWrapper.wrap", "vectorbt/utils/array_.py:get_ranges_arr"]}
{"id": "C95", "title": "Mapped arrays are selected, sorted, filtered and reduced entry by entry, per column or per group", "statement": "Every value of a mapped array keeps its identifier and its row through all operations. Selecting columns takes exactly the entries of the selected columns, column after column in their order, under the new column numbers. sort orders by column (and identifier), keeps entries with equal keys in order and loses none. apply_mask keeps exactly the marked entries. top_n(n) and bottom_n(n) keep, in every column or in every group of a grouped array, the n best values and no others. reduce, the methods named after reducers and count see, for every column or group, exactly its values in order, and the result stands under the label of that column or group; columns and groups without values get the fill value. A reducer returning a position gives the label of the row of the value at that position. A grouping passed to top_n or bottom_n regroups the result but does not decide which values are kept.", "quantifier": "all mapped arrays, values, columns, identifiers, rows, groupings, masks, reducers, n and selections", "why_tests_cant": "Tests check one small mapped array; that the pairing of values, identifiers, columns and rows survives every selection, order and grouping needs a proof.", "anchors": ["vectorbt/records/mapped_array.py:MappedArray.indexing_func_meta", "vectorbt/records/mapped_array.py:MappedArray.sort", "vectorbt/records/mapped_array.py:MappedArray.apply_mask", "vectorbt/records/mapped_array.py:MappedArray.top_n", "vectorbt/records/mapped_array.py:MappedArray.reduce", "vectorbt/records/col_mapper.py:ColumnMapper.get_col_map"]}
{"id": "C96", "title": "Mapped arrays and pandas objects convert into each other without moving a value", "statement": "to_pd puts every value of a mapped array in its row under its column, or its group if the array is grouped, and the fill value everywhere else; it raises ValueError exactly when two values would share a cell. to_mapped lists the cells of an object column by column with their rows and columns, leaving out NaN if dropna. Converting an object to a mapped array and back gives the same index, columns and cells.", "quantifier": "all arrays, shapes, labels, NaN patterns, groupings and mapped arrays", "why_tests_cant": "Tests convert one frame; that no value moves for any shape and pattern of NaN needs a proof.", "anchors": ["vectorbt/records/mapped_array.py:MappedArray.to_pd", "vectorbt/generic/accessors.py:GenericAccessor.to_mapped"]}
{"id": "C97", "title": "The Rust series kernels that share their algorithm with Numba give the same bits", "statement": "Choosing engine='rust' does not change the result of ffill, bfill, bshift, fshift, diff, pct_change, rolling min, max and std, expanding min and max, the exponential mean, ranges, drawdowns and crossovers: for every input the value (or the error about the minimum number of periods) is the one Numba gives, bit for bit, with any rounding. For arrays with several columns, which Rust walks row by row, every column of the result is what the function for one column gives. argmin and argmax return the first position of the best number, and the same as Numba unless every number is the worst infinity.", "quantifier": "all series, shapes, NaN patterns, windows, periods, spans, degrees of freedom, waits, and number types (rationals and IEEE doubles)", "why_tests_cant": "The engine tests compare a few random arrays with a tolerance; equality to the last bit for every input and layout cannot be tested.", "anchors": ["rust/src/generic.rs:ffill_2d_c_inner", "rust/src/generic.rs:rolling_std_1d_inner", "rust/src/generic.rs:ewm_mean_1d_inner", "rust/src/generic.rs:find_ranges", "rust/src/generic.rs:get_drawdowns", "rust/src/generic.rs:crossed_above_1d", "rust/src/generic.rs:argmin_reduce", "vectorbt/generic/nb.py:rolling_std_1d_nb"]}
{"id": "C98", "title": "The Rust means and expanding deviations are the exact means and deviations, as Numba's are", "statement": "With engine='rust' the rolling and expanding mean are the mean of the numbers in the window, and the expanding standard deviation is the root of their variance with ddof; NaN stands where there are fewer numbers than the period asks for (or than ddof allows). In exact arithmetic they agree with Numba wherever Numba returns.", "quantifier": "all series of numbers and NaN, windows, periods and degrees of freedom", "why_tests_cant": "Rust uses other algorithms (running sum and count, sum of squares) than Numba; agreement on samples says nothing about other inputs.", "anchors": ["rust/src/generic.rs:rolling_mean_1d_inner", "rust/src/generic.rs:expanding_mean_1d_inner", "rust/src/generic.rs:expanding_std_1d_inner", "vectorbt/generic/nb.py:rolling_mean_1d_nb", "vectorbt/generic/nb.py:expanding_std_1d_nb"]}
{"id": "C99", "title": "Statistics of a column are those of its numbers", "statement": "sum, product, cumulative sum and product, mean, median, standard deviation and describe of a column leave NaN out and are exactly the sum, the product, ..., of the numbers that remain: the cumulative ones cover the rows up to and including their own; the median is the middle number or halfway between the two middle ones; the deviation is the root of the variance with ddof, NaN when there are at most ddof numbers; describe lists count, mean, deviation, minimum, the asked percentiles (on the straight line between neighbours) and maximum. Without any number the mean, the median and everything in describe but the count are NaN. Percentiles outside [0, 1] raise a ValueError.", "quantifier": "all columns of numbers and NaN, all lists of percentiles, all ddof", "why_tests_cant": "Tests compare a few columns with pandas; that it holds for every pattern of NaN and every percentile cannot be tested.", "anchors": ["vectorbt/generic/nb.py:nancumsum_nb", "vectorbt/generic/nb.py:nancumprod_nb", "vectorbt/generic/nb.py:nanprod_nb", "vectorbt/generic/nb.py:sum_reduce_nb", "vectorbt/generic/nb.py:median_reduce_nb", "vectorbt/generic/nb.py:nanstd_1d_nb", "vectorbt/generic/nb.py:describe_reduce_nb"]}
{"id": "C100", "title": "The Rust statistics of columns agree with Numba's", "statement": "With engine='rust', sum, product, cumulative sum and product, count and mean of a column are the bits Numba gives (mean: where there is a number; NaN otherwise), and arrays walked row by row give the bits of their columns. Minimum and maximum are neither less nor greater than Numba's and NaN exactly when they are. Median, standard deviation (of a column, and of an array walked row by row) and describe are the same numbers in exact arithmetic.", "quantifier": "all columns and arrays, all percentiles in [0, 1], all ddof; bitwise claims for rationals and IEEE doubles", "why_tests_cant": "Rust uses other algorithms (selection instead of sorting, sums of squares, percentiles of a sorted copy); agreement on samples within a tolerance says nothing about other inputs.", "anchors": ["rust/src/generic.rs:nansum_2d_c", "rust/src/generic.rs:nanmean_2d_c", "rust/src/generic.rs:nanstd_2d_c", "rust/src/generic.rs:nanmin_1d", "rust/src/generic.rs:nanmedian_1d", "rust/src/generic.rs:nanstd_1d", "rust/src/generic.rs:percentile_sorted", "rust/src/generic.rs:describe_reduce_1d"]}
{"id": "C101", "title": "Choosing the Rust engine does not change how records are selected, sorted, expanded, counted and ranked", "statement": "For record and mapped arrays whose column numbers are in range, the Rust kernels return what the Numba kernels return: the ranges and the maps of columns (and the same refusal of unsorted columns), the indices and the records of selected columns with their new column numbers, the two checks of order, whether a mapped array can be expanded, its expansion and stacking into a matrix, the counts of its values by column, and the masks of the N largest and smallest values of every column with NaN and ties. For selecting records the array must lie contiguously in memory: the Rust kernel ignores strides, so from a view of every second record it returns the records in between (witness).", "quantifier": "all column arrays, numbers of columns, ranges and maps of columns, requested columns (repeated and reordered), record arrays of any record type, mapped arrays over any number type whose comparisons order the numbers, fill values, codes, N, and all contents of fresh memory", "why_tests_cant": "The Rust kernels work on flat memory with hand-computed offsets, copy raw bytes and take a fast path for runs of adjacent records, so that a wrong offset shows only for particular shapes and orders; tests compare engines on a few arrays.", "anchors": ["rust/src/records.rs:col_range", "rust/src/records.rs:col_range_select", "rust/src/records.rs:record_col_range_select_rs", "rust/src/records.rs:col_map", "rust/src/records.rs:col_map_select", "rust/src/records.rs:record_col_map_select_rs", "rust/src/records.rs:expand_mapped", "rust/src/records.rs:top_n_mapped_mask", "vectorbt/records/dispatch.py:record_col_map_select", "vectorbt/records/nb.py:col_range_nb"]}
{"id": "C102", "title": "Choosing the Rust engine does not change the labels", "statement": "The Rust label generators return what the Numba ones return: local extrema with the same labels and the same errors, trend labels in all five modes and labels of given extrema, breakout labels, fixed labels, and the statistics of the period ahead. The extremes of the period ahead are equal as numbers; means, deviations and labels from means are equal in exact arithmetic; exponential means, and extremes and deviations of arrays that are not stored row by row, are computed identically. Two exceptions have witnesses: where a trend label divides by zero, Numba raises and Rust returns an infinite label; and for an array stored row by row Rust computes the deviation ahead from sums of squares, so that between the prices 1000000000 and 1000000001 it is 0 in floating point instead of 1/2.", "quantifier": "all price arrays of any shape (gaps and infinities where the statement does not need exact arithmetic), thresholds per bar, modes, windows, waits, degrees of freedom and numbers of bars ahead, over any number type with one infinity of each sign (floating point and exact numbers are)", "why_tests_cant": "The Rust code replaces reverse-roll-reverse-shift by one pass from the last row with running sums on flat memory, pairs extrema in one pass instead of through an index array and starts extremes from infinity; differences show only for particular gaps, shapes and magnitudes, while tests compare engines on a few small arrays.", "anchors": ["rust/src/labels.rs:future_mean_apply_rolling_c", "rust/src/labels.rs:future_std_apply_rolling_c", "rust/src/labels.rs:mean_labels_apply_rolling_c", "rust/src/labels.rs:future_min_max_apply_rolling_c", "rust/src/labels.rs:fixed_labels_apply", "rust/src/labels.rs:local_extrema_apply", "rust/src/labels.rs:bn_cont_sat_trend_labels", "rust/src/labels.rs:pct_trend_labels", "rust/src/labels.rs:trend_labels_apply", "rust/src/labels.rs:breakout_labels", "vectorbt/labels/nb.py:trend_labels_apply_nb", "vectorbt/labels/dispatch.py:future_std_apply"]}
{"id": "C103", "title": "Choosing the Rust engine does not change the statistics of returns", "statement": "The Rust return statistics are the Numba ones. Returns, cumulative, total and annualized returns, downside risk, Sortino ratio, beta, alpha, the three capture ratios and conditional value at risk are computed identically in floating point too, for one series and, where Rust walks an array row by row, for every column of an array with at least one column. Volatility, Sharpe ratio, information ratio, drawdowns, Calmar ratio and omega ratio are equal in exact arithmetic; value at risk and tail ratio of returns without infinities are equal as numbers for every cutoff from 0 to 1. A rolling statistic is equal when its values on windows are and minp does not exceed the window. The exceptions have witnesses: arrays without columns make Rust panic; minp above the window is an error in Rust and NaN in Numba; a negative cutoff is an error in Numba and the smallest return in Rust; the drawdown of no returns is an error in Numba and infinite in Rust; and Levy's alpha 0 is an error only in Numba.", "quantifier": "all return series, benchmarks and arrays of any shape, with gaps and infinities where the statement does not exclude them, all annualization factors, risk-free and required rates, degrees of freedom, cutoffs, windows and minp, whatever the power and square root functions compute, over any number type with one NaN that spreads (floating point and exact numbers are)", "why_tests_cant": "The Rust code accumulates products, sums and counts in one pass, divides in another order, interpolates quantiles with another formula and walks arrays along rows; differences would show only for particular gaps, lengths and parameters, while tests compare engines on a few small arrays.", "anchors": ["rust/src/returns.rs:returns_1d", "rust/src/returns.rs:cum_returns_final_1d", "rust/src/returns.rs:annualized_return_1d", "rust/src/returns.rs:annualized_volatility_1d", "rust/src/returns.rs:max_drawdown_1d", "rust/src/returns.rs:omega_ratio_1d", "rust/src/returns.rs:sharpe_ratio_1d", "rust/src/returns.rs:downside_risk_1d", "rust/src/returns.rs:information_ratio_1d", "rust/src/returns.rs:beta_1d", "rust/src/returns.rs:value_at_risk_1d", "rust/src/returns.rs:capture_1d", "rust/src/returns.rs:rolling_apply_2d_by_col", "vectorbt/returns/nb.py:beta_1d_nb", "vectorbt/returns/nb.py:value_at_risk_1d_nb"]}
{"id": "C104", "title": "Choosing the Rust engine does not change the indicators", "statement": "The Rust indicators are the Numba ones. Exponential moving averages, simple and exponential moving deviations and the true range are computed identically in floating point too, and where Rust walks an array row by row every column gets what it would get alone. In exact arithmetic, for series without infinities and windows of at least one bar, moving averages, Bollinger bands, RSI, the stochastic oscillator (low <= close <= high), MACD, average true range and on-balance volume are equal for every listed combination of parameters, looked up through each engine's cache under whatever collision-free hash it uses. In any arithmetic each indicator is equal wherever the moving averages and deviations it uses are. Rust refuses parameter lists, and price series, of different lengths. The exceptions have witnesses: a simple average over no bars is an error in Numba and NaN in Rust, and in floating point the two simple averages may round differently.", "quantifier": "all price and volume series with gaps, arrays of any shape, all lists of windows and smoothing flags, adjusted or not, all degrees of freedom and band widths, all collision-free hash functions, whatever the square root computes, over any number type ordered like numbers with NaN (floating point and exact numbers are)", "why_tests_cant": "The Rust code fuses several array passes into one, keeps per-column running state across rows, skips NaN instead of replacing it by zero and hashes cache keys differently; a divergence would need particular gaps or parameter lists to show, and tests compare the engines on a few small arrays.", "anchors": ["rust/src/indicators.rs:ma_2d", "rust/src/indicators.rs:mstd_2d", "rust/src/indicators.rs:build_ma_cache", "rust/src/indicators.rs:build_mstd_cache", "rust/src/indicators.rs:bb_apply_rs", "rust/src/indicators.rs:rsi_cache_rs", "rust/src/indicators.rs:rsi_apply_rs", "rust/src/indicators.rs:stoch_cache_rs", "rust/src/indicators.rs:stoch_apply_rs", "rust/src/indicators.rs:macd_cache_rs", "rust/src/indicators.rs:macd_apply_rs", "rust/src/indicators.rs:true_range_2d", "rust/src/indicators.rs:atr_cache_rs", "rust/src/indicators.rs:obv_custom_rs", "rust/src/generic.rs:ewm_std_1d", "rust/src/generic.rs:ewm_std_2d_c", "vectorbt/indicators/nb.py:rsi_cache_nb", "vectorbt/indicators/nb.py:macd_apply_nb", "vectorbt/indicators/nb.py:obv_custom_nb"]}
{"id": "C105", "title": "Choosing the Rust engine does not change the analysis of signals", "statement": "The Rust signal analysis gives exactly what the Numba one gives. Cleaning entries and exits, the position of the n-th signal from the front or the back, and the ranks of signals and of partitions, with or without a reset array, are equal. Ranges between signals, from the signals of one array to those of another in both directions, partitions and gaps between partitions are the same records: one per range, column after column, with ids counting through all columns, the same bounds and status. In exact arithmetic the normalised average position is equal too, NaN included; with two bars or more and at least one signal it is 2 * mean position / last position - 1 and lies between -1 and 1.", "quantifier": "all boolean arrays with any number of rows and columns, all reset arrays of the same length, all positions n, positive or negative, and all flags", "why_tests_cant": "The Rust code replaces index arrays by running positions with -1 for none, numbers records through all columns in one counter and looks ahead with two pointers; an off-by-one would show only for particular patterns of signals across columns, and tests compare the engines on a few small masks.", "anchors": ["rust/src/signals.rs:clean_enex_1d", "rust/src/signals.rs:clean_enex_2d", "rust/src/signals.rs:between_ranges", "rust/src/signals.rs:between_two_ranges", "rust/src/signals.rs:partition_ranges", "rust/src/signals.rs:between_partition_ranges", "rust/src/signals.rs:sig_pos_rank", "rust/src/signals.rs:part_pos_rank", "rust/src/signals.rs:nth_index_1d", "rust/src/signals.rs:norm_avg_index_1d", "rust/src/signals.rs:norm_avg_index", "vectorbt/signals/nb.py:norm_avg_index_1d_nb", "vectorbt/utils/array_.py:renormalize"]}
{"id": "C106", "title": "Choosing the Rust engine does not change the stop signals", "statement": "The Rust stop generators place the same signals as the Numba ones. Exits by stop-loss, trailing stop or take-profit after given entries, the first or all of them, up to the next entry or not, skipping entries before the exit or not, are equal in any arithmetic and the Numba generator never fails on them. Generating entries and exits one after another, both engines stop after the same number of rounds with the same arrays or the same error. Stops checked against OHLC bars find the same bars, stop prices and stop types and refuse negative stops alike, also where prices of a bar are missing; without negative stops the OHLC generators give the same signals.", "quantifier": "all price series and OHLC bars with gaps, all stops and flags varying by bar, all waits, all entries of any length, any number of rounds, over any number type ordered like numbers with NaN (floating point and exact numbers are)", "why_tests_cant": "Rust replaces the choice callback and the array of entry positions by scans that find the next entry, and computes the first stop and all stops in separate loops; a difference would need particular overlaps of entries, waits and stops to show.", "anchors": ["rust/src/signals.rs:next_true_in_col", "rust/src/signals.rs:stop_choice_first", "rust/src/signals.rs:stop_choice_all", "rust/src/signals.rs:generate_stop_ex", "rust/src/signals.rs:generate_stop_enex", "rust/src/signals.rs:ohlc_stop_choice", "rust/src/signals.rs:generate_ohlc_stop_ex", "rust/src/signals.rs:generate_ohlc_stop_enex", "vectorbt/signals/nb.py:generate_stop_ex_nb", "vectorbt/signals/nb.py:generate_stop_enex_nb", "vectorbt/signals/nb.py:ohlc_stop_choice_nb"]}
{"id": "C107", "title": "On the same random draws, the Rust engine places the same random signals", "statement": "The Rust random signal generators are the Numba ones up to the numbers the random generator draws. Given the same draws, choosing n rows, signals by probability (the first or all), exits by probability after given entries, and entries and exits by probability one after another give the same signals, and the Numba generators raise no error the Rust ones do not; the last pair also stops after the same number of rounds. For one random exit per entry, where Numba shuffles the rows of the range and takes the first and Rust draws one offset, the exits are equal when the offset is the first of the shuffled rows; so no setting of wait, until_next or skip_until_exit is treated differently.", "quantifier": "all draws, all orders of the rows, all probabilities varying by row (NaN too), all entries of any length, all waits and flags, any number of rounds, any number type", "why_tests_cant": "The two engines use different random generators, so a test cannot compare their outputs for one seed; what they do with the draws has to be compared for every sequence of draws.", "anchors": ["rust/src/signals.rs:generate_rand", "rust/src/signals.rs:generate_rand_by_prob", "rust/src/signals.rs:generate_rand_ex", "rust/src/signals.rs:generate_rand_ex_by_prob", "rust/src/signals.rs:generate_rand_enex_by_prob", "vectorbt/signals/nb.py:generate_rand_nb", "vectorbt/signals/nb.py:generate_rand_by_prob_nb", "vectorbt/signals/nb.py:generate_rand_ex_nb", "vectorbt/signals/nb.py:generate_rand_ex_by_prob_nb", "vectorbt/signals/nb.py:generate_rand_enex_by_prob_nb"]}
{"id": "C108", "title": "On the same random draws, the Rust engine places the same number of random entry and exit pairs on the same bars", "statement": "Random entries and exits by number: whenever the Numba generator returns, the Rust generator fed with the same random draws returns the same entries and exits in every column. If every column asks for at least one pair, the two return on exactly the same inputs, and where the pairs do not fit Rust fails too. Rust clips the free space at zero, which the Numba code does not; the free space is never negative when the pairs fit, so this makes no difference. Asking for zero pairs is the one difference: Rust leaves the column empty, the Numba code indexes out of bounds.", "quantifier": "all random streams (uniform numbers, bounded integers, orders of rows), all numbers of rows, all numbers of pairs per column, any number of columns, all waits", "why_tests_cant": "The two engines use different random generators, so no test can compare their outputs for one seed; the Rust code works with unsigned integers, clips and casts where the Numba code uses signed numbers, and only particular combinations of waits, sizes and draws would show a difference.", "anchors": ["rust/src/signals.rs:generate_rand_enex", "rust/src/signals.rs:uniform_summing_to_one", "rust/src/signals.rs:rescale_float_to_int", "vectorbt/signals/nb.py:generate_rand_enex_nb", "vectorbt/utils/array_.py:uniform_summing_to_one_nb", "vectorbt/utils/array_.py:rescale_float_to_int_nb"]}
