# Formal model of vectorbt in Rocq

`properties.jsonl` lists the properties, `MANIFEST.json` maps them to theorems
and says what each theorem covers, `rocq/theories` holds the model, the
specifications and the proofs, `seeded/LOG.jsonl` the wrong programs the theorems were
tested against. A theorem counts as failed there when its proof, or a lemma it uses, no
longer goes through on the edited model. That shows that the proof depends on the edited
line; it does not by itself show that the statement became false. Four edits that change
nothing (claim `none`) also break proofs, because the scripts follow the text of the model.
Edits that no proof noticed led to the theorems in `theorems_tightened`.

## Files

* Model: `Base`, `Num`, `XQ` instances, and one file per group of source files (see
  *What is modelled*). Model files hold definitions only. Each definition cites the
  file and lines it models and says where it simplifies.
* Specification: `*Spec.v`, the small vocabulary the statements use.
* Statements: `*Props*.v`. Only theorems closed by a lemma, `Print Assumptions`
  after each, and an `Example Cxx_nonvacuous` which shows that the hypotheses are met
  by a concrete case.
* Proofs: all other files.

Suffixes: `_partial` is a theorem that covers only part of the property; `_refuted`
is a concrete counterexample to a wider claim, proved by computation.

## How the code is modelled

* Every modelled function becomes one total Gallina function which
  mirrors it branch by branch. Loops become structural recursion over the bar
  index or a list. No fuel, except where a `while` loop need not end (C34) and for the
  evaluation of cached properties that call each other (C55), and for the
  `while` loops of the Rust signal code, which get a number of steps they cannot exceed
  (C105 to C108) or, where they need not end, any number of rounds (C106, C107).
* Exceptions are values (`Err`), never defaults.
* Numbers: the code is polymorphic in a record `Num` of *operations only*
  (no laws). Two instances are given:
  * `XQ`: NaN, +inf, -inf and exact rationals, with the IEEE rules for the
    special values. Accounting theorems (sums, inequalities) are stated here.
    Rounding of finite results is not modelled in this instance.
  * `B64`: IEEE-754 binary64 from Flocq, round to nearest even. Structural theorems
    (no look-ahead, independence, records, alternation, ...) are proved for every
    `Num`, hence for `B64` too. Theorems which only compare are proved for every
    `Num` whose comparison satisfies `OrdLaws`; both instances do
    (`C16_doubles_are_ordered`).
* Numba compiles `a / b` on scalars with `error_model='python'`: division by zero
  raises. The model does the same (`Err ZeroDivision`). Division of arrays follows NumPy.
* Functions the model does not define (power, square root, user callbacks, hash
  functions, random numbers) are universally quantified parameters. A stream of random
  numbers is a function of the number of draws so far.
* Broadcast inputs are functions of bar and column, which is what
  `flex_select_auto_nb` provides; that function is verified separately (C49).
* Two-dimensional kernels apply a one-dimensional kernel to each column, so they are
  modelled by the one-dimensional kernel.
* Mutable dictionaries, configs and caches live in an explicit heap, with aliasing;
  threads interleave at every access to what they share.

## Trusted base

* Coq 8.16.1's kernel (`coqchk` accepts the compiled files).
* The correspondence between the cited lines and the Gallina definitions,
  which is by reading: the code was not run.
* The semantics of Python, NumPy, Numba and Rust used in the model, as listed above.
* Nothing else: no axioms are added, no kernel check is switched off, there are no
  admitted proofs, functors or module types.

`Print Assumptions` follows each theorem in the `*Props*.v` files. Its output:

580 theorems: `Closed under the global context`.

30 theorems about IEEE doubles, which rest on Flocq and through it on the standard library's real numbers:

* `C100_std_layout_refuted`
* `C102_future_variance_float_refuted`
* `C102_infinities`
* `C103_arithmetics`
* `C104_rounding_refuted`
* `C16_doubles_are_ordered`
* `C41_doubles`
* `C56_granularity_f64_refuted`
* `C56_process_order_agrees_f64`
* `C56_simulation_agrees_f64`
* `C56_tolerant_arithmetic_agrees_f64`
* `C78_signals_agree_f64`
* `C80_entry_trades_agree_f64`
* `C80_exit_trades_agree_f64`
* `C80_positions_agree_f64`
* `C80_streaks_agree_f64`
* `C80_trades_kept_together_f64`
* `C82_asset_flow_agrees_f64`
* `C82_balances_agree_f64`
* `C82_benchmark_rounding_refuted`
* `C82_cash_flow_agrees_f64`
* `C82_initial_cash_agrees_f64`
* `C82_ratios_agree_f64`
* `C82_total_profit_agrees_f64`
* `C82_values_in_simulation_order_agree_f64`
* `C83_single_precision_refuted`
* `C91_doubles`
* `C97_spans_exact`
* `C98_expanding_std_cancellation_refuted`
* `C98_rolling_mean_rounding_refuted`

Their axioms, all of the standard library:

* `ClassicalDedekindReals.sig_forall_dec`
* `ClassicalDedekindReals.sig_not_dec`
* `Classical_Prop.classic`
* `FunctionalExtensionality.functional_extensionality_dep`


## Properties

| id | property | status | model | how it is proved |
|----|----------|--------|-------|------|
| C01 | Cash never goes negative | proved | Order, Account | case analysis of every exit path of an order in exact arithmetic; invariants by induction over order histories |
| C02 | Direction limits are respected | partial | Order, Account | case analysis of every exit path of an order in exact arithmetic; invariants by induction over order histories |
| C03 | Unfilled orders have no effect | proved | Order, Records | case analysis / induction over calls, any number type |
| C04 | Fills are accounted for exactly | proved | Order, Account | case analysis of every exit path of an order in exact arithmetic; invariants by induction over order histories |
| C05 | Filled sizes obey the order's limits | partial | Order, Account | case analysis of every exit path of an order in exact arithmetic; invariants by induction over order histories |
| C06 | A size of zero or NaN skips the bar | partial | Order, Account | case analysis of every exit path of an order in exact arithmetic; invariants by induction over order histories |
| C07 | Debt and free cash stay consistent | proved | Order, Account | case analysis of every exit path of an order in exact arithmetic; invariants by induction over order histories |
| C08 | Locking cash keeps free cash non-negative | partial | Order, Account | case analysis of every exit path of an order in exact arithmetic; invariants by induction over order histories |
| C09 | Target orders reach their target | proved | Order, Account | case analysis of every exit path of an order in exact arithmetic; invariants by induction over order histories |
| C10 | Group value after a fill | proved | Order, Account | case analysis of every exit path of an order in exact arithmetic; invariants by induction over order histories |
| C11 | Order and log record bookkeeping | proved | Order, Records | case analysis / induction over calls, any number type |
| C12 | Portfolio.from_orders does not look ahead | proved | Simulate | relation between two runs, induction on bars and groups, any number type |
| C13 | Groups are simulated independently | proved | Simulate | relation between two runs, induction on bars and groups, any number type |
| C14 | Order records are chronological | proved | Simulate | relation between two runs, induction on bars and groups, any number type |
| C15 | Replaying order records reproduces the account | proved | Simulate, Replay | refinement: simulator and replay both against an exact ledger |
| C16 | Automatic call sequence sorts by order value | proved | CallSeq | permutation and sortedness of insertion sort by induction |
| C17 | Built call sequences are permutations | proved | CallSeq | permutation and sortedness of insertion sort by induction |
| C18 | Signal conflicts resolve as documented | proved | FromSignals | decision tables; lockstep of two runs; invariant for the trailing level |
| C19 | Portfolio.from_signals does not look ahead | proved | FromSignals | decision tables; lockstep of two runs; invariant for the trailing level |
| C20 | Stop orders trigger exactly when hit | proved | FromSignals | decision tables; lockstep of two runs; invariant for the trailing level |
| C21 | Exit trades conserve size, fees and profit | proved | Trades | invariant carried through the fold over orders, error bound counted per order |
| C22 | Entry trades, exit trades and positions agree | proved | Trades | invariant carried through the fold over orders, error bound counted per order |
| C23 | Trade records are well formed | proved | Trades | invariant carried through the fold over orders, error bound counted per order |
| C24 | Total profit equals final value minus initial cash | proved | Simulate, Replay | refinement: simulator and replay both against an exact ledger |
| C25 | Forward and backward filling and shifting | proved | GenericNb | loop invariants relating the accumulator to the window definition |
| C26 | Rolling minimum, maximum and mean equal their window definition | proved | GenericNb | loop invariants relating the accumulator to the window definition |
| C27 | Rolling standard deviation equals its window definition | proved | GenericNb | loop invariants relating the accumulator to the window definition |
| C28 | Expanding and exponential statistics | proved | GenericNb | loop invariants relating the accumulator to the window definition |
| C29 | Ranges are the maximal runs of a mask | proved | GenericNb | loop invariants relating the accumulator to the window definition |
| C30 | Drawdown records describe the drawdowns of the series | proved | GenericNb | loop invariants relating the accumulator to the window definition |
| C31 | Crossovers | proved | GenericNb | loop invariants relating the accumulator to the window definition |
| C32 | Cleaned signals alternate | proved | SignalsNb | invariants over array prefixes; choice functions are arbitrary parameters |
| C33 | Generated exits stay in their window | proved | SignalsNb | invariants over array prefixes; choice functions are arbitrary parameters |
| C34 | Generated entry/exit pairs alternate | proved | SignalsNb | invariants over array prefixes; choice functions are arbitrary parameters |
| C35 | Stop exit signals fire at the first hit | proved | SignalsNb | invariants over array prefixes; choice functions are arbitrary parameters |
| C36 | Signal ranking | proved | SignalsNb | invariants over array prefixes; choice functions are arbitrary parameters |
| C37 | N-th signal index | proved | SignalsNb | invariants over array prefixes; choice functions are arbitrary parameters |
| C38 | Ranges between signals | proved | SignalsNb | invariants over array prefixes; choice functions are arbitrary parameters |
| C39 | Column maps partition the records | proved | RecordsNb | counting sort invariant; lists as multisets |
| C40 | Selecting columns from records | proved | RecordsNb | counting sort invariant; lists as multisets |
| C41 | Top and bottom N | proved | RecordsNb | counting sort invariant; lists as multisets |
| C42 | Expanding mapped arrays | proved | RecordsNb | counting sort invariant; lists as multisets |
| C43 | Returns compound to the value series | proved | ReturnsNb | telescoping by induction; inequalities over Q |
| C44 | Maximum drawdown of returns | proved | ReturnsNb | telescoping by induction; inequalities over Q |
| C45 | Local extrema alternate | proved | LabelsNb | invariants over the scan |
| C46 | Breakout labels report the first hit | proved | LabelsNb | invariants over the scan |
| C47 | Indicator bounds | proved | IndicatorsNb | inequalities over Q; refinement of cache dictionaries |
| C48 | Indicator caches are transparent | proved | IndicatorsNb | inequalities over Q; refinement of cache dictionaries |
| C49 | Flexible indexing equals broadcasting | proved | Reshape | arithmetic |
| C50 | Group lengths | proved | Grouper | list induction |
| C51 | Splitters partition ranges | proved | Splitters | arithmetic and list induction |
| C52 | Parameter products and index stacking | proved | IndexFns | list induction |
| C53 | Merging configs | proved | Dicts | nested induction over heaps; invariant over sequences of calls |
| C54 | Read-only and frozen configs cannot be changed; reset restores | proved | Dicts | nested induction over heaps; invariant over sequences of calls |
| C55 | Caching is transparent | proved | Cache, CacheThreads | refinement to the uncached run; invariant over all interleavings |
| C56 | The Rust engine simulates like the Numba engine | proved | RustOrder, RustSim | relation between two programs, case analysis and induction on bars |
| C57 | Winning and losing streaks | proved | Trades | invariant carried through the fold over orders, error bound counted per order |
| C58 | Reducing and mapping values by column | proved | RecordsNb | counting sort invariant; lists as multisets |
| C59 | Ways of passing signals agree | proved | FromSignals | decision tables; lockstep of two runs; invariant for the trailing level |
| C60 | Rolling statistics are statistics of the window | proved | ReturnsNb | telescoping by induction; inequalities over Q |
| C61 | Value at risk and expected shortfall | proved | ReturnsNb | telescoping by induction; inequalities over Q |
| C62 | Beta measures exposure to the benchmark | proved | ReturnsNb | telescoping by induction; inequalities over Q |
| C63 | Missing returns do not count | proved | ReturnsNb | telescoping by induction; inequalities over Q |
| C64 | Trend labels describe the way to the next extremum | proved | LabelsNb | invariants over the scan |
| C65 | Look-ahead labels describe exactly the period ahead | proved | LabelsNb | invariants over the scan |
| C66 | Exponentially weighted deviation | proved | GenericNb | loop invariants relating the accumulator to the window definition |
| C67 | Restrictions on regrouping | proved | Grouper | list induction |
| C68 | Aligning indexes | proved | IndexFns | list induction |
| C69 | The position record handed to callbacks | proved | OrderFunc | invariant between record and list of parts, induction over fills |
| C70 | No look-ahead in simulation with callbacks | proved | OrderFunc | the first t rows of both runs are equal; later rows only append records of their row |
| C71 | Order of the callback calls | proved | OrderFunc | the run with observing callbacks shadows the run without, induction over segments, groups and rows |
| C72 | What callbacks are shown | proved | OrderFunc | invariant of the states shown plus a relation between state and history of calls |
| C73 | The account shown to callbacks is that of the records | proved | OrderFunc | invariant of all states shown, from the accounting of single fills |
| C74 | A flexible order function can follow the call sequence | proved | OrderFunc | simulation of the flexible loop by the loop over the call sequence |
| C75 | Orders given as arrays agree with order functions | proved | OrderFunc | relation between the local variables of one simulator and the arrays of the other, kept by every order, segment and group |
| C76 | Random entries and exits come in the number asked for | proved | RandSignals | sums of rescaled floats, spacing of cumulative sums, masks of sorted positions |
| C77 | Stop signals one after another are those with skip_until_exit | proved | StopSignals | simulation of the rounds of one generator by the loop over entries of the other |
| C78 | Both engines give the same simulation from signals | proved | RustSignals | step-by-step simulation between the two states, on top of C55 for each order |
| C79 | Broadcasting gives one shape, the right values and one set of labels | proved | Broadcast | induction over the arguments; stacking keeps every informative level; C68 for alignment |
| C80 | Both engines derive the same trades and positions from orders | proved | RustTrades | simulation relation between the loop states of the two engines, over records and columns |
| C81 | Performance series follow from cash, asset values and prices | proved | Performance | invariants over the calls of a group: running sum of the last calls and distance to the last missing value; induction over groups and bars |
| C82 | The Rust engine keeps the same account and performance as the Numba engine | proved | RustReplay | agreement of the operations of both engines carried through the loops by induction, for any number type with the laws both engines rely on, then for exact numbers and for doubles |
| C83 | The choice of the engine is explicit, safe and cannot be seen in the values | proved | Engine | case analysis of the choice; induction over argument checks, array values (modular casts of safe types) and histories |
| C84 | Risk and reward ratios have their textbook meaning | proved | Ratios | folds over the series by induction, map of excess returns, drop of missing values |
| C85 | Running an indicator over parameters | proved | Indicator.v models run_pipeline, build_columns, the constructor's checks, from_apply_func, run_combs and selection by a parameter; arrays are lists of columns, parameters of any type with an equality and a label. | A two-way characterization of the raw results (run_raw_spec) from the loop over combinations; columns by position arithmetic on concatenated blocks; labels by the specification of stacking indexes proved for C79; equal combinations by correctness and completeness of list.index on the deduplicated tuples. |
| C86 | Long, short and free-cash sides of an account follow its orders; cash in simulation order follows the calls | proved | Replay | invariant over the records: replayed position, debt and carried flows against the exact ledger; permutation of calls for the order |
| C87 | Data of several symbols is aligned without moving a value | proved | Data | invariant of the loop that joins labels (set, order, sortedness); look-up lemmas for reindexing |
| C88 | Updating data keeps history and takes over what is new | proved | Data | consistency of a data set as an invariant; rows kept by the last-duplicate mask |
| C89 | Columns of several symbols stand side by side | proved | Data | induction over symbols and columns |
| C90 | Functions applied to rolling and expanding windows | proved | Reduce | the running counts are shown equal to counts over the window, so the loop is a map over rows |
| C91 | Reducing columns and groups of columns | proved | Reduce | the loop over groups is a map over groups whose first column is the sum of the lengths before; flattening is characterised cell by cell |
| C92 | Squeezing, flattening and counting groups of columns | proved | Reduce | writes to distinct places are independent of their order; places are injective in row and column |
| C93 | Mapping and filtering cells, columns, rows and groups of rows | proved | Reduce | loops that store one result per turn are maps |
| C94 | Indexing a wrapped object selects the same cells, labels and groups everywhere | proved | Wrapper | Case analysis of the picked cells; ranges of columns by induction over blocks of jumps and ones; the borders by showing which positions are never written. |
| C95 | Mapped arrays are selected, sorted, filtered and reduced entry by entry, per column or per group | proved | Mapped | Entries as one list of records; every operation is shown to be a list operation on it, using the kernel theorems of C39-C42 for each column or group number. |
| C96 | Mapped arrays and pandas objects convert into each other without moving a value | proved | Mapped | The cells column by column form a duplicate-free list; expanding a list of cells without duplicates (C42) puts every value in place. |
| C97 | The Rust series kernels that share their algorithm with Numba give the same bits | proved | RustGeneric | Simulation between the row-major loops of Rust and the per-column recursions of Numba, for every number type with the order laws; the rolling deviation by an invariant between the two window states. |
| C98 | The Rust means and expanding deviations are the exact means and deviations, as Numba's are | proved | RustGeneric | Invariants: running sum and count of the window, sum and sum of squares of the prefix; algebra of the variance. |
| C99 | Statistics of a column are those of its numbers | proved | Describe | Folds over the numbers of a column against independent definitions of mean, variance, median and quantile; sorting by permutation and order. |
| C100 | The Rust statistics of columns agree with Numba's | proved | Describe | Row-major loops as one fold per column; selection of the middle number; position of a percentile by floor and ceiling; sums are invariant under sorting. |
| C101 | Choosing the Rust engine does not change how records are selected, sorted, expanded, counted and ranked | proved | RustRecords.v follows rust/src/records.rs loop by loop over flat vectors; selection of records reads the memory behind the data pointer. | RustRecordsLemmas.v to RustRecordsLemmas3.v: both engines' states are related by flattening (pairs, rows of matrices), and loops that write one cell at a time are shown to be one block write. |
| C102 | Choosing the Rust engine does not change the labels | proved | RustLabels.v follows rust/src/labels.rs; statistics of the period ahead on flat memory row by row, the others per column. The exponential deviation is not modelled. | RustLabelsLemmas.v to RustLabelsLemmas3.v: one-pass pairing of extrema equals pairing through the index array; going down the rows the running sums hold the sums of the period ahead. |
| C103 | Choosing the Rust engine does not change the statistics of returns | proved | RustReturns.v follows rust/src/returns.rs; the row-by-row loops are modelled on flat memory, a panic is an error value, pow and sqrt are parameters. | RustReturnsLemmas.v to RustReturnsLemmas5.v: one-pass folds equal the map-filter-fold of Numba under the laws of ieee_like, proved for exact numbers and for Flocq doubles; both quantile formulas give the same interpolated order statistic. |
| C104 | Choosing the Rust engine does not change the indicators | proved | RustIndicators.v follows rust/src/indicators.rs and the exponential deviation of rust/src/generic.rs; row-by-row loops are modelled on flat memory, the hash functions and the square root are parameters. | RustIndicatorsLemmas.v to RustIndicatorsLemmas3.v: the steps of the exponential loops simulate each other; rolling means agree as numbers (C98) and are reduced fractions, hence equal; each cache returns the value computed for its key; the row loops are unfolded column by column. |
| C105 | Choosing the Rust engine does not change the analysis of signals | proved | RustSigOps.v follows rust/src/signals.rs:14-65 and 1078-1416 loop by loop; the two while loops get the number of positions as fuel. The generators of random and stop signals in the same file are in C106 to C108. | RustSigLemmas.v and RustSigLemmas2.v: each loop body appends to the records of earlier columns what the Numba kernel of the column returns, by induction over rows with the running state related to the Numba one; two-pointer positions correspond to suffixes of the index lists. |
| C106 | Choosing the Rust engine does not change the stop signals | proved | RustStops.v follows rust/src/signals.rs:116-118 and 510-1076 loop by loop, one column; the loop over entries gets the number of rows and one as fuel, the loop over rounds has the fuel of the Numba model. | RustStopsLemmas.v: scanning for the next entry walks the list of entry positions; both scans of a range simulate the Numba one; hits lie in the range, so no bounds check of the Numba generator fires; induction over entries or rounds. |
| C107 | On the same random draws, the Rust engine places the same random signals | proved | RustRand.v follows rust/src/signals.rs:67-218 and 353-502, one column; draws are a parameter indexed by call (entry or round) and position in the call. | RustRandLemmas.v: each scan of a range finds the rows the Numba choice function returns; hits lie in the range, so no bounds check fires; induction over entries or rounds as in C106. |
| C108 | On the same random draws, the Rust engine places the same number of random entry and exit pairs on the same bars | proved | RustRandEnex.v follows rust/src/signals.rs:220-351 with the random generator of RandSignals.v; unsigned underflow, an empty range and an index out of bounds are errors. | RustRandEnexLemmas.v: differences by index are the Numba differences, rescaling is equal up to rational equality under the floor, the free space is not negative when the pairs fit; induction over ranges, entries and columns; with C76 the converse. |


## Counterexamples found

Where the code does not do what its documentation or the first draft of a property
says, the property was restated with the exact condition and the counterexample kept as a theorem:

* C02: `C02_long_only_percent_refuted`
* C05: `C05_zero_size_fill_refuted`
* C06: `C06_zero_percent_refuted`
* C08: `C08_fixed_fees_refuted`, `C08_shared_cash_refuted`
* C12: `C12_shared_generator_refuted`
* C17: `C17_empty_group_refuted`
* C18: `C18_one_signal_survives_refuted`
* C22: `C22_same_positions_near_zero_refuted`
* C24: `C24_no_orders_no_close_refuted`
* C26: `C26_mean_infinite_refuted`
* C30: `C30_last_bar_refuted`
* C34: `C34_unsorted_choice_refuted`
* C44: `C44_starting_capital_refuted`, `C44_total_loss_first_bar_refuted`
* C48: `C48_colliding_hashes_refuted`
* C50: `C50_missing_label_refuted`
* C51: `C51_negative_length_refuted`
* C52: `C52_empty_list_refuted`, `C52_dropping_redundant_refuted`
* C53: `C53_same_keys_nested_refuted`, `C53_same_keys_empty_refuted`, `C53_atomic_refuted`, `C53_single_refuted`
* C54: `C54_inherited_refuted`, `C54_nested_refuted`, `C54_frozen_reset_refuted`, `C54_reset_not_nested_refuted`
* C55: `C55_equal_keys_refuted`, `C55_overridden_property_refuted`, `C55_overridden_method_refuted`, `C55_method_condition_refuted`, `C55_threads_deadlock_refuted`, `C55_clear_race_refuted`
* C56: `C56_zero_percent_refuted`, `C56_division_refuted`, `C56_granularity_f64_refuted`, `C56_order_value_refuted`, `C56_empty_group_refuted`
* C61: `C61_missing_returns_refuted`
* C63: `C63_annualized_return_refuted`
* C67: `C67_group_count_refuted`
* C68: `C68_missing_tuple_refuted`, `C68_names_ignored_refuted`
* C69: `C69_snapped_fill_refuted`
* C70: `C70_column_wise_refuted`
* C75: `C75_missing_valuation_price_refuted`
* C76: `C76_no_room_waits_one_refuted`, `C76_none_refuted`
* C77: `C77_same_exits_refuted`
* C78: `C78_error_class_refuted`, `C78_zero_price_refuted`
* C79: `C79_empty_refuted`, `C79_alignment_refuted`
* C80: `C80_words_refuted`, `C80_mixed_columns_refuted`
* C81: `C81_changed_order_refuted`
* C82: `C82_benchmark_rounding_refuted`, `C82_unknown_cash_refuted`, `C82_groups_not_checked_refuted`
* C83: `C83_single_precision_refuted`
* C85: `C85_raw_per_column_refuted`, `C85_some_in_outputs_refuted`, `C85_all_hidden_refuted`, `C85_select_hidden_refuted`
* C86: `C86_fee_of_small_order_refuted`
* C87: `C87_values_under_another_name_refuted`
* C88: `C88_known_values_overwritten_refuted`
* C90: `C90_on_all_columns_missing_refuted`
* C91: `C91_only_infinite_values_refuted`, `C91_group_without_numbers_refuted`
* C94: `C94_empty_range_refuted`, `C94_three_groups_refuted`
* C95: `C95_top_n_group_by_refuted`
* C97: `C97_argmin_infinite_refuted`
* C98: `C98_expanding_period_refuted`, `C98_empty_window_refuted`, `C98_rolling_mean_rounding_refuted`, `C98_expanding_std_cancellation_refuted`
* C100: `C100_std_layout_refuted`, `C100_empty_refuted`, `C100_percentile_range_refuted`
* C101: `C101_strided_refuted`
* C102: `C102_zero_price_refuted`, `C102_future_variance_float_refuted`
* C103: `C103_no_columns_refuted`, `C103_minp_refuted`, `C103_cutoff_refuted`, `C103_empty_refuted`, `C103_levy_refuted`
* C104: `C104_zero_window_refuted`, `C104_rounding_refuted`
* C108: `C108_zero_refuted`


## What is modelled

Functions whose lines are cited by the model, by source file. Functions which only
loop a modelled one-dimensional kernel over columns, forward to a kernel, or
check argument types appear under *not cited*.

**rust/src/generic.rs** (RustSigOps.v). Modelled: `shuffle_rs`.

**rust/src/portfolio.rs** (RustOrder.v, RustReplay.v, RustSignals.v, RustSim.v, RustTrades.v). Modelled: `uninit_f64_vec`, `is_close`, `is_close_or_less`, `is_less`, `is_addition_zero`, `add`, `get_return`, `insert_argsort`, `buy`, `sell`, `execute_order`, `update_value`, `process_order`, `rejected_order_message`, `approx_order_value`, `get_group_value`, `validate_group_lens_raw`, `simulate_from_orders_py`, `get_trade_stats`, `read_signals`, `simulate_from_signals_py`, `get_long_size`, `get_short_size`, `get_free_cash_diff`, `simulate_from_orders_non_shared_inner`, `simulate_from_orders_inner`, `generate_stop_signal`, `resolve_stop_price_and_slippage`, `resolve_signal_conflict`, `resolve_dir_conflict`, `resolve_opposite_entry`, `signals_to_size`, `get_stop_price_rs`, `should_update_stop`, `trade_winning_streak_py`, `trade_losing_streak_py`, `asset_flow_inner`, `cash_flow_inner`, `sum_grouped_inner`, `process_signals_at`, `simulate_from_signals_non_shared_inner`, `simulate_from_signals_inner`, `assets_py`, `init_cash_grouped_py`, `init_cash_py`, `cash_py`, `cash_in_sim_order_py`, `cash_grouped_py`, `asset_value_py`, `value_in_sim_order_py`, `value_py`, `total_profit_py`, `total_profit_grouped_py`, `final_value_py`, `total_return_py`, `returns_in_sim_order_py`, `asset_returns_py`, `get_entry_trades_inner`, `fill_entry_trades_in_position`, `benchmark_value_py`, `get_exit_trades_inner`, `benchmark_value_grouped_py`, `total_benchmark_return_py`, `gross_exposure_py`, `get_positions_inner`, `aggregate_position`.

**vectorbt/_engine.py** (Engine.v). Modelled: `requires_conversion`, `__bool__`, `is_rust_available`, `clear_engine_cache`, `callback_unsupported_with_rust`, `combine_rust_support`, `non_neg_int_compatible_with_rust`, `array_compatible_with_rust`, `exact_array_compatible_with_rust`, `prepare_array_for_rust`, `matching_shape_compatible_with_rust`, `non_neg_array_compatible_with_rust`, `array_and_non_neg_int_compatible_with_rust`, `mask_and_array_compatible_with_rust`, `mask_and_values_compatible_with_rust`, `rolling_compatible_with_rust`, `resolve_random_engine`, `seed_for_rust`, `resolve_engine`.

**vectorbt/base/array_wrapper.py** (Wrapper.v). Modelled: `__init__`, `indexing_func_meta`, `grouped_ndim`, `regroup`, `resolve`, `wrap`, `wrap_reduced`. Not cited: `indexing_func`, `from_obj`, `from_shape`, `index`, `columns`, `get_columns`, `name`, `get_name`, `ndim`, `get_ndim`, `shape`, `get_shape`, `shape_2d`, `get_shape_2d`, `freq`, `to_timedelta`, `column_only_select`, `group_select`, `grouper`, `dummy`, `fill`, `fill_reduced`, `__init__`, `wrapper`, `regroup`, `resolve_self`, `select_one`, `select_one_from_obj`.

**vectorbt/base/column_grouper.py** (Grouper.v, Wrapper.v). Modelled: `group_by_to_index`, `get_groups_and_index`, `get_group_lens_nb`, `__init__`, `columns`, `group_by`, `allow_enable`, `allow_disable`, `allow_modify`, `is_grouped`, `is_grouping_enabled`, `is_grouping_disabled`, `is_grouping_modified`, `is_grouping_changed`, `is_group_count_changed`, `check_group_by`, `resolve_group_by`, `get_groups_and_columns`, `get_groups`, `get_columns`, `is_sorted`, `get_group_lens`, `get_group_count`, `get_group_start_idxs`, `get_group_end_idxs`.

**vectorbt/base/combine_fns.py** (Indicator.v). Modelled: `apply_and_concat_one_nb`, `apply_and_concat_multiple`, `apply_and_concat_multiple_nb`.

**vectorbt/base/index_fns.py** (Broadcast.v, IndexFns.v, Indicator.v). Modelled: `get_index`, `index_from_values`, `repeat_index`, `tile_index`, `stack_indexes`, `combine_indexes`, `drop_levels`, `drop_redundant_levels`, `drop_duplicate_levels`, `_align_index_to_nb`, `align_index_to`, `align_indexes`. Not cited: `to_any_index`, `rename_levels`, `select_levels`, `pick_levels`, `find_first_occurrence`.

**vectorbt/base/indexing.py** (Indicator.v). Modelled: `get_indices`, `__getitem__`.

**vectorbt/base/reshape_fns.py** (Broadcast.v, Reshape.v). Modelled: `broadcast_index`, `wrap_broadcasted`, `broadcast`, `broadcast_to`, `flex_choose_i_and_col_nb`, `flex_select_nb`, `flex_select_auto_nb`. Not cited: `to_any_array`, `to_pd_array`, `soft_to_ndim`, `to_1d`, `to_2d`, `to_dict`, `repeat`, `tile`, `broadcast_to_array_of`, `broadcast_to_axis_of`, `get_multiindex_series`, `unstack_to_array`, `make_symmetric`, `unstack_to_df`.

**vectorbt/data/base.py** (Data.v). Modelled: `__init__`, `align_index`, `align_columns`, `select_symbol_kwargs`, `from_data`, `download`, `update`, `concat`, `get`.

**vectorbt/generic/accessors.py** (Mapped.v, Reduce.v). Modelled: `reduce`, `idxmin`, `idxmax`, `to_mapped`, `flatten_grouped`.

**vectorbt/generic/dispatch.py** (Engine.v). Modelled: `shuffle_1d`, `diff_1d`.

**vectorbt/generic/nb.py** (Describe.v, EngineProps.v, GenericNb.v, IndicatorsNb.v, Reduce.v, ReturnsNb.v). Modelled: `set_by_mask_1d_nb`, `_bshift_1d_nb`, `impl`, `bshift_1d_nb`, `_fshift_1d_nb`, `fshift_1d_nb`, `diff_1d_nb`, `pct_change_1d_nb`, `bfill_1d_nb`, `ffill_1d_nb`, `nancumsum_nb`, `nanstd_1d_nb`, `rolling_min_1d_nb`, `rolling_max_1d_nb`, `rolling_mean_1d_nb`, `_add_var_nb`, `_remove_var_nb`, `rolling_std_1d_nb`, `ewm_mean_1d_nb`, `ewm_std_1d_nb`, `expanding_min_1d_nb`, `expanding_max_1d_nb`, `expanding_mean_1d_nb`, `expanding_std_1d_nb`, `apply_nb`, `row_apply_nb`, `rolling_apply_nb`, `rolling_matrix_apply_nb`, `expanding_apply_nb`, `expanding_matrix_apply_nb`, `groupby_apply_nb`, `groupby_matrix_apply_nb`, `applymap_nb`, `filter_nb`, `apply_and_reduce_nb`, `reduce_nb`, `reduce_to_array_nb`, `reduce_grouped_nb`, `flatten_forder_nb`, `flat_reduce_grouped_nb`, `reduce_grouped_to_array_nb`, `flat_reduce_grouped_to_array_nb`, `squeeze_grouped_nb`, `flatten_grouped_nb`, `flatten_uniform_grouped_nb`, `nth_reduce_nb`, `nth_index_reduce_nb`, `min_reduce_nb`, `max_reduce_nb`, `mean_reduce_nb`, `median_reduce_nb`, `sum_reduce_nb`, `count_reduce_nb`, `argmin_reduce_nb`, `argmax_reduce_nb`, `describe_reduce_nb`, `value_counts_nb`, `find_ranges_nb`, `range_duration_nb`, `range_coverage_nb`, `ranges_to_mask_nb`, `get_drawdowns_nb`, `dd_drawdown_nb`, `dd_decline_duration_nb`, `dd_recovery_duration_nb`, `dd_recovery_duration_ratio_nb`, `dd_recovery_return_nb`, `crossed_above_1d_nb`. Not cited: `shuffle_1d_nb`, `shuffle_nb`, `_set_by_mask_1d_nb`, `_set_by_mask_nb`, `set_by_mask_nb`, `_set_by_mask_mult_1d_nb`, `set_by_mask_mult_1d_nb`, `_set_by_mask_mult_nb`, `set_by_mask_mult_nb`, `fillna_1d_nb`, `fillna_nb`, `_bshift_nb`, `bshift_nb`, `_fshift_nb`, `fshift_nb`, `diff_nb`, `pct_change_nb`, `bfill_nb`, `ffill_nb`, `_nanprod_nb`, `nanprod_nb`, `_nancumsum_nb`, `_nancumprod_nb`, `nancumprod_nb`, `_nansum_nb`, `nansum_nb`, `nancnt_nb`, `nanmin_nb`, `nanmax_nb`, `nanmean_nb`, `nanmedian_nb`, `nanstd_nb`, `rolling_min_nb`, `rolling_max_nb`, `rolling_mean_nb`, `rolling_std_nb`, `ewm_mean_nb`, `ewm_std_nb`, `expanding_min_nb`, `expanding_max_nb`, `expanding_mean_nb`, `expanding_std_nb`, `std_reduce_nb`, `min_squeeze_nb`, `max_squeeze_nb`, `sum_squeeze_nb`, `any_squeeze_nb`, `crossed_above_nb`.

**vectorbt/generic/splitters.py** (Splitters.v). Modelled: `split_ranges_into_sets`, `split`.

**vectorbt/indicators/factory.py** (Indicator.v). Modelled: `build_columns`, `run_pipeline`, `_use_raw`, `__init__`, `indexing_func`, `from_custom_func`, `from_apply_func`.

**vectorbt/indicators/nb.py** (IndicatorsNb.v). Modelled: `ma_nb`, `mstd_nb`, `ma_cache_nb`, `mstd_cache_nb`, `bb_cache_nb`, `rsi_cache_nb`, `rsi_apply_nb`, `stoch_cache_nb`, `stoch_apply_nb`, `macd_cache_nb`, `macd_apply_nb`, `true_range_nb`, `atr_cache_nb`, `obv_custom_nb`. Not cited: `ma_apply_nb`, `mstd_apply_nb`, `bb_apply_nb`, `atr_apply_nb`.

**vectorbt/labels/nb.py** (LabelsNb.v). Modelled: `future_mean_apply_nb`, `future_std_apply_nb`, `future_min_apply_nb`, `fixed_labels_apply_nb`, `get_symmetric_pos_th_nb`, `local_extrema_apply_nb`, `bn_trend_labels_nb`, `bn_cont_trend_labels_nb`, `bn_cont_sat_trend_labels_nb`, `pct_trend_labels_nb`, `trend_labels_apply_nb`, `breakout_labels_nb`. Not cited: `future_max_apply_nb`, `mean_labels_apply_nb`, `get_symmetric_neg_th_nb`.

**vectorbt/portfolio/nb.py** (CallSeq.v, FromSignals.v, Order.v, OrderFunc.v, Performance.v, Replay.v, Simulate.v, Trades.v). Modelled: `order_not_filled_nb`, `buy_nb`, `sell_nb`, `execute_order_nb`, `fill_log_record_nb`, `fill_order_record_nb`, `raise_rejected_order_nb`, `update_value_nb`, `process_order_nb`, `order_nb`, `close_position_nb`, `check_group_lens_nb`, `check_group_init_cash_nb`, `is_grouped_nb`, `shuffle_call_seq_nb`, `build_call_seq_nb`, `build_call_seq`, `get_group_value_nb`, `get_group_value_ctx_nb`, `approx_order_value_nb`, `sort_call_seq_out_nb`, `replace_inf_price_nb`, `try_order_nb`, `init_records_nb`, `init_last_pos_record_nb`, `update_open_pos_stats_nb`, `update_pos_record_nb`, `simulate_from_orders_nb`, `generate_stop_signal_nb`, `resolve_stop_price_and_slippage_nb`, `resolve_signal_conflict_nb`, `resolve_dir_conflict_nb`, `resolve_opposite_entry_nb`, `signals_to_size_nb`, `should_update_stop_nb`, `get_stop_price_nb`, `no_adjust_sl_func_nb`, `no_adjust_tp_func_nb`, `simulate_from_signals_nb`, `simulate_from_signal_func_nb`, `dir_enex_signal_func_nb`, `ls_enex_signal_func_nb`, `simulate_nb`, `simulate_row_wise_nb`, `flex_simulate_nb`, `flex_simulate_row_wise_nb`, `get_trade_stats_nb`, `fill_trade_record_nb`, `fill_entry_trades_in_position_nb`, `get_entry_trades_nb`, `get_exit_trades_nb`, `trade_winning_streak_nb`, `trade_losing_streak_nb`, `fill_position_record_nb`, `copy_trade_record_nb`, `get_positions_nb`, `get_long_size_nb`, `get_short_size_nb`, `asset_flow_nb`, `assets_nb`, `get_free_cash_diff_nb`, `cash_flow_nb`, `sum_grouped_nb`, `cash_flow_grouped_nb`, `init_cash_grouped_nb`, `init_cash_nb`, `cash_nb`, `cash_in_sim_order_nb`, `cash_grouped_nb`, `asset_value_nb`, `value_in_sim_order_nb`, `value_nb`, `total_profit_nb`, `total_profit_grouped_nb`, `final_value_nb`, `total_return_nb`, `returns_in_sim_order_nb`, `asset_returns_nb`, `benchmark_value_nb`, `benchmark_value_grouped_nb`, `total_benchmark_return_nb`, `gross_exposure_nb`. Not cited: `order_nothing_nb`, `require_call_seq`, `get_col_elem_nb`, `get_elem_nb`, `sort_call_seq_nb`, `no_signal_func_nb`, `no_pre_func_nb`, `no_order_func_nb`, `no_post_func_nb`, `no_flex_order_func_nb`, `i_group_any_reduce_nb`, `position_mask_grouped_nb`, `group_mean_reduce_nb`, `position_coverage_grouped_nb`, `asset_value_grouped_nb`.

**vectorbt/records/col_mapper.py** (Mapped.v). Modelled: `_col_idxs_meta`, `get_col_arr`, `get_col_map`.

**vectorbt/records/mapped_array.py** (Mapped.v, RecordsNb.v). Modelled: `__init__`, `indexing_func_meta`, `is_sorted`, `sort`, `apply_mask`, `top_n_mask`, `bottom_n_mask`, `top_n`, `is_expandable`, `reduce`, `count`.

**vectorbt/records/nb.py** (RecordsNb.v). Modelled: `col_range_nb`, `col_range_select_nb`, `record_col_range_select_nb`, `col_map_nb`, `col_map_select_nb`, `record_col_map_select_nb`, `is_col_sorted_nb`, `is_col_idx_sorted_nb`, `mapped_to_mask_nb`, `top_n_inout_map_nb`, `bottom_n_inout_map_nb`, `apply_on_mapped_nb`, `apply_on_records_nb`, `is_mapped_expandable_nb`, `_expand_mapped_nb`, `impl`, `expand_mapped_nb`, `_stack_expand_mapped_nb`, `stack_expand_mapped_nb`, `reduce_mapped_nb`, `reduce_mapped_to_idx_nb`, `mapped_value_counts_nb`. Not cited: `map_records_nb`, `reduce_mapped_to_array_nb`, `reduce_mapped_to_idx_array_nb`.

**vectorbt/returns/nb.py** (ReturnsNb.v). Modelled: `get_return_nb`, `returns_1d_nb`, `total_return_apply_nb`, `cum_returns_1d_nb`, `cum_returns_final_1d_nb`, `rolling_cum_returns_final_nb`, `_apply_func_nb`, `annualized_return_1d_nb`, `annualized_volatility_1d_nb`, `drawdown_1d_nb`, `max_drawdown_1d_nb`, `calmar_ratio_1d_nb`, `omega_ratio_1d_nb`, `sharpe_ratio_1d_nb`, `downside_risk_1d_nb`, `sortino_ratio_1d_nb`, `information_ratio_1d_nb`, `beta_1d_nb`, `rolling_beta_nb`, `alpha_1d_nb`, `tail_ratio_1d_nb`, `value_at_risk_1d_nb`, `cond_value_at_risk_1d_nb`, `capture_1d_nb`, `up_capture_1d_nb`. Not cited: `returns_nb`, `cum_returns_nb`, `cum_returns_final_nb`, `annualized_return_nb`, `rolling_annualized_return_nb`, `annualized_volatility_nb`, `rolling_annualized_volatility_nb`, `drawdown_nb`, `max_drawdown_nb`, `rolling_max_drawdown_nb`, `calmar_ratio_nb`, `rolling_calmar_ratio_nb`, `omega_ratio_nb`, `rolling_omega_ratio_nb`, `sharpe_ratio_nb`, `rolling_sharpe_ratio_nb`, `downside_risk_nb`, `rolling_downside_risk_nb`, `sortino_ratio_nb`, `rolling_sortino_ratio_nb`, `information_ratio_nb`, `rolling_information_ratio_nb`, `beta_nb`, `alpha_nb`, `rolling_alpha_nb`, `tail_ratio_nb`, `rolling_tail_ratio_nb`, `value_at_risk_nb`, `rolling_value_at_risk_nb`, `cond_value_at_risk_nb`, `rolling_cond_value_at_risk_nb`, `capture_nb`, `rolling_capture_nb`, `up_capture_nb`, `rolling_up_capture_nb`, `down_capture_1d_nb`, `down_capture_nb`, `rolling_down_capture_nb`.

**vectorbt/signals/nb.py** (RandSignals.v, RustRand.v, RustSigOps.v, SignalsNb.v, StopSignals.v). Modelled: `generate_nb`, `generate_ex_nb`, `generate_enex_nb`, `clean_enex_1d_nb`, `rand_choice_nb`, `generate_rand_nb`, `rand_by_prob_choice_nb`, `generate_rand_by_prob_nb`, `generate_rand_ex_nb`, `generate_rand_ex_by_prob_nb`, `generate_rand_enex_nb`, `generate_rand_enex_by_prob_nb`, `first_choice_nb`, `stop_choice_nb`, `generate_stop_ex_nb`, `generate_stop_enex_nb`, `ohlc_stop_choice_nb`, `generate_ohlc_stop_ex_nb`, `generate_ohlc_stop_enex_nb`, `between_ranges_nb`, `between_two_ranges_nb`, `partition_ranges_nb`, `between_partition_ranges_nb`, `rank_nb`, `sig_pos_rank_nb`, `part_pos_rank_nb`, `nth_index_1d_nb`, `norm_avg_index_1d_nb`. Not cited: `clean_enex_nb`, `rand_enex_apply_nb`, `nth_index_nb`, `norm_avg_index_nb`.

**vectorbt/utils/array_.py** (CallSeq.v, Grouper.v, RandSignals.v, RustSigOps.v, Wrapper.v). Modelled: `is_sorted`, `insert_argsort_nb`, `get_ranges_arr`, `uniform_summing_to_one_nb`, `renormalize`, `rescale_float_to_int_nb`. Not cited: `is_sorted_nb`, `min_rel_rescale`, `max_rel_rescale`.

**vectorbt/utils/checks.py** (Broadcast.v, Data.v, IndexFns.v). Modelled: `is_index_equal`, `is_default_index`, `assert_meta_equal`.

**vectorbt/utils/config.py** (Dicts.v). Modelled: `convert_to_dict`, `set_dict_item`, `copy_dict`, `update_dict`, `merge_dicts`, `load_update`, `__init__`, `nested_`, `convert_dicts_`, `as_attrs_`, `__setattr__`, `__setitem__`, `__delattr__`, `__delitem__`, `_clear_attrs`, `pop`, `popitem`, `clear`, `update`, `__deepcopy__`, `copy`, `merge_with`, `to_dict`, `reset`.

**vectorbt/utils/decorators.py** (Cache.v, CacheThreads.v). Modelled: `__call__`, `should_cache`, `_get_condition_rank`, `__init__`, `clear_cache`, `attrname`, `__set_name__`, `__get__`, `cached_method`, `decorator`. Not cited: `__get__`, `__init__`, `__set__`, `__new__`, `__call__`, `custom_method`, `decorator`, `attach_binary_magic_methods`, `wrapper`, `attach_unary_magic_methods`.

**vectorbt/utils/math_.py** (MathNb.v, Num.v). Modelled: `is_close_nb`, `is_close_or_less_nb`, `is_less_nb`, `is_addition_zero_nb`, `add_nb`.

**vectorbt/utils/params.py** (IndexFns.v). Modelled: `broadcast_params`, `create_param_product`. Not cited: `to_typed_list`, `flatten_param_tuples`, `create_param_combs`.



## What is not modelled

* Performance, plotting, HTML and JSON rendering, data download, the Telegram bot and the
  scheduler's wall clock: not expressible as statements about values.
* pandas itself: index alignment, resampling and `loc`/`iloc` are taken as documented
  (C68 models the index functions of vectorbt on top of it).
* Accumulated rounding: exact-arithmetic theorems say nothing about the size of
  rounding errors of long sums. The theorems for every `Num` and for `B64` do not have this gap.
* Memory layout, integer overflow and uninitialised memory, except where a
  property is about it (C39 lets uninitialised memory be arbitrary).
