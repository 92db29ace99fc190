(** * Trades and positions with both engines *)
From Coq Require Import String ZArith QArith List.
From Flocq Require Import BinarySingleNaN.
From Verif Require Import Base Num B64 XQFacts Order RustOrder RustLawsXQ Trades RustTrades RustTradesSpec RustTradesSamples
  RustTradesRuns.
Import ListNotations.
Open Scope list_scope.
Local Open Scope nat_scope.

(** Exit trades: the same records, or the same refusal in Rust's words, unless
    Numba divides by zero. *)
Theorem C80_exit_trades_agree : forall nrows ncols last_close (recs : list (OrderRec XQ)),
  get_exit_trades_nb nrows ncols last_close recs <> Err ZeroDivision ->
  get_exit_trades_rs nrows ncols last_close recs = trade_outcome (get_exit_trades_nb nrows ncols last_close recs).
Proof. exact exit_agree_xq. Qed.
Print Assumptions C80_exit_trades_agree.

(** On doubles, bit by bit. *)
Theorem C80_exit_trades_agree_f64 : forall nrows ncols last_close (recs : list (OrderRec f64)),
  @get_exit_trades_nb _ B64num nrows ncols last_close recs <> Err ZeroDivision ->
  @get_exit_trades_rs _ B64num B64rust nrows ncols last_close recs =
  trade_outcome (@get_exit_trades_nb _ B64num nrows ncols last_close recs).
Proof. exact exit_agree_f64. Qed.
Print Assumptions C80_exit_trades_agree_f64.

(** Entry trades *)
Theorem C80_entry_trades_agree : forall nrows ncols last_close (recs : list (OrderRec XQ)),
  get_entry_trades_nb nrows ncols last_close recs <> Err ZeroDivision ->
  get_entry_trades_rs nrows ncols last_close recs = trade_outcome (get_entry_trades_nb nrows ncols last_close recs).
Proof. exact entry_agree_xq. Qed.
Print Assumptions C80_entry_trades_agree.

Theorem C80_entry_trades_agree_f64 : forall nrows ncols last_close (recs : list (OrderRec f64)),
  @get_entry_trades_nb _ B64num nrows ncols last_close recs <> Err ZeroDivision ->
  @get_entry_trades_rs _ B64num B64rust nrows ncols last_close recs =
  trade_outcome (@get_entry_trades_nb _ B64num nrows ncols last_close recs).
Proof. exact entry_agree_f64. Qed.
Print Assumptions C80_entry_trades_agree_f64.

(** Positions, from trades that are kept column by column *)
Theorem C80_positions_agree : forall ncols (trades : list (TradeRec XQ)),
  columns_together trades -> positions_given trades ->
  get_positions_nb ncols trades <> Err ZeroDivision ->
  get_positions_rs ncols trades = get_positions_nb ncols trades.
Proof. exact positions_agree_xq. Qed.
Print Assumptions C80_positions_agree.

Theorem C80_positions_agree_f64 : forall ncols (trades : list (TradeRec f64)),
  columns_together trades -> positions_given trades ->
  @get_positions_nb _ B64num ncols trades <> Err ZeroDivision ->
  @get_positions_rs _ B64num B64rust ncols trades = @get_positions_nb _ B64num ncols trades.
Proof. exact positions_agree_f64. Qed.
Print Assumptions C80_positions_agree_f64.

(** Trades derived from orders are always kept so. *)
Theorem C80_trades_kept_together : forall nrows ncols last_close (recs : list (OrderRec XQ)) trades,
  get_exit_trades_nb nrows ncols last_close recs = Ok trades \/
  get_entry_trades_nb nrows ncols last_close recs = Ok trades ->
  columns_together trades /\ positions_given trades.
Proof. exact trades_columns_xq. Qed.
Print Assumptions C80_trades_kept_together.

Theorem C80_trades_kept_together_f64 : forall nrows ncols last_close (recs : list (OrderRec f64)) trades,
  @get_exit_trades_nb _ B64num nrows ncols last_close recs = Ok trades \/
  @get_entry_trades_nb _ B64num nrows ncols last_close recs = Ok trades ->
  columns_together trades /\ positions_given trades.
Proof. exact trades_columns_f64. Qed.
Print Assumptions C80_trades_kept_together_f64.

(** Winning and losing streaks *)
Theorem C80_streaks_agree : forall trades : list (TradeRec XQ),
  trade_winning_streak_rs trades = trade_winning_streak_nb trades /\
  trade_losing_streak_rs trades = trade_losing_streak_nb trades.
Proof. exact streaks_agree_xq. Qed.
Print Assumptions C80_streaks_agree.

Theorem C80_streaks_agree_f64 : forall trades : list (TradeRec f64),
  @trade_winning_streak_rs _ B64num trades = @trade_winning_streak_nb _ B64num trades /\
  @trade_losing_streak_rs _ B64num trades = @trade_losing_streak_nb _ B64num trades.
Proof. exact streaks_agree_f64. Qed.
Print Assumptions C80_streaks_agree_f64.

Example C80_nonvacuous :
  let orders := sample_orders (fun z => Fin (inject_Z z)) in
  let close := fun _ : nat => Fin 16 in
  (match get_exit_trades_nb 5 2 close orders with
   | Ok trades =>
       map (fun t => (tr_col t, tr_entry_idx t, tr_exit_idx t)) trades =
         [(0, 0, 2); (0, 0, 3); (0, 3, 4); (1, 0, 4)] /\
       map (fun t => (tr_dir t, tr_status t)) trades =
         [(TLong, TClosed); (TLong, TClosed); (TShort, TOpen); (TShort, TClosed)] /\
       match get_positions_nb 2 trades with
       | Ok positions => map (fun t => (tr_col t, tr_entry_idx t, tr_exit_idx t)) positions = [(0, 0, 3); (0, 3, 4); (1, 0, 4)]
       | Err _ => False
       end
   | Err _ => False
   end) /\
  (match get_entry_trades_nb 5 2 close orders with
   | Ok trades => map (fun t => (tr_col t, tr_entry_idx t, tr_exit_idx t)) trades = [(0, 0, 3); (0, 1, 3); (0, 3, 4); (1, 0, 4)]
   | Err _ => False
   end) /\
  (match @get_exit_trades_nb _ B64num 5 2 (fun _ => b64_ofZ 16) (sample_orders b64_ofZ) with
   | Ok trades =>
       map (fun t => (tr_col t, tr_entry_idx t, tr_exit_idx t)) trades = [(0, 0, 2); (0, 0, 3); (0, 3, 4); (1, 0, 4)] /\
       match @get_positions_nb _ B64num 2 trades with
       | Ok positions => length positions = 3
       | Err _ => False
       end
   | Err _ => False
   end) /\
  (match @get_entry_trades_nb _ B64num 5 2 (fun _ => b64_ofZ 16) (sample_orders b64_ofZ) with
   | Ok trades => map (fun t => (tr_col t, tr_entry_idx t, tr_exit_idx t)) trades = [(0, 0, 3); (0, 1, 3); (0, 3, 4); (1, 0, 4)]
   | Err _ => False
   end).
Proof. exact trade_runs. Qed.

(** The words of the refusal differ. *)
Theorem C80_words_refuted : exists (recs : list (OrderRec XQ)) last_close,
  get_exit_trades_nb 1 1 last_close recs = Err (ValueError "Found order with size 0 or less") /\
  get_exit_trades_rs 1 1 last_close recs = Err (ValueError "size must be greater than 0").
Proof. exact words_differ. Qed.
Print Assumptions C80_words_refuted.

(** Trades of other columns in between: Numba counts them into the position,
    Rust does not. *)
Theorem C80_mixed_columns_refuted : exists trades : list (TradeRec XQ),
  positions_given trades /\
  (match get_positions_nb 2 trades, get_positions_rs 2 trades with
   | Ok nb, Ok rs => map tr_size nb = [Fin 7; Fin 5] /\ map tr_size rs = [Fin 2; Fin 5]
   | _, _ => False
   end).
Proof. exact mixed_differ. Qed.
Print Assumptions C80_mixed_columns_refuted.
