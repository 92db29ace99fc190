(** * Properties of trade and position records (C21-C23, C57)

    Statements only: every theorem is closed by a lemma proved elsewhere, its
    assumptions are printed, and an example shows that its hypotheses are met.
    Bars, columns and ids are natural numbers, money and sizes exact rationals. *)
From Coq Require Import ZArith QArith Qabs List Bool Arith Lia Lqa.
From Verif Require Import Base Num Order XQFacts Replay ReplaySpec Trades TradesSpec TradesLemmas7 TradesLemmas10.
Import ListNotations.

(** A history with a partial exit, a reversal and an open remainder, over two
    columns. *)
Definition demo_orders : list (OrderRec XQ) :=
  [mkOrderRec 0 0 0 (Fin 10) (Fin 5) (Fin 1) (Some Buy); mkOrderRec 1 1 0 (Fin 4) (Fin 8) (Fin 1) (Some Sell);
   mkOrderRec 2 0 1 (Fin 6) (Fin 6) (Fin 0) (Some Buy); mkOrderRec 3 0 2 (Fin 4) (Fin 7) (Fin 1) (Some Sell);
   mkOrderRec 4 0 3 (Fin 15) (Fin 4) (Fin 2) (Some Sell); mkOrderRec 5 1 3 (Fin 4) (Fin 7) (Fin 1) (Some Buy)].
Definition demo_last (c : nat) : Q := 3.
Lemma demo_history : good_history 8 demo_last demo_orders.
Proof.
  split; [|split].
  - repeat constructor; cbn; eauto; discriminate.
  - repeat constructor; cbn; discriminate.
  - intros c. discriminate.
Qed.
Ltac pairs := intros c a r b r' d E; destruct c as [|[|c]]; cbn in E;
  [| |destruct a; discriminate];
  repeat match goal with
  | H : _ :: _ = ?a ++ _ |- _ => destruct a; cbn in H; injection H as; subst
  | H : [] = ?a ++ _ |- _ => destruct a; discriminate
  end; cbn; lia.
Lemma demo_ids : ids_in_order demo_orders.
Proof. pairs. Qed.
Lemma demo_bars : bars_in_order 5 demo_orders.
Proof. split; [|pairs]. intros r H. cbn in H. repeat destruct H as [<-|H]; cbn; try lia. Qed.
Lemma demo_clear : forall c, clear_of_tolerance (of_col c demo_orders).
Proof.
  intros c l l' E. destruct c as [|[|c]]; cbn in E.
  3:{ destruct l; [left; reflexivity|discriminate]. }
  all: repeat (destruct l as [|? l]; cbn in E; [try (left; reflexivity); right; reflexivity|injection E as <- E]).
  all: destruct l; [try (left; reflexivity); right; reflexivity|discriminate].
Qed.
Definition demo_exits : list (TradeRec XQ) := match get_exit_trades_nb 5 2 (fun c => Fin (demo_last c)) demo_orders with Ok ts => ts | Err _ => [] end.
Definition demo_entries : list (TradeRec XQ) := match get_entry_trades_nb 5 2 (fun c => Fin (demo_last c)) demo_orders with Ok ts => ts | Err _ => [] end.
Example demo_exits_ok : get_exit_trades_nb 5 2 (fun c => Fin (demo_last c)) demo_orders = Ok demo_exits /\ length demo_exits = 4%nat.
Proof. vm_compute. auto. Qed.
Example demo_entries_ok : get_entry_trades_nb 5 2 (fun c => Fin (demo_last c)) demo_orders = Ok demo_entries /\ length demo_entries = 4%nat.
Proof. vm_compute. auto. Qed.

(** ** C21 *)

(** Every order history whose numbers are finite, sizes above 1e-12 and prices
    positive is accepted, and then, per column: the fees of the exit trades add
    up to the fees of the orders, their sizes to the volume that opened or
    closed positions, their profits to cash received plus the remaining
    position at the last close. *)
Theorem C21_exit_trades_conserve : forall nrows ncols P last recs, good_history P last recs -> ids_in_order recs ->
  exists ts, get_exit_trades_nb nrows ncols (fun c => Fin (last c)) recs = Ok ts /\
  forall c, (c < ncols)%nat ->
    conserves_fees (of_col c recs) (trades_of_col c ts) /\
    conserves_size (of_col c recs) (trades_of_col c ts) /\
    conserves_profit P (last c) (of_col c recs) (trades_of_col c ts).
Proof. exact exit_all. Qed.
Print Assumptions C21_exit_trades_conserve.

(** Each trade's profit is its price move times size less fees. *)
Theorem C21_exit_trade_profit : forall nrows ncols P last recs ts t, good_history P last recs ->
  get_exit_trades_nb nrows ncols (fun c => Fin (last c)) recs = Ok ts -> In t ts ->
  trade_ok (volume (of_col (tr_col t) recs)) P t.
Proof. exact exit_profit. Qed.
Print Assumptions C21_exit_trade_profit.

(** The profits of a column's exit trades add up to the total profit computed
    from the orders by [total_profit]. *)
Theorem C21_profits_add_up_to_total_profit : forall nrows ncols P last recs ts c p, good_history P last recs ->
  get_exit_trades_nb nrows ncols (fun c => Fin (last c)) recs = Ok ts -> (c < ncols)%nat ->
  total_profit_nb (Fin (last c)) recs c = Ok p ->
  exists q, p = Fin q /\ Qabs (tsum (fun t => qty (tr_pnl t)) (trades_of_col c ts) - q) <=
    inject_Z (Z.of_nat (2 * length (of_col c recs))) * (slack (volume (of_col c recs)) * P) +
    inject_Z (Z.of_nat (length (of_col c recs))) * slack (2 * (volume (of_col c recs) * P)) +
    inject_Z (Z.of_nat (length (of_col c recs))) * slack (turnover (of_col c recs)) +
    Qabs (last c) * (inject_Z (Z.of_nat (length (of_col c recs))) * slack (volume (of_col c recs))).
Proof. exact exit_total. Qed.
Print Assumptions C21_profits_add_up_to_total_profit.

(** What remains is held in one open trade, exactly, provided that no running
    position falls within the tolerance of zero without being zero. *)
Theorem C21_open_remainder : forall nrows ncols P last recs ts c, good_history P last recs -> ids_in_order recs ->
  (forall c, clear_of_tolerance (of_col c recs)) ->
  get_exit_trades_nb nrows ncols (fun c => Fin (last c)) recs = Ok ts -> (c < ncols)%nat ->
  open_remainder (of_col c recs) (trades_of_col c ts).
Proof. exact exit_open_rest. Qed.
Print Assumptions C21_open_remainder.

Example C21_nonvacuous : good_history 8 demo_last demo_orders /\ ids_in_order demo_orders /\ (forall c, clear_of_tolerance (of_col c demo_orders)) /\
  get_exit_trades_nb 5 2 (fun c => Fin (demo_last c)) demo_orders = Ok demo_exits /\
  (exists p, total_profit_nb (Fin (demo_last 0)) demo_orders 0 = Ok p) /\
  ~ ledger_position (of_col 0 demo_orders) == 0 /\ ledger_position (of_col 1 demo_orders) == 0.
Proof.
  split; [apply demo_history|]. split; [apply demo_ids|]. split; [apply demo_clear|]. split; [apply demo_exits_ok|].
  split; [eexists; vm_compute; reflexivity|]. split; [discriminate|reflexivity].
Qed.

(** ** C22 *)

(** Entry trades are built from the same histories and conserve the same
    amounts. *)
Theorem C22_entry_trades_conserve : forall nrows ncols P last recs, good_history P last recs -> ids_in_order recs ->
  exists ts, get_entry_trades_nb nrows ncols (fun c => Fin (last c)) recs = Ok ts /\
  forall c, (c < ncols)%nat ->
    conserves_fees (of_col c recs) (trades_of_col c ts) /\
    conserves_size (of_col c recs) (trades_of_col c ts) /\
    conserves_profit P (last c) (of_col c recs) (trades_of_col c ts).
Proof. exact entry_all. Qed.
Print Assumptions C22_entry_trades_conserve.

Theorem C22_entry_trade_profit : forall nrows ncols P last recs ts t, good_history P last recs ->
  get_entry_trades_nb nrows ncols (fun c => Fin (last c)) recs = Ok ts -> In t ts ->
  trade_ok (volume (of_col (tr_col t) recs)) P t.
Proof. exact entry_profit. Qed.
Print Assumptions C22_entry_trade_profit.

(** Per column both splits have the same fees, and the same sizes and profits up
    to the tolerance. *)
Theorem C22_totals_agree : forall nrows ncols P last recs xs es c, good_history P last recs ->
  get_exit_trades_nb nrows ncols (fun c => Fin (last c)) recs = Ok xs ->
  get_entry_trades_nb nrows ncols (fun c => Fin (last c)) recs = Ok es -> (c < ncols)%nat ->
  tsum trade_fees (trades_of_col c xs) == tsum trade_fees (trades_of_col c es) /\
  within (2 * length (of_col c recs)) (volume (of_col c recs))
    (tsum (fun t => qty (tr_size t)) (trades_of_col c xs)) (tsum (fun t => qty (tr_size t)) (trades_of_col c es)) /\
  Qabs (tsum (fun t => qty (tr_pnl t)) (trades_of_col c xs) - tsum (fun t => qty (tr_pnl t)) (trades_of_col c es)) <=
    inject_Z (Z.of_nat (4 * length (of_col c recs))) * (slack (volume (of_col c recs)) * P) +
    inject_Z (Z.of_nat (2 * length (of_col c recs))) * slack (2 * (volume (of_col c recs) * P)).
Proof. exact totals_agree. Qed.
Print Assumptions C22_totals_agree.

(** Position by position both splits tell the same, exactly, provided that no
    running position falls within the tolerance of zero without being zero. *)
Theorem C22_positions_of_both_splits_agree : forall nrows ncols P last recs xs es, good_history P last recs ->
  (forall c, clear_of_tolerance (of_col c recs)) ->
  get_exit_trades_nb nrows ncols (fun c => Fin (last c)) recs = Ok xs ->
  get_entry_trades_nb nrows ncols (fun c => Fin (last c)) recs = Ok es ->
  forall t, In t xs \/ In t es -> same_position (trades_of_pos (tr_parent t) xs) (trades_of_pos (tr_parent t) es).
Proof. exact per_position_agree. Qed.
Print Assumptions C22_positions_of_both_splits_agree.

(** Position records are the merged trades: one per position id, with the sizes,
    values and fees of its trades added up. *)
Theorem C22_positions_merge_trades : forall nrows ncols P last recs ts, good_history P last recs ->
  get_exit_trades_nb nrows ncols (fun c => Fin (last c)) recs = Ok ts \/
  get_entry_trades_nb nrows ncols (fun c => Fin (last c)) recs = Ok ts ->
  exists ps, get_positions_nb ncols ts = Ok ps /\
    (forall t, In t ts -> (tr_parent t < Z.of_nat (length ps))%Z) /\
    (forall j p, nth_error ps j = Some p ->
       tr_id p = j /\ tr_parent p = Z.of_nat j /\ position_sums (trades_of_pos (Z.of_nat j) ts) p).
Proof. exact positions_of. Qed.
Print Assumptions C22_positions_merge_trades.

Theorem C22_position_profit : forall nrows ncols P last recs ts ps j p, good_history P last recs ->
  get_exit_trades_nb nrows ncols (fun c => Fin (last c)) recs = Ok ts \/
  get_entry_trades_nb nrows ncols (fun c => Fin (last c)) recs = Ok ts ->
  get_positions_nb ncols ts = Ok ps -> nth_error ps j = Some p ->
  Qabs (qty (tr_pnl p) - tsum (fun t => qty (tr_pnl t)) (trades_of_pos (Z.of_nat j) ts)) <=
    slack (2 * (tsum (fun t => qty (tr_size t)) (trades_of_pos (Z.of_nat j) ts) * P)) +
    inject_Z (Z.of_nat (length (trades_of_pos (Z.of_nat j) ts))) * slack (2 * (volume (of_col (tr_col p) recs) * P)).
Proof. exact position_profit. Qed.
Print Assumptions C22_position_profit.

Theorem C22_positions_agree : forall nrows ncols P last recs xs es, good_history P last recs ->
  (forall c, clear_of_tolerance (of_col c recs)) ->
  get_exit_trades_nb nrows ncols (fun c => Fin (last c)) recs = Ok xs ->
  get_entry_trades_nb nrows ncols (fun c => Fin (last c)) recs = Ok es ->
  exists px pe, get_positions_nb ncols xs = Ok px /\ get_positions_nb ncols es = Ok pe /\ length px = length pe /\
    forall j p q, nth_error px j = Some p -> nth_error pe j = Some q ->
      tr_id p = tr_id q /\ tr_entry_idx p = tr_entry_idx q /\ tr_exit_idx p = tr_exit_idx q /\
      tr_dir p = tr_dir q /\ tr_status p = tr_status q /\
      qty (tr_size p) == qty (tr_size q) /\ qty (tr_entry_price p) == qty (tr_entry_price q) /\
      qty (tr_exit_price p) == qty (tr_exit_price q) /\
      qty (tr_entry_fees p) == qty (tr_entry_fees q) /\ qty (tr_exit_fees p) == qty (tr_exit_fees q).
Proof. exact positions_agree. Qed.
Print Assumptions C22_positions_agree.

Example C22_nonvacuous : good_history 8 demo_last demo_orders /\ ids_in_order demo_orders /\ (forall c, clear_of_tolerance (of_col c demo_orders)) /\
  get_exit_trades_nb 5 2 (fun c => Fin (demo_last c)) demo_orders = Ok demo_exits /\
  get_entry_trades_nb 5 2 (fun c => Fin (demo_last c)) demo_orders = Ok demo_entries /\
  map tr_parent demo_exits = [0; 0; 1; 2]%Z /\ map tr_parent demo_entries = [0; 0; 1; 2]%Z /\
  exists ps, get_positions_nb 2 demo_exits = Ok ps /\ length ps = 3%nat.
Proof.
  split; [apply demo_history|]. split; [apply demo_ids|]. split; [apply demo_clear|]. split; [apply demo_exits_ok|]. split; [apply demo_entries_ok|].
  split; [reflexivity|]. split; [reflexivity|]. eexists. split; vm_compute; reflexivity.
Qed.

(** The proviso is needed. Buy 1e10, sell all but 100, then 99, then 1: the split
    by exits compares each sale with what is left and sees one position; the
    split by entries compares the sum of all sales with the sum of all purchases,
    takes 1 of 1e10 for nothing, closes, and opens a second, short position. *)
Definition edge_orders : list (OrderRec XQ) :=
  [mkOrderRec 0 0 0 (Fin 10000000000) (Fin 1) (Fin 0) (Some Buy); mkOrderRec 1 0 1 (Fin 9999999900) (Fin 1) (Fin 0) (Some Sell);
   mkOrderRec 2 0 2 (Fin 99) (Fin 1) (Fin 0) (Some Sell); mkOrderRec 3 0 3 (Fin 1) (Fin 1) (Fin 0) (Some Sell)].
Theorem C22_same_positions_near_zero_refuted : exists recs xs es,
  good_history 1 (fun _ => 1) recs /\ ids_in_order recs /\
  get_exit_trades_nb 5 1 (fun _ => Fin 1) recs = Ok xs /\ get_entry_trades_nb 5 1 (fun _ => Fin 1) recs = Ok es /\
  map tr_parent xs = [0; 0; 0]%Z /\ map tr_parent es = [0; 1]%Z /\
  map tr_dir xs = [TLong; TLong; TLong] /\ map tr_dir es = [TLong; TShort].
Proof.
  exists edge_orders. do 2 eexists. split; [|split; [|split; [vm_compute; reflexivity|split; [vm_compute; reflexivity|repeat split]]]].
  - split; [|split].
    + repeat constructor; cbn; eauto; discriminate.
    + repeat constructor; cbn; discriminate.
    + intros c. discriminate.
  - pairs.
Qed.
Print Assumptions C22_same_positions_near_zero_refuted.

(** ** C23 *)

(** Ids, columns and positions of both kinds of trades are well numbered. *)
Theorem C23_records_are_numbered : forall nrows ncols P last recs ts, good_history P last recs ->
  get_exit_trades_nb nrows ncols (fun c => Fin (last c)) recs = Ok ts \/
  get_entry_trades_nb nrows ncols (fun c => Fin (last c)) recs = Ok ts ->
  numbered ncols ts.
Proof. exact both_numbered. Qed.
Print Assumptions C23_records_are_numbered.

(** Every trade runs from an order on its side to a later order on the other
    side when closed, to the last bar when open. *)
Theorem C23_trades_span_orders : forall nrows ncols P last recs ts t, good_history P last recs ->
  get_exit_trades_nb nrows ncols (fun c => Fin (last c)) recs = Ok ts \/
  get_entry_trades_nb nrows ncols (fun c => Fin (last c)) recs = Ok ts ->
  In t ts -> spans nrows (of_col (tr_col t) recs) t /\ 0 < qty (tr_size t).
Proof. exact both_span. Qed.
Print Assumptions C23_trades_span_orders.

Theorem C23_entry_not_after_exit : forall nrows ncols P last recs ts t, good_history P last recs -> bars_in_order nrows recs ->
  get_exit_trades_nb nrows ncols (fun c => Fin (last c)) recs = Ok ts \/
  get_entry_trades_nb nrows ncols (fun c => Fin (last c)) recs = Ok ts ->
  In t ts -> (tr_entry_idx t <= tr_exit_idx t < nrows)%nat.
Proof. exact both_bars. Qed.
Print Assumptions C23_entry_not_after_exit.

(** A closed exit trade leaves at the price of an order of its exit bar, an open
    one is valued at the last close without exit fees; there is at most one open
    exit trade per column, and it is the column's last; the exit trades of a
    position share its entry bar. *)
Theorem C23_exit_trades : forall nrows ncols P last recs ts, good_history P last recs ->
  get_exit_trades_nb nrows ncols (fun c => Fin (last c)) recs = Ok ts ->
  (forall t, In t ts ->
    match tr_status t with
    | TClosed => exists r, In r (of_col (tr_col t) recs) /\ tr_exit_idx t = or_idx r /\ qty (tr_exit_price t) == qty (or_price r)
    | TOpen => qty (tr_exit_price t) == last (tr_col t) /\ qty (tr_exit_fees t) == 0
    end) /\
  (forall c a t b, (c < ncols)%nat -> trades_of_col c ts = a ++ t :: b -> tr_status t = TOpen -> b = []) /\
  (forall t u, In t ts -> In u ts -> tr_parent t = tr_parent u -> tr_entry_idx t = tr_entry_idx u).
Proof. exact exit_shape. Qed.
Print Assumptions C23_exit_trades.

(** An entry trade enters at the price of an order of its entry bar; the entry
    trades of a position share its exit bar and status. *)
Theorem C23_entry_trades : forall nrows ncols P last recs ts, good_history P last recs ->
  get_entry_trades_nb nrows ncols (fun c => Fin (last c)) recs = Ok ts ->
  (forall t, In t ts -> exists r, In r (of_col (tr_col t) recs) /\ tr_entry_idx t = or_idx r /\ qty (tr_entry_price t) == qty (or_price r)) /\
  (forall t u, In t ts -> In u ts -> tr_parent t = tr_parent u -> tr_exit_idx t = tr_exit_idx u /\ tr_status t = tr_status u).
Proof. exact entry_shape. Qed.
Print Assumptions C23_entry_trades.

Example C23_nonvacuous : good_history 8 demo_last demo_orders /\ bars_in_order 5 demo_orders /\
  get_exit_trades_nb 5 2 (fun c => Fin (demo_last c)) demo_orders = Ok demo_exits /\
  get_entry_trades_nb 5 2 (fun c => Fin (demo_last c)) demo_orders = Ok demo_entries /\
  map tr_status demo_exits = [TClosed; TClosed; TOpen; TClosed] /\ map tr_dir demo_exits = [TLong; TLong; TShort; TShort] /\
  map tr_entry_idx demo_entries = [0; 1; 3; 0]%nat /\ map tr_exit_idx demo_exits = [2; 3; 4; 3]%nat.
Proof.
  split; [apply demo_history|]. split; [apply demo_bars|]. split; [apply demo_exits_ok|]. split; [apply demo_entries_ok|]. vm_compute. auto.
Qed.

(** ** C57 *)

(** The winning (losing) streak of a trade is the number of consecutive trades
    with a profit above (below) zero that ends with it. *)
Theorem C57_streaks : forall ts i t, nth_error ts i = Some t ->
  (exists k, nth_error (trade_winning_streak_nb ts) i = Some k /\ run_up_to (fun t => gtb (tr_pnl t) zero = true) ts i k) /\
  (exists k, nth_error (trade_losing_streak_nb ts) i = Some k /\ run_up_to (fun t => ltb (tr_pnl t) zero = true) ts i k).
Proof. exact streaks. Qed.
Print Assumptions C57_streaks.

Example C57_nonvacuous : nth_error demo_exits 2 <> None /\ trade_winning_streak_nb demo_exits = [1; 0; 1; 2]%nat.
Proof. vm_compute. split; [discriminate|reflexivity]. Qed.
