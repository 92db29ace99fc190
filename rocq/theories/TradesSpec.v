(** * Specification vocabulary for trade and position records

    Used in theorem statements; contains no proofs. *)
From Coq Require Import ZArith QArith Qabs Qminmax List.
From Verif Require Import Base Num XQFacts Order ReplaySpec Trades.
Import ListNotations.

(** An order as simulations write it: finite numbers, a size above the absolute
    tolerance (smaller ones are never filled), a positive price. *)
Definition good_order (r : OrderRec XQ) : Prop :=
  proper r /\ (1 # 1000000000000) < qty (or_size r) /\ 0 < qty (or_price r).

(** All numbers of the trade are finite. *)
Definition finite_trade (t : TradeRec XQ) : Prop :=
  (exists q, tr_size t = Fin q) /\ (exists q, tr_entry_price t = Fin q) /\ (exists q, tr_entry_fees t = Fin q) /\
  (exists q, tr_exit_price t = Fin q) /\ (exists q, tr_exit_fees t = Fin q) /\
  (exists q, tr_pnl t = Fin q) /\ (exists q, tr_return t = Fin q).

(** +1 for long, -1 for short *)
Definition dir_sign (d : TradeDir) : Q := match d with TLong => 1 | TShort => -1 # 1 end.

(** What the trade's price move is worth, before fees; its fees. *)
Definition trade_gross (t : TradeRec XQ) : Q :=
  dir_sign (tr_dir t) * (qty (tr_size t) * qty (tr_exit_price t) - qty (tr_size t) * qty (tr_entry_price t)).
Definition trade_fees (t : TradeRec XQ) : Q := qty (tr_entry_fees t) + qty (tr_exit_fees t).

Fixpoint tsum (f : TradeRec XQ -> Q) (ts : list (TradeRec XQ)) : Q :=
  match ts with [] => 0 | t :: l => f t + tsum f l end.

(** Trades of one column, of one position *)
Definition trades_of_col {T} (c : nat) (ts : list (TradeRec T)) := filter (fun t => Nat.eqb (tr_col t) c) ts.
Definition trades_of_pos {T} (k : Z) (ts : list (TradeRec T)) := filter (fun t => Z.eqb (tr_parent t) k) ts.

(** Money received for sales minus money paid for purchases, before fees *)
Definition gross_cash (recs : list (OrderRec XQ)) : Q := total (fun r => - (bought_size r * qty (or_price r))) recs.
Definition all_fees (recs : list (OrderRec XQ)) : Q := total (fun r => qty (or_fees r)) recs.

(** ** What the trades of a column must account for

    [os] are the column's orders, [last] the column's last close and [P] a
    bound on all prices. Fees are conserved exactly. A position within the
    tolerance of zero counts as closed, so that sizes and profits are conserved
    up to that tolerance: 1e-9 of the volume, at least 1e-12, per order. *)
Definition conserves_fees (os : list (OrderRec XQ)) (ts : list (TradeRec XQ)) : Prop :=
  tsum trade_fees ts == all_fees os.

(** Every unit bought and every unit sold belongs to a trade, once as its entry
    and, for the part that was closed, once as its exit: all trade sizes
    together are half of the traded volume and of what is left open. *)
Definition conserves_size (os : list (OrderRec XQ)) (ts : list (TradeRec XQ)) : Prop :=
  within (2 * length os) (volume os) (2 * tsum (fun t => qty (tr_size t)) ts) (volume os + Qabs (ledger_position os)).

(** The profit of all trades together is the cash the orders brought plus what
    is left, valued at the last close. *)
Definition conserves_profit (P last : Q) (os : list (OrderRec XQ)) (ts : list (TradeRec XQ)) : Prop :=
  Qabs (tsum (fun t => qty (tr_pnl t)) ts - (ledger_cash os + ledger_position os * last)) <=
    inject_Z (Z.of_nat (2 * length os)) * (slack (volume os) * P) + inject_Z (Z.of_nat (length os)) * slack (2 * (volume os * P)).

(** The recorded profit of a trade is its price move times its size less its
    fees, up to the tolerance at the magnitude 2[V][P]; its return is the profit
    relative to the entry value; size and entry price are positive. *)
Definition trade_ok (V P : Q) (t : TradeRec XQ) : Prop :=
  finite_trade t /\ 0 < qty (tr_size t) <= V /\ 0 < qty (tr_entry_price t) <= P /\ Qabs (qty (tr_exit_price t)) <= 2 * P /\
  Qabs (qty (tr_pnl t) - (trade_gross t - trade_fees t)) <= slack (2 * (V * P)) /\
  qty (tr_return t) * (qty (tr_size t) * qty (tr_entry_price t)) == qty (tr_pnl t).

(** ** Positions *)

(** [p] is the position made of the trades [g]: sizes, fees and price moves add
    up, prices are averages weighted by size; it begins with the first trade
    and ends, with its direction and status, as the last one. *)
Record position_sums (g : list (TradeRec XQ)) (p : TradeRec XQ) : Prop := {
  po_finite : finite_trade p;
  po_size : qty (tr_size p) == tsum (fun t => qty (tr_size t)) g;
  po_entry : qty (tr_size p) * qty (tr_entry_price p) == tsum (fun t => qty (tr_size t) * qty (tr_entry_price t)) g;
  po_exit : qty (tr_size p) * qty (tr_exit_price p) == tsum (fun t => qty (tr_size t) * qty (tr_exit_price t)) g;
  po_efees : qty (tr_entry_fees p) == tsum (fun t => qty (tr_entry_fees t)) g;
  po_xfees : qty (tr_exit_fees p) == tsum (fun t => qty (tr_exit_fees t)) g;
  po_return : qty (tr_return p) * (qty (tr_size p) * qty (tr_entry_price p)) == qty (tr_pnl p);
  po_ends : exists t0 l tn, g = t0 :: l /\ tn = last g t0 /\
    tr_col p = tr_col t0 /\ tr_entry_idx p = tr_entry_idx t0 /\
    tr_exit_idx p = tr_exit_idx tn /\ tr_dir p = tr_dir tn /\ tr_status p = tr_status tn }.

(** Two groups of trades tell the same position: same size, entry value, exit
    value and fees in total, same first entry bar, same last exit bar, same
    direction and status. *)
Record same_position (g h : list (TradeRec XQ)) : Prop := {
  sp_size : tsum (fun t => qty (tr_size t)) g == tsum (fun t => qty (tr_size t)) h;
  sp_entry : tsum (fun t => qty (tr_size t) * qty (tr_entry_price t)) g == tsum (fun t => qty (tr_size t) * qty (tr_entry_price t)) h;
  sp_exit : tsum (fun t => qty (tr_size t) * qty (tr_exit_price t)) g == tsum (fun t => qty (tr_size t) * qty (tr_exit_price t)) h;
  sp_efees : tsum (fun t => qty (tr_entry_fees t)) g == tsum (fun t => qty (tr_entry_fees t)) h;
  sp_xfees : tsum (fun t => qty (tr_exit_fees t)) g == tsum (fun t => qty (tr_exit_fees t)) h;
  sp_ends : exists t0 l u0 m, g = t0 :: l /\ h = u0 :: m /\ tr_entry_idx t0 = tr_entry_idx u0 /\
    tr_exit_idx (last g t0) = tr_exit_idx (last h u0) /\ tr_dir (last g t0) = tr_dir (last h u0) /\
    tr_status (last g t0) = tr_status (last h u0) }.

(** After every order the column's position is exactly zero or clear of the
    tolerance at the volume traded so far. *)
Definition clear_of_tolerance (os : list (OrderRec XQ)) : Prop :=
  forall l l', os = l ++ l' -> ledger_position l == 0 \/ slack (volume l) < Qabs (ledger_position l).

(** ** Order histories *)

(** All orders are good, [P] bounds their prices and every last close. *)
Definition good_history (P : Q) (last : nat -> Q) (recs : list (OrderRec XQ)) : Prop :=
  Forall good_order recs /\ Forall (fun r => qty (or_price r) <= P) recs /\ (forall c, Qabs (last c) <= P).

(** Per column, order ids never descend; likewise bars, which lie within the data. *)
Definition ids_in_order (recs : list (OrderRec XQ)) : Prop :=
  forall c a r b r' d, of_col c recs = a ++ r :: b ++ r' :: d -> (or_id r <= or_id r')%nat.
Definition bars_in_order (nrows : nat) (recs : list (OrderRec XQ)) : Prop :=
  (forall r, In r recs -> (or_idx r < nrows)%nat) /\
  forall c a r b r' d, of_col c recs = a ++ r :: b ++ r' :: d -> (or_idx r <= or_idx r')%nat.

(** ** Well-formed trades *)
Definition entry_side (d : TradeDir) : OrderSide := match d with TLong => Buy | TShort => Sell end.
Definition exit_side (d : TradeDir) : OrderSide := match d with TLong => Sell | TShort => Buy end.

(** A closed trade begins with an order on its side and ends with a later order
    on the other side; an open one begins with an order on its side and runs to
    the last bar. *)
Definition spans (nrows : nat) (os : list (OrderRec XQ)) (t : TradeRec XQ) : Prop :=
  match tr_status t with
  | TClosed => exists a e b r d, os = a ++ e :: b ++ r :: d /\
      tr_entry_idx t = or_idx e /\ or_side e = Some (entry_side (tr_dir t)) /\
      tr_exit_idx t = or_idx r /\ or_side r = Some (exit_side (tr_dir t))
  | TOpen => exists e, In e os /\ tr_entry_idx t = or_idx e /\ or_side e = Some (entry_side (tr_dir t)) /\
      tr_exit_idx t = (nrows - 1)%nat
  end.

(** Record ids count up from 0, columns come in order, position ids count up
    from 0 without gaps, and a position lies in one column and one direction. *)
Record numbered (ncols : nat) (ts : list (TradeRec XQ)) : Prop := {
  nu_ids : map tr_id ts = seq 0 (length ts);
  nu_cols : forall t, In t ts -> (tr_col t < ncols)%nat;
  nu_col_order : forall a t b u d, ts = a ++ t :: b ++ u :: d -> (tr_col t <= tr_col u)%nat;
  nu_par_order : forall a t b u d, ts = a ++ t :: b ++ u :: d -> (tr_parent t <= tr_parent u)%Z;
  nu_par_all : forall t k, In t ts -> (0 <= k <= tr_parent t)%Z -> exists u, In u ts /\ tr_parent u = k;
  nu_par_range : forall t, In t ts -> (0 <= tr_parent t)%Z;
  nu_same : forall t u, In t ts -> In u ts -> tr_parent t = tr_parent u -> tr_dir t = tr_dir u /\ tr_col t = tr_col u }.

(** What is left of a column's orders is held in one open trade, the last one,
    whose size and direction are those of the remaining position; with nothing
    left every trade is closed. *)
Definition open_remainder (os : list (OrderRec XQ)) (ts : list (TradeRec XQ)) : Prop :=
  (ledger_position os == 0 -> Forall (fun t => tr_status t = TClosed) ts) /\
  (~ ledger_position os == 0 -> exists ts' t, ts = ts' ++ [t] /\ Forall (fun u => tr_status u = TClosed) ts' /\
     tr_status t = TOpen /\ dir_sign (tr_dir t) * qty (tr_size t) == ledger_position os).

(** ** Streaks *)

(** Of the trades up to number [i], exactly the last [k] are hits. *)
Definition run_up_to (hit : TradeRec XQ -> Prop) (ts : list (TradeRec XQ)) (i k : nat) : Prop :=
  (k <= S i)%nat /\
  (forall j t, (i < j + k)%nat -> (j <= i)%nat -> nth_error ts j = Some t -> hit t) /\
  ((k <= i)%nat -> exists t, nth_error ts (i - k) = Some t /\ ~ hit t).
