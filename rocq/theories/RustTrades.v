(** * Model of trade and position records of the Rust engine:
    rust/src/portfolio.rs:114-122, 2292-2308, 3534-3593, 5297-6064.

    Records, directions and statuses are those of Trades.v: the Rust structs
    have the same fields. A column's order records are those the column map
    lists for it; the loops read them through [col_idxs] and [col_start_idxs]
    (portfolio.rs:114-122). *)
From Coq Require Import ZArith Bool List String.
From Verif Require Import Base Num Order RustOrder Account Replay Trades.
Import ListNotations.
Open Scope string_scope.
Open Scope list_scope.

Section RustTrades.
  Context {T : Type} {N : Num T} {R : RustOps T}.

  (** portfolio.rs:2292-2308 get_trade_stats *)
  Definition rs_get_trade_stats (size entry_price entry_fees exit_price exit_fees : T) (direction : TradeDir)
    : T * T :=
    let entry_val := mul size entry_price in
    let exit_val := mul size exit_price in
    let val_diff := rs_add exit_val (neg entry_val) in
    let val_diff :=
      if neb val_diff zero && match direction with TShort => true | TLong => false end
      then mul val_diff (neg one) else val_diff in
    let pnl := sub (sub val_diff entry_fees) exit_fees in
    let ret := div pnl entry_val in
    (pnl, ret).

  (** The pushes of a trade record (portfolio.rs:5531-5549, 5669-5690,
      5711-5740, 5768-5788): its id is the number of records pushed before *)
  Definition rs_push (records : list (TradeRec T)) (col : nat) (size : T) (entry_idx : nat)
    (entry_price entry_fees : T) (exit_idx : nat) (exit_price exit_fees : T)
    (direction : TradeDir) (status : TradeStatus) (parent : Z) : list (TradeRec T) :=
    let '(pnl, ret) := rs_get_trade_stats size entry_price entry_fees exit_price exit_fees direction in
    records ++ [mkTradeRec (List.length records) col size entry_idx entry_price entry_fees
                  exit_idx exit_price exit_fees pnl ret direction status parent].

  (** portfolio.rs:5343-5354, 5628-5639: the checks made on each record *)
  Definition rs_check_record (last_id : Z) (r : OrderRec T) {A} (k : res A) : res A :=
    raise_if (Z.ltb (Z.of_nat (or_id r)) last_id)
      (ValueError "id must come in ascending order per column") (
    raise_if (leb (or_size r) zero) (ValueError "size must be greater than 0") (
    raise_if (leb (or_price r) zero) (ValueError "price must be greater than 0") k)).

  (** ** Exit trades *)

  (** The variables of the loop (portfolio.rs:5600-5615): they keep their last
      values while no position is held. *)
  Record RX := mkRX {
    rx_last : Z; rx_in : bool; rx_dir : TradeDir; rx_entry_idx : nat;
    rx_size : T; rx_gross : T; rx_fees : T; rx_parent : Z; rx_out : list (TradeRec T) }.

  (** portfolio.rs:5616-5757: one order record *)
  Definition rs_exit_step (col : nat) (s : RX) (r : OrderRec T) : res RX :=
    rs_check_record (rx_last s) r (
    let s :=
      if rx_in s then mkRX (Z.of_nat (or_id r)) true (rx_dir s) (rx_entry_idx s) (rx_size s) (rx_gross s)
                        (rx_fees s) (rx_parent s) (rx_out s)
      else mkRX (Z.of_nat (or_id r)) true (opened_dir r) (or_idx r) zero zero zero
             (rx_parent s + 1)%Z (rx_out s) in
    if is_entry (rx_dir s) r then
      Ok (mkRX (rx_last s) true (rx_dir s) (rx_entry_idx s) (add (rx_size s) (or_size r))
            (add (rx_gross s) (mul (or_size r) (or_price r))) (add (rx_fees s) (or_fees r))
            (rx_parent s) (rx_out s))
    else if is_exit (rx_dir s) r then
      if rs_is_close_or_less (or_size r) (rx_size s) then
        let exit_size := if rs_is_close (or_size r) (rx_size s) then rx_size s else or_size r in
        let entry_price := div (rx_gross s) (rx_size s) in
        let size_fraction := div exit_size (rx_size s) in
        let entry_fees := mul size_fraction (rx_fees s) in
        let out := rs_push (rx_out s) col exit_size (rx_entry_idx s) entry_price entry_fees
                     (or_idx r) (or_price r) (or_fees r) (rx_dir s) TClosed (rx_parent s) in
        if rs_is_close (or_size r) (rx_size s) then
          Ok (mkRX (rx_last s) false (rx_dir s) (rx_entry_idx s) (rx_size s) (rx_gross s) (rx_fees s)
                (rx_parent s) out)
        else
          let size_fraction := div (sub (rx_size s) (or_size r)) (rx_size s) in
          Ok (mkRX (rx_last s) true (rx_dir s) (rx_entry_idx s) (mul (rx_size s) size_fraction)
                (mul (rx_gross s) size_fraction) (mul (rx_fees s) size_fraction) (rx_parent s) out)
      else
        let cl_exit_size := rx_size s in
        let cl_exit_fees := mul (div cl_exit_size (or_size r)) (or_fees r) in
        let entry_price := div (rx_gross s) (rx_size s) in
        let size_fraction := div cl_exit_size (rx_size s) in
        let entry_fees := mul size_fraction (rx_fees s) in
        let out := rs_push (rx_out s) col cl_exit_size (rx_entry_idx s) entry_price entry_fees
                     (or_idx r) (or_price r) cl_exit_fees (rx_dir s) TClosed (rx_parent s) in
        let entry_size_sum := sub (or_size r) cl_exit_size in
        Ok (mkRX (rx_last s) true (flip (rx_dir s)) (or_idx r) entry_size_sum
              (mul entry_size_sum (or_price r)) (sub (or_fees r) cl_exit_fees) (rx_parent s + 1)%Z out)
    else Ok s).

  (** portfolio.rs:5759-5789: what is left at the end of the column *)
  Definition rs_exit_finish (nrows : nat) (last_close : T) (col : nat) (s : RX) : RX :=
    if rx_in s && rs_is_less (neg (rx_size s)) zero then
      let exit_size := rx_size s in
      let entry_price := div (rx_gross s) (rx_size s) in
      let size_fraction := div exit_size (rx_size s) in
      let entry_fees := mul size_fraction (rx_fees s) in
      mkRX (rx_last s) (rx_in s) (rx_dir s) (rx_entry_idx s) (rx_size s) (rx_gross s) (rx_fees s) (rx_parent s)
        (rs_push (rx_out s) col exit_size (rx_entry_idx s) entry_price entry_fees (nrows - 1) last_close zero
           (rx_dir s) TOpen (rx_parent s))
    else s.

  (** portfolio.rs:5602-5790: one column *)
  Definition rs_exit_column (nrows : nat) (last_close : nat -> T) (recs : list (OrderRec T)) (s : RX) (col : nat)
    : res RX :=
    match column_records col recs with
    | [] => Ok s
    | crecs =>
        let! s := foldM (rs_exit_step col) (mkRX (-1) false TLong 0 zero zero zero (rx_parent s) (rx_out s)) crecs in
        Ok (rs_exit_finish nrows (last_close col) col s)
    end.

  (** portfolio.rs:5586-5793 get_exit_trades_inner *)
  Definition get_exit_trades_rs (nrows ncols : nat) (last_close : nat -> T) (recs : list (OrderRec T))
    : res (list (TradeRec T)) :=
    let! s := foldM (rs_exit_column nrows last_close recs)
                (mkRX (-1) false TLong 0 zero zero zero (-1) []) (seq 0 ncols) in
    Ok (rx_out s).

  (** ** Entry trades *)

  (** portfolio.rs:5506-5550: one record of fill_entry_trades_in_position *)
  Definition rs_fill_entry_one (first_c col : nat) (first_size first_fees : T) (exit_idx : nat)
    (exit_price exit_size exit_fees_sum : T) (direction : TradeDir) (status : TradeStatus) (parent : Z)
    (records : list (TradeRec T)) (cr : nat * OrderRec T) : list (TradeRec T) :=
    let '(c, r) := cr in
    if is_exit direction r then records
    else
      let '(entry_size, entry_fees) :=
        if Nat.eqb c first_c then (first_size, first_fees) else (or_size r, or_fees r) in
      let size_fraction := div entry_size exit_size in
      let exit_fees := mul size_fraction exit_fees_sum in
      rs_push records col entry_size (or_idx r) (or_price r) entry_fees exit_idx exit_price exit_fees
        direction status parent.

  (** portfolio.rs:5485-5551 fill_entry_trades_in_position: the records
      [first_c ..= last_c] of the column *)
  Definition rs_fill_entry_trades (crecs : list (OrderRec T)) (col first_c last_c : nat)
    (first_size first_fees : T) (exit_idx : nat) (exit_size exit_gross exit_fees_sum : T)
    (direction : TradeDir) (status : TradeStatus) (parent : Z) (records : list (TradeRec T))
    : list (TradeRec T) :=
    let exit_price := div exit_gross exit_size in
    fold_left (rs_fill_entry_one first_c col first_size first_fees exit_idx exit_price exit_size exit_fees_sum
                 direction status parent)
      (combine (seq first_c (S last_c - first_c)) (firstn (S last_c - first_c) (skipn first_c crecs))) records.

  (** The variables of the loop (portfolio.rs:5311-5330) *)
  Record RE := mkRE {
    re_last : Z; re_in : bool; re_dir : TradeDir; re_esize : T; re_xsize : T; re_xgross : T; re_xfees : T;
    re_first : nat; re_fsize : T; re_ffees : T; re_parent : Z; re_out : list (TradeRec T) }.

  (** portfolio.rs:5332-5451: record number [c] of the column *)
  Definition rs_entry_step (crecs : list (OrderRec T)) (col : nat) (s : RE) (cr : nat * OrderRec T) : res RE :=
    let '(c, r) := cr in
    rs_check_record (re_last s) r (
    let s :=
      if re_in s then mkRE (Z.of_nat (or_id r)) true (re_dir s) (re_esize s) (re_xsize s) (re_xgross s) (re_xfees s)
                        (re_first s) (re_fsize s) (re_ffees s) (re_parent s) (re_out s)
      else mkRE (Z.of_nat (or_id r)) true (opened_dir r) zero zero zero zero c (or_size r) (or_fees r)
             (re_parent s + 1)%Z (re_out s) in
    if is_entry (re_dir s) r then
      Ok (mkRE (re_last s) true (re_dir s) (add (re_esize s) (or_size r)) (re_xsize s) (re_xgross s) (re_xfees s)
            (re_first s) (re_fsize s) (re_ffees s) (re_parent s) (re_out s))
    else if is_exit (re_dir s) r then
      if rs_is_close (add (re_xsize s) (or_size r)) (re_esize s) then
        let xsize := re_esize s in
        let xgross := add (re_xgross s) (mul (or_size r) (or_price r)) in
        let xfees := add (re_xfees s) (or_fees r) in
        let out := rs_fill_entry_trades crecs col (re_first s) c (re_fsize s) (re_ffees s) (or_idx r)
                     xsize xgross xfees (re_dir s) TClosed (re_parent s) (re_out s) in
        Ok (mkRE (re_last s) false (re_dir s) (re_esize s) xsize xgross xfees
              (re_first s) (re_fsize s) (re_ffees s) (re_parent s) out)
      else if rs_is_less (add (re_xsize s) (or_size r)) (re_esize s) then
        Ok (mkRE (re_last s) true (re_dir s) (re_esize s) (add (re_xsize s) (or_size r))
              (add (re_xgross s) (mul (or_size r) (or_price r))) (add (re_xfees s) (or_fees r))
              (re_first s) (re_fsize s) (re_ffees s) (re_parent s) (re_out s))
      else
        let remaining_size := rs_add (re_esize s) (neg (re_xsize s)) in
        let xsize := re_esize s in
        let xgross := add (re_xgross s) (mul remaining_size (or_price r)) in
        let xfees := add (re_xfees s) (mul (div remaining_size (or_size r)) (or_fees r)) in
        let out := rs_fill_entry_trades crecs col (re_first s) c (re_fsize s) (re_ffees s) (or_idx r)
                     xsize xgross xfees (re_dir s) TClosed (re_parent s) (re_out s) in
        let esize := rs_add (or_size r) (neg remaining_size) in
        Ok (mkRE (re_last s) true (opened_dir r) esize zero zero zero c esize
              (mul (div esize (or_size r)) (or_fees r)) (re_parent s + 1)%Z out)
    else Ok s).

  (** portfolio.rs:5453-5480: what is left at the end of the column *)
  Definition rs_entry_finish (nrows : nat) (last_close : T) (crecs : list (OrderRec T)) (col : nat) (s : RE) : RE :=
    if re_in s && rs_is_less (re_xsize s) (re_esize s) then
      let remaining_size := rs_add (re_esize s) (neg (re_xsize s)) in
      let xsize := re_esize s in
      let xgross := add (re_xgross s) (mul remaining_size last_close) in
      mkRE (re_last s) (re_in s) (re_dir s) (re_esize s) xsize xgross (re_xfees s) (re_first s) (re_fsize s)
        (re_ffees s) (re_parent s)
        (rs_fill_entry_trades crecs col (re_first s) (List.length crecs - 1) (re_fsize s) (re_ffees s) (nrows - 1)
           xsize xgross (re_xfees s) (re_dir s) TOpen (re_parent s) (re_out s))
    else s.

  (** portfolio.rs:5313-5481: one column *)
  Definition rs_entry_column (nrows : nat) (last_close : nat -> T) (recs : list (OrderRec T)) (s : RE) (col : nat)
    : res RE :=
    match column_records col recs with
    | [] => Ok s
    | crecs =>
        let! s := foldM (rs_entry_step crecs col)
                    (mkRE (-1) false TLong zero zero zero zero 0 zero zero (re_parent s) (re_out s))
                    (combine (seq 0 (List.length crecs)) crecs) in
        Ok (rs_entry_finish nrows (last_close col) crecs col s)
    end.

  (** portfolio.rs:5297-5483 get_entry_trades_inner *)
  Definition get_entry_trades_rs (nrows ncols : nat) (last_close : nat -> T) (recs : list (OrderRec T))
    : res (list (TradeRec T)) :=
    let! s := foldM (rs_entry_column nrows last_close recs)
                (mkRE (-1) false TLong zero zero zero zero 0 zero zero (-1) []) (seq 0 ncols) in
    Ok (re_out s).

  (** ** Streaks *)

  (** portfolio.rs:3534-3560 and 3567-3593: ranks are written one after another *)
  Definition rs_streak (counts : T -> bool) (recs : list (TradeRec T)) : list nat :=
    snd (fold_left (fun s r =>
           let '(rank, out) := s in
           let rank := if counts (tr_pnl r) then S rank else 0 in
           (rank, out ++ [rank])) recs (0, [])).
  Definition trade_winning_streak_rs := rs_streak (fun x => gtb x zero).
  Definition trade_losing_streak_rs := rs_streak (fun x => ltb x zero).

  (** ** Positions *)

  (** portfolio.rs:5994-6014: the five sums of aggregate_position *)
  Definition rs_agg_step (s : T * T * T * T * T) (t : TradeRec T) : T * T * T * T * T :=
    let '(total_size, wep, wxp, tef, txf) := s in
    (add total_size (tr_size t), add wep (mul (tr_size t) (tr_entry_price t)),
     add wxp (mul (tr_size t) (tr_exit_price t)), add tef (tr_entry_fees t), add txf (tr_exit_fees t)).

  (** portfolio.rs:5954-6041 aggregate_position: the trades number
      [from_c .. to_c - 1] of the column, listed by [idxs]. The column map only
      lists records there are: an index without one is reported as an error. *)
  Definition rs_aggregate_position (trades : list (TradeRec T)) (idxs : list nat) (from_c to_c col pidx : nat)
    : res (TradeRec T) :=
    let ts := flat_map (fun k => match nth_error trades k with Some t => [t] | None => [] end)
                (firstn (to_c - from_c) (skipn from_c idxs)) in
    match ts with
    | [] => Err (IndexError "no trades")
    | t0 :: _ =>
        if Nat.eqb (to_c - from_c) 1 then
          Ok (mkTradeRec pidx (tr_col t0) (tr_size t0) (tr_entry_idx t0) (tr_entry_price t0) (tr_entry_fees t0)
                (tr_exit_idx t0) (tr_exit_price t0) (tr_exit_fees t0) (tr_pnl t0) (tr_return t0)
                (tr_dir t0) (tr_status t0) (Z.of_nat pidx))
        else
          let '(total_size, wep, wxp, tef, txf) := fold_left rs_agg_step ts (zero, zero, zero, zero, zero) in
          let tn := last ts t0 in
          let entry_price := div wep total_size in
          let exit_price := div wxp total_size in
          let '(pnl, ret) := rs_get_trade_stats total_size entry_price tef exit_price txf (tr_dir tn) in
          Ok (mkTradeRec pidx col total_size (tr_entry_idx t0) entry_price tef (tr_exit_idx tn) exit_price txf
                pnl ret (tr_dir tn) (tr_status tn) (Z.of_nat pidx))
    end.

  (** State: last id, last position id, number of the position's first trade
      within the column, output (portfolio.rs:5895-5897) *)
  Record RP := mkRP { rp_last : Z; rp_posid : Z; rp_from : nat; rp_out : list (TradeRec T) }.

  (** portfolio.rs:5899-5931: trade number [c] of the column, at [tidx] of the array *)
  Definition rs_position_step (trades : list (TradeRec T)) (idxs : list nat) (col : nat) (s : RP)
    (ct : nat * nat) : res RP :=
    let '(c, tidx) := ct in
    match nth_error trades tidx with
    | None => Err (IndexError "no trade")
    | Some r =>
        raise_if (Z.ltb (Z.of_nat (tr_id r)) (rp_last s)) (ValueError "id must come in ascending order per column") (
        let last := Z.of_nat (tr_id r) in
        if negb (Z.eqb (tr_parent r) (rp_posid s)) then
          let! out :=
            if negb (Z.eqb (rp_posid s) (-1)) then
              let! p := rs_aggregate_position trades idxs (rp_from s) c col (List.length (rp_out s)) in
              Ok (rp_out s ++ [p])
            else Ok (rp_out s) in
          Ok (mkRP last (tr_parent r) c out)
        else Ok (mkRP last (rp_posid s) (rp_from s) (rp_out s)))
    end.

  (** portfolio.rs:5890-5949: one column *)
  Definition rs_position_column (trades : list (TradeRec T)) (out : list (TradeRec T)) (col : nat)
    : res (list (TradeRec T)) :=
    match column_trades trades col with
    | [] => Ok out
    | idxs =>
        let! s := foldM (rs_position_step trades idxs col) (mkRP (-1) (-1) 0 out)
                    (combine (seq 0 (List.length idxs)) idxs) in
        let! p := rs_aggregate_position trades idxs (rp_from s) (List.length idxs) col (List.length (rp_out s)) in
        Ok (rp_out s ++ [p])
    end.

  (** portfolio.rs:5873-5952 get_positions_inner *)
  Definition get_positions_rs (ncols : nat) (trades : list (TradeRec T)) : res (list (TradeRec T)) :=
    foldM (rs_position_column trades) [] (seq 0 ncols).
End RustTrades.

Arguments RX : clear implicits.
Arguments RE : clear implicits.
Arguments RP : clear implicits.
