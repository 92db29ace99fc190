(** * Model of trade and position records:
    vectorbt/portfolio/nb.py:5703-6482.

    A column's order records are those the column map lists for it
    (records/nb.py, modelled in RecordsNb.v): the records of that column in
    record order. The output arrays are lists; that they never need more room
    than the code allocates is a theorem. The last bar's index
    [close.shape[0] - 1] is [nrows - 1] (with at least one bar). *)
From Coq Require Import ZArith Bool List String.
From Verif Require Import Base Num MathNb Order Replay.
Import ListNotations.
Open Scope string_scope.
Open Scope list_scope.

(** portfolio/enums.py TradeDirection, TradeStatus *)
Inductive TradeDir := TLong | TShort.
Inductive TradeStatus := TOpen | TClosed.

Section Trades.
  Context {T : Type} {N : Num T}.

  (** portfolio/enums.py trade_dt *)
  Record TradeRec := mkTradeRec {
    tr_id : nat; tr_col : nat; tr_size : T;
    tr_entry_idx : nat; tr_entry_price : T; tr_entry_fees : T;
    tr_exit_idx : nat; tr_exit_price : T; tr_exit_fees : T;
    tr_pnl : T; tr_return : T; tr_dir : TradeDir; tr_status : TradeStatus; tr_parent : Z }.

  (** nb.py:5711-5727 get_trade_stats_nb *)
  Definition get_trade_stats_nb (size entry_price entry_fees exit_price exit_fees : T) (direction : TradeDir)
    : res (T * T) :=
    let entry_val := mul size entry_price in
    let exit_val := mul size exit_price in
    let val_diff := add_nb exit_val (neg entry_val) in
    let val_diff :=
      match direction with
      | TShort => if neb val_diff zero then mul val_diff (neg one) else val_diff
      | TLong => val_diff
      end in
    let pnl := sub (sub val_diff entry_fees) exit_fees in
    let! ret := sdiv pnl entry_val in
    Ok (pnl, ret).

  (** nb.py:5731-5764 fill_trade_record_nb *)
  Definition fill_trade_record_nb (id col : nat) (size : T) (entry_idx : nat) (entry_price entry_fees : T)
    (exit_idx : nat) (exit_price exit_fees : T) (direction : TradeDir) (status : TradeStatus) (parent : Z)
    : res TradeRec :=
    let! (pnl, ret) := get_trade_stats_nb size entry_price entry_fees exit_price exit_fees direction in
    Ok (mkTradeRec id col size entry_idx entry_price entry_fees exit_idx exit_price exit_fees
          pnl ret direction status parent).

  (** Order side against trade direction (nb.py:5797-5799, 5957-5967). A
      record has one of the two sides; [None] stands for any other value. *)
  Definition is_entry (direction : TradeDir) (r : OrderRec T) : bool :=
    match direction, or_side r with TLong, Some Buy | TShort, Some Sell => true | _, _ => false end.
  Definition is_exit (direction : TradeDir) (r : OrderRec T) : bool :=
    match direction, or_side r with TLong, Some Sell | TShort, Some Buy => true | _, _ => false end.
  (** nb.py:5944-5947, 6031-6034, 6180-6183 *)
  Definition opened_dir (r : OrderRec T) : TradeDir :=
    match or_side r with Some Buy => TLong | _ => TShort end.
  (** nb.py:6282-6285 *)
  Definition flip (d : TradeDir) : TradeDir := match d with TLong => TShort | TShort => TLong end.

  (** nb.py:5924-5937, 6161-6174: the checks made on each record *)
  Definition check_record (last_id : Z) (r : OrderRec T) {A} (k : res A) : res A :=
    check_id last_id r (
    raise_if (leb (or_size r) zero) (ValueError "Found order with size 0 or less") (
    raise_if (leb (or_price r) zero) (ValueError "Found order with price 0 or less") k)).

  (** ** Exit trades *)

  (** The position being held: entry bar, direction and the three sums
      (nb.py:6176-6187) *)
  Record XPos := mkXPos { xp_entry_idx : nat; xp_dir : TradeDir; xp_size : T; xp_gross : T; xp_fees : T }.

  (** State of the loop over a column's records; [parent_id] and [tidx] run on
      from column to column, [in_position] is [xs_pos <> None]. *)
  Record XState := mkXState {
    xs_last : Z; xs_pos : option XPos; xs_parent : Z; xs_tidx : nat; xs_out : list TradeRec }.

  (** nb.py:6210-6231, 6253-6274, 6295-6316: average entry price, share of the
      entry fees, then the record *)
  Definition exit_trade (tidx col : nat) (p : XPos) (exit_size : T) (exit_idx : nat) (exit_price exit_fees : T)
    (status : TradeStatus) (parent : Z) : res TradeRec :=
    let! entry_price := sdiv (xp_gross p) (xp_size p) in
    let! size_fraction := sdiv exit_size (xp_size p) in
    let entry_fees := mul size_fraction (xp_fees p) in
    fill_trade_record_nb tidx col exit_size (xp_entry_idx p) entry_price entry_fees
      exit_idx exit_price exit_fees (xp_dir p) status parent.

  (** nb.py:6157-6286: one order record *)
  Definition exit_step (col : nat) (s : XState) (r : OrderRec T) : res XState :=
    check_record (xs_last s) r (
    let last := Z.of_nat (or_id r) in
    let '(p, parent) :=
      match xs_pos s with
      | Some p => (p, xs_parent s)
      | None => (mkXPos (or_idx r) (opened_dir r) zero zero zero, (xs_parent s + 1)%Z)
      end in
    if is_entry (xp_dir p) r then
      Ok (mkXState last
            (Some (mkXPos (xp_entry_idx p) (xp_dir p) (add (xp_size p) (or_size r))
                     (add (xp_gross p) (mul (or_size r) (or_price r))) (add (xp_fees p) (or_fees r))))
            parent (xs_tidx s) (xs_out s))
    else if is_exit (xp_dir p) r then
      if is_close_or_less_nb (or_size r) (xp_size p) then
        let exit_size := if is_close_nb (or_size r) (xp_size p) then xp_size p else or_size r in
        let! t := exit_trade (xs_tidx s) col p exit_size (or_idx r) (or_price r) (or_fees r) TClosed parent in
        if is_close_nb (or_size r) (xp_size p) then
          Ok (mkXState last None parent (S (xs_tidx s)) (xs_out s ++ [t]))
        else
          let! size_fraction := sdiv (sub (xp_size p) (or_size r)) (xp_size p) in
          Ok (mkXState last
                (Some (mkXPos (xp_entry_idx p) (xp_dir p) (mul (xp_size p) size_fraction)
                         (mul (xp_gross p) size_fraction) (mul (xp_fees p) size_fraction)))
                parent (S (xs_tidx s)) (xs_out s ++ [t]))
      else
        let cl_exit_size := xp_size p in
        let! f := sdiv cl_exit_size (or_size r) in
        let cl_exit_fees := mul f (or_fees r) in
        let! t := exit_trade (xs_tidx s) col p cl_exit_size (or_idx r) (or_price r) cl_exit_fees TClosed parent in
        let entry_size_sum := sub (or_size r) cl_exit_size in
        Ok (mkXState last
              (Some (mkXPos (or_idx r) (flip (xp_dir p)) entry_size_sum
                       (mul entry_size_sum (or_price r)) (sub (or_fees r) cl_exit_fees)))
              (parent + 1)%Z (S (xs_tidx s)) (xs_out s ++ [t]))
    else Ok (mkXState last (Some p) parent (xs_tidx s) (xs_out s))).

  (** nb.py:6288-6317: what is left at the end of the column *)
  Definition exit_finish (nrows : nat) (last_close : T) (col : nat) (s : XState) : res XState :=
    match xs_pos s with
    | Some p =>
        if is_less_nb (neg (xp_size p)) zero then
          let! t := exit_trade (xs_tidx s) col p (xp_size p) (nrows - 1) last_close zero TOpen (xs_parent s) in
          Ok (mkXState (xs_last s) (xs_pos s) (xs_parent s) (S (xs_tidx s)) (xs_out s ++ [t]))
        else Ok s
    | None => Ok s
    end.

  (** nb.py:6150-6317: one column *)
  Definition exit_column (nrows : nat) (last_close : nat -> T) (recs : list (OrderRec T)) (s : XState) (col : nat)
    : res XState :=
    match column_records col recs with
    | [] => Ok s
    | crecs =>
        let! s := foldM (exit_step col) (mkXState (-1) None (xs_parent s) (xs_tidx s) (xs_out s)) crecs in
        exit_finish nrows (last_close col) col s
    end.

  (** nb.py:6075-6319 get_exit_trades_nb; [last_close col] is the close of the
      last bar. *)
  Definition get_exit_trades_nb (nrows ncols : nat) (last_close : nat -> T) (recs : list (OrderRec T))
    : res (list TradeRec) :=
    let! s := foldM (exit_column nrows last_close recs) (mkXState (-1) None (-1) 0 []) (seq 0 ncols) in
    Ok (xs_out s).

  (** ** Entry trades *)

  (** nb.py:5768-5834 fill_entry_trades_in_position_nb: the records
      [first_c .. last_c] of the column, with their positions *)
  Fixpoint fill_entry_trades (first_c c : nat) (crecs : list (OrderRec T)) (col : nat)
    (first_size first_fees : T) (exit_idx : nat) (exit_size exit_gross exit_fees_sum : T)
    (direction : TradeDir) (status : TradeStatus) (parent : Z) (tidx : nat) : res (nat * list TradeRec) :=
    match crecs with
    | [] => Ok (tidx, [])
    | r :: l =>
        let rest := fill_entry_trades first_c (S c) l col first_size first_fees exit_idx exit_size
                      exit_gross exit_fees_sum direction status parent in
        if is_exit direction r then rest tidx
        else
          let entry_size := if Nat.eqb c first_c then first_size else or_size r in
          let entry_fees := if Nat.eqb c first_c then first_fees else or_fees r in
          let! exit_price := sdiv exit_gross exit_size in
          let! size_fraction := sdiv entry_size exit_size in
          let exit_fees := mul size_fraction exit_fees_sum in
          let! t := fill_trade_record_nb tidx col entry_size (or_idx r) (or_price r) entry_fees
                      exit_idx exit_price exit_fees direction status parent in
          let! (tidx, ts) := rest (S tidx) in
          Ok (tidx, t :: ts)
    end.

  (** nb.py:5939-5955: the position being held *)
  Record EPos := mkEPos {
    ep_first : nat; ep_dir : TradeDir;
    ep_esize : T; ep_egross : T; ep_efees : T;
    ep_xsize : T; ep_xgross : T; ep_xfees : T;
    ep_fsize : T; ep_ffees : T }.

  Record EState := mkEState {
    es_last : Z; es_pos : option EPos; es_parent : Z; es_tidx : nat; es_trades : list TradeRec }.

  (** The call of fill_entry_trades_in_position_nb for records [ep_first .. last_c] *)
  Definition entry_trades_of (crecs : list (OrderRec T)) (last_c col : nat) (p : EPos) (exit_idx : nat)
    (xsize xgross xfees : T) (status : TradeStatus) (parent : Z) (tidx : nat) :=
    fill_entry_trades (ep_first p) (ep_first p) (firstn (S last_c - ep_first p) (skipn (ep_first p) crecs)) col
      (ep_fsize p) (ep_ffees p) exit_idx xsize xgross xfees (ep_dir p) status parent tidx.

  (** nb.py:5920-6042: record number [c] of the column *)
  Definition entry_step (crecs : list (OrderRec T)) (col : nat) (s : EState) (cr : nat * OrderRec T) : res EState :=
    let '(c, r) := cr in
    check_record (es_last s) r (
    let last := Z.of_nat (or_id r) in
    let '(p, parent) :=
      match es_pos s with
      | Some p => (p, es_parent s)
      | None => (mkEPos c (opened_dir r) zero zero zero zero zero zero (or_size r) (or_fees r),
                 (es_parent s + 1)%Z)
      end in
    if is_entry (ep_dir p) r then
      Ok (mkEState last
            (Some (mkEPos (ep_first p) (ep_dir p) (add (ep_esize p) (or_size r))
                     (add (ep_egross p) (mul (or_size r) (or_price r))) (add (ep_efees p) (or_fees r))
                     (ep_xsize p) (ep_xgross p) (ep_xfees p) (ep_fsize p) (ep_ffees p)))
            parent (es_tidx s) (es_trades s))
    else if is_exit (ep_dir p) r then
      if is_close_nb (add (ep_xsize p) (or_size r)) (ep_esize p) then
        let xgross := add (ep_xgross p) (mul (or_size r) (or_price r)) in
        let xfees := add (ep_xfees p) (or_fees r) in
        let! (tidx, ts) := entry_trades_of crecs c col p (or_idx r) (ep_esize p) xgross xfees TClosed parent (es_tidx s) in
        Ok (mkEState last None parent tidx (es_trades s ++ ts))
      else if is_less_nb (add (ep_xsize p) (or_size r)) (ep_esize p) then
        Ok (mkEState last
              (Some (mkEPos (ep_first p) (ep_dir p) (ep_esize p) (ep_egross p) (ep_efees p)
                       (add (ep_xsize p) (or_size r)) (add (ep_xgross p) (mul (or_size r) (or_price r)))
                       (add (ep_xfees p) (or_fees r)) (ep_fsize p) (ep_ffees p)))
              parent (es_tidx s) (es_trades s))
      else
        let remaining_size := add_nb (ep_esize p) (neg (ep_xsize p)) in
        let xgross := add (ep_xgross p) (mul remaining_size (or_price r)) in
        let! f := sdiv remaining_size (or_size r) in
        let xfees := add (ep_xfees p) (mul f (or_fees r)) in
        let! (tidx, ts) := entry_trades_of crecs c col p (or_idx r) (ep_esize p) xgross xfees TClosed parent (es_tidx s) in
        let esize := add_nb (or_size r) (neg remaining_size) in
        let! g := sdiv esize (or_size r) in
        let efees := mul g (or_fees r) in
        Ok (mkEState last
              (Some (mkEPos c (opened_dir r) esize (mul esize (or_price r)) efees zero zero zero esize efees))
              (parent + 1)%Z tidx (es_trades s ++ ts))
    else Ok (mkEState last (Some p) parent (es_tidx s) (es_trades s))).

  (** nb.py:6044-6069: what is left at the end of the column *)
  Definition entry_finish (nrows : nat) (last_close : T) (crecs : list (OrderRec T)) (col : nat) (s : EState)
    : res EState :=
    match es_pos s with
    | Some p =>
        if is_less_nb (ep_xsize p) (ep_esize p) then
          let remaining_size := add_nb (ep_esize p) (neg (ep_xsize p)) in
          let xgross := add (ep_xgross p) (mul remaining_size last_close) in
          let! (tidx, ts) := entry_trades_of crecs (List.length crecs - 1) col p (nrows - 1) (ep_esize p) xgross
                               (ep_xfees p) TOpen (es_parent s) (es_tidx s) in
          Ok (mkEState (es_last s) (es_pos s) (es_parent s) tidx (es_trades s ++ ts))
        else Ok s
    | None => Ok s
    end.

  (** nb.py:5913-6069: one column *)
  Definition entry_column (nrows : nat) (last_close : nat -> T) (recs : list (OrderRec T)) (s : EState) (col : nat)
    : res EState :=
    match column_records col recs with
    | [] => Ok s
    | crecs =>
        let! s := foldM (entry_step crecs col) (mkEState (-1) None (es_parent s) (es_tidx s) (es_trades s))
                    (combine (seq 0 (List.length crecs)) crecs) in
        entry_finish nrows (last_close col) crecs col s
    end.

  (** nb.py:5838-6071 get_entry_trades_nb *)
  Definition get_entry_trades_nb (nrows ncols : nat) (last_close : nat -> T) (recs : list (OrderRec T))
    : res (list TradeRec) :=
    let! s := foldM (entry_column nrows last_close recs) (mkEState (-1) None (-1) 0 []) (seq 0 ncols) in
    Ok (es_trades s).

  (** ** Streaks *)

  (** nb.py:6322-6347 trade_winning_streak_nb, trade_losing_streak_nb *)
  Fixpoint streak_from (wins : T -> bool) (rank : nat) (recs : list TradeRec) : list nat :=
    match recs with
    | [] => []
    | r :: l => let rank := if wins (tr_pnl r) then S rank else 0 in rank :: streak_from wins rank l
    end.
  Definition trade_winning_streak_nb := streak_from (fun x => gtb x zero) 0.
  Definition trade_losing_streak_nb := streak_from (fun x => ltb x zero) 0.

  (** ** Positions *)

  (** np.sum of a float array: left to right *)
  Definition np_sum (f : TradeRec -> T) (ts : list TradeRec) : T :=
    fold_left (fun a t => add a (f t)) ts zero.

  (** nb.py:6354-6383 fill_position_record_nb; the trades are never empty. *)
  Definition fill_position_record_nb (id : nat) (ts : list TradeRec) : res TradeRec :=
    match ts with
    | [] => Err (IndexError "no trades")
    | t0 :: _ =>
        let tn := last ts t0 in
        let size := np_sum tr_size ts in
        let! entry_price := sdiv (np_sum (fun t => mul (tr_size t) (tr_entry_price t)) ts) size in
        let entry_fees := np_sum tr_entry_fees ts in
        let! exit_price := sdiv (np_sum (fun t => mul (tr_size t) (tr_exit_price t)) ts) size in
        let exit_fees := np_sum tr_exit_fees ts in
        let! (pnl, ret) := get_trade_stats_nb size entry_price entry_fees exit_price exit_fees (tr_dir tn) in
        Ok (mkTradeRec id (tr_col t0) size (tr_entry_idx t0) entry_price entry_fees
              (tr_exit_idx tn) exit_price exit_fees pnl ret (tr_dir tn) (tr_status tn) (Z.of_nat id))
    end.

  (** nb.py:6387-6402 copy_trade_record_nb with the new id (6466-6468, 6477-6479) *)
  Definition copy_trade_record_nb (id : nat) (t : TradeRec) : TradeRec :=
    mkTradeRec id (tr_col t) (tr_size t) (tr_entry_idx t) (tr_entry_price t) (tr_entry_fees t)
      (tr_exit_idx t) (tr_exit_price t) (tr_exit_fees t) (tr_pnl t) (tr_return t)
      (tr_dir t) (tr_status t) (Z.of_nat id).

  (** nb.py:6462-6468, 6473-6479: the position made of the trades [from .. to-1]
      of the whole array *)
  Definition position_of (trades : list TradeRec) (pidx from to : nat) : res TradeRec :=
    if Nat.ltb 1 (to - from) then fill_position_record_nb pidx (firstn (to - from) (skipn from trades))
    else match nth_error trades from with
         | Some t => Ok (copy_trade_record_nb pidx t)
         | None => Err (IndexError "no trade")
         end.

  (** State: last id, last position id, first trade of the position, output.
      [from_tidx] starts at -1 in the code but is always set before it is
      used, because parent ids are not negative. *)
  Record PState := mkPState { ps_last : Z; ps_posid : Z; ps_from : nat; ps_out : list TradeRec }.

  (** nb.py:6450-6471: trade number [tidx] of the array *)
  Definition position_step (trades : list TradeRec) (s : PState) (tidx : nat) : res PState :=
    match nth_error trades tidx with
    | None => Err (IndexError "no trade")
    | Some r =>
        raise_if (Z.ltb (Z.of_nat (tr_id r)) (ps_last s)) (ValueError "id must come in ascending order per column") (
        let last := Z.of_nat (tr_id r) in
        if Z.eqb (tr_parent r) (ps_posid s) then Ok (mkPState last (ps_posid s) (ps_from s) (ps_out s))
        else if Z.eqb (ps_posid s) (-1) then Ok (mkPState last (tr_parent r) tidx (ps_out s))
        else
          let! p := position_of trades (List.length (ps_out s)) (ps_from s) tidx in
          Ok (mkPState last (tr_parent r) tidx (ps_out s ++ [p])))
    end.

  (** The trades of a column as the column map lists them *)
  Definition column_trades (trades : list TradeRec) (col : nat) : list nat :=
    filter (fun k => match nth_error trades k with Some t => Nat.eqb (tr_col t) col | None => false end)
      (seq 0 (List.length trades)).

  (** nb.py:6443-6480: one column; [tidx] is the column's last trade afterwards *)
  Definition position_column (trades : list TradeRec) (out : list TradeRec) (col : nat) : res (list TradeRec) :=
    match column_trades trades col with
    | [] => Ok out
    | idxs =>
        let! s := foldM (position_step trades) (mkPState (-1) (-1) 0 out) idxs in
        let! p := position_of trades (List.length (ps_out s)) (ps_from s) (S (last idxs 0)) in
        Ok (ps_out s ++ [p])
    end.

  (** nb.py:6406-6482 get_positions_nb *)
  Definition get_positions_nb (ncols : nat) (trades : list TradeRec) : res (list TradeRec) :=
    foldM (position_column trades) [] (seq 0 ncols).
End Trades.

Arguments TradeRec : clear implicits.
Arguments XPos : clear implicits.
Arguments XState : clear implicits.
Arguments EPos : clear implicits.
Arguments EState : clear implicits.
Arguments PState : clear implicits.
