(** * Model of simulation from signals: vectorbt/portfolio/nb.py:1579-2940

    simulate_from_signals_nb (static arrays) and simulate_from_signal_func_nb
    (callbacks) are two copies of one loop in /repo which differ in where the
    signals come from and in two calls that adjust stops (nb.py:2571-2597);
    here the loop is written once, with the line numbers of the first copy. *)
From Coq Require Import ZArith Bool List String.
From Verif Require Import Base Num MathNb Order CallSeq Account Simulate.
Import ListNotations.
Open Scope string_scope.
Open Scope list_scope.

(** portfolio/enums.py:115-375. Enumerated types have no out-of-range values. *)
Inductive AccumulationMode := AccDisabled | AccBoth | AddOnly | RemoveOnly.
Inductive ConflictMode := CIgnore | CEntry | CExit | CAdjacent | COpposite.
Inductive DirectionConflictMode := DIgnore | DLong | DShort | DAdjacent | DOpposite.
Inductive OppositeEntryMode := OIgnore | OClose | OCloseReduce | OReverse | OReverseReduce.
Inductive StopEntryPrice := EValPrice | EPrice | EFillPrice | EClose.
Inductive StopExitPrice := StopLimit | StopMarket | XPrice | XClose.
Inductive StopExitMode := SClose | SCloseReduce | SReverse | SReverseReduce.
Inductive StopUpdateMode := UKeep | UOverride | UOverrideNaN.

(** Four direction-aware signals of one bar and column *)
Record Sig := mkSig { g_le : bool; g_lx : bool; g_se : bool; g_sx : bool }.
Definition no_sig := mkSig false false false false.

Section FromSignals.
  Context {T : Type} {N : Num T}.

  (** nb.py:1579-1612 generate_stop_signal_nb *)
  Definition generate_stop_signal_nb (position_now : T) (upon_stop_exit : StopExitMode)
      (accumulate : AccumulationMode) : Sig * AccumulationMode :=
    if gtb position_now zero then
      match upon_stop_exit with
      | SClose => (mkSig false true false false, AccDisabled)
      | SCloseReduce => (mkSig false true false false, accumulate)
      | SReverse => (mkSig false false true false, AccDisabled)
      | SReverseReduce => (mkSig false false true false, accumulate)
      end
    else if ltb position_now zero then
      match upon_stop_exit with
      | SClose => (mkSig false false false true, AccDisabled)
      | SCloseReduce => (mkSig false false false true, accumulate)
      | SReverse => (mkSig true false false false, AccDisabled)
      | SReverseReduce => (mkSig true false false false, accumulate)
      end
    else (no_sig, accumulate).

  (** nb.py:1615-1630 resolve_stop_price_and_slippage_nb *)
  Definition resolve_stop_price_and_slippage_nb (stop_price price close slippage : T)
      (stop_exit_price : StopExitPrice) : T * T :=
    match stop_exit_price with
    | StopMarket => (stop_price, slippage)
    | StopLimit => (stop_price, zero)
    | XClose => (close, slippage)
    | XPrice => (price, slippage)
    end.

  (** nb.py:1633-1681 resolve_signal_conflict_nb *)
  Definition resolve_signal_conflict_nb (position_now : T) (is_entry is_exit : bool)
      (direction : Direction) (conflict_mode : ConflictMode) : bool * bool :=
    if is_entry && is_exit then
      match conflict_mode with
      | CEntry => (is_entry, false)
      | CExit => (false, is_exit)
      | CAdjacent =>
          if eqb position_now zero then (false, false)
          else match direction with
               | BothDir => if gtb position_now zero then (is_entry, false)
                            else if ltb position_now zero then (false, is_exit)
                            else (is_entry, is_exit)
               | _ => (is_entry, false)
               end
      | COpposite =>
          if eqb position_now zero then (false, false)
          else match direction with
               | BothDir => if gtb position_now zero then (false, is_exit)
                            else if ltb position_now zero then (is_entry, false)
                            else (is_entry, is_exit)
               | _ => (false, is_exit)
               end
      | CIgnore => (false, false)
      end
    else (is_entry, is_exit).

  (** nb.py:1684-1716 resolve_dir_conflict_nb *)
  Definition resolve_dir_conflict_nb (position_now : T) (is_long_entry is_short_entry : bool)
      (upon_dir_conflict : DirectionConflictMode) : bool * bool :=
    if is_long_entry && is_short_entry then
      match upon_dir_conflict with
      | DLong => (is_long_entry, false)
      | DShort => (false, is_short_entry)
      | DAdjacent => if gtb position_now zero then (is_long_entry, false)
                     else if ltb position_now zero then (false, is_short_entry)
                     else (false, false)
      | DOpposite => if gtb position_now zero then (false, is_short_entry)
                     else if ltb position_now zero then (is_long_entry, false)
                     else (false, false)
      | DIgnore => (false, false)
      end
    else (is_long_entry, is_short_entry).

  (** nb.py:1730-1741: the first half of resolve_opposite_entry_nb *)
  Definition opposite_of_long (position_now : T) (s : Sig) (m : OppositeEntryMode)
      (acc : AccumulationMode) : Sig * AccumulationMode :=
    if gtb position_now zero && g_se s then
      match m with
      | OIgnore => (mkSig (g_le s) (g_lx s) false (g_sx s), acc)
      | OClose => (mkSig (g_le s) true false (g_sx s), AccDisabled)
      | OCloseReduce => (mkSig (g_le s) true false (g_sx s), acc)
      | OReverse => (s, AccDisabled)
      | OReverseReduce => (s, acc)
      end
    else (s, acc).

  (** nb.py:1742-1753: the second half *)
  Definition opposite_of_short (position_now : T) (s : Sig) (m : OppositeEntryMode)
      (acc : AccumulationMode) : Sig * AccumulationMode :=
    if ltb position_now zero && g_le s then
      match m with
      | OIgnore => (mkSig false (g_lx s) (g_se s) (g_sx s), acc)
      | OClose => (mkSig false (g_lx s) (g_se s) true, AccDisabled)
      | OCloseReduce => (mkSig false (g_lx s) (g_se s) true, acc)
      | OReverse => (s, AccDisabled)
      | OReverseReduce => (s, acc)
      end
    else (s, acc).

  (** nb.py:1719-1754 resolve_opposite_entry_nb *)
  Definition resolve_opposite_entry_nb (position_now : T) (s : Sig) (m : OppositeEntryMode)
      (acc : AccumulationMode) : Sig * AccumulationMode :=
    let '(s1, acc1) := opposite_of_long position_now s m acc in
    opposite_of_short position_now s1 m acc1.

  Definition acc_removes (a : AccumulationMode) : bool :=
    match a with AccBoth | RemoveOnly => true | _ => false end.
  Definition acc_adds (a : AccumulationMode) : bool :=
    match a with AccBoth | AddOnly => true | _ => false end.

  (** nb.py:1784-1795 and 1814-1823: the size of an order that reverses the
      position; [base] closes it and [op] subtracts or adds the new size. *)
  Definition reversal_size (size : T) (size_type : SizeType) (val_price_now : T)
      (op : T -> T -> T) (base : T) : res T :=
    if isnan size then Ok base
    else match size_type with
         | Percent => Err (ValueError "SizeType.Percent does not support position reversal using signals")
         | Value => let! q := sdiv size val_price_now in Ok (op base q)
         | _ => Ok (op base size)
         end.

  Definition signal_size_type (st : SizeType) : bool :=
    match st with Amount | Value | Percent => true | _ => false end.

  (** nb.py:1757-1848 signals_to_size_nb; returns size, size type, direction. *)
  Definition signals_to_size_nb (position_now : T) (s : Sig) (size : T) (size_type : SizeType)
      (accumulate : AccumulationMode) (val_price_now : T) : res (T * SizeType * Direction) :=
    raise_if (negb (signal_size_type size_type))
      (ValueError "Only SizeType.Amount, SizeType.Value, and SizeType.Percent are supported") (
    let abs_pos := abs position_now in
    raise_if (is_less_nb size zero)
      (ValueError "Negative size is not allowed. You must express direction using signals.") (
    if gtb position_now zero then
      if g_se s then
        if acc_removes accumulate then Ok (neg size, size_type, BothDir)
        else let! q := reversal_size size size_type val_price_now sub (neg abs_pos) in
             Ok (q, Amount, BothDir)
      else if g_lx s then
        if acc_removes accumulate then Ok (neg size, size_type, LongOnly)
        else Ok (neg abs_pos, Amount, LongOnly)
      else if g_le s then
        if acc_adds accumulate then Ok (size, size_type, LongOnly)
        else Ok (zero, size_type, LongOnly)
      else Ok (zero, size_type, BothDir)
    else if ltb position_now zero then
      if g_le s then
        if acc_removes accumulate then Ok (size, size_type, BothDir)
        else let! q := reversal_size size size_type val_price_now add abs_pos in
             Ok (q, Amount, BothDir)
      else if g_sx s then
        if acc_removes accumulate then Ok (size, size_type, ShortOnly)
        else Ok (abs_pos, Amount, ShortOnly)
      else if g_se s then
        if acc_adds accumulate then Ok (neg size, size_type, ShortOnly)
        else Ok (zero, size_type, ShortOnly)
      else Ok (zero, size_type, BothDir)
    else
      if g_le s then Ok (size, size_type, BothDir)
      else if g_se s then Ok (neg size, size_type, BothDir)
      else Ok (zero, size_type, BothDir))).

  (** nb.py:1851-1857 should_update_stop_nb *)
  Definition should_update_stop_nb (stop : T) (upon_stop_update : StopUpdateMode) : bool :=
    match upon_stop_update with
    | UOverride => negb (isnan stop)
    | UOverrideNaN => true
    | UKeep => false
    end.

  (** nb.py:1860-1889 get_stop_price_nb; a result of NaN means "not hit". *)
  Definition get_stop_price_nb (position_now stop_price stop open low high : T) (hit_below : bool) : res T :=
    raise_if (ltb stop zero) (ValueError "Stop value must be 0 or greater") (
    if (gtb position_now zero && hit_below) || (ltb position_now zero && negb hit_below) then
      let p := mul stop_price (sub one stop) in
      if leb open p then Ok open
      else if leb low p && leb p high then Ok p
      else Ok nan
    else if (ltb position_now zero && hit_below) || (gtb position_now zero && negb hit_below) then
      let p := mul stop_price (add one stop) in
      if leb p open then Ok open
      else if leb low p && leb p high then Ok p
      else Ok nan
    else Ok nan).

  (** The stop arrays of one column, nb.py:2011-2019; -1 is [None]. *)
  Record Stops := mkStops {
    sl_init_i : option nat; sl_init_price : T; sl_curr_i : option nat; sl_curr_price : T;
    sl_curr_stop : T; sl_curr_trail : bool;
    tp_init_i : option nat; tp_init_price : T; tp_curr_stop : T }.
  Definition no_stops : Stops := mkStops None nan None nan nan false None nan nan.

  (** What the caller supplies: the arrays shared with from_orders, and those
      only from_signals has. Callbacks are pure functions of their context
      (nb.py:2571-2597, 2675-2688); static arrays ignore most of it. The
      context of a signal function is bar, column, position and valuation
      price. *)
  Record SigInputs := mkSigInputs {
    si_base : Inputs T;
    si_open : nat -> nat -> T; si_high : nat -> nat -> T; si_low : nat -> nat -> T;
    si_accumulate : nat -> nat -> AccumulationMode;
    si_long_conflict : nat -> nat -> ConflictMode; si_short_conflict : nat -> nat -> ConflictMode;
    si_dir_conflict : nat -> nat -> DirectionConflictMode;
    si_opposite : nat -> nat -> OppositeEntryMode;
    si_sl_stop : nat -> nat -> T; si_sl_trail : nat -> nat -> bool; si_tp_stop : nat -> nat -> T;
    si_entry_price : nat -> nat -> StopEntryPrice; si_exit_price : nat -> nat -> StopExitPrice;
    si_stop_exit : nat -> nat -> StopExitMode; si_stop_update : nat -> nat -> StopUpdateMode;
    si_signals : nat -> nat -> T -> T -> Sig;
    si_adjust_sl : nat -> nat -> T -> T -> Stops -> T * bool;
    si_adjust_tp : nat -> nat -> T -> T -> Stops -> T }.

  Record SigFlags := mkSigFlags { sf_base : Flags; use_stops : bool }.

  (** Per-column arrays of the function: last_position, last_debt,
      last_val_price, price_arr, slippage_arr, size_arr, size_type_arr,
      direction_arr, temp_order_value and the stops. *)
  Record Col := mkCol {
    c_pos : T; c_debt : T; c_vp : T; c_price : T; c_slip : T; c_size : T;
    c_stype : SizeType; c_dir : Direction; c_tov : T; c_stops : Stops }.

  Record SSim := mkSSim {
    ss_cash : T; ss_free : T; ss_value : T; ss_cols : nat -> Col;
    ss_seq : nat -> nat -> nat; ss_rc : Recs T }.

  (** nb.py:2046-2059 *)
  Definition resolve_sig_price (inp : SigInputs) (i col : nat) : T :=
    let p := in_price (si_base inp) i col in
    if isinf p then
      if gtb p zero then in_close (si_base inp) i col
      else if negb (isnan (si_open inp i col)) then si_open inp i col
      else match i with O => nan | S i' => in_close (si_base inp) i' col end
    else p.

  (** nb.py:2043-2073 one pass of the price loop *)
  Definition sig_price_step (inp : SigInputs) (fl : SigFlags) (i : nat) (cols : nat -> Col) (col : nat)
    : nat -> Col :=
    let c := cols col in
    let p := resolve_sig_price inp i col in
    let v := resolve_val_price (si_base inp) i col p in
    let vp := if negb (isnan v) || negb (ffill_val_price (sf_base fl)) then v else c_vp c in
    fupd cols col (mkCol (c_pos c) (c_debt c) vp p (c_slip c) (c_size c) (c_stype c) (c_dir c)
                     (c_tov c) (c_stops c)).

  (** nb.py:2087-2096: open, low, high of the bar *)
  Definition resolve_bar (inp : SigInputs) (i col : nat) : T * T * T :=
    let close := in_close (si_base inp) i col in
    let o := if isnan (si_open inp i col) then close else si_open inp i col in
    let l := if isnan (si_low inp i col) then min2 o close else si_low inp i col in
    let h := if isnan (si_high inp i col) then max2 o close else si_high inp i col in
    (o, l, h).

  (** nb.py:2098-2117: stop-loss first, then take-profit *)
  Definition stop_hit (pos : T) (s : Stops) (open low high : T) : res T :=
    let! sp := if negb (isnan (sl_curr_stop s))
               then get_stop_price_nb pos (sl_curr_price s) (sl_curr_stop s) open low high true
               else Ok nan in
    if isnan sp && negb (isnan (tp_curr_stop s))
    then get_stop_price_nb pos (tp_init_price s) (tp_curr_stop s) open low high false
    else Ok sp.

  (** nb.py:2119-2128 *)
  Definition trail_update (i : nat) (pos : T) (s : Stops) (low high : T) : Stops :=
    if negb (isnan (sl_curr_stop s)) && sl_curr_trail s then
      if gtb pos zero then
        if gtb high (sl_curr_price s)
        then mkStops (sl_init_i s) (sl_init_price s) (Some i) high (sl_curr_stop s) (sl_curr_trail s)
               (tp_init_i s) (tp_init_price s) (tp_curr_stop s)
        else s
      else if ltb pos zero then
        if ltb low (sl_curr_price s)
        then mkStops (sl_init_i s) (sl_init_price s) (Some i) low (sl_curr_stop s) (sl_curr_trail s)
               (tp_init_i s) (tp_init_price s) (tp_curr_stop s)
        else s
      else s
    else s.

  (** nb.py:2571-2597: the callbacks that adjust stops *)
  Definition adjust_stops (inp : SigInputs) (i col : nat) (pos vp : T) (s : Stops) : Stops :=
    let '(sl, tr) := si_adjust_sl inp i col pos vp s in
    let s1 := mkStops (sl_init_i s) (sl_init_price s) (sl_curr_i s) (sl_curr_price s) sl tr
                (tp_init_i s) (tp_init_price s) (tp_curr_stop s) in
    mkStops (sl_init_i s1) (sl_init_price s1) (sl_curr_i s1) (sl_curr_price s1) (sl_curr_stop s1)
      (sl_curr_trail s1) (tp_init_i s1) (tp_init_price s1) (si_adjust_tp inp i col pos vp s1).

  (** nb.py:2081-2128 the stop price of the bar (NaN if none is hit) and the
      stops after it *)
  Definition stop_step (inp : SigInputs) (fl : SigFlags) (i col : nat) (c : Col) : res (T * Stops) :=
    if use_stops fl then
      let s := adjust_stops inp i col (c_pos c) (c_vp c) (c_stops c) in
      if negb (isnan (sl_curr_stop s)) || negb (isnan (tp_curr_stop s)) then
        let '(o, l, h) := resolve_bar inp i col in
        let! sp := stop_hit (c_pos c) s o l h in
        Ok (sp, trail_update i (c_pos c) s l h)
      else Ok (nan, s)
    else Ok (nan, c_stops c).

  (** nb.py:2183-2223: conflict resolution of the user's signals *)
  Definition resolve_conflicts (pos : T) (s : Sig) (lc sc : ConflictMode) (dc : DirectionConflictMode)
      (oe : OppositeEntryMode) (acc : AccumulationMode) : Sig * AccumulationMode :=
    if g_le s || g_se s then
      let '(le, lx) := resolve_signal_conflict_nb pos (g_le s) (g_lx s) LongOnly lc in
      let '(se, sx) := resolve_signal_conflict_nb pos (g_se s) (g_sx s) ShortOnly sc in
      let '(le, se) := resolve_dir_conflict_nb pos le se dc in
      resolve_opposite_entry_nb pos (mkSig le lx se sx) oe acc
    else (s, acc).

  (** nb.py:2245-2263 *)
  Definition signal_order_value (pos vp cash free size : T) (st : SizeType) (d : Direction) : T :=
    if eqb size zero then zero
    else match st with
         | Amount => mul size vp
         | Value => size
         | _ =>
             if geb size zero then mul size cash
             else
               let asset_value := mul pos vp in
               match d with
               | LongOnly => mul size asset_value
               | _ => mul size (add (mul two (max2 asset_value zero)) (max2 free zero))
               end
         end.

  (** nb.py:2130-2223 the signals to act on, the accumulation mode, the price
      and the slippage *)
  Definition pick_signals (inp : SigInputs) (fl : SigFlags) (i col : nat) (c : Col) (stop_price : T)
    : Sig * AccumulationMode * (T * T) :=
    let acc := si_accumulate inp i col in
    let slip := in_slippage (si_base inp) i col in
    if use_stops fl && negb (isnan stop_price) then
      (generate_stop_signal_nb (c_pos c) (si_stop_exit inp i col) acc,
       resolve_stop_price_and_slippage_nb stop_price (c_price c) (in_close (si_base inp) i col) slip
         (si_exit_price inp i col))
    else
      (resolve_conflicts (c_pos c) (si_signals inp i col (c_pos c) (c_vp c))
         (si_long_conflict inp i col) (si_short_conflict inp i col)
         (si_dir_conflict inp i col) (si_opposite inp i col) acc,
       (c_price c, slip)).

  (** nb.py:2075-2263 one pass of the signal loop. The order value is written
      only if cash is shared and only read then, so it is always computed
      here. *)
  Definition signal_step (inp : SigInputs) (fl : SigFlags) (i : nat) (cash free : T)
      (cols : nat -> Col) (col : nat) : res (nat -> Col) :=
    let c := cols col in
    let! (sp, stops) := stop_step inp fl i col c in
    let '((s, acc), (price, slip)) := pick_signals inp fl i col c sp in
    let! (size, stype, dir) :=
      signals_to_size_nb (c_pos c) s (in_size (si_base inp) i col) (in_size_type (si_base inp) i col)
        acc (c_vp c) in
    Ok (fupd cols col (mkCol (c_pos c) (c_debt c) (c_vp c) price slip size stype dir
          (signal_order_value (c_pos c) (c_vp c) cash free size stype dir) stops)).

  (** nb.py:2265-2275 *)
  Definition sig_sort_step (fl : SigFlags) (sharing : bool) (i from len : nat) (st : SSim) : SSim :=
    if sharing then
      let seq' :=
        if auto_call_seq (sf_base fl) then
          set_slice (ss_seq st) i from
            (map snd (insert_argsort_nb
              (map (fun k => (c_tov (ss_cols st (from + k)), ss_seq st i (from + k))) (seq 0 len))))
        else ss_seq st in
      mkSSim (ss_cash st) (ss_free st)
        (get_group_value_nb from len (ss_cash st) (fun c => c_pos (ss_cols st c)) (fun c => c_vp (ss_cols st c)))
        (ss_cols st) seq' (ss_rc st)
    else st.

  (** nb.py:2299-2325: the size is signed by direction; process_order_nb wants
      it the other way round for ShortOnly. *)
  Definition make_sig_order (inp : SigInputs) (i col : nat) (c : Col) : Order T :=
    let b := si_base inp in
    mkOrder (if is_short_only (c_dir c) then mul (c_size c) (ofZ (-1)) else c_size c)
      (c_price c) (c_stype c) (c_dir c)
      (in_fees b i col) (in_fixed_fees b i col) (c_slip c)
      (in_min_size b i col) (in_max_size b i col) (in_size_granularity b i col)
      (in_reject_prob b i col) (in_lock_cash b i col) (in_allow_partial b i col)
      (in_raise_reject b i col) (in_log b i col).

  (** nb.py:2367-2378 *)
  Definition entry_stop_price (inp : SigInputs) (i col : nat) (o : Order T) (r : OrderResult T)
      (val_price : T) : T :=
    match si_entry_price inp i col with
    | EValPrice => val_price
    | EPrice => o_price o
    | EFillPrice => r_price r
    | EClose => in_close (si_base inp) i col
    end.

  Definition set_sl (i : nat) (p stop : T) (trail : bool) (s : Stops) : Stops :=
    mkStops (Some i) p (Some i) p stop trail (tp_init_i s) (tp_init_price s) (tp_curr_stop s).
  Definition set_tp (i : nat) (p stop : T) (s : Stops) : Stops :=
    mkStops (sl_init_i s) (sl_init_price s) (sl_curr_i s) (sl_curr_price s) (sl_curr_stop s)
      (sl_curr_trail s) (Some i) p stop.

  (** nb.py:2355-2404 stops after a processed order; [pos] before, [pos'] after *)
  Definition update_stops (inp : SigInputs) (i col : nat) (o : Order T) (r : OrderResult T)
      (pos pos' val_price : T) (s : Stops) : Stops :=
    if is_filled r then
      if eqb pos' zero then no_stops
      else
        let p := entry_stop_price inp i col o r val_price in
        let sl := si_sl_stop inp i col in
        let tp := si_tp_stop inp i col in
        let m := si_stop_update inp i col in
        if eqb pos zero || neb (sign pos') (sign pos) then
          set_tp i p tp (set_sl i p sl (si_sl_trail inp i col) s)
        else if gtb (abs pos') (abs pos) then
          let s1 := if should_update_stop_nb sl m then set_sl i p sl (si_sl_trail inp i col) s else s in
          if should_update_stop_nb tp m then set_tp i p tp s1 else s1
        else s
    else s.

  (** nb.py:2285-2292 and 2328-2338 *)
  Definition sig_order_state (sharing : bool) (st : SSim) (col : nat) : ProcState T :=
    let c := ss_cols st col in
    let value_now :=
      if sharing then ss_value st
      else if neb (c_pos c) zero then add (ss_cash st) (mul (c_pos c) (c_vp c)) else ss_cash st in
    mkProc (ss_cash st) (c_pos c) (c_debt c) (ss_free st) (c_vp c) value_now.

  (** nb.py:2277-2410 one pass of the order loop. Without an order nothing
      changes (nb.py:2406-2410 then store back what was read). *)
  Definition sig_order_step (draws : nat -> T) (inp : SigInputs) (fl : SigFlags) (sharing : bool)
      (i group from len : nat) (st : SSim) (k : nat) : res SSim :=
    let! col := pick_col sharing (ss_seq st) i from len k in
    let c := ss_cols st col in
    if neb (c_size c) zero then
      let o := make_sig_order inp i col c in
      let! (r, s', rc') := process_order_nb draws i col group (sig_order_state sharing st col)
                             (update_value (sf_base fl)) o (ss_rc st) in
      let stops := if use_stops fl
                   then update_stops inp i col o r (c_pos c) (ps_position s') (ps_val_price s') (c_stops c)
                   else c_stops c in
      let vp := if negb (isnan (ps_val_price s')) || negb (ffill_val_price (sf_base fl))
                then ps_val_price s' else c_vp c in
      Ok (mkSSim (ps_cash s') (ps_free_cash s') (ps_value s')
            (fupd (ss_cols st) col
              (mkCol (ps_position s') (ps_debt s') vp (c_price c) (c_slip c) (c_size c) (c_stype c)
                 (c_dir c) (c_tov c) stops))
            (ss_seq st) rc')
    else Ok st.

  (** nb.py:2043-2275: everything before the order loop *)
  Definition sig_prepare (inp : SigInputs) (fl : SigFlags) (sharing : bool)
      (from len : nat) (st : SSim) (i : nat) : res SSim :=
    let cols1 := fold_left (sig_price_step inp fl i) (seq from len) (ss_cols st) in
    let! cols2 := foldM (signal_step inp fl i (ss_cash st) (ss_free st)) cols1 (seq from len) in
    Ok (sig_sort_step fl sharing i from len
          (mkSSim (ss_cash st) (ss_free st) (ss_value st) cols2 (ss_seq st) (ss_rc st))).

  (** nb.py:2042-2410 one bar of one group *)
  Definition sig_bar_step (draws : nat -> T) (inp : SigInputs) (fl : SigFlags) (sharing : bool)
      (group from len : nat) (st : SSim) (i : nat) : res SSim :=
    let! st1 := sig_prepare inp fl sharing from len st i in
    foldM (sig_order_step draws inp fl sharing i group from len) st1 (seq 0 len).

  (** nb.py:2036-2412 one group *)
  Definition sig_group (draws : nat -> T) (inp : SigInputs) (fl : SigFlags) (sharing : bool)
      (nrows group from len : nat) (cash0 : T) (st : SSim) : res SSim :=
    foldM (sig_bar_step draws inp fl sharing group from len)
      (mkSSim cash0 cash0 (ss_value st) (ss_cols st) (ss_seq st) (ss_rc st)) (seq 0 nrows).

  (** nb.py:2035-2412 the loop over groups *)
  Fixpoint sig_groups (draws : nat -> T) (inp : SigInputs) (fl : SigFlags) (sharing : bool)
      (nrows group from : nat) (lens : list nat) (init_cash : list T) (st : SSim) : res SSim :=
    match lens with
    | [] => Ok st
    | len :: lens' =>
        match nth_error init_cash group with
        | None => Err (IndexError "init_cash")
        | Some c =>
            let! st' := sig_group draws inp fl sharing nrows group from len c st in
            sig_groups draws inp fl sharing nrows (S group) (from + len) lens' init_cash st'
        end
    end.

  (** nb.py:2003-2033. The arrays made by np.empty are written before they are
      read. *)
  Definition sig_init (inp : SigInputs) (nrows ncols : nat) (max_orders : option nat)
      (max_logs : nat) (rng : nat) : SSim :=
    mkSSim nan nan nan (fun _ => mkCol zero zero nan nan zero zero Amount LongOnly nan no_stops)
      (in_call_seq (si_base inp))
      (mkRecs [] [] (match max_orders with Some m => m | None => nrows * ncols end)
         (if Nat.eqb max_logs 0 then 1 else max_logs) rng).

  (** nb.py:2418-2940 simulate_from_signal_func_nb *)
  Definition simulate_from_signal_func_nb (draws : nat -> T) (rng nrows ncols : nat)
      (lens : list nat) (init_cash : list T) (inp : SigInputs) (fl : SigFlags)
      (max_orders : option nat) (max_logs : nat)
    : res (list (OrderRec T) * list (LogRec T) * (nat -> nat -> nat)) :=
    raise_if (negb (Nat.eqb (sum_lens lens) ncols))
      (ValueError "group_lens has incorrect total number of columns") (
    let sharing := is_grouped lens in
    raise_if (negb (Nat.eqb (List.length init_cash) (if sharing then List.length lens else ncols)))
      (ValueError "init_cash must match the number of groups or columns") (
    let! st := sig_groups draws inp fl sharing nrows 0 0 lens init_cash
                 (sig_init inp nrows ncols max_orders max_logs rng) in
    Ok (rc_orders (ss_rc st), rc_logs (ss_rc st), ss_seq st))).

  (** ** Signals from arrays *)

  (** The six signal arrays of simulate_from_signals_nb *)
  Record SigArrays := mkArrays {
    ar_entries : nat -> nat -> bool; ar_exits : nat -> nat -> bool;
    ar_long_entries : nat -> nat -> bool; ar_long_exits : nat -> nat -> bool;
    ar_short_entries : nat -> nat -> bool; ar_short_exits : nat -> nat -> bool }.

  (** nb.py:2152-2181 *)
  Definition merge_signals (a : SigArrays) (dir : nat -> nat -> Direction) (i col : nat) : Sig :=
    let e := ar_entries a i col in let x := ar_exits a i col in
    let le := ar_long_entries a i col in let lx := ar_long_exits a i col in
    let se := ar_short_entries a i col in let sx := ar_short_exits a i col in
    if e || x then
      match dir i col with
      | LongOnly => mkSig (e || le) (x || lx) se sx
      | ShortOnly => mkSig le lx (e || se) (x || sx)
      | BothDir => mkSig (e || le) lx (x || se) sx
      end
    else mkSig le lx se sx.

  (** nb.py:2943-2958 dir_enex_signal_func_nb *)
  Definition dir_enex_signal_func_nb (entries exits : nat -> nat -> bool) (dir : nat -> nat -> Direction)
      (i col : nat) (_ _ : T) : Sig :=
    match dir i col with
    | LongOnly => mkSig (entries i col) (exits i col) false false
    | ShortOnly => mkSig false false (entries i col) (exits i col)
    | BothDir => mkSig (entries i col) false (exits i col) false
    end.

  (** nb.py:2961-2974 ls_enex_signal_func_nb *)
  Definition ls_enex_signal_func_nb (le lx se sx : nat -> nat -> bool) (i col : nat) (_ _ : T) : Sig :=
    mkSig (le i col) (lx i col) (se i col) (sx i col).

  (** nb.py:1899-1908 no_adjust_sl_func_nb, no_adjust_tp_func_nb *)
  Definition no_adjust_sl (_ _ : nat) (_ _ : T) (s : Stops) : T * bool := (sl_curr_stop s, sl_curr_trail s).
  Definition no_adjust_tp (_ _ : nat) (_ _ : T) (s : Stops) : T := tp_curr_stop s.

  (** The inputs with the signals taken from elsewhere and no stop adjustment *)
  Definition with_signals (sg : nat -> nat -> T -> T -> Sig) (inp : SigInputs) : SigInputs :=
    mkSigInputs (si_base inp) (si_open inp) (si_high inp) (si_low inp) (si_accumulate inp)
      (si_long_conflict inp) (si_short_conflict inp) (si_dir_conflict inp) (si_opposite inp)
      (si_sl_stop inp) (si_sl_trail inp) (si_tp_stop inp) (si_entry_price inp) (si_exit_price inp)
      (si_stop_exit inp) (si_stop_update inp) sg no_adjust_sl no_adjust_tp.

  (** nb.py:1916-2414 simulate_from_signals_nb *)
  Definition simulate_from_signals_nb (draws : nat -> T) (rng nrows ncols : nat)
      (lens : list nat) (init_cash : list T) (a : SigArrays) (inp : SigInputs) (fl : SigFlags)
      (max_orders : option nat) (max_logs : nat)
    : res (list (OrderRec T) * list (LogRec T) * (nat -> nat -> nat)) :=
    simulate_from_signal_func_nb draws rng nrows ncols lens init_cash
      (with_signals (fun i col _ _ => merge_signals a (in_direction (si_base inp)) i col) inp)
      fl max_orders max_logs.
End FromSignals.

Arguments Stops T : clear implicits.
Arguments SigInputs T : clear implicits.
Arguments Col T : clear implicits.
Arguments SSim T : clear implicits.
