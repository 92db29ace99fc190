(** * Model of the simulation from signals of the Rust engine:
    rust/src/portfolio.rs:2311-2665, 3198-3529, 3789-4666

    Inputs are those of FromSignals.v; of [SigInputs] the callbacks are not
    used: the signals come from arrays and stops are not adjusted. *)
From Coq Require Import ZArith Bool List String.
From Verif Require Import Base Num Order CallSeq Account Simulate FromSignals RustOrder RustSim.
Import ListNotations.
Open Scope string_scope.
Open Scope list_scope.

Section RustSignals.
  Context {T : Type} {N : Num T} {R : RustOps T}.

  (** portfolio.rs:3198-3230 generate_stop_signal *)
  Definition rs_generate_stop_signal (position_now : T) (upon_stop_exit : StopExitMode)
      (accumulate : AccumulationMode) : Sig * AccumulationMode :=
    if gtb position_now zero then
      match upon_stop_exit with
      | SClose => (mkSig false true false false, AccDisabled)
      | SCloseReduce => (mkSig false true false false, accumulate)
      | SReverse => (mkSig false false true false, AccDisabled)
      | _ => (mkSig false false true false, accumulate)
      end
    else if ltb position_now zero then
      match upon_stop_exit with
      | SClose => (mkSig false false false true, AccDisabled)
      | SCloseReduce => (mkSig false false false true, accumulate)
      | SReverse => (mkSig true false false false, AccDisabled)
      | _ => (mkSig true false false false, accumulate)
      end
    else (mkSig false false false false, accumulate).

  (** portfolio.rs:3233-3249 resolve_stop_price_and_slippage *)
  Definition rs_resolve_stop_price (stop_price price close slippage : T)
      (stop_exit_price : StopExitPrice) : T * T :=
    match stop_exit_price with
    | StopMarket => (stop_price, slippage)
    | StopLimit => (stop_price, zero)
    | XClose => (close, slippage)
    | _ => (price, slippage)
    end.

  (** portfolio.rs:3252-3297 resolve_signal_conflict *)
  Definition rs_resolve_signal_conflict (position_now : T) (is_entry is_exit : bool)
      (direction : Direction) (conflict_mode : ConflictMode) : bool * bool :=
    if is_entry && is_exit then
      match conflict_mode with
      | CEntry => (is_entry, false)
      | CExit => (false, is_exit)
      | CAdjacent =>
          if eqb position_now zero then (false, false)
          else match direction with
               | BothDir => if gtb position_now zero then (is_entry, false)
                            else if ltb position_now zero then (false, is_exit) else (is_entry, is_exit)
               | _ => (is_entry, false)
               end
      | COpposite =>
          if eqb position_now zero then (false, false)
          else match direction with
               | BothDir => if gtb position_now zero then (false, is_exit)
                            else if ltb position_now zero then (is_entry, false) else (is_entry, is_exit)
               | _ => (false, is_exit)
               end
      | _ => (false, false)
      end
    else (is_entry, is_exit).

  (** portfolio.rs:3300-3336 resolve_dir_conflict *)
  Definition rs_resolve_dir_conflict (position_now : T) (is_long_entry is_short_entry : bool)
      (upon_dir_conflict : DirectionConflictMode) : bool * bool :=
    if is_long_entry && is_short_entry then
      match upon_dir_conflict with
      | DLong => (is_long_entry, false)
      | DShort => (false, is_short_entry)
      | DAdjacent => if gtb position_now zero then (is_long_entry, false)
                     else if ltb position_now zero then (false, is_short_entry)
                     else (false, false)
      | DOpposite => if gtb position_now zero then (false, is_short_entry)
                     else if ltb position_now zero then (is_long_entry, false)
                     else (false, false)
      | _ => (false, false)
      end
    else (is_long_entry, is_short_entry).

  (** portfolio.rs:3339-3377 resolve_opposite_entry *)
  Definition rs_resolve_opposite_entry (position_now : T) (s : Sig) (upon_opposite_entry : OppositeEntryMode)
      (accumulate : AccumulationMode) : Sig * AccumulationMode :=
    let '(is_long_exit, is_short_entry, accumulate) :=
      if gtb position_now zero && g_se s then
        match upon_opposite_entry with
        | OIgnore => (g_lx s, false, accumulate)
        | OClose => (true, false, AccDisabled)
        | OCloseReduce => (true, false, accumulate)
        | OReverse => (g_lx s, g_se s, AccDisabled)
        | _ => (g_lx s, g_se s, accumulate)
        end
      else (g_lx s, g_se s, accumulate) in
    let '(is_long_entry, is_short_exit, accumulate) :=
      if ltb position_now zero && g_le s then
        match upon_opposite_entry with
        | OIgnore => (false, g_sx s, accumulate)
        | OClose => (false, true, AccDisabled)
        | OCloseReduce => (false, true, accumulate)
        | OReverse => (g_le s, g_sx s, AccDisabled)
        | _ => (g_le s, g_sx s, accumulate)
        end
      else (g_le s, g_sx s, accumulate) in
    (mkSig is_long_entry is_long_exit is_short_entry is_short_exit, accumulate).

  (** portfolio.rs:3412-3428, 3445-3461: reversing a position; divisions never
      raise *)
  Definition rs_reverse (size : T) (size_type : SizeType) (val_price_now : T) (op : T -> T -> T)
      (order_size : T) : res T :=
    if negb (isnan size) then
      match size_type with
      | Percent => Err (RejectedOrder "SizeType.Percent does not support position reversal using signals")
      | Value => Ok (op order_size (div size val_price_now))
      | _ => Ok (op order_size size)
      end
    else Ok order_size.

  (** portfolio.rs:3380-3482 signals_to_size *)
  Definition rs_signals_to_size (position_now : T) (s : Sig) (size : T) (size_type : SizeType)
      (accumulate : AccumulationMode) (val_price_now : T) : res (T * SizeType * Direction) :=
    let supported := match size_type with Amount => true | Value => true | Percent => true | _ => false end in
    if negb supported then
      Err (RejectedOrder "Only SizeType.Amount, SizeType.Value, and SizeType.Percent are supported")
    else
    let abs_position_now := abs position_now in
    if rs_is_less size zero then
      Err (RejectedOrder "Negative size is not allowed. You must express direction using signals.")
    else
    let removes := match accumulate with AccBoth => true | RemoveOnly => true | _ => false end in
    let adds := match accumulate with AccBoth => true | AddOnly => true | _ => false end in
    if gtb position_now zero then
      if g_se s then
        if removes then Ok (neg size, size_type, BothDir)
        else
          let! order_size := rs_reverse size size_type val_price_now sub (neg abs_position_now) in
          Ok (order_size, Amount, BothDir)
      else if g_lx s then
        if removes then Ok (neg size, size_type, LongOnly)
        else Ok (neg abs_position_now, Amount, LongOnly)
      else if g_le s then
        Ok (if adds then size else zero, size_type, LongOnly)
      else Ok (zero, size_type, BothDir)
    else if ltb position_now zero then
      if g_le s then
        if removes then Ok (size, size_type, BothDir)
        else
          let! order_size := rs_reverse size size_type val_price_now add abs_position_now in
          Ok (order_size, Amount, BothDir)
      else if g_sx s then
        if removes then Ok (size, size_type, ShortOnly)
        else Ok (abs_position_now, Amount, ShortOnly)
      else if g_se s then
        Ok (if adds then neg size else zero, size_type, ShortOnly)
      else Ok (zero, size_type, BothDir)
    else
      Ok (if g_le s then size else if g_se s then neg size else zero, size_type, BothDir).

  (** portfolio.rs:3485-3518 get_stop_price_rs *)
  Definition rs_get_stop_price (position_now stop_price stop open low high : T) (hit_below : bool) : res T :=
    if ltb stop zero then Err (RejectedOrder "Stop value must be 0 or greater")
    else if (gtb position_now zero && hit_below) || (ltb position_now zero && negb hit_below) then
      let sp := mul stop_price (sub one stop) in
      if leb open sp then Ok open
      else if leb low sp && leb sp high then Ok sp else Ok nan
    else if (ltb position_now zero && hit_below) || (gtb position_now zero && negb hit_below) then
      let sp := mul stop_price (add one stop) in
      if leb sp open then Ok open
      else if leb low sp && leb sp high then Ok sp else Ok nan
    else Ok nan.

  (** portfolio.rs:3521-3528 should_update_stop *)
  Definition rs_should_update_stop (stop : T) (upon_stop_update : StopUpdateMode) : bool :=
    match upon_stop_update with
    | UOverride => negb (isnan stop)
    | UOverrideNaN => true
    | _ => false
    end.

  (** portfolio.rs:2311-2332 read_signals *)
  Definition rs_read_signals (entry exit : bool) (dir : Direction)
      (long_entry long_exit short_entry short_exit : bool) : Sig :=
    if entry || exit then
      match dir with
      | LongOnly => mkSig (entry || long_entry) (exit || long_exit) short_entry short_exit
      | ShortOnly => mkSig long_entry long_exit (entry || short_entry) (exit || short_exit)
      | _ => mkSig (entry || long_entry) long_exit (exit || short_entry) short_exit
      end
    else mkSig long_entry long_exit short_entry short_exit.

  (** portfolio.rs:4023-4028: the stop variables of a column; -1 is [None].
      The arrays sl_init_i_arr, sl_init_price_arr and tp_init_i_arr
      (portfolio.rs:4321-4326) are written but never read: left out. *)
  Record RsStops := mkRsStops {
    rt_sl_i : option nat; rt_sl_price : T; rt_sl_stop : T; rt_sl_trail : bool;
    rt_tp_price : T; rt_tp_stop : T }.
  Definition rs_no_stops : RsStops := mkRsStops None nan nan false nan nan.

  (** portfolio.rs:3834-3843: open, low and high of the bar *)
  Definition rs_bar_range (inp : SigInputs T) (i col : nat) : T * T * T :=
    let close := in_close (si_base inp) i col in
    let o := if isnan (si_open inp i col) then close else si_open inp i col in
    let l := if isnan (si_low inp i col) then rs_min o close else si_low inp i col in
    let h := if isnan (si_high inp i col) then rs_max o close else si_high inp i col in
    (o, l, h).

  (** portfolio.rs:3853-3866: the trailing stop *)
  Definition rs_trail (i : nat) (position_now l h : T) (s : RsStops) : RsStops :=
    if negb (isnan (rt_sl_stop s)) && rt_sl_trail s then
      if gtb position_now zero then
        if gtb h (rt_sl_price s)
        then mkRsStops (Some i) h (rt_sl_stop s) (rt_sl_trail s) (rt_tp_price s) (rt_tp_stop s) else s
      else if ltb position_now zero then
        if ltb l (rt_sl_price s)
        then mkRsStops (Some i) l (rt_sl_stop s) (rt_sl_trail s) (rt_tp_price s) (rt_tp_stop s) else s
      else s
    else s.

  (** portfolio.rs:3830-3869: the price of a stop hit in the bar (NaN if none)
      and the stops after it *)
  Definition rs_check_stops (inp : SigInputs T) (use_stops : bool) (i col : nat) (position_now : T)
      (stops : RsStops) : res (T * RsStops) :=
    if use_stops then
      if negb (isnan (rt_sl_stop stops)) || negb (isnan (rt_tp_stop stops)) then
        let '(o, l, h) := rs_bar_range inp i col in
        let! sl_price :=
          if negb (isnan (rt_sl_stop stops))
          then rs_get_stop_price position_now (rt_sl_price stops) (rt_sl_stop stops) o l h true
          else Ok nan in
        let! stop_price :=
          if isnan sl_price && negb (isnan (rt_tp_stop stops))
          then rs_get_stop_price position_now (rt_tp_price stops) (rt_tp_stop stops) o l h false
          else Ok sl_price in
        Ok (stop_price, rs_trail i position_now l h stops)
      else Ok (nan, stops)
    else Ok (nan, stops).

  (** portfolio.rs:3871-3942: the signals to act on, the accumulation mode, the
      price and the slippage *)
  Definition rs_pick_signals (inp : SigInputs T) (a : SigArrays) (use_stops : bool) (i col : nat)
      (position_now order_price slippage_val stop_price : T) : Sig * AccumulationMode * (T * T) :=
    let accumulate_val := si_accumulate inp i col in
    if use_stops && negb (isnan stop_price) then
      (rs_generate_stop_signal position_now (si_stop_exit inp i col) accumulate_val,
       rs_resolve_stop_price stop_price order_price (in_close (si_base inp) i col) slippage_val
         (si_exit_price inp i col))
    else
      let s := rs_read_signals (ar_entries a i col) (ar_exits a i col) (in_direction (si_base inp) i col)
                 (ar_long_entries a i col) (ar_long_exits a i col)
                 (ar_short_entries a i col) (ar_short_exits a i col) in
      (if g_le s || g_se s then
         let '(le, lx) := rs_resolve_signal_conflict position_now (g_le s) (g_lx s) LongOnly
                            (si_long_conflict inp i col) in
         let '(se, sx) := rs_resolve_signal_conflict position_now (g_se s) (g_sx s) ShortOnly
                            (si_short_conflict inp i col) in
         let '(le', se') := rs_resolve_dir_conflict position_now le se (si_dir_conflict inp i col) in
         rs_resolve_opposite_entry position_now (mkSig le' lx se' sx) (si_opposite inp i col) accumulate_val
       else (s, accumulate_val),
       (order_price, slippage_val)).

  (** portfolio.rs:3789-3954 process_signals_at: signals, accumulation mode,
      price, slippage and the stops after the bar *)
  Definition rs_process_signals_at (inp : SigInputs T) (a : SigArrays) (use_stops : bool) (i col : nat)
      (position_now order_price slippage_val : T) (stops : RsStops)
    : res (Sig * AccumulationMode * (T * T) * RsStops) :=
    let! (stop_price, stops') := rs_check_stops inp use_stops i col position_now stops in
    Ok (rs_pick_signals inp a use_stops i col position_now order_price slippage_val stop_price, stops').

  (** portfolio.rs:4032-4046, 4353-4367 *)
  Definition rs_sig_price (inp : SigInputs T) (i col : nat) : T :=
    let p := in_price (si_base inp) i col in
    if isinf p then
      if gtb p zero then in_close (si_base inp) i col
      else if negb (isnan (si_open inp i col)) then si_open inp i col
      else if Nat.ltb 0 i then in_close (si_base inp) (i - 1) col
      else nan
    else p.

  (** portfolio.rs:4127-4153, 4523-4549 *)
  Definition rs_sig_order (inp : SigInputs T) (i col : nat) (order_size price slippage : T)
      (size_type : SizeType) (direction : Direction) : Order T :=
    let b := si_base inp in
    let size :=
      if gtb order_size zero then
        match direction with ShortOnly => mul order_size (ofZ (-1)) | _ => order_size end
      else match direction with ShortOnly => mul order_size (ofZ (-1)) | _ => order_size end in
    mkOrder size price size_type direction
      (in_fees b i col) (in_fixed_fees b i col) slippage
      (in_min_size b i col) (in_max_size b i col) (in_size_granularity b i col)
      (in_reject_prob b i col) (in_lock_cash b i col) (in_allow_partial b i col)
      (in_raise_reject b i col) (in_log b i col).

  (** portfolio.rs:4197-4240, 4595-4649: the stops after an order; [position]
      before and [new_position] after it *)
  Definition rs_update_stops (inp : SigInputs T) (use_stops : bool) (i col : nat) (o : Order T)
      (r : OrderResult T) (position new_position val_price : T) (s : RsStops) : RsStops :=
    if use_stops && is_filled r then
      if eqb new_position zero then rs_no_stops
      else
        let new_init_price :=
          match si_entry_price inp i col with
          | EValPrice => val_price
          | EPrice => o_price o
          | EFillPrice => r_price r
          | _ => in_close (si_base inp) i col
          end in
        let usu := si_stop_update inp i col in
        let new_sl_stop := si_sl_stop inp i col in
        let new_sl_trail := si_sl_trail inp i col in
        let new_tp_stop := si_tp_stop inp i col in
        if eqb position zero || neb (rs_signum new_position) (rs_signum position) then
          mkRsStops (Some i) new_init_price new_sl_stop new_sl_trail new_init_price new_tp_stop
        else if gtb (abs new_position) (abs position) then
          let s1 := if rs_should_update_stop new_sl_stop usu
                    then mkRsStops (Some i) new_init_price new_sl_stop new_sl_trail (rt_tp_price s) (rt_tp_stop s)
                    else s in
          if rs_should_update_stop new_tp_stop usu
          then mkRsStops (rt_sl_i s1) (rt_sl_price s1) (rt_sl_stop s1) (rt_sl_trail s1) new_init_price new_tp_stop
          else s1
        else s
    else s.

  (** ** Without cash sharing and automatic call sequences *)

  (** portfolio.rs:4016-4028: the variables of one column *)
  Record RsSigCol := mkRsSigCol {
    rh_cash : T; rh_free : T; rh_pos : T; rh_debt : T; rh_vp : T; rh_stops : RsStops; rh_rc : Recs T }.

  (** portfolio.rs:4030-4242: one bar of one column *)
  Definition rs_sig_col_bar (draws : nat -> T) (inp : SigInputs T) (a : SigArrays)
      (use_stops ffill do_update_value : bool) (col : nat) (st : RsSigCol) (i : nat) : res RsSigCol :=
    let order_price := rs_sig_price inp i col in
    let val_price_now := rs_val_price_now (si_base inp) i col order_price in
    let last_val_price := if negb (isnan val_price_now) || negb ffill then val_price_now else rh_vp st in
    let! (s, acc, (price, slip), stops) :=
      rs_process_signals_at inp a use_stops i col (rh_pos st) order_price (in_slippage (si_base inp) i col)
        (rh_stops st) in
    let! (order_size, size_type, direction) :=
      rs_signals_to_size (rh_pos st) s (in_size (si_base inp) i col) (in_size_type (si_base inp) i col) acc
        last_val_price in
    if neb order_size zero then
      let order := rs_sig_order inp i col order_size price slip size_type direction in
      let value_now :=
        if neb (rh_pos st) zero then add (rh_cash st) (mul (rh_pos st) last_val_price) else rh_cash st in
      let state := mkProc (rh_cash st) (rh_pos st) (rh_debt st) (rh_free st) last_val_price value_now in
      let! (r, new_state, rc') := rs_process_order draws i col col state do_update_value order (rh_rc st) in
      Ok (mkRsSigCol (ps_cash new_state) (ps_free_cash new_state) (ps_position new_state) (ps_debt new_state)
            (if negb (isnan (ps_val_price new_state)) || negb ffill then ps_val_price new_state else last_val_price)
            (rs_update_stops inp use_stops i col order r (rh_pos st) (ps_position new_state)
               (ps_val_price new_state) stops)
            rc')
    else Ok (mkRsSigCol (rh_cash st) (rh_free st) (rh_pos st) (rh_debt st) last_val_price stops (rh_rc st)).

  (** portfolio.rs:3956-4247 simulate_from_signals_non_shared_inner *)
  Definition rs_sig_cols (draws : nat -> T) (inp : SigInputs T) (a : SigArrays)
      (use_stops ffill do_update_value : bool) (nrows ncols : nat) (init_cash : list T) (rc : Recs T)
    : res (Recs T) :=
    foldM (fun rc col =>
      match nth_error init_cash col with
      | None => Err (IndexError "init_cash")
      | Some c =>
          let! st := foldM (rs_sig_col_bar draws inp a use_stops ffill do_update_value col)
                       (mkRsSigCol c c zero zero nan rs_no_stops rc) (seq 0 nrows) in
          Ok (rh_rc st)
      end) rc (seq 0 ncols).

  (** ** With cash sharing or automatic call sequences *)

  (** portfolio.rs:4309-4326: the arrays indexed by column *)
  Record RsCells := mkRsCells {
    rc_pos : T; rc_debt : T; rc_vp : T; rc_price : T; rc_size : T; rc_stype : SizeType;
    rc_slip : T; rc_dir : Direction; rc_stops : RsStops }.

  (** The variables; temp_order_value is indexed by the place in the group. *)
  Record RsSigSim := mkRsSigSim {
    rz_cash : T; rz_free : T; rz_value : T; rz_cols : nat -> RsCells; rz_tov : nat -> T;
    rz_seq : nat -> nat -> nat; rz_rc : Recs T }.

  (** portfolio.rs:4350-4383: prices of one column *)
  Definition rs_sig_price_pass (inp : SigInputs T) (ffill : bool) (i : nat) (cols : nat -> RsCells) (col : nat)
    : nat -> RsCells :=
    let c := cols col in
    let order_price := rs_sig_price inp i col in
    let val_price_now := rs_val_price_now (si_base inp) i col order_price in
    fupd cols col (mkRsCells (rc_pos c) (rc_debt c)
      (if negb (isnan val_price_now) || negb ffill then val_price_now else rc_vp c)
      order_price (rc_size c) (rc_stype c) (rc_slip c) (rc_dir c) (rc_stops c)).

  (** portfolio.rs:4451-4473: the value of an order *)
  Definition rs_sig_order_value (c : RsCells) (cash_now free_cash_now order_size : T) (size_type : SizeType)
      (direction : Direction) : T :=
    if eqb order_size zero then zero
    else match size_type with
         | Amount => mul order_size (rc_vp c)
         | Value => order_size
         | _ =>
             if geb order_size zero then mul order_size cash_now
             else
               let asset_value_now := mul (rc_pos c) (rc_vp c) in
               match direction with
               | LongOnly => mul order_size asset_value_now
               | _ => mul order_size (add (mul two (rs_max asset_value_now zero)) (rs_max free_cash_now zero))
               end
         end.

  (** portfolio.rs:4386-4475: signals of one column *)
  Definition rs_signal_pass (inp : SigInputs T) (a : SigArrays) (use_stops sharing auto : bool)
      (i from_col : nat) (cash_now free_cash_now : T) (st : (nat -> RsCells) * (nat -> T)) (k : nat)
    : res ((nat -> RsCells) * (nat -> T)) :=
    let '(cols, tov) := st in
    let col := from_col + k in
    let c := cols col in
    let! (s, acc, (price, slip), stops) :=
      rs_process_signals_at inp a use_stops i col (rc_pos c) (rc_price c) (in_slippage (si_base inp) i col)
        (rc_stops c) in
    let! (order_size, size_type, direction) :=
      rs_signals_to_size (rc_pos c) s (in_size (si_base inp) i col) (in_size_type (si_base inp) i col) acc
        (rc_vp c) in
    Ok (fupd cols col (mkRsCells (rc_pos c) (rc_debt c) (rc_vp c) price order_size size_type slip direction stops),
        if sharing && auto
        then fupd tov k (rs_sig_order_value c cash_now free_cash_now order_size size_type direction) else tov).

  (** portfolio.rs:4477-4498 *)
  Definition rs_sig_sort (sharing auto : bool) (i from_col group_len : nat) (st : RsSigSim) : RsSigSim :=
    let call_seq :=
      if sharing && auto then
        set_slice (rz_seq st) i from_col
          (map snd (rs_insert_argsort (map (fun k => (rz_tov st k, rz_seq st i (from_col + k))) (seq 0 group_len))))
      else rz_seq st in
    let value_now :=
      if sharing then
        rs_get_group_value from_col (from_col + group_len) (rz_cash st)
          (fun c => rc_pos (rz_cols st c)) (fun c => rc_vp (rz_cols st c))
      else rz_cash st in
    mkRsSigSim (rz_cash st) (rz_free st) value_now (rz_cols st) (rz_tov st) call_seq (rz_rc st).

  (** portfolio.rs:4500-4655: one order *)
  Definition rs_sig_order_pass (draws : nat -> T) (inp : SigInputs T) (use_stops ffill do_update_value sharing : bool)
      (i group from_col group_len : nat) (st : RsSigSim) (k : nat) : res RsSigSim :=
    let! col :=
      if sharing then
        let col_i := rz_seq st i (from_col + k) in
        if Nat.leb group_len col_i then Err (RejectedOrder "Call index exceeds bounds of the group")
        else Ok (from_col + col_i)
      else Ok (from_col + k) in
    let c := rz_cols st col in
    let value_now :=
      if negb sharing then
        if neb (rc_pos c) zero then add (rz_cash st) (mul (rc_pos c) (rc_vp c)) else rz_cash st
      else rz_value st in
    if neb (rc_size c) zero then
      let order := rs_sig_order inp i col (rc_size c) (rc_price c) (rc_slip c) (rc_stype c) (rc_dir c) in
      let state := mkProc (rz_cash st) (rc_pos c) (rc_debt c) (rz_free st) (rc_vp c) value_now in
      let! (r, new_state, rc') := rs_process_order draws i col group state do_update_value order (rz_rc st) in
      Ok (mkRsSigSim (ps_cash new_state) (ps_free_cash new_state) (ps_value new_state)
            (fupd (rz_cols st) col
              (mkRsCells (ps_position new_state) (ps_debt new_state)
                 (if negb (isnan (ps_val_price new_state)) || negb ffill then ps_val_price new_state else rc_vp c)
                 (rc_price c) (rc_size c) (rc_stype c) (rc_slip c) (rc_dir c)
                 (rs_update_stops inp use_stops i col order r (rc_pos c) (ps_position new_state)
                    (ps_val_price new_state) (rc_stops c))))
            (rz_tov st) (rz_seq st) rc')
    else Ok (mkRsSigSim (rz_cash st) (rz_free st) value_now (rz_cols st) (rz_tov st) (rz_seq st) (rz_rc st)).

  (** portfolio.rs:4348-4656: one bar of one group *)
  Definition rs_sig_bar (draws : nat -> T) (inp : SigInputs T) (a : SigArrays)
      (use_stops auto ffill do_update_value sharing : bool) (group from_col group_len : nat)
      (st : RsSigSim) (i : nat) : res RsSigSim :=
    let cols1 := fold_left (rs_sig_price_pass inp ffill i) (seq from_col group_len) (rz_cols st) in
    let! (cols2, tov) :=
      foldM (rs_signal_pass inp a use_stops sharing auto i from_col (rz_cash st) (rz_free st))
        (cols1, rz_tov st) (seq 0 group_len) in
    foldM (rs_sig_order_pass draws inp use_stops ffill do_update_value sharing i group from_col group_len)
      (rs_sig_sort sharing auto i from_col group_len
         (mkRsSigSim (rz_cash st) (rz_free st) (rz_value st) cols2 tov (rz_seq st) (rz_rc st)))
      (seq 0 group_len).

  (** portfolio.rs:4340-4660: the loop over groups *)
  Fixpoint rs_sig_groups (draws : nat -> T) (inp : SigInputs T) (a : SigArrays)
      (use_stops auto ffill do_update_value sharing : bool) (nrows group from_col : nat) (group_lens : list nat)
      (init_cash : list T) (st : RsSigSim) : res RsSigSim :=
    match group_lens with
    | [] => Ok st
    | group_len :: group_lens' =>
        match nth_error init_cash group with
        | None => Err (IndexError "init_cash")
        | Some c =>
            let! st' := foldM (rs_sig_bar draws inp a use_stops auto ffill do_update_value sharing group from_col group_len)
              (mkRsSigSim c c (rz_value st) (rz_cols st) (rz_tov st) (rz_seq st) (rz_rc st)) (seq 0 nrows) in
            rs_sig_groups draws inp a use_stops auto ffill do_update_value sharing nrows (S group)
              (from_col + group_len) group_lens' init_cash st'
        end
    end.

  (** portfolio.rs:2337-2665 simulate_from_signals_py; the records start as in
      a simulation from orders (portfolio.rs:4011, 4308) *)
  Definition rs_simulate_from_signals (draws : nat -> T) (rng nrows ncols : nat)
      (group_lens : list nat) (init_cash : list T) (a : SigArrays) (inp : SigInputs T)
      (use_stops auto ffill do_update_value : bool) (max_orders : option nat) (max_logs : nat)
    : res (list (OrderRec T) * list (LogRec T) * (nat -> nat -> nat)) :=
    let cash_sharing := existsb (fun g => Nat.ltb 1 g) group_lens in
    let total_cols := fold_right Nat.add 0 group_lens in
    if negb (Nat.eqb total_cols ncols) then
      Err (ValueError "group_lens has incorrect total number of columns")
    else
    if negb (Nat.eqb (List.length init_cash) (if cash_sharing then List.length group_lens else ncols)) then
      Err (ValueError "init_cash must match the number of groups or columns")
    else
    let rc := rs_recs nrows ncols max_orders max_logs rng in
    let call_seq := in_call_seq (si_base inp) in
    if negb cash_sharing && negb auto then
      let! rc' := rs_sig_cols draws inp a use_stops ffill do_update_value nrows ncols init_cash rc in
      Ok (rc_orders rc', rc_logs rc', call_seq)
    else
      let! st := rs_sig_groups draws inp a use_stops auto ffill do_update_value cash_sharing nrows 0 0 group_lens
        init_cash
        (mkRsSigSim nan nan nan
           (fun _ => mkRsCells zero zero nan nan zero Amount zero LongOnly rs_no_stops) (fun _ => zero) call_seq rc) in
      Ok (rc_orders (rz_rc st), rc_logs (rz_rc st), if auto then rz_seq st else call_seq).
End RustSignals.

Arguments RsStops T : clear implicits.
Arguments RsSigCol T : clear implicits.
Arguments RsCells T : clear implicits.
Arguments RsSigSim T : clear implicits.
