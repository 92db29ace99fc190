(** * Model of order execution: vectorbt/portfolio/nb.py:66-733 and the
    named tuples and enums of vectorbt/portfolio/enums.py it uses. *)
From Coq Require Import ZArith Bool List String.
From Verif Require Import Base Num MathNb.
Import ListNotations.
Open Scope string_scope.
Open Scope list_scope.

(** portfolio/enums.py SizeType, Direction, OrderStatus, OrderSide,
    OrderStatusInfo. Enumerated types have no out-of-range values, so the
    checks of nb.py:396-399 on size_type and direction cannot fail here. *)
Inductive SizeType := Amount | Value | Percent | TargetAmount | TargetValue | TargetPercent.
Inductive Direction := LongOnly | ShortOnly | BothDir.
Inductive OrderStatus := Filled | Ignored | Rejected.
Inductive OrderSide := Buy | Sell.
Inductive OrderStatusInfo :=
| SizeNaN | PriceNaN | ValPriceNaN | ValueNaN | ValueZeroNeg | SizeZero
| NoCashShort | NoCashLong | NoOpenPosition | MaxSizeExceeded | RandomEvent
| CantCoverFees | MinSizeNotReached | PartialFill.

Definition is_long_only (d : Direction) : bool := match d with LongOnly => true | _ => false end.
Definition is_short_only (d : Direction) : bool := match d with ShortOnly => true | _ => false end.

Section Order.
  Context {T : Type} {N : Num T}.

  (** enums.py ExecuteOrderState *)
  Record ExecState := mkExec {
    es_cash : T; es_position : T; es_debt : T; es_free_cash : T }.

  (** enums.py OrderResult; side -1 and status_info -1 become [None]. *)
  Record OrderResult := mkRes {
    r_size : T; r_price : T; r_fees : T;
    r_side : option OrderSide; r_status : OrderStatus;
    r_info : option OrderStatusInfo }.

  (** enums.py Order *)
  Record Order := mkOrder {
    o_size : T; o_price : T; o_size_type : SizeType; o_direction : Direction;
    o_fees : T; o_fixed_fees : T; o_slippage : T; o_min_size : T; o_max_size : T;
    o_size_granularity : T; o_reject_prob : T; o_lock_cash : bool;
    o_allow_partial : bool; o_raise_reject : bool; o_log : bool }.

  (** The part of enums.py ProcessOrderState that execution reads; the record
      counters oidx/lidx are the lengths of the record lists below. *)
  Record ProcState := mkProc {
    ps_cash : T; ps_position : T; ps_debt : T; ps_free_cash : T;
    ps_val_price : T; ps_value : T }.

  (** nb.py:66-68 order_not_filled_nb *)
  Definition order_not_filled (st : OrderStatus) (info : OrderStatusInfo) : OrderResult :=
    mkRes nan nan nan None st (Some info).

  Definition not_filled (es : ExecState) (st : OrderStatus) (info : OrderStatusInfo)
    : res (ExecState * OrderResult) := Ok (es, order_not_filled st info).

  (** nb.py:93-112: the [lock_cash] part of buy_nb's cash limit *)
  Definition buy_lock_limit (es : ExecState) (adj_price fees fixed_fees : T) : res T :=
    if geb (es_position es) zero then Ok (es_free_cash es)
    else
      let cover_req_cash :=
        add (mul (mul (abs (es_position es)) adj_price) (add one fees)) fixed_fees in
      let cover_free_cash :=
        add_nb (add (es_free_cash es) (mul two (es_debt es))) (neg cover_req_cash) in
      if gtb cover_free_cash zero then
        Ok (add (es_free_cash es) (mul two (es_debt es)))
      else if ltb cover_free_cash zero then
        let! avg_entry_price := sdiv (es_debt es) (abs (es_position es)) in
        let! max_short_size :=
          sdiv (sub (es_free_cash es) fixed_fees)
               (sub (mul adj_price (add one fees)) (mul two avg_entry_price)) in
        Ok (add (mul (mul max_short_size adj_price) (add one fees)) fixed_fees)
      else Ok (es_cash es).

  (** nb.py:92-117: cash limit of buy_nb including [percent] *)
  Definition buy_cash_limit (es : ExecState) (adj_price fees fixed_fees : T)
      (lock_cash : bool) (percent : T) : res T :=
    let! l0 := if lock_cash then buy_lock_limit es adj_price fees fixed_fees
               else Ok (es_cash es) in
    let l1 := min2 l0 (es_cash es) in
    Ok (if negb (isnan percent) then min2 l1 (mul percent l1) else l1).

  (** nb.py:143-145, 168-170: rounding down to the granularity *)
  Definition granulate (size size_granularity : T) : res T :=
    if negb (isnan size_granularity) then
      let! k := sfdiv size size_granularity in Ok (mul k size_granularity)
    else Ok size.

  (** nb.py:190-211: the state after a buy of [final_size] *)
  Definition buy_fill (es : ExecState) (final_size adj_price fees_paid final_req_cash : T)
    : res (ExecState * OrderResult) :=
    let new_cash := add_nb (es_cash es) (neg final_req_cash) in
    let new_position := add_nb (es_position es) final_size in
    let! df :=
      if ltb (es_position es) zero then
        let short_size :=
          if ltb new_position zero then final_size else abs (es_position es) in
        let! avg_entry_price := sdiv (es_debt es) (abs (es_position es)) in
        let debt_diff := mul short_size avg_entry_price in
        Ok (add_nb (es_debt es) (neg debt_diff),
            add_nb (add (es_free_cash es) (mul two debt_diff)) (neg final_req_cash))
      else Ok (es_debt es, add_nb (es_free_cash es) (neg final_req_cash)) in
    Ok (mkExec new_cash new_position (fst df) (snd df),
        mkRes final_size adj_price fees_paid (Some Buy) Filled None).

  (** nb.py:147-177: size, fees and cash of the buy, or [None] when the fees
      cannot be covered *)
  Definition buy_amounts (adj_size adj_price fees fixed_fees cash_limit size_granularity : T)
    : res (option (T * T * T)) :=
    let req_cash := mul adj_size adj_price in
    let req_fees := add (mul req_cash fees) fixed_fees in
    let total_req_cash := add req_cash req_fees in
    if is_close_or_less_nb total_req_cash cash_limit then
      Ok (Some (adj_size, req_fees, total_req_cash))
    else
      let! max_req_cash := sdiv (add_nb cash_limit (neg fixed_fees)) (add one fees) in
      if leb max_req_cash zero then Ok None
      else
        let! max_acq_size := sdiv max_req_cash adj_price in
        if negb (isnan size_granularity) then
          let! final_size := granulate max_acq_size size_granularity in
          let new_req_cash := mul final_size adj_price in
          let fees_paid := add (mul new_req_cash fees) fixed_fees in
          Ok (Some (final_size, fees_paid, add new_req_cash fees_paid))
        else
          Ok (Some (max_acq_size, sub cash_limit max_req_cash, cash_limit)).

  (** nb.py:147-188: amounts and the checks that follow; [adj_size] is final
      apart from the cash limit. *)
  Definition buy_sized (es : ExecState) (size adj_size adj_price fees fixed_fees
      min_size size_granularity cash_limit : T) (allow_partial : bool)
    : res (ExecState * OrderResult) :=
    let! amounts := buy_amounts adj_size adj_price fees fixed_fees cash_limit size_granularity in
    match amounts with
    | None => not_filled es Rejected CantCoverFees
    | Some (final_size, fees_paid, final_req_cash) =>
        if is_close_nb adj_size zero then not_filled es Ignored SizeZero
        else if is_less_nb final_size min_size then not_filled es Rejected MinSizeNotReached
        else if isfinite size && is_less_nb final_size size && negb allow_partial then
          not_filled es Rejected PartialFill
        else buy_fill es final_size adj_price fees_paid final_req_cash
    end.

  (** nb.py:72-211 buy_nb *)
  Definition buy_nb (es : ExecState) (size price : T) (direction : Direction)
      (fees fixed_fees slippage min_size max_size size_granularity : T)
      (lock_cash allow_partial : bool) (percent : T) : res (ExecState * OrderResult) :=
    let adj_price := mul price (add one slippage) in
    let! cash_limit := buy_cash_limit es adj_price fees fixed_fees lock_cash percent in
    if negb (is_short_only direction) && eqb cash_limit zero then
      not_filled es Rejected NoCashLong
    else if negb (is_short_only direction) && (isinf size && isinf cash_limit) then
      Err (ValueError "Attempt to go in long direction infinitely")
    else if is_short_only direction && eqb (es_position es) zero then
      not_filled es Rejected NoOpenPosition
    else
    let adj_size0 :=
      if is_short_only direction then min2 (neg (es_position es)) size else size in
    if eqb adj_size0 zero then not_filled es Ignored SizeZero
    else if gtb adj_size0 max_size && negb allow_partial then
      not_filled es Rejected MaxSizeExceeded
    else
    let adj_size1 := if gtb adj_size0 max_size then max_size else adj_size0 in
    let! adj_size := granulate adj_size1 size_granularity in
    buy_sized es size adj_size adj_price fees fixed_fees min_size size_granularity
      cash_limit allow_partial.

  (** nb.py:239-273: size limit of sell_nb outside of LongOnly, together with the
      remaining [percent]; [inl] is an early return *)
  Definition sell_short_limit (es : ExecState) (size adj_price fees fixed_fees : T)
      (lock_cash : bool) (percent : T) : res (OrderStatusInfo + (T * T)) :=
    if lock_cash || (isinf size && negb (isnan percent)) then
      let long_size := max2 (es_position es) zero in
      let long_cash := mul (mul long_size adj_price) (sub one fees) in
      let total_free_cash := add_nb (es_free_cash es) long_cash in
      let! lim :=
        if leb total_free_cash zero then
          if leb (es_position es) zero then Ok (inl NoCashShort)
          else Ok (inr long_size)
        else
          let! max_short_size :=
            sdiv (add_nb total_free_cash (neg fixed_fees)) (mul adj_price (add one fees)) in
          let max_size_limit := add_nb long_size max_short_size in
          if leb max_size_limit zero then Ok (inl CantCoverFees)
          else Ok (inr max_size_limit) in
      match lim with
      | inl info => Ok (inl info)
      | inr max_size_limit =>
          if lock_cash then
            if isinf size && negb (isnan percent) then
              Ok (inr (min2 (mul percent max_size_limit) max_size_limit, nan))
            else if negb (isnan percent) then
              Ok (inr (min2 (mul percent size) max_size_limit, nan))
            else Ok (inr (min2 size max_size_limit, percent))
          else Ok (inr (max_size_limit, percent))
      end
    else Ok (inr (size, percent)).

  (** nb.py:235-273: size limit of sell_nb *)
  Definition sell_limit (es : ExecState) (size adj_price : T) (direction : Direction)
      (fees fixed_fees : T) (lock_cash : bool) (percent : T)
    : res (OrderStatusInfo + (T * T)) :=
    if is_long_only direction then Ok (inr (min2 (es_position es) size, percent))
    else sell_short_limit es size adj_price fees fixed_fees lock_cash percent.

  (** nb.py:307-339: the state after a sale of [size_limit] *)
  Definition sell_fill (es : ExecState) (size_limit adj_price fees fixed_fees : T)
    : res (ExecState * OrderResult) :=
    let acq_cash := mul size_limit adj_price in
    let fees_paid := add (mul acq_cash fees) fixed_fees in
    let final_acq_cash := add_nb acq_cash (neg fees_paid) in
    if ltb final_acq_cash zero then not_filled es Rejected CantCoverFees
    else
      let new_cash := add (es_cash es) final_acq_cash in
      let new_position := add_nb (es_position es) (neg size_limit) in
      let '(new_debt, new_free_cash) :=
        if ltb new_position zero then
          let short_size :=
            if ltb (es_position es) zero then size_limit else abs new_position in
          let short_value := mul short_size adj_price in
          let free_cash_diff := add_nb final_acq_cash (mul (neg two) short_value) in
          (add (es_debt es) short_value, add_nb (es_free_cash es) free_cash_diff)
        else (es_debt es, add (es_free_cash es) final_acq_cash) in
      Ok (mkExec new_cash new_position new_debt new_free_cash,
          mkRes size_limit adj_price fees_paid (Some Sell) Filled None).

  (** nb.py:285-305: checks of the size, then the fill *)
  Definition sell_sized (es : ExecState) (size size_limit1 adj_price : T)
      (direction : Direction) (fees fixed_fees min_size size_granularity : T)
      (allow_partial : bool) : res (ExecState * OrderResult) :=
    if negb (is_long_only direction) && isinf size_limit1 then
      Err (ValueError "Attempt to go in short direction infinitely")
    else if is_long_only direction && eqb (es_position es) zero then
      not_filled es Rejected NoOpenPosition
    else
    let! size_limit := granulate size_limit1 size_granularity in
    if is_close_nb size_limit zero then not_filled es Ignored SizeZero
    else if is_less_nb size_limit min_size then not_filled es Rejected MinSizeNotReached
    else if isfinite size && is_less_nb size_limit size && negb allow_partial then
      not_filled es Rejected PartialFill
    else sell_fill es size_limit adj_price fees fixed_fees.

  (** nb.py:215-339 sell_nb *)
  Definition sell_nb (es : ExecState) (size price : T) (direction : Direction)
      (fees fixed_fees slippage min_size max_size size_granularity : T)
      (lock_cash allow_partial : bool) (percent : T) : res (ExecState * OrderResult) :=
    let adj_price := mul price (sub one slippage) in
    let! lim := sell_limit es size adj_price direction fees fixed_fees lock_cash percent in
    match lim with
    | inl info => not_filled es Rejected info
    | inr (size_limit, percent') =>
        let size_limit0 :=
          if negb (isnan percent') then mul percent' size_limit else size_limit in
        if gtb size_limit0 max_size && negb allow_partial then
          not_filled es Rejected MaxSizeExceeded
        else
        let size_limit1 := if gtb size_limit0 max_size then max_size else size_limit0 in
        sell_sized es size size_limit1 adj_price direction fees fixed_fees min_size
          size_granularity allow_partial
    end.

  (** nb.py:354-372: values within tolerance of zero become zero *)
  Definition snap (a : T) : T := if is_close_nb a zero then zero else a.

  (** nb.py:374-375 *)
  Definition snap_state (s : ProcState) : ExecState :=
    mkExec (snap (ps_cash s)) (snap (ps_position s)) (snap (ps_debt s)) (snap (ps_free_cash s)).

  (** nb.py:383-417: checks that raise *)
  Definition check_state_order (es : ExecState) (o : Order) {A} (k : res A) : res A :=
    raise_if (isnan (es_cash es) || ltb (es_cash es) zero)
      (ValueError "cash cannot be NaN and must be greater than 0") (
    raise_if (negb (isfinite (es_position es))) (ValueError "position must be finite") (
    raise_if (negb (isfinite (es_debt es)) || ltb (es_debt es) zero)
      (ValueError "debt must be finite and 0 or greater") (
    raise_if (isnan (es_free_cash es)) (ValueError "free_cash cannot be NaN") (
    raise_if (negb (isfinite (o_price o)) || leb (o_price o) zero)
      (ValueError "order.price must be finite and greater than 0") (
    raise_if (is_long_only (o_direction o) && ltb (es_position es) zero)
      (ValueError "position is negative but order.direction is Direction.LongOnly") (
    raise_if (is_short_only (o_direction o) && gtb (es_position es) zero)
      (ValueError "position is positive but order.direction is Direction.ShortOnly") (
    raise_if (negb (isfinite (o_fees o))) (ValueError "order.fees must be finite") (
    raise_if (negb (isfinite (o_fixed_fees o))) (ValueError "order.fixed_fees must be finite") (
    raise_if (negb (isfinite (o_slippage o)) || ltb (o_slippage o) zero)
      (ValueError "order.slippage must be finite and 0 or greater") (
    raise_if (negb (isfinite (o_min_size o)) || ltb (o_min_size o) zero)
      (ValueError "order.min_size must be finite and 0 or greater") (
    raise_if (isnan (o_max_size o) || leb (o_max_size o) zero)
      (ValueError "order.max_size must be greater than 0") (
    raise_if (isinf (o_size_granularity o) || leb (o_size_granularity o) zero)
      (ValueError "order.size_granularity must be either NaN or finite and greater than 0") (
    raise_if (negb (isfinite (o_reject_prob o)) || ltb (o_reject_prob o) zero
              || gtb (o_reject_prob o) one)
      (ValueError "order.reject_prob must be between 0 and 1") k))))))))))))).

  (** nb.py:419-466: conversion of every size type to an amount.
      [inl] is an early return, [inr (order_size, percent)] the amount. *)
  Definition resolve_target_percent (value order_size : T) (st : SizeType)
    : (OrderStatus * OrderStatusInfo) + (T * SizeType) :=
    match st with
    | TargetPercent =>
        if isnan value then inl (Ignored, ValueNaN)
        else if leb value zero then inl (Rejected, ValueZeroNeg)
        else inr (mul order_size value, TargetValue)
    | _ => inr (order_size, st)
    end.

  Definition resolve_value (val_price order_size : T) (st : SizeType)
    : res ((OrderStatus * OrderStatusInfo) + (T * SizeType)) :=
    match st with
    | Value | TargetValue =>
        if isinf val_price || leb val_price zero then
          Err (ValueError "val_price_now must be finite and greater than 0")
        else if isnan val_price then Ok (inl (Ignored, ValPriceNaN))
        else
          let! s := sdiv order_size val_price in
          Ok (inr (s, match st with Value => Amount | _ => TargetAmount end))
    | _ => Ok (inr (order_size, st))
    end.

  Definition resolve_amount (direction : Direction) (position order_size : T) (st : SizeType)
    : T * T :=
    let '(order_size, st) :=
      match st with
      | TargetAmount => (sub order_size position, Amount)
      | _ => (order_size, st)
      end in
    let '(order_size, st) :=
      match st with
      | Amount =>
          if negb (is_long_only direction) && (ltb order_size zero && isinf order_size)
          then (neg one, Percent) else (order_size, st)
      | _ => (order_size, st)
      end in
    match st with
    | Percent => (mul (sign order_size) pinf, abs order_size)
    | _ => (order_size, nan)
    end.

  Definition resolve_size (o : Order) (position val_price value : T)
    : res ((OrderStatus * OrderStatusInfo) + (T * T)) :=
    let order_size :=
      if is_short_only (o_direction o) then mul (o_size o) (neg one) else o_size o in
    match resolve_target_percent value order_size (o_size_type o) with
    | inl e => Ok (inl e)
    | inr (s1, t1) =>
        let! r := resolve_value val_price s1 t1 in
        match r with
        | inl e => Ok (inl e)
        | inr (s2, t2) => Ok (inr (resolve_amount (o_direction o) position s2 t2))
        end
    end.

  (** nb.py:468-499: choice of buy_nb or sell_nb *)
  Definition buy_or_sell (es : ExecState) (o : Order) (order_size percent : T)
    : res (ExecState * OrderResult) :=
    if gtb order_size zero then
      buy_nb es order_size (o_price o) (o_direction o) (o_fees o) (o_fixed_fees o)
        (o_slippage o) (o_min_size o) (o_max_size o) (o_size_granularity o)
        (o_lock_cash o) (o_allow_partial o) percent
    else
      sell_nb es (neg order_size) (o_price o) (o_direction o) (o_fees o) (o_fixed_fees o)
        (o_slippage o) (o_min_size o) (o_max_size o) (o_size_granularity o)
        (o_lock_cash o) (o_allow_partial o) percent.

  (** nb.py:343-505 execute_order_nb. The random generator is an infinite
      stream [draws] of uniform numbers with a read position [rng], which is
      returned advanced when a number was drawn. *)
  Definition execute_order_nb (draws : nat -> T) (rng : nat) (s : ProcState) (o : Order)
    : res (ExecState * OrderResult * nat) :=
    let es := snap_state s in
    let val_price := snap (ps_val_price s) in
    let value := snap (ps_value s) in
    if isnan (o_size o) then Ok (es, order_not_filled Ignored SizeNaN, rng)
    else if isnan (o_price o) then Ok (es, order_not_filled Ignored PriceNaN, rng)
    else check_state_order es o (
      let! r := resolve_size o (es_position es) val_price value in
      match r with
      | inl (st, info) => Ok (es, order_not_filled st info, rng)
      | inr (order_size, percent) =>
          let! br := buy_or_sell es o order_size percent in
          if gtb (o_reject_prob o) zero then
            if ltb (draws rng) (o_reject_prob o) then
              Ok (es, order_not_filled Rejected RandomEvent, S rng)
            else Ok (br, S rng)
          else Ok (br, rng)
      end).

  (** nb.py:622-644 update_value_nb *)
  Definition update_value_nb (cash_before cash_now position_before position_now
      val_price_before price value_before : T) : T * T :=
    let cash_flow := sub cash_now cash_before in
    let asset_value_before :=
      if neb position_before zero then mul position_before val_price_before else zero in
    let asset_value_now :=
      if neb position_now zero then mul position_now price else zero in
    let asset_value_diff := sub asset_value_now asset_value_before in
    (price, add (add value_before cash_flow) asset_value_diff).

  (** Order record: the fields written by nb.py:574-583 fill_order_record_nb *)
  Record OrderRec := mkOrderRec {
    or_id : nat; or_col : nat; or_idx : nat;
    or_size : T; or_price : T; or_fees : T; or_side : option OrderSide }.

  (** Log record: nb.py:509-570 fill_log_record_nb (the request is stored
      whole instead of field by field) *)
  Record LogRec := mkLogRec {
    lg_id : nat; lg_group : nat; lg_col : nat; lg_idx : nat;
    lg_before : ProcState; lg_req : Order; lg_after : ProcState;
    lg_result : OrderResult; lg_order_id : option nat }.

  Definition is_filled (r : OrderResult) : bool :=
    match r_status r with Filled => true | _ => false end.
  Definition is_rejected (r : OrderResult) : bool :=
    match r_status r with Rejected => true | _ => false end.

  (** nb.py:587-619 raise_rejected_order_nb *)
  Definition reject_message (i : option OrderStatusInfo) : string :=
    match i with
    | Some SizeNaN => "Size is NaN"
    | Some PriceNaN => "Price is NaN"
    | Some ValPriceNaN => "Asset valuation price is NaN"
    | Some ValueNaN => "Asset/group value is NaN"
    | Some ValueZeroNeg => "Asset/group value is zero or negative"
    | Some SizeZero => "Size is zero"
    | Some NoCashShort => "Not enough cash to short"
    | Some NoCashLong => "Not enough cash to long"
    | Some NoOpenPosition => "No open position to reduce/close"
    | Some MaxSizeExceeded => "Size is greater than maximum allowed"
    | Some RandomEvent => "Random event happened"
    | Some CantCoverFees => "Not enough cash to cover fees"
    | Some MinSizeNotReached => "Final size is less than minimum allowed"
    | Some PartialFill => "Final size is less than requested"
    | None => ""
    end.

  (** The record buffers: preallocated arrays of [max_orders]/[max_logs]
      entries of which the first oidx/lidx are filled. The model keeps the
      filled entries in order and the capacities. *)
  Record Recs := mkRecs {
    rc_orders : list OrderRec; rc_logs : list LogRec;
    rc_max_orders : nat; rc_max_logs : nat; rc_rng : nat }.

  (** nb.py:648-733 process_order_nb *)
  Definition process_order_nb (draws : nat -> T) (i col group : nat) (s : ProcState)
      (update_value : bool) (o : Order) (rc : Recs)
    : res (OrderResult * ProcState * Recs) :=
    let! (es, r, rng') := execute_order_nb draws (rc_rng rc) s o in
    raise_if (is_rejected r && o_raise_reject o) (RejectedOrder (reject_message (r_info r))) (
    let '(new_val_price, new_value) :=
      if is_filled r && update_value then
        update_value_nb (ps_cash s) (es_cash es) (ps_position s) (es_position es)
          (ps_val_price s) (r_price r) (ps_value s)
      else (ps_val_price s, ps_value s) in
    let oidx := List.length (rc_orders rc) in
    let lidx := List.length (rc_logs rc) in
    raise_if (is_filled r && Nat.leb (rc_max_orders rc) oidx)
      (IndexError "order_records index out of range. Set a higher max_orders.") (
    let orders' :=
      if is_filled r then
        rc_orders rc ++ [mkOrderRec oidx col i (r_size r) (r_price r) (r_fees r) (r_side r)]
      else rc_orders rc in
    raise_if (o_log o && Nat.leb (rc_max_logs rc) lidx)
      (IndexError "log_records index out of range. Set a higher max_logs.") (
    let s' := mkProc (es_cash es) (es_position es) (es_debt es) (es_free_cash es)
                     new_val_price new_value in
    let logs' :=
      if o_log o then
        rc_logs rc ++ [mkLogRec lidx group col i s o s' r
                        (if is_filled r then Some oidx else None)]
      else rc_logs rc in
    Ok (r, s', mkRecs orders' logs' (rc_max_orders rc) (rc_max_logs rc) rng')))).
End Order.

Arguments ExecState T : clear implicits.
Arguments OrderResult T : clear implicits.
Arguments Order T : clear implicits.
Arguments ProcState T : clear implicits.
Arguments OrderRec T : clear implicits.
Arguments LogRec T : clear implicits.
Arguments Recs T : clear implicits.
