(** * Model of the order core of the Rust engine: rust/src/portfolio.rs:47-94,
    733-1626. Records, enums and record buffers are those of Order.v: the Rust
    structs have the same fields. *)
From Coq Require Import ZArith QArith Qround Bool List String.
From Flocq Require Import BinarySingleNaN.
From Verif Require Import Base Num B64 Order.
Import ListNotations.
Open Scope string_scope.
Open Scope list_scope.

(** The operations of Rust's f64 that have no Numba counterpart. *)
Class RustOps (T : Type) := mkRustOps {
  floor : T -> T;            (* f64::floor *)
  signbit : T -> bool        (* f64::is_sign_negative of a number that is not NaN *)
}.

Definition xq_floor (a : XQ) : XQ :=
  match a with Fin q => Fin (inject_Z (Qfloor q)) | _ => a end.

(** There is one zero only, taken as positive. *)
Definition XQrust : RustOps XQ :=
  {| floor := xq_floor; signbit := fun a => xq_ltb a (Fin 0) |}.

Definition b64_floor (a : f64) : f64 :=
  match a with
  | B754_finite s m e _ =>
      if (0 <=? e)%Z then a
      else b64_ofZ (Z.div (if s then Z.neg m else Z.pos m) (2 ^ (- e)))
  | _ => a
  end.

Definition B64rust : RustOps f64 := {| floor := b64_floor; signbit := Bsign |}.

Section RustOrder.
  Context {T : Type} {N : Num T} {R : RustOps T}.

  (** f64::min and f64::max: a NaN operand is ignored. Of two equal operands
      the first is returned (the choice matters only for the sign of zero). *)
  Definition rs_min (a b : T) : T :=
    if isnan a then b else if isnan b then a else if ltb b a then b else a.
  Definition rs_max (a b : T) : T :=
    if isnan a then b else if isnan b then a else if ltb a b then b else a.

  (** f64::signum: never zero *)
  Definition rs_signum (a : T) : T :=
    if isnan a then nan else if signbit a then neg one else one.

  (** portfolio.rs:47-61 is_close *)
  Definition rs_is_close (a b : T) : bool :=
    if isnan a || isnan b then false
    else if isinf a || isinf b then false
    else if eqb a b then true
    else leb (abs (sub a b)) (rs_max atol (mul rtol (rs_max (abs a) (abs b)))).

  (** portfolio.rs:63-69 is_close_or_less *)
  Definition rs_is_close_or_less (a b : T) : bool :=
    if rs_is_close a b then true else ltb a b.

  (** portfolio.rs:71-77 is_less *)
  Definition rs_is_less (a b : T) : bool :=
    if rs_is_close a b then false else ltb a b.

  (** portfolio.rs:79-86 is_addition_zero *)
  Definition rs_is_addition_zero (a b : T) : bool :=
    if neb (rs_signum a) (rs_signum b) then rs_is_close (abs a) (abs b)
    else rs_is_close (add a b) zero.

  (** portfolio.rs:88-95 add *)
  Definition rs_add (a b : T) : T :=
    if rs_is_addition_zero a b then zero else add a b.

  (** portfolio.rs:97-110 get_return *)
  Definition rs_get_return (input_value output_value : T) : T :=
    if eqb input_value zero then
      if eqb output_value zero then zero else mul pinf (rs_signum output_value)
    else
      let r := div (sub output_value input_value) input_value in
      if ltb input_value zero then mul r (neg one) else r.

  (** portfolio.rs:776-800: the cash limit of buy; divisions never raise *)
  Definition rs_buy_cash_limit (es : ExecState T) (adj_price fees fixed_fees : T)
      (lock_cash : bool) (percent : T) : T :=
    let l0 :=
      if lock_cash then
        if geb (es_position es) zero then es_free_cash es
        else
          let cover_req_cash :=
            add (mul (mul (abs (es_position es)) adj_price) (add one fees)) fixed_fees in
          let cover_free_cash :=
            rs_add (add (es_free_cash es) (mul two (es_debt es))) (neg cover_req_cash) in
          if gtb cover_free_cash zero then add (es_free_cash es) (mul two (es_debt es))
          else if ltb cover_free_cash zero then
            let avg_entry_price := div (es_debt es) (abs (es_position es)) in
            let max_short_size :=
              div (sub (es_free_cash es) fixed_fees)
                  (sub (mul adj_price (add one fees)) (mul two avg_entry_price)) in
            add (mul (mul max_short_size adj_price) (add one fees)) fixed_fees
          else es_cash es
      else es_cash es in
    let l1 := rs_min l0 (es_cash es) in
    if negb (isnan percent) then rs_min l1 (mul percent l1) else l1.

  (** portfolio.rs:852-855, 878-882, 1044-1047 *)
  Definition rs_granulate (size size_granularity : T) : T :=
    if negb (isnan size_granularity)
    then mul (floor (div size size_granularity)) size_granularity else size.

  (** portfolio.rs:857-890: size, fees and cash of the purchase, [None] when
      the fees cannot be covered *)
  Definition rs_buy_amounts (adj_size adj_price fees fixed_fees cash_limit size_granularity : T)
    : option (T * T * T) :=
    let req_cash := mul adj_size adj_price in
    let req_fees := add (mul req_cash fees) fixed_fees in
    let total_req_cash := add req_cash req_fees in
    if rs_is_close_or_less total_req_cash cash_limit then
      Some (adj_size, req_fees, total_req_cash)
    else
      let max_req_cash := div (rs_add cash_limit (neg fixed_fees)) (add one fees) in
      if leb max_req_cash zero then None
      else
        let max_acq_size := div max_req_cash adj_price in
        if negb (isnan size_granularity) then
          let final_size := mul (floor (div max_acq_size size_granularity)) size_granularity in
          let new_req_cash := mul final_size adj_price in
          let fees_paid := add (mul new_req_cash fees) fixed_fees in
          Some (final_size, fees_paid, add new_req_cash fees_paid)
        else Some (max_acq_size, sub cash_limit max_req_cash, cash_limit).

  (** portfolio.rs:913-943 *)
  Definition rs_buy_fill (es : ExecState T) (final_size adj_price fees_paid final_req_cash : T)
    : ExecState T * OrderResult T :=
    let new_cash := rs_add (es_cash es) (neg final_req_cash) in
    let new_position := rs_add (es_position es) final_size in
    let '(new_debt, new_free_cash) :=
      if ltb (es_position es) zero then
        let short_size :=
          if ltb new_position zero then final_size else abs (es_position es) in
        let avg_entry_price := div (es_debt es) (abs (es_position es)) in
        let debt_diff := mul short_size avg_entry_price in
        (rs_add (es_debt es) (neg debt_diff),
         rs_add (add (es_free_cash es) (mul two debt_diff)) (neg final_req_cash))
      else (es_debt es, rs_add (es_free_cash es) (neg final_req_cash)) in
    (mkExec new_cash new_position new_debt new_free_cash,
     mkRes final_size adj_price fees_paid (Some Buy) Filled None).

  (** portfolio.rs:761-943 buy *)
  Definition rs_buy (es : ExecState T) (size price : T) (direction : Direction)
      (fees fixed_fees slippage min_size max_size size_granularity : T)
      (lock_cash allow_partial : bool) (percent : T) : res (ExecState T * OrderResult T) :=
    let adj_price := mul price (add one slippage) in
    let cash_limit := rs_buy_cash_limit es adj_price fees fixed_fees lock_cash percent in
    let body :=
      let adj_size :=
        match direction with
        | ShortOnly => rs_min (neg (es_position es)) size
        | _ => size
        end in
      if eqb adj_size zero then not_filled es Ignored SizeZero
      else if gtb adj_size max_size && negb allow_partial then
        not_filled es Rejected MaxSizeExceeded
      else
      let adj_size := if gtb adj_size max_size then max_size else adj_size in
      let adj_size := rs_granulate adj_size size_granularity in
      match rs_buy_amounts adj_size adj_price fees fixed_fees cash_limit size_granularity with
      | None => not_filled es Rejected CantCoverFees
      | Some (final_size, fees_paid, final_req_cash) =>
          if rs_is_close adj_size zero then not_filled es Ignored SizeZero
          else if rs_is_less final_size min_size then not_filled es Rejected MinSizeNotReached
          else if isfinite size && rs_is_less final_size size && negb allow_partial then
            not_filled es Rejected PartialFill
          else Ok (rs_buy_fill es final_size adj_price fees_paid final_req_cash)
      end in
    match direction with
    | ShortOnly =>
        if eqb (es_position es) zero then not_filled es Rejected NoOpenPosition else body
    | _ =>
        if eqb cash_limit zero then not_filled es Rejected NoCashLong
        else if isinf size && isinf cash_limit then
          Err (ValueError "Attempt to go in long direction infinitely")
        else body
    end.

  (** portfolio.rs:966-1018: the size limit of sell with the percentage left
      to apply; [inl] is an early return *)
  Definition rs_sell_limit (es : ExecState T) (size adj_price : T) (direction : Direction)
      (fees fixed_fees : T) (lock_cash : bool) (percent : T) : OrderStatusInfo + (T * T) :=
    match direction with
    | LongOnly => inr (rs_min (es_position es) size, percent)
    | _ =>
        if lock_cash || (isinf size && negb (isnan percent)) then
          let long_size := rs_max (es_position es) zero in
          let long_cash := mul (mul long_size adj_price) (sub one fees) in
          let total_free_cash := rs_add (es_free_cash es) long_cash in
          let lim :=
            if leb total_free_cash zero then
              if leb (es_position es) zero then inl NoCashShort else inr long_size
            else
              let max_short_size :=
                div (rs_add total_free_cash (neg fixed_fees)) (mul adj_price (add one fees)) in
              let max_size_limit := rs_add long_size max_short_size in
              if leb max_size_limit zero then inl CantCoverFees else inr max_size_limit in
          match lim with
          | inl info => inl info
          | inr max_size_limit =>
              if lock_cash then
                if isinf size && negb (isnan percent) then
                  inr (rs_min (mul percent max_size_limit) max_size_limit, nan)
                else if negb (isnan percent) then
                  inr (rs_min (mul percent size) max_size_limit, nan)
                else inr (rs_min size max_size_limit, percent)
              else inr (max_size_limit, percent)
          end
        else inr (size, percent)
    end.

  (** portfolio.rs:1071-1111 *)
  Definition rs_sell_fill (es : ExecState T) (size_limit adj_price fees fixed_fees : T)
    : res (ExecState T * OrderResult T) :=
    let acq_cash := mul size_limit adj_price in
    let fees_paid := add (mul acq_cash fees) fixed_fees in
    let final_acq_cash := rs_add acq_cash (neg fees_paid) in
    if ltb final_acq_cash zero then not_filled es Rejected CantCoverFees
    else
      let new_cash := add (es_cash es) final_acq_cash in
      let new_position := rs_add (es_position es) (neg size_limit) in
      let '(new_debt, new_free_cash) :=
        if ltb new_position zero then
          let short_size :=
            if ltb (es_position es) zero then size_limit else abs new_position in
          let short_value := mul short_size adj_price in
          let free_cash_diff := rs_add final_acq_cash (mul (neg two) short_value) in
          (add (es_debt es) short_value, rs_add (es_free_cash es) free_cash_diff)
        else (es_debt es, add (es_free_cash es) final_acq_cash) in
      Ok (mkExec new_cash new_position new_debt new_free_cash,
          mkRes size_limit adj_price fees_paid (Some Sell) Filled None).

  (** portfolio.rs:945-1112 sell *)
  Definition rs_sell (es : ExecState T) (size price : T) (direction : Direction)
      (fees fixed_fees slippage min_size max_size size_granularity : T)
      (lock_cash allow_partial : bool) (percent : T) : res (ExecState T * OrderResult T) :=
    let adj_price := mul price (sub one slippage) in
    match rs_sell_limit es size adj_price direction fees fixed_fees lock_cash percent with
    | inl info => not_filled es Rejected info
    | inr (size_limit, percent_val) =>
        let size_limit :=
          if negb (isnan percent_val) then mul percent_val size_limit else size_limit in
        if gtb size_limit max_size && negb allow_partial then
          not_filled es Rejected MaxSizeExceeded
        else
        let size_limit := if gtb size_limit max_size then max_size else size_limit in
        let rest :=
          let size_limit := rs_granulate size_limit size_granularity in
          if rs_is_close size_limit zero then not_filled es Ignored SizeZero
          else if rs_is_less size_limit min_size then not_filled es Rejected MinSizeNotReached
          else if isfinite size && rs_is_less size_limit size && negb allow_partial then
            not_filled es Rejected PartialFill
          else rs_sell_fill es size_limit adj_price fees fixed_fees in
        match direction with
        | LongOnly =>
            if eqb (es_position es) zero then not_filled es Rejected NoOpenPosition else rest
        | _ =>
            if isinf size_limit then
              Err (ValueError "Attempt to go in short direction infinitely") else rest
        end
    end.

  (** portfolio.rs:1119-1143 *)
  Definition rs_snap (a : T) : T := if rs_is_close a zero then zero else a.

  (** portfolio.rs:1165-1233: checks that raise. The checks of size_type and
      direction cannot fail on enumerated types. *)
  Definition rs_check (es : ExecState T) (o : Order T) {A} (k : res A) : res A :=
    if isnan (es_cash es) || ltb (es_cash es) zero then
      Err (ValueError "cash cannot be NaN and must be greater than 0")
    else if negb (isfinite (es_position es)) then Err (ValueError "position must be finite")
    else if negb (isfinite (es_debt es)) || ltb (es_debt es) zero then
      Err (ValueError "debt must be finite and 0 or greater")
    else if isnan (es_free_cash es) then Err (ValueError "free_cash cannot be NaN")
    else if negb (isfinite (o_price o)) || leb (o_price o) zero then
      Err (ValueError "order.price must be finite and greater than 0")
    else if match o_direction o with LongOnly => ltb (es_position es) zero | _ => false end then
      Err (ValueError "position is negative but order.direction is Direction.LongOnly")
    else if match o_direction o with ShortOnly => gtb (es_position es) zero | _ => false end then
      Err (ValueError "position is positive but order.direction is Direction.ShortOnly")
    else if negb (isfinite (o_fees o)) then Err (ValueError "order.fees must be finite")
    else if negb (isfinite (o_fixed_fees o)) then
      Err (ValueError "order.fixed_fees must be finite")
    else if negb (isfinite (o_slippage o)) || ltb (o_slippage o) zero then
      Err (ValueError "order.slippage must be finite and 0 or greater")
    else if negb (isfinite (o_min_size o)) || ltb (o_min_size o) zero then
      Err (ValueError "order.min_size must be finite and 0 or greater")
    else if isnan (o_max_size o) || leb (o_max_size o) zero then
      Err (ValueError "order.max_size must be greater than 0")
    else if isinf (o_size_granularity o)
            || (negb (isnan (o_size_granularity o)) && leb (o_size_granularity o) zero) then
      Err (ValueError "order.size_granularity must be either NaN or finite and greater than 0")
    else if negb (isfinite (o_reject_prob o)) || ltb (o_reject_prob o) zero
            || gtb (o_reject_prob o) one then
      Err (ValueError "order.reject_prob must be between 0 and 1")
    else k.

  (** portfolio.rs:1235-1299: size and percentage handed to buy or sell, or an
      order that is not executed *)
  Definition rs_resolve (o : Order T) (position val_price value : T)
    : res ((OrderStatus * OrderStatusInfo) + (T * T)) :=
    let order_size :=
      match o_direction o with ShortOnly => mul (o_size o) (neg one) | _ => o_size o end in
    let amount (order_size : T) :=
      match o_direction o with
      | LongOnly => (order_size, nan)
      | _ => if ltb order_size zero && isinf order_size
             then (mul (rs_signum (neg one)) pinf, abs (neg one)) else (order_size, nan)
      end in
    let value_to_amount (order_size : T) (k : T -> T * T) :=
      if isnan val_price then Ok (inl (Ignored, ValPriceNaN))
      else if isinf val_price || leb val_price zero then
        Err (ValueError "val_price_now must be finite and greater than 0")
      else Ok (inr (k (div order_size val_price))) in
    match o_size_type o with
    | Amount => Ok (inr (amount order_size))
    | Value => value_to_amount order_size amount
    | Percent => Ok (inr (mul (rs_signum order_size) pinf, abs order_size))
    | TargetAmount => Ok (inr (amount (sub order_size position)))
    | TargetValue => value_to_amount order_size (fun x => amount (sub x position))
    | TargetPercent =>
        if isnan value then Ok (inl (Ignored, ValueNaN))
        else if leb value zero then Ok (inl (Rejected, ValueZeroNeg))
        else value_to_amount (mul order_size value) (fun x => amount (sub x position))
    end.

  (** portfolio.rs:1114-1342 execute_order. The generator is the stream of
      uniform numbers of execute_order_nb in Order.v: that the two engines seed
      different generators is not modelled. *)
  Definition rs_execute_order (draws : nat -> T) (rng : nat) (s : ProcState T) (o : Order T)
    : res (ExecState T * OrderResult T * nat) :=
    let es := mkExec (rs_snap (ps_cash s)) (rs_snap (ps_position s)) (rs_snap (ps_debt s))
                     (rs_snap (ps_free_cash s)) in
    let val_price := rs_snap (ps_val_price s) in
    let value := rs_snap (ps_value s) in
    if isnan (o_size o) then Ok (es, order_not_filled Ignored SizeNaN, rng)
    else if isnan (o_price o) then Ok (es, order_not_filled Ignored PriceNaN, rng)
    else rs_check es o (
      let! r := rs_resolve o (es_position es) val_price value in
      match r with
      | inl (st, info) => Ok (es, order_not_filled st info, rng)
      | inr (order_size, percent) =>
          let! br :=
            (if gtb order_size zero then
               rs_buy es order_size (o_price o) (o_direction o) (o_fees o) (o_fixed_fees o)
                 (o_slippage o) (o_min_size o) (o_max_size o) (o_size_granularity o)
                 (o_lock_cash o) (o_allow_partial o) percent
             else
               rs_sell es (neg order_size) (o_price o) (o_direction o) (o_fees o)
                 (o_fixed_fees o) (o_slippage o) (o_min_size o) (o_max_size o)
                 (o_size_granularity o) (o_lock_cash o) (o_allow_partial o) percent) in
          if gtb (o_reject_prob o) zero then
            if ltb (draws rng) (o_reject_prob o) then
              Ok (es, order_not_filled Rejected RandomEvent, S rng)
            else Ok (br, S rng)
          else Ok (br, rng)
      end).

  (** portfolio.rs:1344-1369 update_value *)
  Definition rs_update_value (cash_before cash_now position_before position_now
      val_price_before price value_before : T) : T * T :=
    let asset_value_before :=
      if neb position_before zero then mul position_before val_price_before else zero in
    let asset_value_now :=
      if neb position_now zero then mul position_now price else zero in
    (price, add (add value_before (sub cash_now cash_before))
                (sub asset_value_now asset_value_before)).

  (** portfolio.rs:1547-1565 rejected_order_message *)
  Definition rs_reject_message (i : option OrderStatusInfo) : string :=
    match i with
    | Some SizeNaN => "Size is NaN"
    | Some PriceNaN => "Price is NaN"
    | Some ValPriceNaN => "Asset valuation price is NaN"
    | Some ValueNaN => "Asset/group value is NaN"
    | Some ValueZeroNeg => "Asset/group value is zero or negative"
    | Some SizeZero => "Size is zero"
    | Some NoCashShort => "Not enough cash to short"
    | Some NoCashLong => "Not enough cash to long"
    | Some NoOpenPosition => "No open position to reduce/close"
    | Some MaxSizeExceeded => "Size is greater than maximum allowed"
    | Some RandomEvent => "Random event happened"
    | Some CantCoverFees => "Not enough cash to cover fees"
    | Some MinSizeNotReached => "Final size is less than minimum allowed"
    | Some PartialFill => "Final size is less than requested"
    | None => "Rejected order"
    end.

  (** portfolio.rs:1446-1545 process_order. The capacity of the vector of
      order records is taken to be the requested one; the log buffer exists, as
      it always does in the simulators. *)
  Definition rs_process_order (draws : nat -> T) (i col group : nat) (s : ProcState T)
      (do_update_value : bool) (o : Order T) (rc : Recs T)
    : res (OrderResult T * ProcState T * Recs T) :=
    let! (es, r, rng') := rs_execute_order draws (rc_rng rc) s o in
    let rejected := match r_status r with Rejected => true | _ => false end in
    let filled := match r_status r with Filled => true | _ => false end in
    if rejected && o_raise_reject o then Err (RejectedOrder (rs_reject_message (r_info r)))
    else
    let '(new_val_price, new_value) :=
      if filled && do_update_value then
        rs_update_value (ps_cash s) (es_cash es) (ps_position s) (es_position es)
          (ps_val_price s) (r_price r) (ps_value s)
      else (ps_val_price s, ps_value s) in
    let oidx := List.length (rc_orders rc) in
    let lidx := List.length (rc_logs rc) in
    if filled && Nat.leb (rc_max_orders rc) oidx then
      Err (IndexError "order_records index out of range. Set a higher max_orders.")
    else
    let orders' :=
      if filled then
        rc_orders rc ++ [mkOrderRec oidx col i (r_size r) (r_price r) (r_fees r) (r_side r)]
      else rc_orders rc in
    let s' := mkProc (es_cash es) (es_position es) (es_debt es) (es_free_cash es)
                     new_val_price new_value in
    if o_log o then
      if Nat.leb (rc_max_logs rc) lidx then
        Err (IndexError "log_records index out of range. Set a higher max_logs.")
      else
        Ok (r, s', mkRecs orders'
              (rc_logs rc ++ [mkLogRec lidx group col i s o s' r
                               (if filled then Some oidx else None)])
              (rc_max_orders rc) (rc_max_logs rc) rng')
    else Ok (r, s', mkRecs orders' (rc_logs rc) (rc_max_orders rc) (rc_max_logs rc) rng').

  (** portfolio.rs:1569-1607 approx_order_value *)
  Definition rs_approx_order_value (size : T) (size_type : SizeType) (direction : Direction)
      (cash_now position free_cash val_price value : T) : T :=
    let asset_value_now := mul position val_price in
    let size_now := match direction with ShortOnly => mul size (neg one) | _ => size end in
    match size_type with
    | Amount => mul size_now val_price
    | Value => size_now
    | Percent =>
        if geb size_now zero then mul size_now cash_now
        else match direction with
             | LongOnly => mul size_now asset_value_now
             | _ => mul size_now (add (mul two (rs_max asset_value_now zero))
                                      (rs_max free_cash zero))
             end
    | TargetAmount => sub (mul size_now val_price) asset_value_now
    | TargetValue => sub size_now asset_value_now
    | TargetPercent => sub (mul size_now value) asset_value_now
    end.
End RustOrder.
