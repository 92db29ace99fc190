(** * Model of the account and the performance of the Rust engine:
    rust/src/portfolio.rs:2667-2779, 3595-3786, 4670-5294, 5552-5873.

    Records are those of Order.v. The Rust code keeps arrays row by row in one
    vector; as in Replay.v and Performance.v they are functions of the bar and the
    column here, and what a vector that is not initialized holds is the parameter
    [empty]. Indices out of range, at which the Rust code panics, are not modelled. *)
From Coq Require Import String ZArith Bool List Arith.
From Verif Require Import Base Num Order RustOrder Account Replay Simulate Performance.
Import ListNotations.
Local Open Scope string_scope.
Local Open Scope nat_scope.
Local Open Scope list_scope.

Section RustReplay.
  Context {T : Type} {N : Num T} {R : RustOps T}.

  (** portfolio.rs:2667-2678 get_long_size *)
  Definition rs_get_long_size (position_before position_now : T) : T :=
    if leb position_before zero && leb position_now zero then zero
    else if geb position_before zero && ltb position_now zero then neg position_before
    else if ltb position_before zero && geb position_now zero then position_now
    else rs_add position_now (neg position_before).

  (** portfolio.rs:2693-2704 get_short_size *)
  Definition rs_get_short_size (position_before position_now : T) : T :=
    if geb position_before zero && geb position_now zero then zero
    else if geb position_before zero && ltb position_now zero then neg position_now
    else if ltb position_before zero && geb position_now zero then position_before
    else rs_add position_before (neg position_now).

  (** portfolio.rs:3613-3646: one record of asset_flow_inner *)
  Definition rs_asset_flow_step (direction : Direction) (s : Z * T * (nat -> T)) (r : OrderRec T)
    : res (Z * T * (nat -> T)) :=
    let '(last_id, position_now, out) := s in
    check_id last_id r (
    let size := if is_sell r then mul (or_size r) (neg one) else or_size r in
    let new_position_now := rs_add position_now size in
    let asset_flow :=
      match direction with
      | LongOnly => rs_get_long_size position_now new_position_now
      | ShortOnly => rs_get_short_size position_now new_position_now
      | BothDir => size
      end in
    Ok (Z.of_nat (or_id r), new_position_now,
        fupd out (or_idx r) (rs_add (out (or_idx r)) asset_flow))).

  (** portfolio.rs:3595-3650 asset_flow_inner, one column *)
  Definition rs_asset_flow (direction : Direction) (recs : list (OrderRec T)) (col : nat) : res (nat -> T) :=
    match column_records col recs with
    | [] => Ok (fun _ => zero)
    | crecs =>
        let! s := foldM (rs_asset_flow_step direction) ((-1)%Z, zero, fun _ => zero) crecs in Ok (snd s)
    end.

  (** portfolio.rs:4713-4722 assets_py, one column *)
  Definition rs_assets (asset_flow : nat -> T) (i : nat) : T :=
    fold_left (fun p j => rs_add p (asset_flow j)) (seq 0 (S i)) zero.

  (** portfolio.rs:2741-2775 get_free_cash_diff: the division never raises *)
  Definition rs_get_free_cash_diff (position_before position_now debt_now price fees : T) : T * T :=
    let size := rs_add position_now (neg position_before) in
    let final_cash := sub (mul (neg size) price) fees in
    if rs_is_close size zero then (debt_now, zero)
    else if gtb size zero then
      if ltb position_before zero then
        let short_size := if ltb position_now zero then abs size else abs position_before in
        let avg_entry_price := div debt_now (abs position_before) in
        let debt_diff := mul short_size avg_entry_price in
        (rs_add debt_now (neg debt_diff), rs_add (mul two debt_diff) final_cash)
      else (debt_now, final_cash)
    else
      if ltb position_now zero then
        let short_size := if ltb position_before zero then abs size else abs position_now in
        let short_value := mul short_size price in
        (add debt_now short_value, rs_add final_cash (mul (neg two) short_value))
      else (debt_now, final_cash).

  (** portfolio.rs:3708-3734: one record of cash_flow_inner, all cash; positions
      are not followed *)
  Definition rs_cash_flow_step (s : Z * (nat -> T)) (r : OrderRec T) : res (Z * (nat -> T)) :=
    let '(last_id, out) := s in
    check_id last_id r (
    let size := if is_sell r then mul (or_size r) (neg one) else or_size r in
    let cash_flow := sub (mul (neg size) (or_price r)) (or_fees r) in
    Ok (Z.of_nat (or_id r), fupd out (or_idx r) (rs_add (out (or_idx r)) cash_flow))).

  (** portfolio.rs:3736-3762: one record, free cash *)
  Definition rs_free_cash_flow_step (s : Z * T * T * (nat -> T)) (r : OrderRec T) : res (Z * T * T * (nat -> T)) :=
    let '(last_id, position_now, debt_now, out) := s in
    check_id last_id r (
    let size := if is_sell r then mul (or_size r) (neg one) else or_size r in
    let new_position_now := rs_add position_now size in
    let '(new_debt, cash_flow) :=
      rs_get_free_cash_diff position_now new_position_now debt_now (or_price r) (or_fees r) in
    Ok (Z.of_nat (or_id r), new_position_now, new_debt,
        fupd out (or_idx r) (rs_add (out (or_idx r)) cash_flow))).

  (** portfolio.rs:3686-3765 cash_flow_inner, one column *)
  Definition rs_cash_flow (free : bool) (recs : list (OrderRec T)) (col : nat) : res (nat -> T) :=
    match column_records col recs with
    | [] => Ok (fun _ => zero)
    | crecs =>
        if free then
          let! s := foldM rs_free_cash_flow_step ((-1)%Z, zero, zero, fun _ => zero) crecs in Ok (snd s)
        else
          let! s := foldM rs_cash_flow_step ((-1)%Z, fun _ => zero) crecs in Ok (snd s)
    end.

  (** portfolio.rs:3771-3786 sum_grouped_inner, one group at one bar *)
  Definition rs_sum_cols (a : nat -> nat -> T) (from len i : nat) : T :=
    fold_left (fun s c => add s (a i c)) (seq from len) zero.

  (** portfolio.rs:4814-4840 init_cash_grouped_py *)
  Definition rs_init_cash_grouped (init_cash : nat -> T) (lens : list nat) (cash_sharing : bool) (empty : nat -> T)
    : nat -> T :=
    if cash_sharing then init_cash
    else over_groups (fun group from_col len out g =>
           if Nat.eqb g group then fold_left (fun cash_sum col => add cash_sum (init_cash col)) (seq from_col len) zero
           else out g) 0 0 lens empty.

  (** portfolio.rs:4844-4872 init_cash_py: every column of a group is written *)
  Definition rs_init_cash (init_cash : nat -> T) (lens : list nat) (cash_sharing : bool) : list T :=
    if cash_sharing then
      over_groups (fun group col len out =>
          fold_left (fun out k => upd out (col + k) (init_cash group)) (seq 1 (len - 1)) (upd out col (init_cash group)))
        0 0 lens (repeat nan (sum_lens lens))
    else map init_cash (seq 0 (sum_lens lens)).

  (** portfolio.rs:4890-4899 cash_py, one column; portfolio.rs:4964-4970
      cash_grouped_py, one group *)
  Definition rs_cash (cash_flow : nat -> T) (init_cash : T) (i : nat) : T :=
    fold_left (fun c j => rs_add c (cash_flow j)) (seq 0 (S i)) init_cash.

  (** portfolio.rs:4926-4935 cash_in_sim_order_py: the cash after the first [k]
      columns in calling order of bar [i] *)
  Definition rs_cash_in_sim_order (cash_flow : nat -> nat -> T) (call_seq : nat -> nat -> nat)
      (from len : nat) (init_cash : T) (i k : nat) : T :=
    let one_bar c j n := fold_left (fun c k => rs_add c (cash_flow j (from + call_seq j (from + k)))) (seq 0 n) c in
    one_bar (fold_left (fun c j => one_bar c j len) (seq 0 i) init_cash) i k.

  (** portfolio.rs:4988-4994 asset_value_py, portfolio.rs:5087-5093 value_py,
      portfolio.rs:5212 final_value_py, portfolio.rs:5225 total_return_py, one element *)
  Definition rs_asset_value (close assets : T) : T := mul close assets.
  Definition rs_value (cash asset_value : T) : T := add cash asset_value.
  Definition rs_final_value (total_profit init_cash : T) : T := add total_profit init_cash.
  Definition rs_total_return (total_profit init_cash : T) : T := div total_profit init_cash.

  (** portfolio.rs:5043-5064: one call of value_in_sim_order_py *)
  Definition rs_value_iso_step (cash asset_value : nat -> nat -> T) (call_seq : nat -> nat -> nat) (from_col len : nat)
      (s : T * nat * (nat -> nat -> T)) (j : nat) : T * nat * (nat -> nat -> T) :=
    let '(asset_value_now, since_last_nan, out) := s in
    let i := call_bar len j in
    let col := call_col call_seq from_col len j in
    let asset_value_now :=
      if Nat.leb len j then
        let last := asset_value (call_bar len (j - len)) (call_col call_seq from_col len (j - len)) in
        if negb (isnan last) then sub asset_value_now last else asset_value_now
      else asset_value_now in
    let '(since_last_nan, asset_value_now) :=
      if isnan (asset_value i col) then (0, asset_value_now)
      else (since_last_nan, add asset_value_now (asset_value i col)) in
    let out :=
      if Nat.ltb since_last_nan len then upd2 out i col nan
      else upd2 out i col (add (cash i col) asset_value_now) in
    (asset_value_now, S since_last_nan, out).

  (** portfolio.rs:5022-5072 value_in_sim_order_py: the lengths of the groups are
      not checked *)
  Definition rs_value_in_sim_order (nrows : nat) (cash asset_value : nat -> nat -> T) (lens : list nat)
      (call_seq : nat -> nat -> nat) (empty : nat -> nat -> T) : nat -> nat -> T :=
    over_groups (fun _ from_col len out =>
      snd (fold_left (rs_value_iso_step cash asset_value call_seq from_col len)
             (seq 0 (nrows * len)) (zero, len, out))) 0 0 lens empty.

  (** portfolio.rs:5231-5264 returns_in_sim_order_py *)
  Definition rs_returns_iso_step (value_iso : nat -> nat -> T) (call_seq : nat -> nat -> nat) (from_col len : nat)
      (s : T * (nat -> nat -> T)) (j : nat) : T * (nat -> nat -> T) :=
    let '(input_value, out) := s in
    let i := call_bar len j in
    let col := call_col call_seq from_col len j in
    let output_value := value_iso i col in
    (output_value, upd2 out i col (rs_get_return input_value output_value)).
  Definition rs_returns_in_sim_order (nrows : nat) (value_iso : nat -> nat -> T) (lens : list nat)
      (init_cash_grouped : nat -> T) (call_seq : nat -> nat -> nat) (empty : nat -> nat -> T) : nat -> nat -> T :=
    over_groups (fun group from_col len out =>
      snd (fold_left (rs_returns_iso_step value_iso call_seq from_col len)
             (seq 0 (nrows * len)) (init_cash_grouped group, out))) 0 0 lens empty.

  (** portfolio.rs:5139-5162: one record of total_profit_py *)
  Definition rs_total_profit_step (s : Z * T * T) (r : OrderRec T) : res (Z * T * T) :=
    let '(last_id, assets, cash) := s in
    check_id last_id r (
    match or_side r with
    | Some Buy =>
        let order_cash := add (mul (or_size r) (or_price r)) (or_fees r) in
        Ok (Z.of_nat (or_id r), rs_add assets (or_size r), rs_add cash (neg order_cash))
    | _ =>
        let order_cash := sub (mul (or_size r) (or_price r)) (or_fees r) in
        Ok (Z.of_nat (or_id r), rs_add assets (neg (or_size r)), rs_add cash order_cash)
    end).

  (** portfolio.rs:5102-5176 total_profit_py, one column *)
  Definition rs_total_profit (last_close : T) (recs : list (OrderRec T)) (col : nat) : res T :=
    match column_records col recs with
    | [] => Ok zero
    | crecs =>
        let! (_, assets, cash) := foldM rs_total_profit_step ((-1)%Z, zero, zero) crecs in
        Ok (add cash (mul assets last_close))
    end.

  (** portfolio.rs:5181-5201 total_profit_grouped_py; lengths are not checked *)
  Definition rs_total_profit_grouped (total_profit : nat -> T) (lens : list nat) (empty : nat -> T) : nat -> T :=
    over_groups (fun group from_col len out g =>
      if Nat.eqb g group then fold_left (fun s col => add s (total_profit col)) (seq from_col len) zero else out g)
      0 0 lens empty.

  (** portfolio.rs:5271-5294 asset_returns_py, one column at bar [i] *)
  Definition rs_asset_returns (cash_flow asset_value : nat -> T) (i : nat) : T :=
    let input_value := if Nat.eqb i 0 then zero else asset_value (i - 1) in
    rs_get_return input_value (add (asset_value i) (cash_flow i)).

  (** portfolio.rs:5554-5580 benchmark_value_py, one column at bar [i] *)
  Definition rs_benchmark_value (close : nat -> T) (init_cash : T) (i : nat) : T :=
    let factor := div init_cash (close 0) in
    mul (close i) factor.

  (** portfolio.rs:5795-5827 benchmark_value_grouped_py, one group at bar [i] *)
  Definition rs_benchmark_value_grouped (close : nat -> nat -> T) (from_col len : nat) (init_cash : T) (i : nat) : T :=
    let col_init_cash := div init_cash (ofZ (Z.of_nat len)) in
    mul col_init_cash (fold_left (fun s col => add s (div (close i col) (close 0 col))) (seq from_col len) zero).

  (** portfolio.rs:5833-5846 total_benchmark_return_py, one column *)
  Definition rs_total_benchmark_return (benchmark_value : nat -> T) (last : nat) : T :=
    rs_get_return (benchmark_value 0) (benchmark_value last).

  (** portfolio.rs:5863-5867 gross_exposure_py, one element *)
  Definition rs_gross_exposure (asset_value cash : T) : T :=
    let denom := rs_add asset_value cash in
    if eqb denom zero then zero else div asset_value denom.
End RustReplay.
