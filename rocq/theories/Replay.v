(** * Model of the account rebuilt from order records:
    vectorbt/portfolio/nb.py:6489-6905.

    Two-dimensional arrays are functions of the bar, one column at a time; the
    code's loop over columns does not carry state from one column to the next.
    A column's records are those the column map lists for it (records/nb.py,
    modelled in RecordsNb.v): the records of that column in record order. *)
From Coq Require Import ZArith Bool List String.
From Verif Require Import Base Num MathNb Order Account.
Import ListNotations.
Open Scope string_scope.
Open Scope list_scope.

Section Replay.
  Context {T : Type} {N : Num T}.

  Definition column_records (col : nat) (recs : list (OrderRec T)) : list (OrderRec T) :=
    filter (fun r => Nat.eqb (or_col r) col) recs.

  Definition is_sell (r : OrderRec T) : bool :=
    match or_side r with Some Sell => true | _ => false end.

  (** nb.py:6489-6497 get_long_size_nb *)
  Definition get_long_size_nb (position_before position_now : T) : T :=
    if leb position_before zero && leb position_now zero then zero
    else if geb position_before zero && ltb position_now zero then neg position_before
    else if ltb position_before zero && geb position_now zero then position_now
    else add_nb position_now (neg position_before).

  (** nb.py:6501-6509 get_short_size_nb *)
  Definition get_short_size_nb (position_before position_now : T) : T :=
    if geb position_before zero && geb position_now zero then zero
    else if geb position_before zero && ltb position_now zero then neg position_now
    else if ltb position_before zero && geb position_now zero then position_before
    else add_nb position_before (neg position_now).

  (** nb.py:6543-6545 [size *= -1] for sales *)
  Definition signed_size (r : OrderRec T) : T :=
    if is_sell r then mul (or_size r) (neg one) else or_size r.

  (** nb.py:6534-6536 and the like *)
  Definition check_id (last_id : Z) (r : OrderRec T) {A} (k : res A) : res A :=
    raise_if (Z.ltb (Z.of_nat (or_id r)) last_id)
      (ValueError "id must come in ascending order per column") k.

  (** nb.py:6530-6556: one record of asset_flow_nb. State: last id, position,
      output column. A bar outside of the array is not detected by the code
      and not modelled. *)
  Definition asset_flow_step (direction : Direction) (s : Z * T * (nat -> T)) (r : OrderRec T)
    : res (Z * T * (nat -> T)) :=
    let '(last_id, position_now, out) := s in
    check_id last_id r (
    let size := signed_size r in
    let new_position_now := add_nb position_now size in
    let asset_flow :=
      match direction with
      | LongOnly => get_long_size_nb position_now new_position_now
      | ShortOnly => get_short_size_nb position_now new_position_now
      | BothDir => size
      end in
    Ok (Z.of_nat (or_id r), new_position_now,
        fupd out (or_idx r) (add_nb (out (or_idx r)) asset_flow))).

  (** nb.py:6513-6557 asset_flow_nb, one column *)
  Definition asset_flow_nb (direction : Direction) (recs : list (OrderRec T)) (col : nat)
    : res (nat -> T) :=
    let! s := foldM (asset_flow_step direction) ((-1)%Z, zero, fun _ => zero) (column_records col recs) in
    Ok (snd s).

  (** nb.py:6560-6571 assets_nb, one column: the value at bar [i] *)
  Definition assets_nb (asset_flow : nat -> T) (i : nat) : T :=
    fold_left (fun p j => add_nb p (asset_flow j)) (seq 0 (S i)) zero.

  (** nb.py:6605-6641 get_free_cash_diff_nb *)
  Definition get_free_cash_diff_nb (position_before position_now debt_now price fees : T)
    : res (T * T) :=
    let size := add_nb position_now (neg position_before) in
    let final_cash := sub (mul (neg size) price) fees in
    if is_close_nb size zero then Ok (debt_now, zero)
    else if gtb size zero then
      if ltb position_before zero then
        let short_size := if ltb position_now zero then abs size else abs position_before in
        let! avg_entry_price := sdiv debt_now (abs position_before) in
        let debt_diff := mul short_size avg_entry_price in
        Ok (add_nb debt_now (neg debt_diff), add_nb (mul two debt_diff) final_cash)
      else Ok (debt_now, final_cash)
    else
      if ltb position_now zero then
        let short_size := if ltb position_before zero then abs size else abs position_now in
        let short_value := mul short_size price in
        Ok (add debt_now short_value, add_nb final_cash (mul (neg two) short_value))
      else Ok (debt_now, final_cash).

  (** nb.py:6660-6685: one record of cash_flow_nb *)
  Definition cash_flow_step (free : bool) (s : Z * T * T * (nat -> T)) (r : OrderRec T)
    : res (Z * T * T * (nat -> T)) :=
    let '(last_id, position_now, debt_now, out) := s in
    check_id last_id r (
    let size := signed_size r in
    let new_position_now := add_nb position_now size in
    let! (debt', cash_flow) :=
      if free then get_free_cash_diff_nb position_now new_position_now debt_now (or_price r) (or_fees r)
      else Ok (debt_now, sub (mul (neg size) (or_price r)) (or_fees r)) in
    Ok (Z.of_nat (or_id r), new_position_now, debt',
        fupd out (or_idx r) (add_nb (out (or_idx r)) cash_flow))).

  (** nb.py:6644-6686 cash_flow_nb, one column *)
  Definition cash_flow_nb (free : bool) (recs : list (OrderRec T)) (col : nat) : res (nat -> T) :=
    let! s := foldM (cash_flow_step free) ((-1)%Z, zero, zero, fun _ => zero) (column_records col recs) in
    Ok (snd s).

  (** nb.py:6690-6700 sum_grouped_nb, one group of columns at one bar. np.sum
      is modelled as the sum from left to right. *)
  Definition sum_cols (a : nat -> nat -> T) (from len i : nat) : T :=
    fold_left (fun s c => add s (a i c)) (seq from len) zero.

  (** nb.py:6734-6741 cash_nb, one column (also cash_grouped_nb nb.py:6769-6789,
      one group: the same recurrence on the flow of the group) *)
  Definition cash_nb (cash_flow : nat -> T) (init_cash : T) (i : nat) : T :=
    fold_left (fun c j => add_nb c (cash_flow j)) (seq 0 (S i)) init_cash.

  (** nb.py:6758-6765 cash_in_sim_order_nb: the cash after the first [k] columns
      in calling order of bar [i]; earlier bars are replayed completely. *)
  Definition cash_in_sim_order_nb (cash_flow : nat -> nat -> T) (call_seq : nat -> nat -> nat)
      (from len : nat) (init_cash : T) (i k : nat) : T :=
    let one_bar c j n := fold_left (fun c k => add_nb c (cash_flow j (from + call_seq j (from + k)))) (seq 0 n) c in
    one_bar (fold_left (fun c j => one_bar c j len) (seq 0 i) init_cash) i k.

  (** nb.py:6796-6798 asset_value_nb and nb.py:6849-6851 value_nb, one element *)
  Definition asset_value_nb (close assets : T) : T := mul close assets.
  Definition value_nb (cash asset_value : T) : T := add cash asset_value.

  (** nb.py:6876-6899: one record of total_profit_nb. State: last id, assets, cash. *)
  Definition total_profit_step (s : Z * T * T) (r : OrderRec T) : res (Z * T * T) :=
    let '(last_id, assets, cash) := s in
    check_id last_id r (
    match or_side r with
    | Some Buy =>
        Ok (Z.of_nat (or_id r), add_nb assets (or_size r),
            add_nb cash (neg (add (mul (or_size r) (or_price r)) (or_fees r))))
    | _ =>
        Ok (Z.of_nat (or_id r), add_nb assets (neg (or_size r)),
            add_nb cash (sub (mul (or_size r) (or_price r)) (or_fees r)))
    end).

  (** nb.py:6855-6903 total_profit_nb, one column; [last_close] is close[-1] *)
  Definition total_profit_nb (last_close : T) (recs : list (OrderRec T)) (col : nat) : res T :=
    match column_records col recs with
    | [] => Ok zero
    | crecs =>
        let! (_, assets, cash) := foldM total_profit_step ((-1)%Z, zero, zero) crecs in
        Ok (add cash (mul assets last_close))
    end.

  (** nb.py:6922-6924 final_value_nb *)
  Definition final_value_nb (total_profit init_cash : T) : T := add total_profit init_cash.
End Replay.
