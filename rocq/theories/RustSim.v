(** * Model of the simulation from orders of the Rust engine:
    rust/src/portfolio.rs:2077-2290, 2818-3194

    Arrays are functions of row and column as in Simulate.v; slices that the
    code indexes with [col] are functions of the column. Rust panics instead
    of raising when an index is out of range; both are errors here. *)
From Coq Require Import ZArith Bool List String.
From Verif Require Import Base Num Order CallSeq Account Simulate RustOrder.
Import ListNotations.
Open Scope string_scope.
Open Scope list_scope.

Section RustSim.
  Context {T : Type} {N : Num T} {R : RustOps T}.

  (** portfolio.rs:2862-2871, 3035-3046 *)
  Definition rs_order_price (inp : Inputs T) (i col : nat) : T :=
    let p := in_price inp i col in
    if isinf p then
      if gtb p zero then in_close inp i col
      else if Nat.ltb 0 i then in_close inp (i - 1) col
      else nan
    else p.

  (** portfolio.rs:2873-2882, 3049-3058 *)
  Definition rs_val_price_now (inp : Inputs T) (i col : nat) (order_price : T) : T :=
    let p := in_val_price inp i col in
    if isinf p then
      if gtb p zero then order_price
      else if Nat.ltb 0 i then in_close inp (i - 1) col
      else nan
    else p.

  (** portfolio.rs:2892-2908, 3123-3139 *)
  Definition rs_make_order (inp : Inputs T) (i col : nat) (price : T) : Order T :=
    mkOrder (in_size inp i col) price (in_size_type inp i col) (in_direction inp i col)
      (in_fees inp i col) (in_fixed_fees inp i col) (in_slippage inp i col)
      (in_min_size inp i col) (in_max_size inp i col) (in_size_granularity inp i col)
      (in_reject_prob inp i col) (in_lock_cash inp i col) (in_allow_partial inp i col)
      (in_raise_reject inp i col) (in_log inp i col).

  (** ** Without cash sharing and automatic call sequences *)

  (** portfolio.rs:2855-2859: the variables of one column *)
  Record RsCol := mkRsCol {
    rk_cash : T; rk_free : T; rk_pos : T; rk_debt : T; rk_vp : T; rk_rc : Recs T }.

  (** portfolio.rs:2861-2947: one bar of one column *)
  Definition rs_col_bar (draws : nat -> T) (inp : Inputs T) (ffill do_update_value : bool) (col : nat)
      (st : RsCol) (i : nat) : res RsCol :=
    let order_price := rs_order_price inp i col in
    let val_price_now := rs_val_price_now inp i col order_price in
    let vp := if negb (isnan val_price_now) || negb ffill then val_price_now else rk_vp st in
    let value_now :=
      if neb (rk_pos st) zero then add (rk_cash st) (mul (rk_pos st) vp) else rk_cash st in
    let order := rs_make_order inp i col order_price in
    let state := mkProc (rk_cash st) (rk_pos st) (rk_debt st) (rk_free st) vp value_now in
    let! (r, new_state, rc') := rs_process_order draws i col col state do_update_value order (rk_rc st) in
    Ok (mkRsCol (ps_cash new_state) (ps_free_cash new_state) (ps_position new_state) (ps_debt new_state)
          (if negb (isnan (ps_val_price new_state)) || negb ffill then ps_val_price new_state else vp) rc').

  (** portfolio.rs:2818-2956 simulate_from_orders_non_shared_inner *)
  Definition rs_sim_cols (draws : nat -> T) (inp : Inputs T) (ffill do_update_value : bool)
      (nrows ncols : nat) (init_cash : list T) (rc : Recs T) : res (Recs T) :=
    foldM (fun rc col =>
      match nth_error init_cash col with
      | None => Err (IndexError "init_cash")
      | Some c =>
          let! st := foldM (rs_col_bar draws inp ffill do_update_value col)
                       (mkRsCol c c zero zero nan rc) (seq 0 nrows) in
          Ok (rk_rc st)
      end) rc (seq 0 ncols).

  (** ** With cash sharing or automatic call sequences. The local variables
      are those of [Sim]. *)

  (** portfolio.rs:3031-3062: prices of one column *)
  Definition rs_price_pass (inp : Inputs T) (ffill : bool) (i : nat) (st : Sim T) (col : nat) : Sim T :=
    let price := rs_order_price inp i col in
    let val_price := rs_val_price_now inp i col price in
    mkSim (sm_cash st) (sm_free st) (sm_value st) (sm_pos st) (sm_debt st)
      (if negb (isnan val_price) || negb ffill then fupd (sm_vp st) col val_price else sm_vp st)
      (fupd (sm_price st) col price) (sm_seq st) (sm_rc st).

  (** portfolio.rs:1611-1625 get_group_value, inlined at 3067-3073 *)
  Definition rs_get_group_value (from_col to_col : nat) (cash_now : T)
      (last_position last_val_price : nat -> T) : T :=
    fold_left (fun value col =>
      if neb (last_position col) zero then add value (mul (last_position col) (last_val_price col))
      else value) (seq from_col (to_col - from_col)) cash_now.

  (** portfolio.rs:733-746 insert_argsort: values and indices are one list of
      pairs. The part before position [j] is kept with its last element first,
      the order in which the inner loop visits it. *)
  Fixpoint rs_shift (x : T * nat) (before : list (T * nat)) : list (T * nat) :=
    match before with
    | [] => [x]
    | y :: before' =>
        if gtb (fst y) (fst x) || isnan (fst y) then y :: rs_shift x before' else x :: y :: before'
    end.
  Definition rs_insert_argsort (l : list (T * nat)) : list (T * nat) :=
    rev (fold_left (fun before x => rs_shift x before) l []).

  (** portfolio.rs:3065-3101 *)
  Definition rs_sort_pass (inp : Inputs T) (auto : bool) (sharing : bool) (i from_col group_len : nat)
      (st : Sim T) : Sim T :=
    if sharing then
      let value_now := rs_get_group_value from_col (from_col + group_len) (sm_cash st) (sm_pos st) (sm_vp st) in
      let call_seq :=
        if auto then
          let temp_order_value := map (fun k =>
            let col := from_col + k in
            (rs_approx_order_value (in_size inp i col) (in_size_type inp i col) (in_direction inp i col)
               (sm_cash st) (sm_pos st col) (sm_free st) (sm_vp st col) value_now,
             sm_seq st i col)) (seq 0 group_len) in
          set_slice (sm_seq st) i from_col (map snd (rs_insert_argsort temp_order_value))
        else sm_seq st in
      mkSim (sm_cash st) (sm_free st) value_now (sm_pos st) (sm_debt st) (sm_vp st) (sm_price st)
        call_seq (sm_rc st)
    else st.

  (** portfolio.rs:3103-3175: one order *)
  Definition rs_order_pass (draws : nat -> T) (inp : Inputs T) (ffill do_update_value sharing : bool)
      (i group from_col group_len : nat) (st : Sim T) (k : nat) : res (Sim T) :=
    let! col :=
      if sharing then
        let col_i := sm_seq st i (from_col + k) in
        if Nat.leb group_len col_i then Err (ValueError "Call index exceeds bounds of the group")
        else Ok (from_col + col_i)
      else Ok (from_col + k) in
    let position_now := sm_pos st col in
    let debt_now := sm_debt st col in
    let val_price_now := sm_vp st col in
    let value_now :=
      if sharing then sm_value st
      else if neb position_now zero then add (sm_cash st) (mul position_now val_price_now)
      else sm_cash st in
    let order := rs_make_order inp i col (sm_price st col) in
    let state := mkProc (sm_cash st) position_now debt_now (sm_free st) val_price_now value_now in
    let! (r, new_state, rc') := rs_process_order draws i col group state do_update_value order (sm_rc st) in
    Ok (mkSim (ps_cash new_state) (ps_free_cash new_state)
          (if sharing then ps_value new_state else value_now)
          (fupd (sm_pos st) col (ps_position new_state)) (fupd (sm_debt st) col (ps_debt new_state))
          (if negb (isnan (ps_val_price new_state)) || negb ffill
           then fupd (sm_vp st) col (ps_val_price new_state) else sm_vp st)
          (sm_price st) (sm_seq st) rc').

  (** portfolio.rs:3029-3185: one bar of one group. [value_now] starts at zero. *)
  Definition rs_bar (draws : nat -> T) (inp : Inputs T) (auto ffill do_update_value sharing : bool)
      (group from_col group_len : nat) (st : Sim T) (i : nat) : res (Sim T) :=
    let st1 := fold_left (rs_price_pass inp ffill i) (seq from_col group_len) st in
    let st2 := mkSim (sm_cash st1) (sm_free st1) zero (sm_pos st1) (sm_debt st1) (sm_vp st1)
                 (sm_price st1) (sm_seq st1) (sm_rc st1) in
    foldM (rs_order_pass draws inp ffill do_update_value sharing i group from_col group_len)
      (rs_sort_pass inp auto sharing i from_col group_len st2) (seq 0 group_len).

  (** portfolio.rs:3022-3188: the loop over groups *)
  Fixpoint rs_sim_groups (draws : nat -> T) (inp : Inputs T) (auto ffill do_update_value sharing : bool)
      (nrows group from_col : nat) (group_lens : list nat) (init_cash : list T) (st : Sim T) : res (Sim T) :=
    match group_lens with
    | [] => Ok st
    | group_len :: group_lens' =>
        match nth_error init_cash group with
        | None => Err (IndexError "init_cash")
        | Some c =>
            let! st' := foldM (rs_bar draws inp auto ffill do_update_value sharing group from_col group_len)
              (mkSim c c (sm_value st) (sm_pos st) (sm_debt st) (sm_vp st) (sm_price st) (sm_seq st) (sm_rc st))
              (seq 0 nrows) in
            rs_sim_groups draws inp auto ffill do_update_value sharing nrows (S group)
              (from_col + group_len) group_lens' init_cash st'
        end
    end.

  (** portfolio.rs:2853, 2992: the records start with room for the smaller of
      max_orders and the number of cells (Vec::with_capacity may reserve more:
      taken as exact) *)
  Definition rs_recs (nrows ncols : nat) (max_orders : option nat) (max_logs rng : nat) : Recs T :=
    mkRecs [] []
      (Nat.min (match max_orders with Some m => m | None => nrows * ncols end) (nrows * ncols))
      (if Nat.eqb max_logs 0 then 1 else max_logs) rng.

  (** portfolio.rs:2077-2290 simulate_from_orders_py *)
  Definition rs_simulate_from_orders (draws : nat -> T) (rng nrows ncols : nat)
      (group_lens : list nat) (init_cash : list T) (inp : Inputs T) (auto ffill do_update_value : bool)
      (max_orders : option nat) (max_logs : nat)
    : res (list (OrderRec T) * list (LogRec T) * (nat -> nat -> nat)) :=
    let cash_sharing := existsb (fun g => Nat.ltb 1 g) group_lens in
    let total_cols := fold_right Nat.add 0 group_lens in
    if negb (Nat.eqb total_cols ncols) then
      Err (ValueError "group_lens has incorrect total number of columns")
    else
    if negb (Nat.eqb (List.length init_cash) (if cash_sharing then List.length group_lens else ncols)) then
      Err (ValueError "init_cash must match the number of groups or columns")
    else
    let rc := rs_recs nrows ncols max_orders max_logs rng in
    if negb cash_sharing && negb auto then
      let! rc' := rs_sim_cols draws inp ffill do_update_value nrows ncols init_cash rc in
      Ok (rc_orders rc', rc_logs rc', in_call_seq inp)
    else
      let! st := rs_sim_groups draws inp auto ffill do_update_value cash_sharing nrows 0 0 group_lens init_cash
        (mkSim nan nan nan (fun _ => zero) (fun _ => zero) (fun _ => nan) (fun _ => nan) (in_call_seq inp) rc) in
      Ok (rc_orders (sm_rc st), rc_logs (sm_rc st), if auto then sm_seq st else in_call_seq inp).
End RustSim.
