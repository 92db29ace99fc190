(** * Model of simulate_from_orders_nb: vectorbt/portfolio/nb.py:1352-1576 *)
From Coq Require Import ZArith Bool List String.
From Verif Require Import Base Num Order CallSeq Account.
Import ListNotations.
Open Scope string_scope.
Open Scope list_scope.

Section Simulate.
  Context {T : Type} {N : Num T}.

  (** The array arguments, as functions of bar and column: reading an element
      with flex_select_auto_nb is modelled in FlexSelect.v. *)
  Record Inputs := mkInputs {
    in_size : nat -> nat -> T; in_price : nat -> nat -> T;
    in_size_type : nat -> nat -> SizeType; in_direction : nat -> nat -> Direction;
    in_fees : nat -> nat -> T; in_fixed_fees : nat -> nat -> T; in_slippage : nat -> nat -> T;
    in_min_size : nat -> nat -> T; in_max_size : nat -> nat -> T;
    in_size_granularity : nat -> nat -> T; in_reject_prob : nat -> nat -> T;
    in_lock_cash : nat -> nat -> bool; in_allow_partial : nat -> nat -> bool;
    in_raise_reject : nat -> nat -> bool; in_log : nat -> nat -> bool;
    in_val_price : nat -> nat -> T; in_close : nat -> nat -> T;
    in_call_seq : nat -> nat -> nat }.

  (** The scalar options *)
  Record Flags := mkFlags { auto_call_seq : bool; ffill_val_price : bool; update_value : bool }.

  (** Local variables and arrays of the function. Arrays over columns are
      functions; call_seq is an in/out argument. *)
  Record Sim := mkSim {
    sm_cash : T; sm_free : T; sm_value : T;
    sm_pos : nat -> T; sm_debt : nat -> T; sm_vp : nat -> T; sm_price : nat -> T;
    sm_seq : nat -> nat -> nat; sm_rc : Recs T }.

  (** nb.py:1441-1449 *)
  Definition resolve_price (inp : Inputs) (i col : nat) : T :=
    let p := in_price inp i col in
    if isinf p then
      if gtb p zero then in_close inp i col
      else match i with O => nan | S i' => in_close inp i' col end
    else p.

  (** nb.py:1453-1460 *)
  Definition resolve_val_price (inp : Inputs) (i col : nat) (price : T) : T :=
    let p := in_val_price inp i col in
    if isinf p then
      if gtb p zero then price
      else match i with O => nan | S i' => in_close inp i' col end
    else p.

  (** nb.py:1461-1462, 1571-1572 *)
  Definition store_val_price (fl : Flags) (vp : nat -> T) (col : nat) (v : T) : nat -> T :=
    if negb (isnan v) || negb (ffill_val_price fl) then fupd vp col v else vp.

  (** nb.py:1437-1462 one pass of the price loop *)
  Definition price_step (inp : Inputs) (fl : Flags) (i : nat) (st : Sim) (col : nat) : Sim :=
    let p := resolve_price inp i col in
    mkSim (sm_cash st) (sm_free st) (sm_value st) (sm_pos st) (sm_debt st)
      (store_val_price fl (sm_vp st) col (resolve_val_price inp i col p))
      (fupd (sm_price st) col p) (sm_seq st) (sm_rc st).

  (** Overwrite row [i] of the call sequence from column [from] *)
  Definition set_slice (seq_ : nat -> nat -> nat) (i from : nat) (vals : list nat)
    : nat -> nat -> nat :=
    fun i' c => if Nat.eqb i' i && Nat.leb from c && Nat.ltb c (from + List.length vals)
                then nth (c - from) vals 0 else seq_ i' c.

  (** nb.py:1464-1493 *)
  Definition sort_step (inp : Inputs) (fl : Flags) (sharing : bool) (i from len : nat) (st : Sim) : Sim :=
    if sharing then
      let v := get_group_value_nb from len (sm_cash st) (sm_pos st) (sm_vp st) in
      let seq' :=
        if auto_call_seq fl then
          let pairs := map (fun k =>
            let col := from + k in
            (approx_order_value_nb (in_size inp i col) (in_size_type inp i col)
               (in_direction inp i col) (sm_cash st) (sm_pos st col) (sm_free st)
               (sm_vp st col) v, sm_seq st i col)) (seq 0 len) in
          set_slice (sm_seq st) i from (map snd (insert_argsort_nb pairs))
        else sm_seq st in
      mkSim (sm_cash st) (sm_free st) v (sm_pos st) (sm_debt st) (sm_vp st) (sm_price st)
        seq' (sm_rc st)
    else st.

  (** nb.py:1512-1528 *)
  Definition make_order (inp : Inputs) (i col : nat) (price : T) : Order T :=
    mkOrder (in_size inp i col) price (in_size_type inp i col) (in_direction inp i col)
      (in_fees inp i col) (in_fixed_fees inp i col) (in_slippage inp i col)
      (in_min_size inp i col) (in_max_size inp i col) (in_size_granularity inp i col)
      (in_reject_prob inp i col) (in_lock_cash inp i col) (in_allow_partial inp i col)
      (in_raise_reject inp i col) (in_log inp i col).

  (** nb.py:1496-1501. Call sequence entries are natural numbers (the code
      does not reject negative ones). *)
  Definition pick_col (sharing : bool) (seq_ : nat -> nat -> nat) (i from len k : nat) : res nat :=
    if sharing then
      let ci := seq_ i (from + k) in
      raise_if (Nat.leb len ci) (ValueError "Call index exceeds bounds of the group")
        (Ok (from + ci))
    else Ok (from + k).

  (** nb.py:1504-1510 and 1530-1540: the state handed to process_order_nb *)
  Definition order_state (sharing : bool) (st : Sim) (col : nat) : ProcState T :=
    let value_now :=
      if sharing then sm_value st
      else if neb (sm_pos st col) zero
           then add (sm_cash st) (mul (sm_pos st col) (sm_vp st col)) else sm_cash st in
    mkProc (sm_cash st) (sm_pos st col) (sm_debt st col) (sm_free st) (sm_vp st col) value_now.

  (** nb.py:1554-1572 *)
  Definition store_state (fl : Flags) (st : Sim) (col : nat) (s' : ProcState T) (rc' : Recs T) : Sim :=
    mkSim (ps_cash s') (ps_free_cash s') (ps_value s')
      (fupd (sm_pos st) col (ps_position s')) (fupd (sm_debt st) col (ps_debt s'))
      (store_val_price fl (sm_vp st) col (ps_val_price s')) (sm_price st) (sm_seq st) rc'.

  (** nb.py:1495-1572 one pass of the order loop *)
  Definition order_step (draws : nat -> T) (inp : Inputs) (fl : Flags) (sharing : bool)
      (i group from len : nat) (st : Sim) (k : nat) : res Sim :=
    let! col := pick_col sharing (sm_seq st) i from len k in
    let! (r, s', rc') := process_order_nb draws i col group (order_state sharing st col)
                           (update_value fl) (make_order inp i col (sm_price st col)) (sm_rc st) in
    Ok (store_state fl st col s' rc').

  (** nb.py:1436-1572 one bar of one group *)
  Definition bar_step (draws : nat -> T) (inp : Inputs) (fl : Flags) (sharing : bool)
      (group from len : nat) (st : Sim) (i : nat) : res Sim :=
    foldM (order_step draws inp fl sharing i group from len)
      (sort_step inp fl sharing i from len
        (fold_left (price_step inp fl i) (seq from len) st))
      (seq 0 len).

  (** nb.py:1429-1572 one group. [value_now] is not assigned before the first
      use in Python; it is always overwritten before being read. *)
  Definition sim_group (draws : nat -> T) (inp : Inputs) (fl : Flags) (sharing : bool)
      (nrows group from len : nat) (cash0 : T) (st : Sim) : res Sim :=
    foldM (bar_step draws inp fl sharing group from len)
      (mkSim cash0 cash0 (sm_value st) (sm_pos st) (sm_debt st) (sm_vp st) (sm_price st)
         (sm_seq st) (sm_rc st))
      (seq 0 nrows).

  (** nb.py:1428-1574 the loop over groups; [group] is the index of the first
      group in [lens]. *)
  Fixpoint sim_groups (draws : nat -> T) (inp : Inputs) (fl : Flags) (sharing : bool)
      (nrows group from : nat) (lens : list nat) (init_cash : list T) (st : Sim) : res Sim :=
    match lens with
    | [] => Ok st
    | len :: lens' =>
        match nth_error init_cash group with
        | None => Err (IndexError "init_cash")
        | Some c =>
            let! st' := sim_group draws inp fl sharing nrows group from len c st in
            sim_groups draws inp fl sharing nrows (S group) (from + len) lens' init_cash st'
        end
    end.

  Definition sum_lens (lens : list nat) : nat := fold_right Nat.add 0 lens.

  (** nb.py:842-844 is_grouped_nb *)
  Definition is_grouped (lens : list nat) : bool := existsb (fun n => Nat.ltb 1 n) lens.

  (** nb.py:1419-1427 initial arrays; nb.py:1144-1155, 1166-1167 buffers *)
  Definition sim_init (inp : Inputs) (nrows ncols : nat) (max_orders : option nat)
      (max_logs : nat) (rng : nat) : Sim :=
    mkSim nan nan nan (fun _ => zero) (fun _ => zero) (fun _ => nan) (fun _ => nan)
      (in_call_seq inp)
      (mkRecs [] [] (match max_orders with Some m => m | None => nrows * ncols end)
         (if Nat.eqb max_logs 0 then 1 else max_logs) rng).

  (** nb.py:1352-1576 simulate_from_orders_nb; returns the order and log
      records and the call sequence as modified in place. *)
  Definition simulate_from_orders_nb (draws : nat -> T) (rng nrows ncols : nat)
      (lens : list nat) (init_cash : list T) (inp : Inputs) (fl : Flags)
      (max_orders : option nat) (max_logs : nat)
    : res (list (OrderRec T) * list (LogRec T) * (nat -> nat -> nat)) :=
    raise_if (negb (Nat.eqb (sum_lens lens) ncols))
      (ValueError "group_lens has incorrect total number of columns") (
    let sharing := is_grouped lens in
    raise_if (negb (Nat.eqb (List.length init_cash) (if sharing then List.length lens else ncols)))
      (ValueError "init_cash must match the number of groups or columns") (
    let! st := sim_groups draws inp fl sharing nrows 0 0 lens init_cash
                 (sim_init inp nrows ncols max_orders max_logs rng) in
    Ok (rc_orders (sm_rc st), rc_logs (sm_rc st), sm_seq st))).
End Simulate.

Arguments Inputs T : clear implicits.
Arguments Sim T : clear implicits.
