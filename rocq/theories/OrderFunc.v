(** * Model of simulation with callbacks:
    vectorbt/portfolio/nb.py:882-1142 (helpers), 1210-1350 (position records),
    3007-3870 simulate_nb, 3873-4488 simulate_row_wise_nb, 4499-5185
    flex_simulate_nb, 5186-5700 flex_simulate_row_wise_nb *)
From Coq Require Import ZArith Bool List String.
From Verif Require Import Base Num Order CallSeq Account Simulate ReturnsNb Replay Trades.
Import ListNotations.
Open Scope string_scope.
Open Scope list_scope.

Section OrderFunc.
  Context {T : Type} {N : Num T}.

  (** ** Orders *)

  (** nb.py:778-811 close_position_nb; the options it forwards are those of
      [o] (nb.py:736-775 order_nb is the constructor of [Order]). *)
  Definition close_position_nb (o : Order T) : Order T :=
    mkOrder zero (o_price o) TargetAmount BothDir (o_fees o) (o_fixed_fees o) (o_slippage o) (o_min_size o)
      (o_max_size o) (o_size_granularity o) (o_reject_prob o) (o_lock_cash o) (o_allow_partial o) (o_raise_reject o)
      (o_log o).

  (** nb.py:1094-1118 replace_inf_price_nb *)
  Definition replace_inf_price_nb (prev_close close : T) (o : Order T) : Order T :=
    let order_price := if gtb (o_price o) zero then close else prev_close in
    mkOrder (o_size o) order_price (o_size_type o) (o_direction o) (o_fees o) (o_fixed_fees o) (o_slippage o)
      (o_min_size o) (o_max_size o) (o_size_granularity o) (o_reject_prob o) (o_lock_cash o) (o_allow_partial o)
      (o_raise_reject o) (o_log o).

  (** nb.py:1133-1139, 3609-3615, 4233-4239, 4923-4929, 5530-5536 *)
  Definition resolve_order_price (close : nat -> nat -> T) (i col : nat) (o : Order T) : Order T :=
    if isinf (o_price o) then
      replace_inf_price_nb (match i with O => nan | S i' => close i' col end) (close i col) o
    else o.

  (** ** Position records *)

  (** portfolio/enums.py trade_dt, as used for the latest position of a
      column: identifier, exit bar and parent are -1 while there is none. *)
  Record PosRec := mkPosRec {
    pr_id : Z; pr_col : nat; pr_size : T;
    pr_entry_idx : nat; pr_entry_price : T; pr_entry_fees : T;
    pr_exit_idx : Z; pr_exit_price : T; pr_exit_fees : T;
    pr_pnl : T; pr_return : T; pr_dir : TradeDir; pr_status : TradeStatus; pr_parent : Z }.

  Definition with_stats (r : PosRec) (pnl ret : T) : PosRec :=
    mkPosRec (pr_id r) (pr_col r) (pr_size r) (pr_entry_idx r) (pr_entry_price r) (pr_entry_fees r)
      (pr_exit_idx r) (pr_exit_price r) (pr_exit_fees r) pnl ret (pr_dir r) (pr_status r) (pr_parent r).

  (** nb.py:1233-1253 update_open_pos_stats_nb *)
  Definition update_open_pos_stats_nb (r : PosRec) (position_now price : T) : res PosRec :=
    if Z.leb 0 (pr_id r) && match pr_status r with TOpen => true | TClosed => false end then
      let! exit_price :=
        if isnan (pr_exit_price r) then Ok price
        else
          let exit_size_sum := sub (pr_size r) (abs position_now) in
          let exit_gross_sum := add (mul exit_size_sum (pr_exit_price r)) (mul (abs position_now) price) in
          sdiv exit_gross_sum (pr_size r) in
      let! (pnl, ret) := get_trade_stats_nb (pr_size r) (pr_entry_price r) (pr_entry_fees r) exit_price
                           (pr_exit_fees r) (pr_dir r) in
      Ok (with_stats r pnl ret)
    else Ok r.

  (** nb.py:1277-1280, 1327-1330 *)
  Definition side_dir (r : OrderResult T) : TradeDir :=
    match r_side r with Some Buy => TLong | _ => TShort end.

  (** nb.py:1267-1282, 1314-1332: a record of a new position; [col] is not
      assigned when a position is reversed. *)
  Definition new_pos_record (old : PosRec) (col i : nat) (size fees : T) (r : OrderResult T) : PosRec :=
    mkPosRec (pr_id old + 1) col size i (r_price r) fees (-1) nan zero (pr_pnl old) (pr_return old)
      (side_dir r) TOpen (pr_id old + 1).

  (** nb.py:1256-1348 update_pos_record_nb *)
  Definition update_pos_record_nb (rec : PosRec) (i col : nat) (position_before position_now : T)
      (r : OrderResult T) : res PosRec :=
    if is_filled r then
      let! rec' :=
        if eqb position_before zero && neb position_now zero then
          Ok (new_pos_record rec col i (r_size r) (r_fees r) r)
        else if neb position_before zero && eqb position_now zero then
          let! exit_price :=
            if isnan (pr_exit_price rec) then Ok (r_price r)
            else
              let exit_size_sum := sub (pr_size rec) (abs position_before) in
              let exit_gross_sum := add (mul exit_size_sum (pr_exit_price rec)) (mul (abs position_before) (r_price r)) in
              sdiv exit_gross_sum (pr_size rec) in
          let exit_fees := add (pr_exit_fees rec) (r_fees r) in
          let! (pnl, ret) := get_trade_stats_nb (pr_size rec) (pr_entry_price rec) (pr_entry_fees rec) exit_price
                               exit_fees (pr_dir rec) in
          Ok (mkPosRec (pr_id rec) (pr_col rec) (pr_size rec) (pr_entry_idx rec) (pr_entry_price rec)
                (pr_entry_fees rec) (Z.of_nat i) exit_price exit_fees pnl ret (pr_dir rec) TClosed (pr_parent rec))
        else if neb (sign position_before) (sign position_now) then
          let! new_pos_fraction := sdiv (abs position_now) (abs (sub position_now position_before)) in
          Ok (new_pos_record rec (pr_col rec) i (abs position_now) (mul new_pos_fraction (r_fees r)) r)
        else if leb (abs position_before) (abs position_now) then
          let entry_gross_sum := add (mul (pr_size rec) (pr_entry_price rec)) (mul (r_size r) (r_price r)) in
          let! entry_price := sdiv entry_gross_sum (add (pr_size rec) (r_size r)) in
          Ok (mkPosRec (pr_id rec) (pr_col rec) (add (pr_size rec) (r_size r)) (pr_entry_idx rec) entry_price
                (add (pr_entry_fees rec) (r_fees r)) (pr_exit_idx rec) (pr_exit_price rec) (pr_exit_fees rec)
                (pr_pnl rec) (pr_return rec) (pr_dir rec) (pr_status rec) (pr_parent rec))
        else
          let! exit_price :=
            if isnan (pr_exit_price rec) then Ok (r_price r)
            else
              let exit_size_sum := sub (pr_size rec) (abs position_before) in
              let exit_gross_sum := add (mul exit_size_sum (pr_exit_price rec)) (mul (r_size r) (r_price r)) in
              sdiv exit_gross_sum (add exit_size_sum (r_size r)) in
          Ok (mkPosRec (pr_id rec) (pr_col rec) (pr_size rec) (pr_entry_idx rec) (pr_entry_price rec)
                (pr_entry_fees rec) (pr_exit_idx rec) exit_price (add (pr_exit_fees rec) (r_fees r))
                (pr_pnl rec) (pr_return rec) (pr_dir rec) (pr_status rec) (pr_parent rec)) in
      update_open_pos_stats_nb rec' position_now (r_price r)
    else Ok rec.

  (** ** Simulation state *)

  (** The arrays of the simulation functions (nb.py:3381-3396). Arrays over
      columns, and over groups with cash sharing, are functions. The last
      order and log index is [None] for -1. *)
  Record FState := mkFState {
    fs_cash : nat -> T; fs_free : nat -> T;
    fs_value : nat -> T; fs_second : nat -> T; fs_temp : nat -> T; fs_return : nat -> T;
    fs_pos : nat -> T; fs_debt : nat -> T; fs_vp : nat -> T;
    fs_rec : nat -> PosRec; fs_oidx : nat -> option nat; fs_lidx : nat -> option nat;
    fs_seq : nat -> nat -> nat; fs_rc : Recs T }.

  (** What does not change during a simulation: with or without cash sharing,
      close, active segments by row and group, and the scalar options. *)
  Record FOpts := mkFOpts {
    fo_sharing : bool; fo_close : nat -> nat -> T; fo_mask : nat -> nat -> bool;
    fo_call_pre : bool; fo_call_post : bool;
    fo_ffill : bool; fo_update : bool; fo_fill_pos : bool }.

  (** A segment: one row of one group (GroupContext and SegmentContext,
      portfolio/enums.py:1035-1250) *)
  Record Seg := mkSeg { sg_group : nat; sg_from : nat; sg_len : nat }.

  (** Arrays of cash, free cash and value are indexed by group with cash
      sharing and by column without. *)
  Definition slot (op : FOpts) (g : Seg) (col : nat) : nat := if fo_sharing op then sg_group g else col.

  (** portfolio/enums.py:1340-1445 PostOrderContext: state before the order
      and result of the order *)
  Definition order_state_now (op : FOpts) (st : FState) (g : Seg) (col : nat) : ProcState T :=
    let s := slot op g col in
    mkProc (fs_cash st s) (fs_pos st col) (fs_debt st col) (fs_free st s) (fs_vp st col) (fs_value st s).

  Definition with_value (st : FState) (value ret : nat -> T) : FState :=
    mkFState (fs_cash st) (fs_free st) value (fs_second st) (fs_temp st) ret (fs_pos st) (fs_debt st) (fs_vp st)
      (fs_rec st) (fs_oidx st) (fs_lidx st) (fs_seq st) (fs_rc st).
  Definition with_recs (st : FState) (recs : nat -> PosRec) : FState :=
    mkFState (fs_cash st) (fs_free st) (fs_value st) (fs_second st) (fs_temp st) (fs_return st) (fs_pos st)
      (fs_debt st) (fs_vp st) recs (fs_oidx st) (fs_lidx st) (fs_seq st) (fs_rc st).
  Definition with_vp_seq (st : FState) (vp : nat -> T) (seq_ : nat -> nat -> nat) : FState :=
    mkFState (fs_cash st) (fs_free st) (fs_value st) (fs_second st) (fs_temp st) (fs_return st) (fs_pos st)
      (fs_debt st) vp (fs_rec st) (fs_oidx st) (fs_lidx st) seq_ (fs_rc st).

  (** nb.py:3510-3513, 3767-3770: update the statistics of open positions *)
  Definition open_stats_step (st : FState) (col : nat) : res FState :=
    let! r := update_open_pos_stats_nb (fs_rec st col) (fs_pos st col) (fs_vp st col) in
    Ok (with_recs st (fupd (fs_rec st) col r)).
  Definition open_stats (op : FOpts) (g : Seg) (st : FState) : res FState :=
    if fo_fill_pos op then foldM open_stats_step st (seq (sg_from g) (sg_len g)) else Ok st.

  (** nb.py:3527-3530, 3759-3762: value of a column without cash sharing *)
  Definition column_value (st : FState) (col : nat) : T :=
    if eqb (fs_pos st col) zero then fs_cash st col
    else add (fs_cash st col) (mul (fs_pos st col) (fs_vp st col)).

  (** nb.py:3515-3531: update value and return before the orders *)
  Definition revalue (op : FOpts) (g : Seg) (st : FState) : FState :=
    if fo_sharing op then
      let v := get_group_value_nb (sg_from g) (sg_len g) (fs_cash st (sg_group g)) (fs_pos st) (fs_vp st) in
      with_value st (fupd (fs_value st) (sg_group g) v)
        (fupd (fs_return st) (sg_group g) (get_return_nb (fs_second st (sg_group g)) v))
    else
      fold_left (fun st col =>
        let v := column_value st col in
        with_value st (fupd (fs_value st) col v) (fupd (fs_return st) col (get_return_nb (fs_second st col) v)))
        (seq (sg_from g) (sg_len g)) st.

  (** nb.py:3743-3764: value, previous value and return after the orders;
      [k] is the index of the column or group *)
  Definition shift_value (st : FState) (k : nat) (v : T) : FState :=
    let second := fs_temp st k in
    mkFState (fs_cash st) (fs_free st) (fupd (fs_value st) k v) (fupd (fs_second st) k second)
      (fupd (fs_temp st) k v) (fupd (fs_return st) k (get_return_nb second v)) (fs_pos st) (fs_debt st) (fs_vp st)
      (fs_rec st) (fs_oidx st) (fs_lidx st) (fs_seq st) (fs_rc st).
  Definition close_value (op : FOpts) (g : Seg) (st : FState) : FState :=
    if fo_sharing op then
      shift_value st (sg_group g)
        (get_group_value_nb (sg_from g) (sg_len g) (fs_cash st (sg_group g)) (fs_pos st) (fs_vp st))
    else fold_left (fun st col => shift_value st col (column_value st col)) (seq (sg_from g) (sg_len g)) st.

  (** nb.py:3660-3661, 3738-3741 *)
  Definition store_vp (op : FOpts) (vp : nat -> T) (col : nat) (v : T) : nat -> T :=
    if negb (isnan v) || negb (fo_ffill op) then fupd vp col v else vp.

  (** nb.py:3736-3741: close becomes the valuation price *)
  Definition close_vp (op : FOpts) (g : Seg) (i : nat) (st : FState) : FState :=
    with_vp_seq st
      (fold_left (fun vp col => store_vp op vp col (fo_close op i col)) (seq (sg_from g) (sg_len g)) (fs_vp st))
      (fs_seq st).

  (** nb.py:3654-3676, 3678-3680: the new state becomes the last state *)
  Definition store_order (op : FOpts) (g : Seg) (i col : nat) (st : FState) (r : OrderResult T) (s' : ProcState T)
      (rc' : Recs T) : res FState :=
    let k := slot op g col in
    let! rec' := if fo_fill_pos op
                 then update_pos_record_nb (fs_rec st col) i col (fs_pos st col) (ps_position s') r
                 else Ok (fs_rec st col) in
    let oidx := List.length (rc_orders (fs_rc st)) in
    let lidx := List.length (rc_logs (fs_rc st)) in
    Ok (mkFState (fupd (fs_cash st) k (ps_cash s')) (fupd (fs_free st) k (ps_free_cash s'))
          (fupd (fs_value st) k (ps_value s')) (fs_second st) (fs_temp st)
          (fupd (fs_return st) k (get_return_nb (fs_second st k) (ps_value s')))
          (fupd (fs_pos st) col (ps_position s')) (fupd (fs_debt st) col (ps_debt s'))
          (store_vp op (fs_vp st) col (ps_val_price s'))
          (fupd (fs_rec st) col rec')
          (if Nat.eqb oidx (List.length (rc_orders rc')) then fs_oidx st else fupd (fs_oidx st) col (Some oidx))
          (if Nat.eqb lidx (List.length (rc_logs rc')) then fs_lidx st else fupd (fs_lidx st) col (Some lidx))
          (fs_seq st) rc').

  (** ** Helpers for callbacks *)

  (** nb.py:945-964 get_group_value_ctx_nb *)
  Definition get_group_value_ctx_nb (op : FOpts) (g : Seg) (st : FState) : res T :=
    raise_if (negb (fo_sharing op)) (ValueError "Cash sharing must be enabled") (
    Ok (get_group_value_nb (sg_from g) (sg_len g) (fs_cash st (sg_group g)) (fs_pos st) (fs_vp st))).

  (** nb.py:1002-1071 sort_call_seq_out_nb. Size, size type and direction are
      those of column [k] of the group (however they are selected). *)
  Definition sort_call_seq_out_nb (op : FOpts) (g : Seg) (st : FState) (size : nat -> T)
      (size_type : nat -> SizeType) (direction : nat -> Direction) (call_seq_out : list nat) : res (list nat) :=
    let! v := get_group_value_ctx_nb op g st in
    let! pairs := foldM (fun (acc : list (T * nat)) k =>
      let c := nth k call_seq_out 0%nat in
      raise_if (negb (Nat.eqb c k)) (ValueError "call_seq_out should follow CallSeqType.Default") (
      let col := (sg_from g + k)%nat in
      Ok (acc ++ [(approx_order_value_nb (size k) (size_type k) (direction k) (fs_cash st (sg_group g)) (fs_pos st col)
                     (fs_free st (sg_group g)) (fs_vp st col) v, c)]))) [] (seq 0 (sg_len g)) in
    Ok (map snd (insert_argsort_nb pairs)).

  (** nb.py:1121-1140 try_order_nb *)
  Definition try_order_nb (draws : nat -> T) (op : FOpts) (g : Seg) (i col : nat) (st : FState) (o : Order T)
    : res (ExecState T * OrderResult T * nat) :=
    execute_order_nb draws (rc_rng (fs_rc st)) (order_state_now op st g col) (resolve_order_price (fo_close op) i col o).

  (** ** Callbacks *)

  (** User-defined functions are arbitrary: they see the whole state, have
      memory [U] of their own and may raise. [A0], [A1], [A2] are the tuples
      returned by the functions before the simulation, group (or row) and
      segment and handed to the functions below them. What functions change in
      place is restricted to what is documented: the function before a
      segment returns the valuation prices and the call sequence of the
      segment, all else is read-only. Packed extra arguments are part of the
      functions. *)
  Context {U A0 A1 A2 : Type}.
  Record Callbacks := mkCallbacks {
    cb_pre_sim : FState -> U -> res (A0 * U);
    cb_post_sim : FState -> U -> res U;
    (* before and after a group: the segment gives group and columns *)
    cb_pre_group : A0 -> Seg -> FState -> U -> res (A1 * U);
    cb_post_group : A0 -> Seg -> FState -> U -> res U;
    (* before and after a row *)
    cb_pre_row : A0 -> nat -> FState -> U -> res (A1 * U);
    cb_post_row : A0 -> nat -> FState -> U -> res U;
    cb_pre_segment : A1 -> Seg -> nat -> FState -> U -> res (A2 * (nat -> T) * list nat * U);
    cb_post_segment : A1 -> Seg -> nat -> FState -> U -> res U;
    (* row, column, position in the call sequence *)
    cb_order : A2 -> Seg -> nat -> nat -> nat -> FState -> U -> res (Order T * U);
    (* row and number of calls so far in the segment; [None] is column -1 *)
    cb_flex_order : A2 -> Seg -> nat -> nat -> FState -> U -> res (option nat * Order T * U);
    cb_post_order : A2 -> Seg -> nat -> nat -> nat -> ProcState T -> OrderResult T -> FState -> U -> res U }.

  (** Rows of the call sequence and valuation prices of the columns of the
      segment as left by the function before the segment *)
  Definition take_segment (g : Seg) (i : nat) (vp : nat -> T) (calls : list nat) (st : FState) : FState :=
    with_vp_seq st
      (fun c => if Nat.leb (sg_from g) c && Nat.ltb c (sg_from g + sg_len g) then vp c else fs_vp st c)
      (set_slice (fs_seq st) i (sg_from g) (firstn (sg_len g) calls)).

  (** nb.py:3600-3727: generate, process and store one order of a known column *)
  Definition process_step (draws : nat -> T) (op : FOpts) (cb : Callbacks) (a2 : A2) (g : Seg) (i col k : nat)
      (o : Order T) (st : FState) (u : U) : res (FState * U) :=
    let s := order_state_now op st g col in
    let! (r, s', rc') := process_order_nb draws i col (sg_group g) s (fo_update op)
                           (resolve_order_price (fo_close op) i col o) (fs_rc st) in
    let! st' := store_order op g i col st r s' rc' in
    let! u' := cb_post_order cb a2 g i col k s r st' u in
    Ok (st', u').

  (** nb.py:3536-3727 one pass of the order loop *)
  Definition call_step (draws : nat -> T) (op : FOpts) (cb : Callbacks) (a2 : A2) (g : Seg) (i : nat)
      (su : FState * U) (k : nat) : res (FState * U) :=
    let '(st, u) := su in
    let col_i := fs_seq st i (sg_from g + k) in
    raise_if (Nat.leb (sg_len g) col_i) (ValueError "Call index exceeds bounds of the group") (
    let col := sg_from g + col_i in
    let! (o, u') := cb_order cb a2 g i col k st u in
    process_step draws op cb a2 g i col k o st u').

  (** nb.py:4852-5053: the loop of the flexible simulation. It need not end:
      [None] if it is still running after [fuel] orders. *)
  Fixpoint flex_loop (draws : nat -> T) (op : FOpts) (cb : Callbacks) (a2 : A2) (g : Seg) (i : nat)
      (fuel call_idx : nat) (st : FState) (u : U) : option (res (FState * U)) :=
    match cb_flex_order cb a2 g i call_idx st u with
    | Err e => Some (Err e)
    | Ok (None, _, u') => Some (Ok (st, u'))
    | Ok (Some col, o, u') =>
        if Nat.ltb col (sg_from g) || Nat.leb (sg_from g + sg_len g) col then
          Some (Err (ValueError "Column exceeds bounds of the group"))
        else match process_step draws op cb a2 g i col call_idx o st u' with
             | Err e => Some (Err e)
             | Ok (st', u'') =>
                 match fuel with
                 | O => None
                 | S f => flex_loop draws op cb a2 g i f (S call_idx) st' u''
                 end
             end
    end.

  (** How the orders of an active segment are generated: by call sequence,
      or flexibly with enough fuel (running out of it is an error of the model,
      not of the code). *)
  Inductive Mode := ByCallSeq | Flexible (fuel : nat).
  Definition out_of_fuel : err := AssertionError "the loop has not ended".
  Definition orders_of_segment (draws : nat -> T) (op : FOpts) (cb : Callbacks) (m : Mode) (a2 : A2) (g : Seg)
      (i : nat) (st : FState) (u : U) : res (FState * U) :=
    match m with
    | ByCallSeq => foldM (call_step draws op cb a2 g i) (st, u) (seq 0 (sg_len g))
    | Flexible fuel =>
        match flex_loop draws op cb a2 g i fuel 0 st u with Some r => r | None => Err out_of_fuel end
    end.

  (** nb.py:3466-3808: one segment. The flexible simulation has no call
      sequence; what the function before the segment says about it has no
      effect. *)
  Definition segment (draws : nat -> T) (op : FOpts) (cb : Callbacks) (m : Mode) (a1 : A1) (g : Seg) (i : nat)
      (su : FState * U) : res (FState * U) :=
    let '(st, u) := su in
    let active := fo_mask op i (sg_group g) in
    let! (out, st1, u1) :=
      if fo_call_pre op || active then
        let! (a2, vp, calls, u') := cb_pre_segment cb a1 g i st u in
        Ok (Some a2, take_segment g i vp calls st, u')
      else Ok (None, st, u) in
    let! st2 := open_stats op g st1 in
    let st3 := revalue op g st2 in
    let! (st4, u4) :=
      if active then
        match out with
        | Some a2 => orders_of_segment draws op cb m a2 g i st3 u1
        | None => Err (TypeError "UnboundLocalError")
        end
      else Ok (st3, u1) in
    let st5 := close_value op g (close_vp op g i st4) in
    let! st6 := open_stats op g st5 in
    let! u6 := if fo_call_post op || active then cb_post_segment cb a1 g i st6 u4 else Ok u4 in
    Ok (st6, u6).

  (** The groups: number, first column and length (nb.py:3430-3433) *)
  Fixpoint segs (group from : nat) (lens : list nat) : list Seg :=
    match lens with
    | [] => []
    | len :: lens' => mkSeg group from len :: segs (S group) (from + len) lens'
    end.

  (** nb.py:3431-3843: one group *)
  Definition group_run (draws : nat -> T) (op : FOpts) (cb : Callbacks) (m : Mode) (nrows : nat) (a0 : A0)
      (su : FState * U) (g : Seg) : res (FState * U) :=
    let '(st, u) := su in
    let! (a1, u1) := cb_pre_group cb a0 g st u in
    let! (st2, u2) := foldM (fun su i => segment draws op cb m a1 g i su) (st, u1) (seq 0 nrows) in
    let! u3 := cb_post_group cb a0 g st2 u2 in
    Ok (st2, u3).

  (** nb.py:4048-4455: one row *)
  Definition row_run (draws : nat -> T) (op : FOpts) (cb : Callbacks) (m : Mode) (groups : list Seg) (a0 : A0)
      (su : FState * U) (i : nat) : res (FState * U) :=
    let '(st, u) := su in
    let! (a1, u1) := cb_pre_row cb a0 i st u in
    let! (st2, u2) := foldM (fun su g => segment draws op cb m a1 g i su) (st, u1) groups in
    let! u3 := cb_post_row cb a0 i st2 u2 in
    Ok (st2, u3).

  (** nb.py:3381-3396: initial arrays. [empty_rec] is what uninitialised memory
      holds, but for the identifier (nb.py:1210-1230 init_last_pos_record_nb).
      Reading [init_cash] out of range cannot happen after the checks. *)
  Definition finit (init_cash : list T) (empty_rec : nat -> PosRec) (call_seq : nat -> nat -> nat)
      (nrows ncols : nat) (max_orders : option nat) (max_logs : nat) (rng : nat) : FState :=
    let c := fun k => nth k init_cash nan in
    let e := fun col => let r := empty_rec col in
      mkPosRec (-1) (pr_col r) (pr_size r) (pr_entry_idx r) (pr_entry_price r) (pr_entry_fees r) (pr_exit_idx r)
        (pr_exit_price r) (pr_exit_fees r) (pr_pnl r) (pr_return r) (pr_dir r) (pr_status r) (pr_parent r) in
    mkFState c c c c c (fun _ => nan) (fun _ => zero) (fun _ => zero) (fun _ => nan) e (fun _ => None)
      (fun _ => None) call_seq
      (mkRecs [] [] (match max_orders with Some m => m | None => nrows * ncols end)
         (if Nat.eqb max_logs 0 then 1 else max_logs) rng).

  (** nb.py:823-839 check_group_lens_nb, check_group_init_cash_nb *)
  Definition check_groups {A} (lens : list nat) (ncols : nat) (init_cash : list T) (sharing : bool) (k : res A) : res A :=
    raise_if (negb (Nat.eqb (sum_lens lens) ncols))
      (ValueError "group_lens has incorrect total number of columns") (
    raise_if (negb (Nat.eqb (List.length init_cash) (if sharing then List.length lens else ncols)))
      (ValueError "init_cash must match the number of groups or columns") k).

  (** nb.py:3007-3870 simulate_nb and 4499-5185 flex_simulate_nb. Returned
      are the final arrays, which hold the records, and the memory of the
      callbacks. *)
  Definition simulate_nb (draws : nat -> T) (op : FOpts) (cb : Callbacks) (m : Mode) (nrows ncols : nat)
      (lens : list nat) (init_cash : list T) (init : FState) (u : U) : res (FState * U) :=
    check_groups lens ncols init_cash (fo_sharing op) (
    let! (a0, u1) := cb_pre_sim cb init u in
    let! (st, u2) := foldM (group_run draws op cb m nrows a0) (init, u1) (segs 0 0 lens) in
    let! u3 := cb_post_sim cb st u2 in
    Ok (st, u3)).

  (** nb.py:3873-4488 simulate_row_wise_nb and 5186-5700
      flex_simulate_row_wise_nb *)
  Definition simulate_row_wise_nb (draws : nat -> T) (op : FOpts) (cb : Callbacks) (m : Mode) (nrows ncols : nat)
      (lens : list nat) (init_cash : list T) (init : FState) (u : U) : res (FState * U) :=
    check_groups lens ncols init_cash (fo_sharing op) (
    let! (a0, u1) := cb_pre_sim cb init u in
    let! (st, u2) := foldM (row_run draws op cb m (segs 0 0 lens) a0) (init, u1) (seq 0 nrows) in
    let! u3 := cb_post_sim cb st u2 in
    Ok (st, u3)).
End OrderFunc.

Arguments PosRec T : clear implicits.
Arguments FState T : clear implicits.
Arguments FOpts T : clear implicits.
Arguments Callbacks T U A0 A1 A2 : clear implicits.
