(** * Model of the stop signal generators of rust/src/signals.rs

    One column: the loops over columns start afresh in each. An array read at
    [row, col], broadcast or not, is a function of the row. *)
From Coq Require Import String ZArith Bool List Arith.
From Verif Require Import Base Num SignalsNb RustOrder.
Import ListNotations.
Local Open Scope list_scope.
Local Open Scope nat_scope.

Section RustStops.
  Context {T : Type} {N : Num T}.

  (** signals.rs:116-118 next_true_in_col *)
  Definition rs_next_true (entries : list bool) (start : nat) : option nat :=
    find (fun row => nth row entries false) (seq start (List.length entries - start)).
  (** [for &idx in &hits { exits[[idx, col]] = true; }] *)
  Definition rs_mark (a : list bool) (hits : list nat) : list bool := fold_left (fun a idx => upd a idx true) hits a.
  (** signals.rs:519-520, 576-577, 783-784: the bar of the entry *)
  Definition rs_init_i (from wait : nat) : nat :=
    let init_i := (Z.of_nat from - Z.of_nat wait)%Z in if (init_i <? 0)%Z then 0 else Z.to_nat init_i.

  (** signals.rs:528-540 and 585-597 *)
  Definition rs_stop_price (init_ts init_stop : T) (init_trailing : bool) (min_low max_high : T) : T :=
    if negb (isnan init_stop) then
      if init_trailing then
        if geb init_stop zero then mul min_low (add one (abs init_stop)) else mul max_high (sub one (abs init_stop))
      else mul init_ts (add one init_stop)
    else nan.
  Definition rs_stop_exit (init_stop price curr_ts : T) : bool :=
    if negb (isnan init_stop) then if geb init_stop zero then geb curr_ts price else leb curr_ts price else false.
  Definition rs_stop_track (init_trailing : bool) (curr_ts min_low max_high : T) : T * T :=
    if init_trailing then
      if ltb curr_ts min_low then (curr_ts, max_high) else if gtb curr_ts max_high then (min_low, curr_ts) else (min_low, max_high)
    else (min_low, max_high).

  (** signals.rs:510-561 stop_choice_first *)
  Fixpoint rs_stop_first_loop (ts : nat -> T) (init_ts init_stop : T) (init_trailing : bool) (min_low max_high : T) (bars : list nat) : option nat :=
    match bars with
    | [] => None
    | i :: bars =>
        if rs_stop_exit init_stop (rs_stop_price init_ts init_stop init_trailing min_low max_high) (ts i) then Some i
        else
          let '(min_low, max_high) := rs_stop_track init_trailing (ts i) min_low max_high in
          rs_stop_first_loop ts init_ts init_stop init_trailing min_low max_high bars
    end.
  Definition rs_stop_choice_first (from to : nat) (ts stop : nat -> T) (trailing : nat -> bool) (wait : nat) : option nat :=
    let init_i := rs_init_i from wait in
    rs_stop_first_loop ts (ts init_i) (stop init_i) (trailing init_i) (ts init_i) (ts init_i) (seq from (to - from)).
  (** signals.rs:567-619 stop_choice_all *)
  Definition rs_stop_all_step (ts : nat -> T) (init_ts init_stop : T) (init_trailing : bool) (st : T * T * list nat) (i : nat) : T * T * list nat :=
    let '(min_low, max_high, out) := st in
    let out := if rs_stop_exit init_stop (rs_stop_price init_ts init_stop init_trailing min_low max_high) (ts i) then out ++ [i] else out in
    let '(min_low, max_high) := rs_stop_track init_trailing (ts i) min_low max_high in
    (min_low, max_high, out).
  Definition rs_stop_choice_all (from to : nat) (ts stop : nat -> T) (trailing : nat -> bool) (wait : nat) : list nat :=
    let init_i := rs_init_i from wait in
    snd (fold_left (rs_stop_all_step ts (ts init_i) (stop init_i) (trailing init_i)) (seq from (to - from)) (ts init_i, ts init_i, [])).

  (** signals.rs:621-667 generate_stop_ex. The [while let] loop moves to a later entry every time, so its fuel is
      the number of rows and one. State: exits, last_exit_i. *)
  Fixpoint rs_stop_ex_loop (fuel : nat) (entries : list bool) (ts stop : nat -> T) (trailing : nat -> bool) (wait : nat)
      (until_next skip_until_exit pick_first : bool) (entry_i_opt : option nat) (st : list bool * Z) : list bool * Z :=
    match fuel, entry_i_opt with
    | O, _ | _, None => st
    | S fuel, Some entry_i =>
        let nrows := List.length entries in
        let '(exits, last_exit_i) := st in
        let next_entry_i := rs_next_true entries (entry_i + 1) in
        let st :=
          if negb (skip_until_exit && (Z.of_nat entry_i <=? last_exit_i)%Z) then
            let from_i := entry_i + wait in
            let to_i := if until_next then match next_entry_i with Some e => e | None => nrows end else nrows in
            if Nat.ltb from_i to_i then
              if pick_first then
                match rs_stop_choice_first from_i to_i ts stop trailing wait with
                | Some idx => (upd exits idx true, Z.of_nat idx)
                | None => (exits, last_exit_i)
                end
              else
                match rs_stop_choice_all from_i to_i ts stop trailing wait with
                | [] => (exits, last_exit_i)
                | hits => (rs_mark exits hits, Z.of_nat (last hits 0))
                end
            else (exits, last_exit_i)
          else (exits, last_exit_i) in
        rs_stop_ex_loop fuel entries ts stop trailing wait until_next skip_until_exit pick_first next_entry_i st
    end.
  Definition rs_generate_stop_ex (entries : list bool) (ts stop : nat -> T) (trailing : nat -> bool) (wait : nat)
      (until_next skip_until_exit pick_first : bool) : list bool :=
    let nrows := List.length entries in
    fst (rs_stop_ex_loop (S nrows) entries ts stop trailing wait until_next skip_until_exit pick_first
           (rs_next_true entries 0) (repeat false nrows, (-1)%Z)).

  (** signals.rs:669-757 generate_stop_enex with a given number of rounds, [None] when it is still running then.
      State: new_entries, exits, prev_prev_i, prev_i. *)
  Fixpoint rs_stop_enex_loop (fuel : nat) (entries : list bool) (ts stop : nat -> T) (trailing : nat -> bool)
      (entry_wait exit_wait : nat) (pick_first : bool) (i : nat) (st : EnEx) : option (res EnEx) :=
    match fuel with
    | O => None
    | S fuel =>
        let nrows := List.length entries in
        let is_entry := Nat.eqb (Nat.modulo i 2) 0 in
        let from_i_raw := if is_entry then if Nat.eqb i 0 then 0%Z else (ee_prev st + Z.of_nat entry_wait)%Z
                          else (ee_prev st + Z.of_nat exit_wait)%Z in
        if (Z.of_nat nrows <=? from_i_raw)%Z then Some (Ok st)
        else
          let from_i := Z.to_nat (Z.max from_i_raw 0) in
          let first := if is_entry then find (fun r => nth r entries false) (seq from_i (nrows - from_i))
                       else rs_stop_choice_first from_i nrows ts stop trailing exit_wait in
          match first with
          | None => Some (Ok st)
          | Some first_i =>
              if (Z.of_nat first_i =? ee_prev st)%Z && (ee_prev st =? ee_prev_prev st)%Z
              then Some (Err (ValueError "Infinite loop detected"))
              else
                let target := if is_entry then ee_entries st else ee_exits st in
                let put (a : list bool) (prev_i : nat) :=
                  mkEnEx (if is_entry then a else ee_entries st) (if is_entry then ee_exits st else a) (ee_prev st) (Z.of_nat prev_i) in
                if (if is_entry then true else pick_first) then
                  if Nat.leb nrows first_i then Some (Err (ValueError "First index is out of bounds"))
                  else rs_stop_enex_loop fuel entries ts stop trailing entry_wait exit_wait pick_first (i + 1) (put (upd target first_i true) first_i)
                else
                  match rs_stop_choice_all from_i nrows ts stop trailing exit_wait with
                  | [] => Some (Ok st)
                  | hits =>
                      if Nat.leb nrows (last hits 0) then Some (Err (ValueError "Last index is out of bounds"))
                      else rs_stop_enex_loop fuel entries ts stop trailing entry_wait exit_wait pick_first (i + 1) (put (rs_mark target hits) (last hits 0))
                  end
          end
    end.
  Definition rs_generate_stop_enex (fuel : nat) (entries : list bool) (ts stop : nat -> T) (trailing : nat -> bool)
      (entry_wait exit_wait : nat) (pick_first : bool) : option (res (list bool * list bool)) :=
    if Nat.eqb entry_wait 0 && Nat.eqb exit_wait 0 then Some (Err (ValueError "entry_wait and exit_wait cannot be both 0"))
    else
      let n := List.length entries in
      match rs_stop_enex_loop fuel entries ts stop trailing entry_wait exit_wait pick_first 0 (mkEnEx (repeat false n) (repeat false n) (-2) (-1)) with
      | None => None
      | Some (Err e) => Some (Err e)
      | Some (Ok st) => Some (Ok (ee_entries st, ee_exits st))
      end.

  (** signals.rs:764-892 ohlc_stop_choice. State: min_p, max_p, out and whether it has returned; an element of [out] is
      the bar with what is written to stop_price_out and stop_type_out there. *)
  Definition rs_ohlc_step (bar : nat -> Bar T) (a : OhlcArgs T) (init_i : nat) (init_open : T) (is_open_safe pick_first : bool)
      (st : T * T * list (nat * T * StopType) * bool) (i : nat) : T * T * list (nat * T * StopType) * bool :=
    let '(min_p, max_p, out, returned) := st in
    if returned then st
    else
      let curr_close := b_close (bar i) in
      let curr_open := if isnan (b_open (bar i)) then curr_close else b_open (bar i) in
      let curr_low_raw := if isnan (b_low (bar i)) then rs_min curr_open curr_close else b_low (bar i) in
      let curr_high_raw := if isnan (b_high (bar i)) then rs_max curr_open curr_close else b_high (bar i) in
      let sl_price :=
        if negb (isnan (oa_sl a)) then
          if oa_trail a then if oa_reverse a then mul min_p (add one (oa_sl a)) else mul max_p (sub one (oa_sl a))
          else if oa_reverse a then mul init_open (add one (oa_sl a)) else mul init_open (sub one (oa_sl a))
        else nan in
      let tp_price :=
        if negb (isnan (oa_tp a)) then
          if oa_reverse a then mul init_open (sub one (oa_tp a)) else mul init_open (add one (oa_tp a))
        else nan in
      let '(curr_high, curr_low) := if Nat.ltb init_i i || is_open_safe then (curr_high_raw, curr_low_raw) else (curr_close, curr_close) in
      let exit_sl :=
        if negb (isnan (oa_sl a)) then
          if (if negb (oa_reverse a) then leb curr_low sl_price else geb curr_high sl_price)
          then Some (sl_price, if oa_trail a then TrailStop else StopLoss) else None
        else None in
      let exit_signal :=
        match exit_sl with
        | Some x => Some x
        | None =>
            if negb (isnan (oa_tp a)) then
              if (if negb (oa_reverse a) then geb curr_high tp_price else leb curr_low tp_price)
              then Some (tp_price, TakeProfit) else None
            else None
        end in
      let out := match exit_signal with Some (p, ty) => out ++ [(i, p, ty)] | None => out end in
      match exit_signal, pick_first with
      | Some _, true => (min_p, max_p, out, true)
      | _, _ =>
          (if oa_trail a then if ltb curr_low min_p then curr_low else min_p else min_p,
           if oa_trail a then if gtb curr_high max_p then curr_high else max_p else max_p, out, false)
      end.
  Definition rs_ohlc_stop_choice (from to : nat) (bar : nat -> Bar T) (args : nat -> OhlcArgs T) (is_open_safe : bool) (wait : nat)
      (pick_first : bool) : res (list (nat * T * StopType)) :=
    let init_i := rs_init_i from wait in
    let init_open := b_open (bar init_i) in
    let a := args init_i in
    raise_if (negb (isnan (oa_sl a)) && ltb (oa_sl a) zero) (ValueError "Stop value must be 0 or greater") (
    raise_if (negb (isnan (oa_tp a)) && ltb (oa_tp a) zero) (ValueError "Stop value must be 0 or greater") (
    let '(_, _, out, _) := fold_left (rs_ohlc_step bar a init_i init_open is_open_safe pick_first) (seq from (to - from)) (init_open, init_open, [], false) in
    Ok out)).

  (** signals.rs:894-965 generate_ohlc_stop_ex: the exits; loop as in generate_stop_ex *)
  Fixpoint rs_ohlc_ex_loop (fuel : nat) (entries : list bool) (bar : nat -> Bar T) (args : nat -> OhlcArgs T) (is_open_safe : bool) (wait : nat)
      (until_next skip_until_exit pick_first : bool) (entry_i_opt : option nat) (st : list bool * Z) : res (list bool * Z) :=
    match fuel, entry_i_opt with
    | O, _ | _, None => Ok st
    | S fuel, Some entry_i =>
        let nrows := List.length entries in
        let '(exits, last_exit_i) := st in
        let next_entry_i := rs_next_true entries (entry_i + 1) in
        let! st :=
          if negb (skip_until_exit && (Z.of_nat entry_i <=? last_exit_i)%Z) then
            let from_i := entry_i + wait in
            let to_i := if until_next then match next_entry_i with Some e => e | None => nrows end else nrows in
            if Nat.ltb from_i to_i then
              let! writes := rs_ohlc_stop_choice from_i to_i bar args is_open_safe wait pick_first in
              match map (fun w => fst (fst w)) writes with
              | [] => Ok (exits, last_exit_i)
              | (h0 :: _) as hits =>
                  if pick_first then Ok (upd exits h0 true, Z.of_nat h0)
                  else Ok (rs_mark exits hits, Z.of_nat (last hits 0))
              end
            else Ok (exits, last_exit_i)
          else Ok (exits, last_exit_i) in
        rs_ohlc_ex_loop fuel entries bar args is_open_safe wait until_next skip_until_exit pick_first next_entry_i st
    end.
  Definition rs_generate_ohlc_stop_ex (entries : list bool) (bar : nat -> Bar T) (args : nat -> OhlcArgs T) (is_open_safe : bool) (wait : nat)
      (until_next skip_until_exit pick_first : bool) : res (list bool) :=
    let nrows := List.length entries in
    let! (exits, _) := rs_ohlc_ex_loop (S nrows) entries bar args is_open_safe wait until_next skip_until_exit pick_first
                         (rs_next_true entries 0) (repeat false nrows, (-1)%Z) in
    Ok exits.

  (** signals.rs:967-1076 generate_ohlc_stop_enex with a given number of rounds: the entries and exits *)
  Fixpoint rs_ohlc_enex_loop (fuel : nat) (entries : list bool) (bar : nat -> Bar T) (args : nat -> OhlcArgs T) (is_open_safe : bool)
      (entry_wait exit_wait : nat) (pick_first : bool) (i : nat) (st : EnEx) : option (res EnEx) :=
    match fuel with
    | O => None
    | S fuel =>
        let nrows := List.length entries in
        let is_entry := Nat.eqb (Nat.modulo i 2) 0 in
        let from_i_raw := if is_entry then if Nat.eqb i 0 then 0%Z else (ee_prev st + Z.of_nat entry_wait)%Z
                          else (ee_prev st + Z.of_nat exit_wait)%Z in
        let stuck (first_i : nat) := (Z.of_nat first_i =? ee_prev st)%Z && (ee_prev st =? ee_prev_prev st)%Z in
        if (Z.of_nat nrows <=? from_i_raw)%Z then Some (Ok st)
        else
          let from_i := Z.to_nat (Z.max from_i_raw 0) in
          if is_entry then
            match find (fun r => nth r entries false) (seq from_i (nrows - from_i)) with
            | None => Some (Ok st)
            | Some first_i =>
                if stuck first_i then Some (Err (ValueError "Infinite loop detected"))
                else if Nat.leb nrows first_i then Some (Err (ValueError "First index is out of bounds"))
                else rs_ohlc_enex_loop fuel entries bar args is_open_safe entry_wait exit_wait pick_first (i + 1)
                       (mkEnEx (upd (ee_entries st) first_i true) (ee_exits st) (ee_prev st) (Z.of_nat first_i))
            end
          else
            match rs_ohlc_stop_choice from_i nrows bar args is_open_safe exit_wait pick_first with
            | Err e => Some (Err e)
            | Ok writes =>
                match map (fun w => fst (fst w)) writes with
                | [] => Some (Ok st)
                | (first_i :: _) as hits =>
                    if stuck first_i then Some (Err (ValueError "Infinite loop detected"))
                    else if pick_first then
                      if Nat.leb nrows first_i then Some (Err (ValueError "First index is out of bounds"))
                      else rs_ohlc_enex_loop fuel entries bar args is_open_safe entry_wait exit_wait pick_first (i + 1)
                             (mkEnEx (ee_entries st) (upd (ee_exits st) first_i true) (ee_prev st) (Z.of_nat first_i))
                    else
                      if Nat.leb nrows (last hits 0) then Some (Err (ValueError "Last index is out of bounds"))
                      else rs_ohlc_enex_loop fuel entries bar args is_open_safe entry_wait exit_wait pick_first (i + 1)
                             (mkEnEx (ee_entries st) (rs_mark (ee_exits st) hits) (ee_prev st) (Z.of_nat (last hits 0)))
                end
            end
    end.
  Definition rs_generate_ohlc_stop_enex (fuel : nat) (entries : list bool) (bar : nat -> Bar T) (args : nat -> OhlcArgs T) (is_open_safe : bool)
      (entry_wait exit_wait : nat) (pick_first : bool) : option (res (list bool * list bool)) :=
    if Nat.eqb entry_wait 0 && Nat.eqb exit_wait 0 then Some (Err (ValueError "entry_wait and exit_wait cannot be both 0"))
    else
      let n := List.length entries in
      match rs_ohlc_enex_loop fuel entries bar args is_open_safe entry_wait exit_wait pick_first 0 (mkEnEx (repeat false n) (repeat false n) (-2) (-1)) with
      | None => None
      | Some (Err e) => Some (Err e)
      | Some (Ok st) => Some (Ok (ee_entries st, ee_exits st))
      end.
End RustStops.
