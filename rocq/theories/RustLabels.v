(** * Model of rust/src/labels.rs: the label generators

    The statistics of the period ahead work on flat memory, row by row, as in the
    code. The others index [close[[i, col]]] and are modelled for one column, with
    the thresholds, which FlexArray selects (modelled in FlexSelect.v for the Numba
    code), as functions of the bar: both paths of the code (labels.rs:390-437 and
    439-487, 568-617 and 619-664, 727-750 and 752-774) do the same with them.
    Division does not raise in Rust. *)
From Coq Require Import String ZArith Bool List Arith.
From Verif Require Import Base Num GenericNb RustGeneric LabelsNb.
Import ListNotations.
Local Open Scope string_scope.
Local Open Scope list_scope.
Local Open Scope nat_scope.

Section RustLabels.
  Context {T : Type} {N : Num T}.

  (** ** The period ahead *)
  (** labels.rs:41-64, one turn for one column of future_mean_apply_rolling_c (and
      134-157 of mean_labels_apply_rolling_c); [at_ r] is the value in row [r] *)
  Definition rs_ahead_step (nrows window wait : nat) (at_ : nat -> T) (i : nat) (s : T * nat) : T * nat :=
    let start := i + wait in
    let s := if Nat.ltb start nrows && negb (isnan (at_ start)) then (add (fst s) (at_ start), snd s + 1) else s in
    let end_ := start + window in
    if Nat.ltb end_ nrows && negb (isnan (at_ end_)) then (sub (fst s) (at_ end_), snd s - 1) else s.

  (** labels.rs:33-72 future_mean_apply_rolling_c *)
  Definition rs_future_mean_c (src : list T) (nrows ncols window wait : nat) : list T :=
    List.concat (rev (row_loop (fun col i s _ =>
        let s := rs_ahead_step nrows window wait (fun r => nth (r * ncols + col) src nan) i s in
        (s, if Nat.leb window (snd s) then div (fst s) (ofZ (Z.of_nat (snd s))) else nan))
      src ncols (rev (seq 0 nrows)) (repeat (zero, 0) ncols))).

  (** labels.rs:126-166 mean_labels_apply_rolling_c *)
  Definition rs_mean_labels_c (src : list T) (nrows ncols window wait : nat) : list T :=
    List.concat (rev (row_loop (fun col i s cur =>
        let s := rs_ahead_step nrows window wait (fun r => nth (r * ncols + col) src nan) i s in
        (s, if Nat.leb window (snd s) then div (sub (div (fst s) (ofZ (Z.of_nat (snd s)))) cur) cur else nan))
      src ncols (rev (seq 0 nrows)) (repeat (zero, 0) ncols))).

  (** labels.rs:88-111, one turn for one column; state: sum, sum of squares, count *)
  Definition rs_ahead_step2 (nrows window wait : nat) (at_ : nat -> T) (i : nat) (s : T * T * nat) : T * T * nat :=
    let start := i + wait in
    let '(sum, sum_sq, cnt) := s in
    let '(sum, sum_sq, cnt) :=
      if Nat.ltb start nrows && negb (isnan (at_ start))
      then (add sum (at_ start), add sum_sq (mul (at_ start) (at_ start)), cnt + 1) else (sum, sum_sq, cnt) in
    let end_ := start + window in
    if Nat.ltb end_ nrows && negb (isnan (at_ end_))
    then (sub sum (at_ end_), sub sum_sq (mul (at_ end_) (at_ end_)), cnt - 1) else (sum, sum_sq, cnt).

  (** labels.rs:112-120 *)
  Definition rs_ahead_std (sqrt : T -> T) (window ddof : nat) (s : T * T * nat) : T :=
    let '(sum, sum_sq, cnt) := s in
    if Nat.leb window cnt && Nat.ltb ddof cnt then
      let mean := div sum (ofZ (Z.of_nat cnt)) in
      let variance := div (add (sub sum_sq (mul (mul two sum) mean)) (mul (mul (ofZ (Z.of_nat cnt)) mean) mean))
                          (ofZ (Z.of_nat (cnt - ddof))) in
      sqrt (abs variance)
    else nan.

  (** labels.rs:74-124 future_std_apply_rolling_c *)
  Definition rs_future_std_c (sqrt : T -> T) (src : list T) (nrows ncols window wait ddof : nat) : list T :=
    List.concat (rev (row_loop (fun col i s _ =>
        let s := rs_ahead_step2 nrows window wait (fun r => nth (r * ncols + col) src nan) i s in
        (s, rs_ahead_std sqrt window ddof s))
      src ncols (rev (seq 0 nrows)) (repeat (zero, zero, 0) ncols))).

  (** labels.rs:188-206: the extreme of the rows [rows] of a column, None after a NaN *)
  Fixpoint rs_extreme_of (better : T -> T -> bool) (at_ : nat -> T) (rows : list nat) (value : T) : option T :=
    match rows with
    | [] => Some value
    | row :: rows' =>
        let v := at_ row in
        if isnan v then None
        else rs_extreme_of better at_ rows' (if better v value then v else value)
    end.

  (** labels.rs:168-209 future_min_max_apply_rolling_c; [first] is the starting value *)
  Definition rs_future_extreme_c (better : T -> T -> bool) (first : T) (src : list T) (nrows ncols window wait : nat) : list T :=
    List.concat (map (fun i =>
      let start := i + wait in
      let end_ := start + window in
      if Nat.ltb nrows end_ then repeat nan ncols
      else map (fun col => match rs_extreme_of better (fun r => nth (r * ncols + col) src nan) (range start end_) first with
                           | Some v => v | None => nan end) (seq 0 ncols)) (seq 0 nrows)).
  Definition rs_future_min_c : list T -> nat -> nat -> nat -> nat -> list T := rs_future_extreme_c ltb pinf.
  Definition rs_future_max_c : list T -> nat -> nat -> nat -> nat -> list T := rs_future_extreme_c gtb ninf.

  (** labels.rs:223-243 (and 262-280, 287-302, 309-323): the path of the exponential
      statistics and of arrays that are not stored row by row; [roll] is the rolling
      kernel with [minp = window], whose check always passes *)
  Definition rs_future_by_col (roll : list T -> res (list T)) (close : list T) (wait : nat) : res (list T) :=
    let! out := roll (rev close) in
    let base := rev out in
    Ok (if Nat.ltb 0 wait then rs_bshift_1d base wait nan else base).
  (** labels.rs:211-243 future_mean_apply with [ewm]; 350-381 mean_labels_apply with [ewm] *)
  Definition rs_future_ewm_mean (close : list T) (window wait : nat) (adjust : bool) : res (list T) :=
    rs_future_by_col (fun a => rs_ewm_mean a window window adjust) close wait.
  Definition rs_mean_labels_ewm (close : list T) (window wait : nat) (adjust : bool) : res (list T) :=
    let! future := rs_future_ewm_mean close window wait adjust in
    Ok (map (fun i => div (sub (nth i future nan) (nth i close nan)) (nth i close nan)) (seq 0 (List.length close))).
  (** labels.rs:245-280 future_std_apply, 282-302 future_min_apply, 304-324 future_max_apply, on other arrays *)
  Definition rs_future_std_strided (sqrt : T -> T) (tol : T) (close : list T) (window wait ddof : nat) : res (list T) :=
    rs_future_by_col (fun a => rs_rolling_std sqrt tol a window (Some window) ddof) close wait.
  Definition rs_future_min_strided (close : list T) (window wait : nat) : res (list T) :=
    rs_future_by_col (fun a => rs_rolling_min a window (Some window)) close wait.
  Definition rs_future_max_strided (close : list T) (window wait : nat) : res (list T) :=
    rs_future_by_col (fun a => rs_rolling_max a window (Some window)) close wait.

  (** labels.rs:317-348 fixed_labels_apply *)
  Definition rs_fixed_labels_c (src : list T) (nrows ncols n : nat) : list T :=
    List.concat (map (fun i =>
      if Nat.ltb (i + n) nrows
      then map (fun col => div (sub (nth ((i + n) * ncols + col) src nan) (nth (i * ncols + col) src nan)) (nth (i * ncols + col) src nan)) (seq 0 ncols)
      else map (fun col => div (sub nan (nth (i * ncols + col) src nan)) (nth (i * ncols + col) src nan)) (seq 0 ncols)) (seq 0 nrows)).

  (** ** Local extrema *)
  (** labels.rs:443-485, one bar of local_extrema_apply; state: out, prev_i, direction *)
  Definition rs_local_extrema_step (close : list T) (pos_th neg_th : nat -> T) (s : list Z * nat * Z) (i : nat) : res (list Z * nat * Z) :=
    let '(out, prev_i, direction) := s in
    let pos := abs (pos_th prev_i) in
    let neg := abs (neg_th prev_i) in
    raise_if (eqb pos zero) (ValueError "Positive threshold cannot be 0") (
    raise_if (eqb neg zero) (ValueError "Negative threshold cannot be 0") (
    let c := nth i close nan in
    let p := nth prev_i close nan in
    let '(out, prev_i, direction) :=
      if Z.eqb direction 1 then
        if ltb c p then (out, i, direction)
        else if geb c (mul p (add one pos)) then (upd out prev_i (-1)%Z, i, (-1)%Z)
        else (out, prev_i, direction)
      else if Z.eqb direction (-1) then
        if gtb c p then (out, i, direction)
        else if leb c (mul p (sub one neg)) then (upd out prev_i 1%Z, i, 1%Z)
        else (out, prev_i, direction)
      else if geb c (mul p (add one pos)) then (upd out prev_i (-1)%Z, i, (-1)%Z)
      else if leb c (mul p (sub one neg)) then (upd out prev_i 1%Z, i, 1%Z)
      else (out, prev_i, direction) in
    Ok (if Nat.eqb i (List.length close - 1) && negb (Z.eqb direction 0) then (upd out prev_i (- direction)%Z, prev_i, direction)
        else (out, prev_i, direction)))).

  (** labels.rs:383-487 local_extrema_apply *)
  Definition rs_local_extrema_apply (close : list T) (pos_th neg_th : nat -> T) : res (list Z) :=
    let! s := foldM (rs_local_extrema_step close pos_th neg_th) (repeat 0%Z (List.length close), 0, 0%Z) (range 1 (List.length close)) in
    Ok (fst (fst s)).

  (** ** Trend labels *)
  (** labels.rs:493-512, 540-555, 620-661, 675-695: for every bar with a label, the
      bars from the previous one on are set; [check] may refuse the pair first. *)
  Definition rs_between (check : nat -> res unit) (label : nat -> nat -> nat -> T) (n : nat) (local_extrema : list Z) : res (list T) :=
    let! s := foldM (fun (s : option nat * list T) next_i =>
      if Z.eqb (nth next_i local_extrema 0%Z) 0 then Ok s
      else match fst s with
           | None => Ok (Some next_i, snd s)
           | Some prev_i =>
               let! _ := check prev_i in
               Ok (Some next_i, fold_left (fun out i => upd out i (label prev_i next_i i)) (range prev_i next_i) (snd s))
           end) (None, repeat nan n) (seq 0 n) in
    Ok (snd s).

  (** labels.rs:489-515 bn_trend_labels *)
  Definition rs_bn_trend_labels (close : list T) (local_extrema : list Z) : res (list T) :=
    rs_between (fun _ => Ok tt) (fun p q _ => if gtb (nth q close nan) (nth p close nan) then one else zero) (List.length close) local_extrema.

  (** labels.rs:517-533 slice_min_max *)
  Fixpoint rs_min_max_from (close : list T) (rows : list nat) (lo hi : T) : T * T :=
    match rows with
    | [] => (lo, hi)
    | i :: rows' =>
        let v := nth i close nan in
        if isnan v then (nan, nan)
        else rs_min_max_from close rows' (if ltb v lo then v else lo) (if gtb v hi then v else hi)
    end.
  Definition rs_slice_min_max (close : list T) (start end_ : nat) : T * T :=
    rs_min_max_from close (range start (Datatypes.S end_)) pinf ninf.

  (** labels.rs:535-558 bn_cont_trend_labels *)
  Definition rs_bn_cont_trend_labels (close : list T) (local_extrema : list Z) : res (list T) :=
    rs_between (fun _ => Ok tt) (fun p q i =>
      let '(lo, hi) := rs_slice_min_max close p q in
      sub one (div (sub (nth i close nan) lo) (sub hi lo))) (List.length close) local_extrema.

  (** labels.rs:560-664 bn_cont_sat_trend_labels *)
  Definition rs_bn_cont_sat_trend_labels (close : list T) (local_extrema : list Z) (pos_th neg_th : nat -> T) : res (list T) :=
    rs_between (fun p =>
        raise_if (eqb (abs (pos_th p)) zero) (ValueError "Positive threshold cannot be 0") (
        raise_if (eqb (abs (neg_th p)) zero) (ValueError "Negative threshold cannot be 0") (Ok tt)))
      (fun p q i =>
        let pos := abs (pos_th p) in
        let neg := abs (neg_th p) in
        let '(lo, hi) := rs_slice_min_max close p q in
        let c := nth i close nan in
        if gtb (nth q close nan) (nth p close nan) then
          let start := div hi (add one pos) in
          let end_ := mul lo (add one pos) in
          if geb hi end_ && leb c start then one else sub one (div (sub c start) (sub hi start))
        else
          let start := div lo (sub one neg) in
          let end_ := mul hi (sub one neg) in
          if leb lo end_ && geb c start then zero else sub one (div (sub c lo) (sub start lo)))
      (List.length close) local_extrema.

  (** labels.rs:666-698 pct_trend_labels *)
  Definition rs_pct_trend_labels (close : list T) (local_extrema : list Z) (normalize : bool) : res (list T) :=
    rs_between (fun _ => Ok tt) (fun p q i =>
      let c := nth i close nan in
      let next_c := nth q close nan in
      if gtb next_c (nth p close nan) && normalize then div (sub next_c c) next_c else div (sub next_c c) c)
      (List.length close) local_extrema.

  (** labels.rs:700-716 trend_labels_apply; an unknown mode cannot be written. *)
  Definition rs_trend_labels_apply (close : list T) (pos_th neg_th : nat -> T) (mode : TrendMode) : res (list T) :=
    let! local_extrema := rs_local_extrema_apply close pos_th neg_th in
    match mode with
    | Binary => rs_bn_trend_labels close local_extrema
    | BinaryCont => rs_bn_cont_trend_labels close local_extrema
    | BinaryContSat => rs_bn_cont_sat_trend_labels close local_extrema pos_th neg_th
    | PctChange => rs_pct_trend_labels close local_extrema false
    | PctChangeNorm => rs_pct_trend_labels close local_extrema true
    end.

  (** ** Breakout labels *)
  (** labels.rs:761-770: the inner loop, which leaves 0 when it finds nothing *)
  Fixpoint rs_first_breakout (close : list T) (i : nat) (pos neg : T) (js : list nat) : T :=
    match js with
    | [] => zero
    | j :: js' =>
        if gtb pos zero && geb (nth j close nan) (mul (nth i close nan) (add one pos)) then one
        else if gtb neg zero && leb (nth j close nan) (mul (nth i close nan) (sub one neg)) then ofZ (-1)
        else rs_first_breakout close i pos neg js'
    end.

  (** labels.rs:718-775 breakout_labels *)
  Definition rs_breakout_labels (close : list T) (window : nat) (pos_th neg_th : nat -> T) (wait : nat) : list T :=
    map (fun i =>
      let start := i + wait in
      let end_ := Nat.min (i + window + wait) (List.length close) in
      if Nat.leb end_ start then zero
      else rs_first_breakout close i (abs (pos_th i)) (abs (neg_th i)) (range start end_)) (seq 0 (List.length close)).
End RustLabels.
