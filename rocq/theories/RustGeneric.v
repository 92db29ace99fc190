(** * Model of rust/src/generic.rs: filling, shifting, rolling, expanding and
    exponential statistics, ranges, drawdowns, crossovers, broadcast arrays

    A one-dimensional array is a list. A two-dimensional array in C order is the
    list of its cells row by row with the number of columns, as the functions
    named *_2d_c index it. Arrays of other layouts are processed column by column
    with the one-dimensional functions (generic.rs:340-396) and are not modelled
    again. usize is nat and i64 is Z: overflow is not modelled; a usize that is
    decremented is a Z here and proved not to become negative. Records are those
    of GenericNb.v. *)
From Coq Require Import ZArith Bool List String.
From Verif Require Import Base Num GenericNb.
Import ListNotations.
Open Scope string_scope.
Open Scope list_scope.

Section RustGeneric.
  Context {T : Type} {N : Num T}.

  (** generic.rs:155-160 validate_window *)
  Definition rs_validate_window {A} (minp window : nat) (name : string) (k : res A) : res A :=
    raise_if (Nat.ltb window minp) (ValueError ("minp must be <= " ++ name)) k.

  (** [for row in rows { for col in 0..ncols { ... states[col] ... src[row * ncols + col] ... } }]:
      one row of the output per turn of the outer loop; [step col row] is the inner loop's body *)
  Fixpoint row_loop {S B} (step : nat -> nat -> S -> T -> S * B) (src : list T) (ncols : nat) (rows : list nat) (states : list S) : list (list B) :=
    match rows with
    | [] => []
    | row :: rows' =>
        let rs := map (fun cs => step (fst cs) row (snd cs) (nth (row * ncols + fst cs) src nan)) (combine (seq 0 ncols) states) in
        map snd rs :: row_loop step src ncols rows' (map fst rs)
    end.

  (** ** Filling and shifting *)
  (** generic.rs:971-992 ffill_1d, ffill_1d_into; 948-969 bfill_1d, bfill_1d_into *)
  Definition rs_fill_step (_ : nat) (last v : T) : T * T := if isnan v then (last, last) else (v, v).
  Definition rs_ffill_1d (a : list T) : list T :=
    match a with [] => [] | a0 :: _ => scan rs_fill_step 0 a0 a end.
  Definition rs_bfill_1d (a : list T) : list T :=
    match a with [] => [] | _ => rev (scan rs_fill_step 0 (last a nan) (rev a)) end.
  (** generic.rs:488-510 ffill_2d_c, 512-534 bfill_2d_c *)
  Definition rs_ffill_2d_c (src : list T) (nrows ncols : nat) : list T :=
    List.concat (row_loop (fun _ => rs_fill_step) src ncols (seq 0 nrows) (repeat nan ncols)).
  Definition rs_bfill_2d_c (src : list T) (nrows ncols : nat) : list T :=
    List.concat (rev (row_loop (fun _ => rs_fill_step) src ncols (rev (seq 0 nrows)) (repeat nan ncols))).

  (** generic.rs:879-895 bshift_1d, 897-912 fshift_1d, 914-929 diff_1d, 931-946 pct_change_1d *)
  Definition rs_bshift_1d (a : list T) (n : nat) (fill_value : T) : list T :=
    map (fun i => if Nat.ltb (i + n) (List.length a) then nth (i + n) a nan else fill_value) (seq 0 (List.length a)).
  Definition rs_fshift_1d (a : list T) (n : nat) (fill_value : T) : list T :=
    repeat fill_value (Nat.min n (List.length a)) ++ map (fun i => nth (i - n) a nan) (seq n (List.length a - n)).
  Definition rs_diff_1d (a : list T) (n : nat) : list T :=
    repeat nan (Nat.min n (List.length a)) ++ map (fun i => sub (nth i a nan) (nth (i - n) a nan)) (seq n (List.length a - n)).
  Definition rs_pct_change_1d (a : list T) (n : nat) : list T :=
    repeat nan (Nat.min n (List.length a)) ++ map (fun i => sub (div (nth i a nan) (nth (i - n) a nan)) one) (seq n (List.length a - n)).
  (** generic.rs:408-428 bshift_2d_c, 430-450 fshift_2d_c: whole rows are copied *)
  Definition rs_bshift_2d_c (src : list T) (nrows ncols n : nat) (fill_value : T) : list T :=
    if Nat.eqb ncols 1 then rs_bshift_1d src n fill_value
    else List.concat (map (fun row => if Nat.ltb (row + n) nrows then slice ((row + n) * ncols) ((row + n) * ncols + ncols) src
                                      else repeat fill_value ncols) (seq 0 nrows)).
  Definition rs_fshift_2d_c (src : list T) (nrows ncols n : nat) (fill_value : T) : list T :=
    if Nat.eqb ncols 1 then rs_fshift_1d src n fill_value
    else List.concat (map (fun row => if Nat.ltb row n then repeat fill_value ncols
                                      else slice ((row - n) * ncols) ((row - n) * ncols + ncols) src) (seq 0 nrows)).
  (** generic.rs:452-468 diff_2d_c, 470-486 pct_change_2d_c *)
  Definition rs_rows_from (f : T -> T -> T) (src : list T) (nrows ncols n : nat) : list T :=
    List.concat (repeat (repeat nan ncols) (Nat.min n nrows) ++
      map (fun row => map (fun col => f (nth (row * ncols + col) src nan) (nth ((row - n) * ncols + col) src nan)) (seq 0 ncols)) (seq n (nrows - n))).
  Definition rs_diff_2d_c (src : list T) (nrows ncols n : nat) : list T :=
    if Nat.eqb ncols 1 then rs_diff_1d src n else rs_rows_from sub src nrows ncols n.
  Definition rs_pct_change_2d_c (src : list T) (nrows ncols n : nat) : list T :=
    if Nat.eqb ncols 1 then rs_pct_change_1d src n else rs_rows_from (fun x y => sub (div x y) one) src nrows ncols n.

  (** ** Rolling statistics *)
  (** generic.rs:1119-1140 rolling_min_1d, 1142-1163 rolling_max_1d, with the checks of 2450-2510 *)
  Definition rs_extreme (better : T -> T -> bool) (a : list T) (window minp i : nat) : T :=
    let start := if Nat.leb window (i + 1) then i + 1 - window else 0 in
    let '(minv, cnt) := fold_left (fun '(minv, cnt) x =>
        if isnan x then (minv, cnt) else (if isnan minv || better x minv then x else minv, cnt + 1))
      (slice start (i + 1) a) (nth i a nan, 0) in
    if Nat.leb minp cnt then minv else nan.
  Definition rs_rolling_extreme (better : T -> T -> bool) (a : list T) (window : nat) (minp : option nat) : res (list T) :=
    let m := match minp with None => window | Some m => m end in
    rs_validate_window m window "window" (Ok (map (rs_extreme better a window m) (seq 0 (List.length a)))).
  Definition rs_rolling_min (a : list T) (window : nat) (minp : option nat) : res (list T) := rs_rolling_extreme ltb a window minp.
  Definition rs_rolling_max (a : list T) (window : nat) (minp : option nat) : res (list T) := rs_rolling_extreme gtb a window minp.

  (** generic.rs:1165-1188, one turn of rolling_mean_1d; [old] is a[i - window]. State: sum, cnt. *)
  Definition rs_mean_step (old : nat -> T) (window minp : nat) (i : nat) (s : T * Z) (cur : T) : (T * Z) * T :=
    let '(sum, cnt) := s in
    let '(sum, cnt) := if negb (isnan cur) then (add sum cur, (cnt + 1)%Z) else (sum, cnt) in
    let '(sum, cnt) := if Nat.leb window i && negb (isnan (old i)) then (sub sum (old i), (cnt - 1)%Z) else (sum, cnt) in
    ((sum, cnt), if Z.leb (Z.of_nat minp) cnt && Z.ltb 0 cnt then div sum (ofZ cnt) else nan).
  Definition rs_rolling_mean_1d (a : list T) (window minp : nat) : list T :=
    scan (rs_mean_step (fun i => nth (i - window) a nan) window minp) 0 (zero, 0%Z) a.
  (** generic.rs:2505-2524 rolling_mean_1d_rs *)
  Definition rs_rolling_mean (a : list T) (window : nat) (minp : option nat) : res (list T) :=
    let m := match minp with None => window | Some m => m end in
    rs_validate_window m window "window" (Ok (rs_rolling_mean_1d a window m)).
  (** generic.rs:1216-1232 expanding_mean_1d *)
  Definition rs_exp_mean_step (minp : nat) (_ : nat) (s : T * nat) (cur : T) : (T * nat) * T :=
    let '(sum, cnt) := if negb (isnan cur) then (add (fst s) cur, snd s + 1) else s in
    ((sum, cnt), if Nat.leb minp cnt && Nat.ltb 0 cnt then div sum (ofZ (Z.of_nat cnt)) else nan).
  Definition rs_expanding_mean_1d (a : list T) (minp : nat) : list T := scan (rs_exp_mean_step minp) 0 (zero, 0) a.
  (** generic.rs:1234-1254 expanding_std_1d; [sqrt] is f64::sqrt *)
  Definition rs_exp_std_step (sqrt : T -> T) (minp ddof : nat) (_ : nat) (s : T * T * nat) (cur : T) : (T * T * nat) * T :=
    let '(sum, sum_sq, cnt) := s in
    let '(sum, sum_sq, cnt) := if negb (isnan cur) then (add sum cur, add sum_sq (mul cur cur), cnt + 1) else (sum, sum_sq, cnt) in
    ((sum, sum_sq, cnt),
     if Nat.leb minp cnt && Nat.ltb ddof cnt then
       let c := ofZ (Z.of_nat cnt) in
       let mean := div sum c in
       let variance := div (add (sub sum_sq (mul (mul two sum) mean)) (mul (mul c mean) mean)) (ofZ (Z.of_nat (cnt - ddof))) in
       sqrt (abs variance)
     else nan).
  Definition rs_expanding_std_1d (sqrt : T -> T) (a : list T) (minp ddof : nat) : list T := scan (rs_exp_std_step sqrt minp ddof) 0 (zero, zero, 0) a.

  (** generic.rs:707-769 RollingVarState: count, mean, m2, the two compensations and the flag *)
  Record VarState := mkVarState { rs_count : Z; rs_mean : T; rs_m2 : T; rs_comp_add : T; rs_comp_remove : T; rs_unstable : bool }.
  Definition var_default : VarState := mkVarState 0 zero zero zero zero false.
  (** generic.rs:718-733 add; [tol] is INV_COND_TOL *)
  Definition rs_add (tol : T) (s : VarState) (val : T) : VarState :=
    if isnan val then s
    else
      let prev_m2 := rs_m2 s in
      let count := (rs_count s + 1)%Z in
      let prev_mean := sub (rs_mean s) (rs_comp_add s) in
      let y := sub val (rs_comp_add s) in
      let delta := sub y (rs_mean s) in
      let comp := sub (add delta (rs_mean s)) y in
      let mean := add (rs_mean s) (div delta (ofZ count)) in
      let m2 := add prev_m2 (mul (sub val prev_mean) (sub val mean)) in
      mkVarState count mean m2 comp (rs_comp_remove s) (if gtb (mul prev_m2 tol) m2 then true else rs_unstable s).
  (** generic.rs:735-757 remove *)
  Definition rs_remove (tol : T) (s : VarState) (val : T) : VarState :=
    if isnan val then s
    else
      let prev_m2 := rs_m2 s in
      let count := (rs_count s - 1)%Z in
      if Z.ltb 0 count then
        let prev_mean := sub (rs_mean s) (rs_comp_remove s) in
        let y := sub val (rs_comp_remove s) in
        let delta := sub y (rs_mean s) in
        let comp := sub (add delta (rs_mean s)) y in
        let mean := sub (rs_mean s) (div delta (ofZ count)) in
        let m2 := sub prev_m2 (mul (sub val prev_mean) (sub val mean)) in
        mkVarState count mean m2 (rs_comp_add s) comp (if gtb (mul prev_m2 tol) m2 then true else rs_unstable s)
      else mkVarState count zero zero (rs_comp_add s) (rs_comp_remove s) false.
  (** generic.rs:763-769 std *)
  Definition rs_std (sqrt : T -> T) (s : VarState) (minp ddof : nat) : T :=
    if Z.leb (Z.of_nat minp) (rs_count s) && Z.ltb (Z.of_nat ddof) (rs_count s)
    then sqrt (div (rs_m2 s) (ofZ (rs_count s - Z.of_nat ddof))) else nan.
  (** generic.rs:1190-1214, one turn of rolling_std_1d; [at_ i] is a[i] *)
  Definition rs_std_step (sqrt : T -> T) (tol : T) (at_ : nat -> T) (window minp ddof : nat) (i : nat) (s : VarState) (_ : T) : VarState * T :=
    let requires_recompute := Nat.eqb i 0 || Nat.eqb window 0 in
    let s := if negb requires_recompute && Nat.leb window i then rs_remove tol s (at_ (i - window)) else s in
    let s := if negb requires_recompute then rs_add tol s (at_ i) else s in
    let s := if requires_recompute || rs_unstable s then
        let start := i + 1 - window in
        let s := fold_left (fun s j => rs_add tol s (at_ j)) (seq start (i + 1 - start)) var_default in
        mkVarState (rs_count s) (rs_mean s) (rs_m2 s) (rs_comp_add s) (rs_comp_remove s) false
      else s in
    (s, rs_std sqrt s minp ddof).
  Definition rs_rolling_std_1d (sqrt : T -> T) (tol : T) (a : list T) (window minp ddof : nat) : list T :=
    scan (rs_std_step sqrt tol (fun i => nth i a nan) window (Nat.max minp 1) ddof) 0 var_default a.
  (** generic.rs:2546-2562 rolling_std_1d_rs *)
  Definition rs_rolling_std (sqrt : T -> T) (tol : T) (a : list T) (window : nat) (minp : option nat) (ddof : nat) : res (list T) :=
    let m := match minp with None => window | Some m => m end in
    rs_validate_window m window "window" (Ok (rs_rolling_std_1d sqrt tol a window m ddof)).

  (** generic.rs:1508-1528 expanding_min_1d, 1530-1550 expanding_max_1d *)
  Definition rs_expanding_extreme (better : T -> T -> bool) (a : list T) (minp : nat) : list T :=
    match a with
    | [] => []
    | a0 :: _ =>
        scan (fun _ '(minv, cnt) x =>
          let minv := if isnan minv || better x minv then x else minv in
          let cnt := if negb (isnan x) then cnt + 1 else cnt in
          ((minv, cnt), if Nat.leb minp cnt then minv else nan)) 0 (a0, 0) a
    end.

  (** generic.rs:1270-1297, one turn of ewm_mean_1d. State: weighted_avg, nobs, old_wt. *)
  Definition rs_ewm_step (old_wt_factor new_wt : T) (adjust : bool) (minp : nat) (_ : nat) (s : T * nat * T) (cur : T) : (T * nat * T) * T :=
    let '(weighted_avg, nobs, old_wt) := s in
    let is_observation := negb (isnan cur) in
    let nobs := if is_observation then nobs + 1 else nobs in
    let '(weighted_avg, old_wt) :=
      if negb (isnan weighted_avg) then
        let old_wt := mul old_wt old_wt_factor in
        if is_observation then
          (if neb weighted_avg cur then div (add (mul old_wt weighted_avg) (mul new_wt cur)) (add old_wt new_wt) else weighted_avg,
           if adjust then add old_wt new_wt else one)
        else (weighted_avg, old_wt)
      else if is_observation then (cur, old_wt)
      else (weighted_avg, old_wt) in
    ((weighted_avg, nobs, old_wt), if Nat.leb minp nobs then weighted_avg else nan).
  (** generic.rs:1256-1298 ewm_mean_1d with the check of 2584-2598; 1300-1353 ewm_mean_2d_c *)
  Definition rs_ewm_weights (span : nat) (adjust : bool) : T * T :=
    let com := div (sub (ofZ (Z.of_nat span)) one) two in
    let alpha := div one (add one com) in
    (sub one alpha, if adjust then one else alpha).
  Definition rs_ewm_mean_1d (a : list T) (span minp : nat) (adjust : bool) : list T :=
    match a with
    | [] => []
    | a0 :: a' =>
        let '(old_wt_factor, new_wt) := rs_ewm_weights span adjust in
        let nobs := if negb (isnan a0) then 1 else 0 in
        (if Nat.leb minp nobs then a0 else nan) :: scan (rs_ewm_step old_wt_factor new_wt adjust minp) 1 (a0, nobs, one) a'
    end.
  Definition rs_ewm_mean (a : list T) (span minp : nat) (adjust : bool) : res (list T) :=
    rs_validate_window minp span "span" (Ok (rs_ewm_mean_1d a span minp adjust)).
  Definition rs_ewm_mean_2d_c (src : list T) (nrows ncols span minp : nat) (adjust : bool) : list T :=
    if Nat.eqb nrows 0 then []
    else
      let '(old_wt_factor, new_wt) := rs_ewm_weights span adjust in
      let first := map (fun v => let nobs := if negb (isnan v) then 1 else 0 in ((v, nobs, one), if Nat.leb minp nobs then v else nan)) (firstn ncols src) in
      List.concat (map snd first :: row_loop (fun _ => rs_ewm_step old_wt_factor new_wt adjust minp) src ncols (seq 1 (nrows - 1)) (map fst first)).

  (** generic.rs:677-705 rolling_mean_2d_c, 803-824 expanding_mean_2d_c, 826-852 expanding_std_2d_c,
      771-801 rolling_std_2d_c *)
  Definition rs_rolling_mean_2d_c (src : list T) (nrows ncols window minp : nat) : list T :=
    List.concat (row_loop (fun col => rs_mean_step (fun row => nth ((row - window) * ncols + col) src nan) window minp)
      src ncols (seq 0 nrows) (repeat (zero, 0%Z) ncols)).
  Definition rs_expanding_mean_2d_c (src : list T) (nrows ncols minp : nat) : list T :=
    List.concat (row_loop (fun _ => rs_exp_mean_step minp) src ncols (seq 0 nrows) (repeat (zero, 0) ncols)).
  Definition rs_expanding_std_2d_c (sqrt : T -> T) (src : list T) (nrows ncols minp ddof : nat) : list T :=
    List.concat (row_loop (fun _ => rs_exp_std_step sqrt minp ddof) src ncols (seq 0 nrows) (repeat (zero, zero, 0) ncols)).
  Definition rs_rolling_std_2d_c (sqrt : T -> T) (tol : T) (src : list T) (nrows ncols window minp ddof : nat) : list T :=
    List.concat (row_loop (fun col => rs_std_step sqrt tol (fun row => nth (row * ncols + col) src nan) window (Nat.max minp 1) ddof)
      src ncols (seq 0 nrows) (repeat var_default ncols)).

  (** ** Ranges, drawdowns, crossovers *)
  (** generic.rs:1738-1784, the loop for arrays in C order *)
  Definition rs_range_step (gap_value : T) (col : nat) (s : bool * Z * list RangeRec) (ix : nat * T) : bool * Z * list RangeRec :=
    let '(started, start_idx, out) := s in
    let '(i, cur_val) := ix in
    let is_gap := if isnan gap_value then isnan cur_val else eqb cur_val gap_value in
    if is_gap then
      if started then (false, start_idx, out ++ [mkRange (List.length out) col start_idx (Z.of_nat i) RangeClosed]) else s
    else if negb started then (true, Z.of_nat i, out)
    else s.
  Definition rs_ranges_col (gap_value : T) (out : list RangeRec) (col : nat) (ts : list T) : list RangeRec :=
    let '(started, start_idx, out) := fold_left (rs_range_step gap_value col) (enumerate ts) (false, (-1)%Z, out) in
    if started then out ++ [mkRange (List.length out) col start_idx (Z.of_nat (List.length ts - 1)) RangeOpen] else out.
  Definition rs_column (src : list T) (nrows ncols col : nat) : list T := map (fun i => nth (i * ncols + col) src nan) (seq 0 nrows).
  Definition rs_find_ranges (gap_value : T) (src : list T) (nrows ncols : nat) : list RangeRec :=
    fold_left (fun out col => rs_ranges_col gap_value out col (rs_column src nrows ncols col)) (seq 0 ncols) [].

  (** generic.rs:1924-1995 get_drawdowns, the loop for arrays in C order *)
  Definition rs_dd_step (n col : nat) (s : DDState T) (ix : nat * T) : DDState T :=
    let '(i, cur_val) := ix in
    let zi := Z.of_nat i in
    if isnan cur_val then s
    else
      let s :=
        if isnan (ds_peak_val s) || geb cur_val (ds_peak_val s) then
          if negb (ds_started s) then mkDDS false zi (ds_valley_idx s) cur_val (ds_valley_val s) (ds_recs s)
          else mkDDS false zi zi cur_val cur_val
                 (ds_recs s ++ [mkDD (List.length (ds_recs s)) col (ds_peak_idx s) (ds_peak_idx s + 1) (ds_valley_idx s) zi
                                  (ds_peak_val s) (ds_valley_val s) cur_val Recovered])
        else if negb (ds_started s) then mkDDS true (ds_peak_idx s) zi (ds_peak_val s) cur_val (ds_recs s)
        else if ltb cur_val (ds_valley_val s) then mkDDS true (ds_peak_idx s) zi (ds_peak_val s) cur_val (ds_recs s)
        else s in
      if Nat.eqb i (n - 1) && ds_started s then
        mkDDS (ds_started s) (ds_peak_idx s) (ds_valley_idx s) (ds_peak_val s) (ds_valley_val s)
          (ds_recs s ++ [mkDD (List.length (ds_recs s)) col (ds_peak_idx s) (ds_peak_idx s + 1) (ds_valley_idx s) zi
                           (ds_peak_val s) (ds_valley_val s) cur_val Active])
      else s.
  Definition rs_dd_col (out : list (DrawdownRec T)) (col : nat) (ts : list T) : list (DrawdownRec T) :=
    ds_recs (fold_left (rs_dd_step (List.length ts) col) (enumerate ts) (mkDDS false (-1) (-1) (nth 0 ts nan) (nth 0 ts nan) out)).
  Definition rs_get_drawdowns (src : list T) (nrows ncols : nat) : list (DrawdownRec T) :=
    if Nat.eqb nrows 0 then []
    else fold_left (fun out col => rs_dd_col out col (rs_column src nrows ncols col)) (seq 0 ncols) [].

  (** generic.rs:2055-2076 crossed_above_1d and, per column, 3113-3151 crossed_above_rs, which
      tests [<] where the former tests [==] *)
  Definition rs_crossed_step (wait : nat) (_ : nat) (s : bool * Z) (x : T * T) : (bool * Z) * bool :=
    let '(was_below, crossed_ago) := s in
    let '(x1, x2) := x in
    if isnan x1 || isnan x2 then ((false, (-1)%Z), false)
    else if gtb x1 x2 then
      if was_below then ((was_below, (crossed_ago + 1)%Z), Z.eqb (crossed_ago + 1) (Z.of_nat wait)) else (s, false)
    else if eqb x1 x2 then ((was_below, (-1)%Z), false)
    else ((true, (-1)%Z), false).
  Definition rs_crossed_above_1d (arr1 arr2 : list T) (wait : nat) : list bool := scan (rs_crossed_step wait) 0 (false, (-1)%Z) (combine arr1 arr2).
  Definition rs_crossed_step_2d (wait : nat) (_ : nat) (s : bool * Z) (x : T * T) : (bool * Z) * bool :=
    let '(was_below, crossed_ago) := s in
    let '(x1, x2) := x in
    if isnan x1 || isnan x2 then ((false, (-1)%Z), false)
    else if gtb x1 x2 then
      if was_below then ((was_below, (crossed_ago + 1)%Z), Z.eqb (crossed_ago + 1) (Z.of_nat wait)) else (s, false)
    else if ltb x1 x2 then ((true, (-1)%Z), false)
    else ((was_below, (-1)%Z), false).
  Definition rs_crossed_above_col (arr1 arr2 : list T) (wait : nat) : list bool := scan (rs_crossed_step_2d wait) 0 (false, (-1)%Z) (combine arr1 arr2).

  (** ** Positions of extremes *)
  (** generic.rs:1631-1651 argmin_reduce_1d, 1653-1673 argmax_reduce_1d *)
  Fixpoint rs_first_number (i : nat) (a : list T) : option (nat * T) :=
    match a with [] => None | v :: a' => if isnan v then rs_first_number (Datatypes.S i) a' else Some (i, v) end.
  Definition rs_arg_reduce (better : T -> T -> bool) (a : list T) : res nat :=
    match rs_first_number 0 a with
    | None => Err (ValueError "All-NaN slice encountered")
    | Some (best_idx, best_val) =>
        Ok (fst (fold_left (fun '(bi, bv) '(i, v) => if better v bv then (i, v) else (bi, bv))
                   (skipn (best_idx + 1) (enumerate a)) (best_idx, best_val)))
    end.
  Definition rs_argmin_reduce (a : list T) : res nat := rs_arg_reduce ltb a.
  Definition rs_argmax_reduce (a : list T) : res nat := rs_arg_reduce gtb a.
End RustGeneric.
Arguments VarState T : clear implicits.
