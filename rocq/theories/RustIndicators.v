(** * Model of rust/src/indicators.rs and of the exponential deviation of rust/src/generic.rs

    An array of several columns is a list stored row by row where the code has
    a loop of its own for that layout; everywhere else the code goes column by
    column and the model takes one column. Two-dimensional caches become
    one-dimensional the same way. The dictionary type and [getitem] are those
    of IndicatorsNb.v: both engines use a Python or Numba dictionary keyed by
    a hash of the parameters, and the hash function is a parameter here. *)
From Coq Require Import String ZArith Bool List Arith.
From Verif Require Import Base Num GenericNb IndicatorsNb RustGeneric.
Import ListNotations.
Local Open Scope string_scope.
Local Open Scope list_scope.
Local Open Scope nat_scope.

(** indicators.rs:20-25 validate_param_lengths *)
Definition rs_validate_param_lengths {A} (names : string) (expected actual : nat) (k : res A) : res A :=
  raise_if (negb (Nat.eqb expected actual)) (ValueError (names ++ " must have the same length")) k.

(** indicators.rs:59-66 (and 79-86, 244-259, 308-320, 557-563): every new
    combination is computed and stored under its hash. *)
Definition rs_fill_cache {K V} (hash : K -> Z) (f : K -> V) (ks : list K) : Dict V :=
  fold_left (fun d k => match lookup (hash k) d with Some _ => d | None => (hash k, f k) :: d end) ks [].

Section Indicators.
  Context {T : Type} {N : Num T}.
  Variables (sqrt : T -> T) (tol : T).

  (** ** Exponential deviation *)
  (** generic.rs:1379-1419, one turn of ewm_std_1d. The series is both x and y, so mean_x and mean_y are always equal: one is kept. *)
  Definition rs_ewm_std_step (old_wt_factor new_wt : T) (adjust : bool) (minp : nat) (_ : nat) (s : @Ewm T) (cur : T) : @Ewm T * T :=
    let is_observation := negb (isnan cur) in
    let nobs := if is_observation then e_nobs s + 1 else e_nobs s in
    let s :=
      if negb (isnan (e_mean s)) then
        let sum_wt := mul (e_sum_wt s) old_wt_factor in
        let sum_wt2 := mul (e_sum_wt2 s) (mul old_wt_factor old_wt_factor) in
        let old_wt := mul (e_old_wt s) old_wt_factor in
        if is_observation then
          let old_mean := e_mean s in
          let mean := if neb old_mean cur then div (add (mul old_wt old_mean) (mul new_wt cur)) (add old_wt new_wt) else old_mean in
          let cov := div (add (mul old_wt (add (e_cov s) (mul (sub old_mean mean) (sub old_mean mean))))
                              (mul new_wt (mul (sub cur mean) (sub cur mean)))) (add old_wt new_wt) in
          let sum_wt := add sum_wt new_wt in
          let sum_wt2 := add sum_wt2 (mul new_wt new_wt) in
          let old_wt := add old_wt new_wt in
          if negb adjust then mkEwm mean nobs cov (div sum_wt old_wt) (div sum_wt2 (mul old_wt old_wt)) one
          else mkEwm mean nobs cov sum_wt sum_wt2 old_wt
        else mkEwm (e_mean s) nobs (e_cov s) sum_wt sum_wt2 old_wt
      else mkEwm (if is_observation then cur else e_mean s) nobs (e_cov s) (e_sum_wt s) (e_sum_wt2 s) (e_old_wt s) in
    (s,
     if Nat.leb minp (e_nobs s) then
       let numerator := mul (e_sum_wt s) (e_sum_wt s) in
       let denominator := sub numerator (e_sum_wt2 s) in
       if gtb denominator zero then sqrt (mul (div numerator denominator) (e_cov s)) else nan
     else nan).
  (** generic.rs:1365-1378: the state after the first row *)
  Definition rs_ewm_std_first (v : T) : @Ewm T := mkEwm (if negb (isnan v) then v else nan) (if negb (isnan v) then 1 else 0) zero one one one.
  (** generic.rs:1355-1422 ewm_std_1d *)
  Definition rs_ewm_std_1d (a : list T) (span minp : nat) (adjust : bool) (_ddof : nat) : list T :=
    match a with
    | [] => []
    | a0 :: a' =>
        let '(old_wt_factor, new_wt) := rs_ewm_weights span adjust in
        nan :: scan (rs_ewm_std_step old_wt_factor new_wt adjust minp) 1 (rs_ewm_std_first a0) a'
    end.
  (** generic.rs:1424-1506 ewm_std_2d_c *)
  Definition rs_ewm_std_2d_c (src : list T) (nrows ncols span minp : nat) (adjust : bool) (_ddof : nat) : list T :=
    if Nat.eqb nrows 0 then []
    else
      let '(old_wt_factor, new_wt) := rs_ewm_weights span adjust in
      List.concat (repeat nan ncols ::
        row_loop (fun _ => rs_ewm_std_step old_wt_factor new_wt adjust minp) src ncols (seq 1 (nrows - 1)) (map rs_ewm_std_first (firstn ncols src))).

  (** ** Moving average and deviation *)
  (** indicators.rs:27-35 ma_2d on one column: no check of the window *)
  Definition rs_ma (a : list T) (window : nat) (ewm adjust : bool) : list T :=
    if ewm then rs_ewm_mean_1d a window window adjust else rs_rolling_mean_1d a window window.
  (** indicators.rs:37-45 mstd_2d on one column *)
  Definition rs_mstd (a : list T) (window : nat) (ewm adjust : bool) (ddof : nat) : list T :=
    if ewm then rs_ewm_std_1d a window window adjust ddof else rs_rolling_std_1d sqrt tol a window window ddof.

  Variable hash2 : nat * bool -> Z.   (* tuple_hash, indicators.rs:15-18 *)

  (** indicators.rs:51-68 build_ma_cache, 119-128 ma_cache_rs, 130-141 ma_apply_rs *)
  Definition rs_build_ma_cache (close : list T) (windows : list nat) (ewms : list bool) (adjust : bool) : res (Dict (list T)) :=
    rs_validate_param_lengths "windows and ewms" (List.length windows) (List.length ewms) (
    Ok (rs_fill_cache hash2 (fun k => rs_ma close (fst k) (snd k) adjust) (combine windows ewms))).
  Definition rs_ma_apply (window : nat) (ewm : bool) (cache_dict : Dict (list T)) : res (list T) := getitem cache_dict (hash2 (window, ewm)).

  (** indicators.rs:70-88 build_mstd_cache, 143-153 mstd_cache_rs, 155-167 mstd_apply_rs *)
  Definition rs_build_mstd_cache (close : list T) (windows : list nat) (ewms : list bool) (adjust : bool) (ddof : nat) : res (Dict (list T)) :=
    rs_validate_param_lengths "windows and ewms" (List.length windows) (List.length ewms) (
    Ok (rs_fill_cache hash2 (fun k => rs_mstd close (fst k) (snd k) adjust ddof) (combine windows ewms))).
  Definition rs_mstd_apply (window : nat) (ewm : bool) (cache_dict : Dict (list T)) : res (list T) := getitem cache_dict (hash2 (window, ewm)).

  (** Zip over arrays of one shape *)
  Definition zip3 {A B C D} (f : A -> B -> C -> D) (a : list A) (b : list B) (c : list C) : list D :=
    map (fun x => f (fst (fst x)) (snd (fst x)) (snd x)) (combine (combine a b) c).

  (** ** Bollinger bands: indicators.rs:169-184 bb_cache_rs, 186-227 bb_apply_rs *)
  Definition rs_bb_cache (close : list T) (windows : list nat) (ewms : list bool) (adjust : bool) (ddof : nat) : res (Dict (list T) * Dict (list T)) :=
    let! ma_cache_dict := rs_build_ma_cache close windows ewms adjust in
    let! mstd_cache_dict := rs_build_mstd_cache close windows ewms adjust ddof in
    Ok (ma_cache_dict, mstd_cache_dict).
  Definition rs_bb_apply (window : nat) (ewm : bool) (alpha : T) (caches : Dict (list T) * Dict (list T)) : res (list T * list T * list T) :=
    let! ma := getitem (fst caches) (hash2 (window, ewm)) in
    let! mstd := getitem (snd caches) (hash2 (window, ewm)) in
    Ok (map fst (combine ma mstd),
        map (fun x => add (fst x) (mul alpha (snd x))) (combine ma mstd),
        map (fun x => sub (fst x) (mul alpha (snd x))) (combine ma mstd)).

  (** ** Relative strength index: indicators.rs:229-261 rsi_cache_rs, 263-288 rsi_apply_rs; indicators.rs:47-49 diff_2d *)
  Definition rs_up (close : list T) : list T := map (fun v => if ltb v zero then zero else v) (rs_diff_1d close 1).
  Definition rs_down (close : list T) : list T := map (fun v => if gtb v zero then zero else abs v) (rs_diff_1d close 1).
  Definition rs_rsi_cache (close : list T) (windows : list nat) (ewms : list bool) (adjust : bool) : res (Dict (list T * list T)) :=
    rs_validate_param_lengths "windows and ewms" (List.length windows) (List.length ewms) (
    Ok (rs_fill_cache hash2 (fun k => (rs_ma (rs_up close) (fst k) (snd k) adjust, rs_ma (rs_down close) (fst k) (snd k) adjust)) (combine windows ewms))).
  Definition rs_rsi_apply (window : nat) (ewm : bool) (cache_dict : Dict (list T * list T)) : res (list T) :=
    let! (roll_up, roll_down) := getitem cache_dict (hash2 (window, ewm)) in
    Ok (map (fun x => let rs := div (fst x) (snd x) in sub (ofZ 100) (div (ofZ 100) (add one rs))) (combine roll_up roll_down)).

  (** ** Stochastic oscillator: indicators.rs:290-322 stoch_cache_rs (the key is the window itself), 324-361 stoch_apply_rs *)
  Definition rs_stoch_cache (high low : list T) (k_windows : list nat) : res (Dict (list T * list T)) :=
    raise_if (negb (Nat.eqb (List.length high) (List.length low))) (ValueError "high and low must have the same shape") (
    Ok (rs_fill_cache Z.of_nat (fun k => (map (rs_extreme ltb low k k) (seq 0 (List.length low)), map (rs_extreme gtb high k k) (seq 0 (List.length high)))) k_windows)).
  Definition rs_stoch_apply (close : list T) (k_window d_window : nat) (d_ewm adjust : bool) (cache_dict : Dict (list T * list T)) : res (list T * list T) :=
    let! (roll_min, roll_max) := getitem cache_dict (Z.of_nat k_window) in
    raise_if (negb (Nat.eqb (List.length close) (List.length roll_min))) (ValueError "close and cached arrays must have the same shape") (
    let percent_k := zip3 (fun c mn mx => div (mul (ofZ 100) (sub c mn)) (sub mx mn)) close roll_min roll_max in
    Ok (percent_k, rs_ma percent_k d_window d_ewm adjust)).

  (** ** Moving average convergence divergence: indicators.rs:363-381 macd_cache_rs, 383-415 macd_apply_rs *)
  Definition rs_macd_cache (close : list T) (fast_windows slow_windows : list nat) (macd_ewms : list bool) (adjust : bool) : res (Dict (list T)) :=
    rs_validate_param_lengths "fast_windows and macd_ewms" (List.length fast_windows) (List.length macd_ewms) (
    rs_validate_param_lengths "slow_windows and macd_ewms" (List.length slow_windows) (List.length macd_ewms) (
    rs_build_ma_cache close (fast_windows ++ slow_windows) (macd_ewms ++ macd_ewms) adjust)).
  Definition rs_macd_apply (fast_window slow_window signal_window : nat) (macd_ewm signal_ewm adjust : bool) (cache_dict : Dict (list T))
    : res (list T * list T) :=
    let! fast_ma := getitem cache_dict (hash2 (fast_window, macd_ewm)) in
    let! slow_ma := getitem cache_dict (hash2 (slow_window, macd_ewm)) in
    let macd_ts := map (fun x => sub (fst x) (snd x)) (combine fast_ma slow_ma) in
    Ok (macd_ts, rs_ma macd_ts signal_window signal_ewm adjust).

  (** ** True range *)
  (** indicators.rs:417-426 max3_numba *)
  Definition max3_numba (a b c : T) : T :=
    let out := a in
    let out := if gtb b out then b else out in
    if gtb c out then c else out.
  (** indicators.rs:428-447 true_range_1d, true_range_1d_into *)
  Definition rs_true_range_1d (high low close : list T) : list T :=
    map (fun i =>
      if Nat.eqb i 0 then sub (nth 0 high nan) (nth 0 low nan)
      else max3_numba (sub (nth i high nan) (nth i low nan)) (abs (sub (nth i high nan) (nth (i - 1) close nan)))
             (abs (sub (nth i low nan) (nth (i - 1) close nan)))) (seq 0 (List.length high)).
  (** indicators.rs:449-500 true_range_2d, row by row *)
  Definition rs_true_range_2d_c (high low close : list T) (nrows ncols : nat) : list T :=
    List.concat (map (fun row => map (fun col =>
      let idx := row * ncols + col in
      if Nat.eqb row 0 then sub (nth col high nan) (nth col low nan)
      else
        let prev_idx := (row - 1) * ncols + col in
        max3_numba (sub (nth idx high nan) (nth idx low nan)) (abs (sub (nth idx high nan) (nth prev_idx close nan)))
          (abs (sub (nth idx low nan) (nth prev_idx close nan)))) (seq 0 ncols)) (seq 0 nrows)).
  (** indicators.rs:502-537 true_range_1d_rs, true_range_rs *)
  Definition rs_true_range (high low close : list T) : res (list T) :=
    raise_if (negb (Nat.eqb (List.length high) (List.length low)) || negb (Nat.eqb (List.length high) (List.length close)))
      (ValueError "high, low, and close must have the same length") (Ok (rs_true_range_1d high low close)).

  (** indicators.rs:539-566 atr_cache_rs, 568-582 atr_apply_rs *)
  Definition rs_atr_cache (high low close : list T) (windows : list nat) (ewms : list bool) (adjust : bool) : res (list T * Dict (list T)) :=
    rs_validate_param_lengths "windows and ewms" (List.length windows) (List.length ewms) (
    raise_if (negb (Nat.eqb (List.length high) (List.length low)) || negb (Nat.eqb (List.length high) (List.length close)))
      (ValueError "high, low, and close must have the same shape") (
    let tr := rs_true_range_1d high low close in
    Ok (tr, rs_fill_cache hash2 (fun k => rs_ma tr (fst k) (snd k) adjust) (combine windows ewms)))).
  Definition rs_atr_apply (window : nat) (ewm : bool) (caches : list T * Dict (list T)) : res (list T * list T) :=
    let! atr := getitem (snd caches) (hash2 (window, ewm)) in Ok (fst caches, atr).

  (** ** On-balance volume *)
  (** generic.rs:994-1002 nancumsum_1d_into *)
  Definition rs_nancumsum_step (_ : nat) (s x : T) : T * T := let s := if negb (isnan x) then add s x else s in (s, s).
  (** indicators.rs:584-598 obv_custom_1d_into *)
  Definition rs_obv_1d (close volume : list T) : list T :=
    scan rs_nancumsum_step 0 zero
      (map (fun i => if Nat.ltb 0 i && ltb (nth i close nan) (nth (i - 1) close nan) then neg (nth i volume nan) else nth i volume nan)
         (seq 0 (List.length close))).
  (** indicators.rs:613-636, row by row *)
  Definition rs_obv_2d_c (close volume : list T) (nrows ncols : nat) : list T :=
    List.concat (row_loop (fun col row sum v =>
      let idx := row * ncols + col in
      let v := if Nat.ltb 0 row && ltb (nth idx close nan) (nth ((row - 1) * ncols + col) close nan) then neg v else v in
      let sum := if negb (isnan v) then add sum v else sum in
      (sum, sum)) volume ncols (seq 0 nrows) (repeat zero ncols)).
  (** indicators.rs:600-655 obv_custom_rs on one column *)
  Definition rs_obv_custom (close volume : list T) : res (list T) :=
    raise_if (negb (Nat.eqb (List.length close) (List.length volume))) (ValueError "close and volume_ts must have the same shape") (
    Ok (rs_obv_1d close volume)).
End Indicators.
