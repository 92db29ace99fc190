(** * Model of indicators/nb.py and of the generic functions it uses

    One column at a time: every function here acts column by column. The
    caches are dictionaries from the hash of the parameters to a result; the
    hash function is a parameter. *)
From Coq Require Import String ZArith Bool List Arith.
From Verif Require Import Base Num GenericNb.
Import ListNotations.
Local Open Scope string_scope.
Local Open Scope list_scope.
Local Open Scope nat_scope.

(** ** Dictionaries keyed by hash *)
Section Cache.
  Context {K V : Type} (hash : K -> Z).

  Definition Dict := list (Z * V).

  Fixpoint lookup (h : Z) (d : Dict) : option V :=
    match d with [] => None | (h', v) :: d' => if Z.eqb h h' then Some v else lookup h d' end.

  (** cache_dict[h] *)
  Definition getitem (d : Dict) (h : Z) : res V :=
    match lookup h d with Some v => Ok v | None => Err (KeyError "cache") end.

  (** indicators/nb.py:47-52 (and 77-82, 148-155, 184-191, 280-285): compute every new combination *)
  Definition fill_cache (f : K -> res V) (ks : list K) : res Dict :=
    foldM (fun d k => match lookup (hash k) d with
                      | Some _ => Ok d
                      | None => let! v := f k in Ok ((hash k, v) :: d)
                      end) [] ks.
End Cache.
Arguments Dict : clear implicits.

Section Indicators.
  Context {T : Type} {N : Num T}.
  Variables (sqrt : T -> T) (tol : T).

  (** ** generic/nb.py *)
  (** generic/nb.py:111-113 set_by_mask_1d_nb, with the mask given by a predicate *)
  Definition set_where (p : T -> bool) (v : T) (a : list T) : list T := map (fun x => if p x then v else x) a.

  (** generic/nb.py:517-519 nancumsum_nb on one column: NaN counts as zero *)
  Definition nancumsum (a : list T) : list T :=
    scan (fun _ s x => let s' := add s (if isnan x then zero else x) in (s', s')) 0 zero a.

  (** generic/nb.py:944-957: the state of ewm_std_1d_nb. The series is passed
      as both x and y, so mean_x and mean_y are always equal: one is kept. *)
  Record Ewm := mkEwm { e_mean : T; e_nobs : nat; e_cov : T; e_sum_wt : T; e_sum_wt2 : T; e_old_wt : T }.

  (** generic/nb.py:960-993, one bar of ewm_std_1d_nb *)
  Definition ewm_std_step (old_wt_factor new_wt : T) (adjust : bool) (minp : nat) (_ : nat) (s : Ewm) (cur : T) : res (Ewm * T) :=
    let is_observation := eqb cur cur in
    let nobs := if is_observation then Datatypes.S (e_nobs s) else e_nobs s in
    let! s :=
      (if eqb (e_mean s) (e_mean s) then
        let sum_wt := mul (e_sum_wt s) old_wt_factor in
        let sum_wt2 := mul (e_sum_wt2 s) (mul old_wt_factor old_wt_factor) in
        let old_wt := mul (e_old_wt s) old_wt_factor in
        if is_observation then
          let old_mean := e_mean s in
          let! mean := (if neb old_mean cur then
                          sdiv (add (mul old_wt old_mean) (mul new_wt cur)) (add old_wt new_wt)
                        else Ok old_mean) in
          let! cov := sdiv (add (mul old_wt (add (e_cov s) (mul (sub old_mean mean) (sub old_mean mean))))
                                (mul new_wt (mul (sub cur mean) (sub cur mean)))) (add old_wt new_wt) in
          let sum_wt := add sum_wt new_wt in
          let sum_wt2 := add sum_wt2 (mul new_wt new_wt) in
          let old_wt := add old_wt new_wt in
          if adjust then Ok (mkEwm mean nobs cov sum_wt sum_wt2 old_wt)
          else
            let! sum_wt := sdiv sum_wt old_wt in
            let! sum_wt2 := sdiv sum_wt2 (mul old_wt old_wt) in
            Ok (mkEwm mean nobs cov sum_wt sum_wt2 one)
        else Ok (mkEwm (e_mean s) nobs (e_cov s) sum_wt sum_wt2 old_wt)
      else if is_observation then Ok (mkEwm cur nobs (e_cov s) (e_sum_wt s) (e_sum_wt2 s) (e_old_wt s))
      else Ok (mkEwm (e_mean s) nobs (e_cov s) (e_sum_wt s) (e_sum_wt2 s) (e_old_wt s))) in
    let! out :=
      (if Nat.leb minp (e_nobs s) then
        let numerator := mul (e_sum_wt s) (e_sum_wt s) in
        let denominator := sub numerator (e_sum_wt2 s) in
        if gtb denominator zero then
          let! r := sdiv numerator denominator in Ok (mul r (e_cov s))
        else Ok nan
      else Ok nan) in
    Ok (s, out).

  (** generic/nb.py:927-1002 ewm_std_1d_nb; [ddof] is accepted and never used. *)
  Definition ewm_std_1d_nb (a : list T) (span : nat) (minp : option nat) (adjust : bool) (ddof : Z) : res (list T) :=
    let m := match minp with None => span | Some m => m end in
    raise_if (Nat.ltb span m) (ValueError "minp must be <= span") (
    match a with
    | [] => Ok []
    | a0 :: a' =>
        let com := div (ofZ (Z.of_nat span - 1)) two in
        let! alpha := sdiv one (add one com) in
        let old_wt_factor := sub one alpha in
        let new_wt := if adjust then one else alpha in
        let s0 := mkEwm (if eqb a0 a0 then a0 else nan) (if eqb a0 a0 then 1 else 0) zero one one one in
        let! r := scanM (ewm_std_step old_wt_factor new_wt adjust m) 1 s0 a' in
        Ok (map sqrt (nan :: r))
    end).

  (** ** Moving average and deviation *)
  (** indicators/nb.py:24-28 ma_nb *)
  Definition ma_nb (a : list T) (window : nat) (ewm adjust : bool) : res (list T) :=
    if ewm then ewm_mean_1d_nb a window (Some window) adjust else rolling_mean_1d_nb a window (Some window).

  (** indicators/nb.py:32-36 mstd_nb *)
  Definition mstd_nb (a : list T) (window : nat) (ewm adjust : bool) (ddof : Z) : res (list T) :=
    if ewm then ewm_std_1d_nb a window (Some window) adjust ddof
    else rolling_std_1d_nb sqrt tol a window (Some window) ddof.

  Variable hash2 : nat * bool -> Z.   (* hash((window, ewm)) *)
  Variable hash1 : nat -> Z.          (* hash(window) *)

  (** indicators/nb.py:40-52 ma_cache_nb, 56-65 ma_apply_nb *)
  Definition ma_cache_nb (close : list T) (windows : list nat) (ewms : list bool) (adjust : bool) : res (Dict (list T)) :=
    fill_cache hash2 (fun k => ma_nb close (fst k) (snd k) adjust) (combine windows ewms).
  Definition ma_apply_nb (window : nat) (ewm : bool) (cache_dict : Dict (list T)) : res (list T) :=
    getitem cache_dict (hash2 (window, ewm)).

  (** indicators/nb.py:69-82 mstd_cache_nb, 86-96 mstd_apply_nb *)
  Definition mstd_cache_nb (close : list T) (windows : list nat) (ewms : list bool) (adjust : bool) (ddof : Z) : res (Dict (list T)) :=
    fill_cache hash2 (fun k => mstd_nb close (fst k) (snd k) adjust ddof) (combine windows ewms).
  Definition mstd_apply_nb (window : nat) (ewm : bool) (cache_dict : Dict (list T)) : res (list T) :=
    getitem cache_dict (hash2 (window, ewm)).

  Definition zip_with (f : T -> T -> T) (a b : list T) : list T := map (fun x => f (fst x) (snd x)) (combine a b).

  (** indicators/nb.py:100-111 bb_cache_nb, 115-131 bb_apply_nb: middle, upper, lower *)
  Definition bb_cache_nb (close : list T) (windows : list nat) (ewms : list bool) (adjust : bool) (ddof : Z)
    : res (Dict (list T) * Dict (list T)) :=
    let! ma_cache_dict := ma_cache_nb close windows ewms adjust in
    let! mstd_cache_dict := mstd_cache_nb close windows ewms adjust ddof in
    Ok (ma_cache_dict, mstd_cache_dict).
  Definition bands (alpha : T) (ma mstd : list T) : list T * list T * list T :=
    (ma, zip_with add ma (map (mul alpha) mstd), zip_with sub ma (map (mul alpha) mstd)).
  Definition bb_apply_nb (window : nat) (ewm : bool) (alpha : T) (caches : Dict (list T) * Dict (list T))
    : res (list T * list T * list T) :=
    let! ma := getitem (fst caches) (hash2 (window, ewm)) in
    let! mstd := getitem (snd caches) (hash2 (window, ewm)) in
    Ok (bands alpha ma mstd).

  (** ** Relative strength index *)
  (** indicators/nb.py:142-145: gains and losses from bar to bar *)
  Definition gains (close : list T) : list T := set_where (fun x => ltb x zero) zero (diff_1d_nb close 1).
  Definition losses (close : list T) : list T := map abs (set_where (fun x => gtb x zero) zero (diff_1d_nb close 1)).

  (** indicators/nb.py:135-155 rsi_cache_nb *)
  Definition rsi_cache_nb (close : list T) (windows : list nat) (ewms : list bool) (adjust : bool) : res (Dict (list T * list T)) :=
    fill_cache hash2 (fun k => let! roll_up := ma_nb (gains close) (fst k) (snd k) adjust in
                               let! roll_down := ma_nb (losses close) (fst k) (snd k) adjust in
                               Ok (roll_up, roll_down)) (combine windows ewms).
  (** indicators/nb.py:169-170 *)
  Definition rsi_of (roll_up roll_down : list T) : list T :=
    map (fun rs => sub (ofZ 100) (div (ofZ 100) (add one rs))) (zip_with div roll_up roll_down).
  (** indicators/nb.py:159-170 rsi_apply_nb *)
  Definition rsi_apply_nb (window : nat) (ewm : bool) (cache_dict : Dict (list T * list T)) : res (list T) :=
    let! (roll_up, roll_down) := getitem cache_dict (hash2 (window, ewm)) in
    Ok (rsi_of roll_up roll_down).

  (** ** Stochastic oscillator *)
  (** indicators/nb.py:174-191 stoch_cache_nb *)
  Definition stoch_cache_nb (high low : list T) (k_windows : list nat) : res (Dict (list T * list T)) :=
    fill_cache hash1 (fun k => let! roll_min := rolling_min_1d_nb low k None in
                               let! roll_max := rolling_max_1d_nb high k None in
                               Ok (roll_min, roll_max)) k_windows.
  (** indicators/nb.py:208 *)
  Definition percent_k (close roll_min roll_max : list T) : list T :=
    zip_with div (map (mul (ofZ 100)) (zip_with sub close roll_min)) (zip_with sub roll_max roll_min).
  (** indicators/nb.py:195-210 stoch_apply_nb *)
  Definition stoch_apply_nb (close : list T) (k_window d_window : nat) (d_ewm adjust : bool) (cache_dict : Dict (list T * list T))
    : res (list T * list T) :=
    let! (roll_min, roll_max) := getitem cache_dict (hash1 k_window) in
    let k := percent_k close roll_min roll_max in
    let! d := ma_nb k d_window d_ewm adjust in
    Ok (k, d).

  (** ** Moving average convergence divergence *)
  (** indicators/nb.py:214-228 macd_cache_nb *)
  Definition macd_cache_nb (close : list T) (fast_windows slow_windows : list nat) (macd_ewms : list bool) (adjust : bool)
    : res (Dict (list T)) :=
    ma_cache_nb close (fast_windows ++ slow_windows) (macd_ewms ++ macd_ewms) adjust.
  (** indicators/nb.py:232-249 macd_apply_nb *)
  Definition macd_apply_nb (fast_window slow_window signal_window : nat) (macd_ewm signal_ewm adjust : bool) (cache_dict : Dict (list T))
    : res (list T * list T) :=
    let! fast_ma := getitem cache_dict (hash2 (fast_window, macd_ewm)) in
    let! slow_ma := getitem cache_dict (hash2 (slow_window, macd_ewm)) in
    let macd_ts := zip_with sub fast_ma slow_ma in
    let! signal_ts := ma_nb macd_ts signal_window signal_ewm adjust in
    Ok (macd_ts, signal_ts).

  (** ** True range *)
  (** indicators/nb.py:253-265 true_range_nb *)
  Definition true_range_nb (high low close : list T) : list T :=
    map (fun i =>
      let tr1 := sub (nth i high nan) (nth i low nan) in
      if Nat.eqb i 0 then tr1
      else
        let tr2 := abs (sub (nth i high nan) (nth (i - 1) close nan)) in
        let tr3 := abs (sub (nth i low nan) (nth (i - 1) close nan)) in
        max2 (max2 tr1 tr2) tr3) (seq 0 (List.length high)).

  (** indicators/nb.py:269-285 atr_cache_nb, 289-301 atr_apply_nb *)
  Definition atr_cache_nb (high low close : list T) (windows : list nat) (ewms : list bool) (adjust : bool) : res (list T * Dict (list T)) :=
    let tr := true_range_nb high low close in
    let! d := fill_cache hash2 (fun k => ma_nb tr (fst k) (snd k) adjust) (combine windows ewms) in
    Ok (tr, d).
  Definition atr_apply_nb (window : nat) (ewm : bool) (caches : list T * Dict (list T)) : res (list T * list T) :=
    let! atr := getitem (snd caches) (hash2 (window, ewm)) in Ok (fst caches, atr).

  (** ** On-balance volume *)
  (** indicators/nb.py:305-309 obv_custom_nb *)
  Definition obv_custom_nb (close volume : list T) : list T :=
    nancumsum (map (fun i => let v := nth i volume nan in
                             if ltb (nth i close nan) (nth i (fshift_1d_nb close 1 nan) nan) then neg v else v)
                 (seq 0 (List.length volume))).
End Indicators.
