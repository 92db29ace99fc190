(** * Model of returns/nb.py

    One column at a time; the 2-dim versions apply the 1-dim kernel to every
    column. The power function [pow] (Python's [**]), the square root [sqrt] and
    the truncation [trunc] (Python's [int(...)] of a float) are parameters: no
    law is assumed about the first two. *)
From Coq Require Import String ZArith Bool List Arith.
From Verif Require Import Base Num GenericNb.
Import ListNotations.
Local Open Scope string_scope.
Local Open Scope nat_scope.
Local Open Scope list_scope.

(** The library functions used below. *)
Section NumPy.
  Context {T : Type} {N : Num T}.

  (** np.nanprod, np.sum, np.nanmean, np.nanvar of a 1-dim array in Numba:
      plain loops that skip NaN; the mean of no number is NaN. *)
  Definition np_nanprod (a : list T) : T := fold_left (fun c v => if isnan v then c else mul c v) a one.
  Definition np_sum (a : list T) : T := fold_left add a zero.
  Definition count_numbers (a : list T) : Z := Z.of_nat (List.length (filter (fun v => negb (isnan v)) a)).
  Definition np_nanmean (a : list T) : T :=
    div (fold_left (fun c v => if isnan v then c else add c v) a zero) (ofZ (count_numbers a)).
  Definition np_nanvar (a : list T) : T :=
    let m := np_nanmean a in
    div (fold_left (fun c v => if isnan v then c else add c (mul (sub v m) (sub v m))) a zero)
        (ofZ (count_numbers a)).
  (** np.mean *)
  Definition np_mean (a : list T) : T := div (np_sum a) (ofZ (Z.of_nat (List.length a))).

  (** np.min, np.max: NaN if there is one; the empty array raises. *)
  Definition np_extreme (better : T -> T -> bool) (a : list T) : res T :=
    match a with
    | [] => Err (ValueError "zero-size array to reduction operation not possible")
    | x :: r => if existsb isnan a then Ok nan
                else Ok (fold_left (fun m v => if better v m then v else m) r x)
    end.
  Definition np_min : list T -> res T := np_extreme ltb.
  Definition np_max : list T -> res T := np_extreme gtb.

  (** Sorting with NaN last; np.partition(a, k)[:k + 1] holds the first [k + 1]
      elements of the sorted array in unspecified order: modelled in sorted order. *)
  Fixpoint np_insert (x : T) (l : list T) : list T :=
    match l with
    | [] => [x]
    | y :: r => if ltb x y || isnan y then x :: l else y :: np_insert x r
    end.
  Definition np_sort (a : list T) : list T := fold_right np_insert [] a.
  Definition np_partition (a : list T) (k : nat) : list T := np_sort a.

  (** np.percentile of an array without NaN, linear interpolation between the
      closest ranks (numba/np/arraymath.py, _collect_percentiles_inner). *)
  Definition np_percentile (trunc : T -> Z) (a : list T) (q : T) : res T :=
    raise_if (negb (leb zero q && leb q (ofZ 100))) (ValueError "Percentiles must be in the range [0, 100]")
      (match a with
       | [x] => Ok x
       | _ =>
         if eqb q (ofZ 100) then
           let! v := np_max a in Ok (if isfinite v then v else nan)
         else if eqb q zero then
           let! v := np_min a in Ok (if isfinite v then v else nan)
         else
           let rank := add one (mul (ofZ (Z.of_nat (List.length a) - 1)) (div q (ofZ 100))) in
           let f := trunc rank in
           let m := sub rank (ofZ f) in
           let k := Z.to_nat (f - 1) in
           let s := np_sort a in
           Ok (add (mul (nth k s nan) (sub one m)) (mul (nth (Datatypes.S k) s nan) m))
       end).
End NumPy.

Section Returns.
  Context {T : Type} {N : Num T}.
  Variable pow : T -> T -> T.
  Variable sqrt : T -> T.
  Variable trunc : T -> Z.

  (** returns/nb.py:36-45 get_return_nb *)
  Definition get_return_nb (input_value output_value : T) : T :=
    if eqb input_value zero then
      if eqb output_value zero then zero else mul pinf (sign output_value)
    else
      let return_value := div (sub output_value input_value) input_value in
      if ltb input_value zero then mul return_value (neg one) else return_value.

  (** returns/nb.py:49-57 returns_1d_nb *)
  Definition returns_1d_nb (value : list T) (init_value : T) : list T :=
    scan (fun _ input_value output_value => (output_value, get_return_nb input_value output_value)) 0 init_value value.

  (** returns/nb.py:70-72 total_return_apply_nb *)
  Definition total_return_apply_nb (returns : list T) : T :=
    sub (np_nanprod (map (fun r => add r one) returns)) one.

  (** returns/nb.py:76-86 cum_returns_1d_nb *)
  Definition cum_returns_1d_nb (returns : list T) (start_value : T) : list T :=
    let out := scan (fun _ cumprod r =>
                 let cumprod := if isnan r then cumprod else mul cumprod (add r one) in (cumprod, cumprod))
                 0 one returns in
    if eqb start_value zero then map (fun x => sub x one) out else map (fun x => mul x start_value) out.

  (** returns/nb.py:99-104 cum_returns_final_1d_nb *)
  Definition cum_returns_final_1d_nb (returns : list T) (start_value : T) : T :=
    let out := np_nanprod (map (fun r => add r one) returns) in
    if eqb start_value zero then sub out one else mul out start_value.

  (** returns/nb.py:132-139 annualized_return_1d_nb *)
  Definition annualized_return_1d_nb (returns : list T) (ann_factor : T) : T :=
    match returns with
    | [] => nan
    | _ => sub (pow (cum_returns_final_1d_nb returns one) (div ann_factor (ofZ (Z.of_nat (List.length returns))))) one
    end.

  (** generic/nb.py:626-632 nanstd_1d_nb *)
  Definition nanstd_1d_nb (a : list T) (ddof : Z) : T :=
    let cnt := count_numbers a in
    let rcount := Z.max (cnt - ddof) 0 in
    if Z.eqb rcount 0 then nan else sqrt (div (mul (np_nanvar a) (ofZ cnt)) (ofZ rcount)).

  (** returns/nb.py:167-177 annualized_volatility_1d_nb *)
  Definition annualized_volatility_1d_nb (returns : list T) (ann_factor levy_alpha : T) (ddof : Z) : res T :=
    if Nat.ltb (List.length returns) 2 then Ok nan
    else let! e := sdiv one levy_alpha in
         Ok (mul (nanstd_1d_nb returns ddof) (pow ann_factor e)).

  (** returns/nb.py:212-216 drawdown_1d_nb *)
  Definition drawdown_1d_nb (returns : list T) : list T :=
    let cum_returns := cum_returns_1d_nb returns (ofZ 100) in
    let max_returns := expanding_max_1d_nb cum_returns 1 in
    map (fun cm => sub (div (fst cm) (snd cm)) one) (combine cum_returns max_returns).

  (** returns/nb.py:229-231 max_drawdown_1d_nb *)
  Definition max_drawdown_1d_nb (returns : list T) : res T := np_min (drawdown_1d_nb returns).

  (** returns/nb.py:254-262 calmar_ratio_1d_nb; the second test of the drawdown
      (nb.py:259) can never succeed and is kept. *)
  Definition calmar_ratio_1d_nb (returns : list T) (ann_factor : T) : res T :=
    let! max_drawdown := max_drawdown_1d_nb returns in
    if eqb max_drawdown zero then Ok nan
    else let annualized_return := annualized_return_1d_nb returns ann_factor in
         if eqb max_drawdown zero then Ok pinf
         else Ok (div annualized_return (abs max_drawdown)).

  (** returns/nb.py:285-303 omega_ratio_1d_nb *)
  Definition omega_ratio_1d_nb (returns : list T) (ann_factor risk_free required_return : T) : res T :=
    let ratio (return_threshold : T) : res T :=
      let l := map (fun r => sub (sub r risk_free) return_threshold) returns in
      let numer := np_sum (filter (fun x => gtb x zero) l) in
      let denom := mul (neg one) (np_sum (filter (fun x => ltb x zero) l)) in
      if eqb denom zero then Ok pinf else Ok (div numer denom) in
    if eqb ann_factor one then ratio required_return
    else if leb ann_factor (neg one) then Ok nan
    else let! e := sdiv one ann_factor in
         ratio (sub (pow (add one required_return) e) one).

  (** returns/nb.py:338-348 sharpe_ratio_1d_nb *)
  Definition sharpe_ratio_1d_nb (returns : list T) (ann_factor risk_free : T) (ddof : Z) : T :=
    if Nat.ltb (List.length returns) 2 then nan
    else let returns_risk_adj := map (fun r => sub r risk_free) returns in
         let mean := np_nanmean returns_risk_adj in
         let std := nanstd_1d_nb returns_risk_adj ddof in
         if eqb std zero then pinf else mul (div mean std) (sqrt ann_factor).

  (** returns/nb.py:378-382 downside_risk_1d_nb *)
  Definition downside_risk_1d_nb (returns : list T) (ann_factor required_return : T) : T :=
    let adj_returns := map (fun r => let x := sub r required_return in if gtb x zero then zero else x) returns in
    mul (sqrt (np_nanmean (map (fun x => mul x x) adj_returns))) (sqrt ann_factor).

  (** returns/nb.py:411-421 sortino_ratio_1d_nb *)
  Definition sortino_ratio_1d_nb (returns : list T) (ann_factor required_return : T) : T :=
    if Nat.ltb (List.length returns) 2 then nan
    else let adj_returns := map (fun r => sub r required_return) returns in
         let average_annualized_return := mul (np_nanmean adj_returns) ann_factor in
         let downside_risk := downside_risk_1d_nb returns ann_factor required_return in
         if eqb downside_risk zero then pinf else div average_annualized_return downside_risk.

  (** returns/nb.py:450-460 information_ratio_1d_nb. Two-array arguments are
      lists of pairs (return, benchmark return). *)
  Definition information_ratio_1d_nb (rb : list (T * T)) (ddof : Z) : T :=
    if Nat.ltb (List.length rb) 2 then nan
    else let active_return := map (fun x => sub (fst x) (snd x)) rb in
         let mean := np_nanmean active_return in
         let std := nanstd_1d_nb active_return ddof in
         if eqb std zero then pinf else div mean std.

  (** returns/nb.py:489-507 beta_1d_nb; 1.0e-30 is [tiny]. *)
  Definition tiny : T := div one (ofZ (10 ^ 30)).
  Definition beta_1d_nb (rb : list (T * T)) : T :=
    if Nat.ltb (List.length rb) 2 then nan
    else
      let independent := map (fun x => if isnan (fst x) then nan else snd x) rb in
      let mean := np_nanmean independent in
      let ind_residual := map (fun y => sub y mean) independent in
      let covariances := np_nanmean (map (fun p => mul (fst p) (snd p)) (combine ind_residual (map fst rb))) in
      let ind_variances := np_nanmean (map (fun e => mul e e) ind_residual) in
      let ind_variances := if ltb ind_variances tiny then nan else ind_variances in
      if eqb ind_variances zero then pinf else div covariances ind_variances.

  (** returns/nb.py:530-539 alpha_1d_nb *)
  Definition alpha_1d_nb (rb : list (T * T)) (ann_factor risk_free : T) : T :=
    if Nat.ltb (List.length rb) 2 then nan
    else
      let beta := beta_1d_nb rb in
      let alpha_series := map (fun x => sub (sub (fst x) risk_free) (mul beta (sub (snd x) risk_free))) rb in
      sub (pow (add (np_nanmean alpha_series) one) ann_factor) one.

  (** returns[~np.isnan(returns)] *)
  Definition drop_nan (a : list T) : list T := filter (fun v => negb (isnan v)) a.

  (** returns/nb.py:569-578 tail_ratio_1d_nb *)
  Definition tail_ratio_1d_nb (returns : list T) : res T :=
    let returns := drop_nan returns in
    match returns with
    | [] => Ok nan
    | _ => let! p95 := np_percentile trunc returns (ofZ 95) in
           let! p5 := np_percentile trunc returns (ofZ 5) in
           if eqb (abs p5) zero then Ok pinf else Ok (div (abs p95) (abs p5))
    end.

  (** returns/nb.py:601-606 value_at_risk_1d_nb *)
  Definition value_at_risk_1d_nb (returns : list T) (cutoff : T) : res T :=
    let returns := drop_nan returns in
    match returns with
    | [] => Ok nan
    | _ => np_percentile trunc returns (mul (ofZ 100) cutoff)
    end.

  (** returns/nb.py:634-639 cond_value_at_risk_1d_nb; a negative cutoff index
      is not modelled (it is cut at 0). *)
  Definition cond_value_at_risk_1d_nb (returns : list T) (cutoff : T) : T :=
    match returns with
    | [] => nan
    | _ => let cutoff_index := Z.to_nat (trunc (mul (ofZ (Z.of_nat (List.length returns) - 1)) cutoff)) in
           np_mean (firstn (Datatypes.S cutoff_index) (np_partition returns cutoff_index))
    end.

  (** returns/nb.py:667-673 capture_1d_nb *)
  Definition capture_1d_nb (rb : list (T * T)) (ann_factor : T) : T :=
    let annualized_return1 := annualized_return_1d_nb (map fst rb) ann_factor in
    let annualized_return2 := annualized_return_1d_nb (map snd rb) ann_factor in
    if eqb annualized_return2 zero then pinf else div annualized_return1 annualized_return2.

  (** returns/nb.py:702-712 up_capture_1d_nb, 741-751 down_capture_1d_nb *)
  Definition up_capture_1d_nb (rb : list (T * T)) (ann_factor : T) : T :=
    match filter (fun x => gtb (snd x) zero) rb with
    | [] => nan
    | l => capture_1d_nb l ann_factor
    end.
  Definition down_capture_1d_nb (rb : list (T * T)) (ann_factor : T) : T :=
    match filter (fun x => ltb (snd x) zero) rb with
    | [] => nan
    | l => capture_1d_nb l ann_factor
    end.

  (** generic/nb.py:1150-1164, one bar of rolling_apply_nb. State: nancnt and what
      has been stored in nancnt_arr. The applied function gets the bar and the window. *)
  Definition rolling_apply_step (window minp : nat) (apply : nat -> list T -> res T) (a : list T)
      (i : nat) (s : Z * list Z) (x : T) : res ((Z * list Z) * T) :=
    let (nancnt, nancnt_arr) := s in
    let nancnt := if isnan x then (nancnt + 1)%Z else nancnt in
    let nancnt_arr := nancnt_arr ++ [nancnt] in
    let valid_cnt := if Nat.ltb i window then (Z.of_nat i + 1 - nancnt)%Z
                     else (Z.of_nat window - (nancnt - nth (i - window) nancnt_arr 0))%Z in
    if Z.ltb valid_cnt (Z.of_nat minp) then Ok ((nancnt, nancnt_arr), nan)
    else let! y := apply i (slice (Datatypes.S i - window) (Datatypes.S i) a) in
         Ok ((nancnt, nancnt_arr), y).

  (** generic/nb.py:1135-1165 rolling_apply_nb (one column); unlike rolling_min_nb
      and the like it does not check minp <= window. *)
  Definition rolling_apply_nb (a : list T) (window : nat) (minp : option nat) (apply : nat -> list T -> res T)
    : res (list T) :=
    let m := match minp with None => window | Some m => m end in
    scanM (rolling_apply_step window m apply a) 0 (0%Z, []) a.

  (** generic/nb.py:1203-1205 expanding_apply_nb: a window as long as the series *)
  Definition expanding_apply_nb (a : list T) (minp : option nat) (apply : nat -> list T -> res T) : res (list T) :=
    rolling_apply_nb a (List.length a) minp apply.

  (** returns/nb.py:117-128 rolling_cum_returns_final_nb, 244-250 rolling_max_drawdown_nb *)
  Definition rolling_cum_returns_final_nb (returns : list T) (window : nat) (minp : option nat) (start_value : T) :=
    rolling_apply_nb returns window minp (fun _ w => Ok (cum_returns_final_1d_nb w start_value)).
  Definition rolling_max_drawdown_nb (returns : list T) (window : nat) (minp : option nat) :=
    rolling_apply_nb returns window minp (fun _ w => max_drawdown_1d_nb w).

  (** The windows of two aligned arrays: _benchmark_rets[i + 1 - len(_returns) : i + 1, col] *)
  Definition with_benchmark {A} (benchmark_rets : list T) (f : list (T * T) -> A) (i : nat) (w : list T) : A :=
    f (combine w (slice (Datatypes.S i - List.length w) (Datatypes.S i) benchmark_rets)).

  (** returns/nb.py:520-526 rolling_beta_nb *)
  Definition rolling_beta_nb (returns : list T) (window : nat) (minp : option nat) (benchmark_rets : list T) :=
    rolling_apply_nb returns window minp (with_benchmark benchmark_rets (fun rb => Ok (beta_1d_nb rb))).
End Returns.

(** int(x) of an exact rational (truncation towards zero); not a number and the
    infinities, on which [int] raises or is undefined, give 0. *)
From Coq Require Import QArith Qround.
Definition xq_trunc (a : XQ) : Z :=
  match a with
  | Fin q => if Qle_bool 0 q then Qfloor q else (- Qfloor (- q))%Z
  | _ => 0%Z
  end.
