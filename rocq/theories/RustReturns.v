(** * Model of rust/src/returns.rs

    A column is a list; two arrays passed together are two lists of one length. A
    two-dimensional array in C order is the list of its cells row by row with the
    number of columns; arrays of other layouts are processed column by column with
    the one-dimensional functions (generic.rs:381-395, returns.rs:20-38). The power
    function, the square root, the rounding functions and the truncation to usize are
    parameters, as in ReturnsNb.v. usize is nat. Where the Rust code panics this model
    says [Panic]. *)
From Coq Require Import String ZArith Bool List Arith.
From Verif Require Import Base Num GenericNb RustGeneric ReturnsNb.
Import ListNotations.
Local Open Scope string_scope.
Local Open Scope nat_scope.
Local Open Scope list_scope.

Section RustReturns.
  Context {T : Type} {N : Num T}.
  Variable pow : T -> T -> T.
  Variable sqrt : T -> T.
  Variable floor ceil : T -> Z.
  Variable trunc : T -> Z.

  (** ** Loops *)

  (** [for (row) in src.chunks_exact(ncols) { for col in 0..ncols { state[col] = ... } }]: one state
      per column; [step col p] is the body at the cell stored at [p] *)
  Definition row_reduce {S} (step : nat -> nat -> S -> S) (nrows ncols : nat) (init : S) : list S :=
    fold_left (fun states row => map (fun cs => step (fst cs) (row * ncols + fst cs) (snd cs)) (combine (seq 0 ncols) states))
              (seq 0 nrows) (repeat init ncols).
  (** [chunks_exact(0)] panics *)
  Definition Panic {A} : res A := Err (AssertionError "panic").
  Definition chunks_exact {A} (ncols : nat) (k : res A) : res A := raise_if (Nat.eqb ncols 0) (AssertionError "panic") k.

  (** returns.rs:154-169 nanmean_shifted, 193-208 nanmean_pair_diff, 232-247 nanmean_alpha_series,
      generic.rs:1066-1080 nanmean_1d: the same loop over [value x] *)
  Definition rs_sum_count {A} (value : A -> T) (l : list A) : T * nat :=
    fold_left (fun s x => let v := value x in if isnan v then s else (add (fst s) v, snd s + 1)) l (zero, 0).
  Definition rs_nanmean {A} (value : A -> T) (l : list A) : T :=
    let (sum, count) := rs_sum_count value l in
    if Nat.eqb count 0 then nan else div sum (ofZ (Z.of_nat count)).
  (** returns.rs:171-191 nanstd_shifted, 210-230 nanstd_pair_diff, generic.rs:1098-1117 nanstd_1d *)
  Definition rs_nanstd {A} (value : A -> T) (l : list A) (ddof : nat) : T :=
    let mean := rs_nanmean value l in
    if isnan mean then nan
    else
      let (count, sq) := fold_left (fun s x => let v := value x in
                           if isnan v then s else (fst s + 1, add (snd s) (mul (sub v mean) (sub v mean)))) l (0, zero) in
      if Nat.leb count ddof then nan else sqrt (div sq (ofZ (Z.of_nat (count - ddof)))).

  (** The two passes of returns.rs:434-454, 553-573, 642-662: sum, count and sum of squared
      differences of every column; [value p] is what is summed for the cell at [p] *)
  Definition rs_moments_c (value : nat -> T) (nrows ncols : nat) : list (T * nat * T) :=
    let sc := row_reduce (fun _ p s => let v := value p in if isnan v then s else (add (fst s) v, snd s + 1)) nrows ncols (zero, 0) in
    let sq := row_reduce (fun col p s => let v := value p in
                if isnan v then s
                else let diff := sub v (div (fst (nth col sc (zero, 0))) (ofZ (Z.of_nat (snd (nth col sc (zero, 0)))))) in
                     add s (mul diff diff)) nrows ncols zero in
    combine sc sq.

  (** ** Returns *)

  (** returns.rs:250-265 get_return *)
  Definition rs_get_return (input_value output_value : T) : T :=
    if eqb input_value zero then
      if eqb output_value zero then zero
      else if isnan output_value then nan
      else if ltb output_value zero then ninf else pinf
    else
      let return_value := div (sub output_value input_value) input_value in
      if ltb input_value zero then mul return_value (neg one) else return_value.
  (** returns.rs:267-275 returns_1d *)
  Definition rs_returns_1d (value : list T) (init_value : T) : list T :=
    scan (fun _ input_value output_value => (output_value, rs_get_return input_value output_value)) 0 init_value value.
  (** returns.rs:277-303 returns_2d on a C-ordered array, 957-962 the check of init_value *)
  Definition rs_returns_2d_c (value : list T) (nrows ncols : nat) (init_value : list T) : res (list T) :=
    raise_if (negb (Nat.eqb (List.length init_value) ncols)) (ValueError "init_value must match the number of columns in value")
      (Ok (concat (row_loop (fun _ _ input_value output_value => (output_value, rs_get_return input_value output_value))
                            value ncols (seq 0 nrows) init_value))).

  (** returns.rs:305-319 cum_returns_1d, 327-342 one cell of cum_returns_2d *)
  Definition rs_cum_step (start_value : T) (_ : nat) (cumprod ret : T) : T * T :=
    let cumprod := if isnan ret then cumprod else mul cumprod (add ret one) in
    (cumprod, if eqb start_value zero then sub cumprod one else mul cumprod start_value).
  Definition rs_cum_returns_1d (returns : list T) (start_value : T) : list T := scan (rs_cum_step start_value) 0 one returns.
  (** returns.rs:321-344 cum_returns_2d *)
  Definition rs_cum_returns_2d_c (src : list T) (nrows ncols : nat) (start_value : T) : list T :=
    concat (row_loop (fun _ => rs_cum_step start_value) src ncols (seq 0 nrows) (repeat one ncols)).

  (** [if !ret.is_nan() { prod *= ret + 1.0; }] *)
  Definition rs_grow (prod ret : T) : T := if isnan ret then prod else mul prod (add ret one).
  (** returns.rs:346-358 cum_returns_final_1d *)
  Definition rs_finish (start_value out : T) : T := if eqb start_value zero then sub out one else mul out start_value.
  Definition rs_cum_returns_final_1d (returns : list T) (start_value : T) : T := rs_finish start_value (fold_left rs_grow returns one).
  (** returns.rs:360-383 cum_returns_final_2d *)
  Definition rs_cum_returns_final_2d_c (src : list T) (nrows ncols : nat) (start_value : T) : res (list T) :=
    chunks_exact ncols (Ok (map (rs_finish start_value) (row_reduce (fun _ p s => rs_grow s (nth p src nan)) nrows ncols one))).

  (** returns.rs:385-391 annualized_return_1d *)
  Definition rs_annualized_return_1d (returns : list T) (ann_factor : T) : T :=
    match returns with
    | [] => nan
    | _ => sub (pow (rs_cum_returns_final_1d returns one) (div ann_factor (ofZ (Z.of_nat (List.length returns))))) one
    end.
  (** returns.rs:412-417 annualized_return_from_product *)
  Definition rs_annualized_return_from_product (product : T) (len : nat) (ann_factor : T) : T :=
    if Nat.eqb len 0 then nan else sub (pow product (div ann_factor (ofZ (Z.of_nat len)))) one.
  (** returns.rs:393-410 annualized_return_2d *)
  Definition rs_annualized_return_2d_c (src : list T) (nrows ncols : nat) (ann_factor : T) : res (list T) :=
    chunks_exact ncols (Ok (map (fun product => rs_annualized_return_from_product product nrows ann_factor)
                                (row_reduce (fun _ p s => rs_grow s (nth p src nan)) nrows ncols one))).

  (** returns.rs:419-424 annualized_volatility_1d *)
  Definition rs_annualized_volatility_1d (returns : list T) (ann_factor levy_alpha : T) (ddof : nat) : T :=
    if Nat.ltb (List.length returns) 2 then nan
    else mul (rs_nanstd (fun x => x) returns ddof) (pow ann_factor (div one levy_alpha)).
  (** returns.rs:426-465 annualized_volatility_2d *)
  Definition rs_annualized_volatility_2d_c (src : list T) (nrows ncols : nat) (ann_factor levy_alpha : T) (ddof : nat) : res (list T) :=
    chunks_exact ncols (Ok (map (fun m => let '(_, count, sq) := m in
      if Nat.leb 2 nrows && Nat.ltb ddof count
      then mul (sqrt (div sq (ofZ (Z.of_nat (count - ddof))))) (pow ann_factor (div one levy_alpha)) else nan)
      (rs_moments_c (fun p => nth p src nan) nrows ncols))).

  (** ** Drawdowns *)

  (** returns.rs:472-479 and 488-495, one bar; state: cum_return, max_return *)
  Definition rs_drawdown_step (_ : nat) (s : T * T) (ret : T) : (T * T) * T :=
    let (cum_return, max_return) := s in
    let cum_return := rs_grow cum_return ret in
    let max_return := if isnan max_return || gtb cum_return max_return then cum_return else max_return in
    ((cum_return, max_return), sub (div cum_return max_return) one).
  (** returns.rs:467-481 drawdown_1d *)
  Definition rs_drawdown_1d (returns : list T) : list T := scan rs_drawdown_step 0 (ofZ 100, nan) returns.
  (** returns.rs:483-503 max_drawdown_1d: [out] is returned as NaN at the first NaN *)
  Fixpoint rs_min_strict (out : T) (drawdowns : list T) : T :=
    match drawdowns with
    | [] => out
    | drawdown :: l => if isnan drawdown then nan else rs_min_strict (if ltb drawdown out then drawdown else out) l
    end.
  Definition rs_max_drawdown_1d (returns : list T) : T := rs_min_strict pinf (rs_drawdown_1d returns).
  (** returns.rs:505-512 calmar_ratio_1d *)
  Definition rs_calmar_ratio_1d (returns : list T) (ann_factor : T) : T :=
    let max_drawdown := rs_max_drawdown_1d returns in
    if eqb max_drawdown zero then nan else div (rs_annualized_return_1d returns ann_factor) (abs max_drawdown).

  (** ** Ratios *)

  (** returns.rs:514-536 omega_ratio_1d *)
  Definition rs_omega_ratio_1d (returns : list T) (ann_factor risk_free required_return : T) : T :=
    let ratio (return_threshold : T) : T :=
      let (numer, denom) := fold_left (fun s ret =>
        let adj := sub (sub ret risk_free) return_threshold in
        if gtb adj zero then (add (fst s) adj, snd s)
        else if ltb adj zero then (fst s, sub (snd s) adj) else s) returns (zero, zero) in
      if eqb denom zero then pinf else div numer denom in
    if eqb ann_factor one then ratio required_return
    else if leb ann_factor (neg one) then nan
    else ratio (sub (pow (add one required_return) (div one ann_factor)) one).

  (** returns.rs:538-548 sharpe_ratio_1d *)
  Definition rs_sharpe_ratio_1d (returns : list T) (ann_factor risk_free : T) (ddof : nat) : T :=
    if Nat.ltb (List.length returns) 2 then nan
    else let mean := rs_nanmean (fun x => sub x risk_free) returns in
         let std := rs_nanstd (fun x => sub x risk_free) returns ddof in
         if eqb std zero then pinf else mul (div mean std) (sqrt ann_factor).
  (** returns.rs:550-590 sharpe_ratio_2d *)
  Definition rs_sharpe_ratio_2d_c (src : list T) (nrows ncols : nat) (ann_factor risk_free : T) (ddof : nat) : res (list T) :=
    chunks_exact ncols (Ok (map (fun m => let '(sum, count, sq) := m in
      if Nat.leb 2 nrows && Nat.ltb ddof count
      then let mean := div sum (ofZ (Z.of_nat count)) in
           let std := sqrt (div sq (ofZ (Z.of_nat (count - ddof)))) in
           if eqb std zero then pinf else mul (div mean std) (sqrt ann_factor)
      else nan) (rs_moments_c (fun p => sub (nth p src nan) risk_free) nrows ncols))).

  (** returns.rs:592-609 downside_risk_1d *)
  Definition rs_downside_risk_1d (returns : list T) (ann_factor required_return : T) : T :=
    let (sum, count) := fold_left (fun s ret =>
      let adj_ret := sub ret required_return in
      let adj_ret := if gtb adj_ret zero then zero else adj_ret in
      if isnan adj_ret then s else (add (fst s) (mul adj_ret adj_ret), snd s + 1)) returns (zero, 0) in
    if Nat.eqb count 0 then nan else mul (sqrt (div sum (ofZ (Z.of_nat count)))) (sqrt ann_factor).
  (** returns.rs:611-621 sortino_ratio_1d *)
  Definition rs_sortino_ratio_1d (returns : list T) (ann_factor required_return : T) : T :=
    if Nat.ltb (List.length returns) 2 then nan
    else let average_annualized_return := mul (rs_nanmean (fun x => sub x required_return) returns) ann_factor in
         let downside_risk := rs_downside_risk_1d returns ann_factor required_return in
         if eqb downside_risk zero then pinf else div average_annualized_return downside_risk.

  (** returns.rs:623-633 information_ratio_1d *)
  Definition rs_information_ratio_1d (returns benchmark_rets : list T) (ddof : nat) : T :=
    if Nat.ltb (List.length returns) 2 then nan
    else let mean := rs_nanmean (fun x => sub (fst x) (snd x)) (combine returns benchmark_rets) in
         let std := rs_nanstd (fun x => sub (fst x) (snd x)) (combine returns benchmark_rets) ddof in
         if eqb std zero then pinf else div mean std.
  (** returns.rs:635-676 information_ratio_2d *)
  Definition rs_information_ratio_2d_c (returns_src benchmark_src : list T) (nrows ncols : nat) (ddof : nat) : res (list T) :=
    chunks_exact ncols (Ok (map (fun m => let '(sum, count, sq) := m in
      if Nat.leb 2 nrows && Nat.ltb ddof count
      then let mean := div sum (ofZ (Z.of_nat count)) in
           let std := sqrt (div sq (ofZ (Z.of_nat (count - ddof)))) in
           if eqb std zero then pinf else div mean std
      else nan) (rs_moments_c (fun p => sub (nth p returns_src nan) (nth p benchmark_src nan)) nrows ncols))).

  (** returns.rs:678-733 beta_1d *)
  Definition rs_beta_1d (returns benchmark_rets : list T) : T :=
    if Nat.ltb (List.length benchmark_rets) 2 then nan
    else
      let (independent_sum, independent_count) := fold_left (fun s x =>
        if negb (isnan (fst x)) && negb (isnan (snd x)) then (add (fst s) (snd x), snd s + 1) else s)
        (combine returns benchmark_rets) (zero, 0) in
      let independent_mean := if Nat.eqb independent_count 0 then nan else div independent_sum (ofZ (Z.of_nat independent_count)) in
      let '((cov_sum, cov_count), (var_sum, var_count)) := fold_left (fun s x =>
        let independent_value := if isnan (fst x) then nan else snd x in
        let ind_residual := sub independent_value independent_mean in
        let covariance := mul ind_residual (fst x) in
        let variance := mul ind_residual ind_residual in
        (if isnan covariance then fst s else (add (fst (fst s)) covariance, snd (fst s) + 1),
         if isnan variance then snd s else (add (fst (snd s)) variance, snd (snd s) + 1)))
        (combine returns benchmark_rets) ((zero, 0), (zero, 0)) in
      let covariances := if Nat.eqb cov_count 0 then nan else div cov_sum (ofZ (Z.of_nat cov_count)) in
      let ind_variances := if Nat.eqb var_count 0 then nan else div var_sum (ofZ (Z.of_nat var_count)) in
      let ind_variances := if ltb ind_variances tiny then nan else ind_variances in
      if eqb ind_variances zero then pinf else div covariances ind_variances.
  (** returns.rs:735-741 alpha_1d *)
  Definition rs_alpha_1d (returns benchmark_rets : list T) (ann_factor risk_free : T) : T :=
    if Nat.ltb (List.length returns) 2 then nan
    else let beta := rs_beta_1d returns benchmark_rets in
         sub (pow (add (rs_nanmean (fun x => sub (sub (fst x) risk_free) (mul beta (sub (snd x) risk_free)))
                                   (combine returns benchmark_rets)) one) ann_factor) one.

  (** ** Quantiles *)

  (** returns.rs:134-152 percentile_unsorted: [select_nth_unstable_by(k)] leaves at [k] the element
      that is there in the sorted array; [as usize] cuts negative numbers at 0. The values are not NaN. *)
  Definition rs_percentile (vals : list T) (q : T) : res T :=
    match vals with
    | [] => Ok nan
    | [x] => Ok x
    | _ =>
      let rank := mul (div q (ofZ 100)) (ofZ (Z.of_nat (List.length vals) - 1)) in
      let lo := Z.to_nat (floor rank) in
      let hi := Z.to_nat (ceil rank) in
      let sorted := np_sort vals in
      if Nat.leb (List.length vals) hi then Panic
      else if Nat.eqb lo hi then Ok (nth hi sorted nan)
      else Ok (add (mul (nth lo sorted nan) (sub (ofZ (Z.of_nat hi)) rank)) (mul (nth hi sorted nan) (sub rank (ofZ (Z.of_nat lo)))))
    end.
  (** returns.rs:743-754 tail_ratio_1d *)
  Definition rs_tail_ratio_1d (returns : list T) : res T :=
    match drop_nan returns with
    | [] => Ok nan
    | vals => let! p95 := rs_percentile vals (ofZ 95) in
              let! p5 := rs_percentile vals (ofZ 5) in
              if eqb (abs p5) zero then Ok pinf else Ok (div (abs p95) (abs p5))
    end.
  (** returns.rs:756-762 value_at_risk_1d *)
  Definition rs_value_at_risk_1d (returns : list T) (cutoff : T) : res T :=
    match drop_nan returns with
    | [] => Ok nan
    | vals => rs_percentile vals (mul (ofZ 100) cutoff)
    end.
  (** returns.rs:120-132 mean_strict *)
  Fixpoint rs_sum_strict (sum : T) (values : list T) : option T :=
    match values with
    | [] => Some sum
    | v :: l => if isnan v then None else rs_sum_strict (add sum v) l
    end.
  Definition rs_mean_strict (values : list T) : T :=
    match values with
    | [] => nan
    | _ => match rs_sum_strict zero values with
           | None => nan
           | Some sum => div sum (ofZ (Z.of_nat (List.length values)))
           end
    end.
  (** returns.rs:764-777 cond_value_at_risk_1d *)
  Definition rs_cond_value_at_risk_1d (returns : list T) (cutoff : T) : res T :=
    match returns with
    | [] => Ok nan
    | _ => let cutoff_index := Z.to_nat (trunc (mul (ofZ (Z.of_nat (List.length returns) - 1)) cutoff)) in
           if Nat.leb (List.length returns) cutoff_index then Panic
           else Ok (rs_mean_strict (firstn (Datatypes.S cutoff_index) (np_sort returns)))
    end.

  (** ** Capture *)

  (** returns.rs:789-795, 814-819, 838-843, 869-876, 911-918 *)
  Definition rs_ratio (annualized_return1 annualized_return2 : T) : T :=
    if eqb annualized_return2 zero then pinf else div annualized_return1 annualized_return2.
  (** returns.rs:779-796 capture_1d *)
  Definition rs_capture_1d (returns benchmark_rets : list T) (ann_factor : T) : T :=
    let (returns_prod, benchmark_prod) := fold_left (fun s x => (rs_grow (fst s) (fst x), rs_grow (snd s) (snd x)))
                                                    (combine returns benchmark_rets) (one, one) in
    rs_ratio (rs_annualized_return_from_product returns_prod (List.length returns) ann_factor)
             (rs_annualized_return_from_product benchmark_prod (List.length benchmark_rets) ann_factor).
  (** returns.rs:798-820 up_capture_1d, 822-844 down_capture_1d; state: the products and the count *)
  Definition rs_filtered_step (counts : T -> bool) (s : T * T * nat) (x : T * T) : T * T * nat :=
    let '(returns_prod, benchmark_prod, count) := s in
    if counts (snd x) then (rs_grow returns_prod (fst x), mul benchmark_prod (add (snd x) one), count + 1) else s.
  Definition rs_filtered_finish (ann_factor : T) (s : T * T * nat) : T :=
    let '(returns_prod, benchmark_prod, count) := s in
    if Nat.eqb count 0 then nan
    else rs_ratio (rs_annualized_return_from_product returns_prod count ann_factor)
                  (rs_annualized_return_from_product benchmark_prod count ann_factor).
  Definition rs_up_capture_1d (returns benchmark_rets : list T) (ann_factor : T) : T :=
    rs_filtered_finish ann_factor (fold_left (rs_filtered_step (fun b => gtb b zero)) (combine returns benchmark_rets) (one, one, 0)).
  Definition rs_down_capture_1d (returns benchmark_rets : list T) (ann_factor : T) : T :=
    rs_filtered_finish ann_factor (fold_left (rs_filtered_step (fun b => ltb b zero)) (combine returns benchmark_rets) (one, one, 0)).
  (** returns.rs:846-883 capture_2d *)
  Definition rs_capture_2d_c (returns_src benchmark_src : list T) (nrows ncols : nat) (ann_factor : T) : list T :=
    map (fun s => rs_ratio (rs_annualized_return_from_product (fst s) nrows ann_factor)
                           (rs_annualized_return_from_product (snd s) nrows ann_factor))
        (row_reduce (fun _ p s => (rs_grow (fst s) (nth p returns_src nan), rs_grow (snd s) (nth p benchmark_src nan))) nrows ncols (one, one)).
  (** returns.rs:885-933 filtered_capture_2d *)
  Definition rs_filtered_capture_2d_c (returns_src benchmark_src : list T) (nrows ncols : nat) (ann_factor : T) (up : bool) : res (list T) :=
    chunks_exact ncols (Ok (map (rs_filtered_finish ann_factor)
      (row_reduce (fun _ p s => rs_filtered_step (fun b => (up && gtb b zero) || (negb up && ltb b zero)) s
                                  (nth p returns_src nan, nth p benchmark_src nan)) nrows ncols (one, one, 0)))).

  (** ** Rolling *)

  (** returns.rs:54-69 and 99-114, one bar of one column; state: nancnt and what is stored in nancnt_arr *)
  Definition rs_rolling_step (window minp : nat) (kernel : nat -> T) (i : nat) (s : nat * list nat) (x : T) : (nat * list nat) * T :=
    let (nancnt, nancnt_arr) := s in
    let nancnt := if isnan x then nancnt + 1 else nancnt in
    let nancnt_arr := nancnt_arr ++ [nancnt] in
    let valid_cnt := if Nat.ltb i window then i + 1 - nancnt else window - (nancnt - nth (i - window) nancnt_arr 0) in
    ((nancnt, nancnt_arr), if Nat.leb minp valid_cnt then kernel i else nan).
  (** returns.rs:40-73 rolling_apply_2d_by_col (one column) behind the check of the wrappers (e.g. 1018-1019) *)
  Definition rs_rolling_apply (a : list T) (window : nat) (minp : option nat) (kernel : list T -> T) : res (list T) :=
    let m := match minp with None => window | Some m => m end in
    rs_validate_window m window "window"
      (Ok (scan (rs_rolling_step window m (fun i => kernel (slice (i + 1 - window) (i + 1) a))) 0 (0, []) a)).
  (** returns.rs:75-118 rolling_apply_pair_2d_by_col (one column), e.g. 1330-1332 *)
  Definition rs_rolling_apply_pair (a b : list T) (window : nat) (minp : option nat) (kernel : list T -> list T -> T) : res (list T) :=
    let m := match minp with None => window | Some m => m end in
    rs_validate_window m window "window"
      (raise_if (negb (Nat.eqb (List.length a) (List.length b))) (ValueError "benchmark_rets must have the same shape as input")
        (Ok (scan (rs_rolling_step window m (fun i => kernel (slice (i + 1 - window) (i + 1) a) (slice (i + 1 - window) (i + 1) b))) 0 (0, []) a))).
End RustReturns.

(** f64::floor and f64::ceil of an exact rational, as integers *)
From Coq Require Import QArith Qround.
Definition xq_floor (a : XQ) : Z := match a with Fin q => Qfloor q | _ => 0%Z end.
Definition xq_ceil (a : XQ) : Z := match a with Fin q => Qceiling q | _ => 0%Z end.
