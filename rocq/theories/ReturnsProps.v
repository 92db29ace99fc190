(** * Properties of return statistics (C43, C44, C60-C63)

    Statements and examples only; the vocabulary is in ReturnsSpec.v. *)
From Coq Require Import ZArith QArith Qabs Bool List Arith Lia Permutation.
From Verif Require Import Base Num B64 XQFacts GenericNb GenericSpec ReturnsNb ReturnsSpec ReturnsLemmas ReturnsLemmas2
  ReturnsLemmas3 ReturnsLemmas4 ReturnsLemmas5.
Import ListNotations.
Local Open Scope nat_scope.

(** ** C43 *)
(** The return of a bar is the relative change from the value before it. *)
Theorem C43_relative_change : forall vs init i v p, nth_error vs i = Some v -> previous vs init i = p -> ~ (p == 0)%Q ->
  exists y, nth_error (returns_1d_nb (map Fin vs) (Fin init)) i = Some y /\ is_number y ((v - p) / Qabs p).
Proof. exact returns_run. Qed.
Print Assumptions C43_relative_change.

(** Compounding the returns of a value series from the initial value gives the
    series back, at every bar before which no value was zero or negative; from
    the start value 0 it gives the relative change since the start. *)
Theorem C43_compounding_restores_values : forall vs init i v, (0 < init)%Q -> nth_error vs i = Some v ->
  (forall k q, k < i -> nth_error vs k = Some q -> (0 < q)%Q) ->
  let rs := returns_1d_nb (map Fin vs) (Fin init) in
  (exists y, nth_error (cum_returns_1d_nb rs (Fin init)) i = Some y /\ is_number y v) /\
  (exists y, nth_error (cum_returns_1d_nb rs (Fin 0)) i = Some y /\ is_number y (v / init - 1)).
Proof. exact compounding_run. Qed.
Print Assumptions C43_compounding_restores_values.

(** Total return: final over initial value minus one. *)
Theorem C43_total_return : forall vs v init, (0 < init)%Q -> (forall q, In q vs -> (0 < q)%Q) ->
  let rs := returns_1d_nb (map Fin (vs ++ [v])) (Fin init) in
  is_number (total_return_apply_nb rs) (v / init - 1) /\
  is_number (cum_returns_final_1d_nb rs (Fin 0)) (v / init - 1) /\
  is_number (cum_returns_final_1d_nb rs (Fin init)) v.
Proof. exact total_of_values. Qed.
Print Assumptions C43_total_return.

(** Any returns, some of them missing: the cumulative series compounds the
    known returns so far. *)
Theorem C43_cumulative_meaning : forall rs s i x, no_infinity rs -> nth_error rs i = Some x ->
  exists y, nth_error (cum_returns_1d_nb rs (Fin s)) i = Some y /\
    is_number y (if Qeq_bool s 0 then wealth rs i - 1 else wealth rs i * s).
Proof. exact cum_run. Qed.
Print Assumptions C43_cumulative_meaning.

(** The final cumulative return is the last of the cumulative series. *)
Theorem C43_final_is_last : forall rs r s, no_infinity (rs ++ [r]) -> exists y z,
  nth_error (cum_returns_1d_nb (rs ++ [r]) (Fin s)) (length rs) = Some y /\
  is_number y z /\ is_number (cum_returns_final_1d_nb (rs ++ [r]) (Fin s)) z.
Proof. exact final_is_last. Qed.
Print Assumptions C43_final_is_last.

(** Cumulative returns never look ahead. *)
Theorem C43_causal : forall T (N : Num T) (vs : list T) init s n,
  returns_1d_nb (firstn n vs) init = firstn n (returns_1d_nb vs init) /\
  cum_returns_1d_nb (firstn n vs) s = firstn n (cum_returns_1d_nb vs s).
Proof. intros T N vs init s n. exact (conj (returns_firstn vs init n) (cum_firstn vs s n)). Qed.
Print Assumptions C43_causal.

Example C43_nonvacuous :
  let vs := [120; 90; 99]%Q in
  returns_1d_nb (map Fin vs) (Fin 100) = [Fin (1 # 5); Fin (-1 # 4); Fin (1 # 10)] /\
  cum_returns_1d_nb (returns_1d_nb (map Fin vs) (Fin 100)) (Fin 100) = map Fin vs /\
  total_return_apply_nb (returns_1d_nb (map Fin vs) (Fin 100)) = Fin (-1 # 100) /\
  (forall q, In q [120; 90]%Q -> (0 < q)%Q) /\
  cum_returns_1d_nb [Fin (1 # 2); NaN; Fin (-1 # 3)] (Fin 2) = [Fin 3; Fin 3; Fin 2] /\
  is_number (get_return_nb (Fin (-2)) (Fin 1)) (3 # 2).
Proof.
  cbv zeta. repeat split; try reflexivity.
  - intros q [<-|[<-|[]]]; reflexivity.
  - eexists. split; [reflexivity|]. reflexivity.
Qed.

(** ** C44 *)
(** The drawdown at a bar is the relative loss from the highest value reached at
    any bar so far; it lies between -1 and 0. *)
Theorem C44_drawdown_series : forall rs i, no_infinity rs -> solvent rs -> i < length rs ->
  exists y j, nth_error (drawdown_1d_nb rs) i = Some y /\ j <= i /\
    is_number y (wealth rs i / wealth rs j - 1) /\ (0 < wealth rs j)%Q /\
    forall k, k <= i -> (wealth rs k <= wealth rs j)%Q.
Proof. exact drawdown_run. Qed.
Print Assumptions C44_drawdown_series.

(** The maximum drawdown is the largest relative loss between two bars. *)
Theorem C44_max_drawdown : forall rs, no_infinity rs -> solvent rs -> rs <> [] ->
  exists y d, max_drawdown_1d_nb rs = Ok y /\ is_number y d /\ (-1 <= d <= 0)%Q /\
    (exists i j, j <= i < length rs /\ (0 < wealth rs j)%Q /\ (d == wealth rs i / wealth rs j - 1)%Q) /\
    forall i j, j <= i < length rs -> (0 < wealth rs j)%Q -> (d <= wealth rs i / wealth rs j - 1)%Q.
Proof. exact max_drawdown_run. Qed.
Print Assumptions C44_max_drawdown.

(** The loss from the starting capital on the first bar is not seen: capital
    that halves on the first bar has no drawdown. *)
Theorem C44_starting_capital_refuted :
  ~ (forall rs, no_infinity rs -> solvent rs -> rs <> [] ->
       exists y d, max_drawdown_1d_nb rs = Ok y /\ is_number y d /\
         forall i, i < length rs -> (d <= wealth rs i / 1 - 1)%Q).
Proof.
  intros H. destruct (H [Fin (-1 # 2); Fin 0]) as (y & d & E & (p & -> & Ep) & Hd).
  - intros x [<-|[<-|[]]]; split; discriminate.
  - split; [intros q [<-|[<-|[]]]; discriminate|reflexivity].
  - discriminate.
  - vm_compute in E. injection E as <-. specialize (Hd 0). rewrite <- Ep in Hd.
    apply Qle_bool_iff in Hd; [vm_compute in Hd; discriminate|cbn; lia].
Qed.
Print Assumptions C44_starting_capital_refuted.

(** Capital that is lost entirely on the first bar has no maximum drawdown at all. *)
Theorem C44_total_loss_first_bar_refuted :
  exists rs, (forall q, In q (vals rs) -> (-1 <= q)%Q) /\ rs <> [] /\ max_drawdown_1d_nb rs = Ok NaN.
Proof.
  exists [Fin (-1); Fin 0]. split; [|split; [discriminate|reflexivity]].
  intros q [<-|[<-|[]]]; discriminate.
Qed.
Print Assumptions C44_total_loss_first_bar_refuted.

Example C44_nonvacuous :
  let rs := [Fin (1 # 10); Fin (-1 # 2); NaN; Fin (1 # 2); Fin (-1)] in
  no_infinity rs /\ solvent rs /\ max_drawdown_1d_nb rs = Ok (Fin (-1)) /\
  drawdown_1d_nb rs = [Fin 0; Fin (-1 # 2); Fin (-1 # 2); Fin (-1 # 4); Fin (-1)].
Proof.
  cbv zeta. split; [|split; [|split; reflexivity]].
  - intros x [<-|[<-|[<-|[<-|[<-|[]]]]]]; split; discriminate.
  - split; [|reflexivity]. intros q [<-|[<-|[<-|[<-|[]]]]]; discriminate.
Qed.

(** ** C60 *)
(** A rolling statistic at a bar is the statistic of the last [w] bars, if they
    hold at least [minp] numbers, and NaN otherwise. For any number type and any
    function, including one that raises. *)
Theorem C60_rolling_is_window : forall T (N : Num T) (a : list T) w mp f out, rolling_apply_nb a w mp f = Ok out ->
  length out = length a /\
  forall i, i < length a -> exists y, nth_error out i = Some y /\
    let m := match mp with None => w | Some m => m end in
    (length (numbers (window w i a)) < m -> y = nan) /\
    (m <= length (numbers (window w i a)) -> f i (window w i a) = Ok y).
Proof. intros T N. exact (@rolling_apply_run T N). Qed.
Print Assumptions C60_rolling_is_window.

Theorem C60_rolling_accepts : forall T (N : Num T) (a : list T) w mp f,
  (forall i, i < length a -> exists y, f i (window w i a) = Ok y) ->
  exists out, rolling_apply_nb a w mp f = Ok out.
Proof. intros T N. exact (@rolling_apply_accepts T N). Qed.
Print Assumptions C60_rolling_accepts.

Theorem C60_rolling_causal : forall T (N : Num T) (a : list T) w mp f n out, rolling_apply_nb a w mp f = Ok out ->
  rolling_apply_nb (firstn n a) w mp f = Ok (firstn n out).
Proof. intros T N. exact (@rolling_apply_causal T N). Qed.
Print Assumptions C60_rolling_causal.

(** Rolling statistics against a benchmark pair up the same bars. *)
Theorem C60_benchmark_aligned : forall rs bs w mp out, length bs = length rs ->
  rolling_beta_nb rs w mp bs = Ok out -> forall i, i < length rs -> exists y, nth_error out i = Some y /\
    let m := match mp with None => w | Some m => m end in
    (length (numbers (window w i rs)) < m -> y = nan) /\
    (m <= length (numbers (window w i rs)) -> y = beta_1d_nb (window w i (combine rs bs))).
Proof. exact rolling_beta_run. Qed.
Print Assumptions C60_benchmark_aligned.

Example C60_nonvacuous :
  rolling_cum_returns_final_nb [Fin 1; NaN; Fin (-1 # 2); Fin 3] 3 (Some 2) (Fin 0) = Ok [NaN; NaN; Fin 0; Fin 1] /\
  rolling_max_drawdown_nb [Fin 1; Fin (-1 # 2); Fin 1] 2 None = Ok [NaN; Fin (-1 # 2); Fin 0] /\
  rolling_beta_nb [Fin 1; Fin 3; Fin 5] 2 None [Fin 0; Fin 1; Fin 3] = Ok [NaN; Fin 2; Fin 1].
Proof. repeat split; vm_compute; reflexivity. Qed.

(** ** C61 *)
(** Value at risk at cutoff [c] of [n] known returns: with [k] the integer part
    of [(n - 1) * c], at least [k + 1] returns are at most that value and at
    most [k + 1] are below it. *)
Theorem C61_value_at_risk : forall rs c, no_infinity rs -> vals rs <> [] -> (0 <= c <= 1)%Q ->
  exists v, value_at_risk_1d_nb xq_trunc rs (Fin c) = Ok (Fin v) /\
    let k := cutoff_rank (length (vals rs)) c in
    S k <= n_at_most v (vals rs) /\ n_below v (vals rs) <= S k.
Proof. exact var_counts. Qed.
Print Assumptions C61_value_at_risk.

(** Conditional value at risk of a series without missing returns: the mean of
    the [k + 1] lowest returns. *)
Theorem C61_conditional_value_at_risk : forall qs c, qs <> [] -> (0 <= c <= 1)%Q ->
  exists low high, Permutation qs (low ++ high) /\ length low = S (cutoff_rank (length qs) c) /\
    (forall x y, In x low -> In y high -> (x <= y)%Q) /\
    is_number (cond_value_at_risk_1d_nb xq_trunc (map Fin qs) (Fin c)) (mean low).
Proof. exact cvar_split. Qed.
Print Assumptions C61_conditional_value_at_risk.

(** It is never above the value at risk. *)
Theorem C61_conditional_not_above : forall qs c, qs <> [] -> (0 <= c <= 1)%Q -> exists cv v,
  is_number (cond_value_at_risk_1d_nb xq_trunc (map Fin qs) (Fin c)) cv /\
  value_at_risk_1d_nb xq_trunc (map Fin qs) (Fin c) = Ok (Fin v) /\ (cv <= v)%Q.
Proof. exact cvar_below_var. Qed.
Print Assumptions C61_conditional_not_above.

(** Missing returns are counted by the conditional value at risk but not by the
    value at risk: with them it can end up above. *)
Theorem C61_missing_returns_refuted :
  exists rs cv v, no_infinity rs /\
    cond_value_at_risk_1d_nb xq_trunc rs (Fin (1 # 20)) = Fin cv /\
    value_at_risk_1d_nb xq_trunc rs (Fin (1 # 20)) = Ok (Fin v) /\ (v < cv)%Q.
Proof.
  exists (Fin (-1) :: Fin 10 :: repeat NaN 19), (9 # 2), (-9 # 20). split.
  - intros x [<-|[<-|Hx]]; [split; discriminate|split; discriminate|]. apply repeat_spec in Hx as ->. split; discriminate.
  - split; [vm_compute; reflexivity|]. split; [vm_compute; reflexivity|reflexivity].
Qed.
Print Assumptions C61_missing_returns_refuted.

Example C61_nonvacuous :
  let qs := [3; -2; 1; 0; -5]%Q in
  value_at_risk_1d_nb xq_trunc (map Fin qs) (Fin (3 # 8)) = Ok (Fin (-1)) /\
  cond_value_at_risk_1d_nb xq_trunc (map Fin qs) (Fin (3 # 8)) = Fin (-7 # 2) /\
  cutoff_rank 5 (3 # 8) = 1 /\ n_at_most (-1) qs = 2 /\ n_below (-1) qs = 2.
Proof. cbv zeta. repeat split; vm_compute; reflexivity. Qed.

(** ** C62 *)
(** Beta is the covariance with the benchmark over the variance of the
    benchmark, taken over the bars at which both are known. *)
Theorem C62_beta : forall rb, no_infinite_pair rb -> 2 <= length rb ->
  ((1 # 10 ^ 30) <= variance 0 (map snd (pairs rb)))%Q ->
  is_number (beta_1d_nb rb) (covariance (pairs rb) / variance 0 (map snd (pairs rb))).
Proof. exact beta_run. Qed.
Print Assumptions C62_beta.

(** The beta of [a + k] times the benchmark is [k]. *)
Theorem C62_beta_of_levered_benchmark : forall a k bs, 2 <= length bs -> ((1 # 10 ^ 30) <= variance 0 bs)%Q ->
  is_number (beta_1d_nb (map (fun b => (Fin (a + k * b), Fin b)) bs)) k.
Proof. exact beta_levered. Qed.
Print Assumptions C62_beta_of_levered_benchmark.

Example C62_nonvacuous :
  let rb := [(Fin 1, Fin 0); (NaN, Fin 7); (Fin 4, Fin 1); (Fin 2, NaN); (Fin 4, Fin 2)] in
  beta_1d_nb rb = Fin (3 # 2) /\ no_infinite_pair rb /\
  Qle_bool (1 # 10 ^ 30) (variance 0 (map snd (pairs rb))) = true.
Proof.
  cbv zeta. split; [vm_compute; reflexivity|]. split; [|vm_compute; reflexivity].
  split; intros x Hx; cbn in Hx; repeat (destruct Hx as [<-|Hx]; [split; discriminate|]); contradiction.
Qed.

(** ** C63 *)
(** Missing returns do not count: total return, value at risk, tail, Sharpe,
    Sortino and Omega ratios and downside risk are those of the known returns. *)
Theorem C63_missing_returns_ignored : forall (pow : XQ -> XQ -> XQ) (sqrt : XQ -> XQ) (trunc : XQ -> Z) (rs : list XQ) af r ddof c rr,
  let known := drop_nan rs in
  total_return_apply_nb known = total_return_apply_nb rs /\
  (forall s, cum_returns_final_1d_nb known s = cum_returns_final_1d_nb rs s) /\
  value_at_risk_1d_nb trunc known c = value_at_risk_1d_nb trunc rs c /\
  tail_ratio_1d_nb trunc known = tail_ratio_1d_nb trunc rs /\
  (2 <= length known ->
     sharpe_ratio_1d_nb sqrt known af (Fin r) ddof = sharpe_ratio_1d_nb sqrt rs af (Fin r) ddof /\
     downside_risk_1d_nb sqrt known af (Fin r) = downside_risk_1d_nb sqrt rs af (Fin r) /\
     sortino_ratio_1d_nb sqrt known af (Fin r) = sortino_ratio_1d_nb sqrt rs af (Fin r)) /\
  (isinf (pow (add one rr) (div one af)) = false -> isinf rr = false ->
     omega_ratio_1d_nb pow known af (Fin r) rr = omega_ratio_1d_nb pow rs af (Fin r) rr).
Proof.
  intros pow sqrt trunc rs af r ddof c rr known.
  exact (conj (proj1 (missing_total rs)) (conj (proj2 (missing_total rs)) (conj (proj1 (missing_var trunc rs c))
    (conj (proj2 (missing_var trunc rs c)) (conj (missing_ratios sqrt rs af r ddof) (missing_omega pow rs af r rr)))))).
Qed.
Print Assumptions C63_missing_returns_ignored.

(** Annualisation does count them as bars. *)
Theorem C63_annualized_return_refuted :
  exists pow (rs : list XQ), annualized_return_1d_nb pow (drop_nan rs) (Fin 2) <> annualized_return_1d_nb pow rs (Fin 2).
Proof.
  (* squares for the exponent 2, the number itself for the exponent 1 *)
  exists (fun a e => if eqb e two then mul a a else a), [Fin 3; NaN]. vm_compute. discriminate.
Qed.
Print Assumptions C63_annualized_return_refuted.

Example C63_nonvacuous :
  let rs := [Fin 1; NaN; Fin (-1 # 2); NaN; Fin (1 # 4)] in
  drop_nan rs = [Fin 1; Fin (-1 # 2); Fin (1 # 4)] /\
  omega_ratio_1d_nb (fun _ _ => Fin 1) rs one (Fin 0) (Fin 0) = Ok (Fin (5 # 2)) /\
  downside_risk_1d_nb (fun x => x) rs (Fin 4) (Fin 0) = Fin (1 # 3).
Proof. cbv zeta. repeat split; vm_compute; reflexivity. Qed.
