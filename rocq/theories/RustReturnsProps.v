(** * C103: the engine does not change the statistics of returns *)
From Coq Require Import String ZArith QArith Bool List Arith.
From Verif Require Import Base Num XQFacts OrdLaws B64 GenericNb GenericSpec RustGeneric RustGenericSpec RustLabelsSpec ReturnsNb ReturnsSpec
  RustReturns RustReturnsSpec RustReturnsLemmas RustReturnsLemmas2 RustReturnsLemmas3 RustReturnsLemmas4 RustReturnsLemmas5.
Import ListNotations.
Local Open Scope nat_scope.

(** Returns, cumulative returns, total and annualized return of one series: the same
    in any arithmetic with one NaN that spreads, whatever [pow] computes. *)
Theorem C103_returns : forall T (N : Num T), OrdLaws N -> ieee_like N -> forall (pow : T -> T -> T) (value returns : list T) (init start ann_factor : T),
  rs_returns_1d value init = returns_1d_nb value init /\
  rs_cum_returns_1d returns start = cum_returns_1d_nb returns start /\
  rs_cum_returns_final_1d returns start = cum_returns_final_1d_nb returns start /\
  rs_annualized_return_1d pow returns ann_factor = annualized_return_1d_nb pow returns ann_factor.
Proof.
  intros T N L I pow value returns init start f.
  exact (conj (returns_1d_eq I value init) (conj (cum_returns_1d_eq returns start)
        (conj (cum_returns_final_1d_eq I returns start) (annualized_return_1d_eq I pow returns f)))).
Qed.
Print Assumptions C103_returns.

(** Downside risk and Sortino ratio, whatever [sqrt] computes of numbers. *)
Theorem C103_downside : forall T (N : Num T), OrdLaws N -> ieee_like N -> forall sqrt : T -> T, sqrt nan = nan ->
  forall (returns : list T) (ann_factor required_return : T),
  rs_downside_risk_1d sqrt returns ann_factor required_return = downside_risk_1d_nb sqrt returns ann_factor required_return /\
  rs_sortino_ratio_1d sqrt returns ann_factor required_return = sortino_ratio_1d_nb sqrt returns ann_factor required_return.
Proof.
  intros T N L I sqrt Hs returns f r. exact (conj (downside_risk_1d_eq I sqrt Hs returns f r) (sortino_ratio_1d_eq I sqrt Hs returns f r)).
Qed.
Print Assumptions C103_downside.

(** Beta, alpha and the three capture ratios against a benchmark of the same length. *)
Theorem C103_benchmark : forall T (N : Num T), OrdLaws N -> ieee_like N -> eqb (one : T) zero = false ->
  forall (pow : T -> T -> T) (returns benchmark : list T) (ann_factor risk_free : T), length returns = length benchmark ->
  rs_beta_1d returns benchmark = beta_1d_nb (combine returns benchmark) /\
  rs_alpha_1d pow returns benchmark ann_factor risk_free = alpha_1d_nb pow (combine returns benchmark) ann_factor risk_free /\
  rs_capture_1d pow returns benchmark ann_factor = capture_1d_nb pow (combine returns benchmark) ann_factor /\
  rs_up_capture_1d pow returns benchmark ann_factor = up_capture_1d_nb pow (combine returns benchmark) ann_factor /\
  rs_down_capture_1d pow returns benchmark ann_factor = down_capture_1d_nb pow (combine returns benchmark) ann_factor.
Proof.
  intros T N L I H1 pow r b f rf Hl.
  exact (conj (beta_1d_eq I r b Hl) (conj (alpha_1d_eq I pow r b f rf Hl) (conj (capture_1d_eq I pow H1 r b f Hl)
        (conj (up_capture_1d_eq I pow H1 r b f) (down_capture_1d_eq I pow H1 r b f))))).
Qed.
Print Assumptions C103_benchmark.

(** Conditional value at risk, unless the cutoff points past the end of the series. *)
Theorem C103_cond_value_at_risk : forall T (N : Num T), OrdLaws N -> ieee_like N -> forall (trunc : T -> Z) (returns : list T) (cutoff : T),
  (trunc (mul (ofZ (Z.of_nat (length returns) - 1)) cutoff) < Z.of_nat (length returns))%Z ->
  rs_cond_value_at_risk_1d trunc returns cutoff = Ok (cond_value_at_risk_1d_nb trunc returns cutoff).
Proof. intros T N L I. exact (cond_value_at_risk_1d_eq I). Qed.
Print Assumptions C103_cond_value_at_risk.

(** Arrays stored row by row, with at least one column: the loops that go through all
    the columns of a row at once give what Numba gives column by column. *)
Theorem C103_c_order : forall T (N : Num T), OrdLaws N -> ieee_like N -> eqb (one : T) zero = false ->
  forall (pow : T -> T -> T) nrows ncols (start ann_factor : T), 1 <= ncols ->
  (forall value init, length init = ncols -> exists out, rs_returns_2d_c value nrows ncols init = Ok out /\ c_order out nrows ncols /\
     forall c, c < ncols -> column out nrows ncols c = returns_1d_nb (column value nrows ncols c) (nth c init nan)) /\
  by_column (fun src => rs_cum_returns_2d_c src nrows ncols start) (fun a => cum_returns_1d_nb a start) nrows ncols /\
  reduces_columns (fun src => rs_cum_returns_final_2d_c src nrows ncols start) (fun a => cum_returns_final_1d_nb a start) nrows ncols /\
  reduces_columns (fun src => rs_annualized_return_2d_c pow src nrows ncols ann_factor) (fun a => annualized_return_1d_nb pow a ann_factor) nrows ncols /\
  reduces_columns2 (fun a b => Ok (rs_capture_2d_c pow a b nrows ncols ann_factor)) (fun a b => capture_1d_nb pow (combine a b) ann_factor) nrows ncols /\
  reduces_columns2 (fun a b => rs_filtered_capture_2d_c pow a b nrows ncols ann_factor true) (fun a b => up_capture_1d_nb pow (combine a b) ann_factor) nrows ncols /\
  reduces_columns2 (fun a b => rs_filtered_capture_2d_c pow a b nrows ncols ann_factor false) (fun a b => down_capture_1d_nb pow (combine a b) ann_factor) nrows ncols.
Proof.
  intros T N L I H1 pow nrows ncols start f Hn.
  exact (conj (fun value init => returns_2d_ok I value nrows ncols init) (conj (cum_returns_2d_ok nrows ncols start)
        (conj (cum_returns_final_2d_ok I nrows ncols start Hn) (conj (annualized_return_2d_ok I pow H1 nrows ncols f Hn)
        (conj (capture_2d_ok I pow H1 nrows ncols f) (conj (filtered_capture_2d_ok I pow H1 nrows ncols f true Hn) (filtered_capture_2d_ok I pow H1 nrows ncols f false Hn))))))).
Qed.
Print Assumptions C103_c_order.

(** Both arithmetics of the model have these laws. *)
Theorem C103_arithmetics : ieee_like XQnum /\ ieee_like B64num.
Proof. exact (conj xq_ieee b64_ieee). Qed.
Print Assumptions C103_arithmetics.

(** Volatility, Sharpe ratio and information ratio in exact arithmetic, of a series and
    of an array stored row by row; [ddof] is any degree of freedom. *)
Theorem C103_deviations : forall (pow : XQ -> XQ -> XQ) (sqrt : XQ -> XQ), sqrt nan = nan -> forall ann_factor levy_alpha risk_free ddof,
  eqb levy_alpha zero = false ->
  (forall returns, annualized_volatility_1d_nb pow sqrt returns ann_factor levy_alpha (Z.of_nat ddof) =
                   Ok (rs_annualized_volatility_1d pow sqrt returns ann_factor levy_alpha ddof)) /\
  (forall returns, rs_sharpe_ratio_1d sqrt returns ann_factor risk_free ddof = sharpe_ratio_1d_nb sqrt returns ann_factor risk_free (Z.of_nat ddof)) /\
  (forall returns benchmark, length returns = length benchmark ->
     rs_information_ratio_1d sqrt returns benchmark ddof = information_ratio_1d_nb sqrt (combine returns benchmark) (Z.of_nat ddof)) /\
  (forall nrows ncols, 1 <= ncols ->
     reduces_columns (fun src => rs_annualized_volatility_2d_c pow sqrt src nrows ncols ann_factor levy_alpha ddof)
       (fun a => match annualized_volatility_1d_nb pow sqrt a ann_factor levy_alpha (Z.of_nat ddof) with Ok v => v | Err _ => nan end) nrows ncols /\
     reduces_columns (fun src => rs_sharpe_ratio_2d_c sqrt src nrows ncols ann_factor risk_free ddof)
       (fun a => sharpe_ratio_1d_nb sqrt a ann_factor risk_free (Z.of_nat ddof)) nrows ncols /\
     reduces_columns2 (fun a b => rs_information_ratio_2d_c sqrt a b nrows ncols ddof)
       (fun a b => information_ratio_1d_nb sqrt (combine a b) (Z.of_nat ddof)) nrows ncols).
Proof.
  intros pow sqrt Hs f alpha rf ddof Ha. split; [|split; [|split]].
  - intros returns. exact (volatility_1d_eq pow sqrt Hs returns f alpha ddof Ha).
  - intros returns. exact (sharpe_1d_eq sqrt Hs returns f rf ddof).
  - intros r b. exact (information_1d_eq sqrt Hs r b ddof).
  - intros nrows ncols Hn. split; [|exact (conj (sharpe_2d_ok sqrt nrows ncols f rf ddof Hn) (information_2d_ok sqrt nrows ncols ddof Hn))].
    intros src Hsrc. destruct (volatility_2d_ok pow sqrt Hs nrows ncols f alpha ddof Hn src Hsrc) as (out & E & ->).
    eexists; split; [exact E|]. apply map_ext. intros c. rewrite (volatility_1d_eq pow sqrt Hs _ f alpha ddof Ha). reflexivity.
Qed.
Print Assumptions C103_deviations.

(** Drawdowns, the largest one, the Calmar ratio and the omega ratio in exact arithmetic. *)
Theorem C103_drawdowns : forall (pow : XQ -> XQ -> XQ) (returns : list XQ) ann_factor risk_free required_return,
  drawdown_1d_nb returns = rs_drawdown_1d returns /\
  (returns <> [] -> max_drawdown_1d_nb returns = Ok (rs_max_drawdown_1d returns) /\
                    calmar_ratio_1d_nb pow returns ann_factor = Ok (rs_calmar_ratio_1d pow returns ann_factor)) /\
  unless_zero_division (Ok (rs_omega_ratio_1d pow returns ann_factor risk_free required_return)) (omega_ratio_1d_nb pow returns ann_factor risk_free required_return).
Proof.
  intros pow returns f rf rr. split; [exact (drawdown_eq returns)|split; [|exact (omega_eq pow returns f rf rr)]].
  intros Hr. exact (conj (max_drawdown_eq returns Hr) (calmar_eq pow returns f Hr)).
Qed.
Print Assumptions C103_drawdowns.

(** Value at risk and tail ratio of numbers and NaN: equal in exact arithmetic, although
    one engine interpolates from the rank rounded down and the other between floor and ceiling. *)
Theorem C103_quantiles : forall returns cutoff, no_infinity returns -> (0 <= cutoff <= 1)%Q ->
  both_agree (rs_value_at_risk_1d xq_floor xq_ceil returns (Fin cutoff)) (value_at_risk_1d_nb xq_trunc returns (Fin cutoff)) /\
  both_agree (rs_tail_ratio_1d xq_floor xq_ceil returns) (tail_ratio_1d_nb xq_trunc returns).
Proof. intros returns c Hr Hc. exact (conj (value_at_risk_agrees returns c Hr Hc) (tail_ratio_agrees returns Hr)). Qed.
Print Assumptions C103_quantiles.

(** Rolling statistics, for a [minp] that fits into the window: if the two engines agree on
    every window, they agree on the rolled series. *)
Theorem C103_rolling : forall T (N : Num T) (returns benchmark : list T) window minp rust numba rust2 numba2, or_default minp window <= window -> length returns = length benchmark ->
  ((forall i, i < length returns -> numba i (slice (S i - window) (S i) returns) = Ok (rust (slice (S i - window) (S i) returns))) ->
     rolling_apply_nb returns window minp numba = rs_rolling_apply returns window minp rust) /\
  ((forall x y, length x = length y -> numba2 (combine x y) = Ok (rust2 x y)) ->
     rolling_apply_nb returns window minp (with_benchmark benchmark numba2) = rs_rolling_apply_pair returns benchmark window minp rust2).
Proof.
  intros T N r b window minp k1 k2 k3 k4 Hm Hl. exact (conj (rolling_apply_eq r window minp k1 k2 Hm) (rolling_pair_eq r b window minp k3 k4 Hl Hm)).
Qed.
Print Assumptions C103_rolling.
(** The hypothesis is met by the statistics above: *)
Theorem C103_rolling_statistics : forall (pow : XQ -> XQ -> XQ) (sqrt : XQ -> XQ), sqrt nan = nan ->
  forall (returns benchmark : list XQ) window minp f alpha rf ddof, 1 <= window -> or_default minp window <= window -> length returns = length benchmark -> eqb alpha zero = false ->
  rolling_cum_returns_final_nb returns window minp f = rs_rolling_apply returns window minp (fun w => rs_cum_returns_final_1d w f) /\
  rolling_max_drawdown_nb returns window minp = rs_rolling_apply returns window minp rs_max_drawdown_1d /\
  rolling_apply_nb returns window minp (fun _ w => annualized_volatility_1d_nb pow sqrt w f alpha (Z.of_nat ddof)) =
    rs_rolling_apply returns window minp (fun w => rs_annualized_volatility_1d pow sqrt w f alpha ddof) /\
  rolling_apply_nb returns window minp (fun _ w => calmar_ratio_1d_nb pow w f) = rs_rolling_apply returns window minp (fun w => rs_calmar_ratio_1d pow w f) /\
  rolling_apply_nb returns window minp (fun _ w => Ok (sharpe_ratio_1d_nb sqrt w f rf (Z.of_nat ddof))) =
    rs_rolling_apply returns window minp (fun w => rs_sharpe_ratio_1d sqrt w f rf ddof) /\
  rolling_beta_nb returns window minp benchmark = rs_rolling_apply_pair returns benchmark window minp rs_beta_1d /\
  rolling_apply_nb returns window minp (with_benchmark benchmark (fun rb => Ok (information_ratio_1d_nb sqrt rb (Z.of_nat ddof)))) =
    rs_rolling_apply_pair returns benchmark window minp (fun r b => rs_information_ratio_1d sqrt r b ddof).
Proof.
  intros pow sqrt Hs r b window minp f alpha rf ddof Hw Hm Hl Ha. repeat split.
  - apply (rolling_apply_eq); auto. intros i Hi. rewrite (cum_returns_final_1d_eq xq_ieee). reflexivity.
  - apply (rolling_apply_eq); auto. intros i Hi. apply max_drawdown_eq. apply window_nonempty; auto.
  - apply (rolling_apply_eq); auto. intros i Hi. apply volatility_1d_eq; auto.
  - apply (rolling_apply_eq); auto. intros i Hi. apply calmar_eq. apply window_nonempty; auto.
  - apply (rolling_apply_eq); auto. intros i Hi. rewrite sharpe_1d_eq by auto. reflexivity.
  - apply (rolling_pair_eq); auto. intros x y H. rewrite (beta_1d_eq xq_ieee) by auto. reflexivity.
  - apply (rolling_pair_eq); auto. intros x y H. rewrite information_1d_eq by auto. reflexivity.
Qed.
Print Assumptions C103_rolling_statistics.

(** ** Where the engines part *)

(** Without columns Rust panics, Numba returns no values. *)
Theorem C103_no_columns_refuted : exists e, rs_cum_returns_final_2d_c [] 3 0 (Fin 0) = Err e.
Proof. eexists. vm_compute. reflexivity. Qed.
Print Assumptions C103_no_columns_refuted.

(** [minp] above the window: an exception in Rust, NaN everywhere in Numba. *)
Theorem C103_minp_refuted : exists e, rs_rolling_apply [Fin 1; Fin 2] 1 (Some 2) (fun w => rs_cum_returns_final_1d w (Fin 0)) = Err e /\
  rolling_cum_returns_final_nb [Fin 1; Fin 2] 1 (Some 2) (Fin 0) = Ok [NaN; NaN].
Proof. eexists. split; vm_compute; reflexivity. Qed.
Print Assumptions C103_minp_refuted.

(** A negative cutoff: the smallest return in Rust, an exception in Numba. *)
Theorem C103_cutoff_refuted : exists e, rs_value_at_risk_1d xq_floor xq_ceil [Fin 2; Fin 1; Fin 3] (Fin (-1)) = Ok (Fin 1) /\
  value_at_risk_1d_nb xq_trunc [Fin 2; Fin 1; Fin 3] (Fin (-1)) = Err e.
Proof. eexists. split; vm_compute; reflexivity. Qed.
Print Assumptions C103_cutoff_refuted.

(** No returns, as in a window of zero bars: a drawdown of infinity in Rust, an exception in Numba. *)
Theorem C103_empty_refuted : exists e, rs_max_drawdown_1d (@nil XQ) = PInf /\ max_drawdown_1d_nb (@nil XQ) = Err e.
Proof. eexists. split; vm_compute; reflexivity. Qed.
Print Assumptions C103_empty_refuted.
(** Levy's alpha zero: an exception in Numba only. *)
Theorem C103_levy_refuted : forall pow sqrt, pow (Fin 365) PInf = Fin 3 -> sqrt (Fin (1#2)) = Fin 1 ->
  annualized_volatility_1d_nb pow sqrt [Fin 1; Fin 2] (Fin 365) (Fin 0) 1 = Err ZeroDivision /\
  rs_annualized_volatility_1d pow sqrt [Fin 1; Fin 2] (Fin 365) (Fin 0) 1 = Fin 3.
Proof.
  intros pow sqrt Hp Hs. split; [reflexivity|].
  change (mul (sqrt (Fin (1#2))) (pow (Fin 365) PInf) = Fin 3). rewrite Hp, Hs. reflexivity.
Qed.
Print Assumptions C103_levy_refuted.

(** ** The statements are not vacuous *)
Example C103_nonvacuous :
  let returns := [Fin (1#10); NaN; Fin (-1#5); Fin (1#4)] in
  let benchmark := [Fin (1#20); Fin (1#10); Fin (-1#10); Fin (1#5)] in
  rs_returns_1d [Fin 10; Fin 11; Fin 22; Fin 11] (Fin 10) = [Fin 0; Fin (1#10); Fin 1; Fin (-1#2)] /\
  rs_cum_returns_final_1d returns (Fin 0) = Fin (1#10) /\
  rs_drawdown_1d returns = [Fin 0; Fin 0; Fin (-1#5); Fin 0] /\
  rs_max_drawdown_1d returns = Fin (-1#5) /\
  rs_value_at_risk_1d xq_floor xq_ceil returns (Fin (1#4)) = Ok (Fin (-1#20)) /\
  value_at_risk_1d_nb xq_trunc returns (Fin (1#4)) = Ok (Fin (-1#20)) /\
  rs_beta_1d [Fin 1; Fin 2; Fin 3] [Fin 2; Fin 4; Fin 6] = Fin (1#2) /\
  rs_cum_returns_final_2d_c [Fin 1; Fin 2; NaN; Fin 0] 2 2 (Fin 0) = Ok [Fin 1; Fin 2] /\
  rs_rolling_apply returns 2 (Some 1) (fun w => rs_cum_returns_final_1d w (Fin 0)) = Ok [Fin (1#10); Fin (1#10); Fin (-1#5); Fin 0] /\
  length returns = length benchmark /\ no_infinity returns.
Proof.
  cbv zeta. repeat (split; [vm_compute; reflexivity|]). unfold no_infinity. cbn [In]. intuition (try discriminate; subst; discriminate).
Qed.
