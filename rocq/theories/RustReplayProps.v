(** * Account and performance with both engines (C82)

    Every statement holds for exact numbers and, with the suffix [_f64], bit by bit
    for doubles, unless said otherwise. *)
From Coq Require Import ZArith QArith List Arith.
From Flocq Require Import BinarySingleNaN.
From Verif Require Import Base Num B64 XQFacts Order RustOrder RustLemmas RustLawsXQ RustLawsB64 Replay Simulate Performance
  PerformanceSpec RustTradesSamples RustReplay RustReplayLemmas.
Import ListNotations.
Open Scope list_scope.
Local Open Scope nat_scope.

(** Asset flow: the same shares at every bar, or the same refusal *)
Theorem C82_asset_flow_agrees : forall direction (recs : list (OrderRec XQ)) col,
  @rs_asset_flow _ XQnum XQrust direction recs col = @asset_flow_nb _ XQnum direction recs col.
Proof. exact (@asset_flow_eq _ XQnum XQrust XQrustlaws). Qed.
Print Assumptions C82_asset_flow_agrees.

Theorem C82_asset_flow_agrees_f64 : forall direction (recs : list (OrderRec f64)) col,
  @rs_asset_flow _ B64num B64rust direction recs col = @asset_flow_nb _ B64num direction recs col.
Proof. exact (@asset_flow_eq _ B64num B64rust B64rustlaws). Qed.
Print Assumptions C82_asset_flow_agrees_f64.

(** Cash flow, of all cash or of free cash *)
Theorem C82_cash_flow_agrees : forall free (recs : list (OrderRec XQ)) col,
  @cash_flow_nb _ XQnum free recs col <> Err ZeroDivision ->
  @rs_cash_flow _ XQnum XQrust free recs col = @cash_flow_nb _ XQnum free recs col.
Proof. exact (fun free recs col H => match @cash_flow_agrees _ XQnum XQrust XQrustlaws free recs col with or_introl E => match H E with end | or_intror E => E end). Qed.
Print Assumptions C82_cash_flow_agrees.

Theorem C82_cash_flow_agrees_f64 : forall free (recs : list (OrderRec f64)) col,
  @cash_flow_nb _ B64num free recs col <> Err ZeroDivision ->
  @rs_cash_flow _ B64num B64rust free recs col = @cash_flow_nb _ B64num free recs col.
Proof. exact (fun free recs col H => match @cash_flow_agrees _ B64num B64rust B64rustlaws free recs col with or_introl E => match H E with end | or_intror E => E end). Qed.
Print Assumptions C82_cash_flow_agrees_f64.

(** Assets, cash, and cash in the order of the simulation *)
Theorem C82_balances_agree : forall (flow : nat -> XQ) (flows : nat -> nat -> XQ) cs from len init i k,
  @rs_assets _ XQnum XQrust flow i = @assets_nb _ XQnum flow i /\
  @rs_cash _ XQnum XQrust flow init i = @cash_nb _ XQnum flow init i /\
  @rs_cash_in_sim_order _ XQnum XQrust flows cs from len init i k = @cash_in_sim_order_nb _ XQnum flows cs from len init i k.
Proof. exact (fun flow flows cs from len init i k => conj (@assets_eq _ XQnum XQrust XQrustlaws flow i)
  (conj (@cash_eq _ XQnum XQrust XQrustlaws flow init i) (@cash_iso_eq _ XQnum XQrust XQrustlaws flows cs from len init i k))). Qed.
Print Assumptions C82_balances_agree.

Theorem C82_balances_agree_f64 : forall (flow : nat -> f64) (flows : nat -> nat -> f64) cs from len init i k,
  @rs_assets _ B64num B64rust flow i = @assets_nb _ B64num flow i /\
  @rs_cash _ B64num B64rust flow init i = @cash_nb _ B64num flow init i /\
  @rs_cash_in_sim_order _ B64num B64rust flows cs from len init i k = @cash_in_sim_order_nb _ B64num flows cs from len init i k.
Proof. exact (fun flow flows cs from len init i k => conj (@assets_eq _ B64num B64rust B64rustlaws flow i)
  (conj (@cash_eq _ B64num B64rust B64rustlaws flow init i) (@cash_iso_eq _ B64num B64rust B64rustlaws flows cs from len init i k))). Qed.
Print Assumptions C82_balances_agree_f64.

(** The initial cash of every column, if groups have columns and their cash is known *)
Theorem C82_initial_cash_agrees : forall (init : nat -> XQ) lens sharing, Forall (fun n => 0 < n) lens ->
  (forall g, g < length lens -> @isnan _ XQnum (init g) = false) ->
  @rs_init_cash _ XQnum init lens sharing = @init_cash_nb _ XQnum init lens sharing.
Proof. exact (fun init lens sharing => @init_cash_eq _ XQnum init lens sharing eq_refl). Qed.
Print Assumptions C82_initial_cash_agrees.

Theorem C82_initial_cash_agrees_f64 : forall (init : nat -> f64) lens sharing, Forall (fun n => 0 < n) lens ->
  (forall g, g < length lens -> @isnan _ B64num (init g) = false) ->
  @rs_init_cash _ B64num init lens sharing = @init_cash_nb _ B64num init lens sharing.
Proof. exact (fun init lens sharing => @init_cash_eq _ B64num init lens sharing eq_refl). Qed.
Print Assumptions C82_initial_cash_agrees_f64.

(** Value and returns in the order of the simulation, if the groups cover the columns *)
Theorem C82_values_in_simulation_order_agree : forall nrows ncols (cash values : nat -> nat -> XQ) init lens cs empty,
  sum_lens lens = ncols ->
  @value_in_sim_order_nb _ XQnum nrows ncols cash values lens cs empty =
    Ok (@rs_value_in_sim_order _ XQnum nrows cash values lens cs empty) /\
  @returns_in_sim_order_nb _ XQnum nrows ncols values lens init cs empty =
    Ok (@rs_returns_in_sim_order _ XQnum XQrust nrows values lens init cs empty).
Proof. exact (fun nrows ncols cash values init lens cs empty H =>
  conj (@value_iso_eq _ XQnum nrows ncols cash values lens cs empty H)
    (@returns_iso_eq _ XQnum XQrust XQrustlaws nrows ncols values lens init cs empty H)). Qed.
Print Assumptions C82_values_in_simulation_order_agree.

Theorem C82_values_in_simulation_order_agree_f64 : forall nrows ncols (cash values : nat -> nat -> f64) init lens cs empty,
  sum_lens lens = ncols ->
  @value_in_sim_order_nb _ B64num nrows ncols cash values lens cs empty =
    Ok (@rs_value_in_sim_order _ B64num nrows cash values lens cs empty) /\
  @returns_in_sim_order_nb _ B64num nrows ncols values lens init cs empty =
    Ok (@rs_returns_in_sim_order _ B64num B64rust nrows values lens init cs empty).
Proof. exact (fun nrows ncols cash values init lens cs empty H =>
  conj (@value_iso_eq _ B64num nrows ncols cash values lens cs empty H)
    (@returns_iso_eq _ B64num B64rust B64rustlaws nrows ncols values lens init cs empty H)). Qed.
Print Assumptions C82_values_in_simulation_order_agree_f64.

(** Total profit of columns and groups *)
Theorem C82_total_profit_agrees : (forall last_close (recs : list (OrderRec XQ)) col,
    @rs_total_profit _ XQnum XQrust last_close recs col = @total_profit_nb _ XQnum last_close recs col) /\
  (forall ncols (profit : nat -> XQ) lens empty, sum_lens lens = ncols ->
    exists out, @total_profit_grouped_nb _ XQnum ncols profit lens empty = Ok out /\
      forall g, out g = @rs_total_profit_grouped _ XQnum profit lens empty g).
Proof. exact (conj (@total_profit_eq _ XQnum XQrust XQrustlaws) (@total_profit_grouped_eq _ XQnum)). Qed.
Print Assumptions C82_total_profit_agrees.

Theorem C82_total_profit_agrees_f64 : (forall last_close (recs : list (OrderRec f64)) col,
    @rs_total_profit _ B64num B64rust last_close recs col = @total_profit_nb _ B64num last_close recs col) /\
  (forall ncols (profit : nat -> f64) lens empty, sum_lens lens = ncols ->
    exists out, @total_profit_grouped_nb _ B64num ncols profit lens empty = Ok out /\
      forall g, out g = @rs_total_profit_grouped _ B64num profit lens empty g).
Proof. exact (conj (@total_profit_eq _ B64num B64rust B64rustlaws) (@total_profit_grouped_eq _ B64num)). Qed.
Print Assumptions C82_total_profit_agrees_f64.

(** Asset returns, the benchmark of groups, benchmark return and gross exposure *)
Theorem C82_ratios_agree : forall (flow values : nat -> XQ) (close : nat -> nat -> XQ) from len init cash i,
  @rs_asset_returns _ XQnum XQrust flow values i = @asset_returns_nb _ XQnum flow values i /\
  (@benchmark_value_grouped_nb _ XQnum close from len init i = Err ZeroDivision \/
   @benchmark_value_grouped_nb _ XQnum close from len init i = Ok (@rs_benchmark_value_grouped _ XQnum close from len init i)) /\
  @rs_total_benchmark_return _ XQnum XQrust values i = @total_benchmark_return_nb _ XQnum values i /\
  @rs_gross_exposure _ XQnum XQrust (values i) cash = @gross_exposure_nb _ XQnum (values i) cash.
Proof. exact (fun flow values close from len init cash i => conj (@asset_returns_eq _ XQnum XQrust XQrustlaws flow values i)
  (conj (match @benchmark_grouped_agrees _ XQnum close from len init i with or_introl E => or_introl E | or_intror E => or_intror (eq_sym E) end)
  (conj (@benchmark_return_eq _ XQnum XQrust XQrustlaws values i) (@exposure_eq _ XQnum XQrust XQrustlaws (values i) cash)))). Qed.
Print Assumptions C82_ratios_agree.

Theorem C82_ratios_agree_f64 : forall (flow values : nat -> f64) (close : nat -> nat -> f64) from len init cash i,
  @rs_asset_returns _ B64num B64rust flow values i = @asset_returns_nb _ B64num flow values i /\
  (@benchmark_value_grouped_nb _ B64num close from len init i = Err ZeroDivision \/
   @benchmark_value_grouped_nb _ B64num close from len init i = Ok (@rs_benchmark_value_grouped _ B64num close from len init i)) /\
  @rs_total_benchmark_return _ B64num B64rust values i = @total_benchmark_return_nb _ B64num values i /\
  @rs_gross_exposure _ B64num B64rust (values i) cash = @gross_exposure_nb _ B64num (values i) cash.
Proof. exact (fun flow values close from len init cash i => conj (@asset_returns_eq _ B64num B64rust B64rustlaws flow values i)
  (conj (match @benchmark_grouped_agrees _ B64num close from len init i with or_introl E => or_introl E | or_intror E => or_intror (eq_sym E) end)
  (conj (@benchmark_return_eq _ B64num B64rust B64rustlaws values i) (@exposure_eq _ B64num B64rust B64rustlaws (values i) cash)))). Qed.
Print Assumptions C82_ratios_agree_f64.

(** The benchmark of a column agrees in exact arithmetic, ... *)
Theorem C82_benchmark_agrees : forall close i p0 p c0, close 0 = Fin p0 -> close i = Fin p -> ~ (p0 == 0)%Q ->
  rs_benchmark_value close (Fin c0) i = benchmark_value_nb close (Fin c0) i.
Proof. exact benchmark_eq. Qed.
Print Assumptions C82_benchmark_agrees.

(** ... but not on doubles: Numba computes [close / close[0] * cash], Rust
    [close * (cash / close[0])]. With prices 3 and 1 and cash of 100 they differ. *)
Theorem C82_benchmark_rounding_refuted :
  let close i := b64_ofZ (match i with 0%nat => 3 | _ => 1 end) in
  @ltb _ B64num (@benchmark_value_nb _ B64num close (b64_ofZ 100) 1)
    (@rs_benchmark_value _ B64num close (b64_ofZ 100) 1) = true.
Proof. vm_compute. reflexivity. Qed.
Print Assumptions C82_benchmark_rounding_refuted.

(** Cash that is not known: Numba gives the columns of the second group that of the
    first, Rust gives them none. *)
Theorem C82_unknown_cash_refuted :
  let init g := match g with 0 => Fin 100 | _ => NaN end in
  init_cash_nb init [1; 2] true = [Fin 100; Fin 100; Fin 100] /\
  rs_init_cash init [1; 2] true = [Fin 100; NaN; NaN].
Proof. split; reflexivity. Qed.
Print Assumptions C82_unknown_cash_refuted.

(** Groups that do not cover the columns: Numba refuses, Rust leaves the rest of the
    result as it is in memory. *)
Theorem C82_groups_not_checked_refuted : forall empty : nat -> nat -> XQ,
  (exists e, value_in_sim_order_nb 1 2 (fun _ _ => Fin 1) (fun _ _ => Fin 1) [1] (fun _ _ => 0) empty = Err e) /\
  rs_value_in_sim_order 1 (fun _ _ => Fin 1) (fun _ _ => Fin 1) [1] (fun _ _ => 0) empty 0 0 = Fin 2 /\
  rs_value_in_sim_order 1 (fun _ _ => Fin 1) (fun _ _ => Fin 1) [1] (fun _ _ => 0) empty 0 1 = empty 0 1.
Proof. intros empty. split; [eexists; reflexivity|split; reflexivity]. Qed.
Print Assumptions C82_groups_not_checked_refuted.

(** The sample orders in a portfolio of doubles: no division by zero, and flows,
    profits and values that are not trivial *)
Definition sample_account := @sample_orders f64 b64_ofZ.

Example C82_nonvacuous :
  match @asset_flow_nb _ B64num BothDir sample_account 0 with
  | Ok flow => b64_eqb (flow 3) (b64_ofZ (-10)) | Err _ => false end = true /\
  match @cash_flow_nb _ B64num false sample_account 0 with
  | Ok flow => b64_eqb (flow 0) (b64_ofZ (-41)) | Err _ => false end = true /\
  is_ok (@cash_flow_nb _ B64num true sample_account 0) = true /\
  Forall (fun n => 0 < n) [2; 1] /\ sum_lens [2; 1] = 3.
Proof.
  split; [vm_compute; reflexivity|]. split; [vm_compute; reflexivity|]. split; [vm_compute; reflexivity|].
  split; [repeat constructor|reflexivity].
Qed.
