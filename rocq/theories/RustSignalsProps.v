(** * From signals with both engines *)
From Coq Require Import String ZArith QArith List.
From Flocq Require Import BinarySingleNaN.
From Verif Require Import Base Num B64 XQFacts MathNb Order CallSeq Simulate FromSignals RustOrder RustSim RustSpec RustSimRuns RustSignals
  RustSignalsSpec RustSignalsRuns.
Import ListNotations.
Open Scope string_scope.
Open Scope list_scope.
Local Open Scope nat_scope.

(** A simulation from signals, with or without stops, returns the same order
    records, log records and call sequence with both engines, or raises an
    exception with the same message in both, unless Numba divides by zero. *)
Theorem C78_signals_agree : forall draws rng nrows ncols group_lens init_cash arrays (inp : SigInputs XQ) fl max_orders max_logs,
  comparable_signals nrows ncols init_cash (si_base inp) (auto_call_seq (sf_base fl)) ->
  (forall n, In n group_lens -> 0 < n) ->
  simulate_from_signals_nb draws rng nrows ncols group_lens init_cash arrays inp fl max_orders max_logs <> Err ZeroDivision ->
  rs_simulate_from_signals draws rng nrows ncols group_lens init_cash arrays inp (use_stops fl) (auto_call_seq (sf_base fl))
    (ffill_val_price (sf_base fl)) (update_value (sf_base fl)) max_orders max_logs =
  rust_outcome (simulate_from_signals_nb draws rng nrows ncols group_lens init_cash arrays inp fl max_orders max_logs).
Proof. exact signals_same. Qed.
Print Assumptions C78_signals_agree.

(** The same on doubles, bit by bit. *)
Theorem C78_signals_agree_f64 : forall draws rng nrows ncols group_lens init_cash arrays (inp : SigInputs f64) fl max_orders max_logs,
  comparable_signals_f64 nrows ncols (si_base inp) (auto_call_seq (sf_base fl)) ->
  (forall n, In n group_lens -> 0 < n) ->
  @simulate_from_signals_nb _ B64num draws rng nrows ncols group_lens init_cash arrays inp fl max_orders max_logs <> Err ZeroDivision ->
  @rs_simulate_from_signals _ B64num B64rust draws rng nrows ncols group_lens init_cash arrays inp (use_stops fl)
    (auto_call_seq (sf_base fl)) (ffill_val_price (sf_base fl)) (update_value (sf_base fl)) max_orders max_logs =
  rust_outcome (@simulate_from_signals_nb _ B64num draws rng nrows ncols group_lens init_cash arrays inp fl max_orders max_logs).
Proof. exact signals_same_f64. Qed.
Print Assumptions C78_signals_agree_f64.

Example C78_signals_nonvacuous :
  comparable_signals 5 3 [Fin 100; Fin 50] (si_base (sig_inputs Amount NaN (fun _ _ => PInf))) true /\
  (match simulate_from_signals_nb half_draws 0 5 3 [2; 1] [Fin 100; Fin 50] sig_arrays (sig_inputs Amount NaN (fun _ _ => PInf))
           (mkSigFlags (mkFlags true true false) true) None 20 with
   | Ok (orders, _, call_seq) =>
       map (fun o => (or_idx o, or_col o)) orders = [(0, 0); (0, 1); (1, 1); (3, 0); (0, 2); (4, 2)] /\
       call_seq 1 0 = 1 /\ call_seq 1 1 = 0
   | Err _ => False
   end) /\
  comparable_signals_f64 5 3 (si_base (@sig_inputs _ B64num Amount B754_nan (fun _ _ => B754_infinity false))) false /\
  (match @simulate_from_signals_nb _ B64num (fun _ => b64_ofZ 0) 0 5 3 [1; 1; 1] [b64_ofZ 100; b64_ofZ 50; b64_ofZ 50] sig_arrays
           (@sig_inputs _ B64num Amount B754_nan (fun _ _ => B754_infinity false)) (mkSigFlags (mkFlags false true true) true) None 20 with
   | Ok (orders, _, _) => map (fun o => (or_idx o, or_col o)) orders = [(0, 0); (3, 0); (0, 1); (1, 1); (0, 2); (4, 2)]
   | Err _ => False
   end).
Proof. exact signal_runs. Qed.

(** The exceptions are not always of the same class: a negative take-profit is
    a ValueError in one engine and a RejectedOrderError in the other. *)
Theorem C78_error_class_refuted : exists (inp : SigInputs XQ) fl,
  comparable_signals 2 1 [Fin 100] (si_base inp) false /\ auto_call_seq (sf_base fl) = false /\
  simulate_from_signals_nb half_draws 0 2 1 [1] [Fin 100] sig_arrays inp fl None 0 =
    Err (ValueError "Stop value must be 0 or greater") /\
  rs_simulate_from_signals half_draws 0 2 1 [1] [Fin 100] sig_arrays inp (use_stops fl) false
    (ffill_val_price (sf_base fl)) (update_value (sf_base fl)) None 0 =
    Err (RejectedOrder "Stop value must be 0 or greater").
Proof. exact error_kind_differs. Qed.
Print Assumptions C78_error_class_refuted.

(** A long position worth 2 is reversed while the valuation price is zero:
    Numba raises ZeroDivisionError, Rust goes short with all free cash. *)
Theorem C78_zero_price_refuted : exists (inp : SigInputs XQ) fl,
  comparable_signals 2 1 [Fin 100] (si_base inp) false /\ auto_call_seq (sf_base fl) = false /\
  simulate_from_signals_nb half_draws 0 2 1 [1] [Fin 100] flip_arrays inp fl None 2 = Err ZeroDivision /\
  (match rs_simulate_from_signals half_draws 0 2 1 [1] [Fin 100] flip_arrays inp (use_stops fl) false
           (ffill_val_price (sf_base fl)) (update_value (sf_base fl)) None 2 with
   | Ok ([o1; o2], [_; l2], _) => or_side o2 = Some Sell /\ o_size (lg_req l2) = NInf /\ or_price o2 = Fin 12 /\
       ltb (Fin 8) (or_size o2) = true
   | _ => False
   end).
Proof. exact zero_price_differs. Qed.
Print Assumptions C78_zero_price_refuted.
