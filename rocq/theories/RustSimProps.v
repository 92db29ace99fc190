(** * Properties of simulations with the Rust engine (C56)

    Statements only: every theorem is closed by a lemma proved elsewhere, its
    assumptions are printed, and an example shows that its hypotheses are met. *)
From Coq Require Import String ZArith QArith List Bool Lia.
From Flocq Require Import BinarySingleNaN.
From Verif Require Import Base Num B64 MathNb Order CallSeq Simulate RustOrder RustSim RustSpec RustSimRuns.
Import ListNotations.
Open Scope list_scope.

(** A simulation from orders returns the same order records, log records and
    call sequence with both engines, or raises the same exception. *)
Theorem C56_simulation_agrees : forall draws rng nrows ncols group_lens init_cash (inp : Inputs XQ) fl max_orders max_logs,
  comparable_inputs nrows ncols init_cash inp (auto_call_seq fl) ->
  (forall n, In n group_lens -> (0 < n)%nat) ->
  simulate_from_orders_nb draws rng nrows ncols group_lens init_cash inp fl max_orders max_logs <> Err ZeroDivision ->
  rs_simulate_from_orders draws rng nrows ncols group_lens init_cash inp (auto_call_seq fl) (ffill_val_price fl)
    (update_value fl) max_orders max_logs =
  simulate_from_orders_nb draws rng nrows ncols group_lens init_cash inp fl max_orders max_logs.
Proof. exact simulate_same. Qed.
Print Assumptions C56_simulation_agrees.

(** The same on doubles, bit by bit. *)
Theorem C56_simulation_agrees_f64 : forall draws rng nrows ncols group_lens init_cash (inp : Inputs f64) fl max_orders max_logs,
  comparable_inputs_f64 nrows ncols inp (auto_call_seq fl) ->
  (forall n, In n group_lens -> (0 < n)%nat) ->
  @simulate_from_orders_nb _ B64num draws rng nrows ncols group_lens init_cash inp fl max_orders max_logs
    <> Err ZeroDivision ->
  @rs_simulate_from_orders _ B64num B64rust draws rng nrows ncols group_lens init_cash inp (auto_call_seq fl)
    (ffill_val_price fl) (update_value fl) max_orders max_logs =
  @simulate_from_orders_nb _ B64num draws rng nrows ncols group_lens init_cash inp fl max_orders max_logs.
Proof. exact simulate_same_f64. Qed.
Print Assumptions C56_simulation_agrees_f64.

Example C56_simulation_nonvacuous :
  comparable_inputs 3 3 [Fin 100; Fin 50] rust_inputs true /\
  (match simulate_from_orders_nb half_draws 0 3 3 [2; 1]%nat [Fin 100; Fin 50] rust_inputs (mkFlags true true false) None 0 with
   | Ok (orders, _, call_seq) => List.length orders = 7%nat /\ call_seq 1%nat 0%nat = 1%nat /\ call_seq 1%nat 1%nat = 0%nat
   | Err _ => False
   end) /\
  comparable_inputs_f64 2 2 rust_inputs64 false /\
  (match @simulate_from_orders_nb _ B64num (fun _ => b64_ofZ 0) 0 2 2 [1; 1]%nat [b64_ofZ 100; b64_ofZ 50] rust_inputs64
           (mkFlags false true true) None 0 with
   | Ok (orders, _, _) => List.length orders = 4%nat
   | Err _ => False
   end).
Proof. exact simulation_runs. Qed.

(** An empty group beside groups of one column: Numba does not find the cash
    of the last group, Rust simulates column by column. *)
Theorem C56_empty_group_refuted : exists (inp : Inputs XQ) fl,
  comparable_inputs 1 2 [Fin 100; Fin 50] inp (auto_call_seq fl) /\
  simulate_from_orders_nb half_draws 0 1 2 [1; 0; 1]%nat [Fin 100; Fin 50] inp fl None 0 = Err (IndexError "init_cash") /\
  (match rs_simulate_from_orders half_draws 0 1 2 [1; 0; 1]%nat [Fin 100; Fin 50] inp (auto_call_seq fl)
           (ffill_val_price fl) (update_value fl) None 0 with
   | Ok (orders, _, _) => List.length orders = 2%nat
   | Err _ => False
   end).
Proof. exact empty_group_differs. Qed.
Print Assumptions C56_empty_group_refuted.
