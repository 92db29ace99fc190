(** * Properties of the Rust engine (C56)

    Statements only: every theorem is closed by a lemma proved elsewhere, its
    assumptions are printed, and an example shows that its hypotheses are met. *)
From Coq Require Import String ZArith QArith List Bool.
From Flocq Require Import BinarySingleNaN.
From Verif Require Import Base Num B64 MathNb Order Records OrderRuns CallSeq RustOrder RustSpec RustLemmas RustLawsXQ
  RustLemmas2 RustLawsB64 RustLemmas3 RustRuns.
Import ListNotations.
Open Scope list_scope.

(** Executing an order: same state, fill, status and random numbers used. *)
Theorem C56_execute_order_agrees : forall draws rng (s : ProcState XQ) o,
  comparable s o ->
  execute_order_nb draws rng s o <> Err ZeroDivision ->
  rs_execute_order draws rng s o = execute_order_nb draws rng s o.
Proof. exact execute_same. Qed.
Print Assumptions C56_execute_order_agrees.

(** Processing an order: same result, updated state, order and log records,
    and the same exception when it is rejected and rejections raise. *)
Theorem C56_process_order_agrees : forall draws i col group (s : ProcState XQ) update_value o records,
  comparable s o ->
  process_order_nb draws i col group s update_value o records <> Err ZeroDivision ->
  rs_process_order draws i col group s update_value o records =
  process_order_nb draws i col group s update_value o records.
Proof. exact process_same. Qed.
Print Assumptions C56_process_order_agrees.

(** The same on doubles, bit by bit. *)
Theorem C56_process_order_agrees_f64 : forall draws i col group (s : ProcState f64) update_value o records,
  comparable_f64 s o ->
  @process_order_nb _ B64num draws i col group s update_value o records <> Err ZeroDivision ->
  @rs_process_order _ B64num B64rust draws i col group s update_value o records =
  @process_order_nb _ B64num draws i col group s update_value o records.
Proof. exact process_same_f64. Qed.
Print Assumptions C56_process_order_agrees_f64.

(** Comparisons with a tolerance and additions are the same on all doubles. *)
Theorem C56_tolerant_arithmetic_agrees_f64 : forall a b : f64,
  @rs_is_close _ B64num a b = @is_close_nb _ B64num a b /\
  @rs_is_less _ B64num a b = @is_less_nb _ B64num a b /\
  @rs_is_close_or_less _ B64num a b = @is_close_or_less_nb _ B64num a b /\
  @rs_add _ B64num B64rust a b = @add_nb _ B64num a b.
Proof. exact tolerant_same_f64. Qed.
Print Assumptions C56_tolerant_arithmetic_agrees_f64.

Example C56_nonvacuous :
  comparable rs_short_state rs_cover_order /\
  (match process_order_nb no_draws 0 0 0 rs_short_state true rs_cover_order rs_recs0 with
   | Ok (r, s', _) => r_status r = Filled /\ ps_position s' = Fin (- (2)) /\ r_size r = Fin 3
   | Err _ => False
   end) /\
  comparable_f64 rs_state64 rs_order64 /\
  (match @process_order_nb _ B64num (fun _ => B754_zero false) 0 0 0 rs_state64 true rs_order64 recs64 with
   | Ok (r, s', _) => r_status r = Filled
   | Err _ => False
   end).
Proof. exact rust_runs. Qed.

(** An order for zero percent: Numba ignores it in a long-only column that
    holds a position, Rust rejects it for lack of cash. *)
Theorem C56_zero_percent_refuted : exists (s : ProcState XQ) o,
  o_size_type o = Percent /\ o_size o = Fin 0 /\
  (match execute_order_nb no_draws 0 s o with
   | Ok (_, r, _) => r_status r = Ignored /\ r_info r = Some SizeZero | Err _ => False end) /\
  (match rs_execute_order no_draws 0 s o with
   | Ok (_, r, _) => r_status r = Rejected /\ r_info r = Some NoCashLong | Err _ => False end).
Proof. exact zero_percent_differs. Qed.
Print Assumptions C56_zero_percent_refuted.

(** Fees of minus one hundred percent: Numba divides by zero, Rust does not. *)
Theorem C56_division_refuted : exists (s : ProcState XQ) o,
  comparable s o /\
  execute_order_nb no_draws 0 s o = Err ZeroDivision /\
  rs_execute_order no_draws 0 s o <> Err ZeroDivision.
Proof. exact minus_one_fees_differ. Qed.
Print Assumptions C56_division_refuted.

(** Size granularity on doubles: an order for 1 in steps of 0.1 is filled with
    0.9 by Numba and with 1.0 by Rust. *)
Theorem C56_granularity_f64_refuted :
  (match @execute_order_nb _ B64num (fun _ => B754_zero false) 0 rs_state64 rs_gran64 with
   | Ok (_, r, _) => b64_ltb (r_size r) (b64_ofZ 1) = true | Err _ => False end) /\
  (match @rs_execute_order _ B64num B64rust (fun _ => B754_zero false) 0 rs_state64 rs_gran64 with
   | Ok (_, r, _) => b64_eqb (r_size r) (b64_ofZ 1) = true | Err _ => False end).
Proof. exact granularity_differs. Qed.
Print Assumptions C56_granularity_f64_refuted.

(** The approximate order values by which automatic call sequences are sorted
    agree except for percentages of an asset value that is not a number. *)
Theorem C56_order_value_agrees : forall size st dir (cash pos free vp value : XQ),
  st <> Percent \/ (mul pos vp <> NaN /\ free <> NaN) ->
  rs_approx_order_value size st dir cash pos free vp value =
  approx_order_value_nb size st dir cash pos free vp value.
Proof. exact order_value_same. Qed.
Print Assumptions C56_order_value_agrees.

Theorem C56_order_value_refuted :
  approx_order_value_nb (Fin (- (1))) Percent BothDir (Fin 100) (Fin 0) (Fin 100) NaN (Fin 100) = NaN /\
  rs_approx_order_value (Fin (- (1))) Percent BothDir (Fin 100) (Fin 0) (Fin 100) NaN (Fin 100) = Fin (- (100)).
Proof. exact order_value_differs. Qed.
Print Assumptions C56_order_value_refuted.
