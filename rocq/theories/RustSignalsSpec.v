(** * Simulations from signals on which the two engines are compared *)
From Coq Require Import QArith List String.
From Flocq Require Import BinarySingleNaN.
From Verif Require Import Base Num B64 Order Simulate FromSignals RustSpec.
Import ListNotations.
Open Scope Q_scope.

(** The messages that Numba raises with a ValueError and Rust with a
    RejectedOrderError *)
Definition rejected_instead : list string :=
  ["Only SizeType.Amount, SizeType.Value, and SizeType.Percent are supported";
   "Negative size is not allowed. You must express direction using signals.";
   "SizeType.Percent does not support position reversal using signals";
   "Stop value must be 0 or greater";
   "Call index exceeds bounds of the group"]%string.

(** The exception of Rust where Numba raises [e] *)
Definition rust_error (e : err) : err :=
  match e with
  | ValueError msg => if existsb (String.eqb msg) rejected_instead then RejectedOrder msg else e
  | _ => e
  end.

(** What Rust should give where Numba gives [x] *)
Definition rust_outcome {A} (x : res A) : res A :=
  match x with Ok a => Ok a | Err e => Err (rust_error e) end.

(** Fees above -100%, cash that is a number or infinite, and no infinite
    percentages (no percentages at all with automatic call sequences). *)
Record comparable_signals (nrows ncols : nat) (init_cash : list XQ) (inp : Inputs XQ) (auto : bool) : Prop := {
  cs_fees : forall i col f, (i < nrows)%nat -> (col < ncols)%nat -> in_fees inp i col = Fin f -> - (1) < f;
  cs_percent : forall i col, (i < nrows)%nat -> (col < ncols)%nat -> in_size_type inp i col = Percent ->
    ~ infinite (in_size inp i col);
  cs_auto : auto = true -> forall i col, (i < nrows)%nat -> (col < ncols)%nat -> in_size_type inp i col <> Percent;
  cs_cash : forall c, In c init_cash -> a_number c \/ c = PInf }.

(** The same for doubles: no size granularity, no locked cash, no percentages
    with automatic call sequences. *)
Record comparable_signals_f64 (nrows ncols : nat) (inp : Inputs f64) (auto : bool) : Prop := {
  ct_granularity : forall i col, (i < nrows)%nat -> (col < ncols)%nat -> in_size_granularity inp i col = B754_nan;
  ct_lock : forall i col, (i < nrows)%nat -> (col < ncols)%nat -> in_lock_cash inp i col = false;
  ct_auto : auto = true -> forall i col, (i < nrows)%nat -> (col < ncols)%nat -> in_size_type inp i col <> Percent }.
