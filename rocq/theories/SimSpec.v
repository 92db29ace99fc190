(** * Specification vocabulary for simulations; contains no proofs. *)
From Coq Require Import ZArith Bool List Arith.
From Verif Require Import Base Num Order Simulate.
Import ListNotations.

Section SimSpec.
  Context {T : Type} {N : Num T}.

  (** Everything the caller supplies for one bar and column. *)
  Definition cell (inp : Inputs T) (i c : nat) :=
    (in_size inp i c, in_price inp i c, in_size_type inp i c, in_direction inp i c,
     (in_fees inp i c, in_fixed_fees inp i c, in_slippage inp i c),
     (in_min_size inp i c, in_max_size inp i c, in_size_granularity inp i c, in_reject_prob inp i c),
     (in_lock_cash inp i c, in_allow_partial inp i c, in_raise_reject inp i c, in_log inp i c),
     (in_val_price inp i c, in_close inp i c, in_call_seq inp i c)).

  (** An order record without its id, the column counted from [from]. *)
  Definition order_view (from : nat) (r : OrderRec T) :=
    (or_col r - from, or_idx r, or_size r, or_price r, or_fees r, or_side r).

  (** A log record without its ids and group, the column counted from [from]. *)
  Definition log_view (from : nat) (r : LogRec T) :=
    (lg_col r - from, lg_idx r, lg_before r, lg_req r, lg_after r, lg_result r).

  (** Records of the bars before [t] *)
  Definition orders_before (t : nat) (l : list (OrderRec T)) := filter (fun r => Nat.ltb (or_idx r) t) l.
  Definition logs_before (t : nat) (l : list (LogRec T)) := filter (fun r => Nat.ltb (lg_idx r) t) l.

  (** Records of the columns [from .. from+len-1] *)
  Definition in_cols (from len c : nat) : bool := Nat.leb from c && Nat.ltb c (from + len).
  Definition orders_in (from len : nat) (l : list (OrderRec T)) := filter (fun r => in_cols from len (or_col r)) l.
  Definition logs_in (from len : nat) (l : list (LogRec T)) := filter (fun r => in_cols from len (lg_col r)) l.

  (** No order can be rejected at random. *)
  Definition never_random (inp : Inputs T) : Prop :=
    forall i c, gtb (in_reject_prob inp i c) zero = false.

  (** The inputs of the columns from [from] on, as a separate portfolio. *)
  Definition shift_inputs (from : nat) (inp : Inputs T) : Inputs T :=
    mkInputs (fun i c => in_size inp i (from + c)) (fun i c => in_price inp i (from + c))
      (fun i c => in_size_type inp i (from + c)) (fun i c => in_direction inp i (from + c))
      (fun i c => in_fees inp i (from + c)) (fun i c => in_fixed_fees inp i (from + c))
      (fun i c => in_slippage inp i (from + c)) (fun i c => in_min_size inp i (from + c))
      (fun i c => in_max_size inp i (from + c)) (fun i c => in_size_granularity inp i (from + c))
      (fun i c => in_reject_prob inp i (from + c)) (fun i c => in_lock_cash inp i (from + c))
      (fun i c => in_allow_partial inp i (from + c)) (fun i c => in_raise_reject inp i (from + c))
      (fun i c => in_log inp i (from + c)) (fun i c => in_val_price inp i (from + c))
      (fun i c => in_close inp i (from + c)) (fun i c => in_call_seq inp i (from + c)).
End SimSpec.
