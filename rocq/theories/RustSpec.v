(** * Orders on which the two engines are compared *)
From Coq Require Import QArith List.
From Flocq Require Import BinarySingleNaN.
From Verif Require Import Base Num B64 Order Simulate.
Open Scope Q_scope.

(** A size that is a number other than zero. *)
Definition nonzero_number (x : XQ) : Prop := exists q, x = Fin q /\ ~ q == 0.

(** The orders on which the engines agree: percentages are non-zero numbers,
    zero target percentages are not taken of an infinite value, and free cash
    is not minus infinity. *)
Record comparable (s : ProcState XQ) (o : Order XQ) : Prop := mkComparable {
  cmp_percent : o_size_type o = Percent -> o_size o = NaN \/ nonzero_number (o_size o);
  cmp_target : o_size_type o = TargetPercent ->
    ps_value s <> PInf \/ nonzero_number (o_size o) \/ (forall q, o_size o <> Fin q);
  cmp_free : ps_free_cash s <> NInf }.

(** The same for doubles: no size granularity, and cash is locked only while
    the position is not short. *)
Record comparable_f64 (s : ProcState f64) (o : Order f64) : Prop := mkComparable64 {
  c64_granularity : o_size_granularity o = B754_nan;
  c64_lock : o_lock_cash o = false \/ b64_leb (b64_ofZ 0) (ps_position s) = true;
  c64_percent : o_size_type o = Percent -> b64_eqb (o_size o) (b64_ofZ 0) = false;
  c64_target : o_size_type o = TargetPercent ->
    b64_isinf (ps_value s) = false \/ b64_eqb (o_size o) (b64_ofZ 0) = false }.

(** ** Inputs of a simulation on which the engines are compared *)

Definition a_number (x : XQ) : Prop := exists q, x = Fin q.
Definition infinite (x : XQ) : Prop := x = PInf \/ x = NInf.

(** Fees above -100%, percentages that are numbers other than zero (none with
    automatic call sequences), cash that is a number or infinite; and if some
    target percentage is zero, finite cash and closing prices. *)
Record comparable_inputs (nrows ncols : nat) (init_cash : list XQ) (inp : Inputs XQ) (auto : bool) : Prop := {
  ci_fees : forall i col f, (i < nrows)%nat -> (col < ncols)%nat -> in_fees inp i col = Fin f -> - (1) < f;
  ci_percent : forall i col, (i < nrows)%nat -> (col < ncols)%nat -> in_size_type inp i col = Percent ->
    in_size inp i col = NaN \/ nonzero_number (in_size inp i col);
  ci_auto : auto = true -> forall i col, (i < nrows)%nat -> (col < ncols)%nat -> in_size_type inp i col <> Percent;
  ci_cash : forall c, In c init_cash -> a_number c \/ c = PInf;
  ci_target :
    (forall i col, (i < nrows)%nat -> (col < ncols)%nat -> in_size_type inp i col = TargetPercent ->
       nonzero_number (in_size inp i col) \/ ~ a_number (in_size inp i col)) \/
    ((forall c, In c init_cash -> a_number c) /\
     (forall i col, (i < nrows)%nat -> (col < ncols)%nat -> ~ infinite (in_close inp i col))) }.

(** The same for doubles: no size granularity, no locked cash, percentages and
    target percentages other than zero, no percentages with automatic call
    sequences. *)
Record comparable_inputs_f64 (nrows ncols : nat) (inp : Inputs f64) (auto : bool) : Prop := {
  cj_granularity : forall i col, (i < nrows)%nat -> (col < ncols)%nat -> in_size_granularity inp i col = B754_nan;
  cj_lock : forall i col, (i < nrows)%nat -> (col < ncols)%nat -> in_lock_cash inp i col = false;
  cj_percent : forall i col, (i < nrows)%nat -> (col < ncols)%nat ->
    in_size_type inp i col = Percent \/ in_size_type inp i col = TargetPercent ->
    b64_eqb (in_size inp i col) (b64_ofZ 0) = false;
  cj_auto : auto = true -> forall i col, (i < nrows)%nat -> (col < ncols)%nat -> in_size_type inp i col <> Percent }.
