(** * Vocabulary for the properties of the Rust return statistics (C103)

    Used in theorem statements; contains no proofs. *)
From Coq Require Import ZArith QArith List.
From Verif Require Import Base Num RustGenericSpec.
Import ListNotations.
Local Open Scope nat_scope.

(** What the statistics need from an arithmetic: one NaN that spreads, 1 as the unit,
    and nothing but NaN becomes NaN when 1 is added or when it is squared. *)
Record ieee_like {T} (N : Num T) : Prop := mkIeee {
  one_nan : forall x : T, isnan x = true -> x = nan;
  nan_add : forall x : T, add nan x = nan /\ add x nan = nan;
  nan_sub : forall x : T, sub nan x = nan /\ sub x nan = nan;
  nan_mul : forall x : T, mul nan x = nan /\ mul x nan = nan;
  nan_div : forall x : T, div nan x = nan /\ div x nan = nan;
  zero_number : isnan (zero : T) = false;
  plus_one : forall x : T, isnan (add x one) = isnan x;
  square_number : forall x : T, isnan (mul x x) = isnan x;
  times_one : forall x y : T, mul (mul x y) one = mul x y;
  one_times_one : mul one one = one :> T;
  nothing_by_nothing : div zero zero = nan :> T;
  infinity_times_sign : mul pinf one = pinf :> T /\ mul pinf (neg one) = ninf :> T }.

(** Cell [c] of [f] of an array stored row by row is [g] of column [c]; there is one cell per column. *)
Definition reduces_columns {T} {N : Num T} (f : list T -> res (list T)) (g : list T -> T) (nrows ncols : nat) : Prop :=
  forall src, c_order src nrows ncols -> exists out, f src = Ok out /\ out = map (fun c => g (column src nrows ncols c)) (seq 0 ncols).
(** The same for two arrays of one shape. *)
Definition reduces_columns2 {T} {N : Num T} (f : list T -> list T -> res (list T)) (g : list T -> list T -> T) (nrows ncols : nat) : Prop :=
  forall a b, c_order a nrows ncols -> c_order b nrows ncols ->
    exists out, f a b = Ok out /\ out = map (fun c => g (column a nrows ncols c) (column b nrows ncols c)) (seq 0 ncols).
(** Neither raises and the values are equal as numbers. *)
Definition both_agree (a b : res XQ) : Prop := match a, b with Ok x, Ok y => agrees x y | _, _ => False end.
