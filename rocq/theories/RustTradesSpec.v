(** * How the trade records of the two engines are compared *)
From Coq Require Import ZArith List String.
From Verif Require Import Base Num Trades.
Import ListNotations.

(** The words of Rust where Numba complains about an order's size or price *)
Definition trade_error (e : err) : err :=
  match e with
  | ValueError msg =>
      if String.eqb msg "Found order with size 0 or less" then ValueError "size must be greater than 0"
      else if String.eqb msg "Found order with price 0 or less" then ValueError "price must be greater than 0"
      else e
  | _ => e
  end.

(** What Rust should give where Numba gives [x] *)
Definition trade_outcome {A} (x : res A) : res A :=
  match x with Ok a => Ok a | Err e => Err (trade_error e) end.

(** Trades of the same column have no trade of another column between them. *)
Definition columns_together {T} (trades : list (TradeRec T)) : Prop :=
  forall i j k a b c, i < j -> j < k ->
    nth_error trades i = Some a -> nth_error trades j = Some b -> nth_error trades k = Some c ->
    tr_col a = tr_col c -> tr_col b = tr_col a.

(** Every trade belongs to a position: its number is not negative. *)
Definition positions_given {T} (trades : list (TradeRec T)) : Prop :=
  forall t, In t trades -> (0 <= tr_parent t)%Z.
