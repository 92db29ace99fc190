(** * Sample orders and trades *)
From Coq Require Import ZArith QArith List.
From Verif Require Import Base Num Order Trades.
Import ListNotations.

Section Samples.
  Context {T : Type} {N : Num T}.
  Variable num : Z -> T.

  Definition sample_order (id idx col : nat) (size price fees : Z) (side : OrderSide) : OrderRec T :=
    mkOrderRec id col idx (num size) (num price) (num fees) (Some side).

  (** Column 0 buys twice, sells a part, turns short and stays so; column 1
      shorts and closes. *)
  Definition sample_orders : list (OrderRec T) :=
    [sample_order 0 0 0 4 10 1 Buy; sample_order 1 1 0 4 12 1 Buy; sample_order 2 2 0 2 14 1 Sell;
     sample_order 3 3 0 10 15 1 Sell; sample_order 0 0 1 3 20 2 Sell; sample_order 1 4 1 3 18 2 Buy].

  Definition sample_trade (id col : nat) (size entry exit : Z) (parent : Z) : TradeRec T :=
    mkTradeRec id col (num size) 0 (num entry) (num 0) 1 (num exit) (num 0) (num (exit - entry)) (num 0)
      TLong TClosed parent.

  (** Two trades of one position in column 0 with a trade of column 1 between them *)
  Definition mixed_trades : list (TradeRec T) :=
    [sample_trade 0 0 1 10 11 0; sample_trade 1 1 5 50 60 1; sample_trade 2 0 1 10 12 0].
End Samples.
