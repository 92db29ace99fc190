(** * Specification vocabulary for the long, short and free-cash sides of an order history

    Used in theorem statements; contains no proofs and no model code. *)
From Coq Require Import ZArith QArith Qabs Qminmax List Sorted.
From Verif Require Import Base Num Order Replay ReplaySpec.
Import ListNotations.

(** The part of a position that is held, and the part that is owed. *)
Definition held (p : Q) : Q := Qmax p 0.
Definition shorted (p : Q) : Q := Qmax (- p) 0.

(** Records come bar by bar. *)
Definition by_bar (recs : list (OrderRec XQ)) : Prop := StronglySorted (fun a b => (or_idx a <= or_idx b)%nat) recs.

(** What sums of the flows of one side may reach: twice the units traded, and 1e-12 per order. *)
Definition reach (recs : list (OrderRec XQ)) : Q :=
  2 * volume recs + inject_Z (Z.of_nat (length recs)) * (1 # 1000000000000).

(** What the shorted units were sold for. Buying back a part of them takes away the same part of the debt
    (nothing is owed without a short position: [x / 0] is 0); selling more of them short adds their price. *)
Definition debt_after (p d : Q) (r : OrderRec XQ) : Q :=
  let p' := p + bought_size r in
  if Qle_bool 0 (bought_size r) then d * (shorted p' / shorted p)
  else d + qty (or_price r) * (shorted p' - shorted p).
Fixpoint debt_from (p d : Q) (recs : list (OrderRec XQ)) : Q :=
  match recs with
  | [] => d
  | r :: l => debt_from (p + bought_size r) (debt_after p d r) l
  end.
Definition ledger_debt (recs : list (OrderRec XQ)) : Q := debt_from 0 0 recs.

(** Far from the tolerance: the position is never close to zero without being zero, and no order is close
    to nothing, at the magnitude of the units traded. *)
Definition clear_cut (recs : list (OrderRec XQ)) : Prop :=
  (forall pre post, recs = pre ++ post ->
     ledger_position pre == 0 \/ slack (volume recs) < Qabs (ledger_position pre)) /\
  (forall r, In r recs -> slack (volume recs) < Qabs (bought_size r)).

Definition priced (r : OrderRec XQ) : Prop := 0 <= qty (or_price r).

(** Cash that moved in a group of columns before the [k]-th call of bar [i], and its magnitude. *)
Fixpoint sum_to (f : nat -> Q) (n : nat) : Q := match n with O => 0 | S m => sum_to f m + f m end.
Definition moved_before (flow : nat -> nat -> Q) (call_seq : nat -> nat -> nat) (from len i k : nat) : Q :=
  sum_to (fun j => sum_to (fun c => flow j (from + c)%nat) len) i +
  sum_to (fun m => flow i (from + call_seq i (from + m))%nat) k.
(** Every column of the group is called once in every bar. *)
Definition calls_each (call_seq : nat -> nat -> nat) (from len : nat) : Prop :=
  forall j c, (c < len)%nat -> exists k, (k < len)%nat /\ call_seq j (from + k)%nat = c.
