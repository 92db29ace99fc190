(** * Specification vocabulary for accounts rebuilt from order records

    Used in theorem statements; contains no proofs. *)
From Coq Require Import ZArith QArith Qabs Qminmax List.
From Verif Require Import Base Num XQFacts Order Simulate.
Import ListNotations.

(** The number of an order record's field. *)
Definition qty (x : XQ) : Q := match x with Fin q => q | _ => 0 end.

(** All numbers of the record are finite and it is a purchase or a sale. *)
Definition proper (r : OrderRec XQ) : Prop :=
  (exists q, or_size r = Fin q) /\ (exists q, or_price r = Fin q) /\ (exists q, or_fees r = Fin q) /\
  or_side r <> None.

(** The change of the position by an order: bought counts up, sold counts down. *)
Definition bought_size (r : OrderRec XQ) : Q :=
  match or_side r with Some Buy => qty (or_size r) | _ => - qty (or_size r) end.

(** The change of cash by an order: what it costs or brings, less fees. *)
Definition cash_effect (r : OrderRec XQ) : Q :=
  - (bought_size r * qty (or_price r)) - qty (or_fees r).

Fixpoint total (f : OrderRec XQ -> Q) (recs : list (OrderRec XQ)) : Q :=
  match recs with [] => 0 | r :: l => f r + total f l end.

(** The exact ledger: position and cash an order history leads to. *)
Definition ledger_position (recs : list (OrderRec XQ)) : Q := total bought_size recs.
Definition ledger_cash (recs : list (OrderRec XQ)) : Q := total cash_effect recs.

(** Units traded, and money moved. *)
Definition volume (recs : list (OrderRec XQ)) : Q := total (fun r => Qabs (bought_size r)) recs.
Definition turnover (recs : list (OrderRec XQ)) : Q :=
  total (fun r => Qabs (bought_size r * qty (or_price r)) + Qabs (qty (or_fees r))) recs.

(** The zero-snapping tolerance at magnitude [m]: 1e-9 of it, at least 1e-12. *)
Definition slack (m : Q) : Q := Qmax ((1 # 1000000000) * m) (1 # 1000000000000).

(** [n] roundings at magnitude [m] separate [a] and [b]. *)
Definition within (n : nat) (m a b : Q) : Prop := Qabs (a - b) <= inject_Z (Z.of_nat n) * slack m.

(** Records of column [c], of the columns [from .. from+len-1], of bars up to [i] *)
Definition of_col (c : nat) (recs : list (OrderRec XQ)) := filter (fun r => Nat.eqb (or_col r) c) recs.
Definition of_cols (from len : nat) (recs : list (OrderRec XQ)) :=
  filter (fun r => andb (Nat.leb from (or_col r)) (Nat.ltb (or_col r) (from + len))) recs.
Definition until (i : nat) (recs : list (OrderRec XQ)) := filter (fun r => Nat.leb (or_idx r) i) recs.

(** The variables of a simulation when it has finished bar [i] of group [g]:
    the groups before it are simulated completely, then this one up to bar [i]. *)
Definition variables_after (draws : nat -> XQ) (rng nrows ncols : nat) (lens : list nat)
    (init : list XQ) (inp : Inputs XQ) (fl : Flags) (mo : option nat) (ml g i : nat) : res (Sim XQ) :=
  let! st := sim_groups draws inp fl (is_grouped lens) nrows 0 0 (firstn g lens) init
               (sim_init inp nrows ncols mo ml rng) in
  sim_group draws inp fl (is_grouped lens) (S i) g (sum_lens (firstn g lens)) (nth g lens 0%nat)
    (nth g init NaN) st.

(** Of the columns [from .. from+len-1]: fee rates above -100%, percentage sizes
    are non-zero numbers and closing prices are not infinite. *)
Definition tame_inputs (inp : Inputs XQ) (from len : nat) : Prop :=
  forall i c, (from <= c < from + len)%nat ->
    (forall f, in_fees inp i c = Fin f -> - (1) < f) /\
    (in_size_type inp i c = Percent -> exists q, in_size inp i c = Fin q /\ ~ q == 0) /\
    in_close inp i c <> PInf /\ in_close inp i c <> NInf.
