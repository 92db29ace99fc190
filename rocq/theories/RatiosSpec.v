(** * Vocabulary for risk and reward ratios (C84) *)
From Coq Require Import ZArith QArith Bool List.
From Verif Require Import Base Num XQFacts GenericSpec ReturnsSpec.
Import ListNotations.
Local Open Scope Q_scope.

(** [sqrt] computes the function [root] of numbers and [pow] the function [power_of]:
    the square root and the power as rounded by the machine. Only that equal numbers
    give equal results is assumed. *)
Definition computes_root (sqrt : XQ -> XQ) (root : Q -> Q) : Prop :=
  (forall q, sqrt (Fin q) = Fin (root q)) /\ (forall p q, p == q -> root p == root q).
Definition computes_power (pow : XQ -> XQ -> XQ) (power_of : Q -> Q -> Q) : Prop :=
  (forall a e, pow (Fin a) (Fin e) = Fin (power_of a e)) /\
  (forall a b d e, a == b -> d == e -> power_of a d == power_of b e).

(** What exceeds [r], what falls short of it and what lies above *)
Definition excess (r : Q) (xs : list Q) : list Q := map (fun x => x - r) xs.
Definition gains (xs : list Q) : Q := sum (map (fun x => if qlt_bool 0 x then x else 0) xs).
Definition losses (xs : list Q) : Q := sum (map (fun x => if qlt_bool x 0 then - x else 0) xs).
Definition shortfalls (xs : list Q) : list Q := map (fun x => if qlt_bool 0 x then 0 else x) xs.
Definition squares (xs : list Q) : list Q := map (fun x => x * x) xs.
Definition differences (p : list (Q * Q)) : list Q := map (fun x => fst x - snd x) p.

(** Growth per year of a series of [n] returns *)
Definition yearly (power_of : Q -> Q -> Q) (af : Q) (rs : list XQ) : Q :=
  power_of (compounded (vals rs)) (af / inject_Z (Z.of_nat (length rs))) - 1.
(** The bars on which the benchmark rises (falls) *)
Definition rising (rb : list (XQ * XQ)) : list (XQ * XQ) :=
  filter (fun x => match snd x with Fin b => qlt_bool 0 b | _ => false end) rb.
Definition falling (rb : list (XQ * XQ)) : list (XQ * XQ) :=
  filter (fun x => match snd x with Fin b => qlt_bool b 0 | _ => false end) rb.
