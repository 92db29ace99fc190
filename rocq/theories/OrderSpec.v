(** * Specification vocabulary for orders

    Used in theorem statements; contains no proofs. *)
From Coq Require Import QArith Qabs.
From Verif Require Import Num Order.

(** A size in the direction of the order: short-only sizes count downwards. *)
Definition signed (dir : Direction) (q : Q) : Q :=
  match dir with ShortOnly => - q | _ => q end.

(** The signed amount of the asset an order asks for, given the position [p]
    held, the valuation price [vp] and the group value [v]. Orders sized in
    percent of the available resources ask for no particular amount. *)
Definition requested (o : Order XQ) (p : Q) (vp v : XQ) (a : Q) : Prop :=
  exists q, o_size o = Fin q /\
  let z := signed (o_direction o) q in
  match o_size_type o with
  | Amount => a == z
  | Value => exists x, vp = Fin x /\ a == z / x
  | TargetAmount => a == z - p
  | TargetValue => exists x, vp = Fin x /\ a == z / x - p
  | TargetPercent => exists x y, vp = Fin x /\ v = Fin y /\ a == z * y / x - p
  | Percent => False
  end.

(** The position a target order aims at. *)
Definition target (o : Order XQ) (vp v : XQ) (t : Q) : Prop :=
  exists q, o_size o = Fin q /\
  let z := signed (o_direction o) q in
  match o_size_type o with
  | TargetAmount => t == z
  | TargetValue => exists x, vp = Fin x /\ t == z / x
  | TargetPercent => exists x y, vp = Fin x /\ v = Fin y /\ t == z * y / x
  | _ => False
  end.

(** A balance that is a number and not negative (possibly infinite). *)
Definition nonnegative (x : XQ) : Prop := x = PInf \/ exists q, x = Fin q /\ 0 <= q.

(** A balance that is not below zero (NaN is not below zero). *)
Definition not_below_zero (x : XQ) : Prop :=
  x <> NInf /\ forall q, x = Fin q -> 0 <= q.

(** Fee rates above -100%. *)
Definition fees_above_minus_one (o : Order XQ) : Prop :=
  forall f, o_fees o = Fin f -> - (1) < f.

(** The requested size is a number once converted to an amount: a percentage
    of resources is finite and non-zero, and a target percentage of zero is
    not applied to an infinite value. *)
Definition number_sized (o : Order XQ) (value : XQ) : Prop :=
  match o_size_type o with
  | Percent => exists q, o_size o = Fin q /\ ~ q == 0
  | TargetPercent => value = PInf -> forall q, o_size o = Fin q -> ~ q == 0
  | _ => True
  end.
