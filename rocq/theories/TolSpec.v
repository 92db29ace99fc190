(** * Specification vocabulary for tolerant arithmetic

    Used in theorem statements; contains no proofs and no model code. *)
From Coq Require Import QArith Qabs Qminmax.
From Verif Require Import Num.

(** Relative tolerance 1e-9 of the larger magnitude, at least 1e-12. *)
Definition tolq (a b : Q) : Q :=
  Qmax ((1 # 1000000000) * Qmax (Qabs a) (Qabs b)) (1 # 1000000000000).

(** [r] is [a + b], except that a sum within the tolerance of zero is zero. *)
Definition approx_add (a b r : Q) : Prop :=
  (r == 0 /\ Qabs (a + b) <= tolq a b) \/ (r == a + b /\ tolq a b < Qabs (a + b)).

(** The same for a possibly infinite first operand. *)
Definition xadd_approx (x : XQ) (b : Q) (r : XQ) : Prop :=
  match x with
  | Fin a => exists q, r = Fin q /\ approx_add a b q
  | _ => r = x
  end.

(** Plain addition of a finite amount to a possibly infinite number. *)
Definition xadd_exact (x : XQ) (b : Q) (r : XQ) : Prop :=
  match x with
  | Fin a => exists q, r = Fin q /\ q == a + b
  | _ => r = x
  end.

(** [x'] is [x] with a value within 1e-12 of zero replaced by zero. *)
Definition snapped (x x' : XQ) : Prop :=
  (x' = x /\ forall q, x = Fin q -> (1 # 1000000000000) < Qabs q) \/
  (x' = Fin 0 /\ exists q, x = Fin q /\ Qabs q <= (1 # 1000000000000)).
