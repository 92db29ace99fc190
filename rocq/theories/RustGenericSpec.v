(** * Vocabulary for the properties of the Rust kernels (C97, C98)

    Used in theorem statements; contains no proofs. *)
From Coq Require Import ZArith QArith List.
From Verif Require Import Base Num.
Import ListNotations.
Local Open Scope nat_scope.

Section Spec.
  Context {T : Type} {N : Num T}.

  (** The array has [nrows] rows and [ncols] columns, stored row by row. *)
  Definition c_order (src : list T) (nrows ncols : nat) : Prop := length src = nrows * ncols.
  (** Column [c] of an array stored row by row. *)
  Definition column (src : list T) (nrows ncols c : nat) : list T := map (fun r => nth (r * ncols + c) src nan) (seq 0 nrows).
  (** The columns, left to right. *)
  Definition columns_of (src : list T) (nrows ncols : nat) : list (list T) := map (column src nrows ncols) (seq 0 ncols).

  (** The same value, or both NaN. *)
  Definition same (x y : T) : Prop := x = y \/ (isnan x = true /\ isnan y = true).
  (** [f] of an array stored row by row has the same shape and is [g] on every column. *)
  Definition by_column (f : list T -> list T) (g : list T -> list T) (nrows ncols : nat) : Prop :=
    forall src, c_order src nrows ncols -> c_order (f src) nrows ncols /\
      forall c, c < ncols -> column (f src) nrows ncols c = g (column src nrows ncols c).
  (** The period given when the user leaves it out. *)
  Definition or_default (minp : option nat) (window : nat) : nat := match minp with None => window | Some m => m end.
  (** [span - 1] is the same number computed as an integer or in floating point. *)
  Definition exact_span (span : nat) : Prop := ofZ (Z.of_nat span - 1) = sub (ofZ (Z.of_nat span)) one.

  (** [p] is the first position of the best number of [xs]. *)
  Definition first_extreme (better : T -> T -> bool) (xs : list T) (p : nat) : Prop :=
    p < length xs /\ isnan (nth p xs nan) = false /\
    forall q, q < length xs -> better (nth q xs nan) (nth p xs nan) = false /\
      (q < p -> isnan (nth q xs nan) = true \/ better (nth p xs nan) (nth q xs nan) = true).
End Spec.

(** Exact results: the same number, or NaN in both. *)
Definition agrees (x y : XQ) : Prop :=
  match x, y with Fin p, Fin q => Qeq p q | NaN, NaN => True | PInf, PInf => True | NInf, NInf => True | _, _ => False end.
