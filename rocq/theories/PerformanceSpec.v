(** * Specification vocabulary for performance

    Used in theorem statements; contains no proofs. *)
From Coq Require Import QArith Qabs List Arith Permutation.
From Verif Require Import Num Simulate GenericSpec ReturnsSpec.
Import ListNotations.
Local Open Scope nat_scope.

(** The first column of a group *)
Definition first_col (lens : list nat) (g : nat) : nat := sum_lens (firstn g lens).

(** The columns of a group in the order in which they are called at bar [i] *)
Definition order_at (call_seq : nat -> nat -> nat) (from len i : nat) : list nat :=
  map (fun k => from + call_seq i (from + k)) (seq 0 len).

(** At every bar every column of every group is called once. *)
Definition each_called_once (call_seq : nat -> nat -> nat) (lens : list nat) (nrows : nat) : Prop :=
  forall g len i, nth_error lens g = Some len -> i < nrows ->
  Permutation (order_at call_seq (first_col lens g) len i) (seq (first_col lens g) len).

(** The calls of a group one after another, as bar and column *)
Definition calls (call_seq : nat -> nat -> nat) (from len nrows : nat) : list (nat * nat) :=
  flat_map (fun i => map (pair i) (order_at call_seq from len i)) (seq 0 nrows).

(** The columns up to [c], and those after it *)
Fixpoint up_to (c : nat) (l : list nat) : list nat :=
  match l with [] => [] | x :: l' => if x =? c then [x] else x :: up_to c l' end.
Fixpoint after (c : nat) (l : list nat) : list nat :=
  match l with [] => [] | x :: l' => if x =? c then l' else after c l' end.

(** The values of the columns known when column [c] is called at bar [i]: of this
    bar for [c] and the columns called before it, of the bar before for the others
    (none at the first bar). *)
Definition latest {T} (values : nat -> nat -> T) (order : list nat) (i c : nat) : list T :=
  map (values i) (up_to c order) ++ match i with 0 => [] | S p => map (values p) (after c order) end.

(** [y] is cash plus all of the values; unknown if one of them is *)
Definition worth (cash : Q) (values : list XQ) (y : XQ) : Prop :=
  (In NaN values -> y = NaN) /\ (~ In NaN values -> is_number y (cash + sum (vals values))%Q).

(** The running balance of a cash flow that starts with [c] *)
Definition balance (c : Q) (flow : list Q) (i : nat) : Q := (c + sum (firstn (S i) flow))%Q.
