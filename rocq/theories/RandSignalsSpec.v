(** * Vocabulary for random entries and exits (C76) *)
From Coq Require Import ZArith QArith Bool List Arith Permutation.
From Verif Require Import Base SignalsNb SignalsSpec RandSignals.
Import ListNotations.
Local Open Scope nat_scope.

(** What a random generator gives: uniform numbers in [0, 1), integers from 0 to
    below the bound, permutations. *)
Definition generator (rg : Rng) : Prop :=
  (forall k, (0 <= rg_uniform rg k /\ rg_uniform rg k < 1)%Q) /\
  (forall k b, (0 < b)%Z -> (0 <= rg_below rg k b < b)%Z) /\
  (forall k l, Permutation (rg_perm rg k l) l).

(** [bars] are exactly the true bars of the column, in order. *)
Definition signals_at (rows : nat) (column : list bool) (bars : list nat) : Prop :=
  length column = rows /\ (forall i, tr column i <-> In i bars) /\
  (forall j a b, nth_error bars j = Some a -> nth_error bars (S j) = Some b -> a < b).

(** [ne] entries and [nx] exits in turn, an entry first, each exit after its
    entry and before the next entry by the waiting times *)
Definition alternating (rows ne nx entry_wait exit_wait : nat) (entries exits : list bool) : Prop :=
  exists es xs, length es = ne /\ length xs = nx /\ signals_at rows entries es /\ signals_at rows exits xs /\
    (forall j e x, nth_error es j = Some e -> nth_error xs j = Some x -> e + exit_wait <= x < rows) /\
    (forall j x e, nth_error xs j = Some x -> nth_error es (S j) = Some e -> x + entry_wait <= e).
Definition n_pairs (rows n entry_wait exit_wait : nat) (entries exits : list bool) : Prop :=
  alternating rows n n entry_wait exit_wait entries exits.

(** Bars that [n] entries and exits take at least, counting from the first entry *)
Definition room_for (n entry_wait exit_wait : nat) : nat := (n - 1) * (entry_wait + exit_wait) + exit_wait + 1.
