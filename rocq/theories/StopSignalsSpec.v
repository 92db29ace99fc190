(** * Vocabulary for stop signals (C77) *)
From Coq Require Import ZArith Bool List Arith.
From Verif Require Import Base Num SignalsNb SignalsSpec.
Import ListNotations.
Local Open Scope nat_scope.

(** Entry [e] is followed by an exit. *)
Definition exited (exits : list bool) (e : nat) : Prop := exists x, tr exits x /\ e <= x.

(** [new_entries] and [new_exits] are the entries and exits one after another
    that belong to [entries], whose exits are [exits]:
    - entries are kept or removed, not added, and exits are not added;
    - the exits are the same if every kept entry that has a bar to exit at exits;
    - if every kept entry exits, the removed entries are those between a kept
      entry and its last exit. *)
Definition one_after_another (entries exits new_entries new_exits : list bool) (exit_wait : nat) : Prop :=
  List.length new_entries = List.length entries /\
  (forall e, tr new_entries e -> tr entries e) /\
  (forall x, tr new_exits x -> tr exits x) /\
  ((forall e, tr new_entries e -> e + exit_wait < List.length entries -> exited new_exits e) -> new_exits = exits) /\
  ((forall e, tr new_entries e -> exited new_exits e) ->
   forall e, tr entries e -> ~ tr new_entries e ->
     exists e0 x, tr new_entries e0 /\ tr new_exits x /\ e0 < e <= x /\
       forall e1, tr new_entries e1 -> ~ (e0 < e1 <= x)).
