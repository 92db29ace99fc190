(** * Model of the stop signal generators

    vectorbt/signals/nb.py: generate_stop_ex_nb, generate_stop_enex_nb,
    generate_ohlc_stop_ex_nb and generate_ohlc_stop_enex_nb, one column. *)
From Coq Require Import String ZArith Bool List Arith.
From Verif Require Import Base Num SignalsNb.
Import ListNotations.
Local Open Scope list_scope.
Local Open Scope nat_scope.

Section StopGenerators.
  Context {T : Type} {N : Num T}.

  (** A choice function on natural numbers as one that is called by the
      generators; they call it with ranges of non-negative numbers. *)
  Definition on_bars (c : nat -> nat -> list nat) : Choice :=
    fun _ from to => map Z.of_nat (c (Z.to_nat from) (Z.to_nat to)).

  (** signals/nb.py:647-700 generate_stop_ex_nb *)
  Definition generate_stop_ex_nb (entries : list bool) (ts stop : nat -> T) (trailing : nat -> bool) (wait : nat)
      (until_next skip_until_exit pick_first : bool) : res (list bool) :=
    generate_ex_nb entries (Z.of_nat wait) until_next skip_until_exit pick_first
      (on_bars (stop_choice_nb ts stop trailing wait pick_first)).

  (** signals/nb.py:704-732 generate_stop_enex_nb with a given number of rounds *)
  Definition generate_stop_enex_fuel (fuel : nat) (entries : list bool) (ts stop : nat -> T) (trailing : nat -> bool)
      (entry_wait exit_wait : nat) (pick_first : bool) : option (res (list bool * list bool)) :=
    generate_enex_fuel fuel (List.length entries) (Z.of_nat entry_wait) (Z.of_nat exit_wait) true pick_first
      (on_bars (fun from to => first_choice_nb from to (fun i => nth i entries false)))
      (on_bars (stop_choice_nb ts stop trailing exit_wait pick_first)).

  (** The bars ohlc_stop_choice_nb returns. A negative stop raises there; here
      it chooses no bar (a simplification: the theorems exclude negative stops).
      The stop prices and types are not part of this model. *)
  Definition ohlc_bars (bar : nat -> Bar T) (args : nat -> OhlcArgs T) (open_safe : bool) (wait : nat) (pick_first : bool)
      (from to : nat) : list nat :=
    match ohlc_stop_choice_nb bar args open_safe wait pick_first from to with
    | Ok l => map (fun h => fst (fst h)) l
    | Err _ => []
    end.

  (** signals/nb.py:892-996 generate_ohlc_stop_ex_nb *)
  Definition generate_ohlc_stop_ex_nb (entries : list bool) (bar : nat -> Bar T) (args : nat -> OhlcArgs T) (open_safe : bool)
      (wait : nat) (until_next skip_until_exit pick_first : bool) : res (list bool) :=
    generate_ex_nb entries (Z.of_nat wait) until_next skip_until_exit pick_first
      (on_bars (ohlc_bars bar args open_safe wait pick_first)).

  (** signals/nb.py:1000-1052 generate_ohlc_stop_enex_nb with a given number of rounds *)
  Definition generate_ohlc_stop_enex_fuel (fuel : nat) (entries : list bool) (bar : nat -> Bar T) (args : nat -> OhlcArgs T)
      (open_safe : bool) (entry_wait exit_wait : nat) (pick_first : bool) : option (res (list bool * list bool)) :=
    generate_enex_fuel fuel (List.length entries) (Z.of_nat entry_wait) (Z.of_nat exit_wait) true pick_first
      (on_bars (fun from to => first_choice_nb from to (fun i => nth i entries false)))
      (on_bars (ohlc_bars bar args open_safe exit_wait pick_first)).
End StopGenerators.
