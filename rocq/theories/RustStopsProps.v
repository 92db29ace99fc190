(** * Property C106: the Rust stop signal generators give what the Numba ones give *)
From Coq Require Import String ZArith Bool List Arith QArith.
From Verif Require Import Base Num OrdLaws B64 SignalsNb StopSignals RustStops RustStopsLemmas.
Import ListNotations.
Local Open Scope list_scope.
Local Open Scope nat_scope.

(** The first stop, and all stops, of a range: in any arithmetic, whatever the prices and stops. *)
Theorem C106_stop_choice : forall {T} {N : Num T} (from to : nat) (ts stop : nat -> T) (trailing : nat -> bool) (wait : nat),
  stop_choice_nb ts stop trailing wait true from to
    = match rs_stop_choice_first from to ts stop trailing wait with Some i => [i] | None => [] end /\
  stop_choice_nb ts stop trailing wait false from to = rs_stop_choice_all from to ts stop trailing wait.
Proof. exact (fun T N from to ts stop tr wait => conj (stop_first_eq from to ts stop tr wait) (eq_sym (stop_all_eq from to ts stop tr wait))). Qed.
Print Assumptions C106_stop_choice.

(** Exits after given entries: the Numba generator never fails here and has the Rust exits. *)
Theorem C106_stop_exits : forall {T} {N : Num T} (entries : list bool) (ts stop : nat -> T) (trailing : nat -> bool) (wait : nat)
    (until_next skip_until_exit pick_first : bool),
  generate_stop_ex_nb entries ts stop trailing wait until_next skip_until_exit pick_first
  = Ok (rs_generate_stop_ex entries ts stop trailing wait until_next skip_until_exit pick_first).
Proof. exact @stop_ex_ok. Qed.
Print Assumptions C106_stop_exits.

(** Entries and exits one after another: after any number of rounds both are still running, or both have stopped
    with the same arrays or the same error. *)
Theorem C106_stop_entries_exits : forall {T} {N : Num T} (rounds : nat) (entries : list bool) (ts stop : nat -> T) (trailing : nat -> bool)
    (entry_wait exit_wait : nat) (pick_first : bool),
  rs_generate_stop_enex rounds entries ts stop trailing entry_wait exit_wait pick_first
  = generate_stop_enex_fuel rounds entries ts stop trailing entry_wait exit_wait pick_first.
Proof. exact @stop_enex_ok. Qed.
Print Assumptions C106_stop_entries_exits.

(** OHLC stops of a range: the same bars, stop prices and stop types, and the same refusal of negative stops, also where
    open, high, low or close is missing. *)
Theorem C106_ohlc_choice : forall {T} {N : Num T} {L : OrdLaws N} (from to : nat) (bar : nat -> Bar T) (args : nat -> OhlcArgs T)
    (is_open_safe : bool) (wait : nat) (pick_first : bool),
  rs_ohlc_stop_choice from to bar args is_open_safe wait pick_first
  = ohlc_stop_choice_nb bar args is_open_safe wait pick_first from to.
Proof. exact @ohlc_choice_eq. Qed.
Print Assumptions C106_ohlc_choice.

(** OHLC exits after given entries, if no stop is negative. *)
Theorem C106_ohlc_exits : forall {T} {N : Num T} {L : OrdLaws N} (entries : list bool) (bar : nat -> Bar T) (args : nat -> OhlcArgs T)
    (is_open_safe : bool) (wait : nat) (until_next skip_until_exit pick_first : bool),
  (forall i, ltb (oa_sl (args i)) zero = false /\ ltb (oa_tp (args i)) zero = false) ->
  rs_generate_ohlc_stop_ex entries bar args is_open_safe wait until_next skip_until_exit pick_first
  = generate_ohlc_stop_ex_nb entries bar args is_open_safe wait until_next skip_until_exit pick_first.
Proof. exact @ohlc_ex_ok. Qed.
Print Assumptions C106_ohlc_exits.

(** OHLC entries and exits one after another, if no stop is negative. *)
Theorem C106_ohlc_entries_exits : forall {T} {N : Num T} {L : OrdLaws N} (rounds : nat) (entries : list bool) (bar : nat -> Bar T)
    (args : nat -> OhlcArgs T) (is_open_safe : bool) (entry_wait exit_wait : nat) (pick_first : bool),
  (forall i, ltb (oa_sl (args i)) zero = false /\ ltb (oa_tp (args i)) zero = false) ->
  rs_generate_ohlc_stop_enex rounds entries bar args is_open_safe entry_wait exit_wait pick_first
  = generate_ohlc_stop_enex_fuel rounds entries bar args is_open_safe entry_wait exit_wait pick_first.
Proof. exact @ohlc_enex_ok. Qed.
Print Assumptions C106_ohlc_entries_exits.

Example C106_nonvacuous :
  let ts := fun i => nth i [Fin 10; Fin 11; Fin 9; Fin 12; Fin 8; Fin 10; Fin 7] NaN in
  let stop := fun _ : nat => Fin (- (1 # 10)) in
  let entries := [true; false; false; true; false; true; false] in
  let bar := fun i => mkBar (ts i) (if Nat.eqb i 2 then NaN else ts i) NaN (ts (S i)) in
  let args := fun _ : nat => mkOhlc (Fin (1 # 10)) true (Fin (3 # 10)) false in
  @rs_generate_stop_ex _ XQnum entries ts stop (fun _ => true) 1 true false true = [false; false; true; false; true; false; true] /\
  @rs_generate_stop_ex _ XQnum entries ts stop (fun _ => true) 1 false true false = [false; false; true; false; true; true; true] /\
  @rs_generate_stop_enex _ XQnum 10 entries ts stop (fun _ => true) 1 1 true
    = Some (Ok ([true; false; false; true; false; true; false], [false; false; true; false; true; false; true])) /\
  @rs_generate_stop_enex _ XQnum 1 entries ts stop (fun _ => true) 1 1 true = None /\
  @rs_ohlc_stop_choice _ XQnum 1 5 bar args false 1 false
    = Ok [(1, Fin (9 # 1), TrailStop); (2, Fin (99 # 10), TrailStop); (3, Fin (54 # 5), TrailStop); (4, Fin (54 # 5), TrailStop)] /\
  @rs_ohlc_stop_choice _ XQnum 1 5 bar (fun _ => mkOhlc (Fin (-1)) true NaN false) false 1 false
    = Err (ValueError "Stop value must be 0 or greater") /\
  (forall i, @ltb _ XQnum (oa_sl (args i)) (@zero _ XQnum) = false /\ @ltb _ XQnum (oa_tp (args i)) (@zero _ XQnum) = false) /\
  @rs_generate_ohlc_stop_ex _ XQnum entries bar args false 1 true false true = Ok [false; true; false; false; true; false; true] /\
  @rs_generate_ohlc_stop_enex _ XQnum 10 entries bar args false 1 1 true
    = Some (Ok ([true; false; false; true; false; true; false], [false; true; false; false; true; false; true])).
Proof. vm_compute. repeat split; reflexivity. Qed.
