(** * C77: stops that leave one signal after another *)
From Coq Require Import String ZArith QArith Bool List Arith Lia.
From Verif Require Import Base Num OrdLaws XQFacts SignalsNb SignalsSpec StopSignals StopSignalsSpec StopSignalsLemmas.
Import ListNotations.
Local Open Scope list_scope.
Local Open Scope nat_scope.

(** Generating stop signals one after another ends, and belongs to the stop
    signals generated with [skip_until_exit]. *)
Theorem C77_stops_one_after_another : forall {T} {N : Num T} {L : OrdLaws N} entries (ts stop : nat -> T) trailing exit_wait pick_first,
  exists new_entries new_exits exits,
    (forall fuel, 2 * List.length entries + 1 <= fuel ->
       generate_stop_enex_fuel fuel entries ts stop trailing 1 exit_wait pick_first = Some (Ok (new_entries, new_exits))) /\
    generate_stop_ex_nb entries ts stop trailing exit_wait false true pick_first = Ok exits /\
    one_after_another entries exits new_entries new_exits exit_wait.
Proof. exact @stop_one_after_another. Qed.
Print Assumptions C77_stops_one_after_another.

(** The same for stops on open, high, low and close; no stop is negative. *)
Theorem C77_ohlc_stops_one_after_another : forall {T} {N : Num T} entries (bar : nat -> Bar T) args open_safe exit_wait pick_first,
  (forall i, ltb (oa_sl (args i)) zero = false /\ ltb (oa_tp (args i)) zero = false) ->
  exists new_entries new_exits exits,
    (forall fuel, 2 * List.length entries + 1 <= fuel ->
       generate_ohlc_stop_enex_fuel fuel entries bar args open_safe 1 exit_wait pick_first = Some (Ok (new_entries, new_exits))) /\
    generate_ohlc_stop_ex_nb entries bar args open_safe exit_wait false true pick_first = Ok exits /\
    one_after_another entries exits new_entries new_exits exit_wait.
Proof. intros T N entries bar args open_safe exit_wait pick_first _. apply ohlc_one_after_another. Qed.
Print Assumptions C77_ohlc_stops_one_after_another.

(** A 10% stop loss *)
Definition loss : nat -> XQ := fun _ => Fin (- (1 # 10)).
Definition series (l : list Q) : nat -> XQ := fun i => Fin (nth i l 0%Q).
Definition bools (l : list nat) : list bool := map (fun b => Nat.eqb b 1) l.

(** Every entry that is kept exits, and one is removed. *)
Example C77_nonvacuous :
  let entries := bools [1; 1; 0; 1; 0; 0] in
  let ts := series [10; 9; 8; 10; 10; 5]%Q in
  let new_entries := bools [1; 0; 0; 1; 0; 0] in
  let new_exits := bools [0; 1; 0; 0; 0; 1] in
  generate_stop_enex_fuel 13 entries ts loss (fun _ => false) 1 1 true = Some (Ok (new_entries, new_exits)) /\
  generate_stop_ex_nb entries ts loss (fun _ => false) 1 false true true = Ok new_exits /\
  generate_ohlc_stop_enex_fuel 13 entries (fun i => mkBar (ts i) (ts i) (ts i) (ts i)) (fun _ => mkOhlc (Fin (1 # 10)) false (Fin 5) false) false 1 1 true
    = Some (Ok (new_entries, new_exits)) /\
  (forall e, tr new_entries e -> exited new_exits e).
Proof.
  cbn zeta. split; [vm_compute; reflexivity|]. split; [vm_compute; reflexivity|]. split; [vm_compute; reflexivity|].
  intros e He. destruct (Nat.lt_ge_cases e 6) as [H|H]; [|unfold tr in He; rewrite nth_overflow in He; [discriminate|exact H]].
  exists 5. split; [reflexivity|lia].
Qed.

(** The documented "same logic as with skip_until_exit" is false of entries that
    do not exit: then no later entry is looked at, and later exits are missing. *)
Theorem C77_same_exits_refuted :
  ~ (forall entries (ts stop : nat -> XQ) trailing exit_wait pick_first fuel new_entries new_exits,
       generate_stop_enex_fuel fuel entries ts stop trailing 1 exit_wait pick_first = Some (Ok (new_entries, new_exits)) ->
       generate_stop_ex_nb entries ts stop trailing exit_wait false true pick_first = Ok new_exits).
Proof.
  intros H. specialize (H (bools [1; 0; 1; 0]) (series [10; 20; 20; 10]%Q) loss (fun _ => false) 1 true 9 _ _ eq_refl).
  vm_compute in H. discriminate.
Qed.
Print Assumptions C77_same_exits_refuted.
