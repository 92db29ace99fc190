(** * Property C108: on the same draws, random entries and exits by number are the same in Rust as in Numba *)
From Coq Require Import String ZArith QArith Bool List Arith Lia Permutation.
From Verif Require Import Base SignalsNb RandSignals RandSignalsSpec RandSignalsProps RustRandEnex RustRandEnexLemmas.
Import ListNotations.
Local Open Scope list_scope.
Local Open Scope nat_scope.

(** Whenever the Numba generator returns, the Rust one returns the same entries and exits. *)
Theorem C108_same : forall (rg : Rng) (rows : nat) (ns : list nat) (entry_wait exit_wait : nat) entries exits, generator rg ->
  generate_rand_enex_nb rg rows ns entry_wait exit_wait = Ok (entries, exits) ->
  rs_generate_rand_enex rg rows ns entry_wait exit_wait = Ok (entries, exits).
Proof. exact (fun rg rows ns ew xw en ex Hg H => enex_same rg rows ns ew xw (en, ex) Hg H). Qed.
Print Assumptions C108_same.

(** If every column asks for at least one pair, the two return on the same inputs. *)
Theorem C108_same_inputs : forall (rg : Rng) (rows : nat) (ns : list nat) (entry_wait exit_wait : nat) entries exits, generator rg ->
  Forall (fun n => 1 <= n) ns ->
  (generate_rand_enex_nb rg rows ns entry_wait exit_wait = Ok (entries, exits) <->
   rs_generate_rand_enex rg rows ns entry_wait exit_wait = Ok (entries, exits)).
Proof. exact (fun rg rows ns ew xw en ex Hg Hn => enex_iff rg rows ns ew xw (en, ex) Hg Hn). Qed.
Print Assumptions C108_same_inputs.

(** Where there is no room Rust fails too, whatever the random generator draws. *)
Theorem C108_no_room : forall (rg : Rng) (rows : nat) (ns : list nat) (entry_wait exit_wait : nat), ~ (entry_wait = 1 /\ exit_wait = 1) ->
  (exists n, In n ns /\ 1 <= n /\ rows < room_for n entry_wait exit_wait) ->
  exists e, rs_generate_rand_enex rg rows ns entry_wait exit_wait = Err e.
Proof. exact enex_refused. Qed.
Print Assumptions C108_no_room.

(** Zero pairs: Rust leaves the column empty, the Numba code fails. *)
Theorem C108_zero_refuted : exists rg rows ns entry_wait exit_wait, generator rg /\
  rs_generate_rand_enex rg rows ns entry_wait exit_wait = Ok ([repeat false rows], [repeat false rows]) /\
  is_ok (generate_rand_enex_nb rg rows ns entry_wait exit_wait) = false.
Proof. exists some_rng, 10, [0], 2, 1. split; [exact some_generator|]. vm_compute. split; reflexivity. Qed.
Print Assumptions C108_zero_refuted.

Example C108_nonvacuous :
  generator some_rng /\ Forall (fun n => 1 <= n) [3; 2; 1] /\
  match rs_generate_rand_enex some_rng 12 [3; 2] 2 1 with
  | Ok (en, ex) => map (@flatnonzero) en = [[0; 3; 7]; [0; 3]] /\ map (@flatnonzero) ex = [[1; 5; 10]; [1; 8]]
  | Err _ => False
  end /\
  match rs_generate_rand_enex some_rng 5 [2; 1] 1 1 with
  | Ok (en, ex) => map (@flatnonzero) en = [[1; 3]; [3]] /\ map (@flatnonzero) ex = [[2; 4]; [4]]
  | Err _ => False
  end /\
  rs_generate_rand_enex some_rng 7 [1; 3] 2 1 = Err (ValueError "Cannot take a larger sample than population") /\ room_for 3 2 1 = 8.
Proof. split; [exact some_generator|]. split; [repeat constructor|]. vm_compute. auto 10. Qed.
