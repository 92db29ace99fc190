(** * Property C107: on the same draws, the Rust random signal generators give what the Numba ones give *)
From Coq Require Import String ZArith Bool List Arith QArith Permutation.
From Verif Require Import Base Num B64 SignalsNb RandSignals RandSignalsSpec RustStops RustRand RustRandLemmas.
Import ListNotations.
Local Open Scope list_scope.
Local Open Scope nat_scope.

(** [n] signals at random rows: the rows are the first [n] of a random order. *)
Theorem C107_rand : forall (rg : Rng) (pos rows n : nat), generator rg ->
  generate_rand_nb rg pos rows n = Ok (rs_generate_rand (rg_perm rg pos) rows n).
Proof. exact (fun rg pos rows n H => rand_ok rg pos rows n (proj2 (proj2 H))). Qed.
Print Assumptions C107_rand.

(** Signals by probability: one draw per row, compared with the probability of the row. *)
Theorem C107_rand_by_prob : forall {T} {N : Num T} (draw prob : nat -> T) (pick_first : bool) (rows : nat),
  generate_rand_by_prob_nb draw prob pick_first rows = Ok (rs_generate_rand_by_prob draw prob pick_first rows).
Proof. exact @by_prob_ok. Qed.
Print Assumptions C107_rand_by_prob.

(** One random exit per entry. Numba takes the first of a random order of the rows of the range, Rust draws one
    offset; the two agree if the offset drawn is the first of that order. *)
Theorem C107_rand_exits : forall (perm : nat -> list nat -> list nat) (offset : nat -> nat -> nat) (entries : list bool) (wait : nat)
    (until_next skip_until_exit : bool),
  (forall call l, Permutation (perm call l) l) ->
  (forall call m, offset call m = hd 0 (perm call (seq 0 m))) ->
  generate_rand_ex_nb perm entries wait until_next skip_until_exit = Ok (rs_generate_rand_ex offset entries wait until_next skip_until_exit).
Proof. exact rand_ex_same. Qed.
Print Assumptions C107_rand_exits.

(** Exits by probability after given entries. *)
Theorem C107_rand_exits_by_prob : forall {T} {N : Num T} (draw : nat -> nat -> T) (entries : list bool) (prob : nat -> T) (wait : nat)
    (until_next skip_until_exit : bool),
  generate_rand_ex_by_prob_nb draw entries prob wait until_next skip_until_exit
  = Ok (rs_generate_rand_ex_by_prob draw entries prob wait until_next skip_until_exit).
Proof. exact @ex_by_prob_ok. Qed.
Print Assumptions C107_rand_exits_by_prob.

(** Entries and exits by probability, one after another: after any number of rounds both are still running, or both have
    stopped with the same arrays or the same error. *)
Theorem C107_rand_entries_exits_by_prob : forall {T} {N : Num T} (rounds : nat) (draw : nat -> nat -> T) (rows : nat) (entry_prob exit_prob : nat -> T)
    (entry_wait exit_wait : nat) (entry_pick_first exit_pick_first : bool),
  rs_generate_rand_enex_by_prob rounds draw rows entry_prob exit_prob entry_wait exit_wait entry_pick_first exit_pick_first
  = generate_rand_enex_by_prob_fuel rounds draw rows entry_prob exit_prob entry_wait exit_wait entry_pick_first exit_pick_first.
Proof. exact (fun T N => @enex_by_prob_ok T N). Qed.
Print Assumptions C107_rand_entries_exits_by_prob.

(** The draws: the k-th of a call is (3k + call) mod 7 sevenths; the order of the rows is reversed. *)
Example C107_nonvacuous :
  let draw := fun call k : nat => Fin (Z.of_nat (Nat.modulo (3 * k + call) 7) # 7) in
  let half := fun _ : nat => Fin (1 # 2) in
  let entries := [true; false; false; true; false; true; false] in
  let perm := fun (_ : nat) (l : list nat) => rev l in
  let rg := mkRng (fun _ => 0%Q) (fun _ _ => 0%Z) perm in
  generator rg /\
  rs_generate_rand (rg_perm rg 0) 5 2 = [false; false; false; true; true] /\
  @rs_generate_rand_by_prob _ XQnum (draw 0) half false 6 = [true; true; false; true; false; true] /\
  @rs_generate_rand_by_prob _ XQnum (draw 4) half true 6 = [false; true; false; false; false; false] /\
  (forall call m, (fun _ m => hd 0 (rev (seq 0 m))) call m = hd 0 (perm call (seq 0 m))) /\
  rs_generate_rand_ex (fun _ m => hd 0 (rev (seq 0 m))) entries 1 true false = [false; false; true; false; true; false; true] /\
  @rs_generate_rand_ex_by_prob _ XQnum (fun c => draw (c + 4)) entries half 1 true false = [false; false; true; false; false; false; false] /\
  @rs_generate_rand_enex_by_prob _ XQnum 10 draw 7 half half 1 1 true true
    = Some (Ok ([true; false; true; false; false; true; false], [false; true; false; true; false; false; false])) /\
  @rs_generate_rand_enex_by_prob _ XQnum 1 draw 7 half half 1 1 true true = None.
Proof.
  split.
  - split; [intros k; cbn; split; [apply Qle_refl|reflexivity]|]. split; [intros k b Hb; cbn; split; [apply Z.le_refl|exact Hb]|].
    intros k l. cbn. apply Permutation_sym, Permutation_rev.
  - split; [vm_compute; reflexivity|]. split; [vm_compute; reflexivity|]. split; [vm_compute; reflexivity|]. split; [reflexivity|].
    vm_compute. repeat split; reflexivity.
Qed.
