(** * C76: random entries and exits by number *)
From Coq Require Import String ZArith QArith Bool List Arith Permutation Lia.
From Verif Require Import Base SignalsNb SignalsSpec RandSignals RandSignalsSpec RandSignalsLemmas2.
Import ListNotations.
Local Open Scope list_scope.
Local Open Scope nat_scope.

(** Asking for [n] entries and exits gives [n] of each, in turn and at least the
    waiting times apart, in every column with room for them. *)
Theorem C76_random_pairs : forall rg rows ns ew xw, generator rg -> 0 < ew + xw -> ~ (ew = 1 /\ xw = 1) ->
  Forall (fun n => 1 <= n /\ room_for n ew xw <= rows) ns ->
  exists entries exits, generate_rand_enex_nb rg rows ns ew xw = Ok (entries, exits) /\
    List.length entries = List.length ns /\ List.length exits = List.length ns /\
    forall c n en ex, nth_error ns c = Some n -> nth_error entries c = Some en -> nth_error exits c = Some ex -> n_pairs rows n ew xw en ex.
Proof. exact random_pairs. Qed.
Print Assumptions C76_random_pairs.

(** Where there is no room it raises. *)
Theorem C76_no_room : forall rg rows ns ew xw, generator rg -> 0 < ew + xw -> ~ (ew = 1 /\ xw = 1) ->
  Forall (fun n => 1 <= n) ns -> (exists n, In n ns /\ rows < room_for n ew xw) ->
  exists m, generate_rand_enex_nb rg rows ns ew xw = Err (ValueError m).
Proof. exact too_many. Qed.
Print Assumptions C76_no_room.

(** Both waiting times 1: entries and exits in turn, [n] of each if there is room *)
Theorem C76_both_waits_one : forall rg rows ns, generator rg ->
  exists entries exits, generate_rand_enex_nb rg rows ns 1 1 = Ok (entries, exits) /\
    List.length entries = List.length ns /\ List.length exits = List.length ns /\
    forall c n en ex, nth_error ns c = Some n -> nth_error entries c = Some en -> nth_error exits c = Some ex ->
      alternating rows ((Nat.min rows (2 * n) + 1) / 2) (Nat.min rows (2 * n) / 2) 1 1 en ex /\ (2 * n <= rows -> n_pairs rows n 1 1 en ex).
Proof. exact random_alternating. Qed.
Print Assumptions C76_both_waits_one.

(** Signals without exits: as many as asked for, or all bars *)
Theorem C76_random_entries : forall rg pos rows n, generator rg ->
  exists out, generate_rand_nb rg pos rows n = Ok out /\ List.length out = rows /\ List.length (flatnonzero out) = Nat.min rows n.
Proof. exact rand_mask. Qed.
Print Assumptions C76_random_entries.

Definition some_rng : Rng := mkRng (fun k => 1 # Pos.of_nat (k + 2)) (fun k b => if Nat.even k then (b - 1)%Z else (b / 2)%Z) (fun k l => rev l).
Lemma some_generator : generator some_rng.
Proof.
  split; [|split].
  - intros k. cbn [rg_uniform some_rng]. split; [unfold Qle; cbn; lia|]. unfold Qlt. cbn. lia.
  - intros k b Hb. cbn [rg_below some_rng]. destruct (Nat.even k); [lia|]. split; [apply Z.div_pos; lia|apply Z.div_lt; lia].
  - intros k l. cbn [rg_perm some_rng]. symmetry. apply Permutation_rev.
Qed.

Example C76_nonvacuous :
  generator some_rng /\ Forall (fun n => 1 <= n /\ room_for n 2 1 <= 12) [3; 2] /\
  match generate_rand_enex_nb some_rng 12 [3; 2] 2 1 with
  | Ok (en, ex) => map (@flatnonzero) en = [[0; 3; 7]; [0; 3]] /\ map (@flatnonzero) ex = [[1; 5; 10]; [1; 8]]
  | Err _ => False
  end /\
  match generate_rand_enex_nb some_rng 5 [2; 1] 1 1 with
  | Ok (en, ex) => map (@flatnonzero) en = [[1; 3]; [3]] /\ map (@flatnonzero) ex = [[2; 4]; [4]]
  | Err _ => False
  end.
Proof. split; [exact some_generator|]. split; [repeat constructor|]. vm_compute. auto 10. Qed.

(** With both waiting times 1 a number there is no room for is not noticed: two
    entries and one exit instead of two of each, where other waiting times raise. *)
Theorem C76_no_room_waits_one_refuted :
  ~ (forall rg rows ns, generator rg -> Forall (fun n => 1 <= n) ns -> (exists n, In n ns /\ rows < room_for n 1 1) ->
       exists m, generate_rand_enex_nb rg rows ns 1 1 = Err (ValueError m)) /\
  match generate_rand_enex_nb some_rng 3 [2] 1 1 with
  | Ok (en, ex) => map (@flatnonzero) en = [[0; 2]] /\ map (@flatnonzero) ex = [[1]]
  | Err _ => False
  end.
Proof.
  split; [|vm_compute; auto]. intros H.
  destruct (H some_rng 3 [2] some_generator ltac:(repeat constructor)) as [m Hm]; [exists 2; vm_compute; split; [left; reflexivity|lia]|].
  vm_compute in Hm. discriminate.
Qed.
Print Assumptions C76_no_room_waits_one_refuted.

(** Asking for no entries at all is accepted with both waiting times 1 only. *)
Theorem C76_none_refuted :
  generate_rand_enex_nb some_rng 3 [0] 1 1 = Ok ([[false; false; false]], [[false; false; false]]) /\
  match generate_rand_enex_nb some_rng 3 [0] 2 1 with Ok _ => False | Err e => exists m, e = IndexError m end.
Proof. split; [reflexivity|]. vm_compute. eexists; reflexivity. Qed.
Print Assumptions C76_none_refuted.
