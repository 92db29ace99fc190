(** * Properties of signals (C32-C38)

    Statements only: every theorem is closed by a lemma proved elsewhere, its
    assumptions are printed, and an example shows that its hypotheses are met. *)
From Coq Require Import ZArith QArith List Bool Arith Lia Permutation Sorting.
From Verif Require Import Base Num B64 XQFacts OrdLaws SignalsNb SignalsSpec SignalsLemmas SignalsLemmas2
  SignalsLemmas3 SignalsLemmas4 SignalsLemmas5 SignalsLemmas6 SignalsLemmas7.
Import ListNotations.
Local Open Scope nat_scope.

(** ** C32 *)

(** Cleaned signals: same lengths; subsets of the inputs, taken only where the
    other signal is false; never both at once; an exit between two entries and
    an entry between two exits; with [entry_first] no exit before the first
    entry; cleaning again changes nothing. *)
Theorem C32_clean : forall en ex entry_first, length en = length ex ->
  let eo := fst (clean_enex_1d_nb en ex entry_first) in
  let xo := snd (clean_enex_1d_nb en ex entry_first) in
  (length eo = length en /\ length xo = length ex) /\
  (forall i, (tr eo i -> tr en i /\ ~ tr ex i) /\ (tr xo i -> tr ex i /\ ~ tr en i)) /\
  (forall i, ~ (tr eo i /\ tr xo i)) /\
  (forall i j, i < j -> tr eo i -> tr eo j -> exists k, i < k < j /\ tr xo k) /\
  (forall i j, i < j -> tr xo i -> tr xo j -> exists k, i < k < j /\ tr eo k) /\
  (entry_first = true -> forall j, tr xo j -> exists k, k < j /\ tr eo k) /\
  clean_enex_1d_nb eo xo entry_first = (eo, xo).
Proof. exact clean_all. Qed.
Print Assumptions C32_clean.

(** Nothing else is dropped: an entry alone on its bar that was dropped comes
    after a kept entry with no kept exit in between, and a dropped exit after a
    kept exit with no kept entry in between, or before all kept entries. *)
Theorem C32_complete : forall en ex entry_first, length en = length ex ->
  let eo := fst (clean_enex_1d_nb en ex entry_first) in
  let xo := snd (clean_enex_1d_nb en ex entry_first) in
  (forall i, tr en i -> ~ tr ex i -> ~ tr eo i ->
     exists k, k < i /\ tr eo k /\ forall m, k < m < i -> ~ tr xo m) /\
  (forall i, tr ex i -> ~ tr en i -> ~ tr xo i ->
     (exists k, k < i /\ tr xo k /\ forall m, k < m < i -> ~ tr eo m) \/
     (entry_first = true /\ forall m, m < i -> ~ tr eo m)).
Proof. exact clean_complete_all. Qed.
Print Assumptions C32_complete.

Example C32_nonvacuous :
  clean_enex_1d_nb [false; true; true; true; false; false; true; false]
                   [true; false; true; false; true; true; false; false] true
  = ([false; true; false; false; false; false; true; false],
     [false; false; false; false; true; false; false; false]) /\
  clean_enex_1d_nb [false; true; true] [true; false; true] false
  = ([false; true; false], [true; false; false]).
Proof. split; reflexivity. Qed.

(** ** C33 *)

(** Every exit comes at least [wait] bars after some entry, inside the array,
    and with [until_next] no other entry lies after that one up to the exit. *)
Theorem C33_exits_in_window : forall entries wait until_next skip pick_first choice exits, (0 <= wait)%Z ->
  generate_ex_nb entries wait until_next skip pick_first choice = Ok exits ->
  length exits = length entries /\
  forall j, tr exits j -> exists e, tr entries e /\ (Z.of_nat e + wait <= Z.of_nat j)%Z /\ j < length entries /\
    (until_next = true -> forall e', e < e' <= j -> ~ tr entries e').
Proof. exact generate_ex_sound. Qed.
Print Assumptions C33_exits_in_window.

(** Without skipping, the exits are exactly what the choice function returns
    for the non-empty windows of the entries. *)
Theorem C33_exits_exact : forall entries wait until_next (pick_first : bool) (choice : Choice) exits, (0 <= wait)%Z ->
  generate_ex_nb entries wait until_next false pick_first choice = Ok exits ->
  forall j, tr exits j <-> exists m e z next, nth_error (flatnonzero entries) m = Some e /\
    next_true entries e next /\
    let from := (Z.of_nat e + wait)%Z in let to := window_end (length entries) until_next next in
    (from < to)%Z /\
    (if pick_first then hd_error (choice m from to) = Some z else In z (choice m from to)) /\ j = Z.to_nat z.
Proof. exact generate_ex_exact. Qed.
Print Assumptions C33_exits_exact.

(** An index outside of its window is never accepted... *)
Theorem C33_checked : forall entries wait until_next (pick_first : bool) (choice : Choice) exits, (0 <= wait)%Z ->
  generate_ex_nb entries wait until_next false pick_first choice = Ok exits ->
  forall m e next z, nth_error (flatnonzero entries) m = Some e -> next_true entries e next ->
    let from := (Z.of_nat e + wait)%Z in let to := window_end (length entries) until_next next in
    (from < to)%Z ->
    (if pick_first then hd_error (choice m from to) = Some z else In z (choice m from to)) ->
    (from <= z < to)%Z.
Proof. exact generate_ex_checked. Qed.
Print Assumptions C33_checked.

(** ... but raises a ValueError. *)
Theorem C33_raises : forall entries wait until_next skip (pick_first : bool) (choice : Choice) e es z,
  flatnonzero entries = e :: es ->
  let from := (Z.of_nat e + wait)%Z in let to := window_end (length entries) until_next (hd_error es) in
  (from < to)%Z ->
  (if pick_first then hd_error (choice 0 from to) = Some z else In z (choice 0 from to)) ->
  ~ (from <= z < to)%Z ->
  exists m, generate_ex_nb entries wait until_next skip pick_first choice = Err (ValueError m).
Proof. exact generate_ex_raises. Qed.
Print Assumptions C33_raises.

(** Signals generated without entries *)
Theorem C33_generate : forall n pick_first choice out, generate_nb n pick_first choice = Ok out ->
  length out = n /\
  forall i, tr out i <->
    exists z, i = Z.to_nat z /\ (0 <= z < Z.of_nat n)%Z /\
      if pick_first then hd_error (choice 0 0%Z (Z.of_nat n)) = Some z else In z (choice 0 0%Z (Z.of_nat n)).
Proof. exact generate_sound. Qed.
Print Assumptions C33_generate.

Theorem C33_generate_raises : forall n (pick_first : bool) (choice : Choice),
  (if pick_first then exists z, hd_error (choice 0 0%Z (Z.of_nat n)) = Some z /\ ~ (0 <= z < Z.of_nat n)%Z
   else exists z, In z (choice 0 0%Z (Z.of_nat n)) /\ ~ (0 <= z < Z.of_nat n)%Z) ->
  exists m, generate_nb n pick_first choice = Err (ValueError m).
Proof. exact generate_raises. Qed.
Print Assumptions C33_generate_raises.

(** The built-in choice functions stay in their window. *)
Theorem C33_builtin_choices : forall {T} {N : Num T} {L : OrdLaws N},
  (forall a from to i, In i (first_choice_nb from to a) -> from <= i < to) /\
  (forall perm from to n i, (forall l, Permutation (perm l) l) -> In i (rand_choice_nb perm from to n) -> from <= i < to) /\
  (forall u (prob : nat -> T) pf from to i, In i (rand_by_prob_choice_nb u prob pf from to) -> from <= i < to) /\
  (forall (ts stop : nat -> T) trailing wait pf from to i,
     In i (stop_choice_nb ts stop trailing wait pf from to) -> from <= i < to).
Proof. exact @builtin_choices. Qed.
Print Assumptions C33_builtin_choices.

(** Random exits: as many distinct bars as asked for, or the whole window *)
Theorem C33_random_count : forall perm from to n, (forall l, Permutation (perm l) l) ->
  NoDup (rand_choice_nb perm from to n) /\ length (rand_choice_nb perm from to n) = Nat.min (to - from) n.
Proof. exact rand_choice_nodup. Qed.
Print Assumptions C33_random_count.

Definition demo_first : Choice := fun _ from to => [(from + 1)%Z].
Definition demo_all : Choice := fun _ from to => map Z.of_nat (seq (Z.to_nat from) (Z.to_nat (to - from))).

Example C33_nonvacuous :
  generate_ex_nb [true; false; false; true; false; false; false] 1 true false true demo_first
  = Ok [false; false; true; false; false; true; false] /\
  generate_ex_nb [true; false; false; true; false; false; false] 2 true true false demo_all
  = Ok [false; false; true; false; false; true; true] /\
  (exists m, generate_ex_nb [true; false; true] 1 true false true demo_first = Err (ValueError m)) /\
  (exists m, generate_nb 3 true (fun _ _ to => [to]) = Err (ValueError m)) /\
  generate_nb 3 false demo_all = Ok [true; true; true].
Proof. repeat split; try (eexists; reflexivity). Qed.

(** ** C34 *)

(** The entries and exits are the even and odd numbered groups of a sequence
    of groups of bars in which each group comes at least the waiting time after
    the one before (see SignalsSpec.v). If all indices of a call are used, the
    choice function has to return them in ascending order. *)
Theorem C34_alternating_groups : forall fuel n entry_wait exit_wait ep xp ec xc entries exits,
  (0 <= entry_wait)%Z -> (0 <= exit_wait)%Z ->
  ep = true \/ ascending ec -> xp = true \/ ascending xc ->
  generate_enex_fuel fuel n entry_wait exit_wait ep xp ec xc = Some (Ok (entries, exits)) ->
  length entries = n /\ length exits = n /\
  exists groups, enex_groups n entry_wait exit_wait ep xp entries exits groups.
Proof. exact generate_enex_groups. Qed.
Print Assumptions C34_alternating_groups.

(** Picking the first index each time: between two entries there is an exit,
    between two exits an entry, and before every exit an entry, with the
    waiting times in between. *)
Theorem C34_alternate : forall fuel n entry_wait exit_wait ec xc entries exits,
  (0 <= entry_wait)%Z -> (0 <= exit_wait)%Z ->
  generate_enex_fuel fuel n entry_wait exit_wait true true ec xc = Some (Ok (entries, exits)) ->
  (forall e e', e < e' -> tr entries e -> tr entries e' ->
     exists x, tr exits x /\ (Z.of_nat e + exit_wait <= Z.of_nat x)%Z /\ (Z.of_nat x + entry_wait <= Z.of_nat e')%Z) /\
  (forall x x', x < x' -> tr exits x -> tr exits x' ->
     exists e, tr entries e /\ (Z.of_nat x + entry_wait <= Z.of_nat e)%Z /\ (Z.of_nat e + exit_wait <= Z.of_nat x')%Z) /\
  (forall x, tr exits x -> exists e, tr entries e /\ (Z.of_nat e + exit_wait <= Z.of_nat x)%Z).
Proof. exact enex_alternate. Qed.
Print Assumptions C34_alternate.

(** Generation ends: 2n + 2 rounds of the loop are always enough. *)
Theorem C34_terminates : forall n entry_wait exit_wait ep xp ec xc,
  (0 <= entry_wait)%Z -> (0 <= exit_wait)%Z ->
  ep = true \/ ascending ec -> xp = true \/ ascending xc ->
  exists r, forall fuel, 2 * n + 2 <= fuel -> generate_enex_fuel fuel n entry_wait exit_wait ep xp ec xc = Some r.
Proof. exact generate_enex_terminates. Qed.
Print Assumptions C34_terminates.

(** With choices that are not ascending the loop can run for ever, although
    every index returned is an index of the array. *)
Theorem C34_unsorted_choice_refuted :
  (forall k from to z, (0 <= from)%Z -> (from < to)%Z -> In z (unsorted_choice k from to) -> (0 <= z < to)%Z) /\
  forall fuel, generate_enex_fuel fuel 3 1 1 false false unsorted_choice unsorted_choice = None.
Proof. exact unsorted_refutes. Qed.
Print Assumptions C34_unsorted_choice_refuted.

Definition demo_next : Choice := fun _ from to => if (from + 1 <? to)%Z then [(from + 1)%Z] else [].
Definition demo_two : Choice := fun _ from to => if (from + 1 <? to)%Z then [from; (from + 1)%Z] else [].

Example C34_nonvacuous :
  ascending demo_two /\
  generate_enex_fuel 20 9 1 2 true true demo_next demo_next
  = Some (Ok ([false; true; false; false; false; false; true; false; false],
              [false; false; false; false; true; false; false; false; false])) /\
  generate_enex_fuel 20 9 0 2 true false demo_next demo_two
  = Some (Ok ([false; true; false; false; false; true; false; false; false],
              [false; false; false; true; true; false; false; true; true])).
Proof.
  split.
  - intros k from to. unfold demo_two. destruct (from + 1 <? to)%Z; repeat constructor; lia.
  - split; vm_compute; reflexivity.
Qed.

(** ** C35 *)

(** The bars at which a stop is signalled are exactly the bars of the range at
    which the price reaches the level (see SignalsSpec.v for the level), or
    only the first of them. *)
Theorem C35_stop_bars : forall {T} {N : Num T} {L : OrdLaws N} (ts stop : nat -> T) trailing wait from to,
  let entry := from - wait in
  let reached := stop_reached ts (stop entry) (trailing entry) entry from in
  stop_choice_nb ts stop trailing wait false from to = filter reached (seq from (to - from)) /\
  stop_choice_nb ts stop trailing wait true from to = firstn 1 (filter reached (seq from (to - from))).
Proof. exact @stop_choice_spec. Qed.
Print Assumptions C35_stop_bars.

(** The extremes that the trailing levels use really are extremes. *)
Theorem C35_extremes : forall {T} {N : Num T} {L : OrdLaws N} (p0 : T) ps, isnan p0 = false ->
  (In (lowest p0 ps) (p0 :: ps) /\ forall p, In p (p0 :: ps) -> ltb p (lowest p0 ps) = false) /\
  (In (highest p0 ps) (p0 :: ps) /\ forall p, In p (p0 :: ps) -> ltb (highest p0 ps) p = false).
Proof. exact @extremes. Qed.
Print Assumptions C35_extremes.

(** Stop loss, trailing stop and take profit on bars: the exits are, bar by
    bar, those of the specification, or only the first. *)
Theorem C35_ohlc_stop_bars : forall {T} {N : Num T} bar args open_safe wait from to,
  let entry := from - wait in
  ltb (oa_sl (args entry)) zero = false -> ltb (oa_tp (args entry)) zero = false ->
  ohlc_stop_choice_nb bar args open_safe wait false from to
    = Ok (flat_map (exit_at bar (args entry) open_safe entry from) (seq from (to - from))) /\
  ohlc_stop_choice_nb bar args open_safe wait true from to
    = Ok (firstn 1 (flat_map (exit_at bar (args entry) open_safe entry from) (seq from (to - from)))).
Proof. exact @ohlc_choice_spec. Qed.
Print Assumptions C35_ohlc_stop_bars.

Definition demo_ts (i : nat) : XQ := Fin (inject_Z (nth i [10; 12; 11; 13; 12; 10; 9]%Z 0%Z)).
Definition demo_bar (i : nat) : Bar XQ :=
  let p := nth i [10; 12; 11; 13; 12; 10; 9]%Z 0%Z in
  mkBar (Fin (inject_Z p)) NaN (Fin (inject_Z (p - 1))) (Fin (inject_Z p)).

Example C35_nonvacuous :
  stop_choice_nb demo_ts (fun _ => Fin (- (1 # 10))) (fun _ => true) 1 false 1 7 = [5; 6] /\
  stop_choice_nb demo_ts (fun _ => Fin (- (1 # 10))) (fun _ => false) 1 true 1 7 = [6] /\
  stop_choice_nb demo_ts (fun _ => Fin (1 # 5)) (fun _ => false) 1 true 1 7 = [1] /\
  match ohlc_stop_choice_nb demo_bar (fun _ => mkOhlc (Fin (1 # 10)) true (Fin (3 # 10)) false) false 1 false 1 7 with
  | Ok l => map (fun x => fst (fst x)) l = [2; 3; 4; 5; 6] /\ map snd l = [TrailStop; TakeProfit; TrailStop; TrailStop; TrailStop]
  | Err _ => False
  end.
Proof. repeat split; vm_compute; reflexivity. Qed.

(** ** C36 *)

(** Position of a signal among all signals since the last reset *)
Theorem C36_position_with_gaps : forall a reset after_false i, length reset = length a -> i < length a ->
  nth i (rank_nb (sig_pos_rank_nb true) a reset after_false (-1)%Z) (-1)%Z =
  if counts a after_false i then Z.of_nat (count_in (counts a after_false) (last_reset reset i) i) else (-1)%Z.
Proof. exact sig_rank_gaps. Qed.
Print Assumptions C36_position_with_gaps.

(** Position of a signal in its run, or since the last reset in the run *)
Theorem C36_position_in_run : forall a reset after_false i, length reset = length a -> i < length a ->
  nth i (rank_nb (sig_pos_rank_nb false) a reset after_false (-1)%Z) (-1)%Z =
  if counts a after_false i
  then Z.of_nat (i - Nat.max (last_reset reset i) (run_start (counts a after_false) i)) else (-1)%Z.
Proof. exact sig_rank_nogaps. Qed.
Print Assumptions C36_position_in_run.

(** Number of the run since the last reset, the first one being 0 *)
Theorem C36_run_number : forall a reset after_false i, length reset = length a -> i < length a ->
  nth i (rank_nb part_pos_rank_nb a reset after_false (-1)%Z) (-1)%Z =
  if counts a after_false i
  then (Z.of_nat (count_in (begins (counts a after_false) (last_reset reset i)) (last_reset reset i) (S i)) - 1)%Z
  else (-1)%Z.
Proof. exact part_rank. Qed.
Print Assumptions C36_run_number.

Example C36_nonvacuous :
  let a := [true; true; false; true; true; true; false; true] in
  let r := [false; false; false; false; true; false; false; false] in
  rank_nb (sig_pos_rank_nb true) a r false (-1)%Z = [0; 1; -1; 2; 0; 1; -1; 2]%Z /\
  rank_nb (sig_pos_rank_nb false) a r false (-1)%Z = [0; 1; -1; 0; 0; 1; -1; 0]%Z /\
  rank_nb part_pos_rank_nb a r false (-1)%Z = [0; 0; -1; 1; 0; 0; -1; 1]%Z /\
  rank_nb part_pos_rank_nb a r true (-1)%Z = [-1; -1; -1; 0; 0; 0; -1; 1]%Z.
Proof. repeat split. Qed.

(** ** C37 *)
Theorem C37_nth_index : forall a n,
  nth_index_1d_nb a n =
  match (if (0 <=? n)%Z then nth_error (flatnonzero a) (Z.to_nat n)
         else nth_error (rev (flatnonzero a)) (Z.to_nat (- n - 1))) with
  | Some j => Z.of_nat j
  | None => (-1)%Z
  end.
Proof. exact nth_index_spec. Qed.
Print Assumptions C37_nth_index.

(** [flatnonzero] lists the positions of the true values in order. *)
Theorem C37_true_positions : forall a,
  (forall i, In i (flatnonzero a) <-> tr a i) /\ StronglySorted lt (flatnonzero a).
Proof. exact flatnonzero_spec. Qed.
Print Assumptions C37_true_positions.

Example C37_nonvacuous :
  let a := [false; true; true; false; true] in
  map (nth_index_1d_nb a) [0; 1; 2; 3; -1; -2; -3; -4]%Z = [1; 2; 4; -1; 4; 2; 1; -1]%Z.
Proof. reflexivity. Qed.

(** ** C38 *)
Theorem C38_between : forall a, lists_exactly rg_start (is_between a) (between_ranges_nb a).
Proof. exact between_ranges_spec. Qed.
Print Assumptions C38_between.

Theorem C38_to_next : forall a b, lists_exactly rg_start (is_to_next a b) (between_two_ranges_nb a b false).
Proof. exact to_next_spec. Qed.
Print Assumptions C38_to_next.

Theorem C38_from_previous : forall a b, lists_exactly rg_end (is_from_prev a b) (between_two_ranges_nb a b true).
Proof. exact from_prev_spec. Qed.
Print Assumptions C38_from_previous.

Theorem C38_partitions : forall a, lists_exactly rg_start (is_partition a) (partition_ranges_nb a).
Proof. exact partition_spec. Qed.
Print Assumptions C38_partitions.

Theorem C38_between_partitions : forall a, lists_exactly rg_start (is_gap a) (between_partition_ranges_nb a).
Proof. exact gap_spec. Qed.
Print Assumptions C38_between_partitions.

Example C38_nonvacuous :
  let a := [true; true; false; false; true; true; true] in
  let b := [false; true; false; true; false; false; true] in
  between_ranges_nb b = [mkRange 1 3 true; mkRange 3 6 true] /\
  between_two_ranges_nb a b false
    = [mkRange 0 1 true; mkRange 1 1 true; mkRange 4 6 true; mkRange 5 6 true; mkRange 6 6 true] /\
  between_two_ranges_nb a b true = [mkRange 1 1 true; mkRange 1 3 true; mkRange 6 6 true] /\
  partition_ranges_nb a = [mkRange 0 2 true; mkRange 4 6 false] /\
  between_partition_ranges_nb a = [mkRange 1 4 true].
Proof. repeat split. Qed.
