(** * Properties of simulating whole portfolios (C12-C14, C16, C17)

    Statements only: every theorem is closed by a lemma proved elsewhere, its
    assumptions are printed, and an example shows that its hypotheses are met. *)
From Coq Require Import ZArith QArith List Bool Arith Lia String Permutation Sorting.
From Verif Require Import Base Num B64 Order XQFacts Records RecordLemmas CallSeq Simulate SimSpec
  OrdLaws CallSeqLemmas SimLemmas SimLemmas2 SimLemmas3 SimLemmas4 SimLemmas5 OrderRuns.
Import ListNotations.
Local Open Scope nat_scope.

(** ** Concrete inputs used by the examples *)
Definition table {A} (d : A) (rows : list (list A)) (i c : nat) : A := nth c (nth i rows []) d.
Definition demo_inputs (sizes prices : nat -> nat -> XQ) (reject : nat -> nat -> XQ) : Inputs XQ :=
  mkInputs sizes prices (fun _ _ => Amount) (fun _ _ => BothDir) (fun _ _ => Fin (1 # 100))
    (fun _ _ => Fin 0) (fun _ _ => Fin 0) (fun _ _ => Fin 0) (fun _ _ => PInf) (fun _ _ => NaN)
    reject (fun _ _ => false) (fun _ _ => true) (fun _ _ => false) (fun _ _ => true)
    prices prices (fun _ c => c - 2 * (c / 2)).
Definition demo_sizes1 : nat -> nat -> XQ :=
  table (Fin 0) [[Fin 2; Fin 1; Fin 3; Fin 0]; [Fin (- (1)); Fin 2; Fin 0; Fin 1]; [Fin 5; Fin 5; Fin 5; Fin 5]].
Definition demo_sizes2 : nat -> nat -> XQ :=
  table (Fin 0) [[Fin 2; Fin 1; Fin 3; Fin 0]; [Fin (- (1)); Fin 2; Fin 0; Fin 1]; [Fin 0; Fin (- (3)); Fin 7; Fin 0]].
Definition demo_prices (i c : nat) : XQ := Fin (inject_Z (Z.of_nat (10 + i + c))).
Definition no_reject (i c : nat) : XQ := Fin 0.
Definition demo_flags := mkFlags true true true.
Definition demo_lens := [2; 2].
Definition demo_cash := [Fin 100; Fin 100].

(** ** C12 *)

(** Two runs over the same columns whose inputs agree on the first [t] bars
    produce, for those bars, the same order records, the same log records and
    the same call sequence; any number type, in particular IEEE doubles. *)
Theorem C12_no_look_ahead : forall {T} {N : Num T} draws rng t n1 n2 ncols lens init (i1 i2 : Inputs T)
    fl mo1 ml1 mo2 ml2 o1 l1 s1 o2 l2 s2,
  (forall i c, i < t -> c < ncols -> cell i1 i c = cell i2 i c) ->
  t <= n1 -> t <= n2 ->
  (forall i c, i < t -> c < ncols -> gtb (in_reject_prob i1 i c) zero = false) \/ List.length lens <= 1 ->
  simulate_from_orders_nb draws rng n1 ncols lens init i1 fl mo1 ml1 = Ok (o1, l1, s1) ->
  simulate_from_orders_nb draws rng n2 ncols lens init i2 fl mo2 ml2 = Ok (o2, l2, s2) ->
  map (order_view 0) (orders_before t o1) = map (order_view 0) (orders_before t o2) /\
  map (log_view 0) (logs_before t l1) = map (log_view 0) (logs_before t l2) /\
  forall i c, i < t -> c < ncols -> s1 i c = s2 i c.
Proof. exact @no_look_ahead. Qed.
Print Assumptions C12_no_look_ahead.

Example C12_nonvacuous :
  (forall i c, i < 2 -> c < 4 ->
     cell (demo_inputs demo_sizes1 demo_prices no_reject) i c = cell (demo_inputs demo_sizes2 demo_prices no_reject) i c) /\
  exists o1 l1 s1 o2 l2 s2,
    simulate_from_orders_nb no_draws 0 3 4 demo_lens demo_cash (demo_inputs demo_sizes1 demo_prices no_reject)
      demo_flags None 20 = Ok (o1, l1, s1) /\
    simulate_from_orders_nb no_draws 0 3 4 demo_lens demo_cash (demo_inputs demo_sizes2 demo_prices no_reject)
      demo_flags None 20 = Ok (o2, l2, s2) /\
    List.length o1 = 8 /\ List.length (orders_before 2 o1) = 6 /\ List.length o2 = 8.
Proof.
  split.
  - intros i c Hi Hc. do 2 (destruct i as [|i]; [do 4 (destruct c as [|c]; [reflexivity|]); lia|]). lia.
  - do 6 eexists. repeat (split; [vm_compute; reflexivity|]). vm_compute; reflexivity.
Qed.

(** With random rejection the groups draw from one generator, so the number of
    bars of the first group decides which numbers the second group draws: the
    future of one group changes the past of another. *)
Definition demo_reject (i c : nat) : XQ := if Nat.eqb c 0 then (if Nat.eqb i 0 then Fin 0 else Fin (1 # 2)) else Fin (1 # 2).
Definition reject_off (i c : nat) : XQ := if Nat.eqb c 0 then Fin 0 else Fin (1 # 2).
Definition two_draws (k : nat) : XQ := if Nat.eqb k 0 then Fin (1 # 10) else Fin (9 # 10).
Theorem C12_shared_generator_refuted : exists draws (i1 i2 : Inputs XQ) lens init fl o1 l1 s1 o2 l2 s2,
  (forall i c, i < 1 -> c < 2 -> cell i1 i c = cell i2 i c) /\
  simulate_from_orders_nb draws 0 2 2 lens init i1 fl None 20 = Ok (o1, l1, s1) /\
  simulate_from_orders_nb draws 0 2 2 lens init i2 fl None 20 = Ok (o2, l2, s2) /\
  map (order_view 0) (orders_before 1 o1) <> map (order_view 0) (orders_before 1 o2).
Proof.
  exists two_draws, (demo_inputs (fun _ _ => Fin 1) demo_prices demo_reject),
    (demo_inputs (fun _ _ => Fin 1) demo_prices reject_off), [1; 1], demo_cash, demo_flags.
  do 6 eexists. split.
  - intros i c Hi Hc. destruct i as [|i]; [do 2 (destruct c as [|c]; [reflexivity|]); lia|lia].
  - split; [vm_compute; reflexivity|]. split; [vm_compute; reflexivity|]. vm_compute. discriminate.
Qed.
Print Assumptions C12_shared_generator_refuted.

(** ** C13 *)

(** The records of group [g] in a simulation of many groups are those of a
    simulation of that group alone (columns renumbered from 0). *)
Theorem C13_groups_independent : forall {T} {N : Num T} draws rng rng' nrows ncols lens init (inp : Inputs T)
    fl mo ml o l s g len cash from,
  never_random inp ->
  simulate_from_orders_nb draws rng nrows ncols lens init inp fl (Some mo) ml = Ok (o, l, s) ->
  nth_error lens g = Some len -> nth_error init g = Some cash -> 0 < len ->
  from = sum_lens (firstn g lens) ->
  exists oa la sa,
    simulate_from_orders_nb draws rng' nrows len [len] [cash] (shift_inputs from inp) fl (Some mo) ml
      = Ok (oa, la, sa) /\
    map (order_view from) (orders_in from len o) = map (order_view 0) oa /\
    map (log_view from) (logs_in from len l) = map (log_view 0) la.
Proof. exact @group_independent. Qed.
Print Assumptions C13_groups_independent.

Example C13_nonvacuous :
  never_random (demo_inputs demo_sizes1 demo_prices no_reject) /\
  exists o l s,
    simulate_from_orders_nb no_draws 0 3 4 demo_lens demo_cash (demo_inputs demo_sizes1 demo_prices no_reject)
      demo_flags (Some 12) 20 = Ok (o, l, s) /\
    nth_error demo_lens 1 = Some 2 /\ sum_lens (firstn 1 demo_lens) = 2 /\
    List.length (orders_in 2 2 o) = 3 /\ List.length (logs_in 2 2 l) = 6.
Proof.
  split; [intros i c; reflexivity|].
  do 3 eexists. repeat (split; [vm_compute; reflexivity|]). vm_compute; reflexivity.
Qed.

(** ** C14 *)

(** Records are in range, in time order within each column, and not more than
    one per cell. *)
Theorem C14_orders_chronological : forall {T} {N : Num T} draws rng nrows ncols lens init (inp : Inputs T) fl mo ml o l s,
  simulate_from_orders_nb draws rng nrows ncols lens init inp fl mo ml = Ok (o, l, s) ->
  Forall (fun r => or_col r < ncols /\ or_idx r < nrows) o /\
  List.length o <= nrows * ncols /\
  ForallOrdPairs (fun a b => or_col a = or_col b -> or_idx a <= or_idx b) o.
Proof. exact @sim_orders_chronological. Qed.
Print Assumptions C14_orders_chronological.

(** If no column is listed twice in a row of the call sequence, each column has
    at most one order per bar. *)
Theorem C14_one_order_per_bar : forall {T} {N : Num T} draws rng nrows ncols lens init (inp : Inputs T) fl mo ml o l s,
  simulate_from_orders_nb draws rng nrows ncols lens init inp fl mo ml = Ok (o, l, s) ->
  (forall i g len, i < nrows -> nth_error lens g = Some len ->
     NoDup (map (in_call_seq inp i) (seq (sum_lens (firstn g lens)) len))) ->
  ForallOrdPairs (fun a b => or_col a = or_col b -> or_idx a < or_idx b) o.
Proof. exact @sim_orders_one_per_bar. Qed.
Print Assumptions C14_one_order_per_bar.

(** The default order buffer never overflows. *)
Theorem C14_default_buffer_suffices : forall {T} {N : Num T} draws rng nrows ncols lens init (inp : Inputs T) fl ml,
  simulate_from_orders_nb draws rng nrows ncols lens init inp fl None ml <>
  Err (IndexError "order_records index out of range. Set a higher max_orders."%string).
Proof. exact @default_buffer_suffices. Qed.
Print Assumptions C14_default_buffer_suffices.

Example C14_nonvacuous :
  (exists o l s,
    simulate_from_orders_nb no_draws 0 3 4 demo_lens demo_cash (demo_inputs demo_sizes1 demo_prices no_reject)
      demo_flags None 20 = Ok (o, l, s) /\ List.length o = 8) /\
  (forall i g len, i < 3 -> nth_error demo_lens g = Some len ->
     NoDup (map (in_call_seq (demo_inputs demo_sizes1 demo_prices no_reject) i) (seq (sum_lens (firstn g demo_lens)) len))) /\
  (* a buffer that is too small does overflow *)
  simulate_from_orders_nb no_draws 0 3 4 demo_lens demo_cash (demo_inputs demo_sizes1 demo_prices no_reject)
      demo_flags (Some 7) 20 = Err (IndexError "order_records index out of range. Set a higher max_orders."%string).
Proof.
  split; [do 3 eexists; split; vm_compute; reflexivity|]. split; [|vm_compute; reflexivity].
  intros i g len _ Hg. destruct g as [|[|g]]; cbn in Hg; try (destruct g; discriminate);
    injection Hg as <-; vm_compute; repeat constructor; cbn; intuition discriminate.
Qed.

(** ** C16 *)

(** Sorting keeps every column exactly once, ... *)
Theorem C16_auto_call_seq_permutes : forall {T} {N : Num T} (l : list (T * nat)),
  Permutation l (insert_argsort_nb l).
Proof. exact @argsort_perm. Qed.
Print Assumptions C16_auto_call_seq_permutes.

(** ... puts values in ascending order with NaN last, ... *)
Theorem C16_auto_call_seq_ascending : forall {T} {N : Num T} {L : OrdLaws N} (l : list (T * nat)),
  ForallOrdPairs (fun x y => isnan (fst y) = true \/ leb (fst x) (fst y) = true) (insert_argsort_nb l).
Proof. exact @argsort_sorted. Qed.
Print Assumptions C16_auto_call_seq_ascending.

(** ... and keeps columns of equal value in column order. *)
Theorem C16_auto_call_seq_stable : forall {T} {N : Num T} {L : OrdLaws N} v (l : list (T * nat)),
  isnan v = false ->
  filter (fun y => eqb (fst y) v) (insert_argsort_nb l) = filter (fun y => eqb (fst y) v) l.
Proof. exact @argsort_stable. Qed.
Print Assumptions C16_auto_call_seq_stable.

(** The laws of comparison hold for IEEE doubles. *)
Theorem C16_doubles_are_ordered : OrdLaws B64num.
Proof. exact B64ord. Qed.
Print Assumptions C16_doubles_are_ordered.

(** In a simulated bar with automatic call sequence, the columns of the group
    are visited in ascending order of the value of their orders. *)
Theorem C16_columns_visited_by_value : forall {T} {N : Num T} {L : OrdLaws N} (inp : Inputs T) fl i f len st,
  auto_call_seq fl = true -> (forall k, k < len -> sm_seq st i (f + k) = k) ->
  let cols := map (fun k => f + sm_seq (sort_step inp fl true i f len st) i (f + k)) (seq 0 len) in
  Permutation (seq f len) cols /\
  ForallOrdPairs (fun c1 c2 => isnan (order_value_of inp i st f len c2) = true \/
    leb (order_value_of inp i st f len c1) (order_value_of inp i st f len c2) = true) cols.
Proof. intros T N L. exact sort_step_sorted. Qed.
Print Assumptions C16_columns_visited_by_value.

(** The call sequence a simulation hands back lists in every row and group the
    same columns as the one it was given. *)
Theorem C16_call_seq_permuted : forall {T} {N : Num T} draws rng nrows ncols lens init (inp : Inputs T) fl mo ml o l s,
  simulate_from_orders_nb draws rng nrows ncols lens init inp fl mo ml = Ok (o, l, s) ->
  forall i g len, nth_error lens g = Some len ->
  Permutation (map (in_call_seq inp i) (seq (sum_lens (firstn g lens)) len))
              (map (s i) (seq (sum_lens (firstn g lens)) len)).
Proof. exact @sim_rows_permuted. Qed.
Print Assumptions C16_call_seq_permuted.

Example C16_nonvacuous :
  insert_argsort_nb [(Fin 3, 0); (NaN, 1); (Fin (- (2)), 2); (Fin 3, 3); (NInf, 4)]
    = [(NInf, 4); (Fin (- (2)), 2); (Fin 3, 0); (Fin 3, 3); (NaN, 1)] /\
  exists o l s,
    simulate_from_orders_nb no_draws 0 3 4 demo_lens demo_cash (demo_inputs demo_sizes1 demo_prices no_reject)
      demo_flags None 20 = Ok (o, l, s) /\
    map (s 0) [0; 1] = [1; 0] /\ map (s 1) [0; 1] = [0; 1].
Proof. split; [vm_compute; reflexivity|]. do 3 eexists. repeat (split; [vm_compute; reflexivity|]). vm_compute; reflexivity. Qed.

(** ** C17: every group has at least one column *)
Theorem C17_default_is_ascending : forall lens, Forall (fun n => 0 < n) lens ->
  build_call_seq_row (fold_right Nat.add 0 lens) lens CSDefault
    = Ok (List.concat (map (fun g => map Z.of_nat (seq 0 g)) lens)).
Proof. intros lens. apply (build_default lens CSDefault). discriminate. Qed.
Print Assumptions C17_default_is_ascending.

Theorem C17_reversed_is_mirrored : forall lens, Forall (fun n => 0 < n) lens ->
  build_call_seq_row (fold_right Nat.add 0 lens) lens CSReversed
    = Ok (List.concat (map (fun g => rev (map Z.of_nat (seq 0 g))) lens)).
Proof. exact build_reversed. Qed.
Print Assumptions C17_reversed_is_mirrored.

(** Shuffling permutes each group's slice of the row, whatever the generator does. *)
Theorem C17_random_is_permutation : forall shuffle, (forall k (l : list Z), Permutation l (shuffle k l)) ->
  forall lens row k, List.length row = fold_right Nat.add 0 lens ->
  Forall2 (@Permutation Z) (slices row lens) (slices (fst (shuffle_row shuffle k row lens)) lens).
Proof. exact shuffle_slices. Qed.
Print Assumptions C17_random_is_permutation.

(** [slices] cuts a row into the groups. *)
Theorem C17_slices_meaning : forall A (ls : list (list A)), slices (List.concat ls) (map (@List.length A) ls) = ls.
Proof. exact slices_concat. Qed.
Print Assumptions C17_slices_meaning.

(** A group without columns makes the following group's numbers wrong. *)
Theorem C17_empty_group_refuted :
  build_call_seq_row 3 [2; 0; 1] CSDefault = Ok [0; 1; 2]%Z /\
  build_call_seq_row 2 [2; 0] CSDefault = Err (IndexError "index out of bounds"%string).
Proof. split; vm_compute; reflexivity. Qed.
Print Assumptions C17_empty_group_refuted.

Example C17_nonvacuous :
  build_call_seq_row 6 [1; 3; 2] CSDefault = Ok [0; 0; 1; 2; 0; 1]%Z /\
  build_call_seq_row 6 [1; 3; 2] CSReversed = Ok [0; 2; 1; 0; 1; 0]%Z /\
  fst (shuffle_row (fun _ => @rev Z) 0 [0; 0; 1; 2; 0; 1]%Z [1; 3; 2]) = [0; 2; 1; 0; 1; 0]%Z.
Proof. repeat split; vm_compute; reflexivity. Qed.
