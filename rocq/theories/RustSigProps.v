(** * Property C105: the Rust signal analysis gives what the Numba one gives *)
From Coq Require Import ZArith Bool List Arith String QArith.
From Verif Require Import Base Num B64 SignalsNb RustSigOps RustSigSpec RustSigLemmas RustSigLemmas2.
Import ListNotations.
Open Scope list_scope.
Open Scope Z_scope.

(** Cleaning entries and exits. *)
Theorem C105_clean : forall (entries exits : list bool) (entry_first : bool),
  rs_clean_enex entries exits entry_first = clean_enex_1d_nb entries exits entry_first.
Proof. exact clean_eq. Qed.
Print Assumptions C105_clean.

(** Ranges between signals, over any number of columns: one record per range of the Numba kernel, column after column,
    with ids counting through all columns. *)
Theorem C105_between_ranges : forall cols, carries (rs_between_ranges cols) (ranges_of_columns between_ranges_nb cols).
Proof. exact between_ranges_ok. Qed.
Print Assumptions C105_between_ranges.

(** Ranges from the signals of one array to those of another, in both directions. *)
Theorem C105_between_two_ranges : forall (from_other : bool) (cols : list (list bool * list bool)),
  carries (rs_between_two_ranges cols from_other)
    (ranges_of_columns (fun ab => between_two_ranges_nb (fst ab) (snd ab) from_other) cols).
Proof. exact between_two_ok. Qed.
Print Assumptions C105_between_two_ranges.

(** Partitions of consecutive signals, the last one open if it reaches the end. *)
Theorem C105_partition_ranges : forall cols, carries (rs_partition_ranges cols) (ranges_of_columns partition_ranges_nb cols).
Proof. exact partition_ok. Qed.
Print Assumptions C105_partition_ranges.

(** Gaps between partitions. *)
Theorem C105_between_partition_ranges : forall cols,
  carries (rs_between_partition_ranges cols) (ranges_of_columns between_partition_ranges_nb cols).
Proof. exact between_partition_ok. Qed.
Print Assumptions C105_between_partition_ranges.

(** Ranks of signals within, and of, partitions; without a reset array nothing is reset. *)
Theorem C105_signal_rank : forall (a : list bool) (reset : option (list bool)) (after_false allow_gaps : bool),
  (match reset with Some r => List.length r = List.length a | None => True end) ->
  rs_sig_pos_rank a reset after_false allow_gaps
  = rank_nb (sig_pos_rank_nb allow_gaps) a (match reset with Some r => r | None => repeat false (List.length a) end) after_false (-1).
Proof. exact sig_rank_ok. Qed.
Print Assumptions C105_signal_rank.
Theorem C105_partition_rank : forall (a : list bool) (reset : option (list bool)) (after_false : bool),
  (match reset with Some r => List.length r = List.length a | None => True end) ->
  rs_part_pos_rank a reset after_false
  = rank_nb part_pos_rank_nb a (match reset with Some r => r | None => repeat false (List.length a) end) after_false (-1).
Proof. exact part_rank_ok. Qed.
Print Assumptions C105_partition_rank.

(** The position of the n-th signal, counted from the front or from the back. *)
Theorem C105_nth_index : forall (a : list bool) (n : Z), rs_nth_index a n = nth_index_1d_nb a n.
Proof. exact nth_index_eq. Qed.
Print Assumptions C105_nth_index.

(** The normalised average position, in exact arithmetic: both Rust versions give the Numba value, NaN included. *)
Theorem C105_average_index : forall a : list bool,
  @rs_norm_avg_index_1d _ XQnum a = @norm_avg_index_1d_nb _ XQnum a /\
  @rs_norm_avg_index _ XQnum a = @norm_avg_index_1d_nb _ XQnum a.
Proof. exact (fun a => conj (norm_1d_ok a) (norm_ok a)). Qed.
Print Assumptions C105_average_index.

(** With at least two bars and one signal it is 2 * mean position / last position - 1, and lies in [-1, 1]. *)
Theorem C105_average_value : forall a : list bool, (2 <= List.length a)%nat -> existsb (fun x => x) a = true ->
  exists q, @norm_avg_index_1d_nb _ XQnum a = Fin q /\
    (inject_Z (Z.of_nat (List.length (flatnonzero a))) * inject_Z (Z.of_nat (List.length a) - 1)%Z * (q + inject_Z 1)
     == inject_Z 2 * inject_Z (fold_left Z.add (map Z.of_nat (flatnonzero a)) 0%Z))%Q /\ (inject_Z (-1) <= q <= inject_Z 1)%Q.
Proof. exact norm_value. Qed.
Print Assumptions C105_average_value.

Example C105_nonvacuous :
  let a := [true; true; false; true; false; false; true] in
  let b := [false; false; true; true; false; true; false] in
  rs_clean_enex a b true = ([true; false; false; false; false; false; true], [false; false; true; false; false; false; false]) /\
  rs_between_ranges [a; b] = [mkRR 0 0 0 1 true; mkRR 1 0 1 3 true; mkRR 2 0 3 6 true; mkRR 3 1 2 3 true; mkRR 4 1 3 5 true] /\
  rs_between_two_ranges [(a, b)] false = [mkRR 0 0 0 2 true; mkRR 1 0 1 2 true; mkRR 2 0 3 3 true] /\
  rs_between_two_ranges [(a, b)] true = [mkRR 0 0 1 2 true; mkRR 1 0 3 3 true; mkRR 2 0 3 5 true] /\
  rs_partition_ranges [a; b] = [mkRR 0 0 0 2 true; mkRR 1 0 3 4 true; mkRR 2 0 6 6 false; mkRR 3 1 2 4 true; mkRR 4 1 5 6 true] /\
  rs_between_partition_ranges [a; b] = [mkRR 0 0 1 3 true; mkRR 1 0 3 6 true; mkRR 2 1 3 5 true] /\
  rs_sig_pos_rank a None false true = [0; 1; -1; 2; -1; -1; 3] /\
  rs_sig_pos_rank a (Some b) true false = [-1; -1; -1; 0; -1; -1; 0] /\
  rs_part_pos_rank a None false = [0; 0; -1; 1; -1; -1; 2] /\
  rs_nth_index a 2 = 3 /\ rs_nth_index a (-1) = 6 /\ rs_nth_index a 4 = -1 /\
  @rs_norm_avg_index_1d _ XQnum a = Fin (-1 # 6) /\ @rs_norm_avg_index _ XQnum [false; false] = NaN /\
  b64_eqb (@rs_norm_avg_index_1d _ B64num a) (@norm_avg_index_1d_nb _ B64num a) = true.
Proof. vm_compute. repeat split; reflexivity. Qed.
