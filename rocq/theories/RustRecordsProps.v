(** * C101: the Rust kernels for records and mapped arrays *)
From Coq Require Import ZArith Bool List Arith Lia QArith.
From Verif Require Import Base Num OrdLaws GenericNb RecordsNb RecordsSpec RecordsLemmas RecordsLemmas2 RustRecords RustRecordsLemmas RustRecordsLemmas2 RustRecordsLemmas3.
Import ListNotations.
Local Open Scope nat_scope.

(** The ranges of columns are the same numbers, and the same arrays are refused
    with the same error. *)
Theorem C101_col_range : forall col_arr n, cols_below n col_arr ->
  r_col_range col_arr n = match col_range_nb col_arr n with Ok rg => Ok (flat_pairs rg) | Err e => Err e end.
Proof. exact r_col_range_eq. Qed.
Print Assumptions C101_col_range.

(** Selecting columns by ranges: the same indices and the same records, whatever
    fresh memory contains. The records must lie next to each other in memory. *)
Theorem C101_select_by_range : forall A set_col (d : A) mem memA memA' col_arr n rg memory new_cols,
  cols_below n col_arr -> col_range_nb col_arr n = Ok rg -> cols_below n new_cols -> length col_arr <= length memory ->
  r_col_range_select (flat_pairs rg) new_cols = col_range_select_nb mem rg new_cols /\
  r_record_col_range_select set_col d memA memory (flat_pairs rg) new_cols =
    record_col_range_select_nb set_col memA' (strided d memory 1 (length col_arr)) rg new_cols.
Proof.
  intros A set_col d mem memA memA' col_arr n rg memory new_cols H E Hn Hm.
  assert (Ha : ascending col_arr).
  { destruct (is_col_sorted_nb col_arr) eqn:Es; [apply sorted_iff; auto|].
    rewrite (col_range_err n col_arr H) in E; [discriminate|]. intros Ha. apply sorted_iff in Ha. congruence. }
  destruct (col_range_ok n col_arr H Ha) as (rg' & E' & L & S). rewrite E in E'. injection E' as <-. split.
  - rewrite (range_select_spec mem col_arr n rg new_cols L S Hn). apply (r_range_select col_arr n rg new_cols S Hn).
  - rewrite (r_record_range set_col d memA col_arr n rg memory new_cols Hm S Hn).
    rewrite (record_range_select set_col d memA' col_arr n rg (strided d memory 1 (length col_arr)) new_cols L).
    + symmetry. apply selected_strided.
    + unfold strided. rewrite map_length, seq_length. reflexivity.
    + exact S.
    + exact Hn.
Qed.
Print Assumptions C101_select_by_range.

(** Maps of columns, and selecting columns by them *)
Theorem C101_col_map : forall mem col_arr n, cols_below n col_arr -> r_col_map col_arr n = col_map_nb mem col_arr n.
Proof. exact r_col_map_eq. Qed.
Print Assumptions C101_col_map.

(** With one column every record belongs to it, whatever column it names (Numba
    would write outside the array). *)
Theorem C101_one_column : forall mem col_arr, r_col_map col_arr 1 = col_map_nb mem (repeat 0 (length col_arr)) 1.
Proof. exact r_col_map_one. Qed.
Print Assumptions C101_one_column.

Theorem C101_select_by_map : forall A set_col (d : A) mem mem' memA memA' col_arr n memory new_cols,
  cols_below n col_arr -> cols_below n new_cols -> length col_arr <= length memory ->
  let cm := col_map_nb mem col_arr n in
  r_col_map_select (fst cm) (snd cm) new_cols = col_map_select_nb mem' cm new_cols /\
  r_record_col_map_select set_col d memA memory (fst cm) (snd cm) new_cols =
    record_col_map_select_nb set_col d memA' (strided d memory 1 (length col_arr)) cm new_cols.
Proof.
  intros A set_col d mem mem' memA memA' col_arr n memory new_cols H Hn Hm cm. split.
  - apply r_map_select; auto.
  - unfold cm. rewrite (r_record_map set_col d mem memA col_arr n memory new_cols Hm H Hn), (record_map_select set_col d mem memA' col_arr n (strided d memory 1 (length col_arr)) new_cols H Hn).
    symmetry. apply selected_strided.
Qed.
Print Assumptions C101_select_by_map.

(** The condition on memory is needed: from a view of every second record the
    Rust engine returns the records in between. *)
Theorem C101_strided_refuted : exists memory : list (nat * nat), exists new_cols,
  let records := strided (0, 0) memory 2 3 in
  let set_col := fun c (r : nat * nat) => (c, snd r) in
  let cm := col_map_nb (fun _ => 0) (map fst records) 2 in
  record_col_map_select_nb set_col (0, 0) (fun _ => (0, 0)) records cm new_cols = [(0, 10); (0, 30)] /\
  r_record_col_map_select set_col (0, 0) (fun _ => (0, 0)) memory (fst cm) (snd cm) new_cols = [(0, 10); (0, 20)].
Proof. exists [(0, 10); (0, 20); (0, 30); (0, 40); (1, 50); (1, 60)], [0]. vm_compute. split; reflexivity. Qed.
Print Assumptions C101_strided_refuted.

(** The checks of order *)
Theorem C101_sorted : (forall col_arr, r_is_col_sorted col_arr = is_col_sorted_nb col_arr) /\
  (forall col_arr id_arr, length col_arr = length id_arr -> r_is_col_idx_sorted col_arr id_arr = is_col_idx_sorted_nb (combine col_arr id_arr)).
Proof. exact (conj r_sorted_eq r_idx_sorted_eq). Qed.
Print Assumptions C101_sorted.

(** Expansion of mapped arrays into matrices *)
Theorem C101_expand : forall B nr nc (vals : list B) cells fill, cells_in nr nc cells ->
  r_is_mapped_expandable cells nr nc = is_mapped_expandable_nb cells nr nc /\
  rows_from nr nc (r_expand_mapped vals cells nr nc fill) = expand_mapped_nb vals cells nr nc fill.
Proof. intros. split; [apply r_expandable_eq|apply r_expand_eq]; auto. Qed.
Print Assumptions C101_expand.

(** Stacking and counting, for every column map whose lengths add up to the number
    of records it lists *)
Theorem C101_stack_and_count : forall B (d : B) (vals : list B) codes n_uniques cm fill, list_sum (snd cm) = length (fst cm) ->
  (let out := r_stack_expand_mapped d vals (fst cm) (snd cm) fill in
   rows_from (fst out) (length (snd cm)) (snd out) = stack_expand_mapped_nb d vals cm fill) /\
  rows_from n_uniques (length (snd cm)) (r_mapped_value_counts codes n_uniques (fst cm) (snd cm)) = mapped_value_counts_nb codes n_uniques cm.
Proof. intros. split; [apply r_stack_eq|apply r_counts_eq]; auto. Qed.
Print Assumptions C101_stack_and_count.

(** The N largest and smallest of every column, with NaN, infinities and ties *)
Theorem C101_rank : forall T (N : Num T), OrdLaws N -> forall (vals : list T) cm n, list_sum (snd cm) = length (fst cm) ->
  r_top_n_mapped_mask vals (fst cm) (snd cm) n = top_n_mask vals cm n /\
  r_bottom_n_mapped_mask vals (fst cm) (snd cm) n = bottom_n_mask vals cm n.
Proof.
  intros T N L vals cm n H. split; apply r_n_mask; auto. intros i ps Hi. apply in_rev. auto.
Qed.
Print Assumptions C101_rank.

Example C101_nonvacuous :
  cols_below 3 [0; 0; 2] /\ col_range_nb [0; 0; 2] 3 = Ok [(0, 2); (-1, -1); (2, 3)]%Z /\
  r_col_range [0; 0; 2] 3 = Ok [0; 2; -1; -1; 2; 3]%Z /\
  r_record_col_range_select (fun c (r : nat * nat) => (c, snd r)) (0, 0) (fun _ => (7, 7)) [(0, 10); (0, 11); (2, 12); (9, 9)] [0; 2; -1; -1; 2; 3]%Z [2; 0] =
    [(0, 12); (1, 10); (1, 11)] /\
  (let cm := col_map_nb (fun _ => 5) [0; 1; 0; 1; 1] 2 in
   list_sum (snd cm) = length (fst cm) /\
   r_top_n_mapped_mask (N := XQnum) [Fin 1; Fin 2; NaN; Fin 2; Fin 1] (fst cm) (snd cm) 1 = [true; false; false; true; false] /\
   r_record_col_map_select (fun c (r : nat * nat) => (c, snd r)) (0, 0) (fun _ => (7, 7)) [(0, 1); (1, 2); (0, 3); (1, 4); (1, 5)] (fst cm) (snd cm) [1] =
     [(0, 2); (0, 4); (0, 5)]) /\
  cells_in 2 2 [(0, 1); (1, 0)] /\ rows_from 2 2 (r_expand_mapped [5; 6] [(0, 1); (1, 0)] 2 2 0) = [[0; 5]; [6; 0]].
Proof.
  split; [repeat constructor|]. split; [reflexivity|]. split; [reflexivity|]. split; [reflexivity|]. split; [vm_compute; auto|].
  split; [repeat constructor|]. reflexivity.
Qed.
