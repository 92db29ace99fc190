(** * Properties of record and mapped arrays (C39-C42, C58)

    Statements and examples only; the vocabulary is in RecordsSpec.v. *)
From Coq Require Import ZArith QArith Bool List Arith Lia Permutation.
From Verif Require Import Base Num B64 OrdLaws XQFacts RecordsNb RecordsSpec RecordsLemmas RecordsLemmas2 RecordsLemmas3 RecordsLemmas4.
Import ListNotations.
Local Open Scope nat_scope.

(** ** C39 *)
(** The column map lists the records column by column, each column's in original
    order, with their counts, whatever uninitialised memory holds. *)
Theorem C39_map_groups_by_column : forall mem col_arr n, cols_below n col_arr ->
  col_map_nb mem col_arr n = (concat (map (fun c => rows_of c col_arr) (seq 0 n)), map (fun c => length (rows_of c col_arr)) (seq 0 n)).
Proof. exact col_map_whole. Qed.
Print Assumptions C39_map_groups_by_column.

(** Every record is listed exactly once. *)
Theorem C39_map_lists_every_record_once : forall mem col_arr n, cols_below n col_arr ->
  Permutation (fst (col_map_nb mem col_arr n)) (seq 0 (length col_arr)).
Proof. exact col_map_perm. Qed.
Print Assumptions C39_map_lists_every_record_once.

(** The column range exists exactly for columns in ascending order and gives
    every column's block of records. *)
Theorem C39_range : forall col_arr n, cols_below n col_arr ->
  (ascending col_arr -> exists rg, col_range_nb col_arr n = Ok rg /\ length rg = n /\
     forall c, c < n -> range_says col_arr c (nth c rg (-1, -1)%Z)) /\
  (~ ascending col_arr -> exists e, col_range_nb col_arr n = Err e).
Proof.
  intros col_arr n H. split; [exact (col_range_ok n col_arr H)|]. intros Ha. rewrite (col_range_err n col_arr H Ha). eexists. reflexivity.
Qed.
Print Assumptions C39_range.

(** The sortedness checks decide the orders they are named after. *)
Theorem C39_sorted_checks :
  (forall col_arr, is_col_sorted_nb col_arr = true <-> ascending col_arr) /\
  (forall l, is_col_idx_sorted_nb l = true <-> lex_ascending l).
Proof. exact (conj sorted_iff lex_sorted_iff). Qed.
Print Assumptions C39_sorted_checks.

Example C39_nonvacuous :
  cols_below 4 [2; 0; 2; 3; 0] /\
  col_map_nb (fun k => 7 + k) [2; 0; 2; 3; 0] 4 = ([1; 4; 0; 2; 3], [2; 0; 2; 1]) /\
  col_range_nb [0; 0; 2; 2; 3] 4 = Ok [(0, 2); (-1, -1); (2, 4); (4, 5)]%Z /\
  ~ ascending [2; 0; 2; 3; 0].
Proof.
  split; [repeat constructor|]. split; [reflexivity|]. split; [reflexivity|]. intros H. specialize (H 0 1). cbn in H. lia.
Qed.

(** ** C40 *)
(** Selecting by map: indices and new column numbers of the requested columns,
    repeated and empty columns included *)
Theorem C40_select_indices_by_map : forall mem mem' col_arr n new_cols, cols_below n col_arr -> cols_below n new_cols ->
  col_map_select_nb mem' (col_map_nb mem col_arr n) new_cols =
  (concat (map (fun c => rows_of c col_arr) new_cols),
   concat (map (fun ic => repeat (fst ic) (length (rows_of (snd ic) col_arr))) (numbered_cols new_cols))).
Proof. exact map_select_spec. Qed.
Print Assumptions C40_select_indices_by_map.

Theorem C40_select_records_by_map : forall A set_col (d : A) mem mem' col_arr n records new_cols, cols_below n col_arr -> cols_below n new_cols ->
  record_col_map_select_nb set_col d mem' records (col_map_nb mem col_arr n) new_cols = selected set_col d col_arr records new_cols.
Proof. exact @record_map_select. Qed.
Print Assumptions C40_select_records_by_map.

(** For sorted records the range implementation returns the same. *)
Theorem C40_range_agrees_with_map : forall A set_col (d : A) mem mem' memA memA' col_arr n rg records new_cols,
  cols_below n col_arr -> cols_below n new_cols -> length records = length col_arr -> col_range_nb col_arr n = Ok rg ->
  col_range_select_nb mem rg new_cols = col_map_select_nb mem' (col_map_nb mem col_arr n) new_cols /\
  record_col_range_select_nb set_col memA records rg new_cols = record_col_map_select_nb set_col d memA' records (col_map_nb mem col_arr n) new_cols.
Proof.
  intros A set_col d mem mem' memA memA' col_arr n rg records new_cols Hb Hn Hl Hr.
  assert (Ha : ascending col_arr).
  { apply sorted_iff. destruct (is_col_sorted_nb col_arr) eqn:E; auto. rewrite col_range_err in Hr; auto; [discriminate|].
    intros H. apply sorted_iff in H. congruence. }
  destruct (col_range_ok n col_arr Hb Ha) as (rg' & E & L & S). rewrite Hr in E. injection E as <-. split.
  - rewrite (range_select_spec mem col_arr n rg new_cols L S Hn). symmetry. apply map_select_spec; auto.
  - rewrite (record_range_select set_col d memA col_arr n rg records new_cols L Hl S Hn). symmetry. apply record_map_select; auto.
Qed.
Print Assumptions C40_range_agrees_with_map.

Example C40_nonvacuous :
  col_map_select_nb (fun _ => 9) (col_map_nb (fun _ => 9) [2; 0; 2; 3; 0] 4) [2; 1; 0; 2] = ([0; 2; 1; 4; 0; 2], [0; 0; 2; 2; 3; 3]) /\
  record_col_range_select_nb (fun c (r : nat * nat) => (c, snd r)) (fun _ => (0, 0)) [(0, 10); (0, 11); (2, 12)] [(0, 2); (-1, -1); (2, 3)]%Z [2; 0]
    = [(0, 12); (1, 10); (1, 11)].
Proof. split; reflexivity. Qed.

(** ** C41 *)
(** top_n keeps the best [n] values of every column: greater values first,
    numbers before NaN, later values first among equal ones. *)
Theorem C41_top_n : forall T (N : Num T), OrdLaws N -> forall mem col_arr n ncols (vals : list T),
  cols_below ncols col_arr -> length vals = length col_arr ->
  keeps_best gtb true n ncols col_arr vals (top_n_mask vals (col_map_nb mem col_arr ncols) n).
Proof. intros T N L mem col_arr n ncols vals. exact (mask_invariant true mem col_arr n ncols vals). Qed.
Print Assumptions C41_top_n.

(** bottom_n: smaller values first, numbers before NaN, earlier values first
    among equal ones. *)
Theorem C41_bottom_n : forall T (N : Num T), OrdLaws N -> forall mem col_arr n ncols (vals : list T),
  cols_below ncols col_arr -> length vals = length col_arr ->
  keeps_best ltb false n ncols col_arr vals (bottom_n_mask vals (col_map_nb mem col_arr ncols) n).
Proof. intros T N L mem col_arr n ncols vals. exact (mask_invariant false mem col_arr n ncols vals). Qed.
Print Assumptions C41_bottom_n.

(** IEEE doubles satisfy the comparison laws assumed above. *)
Theorem C41_doubles : OrdLaws B64num /\ OrdLaws XQnum.
Proof. exact (conj B64ord XQord). Qed.
Print Assumptions C41_doubles.

Example C41_nonvacuous :
  let vals := [Fin 3; NaN; Fin 5; Fin 5; Fin 1; Fin 7]%Q in let cols := [0; 0; 0; 0; 0; 1] in
  top_n_mask vals (col_map_nb (fun _ => 0) cols 2) 1 = [false; false; false; true; false; true] /\
  bottom_n_mask vals (col_map_nb (fun _ => 0) cols 2) 3 = [true; false; true; false; true; true].
Proof. split; vm_compute; reflexivity. Qed.

(** ** C42 *)
(** An array is expandable exactly when no two values share a cell. *)
Theorem C42_expandable : forall nrows ncols cells, cells_in nrows ncols cells ->
  is_mapped_expandable_nb cells nrows ncols = true <-> NoDup cells.
Proof. exact expandable_iff. Qed.
Print Assumptions C42_expandable.

(** Then every value is at its cell and the rest is filled. When values do share
    a cell the last one is there. *)
Theorem C42_expand : forall B nrows ncols (vals : list B) cells fill d, length vals = length cells -> cells_in nrows ncols cells ->
  let out := expand_mapped_nb vals cells nrows ncols fill in
  shaped nrows ncols out /\
  (forall i c, i < nrows -> c < ncols -> ~ In (i, c) cells -> cell d out i c = fill) /\
  (forall k, k < length cells -> (forall k', k < k' < length cells -> nth k' cells (0, 0) <> nth k cells (0, 0)) ->
     cell d out (fst (nth k cells (0, 0))) (snd (nth k cells (0, 0))) = nth k vals d).
Proof.
  intros B nrows ncols vals cells fill d Hl Hc out.
  destruct (expand_run B nrows ncols vals cells (mfull nrows ncols fill) d Hl Hc (mfull_shaped _ _ _ _)) as (A & B1 & C).
  split; [exact A|]. split; [|exact C]. intros i c Hi Hc' Hn. unfold cell. fold (mget d out i c). unfold out, expand_mapped_nb.
  rewrite B1 by auto. apply mfull_get; auto.
Qed.
Print Assumptions C42_expand.

Theorem C42_expandable_values_in_place : forall B nrows ncols (vals : list B) cells fill d, length vals = length cells -> cells_in nrows ncols cells ->
  is_mapped_expandable_nb cells nrows ncols = true ->
  forall k, k < length cells ->
    cell d (expand_mapped_nb vals cells nrows ncols fill) (fst (nth k cells (0, 0))) (snd (nth k cells (0, 0))) = nth k vals d.
Proof.
  intros B nrows ncols vals cells fill d Hl Hc He k Hk. apply expandable_iff in He; auto.
  apply (proj2 (proj2 (C42_expand B nrows ncols vals cells fill d Hl Hc))); auto.
  intros k' Hk' E. rewrite (NoDup_nth cells (0, 0)) in He. assert (k' = k) by (apply He; auto; lia). lia.
Qed.
Print Assumptions C42_expandable_values_in_place.

(** Stacking: the k-th value of a column is in row k. *)
Theorem C42_stack : forall B (d : B) mem vals col_arr n fill, cols_below n col_arr ->
  let out := stack_expand_mapped_nb d vals (col_map_nb mem col_arr n) fill in
  let height := list_max (map (fun c => length (rows_of c col_arr)) (seq 0 n)) in
  shaped height n out /\
  forall k c, k < height -> c < n -> cell d out k c = nth k (values_of d c col_arr vals) fill.
Proof. exact stack_spec. Qed.
Print Assumptions C42_stack.

Example C42_nonvacuous :
  expand_mapped_nb [10; 11; 12] [(0, 1); (2, 0); (1, 1)] 3 2 0 = [[0; 10]; [0; 12]; [11; 0]] /\
  is_mapped_expandable_nb [(0, 1); (2, 0); (1, 1)] 3 2 = true /\ is_mapped_expandable_nb [(0, 1); (2, 0); (0, 1)] 3 2 = false /\
  stack_expand_mapped_nb 0 [10; 11; 12] (col_map_nb (fun _ => 0) [1; 0; 1] 3) 5 = [[11; 10; 5]; [5; 12; 5]].
Proof. repeat split. Qed.

(** ** C58 *)
(** Reducing gives, for every column, the reducer's value on exactly that
    column's values, or the fill value without records. *)
Theorem C58_reduce : forall B C (d : B) mem vals col_arr n (fill : C) f, cols_below n col_arr ->
  reduce_mapped_nb d vals (col_map_nb mem col_arr n) fill f =
  map (fun c => if Nat.eqb (length (rows_of c col_arr)) 0 then fill else f c (values_of d c col_arr vals)) (seq 0 n).
Proof. exact reduce_spec. Qed.
Print Assumptions C58_reduce.

(** Reducing to an index gives the bar of the record the reducer points at. *)
Theorem C58_reduce_to_index : forall B (d : B) mem vals col_arr n idx_arr fill f, cols_below n col_arr ->
  reduce_mapped_to_idx_nb d vals (col_map_nb mem col_arr n) idx_arr fill f =
  map (fun c => if Nat.eqb (length (rows_of c col_arr)) 0 then fill
                else nth (f c (values_of d c col_arr vals)) (values_of 0 c col_arr idx_arr) 0) (seq 0 n).
Proof. exact reduce_idx_spec. Qed.
Print Assumptions C58_reduce_to_index.

(** Applying a function to every column puts its results back on that column's
    records in order. *)
Theorem C58_apply : forall B C (d : B) (e : C) mem mem' vals col_arr n f, cols_below n col_arr -> length vals = length col_arr ->
  (forall c, c < n -> length (f c (values_of d c col_arr vals)) = length (rows_of c col_arr)) ->
  let out := apply_on_mapped_nb d mem' vals (col_map_nb mem col_arr n) f in
  length out = length vals /\
  forall c, c < n -> values_of e c col_arr out = f c (values_of d c col_arr vals).
Proof. exact apply_spec. Qed.
Print Assumptions C58_apply.

(** Value counts count the occurrences of every code in every column. *)
Theorem C58_value_counts : forall mem codes col_arr n n_codes, cols_below n col_arr -> length codes = length col_arr ->
  Forall (fun u => u < n_codes) codes ->
  let out := mapped_value_counts_nb codes n_codes (col_map_nb mem col_arr n) in
  shaped n_codes n out /\
  forall u c, u < n_codes -> c < n -> cell 0 out u c = count_occ Nat.eq_dec (values_of 0 c col_arr codes) u.
Proof. exact value_counts_spec. Qed.
Print Assumptions C58_value_counts.

Example C58_nonvacuous :
  let cm := col_map_nb (fun _ => 0) [1; 0; 1; 3] 4 in
  reduce_mapped_nb 0 [10; 11; 12; 13] cm 99 (fun _ l => list_sum l) = [11; 22; 99; 13] /\
  reduce_mapped_to_idx_nb 0 [10; 11; 12; 13] cm [5; 6; 7; 8] 99 (fun _ l => length l - 1) = [6; 7; 99; 8] /\
  apply_on_mapped_nb 0 (fun _ => 99) [10; 11; 12; 13] cm (fun _ l => rev l) = [12; 11; 10; 13] /\
  mapped_value_counts_nb [0; 1; 0; 1] 2 cm = [[0; 2; 0; 0]; [1; 0; 0; 1]].
Proof. repeat split. Qed.
