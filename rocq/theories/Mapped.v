(** * Model of mapped arrays (records/mapped_array.py, records/col_mapper.py)

    A mapped array holds values, each with a column, an identifier and, if known,
    a row. [mem] stands for uninitialised memory of the kernels. Not modelled:
    mappings of values to labels, dtypes, engines (see C83), the argument
    [idx_arr] of methods (the own rows are taken) and [**kwargs] of [replace]. *)
From Coq Require Import String ZArith Bool List Arith.
From Verif Require Import Base Num Grouper Reduce RecordsNb Wrapper.
Import ListNotations.
Local Open Scope string_scope.
Local Open Scope list_scope.
Local Open Scope nat_scope.

(** records/mapped_array.py:431-480 MappedArray.__init__ *)
Record Mapped (V : Type) := mkMapped {
  ma_wrapper : Wrapper; ma_values : list V; ma_cols : list nat; ma_ids : list nat; ma_idx : option (list nat) }.
Arguments mkMapped {V}. Arguments ma_wrapper {V}. Arguments ma_values {V}. Arguments ma_cols {V}. Arguments ma_ids {V}. Arguments ma_idx {V}.

Definition make_mapped {V} (w : Wrapper) (values : list V) (cols : list nat) (ids idx : option (list nat)) : res (Mapped V) :=
  raise_if (negb (Nat.eqb (List.length values) (List.length cols))) (AssertionError "Length of axis 0 and axis 0 do not match") (
  let ids := match ids with None => seq 0 (List.length values) | Some l => l end in
  raise_if (match idx with Some l => negb (Nat.eqb (List.length values) (List.length l)) | None => false end)
    (AssertionError "Length of axis 0 and axis 0 do not match") (
  Ok (mkMapped w values cols ids idx))).

(** ** Column mapper *)
(** records/col_mapper.py:28-40 _col_idxs_meta *)
Definition _col_idxs_meta (mem : nat -> nat) (col_arr : list nat) (n_cols : nat) (col_idxs : list nat) : res (list nat * list nat) :=
  if is_col_sorted_nb col_arr then
    let! rg := col_range_nb col_arr n_cols in Ok (col_range_select_nb mem rg col_idxs)
  else Ok (col_map_select_nb mem (col_map_nb mem col_arr n_cols) col_idxs).

(** records/col_mapper.py:53-60 get_col_arr; columns without a group label are not modelled *)
Definition get_col_arr {V} (a : Mapped V) (g : GroupBy) : res (list nat) :=
  let! group_arr := grouper_groups (w_grouper (ma_wrapper a)) g in
  Ok (map (fun c => Z.to_nat (nth c group_arr (-1)%Z)) (ma_cols a)).

(** records/col_mapper.py:89-96 get_col_map *)
Definition get_col_map {V} (mem : nat -> nat) (a : Mapped V) (g : GroupBy) : res (list nat * list nat) :=
  if is_grouped (w_grouper (ma_wrapper a)) g then
    let! col_arr := get_col_arr a g in
    let! w := resolve (ma_wrapper a) g in
    Ok (col_map_nb mem col_arr (List.length (w_columns w)))
  else Ok (col_map_nb mem (ma_cols a) (List.length (w_columns (ma_wrapper a)))).

(** ** Selecting *)
(** Fancy indexing arr[indices] of every array: positions outside are refused. *)
Definition pick_all {V} (d : V) (a : Mapped V) (w : Wrapper) (cols indices : list nat) : res (Mapped V) :=
  raise_if (existsb (fun i => Nat.leb (List.length (ma_values a)) i) indices) (IndexError "index is out of bounds") (
  Ok (mkMapped w (take d (ma_values a) indices) cols (take 0 (ma_ids a) indices) (option_map (fun l => take 0 l indices) (ma_idx a)))).

(** records/mapped_array.py:503-517 indexing_func_meta, 519-531 indexing_func *)
Definition indexing {V} (d : V) (mem : nat -> nat) (a : Mapped V) (group_select : bool) (f : ColIndexingFunc) : res (Mapped V) :=
  let! r := indexing_func_meta (ma_wrapper a) group_select (OnColumns f) in
  let '(new_wrapper, _, _, col_idxs) := r in
  let! m := _col_idxs_meta mem (ma_cols a) (List.length (w_columns (ma_wrapper a))) (to_1d col_idxs) in
  pick_all d a new_wrapper (snd m) (fst m).

(** np.argsort(kind="stable") and np.lexsort: positions ordered by [before], equal
    ones in their order. *)
Fixpoint insert_pos (before : nat -> nat -> bool) (i : nat) (l : list nat) : list nat :=
  match l with [] => [i] | j :: l' => if before j i then j :: insert_pos before i l' else i :: l end.
Definition argsort (before : nat -> nat -> bool) (n : nat) : list nat := fold_right (insert_pos before) [] (seq 0 n).

(** records/mapped_array.py:574-579 is_sorted *)
Definition is_sorted {V} (a : Mapped V) (incl_id : bool) : bool :=
  if incl_id then is_col_idx_sorted_nb (combine (ma_cols a) (ma_ids a)) else is_col_sorted_nb (ma_cols a).

(** records/mapped_array.py:581-607 sort *)
Definition sort {V} (d : V) (a : Mapped V) (incl_id : bool) (g : GroupBy) : res (Mapped V) :=
  let! w := regroup (ma_wrapper a) g in
  if is_sorted a incl_id then Ok (mkMapped w (ma_values a) (ma_cols a) (ma_ids a) (ma_idx a))
  else
    let col i := nth i (ma_cols a) 0 in
    let id i := nth i (ma_ids a) 0 in
    let ind := if incl_id then argsort (fun j i => Nat.ltb (col j) (col i) || (Nat.eqb (col j) (col i) && Nat.ltb (id j) (id i))) (List.length (ma_values a))
               else argsort (fun j i => Nat.ltb (col j) (col i)) (List.length (ma_values a)) in
    pick_all d a w (take 0 (ma_cols a) ind) ind.

(** np.flatnonzero *)
Definition flatnonzero (mask : list bool) : list nat := filter (fun i => nth i mask false) (seq 0 (List.length mask)).

(** records/mapped_array.py:609-628 apply_mask *)
Definition apply_mask {V} (d : V) (a : Mapped V) (mask : list bool) (g : GroupBy) : res (Mapped V) :=
  let! w := regroup (ma_wrapper a) g in
  let indices := flatnonzero mask in
  pick_all d a w (take 0 (ma_cols a) indices) indices.

Section TopN.
  Context {T : Type} {N : Num T}.
  (** records/mapped_array.py:638-644 top_n_mask, 647-653 bottom_n_mask *)
  Definition ma_top_n_mask (mem : nat -> nat) (a : Mapped T) (n : nat) (g : GroupBy) : res (list bool) :=
    let! m := get_col_map mem a g in Ok (top_n_mask (ma_values a) m n).
  Definition ma_bottom_n_mask (mem : nat -> nat) (a : Mapped T) (n : nat) (g : GroupBy) : res (list bool) :=
    let! m := get_col_map mem a g in Ok (bottom_n_mask (ma_values a) m n).
  (** records/mapped_array.py:656-658 top_n, 661-663 bottom_n: the grouping passed goes to apply_mask only *)
  Definition top_n (mem : nat -> nat) (a : Mapped T) (n : nat) (g : GroupBy) : res (Mapped T) :=
    let! m := ma_top_n_mask mem a n GNone in apply_mask nan a m g.
  Definition bottom_n (mem : nat -> nat) (a : Mapped T) (n : nat) (g : GroupBy) : res (Mapped T) :=
    let! m := ma_bottom_n_mask mem a n GNone in apply_mask nan a m g.
End TopN.

(** ** Results in pandas *)
(** A matrix of the kernels as an array with [n] columns *)
Definition as_mat {V} (n : nat) (l : list (list V)) : mat V := Mat n l.

(** records/mapped_array.py:666-677 is_expandable, 679-726 to_pd with the own rows *)
Definition to_pd {V} (fill_value : V) (a : Mapped V) (g : GroupBy) : res (Pd V) :=
  match ma_idx a with
  | None => Err (ValueError "Must pass idx_arr")
  | Some idx =>
      let! col_arr := get_col_arr a g in
      let! w := resolve (ma_wrapper a) g in
      let n_cols := if Nat.eqb (w_ndim w) 1 then 1 else List.length (w_columns w) in
      let cells := combine idx col_arr in
      raise_if (negb (is_mapped_expandable_nb cells (List.length (w_index w)) n_cols))
        (ValueError "Multiple values are pointing to the same position. Use ignore_index.") (
      wrap w (as_mat n_cols (expand_mapped_nb (ma_values a) cells (List.length (w_index w)) n_cols fill_value)))
  end.

(** records/mapped_array.py:753-806 reduce to one value, 808-1015 and the methods named after reducers *)
Definition reduce {V C} (d : V) (mem : nat -> nat) (a : Mapped V) (fill_value : C) (f : nat -> list V -> C) (g : GroupBy) : res (Pd C) :=
  let! m := get_col_map mem a g in
  let! w := resolve (ma_wrapper a) g in
  Ok (wrap_reduced w (reduce_mapped_nb d (ma_values a) m fill_value f)).

(** records/mapped_array.py:753-806 reduce with [returns_idx] and [to_index]: row
    [no_row] (-1) stands for nothing and becomes NaN, here None *)
Definition reduce_to_index {V} (d : V) (mem : nat -> nat) (a : Mapped V) (no_row : nat) (f : nat -> list V -> nat) (g : GroupBy) : res (Pd (option Label)) :=
  match ma_idx a with
  | None => Err (ValueError "Must pass idx_arr")
  | Some idx =>
      let! m := get_col_map mem a g in
      let! w := resolve (ma_wrapper a) g in
      let out := reduce_mapped_to_idx_nb d (ma_values a) m idx no_row f in
      Ok (wrap_reduced w (map (fun i => if Nat.eqb i no_row then None else Some (label_at (w_index (ma_wrapper a)) i)) out))
  end.

(** records/mapped_array.py:1012-1019 count *)
Definition count {V} (mem : nat -> nat) (a : Mapped V) (g : GroupBy) : res (Pd nat) :=
  let! m := get_col_map mem a g in
  let! w := resolve (ma_wrapper a) g in
  Ok (wrap_reduced w (snd m)).

(** generic/accessors.py:1476-1499 to_mapped of an object with
    wrapper [w] and values [a] *)
Definition to_mapped {T} {N : Num T} (w : Wrapper) (a : mat T) (dropna : bool) (g : GroupBy) : res (Mapped T) :=
  let values := List.concat (map (fun c => map (fun r => nth c r nan) (rows a)) (seq 0 (ncols a))) in
  let col_arr := List.concat (map (fun c => repeat c (nrows a)) (seq 0 (ncols a))) in
  let idx_arr := List.concat (repeat (seq 0 (nrows a)) (ncols a)) in
  let! w := regroup w g in
  if dropna && existsb isnan values then
    let keep := filter (fun i => negb (isnan (nth i values nan))) (seq 0 (List.length values)) in
    make_mapped w (take nan values keep) (take 0 col_arr keep) None (Some (take 0 idx_arr keep))
  else make_mapped w values col_arr None (Some idx_arr).
