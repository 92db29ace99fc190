(** * Model of the functions of vectorbt/generic/nb.py that take a function of the
    user, and of the methods of vectorbt/generic/accessors.py that call them

    A two-dimensional array is the list of its rows and the number of its columns.
    A function passed by the user gets the arguments the code passes and gives a
    value or raises; it has no memory of its own and cannot change the array.
    Sizes and positions are natural numbers. Out of the model: dtypes (the dtype of
    the first result is that of the output; Numba gives every result the same type),
    the wrapping of results into pandas objects apart from the labels shown below,
    and arrays without columns, groups or rows where the code leaves the variable it
    returns unset. *)
From Coq Require Import String ZArith Bool List Arith.
From Verif Require Import Base Num GenericNb.
Import ListNotations.
Open Scope string_scope.
Open Scope list_scope.

Record mat (T : Type) := Mat { ncols : nat; rows : list (list T) }.
Arguments Mat {T}. Arguments ncols {T}. Arguments rows {T}.

(** [a.shape[0]] *)
Definition nrows {T} (a : mat T) : nat := List.length (rows a).

(** A loop [for x in l] that stores one result per turn and stops at the first
    exception. *)
Fixpoint collect {A B} (f : A -> res B) (l : list A) : res (list B) :=
  match l with
  | [] => Ok []
  | x :: l' => let! y := f x in let! r := collect f l' in Ok (y :: r)
  end.

Section Reduce.
  Context {T : Type} {N : Num T}.

  (** [a[:, col]] *)
  Definition col_of {A} (d : A) (a : mat A) (col : nat) : list A := map (fun r => nth col r d) (rows a).
  (** [a[:, from_col:to_col]] *)
  Definition cols_of {A} (a : mat A) (from_col to_col : nat) : mat A :=
    Mat (to_col - from_col) (map (slice from_col to_col) (rows a)).
  (** An array filled column by column, [out[:, col] = columns[col]] *)
  Definition from_columns {A} (d : A) (n : nat) (columns : list (list A)) : mat A :=
    Mat (List.length columns) (map (fun i => map (fun c => nth i c d) columns) (seq 0 n)).

  (** What a function of the user may return for a column or row: one value for
      all cells, or an array. *)
  Inductive out_of (U : Type) := Single (x : U) | Several (xs : list U).
  Arguments Single {U}. Arguments Several {U}.
  (** [out[:, col] = _out]: NumPy repeats a single value and refuses other lengths,
      apart from arrays of one element, which it also repeats. *)
  Definition spread {U} (n : nat) (o : out_of U) : res (list U) :=
    match o with
    | Single x | Several [x] => Ok (repeat x n)
    | Several xs => raise_if (negb (Nat.eqb (List.length xs) n)) (ValueError "cannot assign slice from input of different size") (Ok xs)
    end.

  (** ** Columns and rows *)

  (** generic/nb.py:1107-1117 apply_nb *)
  Definition apply_nb {U} (d : U) (a : mat T) (f : nat -> list T -> res (out_of U)) : res (mat U) :=
    let! columns := collect (fun col => let! o := f col (col_of nan a col) in spread (nrows a) o) (seq 0 (ncols a)) in
    Ok (from_columns d (nrows a) columns).

  (** generic/nb.py:1121-1131 row_apply_nb *)
  Definition row_apply_nb {U} (a : mat T) (f : nat -> list T -> res (out_of U)) : res (mat U) :=
    let! rs := collect (fun i => let! o := f i (nth i (rows a) []) in spread (ncols a) o) (seq 0 (nrows a)) in
    Ok (Mat (ncols a) rs).

  (** ** Windows *)

  (** generic/nb.py:1153-1165 one turn of the inner loop of rolling_apply_nb; the
      state is [nancnt] and the filled part of [nancnt_arr]. *)
  Definition rolling_apply_step (f : nat -> nat -> list T -> res T) (c : list T) (window minp col : nat)
      (i : nat) (s : nat * list nat) (x : T) : res (nat * list nat * T) :=
    let '(nancnt, nancnt_arr) := s in
    let nancnt := if isnan x then nancnt + 1 else nancnt in
    let nancnt_arr := nancnt_arr ++ [nancnt] in
    let valid_cnt :=
      if Nat.ltb i window then (Z.of_nat (i + 1)%nat - Z.of_nat nancnt)%Z
      else (Z.of_nat window - (Z.of_nat nancnt - Z.of_nat (nth (i - window)%nat nancnt_arr 0%nat)))%Z in
    if (valid_cnt <? Z.of_nat minp)%Z then Ok (nancnt, nancnt_arr, nan)
    else let! y := f i col (slice (i + 1 - window) (i + 1) c) in Ok (nancnt, nancnt_arr, y).

  (** generic/nb.py:1135-1165 rolling_apply_nb *)
  Definition rolling_apply_nb (a : mat T) (window : nat) (minp : option nat) (f : nat -> nat -> list T -> res T) : res (mat T) :=
    let minp := match minp with Some m => m | None => window end in
    let! columns := collect (fun col =>
      let c := col_of nan a col in scanM (rolling_apply_step f c window minp col) 0 (0, []) c) (seq 0 (ncols a)) in
    Ok (from_columns nan (nrows a) columns).

  (** generic/nb.py:1185-1199 one turn of the loop of rolling_matrix_apply_nb; the
      state is the filled part of [nancnt_arr]. *)
  Definition rolling_matrix_step (f : nat -> mat T -> res (out_of T)) (a : mat T) (window minp : nat)
      (i : nat) (nancnt_arr : list nat) (x : list T) : res (list nat * list T) :=
    let nancnt := List.length (filter isnan x) in
    let nancnt_arr := nancnt_arr ++ [nancnt] in
    let valid_cnt :=
      if Nat.ltb i window then (Z.of_nat (i + 1)%nat - Z.of_nat nancnt)%Z
      else (Z.of_nat window - (Z.of_nat nancnt - Z.of_nat (nth (i - window)%nat nancnt_arr 0%nat)))%Z in
    if (valid_cnt <? Z.of_nat minp)%Z then Ok (nancnt_arr, repeat nan (ncols a))
    else
      let! o := f i (Mat (ncols a) (slice (i + 1 - window) (i + 1) (rows a))) in
      let! y := spread (ncols a) o in Ok (nancnt_arr, y).

  (** generic/nb.py:1169-1199 rolling_matrix_apply_nb *)
  Definition rolling_matrix_apply_nb (a : mat T) (window : nat) (minp : option nat) (f : nat -> mat T -> res (out_of T)) : res (mat T) :=
    let minp := match minp with Some m => m | None => window end in
    let! rs := scanM (rolling_matrix_step f a window minp) 0 [] (rows a) in
    Ok (Mat (ncols a) rs).

  (** generic/nb.py:1203-1205 expanding_apply_nb *)
  Definition expanding_apply_nb (a : mat T) (minp : option nat) (f : nat -> nat -> list T -> res T) : res (mat T) :=
    rolling_apply_nb a (nrows a) minp f.
  (** generic/nb.py:1209-1216 expanding_matrix_apply_nb *)
  Definition expanding_matrix_apply_nb (a : mat T) (minp : option nat) (f : nat -> mat T -> res (out_of T)) : res (mat T) :=
    rolling_matrix_apply_nb a (nrows a) minp f.

  (** ** Groups of rows *)

  (** generic/nb.py:1220-1235 groupby_apply_nb; the keys of [groups], built by the
      accessor (accessors.py:623-627), are 0, 1, ... in their order, so the list of
      the values stands for the dictionary. *)
  Definition groupby_apply_nb {U} (d : U) (a : mat T) (groups : list (list nat)) (f : list nat -> nat -> list T -> res U) : res (mat U) :=
    let! columns := collect (fun col =>
      collect (fun idxs => f idxs col (map (fun i => nth i (col_of nan a col) nan) idxs)) groups) (seq 0 (ncols a)) in
    Ok (from_columns d (List.length groups) columns).

  (** generic/nb.py:1239-1249 groupby_matrix_apply_nb *)
  Definition groupby_matrix_apply_nb {U} (a : mat T) (groups : list (list nat)) (f : list nat -> mat T -> res (out_of U)) : res (mat U) :=
    let! rs := collect (fun idxs =>
      let! o := f idxs (Mat (ncols a) (map (fun i => nth i (rows a) []) idxs)) in spread (ncols a) o) groups in
    Ok (Mat (ncols a) rs).

  (** ** Cells *)

  (** generic/nb.py:1256-1267 applymap_nb *)
  Definition applymap_nb (a : mat T) (f : nat -> nat -> T -> res T) : res (mat T) :=
    let! columns := collect (fun col =>
      collect (fun ix => if isnan (snd ix) then Ok nan else f (fst ix) col (snd ix)) (enumerate (col_of nan a col))) (seq 0 (ncols a)) in
    Ok (from_columns nan (nrows a) columns).

  (** generic/nb.py:1271-1284 filter_nb *)
  Definition filter_nb (a : mat T) (f : nat -> nat -> T -> res bool) : res (mat T) :=
    let! columns := collect (fun col =>
      collect (fun ix => if isnan (snd ix) then Ok (snd ix)
                         else let! keep := f (fst ix) col (snd ix) in Ok (if keep : bool then snd ix else nan))
        (enumerate (col_of nan a col))) (seq 0 (ncols a)) in
    Ok (from_columns nan (nrows a) columns).

  (** ** Reducing columns and groups of columns *)

  (** generic/nb.py:1288-1308 apply_and_reduce_nb *)
  Definition apply_and_reduce_nb {V U} (a : mat T) (f : nat -> list T -> res V) (g : nat -> V -> res U) : res (list U) :=
    collect (fun col => let! mapped := f col (col_of nan a col) in g col mapped) (seq 0 (ncols a)).

  (** generic/nb.py:1312-1322 reduce_nb *)
  Definition reduce_nb {U} (a : mat T) (f : nat -> list T -> res U) : res (list U) :=
    collect (fun col => f col (col_of nan a col)) (seq 0 (ncols a)).

  (** A row of [reduce_*_to_array_nb] holds what the function gave for one column:
      generic/nb.py:1334-1338, 1403-1411, 1423-1434; the first result sets the
      length, others must have it. *)
  Definition stack_arrays {U} (d : U) (outs : list (list U)) : res (mat U) :=
    let k := List.length (hd [] outs) in
    raise_if (existsb (fun o => negb (Nat.eqb (List.length o) k)) outs) (ValueError "cannot assign slice from input of different size")
      (Ok (from_columns d k outs)).

  (** generic/nb.py:1326-1338 reduce_to_array_nb *)
  Definition reduce_to_array_nb {U} (d : U) (a : mat T) (f : nat -> list T -> res (list U)) : res (mat U) :=
    let! outs := reduce_nb a f in stack_arrays d outs.

  (** The loop over groups of columns that reduce_grouped_nb and the functions after
      it share, generic/nb.py:1347-1354: [from_col] starts at 0 and is moved behind
      each group. *)
  Definition group_step {A U} (a : mat A) (f : nat -> mat A -> res U) (s : nat * list U) (gl : nat * nat) : res (nat * list U) :=
    let '(from_col, out) := s in
    let to_col := from_col + snd gl in
    let! o := f (fst gl) (cols_of a from_col to_col) in
    Ok (to_col, out ++ [o]).
  (** generic/nb.py:1342-1355 reduce_grouped_nb *)
  Definition reduce_grouped_nb {A U} (a : mat A) (group_lens : list nat) (f : nat -> mat A -> res U) : res (list U) :=
    let! s := foldM (group_step a f) (0, []) (enumerate group_lens) in Ok (snd s).

  (** generic/nb.py:1359-1364 flatten_forder_nb *)
  Definition flatten_forder_nb {A} (d : A) (a : mat A) : list A := List.concat (map (col_of d a) (seq 0 (ncols a))).
  (** [a.flatten()] *)
  Definition flatten_c {A} (a : mat A) : list A := List.concat (rows a).
  Definition flatten_in {A} (d : A) (in_c_order : bool) (a : mat A) : list A :=
    if in_c_order then flatten_c a else flatten_forder_nb d a.

  (** generic/nb.py:1368-1387 flat_reduce_grouped_nb *)
  Definition flat_reduce_grouped_nb {U} (a : mat T) (group_lens : list nat) (in_c_order : bool) (f : nat -> list T -> res U) : res (list U) :=
    reduce_grouped_nb a group_lens (fun g m => f g (flatten_in nan in_c_order m)).

  (** generic/nb.py:1391-1411 reduce_grouped_to_array_nb *)
  Definition reduce_grouped_to_array_nb {U} (d : U) (a : mat T) (group_lens : list nat) (f : nat -> mat T -> res (list U)) : res (mat U) :=
    let! outs := reduce_grouped_nb a group_lens f in stack_arrays d outs.
  (** generic/nb.py:1415-1434 flat_reduce_grouped_to_array_nb *)
  Definition flat_reduce_grouped_to_array_nb {U} (d : U) (a : mat T) (group_lens : list nat) (in_c_order : bool) (f : nat -> list T -> res (list U)) : res (mat U) :=
    let! outs := flat_reduce_grouped_nb a group_lens in_c_order f in stack_arrays d outs.

  (** generic/nb.py:1438-1457 squeeze_grouped_nb *)
  Definition squeeze_grouped_nb {U} (d : U) (a : mat T) (group_lens : list nat) (f : nat -> nat -> list T -> res U) : res (mat U) :=
    let! columns := reduce_grouped_nb a group_lens (fun g m => collect (fun ir => f (fst ir) g (snd ir)) (enumerate (rows m))) in
    Ok (from_columns d (nrows a) columns).

  (** np.max(group_lens) *)
  Definition longest (group_lens : list nat) : nat := fold_left Nat.max group_lens 0.

  (** [out[k :: step, group] = xs], the cells k, k + step, ... of a column *)
  Definition put_every {A} (out : list A) (k step : nat) (xs : list A) : list A :=
    fold_left (fun o ix => upd o (k + step * fst ix) (snd ix)) (enumerate xs) out.
  (** [out[start : start + len(xs), group] = xs] *)
  Definition put_block {A} (out : list A) (start : nat) (xs : list A) : list A :=
    fold_left (fun o ix => upd o (start + fst ix) (snd ix)) (enumerate xs) out.

  (** generic/nb.py:1468-1475 and 1485-1492, the columns of one group, written into a
      column of the output *)
  Definition flatten_group {A} (d : A) (in_c_order : bool) (step : nat) (blank : list A) (m : mat A) : list A :=
    fold_left (fun out k =>
      if in_c_order then put_every out k step (col_of d m k) else put_block out (k * nrows m) (col_of d m k))
      (seq 0 (ncols m)) blank.
  (** generic/nb.py:1464-1477 flatten_grouped_nb and generic/nb.py:1481-1494
      flatten_uniform_grouped_nb: the first starts from NaN, the second from
      uninitialised memory, [blank]. *)
  Definition flatten_grouped_nb {A} (d blank : A) (a : mat A) (group_lens : list nat) (in_c_order : bool) : res (mat A) :=
    let len := nrows a * longest group_lens in
    let! columns := reduce_grouped_nb a group_lens (fun _ m => Ok (flatten_group d in_c_order (longest group_lens) (repeat blank len) m)) in
    Ok (from_columns d len columns).

  (** generic/accessors.py:2801-2812 DataFrame.vbt.flatten_grouped, the values and the
      row of the frame whose label each row of the result carries (base/index_fns.py
      repeat_index and tile_index) *)
  Definition flatten_grouped {A} (nan_ blank : A) (a : mat A) (group_lens : list nat) (in_c_order : bool) : res (mat A * list nat) :=
    let uniform := forallb (Nat.eqb (hd 0 group_lens)) group_lens in
    let! out := flatten_grouped_nb nan_ (if uniform then blank else nan_) a group_lens in_c_order in
    let k := longest group_lens in
    Ok (out, if in_c_order then flat_map (fun i => repeat i k) (seq 0 (nrows a))
             else List.concat (repeat (seq 0 (nrows a)) k)).

  (** ** Reducers *)

  (** generic/nb.py:1501-1505 nth_reduce_nb *)
  Definition nth_reduce_nb (n : Z) (_ : nat) (a : list T) : res T :=
    let len := Z.of_nat (List.length a) in
    raise_if ((n <? 0)%Z && (len <? Z.abs n)%Z || (len <=? n)%Z) (ValueError "index is out of bounds")
      (Ok (nth (Z.to_nat (if (n <? 0)%Z then len + n else n)) a nan)).
  (** generic/nb.py:1509-1515 nth_index_reduce_nb *)
  Definition nth_index_reduce_nb (n : Z) (_ : nat) (a : list T) : res nat :=
    let len := Z.of_nat (List.length a) in
    raise_if ((n <? 0)%Z && (len <? Z.abs n)%Z || (len <=? n)%Z) (ValueError "index is out of bounds")
      (Ok (Z.to_nat (if (0 <=? n)%Z then n else len + n)))%Z.

  (** generic/nb.py:1519-1527 min_reduce_nb and max_reduce_nb. Numba's np.nanmin and
      np.nanmax start with the first element and take over each number the value so
      far is not [before], so that a first NaN is replaced by any number. *)
  Definition nan_best (before : T -> T -> bool) (a : list T) : res T :=
    match a with
    | [] => Err (ValueError "zero-size array reduction not possible")
    | x :: l => Ok (fold_left (fun m v => if isnan v then m else if before m v then m else v) l x)
    end.
  Definition min_reduce_nb (_ : nat) (a : list T) : res T := nan_best ltb a.
  Definition max_reduce_nb (_ : nat) (a : list T) : res T := nan_best gtb a.
  (** generic/nb.py:1549-1551 sum_reduce_nb, np.nansum *)
  Definition sum_reduce_nb (_ : nat) (a : list T) : res T :=
    Ok (fold_left (fun s x => if isnan x then s else add s x) a zero).
  (** generic/nb.py:1555-1557 count_reduce_nb *)
  Definition count_reduce_nb (_ : nat) (a : list T) : res nat := Ok (List.length (filter (fun x => negb (isnan x)) a)).

  (** np.argmin and np.argmax of an array without NaN: the first position whose
      value no other is better than *)
  Definition arg_step (better : T -> T -> bool) (s : nat * T) (ix : nat * T) : nat * T :=
    if better (snd ix) (snd s) then ix else s.
  Definition arg_best (better : T -> T -> bool) (a : list T) : nat :=
    match a with [] => 0 | x :: l => fst (fold_left (arg_step better) (combine (seq 1 (List.length l)) l) (0, x)) end.
  (** generic/nb.py:1561-1568 argmin_reduce_nb *)
  Definition argmin_reduce_nb (_ : nat) (a : list T) : res nat :=
    raise_if (forallb isnan a) (ValueError "All-NaN slice encountered")
      (Ok (arg_best ltb (map (fun x => if isnan x then pinf else x) a))).
  (** generic/nb.py:1572-1579 argmax_reduce_nb *)
  Definition argmax_reduce_nb (_ : nat) (a : list T) : res nat :=
    raise_if (forallb isnan a) (ValueError "All-NaN slice encountered")
      (Ok (arg_best gtb (map (fun x => if isnan x then ninf else x) a))).

  (** ** Reducing through the accessor *)

  (** generic/accessors.py:854-893 the positions found by a reducer in the flattened
      groups, turned into rows *)
  Definition reduce_flat_to_rows (a : mat T) (group_lens : list nat) (in_c_order : bool) (f : nat -> list T -> res nat) : res (list nat) :=
    let! out := flat_reduce_grouped_nb a group_lens in_c_order f in
    Ok (map (fun og => if in_c_order then fst og / snd og else fst og mod nrows a) (combine out group_lens)).

  (** generic/accessors.py:1103-1155 idxmin and idxmax: the row whose label is given for
      each group, or for each column when there is no grouping; None is the NaN given
      for a column without numbers. nanargmin and nanargmax put infinity for NaN in the
      same way as the reducers. *)
  Definition idx_best (reducer : nat -> list T -> res nat) (a : mat T) (group_lens : option (list nat)) (in_c_order : bool) : res (list (option nat)) :=
    match group_lens with
    | Some lens => let! out := reduce_flat_to_rows a lens in_c_order reducer in Ok (map Some out)
    | None => collect (fun col => let c := col_of nan a col in
                         if forallb isnan c then Ok None else let! p := reducer col c in Ok (Some p)) (seq 0 (ncols a))
    end.
  Definition idxmin := idx_best argmin_reduce_nb.
  Definition idxmax := idx_best argmax_reduce_nb.

  (** generic/nb.py:1605-1616 value_counts_nb: codes of the values, counted per group *)
  Definition value_counts_nb (codes : mat nat) (n_uniques : nat) (group_lens : list nat) : res (mat nat) :=
    let! columns := reduce_grouped_nb codes group_lens (fun _ m =>
      Ok (fold_left (fun out code => upd out code (nth code out 0 + 1)) (flatten_forder_nb 0 m) (repeat 0 n_uniques))) in
    Ok (from_columns 0 n_uniques columns).
End Reduce.
Arguments Single {U}. Arguments Several {U}.
