(** * Model of indexing wrapped arrays (base/array_wrapper.py)

    Labels are integers or strings. Not modelled: frequencies, names of index
    levels, dtypes, warnings, arguments [index], [columns] and [group_by] of
    indexing, and the settings [column_only_select] and [group_select], which
    are arguments here. *)
From Coq Require Import String ZArith Bool List Arith.
From Verif Require Import Base Grouper Reduce.
Import ListNotations.
Local Open Scope string_scope.
Local Open Scope list_scope.
Local Open Scope nat_scope.

(** ** Ranges *)
(** np.cumsum over integers *)
Fixpoint zcumsum (acc : Z) (l : list Z) : list Z := match l with [] => [] | x :: l' => (acc + x)%Z :: zcumsum (acc + x) l' end.

(** utils/array_.py:43-59 get_ranges_arr. Writing beyond the end and taking the
    last of nothing raise. [id_arr[counts_csum[:-1]] = ...] is a loop of writes. *)
Definition get_ranges_arr (starts ends : list nat) : res (list nat) :=
  let counts := minus_each ends starts in
  let counts_csum := cumsum 0 counts in
  raise_if (Nat.eqb (List.length counts_csum) 0) (IndexError "counts_csum[-1]") (
  let n := last counts_csum 0 in
  raise_if (Nat.eqb n 0) (IndexError "id_arr[0]") (
  raise_if (existsb (fun k => Nat.leb n k) (removelast counts_csum)) (IndexError "id_arr[counts_csum[:-1]]") (
  let id_arr := upd (repeat 1%Z n) 0 (Z.of_nat (hd 0 starts)) in
  let steps := map (fun p => (Z.of_nat (fst p) - Z.of_nat (snd p) + 1)%Z) (combine (tl starts) (removelast ends)) in
  let id_arr := fold_left (fun a p => upd a (fst p) (snd p)) (combine (removelast counts_csum) steps) id_arr in
  Ok (map Z.to_nat (zcumsum 0 id_arr))))).

(** ** Objects of pandas *)
Inductive Pd (V : Type) :=
| DataFrame (m : mat V) (index columns : list Label)
| Series (xs : list V) (index : list Label)
| Scalar (x : V).
Arguments DataFrame {V}. Arguments Series {V}. Arguments Scalar {V}.

(** What an indexing operation of the user (obj[...], obj.loc[...], obj.iloc[...])
    takes out of an object: rows and columns by position, any number of times in
    any order, and the labels the result gets; or single cells. *)
Inductive Pick :=
| PFrame (rs cs : list nat) (index columns : list Label)
| PSeries (cells : list (nat * nat)) (index : list Label)
| PScalar (r c : nat).

(** The cells of [a] taken by the operation *)
Definition taken {V} (a : nat -> nat -> V) (p : Pick) : Pd V :=
  match p with
  | PFrame rs cs index columns => DataFrame (Mat (List.length cs) (map (fun r => map (fun c => a r c) cs) rs)) index columns
  | PSeries cells index => Series (map (fun q => a (fst q) (snd q)) cells) index
  | PScalar r c => Scalar (a r c)
  end.

(** What the operation takes out of a Series of columns *)
Inductive ColPick := CSeries (cs : list nat) (columns : list Label) | CScalar (c : nat).

(** An operation depends on the labels and the number of dimensions only. *)
Definition IndexingFunc := list Label -> list Label -> nat -> res Pick.
Definition ColIndexingFunc := list Label -> res ColPick.
Inductive Indexing := OnBoth (f : IndexingFunc) | OnColumns (f : ColIndexingFunc).

(** ** The wrapper *)
(** base/array_wrapper.py:122-161 ArrayWrapper.__init__; [w_grouped_ndim] as passed *)
Record Wrapper := mkWrapper { w_index : list Label; w_columns : list Label; w_ndim : nat; w_grouped_ndim : option nat; w_grouper : Grouper }.

(** base/array_wrapper.py:122-161 __init__ with a grouping and the restrictions of grouper [s] *)
Definition replace_wrapper (s : Grouper) (index columns : list Label) (ndim : nat) (grouped_ndim : option nat) (g : GroupBy) : res Wrapper :=
  let! g' := make_grouper (List.length columns) g (g_allow_enable s) (g_allow_disable s) (g_allow_modify s) in
  Ok (mkWrapper index columns ndim grouped_ndim g').

(** base/array_wrapper.py:499-505 grouped_ndim *)
Definition grouped_ndim (w : Wrapper) : res nat :=
  match w_grouped_ndim w with
  | Some d => Ok d
  | None =>
      if self_grouped (w_grouper w) then
        let! lens := get_group_lens (w_grouper w) GNone in
        Ok (if Nat.ltb 1 (List.length lens) then 2 else 1)
      else Ok (w_ndim w)
  end.

(** base/column_grouper.py:210-217 is_grouping_changed *)
Definition is_grouping_changed (s : Grouper) (g : GroupBy) : bool :=
  match g, g_group_by s with
  | GNone, _ => false
  | GFalse, None => false
  | GIndex l, Some own => negb (labels_eqb l own)
  | _, _ => true
  end.

(** base/array_wrapper.py:507-518 regroup *)
Definition regroup (w : Wrapper) (g : GroupBy) : res Wrapper :=
  if is_grouping_changed (w_grouper w) g then
    let! _ := check_group_by (w_grouper w) g in
    let! gn := (if is_grouped (w_grouper w) g && negb (is_group_count_changed (w_grouper w) g) then
                  let! d := grouped_ndim w in Ok (Some d)
                else Ok None) in
    replace_wrapper (w_grouper w) (w_index w) (w_columns w) (w_ndim w) gn g
  else Ok w.

(** base/column_grouper.py:54-69 get_groups_and_index, 271-273 get_columns: the labels of the groups *)
Definition group_columns (w : Wrapper) : list Label :=
  match g_group_by (w_grouper w) with None => w_columns w | Some l => snd (factorize l) end.

(** base/array_wrapper.py:521-533 resolve *)
Definition resolve (w : Wrapper) (g : GroupBy) : res Wrapper :=
  let! w := regroup w g in
  if self_grouped (w_grouper w) then
    let! d := grouped_ndim w in
    replace_wrapper (w_grouper w) (w_index w) (group_columns w) d None GNone
  else Ok w.

(** base/array_wrapper.py:535-609 wrap of a two-dimensional array in an
    ungrouped wrapper: a Series if the wrapper has one dimension *)
Definition wrap {V} (w : Wrapper) (a : mat V) : res (Pd V) :=
  raise_if (negb (Nat.eqb (nrows a) (List.length (w_index w)))) (AssertionError "Length of axis 0 and axis 0 do not match") (
  raise_if (negb (Nat.eqb (ncols a) (List.length (w_columns w)))) (AssertionError "Length of axis 1 and axis 0 do not match") (
  if Nat.eqb (ncols a) 1 && Nat.eqb (w_ndim w) 1 then Ok (Series (List.concat (rows a)) (w_index w))
  else Ok (DataFrame a (w_index w) (w_columns w)))).

(** base/array_wrapper.py:611-704 wrap_reduced, of one value per column, in an ungrouped wrapper *)
Definition wrap_reduced {V} (w : Wrapper) (xs : list V) : Pd V :=
  if Nat.eqb (w_ndim w) 1 then
    match xs with [x] => Scalar x | _ => Series xs (map (fun k => LInt (Z.of_nat k)) (seq 0 (List.length xs))) end
  else Series xs (w_columns w).

(** ** Indexing *)
(** One position or an array of positions *)
Inductive Sel := One (i : nat) | Many (l : list nat).
(** base/reshape_fns.py to_1d_array *)
Definition to_1d (s : Sel) : list nat := match s with One i => [i] | Many l => l end.
Definition is_array (s : Sel) : bool := match s with One _ => false | Many _ => true end.

Record Meta := mkMeta { m_index : list Label; m_columns : list Label; m_ndim : nat; m_rows : Sel; m_cols : Sel }.

Definition all_same (l : list nat) : bool := forallb (fun x => Nat.eqb x (hd 0 l)) l.
Definition label_at (l : list Label) (i : nat) : Label := nth i l (LInt 0).

(** base/array_wrapper.py:220-240, columns only *)
Definition select_columns (index columns : list Label) (ndim : nat) (f : ColIndexingFunc) : res Meta :=
  raise_if (Nat.eqb ndim 1) (IndexError "Columns only: This object already contains one column of data") (
  let! p := f columns in
  let idx_idxs := Many (seq 0 (List.length index)) in
  match p with
  | CSeries cs new_columns => Ok (mkMeta index new_columns 2 idx_idxs (Many cs))
  | CScalar c => Ok (mkMeta index [label_at columns c] 1 idx_idxs (One c))
  end).

(** base/array_wrapper.py:242-288, both axes; the mappers are what the operation
    takes out of the row and column numbers *)
Definition select_both (index columns : list Label) (ndim : nat) (f : IndexingFunc) : res Meta :=
  let! p := f index columns ndim in
  let idx_mapper := taken (fun r c => r) p in
  let col_mapper := taken (fun r c => c) p in
  if Nat.eqb ndim 1 then
    match idx_mapper with
    | Series idx_idxs new_index => Ok (mkMeta new_index [label_at columns 0] 1 (Many idx_idxs) (One 0))
    | _ => Err (IndexError "Selection of a scalar is not allowed")
    end
  else
    match idx_mapper, col_mapper with
    | DataFrame im new_index new_columns, DataFrame cm _ _ =>
        raise_if (Nat.eqb (ncols im) 0) (IndexError "idx_mapper.values[:, 0]") (
        raise_if (Nat.eqb (nrows cm) 0) (IndexError "col_mapper.values[0]") (
        Ok (mkMeta new_index new_columns 2 (Many (map (fun r => nth 0 r 0) (rows im))) (Many (nth 0 (rows cm) [])))))
    | Series ivals new_index, Series cvals _ =>
        raise_if (Nat.eqb (List.length ivals) 0) (IndexError "index 0 is out of bounds for size 0") (
        let one_col := all_same cvals in
        let one_idx := all_same ivals in
        if one_col && one_idx then Err (IndexError "Must select at least two unique indices in one of both axes")
        else if one_col then Ok (mkMeta new_index [label_at columns (hd 0 cvals)] 1 (Many ivals) (One (hd 0 cvals)))
        else if one_idx then Ok (mkMeta new_index [label_at index (hd 0 ivals)] 1 (One (hd 0 ivals)) (Many cvals))
        else Err (IndexError ""))
    | _, _ => Err (IndexError "Selection of a scalar is not allowed")
    end.

(** base/array_wrapper.py:312-315: the place of the group of every column among the selected groups *)
Definition ungrouped_group_idxs (lens : list nat) (n : nat) : list nat :=
  cumsum 0 (fold_left (fun a k => upd a k 1) (removelast lens) (repeat 0 n)).

(** base/array_wrapper.py:164-351 indexing_func_meta with [column_only_select],
    [group_select] settled: the new wrapper, the rows, the groups or columns, and
    the columns selected *)
Definition indexing_func_meta (w : Wrapper) (group_select : bool) (i : Indexing) : res (Wrapper * Sel * Sel * Sel) :=
  let s := w_grouper w in
  let group_select := group_select && self_grouped s in
  let columns := if group_select then group_columns w else w_columns w in
  let! ndim := (if group_select then grouped_ndim w else Ok (w_ndim w)) in
  let! m := match i with
            | OnColumns f => select_columns (w_index w) columns ndim f
            | OnBoth f => select_both (w_index w) columns ndim f
            end in
  if self_grouped s then
    raise_if (negb (is_array (m_rows m))) (IndexError "Flipping index and columns is not allowed") (
    if group_select then
      let group_idxs := to_1d (m_cols m) in
      let! lens := get_group_lens s GNone in
      let pick l := map (fun k => nth k l 0) group_idxs in
      let! cols := get_ranges_arr (pick (get_group_start_idxs lens)) (pick (get_group_end_idxs lens)) in
      let ungrouped_columns := map (label_at (w_columns w)) cols in
      let one := Nat.eqb (m_ndim m) 1 && Nat.eqb (List.length ungrouped_columns) 1 in
      let places := ungrouped_group_idxs (pick lens) (List.length ungrouped_columns) in
      let! w' := replace_wrapper s (m_index m) ungrouped_columns (if one then 1 else 2) (Some (m_ndim m))
                   (GIndex (map (fun k => Some (label_at (m_columns m) k)) places)) in
      Ok (w', m_rows m, m_cols m, if one then One (hd 0 cols) else Many cols)
    else
      let own := match g_group_by s with Some l => l | None => [] end in
      let! w' := replace_wrapper s (m_index m) (m_columns m) (m_ndim m) None
                   (GIndex (map (fun c => nth c own None) (to_1d (m_cols m)))) in
      Ok (w', m_rows m, m_cols m, m_cols m))
  else
    let! w' := replace_wrapper s (m_index m) (m_columns m) (m_ndim m) None GNone in
    Ok (w', m_rows m, m_cols m, m_cols m).
