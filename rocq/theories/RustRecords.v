(** * Model of rust/src/records.rs: the kernels for records and mapped arrays

    Vectors are lists. Numbers of rows, columns and records are natural numbers,
    stored positions that may be -1 are integers. An index out of range, at which
    the Rust code panics, reads a default and drops the store here; the theorems
    assume columns in range. Two-dimensional arrays are flat vectors in row-major
    order, as in the code. *)
From Coq Require Import ZArith Bool List Arith String.
From Verif Require Import Base Num GenericNb RecordsNb.
Import ListNotations.
Open Scope string_scope.
Open Scope list_scope.

(** Array2 over a flat vector: its rows *)
Definition rows_from {A} (nrows ncols : nat) (flat : list A) : list (list A) :=
  map (fun i => slice (i * ncols) (i * ncols + ncols) flat) (seq 0 nrows).

(** The flat vector behind an array of (start, end) pairs, records.rs:101-108 *)
Definition flat_pairs (rows : list (Z * Z)) : list Z := List.concat (map (fun p => [fst p; snd p]) rows).

(** records.rs:14-23 normalize_col *)
Definition normalize_col (col n_cols : nat) : nat :=
  if Nat.ltb col n_cols then col
  else if Nat.eqb n_cols 1 then 0
  else col.

(** records.rs:34-43, one record of col_range *)
Definition r_col_range_step (n_cols : nat) (s : nat * list Z) (rc : nat * nat) : res (nat * list Z) :=
  let '(last_col, out) := s in
  let '(r, col) := rc in
  raise_if (Nat.ltb col last_col) (ValueError "col_arr must be in ascending order") (
  if negb (Nat.eqb col last_col) then
    let out := upd out (normalize_col last_col n_cols * 2 + 1) (Z.of_nat r) in
    let out := upd out (normalize_col col n_cols * 2) (Z.of_nat r) in
    Ok (col, out)
  else Ok (last_col, out)).

(** records.rs:25-46 col_range *)
Definition r_col_range (col_arr : list nat) (n_cols : nat) : res (list Z) :=
  let out := repeat (-1)%Z (n_cols * 2) in
  match col_arr with
  | [] => Ok out
  | c0 :: rest =>
      let out := upd out (normalize_col c0 n_cols * 2) 0%Z in
      let! s := foldM (r_col_range_step n_cols) (c0, out) (combine (seq 1 (List.length rest)) rest) in
      Ok (upd (snd s) (normalize_col (fst s) n_cols * 2 + 1) (Z.of_nat (List.length col_arr)))
  end.

(** records.rs:66-73, 161-169: how many records the requested columns have *)
Definition r_range_count (col_range : list Z) (new_cols : list nat) : nat :=
  fold_left (fun new_n c =>
    let from_r := nth (c * 2) col_range (-1)%Z in
    let to_r := nth (c * 2 + 1) col_range (-1)%Z in
    if negb (from_r =? -1)%Z && negb (to_r =? -1)%Z then new_n + Z.to_nat (to_r - from_r) else new_n) new_cols 0.

(** records.rs:62-93 col_range_select *)
Definition r_col_range_select (col_range : list Z) (new_cols : list nat) : list nat * list nat :=
  let new_n := r_range_count col_range new_cols in
  let '(indices_out, col_arr_out, _) :=
    fold_left (fun s (ic : nat * nat) =>
      let '(io, co, j) := s in
      let '(c_idx, c) := ic in
      let from_r := nth (c * 2) col_range (-1)%Z in
      let to_r := nth (c * 2 + 1) col_range (-1)%Z in
      if (from_r =? -1)%Z || (to_r =? -1)%Z then s
      else
        let count := Z.to_nat (to_r - from_r) in
        let '(io, co) :=
          fold_left (fun s k => (upd (fst s) (j + k) (Z.to_nat from_r + k), upd (snd s) (j + k) c_idx))
            (seq 0 count) (io, co) in
        (io, co, j + count))
      (combine (seq 0 (List.length new_cols)) new_cols) (repeat 0 new_n, repeat 0 new_n, 0) in
  (indices_out, col_arr_out).

(** records.rs:121-124, 209-212, 333-337, 584-587, 634-637, 754-757: where the
    records of each column start *)
Definition r_start_idxs (col_lens : list nat) : list nat :=
  fold_left (fun s i => upd s i (nth (i - 1) s 0 + nth (i - 1) col_lens 0))
    (seq 1 (List.length col_lens - 1)) (repeat 0 (List.length col_lens)).

(** records.rs:115-135 col_map *)
Definition r_col_map (col_arr : list nat) (n_cols : nat) : list nat * list nat :=
  let col_lens :=
    fold_left (fun lens col => upd lens (normalize_col col n_cols) (nth (normalize_col col n_cols) lens 0 + 1))
      col_arr (repeat 0 n_cols) in
  let col_start_idxs := r_start_idxs col_lens in
  let '(col_idxs_out, _) :=
    fold_left (fun s r =>
      let '(out, col_i) := s in
      let col := normalize_col (nth r col_arr 0) n_cols in
      (upd out (nth col col_start_idxs 0 + nth col col_i 0) r, upd col_i col (nth col col_i 0 + 1)))
      (seq 0 (List.length col_arr)) (repeat 0 (List.length col_arr), repeat 0 n_cols) in
  (col_idxs_out, col_lens).

(** records.rs:214-218, 338-341: how many records the requested columns have *)
Definition r_map_count (col_lens : list nat) (new_cols : list nat) : nat :=
  fold_left (fun total nc => total + nth nc col_lens 0) new_cols 0.

(** records.rs:205-235 col_map_select *)
Definition r_col_map_select (col_idxs col_lens new_cols : list nat) : list nat * list nat :=
  let col_start_idxs := r_start_idxs col_lens in
  let total_count := r_map_count col_lens new_cols in
  let '(idxs_out, col_arr_out, _) :=
    fold_left (fun s (ic : nat * nat) =>
      let '(io, co, j) := s in
      let '(new_col_i, new_col) := ic in
      let col_len := nth new_col col_lens 0 in
      if Nat.eqb col_len 0 then s
      else
        let col_start_idx := nth new_col col_start_idxs 0 in
        (put io j (slice col_start_idx (col_start_idx + col_len) col_idxs), put co j (repeat new_col_i col_len), j + col_len))
      (combine (seq 0 (List.length new_cols)) new_cols) (repeat 0 total_count, repeat 0 total_count, 0) in
  (idxs_out, col_arr_out).

(** records.rs:305-317 is_contiguous_indices *)
Fixpoint contiguous_from (expected : nat) (indices : list nat) : bool :=
  match indices with
  | [] => true
  | idx :: l => if negb (Nat.eqb idx expected) then false else contiguous_from (expected + 1) l
  end.
Definition is_contiguous_indices (indices : list nat) : bool :=
  match indices with [] => true | i0 :: _ => contiguous_from i0 indices end.

(** The records as NumPy sees them: element [i] of an array lies [i * stride]
    records behind its data pointer. Strides that are negative or not a multiple
    of the size of a record are left out. *)
Definition strided {A} (d : A) (memory : list A) (stride len : nat) : list A :=
  map (fun i => nth (i * stride) memory d) (seq 0 len).

Section Recs.
  Context {A : Type} (set_col : nat -> A -> A) (d : A).

  (** records.rs:196-199, 366-369: overwriting the field "col" of the copied records *)
  Definition patch_cols (v j count : nat) (out : list A) : list A :=
    fold_left (fun o k => upd o (j + k) (set_col v (nth (j + k) o d))) (seq 0 count) out.

  (** records.rs:138-203 record_col_range_select_rs. [memory] is what lies behind
      the data pointer of the array (records.rs:264-275): the strides of the array
      are not looked at. *)
  Definition r_record_col_range_select (mem : nat -> A) (memory : list A) (col_range : list Z) (new_cols : list nat) : list A :=
    fst (fold_left (fun s (ic : nat * nat) =>
      let '(out, j) := s in
      let '(c_idx, c) := ic in
      let from_r := nth (c * 2) col_range (-1)%Z in
      let to_r := nth (c * 2 + 1) col_range (-1)%Z in
      if (from_r =? -1)%Z || (to_r =? -1)%Z then s
      else
        let count := Z.to_nat (to_r - from_r) in
        let out := put out j (slice (Z.to_nat from_r) (Z.to_nat from_r + count) memory) in
        (patch_cols c_idx j count out, j + count))
      (combine (seq 0 (List.length new_cols)) new_cols) (np_empty mem (r_range_count col_range new_cols), 0)).

  (** records.rs:320-395 record_col_map_select_rs *)
  Definition r_record_col_map_select (mem : nat -> A) (memory : list A) (col_idxs col_lens new_cols : list nat) : list A :=
    let col_start_idxs := r_start_idxs col_lens in
    fst (fold_left (fun s (ic : nat * nat) =>
      let '(out, j) := s in
      let '(new_col_i, new_col) := ic in
      let col_len := nth new_col col_lens 0 in
      if Nat.eqb col_len 0 then s
      else
        let col_start_idx := nth new_col col_start_idxs 0 in
        let col_idx_slice := slice col_start_idx (col_start_idx + col_len) col_idxs in
        if is_contiguous_indices col_idx_slice then
          let i0 := nth 0 col_idx_slice 0 in
          let out := put out j (slice i0 (i0 + col_len) memory) in
          (patch_cols new_col_i j col_len out, j + col_len)
        else
          fold_left (fun s src => (upd (fst s) (snd s) (set_col new_col_i (nth src memory d)), snd s + 1)) col_idx_slice (out, j))
      (combine (seq 0 (List.length new_cols)) new_cols) (np_empty mem (r_map_count col_lens new_cols), 0)).
End Recs.

(** ** Sorting checks *)

(** records.rs:397-413 is_col_sorted *)
Fixpoint r_sorted_from (prev_col : nat) (l : list nat) : bool :=
  match l with
  | [] => true
  | col :: l' => if Nat.ltb col prev_col then false else r_sorted_from col l'
  end.
Definition r_is_col_sorted (col_arr : list nat) : bool :=
  match col_arr with [] => true | c0 :: l => r_sorted_from c0 l end.

(** records.rs:421-445 is_col_idx_sorted; the loop runs over the positions of
    [col_arr] and reads [id_arr] without a check *)
Fixpoint r_idx_sorted_from (id_arr : list nat) (i : nat) (prev_col prev_id : nat) (l : list nat) : bool :=
  match l with
  | [] => true
  | col :: l' =>
      let id := nth i id_arr 0 in
      if Nat.ltb col prev_col then false
      else if Nat.eqb col prev_col && Nat.ltb id prev_id then false
      else r_idx_sorted_from id_arr (i + 1) col id l'
  end.
Definition r_is_col_idx_sorted (col_arr id_arr : list nat) : bool :=
  match col_arr with [] => true | c0 :: l => r_idx_sorted_from id_arr 1 c0 (nth 0 id_arr 0) l end.

(** ** Expansion *)

(** records.rs:459-469 is_mapped_expandable *)
Fixpoint r_expandable_from (ncols : nat) (seen : list bool) (cells : list (nat * nat)) : bool :=
  match cells with
  | [] => true
  | (i, c) :: l =>
      let pos := i * ncols + c in
      if nth pos seen false then false else r_expandable_from ncols (upd seen pos true) l
  end.
Definition r_is_mapped_expandable (cells : list (nat * nat)) (nrows ncols : nat) : bool :=
  r_expandable_from ncols (repeat false (nrows * ncols)) cells.

(** records.rs:484-498 expand_mapped *)
Definition r_expand_mapped {B} (mapped_arr : list B) (cells : list (nat * nat)) (nrows ncols : nat) (fill_value : B) : list B :=
  fold_left (fun dst (vc : B * (nat * nat)) => upd dst (fst (snd vc) * ncols + snd (snd vc)) (fst vc))
    (combine mapped_arr cells) (repeat fill_value (nrows * ncols)).

(** records.rs:526-556 stack_expand_mapped: the number of rows and the vector *)
Definition r_stack_expand_mapped {B} (d : B) (mapped_arr : list B) (col_idxs col_lens : list nat) (fill_value : B) : nat * list B :=
  let n_cols := List.length col_lens in
  let '(col_start_idxs, max_len) :=
    fold_left (fun s i =>
      let '(starts, max_len) := s in
      let starts := if Nat.ltb 0 i then upd starts i (nth (i - 1) starts 0 + nth (i - 1) col_lens 0) else starts in
      let cl := nth i col_lens 0 in
      (starts, if Nat.ltb max_len cl then cl else max_len)) (seq 0 n_cols) (repeat 0 n_cols, 0) in
  (max_len,
   fold_left (fun dst col =>
     let col_len := nth col col_lens 0 in
     if Nat.eqb col_len 0 then dst
     else
       let col_start_idx := nth col col_start_idxs 0 in
       fold_left (fun dst k => upd dst (k * n_cols + col) (nth (nth (col_start_idx + k) col_idxs 0) mapped_arr d))
         (seq 0 col_len) dst)
     (seq 0 n_cols) (repeat fill_value (max_len * n_cols))).

(** records.rs:581-604 mapped_value_counts *)
Definition r_mapped_value_counts (codes : list nat) (n_uniques : nat) (col_idxs col_lens : list nat) : list nat :=
  let n_cols := List.length col_lens in
  let col_start_idxs := r_start_idxs col_lens in
  fold_left (fun dst col =>
    let col_len := nth col col_lens 0 in
    if Nat.eqb col_len 0 then dst
    else
      let col_start_idx := nth col col_start_idxs 0 in
      fold_left (fun dst c =>
        let code := nth (nth (col_start_idx + c) col_idxs 0) codes 0 in
        upd dst (code * n_cols + col) (nth (code * n_cols + col) dst 0 + 1))
        (seq 0 col_len) dst)
    (seq 0 n_cols) (repeat 0 (n_uniques * n_cols)).

(** ** Ranking *)
Section TopN.
  Context {T : Type} {N : Num T}.

  (** A loop over the positions [ks] of a column that marks those satisfying [p]
      and stops when [n_remaining] has been counted down: records.rs:667-675,
      685-695, 716-727 and 788-797, 807-817, 836-847 *)
  Fixpoint r_mark_until (p : nat -> bool) (global_idx : nat -> nat) (ks : list nat) (n_remaining : nat) (out : list bool) : list bool :=
    match ks with
    | [] => out
    | k :: ks' =>
        if p k then
          let out := upd out (global_idx k) true in
          if Nat.eqb (n_remaining - 1) 0 then out else r_mark_until p global_idx ks' (n_remaining - 1) out
        else r_mark_until p global_idx ks' n_remaining out
    end.

  (** records.rs:629-730 top_n_mapped_mask and records.rs:749-850
      bottom_n_mapped_mask, which differ in the direction [visit] in which ties are
      visited, in the comparison [better] and in the position [pivot_at] of the
      pivot among the sorted values; [select_nth_unstable_by] puts the element that
      sorting would put there. *)
  Definition r_n_mapped_mask (visit : list nat -> list nat) (better : T -> T -> bool) (pivot_at : nat -> nat)
      (mapped_arr : list T) (col_idxs col_lens : list nat) (n : nat) : list bool :=
    let n_cols := List.length col_lens in
    let col_start_idxs := r_start_idxs col_lens in
    fold_left (fun out col =>
      let col_len := nth col col_lens 0 in
      if Nat.eqb col_len 0 then out
      else
      let col_start_idx := nth col col_start_idxs 0 in
      let global_idx k := nth (col_start_idx + k) col_idxs 0 in
      let value k := nth (global_idx k) mapped_arr nan in
      let ks := seq 0 col_len in
      if Nat.leb col_len n then fold_left (fun out k => upd out (global_idx k) true) ks out
      else if Nat.eqb n 0 then out
      else
      let valid_values := filter (fun v => negb (isnan v)) (map value ks) in
      let n_valid := List.length valid_values in
      if Nat.eqb n_valid 0 then r_mark_until (fun _ => true) global_idx (visit ks) n out
      else if Nat.ltb n_valid n then
        let out := fold_left (fun out k => if negb (isnan (value k)) then upd out (global_idx k) true else out) ks out in
        r_mark_until (fun k => isnan (value k)) global_idx (visit ks) (n - n_valid) out
      else
      let pivot := partition_at valid_values (pivot_at n_valid) in
      let '(out, n_better) :=
        fold_left (fun s k =>
          if negb (isnan (value k)) && better (value k) pivot then (upd (fst s) (global_idx k) true, snd s + 1) else s)
          ks (out, 0) in
      let n_remaining := n - n_better in
      if Nat.eqb n_remaining 0 then out
      else r_mark_until (fun k => negb (isnan (value k)) && eqb (value k) pivot) global_idx (visit ks) n_remaining out)
      (seq 0 n_cols) (repeat false (List.length mapped_arr)).

  Definition r_top_n_mapped_mask (mapped_arr : list T) (col_idxs col_lens : list nat) (n : nat) : list bool :=
    r_n_mapped_mask (@rev nat) gtb (fun n_valid => n_valid - n) mapped_arr col_idxs col_lens n.
  Definition r_bottom_n_mapped_mask (mapped_arr : list T) (col_idxs col_lens : list nat) (n : nat) : list bool :=
    r_n_mapped_mask (fun ks => ks) ltb (fun _ => n - 1) mapped_arr col_idxs col_lens n.
End TopN.
