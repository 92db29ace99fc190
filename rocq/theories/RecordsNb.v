(** * Model of vectorbt/records/nb.py: column ranges and maps, selection, masks,
    expansion and reduction of mapped arrays

    Arrays are lists. Row, column and record numbers are natural numbers. Numba
    does not check bounds: reads out of range give a default and stores out of
    range are dropped here, the theorems assume column numbers in range.
    [np.empty] returns memory with arbitrary contents, given by a function. *)
From Coq Require Import ZArith Bool List Arith String.
From Verif Require Import Base Num GenericNb.
Import ListNotations.
Open Scope string_scope.
Open Scope list_scope.

(** np.empty(n) *)
Definition np_empty {A} (mem : nat -> A) (n : nat) : list A := map mem (seq 0 n).

(** [out[j : j + len(xs)] = xs] *)
Definition put {A} (out : list A) (j : nat) (xs : list A) : list A :=
  firstn j out ++ xs ++ skipn (j + List.length xs) out.

(** [a[idxs]] with an index array *)
Definition take {A} (d : A) (a : list A) (idxs : list nat) : list A := map (fun i => nth i a d) idxs.

(** [out[idxs] = xs] with an index array *)
Definition put_at {A} (out : list A) (idxs : list nat) (xs : list A) : list A :=
  fold_left (fun o ix => upd o (fst ix) (snd ix)) (combine idxs xs) out.

(** np.cumsum(lens) - lens, nb.py:112, 127 and others *)
Fixpoint cumsum_nat (acc : nat) (l : list nat) : list nat :=
  match l with [] => [] | x :: l' => (acc + x) :: cumsum_nat (acc + x) l' end.
Definition start_idxs (lens : list nat) : list nat := map (fun p => fst p - snd p) (combine (cumsum_nat 0 lens) lens).

Definition np_sum_nat (l : list nat) : nat := fold_left Nat.add l 0.

(** ** Column ranges *)

(** nb.py:41-52, one record; the state is [last_col] and [col_range], whose rows
    are (start, end), -1 when the column has no records. *)
Definition col_range_step (n : nat) (s : Z * list (Z * Z)) (rc : nat * nat) : res (Z * list (Z * Z)) :=
  let '(last_col, col_range) := s in
  let '(r, col) := rc in
  raise_if (Z.of_nat col <? last_col)%Z (ValueError "col_arr must be in ascending order") (
  let '(last_col, col_range) :=
    if negb (Z.of_nat col =? last_col)%Z then
      let col_range :=
        if negb (last_col =? -1)%Z then
          upd col_range (Z.to_nat last_col) (fst (nth (Z.to_nat last_col) col_range (-1, -1)%Z), Z.of_nat r)
        else col_range in
      (Z.of_nat col, upd col_range col (Z.of_nat r, snd (nth col col_range (-1, -1)%Z)))
    else (last_col, col_range) in
  let col_range :=
    if Nat.eqb r (n - 1) then upd col_range col (fst (nth col col_range (-1, -1)%Z), Z.of_nat (r + 1)) else col_range in
  Ok (last_col, col_range)).

(** nb.py:30-53 col_range_nb *)
Definition col_range_nb (col_arr : list nat) (n_cols : nat) : res (list (Z * Z)) :=
  let! s := foldM (col_range_step (List.length col_arr)) ((-1)%Z, repeat (-1, -1)%Z n_cols)
              (combine (seq 0 (List.length col_arr)) col_arr) in
  Ok (snd s).

(** np.arange(from_r, to_r) *)
Definition arange (from_r to_r : Z) : list nat := seq (Z.to_nat from_r) (Z.to_nat (to_r - from_r)).

(** nb.py:60-61, 83-84: rows of the requested columns and their total length *)
Definition range_rows (col_range : list (Z * Z)) (new_cols : list nat) : list (Z * Z) :=
  take (-1, -1)%Z col_range new_cols.
Definition range_total (rows : list (Z * Z)) : nat :=
  Z.to_nat (fold_left (fun a r => (a + (snd r - fst r))%Z) rows 0%Z).

(** nb.py:56-76 col_range_select_nb *)
Definition col_range_select_nb (mem : nat -> nat) (col_range : list (Z * Z)) (new_cols : list nat) : list nat * list nat :=
  let rows := range_rows col_range new_cols in
  let new_n := range_total rows in
  let '(indices_out, col_arr_out, _) :=
    fold_left (fun s (cr : nat * (Z * Z)) =>
      let '(io, co, j) := s in
      let '(c, (from_r, to_r)) := cr in
      if (from_r =? -1)%Z || (to_r =? -1)%Z then s
      else let rang := arange from_r to_r in
           (put io j rang, put co j (repeat c (List.length rang)), j + List.length rang))
      (combine (seq 0 (List.length new_cols)) rows) (np_empty mem new_n, np_empty mem new_n, 0) in
  (indices_out, col_arr_out).

Section Recs.
  Context {A : Type} (set_col : nat -> A -> A).  (* assignment to the field "col" *)

  (** nb.py:79-98 record_col_range_select_nb *)
  Definition record_col_range_select_nb (mem : nat -> A) (records : list A) (col_range : list (Z * Z)) (new_cols : list nat) : list A :=
    let rows := range_rows col_range new_cols in
    fst (fold_left (fun s (cr : nat * (Z * Z)) =>
      let '(out, j) := s in
      let '(c, (from_r, to_r)) := cr in
      if (from_r =? -1)%Z || (to_r =? -1)%Z then s
      else let col_records := map (set_col c) (slice (Z.to_nat from_r) (Z.to_nat to_r) records) in
           (put out j col_records, j + List.length col_records))
      (combine (seq 0 (List.length new_cols)) rows) (np_empty mem (range_total rows), 0)).
End Recs.

(** ** Column maps *)

(** nb.py:101-121 col_map_nb: indices segmented by column, and segment lengths *)
Definition col_map_nb (mem : nat -> nat) (col_arr : list nat) (n_cols : nat) : list nat * list nat :=
  let col_lens := fold_left (fun lens col => upd lens col (nth col lens 0 + 1)) col_arr (repeat 0 n_cols) in
  let starts := start_idxs col_lens in
  let '(col_idxs, _) :=
    fold_left (fun s (rc : nat * nat) =>
      let '(out, col_i) := s in
      let '(r, col) := rc in
      (upd out (nth col starts 0 + nth col col_i 0) r, upd col_i col (nth col col_i 0 + 1)))
      (combine (seq 0 (List.length col_arr)) col_arr)
      (np_empty mem (List.length col_arr), repeat 0 n_cols) in
  (col_idxs, col_lens).

(** The segment of one column: nb.py:138-139, 160-161, 215-216 and others *)
Definition col_seg (col_map : list nat * list nat) (col : nat) : list nat :=
  let '(col_idxs, col_lens) := col_map in
  let s := nth col (start_idxs col_lens) 0 in
  slice s (s + nth col col_lens 0) col_idxs.
Definition col_len (col_map : list nat * list nat) (col : nat) : nat := nth col (snd col_map) 0.

(** nb.py:124-144 col_map_select_nb *)
Definition col_map_select_nb (mem : nat -> nat) (col_map : list nat * list nat) (new_cols : list nat) : list nat * list nat :=
  let total := np_sum_nat (take 0 (snd col_map) new_cols) in
  let '(idxs_out, col_arr_out, _) :=
    fold_left (fun s (ic : nat * nat) =>
      let '(io, co, j) := s in
      let '(new_col_i, new_col) := ic in
      if Nat.eqb (col_len col_map new_col) 0 then s
      else (put io j (col_seg col_map new_col), put co j (repeat new_col_i (col_len col_map new_col)), j + col_len col_map new_col))
      (combine (seq 0 (List.length new_cols)) new_cols) (np_empty mem total, np_empty mem total, 0) in
  (idxs_out, col_arr_out).

Section Recs2.
  Context {A : Type} (set_col : nat -> A -> A) (d : A).

  (** nb.py:147-166 record_col_map_select_nb *)
  Definition record_col_map_select_nb (mem : nat -> A) (records : list A) (col_map : list nat * list nat) (new_cols : list nat) : list A :=
    fst (fold_left (fun s (ic : nat * nat) =>
      let '(out, j) := s in
      let '(new_col_i, new_col) := ic in
      if Nat.eqb (col_len col_map new_col) 0 then s
      else (put out j (map (set_col new_col_i) (take d records (col_seg col_map new_col))), j + col_len col_map new_col))
      (combine (seq 0 (List.length new_cols)) new_cols)
      (np_empty mem (np_sum_nat (take 0 (snd col_map) new_cols)), 0)).
End Recs2.

(** ** Sorting checks *)

(** nb.py:172-177 is_col_sorted_nb *)
Fixpoint is_col_sorted_nb (col_arr : list nat) : bool :=
  match col_arr with
  | a :: (b :: _) as l => if Nat.ltb b a then false else is_col_sorted_nb l
  | _ => true
  end.

(** nb.py:181-188 is_col_idx_sorted_nb; the two arrays are one list of pairs *)
Fixpoint is_col_idx_sorted_nb (l : list (nat * nat)) : bool :=
  match l with
  | (c, i) :: ((c', i') :: _) as l' =>
      if Nat.ltb c' c then false
      else if Nat.eqb c' c && Nat.ltb i' i then false
      else is_col_idx_sorted_nb l'
  | _ => true
  end.

(** ** Masks *)

(** nb.py:195-218 mapped_to_mask_nb: [f] writes into the mask *)
Definition mapped_to_mask_nb {B} (d : B) (mapped_arr : list B) (col_map : list nat * list nat)
    (f : list bool -> list nat -> nat -> list B -> list bool) : list bool :=
  fold_left (fun inout col =>
    if Nat.eqb (col_len col_map col) 0 then inout
    else f inout (col_seg col_map col) col (take d mapped_arr (col_seg col_map col)))
    (seq 0 (List.length (snd col_map))) (repeat false (List.length mapped_arr)).

(** [inout[idxs[i]] = True] for one position, for a list of positions *)
Definition mark (idxs : list nat) (inout : list bool) (i : nat) : list bool := upd inout (nth i idxs 0) true.

(** A loop over positions that marks those satisfying [p] until [n_remaining] has
    been counted down to zero: nb.py:238-243, 258-263, 275-280 and the like *)
Fixpoint mark_until (p : nat -> bool) (idxs : list nat) (ps : list nat) (n_remaining : nat) (inout : list bool) : list bool :=
  match ps with
  | [] => inout
  | i :: ps' =>
      if p i then
        let inout := mark idxs inout i in
        if Nat.eqb (n_remaining - 1) 0 then inout else mark_until p idxs ps' (n_remaining - 1) inout
      else mark_until p idxs ps' n_remaining inout
  end.

Section TopN.
  Context {T : Type} {N : Num T}.

  (** Insertion into an ascending list: np.partition(a, k)[k] is the element
      number k of the sorted array. *)
  Fixpoint insert_asc (x : T) (l : list T) : list T :=
    match l with
    | [] => [x]
    | y :: l' => if ltb x y then x :: l else y :: insert_asc x l'
    end.
  Definition sort_asc (l : list T) : list T := fold_right insert_asc [] l.
  Definition partition_at (l : list T) (k : nat) : T := nth k (sort_asc l) nan.

  (** nb.py:222-280 top_n_inout_map_nb and nb.py:284-341 bottom_n_inout_map_nb,
      which differ in the direction in which positions are visited [scan] (from
      the last for top, from the first for bottom), in the comparison [better]
      and in the number of the pivot among the sorted values. [n] is a natural
      number: n <= 0 means 0. *)
  Definition n_inout_map (scan : list nat -> list nat) (better : T -> T -> bool) (pivot_at : nat -> nat)
      (inout : list bool) (idxs : list nat) (mapped_arr : list T) (n : nat) : list bool :=
    if Nat.leb n 0 then inout
    else
    let col_len := List.length mapped_arr in
    let ps := seq 0 col_len in
    let at_ i := nth i mapped_arr nan in
    let valid i := eqb (at_ i) (at_ i) in
    if Nat.leb col_len n then fold_left (fun m i => upd m i true) idxs inout
    else
    let n_valid := List.length (filter valid ps) in
    if Nat.eqb n_valid 0 then mark_until (fun _ => true) idxs (scan ps) n inout
    else
    let valid_mapped_arr := map at_ (filter valid ps) in
    if Nat.ltb n_valid n then
      let inout := fold_left (mark idxs) (filter valid ps) inout in
      mark_until (fun i => neb (at_ i) (at_ i)) idxs (scan ps) (n - n_valid) inout
    else
    let pivot := partition_at valid_mapped_arr (pivot_at n_valid) in
    let sel := filter (fun i => valid i && better (at_ i) pivot) ps in
    let inout := fold_left (mark idxs) sel inout in
    if Nat.leb n (List.length sel) then inout
    else mark_until (fun i => valid i && eqb (at_ i) pivot) idxs (scan ps) (n - List.length sel) inout.

  Definition top_n_inout_map_nb (inout : list bool) (idxs : list nat) (col : nat) (mapped_arr : list T) (n : nat) : list bool :=
    n_inout_map (@rev nat) gtb (fun n_valid => n_valid - n) inout idxs mapped_arr n.
  Definition bottom_n_inout_map_nb (inout : list bool) (idxs : list nat) (col : nat) (mapped_arr : list T) (n : nat) : list bool :=
    n_inout_map (fun ps => ps) ltb (fun _ => n - 1) inout idxs mapped_arr n.

  (** records/mapped_array.py:638-653: the masks behind [top_n], [bottom_n] *)
  Definition top_n_mask (mapped_arr : list T) (col_map : list nat * list nat) (n : nat) : list bool :=
    mapped_to_mask_nb nan mapped_arr col_map (fun m idxs col a => top_n_inout_map_nb m idxs col a n).
  Definition bottom_n_mask (mapped_arr : list T) (col_map : list nat * list nat) (n : nat) : list bool :=
    mapped_to_mask_nb nan mapped_arr col_map (fun m idxs col a => bottom_n_inout_map_nb m idxs col a n).
End TopN.

(** ** Matrices: lists of rows *)
Definition mfull {A} (nrows ncols : nat) (v : A) : list (list A) := repeat (repeat v ncols) nrows.
Definition mget {A} (d : A) (m : list (list A)) (i c : nat) : A := nth c (nth i m []) d.
Definition mset {A} (m : list (list A)) (i c : nat) (v : A) : list (list A) := upd m i (upd (nth i m []) c v).

(** nb.py:413-421 is_mapped_expandable_nb; the arrays are one list of
    (idx, col) pairs *)
Fixpoint expandable_from (temp : list (list bool)) (cells : list (nat * nat)) : bool :=
  match cells with
  | [] => true
  | (i, c) :: l => if mget false temp i c then false else expandable_from (mset temp i c true) l
  end.
Definition is_mapped_expandable_nb (cells : list (nat * nat)) (nrows ncols : nat) : bool :=
  expandable_from (mfull nrows ncols false) cells.

(** nb.py:424-464 expand_mapped_nb *)
Definition expand_mapped_nb {B} (mapped_arr : list B) (cells : list (nat * nat)) (nrows ncols : nat) (fill_value : B) : list (list B) :=
  fold_left (fun out (vc : B * (nat * nat)) => mset out (fst (snd vc)) (snd (snd vc)) (fst vc))
    (combine mapped_arr cells) (mfull nrows ncols fill_value).

(** nb.py:468-505 stack_expand_mapped_nb *)
Definition stack_expand_mapped_nb {B} (d : B) (mapped_arr : list B) (col_map : list nat * list nat) (fill_value : B) : list (list B) :=
  let col_lens := snd col_map in
  fold_left (fun out col =>
    if Nat.eqb (col_len col_map col) 0 then out
    else fold_left (fun o kv => mset o (fst kv) col (snd kv))
           (combine (seq 0 (col_len col_map col)) (take d mapped_arr (col_seg col_map col))) out)
    (seq 0 (List.length col_lens)) (mfull (fold_left Nat.max col_lens 0) (List.length col_lens) fill_value).

(** ** Reducing and mapping by column *)

(** nb.py:512-537 reduce_mapped_nb *)
Definition reduce_mapped_nb {B C} (d : B) (mapped_arr : list B) (col_map : list nat * list nat) (fill_value : C)
    (f : nat -> list B -> C) : list C :=
  fold_left (fun out col =>
    if Nat.eqb (col_len col_map col) 0 then out
    else upd out col (f col (take d mapped_arr (col_seg col_map col))))
    (seq 0 (List.length (snd col_map))) (repeat fill_value (List.length (snd col_map))).

(** nb.py:541-567 reduce_mapped_to_idx_nb *)
Definition reduce_mapped_to_idx_nb {B} (d : B) (mapped_arr : list B) (col_map : list nat * list nat) (idx_arr : list nat)
    (fill_value : nat) (f : nat -> list B -> nat) : list nat :=
  fold_left (fun out col =>
    if Nat.eqb (col_len col_map col) 0 then out
    else upd out col (nth (f col (take d mapped_arr (col_seg col_map col))) (take 0 idx_arr (col_seg col_map col)) 0))
    (seq 0 (List.length (snd col_map))) (repeat fill_value (List.length (snd col_map))).

(** nb.py:345-368 apply_on_mapped_nb and nb.py:372-394 apply_on_records_nb (which
    passes the records of the column) *)
Definition apply_on_mapped_nb {B C} (d : B) (mem : nat -> C) (mapped_arr : list B) (col_map : list nat * list nat)
    (f : nat -> list B -> list C) : list C :=
  fold_left (fun out col =>
    if Nat.eqb (col_len col_map col) 0 then out
    else put_at out (col_seg col_map col) (f col (take d mapped_arr (col_seg col_map col))))
    (seq 0 (List.length (snd col_map))) (np_empty mem (List.length mapped_arr)).

(** nb.py:644-657 mapped_value_counts_nb *)
Definition mapped_value_counts_nb (codes : list nat) (n_uniques : nat) (col_map : list nat * list nat) : list (list nat) :=
  fold_left (fun out col =>
    if Nat.eqb (col_len col_map col) 0 then out
    else fold_left (fun o r => mset o (nth r codes 0) col (mget 0 o (nth r codes 0) col + 1)) (col_seg col_map col) out)
    (seq 0 (List.length (snd col_map))) (mfull n_uniques (List.length (snd col_map)) 0).
