(** * Model of the signal analysis of rust/src/signals.rs: cleaning, ranges, ranks, positions

    The two-dimensional arrays are read at [row, col] and the loops go column
    after column, so an array is the list of its columns. Counters that start
    at -1 are integers. Also the average position of signals/nb.py, which
    SignalsNb.v leaves out. *)
From Coq Require Import ZArith Bool List Arith String.
From Verif Require Import Base Num SignalsNb.
Import ListNotations.
Open Scope list_scope.
Open Scope Z_scope.

(** The rows of a column with their numbers *)
Fixpoint rows_from {A} (i : Z) (l : list A) : list (Z * A) :=
  match l with [] => [] | x :: l => (i, x) :: rows_from (i + 1) l end.
Definition rows_of {A} (l : list A) : list (Z * A) := rows_from 0 l.

(** ** Cleaning *)
(** signals.rs:14-34 clean_enex_1d, 36-65 clean_enex_2d: one row. State: phase, entries_out, exits_out. *)
Definition rs_clean_step (entry_first : bool) (st : Z * list bool * list bool) (x : bool * bool) : Z * list bool * list bool :=
  let '(phase, en_out, ex_out) := st in
  let '(entry, exit) := x in
  if entry && exit then (phase, en_out ++ [false], ex_out ++ [false])
  else
    let '(phase, en) := if entry && ((phase =? -1) || (phase =? 0)) then (1, true) else (phase, false) in
    let '(phase, ex) := if exit && ((negb entry_first && (phase =? -1)) || (phase =? 1)) then (0, true) else (phase, false) in
    (phase, en_out ++ [en], ex_out ++ [ex]).
Definition rs_clean_enex (entries exits : list bool) (entry_first : bool) : list bool * list bool :=
  let '(_, en, ex) := fold_left (rs_clean_step entry_first) (combine entries exits) (-1, [], []) in (en, ex).

(** ** Ranges *)
(** A range record of rust/src/generic.rs:80-103: id, col, start_idx, end_idx, status. *)
Record RangeRecord := mkRR { rr_id : Z; rr_col : Z; rr_start : Z; rr_end : Z; rr_closed : bool }.
(** [out.push(RangeRecord::new(ridx, col, from, to, status)); ridx += 1] *)
Definition rs_push (st : Z * list RangeRecord) (col from to : Z) (closed : bool) : Z * list RangeRecord :=
  let '(ridx, out) := st in (ridx + 1, out ++ [mkRR ridx col from to closed]).
(** [for col in 0..ncols], with ridx and out going through all columns *)
Definition rs_over_columns {A} (body : Z -> A -> Z * list RangeRecord -> Z * list RangeRecord) (cols : list A) : list RangeRecord :=
  snd (fold_left (fun st c => body (fst c) (snd c) st) (rows_of cols) (0, [])).

(** signals.rs:1078-1097 between_ranges *)
Definition rs_between_ranges (cols : list (list bool)) : list RangeRecord :=
  rs_over_columns (fun col (a : list bool) st =>
    snd (fold_left (fun (ps : Z * (Z * list RangeRecord)) (x : Z * bool) =>
      let '(prev_idx, st) := ps in
      let '(row, v) := x in
      if v then (row, if 0 <=? prev_idx then rs_push st col prev_idx row true else st) else (prev_idx, st))
      (rows_of a) (-1, st))) cols.

(** signals.rs:1109-1119: positions of the signals of a column *)
Definition rs_idxs (a : list bool) : list Z :=
  fold_left (fun (idxs : list Z) (x : Z * bool) => let '(row, v) := x in if v then idxs ++ [row] else idxs) (rows_of a) [].
(** signals.rs:1126-1128 and 1137-1139: the two while loops; [fuel] is the number of positions left *)
Fixpoint rs_advance (fuel : nat) (a_idxs : list Z) (to_i : Z) (a_pos : nat) : nat :=
  match fuel with
  | O => a_pos
  | S fuel => if Nat.ltb (a_pos + 1) (List.length a_idxs) && (nth (a_pos + 1)%nat a_idxs 0 <=? to_i) then rs_advance fuel a_idxs to_i (a_pos + 1)%nat else a_pos
  end.
Fixpoint rs_skip (fuel : nat) (b_idxs : list Z) (from_i : Z) (b_pos : nat) : nat :=
  match fuel with
  | O => b_pos
  | S fuel => if Nat.ltb b_pos (List.length b_idxs) && (nth b_pos b_idxs 0 <? from_i) then rs_skip fuel b_idxs from_i (b_pos + 1)%nat else b_pos
  end.
(** signals.rs:1099-1148 between_two_ranges *)
Definition rs_between_two_ranges (cols : list (list bool * list bool)) (from_other : bool) : list RangeRecord :=
  rs_over_columns (fun col (ab : list bool * list bool) st =>
    let a_idxs := rs_idxs (fst ab) in
    let b_idxs := rs_idxs (snd ab) in
    match a_idxs, b_idxs with
    | [], _ | _, [] => st
    | _, _ =>
      if from_other then
        snd (fold_left (fun (ps : nat * (Z * list RangeRecord)) (to_i : Z) =>
          let '(a_pos, st) := ps in
          let a_pos := rs_advance (List.length a_idxs) a_idxs to_i a_pos in
          (a_pos, if nth a_pos a_idxs 0 <=? to_i then rs_push st col (nth a_pos a_idxs 0) to_i true else st)) b_idxs (O, st))
      else
        snd (fold_left (fun (ps : nat * (Z * list RangeRecord)) (from_i : Z) =>
          let '(b_pos, st) := ps in
          let b_pos := rs_skip (List.length b_idxs) b_idxs from_i b_pos in
          (b_pos, if Nat.ltb b_pos (List.length b_idxs) then rs_push st col from_i (nth b_pos b_idxs 0) true else st)) a_idxs (O, st))
    end) cols.

(** signals.rs:1150-1183 partition_ranges *)
Definition rs_partition_ranges (cols : list (list bool)) : list RangeRecord :=
  rs_over_columns (fun col (a : list bool) st =>
    let nrows := Z.of_nat (List.length a) in
    snd (fold_left (fun (ps : bool * Z * (Z * list RangeRecord)) (x : Z * bool) =>
      let '(is_partition, from_i, st) := ps in
      let '(row, v) := x in
      let '(is_partition, from_i, st) :=
        if v then (true, if negb is_partition then row else from_i, st)
        else if is_partition then (false, from_i, rs_push st col from_i row true)
        else (is_partition, from_i, st) in
      (is_partition, from_i, if (row =? nrows - 1) && is_partition then rs_push st col from_i (nrows - 1) false else st))
      (rows_of a) (false, -1, st))) cols.

(** signals.rs:1185-1208 between_partition_ranges *)
Definition rs_between_partition_ranges (cols : list (list bool)) : list RangeRecord :=
  rs_over_columns (fun col (a : list bool) st =>
    snd (fold_left (fun (ps : bool * Z * (Z * list RangeRecord)) (x : Z * bool) =>
      let '(is_partition, from_i, st) := ps in
      let '(row, v) := x in
      if v then (true, row, if negb is_partition && negb (from_i =? -1) then rs_push st col from_i row true else st)
      else (false, from_i, st))
      (rows_of a) (false, -1, st))) cols.

(** ** Ranks: signals.rs:1210-1256 sig_pos_rank, 1258-1302 part_pos_rank, one column; [rank] is what the
    inner lines 1235-1241 and 1283-1287 do to the running position *)
Record RankSt := mkRank { k_pos : Z; k_reset : Z; k_prev_end : Z; k_start : Z; k_in : bool; k_false : bool }.
Definition rs_rank_step (rank : Z -> Z -> Z -> Z -> Z -> Z) (after_false : bool) (reset : option (list bool)) (st : RankSt * list Z) (x : Z * bool) : RankSt * list Z :=
  let '(s, out) := st in
  let '(row, signal) := x in
  let reset_i := match reset with Some r => if nth (Z.to_nat row) r false then row else k_reset s | None => k_reset s end in
  if signal && (negb after_false || k_false s) then
    let part_start_i := if negb (k_in s) then row else k_start s in
    let pos := rank (k_pos s) reset_i (k_prev_end s) part_start_i row in
    (mkRank pos reset_i (k_prev_end s) part_start_i true (k_false s), out ++ [pos])
  else if negb signal then
    (mkRank (k_pos s) reset_i (if k_in s then row - 1 else k_prev_end s) (k_start s) false true, out ++ [-1])
  else (mkRank (k_pos s) reset_i (k_prev_end s) (k_start s) (k_in s) (k_false s), out ++ [-1]).
Definition rs_rank (rank : Z -> Z -> Z -> Z -> Z -> Z) (a : list bool) (reset : option (list bool)) (after_false : bool) : list Z :=
  snd (fold_left (rs_rank_step rank after_false reset) (rows_of a) (mkRank (-1) 0 (-1) (-1) false (negb after_false), [])).
Definition rs_sig_pos_rank (a : list bool) (reset : option (list bool)) (after_false allow_gaps : bool) : list Z :=
  rs_rank (fun pos reset_i prev_end part_start row =>
    (if (prev_end <? reset_i) && (Z.max reset_i part_start =? row) then -1
     else if negb allow_gaps && (part_start =? row) then -1 else pos) + 1) a reset after_false.
Definition rs_part_pos_rank (a : list bool) (reset : option (list bool)) (after_false : bool) : list Z :=
  rs_rank (fun pos reset_i prev_end part_start row =>
    if (prev_end <? reset_i) && (Z.max reset_i part_start =? row) then 0
    else if part_start =? row then pos + 1 else pos) a reset after_false.

(** ** Positions: signals.rs:1304-1327 nth_index_1d, 1329-1360 nth_index. State: found and, after [return], the answer. *)
Definition rs_nth_step (delta n : Z) (st : Z * option Z) (x : Z * bool) : Z * option Z :=
  match st with
  | (found, Some r) => (found, Some r)
  | (found, None) => let '(i, v) := x in
      if v then (found + delta, if found + delta =? n then Some i else None) else (found, None)
  end.
Definition rs_nth_index (a : list bool) (n : Z) : Z :=
  let '(_, r) := if 0 <=? n then fold_left (rs_nth_step 1 n) (rows_of a) (-1, None) else fold_left (rs_nth_step (-1) n) (rev (rows_of a)) (0, None) in
  match r with Some i => i | None => -1 end.

Section Average.
  Context {T : Type} {N : Num T}.
  (** signals.rs:1362-1373 norm_avg_index_1d *)
  Definition rs_norm_avg_index_1d (a : list bool) : T :=
    let '(sum, cnt) := fold_left (fun (sc : T * Z) (x : Z * bool) => let '(sum, cnt) := sc in let '(i, v) := x in if v then (add sum (ofZ i), cnt + 1) else (sum, cnt)) (rows_of a) (zero, 0) in
    let mean_index := div sum (ofZ cnt) in
    sub (div (mul two mean_index) (sub (ofZ (Z.of_nat (List.length a))) one)) one.
  (** signals.rs:1375-1416 norm_avg_index: a column without signals keeps NaN *)
  Definition rs_norm_avg_index (a : list bool) : T :=
    let '(sum, cnt) := fold_left (fun (sc : T * Z) (x : Z * bool) => let '(sum, cnt) := sc in let '(row, v) := x in if v then (add sum (ofZ row), cnt + 1) else (sum, cnt)) (rows_of a) (zero, 0) in
    if 0 <? cnt then
      let mean_index := div sum (ofZ cnt) in
      sub (div (mul two mean_index) (sub (ofZ (Z.of_nat (List.length a))) one)) one
    else nan.
  (** signals/nb.py:1304-1309 norm_avg_index_1d_nb, with utils/array_.py:76-84 renormalize from (0, len - 1) to (-1, 1);
      the mean of integers is their sum over their number. *)
  Definition norm_avg_index_1d_nb (a : list bool) : T :=
    if Nat.leb (List.length a) 1 || negb (existsb (fun x => x) a) then nan
    else
      let idxs := flatnonzero a in
      let mean_index := div (ofZ (fold_left Z.add (map Z.of_nat idxs) 0)) (ofZ (Z.of_nat (List.length idxs))) in
      add (div (mul (ofZ (1 - (-1))) (sub mean_index (ofZ 0))) (ofZ (Z.of_nat (List.length a) - 1 - 0))) (ofZ (-1)).
End Average.
