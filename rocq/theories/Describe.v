(** * Statistics of columns, in both engines

    generic/nb.py (one column at a time; the functions for several columns apply them to
    every column) and rust/src/generic.rs, whose functions for arrays stored row by row
    walk the rows and keep one state per column. The square root, the truncation, the
    floor and the ceiling of a number are parameters. *)
From Coq Require Import String ZArith Bool List Arith.
From Verif Require Import Base Num GenericNb ReturnsNb Reduce RustGeneric.
Import ListNotations.
Local Open Scope list_scope.
Local Open Scope nat_scope.

Section Model.
  Context {T : Type} {N : Num T}.

  Definition numbers (a : list T) : list T := filter (fun x => negb (isnan x)) a.

  (** ** Numba *)
  (** generic/nb.py:517-519 nancumsum_nb, 546-548 nancumprod_nb on one column: NaN is left
      out. [np_nanprod] and [sum_reduce_nb] are the ones without the way there. *)
  Definition nancumsum (a : list T) : list T :=
    scan (fun _ s x => let s := if isnan x then s else add s x in (s, s)) 0 zero a.
  Definition nancumprod (a : list T) : list T :=
    scan (fun _ s x => let s := if isnan x then s else mul s x in (s, s)) 0 one a.
  (** generic/nb.py:1537-1539 median_reduce_nb, np.nanmedian: the middle of the sorted
      numbers, or the mean of the two middle ones *)
  Definition np_nanmedian (a : list T) : T :=
    let s := np_sort (numbers a) in
    let n := List.length s in
    if Nat.eqb n 0 then nan
    else if Nat.even n then div (add (nth (n / 2 - 1) s nan) (nth (n / 2) s nan)) two
    else nth (n / 2) s nan.
  Definition median_reduce_nb (_ : nat) (a : list T) : res T := Ok (np_nanmedian a).
  (** generic/nb.py:1531-1533 mean_reduce_nb, 1543-1545 std_reduce_nb *)
  Definition mean_reduce_nb (_ : nat) (a : list T) : res T := Ok (np_nanmean a).
  Definition std_reduce_nb (sqrt : T -> T) (ddof : Z) (_ : nat) (a : list T) : res T := Ok (nanstd_1d_nb sqrt a ddof).
  (** generic/nb.py:1583-1598 describe_reduce_nb *)
  Definition describe_reduce_nb (sqrt : T -> T) (trunc : T -> Z) (perc : list T) (ddof : Z) (_ : nat) (a : list T) : res (list T) :=
    let v := numbers a in
    match v with
    | [] => Ok (zero :: repeat nan (4 + List.length perc))
    | _ =>
        let! lo := np_min v in
        let! ps := collect (fun p => np_percentile trunc v (mul p (ofZ 100))) perc in
        let! hi := np_max v in
        Ok ([ofZ (Z.of_nat (List.length v)); np_mean v; nanstd_1d_nb sqrt v ddof; lo] ++ ps ++ [hi])
    end.

  (** ** Rust, one column *)
  (** generic.rs:994-1002 nancumsum_1d_into, 1004-1012 nancumprod_1d_into *)
  Definition rs_cumsum_step (_ : nat) (s v : T) : T * T := let s := if isnan v then s else add s v in (s, s).
  Definition rs_cumprod_step (_ : nat) (s v : T) : T * T := let s := if isnan v then s else mul s v in (s, s).
  Definition rs_nancumsum_1d (a : list T) : list T := scan rs_cumsum_step 0 zero a.
  Definition rs_nancumprod_1d (a : list T) : list T := scan rs_cumprod_step 0 one a.
  (** generic.rs:1014-1022 nanprod_1d *)
  Definition rs_nanprod_1d (a : list T) : T := fold_left (fun s v => if isnan v then s else mul s v) a one.
  (** generic.rs:1024-1026 nansum_1d; the sign of an empty sum is not modelled *)
  Definition rs_nansum_1d (a : list T) : T := fold_left add (numbers a) zero.
  (** generic.rs:1028-1030 nancnt_1d *)
  Definition rs_nancnt_1d (a : list T) : Z := Z.of_nat (List.length (numbers a)).
  (** generic.rs:1032-1047 nanmin_1d, 1049-1064 nanmax_1d: from the first number on *)
  Fixpoint rs_nan_best (better : T -> T -> bool) (a : list T) : T :=
    match a with
    | [] => nan
    | x :: l => if isnan x then rs_nan_best better l else fold_left (fun m v => if better v m then v else m) l x
    end.
  Definition rs_nanmin_1d : list T -> T := rs_nan_best ltb.
  Definition rs_nanmax_1d : list T -> T := rs_nan_best gtb.
  (** generic.rs:1066-1080 nanmean_1d *)
  Definition rs_nanmean_step (s : T * nat) (v : T) : T * nat := if isnan v then s else (add (fst s) v, S (snd s)).
  Definition rs_nanmean_end (s : T * nat) : T := if Nat.eqb (snd s) 0 then nan else div (fst s) (ofZ (Z.of_nat (snd s))).
  Definition rs_nanmean_1d (a : list T) : T := rs_nanmean_end (fold_left rs_nanmean_step a (zero, 0)).
  (** generic.rs:1082-1096 nanmedian_1d; the numbers before the middle one, which
      select_nth_unstable_by leaves in any order, are taken in sorted order *)
  Definition rs_max (a b : T) : T := if isnan a then b else if isnan b then a else if ltb a b then b else a.
  Definition rs_nanmedian_1d (a : list T) : T :=
    let s := np_sort (numbers a) in
    let n := List.length s in
    if Nat.eqb n 0 then nan
    else
      let mid := n / 2 in
      if Nat.eqb (n mod 2) 0 then div (add (fold_left rs_max (firstn mid s) ninf) (nth mid s nan)) two
      else nth mid s nan.
  (** generic.rs:1098-1117 nanstd_1d *)
  Definition rs_nanstd_1d (sqrt : T -> T) (a : list T) (ddof : nat) : T :=
    let m := rs_nanmean_1d a in
    if isnan m then nan
    else
      let '(cnt, sq) := fold_left (fun '(cnt, sq) v => if isnan v then (cnt, sq) else (S cnt, add sq (mul (sub v m) (sub v m)))) a (0, zero) in
      if Nat.leb cnt ddof then nan else sqrt (div sq (ofZ (Z.of_nat (cnt - ddof)))).
  (** generic.rs:1675-1690 percentile_sorted; an index outside of the array panics *)
  Definition rs_at (l : list T) (i : nat) : res T :=
    match nth_error l i with Some x => Ok x | None => Err (IndexError "index out of bounds") end.
  Definition rs_percentile_sorted (floor ceil : T -> Z) (vals : list T) (q : T) : res T :=
    match vals with
    | [] => Ok nan
    | [x] => Ok x
    | _ =>
        let rank := mul (div q (ofZ 100)) (ofZ (Z.of_nat (List.length vals) - 1)) in
        let lo := Z.to_nat (floor rank) in
        let hi := Z.to_nat (ceil rank) in
        if Nat.eqb lo hi then rs_at vals lo
        else let! x := rs_at vals lo in
             let! y := rs_at vals hi in
             Ok (add (mul x (sub (ofZ (Z.of_nat hi)) rank)) (mul y (sub rank (ofZ (Z.of_nat lo)))))
    end.
  (** generic.rs:1692-1708 describe_reduce_1d *)
  Definition rs_describe_reduce_1d (sqrt : T -> T) (floor ceil : T -> Z) (perc : list T) (ddof : nat) (a : list T) : res (list T) :=
    let vals := np_sort (numbers a) in
    let n := List.length vals in
    match vals with
    | [] => Ok (ofZ 0 :: repeat nan (4 + List.length perc))
    | first :: _ =>
        let! ps := collect (fun p => rs_percentile_sorted floor ceil vals (mul p (ofZ 100))) perc in
        Ok ([ofZ (Z.of_nat n); div (fold_left add vals zero) (ofZ (Z.of_nat n)); rs_nanstd_1d sqrt vals ddof; first] ++ ps ++ [last vals nan])
    end.

  (** ** Rust, arrays stored row by row *)
  (** One state per column, updated row after row. *)
  Definition reduce_rows {S} (step : S -> T -> S) (s0 : S) (src : list T) (nrows ncols : nat) : list S :=
    fold_left (fun states row => map (fun cs => step (snd cs) (nth (row * ncols + fst cs) src nan)) (combine (seq 0 ncols) states))
      (seq 0 nrows) (repeat s0 ncols).
  (** generic.rs:574-589 nansum_2d_c, 591-606 nanprod_2d_c, 608-623 nancnt_2d_c, 625-645 nanmean_2d_c *)
  Definition rs_nansum_2d_c : list T -> nat -> nat -> list T := reduce_rows (fun s v => if isnan v then s else add s v) zero.
  Definition rs_nanprod_2d_c : list T -> nat -> nat -> list T := reduce_rows (fun s v => if isnan v then s else mul s v) one.
  Definition rs_nancnt_2d_c : list T -> nat -> nat -> list Z := reduce_rows (fun s v => if isnan v then s else (s + 1)%Z) 0%Z.
  Definition rs_nanmean_2d_c (src : list T) (nrows ncols : nat) : list T :=
    map rs_nanmean_end (reduce_rows rs_nanmean_step (zero, 0) src nrows ncols).
  (** generic.rs:647-675 nanstd_2d_c *)
  Definition rs_sums_step (s : T * T * nat) (v : T) : T * T * nat :=
    let '(s1, s2, cnt) := s in if isnan v then s else (add s1 v, add s2 (mul v v), S cnt).
  Definition rs_sums_end (sqrt : T -> T) (ddof : nat) (s : T * T * nat) : T :=
    let '(s1, s2, cnt) := s in
    if Nat.ltb ddof cnt then
      let m := div s1 (ofZ (Z.of_nat cnt)) in
      let v := div (add (sub s2 (mul (mul two s1) m)) (mul (mul (ofZ (Z.of_nat cnt)) m) m)) (ofZ (Z.of_nat (cnt - ddof))) in
      sqrt (abs v)
    else nan.
  Definition rs_nanstd_2d_c (sqrt : T -> T) (ddof : nat) (src : list T) (nrows ncols : nat) : list T :=
    map (rs_sums_end sqrt ddof) (reduce_rows rs_sums_step (zero, zero, 0) src nrows ncols).
  (** generic.rs:536-553 nancumsum_2d_c, 555-572 nancumprod_2d_c *)
  Definition rs_nancumsum_2d_c (src : list T) (nrows ncols : nat) : list T :=
    List.concat (row_loop (fun _ => rs_cumsum_step) src ncols (seq 0 nrows) (repeat zero ncols)).
  Definition rs_nancumprod_2d_c (src : list T) (nrows ncols : nat) : list T :=
    List.concat (row_loop (fun _ => rs_cumprod_step) src ncols (seq 0 nrows) (repeat one ncols)).
End Model.
