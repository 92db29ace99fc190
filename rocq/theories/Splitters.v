(** * Model of the cross-validation splitters (generic/splitters.py)

    Lengths are exact rationals: a value strictly between 0 and 1 is a
    fraction of the range, any other value is a whole number. The generator
    is the list of the tuples it yields, or the first error it raises. *)
From Coq Require Import String ZArith QArith Qround Bool List Arith.
From Verif Require Import Base.
Import ListNotations.
Local Open Scope string_scope.
Local Open Scope list_scope.
Local Open Scope Z_scope.

(** np.arange(a, b) *)
Definition arange (a b : Z) : list Z := map (fun k => a + Z.of_nat k) (seq 0 (Z.to_nat (b - a))).
Definition sum_z (l : list Z) : Z := fold_left Z.add l 0.

(** An argument that is given once or per range *)
Inductive PerRange (A : Type) := Same (a : A) | Each (l : list A).
Arguments Same {A} a.
Arguments Each {A} l.
Definition at_range {A} (p : PerRange A) (i : nat) : res A :=
  match p with
  | Same a => Ok a
  | Each l => match nth_error l i with Some a => Ok a | None => Err (IndexError "index out of range") end
  end.

(** generic/splitters.py:74-75: a fraction of the range, or a whole number *)
Definition resolve_len (set_len : Q) (range_len : Z) : Z :=
  if negb (Qle_bool set_len 0) && negb (Qle_bool 1 set_len) then Qfloor (set_len * inject_Z range_len) else Qfloor set_len.

(** generic/splitters.py:73-78, the loop over the set lengths *)
Fixpoint resolve_lens (set_lens : list Q) (range_len : Z) : res (list Z) :=
  match set_lens with
  | [] => Ok []
  | x :: rest =>
      let set_len := resolve_len x range_len in
      raise_if (Z.eqb set_len 0) (ValueError "Set in the range is empty") (
      let! lens := resolve_lens rest range_len in Ok (set_len :: lens))
  end.

(** generic/splitters.py:87-93, the loop that cuts the range *)
Fixpoint cut_sets (start_idx idx_offset : Z) (lens : list Z) : list (list Z) :=
  match lens with
  | [] => []
  | set_len :: rest =>
      arange (start_idx + idx_offset) (start_idx + (idx_offset + set_len)) :: cut_sets start_idx (idx_offset + set_len) rest
  end.

(** generic/splitters.py:56-95, the body of the loop *)
Definition split_range (start_idx end_idx : Z) (set_lens : list Q) (left_to_right : bool) : res (list (list Z)) :=
  let range_len := end_idx - start_idx + 1 in
  let! lens := resolve_lens set_lens range_len in
  raise_if (negb (Z.ltb (sum_z lens) range_len)) (ValueError "Range too short to split") (
  let lens := if left_to_right then lens ++ [range_len - sum_z lens] else [range_len - sum_z lens] ++ lens in
  Ok (cut_sets start_idx 0 lens)).

Definition no_sets (set_lens : PerRange (list Q)) : bool := match set_lens with Same [] | Each [] => true | _ => false end.

Fixpoint split_loop (ranges : list (Z * Z)) (i : nat) (set_lens : PerRange (list Q)) (left_to_right : PerRange bool) : res (list (list (list Z))) :=
  match ranges with
  | [] => Ok []
  | (start_idx, end_idx) :: rest =>
      let! sets :=
        if no_sets set_lens then Ok [arange start_idx (end_idx + 1)]
        else let! ls := at_range set_lens i in
             let! ltr := at_range left_to_right i in
             split_range start_idx end_idx ls ltr in
      let! others := split_loop rest (S i) set_lens left_to_right in
      Ok (sets :: others)
  end.

(** generic/splitters.py:21-95 split_ranges_into_sets *)
Definition split_ranges_into_sets (start_idxs end_idxs : list Z) (set_lens : PerRange (list Q)) (left_to_right : PerRange bool) : res (list (list (list Z))) :=
  raise_if (negb (Nat.eqb (List.length start_idxs) (List.length end_idxs))) (AssertionError "Lengths do not match") (
  split_loop (combine start_idxs end_idxs) 0 set_lens left_to_right).

(** ** Evenly selecting ranges *)
(** np.round of p/d: ties go to the even neighbour *)
Definition round_half_even (p d : Z) : Z :=
  let f := p / d in let r := p mod d in
  if Z.ltb (2 * r) d then f else if Z.ltb d (2 * r) then f + 1 else if Z.even f then f else f + 1.

(** np.round(np.linspace(0, m - 1, n)).astype(int), exact *)
Definition even_idxs (m n : nat) : list nat :=
  map (fun k => if Nat.eqb n 1 then O else Z.to_nat (round_half_even (Z.of_nat k * (Z.of_nat m - 1)) (Z.of_nat n - 1))) (seq 0 n).

(** generic/splitters.py:165-172 and its twins at 215-221 and 251-257 *)
Definition filter_ranges (start_idxs end_idxs : list Z) (min_len : Z) : res (list (Z * Z)) :=
  let kept := filter (fun p => Z.leb min_len (snd p - fst p + 1)) (combine start_idxs end_idxs) in
  match kept with [] => Err (ValueError "There are no ranges that meet the minimum length") | _ => Ok kept end.

(** generic/splitters.py:174-180 and its twins at 223-229 and 259-265 *)
Definition select_ranges (ranges : list (Z * Z)) (n : option nat) : res (list (Z * Z)) :=
  match n with
  | None => Ok ranges
  | Some n =>
      raise_if (Nat.ltb (List.length ranges) n) (ValueError "n cannot be bigger than the maximum number of ranges") (
      Ok (map (fun k => nth k ranges (0, 0)) (even_idxs (List.length ranges) n)))
  end.

Definition finish (start_idxs end_idxs : list Z) (n : option nat) (min_len : Z) (set_lens : PerRange (list Q)) (left_to_right : PerRange bool) : res (list (list (list Z))) :=
  let! kept := filter_ranges start_idxs end_idxs min_len in
  let! chosen := select_ranges kept n in
  split_ranges_into_sets (map fst chosen) (map snd chosen) set_lens left_to_right.

(** generic/splitters.py:145-152 and 206-213: the windows of one length *)
Definition window_length (len : nat) (n : option nat) (window_len : option Q) : res Z :=
  match window_len, n with
  | None, None => Err (ValueError "At least n or window_len must be set")
  | None, Some O => Err ZeroDivision
  | None, Some n => Ok (Z.of_nat (len / n)%nat)
  | Some q, _ => Ok (resolve_len q (Z.of_nat len))
  end.

(** generic/splitters.py:185-231 RollingSplitter.split *)
Definition rolling_split (len : nat) (n : option nat) (window_len : option Q) (min_len : Z) (set_lens : PerRange (list Q)) (left_to_right : PerRange bool) : res (list (list (list Z))) :=
  let! w := window_length len n window_len in
  finish (arange 0 (Z.of_nat len - w + 1)) (arange (w - 1) (Z.of_nat len)) n min_len set_lens left_to_right.

(** generic/splitters.py:234-267 ExpandingSplitter.split *)
Definition expanding_split (len : nat) (n : option nat) (min_len : Z) (set_lens : PerRange (list Q)) (left_to_right : PerRange bool) : res (list (list (list Z))) :=
  finish (repeat 0 len) (arange 0 (Z.of_nat len)) n min_len set_lens left_to_right.

(** np.broadcast_arrays of two vectors *)
Definition broadcast2 (a b : list Z) : res (list Z * list Z) :=
  if Nat.eqb (List.length a) (List.length b) then Ok (a, b)
  else match a, b with
       | [x], _ => Ok (repeat x (List.length b), b)
       | _, [y] => Ok (a, repeat y (List.length a))
       | _, _ => Err (ValueError "shape mismatch: objects cannot be broadcast to a single shape")
       end.

(** generic/splitters.py:109-182 RangeSplitter.split; start and end indices as positions *)
Definition range_split (len : nat) (n : option nat) (range_len : option Q) (min_len : Z) (start_idxs end_idxs : option (list Z)) (set_lens : PerRange (list Q)) (left_to_right : PerRange bool) : res (list (list (list Z))) :=
  match start_idxs, end_idxs with
  | None, None =>
      let! w := window_length len n range_len in
      finish (arange 0 (Z.of_nat len - w + 1)) (arange (w - 1) (Z.of_nat len)) n min_len set_lens left_to_right
  | Some s, Some e =>
      let! p := broadcast2 s e in finish (fst p) (snd p) n min_len set_lens left_to_right
  | _, _ => Err (ValueError "Both start_idxs and end_idxs must be set")
  end.
