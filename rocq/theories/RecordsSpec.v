(** * Specification vocabulary for record arrays

    Used in theorem statements; contains no proofs. *)
From Coq Require Import ZArith List Arith Bool.
From Verif Require Import Base Num.
Import ListNotations.

(** The numbers of the records of column [c], in order *)
Definition rows_of (c : nat) (col_arr : list nat) : list nat :=
  filter (fun r => Nat.eqb (nth r col_arr 0) c) (seq 0 (length col_arr)).

(** The values of column [c], in order *)
Definition values_of {B} (d : B) (c : nat) (col_arr : list nat) (vals : list B) : list B :=
  map (fun r => nth r vals d) (rows_of c col_arr).

Definition cols_below (n : nat) (col_arr : list nat) : Prop := Forall (fun c => c < n) col_arr.

(** Never descending *)
Definition ascending (col_arr : list nat) : Prop :=
  forall i j, i < j < length col_arr -> nth i col_arr 0 <= nth j col_arr 0.

(** Value [x] at position [i] ranks above value [y] at position [j]: it is
    greater (smaller), or a number while [y] is NaN, or neither is the better
    and it comes later (earlier). *)
Section Rank.
  Context {T : Type} {N : Num T}.
  Definition ranks_above (better : T -> T -> bool) (later : bool) (x y : T) (i j : nat) : Prop :=
    better x y = true \/ (isnan x = false /\ isnan y = true) \/
    (better y x = false /\ isnan x = isnan y /\ if later then j < i else i < j).

  (** In every column exactly [min n count] values are kept and every kept one
      ranks above every dropped one. *)
  Definition keeps_best (better : T -> T -> bool) (later : bool) (n ncols : nat) (col_arr : list nat) (vals : list T) (mask : list bool) : Prop :=
    length mask = length vals /\
    forall c, c < ncols ->
      length (filter (fun r => nth r mask false) (rows_of c col_arr)) = Nat.min n (length (rows_of c col_arr)) /\
      forall i j, In i (rows_of c col_arr) -> In j (rows_of c col_arr) ->
        nth i mask false = true -> nth j mask false = false ->
        ranks_above better later (nth i vals nan) (nth j vals nan) i j.
End Rank.

(** The (start, end) pair of column [c]: (-1, -1) when it has no records,
    otherwise its records are exactly those numbered start to end - 1. *)
Definition range_says (l : list nat) (c : nat) (p : Z * Z) : Prop :=
  if Nat.eqb (length (rows_of c l)) 0 then p = (-1, -1)%Z
  else exists a b, p = (Z.of_nat a, Z.of_nat b) /\ a < b /\ rows_of c l = seq a (b - a).

(** The requested columns with their new numbers *)
Definition numbered_cols (new_cols : list nat) : list (nat * nat) := combine (seq 0 (length new_cols)) new_cols.

(** The records of the requested columns one after the other, each with its new
    column number *)
Definition selected {A} (set_col : nat -> A -> A) (d : A) (col_arr : list nat) (records : list A) (new_cols : list nat) : list A :=
  concat (map (fun ic => map (set_col (fst ic)) (values_of d (snd ic) col_arr records)) (numbered_cols new_cols)).

(** Sorted by column, then by id *)
Definition lex_ascending (l : list (nat * nat)) : Prop :=
  forall i j, i < j < length l -> fst (nth i l (0, 0)) < fst (nth j l (0, 0)) \/
    (fst (nth i l (0, 0)) = fst (nth j l (0, 0)) /\ snd (nth i l (0, 0)) <= snd (nth j l (0, 0))).

(** Matrices as lists of rows *)
Definition shaped {A} (nr nc : nat) (m : list (list A)) : Prop := length m = nr /\ forall i, i < nr -> length (nth i m []) = nc.
Definition cell {A} (d : A) (m : list (list A)) (i c : nat) : A := nth c (nth i m []) d.
Definition cells_in (nr nc : nat) (cells : list (nat * nat)) : Prop := Forall (fun p => fst p < nr /\ snd p < nc) cells.
