(** * Vocabulary for functions applied to parts of an array (C90 to C92) *)
From Coq Require Import ZArith Bool List Arith.
From Verif Require Import Base Num Reduce.
Import ListNotations.

(** Every row has as many values as the array has columns. *)
Definition rectangular {T} (a : mat T) : Prop := Forall (fun r => length r = ncols a) (rows a).
(** The array has n rows and m columns. *)
Definition shaped {T} (n m : nat) (a : mat T) : Prop := nrows a = n /\ ncols a = m /\ rectangular a.
(** The value in row i and column c *)
Definition val {T} (d : T) (a : mat T) (i c : nat) : T := nth c (nth i (rows a) []) d.

(** Two arrays agree in all cells. *)
Definition same_cells {T} (d : T) (a b : mat T) : Prop :=
  nrows a = nrows b /\ ncols a = ncols b /\ forall i c, i < nrows a -> c < ncols a -> val d a i c = val d b i c.

Section Windows.
  Context {T : Type} {N : Num T}.
  (** The values of column c in all rows, from the first to the last *)
  Definition column (a : mat T) (c : nat) : list T := map (fun i => val nan a i c) (seq 0 (nrows a)).
  (** The values of column c in the last [w] rows up to row i, fewer at the top *)
  Definition last_values (a : mat T) (w i c : nat) : list T :=
    map (fun j => val nan a j c) (seq (i + 1 - w) (Nat.min w (i + 1))).
  (** The number of values that are not NaN *)
  Definition present (l : list T) : nat := length (filter (fun x => negb (isnan x)) l).
  (** How many values are asked for: [minp], or the whole window *)
  Definition asked (window : nat) (minp : option nat) : nat := match minp with Some m => m | None => window end.
  (** No value of the array is missing. *)
  Definition complete (a : mat T) : Prop := forall i c, i < nrows a -> c < ncols a -> isnan (val nan a i c) = false.
  (** The last [w] rows up to row i, with all columns *)
  Definition last_rows (a : mat T) (w i : nat) : mat T :=
    Mat (ncols a) (map (fun j => nth j (rows a) []) (seq (i + 1 - w) (Nat.min w (i + 1)))).
  (** A single value stands for a row of that value. *)
  Definition stands_for {U} (m : nat) (o : out_of U) (r : list U) : Prop :=
    length r = m /\ match o with
                    | Single x => forall c y, nth_error r c = Some y -> y = x
                    | Several xs => xs = r \/ exists x, xs = [x] /\ forall c y, nth_error r c = Some y -> y = x
                    end.
  (** Rows 0 to k-1 of both arrays are the same. *)
  Definition same_until {U} (k : nat) (a b : mat U) : Prop := ncols a = ncols b /\ firstn k (rows a) = firstn k (rows b).
End Windows.

(** The first column of group g, when the groups have these numbers of columns *)
Definition first_col (lens : list nat) (g : nat) : nat := fold_right Nat.add 0 (firstn g lens).
(** The groups share out the columns of the array. *)
Definition groups_of {T} (a : mat T) (lens : list nat) : Prop := fold_right Nat.add 0 lens = ncols a.

Section Groups.
  Context {T : Type}.
  (** m holds the columns of group g of a. *)
  Definition is_group (d : T) (a : mat T) (lens : list nat) (g : nat) (m : mat T) : Prop :=
    shaped (nrows a) (nth g lens 0) m /\
    forall i k, i < nrows a -> k < nth g lens 0 -> val d m i k = val d a i (first_col lens g + k).
  (** xs holds the values of group g of a, one after another: row by row if
      [by_rows], else column by column. *)
  Definition is_flat_group (d : T) (by_rows : bool) (a : mat T) (lens : list nat) (g : nat) (xs : list T) : Prop :=
    length xs = nrows a * nth g lens 0 /\
    forall i k, i < nrows a -> k < nth g lens 0 ->
      nth (if by_rows then i * nth g lens 0 + k else k * nrows a + i) xs d = val d a i (first_col lens g + k).
End Groups.

(** How infinity compares *)
Definition infinity_on_top {T} (N : Num T) : Prop :=
  isnan pinf = false /\ isnan ninf = false /\ (forall x : T, ltb pinf x = false) /\ (forall x : T, ltb x ninf = false).

(** Row i', column c' is looked at before row i, column c. *)
Definition seen_before (by_rows : bool) (i' c' i c : nat) : Prop :=
  if by_rows then i' < i \/ i' = i /\ c' < c else c' < c \/ c' = c /\ i' < i.

Section Best.
  Context {T : Type} {N : Num T}.
  (** The value in row i, column c is a number and no value in the k columns from [c0]
      on is [better]; those seen before are worse or missing. *)
  Definition first_best (better : T -> T -> bool) (by_rows : bool) (a : mat T) (c0 k i c : nat) : Prop :=
    i < nrows a /\ c0 <= c < c0 + k /\ isnan (val nan a i c) = false /\
    forall i' c', i' < nrows a -> c0 <= c' < c0 + k ->
      better (val nan a i' c') (val nan a i c) = false /\
      (seen_before by_rows i' c' i c -> isnan (val nan a i' c') = true \/ better (val nan a i c) (val nan a i' c') = true).
  (** Some value in these columns is a number better than [limit]. *)
  Definition has_better (better : T -> T -> bool) (limit : T) (a : mat T) (c0 k : nat) : Prop :=
    exists i c, i < nrows a /\ c0 <= c < c0 + k /\ better (val nan a i c) limit = true.
  (** These columns hold no number. *)
  Definition all_missing (a : mat T) (c0 k : nat) : Prop :=
    forall i c, i < nrows a -> c0 <= c < c0 + k -> isnan (val nan a i c) = true.
End Best.

(** The number of cells of group g whose value is u *)
Definition times_in_group (codes : mat nat) (lens : list nat) (g u : nat) : nat :=
  length (filter (fun ki => Nat.eqb (val 0 codes (snd ki) (first_col lens g + fst ki)) u)
    (list_prod (seq 0 (nth g lens 0)) (seq 0 (nrows codes)))).
