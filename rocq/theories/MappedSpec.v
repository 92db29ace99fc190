(** * Vocabulary for mapped arrays *)
From Coq Require Import String ZArith Bool List Arith.
From Verif Require Import Base Num Grouper Reduce RecordsNb RecordsSpec BaseFnsSpec Wrapper WrapperSpec Mapped.
Import ListNotations.
Local Open Scope nat_scope.

(** A value with its column, its identifier and its row *)
Record Entry (V : Type) := mkEntry { e_value : V; e_col : nat; e_id : nat; e_row : option nat }.
Arguments mkEntry {V}. Arguments e_value {V}. Arguments e_col {V}. Arguments e_id {V}. Arguments e_row {V}.
Definition entry_at {V} (d : V) (a : Mapped V) (i : nat) : Entry V :=
  mkEntry (nth i (ma_values a) d) (nth i (ma_cols a) 0) (nth i (ma_ids a) 0) (option_map (fun l => nth i l 0) (ma_idx a)).
Definition entries {V} (d : V) (a : Mapped V) : list (Entry V) := map (entry_at d a) (seq 0 (length (ma_values a))).
Definition set_col {V} (c : nat) (e : Entry V) : Entry V := mkEntry (e_value e) c (e_id e) (e_row e).

Definition well_made {V} (a : Mapped V) : Prop :=
  proper (ma_wrapper a) /\ length (ma_cols a) = length (ma_values a) /\ length (ma_ids a) = length (ma_values a) /\
  (forall l, ma_idx a = Some l -> length l = length (ma_values a)) /\
  cols_below (length (w_columns (ma_wrapper a))) (ma_cols a).

(** The entries of the requested columns one column after another, with the new numbers of the columns *)
Definition of_columns {V} (es : list (Entry V)) (cs : list nat) : list (Entry V) :=
  concat (map (fun kc => map (set_col (fst kc)) (filter (fun e => Nat.eqb (e_col e) (snd kc)) es)) (numbered_cols cs)).

(** Ordered by column, or by column and then by identifier *)
Definition not_after {V} (incl_id : bool) (e e' : Entry V) : Prop :=
  e_col e < e_col e' \/ (e_col e = e_col e' /\ (incl_id = true -> e_id e <= e_id e')).
Definition same_key {V} (incl_id : bool) (c i : nat) (e : Entry V) : bool :=
  Nat.eqb (e_col e) c && (negb incl_id || Nat.eqb (e_id e) i).

(** The entries where the mask says so *)
Definition kept {A} (mask : list bool) (l : list A) : list A := map snd (filter fst (combine mask l)).

(** What is shown for: every column, or every group; [nos] is the number of the place of each column *)
Definition places (w : Wrapper) (labels : list Label) (nos : list nat) : Prop :=
  (ungrouped w /\ labels = w_columns w /\ nos = seq 0 (length (w_columns w))) \/
  (exists lens, in_groups w labels lens /\ nos = runs (seq 0 (length labels)) lens).
Definition place_of (nos : list nat) (c : nat) : nat := nth c nos 0.
(** The number of dimensions of what is shown *)
Definition shown (w : Wrapper) (d : nat) : Prop := (ungrouped w /\ w_ndim w = d) \/ (~ ungrouped w /\ grouped_ndim w = Ok d).
(** The values at a place, in order *)
Definition values_at {V} (d : V) (a : Mapped V) (nos : list nat) (p : nat) : list V :=
  map (fun e => e_value e) (filter (fun e => Nat.eqb (place_of nos (e_col e)) p) (entries d a)).
Definition rows_at {V} (d : V) (a : Mapped V) (nos : list nat) (p : nat) : list (option nat) :=
  map (fun e => e_row e) (filter (fun e => Nat.eqb (place_of nos (e_col e)) p) (entries d a)).
(** One value per place: a Series under the labels, or the value *)
Definition one_each {V} (d : nat) (labels : list Label) (xs : list V) (r : Pd V) : Prop :=
  (d = 2 /\ r = Series xs labels) \/ (d = 1 /\ exists x, xs = [x] /\ r = Scalar x).

(** Two entries of one place in one row *)
Definition clash {V} (d : V) (a : Mapped V) (nos : list nat) : Prop :=
  exists i j, i < j < length (entries d a) /\
    forall e e', nth_error (entries d a) i = Some e -> nth_error (entries d a) j = Some e' ->
      e_row e = e_row e' /\ place_of nos (e_col e) = place_of nos (e_col e').
(** A Series, or a DataFrame under the labels *)
Definition framed {V} (d : nat) (index labels : list Label) (m : list (list V)) : Pd V :=
  if Nat.eqb d 1 then Series (concat m) index else DataFrame (Mat (length labels) m) index labels.
(** The cells of an array, column by column *)
Definition by_column (n_rows n_cols : nat) : list (nat * nat) :=
  concat (map (fun c => map (fun r => (r, c)) (seq 0 n_rows)) (seq 0 n_cols)).
