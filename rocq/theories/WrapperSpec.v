(** * Vocabulary for indexing wrapped arrays *)
From Coq Require Import String ZArith Bool List Arith.
From Verif Require Import Base Grouper Reduce Wrapper BaseFnsSpec.
Import ListNotations.
Local Open Scope nat_scope.

(** What pandas can take out of an object with that many rows and columns *)
Definition fits (n_rows n_cols : nat) (p : Pick) : Prop :=
  match p with
  | PFrame rs cs index columns => length index = length rs /\ length columns = length cs /\
      Forall (fun r => r < n_rows) rs /\ Forall (fun c => c < n_cols) cs
  | PSeries cells index => length index = length cells /\ Forall (fun q => fst q < n_rows /\ snd q < n_cols) cells
  | PScalar r c => r < n_rows /\ c < n_cols
  end.

(** array[rows, columns] of NumPy as an array with two dimensions: one row becomes one column *)
Definition sub_array {V} (a : nat -> nat -> V) (rows cols : Sel) : mat V :=
  match rows with
  | Many rs => Mat (length (to_1d cols)) (map (fun r => map (fun c => a r c) (to_1d cols)) rs)
  | One r => Mat 1 (map (fun c => [a r c]) (to_1d cols))
  end.

(** What is not refused: a frame with rows and columns, or two or more different cells of one column or row;
    of a Series anything but a single value *)
Definition allowed (ndim : nat) (p : Pick) : Prop :=
  if Nat.eqb ndim 1 then match p with PSeries _ _ => True | _ => False end
  else match p with
       | PFrame rs cs _ _ => rs <> [] /\ cs <> []
       | PSeries cells _ => exists r c, In (r, c) cells /\
           ((Forall (fun q => snd q = c) cells /\ exists r', In (r', c) cells /\ r' <> r) \/
            (Forall (fun q => fst q = r) cells /\ exists c', In (r, c') cells /\ c' <> c))
       | PScalar _ _ => False
       end.

(** A wrapper as it can be made *)
Definition proper (w : Wrapper) : Prop :=
  (exists g e d m, make_grouper (length (w_columns w)) g e d m = Ok (w_grouper w)) /\
  (w_ndim w = 1 \/ w_ndim w = 2) /\ (w_ndim w = 1 -> length (w_columns w) = 1).

(** Columns are grouped: the first [lens_1] columns under label [us_1], then the next ... *)
Definition in_groups (w : Wrapper) (us : list Label) (lens : list nat) : Prop :=
  NoDup us /\ length us = length lens /\ Forall (fun k => 1 <= k) lens /\
  g_group_by (w_grouper w) = Some (map Some (runs us lens)).

(** The columns of group number [g], of several groups one after another *)
Definition columns_of_group (lens : list nat) (g : nat) : list nat := seq (total (firstn g lens)) (nth g lens 0).
Definition columns_of_groups (lens : list nat) (gs : list nat) : list nat := concat (map (columns_of_group lens) gs).

Definition picked (p : ColPick) : list nat := match p with CSeries cs _ => cs | CScalar c => [c] end.
Definition picked_labels (columns : list Label) (p : ColPick) : list Label :=
  match p with CSeries _ labels => labels | CScalar c => [label_at columns c] end.
Definition col_fits (n_cols : nat) (p : ColPick) : Prop :=
  match p with CSeries cs labels => length labels = length cs /\ Forall (fun c => c < n_cols) cs | CScalar c => c < n_cols end.

(** The cells of one row, taken as a Series, lie in different columns. *)
Definition turns (p : Pick) : Prop :=
  match p with PSeries cells _ => exists q q', In q cells /\ In q' cells /\ snd q <> snd q' | _ => False end.
(** All rows of the columns picked *)
Definition whole_columns (index columns : list Label) (p : ColPick) : Pick :=
  match p with
  | CSeries cs labels => PFrame (seq 0 (length index)) cs index labels
  | CScalar c => PSeries (map (fun r => (r, c)) (seq 0 (length index))) index
  end.
(** The labels by which the columns of a wrapper are grouped, if they are *)
Definition grouping (w : Wrapper) : option (list (option Label)) := g_group_by (w_grouper w).
Definition ungrouped (w : Wrapper) : Prop := grouping w = None.
