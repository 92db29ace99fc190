(** * Vocabulary for broadcasting *)
From Coq Require Import String ZArith Bool List Arith.
From Verif Require Import Base Grouper Reshape IndexFns IndexSpec Broadcast.
Import ListNotations.
Local Open Scope nat_scope.

(** ** Arguments *)
(** An index with at least one level, all of them of the same length *)
Definition proper_index (x : Index) : Prop := well_formed x /\ levels_of x <> [].
(** Labels and values have the same shape. *)
Definition consistent {A} (x : BArg A) : Prop :=
  match x with
  | Raw (A2 c rows) => Forall (fun r => length r = c) rows
  | Raw _ => True
  | Ser index name l => proper_index index /\ index_len index = length l /\ name <> Some []
  | Frame index columns rows =>
      proper_index index /\ proper_index columns /\ index_len index = length rows /\ Forall (fun r => length r = index_len columns) rows
  end.

(** The axes of an argument *)
Definition axes {A} (x : BArg A) : list nat :=
  match x with
  | Raw (A0 _) => []
  | Raw (A1 l) | Ser _ _ l => [length l]
  | Raw (A2 c rows) => [length rows; c]
  | Frame _ columns rows => [length rows; index_len columns]
  end.

(** [two]: some argument, or the requested shape, has two axes. *)
Definition two_axes {A} (shape : option (list nat)) (args : list (BArg A)) : bool :=
  existsb (fun x => Nat.ltb 1 (length (axes x))) args || match shape with Some s => Nat.ltb 1 (length s) | None => false end.

(** Next to data with two axes a Series is a column and a one-dimensional
    array is a row. *)
Definition height {A} (two : bool) (x : BArg A) : nat :=
  match x with
  | Raw (A0 _) => 1
  | Raw (A1 l) => if two then 1 else length l
  | Ser _ _ l => length l
  | Raw (A2 _ rows) | Frame _ _ rows => length rows
  end.
Definition width {A} (two : bool) (x : BArg A) : nat :=
  match x with
  | Raw (A0 _) | Ser _ _ _ => 1
  | Raw (A1 l) => if two then length l else 1
  | Raw (A2 c _) => c
  | Frame _ columns _ => index_len columns
  end.

(** The position used on an axis of [n] elements: the only one there is, or
    the one asked for *)
Definition pick (n i : nat) : nat := if Nat.eqb n 1 then 0 else i.
(** The element of an argument at row [i] and column [j] *)
Definition seen {A} (two : bool) (x : BArg A) (i j : nat) : option A :=
  match x with
  | Raw (A0 v) => Some v
  | Raw (A1 l) => nth_error l (pick (length l) (if two then j else i))
  | Ser _ _ l => nth_error l (pick (length l) i)
  | Raw (A2 c rows) => match nth_error rows (pick (length rows) i) with Some r => nth_error r (pick c j) | None => None end
  | Frame _ columns rows =>
      match nth_error rows (pick (length rows) i) with Some r => nth_error r (pick (index_len columns) j) | None => None end
  end.

(** ** Shapes *)
(** One size for an axis: every argument has it or has one element there. *)
Definition common_size (sizes : list nat) (d : nat) : Prop :=
  (forall s, In s sizes -> s = d \/ s = 1) /\ (d = 1 \/ In d sizes).
(** The number of rows and columns of a shape *)
Definition rows_in (shape : list nat) : nat := nth 0 shape 1.
Definition columns_in (shape : list nat) : nat := nth 1 shape 1.

(** ** Labels *)
(** The labels of an argument along an axis: rows or columns *)
Definition labels_on {A} (columns : bool) (x : BArg A) : list Index :=
  match x with
  | Raw _ => []
  | Ser index name _ =>
      if columns then
        [match name with
         | None => Plain (mkLevel None [LInt 0])
         | Some [l] => Plain (mkLevel None [l])
         | Some ls => Multi (map (fun l => mkLevel None [l]) ls)
         end]
      else [index]
  | Frame index cols _ => [if columns then cols else index]
  end.
Definition all_labels {A} (columns : bool) (args : list (BArg A)) : list Index := flat_map (labels_on columns) args.

(** No argument has to be aligned: pandas objects with more than one label on
    an axis have the same number of labels there. *)
Definition same_numbers {A} (columns : bool) (args : list (BArg A)) : Prop :=
  forall x y, In x (all_labels columns args) -> In y (all_labels columns args) -> 1 < index_len x -> 1 < index_len y -> index_len x = index_len y.
Definition no_alignment {A} (o : BOpts) (args : list (BArg A)) : Prop :=
  (bo_align_index o = true -> same_numbers false args) /\ (bo_align_columns o = true -> same_numbers true args).

(** An unnamed range 0, 1, ... *)
Definition is_range (l : Level) : Prop := lv_name l = None /\ lv_values l = map (fun k => LInt (Z.of_nat k)) (seq 0 (length (lv_values l))).
Definition default_index (x : Index) : Prop := exists l, x = Plain l /\ is_range l.
(** A level that tells nothing apart: an unnamed range, or one label for all
    of several positions without a name *)
Definition uninformative (l : Level) : Prop :=
  is_range l \/ (lv_name l = None /\ 1 < length (lv_values l) /\ exists v, Forall (eq v) (lv_values l)).
(** A level brought to [n] positions: its only label is repeated. *)
Definition stretch_level (n : nat) (l : Level) : Level :=
  if Nat.eqb (length (lv_values l)) n then l else mkLevel (lv_name l) (flat_map (fun v => repeat v n) (lv_values l)).

(** The levels of the result are levels of the sources, in order, brought to
    [n] positions; an unnamed range may take the place of one. *)
Inductive drawn_from (n : nat) : list Level -> list Level -> Prop :=
| drawn_nil : drawn_from n [] []
| drawn_skip : forall rs s ss, drawn_from n rs ss -> drawn_from n rs (s :: ss)
| drawn_take : forall r rs s ss, (r = stretch_level n s \/ is_range r) -> drawn_from n rs ss -> drawn_from n (r :: rs) (s :: ss).

(** ** Alignment *)
(** [l'] holds the elements of [l] at the positions [ps]. *)
Definition taken {A} (ps : list nat) (l l' : list A) : Prop :=
  length l' = length ps /\ forall j p, nth_error ps j = Some p -> exists v, nth_error l p = Some v /\ nth_error l' j = Some v.
(** Columns are taken with their labels. *)
Definition columns_taken {A} (ps : list nat) (x x' : BArg A) : Prop :=
  exists i c rows c' rows', x = Frame i c rows /\ x' = Frame i c' rows' /\
    Forall2 (fun l l' => lv_name l' = lv_name l /\ taken ps (lv_values l) (lv_values l')) (levels_of c) (levels_of c') /\
    Forall2 (taken ps) rows rows'.
(** A frame with fewer columns than the widest ones takes the place of one of
    them: [ps] lists columns that agree with those of [t], provided each has
    one that does. Everything else stays. *)
Definition aligned_to {A} (args : list (BArg A)) (x x' : BArg A) : Prop :=
  let narrow := exists i c rows t, x = Frame i c rows /\ 1 < index_len c /\ In t (all_labels true args) /\ index_len c < index_len t in
  (~ narrow -> x' = x) /\
  (narrow -> exists i c rows t ps, x = Frame i c rows /\ In t (all_labels true args) /\
     (forall w, In w (all_labels true args) -> index_len w <= index_len t) /\
     columns_taken ps x x' /\ (exists l1 l2, common_levels c t l1 l2) /\
     ((forall k, k < index_len t -> exists p, p < index_len c /\ agrees c t p k) ->
        length ps = index_len t /\ forall k, k < index_len t -> exists p, nth_error ps k = Some p /\ agrees c t p k)).

(** Arguments whose indexes agree when ranges are left out: all indexes are
    the same, or all that are not ranges are the same; of [n] positions. *)
Definition agreeing (n : nat) (indexes : list Index) : Prop :=
  indexes = [] \/
  (exists x, Forall (eq x) indexes /\ index_len x = n) \/
  ((exists x y, In x indexes /\ In y indexes /\ x <> y) /\ forall x, In x indexes -> ~ default_index x -> index_len x = n /\
     forall y, In y indexes -> ~ default_index y -> x = y).

(** The options in vectorbt's settings *)
Definition default_stack : StackOpts := mkStackOpts true true false true true.
Definition default_opts : BOpts := mkBOpts None None None false true FromStrict FromStack (fun _ => false) default_stack.
(** The same options with no alignment *)
Definition without_alignment (o : BOpts) : BOpts :=
  mkBOpts (bo_shape o) (bo_to_pd o) (bo_to_frame o) false false (bo_index_from o) (bo_columns_from o) (bo_keep_raw o) (bo_stack o).
(** The rule for the labels of an axis ([ax]: columns) and the size of it *)
Definition from_on (o : BOpts) (ax : bool) : IndexFrom := if ax then bo_columns_from o else bo_index_from o.
Definition size_on (c : bool) (shape : list nat) : nat := if c then columns_in shape else rows_in shape.
(** Rules that name no particular labels *)
Definition rule (f : IndexFrom) : Prop := f = FromStrict \/ f = FromStack \/ f = FromReset.
(** Stacking may drop levels that tell nothing apart. *)
Definition lossy (o : StackOpts) : Prop := so_drop_red o = true \/ so_ignore_default o = true.
(** The name of a Series plays no part in the columns. *)
Definition ignored {A} (o : StackOpts) (c : bool) (x : BArg A) : bool := c && is_series x && so_ignore_names o.
