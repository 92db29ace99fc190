(** * Vocabulary for array shapes, column groups, splits and indexes *)
From Coq Require Import String ZArith QArith Qround Bool List Arith Sorted.
From Verif Require Import Base Reshape Grouper Splitters.
Import ListNotations.
Local Open Scope list_scope.
Local Open Scope nat_scope.

(** ** NumPy broadcasting *)
(** An axis of length 1 is repeated, an axis of the right length is kept. *)
Definition stretch {A} (n : nat) (l : list A) : option (list A) :=
  if Nat.eqb (List.length l) n then Some l else match l with [x] => Some (repeat x n) | _ => None end.
Fixpoint all_some {A} (l : list (option A)) : option (list A) :=
  match l with
  | [] => Some []
  | None :: _ => None
  | Some x :: l' => match all_some l' with Some t => Some (x :: t) | None => None end
  end.
(** The 2-dim array an array stands for: a vector is a row (one value per
    column) or, otherwise, a column (one value per row). *)
Definition as_matrix {A} (vector_is_row : bool) (a : Arr A) : list (list A) :=
  match a with
  | A0 x => [[x]]
  | A1 l => if vector_is_row then [l] else map (fun x => [x]) l
  | A2 _ rows => rows
  end.
(** np.broadcast_to(a, (R, C)) *)
Definition np_broadcast_to {A} (vector_is_row : bool) (a : Arr A) (R C : nat) : option (list (list A)) :=
  match all_some (map (stretch C) (as_matrix vector_is_row a)) with Some rows => stretch R rows | None => None end.
Definition is_array {A} (a : Arr A) : Prop :=
  match a with A2 ncols rows => Forall (fun r => List.length r = ncols) rows | _ => True end.
Definition element {A} (m : list (list A)) (i col : nat) : option A :=
  match nth_error m i with Some r => nth_error r col | None => None end.

(** ** Column groups *)
(** [x1] repeated [n1] times, then [x2] repeated [n2] times, ... *)
Definition runs {A} (xs : list A) (ns : list nat) : list A :=
  concat (map (fun p => repeat (fst p) (snd p)) (combine xs ns)).
(** Two labelings put the same columns together. *)
Definition same_partition {A B} (a : list A) (b : list B) : Prop :=
  length a = length b /\
  forall i j, i < length a -> j < length a ->
    (nth_error a i = nth_error a j <-> nth_error b i = nth_error b j).
Fixpoint total (l : list nat) : nat := match l with [] => 0 | x :: t => x + total t end.

(** ** Ranges *)
(** The integers from [a] up to but excluding [a + n] *)
Fixpoint count_from (a : Z) (n : nat) : list Z := match n with O => [] | S k => a :: count_from (a + 1)%Z k end.
(** All positions from the first to the last, both included *)
Definition positions (first last : Z) : list Z := count_from first (Z.to_nat (last - first + 1)).
Definition is_fraction (q : Q) : Prop := (0 < q)%Q /\ (q < 1)%Q.
Definition is_whole (q : Q) (z : Z) : Prop := (q == inject_Z z)%Q.
(** A set length asked for a range: a fraction is rounded down. *)
Definition asked_length (q : Q) (range_len : Z) (z : Z) : Prop :=
  (is_fraction q /\ z = Qfloor (q * inject_Z range_len)) \/ (~ is_fraction q /\ is_whole q z).
(** A length that can be asked for: a fraction or a positive whole number *)
Definition valid_length (q : Q) : Prop := is_fraction q \/ exists z, (0 < z)%Z /\ is_whole q z.
Fixpoint sum_of (l : list Z) : Z := match l with [] => 0%Z | x :: t => (x + sum_of t)%Z end.
Definition length_z {A} (l : list A) : Z := Z.of_nat (length l).
(** The arguments that apply to range [i] *)
Definition sets_for (lens : PerRange (list Q)) (i : nat) : list Q := match lens with Same q => q | Each l => nth i l [] end.
Definition left_to_right_for (ltr : PerRange bool) (i : nat) : bool := match ltr with Same b => b | Each l => nth i l true end.
(** The sets cut from the positions [s] to [e]: consecutive, non-empty, of
    the asked lengths, the rest going to the last or the first set. *)
Definition cuts (qs : list Q) (left_to_right : bool) (s e : Z) (sets : list (list Z)) : Prop :=
  concat sets = positions s e /\ Forall (fun l => l <> []) sets /\
  exists zs rest, Forall2 (fun q z => asked_length q (e - s + 1) z) qs zs /\
    map length_z sets = (if left_to_right then zs ++ [rest] else rest :: zs).
(** [n] ranges chosen from all, in order, from the first to the last; all of
    them when no number is given *)
Definition chosen_from {B} (R : B -> B -> Prop) (n : option nat) (all chosen : list B) : Prop :=
  match n with
  | None => chosen = all
  | Some k => length chosen = k /\ (forall x, In x chosen -> In x all) /\ (StronglySorted R all -> StronglySorted R chosen) /\
    (1 <= k -> hd_error chosen = hd_error all)%nat /\ (2 <= k -> hd_error (rev chosen) = hd_error (rev all))%nat
  end.
Definition valid_sets (lens : PerRange (list Q)) : Prop := forall i, Forall valid_length (sets_for lens i).
(** What a splitter yields: the sets of every chosen range *)
Definition yields (lens : PerRange (list Q)) (ltr : PerRange bool) (ranges : list (Z * Z)) (tuples : list (list (list Z))) : Prop :=
  length tuples = length ranges /\
  forall i s e sets, nth_error ranges i = Some (s, e) -> nth_error tuples i = Some sets ->
    cuts (sets_for lens i) (left_to_right_for ltr i) s e sets.
(** The length of the windows: as asked for, or an n-th of the data *)
Definition window_asked (len : nat) (n : option nat) (window_len : option Q) (w : Z) : Prop :=
  match window_len, n with
  | Some q, _ => asked_length q (Z.of_nat len) w
  | None, Some k => w = Z.of_nat (len / k)
  | None, None => False
  end.

(** ** Changing groups *)
(** The label that a [group_by] argument gives to each of [n] columns, if it
    asks for groups at all *)
Definition labels_of (n : nat) (g : GroupBy) : option (list (option Label)) :=
  match g with GNone | GFalse => None | GTrue => Some (repeat (Some (LStr "group"%string)) n) | GIndex l | GSeq l => Some l end.

