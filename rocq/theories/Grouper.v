(** * Model of column grouping (base/column_grouper.py)

    Group labels are integers, strings or missing. Selecting levels of a
    multi-index by position or name is not modelled: the labels are given. *)
From Coq Require Import String ZArith Bool List Arith.
From Verif Require Import Base.
Import ListNotations.
Local Open Scope string_scope.
Local Open Scope list_scope.
Local Open Scope nat_scope.

(** ** Group lengths *)
(** base/column_grouper.py:76-98, the loop: the bar that is the last of the
    array is the one with nothing after it. *)
Fixpoint group_lens_loop (groups : list Z) (last_group : Z) (group_len : nat) (result : list nat) : res (list nat) :=
  match groups with
  | [] => Ok result
  | cur_group :: rest =>
      raise_if (Z.ltb cur_group last_group) (ValueError "Groups must be coherent and sorted (such as [0, 0, 1, 2, 2, ...])") (
      let '(result, group_len) :=
        if negb (Z.eqb cur_group last_group) then
          if negb (Z.eqb last_group (-1)) then (result ++ [group_len], 0) else (result, group_len)
        else (result, group_len) in
      let group_len := group_len + 1 in
      match rest with
      | [] => Ok (result ++ [group_len])
      | _ => group_lens_loop rest cur_group group_len result
      end)
  end.

(** base/column_grouper.py:73-96 get_group_lens_nb *)
Definition get_group_lens_nb (groups : list Z) : res (list nat) := group_lens_loop groups (-1) 0 [].

(** utils/array_.py:12-14 is_sorted *)
Fixpoint is_sorted (a : list Z) : bool :=
  match a with x :: ((y :: _) as t) => Z.leb x y && is_sorted t | _ => true end.

(** ** Labels *)
Inductive Label := LInt (z : Z) | LStr (s : string).
Definition label_eqb (a b : Label) : bool :=
  match a, b with LInt x, LInt y => Z.eqb x y | LStr x, LStr y => String.eqb x y | _, _ => false end.
Fixpoint index_of (x : Label) (l : list Label) : option nat :=
  match l with [] => None | y :: l' => if label_eqb x y then Some 0 else option_map S (index_of x l') end.

(** pd.factorize: codes in order of first appearance, -1 for a missing label. *)
Definition factorize_step (s : list Z * list Label) (x : option Label) : list Z * list Label :=
  let '(codes, uniques) := s in
  match x with
  | None => (codes ++ [(-1)%Z], uniques)
  | Some x =>
      match index_of x uniques with
      | Some k => (codes ++ [Z.of_nat k], uniques)
      | None => (codes ++ [Z.of_nat (List.length uniques)], uniques ++ [x])
      end
  end.
Definition factorize (labels : list (option Label)) : list Z * list Label := fold_left factorize_step labels ([], []).

(** What can be passed as [group_by]: None, False, True, a pandas index, or
    another sequence with one label per column. *)
Inductive GroupBy := GNone | GFalse | GTrue | GIndex (l : list (option Label)) | GSeq (l : list (option Label)).
(** What it resolves to *)
Inductive Resolved := RNone | RFalse | RIndex (l : list (option Label)).

(** base/column_grouper.py:25-51 group_by_to_index, [n] columns; level selection not modelled *)
Definition group_by_to_index (n : nat) (g : GroupBy) : res Resolved :=
  let check l := raise_if (negb (Nat.eqb (List.length l) n)) (ValueError "group_by and index must have the same length") (Ok (RIndex l)) in
  match g with
  | GNone => Ok RNone
  | GFalse => Ok RFalse
  | GTrue => check (repeat (Some (LStr "group")) n)
  | GIndex l | GSeq l => check l
  end.

Definition of_resolved (r : Resolved) : GroupBy := match r with RNone => GNone | RFalse => GFalse | RIndex l => GIndex l end.

(** base/column_grouper.py:54-69 get_groups_and_index, the groups *)
Definition get_groups (n : nat) (g : GroupBy) : res (list Z) :=
  match g with
  | GNone | GFalse => Ok (map Z.of_nat (seq 0 n))
  | _ => let! r := group_by_to_index n g in
         match r with RIndex l => Ok (fst (factorize l)) | _ => Ok (map Z.of_nat (seq 0 n)) end
  end.

(** ** The grouper *)
(** base/column_grouper.py:99-310 ColumnGrouper.__init__ *)
Record Grouper := mkGrouper {
  g_columns : nat; g_group_by : option (list (option Label));
  g_allow_enable : bool; g_allow_disable : bool; g_allow_modify : bool }.

Definition make_grouper (n : nat) (g : GroupBy) (enable disable modify : bool) : res Grouper :=
  let! r := group_by_to_index n g in
  Ok (mkGrouper n (match r with RIndex l => Some l | _ => None end) enable disable modify).

(** base/column_grouper.py:176-182 is_grouped *)
Definition is_grouped (s : Grouper) (g : GroupBy) : bool :=
  match g with
  | GFalse => false
  | GNone => match g_group_by s with None => false | Some _ => true end
  | _ => true
  end.
Definition self_grouped (s : Grouper) : bool := match g_group_by s with None => false | Some _ => true end.
(** base/column_grouper.py:184-186 is_grouping_enabled, 188-190 is_grouping_disabled *)
Definition is_grouping_enabled (s : Grouper) (g : GroupBy) : bool := negb (self_grouped s) && is_grouped s g.
Definition is_grouping_disabled (s : Grouper) (g : GroupBy) : bool := self_grouped s && negb (is_grouped s g).

Definition olabel_eqb (a b : option Label) : bool :=
  match a, b with None, None => true | Some x, Some y => label_eqb x y | _, _ => false end.
Fixpoint labels_eqb (a b : list (option Label)) : bool :=
  match a, b with [], [] => true | x :: a', y :: b' => olabel_eqb x y && labels_eqb a' b' | _, _ => false end.
Fixpoint codes_eqb (a b : list Z) : bool :=
  match a, b with [], [] => true | x :: a', y :: b' => Z.eqb x y && codes_eqb a' b' | _, _ => false end.

(** base/column_grouper.py:193-207 is_grouping_modified *)
Definition is_grouping_modified (s : Grouper) (g : GroupBy) : res bool :=
  match g, g_group_by s with
  | GNone, _ => Ok false
  | GFalse, None => Ok false
  | _, own =>
      let! r := group_by_to_index (g_columns s) g in
      match r, own with
      | RIndex l, Some own =>
          if negb (labels_eqb l own) then Ok (negb (codes_eqb (fst (factorize l)) (fst (factorize own)))) else Ok false
      | _, _ => Ok true
      end
  end.

(** base/column_grouper.py:219-225 is_group_count_changed *)
Definition is_group_count_changed (s : Grouper) (g : GroupBy) : bool :=
  match g, g_group_by s with
  | GNone, _ => false
  | GFalse, None => false
  | GIndex l, Some own => negb (Nat.eqb (List.length l) (List.length own))
  | _, _ => true
  end.

(** base/column_grouper.py:227-250 check_group_by with the restrictions of the grouper *)
Definition check_group_by (s : Grouper) (g : GroupBy) : res unit :=
  if is_grouping_enabled s g then
    raise_if (negb (g_allow_enable s)) (ValueError "Enabling grouping is not allowed") (Ok tt)
  else if is_grouping_disabled s g then
    raise_if (negb (g_allow_disable s)) (ValueError "Disabling grouping is not allowed") (Ok tt)
  else
    let! m := is_grouping_modified s g in
    if m then raise_if (negb (g_allow_modify s)) (ValueError "Modifying groups is not allowed") (Ok tt) else Ok tt.

(** base/column_grouper.py:252-259 resolve_group_by *)
Definition resolve_group_by (s : Grouper) (g : GroupBy) : res Resolved :=
  let g := match g with GNone => match g_group_by s with None => GNone | Some l => GIndex l end | _ => g end in
  let g := match g, g_group_by s with GFalse, None => GNone | _, _ => g end in
  let! _ := check_group_by s g in
  group_by_to_index (g_columns s) g.

(** base/column_grouper.py:262-265 get_groups_and_columns, the groups *)
Definition grouper_groups (s : Grouper) (g : GroupBy) : res (list Z) :=
  let! r := resolve_group_by s g in get_groups (g_columns s) (of_resolved r).

(** base/column_grouper.py:276-280 is_sorted, 283-293 get_group_lens *)
Definition get_group_lens (s : Grouper) (g : GroupBy) : res (list nat) :=
  let! r := resolve_group_by s g in
  let! groups := grouper_groups s (of_resolved r) in
  raise_if (negb (is_sorted groups)) (ValueError "group_by must lead to groups that are coherent and sorted") (
  let! r := resolve_group_by s g in
  match r with
  | RNone | RFalse => Ok (repeat 1 (g_columns s))
  | RIndex _ => let! groups := grouper_groups s (of_resolved r) in get_group_lens_nb groups
  end).

(** np.cumsum *)
Fixpoint cumsum (acc : nat) (l : list nat) : list nat := match l with [] => [] | x :: l' => (acc + x) :: cumsum (acc + x) l' end.
Definition minus_each (a b : list nat) : list nat := map (fun p => fst p - snd p) (combine a b).
(** base/column_grouper.py:301-304 get_group_start_idxs, 307-310 get_group_end_idxs *)
Definition get_group_start_idxs (lens : list nat) : list nat := minus_each (cumsum 0 lens) lens.
Definition get_group_end_idxs (lens : list nat) : list nat := cumsum 0 lens.
