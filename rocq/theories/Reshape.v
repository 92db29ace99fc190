(** * Model of flexible indexing (base/reshape_fns.py) *)
From Coq Require Import Bool List Arith ZArith.
From Verif Require Import Base.
Import ListNotations.
Local Open Scope nat_scope.

(** NumPy arrays of at most two dimensions: a 2-dim array is the number of
    its columns and its rows. *)
Inductive Arr (A : Type) := A0 (x : A) | A1 (l : list A) | A2 (ncols : nat) (rows : list (list A)).
Arguments A0 {A} x.
Arguments A1 {A} l.
Arguments A2 {A} ncols rows.

(** The positions are [None] where the code has -1 (take the requested one). *)
(** base/reshape_fns.py:951-980 flex_choose_i_and_col_nb *)
Definition flex_choose_i_and_col_nb {A} (a : Arr A) (flex_2d : bool) : option nat * option nat :=
  match a with
  | A0 _ => (Some 0, Some 0)
  | A1 l =>
      if flex_2d then (Some 0, if Nat.eqb (List.length l) 1 then Some 0 else None)
      else (if Nat.eqb (List.length l) 1 then Some 0 else None, Some 0)
  | A2 ncols rows =>
      (if Nat.eqb (List.length rows) 1 then Some 0 else None, if Nat.eqb ncols 1 then Some 0 else None)
  end.

(** base/reshape_fns.py:984-996 flex_select_nb; [None] is an access outside
    the array (Numba does not check bounds). *)
Definition flex_select_nb {A} (a : Arr A) (i col : nat) (flex_i flex_col : option nat) (flex_2d : bool) : option A :=
  let fi := match flex_i with None => i | Some k => k end in
  let fc := match flex_col with None => col | Some k => k end in
  match a with
  | A0 x => Some x
  | A1 l => if flex_2d then nth_error l fc else nth_error l fi
  | A2 _ rows => match nth_error rows fi with Some r => nth_error r fc | None => None end
  end.

(** base/reshape_fns.py:1000-1003 flex_select_auto_nb *)
Definition flex_select_auto_nb {A} (a : Arr A) (i col : nat) (flex_2d : bool) : option A :=
  let '(fi, fc) := flex_choose_i_and_col_nb a flex_2d in flex_select_nb a i col fi fc flex_2d.
