(** * What it means for Rust records to carry the ranges of the Numba kernels *)
From Coq Require Import ZArith List.
From Verif Require Import SignalsNb RustSigOps.
Import ListNotations.
Open Scope list_scope.

(** The ranges of every column, column after column, each with its column number *)
Definition ranges_of_columns {A} (f : A -> list Range) (cols : list A) : list (nat * Range) :=
  flat_map (fun c => match nth_error cols c with Some a => map (pair c) (f a) | None => [] end) (seq 0 (List.length cols)).

(** The k-th record has the id k, and the column, bounds and status of the k-th range *)
Definition carries (out : list RangeRecord) (rs : list (nat * Range)) : Prop :=
  List.length out = List.length rs /\
  forall k c r, nth_error rs k = Some (c, r) ->
    nth_error out k = Some (mkRR (Z.of_nat k) (Z.of_nat c) (Z.of_nat (rg_start r)) (Z.of_nat (rg_end r)) (rg_closed r)).
