(** * Vocabulary for the agreement of the two engines on indicators (C104)

    Used in theorem statements; contains no proofs. *)
From Coq Require Import ZArith Bool List.
From Verif Require Import Base Num GenericNb IndicatorsNb RustIndicators.

(** What the compiled Python engine returns as the moving average of this
    series over this window, the Rust engine returns too. *)
Definition same_average {T} {N : Num T} (a : list T) (window : nat) (ewm adjust : bool) : Prop :=
  forall out, ma_nb a window ewm adjust = Ok out -> rs_ma a window ewm adjust = out.
(** And the same for the moving deviation. *)
Definition same_deviation {T} {N : Num T} (sqrt : T -> T) (tol : T) (a : list T) (window : nat) (ewm adjust : bool) (ddof : nat) : Prop :=
  forall out, mstd_nb sqrt tol a window ewm adjust (Z.of_nat ddof) = Ok out -> rs_mstd sqrt tol a window ewm adjust ddof = out.

