(** * Vocabulary for the properties of the Rust label generators (C102)

    Used in theorem statements; contains no proofs. *)
From Coq Require Import ZArith QArith List.
From Verif Require Import Base Num RustGenericSpec.
Import ListNotations.

(** The largest and the smallest value are single values: a number that is not below
    [pinf] is [pinf], a number that is not above [ninf] is [ninf]. *)
Definition one_infinity {T} (N : Num T) : Prop :=
  (forall x : T, isnan x = false -> ltb x pinf = false -> x = pinf) /\
  (forall x : T, isnan x = false -> ltb ninf x = false -> x = ninf).

(** Equal as numbers (0 and -0 are), or both NaN. *)
Definition as_number {T} {N : Num T} (x y : T) : Prop := eqb x y = true \/ (isnan x = true /\ isnan y = true).

(** The result is Numba's, unless that raises for a division by zero. *)
Definition unless_zero_division {A} (rust numba : res A) : Prop := numba = Err ZeroDivision \/ rust = numba.
