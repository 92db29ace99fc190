(** * Model of vectorbt/utils/math_.py *)
From Coq Require Import ZArith Bool.
From Verif Require Import Base Num.

Section MathNb.
  Context {T : Type} {N : Num T}.

  (** utils/math_.py:13-22 is_close_nb *)
  Definition is_close_nb (a b : T) : bool :=
    if isnan a || isnan b then false
    else if isinf a || isinf b then false
    else if eqb a b then true
    else leb (abs (sub a b)) (max2 (mul rtol (max2 (abs a) (abs b))) atol).

  (** utils/math_.py:25-30 is_close_or_less_nb *)
  Definition is_close_or_less_nb (a b : T) : bool :=
    if is_close_nb a b then true else ltb a b.

  (** utils/math_.py:33-38 is_less_nb *)
  Definition is_less_nb (a b : T) : bool :=
    if is_close_nb a b then false else ltb a b.

  (** utils/math_.py:41-46 is_addition_zero_nb *)
  Definition is_addition_zero_nb (a b : T) : bool :=
    if neb (sign a) (sign b) then is_close_nb (abs a) (abs b)
    else is_close_nb (add a b) zero.

  (** utils/math_.py:49-54 add_nb *)
  Definition add_nb (a b : T) : T :=
    if is_addition_zero_nb a b then zero else add a b.
End MathNb.
