(** * Numbers

    The modelled kernels compute with NumPy/Numba floats. The model is
    polymorphic in the operations below; no law is part of the class. *)
From Coq Require Import ZArith QArith Qround Bool List.
From Verif Require Import Base.
Import ListNotations.
Open Scope bool_scope.

Class Num (T : Type) := mkNum {
  nan : T;
  pinf : T;                (* np.inf *)
  ofZ : Z -> T;            (* integer literal used as a float *)
  add : T -> T -> T;
  sub : T -> T -> T;
  mul : T -> T -> T;
  div : T -> T -> T;       (* NumPy (array) division: x/0 gives inf or nan *)
  fdiv : T -> T -> T;      (* float floor division by a non-zero number *)
  neg : T -> T;
  abs : T -> T;
  ltb : T -> T -> bool;
  leb : T -> T -> bool;
  eqb : T -> T -> bool;
  isnan : T -> bool;
  isinf : T -> bool;
  rtol : T;                (* utils/math_.py:9  rel_tol = 1e-9 *)
  atol : T                 (* utils/math_.py:10 abs_tol = 1e-12 *)
}.

Section Derived.
  Context {T : Type} {N : Num T}.

  Definition zero : T := ofZ 0.
  Definition one : T := ofZ 1.
  Definition two : T := ofZ 2.
  Definition ninf : T := neg pinf.
  Definition isfinite (a : T) : bool := negb (isnan a) && negb (isinf a).
  Definition gtb (a b : T) : bool := ltb b a.
  Definition geb (a b : T) : bool := leb b a.
  Definition neb (a b : T) : bool := negb (eqb a b).   (* Python's != *)

  (** np.sign: nan for nan, 0 for 0. *)
  Definition sign (a : T) : T :=
    if isnan a then nan
    else if ltb zero a then one
    else if ltb a zero then neg one
    else zero.

  (** Numba's builtin min/max of two floats (numba/cpython/builtins.py,
      do_minmax: the accumulator is replaced if [v < acc] resp. [v > acc]). *)
  Definition min2 (a b : T) : T := if ltb b a then b else a.
  Definition max2 (a b : T) : T := if ltb a b then b else a.

  (** Scalar division in Numba-compiled code (error_model='python'). *)
  Definition sdiv (a b : T) : res T :=
    if eqb b zero then Err ZeroDivision else Ok (div a b).
  Definition sfdiv (a b : T) : res T :=
    if eqb b zero then Err ZeroDivision else Ok (fdiv a b).
End Derived.

(** ** Exact instance: rationals with NaN and the infinities *)
Inductive XQ : Type := NaN | PInf | NInf | Fin (q : Q).

Definition fin (q : Q) : XQ := Fin (Qred q).

Definition qlt_bool (a b : Q) : bool := negb (Qle_bool b a).

Definition xq_neg (a : XQ) : XQ :=
  match a with NaN => NaN | PInf => NInf | NInf => PInf | Fin q => fin (- q) end.

Definition xq_add (a b : XQ) : XQ :=
  match a, b with
  | NaN, _ | _, NaN => NaN
  | PInf, NInf | NInf, PInf => NaN
  | PInf, _ | _, PInf => PInf
  | NInf, _ | _, NInf => NInf
  | Fin p, Fin q => fin (p + q)
  end.

Definition xq_sub (a b : XQ) : XQ := 
  match a, b with
  | Fin p, Fin q => fin (p - q)
  | _, _ => xq_add a (xq_neg b)
  end.

(** Infinity with the sign of a product/quotient, NaN when it is zero. *)
Definition xq_sgn_inf (pos : bool) (q : Q) : XQ :=
  if Qeq_bool q 0 then NaN
  else if Bool.eqb (qlt_bool 0 q) pos then PInf else NInf.

Definition xq_mul (a b : XQ) : XQ :=
  match a, b with
  | NaN, _ | _, NaN => NaN
  | PInf, PInf | NInf, NInf => PInf
  | PInf, NInf | NInf, PInf => NInf
  | PInf, Fin q | Fin q, PInf => xq_sgn_inf true q
  | NInf, Fin q | Fin q, NInf => xq_sgn_inf false q
  | Fin p, Fin q => fin (p * q)
  end.

(** There is one zero only: x/0 has the sign of x. *)
Definition xq_div (a b : XQ) : XQ :=
  match a, b with
  | NaN, _ | _, NaN => NaN
  | PInf, PInf | NInf, NInf | PInf, NInf | NInf, PInf => NaN
  | PInf, Fin q => if Qle_bool 0 q then PInf else NInf
  | NInf, Fin q => if Qle_bool 0 q then NInf else PInf
  | Fin _, PInf | Fin _, NInf => Fin 0
  | Fin p, Fin q =>
      if Qeq_bool q 0 then xq_sgn_inf true p else fin (p / q)
  end.

(** Float floor division: infinite dividend gives NaN; a finite dividend by
    an infinite divisor gives 0 or -1. *)
Definition xq_fdiv (a b : XQ) : XQ :=
  match a, b with
  | NaN, _ | _, NaN => NaN
  | PInf, _ | NInf, _ => NaN
  | Fin p, PInf => if Qle_bool 0 p then Fin 0 else Fin (-1)
  | Fin p, NInf => if Qle_bool p 0 then Fin 0 else Fin (-1)
  | Fin p, Fin q => if Qeq_bool q 0 then NaN else Fin (inject_Z (Qfloor (p / q)))
  end.

Definition xq_abs (a : XQ) : XQ :=
  match a with
  | NaN => NaN | PInf => PInf | NInf => PInf
  | Fin q => if Qle_bool 0 q then Fin q else fin (- q)
  end.

Definition xq_ltb (a b : XQ) : bool :=
  match a, b with
  | NaN, _ | _, NaN => false
  | NInf, NInf => false
  | NInf, _ => true
  | PInf, _ => false
  | Fin _, PInf => true
  | Fin _, NInf => false
  | Fin p, Fin q => qlt_bool p q
  end.

Definition xq_eqb (a b : XQ) : bool :=
  match a, b with
  | PInf, PInf | NInf, NInf => true
  | Fin p, Fin q => Qeq_bool p q
  | _, _ => false
  end.

Definition xq_leb (a b : XQ) : bool :=
  match a, b with
  | Fin p, Fin q => Qle_bool p q
  | _, _ => xq_ltb a b || xq_eqb a b
  end.

Definition xq_isnan (a : XQ) : bool := match a with NaN => true | _ => false end.
Definition xq_isinf (a : XQ) : bool := match a with PInf | NInf => true | _ => false end.

Definition XQnum : Num XQ := {|
  nan := NaN; pinf := PInf; ofZ := fun z => Fin (inject_Z z);
  add := xq_add; sub := xq_sub; mul := xq_mul; div := xq_div; fdiv := xq_fdiv;
  neg := xq_neg; abs := xq_abs; ltb := xq_ltb; leb := xq_leb; eqb := xq_eqb;
  isnan := xq_isnan; isinf := xq_isinf;
  rtol := Fin (1 # 1000000000); atol := Fin (1 # 1000000000000)
|}.
