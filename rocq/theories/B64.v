(** * IEEE-754 binary64 instance of [Num] (Flocq, round to nearest even). *)
From Coq Require Import ZArith Bool.
From Flocq Require Import BinarySingleNaN.
From Verif Require Import Base Num.

Definition f64 := binary_float 53 1024.

Lemma prec53_gt_0 : FLX.Prec_gt_0 53. Proof. reflexivity. Qed.
Lemma prec53_lt : Prec_lt_emax 53 1024. Proof. reflexivity. Qed.

Definition b64_ofZ (z : Z) : f64 :=
  binary_normalize 53 1024 prec53_gt_0 prec53_lt mode_NE z 0 false.

Definition b64_add : f64 -> f64 -> f64 := @Bplus 53 1024 prec53_gt_0 prec53_lt mode_NE.
Definition b64_sub : f64 -> f64 -> f64 := @Bminus 53 1024 prec53_gt_0 prec53_lt mode_NE.
Definition b64_mul : f64 -> f64 -> f64 := @Bmult 53 1024 prec53_gt_0 prec53_lt mode_NE.
Definition b64_div : f64 -> f64 -> f64 := @Bdiv 53 1024 prec53_gt_0 prec53_lt mode_NE.

Definition b64_ltb (a b : f64) : bool :=
  match Bcompare a b with Some Lt => true | _ => false end.
Definition b64_leb (a b : f64) : bool :=
  match Bcompare a b with Some Lt | Some Eq => true | _ => false end.
Definition b64_eqb (a b : f64) : bool :=
  match Bcompare a b with Some Eq => true | _ => false end.
Definition b64_isnan (a : f64) : bool :=
  match a with B754_nan => true | _ => false end.
Definition b64_isinf (a : f64) : bool :=
  match a with B754_infinity _ => true | _ => false end.

(** Floor of the exact quotient, rounded to a double. Python computes it from
    [fmod]; both give the exact floor whenever that is representable. *)
Definition b64_fdiv (a b : f64) : f64 :=
  match a, b with
  | B754_nan, _ | _, B754_nan => B754_nan
  | B754_infinity _, _ => B754_nan
  | _, B754_zero _ => B754_nan
  | B754_zero s, _ => B754_zero (xorb s (Bsign b))
  | B754_finite s m e _, B754_infinity s' =>
      if Bool.eqb s s' then B754_zero false else b64_ofZ (-1)
  | B754_finite s m e _, B754_finite s' m' e' _ =>
      let n := (if s then Z.neg m else Z.pos m) in
      let d := (if s' then Z.neg m' else Z.pos m') in
      if (e' <=? e)%Z then b64_ofZ (Z.div (n * 2 ^ (e - e')) d)
      else b64_ofZ (Z.div n (d * 2 ^ (e' - e)))
  end.

Definition B64num : Num f64 := {|
  nan := B754_nan; pinf := B754_infinity false; ofZ := b64_ofZ;
  add := b64_add; sub := b64_sub; mul := b64_mul; div := b64_div; fdiv := b64_fdiv;
  neg := Bopp; abs := Babs; ltb := b64_ltb; leb := b64_leb; eqb := b64_eqb;
  isnan := b64_isnan; isinf := b64_isinf;
  (* 1/10^9 and 1/10^12 rounded once: the doubles nearest to 1e-9 and 1e-12 *)
  rtol := b64_div (b64_ofZ 1) (b64_ofZ 1000000000);
  atol := b64_div (b64_ofZ 1) (b64_ofZ 1000000000000)
|}.
