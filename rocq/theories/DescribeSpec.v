(** * Vocabulary for the statistics of columns (C99, C100)

    Used in theorem statements; contains no proofs. *)
From Coq Require Import ZArith QArith Qround List Permutation.
From Verif Require Import Base Num GenericSpec ReturnsSpec.
Import ListNotations.
Local Open Scope nat_scope.

(** [s] holds the same numbers as [qs], in ascending order. *)
Definition in_order (s qs : list Q) : Prop :=
  Permutation qs s /\ forall i j, i <= j -> j < length s -> (nth i s 0 <= nth j s 0)%Q.

(** The middle number, or halfway between the two middle ones. *)
Definition is_median (qs : list Q) (m : Q) : Prop :=
  exists s, in_order s qs /\
    forall k, (length qs = 2 * k + 1 -> (m == nth k s 0)%Q) /\
              (length qs = 2 * k + 2 -> (m == (nth k s 0 + nth (k + 1) s 0) / 2)%Q).

(** The number at position [c * (n - 1)] of the ordered numbers, on the straight line
    between two neighbours where the position is not whole. *)
Definition is_quantile (c : Q) (qs : list Q) (v : Q) : Prop :=
  exists s, in_order s qs /\
    let position := (c * inject_Z (Z.of_nat (length qs) - 1))%Q in
    let k := Z.to_nat (Qfloor position) in
    (v == nth k s 0 + (position - inject_Z (Qfloor position)) * (nth (k + 1) s (nth k s 0) - nth k s 0))%Q.

Definition is_least (qs : list Q) (v : Q) : Prop := In v qs /\ forall q, In q qs -> (v <= q)%Q.
Definition is_greatest (qs : list Q) (v : Q) : Prop := In v qs /\ forall q, In q qs -> (q <= v)%Q.
Fixpoint product (l : list Q) : Q := match l with [] => 1 | x :: l' => x * product l' end.

(** Rounding down and up. *)
Definition rounds_down (floor : XQ -> Z) : Prop := forall y q, is_number y q -> floor y = Qfloor q.
Definition rounds_up (ceil : XQ -> Z) : Prop := forall y q, is_number y q -> ceil y = Qceiling q.

(** Count, mean, standard deviation, least, quantiles and greatest of the numbers. *)
Definition describes (root : Q -> Q) (perc : list Q) (ddof : Z) (qs : list Q) (out : list XQ) : Prop :=
  exists m sd lo vs hi, out = [Fin (count qs); m; sd; Fin lo] ++ map Fin vs ++ [Fin hi] /\
    is_number m (mean qs) /\
    ((ddof < Z.of_nat (length qs))%Z -> is_number sd (root (variance ddof qs))) /\
    ((Z.of_nat (length qs) <= ddof)%Z -> sd = NaN) /\
    is_least qs lo /\ Forall2 (fun p v => is_quantile p qs v) perc vs /\ is_greatest qs hi.
