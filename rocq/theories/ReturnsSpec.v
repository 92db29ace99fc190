(** * Vocabulary for the properties of return statistics (C43, C44, C60-C63)

    Used in theorem statements; contains no proofs. *)
From Coq Require Import ZArith QArith Qround Bool List Arith.
From Verif Require Import Base Num XQFacts GenericNb GenericSpec.
Import ListNotations.
Local Open Scope nat_scope.

(** The value before bar [i]: the initial value before the first. *)
Definition previous {T} (values : list T) (init : T) (i : nat) : T :=
  match i with O => init | S k => nth k values init end.

(** The growth factor of compounding the returns [rs]. *)
Fixpoint compounded (rs : list Q) : Q := match rs with [] => 1%Q | r :: rs' => ((1 + r) * compounded rs')%Q end.

(** Value of one unit of capital after bar [i] of a series of returns; bars
    without a return leave it as it is. *)
Definition wealth (rs : list XQ) (i : nat) : Q := compounded (vals (firstn (S i) rs)).

(** No return below -100%, and not everything is lost on the first bar. *)
Definition solvent (rs : list XQ) : Prop :=
  (forall q, In q (vals rs) -> (-1 <= q)%Q) /\ (0 < wealth rs 0)%Q.

(** [y] is the number [q]. *)
Definition is_number (y : XQ) (q : Q) : Prop := exists p, y = Fin p /\ (p == q)%Q.


(** How many of [qs] are below (at most) [x]. *)
Definition n_below (x : Q) (qs : list Q) : nat := length (filter (fun y => qlt_bool y x) qs).
Definition n_at_most (x : Q) (qs : list Q) : nat := length (filter (fun y => Qle_bool y x) qs).

(** The index of the return at the given quantile. *)
Definition cutoff_rank (n : nat) (cutoff : Q) : nat := Z.to_nat (Qfloor (inject_Z (Z.of_nat n - 1) * cutoff)).


(** The known pairs as numbers: (return, benchmark return). *)
Fixpoint pairs (rb : list (XQ * XQ)) : list (Q * Q) :=
  match rb with
  | [] => []
  | (Fin r, Fin b) :: rb' => (r, b) :: pairs rb'
  | _ :: rb' => pairs rb'
  end.
Definition no_infinite_pair (rb : list (XQ * XQ)) : Prop := no_infinity (map fst rb) /\ no_infinity (map snd rb).

(** Population covariance of two aligned samples. *)
Definition covariance (p : list (Q * Q)) : Q :=
  let mr := mean (map fst p) in let mb := mean (map snd p) in
  mean (map (fun x => (fst x - mr) * (snd x - mb))%Q p).
