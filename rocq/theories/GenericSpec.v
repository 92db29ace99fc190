(** * Vocabulary for the properties of generic series functions (C25-C31)

    Used in theorem statements; contains no proofs. *)
From Coq Require Import ZArith QArith Bool List Arith Sorting.
From Verif Require Import Base Num XQFacts GenericNb.
Import ListNotations.
Local Open Scope nat_scope.

(** The records of one column. *)
Definition of_column (col : nat) (recs : list RangeRec) : list RangeRec := filter (fun r => Nat.eqb (rg_col r) col) recs.

Section Series.
  Context {T : Type} {N : Num T}.

  (** Bar [i] of the series holds the number [x]. *)
  Definition holds (a : list T) (i : nat) (x : T) : Prop := nth_error a i = Some x /\ isnan x = false.

  (** No bar [lo .. hi] holds a number. *)
  Definition blank (a : list T) (lo hi : nat) : Prop := forall k x, lo <= k <= hi -> ~ holds a k x.

  (** [y] is the last number at or before bar [i]; the first at or after it. *)
  Definition last_valid (a : list T) (i : nat) (y : T) : Prop :=
    exists j, j <= i /\ holds a j y /\ blank a (S j) i.
  Definition first_valid (a : list T) (i : nat) (y : T) : Prop :=
    exists j, i <= j /\ holds a j y /\ forall k x, i <= k < j -> ~ holds a k x.

  (** The numbers among the last [w] bars at bar [i]. *)
  Definition window (w i : nat) (a : list T) : list T := skipn (S i - w) (firstn (S i) a).
  Definition numbers (l : list T) : list T := filter (fun x => negb (isnan x)) l.

  (** [m] is an element of [l] and none is smaller (greater). *)
  Definition is_min (m : T) (l : list T) : Prop := In m l /\ forall x, In x l -> leb m x = true.
  Definition is_max (m : T) (l : list T) : Prop := In m l /\ forall x, In x l -> leb x m = true.

  (** ** Ranges *)
  (** Bar [i] belongs to a range: there is a value and it is not the gap value. *)
  Definition filled (gap : T) (ts : list T) (i : nat) : Prop :=
    exists x, nth_error ts i = Some x /\ is_gap gap x = false.

  (** [r] is a maximal run of filled bars: from its start, up to its end
      (exclusive when closed by a gap, inclusive when open at the last bar). *)
  Definition maximal_run (gap : T) (ts : list T) (r : RangeRec) : Prop :=
    exists s e, rg_start r = Z.of_nat s /\ s < e <= length ts /\
      (forall i, s <= i < e -> filled gap ts i) /\
      (s = 0 \/ ~ filled gap ts (s - 1)) /\
      match rg_status r with
      | RangeClosed => rg_end r = Z.of_nat e /\ e < length ts /\ ~ filled gap ts e
      | RangeOpen => rg_end r = (Z.of_nat e - 1)%Z /\ e = length ts
      end.

  (** ** Drawdowns *)
  (** The record describes a drawdown of the series. *)
  Definition is_drawdown (ts : list T) (r : DrawdownRec T) : Prop :=
    exists p v e, dd_peak_idx r = Z.of_nat p /\ dd_start_idx r = Z.of_nat (S p) /\
      dd_valley_idx r = Z.of_nat v /\ dd_end_idx r = Z.of_nat e /\
      p < v <= e /\
      (* the three values are those of the series *)
      holds ts p (dd_peak_val r) /\ holds ts v (dd_valley_val r) /\ holds ts e (dd_end_val r) /\
      (* the peak is the highest value so far *)
      (forall k x, k <= p -> holds ts k x -> leb x (dd_peak_val r) = true) /\
      (* between peak and end the series stays below the peak *)
      (forall k x, p < k < e -> holds ts k x -> ltb x (dd_peak_val r) = true) /\
      (* the valley is the lowest value, its first occurrence, and below the peak *)
      (forall k x, p < k < v -> holds ts k x -> ltb (dd_valley_val r) x = true) /\
      (forall k x, v <= k <= e -> holds ts k x -> leb (dd_valley_val r) x = true) /\
      ltb (dd_valley_val r) (dd_peak_val r) = true /\
      (* recovered exactly when the end reaches the peak; active at the last bar *)
      match dd_status r with
      | Recovered => v < e /\ leb (dd_peak_val r) (dd_end_val r) = true
      | Active => S e = length ts /\ ltb (dd_end_val r) (dd_peak_val r) = true
      end.

  (** Bar [i] is under water: it holds less than an earlier bar. *)
  Definition under_water (ts : list T) (i : nat) : Prop :=
    exists x k y, holds ts i x /\ k < i /\ holds ts k y /\ ltb x y = true.

  (** ** Crossovers *)
  Definition both_known (a b : list T) (i : nat) : Prop := (exists x, holds a i x) /\ (exists y, holds b i y).
  Definition above (a b : list T) (i : nat) : Prop := exists x y, holds a i x /\ holds b i y /\ ltb y x = true.
  Definition below (a b : list T) (i : nat) : Prop := exists x y, holds a i x /\ holds b i y /\ ltb x y = true.
End Series.

(** ** Statistics of exact numbers *)
Fixpoint vals (l : list XQ) : list Q :=
  match l with [] => [] | Fin q :: l' => q :: vals l' | _ :: l' => vals l' end.
Definition no_infinity (l : list XQ) : Prop := forall x, In x l -> x <> PInf /\ x <> NInf.

Local Open Scope Q_scope.
Fixpoint sum (l : list Q) : Q := match l with [] => 0 | x :: l' => x + sum l' end.
Definition count (l : list Q) : Q := inject_Z (Z.of_nat (length l)).
Definition mean (l : list Q) : Q := sum l / count l.
Definition variance (ddof : Z) (l : list Q) : Q :=
  sum (map (fun x => (x - mean l) * (x - mean l)) l) / (count l - inject_Z ddof).

(** Exponential weights: a value [k] bars ago weighs [r^k]. The history is
    listed newest first; bars without a number count as time but not as values. *)
Fixpoint power (r : Q) (k : nat) : Q := match k with O => 1 | S k' => r * power r k' end.
Definition number_or (d : Q) (x : XQ) : Q := match x with Fin q => q | _ => d end.
Definition present (x : XQ) : Q := match x with Fin _ => 1 | _ => 0 end.
Definition weighted (f : XQ -> Q) (r : Q) (hist : list XQ) : Q :=
  sum (map (fun k => power r k * f (nth k hist NaN)) (seq 0 (length hist))).
Definition weighted_mean (r : Q) (hist : list XQ) : Q :=
  weighted (number_or 0) r hist / weighted present r hist.

(** The recursive variant: each new value moves the average by the share
    [alpha]; the old average has decayed once per bar since the last value. *)
Fixpoint recursive_mean (alpha : Q) (hist : list XQ) : option (Q * nat) :=
  match hist with
  | [] => None
  | x :: h =>
      match x, recursive_mean alpha h with
      | Fin q, None => Some (q, O)
      | Fin q, Some (y, k) =>
          let w := power (1 - alpha) (S k) in Some ((w * y + alpha * q) / (w + alpha), O)
      | _, None => None
      | _, Some (y, k) => Some (y, S k)
      end
  end.

(** Smoothing by span: the newest value has the share 2/(span+1). *)
Definition share (span : nat) : Q := 2 / (inject_Z (Z.of_nat span) + 1).

(** [a] crosses above [b] at bar [i], reported after [wait] more bars: it has
    been above since bar [i - wait], was not above at the bar before, and had
    been below [b] since the last gap in the data. *)
Definition crosses {T} {N : Num T} (a b : list T) (wait i : nat) : Prop :=
  (wait < i)%nat /\
  (forall m, (i - wait <= m <= i)%nat -> above a b m) /\
  both_known a b (i - wait - 1) /\ ~ above a b (i - wait - 1) /\
  exists j, (j < i - wait)%nat /\ below a b j /\ forall m, (j <= m <= i)%nat -> both_known a b m.
