(** * Vocabulary for the properties of indicators (C47, C48, C66)

    Used in theorem statements; contains no proofs. *)
From Coq Require Import ZArith QArith Bool List Arith.
From Verif Require Import Base Num XQFacts GenericSpec.
Import ListNotations.
Local Open Scope nat_scope.

(** Distinct listed parameters have distinct hashes. *)
Definition no_collision {K} (hash : K -> Z) (ks : list K) : Prop :=
  forall k k', In k ks -> In k' ks -> hash k = hash k' -> k = k'.

Section Series.
  Context {T : Type} {N : Num T}.
  (** The change from the bar before; how much the price rose, and how much it fell. *)
  Definition change (close : list T) (i : nat) : T :=
    match i with O => nan | S j => sub (nth i close nan) (nth j close nan) end.
  Definition rises (close : list T) : list T :=
    map (fun i => if ltb (change close i) zero then zero else change close i) (seq 0 (length close)).
  Definition drops (close : list T) : list T :=
    map (fun i => if ltb zero (change close i) then abs zero else abs (change close i)) (seq 0 (length close)).
End Series.

Local Open Scope Q_scope.
(** [y] is undefined, or a number between the two bounds. *)
Definition within (lo hi : Q) (y : XQ) : Prop := y = NaN \/ exists q, y = Fin q /\ lo <= q /\ q <= hi.
Definition at_least (lo : Q) (y : XQ) : Prop := y = NaN \/ exists q, y = Fin q /\ lo <= q.

(** Wherever both are known, the first series is at most the second. *)
Definition series_le (a b : list XQ) : Prop :=
  forall i p q, nth_error a i = Some (Fin p) -> nth_error b i = Some (Fin q) -> p <= q.

(** Bar [i] of the series holds the number [q]. *)
Definition bar_is (a : list XQ) (i : nat) (q : Q) : Prop := exists y, nth_error a i = Some y /\ exists p, y = Fin p /\ p == q.

(** What bar [i] adds to the on-balance volume. *)
Definition signed_volume (close volume : list XQ) (i : nat) : Q :=
  let v := number_or 0 (nth i volume NaN) in
  match nth i close NaN, (match i with O => NaN | S j => nth j close NaN end) with
  | Fin c, Fin p => if qlt_bool c p then - v else v
  | _, _ => v
  end.

(** Exponentially weighted variance of a history (newest first) with decay
    [r], corrected for bias: weights r^k, squared deviations from the weighted
    mean. *)
Definition squared_deviation (m : Q) (x : XQ) : Q := match x with Fin q => (q - m) * (q - m) | _ => 0 end.
Definition ew_variance (r : Q) (hist : list XQ) : Q :=
  let W := weighted present r hist in
  let W2 := weighted present (r * r) hist in
  W * W / (W * W - W2) * (weighted (squared_deviation (weighted_mean r hist)) r hist / W).
