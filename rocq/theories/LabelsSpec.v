(** * Vocabulary for the properties of label generators (C45, C46, C64, C65)

    Used in theorem statements; contains no proofs. *)
From Coq Require Import ZArith QArith Bool List Arith.
From Verif Require Import Base Num XQFacts.
Import ListNotations.
Local Open Scope nat_scope.

(** Bars [p] and [q] carry labels and no bar between them does. *)
Definition adjacent (ext : list Z) (p q : nat) : Prop :=
  p < q < length ext /\ nth p ext 0%Z <> 0%Z /\ nth q ext 0%Z <> 0%Z /\
  forall i, p < i < q -> nth i ext 0%Z = 0%Z.

(** Bar [q] carries a label and no later bar does. *)
Definition last_label (ext : list Z) (q : nat) : Prop :=
  q < length ext /\ nth q ext 0%Z <> 0%Z /\ forall i, q < i -> nth i ext 0%Z = 0%Z.

(** Bar [i] lies from extremum [p] (included) to extremum [q] (excluded). *)
Definition covers (ext : list Z) (p q i : nat) : Prop := adjacent ext p q /\ p <= i < q.

Section Prices.
  Context {T : Type} {N : Num T}.

  Definition price (close : list T) (i : nat) : T := nth i close nan.

  (** The price at [j] is at least the threshold above (below) the one at [i]. *)
  Definition up_by (close : list T) (th : T) (i j : nat) : bool := leb (mul (price close i) (add one (abs th))) (price close j).
  Definition down_by (close : list T) (th : T) (i j : nat) : bool := leb (price close j) (mul (price close i) (sub one (abs th))).

  (** The bars [i+wait, ..., i+wait+window-1] that exist. *)
  Definition next_bars (window wait i : nat) (close : list T) : list T := firstn window (skipn (i + wait) close).

  (** Bar [j] belongs to the period after bar [i]. *)
  Definition in_period (close : list T) (window wait i j : nat) : Prop := i + wait <= j < i + wait + window /\ j < length close.
End Prices.

(** Prices are positive numbers; thresholds are non-zero numbers. *)
Definition positive_prices (close : list XQ) : Prop := forall x, In x close -> exists q, x = Fin q /\ (0 < q)%Q.
Definition real_thresholds (th : nat -> XQ) : Prop := forall i, exists q, th i = Fin q /\ ~ (q == 0)%Q.
Definition price_is (close : list XQ) (i : nat) (c : Q) : Prop := nth_error close i = Some (Fin c).
