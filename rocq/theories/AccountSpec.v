(** * Specification vocabulary for accounts

    Used in theorem statements; contains no proofs. *)
From Coq Require Import QArith Qabs List.
From Verif Require Import Num Order Account.
Import ListNotations.

Fixpoint sumQ (g : nat -> Q) (n : nat) : Q :=
  match n with O => 0 | S m => sumQ g m + g m end.

(** All balances of the first [n] columns are finite and at most [M]. *)
Definition bounded (M : Q) (n : nat) (a : Acct XQ) : Prop :=
  exists c fr, ac_cash a = Fin c /\ ac_free a = Fin fr /\ Qabs c <= M /\ Qabs fr <= M /\
  forall i, (i < n)%nat -> exists d, ac_debt a i = Fin d /\ Qabs d <= M.

(** An account holding nothing but cash [c]. *)
Definition fresh (a : Acct XQ) (c : Q) : Prop :=
  ac_cash a = Fin c /\ ac_free a = Fin c /\
  forall i, ac_pos a i = Fin 0 /\ ac_debt a i = Fin 0.
