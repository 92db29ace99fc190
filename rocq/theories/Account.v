(** * An account shared by the columns of a group

    All simulation functions of portfolio/nb.py keep, per group of columns
    with cash sharing, one cash and one free-cash balance, and per column a
    position and a debt (e.g. nb.py:1404-1427, 1536-1560), and change them
    only by executing orders. [acct_step] is one such step: execute an order on one
    column, with a valuation price and value the caller supplies. *)
From Coq Require Import ZArith Bool List.
From Verif Require Import Base Num MathNb Order.
Import ListNotations.

Definition fupd {A} (f : nat -> A) (i : nat) (v : A) : nat -> A :=
  fun j => if Nat.eqb j i then v else f j.

Lemma fupd_same : forall A (f : nat -> A) i v, fupd f i v i = v.
Proof. intros; unfold fupd; rewrite Nat.eqb_refl; auto. Qed.
Lemma fupd_other : forall A (f : nat -> A) i j v, j <> i -> fupd f i v j = f j.
Proof. intros A f i j v H; unfold fupd. apply Nat.eqb_neq in H. rewrite H; auto. Qed.

Section Account.
  Context {T : Type} {N : Num T}.

  Record Acct := mkAcct { ac_cash : T; ac_free : T; ac_pos : nat -> T; ac_debt : nat -> T }.

  (** One order: the column, the valuation price and group value at that time, the order. *)
  Record Ev := mkEv { ev_col : nat; ev_val_price : T; ev_value : T; ev_order : Order T }.

  Definition ev_state (a : Acct) (e : Ev) : ProcState T :=
    mkProc (ac_cash a) (ac_pos a (ev_col e)) (ac_debt a (ev_col e)) (ac_free a)
           (ev_val_price e) (ev_value e).

  Definition acct_put (a : Acct) (c : nat) (es : ExecState T) : Acct :=
    mkAcct (es_cash es) (es_free_cash es)
           (fupd (ac_pos a) c (es_position es)) (fupd (ac_debt a) c (es_debt es)).

  Definition acct_step (draws : nat -> T) (s : Acct * nat) (e : Ev) : res (Acct * nat) :=
    let! (es, r, k') := execute_order_nb draws (snd s) (ev_state (fst s) e) (ev_order e) in
    Ok (acct_put (fst s) (ev_col e) es, k').

  (** A history of orders, any columns, any valuation. *)
  Definition acct_run (draws : nat -> T) (s : Acct * nat) (evs : list Ev) : res (Acct * nat) :=
    foldM (acct_step draws) s evs.
End Account.

Arguments Acct T : clear implicits.
Arguments Ev T : clear implicits.
