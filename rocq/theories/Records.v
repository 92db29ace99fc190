(** * Sequences of process_order_nb calls and what well-kept records are

    All simulation functions of portfolio/nb.py write records only through
    process_order_nb (nb.py:648-733), passing the same buffers from call to
    call. [run_call] is one such call with arbitrary other arguments. *)
From Coq Require Import ZArith Bool List.
From Verif Require Import Base Num MathNb Order.
Import ListNotations.

Section Records.
  Context {T : Type} {N : Num T}.

  Record Call := mkCall { cl_i : nat; cl_col : nat; cl_group : nat;
    cl_state : ProcState T; cl_upd : bool; cl_order : Order T }.

  Definition run_call (draws : nat -> T) (rc : Recs T) (c : Call) : res (Recs T) :=
    let! (r, s', rc') := process_order_nb draws (cl_i c) (cl_col c) (cl_group c)
                           (cl_state c) (cl_upd c) (cl_order c) rc in
    Ok rc'.

  (** ** Specification *)

  (** Ids are the positions: 0, 1, 2, ... *)
  Definition numbered {A} (id : A -> nat) (l : list A) : Prop :=
    forall n x, nth_error l n = Some x -> id x = n.

  (** A log record points to the order record of its own fill, or to none
      when it was not filled. *)
  Definition log_linked (orders : list (OrderRec T)) (l : LogRec T) : Prop :=
    match lg_order_id l with
    | Some k => r_status (lg_result l) = Filled /\
        exists rec, nth_error orders k = Some rec /\
          or_col rec = lg_col l /\ or_idx rec = lg_idx l /\
          or_size rec = r_size (lg_result l) /\ or_price rec = r_price (lg_result l) /\
          or_fees rec = r_fees (lg_result l) /\ or_side rec = r_side (lg_result l)
    | None => r_status (lg_result l) <> Filled
    end.
End Records.

Arguments Call T : clear implicits.
