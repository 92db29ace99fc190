(** * Specification vocabulary for the position record of callbacks

    Used in theorem statements; contains no proofs. *)
From Coq Require Import ZArith QArith Qabs Bool List.
From Verif Require Import Base Num XQFacts TolSpec Order Trades TradesSpec OrderFunc.
Import ListNotations.

(** A filled order: bar, buy or sell, size, price and fees *)
Record Fill := mkFill { f_bar : nat; f_buy : bool; f_size : Q; f_price : Q; f_fees : Q }.
Definition good_fill (f : Fill) : Prop := 0 < f_size f /\ 0 < f_price f.
Definition signed (f : Fill) : Q := if f_buy f then f_size f else - f_size f.

(** The position before each fill is the sum of the fills so far; the record
    is updated after each. *)
Definition fill_result (f : Fill) : OrderResult XQ :=
  mkRes (Fin (f_size f)) (Fin (f_price f)) (Fin (f_fees f)) (Some (if f_buy f then Buy else Sell)) Filled None.
Fixpoint record_after (col : nat) (rec : PosRec XQ) (pos : Q) (fills : list Fill) : res (PosRec XQ) :=
  match fills with
  | [] => Ok rec
  | f :: fs =>
      let! rec' := update_pos_record_nb rec (f_bar f) col (Fin pos) (Fin (pos + signed f)) (fill_result f) in
      record_after col rec' (pos + signed f) fs
  end.

(** ** What is held

    A position is entered and left in parts; a fill that reverses the position
    opens the next one with what exceeds the old one, and with that share of the
    fees. *)
Record Part := mkPart { p_size : Q; p_price : Q; p_fees : Q }.
Record Held := mkHeld {
  h_number : Z; h_since : nat; h_long : bool; h_in : list Part; h_out : list Part; h_until : option nat }.
Definition nothing_held : Held := mkHeld (-1) 0 true [] [] None.
Definition whole (f : Fill) : Part := mkPart (f_size f) (f_price f) (f_fees f).

Definition next_held (pos : Q) (h : Held) (f : Fill) : Held :=
  let opened p := mkHeld (h_number h + 1) (f_bar f) (f_buy f) [p] [] None in
  match pos ?= 0 with
  | Eq => opened (whole f)
  | c =>
      let long := match c with Gt => true | _ => false end in
      if Bool.eqb long (f_buy f) then
        mkHeld (h_number h) (h_since h) (h_long h) (h_in h ++ [whole f]) (h_out h) (h_until h)
      else match f_size f ?= Qabs pos with
           | Lt => mkHeld (h_number h) (h_since h) (h_long h) (h_in h) (h_out h ++ [whole f]) (h_until h)
           | Eq => mkHeld (h_number h) (h_since h) (h_long h) (h_in h) (h_out h ++ [whole f]) (Some (f_bar f))
           | Gt => let rest := f_size f - Qabs pos in
                   opened (mkPart rest (f_price f) (rest / f_size f * f_fees f))
           end
  end.
Fixpoint held_after (pos : Q) (h : Held) (fills : list Fill) : Held :=
  match fills with [] => h | f :: fs => held_after (pos + signed f) (next_held pos h f) fs end.
Fixpoint position_after (pos : Q) (fills : list Fill) : Q :=
  match fills with [] => pos | f :: fs => position_after (pos + signed f) fs end.

(** Total of a list of parts *)
Fixpoint parts (f : Part -> Q) (l : list Part) : Q :=
  match l with [] => 0 | p :: l' => f p + parts f l' end.
Definition worth (p : Part) : Q := p_size p * p_price p.

(** The record [r] describes the position [h] in column [col], of which [pos]
    is left and valued at [price]. Profit and loss count what is left as if it
    were sold at [price]; the code treats two values within the tolerance of each
    other as equal. *)
Record describes (r : PosRec XQ) (col : nat) (h : Held) (pos price : Q) : Prop := {
  d_id : pr_id r = h_number h; d_col : pr_col r = col; d_parent : pr_parent r = h_number h;
  d_since : pr_entry_idx r = h_since h;
  d_dir : pr_dir r = if h_long h then TLong else TShort;
  d_status : match h_until h with
             | None => pr_status r = TOpen /\ pr_exit_idx r = (-1)%Z
             | Some i => pr_status r = TClosed /\ pr_exit_idx r = Z.of_nat i
             end;
  d_in : exists size price fees,
      pr_size r = Fin size /\ pr_entry_price r = Fin price /\ pr_entry_fees r = Fin fees /\
      size == parts p_size (h_in h) /\ price * size == parts worth (h_in h) /\ fees == parts p_fees (h_in h);
  d_out : exists fees, pr_exit_fees r = Fin fees /\ fees == parts p_fees (h_out h) /\
      match h_out h with
      | [] => pr_exit_price r = NaN
      | _ => exists price, pr_exit_price r = Fin price /\ price * parts p_size (h_out h) == parts worth (h_out h)
      end;
  d_profit : exists pnl ret, pr_pnl r = Fin pnl /\ pr_return r = Fin ret /\
      let received := parts worth (h_out h) + Qabs pos * price in
      let paid := parts worth (h_in h) in
      Qabs (pnl - (dir_sign (pr_dir r) * (received - paid) - parts p_fees (h_in h) - parts p_fees (h_out h)))
        <= tolq received paid /\
      ret * paid == pnl }.
