(** * Specification vocabulary for simulation from signals; contains no proofs. *)
From Coq Require Import String ZArith Bool List Arith.
From Verif Require Import Base Num Order Simulate SimSpec FromSignals.
Import ListNotations.
Local Open Scope string_scope.
Local Open Scope list_scope.

(** ** What the documentation says a bar should do (portfolio/enums.py) *)

Inductive Side := InLong | InShort | Flat.

(** Of an entry and an exit of one direction: which one counts. *)
Definition entry_counts (m : ConflictMode) (in_position entry exit : bool) : bool :=
  entry && (negb exit || match m with CEntry => true | CAdjacent => in_position | _ => false end).
Definition exit_counts (m : ConflictMode) (in_position entry exit : bool) : bool :=
  exit && (negb entry || match m with CExit => true | COpposite => in_position | _ => false end).

(** Of a long and a short entry: which one counts. *)
Definition long_counts (m : DirectionConflictMode) (sd : Side) (long short : bool) : bool :=
  long && (negb short || match m, sd with
                         | DLong, _ | DAdjacent, InLong | DOpposite, InShort => true
                         | _, _ => false end).
Definition short_counts (m : DirectionConflictMode) (sd : Side) (long short : bool) : bool :=
  short && (negb long || match m, sd with
                         | DShort, _ | DAdjacent, InShort | DOpposite, InLong => true
                         | _, _ => false end).

(** What can be done to a position. *)
Inductive Act :=
| Nothing
| OpenLong | OpenShort     (* from a flat position, by the given size *)
| Grow                     (* add the given size *)
| Reduce                   (* remove the given size, at most to zero *)
| ReduceOrTurn             (* remove the given size, possibly past zero *)
| CloseOut                 (* remove all of it *)
| Turn.                    (* remove all of it and open the opposite one *)

Definition allows_adding (a : AccumulationMode) : bool :=
  match a with AccBoth | AddOnly => true | _ => false end.
Definition allows_removing (a : AccumulationMode) : bool :=
  match a with AccBoth | RemoveOnly => true | _ => false end.

(** In a position: own entry, own exit, entry of the opposite direction. *)
Definition leave (acc : AccumulationMode) : Act := if allows_removing acc then Reduce else CloseOut.
Definition without_opposite (acc : AccumulationMode) (own_entry own_exit : bool) : Act :=
  if own_exit then leave acc
  else if own_entry then (if allows_adding acc then Grow else Nothing)
  else Nothing.
Definition in_position_act (oe : OppositeEntryMode) (acc : AccumulationMode)
    (own_entry own_exit other_entry : bool) : Act :=
  if other_entry then
    match oe with
    | OIgnore => without_opposite acc own_entry own_exit
    | OClose => CloseOut
    | OCloseReduce => leave acc
    | OReverse => Turn
    | OReverseReduce => if allows_removing acc then ReduceOrTurn else Turn
    end
  else without_opposite acc own_entry own_exit.

Definition documented_act (sd : Side) (lc sc : ConflictMode) (dc : DirectionConflictMode)
    (oe : OppositeEntryMode) (acc : AccumulationMode) (s : Sig) : Act :=
  let inp := match sd with Flat => false | _ => true end in
  let le1 := entry_counts lc inp (g_le s) (g_lx s) in
  let se1 := entry_counts sc inp (g_se s) (g_sx s) in
  let lx := exit_counts lc inp (g_le s) (g_lx s) in
  let sx := exit_counts sc inp (g_se s) (g_sx s) in
  let le := long_counts dc sd le1 se1 in
  let se := short_counts dc sd le1 se1 in
  match sd with
  | Flat => if le then OpenLong else if se then OpenShort else Nothing
  | InLong => in_position_act oe acc le lx se
  | InShort => in_position_act oe acc se sx le
  end.

(** What a stop does to a position. *)
Definition stop_act (m : StopExitMode) (acc : AccumulationMode) : Act :=
  match m with
  | SClose => CloseOut
  | SCloseReduce => leave acc
  | SReverse => Turn
  | SReverseReduce => if allows_removing acc then ReduceOrTurn else Turn
  end.

Section FromSignalsSpec.
  Context {T : Type} {N : Num T}.

  Definition on_side (pos : T) (sd : Side) : Prop :=
    match sd with
    | InLong => ltb zero pos = true
    | InShort => ltb pos zero = true
    | Flat => eqb pos zero = true
    end.

  (** The order (size, type, direction) that does it; sizes below zero sell.
      An order whose direction is [LongOnly] or [ShortOnly] cannot go past a
      flat position. A missing (NaN) size turns a position into a flat one. *)
  Definition order_of (sd : Side) (pos size vp : T) (stype : SizeType) (a : Act)
    : res (T * SizeType * Direction) :=
    let own := match sd with InLong => LongOnly | InShort => ShortOnly | Flat => BothDir end in
    let away := match sd with InShort => (fun x : T => x) | _ => neg end in   (* against the position *)
    let into := match sd with InShort => neg | _ => (fun x : T => x) end in
    match a with
    | Nothing => Ok (zero, stype, BothDir)
    | OpenLong => Ok (size, stype, BothDir)
    | OpenShort => Ok (neg size, stype, BothDir)
    | Grow => Ok (into size, stype, own)
    | Reduce => Ok (away size, stype, own)
    | ReduceOrTurn => Ok (away size, stype, BothDir)
    | CloseOut => Ok (away (abs pos), Amount, own)
    | Turn =>
        if isnan size then Ok (away (abs pos), Amount, BothDir)
        else
          let step := match sd with InShort => add | _ => sub end in
          match stype with
          | Percent => Err (ValueError "SizeType.Percent does not support position reversal using signals")
          | Value => if eqb vp zero then Err ZeroDivision
                     else Ok (step (away (abs pos)) (div size vp), Amount, BothDir)
          | _ => Ok (step (away (abs pos)) size, Amount, BothDir)
          end
    end.

  (** Two orders ask for the same: a zero order is no order at all. *)
  Definition same_order (a b : res (T * SizeType * Direction)) : Prop :=
    match a, b with
    | Ok (s1, t1, d1), Ok (s2, t2, d2) =>
        (s1 = zero /\ s2 = zero) \/ (s1 = s2 /\ t1 = t2 /\ d1 = d2)
    | Err e1, Err e2 => e1 = e2
    | _, _ => False
    end.

  (** ** Stops *)

  (** The price at which a stop triggers: a stop-loss lies on the losing side
      of the reference price, a take-profit on the winning side. *)
  Definition stop_level (sd : Side) (loss : bool) (ref stop : T) : T :=
    match sd, loss with
    | InLong, true | InShort, false => mul ref (sub one stop)
    | _, _ => mul ref (add one stop)
    end.
  (** Whether the level is approached from above. *)
  Definition from_above (sd : Side) (loss : bool) : bool :=
    match sd, loss with InLong, true | InShort, false => true | _, _ => false end.
  (** The bar reaches the level; the bar opens beyond the level. *)
  Definition reaches (above : bool) (level low high : T) : Prop :=
    if above then leb low level = true else leb level high = true.
  Definition gaps (above : bool) (level open : T) : Prop :=
    if above then leb open level = true else leb level open = true.

  (** A stop of the given reference price and distance triggers within the bar
      and the position is left at price [p]: the opening price if the bar opens
      beyond the level, else the level. *)
  Definition triggers (sd : Side) (loss : bool) (ref stop open low high p : T) : Prop :=
    let level := stop_level sd loss ref stop in
    let above := from_above sd loss in
    isnan stop = false /\ reaches above level low high /\
    (gaps above level open -> p = open) /\ (~ gaps above level open -> p = level).
  Definition silent (sd : Side) (loss : bool) (ref stop low high : T) : Prop :=
    isnan stop = true \/ ~ reaches (from_above sd loss) (stop_level sd loss ref stop) low high.

  (** Price and slippage of an order placed by a stop that triggers at [p]. *)
  Definition exit_terms (m : StopExitPrice) (p price close slippage : T) : T * T :=
    match m with
    | StopLimit => (p, zero)
    | StopMarket => (p, slippage)
    | XPrice => (price, slippage)
    | XClose => (close, slippage)
    end.

  (** [r] is the largest of [x0] and the numbers among [xs]. *)
  Definition largest_of (r x0 : T) (xs : list T) : Prop :=
    leb x0 r = true /\ (r = x0 \/ In r xs) /\
    forall x, In x xs -> isnan x = false -> leb x r = true.
  Definition smallest_of (r x0 : T) (xs : list T) : Prop :=
    leb r x0 = true /\ (r = x0 \/ In r xs) /\
    forall x, In x xs -> isnan x = false -> leb r x = true.

  Definition bar_high (inp : SigInputs T) (i c : nat) : T := snd (resolve_bar inp i c).
  Definition bar_low (inp : SigInputs T) (i c : nat) : T := snd (fst (resolve_bar inp i c)).

  (** ** Inputs *)

  (** Everything supplied for one bar and column is the same in two inputs. *)
  Record same_cell (i1 i2 : SigInputs T) (i c1 c2 : nat) : Prop := mkSameCell {
    sc_base : cell (si_base i1) i c1 = cell (si_base i2) i c2;
    sc_bar : (si_open i1 i c1, si_high i1 i c1, si_low i1 i c1) =
             (si_open i2 i c2, si_high i2 i c2, si_low i2 i c2);
    sc_modes : (si_accumulate i1 i c1, si_long_conflict i1 i c1, si_short_conflict i1 i c1,
                si_dir_conflict i1 i c1, si_opposite i1 i c1) =
               (si_accumulate i2 i c2, si_long_conflict i2 i c2, si_short_conflict i2 i c2,
                si_dir_conflict i2 i c2, si_opposite i2 i c2);
    sc_stops : (si_sl_stop i1 i c1, si_sl_trail i1 i c1, si_tp_stop i1 i c1, si_entry_price i1 i c1,
                (si_exit_price i1 i c1, si_stop_exit i1 i c1, si_stop_update i1 i c1)) =
               (si_sl_stop i2 i c2, si_sl_trail i2 i c2, si_tp_stop i2 i c2, si_entry_price i2 i c2,
                (si_exit_price i2 i c2, si_stop_exit i2 i c2, si_stop_update i2 i c2));
    sc_signals : forall p v, si_signals i1 i c1 p v = si_signals i2 i c2 p v;
    sc_sl : forall p v s, si_adjust_sl i1 i c1 p v s = si_adjust_sl i2 i c2 p v s;
    sc_tp : forall p v s, si_adjust_tp i1 i c1 p v s = si_adjust_tp i2 i c2 p v s }.

  (** The columns from [from] on, as a separate portfolio. *)
  Definition shift_sig (from : nat) (inp : SigInputs T) : SigInputs T :=
    mkSigInputs (shift_inputs from (si_base inp))
      (fun i c => si_open inp i (from + c)) (fun i c => si_high inp i (from + c)) (fun i c => si_low inp i (from + c))
      (fun i c => si_accumulate inp i (from + c)) (fun i c => si_long_conflict inp i (from + c))
      (fun i c => si_short_conflict inp i (from + c)) (fun i c => si_dir_conflict inp i (from + c))
      (fun i c => si_opposite inp i (from + c)) (fun i c => si_sl_stop inp i (from + c))
      (fun i c => si_sl_trail inp i (from + c)) (fun i c => si_tp_stop inp i (from + c))
      (fun i c => si_entry_price inp i (from + c)) (fun i c => si_exit_price inp i (from + c))
      (fun i c => si_stop_exit inp i (from + c)) (fun i c => si_stop_update inp i (from + c))
      (fun i c => si_signals inp i (from + c)) (fun i c => si_adjust_sl inp i (from + c))
      (fun i c => si_adjust_tp inp i (from + c)).
End FromSignalsSpec.
