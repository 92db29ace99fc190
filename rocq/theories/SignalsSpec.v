(** * Vocabulary for the signal properties (C32-C38) *)
From Coq Require Import ZArith Bool List Arith Sorting.
From Verif Require Import Base Num SignalsNb.
Import ListNotations.
Open Scope list_scope.
Open Scope nat_scope.

(** The signal [l] is true at bar [i]. *)
Definition tr (l : list bool) (i : nat) : Prop := nth i l false = true.

(** [next] is the first true bar after [e], if there is one. *)
Definition next_true (l : list bool) (e : nat) (next : option nat) : Prop :=
  match next with
  | Some e' => e < e' /\ tr l e' /\ forall j, e < j < e' -> ~ tr l j
  | None => forall j, e < j -> ~ tr l j
  end.

(** Where the window of an entry ends: at the next entry if [until_next], else
    at the end of the array *)
Definition window_end (n : nat) (until_next : bool) (next : option nat) : Z :=
  match next with Some e => if until_next then Z.of_nat e else Z.of_nat n | None => Z.of_nat n end.

(** [c] returns its indices in ascending order. *)
Definition ascending (c : Choice) : Prop := forall k from to, StronglySorted Z.le (c k from to).

(** The entries and exits come from groups of bars that alternate: the groups
    number 0, 2, 4, ... are the entries, the groups 1, 3, 5, ... the exits.
    All bars of a group come at least the waiting time after all bars of the
    group before. A group is a single bar if only the first index is picked. *)
Definition enex_groups (n : nat) (entry_wait exit_wait : Z) (entry_pick_first exit_pick_first : bool)
    (entries exits : list bool) (groups : list (list nat)) : Prop :=
  (forall k g, nth_error groups k = Some g -> g <> [] /\ forall x, In x g -> x < n) /\
  (forall i, tr entries i <-> exists k g, nth_error groups (2 * k) = Some g /\ In i g) /\
  (forall i, tr exits i <-> exists k g, nth_error groups (2 * k + 1) = Some g /\ In i g) /\
  (forall k g h x y, nth_error groups k = Some g -> nth_error groups (S k) = Some h -> In x g -> In y h ->
     (Z.of_nat x + (if Nat.even k then exit_wait else entry_wait) <= Z.of_nat y)%Z) /\
  (entry_pick_first = true -> forall k g, nth_error groups (2 * k) = Some g -> length g = 1) /\
  (exit_pick_first = true -> forall k g, nth_error groups (2 * k + 1) = Some g -> length g = 1).

(** ** Stops *)
Section StopSpec.
  Context {T : Type} {N : Num T}.

  (** The lowest and the highest of a starting price and later ones; a price
      that is not a number never counts. *)
  Definition lowest (p0 : T) (ps : list T) : T := fold_left (fun m p => if ltb p m then p else m) ps p0.
  Definition highest (p0 : T) (ps : list T) : T := fold_left (fun m p => if gtb p m then p else m) ps p0.

  (** The bars [from .. i-1] *)
  Definition before (from i : nat) : list nat := seq from (i - from).

  (** The level a stop placed at bar [entry] has at bar [i] *)
  Definition level_at (price : nat -> T) (stop : T) (trailing : bool) (entry from i : nat) : T :=
    if trailing then
      if geb stop zero then mul (lowest (price entry) (map price (before from i))) (add one (abs stop))
      else mul (highest (price entry) (map price (before from i))) (sub one (abs stop))
    else mul (price entry) (add one stop).

  (** A positive stop is reached from below, a negative one from above. *)
  Definition stop_reached (price : nat -> T) (stop : T) (trailing : bool) (entry from i : nat) : bool :=
    negb (isnan stop) &&
    (let level := level_at price stop trailing entry from i in
     if geb stop zero then geb (price i) level else leb (price i) level).

  (** High and low that count at bar [i]: those of the bar, but at the entry
      bar itself only the close, unless the entry is at the open. *)
  Definition high_at (bar : nat -> Bar T) (open_safe : bool) (entry i : nat) : T :=
    if Nat.ltb entry i || open_safe then b_high (complete_bar (bar i)) else b_close (bar i).
  Definition low_at (bar : nat -> Bar T) (open_safe : bool) (entry i : nat) : T :=
    if Nat.ltb entry i || open_safe then b_low (complete_bar (bar i)) else b_close (bar i).

  (** The stop loss level at bar [i]: for a long the entry price or, if
      trailing, the highest price so far, lowered by the stop; for a short
      ([oa_reverse]) the mirror image. *)
  Definition sl_at (bar : nat -> Bar T) (a : OhlcArgs T) (open_safe : bool) (entry from i : nat) : T :=
    let p0 := b_open (bar entry) in
    let lo := lowest p0 (map (low_at bar open_safe entry) (before from i)) in
    let hi := highest p0 (map (high_at bar open_safe entry) (before from i)) in
    match oa_reverse a with
    | false => mul (if oa_trail a then hi else p0) (sub one (oa_sl a))
    | true => mul (if oa_trail a then lo else p0) (add one (oa_sl a))
    end.
  Definition tp_at (bar : nat -> Bar T) (a : OhlcArgs T) (entry : nat) : T :=
    let p0 := b_open (bar entry) in
    if oa_reverse a then mul p0 (sub one (oa_tp a)) else mul p0 (add one (oa_tp a)).

  Definition sl_reached (bar : nat -> Bar T) (a : OhlcArgs T) (open_safe : bool) (entry from i : nat) : bool :=
    negb (isnan (oa_sl a)) &&
    (if oa_reverse a then geb (high_at bar open_safe entry i) (sl_at bar a open_safe entry from i)
     else leb (low_at bar open_safe entry i) (sl_at bar a open_safe entry from i)).
  Definition tp_reached (bar : nat -> Bar T) (a : OhlcArgs T) (open_safe : bool) (entry i : nat) : bool :=
    negb (isnan (oa_tp a)) &&
    (if oa_reverse a then leb (low_at bar open_safe entry i) (tp_at bar a entry)
     else geb (high_at bar open_safe entry i) (tp_at bar a entry)).

  (** The exit of bar [i]: price and kind. The stop loss goes first. *)
  Definition exit_at (bar : nat -> Bar T) (a : OhlcArgs T) (open_safe : bool) (entry from i : nat)
    : list (nat * T * StopType) :=
    if sl_reached bar a open_safe entry from i
    then [(i, sl_at bar a open_safe entry from i, if oa_trail a then TrailStop else StopLoss)]
    else if tp_reached bar a open_safe entry i then [(i, tp_at bar a entry, TakeProfit)]
    else [].
End StopSpec.

(** ** Ranks *)

(** The last reset at or before bar [i], or 0 *)
Fixpoint last_reset (reset : list bool) (i : nat) : nat :=
  if nth i reset false then i else match i with O => O | S j => last_reset reset j end.

(** A signal counts unless [after_false] is set and no false came before. *)
Definition counts (a : list bool) (after_false : bool) (i : nat) : bool :=
  nth i a false && (negb after_false || existsb (fun j => negb (nth j a false)) (seq 0 i)).

(** The start of the run of counting signals that bar [i] belongs to *)
Fixpoint run_start (c : nat -> bool) (i : nat) : nat :=
  match i with
  | O => O
  | S j => if c j then run_start c j else i
  end.

(** Number of bars in [lo, hi) with property [c] *)
Definition count_in (c : nat -> bool) (lo hi : nat) : nat := length (filter c (seq lo (hi - lo))).

(** Bar [j] begins a partition when counting begins at [r]. *)
Definition begins (c : nat -> bool) (r j : nat) : bool :=
  c j && (Nat.eqb j r || negb (c (j - 1))).

(** ** Ranges *)

(** From a signal to the next signal of the same array *)
Definition is_between (a : list bool) (r : Range) : Prop :=
  rg_closed r = true /\ tr a (rg_start r) /\ tr a (rg_end r) /\ rg_start r < rg_end r /\
  forall j, rg_start r < j < rg_end r -> ~ tr a j.

(** From a signal of [a] to the first signal of [b] at or after it *)
Definition is_to_next (a b : list bool) (r : Range) : Prop :=
  rg_closed r = true /\ tr a (rg_start r) /\ tr b (rg_end r) /\ rg_start r <= rg_end r /\
  forall j, rg_start r <= j < rg_end r -> ~ tr b j.

(** From the last signal of [a] at or before a signal of [b] to that signal *)
Definition is_from_prev (a b : list bool) (r : Range) : Prop :=
  rg_closed r = true /\ tr a (rg_start r) /\ tr b (rg_end r) /\ rg_start r <= rg_end r /\
  forall j, rg_start r < j <= rg_end r -> ~ tr a j.

(** A maximal run of signals: it ends with the first bar that is false, or is
    open and ends with the last bar. *)
Definition is_partition (a : list bool) (r : Range) : Prop :=
  rg_start r <= rg_end r /\
  (rg_start r = 0 \/ ~ tr a (rg_start r - 1)) /\ tr a (rg_start r) /\
  (forall j, rg_start r <= j < rg_end r -> tr a j) /\
  if rg_closed r then ~ tr a (rg_end r) /\ rg_end r < length a
  else rg_end r = length a - 1 /\ tr a (rg_end r).

(** From the last signal of a run to the first of the next one *)
Definition is_gap (a : list bool) (r : Range) : Prop :=
  rg_closed r = true /\ tr a (rg_start r) /\ tr a (rg_end r) /\ rg_start r + 1 < rg_end r /\
  forall j, rg_start r < j < rg_end r -> ~ tr a j.

(** [l] lists exactly the records with property [P], in order of [key]. *)
Definition lists_exactly (key : Range -> nat) (P : Range -> Prop) (l : list Range) : Prop :=
  (forall r, In r l <-> P r) /\ StronglySorted (fun r r' => key r < key r') l.
