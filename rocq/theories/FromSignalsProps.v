(** * Properties of simulating from signals (C13, C14, C18-C20, C59)

    Statements only: every theorem is closed by a lemma proved elsewhere, its
    assumptions are printed, and an example shows that its hypotheses are met. *)
From Coq Require Import String ZArith QArith List Bool Arith Lia.
From Verif Require Import Base Num B64 MathNb Order XQFacts CallSeq Account Simulate SimSpec OrdLaws OrderRuns
  FromSignals FromSignalsSpec FromSignalsLemmas FromSignalsLemmas2 FromSignalsLemmas3 FromSignalsLemmas4
  FromSignalsLemmas5 FromSignalsLemmas6 FromSignalsLemmas7 SimProps.
Import ListNotations.
Local Open Scope nat_scope.

(** ** Concrete inputs used by the examples *)

Definition no_signal (i c : nat) : bool := false.
Definition at_bar (b : nat) (i c : nat) : bool := Nat.eqb i b.
Definition demo_close : nat -> nat -> XQ :=
  table (Fin 0) [[Fin 10]; [Fin 12]; [Fin 15]; [Fin 13]; [Fin 11]; [Fin 9]].
Definition demo_low : nat -> nat -> XQ :=
  table (Fin 0) [[Fin 9]; [Fin 11]; [Fin 14]; [Fin 13]; [Fin 10]; [Fin 8]].
Definition demo_high : nat -> nat -> XQ :=
  table (Fin 0) [[Fin 11]; [Fin 13]; [Fin 16]; [Fin 15]; [Fin 13]; [Fin 10]].
Definition demo_open : nat -> nat -> XQ :=
  table (Fin 0) [[Fin 10]; [Fin 11]; [Fin 14]; [Fin 14]; [Fin 13]; [Fin 10]].

(** Buy 2 at the close; stop-loss at 20% below the highest price, take-profit
    at 100%. *)
Definition demo_base (reject : nat -> nat -> XQ) : Inputs XQ :=
  mkInputs (fun _ _ => Fin 2) demo_close (fun _ _ => Amount) (fun _ _ => LongOnly) (fun _ _ => Fin 0)
    (fun _ _ => Fin 0) (fun _ _ => Fin (1 # 100)) (fun _ _ => Fin 0) (fun _ _ => PInf) (fun _ _ => NaN)
    reject (fun _ _ => false) (fun _ _ => true) (fun _ _ => false) (fun _ _ => true)
    demo_close demo_close (fun _ _ => 0).
Definition demo_sig (reject : nat -> nat -> XQ) (trail : bool) : SigInputs XQ :=
  mkSigInputs (demo_base reject) demo_open demo_high demo_low (fun _ _ => AccDisabled)
    (fun _ _ => CIgnore) (fun _ _ => CIgnore) (fun _ _ => DIgnore) (fun _ _ => OReverseReduce)
    (fun _ _ => Fin (2 # 10)) (fun _ _ => trail) (fun _ _ => Fin 1) (fun _ _ => EClose) (fun _ _ => StopLimit)
    (fun _ _ => SClose) (fun _ _ => UKeep) (ls_enex_signal_func_nb (at_bar 0) no_signal no_signal no_signal)
    no_adjust_sl no_adjust_tp.
Definition demo_sig_flags := mkSigFlags demo_flags true.
Definition demo_sig_init := sig_init (demo_sig no_reject true) 6 1 None 20 0.
Definition demo_start : SSim XQ :=
  mkSSim (Fin 100) (Fin 100) (ss_value demo_sig_init) (ss_cols demo_sig_init) (ss_seq demo_sig_init) (ss_rc demo_sig_init).

(** ** C18 *)

(** Whatever the signals of a bar, the order placed for the column is the one
    the documentation prescribes for its position, modes and signals, at the
    given price and slippage (no stops in use, or none set). *)
Theorem C18_signals_act_as_documented : forall {T} {N : Num T} {L : OrdLaws N} (inp : SigInputs T) fl i cash free
    cols col cols' sd,
  signal_step inp fl i cash free cols col = Ok cols' ->
  on_side (c_pos (cols col)) sd ->
  use_stops fl = false \/ c_stops (cols col) = no_stops /\ isnan (nan : T) = true /\
    si_adjust_sl inp = no_adjust_sl /\ si_adjust_tp inp = no_adjust_tp ->
  let c := cols col in let c' := cols' col in
  same_order (Ok (c_size c', c_stype c', c_dir c'))
    (order_of sd (c_pos c) (in_size (si_base inp) i col) (c_vp c) (in_size_type (si_base inp) i col)
      (documented_act sd (si_long_conflict inp i col) (si_short_conflict inp i col)
         (si_dir_conflict inp i col) (si_opposite inp i col) (si_accumulate inp i col)
         (si_signals inp i col (c_pos c) (c_vp c)))) /\
  (c_price c', c_slip c') = (c_price c, in_slippage (si_base inp) i col).
Proof. exact @signals_decide. Qed.
Print Assumptions C18_signals_act_as_documented.

(** The same for a single call, with sizes of the three supported types. *)
Theorem C18_conflicts_resolve_as_documented : forall {T} {N : Num T} {L : OrdLaws N} (p size vp : T) sd s lc sc dc oe acc stype,
  on_side p sd -> signal_size_type stype = true -> is_less_nb size zero = false ->
  let '(s', acc') := resolve_conflicts p s lc sc dc oe acc in
  same_order (signals_to_size_nb p s' size stype acc' vp)
             (order_of sd p size vp stype (documented_act sd lc sc dc oe acc s)).
Proof. exact @signals_documented. Qed.
Print Assumptions C18_conflicts_resolve_as_documented.

(** Target sizes and negative sizes are refused. *)
Theorem C18_other_sizes_refused : forall {T} {N : Num T} (p size vp : T) s acc stype r,
  signals_to_size_nb p s size stype acc vp = Ok r ->
  (stype = Amount \/ stype = Value \/ stype = Percent) /\ is_less_nb size zero = false.
Proof.
  exact (fun T N p size vp s acc stype r H =>
    match @bad_size_refused T N p size vp s acc stype r H with
    | conj a b => conj (match stype return signal_size_type stype = true -> stype = Amount \/ stype = Value \/ stype = Percent with
                        | Amount => fun _ => or_introl eq_refl
                        | Value => fun _ => or_intror (or_introl eq_refl)
                        | Percent => fun _ => or_intror (or_intror eq_refl)
                        | _ => fun e => False_ind _ (diff_false_true e)
                        end a) b
    end).
Qed.
Print Assumptions C18_other_sizes_refused.

(** Several signals can survive the resolution (both exits, or an entry with
    the other direction's exit); only one of them acts. *)
Theorem C18_one_signal_survives_refuted : exists (p : XQ) s lc sc dc oe acc,
  let s' := fst (resolve_conflicts p s lc sc dc oe acc) in g_le s' = true /\ g_sx s' = true.
Proof.
  exists (Fin 1), (mkSig true false false true), CIgnore, CIgnore, DIgnore, OIgnore, AccDisabled.
  vm_compute. auto.
Qed.
Print Assumptions C18_one_signal_survives_refuted.

Example C18_nonvacuous :
  (* a long position of 3, a short entry under Reverse: sell 3 + 2 *)
  (on_side (Fin 3) InLong /\ is_less_nb (Fin 2) zero = false /\
   documented_act InLong CIgnore CIgnore DIgnore OReverse AccDisabled (mkSig false false true false) = Turn /\
   order_of InLong (Fin 3) (Fin 2) (Fin 10) Amount Turn = Ok (Fin (- (5)), Amount, BothDir)) /\
  (* an entry and an exit at once, "opposite" mode, while in the position: close it *)
  documented_act InShort CIgnore COpposite DIgnore OIgnore AccDisabled (mkSig false false true true) = CloseOut /\
  (* flat: conflicting directions cancel each other *)
  documented_act Flat CIgnore CIgnore DIgnore OReverse AccBoth (mkSig true false true false) = Nothing /\
  documented_act Flat CIgnore CIgnore DShort OReverse AccBoth (mkSig true false true false) = OpenShort /\
  match signal_step (demo_sig no_reject true) demo_sig_flags 0 (Fin 100) (Fin 100)
      (fold_left (sig_price_step (demo_sig no_reject true) demo_sig_flags 0) [0] (ss_cols demo_start)) 0 with
  | Ok cols' => c_size (cols' 0) = Fin 2
  | Err _ => False
  end.
Proof. repeat split; vm_compute; reflexivity. Qed.

(** ** C19 *)

(** Two runs whose inputs, signals and stop adjustments agree on the first [t]
    bars produce the same order records, log records and call sequence for
    those bars; any number type. *)
Theorem C19_no_look_ahead : forall {T} {N : Num T} draws rng t n1 n2 ncols lens init (i1 i2 : SigInputs T)
    fl mo1 ml1 mo2 ml2 o1 l1 s1 o2 l2 s2,
  (forall i c, i < t -> c < ncols -> same_cell i1 i2 i c c) -> t <= n1 -> t <= n2 ->
  (forall i c, i < t -> c < ncols -> gtb (in_reject_prob (si_base i1) i c) zero = false) \/ List.length lens <= 1 ->
  simulate_from_signal_func_nb draws rng n1 ncols lens init i1 fl mo1 ml1 = Ok (o1, l1, s1) ->
  simulate_from_signal_func_nb draws rng n2 ncols lens init i2 fl mo2 ml2 = Ok (o2, l2, s2) ->
  map (order_view 0) (orders_before t o1) = map (order_view 0) (orders_before t o2) /\
  map (log_view 0) (logs_before t l1) = map (log_view 0) (logs_before t l2) /\
  forall i c, i < t -> c < ncols -> s1 i c = s2 i c.
Proof. exact @sig_no_look_ahead. Qed.
Print Assumptions C19_no_look_ahead.

(** A run over all six bars with a stop exit, and one that agrees on four bars
    and has another entry later. *)
Definition demo_sig2 : SigInputs XQ :=
  with_signals (ls_enex_signal_func_nb (fun i _ => (Nat.eqb i 0 || Nat.eqb i 5)%bool) (at_bar 4) no_signal no_signal)
    (demo_sig no_reject true).
Example C19_nonvacuous :
  (forall i c, i < 4 -> c < 1 -> same_cell (demo_sig no_reject true) demo_sig2 i c c) /\
  exists o1 l1 s1 o2 l2 s2,
    simulate_from_signal_func_nb no_draws 0 6 1 [1] [Fin 100] (demo_sig no_reject true) demo_sig_flags None 20 = Ok (o1, l1, s1) /\
    simulate_from_signal_func_nb no_draws 0 6 1 [1] [Fin 100] demo_sig2 demo_sig_flags None 20 = Ok (o2, l2, s2) /\
    List.length o1 = 2 /\ List.length o2 = 3 /\
    map or_idx o1 = [0; 4] /\ map or_price o1 = [Fin (101 # 10); Fin (64 # 5)].
Proof.
  split.
  - intros i c Hi Hc. assert (c = 0) by lia. subst c. constructor; intros; try reflexivity.
    do 4 (destruct i as [|i]; [reflexivity|]). lia.
  - do 6 eexists. repeat (split; [vm_compute; reflexivity|]). vm_compute; reflexivity.
Qed.

(** ** C20 *)

(** When the position has a stop-loss or take-profit and the bar reaches it,
    the documented exit is placed at the documented price, whatever the user's
    signals; the stop-loss goes first. When the bar reaches neither, the user's
    signals decide. *)
Theorem C20_stops_trigger_exactly : forall {T} {N : Num T} {L : OrdLaws N} (inp : SigInputs T) fl i cash free
    cols col cols' o l h sd,
  signal_step inp fl i cash free cols col = Ok cols' ->
  use_stops fl = true -> si_adjust_sl inp = no_adjust_sl -> si_adjust_tp inp = no_adjust_tp ->
  isnan (nan : T) = true ->
  on_side (c_pos (cols col)) sd -> sd <> Flat ->
  resolve_bar inp i col = (o, l, h) -> leb l o = true -> leb o h = true ->
  let c := cols col in let c' := cols' col in let s := c_stops c in
  let acts a := same_order (Ok (c_size c', c_stype c', c_dir c'))
                  (order_of sd (c_pos c) (in_size (si_base inp) i col) (c_vp c) (in_size_type (si_base inp) i col) a) in
  (forall p, triggers sd true (sl_curr_price s) (sl_curr_stop s) o l h p \/
             (silent sd true (sl_curr_price s) (sl_curr_stop s) l h /\
              triggers sd false (tp_init_price s) (tp_curr_stop s) o l h p) ->
     acts (stop_act (si_stop_exit inp i col) (si_accumulate inp i col)) /\
     (c_price c', c_slip c') = exit_terms (si_exit_price inp i col) p (c_price c)
       (in_close (si_base inp) i col) (in_slippage (si_base inp) i col)) /\
  (silent sd true (sl_curr_price s) (sl_curr_stop s) l h ->
   silent sd false (tp_init_price s) (tp_curr_stop s) l h ->
     acts (documented_act sd (si_long_conflict inp i col) (si_short_conflict inp i col)
             (si_dir_conflict inp i col) (si_opposite inp i col) (si_accumulate inp i col)
             (si_signals inp i col (c_pos c) (c_vp c))) /\
     (c_price c', c_slip c') = (c_price c, in_slippage (si_base inp) i col)).
Proof. exact @stop_decides. Qed.
Print Assumptions C20_stops_trigger_exactly.

(** In exact arithmetic, with limit stops, every order of the column in such a
    bar is filled at the stop price. *)
Theorem C20_limit_stop_fills_at_stop_price : forall draws (inp : SigInputs XQ) fl sh g f len st i st' col sd o l h p,
  sig_bar_step draws inp fl sh g f len st i = Ok st' -> f <= col < f + len ->
  use_stops fl = true -> si_adjust_sl inp = no_adjust_sl -> si_adjust_tp inp = no_adjust_tp ->
  on_side (c_pos (ss_cols st col)) sd -> sd <> Flat ->
  resolve_bar inp i col = (o, l, h) -> leb l o = true -> leb o h = true ->
  si_exit_price inp i col = StopLimit ->
  let s := c_stops (ss_cols st col) in
  triggers sd true (sl_curr_price s) (sl_curr_stop s) o l h (Fin p) \/
  (silent sd true (sl_curr_price s) (sl_curr_stop s) l h /\
   triggers sd false (tp_init_price s) (tp_curr_stop s) o l h (Fin p)) ->
  exists a, rc_orders (ss_rc st') = (rc_orders (ss_rc st) ++ a)%list /\
    Forall (fun r => or_col r = col -> or_idx r = i /\ exists q, or_price r = Fin q /\ (q == p)%Q) a.
Proof. exact limit_stop_fills. Qed.
Print Assumptions C20_limit_stop_fills_at_stop_price.

(** Missing prices of a bar are filled in without changing given ones, and
    leave the bar well-formed. *)
Theorem C20_missing_bar_prices : forall {T} {N : Num T} {L : OrdLaws N} (inp : SigInputs T) i c,
  let o0 := si_open inp i c in let l0 := si_low inp i c in
  let h0 := si_high inp i c in let cl := in_close (si_base inp) i c in
  isnan cl = false ->
  (isnan l0 = false -> leb l0 cl = true /\ (isnan o0 = false -> leb l0 o0 = true)) ->
  (isnan h0 = false -> leb cl h0 = true /\ (isnan o0 = false -> leb o0 h0 = true)) ->
  let '(o, l, h) := resolve_bar inp i c in
  leb l o = true /\ leb o h = true /\ (isnan o0 = false -> o = o0) /\
  (isnan l0 = false -> l = l0) /\ (isnan h0 = false -> h = h0).
Proof. exact @resolved_bar_ok. Qed.
Print Assumptions C20_missing_bar_prices.

(** While a position is held (its column has no order), a trailing stop follows
    the highest high (lowest low) seen since it was set: the level never moves
    against the position. *)
Theorem C20_trailing_stop_long : forall {T} {N : Num T} {L : OrdLaws N} draws (inp : SigInputs T) fl sh g f len col n b st st',
  foldM (sig_bar_step draws inp fl sh g f len) st (seq b n) = Ok st' -> f <= col < f + len ->
  (exists a, rc_orders (ss_rc st') = (rc_orders (ss_rc st) ++ a)%list /\ Forall (fun r => or_col r <> col) a) ->
  is_close_nb (c_pos (ss_cols st col)) zero = false -> on_side (c_pos (ss_cols st col)) InLong ->
  use_stops fl = true -> si_adjust_sl inp = no_adjust_sl -> si_adjust_tp inp = no_adjust_tp ->
  isnan (sl_curr_stop (c_stops (ss_cols st col))) = false -> sl_curr_trail (c_stops (ss_cols st col)) = true ->
  isnan (sl_curr_price (c_stops (ss_cols st col))) = false ->
  let s := c_stops (ss_cols st col) in let s' := c_stops (ss_cols st' col) in
  c_pos (ss_cols st' col) = c_pos (ss_cols st col) /\
  sl_curr_stop s' = sl_curr_stop s /\ sl_curr_trail s' = true /\
  largest_of (sl_curr_price s') (sl_curr_price s) (map (fun i => bar_high inp i col) (seq b n)).
Proof. exact @trailing_long. Qed.
Print Assumptions C20_trailing_stop_long.

Theorem C20_trailing_stop_short : forall {T} {N : Num T} {L : OrdLaws N} draws (inp : SigInputs T) fl sh g f len col n b st st',
  foldM (sig_bar_step draws inp fl sh g f len) st (seq b n) = Ok st' -> f <= col < f + len ->
  (exists a, rc_orders (ss_rc st') = (rc_orders (ss_rc st) ++ a)%list /\ Forall (fun r => or_col r <> col) a) ->
  is_close_nb (c_pos (ss_cols st col)) zero = false -> on_side (c_pos (ss_cols st col)) InShort ->
  use_stops fl = true -> si_adjust_sl inp = no_adjust_sl -> si_adjust_tp inp = no_adjust_tp ->
  isnan (sl_curr_stop (c_stops (ss_cols st col))) = false -> sl_curr_trail (c_stops (ss_cols st col)) = true ->
  isnan (sl_curr_price (c_stops (ss_cols st col))) = false ->
  let s := c_stops (ss_cols st col) in let s' := c_stops (ss_cols st' col) in
  c_pos (ss_cols st' col) = c_pos (ss_cols st col) /\
  sl_curr_stop s' = sl_curr_stop s /\ sl_curr_trail s' = true /\
  smallest_of (sl_curr_price s') (sl_curr_price s) (map (fun i => bar_low inp i col) (seq b n)).
Proof. exact @trailing_short. Qed.
Print Assumptions C20_trailing_stop_short.

(** A reachable state: entry at bar 0, held through bars 1-3 while the
    reference price rises to 16, stopped out in bar 4 at 16 * 0.8. *)
Definition demo_entered : SSim XQ :=
  match sig_bar_step no_draws (demo_sig no_reject true) demo_sig_flags false 0 0 1 demo_start 0 with
  | Ok s => s | Err _ => demo_start end.
Definition demo_held : SSim XQ :=
  match foldM (sig_bar_step no_draws (demo_sig no_reject true) demo_sig_flags false 0 0 1) demo_entered [1; 2; 3] with
  | Ok s => s | Err _ => demo_start end.
Example C20_nonvacuous :
  match foldM (sig_bar_step no_draws (demo_sig no_reject true) demo_sig_flags false 0 0 1) demo_entered (seq 1 3) with
  | Ok st' => (rc_orders (ss_rc st') = rc_orders (ss_rc demo_entered) ++ [])%list /\
              sl_curr_price (c_stops (ss_cols st' 0)) = Fin 16
  | Err _ => False
  end /\
  is_close_nb (c_pos (ss_cols demo_entered 0)) zero = false /\ on_side (c_pos (ss_cols demo_entered 0)) InLong /\
  isnan (sl_curr_stop (c_stops (ss_cols demo_entered 0))) = false /\
  sl_curr_trail (c_stops (ss_cols demo_entered 0)) = true /\
  sl_curr_price (c_stops (ss_cols demo_entered 0)) = Fin 10 /\
  (let s := c_stops (ss_cols demo_held 0) in
   triggers InLong true (sl_curr_price s) (sl_curr_stop s) (Fin 13) (Fin 10) (Fin 13) (Fin (64 # 5))) /\
  (let s := c_stops (ss_cols demo_entered 0) in
   silent InLong true (sl_curr_price s) (sl_curr_stop s) (Fin 11) (Fin 13) /\
   silent InLong false (tp_init_price s) (tp_curr_stop s) (Fin 11) (Fin 13)) /\
  match sig_bar_step no_draws (demo_sig no_reject true) demo_sig_flags false 0 0 1 demo_held 4 with
  | Ok st' => map or_price (rc_orders (ss_rc st')) = [Fin (101 # 10); Fin (64 # 5)]
  | Err _ => False
  end.
Proof.
  split; [vm_compute; auto|].
  do 5 (split; [vm_compute; reflexivity|]).
  split; [repeat split; try (vm_compute; reflexivity); try (intros H; vm_compute in H; discriminate)|].
  split; [split; right; intros H; vm_compute in H; discriminate|].
  vm_compute; reflexivity.
Qed.

(** ** C13 and C14 for simulations from signals *)

Theorem C13_groups_independent_signals : forall {T} {N : Num T} draws rng rng' nrows ncols lens init (inp : SigInputs T)
    fl mo ml o l s g len cash from,
  never_random (si_base inp) ->
  simulate_from_signal_func_nb draws rng nrows ncols lens init inp fl (Some mo) ml = Ok (o, l, s) ->
  nth_error lens g = Some len -> nth_error init g = Some cash -> 0 < len ->
  from = sum_lens (firstn g lens) ->
  exists oa la sa,
    simulate_from_signal_func_nb draws rng' nrows len [len] [cash] (shift_sig from inp) fl (Some mo) ml
      = Ok (oa, la, sa) /\
    map (order_view from) (orders_in from len o) = map (order_view 0) oa /\
    map (log_view from) (logs_in from len l) = map (log_view 0) la.
Proof. exact @sig_group_independent. Qed.
Print Assumptions C13_groups_independent_signals.

Theorem C14_signal_orders_chronological : forall {T} {N : Num T} draws rng nrows ncols lens init (inp : SigInputs T) fl mo ml o l s,
  simulate_from_signal_func_nb draws rng nrows ncols lens init inp fl mo ml = Ok (o, l, s) ->
  Forall (fun r => or_col r < ncols /\ or_idx r < nrows) o /\
  List.length o <= nrows * ncols /\
  ForallOrdPairs (fun a b => or_col a = or_col b -> or_idx a <= or_idx b) o.
Proof. exact @sig_orders_chronological. Qed.
Print Assumptions C14_signal_orders_chronological.

Theorem C14_signals_one_order_per_bar : forall {T} {N : Num T} draws rng nrows ncols lens init (inp : SigInputs T) fl mo ml o l s,
  simulate_from_signal_func_nb draws rng nrows ncols lens init inp fl mo ml = Ok (o, l, s) ->
  (forall i g len, i < nrows -> nth_error lens g = Some len ->
     NoDup (map (in_call_seq (si_base inp) i) (seq (sum_lens (firstn g lens)) len))) ->
  ForallOrdPairs (fun a b => or_col a = or_col b -> or_idx a < or_idx b) o.
Proof. exact @sig_orders_one_per_bar. Qed.
Print Assumptions C14_signals_one_order_per_bar.

Theorem C14_signals_default_buffer_suffices : forall {T} {N : Num T} draws rng nrows ncols lens init (inp : SigInputs T) fl ml,
  simulate_from_signal_func_nb draws rng nrows ncols lens init inp fl None ml <>
  Err (IndexError "order_records index out of range. Set a higher max_orders."%string).
Proof. exact @sig_default_buffer_suffices. Qed.
Print Assumptions C14_signals_default_buffer_suffices.

(** Three columns of the demo in two groups of 1 and 2 (shared cash). *)
Definition demo_wide : SigInputs XQ :=
  let d := demo_sig no_reject true in
  mkSigInputs
    (mkInputs (fun _ _ => Fin 2) (fun i _ => demo_close i 0) (fun _ _ => Amount) (fun _ _ => LongOnly) (fun _ _ => Fin 0)
      (fun _ _ => Fin 0) (fun _ _ => Fin 0) (fun _ _ => Fin 0) (fun _ _ => PInf) (fun _ _ => NaN)
      no_reject (fun _ _ => false) (fun _ _ => true) (fun _ _ => false) (fun _ _ => true)
      (fun i _ => demo_close i 0) (fun i _ => demo_close i 0) (fun _ c => if Nat.eqb c 2 then 1 else 0))
    (fun i _ => demo_open i 0) (fun i _ => demo_high i 0) (fun i _ => demo_low i 0)
    (si_accumulate d) (si_long_conflict d) (si_short_conflict d) (si_dir_conflict d) (si_opposite d)
    (si_sl_stop d) (si_sl_trail d) (si_tp_stop d) (si_entry_price d) (si_exit_price d) (si_stop_exit d)
    (si_stop_update d) (fun i c => ls_enex_signal_func_nb (fun i c => Nat.eqb i c) no_signal no_signal no_signal i c)
    no_adjust_sl no_adjust_tp.
Example C14_signals_nonvacuous :
  never_random (si_base demo_wide) /\
  (forall i g len, i < 6 -> nth_error [1; 2] g = Some len ->
     NoDup (map (in_call_seq (si_base demo_wide) i) (seq (sum_lens (firstn g [1; 2])) len))) /\
  exists o l s,
    simulate_from_signal_func_nb no_draws 0 6 3 [1; 2] [Fin 100; Fin 100] demo_wide demo_sig_flags (Some 18) 20 = Ok (o, l, s) /\
    map (fun r => (or_col r, or_idx r)) o = [(0, 0); (0, 4); (1, 1); (2, 2); (1, 4); (2, 4)] /\
    List.length (orders_in 1 2 o) = 4.
Proof.
  split; [intros i c; reflexivity|]. split.
  - intros i g len _ Hg. destruct g as [|[|g]]; cbn in Hg; try (destruct g; discriminate);
      injection Hg as <-; vm_compute; repeat constructor; cbn; intuition discriminate.
  - do 3 eexists. repeat (split; [vm_compute; reflexivity|]). vm_compute; reflexivity.
Qed.

(** ** C59 *)

(** Entries and exits with a direction simulate as the ready-made signal
    function for them does, ... *)
Theorem C59_directional_arrays : forall {T} {N : Num T} e x (inp : SigInputs T) draws rng nrows ncols lens init fl mo ml no,
  (forall i c, no i c = false) ->
  simulate_from_signals_nb draws rng nrows ncols lens init (mkArrays e x no no no no) inp fl mo ml =
  simulate_from_signal_func_nb draws rng nrows ncols lens init
    (with_signals (dir_enex_signal_func_nb e x (in_direction (si_base inp))) inp) fl mo ml.
Proof. exact @arrays_dir. Qed.
Print Assumptions C59_directional_arrays.

(** ... so do separate long and short signals, ... *)
Theorem C59_long_short_arrays : forall {T} {N : Num T} le lx se sx (inp : SigInputs T) draws rng nrows ncols lens init fl mo ml no,
  (forall i c, no i c = false) ->
  simulate_from_signals_nb draws rng nrows ncols lens init (mkArrays no no le lx se sx) inp fl mo ml =
  simulate_from_signal_func_nb draws rng nrows ncols lens init
    (with_signals (ls_enex_signal_func_nb le lx se sx) inp) fl mo ml.
Proof. exact @arrays_ls. Qed.
Print Assumptions C59_long_short_arrays.

(** ... and directional signals can be rewritten as long and short ones. *)
Theorem C59_direction_translates : forall {T} {N : Num T} e x (d : Direction) (inp : SigInputs T) draws rng nrows ncols lens init fl mo ml no,
  (forall i c, no i c = false) -> (forall i c, in_direction (si_base inp) i c = d) ->
  simulate_from_signals_nb draws rng nrows ncols lens init (mkArrays e x no no no no) inp fl mo ml =
  simulate_from_signals_nb draws rng nrows ncols lens init
    (match d with
     | LongOnly => mkArrays no no e x no no
     | ShortOnly => mkArrays no no no no e x
     | BothDir => mkArrays no no e no x no
     end) inp fl mo ml.
Proof. exact @arrays_translate. Qed.
Print Assumptions C59_direction_translates.

Example C59_nonvacuous : exists o l s,
  simulate_from_signals_nb no_draws 0 6 1 [1] [Fin 100]
    (mkArrays (at_bar 1) (at_bar 3) no_signal no_signal no_signal no_signal) (demo_sig no_reject true) demo_sig_flags None 20
    = Ok (o, l, s) /\ map or_idx o = [1; 3].
Proof. do 3 eexists. split; vm_compute; reflexivity. Qed.
