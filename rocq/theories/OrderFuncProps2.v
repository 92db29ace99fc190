(** * C74, C75: the simulators agree with each other *)
From Coq Require Import String ZArith QArith Bool List Lia.
From Verif Require Import Base Num Order XQFacts CallSeq Account Simulate SimSpec ReturnsNb Replay Trades OrderFunc OrderFuncSpec
  OrderFuncLemmas OrderFuncLemmas5 OrderFuncLemmas6 OrderFuncProps.
Import ListNotations.
Open Scope list_scope.

(** ** C74: a flexible order function that follows the call sequence *)

(** Choosing the columns in the order of the call sequence and then none gives
    what simulation by call sequence gives, errors included, if at least as many
    orders per segment are allowed as there are columns. *)
Theorem C74_flexible_by_column : forall {T} {N : Num T} {U A0 A1 A2} draws op (cb : Callbacks T U A0 A1 A2) no_order,
  full_call_seq cb -> valid_call_seq cb -> forall fuel nrows ncols lens cash init u, Forall (fun n => (n <= fuel)%nat) lens ->
  simulate_nb draws op (following cb no_order) (Flexible fuel) nrows ncols lens cash init u =
  simulate_nb draws op cb ByCallSeq nrows ncols lens cash init u.
Proof. exact @columns_following. Qed.
Print Assumptions C74_flexible_by_column.

Theorem C74_flexible_by_row : forall {T} {N : Num T} {U A0 A1 A2} draws op (cb : Callbacks T U A0 A1 A2) no_order,
  full_call_seq cb -> valid_call_seq cb -> forall fuel nrows ncols lens cash init u, Forall (fun n => (n <= fuel)%nat) lens ->
  simulate_row_wise_nb draws op (following cb no_order) (Flexible fuel) nrows ncols lens cash init u =
  simulate_row_wise_nb draws op cb ByCallSeq nrows ncols lens cash init u.
Proof. exact @rows_following. Qed.
Print Assumptions C74_flexible_by_row.

Example C74_nonvacuous :
  full_call_seq (trader buys) /\ valid_call_seq (trader buys) /\ Forall (fun n => (n <= 2)%nat) [2; 1]%nat /\
  outcome (simulate_nb no_draws (setting true always) (following (trader buys) (ask 0)) (Flexible 2) 2 3 [2; 1]%nat [Fin 500; Fin 500]
             (start [Fin 500; Fin 500] 2 3) 0%nat) =
    Some [(0, 1, Fin 1, Fin 13); (0, 0, Fin 2, Fin 10); (1, 1, Fin 3, Fin 14); (1, 0, Fin 4, Fin 11); (0, 2, Fin 5, Fin 16); (1, 2, Fin 6, Fin 17)]%nat.
Proof.
  split; [exact (trader_full buys)|]. split.
  - intros a g i st u a' vp calls u' H. inversion H; subst. apply Forall_rev, Forall_forall. intros c Hc. apply in_seq in Hc. lia.
  - split; [repeat constructor|]. vm_compute. reflexivity.
Qed.

(** ** C75: orders given as arrays *)

(** [simulate_from_orders_nb] writes the records of [simulate_nb] with callbacks
    that read orders and valuation prices from the arrays and sort the call
    sequence where asked for, and fails in the same way. *)
Theorem C75_arrays_as_callbacks : forall {T} {N : Num T} draws (inp : Inputs T) fl lens pre post,
  (forall i c, ffill_val_price fl = true -> isnan (resolve_val_price inp i c (resolve_price inp i c)) = false) ->
  Forall (fun n => (0 < n)%nat) lens ->
  (auto_call_seq fl = true -> default_call_seq lens (in_call_seq inp)) ->
  forall rng nrows ncols cash e mo ml,
  (let! (orders, logs, _) := simulate_from_orders_nb draws rng nrows ncols lens cash inp fl mo ml in Ok (orders, logs)) =
  (let! (st, _) := simulate_nb draws (array_options inp fl lens pre post)
       (array_callbacks inp fl (array_options inp fl lens pre post)) ByCallSeq nrows ncols lens cash
       (finit cash e (in_call_seq inp) nrows ncols mo ml rng) tt in
   Ok (rc_orders (fs_rc st), rc_logs (fs_rc st))).
Proof. exact @arrays_as_callbacks. Qed.
Print Assumptions C75_arrays_as_callbacks.

(** Sell half of the first column to buy the second: sorting puts the sale first. *)
Definition swap_inputs (val_price : nat -> nat -> XQ) : Inputs XQ :=
  mkInputs (fun i c => match i, c with 0%nat, 0%nat => Fin 1 | 0%nat, _ => Fin 0 | _, _ => Fin (1 # 2) end)
    closes (fun _ _ => TargetPercent) (fun _ _ => LongOnly) (fun _ _ => Fin 0) (fun _ _ => Fin 0) (fun _ _ => Fin 0)
    (fun _ _ => Fin 0) (fun _ _ => PInf) (fun _ _ => NaN) (fun _ _ => Fin 0) (fun _ _ => false) (fun _ _ => true) (fun _ _ => false)
    (fun _ _ => true) val_price (fun i c => closes (i + 1) c) (fun _ c => Nat.modulo c 2).
Definition swap_records (r : res (list (OrderRec XQ) * list (LogRec XQ))) : option (list (nat * nat * XQ * XQ)) :=
  match r with Ok (os, _) => Some (map (fun o => (or_idx o, or_col o, or_size o, or_price o)) os) | Err _ => None end.
Definition swap_flags := mkFlags true true true.
Definition still_flags := mkFlags true true false.
Definition swap_arrays fl val_price :=
  let! (orders, logs, _) := simulate_from_orders_nb no_draws 0 2 2 [2%nat] [Fin 110] (swap_inputs val_price) fl None 9 in Ok (orders, logs).
Definition swap_callbacks fl val_price :=
  let op := array_options (swap_inputs val_price) fl [2%nat] true true in
  let! (st, _) := simulate_nb no_draws op (array_callbacks (swap_inputs val_price) fl op) ByCallSeq 2 2 [2%nat] [Fin 110]
       (finit [Fin 110] (fun c => mkPosRec 0 c NaN 0 NaN NaN 0 NaN NaN NaN NaN TLong TOpen 0) (fun _ c => Nat.modulo c 2) 2 2 None 9 0) tt in
  Ok (rc_orders (fs_rc st), rc_logs (fs_rc st)).

Example C75_nonvacuous :
  (forall i c, ffill_val_price swap_flags = true ->
     isnan (resolve_val_price (swap_inputs closes) i c (resolve_price (swap_inputs closes) i c)) = false) /\
  default_call_seq [2%nat] (in_call_seq (swap_inputs closes)) /\
  swap_records (swap_arrays swap_flags closes) = Some [(0, 0, Fin 11, Fin 10); (1, 0, Fin (11 # 2), Fin 11); (1, 1, Fin (121 # 28), Fin 14)]%nat /\
  swap_arrays swap_flags closes = swap_callbacks swap_flags closes.
Proof.
  split; [reflexivity|]. split; [|split; vm_compute; reflexivity].
  intros i g k [<-|[]] Hk. cbn in *. destruct k as [|[|k]]; try reflexivity. lia.
Qed.

(** With a missing valuation price that is to be forward-filled the two differ:
    the array version keeps the last valuation price it was given, whereas
    callbacks see the last closing price. *)
Definition missing (i c : nat) : XQ := match i with 0%nat => closes 0 c | _ => NaN end.
Theorem C75_missing_valuation_price_refuted :
  swap_records (swap_arrays still_flags missing) <> swap_records (swap_callbacks still_flags missing).
Proof. vm_compute. discriminate. Qed.
Print Assumptions C75_missing_valuation_price_refuted.
