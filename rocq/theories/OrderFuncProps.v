(** * C70-C73: simulation with callbacks *)
From Coq Require Import String ZArith QArith Bool List.
From Verif Require Import Base Num Order XQFacts CallSeq Account Simulate SimSpec ReturnsNb Replay Trades OrderFunc OrderFuncSpec
  ReplaySpec OrderFuncLemmas OrderFuncLemmas2 OrderFuncLemmas3 OrderFuncLemmas4.
Import ListNotations.
Open Scope list_scope.

(** ** C70: no look-ahead row by row *)

(** Two simulations row by row whose prices, masks and callbacks agree before
    row [t] produce the same orders and logs before row [t], whatever callbacks
    do or remember and however the rest differs. *)
Theorem C70_no_look_ahead : forall {T} {N : Num T} {U A0 A1 A2} draws t n1 n2 op1 op2 (cb1 cb2 : Callbacks T U A0 A1 A2)
    m ncols lens cash init u st1 u1 st2 u2,
  opts_agree t op1 op2 -> calls_agree t cb1 cb2 -> (t <= n1)%nat -> (t <= n2)%nat ->
  rc_orders (fs_rc init) = [] -> rc_logs (fs_rc init) = [] ->
  simulate_row_wise_nb draws op1 cb1 m n1 ncols lens cash init u = Ok (st1, u1) ->
  simulate_row_wise_nb draws op2 cb2 m n2 ncols lens cash init u = Ok (st2, u2) ->
  orders_before t (rc_orders (fs_rc st1)) = orders_before t (rc_orders (fs_rc st2)) /\
  logs_before t (rc_logs (fs_rc st1)) = logs_before t (rc_logs (fs_rc st2)).
Proof. exact @row_wise_no_look_ahead. Qed.
Print Assumptions C70_no_look_ahead.

(** If the first [t] rows fail, every longer simulation that agrees on them
    fails in the same way. *)
Theorem C70_failures : forall {T} {N : Num T} {U A0 A1 A2} draws t n op1 op2 (cb1 cb2 : Callbacks T U A0 A1 A2)
    m ncols lens cash init u e,
  opts_agree t op1 op2 -> calls_agree t cb1 cb2 -> (t <= n)%nat ->
  (forall st u, exists u', cb_post_sim cb1 st u = Ok u') ->
  simulate_row_wise_nb draws op1 cb1 m t ncols lens cash init u = Err e ->
  simulate_row_wise_nb draws op2 cb2 m n ncols lens cash init u = Err e.
Proof. exact @row_wise_failures. Qed.
Print Assumptions C70_failures.

(** Two groups of one column each, or one group of two columns. The memory of the
    callbacks is the number of orders so far. Orders buy [1 + memory] units, or
    sell one, by [side row]. *)
Definition ask (size : Q) : Order XQ :=
  mkOrder (Fin size) PInf Amount BothDir (Fin 0) (Fin 1) (Fin 0) (Fin 0) PInf NaN (Fin 0) false true false true.
Definition trader (side : nat -> Z) : Callbacks XQ nat unit unit unit :=
  mkCallbacks (fun _ u => Ok (tt, u)) (fun _ u => Ok u) (fun _ _ _ u => Ok (tt, u)) (fun _ _ _ u => Ok u)
    (fun _ _ _ u => Ok (tt, u)) (fun _ _ _ u => Ok u)
    (fun _ g i st u => Ok (tt, fs_vp st, rev (seq 0 (sg_len g)), u)) (fun _ _ _ _ u => Ok u)
    (fun _ g i c k st u => Ok (ask (inject_Z (if Z.ltb 0 (side i) then side i + Z.of_nat u else side i)), u))
    (fun _ g i k st u => Ok (if Nat.ltb k (sg_len g) then Some (sg_from g + k)%nat else None, ask (inject_Z (side i)), u))
    (fun _ _ _ _ _ _ r _ u => Ok (if is_filled r then S u else u)).
Definition closes (i c : nat) : XQ := Fin (inject_Z (Z.of_nat (10 + i + 3 * c))).
Definition setting (sharing : bool) (mask : nat -> nat -> bool) : FOpts XQ :=
  mkFOpts sharing closes mask true true true true true.
Definition always (i g : nat) : bool := true.
Definition start (cash : list XQ) (nrows ncols : nat) : FState XQ :=
  finit cash (fun c => mkPosRec 0 c NaN 0 NaN NaN 0 NaN NaN NaN NaN TLong TOpen 0) (fun _ c => c) nrows ncols None 20 0.
Definition no_draws (k : nat) : XQ := NaN.
Definition buys (i : nat) : Z := 1.
Definition buys_then_sells (i : nat) : Z := if Nat.ltb i 1 then 1 else -1.
Definition outcome (r : res (FState XQ * nat)) : option (list (nat * nat * XQ * XQ)) :=
  match r with
  | Ok (st, _) => Some (map (fun o => (or_idx o, or_col o, or_size o, or_price o)) (rc_orders (fs_rc st)))
  | Err _ => None
  end.

Example C70_nonvacuous :
  opts_agree 1 (setting true always) (setting true (fun i g => Nat.ltb i 2)) /\
  calls_agree 1 (trader buys) (trader buys_then_sells) /\
  outcome (simulate_row_wise_nb no_draws (setting true always) (trader buys) ByCallSeq 2 2 [2%nat] [Fin 500] (start [Fin 500] 2 2) 0%nat) =
    Some [(0, 1, Fin 1, Fin 13); (0, 0, Fin 2, Fin 10); (1, 1, Fin 3, Fin 14); (1, 0, Fin 4, Fin 11)]%nat /\
  outcome (simulate_row_wise_nb no_draws (setting true (fun i g => Nat.ltb i 2)) (trader buys_then_sells) ByCallSeq 3 2 [2%nat] [Fin 500]
             (start [Fin 500] 2 2) 0%nat) =
    Some [(0, 1, Fin 1, Fin 13); (0, 0, Fin 2, Fin 10); (1, 1, Fin 1, Fin 14); (1, 0, Fin 1, Fin 11)]%nat.
Proof.
  split; [constructor; try reflexivity; intros i g Hi; destruct i as [|[|i]]; try reflexivity; exfalso; inversion Hi; inversion H0|].
  split; [|split; vm_compute; reflexivity].
  constructor; try reflexivity; intros; destruct i as [|i]; try reflexivity; exfalso; inversion H; inversion H1.
Qed.

(** Column by column this fails for callbacks with a memory: the second group
    starts after the last row of the first. *)
Theorem C70_column_wise_refuted : exists draws op (cb1 cb2 : Callbacks XQ nat unit unit unit) ncols lens cash init st1 u1 st2 u2,
  calls_agree 1 cb1 cb2 /\
  simulate_nb draws op cb1 ByCallSeq 2 ncols lens cash init 0%nat = Ok (st1, u1) /\
  simulate_nb draws op cb2 ByCallSeq 2 ncols lens cash init 0%nat = Ok (st2, u2) /\
  orders_before 1 (rc_orders (fs_rc st1)) <> orders_before 1 (rc_orders (fs_rc st2)).
Proof.
  exists no_draws, (setting false always), (trader buys), (trader (fun i => if Nat.ltb i 1 then 1%Z else 0%Z)), 2%nat, [1%nat; 1%nat],
    [Fin 100; Fin 100], (start [Fin 100; Fin 100] 2 2).
  do 4 eexists. split; [|split; [vm_compute; reflexivity|split; [vm_compute; reflexivity|vm_compute; discriminate]]].
  constructor; try reflexivity; intros; destruct i as [|i]; try reflexivity; exfalso; inversion H; inversion H1.
Qed.
Print Assumptions C70_column_wise_refuted.

(** ** C71: who is called when *)

(** Writing down every call changes nothing, and the calls come in the
    documented order: before and after the simulation; before and after every
    group; in every row before the segment, then for every column of the call
    sequence an order and the call after it (or as the flexible order function
    chooses, until it chooses no column), then after the segment. Inactive
    segments call the functions before and after only if asked to, and no order
    function. *)
Theorem C71_calls_by_column : forall {T} {N : Num T} {U A0 A1 A2} draws (op : FOpts T) (cb : Callbacks T U A0 A1 A2)
    m nrows ncols lens cash init u,
  full_call_seq cb ->
  match simulate_nb draws op cb m nrows ncols lens cash init u with
  | Err e => simulate_nb draws op (spy cb) m nrows ncols lens cash init (u, []) = Err e
  | Ok (st, u') => exists t, simulate_nb draws op (spy cb) m nrows ncols lens cash init (u, []) = Ok (st, (u', t)) /\
      simulation_calls op m nrows (segs 0 0 lens) (map fst t)
  end.
Proof. exact @columns_called. Qed.
Print Assumptions C71_calls_by_column.

(** Row by row: before and after every row, with the segments of all groups in
    between. *)
Theorem C71_calls_by_row : forall {T} {N : Num T} {U A0 A1 A2} draws (op : FOpts T) (cb : Callbacks T U A0 A1 A2)
    m nrows ncols lens cash init u,
  full_call_seq cb ->
  match simulate_row_wise_nb draws op cb m nrows ncols lens cash init u with
  | Err e => simulate_row_wise_nb draws op (spy cb) m nrows ncols lens cash init (u, []) = Err e
  | Ok (st, u') => exists t, simulate_row_wise_nb draws op (spy cb) m nrows ncols lens cash init (u, []) = Ok (st, (u', t)) /\
      row_simulation_calls op m nrows (segs 0 0 lens) (map fst t)
  end.
Proof. exact @rows_called. Qed.
Print Assumptions C71_calls_by_row.

Lemma trader_full : forall side, full_call_seq (trader side).
Proof. intros side a g i st u a' vp calls u' H. inversion H; subst. rewrite rev_length, seq_length. reflexivity. Qed.

(** A group of two columns and one of one; the second rests in row 0. *)
Definition rests (i g : nat) : bool := negb (Nat.eqb i 0 && Nat.eqb g 1).
Definition witnessed {U} (r : res (FState XQ * (U * list (Call * FState XQ)))) : list (Call * FState XQ) :=
  match r with Ok (_, (_, t)) => t | Err _ => [] end.
Example C71_nonvacuous :
  full_call_seq (trader buys) /\
  map fst (witnessed (simulate_row_wise_nb no_draws (setting true rests) (spy (trader buys)) ByCallSeq 2 3 [2; 1]%nat [Fin 500; Fin 500]
    (start [Fin 500; Fin 500] 2 3) (0%nat, []))) =
  [PreSim; PreRow 0; PreSegment 0 0 [1; 0]; OrderCall 0 0 0 1; PostOrderCall 0 0 0 1; OrderCall 0 0 1 0; PostOrderCall 0 0 1 0;
   PostSegment 0 0; PreSegment 1 0 [0]; PostSegment 1 0; PostRow 0;
   PreRow 1; PreSegment 0 1 [1; 0]; OrderCall 0 1 0 1; PostOrderCall 0 1 0 1; OrderCall 0 1 1 0; PostOrderCall 0 1 1 0;
   PostSegment 0 1; PreSegment 1 1 [0]; OrderCall 1 1 0 2; PostOrderCall 1 1 0 2; PostSegment 1 1; PostRow 1; PostSim]%nat /\
  map fst (witnessed (simulate_nb no_draws (setting true rests) (spy (trader buys)) (Flexible 5) 2 3 [2; 1]%nat [Fin 500; Fin 500]
    (start [Fin 500; Fin 500] 2 3) (0%nat, []))) =
  [PreSim; PreGroup 0; PreSegment 0 0 [1; 0]; FlexCall 0 0 0 (Some 0); PostOrderCall 0 0 0 0; FlexCall 0 0 1 (Some 1);
   PostOrderCall 0 0 1 1; FlexCall 0 0 2 None; PostSegment 0 0; PreSegment 0 1 [1; 0]; FlexCall 0 1 0 (Some 0);
   PostOrderCall 0 1 0 0; FlexCall 0 1 1 (Some 1); PostOrderCall 0 1 1 1; FlexCall 0 1 2 None; PostSegment 0 1; PostGroup 0;
   PreGroup 1; PreSegment 1 0 [0]; PostSegment 1 0; PreSegment 1 1 [0]; FlexCall 1 1 0 (Some 2); PostOrderCall 1 1 0 2;
   FlexCall 1 1 1 None; PostSegment 1 1; PostGroup 1; PostSim]%nat.
Proof. split; [exact (trader_full buys)|]. split; vm_compute; reflexivity. Qed.

(** ** C72: what the calls see *)

(** Every call sees, for every column, a pointer to its latest order and log
    record. Before the first order of a segment, value and return are those of
    the cash, the positions and the valuation prices of the moment. After a
    segment positions are valued at the closing prices, value and return agree
    with this, and the return compares with the value shown after the previous
    segment of the group (in the first row: with the initial cash). *)
Theorem C72_seen_by_column : forall {T} {N : Num T} {U A0 A1 A2} draws (op : FOpts T) (cb : Callbacks T U A0 A1 A2)
    m nrows ncols lens cash e cs mo ml rng u st u' t,
  full_call_seq cb ->
  simulate_nb draws op (spy cb) m nrows ncols lens cash (finit cash e cs nrows ncols mo ml rng) (u, []) = Ok (st, (u', t)) ->
  forall before c s after, t = before ++ (c, s) :: after -> sees op (segs 0 0 lens) cash before c s.
Proof. exact @columns_see. Qed.
Print Assumptions C72_seen_by_column.

Theorem C72_seen_by_row : forall {T} {N : Num T} {U A0 A1 A2} draws (op : FOpts T) (cb : Callbacks T U A0 A1 A2)
    m nrows ncols lens cash e cs mo ml rng u st u' t,
  full_call_seq cb ->
  simulate_row_wise_nb draws op (spy cb) m nrows ncols lens cash (finit cash e cs nrows ncols mo ml rng) (u, []) = Ok (st, (u', t)) ->
  forall before c s after, t = before ++ (c, s) :: after -> sees op (segs 0 0 lens) cash before c s.
Proof. exact @rows_see. Qed.
Print Assumptions C72_seen_by_row.

(** After each segment of the run above: call, value, previous value, latest
    order of the first and of the last column *)
Definition after_segments (t : list (Call * FState XQ)) :=
  flat_map (fun e => match e with
    | (PostSegment g i, s) => [(g, i, fs_value s g, fs_second s g, fs_oidx s 0%nat, fs_oidx s 2%nat)]
    | _ => []
    end) t.
Example C72_nonvacuous :
  full_call_seq (trader buys) /\
  after_segments (witnessed (simulate_row_wise_nb no_draws (setting true rests) (spy (trader buys)) ByCallSeq 2 3 [2; 1]%nat
    [Fin 500; Fin 500] (start [Fin 500; Fin 500] 2 3) (0%nat, []))) =
  [(0%nat, 0%nat, Fin 498, Fin 500, Some 1%nat, None); (1%nat, 0%nat, Fin 500, Fin 500, Some 1%nat, None);
   (0%nat, 1%nat, Fin 499, Fin 498, Some 3%nat, None); (1%nat, 1%nat, Fin 499, Fin 500, Some 3%nat, Some 4%nat)].
Proof. split; [exact (trader_full buys)|]. vm_compute. reflexivity. Qed.

(** ** C73: the account shown is that of the order records *)

(** Every call, and the caller in the end, sees the position of a column as the
    sum of its order records and the cash as the initial cash plus what these
    orders cost or brought, up to the tolerance at which amounts are taken for
    zero. *)
Theorem C73_account_by_column : forall {U A0 A1 A2} draws op (cb : Callbacks XQ U A0 A1 A2) m nrows ncols lens cash e cs mo ml rng u st u' t,
  full_call_seq cb -> tame_callbacks cb -> Forall (fun x => exists q, x = Fin q) cash -> (forall i c, not_infinite (fo_close op i c)) ->
  simulate_nb draws op (spy cb) m nrows ncols lens cash (finit cash e cs nrows ncols mo ml rng) (u, []) = Ok (st, (u', t)) ->
  Forall (fun ev => account_of_records op (segs 0 0 lens) cash (snd ev)) t /\ account_of_records op (segs 0 0 lens) cash st.
Proof. exact @columns_account. Qed.
Print Assumptions C73_account_by_column.

Theorem C73_account_by_row : forall {U A0 A1 A2} draws op (cb : Callbacks XQ U A0 A1 A2) m nrows ncols lens cash e cs mo ml rng u st u' t,
  full_call_seq cb -> tame_callbacks cb -> Forall (fun x => exists q, x = Fin q) cash -> (forall i c, not_infinite (fo_close op i c)) ->
  simulate_row_wise_nb draws op (spy cb) m nrows ncols lens cash (finit cash e cs nrows ncols mo ml rng) (u, []) = Ok (st, (u', t)) ->
  Forall (fun ev => account_of_records op (segs 0 0 lens) cash (snd ev)) t /\ account_of_records op (segs 0 0 lens) cash st.
Proof. exact @rows_account. Qed.
Print Assumptions C73_account_by_row.

(** The run above: cash and positions at the end of the two groups, and the
    exact ledger of the records *)
Example C73_nonvacuous :
  full_call_seq (trader buys) /\ tame_callbacks (trader buys) /\ Forall (fun x => exists q, x = Fin q) [Fin 500; Fin 500] /\
  (forall i c, not_infinite (fo_close (setting true rests) i c)) /\
  match simulate_row_wise_nb no_draws (setting true rests) (spy (trader buys)) ByCallSeq 2 3 [2; 1]%nat [Fin 500; Fin 500]
          (start [Fin 500; Fin 500] 2 3) (0%nat, []) with
  | Ok (st, _) =>
      (fs_cash st 0%nat, fs_cash st 1%nat) = (Fin 377, Fin 414) /\ (fs_pos st 0%nat, fs_pos st 1%nat, fs_pos st 2%nat) = (Fin 6, Fin 4, Fin 5) /\
      (500 + ledger_cash (of_cols 0 2 (rc_orders (fs_rc st))) == 377)%Q /\
      (ledger_position (of_col 2 (rc_orders (fs_rc st))) == 5)%Q
  | Err _ => False
  end.
Proof.
  split; [exact (trader_full buys)|]. split.
  { split; [|split].
    - intros a g i st u a' vp calls u' Hv H. inversion H; subst. exact Hv.
    - intros a g i c k st u o u' H. inversion H; subst. split; [intros f E; inversion E; reflexivity|discriminate].
    - intros a g i k st u c o u' H. inversion H; subst. split; [intros f E; inversion E; reflexivity|discriminate]. }
  split; [repeat constructor; eexists; reflexivity|]. split; [intros i c; split; discriminate|].
  vm_compute. repeat split.
Qed.
