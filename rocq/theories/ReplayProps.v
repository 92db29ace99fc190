(** * Properties of accounts rebuilt from order records (C15, C24)

    Statements only: every theorem is closed by a lemma proved elsewhere, its
    assumptions are printed, and an example shows that its hypotheses are met. *)
From Coq Require Import ZArith QArith Qabs List Bool Arith Lia Lqa Sorting.
From Verif Require Import Base Num Order XQFacts Records CallSeq Simulate SimSpec SimProps OrderRuns
  Account Replay ReplaySpec ReplayLemmas2 ReplayLemmas4.
Import ListNotations.
Local Open Scope nat_scope.

Definition demo := demo_inputs demo_sizes1 demo_prices no_reject.
Lemma demo_tame : forall from len, tame_inputs demo from len.
Proof.
  intros from len i c _. repeat split; try discriminate.
  cbn. intros f E. injection E as <-. reflexivity.
Qed.

(** ** C15 *)

(** Whatever is simulated: the records of a column replayed by Portfolio.assets
    give, at every bar, a position that differs from the simulated one by no more
    than three tolerances per order of that column so far. *)
Theorem C15_assets_match_simulated_position : forall draws rng nrows ncols lens init inp fl mo ml o l s g len c0 i c,
  simulate_from_orders_nb draws rng nrows ncols lens init inp fl mo ml = Ok (o, l, s) ->
  nth_error lens g = Some len -> nth_error init g = Some (Fin c0) ->
  tame_inputs inp (sum_lens (firstn g lens)) len -> i < nrows ->
  sum_lens (firstn g lens) <= c < sum_lens (firstn g lens) + len ->
  exists st flow a p,
    variables_after draws rng nrows ncols lens init inp fl mo ml g i = Ok st /\
    asset_flow_nb BothDir o c = Ok flow /\ assets_nb flow i = Fin a /\ sm_pos st c = Fin p /\
    within (3 * length (until i (of_col c o))) (volume (until i (of_col c o))) a p.
Proof. exact position_replayed. Qed.
Print Assumptions C15_assets_match_simulated_position.

(** Likewise the cash of a group (of one column, if columns do not share cash)
    replayed from its initial cash and the records of its columns. *)
Theorem C15_cash_matches_simulated_cash : forall draws rng nrows ncols lens init inp fl mo ml o l s g len c0 i,
  simulate_from_orders_nb draws rng nrows ncols lens init inp fl mo ml = Ok (o, l, s) ->
  nth_error lens g = Some len -> nth_error init g = Some (Fin c0) ->
  tame_inputs inp (sum_lens (firstn g lens)) len -> i < nrows ->
  exists st flow m c,
    variables_after draws rng nrows ncols lens init inp fl mo ml g i = Ok st /\
    (forall col, sum_lens (firstn g lens) <= col < sum_lens (firstn g lens) + len ->
       exists out, cash_flow_nb false o col = Ok out /\ forall j, flow j col = out j) /\
    cash_nb (sum_cols flow (sum_lens (firstn g lens)) len) (Fin c0) i = Fin m /\ sm_cash st = Fin c /\
    within (5 * length (until i (of_cols (sum_lens (firstn g lens)) len o)) + 2)
      (Qabs c0 + turnover (until i (of_cols (sum_lens (firstn g lens)) len o))) m c.
Proof. exact cash_replayed. Qed.
Print Assumptions C15_cash_matches_simulated_cash.

(** Any order history whatsoever: the replayed position and cash are those of
    the exact ledger of the records, up to two tolerances per order. *)
Theorem C15_assets_follow_the_ledger : forall recs c flow i,
  Forall proper (of_col c recs) -> asset_flow_nb BothDir recs c = Ok flow ->
  exists q, assets_nb flow i = Fin q /\
    within (2 * length (until i (of_col c recs))) (volume (until i (of_col c recs)))
      q (ledger_position (until i (of_col c recs))).
Proof. exact assets_ledger. Qed.
Print Assumptions C15_assets_follow_the_ledger.

Theorem C15_cash_follows_the_ledger : forall recs c flow i c0,
  Forall proper (of_col c recs) -> cash_flow_nb false recs c = Ok flow ->
  exists q, cash_nb flow (Fin c0) i = Fin q /\
    within (2 * length (until i (of_col c recs)) + 1) (Qabs c0 + turnover (until i (of_col c recs)))
      q (c0 + ledger_cash (until i (of_col c recs))).
Proof. exact cash_ledger. Qed.
Print Assumptions C15_cash_follows_the_ledger.

(** The replays reject only histories whose record numbers decrease. *)
Theorem C15_replay_accepts : forall recs c last, Forall proper (of_col c recs) ->
  StronglySorted (fun a b => or_id a <= or_id b) recs ->
  (exists flow, asset_flow_nb BothDir recs c = Ok flow) /\
  (exists flow, cash_flow_nb false recs c = Ok flow) /\
  (exists p, total_profit_nb (Fin last) recs c = Ok p).
Proof. exact replay_succeeds. Qed.
Print Assumptions C15_replay_accepts.

Example C15_nonvacuous : tame_inputs demo 2 2 /\
  exists o l s st,
    simulate_from_orders_nb no_draws 0 3 4 demo_lens demo_cash demo demo_flags None 20 = Ok (o, l, s) /\
    nth_error demo_lens 1 = Some 2 /\ nth_error demo_cash 1 = Some (Fin 100) /\ sum_lens (firstn 1 demo_lens) = 2 /\
    variables_after no_draws 0 3 4 demo_lens demo_cash demo demo_flags None 20 1 1 = Ok st /\
    length (until 1 (of_cols 2 2 o)) = 2 /\ length (of_cols 2 2 o) = 3 /\ sm_pos st 2 = Fin 3 /\
    sm_cash st = Fin (99 # 2)%Q.
Proof.
  split; [apply demo_tame|]. do 4 eexists. repeat (split; [vm_compute; reflexivity|]). vm_compute; reflexivity.
Qed.

(** ** C24 *)

(** For every order history of a column whose records lie within the data: the
    total profit equals the final value (replayed cash plus replayed position at
    the last close) minus initial cash, up to the tolerance the code applies to
    each of its sums. *)
Theorem C24_total_profit_is_final_value_minus_cash : forall recs c last c0 i aflow cflow p,
  Forall proper (of_col c recs) -> (forall r, In r (of_col c recs) -> or_idx r <= i) ->
  asset_flow_nb BothDir recs c = Ok aflow -> cash_flow_nb false recs c = Ok cflow ->
  total_profit_nb (Fin last) recs c = Ok p ->
  exists q v, p = Fin q /\
    value_nb (cash_nb cflow (Fin c0) i) (asset_value_nb (Fin last) (assets_nb aflow i)) = Fin v /\
    (Qabs (q - (v - c0)) <=
      inject_Z (Z.of_nat (3 * length (of_col c recs) + 1)) * slack (Qabs c0 + turnover (of_col c recs)) +
      Qabs last * (inject_Z (Z.of_nat (3 * length (of_col c recs))) * slack (volume (of_col c recs))))%Q.
Proof. exact total_profit_value. Qed.
Print Assumptions C24_total_profit_is_final_value_minus_cash.

(** The profit itself: cash received minus cash paid, plus the closing value of
    what is left. *)
Theorem C24_total_profit_is_ledger_profit : forall recs c last p,
  Forall proper (of_col c recs) -> total_profit_nb (Fin last) recs c = Ok p ->
  exists q a m, p = Fin q /\ (q == m + a * last)%Q /\
    within (length (of_col c recs)) (volume (of_col c recs)) a (ledger_position (of_col c recs)) /\
    within (length (of_col c recs)) (turnover (of_col c recs)) m (ledger_cash (of_col c recs)).
Proof. exact total_profit_ledger. Qed.
Print Assumptions C24_total_profit_is_ledger_profit.

Definition c24_recs : list (OrderRec XQ) :=
  [mkOrderRec 0 0 0 (Fin 10) (Fin 5) (Fin 1) (Some Buy); mkOrderRec 1 1 0 (Fin 4) (Fin 8) (Fin 1) (Some Buy);
   mkOrderRec 2 0 2 (Fin 6) (Fin 7) (Fin 0) (Some Sell)].
Example C24_nonvacuous : Forall proper (of_col 0 c24_recs) /\ (forall r, In r (of_col 0 c24_recs) -> or_idx r <= 3) /\
  exists aflow cflow, asset_flow_nb BothDir c24_recs 0 = Ok aflow /\ cash_flow_nb false c24_recs 0 = Ok cflow /\
    total_profit_nb (Fin 9) c24_recs 0 = Ok (Fin 27) /\
    value_nb (cash_nb cflow (Fin 100) 3) (asset_value_nb (Fin 9) (assets_nb aflow 3)) = Fin 127.
Proof.
  split; [|split].
  - repeat constructor; cbn; eauto; discriminate.
  - cbn. intros r [<-|[<-|[]]]; cbn; lia.
  - do 2 eexists. repeat (split; [reflexivity|]). vm_compute. reflexivity.
Qed.

(** A column without orders has total profit 0 even when its last close is not
    a number, while its value is then not a number. *)
Theorem C24_no_orders_no_close_refuted : exists recs aflow cflow,
  asset_flow_nb BothDir recs 0 = Ok aflow /\ cash_flow_nb false recs 0 = Ok cflow /\
  total_profit_nb NaN recs 0 = Ok (Fin 0) /\
  value_nb (cash_nb cflow (Fin 100) 0) (asset_value_nb NaN (assets_nb aflow 0)) = NaN.
Proof. exists [], (fun _ => Fin 0), (fun _ => Fin 0). repeat split. Qed.
Print Assumptions C24_no_orders_no_close_refuted.
