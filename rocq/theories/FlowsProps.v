(** * Properties of the long, short and free-cash sides of an order history (C86)

    Statements only: every theorem is closed by a lemma proved elsewhere, its
    assumptions are printed, and an example shows that its hypotheses are met. *)
From Coq Require Import ZArith QArith Qabs Qminmax List Bool Arith Lia Lqa Sorting.
From Verif Require Import Base Num Order XQFacts Account Replay ReplaySpec FlowsSpec FlowsLemmas FlowsLemmas2 FlowsLemmas3.
Import ListNotations.
Local Open Scope nat_scope.

(** Asked for long positions only, the assets of a column at a bar are the part of its position that is
    held: nothing while it is short, also when an order turns the position around. *)
Theorem C86_long_assets : forall recs c flow i,
  Forall proper (of_col c recs) -> by_bar (of_col c recs) -> asset_flow_nb LongOnly recs c = Ok flow ->
  exists q, assets_nb flow i = Fin q /\
    within (4 * length (until i (of_col c recs))) (reach (until i (of_col c recs)))
      q (held (ledger_position (until i (of_col c recs)))).
Proof. exact (fun recs c flow i => side_ledger LongOnly recs c flow i ltac:(discriminate)). Qed.
Print Assumptions C86_long_assets.

(** Asked for short positions only, they are the part that is owed, as a positive number. *)
Theorem C86_short_assets : forall recs c flow i,
  Forall proper (of_col c recs) -> by_bar (of_col c recs) -> asset_flow_nb ShortOnly recs c = Ok flow ->
  exists q, assets_nb flow i = Fin q /\
    within (4 * length (until i (of_col c recs))) (reach (until i (of_col c recs)))
      q (shorted (ledger_position (until i (of_col c recs)))).
Proof. exact (fun recs c flow i => side_ledger ShortOnly recs c flow i ltac:(discriminate)). Qed.
Print Assumptions C86_short_assets.

(** Free cash is cash less twice what the shorted units were sold for: once because that much cash came from
    the sale, once because that much is kept as collateral. *)
Theorem C86_free_cash : forall recs c flow i c0,
  Forall proper (of_col c recs) -> Forall priced (of_col c recs) -> by_bar (of_col c recs) -> clear_cut (of_col c recs) ->
  cash_flow_nb true recs c = Ok flow ->
  exists q, cash_nb flow (Fin c0) i = Fin q /\
    within (7 * length (until i (of_col c recs)) + 1) (Qabs c0 + 5 * turnover (until i (of_col c recs)))
      q (c0 + ledger_cash (until i (of_col c recs)) - 2 * ledger_debt (until i (of_col c recs))).
Proof. exact free_ledger. Qed.
Print Assumptions C86_free_cash.

(** It can be computed for every such history whose record numbers do not decrease. *)
Theorem C86_free_cash_computed : forall recs c,
  Forall proper (of_col c recs) -> Forall priced (of_col c recs) -> clear_cut (of_col c recs) ->
  StronglySorted (fun a b => or_id a <= or_id b) recs ->
  exists flow, cash_flow_nb true recs c = Ok flow.
Proof. exact free_succeeds. Qed.
Print Assumptions C86_free_cash_computed.

(** Cash in simulation order: before the [k]-th call of a bar it is the initial cash of the group, all that
    moved in its columns in earlier bars, and what moved in the [k] columns called so far. *)
Theorem C86_cash_in_calling_order : forall flow f cs from len c0 i k,
  (forall j c, flow j c = Fin (f j c)) -> calls_each cs from len ->
  exists q, cash_in_sim_order_nb flow cs from len (Fin c0) i k = Fin q /\
    within (i * len + k + 1) (Qabs c0 + moved_before (fun j c => Qabs (f j c)) cs from len i k)
      q (c0 + moved_before f cs from len i k).
Proof. exact cash_iso. Qed.
Print Assumptions C86_cash_in_calling_order.

(** When all columns of a bar were called it does not matter in which order. *)
Theorem C86_calling_order_forgotten : forall (f : nat -> nat -> Q) cs from len i, calls_each cs from len ->
  (moved_before f cs from len i len == sum_to (fun j => sum_to (fun c => f j (from + c)%nat) len) (S i))%Q.
Proof. exact moved_bar. Qed.
Print Assumptions C86_calling_order_forgotten.

(** Bought 10 at 5 with fees of 1; sold 15 at 8, so that 5 are owed; sold 5 more at 6; bought back 4 at 7. *)
Definition c86_recs : list (OrderRec XQ) :=
  [mkOrderRec 0 0 0 (Fin 10) (Fin 5) (Fin 1) (Some Buy); mkOrderRec 1 0 1 (Fin 15) (Fin 8) (Fin 0) (Some Sell);
   mkOrderRec 2 1 1 (Fin 3) (Fin 9) (Fin 0) (Some Buy); mkOrderRec 3 0 1 (Fin 5) (Fin 6) (Fin 0) (Some Sell);
   mkOrderRec 4 0 3 (Fin 4) (Fin 7) (Fin 0) (Some Buy)].
Definition c86_calls (j c : nat) : nat := match j, c with 1, 2 => 1 | 1, 3 => 0 | _, _ => c - 2 end.
Example C86_nonvacuous :
  Forall proper (of_col 0 c86_recs) /\ Forall priced (of_col 0 c86_recs) /\ by_bar (of_col 0 c86_recs) /\
  clear_cut (of_col 0 c86_recs) /\ StronglySorted (fun a b => or_id a <= or_id b) c86_recs /\
  (ledger_position (of_col 0 c86_recs) == - (6) /\ ledger_debt (of_col 0 c86_recs) == 42)%Q /\
  (exists fl fs ff, asset_flow_nb LongOnly c86_recs 0 = Ok fl /\ asset_flow_nb ShortOnly c86_recs 0 = Ok fs /\
     cash_flow_nb true c86_recs 0 = Ok ff /\
     assets_nb fl 0 = Fin 10 /\ assets_nb fl 1 = Fin 0 /\ assets_nb fs 0 = Fin 0 /\ assets_nb fs 2 = Fin 10 /\
     assets_nb fs 3 = Fin 6 /\ cash_nb ff (Fin 100) 2 = Fin 59 /\ cash_nb ff (Fin 100) 3 = Fin 87) /\
  calls_each c86_calls 2 2 /\
  cash_in_sim_order_nb (fun j c => Fin (inject_Z (Z.of_nat (10 * j + c)))) c86_calls 2 2 (Fin 100) 1 1 = Fin 118.
Proof.
  split. { repeat constructor; try (eexists; reflexivity); discriminate. }
  split. { repeat constructor; vm_compute; discriminate. }
  split. { repeat constructor. }
  split.
  { split.
    - intros pre post E. change (of_col 0 c86_recs) with (of_col 0 c86_recs) in E.
      assert (K : exists n, pre = firstn n (of_col 0 c86_recs)).
      { exists (length pre). rewrite E, firstn_app, firstn_all, Nat.sub_diag, app_nil_r. reflexivity. }
      assert (Hlen : length pre <= 4).
      { apply f_equal with (f := @length _) in E. rewrite app_length in E. vm_compute (length (of_col 0 c86_recs)) in E. lia. }
      destruct pre as [|a [|b [|c [|d [|e pre]]]]]; cbn [length] in Hlen; try lia; cbn in E;
      inversion E; subst; first [left; vm_compute; reflexivity|right; vm_compute; reflexivity].
    - intros r [<-|[<-|[<-|[<-|[]]]]]; vm_compute; reflexivity. }
  split. { repeat constructor. }
  split. { split; vm_compute; reflexivity. }
  split. { do 3 eexists. repeat (split; [vm_compute; reflexivity|]). vm_compute; reflexivity. }
  split.
  { intros j c Hc. destruct j as [|[|j]]; destruct c as [|[|c]]; try lia;
    [exists 0|exists 1|exists 1|exists 0|exists 0|exists 1]; split; try lia; reflexivity. }
  vm_compute; reflexivity.
Qed.

(** A fee without a sizable order: an order below the tolerance of its position leaves free cash alone,
    although cash pays its fee. *)
Theorem C86_fee_of_small_order_refuted : exists recs cflow fflow,
  Forall proper (of_col 0 recs) /\ Forall priced (of_col 0 recs) /\ by_bar (of_col 0 recs) /\
  cash_flow_nb false recs 0 = Ok cflow /\ cash_flow_nb true recs 0 = Ok fflow /\
  (ledger_debt (of_col 0 recs) == 0)%Q /\
  cash_nb cflow (Fin 100) 1 = Fin 89 /\ cash_nb fflow (Fin 100) 1 = Fin 90.
Proof.
  exists [mkOrderRec 0 0 0 (Fin 10000000000) (Fin (1 # 1000000000)) (Fin 0) (Some Buy);
          mkOrderRec 1 0 1 (Fin 5) (Fin 0) (Fin 1) (Some Buy)].
  do 2 eexists. split. { repeat constructor; try (eexists; reflexivity); discriminate. }
  split. { repeat constructor; vm_compute; discriminate. }
  split. { repeat constructor. }
  repeat (split; [vm_compute; reflexivity|]). vm_compute; reflexivity.
Qed.
Print Assumptions C86_fee_of_small_order_refuted.
