(** * C69: the position record handed to callbacks describes what is held *)
From Coq Require Import ZArith QArith Qabs Bool List.
From Verif Require Import Base Num Order Trades XQFacts OrderFunc PosRecSpec PosRecLemmas.
Import ListNotations.

(** After any sequence of filled orders in a column, starting with nothing
    held and a record without an identifier, the record exists and describes
    the position that these fills build: number, direction, bar of entry, whether
    and when it was closed, total size, average entry and exit price, fees, and
    profit as if the rest were sold at the price of the last fill. *)
Theorem C69_position_record : forall col r fills,
  pr_id r = (-1)%Z -> Forall good_fill fills ->
  exists r', record_after col r 0 fills = Ok r' /\
    forall before f, fills = before ++ [f] ->
      describes r' col (held_after 0 nothing_held fills) (position_after 0 fills) (f_price f).
Proof.
  intros col r fills Hr Hg. destruct (record_after_ok fills col r nothing_held 0 (inv_start r col Hr) Hg) as (r' & E & _ & H).
  exists r'. split; [exact E|]. intros before f Hf. apply established_describes. exact (H f before Hf).
Qed.
Print Assumptions C69_position_record.

(** Revaluing the record at any price, as is done before and after the orders
    of a segment, describes the same position at that price. *)
Theorem C69_revalued : forall col r fills price r',
  pr_id r = (-1)%Z -> Forall good_fill fills -> record_after col r 0 fills = Ok r' ->
  ~ position_after 0 fills == 0 ->
  exists r'', update_open_pos_stats_nb r' (Fin (position_after 0 fills)) (Fin price) = Ok r'' /\
    describes r'' col (held_after 0 nothing_held fills) (position_after 0 fills) price.
Proof.
  intros col r fills price r' Hr Hg E Hp.
  destruct (record_after_ok fills col r nothing_held 0 (inv_start r col Hr) Hg) as (r1 & E1 & Hi & _).
  rewrite E1 in E. inversion E; subst. exact (revalued r' col _ _ price Hi Hp).
Qed.
Print Assumptions C69_revalued.

(** While nothing is held the record of the closed position does not change. *)
Theorem C69_closed_record_is_kept : forall col r fills r' position price,
  pr_id r = (-1)%Z -> Forall good_fill fills -> record_after col r 0 fills = Ok r' ->
  position_after 0 fills == 0 -> update_open_pos_stats_nb r' position price = Ok r'.
Proof.
  intros col r fills r' position price Hr Hg E Hp.
  destruct (record_after_ok fills col r nothing_held 0 (inv_start r col Hr) Hg) as (r1 & E1 & Hi & _).
  rewrite E1 in E. inversion E; subst. exact (closed_frozen r' col _ _ position price Hi Hp).
Qed.
Print Assumptions C69_closed_record_is_kept.

(** Buy 2 at 10, buy 1 at 13, sell 1 at 15, sell 5 at 12 with fees 1 each:
    the last order closes the long position and opens a short position of 3 with
    three fifths of the fees. *)
Definition blank : PosRec XQ := mkPosRec (-1) 7 NaN 9 NaN NaN 4 NaN NaN NaN NaN TShort TClosed 5.
Definition story : list Fill :=
  [mkFill 0 true 2 10 1; mkFill 1 true 1 13 1; mkFill 3 false 1 15 1; mkFill 4 false 5 12 1].
Example C69_nonvacuous :
  pr_id blank = (-1)%Z /\ Forall good_fill story /\
  (exists r, record_after 2 blank 0 (firstn 3 story) = Ok r /\
     (pr_id r, pr_col r, pr_entry_idx r, pr_status r, pr_dir r) = (0%Z, 2%nat, 0%nat, TOpen, TLong) /\
     (pr_size r, pr_entry_price r, pr_exit_price r, pr_entry_fees r, pr_exit_fees r, pr_pnl r) =
     (Fin 3, Fin 11, Fin 15, Fin 2, Fin 1, Fin 9)) /\
  (exists r, record_after 2 blank 0 story = Ok r /\
     (pr_id r, pr_col r, pr_entry_idx r, pr_status r, pr_dir r) = (1%Z, 2%nat, 4%nat, TOpen, TShort) /\
     (pr_size r, pr_entry_price r, pr_exit_price r, pr_entry_fees r, pr_exit_fees r, pr_pnl r) =
     (Fin 3, Fin 12, NaN, Fin (3 # 5), Fin 0, Fin (- 3 # 5))).
Proof.
  split; [reflexivity|]. split; [repeat constructor|]. split; (eexists; split; [vm_compute; reflexivity|]; split; vm_compute; reflexivity).
Qed.

(** The fills must move the position: an order so small that the position
    stays at zero is taken for an increase of a position that does not exist. *)
Theorem C69_snapped_fill_refuted : exists (r : PosRec XQ) f,
  pr_id r = (-1)%Z /\ good_fill f /\
  exists r', update_pos_record_nb r 0 0 (Fin 0) (Fin 0) (fill_result f) = Ok r' /\
    pr_id r' = (-1)%Z /\ pr_size r' = NaN.
Proof.
  exists blank, (mkFill 0 true (1 # 10000000000000) 10 0). split; [reflexivity|]. split; [repeat constructor|].
  eexists. split; [vm_compute; reflexivity|]. split; reflexivity.
Qed.
Print Assumptions C69_snapped_fill_refuted.
