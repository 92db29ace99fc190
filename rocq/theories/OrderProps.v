(** * Properties of executing orders (C01-C11)

    Statements only: every theorem is closed by a lemma proved elsewhere, its
    assumptions are printed, and an example shows that its hypotheses are met. *)
From Coq Require Import ZArith QArith Qabs List Bool.
From Verif Require Import Base Num B64 MathNb TolSpec Order OrderSpec Account AccountSpec Records
  XQFacts OrderGen OrderLemmas2 OrderLemmas3 OrderLemmas4 RecordLemmas OrderRuns.
Import ListNotations.

(** ** Concrete values used by the examples *)
Definition state100 : ProcState XQ := mkProc (Fin 100) (Fin 0) (Fin 0) (Fin 100) (Fin 10) (Fin 100).
Definition buy3 : Order XQ :=
  mkOrder (Fin 3) (Fin 10) Amount BothDir (Fin (1 # 100)) (Fin 1) (Fin (1 # 10)) (Fin 0) PInf NaN
    (Fin 0) false true false true.
Definition acct100 : Acct XQ := mkAcct (Fin 100) (Fin 100) (fun _ => Fin 0) (fun _ => Fin 0).
Definition long_short_history : list (Ev XQ) :=
  [ mkEv 0 (Fin 10) (Fin 100) (base_order (Fin 5) (Fin 10) Amount BothDir);
    mkEv 1 (Fin 20) (Fin 100) (base_order (Fin (- (1))) (Fin 20) Amount BothDir);
    mkEv 0 (Fin 10) (Fin 100) (base_order (Fin (- (8))) (Fin 10) Amount BothDir);
    mkEv 0 (Fin 12) (Fin 94) (base_order PInf (Fin 12) Amount BothDir) ].

(** ** C01 *)

(** No history of orders, on any columns, overdraws the account. *)
Theorem C01_cash_never_negative : forall draws (evs : list (Ev XQ)) a k a' k',
  (forall e, In e evs -> fees_above_minus_one (ev_order e)) ->
  not_below_zero (ac_cash a) ->
  acct_run draws (a, k) evs = Ok (a', k') ->
  not_below_zero (ac_cash a').
Proof. exact run_cash_not_below_zero. Qed.
Print Assumptions C01_cash_never_negative.

(** If sizes are numbers once converted, cash also stays a number. *)
Theorem C01_cash_stays_number : forall draws (evs : list (Ev XQ)) a k a' k',
  (forall e, In e evs -> fees_above_minus_one (ev_order e) /\ number_sized (ev_order e) (ev_value e)) ->
  nonnegative (ac_cash a) ->
  acct_run draws (a, k) evs = Ok (a', k') ->
  nonnegative (ac_cash a').
Proof. exact run_cash_nonnegative. Qed.
Print Assumptions C01_cash_stays_number.

Example C01_nonvacuous :
  exists a' k', acct_run no_draws (acct100, 0%nat) long_short_history = Ok (a', k') /\
    ac_cash a' = Fin 0 /\ ac_pos a' 0%nat = Fin (19 # 2) /\
    (forall e, In e long_short_history ->
       fees_above_minus_one (ev_order e) /\ number_sized (ev_order e) (ev_value e)).
Proof.
  eexists; eexists. split; [vm_compute; reflexivity|]. split; [vm_compute; reflexivity|].
  split; [vm_compute; reflexivity|].
  intros e [<-|[<-|[<-|[<-|[]]]]]; (split; [intros f E; vm_compute in E; inversion E; reflexivity|exact I]).
Qed.

(** ** C02 *)
Theorem C02_long_only_never_short_partial : forall draws (evs : list (Ev XQ)) a k a' k',
  (forall e, In e evs -> o_direction (ev_order e) = LongOnly /\
     fees_above_minus_one (ev_order e) /\ number_sized (ev_order e) (ev_value e) /\
     (o_size_type (ev_order e) = Percent -> exists q, o_size (ev_order e) = Fin q /\ - (1) <= q)) ->
  (forall c, exists p, ac_pos a c = Fin p /\ 0 <= p) ->
  acct_run draws (a, k) evs = Ok (a', k') ->
  forall c, exists p, ac_pos a' c = Fin p /\ 0 <= p.
Proof. exact run_long_only. Qed.
Print Assumptions C02_long_only_never_short_partial.

Theorem C02_short_only_never_long : forall draws (evs : list (Ev XQ)) a k a' k',
  (forall e, In e evs -> o_direction (ev_order e) = ShortOnly /\
     fees_above_minus_one (ev_order e) /\ number_sized (ev_order e) (ev_value e)) ->
  (forall c, exists p, ac_pos a c = Fin p /\ p <= 0) ->
  acct_run draws (a, k) evs = Ok (a', k') ->
  forall c, exists p, ac_pos a' c = Fin p /\ p <= 0.
Proof. exact run_short_only. Qed.
Print Assumptions C02_short_only_never_long.

(** Selling more than 100 percent in long-only direction opens a short position. *)
Theorem C02_long_only_percent_refuted : exists draws k (s : ProcState XQ) (o : Order XQ) es' r k' p',
  o_direction o = LongOnly /\ o_size o = Fin (- (2)) /\ o_size_type o = Percent /\
  ps_position s = Fin 10 /\
  execute_order_nb draws k s o = Ok (es', r, k') /\ r_status r = Filled /\
  es_position es' = Fin p' /\ p' < 0.
Proof.
  exists no_draws, 0%nat, (mkProc (Fin 100) (Fin 10) (Fin 0) (Fin 100) (Fin 10) (Fin 200)),
    (base_order (Fin (- (2))) (Fin 10) Percent LongOnly).
  do 4 eexists. repeat (split; [vm_compute; reflexivity|]). vm_compute; reflexivity.
Qed.
Print Assumptions C02_long_only_percent_refuted.

Definition long_history : list (Ev XQ) :=
  [ mkEv 0 (Fin 10) (Fin 100) (base_order (Fin 5) (Fin 10) Amount LongOnly);
    mkEv 0 (Fin 10) (Fin 100) (base_order (Fin (- (8))) (Fin 10) Amount LongOnly);
    mkEv 1 (Fin 10) (Fin 100) (base_order (Fin (1 # 2)) (Fin 10) Percent LongOnly) ].
Definition short_history : list (Ev XQ) :=
  [ mkEv 0 (Fin 10) (Fin 100) (base_order (Fin 5) (Fin 10) Amount ShortOnly);
    mkEv 0 (Fin 10) (Fin 100) (base_order (Fin (- (8))) (Fin 10) Amount ShortOnly) ].
Example C02_nonvacuous :
  (exists a' k', acct_run no_draws (acct100, 0%nat) long_history = Ok (a', k') /\
     ac_pos a' 0%nat = Fin 0 /\ ac_pos a' 1%nat = Fin 5) /\
  (exists a' k', acct_run no_draws (acct100, 0%nat) (firstn 1 short_history) = Ok (a', k') /\
     ac_pos a' 0%nat = Fin (- (5))) /\
  (exists a' k', acct_run no_draws (acct100, 0%nat) short_history = Ok (a', k') /\
     ac_pos a' 0%nat = Fin 0).
Proof.
  repeat split; do 2 eexists; repeat (split; [vm_compute; reflexivity|]); vm_compute; reflexivity.
Qed.

(** ** C03 (for every number type, in particular IEEE doubles) *)
Theorem C03_unfilled_no_effect : forall {T} {N : Num T} draws i col group (s : ProcState T) upd o rc r s' rc',
  process_order_nb draws i col group s upd o rc = Ok (r, s', rc') ->
  r_status r <> Filled ->
  ps_cash s' = snap (ps_cash s) /\ ps_position s' = snap (ps_position s) /\
  ps_debt s' = snap (ps_debt s) /\ ps_free_cash s' = snap (ps_free_cash s) /\
  ps_val_price s' = ps_val_price s /\ ps_value s' = ps_value s /\
  rc_orders rc' = rc_orders rc.
Proof. exact @unfilled_no_effect. Qed.
Print Assumptions C03_unfilled_no_effect.

Theorem C03_filled_one_record : forall {T} {N : Num T} draws i col group (s : ProcState T) upd o rc r s' rc',
  process_order_nb draws i col group s upd o rc = Ok (r, s', rc') ->
  r_status r = Filled ->
  exists rec, rc_orders rc' = rc_orders rc ++ [rec] /\
    or_col rec = col /\ or_idx rec = i /\ or_size rec = r_size r /\ or_price rec = r_price r /\
    or_fees rec = r_fees r /\ or_side rec = r_side r.
Proof. exact @filled_one_record. Qed.
Print Assumptions C03_filled_one_record.

(** [snap] is the identity except for values within 1e-12 of zero. *)
Theorem C03_snap_meaning : forall x : XQ, snapped x (snap x).
Proof. exact OrderLemmas.snap_snapped. Qed.
Print Assumptions C03_snap_meaning.

Definition recs0 : Recs XQ := mkRecs [] [] 10 10 0.
Example C03_nonvacuous :
  (exists r s' rc', process_order_nb no_draws 0 0 0 state100 true buy3 recs0 = Ok (r, s', rc') /\
     r_status r = Filled /\ List.length (rc_orders rc') = 1%nat) /\
  (exists r s' rc', process_order_nb no_draws 0 0 0 state100 true
       (base_order (Fin (- (1))) (Fin 10) Amount LongOnly) recs0 = Ok (r, s', rc') /\
     r_status r = Rejected).
Proof.
  split; do 3 eexists; repeat (split; [vm_compute; reflexivity|]); vm_compute; reflexivity.
Qed.

(** ** C04 *)
Theorem C04_fill_accounting : forall draws k (s : ProcState XQ) (o : Order XQ) es' r k',
  fees_above_minus_one o -> number_sized o (ps_value s) ->
  execute_order_nb draws k s o = Ok (es', r, k') ->
  r_status r = Filled ->
  exists cash p p' size px fee price slip f ff,
    snapped (ps_cash s) cash /\ snapped (ps_position s) (Fin p) /\ es_position es' = Fin p' /\
    o_price o = Fin price /\ o_slippage o = Fin slip /\ o_fees o = Fin f /\ o_fixed_fees o = Fin ff /\
    r_size r = Fin size /\ r_price r = Fin px /\ r_fees r = Fin fee /\ 0 <= size /\
    fee == size * px * f + ff /\
    ((r_side r = Some Buy /\ px == price * (1 + slip) /\
      xadd_approx cash (- (size * px + fee)) (es_cash es') /\ approx_add p size p') \/
     (r_side r = Some Sell /\ px == price * (1 - slip) /\
      (exists net, approx_add (size * px) (- fee) net /\ 0 <= net /\ xadd_exact cash net (es_cash es')) /\
      approx_add p (- size) p')).
Proof.
  exact (fun draws k s o es' r k' Hf Hn => fill_accounting draws k s o es' r k' Hf (regular_of_number_sized o (ps_value s) Hn)).
Qed.
Print Assumptions C04_fill_accounting.

Example C04_nonvacuous : exists es' r k',
  execute_order_nb no_draws 0 state100 buy3 = Ok (es', r, k') /\ r_status r = Filled /\
  r_price r = Fin 11 /\ r_fees r = Fin (133 # 100) /\ es_cash es' = Fin (6567 # 100) /\
  fees_above_minus_one buy3 /\ number_sized buy3 (ps_value state100).
Proof.
  do 3 eexists. repeat (split; [vm_compute; reflexivity|]). split; [|exact I].
  intros f E; vm_compute in E; inversion E; reflexivity.
Qed.

(** ** C05 *)
Theorem C05_size_limits : forall draws k (s : ProcState XQ) (o : Order XQ) es' r k',
  fees_above_minus_one o -> number_sized o (ps_value s) ->
  execute_order_nb draws k s o = Ok (es', r, k') ->
  r_status r = Filled ->
  exists size, r_size r = Fin size /\ 0 <= size /\
    (forall m, o_max_size o = Fin m -> size <= m) /\
    (forall g, o_size_granularity o = Fin g -> exists n, size == inject_Z n * g) /\
    (forall m, o_min_size o = Fin m -> m - tolq size m <= size).
Proof.
  exact (fun draws k s o es' r k' Hf Hn =>
    size_limits_max_gran_min draws k s o es' r k' Hf (regular_of_number_sized o (ps_value s) Hn)).
Qed.
Print Assumptions C05_size_limits.

(** Never more than requested, in the requested direction, and all of it
    when partial fills are not allowed. *)
Theorem C05_requested_size : forall draws k (s : ProcState XQ) (o : Order XQ) es' r k' p a,
  fees_above_minus_one o ->
  execute_order_nb draws k s o = Ok (es', r, k') ->
  r_status r = Filled ->
  snapped (ps_position s) (Fin p) ->
  requested o p (ps_val_price s) (ps_value s) a ->
  exists size p', r_size r = Fin size /\ es_position es' = Fin p' /\
    ((0 < a /\ r_side r = Some Buy /\ size <= a /\ approx_add p size p') \/
     (a <= 0 /\ r_side r = Some Sell /\ size <= - a /\ approx_add p (- size) p')) /\
    (o_allow_partial o = false -> Qabs a - tolq size (Qabs a) <= size).
Proof. exact size_requested. Qed.
Print Assumptions C05_requested_size.

Theorem C05_size_positive_partial : forall draws k (s : ProcState XQ) (o : Order XQ) es' r k',
  fees_above_minus_one o -> number_sized o (ps_value s) ->
  execute_order_nb draws k s o = Ok (es', r, k') ->
  r_status r = Filled ->
  o_size_granularity o = NaN \/ r_side r = Some Sell ->
  exists size, r_size r = Fin size /\ 0 < size.
Proof.
  exact (fun draws k s o es' r k' Hf Hn => size_positive draws k s o es' r k' Hf (regular_of_number_sized o (ps_value s) Hn)).
Qed.
Print Assumptions C05_size_positive_partial.

(** A buy with a size granularity and cash for less than one step fills with
    size zero and still pays the fixed fees. *)
Theorem C05_zero_size_fill_refuted : exists draws k (s : ProcState XQ) (o : Order XQ) es' r k',
  execute_order_nb draws k s o = Ok (es', r, k') /\ r_status r = Filled /\ r_size r = Fin 0 /\
  ps_cash s = Fin 5 /\ es_cash es' = Fin 4.
Proof.
  exists no_draws, 0%nat, (mkProc (Fin 5) (Fin 0) (Fin 0) (Fin 5) (Fin 10) (Fin 5)),
    (mkOrder (Fin 1) (Fin 10) Amount BothDir (Fin 0) (Fin 1) (Fin 0) (Fin 0) PInf (Fin 1)
       (Fin 0) false true false false).
  do 3 eexists. repeat (split; [vm_compute; reflexivity|]). vm_compute; reflexivity.
Qed.
Print Assumptions C05_zero_size_fill_refuted.

Definition limited : Order XQ :=
  mkOrder (Fin 30) (Fin 7) Amount BothDir (Fin 0) (Fin 0) (Fin 0) (Fin 1) (Fin 12) (Fin (3 # 2))
    (Fin 0) false true false false.
Example C05_nonvacuous : exists es' r k',
  execute_order_nb no_draws 0 state100 limited = Ok (es', r, k') /\ r_status r = Filled /\
  r_size r = Fin 12 /\ requested limited 0 (ps_val_price state100) (ps_value state100) 30.
Proof.
  do 3 eexists. repeat (split; [vm_compute; reflexivity|]).
  exists 30. split; reflexivity.
Qed.

(** ** C06 *)
Theorem C06_nan_size_skips : forall {T} {N : Num T} draws k (s : ProcState T) (o : Order T),
  isnan (o_size o) = true ->
  execute_order_nb draws k s o = Ok (snap_state s, order_not_filled Ignored SizeNaN, k).
Proof. exact @execute_nan_size. Qed.
Print Assumptions C06_nan_size_skips.

Theorem C06_zero_amount_or_value_skips_partial : forall draws k (s : ProcState XQ) (o : Order XQ) es' r k' q,
  fees_above_minus_one o ->
  o_size o = Fin q -> q == 0 -> o_size_type o = Amount \/ o_size_type o = Value ->
  execute_order_nb draws k s o = Ok (es', r, k') ->
  r_status r <> Filled.
Proof. exact zero_size_amount_value. Qed.
Print Assumptions C06_zero_amount_or_value_skips_partial.

Theorem C06_zero_percent_long_only_skips_partial : forall draws k (s : ProcState XQ) (o : Order XQ) es' r k' q,
  o_size o = Fin q -> q == 0 -> o_size_type o = Percent -> o_direction o = LongOnly ->
  execute_order_nb draws k s o = Ok (es', r, k') ->
  r_status r <> Filled.
Proof. exact zero_percent_long_only. Qed.
Print Assumptions C06_zero_percent_long_only_skips_partial.

(** A percentage of zero in both directions is filled, and cash becomes NaN. *)
Theorem C06_zero_percent_refuted : exists draws k (s : ProcState XQ) (o : Order XQ) es' r k',
  o_size o = Fin 0 /\ o_size_type o = Percent /\ o_direction o = BothDir /\
  execute_order_nb draws k s o = Ok (es', r, k') /\ r_status r = Filled /\
  ps_cash s = Fin 100 /\ es_cash es' = NaN.
Proof.
  exists no_draws, 0%nat, state100, (base_order (Fin 0) (Fin 10) Percent BothDir).
  do 3 eexists. repeat (split; [vm_compute; reflexivity|]). vm_compute; reflexivity.
Qed.
Print Assumptions C06_zero_percent_refuted.

Example C06_nonvacuous : exists es' r k',
  execute_order_nb no_draws 0 state100 (base_order (Fin 0) (Fin 10) Value BothDir) = Ok (es', r, k') /\
  r_info r = Some SizeZero /\
  exists es2 r2 k2,
  execute_order_nb no_draws 0 (mkProc (Fin 100) (Fin 1) (Fin 0) (Fin 100) (Fin 10) (Fin 100))
    (base_order (Fin 0) (Fin 10) Percent LongOnly) = Ok (es2, r2, k2) /\ r_info r2 = Some SizeZero.
Proof.
  do 3 eexists. repeat (split; [vm_compute; reflexivity|]).
  do 3 eexists. repeat (split; [vm_compute; reflexivity|]). vm_compute; reflexivity.
Qed.

(** ** C07 *)
Theorem C07_debt_consistent : forall draws (evs : list (Ev XQ)) a k a' k' c0,
  (forall e, In e evs -> fees_above_minus_one (ev_order e) /\ number_sized (ev_order e) (ev_value e) /\
     forall sl, o_slippage (ev_order e) = Fin sl -> sl <= 1) ->
  fresh a c0 ->
  acct_run draws (a, k) evs = Ok (a', k') ->
  forall c, exists p d, ac_pos a' c = Fin p /\ ac_debt a' c = Fin d /\ 0 <= d /\ (0 <= p -> d == 0).
Proof. exact debt_history. Qed.
Print Assumptions C07_debt_consistent.

(** Free cash is cash minus twice the debt of all columns, with a tolerance per order. *)
Theorem C07_free_cash_consistent : forall draws n M (evs : list (Ev XQ)) a k a' k' c0,
  (forall e, In e evs -> (ev_col e < n)%nat /\ fees_above_minus_one (ev_order e) /\
     number_sized (ev_order e) (ev_value e) /\
     forall sl, o_slippage (ev_order e) = Fin sl -> sl <= 1) ->
  fresh a c0 ->
  (forall evs1 evs2 a1 k1, evs = evs1 ++ evs2 -> acct_run draws (a, k) evs1 = Ok (a1, k1) -> bounded M n a1) ->
  acct_run draws (a, k) evs = Ok (a', k') ->
  exists c fr D, ac_cash a' = Fin c /\ ac_free a' = Fin fr /\
    (forall i, (i < n)%nat -> ac_debt a' i = Fin (D i)) /\
    Qabs (fr - (c - 2 * sumQ D n)) <=
      inject_Z (Z.of_nat (List.length evs)) * ((12 # 1000000000) * M + (20 # 1000000000000)).
Proof. exact free_cash_history. Qed.
Print Assumptions C07_free_cash_consistent.

Example C07_nonvacuous :
  fresh acct100 100 /\
  (forall e, In e (firstn 3 long_short_history) -> (ev_col e < 2)%nat /\ fees_above_minus_one (ev_order e) /\
     number_sized (ev_order e) (ev_value e) /\
     forall sl, o_slippage (ev_order e) = Fin sl -> sl <= 1) /\
  (forall evs1 evs2 a1 k1, firstn 3 long_short_history = evs1 ++ evs2 ->
     acct_run no_draws (acct100, 0%nat) evs1 = Ok (a1, k1) -> bounded 200 2 a1) /\
  exists a' k', acct_run no_draws (acct100, 0%nat) (firstn 3 long_short_history) = Ok (a', k') /\
    ac_cash a' = Fin 150 /\ ac_free a' = Fin 50 /\ ac_debt a' 0%nat = Fin 30 /\ ac_debt a' 1%nat = Fin 20.
Proof.
  split; [repeat split|]. split.
  { intros e [<-|[<-|[<-|[]]]]; (split; [cbn; auto|]);
    (split; [intros f E; vm_compute in E; inversion E; reflexivity|]); (split; [exact I|]);
    intros f E; vm_compute in E; inversion E; discriminate. }
  split.
  { intros evs1 evs2 a1 k1 He Hr.
    destruct evs1 as [|e1 [|e2 [|e3 [|e4 evs1]]]]; cbn in He; inversion He; subst; vm_compute in Hr; inversion Hr;
    do 2 eexists; (split; [reflexivity|]); (split; [reflexivity|]); (split; [discriminate|]);
    (split; [discriminate|]); intros [|[|i]] Hi; try (exfalso; Lia.lia);
    eexists; (split; [reflexivity|]); discriminate. }
  do 2 eexists. repeat (split; [vm_compute; reflexivity|]). vm_compute; reflexivity.
Qed.

(** ** C08 *)

(** Proved when the fixed fees are covered by free cash and the account's debt is
    that of the traded asset. *)
Theorem C08_lock_cash_partial : forall draws k (s : ProcState XQ) (o : Order XQ) es' r k' cash p d fr,
  fees_above_minus_one o ->
  (forall sl, o_slippage o = Fin sl -> sl < 1) ->
  number_sized o (ps_value s) ->
  (o_direction o = LongOnly -> o_size_type o = Percent -> exists q, o_size o = Fin q /\ - (1) <= q) ->
  o_lock_cash o = true ->
  snapped (ps_cash s) cash -> snapped (ps_position s) (Fin p) ->
  snapped (ps_debt s) (Fin d) -> snapped (ps_free_cash s) (Fin fr) ->
  0 <= fr ->
  (p < 0 -> (exists c, cash = Fin c /\ c <= fr + 2 * d) /\
            forall ff, o_fixed_fees o = Fin ff -> 0 <= ff <= fr) ->
  execute_order_nb draws k s o = Ok (es', r, k') ->
  exists q, es_free_cash es' = Fin q /\
    (r_side r <> Some Sell -> 0 <= q) /\
    (r_side r = Some Sell -> exists size px fee, r_size r = Fin size /\ r_price r = Fin px /\
       r_fees r = Fin fee /\ - tolq (size * px) fee <= q).
Proof.
  exact (fun draws k s o es' r k' cash p d fr Hf Hs Hn =>
    lock_cash_free draws k s o es' r k' cash p d fr Hf Hs (regular_of_number_sized o (ps_value s) Hn)).
Qed.
Print Assumptions C08_lock_cash_partial.

Definition lock_order (size price : XQ) (ff : Q) : Order XQ :=
  mkOrder size price Amount BothDir (Fin 0) (Fin ff) (Fin 0) (Fin 0) PInf NaN (Fin 0) true true false false.

(** Covering part of a short position with fixed fees above the free cash:
    a short sale of 10 @ 10 with locked cash leaves free cash 0, then buying back 0.01. *)
Theorem C08_fixed_fees_refuted : exists draws evs a' k' fr,
  (forall e, In e evs -> o_lock_cash (ev_order e) = true) /\
  acct_run draws (acct100, 0%nat) evs = Ok (a', k') /\ ac_free a' = Fin fr /\ fr < 0.
Proof.
  exists no_draws, [ mkEv 0 (Fin 10) (Fin 100) (lock_order (Fin (- (10))) (Fin 10) 0);
                     mkEv 0 (Fin 10) (Fin 100) (lock_order (Fin (1 # 100)) (Fin 10) 1) ].
  do 3 eexists. split; [intros e [<-|[<-|[]]]; reflexivity|].
  split; [vm_compute; reflexivity|]. split; [vm_compute; reflexivity|]. vm_compute; reflexivity.
Qed.
Print Assumptions C08_fixed_fees_refuted.

(** Two shorted assets sharing cash: when free cash just covers the first one,
    the limit becomes the whole cash, including what secures the second one. *)
Theorem C08_shared_cash_refuted : exists draws evs a' k' fr,
  (forall e, In e evs -> o_lock_cash (ev_order e) = true) /\
  acct_run draws (acct100, 0%nat) evs = Ok (a', k') /\ ac_free a' = Fin fr /\ fr == - (40).
Proof.
  exists no_draws, [ mkEv 1 (Fin 10) (Fin 100) (lock_order (Fin (- (2))) (Fin 10) 0);
                     mkEv 0 (Fin 10) (Fin 100) (lock_order (Fin (- (4))) (Fin 10) 0);
                     mkEv 0 (Fin 30) (Fin 20) (lock_order PInf (Fin 30) 0) ].
  do 3 eexists. split; [intros e [<-|[<-|[<-|[]]]]; reflexivity|].
  split; [vm_compute; reflexivity|]. split; [vm_compute; reflexivity|]. vm_compute; reflexivity.
Qed.
Print Assumptions C08_shared_cash_refuted.

Example C08_nonvacuous : exists es' r k',
  let s := mkProc (Fin 150) (Fin (- (5))) (Fin 50) (Fin 50) (Fin 10) (Fin 100) in
  execute_order_nb no_draws 0 s (lock_order PInf (Fin 15) 2) = Ok (es', r, k') /\
  r_status r = Filled /\ es_free_cash es' = Fin 0 /\
  snapped (ps_position s) (Fin (- (5))) /\ (150 <= 50 + 2 * 50) /\ 0 <= 2 <= 50.
Proof.
  do 3 eexists. cbv zeta. repeat (split; [vm_compute; reflexivity|]).
  split; [|repeat split; discriminate]. left. split; auto.
  intros q E. inversion E. reflexivity.
Qed.

(** ** C09 *)
Theorem C09_target_reached : forall draws k (s : ProcState XQ) (o : Order XQ) es' r k' p t,
  fees_above_minus_one o ->
  execute_order_nb draws k s o = Ok (es', r, k') ->
  r_status r = Filled ->
  snapped (ps_position s) (Fin p) ->
  target o (ps_val_price s) (ps_value s) t ->
  exists size p', r_size r = Fin size /\ es_position es' = Fin p' /\
    Qabs (p' - t) <= Qabs (size - Qabs (t - p)) + tolq p size /\
    (o_allow_partial o = false -> Qabs (size - Qabs (t - p)) <= tolq size (t - p)).
Proof. exact target_reached. Qed.
Print Assumptions C09_target_reached.

Definition target60 : Order XQ :=
  mkOrder (Fin (6 # 10)) (Fin 10) TargetPercent ShortOnly (Fin 0) (Fin 0) (Fin 0) (Fin 0) PInf NaN
    (Fin 0) false false false false.
Example C09_nonvacuous : exists es' r k',
  execute_order_nb no_draws 0 state100 target60 = Ok (es', r, k') /\ r_status r = Filled /\
  es_position es' = Fin (- (6)) /\ target target60 (ps_val_price state100) (ps_value state100) (- (6)).
Proof.
  do 3 eexists. repeat (split; [vm_compute; reflexivity|]).
  exists (6 # 10). split; [reflexivity|]. exists 10, 100. repeat split.
Qed.

(** ** C10 *)

(** After a fill with value updating, the valuation price is the fill price and the
    group value still differs from cash plus this column's asset value by the
    same amount (the other columns' assets). *)
Theorem C10_value_after_fill : forall draws i col group (s : ProcState XQ) (o : Order XQ) rc r s' rc' c p vp v c',
  fees_above_minus_one o -> number_sized o (ps_value s) ->
  process_order_nb draws i col group s true o rc = Ok (r, s', rc') ->
  r_status r = Filled ->
  ps_cash s = Fin c -> ps_position s = Fin p -> ps_val_price s = Fin vp -> ps_value s = Fin v ->
  ps_cash s' = Fin c' ->
  exists p' px v', ps_position s' = Fin p' /\
    r_price r = Fin px /\ ps_val_price s' = Fin px /\ ps_value s' = Fin v' /\
    v' - (c' + p' * px) == v - (c + p * vp).
Proof. exact value_after_fill. Qed.
Print Assumptions C10_value_after_fill.

Theorem C10_value_unchanged_without_update : forall {T} {N : Num T} draws i col group (s : ProcState T) o rc r s' rc',
  process_order_nb draws i col group s false o rc = Ok (r, s', rc') ->
  ps_val_price s' = ps_val_price s /\ ps_value s' = ps_value s.
Proof. exact @value_unchanged_without_update. Qed.
Print Assumptions C10_value_unchanged_without_update.

Example C10_nonvacuous : exists r s' rc',
  process_order_nb no_draws 0 0 0 state100 true buy3 recs0 = Ok (r, s', rc') /\ r_status r = Filled /\
  ps_value s' = Fin (9867 # 100).
Proof. do 3 eexists. repeat (split; [vm_compute; reflexivity|]). vm_compute; reflexivity. Qed.

(** ** C11 (for every number type) *)
Theorem C11_record_bookkeeping : forall {T} {N : Num T} draws (calls : list (Call T)) mo ml k rc',
  foldM (run_call draws) (mkRecs [] [] mo ml k) calls = Ok rc' ->
  numbered (@or_id T) (rc_orders rc') /\ numbered (@lg_id T) (rc_logs rc') /\
  (List.length (rc_orders rc') <= mo)%nat /\ (List.length (rc_logs rc') <= ml)%nat /\
  Forall (log_linked (rc_orders rc')) (rc_logs rc') /\
  List.length (rc_logs rc') = List.length (filter (fun c => o_log (cl_order c)) calls).
Proof. exact @record_bookkeeping. Qed.
Print Assumptions C11_record_bookkeeping.

(** Later calls only append. *)
Theorem C11_records_append_only : forall {T} {N : Num T} draws (calls1 calls2 : list (Call T)) mo ml k rc1 rc2,
  foldM (run_call draws) (mkRecs [] [] mo ml k) calls1 = Ok rc1 ->
  foldM (run_call draws) (mkRecs [] [] mo ml k) (calls1 ++ calls2) = Ok rc2 ->
  (exists more, rc_orders rc2 = rc_orders rc1 ++ more) /\
  (exists more, rc_logs rc2 = rc_logs rc1 ++ more).
Proof. exact @records_append_only. Qed.
Print Assumptions C11_records_append_only.

Theorem C11_full_buffers_raise : forall {T} {N : Num T} draws i col group (s : ProcState T) upd o rc,
  ((exists es r k, execute_order_nb draws (rc_rng rc) s o = Ok (es, r, k) /\ r_status r = Filled) /\
     (rc_max_orders rc <= List.length (rc_orders rc))%nat) \/
  (o_log o = true /\ (rc_max_logs rc <= List.length (rc_logs rc))%nat) ->
  exists e, process_order_nb draws i col group s upd o rc = Err e.
Proof. exact @full_buffers_raise. Qed.
Print Assumptions C11_full_buffers_raise.

Definition calls3 : list (Call XQ) :=
  [ mkCall 0 0 0 state100 true buy3;
    mkCall 1 0 0 state100 true (base_order (Fin (- (1))) (Fin 10) Amount LongOnly);
    mkCall 2 1 0 state100 true buy3 ].
Example C11_nonvacuous :
  (exists rc', foldM (run_call no_draws) (mkRecs [] [] 2 2 0) calls3 = Ok rc' /\
     map (@or_id XQ) (rc_orders rc') = [0%nat; 1%nat] /\ map (@lg_order_id XQ) (rc_logs rc') = [Some 0%nat; Some 1%nat]) /\
  (exists e, foldM (run_call no_draws) (mkRecs [] [] 1 2 0) calls3 = Err e).
Proof.
  split; eexists; repeat (split; [vm_compute; reflexivity|]); vm_compute; reflexivity.
Qed.
