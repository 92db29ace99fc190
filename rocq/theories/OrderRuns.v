(** * Order properties over histories (C01, C02), value after a fill (C10) and counterexamples *)
From Coq Require Import ZArith QArith Qabs Qround Qminmax Bool Lia Lqa List String Setoid Morphisms.
From Verif Require Import Base Num MathNb TolSpec Order OrderSpec Account AccountSpec XQFacts OrderFacts ExecFacts
  FillFacts OrderLemmas OrderGen FillView OrderLemmas2 OrderLemmas3 OrderLemmas4.
Import ListNotations.

Lemma not_below_zero_ltb : forall x, not_below_zero x <-> ltb x zero = false.
Proof.
  intros x. unfold not_below_zero. destruct x as [| | |q]; cbn; split; auto.
  - intros _. split; congruence.
  - intros _. split; congruence.
  - intros [C _]; congruence.
  - discriminate.
  - intros [_ H]. change (inject_Z 0) with 0. qbg. auto.
  - intros H. change (inject_Z 0) with 0 in H. qb. split; [discriminate|]. intros z E. inversion E; subst; auto.
Qed.

Lemma run_cash_not_below_zero : forall draws (evs : list (Ev XQ)) a k a' k',
  (forall e, In e evs -> fees_above_minus_one (ev_order e)) ->
  not_below_zero (ac_cash a) ->
  acct_run draws (a, k) evs = Ok (a', k') ->
  not_below_zero (ac_cash a').
Proof.
  intros draws evs a k a' k' Hf Hc H. apply not_below_zero_ltb. apply not_below_zero_ltb in Hc.
  eapply run_cash_not_negative; [|exact Hc|exact H]. intros e f Hin. apply (Hf e Hin).
Qed.

Lemma regular_of_number_sized : forall o v, number_sized o v -> regular o (snap v).
Proof.
  intros o v H. unfold regular, number_sized in *. destruct (o_size_type o); auto.
  intros E. apply H. destruct v as [| | |q]; auto; try (rewrite snap_nonfin in E by discriminate; discriminate).
  destruct (snap_fin q) as (z & Ez & _). rewrite Ez in E. discriminate.
Qed.

Lemma run_cash_nonnegative : forall draws (evs : list (Ev XQ)) a k a' k',
  (forall e, In e evs -> fees_above_minus_one (ev_order e) /\ number_sized (ev_order e) (ev_value e)) ->
  nonnegative (ac_cash a) ->
  acct_run draws (a, k) evs = Ok (a', k') ->
  nonnegative (ac_cash a').
Proof.
  intros draws evs a k a' k' Hf Hc H.
  apply (foldM_inv _ _ (fun s => nonnegative (ac_cash (fst s)))) in H; auto.
  intros [b kb] e [b' kb'] HP Hin Hs. unfold acct_step in Hs.
  apply bind_ok in Hs as ([[es r] k1] & He & Hs). injection Hs as <- <-. cbn.
  destruct (Hf e Hin) as [H1 H2].
  eapply execute_cash_ok in He; eauto using regular_of_number_sized.
Qed.

Lemma run_long_only : forall draws (evs : list (Ev XQ)) a k a' k',
  (forall e, In e evs -> o_direction (ev_order e) = LongOnly /\
     fees_above_minus_one (ev_order e) /\ number_sized (ev_order e) (ev_value e) /\
     (o_size_type (ev_order e) = Percent -> exists q, o_size (ev_order e) = Fin q /\ - (1) <= q)) ->
  (forall c, exists p, ac_pos a c = Fin p /\ 0 <= p) ->
  acct_run draws (a, k) evs = Ok (a', k') ->
  forall c, exists p, ac_pos a' c = Fin p /\ 0 <= p.
Proof.
  intros draws evs a k a' k' Hf Hc H.
  change (forall c, exists p, ac_pos (fst (a', k')) c = Fin p /\ 0 <= p).
  eapply (foldM_inv _ _ (fun s => forall c, exists p, ac_pos (fst s) c = Fin p /\ 0 <= p)) with (s := (a, k)); [|exact Hc|exact H].
  intros [b kb] e [b' kb'] HP Hin Hs. unfold acct_step in Hs.
  apply bind_ok in Hs as ([[es r] k1] & He & Hs). injection Hs as <- <-. cbn [fst acct_put ac_pos].
  destruct (Hf e Hin) as (H1 & H2 & H3 & H4).
  intros c. destruct (Nat.eq_dec c (ev_col e)) as [->|Hne].
  - rewrite fupd_same. destruct (HP (ev_col e)) as (p & Ep & Hp).
    eapply long_only_exec in He; eauto using regular_of_number_sized.
  - rewrite fupd_other by auto. apply HP.
Qed.

Lemma run_short_only : forall draws (evs : list (Ev XQ)) a k a' k',
  (forall e, In e evs -> o_direction (ev_order e) = ShortOnly /\
     fees_above_minus_one (ev_order e) /\ number_sized (ev_order e) (ev_value e)) ->
  (forall c, exists p, ac_pos a c = Fin p /\ p <= 0) ->
  acct_run draws (a, k) evs = Ok (a', k') ->
  forall c, exists p, ac_pos a' c = Fin p /\ p <= 0.
Proof.
  intros draws evs a k a' k' Hf Hc H.
  change (forall c, exists p, ac_pos (fst (a', k')) c = Fin p /\ p <= 0).
  eapply (foldM_inv _ _ (fun s => forall c, exists p, ac_pos (fst s) c = Fin p /\ p <= 0)) with (s := (a, k)); [|exact Hc|exact H].
  intros [b kb] e [b' kb'] HP Hin Hs. unfold acct_step in Hs.
  apply bind_ok in Hs as ([[es r] k1] & He & Hs). injection Hs as <- <-. cbn [fst acct_put ac_pos].
  destruct (Hf e Hin) as (H1 & H2 & H3).
  intros c. destruct (Nat.eq_dec c (ev_col e)) as [->|Hne].
  - rewrite fupd_same. destruct (HP (ev_col e)) as (p & Ep & Hp).
    eapply short_only_exec in He; eauto using regular_of_number_sized.
  - rewrite fupd_other by auto. apply HP.
Qed.

Lemma debt_history : forall draws evs a k a' k' c0,
  (forall e, In e evs -> fees_above_minus_one (ev_order e) /\ number_sized (ev_order e) (ev_value e) /\
     forall sl, o_slippage (ev_order e) = Fin sl -> sl <= 1) ->
  fresh a c0 ->
  acct_run draws (a, k) evs = Ok (a', k') ->
  forall c, exists p d, ac_pos a' c = Fin p /\ ac_debt a' c = Fin d /\ 0 <= d /\ (0 <= p -> d == 0).
Proof.
  intros draws evs a k a' k' c0 Hf Hfr H c.
  eapply acct_run_debt_ok in H; [|intros e He; destruct (Hf e He) as (H1 & H2 & H3)|eapply fresh_debt_ok; exact Hfr].
  - destruct (H c) as (p & d & H1 & H2 & H3 & H4 & H5). exists p, d. auto.
  - split; [exact H1|]. split; [exact H3|]. apply regular_of_number_sized; auto.
Qed.

Lemma free_cash_history : forall draws n M evs a k a' k' c0,
  (forall e, In e evs -> (ev_col e < n)%nat /\ fees_above_minus_one (ev_order e) /\
     number_sized (ev_order e) (ev_value e) /\
     forall sl, o_slippage (ev_order e) = Fin sl -> sl <= 1) ->
  fresh a c0 ->
  (forall evs1 evs2 a1 k1, evs = evs1 ++ evs2 -> acct_run draws (a, k) evs1 = Ok (a1, k1) -> bounded M n a1) ->
  acct_run draws (a, k) evs = Ok (a', k') ->
  exists c fr D, ac_cash a' = Fin c /\ ac_free a' = Fin fr /\
    (forall i, (i < n)%nat -> ac_debt a' i = Fin (D i)) /\
    Qabs (fr - (c - 2 * sumQ D n)) <=
      inject_Z (Z.of_nat (List.length evs)) * ((12 # 1000000000) * M + (20 # 1000000000000)).
Proof.
  intros draws n M evs a k a' k' c0 Hf Hfr Hb H.
  apply (run_in_balance draws n M evs a k a' k' 0) in H.
  - destruct H as (c & fr & D & H1 & H2 & H3 & H4). exists c, fr, D. repeat (split; auto).
    rewrite Qplus_0_l in H4. exact H4.
  - apply Forall_forall. intros e He. destruct (Hf e He) as (H1 & H2 & H3 & H4).
    split; [exact H1|]. split; [exact H2|]. split; [exact H4|]. apply regular_of_number_sized; auto.
  - eapply fresh_debt_ok; exact Hfr.
  - exact Hb.
  - eapply fresh_in_balance; exact Hfr.
Qed.

Lemma value_after_fill : forall draws i col group (s : ProcState XQ) (o : Order XQ) rc r s' rc' c p vp v c',
  fees_above_minus_one o -> number_sized o (ps_value s) ->
  process_order_nb draws i col group s true o rc = Ok (r, s', rc') ->
  r_status r = Filled ->
  ps_cash s = Fin c -> ps_position s = Fin p -> ps_val_price s = Fin vp -> ps_value s = Fin v ->
  ps_cash s' = Fin c' ->
  exists p' px v', ps_position s' = Fin p' /\
    r_price r = Fin px /\ ps_val_price s' = Fin px /\ ps_value s' = Fin v' /\
    v' - (c' + p' * px) == v - (c + p * vp).
Proof.
  intros draws i col group s o rc r s' rc' c p vp v c' Hf Hn H Hfl Ec Ep Evp Ev Ec'.
  apply process_order_inv in H as (es & He & _ & Hs & Hv1 & _).
  assert (Hif : is_filled r && true = true) by (unfold is_filled; rewrite Hfl; auto).
  specialize (Hv1 Hif). rewrite Hs in Ec'. cbn in Ec'.
  destruct (fill_accounting _ _ _ _ _ _ _ Hf (regular_of_number_sized _ _ Hn) He Hfl)
    as (cash & p1 & p' & size & px & fee & price & slip & f & ff & S1 & S2 & Ep' & _ & _ & _ & _ & _ & Epx & _).
  rewrite Ec, Ec', Ep, Ep', Evp, Ev, Epx in Hv1. symmetry in Hv1.
  apply update_value_fin in Hv1 as (E1 & v' & E2 & E3); [|right; eauto].
  exists p', px, v'. rewrite Hs. cbn [ps_cash ps_position ps_val_price ps_value].
  rewrite Ep', E1, E2. repeat (split; auto). rewrite E3. ring.
Qed.

(** ** Counterexamples: orders that fill although the English claim says otherwise *)
Definition base_order (size price : XQ) (st : SizeType) (dir : Direction) : Order XQ :=
  mkOrder size price st dir (Fin 0) (Fin 0) (Fin 0) (Fin 0) PInf NaN (Fin 0) false true false false.
Definition no_draws : nat -> XQ := fun _ => Fin (1 # 2).
