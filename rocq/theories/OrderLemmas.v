(** * Proofs of the order-level properties (C01-C10) *)
From Coq Require Import ZArith QArith Qabs Qround Qminmax Bool Lia Lqa List Setoid Morphisms.
From Verif Require Import Base Num MathNb TolSpec Order Account XQFacts OrderFacts ExecFacts FillFacts.
Import ListNotations.

Lemma snap_fin : forall a, exists q, snap (Fin a) = Fin q /\
  ((q == 0 /\ Qabs a <= (1 # 1000000000000)) \/ (q = a /\ (1 # 1000000000000) < Qabs a)).
Proof.
  intros a. unfold snap. destruct (is_close_nb (Fin a) zero) eqn:E.
  - apply is_close_zero in E. exists (inject_Z 0). split; [reflexivity|]. left; split; [reflexivity|auto].
  - apply is_close_zero_f in E. exists a; split; auto.
Qed.
Lemma snap_nonfin : forall x, (forall q, x <> Fin q) -> snap x = x.
Proof.
  intros x H. unfold snap. rewrite is_close_nonfin; auto.
  destruct x; auto. exfalso; eapply H; eauto.
Qed.

Lemma snap_snapped : forall x, snapped x (snap x).
Proof.
  intros [| | |a]; try (left; split; [rewrite snap_nonfin; [reflexivity|discriminate]|discriminate]).
  unfold snap. destruct (is_close_nb (Fin a) zero) eqn:E.
  - apply is_close_zero in E. right. split; [reflexivity|eauto].
  - apply is_close_zero_f in E. left. split; auto. intros q Eq. inversion Eq; subst; auto.
Qed.

Lemma snapped_det : forall x y, snapped x y -> snap x = y.
Proof.
  intros x y [[-> H]|[-> (q & -> & Hq)]].
  - destruct x as [| | |a]; try (apply snap_nonfin; discriminate).
    destruct (snap_fin a) as (z & E & [[_ Hs]|[-> _]]); auto. specialize (H a eq_refl). lra.
  - unfold snap. apply is_close_zero in Hq. rewrite Hq. reflexivity.
Qed.

(** ** C01 *)
Lemma xadd_approx_cash : forall cash req cl r,
  cash_ok cash -> xq_leb cl cash = true ->
  (cl = PInf \/ exists l, cl = Fin l /\ (req <= l \/ Qabs (req - l) <= tolq req l)) ->
  xadd_approx cash (- req) r -> cash_ok r.
Proof.
  intros cash req cl r Hc Hle Hreq H.
  destruct Hc as [->|(c & -> & Hc)].
  - simpl in H. left; auto.
  - destruct H as (q & -> & Ha). right. exists q. split; auto.
    destruct Hreq as [->|(l & -> & Hl)]; [discriminate|].
    cbn [xq_leb] in Hle. qb.
    destruct (Qlt_le_dec c req) as [Hlt|Hge].
    + (* close to the limit, hence close to the cash *)
      destruct Hl as [Hl|Hl]; [lra|].
      destruct Ha as [[Hq _]|[Hq Hgt]]; [lra|].
      exfalso. apply tolq_le_iff in Hl. apply tolq_lt_iff in Hgt. qabs_all. lra.
    + eapply approx_add_sgn; [exact Ha|lra].
Qed.

Lemma sell_fill_cash : forall (es : ExecState XQ) q ap f ff es' r,
  sell_fill es q ap f ff = Ok (es', r) ->
  es' = es \/ exists x, es_cash es' = add (es_cash es) x /\ ltb x zero = false.
Proof.
  intros es q ap f ff es' r H. unfold sell_fill in H. cbv zeta in H.
  destruct (ltb (add_nb _ _) zero) eqn:E in H.
  - unfold not_filled in H. injection H as <- <-. auto.
  - right. destruct (if ltb (add_nb (es_position es) _) zero then _ else _) as [nd nfc] in H.
    injection H as <- <-. cbn [es_cash]. eexists; split; [reflexivity|exact E].
Qed.

Lemma sell_nb_cash : forall (es : ExecState XQ) sz price dir f ff slip mn mx gran lock allow pct es' r,
  sell_nb es sz price dir f ff slip mn mx gran lock allow pct = Ok (es', r) ->
  es' = es \/ exists x, es_cash es' = add (es_cash es) x /\ ltb x zero = false.
Proof.
  intros es sz price dir f ff slip mn mx gran lock allow pct es' r H.
  assert (Hnf : forall st info, not_filled es st info = Ok (es', r) -> es' = es).
  { intros st info E. unfold not_filled in E. injection E as <- _. auto. }
  unfold sell_nb in H. apply bind_ok in H as (lim & _ & H).
  destruct lim as [info|[sl p']]; [left; eauto|].
  cbv zeta in H. destruct (_ && _)%bool in H; [left; eauto|].
  unfold sell_sized in H.
  destruct (_ && _)%bool in H; [discriminate|].
  destruct (_ && _)%bool in H; [left; eauto|].
  apply bind_ok in H as (z & _ & H).
  destruct (is_close_nb z zero); [left; eauto|].
  destruct (is_less_nb z mn); [left; eauto|].
  destruct (_ && _)%bool in H; [left; eauto|].
  eapply sell_fill_cash; eauto.
Qed.

Lemma cash_ok_ltb : forall c, cash_ok c -> ltb c zero = false.
Proof.
  intros c [->|(q & -> & Hq)]; [reflexivity|]. cbn. change (inject_Z 0) with 0. qbg. auto.
Qed.

Lemma snap_not_neg : forall x, ltb x zero = false -> ltb (snap x) zero = false.
Proof. intros x H. unfold snap. destruct (is_close_nb x zero); auto. Qed.

Lemma add_not_neg : forall c x, cash_ok c -> ltb x zero = false -> ltb (add c x) zero = false.
Proof.
  intros c x [->|(q & -> & Hq)] Hx; destruct x as [| | |x]; cbn in *; try discriminate; auto.
  change (inject_Z 0) with 0 in *. qb. qbg. rewrite Qred_correct. lra.
Qed.

Lemma execute_cash_not_negative : forall draws k (s : ProcState XQ) (o : Order XQ) es' r k',
  (forall f, o_fees o = Fin f -> - (1) < f) ->
  ltb (ps_cash s) zero = false ->
  execute_order_nb draws k s o = Ok (es', r, k') ->
  ltb (es_cash es') zero = false.
Proof.
  intros draws k s o es' r k' Hf Hc H.
  apply execute_order_inv in H as [[-> _]|(p & d & price & f & ff & slip & mn & rp & osz & pct & Hsn & Hck & Hrs & Hbs)].
  - cbn. apply snap_not_neg; auto.
  - destruct (gtb osz zero) eqn:Hgt.
    + assert (Hf' : - (1) < f) by (apply Hf; apply (ck_fees _ _ _ _ _ _ _ _ _ _ Hck)).
      destruct (exec_buy _ _ _ _ _ _ _ _ _ _ _ _ _ _ Hck Hf' Hgt Hbs) as [[-> _]|(cl & fs & fee & req & Hcl & C)].
      { cbn. apply snap_not_neg; auto. }
      pose proof (bc_fill _ _ _ _ _ _ _ _ _ _ _ _ _ _ _ _ C) as Hfill.
      pose proof (bc_cash _ _ _ _ _ _ _ _ _ _ _ _ _ _ _ _ C) as Hreq.
      destruct Hck as [Kcash Kpos Kdebt Kd0 Kfree Kprice Kprice0 Klong Kshort Kfees Kff Kslip Kslip0 Kmin Kmin0 Kmax Kgran Krp Krp0].
      destruct (snap_state s) as [cash pos debt free]. cbn [es_cash es_position es_debt es_free_cash] in *.
      subst pos debt.
      apply buy_fill_effect in Hfill as (np & nd & E).
      apply cash_ok_ltb.
      assert (Hap : 0 < Qred (price * Qred (inject_Z 1 + slip))).
      { rewrite !Qred_correct. change (inject_Z 1) with 1. apply Qmul_pos; lra. }
      destruct (buy_cash_limit_spec _ _ _ _ _ _ _ _ _ _ Kcash Kfree Hap Hf' Hcl) as [_ Hle].
      eapply xadd_approx_cash; [exact Kcash|exact Hle|exact Hreq|].
      apply (be_cash _ _ _ _ _ _ _ _ _ _ _ _ E).
    + unfold buy_or_sell in Hbs. rewrite Hgt in Hbs.
      apply sell_nb_cash in Hbs as [->|(x & -> & Hx)].
      * cbn. apply snap_not_neg; auto.
      * apply add_not_neg; auto. apply (ck_cash _ _ _ _ _ _ _ _ _ _ Hck).
Qed.

Lemma run_cash_not_negative : forall draws (evs : list (Ev XQ)) a k a' k',
  (forall e f, In e evs -> o_fees (ev_order e) = Fin f -> - (1) < f) ->
  ltb (ac_cash a) zero = false ->
  acct_run draws (a, k) evs = Ok (a', k') ->
  ltb (ac_cash a') zero = false.
Proof.
  intros draws evs a k a' k' Hf Hc H.
  apply (foldM_inv _ _ (fun s => ltb (ac_cash (fst s)) zero = false)) in H; auto.
  intros [b kb] e [b' kb'] HP Hin Hs. unfold acct_step in Hs.
  apply bind_ok in Hs as ([[es r] k1] & He & Hs). injection Hs as <- <-. cbn.
  apply execute_cash_not_negative in He; eauto.
Qed.

(** With sizes that are numbers, cash stays a number too. *)
Lemma execute_cash_ok : forall draws k (s : ProcState XQ) (o : Order XQ) es' r k',
  (forall f, o_fees o = Fin f -> - (1) < f) ->
  regular o (snap (ps_value s)) -> cash_ok (ps_cash s) ->
  execute_order_nb draws k s o = Ok (es', r, k') ->
  cash_ok (es_cash es').
Proof.
  intros draws k s o es' r k' Hf Hreg Hc H.
  assert (Hsn : cash_ok (snap (ps_cash s))).
  { destruct Hc as [->|(q & -> & Hq)]; [left; reflexivity|].
    destruct (snap_fin q) as (z & -> & [[Hz _]|[-> _]]); right; eexists; split; eauto; lra. }
  pose proof H as H0.
  apply execute_order_cert in H as [[-> _]|(p & d & price & f & ff & slip & mn & rp & osz & pct & Hck & Hf' & Hcv & Hrs & Hbs)];
    [exact Hsn| |assumption|assumption].
  destruct (es_cash es') as [| | |c'] eqn:Ec.
  1:{ exfalso. destruct Hbs as [(_ & cl & fs & fee & req & Hcl & C)|(_ & fs & C & Hfl)].
    - apply bc_fill in C.
      destruct (snap_state s) as [cash pos debt free] eqn:Es.
      destruct Hck as [Kcash Kpos Kdebt Kd0 Kfree Kprice Kprice0 Klong Kshort Kfees Kff Kslip Kslip0 Kmin Kmin0 Kmax Kgran Krp Krp0].
      cbn [es_cash es_position es_debt es_free_cash] in *. subst.
      apply buy_fill_effect in C as (np & nd & E). apply be_cash in E. rewrite Ec in E.
      destruct Kcash as [->|(q & -> & _)]; [discriminate|]. destruct E as (? & ? & _); discriminate.
    - apply sc_fill in C.
      destruct (snap_state s) as [cash pos debt free] eqn:Es.
      destruct Hck as [Kcash Kpos Kdebt Kd0 Kfree Kprice Kprice0 Klong Kshort Kfees Kff Kslip Kslip0 Kmin Kmin0 Kmax Kgran Krp Krp0].
      cbn [es_cash es_position es_debt es_free_cash] in *. subst.
      apply sell_fill_effect in C as (fee & net & np & nd & E); auto. apply se_cash in E. rewrite Ec in E.
      destruct Kcash as [->|(q & -> & _)]; [discriminate|]. destruct E as (? & ? & _); discriminate. }
  all: apply execute_cash_not_negative in H0; auto using cash_ok_ltb; rewrite Ec in H0; cbn in H0.
  - left; auto.
  - discriminate.
  - change (inject_Z 0) with 0 in H0. qb. right; eauto.
Qed.
