(** * Lemmas about entry trades: totals over a column *)
From Coq Require Import ZArith QArith Qabs Qminmax Bool Lia Lqa List Setoid Morphisms Sorted.
From Verif Require Import Base Num MathNb TolSpec XQFacts OrderFacts Order Account AccountSpec OrderLemmas4
  Replay ReplaySpec ReplayLemmas GenericLemmas2 Trades TradesSpec TradesLemmas TradesLemmas2 TradesLemmas3 TradesLemmas4.
Import ListNotations.

Definition eget (f : EPos XQ -> Q) (s : EState XQ) : Q := match es_pos s with None => 0 | Some p => f p end.
Definition esg := eget (fun p => dir_sign (ep_dir p)).
Definition eE := eget (fun p => qty (ep_esize p)).
Definition eEG := eget (fun p => qty (ep_egross p)).
Definition eEF := eget (fun p => qty (ep_efees p)).
Definition eX := eget (fun p => qty (ep_xsize p)).
Definition eXG := eget (fun p => qty (ep_xgross p)).
Definition eXF := eget (fun p => qty (ep_xfees p)).
Definition eents (done : list (OrderRec XQ)) (s : EState XQ) : list ent :=
  match es_pos s with
  | None => []
  | Some p => ents (ep_dir p) true (qty (ep_fsize p)) (qty (ep_ffees p)) (skipn (ep_first p) done)
  end.
Definition ecount (s : EState XQ) : nat := match es_pos s with None => 0 | Some _ => 1 end.

Lemma eheld_is : forall s p first d E EG EF X XG XF fs ff, es_pos s = Some p -> epos_is p first d E EG EF X XG XF fs ff ->
  esg s = dir_sign d /\ eE s == E /\ eEG s == EG /\ eEF s == EF /\ eX s == X /\ eXG s == XG /\ eXF s == XF.
Proof.
  intros s p first d E EG EF X XG XF fs ff Hp [H1 H2 (a1 & A1 & B1) (a2 & A2 & B2) (a3 & A3 & B3) (a4 & A4 & B4) (a5 & A5 & B5) (a6 & A6 & B6) _ _].
  unfold esg, eE, eEG, eEF, eX, eXG, eXF, eget. rewrite Hp, A1, A2, A3, A4, A5, A6, H2. cbn. repeat split; auto.
Qed.
Lemma eheld_none : forall s, es_pos s = None ->
  esg s = 0 /\ eE s = 0 /\ eEG s = 0 /\ eEF s = 0 /\ eX s = 0 /\ eXG s = 0 /\ eXF s = 0.
Proof. intros s H. unfold esg, eE, eEG, eEF, eX, eXG, eXF, eget. rewrite H. repeat split. Qed.

Lemma eents_is : forall done s p first d E EG EF X XG XF fs ff sl, es_pos s = Some p -> epos_is p first d E EG EF X XG XF fs ff ->
  (exists pre, done = pre ++ sl /\ length pre = first) -> eents done s = ents d true fs ff sl.
Proof.
  intros done s p first d E EG EF X XG XF fs ff sl Hp [H1 H2 _ _ _ _ _ _ H3 H4] (pre & -> & <-).
  unfold eents. rewrite Hp, H1, H2, H3, H4. cbn [qty]. rewrite skipn_app, skipn_all, Nat.sub_diag. reflexivity.
Qed.

Lemma split_unique : forall (done pre pre' sl sl' : list (OrderRec XQ)), done = pre ++ sl -> done = pre' ++ sl' ->
  length pre = length pre' -> sl = sl'.
Proof.
  intros done pre. revert done. induction pre as [|x pre IH]; intros done [|y pre'] sl sl' H1 H2 Hl; cbn in *; try lia.
  - congruence.
  - subst. inversion H2; subst. apply (IH (pre ++ sl) pre' sl sl'); congruence.
Qed.

(** What is known of the position held *)
Lemma esane_held : forall done s p first d E EG EF X XG XF fs ff, esane done s -> es_pos s = Some p ->
  epos_is p first d E EG EF X XG XF fs ff -> exists sl, eheld done d first E EG EF X XG XF fs ff sl.
Proof.
  intros done s p first d E EG EF X XG XF fs ff Hs Hp Hi. unfold esane in Hs. rewrite Hp in Hs.
  destruct Hs as (first' & d' & E' & EG' & EF' & X' & XG' & XF' & fs' & ff' & sl & Hi' & Hh).
  exists sl.
  destruct Hi as [H1 H2 (a1 & A1 & B1) (a2 & A2 & B2) (a3 & A3 & B3) (a4 & A4 & B4) (a5 & A5 & B5) (a6 & A6 & B6) H3 H4].
  destruct Hi' as [H1' H2' (a1' & A1' & B1') (a2' & A2' & B2') (a3' & A3' & B3') (a4' & A4' & B4') (a5' & A5' & B5') (a6' & A6' & B6') H3' H4'].
  rewrite A1 in A1'; injection A1' as <-. rewrite A2 in A2'; injection A2' as <-. rewrite A3 in A3'; injection A3' as <-.
  rewrite A4 in A4'; injection A4' as <-. rewrite A5 in A5'; injection A5' as <-. rewrite A6 in A6'; injection A6' as <-.
  rewrite H3 in H3'; injection H3' as <-. rewrite H4 in H4'; injection H4' as <-.
  assert (Ef : first' = first) by congruence. assert (Ed : d' = d) by congruence. rewrite Ef, Ed in Hh. clear Ef Ed.
  assert (EE : E' == E) by lra. assert (EX : X' == X) by lra.
  destruct Hh as [K1 K2 K3 K4 K5 K6 K7 K8 K9]. constructor; auto; try lra.
  rewrite EX, EE in K9. exact K9.
Qed.

Definition eok (e : ent) : Prop := 0 < en_size e /\ good_order (en_r e).

Lemma ents_ok : forall d fs ff sl b, 0 < fs -> Forall good_order sl -> Forall eok (ents d b fs ff sl).
Proof.
  intros d fs ff. induction sl as [|r sl IH]; intros b Hf Hg; cbn; auto. inversion Hg; subst.
  destruct (is_exit d r); auto. constructor; auto. split; cbn; auto.
  destruct (good_fin r H1) as (_ & _ & _ & Hs & _). destruct b; lra.
Qed.

Lemma esum_nonneg : forall f l, Forall (fun e => 0 <= f e) l -> 0 <= esum f l.
Proof. intros f l H. induction H as [|e l He H IH]; cbn; [lra|]. lra. Qed.

Lemma ents_in_le : forall l e, Forall eok l -> In e l -> en_size e <= esum en_size l.
Proof.
  induction l as [|x l IH]; intros e H Hin; [contradiction|]. inversion H as [|? ? [Hx _] Hl]; subst. cbn [esum].
  assert (0 <= esum en_size l) by (apply esum_nonneg; eapply Forall_impl; [|exact Hl]; intros a [Ha _]; lra).
  destruct Hin as [<-|Hin]; [lra|]. specialize (IH e Hl Hin). lra.
Qed.

Lemma ents_from : forall d fs ff sl b e, In e (ents d b fs ff sl) -> In (en_r e) sl /\ is_exit d (en_r e) = false.
Proof.
  intros d fs ff. induction sl as [|r sl IH]; intros b e H; cbn in H; [contradiction|].
  destruct (is_exit d r) eqn:Er.
  - destruct (IH _ _ H). split; auto. right; auto.
  - destruct H as [<-|H]; [cbn; split; auto|]. destruct (IH _ _ H). split; auto. right; auto.
Qed.

Lemma is_exit_entry : forall d (r : OrderRec XQ), is_entry d r = true -> is_exit d r = false.
Proof. intros [] r; unfold is_exit, is_entry; destruct (or_side r) as [[]|]; cbn; congruence. Qed.

Lemma gap_zero : forall x, (1 # 1000000000000) < x -> tolq 0 x < x - 0.
Proof.
  intros x H. apply tolq_lt_iff. rewrite (Qabs_pos x) by lra. change (Qabs 0) with 0. repeat split; lra.
Qed.
Lemma gap_grow : forall x e q, 0 <= x -> 0 <= q -> tolq x e < e - x -> tolq x (e + q) < e + q - x.
Proof.
  intros x e q Hx Hq H. pose proof (tolq_pos x e). apply tolq_lt_iff in H. apply tolq_lt_iff.
  rewrite (Qabs_pos x), (Qabs_pos e) in H by lra. rewrite (Qabs_pos x), (Qabs_pos (e + q)) by lra. lra.
Qed.

Lemma ecase_sane : forall crecs col done s r s', good_order r -> esane done s -> ecase crecs col done s r s' -> esane (done ++ [r]) s'.
Proof.
  intros crecs col done s r s' Hg Hs Hc. destruct (good_fin r Hg) as (_ & _ & _ & Hsz & Hpr & Hsd).
  assert (Hq0 : 0 < oqty r) by lra. pose proof (Qmul_pos _ _ Hq0 Hpr) as Hqp.
  destruct Hc as [p' E0 E1 H1 Epar Et Eo
    |p first d E EG EF X XG XF fs ff p' E0 H0 He E1 H1 Epar Et Eo
    |p first d E EG EF X XG XF fs ff p' E0 H0 He E1 Hgap H1 Epar Et Eo
    |p first d E EG EF X XG XF fs ff sl ts E0 H0 He E1 Hcl Hsl Hts Epar Et Eo
    |p first d E EG EF X XG XF fs ff sl ts p' fs' ff' E0 H0 He E1 Hgap Hsl Hts Hfs Hff H1 Epar Et Eo];
    unfold esane; rewrite E1; auto.
  - eexists _, _, _, _, _, _, _, _, _, _, [r]. split; [exact H1|]. pose proof (opened_is_entry r Hsd) as Hen.
    constructor; try (rewrite app_nil_r; auto); cbn [ents]; rewrite ?(is_exit_entry _ _ Hen); cbn; try lra; try ring.
    + exists done. auto.
    + exists r, []. auto.
    + apply gap_zero. auto.
  - destruct (esane_held _ _ _ _ _ _ _ _ _ _ _ _ _ Hs E0 H0) as (sl & [(pre & K0 & K0') (r0 & l & K1 & K1') K2 K3 K4 K5 K6 K7 K8]).
    eexists _, _, _, _, _, _, _, _, _, _, (sl ++ [r]). split; [exact H1|].
    assert (Hne : sl <> []) by congruence.
    constructor; auto; rewrite ?ents_snoc by auto; rewrite ?(is_exit_entry _ _ He), ?esum_app; cbn; try lra.
    + exists pre. rewrite K0, app_assoc. auto.
    + exists r0, (l ++ [r]). rewrite K1. auto.
    + apply gap_grow; auto; lra.
  - destruct (esane_held _ _ _ _ _ _ _ _ _ _ _ _ _ Hs E0 H0) as (sl & [(pre & K0 & K0') (r0 & l & K1 & K1') K2 K3 K4 K5 K6 K7 K8]).
    eexists _, _, _, _, _, _, _, _, _, _, (sl ++ [r]). split; [exact H1|].
    assert (Hne : sl <> []) by congruence.
    constructor; auto; rewrite ?ents_snoc by auto; rewrite ?He, ?app_nil_r; cbn; try lra.
    + exists pre. rewrite K0, app_assoc. auto.
    + exists r0, (l ++ [r]). rewrite K1. auto.
  - pose proof (tolq_pos (X + oqty r) E) as Htp.
    eexists _, _, _, _, _, _, _, _, _, _, [r]. split; [exact H1|]. pose proof (opened_dir_flip d r He) as Hen.
    constructor; cbn [ents]; rewrite ?(is_exit_entry _ _ Hen); cbn; unfold en_size, en_r, en_fees; cbn; try lra.
    + exists done. auto.
    + exists r, []. auto.
    + rewrite Hfs. ring.
    + apply gap_zero. lra.
Qed.

Record einv (Vt P : Q) (out0 : list (TradeRec XQ)) (done : list (OrderRec XQ)) (s : EState XQ) (ts : list (TradeRec XQ)) : Prop := {
  ev_out : es_trades s = out0 ++ ts;
  ev_sane : esane done s;
  ev_pos : near (length done) (slack Vt) (ledger_position done) (esg s * (eE s - eX s));
  ev_le : eE s <= volume done;
  ev_gross : near (length done) (slack Vt * P) (tsum trade_gross ts) (gross_cash done + esg s * (eEG s - eXG s));
  ev_fees : tsum trade_fees ts == all_fees done - eEF s - eXF s;
  ev_vol : near (length done) (slack Vt) (volume done) (2 * tsum (fun t => qty (tr_size t)) ts + eE s + eX s);
  ev_price : eEG s <= eE s * P;
  ev_xprice : eXG s <= eX s * P;
  ev_ok : Forall (trade_ok Vt P) ts;
  ev_count : (length ts + length (eents done s) <= length done)%nat }.

(** The trades written for a position *)
Lemma filled_ok : forall Vt P col xi XS XG XF d st par es tidx ts,
  filled col xi XS XG XF d st par tidx es ts -> Forall eok es -> Forall (fun e => oprice (en_r e) <= P) es ->
  esum en_size es <= Vt -> Qabs (XG / XS) <= 2 * P -> Forall (trade_ok Vt P) ts.
Proof.
  intros Vt P col xi XS XG XF d st par es tidx ts Hf Hok HP HV HX. apply Forall_forall. intros t Ht.
  destruct (filled_in _ _ _ _ _ _ _ _ _ _ _ _ Hf Ht) as (e & k & He & Hi).
  pose proof Hok as Hok'. rewrite Forall_forall in Hok', HP. destruct (Hok' e He) as (H1 & H2). specialize (HP e He).
  pose proof (ents_in_le es e Hok He). destruct (good_fin _ H2) as (_ & _ & _ & _ & Hp & _).
  eapply trade_is_ok; [exact Hi| | |]; try lra.
Qed.

Lemma exit_price_bound : forall X q E XG' P, 0 < E -> 0 <= XG' -> XG' <= (X + q) * P -> 0 <= X + q -> 0 <= P ->
  (1 # 1000000000000) < E -> X + q - E <= tolq (X + q) E -> Qabs (XG' / E) <= 2 * P.
Proof.
  intros X q E XG' P HE H0 H1 H2 HP Ha Ht.
  assert (Hb : X + q <= 2 * E).
  { apply tolq_le_iff in Ht. rewrite (Qabs_pos (X + q)), (Qabs_pos E) in Ht by lra. lra. }
  rewrite Qabs_pos by (apply Qdiv_nonneg; auto). apply Qle_shift_div_r; auto.
  eapply Qle_trans; [exact H1|]. assert (Ee : 2 * P * E == 2 * E * P) by ring. rewrite Ee. apply Qmult_le_compat_r; auto.
Qed.

Lemma einv_step : forall Vt P out0 done s ts crecs col r s', good_order r -> oprice r <= P ->
  Forall good_order done -> Forall (fun r => oprice r <= P) done ->
  volume (done ++ [r]) <= Vt -> einv Vt P out0 done s ts -> ecase crecs col done s r s' ->
  exists ts', einv Vt P out0 (done ++ [r]) s' (ts ++ ts') /\ es_trades s' = es_trades s ++ ts'.
Proof.
  intros Vt P out0 done s ts crecs col r s' Hg HP Hgd HPd HV [I0 Is I1 I2 I3 I4 I5 I6 I6' I7 I8] Hc.
  pose proof (ecase_sane _ _ _ _ _ _ Hg Is Hc) as Is'.
  destruct (good_fin r Hg) as (_ & _ & _ & Hsz & Hpr & Hsd). pose proof (bought_abs r Hg) as Hb.
  pose proof (slack_pos Vt) as Hsl0. assert (Hsl : 0 <= slack Vt) by lra.
  assert (HslP : 0 <= slack Vt * P) by (apply Qmult_le_0_compat; lra).
  rewrite volume_snoc, Hb in HV. pose proof (volume_nonneg done) as Hvn.
  assert (Hq0 : 0 < oqty r) by lra. pose proof (Qmul_pos _ _ Hq0 Hpr) as Hqp0.
  assert (Hqp : oqty r * oprice r <= oqty r * P) by (apply Qmult_le_mono; lra).
  destruct Hc as [p' E0 E1 H1 Epar Et Eo
    |p first d E EG EF X XG XF fs ff p' E0 H0 He E1 H1 Epar Et Eo
    |p first d E EG EF X XG XF fs ff p' E0 H0 He E1 Hgap H1 Epar Et Eo
    |p first d E EG EF X XG XF fs ff sl nts E0 H0 He E1 Hcl Hsl' Hts Epar Et Eo
    |p first d E EG EF X XG XF fs ff sl nts p' fs' ff' E0 H0 He E1 Hgap Hsl' Hts Hfs Hff H1 Epar Et Eo].
  - (* open *)
    destruct (eheld_none s E0) as (A1 & A2 & A3 & A4 & A5 & A6 & A7).
    destruct (eheld_is _ _ _ _ _ _ _ _ _ _ _ _ E1 H1) as (B1 & B2 & B3 & B4 & B5 & B6 & B7).
    pose proof (bought_entry _ _ (opened_is_entry r Hsd)) as Hbe.
    exists []. rewrite !app_nil_r. split; [|auto].
    assert (Hents : length (eents (done ++ [r]) s') = 1%nat).
    { rewrite (eents_is _ _ _ _ _ _ _ _ _ _ _ _ _ [r] E1 H1); [|exists done; auto].
      cbn [ents]. rewrite (is_exit_entry _ _ (opened_is_entry r Hsd)). reflexivity. }
    rewrite A1, A2, A3, A4, A5, A6, A7 in *.
    constructor; auto.
    + congruence.
    + rewrite app_length, Nat.add_1_r. eapply near_keep; [auto|exact I1|]. unfold ledger_position. rewrite total_snoc, B1, B2, B5, Hbe. ring.
    + rewrite volume_snoc, Hb, B2. lra.
    + rewrite app_length, Nat.add_1_r. eapply near_keep; [auto|exact I3|]. unfold gross_cash. rewrite total_snoc, B1, B3, B6, Hbe. unfold oprice. ring.
    + unfold all_fees. rewrite total_snoc, B4, B7. rewrite I4. unfold all_fees, ofees. ring.
    + rewrite app_length, Nat.add_1_r. eapply near_keep; [auto|exact I5|]. rewrite volume_snoc, Hb, B2, B5. ring.
    + rewrite B3, B2. exact Hqp.
    + rewrite B6, B5. lra.
    + rewrite app_length, Hents. cbn. lia.
  - (* increase *)
    destruct (eheld_is _ _ _ _ _ _ _ _ _ _ _ _ E0 H0) as (A1 & A2 & A3 & A4 & A5 & A6 & A7).
    destruct (eheld_is _ _ _ _ _ _ _ _ _ _ _ _ E1 H1) as (B1 & B2 & B3 & B4 & B5 & B6 & B7).
    destruct (esane_held _ _ _ _ _ _ _ _ _ _ _ _ _ Is E0 H0) as (sl & [(pre & K0 & K0') (r0 & l & K1 & K1') K2 K3 K4 K5 K6 K7 K8]).
    pose proof (bought_entry _ _ He) as Hbe.
    exists []. rewrite !app_nil_r. split; [|auto].
    assert (Hne : sl <> []) by congruence.
    assert (Hents : length (eents (done ++ [r]) s') = S (length (eents done s))).
    { rewrite (eents_is done _ _ _ _ _ _ _ _ _ _ _ _ sl E0 H0); [|exists pre; auto].
      rewrite (eents_is (done ++ [r]) _ _ _ _ _ _ _ _ _ _ _ _ (sl ++ [r]) E1 H1); [|exists pre; rewrite K0, app_assoc; auto].
      rewrite ents_snoc by auto. rewrite (is_exit_entry _ _ He), app_length. cbn. lia. }
    constructor; auto.
    + congruence.
    + rewrite app_length, Nat.add_1_r. eapply near_keep; [auto|exact I1|]. unfold ledger_position. rewrite total_snoc, A1, A2, A5, B1, B2, B5, Hbe. ring.
    + rewrite volume_snoc, Hb, B2. lra.
    + rewrite app_length, Nat.add_1_r. eapply near_keep; [auto|exact I3|]. unfold gross_cash. rewrite total_snoc, A1, A3, A6, B1, B3, B6, Hbe. unfold oprice. ring.
    + unfold all_fees. rewrite total_snoc, B4, B7. rewrite I4, A4, A7. unfold all_fees, ofees. ring.
    + rewrite app_length, Nat.add_1_r. eapply near_keep; [auto|exact I5|]. rewrite volume_snoc, Hb, A2, A5, B2, B5. ring.
    + rewrite B3, B2. rewrite A3, A2 in I6. rewrite Qmult_plus_distr_l. lra.
    + rewrite B6, B5. rewrite A6, A5 in I6'. exact I6'.
    + rewrite app_length, Hents. cbn. lia.
  - (* decrease *)
    destruct (eheld_is _ _ _ _ _ _ _ _ _ _ _ _ E0 H0) as (A1 & A2 & A3 & A4 & A5 & A6 & A7).
    destruct (eheld_is _ _ _ _ _ _ _ _ _ _ _ _ E1 H1) as (B1 & B2 & B3 & B4 & B5 & B6 & B7).
    destruct (esane_held _ _ _ _ _ _ _ _ _ _ _ _ _ Is E0 H0) as (sl & [(pre & K0 & K0') (r0 & l & K1 & K1') K2 K3 K4 K5 K6 K7 K8]).
    pose proof (bought_exit _ _ He) as Hbe.
    exists []. rewrite !app_nil_r. split; [|auto].
    assert (Hne : sl <> []) by congruence.
    assert (Hents : length (eents (done ++ [r]) s') = length (eents done s)).
    { rewrite (eents_is done _ _ _ _ _ _ _ _ _ _ _ _ sl E0 H0); [|exists pre; auto].
      rewrite (eents_is (done ++ [r]) _ _ _ _ _ _ _ _ _ _ _ _ (sl ++ [r]) E1 H1); [|exists pre; rewrite K0, app_assoc; auto].
      rewrite ents_snoc by auto. rewrite He, app_nil_r. auto. }
    constructor; auto.
    + congruence.
    + rewrite app_length, Nat.add_1_r. eapply near_keep; [auto|exact I1|]. unfold ledger_position. rewrite total_snoc, A1, A2, A5, B1, B2, B5, Hbe. ring.
    + rewrite volume_snoc, Hb, B2. lra.
    + rewrite app_length, Nat.add_1_r. eapply near_keep; [auto|exact I3|]. unfold gross_cash. rewrite total_snoc, A1, A3, A6, B1, B3, B6, Hbe. unfold oprice. ring.
    + unfold all_fees. rewrite total_snoc, B4, B7. rewrite I4, A4, A7. unfold all_fees, ofees. ring.
    + rewrite app_length, Nat.add_1_r. eapply near_keep; [auto|exact I5|]. rewrite volume_snoc, Hb, A2, A5, B2, B5. ring.
    + rewrite B3, B2. rewrite A3, A2 in I6. exact I6.
    + rewrite B6, B5. rewrite A6, A5 in I6'. rewrite Qmult_plus_distr_l. lra.
    + rewrite app_length, Hents. cbn. lia.
  - (* close *)
    destruct (eheld_is _ _ _ _ _ _ _ _ _ _ _ _ E0 H0) as (A1 & A2 & A3 & A4 & A5 & A6 & A7).
    destruct (eheld_none s' E1) as (B1 & B2 & B3 & B4 & B5 & B6 & B7).
    destruct (esane_held _ _ _ _ _ _ _ _ _ _ _ _ _ Is E0 H0) as (sl0 & [(pre & K0 & K0') (r0 & l & K1 & K1') K2 K3 K4 K5 K6 K7 K8]).
    destruct Hsl' as (pre' & D1 & D2). assert (sl0 = sl) as -> by (eapply split_unique; [exact K0|exact D1|congruence]).
    pose proof (bought_exit _ _ He) as Hbe.
    assert (Hne : sl <> []) by congruence.
    rewrite ents_snoc in Hts by auto. rewrite He, app_nil_r in Hts.
    set (es := ents d true fs ff sl) in *.
    assert (Hes : eents done s = es).
    { rewrite (eents_is done _ _ _ _ _ _ _ _ _ _ _ _ sl E0 H0); [|exists pre; auto]. reflexivity. }
    assert (Hgs : Forall good_order sl) by (rewrite K0 in Hgd; apply Forall_app in Hgd; apply Hgd).
    assert (Hps : Forall (fun r => oprice r <= P) sl) by (rewrite K0 in HPd; apply Forall_app in HPd; apply HPd).
    assert (Hok : Forall eok es) by (apply ents_ok; auto).
    assert (HPe : Forall (fun e => oprice (en_r e) <= P) es).
    { apply Forall_forall. intros e Hin. apply ents_from in Hin as (Hin & _). rewrite Forall_forall in Hps. apply Hps. auto. }
    pose proof (tolq_pos X E) as Htp. assert (HE0 : 0 < E) by lra.
    rewrite A2 in I2. rewrite A6, A5 in I6'.
    assert (Hcl' : Qabs (X + oqty r - E) <= slack Vt).
    { eapply Qle_trans; [exact Hcl|]. 
      assert (B : X + oqty r <= Vt) by lra.
      apply tolq_slack; rewrite Qabs_pos by lra; lra. }
    assert (Hone : esum en_size es / E == 1) by (rewrite <- K3; field; lra).
    exists nts. split; [|auto].
    constructor; auto.
    + rewrite Eo, I0, app_assoc. reflexivity.
    + rewrite app_length, Nat.add_1_r. eapply (near_step _ _ _ _ (- dir_sign d * (X + oqty r - E))); [auto|exact I1| |].
      * assert (Y : - dir_sign d * (X + oqty r - E) == - (dir_sign d * (X + oqty r - E))) by ring. rewrite Y, Qabs_opp, Qabs_signed. exact Hcl'.
      * unfold ledger_position. rewrite total_snoc, A1, A2, A5, B1, B2, B5, Hbe. ring.
    + rewrite volume_snoc, Hb, B2. lra.
    + rewrite app_length, Nat.add_1_r. eapply near_keep; [auto|exact I3|].
      unfold gross_cash. rewrite total_snoc, tsum_app, (filled_gross _ _ _ _ _ _ _ _ _ _ _ Hts), Hone, <- K4, A1, A3, A6, B1, B3, B6, Hbe. unfold oprice. ring.
    + unfold all_fees. rewrite total_snoc, tsum_app, (filled_fees _ _ _ _ _ _ _ _ _ _ _ Hts), Hone, <- K5, B4, B7. rewrite I4, A4, A7. unfold all_fees, ofees. ring.
    + rewrite app_length, Nat.add_1_r. eapply (near_step _ _ _ _ (X + oqty r - E)); [auto|exact I5|exact Hcl'|].
      rewrite volume_snoc, tsum_app, Hb, (filled_size _ _ _ _ _ _ _ _ _ _ _ Hts), <- K3, A2, A5, B2, B5. ring.
    + rewrite B3, B2. lra.
    + rewrite B6, B5. lra.
    + apply Forall_app. split; auto. eapply filled_ok; [exact Hts|auto|auto|rewrite <- K3; lra|].
      apply (exit_price_bound X (oqty r)); try lra.
      eapply Qle_trans; [|exact Hcl]. apply Qle_Qabs.
    + rewrite !app_length. rewrite (filled_length _ _ _ _ _ _ _ _ _ _ _ Hts), <- Hes. unfold eents at 2. rewrite E1. cbn. lia.
  - (* reverse *)
    destruct (eheld_is _ _ _ _ _ _ _ _ _ _ _ _ E0 H0) as (A1 & A2 & A3 & A4 & A5 & A6 & A7).
    destruct (eheld_is _ _ _ _ _ _ _ _ _ _ _ _ E1 H1) as (B1 & B2 & B3 & B4 & B5 & B6 & B7).
    destruct (esane_held _ _ _ _ _ _ _ _ _ _ _ _ _ Is E0 H0) as (sl0 & [(pre & K0 & K0') (r0 & l & K1 & K1') K2 K3 K4 K5 K6 K7 K8]).
    destruct Hsl' as (pre' & D1 & D2). assert (sl0 = sl) as -> by (eapply split_unique; [exact K0|exact D1|congruence]).
    pose proof (bought_exit _ _ He) as Hbe. pose proof (flip_sign d) as Hfl.
    assert (Hne : sl <> []) by congruence.
    rewrite ents_snoc in Hts by auto. rewrite He, app_nil_r in Hts.
    set (es := ents d true fs ff sl) in *.
    assert (Hes : eents done s = es).
    { rewrite (eents_is done _ _ _ _ _ _ _ _ _ _ _ _ sl E0 H0); [|exists pre; auto]. reflexivity. }
    assert (Hes' : length (eents (done ++ [r]) s') = 1%nat).
    { rewrite (eents_is (done ++ [r]) _ _ _ _ _ _ _ _ _ _ _ _ [r] E1 H1); [|exists done; auto].
      cbn [ents]. rewrite (is_exit_entry _ _ (opened_dir_flip d r He)). reflexivity. }
    assert (Hgs : Forall good_order sl) by (rewrite K0 in Hgd; apply Forall_app in Hgd; apply Hgd).
    assert (Hps : Forall (fun r => oprice r <= P) sl) by (rewrite K0 in HPd; apply Forall_app in HPd; apply HPd).
    assert (Hok : Forall eok es) by (apply ents_ok; auto).
    assert (HPe : Forall (fun e => oprice (en_r e) <= P) es).
    { apply Forall_forall. intros e Hin. apply ents_from in Hin as (Hin & _). rewrite Forall_forall in Hps. apply Hps. auto. }
    pose proof (tolq_pos X E) as Htp. pose proof (tolq_pos (X + oqty r) E) as Htp'. assert (HE0 : 0 < E) by lra.
    rewrite A2 in I2. rewrite A6, A5 in I6'.
    assert (Hone : esum en_size es / E == 1) by (rewrite <- K3; field; lra).
    exists nts. split; [|auto].
    constructor; auto.
    + rewrite Eo, I0, app_assoc. reflexivity.
    + rewrite app_length, Nat.add_1_r. eapply near_keep; [auto|exact I1|].
      unfold ledger_position. rewrite total_snoc, A1, A2, A5, B1, B2, B5, Hfl, Hbe. ring.
    + rewrite volume_snoc, Hb, B2. lra.
    + rewrite app_length, Nat.add_1_r. eapply near_keep; [auto|exact I3|].
      unfold gross_cash. rewrite total_snoc, tsum_app, (filled_gross _ _ _ _ _ _ _ _ _ _ _ Hts), Hone, <- K4, A1, A3, A6, B1, B3, B6, Hfl, Hbe. unfold oprice. ring.
    + unfold all_fees. rewrite total_snoc, tsum_app, (filled_fees _ _ _ _ _ _ _ _ _ _ _ Hts), Hone, <- K5, B4, B7. rewrite I4, A4, A7. unfold all_fees, ofees. field. lra.
    + rewrite app_length, Nat.add_1_r. eapply near_keep; [auto|exact I5|].
      rewrite volume_snoc, tsum_app, Hb, (filled_size _ _ _ _ _ _ _ _ _ _ _ Hts), <- K3, A2, A5, B2, B5. ring.
    + rewrite B3, B2. apply Qmult_le_mono; lra.
    + rewrite B6, B5. lra.
    + apply Forall_app. split; auto. eapply filled_ok; [exact Hts|auto|auto|rewrite <- K3; lra|].
      assert (HR : 0 <= (E - X) * oprice r) by (apply Qmult_le_0_compat; lra).
      assert (HR' : (E - X) * oprice r <= (E - X) * P) by (apply Qmult_le_mono; lra).
      apply (exit_price_bound X (E - X)); try lra.
      pose proof (tolq_pos (X + (E - X)) E). lra.
    + rewrite !app_length. rewrite (filled_length _ _ _ _ _ _ _ _ _ _ _ Hts), <- Hes, Hes'. cbn. lia.
Qed.
