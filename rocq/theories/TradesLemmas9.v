(** * Lemmas about trades: entry and exit trades tell the same positions *)
From Coq Require Import ZArith QArith Qabs Qminmax Bool Lia Lqa List Setoid Morphisms Sorted.
From Verif Require Import Base Num MathNb TolSpec XQFacts OrderFacts Order Account AccountSpec OrderLemmas4
  Replay ReplaySpec ReplayLemmas GenericLemmas2 Trades TradesSpec TradesLemmas TradesLemmas2 TradesLemmas3 TradesLemmas4
  TradesLemmas5 TradesLemmas6 TradesLemmas7 TradesLemmas8.
Import ListNotations.

Notation Ssize := (tsum (fun t => qty (tr_size t))).
Notation Sentry := (tsum (fun t => qty (tr_size t) * qty (tr_entry_price t))).
Notation Sexit := (tsum (fun t => qty (tr_size t) * qty (tr_exit_price t))).
Notation Sefees := (tsum (fun t => qty (tr_entry_fees t))).
Notation Sxfees := (tsum (fun t => qty (tr_exit_fees t))).

Section Filled.
  Variables (col xi : nat) (XS XG XF : Q) (d : TradeDir) (st : TradeStatus) (par : Z).
  Hypothesis HXS : 0 < XS.

  Lemma filled_sums : forall es tidx ts, filled col xi XS XG XF d st par tidx es ts ->
    Sentry ts == esum (fun e => en_size e * oprice (en_r e)) es /\ Sexit ts == esum en_size es / XS * XG /\
    Sefees ts == esum en_fees es /\ Sxfees ts == esum en_size es / XS * XF.
  Proof.
    induction es as [|e es IH]; intros tidx [|t ts] H; cbn [filled] in H; try tauto; cbn [tsum esum].
    - repeat split; try reflexivity; field; lra.
    - destruct H as (H1 & H2). destruct (IH _ _ H2) as (A1 & A2 & A3 & A4). rewrite A1, A2, A3, A4. destruct H1.
      rewrite ti_size, ti_ep, ti_ef, ti_xp, ti_xf. repeat split; try reflexivity; field; lra.
  Qed.
End Filled.

Lemma last_in : forall A (l : list A) d, l <> [] -> In (last l d) l.
Proof. intros A l d H. destruct (@exists_last _ l H) as (l' & x & ->). rewrite last_last. apply in_or_app; right; left; auto. Qed.

(** Exit trades [g ++ [t]] and entry trades [h] of a finished position. *)
Lemma same_intro : forall col xi XS XG XF d st par tidx es h g t ei r0 fs ff es',
  filled col xi XS XG XF d st par tidx es h -> 0 < XS -> esum en_size es == XS -> es = (r0, fs, ff) :: es' -> ei = or_idx r0 ->
  Ssize (g ++ [t]) == XS -> Sentry (g ++ [t]) == esum (fun e => en_size e * oprice (en_r e)) es -> Sexit (g ++ [t]) == XG ->
  Sefees (g ++ [t]) == esum en_fees es -> Sxfees (g ++ [t]) == XF ->
  (forall u, In u (g ++ [t]) -> tr_entry_idx u = ei) -> tr_exit_idx t = xi -> tr_dir t = d -> tr_status t = st ->
  same_position (g ++ [t]) h.
Proof.
  intros col xi XS XG XF d st par tidx es h g t ei r0 fs ff es' Hf HX HE Hes Hei H1 H2 H3 H4 H5 H6 H7 H8 H9.
  destruct (filled_sums _ _ _ _ _ _ _ _ HX _ _ _ Hf) as (A1 & A2 & A3 & A4).
  assert (Hone : esum en_size es / XS == 1) by (rewrite HE; field; lra).
  constructor.
  - rewrite H1, (filled_size _ _ _ _ _ _ _ _ _ _ _ Hf), HE. reflexivity.
  - rewrite H2, A1. reflexivity.
  - rewrite H3, A2, Hone. ring.
  - rewrite H4, A3. reflexivity.
  - rewrite H5, A4, Hone. ring.
  - rewrite Hes in Hf. destruct h as [|u0 m]; [destruct Hf|]. pose proof Hf as (Hu0 & _).
    assert (Hu : forall u, In u (u0 :: m) -> tr_exit_idx u = xi /\ tr_dir u = d /\ tr_status u = st).
    { intros u Hin. destruct (filled_in _ _ _ _ _ _ _ _ _ _ _ _ Hf Hin) as (e & k & _ & []). auto. }
    assert (Hu1 : In (last (u0 :: m) u0) (u0 :: m)) by (apply last_in; discriminate).
    destruct (Hu _ Hu1) as (B1 & B2 & B3).
    destruct (g ++ [t]) as [|t0 l] eqn:Eg; [destruct g; discriminate|].
    exists t0, l, u0, m. repeat split; auto.
    + rewrite (H6 t0) by (left; auto). destruct Hu0. cbn [en_r fst] in ti_ei. congruence.
    + rewrite <- Eg, last_last. congruence.
    + rewrite <- Eg, last_last. congruence.
    + rewrite <- Eg, last_last. congruence.
Qed.

(** ** Lockstep *)
Record lk (par0 : Z) (done : list (OrderRec XQ)) (x : XState XQ) (e : EState XQ) (xts ets : list (TradeRec XQ)) : Prop := {
  lk_par : xs_parent x = es_parent e;
  lk_cnt : hcount x = ecount e;
  lk_dir : forall px pe, xs_pos x = Some px -> es_pos e = Some pe -> xp_dir px = ep_dir pe /\
    exists pre r0 l, done = pre ++ r0 :: l /\ length pre = ep_first pe /\ xp_entry_idx px = or_idx r0;
  lk_size : hsize x == eE e - eX e;
  lk_ledger : ledger_position done == hsign x * hsize x;
  lk_vol : eE e <= volume done;
  lk_cur : hcount x = 1%nat -> let g := trades_of_pos (xs_parent x) xts in
    Ssize g == eX e /\ Sentry g == eEG e - hgross x /\ Sexit g == eXG e /\ Sefees g == eEF e - hfees x /\ Sxfees g == eXF e /\
    (forall t px, In t g -> xs_pos x = Some px -> tr_entry_idx t = xp_entry_idx px);
  lk_fin : forall k, (par0 < k <= xs_parent x - Z.of_nat (hcount x))%Z -> same_position (trades_of_pos k xts) (trades_of_pos k ets) }.

Lemma pos_snoc_same : forall k (l : list (TradeRec XQ)) t, tr_parent t = k -> trades_of_pos k (l ++ [t]) = trades_of_pos k l ++ [t].
Proof. intros. rewrite of_pos_app. f_equal. apply of_pos_all. intros u [<-|[]]; auto. Qed.
Lemma pos_snoc_other : forall k (l : list (TradeRec XQ)) t, tr_parent t <> k -> trades_of_pos k (l ++ [t]) = trades_of_pos k l.
Proof. intros. rewrite of_pos_app, (of_pos_none k [t]), app_nil_r; auto. intros u [<-|[]]; auto. Qed.

#[global] Instance slack_proper : Proper (Qeq ==> Qeq) slack.
Proof. intros a b H. unfold slack. rewrite H. reflexivity. Qed.

Lemma clear_step : forall done r a, ledger_position done == a -> ledger_position (done ++ [r]) == 0 \/ slack (volume (done ++ [r])) < Qabs (ledger_position (done ++ [r])) ->
  a + bought_size r == 0 \/ slack (volume (done ++ [r])) < Qabs (a + bought_size r).
Proof. intros done r a Ha H. unfold ledger_position in *. rewrite total_snoc, Ha in H. exact H. Qed.

Lemma lk_step : forall par0 col tidx0 tidx1 crecs done r x e x' e' xts ets xts' nts,
  good_order r -> Forall good_order done -> xsane x -> esane done e ->
  ledger_position (done ++ [r]) == 0 \/ slack (volume (done ++ [r])) < Qabs (ledger_position (done ++ [r])) ->
  xstr col tidx0 par0 done x xts -> estr col tidx1 par0 done e ets ->
  xcase col x r x' -> ecase crecs col done e r e' ->
  (xts' = xts /\ xs_out x' = xs_out x \/ exists t, xts' = xts ++ [t] /\ xs_out x' = xs_out x ++ [t]) ->
  es_trades e' = es_trades e ++ nts ->
  lk par0 done x e xts ets -> lk par0 (done ++ [r]) x' e' xts' (ets ++ nts).
Proof.
  intros par0 col tidx0 tidx1 crecs done r x e x' e' xts ets xts' nts Hg Hgd Hxs Hes Hclear HX HE Hxc Hec Hxts Hets [L1 L2 L3 L4 L5 L6 L7 L8].
  destruct (good_fin r Hg) as (_ & _ & _ & Hsz & Hpr & Hsd). pose proof (bought_abs r Hg) as Hb.
  assert (Hq0 : 0 < oqty r) by lra. pose proof (volume_nonneg done) as Hvn.
  pose proof (xt_range _ _ _ _ _ _ HX) as Rx. pose proof (et_range _ _ _ _ _ _ HE) as Re. rewrite Forall_forall in Rx, Re.
  apply (clear_step done r (hsign x * hsize x) L5) in Hclear. rewrite volume_snoc, Hb in Hclear.
  destruct Hxc as [p' E0 E1 H1 Epar Et Eo|p ei d E G F p' E0 H0 He E1 H1 Epar Et Eo|p ei d E G F t E0 H0 He E1 Hcl Ht Epar Et Eo|p ei d E G F t p' E0 H0 He E1 Hcl H1 Ht Epar Et Eo|p ei d E G F t p' E0 H0 He E1 Hcl H1 Ht Epar Et Eo].
  - (* open *)
    assert (xts' = xts) as -> by (destruct Hxts as [[-> _]|(t & -> & Ht)]; auto; exfalso; rewrite Eo in Ht; apply (f_equal (@length _)) in Ht; rewrite app_length in Ht; cbn in Ht; lia).
    unfold hcount in L2. rewrite E0 in L2. unfold ecount in L2.
    destruct Hec as [q' F0 F1 G1 Fpar Ft Fo
      |q first d' E' EG EF X XG XF fs ff q' F0 G0 Fe F1 G1 Fpar Ft Fo
      |q first d' E' EG EF X XG XF fs ff q' F0 G0 Fe F1 Hgap G1 Fpar Ft Fo
      |q first d' E' EG EF X XG XF fs ff sl nts' F0 G0 Fe F1 Hcl Hsl' Hts Fpar Ft Fo
      |q first d' E' EG EF X XG XF fs ff sl nts' q' fs' ff' F0 G0 Fe F1 Hgap Hsl' Hts Hfs Hff G1 Fpar Ft Fo]; try (rewrite F0 in L2; discriminate).
    assert (nts = []) as -> by (apply (app_inv_head (es_trades e)); rewrite app_nil_r; congruence). rewrite app_nil_r.
    destruct (held_none x E0) as (A1 & A2 & A3 & A4). destruct (held_is _ _ _ _ _ _ _ E1 H1) as (B1 & B2 & B3 & B4).
    destruct (eheld_is _ _ _ _ _ _ _ _ _ _ _ _ F1 G1) as (D1 & D2 & D3 & D4 & D5 & D6 & D7).
    pose proof (bought_entry _ _ (opened_is_entry r Hsd)) as Hbe.
    assert (Hnone : trades_of_pos (xs_parent x') xts = []).
    { apply of_pos_none. intros u Hu. apply Rx in Hu. lia. }
    constructor.
    + congruence.
    + unfold hcount, ecount. rewrite E1, F1. auto.
    + intros px pe Hpx Hpe. rewrite E1 in Hpx. rewrite F1 in Hpe. injection Hpx as <-. injection Hpe as <-.
      destruct H1, G1. split; [congruence|]. exists done, r, []. repeat split; auto.
    + rewrite B2, D2, D5. ring.
    + unfold ledger_position in *. rewrite total_snoc, L5, A2, B1, B2, Hbe. ring.
    + rewrite D2, volume_snoc, Hb. lra.
    + intros _. cbn zeta. rewrite Hnone. cbn [tsum]. rewrite D3, D4, D5, D6, D7, B3, B4. repeat split; try ring. intros ? ? [].
    + intros k Hk. apply L8. unfold hcount in *. rewrite E1 in Hk. rewrite E0. lia.
  - (* increase *)
    assert (xts' = xts) as -> by (destruct Hxts as [[-> _]|(t & -> & Ht)]; auto; exfalso; rewrite Eo in Ht; apply (f_equal (@length _)) in Ht; rewrite app_length in Ht; cbn in Ht; lia).
    unfold hcount in L2. rewrite E0 in L2. unfold ecount in L2.
    destruct Hec as [q' F0 F1 G1 Fpar Ft Fo
      |q first d' E' EG EF X XG XF fs ff q' F0 G0 Fe F1 G1 Fpar Ft Fo
      |q first d' E' EG EF X XG XF fs ff q' F0 G0 Fe F1 Hgap G1 Fpar Ft Fo
      |q first d' E' EG EF X XG XF fs ff sl nts' F0 G0 Fe F1 Hcl Hsl' Hts Fpar Ft Fo
      |q first d' E' EG EF X XG XF fs ff sl nts' q' fs' ff' F0 G0 Fe F1 Hgap Hsl' Hts Hfs Hff G1 Fpar Ft Fo];
    (rewrite F0 in L2; try discriminate); destruct (L3 p q E0 F0) as (Ld & Lr); rewrite (xi_dir _ _ _ _ _ _ H0), (ei_dir _ _ _ _ _ _ _ _ _ _ _ G0) in Ld; subst d';
    try (exfalso; apply is_exit_entry in He; congruence).
    assert (nts = []) as -> by (apply (app_inv_head (es_trades e)); rewrite app_nil_r; congruence). rewrite app_nil_r.
    destruct (held_is _ _ _ _ _ _ _ E0 H0) as (A1 & A2 & A3 & A4). destruct (held_is _ _ _ _ _ _ _ E1 H1) as (B1 & B2 & B3 & B4).
    destruct (eheld_is _ _ _ _ _ _ _ _ _ _ _ _ F0 G0) as (C1 & C2 & C3 & C4 & C5 & C6 & C7).
    destruct (eheld_is _ _ _ _ _ _ _ _ _ _ _ _ F1 G1) as (D1 & D2 & D3 & D4 & D5 & D6 & D7).
    pose proof (bought_entry _ _ He) as Hbe.
    assert (Hc1 : hcount x = 1%nat) by (unfold hcount; rewrite E0; reflexivity). destruct (L7 Hc1) as (S1 & S2 & S3 & S4 & S5 & S6).
    constructor.
    + congruence.
    + unfold hcount, ecount. rewrite E1, F1. auto.
    + intros px pe Hpx Hpe. rewrite E1 in Hpx. rewrite F1 in Hpe. injection Hpx as <-. injection Hpe as <-.
      destruct H0, H1, G0, G1. split; [congruence|]. destruct Lr as (pre & r0 & l & K1 & K2 & K3). exists pre, r0, (l ++ [r]). rewrite K1, <- app_assoc.
      repeat split; congruence.
    + rewrite B2, D2, D5. rewrite A2, C2, C5 in L4. lra.
    + unfold ledger_position in *. rewrite total_snoc, L5, A1, A2, B1, B2, Hbe. ring.
    + rewrite D2, volume_snoc, Hb. rewrite C2 in L6. lra.
    + intros _. cbn zeta. rewrite Epar. rewrite S1, S2, S3, S4, S5. rewrite D3, D4, D5, D6, D7, B3, B4, C3, C4, C5, C6, C7, A3, A4. repeat split; try ring.
      intros t px Ht Hpx. rewrite E1 in Hpx. injection Hpx as <-. rewrite (S6 t p Ht E0). destruct H0, H1. congruence.
    + intros k Hk. apply L8. unfold hcount in *. rewrite E1 in Hk. rewrite E0. lia.
  - (* close *)
    destruct (held_is _ _ _ _ _ _ _ E0 H0) as (A1 & A2 & A3 & A4). destruct (held_none x' E1) as (B1 & B2 & B3 & B4).
    pose proof (bought_exit _ _ He) as Hbe. destruct (xsane_held _ _ _ _ _ _ _ Hxs E0 H0) as (HEp & HGp).
    unfold hcount in L2. rewrite E0 in L2. unfold ecount in L2.
    assert (HEv : E <= volume done).
    { rewrite <- A2. rewrite L4. destruct (es_pos e) as [q|] eqn:Eq; [|discriminate].
      pose proof Hes as Hes'. unfold esane in Hes'. rewrite Eq in Hes'. destruct Hes' as (f1 & d1 & e1 & e2 & e3 & e4 & e5 & e6 & f2 & f3 & sl & Hp & Hh).
      destruct (eheld_is _ _ _ _ _ _ _ _ _ _ _ _ Eq Hp) as (C1 & C2 & C3 & C4 & C5 & C6 & C7). pose proof (eh_X _ _ _ _ _ _ _ _ _ _ _ _ Hh). lra. }
    assert (Heq : oqty r == E).
    { rewrite A1, A2, Hbe in Hclear. assert (Es : dir_sign d * E + - dir_sign d * oqty r == dir_sign d * (E - oqty r)) by ring. rewrite Es, Qabs_signed in Hclear.
      destruct Hclear as [Hz|Hz]; [destruct d; cbn [dir_sign] in Hz; lra|]. exfalso. rewrite Qabs_Qminus in Hz.
      pose proof (tolq_slack (oqty r) E (volume done + oqty r)) as Hts. rewrite (Qabs_pos (oqty r)), (Qabs_pos E) in Hts by lra.
      specialize (Hts ltac:(lra) ltac:(lra)). lra. }
    assert (Hx' : xts' = xts ++ [t]).
    { destruct Hxts as [[_ Hq]|(t' & -> & Hq)]; [exfalso; rewrite Eo in Hq; apply (f_equal (@length _)) in Hq; rewrite app_length in Hq; cbn in Hq; lia|].
      rewrite Eo in Hq. apply app_inv_head in Hq. congruence. }
    subst xts'.
    destruct Hec as [q' F0 F1 G1 Fpar Ft Fo
      |q first d' E' EG EF X XG XF fs ff q' F0 G0 Fe F1 G1 Fpar Ft Fo
      |q first d' E' EG EF X XG XF fs ff q' F0 G0 Fe F1 Hgap G1 Fpar Ft Fo
      |q first d' E' EG EF X XG XF fs ff sl nts' F0 G0 Fe F1 Hcl' Hsl' Hts Fpar Ft Fo
      |q first d' E' EG EF X XG XF fs ff sl nts' q' fs' ff' F0 G0 Fe F1 Hgap Hsl' Hts Hfs Hff G1 Fpar Ft Fo];
    (rewrite F0 in L2; try discriminate); destruct (L3 p q E0 F0) as (Ld & Lr); rewrite (xi_dir _ _ _ _ _ _ H0), (ei_dir _ _ _ _ _ _ _ _ _ _ _ G0) in Ld; subst d';
    destruct (eheld_is _ _ _ _ _ _ _ _ _ _ _ _ F0 G0) as (C1 & C2 & C3 & C4 & C5 & C6 & C7); rewrite A2, C2, C5 in L4.
    + exfalso. apply is_exit_entry in Fe. congruence.
    + exfalso. pose proof (tolq_pos (X + oqty r) E'). lra.
    + assert (nts' = nts) as -> by (apply (app_inv_head (es_trades e)); congruence).
      destruct (esane_held _ _ _ _ _ _ _ _ _ _ _ _ _ Hes F0 G0) as (sl0 & [(pre & K0 & K0') (r0 & l & K1 & K1') K2 K3 K4 K5 K6 K7 K8]).
      destruct Hsl' as (pre' & M1 & M2). assert (sl0 = sl) as -> by (eapply split_unique; [exact K0|exact M1|congruence]).
      assert (Hne : sl <> []) by congruence.
      rewrite ents_snoc in Hts by auto. rewrite He, app_nil_r in Hts.
      destruct (ents_cons d fs ff r0 l K1') as (es' & Ees). rewrite <- K1 in Ees.
      assert (Hc1 : hcount x = 1%nat) by (unfold hcount; rewrite E0; reflexivity). destruct (L7 Hc1) as (S1 & S2 & S3 & S4 & S5 & S6).
      rewrite C3, A3 in S2. rewrite C4, A4 in S4. rewrite C5 in S1. rewrite C6 in S3. rewrite C7 in S5.
      assert (HE'0 : 0 < E') by lra. pose proof (ti_par _ _ _ _ _ _ _ _ _ _ _ _ _ Ht) as Tp.
      assert (HGE : E * (G / E) == G) by (field; lra).
      assert (Hei : xp_entry_idx p = or_idx r0).
      { destruct Lr as (pre1 & r1 & l1 & N1 & N2 & N3). assert (Ex : sl = r1 :: l1).
        { eapply split_unique; [exact M1|exact N1|]. rewrite N2. destruct G0. congruence. }
        rewrite K1 in Ex. injection Ex as <- _. exact N3. }
      assert (Hold : forall k, k <> xs_parent x -> trades_of_pos k (xts ++ [t]) = trades_of_pos k xts) by (intros k Hk; apply pos_snoc_other; congruence).
      assert (Hold' : forall k, k <> xs_parent x -> trades_of_pos k (ets ++ nts) = trades_of_pos k ets).
      { intros k Hk. rewrite of_pos_app, (of_pos_none k nts), app_nil_r; auto. intros u Hu.
        destruct (filled_in _ _ _ _ _ _ _ _ _ _ _ _ Hts Hu) as (ee & kk & _ & []). congruence. }
      assert (Hnew' : trades_of_pos (xs_parent x) (ets ++ nts) = nts).
      { rewrite of_pos_app, of_pos_none, of_pos_all; auto.
        - intros u Hu. destruct (filled_in _ _ _ _ _ _ _ _ _ _ _ _ Hts Hu) as (ee & kk & _ & []). congruence.
        - intros u Hu. apply Re in Hu. unfold ecount in Hu. rewrite F0 in Hu. lia. }
      constructor.
      * congruence.
      * unfold hcount, ecount. rewrite E1, F1. auto.
      * intros px pe Hpx. congruence.
      * destruct (eheld_none e' F1) as (D1 & D2 & D3 & D4 & D5 & D6 & D7). rewrite B2, D2, D5. ring.
      * unfold ledger_position in *. rewrite total_snoc, L5, A1, A2, B2, Hbe, Heq. ring.
      * destruct (eheld_none e' F1) as (D1 & D2 & D3 & D4 & D5 & D6 & D7). rewrite D2, volume_snoc, Hb. lra.
      * unfold hcount. rewrite E1. discriminate.
      * intros k Hk. destruct (Z.eq_dec k (xs_parent x)) as [->|Hn].
        -- rewrite Hnew', pos_snoc_same by auto. pose proof Ht as Ht0.
           destruct Ht0 as [T1 T2 T3 T4 T5 T6 T7 T8 T9 T10 T11 T12 T13 T14 T15].
           eapply (same_intro _ _ _ _ _ _ _ _ _ _ _ _ t (xp_entry_idx p) r0 fs ff es' Hts HE'0); auto.
           ++ symmetry. exact K3.
           ++ rewrite tsum_snoc, S1, T9. lra.
           ++ rewrite tsum_snoc, S2, T9, T10, HGE, <- K4. lra.
           ++ rewrite tsum_snoc, S3, T9, T12, Heq. reflexivity.
           ++ rewrite tsum_snoc, S4, T11, <- K5. lra.
           ++ rewrite tsum_snoc, S5, T13. reflexivity.
           ++ intros u Hu. apply in_app_or in Hu as [Hu|[<-|[]]]; [apply (S6 u p Hu E0)|]. destruct H0. congruence.
        -- rewrite Hold, Hold' by auto. apply L8. unfold hcount in *. rewrite E1 in Hk. rewrite E0. lia.
    + exfalso. pose proof (tolq_pos (X + oqty r) E'). lra.
  - (* reduce *)
    destruct (held_is _ _ _ _ _ _ _ E0 H0) as (A1 & A2 & A3 & A4). destruct (held_is _ _ _ _ _ _ _ E1 H1) as (B1 & B2 & B3 & B4).
    pose proof (bought_exit _ _ He) as Hbe. destruct (xsane_held _ _ _ _ _ _ _ Hxs E0 H0) as (HEp & HGp).
    unfold hcount in L2. rewrite E0 in L2. unfold ecount in L2.
    pose proof (tolq_pos (oqty r) E) as Htp.
    rewrite A1, A2, Hbe in Hclear. assert (Es : dir_sign d * E + - dir_sign d * oqty r == dir_sign d * (E - oqty r)) by ring. rewrite Es, Qabs_signed in Hclear.
    assert (Hgapv : slack (volume done + oqty r) < E - oqty r).
    { rewrite Qabs_pos in Hclear by lra. destruct Hclear as [Hz|Hz]; auto. exfalso. destruct d; cbn [dir_sign] in Hz; lra. }
    assert (Hx' : xts' = xts ++ [t]).
    { destruct Hxts as [[_ Hq]|(t' & -> & Hq)]; [exfalso; rewrite Eo in Hq; apply (f_equal (@length _)) in Hq; rewrite app_length in Hq; cbn in Hq; lia|].
      rewrite Eo in Hq. apply app_inv_head in Hq. congruence. }
    subst xts'.
    destruct Hec as [q' F0 F1 G1 Fpar Ft Fo
      |q first d' E' EG EF X XG XF fs ff q' F0 G0 Fe F1 G1 Fpar Ft Fo
      |q first d' E' EG EF X XG XF fs ff q' F0 G0 Fe F1 Hgap G1 Fpar Ft Fo
      |q first d' E' EG EF X XG XF fs ff sl nts' F0 G0 Fe F1 Hcl' Hsl' Hts Fpar Ft Fo
      |q first d' E' EG EF X XG XF fs ff sl nts' q' fs' ff' F0 G0 Fe F1 Hgap Hsl' Hts Hfs Hff G1 Fpar Ft Fo];
    (rewrite F0 in L2; try discriminate); destruct (L3 p q E0 F0) as (Ld & Lr); rewrite (xi_dir _ _ _ _ _ _ H0), (ei_dir _ _ _ _ _ _ _ _ _ _ _ G0) in Ld; subst d';
    destruct (eheld_is _ _ _ _ _ _ _ _ _ _ _ _ F0 G0) as (C1 & C2 & C3 & C4 & C5 & C6 & C7); rewrite A2, C2, C5 in L4; rewrite C2 in L6.
    + exfalso. apply is_exit_entry in Fe. congruence.
    + assert (nts = []) as -> by (apply (app_inv_head (es_trades e)); rewrite app_nil_r; congruence). rewrite app_nil_r.
      destruct (eheld_is _ _ _ _ _ _ _ _ _ _ _ _ F1 G1) as (D1 & D2 & D3 & D4 & D5 & D6 & D7).
      assert (Hc1 : hcount x = 1%nat) by (unfold hcount; rewrite E0; reflexivity). destruct (L7 Hc1) as (S1 & S2 & S3 & S4 & S5 & S6).
      rewrite C3, A3 in S2. rewrite C4, A4 in S4. rewrite C5 in S1. rewrite C6 in S3. rewrite C7 in S5.
      pose proof (ti_par _ _ _ _ _ _ _ _ _ _ _ _ _ Ht) as Tp.
      constructor.
      * congruence.
      * unfold hcount, ecount. rewrite E1, F1. auto.
      * intros px pe Hpx Hpe. rewrite E1 in Hpx. rewrite F1 in Hpe. injection Hpx as <-. injection Hpe as <-.
        destruct H0, H1, G0, G1. split; [congruence|]. destruct Lr as (pre & r0 & l & K1 & K2 & K3). exists pre, r0, (l ++ [r]). rewrite K1, <- app_assoc.
        repeat split; congruence.
      * rewrite B2, D2, D5. lra.
      * unfold ledger_position in *. rewrite total_snoc, L5, A1, A2, B1, B2, Hbe. ring.
      * rewrite D2, volume_snoc, Hb. lra.
      * intros _. cbn zeta. rewrite Epar, pos_snoc_same by auto. rewrite !tsum_snoc, S1, S2, S3, S4, S5.
        destruct Ht as [T1 T2 T3 T4 T5 T6 T7 T8 T9 T10 T11 T12 T13 T14 T15]. rewrite T9, T10, T11, T12, T13, D3, D4, D5, D6, D7, B3, B4.
        assert (HGE : G * ((E - oqty r) / E) == G - oqty r * (G / E)) by (field; lra).
        assert (HFE : F * ((E - oqty r) / E) == F - oqty r / E * F) by (field; lra).
        rewrite HGE, HFE. repeat split; try ring.
        intros u px Hu Hpx. rewrite E1 in Hpx. injection Hpx as <-. apply in_app_or in Hu as [Hu|[<-|[]]].
        -- rewrite (S6 u p Hu E0). destruct H0, H1. congruence.
        -- destruct H1. congruence.
      * intros k Hk. unfold hcount in *. rewrite E1 in Hk. rewrite E0 in L8. rewrite pos_snoc_other by lia. apply L8. lia.
    + exfalso. assert (Ez : X + oqty r - E' == - (E - oqty r)) by lra. rewrite Ez, Qabs_opp, Qabs_pos in Hcl' by lra.
      destruct (esane_held _ _ _ _ _ _ _ _ _ _ _ _ _ Hes F0 G0) as (sl0 & Hh). pose proof (eh_X _ _ _ _ _ _ _ _ _ _ _ _ Hh) as HX0.
      pose proof (tolq_slack (X + oqty r) E' (volume done + oqty r)) as Hq. rewrite (Qabs_pos (X + oqty r)), (Qabs_pos E') in Hq by lra.
      specialize (Hq ltac:(lra) ltac:(lra)). lra.
    + exfalso. pose proof (tolq_pos (X + oqty r) E'). lra.
  - (* reverse *)
    destruct (held_is _ _ _ _ _ _ _ E0 H0) as (A1 & A2 & A3 & A4). destruct (held_is _ _ _ _ _ _ _ E1 H1) as (B1 & B2 & B3 & B4).
    pose proof (bought_exit _ _ He) as Hbe. destruct (xsane_held _ _ _ _ _ _ _ Hxs E0 H0) as (HEp & HGp). pose proof (flip_sign d) as Hfl.
    unfold hcount in L2. rewrite E0 in L2. unfold ecount in L2.
    pose proof (tolq_pos (oqty r) E) as Htp.
    rewrite A1, A2, Hbe in Hclear. assert (Es : dir_sign d * E + - dir_sign d * oqty r == dir_sign d * (E - oqty r)) by ring. rewrite Es, Qabs_signed in Hclear.
    assert (Hgapv : slack (volume done + oqty r) < oqty r - E).
    { rewrite Qabs_Qminus, Qabs_pos in Hclear by lra. destruct Hclear as [Hz|Hz]; auto. exfalso. destruct d; cbn [dir_sign] in Hz; lra. }
    assert (Hx' : xts' = xts ++ [t]).
    { destruct Hxts as [[_ Hq]|(t' & -> & Hq)]; [exfalso; rewrite Eo in Hq; apply (f_equal (@length _)) in Hq; rewrite app_length in Hq; cbn in Hq; lia|].
      rewrite Eo in Hq. apply app_inv_head in Hq. congruence. }
    subst xts'.
    destruct Hec as [q' F0 F1 G1 Fpar Ft Fo
      |q first d' E' EG EF X XG XF fs ff q' F0 G0 Fe F1 G1 Fpar Ft Fo
      |q first d' E' EG EF X XG XF fs ff q' F0 G0 Fe F1 Hgap G1 Fpar Ft Fo
      |q first d' E' EG EF X XG XF fs ff sl nts' F0 G0 Fe F1 Hcl' Hsl' Hts Fpar Ft Fo
      |q first d' E' EG EF X XG XF fs ff sl nts' q' fs' ff' F0 G0 Fe F1 Hgap Hsl' Hts Hfs Hff G1 Fpar Ft Fo];
    (rewrite F0 in L2; try discriminate); destruct (L3 p q E0 F0) as (Ld & Lr); rewrite (xi_dir _ _ _ _ _ _ H0), (ei_dir _ _ _ _ _ _ _ _ _ _ _ G0) in Ld; subst d';
    destruct (eheld_is _ _ _ _ _ _ _ _ _ _ _ _ F0 G0) as (C1 & C2 & C3 & C4 & C5 & C6 & C7); rewrite A2, C2, C5 in L4; rewrite C2 in L6.
    + exfalso. apply is_exit_entry in Fe. congruence.
    + exfalso. pose proof (tolq_pos (X + oqty r) E'). lra.
    + exfalso. assert (Ez : X + oqty r - E' == oqty r - E) by lra. rewrite Ez, Qabs_pos in Hcl' by lra.
      destruct (esane_held _ _ _ _ _ _ _ _ _ _ _ _ _ Hes F0 G0) as (sl0 & Hh). pose proof (eh_X _ _ _ _ _ _ _ _ _ _ _ _ Hh) as HX0.
      pose proof (tolq_slack (X + oqty r) E' (volume done + oqty r)) as Hq. rewrite (Qabs_pos (X + oqty r)), (Qabs_pos E') in Hq by lra.
      specialize (Hq ltac:(lra) ltac:(lra)). lra.
    + assert (nts' = nts) as -> by (apply (app_inv_head (es_trades e)); congruence).
      destruct (eheld_is _ _ _ _ _ _ _ _ _ _ _ _ F1 G1) as (D1 & D2 & D3 & D4 & D5 & D6 & D7).
      destruct (esane_held _ _ _ _ _ _ _ _ _ _ _ _ _ Hes F0 G0) as (sl0 & [(pre & K0 & K0') (r0 & l & K1 & K1') K2 K3 K4 K5 K6 K7 K8]).
      destruct Hsl' as (pre' & M1 & M2). assert (sl0 = sl) as -> by (eapply split_unique; [exact K0|exact M1|congruence]).
      assert (Hne : sl <> []) by congruence.
      rewrite ents_snoc in Hts by auto. rewrite He, app_nil_r in Hts.
      destruct (ents_cons d fs ff r0 l K1') as (es' & Ees). rewrite <- K1 in Ees.
      assert (Hc1 : hcount x = 1%nat) by (unfold hcount; rewrite E0; reflexivity). destruct (L7 Hc1) as (S1 & S2 & S3 & S4 & S5 & S6).
      rewrite C3, A3 in S2. rewrite C4, A4 in S4. rewrite C5 in S1. rewrite C6 in S3. rewrite C7 in S5.
      assert (HE'0 : 0 < E') by lra. pose proof (ti_par _ _ _ _ _ _ _ _ _ _ _ _ _ Ht) as Tp.
      assert (HGE : E * (G / E) == G) by (field; lra).
      assert (Hei : xp_entry_idx p = or_idx r0).
      { destruct Lr as (pre1 & r1 & l1 & N1 & N2 & N3). assert (Ex : sl = r1 :: l1).
        { eapply split_unique; [exact M1|exact N1|]. rewrite N2. destruct G0. congruence. }
        rewrite K1 in Ex. injection Ex as <- _. exact N3. }
      assert (Hold : forall k, k <> xs_parent x -> trades_of_pos k (xts ++ [t]) = trades_of_pos k xts) by (intros k Hk; apply pos_snoc_other; congruence).
      assert (Hold' : forall k, k <> xs_parent x -> trades_of_pos k (ets ++ nts) = trades_of_pos k ets).
      { intros k Hk. rewrite of_pos_app, (of_pos_none k nts), app_nil_r; auto. intros u Hu.
        destruct (filled_in _ _ _ _ _ _ _ _ _ _ _ _ Hts Hu) as (ee & kk & _ & []). congruence. }
      assert (Hnew' : trades_of_pos (xs_parent x) (ets ++ nts) = nts).
      { rewrite of_pos_app, of_pos_none, of_pos_all; auto.
        - intros u Hu. destruct (filled_in _ _ _ _ _ _ _ _ _ _ _ _ Hts Hu) as (ee & kk & _ & []). congruence.
        - intros u Hu. apply Re in Hu. unfold ecount in Hu. rewrite F0 in Hu. lia. }
      assert (Hnone : trades_of_pos (xs_parent x') (xts ++ [t]) = []).
      { apply of_pos_none. intros u Hu. apply in_app_or in Hu as [Hu|[<-|[]]]; [apply Rx in Hu|]; lia. }
      constructor.
      * congruence.
      * unfold hcount, ecount. rewrite E1, F1. auto.
      * intros px pe Hpx Hpe. rewrite E1 in Hpx. rewrite F1 in Hpe. injection Hpx as <-. injection Hpe as <-.
        destruct H1, G1. split; [congruence|]. exists done, r, []. repeat split; auto.
      * rewrite B2, D2, D5. lra.
      * unfold ledger_position in *. rewrite total_snoc, L5, A1, A2, B1, B2, Hbe, Hfl. ring.
      * rewrite D2, volume_snoc, Hb. lra.
      * intros _. cbn zeta. rewrite Hnone. cbn [tsum]. rewrite D3, D4, D5, D6, D7, B3, B4.
        assert (Z1 : X + oqty r - E' == oqty r - E) by lra. rewrite Z1.
        repeat split; try ring; try (field; lra). intros ? ? [].
      * intros k Hk. destruct (Z.eq_dec k (xs_parent x)) as [->|Hn].
        -- rewrite Hnew', pos_snoc_same by auto. pose proof Ht as Ht0.
           destruct Ht0 as [T1 T2 T3 T4 T5 T6 T7 T8 T9 T10 T11 T12 T13 T14 T15].
           eapply (same_intro _ _ _ _ _ _ _ _ _ _ _ _ t (xp_entry_idx p) r0 fs ff es' Hts HE'0); auto.
           ++ symmetry. exact K3.
           ++ rewrite tsum_snoc, S1, T9. lra.
           ++ rewrite tsum_snoc, S2, T9, T10, HGE, <- K4. lra.
           ++ rewrite tsum_snoc, S3, T9, T12, L4. reflexivity.
           ++ rewrite tsum_snoc, S4, T11, <- K5. lra.
           ++ rewrite tsum_snoc, S5, T13, L4. reflexivity.
           ++ intros u Hu. apply in_app_or in Hu as [Hu|[<-|[]]]; [apply (S6 u p Hu E0)|]. destruct H0. congruence.
        -- rewrite Hold, Hold' by auto. apply L8. unfold hcount in *. rewrite E1 in Hk. rewrite E0. lia.
Qed.

Lemma ecase_out : forall crecs col done e r e', ecase crecs col done e r e' -> exists nts, es_trades e' = es_trades e ++ nts.
Proof. intros crecs col done e r e' H. destruct H; eauto; exists []; rewrite app_nil_r; auto. Qed.

Lemma lk_fold : forall par0 col tidx0 tidx1 xo eo rest done x e xts ets x' e',
  Forall good_order (done ++ rest) -> clear_of_tolerance (done ++ rest) -> xsane x -> esane done e ->
  xstr col tidx0 par0 done x xts -> estr col tidx1 par0 done e ets -> xs_out x = xo ++ xts -> es_trades e = eo ++ ets ->
  lk par0 done x e xts ets ->
  foldM (exit_step col) x rest = Ok x' ->
  foldM (entry_step (done ++ rest) col) e (combine (seq (length done) (length rest)) rest) = Ok e' ->
  exists xts' ets', xsane x' /\ esane (done ++ rest) e' /\ xstr col tidx0 par0 (done ++ rest) x' xts' /\ estr col tidx1 par0 (done ++ rest) e' ets' /\
    xs_out x' = xo ++ xts' /\ es_trades e' = eo ++ ets' /\ lk par0 (done ++ rest) x' e' xts' ets'.
Proof.
  intros par0 col tidx0 tidx1 xo eo. induction rest as [|r rest IH]; intros done x e xts ets x' e' Hg Hc Hxs Hes HX HE Ex Ee HL Fx Fe.
  - cbn in Fx, Fe. injection Fx as <-. injection Fe as <-. rewrite app_nil_r. exists xts, ets. auto 10.
  - cbn [length seq combine foldM] in Fx, Fe. apply bind_ok in Fx as (x1 & X1 & X2). apply bind_ok in Fe as (e1 & Y1 & Y2).
    pose proof (proj1 (Forall_app _ _ _) Hg) as (Hg1 & Hg2). inversion Hg2; subst.
    destruct (exit_step_ok col x r x1) as (Cx & _); auto. destruct (entry_step_ok col e r done rest e1) as (Ce & _); auto.
    assert (Ea : done ++ r :: rest = (done ++ [r]) ++ rest) by (rewrite <- app_assoc; reflexivity).
    destruct (xstr_step col tidx0 par0 done x xts r x1) as (xts1 & HX1 & Hx1); auto.
    destruct (ecase_out _ _ _ _ _ _ Ce) as (nts & En).
    pose proof (estr_step _ col tidx1 par0 done e ets r e1 nts ltac:(assumption) Hg1 Hes HE Ce En) as HE1.
    assert (HL1 : lk par0 (done ++ [r]) x1 e1 xts1 (ets ++ nts)).
    { eapply (lk_step par0 col tidx0 tidx1 _ done r x e x1 e1 xts ets xts1 nts); eauto. }
    rewrite Ea in *.
    replace (S (length done)) with (length (done ++ [r])) in Y2 by (rewrite app_length; cbn; lia).
    eapply (IH (done ++ [r]) x1 e1 xts1 (ets ++ nts)); eauto.
    + eapply xcase_sane; eauto.
    + eapply ecase_sane; eauto.
    + destruct Hx1 as [[-> Q]|(t & -> & Q)]; rewrite Q, Ex; auto. rewrite app_assoc; auto.
    + rewrite En, Ee, app_assoc. auto.
Qed.

Lemma lk_finish : forall nrows last par0 col tidx0 tidx1 xo eo os x e xts ets x' e',
  Forall good_order os -> xsane x -> esane os e ->
  xstr col tidx0 par0 os x xts -> estr col tidx1 par0 os e ets -> xs_out x = xo ++ xts -> es_trades e = eo ++ ets ->
  lk par0 os x e xts ets ->
  exit_finish nrows (Fin last) col x = Ok x' -> entry_finish nrows (Fin last) os col e = Ok e' ->
  exists xts' ets', xs_out x' = xo ++ xts' /\ es_trades e' = eo ++ ets' /\ xs_parent x' = es_parent e' /\ (par0 <= xs_parent x')%Z /\
    Forall (fun t => (par0 < tr_parent t <= xs_parent x')%Z) xts' /\ Forall (fun t => (par0 < tr_parent t <= xs_parent x')%Z) ets' /\
    forall k, (par0 < k <= xs_parent x')%Z -> same_position (trades_of_pos k xts') (trades_of_pos k ets').
Proof.
  intros nrows last par0 col tidx0 tidx1 xo eo os x e xts ets x' e' Hgd Hxs Hes HX HE Ex Ee HL Fx Fe.
  pose proof HL as [L1 L2 L3 L4 L5 L6 L7 L8].
  pose proof (xt_range _ _ _ _ _ _ HX) as Rx. pose proof (et_range _ _ _ _ _ _ HE) as Re. pose proof (xt_par0 _ _ _ _ _ _ HX) as Px.
  unfold exit_finish in Fx. unfold entry_finish in Fe. unfold hcount, ecount in L2.
  destruct (xs_pos x) as [p|] eqn:E0; destruct (es_pos e) as [q|] eqn:F0; try discriminate.
  - assert (Hxs' := Hxs). unfold xsane in Hxs'. rewrite E0 in Hxs'. destruct Hxs' as (ei & d & E & G & F & H0 & HEp & HGp).
    pose proof Hes as Is0. unfold esane in Is0. rewrite F0 in Is0.
    destruct Is0 as (first & d' & E' & EG & EF & X & XG & XF & fs & ff & sl & G0 & Hh).
    destruct (held_is _ _ _ _ _ _ _ E0 H0) as (A1 & A2 & A3 & A4).
    destruct (eheld_is _ _ _ _ _ _ _ _ _ _ _ _ F0 G0) as (C1 & C2 & C3 & C4 & C5 & C6 & C7).
    destruct (L3 p q eq_refl eq_refl) as (Ld & Lr). rewrite (xi_dir _ _ _ _ _ _ H0), (ei_dir _ _ _ _ _ _ _ _ _ _ _ G0) in Ld. subst d'.
    rewrite A2, C2, C5 in L4.
    pose proof Hh as [(pre & K0 & K0') (r0 & l & K1 & K1') K2 K3 K4 K5 K6 K7 K8].
    pose proof G0 as [X1 X2 (e1 & B1 & D1) (e2 & B2 & D2) (e3 & B3 & D3) (e4 & B4 & D4) (e5 & B5 & D5) (e6 & B6 & D6) X3 X4].
    pose proof (tolq_pos X E') as Htp. assert (HE0 : 0 < E') by lra.
    (* exit side *)
    pose proof H0 as [_ _ (e0 & He0 & Ee0) _ _]. rewrite He0 in Fx. rewrite is_less_neg in Fx by lra.
    change zero with (Fin 0) in Fx.
    destruct (exit_trade_spec (xs_tidx x) col p ei d E G F e0 (nrows - 1) last 0 TOpen (xs_parent x) H0) as (t & Et & Ht); try lra.
    rewrite Et in Fx. cbn [bind] in Fx. injection Fx as <-. cbn [xs_out xs_parent].
    (* entry side *)
    rewrite B1, B4, B5, B6 in Fe.
    assert (Hl : is_less_nb (Fin e4) (Fin e1) = true) by (apply is_less_fin; rewrite D1, D4; auto).
    rewrite Hl in Fe.
    destruct (add_nb_exact e1 e4) as (rem & Er & Er').
    { rewrite D1, D4, tolq_comm. rewrite Qabs_pos; lra. }
    rewrite Er, mul_fin, add_fin in Fe. unfold entry_trades_of in Fe. rewrite X1, X2, X3, X4 in Fe.
    assert (Hslice : firstn (S (length os - 1) - first) (skipn first os) = sl).
    { rewrite K0 at 2. rewrite <- K0', skipn_app, skipn_all, Nat.sub_diag. cbn [skipn app].
      apply firstn_all2. rewrite K0, app_length. lia. }
    rewrite Hslice in Fe.
    assert (Hgs : Forall good_order sl) by (rewrite K0 in Hgd; apply Forall_app in Hgd; apply Hgd).
    destruct (fill_entry_spec col (nrows - 1) E' (XG + (E' - X) * last) XF d TOpen (es_parent e) first fs ff e1
      (Qred (e5 + Qred (rem * last))) e6 sl first (es_tidx e)) as (nts & Ef & Hf); auto; try lra.
    { rewrite !Qred_correct, D5, Er', D1, D4. reflexivity. }
    rewrite Ef in Fe. cbn [bind] in Fe. injection Fe as <-. cbn [es_trades es_parent].
    rewrite Nat.eqb_refl in Hf. 
    destruct (ents_cons d fs ff r0 l K1') as (es' & Ees). rewrite <- K1 in Ees.
    assert (Hc1 : hcount x = 1%nat) by (unfold hcount; rewrite E0; reflexivity). destruct (L7 Hc1) as (S1 & S2 & S3 & S4 & S5 & S6).
    rewrite C3, A3 in S2. rewrite C4, A4 in S4. rewrite C5 in S1. rewrite C6 in S3. rewrite C7 in S5.
    assert (HGE : e0 * (G / E) == G) by (rewrite Ee0; field; lra). pose proof (ti_par _ _ _ _ _ _ _ _ _ _ _ _ _ Ht) as Tp.
    assert (HFE : e0 / E * F == F) by (rewrite Ee0; field; lra).
    assert (Hei : xp_entry_idx p = or_idx r0).
    { destruct Lr as (pre1 & r1 & l1 & N1 & N2 & N3). assert (Exx : sl = r1 :: l1).
      { eapply split_unique; [exact K0|exact N1|]. congruence. }
      rewrite K1 in Exx. injection Exx as <- _. exact N3. }
    assert (Hec : ecount e = 1%nat) by (unfold ecount; rewrite F0; reflexivity).
    assert (Hnp : forall u, In u nts -> tr_parent u = es_parent e).
    { intros u Hu. destruct (filled_in _ _ _ _ _ _ _ _ _ _ _ _ Hf Hu) as (ee & kk & _ & []). auto. }
    exists (xts ++ [t]), (ets ++ nts). rewrite Ex, Ee, <- !app_assoc. split; auto. split; auto. split; auto.
    split; [lia|]. split; [|split].
    + apply Forall_app. split; auto. constructor; auto. lia.
    + apply Forall_app. split; [eapply Forall_impl; [|exact Re]; cbn; intros; lia|].
      apply Forall_forall. intros u Hu. rewrite (Hnp u Hu). lia.
    + intros k Hk. destruct (Z.eq_dec k (xs_parent x)) as [->|Hn].
      * assert (Hnew' : trades_of_pos (xs_parent x) (ets ++ nts) = nts).
        { rewrite of_pos_app, of_pos_none, of_pos_all; auto.
          - intros u Hu. rewrite (Hnp u Hu). auto.
          - intros u Hu. rewrite Forall_forall in Re. apply Re in Hu. lia. }
        rewrite Hnew', pos_snoc_same by auto. pose proof Ht as Ht0.
        destruct Ht0 as [T1 T2 T3 T4 T5 T6 T7 T8 T9 T10 T11 T12 T13 T14 T15].
        eapply (same_intro _ _ _ _ _ _ _ _ _ _ _ _ t (xp_entry_idx p) r0 fs ff es' Hf HE0); auto.
        -- symmetry. exact K3.
        -- rewrite tsum_snoc, S1, T9. lra.
        -- rewrite tsum_snoc, S2, T9, T10, HGE, <- K4. lra.
        -- rewrite tsum_snoc, S3, T9, T12, Ee0, L4. reflexivity.
        -- rewrite tsum_snoc, S4, T11, HFE, <- K5. lra.
        -- rewrite tsum_snoc, S5, T13. ring.
        -- intros u Hu. apply in_app_or in Hu as [Hu|[<-|[]]]; [apply (S6 u p Hu eq_refl)|]. destruct H0. congruence.
      * rewrite pos_snoc_other by congruence. rewrite of_pos_app, (of_pos_none k nts), app_nil_r; [apply L8; lia|].
        intros u Hu. rewrite (Hnp u Hu). congruence.
  - injection Fx as <-. injection Fe as <-. exists xts, ets. unfold hcount in *. rewrite E0 in *. unfold ecount in Re. rewrite F0 in Re.
    repeat split; auto; try lia.
    + eapply Forall_impl; [|exact Re]. cbn. intros; lia.
    + apply L8. cbn. lia.
    + apply L8. cbn. lia.
    + apply L8. cbn. lia.
    + apply L8. cbn. lia.
    + apply L8. cbn. lia.
    + apply L8. cbn. lia.
Qed.

Record both (par : Z) (xo eo : list (TradeRec XQ)) : Prop := {
  bo_x : Forall (fun t => (-1 < tr_parent t <= par)%Z) xo;
  bo_e : Forall (fun t => (-1 < tr_parent t <= par)%Z) eo;
  bo_p : (-1 <= par)%Z;
  bo_same : forall k, (-1 < k <= par)%Z -> same_position (trades_of_pos k xo) (trades_of_pos k eo) }.

Lemma column_both : forall nrows last recs x e x' e' c, Forall good_order recs -> clear_of_tolerance (column_records c recs) ->
  xs_parent x = es_parent e -> both (xs_parent x) (xs_out x) (es_trades e) ->
  exit_column nrows (fun c => Fin (last c)) recs x c = Ok x' -> entry_column nrows (fun c => Fin (last c)) recs e c = Ok e' ->
  xs_parent x' = es_parent e' /\ both (xs_parent x') (xs_out x') (es_trades e').
Proof.
  intros nrows last recs x e x' e' c Hg Hc Hp HB Fx Fe. unfold exit_column in Fx. unfold entry_column in Fe.
  assert (Hgc : Forall good_order (column_records c recs)).
  { rewrite Forall_forall in *. intros r Hr. unfold column_records in Hr. apply filter_In in Hr as (Hr & _). auto. }
  destruct (column_records c recs) as [|r0 l] eqn:Ec.
  - injection Fx as <-. injection Fe as <-. auto.
  - rewrite <- Ec in *. apply bind_ok in Fx as (x1 & X1 & X2). apply bind_ok in Fe as (e1 & Y1 & Y2).
    set (x0 := mkXState (-1) None (xs_parent x) (xs_tidx x) (xs_out x)) in *.
    set (e0 := mkEState (-1) None (es_parent e) (es_tidx e) (es_trades e)) in *.
    destruct (lk_fold (xs_parent x) c (xs_tidx x) (es_tidx e) (xs_out x) (es_trades e) (column_records c recs) [] x0 e0 [] [] x1 e1)
      as (xts & ets & Q1 & Q2 & Q3 & Q4 & Q5 & Q6 & Q7); auto; try (cbn; rewrite ?app_nil_r; auto; fail).
    { apply (xstr_nil c x0). reflexivity. }
    { rewrite Hp. apply (estr_nil c e0). reflexivity. }
    { constructor; auto.
      - cbn. discriminate.
      - unfold hsize, eE, eX, eget. cbn. ring.
      - unfold ledger_position, hsize. cbn. ring.
      - unfold eE, eget, volume. cbn. lra.
      - cbn. discriminate.
      - intros k Hk. exfalso. cbn in Hk. lia. }
    cbn [app] in *.
    destruct (lk_finish nrows (last c) (xs_parent x) c (xs_tidx x) (es_tidx e) (xs_out x) (es_trades e) (column_records c recs) x1 e1 xts ets x' e')
      as (xts' & ets' & P1 & P2 & P3 & P4 & P5 & P6 & P7); auto.
    split; auto. rewrite P1, P2. destruct HB as [B1 B2 B3 B4]. constructor.
    + apply Forall_app. split; eapply Forall_impl; [|exact B1| |exact P5]; cbn; intros; lia.
    + apply Forall_app. split; eapply Forall_impl; [|exact B2| |exact P6]; cbn; intros; lia.
    + lia.
    + intros k Hk. rewrite !of_pos_app. rewrite Forall_forall in B1, B2, P5, P6. destruct (Z_le_gt_dec k (xs_parent x)) as [Hl|Hl].
      * rewrite (of_pos_none k xts'), (of_pos_none k ets'), !app_nil_r by (intros u Hu; (apply P5 in Hu || apply P6 in Hu); lia). apply B4. lia.
      * rewrite (of_pos_none k (xs_out x)), (of_pos_none k (es_trades e)) by (intros u Hu; (apply B1 in Hu || apply B2 in Hu); lia). cbn [app]. apply P7. lia.
Qed.

Lemma trades_agree : forall nrows ncols last recs xs es, Forall good_order recs -> (forall c, clear_of_tolerance (column_records c recs)) ->
  get_exit_trades_nb nrows ncols (fun c => Fin (last c)) recs = Ok xs -> get_entry_trades_nb nrows ncols (fun c => Fin (last c)) recs = Ok es ->
  exists par, both par xs es.
Proof.
  intros nrows ncols last recs xs es Hg Hc Hx He. unfold get_exit_trades_nb in Hx. unfold get_entry_trades_nb in He.
  apply bind_ok in Hx as (x & Fx & Ex). apply bind_ok in He as (e & Fe & Ee). injection Ex as <-. injection Ee as <-.
  exists (xs_parent x).
  assert (G : forall l x0 e0, xs_parent x0 = es_parent e0 -> both (xs_parent x0) (xs_out x0) (es_trades e0) ->
    foldM (exit_column nrows (fun c => Fin (last c)) recs) x0 l = Ok x -> foldM (entry_column nrows (fun c => Fin (last c)) recs) e0 l = Ok e ->
    both (xs_parent x) (xs_out x) (es_trades e)).
  { induction l as [|c l IH]; intros x0 e0 Hp HB G1 G2; cbn [foldM] in G1, G2.
    - injection G1 as <-. injection G2 as <-. auto.
    - apply bind_ok in G1 as (x1 & A1 & A2). apply bind_ok in G2 as (e1 & B1 & B2).
      destruct (column_both nrows last recs x0 e0 x1 e1 c) as (Hp1 & HB1); auto. eapply IH; eauto. }
  eapply G; [| |exact Fx|exact Fe]; cbn; auto. constructor; cbn; auto; try lia.
Qed.
