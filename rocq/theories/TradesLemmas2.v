(** * Lemmas about exit trades: totals over a column *)
From Coq Require Import ZArith QArith Qabs Qminmax Bool Lia Lqa List Setoid Morphisms.
From Verif Require Import Base Num MathNb TolSpec XQFacts OrderFacts Order Account AccountSpec OrderLemmas4
  Replay ReplaySpec ReplayLemmas GenericLemmas2 Trades TradesSpec TradesLemmas.
Import ListNotations.

(** ** Closeness up to [n] steps of [m] *)
Definition near (n : nat) (m a b : Q) : Prop := Qabs (a - b) <= inject_Z (Z.of_nat n) * m.

#[global] Instance near_proper : Proper (eq ==> Qeq ==> Qeq ==> Qeq ==> iff) near.
Proof. intros n n' <- m m' Hm a a' Ha b b' Hb. unfold near. rewrite Hm, Ha, Hb. reflexivity. Qed.

Lemma inject_S : forall n, inject_Z (Z.of_nat (S n)) == inject_Z (Z.of_nat n) + 1.
Proof. intros n. replace (S n) with (n + 1)%nat by lia. rewrite inject_add. reflexivity. Qed.

Lemma near_refl : forall m a b, 0 <= m -> a == b -> near 0 m a b.
Proof.
  intros m a b Hm H. unfold near. rewrite H. assert (E : b - b == 0) by ring. rewrite E.
  change (0 <= 0 * m). lra.
Qed.

Lemma near_le : forall n n' m a b, 0 <= m -> (n <= n')%nat -> near n m a b -> near n' m a b.
Proof.
  intros n n' m a b Hm Hn H. unfold near in *. eapply Qle_trans; [exact H|].
  apply Qmult_le_compat_r; auto using inject_le.
Qed.

Lemma near_step : forall n m a b c a' b', 0 <= m -> near n m a b -> Qabs c <= m ->
  a' - b' == (a - b) + c -> near (S n) m a' b'.
Proof.
  intros n m a b c a' b' Hm H Hc E. unfold near in *. rewrite E, inject_S, Qmult_plus_distr_l.
  eapply Qle_trans; [apply Qabs_triangle|]. lra.
Qed.

Lemma near_keep : forall n m a b a' b', 0 <= m -> near n m a b -> a' - b' == a - b -> near (S n) m a' b'.
Proof.
  intros n m a b a' b' Hm H E. eapply (near_step n m a b 0); auto. rewrite E. ring.
Qed.

Lemma near_same : forall n m a b a' b', near n m a b -> a' - b' == a - b -> near n m a' b'.
Proof. intros n m a b a' b' H E. unfold near in *. rewrite E. exact H. Qed.

Lemma near_trans : forall n k m a b c, near n m a b -> near k m b c -> near (n + k) m a c.
Proof.
  unfold near. intros n k m a b c H1 H2. rewrite inject_add, Qmult_plus_distr_l.
  assert (E : a - c == (a - b) + (b - c)) by ring. rewrite E.
  eapply Qle_trans; [apply Qabs_triangle|]. lra.
Qed.

Lemma near_scale : forall n m a b k K, Qabs k <= K -> near n m a b -> near n (m * K) (k * a) (k * b).
Proof.
  unfold near. intros n m a b k K HK H.
  assert (E : k * a - k * b == k * (a - b)) by ring. rewrite E, Qabs_Qmult.
  assert (E2 : inject_Z (Z.of_nat n) * (m * K) == K * (inject_Z (Z.of_nat n) * m)) by ring. rewrite E2.
  apply Qmult_le_mono; auto using Qabs_nonneg.
Qed.

Lemma near_abs : forall n m a b, near n m a b -> near n m (Qabs a) (Qabs b).
Proof.
  unfold near. intros n m a b H. eapply Qle_trans; [|exact H]. apply Qabs_case; intros _.
  - apply Qabs_triangle_reverse.
  - rewrite (Qabs_Qminus a b). pose proof (Qabs_triangle_reverse b a). lra.
Qed.

(** ** Sums *)
Lemma total_snoc : forall f l r, total f (l ++ [r]) == total f l + f r.
Proof. intros f l r. induction l as [|x l IH]; cbn; [lra|]. rewrite IH. lra. Qed.
Lemma tsum_app : forall f l l', tsum f (l ++ l') == tsum f l + tsum f l'.
Proof. intros f l l'. induction l as [|x l IH]; cbn; [lra|]. rewrite IH. lra. Qed.
Lemma tsum_snoc : forall f l t, tsum f (l ++ [t]) == tsum f l + f t.
Proof. intros. rewrite tsum_app. cbn. lra. Qed.

Lemma Qabs_sign : forall d, Qabs (dir_sign d) == 1.
Proof. intros []; reflexivity. Qed.
Lemma Qabs_signed : forall d x, Qabs (dir_sign d * x) == Qabs x.
Proof. intros d x. rewrite Qabs_Qmult, Qabs_sign. ring. Qed.

Lemma bought_entry : forall d r, is_entry d r = true -> bought_size r == dir_sign d * oqty r.
Proof. intros [] r; unfold is_entry, bought_size, oqty; destruct (or_side r) as [[]|]; cbn; intros; try discriminate; try ring. Qed.
Lemma bought_exit : forall d r, is_exit d r = true -> bought_size r == - dir_sign d * oqty r.
Proof. intros [] r; unfold is_exit, bought_size, oqty; destruct (or_side r) as [[]|]; cbn; intros; try discriminate; try ring. Qed.
Lemma flip_sign : forall d, dir_sign (flip d) == - dir_sign d.
Proof. intros []; reflexivity. Qed.

Lemma trade_gross_is : forall t id col s ei ep ef xi xp xf d st par,
  trade_is t id col s ei ep ef xi xp xf d st par -> trade_gross t == dir_sign d * (s * xp - s * ep).
Proof. intros t id col s ei ep ef xi xp xf d st par []. unfold trade_gross. rewrite ti_dir, ti_size, ti_ep, ti_xp. reflexivity. Qed.
Lemma trade_fees_is : forall t id col s ei ep ef xi xp xf d st par,
  trade_is t id col s ei ep ef xi xp xf d st par -> trade_fees t == ef + xf.
Proof. intros t id col s ei ep ef xi xp xf d st par []. unfold trade_fees. rewrite ti_ef, ti_xf. reflexivity. Qed.

(** ** A reasonable trade: bounded by the volume [V] and the prices [P] *)
Lemma trade_is_ok : forall V P t id col s ei ep ef xi xp xf d st par,
  trade_is t id col s ei ep ef xi xp xf d st par -> 0 < s <= V -> 0 < ep <= P -> Qabs xp <= 2 * P -> trade_ok V P t.
Proof.
  intros V P t id col s ei ep ef xi xp xf d st par [] Hs He Hx. unfold trade_ok.
  rewrite ti_size, ti_ep, ti_xp. split; [auto|]. split; [auto|]. split; [auto|]. split; [auto|]. split; [|auto].
  eapply Qle_trans; [exact ti_pnl|]. assert (E2 : 2 * (V * P) == V * (2 * P)) by ring.
  apply tolq_slack; rewrite Qabs_Qmult, E2; (apply Qmult_le_mono; auto using Qabs_nonneg; rewrite ?Qabs_pos by lra; lra).
Qed.

Definition hsign (s : XState XQ) : Q := match xs_pos s with None => 0 | Some p => dir_sign (xp_dir p) end.
Definition hsize (s : XState XQ) : Q := match xs_pos s with None => 0 | Some p => qty (xp_size p) end.
Definition hgross (s : XState XQ) : Q := match xs_pos s with None => 0 | Some p => qty (xp_gross p) end.
Definition hfees (s : XState XQ) : Q := match xs_pos s with None => 0 | Some p => qty (xp_fees p) end.
Definition hcount (s : XState XQ) : nat := match xs_pos s with None => 0 | Some _ => 1 end.

Lemma held_is : forall s p ei d E G F, xs_pos s = Some p -> xpos_is p ei d E G F ->
  hsign s = dir_sign d /\ hsize s == E /\ hgross s == G /\ hfees s == F.
Proof.
  intros s p ei d E G F Hp [H1 H2 (a & Ha & Ea) (b & Hb & Eb) (c & Hc & Ec)].
  unfold hsign, hsize, hgross, hfees. rewrite Hp, Ha, Hb, Hc, H2. cbn. auto.
Qed.

Lemma held_none : forall s, xs_pos s = None -> hsign s = 0 /\ hsize s == 0 /\ hgross s == 0 /\ hfees s == 0.
Proof. intros s H. unfold hsign, hsize, hgross, hfees. rewrite H. repeat split; reflexivity. Qed.

Record xinv (Vt P : Q) (out0 : list (TradeRec XQ)) (done : list (OrderRec XQ)) (s : XState XQ) (ts : list (TradeRec XQ)) : Prop := {
  xv_out : xs_out s = out0 ++ ts;
  xv_sane : xsane s;
  xv_pos : near (length done) (slack Vt) (ledger_position done) (hsign s * hsize s);
  xv_le : hsize s <= volume done;
  xv_gross : near (length done) (slack Vt * P) (tsum trade_gross ts) (gross_cash done + hsign s * hgross s);
  xv_fees : tsum trade_fees ts == all_fees done - hfees s;
  xv_vol : near (length done) (slack Vt) (volume done) (2 * tsum (fun t => qty (tr_size t)) ts + hsize s);
  xv_price : hgross s <= hsize s * P;
  xv_ok : Forall (trade_ok Vt P) ts;
  xv_count : (length ts + hcount s <= length done)%nat }.

Lemma xsane_held : forall s p ei d E G F, xsane s -> xs_pos s = Some p -> xpos_is p ei d E G F ->
  (1 # 1000000000000) < E /\ 0 < G.
Proof.
  intros s p ei d E G F Hs Hp Hi. unfold xsane in Hs. rewrite Hp in Hs.
  destruct Hs as (ei' & d' & E' & G' & F' & [_ _ (a & Ha & Ea) (b & Hb & Eb) _] & HE & HG).
  destruct Hi as [_ _ (a' & Ha' & Ea') (b' & Hb' & Eb') _].
  rewrite Ha in Ha'. injection Ha' as <-. rewrite Hb in Hb'. injection Hb' as <-. lra.
Qed.

Lemma avg_price : forall E G P, 0 < E -> 0 < G -> G <= E * P -> 0 < G / E <= P.
Proof.
  intros E G P HE HG H. split; [apply Qdiv_pos; auto|]. apply Qle_shift_div_r; auto. lra.
Qed.

Lemma total_nonneg : forall f l, (forall r, 0 <= f r) -> 0 <= total f l.
Proof. intros f l H. induction l as [|x l IH]; cbn; [lra|]. specialize (H x). lra. Qed.

Lemma volume_nonneg : forall l, 0 <= volume l.
Proof. intros l. apply total_nonneg. intros; apply Qabs_nonneg. Qed.

Lemma volume_snoc : forall l r, volume (l ++ [r]) == volume l + Qabs (bought_size r).
Proof. intros. unfold volume. apply total_snoc. Qed.
Lemma bought_abs : forall r, good_order r -> Qabs (bought_size r) == oqty r.
Proof.
  intros r Hg. destruct (good_fin r Hg) as (_ & _ & _ & Hs & _ & [H|H]); unfold bought_size; rewrite H; fold (oqty r).
  - apply Qabs_pos. lra.
  - rewrite Qabs_opp. apply Qabs_pos. lra.
Qed.

Lemma xinv_step : forall Vt P out0 done s ts col r s', good_order r -> oprice r <= P ->
  volume (done ++ [r]) <= Vt -> xinv Vt P out0 done s ts -> xcase col s r s' ->
  exists ts', xinv Vt P out0 (done ++ [r]) s' ts' /\ (ts' = ts \/ exists t, ts' = ts ++ [t] /\ xs_out s' = xs_out s ++ [t]).
Proof.
  intros Vt P out0 done s ts col r s' Hg HP HV [I0 Is I1 I2 I3 I4 I5 I6 I7 I8] Hc.
  pose proof (xcase_sane _ _ _ _ Hg Is Hc) as Is'.
  destruct (good_fin r Hg) as (_ & _ & _ & Hsz & Hpr & _). pose proof (bought_abs r Hg) as Hb.
  pose proof (slack_pos Vt) as Hsl. assert (Hsl0 : 0 <= slack Vt) by lra.
  assert (HslP : 0 <= slack Vt * P) by (apply Qmult_le_0_compat; lra).
  rewrite volume_snoc, Hb in HV. pose proof (volume_nonneg done) as Hvn.
  assert (Hq0 : 0 < oqty r) by lra.
  assert (Hqp : oqty r * oprice r <= oqty r * P) by (apply Qmult_le_mono; lra).
  destruct Hc as [p' E0 E1 H1 Epar Et Eo|p ei d E G F p' E0 H0 He E1 H1 Epar Et Eo|p ei d E G F t E0 H0 He E1 Hcl Ht Epar Et Eo|p ei d E G F t p' E0 H0 He E1 Hcl H1 Ht Epar Et Eo|p ei d E G F t p' E0 H0 He E1 Hcl H1 Ht Epar Et Eo].
  - (* open *)
    destruct (held_none s E0) as (A1 & A2 & A3 & A4). destruct (held_is _ _ _ _ _ _ _ E1 H1) as (B1 & B2 & B3 & B4).
    exists ts. split; [|auto]. assert (He : is_entry (opened_dir r) r = true).
    { apply opened_is_entry. destruct (good_fin r Hg) as (_ & _ & _ & _ & _ & Hd). exact Hd. }
    pose proof (bought_entry _ _ He) as Hbe.
    constructor; auto.
    + congruence.
    + rewrite app_length, Nat.add_1_r. eapply near_keep; [auto|exact I1|]. unfold ledger_position. rewrite total_snoc, A1, B1, B2, Hbe. ring.
    + rewrite volume_snoc, Hb, B2. lra.
    + rewrite app_length, Nat.add_1_r. eapply near_keep; [auto|exact I3|]. unfold gross_cash. rewrite total_snoc, A1, B1, B3, Hbe. unfold oprice. ring.
    + unfold all_fees. rewrite total_snoc, B4. rewrite I4, A4. unfold all_fees, ofees. ring.
    + rewrite app_length, Nat.add_1_r. eapply near_keep; [auto|exact I5|]. rewrite volume_snoc, Hb, A2, B2. ring.
    + rewrite B3, B2. exact Hqp.
    + rewrite app_length. cbn. unfold hcount in *. rewrite E0 in I8. rewrite E1. lia.
  - (* increase *)
    destruct (held_is _ _ _ _ _ _ _ E0 H0) as (A1 & A2 & A3 & A4). destruct (held_is _ _ _ _ _ _ _ E1 H1) as (B1 & B2 & B3 & B4).
    exists ts. split; [|auto]. pose proof (bought_entry _ _ He) as Hbe.
    constructor; auto.
    + congruence.
    + rewrite app_length, Nat.add_1_r. eapply near_keep; [auto|exact I1|]. unfold ledger_position. rewrite total_snoc, A1, A2, B1, B2, Hbe. ring.
    + rewrite volume_snoc, Hb, B2. lra.
    + rewrite app_length, Nat.add_1_r. eapply near_keep; [auto|exact I3|]. unfold gross_cash. rewrite total_snoc, A1, A3, B1, B3, Hbe. unfold oprice. ring.
    + unfold all_fees. rewrite total_snoc, B4. rewrite I4, A4. unfold all_fees, ofees. ring.
    + rewrite app_length, Nat.add_1_r. eapply near_keep; [auto|exact I5|]. rewrite volume_snoc, Hb, A2, B2. ring.
    + rewrite B3, B2. rewrite A3, A2 in I6. rewrite Qmult_plus_distr_l. lra.
    + rewrite app_length. cbn. unfold hcount in *. rewrite E0 in I8. rewrite E1. lia.
  - (* close *)
    destruct (held_is _ _ _ _ _ _ _ E0 H0) as (A1 & A2 & A3 & A4). destruct (held_none s' E1) as (B1 & B2 & B3 & B4).
    destruct (xsane_held _ _ _ _ _ _ _ Is E0 H0) as (HE & HG).
    pose proof (bought_exit _ _ He) as Hbe. rewrite A2 in I2. rewrite A2, A3 in I6.
    assert (HE0 : 0 < E) by lra. destruct (avg_price E G P HE0 HG I6) as (Hp1 & Hp2).
    assert (Hcl' : Qabs (oqty r - E) <= slack Vt).
    { eapply Qle_trans; [exact Hcl|]. apply tolq_slack; rewrite Qabs_pos by lra; lra. }
    assert (HGE : E * (G / E) == G) by (field; lra).
    exists (ts ++ [t]). split; [|right; exists t; auto].
    constructor; auto.
    + rewrite Eo, I0, app_assoc. reflexivity.
    + rewrite app_length, Nat.add_1_r. eapply (near_step _ _ _ _ (- dir_sign d * (oqty r - E))); [auto|exact I1| |].
      * assert (X : - dir_sign d * (oqty r - E) == - (dir_sign d * (oqty r - E))) by ring. rewrite X, Qabs_opp, Qabs_signed. exact Hcl'.
      * unfold ledger_position. rewrite total_snoc, A1, A2, B1, Hbe. ring.
    + rewrite volume_snoc, Hb, B2. lra.
    + rewrite app_length, Nat.add_1_r. eapply (near_step _ _ _ _ (dir_sign d * ((E - oqty r) * oprice r))); [auto|exact I3| |].
      * rewrite Qabs_signed, Qabs_Qmult, (Qabs_Qminus E). apply Qmult_le_mono; auto using Qabs_nonneg. rewrite Qabs_pos; lra.
      * unfold gross_cash. rewrite total_snoc, tsum_snoc, (trade_gross_is _ _ _ _ _ _ _ _ _ _ _ _ _ Ht), HGE, A1, A3, B1, B3, Hbe. unfold oprice. ring.
    + unfold all_fees. rewrite total_snoc, tsum_snoc, (trade_fees_is _ _ _ _ _ _ _ _ _ _ _ _ _ Ht), B4. rewrite I4, A4. unfold all_fees, ofees. ring.
    + rewrite app_length, Nat.add_1_r. eapply (near_step _ _ _ _ (oqty r - E)); [auto|exact I5|exact Hcl'|].
      rewrite volume_snoc, tsum_snoc, Hb, (ti_size _ _ _ _ _ _ _ _ _ _ _ _ _ Ht), A2, B2. ring.
    + rewrite B3, B2. lra.
    + apply Forall_app. split; auto. constructor; auto. eapply trade_is_ok; [exact Ht| | |]; try (rewrite Qabs_pos); lra.
    + rewrite !app_length. cbn. unfold hcount in *. rewrite E0 in I8. rewrite E1. lia.
  - (* reduce *)
    destruct (held_is _ _ _ _ _ _ _ E0 H0) as (A1 & A2 & A3 & A4). destruct (held_is _ _ _ _ _ _ _ E1 H1) as (B1 & B2 & B3 & B4).
    destruct (xsane_held _ _ _ _ _ _ _ Is E0 H0) as (HE & HG).
    pose proof (bought_exit _ _ He) as Hbe. rewrite A2 in I2. rewrite A2, A3 in I6.
    assert (HE0 : 0 < E) by lra. destruct (avg_price E G P HE0 HG I6) as (Hp1 & Hp2).
    pose proof (tolq_atol _ _ _ Hcl) as Hgap.
    assert (HGE : G * ((E - oqty r) / E) == G - oqty r * (G / E)) by (field; lra).
    assert (HFE : F * ((E - oqty r) / E) == F - oqty r / E * F) by (field; lra).
    exists (ts ++ [t]). split; [|right; exists t; auto].
    constructor; auto.
    + rewrite Eo, I0, app_assoc. reflexivity.
    + rewrite app_length, Nat.add_1_r. eapply near_keep; [auto|exact I1|].
      unfold ledger_position. rewrite total_snoc, A1, A2, B1, B2, Hbe. ring.
    + rewrite volume_snoc, Hb, B2. lra.
    + rewrite app_length, Nat.add_1_r. eapply near_keep; [auto|exact I3|].
      unfold gross_cash. rewrite total_snoc, tsum_snoc, (trade_gross_is _ _ _ _ _ _ _ _ _ _ _ _ _ Ht), A1, A3, B1, B3, HGE, Hbe. unfold oprice. ring.
    + unfold all_fees. rewrite total_snoc, tsum_snoc, (trade_fees_is _ _ _ _ _ _ _ _ _ _ _ _ _ Ht), B4, HFE. rewrite I4, A4. unfold all_fees, ofees. ring.
    + rewrite app_length, Nat.add_1_r. eapply near_keep; [auto|exact I5|].
      rewrite volume_snoc, tsum_snoc, Hb, (ti_size _ _ _ _ _ _ _ _ _ _ _ _ _ Ht), A2, B2. ring.
    + rewrite B3, B2.
      assert (X : (E - oqty r) * P == E * P * ((E - oqty r) / E)) by (field; lra). rewrite X.
      apply Qmult_le_compat_r; auto. apply Qdiv_nonneg; lra.
    + apply Forall_app. split; auto. constructor; auto. eapply trade_is_ok; [exact Ht| | |]; try (rewrite Qabs_pos); lra.
    + rewrite !app_length. cbn. unfold hcount in *. rewrite E0 in I8. rewrite E1. lia.
  - (* reverse *)
    destruct (held_is _ _ _ _ _ _ _ E0 H0) as (A1 & A2 & A3 & A4). destruct (held_is _ _ _ _ _ _ _ E1 H1) as (B1 & B2 & B3 & B4).
    destruct (xsane_held _ _ _ _ _ _ _ Is E0 H0) as (HE & HG).
    pose proof (bought_exit _ _ He) as Hbe. rewrite A2 in I2. rewrite A2, A3 in I6.
    assert (HE0 : 0 < E) by lra. destruct (avg_price E G P HE0 HG I6) as (Hp1 & Hp2).
    pose proof (tolq_atol _ _ _ Hcl) as Hgap. pose proof (flip_sign d) as Hfl.
    assert (HGE : E * (G / E) == G) by (field; lra).
    exists (ts ++ [t]). split; [|right; exists t; auto].
    constructor; auto.
    + rewrite Eo, I0, app_assoc. reflexivity.
    + rewrite app_length, Nat.add_1_r. eapply near_keep; [auto|exact I1|].
      unfold ledger_position. rewrite total_snoc, A1, A2, B1, B2, Hfl, Hbe. ring.
    + rewrite volume_snoc, Hb, B2. lra.
    + rewrite app_length, Nat.add_1_r. eapply near_keep; [auto|exact I3|].
      unfold gross_cash. rewrite total_snoc, tsum_snoc, (trade_gross_is _ _ _ _ _ _ _ _ _ _ _ _ _ Ht), A1, A3, B1, B3, HGE, Hfl, Hbe. unfold oprice. ring.
    + unfold all_fees. rewrite total_snoc, tsum_snoc, (trade_fees_is _ _ _ _ _ _ _ _ _ _ _ _ _ Ht), B4. rewrite I4, A4. unfold all_fees, ofees. ring.
    + rewrite app_length, Nat.add_1_r. eapply near_keep; [auto|exact I5|].
      rewrite volume_snoc, tsum_snoc, Hb, (ti_size _ _ _ _ _ _ _ _ _ _ _ _ _ Ht), A2, B2. ring.
    + rewrite B3, B2. apply Qmult_le_mono; lra.
    + apply Forall_app. split; auto. constructor; auto. eapply trade_is_ok; [exact Ht| | |]; try (rewrite Qabs_pos); lra.
    + rewrite !app_length. cbn. unfold hcount in *. rewrite E0 in I8. rewrite E1. lia.
Qed.
