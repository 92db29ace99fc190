(** * Lemmas about trades, in the form of the properties *)
From Coq Require Import ZArith QArith Qabs Qminmax Bool Lia Lqa List Setoid Morphisms Sorted.
From Verif Require Import Base Num MathNb TolSpec XQFacts OrderFacts Order Account AccountSpec OrderLemmas4
  Replay ReplaySpec ReplayLemmas ReplayLemmas2 ReplayLemmas4 GenericLemmas2 Trades TradesSpec TradesLemmas TradesLemmas2 TradesLemmas3 TradesLemmas4
  TradesLemmas5 TradesLemmas6 TradesLemmas7 TradesLemmas8 TradesLemmas9.
Import ListNotations.

Lemma history_input : forall P last recs, good_history P last recs -> good_input P last recs.
Proof. auto. Qed.

Lemma of_col_records : forall c (recs : list (OrderRec XQ)), column_records c recs = of_col c recs.
Proof. reflexivity. Qed.

Lemma entry_side_is : forall d (r : OrderRec XQ), is_entry d r = true -> or_side r = Some (entry_side d).
Proof. intros [] r; unfold is_entry; destruct (or_side r) as [[]|]; cbn; congruence. Qed.
Lemma exit_side_is : forall d (r : OrderRec XQ), is_exit d r = true -> or_side r = Some (exit_side d).
Proof. intros [] r; unfold is_exit; destruct (or_side r) as [[]|]; cbn; congruence. Qed.

Lemma sorted_of_pairs : forall A (f : A -> nat) l, (forall a r b r' d, l = a ++ r :: b ++ r' :: d -> (f r <= f r')%nat) -> StronglySorted le (map f l).
Proof.
  intros A f l. induction l as [|x l IH]; intros H; cbn; constructor.
  - apply IH. intros a r b r' d E. apply (H (x :: a) r b r' d). rewrite E. reflexivity.
  - apply Forall_forall. intros y Hy. apply in_map_iff in Hy as (z & <- & Hz). apply in_split in Hz as (b & d & ->). apply (H [] x b z d). reflexivity.
Qed.

Lemma pairs_of_sorted : forall A B (R : B -> B -> Prop) (f : A -> B) l, StronglySorted R (map f l) ->
  forall a t b u d, l = a ++ t :: b ++ u :: d -> R (f t) (f u).
Proof.
  intros A B R f l H a t b u d E. rewrite E, map_app in H. cbn in H. apply sorted_split in H as (_ & H). apply H.
  apply in_map. apply in_or_app; right; left; auto.
Qed.

Lemma ids_sorted : forall recs, ids_in_order recs -> ids_ascend recs.
Proof. intros recs H c. apply sorted_of_pairs. intros. eapply H; eauto. Qed.

Lemma cols_numbered : forall R B ncols par out, cols_inv R B ncols par out -> numbered ncols out.
Proof.
  intros R B ncols par out [I1 I2 I2' I3 I4 I5 I6 I7 I8]. rewrite Forall_forall in I2, I4. constructor; auto.
  - intros. eapply (pairs_of_sorted _ _ le tr_col); eauto.
  - intros. eapply (pairs_of_sorted _ _ Z.le tr_parent); eauto.
  - intros t k Ht Hk. apply I6. apply I4 in Ht. lia.
  - intros t Ht. apply I4 in Ht. lia.
  - intros t u Ht Hu E. destruct (I7 t u Ht Hu E) as (A & A' & _). auto.
Qed.

Lemma closed_spans : forall nrows os t, closed_by os t -> spans nrows os t /\ exists r, In r os /\ tr_exit_idx t = or_idx r /\ qty (tr_exit_price t) == qty (or_price r).
Proof.
  intros nrows os t (Hs & l1 & r & l2 & e & E & He & H1 & H2 & H3 & H4 & H5). unfold spans. rewrite Hs. split.
  - apply in_split in He as (a & b & ->). exists a, e, b, r, l2. rewrite E, <- app_assoc. cbn. repeat split; auto using entry_side_is, exit_side_is.
  - exists r. split; auto. rewrite E. apply in_or_app; right; left; auto.
Qed.

Lemma open_spans : forall nrows last os t, open_at nrows last os t -> spans nrows os t.
Proof.
  intros nrows last os t (Hs & Hx & e & He & H1 & H2). unfold spans. rewrite Hs. exists e. auto using entry_side_is.
Qed.

Lemma ended_spans : forall nrows os t, ended_by os t -> spans nrows os t /\ exists r, In r os /\ tr_entry_idx t = or_idx r /\ qty (tr_entry_price t) == qty (or_price r).
Proof.
  intros nrows os t (Hs & l1 & r & l2 & e & E & He & H1 & H2 & H3 & H4 & H5). unfold spans. rewrite Hs. split.
  - apply in_split in He as (a & b & ->). exists a, e, b, r, l2. rewrite E, <- app_assoc. cbn. repeat split; auto using entry_side_is, exit_side_is.
  - exists e. split; auto. rewrite E. apply in_or_app; left; auto.
Qed.

Lemma begun_spans : forall nrows os t, begun_by nrows os t -> spans nrows os t /\ exists r, In r os /\ tr_entry_idx t = or_idx r /\ qty (tr_entry_price t) == qty (or_price r).
Proof.
  intros nrows os t (Hs & Hx & e & He & H1 & H2 & H3). unfold spans. rewrite Hs. split; exists e; auto using entry_side_is.
Qed.

Lemma of_col_in : forall c (ts : list (TradeRec XQ)) t, In t (trades_of_col c ts) <-> In t ts /\ tr_col t = c.
Proof. intros. unfold trades_of_col. rewrite filter_In, Nat.eqb_eq. reflexivity. Qed.

Section Exit.
  Context (nrows ncols : nat) (P : Q) (last : nat -> Q) (recs : list (OrderRec XQ)) (xs : list (TradeRec XQ)).
  Hypothesis HG : good_history P last recs.
  Hypothesis HX : get_exit_trades_nb nrows ncols (fun c => Fin (last c)) recs = Ok xs.

  Lemma exit_cols : exists par, cols_inv same_entry (exit_col nrows P last recs) ncols par xs.
  Proof. eapply exit_trades_spec; eauto. Qed.

  Lemma exit_conserve : forall c, (c < ncols)%nat ->
    conserves_fees (of_col c recs) (trades_of_col c xs) /\ conserves_size (of_col c recs) (trades_of_col c xs) /\
    conserves_profit P (last c) (of_col c recs) (trades_of_col c xs).
  Proof.
    intros c Hc. destruct exit_cols as (par & H). destruct (ci_each _ _ _ _ _ H c Hc) as ([B1 B2 B3 B4 B5] & _).
    rewrite of_col_records in *. auto.
  Qed.

  Lemma exit_ok : forall c t, (c < ncols)%nat -> In t (trades_of_col c xs) -> trade_ok (volume (of_col c recs)) P t.
  Proof.
    intros c t Hc Ht. destruct exit_cols as (par & H). destruct (ci_each _ _ _ _ _ H c Hc) as ([B1 B2 B3 B4 B5] & _).
    rewrite Forall_forall in B4. apply B4. auto.
  Qed.

  Lemma exit_count : forall c, (c < ncols)%nat -> (length (trades_of_col c xs) <= length (of_col c recs))%nat.
  Proof.
    intros c Hc. destruct exit_cols as (par & H). destruct (ci_each _ _ _ _ _ H c Hc) as ([B1 B2 B3 B4 B5] & _). exact B5.
  Qed.

  Lemma exit_numbered : numbered ncols xs.
  Proof. destruct exit_cols as (par & H). eapply cols_numbered; eauto. Qed.

  Lemma exit_spans : forall t, In t xs -> spans nrows (of_col (tr_col t) recs) t.
  Proof.
    intros t Ht. destruct exit_cols as (par & H). pose proof (nu_cols _ _ exit_numbered t Ht) as Hc.
    destruct (ci_each _ _ _ _ _ H _ Hc) as (_ & B & _). rewrite Forall_forall in B. specialize (B t (proj2 (of_col_in _ _ _) (conj Ht eq_refl))).
    destruct B as [B|B]; [eapply closed_spans|eapply open_spans]; eauto.
  Qed.

  Lemma exit_prices : forall t, In t xs ->
    match tr_status t with
    | TClosed => exists r, In r (of_col (tr_col t) recs) /\ tr_exit_idx t = or_idx r /\ qty (tr_exit_price t) == qty (or_price r)
    | TOpen => qty (tr_exit_price t) == last (tr_col t) /\ qty (tr_exit_fees t) == 0
    end.
  Proof.
    intros t Ht. destruct exit_cols as (par & H). pose proof (nu_cols _ _ exit_numbered t Ht) as Hc.
    destruct (ci_each _ _ _ _ _ H _ Hc) as (_ & B & C). rewrite Forall_forall in B. 
    pose proof (proj2 (of_col_in _ _ _) (conj Ht eq_refl)) as Hin. specialize (B t Hin).
    destruct B as [B|B].
    - destruct B as (Hs & B'). rewrite Hs. destruct (closed_spans nrows _ t (conj Hs B')) as (_ & r & Q). exists r. exact Q.
    - destruct B as (Hs & _). rewrite Hs. apply in_split in Hin as (a & b & E). destruct (C a t b E Hs) as (_ & Q). exact Q.
  Qed.

  Lemma exit_open_last : forall c a t b, (c < ncols)%nat -> trades_of_col c xs = a ++ t :: b -> tr_status t = TOpen -> b = [].
  Proof.
    intros c a t b Hc E Hs. destruct exit_cols as (par & H). destruct (ci_each _ _ _ _ _ H c Hc) as (_ & _ & C). apply (C a t b E Hs).
  Qed.

  Lemma exit_same_entry : forall t u, In t xs -> In u xs -> tr_parent t = tr_parent u -> tr_entry_idx t = tr_entry_idx u.
  Proof. intros t u Ht Hu E. destruct exit_cols as (par & H). apply (ci_uni _ _ _ _ _ H t u Ht Hu E). Qed.
End Exit.

Section Entry.
  Context (nrows ncols : nat) (P : Q) (last : nat -> Q) (recs : list (OrderRec XQ)) (es : list (TradeRec XQ)).
  Hypothesis HG : good_history P last recs.
  Hypothesis HE : get_entry_trades_nb nrows ncols (fun c => Fin (last c)) recs = Ok es.

  Lemma entry_cols : exists par, cols_inv same_exit (entry_col nrows P last recs) ncols par es.
  Proof. eapply entry_trades_spec; eauto. Qed.

  Lemma entry_conserve : forall c, (c < ncols)%nat ->
    conserves_fees (of_col c recs) (trades_of_col c es) /\ conserves_size (of_col c recs) (trades_of_col c es) /\
    conserves_profit P (last c) (of_col c recs) (trades_of_col c es).
  Proof.
    intros c Hc. destruct entry_cols as (par & H). destruct (ci_each _ _ _ _ _ H c Hc) as ([B1 B2 B3 B4 B5] & _).
    rewrite of_col_records in *. auto.
  Qed.

  Lemma entry_ok : forall c t, (c < ncols)%nat -> In t (trades_of_col c es) -> trade_ok (volume (of_col c recs)) P t.
  Proof.
    intros c t Hc Ht. destruct entry_cols as (par & H). destruct (ci_each _ _ _ _ _ H c Hc) as ([B1 B2 B3 B4 B5] & _).
    rewrite Forall_forall in B4. apply B4. auto.
  Qed.

  Lemma entry_count : forall c, (c < ncols)%nat -> (length (trades_of_col c es) <= length (of_col c recs))%nat.
  Proof.
    intros c Hc. destruct entry_cols as (par & H). destruct (ci_each _ _ _ _ _ H c Hc) as ([B1 B2 B3 B4 B5] & _). exact B5.
  Qed.

  Lemma entry_numbered : numbered ncols es.
  Proof. destruct entry_cols as (par & H). eapply cols_numbered; eauto. Qed.

  Lemma entry_spans : forall t, In t es -> spans nrows (of_col (tr_col t) recs) t /\
    exists r, In r (of_col (tr_col t) recs) /\ tr_entry_idx t = or_idx r /\ qty (tr_entry_price t) == qty (or_price r).
  Proof.
    intros t Ht. destruct entry_cols as (par & H). pose proof (nu_cols _ _ entry_numbered t Ht) as Hc.
    destruct (ci_each _ _ _ _ _ H _ Hc) as (_ & B). rewrite Forall_forall in B. specialize (B t (proj2 (of_col_in _ _ _) (conj Ht eq_refl))).
    destruct B as [B|B]; [eapply ended_spans|eapply begun_spans]; eauto.
  Qed.

  Lemma entry_same_exit : forall t u, In t es -> In u es -> tr_parent t = tr_parent u -> tr_exit_idx t = tr_exit_idx u /\ tr_status t = tr_status u.
  Proof. intros t u Ht Hu E. destruct entry_cols as (par & H). apply (ci_uni _ _ _ _ _ H t u Ht Hu E). Qed.
End Entry.

(** Both kinds *)
Lemma spans_bars : forall nrows recs t, bars_in_order nrows recs -> spans nrows (of_col (tr_col t) recs) t ->
  (tr_entry_idx t <= tr_exit_idx t < nrows)%nat.
Proof.
  intros nrows recs t (H1 & H2) Hs. unfold spans in Hs. 
  assert (Hin : forall r, In r (of_col (tr_col t) recs) -> (or_idx r < nrows)%nat) by (intros r Hr; apply filter_In in Hr as (Hr & _); auto).
  destruct (tr_status t).
  - destruct Hs as (e & He & E1 & _ & E2). apply Hin in He. lia.
  - destruct Hs as (a & e & b & r & d & E & E1 & _ & E2 & _). specialize (H2 _ _ _ _ _ _ E).
    assert (Hr : In r (of_col (tr_col t) recs)) by (rewrite E; apply in_or_app; right; right; apply in_or_app; right; left; auto).
    apply Hin in Hr. lia.
Qed.

Lemma profit_total : forall P last c recs ts p, Forall proper (of_col c recs) -> conserves_profit P last (of_col c recs) ts ->
  total_profit_nb (Fin last) recs c = Ok p ->
  exists q, p = Fin q /\ Qabs (tsum (fun t => qty (tr_pnl t)) ts - q) <=
    inject_Z (Z.of_nat (2 * length (of_col c recs))) * (slack (volume (of_col c recs)) * P) +
    inject_Z (Z.of_nat (length (of_col c recs))) * slack (2 * (volume (of_col c recs) * P)) +
    inject_Z (Z.of_nat (length (of_col c recs))) * slack (turnover (of_col c recs)) +
    Qabs last * (inject_Z (Z.of_nat (length (of_col c recs))) * slack (volume (of_col c recs))).
Proof.
  intros P last c recs ts p Hp Hc Ht. destruct (total_profit_ledger recs c last p Hp Ht) as (q & a & m & E & Eq & Wa & Wm).
  exists q. split; auto. unfold conserves_profit, within in *. rewrite Eq.
  set (S := tsum (fun t => qty (tr_pnl t)) ts) in *. set (os := of_col c recs) in *.
  assert (Ed : S - (m + a * last) == (S - (ledger_cash os + ledger_position os * last)) + - (m - ledger_cash os) + - (last * (a - ledger_position os))) by ring.
  rewrite Ed. eapply Qle_trans; [apply Qabs_triangle|]. 
  assert (T1 : Qabs (S - (ledger_cash os + ledger_position os * last) + - (m - ledger_cash os)) <= Qabs (S - (ledger_cash os + ledger_position os * last)) + Qabs (m - ledger_cash os)).
  { eapply Qle_trans; [apply Qabs_triangle|]. rewrite Qabs_opp. lra. }
  rewrite Qabs_opp, Qabs_Qmult.
  assert (T2 : Qabs last * Qabs (a - ledger_position os) <= Qabs last * (inject_Z (Z.of_nat (length os)) * slack (volume os))) by (apply Qmult_le_mono; auto using Qabs_nonneg; lra).
  lra.
Qed.

(** ** Positions *)
Lemma trade_sound : forall V P t, trade_ok V P t -> sound t.
Proof. intros V P t (H1 & H2 & H3 & _ & _ & H4). unfold sound. intuition. Qed.

Lemma sound_all : forall nrows ncols P last recs ts,
  good_history P last recs ->
  get_exit_trades_nb nrows ncols (fun c => Fin (last c)) recs = Ok ts \/ get_entry_trades_nb nrows ncols (fun c => Fin (last c)) recs = Ok ts ->
  Forall sound ts.
Proof.
  intros nrows ncols P last recs ts HG H. apply Forall_forall. intros t Ht. destruct H as [H|H].
  - pose proof (nu_cols _ _ (exit_numbered nrows ncols P last recs ts HG H) t Ht) as Hc.
    eapply trade_sound. eapply (exit_ok nrows ncols P last recs ts HG H _ t Hc). apply of_col_in. auto.
  - pose proof (nu_cols _ _ (entry_numbered nrows ncols P last recs ts HG H) t Ht) as Hc.
    eapply trade_sound. eapply (entry_ok nrows ncols P last recs ts HG H _ t Hc). apply of_col_in. auto.
Qed.

Lemma positions_of : forall nrows ncols P last recs ts, good_history P last recs ->
  get_exit_trades_nb nrows ncols (fun c => Fin (last c)) recs = Ok ts \/ get_entry_trades_nb nrows ncols (fun c => Fin (last c)) recs = Ok ts ->
  exists ps, get_positions_nb ncols ts = Ok ps /\
    (forall t, In t ts -> (tr_parent t < Z.of_nat (length ps))%Z) /\
    (forall j p, nth_error ps j = Some p -> tr_id p = j /\ tr_parent p = Z.of_nat j /\ position_sums (trades_of_pos (Z.of_nat j) ts) p).
Proof.
  intros nrows ncols P last recs ts HG H. pose proof (sound_all _ _ _ _ _ _ HG H) as HS.
  assert (K : exists ps par, get_positions_nb ncols ts = Ok ps /\ Z.of_nat (length ps) = (par + 1)%Z /\ Forall (fun t => (-1 < tr_parent t <= par)%Z) ts /\
    forall j, (j < length ps)%nat -> exists p, nth_error ps j = Some p /\ trades_of_pos (Z.of_nat j) ts <> [] /\ position_rec j (trades_of_pos (Z.of_nat j) ts) = Ok p).
  { destruct H as [H|H].
    - destruct (exit_cols nrows ncols P last recs ts HG H) as (par & HI). destruct (positions_spec _ _ _ _ _ HI HS) as (ps & A & B & C). exists ps, par. split; auto. split; auto. split; auto. apply (ci_range _ _ _ _ _ HI).
    - destruct (entry_cols nrows ncols P last recs ts HG H) as (par & HI). destruct (positions_spec _ _ _ _ _ HI HS) as (ps & A & B & C). exists ps, par. split; auto. split; auto. split; auto. apply (ci_range _ _ _ _ _ HI). }
  destruct K as (ps & par & A & B & C & D). exists ps. split; auto. split.
  - intros t Ht. rewrite Forall_forall in C. apply C in Ht. lia.
  - intros j p Hj. assert (Hlt : (j < length ps)%nat) by (apply nth_error_Some; congruence).
    destruct (D j Hlt) as (p' & E1 & E2 & E3). rewrite E1 in Hj. injection Hj as <-.
    destruct (position_rec_spec j _ E2) as (p'' & F1 & F2 & F3 & F4 & _).
    { apply Forall_forall. intros t Ht. unfold trades_of_pos in Ht. apply filter_In in Ht as (Ht & _). rewrite Forall_forall in HS. auto. }
    rewrite E3 in F1. injection F1 as <-. auto.
Qed.

(** The profit of a position is what its trades add up to. *)
Lemma position_pnl : forall j V P g p, g <> [] -> Forall (trade_ok V P) g -> (forall t u, In t g -> In u g -> tr_dir t = tr_dir u) -> position_rec j g = Ok p -> 0 <= P ->
  Qabs (qty (tr_pnl p) - tsum (fun t => qty (tr_pnl t)) g) <=
    slack (2 * (tsum (fun t => qty (tr_size t)) g * P)) + inject_Z (Z.of_nat (length g)) * slack (2 * (V * P)).
Proof.
  intros j V P g p Hn Hok Hd Hp HP.
  assert (Hs : Forall sound g) by (eapply Forall_impl; [|exact Hok]; intros; eapply trade_sound; eauto).
  destruct (position_rec_spec j g Hn Hs) as (p' & E & [Q1 Q2 Q3 Q4 Q5 Q6 Q7 Q8] & _ & _ & Hpnl). rewrite E in Hp. injection Hp as <-.
  pose proof (slack_pos (2 * (tsum (fun t => qty (tr_size t)) g * P))) as S1. pose proof (slack_pos (2 * (V * P))) as S2.
  destruct Hpnl as [H1|Hpnl].
  - destruct g as [|t [|? ?]]; try discriminate. cbn in E. injection E as <-. cbn [copy_trade_record_nb tr_pnl tsum] in S1 |- *.
    assert (Z0 : qty (tr_pnl t) - (qty (tr_pnl t) + 0) == 0) by ring. rewrite Z0. change (Qabs 0) with 0.
    assert (0 <= inject_Z (Z.of_nat (length [t])) * slack (2 * (V * P))) by (apply Qmult_le_0_compat; [discriminate|lra]). lra.
  - pose proof (pnl_sum V P g Hok) as Hsum. unfold near in Hsum.
    assert (Hg : tsum trade_gross g == dir_sign (tr_dir p') * (tsum (fun t => qty (tr_size t) * qty (tr_exit_price t)) g - tsum (fun t => qty (tr_size t) * qty (tr_entry_price t)) g)).
    { destruct Q8 as (t0 & l & tn & G1 & G2 & _ & _ & _ & G3 & _).
      assert (Hdir : Forall (fun t => tr_dir t = tr_dir p') g).
      { apply Forall_forall. intros t Ht. rewrite G3. apply Hd; auto. rewrite G2. apply last_in; auto. }
      clear - Hdir. induction Hdir as [|t g Ht H IH]; cbn [tsum]; [ring|]. rewrite IH. unfold trade_gross. rewrite Ht. ring. }
    assert (Hf : tsum trade_fees g == trade_fees p').
    { unfold trade_fees at 2. rewrite Q5, Q6. clear. induction g as [|t g IH]; cbn [tsum]; [ring|]. rewrite IH. unfold trade_fees. ring. }
    rewrite <- Q4, <- Q3 in Hg. rewrite Hg, Hf in Hsum.
    set (pn := qty (tr_pnl p')) in *. set (sg := dir_sign (tr_dir p') * (qty (tr_size p') * qty (tr_exit_price p') - qty (tr_size p') * qty (tr_entry_price p')) - trade_fees p') in *.
    set (Sp := tsum (fun t => qty (tr_pnl t)) g) in *.
    assert (Ed : pn - Sp == (pn - sg) + - (Sp - sg)) by ring. rewrite Ed.
    eapply Qle_trans; [apply Qabs_triangle|]. rewrite Qabs_opp.
    assert (Ht : tolq (qty (tr_size p') * qty (tr_exit_price p')) (qty (tr_size p') * qty (tr_entry_price p')) <= slack (2 * (tsum (fun t => qty (tr_size t)) g * P))).
    { apply tolq_slack; [rewrite Q4|rewrite Q3]; clear - Hok HP.
      - induction Hok as [|t g (_ & A & _ & B & _) H IH]; cbn [tsum]; [change (Qabs 0) with 0; lra|].
        eapply Qle_trans; [apply Qabs_triangle|]. rewrite Qabs_Qmult, (Qabs_pos (qty (tr_size t))) by lra.
        assert (Hm : qty (tr_size t) * Qabs (qty (tr_exit_price t)) <= qty (tr_size t) * (2 * P)) by (apply Qmult_le_mono; auto using Qabs_nonneg; lra).
        assert (E1 : 2 * ((qty (tr_size t) + tsum (fun t => qty (tr_size t)) g) * P) == qty (tr_size t) * (2 * P) + 2 * (tsum (fun t => qty (tr_size t)) g * P)) by ring.
        rewrite E1. lra.
      - induction Hok as [|t g (_ & A & B & _) H IH]; cbn [tsum]; [change (Qabs 0) with 0; lra|].
        eapply Qle_trans; [apply Qabs_triangle|]. rewrite Qabs_Qmult, (Qabs_pos (qty (tr_size t))), (Qabs_pos (qty (tr_entry_price t))) by lra.
        assert (Hm : qty (tr_size t) * qty (tr_entry_price t) <= qty (tr_size t) * (2 * P)) by (apply Qmult_le_mono; lra).
        assert (E1 : 2 * ((qty (tr_size t) + tsum (fun t => qty (tr_size t)) g) * P) == qty (tr_size t) * (2 * P) + 2 * (tsum (fun t => qty (tr_size t)) g * P)) by ring.
        rewrite E1. lra. }
    lra.
Qed.

Lemma position_profit : forall nrows ncols P last recs ts ps j p, good_history P last recs ->
  get_exit_trades_nb nrows ncols (fun c => Fin (last c)) recs = Ok ts \/ get_entry_trades_nb nrows ncols (fun c => Fin (last c)) recs = Ok ts ->
  get_positions_nb ncols ts = Ok ps -> nth_error ps j = Some p ->
  Qabs (qty (tr_pnl p) - tsum (fun t => qty (tr_pnl t)) (trades_of_pos (Z.of_nat j) ts)) <=
    slack (2 * (tsum (fun t => qty (tr_size t)) (trades_of_pos (Z.of_nat j) ts) * P)) +
    inject_Z (Z.of_nat (length (trades_of_pos (Z.of_nat j) ts))) * slack (2 * (volume (of_col (tr_col p) recs) * P)).
Proof.
  intros nrows ncols P last recs ts ps j p HG H Hps Hj. pose proof (sound_all _ _ _ _ _ _ HG H) as HS.
  assert (Hnum : numbered ncols ts) by (destruct H; [eapply exit_numbered|eapply entry_numbered]; eauto).
  assert (Hoks : forall t, In t ts -> trade_ok (volume (of_col (tr_col t) recs)) P t).
  { intros t Ht. pose proof (nu_cols _ _ Hnum t Ht) as Hc. destruct H as [H|H]; [eapply exit_ok|eapply entry_ok]; eauto; apply of_col_in; auto. }
  assert (K : exists ps, get_positions_nb ncols ts = Ok ps /\ 
    forall j, (j < length ps)%nat -> exists p, nth_error ps j = Some p /\ trades_of_pos (Z.of_nat j) ts <> [] /\ position_rec j (trades_of_pos (Z.of_nat j) ts) = Ok p).
  { destruct H as [H|H].
    - destruct (exit_cols nrows ncols P last recs ts HG H) as (par & HI). destruct (positions_spec _ _ _ _ _ HI HS) as (ps' & A & B & C). exists ps'. auto.
    - destruct (entry_cols nrows ncols P last recs ts HG H) as (par & HI). destruct (positions_spec _ _ _ _ _ HI HS) as (ps' & A & B & C). exists ps'. auto. }
  destruct K as (ps' & A & D). rewrite Hps in A. injection A as <-.
  assert (Hlt : (j < length ps)%nat) by (apply nth_error_Some; congruence).
  destruct (D j Hlt) as (p' & E1 & E2 & E3). rewrite E1 in Hj. injection Hj as <-.
  assert (Hin : forall t, In t (trades_of_pos (Z.of_nat j) ts) -> In t ts /\ tr_parent t = Z.of_nat j).
  { intros t Ht. unfold trades_of_pos in Ht. apply filter_In in Ht as (Ht & Hq). apply Z.eqb_eq in Hq. auto. }
  assert (Hsj : Forall sound (trades_of_pos (Z.of_nat j) ts)) by (apply Forall_forall; intros t Ht; rewrite Forall_forall in HS; apply HS; apply Hin; auto).
  destruct (position_rec_spec j _ E2 Hsj) as (p'' & F1 & [_ _ _ _ _ _ _ (t0 & l & tn & G1 & G2 & G3 & _)] & _). rewrite E3 in F1. injection F1 as <-.
  assert (Ht0 : In t0 (trades_of_pos (Z.of_nat j) ts)) by (rewrite G1; left; auto).
  destruct (Hin t0 Ht0) as (Hi0 & Hp0).
  apply (position_pnl j); auto.
  - apply Forall_forall. intros t Ht. destruct (Hin t Ht) as (Hi & Hpp).
    destruct (nu_same _ _ Hnum t t0 Hi Hi0) as (_ & Hcc); [congruence|]. rewrite G3, <- Hcc. auto.
  - intros t u Ht Hu. destruct (Hin t Ht) as (Hi & Hpp). destruct (Hin u Hu) as (Hi' & Hpp'). apply (nu_same _ _ Hnum t u Hi Hi'). congruence.
  - destruct HG as (_ & _ & HL). pose proof (Qabs_nonneg (last 0%nat)). specialize (HL 0%nat). lra.
Qed.

(** Totals of the two splits *)
Lemma totals_agree : forall nrows ncols P last recs xs es c, good_history P last recs ->
  get_exit_trades_nb nrows ncols (fun c => Fin (last c)) recs = Ok xs -> get_entry_trades_nb nrows ncols (fun c => Fin (last c)) recs = Ok es ->
  (c < ncols)%nat ->
  tsum trade_fees (trades_of_col c xs) == tsum trade_fees (trades_of_col c es) /\
  within (2 * length (of_col c recs)) (volume (of_col c recs)) (tsum (fun t => qty (tr_size t)) (trades_of_col c xs)) (tsum (fun t => qty (tr_size t)) (trades_of_col c es)) /\
  Qabs (tsum (fun t => qty (tr_pnl t)) (trades_of_col c xs) - tsum (fun t => qty (tr_pnl t)) (trades_of_col c es)) <=
    inject_Z (Z.of_nat (4 * length (of_col c recs))) * (slack (volume (of_col c recs)) * P) +
    inject_Z (Z.of_nat (2 * length (of_col c recs))) * slack (2 * (volume (of_col c recs) * P)).
Proof.
  intros nrows ncols P last recs xs es c HG HX HE Hc.
  destruct (exit_conserve nrows ncols P last recs xs HG HX c Hc) as (A1 & A2 & A3).
  destruct (entry_conserve nrows ncols P last recs es HG HE c Hc) as (B1 & B2 & B3).
  set (os := of_col c recs) in *. set (n := length os) in *.
  split; [unfold conserves_fees in *; rewrite A1, B1; reflexivity|]. split.
  - unfold conserves_size, within in *.
    set (a := tsum (fun t => qty (tr_size t)) (trades_of_col c xs)) in *. set (b := tsum (fun t => qty (tr_size t)) (trades_of_col c es)) in *.
    set (v := volume os + Qabs (ledger_position os)) in *. fold n in A2, B2. set (K := inject_Z (Z.of_nat (2 * n)) * slack (volume os)) in *.
    apply Qabs_Qle_condition in A2. apply Qabs_Qle_condition in B2. apply Qabs_Qle_condition. lra.
  - unfold conserves_profit in *.
    set (a := tsum (fun t => qty (tr_pnl t)) (trades_of_col c xs)) in *. set (b := tsum (fun t => qty (tr_pnl t)) (trades_of_col c es)) in *.
    fold n in A3, B3. set (v := ledger_cash os + ledger_position os * last c) in *.
    assert (H4 : inject_Z (Z.of_nat (4 * n)) == inject_Z (Z.of_nat (2 * n)) + inject_Z (Z.of_nat (2 * n))).
    { rewrite <- inject_Z_plus, <- Nat2Z.inj_add. replace (2 * n + 2 * n)%nat with (4 * n)%nat by lia. reflexivity. }
    assert (H2 : inject_Z (Z.of_nat (2 * n)) == inject_Z (Z.of_nat n) + inject_Z (Z.of_nat n)).
    { rewrite <- inject_Z_plus, <- Nat2Z.inj_add. replace (n + n)%nat with (2 * n)%nat by lia. reflexivity. }
    assert (E : a - b == (a - v) + - (b - v)) by ring. rewrite E. eapply Qle_trans; [apply Qabs_triangle|]. rewrite Qabs_opp.
    set (S1 := slack (volume os) * P) in *. set (S2 := slack (2 * (volume os * P))) in *.
    rewrite H4. rewrite (Qmult_plus_distr_l _ _ S1).
    assert (E2 : inject_Z (Z.of_nat (2 * n)) * S2 == inject_Z (Z.of_nat n) * S2 + inject_Z (Z.of_nat n) * S2) by (rewrite H2; ring).
    rewrite E2. lra.
Qed.

Lemma per_position_agree : forall nrows ncols P last recs xs es, good_history P last recs -> (forall c, clear_of_tolerance (of_col c recs)) ->
  get_exit_trades_nb nrows ncols (fun c => Fin (last c)) recs = Ok xs -> get_entry_trades_nb nrows ncols (fun c => Fin (last c)) recs = Ok es ->
  forall t, In t xs \/ In t es -> same_position (trades_of_pos (tr_parent t) xs) (trades_of_pos (tr_parent t) es).
Proof.
  intros nrows ncols P last recs xs es (Hg & _) Hc HX HE t Ht.
  destruct (trades_agree nrows ncols last recs xs es Hg Hc HX HE) as (par & [B1 B2 B3 B4]). apply B4.
  rewrite Forall_forall in B1, B2. destruct Ht; auto.
Qed.

(** Positions merged from either kind are the same. *)
Lemma positions_agree : forall nrows ncols P last recs xs es, good_history P last recs -> (forall c, clear_of_tolerance (of_col c recs)) ->
  get_exit_trades_nb nrows ncols (fun c => Fin (last c)) recs = Ok xs -> get_entry_trades_nb nrows ncols (fun c => Fin (last c)) recs = Ok es ->
  exists px pe, get_positions_nb ncols xs = Ok px /\ get_positions_nb ncols es = Ok pe /\ length px = length pe /\
    forall j p q, nth_error px j = Some p -> nth_error pe j = Some q ->
      tr_id p = tr_id q /\ tr_entry_idx p = tr_entry_idx q /\ tr_exit_idx p = tr_exit_idx q /\ tr_dir p = tr_dir q /\ tr_status p = tr_status q /\
      qty (tr_size p) == qty (tr_size q) /\ qty (tr_entry_price p) == qty (tr_entry_price q) /\ qty (tr_exit_price p) == qty (tr_exit_price q) /\
      qty (tr_entry_fees p) == qty (tr_entry_fees q) /\ qty (tr_exit_fees p) == qty (tr_exit_fees q).
Proof.
  intros nrows ncols P last recs xs es HG Hc HX HE.
  destruct (positions_of nrows ncols P last recs xs HG (or_introl HX)) as (px & A1 & A2 & A3).
  destruct (positions_of nrows ncols P last recs es HG (or_intror HE)) as (pe & B1 & B2 & B3).
  exists px, pe. split; auto. split; auto.
  assert (Hsame : forall j, (j < length px)%nat \/ (j < length pe)%nat -> same_position (trades_of_pos (Z.of_nat j) xs) (trades_of_pos (Z.of_nat j) es)).
  { intros j [Hj|Hj].
    - destruct (nth_error px j) as [p|] eqn:E; [|apply nth_error_None in E; lia]. destruct (A3 j p E) as (_ & _ & [_ _ _ _ _ _ _ (t0 & l & tn & G1 & _)]).
      assert (Ht : In t0 (trades_of_pos (Z.of_nat j) xs)) by (rewrite G1; left; auto). unfold trades_of_pos in Ht. apply filter_In in Ht as (Ht & Hq). apply Z.eqb_eq in Hq.
      rewrite <- Hq. eapply per_position_agree; eauto.
    - destruct (nth_error pe j) as [p|] eqn:E; [|apply nth_error_None in E; lia]. destruct (B3 j p E) as (_ & _ & [_ _ _ _ _ _ _ (t0 & l & tn & G1 & _)]).
      assert (Ht : In t0 (trades_of_pos (Z.of_nat j) es)) by (rewrite G1; left; auto). unfold trades_of_pos in Ht. apply filter_In in Ht as (Ht & Hq). apply Z.eqb_eq in Hq.
      rewrite <- Hq. eapply per_position_agree; eauto. }
  assert (Hne : forall k (ts : list (TradeRec XQ)), trades_of_pos k ts <> [] -> exists t, In t ts /\ tr_parent t = k).
  { intros k ts H. destruct (trades_of_pos k ts) as [|t l] eqn:E; [congruence|]. assert (Ht : In t (trades_of_pos k ts)) by (rewrite E; left; auto).
    unfold trades_of_pos in Ht. apply filter_In in Ht as (Ht & Hq). apply Z.eqb_eq in Hq. eauto. }
  split.
  - destruct (Nat.lt_trichotomy (length px) (length pe)) as [Hl|[Hl|Hl]]; auto; exfalso.
    + destruct (Hsame (length px) (or_intror Hl)) as [_ _ _ _ _ (t0 & l & u0 & m & G1 & G2 & _)].
      destruct (Hne (Z.of_nat (length px)) xs) as (t & Ht & Et); [rewrite G1; discriminate|]. apply A2 in Ht. lia.
    + destruct (Hsame (length pe) (or_introl Hl)) as [_ _ _ _ _ (t0 & l & u0 & m & G1 & G2 & _)].
      destruct (Hne (Z.of_nat (length pe)) es) as (t & Ht & Et); [rewrite G2; discriminate|]. apply B2 in Ht. lia.
  - intros j p q Hp Hq. assert (Hj : (j < length px)%nat) by (apply nth_error_Some; congruence).
    destruct (Hsame j (or_introl Hj)) as [S1 S2 S3 S4 S5 (t0 & l & u0 & m & G1 & G2 & G3 & G4 & G5 & G6)].
    destruct (A3 j p Hp) as (I1 & _ & [P1 P2 P3 P4 P5 P6 P7 (t0' & l' & tn & M1 & M2 & M3 & M4 & M5 & M6 & M7)]).
    destruct (B3 j q Hq) as (J1 & _ & [Q1 Q2 Q3 Q4 Q5 Q6 Q7 (u0' & m' & un & N1 & N2 & N3 & N4 & N5 & N6 & N7)]).
    rewrite G1 in M1. injection M1 as <- <-. rewrite G2 in N1. injection N1 as <- <-. subst tn un.
    assert (Hsz : qty (tr_size p) == qty (tr_size q)) by (rewrite P2, Q2; auto).
    assert (Hpos : 0 < qty (tr_size q)).
    { rewrite Q2. apply tsum_pos; [rewrite G2; discriminate|]. apply Forall_forall. intros t Ht.
      pose proof (sound_all nrows ncols P last recs es HG (or_intror HE)) as HS. rewrite Forall_forall in HS. apply HS.
      unfold trades_of_pos in Ht. apply filter_In in Ht as (Ht & _). auto. }
    split; [congruence|]. split; [congruence|]. split; [congruence|]. split; [congruence|]. split; [congruence|].
    split; auto. split; [|split; [|split]].
    + apply (Qmult_inj_l _ _ (qty (tr_size q))); [lra|]. rewrite <- Hsz at 1. rewrite P3, Q3. auto.
    + apply (Qmult_inj_l _ _ (qty (tr_size q))); [lra|]. rewrite <- Hsz at 1. rewrite P4, Q4. auto.
    + rewrite P5, Q5. auto.
    + rewrite P6, Q6. auto.
Qed.

(** ** The open remainder *)
Lemma exit_column_open : forall nrows last recs x e x' e' c, Forall good_order recs -> clear_of_tolerance (column_records c recs) ->
  xs_parent x = es_parent e ->
  exit_column nrows (fun c => Fin (last c)) recs x c = Ok x' -> entry_column nrows (fun c => Fin (last c)) recs e c = Ok e' ->
  exists ts, xs_out x' = xs_out x ++ ts /\ Forall (fun t => tr_col t = c) ts /\ open_remainder (column_records c recs) ts.
Proof.
  intros nrows last recs x e x' e' c Hg Hc Hp Fx Fe. unfold exit_column in Fx. unfold entry_column in Fe.
  assert (Hgc : Forall good_order (column_records c recs)).
  { rewrite Forall_forall in *. intros r Hr. unfold column_records in Hr. apply filter_In in Hr as (Hr & _). auto. }
  destruct (column_records c recs) as [|r0 l] eqn:Ec.
  - injection Fx as <-. exists []. rewrite app_nil_r. split; auto. split; auto. split; auto. intros H. exfalso. apply H. reflexivity.
  - rewrite <- Ec in *. apply bind_ok in Fx as (x1 & X1 & X2). apply bind_ok in Fe as (e1 & Y1 & Y2).
    set (x0 := mkXState (-1) None (xs_parent x) (xs_tidx x) (xs_out x)) in *.
    set (e0 := mkEState (-1) None (es_parent e) (es_tidx e) (es_trades e)) in *.
    destruct (lk_fold (xs_parent x) c (xs_tidx x) (es_tidx e) (xs_out x) (es_trades e) (column_records c recs) [] x0 e0 [] [] x1 e1)
      as (xts & ets & Q1 & Q2 & Q3 & Q4 & Q5 & Q6 & Q7); auto; try (cbn; rewrite ?app_nil_r; auto; fail).
    { apply (xstr_nil c x0). reflexivity. }
    { rewrite Hp. apply (estr_nil c e0). reflexivity. }
    { constructor; auto.
      - cbn. discriminate.
      - unfold hsize, eE, eX, eget. cbn. ring.
      - unfold ledger_position, hsize. cbn. ring.
      - unfold eE, eget, volume. cbn. lra.
      - cbn. discriminate.
      - intros k Hk. exfalso. cbn in Hk. lia. }
    cbn [app] in *. pose proof (lk_ledger _ _ _ _ _ _ Q7) as HL.
    assert (Hcl : Forall (fun t => tr_status t = TClosed) xts) by (eapply Forall_impl; [|exact (xt_closed _ _ _ _ _ _ Q3)]; intros t Ht; apply Ht).
    pose proof (xt_cols _ _ _ _ _ _ Q3) as Hcols.
    unfold exit_finish in X2. destruct (xs_pos x1) as [p|] eqn:E0.
    + assert (Hxs' := Q1). unfold xsane in Hxs'. rewrite E0 in Hxs'. destruct Hxs' as (ei & d & E & G & F & H0 & HEp & HGp).
      destruct (held_is _ _ _ _ _ _ _ E0 H0) as (A1 & A2 & A3 & A4).
      pose proof H0 as [_ _ (q0 & He0 & Ee0) _ _]. rewrite He0 in X2. rewrite is_less_neg in X2 by lra.
      change zero with (Fin 0) in X2.
      destruct (exit_trade_spec (xs_tidx x1) c p ei d E G F q0 (nrows - 1) (last c) 0 TOpen (xs_parent x1) H0) as (t & Et & Ht); try lra.
      rewrite Et in X2. cbn [bind] in X2. injection X2 as <-. cbn [xs_out].
      exists (xts ++ [t]). rewrite Q5, app_assoc. split; auto. split.
      { apply Forall_app. split; auto. constructor; auto. apply Ht. }
      rewrite A1, A2 in HL. split.
      * intros Hz. exfalso. rewrite Hz in HL. destruct d; cbn [dir_sign] in HL; lra.
      * intros _. exists xts, t. split; auto. split; auto.
        destruct Ht. split; [congruence|].
        match goal with H : tr_dir t = _ |- _ => rewrite H end.
        assert (Hq : qty (tr_size t) == q0) by (repeat match goal with H : exists _, tr_size t = _ /\ _ |- _ => destruct H as (? & -> & ?) end; cbn; auto).
        rewrite Hq, HL, Ee0. reflexivity.
    + injection X2 as <-. exists xts. split; auto. split; auto. split; auto.
      intros Hz. exfalso. apply Hz. rewrite HL. unfold hsize, hsign. rewrite E0. reflexivity.
Qed.

Lemma exit_remainder : forall nrows ncols last recs xs es c, Forall good_order recs -> (forall c, clear_of_tolerance (of_col c recs)) ->
  get_exit_trades_nb nrows ncols (fun c => Fin (last c)) recs = Ok xs -> get_entry_trades_nb nrows ncols (fun c => Fin (last c)) recs = Ok es ->
  (c < ncols)%nat -> open_remainder (of_col c recs) (trades_of_col c xs).
Proof.
  intros nrows ncols last recs xs es c Hg Hc Hx He Hlt. unfold get_exit_trades_nb in Hx. unfold get_entry_trades_nb in He.
  apply bind_ok in Hx as (x & Fx & Ex). apply bind_ok in He as (e & Fe & Ee). injection Ex as <-. injection Ee as <-.
  assert (G : forall n k x0 e0, xs_parent x0 = es_parent e0 -> both (xs_parent x0) (xs_out x0) (es_trades e0) ->
    Forall (fun t => (tr_col t < k)%nat) (xs_out x0) -> (forall j, (j < k)%nat -> open_remainder (of_col j recs) (trades_of_col j (xs_out x0))) ->
    foldM (exit_column nrows (fun c => Fin (last c)) recs) x0 (seq k n) = Ok x -> foldM (entry_column nrows (fun c => Fin (last c)) recs) e0 (seq k n) = Ok e ->
    forall j, (j < k + n)%nat -> open_remainder (of_col j recs) (trades_of_col j (xs_out x))).
  { induction n as [|n IH]; intros k x0 e0 Hp HB Hk Hj G1 G2 j Hjk; cbn [foldM seq] in G1, G2.
    - injection G1 as <-. apply Hj. lia.
    - apply bind_ok in G1 as (x1 & A1 & A2). apply bind_ok in G2 as (e1 & B1 & B2).
      destruct (column_both nrows last recs x0 e0 x1 e1 k) as (Hp1 & HB1); auto.
      destruct (exit_column_open nrows last recs x0 e0 x1 e1 k) as (ts & T1 & T2 & T3); auto.
      apply (IH (S k) x1 e1); auto; [| |lia].
      + rewrite T1. apply Forall_app. split; [eapply Forall_impl; [|exact Hk]|eapply Forall_impl; [|exact T2]]; cbn; intros; lia.
      + intros i Hi. rewrite T1. unfold trades_of_col. rewrite filter_app. destruct (Nat.eq_dec i k) as [->|Hne].
        * assert (Z1 : filter (fun t => Nat.eqb (tr_col t) k) (xs_out x0) = []).
          { clear - Hk. induction Hk as [|t l Ht H IH]; cbn; auto. destruct (Nat.eqb_spec (tr_col t) k); [lia|auto]. }
          assert (Z2 : filter (fun t => Nat.eqb (tr_col t) k) ts = ts).
          { clear - T2. induction T2 as [|t l Ht H IH]; cbn; auto. rewrite Ht, Nat.eqb_refl, IH. auto. }
          rewrite Z1, Z2. exact T3.
        * assert (Z2 : filter (fun t => Nat.eqb (tr_col t) i) ts = []).
          { clear - T2 Hne. induction T2 as [|t l Ht H IH]; cbn; auto. rewrite Ht. destruct (Nat.eqb_spec k i); [congruence|auto]. }
          rewrite Z2, app_nil_r. apply Hj. lia. }
  apply (G ncols 0%nat (mkXState (-1) None (-1) 0 []) (mkEState (-1) None (-1) 0 [])); auto.
  - constructor; cbn; auto; try lia.
  - cbn. constructor.
  - intros j Hj. lia.
Qed.

(** ** Streaks *)
Lemma streak_len : forall A (N : Num A) (w : A -> bool) ts k, length (streak_from w k ts) = length ts.
Proof. intros A N w ts. induction ts; intros k; cbn; auto. Qed.

Lemma streak_spec : forall (w : XQ -> bool) ts i t, nth_error ts i = Some t ->
  exists k, nth_error (streak_from w 0 ts) i = Some k /\ run_up_to (fun t => w (tr_pnl t) = true) ts i k.
Proof.
  intros w ts.
  assert (G : forall rest done k i t, nth_error rest i = Some t ->
    (k <= length done)%nat ->
    (forall j u, (length done <= j + k)%nat -> nth_error done j = Some u -> w (tr_pnl u) = true) ->
    ((k < length done)%nat -> exists u, nth_error done (length done - 1 - k) = Some u /\ w (tr_pnl u) <> true) ->
    exists m, nth_error (streak_from w k rest) i = Some m /\ run_up_to (fun t => w (tr_pnl t) = true) (done ++ rest) (length done + i) m).
  { induction rest as [|r rest IH]; intros done k i t Hi Hk H1 H2; [destruct i; discriminate|].
    cbn [streak_from]. set (k' := if w (tr_pnl r) then S k else 0%nat).
    assert (K1 : (k' <= length (done ++ [r]))%nat) by (rewrite app_length; cbn; unfold k'; destruct (w (tr_pnl r)); lia).
    assert (K2 : forall j u, (length (done ++ [r]) <= j + k')%nat -> nth_error (done ++ [r]) j = Some u -> w (tr_pnl u) = true).
    { intros j u Hj Hu. rewrite app_length in Hj; cbn in Hj. destruct (Nat.lt_ge_cases j (length done)) as [Hl|Hl].
      - rewrite nth_error_app1 in Hu by lia. unfold k' in Hj. destruct (w (tr_pnl r)); [apply (H1 j); auto; lia|lia].
      - rewrite nth_error_app2 in Hu by lia. destruct (j - length done)%nat eqn:E; [|destruct n; discriminate]. cbn in Hu. injection Hu as <-.
        unfold k' in Hj. destruct (w (tr_pnl r)); auto. lia. }
    assert (K3 : (k' < length (done ++ [r]))%nat -> exists u, nth_error (done ++ [r]) (length (done ++ [r]) - 1 - k') = Some u /\ w (tr_pnl u) <> true).
    { rewrite app_length; cbn. intros Hlt. unfold k' in *. destruct (w (tr_pnl r)) eqn:Ew.
      - destruct H2 as (u & U1 & U2); [lia|]. exists u. split; auto. rewrite nth_error_app1 by lia. rewrite <- U1. f_equal. lia.
      - exists r. split; [|congruence]. rewrite nth_error_app2 by lia. replace (length done + 1 - 1 - 0 - length done)%nat with 0%nat by lia. reflexivity. }
    destruct i as [|i].
    - exists k'. split; [reflexivity|]. rewrite Nat.add_0_r. rewrite app_length in *. cbn [length] in *. split; [lia|]. split.
      + intros j u Hj Hji Hu. apply (K2 j); [lia|]. replace (done ++ r :: rest) with ((done ++ [r]) ++ rest) in Hu by (rewrite <- app_assoc; auto).
        rewrite nth_error_app1 in Hu by (rewrite app_length; cbn; lia). auto.
      + intros Hle. destruct K3 as (u & U1 & U2); [lia|]. exists u. split; auto.
        replace (done ++ r :: rest) with ((done ++ [r]) ++ rest) by (rewrite <- app_assoc; auto).
        rewrite nth_error_app1 by (rewrite app_length; cbn; lia). rewrite <- U1. f_equal. lia.
    - destruct (IH (done ++ [r]) k' i t) as (m & M1 & M2); auto. exists m. split; auto.
      rewrite <- app_assoc in M2. cbn in M2. rewrite app_length in M2. cbn in M2. replace (length done + S i)%nat with (length done + 1 + i)%nat by lia. auto. }
  intros i t Hi. destruct (G ts [] 0%nat i t Hi) as (k & A & B); cbn; auto; try lia.
  - intros [|j] u _ H; discriminate.
  - exists k. auto.
Qed.

Lemma streaks : forall ts i t, nth_error ts i = Some t ->
  (exists k, nth_error (trade_winning_streak_nb ts) i = Some k /\ run_up_to (fun t => gtb (tr_pnl t) zero = true) ts i k) /\
  (exists k, nth_error (trade_losing_streak_nb ts) i = Some k /\ run_up_to (fun t => ltb (tr_pnl t) zero = true) ts i k).
Proof. intros ts i t H. split; [apply (streak_spec (fun x => gtb x zero) ts i t H)|apply (streak_spec (fun x => ltb x zero) ts i t H)]. Qed.

(** ** In the words of the properties *)
Lemma exit_all : forall nrows ncols P last recs, good_history P last recs -> ids_in_order recs ->
  exists ts, get_exit_trades_nb nrows ncols (fun c => Fin (last c)) recs = Ok ts /\
  forall c, (c < ncols)%nat ->
    conserves_fees (of_col c recs) (trades_of_col c ts) /\ conserves_size (of_col c recs) (trades_of_col c ts) /\
    conserves_profit P (last c) (of_col c recs) (trades_of_col c ts).
Proof.
  intros nrows ncols P last recs H Hi. destruct (exit_accepts nrows ncols P last recs H (ids_sorted _ Hi)) as (ts & E).
  exists ts. split; auto. intros c Hc. eapply exit_conserve; eauto.
Qed.
Lemma entry_all : forall nrows ncols P last recs, good_history P last recs -> ids_in_order recs ->
  exists ts, get_entry_trades_nb nrows ncols (fun c => Fin (last c)) recs = Ok ts /\
  forall c, (c < ncols)%nat ->
    conserves_fees (of_col c recs) (trades_of_col c ts) /\ conserves_size (of_col c recs) (trades_of_col c ts) /\
    conserves_profit P (last c) (of_col c recs) (trades_of_col c ts).
Proof.
  intros nrows ncols P last recs H Hi. destruct (entry_accepts nrows ncols P last recs H (ids_sorted _ Hi)) as (ts & E).
  exists ts. split; auto. intros c Hc. eapply entry_conserve; eauto.
Qed.
Lemma both_numbered : forall nrows ncols P last recs ts, good_history P last recs ->
  get_exit_trades_nb nrows ncols (fun c => Fin (last c)) recs = Ok ts \/ get_entry_trades_nb nrows ncols (fun c => Fin (last c)) recs = Ok ts ->
  numbered ncols ts.
Proof. intros nrows ncols P last recs ts HG [H|H]; [eapply exit_numbered|eapply entry_numbered]; eauto. Qed.
Lemma exit_profit : forall nrows ncols P last recs ts t, good_history P last recs ->
  get_exit_trades_nb nrows ncols (fun c => Fin (last c)) recs = Ok ts -> In t ts -> trade_ok (volume (of_col (tr_col t) recs)) P t.
Proof.
  intros nrows ncols P last recs ts t HG H Ht. eapply exit_ok; eauto; [|apply of_col_in; auto].
  eapply nu_cols; eauto. eapply exit_numbered; eauto.
Qed.
Lemma entry_profit : forall nrows ncols P last recs ts t, good_history P last recs ->
  get_entry_trades_nb nrows ncols (fun c => Fin (last c)) recs = Ok ts -> In t ts -> trade_ok (volume (of_col (tr_col t) recs)) P t.
Proof.
  intros nrows ncols P last recs ts t HG H Ht. eapply entry_ok; eauto; [|apply of_col_in; auto].
  eapply nu_cols; eauto. eapply entry_numbered; eauto.
Qed.
Lemma exit_total : forall nrows ncols P last recs ts c p, good_history P last recs ->
  get_exit_trades_nb nrows ncols (fun c => Fin (last c)) recs = Ok ts -> (c < ncols)%nat ->
  total_profit_nb (Fin (last c)) recs c = Ok p ->
  exists q, p = Fin q /\ Qabs (tsum (fun t => qty (tr_pnl t)) (trades_of_col c ts) - q) <=
    inject_Z (Z.of_nat (2 * length (of_col c recs))) * (slack (volume (of_col c recs)) * P) +
    inject_Z (Z.of_nat (length (of_col c recs))) * slack (2 * (volume (of_col c recs) * P)) +
    inject_Z (Z.of_nat (length (of_col c recs))) * slack (turnover (of_col c recs)) +
    Qabs (last c) * (inject_Z (Z.of_nat (length (of_col c recs))) * slack (volume (of_col c recs))).
Proof.
  intros nrows ncols P last recs ts c p HG H Hc Hp. apply profit_total; auto.
  - apply Forall_forall. intros r Hr. apply filter_In in Hr as (Hr & _). destruct HG as (HG & _). rewrite Forall_forall in HG. apply (HG r Hr).
  - apply (exit_conserve nrows ncols P last recs ts HG H c Hc).
Qed.
Lemma exit_open_rest : forall nrows ncols P last recs ts c, good_history P last recs -> ids_in_order recs ->
  (forall c, clear_of_tolerance (of_col c recs)) ->
  get_exit_trades_nb nrows ncols (fun c => Fin (last c)) recs = Ok ts -> (c < ncols)%nat ->
  open_remainder (of_col c recs) (trades_of_col c ts).
Proof.
  intros nrows ncols P last recs ts c HG Hi Hcl H Hc. destruct (entry_accepts nrows ncols P last recs HG (ids_sorted _ Hi)) as (es & E).
  eapply exit_remainder; eauto. apply HG.
Qed.
Lemma both_span : forall nrows ncols P last recs ts t, good_history P last recs ->
  get_exit_trades_nb nrows ncols (fun c => Fin (last c)) recs = Ok ts \/ get_entry_trades_nb nrows ncols (fun c => Fin (last c)) recs = Ok ts ->
  In t ts -> spans nrows (of_col (tr_col t) recs) t /\ 0 < qty (tr_size t).
Proof.
  intros nrows ncols P last recs ts t HG H Ht. split; [destruct H; [eapply exit_spans|eapply entry_spans]; eauto|].
  pose proof (sound_all _ _ _ _ _ _ HG H) as HS. rewrite Forall_forall in HS. apply (HS t Ht).
Qed.
Lemma both_bars : forall nrows ncols P last recs ts t, good_history P last recs -> bars_in_order nrows recs ->
  get_exit_trades_nb nrows ncols (fun c => Fin (last c)) recs = Ok ts \/ get_entry_trades_nb nrows ncols (fun c => Fin (last c)) recs = Ok ts ->
  In t ts -> (tr_entry_idx t <= tr_exit_idx t < nrows)%nat.
Proof. intros nrows ncols P last recs ts t HG Hb H Ht. eapply spans_bars; eauto. eapply both_span; eauto. Qed.
Lemma exit_shape : forall nrows ncols P last recs ts, good_history P last recs ->
  get_exit_trades_nb nrows ncols (fun c => Fin (last c)) recs = Ok ts ->
  (forall t, In t ts ->
    match tr_status t with
    | TClosed => exists r, In r (of_col (tr_col t) recs) /\ tr_exit_idx t = or_idx r /\ qty (tr_exit_price t) == qty (or_price r)
    | TOpen => qty (tr_exit_price t) == last (tr_col t) /\ qty (tr_exit_fees t) == 0
    end) /\
  (forall c a t b, (c < ncols)%nat -> trades_of_col c ts = a ++ t :: b -> tr_status t = TOpen -> b = []) /\
  (forall t u, In t ts -> In u ts -> tr_parent t = tr_parent u -> tr_entry_idx t = tr_entry_idx u).
Proof.
  intros nrows ncols P last recs ts HG H. split; [|split].
  - eapply exit_prices; eauto.
  - eapply exit_open_last; eauto.
  - eapply exit_same_entry; eauto.
Qed.
Lemma entry_shape : forall nrows ncols P last recs ts, good_history P last recs ->
  get_entry_trades_nb nrows ncols (fun c => Fin (last c)) recs = Ok ts ->
  (forall t, In t ts -> exists r, In r (of_col (tr_col t) recs) /\ tr_entry_idx t = or_idx r /\ qty (tr_entry_price t) == qty (or_price r)) /\
  (forall t u, In t ts -> In u ts -> tr_parent t = tr_parent u -> tr_exit_idx t = tr_exit_idx u /\ tr_status t = tr_status u).
Proof.
  intros nrows ncols P last recs ts HG H. split.
  - intros t Ht. eapply entry_spans; eauto.
  - eapply entry_same_exit; eauto.
Qed.
