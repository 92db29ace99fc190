(** * Lemmas about exit trades: structure, and whole columns *)
From Coq Require Import ZArith QArith Qabs Qminmax Bool Lia Lqa List Setoid Morphisms Sorted.
From Verif Require Import Base Num MathNb TolSpec XQFacts OrderFacts Order Account AccountSpec OrderLemmas4
  Replay ReplaySpec ReplayLemmas GenericLemmas2 Trades TradesSpec TradesLemmas TradesLemmas2.
Import ListNotations.

(** A closed trade: some later order of the other side ends what an earlier order began. *)
Definition closed_by (done : list (OrderRec XQ)) (t : TradeRec XQ) : Prop :=
  tr_status t = TClosed /\
  exists l1 r l2 e, done = l1 ++ r :: l2 /\ In e l1 /\
    tr_entry_idx t = or_idx e /\ is_entry (tr_dir t) e = true /\
    tr_exit_idx t = or_idx r /\ is_exit (tr_dir t) r = true /\ qty (tr_exit_price t) == oprice r.

Lemma closed_by_app : forall done l t, closed_by done t -> closed_by (done ++ l) t.
Proof.
  intros done l t (H & l1 & r & l2 & e & E & H'). split; auto. exists l1, r, (l2 ++ l), e.
  split; auto. rewrite E, <- app_assoc. reflexivity.
Qed.

Record xstr (col tidx0 : nat) (par0 : Z) (done : list (OrderRec XQ)) (s : XState XQ) (ts : list (TradeRec XQ)) : Prop := {
  xt_ids : map tr_id ts = seq tidx0 (length ts);
  xt_tidx : xs_tidx s = (tidx0 + length ts)%nat;
  xt_cols : Forall (fun t => tr_col t = col) ts;
  xt_closed : Forall (closed_by done) ts;
  xt_pos : match xs_pos s with
           | Some p => exists e, In e done /\ or_idx e = xp_entry_idx p /\ is_entry (xp_dir p) e = true
           | None => True end;
  xt_par : StronglySorted Z.le (map tr_parent ts);
  xt_range : Forall (fun t => (par0 < tr_parent t <= xs_parent s)%Z) ts;
  xt_par0 : (par0 + Z.of_nat (hcount s) <= xs_parent s)%Z;
  xt_uni : forall t t', In t ts -> In t' ts -> tr_parent t = tr_parent t' ->
             tr_dir t = tr_dir t' /\ tr_entry_idx t = tr_entry_idx t';
  xt_cur : forall t p, In t ts -> xs_pos s = Some p -> tr_parent t = xs_parent s ->
             tr_dir t = xp_dir p /\ tr_entry_idx t = xp_entry_idx p;
  xt_cov : forall k, (par0 < k <= xs_parent s - Z.of_nat (hcount s))%Z -> exists t, In t ts /\ tr_parent t = k }.

Lemma sorted_snoc : forall l x, StronglySorted Z.le l -> Forall (fun y => (y <= x)%Z) l -> StronglySorted Z.le (l ++ [x]).
Proof.
  induction l as [|y l IH]; intros x Hs Hf; cbn.
  - constructor; constructor.
  - inversion Hs; inversion Hf; subst. constructor; auto. apply Forall_app. split; auto.
Qed.

Lemma opened_dir_flip : forall d (r : OrderRec XQ), is_exit d r = true -> is_entry (flip d) r = true.
Proof. intros [] r; unfold is_exit, is_entry; destruct (or_side r) as [[]|]; cbn; auto. Qed.

(** The three cases that write a trade share this. *)
Lemma xstr_trade : forall col tidx0 par0 done s ts r s' p t,
  xstr col tidx0 par0 done s ts -> xs_pos s = Some p ->
  tr_id t = xs_tidx s -> tr_col t = col -> tr_status t = TClosed -> tr_entry_idx t = xp_entry_idx p -> tr_dir t = xp_dir p ->
  tr_exit_idx t = or_idx r -> is_exit (xp_dir p) r = true -> qty (tr_exit_price t) == oprice r -> tr_parent t = xs_parent s ->
  xs_tidx s' = S (xs_tidx s) ->
  (xs_pos s' = None /\ xs_parent s' = xs_parent s \/
   (exists p', xs_pos s' = Some p' /\ xp_entry_idx p' = xp_entry_idx p /\ xp_dir p' = xp_dir p) /\ xs_parent s' = xs_parent s \/
   (exists p', xs_pos s' = Some p' /\ xp_entry_idx p' = or_idx r /\ xp_dir p' = flip (xp_dir p)) /\ xs_parent s' = (xs_parent s + 1)%Z) ->
  xstr col tidx0 par0 (done ++ [r]) s' (ts ++ [t]).
Proof.
  intros col tidx0 par0 done s ts r s' p t [J1 J2 J3 J4 J5 J6 J7 J8 J9 J10 J11] Ep T1 T2 T3 T4 T5 T6 T7 T8 T9 Et Hs.
  rewrite Ep in J5. destruct J5 as (e & He1 & He2 & He3).
  assert (Hpar : (xs_parent s <= xs_parent s')%Z) by (destruct Hs as [[_ H]|[[_ H]|[_ H]]]; lia).
  unfold hcount in J8, J11. rewrite Ep in J8, J11.
  assert (Huni : forall u, In u ts -> tr_parent u = xs_parent s -> tr_dir u = tr_dir t /\ tr_entry_idx u = tr_entry_idx t).
  { intros u Hu E. destruct (J10 u p Hu Ep E). split; congruence. }
  constructor.
  - rewrite map_app, J1, app_length, seq_app. cbn. rewrite T1, J2. reflexivity.
  - rewrite Et, J2, app_length. cbn. lia.
  - apply Forall_app. auto.
  - apply Forall_app. split.
    + eapply Forall_impl; [|exact J4]. intros; apply closed_by_app; auto.
    + constructor; auto. split; auto. exists done, r, [], e. rewrite T4, T5, T6. repeat split; auto.
  - destruct Hs as [[E _]|[[(p' & E & E1 & E2) _]|[(p' & E & E1 & E2) _]]]; rewrite E; auto.
    + exists e. rewrite E1, E2. repeat split; auto. apply in_or_app; auto.
    + exists r. rewrite E1, E2. repeat split; auto using opened_dir_flip. apply in_or_app; right; left; auto.
  - rewrite map_app. apply sorted_snoc; auto. apply Forall_forall. intros y Hy. apply in_map_iff in Hy as (u & <- & Hu).
    rewrite T9. rewrite Forall_forall in J7. apply J7 in Hu. lia.
  - apply Forall_app. split; [|constructor; auto; rewrite T9; lia].
    eapply Forall_impl; [|exact J7]. cbn. intros; lia.
  - unfold hcount. destruct Hs as [[E H]|[[(p' & E & _) H]|[(p' & E & _) H]]]; rewrite E; lia.
  - intros u u' Hu Hu' E. apply in_app_or in Hu. apply in_app_or in Hu'.
    destruct Hu as [Hu|[<-|[]]]; destruct Hu' as [Hu'|[<-|[]]]; auto.
    + rewrite T9 in E. auto.
    + rewrite T9 in E. destruct (Huni u' Hu' (eq_sym E)). auto.
  - intros u q Hu Hq E. apply in_app_or in Hu.
    destruct Hs as [[E' H]|[[(p' & E' & E1 & E2) H]|[(p' & E' & E1 & E2) H]]]; rewrite E' in Hq; [discriminate| |]; injection Hq as <-.
    + destruct Hu as [Hu|[<-|[]]].
      * rewrite H in E. destruct (J10 u p Hu Ep E). split; congruence.
      * split; congruence.
    + exfalso. destruct Hu as [Hu|[<-|[]]]; [|lia]. rewrite Forall_forall in J7. apply J7 in Hu. lia.
  - intros k Hk. destruct (Z.eq_dec k (xs_parent s)) as [->|Hne].
    + exists t. split; auto. apply in_or_app; right; left; auto.
    + destruct (J11 k) as (u & Hu & E).
      { unfold hcount in Hk. destruct Hs as [[E H]|[[(p' & E & _) H]|[(p' & E & _) H]]]; rewrite E in Hk; lia. }
      exists u. split; auto. apply in_or_app; auto.
Qed.

Lemma xstr_step : forall col tidx0 par0 done s ts r s', good_order r ->
  xstr col tidx0 par0 done s ts -> xcase col s r s' ->
  exists ts', xstr col tidx0 par0 (done ++ [r]) s' ts' /\ (ts' = ts /\ xs_out s' = xs_out s \/ exists t, ts' = ts ++ [t] /\ xs_out s' = xs_out s ++ [t]).
Proof.
  intros col tidx0 par0 done s ts r s' Hg J Hc. pose proof J as [J1 J2 J3 J4 J5 J6 J7 J8 J9 J10 J11].
  destruct Hc as [p' E0 E1 H1 Epar Et Eo|p ei d E G F p' E0 H0 He E1 H1 Epar Et Eo|p ei d E G F t E0 H0 He E1 Hcl Ht Epar Et Eo|p ei d E G F t p' E0 H0 He E1 Hcl H1 Ht Epar Et Eo|p ei d E G F t p' E0 H0 He E1 Hcl H1 Ht Epar Et Eo].
  - exists ts. split; [|left; auto]. unfold hcount in *. rewrite E0 in *.
    constructor; auto; unfold hcount; rewrite ?E1, ?Epar; try congruence.
    + eapply Forall_impl; [|exact J4]. intros; apply closed_by_app; auto.
    + exists r. destruct H1. rewrite xi_ei, xi_dir. split; [apply in_or_app; right; left; auto|]. split; auto.
      apply opened_is_entry. destruct (good_fin r Hg) as (_ & _ & _ & _ & _ & Hd). exact Hd.
    + eapply Forall_impl; [|exact J7]. cbn. intros; lia.
    + lia.
    + intros t p Ht Hp Ek. rewrite Forall_forall in J7. apply J7 in Ht. lia.
    + intros k Hk. apply J11. lia.
  - exists ts. split; [|left; auto]. unfold hcount in *. rewrite E0 in *.
    destruct H0 as [X1 X2 _ _ _]. destruct H1 as [Y1 Y2 _ _ _].
    constructor; auto; unfold hcount; rewrite ?E1, ?Epar; try congruence; auto.
    + eapply Forall_impl; [|exact J4]. intros; apply closed_by_app; auto.
    + destruct J5 as (e & A1 & A2 & A3). exists e. split; [apply in_or_app; auto|]. split; congruence.
    + intros t q Ht Hq Ek. injection Hq as <-. destruct (J10 t p Ht eq_refl Ek). split; congruence.
  - exists (ts ++ [t]). split; [|right; exists t; auto].
    destruct H0 as [X1 X2 _ _ _]. destruct Ht.
    eapply (xstr_trade _ _ _ _ _ _ _ _ p); eauto; try congruence.
  - exists (ts ++ [t]). split; [|right; exists t; auto].
    destruct H0 as [X1 X2 _ _ _]. destruct H1 as [Y1 Y2 _ _ _]. destruct Ht.
    eapply (xstr_trade _ _ _ _ _ _ _ _ p); eauto; try congruence.
    right; left. split; auto. exists p'. repeat split; congruence.
  - exists (ts ++ [t]). split; [|right; exists t; auto].
    destruct H0 as [X1 X2 _ _ _]. destruct H1 as [Y1 Y2 _ _ _]. destruct Ht.
    eapply (xstr_trade _ _ _ _ _ _ _ _ p); eauto; try congruence.
    right; right. split; auto. exists p'. repeat split; congruence.
Qed.

Lemma exit_step_ok : forall col s r s', good_order r -> xsane s -> exit_step col s r = Ok s' ->
  xcase col s r s' /\ xs_last s' = Z.of_nat (or_id r).
Proof.
  intros col s r s' Hg Hs H. pose proof H as H'. unfold exit_step in H'. apply check_record_ok in H' as (Hl & _).
  destruct (exit_step_spec col s r Hg Hs Hl) as (s1 & E & Hc). rewrite E in H. injection H as <-. exact Hc.
Qed.

Lemma exit_fold : forall Vt P out0 col tidx0 par0 rest done s ts s',
  Forall good_order rest -> Forall (fun r => oprice r <= P) rest -> volume (done ++ rest) <= Vt ->
  xinv Vt P out0 done s ts -> xstr col tidx0 par0 done s ts ->
  foldM (exit_step col) s rest = Ok s' ->
  exists ts', xinv Vt P out0 (done ++ rest) s' ts' /\ xstr col tidx0 par0 (done ++ rest) s' ts'.
Proof.
  intros Vt P out0 col tidx0 par0. induction rest as [|r rest IH]; intros done s ts s' Hg HP HV HI HJ H.
  - cbn in H. injection H as <-. exists ts. rewrite app_nil_r. auto.
  - cbn [foldM] in H. apply bind_ok in H as (s1 & H1 & H2).
    inversion Hg; inversion HP; subst.
    destruct (exit_step_ok col s r s1) as (Hc & _); auto. { apply HI. }
    assert (HV' : volume (done ++ [r]) <= Vt).
    { eapply Qle_trans; [|exact HV]. replace (done ++ r :: rest) with ((done ++ [r]) ++ rest) by (rewrite <- app_assoc; reflexivity).
      clear. generalize (done ++ [r]) as l. intros l. unfold volume.
      induction l as [|x l IH]; cbn; [apply (total_nonneg (fun r => Qabs (bought_size r))); intros; apply Qabs_nonneg|lra]. }
    destruct (xinv_step Vt P out0 done s ts col r s1) as (ts1 & HI1 & _); auto.
    destruct (xstr_step col tidx0 par0 done s ts r s1) as (ts2 & HJ1 & Hts); auto.
    assert (ts2 = ts1) as ->.
    { apply (app_inv_head out0). rewrite <- (xv_out _ _ _ _ _ _ HI1).
      destruct Hts as [[-> E]|(t & -> & E)]; rewrite E, (xv_out _ _ _ _ _ _ HI); auto. apply app_assoc. }
    replace (done ++ r :: rest) with ((done ++ [r]) ++ rest) in * by (rewrite <- app_assoc; reflexivity).
    eapply IH; eauto.
Qed.

(** ** The end of a column *)

(** A trade still open at the last bar: valued at the last close, without exit fees. *)
Definition open_at (nrows : nat) (last : Q) (done : list (OrderRec XQ)) (t : TradeRec XQ) : Prop :=
  tr_status t = TOpen /\ tr_exit_idx t = (nrows - 1)%nat /\
  exists e, In e done /\ tr_entry_idx t = or_idx e /\ is_entry (tr_dir t) e = true.

(** The structure of a column's trades; [par0] and [par1] are the position ids
    used before and after. *)
Record col_str (col tidx0 : nat) (par0 par1 : Z) (ts : list (TradeRec XQ)) : Prop := {
  cs_ids : map tr_id ts = seq tidx0 (length ts);
  cs_cols : Forall (fun t => tr_col t = col) ts;
  cs_par : StronglySorted Z.le (map tr_parent ts);
  cs_range : Forall (fun t => (par0 < tr_parent t <= par1)%Z) ts;
  cs_le : (par0 <= par1)%Z;
  cs_dir : forall t t', In t ts -> In t' ts -> tr_parent t = tr_parent t' -> tr_dir t = tr_dir t';
  cs_cov : forall k, (par0 < k <= par1)%Z -> exists t, In t ts /\ tr_parent t = k }.

Record col_books (P last : Q) (os : list (OrderRec XQ)) (ts : list (TradeRec XQ)) : Prop := {
  cb_fees : conserves_fees os ts;
  cb_size : conserves_size os ts;
  cb_profit : conserves_profit P last os ts;
  cb_ok : Forall (trade_ok (volume os) P) ts;
  cb_count : (length ts <= length os)%nat }.

Lemma within_near : forall n m a b, within n m a b <-> near n (slack m) a b.
Proof. intros. unfold within, near. reflexivity. Qed.

Lemma ledger_cash_split : forall os, ledger_cash os == gross_cash os - all_fees os.
Proof.
  intros os. unfold ledger_cash, gross_cash, all_fees, cash_effect. induction os as [|r os IH]; cbn; [lra|]. rewrite IH. lra.
Qed.

Lemma pnl_sum : forall V P ts, Forall (trade_ok V P) ts ->
  near (length ts) (slack (2 * (V * P))) (tsum (fun t => qty (tr_pnl t)) ts) (tsum trade_gross ts - tsum trade_fees ts).
Proof.
  intros V P ts H. pose proof (slack_pos (2 * (V * P))) as Hs. induction H as [|t ts Ht H IH]; cbn [tsum length].
  - apply near_refl; lra.
  - eapply (near_step _ _ _ _ (qty (tr_pnl t) - (trade_gross t - trade_fees t))); [lra|exact IH|apply Ht|]. ring.
Qed.

Lemma conserves_profit_intro : forall P last os ts, 0 <= P ->
  near (2 * length os) (slack (volume os) * P) (tsum trade_gross ts) (gross_cash os + ledger_position os * last) ->
  conserves_fees os ts -> Forall (trade_ok (volume os) P) ts -> (length ts <= length os)%nat ->
  conserves_profit P last os ts.
Proof.
  intros P last os ts HP Hg Hf Hok Hn. unfold conserves_profit. pose proof (pnl_sum _ _ _ Hok) as Hp.
  pose proof (slack_pos (2 * (volume os * P))) as Hs.
  apply (near_le _ (length os)) in Hp; [|lra|auto]. unfold near in *. unfold conserves_fees in Hf. rewrite Hf in Hp. rewrite ledger_cash_split.
  set (A := tsum (fun t => qty (tr_pnl t)) ts) in *. set (B := tsum trade_gross ts) in *.
  assert (E : A - (gross_cash os - all_fees os + ledger_position os * last) ==
    (B - (gross_cash os + ledger_position os * last)) + (A - (B - all_fees os))) by ring.
  rewrite E. eapply Qle_trans; [apply Qabs_triangle|]. lra.
Qed.

Lemma is_less_neg : forall e, (1 # 1000000000000) < e -> is_less_nb (neg (Fin e)) zero = true.
Proof.
  intros e H. rewrite neg_fin. unfold is_less_nb.
  assert (E : is_close_nb (Fin (Qred (- e))) zero = false).
  { apply is_close_zero_f. rewrite Qred_correct, Qabs_opp, Qabs_pos; lra. }
  rewrite E. change (qlt_bool (Qred (- e)) 0 = true). apply qlt_t. rewrite Qred_correct. lra.
Qed.

Lemma exit_finish_spec : forall nrows last col out0 tidx0 par0 P os s ts s', 0 <= P -> Qabs last <= P ->
  xinv (volume os) P out0 os s ts -> xstr col tidx0 par0 os s ts ->
  exit_finish nrows (Fin last) col s = Ok s' ->
  exists ts', xs_out s' = out0 ++ ts' /\ col_str col tidx0 par0 (xs_parent s') ts' /\ col_books P last os ts' /\
    xs_tidx s' = (tidx0 + length ts')%nat /\
    (forall t t', In t ts' -> In t' ts' -> tr_parent t = tr_parent t' -> tr_entry_idx t = tr_entry_idx t') /\
    Forall (fun t => closed_by os t \/ open_at nrows last os t) ts' /\
    (forall a t b, ts' = a ++ t :: b -> tr_status t = TOpen -> b = [] /\ qty (tr_exit_price t) == last /\ qty (tr_exit_fees t) == 0).
Proof.
  intros nrows last col out0 tidx0 par0 P os s ts s' HP0 HP HI HJ H.
  pose proof HI as [I0 Is I1 I2 I3 I4 I5 I6 I7 I8]. pose proof HJ as [J1 J2 J3 J4 J5 J6 J7 J8 J9 J10 J11].
  pose proof (slack_pos (volume os)) as Hsl. assert (Hsl0 : 0 <= slack (volume os)) by lra.
  assert (HslP : 0 <= slack (volume os) * P) by (apply Qmult_le_0_compat; lra).
  unfold exit_finish in H. destruct (xs_pos s) as [p|] eqn:Ep.
  - pose proof Is as Is0. unfold xsane in Is0. rewrite Ep in Is0. destruct Is0 as (ei & d & E & G & F & Hp & HE & HG).
    destruct (held_is _ _ _ _ _ _ _ Ep Hp) as (A1 & A2 & A3 & A4).
    pose proof Hp as [X1 X2 (e & He & Ee) _ _]. rewrite He in H. rewrite is_less_neg in H by lra.
    change zero with (Fin 0) in H.
    destruct (exit_trade_spec (xs_tidx s) col p ei d E G F e (nrows - 1) last 0 TOpen (xs_parent s) Hp) as (t & Et & Ht); try lra.
    rewrite Et in H. cbn [bind] in H. injection H as <-. cbn [xs_out xs_parent xs_tidx].
    assert (HE0 : 0 < E) by lra. rewrite A2, A3 in I6. destruct (avg_price E G P HE0 HG I6) as (Hp1 & Hp2).
    assert (Ht' : trade_is t (xs_tidx s) col E ei (G / E) F (nrows - 1) last 0 d TOpen (xs_parent s)).
    { eapply trade_is_eq; [exact Ht|lra|reflexivity| |reflexivity|reflexivity].
      assert (Hx : e / E == 1) by (rewrite Ee; field; lra). rewrite Hx. ring. }
    assert (HGE : E * (G / E) == G) by (field; lra).
    exists (ts ++ [t]). unfold hcount in *. rewrite Ep in *. rewrite A1 in *. rewrite A2 in I2.
    assert (Hlen : (length (ts ++ [t]) <= length os)%nat) by (rewrite app_length; cbn; lia).
    assert (Hok : Forall (trade_ok (volume os) P) (ts ++ [t])).
    { apply Forall_app. split; auto. constructor; auto. eapply trade_is_ok; [exact Ht'| | |]; lra. }
    assert (Hfe : conserves_fees os (ts ++ [t])).
    { unfold conserves_fees. rewrite tsum_snoc, (trade_fees_is _ _ _ _ _ _ _ _ _ _ _ _ _ Ht'), I4, A4. ring. }
    pose proof (ti_par _ _ _ _ _ _ _ _ _ _ _ _ _ Ht') as Tp. pose proof (ti_id _ _ _ _ _ _ _ _ _ _ _ _ _ Ht') as Ti.
    pose proof (ti_col _ _ _ _ _ _ _ _ _ _ _ _ _ Ht') as Tc. pose proof (ti_dir _ _ _ _ _ _ _ _ _ _ _ _ _ Ht') as Td.
    pose proof (ti_ei _ _ _ _ _ _ _ _ _ _ _ _ _ Ht') as Te. pose proof (ti_st _ _ _ _ _ _ _ _ _ _ _ _ _ Ht') as Tst.
    pose proof (ti_xi _ _ _ _ _ _ _ _ _ _ _ _ _ Ht') as Tx.
    split; [rewrite I0, app_assoc; reflexivity|]. split; [|split; [|split; [|split; [|split]]]].
    + constructor.
      * rewrite map_app, J1, app_length, seq_app. cbn. rewrite Ti, J2. reflexivity.
      * apply Forall_app. auto.
      * rewrite map_app. apply sorted_snoc; auto. apply Forall_forall. intros y Hy. apply in_map_iff in Hy as (u & <- & Hu).
        rewrite Tp. rewrite Forall_forall in J7. apply J7 in Hu. lia.
      * apply Forall_app. split; auto. constructor; auto. rewrite Tp. lia.
      * lia.
      * intros u u' Hu Hu' Ek. apply in_app_or in Hu. apply in_app_or in Hu'.
        destruct Hu as [Hu|[<-|[]]]; destruct Hu' as [Hu'|[<-|[]]]; auto.
        -- apply J9; auto.
        -- rewrite Tp in Ek. destruct (J10 u p Hu eq_refl Ek). congruence.
        -- rewrite Tp in Ek. symmetry in Ek. destruct (J10 u' p Hu' eq_refl Ek). congruence.
      * intros k Hk. destruct (Z.eq_dec k (xs_parent s)) as [->|Hne].
        -- exists t. split; auto. apply in_or_app; right; left; auto.
        -- destruct (J11 k) as (u & Hu & Eu); [cbn; lia|]. exists u. split; auto. apply in_or_app; auto.
    + assert (Hgr : near (2 * length os) (slack (volume os) * P) (tsum trade_gross (ts ++ [t])) (gross_cash os + ledger_position os * last)).
      { replace (2 * length os)%nat with (length os + length os)%nat by lia.
        eapply near_trans with (b := gross_cash os + last * (dir_sign d * E)).
        - eapply near_same; [exact I3|]. rewrite tsum_snoc, (trade_gross_is _ _ _ _ _ _ _ _ _ _ _ _ _ Ht'), HGE, A3. ring.
        - apply (near_scale _ _ _ _ last P HP) in I1. eapply near_same; [|instantiate (1 := last * ledger_position os); instantiate (1 := last * (dir_sign d * E)); ring].
          unfold near in *. rewrite Qabs_Qminus. rewrite A2 in I1. exact I1. }
      constructor; auto.
      * unfold conserves_size. rewrite within_near. replace (2 * length os)%nat with (length os + length os)%nat by lia.
        eapply near_trans with (b := volume os + Qabs (dir_sign d * E)).
        -- unfold near in *. rewrite Qabs_Qminus. eapply Qle_trans; [|exact I5]. apply Qle_lteq; right; apply Qabs_wd.
           rewrite tsum_snoc, (ti_size _ _ _ _ _ _ _ _ _ _ _ _ _ Ht'), Qabs_signed, (Qabs_pos E) by lra. rewrite A2. ring.
        -- eapply near_same; [apply near_abs; unfold near in *; rewrite Qabs_Qminus; exact I1|]. rewrite A2. ring.
      * apply conserves_profit_intro; auto.
    + rewrite app_length, J2. cbn. lia.
    + intros u u' Hu Hu' Ek. apply in_app_or in Hu. apply in_app_or in Hu'.
      destruct Hu as [Hu|[<-|[]]]; destruct Hu' as [Hu'|[<-|[]]]; auto.
      * apply J9; auto.
      * rewrite Tp in Ek. destruct (J10 u p Hu eq_refl Ek). congruence.
      * rewrite Tp in Ek. symmetry in Ek. destruct (J10 u' p Hu' eq_refl Ek). congruence.
    + apply Forall_app. split; [eapply Forall_impl; [|exact J4]; auto|]. constructor; auto. right.
      split; auto. split; auto. destruct J5 as (e0 & B1 & B2 & B3). exists e0. split; auto. split; congruence.
    + intros a u b Hab Hst. destruct b as [|u' b].
      * apply app_inj_tail in Hab as (_ & <-). split; auto. destruct Ht'. auto.
      * exfalso. assert (Hin : In u ts).
        { destruct (@exists_last _ (u' :: b)) as (b' & z & Eb); [discriminate|]. rewrite Eb in Hab.
          replace (a ++ u :: b' ++ [z]) with ((a ++ u :: b') ++ [z]) in Hab by (rewrite <- app_assoc; reflexivity).
          apply app_inj_tail in Hab as (-> & _). apply in_or_app; right; left; auto. }
        rewrite Forall_forall in J4. destruct (J4 u Hin). congruence.
  - injection H as <-. destruct (held_none s Ep) as (A1 & A2 & A3 & A4). exists ts.
    unfold hcount in *. rewrite Ep in *. rewrite A1 in *.
    assert (Hfe : conserves_fees os ts) by (unfold conserves_fees; rewrite I4, A4; ring).
    assert (Hn : (length ts <= length os)%nat) by lia.
    assert (HL : near (length os) (slack (volume os)) (ledger_position os) 0) by (eapply near_same; [exact I1|]; ring).
    split; auto. split; [|split; [|split; [|split; [|split]]]]; auto.
    + constructor; auto; try lia. { intros; apply J9; auto. } intros k Hk. apply J11. cbn. lia.
    + constructor; auto.
      * unfold conserves_size. rewrite within_near. replace (2 * length os)%nat with (length os + length os)%nat by lia.
        eapply near_trans with (b := volume os).
        -- unfold near in *. rewrite Qabs_Qminus. eapply Qle_trans; [|exact I5]. apply Qle_lteq; right; apply Qabs_wd. rewrite A2. ring.
        -- apply near_abs in HL. eapply near_same; [unfold near in *; rewrite Qabs_Qminus; exact HL|]. change (Qabs 0) with 0. ring.
      * apply conserves_profit_intro; auto.
        replace (2 * length os)%nat with (length os + length os)%nat by lia.
        eapply near_trans with (b := gross_cash os).
        -- eapply near_same; [exact I3|]. ring.
        -- apply (near_scale _ _ _ _ last P HP) in HL. eapply near_same; [unfold near in *; rewrite Qabs_Qminus; exact HL|]. ring.
    + intros; apply J9; auto.
    + eapply Forall_impl; [|exact J4]. auto.
    + intros a u b Hab Hst. exfalso. rewrite Forall_forall in J4. destruct (J4 u); [|congruence]. rewrite Hab. apply in_or_app; right; left; auto.
Qed.
