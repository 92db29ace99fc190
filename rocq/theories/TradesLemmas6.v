(** * Lemmas about entry trades: structure, and whole columns *)
From Coq Require Import ZArith QArith Qabs Qminmax Bool Lia Lqa List Setoid Morphisms Sorted.
From Verif Require Import Base Num MathNb TolSpec XQFacts OrderFacts Order Account AccountSpec OrderLemmas4
  Replay ReplaySpec ReplayLemmas GenericLemmas2 Trades TradesSpec TradesLemmas TradesLemmas2 TradesLemmas3 TradesLemmas4 TradesLemmas5.
Import ListNotations.

Definition ended_by (done : list (OrderRec XQ)) (t : TradeRec XQ) : Prop :=
  tr_status t = TClosed /\
  exists l1 r l2 e, done = l1 ++ r :: l2 /\ In e l1 /\
    tr_entry_idx t = or_idx e /\ is_entry (tr_dir t) e = true /\ qty (tr_entry_price t) == oprice e /\
    tr_exit_idx t = or_idx r /\ is_exit (tr_dir t) r = true.

Definition begun_by (nrows : nat) (done : list (OrderRec XQ)) (t : TradeRec XQ) : Prop :=
  tr_status t = TOpen /\ tr_exit_idx t = (nrows - 1)%nat /\
  exists e, In e done /\ tr_entry_idx t = or_idx e /\ is_entry (tr_dir t) e = true /\ qty (tr_entry_price t) == oprice e.

Lemma ended_by_app : forall done l t, ended_by done t -> ended_by (done ++ l) t.
Proof.
  intros done l t (H & l1 & r & l2 & e & E & H'). split; auto. exists l1, r, (l2 ++ l), e.
  split; auto. rewrite E, <- app_assoc. reflexivity.
Qed.

Record estr (col tidx0 : nat) (par0 : Z) (done : list (OrderRec XQ)) (s : EState XQ) (ts : list (TradeRec XQ)) : Prop := {
  et_ids : map tr_id ts = seq tidx0 (length ts);
  et_tidx : es_tidx s = (tidx0 + length ts)%nat;
  et_cols : Forall (fun t => tr_col t = col) ts;
  et_ended : Forall (ended_by done) ts;
  et_par : StronglySorted Z.le (map tr_parent ts);
  et_range : Forall (fun t => (par0 < tr_parent t <= es_parent s - Z.of_nat (ecount s))%Z) ts;
  et_par0 : (par0 + Z.of_nat (ecount s) <= es_parent s)%Z;
  et_uni : forall t t', In t ts -> In t' ts -> tr_parent t = tr_parent t' -> tr_dir t = tr_dir t' /\ tr_exit_idx t = tr_exit_idx t';
  et_cov : forall k, (par0 < k <= es_parent s - Z.of_nat (ecount s))%Z -> exists t, In t ts /\ tr_parent t = k }.

Lemma sorted_app : forall l x n, StronglySorted Z.le l -> Forall (fun y => (y <= x)%Z) l -> StronglySorted Z.le (l ++ repeat x n).
Proof.
  intros l x n. revert l. induction n as [|n IH]; intros l Hs Hf; cbn.
  - rewrite app_nil_r. auto.
  - replace (l ++ x :: repeat x n) with ((l ++ [x]) ++ repeat x n) by (rewrite <- app_assoc; reflexivity).
    apply IH. { apply sorted_snoc; auto. } apply Forall_app. split; auto. constructor; auto. lia.
Qed.

Lemma filled_parents : forall col xi XS XG XF d st par es tidx ts,
  filled col xi XS XG XF d st par tidx es ts -> map tr_parent ts = repeat par (length ts).
Proof.
  intros col xi XS XG XF d st par. induction es as [|e es IH]; intros tidx [|t ts] H; cbn in *; try tauto.
  destruct H as (H1 & H2). rewrite (IH _ _ H2). destruct H1. congruence.
Qed.

Lemma ents_cons : forall d fs ff (r0 : OrderRec XQ) l, is_entry d r0 = true -> exists es, ents d true fs ff (r0 :: l) = (r0, fs, ff) :: es.
Proof. intros d fs ff r0 l H. cbn [ents]. rewrite (is_exit_entry d r0 H). eexists; reflexivity. Qed.

Lemma not_exit_entry : forall d (r : OrderRec XQ), good_order r -> is_exit d r = false -> is_entry d r = true.
Proof.
  intros d r Hg H. destruct (good_fin r Hg) as (_ & _ & _ & _ & _ & Hd). destruct (is_entry_or_exit d r Hd) as [(A & B)|(A & B)]; congruence.
Qed.

(** Writing the trades of the held position, closed by [r]. *)
Lemma estr_trades : forall col tidx0 par0 done s ts r s' p first d E EG EF X XG XF fs ff sl nts xg xf,
  Forall good_order done -> esane done s -> estr col tidx0 par0 done s ts -> es_pos s = Some p ->
  epos_is p first d E EG EF X XG XF fs ff -> is_exit d r = true ->
  (exists pre, done = pre ++ sl /\ length pre = first) ->
  filled col (or_idx r) E xg xf d TClosed (es_parent s) (es_tidx s) (ents d true fs ff (sl ++ [r])) nts ->
  es_tidx s' = (es_tidx s + length nts)%nat ->
  es_parent s' = (es_parent s + Z.of_nat (ecount s'))%Z ->
  estr col tidx0 par0 (done ++ [r]) s' (ts ++ nts).
Proof.
  intros col tidx0 par0 done s ts r s' p first d E EG EF X XG XF fs ff sl nts xg xf Hgd Hs [J1 J2 J3 J4 J5 J6 J7 J8 J9] Ep Hp Hx Hsl Hf Et Epar.
  destruct (esane_held _ _ _ _ _ _ _ _ _ _ _ _ _ Hs Ep Hp) as (sl0 & [(pre & K0 & K0') (r0 & l & K1 & K1') _ _ _ _ _ _ _]).
  destruct Hsl as (pre' & D1 & D2). assert (sl0 = sl) as -> by (eapply split_unique; [exact K0|exact D1|congruence]).
  assert (Hne : sl <> []) by congruence. rewrite ents_snoc in Hf by auto. rewrite Hx, app_nil_r in Hf.
  assert (Hec : ecount s = 1%nat) by (unfold ecount; rewrite Ep; reflexivity). rewrite Hec in *.
  assert (Hall : forall t, In t nts -> tr_col t = col /\ tr_parent t = es_parent s /\ tr_dir t = d /\ tr_exit_idx t = or_idx r /\ ended_by (done ++ [r]) t).
  { intros t Ht. destruct (filled_in _ _ _ _ _ _ _ _ _ _ _ _ Hf Ht) as (e & k & He & Hi). destruct Hi.
    repeat split; auto. exists done, r, [], (en_r e). apply ents_from in He as (He1 & He2).
    assert (Hin : In (en_r e) done) by (rewrite K0; apply in_or_app; auto).
    rewrite ti_dir. repeat split; auto.
    apply not_exit_entry; auto. rewrite Forall_forall in Hgd. auto. }
  constructor.
  - rewrite map_app, J1, (filled_ids _ _ _ _ _ _ _ _ _ _ _ Hf), app_length, seq_app, J2. reflexivity.
  - rewrite Et, J2, app_length. lia.
  - apply Forall_app. split; auto. apply Forall_forall. intros t Ht. apply Hall; auto.
  - apply Forall_app. split; [eapply Forall_impl; [|exact J4]; intros; apply ended_by_app; auto|].
    apply Forall_forall. intros t Ht. apply Hall; auto.
  - rewrite map_app, (filled_parents _ _ _ _ _ _ _ _ _ _ _ Hf). apply sorted_app; auto.
    apply Forall_forall. intros y Hy. apply in_map_iff in Hy as (u & <- & Hu). rewrite Forall_forall in J6. apply J6 in Hu. lia.
  - apply Forall_app. split; [eapply Forall_impl; [|exact J6]; cbn; intros; lia|].
    apply Forall_forall. intros t Ht. destruct (Hall t Ht) as (_ & -> & _). lia.
  - lia.
  - intros t t' Ht Ht' Ek. apply in_app_or in Ht. apply in_app_or in Ht'. rewrite Forall_forall in J6.
    destruct Ht as [Ht|Ht]; destruct Ht' as [Ht'|Ht']; auto.
    + exfalso. destruct (Hall t' Ht') as (_ & H & _). apply J6 in Ht. lia.
    + exfalso. destruct (Hall t Ht) as (_ & H & _). apply J6 in Ht'. lia.
    + destruct (Hall t Ht) as (_ & _ & A & B & _). destruct (Hall t' Ht') as (_ & _ & A' & B' & _). split; congruence.
  - intros k Hk. destruct (Z.eq_dec k (es_parent s)) as [->|Hn].
    + destruct (ents_cons d fs ff r0 l K1') as (es & Ees). rewrite <- K1 in Ees. rewrite Ees in Hf.
      destruct nts as [|t nts]; [destruct Hf|]. exists t. split; [apply in_or_app; right; left; auto|]. apply (Hall t). left; auto.
    + destruct (J9 k) as (u & Hu & Eu); [lia|]. exists u. split; auto. apply in_or_app; auto.
Qed.

Lemma estr_step : forall crecs col tidx0 par0 done s ts r s' nts, good_order r -> Forall good_order done -> esane done s ->
  estr col tidx0 par0 done s ts -> ecase crecs col done s r s' -> es_trades s' = es_trades s ++ nts ->
  estr col tidx0 par0 (done ++ [r]) s' (ts ++ nts).
Proof.
  intros crecs col tidx0 par0 done s ts r s' nts Hg Hgd Hs J Hc En. pose proof J as [J1 J2 J3 J4 J5 J6 J7 J8 J9].
  assert (Hkeep : ecount s' = ecount s -> es_parent s' = es_parent s \/ False -> es_tidx s' = es_tidx s -> es_trades s' = es_trades s ->
     estr col tidx0 par0 (done ++ [r]) s' (ts ++ nts)).
  { intros A [B|[]] C D. rewrite D in En. assert (nts = []) as -> by (apply (app_inv_head (es_trades s)); rewrite app_nil_r; auto).
    rewrite app_nil_r. constructor; rewrite ?A, ?B, ?C; auto. eapply Forall_impl; [|exact J4]. intros; apply ended_by_app; auto. }
  destruct Hc as [p' E0 E1 H1 Epar Et Eo
    |p first d E EG EF X XG XF fs ff p' E0 H0 He E1 H1 Epar Et Eo
    |p first d E EG EF X XG XF fs ff p' E0 H0 He E1 Hgap H1 Epar Et Eo
    |p first d E EG EF X XG XF fs ff sl nts' E0 H0 He E1 Hcl Hsl' Hts Epar Et Eo
    |p first d E EG EF X XG XF fs ff sl nts' p' fs' ff' E0 H0 He E1 Hgap Hsl' Hts Hfs Hff H1 Epar Et Eo].
  - rewrite Eo in En. assert (nts = []) as -> by (apply (app_inv_head (es_trades s)); rewrite app_nil_r; auto).
    rewrite app_nil_r. unfold ecount in *. rewrite E0 in *. constructor; unfold ecount; rewrite ?E1, ?Epar; auto; try lia.
    + eapply Forall_impl; [|exact J4]. intros; apply ended_by_app; auto.
    + eapply Forall_impl; [|exact J6]. cbn. intros; lia.
    + intros k Hk. apply J9. lia.
  - apply Hkeep; auto. unfold ecount. rewrite E0, E1. auto.
  - apply Hkeep; auto. unfold ecount. rewrite E0, E1. auto.
  - assert (nts' = nts) as -> by (apply (app_inv_head (es_trades s)); congruence).
    eapply estr_trades; eauto. unfold ecount. rewrite E1. cbn. lia.
  - assert (nts' = nts) as -> by (apply (app_inv_head (es_trades s)); congruence).
    eapply estr_trades; eauto. unfold ecount. rewrite E1. cbn. lia.
Qed.

Lemma entry_step_ok : forall col s r done rest s', good_order r -> Forall good_order done -> esane done s ->
  entry_step (done ++ r :: rest) col s (length done, r) = Ok s' ->
  ecase (done ++ r :: rest) col done s r s' /\ es_last s' = Z.of_nat (or_id r).
Proof.
  intros col s r done rest s' Hg Hgd Hs H. pose proof H as H'. unfold entry_step in H'. apply check_record_ok in H' as (Hl & _).
  destruct (entry_step_spec col s r done rest Hg Hgd Hs Hl) as (s1 & E & Hc). rewrite E in H. injection H as <-. exact Hc.
Qed.

Lemma volume_app_le : forall a b, volume a <= volume (a ++ b).
Proof.
  intros a b. unfold volume. induction a as [|x a IH]; cbn; [apply (total_nonneg (fun r => Qabs (bought_size r))); intros; apply Qabs_nonneg|lra].
Qed.

Lemma entry_fold : forall Vt P out0 col tidx0 par0 rest done s ts s',
  Forall good_order (done ++ rest) -> Forall (fun r => oprice r <= P) (done ++ rest) -> volume (done ++ rest) <= Vt ->
  einv Vt P out0 done s ts -> estr col tidx0 par0 done s ts ->
  foldM (entry_step (done ++ rest) col) s (combine (seq (length done) (length rest)) rest) = Ok s' ->
  exists ts', einv Vt P out0 (done ++ rest) s' ts' /\ estr col tidx0 par0 (done ++ rest) s' ts'.
Proof.
  intros Vt P out0 col tidx0 par0. induction rest as [|r rest IH]; intros done s ts s' Hg HP HV HI HJ H.
  - cbn in H. injection H as <-. exists ts. rewrite app_nil_r. auto.
  - cbn [length seq combine foldM] in H. apply bind_ok in H as (s1 & H1 & H2).
    pose proof (proj1 (Forall_app _ _ _) Hg) as (Hg1 & Hg2). pose proof (proj1 (Forall_app _ _ _) HP) as (HP1 & HP2).
    inversion Hg2; inversion HP2; subst.
    destruct (entry_step_ok col s r done rest s1) as (Hc & _); auto. { apply HI. }
    assert (Ea : done ++ r :: rest = (done ++ [r]) ++ rest) by (rewrite <- app_assoc; reflexivity).
    assert (HV' : volume (done ++ [r]) <= Vt).
    { eapply Qle_trans; [|exact HV]. rewrite Ea. apply volume_app_le. }
    destruct (einv_step Vt P out0 done s ts (done ++ r :: rest) col r s1) as (nts & HI1 & En); auto.
    pose proof (estr_step _ col tidx0 par0 done s ts r s1 nts ltac:(assumption) Hg1 (ev_sane _ _ _ _ _ _ HI) HJ Hc En) as HJ1.
    rewrite Ea in *.
    replace (S (length done)) with (length (done ++ [r])) in H2 by (rewrite app_length; cbn; lia).
    eapply IH; eauto.
Qed.

Lemma entry_finish_spec : forall nrows last col out0 tidx0 par0 P os s ts s', 0 <= P -> Qabs last <= P ->
  Forall good_order os -> Forall (fun r => oprice r <= P) os ->
  einv (volume os) P out0 os s ts -> estr col tidx0 par0 os s ts ->
  entry_finish nrows (Fin last) os col s = Ok s' ->
  exists ts', es_trades s' = out0 ++ ts' /\ col_str col tidx0 par0 (es_parent s') ts' /\ col_books P last os ts' /\
    es_tidx s' = (tidx0 + length ts')%nat /\
    (forall t t', In t ts' -> In t' ts' -> tr_parent t = tr_parent t' -> tr_exit_idx t = tr_exit_idx t' /\ tr_status t = tr_status t') /\
    Forall (fun t => ended_by os t \/ begun_by nrows os t) ts'.
Proof.
  intros nrows last col out0 tidx0 par0 P os s ts s' HP0 HP Hgd HPd HI HJ H.
  pose proof HI as [I0 Is I1 I2 I3 I4 I5 I6 I6' I7 I8]. pose proof HJ as [J1 J2 J3 J4 J5 J6 J7 J8 J9].
  pose proof (slack_pos (volume os)) as Hsl. assert (Hsl0 : 0 <= slack (volume os)) by lra.
  assert (HslP : 0 <= slack (volume os) * P) by (apply Qmult_le_0_compat; lra).
  unfold entry_finish in H. destruct (es_pos s) as [p|] eqn:Ep.
  - pose proof Is as Is0. unfold esane in Is0. rewrite Ep in Is0.
    destruct Is0 as (first & d & E & EG & EF & X & XG & XF & fs & ff & sl & Hp & Hh).
    destruct (eheld_is _ _ _ _ _ _ _ _ _ _ _ _ Ep Hp) as (A1 & A2 & A3 & A4 & A5 & A6 & A7).
    pose proof Hh as [(pre & K0 & K0') (r0 & l & K1 & K1') K2 K3 K4 K5 K6 K7 K8].
    pose proof Hp as [X1 X2 (e1 & B1 & C1) (e2 & B2 & C2) (e3 & B3 & C3) (e4 & B4 & C4) (e5 & B5 & C5) (e6 & B6 & C6) X3 X4].
    pose proof (tolq_pos X E) as Htp. assert (HE0 : 0 < E) by lra.
    rewrite B1, B4, B5, B6 in H.
    assert (Hl : is_less_nb (Fin e4) (Fin e1) = true) by (apply is_less_fin; rewrite C1, C4; auto).
    rewrite Hl in H.
    destruct (add_nb_exact e1 e4) as (rem & Er & Er').
    { rewrite C1, C4, tolq_comm. rewrite Qabs_pos; lra. }
    rewrite Er, mul_fin, add_fin in H. unfold entry_trades_of in H. rewrite X1, X2, X3, X4 in H.
    assert (Hslice : firstn (S (length os - 1) - first) (skipn first os) = sl).
    { rewrite K0 at 2. rewrite <- K0', skipn_app, skipn_all, Nat.sub_diag. cbn [skipn app].
      apply firstn_all2. rewrite K0, app_length. lia. }
    rewrite Hslice in H.
    assert (Hgs : Forall good_order sl) by (rewrite K0 in Hgd; apply Forall_app in Hgd; apply Hgd).
    assert (Hps : Forall (fun r => oprice r <= P) sl) by (rewrite K0 in HPd; apply Forall_app in HPd; apply HPd).
    destruct (fill_entry_spec col (nrows - 1) E (XG + (E - X) * last) XF d TOpen (es_parent s) first fs ff e1
      (Qred (e5 + Qred (rem * last))) e6 sl first (es_tidx s)) as (nts & Ef & Hf); auto; try lra.
    { rewrite !Qred_correct, C5, Er', C1, C4. reflexivity. }
    rewrite Ef in H. cbn [bind] in H. injection H as <-. cbn [es_trades es_parent es_tidx].
    rewrite Nat.eqb_refl in Hf. set (es := ents d true fs ff sl) in *.
    assert (Hes : eents os s = es).
    { rewrite (eents_is os _ _ _ _ _ _ _ _ _ _ _ _ sl Ep Hp); [|exists pre; auto]. reflexivity. }
    assert (Hok : Forall eok es) by (apply ents_ok; auto).
    assert (HPe : Forall (fun e => oprice (en_r e) <= P) es).
    { apply Forall_forall. intros e Hin. apply ents_from in Hin as (Hin & _). rewrite Forall_forall in Hps. apply Hps. auto. }
    assert (Hone : esum en_size es / E == 1) by (rewrite <- K3; field; lra).
    rewrite A2 in I2. rewrite A6, A5 in I6'.
    assert (Hxp : Qabs ((XG + (E - X) * last) / E) <= 2 * P).
    { unfold Qdiv. rewrite Qabs_Qmult, (Qabs_pos (/ E)) by (apply Qlt_le_weak, Qinv_lt_0_compat; auto).
      apply Qle_shift_div_r; auto. eapply Qle_trans; [apply Qabs_triangle|].
      rewrite (Qabs_pos XG), Qabs_Qmult, (Qabs_pos (E - X)) by lra.
      pose proof (Qabs_nonneg last). assert (Hm : (E - X) * Qabs last <= (E - X) * P) by (apply Qmult_le_mono; lra).
      assert (HEP : 0 <= E * P) by (apply Qmult_le_0_compat; lra).
      assert (Q1 : (E - X) * P == E * P - X * P) by ring.
      assert (Q2 : 2 * P * E == 2 * (E * P)) by ring. lra. }
    assert (Hall : forall t, In t nts -> tr_col t = col /\ tr_parent t = es_parent s /\ tr_dir t = d /\ tr_exit_idx t = (nrows - 1)%nat /\ begun_by nrows os t).
    { intros t Ht. destruct (filled_in _ _ _ _ _ _ _ _ _ _ _ _ Hf Ht) as (e & k & He & Hi). destruct Hi.
      repeat split; auto. exists (en_r e). apply ents_from in He as (He1 & He2).
      assert (Hin : In (en_r e) os) by (rewrite K0; apply in_or_app; auto).
      rewrite ti_dir. repeat split; auto.
      apply not_exit_entry; auto. rewrite Forall_forall in Hgd. auto. }
    assert (Hec : ecount s = 1%nat) by (unfold ecount; rewrite Ep; reflexivity). rewrite Hec in *.
    rewrite A1 in *.
    exists (ts ++ nts).
    assert (Hlen : (length (ts ++ nts) <= length os)%nat).
    { rewrite app_length, (filled_length _ _ _ _ _ _ _ _ _ _ _ Hf), <- Hes. lia. }
    assert (Hokt : Forall (trade_ok (volume os) P) (ts ++ nts)).
    { apply Forall_app. split; auto. eapply filled_ok; [exact Hf|auto|auto|rewrite <- K3; lra|exact Hxp]. }
    assert (Hfe : conserves_fees os (ts ++ nts)).
    { unfold conserves_fees. rewrite tsum_app, (filled_fees _ _ _ _ _ _ _ _ _ _ _ Hf), Hone, <- K5, I4, A4, A7. ring. }
    split; [rewrite I0, app_assoc; reflexivity|]. split; [|split; [|split; [|split]]].
    + constructor.
      * rewrite map_app, J1, (filled_ids _ _ _ _ _ _ _ _ _ _ _ Hf), app_length, seq_app, J2. reflexivity.
      * apply Forall_app. split; auto. apply Forall_forall. intros t Ht. apply Hall; auto.
      * rewrite map_app, (filled_parents _ _ _ _ _ _ _ _ _ _ _ Hf). apply sorted_app; auto.
        apply Forall_forall. intros y Hy. apply in_map_iff in Hy as (u & <- & Hu). rewrite Forall_forall in J6. apply J6 in Hu. lia.
      * apply Forall_app. split; [eapply Forall_impl; [|exact J6]; cbn; intros; lia|].
        apply Forall_forall. intros t Ht. destruct (Hall t Ht) as (_ & -> & _). lia.
      * lia.
      * intros t t' Ht Ht' Ek. apply in_app_or in Ht. apply in_app_or in Ht'. rewrite Forall_forall in J6.
        destruct Ht as [Ht|Ht]; destruct Ht' as [Ht'|Ht'].
        -- apply J8; auto.
        -- exfalso. destruct (Hall t' Ht') as (_ & H & _). apply J6 in Ht. lia.
        -- exfalso. destruct (Hall t Ht) as (_ & H & _). apply J6 in Ht'. lia.
        -- destruct (Hall t Ht) as (_ & _ & A & B & _). destruct (Hall t' Ht') as (_ & _ & A' & B' & _). congruence.
      * intros k Hk. destruct (Z.eq_dec k (es_parent s)) as [->|Hn].
        -- destruct (ents_cons d fs ff r0 l K1') as (es' & Ees). rewrite <- K1 in Ees. unfold es in Hf. rewrite Ees in Hf.
           destruct nts as [|t nts]; [destruct Hf|]. exists t. split; [apply in_or_app; right; left; auto|]. apply (Hall t). left; auto.
        -- destruct (J9 k) as (u & Hu & Eu); [lia|]. exists u. split; auto. apply in_or_app; auto.
    + constructor; auto.
      * unfold conserves_size. rewrite within_near. replace (2 * length os)%nat with (length os + length os)%nat by lia.
        eapply near_trans with (b := volume os + Qabs (dir_sign d * (E - X))).
        -- unfold near in *. rewrite Qabs_Qminus. eapply Qle_trans; [|exact I5]. apply Qle_lteq; right; apply Qabs_wd.
           rewrite tsum_app, (filled_size _ _ _ _ _ _ _ _ _ _ _ Hf), <- K3, Qabs_signed, (Qabs_pos (E - X)) by lra. rewrite A2, A5. ring.
        -- eapply near_same; [apply near_abs; unfold near in *; rewrite Qabs_Qminus; exact I1|]. rewrite A2, A5. ring.
      * apply conserves_profit_intro; auto.
        replace (2 * length os)%nat with (length os + length os)%nat by lia.
        eapply near_trans with (b := gross_cash os + last * (dir_sign d * (E - X))).
        -- eapply near_same; [exact I3|]. rewrite tsum_app, (filled_gross _ _ _ _ _ _ _ _ _ _ _ Hf), Hone, <- K4, A3, A6. ring.
        -- apply (near_scale _ _ _ _ last P HP) in I1. eapply near_same; [|instantiate (1 := last * ledger_position os); instantiate (1 := last * (dir_sign d * (E - X))); ring].
           unfold near in *. rewrite Qabs_Qminus. rewrite A2, A5 in I1. exact I1.
    + rewrite app_length, J2. lia.
    + intros t t' Ht Ht' Ek. apply in_app_or in Ht. apply in_app_or in Ht'. rewrite Forall_forall in J6, J4.
      destruct Ht as [Ht|Ht]; destruct Ht' as [Ht'|Ht'].
      * split; [apply J8; auto|]. destruct (J4 t Ht), (J4 t' Ht'). congruence.
      * exfalso. destruct (Hall t' Ht') as (_ & H & _). apply J6 in Ht. lia.
      * exfalso. destruct (Hall t Ht) as (_ & H & _). apply J6 in Ht'. lia.
      * destruct (Hall t Ht) as (_ & _ & A & B & (C & _)). destruct (Hall t' Ht') as (_ & _ & A' & B' & (C' & _)). split; congruence.
    + apply Forall_app. split; [eapply Forall_impl; [|exact J4]; auto|].
      apply Forall_forall. intros t Ht. right. apply Hall; auto.
  - injection H as <-. destruct (eheld_none s Ep) as (A1 & A2 & A3 & A4 & A5 & A6 & A7). exists ts.
    unfold ecount in *. rewrite Ep in *. rewrite A1 in *.
    assert (Hfe : conserves_fees os ts) by (unfold conserves_fees; rewrite I4, A4, A7; ring).
    assert (Hn : (length ts <= length os)%nat) by lia.
    assert (HL : near (length os) (slack (volume os)) (ledger_position os) 0) by (eapply near_same; [exact I1|]; ring).
    split; auto. split; [|split; [|split; [|split]]]; auto.
    + constructor; auto; try lia.
      * eapply Forall_impl; [|exact J6]. cbn. intros; lia.
      * intros; apply J8; auto.
      * intros k Hk. apply J9. cbn. lia.
    + constructor; auto.
      * unfold conserves_size. rewrite within_near. replace (2 * length os)%nat with (length os + length os)%nat by lia.
        eapply near_trans with (b := volume os).
        -- unfold near in *. rewrite Qabs_Qminus. eapply Qle_trans; [|exact I5]. apply Qle_lteq; right; apply Qabs_wd. rewrite A2, A5. ring.
        -- apply near_abs in HL. eapply near_same; [unfold near in *; rewrite Qabs_Qminus; exact HL|]. change (Qabs 0) with 0. ring.
      * apply conserves_profit_intro; auto.
        replace (2 * length os)%nat with (length os + length os)%nat by lia.
        eapply near_trans with (b := gross_cash os).
        -- eapply near_same; [exact I3|]. ring.
        -- apply (near_scale _ _ _ _ last P HP) in HL. eapply near_same; [unfold near in *; rewrite Qabs_Qminus; exact HL|]. ring.
    + intros t t' Ht Ht' Ek. split; [apply J8; auto|]. rewrite Forall_forall in J4. destruct (J4 t Ht), (J4 t' Ht'). congruence.
    + eapply Forall_impl; [|exact J4]. auto.
Qed.
