(** * Proofs of the order-level properties, continued (C06, C07, C09, C10) *)
From Coq Require Import ZArith QArith Qabs Qround Qminmax Bool Lia Lqa List String Setoid Morphisms.
From Verif Require Import Base Num MathNb TolSpec Order OrderSpec Account XQFacts OrderFacts ExecFacts
  FillFacts OrderLemmas OrderGen FillView OrderLemmas2.
Import ListNotations.

(** Absolute values bounded above become two inequalities. *)
Ltac qab :=
  repeat match goal with
  | H : Qabs _ <= _ |- _ => apply Qabs_Qle_condition in H; destruct H
  end;
  try match goal with |- Qabs _ <= _ => apply Qabs_Qle_condition end.

(** ** C06 *)
Lemma zero_size_amount_value : forall draws k (s : ProcState XQ) (o : Order XQ) es' r k' q,
  (forall f, o_fees o = Fin f -> - (1) < f) ->
  o_size o = Fin q -> q == 0 ->
  o_size_type o = Amount \/ o_size_type o = Value ->
  execute_order_nb draws k s o = Ok (es', r, k') ->
  r_status r <> Filled.
Proof.
  intros draws k s o es' r k' q Hf Hq Hq0 Hst H Hfl.
  assert (Hreg : regular o (snap (ps_value s))).
  { unfold regular. destruct Hst as [-> | ->]; exact I. }
  apply filled_view in H as [Hu|(cash & p1 & d & free & price & f & ff & slip & mn & rp & osz & pct & Es & Hck & Hf' & Hcv & Hrs & _ & Hbs)];
    auto; [exfalso; eauto using unfilled_not|].
  assert (Ha : exists a, requested o p1 (ps_val_price s) (ps_value s) a /\ a == 0).
  { assert (Hz : signed (o_direction o) q == 0) by (destruct (o_direction o); cbn; lra).
    destruct Hst as [E|E].
    - exists 0. split; [|reflexivity]. exists q. split; auto. rewrite E. cbv zeta. lra.
    - assert (exists x, ps_val_price s = Fin x) as (x & Ex).
      { unfold resolve_size in Hrs. cbv zeta in Hrs. rewrite E in Hrs. cbn [resolve_target_percent] in Hrs.
        unfold resolve_value in Hrs.
        destruct (ps_val_price s) as [| | |x]; [| | |eauto]; exfalso;
          rewrite snap_nonfin in Hrs by discriminate; cbn in Hrs; discriminate. }
      exists (signed (o_direction o) q / x). split.
      + exists q. split; auto. rewrite E. cbv zeta. exists x. split; auto. reflexivity.
      + rewrite Hz. unfold Qdiv. ring. }
  destruct Ha as (a & Hrq & Ha0).
  destruct (resolve_size_requested _ _ _ _ _ _ _ Hrq Hrs) as (-> & a' & -> & Ha').
  destruct Hbs as [(Hgt & _)|(Hgt & fs & fee & net & np & nd & C & E)].
  - unfold gtb in Hgt. cbn in Hgt. change (inject_Z 0) with 0 in Hgt. qb. lra.
  - pose proof (sc_pos _ _ _ _ _ _ _ _ _ _ _ _ _ _ _ C) as Hp.
    pose proof (sc_size _ _ _ _ _ _ _ _ _ _ _ _ _ _ _ C eq_refl) as Hsz.
    change (neg (Fin a')) with (Fin (Qred (- a'))) in *. cbn in Hsz. qb. rewrite Qred_correct in Hsz. lra.
Qed.

Lemma zero_percent_long_only : forall draws k (s : ProcState XQ) (o : Order XQ) es' r k' q,
  o_size o = Fin q -> q == 0 -> o_size_type o = Percent -> o_direction o = LongOnly ->
  execute_order_nb draws k s o = Ok (es', r, k') ->
  r_status r <> Filled.
Proof.
  intros draws k s o es' r k' q Hq Hq0 Hst Hdir H Hfl.
  apply execute_order_inv in H as [Hu|(p & d & price & f & ff & slip & mn & rp & osz & pct & Hsn & Hck & Hrs & Hbs)];
    [eauto using unfilled_not|].
  unfold resolve_size in Hrs. rewrite Hst, Hq, Hdir in Hrs. cbn [is_short_only resolve_target_percent] in Hrs.
  cbn [bind resolve_value] in Hrs. unfold resolve_amount in Hrs. rewrite sign_fin in Hrs.
  destruct (qlt_bool 0 q) eqn:E2; [qb; lra|]. destruct (qlt_bool q 0) eqn:E3; [qb; lra|].
  destruct (xq_abs_fin q) as (rq & Erq & Hrq).
  change (abs (Fin q)) with (xq_abs (Fin q)) in Hrs. rewrite Erq in Hrs.
  assert (osz = NaN /\ pct = Fin rq) as [-> ->] by (vm_compute in Hrs; split; congruence).
  assert (Hrq0 : rq == 0) by (rewrite Hrq, Hq0; reflexivity).
  destruct Hck as [Kcash Kpos Kdebt Kd0 Kfree Kprice Kprice0 Klong Kshort Kfees Kff Kslip Kslip0 Kmin Kmin0 Kmax Kgran Krp Krp0].
  unfold buy_or_sell in Hbs. change (gtb NaN zero) with false in Hbs. cbv iota in Hbs.
  unfold sell_nb in Hbs. cbv zeta in Hbs. unfold sell_limit in Hbs. rewrite Hdir, Kpos in Hbs. cbn [is_long_only] in Hbs.
  change (min2 (Fin p) (neg NaN)) with (Fin p) in Hbs. cbn [bind] in Hbs.
  change (negb (isnan (Fin rq))) with true in Hbs. cbv iota in Hbs.
  change (mul (Fin rq) (Fin p)) with (Fin (Qred (rq * p))) in Hbs.
  assert (Hz : Qred (rq * p) == 0) by (rewrite Qred_correct, Hrq0; ring).
  set (z := Qred (rq * p)) in *. clearbody z.
  assert (Hg : gtb (Fin z) (o_max_size o) = false).
  { destruct Kmax as [->|(m & -> & Hm)]; cbn; [reflexivity|]. unfold gtb. cbn. qbg. lra. }
  rewrite Hg in Hbs. cbn [andb] in Hbs. unfold sell_sized in Hbs. cbn [is_long_only negb andb] in Hbs.
  destruct (eqb (es_position (snap_state s)) zero); [unfold not_filled in Hbs; injection Hbs as _ <-; discriminate Hfl|].
  apply bind_ok in Hbs as (sl & Hsl & Hbs).
  assert (exists w, sl = Fin w /\ w == 0) as (w & -> & Hw).
  { destruct Kgran as [Kg|(g & Kg & Hgp)]; rewrite Kg in Hsl.
    - injection Hsl as <-. eauto.
    - apply granulate_fin in Hsl as (w & kk & -> & _ & Hw1 & _ & Hw2); auto. exists w. split; auto.
      specialize (Hw2 ltac:(lra)). lra. }
  assert (Hcl : is_close_nb (Fin w) zero = true).
  { apply is_close_zero. qabs_all; lra. }
  rewrite Hcl in Hbs. unfold not_filled in Hbs. injection Hbs as _ <-. discriminate Hfl.
Qed.

(** ** C07: debt *)
Definition debt_ok (p d : Q) : Prop :=
  0 <= d /\ (p == 0 \/ (1 # 1000000000000) < Qabs p) /\ (0 <= p -> d == 0).

Lemma snap_debt : forall p d p' d', debt_ok p d ->
  snap (Fin p) = Fin p' -> snap (Fin d) = Fin d' -> debt_ok p' d' /\ p' == p.
Proof.
  intros p d p' d' (H1 & H2 & H3) Ep Ed.
  destruct (snap_fin p) as (q & E & Hq). rewrite E in Ep. inversion Ep; subst q. clear Ep E.
  destruct (snap_fin d) as (q & E & Hq'). rewrite E in Ed. inversion Ed; subst q. clear Ed E.
  assert (Hp : p' == p). { destruct Hq as [[Hz Hs]|[-> _]]; [|reflexivity]. destruct H2; lra. }
  split; auto. split; [|split].
  - destruct Hq' as [[Hz _]|[-> _]]; lra.
  - rewrite Hp. auto.
  - intros Hp0. destruct Hq' as [[Hz _]|[-> _]]; [auto|]. apply H3. lra.
Qed.

Lemma exec_debt_ok : forall draws k (s : ProcState XQ) (o : Order XQ) es' r k' p d,
  (forall f, o_fees o = Fin f -> - (1) < f) ->
  (forall sl, o_slippage o = Fin sl -> sl <= 1) ->
  regular o (snap (ps_value s)) ->
  ps_position s = Fin p -> ps_debt s = Fin d -> debt_ok p d ->
  execute_order_nb draws k s o = Ok (es', r, k') ->
  exists p' d', es_position es' = Fin p' /\ es_debt es' = Fin d' /\ debt_ok p' d'.
Proof.
  intros draws k s o es' r k' p0 d0 Hf Hsl Hreg Hp Hd Hok H.
  assert (Hsn : exists p1 d1, snap (Fin p0) = Fin p1 /\ snap (Fin d0) = Fin d1).
  { destruct (snap_fin p0) as (a & Ea & _), (snap_fin d0) as (b & Eb & _). eauto. }
  destruct Hsn as (p1 & d1 & Ep1 & Ed1).
  destruct (snap_debt _ _ _ _ Hok Ep1 Ed1) as [Hok1 Hpp].
  apply filled_view in H as [[-> _]|(cash & p & d & free & price & f & ff & slip & mn & rp & osz & pct & Es & Hck & Hf' & Hcv & Hrs & Hfl & Hbs)];
    auto.
  - exists p1, d1. cbn. rewrite Hp, Hd. auto.
  - unfold snap_state in Es. rewrite Hp, Hd, Ep1, Ed1 in Es. injection Es as _ -> -> _.
    destruct Hok1 as (H1 & H2 & H3).
    destruct Hck as [Kcash Kpos Kdebt Kd0 Kfree Kprice Kprice0 Klong Kshort Kfees Kff Kslip Kslip0 Kmin Kmin0 Kmax Kgran Krp Krp0].
    destruct Hbs as [(Hgt & cl & fs & fee & req & np & nd & Hcl & C & E)|(Hgt & fs & fee & net & np & nd & C & E)];
      exists np, nd; (split; [apply E|]); (split; [apply E|]).
    + pose proof (bc_nonneg _ _ _ _ _ _ _ _ _ _ _ _ _ _ _ _ C) as Hnn.
      pose proof (be_np _ _ _ _ _ _ _ _ _ _ _ _ E) as Hnp.
      split; [|split; [eapply approx_add_gap; exact Hnp|]].
      * destruct (Qlt_le_dec p 0) as [Hlt|Hge].
        -- destruct (be_short _ _ _ _ _ _ _ _ _ _ _ _ E Hlt) as (diff & fr & Hdf & Hnd & _).
           eapply approx_add_sgn; [exact Hnd|].
           destruct Hdf as [[Hn Hdf]|[Hn Hdf]]; [|lra].
           assert (Hlt2 : fs < - p) by (destruct Hnp as [[Hz _]|[Hz _]]; lra).
           assert (Hd1 : diff <= d).
           { rewrite Hdf. assert (Hq : 0 <= d / - p) by (apply Qdiv_nonneg; lra).
             assert (Hq2 : d / - p * - p == d) by (apply Qdiv_mul; lra).
             assert (0 <= (- p - fs) * (d / - p)) by (apply Qmult_le_0_compat; lra). lra. }
           lra.
        -- destruct (be_long _ _ _ _ _ _ _ _ _ _ _ _ E Hge) as [-> _]. auto.
      * intros Hnp0. destruct (Qlt_le_dec p 0) as [Hlt|Hge].
        -- destruct (be_short _ _ _ _ _ _ _ _ _ _ _ _ E Hlt) as (diff & fr & Hdf & Hnd & _).
           destruct Hdf as [[Hn Hdf]|[Hn Hdf]]; [lra|].
           destruct Hnd as [[Hz _]|[Hz Ht]]; [auto|]. lra.
        -- destruct (be_long _ _ _ _ _ _ _ _ _ _ _ _ E Hge) as [-> _]. auto.
    + pose proof (sc_pos _ _ _ _ _ _ _ _ _ _ _ _ _ _ _ C) as Hpos.
      pose proof (se_np _ _ _ _ _ _ _ _ _ _ _ _ _ _ E) as Hnp.
      split; [|split; [eapply approx_add_gap; exact Hnp|]].
      * destruct (Qlt_le_dec np 0) as [Hlt|Hge].
        -- destruct (se_short _ _ _ _ _ _ _ _ _ _ _ _ _ _ E Hlt) as (sv & diff & Hsv & Hnd & _).
           assert (0 <= sv); [|lra]. rewrite Hsv.
           apply Qmult_le_0_compat; [destruct (Qlt_le_dec p 0); lra|].
           rewrite sell_price_eq. specialize (Hsl slip Kslip). apply Qmult_le_0_compat; lra.
        -- destruct (se_long _ _ _ _ _ _ _ _ _ _ _ _ _ _ E Hge) as [-> _]. auto.
      * intros Hnp0. destruct (se_long _ _ _ _ _ _ _ _ _ _ _ _ _ _ E Hnp0) as [-> _].
        apply H3. destruct Hnp as [[Hz Ha]|[Hz Ha]]; [|lra].
        destruct (Qlt_le_dec p 0); [|auto]. exfalso.
        apply tolq_le_iff in Ha. qabs_all; lra.
Qed.

Definition acct_debt_ok (a : Acct XQ) : Prop :=
  forall c, exists p d, ac_pos a c = Fin p /\ ac_debt a c = Fin d /\ debt_ok p d.

Lemma acct_step_debt_ok : forall draws a k e a' k',
  (forall f, o_fees (ev_order e) = Fin f -> - (1) < f) ->
  (forall sl, o_slippage (ev_order e) = Fin sl -> sl <= 1) ->
  regular (ev_order e) (snap (ev_value e)) ->
  acct_debt_ok a -> acct_step draws (a, k) e = Ok (a', k') -> acct_debt_ok a'.
Proof.
  intros draws a k e a' k' Hf Hsl Hreg Hok H.
  unfold acct_step in H. apply bind_ok in H as ([[es r] k1] & He & H). injection H as <- <-.
  intros c. cbn [ac_pos ac_debt acct_put fst]. destruct (Nat.eq_dec c (ev_col e)) as [->|Hne].
  - rewrite !fupd_same. destruct (Hok (ev_col e)) as (p & d & Hp & Hd & Hpd).
    eapply exec_debt_ok in He; eauto.
  - rewrite !fupd_other by auto. apply Hok.
Qed.

Lemma acct_run_debt_ok : forall draws evs a k a' k',
  (forall e, In e evs ->
    (forall f, o_fees (ev_order e) = Fin f -> - (1) < f) /\
    (forall sl, o_slippage (ev_order e) = Fin sl -> sl <= 1) /\
    regular (ev_order e) (snap (ev_value e))) ->
  acct_debt_ok a -> acct_run draws (a, k) evs = Ok (a', k') -> acct_debt_ok a'.
Proof.
  intros draws evs a k a' k' He Hok H.
  apply (foldM_inv _ _ (fun s => acct_debt_ok (fst s))) in H; auto.
  intros [b kb] e [b' kb'] HP Hin Hs. destruct (He e Hin) as (H1 & H2 & H3).
  eapply acct_step_debt_ok; eauto.
Qed.

(** ** C07: free cash. One order changes free cash by the change of cash
    minus twice the change of debt, up to tolerance. *)
Definition near (eps a b : Q) : Prop := Qabs (a - b) <= eps.

Lemma tolq_bound : forall a b m, Qabs a <= m -> Qabs b <= m ->
  tolq a b <= (1 # 1000000000) * m + (1 # 1000000000000).
Proof.
  intros a b m Ha Hb. unfold tolq. apply Q.max_case; [intros ? ? E; lra| |].
  - apply Q.max_case; [intros ? ? E; lra| |]; lra.
  - pose proof (Qabs_nonneg a). lra.
Qed.

Lemma snap_near : forall a q, snap (Fin a) = Fin q -> Qabs (q - a) <= (1 # 1000000000000) /\ Qabs q <= Qabs a.
Proof.
  intros a q H. destruct (snap_fin a) as (z & E & Hz). rewrite E in H. inversion H; subst z.
  destruct Hz as [[Hz Hs]|[-> _]]; qabs_all; try lra; split; lra.
Qed.

Lemma exec_free_cash : forall draws k (s : ProcState XQ) (o : Order XQ) es' r k' c fr p d c' fr' d' M,
  (forall f, o_fees o = Fin f -> - (1) < f) ->
  (forall sl, o_slippage o = Fin sl -> sl <= 1) ->
  regular o (snap (ps_value s)) ->
  ps_cash s = Fin c -> ps_free_cash s = Fin fr -> ps_position s = Fin p -> ps_debt s = Fin d ->
  debt_ok p d ->
  execute_order_nb draws k s o = Ok (es', r, k') ->
  es_cash es' = Fin c' -> es_free_cash es' = Fin fr' -> es_debt es' = Fin d' ->
  Qabs c <= M -> Qabs fr <= M -> Qabs d <= M -> Qabs c' <= M -> Qabs d' <= M ->
  Qabs ((fr' - fr) - ((c' - c) - 2 * (d' - d))) <= (12 # 1000000000) * M + (20 # 1000000000000).
Proof.
  intros draws k s o es' r k' c fr p0 d0 c' fr' d' M Hf Hsl Hreg Hc Hfr Hp Hd Hok H Hc' Hfr' Hd' B1 B2 B3 B4 B5.
  assert (HM : 0 <= M) by (pose proof (Qabs_nonneg c); lra).
  destruct (snap_fin c) as (c1 & Ec1 & _). destruct (snap_near _ _ Ec1) as [Nc1 Nc2].
  destruct (snap_fin fr) as (f1 & Ef1 & _). destruct (snap_near _ _ Ef1) as [Nf1 Nf2].
  destruct (snap_fin p0) as (p1 & Ep1 & _).
  destruct (snap_fin d0) as (d1 & Ed1 & _). destruct (snap_near _ _ Ed1) as [Nd1 Nd2].
  destruct (snap_debt _ _ _ _ Hok Ep1 Ed1) as [Hok1 Hpp].
  assert (Hkey : Qabs ((fr' - f1) - ((c' - c1) - 2 * (d' - d1))) <= (12 # 1000000000) * M + (14 # 1000000000000)).
  2:{ clear - Nc1 Nf1 Nd1 Hkey. qab; lra. }
  assert (Nc3 : Qabs c1 <= M) by lra. assert (Nf3 : Qabs f1 <= M) by lra. assert (Nd3 : Qabs d1 <= M) by lra.
  clear Nc2 Nf2 Nd2.
  apply filled_view in H as [[-> _]|(cash & p & d & free & price & f & ff & slip & mn & rp & osz & pct & Es & Hck & Hf' & Hcv & Hrs & Hfl & Hbs)];
    auto.
  - cbn in Hc', Hfr', Hd'. rewrite Hc, Ec1 in Hc'. rewrite Hfr, Ef1 in Hfr'. rewrite Hd, Ed1 in Hd'.
    inversion Hc'; inversion Hfr'; inversion Hd'; subst. qab; lra.
  - unfold snap_state in Es. rewrite Hp, Hd, Hc, Hfr, Ep1, Ed1, Ec1, Ef1 in Es. injection Es as <- -> -> <-.
    destruct Hok1 as (H1 & H2 & H3).
    destruct Hck as [Kcash Kpos Kdebt Kd0 Kfree Kprice Kprice0 Klong Kshort Kfees Kff Kslip Kslip0 Kmin Kmin0 Kmax Kgran Krp Krp0].
    destruct Hbs as [(Hgt & cl & fs & fee & req & np & nd & Hcl & C & E)|(Hgt & fs & fee & net & np & nd & C & E)].
    + pose proof (bc_nonneg _ _ _ _ _ _ _ _ _ _ _ _ _ _ _ _ C) as Hnn.
      pose proof (be_cash _ _ _ _ _ _ _ _ _ _ _ _ E) as (cq & Ecq & Hcash). rewrite Hc' in Ecq. inversion Ecq; subst cq.
      pose proof (be_debt _ _ _ _ _ _ _ _ _ _ _ _ E) as Edq. rewrite Hd' in Edq. inversion Edq; subst nd.
      pose proof (be_np _ _ _ _ _ _ _ _ _ _ _ _ E) as Hnp.
      apply approx_add_bound in Hcash.
      (* bound the cash that moved *)
      assert (Hreq : Qabs req <= (21 # 10) * M + (2 # 1000000000000)).
      { destruct (Qlt_le_dec (Qabs req) M) as [|Hge]; [lra|].
        assert (Ht : tolq c1 (- req) <= (1 # 1000000000) * Qabs req + (1 # 1000000000000)).
        { apply tolq_bound; [lra|]. rewrite Qabs_opp. lra. }
        pose proof (Qabs_cases req) as Hw. set (w := Qabs req) in *. clearbody w.
        clear - Hw Ht Hcash Nc3 B4 Hge HM. apply Qabs_Qle_condition in Hcash, B4, Nc3. lra. }
      assert (T1 : tolq c1 (- req) <= (1 # 1000000000) * ((21 # 10) * M + (2 # 1000000000000)) + (1 # 1000000000000)).
      { apply tolq_bound; [lra|rewrite Qabs_opp; lra]. }
      destruct (Qlt_le_dec p 0) as [Hlt|Hge].
      * destruct (be_short _ _ _ _ _ _ _ _ _ _ _ _ E Hlt) as (diff & fx & Hdf & Hnd & (fq & -> & Hfq) & Hfe).
        destruct Hfe as (fe & Efe & Hfe). rewrite Hfr' in Efe. inversion Efe; subst fe.
        assert (Hdd : 0 <= diff <= d).
        { destruct Hdf as [[Hn Hdf]|[Hn Hdf]]; [|lra].
          assert (Hlt2 : fs < - p) by (destruct Hnp as [[Hz _]|[Hz _]]; lra).
          rewrite Hdf. assert (Hq : 0 <= d / - p) by (apply Qdiv_nonneg; lra).
          assert (Hq2 : d / - p * - p == d) by (apply Qdiv_mul; lra).
          assert (0 <= (- p - fs) * (d / - p)) by (apply Qmult_le_0_compat; lra).
          assert (0 <= fs * (d / - p)) by (apply Qmult_le_0_compat; lra). lra. }
        apply approx_add_bound in Hnd. apply approx_add_bound in Hfe.
        assert (T3 : tolq d (- diff) <= (1 # 1000000000) * M + (1 # 1000000000000)).
        { apply tolq_bound; [lra|]. rewrite Qabs_opp. qab; lra. }
        assert (T2 : tolq fq (- req) <= (1 # 1000000000) * (3 * M + (2 # 1000000000000)) + (1 # 1000000000000)).
        { apply tolq_bound; [|rewrite Qabs_opp; lra]. rewrite Hfq. qab; lra. }
        qab; lra.
      * destruct (be_long _ _ _ _ _ _ _ _ _ _ _ _ E Hge) as [-> (fe & Efe & Hfe)].
        rewrite Hfr' in Efe. inversion Efe; subst fe.
        apply approx_add_bound in Hfe.
        assert (T2 : tolq f1 (- req) <= (1 # 1000000000) * ((21 # 10) * M + (2 # 1000000000000)) + (1 # 1000000000000)).
        { apply tolq_bound; [lra|rewrite Qabs_opp; lra]. }
        qab; lra.
    + pose proof (se_cash _ _ _ _ _ _ _ _ _ _ _ _ _ _ E) as (cq & Ecq & Hcash). rewrite Hc' in Ecq. inversion Ecq; subst cq.
      pose proof (se_debt _ _ _ _ _ _ _ _ _ _ _ _ _ _ E) as Edq. rewrite Hd' in Edq. inversion Edq; subst nd.
      assert (Hnet : Qabs net <= 2 * M) by (qab; lra).
      destruct (Qlt_le_dec np 0) as [Hlt|Hge].
      * destruct (se_short _ _ _ _ _ _ _ _ _ _ _ _ _ _ E Hlt) as (sv & diff & Hsv & Hnd & Hdiff & (fe & Efe & Hfe)).
        rewrite Hfr' in Efe. inversion Efe; subst fe.
        assert (Hsvb : Qabs sv <= 2 * M) by (qab; lra).
        apply approx_add_bound in Hdiff. apply approx_add_bound in Hfe.
        assert (T1 : tolq net (- (2 * sv)) <= (1 # 1000000000) * (4 * M) + (1 # 1000000000000)).
        { apply tolq_bound; qab; lra. }
        assert (T2 : tolq f1 diff <= (1 # 1000000000) * (7 * M + (2 # 1000000000000)) + (1 # 1000000000000)).
        { apply tolq_bound; qab; lra. }
        clear - Hnet Hcash Hnd Hdiff Hfe T1 T2 HM.
        qab; lra.
      * destruct (se_long _ _ _ _ _ _ _ _ _ _ _ _ _ _ E Hge) as [-> (fe & Efe & Hfe)].
        rewrite Hfr' in Efe. inversion Efe; subst fe. 
        clear - Hcash Hfe HM. qab; lra.
Qed.

(** ** C09 *)
Lemma target_reached : forall draws k (s : ProcState XQ) (o : Order XQ) es' r k' p t,
  (forall f, o_fees o = Fin f -> - (1) < f) ->
  execute_order_nb draws k s o = Ok (es', r, k') ->
  r_status r = Filled ->
  snapped (ps_position s) (Fin p) ->
  target o (ps_val_price s) (ps_value s) t ->
  exists size p', r_size r = Fin size /\ es_position es' = Fin p' /\
    Qabs (p' - t) <= Qabs (size - Qabs (t - p)) + tolq p size /\
    (o_allow_partial o = false -> Qabs (size - Qabs (t - p)) <= tolq size (t - p)).
Proof.
  intros draws k s o es' r k' p t Hf H Hfl Hsn Ht.
  assert (Hrq : requested o p (ps_val_price s) (ps_value s) (t - p)).
  { destruct Ht as (q & Hq & Hm). exists q. split; auto. cbv zeta in *.
    destruct (o_size_type o); try contradiction.
    - rewrite Hm. reflexivity.
    - destruct Hm as (x & E1 & E2). exists x. split; auto. rewrite E2. reflexivity.
    - destruct Hm as (x & y & E1 & E3 & E2). exists x, y. split; auto. split; auto. rewrite E2. reflexivity. }
  destruct (size_requested _ _ _ _ _ _ _ _ _ Hf H Hfl Hsn Hrq) as (size & p' & E1 & E2 & Hside & Hpart).
  exists size, p'. split; auto. split; auto.
  assert (Ta : tolq size (Qabs (t - p)) == tolq size (t - p)).
  { unfold tolq. rewrite (Qabs_pos (Qabs (t-p))) by apply Qabs_nonneg. reflexivity. }
  split.
  - destruct Hside as [(Ha & _ & Hs & Hap)|(Ha & _ & Hs & Hap)]; apply approx_add_bound in Hap.
    + set (tl := tolq p size) in *. clearbody tl. clear - Hap Ha. rewrite (Qabs_pos (t - p)) by lra. qabs_all; lra.
    + assert (Tb : tolq p (- size) == tolq p size).
      { unfold tolq. rewrite Qabs_opp. reflexivity. }
      rewrite Tb in Hap. set (tl := tolq p size) in *. clearbody tl. clear - Hap Ha. rewrite (Qabs_neg (t - p)) by lra. qabs_all; lra.
  - intros Hal. specialize (Hpart Hal). rewrite Ta in Hpart.
    pose proof (tolq_pos size (t - p)).
    destruct Hside as [(Ha & _ & Hs & Hap)|(Ha & _ & Hs & Hap)].
    + set (tl := tolq size (t - p)) in *. clearbody tl. clear - Hpart Ha Hs H0.
      rewrite (Qabs_pos (t - p)) in * by lra. qabs_all; lra.
    + set (tl := tolq size (t - p)) in *. clearbody tl. clear - Hpart Ha Hs H0.
      rewrite (Qabs_neg (t - p)) in * by lra. qabs_all; lra.
Qed.

(** ** C10 *)
Lemma update_value_fin : forall cb cn pb pn vp px v rv rp,
  update_value_nb (Fin cb) (Fin cn) (Fin pb) (Fin pn) vp (Fin px) (Fin v) = (rp, rv) ->
  (pb == 0 \/ exists x, vp = Fin x) ->
  rp = Fin px /\ exists v', rv = Fin v' /\
  v' == v + (cn - cb) + (pn * px - (match vp with Fin x => pb * x | _ => 0 end)).
Proof.
  intros cb cn pb pn vp px v rv rp H Hvp. unfold update_value_nb in H. cbv zeta in H.
  assert (Hb : exists ab, (if neb (Fin pb) zero then mul (Fin pb) vp else zero) = Fin ab /\
                ab == match vp with Fin x => pb * x | _ => 0 end).
  { unfold neb. cbn [eqb XQnum zero ofZ xq_eqb]. change (inject_Z 0) with 0.
    destruct (Qeq_bool pb 0) eqn:Ez; qb; cbn [negb].
    - exists (inject_Z 0). split; [reflexivity|]. destruct vp; try reflexivity. rewrite Ez.
      change (inject_Z 0) with 0. ring.
    - destruct Hvp as [C|(x & ->)]; [tauto|]. eexists; split; [reflexivity|]. apply Qred_correct. }
  assert (Hn : exists an, (if neb (Fin pn) zero then mul (Fin pn) (Fin px) else zero) = Fin an /\ an == pn * px).
  { unfold neb. cbn [eqb XQnum zero ofZ xq_eqb]. change (inject_Z 0) with 0.
    destruct (Qeq_bool pn 0) eqn:Ez; qb; cbn [negb].
    - exists (inject_Z 0). split; [reflexivity|]. rewrite Ez. change (inject_Z 0) with 0. ring.
    - eexists; split; [reflexivity|]. apply Qred_correct. }
  destruct Hb as (ab & Eb & Hab). destruct Hn as (an & En & Han). rewrite Eb, En in H.
  injection H as <- <-. split; auto.
  eexists; split; [reflexivity|]. rewrite !Qred_correct, Han, <- Hab. reflexivity.
Qed.
