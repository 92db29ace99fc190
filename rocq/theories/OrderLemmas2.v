(** * Proofs of the order-level properties, continued (C02, C04-C06, C09) *)
From Coq Require Import ZArith QArith Qabs Qround Qminmax Bool Lia Lqa List String Setoid Morphisms.
From Verif Require Import Base Num MathNb TolSpec Order OrderSpec Account XQFacts OrderFacts ExecFacts FillFacts OrderLemmas FillView.
Import ListNotations.

Lemma snap_state_snapped : forall s cash p d free,
  snap_state s = mkExec cash (Fin p) (Fin d) free ->
  snapped (ps_cash s) cash /\ snapped (ps_position s) (Fin p) /\
  snapped (ps_debt s) (Fin d) /\ snapped (ps_free_cash s) free.
Proof.
  intros s cash p d free H. unfold snap_state in H. injection H as <- <- <- <-.
  repeat split; apply snap_snapped.
Qed.

Lemma snap_pos_id : forall x q, snap x = Fin q -> ~ q == 0 -> x = Fin q.
Proof.
  intros [| | |a] q H Hq; try discriminate.
  destruct (snap_fin a) as (z & E & [[Hz _]|[-> _]]); rewrite E in H; inversion H; subst; auto. tauto.
Qed.

(** ** Conversion to an amount *)
Lemma size_signed : forall (o : Order XQ) q, o_size o = Fin q ->
  exists z, (if is_short_only (o_direction o) then mul (o_size o) (neg one) else o_size o) = Fin z /\
            z == signed (o_direction o) q.
Proof.
  intros o q ->. destruct (o_direction o); cbn [is_short_only signed].
  - exists q; split; auto; reflexivity.
  - eexists; split; [reflexivity|]. cbn. rewrite !Qred_correct. change (inject_Z 1) with 1. ring.
  - exists q; split; auto; reflexivity.
Qed.

Lemma resolve_size_requested : forall (o : Order XQ) p vp v osz pct a,
  requested o p vp v a ->
  resolve_size o (Fin p) (snap vp) (snap v) = Ok (inr (osz, pct)) ->
  pct = NaN /\ exists a', osz = Fin a' /\ a' == a.
Proof.
  intros o p vp v osz pct a (q & Hq & Hm) H. unfold resolve_size in H. cbv zeta in H, Hm.
  destruct (size_signed o q Hq) as (z & Ez & Hz). rewrite Ez in H.
  assert (Ham : forall w, resolve_amount (o_direction o) (Fin p) (Fin w) Amount = (osz, pct) ->
             pct = NaN /\ osz = Fin w).
  { intros w Hw. unfold resolve_amount in Hw. cbn [isinf XQnum xq_isinf] in Hw.
    rewrite !andb_false_r in Hw. injection Hw as <- <-. auto. }
  assert (Hta : forall w, resolve_amount (o_direction o) (Fin p) (Fin w) TargetAmount = (osz, pct) ->
             pct = NaN /\ exists a', osz = Fin a' /\ a' == w - p).
  { intros w Hw. unfold resolve_amount in Hw. 
    change (sub (Fin w) (Fin p)) with (Fin (Qred (w - p))) in Hw.
    cbn [isinf XQnum xq_isinf] in Hw.
    rewrite !andb_false_r in Hw. injection Hw as <- <-. split; auto. eexists; split; [reflexivity|].
    apply Qred_correct. }
  assert (Hrv : forall w st r, (st = Value \/ st = TargetValue) ->
     resolve_value (snap vp) (Fin w) st = Ok (inr r) -> forall x, vp = Fin x ->
     exists y, r = (Fin y, match st with Value => Amount | _ => TargetAmount end) /\ y == w / x).
  { intros w st r Hst Hr x ->. destruct (snap_fin x) as (x' & Ex & Hx).
    rewrite Ex in Hr. unfold resolve_value in Hr.
    assert (Hr' : (if isinf (Fin x') || leb (Fin x') zero then Err (ValueError "val_price_now must be finite and greater than 0"%string)
      else if isnan (Fin x') then Ok (inl (Ignored, ValPriceNaN)) else
      let! s := sdiv (Fin w) (Fin x') in
      Ok (inr (s, match st with Value => Amount | _ => TargetAmount end))) = Ok (inr r)).
    { destruct Hst as [-> | ->]; exact Hr. }
    clear Hr. destruct (isinf (Fin x') || leb (Fin x') zero)%bool eqn:E1; [discriminate|].
    cbn in E1. change (inject_Z 0) with 0 in E1. qb.
    cbn [isnan XQnum xq_isnan] in Hr'.
    apply bind_ok in Hr' as (y & Hy & Hr'). injection Hr' as <-.
    apply sdiv_fin in Hy as (y' & -> & _ & Hy'). exists y'. split; auto.
    destruct Hx as [[Hx _]|[-> _]]; [lra|auto]. }
  destruct (o_size_type o) eqn:Et; cbn [resolve_target_percent] in H; try contradiction.
  - cbn in H. destruct (Ham z) as [-> ->]; [injection H as H; exact H|]. split; auto. exists z; split; auto. lra.
  - apply bind_ok in H as (r & Hr & H). destruct r as [e|[s2 t2]]; [discriminate|].
    injection H as H. destruct Hm as (x & Hx & Ha).
    destruct (Hrv _ _ _ (or_introl eq_refl) Hr x Hx) as (y & E & Hy). injection E as -> ->.
    destruct (Ham y H) as [-> ->]. split; auto. exists y; split; auto. rewrite Hy, Ha, Hz. reflexivity.
  - cbn in H. injection H as H. destruct (Hta z) as (-> & a' & -> & Ha'); [exact H|].
    split; auto. exists a'; split; auto. lra.
  - apply bind_ok in H as (r & Hr & H). destruct r as [e|[s2 t2]]; [discriminate|].
    injection H as H. destruct Hm as (x & Hx & Ha).
    destruct (Hrv _ _ _ (or_intror eq_refl) Hr x Hx) as (y & E & Hy). injection E as -> ->.
    destruct (Hta y H) as (-> & a' & -> & Ha'). split; auto. exists a'; split; auto.
    rewrite Ha', Hy, Ha, Hz. reflexivity.
  - destruct Hm as (x & y & Hx & -> & Ha).
    destruct (snap_fin y) as (y' & Ey & Hy'). rewrite Ey in H.
    destruct (isnan (Fin y')) eqn:E0; [discriminate|].
    destruct (leb (Fin y') zero) eqn:E1; [discriminate|].
    cbn in E1. change (inject_Z 0) with 0 in E1. qb.
    destruct Hy' as [[Hy' _]|[-> _]]; [lra|].
    change (mul (Fin z) (Fin y)) with (Fin (Qred (z * y))) in H.
    apply bind_ok in H as (r & Hr & H). destruct r as [e|[s2 t2]]; [discriminate|].
    injection H as H.
    destruct (Hrv _ _ _ (or_intror eq_refl) Hr x Hx) as (w & E & Hw). injection E as -> ->.
    destruct (Hta w H) as (-> & a' & -> & Ha'). split; auto. exists a'; split; auto.
    rewrite Ha', Hw, Ha, Qred_correct, Hz. reflexivity.
Qed.

(** LongOnly: a percentage comes only from a Percent order *)
Lemma resolve_size_long_pct : forall (o : Order XQ) p vp v osz pct,
  o_direction o = LongOnly ->
  resolve_size o p vp v = Ok (inr (osz, pct)) ->
  pct = NaN \/ (o_size_type o = Percent /\ pct = abs (o_size o)).
Proof.
  intros o p vp v osz pct Hd H. unfold resolve_size in H. rewrite Hd in H. cbv zeta in H.
  cbn [is_short_only] in H.
  destruct (resolve_target_percent v (o_size o) (o_size_type o)) as [e|[s1 t1]] eqn:E1; [discriminate|].
  apply bind_ok in H as (r & Hr & H). destruct r as [e|[s2 t2]]; [discriminate|]. injection H as H.
  assert (Hpct : t2 <> Percent -> pct = NaN).
  { intros Hn. unfold resolve_amount in H. cbn [is_long_only negb andb] in H.
    destruct t2; try congruence; injection H as _ <-; reflexivity. }
  assert (Hrv : t2 = Percent -> t1 = Percent /\ s2 = s1).
  { intros ->. unfold resolve_value in Hr. destruct t1;
      try (destruct (_ || _)%bool; [discriminate|]; destruct (isnan vp); [discriminate|];
           apply bind_ok in Hr as (? & _ & Hr)); inversion Hr; auto. }
  destruct (o_size_type o) eqn:Et; cbn [resolve_target_percent] in E1.
  6:{ destruct (isnan v); [discriminate|]. destruct (leb v zero); [discriminate|].
      injection E1 as <- <-. left. apply Hpct. intros ->. destruct (Hrv eq_refl). discriminate. }
  all: injection E1 as <- <-; cbn [resolve_value] in Hr.
  3:{ injection Hr as <- <-. cbn in H. injection H as _ <-. right. split; auto. }
  all: left; apply Hpct; intros ->; destruct (Hrv eq_refl) as [C _]; discriminate.
Qed.

(** ** C02 direction limits *)
Lemma long_only_exec : forall draws k (s : ProcState XQ) (o : Order XQ) es' r k' p0,
  o_direction o = LongOnly ->
  (forall f, o_fees o = Fin f -> - (1) < f) ->
  regular o (snap (ps_value s)) ->
  (o_size_type o = Percent -> exists q, o_size o = Fin q /\ - (1) <= q) ->
  ps_position s = Fin p0 -> 0 <= p0 ->
  execute_order_nb draws k s o = Ok (es', r, k') ->
  exists p', es_position es' = Fin p' /\ 0 <= p'.
Proof.
  intros draws k s o es' r k' p0 Hd Hf Hreg Hpc Hp Hp0 H.
  apply filled_view in H as [[-> _]|(cash & p & d & free & price & f & ff & slip & mn & rp & osz & pct & Es & Hck & Hf' & Hcv & Hrs & Hfl & Hbs)];
    auto.
  - cbn. rewrite Hp. destruct (snap_fin p0) as (q & -> & [[Hq _]|[-> _]]); eexists; split; eauto; lra.
  - assert (Hp' : 0 <= p).
    { destruct Hck as [Kcash Kpos Kdebt Kd0 Kfree Kprice Kprice0 Klong Kshort Kfees Kff Kslip Kslip0 Kmin Kmin0 Kmax Kgran Krp Krp0]. auto. }
    destruct Hbs as [(Hgt & cl & fs & fee & req & np & nd & Hcl & C & E)|(Hgt & fs & fee & net & np & nd & C & E)].
    + exists np. split; [apply E|].
      pose proof (bc_nonneg _ _ _ _ _ _ _ _ _ _ _ _ _ _ _ _ C).
      eapply approx_add_sgn; [apply (be_np _ _ _ _ _ _ _ _ _ _ _ _ E)|]. lra.
    + exists np. split; [apply E|].
      assert (Hle : fs <= p).
      { apply (sc_long _ _ _ _ _ _ _ _ _ _ _ _ _ _ _ C Hd p eq_refl).
        destruct (resolve_size_long_pct _ _ _ _ _ _ Hd Hrs) as [->|[Et ->]]; [left; auto|].
        destruct (Hpc Et) as (q & Eq & Hq). rewrite Eq.
        destruct Hcv as [(C1 & _)|(pc & C1 & C2 & [->| ->])].
        - rewrite Eq in C1. left; exact C1.
        - discriminate Hgt.
        - right. destruct (xq_abs_fin q) as (rq & Erq & Hrq). exists rq. split; [exact Erq|].
          (* q is negative because the order sells *)
          assert (Hneg : q < 0).
          { destruct (Qlt_le_dec q 0); auto. exfalso.
            unfold resolve_size in Hrs. rewrite Hd, Et, Eq in Hrs. cbn [is_short_only resolve_target_percent] in Hrs.
            cbn [bind resolve_value] in Hrs.
            assert (E1 : mul (sign (Fin q)) pinf = NInf) by (unfold resolve_amount in Hrs; congruence).
            rewrite sign_fin in E1.
            destruct (qlt_bool 0 q) eqn:E2; [discriminate E1|].
            destruct (qlt_bool q 0) eqn:E3; [qb; lra|discriminate E1]. }
          rewrite Hrq, Qabs_neg by lra. lra. }
      eapply approx_add_sgn; [apply (se_np _ _ _ _ _ _ _ _ _ _ _ _ _ _ E)|]. lra.
Qed.

Lemma short_only_exec : forall draws k (s : ProcState XQ) (o : Order XQ) es' r k' p0,
  o_direction o = ShortOnly ->
  (forall f, o_fees o = Fin f -> - (1) < f) ->
  regular o (snap (ps_value s)) ->
  ps_position s = Fin p0 -> p0 <= 0 ->
  execute_order_nb draws k s o = Ok (es', r, k') ->
  exists p', es_position es' = Fin p' /\ p' <= 0.
Proof.
  intros draws k s o es' r k' p0 Hd Hf Hreg Hp Hp0 H.
  apply filled_view in H as [[-> _]|(cash & p & d & free & price & f & ff & slip & mn & rp & osz & pct & Es & Hck & Hf' & Hcv & Hrs & Hfl & Hbs)];
    auto.
  - cbn. rewrite Hp. destruct (snap_fin p0) as (q & -> & [[Hq _]|[-> _]]); eexists; split; eauto; lra.
  - assert (Hp' : p <= 0).
    { destruct Hck as [Kcash Kpos Kdebt Kd0 Kfree Kprice Kprice0 Klong Kshort Kfees Kff Kslip Kslip0 Kmin Kmin0 Kmax Kgran Krp Krp0]. auto. }
    destruct Hbs as [(Hgt & cl & fs & fee & req & np & nd & Hcl & C & E)|(Hgt & fs & fee & net & np & nd & C & E)].
    + exists np. split; [apply E|].
      pose proof (bc_short _ _ _ _ _ _ _ _ _ _ _ _ _ _ _ _ C Hd p eq_refl) as Hfs.
      eapply approx_add_sgn_neg; [apply (be_np _ _ _ _ _ _ _ _ _ _ _ _ E)|]. lra.
    + exists np. split; [apply E|].
      pose proof (sc_pos _ _ _ _ _ _ _ _ _ _ _ _ _ _ _ C) as Hfs.
      eapply approx_add_sgn_neg; [apply (se_np _ _ _ _ _ _ _ _ _ _ _ _ _ _ E)|]. lra.
Qed.

(** ** C04 accounting of a fill *)
Lemma fill_accounting : forall draws k (s : ProcState XQ) (o : Order XQ) es' r k',
  (forall f, o_fees o = Fin f -> - (1) < f) ->
  regular o (snap (ps_value s)) ->
  execute_order_nb draws k s o = Ok (es', r, k') ->
  r_status r = Filled ->
  exists cash p p' size px fee price slip f ff,
    snapped (ps_cash s) cash /\ snapped (ps_position s) (Fin p) /\ es_position es' = Fin p' /\
    o_price o = Fin price /\ o_slippage o = Fin slip /\ o_fees o = Fin f /\ o_fixed_fees o = Fin ff /\
    r_size r = Fin size /\ r_price r = Fin px /\ r_fees r = Fin fee /\ 0 <= size /\
    fee == size * px * f + ff /\
    ((r_side r = Some Buy /\ px == price * (1 + slip) /\
      xadd_approx cash (- (size * px + fee)) (es_cash es') /\ approx_add p size p') \/
     (r_side r = Some Sell /\ px == price * (1 - slip) /\
      (exists net, approx_add (size * px) (- fee) net /\ 0 <= net /\ xadd_exact cash net (es_cash es')) /\
      approx_add p (- size) p')).
Proof.
  intros draws k s o es' r k' Hf Hreg H Hfl.
  apply filled_view in H as [Hu|(cash & p & d & free & price & f & ff & slip & mn & rp & osz & pct & Es & Hck & Hf' & Hcv & Hrs & _ & Hbs)];
    auto; [exfalso; eauto using unfilled_not|].
  destruct (snap_state_snapped _ _ _ _ _ Es) as (S1 & S2 & _).
  destruct Hck as [Kcash Kpos Kdebt Kd0 Kfree Kprice Kprice0 Klong Kshort Kfees Kff Kslip Kslip0 Kmin Kmin0 Kmax Kgran Krp Krp0].
  destruct Hbs as [(Hgt & cl & fs & fee & req & np & nd & Hcl & C & E)|(Hgt & fs & fee & net & np & nd & C & E)].
  - exists cash, p, np, fs, (buy_price price slip), fee, price, slip, f, ff.
    rewrite (be_res _ _ _ _ _ _ _ _ _ _ _ _ E). cbn [r_size r_price r_fees r_side].
    pose proof (bc_fee _ _ _ _ _ _ _ _ _ _ _ _ _ _ _ _ C) as Hfee.
    pose proof (bc_req _ _ _ _ _ _ _ _ _ _ _ _ _ _ _ _ C) as Hreq.
    pose proof (bc_nonneg _ _ _ _ _ _ _ _ _ _ _ _ _ _ _ _ C) as Hnn.
    repeat (split; [first [assumption|apply E|reflexivity]|]).
    left. split; auto. split; [apply buy_price_eq|]. split; [|apply E].
    pose proof (be_cash _ _ _ _ _ _ _ _ _ _ _ _ E) as Hc. unfold xadd_approx in *.
    destruct cash; auto. destruct Hc as (z & Ez & Hz). exists z; split; auto.
    rewrite <- Hreq. exact Hz.
  - exists cash, p, np, fs, (sell_price price slip), fee, price, slip, f, ff.
    rewrite (se_res _ _ _ _ _ _ _ _ _ _ _ _ _ _ E). cbn [r_size r_price r_fees r_side].
    pose proof (sc_pos _ _ _ _ _ _ _ _ _ _ _ _ _ _ _ C) as Hnn.
    repeat (split; [first [assumption|apply E|reflexivity|lra]|]).
    right. split; auto. split; [apply sell_price_eq|]. split; [|apply E].
    exists net. split; [apply E|]. split; apply E.
Qed.

(** ** C05 size limits *)
Lemma is_less_nb_false : forall a b, is_less_nb (Fin a) (Fin b) = false -> b - tolq a b <= a.
Proof.
  intros a b H. unfold is_less_nb in H.
  destruct (is_close_nb (Fin a) (Fin b)) eqn:E.
  - apply is_close_fin in E. qabs_all; lra.
  - cbn in H. qb. pose proof (tolq_pos a b). lra.
Qed.

Lemma size_limits_max_gran_min : forall draws k (s : ProcState XQ) (o : Order XQ) es' r k',
  (forall f, o_fees o = Fin f -> - (1) < f) ->
  regular o (snap (ps_value s)) ->
  execute_order_nb draws k s o = Ok (es', r, k') ->
  r_status r = Filled ->
  exists size, r_size r = Fin size /\ 0 <= size /\
    (forall m, o_max_size o = Fin m -> size <= m) /\
    (forall g, o_size_granularity o = Fin g -> exists n, size == inject_Z n * g) /\
    (forall m, o_min_size o = Fin m -> m - tolq size m <= size).
Proof.
  intros draws k s o es' r k' Hf Hreg H Hfl.
  apply filled_view in H as [Hu|(cash & p & d & free & price & f & ff & slip & mn & rp & osz & pct & Es & Hck & Hf' & Hcv & Hrs & _ & Hbs)];
    auto; [exfalso; eauto using unfilled_not|].
  assert (Hgen : forall fs z, SizeFacts fs z mn (o_max_size o) (o_size_granularity o) (o_allow_partial o) ->
    (forall m, o_max_size o = Fin m -> fs <= m) /\
    (forall g, o_size_granularity o = Fin g -> exists n, fs == inject_Z n * g) /\
    (forall m, o_min_size o = Fin m -> m - tolq fs m <= fs)).
  { intros fs z [F1 F2 F3 F4]. split; [|split; [auto|]].
    - intros m Em. rewrite Em in F1. cbn in F1. qb. auto.
    - intros m Em. apply is_less_nb_false.
      destruct Hck as [Kcash Kpos Kdebt Kd0 Kfree Kprice Kprice0 Klong Kshort Kfees Kff Kslip Kslip0 Kmin Kmin0 Kmax Kgran Krp Krp0].
      rewrite Kmin in Em. inversion Em; subst. auto. }
  destruct Hbs as [(Hgt & cl & fs & fee & req & np & nd & Hcl & C & E)|(Hgt & fs & fee & net & np & nd & C & E)];
    exists fs.
  - rewrite (be_res _ _ _ _ _ _ _ _ _ _ _ _ E). split; [reflexivity|].
    split; [apply (bc_nonneg _ _ _ _ _ _ _ _ _ _ _ _ _ _ _ _ C)|].
    eapply Hgen. apply (bc_facts _ _ _ _ _ _ _ _ _ _ _ _ _ _ _ _ C).
  - rewrite (se_res _ _ _ _ _ _ _ _ _ _ _ _ _ _ E). split; [reflexivity|].
    pose proof (sc_pos _ _ _ _ _ _ _ _ _ _ _ _ _ _ _ C). split; [lra|].
    eapply Hgen. apply (sc_facts _ _ _ _ _ _ _ _ _ _ _ _ _ _ _ C).
Qed.

Lemma size_positive : forall draws k (s : ProcState XQ) (o : Order XQ) es' r k',
  (forall f, o_fees o = Fin f -> - (1) < f) ->
  regular o (snap (ps_value s)) ->
  execute_order_nb draws k s o = Ok (es', r, k') ->
  r_status r = Filled ->
  o_size_granularity o = NaN \/ r_side r = Some Sell ->
  exists size, r_size r = Fin size /\ 0 < size.
Proof.
  intros draws k s o es' r k' Hf Hreg H Hfl Hor.
  apply filled_view in H as [Hu|(cash & p & d & free & price & f & ff & slip & mn & rp & osz & pct & Es & Hck & Hf' & Hcv & Hrs & _ & Hbs)];
    auto; [exfalso; eauto using unfilled_not|].
  destruct Hbs as [(Hgt & cl & fs & fee & req & np & nd & Hcl & C & E)|(Hgt & fs & fee & net & np & nd & C & E)];
    exists fs.
  - rewrite (be_res _ _ _ _ _ _ _ _ _ _ _ _ E) in *. split; [reflexivity|].
    destruct Hor as [Hor|Hor]; [|discriminate].
    apply (bc_pos _ _ _ _ _ _ _ _ _ _ _ _ _ _ _ _ C Hor).
  - rewrite (se_res _ _ _ _ _ _ _ _ _ _ _ _ _ _ E). split; [reflexivity|].
    pose proof (sc_pos _ _ _ _ _ _ _ _ _ _ _ _ _ _ _ C). lra.
Qed.

(** The filled amount against the requested amount, both directions. *)
Lemma size_requested : forall draws k (s : ProcState XQ) (o : Order XQ) es' r k' p a,
  (forall f, o_fees o = Fin f -> - (1) < f) ->
  execute_order_nb draws k s o = Ok (es', r, k') ->
  r_status r = Filled ->
  snapped (ps_position s) (Fin p) ->
  requested o p (ps_val_price s) (ps_value s) a ->
  exists size p', r_size r = Fin size /\ es_position es' = Fin p' /\
    ((0 < a /\ r_side r = Some Buy /\ size <= a /\ approx_add p size p') \/
     (a <= 0 /\ r_side r = Some Sell /\ size <= - a /\ approx_add p (- size) p')) /\
    (o_allow_partial o = false -> Qabs a - tolq size (Qabs a) <= size).
Proof.
  intros draws k s o es' r k' p a Hf H Hfl Hsn Hreq.
  assert (Hreg : regular o (snap (ps_value s))).
  { unfold regular. destruct Hreq as (q & Hq & Hm). destruct (o_size_type o); auto; [contradiction|].
    destruct Hm as (x & y & _ & -> & _). destruct (snap_fin y) as (z & -> & _). discriminate. }
  apply filled_view in H as [Hu|(cash & p1 & d & free & price & f & ff & slip & mn & rp & osz & pct & Es & Hck & Hf' & Hcv & Hrs & _ & Hbs)];
    auto; [exfalso; eauto using unfilled_not|].
  assert (Hpp : p1 == p).
  { unfold snap_state in Es. injection Es as _ Ep _ _. apply snapped_det in Hsn.
    rewrite Hsn in Ep. inversion Ep; reflexivity. }
  assert (Hrq : requested o p1 (ps_val_price s) (ps_value s) a).
  { destruct Hreq as (q & Hq & Hm). exists q. split; auto. cbv zeta in *.
    destruct (o_size_type o); auto.
    - rewrite Hpp; auto.
    - destruct Hm as (x & E1 & E2). exists x. split; auto. rewrite Hpp; auto.
    - destruct Hm as (x & y & E1 & E3 & E2). exists x, y. split; auto. split; auto. rewrite Hpp; auto. }
  destruct (resolve_size_requested _ _ _ _ _ _ _ Hrq Hrs) as (-> & a' & -> & Ha').
  destruct Hbs as [(Hgt & cl & fs & fee & req & np & nd & Hcl & C & E)|(Hgt & fs & fee & net & np & nd & C & E)];
    exists fs, np.
  - rewrite (be_res _ _ _ _ _ _ _ _ _ _ _ _ E). split; [reflexivity|]. split; [apply E|].
    unfold gtb in Hgt. cbn in Hgt. change (inject_Z 0) with 0 in Hgt. qb.
    pose proof (bc_size _ _ _ _ _ _ _ _ _ _ _ _ _ _ _ _ C) as Hsz. cbn in Hsz. qb.
    split.
    + left. split; [lra|]. split; auto. split; [lra|]. rewrite <- Hpp. apply E.
    + intros Hal. pose proof (bc_facts _ _ _ _ _ _ _ _ _ _ _ _ _ _ _ _ C) as [_ _ _ Hpt].
      specialize (Hpt Hal eq_refl). apply is_less_nb_false in Hpt.
      rewrite (Qabs_pos a) by lra. rewrite (tolq_proper fs fs (Qeq_refl fs) a' a Ha') in Hpt. lra.
  - rewrite (se_res _ _ _ _ _ _ _ _ _ _ _ _ _ _ E). split; [reflexivity|]. split; [apply E|].
    unfold gtb in Hgt. cbn in Hgt. change (inject_Z 0) with 0 in Hgt. qb.
    pose proof (sc_size _ _ _ _ _ _ _ _ _ _ _ _ _ _ _ C eq_refl) as Hsz.
    change (neg (Fin a')) with (Fin (Qred (- a'))) in *. cbn in Hsz. qb. rewrite Qred_correct in Hsz.
    split.
    + right. split; [lra|]. split; auto. split; [lra|]. rewrite <- Hpp. apply E.
    + intros Hal. pose proof (sc_facts _ _ _ _ _ _ _ _ _ _ _ _ _ _ _ C) as [_ _ _ Hpt].
      specialize (Hpt Hal eq_refl). apply is_less_nb_false in Hpt.
      rewrite (Qabs_neg a) by lra.
      assert (Hx : Qred (- a') == - a) by (rewrite Qred_correct; lra).
      rewrite (tolq_proper fs fs (Qeq_refl fs) _ _ Hx) in Hpt. lra.
Qed.
