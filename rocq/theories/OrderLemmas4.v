(** * Proofs of the order-level properties, continued (C07 over histories, C08) *)
From Coq Require Import ZArith QArith Qabs Qround Qminmax Bool Lia Lqa List String Setoid Morphisms.
From Verif Require Import Base Num MathNb TolSpec Order OrderSpec Account AccountSpec XQFacts OrderFacts ExecFacts
  FillFacts OrderLemmas OrderGen FillView OrderLemmas2 OrderLemmas3.
Import ListNotations.

(** ** C07 over histories *)
Lemma sumQ_ext : forall g h n, (forall i, (i < n)%nat -> g i == h i) -> sumQ g n == sumQ h n.
Proof.
  intros g h; induction n as [|n IH]; intros H; cbn; [reflexivity|].
  rewrite IH, (H n) by auto. reflexivity.
Qed.

Lemma sumQ_fupd : forall g n i v, (i < n)%nat -> sumQ (fupd g i v) n == sumQ g n - g i + v.
Proof.
  intros g; induction n as [|n IH]; intros i v H; [lia|]. cbn.
  destruct (Nat.eq_dec i n) as [->|Hne].
  - rewrite fupd_same. rewrite (sumQ_ext (fupd g n v) g).
    + ring.
    + intros j Hj. rewrite fupd_other by lia. reflexivity.
  - rewrite fupd_other by lia. rewrite IH by lia. ring.
Qed.

Definition step_tol (M : Q) : Q := (12 # 1000000000) * M + (20 # 1000000000000).

Definition in_balance (n : nat) (a : Acct XQ) (eps : Q) : Prop :=
  exists c fr D, ac_cash a = Fin c /\ ac_free a = Fin fr /\
    (forall i, (i < n)%nat -> ac_debt a i = Fin (D i)) /\
    Qabs (fr - (c - 2 * sumQ D n)) <= eps.

Definition good_event (n : nat) (e : Ev XQ) : Prop :=
  (ev_col e < n)%nat /\
  (forall f, o_fees (ev_order e) = Fin f -> - (1) < f) /\
  (forall sl, o_slippage (ev_order e) = Fin sl -> sl <= 1) /\
  regular (ev_order e) (snap (ev_value e)).

Lemma step_in_balance : forall draws n M a k e a' k' eps,
  good_event n e -> acct_debt_ok a -> bounded M n a -> bounded M n a' ->
  in_balance n a eps ->
  acct_step draws (a, k) e = Ok (a', k') ->
  in_balance n a' (eps + step_tol M).
Proof.
  intros draws n M a k e a' k' eps (Hcol & Hf & Hsl & Hreg) Hok Hb Hb' Hin H.
  unfold acct_step in H. apply bind_ok in H as ([[es r] k1] & He & H). injection H as <- <-.
  destruct Hb as (c0 & f0 & E1 & E2 & B1 & B2 & B3).
  destruct Hb' as (c1 & f1 & E1' & E2' & B1' & B2' & B3').
  cbn [ac_cash ac_free ac_debt acct_put fst] in *.
  destruct Hin as (c & fr & D & Ec & Ef & ED & Hd).
  rewrite E1 in Ec. inversion Ec; subst c. rewrite E2 in Ef. inversion Ef; subst fr. clear Ec Ef.
  destruct (B3 _ Hcol) as (d & Ed & Bd).
  destruct (B3' _ Hcol) as (d' & Ed' & Bd'). rewrite fupd_same in Ed'.
  destruct (Hok (ev_col e)) as (p & dd & Ep & Edd & Hpd). rewrite Edd in Ed. inversion Ed; subst dd.
  assert (HD : D (ev_col e) = d) by (specialize (ED _ Hcol); congruence).
  pose proof (exec_free_cash draws k (ev_state a e) (ev_order e) es r k1 c0 f0 p d c1 f1 d' M
    Hf Hsl Hreg E1 E2 Ep Edd Hpd He E1' E2' Ed' B1 B2 Bd B1' Bd') as Hx.
  exists c1, f1, (fupd D (ev_col e) d'). cbn [ac_cash ac_free ac_debt acct_put].
  split; auto. split; auto. split.
  - intros i Hi. destruct (Nat.eq_dec i (ev_col e)) as [->|Hne].
    + rewrite !fupd_same. auto.
    + rewrite !fupd_other by auto. auto.
  - rewrite sumQ_fupd by auto. rewrite HD. unfold step_tol. qab; lra.
Qed.

Lemma run_in_balance : forall draws n M evs a k a' k' eps,
  Forall (good_event n) evs -> acct_debt_ok a ->
  (forall evs1 evs2 a1 k1, evs = evs1 ++ evs2 -> acct_run draws (a, k) evs1 = Ok (a1, k1) -> bounded M n a1) ->
  in_balance n a eps ->
  acct_run draws (a, k) evs = Ok (a', k') ->
  in_balance n a' (eps + inject_Z (Z.of_nat (List.length evs)) * step_tol M).
Proof.
  intros draws n M; induction evs as [|e evs IH]; intros a k a' k' eps Hg Hok Hb Hin H.
  - cbn in H. injection H as <- <-. cbn [List.length].
    destruct Hin as (c & fr & D & Ec & Ef & ED & Hd). exists c, fr, D. repeat (split; auto).
    change (inject_Z (Z.of_nat 0)) with 0. lra.
  - unfold acct_run in H. cbn [foldM] in H. apply bind_ok in H as ([a1 k1] & Hs & H).
    inversion Hg; subst.
    assert (Hb0 : bounded M n a) by (apply (Hb [] (e :: evs) a k); reflexivity).
    assert (Hb1 : bounded M n a1).
    { apply (Hb [e] evs a1 k1); [reflexivity|]. unfold acct_run. cbn [foldM]. rewrite Hs. reflexivity. }
    destruct H2 as (G1 & G2 & G3 & G4).
    assert (Hok1 : acct_debt_ok a1) by (eapply acct_step_debt_ok; [| | |exact Hok|exact Hs]; auto).
    assert (Hin1 : in_balance n a1 (eps + step_tol M)).
    { eapply step_in_balance; [split; [|split; [|split]]; eassumption|exact Hok|exact Hb0|exact Hb1|exact Hin|exact Hs]. }
    assert (Hfin : in_balance n a' ((eps + step_tol M) + inject_Z (Z.of_nat (List.length evs)) * step_tol M)).
    { eapply IH; [assumption|exact Hok1| |exact Hin1|exact H].
      intros evs1 evs2 a2 k2 Heq Hr. apply (Hb (e :: evs1) evs2 a2 k2); [rewrite Heq; reflexivity|].
      unfold acct_run. cbn [foldM]. rewrite Hs. exact Hr. }
    destruct Hfin as (c & fr & D & Ec & Ef & ED & Hd). exists c, fr, D. repeat (split; auto).
    assert (Hl : inject_Z (Z.of_nat (List.length (e :: evs))) == 1 + inject_Z (Z.of_nat (List.length evs))).
    { cbn [List.length]. rewrite Nat2Z.inj_succ. unfold Z.succ. rewrite inject_Z_plus. change (inject_Z 1) with 1. ring. }
    rewrite Hl. lra.
Qed.

Lemma fresh_debt_ok : forall a c, fresh a c -> acct_debt_ok a.
Proof.
  intros a c (_ & _ & H) i. destruct (H i) as [Hp Hd]. exists 0, 0. split; auto. split; auto.
  split; [lra|]. split; [left; reflexivity|reflexivity].
Qed.

Lemma fresh_in_balance : forall n a c, fresh a c -> in_balance n a 0.
Proof.
  intros n a c (H1 & H2 & H3). exists c, c, (fun _ => 0). repeat (split; auto).
  - intros i _. apply H3.
  - assert (E : sumQ (fun _ => 0) n == 0) by (induction n; cbn; lra). rewrite E.
    qab; lra.
Qed.

(** ** C08 *)
Lemma close_limit : forall X req l q, 0 <= X -> l <= X ->
  (req <= l \/ Qabs (req - l) <= tolq req l) -> approx_add X (- req) q -> 0 <= q.
Proof.
  intros X req l q HX Hl Hreq Ha.
  assert (Hx : cash_ok (Fin q)).
  { eapply (xadd_approx_cash (Fin X) req (Fin l) (Fin q)).
    - right; eauto.
    - cbn. qbg. auto.
    - right. eauto.
    - exists q. split; auto. }
  destruct Hx as [C|(z & E & Hz)]; [discriminate|]. inversion E; subst; auto.
Qed.

Lemma buy_lock_limit_short : forall cash p d fr ap f ff l0,
  p < 0 -> 
  buy_lock_limit (mkExec cash (Fin p) (Fin d) (Fin fr)) (Fin ap) (Fin f) (Fin ff) = Ok l0 ->
  let A := ap * (1 + f) in let X := fr + 2 * d in let R := - p * A + ff in
  (exists q, l0 = Fin q /\ q == X /\ 0 < X - R) \/
  (l0 = cash /\ Qabs (X - R) <= tolq X R) \/
  (exists ms q, l0 = Fin q /\ q == ms * A + ff /\ ms * (A - 2 * (d / - p)) == fr - ff /\ X - R < 0).
Proof.
  intros cash p d fr ap f ff l0 Hp H A X R. unfold buy_lock_limit in H.
  cbn [es_position es_debt es_cash es_free_cash] in H. cbv zeta in H.
  assert (Eg : geb (Fin p) zero = false) by (unfold geb; cbn; change (inject_Z 0) with 0; qbg; lra).
  rewrite Eg in H.
  change (abs (Fin p)) with (xq_abs (Fin p)) in H.
  destruct (xq_abs_fin p) as (rp & Erp & Hrp). rewrite Erp in H. rewrite Qabs_neg in Hrp by lra.
  change (add (Fin fr) (mul two (Fin d))) with (Fin (Qred (fr + Qred (2 * d)))) in H.
  change (add (mul (mul (Fin rp) (Fin ap)) (add one (Fin f))) (Fin ff))
    with (Fin (Qred (Qred (Qred (rp * ap) * Qred (1 + f)) + ff))) in H.
  assert (HX : Qred (fr + Qred (2 * d)) == X) by (rewrite !Qred_correct; reflexivity).
  set (Xq := Qred (fr + Qred (2 * d))) in *. clearbody Xq.
  assert (HR : Qred (Qred (Qred (rp * ap) * Qred (1 + f)) + ff) == R).
  { rewrite !Qred_correct, Hrp. unfold R, A. ring. }
  set (Rq := Qred (Qred (Qred (rp * ap) * Qred (1 + f)) + ff)) in *. clearbody Rq.
  change (neg (Fin Rq)) with (Fin (Qred (- Rq))) in H.
  destruct (add_nb_fin Xq (Qred (- Rq))) as (g & Eg' & Hg). rewrite Eg' in H.
  assert (Hg' : approx_add X (- R) g) by (rewrite <- HX, <- HR, <- (Qred_correct (- Rq)); exact Hg).
  unfold gtb in H. cbn [ltb XQnum zero ofZ xq_ltb] in H. change (inject_Z 0) with 0 in H.
  destruct (qlt_bool 0 g) eqn:E1; qb.
  { left. injection H as <-. exists Xq. split; auto. split; auto.
    destruct Hg' as [[Hz _]|[Hz _]]; lra. }
  destruct (qlt_bool g 0) eqn:E2; qb.
  - right. right. apply bind_ok in H as (avg & Havg & H). apply bind_ok in H as (ms & Hms & H).
    apply sdiv_fin in Havg as (av & -> & _ & Hav).
    change (sub (Fin fr) (Fin ff)) with (Fin (Qred (fr - ff))) in Hms.
    change (sub (mul (Fin ap) (add one (Fin f))) (mul two (Fin av)))
      with (Fin (Qred (Qred (ap * Qred (1 + f)) - Qred (2 * av)))) in Hms.
    apply sdiv_fin in Hms as (msq & -> & Hnz & Hmsq).
    injection H as <-. 
    exists msq. eexists. split; [reflexivity|]. split; [rewrite !Qred_correct; unfold A; ring|].
    split; [|destruct Hg' as [[Hz _]|[Hz _]]; lra].
    assert (Hden : Qred (Qred (ap * Qred (1 + f)) - Qred (2 * av)) == A - 2 * (d / - p)).
    { rewrite !Qred_correct, Hav, Hrp. reflexivity. }
    rewrite <- Hden. rewrite Hmsq. rewrite Qdiv_mul by auto. apply Qred_correct.
  - right. left. injection H as <-. split; auto.
    destruct Hg' as [[_ Hz]|[Hz Hz2]]; [|pose proof (tolq_pos X (- R)); qabs_all; lra].
    assert (Ht : tolq X (- R) == tolq X R) by (unfold tolq; rewrite Qabs_opp; reflexivity).
    rewrite Ht in Hz. exact Hz.
Qed.

Lemma buy_cash_limit_le : forall cash p d free ap f ff pct cl,
  cash_ok cash -> free <> NaN -> 0 < ap -> - (1) < f ->
  buy_cash_limit (mkExec cash (Fin p) (Fin d) free) (Fin ap) (Fin f) (Fin ff) true pct = Ok cl ->
  exists l0, buy_lock_limit (mkExec cash (Fin p) (Fin d) free) (Fin ap) (Fin f) (Fin ff) = Ok l0 /\
    xq_leb cl l0 = true /\ xq_leb cl cash = true.
Proof.
  intros cash p d free ap f ff pct cl Hc Hf Hap Hfee H.
  destruct (cash_ok_nn _ Hc) as [Hc1 _].
  destruct (buy_cash_limit_spec _ _ _ _ _ _ _ _ _ _ Hc Hf Hap Hfee H) as [_ Hle].
  unfold buy_cash_limit in H. apply bind_ok in H as (l0 & Hl0 & H).
  injection H as <-. exists l0. split; auto. split; auto.
  pose proof (buy_lock_limit_nn _ _ _ _ _ _ _ _ Hc Hf Hap Hfee Hl0) as Hn.
  cbn [es_cash].
  assert (H1 : xq_leb (min2 l0 cash) l0 = true) by (apply min2_le_l; auto).
  assert (H2 : min2 l0 cash <> NaN) by (apply min2_nn; auto).
  match goal with |- context [if ?b then _ else _] => destruct b end; [|auto].
  exact (xq_leb_trans _ _ _ (min2_le_l _ _ H2) H1).
Qed.

Lemma buy_lock_free : forall cash p d fr price slip f ff dir sz mn mx gran cl allow pct es' r fs fee req np nd,
  cash_ok cash -> 0 <= d -> 0 <= fr -> 0 < price -> 0 <= slip -> - (1) < f ->
  (p < 0 -> 0 <= ff <= fr /\ exists c, cash = Fin c /\ c <= fr + 2 * d) ->
  let ap := buy_price price slip in
  let es := mkExec cash (Fin p) (Fin d) (Fin fr) in
  buy_cash_limit es (Fin ap) (Fin f) (Fin ff) true pct = Ok cl ->
  BuyCert es sz ap dir f ff mn mx gran cl allow es' r fs fee req ->
  BuyEffect cash p d (Fin fr) fs ap fee req es' r np nd ->
  exists q, es_free_cash es' = Fin q /\ 0 <= q.
Proof.
  intros cash p d fr price slip f ff dir sz mn mx gran cl allow pct es' r fs fee req np nd
    Hc Hd Hfr Hprice Hslip Hf Hsh ap es Hcl C E.
  assert (Hap : 0 < ap).
  { unfold ap. rewrite buy_price_eq. apply Qmul_pos; lra. }
  clearbody ap.
  assert (Hfn : Fin fr <> NaN) by discriminate.
  destruct (buy_cash_limit_le _ _ _ _ _ _ _ _ _ Hc Hfn Hap Hf Hcl) as (l0 & Hl0 & Hle0 & Hlec).
  pose proof (bc_fee _ _ _ _ _ _ _ _ _ _ _ _ _ _ _ _ C) as Hfee.
  pose proof (bc_req _ _ _ _ _ _ _ _ _ _ _ _ _ _ _ _ C) as Hreq.
  pose proof (bc_nonneg _ _ _ _ _ _ _ _ _ _ _ _ _ _ _ _ C) as Hnn.
  pose proof (bc_cash _ _ _ _ _ _ _ _ _ _ _ _ _ _ _ _ C) as Hcash.
  destruct (Qlt_le_dec p 0) as [Hlt|Hge].
  2:{ destruct (be_long _ _ _ _ _ _ _ _ _ _ _ _ E Hge) as [_ (q & Eq & Hq)].
      exists q. split; auto.
      unfold buy_lock_limit in Hl0. cbn [es_position es es_free_cash] in Hl0.
      assert (Eg : geb (Fin p) zero = true) by (unfold geb; cbn; change (inject_Z 0) with 0; qbg; lra).
      rewrite Eg in Hl0. injection Hl0 as <-.
      destruct Hcash as [->|(l & -> & Hl)]; [discriminate|]. cbn in Hle0. qb.
      exact (close_limit fr req l q Hfr Hle0 Hl Hq). }
  destruct (Hsh Hlt) as (Hff & c & -> & Hc2). 
  destruct (be_short _ _ _ _ _ _ _ _ _ _ _ _ E Hlt) as (diff & fx & Hdf & _ & (fq & -> & Hfq) & (q & Eq & Hq)).
  exists q. split; auto.
  destruct Hcash as [->|(l & -> & Hl)]; [discriminate Hlec|]. cbn in Hlec. qb.
  pose proof (be_np _ _ _ _ _ _ _ _ _ _ _ _ E) as Hnp.
  apply buy_lock_limit_short in Hl0; auto. cbv zeta in Hl0.
  set (A := ap * (1 + f)) in *.
  assert (HA : 0 < A) by (apply Qmul_pos; lra).
  assert (HreqA : req == fs * A + ff) by (rewrite Hreq, Hfee; unfold A; ring).
  set (avg := d / - p) in *.
  assert (Havg : avg * - p == d) by (apply Qdiv_mul; lra).
  assert (Havg0 : 0 <= avg) by (apply Qdiv_nonneg; lra).
  clearbody A avg.
  (* the limit is at most free cash plus twice the debt *)
  assert (HlX : l <= fr + 2 * d).
  { destruct Hl0 as [(x & -> & Hx & _)|[(-> & _)|(ms & x & -> & Hx & Hms & Hneg)]]; [|lra|].
    - cbn in Hle0. qb. lra.
    - cbn in Hle0. qb.
      assert (Hpa : 0 < - p * (A - 2 * avg)) by lra.
      assert (Hden : 0 < A - 2 * avg).
      { destruct (Qlt_le_dec 0 (A - 2 * avg)); auto. exfalso.
        assert (0 <= - p * (2 * avg - A)) by (apply Qmult_le_0_compat; lra). lra. }
      assert (Hmsp : ms < - p).
      { destruct (Qlt_le_dec ms (- p)); auto. exfalso.
        assert (0 <= (ms - - p) * (A - 2 * avg)) by (apply Qmult_le_0_compat; lra). lra. }
      assert (0 <= (- p - ms) * avg) by (apply Qmult_le_0_compat; lra). lra. }
  destruct Hdf as [[Hn Hdf]|[Hn Hdf]].
  2:{ eapply (close_limit fq req l q); auto; lra. }
  assert (Hfs : fs < - p) by (destruct Hnp as [[Hz _]|[Hz _]]; lra).
  assert (Hg : fq - req == (fr - ff) + fs * (2 * avg - A)) by (rewrite Hfq, Hdf, HreqA; ring).
  assert (Hgp : - p * (fq - req) == (- p - fs) * (fr - ff) + fs * ((fr + 2 * d) - (- p * A + ff))).
  { rewrite Hg, <- Havg. ring. }
  assert (Hpos : 0 <= - p * (fq - req) -> 0 <= q).
  { intros Hx. eapply approx_add_sgn; [exact Hq|].
    destruct (Qlt_le_dec (fq - req) 0) as [Hc'|]; [|lra]. exfalso.
    assert (0 < - p * (req - fq)) by (apply Qmul_pos; lra). lra. }
  assert (Hrest : 0 <= (- p - fs) * (fr - ff)) by (apply Qmult_le_0_compat; lra).
  destruct Hl0 as [(x & -> & Hx & Hposg)|[(-> & Hclose)|(ms & x & -> & Hx & Hms & Hneg)]].
  - apply Hpos. rewrite Hgp.
    assert (0 <= fs * ((fr + 2 * d) - (- p * A + ff))) by (apply Qmult_le_0_compat; lra). lra.
  - destruct (Qlt_le_dec (fq - req) 0) as [Hneg|]; [|eapply approx_add_sgn; [exact Hq|lra]].
    destruct Hq as [[Hz _]|[Hz Hgt]]; [lra|]. exfalso.
    assert (HX0 : 0 <= fr + 2 * d) by lra.
    assert (Hr0 : 0 <= - p * A) by (apply Qmult_le_0_compat; lra).
    assert (Hfq0 : 0 <= fq) by (rewrite Hfq, Hdf; assert (0 <= fs * avg) by (apply Qmult_le_0_compat; lra); lra).
    assert (HfA : 0 <= fs * A) by (apply Qmult_le_0_compat; lra).
    assert (Hreq0 : 0 <= req) by (rewrite HreqA; lra).
    apply tolq_lt_iff in Hgt. rewrite Qabs_opp in Hgt.
    rewrite (Qabs_pos fq) in Hgt by auto. rewrite (Qabs_pos req) in Hgt by auto.
    rewrite (Qabs_neg (fq + - req)) in Hgt by lra.
    set (X := fr + 2 * d) in *. set (R := - p * A + ff) in *.
    assert (HRX : R - X <= Qabs (X - R)) by (qabs_all; lra).
    assert (HR0 : 0 <= R) by (unfold R; lra).
    assert (Hm : - p * (req - fq) <= fs * (R - X)).
    { assert (Hm' : - p * (req - fq) == - (- p * (fq - req))) by ring. rewrite Hm', Hgp. lra. }
    apply tolq_le_iff in Hclose. rewrite (Qabs_pos X), (Qabs_pos R) in Hclose by auto.
    assert (Hd1 : forall y, R - X <= y -> 0 <= y -> - p * (req - fq) <= fs * y).
    { intros y Hy Hy0. assert (0 <= fs * (y - (R - X))) by (apply Qmult_le_0_compat; lra). lra. }
    assert (Hd2 : forall y, y < req - fq -> - p * y < - p * (req - fq)).
    { intros y Hy. assert (0 < - p * (req - fq - y)) by (apply Qmul_pos; lra). lra. }
    assert (HfX : fs * X <= - p * fq).
    { assert (Hx1 : - p * fq - fs * X == (- p - fs) * fr).
      { rewrite Hfq, Hdf. unfold X. rewrite <- Havg. ring. }
      assert (0 <= (- p - fs) * fr) by (apply Qmult_le_0_compat; lra). lra. }
    assert (HfR : fs * R <= - p * req).
    { assert (Hx1 : - p * req - fs * R == (- p - fs) * ff) by (rewrite HreqA; unfold R; ring).
      assert (0 <= (- p - fs) * ff) by (apply Qmult_le_0_compat; lra). lra. }
    destruct Hgt as (G1 & G2 & G3).
    destruct Hclose as [Hc3|[Hc3|Hc3]].
    + specialize (Hd1 ((1 # 1000000000) * X) ltac:(lra) ltac:(lra)). specialize (Hd2 ((1 # 1000000000) * fq) ltac:(lra)). lra.
    + specialize (Hd1 ((1 # 1000000000) * R) ltac:(lra) ltac:(lra)). specialize (Hd2 ((1 # 1000000000) * req) ltac:(lra)). lra.
    + specialize (Hd1 (1 # 1000000000000) ltac:(lra) ltac:(lra)). specialize (Hd2 (1 # 1000000000000) ltac:(lra)). lra.
  - cbn in Hle0. qb.
    assert (Hden : 0 < A - 2 * avg).
    { destruct (Qlt_le_dec 0 (A - 2 * avg)); auto. exfalso.
      assert (0 <= - p * (2 * avg - A)) by (apply Qmult_le_0_compat; lra). lra. }
    destruct (Qlt_le_dec ms fs) as [Hms2|Hms2].
    2:{ eapply approx_add_sgn; [exact Hq|].
        assert (0 <= (ms - fs) * (A - 2 * avg)) by (apply Qmult_le_0_compat; lra). lra. }
    destruct (Qlt_le_dec (fq - req) 0) as [Hneg2|]; [|eapply approx_add_sgn; [exact Hq|lra]].
    destruct Hq as [[Hz _]|[Hz Hgt]]; [lra|]. exfalso.
    assert (H1 : 0 < (fs - ms) * A) by (apply Qmul_pos; lra).
    assert (H2 : 0 <= (fs - ms) * avg) by (apply Qmult_le_0_compat; lra).
    assert (H3 : req - fq <= req - l) by lra.
    assert (HfA : 0 <= fs * A) by (apply Qmult_le_0_compat; lra).
    destruct Hl as [Hl|Hl]; [lra|].
    apply tolq_le_iff in Hl. apply tolq_lt_iff in Hgt. rewrite Qabs_opp in Hgt.
    rewrite (Qabs_neg (fq + - req)) in Hgt by lra.
    rewrite (Qabs_pos (req - l)) in Hl by lra.
    rewrite (Qabs_pos req) in * by lra. destruct Hgt as (G1 & G2 & G3). qabs_all. lra.
Qed.

Lemma sell_short_limit_lock : forall cash p d fr size ap f ff pct lim p',
  0 < ap -> - (1) < f ->
  sell_short_limit (mkExec cash (Fin p) (Fin d) (Fin fr)) size (Fin ap) (Fin f) (Fin ff) true pct
    = Ok (inr (lim, p')) ->
  let L := Qmax p 0 in
  forall fs, xq_leb (Fin fs) lim = true ->
  fs <= L \/ (fs - L) * (ap * (1 + f)) <= fr + L * ap * (1 - f) - ff.
Proof.
  intros cash p d fr size ap f ff pct lim p' Hap Hf H L fs Hfs.
  unfold sell_short_limit in H. cbn [orb es_position es_free_cash] in H. cbv zeta in H.
  assert (HL : exists lq, max2 (Fin p) zero = Fin lq /\ lq == L).
  { unfold max2. cbn [ltb XQnum zero ofZ xq_ltb]. change (inject_Z 0) with 0.
    destruct (qlt_bool p 0) eqn:E; qb.
    - eexists; split; [reflexivity|]. unfold L. rewrite Q.max_r by lra. reflexivity.
    - exists p; split; auto. unfold L. rewrite Q.max_l by lra. reflexivity. }
  destruct HL as (lq & El & HL). rewrite El in H.
  change (mul (mul (Fin lq) (Fin ap)) (sub one (Fin f))) with (Fin (Qred (Qred (lq * ap) * Qred (1 - f)))) in H.
  assert (Hlc : Qred (Qred (lq * ap) * Qred (1 - f)) == L * ap * (1 - f)) by (rewrite !Qred_correct, HL; reflexivity).
  set (lc := Qred (Qred (lq * ap) * Qred (1 - f))) in *. clearbody lc.
  destruct (add_nb_fin fr lc) as (tf & Etf & Htf). rewrite Etf in H.
  change (neg (Fin ff)) with (Fin (Qred (- ff))) in H.
  destruct (add_nb_fin tf (Qred (- ff))) as (tff & Etff & Htff). rewrite Etff in H.
  assert (Htff' : approx_add tf (- ff) tff) by (rewrite <- (Qred_correct (- ff)); exact Htff).
  change (mul (Fin ap) (add one (Fin f))) with (Fin (Qred (ap * Qred (1 + f)))) in H.
  assert (HA : Qred (ap * Qred (1 + f)) == ap * (1 + f)) by (rewrite !Qred_correct; reflexivity).
  set (A' := Qred (ap * Qred (1 + f))) in *. clearbody A'.
  assert (HA0 : 0 < ap * (1 + f)) by (apply Qmul_pos; lra).
  apply bind_ok in H as (lm & Hlm & H).
  assert (Hm : forall msl, lm = inr msl -> exists m, msl = Fin m /\
     (m <= L \/ (m - L) * (ap * (1 + f)) <= fr + L * ap * (1 - f) - ff)).
  { intros msl ->. cbn [leb XQnum zero ofZ xq_leb] in Hlm. change (inject_Z 0) with 0 in Hlm.
    destruct (Qle_bool tf 0) eqn:E1; qb.
    - destruct (Qle_bool p 0); [discriminate|]. injection Hlm as <-. exists lq. split; auto. left; lra.
    - apply bind_ok in Hlm as (ms & Hms & Hlm).
      apply sdiv_fin in Hms as (msq & -> & Hnz & Hmsq).
      destruct (add_nb_fin lq msq) as (m & Em & Hm). rewrite Em in Hlm. cbn [xq_leb] in Hlm.
      destruct (Qle_bool m 0) eqn:E2; [discriminate|]. qb. injection Hlm as <-.
      exists m. split; auto.
      assert (Hmm : m == L + msq) by (destruct Hm as [[Hz _]|[Hz _]]; lra).
      assert (Hms2 : msq * (ap * (1 + f)) == tff) by (rewrite Hmsq, <- HA; apply Qdiv_mul; auto).
      destruct (Qlt_le_dec 0 msq) as [Hpos|]; [right|left; lra].
      assert (0 < tff) by (rewrite <- Hms2; apply Qmul_pos; lra).
      assert (tff == tf - ff) by (destruct Htff' as [[Hz _]|[Hz _]]; lra).
      assert (tf == fr + lc) by (destruct Htf as [[Hz _]|[Hz _]]; lra).
      assert ((m - L) * (ap * (1 + f)) == msq * (ap * (1 + f))) by (rewrite Hmm; ring). lra. }
  destruct lm as [info|msl]; [discriminate|].
  destruct (Hm msl eq_refl) as (m & -> & Hm'). clear Hm.
  assert (Hle : fs <= m).
  { assert (Hmin : forall x, xq_leb (Fin fs) (min2 x (Fin m)) = true -> fs <= m).
    { intros x Hx. destruct x as [| | |x]; cbn in Hx.
      - discriminate.
      - qb; auto.
      - discriminate.
      - unfold min2 in Hx. cbn in Hx. destruct (qlt_bool m x) eqn:E; cbn in Hx; qb; lra. }
    destruct (isinf size && negb (isnan pct))%bool; [injection H as <- _; eauto|].
    destruct (negb (isnan pct)); injection H as <- _; eauto. }
  destruct Hm' as [Hm'|Hm']; [left; lra|].
  destruct (Qlt_le_dec L fs); [right|left; auto].
  assert (0 <= (m - fs) * (ap * (1 + f))) by (apply Qmult_le_0_compat; lra). lra.
Qed.

Lemma sell_lock_free : forall cash p d fr price slip f ff dir sz mn mx gran pct allow es' r fs fee net np nd,
  0 <= fr -> 0 < price -> slip < 1 -> - (1) < f ->
  (dir = LongOnly -> pct = NaN \/ exists pc, pct = Fin pc /\ pc <= 1) ->
  let ap := sell_price price slip in
  let es := mkExec cash (Fin p) (Fin d) (Fin fr) in
  SellCert es sz ap dir f ff mn mx gran pct true allow es' r fs ->
  SellEffect cash p d (Fin fr) fs ap f ff es' r fee net np nd ->
  exists q, es_free_cash es' = Fin q /\ - tolq (fs * ap) fee <= q.
Proof.
  intros cash p d fr price slip f ff dir sz mn mx gran pct allow es' r fs fee net np nd
    Hfr Hprice Hslip Hf Hlo ap es C E.
  assert (Hap : 0 < ap).
  { unfold ap. rewrite sell_price_eq. apply Qmul_pos; lra. }
  clearbody ap.
  pose proof (sc_pos _ _ _ _ _ _ _ _ _ _ _ _ _ _ _ C) as Hfs0.
  pose proof (se_net0 _ _ _ _ _ _ _ _ _ _ _ _ _ _ E) as Hnet0.
  pose proof (se_np _ _ _ _ _ _ _ _ _ _ _ _ _ _ E) as Hnp.
  pose proof (tolq_pos (fs * ap) fee) as Htp.
  destruct (Qlt_le_dec np 0) as [Hlt|Hge].
  2:{ destruct (se_long _ _ _ _ _ _ _ _ _ _ _ _ _ _ E Hge) as [_ (q & Eq & Hq)].
      exists q. split; auto. lra. }
  assert (Hnpe : np == p - fs) by (destruct Hnp as [[Hz _]|[Hz _]]; lra).
  destruct (se_short _ _ _ _ _ _ _ _ _ _ _ _ _ _ E Hlt) as (sv & diff & Hsv & _ & Hdiff & (q & Eq & Hq)).
  exists q. split; auto.
  assert (Hdir : dir <> LongOnly).
  { intros Hd. pose proof (sc_long _ _ _ _ _ _ _ _ _ _ _ _ _ _ _ C Hd p eq_refl (Hlo Hd)). lra. }
  destruct (sc_lock _ _ _ _ _ _ _ _ _ _ _ _ _ _ _ C Hdir eq_refl) as (lim & p' & Hlim & Hle).
  pose proof (sell_short_limit_lock _ _ _ _ _ _ _ _ _ _ _ Hap Hf Hlim fs Hle) as Hl. cbv zeta in Hl.
  set (L := Qmax p 0) in *.
  assert (HL : (p < 0 /\ L == 0) \/ (0 <= p /\ L == p)).
  { unfold L. destruct (Qlt_le_dec p 0); [left; split; [auto|apply Q.max_r; lra]|right; split; [auto|apply Q.max_l; lra]]. }
  clearbody L.
  assert (Hsv2 : sv == (fs - L) * ap).
  { rewrite Hsv. destruct (Qlt_le_dec p 0); destruct HL as [[? HL]|[? HL]]; try lra; rewrite HL; try rewrite Hnpe; ring. }
  destruct Hl as [Hl|Hl]; [lra|].
  pose proof (se_fee _ _ _ _ _ _ _ _ _ _ _ _ _ _ E) as Hfee.
  pose proof (se_net _ _ _ _ _ _ _ _ _ _ _ _ _ _ E) as Hnet.
  assert (Hid : fr + (fs * ap - fee) - 2 * sv == fr + L * ap * (1 - f) - ff - (fs - L) * (ap * (1 + f))).
  { rewrite Hsv2, Hfee. ring. }
  assert (Hn2 : fs * ap - fee - tolq (fs * ap) fee <= net).
  { apply approx_add_bound in Hnet.
    assert (Ht : tolq (fs * ap) (- fee) == tolq (fs * ap) fee) by (unfold tolq; rewrite Qabs_opp; reflexivity).
    rewrite Ht in Hnet. qab. lra. }
  destruct Hq as [[Hz _]|[Hz _]]; [lra|].
  destruct Hdiff as [[Hd _]|[Hd _]]; [lra|]. lra.
Qed.

Lemma lock_cash_free : forall draws k (s : ProcState XQ) (o : Order XQ) es' r k' cash p d fr,
  (forall f, o_fees o = Fin f -> - (1) < f) ->
  (forall sl, o_slippage o = Fin sl -> sl < 1) ->
  regular o (snap (ps_value s)) ->
  (o_direction o = LongOnly -> o_size_type o = Percent -> exists q, o_size o = Fin q /\ - (1) <= q) ->
  o_lock_cash o = true ->
  snapped (ps_cash s) cash -> snapped (ps_position s) (Fin p) ->
  snapped (ps_debt s) (Fin d) -> snapped (ps_free_cash s) (Fin fr) ->
  0 <= fr ->
  (p < 0 -> (exists c, cash = Fin c /\ c <= fr + 2 * d) /\
            forall ff, o_fixed_fees o = Fin ff -> 0 <= ff <= fr) ->
  execute_order_nb draws k s o = Ok (es', r, k') ->
  exists q, es_free_cash es' = Fin q /\
    (r_side r <> Some Sell -> 0 <= q) /\
    (r_side r = Some Sell -> exists size px fee, r_size r = Fin size /\ r_price r = Fin px /\
       r_fees r = Fin fee /\ - tolq (size * px) fee <= q).
Proof.
  intros draws k s o es' r k' cash0 p0 d0 fr0 Hf Hsl Hreg Hpc Hlock S1 S2 S3 S4 Hfr Hsh H.
  apply snapped_det in S1, S2, S3, S4.
  apply filled_view in H as [Hu|(cash & p & d & free & price & f & ff & slip & mn & rp & osz & pct & Es & Hck & Hf' & Hcv & Hrs & Hfl & Hbs)];
    auto.
  - destruct Hu as [-> (st & info & Hst & ->)]. cbn. rewrite S4. exists fr0. split; auto. split; [auto|].
    intros Hx; discriminate Hx.
  - unfold snap_state in Es. rewrite S1, S2, S3, S4 in Es. injection Es as <- <- <- <-.
    destruct Hck as [Kcash Kpos Kdebt Kd0 Kfree Kprice Kprice0 Klong Kshort Kfees Kff Kslip Kslip0 Kmin Kmin0 Kmax Kgran Krp Krp0].
    destruct Hbs as [(Hgt & cl & fs & fee & req & np & nd & Hcl & C & E)|(Hgt & fs & fee & net & np & nd & C & E)];
    rewrite Hlock in *.
    + destruct (buy_lock_free cash0 p0 d0 fr0 price slip f ff (o_direction o) osz mn (o_max_size o) (o_size_granularity o)
                cl (o_allow_partial o) pct es' r fs fee req np nd) as (q & Eq & Hq); auto.
      { intros Hp. destruct (Hsh Hp) as [H1 H2]. split; auto. }
      exists q. split; auto. split; auto.
      rewrite (be_res _ _ _ _ _ _ _ _ _ _ _ _ E). cbn. intros Hx; discriminate Hx.
    + destruct (sell_lock_free cash0 p0 d0 fr0 price slip f ff (o_direction o) (neg osz) mn (o_max_size o) (o_size_granularity o)
                pct (o_allow_partial o) es' r fs fee net np nd) as (q & Eq & Hq); auto.
      { intros Hd. destruct (resolve_size_long_pct _ _ _ _ _ _ Hd Hrs) as [->|[Et ->]]; [left; auto|].
        destruct (Hpc Hd Et) as (z & Ez & Hz). right.
        destruct (xq_abs_fin z) as (rz & Erz & Hrz). exists rz. rewrite Ez. split; [exact Erz|].
        assert (Hneg : z <= 0).
        { destruct (Qlt_le_dec 0 z); auto. exfalso.
          unfold resolve_size in Hrs. rewrite Hd, Et, Ez in Hrs. cbn [is_short_only resolve_target_percent] in Hrs.
          cbn [bind resolve_value] in Hrs.
          assert (E1 : mul (sign (Fin z)) pinf = osz) by (unfold resolve_amount in Hrs; congruence).
          rewrite sign_fin in E1. destruct (qlt_bool 0 z) eqn:E2; [|qb; lra].
          subst osz. discriminate Hgt. }
        rewrite Hrz, Qabs_neg by lra. lra. }
      exists q. split; auto. rewrite (se_res _ _ _ _ _ _ _ _ _ _ _ _ _ _ E). cbn.
      split; [congruence|]. intros _. exists fs, (sell_price price slip), fee. auto.
Qed.
