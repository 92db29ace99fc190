(** * Lemmas about the exponentially weighted deviation, the bands and the full indicators *)
From Coq Require Import ZArith QArith Qabs Qminmax Bool List Arith Lia Lqa.
From Verif Require Import Base Num GenericNb XQFacts GenericSpec GenericLemmas GenericLemmas2 GenericLemmas3
  ReturnsSpec NumFacts IndicatorsNb IndicatorsSpec IndicatorsLemmas IndicatorsLemmas2 IndicatorsLemmas3.
Import ListNotations.
Local Open Scope Q_scope.

Lemma qsq : forall x, 0 <= x * x.
Proof. intros x. destruct (Qlt_le_dec x 0); [assert (0 <= (- x) * (- x)) by (apply Qmult_le_0_compat; lra); lra|apply Qmult_le_0_compat; lra]. Qed.

Lemma eqb_nan : eqb NaN NaN = false. Proof. reflexivity. Qed.

(** The new mean and deviation after a value *)
Lemma cov_value : forall mean cov ow nw cur m c o n q,
  is_number mean m -> is_number cov c -> is_number ow o -> is_number nw n -> is_number cur q ->
  0 <= o -> 0 < n ->
  exists mean' cov',
    (if neb mean cur then sdiv (add (mul ow mean) (mul nw cur)) (add ow nw) else Ok mean) = Ok mean' /\
    sdiv (add (mul ow (add cov (mul (sub mean mean') (sub mean mean')))) (mul nw (mul (sub cur mean') (sub cur mean')))) (add ow nw) = Ok cov' /\
    exists m' c', is_number mean' m' /\ is_number cov' c' /\ m' * (o + n) == o * m + n * q /\
      c' * (o + n) == o * (c + (m - m') * (m - m')) + n * ((q - m') * (q - m')).
Proof.
  intros mean cov ow nw cur m c o n q Hm Hc Ho Hn Hq Po Pn.
  assert (Hs : is_number (add ow nw) (o + n)) by (apply in_add; auto).
  assert (G : exists mean' m', (if neb mean cur then sdiv (add (mul ow mean) (mul nw cur)) (add ow nw) else Ok mean) = Ok mean' /\
     is_number mean' m' /\ m' * (o + n) == o * m + n * q).
  { unfold neb. rewrite (in_eqb _ _ _ _ Hm Hq). destruct (Qeq_bool m q) eqn:E; cbn [negb].
    - apply qeq_t in E. exists mean, m. split; auto. split; auto. rewrite E. ring.
    - destruct (in_sdiv _ _ _ _ (in_add _ _ _ _ (in_mul _ _ _ _ Ho Hm) (in_mul _ _ _ _ Hn Hq)) Hs ltac:(lra)) as (z & Ez & Hz).
      exists z, ((o * m + n * q) / (o + n)). split; auto. split; auto. field. lra. }
  destruct G as (mean' & m' & E1 & Hm' & Em'). exists mean'.
  assert (Hd : is_number (add (mul ow (add cov (mul (sub mean mean') (sub mean mean')))) (mul nw (mul (sub cur mean') (sub cur mean'))))
    (o * (c + (m - m') * (m - m')) + n * ((q - m') * (q - m')))).
  { apply in_add; apply in_mul; auto.
    - apply in_add; auto. apply in_mul; apply in_sub; auto.
    - apply in_mul; apply in_sub; auto. }
  destruct (in_sdiv _ _ _ _ Hd Hs ltac:(lra)) as (z & Ez & Hz). exists z. split; auto. split; auto.
  exists m', ((o * (c + (m - m') * (m - m')) + n * ((q - m') * (q - m'))) / (o + n)). split; auto. split; auto. split; auto. field. lra.
Qed.

(** *** Weights of the adjusted variant *)
Lemma ewm_std_step_adjusted : forall span a mp k s x rX r, (2 <= span)%nat -> no_infinity a -> is_number rX r -> r == 1 - share span ->
  nth_error a k = Some x -> std_weights a span k s ->
  exists s' y, ewm_std_step rX one true mp k s x = Ok (s', y) /\ std_weights a span (S k) s' /\
    let hist := rev (firstn (S k) a) in
    ((length (vals hist) < Nat.max mp 2)%nat -> y = NaN) /\
    ((Nat.max mp 2 <= length (vals hist))%nat -> is_number y (ew_variance (1 - share span) hist)).
Proof.
  intros span a mp k s x rX r Hsp HT HrX Hr Hx HI.
  assert (G : exists s', std_weights a span (S k) s' /\
    ewm_std_step rX one true mp k s x =
    bind (if Nat.leb mp (e_nobs s') then
       if gtb (sub (mul (e_sum_wt s') (e_sum_wt s')) (e_sum_wt2 s')) zero then
         bind (sdiv (mul (e_sum_wt s') (e_sum_wt s')) (sub (mul (e_sum_wt s') (e_sum_wt s')) (e_sum_wt2 s'))) (fun r => Ok (mul r (e_cov s')))
       else Ok nan
     else Ok nan) (fun out => Ok (s', out))).
  { unfold ewm_std_step. destruct s as [mean nobs cov sw sw2 ow]. destruct HI as (Hn & c & w & w2 & o & Hc & Hw & Hw2 & Ho & HS).
    cbn [e_nobs e_mean e_cov e_sum_wt e_sum_wt2 e_old_wt] in *. cbn zeta in HS, Hn.
    pose proof (share_lt1 span Hsp) as Hlt.
    assert (Hr0 : 0 < r) by lra.
    assert (EH : rev (firstn (S k) a) = x :: rev (firstn k a)) by (rewrite (firstn_snoc _ a k x Hx), rev_app_distr; reflexivity).
    assert (HTh : no_infinity (rev (firstn k a))) by (apply no_inf_hist; auto).
    unfold std_weights. rewrite EH. cbn zeta. set (h := rev (firstn k a)) in *.
    assert (Hsq : r * r == (1 - share span) * (1 - share span)) by (rewrite Hr; reflexivity).
    destruct HS as [(Hv & Em & Ec & Ew & Ew2 & Eo)|(Hv & m & Hm & Ew & Ew2 & Eo & Hmw & Hcw & Hwp)].
    - rewrite Em. rewrite eqb_nan. destruct (tame_at a k x HT Hx) as [->|[q ->]].
      + rewrite eqb_nan. eexists. split; [|reflexivity]. split; [exact Hn|].
        exists c, w, w2, o. split; auto. split; auto. split; auto. split; auto. left. auto 10.
      + rewrite (eqb_refl_fin _ q (in_fin q)).
        eexists. split; [|reflexivity]. split; [cbn [e_nobs vals length]; congruence|].
        exists c, w, w2, o. split; auto. split; auto. split; auto. split; auto. right. split; [discriminate|]. exists q.
        split; [apply in_fin|]. rewrite !weighted_cons. cbn [present number_or squared_deviation].
        rewrite !(weighted_none _ _ h Hv HTh) by reflexivity.
        split; [lra|]. split; [lra|]. split; [lra|]. split; [rewrite Ew; ring|]. split; [rewrite Ec, Ew; ring|lra].
    - rewrite (eqb_refl_fin _ _ Hm).
      assert (Hw' : is_number (mul sw rX) (w * r)) by (apply in_mul; auto).
      assert (Hw2' : is_number (mul sw2 (mul rX rX)) (w2 * (r * r))) by (apply in_mul; auto; apply in_mul; auto).
      assert (Ho' : is_number (mul ow rX) (o * r)) by (apply in_mul; auto).
      destruct (tame_at a k x HT Hx) as [->|[q ->]].
      + rewrite eqb_nan. eexists. split; [|reflexivity]. split; [exact Hn|].
        exists c, (w * r), (w2 * (r * r)), (o * r). split; auto. split; auto. split; auto. split; auto. right. split; auto.
        exists m. split; auto. rewrite !weighted_cons. cbn [present number_or squared_deviation].
        split; [rewrite Ew, Hr; ring|]. split; [rewrite Ew2, Hsq; ring|]. split; [rewrite Eo; ring|].
        split; [rewrite <- Hmw, <- Hr; ring|]. split; [rewrite <- Hcw, <- Hr; ring|]. apply Qmult_lt_0_compat; auto.
      + rewrite (eqb_refl_fin _ q (in_fin q)).
        assert (Hor : 0 <= o * r) by (apply Qmult_le_0_compat; lra).
        destruct (cov_value mean cov (mul ow rX) one (Fin q) m c (o * r) 1 q Hm Hc Ho' in_one (in_fin q) Hor ltac:(lra))
          as (mean' & cov' & E1 & E2 & m' & c' & Hm' & Hc' & Em' & Ec').
        rewrite E1. cbn [bind]. rewrite E2. cbn [bind]. eexists. split; [|reflexivity].
        split; [cbn [e_nobs vals length]; congruence|].
        exists c', (w * r + 1), (w2 * (r * r) + 1 * 1), (o * r + 1).
        split; auto. split; [apply in_add; auto; apply in_one|].
        split; [apply in_add; auto; apply in_mul; apply in_one|]. split; [apply in_add; auto; apply in_one|].
        right. split; [discriminate|]. exists m'. split; auto. rewrite !weighted_cons. cbn [present number_or squared_deviation].
        assert (Eow : o * r + 1 == w * r + 1) by (rewrite Eo; ring).
        split; [rewrite Ew, Hr; ring|]. split; [rewrite Ew2, Hsq; ring|]. split; [exact Eow|].
        split; [rewrite <- Eow, Em', <- Hmw, Eo, <- Hr; ring|].
        split; [|assert (0 <= w * r) by (apply Qmult_le_0_compat; lra); lra].
        rewrite <- Eow, Ec'. rewrite (weighted_sq_shift m m' (1 - share span) h); [|rewrite <- Ew; auto|auto].
        rewrite <- Hcw, <- Ew, Eo, <- Hr. ring. }
  destruct G as (s' & HS' & E). rewrite E.
  destruct (std_weights_out a span (S k) s' mp Hsp HT HS') as (y & Ey & H1 & H2). rewrite Ey. cbn [bind].
  exists s', y. split; auto.
Qed.

Lemma ewm_std_adjusted : forall sqrt span a mp ddof, (2 <= span)%nat -> no_infinity a ->
  (match mp with None => span | Some m => m end <= span)%nat ->
  exists out, ewm_std_1d_nb sqrt a span mp true ddof = Ok out /\ length out = length a /\
  forall i, (i < length a)%nat -> exists y, nth_error out i = Some (sqrt y) /\
    let hist := rev (firstn (S i) a) in
    let m := Nat.max (match mp with None => span | Some m => m end) 2 in
    ((length (vals hist) < m)%nat -> y = NaN) /\
    ((m <= length (vals hist))%nat -> is_number y (ew_variance (1 - share span) hist)).
Proof.
  intros sqrt span a mp ddof Hsp HT Hm. unfold ewm_std_1d_nb.
  set (m := match mp with None => span | Some m => m end) in *.
  replace (Nat.ltb span m) with false by (symmetry; apply Nat.ltb_ge; auto). cbn [raise_if].
  destruct a as [|a0 a'].
  { exists []. split; auto. split; auto. cbn. intros; lia. }
  destruct (alpha_fin span ltac:(lia)) as (al & Eal & Hal & r & Er & Hr). rewrite Eal. cbn [bind]. rewrite Er.
  set (a := a0 :: a') in *.
  set (s0 := mkEwm (if eqb a0 a0 then a0 else nan) (if eqb a0 a0 then 1%nat else 0%nat) zero one one one).
  assert (I0 : std_weights a span 1 s0).
  { assert (H0 : nth_error a 0 = Some a0) by reflexivity. unfold std_weights, s0. cbn [firstn rev app a].
    destruct (tame_at a 0 a0 HT H0) as [->|[q ->]]; cbn zeta.
    - cbn [eqb XQnum xq_eqb vals]. split; auto. exists 0, 1, 1, 1. split; [apply in_zero|]. split; [apply in_one|]. split; [apply in_one|]. split; [apply in_one|].
      left. split; [reflexivity|]. split; [reflexivity|]. split; [reflexivity|]. split; [reflexivity|]. split; reflexivity.
    - rewrite (eqb_refl_fin _ q (in_fin q)). cbn [e_nobs e_mean e_cov e_sum_wt e_sum_wt2 e_old_wt vals length]. split; auto.
      exists 0, 1, 1, 1. split; [apply in_zero|]. split; [apply in_one|]. split; [apply in_one|]. split; [apply in_one|].
      right. split; [discriminate|]. exists q. split; [apply in_fin|]. rewrite !weighted_cons. unfold weighted. cbn.
      split; [ring|]. split; [ring|]. split; [ring|]. split; [ring|]. split; [ring|lra]. }
  destruct (scanM_ok_at (ewm_std_step (Fin r) one true m) (fun k s => std_weights a span k s) a' 1 s0 I0) as (out & E).
  { intros k s x Hx HI. destruct (ewm_std_step_adjusted span a m (1 + k) s x (Fin r) r Hsp HT (in_fin r) Hr Hx HI) as (s' & y & E & HI' & _).
    eauto. }
  rewrite E. cbn [bind]. eexists. split; [reflexivity|].
  split; [rewrite map_length; cbn [length a]; f_equal; eapply scanM_length; eauto|].
  intros [|i] Hi.
  - exists nan. split; [reflexivity|]. cbn zeta. split; [reflexivity|]. intros C.
    pose proof (vals_length (rev (firstn 1 a))) as HL. rewrite rev_length, firstn_length in HL. lia.
  - destruct (nth_error a' i) as [x|] eqn:Ex; [|apply nth_error_None in Ex; cbn in Hi; lia].
    destruct (scanM_spec_at _ (fun k s => std_weights a span k s) a' 1 _ out E I0) with (k := i) (x := x) as (s1 & s' & b & HI & Hst & Hb); auto.
    + intros k s z s' b Hz HI Hst.
      destruct (ewm_std_step_adjusted span a m (1 + k) s z (Fin r) r Hsp HT (in_fin r) Hr Hz HI) as (s2 & y & E2 & HI' & _).
      rewrite E2 in Hst. injection Hst as <- _. exact HI'.
    + destruct (ewm_std_step_adjusted span a m (1 + i) s1 x (Fin r) r Hsp HT (in_fin r) Hr Ex HI) as (s2 & y & E2 & HI' & H1).
      rewrite E2 in Hst. injection Hst as _ <-. exists y. split; [cbn [map nth_error]; apply map_nth_error; auto|]. exact H1.
Qed.

(** *** Non-negative in both variants *)
Definition std_sane (s : Ewm) : Prop :=
  (e_mean s = NaN \/ exists m, e_mean s = Fin m) /\
  exists c w w2 o, is_number (e_cov s) c /\ is_number (e_sum_wt s) w /\ is_number (e_sum_wt2 s) w2 /\ is_number (e_old_wt s) o /\ 0 <= c /\ 0 <= o.

Lemma ewm_std_step_sane : forall rX nw r n adj mp k s x, is_number rX r -> is_number nw n -> 0 <= r -> 0 < n ->
  (x = NaN \/ exists q, x = Fin q) -> std_sane s ->
  exists s' y, ewm_std_step rX nw adj mp k s x = Ok (s', y) /\ std_sane s' /\ at_least 0 y.
Proof.
  intros rX nw r n adj mp k s x HrX Hnw Hr Hn Hx HI.
  assert (G : exists s', std_sane s' /\
    ewm_std_step rX nw adj mp k s x =
    bind (if Nat.leb mp (e_nobs s') then
       if gtb (sub (mul (e_sum_wt s') (e_sum_wt s')) (e_sum_wt2 s')) zero then
         bind (sdiv (mul (e_sum_wt s') (e_sum_wt s')) (sub (mul (e_sum_wt s') (e_sum_wt s')) (e_sum_wt2 s'))) (fun r => Ok (mul r (e_cov s')))
       else Ok nan
     else Ok nan) (fun out => Ok (s', out))).
  { unfold ewm_std_step. destruct s as [mean nobs cov sw sw2 ow]. destruct HI as (Hm & c & w & w2 & o & Hc & Hw & Hw2 & Ho & Pc & Po).
    cbn [e_nobs e_mean e_cov e_sum_wt e_sum_wt2 e_old_wt] in *.
    assert (Hw' : is_number (mul sw rX) (w * r)) by (apply in_mul; auto).
    assert (Hw2' : is_number (mul sw2 (mul rX rX)) (w2 * (r * r))) by (apply in_mul; auto; apply in_mul; auto).
    assert (Ho' : is_number (mul ow rX) (o * r)) by (apply in_mul; auto).
    assert (Hor : 0 <= o * r) by (apply Qmult_le_0_compat; lra).
    destruct Hm as [->|[m ->]].
    - rewrite eqb_nan. destruct Hx as [->|[q ->]].
      + rewrite eqb_nan. eexists. split; [|reflexivity]. split; [left; reflexivity|]. exists c, w, w2, o. auto 10.
      + rewrite (eqb_refl_fin _ q (in_fin q)). eexists. split; [|reflexivity]. split; [right; eexists; reflexivity|].
        exists c, w, w2, o. auto 10.
    - rewrite (eqb_refl_fin _ m (in_fin m)). destruct Hx as [->|[q ->]].
      + rewrite eqb_nan. eexists. split; [|reflexivity]. split; [right; eexists; reflexivity|]. exists c, (w * r), (w2 * (r * r)), (o * r). auto 10.
      + rewrite (eqb_refl_fin _ q (in_fin q)).
        destruct (cov_value (Fin m) cov (mul ow rX) nw (Fin q) m c (o * r) n q (in_fin m) Hc Ho' Hnw (in_fin q) Hor Hn)
          as (mean' & cov' & E1 & E2 & m' & c' & Hm' & Hc' & Em' & Ec').
        rewrite E1. cbn [bind]. rewrite E2. cbn [bind].
        assert (Pc' : 0 <= c').
        { assert (0 <= c' * (o * r + n)).
          { rewrite Ec'. pose proof (qsq (m - m')). pose proof (qsq (q - m')).
            assert (0 <= o * r * (c + (m - m') * (m - m'))) by (apply Qmult_le_0_compat; lra).
            assert (0 <= n * ((q - m') * (q - m'))) by (apply Qmult_le_0_compat; lra). lra. }
          destruct (Qlt_le_dec c' 0); auto. assert (0 < (- c') * (o * r + n)) by (apply Qmult_lt_0_compat; lra). lra. }
        assert (Hmm : mean' = NaN \/ exists z, mean' = Fin z) by (destruct Hm' as (z & -> & _); right; eauto).
        assert (Hs1 : is_number (add (mul sw rX) nw) (w * r + n)) by (apply in_add; auto).
        assert (Hs2 : is_number (add (mul sw2 (mul rX rX)) (mul nw nw)) (w2 * (r * r) + n * n)) by (apply in_add; auto; apply in_mul; auto).
        assert (Hs3 : is_number (add (mul ow rX) nw) (o * r + n)) by (apply in_add; auto).
        destruct adj.
        * eexists. split; [|reflexivity]. split; [exact Hmm|].
          exists c', (w * r + n), (w2 * (r * r) + n * n), (o * r + n). cbn [e_cov e_sum_wt e_sum_wt2 e_old_wt].
          split; auto. split; auto. split; auto. split; auto. split; auto. lra.
        * destruct (in_sdiv _ _ _ _ Hs1 Hs3 ltac:(lra)) as (z1 & -> & Hz1). cbn [bind].
          assert (Hpp : 0 < (o * r + n) * (o * r + n)) by (apply Qmult_lt_0_compat; lra).
          destruct (in_sdiv _ _ _ _ Hs2 (in_mul _ _ _ _ Hs3 Hs3) ltac:(lra)) as (z2 & -> & Hz2). cbn [bind].
          eexists. split; [|reflexivity]. split; [exact Hmm|].
          eexists c', _, _, 1. cbn [e_cov e_sum_wt e_sum_wt2 e_old_wt].
          split; auto. split; [exact Hz1|]. split; [exact Hz2|]. split; [apply in_one|]. split; auto. lra. }
  destruct G as (s' & HS' & E). rewrite E. destruct HS' as (Hm & c & w & w2 & o & Hc & Hw & Hw2 & Ho & Pc & Po).
  assert (HS' : std_sane s') by (split; [exact Hm|exists c, w, w2, o; auto 10]).
  destruct (Nat.leb mp (e_nobs s')).
  2:{ exists s', NaN. split; [reflexivity|]. split; auto. left; auto. }
  assert (Hden : is_number (sub (mul (e_sum_wt s') (e_sum_wt s')) (e_sum_wt2 s')) (w * w - w2)).
  { apply in_sub; auto. apply in_mul; auto. }
  unfold gtb. rewrite (in_ltb _ _ _ _ in_zero Hden). destruct (qlt_bool 0 (w * w - w2)) eqn:El; qb.
  - destruct (in_sdiv _ _ _ _ (in_mul _ _ _ _ Hw Hw) Hden ltac:(lra)) as (z & -> & Hz). cbn [bind].
    exists s', (mul z (e_cov s')). split; auto. split; auto.
    destruct (in_mul _ _ _ _ Hz Hc) as (p & -> & Hp). right. exists p. split; auto. rewrite Hp.
    apply Qmult_le_0_compat; auto. apply Qle_shift_div_l; auto. pose proof (qsq w). lra.
  - exists s', NaN. split; [reflexivity|]. split; auto. left; auto.
Qed.

Lemma ewm_std_nonneg : forall sqrt span a mp adj ddof, (1 <= span)%nat -> no_infinity a ->
  (match mp with None => span | Some m => m end <= span)%nat ->
  exists out, ewm_std_1d_nb sqrt a span mp adj ddof = Ok out /\ length out = length a /\
  forall z, In z out -> exists y, z = sqrt y /\ at_least 0 y.
Proof.
  intros sqrt span a mp adj ddof Hsp HT Hm. unfold ewm_std_1d_nb.
  set (m := match mp with None => span | Some m => m end) in *.
  replace (Nat.ltb span m) with false by (symmetry; apply Nat.ltb_ge; auto). cbn [raise_if].
  destruct a as [|a0 a'].
  { exists []. split; auto. split; auto. cbn. tauto. }
  destruct (alpha_fin span Hsp) as (al & Eal & Hal & r & Er & Hr). rewrite Eal. cbn [bind]. rewrite Er.
  set (s0 := mkEwm (if eqb a0 a0 then a0 else nan) (if eqb a0 a0 then 1%nat else 0%nat) zero one one one).
  pose proof (share_pos span Hsp) as [Hs0 Hs1].
  assert (Hin : forall x, In x (a0 :: a') -> x = NaN \/ exists q, x = Fin q).
  { intros x Hx. destruct (HT x Hx). destruct x; eauto; congruence. }
  assert (I0 : std_sane s0).
  { split.
    - unfold s0. cbn [e_mean]. destruct (Hin a0 (or_introl eq_refl)) as [->|[q ->]]; [left; reflexivity|].
      rewrite (eqb_refl_fin _ q (in_fin q)). eauto.
    - exists 0, 1, 1, 1. cbn [s0 e_cov e_sum_wt e_sum_wt2 e_old_wt]. split; [apply in_zero|]. split; [apply in_one|].
      split; [apply in_one|]. split; [apply in_one|]. lra. }
  assert (Hnw : exists n, is_number (if adj then one else Fin al) n /\ 0 < n).
  { destruct adj; [exists 1; split; [apply in_one|lra]|exists al; split; [apply in_fin|lra]]. }
  destruct Hnw as (n & Hnw & Pn).
  assert (Hin' : forall j z, nth_error a' j = Some z -> z = NaN \/ exists q, z = Fin q).
  { intros j z Hz. apply Hin. right. eapply nth_error_In; eauto. }
  assert (St : forall k s x, (x = NaN \/ exists q, x = Fin q) -> std_sane s ->
    exists s' y, ewm_std_step (Fin r) (if adj then one else Fin al) adj m k s x = Ok (s', y) /\ std_sane s' /\ at_least 0 y).
  { intros k s x Hx HI. apply ewm_std_step_sane with (r := r) (n := n); auto; [apply in_fin|lra]. }
  destruct (scanM_ok_at (ewm_std_step (Fin r) (if adj then one else Fin al) adj m) (fun _ => std_sane) a' 1 s0 I0) as (out & E).
  { intros k s x Hx HI. destruct (St (1 + k)%nat s x (Hin' _ _ Hx) HI) as (s' & y & E & HI' & _). eauto. }
  rewrite E. cbn [bind]. eexists. split; [reflexivity|].
  assert (HL : length out = length a') by (eapply scanM_length; eauto).
  split; [rewrite map_length; cbn [length]; congruence|].
  intros z [<-|Hz]; [exists nan; split; [reflexivity|left; reflexivity]|].
  apply in_map_iff in Hz as (y & <- & Hy). exists y. split; auto.
  apply In_nth_error in Hy as (i & Hi).
  destruct (nth_error a' i) as [x|] eqn:Ex; [|apply nth_error_None in Ex; assert (i < length out)%nat by (apply nth_error_Some; congruence); lia].
  destruct (scanM_spec_at _ (fun _ => std_sane) a' 1 _ out E I0) with (k := i) (x := x) as (s1 & s' & b & HI & Hst & Hb); auto.
  - intros k s w s' b Hw HI Hst. destruct (St (1 + k)%nat s w (Hin' _ _ Hw) HI) as (s2 & y2 & E2 & HI' & _).
    rewrite E2 in Hst. injection Hst as <- _. exact HI'.
  - destruct (St (1 + i)%nat s1 x (Hin' _ _ Ex) HI) as (s2 & y2 & E2 & HI' & H1).
    rewrite E2 in Hst. injection Hst as _ <-. rewrite Hb in Hi. injection Hi as <-. auto.
Qed.

(** The simple deviation takes square roots of non-negative numbers too. *)
Lemma variance_nonneg : forall ddof l, (ddof < Z.of_nat (length l))%Z -> 0 <= variance ddof l.
Proof.
  intros ddof l H. unfold variance.
  assert (0 < count l - inject_Z ddof).
  { unfold count. rewrite Zlt_Qlt in H. lra. }
  apply Qle_shift_div_l; auto. rewrite Qmult_0_l.
  generalize (mean l). intros m. clear. induction l as [|x l IH]; cbn; [lra|]. pose proof (qsq (x - m)). lra.
Qed.

Lemma mstd_nonneg : forall sqrt tol a w ewm adj ddof, (1 <= w)%nat -> no_infinity a -> sqrt NaN = NaN ->
  exists out, mstd_nb sqrt tol a w ewm adj ddof = Ok out /\ length out = length a /\
  forall z, In z out -> exists y, z = sqrt y /\ at_least 0 y.
Proof.
  intros sqrt tol a w ewm adj ddof Hw HT Hs. unfold mstd_nb. destruct ewm.
  - apply ewm_std_nonneg; auto.
  - destruct (rolling_std_accepts sqrt tol a w (Some w) ddof) as (out & E); [cbn; lia|].
    exists out. split; auto. destruct (rolling_std_run sqrt tol a w (Some w) ddof out HT E) as [HL HR]. split; auto.
    intros z Hz. apply In_nth_error in Hz as (i & Hi).
    destruct (HR i) as (y & Ey & H1 & H2). { rewrite <- HL. apply nth_error_Some. congruence. }
    rewrite Hi in Ey. injection Ey as <-. cbn zeta in *.
    destruct (Nat.lt_ge_cases (length (vals (window w i a))) (Nat.max w 1)) as [Hl|Hl].
    { exists NaN. split; [rewrite Hs; auto|left; auto]. }
    destruct (Z.leb_spec (Z.of_nat (length (vals (window w i a)))) ddof) as [Hd|Hd].
    { exists NaN. split; [rewrite Hs; auto|left; auto]. }
    destruct (H2 Hl Hd) as (v & -> & Hv). exists (Fin v). split; auto. right. exists v. split; auto. rewrite Hv. apply variance_nonneg; auto.
Qed.
