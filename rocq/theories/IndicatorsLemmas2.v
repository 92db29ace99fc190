(** * Lemmas about the relative strength index, stochastic oscillator, true range and on-balance volume *)
From Coq Require Import ZArith QArith Qabs Bool List Arith Lia Lqa.
From Verif Require Import Base Num GenericNb XQFacts GenericSpec GenericLemmas GenericLemmas2 GenericLemmas3
  ReturnsSpec NumFacts IndicatorsNb IndicatorsSpec IndicatorsLemmas.
Import ListNotations.
Local Open Scope nat_scope.

(** ** Pointwise operations *)
Lemma zip_with_length : forall {T} (f : T -> T -> T) a b, length a = length b -> length (zip_with f a b) = length a.
Proof. intros T f a b H. unfold zip_with. rewrite map_length, combine_length, H. lia. Qed.
Lemma zip_with_nth : forall {T} (f : T -> T -> T) a b i x y, nth_error a i = Some x -> nth_error b i = Some y ->
  nth_error (zip_with f a b) i = Some (f x y).
Proof.
  intros T f a. unfold zip_with. induction a as [|a0 a IH]; intros [|b0 b] [|i] x y H H'; cbn in *; try discriminate.
  - injection H as ->. injection H' as ->. auto.
  - auto.
Qed.
Lemma zip_with_inv : forall {T} (f : T -> T -> T) a b i z, nth_error (zip_with f a b) i = Some z ->
  exists x y, nth_error a i = Some x /\ nth_error b i = Some y /\ z = f x y.
Proof.
  intros T f a. unfold zip_with. induction a as [|a0 a IH]; intros [|b0 b] [|i] z H; cbn in *; try discriminate.
  - injection H as <-. eauto.
  - apply IH in H. auto.
Qed.
Lemma map_nth_inv : forall {A B} (f : A -> B) l i z, nth_error (map f l) i = Some z -> exists x, nth_error l i = Some x /\ z = f x.
Proof.
  intros A B f l i z H. destruct (nth_error l i) as [x|] eqn:E.
  - rewrite (map_nth_error f _ _ E) in H. injection H as <-. eauto.
  - apply nth_error_None in E. assert (nth_error (map f l) i = None) by (apply nth_error_None; rewrite map_length; auto). congruence.
Qed.

(** ** Gains and losses *)
Lemma gains_rises : forall {T} {N : Num T} (close : list T), gains close = rises close.
Proof.
  intros T N close. unfold gains, set_where, diff_1d_nb, rises. rewrite map_map. apply map_ext_in. intros i Hi.
  unfold change. destruct i; cbn [Nat.ltb Nat.leb]; auto. rewrite Nat.sub_succ, Nat.sub_0_r. reflexivity.
Qed.
Lemma losses_drops : forall {T} {N : Num T} (close : list T), losses close = drops close.
Proof.
  intros T N close. unfold losses, set_where, diff_1d_nb, drops. rewrite !map_map. apply map_ext_in. intros i Hi.
  unfold change, gtb. destruct i; cbn [Nat.ltb Nat.leb].
  - destruct (ltb zero nan); auto.
  - rewrite Nat.sub_succ, Nat.sub_0_r. destruct (ltb zero _); auto.
Qed.

Local Open Scope Q_scope.
Lemma nth_known : forall (a : list XQ) i, no_infinity a -> nth i a NaN = NaN \/ exists q, nth i a NaN = Fin q.
Proof.
  intros a i H. destruct (nth_error a i) as [x|] eqn:E.
  - rewrite (nth_error_nth a i NaN E). destruct (H x (nth_error_In _ _ E)). destruct x; eauto; congruence.
  - left. apply nth_overflow. apply nth_error_None; auto.
Qed.
Lemma change_known : forall (close : list XQ) i, no_infinity close -> change close i = NaN \/ exists q, change close i = Fin q.
Proof.
  intros close [|j] H; unfold change; [left; reflexivity|]. change (@nan XQ _) with NaN.
  destruct (nth_known close (S j) H) as [->|[p ->]]; [left; reflexivity|].
  destruct (nth_known close j H) as [->|[q ->]]; [left; reflexivity|]. right. eexists. apply sub_fin.
Qed.

Lemma rises_ok : forall close, no_infinity close -> no_infinity (rises close) /\ all_known (fun q => 0 <= q) (rises close).
Proof.
  intros close H.
  assert (G : forall x, In x (rises close) -> nan_or (fun q => 0 <= q) x).
  { intros x Hx. unfold rises in Hx. apply in_map_iff in Hx as (i & <- & _).
    destruct (change_known close i H) as [->|[q ->]]; [left; reflexivity|].
    cbn [ltb XQnum xq_ltb zero ofZ]. change (inject_Z 0) with 0. destruct (qlt_bool q 0) eqn:E; qb; right.
    - exists 0. split; [reflexivity|lra].
    - exists q. split; auto. }
  split.
  - intros x Hx. destruct (G x Hx) as [->|(q & -> & _)]; split; discriminate.
  - intros q Hq. destruct (G _ Hq) as [C|(p & E & Hp)]; [discriminate|]. injection E as ->. auto.
Qed.
Lemma drops_ok : forall close, no_infinity close -> no_infinity (drops close) /\ all_known (fun q => 0 <= q) (drops close).
Proof.
  intros close H.
  assert (G : forall x, In x (drops close) -> nan_or (fun q => 0 <= q) x).
  { intros x Hx. unfold drops in Hx. apply in_map_iff in Hx as (i & <- & _).
    destruct (change_known close i H) as [->|[q ->]]; [left; reflexivity|].
    destruct (ltb zero (Fin q)); right.
    - exists 0. split; [reflexivity|lra].
    - destruct (xq_abs_fin q) as (r & E & Hr). exists r. split; [exact E|]. rewrite Hr. apply Qabs_nonneg. }
  split.
  - intros x Hx. destruct (G x Hx) as [->|(q & -> & _)]; split; discriminate.
  - intros q Hq. destruct (G _ Hq) as [C|(p & E & Hp)]; [discriminate|]. injection E as ->. auto.
Qed.

(** ** The index itself *)
Lemma rsi_point : forall u d, 0 <= u -> 0 <= d ->
  let y := sub (ofZ 100) (div (ofZ 100) (add one (div (Fin u) (Fin d)))) in
  (0 < u + d -> is_number y (100 * u / (u + d))) /\ (u + d == 0 -> y = NaN).
Proof.
  intros u d Hu Hd. cbn zeta. destruct (Qeq_dec d 0) as [E|E].
  - assert (Eb : Qeq_bool d 0 = true) by (apply qeq_t; auto).
    split.
    + intros H. cbn [div XQnum xq_div]. rewrite Eb. unfold xq_sgn_inf. replace (Qeq_bool u 0) with false by (symmetry; qbg; lra).
      replace (qlt_bool 0 u) with true by (symmetry; qbg; lra). cbn.
      eexists. split; [reflexivity|]. rewrite ?Qred_correct, E. field. lra.
    + intros H. cbn [div XQnum xq_div]. rewrite Eb. unfold xq_sgn_inf. replace (Qeq_bool u 0) with true by (symmetry; qbg; lra). reflexivity.
  - split; [|intros; lra]. intros H.
    assert (Hp : 0 < d) by (destruct (Qlt_le_dec 0 d); auto; lra).
    assert (H1 : is_number (div (Fin u) (Fin d)) (u / d)) by (apply in_div; try apply in_fin; auto).
    assert (H2 : is_number (add one (div (Fin u) (Fin d))) (1 + u / d)) by (apply in_add; auto; apply in_one).
    assert (0 <= u / d) by (apply Qle_shift_div_l; lra).
    assert (H3 : is_number (div (ofZ 100) (add one (div (Fin u) (Fin d)))) (inject_Z 100 / (1 + u / d))).
    { apply in_div; auto; [apply in_ofZ|lra]. }
    eapply in_eq; [apply in_sub; [apply in_ofZ|exact H3]|]. change (inject_Z 100) with 100. field. split; lra.
Qed.

Lemma div_nan_l : forall x, div NaN x = NaN. Proof. reflexivity. Qed.
Lemma div_nan_r : forall x, div x NaN = NaN. Proof. intros []; reflexivity. Qed.

Lemma rsi_values : forall up down i y, (forall x, In x up -> nan_or (fun q => 0 <= q) x) -> (forall x, In x down -> nan_or (fun q => 0 <= q) x) ->
  nth_error (rsi_of up down) i = Some y ->
  exists u d, nth_error up i = Some u /\ nth_error down i = Some d /\
  match u, d with
  | Fin u, Fin d => 0 <= u /\ 0 <= d /\ (0 < u + d -> is_number y (100 * u / (u + d))) /\ (u + d == 0 -> y = NaN)
  | _, _ => y = NaN
  end.
Proof.
  intros up down i y HU HD H. unfold rsi_of in H. apply map_nth_inv in H as (rs & H & ->).
  apply zip_with_inv in H as (u & d & Eu & Ed & ->). exists u, d. split; auto. split; auto.
  destruct (HU u (nth_error_In _ _ Eu)) as [->|(p & -> & Hp)]; [rewrite div_nan_l; reflexivity|].
  destruct (HD d (nth_error_In _ _ Ed)) as [->|(q & -> & Hq)]; [rewrite div_nan_r; reflexivity|].
  split; auto. split; auto. apply (rsi_point p q Hp Hq).
Qed.

Lemma rsi_between : forall up down y, (forall x, In x up -> nan_or (fun q => 0 <= q) x) -> (forall x, In x down -> nan_or (fun q => 0 <= q) x) ->
  In y (rsi_of up down) -> within 0 100 y.
Proof.
  intros up down y HU HD H. apply In_nth_error in H as (i & H).
  destruct (rsi_values up down i y HU HD H) as (u & d & Eu & Ed & G).
  destruct u as [| | |u]; try (left; exact G). destruct d as [| | |d]; try (left; exact G).
  destruct G as (Hu & Hd & G1 & G2). destruct (Qlt_le_dec 0 (u + d)) as [Hp|Hp].
  - destruct (G1 Hp) as (q & -> & Hq). right. exists q. split; auto. rewrite Hq. split.
    + apply Qle_shift_div_l; lra.
    + apply Qle_shift_div_r; lra.
  - left. apply G2. lra.
Qed.

(** ** Stochastic oscillator *)
Lemma numbers_in : forall (x : XQ) l, In x (numbers l) <-> In x l /\ isnan x = false.
Proof.
  intros x l. unfold numbers. rewrite filter_In. rewrite negb_true_iff. tauto.
Qed.
Lemma in_window_last : forall {A} (a : list A) w i x, (1 <= w)%nat -> nth_error a i = Some x -> In x (window w i a).
Proof.
  intros A a w i x Hw H. unfold window. rewrite (firstn_snoc _ a i x H).
  rewrite skipn_app. apply in_or_app. right.
  assert (i < length a)%nat by (apply nth_error_Some; congruence).
  rewrite firstn_length. replace (S i - w - Nat.min i (length a))%nat with 0%nat by lia. left; auto.
Qed.

Lemma fin_of_notnan : forall (a : list XQ) x, no_infinity a -> In x a -> isnan x = false -> exists q, x = Fin q.
Proof. intros a x H Hx Hn. destruct (H x Hx). destruct x; try congruence; eauto. discriminate. Qed.

(** A window with as many numbers as bars ends with a number. *)
Lemma full_window_last : forall (a : list XQ) w i, (1 <= w)%nat -> no_infinity a -> (i < length a)%nat ->
  length (vals (window w i a)) = w -> exists q, nth_error a i = Some (Fin q).
Proof.
  intros a w i Hw HT Hi H. destruct (nth_error a i) as [x|] eqn:E; [|apply nth_error_None in E; lia].
  destruct (tame_at a i x HT E) as [->|[q ->]]; [|eauto]. exfalso.
  unfold window in H. rewrite (firstn_snoc _ a i NaN E), skipn_app, vals_app, app_length in H.
  rewrite firstn_length in H. replace (S i - w - Nat.min i (length a))%nat with 0%nat in H by lia. cbn [skipn vals length] in H.
  pose proof (vals_length (skipn (S i - w) (firstn i a))) as HL. rewrite skipn_length, firstn_length in HL. lia.
Qed.

Lemma min_at : forall low w out i, no_infinity low -> (1 <= w)%nat -> rolling_min_1d_nb low w None = Ok out -> (i < length low)%nat ->
  exists y, nth_error out i = Some y /\
  (y = NaN \/ exists m, y = Fin m /\ length (vals (window w i low)) = w /\ In m (vals (window w i low)) /\
     (forall q, In q (vals (window w i low)) -> m <= q) /\ exists q, nth_error low i = Some (Fin q) /\ m <= q).
Proof.
  intros low w out i HT Hw H Hi. destruct (rolling_min_run low w None out Hw H) as [HL HR].
  destruct (HR i Hi) as (y & Ey & H1 & H2 & H3). exists y. split; auto.
  assert (Hnan : isnan y = true -> y = NaN) by (destruct y; cbn; congruence).
  assert (LV : forall l : list XQ, no_infinity l -> length (vals l) = length (numbers l)).
  { intros l. induction l as [|x l IH]; intros Hl; auto. assert (no_infinity l) by (intros z Hz; apply Hl; right; auto).
    destruct (Hl x (or_introl eq_refl)). destruct x; try congruence; cbn; rewrite IH; auto. }
  assert (HW : no_infinity (window w i low)) by (apply no_inf_window; auto).
  assert (VI : forall q, In q (vals (window w i low)) <-> In (Fin q) (numbers (window w i low))).
  { intros q. rewrite numbers_in. split.
    - intros Hq. split; [apply in_vals; auto|reflexivity].
    - intros [Hq _]. clear -Hq. induction (window w i low) as [|[| | |p] l IH]; cbn in *; try (destruct Hq as [Hq|Hq]; [discriminate|auto]); auto.
      destruct Hq as [Hq|Hq]; [injection Hq as ->; auto|auto]. }
  destruct (Nat.lt_ge_cases (length (numbers (window w i low))) w) as [Hlt|Hge]; [left; auto|].
  destruct (numbers (window w i low)) as [|n0 nl] eqn:En; [left; auto|].
  destruct (H2 Hge ltac:(discriminate)) as [Hin Hmin]. rewrite <- En in *.
  apply numbers_in in Hin as Hin'. destruct Hin' as [Hin' Hnn].
  destruct (fin_of_notnan _ y HW Hin' Hnn) as (m & ->). right. exists m. split; auto.
  assert (Hall : forall q, In q (vals (window w i low)) -> m <= q).
  { intros q Hq. apply VI in Hq. apply Hmin in Hq. cbn in Hq. apply qle_t in Hq. auto. }
  assert (HLw : (length (window w i low) <= w)%nat) by (unfold window; rewrite skipn_length, firstn_length; lia).
  assert (HLv : length (vals (window w i low)) = w).
  { pose proof (vals_length (window w i low)). rewrite <- LV in Hge by auto. lia. }
  split; auto. split; [apply VI; auto|]. split; auto.
  destruct (full_window_last low w i Hw HT Hi HLv) as (q & Hq). exists q. split; auto.
  apply Hall. apply VI. apply numbers_in. split; [|reflexivity]. apply in_window_last; auto.
Qed.

Lemma max_at : forall high w out i, no_infinity high -> (1 <= w)%nat -> rolling_max_1d_nb high w None = Ok out -> (i < length high)%nat ->
  exists y, nth_error out i = Some y /\
  (y = NaN \/ exists m, y = Fin m /\ length (vals (window w i high)) = w /\ In m (vals (window w i high)) /\
     (forall q, In q (vals (window w i high)) -> q <= m) /\ exists q, nth_error high i = Some (Fin q) /\ q <= m).
Proof.
  intros low w out i HT Hw H Hi. destruct (rolling_max_run low w None out Hw H) as [HL HR].
  destruct (HR i Hi) as (y & Ey & H1 & H2 & H3). exists y. split; auto.
  assert (Hnan : isnan y = true -> y = NaN) by (destruct y; cbn; congruence).
  assert (LV : forall l : list XQ, no_infinity l -> length (vals l) = length (numbers l)).
  { intros l. induction l as [|x l IH]; intros Hl; auto. assert (no_infinity l) by (intros z Hz; apply Hl; right; auto).
    destruct (Hl x (or_introl eq_refl)). destruct x; try congruence; cbn; rewrite IH; auto. }
  assert (HW : no_infinity (window w i low)) by (apply no_inf_window; auto).
  assert (VI : forall q, In q (vals (window w i low)) <-> In (Fin q) (numbers (window w i low))).
  { intros q. rewrite numbers_in. split.
    - intros Hq. split; [apply in_vals; auto|reflexivity].
    - intros [Hq _]. clear -Hq. induction (window w i low) as [|[| | |p] l IH]; cbn in *; try (destruct Hq as [Hq|Hq]; [discriminate|auto]); auto.
      destruct Hq as [Hq|Hq]; [injection Hq as ->; auto|auto]. }
  destruct (Nat.lt_ge_cases (length (numbers (window w i low))) w) as [Hlt|Hge]; [left; auto|].
  destruct (numbers (window w i low)) as [|n0 nl] eqn:En; [left; auto|].
  destruct (H2 Hge ltac:(discriminate)) as [Hin Hmin]. rewrite <- En in *.
  apply numbers_in in Hin as Hin'. destruct Hin' as [Hin' Hnn].
  destruct (fin_of_notnan _ y HW Hin' Hnn) as (m & ->). right. exists m. split; auto.
  assert (Hall : forall q, In q (vals (window w i low)) -> q <= m).
  { intros q Hq. apply VI in Hq. apply Hmin in Hq. cbn in Hq. apply qle_t in Hq. auto. }
  assert (HLw : (length (window w i low) <= w)%nat) by (unfold window; rewrite skipn_length, firstn_length; lia).
  assert (HLv : length (vals (window w i low)) = w).
  { pose proof (vals_length (window w i low)). rewrite <- LV in Hge by auto. lia. }
  split; auto. split; [apply VI; auto|]. split; auto.
  destruct (full_window_last low w i Hw HT Hi HLv) as (q & Hq). exists q. split; auto.
  apply Hall. apply VI. apply numbers_in. split; [|reflexivity]. apply in_window_last; auto.
Qed.

Lemma percent_k_point : forall c lo hi, lo <= c -> c <= hi ->
  let y := div (mul (ofZ 100) (sub (Fin c) (Fin lo))) (sub (Fin hi) (Fin lo)) in
  (lo < hi -> is_number y (100 * (c - lo) / (hi - lo))) /\ (lo == hi -> y = NaN).
Proof.
  intros c lo hi H1 H2. cbn zeta. split; intros H.
  - eapply in_eq; [apply in_div; [apply in_mul; [apply in_ofZ|apply in_sub; apply in_fin]|apply in_sub; apply in_fin|lra]|].
    change (inject_Z 100) with 100. reflexivity.
  - rewrite !sub_fin. change (ofZ 100 : XQ) with (Fin 100). rewrite mul_fin. cbn [div XQnum xq_div].
    replace (Qeq_bool (Qred (hi - lo)) 0) with true by (symmetry; qbg; rewrite Qred_correct; lra).
    unfold xq_sgn_inf. replace (Qeq_bool (Qred (100 * Qred (c - lo))) 0) with true by (symmetry; qbg; rewrite !Qred_correct; lra). reflexivity.
Qed.

(** The oscillator at one bar: undefined, or the position of the close
    between the lowest low and the highest high of the window. *)
Lemma percent_k_run : forall high low close w mins maxs,
  no_infinity high -> no_infinity low -> no_infinity close -> (1 <= w)%nat ->
  length high = length close -> length low = length close ->
  series_le low close -> series_le close high ->
  rolling_min_1d_nb low w None = Ok mins -> rolling_max_1d_nb high w None = Ok maxs ->
  length (percent_k close mins maxs) = length close /\
  forall i, (i < length close)%nat -> exists y, nth_error (percent_k close mins maxs) i = Some y /\
   (y = NaN \/ exists lo hi c, nth_error close i = Some (Fin c) /\
     In lo (vals (window w i low)) /\ (forall q, In q (vals (window w i low)) -> lo <= q) /\
     In hi (vals (window w i high)) /\ (forall q, In q (vals (window w i high)) -> q <= hi) /\
     lo <= c /\ c <= hi /\
     length (vals (window w i low)) = w /\ length (vals (window w i high)) = w /\
     y = div (mul (ofZ 100) (sub (Fin c) (Fin lo))) (sub (Fin hi) (Fin lo))).
Proof.
  intros high low close w mins maxs Hh Hl Hc Hw E1 E2 O1 O2 Hmin Hmax.
  assert (L1 : length mins = length close) by (rewrite <- E2; apply (rolling_min_run low w None mins Hw Hmin)).
  assert (L2 : length maxs = length close) by (rewrite <- E1; apply (rolling_max_run high w None maxs Hw Hmax)).
  assert (L3 : length (percent_k close mins maxs) = length close).
  { unfold percent_k. rewrite zip_with_length; rewrite map_length, zip_with_length; auto. rewrite zip_with_length; congruence. }
  split; auto. intros i Hi.
  destruct (nth_error (percent_k close mins maxs) i) as [y|] eqn:Ey; [|apply nth_error_None in Ey; lia].
  exists y. split; auto. unfold percent_k in Ey. apply zip_with_inv in Ey as (t & u & Et & Eu & ->).
  apply map_nth_inv in Et as (t' & Et & ->). apply zip_with_inv in Et as (c & mn & Ec & Emn & ->).
  apply zip_with_inv in Eu as (mx & mn' & Emx & Emn' & ->). rewrite Emn in Emn'. injection Emn' as <-.
  destruct (min_at low w mins i Hl Hw Hmin ltac:(lia)) as (y1 & Ey1 & M1). rewrite Emn in Ey1. injection Ey1 as <-.
  destruct (max_at high w maxs i Hh Hw Hmax ltac:(lia)) as (y2 & Ey2 & M2). rewrite Emx in Ey2. injection Ey2 as <-.
  destruct M1 as [->|(lo & -> & N1 & I1 & A1 & B1)].
  { left. destruct (tame_at close i c Hc Ec) as [->|[q ->]]; reflexivity. }
  destruct (tame_at close i c Hc Ec) as [->|[q ->]]; [left; reflexivity|].
  destruct M2 as [->|(hi & -> & N2 & I2 & A2 & B2)]; [left; reflexivity|].
  right. exists lo, hi, q.
  destruct B1 as (p1 & P1 & Q1). destruct B2 as (p2 & P2 & Q2).
  pose proof (O1 i p1 q P1 Ec). pose proof (O2 i q p2 Ec P2).
  split; auto. split; auto. split; auto. split; auto. split; auto. split; [lra|]. split; [lra|]. auto.
Qed.
