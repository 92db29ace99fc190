(** * The indicators as the user calls them *)
From Coq Require Import String ZArith QArith Qabs Qminmax Bool List Arith Lia Lqa.
From Verif Require Import Base Num GenericNb XQFacts GenericSpec GenericLemmas GenericLemmas2 GenericLemmas3
  ReturnsSpec NumFacts IndicatorsNb IndicatorsSpec IndicatorsLemmas IndicatorsLemmas2 IndicatorsLemmas3 IndicatorsLemmas4.
Import ListNotations.
Local Open Scope list_scope.
Local Open Scope nat_scope.

(** ** Caches are transparent, for any arithmetic *)
Section Transparent.
  Context {T : Type} {N : Num T}.
  Variables (hash2 : nat * bool -> Z) (hash1 : nat -> Z) (sqrt : T -> T) (tol : T).

  Lemma ma_cached : forall close windows ewms adjust d w e, no_collision hash2 (combine windows ewms) ->
    ma_cache_nb hash2 close windows ewms adjust = Ok d -> In (w, e) (combine windows ewms) ->
    ma_apply_nb hash2 w e d = ma_nb close w e adjust.
  Proof.
    intros close windows ewms adjust d w e HC H Hk. destruct (cached _ _ _ _ _ HC H Hk) as (v & Ev & Eg).
    cbn [fst snd] in Ev. unfold ma_apply_nb. rewrite Ev. exact Eg.
  Qed.

  Lemma mstd_cached : forall close windows ewms adjust ddof d w e, no_collision hash2 (combine windows ewms) ->
    mstd_cache_nb sqrt tol hash2 close windows ewms adjust ddof = Ok d -> In (w, e) (combine windows ewms) ->
    mstd_apply_nb hash2 w e d = mstd_nb sqrt tol close w e adjust ddof.
  Proof.
    intros close windows ewms adjust ddof d w e HC H Hk. destruct (cached _ _ _ _ _ HC H Hk) as (v & Ev & Eg).
    cbn [fst snd] in Ev. unfold mstd_apply_nb. rewrite Ev. exact Eg.
  Qed.

  Lemma bb_cached : forall close windows ewms adjust ddof caches w e alpha, no_collision hash2 (combine windows ewms) ->
    bb_cache_nb sqrt tol hash2 close windows ewms adjust ddof = Ok caches -> In (w, e) (combine windows ewms) ->
    bb_apply_nb hash2 w e alpha caches =
      bind (ma_nb close w e adjust) (fun ma => bind (mstd_nb sqrt tol close w e adjust ddof) (fun sd => Ok (bands alpha ma sd))).
  Proof.
    intros close windows ewms adjust ddof caches w e alpha HC H Hk. unfold bb_cache_nb in H.
    apply bind_ok in H as (d1 & H1 & H). apply bind_ok in H as (d2 & H2 & H). injection H as <-.
    unfold bb_apply_nb. cbn [fst snd].
    pose proof (ma_cached _ _ _ _ _ _ _ HC H1 Hk) as E1. unfold ma_apply_nb in E1. rewrite E1.
    pose proof (mstd_cached _ _ _ _ _ _ _ _ HC H2 Hk) as E2. unfold mstd_apply_nb in E2. rewrite E2. reflexivity.
  Qed.

  Lemma rsi_cached : forall close windows ewms adjust d w e, no_collision hash2 (combine windows ewms) ->
    rsi_cache_nb hash2 close windows ewms adjust = Ok d -> In (w, e) (combine windows ewms) ->
    rsi_apply_nb hash2 w e d =
      bind (ma_nb (rises close) w e adjust) (fun u => bind (ma_nb (drops close) w e adjust) (fun v => Ok (rsi_of u v))).
  Proof.
    intros close windows ewms adjust d w e HC H Hk. destruct (cached _ _ _ _ _ HC H Hk) as ([u v] & Ev & Eg).
    cbn [fst snd] in Ev. unfold rsi_apply_nb. rewrite Eg. cbn [bind].
    rewrite gains_rises, losses_drops in Ev. apply bind_ok in Ev as (u' & Eu & Ev). apply bind_ok in Ev as (v' & Ev' & Ev).
    injection Ev as <- <-. rewrite Eu. cbn [bind]. rewrite Ev'. reflexivity.
  Qed.

  Lemma stoch_cached : forall high low close k_windows d k dw de adjust, no_collision hash1 k_windows ->
    stoch_cache_nb hash1 high low k_windows = Ok d -> In k k_windows ->
    stoch_apply_nb hash1 close k dw de adjust d =
      bind (rolling_min_1d_nb low k None) (fun mins => bind (rolling_max_1d_nb high k None) (fun maxs =>
        bind (ma_nb (percent_k close mins maxs) dw de adjust) (fun pd => Ok (percent_k close mins maxs, pd)))).
  Proof.
    intros high low close kws d k dw de adjust HC H Hk. destruct (cached _ _ _ _ _ HC H Hk) as ([u v] & Ev & Eg).
    unfold stoch_apply_nb. rewrite Eg. cbn [bind].
    apply bind_ok in Ev as (u' & Eu & Ev). apply bind_ok in Ev as (v' & Ev' & Ev).
    injection Ev as <- <-. rewrite Eu. cbn [bind]. rewrite Ev'. reflexivity.
  Qed.

  Lemma combine_app : forall {A B} (a a' : list A) (b b' : list B), length a = length b ->
    combine (a ++ a') (b ++ b') = combine a b ++ combine a' b'.
  Proof. intros A B a. induction a as [|x a IH]; intros a' [|y b] b' H; try discriminate; cbn; auto. f_equal. apply IH. auto. Qed.

  Lemma macd_cached : forall close fast slow ewms adjust d k f s e sw se,
    no_collision hash2 (combine (fast ++ slow) (ewms ++ ewms)) -> length fast = length ewms ->
    macd_cache_nb hash2 close fast slow ewms adjust = Ok d ->
    nth_error fast k = Some f -> nth_error slow k = Some s -> nth_error ewms k = Some e ->
    macd_apply_nb hash2 f s sw e se adjust d =
      bind (ma_nb close f e adjust) (fun fm => bind (ma_nb close s e adjust) (fun sm =>
        bind (ma_nb (zip_with sub fm sm) sw se adjust) (fun sg => Ok (zip_with sub fm sm, sg)))).
  Proof.
    intros close fast slow ewms adjust d k f s e sw se HC HL H Hf Hs He. unfold macd_cache_nb in H. unfold macd_apply_nb.
    pose proof (ma_cached _ _ _ _ _ f e HC H) as E1. pose proof (ma_cached _ _ _ _ _ s e HC H) as E2.
    unfold ma_apply_nb in E1, E2. rewrite combine_app in E1, E2 by auto.
    rewrite E1 by (apply in_or_app; left; eapply in_combine_nth; eauto).
    rewrite E2 by (apply in_or_app; right; eapply in_combine_nth; eauto). reflexivity.
  Qed.

  Lemma atr_cached : forall high low close windows ewms adjust caches w e, no_collision hash2 (combine windows ewms) ->
    atr_cache_nb hash2 high low close windows ewms adjust = Ok caches -> In (w, e) (combine windows ewms) ->
    atr_apply_nb hash2 w e caches =
      bind (ma_nb (true_range_nb high low close) w e adjust) (fun atr => Ok (true_range_nb high low close, atr)).
  Proof.
    intros high low close windows ewms adjust caches w e HC H Hk. unfold atr_cache_nb in H.
    apply bind_ok in H as (d & H & E). injection E as <-. destruct (cached _ _ _ _ _ HC H Hk) as (v & Ev & Eg).
    cbn [fst snd] in Ev. unfold atr_apply_nb. cbn [fst snd]. rewrite Eg, Ev. reflexivity.
  Qed.

  Lemma ma_unlisted : forall close windows ewms adjust d w e,
    ma_cache_nb hash2 close windows ewms adjust = Ok d ->
    (forall k, In k (combine windows ewms) -> hash2 k <> hash2 (w, e)) ->
    exists msg, ma_apply_nb hash2 w e d = Err (KeyError msg).
  Proof. intros close windows ewms adjust d w e H Hn. eexists. eapply not_cached; eauto. Qed.
End Transparent.

(** ** Bounds *)
Local Open Scope Q_scope.
Lemma getitem_in : forall {K V} (hash : K -> Z) (f : K -> res V) ks d h v, fill_cache hash f ks = Ok d -> getitem d h = Ok v ->
  exists k, In k ks /\ f k = Ok v.
Proof.
  intros K V hash f ks d h v H E. destruct (fill_sound hash f ks d H) as [_ S2]. unfold getitem in E.
  destruct (lookup h d) as [w|] eqn:El; [|discriminate]. injection E as <-. destruct (S2 _ _ El) as (k & I & _ & Ev). eauto.
Qed.

Lemma nan_or_tame : forall P l, (forall y, In y l -> nan_or P y) -> no_infinity l /\ all_known P l.
Proof.
  intros P l H. split.
  - intros x Hx. destruct (H x Hx) as [->|(q & -> & _)]; split; discriminate.
  - intros q Hq. destruct (H _ Hq) as [C|(p & E & Hp)]; [discriminate|]. injection E as ->. auto.
Qed.

Lemma ma_at_least : forall a w e adj out, no_infinity a -> (1 <= w)%nat -> all_known (fun q => 0 <= q) a -> ma_nb a w e adj = Ok out ->
  length out = length a /\ forall y, In y out -> nan_or (fun q => 0 <= q) y.
Proof. intros. eapply ma_convex; eauto. apply convex_ge. Qed.

Lemma windows_pos : forall windows (ewms : list bool) k, (forall w, In w windows -> (1 <= w)%nat) -> In k (combine windows ewms) -> (1 <= fst k)%nat.
Proof. intros windows ewms [w e] H Hk. apply in_combine_l in Hk. cbn. auto. Qed.

Lemma rsi_bounds : forall hash2 close windows ewms adjust d w e out, no_infinity close -> (forall w, In w windows -> (1 <= w)%nat) ->
  rsi_cache_nb hash2 close windows ewms adjust = Ok d -> rsi_apply_nb hash2 w e d = Ok out ->
  length out = length close /\ forall y, In y out -> within 0 100 y.
Proof.
  intros hash2 close windows ewms adjust d w e out HT HW H HA. unfold rsi_apply_nb in HA.
  apply bind_ok in HA as ([u v] & Eg & HA). injection HA as <-. destruct (getitem_in _ _ _ _ _ _ H Eg) as (k & Hk & Ev).
  apply bind_ok in Ev as (u' & Eu & Ev). apply bind_ok in Ev as (v' & Ev' & Ev). injection Ev as <- <-.
  rewrite gains_rises in Eu. rewrite losses_drops in Ev'.
  destruct (rises_ok close HT) as [R1 R2]. destruct (drops_ok close HT) as [D1 D2].
  pose proof (windows_pos _ _ _ HW Hk) as Hp.
  destruct (ma_at_least _ _ _ _ _ R1 Hp R2 Eu) as [L1 U]. destruct (ma_at_least _ _ _ _ _ D1 Hp D2 Ev') as [L2 D].
  split.
  - assert (LR : length (rises close) = length close) by (unfold rises; rewrite map_length, seq_length; auto).
    assert (LD : length (drops close) = length close) by (unfold drops; rewrite map_length, seq_length; auto).
    unfold rsi_of. rewrite map_length, zip_with_length; congruence.
  - intros y Hy. exact (rsi_between u' v' y U D Hy).
Qed.

Lemma rsi_value : forall close w e adj u v i y, no_infinity close -> (1 <= w)%nat ->
  ma_nb (rises close) w e adj = Ok u -> ma_nb (drops close) w e adj = Ok v -> nth_error (rsi_of u v) i = Some y ->
  exists a b, nth_error u i = Some a /\ nth_error v i = Some b /\
  match a, b with
  | Fin a, Fin b => 0 <= a /\ 0 <= b /\ (0 < a + b -> is_number y (100 * a / (a + b))) /\ (a + b == 0 -> y = NaN)
  | _, _ => y = NaN
  end.
Proof.
  intros close w e adj u v i y HT Hw Hu Hv H.
  destruct (rises_ok close HT) as [R1 R2]. destruct (drops_ok close HT) as [D1 D2].
  apply (rsi_values u v i y); auto.
  - apply (ma_at_least _ _ _ _ _ R1 Hw R2 Hu).
  - apply (ma_at_least _ _ _ _ _ D1 Hw D2 Hv).
Qed.

Lemma stoch_bounds : forall hash1 high low close k_windows d k dw de adjust pk pd,
  no_infinity high -> no_infinity low -> no_infinity close -> length high = length close -> length low = length close ->
  series_le low close -> series_le close high -> (forall w, In w k_windows -> (1 <= w)%nat) -> (1 <= dw)%nat ->
  stoch_cache_nb hash1 high low k_windows = Ok d -> stoch_apply_nb hash1 close k dw de adjust d = Ok (pk, pd) ->
  length pk = length close /\ length pd = length close /\ (forall y, In y pk -> within 0 100 y) /\ (forall y, In y pd -> within 0 100 y).
Proof.
  intros hash1 high low close kws d k dw de adjust pk pd Hh Hl Hc E1 E2 O1 O2 HW Hd H HA. unfold stoch_apply_nb in HA.
  apply bind_ok in HA as ([u v] & Eg & HA). apply bind_ok in HA as (pd' & Epd & HA). injection HA as <- <-.
  destruct (getitem_in _ _ _ _ _ _ H Eg) as (w & Hk & Ev).
  apply bind_ok in Ev as (u' & Eu & Ev). apply bind_ok in Ev as (v' & Ev' & Ev). injection Ev as <- <-.
  pose proof (HW w Hk) as Hp.
  destruct (percent_k_run high low close w u' v' Hh Hl Hc Hp E1 E2 O1 O2 Eu Ev') as [HL HK].
  assert (HB : forall y, In y (percent_k close u' v') -> nan_or (fun q => 0 <= q /\ q <= 100) y).
  { intros y Hy. apply In_nth_error in Hy as (i & Hi).
    destruct (HK i) as (y' & Ey & G). { rewrite <- HL. apply nth_error_Some. congruence. }
    rewrite Hi in Ey. injection Ey as <-. destruct G as [->|(lo & hi & c & _ & _ & _ & _ & _ & A & B & _ & _ & ->)]; [left; auto|].
    destruct (percent_k_point c lo hi A B) as [P1 P2].
    destruct (Qlt_le_dec lo hi) as [Hlt|Hge].
    - destruct (P1 Hlt) as (q & -> & Hq). right. exists q. split; auto. rewrite Hq. split.
      + apply Qle_shift_div_l; lra.
      + apply Qle_shift_div_r; lra.
    - left. apply P2. lra. }
  destruct (nan_or_tame _ _ HB) as [T1 T2].
  destruct (ma_convex _ _ _ _ _ _ (convex_and _ _ (convex_ge 0) (convex_le 100)) T1 Hd T2 Epd) as [L D].
  split; auto. split; [congruence|]. split; [exact HB|exact D].
Qed.

Lemma stoch_value : forall high low close w mins maxs i y,
  no_infinity high -> no_infinity low -> no_infinity close -> length high = length close -> length low = length close ->
  series_le low close -> series_le close high -> (1 <= w)%nat ->
  rolling_min_1d_nb low w None = Ok mins -> rolling_max_1d_nb high w None = Ok maxs ->
  nth_error (percent_k close mins maxs) i = Some y ->
  y = NaN \/ exists lo hi c, nth_error close i = Some (Fin c) /\
     In lo (vals (window w i low)) /\ (forall q, In q (vals (window w i low)) -> lo <= q) /\
     In hi (vals (window w i high)) /\ (forall q, In q (vals (window w i high)) -> q <= hi) /\
     length (vals (window w i low)) = w /\ length (vals (window w i high)) = w /\
     lo < hi /\ is_number y (100 * (c - lo) / (hi - lo)).
Proof.
  intros high low close w mins maxs i y Hh Hl Hc E1 E2 O1 O2 Hw Hmin Hmax H.
  destruct (percent_k_run high low close w mins maxs Hh Hl Hc Hw E1 E2 O1 O2 Hmin Hmax) as [HL HK].
  destruct (HK i) as (y' & Ey & G). { rewrite <- HL. apply nth_error_Some. congruence. }
  rewrite H in Ey. injection Ey as <-. destruct G as [->|(lo & hi & c & A1 & A2 & A3 & A4 & A5 & A & B & L1 & L2 & ->)]; [left; auto|].
  destruct (percent_k_point c lo hi A B) as [P1 P2].
  destruct (Qlt_le_dec lo hi) as [Hlt|Hge].
  - right. exists lo, hi, c. auto 12.
  - left. apply P2. lra.
Qed.

Lemma atr_bounds : forall hash2 high low close windows ewms adjust caches w e tr atr,
  no_infinity high -> no_infinity low -> no_infinity close -> length low = length high -> series_le low high ->
  (forall w, In w windows -> (1 <= w)%nat) ->
  atr_cache_nb hash2 high low close windows ewms adjust = Ok caches -> atr_apply_nb hash2 w e caches = Ok (tr, atr) ->
  tr = true_range_nb high low close /\ length atr = length high /\ (forall y, In y tr -> at_least 0 y) /\ (forall y, In y atr -> at_least 0 y).
Proof.
  intros hash2 high low close windows ewms adjust caches w e tr atr Hh Hl Hc E O HW H HA. unfold atr_cache_nb in H.
  apply bind_ok in H as (d & H & Ed). injection Ed as <-. unfold atr_apply_nb in HA. cbn [fst snd] in HA.
  apply bind_ok in HA as (v & Eg & HA). injection HA as <- <-. destruct (getitem_in _ _ _ _ _ _ H Eg) as (k & Hk & Ev).
  assert (HB : forall y, In y (true_range_nb high low close) -> nan_or (fun q => 0 <= q) y).
  { intros y Hy. apply In_nth_error in Hy as (i & Hi).
    assert (i < length high)%nat by (rewrite <- (true_range_length high low close); apply nth_error_Some; congruence).
    destruct (true_range_values high low close Hh Hl Hc E O i H0) as [En|(h & l & t & _ & _ & Et & _ & Pt)];
    rewrite Hi in *; [injection En as ->; left; auto|injection Et as ->; right; eauto]. }
  destruct (nan_or_tame _ _ HB) as [T1 T2].
  destruct (ma_at_least _ _ _ _ _ T1 (windows_pos _ _ _ HW Hk) T2 Ev) as [L D].
  split; auto. split; [rewrite L; apply true_range_length|]. split; [exact HB|exact D].
Qed.

Lemma bb_bounds : forall sqrt tol hash2 close windows ewms adjust ddof caches w e alpha middle upper lower,
  sqrt NaN = NaN -> (forall v, 0 <= v -> exists s, sqrt (Fin v) = Fin s /\ 0 <= s) ->
  no_infinity close -> (forall w, In w windows -> (1 <= w)%nat) -> 0 <= alpha ->
  bb_cache_nb sqrt tol hash2 close windows ewms adjust ddof = Ok caches ->
  bb_apply_nb hash2 w e (Fin alpha) caches = Ok (middle, upper, lower) ->
  length middle = length close /\ length upper = length close /\ length lower = length close /\
  forall i, (i < length close)%nat ->
    (nth_error upper i = Some NaN /\ nth_error lower i = Some NaN) \/
    exists m u l, bar_is middle i m /\ bar_is upper i u /\ bar_is lower i l /\ l <= m /\ m <= u /\ u - m == m - l.
Proof.
  intros sqrt tol hash2 close windows ewms adjust ddof caches w e alpha middle upper lower S1 S2 HT HW Ha H HA.
  unfold bb_cache_nb in H. apply bind_ok in H as (d1 & H1 & H). apply bind_ok in H as (d2 & H2 & H). injection H as <-.
  unfold bb_apply_nb in HA. cbn [fst snd] in HA. apply bind_ok in HA as (ma & Em & HA). apply bind_ok in HA as (sd & Es & HA).
  injection HA as <- <- <-. change xq_add with (@add XQ _). change xq_sub with (@sub XQ _). change xq_mul with (@mul XQ _).
  destruct (getitem_in _ _ _ _ _ _ H1 Em) as (k1 & Hk1 & E1). destruct (getitem_in _ _ _ _ _ _ H2 Es) as (k2 & Hk2 & E2).
  destruct (ma_convex (fun _ => True) _ _ _ _ _ ltac:(split; auto) HT (windows_pos _ _ _ HW Hk1) ltac:(intros ? ?; exact I) E1) as [L1 C1].
  destruct (mstd_nonneg sqrt tol close (fst k2) (snd k2) adjust ddof (windows_pos _ _ _ HW Hk2) HT S1) as (sd' & Esd & L2 & C2).
  rewrite E2 in Esd. injection Esd as <-.
  assert (L3 : length (map (mul (Fin alpha)) sd) = length close) by (rewrite map_length; auto).
  split; auto. split; [rewrite zip_with_length; congruence|]. split; [rewrite zip_with_length; congruence|].
  intros i Hi.
  destruct (nth_error ma i) as [x|] eqn:Ex; [|apply nth_error_None in Ex; lia].
  destruct (nth_error sd i) as [s|] eqn:Esi; [|apply nth_error_None in Esi; lia].
  assert (Ems : nth_error (map (mul (Fin alpha)) sd) i = Some (mul (Fin alpha) s)) by (apply map_nth_error; auto).
  rewrite (zip_with_nth add _ _ i _ _ Ex Ems), (zip_with_nth sub _ _ i _ _ Ex Ems).
  destruct (C1 x (nth_error_In _ _ Ex)) as [->|(m & -> & _)]; [left; auto|].
  destruct (C2 s (nth_error_In _ _ Esi)) as (v & -> & [->|(q & -> & Hq)]); [rewrite S1; left; auto|].
  destruct (S2 q Hq) as (t & Et & Ht). rewrite Et in *.
  assert (0 <= alpha * t) by (apply Qmult_le_0_compat; auto).
  right. exists m, (m + alpha * t), (m - alpha * t).
  split; [exists (Fin m); split; auto; exists m; split; reflexivity|].
  split; [eexists; split; [apply zip_with_nth; eauto|]; apply in_add; [apply in_fin|apply in_mul; apply in_fin]|].
  split; [eexists; split; [apply zip_with_nth; eauto|]; apply in_sub; [apply in_fin|apply in_mul; apply in_fin]|].
  split; [lra|]. split; [lra|ring].
Qed.
