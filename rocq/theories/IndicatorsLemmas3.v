(** * Lemmas about the true range, on-balance volume and exponentially weighted deviation *)
From Coq Require Import ZArith QArith Qabs Qminmax Bool List Arith Lia Lqa.
From Verif Require Import Base Num GenericNb XQFacts GenericSpec GenericLemmas GenericLemmas2 GenericLemmas3
  ReturnsSpec NumFacts IndicatorsNb IndicatorsSpec IndicatorsLemmas IndicatorsLemmas2.
Import ListNotations.
Local Open Scope Q_scope.

(** ** True range *)
Lemma in_max2 : forall x y a b, is_number x a -> is_number y b -> is_number (max2 x y) (Qmax a b).
Proof.
  intros x y a b Hx Hy. unfold max2. rewrite (in_ltb _ _ _ _ Hx Hy). destruct (qlt_bool a b) eqn:E; qb.
  - eapply in_eq; eauto. rewrite Q.max_r; [reflexivity|lra].
  - eapply in_eq; eauto. rewrite Q.max_l; [reflexivity|lra].
Qed.

Lemma true_range_length : forall {T} {N : Num T} (high low close : list T), length (true_range_nb high low close) = length high.
Proof. intros. unfold true_range_nb. rewrite map_length, seq_length. auto. Qed.

Lemma range_max : forall h l c, l <= h -> Qmax (Qmax (h - l) (Qabs (h - c))) (Qabs (l - c)) == Qmax h c - Qmin l c.
Proof.
  intros h l c H.
  destruct (Q.max_spec h c) as [[A ->]|[A ->]]; destruct (Q.min_spec l c) as [[B ->]|[B ->]];
  destruct (Qabs_cases (h - c)) as [[X EX]|[X EX]]; destruct (Qabs_cases (l - c)) as [[Y EY]|[Y EY]]; rewrite EX, EY;
  match goal with |- Qmax (Qmax ?p ?q) ?r == _ =>
    destruct (Q.max_spec p q) as [[U ->]|[U ->]]; 
    match goal with |- Qmax ?s r == _ => destruct (Q.max_spec s r) as [[V ->]|[V ->]] end end; lra.
Qed.

Lemma true_range_run : forall high low close i h l, nth_error high i = Some (Fin h) -> nth_error low i = Some (Fin l) -> no_infinity close ->
  l <= h ->
  match i with
  | O => bar_is (true_range_nb high low close) i (h - l)
  | S j => match nth j close NaN with
           | Fin c => bar_is (true_range_nb high low close) i (Qmax h c - Qmin l c)
           | _ => bar_is (true_range_nb high low close) i (h - l)
           end
  end.
Proof.
  intros high low close i h l Hh Hl HC Hle.
  assert (Hi : (i < length high)%nat) by (apply nth_error_Some; congruence).
  assert (E : nth_error (true_range_nb high low close) i = Some (
    let tr1 := sub (Fin h) (Fin l) in
    if Nat.eqb i 0 then tr1 else max2 (max2 tr1 (abs (sub (Fin h) (nth (i - 1) close NaN)))) (abs (sub (Fin l) (nth (i - 1) close NaN))))).
  { unfold true_range_nb. rewrite nth_error_map_seq by auto. change (@nan XQ _) with NaN.
    rewrite (nth_error_nth high i NaN Hh), (nth_error_nth low i NaN Hl). reflexivity. }
  assert (H1 : is_number (sub (Fin h) (Fin l)) (h - l)) by (apply in_sub; apply in_fin).
  destruct i as [|j].
  - exists (sub (Fin h) (Fin l)). split; [exact E|exact H1].
  - cbn [Nat.eqb] in E. rewrite Nat.sub_succ, Nat.sub_0_r in E. cbn zeta in E.
    destruct (nth_known close j HC) as [En|[c En]]; rewrite En in *.
    + eexists. split; [exact E|]. destruct H1 as (p & Ep & Hp). rewrite Ep. exists p. split; auto.
    + eexists. split; [exact E|]. eapply in_eq; [|apply (range_max h l c Hle)].
      apply in_max2; [apply in_max2; auto|]; apply in_abs; apply in_sub; apply in_fin.
Qed.

(** Unknown high or low: unknown range. *)
Lemma true_range_unknown : forall high low close i, (i < length high)%nat ->
  nth i high NaN = NaN \/ nth i low NaN = NaN -> nth_error (true_range_nb high low close) i = Some NaN.
Proof.
  intros high low close i Hi H. unfold true_range_nb. rewrite nth_error_map_seq by auto. f_equal. change (@nan XQ _) with NaN.
  assert (E : sub (nth i high NaN) (nth i low NaN) = NaN).
  { destruct H as [->| ->]; [reflexivity|]. destruct (nth i high NaN); reflexivity. }
  cbn zeta. rewrite E. destruct (Nat.eqb i 0); auto.
Qed.

Lemma true_range_values : forall high low close, no_infinity high -> no_infinity low -> no_infinity close ->
  length low = length high -> series_le low high ->
  forall i, (i < length high)%nat -> nth_error (true_range_nb high low close) i = Some NaN \/
    exists h l t, nth_error high i = Some (Fin h) /\ nth_error low i = Some (Fin l) /\
      nth_error (true_range_nb high low close) i = Some (Fin t) /\ h - l <= t /\ 0 <= t.
Proof.
  intros high low close Hh Hl Hc E O i Hi.
  destruct (nth_error high i) as [xh|] eqn:Eh; [|apply nth_error_None in Eh; lia].
  destruct (nth_error low i) as [xl|] eqn:El; [|apply nth_error_None in El; lia].
  destruct (tame_at _ _ _ Hh Eh) as [->|[h ->]].
  { left. apply true_range_unknown; auto. left. apply (nth_error_nth high i NaN Eh). }
  destruct (tame_at _ _ _ Hl El) as [->|[l ->]].
  { left. apply true_range_unknown; auto. right. apply (nth_error_nth low i NaN El). }
  pose proof (O i l h El Eh) as Hle. right. exists h, l.
  pose proof (true_range_run high low close i h l Eh El Hc Hle) as G.
  assert (K : forall v, bar_is (true_range_nb high low close) i v -> h - l <= v ->
     exists t, Some (Fin h) = Some (Fin h) /\ Some (Fin l) = Some (Fin l) /\
      nth_error (true_range_nb high low close) i = Some (Fin t) /\ h - l <= t /\ 0 <= t).
  { intros v (y & Ey & p & -> & Hp) Hv. exists p. split; auto. split; auto. split; auto. lra. }
  destruct i as [|j]; [apply (K _ G); lra|]. destruct (nth j close NaN) as [| | |c]; try (apply (K _ G); lra).
  apply (K _ G). pose proof (Q.le_max_l h c). pose proof (Q.le_min_l l c). lra.
Qed.

(** ** On-balance volume *)
Lemma obv_run : forall close volume i, no_infinity close -> no_infinity volume -> length close = length volume -> (i < length volume)%nat ->
  bar_is (obv_custom_nb close volume) i (sum (map (signed_volume close volume) (seq 0 (S i)))).
Proof.
  intros close volume i Hc Hv HL Hi. unfold obv_custom_nb, nancumsum.
  match goal with |- bar_is (scan ?f _ _ (map ?g _)) _ _ => set (F := f); set (G := g) end.
  assert (HG : forall k, (k < length volume)%nat ->
    is_number (if isnan (G k) then zero else G k) (signed_volume close volume k)).
  { intros k Hk. unfold G, signed_volume. change (@nan XQ _) with NaN.
    assert (Ef : nth k (fshift_1d_nb close 1 NaN) NaN = match k with O => NaN | S j => nth j close NaN end).
    { unfold fshift_1d_nb. change (@nan XQ _) with NaN.
      rewrite nth_indep with (d' := (fun i => if Nat.leb 1 i then nth (i - 1) close NaN else NaN) 0%nat)
        by (rewrite map_length, seq_length; lia).
      rewrite (map_nth (fun i => if Nat.leb 1 i then nth (i - 1) close NaN else NaN)), seq_nth by lia.
      destruct k as [|j]; auto. cbn [plus Nat.leb]. rewrite Nat.sub_succ, Nat.sub_0_r. auto. }
    rewrite Ef.
    assert (Hs : forall x y : XQ, (x = NaN \/ exists q, x = Fin q) -> (y = NaN \/ exists q, y = Fin q) ->
      is_number (if isnan (if ltb x y then neg (nth k volume NaN) else nth k volume NaN) then zero
                 else if ltb x y then neg (nth k volume NaN) else nth k volume NaN)
        match x, y with
        | Fin c, Fin p => if qlt_bool c p then - number_or 0 (nth k volume NaN) else number_or 0 (nth k volume NaN)
        | _, _ => number_or 0 (nth k volume NaN)
        end).
    { assert (P0 : is_number (if isnan (nth k volume NaN) then zero else nth k volume NaN) (number_or 0 (nth k volume NaN))).
      { destruct (nth_known volume k Hv) as [->|[q ->]]; [exists 0; split; reflexivity|exists q; split; reflexivity]. }
      assert (P1 : is_number (if isnan (neg (nth k volume NaN)) then zero else neg (nth k volume NaN)) (- number_or 0 (nth k volume NaN))).
      { destruct (nth_known volume k Hv) as [->|[q ->]]; [exists 0; split; reflexivity|].
        exists (Qred (- q)). split; [reflexivity|]. rewrite Qred_correct. reflexivity. }
      intros x y [->|[c ->]] [->|[p ->]]; cbn [ltb XQnum xq_ltb]; try exact P0.
      destruct (qlt_bool c p); auto. }
    apply Hs; [apply nth_known; auto|]. destruct k; [left; auto|apply nth_known; auto]. }
  assert (Hn : nth_error (map G (seq 0 (length volume))) i = Some (G i)) by (apply nth_error_map_seq; auto).
  destruct (scan_spec F (fun k s => is_number s (sum (map (signed_volume close volume) (seq 0 k))))
    (map G (seq 0 (length volume))) zero) with (k := i) (x := G i) as (s & HI & E); auto.
  - exact in_zero.
  - intros k s x Hx HI. assert (Hk : (k < length volume)%nat).
    { rewrite <- (seq_length (length volume) 0), <- (map_length G). apply nth_error_Some. congruence. }
    rewrite nth_error_map_seq in Hx by auto. injection Hx as <-. cbn [F fst].
    rewrite seq_S, map_app, plus_O_n. eapply in_eq; [apply in_add; [exact HI|apply HG; auto]|].
    rewrite sum_app. cbn. ring.
  - exists (snd (F i s (G i))). split; auto. cbn [F snd]. rewrite seq_S, map_app, plus_O_n.
    eapply in_eq; [apply in_add; [exact HI|apply HG; auto]|]. rewrite sum_app. cbn. ring.
Qed.

(** ** Bands *)
Lemma bands_run : forall al ma sd i y s, 0 <= al -> nth_error ma i = Some (Fin y) -> nth_error sd i = Some (Fin s) ->
  let '(middle, upper, lower) := bands (Fin al) ma sd in
  nth_error middle i = Some (Fin y) /\ bar_is upper i (y + al * s) /\ bar_is lower i (y - al * s).
Proof.
  intros al ma sd i y s Ha Hy Hs. unfold bands. split; auto.
  assert (E : nth_error (map (mul (Fin al)) sd) i = Some (mul (Fin al) (Fin s))) by (apply map_nth_error; auto).
  split.
  - eexists. split; [apply zip_with_nth; eauto|]. apply in_add; [apply in_fin|apply in_mul; apply in_fin].
  - eexists. split; [apply zip_with_nth; eauto|]. apply in_sub; [apply in_fin|apply in_mul; apply in_fin].
Qed.

(** ** Exponentially weighted deviation *)
Lemma weighted_sq_shift : forall m m' r h, m * weighted present r h == weighted (number_or 0) r h -> no_infinity h ->
  weighted (squared_deviation m') r h ==
  weighted (squared_deviation m) r h + weighted present r h * ((m - m') * (m - m')).
Proof.
  intros m m' r h.
  assert (G : forall h, no_infinity h -> weighted (squared_deviation m') r h ==
    weighted (squared_deviation m) r h + 2 * (m - m') * weighted (number_or 0) r h
      + (m' * m' - m * m) * weighted present r h).
  { clear h. intros h. induction h as [|x h IH]; intros HT.
    - unfold weighted. cbn. ring.
    - assert (HT' : no_infinity h) by (intros z Hz; apply HT; right; auto). specialize (IH HT').
      rewrite !weighted_cons, IH. destruct (HT x (or_introl eq_refl)). destruct x as [| | |q]; try congruence; cbn; ring. }
  intros Hm HT. rewrite (G h HT), <- Hm. ring.
Qed.

Definition std_weights (a : list XQ) (span k : nat) (s : Ewm) : Prop :=
  let hist := rev (firstn k a) in
  let r := 1 - share span in
  e_nobs s = length (vals hist) /\
  exists c w w2 o, is_number (e_cov s) c /\ is_number (e_sum_wt s) w /\ is_number (e_sum_wt2 s) w2 /\ is_number (e_old_wt s) o /\
  ((vals hist = [] /\ e_mean s = NaN /\ c == 0 /\ w == 1 /\ w2 == 1 /\ o == 1) \/
   (vals hist <> [] /\ exists m, is_number (e_mean s) m /\
      w == weighted present r hist /\ w2 == weighted present (r * r) hist /\ o == w /\
      m * w == weighted (number_or 0) r hist /\ c * w == weighted (squared_deviation m) r hist /\ 0 < w)).

(** The weights decide when the variance is defined. *)
Lemma weights_gap : forall r h, 0 < r -> no_infinity h ->
  0 <= weighted present r h * weighted present r h - weighted present (r * r) h /\
  (0 < weighted present r h * weighted present r h - weighted present (r * r) h <-> (2 <= length (vals h))%nat).
Proof.
  intros r h Hr. induction h as [|x h IH]; intros HT.
  - unfold weighted. cbn. split; [lra|]. split; [intros; lra|lia].
  - assert (HT' : no_infinity h) by (intros z Hz; apply HT; right; auto). destruct (IH HT') as [I1 I2].
    rewrite !weighted_cons. pose proof (weighted_present_nonneg r h ltac:(lra)) as HW.
    remember (weighted present r h) as W. remember (weighted present (r * r) h) as W2.
    assert (Hr2 : 0 < r * r) by (apply Qmult_lt_0_compat; auto).
    destruct (HT x (or_introl eq_refl)). destruct x as [| | |q]; try congruence; cbn [present vals].
    + assert (E : (0 + r * W) * (0 + r * W) - (0 + r * r * W2) == (r * r) * (W * W - W2)) by ring. rewrite E. split.
      * apply Qmult_le_0_compat; lra.
      * rewrite <- I2. split; intros Hx.
        -- destruct (Qlt_le_dec 0 (W * W - W2)); auto. assert (W * W - W2 == 0) by lra. rewrite H1 in Hx. lra.
        -- apply Qmult_lt_0_compat; auto.
    + assert (E : (1 + r * W) * (1 + r * W) - (1 + r * r * W2) == (r * r) * (W * W - W2) + 2 * (r * W)) by ring. rewrite E.
      assert (0 <= (r * r) * (W * W - W2)) by (apply Qmult_le_0_compat; lra).
      assert (0 <= r * W) by (apply Qmult_le_0_compat; lra). split; [lra|]. cbn [length].
      destruct (vals h) as [|v vs] eqn:Ev.
      * assert (EW : W == 0) by (subst W; apply weighted_none; auto; reflexivity).
        assert (EW2 : W2 == 0) by (subst W2; apply weighted_none; auto; reflexivity).
        rewrite EW, EW2. split; [intros; lra|cbn; lia].
      * assert (0 < W) by (subst W; apply weighted_present_pos; auto; congruence).
        assert (0 < r * W) by (apply Qmult_lt_0_compat; auto). split; [intros; cbn [length]; lia|intros; lra].
Qed.

Lemma eqb_refl_fin : forall x q, is_number x q -> eqb x x = true.
Proof. intros x q H. rewrite (in_eqb _ _ _ _ H H). apply qeq_t. reflexivity. Qed.

Lemma ew_weighted_nonneg : forall f r h, 0 <= r -> (forall x, 0 <= f x) -> 0 <= weighted f r h.
Proof.
  intros f r h Hr Hf. induction h as [|x h IH]; [unfold weighted; cbn; lra|].
  rewrite weighted_cons. pose proof (Hf x). assert (0 <= r * weighted f r h) by (apply Qmult_le_0_compat; auto). lra.
Qed.
Lemma sq_dev_nonneg : forall m x, 0 <= squared_deviation m x.
Proof. intros m [| | |q]; cbn; try lra. destruct (Qlt_le_dec (q - m) 0); [assert (0 <= (m - q) * (m - q)) by (apply Qmult_le_0_compat; lra); lra|apply Qmult_le_0_compat; lra]. Qed.

Lemma std_weights_out : forall a span k s m, (2 <= span)%nat -> no_infinity a -> std_weights a span k s ->
  let hist := rev (firstn k a) in
  exists y,
    (if Nat.leb m (e_nobs s) then
       if gtb (sub (mul (e_sum_wt s) (e_sum_wt s)) (e_sum_wt2 s)) zero then
         bind (sdiv (mul (e_sum_wt s) (e_sum_wt s)) (sub (mul (e_sum_wt s) (e_sum_wt s)) (e_sum_wt2 s))) (fun r => Ok (mul r (e_cov s)))
       else Ok nan
     else Ok nan) = Ok y /\
    ((length (vals hist) < Nat.max m 2)%nat -> y = NaN) /\
    ((Nat.max m 2 <= length (vals hist))%nat -> is_number y (ew_variance (1 - share span) hist)).
Proof.
  intros a span k s m Hsp HT (Hn & c & w & w2 & o & Hc & Hw & Hw2 & Ho & HS). cbn zeta in *.
  set (h := rev (firstn k a)) in *. set (r := 1 - share span) in *.
  assert (HTh : no_infinity h) by (apply no_inf_hist; auto).
  assert (Hr : 0 < r) by (unfold r; pose proof (share_lt1 span Hsp); lra).
  rewrite Hn. destruct (Nat.leb_spec m (length (vals h))) as [Hle|Hgt].
  2:{ eexists. split; [reflexivity|]. split; [reflexivity|intros; lia]. }
  assert (Hden : is_number (sub (mul (e_sum_wt s) (e_sum_wt s)) (e_sum_wt2 s)) (w * w - w2)).
  { apply in_sub; auto. apply in_mul; auto. }
  unfold gtb. rewrite (in_ltb _ _ _ _ in_zero Hden).
  destruct (weights_gap r h Hr HTh) as [_ Hgap].
  destruct HS as [(Hv & Em & Ec & Ew & Ew2 & Eo)|(Hv & mm & Hm & Ew & Ew2 & Eo & Hmw & Hcw & Hwp)].
  - replace (qlt_bool 0 (w * w - w2)) with false by (symmetry; qbg; rewrite Ew, Ew2; lra).
    eexists. split; [reflexivity|]. rewrite Hv. split; [auto|cbn [length]; intros; lia].
  - assert (E : w * w - w2 == weighted present r h * weighted present r h - weighted present (r * r) h) by (rewrite Ew, Ew2; reflexivity).
    destruct (qlt_bool 0 (w * w - w2)) eqn:El; qb.
    + destruct (in_sdiv _ _ _ _ (in_mul _ _ _ _ Hw Hw) Hden ltac:(lra)) as (z & -> & Hz). cbn [bind].
      assert (2 <= length (vals h))%nat by (apply Hgap; rewrite <- E; auto).
      eexists. split; [reflexivity|]. split; [intros; lia|]. intros _.
      eapply in_eq; [apply in_mul; [exact Hz|exact Hc]|]. unfold ew_variance. cbn zeta.
      assert (Emm : weighted_mean r h == mm). { unfold weighted_mean. rewrite <- Hmw, <- Ew. field. lra. }
      assert (Esq : weighted (squared_deviation (weighted_mean r h)) r h == c * w).
      { rewrite Hcw. rewrite (weighted_sq_shift mm (weighted_mean r h) r h); auto; [|rewrite <- Ew; auto]. rewrite Emm. ring. }
      rewrite Esq, <- Ew, <- Ew2. field. split; lra.
    + assert (~ (2 <= length (vals h))%nat) by (intros C; apply Hgap in C; rewrite <- E in C; lra).
      eexists. split; [reflexivity|]. split; [auto|intros; lia].
Qed.
