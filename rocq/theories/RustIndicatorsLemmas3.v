(** * The Rust indicators do what the compiled Python indicators do: exact arithmetic, on-balance volume (C104) *)
From Coq Require Import String ZArith QArith Qreduction Bool List Lia.
From Verif Require Import Base Num OrdLaws XQFacts GenericNb GenericSpec GenericLemmas GenericLemmas2 ReduceLemmas IndicatorLemmas IndicatorsNb IndicatorsSpec IndicatorsLemmas IndicatorsLemmas2 IndicatorsLemmas5
  RustGeneric RustGenericSpec RustGenericLemmas RustGenericLemmas2 RustGenericLemmas3 RustGenericLemmas4 RustGenericLemmas6 RustIndicators RustIndicatorsSpec RustIndicatorsLemmas RustIndicatorsLemmas2.
Import ListNotations.
Open Scope nat_scope.

(** ** On-balance volume *)
Section Obv.
  Context {T : Type} {N : Num T}.
  Lemma scan_two : forall S B A1 A2 (f : nat -> S -> A1 -> S * B) (g : nat -> S -> A2 -> S * B) (h1 : nat -> A1) (h2 : nat -> A2) n i s,
    (forall k s, i <= k < i + n -> f k s (h1 k) = g k s (h2 k)) -> scan f i s (map h1 (seq i n)) = scan g i s (map h2 (seq i n)).
  Proof.
    intros S B A1 A2 f g h1 h2 n. induction n as [|n IH]; intros i s H; cbn [seq map scan]; auto.
    rewrite (H i s) by lia. destruct (g i s (h2 i)) as [s' b]. f_equal. apply IH. intros k s0 Hk. apply H. lia.
  Qed.
  Lemma obv_2d_ok : forall (close volume : list T) nrows ncols, c_order close nrows ncols -> c_order volume nrows ncols ->
    c_order (rs_obv_2d_c close volume nrows ncols) nrows ncols /\
    forall c, c < ncols -> column (rs_obv_2d_c close volume nrows ncols) nrows ncols c = rs_obv_1d (column close nrows ncols c) (column volume nrows ncols c).
  Proof.
    intros close volume nrows ncols Hc Hv. unfold rs_obv_2d_c. split.
    - rewrite <- (seq_length nrows 0) at 2. apply row_loop_shape. apply repeat_length.
    - intros c Hcc. rewrite (row_loop_column _ _ _ _ _ _ _ zero); [|apply repeat_length|apply nth_error_repeat'; auto].
      unfold rs_obv_1d. rewrite column_length. unfold column at 1. apply scan_two. intros k s Hk.
      rewrite !column_nth_nan by auto. reflexivity.
  Qed.
End Obv.

Lemma add_zero_reduced : forall s, reduced s -> xq_add s (Fin 0) = s.
Proof. intros [| | |q] H; cbn in *; auto. unfold fin. f_equal. rewrite <- H at 2. apply Qred_complete. ring. Qed.
Lemma add_reduced : forall s x, reduced (xq_add s x).
Proof. intros [| | |q] [| | |p]; try exact Logic.I. apply fin_reduced. Qed.
Lemma nancumsum_eq : forall (l : list XQ) i s, reduced s ->
  scan rs_nancumsum_step i s l = scan (fun _ s x => let s' := add s (if isnan x then zero else x) in (s', s')) i s l.
Proof.
  induction l as [|x l IH]; intros i s Hs; cbn [scan]; auto. unfold rs_nancumsum_step at 1. cbv zeta.
  destruct (isnan x); cbn [negb].
  - change (add s zero) with (xq_add s (Fin 0)). rewrite (add_zero_reduced s Hs). f_equal. apply IH. auto.
  - f_equal. apply IH. apply add_reduced.
Qed.
Lemma obv_eq : forall close volume : list XQ, length close = length volume -> rs_obv_custom close volume = Ok (obv_custom_nb close volume).
Proof.
  intros close volume HL. unfold rs_obv_custom. rewrite HL, Nat.eqb_refl. cbn [negb raise_if]. f_equal. unfold rs_obv_1d, obv_custom_nb, nancumsum.
  rewrite nancumsum_eq by reflexivity. f_equal. rewrite HL. apply map_ext_in. intros i Hi. apply in_seq in Hi. cbv zeta.
  unfold fshift_1d_nb. rewrite (nth_map_seq _ (fun i => if Nat.leb 1 i then nth (i - 1) close nan else nan)) by lia.
  destruct i as [|j]; cbn [Nat.ltb Nat.leb andb]; auto. destruct (nth 0 close nan); reflexivity.
Qed.

(** ** Exact arithmetic *)
Definition known (x : XQ) : Prop := x = NaN \/ exists q, x = Fin q.
Lemma known_no_inf : forall l, (forall x, In x l -> known x) -> no_infinity l.
Proof. intros l H x Hx. destruct (H x Hx) as [->|(q & ->)]; split; discriminate. Qed.
Lemma no_inf_known : forall l x, no_infinity l -> In x l -> known x.
Proof. intros l x H Hx. destruct (H x Hx) as [H1 H2]. destruct x; [left; auto|tauto|tauto|right; eauto]. Qed.
Lemma known_sub : forall a b, known a -> known b -> known (xq_sub a b).
Proof. intros a b [->|(p & ->)] [->|(q & ->)]; (left; reflexivity) || (right; eexists; reflexivity). Qed.
Lemma known_abs : forall a, known a -> known (xq_abs a).
Proof. intros a [->|(p & ->)]; [left; reflexivity|]. right. cbn. destruct (Qle_bool 0 p); eexists; reflexivity. Qed.
Lemma known_max : forall a b : XQ, known a -> known b -> known (max2 a b).
Proof. intros a b Ha Hb. unfold max2. destruct (ltb a b); auto. Qed.
Lemma true_range_finite : forall high low close, no_infinity high -> no_infinity low -> no_infinity close -> no_infinity (true_range_nb high low close).
Proof.
  intros high low close Hh Hl Hc. apply known_no_inf. intros x Hx. unfold true_range_nb in Hx. apply in_map_iff in Hx as (i & <- & _). cbv zeta.
  pose proof (nth_known high i Hh) as K1. pose proof (nth_known low i Hl) as K2. pose proof (nth_known close (i - 1) Hc) as K3.
  destruct (i =? 0); [apply known_sub; auto|]. repeat apply known_max; repeat apply known_abs; apply known_sub; auto.
Qed.
Lemma zip_sub_finite : forall a b : list XQ, no_infinity a -> no_infinity b -> no_infinity (zip_with sub a b).
Proof.
  intros a b Ha Hb. apply known_no_inf. intros x Hx. unfold zip_with in Hx. apply in_map_iff in Hx as ([u v] & <- & Hx).
  apply known_sub; [apply (no_inf_known a)|apply (no_inf_known b)]; auto; [apply in_combine_l in Hx|apply in_combine_r in Hx]; auto.
Qed.

Section Exact.
  Variables hn hr : nat * bool -> Z.
  Lemma same_of : forall (a : list XQ) w e adjust, no_infinity a -> 1 <= w -> same_average a w e adjust.
  Proof. intros a w e adjust HT Hw out H. rewrite average_same in H by auto. congruence. Qed.
  Lemma in_windows : forall (windows : list nat) (ewms : list bool) k, Forall (fun w => 1 <= w) windows -> In k (combine windows ewms) -> 1 <= fst k.
  Proof. intros windows ewms [w e] HF H. apply in_combine_l in H. rewrite Forall_forall in HF. auto. Qed.

  Lemma ma_exact : forall close windows ewms adjust w e, no_infinity close -> Forall (fun w => 1 <= w) windows -> length windows = length ewms ->
    In (w, e) (combine windows ewms) -> no_collision hn (combine windows ewms) -> no_collision hr (combine windows ewms) ->
    exists out, (let! d := ma_cache_nb hn close windows ewms adjust in ma_apply_nb hn w e d) = Ok out /\
      (let! d := rs_build_ma_cache hr close windows ewms adjust in rs_ma_apply hr w e d) = Ok out.
  Proof.
    intros close windows ewms adjust w e HT HF Hl Hk Hn Hr. pose proof (in_windows _ _ _ HF Hk) as Hw. cbn [fst] in Hw.
    assert (A : exists out, (let! d := ma_cache_nb hn close windows ewms adjust in ma_apply_nb hn w e d) = Ok out).
    { destruct (fill_accepts hn (fun k => ma_nb close (fst k) (snd k) adjust) (combine windows ewms)) as (d & Hd).
      { intros k Hk'. apply ma_accepts; auto. eapply in_windows; eauto. }
      unfold ma_cache_nb. rewrite Hd. cbn [bind]. destruct (cached hn _ _ d (w, e) Hn Hd Hk) as (v & _ & G). unfold ma_apply_nb. eauto. }
    destruct A as (out & E). exists out. split; auto. apply (ma_run hn hr close windows ewms adjust w e out); auto. apply same_of; auto.
  Qed.
  Lemma rsi_exact : forall close windows ewms adjust w e, no_infinity close -> Forall (fun w => 1 <= w) windows -> length windows = length ewms ->
    In (w, e) (combine windows ewms) -> no_collision hn (combine windows ewms) -> no_collision hr (combine windows ewms) ->
    exists out, (let! d := rsi_cache_nb hn close windows ewms adjust in rsi_apply_nb hn w e d) = Ok out /\
      (let! d := rs_rsi_cache hr close windows ewms adjust in rs_rsi_apply hr w e d) = Ok out.
  Proof.
    intros close windows ewms adjust w e HT HF Hl Hk Hn Hr. pose proof (in_windows _ _ _ HF Hk) as Hw. cbn [fst] in Hw.
    destruct (rises_ok close HT) as [R1 _]. destruct (drops_ok close HT) as [R2 _].
    assert (A : exists out, (let! d := rsi_cache_nb hn close windows ewms adjust in rsi_apply_nb hn w e d) = Ok out).
    { unfold rsi_cache_nb. match goal with |- context [fill_cache hn ?f ?ks] => destruct (fill_accepts hn f ks) as (d & Hd) end.
      { intros k Hk'. rewrite gains_rises, losses_drops. pose proof (in_windows _ _ _ HF Hk') as Hw'.
        rewrite !average_same by auto. cbn [bind]. eauto. }
      rewrite Hd. cbn [bind]. destruct (cached hn _ _ d (w, e) Hn Hd Hk) as ([u v] & _ & G). unfold rsi_apply_nb. rewrite G. cbn [bind]. eauto. }
    destruct A as (out & E). exists out. split; auto. apply (rsi_run hn hr close windows ewms adjust w e out); auto; apply same_of; auto.
  Qed.
  Lemma atr_exact : forall high low close windows ewms adjust w e, no_infinity high -> no_infinity low -> no_infinity close ->
    length high = length low -> length high = length close -> Forall (fun w => 1 <= w) windows -> length windows = length ewms ->
    In (w, e) (combine windows ewms) -> no_collision hn (combine windows ewms) -> no_collision hr (combine windows ewms) ->
    exists out, (let! d := atr_cache_nb hn high low close windows ewms adjust in atr_apply_nb hn w e d) = Ok out /\
      (let! d := rs_atr_cache hr high low close windows ewms adjust in rs_atr_apply hr w e d) = Ok out.
  Proof.
    intros high low close windows ewms adjust w e H1 H2 H3 L1 L2 HF Hl Hk Hn Hr. pose proof (in_windows _ _ _ HF Hk) as Hw. cbn [fst] in Hw.
    pose proof (true_range_finite high low close H1 H2 H3) as HT.
    assert (A : exists out, (let! d := atr_cache_nb hn high low close windows ewms adjust in atr_apply_nb hn w e d) = Ok out).
    { unfold atr_cache_nb. cbv zeta. match goal with |- context [fill_cache hn ?f ?ks] => destruct (fill_accepts hn f ks) as (d & Hd) end.
      { intros k Hk'. apply ma_accepts; auto. eapply in_windows; eauto. }
      rewrite Hd. cbn [bind]. destruct (cached hn _ _ d (w, e) Hn Hd Hk) as (v & _ & G). unfold atr_apply_nb. cbn [fst snd]. rewrite G. cbn [bind]. eauto. }
    destruct A as (out & E). exists out. split; auto. apply (atr_run hn hr high low close windows ewms adjust w e out); auto. apply same_of; auto.
  Qed.
  Lemma macd_exact : forall close fasts slows ewms adjust fw sw gw e ge, no_infinity close -> Forall (fun w => 1 <= w) (fasts ++ slows) -> 1 <= gw ->
    length fasts = length ewms -> length slows = length ewms -> In (fw, e) (combine fasts ewms) -> In (sw, e) (combine slows ewms) ->
    no_collision hn (combine fasts ewms ++ combine slows ewms) -> no_collision hr (combine fasts ewms ++ combine slows ewms) ->
    exists out, (let! d := macd_cache_nb hn close fasts slows ewms adjust in macd_apply_nb hn fw sw gw e ge adjust d) = Ok out /\
      (let! d := rs_macd_cache hr close fasts slows ewms adjust in rs_macd_apply hr fw sw gw e ge adjust d) = Ok out.
  Proof.
    intros close fasts slows ewms adjust fw sw gw e ge HT HF Hg L1 L2 K1 K2 Hn Hr. apply Forall_app in HF as [F1 F2].
    pose proof (in_windows _ _ _ F1 K1) as W1. pose proof (in_windows _ _ _ F2 K2) as W2. cbn [fst] in W1, W2.
    assert (HZ : no_infinity (zip_with sub (rs_ma close fw e adjust) (rs_ma close sw e adjust))) by (apply zip_sub_finite; apply average_finite; auto).
    assert (A : exists out, (let! d := macd_cache_nb hn close fasts slows ewms adjust in macd_apply_nb hn fw sw gw e ge adjust d) = Ok out).
    { unfold macd_cache_nb, ma_cache_nb. rewrite combine_app by auto. match goal with |- context [fill_cache hn ?f ?ks] => destruct (fill_accepts hn f ks) as (d & Hd) end.
      { intros k Hk'. apply ma_accepts; [auto|]. apply in_app_or in Hk' as [Hk'|Hk']; [exact (in_windows _ _ _ F1 Hk')|exact (in_windows _ _ _ F2 Hk')]. }
      rewrite Hd. cbn [bind]. destruct (cached hn _ _ d (fw, e) Hn Hd ltac:(apply in_or_app; auto)) as (v1 & E1 & G1). destruct (cached hn _ _ d (sw, e) Hn Hd ltac:(apply in_or_app; auto)) as (v2 & E2 & G2).
      unfold macd_apply_nb. rewrite G1, G2. cbn [bind fst snd] in *. rewrite average_same in E1, E2 by auto. injection E1 as <-. injection E2 as <-.
      rewrite average_same by auto. cbn [bind]. eauto. }
    destruct A as (out & E). exists out. split; auto. apply (macd_run hn hr close fasts slows ewms adjust fw sw gw e ge out); auto; apply same_of; auto.
  Qed.
  Lemma stoch_exact : forall hash1 high low close k_windows k dw de adjust, no_infinity high -> no_infinity low -> no_infinity close ->
    length high = length close -> length low = length close -> series_le low close -> series_le close high -> 1 <= k -> 1 <= dw ->
    In k k_windows -> no_collision hash1 k_windows ->
    exists out, (let! d := stoch_cache_nb hash1 high low k_windows in stoch_apply_nb hash1 close k dw de adjust d) = Ok out /\
      (let! d := rs_stoch_cache high low k_windows in rs_stoch_apply close k dw de adjust d) = Ok out.
  Proof.
    intros hash1 high low close k_windows k dw de adjust H1 H2 H3 L1 L2 O1 O2 Hk Hd Hin Hn.
    assert (P : forall mn mx, rolling_min_1d_nb low k None = Ok mn -> rolling_max_1d_nb high k None = Ok mx -> no_infinity (percent_k close mn mx)).
    { intros mn mx Em Ex. apply known_no_inf. intros y Hy. apply In_nth_error in Hy as (i & Hi).
      destruct (stoch_value high low close k mn mx i y H1 H2 H3 L1 L2 O1 O2 Hk Em Ex Hi) as [->|(lo & hi & c & _ & _ & _ & _ & _ & _ & _ & _ & V)]; [left; auto|].
      destruct y; cbn in V; try tauto; try (destruct V as (? & ? & ?); discriminate). right; eauto. }
    assert (A : exists out, (let! d := stoch_cache_nb hash1 high low k_windows in stoch_apply_nb hash1 close k dw de adjust d) = Ok out).
    { unfold stoch_cache_nb. match goal with |- context [fill_cache hash1 ?f ?ks] => destruct (fill_accepts hash1 f ks) as (d & Hd') end.
      { intros w Hw. unfold rolling_min_1d_nb, rolling_max_1d_nb, check_minp. rewrite Nat.ltb_irrefl. cbn [raise_if bind]. eauto. }
      rewrite Hd'. cbn [bind]. destruct (cached hash1 _ _ d k Hn Hd' Hin) as ([mn mx] & E & G). unfold stoch_apply_nb. rewrite G. cbn [bind].
      apply bind_ok in E as (mn' & Em & E). apply bind_ok in E as (mx' & Ex & E). injection E as <- <-.
      rewrite average_same by (auto; apply P; auto). cbn [bind]. eauto. }
    destruct A as (out & E). exists out. split; auto. refine (stoch_run hash1 high low close k_windows k dw de adjust out _ _ Hin Hn _ E); try lia.
    intros mn mx Em Ex. apply same_of; auto.
  Qed.
End Exact.
