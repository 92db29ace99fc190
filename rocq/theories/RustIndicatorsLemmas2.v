(** * The Rust indicators do what the compiled Python indicators do: the indicators (C104) *)
From Coq Require Import String ZArith QArith Qreduction Bool List Lia.
From Verif Require Import Base Num OrdLaws XQFacts GenericNb GenericSpec GenericLemmas GenericLemmas2 ReduceLemmas IndicatorLemmas IndicatorsNb IndicatorsSpec IndicatorsLemmas IndicatorsLemmas2
  RustGeneric RustGenericSpec RustGenericLemmas RustGenericLemmas2 RustGenericLemmas3 RustGenericLemmas4 RustGenericLemmas6 RustIndicators RustIndicatorsSpec RustIndicatorsLemmas.
Import ListNotations.
Open Scope nat_scope.

(** ** Simple averages in exact arithmetic *)
Definition reduced (x : XQ) : Prop := match x with Fin q => Qred q = q | _ => True end.
Lemma fin_reduced : forall q, reduced (fin q).
Proof. intros q. cbn. apply Qred_complete, Qred_correct. Qed.
Lemma div_reduced : forall a b, reduced (xq_div a b).
Proof.
  intros a b. unfold xq_div, xq_sgn_inf. destruct a, b; repeat match goal with |- context [if ?b then _ else _] => destruct b end; try exact Logic.I; try reflexivity; apply fin_reduced.
Qed.
Lemma reduced_agree : forall x y, reduced x -> reduced y -> agrees x y -> x = y.
Proof. intros [| | |p] [| | |q]; cbn; intros Hx Hy H; try tauto. f_equal. rewrite <- Hx, <- Hy. apply Qred_complete. auto. Qed.
Lemma scan_out : forall S A B (P : B -> Prop) (f : nat -> S -> A -> S * B) l i s, (forall i s x, P (snd (f i s x))) -> Forall P (scan f i s l).
Proof. intros S A B P f l. induction l as [|x l IH]; intros i s H; cbn; [constructor|]. specialize (H i s x) as H1. destruct (f i s x). constructor; auto. Qed.
Lemma scanM_out : forall S A B (P : B -> Prop) (f : nat -> S -> A -> res (S * B)) l i s out, (forall i s x s' b, f i s x = Ok (s', b) -> P b) ->
  scanM f i s l = Ok out -> Forall P out.
Proof.
  intros S A B P f l. induction l as [|x l IH]; intros i s out H E; cbn in E; [injection E as <-; constructor|].
  destruct (f i s x) as [[s' b]|] eqn:Ef; cbn in E; [|discriminate].
  destruct (scanM f (Datatypes.S i) s' l) as [r|] eqn:Er; cbn in E; [|discriminate]. injection E as <-. constructor; eauto.
Qed.
Lemma roll_mean_same : forall (a : list XQ) w adjust, no_infinity a -> 1 <= w -> same_average a w false adjust.
Proof.
  intros a w adjust HT Hw out H. unfold ma_nb in H. unfold rs_ma.
  destruct (rolling_mean_agrees a w (Some w) out HT Hw H) as (out' & E & HA).
  unfold rs_rolling_mean, rs_validate_window in E. rewrite Nat.ltb_irrefl in E. cbn [raise_if] in E. injection E as <-.
  assert (H1 : Forall reduced (rs_rolling_mean_1d a w w)).
  { apply scan_out. intros i [s n] x. unfold rs_mean_step. repeat match goal with |- context [if ?b then _ else _] => destruct b end; cbn [snd]; try exact Logic.I; apply div_reduced. }
  assert (H2 : Forall reduced out).
  { unfold rolling_mean_1d_nb, check_minp in H. apply raise_if_ok in H as [_ H]. refine (scanM_out _ _ _ _ _ _ _ _ _ _ H).
    intros i [[[s n] c1] c2] x s' b Hs. unfold rolling_mean_step in Hs.
    destruct (if i <? w then _ else _) as [wl wc]. destruct (Z.ltb _ _); [injection Hs as _ <-; exact Logic.I|].
    unfold sdiv in Hs. destruct (eqb _ zero); cbn [bind] in Hs; [discriminate|]. injection Hs as _ <-. apply div_reduced. }
  clear H. revert H1 H2. induction HA as [|x y l l' Hxy HA IH]; intros H1 H2; [auto|]. inversion H1; inversion H2; subst. f_equal; [apply reduced_agree; auto|apply IH; auto].
Qed.
Lemma average_same : forall (a : list XQ) w e adjust, no_infinity a -> 1 <= w -> ma_nb a w e adjust = Ok (rs_ma a w e adjust).
Proof.
  intros a w e adjust HT Hw. destruct (ma_accepts a w e adjust HT Hw) as (out & E). rewrite E. f_equal. symmetry. destruct e.
  - apply (ewm_mean_same eqb_nan_refl _ _ _ (exact_span_xq w) out E).
  - apply (roll_mean_same _ _ _ HT Hw out E).
Qed.
Lemma average_finite : forall (a : list XQ) w e adjust, no_infinity a -> 1 <= w -> no_infinity (rs_ma a w e adjust).
Proof.
  intros a w e adjust HT Hw y Hy.
  destruct (ma_convex (fun _ => True) a w e adjust _ ltac:(unfold convex; auto) HT Hw ltac:(unfold all_known; auto) (average_same a w e adjust HT Hw)) as [_ H].
  destruct (H y Hy) as [->|(q & -> & _)]; split; discriminate.
Qed.

Section Any.
  Context {T : Type} {N : Num T}.
  Implicit Types close high low volume : list T.
  Variables hn hr : nat * bool -> Z.

  Lemma ma_length : forall (a : list T) w e adjust, length (rs_ma a w e adjust) = length a.
  Proof.
    intros a w e adjust. unfold rs_ma. destruct e; [|unfold rs_rolling_mean_1d; apply scan_length].
    unfold rs_ewm_mean_1d. destruct a; auto. destruct (rs_ewm_weights w adjust). cbn. rewrite scan_length. auto.
  Qed.
  Lemma mstd_length : forall sqrt tol (a : list T) w e adjust ddof, length (rs_mstd sqrt tol a w e adjust ddof) = length a.
  Proof.
    intros sqrt tol a w e adjust ddof. unfold rs_mstd. destruct e; [|unfold rs_rolling_std_1d; apply scan_length].
    unfold rs_ewm_std_1d. destruct a; auto. destruct (rs_ewm_weights w adjust). cbn. rewrite scan_length. auto.
  Qed.

  (** ** Caches *)
  Lemma nb_cached : forall K V (hash : K -> Z) (f : K -> res V) (g : V -> res (list T)) ks k out, no_collision hash ks -> In k ks ->
    (let! d := fill_cache hash f ks in let! v := getitem d (hash k) in g v) = Ok out -> exists v, f k = Ok v /\ g v = Ok out.
  Proof.
    intros K V hash f g ks k out HC Hk H. apply bind_ok in H as (d & Hd & H). destruct (cached hash f ks d k HC Hd Hk) as (v & E & G).
    rewrite G in H. eauto.
  Qed.

  Lemma ma_run : forall close windows ewms adjust w e out, length windows = length ewms -> In (w, e) (combine windows ewms) ->
    no_collision hn (combine windows ewms) -> no_collision hr (combine windows ewms) -> same_average close w e adjust ->
    (let! d := ma_cache_nb hn close windows ewms adjust in ma_apply_nb hn w e d) = Ok out ->
    (let! d := rs_build_ma_cache hr close windows ewms adjust in rs_ma_apply hr w e d) = Ok out.
  Proof.
    intros close windows ewms adjust w e out Hl Hk Hn Hr Hs H. apply bind_ok in H as (d & Hd & H). unfold ma_cache_nb in Hd. unfold ma_apply_nb in H.
    destruct (cached hn _ _ d (w, e) Hn Hd Hk) as (v & E & G). rewrite G in H. injection H as <-. cbn [fst snd] in E. apply Hs in E.
    unfold rs_build_ma_cache. rewrite lengths_ok by auto. cbn [bind]. unfold rs_ma_apply. rewrite rs_cached by auto. cbn [fst snd]. congruence.
  Qed.
  Lemma mstd_run : forall sqrt tol close windows ewms adjust ddof w e out, length windows = length ewms -> In (w, e) (combine windows ewms) ->
    no_collision hn (combine windows ewms) -> no_collision hr (combine windows ewms) -> same_deviation sqrt tol close w e adjust ddof ->
    (let! d := mstd_cache_nb sqrt tol hn close windows ewms adjust (Z.of_nat ddof) in mstd_apply_nb hn w e d) = Ok out ->
    (let! d := rs_build_mstd_cache sqrt tol hr close windows ewms adjust ddof in rs_mstd_apply hr w e d) = Ok out.
  Proof.
    intros sqrt tol close windows ewms adjust ddof w e out Hl Hk Hn Hr Hs H. apply bind_ok in H as (d & Hd & H). unfold mstd_cache_nb in Hd. unfold mstd_apply_nb in H.
    destruct (cached hn _ _ d (w, e) Hn Hd Hk) as (v & E & G). rewrite G in H. injection H as <-. cbn [fst snd] in E. apply Hs in E.
    unfold rs_build_mstd_cache. rewrite lengths_ok by auto. cbn [bind]. unfold rs_mstd_apply. rewrite rs_cached by auto. cbn [fst snd]. congruence.
  Qed.

  Lemma map_combine_fst : forall (a b : list T), length a = length b -> map fst (combine a b) = a.
  Proof. induction a as [|x a IH]; intros [|y b] H; cbn in *; try discriminate; auto. f_equal. apply IH. lia. Qed.
  Lemma zip_scaled : forall (f : T -> T -> T) alpha (a b : list T), map (fun x => f (fst x) (mul alpha (snd x))) (combine a b) = zip_with f a (map (mul alpha) b).
  Proof. intros f alpha. unfold zip_with. induction a as [|x a IH]; intros [|y b]; cbn; auto. f_equal. apply IH. Qed.
  Lemma bb_run : forall sqrt tol close windows ewms adjust ddof w e alpha out, length windows = length ewms -> In (w, e) (combine windows ewms) ->
    no_collision hn (combine windows ewms) -> no_collision hr (combine windows ewms) -> same_average close w e adjust -> same_deviation sqrt tol close w e adjust ddof ->
    (let! d := bb_cache_nb sqrt tol hn close windows ewms adjust (Z.of_nat ddof) in bb_apply_nb hn w e alpha d) = Ok out ->
    (let! d := rs_bb_cache sqrt tol hr close windows ewms adjust ddof in rs_bb_apply hr w e alpha d) = Ok out.
  Proof.
    intros sqrt tol close windows ewms adjust ddof w e alpha out Hl Hk Hn Hr Hs Hs2 H. apply bind_ok in H as (d & Hd & H).
    unfold bb_cache_nb in Hd. apply bind_ok in Hd as (d1 & H1 & Hd). apply bind_ok in Hd as (d2 & H2 & Hd). injection Hd as <-.
    unfold bb_apply_nb in H. cbn [fst snd] in H. unfold ma_cache_nb in H1. unfold mstd_cache_nb in H2.
    destruct (cached hn _ _ d1 (w, e) Hn H1 Hk) as (v1 & E1 & G1). destruct (cached hn _ _ d2 (w, e) Hn H2 Hk) as (v2 & E2 & G2).
    rewrite G1, G2 in H. cbn [bind] in H. injection H as <-. cbn [fst snd] in E1, E2. apply Hs in E1. apply Hs2 in E2.
    unfold rs_bb_cache, rs_build_ma_cache, rs_build_mstd_cache. rewrite !lengths_ok by auto. cbn [bind]. unfold rs_bb_apply. cbn [fst snd].
    rewrite !rs_cached by auto. cbn [bind fst snd]. rewrite E1, E2. unfold bands. rewrite !zip_scaled. rewrite map_combine_fst; auto.
    rewrite <- E1, <- E2, ma_length, mstd_length. auto.
  Qed.

  Lemma up_eq : forall close, rs_up close = rises close.
  Proof. intros close. rewrite <- gains_rises. unfold rs_up, gains, set_where. rewrite diff_1d_eq. auto. Qed.
  Lemma down_eq : forall close, abs (zero : T) = zero -> rs_down close = drops close.
  Proof.
    intros close Hz. rewrite <- losses_drops. unfold rs_down, losses, set_where. rewrite diff_1d_eq, map_map. apply map_ext. intros v. destruct (gtb v zero); auto.
  Qed.
  Lemma rsi_run : forall close windows ewms adjust w e out, abs (zero : T) = zero -> length windows = length ewms -> In (w, e) (combine windows ewms) ->
    no_collision hn (combine windows ewms) -> no_collision hr (combine windows ewms) -> same_average (rises close) w e adjust -> same_average (drops close) w e adjust ->
    (let! d := rsi_cache_nb hn close windows ewms adjust in rsi_apply_nb hn w e d) = Ok out ->
    (let! d := rs_rsi_cache hr close windows ewms adjust in rs_rsi_apply hr w e d) = Ok out.
  Proof.
    intros close windows ewms adjust w e out Hz Hl Hk Hn Hr Hs Hs2 H. apply bind_ok in H as (d & Hd & H). unfold rsi_cache_nb in Hd. unfold rsi_apply_nb in H.
    destruct (cached hn _ _ d (w, e) Hn Hd Hk) as ([u v] & E & G). rewrite G in H. cbn [bind fst snd] in *. injection H as <-.
    rewrite gains_rises, losses_drops in E. apply bind_ok in E as (u' & Eu & E). apply bind_ok in E as (v' & Ev & E). injection E as <- <-. apply Hs in Eu. apply Hs2 in Ev.
    unfold rs_rsi_cache. rewrite lengths_ok by auto. cbn [bind]. unfold rs_rsi_apply. rewrite rs_cached by auto. cbn [bind fst snd]. rewrite up_eq, (down_eq _ Hz), Eu, Ev.
    unfold rsi_of, zip_with. rewrite map_map. reflexivity.
  Qed.

  Lemma zip3_percent : forall (close mn mx : list T),
    zip3 (fun c mn mx => div (mul (ofZ 100) (sub c mn)) (sub mx mn)) close mn mx = percent_k close mn mx.
  Proof.
    unfold percent_k, zip_with, zip3. induction close as [|c close IH]; intros [|m mn] [|x mx]; cbn [combine map fst snd]; auto. f_equal. apply IH.
  Qed.
  Lemma stoch_run : forall hash1 high low close k_windows k dw de adjust out, length high = length low -> length close = length low -> In k k_windows ->
    no_collision hash1 k_windows -> (forall mn mx, rolling_min_1d_nb low k None = Ok mn -> rolling_max_1d_nb high k None = Ok mx -> same_average (percent_k close mn mx) dw de adjust) ->
    (let! d := stoch_cache_nb hash1 high low k_windows in stoch_apply_nb hash1 close k dw de adjust d) = Ok out ->
    (let! d := rs_stoch_cache high low k_windows in rs_stoch_apply close k dw de adjust d) = Ok out.
  Proof.
    intros hash1 high low close k_windows k dw de adjust out H1 H2 Hk Hn Hs H. apply bind_ok in H as (d & Hd & H). unfold stoch_cache_nb in Hd. unfold stoch_apply_nb in H.
    destruct (cached hash1 _ _ d k Hn Hd Hk) as ([mn mx] & E & G). rewrite G in H. cbn [bind] in *.
    apply bind_ok in E as (mn' & Em & E). apply bind_ok in E as (mx' & Ex & E). injection E as <- <-.
    apply bind_ok in H as (pd & Ed & H). injection H as <-. apply (Hs _ _ Em Ex) in Ed.
    unfold rolling_min_1d_nb in Em. unfold rolling_max_1d_nb in Ex. rewrite <- rolling_extreme_eq in Em, Ex. unfold rs_rolling_extreme, rs_validate_window in Em, Ex.
    rewrite Nat.ltb_irrefl in Em, Ex. cbn [raise_if] in Em, Ex. injection Em as <-. injection Ex as <-.
    unfold rs_stoch_cache. rewrite H1, Nat.eqb_refl. cbn [negb raise_if bind]. unfold rs_stoch_apply.
    rewrite (rs_cached Z.of_nat _ k_windows k) by (auto; intros a b _ _; apply Nat2Z.inj). cbn [bind fst snd].
    rewrite map_length, seq_length, H2, Nat.eqb_refl. cbn [negb raise_if]. rewrite zip3_percent. rewrite H1 in Ed. rewrite Ed. reflexivity.
  Qed.

  Lemma combine_app : forall A B (a a' : list A) (b b' : list B), length a = length b -> combine (a ++ a') (b ++ b') = combine a b ++ combine a' b'.
  Proof. induction a as [|x a IH]; intros a' [|y b] b' H; cbn in *; try discriminate; auto. f_equal. apply IH. lia. Qed.
  Lemma macd_run : forall close fasts slows ewms adjust fw sw gw e ge out, length fasts = length ewms -> length slows = length ewms ->
    In (fw, e) (combine fasts ewms) -> In (sw, e) (combine slows ewms) ->
    no_collision hn (combine fasts ewms ++ combine slows ewms) -> no_collision hr (combine fasts ewms ++ combine slows ewms) ->
    same_average close fw e adjust -> same_average close sw e adjust ->
    same_average (zip_with sub (rs_ma close fw e adjust) (rs_ma close sw e adjust)) gw ge adjust ->
    (let! d := macd_cache_nb hn close fasts slows ewms adjust in macd_apply_nb hn fw sw gw e ge adjust d) = Ok out ->
    (let! d := rs_macd_cache hr close fasts slows ewms adjust in rs_macd_apply hr fw sw gw e ge adjust d) = Ok out.
  Proof.
    intros close fasts slows ewms adjust fw sw gw e ge out L1 L2 K1 K2 Hn Hr S1 S2 S3 H. apply bind_ok in H as (d & Hd & H).
    unfold macd_cache_nb, ma_cache_nb in Hd. unfold macd_apply_nb in H. rewrite combine_app in Hd by auto.
    destruct (cached hn _ _ d (fw, e) Hn Hd ltac:(apply in_or_app; auto)) as (v1 & E1 & G1). destruct (cached hn _ _ d (sw, e) Hn Hd ltac:(apply in_or_app; auto)) as (v2 & E2 & G2).
    rewrite G1, G2 in H. cbn [bind fst snd] in *. apply S1 in E1. apply S2 in E2. rewrite <- E1, <- E2 in H. apply bind_ok in H as (g & Eg & H). injection H as <-. apply S3 in Eg.
    unfold rs_macd_cache. rewrite !lengths_ok by auto. unfold rs_build_ma_cache. rewrite lengths_ok by (rewrite !app_length; lia). cbn [bind]. unfold rs_macd_apply.
    rewrite combine_app by auto. rewrite !rs_cached by (auto; apply in_or_app; auto). cbn [bind fst snd]. unfold zip_with in *. rewrite Eg. reflexivity.
  Qed.

  Lemma atr_run : forall high low close windows ewms adjust w e out, length high = length low -> length high = length close ->
    length windows = length ewms -> In (w, e) (combine windows ewms) ->
    no_collision hn (combine windows ewms) -> no_collision hr (combine windows ewms) -> same_average (true_range_nb high low close) w e adjust ->
    (let! d := atr_cache_nb hn high low close windows ewms adjust in atr_apply_nb hn w e d) = Ok out ->
    (let! d := rs_atr_cache hr high low close windows ewms adjust in rs_atr_apply hr w e d) = Ok out.
  Proof.
    intros high low close windows ewms adjust w e out H1 H2 Hl Hk Hn Hr Hs H. apply bind_ok in H as (d & Hd & H). unfold atr_cache_nb in Hd.
    apply bind_ok in Hd as (d' & Hd & E). injection E as <-. unfold atr_apply_nb in H. cbn [fst snd] in H.
    destruct (cached hn _ _ d' (w, e) Hn Hd Hk) as (v & E & G). rewrite G in H. cbn [bind fst snd] in *. injection H as <-. apply Hs in E.
    unfold rs_atr_cache. rewrite lengths_ok by auto. rewrite <- H1, <- H2, Nat.eqb_refl. cbn [negb orb raise_if bind]. unfold rs_atr_apply. cbn [fst snd].
    rewrite true_range_eq. rewrite rs_cached by auto. cbn [bind fst snd]. rewrite E. reflexivity.
  Qed.
End Any.
