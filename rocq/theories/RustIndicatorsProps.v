(** * C104: indicators computed by the Rust engine are those computed by the compiled Python engine *)
From Coq Require Import String ZArith QArith Bool List Lia.
From Verif Require Import Base Num OrdLaws B64 XQFacts GenericNb GenericSpec IndicatorsNb IndicatorsSpec RustGeneric RustGenericSpec RustIndicators RustIndicatorsSpec.
From Verif Require Import RustGenericLemmas3 RustGenericLemmas6 RustIndicatorsLemmas RustIndicatorsLemmas2 RustIndicatorsLemmas3.
Import ListNotations.
Open Scope nat_scope.

(** Exponential averages and both kinds of deviation are the same in any
    arithmetic whose comparisons are those of numbers with NaN. *)
Theorem C104_exponential : forall T (N : Num T) (L : OrdLaws N) (a : list T) w adjust, exact_span (T := T) w ->
  same_average a w true adjust /\
  forall sqrt tol ddof e, sqrt nan = nan -> same_deviation sqrt tol a w e adjust ddof.
Proof.
  intros T N L a w adjust Hs. split; [exact (ewm_mean_same eqb_nan_refl a w adjust Hs)|].
  intros sqrt tol ddof [|] Hn; [exact (ewm_std_same eqb_nan_refl sqrt tol a w adjust ddof Hn Hs)|exact (roll_std_same sqrt tol a w adjust ddof)].
Qed.
Print Assumptions C104_exponential.

(** In exact arithmetic, simple averages too, and neither engine refuses. *)
Theorem C104_averages : forall (a : list XQ) w e adjust, no_infinity a -> 1 <= w -> ma_nb a w e adjust = Ok (rs_ma a w e adjust).
Proof. exact average_same. Qed.
Print Assumptions C104_averages.

(** The loops over rows give every column what it gets on its own. *)
Theorem C104_rows : forall T (N : Num T) nrows ncols,
  (forall sqrt span minp adjust ddof,
     by_column (fun src => rs_ewm_std_2d_c sqrt src nrows ncols span minp adjust ddof) (fun a => rs_ewm_std_1d sqrt a span minp adjust ddof) nrows ncols) /\
  (forall high low close : list T, c_order high nrows ncols -> c_order low nrows ncols -> c_order close nrows ncols ->
     c_order (rs_true_range_2d_c high low close nrows ncols) nrows ncols /\
     forall c, c < ncols -> column (rs_true_range_2d_c high low close nrows ncols) nrows ncols c =
       rs_true_range_1d (column high nrows ncols c) (column low nrows ncols c) (column close nrows ncols c)) /\
  (forall close volume : list T, c_order close nrows ncols -> c_order volume nrows ncols ->
     c_order (rs_obv_2d_c close volume nrows ncols) nrows ncols /\
     forall c, c < ncols -> column (rs_obv_2d_c close volume nrows ncols) nrows ncols c = rs_obv_1d (column close nrows ncols c) (column volume nrows ncols c)).
Proof.
  intros T N nrows ncols. exact (conj (fun sqrt => ewm_std_2d_ok sqrt nrows ncols)
    (conj (fun high low close => true_range_2d_ok high low close nrows ncols) (fun close volume => obv_2d_ok close volume nrows ncols))).
Qed.
Print Assumptions C104_rows.

(** True range in any arithmetic; on-balance volume in exact arithmetic. *)
Theorem C104_true_range : forall T (N : Num T) (high low close : list T), length high = length low -> length high = length close ->
  rs_true_range high low close = Ok (true_range_nb high low close).
Proof. intros T N high low close H1 H2. unfold rs_true_range. rewrite <- H1, <- H2, Nat.eqb_refl, true_range_eq. reflexivity. Qed.
Print Assumptions C104_true_range.

Theorem C104_on_balance_volume : forall close volume : list XQ, length close = length volume ->
  rs_obv_custom close volume = Ok (obv_custom_nb close volume).
Proof. exact obv_eq. Qed.
Print Assumptions C104_on_balance_volume.

(** In any arithmetic: where the moving averages (and deviations) are the
    same, so is what an indicator gives for a listed set of parameters,
    through the cache and for any hash functions without collisions. *)
Theorem C104_cached : forall T (N : Num T) hn hr (close : list T) windows ewms adjust w e,
  length windows = length ewms -> In (w, e) (combine windows ewms) ->
  no_collision hn (combine windows ewms) -> no_collision hr (combine windows ewms) ->
  (same_average close w e adjust -> forall out,
    (let! d := ma_cache_nb hn close windows ewms adjust in ma_apply_nb hn w e d) = Ok out ->
    (let! d := rs_build_ma_cache hr close windows ewms adjust in rs_ma_apply hr w e d) = Ok out) /\
  (forall sqrt tol ddof, same_deviation sqrt tol close w e adjust ddof -> forall out,
    (let! d := mstd_cache_nb sqrt tol hn close windows ewms adjust (Z.of_nat ddof) in mstd_apply_nb hn w e d) = Ok out ->
    (let! d := rs_build_mstd_cache sqrt tol hr close windows ewms adjust ddof in rs_mstd_apply hr w e d) = Ok out) /\
  (forall sqrt tol ddof alpha, same_average close w e adjust -> same_deviation sqrt tol close w e adjust ddof -> forall out,
    (let! d := bb_cache_nb sqrt tol hn close windows ewms adjust (Z.of_nat ddof) in bb_apply_nb hn w e alpha d) = Ok out ->
    (let! d := rs_bb_cache sqrt tol hr close windows ewms adjust ddof in rs_bb_apply hr w e alpha d) = Ok out) /\
  (abs (zero : T) = zero -> same_average (rises close) w e adjust -> same_average (drops close) w e adjust -> forall out,
    (let! d := rsi_cache_nb hn close windows ewms adjust in rsi_apply_nb hn w e d) = Ok out ->
    (let! d := rs_rsi_cache hr close windows ewms adjust in rs_rsi_apply hr w e d) = Ok out) /\
  (forall high low, length high = length low -> length high = length close -> same_average (true_range_nb high low close) w e adjust -> forall out,
    (let! d := atr_cache_nb hn high low close windows ewms adjust in atr_apply_nb hn w e d) = Ok out ->
    (let! d := rs_atr_cache hr high low close windows ewms adjust in rs_atr_apply hr w e d) = Ok out).
Proof.
  intros T N hn hr close windows ewms adjust w e Hl Hk Hn Hr. repeat split.
  - intros Hs out. apply ma_run; auto.
  - intros sqrt tol ddof Hs out. apply mstd_run; auto.
  - intros sqrt tol ddof alpha H1 H2 out. apply bb_run; auto.
  - intros Hz H1 H2 out. apply rsi_run; auto.
  - intros high low H1 H2 Hs out. apply atr_run; auto.
Qed.
Print Assumptions C104_cached.

(** In exact arithmetic both engines give an answer, and the same one. *)
Theorem C104_exact : forall hn hr (close : list XQ) windows ewms adjust w e, no_infinity close ->
  Forall (fun w => 1 <= w) windows -> length windows = length ewms -> In (w, e) (combine windows ewms) ->
  no_collision hn (combine windows ewms) -> no_collision hr (combine windows ewms) ->
  (exists out, (let! d := ma_cache_nb hn close windows ewms adjust in ma_apply_nb hn w e d) = Ok out /\
     (let! d := rs_build_ma_cache hr close windows ewms adjust in rs_ma_apply hr w e d) = Ok out) /\
  (exists out, (let! d := rsi_cache_nb hn close windows ewms adjust in rsi_apply_nb hn w e d) = Ok out /\
     (let! d := rs_rsi_cache hr close windows ewms adjust in rs_rsi_apply hr w e d) = Ok out) /\
  (forall high low, no_infinity high -> no_infinity low -> length high = length low -> length high = length close ->
     exists out, (let! d := atr_cache_nb hn high low close windows ewms adjust in atr_apply_nb hn w e d) = Ok out /\
     (let! d := rs_atr_cache hr high low close windows ewms adjust in rs_atr_apply hr w e d) = Ok out).
Proof.
  intros hn hr close windows ewms adjust w e HT HF Hl Hk Hn Hr. split; [|split].
  - apply ma_exact; auto.
  - apply rsi_exact; auto.
  - intros high low H1 H2 L1 L2. apply atr_exact; auto.
Qed.
Print Assumptions C104_exact.

Theorem C104_bands_exact : forall sqrt tol hn hr (close : list XQ) windows ewms adjust ddof w e alpha out, sqrt NaN = NaN -> no_infinity close -> 1 <= w ->
  length windows = length ewms -> In (w, e) (combine windows ewms) ->
  no_collision hn (combine windows ewms) -> no_collision hr (combine windows ewms) ->
  (let! d := bb_cache_nb sqrt tol hn close windows ewms adjust (Z.of_nat ddof) in bb_apply_nb hn w e alpha d) = Ok out ->
  (let! d := rs_bb_cache sqrt tol hr close windows ewms adjust ddof in rs_bb_apply hr w e alpha d) = Ok out.
Proof.
  intros sqrt tol hn hr close windows ewms adjust ddof w e alpha out Hn HT Hw Hl Hk Hc Hr. apply bb_run; auto.
  - apply same_of; auto.
  - exact (proj2 (C104_exponential XQ XQnum XQord close w adjust (exact_span_xq w)) sqrt tol ddof e Hn).
Qed.
Print Assumptions C104_bands_exact.

Theorem C104_macd_exact : forall hn hr (close : list XQ) fasts slows ewms adjust fw sw gw e ge, no_infinity close ->
  Forall (fun w => 1 <= w) (fasts ++ slows) -> 1 <= gw ->
  length fasts = length ewms -> length slows = length ewms -> In (fw, e) (combine fasts ewms) -> In (sw, e) (combine slows ewms) ->
  no_collision hn (combine fasts ewms ++ combine slows ewms) -> no_collision hr (combine fasts ewms ++ combine slows ewms) ->
  exists out, (let! d := macd_cache_nb hn close fasts slows ewms adjust in macd_apply_nb hn fw sw gw e ge adjust d) = Ok out /\
    (let! d := rs_macd_cache hr close fasts slows ewms adjust in rs_macd_apply hr fw sw gw e ge adjust d) = Ok out.
Proof. exact macd_exact. Qed.
Print Assumptions C104_macd_exact.

Theorem C104_stochastic_exact : forall hash1 high low close k_windows k dw de adjust, no_infinity high -> no_infinity low -> no_infinity close ->
  length high = length close -> length low = length close -> series_le low close -> series_le close high -> 1 <= k -> 1 <= dw ->
  In k k_windows -> no_collision hash1 k_windows ->
  exists out, (let! d := stoch_cache_nb hash1 high low k_windows in stoch_apply_nb hash1 close k dw de adjust d) = Ok out /\
    (let! d := rs_stoch_cache high low k_windows in rs_stoch_apply close k dw de adjust d) = Ok out.
Proof. exact stoch_exact. Qed.
Print Assumptions C104_stochastic_exact.

(** The lines of the stochastic oscillator and of the MACD in any arithmetic:
    what Numba returns Rust returns, where the smoothing averages are the same. *)
Theorem C104_stochastic : forall T (N : Num T) hash1 (high low close : list T) k_windows k dw de adjust out,
  length high = length low -> length close = length low -> In k k_windows -> no_collision hash1 k_windows ->
  (forall mn mx, rolling_min_1d_nb low k None = Ok mn -> rolling_max_1d_nb high k None = Ok mx -> same_average (percent_k close mn mx) dw de adjust) ->
  (let! d := stoch_cache_nb hash1 high low k_windows in stoch_apply_nb hash1 close k dw de adjust d) = Ok out ->
  (let! d := rs_stoch_cache high low k_windows in rs_stoch_apply close k dw de adjust d) = Ok out.
Proof. exact @stoch_run. Qed.
Print Assumptions C104_stochastic.

Theorem C104_macd : forall T (N : Num T) hn hr (close : list T) fasts slows ewms adjust fw sw gw e ge out,
  length fasts = length ewms -> length slows = length ewms -> In (fw, e) (combine fasts ewms) -> In (sw, e) (combine slows ewms) ->
  no_collision hn (combine fasts ewms ++ combine slows ewms) -> no_collision hr (combine fasts ewms ++ combine slows ewms) ->
  same_average close fw e adjust -> same_average close sw e adjust ->
  same_average (zip_with sub (rs_ma close fw e adjust) (rs_ma close sw e adjust)) gw ge adjust ->
  (let! d := macd_cache_nb hn close fasts slows ewms adjust in macd_apply_nb hn fw sw gw e ge adjust d) = Ok out ->
  (let! d := rs_macd_cache hr close fasts slows ewms adjust in rs_macd_apply hr fw sw gw e ge adjust d) = Ok out.
Proof. exact @macd_run. Qed.
Print Assumptions C104_macd.

(** Parameter lists and price series of different lengths are refused. *)
Theorem C104_lengths : forall T (N : Num T) sqrt tol hash2 (high low close volume : list T) windows ewms adjust ddof,
  (length windows <> length ewms ->
     let refused := ValueError "windows and ewms must have the same length" in
     rs_build_ma_cache hash2 close windows ewms adjust = Err refused /\
     rs_build_mstd_cache sqrt tol hash2 close windows ewms adjust ddof = Err refused /\
     rs_bb_cache sqrt tol hash2 close windows ewms adjust ddof = Err refused /\
     rs_rsi_cache hash2 close windows ewms adjust = Err refused /\
     rs_atr_cache hash2 high low close windows ewms adjust = Err refused) /\
  (length high <> length low \/ length high <> length close ->
     rs_true_range high low close = Err (ValueError "high, low, and close must have the same length")) /\
  (length high <> length low -> rs_stoch_cache high low windows = Err (ValueError "high and low must have the same shape")) /\
  (length close <> length volume -> rs_obv_custom close volume = Err (ValueError "close and volume_ts must have the same shape")).
Proof.
  intros T N sqrt tol hash2 high low close volume windows ewms adjust ddof.
  assert (Q : forall n m, n <> m -> negb (Nat.eqb n m) = true) by (intros n m H; apply Nat.eqb_neq in H; rewrite H; reflexivity).
  split; [|split; [|split]].
  - intros H. apply Q in H. unfold rs_bb_cache, rs_build_ma_cache, rs_build_mstd_cache, rs_rsi_cache, rs_atr_cache, rs_validate_param_lengths. rewrite H. repeat split.
  - intros [H|H]; apply Q in H; unfold rs_true_range; rewrite H; [|rewrite orb_true_r]; reflexivity.
  - intros H. apply Q in H. unfold rs_stoch_cache. rewrite H. reflexivity.
  - intros H. apply Q in H. unfold rs_obv_custom. rewrite H. reflexivity.
Qed.
Print Assumptions C104_lengths.

(** A window of no bars: Numba divides by zero, Rust gives NaN. *)
Theorem C104_zero_window_refuted :
  ma_nb [Fin 1; Fin 2] 0 false false = Err ZeroDivision /\ rs_ma [Fin 1; Fin 2] 0 false false = [NaN; NaN].
Proof. split; reflexivity. Qed.
Print Assumptions C104_zero_window_refuted.

(** In doubles the simple average of the two engines can differ: over one bar
    of 2^53, 3, 1 it ends with 0 in Numba and with 2 in Rust. *)
Theorem C104_rounding_refuted :
  let a := [b64_ofZ (2 ^ 53); b64_ofZ 3; b64_ofZ 1] in
  match @ma_nb _ B64num a 1 false false with
  | Ok nb => b64_eqb (nth 2 nb (@nan f64 B64num)) (b64_ofZ 0) && b64_eqb (nth 2 (@rs_ma _ B64num a 1 false false) (@nan f64 B64num)) (b64_ofZ 2)
  | Err _ => false
  end = true.
Proof. vm_compute. reflexivity. Qed.
Print Assumptions C104_rounding_refuted.

(** Witnesses. *)
Definition hash_a (k : nat * bool) : Z := (2 * Z.of_nat (fst k) + if snd k then 1 else 0)%Z.
Definition hash_b (k : nat * bool) : Z := (Z.of_nat (fst k) - if snd k then 1000 else 0)%Z.
Definition prices : list XQ := [Fin 10; Fin 12; Fin 11; NaN; Fin 14; Fin 15; Fin 13].
Example C104_nonvacuous :
  no_infinity prices /\ no_collision hash_a (combine [2; 3]%nat [false; true]) /\ no_collision hash_b (combine [2; 3]%nat [false; true]) /\
  (let! d := rs_rsi_cache hash_b prices [2; 3]%nat [false; true] true in rs_rsi_apply hash_b 2 false d) =
    Ok [NaN; NaN; Fin (200 # 3); NaN; NaN; NaN; Fin (100 # 3)] /\
  (let! d := rsi_cache_nb hash_a prices [2; 3]%nat [false; true] true in rsi_apply_nb hash_a 2 false d) =
    Ok [NaN; NaN; Fin (200 # 3); NaN; NaN; NaN; Fin (100 # 3)] /\
  rs_obv_custom [Fin 1; Fin 2; Fin 1; NaN] [Fin 10; NaN; Fin 4; Fin 5] = Ok [Fin 10; Fin 10; Fin 6; Fin 11] /\
  rs_true_range [Fin 5; Fin 6] [Fin 4; Fin 5] [Fin 4; Fin 6] = Ok [Fin 1; Fin 2] /\
  @exact_span f64 B64num 3 /\ @abs _ B64num (@zero _ B64num) = @zero _ B64num.
Proof.
  split; [unfold no_infinity, prices; cbn [In]; intuition (try discriminate; subst; discriminate)|].
  split; [intros k k' H H' E; cbn [In combine] in H, H'; intuition (subst; try reflexivity; discriminate)|].
  split; [intros k k' H H' E; cbn [In combine] in H, H'; intuition (subst; try reflexivity; discriminate)|].
  split; [reflexivity|]. split; [reflexivity|]. split; [reflexivity|]. split; [reflexivity|].
  split; [apply exact_span_f64; reflexivity|reflexivity].
Qed.
