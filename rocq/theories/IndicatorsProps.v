(** * Properties of indicators: C47 (bounds and values), C48 (caches are
    transparent), C66 (exponentially weighted deviation) *)
From Coq Require Import String ZArith QArith Qminmax Bool List Arith Lia.
From Verif Require Import Base Num GenericNb XQFacts GenericSpec ReturnsSpec IndicatorsNb IndicatorsSpec
  IndicatorsLemmas3 IndicatorsLemmas4 IndicatorsLemmas5.
Import ListNotations.
Local Open Scope list_scope.
Local Open Scope Q_scope.

(** ** C47 *)

(** RSI: undefined or between 0 and 100, whatever the window and smoothing. *)
Theorem C47_rsi_between_0_and_100 : forall hash2 close windows ewms adjust d w e out,
  no_infinity close -> (forall w, In w windows -> (1 <= w)%nat) ->
  rsi_cache_nb hash2 close windows ewms adjust = Ok d -> rsi_apply_nb hash2 w e d = Ok out ->
  length out = length close /\ forall y, In y out -> within 0 100 y.
Proof. exact rsi_bounds. Qed.
Print Assumptions C47_rsi_between_0_and_100.

(** RSI: with average rise a and average drop b it is 100 a / (a + b); where
    the price has not moved, and where an average is unknown, it is undefined. *)
Theorem C47_rsi_value : forall close w e adj u v i y, no_infinity close -> (1 <= w)%nat ->
  ma_nb (rises close) w e adj = Ok u -> ma_nb (drops close) w e adj = Ok v -> nth_error (rsi_of u v) i = Some y ->
  exists a b, nth_error u i = Some a /\ nth_error v i = Some b /\
  match a, b with
  | Fin a, Fin b => 0 <= a /\ 0 <= b /\ (0 < a + b -> is_number y (100 * a / (a + b))) /\ (a + b == 0 -> y = NaN)
  | _, _ => y = NaN
  end.
Proof. exact rsi_value. Qed.
Print Assumptions C47_rsi_value.

(** Stochastic oscillator: both lines are undefined or between 0 and 100,
    when the close lies between low and high. *)
Theorem C47_stoch_between_0_and_100 : forall hash1 high low close k_windows d k dw de adjust pk pd,
  no_infinity high -> no_infinity low -> no_infinity close -> length high = length close -> length low = length close ->
  series_le low close -> series_le close high -> (forall w, In w k_windows -> (1 <= w)%nat) -> (1 <= dw)%nat ->
  stoch_cache_nb hash1 high low k_windows = Ok d -> stoch_apply_nb hash1 close k dw de adjust d = Ok (pk, pd) ->
  length pk = length close /\ length pd = length close /\ (forall y, In y pk -> within 0 100 y) /\ (forall y, In y pd -> within 0 100 y).
Proof. exact stoch_bounds. Qed.
Print Assumptions C47_stoch_between_0_and_100.

(** %K is the position of the close between the lowest low and the highest
    high of a full window. *)
Theorem C47_stoch_value : forall high low close w mins maxs i y,
  no_infinity high -> no_infinity low -> no_infinity close -> length high = length close -> length low = length close ->
  series_le low close -> series_le close high -> (1 <= w)%nat ->
  rolling_min_1d_nb low w None = Ok mins -> rolling_max_1d_nb high w None = Ok maxs ->
  nth_error (percent_k close mins maxs) i = Some y ->
  y = NaN \/ exists lo hi c, nth_error close i = Some (Fin c) /\
     In lo (vals (window w i low)) /\ (forall q, In q (vals (window w i low)) -> lo <= q) /\
     In hi (vals (window w i high)) /\ (forall q, In q (vals (window w i high)) -> q <= hi) /\
     length (vals (window w i low)) = w /\ length (vals (window w i high)) = w /\
     lo < hi /\ is_number y (100 * (c - lo) / (hi - lo)).
Proof. exact stoch_value. Qed.
Print Assumptions C47_stoch_value.

(** True range: the span of high, low and the previous close. *)
Theorem C47_true_range_value : forall high low close i h l,
  nth_error high i = Some (Fin h) -> nth_error low i = Some (Fin l) -> no_infinity close -> l <= h ->
  match i with
  | O => bar_is (true_range_nb high low close) i (h - l)
  | S j => match nth j close NaN with
           | Fin c => bar_is (true_range_nb high low close) i (Qmax h c - Qmin l c)
           | _ => bar_is (true_range_nb high low close) i (h - l)
           end
  end.
Proof. exact true_range_run. Qed.
Print Assumptions C47_true_range_value.

(** True range: undefined, or non-negative and at least high minus low. *)
Theorem C47_true_range_bounds : forall high low close, no_infinity high -> no_infinity low -> no_infinity close ->
  length low = length high -> series_le low high ->
  forall i, (i < length high)%nat -> nth_error (true_range_nb high low close) i = Some NaN \/
    exists h l t, nth_error high i = Some (Fin h) /\ nth_error low i = Some (Fin l) /\
      nth_error (true_range_nb high low close) i = Some (Fin t) /\ h - l <= t /\ 0 <= t.
Proof. exact true_range_values. Qed.
Print Assumptions C47_true_range_bounds.

(** Average true range: undefined or non-negative. *)
Theorem C47_average_true_range_nonneg : forall hash2 high low close windows ewms adjust caches w e tr atr,
  no_infinity high -> no_infinity low -> no_infinity close -> length low = length high -> series_le low high ->
  (forall w, In w windows -> (1 <= w)%nat) ->
  atr_cache_nb hash2 high low close windows ewms adjust = Ok caches -> atr_apply_nb hash2 w e caches = Ok (tr, atr) ->
  tr = true_range_nb high low close /\ length atr = length high /\ (forall y, In y tr -> at_least 0 y) /\ (forall y, In y atr -> at_least 0 y).
Proof. exact atr_bounds. Qed.
Print Assumptions C47_average_true_range_nonneg.

(** Bollinger bands: both outer bands undefined, or ordered and symmetric
    around the middle, for any square root that maps non-negative numbers to
    non-negative numbers. *)
Theorem C47_bands_ordered : forall sqrt tol hash2 close windows ewms adjust ddof caches w e alpha middle upper lower,
  sqrt NaN = NaN -> (forall v, 0 <= v -> exists s, sqrt (Fin v) = Fin s /\ 0 <= s) ->
  no_infinity close -> (forall w, In w windows -> (1 <= w)%nat) -> 0 <= alpha ->
  bb_cache_nb sqrt tol hash2 close windows ewms adjust ddof = Ok caches ->
  bb_apply_nb hash2 w e (Fin alpha) caches = Ok (middle, upper, lower) ->
  length middle = length close /\ length upper = length close /\ length lower = length close /\
  forall i, (i < length close)%nat ->
    (nth_error upper i = Some NaN /\ nth_error lower i = Some NaN) \/
    exists m u l, bar_is middle i m /\ bar_is upper i u /\ bar_is lower i l /\ l <= m /\ m <= u /\ u - m == m - l.
Proof. exact bb_bounds. Qed.
Print Assumptions C47_bands_ordered.

(** On-balance volume: the running sum of the volume, counted negatively on
    bars where the close fell; unknown volume counts as none. *)
Theorem C47_on_balance_volume : forall close volume i, no_infinity close -> no_infinity volume ->
  length close = length volume -> (i < length volume)%nat ->
  bar_is (obv_custom_nb close volume) i (sum (map (signed_volume close volume) (seq 0 (S i)))).
Proof. exact obv_run. Qed.
Print Assumptions C47_on_balance_volume.

(** Witnesses. *)
Definition hash_we (k : nat * bool) : Z := (2 * Z.of_nat (fst k) + if snd k then 1 else 0)%Z.
Example C47_nonvacuous_rsi :
  match rsi_cache_nb hash_we [Fin 10; Fin 12; Fin 11; NaN; Fin 14; Fin 15; Fin 13] [2; 3]%nat [false; true] true with
  | Ok d => rsi_apply_nb hash_we 2 false d = Ok [NaN; NaN; Fin (200 # 3); NaN; NaN; NaN; Fin (100 # 3)]
  | Err _ => False
  end.
Proof. vm_compute. reflexivity. Qed.
Example C47_nonvacuous_stoch :
  match stoch_cache_nb (fun k => Z.of_nat k) [Fin 5; Fin 6; Fin 7; Fin 7] [Fin 1; Fin 2; Fin 3; Fin 7] [2%nat] with
  | Ok d => stoch_apply_nb (fun k => Z.of_nat k) [Fin 3; Fin 4; Fin 6; Fin 7] 2 2 false true d =
      Ok ([NaN; Fin 60; Fin 80; Fin 100], [NaN; NaN; Fin 70; Fin 90])
  | Err _ => False
  end.
Proof. vm_compute. reflexivity. Qed.
Example C47_nonvacuous_ranges :
  true_range_nb [Fin 5; Fin 6; Fin 7] [Fin 4; Fin 5; Fin 3] [Fin 2; NaN; Fin 4] = [Fin 1; Fin 4; Fin 4].
Proof. vm_compute. reflexivity. Qed.
Example C47_nonvacuous_bands :
  let root := fun x => x in   (* meets the hypotheses on the square root *)
  match bb_cache_nb root (Fin 0) hash_we [Fin 1; Fin 3; Fin 5] [2%nat] [false] true 0 with
  | Ok c => bb_apply_nb hash_we 2 false (Fin 2) c = Ok ([NaN; Fin 2; Fin 4], [NaN; Fin 4; Fin 6], [NaN; Fin 0; Fin 2])
  | Err _ => False
  end.
Proof. vm_compute. reflexivity. Qed.
Example C47_nonvacuous_obv :
  obv_custom_nb [Fin 3; Fin 2; Fin 2; Fin 4] [Fin 10; Fin 5; NaN; Fin 1] = [Fin 10; Fin 5; Fin 5; Fin 6].
Proof. vm_compute. reflexivity. Qed.

(** ** C48: whatever the arithmetic, what the cache returns for a listed
    combination is what direct computation returns *)
Theorem C48_moving_average_cache : forall T (N : Num T) hash2 (close : list T) windows ewms adjust d w e,
  no_collision hash2 (combine windows ewms) ->
  ma_cache_nb hash2 close windows ewms adjust = Ok d -> In (w, e) (combine windows ewms) ->
  ma_apply_nb hash2 w e d = ma_nb close w e adjust.
Proof. exact @ma_cached. Qed.
Print Assumptions C48_moving_average_cache.

Theorem C48_deviation_cache : forall T (N : Num T) hash2 sqrt tol (close : list T) windows ewms adjust ddof d w e,
  no_collision hash2 (combine windows ewms) ->
  mstd_cache_nb sqrt tol hash2 close windows ewms adjust ddof = Ok d -> In (w, e) (combine windows ewms) ->
  mstd_apply_nb hash2 w e d = mstd_nb sqrt tol close w e adjust ddof.
Proof. exact @mstd_cached. Qed.
Print Assumptions C48_deviation_cache.

Theorem C48_bands_cache : forall T (N : Num T) hash2 sqrt tol (close : list T) windows ewms adjust ddof caches w e alpha,
  no_collision hash2 (combine windows ewms) ->
  bb_cache_nb sqrt tol hash2 close windows ewms adjust ddof = Ok caches -> In (w, e) (combine windows ewms) ->
  bb_apply_nb hash2 w e alpha caches =
    bind (ma_nb close w e adjust) (fun ma => bind (mstd_nb sqrt tol close w e adjust ddof) (fun sd => Ok (bands alpha ma sd))).
Proof. exact @bb_cached. Qed.
Print Assumptions C48_bands_cache.

Theorem C48_rsi_cache : forall T (N : Num T) hash2 (close : list T) windows ewms adjust d w e,
  no_collision hash2 (combine windows ewms) ->
  rsi_cache_nb hash2 close windows ewms adjust = Ok d -> In (w, e) (combine windows ewms) ->
  rsi_apply_nb hash2 w e d =
    bind (ma_nb (rises close) w e adjust) (fun u => bind (ma_nb (drops close) w e adjust) (fun v => Ok (rsi_of u v))).
Proof. exact @rsi_cached. Qed.
Print Assumptions C48_rsi_cache.

Theorem C48_stochastic_cache : forall T (N : Num T) hash1 (high low close : list T) k_windows d k dw de adjust,
  no_collision hash1 k_windows ->
  stoch_cache_nb hash1 high low k_windows = Ok d -> In k k_windows ->
  stoch_apply_nb hash1 close k dw de adjust d =
    bind (rolling_min_1d_nb low k None) (fun mins => bind (rolling_max_1d_nb high k None) (fun maxs =>
      bind (ma_nb (percent_k close mins maxs) dw de adjust) (fun pd => Ok (percent_k close mins maxs, pd)))).
Proof. exact @stoch_cached. Qed.
Print Assumptions C48_stochastic_cache.

Theorem C48_macd_cache : forall T (N : Num T) hash2 (close : list T) fast slow ewms adjust d k f s e sw se,
  no_collision hash2 (combine (fast ++ slow) (ewms ++ ewms)) -> length fast = length ewms ->
  macd_cache_nb hash2 close fast slow ewms adjust = Ok d ->
  nth_error fast k = Some f -> nth_error slow k = Some s -> nth_error ewms k = Some e ->
  macd_apply_nb hash2 f s sw e se adjust d =
    bind (ma_nb close f e adjust) (fun fm => bind (ma_nb close s e adjust) (fun sm =>
      bind (ma_nb (zip_with sub fm sm) sw se adjust) (fun sg => Ok (zip_with sub fm sm, sg)))).
Proof. exact @macd_cached. Qed.
Print Assumptions C48_macd_cache.

Theorem C48_true_range_cache : forall T (N : Num T) hash2 (high low close : list T) windows ewms adjust caches w e,
  no_collision hash2 (combine windows ewms) ->
  atr_cache_nb hash2 high low close windows ewms adjust = Ok caches -> In (w, e) (combine windows ewms) ->
  atr_apply_nb hash2 w e caches =
    bind (ma_nb (true_range_nb high low close) w e adjust) (fun atr => Ok (true_range_nb high low close, atr)).
Proof. exact @atr_cached. Qed.
Print Assumptions C48_true_range_cache.

(** A combination that was not cached raises an error. *)
Theorem C48_unlisted_raises : forall T (N : Num T) hash2 (close : list T) windows ewms adjust d w e,
  ma_cache_nb hash2 close windows ewms adjust = Ok d ->
  (forall k, In k (combine windows ewms) -> hash2 k <> hash2 (w, e)) ->
  exists msg, ma_apply_nb hash2 w e d = Err (KeyError msg).
Proof. exact @ma_unlisted. Qed.
Print Assumptions C48_unlisted_raises.

(** Keys are hashes only: two listed combinations with the same hash share
    one result, which is wrong for the second. *)
Theorem C48_colliding_hashes_refuted : exists hash2 (close : list XQ) windows ewms d w e,
  ma_cache_nb hash2 close windows ewms true = Ok d /\ In (w, e) (combine windows ewms) /\
  ma_apply_nb hash2 w e d <> ma_nb close w e true.
Proof.
  exists (fun _ => 7%Z), [Fin 1; Fin 3], [1; 2]%nat, [false; false]. eexists. exists 2%nat, false.
  split; [reflexivity|]. split; [cbn; auto|]. vm_compute. discriminate.
Qed.
Print Assumptions C48_colliding_hashes_refuted.

Example C48_nonvacuous :
  no_collision hash_we (combine [2; 3; 2] [false; true; false])%nat /\
  (exists d, ma_cache_nb hash_we [Fin 1; Fin 3; Fin 8] [2; 3; 2]%nat [false; true; false] true = Ok d /\
     In (3%nat, true) (combine [2; 3; 2]%nat [false; true; false]) /\
     ma_apply_nb hash_we 3 true d = Ok [NaN; NaN; Fin (39 # 7)] /\ length d = 2%nat).
Proof.
  split.
  - intros k k' H H'. cbn in H, H'.
    destruct H as [<-|[<-|[<-|[]]]]; destruct H' as [<-|[<-|[<-|[]]]]; vm_compute; congruence.
  - eexists. vm_compute. auto.
Qed.

(** ** C66 *)

(** With adjusted weights, at every bar with enough known values, the square
    root is taken of the bias-corrected variance under weights (1-share)^age;
    before that the result is the root of NaN. *)
Theorem C66_ewm_std_adjusted : forall sqrt span a mp ddof, (2 <= span)%nat -> no_infinity a ->
  (match mp with None => span | Some m => m end <= span)%nat ->
  exists out, ewm_std_1d_nb sqrt a span mp true ddof = Ok out /\ length out = length a /\
  forall i, (i < length a)%nat -> exists y, nth_error out i = Some (sqrt y) /\
    let hist := rev (firstn (S i) a) in
    let m := Nat.max (match mp with None => span | Some m => m end) 2 in
    ((length (vals hist) < m)%nat -> y = NaN) /\
    ((m <= length (vals hist))%nat -> is_number y (ew_variance (1 - share span) hist)).
Proof. exact ewm_std_adjusted. Qed.
Print Assumptions C66_ewm_std_adjusted.

(** In both variants the root is never taken of a negative number. *)
Theorem C66_ewm_std_nonneg : forall sqrt span a mp adj ddof, (1 <= span)%nat -> no_infinity a ->
  (match mp with None => span | Some m => m end <= span)%nat ->
  exists out, ewm_std_1d_nb sqrt a span mp adj ddof = Ok out /\ length out = length a /\
  forall z, In z out -> exists y, z = sqrt y /\ at_least 0 y.
Proof. exact ewm_std_nonneg. Qed.
Print Assumptions C66_ewm_std_nonneg.

(** Degrees of freedom: the argument is accepted and has no effect (the
    docstring suggests otherwise). *)
Theorem C66_ddof_has_no_effect : forall T (N : Num T) sqrt (a : list T) span mp adj ddof ddof',
  ewm_std_1d_nb sqrt a span mp adj ddof = ewm_std_1d_nb sqrt a span mp adj ddof'.
Proof. exact (fun T N sqrt a span mp adj ddof ddof' => eq_refl). Qed.
Print Assumptions C66_ddof_has_no_effect.

Example C66_nonvacuous :
  ewm_std_1d_nb (fun x => x) [Fin 1; NaN; Fin 3; Fin 6] 3 (Some 2%nat) true 0 = Ok [NaN; NaN; Fin 2; Fin (63 # 11)] /\
  (ew_variance (1 - share 3) (rev [Fin 1; NaN; Fin 3; Fin 6]) == 63 # 11)%Q.
Proof. vm_compute. auto. Qed.
