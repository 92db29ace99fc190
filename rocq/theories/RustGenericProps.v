(** * C97, C98: the Rust kernels for series against the Numba kernels *)
From Coq Require Import String ZArith QArith Bool List Arith.
From Verif Require Import Base Num B64 OrdLaws GenericNb GenericSpec Reduce ReduceSpec RustGeneric RustGenericSpec
  RustGenericLemmas RustGenericLemmas2 RustGenericLemmas3 RustGenericLemmas4 RustGenericLemmas5 RustGenericLemmas6.
Import ListNotations.
Open Scope nat_scope.

(** ** C97: the same algorithm, so the same result bit for bit *)

(** Filling: one column, and arrays with several columns processed row by row. *)
Theorem C97_fill : forall T (N : Num T) (a : list T),
  rs_ffill_1d a = ffill_1d_nb a /\ rs_bfill_1d a = bfill_1d_nb a.
Proof. intros T N a. exact (conj (ffill_1d_eq a) (bfill_1d_eq a)). Qed.
Print Assumptions C97_fill.

Theorem C97_fill_columns : forall T (N : Num T), OrdLaws N -> forall (src : list T) nrows ncols, c_order src nrows ncols ->
  c_order (rs_ffill_2d_c src nrows ncols) nrows ncols /\ c_order (rs_bfill_2d_c src nrows ncols) nrows ncols /\
  forall c, c < ncols ->
    Forall2 same (column (rs_ffill_2d_c src nrows ncols) nrows ncols c) (ffill_1d_nb (column src nrows ncols c)) /\
    Forall2 same (column (rs_bfill_2d_c src nrows ncols) nrows ncols c) (bfill_1d_nb (column src nrows ncols c)).
Proof.
  intros T N L src nrows ncols H.
  exact (conj (proj1 (ffill_2d_ok ol_nan src nrows ncols H)) (conj (proj1 (bfill_2d_ok ol_nan src nrows ncols H))
    (fun c Hc => conj (proj2 (ffill_2d_ok ol_nan src nrows ncols H) c Hc) (proj2 (bfill_2d_ok ol_nan src nrows ncols H) c Hc)))).
Qed.
Print Assumptions C97_fill_columns.

(** Shifting and changes. *)
Theorem C97_shift : forall T (N : Num T) (a : list T) n v,
  rs_bshift_1d a n v = bshift_1d_nb a n v /\ rs_fshift_1d a n v = fshift_1d_nb a n v /\
  rs_diff_1d a n = diff_1d_nb a n /\ rs_pct_change_1d a n = pct_change_1d_nb a n.
Proof. intros T N a n v. exact (conj (bshift_1d_eq a n v) (conj (fshift_1d_eq a n v) (conj (diff_1d_eq a n) (pct_change_1d_eq a n)))). Qed.
Print Assumptions C97_shift.

Theorem C97_shift_columns : forall T (N : Num T) nrows ncols n (v : T),
  by_column (fun src => rs_bshift_2d_c src nrows ncols n v) (fun a => bshift_1d_nb a n v) nrows ncols /\
  by_column (fun src => rs_fshift_2d_c src nrows ncols n v) (fun a => fshift_1d_nb a n v) nrows ncols /\
  by_column (fun src => rs_diff_2d_c src nrows ncols n) (fun a => diff_1d_nb a n) nrows ncols /\
  by_column (fun src => rs_pct_change_2d_c src nrows ncols n) (fun a => pct_change_1d_nb a n) nrows ncols.
Proof.
  intros T N nrows ncols n v.
  exact (conj (bshift_2d_ok nrows ncols n v) (conj (fshift_2d_ok nrows ncols n v) (conj (diff_2d_ok nrows ncols n) (pct_change_2d_ok nrows ncols n)))).
Qed.
Print Assumptions C97_shift_columns.

(** Rolling extremes and deviations, errors included. *)
Theorem C97_rolling : forall T (N : Num T) sqrt tol (a : list T) window minp ddof,
  rs_rolling_min a window minp = rolling_min_1d_nb a window minp /\
  rs_rolling_max a window minp = rolling_max_1d_nb a window minp /\
  rs_rolling_std sqrt tol a window minp ddof = rolling_std_1d_nb sqrt tol a window minp (Z.of_nat ddof).
Proof.
  intros T N sqrt tol a window minp ddof.
  exact (conj (rolling_extreme_eq ltb a window minp) (conj (rolling_extreme_eq gtb a window minp) (rolling_std_eq sqrt tol a window minp ddof))).
Qed.
Print Assumptions C97_rolling.

(** Expanding extremes. *)
Theorem C97_expanding : forall T (N : Num T) (a : list T) minp,
  rs_expanding_extreme ltb a minp = expanding_min_1d_nb a minp /\ rs_expanding_extreme gtb a minp = expanding_max_1d_nb a minp.
Proof. intros T N a minp. exact (conj (expanding_extreme_eq ltb a minp) (expanding_extreme_eq gtb a minp)). Qed.
Print Assumptions C97_expanding.

(** The exponential mean: what Numba returns Rust returns, and a period above the span
    is refused by both. *)
Theorem C97_ewm_mean : forall T (N : Num T), OrdLaws N -> forall (a : list T) span minp adjust,
  (forall out, exact_span (T := T) span -> ewm_mean_1d_nb a span minp adjust = Ok out -> rs_ewm_mean a span (or_default minp span) adjust = Ok out) /\
  (span < or_default minp span -> rs_ewm_mean a span (or_default minp span) adjust = Err (ValueError "minp must be <= span") /\
                                  ewm_mean_1d_nb a span minp adjust = Err (ValueError "minp must be <= span")).
Proof.
  intros T N L a span minp adjust.
  exact (conj (fun out H E => ewm_mean_eq eqb_nan_refl a span minp adjust out H E) (fun H => ewm_mean_error a span minp adjust H)).
Qed.
Print Assumptions C97_ewm_mean.

(** Spans are exact in both kinds of numbers: in rationals always, in doubles below 2^53. *)
Theorem C97_spans_exact : forall span,
  @exact_span XQ XQnum span /\ ((Z.of_nat span < 2 ^ 53)%Z -> @exact_span f64 B64num span).
Proof. intros span. exact (conj (exact_span_xq span) (exact_span_f64 span)). Qed.
Print Assumptions C97_spans_exact.

(** The versions for several columns do on each column what the versions for one do. *)
Theorem C97_columns : forall T (N : Num T) sqrt tol nrows ncols window minp ddof adjust,
  by_column (fun src : list T => rs_rolling_mean_2d_c src nrows ncols window minp) (fun a => rs_rolling_mean_1d a window minp) nrows ncols /\
  by_column (fun src => rs_rolling_std_2d_c sqrt tol src nrows ncols window minp ddof) (fun a => rs_rolling_std_1d sqrt tol a window minp ddof) nrows ncols /\
  by_column (fun src => rs_expanding_mean_2d_c src nrows ncols minp) (fun a => rs_expanding_mean_1d a minp) nrows ncols /\
  by_column (fun src => rs_expanding_std_2d_c sqrt src nrows ncols minp ddof) (fun a => rs_expanding_std_1d sqrt a minp ddof) nrows ncols /\
  by_column (fun src => rs_ewm_mean_2d_c src nrows ncols window minp adjust) (fun a => rs_ewm_mean_1d a window minp adjust) nrows ncols.
Proof.
  intros T N sqrt tol nrows ncols window minp ddof adjust.
  exact (conj (rolling_mean_2d_ok nrows ncols window minp) (conj (rolling_std_2d_ok sqrt tol nrows ncols window minp ddof)
    (conj (expanding_mean_2d_ok nrows ncols minp) (conj (expanding_std_2d_ok sqrt nrows ncols minp ddof) (ewm_mean_2d_ok nrows ncols window minp adjust))))).
Qed.
Print Assumptions C97_columns.

(** Ranges, drawdowns, crossovers: the same records and flags. *)
Theorem C97_records : forall T (N : Num T), OrdLaws N -> forall gap (src : list T) nrows ncols a b wait,
  rs_find_ranges gap src nrows ncols = find_ranges_nb gap (columns_of src nrows ncols) /\
  rs_get_drawdowns src nrows ncols = get_drawdowns_nb (columns_of src nrows ncols) /\
  rs_crossed_above_1d a b wait = crossed_above_1d_nb (a : list T) b wait /\
  rs_crossed_above_col a b wait = crossed_above_1d_nb a b wait.
Proof.
  intros T N L gap src nrows ncols a b wait.
  exact (conj (find_ranges_eq gap src nrows ncols) (conj (drawdowns_eq src nrows ncols) (conj (crossed_eq a b wait) (crossed_col_eq a b wait)))).
Qed.
Print Assumptions C97_records.

(** Positions of extremes: Rust always gives the first position of the best number; so
    does Numba unless every number is the worst infinity. *)
Theorem C97_argmin_argmax : forall T (N : Num T), OrdLaws N -> infinity_on_top N -> forall g (xs : list T),
  (forallb isnan xs = true -> rs_argmin_reduce xs = Err (ValueError "All-NaN slice encountered") /\ rs_argmax_reduce xs = Err (ValueError "All-NaN slice encountered")) /\
  (forallb isnan xs = false -> (exists p, rs_argmin_reduce xs = Ok p /\ first_extreme ltb xs p) /\ (exists p, rs_argmax_reduce xs = Ok p /\ first_extreme gtb xs p)) /\
  ((exists q, q < length xs /\ ltb (nth q xs nan) pinf = true) -> rs_argmin_reduce xs = argmin_reduce_nb g xs) /\
  ((exists q, q < length xs /\ gtb (nth q xs nan) ninf = true) -> rs_argmax_reduce xs = argmax_reduce_nb g xs).
Proof.
  intros T N L P g xs.
  exact (conj (fun H => conj (proj1 (argmin_ok xs) H) (proj1 (argmax_ok xs) H))
        (conj (fun H => conj (proj2 (argmin_ok xs) H) (proj2 (argmax_ok xs) H)) (arg_same P g xs))).
Qed.
Print Assumptions C97_argmin_argmax.

(** When the only number is infinite, Numba names the position of a missing value. *)
Theorem C97_argmin_infinite_refuted :
  rs_argmin_reduce [NaN; PInf] = Ok 1 /\ argmin_reduce_nb 0 [NaN; PInf] = Ok 0 /\
  rs_argmax_reduce [NaN; NInf] = Ok 1 /\ argmax_reduce_nb 0 [NaN; NInf] = Ok 0.
Proof. repeat split. Qed.
Print Assumptions C97_argmin_infinite_refuted.

Definition sample_rows : list XQ := [Fin 1; NaN; Fin 3; Fin 2; NaN; Fin 5; Fin 4; Fin 6].
Example C97_nonvacuous :
  c_order sample_rows 4 2 /\ column sample_rows 4 2 0 = [Fin 1; Fin 3; NaN; Fin 4] /\ column sample_rows 4 2 1 = [NaN; Fin 2; Fin 5; Fin 6] /\
  rs_ffill_2d_c sample_rows 4 2 = [Fin 1; NaN; Fin 3; Fin 2; Fin 3; Fin 5; Fin 4; Fin 6] /\
  rs_bfill_2d_c sample_rows 4 2 = [Fin 1; Fin 2; Fin 3; Fin 2; Fin 4; Fin 5; Fin 4; Fin 6] /\
  rs_fshift_2d_c sample_rows 4 2 1 (Fin 0) = [Fin 0; Fin 0; Fin 1; NaN; Fin 3; Fin 2; NaN; Fin 5] /\
  rs_rolling_std_2d_c (fun x => x) (Fin (1 # 1000)) sample_rows 4 2 2 1 0 = [Fin 0; NaN; Fin 1; Fin 0; Fin 0; Fin (9 # 4); Fin 0; Fin (1 # 4)] /\
  rs_ewm_mean_2d_c sample_rows 4 2 3 1 false = [Fin 1; NaN; Fin 2; Fin 2; Fin 2; Fin (7 # 2); Fin (10 # 3); Fin (19 # 4)] /\
  rs_find_ranges NaN sample_rows 4 2 =
    [mkRange 0 0 0 2 RangeClosed; mkRange 1 0 3 3 RangeOpen; mkRange 2 1 1 3 RangeOpen] /\
  exact_span (T := XQ) 3 /\ ewm_mean_1d_nb (column sample_rows 4 2 0) 3 (Some 1) false = Ok [Fin 1; Fin 2; Fin 2; Fin (10 # 3)] /\
  @exact_span f64 B64num 3.
Proof. repeat split; first [vm_compute; reflexivity | apply (exact_span_f64 3); vm_compute; reflexivity]. Qed.

(** ** C98: another algorithm, the same numbers in exact arithmetic *)

(** The rolling mean of the Rust engine is the mean of the numbers in the window, NaN
    when there are too few of them. *)
Theorem C98_rolling_mean : forall a w minp, no_infinity a -> or_default minp w <= w ->
  exists out, rs_rolling_mean a w minp = Ok out /\ length out = length a /\
  forall i, i < length a -> exists y, nth_error out i = Some y /\
    let l := vals (window w i a) in
    let m := Nat.max (or_default minp w) 1 in
    (length l < m -> y = NaN) /\ (m <= length l -> exists q, y = Fin q /\ (q == mean l)%Q).
Proof. exact rolling_mean_accepts. Qed.
Print Assumptions C98_rolling_mean.

(** Expanding mean and deviation. *)
Theorem C98_expanding_mean : forall a m, no_infinity a ->
  length (rs_expanding_mean_1d a m) = length a /\
  forall i, i < length a -> exists y, nth_error (rs_expanding_mean_1d a m) i = Some y /\
    let l := vals (firstn (S i) a) in
    (length l < Nat.max m 1 -> y = NaN) /\ (Nat.max m 1 <= length l -> exists q, y = Fin q /\ (q == mean l)%Q).
Proof. exact expanding_mean_rs. Qed.
Print Assumptions C98_expanding_mean.

Theorem C98_expanding_std : forall sqrt a m ddof, no_infinity a ->
  length (rs_expanding_std_1d sqrt a m ddof) = length a /\
  forall i, i < length a -> exists y, nth_error (rs_expanding_std_1d sqrt a m ddof) i = Some y /\
    let l := vals (firstn (S i) a) in
    (length l < m \/ length l <= ddof -> y = NaN) /\
    (m <= length l -> ddof < length l -> exists v, y = sqrt (Fin v) /\ (v == variance (Z.of_nat ddof) l)%Q).
Proof. exact expanding_std_rs. Qed.
Print Assumptions C98_expanding_std.

(** Whatever Numba returns, Rust returns the same numbers. *)
Theorem C98_agreement : forall a out, no_infinity a ->
  (forall w minp, 1 <= w -> rolling_mean_1d_nb a w minp = Ok out -> exists out', rs_rolling_mean a w minp = Ok out' /\ Forall2 agrees out' out) /\
  (forall m, expanding_mean_1d_nb a m = Ok out -> Forall2 agrees (rs_expanding_mean_1d a m) out) /\
  (forall sqrt tol m ddof, (forall p q, (p == q)%Q -> agrees (sqrt (Fin p)) (sqrt (Fin q))) ->
     expanding_std_1d_nb sqrt tol a m (Z.of_nat ddof) = Ok out -> Forall2 agrees (rs_expanding_std_1d sqrt a m ddof) out).
Proof.
  intros a out H.
  exact (conj (fun w minp Hw E => rolling_mean_agrees a w minp out H Hw E) (conj (fun m E => expanding_mean_agrees a m out H E)
    (fun sqrt tol m ddof Hs E => expanding_std_agrees sqrt tol a m ddof out H Hs E))).
Qed.
Print Assumptions C98_agreement.

(** A period longer than the series: Numba refuses it, Rust gives NaN. *)
Theorem C98_expanding_period_refuted :
  expanding_mean_1d_nb [Fin 1; Fin 2] 3 = Err (ValueError "minp must be <= window") /\ rs_expanding_mean_1d [Fin 1; Fin 2] 3 = [NaN; NaN].
Proof. split; reflexivity. Qed.
Print Assumptions C98_expanding_period_refuted.

(** No period and no number in the window: Numba divides by zero, Rust gives NaN. *)
Theorem C98_empty_window_refuted :
  rolling_mean_1d_nb [NaN; Fin 2] 1 (Some 0) = Err ZeroDivision /\ rs_rolling_mean [NaN; Fin 2] 1 (Some 0) = Ok [NaN; Fin 2].
Proof. split; reflexivity. Qed.
Print Assumptions C98_empty_window_refuted.

(** In doubles the two algorithms round differently: the rolling mean over one bar of
    2^53, 3, 1 ends with 0 in Numba and with 2 in Rust. *)
Theorem C98_rolling_mean_rounding_refuted :
  let a := [b64_ofZ (2 ^ 53); b64_ofZ 3; b64_ofZ 1] in
  match @rolling_mean_1d_nb _ B64num a 1 None, @rs_rolling_mean _ B64num a 1 None with
  | Ok nb, Ok rs => b64_eqb (nth 2 nb (@nan f64 B64num)) (b64_ofZ 0) && b64_eqb (nth 2 rs (@nan f64 B64num)) (b64_ofZ 2)
  | _, _ => false
  end = true.
Proof. vm_compute. reflexivity. Qed.
Print Assumptions C98_rolling_mean_rounding_refuted.

(** In doubles the Rust expanding variance of 2^30, 2^30+1, 2^30+2 is 0; the one Numba
    computes is the true one, 1. *)
Theorem C98_expanding_std_cancellation_refuted :
  let a := [b64_ofZ (2 ^ 30); b64_ofZ (2 ^ 30 + 1); b64_ofZ (2 ^ 30 + 2)] in
  match @expanding_std_1d_nb _ B64num (fun x => x) (@div _ B64num (b64_ofZ 1) (b64_ofZ 1000)) a 1 1 with
  | Ok nb => b64_eqb (nth 2 nb (@nan f64 B64num)) (b64_ofZ 1) && b64_eqb (nth 2 (@rs_expanding_std_1d _ B64num (fun x => x) a 1 1) (@nan f64 B64num)) (b64_ofZ 0)
  | _ => false
  end = true.
Proof. vm_compute. reflexivity. Qed.
Print Assumptions C98_expanding_std_cancellation_refuted.

Example C98_nonvacuous :
  let a := [Fin 1; Fin 3; NaN; Fin 8; Fin 2] in
  no_infinity a /\
  rs_rolling_mean a 3 (Some 2) = Ok [NaN; Fin 2; Fin 2; Fin (11 # 2); Fin 5] /\
  rolling_mean_1d_nb a 3 (Some 2) = Ok [NaN; Fin 2; Fin 2; Fin (11 # 2); Fin 5] /\
  rs_expanding_mean_1d a 1 = [Fin 1; Fin 2; Fin 2; Fin 4; Fin (7 # 2)] /\
  rs_expanding_std_1d (fun x => x) a 1 1 = [NaN; Fin 2; Fin 2; Fin 13; Fin (29 # 3)].
Proof. cbv zeta. split; [intros x Hx; repeat (destruct Hx as [<-|Hx]; [split; discriminate|]); destruct Hx|]. repeat split; vm_compute; reflexivity. Qed.
