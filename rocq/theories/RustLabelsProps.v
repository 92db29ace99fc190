(** * C102: the engine does not change the labels *)
From Coq Require Import String ZArith QArith Bool List Arith.
From Verif Require Import Base Num XQFacts OrdLaws B64 GenericNb GenericSpec RustGeneric RustGenericSpec LabelsNb LabelsSpec RustLabels RustLabelsSpec RustLabelsLemmas RustLabelsLemmas2 RustLabelsLemmas3.
Import ListNotations.
Local Open Scope nat_scope.

(** Local extrema: the same labels and the same errors, in any arithmetic. *)
Theorem C102_local_extrema : forall T (N : Num T) (close : list T) pos_th neg_th,
  rs_local_extrema_apply close pos_th neg_th = local_extrema_apply_nb close pos_th neg_th.
Proof. intros T N. exact local_extrema_eq. Qed.
Print Assumptions C102_local_extrema.

(** Trend labels in every mode, unless Numba raises for a division by zero; the
    binary modes never do. *)
Theorem C102_trends : forall T (N : Num T), one_infinity N -> forall (close : list T) pos_th neg_th mode,
  unless_zero_division (rs_trend_labels_apply close pos_th neg_th mode) (trend_labels_apply_nb close pos_th neg_th mode) /\
  (mode = Binary \/ mode = BinaryCont -> rs_trend_labels_apply close pos_th neg_th mode = trend_labels_apply_nb close pos_th neg_th mode).
Proof.
  intros T N H close pos_th neg_th mode. exact (conj (trend_eq H close pos_th neg_th mode) (trend_binary_eq H close pos_th neg_th mode)).
Qed.
Print Assumptions C102_trends.

(** Labels of given extrema, whatever they are. *)
Theorem C102_between_extrema : forall T (N : Num T), one_infinity N -> forall (close : list T) ext pos_th neg_th (normalize : bool), length ext = length close ->
  rs_bn_trend_labels close ext = bn_trend_labels_nb close ext /\
  rs_bn_cont_trend_labels close ext = bn_cont_trend_labels_nb close ext /\
  unless_zero_division (rs_bn_cont_sat_trend_labels close ext pos_th neg_th) (bn_cont_sat_trend_labels_nb close ext pos_th neg_th) /\
  unless_zero_division (rs_pct_trend_labels close ext normalize) (pct_trend_labels_nb close ext normalize).
Proof.
  intros T N H close ext pos_th neg_th normalize Hl.
  exact (conj (bn_eq close ext Hl) (conj (cont_eq H close ext Hl) (conj (sat_eq H close ext pos_th neg_th Hl) (pct_eq close ext normalize Hl)))).
Qed.
Print Assumptions C102_between_extrema.

(** The arithmetics of the model have one infinity of each sign. *)
Theorem C102_infinities : one_infinity XQnum /\ one_infinity B64num.
Proof. exact (conj xq_one_infinity b64_one_infinity). Qed.
Print Assumptions C102_infinities.

(** Where Numba raises for a division by zero, Rust answers with an infinite label. *)
Theorem C102_zero_price_refuted : exists close th,
  trend_labels_apply_nb close th th PctChange = Err ZeroDivision /\
  rs_trend_labels_apply close th th PctChange = Ok [PInf; Fin (-1#2); NaN].
Proof. exists [Fin 0; Fin 1; Fin (1#2)], (fun _ => Fin (1#10)). split; vm_compute; reflexivity. Qed.
Print Assumptions C102_zero_price_refuted.

(** Breakout labels, in any arithmetic. *)
Theorem C102_breakouts : forall T (N : Num T) (close : list T) window pos_th neg_th wait,
  rs_breakout_labels close window pos_th neg_th wait = map ofZ (breakout_labels_nb close window pos_th neg_th wait).
Proof. intros T N. exact breakout_eq. Qed.
Print Assumptions C102_breakouts.

(** Fixed labels, in any arithmetic. *)
Theorem C102_fixed : forall T (N : Num T) nrows ncols n,
  by_column (fun src => rs_fixed_labels_c src nrows ncols n) (fun a => fixed_labels_apply_nb a n) nrows ncols.
Proof. intros T N. exact fixed_ok. Qed.
Print Assumptions C102_fixed.

(** The extremes of the period ahead are equal as numbers. *)
Theorem C102_future_extremes : forall T (N : Num T), OrdLaws N -> one_infinity N ->
  forall (src : list T) nrows ncols w wait c, c_order src nrows ncols -> c < ncols -> 1 <= w ->
  exists lo hi, future_min_apply_nb (column src nrows ncols c) w wait = Ok lo /\ future_max_apply_nb (column src nrows ncols c) w wait = Ok hi /\
    Forall2 as_number (column (rs_future_min_c src nrows ncols w wait) nrows ncols c) lo /\
    Forall2 as_number (column (rs_future_max_c src nrows ncols w wait) nrows ncols c) hi.
Proof. intros T N L H. exact (future_extremes_agree H). Qed.
Print Assumptions C102_future_extremes.

(** Means and deviations of the period ahead, and labels from means, in exact arithmetic. *)
Theorem C102_future_mean : forall src nrows ncols w wait adjust c,
  c_order src nrows ncols -> c < ncols -> no_infinity (column src nrows ncols c) -> 1 <= w ->
  (exists out, future_mean_apply_nb (column src nrows ncols c) w false wait adjust = Ok out /\
     Forall2 agrees (column (rs_future_mean_c src nrows ncols w wait) nrows ncols c) out) /\
  (exists out, mean_labels_apply_nb (column src nrows ncols c) w false wait adjust = Ok out /\
     Forall2 agrees (column (rs_mean_labels_c src nrows ncols w wait) nrows ncols c) out).
Proof.
  intros src nrows ncols w wait adjust c H1 H2 H3 H4.
  exact (conj (future_mean_agrees src nrows ncols w wait adjust c H1 H2 H3 H4) (mean_labels_agrees src nrows ncols w wait adjust c H1 H2 H3 H4)).
Qed.
Print Assumptions C102_future_mean.

Theorem C102_future_std : forall sqrt tol src nrows ncols w wait ddof c out,
  c_order src nrows ncols -> c < ncols -> no_infinity (column src nrows ncols c) -> 1 <= w -> ddof < w ->
  (forall p q, (p == q)%Q -> agrees (sqrt (Fin p)) (sqrt (Fin q))) ->
  future_std_apply_nb sqrt tol (column src nrows ncols c) w wait (Z.of_nat ddof) = Ok out ->
  Forall2 agrees (column (rs_future_std_c sqrt src nrows ncols w wait ddof) nrows ncols c) out.
Proof. exact future_std_agrees. Qed.
Print Assumptions C102_future_std.

(** Not so in floating point: between 1000000000 and 1000000001 the variance is 1/4 by
    Numba, and by Rust on a strided array, but 0 by Rust on an array stored row by row. *)
Theorem C102_future_variance_float_refuted :
  let close := map b64_ofZ [1000000000; 1000000001]%Z in
  let quarter := b64_div (b64_ofZ 1) (b64_ofZ 4) in
  let tol := b64_div (b64_ofZ 1000) (b64_ofZ (2 ^ 52)) in
  let first_is := fun (out : list f64) v => b64_eqb (hd (@nan _ B64num) out) v = true in
  (exists out, @future_std_apply_nb _ B64num (fun v => v) tol close 2 0 0 = Ok out /\ first_is out quarter) /\
  (exists out, @rs_future_std_strided _ B64num (fun v => v) tol close 2 0 0 = Ok out /\ first_is out quarter) /\
  first_is (@rs_future_std_c _ B64num (fun v => v) close 2 1 2 0 0) (b64_ofZ 0).
Proof. exact float_variances. Qed.
Print Assumptions C102_future_variance_float_refuted.

(** Arrays that are not stored row by row, in any arithmetic. *)
Theorem C102_strided : forall T (N : Num T) sqrt tol (close : list T) w wait ddof,
  rs_future_min_strided close w wait = future_min_apply_nb close w wait /\
  rs_future_max_strided close w wait = future_max_apply_nb close w wait /\
  rs_future_std_strided sqrt tol close w wait ddof = future_std_apply_nb sqrt tol close w wait (Z.of_nat ddof).
Proof. intros T N. exact strided_eq. Qed.
Print Assumptions C102_strided.

(** Exponential means. *)
Theorem C102_ewm : forall T (N : Num T), OrdLaws N -> forall (close : list T) w wait adjust, exact_span (T := T) w ->
  (forall out, future_mean_apply_nb close w true wait adjust = Ok out -> rs_future_ewm_mean close w wait adjust = Ok out) /\
  (forall out, mean_labels_apply_nb close w true wait adjust = Ok out -> rs_mean_labels_ewm close w wait adjust = Ok out).
Proof. intros T N L. exact (ewm_labels_eq L). Qed.
Print Assumptions C102_ewm.

(** Two columns; the first has a gap. *)
Example C102_nonvacuous :
  let src := [Fin 1; Fin 100; Fin 4; Fin 105; Fin 2; Fin 120; NaN; Fin 110; Fin 3; Fin 90; Fin 6; Fin 99] in
  let th := fun _ : nat => Fin (1#10) in
  c_order src 6 2 /\ no_infinity (column src 6 2 0) /\ exact_span (T := XQ) 3 /\
  column (rs_future_min_c src 6 2 2 1) 6 2 0 = [Fin 2; NaN; NaN; Fin 3; NaN; NaN] /\
  column (rs_future_max_c src 6 2 2 1) 6 2 0 = [Fin 4; NaN; NaN; Fin 6; NaN; NaN] /\
  column (rs_future_mean_c src 6 2 2 0) 6 2 0 = [Fin (5#2); Fin 3; NaN; NaN; Fin (9#2); NaN] /\
  column (rs_mean_labels_c src 6 2 2 0) 6 2 0 = [Fin (3#2); Fin (-1#4); NaN; NaN; Fin (1#2); NaN] /\
  column (rs_future_std_c (fun x => x) src 6 2 2 1 0) 6 2 0 = [Fin 1; NaN; NaN; Fin (9#4); NaN; NaN] /\
  column (rs_fixed_labels_c src 6 2 1) 6 2 0 = [Fin 3; Fin (-1#2); NaN; NaN; Fin 1; NaN] /\
  rs_local_extrema_apply (column src 6 2 1) th th = Ok [(-1)%Z; 0%Z; 1%Z; 0%Z; (-1)%Z; 1%Z] /\
  rs_trend_labels_apply (column src 6 2 1) th th BinaryCont = Ok [Fin 1; Fin (3#4); Fin 0; Fin (1#3); Fin 1; NaN] /\
  rs_trend_labels_apply (column src 6 2 1) th th PctChangeNorm = Ok [Fin (1#6); Fin (1#8); Fin (-1#4); Fin (-2#11); Fin (1#11); NaN] /\
  rs_breakout_labels (column src 6 2 1) 2 th th 1 = [Fin 1; Fin 1; Fin (-1); Fin (-1); Fin 1; Fin 0].
Proof.
  cbv zeta. split; [reflexivity|]. split; [intros x Hx; cbn in Hx; decompose [or] Hx; subst; try tauto; split; discriminate|].
  repeat split; vm_compute; reflexivity.
Qed.
