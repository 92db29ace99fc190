(** * Properties C45, C46, C64, C65 *)
From Coq Require Import String ZArith QArith Qabs Bool List Arith Lia.
From Verif Require Import Base Num B64 XQFacts OrdLaws GenericNb GenericSpec GenericLemmas GenericLemmas2 ReturnsNb ReturnsSpec LabelsNb LabelsSpec
  LabelsLemmas LabelsLemmas2 LabelsLemmas3 LabelsLemmas4.
Import ListNotations.
Local Open Scope string_scope.
Local Open Scope list_scope.
Local Open Scope nat_scope.

(** ** C45: local extrema. For any numbers whose comparisons are those of
    exact numbers or of IEEE doubles ([OrdLaws], instances [XQord], [B64ord]). *)

(** Labels are -1 (trough), 0, 1 (peak), one per bar; neighbouring extrema
    are of opposite kind, at least the threshold of the earlier one apart, and
    no bar between them reaches the later one. *)
Theorem C45_extrema_alternate : forall T (N : Num T), OrdLaws N -> forall (close : list T) pos_th neg_th ext,
  local_extrema_apply_nb close pos_th neg_th = Ok ext ->
  length ext = length close /\
  (forall i, nth i ext 0%Z = (-1)%Z \/ nth i ext 0%Z = 0%Z \/ nth i ext 0%Z = 1%Z) /\
  forall p q, adjacent ext p q ->
    nth q ext 0%Z = (- nth p ext 0)%Z /\
    (nth p ext 0%Z = (-1)%Z -> up_by close (pos_th p) p q = true /\
       forall i, p < i < q -> leb (price close q) (price close i) = false) /\
    (nth p ext 0%Z = 1%Z -> down_by close (neg_th p) p q = true /\
       forall i, p < i < q -> leb (price close i) (price close q) = false).
Proof.
  intros T N L close pos_th neg_th ext H. destruct (extrema_final close pos_th neg_th ext H) as [HM _ _].
  exact (conj (m_len _ _ _ _ HM) (conj (m_vals _ _ _ _ HM) (m_adj _ _ _ _ HM))).
Qed.
Print Assumptions C45_extrema_alternate.

(** Nothing is missed: without extrema no bar is a threshold away from the
    first bar; otherwise the first bar is one, and after the last one no bar
    goes beyond it nor a threshold away from it. *)
Theorem C45_no_extremum_missed : forall T (N : Num T), OrdLaws N -> forall (close : list T) pos_th neg_th ext,
  local_extrema_apply_nb close pos_th neg_th = Ok ext ->
  ((forall i, nth i ext 0%Z = 0%Z) -> forall i, 0 < i < length close ->
     up_by close (pos_th 0) 0 i = false /\ down_by close (neg_th 0) 0 i = false) /\
  (forall i, nth i ext 0%Z <> 0%Z -> nth 0 ext 0%Z <> 0%Z) /\
  (forall q, last_label ext q -> forall i, q < i < length close ->
     (nth q ext 0%Z = 1%Z -> ltb (price close q) (price close i) = false /\ down_by close (neg_th q) q i = false) /\
     (nth q ext 0%Z = (-1)%Z -> ltb (price close i) (price close q) = false /\ up_by close (pos_th q) q i = false)).
Proof.
  intros T N L close pos_th neg_th ext H. destruct (extrema_final close pos_th neg_th ext H) as [HM H1 H2].
  exact (conj H1 (conj (m_first _ _ _ _ HM) H2)).
Qed.
Print Assumptions C45_no_extremum_missed.

(** Thresholds of zero are rejected, others accepted. *)
Theorem C45_thresholds : forall T (N : Num T) (close : list T) pos_th neg_th,
  ((forall i, i < length close -> eqb (abs (pos_th i)) zero = false /\ eqb (abs (neg_th i)) zero = false) ->
     exists ext, local_extrema_apply_nb close pos_th neg_th = Ok ext) /\
  (1 < length close -> eqb (abs (pos_th 0)) zero = true ->
     local_extrema_apply_nb close pos_th neg_th = Err (ValueError "Positive threshold cannot be 0")) /\
  (1 < length close -> eqb (abs (pos_th 0)) zero = false -> eqb (abs (neg_th 0)) zero = true ->
     local_extrema_apply_nb close pos_th neg_th = Err (ValueError "Negative threshold cannot be 0")).
Proof.
  intros T N close pos_th neg_th.
  exact (conj (extrema_accepts close pos_th neg_th) (conj (extrema_zero_pos close pos_th neg_th) (extrema_zero_neg close pos_th neg_th))).
Qed.
Print Assumptions C45_thresholds.

Example C45_nonvacuous :
  let close := [Fin 100; Fin 103; Fin 110; NaN; Fin 108; Fin 99; Fin 95; Fin 104; Fin 105; Fin 102] in
  let th := fun _ : nat => Fin (1#10) in
  local_extrema_apply_nb close th th = Ok [(-1)%Z; 0%Z; 1%Z; 0%Z; 0%Z; 0%Z; (-1)%Z; 0%Z; 1%Z; 0%Z] /\
  adjacent [(-1)%Z; 0%Z; 1%Z; 0%Z; 0%Z; 0%Z; (-1)%Z; 0%Z; 1%Z; 0%Z] 2 6 /\
  last_label [(-1)%Z; 0%Z; 1%Z; 0%Z; 0%Z; 0%Z; (-1)%Z; 0%Z; 1%Z; 0%Z] 8.
Proof.
  cbv zeta. split; [vm_compute; reflexivity|]. split.
  - split; [cbn; lia|]. split; [cbn; lia|]. split; [cbn; lia|].
    intros i Hi. do 6 (destruct i as [|i]; [cbn; lia|]). lia.
  - split; [cbn; lia|]. split; [cbn; lia|]. intros i Hi. do 10 (destruct i as [|i]; [cbn; lia|]). destruct i; reflexivity.
Qed.

(** ** C46: breakout labels *)
(** The label tells which threshold the prices of the coming period reach
    first: none 0, the upper one 1, the lower one (and not the upper one at the
    same bar) -1. A threshold of zero is switched off. *)
Theorem C46_first_breakout : forall T (N : Num T) (close : list T) pos_th neg_th window wait i, i < length close ->
  exists r, nth_error (breakout_labels_nb close window pos_th neg_th wait) i = Some r /\
  let up j := ltb zero (abs (pos_th i)) && up_by close (pos_th i) i j in
  let down j := ltb zero (abs (neg_th i)) && down_by close (neg_th i) i j in
  let ahead j := in_period close window wait i j in
  (r = 1%Z \/ r = (-1)%Z \/ r = 0%Z) /\
  (r = 1%Z <-> exists j, ahead j /\ up j = true /\ forall k, ahead k -> k < j -> up k = false /\ down k = false) /\
  (r = (-1)%Z <-> exists j, ahead j /\ down j = true /\ up j = false /\ forall k, ahead k -> k < j -> up k = false /\ down k = false) /\
  (r = 0%Z <-> forall j, ahead j -> up j = false /\ down j = false).
Proof. intros T N. exact breakout_run. Qed.
Print Assumptions C46_first_breakout.

Theorem C46_one_label_per_bar : forall T (N : Num T) (close : list T) pos_th neg_th window wait,
  length (breakout_labels_nb close window pos_th neg_th wait) = length close.
Proof. intros T N close pos_th neg_th window wait. exact (breakout_length close pos_th neg_th window wait). Qed.
Print Assumptions C46_one_label_per_bar.

Example C46_nonvacuous :
  let close := [Fin 100; Fin 105; Fin 111; Fin 89; Fin 90; Fin 90] in
  let th := fun _ : nat => Fin (1#10) in
  breakout_labels_nb close 2 th th 1 = [1%Z; (-1)%Z; (-1)%Z; 0%Z; 0%Z; 0%Z] /\
  breakout_labels_nb close 3 th (fun _ => Fin 0) 2 = [1%Z; 0%Z; 0%Z; 0%Z; 0%Z; 0%Z].
Proof. split; vm_compute; reflexivity. Qed.

(** ** C64: trend labels of positive prices *)
(** The bars from one extremum (included) to the next (excluded) are labelled,
    the others get NaN. Binary: 1 on the way from a trough to the next peak, 0
    from a peak to the next trough. *)
Theorem C64_binary : forall close pos_th neg_th ext, positive_prices close -> real_thresholds pos_th -> real_thresholds neg_th ->
  local_extrema_apply_nb close pos_th neg_th = Ok ext ->
  exists out, trend_labels_apply_nb close pos_th neg_th Binary = Ok out /\
    length out = length close /\
    (forall i p q, covers ext p q i ->
       (nth p ext 0%Z = (-1)%Z -> nth i out NaN = Fin 1) /\ (nth p ext 0%Z = 1%Z -> nth i out NaN = Fin 0)) /\
    (forall i, (forall p q, ~ covers ext p q i) -> nth i out NaN = NaN).
Proof.
  intros close pos_th neg_th ext H1 H2 H3 H4. unfold trend_labels_apply_nb. rewrite H4. exact (binary_run close pos_th neg_th ext H1 H2 H3 H4).
Qed.
Print Assumptions C64_binary.

(** Continuous: 1 at the lowest and 0 at the highest price of the stretch,
    linear between. *)
Theorem C64_continuous : forall close pos_th neg_th ext, positive_prices close -> real_thresholds pos_th -> real_thresholds neg_th ->
  local_extrema_apply_nb close pos_th neg_th = Ok ext ->
  exists out, trend_labels_apply_nb close pos_th neg_th BinaryCont = Ok out /\
    length out = length close /\
    (forall i p q, covers ext p q i -> exists c lo hi, price_is close i c /\
       (exists j, p <= j <= q /\ price_is close j lo) /\ (exists j, p <= j <= q /\ price_is close j hi) /\
       (forall j d, p <= j <= q -> price_is close j d -> (lo <= d <= hi)%Q) /\ (lo < hi)%Q /\
       is_number (nth i out NaN) (1 - (c - lo) / (hi - lo))) /\
    (forall i, (forall p q, ~ covers ext p q i) -> nth i out NaN = NaN).
Proof.
  intros close pos_th neg_th ext H1 H2 H3 H4. unfold trend_labels_apply_nb. rewrite H4. exact (cont_run close pos_th neg_th ext H1 H2 H3 H4).
Qed.
Print Assumptions C64_continuous.

(** Continuous saturated: 1 (0) while the next peak (trough) is at least the
    threshold away, linear in the price otherwise, always between 0 and 1. *)
Theorem C64_saturated : forall close pos_th neg_th ext, positive_prices close -> real_thresholds pos_th -> real_thresholds neg_th ->
  local_extrema_apply_nb close pos_th neg_th = Ok ext ->
  exists out, trend_labels_apply_nb close pos_th neg_th BinaryContSat = Ok out /\
    length out = length close /\
    (forall i p q, covers ext p q i -> exists c b tp tn, price_is close i c /\ price_is close q b /\
       pos_th p = Fin tp /\ neg_th p = Fin tn /\
       (nth p ext 0%Z = (-1)%Z ->
          ((c * (1 + Qabs tp) <= b)%Q -> is_number (nth i out NaN) 1) /\
          ((b < c * (1 + Qabs tp))%Q -> let s := (b / (1 + Qabs tp))%Q in is_number (nth i out NaN) (1 - (c - s) / (b - s)))) /\
       (nth p ext 0%Z = 1%Z ->
          ((b <= c * (1 - Qabs tn))%Q -> is_number (nth i out NaN) 0) /\
          ((c * (1 - Qabs tn) < b)%Q -> let s := (b / (1 - Qabs tn))%Q in is_number (nth i out NaN) (1 - (c - b) / (s - b)))) /\
       exists v, is_number (nth i out NaN) v /\ (0 <= v <= 1)%Q) /\
    (forall i, (forall p q, ~ covers ext p q i) -> nth i out NaN = NaN).
Proof.
  intros close pos_th neg_th ext H1 H2 H3 H4. unfold trend_labels_apply_nb. rewrite H4. exact (sat_run close pos_th neg_th ext H1 H2 H3 H4).
Qed.
Print Assumptions C64_saturated.

(** Percentage change to the next extremum; normalised, rises are relative
    to the peak. *)
Theorem C64_percentage : forall close pos_th neg_th ext (normalize : bool), positive_prices close -> real_thresholds pos_th -> real_thresholds neg_th ->
  local_extrema_apply_nb close pos_th neg_th = Ok ext ->
  exists out, trend_labels_apply_nb close pos_th neg_th (if normalize then PctChangeNorm else PctChange) = Ok out /\
    length out = length close /\
    (forall i p q, covers ext p q i -> exists c b, price_is close i c /\ price_is close q b /\
       is_number (nth i out NaN) ((b - c) / (if normalize && Z.eqb (nth p ext 0%Z) (-1) then b else c))) /\
    (forall i, (forall p q, ~ covers ext p q i) -> nth i out NaN = NaN).
Proof.
  intros close pos_th neg_th ext normalize H1 H2 H3 H4. unfold trend_labels_apply_nb. rewrite H4.
  destruct normalize; [exact (pct_run close pos_th neg_th ext H1 H2 H3 H4 true)|exact (pct_run close pos_th neg_th ext H1 H2 H3 H4 false)].
Qed.
Print Assumptions C64_percentage.

Example C64_nonvacuous :
  let close := [Fin 100; Fin 105; Fin 120; Fin 110; Fin 90; Fin 99; Fin 98] in
  let th := fun _ : nat => Fin (1#10) in
  positive_prices close /\ real_thresholds th /\
  local_extrema_apply_nb close th th = Ok [(-1)%Z; 0%Z; 1%Z; 0%Z; (-1)%Z; 1%Z; 0%Z] /\
  trend_labels_apply_nb close th th Binary = Ok [Fin 1; Fin 1; Fin 0; Fin 0; Fin 1; NaN; NaN] /\
  trend_labels_apply_nb close th th BinaryCont = Ok [Fin 1; Fin (3#4); Fin 0; Fin (1#3); Fin 1; NaN; NaN] /\
  trend_labels_apply_nb close th th BinaryContSat = Ok [Fin 1; Fin 1; Fin 0; Fin 0; Fin 1; NaN; NaN] /\
  trend_labels_apply_nb close th th PctChangeNorm = Ok [Fin (1#6); Fin (1#8); Fin (-1#4); Fin (-2#11); Fin (1#11); NaN; NaN].
Proof.
  cbv zeta. split; [intros x Hx; cbn in Hx; decompose [or] Hx; subst; try tauto; eexists; split; reflexivity|].
  split; [intros i; exists (1#10)%Q; split; [reflexivity|discriminate]|].
  repeat split; vm_compute; reflexivity.
Qed.

(** ** C65: statistics of the period ahead *)
(** The value at bar [i] describes exactly the [window] bars starting [wait]
    bars ahead; NaN when they are not all there. *)
Theorem C65_future_extremes : forall T (N : Num T), OrdLaws N -> forall (close : list T) w wait, 1 <= w ->
  exists lo hi, future_min_apply_nb close w wait = Ok lo /\ future_max_apply_nb close w wait = Ok hi /\
  length lo = length close /\ length hi = length close /\
  forall i, i < length close -> exists x y, nth_error lo i = Some x /\ nth_error hi i = Some y /\
    let l := next_bars w wait i close in
    (length l = w -> (forall z, In z l -> isnan z = false) -> is_min x l /\ is_max y l) /\
    (length l < w \/ (exists z, In z l /\ isnan z = true) -> isnan x = true /\ isnan y = true).
Proof. intros T N L close w wait Hw. exact (future_extremes close w wait Hw). Qed.
Print Assumptions C65_future_extremes.

Theorem C65_future_mean : forall close w wait adjust, no_infinity close -> 1 <= w ->
  exists out, future_mean_apply_nb close w false wait adjust = Ok out /\
  length out = length close /\
  forall i, i < length close -> exists y, nth_error out i = Some y /\
    let l := vals (next_bars w wait i close) in
    (length l < w -> y = NaN) /\ (length l = w -> is_number y (mean l)).
Proof.
  intros close w wait adjust H1 H2. destruct (future_mean_accepts close w wait adjust H1 H2) as [out E].
  exact (ex_intro _ out (conj E (future_mean_run close w wait adjust out H1 H2 E))).
Qed.
Print Assumptions C65_future_mean.

Theorem C65_future_std : forall sqrt tol close w wait ddof out, no_infinity close -> 1 <= w -> (ddof < Z.of_nat w)%Z ->
  future_std_apply_nb sqrt tol close w wait ddof = Ok out ->
  length out = length close /\
  forall i, i < length close -> exists y, nth_error out i = Some y /\
    let l := vals (next_bars w wait i close) in
    (length l < w -> y = NaN) /\ (length l = w -> exists v, y = sqrt (Fin v) /\ (v == variance ddof l)%Q).
Proof. exact future_std_run. Qed.
Print Assumptions C65_future_std.

(** Relative labels: the change from the current price to the price [n] bars
    ahead, or to the mean of the period ahead. *)
Theorem C65_fixed_labels : forall close n i c, price_is close i c -> ~ (c == 0)%Q ->
  length (fixed_labels_apply_nb close n) = length close /\
  exists y, nth_error (fixed_labels_apply_nb close n) i = Some y /\
    (length close <= i + n -> y = NaN) /\
    (forall d, price_is close (i + n) d -> is_number y ((d - c) / c)).
Proof. exact fixed_run. Qed.
Print Assumptions C65_fixed_labels.

Theorem C65_mean_labels : forall close w wait adjust out, no_infinity close -> 1 <= w ->
  mean_labels_apply_nb close w false wait adjust = Ok out ->
  length out = length close /\
  forall i c, price_is close i c -> ~ (c == 0)%Q -> exists y, nth_error out i = Some y /\
    let l := vals (next_bars w wait i close) in
    (length l < w -> y = NaN) /\ (length l = w -> is_number y ((mean l - c) / c)).
Proof. exact mean_labels_run. Qed.
Print Assumptions C65_mean_labels.

(** Symmetric thresholds undo each other: a fall by [x] followed by a rise by
    the symmetric threshold leads back, and conversely. *)
Theorem C65_symmetric_thresholds : forall x,
  (~ x == 1 -> exists p, get_symmetric_pos_th_nb (Fin x) = Ok p /\ exists v, is_number p v /\ (1 - x) * (1 + v) == 1)%Q /\
  (~ x == -1 -> exists p, get_symmetric_neg_th_nb (Fin x) = Ok p /\ exists v, is_number p v /\ (1 + x) * (1 - v) == 1)%Q.
Proof. exact symmetric_run. Qed.
Print Assumptions C65_symmetric_thresholds.

Example C65_nonvacuous :
  let close := [Fin 1; Fin 4; Fin 2; NaN; Fin 3; Fin 6] in
  no_infinity close /\
  future_min_apply_nb close 2 1 = Ok [Fin 2; NaN; NaN; Fin 3; NaN; NaN] /\
  future_max_apply_nb close 2 1 = Ok [Fin 4; NaN; NaN; Fin 6; NaN; NaN] /\
  future_mean_apply_nb close 2 false 0 false = Ok [Fin (5#2); Fin 3; NaN; NaN; Fin (9#2); NaN] /\
  future_std_apply_nb (fun x => x) (Fin (1#1000)) close 2 1 0 = Ok [Fin 1; NaN; NaN; Fin (9#4); NaN; NaN] /\
  fixed_labels_apply_nb close 1 = [Fin 3; Fin (-1#2); NaN; NaN; Fin 1; NaN] /\
  get_symmetric_pos_th_nb (Fin (1#2)) = Ok (Fin 1).
Proof.
  cbv zeta. split; [intros x Hx; cbn in Hx; decompose [or] Hx; subst; try tauto; split; discriminate|].
  repeat split; vm_compute; reflexivity.
Qed.
