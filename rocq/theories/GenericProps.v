(** * Properties of generic series functions (C25-C31)

    Statements and examples only; the vocabulary is in GenericSpec.v. *)
From Coq Require Import ZArith QArith Bool List Arith Lia.
From Verif Require Import Base Num B64 OrdLaws XQFacts GenericNb GenericSpec GenericLemmas GenericLemmas2 GenericLemmas3
  GenericLemmas4 GenericLemmas5 GenericLemmas6 GenericLemmas7.
Import ListNotations.
Local Open Scope nat_scope.

(** ** C25 *)
(** Forward fill: every bar gets the last number at or before it; before the
    first number the output has no number either. *)
Theorem C25_ffill : forall T (N : Num T) (a : list T),
  length (ffill_1d_nb a) = length a /\
  forall i, i < length a -> exists y, nth_error (ffill_1d_nb a) i = Some y /\
    (last_valid a i y \/ (isnan y = true /\ blank a 0 i)).
Proof.
  intros T N a. split; [apply ffill_length|]. intros i Hi.
  destruct (nth_error a i) as [x|] eqn:E; [exact (ffill_run a i x E)|apply nth_error_None in E; lia].
Qed.
Print Assumptions C25_ffill.

Theorem C25_bfill : forall T (N : Num T) (a : list T),
  length (bfill_1d_nb a) = length a /\
  forall i, i < length a -> exists y, nth_error (bfill_1d_nb a) i = Some y /\
    (first_valid a i y \/ (isnan y = true /\ blank a i (length a))).
Proof.
  intros T N a. split; [apply bfill_length|]. intros i Hi.
  destruct (nth_error a i) as [x|] eqn:E; [exact (bfill_run a i x E)|apply nth_error_None in E; lia].
Qed.
Print Assumptions C25_bfill.

Theorem C25_fill_twice : forall T (N : Num T) (a : list T),
  ffill_1d_nb (ffill_1d_nb a) = ffill_1d_nb a /\ bfill_1d_nb (bfill_1d_nb a) = bfill_1d_nb a.
Proof. intros T N a. exact (conj (ffill_idem a) (bfill_idem a)). Qed.
Print Assumptions C25_fill_twice.

(** Forward filling never looks ahead. *)
Theorem C25_ffill_causal : forall T (N : Num T) (a : list T) n,
  ffill_1d_nb (firstn n a) = firstn n (ffill_1d_nb a).
Proof. intros T N a n. exact (ffill_causal a n). Qed.
Print Assumptions C25_ffill_causal.

Theorem C25_shift : forall T (N : Num T) (a : list T) n v,
  fshift_1d_nb a n v = firstn (length a) (repeat v n ++ a) /\
  bshift_1d_nb a n v = skipn n a ++ repeat v (Nat.min n (length a)).
Proof. intros T N a n v. exact (conj (fshift_spec a n v) (bshift_spec a n v)). Qed.
Print Assumptions C25_shift.

Example C25_nonvacuous :
  let a := [NaN; Fin 1; NaN; NaN; Fin 2; NaN] in
  ffill_1d_nb a = [NaN; Fin 1; Fin 1; Fin 1; Fin 2; Fin 2] /\
  bfill_1d_nb a = [Fin 1; Fin 1; Fin 2; Fin 2; Fin 2; NaN] /\
  last_valid a 3 (Fin 1) /\ blank a 0 0 /\
  fshift_1d_nb a 2 (Fin 0) = [Fin 0; Fin 0; NaN; Fin 1; NaN; NaN] /\
  bshift_1d_nb a 4 (Fin 0) = [Fin 2; NaN; Fin 0; Fin 0; Fin 0; Fin 0].
Proof.
  cbv zeta. split; [reflexivity|]. split; [reflexivity|]. split; [|split; [|split; reflexivity]].
  - exists 1. split; [lia|]. split; [split; reflexivity|]. intros k x Hk [H1 H2].
    assert (k = 2 \/ k = 3) as [->| ->] by lia; cbn in H1; injection H1 as <-; discriminate H2.
  - intros k x Hk [H1 H2]. replace k with 0 in H1 by lia. cbn in H1. injection H1 as <-. discriminate H2.
Qed.

(** ** C26 *)
(** Any number format that orders its values consistently, NaN apart
    ([OrdLaws]; exact numbers and binary64 both do). *)
Theorem C26_rolling_min : forall T (N : Num T), OrdLaws N -> forall (a : list T) w mp out, 1 <= w ->
  rolling_min_1d_nb a w mp = Ok out ->
  length out = length a /\
  forall i, i < length a -> exists y, nth_error out i = Some y /\
    let l := numbers (window w i a) in
    let m := match mp with None => w | Some m => m end in
    (length l < m -> isnan y = true) /\
    (m <= length l -> l <> [] -> is_min y l) /\ (l = [] -> isnan y = true).
Proof. intros T N L. exact rolling_min_run. Qed.
Print Assumptions C26_rolling_min.

Theorem C26_rolling_max : forall T (N : Num T), OrdLaws N -> forall (a : list T) w mp out, 1 <= w ->
  rolling_max_1d_nb a w mp = Ok out ->
  length out = length a /\
  forall i, i < length a -> exists y, nth_error out i = Some y /\
    let l := numbers (window w i a) in
    let m := match mp with None => w | Some m => m end in
    (length l < m -> isnan y = true) /\
    (m <= length l -> l <> [] -> is_max y l) /\ (l = [] -> isnan y = true).
Proof. intros T N L. exact rolling_max_run. Qed.
Print Assumptions C26_rolling_max.

(** Exactly the calls with [minp <= window] are accepted. *)
Theorem C26_accepts : forall T (N : Num T) (a : list T) w mp,
  match mp with None => w | Some m => m end <= w <->
  (exists out, rolling_min_1d_nb a w mp = Ok out) /\ (exists out, rolling_max_1d_nb a w mp = Ok out).
Proof. intros T N. exact rolling_accepts. Qed.
Print Assumptions C26_accepts.

Theorem C26_rolling_mean : forall a w mp out, no_infinity a -> 1 <= w ->
  rolling_mean_1d_nb a w mp = Ok out ->
  length out = length a /\
  forall i, i < length a -> exists y, nth_error out i = Some y /\
    let l := vals (window w i a) in
    let m := match mp with None => w | Some m => m end in
    (length l < m -> y = NaN) /\
    (m <= length l -> exists q, y = Fin q /\ l <> [] /\ (q == mean l)%Q).
Proof. exact rolling_mean_run. Qed.
Print Assumptions C26_rolling_mean.

Theorem C26_mean_accepts : forall a w mp, no_infinity a -> 1 <= w ->
  let m := match mp with None => w | Some m => m end in
  1 <= m <= w -> exists out, rolling_mean_1d_nb a w mp = Ok out.
Proof. exact rolling_mean_accepts. Qed.
Print Assumptions C26_mean_accepts.

(** Cutting the series after [n] bars cuts the result after [n] bars. *)
Theorem C26_causal : forall T (N : Num T) (a : list T) n w mp out,
  (rolling_min_1d_nb a w mp = Ok out -> rolling_min_1d_nb (firstn n a) w mp = Ok (firstn n out)) /\
  (rolling_max_1d_nb a w mp = Ok out -> rolling_max_1d_nb (firstn n a) w mp = Ok (firstn n out)) /\
  (rolling_mean_1d_nb a w mp = Ok out -> rolling_mean_1d_nb (firstn n a) w mp = Ok (firstn n out)).
Proof.
  intros T N a n w mp out.
  exact (conj (rolling_min_causal a n w mp out) (conj (rolling_max_causal a n w mp out) (rolling_mean_causal a n w mp out))).
Qed.
Print Assumptions C26_causal.

(** With an infinite value in the data the incremental mean stays broken after
    the value has left the window: the mean of [1] comes out as NaN. *)
Theorem C26_mean_infinite_refuted :
  ~ (forall (a : list XQ) w out i q, 1 <= w -> rolling_mean_1d_nb a w None = Ok out ->
       window w i a = [Fin q] -> nth_error out i = Some (Fin q)).
Proof.
  intros H. specialize (H [PInf; Fin 1; Fin 1] 1 [PInf; NaN; NaN] 2 (1#1)).
  assert (C : nth_error [PInf; NaN; NaN] 2 = Some (Fin (1#1))); [|discriminate C].
  apply H; [lia|vm_compute; reflexivity|reflexivity].
Qed.
Print Assumptions C26_mean_infinite_refuted.

Example C26_nonvacuous :
  let a := [Fin 3; NaN; Fin 1; Fin 2; NaN; NaN; NaN; Fin 5] in
  no_infinity a /\
  rolling_min_1d_nb a 3 (Some 2) = Ok [NaN; NaN; Fin 1; Fin 1; Fin 1; NaN; NaN; NaN] /\
  rolling_max_1d_nb a 3 (Some 2) = Ok [NaN; NaN; Fin 3; Fin 2; Fin 2; NaN; NaN; NaN] /\
  rolling_mean_1d_nb a 3 (Some 2) = Ok [NaN; NaN; Fin 2; Fin (3#2); Fin (3#2); NaN; NaN; NaN] /\
  numbers (window 3 3 a) = [Fin 1; Fin 2].
Proof.
  cbv zeta. split; [|repeat split; vm_compute; reflexivity].
  intros x Hx. cbn in Hx. repeat destruct Hx as [<-|Hx]; try (split; discriminate). destruct Hx.
Qed.

Example C26_binary64 : OrdLaws B64num.
Proof. exact B64ord. Qed.

(** ** C27 *)
(** [sqrt] stands for the square root of the number format, whatever it is:
    its argument is the variance. [tol] is the stability threshold. *)
Theorem C27_rolling_std : forall sqrt tol a w mp ddof out, no_infinity a ->
  rolling_std_1d_nb sqrt tol a w mp ddof = Ok out ->
  length out = length a /\
  forall i, i < length a -> exists y, nth_error out i = Some y /\
    let l := vals (window w i a) in
    let m := Nat.max (match mp with None => w | Some m => m end) 1 in
    (length l < m \/ (Z.of_nat (length l) <= ddof)%Z -> y = NaN) /\
    (m <= length l -> (ddof < Z.of_nat (length l))%Z ->
       exists v, y = sqrt (Fin v) /\ (v == variance ddof l)%Q).
Proof. exact rolling_std_run. Qed.
Print Assumptions C27_rolling_std.

Theorem C27_accepts : forall T (N : Num T) sqrt tol (a : list T) w mp ddof,
  match mp with None => w | Some m => m end <= w -> exists out, rolling_std_1d_nb sqrt tol a w mp ddof = Ok out.
Proof. intros T N. exact rolling_std_accepts. Qed.
Print Assumptions C27_accepts.

Theorem C27_causal : forall T (N : Num T) sqrt tol (a : list T) n w mp ddof out,
  rolling_std_1d_nb sqrt tol a w mp ddof = Ok out ->
  rolling_std_1d_nb sqrt tol (firstn n a) w mp ddof = Ok (firstn n out).
Proof. intros T N. exact rolling_std_causal. Qed.
Print Assumptions C27_causal.

Example C27_nonvacuous :
  let a := [Fin 1; Fin 3; NaN; Fin 8; Fin 2; Fin 2] in
  rolling_std_1d_nb (fun x => x) (Fin (1#1000)) a 3 (Some 2) 1 = Ok [NaN; Fin 2; Fin 2; Fin (25#2); Fin 18; Fin 12] /\
  vals (window 3 5 a) = [8; 2; 2]%Q /\ (variance 1 [8; 2; 2] == 12)%Q.
Proof. cbv zeta. repeat split; vm_compute; reflexivity. Qed.

(** ** C28 *)
Theorem C28_expanding_min_max : forall T (N : Num T), OrdLaws N -> forall (a : list T) m i, i < length a ->
  exists lo hi, nth_error (expanding_min_1d_nb a m) i = Some lo /\ nth_error (expanding_max_1d_nb a m) i = Some hi /\
    let l := numbers (firstn (S i) a) in
    (length l < m \/ l = [] -> isnan lo = true /\ isnan hi = true) /\
    (m <= length l -> l <> [] -> is_min lo l /\ is_max hi l).
Proof.
  intros T N L a m i Hi.
  destruct (expanding_min_run a m i Hi) as (lo & Hlo & A1 & A2 & A3).
  destruct (expanding_max_run a m i Hi) as (hi & Hhi & B1 & B2 & B3).
  exists lo, hi. split; [exact Hlo|]. split; [exact Hhi|]. cbv zeta in *. split.
  - intros [H|H]; [exact (conj (A1 H) (B1 H))|exact (conj (A3 H) (B3 H))].
  - intros H1 H2. exact (conj (A2 H1 H2) (B2 H1 H2)).
Qed.
Print Assumptions C28_expanding_min_max.

Theorem C28_expanding_mean : forall a m out, no_infinity a -> expanding_mean_1d_nb a m = Ok out ->
  length out = length a /\
  forall i, i < length a -> exists y, nth_error out i = Some y /\
    let l := vals (firstn (S i) a) in
    (length l < m -> y = NaN) /\ (m <= length l -> exists q, y = Fin q /\ l <> [] /\ (q == mean l)%Q).
Proof. exact expanding_mean_run. Qed.
Print Assumptions C28_expanding_mean.

Theorem C28_expanding_std : forall sqrt tol a m ddof out, no_infinity a -> expanding_std_1d_nb sqrt tol a m ddof = Ok out ->
  length out = length a /\
  forall i, i < length a -> exists y, nth_error out i = Some y /\
    let l := vals (firstn (S i) a) in
    (length l < Nat.max m 1 \/ (Z.of_nat (length l) <= ddof)%Z -> y = NaN) /\
    (Nat.max m 1 <= length l -> (ddof < Z.of_nat (length l))%Z ->
       exists v, y = sqrt (Fin v) /\ (v == variance ddof l)%Q).
Proof. exact expanding_std_run. Qed.
Print Assumptions C28_expanding_std.

(** Adjusted exponential mean: a value [k] bars ago weighs (1 - 2/(span+1))^k. *)
Theorem C28_ewm_adjusted : forall span a mp out, 2 <= span -> no_infinity a ->
  ewm_mean_1d_nb a span mp true = Ok out ->
  length out = length a /\
  forall i, i < length a -> exists y, nth_error out i = Some y /\
    let hist := rev (firstn (S i) a) in
    let m := match mp with None => span | Some m => m end in
    (vals hist = [] \/ length (vals hist) < m -> y = NaN) /\
    (vals hist <> [] -> m <= length (vals hist) -> exists q, y = Fin q /\ (q == weighted_mean (1 - share span) hist)%Q).
Proof. exact ewm_adjusted. Qed.
Print Assumptions C28_ewm_adjusted.

(** Unadjusted: every new value moves the average by the share 2/(span+1). *)
Theorem C28_ewm_recursive : forall span a mp out, 1 <= span -> no_infinity a ->
  ewm_mean_1d_nb a span mp false = Ok out ->
  length out = length a /\
  forall i, i < length a -> exists y, nth_error out i = Some y /\
    let hist := rev (firstn (S i) a) in
    let m := match mp with None => span | Some m => m end in
    (vals hist = [] \/ length (vals hist) < m -> y = NaN) /\
    (vals hist <> [] -> m <= length (vals hist) ->
       exists q v k, y = Fin q /\ recursive_mean (share span) hist = Some (v, k) /\ (q == v)%Q).
Proof. exact ewm_recursive. Qed.
Print Assumptions C28_ewm_recursive.

Theorem C28_ewm_accepts : forall adjust span a mp, 1 <= span -> no_infinity a ->
  match mp with None => span | Some m => m end <= span ->
  exists out, ewm_mean_1d_nb a span mp adjust = Ok out.
Proof. exact ewm_accepts. Qed.
Print Assumptions C28_ewm_accepts.

Theorem C28_causal : forall T (N : Num T) (a : list T) n,
  (forall m, expanding_min_1d_nb (firstn n a) m = firstn n (expanding_min_1d_nb a m) /\
             expanding_max_1d_nb (firstn n a) m = firstn n (expanding_max_1d_nb a m)) /\
  (forall span mp adjust out, ewm_mean_1d_nb a span mp adjust = Ok out ->
             ewm_mean_1d_nb (firstn n a) span mp adjust = Ok (firstn n out)).
Proof.
  intros T N a n. exact (conj (fun m => expanding_causal a m n) (fun span mp adjust out => ewm_causal a span mp adjust n out)).
Qed.
Print Assumptions C28_causal.

Example C28_nonvacuous :
  let a := [NaN; Fin 4; NaN; Fin 1] in
  no_infinity a /\
  expanding_min_1d_nb a 1 = [NaN; Fin 4; Fin 4; Fin 1] /\
  expanding_mean_1d_nb a 1 = Ok [NaN; Fin 4; Fin 4; Fin (5#2)] /\
  (* span 3: share 1/2; values weigh 1 and 1/4: (1 + 4/4) / (5/4) = 8/5 *)
  ewm_mean_1d_nb a 3 (Some 0) true = Ok [NaN; Fin 4; Fin 4; Fin (8#5)] /\
  (weighted_mean (1 - share 3) (rev a) == 8#5)%Q /\
  (* recursive: the old average has decayed to 1/4, the new value has 1/2: (4/4 + 1/2) / (3/4) = 2 *)
  ewm_mean_1d_nb a 3 (Some 0) false = Ok [NaN; Fin 4; Fin 4; Fin 2].
Proof.
  cbv zeta. split; [|repeat split; vm_compute; reflexivity].
  intros x Hx. cbn in Hx. repeat destruct Hx as [<-|Hx]; try (split; discriminate). destruct Hx.
Qed.

(** ** C29 *)
(** The records are numbered in order, sorted by column and then by time; each
    is a maximal run of filled bars; two runs never touch; every filled bar
    belongs to one. *)
Theorem C29_ranges : forall T (N : Num T) (gap : T) (ts : list (list T)),
  let recs := find_ranges_nb gap ts in
  (forall j r, nth_error recs j = Some r -> rg_id r = j /\ exists c, nth_error ts (rg_col r) = Some c /\ maximal_run gap c r) /\
  (forall i j a b, i < j -> nth_error recs i = Some a -> nth_error recs j = Some b ->
      rg_col a < rg_col b \/ (rg_col a = rg_col b /\ (rg_end a < rg_start b)%Z)) /\
  (forall col c i, nth_error ts col = Some c -> filled gap c i ->
      exists r, In r recs /\ rg_col r = col /\ in_range r i = true).
Proof. intros T N. exact find_ranges_run. Qed.
Print Assumptions C29_ranges.

(** Converting the records back to a mask gives the mask of filled bars. *)
Theorem C29_mask : forall T (N : Num T) (gap : T) ts col c, nth_error ts col = Some c ->
  ranges_to_mask_nb (of_column col (find_ranges_nb gap ts)) (length c) = map (fun x => negb (is_gap gap x)) c.
Proof. intros T N. exact mask_run. Qed.
Print Assumptions C29_mask.

(** Coverage counts the filled bars, overlapping coverage is zero, and the
    duration of a record is its number of bars. *)
Theorem C29_coverage : forall T (N : Num T) (gap : T) ts col c, nth_error ts col = Some c ->
  range_coverage_nb (of_column col (find_ranges_nb gap ts)) (length c) false =
    length (filter (fun x => negb (is_gap gap x)) c) /\
  range_coverage_nb (of_column col (find_ranges_nb gap ts)) (length c) true = 0.
Proof. intros T N. exact coverage_run. Qed.
Print Assumptions C29_coverage.

Theorem C29_duration : forall T (N : Num T) (gap : T) c r, maximal_run gap c r ->
  range_duration_nb r = Z.of_nat (length (filter (in_range r) (seq 0 (length c)))).
Proof. intros T N. exact duration_run. Qed.
Print Assumptions C29_duration.

Example C29_nonvacuous :
  let c0 := [Fin 1; Fin 1; NaN; Fin 2; NaN] in
  let c1 := [NaN; NaN; NaN; Fin 5; Fin 6] in
  find_ranges_nb NaN [c0; c1] = [mkRange 0 0 0 2 RangeClosed; mkRange 1 0 3 4 RangeClosed; mkRange 2 1 3 4 RangeOpen] /\
  ranges_to_mask_nb (of_column 0 (find_ranges_nb NaN [c0; c1])) 5 = [true; true; false; true; false] /\
  maximal_run NaN c1 (mkRange 2 1 3 4 RangeOpen).
Proof.
  cbv zeta. split; [vm_compute; reflexivity|]. split; [vm_compute; reflexivity|].
  destruct (C29_ranges XQ XQnum NaN [[Fin 1; Fin 1; NaN; Fin 2; NaN]; [NaN; NaN; NaN; Fin 5; Fin 6]]) as (H & _).
  destruct (H 2 (mkRange 2 1 3 4 RangeOpen)) as (_ & c & Hc & HM); [vm_compute; reflexivity|].
  injection Hc as <-. exact HM.
Qed.

(** ** C30 *)
Theorem C30_drawdowns : forall T (N : Num T), OrdLaws N -> forall (ts : list (list T)),
  let recs := get_drawdowns_nb ts in
  (forall j r, nth_error recs j = Some r -> dd_id r = j /\ exists c, nth_error ts (dd_col r) = Some c /\ is_drawdown c r) /\
  (forall i j a b, i < j -> nth_error recs i = Some a -> nth_error recs j = Some b ->
      dd_col a < dd_col b \/ (dd_col a = dd_col b /\ (dd_end_idx a <= dd_peak_idx b)%Z)) /\
  (* completeness, when the last bar holds a number *)
  (forall col c i, nth_error ts col = Some c -> (exists y, holds c (length c - 1) y) -> under_water c i ->
      exists r, In r recs /\ dd_col r = col /\ (dd_peak_idx r < Z.of_nat i)%Z /\
        ((Z.of_nat i < dd_end_idx r)%Z \/ (dd_status r = Active /\ dd_end_idx r = Z.of_nat i))).
Proof. intros T N L. exact get_drawdowns_run. Qed.
Print Assumptions C30_drawdowns.

(** A NaN at the last bar makes the running drawdown disappear. *)
Theorem C30_last_bar_refuted :
  ~ (forall (c : list XQ) i, under_water c i -> exists r, In r (get_drawdowns_nb [c]) /\ (dd_peak_idx r < Z.of_nat i <= dd_end_idx r)%Z).
Proof.
  intros H. destruct (H [Fin 2; Fin 1; NaN] 1) as (r & Hin & _).
  - exists (Fin 1), 0, (Fin 2). repeat split. lia.
  - vm_compute in Hin. exact Hin.
Qed.
Print Assumptions C30_last_bar_refuted.

Example C30_nonvacuous :
  let c := [Fin 2; Fin 5; NaN; Fin 3; Fin 1; Fin 4; Fin 5; Fin 6; Fin 4; Fin 4] in
  get_drawdowns_nb [c] =
    [mkDD 0 0 1 2 4 6 (Fin 5) (Fin 1) (Fin 5) Recovered; mkDD 1 0 7 8 8 9 (Fin 6) (Fin 4) (Fin 4) Active] /\
  (exists y, holds c (length c - 1) y) /\ under_water c 9 /\ OrdLaws XQnum /\ OrdLaws B64num.
Proof.
  cbv zeta. split; [vm_compute; reflexivity|]. split; [exists (Fin 4); split; reflexivity|].
  split; [exists (Fin 4), 7, (Fin 6); repeat split; lia|]. exact (conj XQord B64ord).
Qed.

(** ** C31 *)
Theorem C31_crossed_above : forall T (N : Num T), OrdLaws N -> forall (a b : list T) wait i,
  i < length a -> length a = length b ->
  exists v, nth_error (crossed_above_1d_nb a b wait) i = Some v /\ (v = true <-> crosses a b wait i).
Proof. intros T N L. exact crossed_run. Qed.
Print Assumptions C31_crossed_above.

(** Crossing below is crossing above with the roles exchanged; the two never
    coincide. *)
Theorem C31_one_direction : forall T (N : Num T), OrdLaws N -> forall (a b : list T) wait wait' i,
  length a = length b ->
  nth_error (crossed_above_1d_nb a b wait) i = Some true ->
  nth_error (crossed_above_1d_nb b a wait') i = Some true -> False.
Proof.
  intros T N L a b wait wait' i HL H1 H2.
  assert (Hi : i < length a) by (rewrite <- (crossed_length a b wait HL); apply nth_error_Some; congruence).
  destruct (crossed_run a b wait i Hi HL) as (v & Hv & E). rewrite H1 in Hv. injection Hv as <-.
  destruct (crossed_run b a wait' i ltac:(lia) (eq_sym HL)) as (v' & Hv' & E'). rewrite H2 in Hv'. injection Hv' as <-.
  exact (crosses_asym a b wait wait' i (proj1 E eq_refl) (proj1 E' eq_refl)).
Qed.
Print Assumptions C31_one_direction.

Theorem C31_causal : forall T (N : Num T) (a b : list T) wait n,
  crossed_above_1d_nb (firstn n a) (firstn n b) wait = firstn n (crossed_above_1d_nb a b wait).
Proof. intros T N. exact crossed_causal. Qed.
Print Assumptions C31_causal.

Example C31_nonvacuous :
  let a := [Fin 1; Fin 3; Fin 2; Fin 4; NaN; Fin 5; Fin 1; Fin 3; Fin 3] in
  let b := [Fin 2; Fin 2; Fin 2; Fin 2; Fin 2; Fin 2; Fin 2; Fin 2; Fin 2] in
  crossed_above_1d_nb a b 0 = [false; true; false; true; false; false; false; true; false] /\
  crossed_above_1d_nb a b 1 = [false; false; false; false; false; false; false; false; true] /\
  crossed_above_1d_nb b a 0 = [false; false; false; false; false; false; true; false; false].
Proof. cbv zeta. repeat split; vm_compute; reflexivity. Qed.
