(** * C99, C100: the statistics of columns, in both engines *)
From Coq Require Import String ZArith QArith Qround Bool List Arith.
From Verif Require Import Base Num B64 OrdLaws GenericNb GenericSpec ReturnsNb ReturnsSpec Reduce RustGeneric RustGenericSpec RatiosSpec RatiosLemmas
  Describe DescribeSpec DescribeLemmas DescribeLemmas2 DescribeLemmas3 DescribeLemmas4.
Import ListNotations.
Open Scope nat_scope.

(** ** C99: what the statistics of a column are, leaving NaN out *)

Theorem C99_sum : forall l c, no_infinity l -> exists y, sum_reduce_nb c l = Ok y /\ is_number y (sum (vals l)).
Proof. exact sum_run. Qed.
Print Assumptions C99_sum.

Theorem C99_product : forall l, no_infinity l -> is_number (np_nanprod l) (product (vals l)).
Proof. exact prod_run. Qed.
Print Assumptions C99_product.

(** Every cell of a cumulative sum (product) covers the numbers up to its row. *)
Theorem C99_cumulative : forall l i, no_infinity l -> i < length l ->
  (exists y, nth_error (Describe.nancumsum l) i = Some y /\ is_number y (sum (vals (firstn (S i) l)))) /\
  (exists y, nth_error (nancumprod l) i = Some y /\ is_number y (product (vals (firstn (S i) l)))).
Proof. intros l i H Hi. exact (conj (cumsum_run l i H Hi) (cumprod_run l i H Hi)). Qed.
Print Assumptions C99_cumulative.

Theorem C99_mean_std : forall sqrt root, computes_root sqrt root -> forall l ddof, no_infinity l ->
  (vals l = [] -> np_nanmean l = NaN) /\ (vals l <> [] -> is_number (np_nanmean l) (mean (vals l))) /\
  ((Z.of_nat (length (vals l)) <= ddof)%Z -> nanstd_1d_nb sqrt l ddof = NaN) /\
  (vals l <> [] -> (ddof < Z.of_nat (length (vals l)))%Z -> is_number (nanstd_1d_nb sqrt l ddof) (root (variance ddof (vals l)))).
Proof. exact mean_std_ok. Qed.
Print Assumptions C99_mean_std.

Theorem C99_median : forall l, no_infinity l ->
  (vals l = [] -> np_nanmedian l = NaN) /\ (vals l <> [] -> exists m, is_median (vals l) m /\ is_number (np_nanmedian l) m).
Proof. exact median_ok. Qed.
Print Assumptions C99_median.

(** The description of a column; without any number only the count is given. *)
Theorem C99_describe : forall sqrt root, computes_root sqrt root -> forall l perc ddof c,
  no_infinity l -> Forall (fun p => (0 <= p <= 1)%Q) perc -> vals l <> [] ->
  exists out, describe_reduce_nb sqrt xq_trunc (map Fin perc) ddof c l = Ok out /\ describes root perc ddof (vals l) out.
Proof. exact describe_nb_ok. Qed.
Print Assumptions C99_describe.

Theorem C99_describe_none : forall sqrt l perc ddof c, no_infinity l -> vals l = [] ->
  describe_reduce_nb sqrt xq_trunc perc ddof c l = Ok (Fin 0 :: repeat NaN (4 + length perc)).
Proof. exact describe_none. Qed.
Print Assumptions C99_describe_none.

Theorem C99_describe_refuses : forall sqrt l perc ddof c p, no_infinity l -> vals l <> [] -> In p perc -> ~ (0 <= p <= 1)%Q ->
  describe_reduce_nb sqrt xq_trunc (map Fin perc) ddof c l = Err (ValueError "Percentiles must be in the range [0, 100]").
Proof. exact describe_refuses. Qed.
Print Assumptions C99_describe_refuses.

Example C99_nonvacuous :
  let l := [Fin 4; NaN; Fin 1; Fin 3; Fin 2] in
  no_infinity l /\ vals l = [4; 1; 3; 2]%Q /\ (exists root, computes_root (fun x => x) root) /\
  sum_reduce_nb 0 l = Ok (Fin 10) /\ np_nanprod l = Fin 24 /\ np_nanmedian l = Fin (5 # 2) /\
  Describe.nancumsum l = [Fin 4; Fin 4; Fin 5; Fin 8; Fin 10] /\
  describe_reduce_nb (fun x => x) xq_trunc [Fin (1 # 4); Fin (1 # 2)] 1 0 l = Ok [Fin 4; Fin (5 # 2); Fin (5 # 3); Fin 1; Fin (7 # 4); Fin (5 # 2); Fin 4] /\
  describe_reduce_nb (fun x => x) xq_trunc [Fin (1 # 4)] 1 0 [NaN; NaN] = Ok [Fin 0; NaN; NaN; NaN; NaN; NaN].
Proof.
  cbv zeta. split; [intros x H; cbn in H; decompose [or] H; subst; try (split; discriminate); contradiction|].
  split; [reflexivity|]. split; [|vm_compute; repeat split; reflexivity].
  exists (fun q => q). split; [reflexivity|intros p q H; exact H].
Qed.

(** ** C100: the Rust engine *)

(** Bit for bit. *)
Theorem C100_sums : forall T (N : Num T) (l : list T) c,
  sum_reduce_nb c l = Ok (rs_nansum_1d l) /\ np_nanprod l = rs_nanprod_1d l /\
  Describe.nancumsum l = rs_nancumsum_1d l /\ nancumprod l = rs_nancumprod_1d l /\
  (exists n, count_reduce_nb c l = Ok n /\ rs_nancnt_1d l = Z.of_nat n) /\
  (forallb isnan l = false -> rs_nanmean_1d l = np_nanmean l) /\
  (forallb isnan l = true -> rs_nanmean_1d l = nan).
Proof.
  intros T N l c. exact (conj (nansum_eq l c) (conj eq_refl (conj eq_refl (conj eq_refl (conj (nancnt_eq l c) (conj (nanmean_eq l) (fun H => proj1 (nanmean_none l H)))))))).
Qed.
Print Assumptions C100_sums.

(** Arrays stored row by row give the same bits as their columns. *)
Theorem C100_rows : forall T (N : Num T) (src : list T) nrows ncols,
  rs_nansum_2d_c src nrows ncols = map rs_nansum_1d (columns_of src nrows ncols) /\
  rs_nanprod_2d_c src nrows ncols = map rs_nanprod_1d (columns_of src nrows ncols) /\
  rs_nancnt_2d_c src nrows ncols = map rs_nancnt_1d (columns_of src nrows ncols) /\
  rs_nanmean_2d_c src nrows ncols = map rs_nanmean_1d (columns_of src nrows ncols) /\
  by_column (fun src : list T => rs_nancumsum_2d_c src nrows ncols) Describe.nancumsum nrows ncols /\
  by_column (fun src : list T => rs_nancumprod_2d_c src nrows ncols) nancumprod nrows ncols.
Proof.
  intros T N src nrows ncols. destruct (sums_2d src nrows ncols) as (H1 & H2 & H3 & H4).
  exact (conj H1 (conj H2 (conj H3 (conj H4 (cums_2d nrows ncols))))).
Qed.
Print Assumptions C100_rows.

(** The least and the greatest: neither engine's is less than the other's, and one is NaN
    only if the other is. *)
Theorem C100_extremes : forall T (N : Num T), OrdLaws N -> forall c (l : list T), l <> [] ->
  (exists m, min_reduce_nb c l = Ok m /\ isnan m = isnan (rs_nanmin_1d l) /\ ltb m (rs_nanmin_1d l) = false /\ ltb (rs_nanmin_1d l) m = false) /\
  (exists m, max_reduce_nb c l = Ok m /\ isnan m = isnan (rs_nanmax_1d l) /\ ltb m (rs_nanmax_1d l) = false /\ ltb (rs_nanmax_1d l) m = false).
Proof. intros T N L. exact min_max_agree. Qed.
Print Assumptions C100_extremes.

(** The same numbers in exact arithmetic. *)
Theorem C100_median : forall l, no_infinity l -> agrees (rs_nanmedian_1d l) (np_nanmedian l).
Proof. exact rs_median_agrees. Qed.
Print Assumptions C100_median.

Theorem C100_std : forall sqrt root, computes_root sqrt root -> forall l ddof, no_infinity l ->
  agrees (rs_nanstd_1d sqrt l ddof) (nanstd_1d_nb sqrt l (Z.of_nat ddof)).
Proof. exact rs_std_agrees. Qed.
Print Assumptions C100_std.

Theorem C100_std_rows : forall sqrt root, computes_root sqrt root -> forall ddof src nrows ncols, no_infinity src ->
  Forall2 (fun y col => agrees y (nanstd_1d_nb sqrt col (Z.of_nat ddof))) (rs_nanstd_2d_c sqrt ddof src nrows ncols) (columns_of src nrows ncols).
Proof. exact rs_std_2d_agrees. Qed.
Print Assumptions C100_std_rows.

Theorem C100_describe : forall sqrt root, computes_root sqrt root -> forall floor ceil, rounds_down floor -> rounds_up ceil ->
  forall l perc ddof c, no_infinity l -> Forall (fun p => (0 <= p <= 1)%Q) perc ->
  exists rs nb, rs_describe_reduce_1d sqrt floor ceil (map Fin perc) ddof l = Ok rs /\
    describe_reduce_nb sqrt xq_trunc (map Fin perc) (Z.of_nat ddof) c l = Ok nb /\ Forall2 agrees rs nb.
Proof. exact rs_describe_agrees. Qed.
Print Assumptions C100_describe.

(** In double precision the variance of the same column depends on how its array is
    stored: 2^30, 2^30 + 1, 2^30 + 2 vary by 1 column by column and by 0 row by row. The
    square root is left out. *)
Theorem C100_std_layout_refuted :
  let a := map b64_ofZ [1073741824; 1073741825; 1073741826]%Z in
  b64_eqb (@rs_nanstd_1d _ B64num (fun x => x) a 1) (b64_ofZ 1) = true /\
  match @rs_nanstd_2d_c _ B64num (fun x => x) 1 a 3 1 with [y] => b64_eqb y (b64_ofZ 0) = true | _ => False end.
Proof. vm_compute. split; reflexivity. Qed.
Print Assumptions C100_std_layout_refuted.

(** What one engine refuses and the other does not. *)
Theorem C100_empty_refuted :
  (forall T (N : Num T) c, min_reduce_nb c (@nil T) = Err (ValueError "zero-size array reduction not possible") /\ rs_nanmin_1d (@nil T) = nan).
Proof. intros T N c. split; reflexivity. Qed.
Print Assumptions C100_empty_refuted.

Theorem C100_percentile_range_refuted :
  let floor y := match y with Fin q => Qfloor q | _ => 0%Z end in
  let ceil y := match y with Fin q => Qceiling q | _ => 0%Z end in
  let l := [Fin 1; Fin 2; Fin 4] in
  describe_reduce_nb (fun x => x) xq_trunc [Fin (- 1 # 4)] 1 0 l = Err (ValueError "Percentiles must be in the range [0, 100]") /\
  rs_describe_reduce_1d (fun x => x) floor ceil [Fin (- 1 # 4)] 1 l = Ok [Fin 3; Fin (7 # 3); Fin (7 # 3); Fin 1; Fin 1; Fin 4] /\
  rs_describe_reduce_1d (fun x => x) floor ceil [Fin (5 # 4)] 1 l = Err (IndexError "index out of bounds").
Proof. vm_compute. repeat split; reflexivity. Qed.
Print Assumptions C100_percentile_range_refuted.

Example C100_nonvacuous :
  let floor y := match y with Fin q => Qfloor q | _ => 0%Z end in
  let ceil y := match y with Fin q => Qceiling q | _ => 0%Z end in
  let l := [Fin 4; NaN; Fin 1; Fin 3; Fin 2] in
  rounds_down floor /\ rounds_up ceil /\ no_infinity l /\
  rs_nansum_1d l = Fin 10 /\ rs_nanmin_1d l = Fin 1 /\ rs_nanmax_1d l = Fin 4 /\ rs_nanmedian_1d l = Fin (5 # 2) /\
  rs_nanmean_2d_c [Fin 1; NaN; Fin 3; Fin 5] 2 2 = [Fin 2; Fin 5] /\
  rs_nanstd_2d_c (fun x => x) 1 [Fin 1; NaN; Fin 3; Fin 5] 2 2 = [Fin 2; NaN] /\
  rs_describe_reduce_1d (fun x => x) floor ceil [Fin (1 # 4); Fin (1 # 2)] 1 l = Ok [Fin 4; Fin (5 # 2); Fin (5 # 3); Fin 1; Fin (7 # 4); Fin (5 # 2); Fin 4].
Proof.
  cbv zeta. split; [intros y q (p & -> & H); apply Qfloor_comp, H|]. split; [intros y q (p & -> & H); apply Qceiling_comp, H|].
  split; [intros x H; cbn in H; decompose [or] H; subst; try (split; discriminate); contradiction|].
  vm_compute. repeat split; reflexivity.
Qed.
