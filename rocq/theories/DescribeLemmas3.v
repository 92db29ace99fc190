(** * Lemmas about the statistics of columns: both engines *)
From Coq Require Import String ZArith QArith Qabs Qround Bool List Arith Lia Lqa Sorting Permutation.
From Verif Require Import Base Num XQFacts OrdLaws GenericNb GenericSpec GenericLemmas GenericLemmas2
  ReturnsNb ReturnsSpec ReturnsLemmas ReturnsLemmas2 ReturnsLemmas3 ReturnsLemmas4 Reduce ReduceLemmas ReduceLemmas2 RustGeneric RustGenericSpec RustGenericLemmas RustGenericLemmas4
  RatiosSpec RatiosLemmas Describe DescribeSpec DescribeLemmas DescribeLemmas2.
Import ListNotations.
Local Open Scope list_scope.
Local Open Scope nat_scope.

Section Bits.
  Context {T : Type} {N : Num T}.

  Lemma fold_numbers : forall S (f : S -> T -> S) (l : list T) s,
    fold_left f (numbers l) s = fold_left (fun s x => if isnan x then s else f s x) l s.
  Proof. intros S f. induction l as [|x l IH]; intros s; [reflexivity|]. unfold numbers. cbn [filter fold_left]. fold (numbers l). destruct (isnan x); cbn [negb]; [apply IH|]. cbn [fold_left]. apply IH. Qed.
  Lemma nansum_eq : forall (l : list T) c, sum_reduce_nb c l = Ok (rs_nansum_1d l).
  Proof. intros l c. unfold sum_reduce_nb, rs_nansum_1d. now rewrite fold_numbers. Qed.
  Lemma nancnt_eq : forall (l : list T) c, exists n, count_reduce_nb c l = Ok n /\ rs_nancnt_1d l = Z.of_nat n.
  Proof. intros l c. exists (length (numbers l)). split; reflexivity. Qed.
  Lemma nanmean_step_fold : forall (l : list T) s n,
    fold_left rs_nanmean_step l (s, n) = (fold_left (fun c v => if isnan v then c else add c v) l s, n + length (numbers l)).
  Proof.
    induction l as [|x l IH]; intros s n; cbn [fold_left]; [unfold numbers; cbn; f_equal; lia|].
    unfold rs_nanmean_step at 2. unfold numbers. cbn [filter]. fold (numbers l). destruct (isnan x); cbn [negb fst snd]; rewrite IH; f_equal. cbn [length]. lia.
  Qed.
  Lemma nanmean_eq : forall l : list T, forallb isnan l = false -> rs_nanmean_1d l = np_nanmean l.
  Proof.
    intros l H. unfold rs_nanmean_1d, rs_nanmean_end. rewrite nanmean_step_fold. cbn [fst snd plus].
    assert (Hn : length (numbers l) <> 0).
    { intros E. apply length_zero_iff_nil in E. apply not_true_iff_false in H. apply H. apply forallb_forall. intros x Hx.
      destruct (isnan x) eqn:Ex; [reflexivity|]. assert (Hin : In x (numbers l)) by (apply filter_In; split; [exact Hx|now rewrite Ex]). rewrite E in Hin. destruct Hin. }
    rewrite (proj2 (Nat.eqb_neq _ _) Hn). reflexivity.
  Qed.
  Lemma nanmean_none : forall l : list T, forallb isnan l = true -> rs_nanmean_1d l = nan /\ np_nanmean l = div zero (ofZ 0).
  Proof.
    intros l H. assert (E : numbers l = []).
    { rewrite forallb_forall in H. unfold numbers. induction l as [|x l IH]; [reflexivity|]. cbn [filter]. rewrite H by now left. cbn [negb]. apply IH. intros y Hy. apply H. now right. }
    unfold rs_nanmean_1d, rs_nanmean_end. rewrite nanmean_step_fold, E. split; [reflexivity|].
    unfold np_nanmean. rewrite <- (fold_numbers _ add), E. unfold count_numbers. fold (numbers l). rewrite E. reflexivity.
  Qed.

  (** Rows at once *)
  Lemma reduce_rows_from : forall S (step : S -> T -> S) (src : list T) ncols rows states, length states = ncols ->
    fold_left (fun states row => map (fun cs => step (snd cs) (nth (row * ncols + fst cs) src nan)) (combine (seq 0 ncols) states)) rows states =
    map (fun cs => fold_left step (map (fun r => nth (r * ncols + fst cs) src nan) rows) (snd cs)) (combine (seq 0 ncols) states).
  Proof.
    intros S step src ncols. induction rows as [|row rows IH]; intros states HL.
    - cbn [fold_left map]. assert (E : forall k (l : list S), map (fun cs : nat * S => snd cs) (combine (seq k (length l)) l) = l).
      { intros k l. revert k. induction l as [|s l IHl]; intros k; cbn; [reflexivity|]. f_equal. apply IHl. }
      rewrite <- HL. symmetry. apply E.
    - cbn [fold_left]. rewrite IH.
      2:{ rewrite map_length, combine_length, seq_length. lia. }
      assert (E : forall k (l : list S), combine (seq k (length l)) (map (fun cs : nat * S => step (snd cs) (nth (row * ncols + fst cs) src nan)) (combine (seq k (length l)) l)) =
        map (fun cs : nat * S => (fst cs, step (snd cs) (nth (row * ncols + fst cs) src nan))) (combine (seq k (length l)) l)).
      { intros k l. revert k. induction l as [|s l IHl]; intros k; cbn; [reflexivity|]. f_equal. apply IHl. }
      specialize (E 0 states). rewrite HL in E. rewrite E, map_map. apply map_ext. intros [c s]. reflexivity.
  Qed.
  Lemma reduce_rows_eq : forall S (step : S -> T -> S) s0 (src : list T) nrows ncols,
    reduce_rows step s0 src nrows ncols = map (fun c => fold_left step (column src nrows ncols c) s0) (seq 0 ncols).
  Proof.
    intros S step s0 src nrows ncols. unfold reduce_rows. rewrite reduce_rows_from by apply repeat_length.
    assert (E : forall k n, combine (seq k n) (repeat s0 n) = map (fun c => (c, s0)) (seq k n)).
    { intros k n. revert k. induction n as [|n IH]; intros k; cbn; [reflexivity|]. f_equal. apply IH. }
    rewrite E, map_map. reflexivity.
  Qed.

  Lemma sums_2d : forall (src : list T) nrows ncols,
    rs_nansum_2d_c src nrows ncols = map rs_nansum_1d (columns_of src nrows ncols) /\
    rs_nanprod_2d_c src nrows ncols = map rs_nanprod_1d (columns_of src nrows ncols) /\
    rs_nancnt_2d_c src nrows ncols = map rs_nancnt_1d (columns_of src nrows ncols) /\
    rs_nanmean_2d_c src nrows ncols = map rs_nanmean_1d (columns_of src nrows ncols).
  Proof.
    intros src nrows ncols. unfold rs_nansum_2d_c, rs_nanprod_2d_c, rs_nancnt_2d_c, rs_nanmean_2d_c, columns_of. rewrite !reduce_rows_eq, !map_map.
    repeat split; apply map_ext; intros c.
    - unfold rs_nansum_1d. now rewrite fold_numbers.
    - unfold rs_nancnt_1d. generalize (column src nrows ncols c). intros l.
      assert (E : forall s, fold_left (fun s v => if isnan v then s else (s + 1)%Z) l s = (s + Z.of_nat (length (numbers l)))%Z).
      { induction l as [|x l IH]; intros s; cbn [fold_left]; [unfold numbers; cbn; lia|]. rewrite IH. unfold numbers. cbn [filter]. destruct (isnan x); cbn [negb length]; lia. }
      rewrite E. lia.
  Qed.
  Lemma cums_2d : forall nrows ncols,
    by_column (fun src : list T => rs_nancumsum_2d_c src nrows ncols) Describe.nancumsum nrows ncols /\
    by_column (fun src : list T => rs_nancumprod_2d_c src nrows ncols) nancumprod nrows ncols.
  Proof. intros nrows ncols. split; apply (row_loop_by_column _ (fun _ _ => _)); intros; reflexivity. Qed.

  (** Extremes *)
  Context {L : OrdLaws N}.
  Section Better.
    Variable better : T -> T -> bool.
    Hypothesis b_num : forall a b, better a b = true -> isnan a = false.
    Hypothesis b_asym : forall a b, better a b = true -> better b a = false.
    Hypothesis b_neg : forall a b c, isnan b = false -> better a b = false -> better b c = false -> better a c = false.
    Lemma best_fold : forall (l : list T) x, isnan x = false ->
      let m := fold_left (fun m v => if better v m then v else m) l x in
      In m (x :: l) /\ isnan m = false /\ forall y, In y (x :: l) -> better y m = false.
    Proof.
      induction l as [|v l IH]; intros x Hx.
      - cbn [fold_left]. split; [now left|]. split; [exact Hx|]. intros y [<-|[]]. destruct (better x x) eqn:E; [|reflexivity]. rewrite <- E at 1. now apply b_asym.
      - cbn [fold_left]. destruct (better v x) eqn:E.
        + destruct (IH v (b_num _ _ E)) as (H1 & H2 & H3). cbv zeta in *. split; [now right|]. split; [exact H2|].
          intros y [<-|Hy]; [|now apply H3]. apply (b_neg x v); [now apply (b_num _ _ E)|now apply b_asym|apply H3; now left].
        + destruct (IH x Hx) as (H1 & H2 & H3). cbv zeta in *. split; [destruct H1; [now left|right; now right]|]. split; [exact H2|].
          intros y [<-|[<-|Hy]]; [apply H3; now left| |apply H3; now right]. apply (b_neg v x); [exact Hx|exact E|apply H3; now left].
    Qed.
    Hypothesis b_nan : forall a b, isnan a = true -> better a b = false.
    Lemma nan_best_ok : forall l : list T,
      (forallb isnan l = true -> rs_nan_best better l = nan) /\
      (forallb isnan l = false -> In (rs_nan_best better l) l /\ isnan (rs_nan_best better l) = false /\ forall y, In y l -> better y (rs_nan_best better l) = false).
    Proof.
      induction l as [|x l [IH1 IH2]]; cbn [rs_nan_best forallb]; [split; [reflexivity|discriminate]|].
      destruct (isnan x) eqn:Ex; cbn [andb].
      - split; [exact IH1|]. intros H. destruct (IH2 H) as (H1 & H2 & H3). split; [now right|]. split; [exact H2|].
        intros y [<-|Hy]; [now apply b_nan|now apply H3].
      - split; [discriminate|]. intros _. apply (best_fold l x Ex).
    Qed.
  End Better.
  Lemma nanmin_ok : forall l : list T,
    (forallb isnan l = true -> rs_nanmin_1d l = nan) /\
    (forallb isnan l = false -> In (rs_nanmin_1d l) l /\ isnan (rs_nanmin_1d l) = false /\ forall y, In y l -> ltb y (rs_nanmin_1d l) = false).
  Proof. apply nan_best_ok; [intros a b H; apply (ltb_notnan _ _ H)|exact ol_asym|exact ol_negtrans|exact ol_nan_l]. Qed.
  Lemma nanmax_ok : forall l : list T,
    (forallb isnan l = true -> rs_nanmax_1d l = nan) /\
    (forallb isnan l = false -> In (rs_nanmax_1d l) l /\ isnan (rs_nanmax_1d l) = false /\ forall y, In y l -> ltb (rs_nanmax_1d l) y = false).
  Proof.
    apply nan_best_ok; unfold gtb; [intros a b H; apply (ltb_notnan _ _ H)|intros a b; apply ol_asym|intros a b c H H1 H2; apply (ol_negtrans c b a); assumption|intros a b; apply ol_nan_r].
  Qed.
End Bits.

(** ** Rust's median, percentiles and describe in exact arithmetic *)
Lemma max_fold : forall l a, exists v, fold_left rs_max (map Fin l) (Fin a) = Fin v /\ In v (a :: l) /\ forall q, In q (a :: l) -> (q <= v)%Q.
Proof.
  induction l as [|x l IH]; intros a; cbn [map fold_left].
  - exists a. split; [reflexivity|]. split; [now left|]. intros q [<-|[]]. lra.
  - unfold rs_max at 2. cbn [isnan XQnum xq_isnan ltb xq_ltb]. destruct (qlt_bool a x) eqn:E; qb.
    + destruct (IH x) as (v & Ev & Hv & Hle). exists v. split; [exact Ev|]. split; [now right|].
      intros q [<-|Hq]; [|now apply Hle]. pose proof (Hle x (or_introl eq_refl)). lra.
    + destruct (IH a) as (v & Ev & Hv & Hle). exists v. split; [exact Ev|]. split; [destruct Hv; [now left|right; now right]|].
      intros q [<-|[<-|Hq]]; [apply Hle; now left| |apply Hle; now right]. pose proof (Hle a (or_introl eq_refl)). lra.
Qed.
Lemma rs_median_run : forall l, no_infinity l ->
  (vals l = [] -> rs_nanmedian_1d l = NaN) /\ (vals l <> [] -> is_number (rs_nanmedian_1d l) (qmedian (qsort (vals l)))).
Proof.
  intros l H. unfold rs_nanmedian_1d. rewrite numbers_vals by exact H. rewrite sort_fin, map_length, qsort_len. cbv zeta. split.
  - intros ->. reflexivity.
  - intros Hne. assert (Hn : length (vals l) <> 0) by (destruct (vals l); [congruence|discriminate]).
    rewrite (proj2 (Nat.eqb_neq _ _) Hn). unfold qmedian. rewrite qsort_len.
    assert (Hh : length (vals l) / 2 < length (vals l)) by (apply Nat.div_lt; lia).
    destruct (qsort_in_order (vals l)) as [_ HO]. rewrite qsort_len in HO.
    set (s := qsort (vals l)) in *. assert (Ls : length s = length (vals l)) by apply qsort_len. set (n := length (vals l)) in *.
    destruct (Nat.even n) eqn:Ee.
    + apply Nat.even_spec in Ee as [k Ek]. replace (n mod 2) with 0 by (rewrite Ek, Nat.mul_comm, Nat.mod_mul; lia). cbn [Nat.eqb].
      assert (En : n / 2 = k) by (rewrite Ek, Nat.mul_comm; apply Nat.div_mul; lia). rewrite En in *.
      rewrite nth_fin by lia. rewrite firstn_map.
      assert (Hk : 1 <= k) by lia. destruct (firstn k s) as [|x r] eqn:Ef; [apply (f_equal (@length Q)) in Ef; rewrite firstn_length in Ef; cbn in Ef; lia|].
      cbn [map fold_left]. change (rs_max ninf (Fin x)) with (Fin x). destruct (max_fold r x) as (v & -> & Hv & Hle). rewrite <- Ef in Hv, Hle.
      assert (Ev : (v == nth (k - 1) s 0)%Q).
      { apply Qle_antisym.
        - destruct (In_nth _ _ 0%Q Hv) as (j & Hj & <-). rewrite firstn_length in Hj. rewrite nth_firstn by lia. apply HO; lia.
        - apply Hle. rewrite <- (nth_firstn _ s k (k - 1) 0%Q) by lia. apply nth_In. rewrite firstn_length. lia. }
      change (@two XQ XQnum) with (Fin 2). rewrite add_fin, div_fin by (intros E; discriminate E).
      eexists. split; [reflexivity|]. rewrite !Qred_correct, Ev. reflexivity.
    + assert (Eo : n mod 2 = 1). { assert (O : Nat.odd n = true) by (rewrite <- Nat.negb_even, Ee; reflexivity). apply Nat.odd_spec in O as [k Ek]. rewrite Ek. rewrite Nat.add_comm, Nat.mul_comm, Nat.mod_add; [reflexivity|lia]. }
      rewrite Eo. cbn [Nat.eqb]. rewrite nth_fin by lia. apply fin_number.
Qed.

Lemma ceiling_up : forall x, (inject_Z (Qceiling x) - 1 < x)%Q /\ (x <= inject_Z (Qceiling x))%Q.
Proof.
  intros x. split; [|apply Qle_ceiling]. pose proof (Qceiling_lt x) as H. unfold Z.sub in H. rewrite inject_Z_plus, inject_Z_opp in H. exact H.
Qed.
Lemma rs_percentile_run : forall floor ceil, rounds_down floor -> rounds_up ceil -> forall qs c q, qs <> [] -> (0 <= c <= 1)%Q -> (q == 100 * c)%Q ->
  exists v, rs_percentile_sorted floor ceil (map Fin (qsort qs)) (Fin q) = Ok (Fin v) /\ (v == qpoint c (qsort qs))%Q.
Proof.
  intros floor ceil Hfl Hce qs c q Hne Hc Hq. pose proof (qsort_len qs) as Ls. set (s := qsort qs) in *.
  assert (Hs : s <> []) by (intros E; rewrite E in Ls; destruct qs; [congruence|discriminate]). clearbody s. clear qs Hne Ls.
  destruct s as [|x s]; [congruence|]. destruct s as [|y s].
  { exists x. split; [reflexivity|]. rewrite (qpoint_whole c _ 0); [reflexivity|]. cbn [length]. change (inject_Z (Z.of_nat 1 - 1)) with 0%Q. change (inject_Z (Z.of_nat 0)) with 0%Q. ring. }
  set (l := x :: y :: s) in *. unfold rs_percentile_sorted. change (map Fin l) with (Fin x :: Fin y :: map Fin s). cbv iota zeta.
  change (Fin x :: Fin y :: map Fin s) with (map Fin l). rewrite map_length.
  assert (L2 : 2 <= length l) by (cbn [length l]; lia). clearbody l.
  set (n1 := inject_Z (Z.of_nat (length l) - 1)).
  change (ofZ (Z.of_nat (length l) - 1)) with (Fin n1). change (@ofZ XQ XQnum 100) with (Fin 100).
  rewrite div_fin by (intros E; discriminate E). change (mul (Fin (Qred (q / 100))) (Fin n1)) with (Fin (Qred (Qred (q / 100) * n1))).
  set (rank := Qred (Qred (q / 100) * n1)).
  assert (Hr : (rank == c * n1)%Q) by (unfold rank; rewrite !Qred_correct, Hq; field).
  assert (Hn1 : (1 <= n1)%Q) by (unfold n1; change 1%Q with (inject_Z 1); rewrite <- Zle_Qle; lia).
  assert (H0 : (0 <= c * n1)%Q) by (apply Qmult_le_0_compat; lra).
  assert (H1 : (c * n1 <= n1)%Q). { assert (0 <= (1 - c) * n1)%Q by (apply Qmult_le_0_compat; lra). lra. }
  rewrite (Hfl (Fin rank) (c * n1)%Q), (Hce (Fin rank) (c * n1)%Q) by (exists rank; split; [reflexivity|exact Hr]).
  pose proof (Qfloor_le (c * n1)) as F1. pose proof (Qlt_floor (c * n1)) as F2. rewrite inject_Z_plus in F2. change (inject_Z 1) with 1%Q in F2.
  destruct (ceiling_up (c * n1)) as [C1 C2].
  assert (Hf0 : (0 <= Qfloor (c * n1))%Z) by (change 0%Z with (Qfloor (inject_Z 0)); apply Qfloor_resp_le; exact H0).
  assert (Hc0 : (Qceiling (c * n1) <= Z.of_nat (length l) - 1)%Z).
  { apply Qceiling_resp_le in H1. unfold n1 in H1 at 2. rewrite Qceiling_Z in H1. exact H1. }
  assert (Hfc : (Qfloor (c * n1) <= Qceiling (c * n1))%Z) by (rewrite Zle_Qle; lra).
  assert (Hcf : (Qceiling (c * n1) <= Qfloor (c * n1) + 1)%Z).
  { assert (A : (inject_Z (Qceiling (c * n1)) < inject_Z (Qfloor (c * n1) + 2))%Q) by (rewrite inject_Z_plus; change (inject_Z 2) with 2%Q; lra).
    rewrite <- Zlt_Qlt in A. lia. }
  assert (At : forall k, k < length l -> rs_at (map Fin l) k = Ok (Fin (nth k l 0%Q))).
  { intros k Hk. unfold rs_at. rewrite nth_error_map, (nth_error_nth' l 0%Q Hk). reflexivity. }
  set (f := Qfloor (c * n1)) in *. set (g := Qceiling (c * n1)) in *.
  destruct (Nat.eqb_spec (Z.to_nat f) (Z.to_nat g)) as [E|E].
  - assert (g = f) by lia. rewrite At by lia. eexists. split; [reflexivity|].
    assert (Ew : (c * n1 == inject_Z (Z.of_nat (Z.to_nat f)))%Q).
    { rewrite Z2Nat.id by lia. apply Qle_antisym; [|exact F1]. replace f with g by lia. exact C2. }
    rewrite (qpoint_whole c l _ Ew). reflexivity.
  - assert (g = f + 1)%Z by lia. rewrite !At by lia. cbn [bind].
    rewrite !Z2Nat.id by lia.
    match goal with |- exists v, Ok ?y = _ /\ _ => change y with (Fin (Qred (Qred (nth (Z.to_nat f) l 0%Q * Qred (inject_Z g - rank)) + Qred (nth (Z.to_nat g) l 0%Q * Qred (rank - inject_Z f))))) end.
    eexists. split; [reflexivity|]. unfold qpoint. cbv zeta. fold n1. fold f.
    rewrite (nth_indep l (nth (Z.to_nat f) l 0%Q) 0%Q) by lia. replace (Z.to_nat f + 1) with (Z.to_nat g) by lia.
    assert (Hg : (inject_Z g == inject_Z f + 1)%Q) by (rewrite H, inject_Z_plus; reflexivity).
    rewrite !Qred_correct, Hr, Hg. ring.
Qed.

Lemma sum_perm : forall l l', Permutation l l' -> (sum l == sum l')%Q.
Proof. intros l l' H. induction H; cbn [sum]; [reflexivity|rewrite IHPermutation; reflexivity|ring|etransitivity; eassumption]. Qed.
Lemma mean_perm : forall l l', Permutation l l' -> (mean l == mean l')%Q.
Proof. intros l l' H. unfold mean, count. rewrite (sum_perm _ _ H), (Permutation_length H). reflexivity. Qed.
Lemma variance_perm : forall d l l', Permutation l l' -> (variance d l == variance d l')%Q.
Proof.
  intros d l l' H. unfold variance, count. rewrite (Permutation_length H).
  rewrite (square_ext l _ _ (mean_perm _ _ H)). rewrite (sum_perm _ _ (Permutation_map _ H)). reflexivity.
Qed.

Lemma rs_describe_run : forall sqrt root, computes_root sqrt root -> forall floor ceil, rounds_down floor -> rounds_up ceil ->
  forall l perc ddof, no_infinity l -> Forall (fun p => (0 <= p <= 1)%Q) perc -> vals l <> [] ->
  exists out, rs_describe_reduce_1d sqrt floor ceil (map Fin perc) ddof l = Ok out /\ described root perc (Z.of_nat ddof) (vals l) out.
Proof.
  intros sqrt root Hroot floor ceil Hfl Hce l perc ddof H Hp Hne. unfold rs_describe_reduce_1d. rewrite numbers_vals by exact H. cbv zeta. rewrite sort_fin.
  set (qs := vals l) in *. pose proof (qsort_len qs) as Ls. destruct (qsort_in_order qs) as [HP HO].
  assert (Hn : 1 <= length qs) by (destruct qs; [congruence|cbn; lia]).
  assert (Hs : qsort qs <> []) by (intros E; rewrite E in Ls; cbn in Ls; lia).
  assert (Hps : exists vs, collect (fun p => rs_percentile_sorted floor ceil (map Fin (qsort qs)) (mul p (ofZ 100))) (map Fin perc) = Ok (map Fin vs) /\
    Forall2 (fun p v => (v == qpoint p (qsort qs))%Q) perc vs).
  { clear HO. induction Hp as [|p perc Hp Hr IH]; [exists []; split; [reflexivity|constructor]|].
    destruct IH as (vs & E & Hvs). destruct (rs_percentile_run floor ceil Hfl Hce qs p (Qred (p * 100)) Hne Hp) as (v & Ev & Hv); [rewrite Qred_correct; ring|].
    exists (v :: vs). split; [|constructor; assumption]. cbn [map collect].
    change (mul (Fin p) (ofZ 100)) with (Fin (Qred (p * 100))). rewrite Ev. cbn [bind]. rewrite E. reflexivity. }
  destruct Hps as (vs & Evs & Hvs). rewrite Evs. cbn [bind].
  assert (Elast : last (map Fin (qsort qs)) nan = Fin (nth (length qs - 1) (qsort qs) 0%Q)).
  { destruct (exists_last Hs) as (u & z & Eu). rewrite Eu in Ls. rewrite app_length in Ls. cbn [length] in Ls.
    rewrite Eu, map_app. cbn [map]. rewrite last_last. f_equal.
    rewrite app_nth2 by lia. replace (length qs - 1 - length u) with 0 by lia. reflexivity. }
  rewrite Elast.
  assert (Em : exists q0 r, qsort qs = q0 :: r) by (destruct (qsort qs) as [|q0 r]; [congruence|eauto]).
  destruct Em as (q0 & r & Er).
  assert (El0 : nth 0 (qsort qs) 0%Q = q0) by (rewrite Er; reflexivity).
  assert (Ef : forall X (e1 : X) (e2 : XQ -> X), match map Fin (qsort qs) with [] => e1 | f :: _ => e2 f end = e2 (Fin q0)) by (intros; rewrite Er; reflexivity).
  rewrite (Ef _ _ (fun first => Ok ([ofZ (Z.of_nat (length (map Fin (qsort qs)))); div (fold_left add (map Fin (qsort qs)) zero) (ofZ (Z.of_nat (length (map Fin (qsort qs))))); rs_nanstd_1d sqrt (map Fin (qsort qs)) ddof; first] ++ map Fin vs ++ [Fin (nth (length qs - 1) (qsort qs) 0%Q)]))).
  eexists. split; [reflexivity|]. rewrite map_length, Ls. eexists _, _, q0, vs, _. split; [reflexivity|].
  split. { eapply number_ext; [apply mean_fin; [exact Hs|now rewrite Ls]|]. symmetry. apply mean_perm, HP. }
  destruct (rs_nanstd_run sqrt root Hroot (map Fin (qsort qs)) ddof (no_inf_fin _)) as [S1 S2]. rewrite vals_fin, Ls in S1, S2.
  split. { intros Hd. eapply number_ext; [apply S2; lia|]. apply Hroot. symmetry. apply variance_perm, HP. }
  split. { intros Hd. apply S1. lia. }
  split. { rewrite El0. reflexivity. }
  split.
  { split; [eapply Permutation_in; [apply Permutation_sym, HP|rewrite Er; now left]|]. intros q Hq. apply (Permutation_in _ HP) in Hq.
    destruct (In_nth _ _ 0%Q Hq) as (j & Hj & <-). rewrite <- El0. apply HO; lia. }
  split; [exact Hvs|]. split; [reflexivity|].
  split; [eapply Permutation_in; [apply Permutation_sym, HP|apply nth_In; lia]|]. intros q Hq. apply (Permutation_in _ HP) in Hq.
  destruct (In_nth _ _ 0%Q Hq) as (j & Hj & <-). apply HO; lia.
Qed.

(** Two descriptions of the same numbers agree. *)
Lemma agrees_refl_number : forall y z q, is_number y q -> is_number z q -> agrees y z.
Proof. intros y z q (p & -> & Hp) (r & -> & Hr). cbn. rewrite Hp, Hr. reflexivity. Qed.
Lemma described_agree : forall root perc ddof qs o1 o2, described root perc ddof qs o1 -> described root perc ddof qs o2 -> Forall2 agrees o1 o2.
Proof.
  intros root perc ddof qs o1 o2 (m1 & s1 & lo1 & v1 & h1 & -> & M1 & S1 & N1 & L1 & _ & V1 & H1 & _) (m2 & s2 & lo2 & v2 & h2 & -> & M2 & S2 & N2 & L2 & _ & V2 & H2 & _).
  cbn [app]. apply Forall2_cons; [|apply Forall2_cons; [|apply Forall2_cons; [|apply Forall2_cons]]].
  - cbn [agrees]. reflexivity.
  - eapply agrees_refl_number; eassumption.
  - destruct (Z.lt_ge_cases ddof (Z.of_nat (length qs))) as [D|D]; [eapply agrees_refl_number; [apply S1, D|apply S2, D]|]. rewrite N1, N2 by exact D. exact I.
  - cbn. rewrite L1, L2. reflexivity.
  - apply Forall2_app; [|apply Forall2_cons; [cbn; rewrite H1, H2; reflexivity|constructor]].
    clear - V1 V2. revert v2 V2. induction V1 as [|p v perc v1 Hv V1 IH]; intros v2 V2; inversion V2; subst; cbn [map]; constructor; [|now apply IH].
    cbn. rewrite Hv. symmetry. assumption.
Qed.
