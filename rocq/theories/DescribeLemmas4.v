(** * Lemmas about the statistics of columns: the two engines compared *)
From Coq Require Import String ZArith QArith Qabs Qround Bool List Arith Lia Lqa Permutation.
From Verif Require Import Base Num XQFacts OrdLaws GenericNb GenericSpec GenericLemmas GenericLemmas2
  ReturnsNb ReturnsSpec ReturnsLemmas ReturnsLemmas2 ReturnsLemmas3 ReturnsLemmas4 Reduce ReduceLemmas ReduceLemmas2 ReduceLemmas3 RustGeneric RustGenericSpec
  RatiosSpec RatiosLemmas Describe DescribeSpec DescribeLemmas DescribeLemmas2 DescribeLemmas3.
Import ListNotations.
Local Open Scope list_scope.
Local Open Scope nat_scope.

Lemma described_describes : forall root perc ddof qs out, described root perc ddof qs out -> describes root perc ddof qs out.
Proof.
  intros root perc ddof qs out (m & sd & lo & vs & hi & -> & M & S & N & _ & L & V & _ & G). exists m, sd, lo, vs, hi.
  refine (conj eq_refl (conj M (conj S (conj N (conj L (conj _ G)))))).
  clear - V. induction V as [|p v perc vs Hv V IH]; constructor; [apply qpoint_ok, Hv|exact IH].
Qed.
Lemma describe_nb_ok : forall sqrt root, computes_root sqrt root -> forall l perc ddof c, no_infinity l -> Forall (fun p => (0 <= p <= 1)%Q) perc -> vals l <> [] ->
  exists out, describe_reduce_nb sqrt xq_trunc (map Fin perc) ddof c l = Ok out /\ describes root perc ddof (vals l) out.
Proof.
  intros sqrt root Hroot l perc ddof c H Hp Hne. destruct (describe_run sqrt root Hroot l perc ddof c H Hp Hne) as (out & E & D).
  exists out. split; [exact E|apply described_describes, D].
Qed.
Lemma median_ok : forall l, no_infinity l ->
  (vals l = [] -> np_nanmedian l = NaN) /\ (vals l <> [] -> exists m, is_median (vals l) m /\ is_number (np_nanmedian l) m).
Proof.
  intros l H. destruct (median_run l H) as [M0 M1]. split; [exact M0|]. intros Hne. eexists. split; [apply qmedian_ok|apply M1, Hne].
Qed.
Lemma mean_std_ok : forall sqrt root, computes_root sqrt root -> forall l ddof, no_infinity l ->
  (vals l = [] -> np_nanmean l = NaN) /\ (vals l <> [] -> is_number (np_nanmean l) (mean (vals l))) /\
  ((Z.of_nat (length (vals l)) <= ddof)%Z -> nanstd_1d_nb sqrt l ddof = NaN) /\
  (vals l <> [] -> (ddof < Z.of_nat (length (vals l)))%Z -> is_number (nanstd_1d_nb sqrt l ddof) (root (variance ddof (vals l)))).
Proof.
  intros sqrt root Hroot l ddof H. split.
  - intros E. assert (F : forallb isnan l = true).
    { apply forallb_forall. intros x Hx. destruct (H x Hx) as [N1 N2]. destruct x as [ | | |q]; try congruence; [reflexivity|].
      exfalso. clear H. induction l as [|y l IH]; [destruct Hx|]. destruct Hx as [->|Hx]; [discriminate|]. apply IH; [|exact Hx]. destruct y; try exact E. discriminate. }
    rewrite (proj2 (nanmean_none l F)). reflexivity.
  - split; [apply nanmean_run, H|]. split; [apply nanstd_nan, H|]. intros Hne Hd. apply nanstd_run; assumption.
Qed.

Lemma rs_median_agrees : forall l, no_infinity l -> agrees (rs_nanmedian_1d l) (np_nanmedian l).
Proof.
  intros l H. destruct (median_run l H) as [M0 M1]. destruct (rs_median_run l H) as [R0 R1].
  destruct (vals l) as [|q r] eqn:E; [rewrite M0, R0 by reflexivity; exact I|].
  eapply agrees_refl_number; [apply R1; discriminate|apply M1; discriminate].
Qed.
Lemma rs_std_agrees : forall sqrt root, computes_root sqrt root -> forall l ddof, no_infinity l ->
  agrees (rs_nanstd_1d sqrt l ddof) (nanstd_1d_nb sqrt l (Z.of_nat ddof)).
Proof.
  intros sqrt root Hroot l ddof H. destruct (rs_nanstd_run sqrt root Hroot l ddof H) as [R0 R1].
  destruct (le_lt_dec (length (vals l)) ddof) as [D|D].
  - rewrite R0 by exact D. rewrite nanstd_nan; [exact I|exact H|]. lia.
  - eapply agrees_refl_number; [apply R1, D|]. apply nanstd_run; try assumption; try lia. intros E. rewrite E in D. cbn in D. lia.
Qed.
Lemma rs_std_2d_agrees : forall sqrt root, computes_root sqrt root -> forall ddof src nrows ncols, no_infinity src ->
  Forall2 (fun y col => agrees y (nanstd_1d_nb sqrt col (Z.of_nat ddof))) (rs_nanstd_2d_c sqrt ddof src nrows ncols) (columns_of src nrows ncols).
Proof.
  intros sqrt root Hroot ddof src nrows ncols H. unfold rs_nanstd_2d_c. rewrite reduce_rows_eq. unfold columns_of. rewrite map_map.
  induction (seq 0 ncols) as [|c cs IH]; cbn [map]; constructor; [|exact IH].
  assert (Hc : no_infinity (column src nrows ncols c)).
  { intros x Hx. unfold column in Hx. apply in_map_iff in Hx as (r & <- & _). destruct (nth_in_or_default (r * ncols + c) src nan) as [Hi|Hi]; [apply H, Hi|]. rewrite Hi. split; discriminate. }
  destruct (sums_run sqrt root Hroot (column src nrows ncols c) ddof Hc) as [R0 R1].
  destruct (le_lt_dec (length (vals (column src nrows ncols c))) ddof) as [D|D].
  - rewrite R0 by exact D. rewrite nanstd_nan; [exact I|exact Hc|]. lia.
  - eapply agrees_refl_number; [apply R1, D|]. apply nanstd_run; try assumption; try lia. intros E. rewrite E in D. cbn in D. lia.
Qed.
Lemma rs_describe_agrees : forall sqrt root, computes_root sqrt root -> forall floor ceil, rounds_down floor -> rounds_up ceil ->
  forall l perc ddof c, no_infinity l -> Forall (fun p => (0 <= p <= 1)%Q) perc ->
  exists rs nb, rs_describe_reduce_1d sqrt floor ceil (map Fin perc) ddof l = Ok rs /\
    describe_reduce_nb sqrt xq_trunc (map Fin perc) (Z.of_nat ddof) c l = Ok nb /\ Forall2 agrees rs nb.
Proof.
  intros sqrt root Hroot floor ceil Hfl Hce l perc ddof c H Hp. destruct (vals l) as [|q r] eqn:E.
  - exists (Fin 0 :: repeat NaN (4 + length (map Fin perc))), (Fin 0 :: repeat NaN (4 + length (map Fin perc))).
    split; [unfold rs_describe_reduce_1d; rewrite numbers_vals, E by exact H; reflexivity|].
    split; [apply describe_none; assumption|]. constructor; [cbn; reflexivity|].
    induction (4 + length (map Fin perc)) as [|n IH]; cbn [repeat]; constructor; [exact I|exact IH].
  - assert (Hne : vals l <> []) by (rewrite E; discriminate).
    destruct (rs_describe_run sqrt root Hroot floor ceil Hfl Hce l perc ddof H Hp Hne) as (rs & Ers & Drs).
    destruct (describe_run sqrt root Hroot l perc (Z.of_nat ddof) c H Hp Hne) as (nb & Enb & Dnb).
    exists rs, nb. split; [exact Ers|]. split; [exact Enb|]. eapply described_agree; eassumption.
Qed.

Section Best.
  Context {T : Type} {N : Num T} {L : OrdLaws N}.
  (** Neither is less than the other, and one is NaN only if the other is. *)
  Lemma min_max_agree : forall c (l : list T), l <> [] ->
    (exists m, min_reduce_nb c l = Ok m /\ isnan m = isnan (rs_nanmin_1d l) /\ ltb m (rs_nanmin_1d l) = false /\ ltb (rs_nanmin_1d l) m = false) /\
    (exists m, max_reduce_nb c l = Ok m /\ isnan m = isnan (rs_nanmax_1d l) /\ ltb m (rs_nanmax_1d l) = false /\ ltb (rs_nanmax_1d l) m = false).
  Proof.
    intros c l Hne. destruct (nanmin_ok l) as [m0 m1]. destruct (nanmax_ok l) as [x0 x1]. split.
    - destruct (ltb_best c l Hne) as (m & Em & Hm & Hn & Hb). exists m. split; [exact Em|].
      destruct (forallb isnan l) eqn:F.
      + rewrite m0 by reflexivity. rewrite forallb_forall in F. rewrite (F m Hm), ol_nan. split; [reflexivity|]. split; [apply ol_nan_r, ol_nan|apply ol_nan_l, ol_nan].
      + destruct (m1 eq_refl) as (Hi & Hnn & Hl). split.
        * rewrite Hnn. destruct (isnan m) eqn:Enm; [|reflexivity]. specialize (Hn eq_refl). rewrite (proj2 (forallb_forall isnan l)) in F; [discriminate|]. exact Hn.
        * split; [apply Hl, Hm|apply Hb, Hi].
    - destruct (gtb_best c l Hne) as (m & Em & Hm & Hn & Hb). exists m. split; [exact Em|].
      destruct (forallb isnan l) eqn:F.
      + rewrite x0 by reflexivity. rewrite forallb_forall in F. rewrite (F m Hm), ol_nan. split; [reflexivity|]. split; [apply ol_nan_r, ol_nan|apply ol_nan_l, ol_nan].
      + destruct (x1 eq_refl) as (Hi & Hnn & Hl). split.
        * rewrite Hnn. destruct (isnan m) eqn:Enm; [|reflexivity]. specialize (Hn eq_refl). rewrite (proj2 (forallb_forall isnan l)) in F; [discriminate|]. exact Hn.
        * split; [apply Hb, Hi|apply Hl, Hm].
  Qed.
End Best.
