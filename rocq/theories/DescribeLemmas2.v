(** * Lemmas about the statistics of columns: describe, and Rust *)
From Coq Require Import String ZArith QArith Qabs Qround Bool List Arith Lia Lqa Sorting Permutation.
From Verif Require Import Base Num XQFacts OrdLaws GenericNb GenericSpec GenericLemmas GenericLemmas2
  ReturnsNb ReturnsSpec ReturnsLemmas ReturnsLemmas2 ReturnsLemmas3 ReturnsLemmas4 Reduce ReduceLemmas ReduceLemmas2 RustGeneric RustGenericSpec RustGenericLemmas RustGenericLemmas4
  RatiosSpec RatiosLemmas Describe DescribeSpec DescribeLemmas.
Import ListNotations.
Local Open Scope list_scope.
Local Open Scope nat_scope.

Lemma vals_fin : forall qs, vals (map Fin qs) = qs.
Proof. induction qs as [|q qs IH]; cbn [map vals]; [reflexivity|]. now rewrite IH. Qed.
Lemma no_inf_fin : forall qs, no_infinity (map Fin qs).
Proof. intros qs x Hx. apply in_map_iff in Hx as (q & <- & _). split; discriminate. Qed.

Lemma add_fold : forall qs c, exists s, fold_left add (map Fin qs) (Fin c) = Fin s /\ (s == c + sum qs)%Q.
Proof.
  induction qs as [|q qs IH]; intros c; cbn [map fold_left sum].
  - exists c. split; [reflexivity|ring].
  - rewrite add_fin. destruct (IH (Qred (c + q))) as (s & E & Hs). exists s. split; [exact E|]. rewrite Hs, Qred_correct. ring.
Qed.
Lemma mean_fin : forall qs n, qs <> [] -> n = length qs -> is_number (div (fold_left add (map Fin qs) (Fin 0)) (ofZ (Z.of_nat n))) (mean qs).
Proof.
  intros qs n Hne ->. destruct (add_fold qs 0) as (s & -> & Hs). destruct (divide_count s qs Hne) as (r & -> & Hr); [rewrite Hs; ring|].
  exists r. split; [reflexivity|exact Hr].
Qed.

Lemma collect_ok : forall A B (f : A -> res B) l out, Forall2 (fun a b => f a = Ok b) l out -> collect f l = Ok out.
Proof. intros A B f l out H. induction H as [|a b l out Hab H IH]; cbn [collect]; [reflexivity|]. rewrite Hab. cbn [bind]. rewrite IH. reflexivity. Qed.

Lemma percentiles_run : forall qs perc, qs <> [] -> Forall (fun p => (0 <= p <= 1)%Q) perc ->
  exists vs, collect (fun p => np_percentile xq_trunc (map Fin qs) (mul p (ofZ 100))) (map Fin perc) = Ok (map Fin vs) /\
    Forall2 (fun p v => (v == qpoint p (qsort qs))%Q) perc vs.
Proof.
  intros qs perc Hne H. induction H as [|p perc Hp H IH]; [exists []; split; [reflexivity|constructor]|].
  destruct IH as (vs & E & Hvs). destruct (percentile_exact qs p (Qred (p * 100)) Hne Hp) as (v & Ev & Hv); [rewrite Qred_correct; ring|].
  exists (v :: vs). split; [|constructor; assumption]. cbn [map collect].
  change (mul (Fin p) (ofZ 100)) with (Fin (Qred (p * 100))). rewrite Ev. cbn [bind]. rewrite E. reflexivity.
Qed.

Section Root.
  Variables (sqrt : XQ -> XQ) (root : Q -> Q).
  Hypothesis Hroot : computes_root sqrt root.

  Definition described (perc : list Q) (ddof : Z) (qs : list Q) (out : list XQ) : Prop :=
    exists m sd lo vs hi, out = [Fin (count qs); m; sd; Fin lo] ++ map Fin vs ++ [Fin hi] /\
      is_number m (mean qs) /\ ((ddof < Z.of_nat (length qs))%Z -> is_number sd (root (variance ddof qs))) /\
      ((Z.of_nat (length qs) <= ddof)%Z -> sd = NaN) /\
      (lo == nth 0 (qsort qs) 0)%Q /\ is_least qs lo /\ Forall2 (fun p v => (v == qpoint p (qsort qs))%Q) perc vs /\
      (hi == nth (length qs - 1) (qsort qs) 0)%Q /\ is_greatest qs hi.

  Lemma describe_run : forall l perc ddof c, no_infinity l -> Forall (fun p => (0 <= p <= 1)%Q) perc -> vals l <> [] ->
    exists out, describe_reduce_nb sqrt xq_trunc (map Fin perc) ddof c l = Ok out /\ described perc ddof (vals l) out.
  Proof.
    intros l perc ddof c H Hp Hne. unfold describe_reduce_nb. rewrite numbers_vals by exact H. cbv zeta.
    set (qs := vals l) in *.
    assert (Em : forall X (e1 : X) (e2 : XQ -> list XQ -> X), match map Fin qs with [] => e1 | a :: r => e2 a r end = match qs with [] => e1 | q :: r => e2 (Fin q) (map Fin r) end) by (intros; destruct qs; reflexivity).
    destruct (least_run qs Hne) as (lo & Elo & Hlo). destruct (percentiles_run qs perc Hne Hp) as (vs & Evs & Hvs).
    destruct (greatest_run qs Hne) as (hi & Ehi & Hhi).
    rewrite Elo, Evs, Ehi. cbn [bind].
    replace (match map Fin qs with [] => Ok (zero :: repeat nan (4 + length (map Fin perc)))
      | _ :: _ => Ok ([ofZ (Z.of_nat (length (map Fin qs))); np_mean (map Fin qs); nanstd_1d_nb sqrt (map Fin qs) ddof; Fin lo] ++ map Fin vs ++ [Fin hi]) end)
      with (Ok ([ofZ (Z.of_nat (length (map Fin qs))); np_mean (map Fin qs); nanstd_1d_nb sqrt (map Fin qs) ddof; Fin lo] ++ map Fin vs ++ [Fin hi]))
      by (destruct qs; [congruence|reflexivity]).
    eexists. split; [reflexivity|]. exists (np_mean (map Fin qs)), (nanstd_1d_nb sqrt (map Fin qs) ddof), lo, vs, hi.
    rewrite map_length. split; [reflexivity|].
    split; [unfold np_mean, np_sum; rewrite map_length; apply mean_fin; [exact Hne|reflexivity]|].
    split. { intros Hd. pose proof (nanstd_run sqrt root Hroot (map Fin qs) ddof (no_inf_fin qs)) as R. rewrite vals_fin in R. apply R; assumption. }
    split. { intros Hd. apply nanstd_nan; [apply no_inf_fin|now rewrite vals_fin]. }
    split; [apply least_first, Hlo|]. split; [exact Hlo|]. split; [exact Hvs|]. split; [apply greatest_last, Hhi|exact Hhi].
  Qed.

  Lemma describe_none : forall l perc ddof c, no_infinity l -> vals l = [] ->
    describe_reduce_nb sqrt xq_trunc perc ddof c l = Ok (Fin 0 :: repeat NaN (4 + length perc)).
  Proof. intros l perc ddof c H E. unfold describe_reduce_nb. rewrite numbers_vals, E by exact H. reflexivity. Qed.

  Lemma describe_refuses : forall l perc ddof c p, no_infinity l -> vals l <> [] -> In p perc -> ~ (0 <= p <= 1)%Q ->
    describe_reduce_nb sqrt xq_trunc (map Fin perc) ddof c l = Err (ValueError "Percentiles must be in the range [0, 100]").
  Proof.
    intros l perc ddof c p H Hne Hp Hout. unfold describe_reduce_nb. rewrite numbers_vals by exact H. cbv zeta.
    set (qs := vals l) in *. destruct (least_run qs Hne) as (lo & Elo & _). rewrite Elo. cbn [bind].
    assert (E : collect (fun p => np_percentile xq_trunc (map Fin qs) (mul p (ofZ 100))) (map Fin perc) = Err (ValueError "Percentiles must be in the range [0, 100]")).
    { clear Elo. induction perc as [|r perc IH]; [destruct Hp|]. cbn [map collect].
      change (mul (Fin r) (ofZ 100)) with (Fin (Qred (r * 100))).
      assert (D : ((0 <= r <= 1) \/ ~ (0 <= r <= 1))%Q).
      { destruct (Qlt_le_dec r 0); [right; lra|]. destruct (Qlt_le_dec 1 r); [right; lra|left; lra]. }
      destruct D as [D|D].
      - destruct (percentile_exact qs r (Qred (r * 100)) Hne D) as (v & Ev & _); [rewrite Qred_correct; ring|]. rewrite Ev. cbn [bind].
        destruct Hp as [->|Hp]; [contradiction|]. rewrite IH by exact Hp. reflexivity.
      - assert (Eb : Qle_bool 0 (Qred (r * 100)) && Qle_bool (Qred (r * 100)) 100 = false).
        { apply not_true_is_false. intros Hb. apply andb_true_iff in Hb as [B1 B2]. qb. rewrite Qred_correct in B1, B2. apply D. lra. }
        unfold np_percentile. cbn [zero ofZ XQnum leb xq_leb]. change (inject_Z 100) with 100%Q. change (inject_Z 0) with 0%Q. rewrite Eb. reflexivity. }
    rewrite E. destruct qs; [congruence|reflexivity].
  Qed.

  (** ** Rust, one column *)
  Lemma rs_nanmean_fold : forall l s n, no_infinity l ->
    exists s', fold_left rs_nanmean_step l (Fin s, n) = (Fin s', n + length (vals l)) /\ (s' == s + sum (vals l))%Q.
  Proof.
    induction l as [|x l IH]; intros s n H.
    - exists s. split; [cbn; f_equal; lia|]. cbn [vals sum]. ring.
    - destruct (no_inf_hd _ _ H) as [->|[q ->]]; apply no_inf_cons in H; cbn [fold_left]; unfold rs_nanmean_step at 2; cbn [isnan XQnum xq_isnan fst snd].
      + apply IH, H.
      + rewrite add_fin. destruct (IH (Qred (s + q)) (S n) H) as (s' & E & Hs'). exists s'. rewrite E. cbn [vals length sum]. split; [f_equal; lia|].
        rewrite Hs', Qred_correct. ring.
  Qed.
  Lemma rs_nanmean_run : forall l, no_infinity l ->
    (vals l = [] -> rs_nanmean_1d l = NaN) /\ (vals l <> [] -> is_number (rs_nanmean_1d l) (mean (vals l))).
  Proof.
    intros l H. unfold rs_nanmean_1d, rs_nanmean_end. change zero with (Fin 0). destruct (rs_nanmean_fold l 0 0 H) as (s & -> & Hs).
    cbn [fst snd plus]. split.
    - intros ->. reflexivity.
    - intros Hne. assert (Hn : length (vals l) <> 0) by (destruct (vals l); [congruence|discriminate]).
      rewrite (proj2 (Nat.eqb_neq _ _) Hn). destruct (divide_count s (vals l) Hne) as (r & -> & Hr); [rewrite Hs; ring|].
      exists r. split; [reflexivity|exact Hr].
  Qed.

  Lemma rs_square_fold : forall l m n s, no_infinity l ->
    exists s', fold_left (fun '(cnt, sq) v => if isnan v then (cnt, sq) else (S cnt, add sq (mul (sub v (Fin m)) (sub v (Fin m))))) l (n, Fin s)
      = (n + length (vals l), Fin s') /\ (s' == s + sum (map (fun x => (x - m) * (x - m)) (vals l)))%Q.
  Proof.
    induction l as [|x l IH]; intros m n s H.
    - exists s. split; [cbn; f_equal; lia|]. cbn [vals sum map]. ring.
    - destruct (no_inf_hd _ _ H) as [->|[q ->]]; apply no_inf_cons in H; cbn [fold_left].
      + change (@isnan XQ XQnum NaN) with true. cbv iota. apply IH, H.
      + change (@isnan XQ XQnum (Fin q)) with false. cbv iota. match goal with |- context [fold_left _ l (S n, ?y)] => change y with (Fin (Qred (s + Qred (Qred (q - m) * Qred (q - m))))) end.
        destruct (IH m (S n) (Qred (s + Qred (Qred (q - m) * Qred (q - m)))) H) as (s' & E & Hs'). exists s'. rewrite E. cbn [vals length sum map].
        split; [f_equal; lia|]. rewrite Hs', !Qred_correct. ring.
  Qed.
  Lemma square_ext : forall l m m', (m == m')%Q -> (sum (map (fun x => (x - m) * (x - m)) l) == sum (map (fun x => (x - m') * (x - m')) l))%Q.
  Proof. induction l as [|x l IH]; intros m m' E; cbn [map sum]; [reflexivity|]. rewrite (IH m m' E), E. reflexivity. Qed.

  Lemma rs_nanstd_run : forall l ddof, no_infinity l ->
    (length (vals l) <= ddof -> rs_nanstd_1d sqrt l ddof = NaN) /\
    (ddof < length (vals l) -> is_number (rs_nanstd_1d sqrt l ddof) (root (variance (Z.of_nat ddof) (vals l)))).
  Proof.
    intros l ddof H. unfold rs_nanstd_1d. destruct (rs_nanmean_run l H) as [M0 M1]. cbv zeta.
    destruct (vals l) as [|q0 qs] eqn:Ev.
    - rewrite M0 by reflexivity. split; [reflexivity|]. cbn [length]. lia.
    - destruct M1 as (m & Em & Hm); [discriminate|]. rewrite Em. change (@isnan XQ XQnum (Fin m)) with false. cbv iota. change (@zero XQ XQnum) with (Fin 0).
      destruct (rs_square_fold l m 0 0 H) as (s & -> & Hs). rewrite Ev in Hs |- *. cbn [plus]. split.
      + intros Hd. rewrite (proj2 (Nat.leb_le _ _) Hd). reflexivity.
      + intros Hd. rewrite (proj2 (Nat.leb_gt _ _) Hd). apply (sqrt_number sqrt root Hroot).
        assert (Hz : (0 < inject_Z (Z.of_nat (length (q0 :: qs) - ddof)))%Q) by (change 0%Q with (inject_Z 0); rewrite <- Zlt_Qlt; lia).
        eapply number_ext; [apply div_number; [exists s; split; [reflexivity|exact Hs]|apply fin_number|lra]|].
        unfold variance, count. rewrite Nat2Z.inj_sub by lia. unfold Z.sub. rewrite inject_Z_plus, inject_Z_opp.
        rewrite (square_ext _ _ _ Hm), Qplus_0_l. reflexivity.
  Qed.

  (** Rust, all rows at once *)
  Lemma scan_end : forall A B C (f : B -> A -> B) (g : B -> C) l k s i, i < length l ->
    nth_error (scan (fun _ s x => (f s x, g (f s x))) k s l) i = Some (g (fold_left f (firstn (S i) l) s)).
  Proof.
    intros A B C f g. induction l as [|x l IH]; intros k s i Hi; cbn [length] in Hi; [lia|]. cbn [scan].
    destruct i as [|i]; [reflexivity|]. cbn [nth_error]. rewrite IH by lia. reflexivity.
  Qed.
  Lemma sums_scan : forall (l : list XQ) ddof k s, scan (rs_exp_std_step sqrt 0 ddof) k s l = scan (fun _ s x => (rs_sums_step s x, rs_sums_end sqrt ddof (rs_sums_step s x))) k s l.
  Proof.
    induction l as [|x l IH]; intros ddof k [[s1 s2] n]; [reflexivity|]. cbn [scan].
    assert (E : rs_exp_std_step sqrt 0 ddof k (s1, s2, n) x = (rs_sums_step (s1, s2, n) x, rs_sums_end sqrt ddof (rs_sums_step (s1, s2, n) x))).
    { unfold rs_exp_std_step, rs_sums_step, rs_sums_end. destruct (isnan x); cbn [negb]; [reflexivity|]. rewrite !Nat.add_1_r. reflexivity. }
    rewrite E. f_equal. apply IH.
  Qed.
  Lemma sums_run : forall l ddof, no_infinity l ->
    let y := rs_sums_end sqrt ddof (fold_left rs_sums_step l (zero, zero, 0)) in
    (length (vals l) <= ddof -> y = NaN) /\ (ddof < length (vals l) -> is_number y (root (variance (Z.of_nat ddof) (vals l)))).
  Proof.
    intros l ddof H y. destruct l as [|x l].
    - split; [|cbn; lia]. intros _. unfold y. reflexivity.
    - destruct (expanding_std_rs sqrt (x :: l) 0 ddof H) as [_ R]. destruct (R (length l)) as (z & Ez & R1 & R2); [cbn; lia|].
      unfold rs_expanding_std_1d in Ez. rewrite sums_scan, scan_end in Ez by (cbn; lia).
      change (S (length l)) with (length (x :: l)) in *. rewrite firstn_all in *. apply (f_equal (fun o => match o with Some a => a | None => NaN end)) in Ez. change (y = z) in Ez. rewrite <- Ez in *. clear z Ez. split.
      + intros Hd. apply R1. now right.
      + intros Hd. destruct R2 as (v & -> & Hv); [lia|exact Hd|]. exists (root v). split; [apply Hroot|]. apply Hroot, Hv.
  Qed.
End Root.
