(** * Statistics of the period ahead, relative labels, thresholds *)
From Coq Require Import String ZArith QArith Qabs Bool List Arith Lia Lqa.
From Verif Require Import Base Num XQFacts OrdLaws GenericNb GenericSpec GenericLemmas GenericLemmas2 GenericLemmas3 ReturnsNb ReturnsSpec
  ReturnsLemmas ReturnsLemmas2 ReturnsLemmas3 NumFacts LabelsNb LabelsSpec LabelsLemmas LabelsLemmas2.
Import ListNotations.
Local Open Scope list_scope.
Local Open Scope nat_scope.

Lemma sum_rev : forall l, (sum (rev l) == sum l)%Q.
Proof. induction l as [|x l IH]; [reflexivity|]. cbn [rev]. rewrite sum_app, IH. cbn [sum]. ring. Qed.
Lemma mean_rev : forall l, (mean (rev l) == mean l)%Q.
Proof. intros l. unfold mean, count. rewrite sum_rev, rev_length. reflexivity. Qed.
Lemma sum_map_ext : forall (f g : Q -> Q) l, (forall x, f x == g x)%Q -> (sum (map f l) == sum (map g l))%Q.
Proof. intros f g l H. induction l as [|x l IH]; [reflexivity|]. cbn [map sum]. rewrite IH, H. reflexivity. Qed.
Lemma variance_rev : forall d l, (variance d (rev l) == variance d l)%Q.
Proof.
  intros d l. unfold variance, count. rewrite map_rev, sum_rev, rev_length.
  rewrite (sum_map_ext (fun x => (x - mean (rev l)) * (x - mean (rev l)))%Q (fun x => (x - mean l) * (x - mean l))%Q); [reflexivity|].
  intros x. rewrite mean_rev. reflexivity.
Qed.
Lemma no_infinity_rev : forall l, no_infinity l -> no_infinity (rev l).
Proof. intros l H x Hx. apply H. apply in_rev. auto. Qed.

Lemma future_mean_run : forall close w wait adjust out, no_infinity close -> 1 <= w ->
  future_mean_apply_nb close w false wait adjust = Ok out ->
  length out = length close /\
  forall i, i < length close -> exists y, nth_error out i = Some y /\
    let l := vals (next_bars w wait i close) in
    (length l < w -> y = NaN) /\ (length l = w -> is_number y (mean l)).
Proof.
  intros close w wait adjust out Hi Hw H. unfold future_mean_apply_nb in H. cbv iota in H.
  apply bind_ok in H as (roll & H & E). injection E as <-.
  destruct (rolling_mean_run _ _ _ _ (no_infinity_rev _ Hi) Hw H) as [H1 H2]. rewrite rev_length in *.
  destruct (ahead close w wait roll (fun l y =>
    (length (vals l) < w -> y = NaN) /\ (w <= length (vals l) -> is_number y (mean (vals l)))) H1) as [A1 A2].
  - intros i Hl. destruct (H2 i Hl) as (y & Hy & B1 & B2). exists y. split; auto. split; auto.
    intros Hle. destruct (B2 Hle) as (q & -> & _ & Hq). exists q. auto.
  - intros _ _. split; [reflexivity|cbn; lia].
  - split; auto. intros i Hl. destruct (A2 i Hl) as (y & Hy & B1 & B2). exists y. split; auto. cbn zeta.
    rewrite vals_rev, rev_length in *. split; auto. intros E. apply (in_eq _ _ _ (B2 ltac:(lia))). apply mean_rev.
Qed.

Lemma future_mean_accepts : forall close w wait adjust, no_infinity close -> 1 <= w ->
  exists out, future_mean_apply_nb close w false wait adjust = Ok out.
Proof.
  intros close w wait adjust Hi Hw. unfold future_mean_apply_nb. cbv iota.
  destruct (rolling_mean_accepts (rev close) w (Some w) (no_infinity_rev _ Hi) Hw ltac:(lia)) as [out E].
  rewrite E. cbn [bind]. eauto.
Qed.

Lemma future_std_run : forall sqrt tol close w wait ddof out, no_infinity close -> 1 <= w -> (ddof < Z.of_nat w)%Z ->
  future_std_apply_nb sqrt tol close w wait ddof = Ok out ->
  length out = length close /\
  forall i, i < length close -> exists y, nth_error out i = Some y /\
    let l := vals (next_bars w wait i close) in
    (length l < w -> y = NaN) /\ (length l = w -> exists v, y = sqrt (Fin v) /\ (v == variance ddof l)%Q).
Proof.
  intros sqrt tol close w wait ddof out Hi Hw Hd H. unfold future_std_apply_nb in H.
  apply bind_ok in H as (roll & H & E). injection E as <-.
  destruct (rolling_std_run _ _ _ _ _ _ _ (no_infinity_rev _ Hi) H) as [H1 H2]. rewrite rev_length in *.
  destruct (ahead close w wait roll (fun l y =>
    (length (vals l) < w -> y = NaN) /\ (length (vals l) = w -> exists v, y = sqrt (Fin v) /\ (v == variance ddof (vals l))%Q)) H1) as [A1 A2].
  - intros i Hl. destruct (H2 i Hl) as (y & Hy & B1 & B2). exists y. split; auto. split.
    + intros Hlt. apply B1. left. lia.
    + intros Heq. apply B2; lia.
  - intros _ _. split; [reflexivity|cbn; lia].
  - split; auto. intros i Hl. destruct (A2 i Hl) as (y & Hy & B1 & B2). exists y. split; auto. cbn zeta.
    rewrite vals_rev, rev_length in *. split; auto. intros E. destruct (B2 E) as (v & Ey & Hv). exists v. split; auto.
    rewrite Hv. apply variance_rev.
Qed.

Lemma relative_at : forall (out close : list XQ) i y c, nth_error out i = Some y -> nth_error close i = Some c ->
  nth_error (relative_to out close) i = Some (div (sub y c) c).
Proof.
  intros out close i y c H1 H2. unfold relative_to. rewrite (map_nth_error _ i (combine out close) (d := (y, c))); [reflexivity|].
  apply nth_error_combine; auto.
Qed.
Lemma relative_length : forall (out close : list XQ), length out = length close -> length (relative_to out close) = length close.
Proof. intros out close H. unfold relative_to. rewrite map_length, combine_length. lia. Qed.

Lemma fixed_run : forall close n i c, price_is close i c -> ~ (c == 0)%Q ->
  length (fixed_labels_apply_nb close n) = length close /\
  exists y, nth_error (fixed_labels_apply_nb close n) i = Some y /\
    (length close <= i + n -> y = NaN) /\
    (forall d, price_is close (i + n) d -> is_number y ((d - c) / c)).
Proof.
  intros close n i c Pc Hc. assert (Hi : i < length close) by (apply nth_error_Some; unfold price_is in Pc; congruence).
  unfold fixed_labels_apply_nb.
  assert (Hl : length (bshift_1d_nb close n nan) = length close).
  { rewrite bshift_spec, app_length, skipn_length, repeat_length. lia. }
  split; [apply relative_length; auto|].
  destruct (le_lt_dec (length close) (i + n)) as [Hle|Hlt].
  - eexists. split.
    + eapply relative_at; [|exact Pc]. rewrite bshift_spec. rewrite nth_error_app2 by (rewrite skipn_length; lia).
      rewrite nth_error_nth' with (d := nan) by (rewrite repeat_length, skipn_length; lia). rewrite nth_repeat. reflexivity.
    + split; [intros _; reflexivity|]. intros d Hd. exfalso. unfold price_is in Hd.
      assert (i + n < length close) by (apply nth_error_Some; congruence). lia.
  - destruct (nth_error close (i + n)) as [z|] eqn:Ez; [|apply nth_error_None in Ez; lia].
    exists (div (sub z (Fin c)) (Fin c)). split.
    + apply relative_at; [|exact Pc]. rewrite bshift_spec. rewrite nth_error_app1 by (rewrite skipn_length; lia).
      rewrite nth_error_skipn_add. rewrite Nat.add_comm. exact Ez.
    + split; [lia|]. intros d Hd. unfold price_is in Hd. rewrite Ez in Hd. injection Hd as ->.
      apply in_div; auto using in_fin, in_sub.
Qed.

Lemma mean_labels_run : forall close w wait adjust out, no_infinity close -> 1 <= w ->
  mean_labels_apply_nb close w false wait adjust = Ok out ->
  length out = length close /\
  forall i c, price_is close i c -> ~ (c == 0)%Q -> exists y, nth_error out i = Some y /\
    let l := vals (next_bars w wait i close) in
    (length l < w -> y = NaN) /\ (length l = w -> is_number y ((mean l - c) / c)).
Proof.
  intros close w wait adjust out Hi Hw H. unfold mean_labels_apply_nb in H. apply bind_ok in H as (m & H & E). injection E as <-.
  destruct (future_mean_run _ _ _ _ _ Hi Hw H) as [H1 H2]. split; [apply relative_length; auto|].
  intros i c Pc Hc. destruct (H2 i ltac:(apply nth_error_Some; unfold price_is in Pc; congruence)) as (y & Hy & B1 & B2).
  exists (div (sub y (Fin c)) (Fin c)). split; [apply relative_at; auto|]. cbn zeta in *. split.
  - intros Hl. rewrite (B1 Hl). reflexivity.
  - intros Hl. apply in_div; auto using in_fin. apply in_sub; auto using in_fin.
Qed.

Lemma symmetric_run : forall x, (~ x == 1 -> exists p, get_symmetric_pos_th_nb (Fin x) = Ok p /\ exists v, is_number p v /\ (1 - x) * (1 + v) == 1)%Q /\
  (~ x == -1 -> exists p, get_symmetric_neg_th_nb (Fin x) = Ok p /\ exists v, is_number p v /\ (1 + x) * (1 - v) == 1)%Q.
Proof.
  intros x. split; intros Hx.
  - destruct (in_sdiv (Fin x) (sub one (Fin x)) x (1 - x)) as (z & E & I); auto using in_fin, in_sub, in_one.
    { intros H. apply Hx. lra. }
    exists z. split; [exact E|]. eexists. split; [exact I|]. field. intros H. apply Hx. lra.
  - destruct (in_sdiv (Fin x) (add one (Fin x)) x (1 + x)) as (z & E & I); auto using in_fin, in_add, in_one.
    { intros H. apply Hx. lra. }
    exists z. split; [exact E|]. eexists. split; [exact I|]. field. intros H. apply Hx. lra.
Qed.
