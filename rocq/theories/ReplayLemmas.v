(** * Lemmas about accounts rebuilt from order records: tolerances and accumulation *)
From Coq Require Import ZArith QArith Qabs Qminmax Bool Lia Lqa List Setoid Morphisms.
From Verif Require Import Base Num MathNb TolSpec Order Account AccountSpec XQFacts OrderLemmas4 Replay ReplaySpec.
Import ListNotations.

(** ** Tolerances *)
Lemma slack_pos : forall m, (1 # 1000000000000) <= slack m.
Proof. intros. unfold slack. apply Q.le_max_r. Qed.

Lemma slack_mono : forall a b, a <= b -> slack a <= slack b.
Proof.
  intros a b H. unfold slack. apply Q.max_lub.
  - eapply Qle_trans; [|apply Q.le_max_l]. lra.
  - apply Q.le_max_r.
Qed.

Lemma tolq_slack : forall a b m, Qabs a <= m -> Qabs b <= m -> tolq a b <= slack m.
Proof.
  intros a b m Ha Hb. unfold tolq, slack. apply Q.max_lub.
  - eapply Qle_trans; [|apply Q.le_max_l].
    assert (Qmax (Qabs a) (Qabs b) <= m) by (apply Q.max_lub; auto). lra.
  - apply Q.le_max_r.
Qed.

Lemma inject_le : forall n k, (n <= k)%nat -> inject_Z (Z.of_nat n) <= inject_Z (Z.of_nat k).
Proof. intros n k H. rewrite <- Zle_Qle. lia. Qed.
Lemma inject_nonneg : forall n, 0 <= inject_Z (Z.of_nat n).
Proof. intros n. change 0 with (inject_Z 0). rewrite <- Zle_Qle. lia. Qed.
Lemma inject_add : forall n k, inject_Z (Z.of_nat (n + k)) == inject_Z (Z.of_nat n) + inject_Z (Z.of_nat k).
Proof. intros. rewrite Nat2Z.inj_add, inject_Z_plus. reflexivity. Qed.

Lemma Qmult_le_mono : forall a b c d, 0 <= a -> 0 <= c -> a <= b -> c <= d -> a * c <= b * d.
Proof.
  intros a b c d Ha Hc Hab Hcd.
  eapply Qle_trans; [apply Qmult_le_compat_r; eauto|].
  rewrite (Qmult_comm b c), (Qmult_comm b d). apply Qmult_le_compat_r; lra.
Qed.

Lemma within_le : forall n n' m m' a b, (n <= n')%nat -> m <= m' -> within n m a b -> within n' m' a b.
Proof.
  unfold within. intros n n' m m' a b Hn Hm H. eapply Qle_trans; [exact H|].
  pose proof (slack_pos m). apply Qmult_le_mono; auto using inject_nonneg, inject_le, slack_mono. lra.
Qed.

Lemma within_refl : forall n m a b, a == b -> within n m a b.
Proof.
  intros n m a b H. unfold within. rewrite H. pose proof (slack_pos m).
  assert (E : b - b == 0) by ring. rewrite E.
  change (0 <= inject_Z (Z.of_nat n) * slack m).
  apply Qmult_le_0_compat; [apply inject_nonneg|lra].
Qed.

Lemma within_trans : forall n k m a b c, within n m a b -> within k m b c -> within (n + k) m a c.
Proof.
  unfold within. intros n k m a b c H1 H2. rewrite inject_add, Qmult_plus_distr_l.
  assert (E : a - c == (a - b) + (b - c)) by ring. rewrite E.
  eapply Qle_trans; [apply Qabs_triangle|]. lra.
Qed.

Lemma within_sym : forall n m a b, within n m a b -> within n m b a.
Proof. unfold within. intros. rewrite Qabs_Qminus. auto. Qed.

Lemma within_one : forall m a b, Qabs (a - b) <= slack m -> within 1 m a b.
Proof. unfold within. intros m a b H. change (inject_Z (Z.of_nat 1)) with 1. lra. Qed.

Lemma within_shift : forall n m a b c, within n m a b -> within n m (a + c) (b + c).
Proof. unfold within. intros n m a b c H. assert (E : a + c - (b + c) == a - b) by ring. rewrite E. auto. Qed.

#[global] Instance within_proper : Proper (eq ==> Qeq ==> Qeq ==> Qeq ==> iff) within.
Proof.
  intros n n' <- m m' Hm a a' Ha b b' Hb. unfold within, slack. rewrite Hm, Ha, Hb. reflexivity.
Qed.

(** ** One tolerant addition *)
Lemma approx_add_le : forall a b r, approx_add a b r -> Qabs r <= Qabs a + Qabs b.
Proof.
  intros a b r [[H _]|[H _]]; rewrite H.
  - rewrite Qabs_pos by lra. pose proof (Qabs_nonneg a); pose proof (Qabs_nonneg b). lra.
  - apply Qabs_triangle.
Qed.

Lemma approx_add_within : forall a b r m, approx_add a b r -> Qabs a <= m -> Qabs b <= m -> within 1 m r (a + b).
Proof.
  intros. apply within_one. eapply Qle_trans; [apply approx_add_bound; eauto|]. apply tolq_slack; auto.
Qed.

Definition settled (a : Q) : Prop := a == 0 \/ (1 # 1000000000000) < Qabs a.

Lemma tolq_zero_r : forall a b, b == 0 -> settled a -> tolq a b < Qabs a \/ a == 0.
Proof.
  intros a b Hb [H|H]; [right; auto|left].
  unfold tolq. apply Q.max_lub_lt; [|auto].
  assert (Hm : Qmax (Qabs a) (Qabs b) <= Qabs a).
  { apply Q.max_lub; [lra|]. rewrite Hb. rewrite Qabs_pos by lra. apply Qabs_nonneg. }
  pose proof (Qabs_nonneg a).
  assert ((1 # 1000000000) * Qmax (Qabs a) (Qabs b) <= (1 # 1000000000) * Qabs a) by lra. lra.
Qed.

Lemma approx_add_zero : forall a b r, b == 0 -> settled a -> approx_add a b r -> r == a.
Proof.
  intros a b r Hb Hs H. destruct (tolq_zero_r a b Hb Hs) as [Ht|Ht].
  - destruct H as [[H1 H2]|[H1 H2]].
    + assert (Qabs (a + b) == Qabs a) by (rewrite Hb, Qplus_0_r; reflexivity). lra.
    + lra.
  - destruct H as [[H1 H2]|[H1 H2]]; lra.
Qed.

(** ** Accumulating a list of flows *)
Fixpoint sumL (l : list Q) : Q := match l with [] => 0 | x :: l' => x + sumL l' end.
Definition absL (l : list Q) : Q := sumL (map Qabs l).
Definition nonzeros (l : list Q) : nat := length (filter (fun x => negb (Qeq_bool x 0)) l).

Lemma absL_nonneg : forall l, 0 <= absL l.
Proof. induction l as [|x l IH]; cbn; [lra|]. pose proof (Qabs_nonneg x). unfold absL in IH. lra. Qed.

Lemma fold_add_nb : forall l a m,
  Qabs a + absL l <= m -> settled a ->
  exists r, fold_left (fun p x => add_nb p (Fin x)) l (Fin a) = Fin r /\
    Qabs r <= Qabs a + absL l /\ settled r /\ within (nonzeros l) m r (a + sumL l).
Proof.
  induction l as [|x l IH]; intros a m Hm Hs; cbn [fold_left].
  - exists a. split; [reflexivity|]. cbn. split; [lra|]. split; auto.
    apply within_refl. lra.
  - destruct (add_nb_fin a x) as (a1 & E1 & Ha1). rewrite E1.
    cbn [map sumL] in *. unfold absL in *. cbn [map sumL] in Hm.
    pose proof (approx_add_le _ _ _ Ha1). pose proof (absL_nonneg l) as Hn. unfold absL in Hn.
    pose proof (Qabs_nonneg a). pose proof (Qabs_nonneg x).
    destruct (IH a1 m) as (r & Er & Hr & Hsr & Hw); [unfold absL in *; lra|apply (approx_add_gap _ _ _ Ha1)|].
    exists r. split; [exact Er|]. split; [unfold absL in *; cbn [map sumL]; lra|]. split; [exact Hsr|].
    unfold nonzeros. cbn [filter]. destruct (Qeq_bool x 0) eqn:Ex; cbn [negb length].
    + apply Qeq_bool_iff in Ex. pose proof (approx_add_zero a x a1 Ex Hs Ha1) as E.
      fold (nonzeros l). rewrite E in Hw. rewrite Ex.
      eapply within_proper; [reflexivity|reflexivity|reflexivity| |exact Hw]. ring.
    + fold (nonzeros l). replace (S (nonzeros l)) with (nonzeros l + 1)%nat by lia.
      eapply within_trans; [exact Hw|].
      eapply within_proper; [reflexivity|reflexivity|reflexivity| |].
      2: { apply (within_shift 1 m a1 (a + x) (sumL l)). apply approx_add_within; auto; lra. }
      ring.
Qed.

(** The same without any assumption on the start value: one more rounding. *)
Lemma fold_add_nb_any : forall l a m,
  Qabs a + absL l <= m ->
  exists r, fold_left (fun p x => add_nb p (Fin x)) l (Fin a) = Fin r /\
    Qabs r <= Qabs a + absL l /\ within (S (nonzeros l)) m r (a + sumL l).
Proof.
  intros l a m Hm. destruct (Qlt_le_dec (1 # 1000000000000) (Qabs a)) as [Hs|Hs].
  - destruct (fold_add_nb l a m Hm (or_intror Hs)) as (r & E & Hr & _ & Hw).
    exists r. split; auto. split; auto. eapply within_le; [|apply Qle_refl|exact Hw]. lia.
  - revert Hm. induction l as [|x l IH]; intros Hm; cbn [fold_left].
    + exists a. cbn. split; auto. split; [lra|]. apply within_refl; lra.
    + unfold absL in *. cbn [map sumL] in *. destruct (add_nb_fin a x) as (a1 & E1 & Ha1). rewrite E1.
      pose proof (approx_add_le _ _ _ Ha1). pose proof (absL_nonneg l) as Hn. unfold absL in Hn.
      pose proof (Qabs_nonneg a). pose proof (Qabs_nonneg x).
      destruct (fold_add_nb l a1 m) as (r & Er & Hr & Hsr & Hw); [unfold absL in *; lra|apply (approx_add_gap _ _ _ Ha1)|].
      exists r. split; [exact Er|]. unfold absL in *. split; [lra|].
      unfold nonzeros. cbn [filter].
      assert (W : within (S (nonzeros l)) m r (a + (x + sumL l))).
      { replace (S (nonzeros l)) with (nonzeros l + 1)%nat by lia.
        eapply within_trans; [exact Hw|].
        eapply within_proper; [reflexivity|reflexivity|reflexivity| |].
        2: { apply (within_shift 1 m a1 (a + x) (sumL l)). apply approx_add_within; auto; lra. }
        ring. }
      destruct (negb _); cbn [length]; fold (nonzeros l); auto.
      eapply within_le; [|apply Qle_refl|exact W]. lia.
Qed.

(** ** Sums over bars *)
Lemma sumL_seq : forall (g : nat -> Q) n, sumL (map g (seq 0 n)) == sumQ g n.
Proof.
  intros g n. induction n as [|n IH]; [reflexivity|].
  rewrite seq_S, map_app. cbn [sumQ map].
  assert (E : forall l x, sumL (l ++ [x]) == sumL l + x) by (induction l as [|y l IHl]; intros x; cbn; [ring|rewrite IHl; ring]).
  rewrite E, IH. reflexivity.
Qed.

Definition nzQ (g : nat -> Q) (n : nat) : nat := nonzeros (map g (seq 0 n)).

Lemma nonzeros_app : forall l1 l2, nonzeros (l1 ++ l2) = (nonzeros l1 + nonzeros l2)%nat.
Proof. intros. unfold nonzeros. rewrite filter_app, app_length. reflexivity. Qed.

Lemma nzQ_S : forall g n, nzQ g (S n) = (nzQ g n + nonzeros [g n])%nat.
Proof. intros. unfold nzQ. rewrite seq_S, map_app, nonzeros_app. reflexivity. Qed.

Lemma nonzeros_single : forall x, (nonzeros [x] <= 1)%nat.
Proof. intros. unfold nonzeros. cbn [filter]. destruct (negb _); cbn; lia. Qed.

Lemma nzQ_fupd : forall g n j v, (nzQ (fupd g j v) n <= S (nzQ g n))%nat.
Proof.
  intros g n j v. enough (H : (nzQ (fupd g j v) n <= nzQ g n + (if Nat.ltb j n then 1 else 0))%nat)
    by (destruct (Nat.ltb j n); lia).
  induction n as [|n IH]; [cbn; lia|].
  rewrite !nzQ_S. destruct (Nat.eq_dec j n) as [->|Hn].
  - rewrite fupd_same. assert (Hlt : Nat.ltb n (S n) = true) by (apply Nat.ltb_lt; lia). rewrite Hlt.
    assert (Hlt2 : Nat.ltb n n = false) by (apply Nat.ltb_ge; lia). rewrite Hlt2 in IH.
    pose proof (nonzeros_single v). lia.
  - rewrite (fupd_other _ g j n) by auto.
    assert (E : Nat.ltb j (S n) = Nat.ltb j n).
    { destruct (Nat.ltb j n) eqn:E1; [apply Nat.ltb_lt in E1; apply Nat.ltb_lt; lia|].
      apply Nat.ltb_ge in E1. apply Nat.ltb_ge. lia. }
    rewrite E. lia.
Qed.

(** ** Recording flows per bar *)
Section Flow.
  Variable eff : OrderRec XQ -> Q.

  Definition recorded (i : nat) (rs : list (OrderRec XQ)) (out : nat -> XQ) : Prop :=
    exists g, (forall j, out j = Fin (g j)) /\
      within (length (until i rs)) (total (fun r => Qabs (eff r)) (until i rs))
        (sumQ g (S i)) (total eff (until i rs)) /\
      sumQ (fun j => Qabs (g j)) (S i) <= total (fun r => Qabs (eff r)) (until i rs) /\
      (nzQ g (S i) <= length (until i rs))%nat.

  Lemma total_app : forall f l1 l2, total f (l1 ++ l2) == total f l1 + total f l2.
  Proof. intros f l1 l2. induction l1 as [|r l1 IH]; cbn; [ring|rewrite IH; ring]. Qed.

  Lemma total_abs_nonneg : forall l, 0 <= total (fun r => Qabs (eff r)) l.
  Proof. induction l as [|r l IH]; cbn; [lra|]. pose proof (Qabs_nonneg (eff r)). lra. Qed.

  Lemma sumQ_zero : forall n, sumQ (fun _ => 0) n == 0.
  Proof. induction n as [|n IH]; cbn; [reflexivity|rewrite IH; ring]. Qed.

  Lemma recorded_init : forall i, recorded i [] (fun _ => zero).
  Proof.
    intros i. exists (fun _ => 0). split; [reflexivity|]. split; [|split].
    - apply within_refl. rewrite sumQ_zero. reflexivity.
    - cbn [until filter total]. rewrite (sumQ_ext _ (fun _ => 0)) by (intros; reflexivity). rewrite sumQ_zero. lra.
    - enough (H : nzQ (fun _ => 0) (S i) = O) by (rewrite H; apply Nat.le_0_l).
      induction (S i) as [|n IH]; [reflexivity|]. rewrite nzQ_S, IH. reflexivity.
  Qed.

  Lemma until_app : forall i l1 l2, until i (l1 ++ l2) = until i l1 ++ until i l2.
  Proof. intros. apply filter_app. Qed.

  Lemma sumQ_abs_le : forall g n j, (j < n)%nat -> Qabs (g j) <= sumQ (fun j => Qabs (g j)) n.
  Proof.
    intros g n. induction n as [|n IH]; intros j H; [lia|]. cbn [sumQ].
    pose proof (Qabs_nonneg (g n)).
    assert (P : forall k, 0 <= sumQ (fun j => Qabs (g j)) k).
    { induction k as [|k IHk]; cbn; [lra|]. pose proof (Qabs_nonneg (g k)). lra. }
    destruct (Nat.eq_dec j n) as [->|Hn]; [pose proof (P n); lra|].
    specialize (IH j ltac:(lia)). lra.
  Qed.

  Lemma sumQ_fupd_abs : forall g n i v, (i < n)%nat ->
    sumQ (fun j => Qabs (fupd g i v j)) n == sumQ (fun j => Qabs (g j)) n - Qabs (g i) + Qabs v.
  Proof.
    intros. rewrite <- (sumQ_fupd (fun j => Qabs (g j)) n i (Qabs v)) by auto.
    apply sumQ_ext. intros j _. unfold fupd. destruct (Nat.eqb j i); reflexivity.
  Qed.

  Lemma recorded_step : forall i rs r out e,
    recorded i rs out -> e == eff r ->
    recorded i (rs ++ [r]) (fupd out (or_idx r) (add_nb (out (or_idx r)) (Fin e))).
  Proof.
    intros i rs r out e (g & Hg & Hw & Ha & Hn) He.
    destruct (add_nb_fin (g (or_idx r)) e) as (v & Ev & Hv). rewrite Hg, Ev.
    exists (fupd g (or_idx r) v). split.
    { intros j. unfold fupd. destruct (Nat.eqb j (or_idx r)); auto. }
    rewrite until_app. cbn [until filter]. pose proof (total_abs_nonneg (until i rs)) as Hp.
    pose proof (Qabs_nonneg (eff r)) as Hq.
    destruct (Nat.leb (or_idx r) i) eqn:Hi.
    - apply Nat.leb_le in Hi. rewrite !total_app, app_length. cbn [total length].
      pose proof (approx_add_le _ _ _ Hv) as Hle. rewrite He in Hle.
      pose proof (sumQ_abs_le g (S i) (or_idx r) ltac:(lia)).
      split; [|split].
      + rewrite Nat.add_comm. eapply within_trans with (b := sumQ g (S i) + eff r).
        * rewrite sumQ_fupd by lia. rewrite He in Hv.
          eapply within_proper; [reflexivity|reflexivity| |reflexivity|].
          2: { eapply within_proper; [reflexivity|reflexivity|reflexivity| |].
               2: { apply (within_shift _ _ v (g (or_idx r) + eff r) (sumQ g (S i) - g (or_idx r))).
                    eapply within_le; [apply Nat.le_refl| |apply approx_add_within with (1 := Hv)].
                    1: apply Qle_refl. all: lra. } ring. } ring.
        * eapply within_proper; [reflexivity|reflexivity|reflexivity| |].
          2: { apply within_shift. eapply within_le; [|  |exact Hw]; [lia|lra]. } ring.
      + rewrite sumQ_fupd_abs by lia. lra.
      + pose proof (nzQ_fupd g (S i) (or_idx r) v). lia.
    - apply Nat.leb_gt in Hi. rewrite app_nil_r.
      assert (Hs : forall h : nat -> Q, (forall j, (j < S i)%nat -> h j == g j) -> sumQ h (S i) == sumQ g (S i))
        by (intros; apply sumQ_ext; auto).
      assert (Hf : forall j, (j < S i)%nat -> fupd g (or_idx r) v j = g j)
        by (intros j Hj; apply fupd_other; lia).
      split; [|split].
      + rewrite (Hs (fupd g (or_idx r) v)); auto. intros j Hj. rewrite Hf by auto. reflexivity.
      + rewrite (sumQ_ext _ (fun j => Qabs (g j))); auto. intros j Hj. rewrite Hf by auto. reflexivity.
      + replace (nzQ (fupd g (or_idx r) v) (S i)) with (nzQ g (S i)); auto.
        unfold nzQ. f_equal. apply map_ext_in. intros j Hj. apply in_seq in Hj. rewrite Hf by lia. reflexivity.
  Qed.

  (** The cumulated flow *)
  Lemma recorded_cumulated : forall i rs out,
    recorded i rs out -> forall a,
    exists q, fold_left (fun p j => add_nb p (out j)) (seq 0 (S i)) (Fin a) = Fin q /\
      within (2 * length (until i rs) + 1) (Qabs a + total (fun r => Qabs (eff r)) (until i rs))
        q (a + total eff (until i rs)) /\
      (a == 0 -> within (2 * length (until i rs)) (total (fun r => Qabs (eff r)) (until i rs))
        q (total eff (until i rs))).
  Proof.
    intros i rs out (g & Hg & Hw & Ha & Hn) a.
    assert (E : forall l, fold_left (fun p j => add_nb p (out j)) l (Fin a) =
                fold_left (fun p x => add_nb p (Fin x)) (map g l) (Fin a)).
    { intros l. generalize (Fin a). induction l as [|j l IH]; intros x; cbn; auto. rewrite Hg. apply IH. }
    rewrite E.
    assert (Habs : absL (map g (seq 0 (S i))) == sumQ (fun j => Qabs (g j)) (S i)).
    { unfold absL. rewrite map_map. apply sumL_seq. }
    pose proof (total_abs_nonneg (until i rs)) as Hp.
    pose proof (Qabs_nonneg a) as Hqa.
    assert (Hsum : Qabs a + absL (map g (seq 0 (S i))) <= Qabs a + total (fun r => Qabs (eff r)) (until i rs)).
    { rewrite Habs. lra. }
    destruct (fold_add_nb_any (map g (seq 0 (S i))) a _ Hsum) as (q & Eq & _ & Hq).
    exists q. split; [exact Eq|]. rewrite sumL_seq in Hq.
    fold (nzQ g (S i)) in *. split.
    - replace (2 * length (until i rs) + 1)%nat with ((length (until i rs) + 1) + length (until i rs))%nat by lia.
      eapply within_trans with (b := a + sumQ g (S i)).
      + eapply within_le; [|apply Qle_refl|exact Hq]. lia.
      + eapply within_proper; [reflexivity|reflexivity| | |].
        3: { apply (within_shift _ _ (sumQ g (S i)) (total eff (until i rs)) a).
             eapply within_le; [apply Nat.le_refl| |exact Hw]. lra. }
        all: ring.
    - intros H0.
      destruct (fold_add_nb (map g (seq 0 (S i))) a _ Hsum (or_introl H0)) as (q' & Eq' & _ & _ & Hq').
      rewrite Eq in Eq'. injection Eq' as <-. rewrite sumL_seq in Hq'.
      rewrite H0, Qplus_0_l in Hq'.
      replace (2 * length (until i rs))%nat with (length (until i rs) + length (until i rs))%nat by lia.
      assert (Hz : Qabs a == 0) by (rewrite H0; reflexivity).
      eapply within_trans with (b := sumQ g (S i)); [|exact Hw].
      eapply within_le; [| |exact Hq']; [unfold nzQ in Hn; lia|]. change (Qabs 0) with 0. lra.
  Qed.
End Flow.
