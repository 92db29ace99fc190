(** * Means and deviations of the Rust kernels in exact arithmetic (C98) *)
From Coq Require Import String ZArith QArith Bool List Lia Lqa.
From Verif Require Import Base Num XQFacts OrdLaws GenericNb GenericSpec GenericLemmas GenericLemmas2 GenericLemmas7 ReduceLemmas RustGeneric RustGenericSpec RustGenericLemmas RustGenericLemmas2 RustGenericLemmas3.
Import ListNotations.
Open Scope nat_scope.

Lemma slice_snoc_x : forall (a : list XQ) s i x, nth_error a i = Some x -> s <= i -> slice s (S i) a = slice s i a ++ [x].
Proof. intros. apply slice_snoc; auto. Qed.

Lemma known : forall a i x, no_infinity a -> nth_error a i = Some x -> (x = NaN /\ vals [x] = []) \/ exists q, x = Fin q /\ vals [x] = [q].
Proof. intros a i x H Hx. destruct (tame_at a i x H Hx) as [->|[q ->]]; eauto. Qed.

(** What the running sum and count hold before bar [k]: the sum and the number of
    the values of the last [w] bars. The count is never decremented below zero. *)
Definition mean_state (a : list XQ) (w k : nat) (s : XQ * Z) : Prop :=
  let l := vals (slice (k - w) k a) in (exists q, fst s = Fin q /\ (q == sum l)%Q) /\ snd s = Z.of_nat (length l).

Lemma divide_count : forall q l, l <> [] -> (q == sum l)%Q -> exists r, @div XQ XQnum (Fin q) (ofZ (Z.of_nat (length l))) = Fin r /\ (r == mean l)%Q.
Proof.
  intros q l Hl Hq. pose proof (count_pos l Hl) as Hp. unfold count in Hp. cbn [ofZ XQnum div xq_div].
  assert (E0 : Qeq_bool (inject_Z (Z.of_nat (length l))) 0 = false) by (qbg; lra). rewrite E0.
  eexists. split; [reflexivity|]. rewrite Qred_correct, Hq. reflexivity.
Qed.

Lemma mean_step_rs : forall a w m k s x, no_infinity a -> nth_error a k = Some x -> mean_state a w k s ->
  let r := rs_mean_step (fun i => nth (i - w) a nan) w m k s x in
  mean_state a w (S k) (fst r) /\
  let l := vals (window w k a) in
  (length l < Nat.max m 1 -> snd r = NaN) /\
  (Nat.max m 1 <= length l -> exists q, snd r = Fin q /\ (q == mean l)%Q).
Proof.
  intros a w m k [sm cnt] x HT Hx [(q0 & E0 & H0) Hc]. cbn [fst snd] in *. subst sm cnt. cbv zeta.
  assert (Hk : k < length a) by (apply nth_error_Some; congruence).
  change (window w k a) with (slice (S k - w) (S k) a).
  unfold rs_mean_step.
  destruct (if negb (isnan x) then (add (Fin q0) x, (Z.of_nat (length (vals (slice (k - w) k a))) + 1)%Z) else (Fin q0, Z.of_nat (length (vals (slice (k - w) k a)))))
    as [s1 c1] eqn:E1.
  assert (K1 : exists q1, s1 = Fin q1 /\ (q1 == sum (vals (slice (k - w) (S k) a)))%Q /\ c1 = Z.of_nat (length (vals (slice (k - w) (S k) a)))).
  { rewrite (slice_snoc_x a (k - w) k x Hx) by lia. rewrite vals_app, app_length.
    destruct (known a k x HT Hx) as [[-> ->]|(q & -> & ->)]; cbn [isnan XQnum xq_isnan negb length] in *; apply pair_equal_spec in E1 as [<- <-].
    - exists q0. rewrite app_nil_r. repeat split; auto; lia.
    - eexists. split; [reflexivity|]. rewrite Qred_correct, sum_app, H0. cbn [sum]. split; [ring|lia]. }
  destruct K1 as (q1 & -> & Hq1 & ->). clear E1.
  destruct (if (w <=? k) && negb (isnan (nth (k - w) a nan)) then (sub (Fin q1) (nth (k - w) a nan), (Z.of_nat (length (vals (slice (k - w) (S k) a))) - 1)%Z)
            else (Fin q1, Z.of_nat (length (vals (slice (k - w) (S k) a))))) as [s2 c2] eqn:E2.
  set (l := vals (slice (S k - w) (S k) a)) in *.
  assert (K2 : exists q2, s2 = Fin q2 /\ (q2 == sum l)%Q /\ c2 = Z.of_nat (length l)).
  { destruct (Nat.leb_spec w k) as [Hw|Hw]; cbn [andb] in E2.
    - assert (Es : slice (k - w) (S k) a = nth (k - w) a nan :: slice (S k - w) (S k) a).
      { replace (S k - w) with (S (k - w)) by lia. apply slice_head. lia. }
      assert (Ho : nth_error a (k - w) = Some (nth (k - w) a nan)) by (apply nth_error_nth'; lia).
      set (o := nth (k - w) a nan) in *. rewrite Es in *.
      change (o :: slice (S k - w) (S k) a) with ([o] ++ slice (S k - w) (S k) a) in *. rewrite vals_app in *. fold l in E2, Hq1.
      destruct (known a (k - w) o HT Ho) as [[Eo Ev]|(q & Eo & Ev)]; rewrite Ev in *; rewrite Eo in E2; cbn [isnan XQnum xq_isnan negb app length] in *;
        apply pair_equal_spec in E2 as [<- <-].
      + exists q1. auto.
      + eexists. split; [reflexivity|]. cbn [sum] in Hq1. rewrite Qred_correct, Hq1. split; [ring|lia].
    - apply pair_equal_spec in E2 as [<- <-]. exists q1. unfold l. replace (S k - w) with (k - w) by lia. auto. }
  destruct K2 as (q2 & -> & Hq2 & ->). cbn [fst snd]. split; [split; [exists q2; auto|reflexivity]|]. split.
  - intros Hl. destruct (Z.leb_spec (Z.of_nat m) (Z.of_nat (length l))), (Z.ltb_spec 0 (Z.of_nat (length l))); cbn [andb]; auto. lia.
  - intros Hl. destruct (Z.leb_spec (Z.of_nat m) (Z.of_nat (length l))), (Z.ltb_spec 0 (Z.of_nat (length l))); cbn [andb]; try lia.
    apply divide_count; auto. destruct l; [cbn in *; lia|discriminate].
Qed.

Lemma rolling_mean_rs : forall a w m, no_infinity a ->
  length (rs_rolling_mean_1d a w m) = length a /\
  forall i, i < length a -> exists y, nth_error (rs_rolling_mean_1d a w m) i = Some y /\
    let l := vals (window w i a) in
    (length l < Nat.max m 1 -> y = NaN) /\ (Nat.max m 1 <= length l -> exists q, y = Fin q /\ (q == mean l)%Q).
Proof.
  intros a w m HT. split; [apply scan_length|]. intros i Hi. destruct (nth_error a i) as [x|] eqn:Hx; [|apply nth_error_None in Hx; lia].
  destruct (scan_spec (rs_mean_step (fun i => nth (i - w) a nan) w m) (mean_state a w) a (zero, 0%Z)) with (k := i) (x := x) as (s & Hs & Ho); auto.
  - split; [exists 0%Q; split; [reflexivity|cbn; reflexivity]|reflexivity].
  - intros k s y Hy Hs. apply (mean_step_rs a w m k s y HT Hy Hs).
  - eexists. split; [exact Ho|]. apply (mean_step_rs a w m i s x HT Hx Hs).
Qed.

Lemma expanding_mean_rs_is : forall (a : list XQ) m, rs_expanding_mean_1d a m = rs_rolling_mean_1d a (length a) m.
Proof.
  intros a m. apply (scan_sim _ _ _ _ (fun _ s1 s2 => fst s1 = fst s2 /\ Z.of_nat (snd s1) = snd s2)); [auto|].
  intros k [s1 c1] [s2 c2] x Hx [E1 E2]. cbn [fst snd] in E1, E2. subst s2 c2. cbn [plus].
  assert (Hk : k < length a) by (apply nth_error_Some; congruence).
  unfold rs_exp_mean_step, rs_mean_step. replace (length a <=? k) with false by (symmetry; apply Nat.leb_gt; auto). cbn [andb fst snd].
  assert (Q : forall c : nat, ((m <=? c) && (0 <? c) = (Z.of_nat m <=? Z.of_nat c)%Z && (0 <? Z.of_nat c)%Z)).
  { intros c. destruct (Nat.leb_spec m c), (Z.leb_spec (Z.of_nat m) (Z.of_nat c)); try lia; cbn [andb]; auto.
    destruct (Nat.ltb_spec 0 c), (Z.ltb_spec 0 (Z.of_nat c)); auto; lia. }
  destruct (negb (isnan x)); cbn [fst snd]; [|rewrite Q; auto].
  replace (Z.of_nat c1 + 1)%Z with (Z.of_nat (c1 + 1)) by lia. rewrite Q. auto.
Qed.

Lemma expanding_mean_rs : forall a m, no_infinity a ->
  length (rs_expanding_mean_1d a m) = length a /\
  forall i, i < length a -> exists y, nth_error (rs_expanding_mean_1d a m) i = Some y /\
    let l := vals (firstn (S i) a) in
    (length l < Nat.max m 1 -> y = NaN) /\ (Nat.max m 1 <= length l -> exists q, y = Fin q /\ (q == mean l)%Q).
Proof.
  intros a m HT. rewrite expanding_mean_rs_is. destruct (rolling_mean_rs a (length a) m HT) as [H1 H2]. split; auto.
  intros i Hi. destruct (H2 i Hi) as (y & Hy & K). rewrite window_all in K by auto. eauto.
Qed.

(** ** Expanding deviation *)
Definition std_state (a : list XQ) (k : nat) (s : XQ * XQ * nat) : Prop :=
  let l := vals (firstn k a) in
  (exists q, fst (fst s) = Fin q /\ (q == sum l)%Q) /\ (exists q, snd (fst s) = Fin q /\ (q == sumsq l)%Q) /\ snd s = length l.

Lemma qsq : forall x : Q, (0 <= x * x)%Q.
Proof. intros x. destruct (Qlt_le_dec x 0); [assert (0 <= (- x) * (- x))%Q by (apply Qmult_le_0_compat; lra); lra|apply Qmult_le_0_compat; lra]. Qed.

Lemma variance_nonneg : forall l ddof, (ddof < Z.of_nat (length l))%Z -> (0 <= variance ddof l)%Q.
Proof.
  intros l ddof H. unfold variance, count.
  assert (S : (0 <= sum (map (fun x => (x - mean l) * (x - mean l))%Q l))%Q).
  { generalize (mean l). intros m. clear H. induction l as [|y t IH]; cbn [map sum]; [lra|]. pose proof (qsq (y - m)). lra. }
  assert (P : (0 < inject_Z (Z.of_nat (length l)) - inject_Z ddof)%Q).
  { unfold Qminus. rewrite <- inject_Z_opp, <- inject_Z_plus. change 0%Q with (inject_Z 0). rewrite <- Zlt_Qlt. lia. }
  apply Qle_shift_div_l; auto; lra.
Qed.

Lemma std_step_rs : forall sqrt a m ddof k s x, no_infinity a -> nth_error a k = Some x -> std_state a k s ->
  let r := rs_exp_std_step sqrt m ddof k s x in
  std_state a (S k) (fst r) /\
  let l := vals (firstn (S k) a) in
  (length l < m \/ length l <= ddof -> snd r = NaN) /\
  (m <= length l -> ddof < length l -> exists v, snd r = sqrt (Fin v) /\ (v == variance (Z.of_nat ddof) l)%Q).
Proof.
  intros sqrt a m ddof k [[sm sq] cnt] x HT Hx ((q0 & E0 & H0) & (p0 & E1 & H1) & Hc). cbn [fst snd] in *. subst sm sq cnt. cbv zeta.
  unfold rs_exp_std_step.
  destruct (if negb (isnan x) then (add (Fin q0) x, add (Fin p0) (mul x x), length (vals (firstn k a)) + 1) else (Fin q0, Fin p0, length (vals (firstn k a))))
    as [[s1 t1] c1] eqn:E.
  set (l := vals (firstn (S k) a)).
  assert (K : exists q1 p1, s1 = Fin q1 /\ t1 = Fin p1 /\ (q1 == sum l)%Q /\ (p1 == sumsq l)%Q /\ c1 = length l).
  { unfold l. rewrite (firstn_snoc _ _ _ _ Hx), vals_app, app_length.
    destruct (known a k x HT Hx) as [[-> ->]|(q & -> & ->)]; cbn [isnan XQnum xq_isnan negb length] in *;
      apply pair_equal_spec in E as [E <-]; apply pair_equal_spec in E as [<- <-].
    - exists q0, p0. rewrite app_nil_r, Nat.add_0_r. auto.
    - do 2 eexists. split; [reflexivity|]. split; [reflexivity|]. rewrite !Qred_correct, sum_app, sumsq_app, H0, H1. unfold sumsq at 3. cbn [map sum].
      split; [ring|]. split; [ring|auto]. }
  destruct K as (q1 & p1 & -> & -> & Hq & Hp & ->). cbn [fst snd]. split; [split; [exists q1; auto|split; [exists p1; auto|auto]]|]. split.
  - intros Hl. destruct (Nat.leb_spec m (length l)), (Nat.ltb_spec ddof (length l)); cbn [andb]; auto. lia.
  - intros Hm Hd. rewrite (proj2 (Nat.leb_le _ _) Hm), (proj2 (Nat.ltb_lt _ _) Hd). cbn [andb].
    assert (Hl : l <> []) by (destruct l; [cbn in Hd; lia|discriminate]).
    destruct (divide_count q1 l Hl Hq) as (mu & Em & Hmu). rewrite Em. pose proof (count_pos l Hl) as Hcp.
    clearbody l. set (num := Qred (Qred (p1 - Qred (Qred (inject_Z 2 * q1) * mu)) + Qred (Qred (inject_Z (Z.of_nat (length l)) * mu) * mu))).
    change (@add XQ XQnum (sub (Fin p1) (mul (mul two (Fin q1)) (Fin mu))) (mul (mul (ofZ (Z.of_nat (length l))) (Fin mu)) (Fin mu))) with (Fin num).
    assert (Hnum : (num == sumsq l - mu * sum l)%Q).
    { unfold num. rewrite !Qred_correct, Hq, Hp. change (inject_Z (Z.of_nat (length l))) with (count l).
      assert (Es : (sum l == mu * count l)%Q) by (rewrite Hmu; unfold mean; field; lra). rewrite Es. change (inject_Z 2) with 2%Q. ring. }
    clearbody num.
    assert (Hpos : (0 < inject_Z (Z.of_nat (length l - ddof)))%Q) by (change 0%Q with (inject_Z 0); rewrite <- Zlt_Qlt; lia).
    cbn [div ofZ XQnum xq_div]. assert (Ez : Qeq_bool (inject_Z (Z.of_nat (length l - ddof))) 0 = false) by (qbg; lra). rewrite Ez.
    cbn [abs XQnum].
    destruct (xq_abs_fin (Qred (num / inject_Z (Z.of_nat (length l - ddof))))) as (v & Ev & Hv). unfold fin. rewrite Ev.
    exists v. split; [reflexivity|]. rewrite Hv, Qred_correct, Hnum.
    assert (Evar : (variance (Z.of_nat ddof) l == (sumsq l - mu * sum l) / inject_Z (Z.of_nat (length l - ddof)))%Q).
    { unfold variance. rewrite (variance_alt l mu (Z.of_nat ddof) Hl) by (rewrite Hmu; unfold mean; field; lra).
      assert (Ec : (count l - inject_Z (Z.of_nat ddof) == inject_Z (Z.of_nat (length l - ddof)))%Q).
      { unfold count. rewrite Nat2Z.inj_sub by lia. unfold Qminus. rewrite <- inject_Z_opp, <- inject_Z_plus. reflexivity. }
      rewrite Ec. reflexivity. }
    rewrite <- Evar. apply Qabs.Qabs_pos. apply variance_nonneg. lia.
Qed.

Lemma expanding_std_rs : forall sqrt a m ddof, no_infinity a ->
  length (rs_expanding_std_1d sqrt a m ddof) = length a /\
  forall i, i < length a -> exists y, nth_error (rs_expanding_std_1d sqrt a m ddof) i = Some y /\
    let l := vals (firstn (S i) a) in
    (length l < m \/ length l <= ddof -> y = NaN) /\
    (m <= length l -> ddof < length l -> exists v, y = sqrt (Fin v) /\ (v == variance (Z.of_nat ddof) l)%Q).
Proof.
  intros sqrt a m ddof HT. split; [apply scan_length|]. intros i Hi. destruct (nth_error a i) as [x|] eqn:Hx; [|apply nth_error_None in Hx; lia].
  destruct (scan_spec (rs_exp_std_step sqrt m ddof) (std_state a) a (zero, zero, 0)) with (k := i) (x := x) as (s & Hs & Ho); auto.
  - split; [exists 0%Q; split; reflexivity|]. split; [exists 0%Q; split; reflexivity|reflexivity].
  - intros k s y Hy Hs. apply (std_step_rs sqrt a m ddof k s y HT Hy Hs).
  - eexists. split; [exact Ho|]. apply (std_step_rs sqrt a m ddof i s x HT Hx Hs).
Qed.

(** ** Agreement with Numba *)
Lemma Forall2_nth : forall A B (R : A -> B -> Prop) l1 l2, length l1 = length l2 ->
  (forall i x y, nth_error l1 i = Some x -> nth_error l2 i = Some y -> R x y) -> Forall2 R l1 l2.
Proof.
  intros A B R l1. induction l1 as [|x l1 IH]; intros [|y l2] L H; try discriminate; constructor.
  - apply (H 0); reflexivity.
  - apply IH; [cbn in L; lia|]. intros i u v Hu Hv. apply (H (S i)); auto.
Qed.

Lemma rolling_mean_agrees : forall a w mp out, no_infinity a -> 1 <= w -> rolling_mean_1d_nb a w mp = Ok out ->
  exists out', rs_rolling_mean a w mp = Ok out' /\ Forall2 agrees out' out.
Proof.
  intros a w mp out HT Hw H. unfold rs_rolling_mean. cbv zeta. change (match mp with None => w | Some m => m end) with (or_default mp w).
  destruct (rolling_mean_run a w mp out HT Hw H) as [HL HR].
  assert (Hm : w <? or_default mp w = false).
  { unfold rolling_mean_1d_nb, check_minp in H. apply raise_if_ok in H as [E _]. exact E. }
  unfold rs_validate_window. rewrite Hm. cbn [raise_if]. eexists. split; [reflexivity|].
  destruct (rolling_mean_rs a w (or_default mp w) HT) as [RL RR]. apply Forall2_nth; [lia|]. intros i x y Hx Hy.
  assert (Hi : i < length a) by (rewrite <- RL; apply nth_error_Some; congruence).
  destruct (HR i Hi) as (y' & Ey & H1 & H2). destruct (RR i Hi) as (x' & Ex & R1 & R2). cbv zeta in *.
  assert (y' = y) by congruence. assert (x' = x) by congruence. subst x' y'. fold (or_default mp w) in H1, H2.
  change (match mp with None => w | Some m => m end) with (or_default mp w) in H1, H2.
  destruct (le_lt_dec (or_default mp w) (length (vals (window w i a)))) as [Hl|Hl].
  - destruct (H2 Hl) as (q & -> & Hn & Hq). assert (1 <= length (vals (window w i a))) by (destruct (vals (window w i a)); [congruence|cbn; lia]).
    destruct (R2 ltac:(lia)) as (p & -> & Hp). cbn. rewrite Hp, Hq. reflexivity.
  - rewrite (H1 Hl), R1 by lia. exact I.
Qed.

Lemma expanding_mean_agrees : forall a m out, no_infinity a -> expanding_mean_1d_nb a m = Ok out -> Forall2 agrees (rs_expanding_mean_1d a m) out.
Proof.
  intros a m out HT H. destruct (expanding_mean_run a m out HT H) as [HL HR]. destruct (expanding_mean_rs a m HT) as [RL RR].
  apply Forall2_nth; [lia|]. intros i x y Hx Hy.
  assert (Hi : i < length a) by (rewrite <- RL; apply nth_error_Some; congruence).
  destruct (HR i Hi) as (y' & Ey & H1 & H2). destruct (RR i Hi) as (x' & Ex & R1 & R2). cbv zeta in *.
  assert (y' = y) by congruence. assert (x' = x) by congruence. subst x' y'.
  destruct (le_lt_dec m (length (vals (firstn (S i) a)))) as [Hl|Hl].
  - destruct (H2 Hl) as (q & -> & Hn & Hq). assert (1 <= length (vals (firstn (S i) a))) by (destruct (vals (firstn (S i) a)); [congruence|cbn; lia]).
    destruct (R2 ltac:(lia)) as (p & -> & Hp). cbn. rewrite Hp, Hq. reflexivity.
  - rewrite (H1 Hl), R1 by lia. exact I.
Qed.

Lemma expanding_std_agrees : forall sqrt tol a m ddof out, no_infinity a -> (forall p q, (p == q)%Q -> agrees (sqrt (Fin p)) (sqrt (Fin q))) ->
  expanding_std_1d_nb sqrt tol a m (Z.of_nat ddof) = Ok out -> Forall2 agrees (rs_expanding_std_1d sqrt a m ddof) out.
Proof.
  intros sqrt tol a m ddof out HT Hsq H. destruct (expanding_std_run sqrt tol a m _ out HT H) as [HL HR]. destruct (expanding_std_rs sqrt a m ddof HT) as [RL RR].
  apply Forall2_nth; [lia|]. intros i x y Hx Hy.
  assert (Hi : i < length a) by (rewrite <- RL; apply nth_error_Some; congruence).
  destruct (HR i Hi) as (y' & Ey & H1 & H2). destruct (RR i Hi) as (x' & Ex & R1 & R2). cbv zeta in *.
  assert (y' = y) by congruence. assert (x' = x) by congruence. subst x' y'.
  destruct (le_lt_dec m (length (vals (firstn (S i) a)))) as [Hl|Hl]; [destruct (le_lt_dec (length (vals (firstn (S i) a))) ddof) as [Hd|Hd]|].
  - rewrite H1 by (right; lia). rewrite R1 by (right; lia). exact I.
  - destruct H2 as (v & -> & Hv); [lia|lia|]. destruct (R2 Hl Hd) as (v' & -> & Hv'). apply Hsq. rewrite Hv, Hv'. reflexivity.
  - rewrite H1 by (left; lia). rewrite R1 by (left; lia). exact I.
Qed.

Lemma rolling_mean_accepts : forall a w minp, no_infinity a -> or_default minp w <= w ->
  exists out, rs_rolling_mean a w minp = Ok out /\ length out = length a /\
  forall i, i < length a -> exists y, nth_error out i = Some y /\
    let l := vals (window w i a) in
    let m := Nat.max (or_default minp w) 1 in
    (length l < m -> y = NaN) /\ (m <= length l -> exists q, y = Fin q /\ (q == mean l)%Q).
Proof.
  intros a w minp HT Hm. unfold rs_rolling_mean. cbv zeta. change (match minp with None => w | Some m => m end) with (or_default minp w).
  unfold rs_validate_window. rewrite (proj2 (Nat.ltb_ge _ _) Hm). eexists. split; [reflexivity|]. apply (rolling_mean_rs a w (or_default minp w) HT).
Qed.
