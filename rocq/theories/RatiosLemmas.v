(** * Risk and reward ratios: proofs *)
From Coq Require Import ZArith QArith Qabs Bool List Arith Lia Lqa.
From Verif Require Import Base Num XQFacts OrdLaws GenericNb GenericSpec GenericLemmas GenericLemmas2
  ReturnsNb ReturnsSpec ReturnsLemmas ReturnsLemmas2 ReturnsLemmas3 ReturnsLemmas4 ReturnsLemmas5 RatiosSpec.
Import ListNotations.
Local Open Scope nat_scope.

Lemma vals_map : forall (f : XQ -> XQ) (g : Q -> Q) rs,
  (forall q, exists p, f (Fin q) = Fin p /\ (p == g q)%Q) -> f NaN = NaN -> no_infinity rs ->
  no_infinity (map f rs) /\ Forall2 Qeq (vals (map f rs)) (map g (vals rs)).
Proof.
  intros f g rs Hf Hn. induction rs as [|x rs IH]; intros H; [split; [intros y []|constructor]|].
  pose proof (no_inf_hd _ _ H) as Hx. apply no_inf_cons in H. destruct (IH H) as [I1 I2].
  cbn [map]. destruct Hx as [->|[q ->]].
  - rewrite Hn. split; [|exact I2]. intros y [<-|Hy]; [split; discriminate|auto].
  - destruct (Hf q) as (p & -> & Hp). cbn [vals map]. split; [|constructor; auto].
    intros y [<-|Hy]; [split; discriminate|auto].
Qed.

Lemma F2_map : forall (f : Q -> Q) l l', (forall p q, (p == q)%Q -> (f p == f q)%Q) -> Forall2 Qeq l l' ->
  Forall2 Qeq (map f l) (map f l').
Proof. intros f l l' Hf H. induction H; constructor; auto. Qed.

Lemma F2_map2 : forall (f g : Q -> Q) l l', (forall p q, (p == q)%Q -> (f p == g q)%Q) -> Forall2 Qeq l l' ->
  Forall2 Qeq (map f l) (map g l').
Proof. intros f g l l' Hf H. induction H; constructor; auto. Qed.

Lemma variance_ext : forall d l l', Forall2 Qeq l l' -> (variance d l == variance d l')%Q.
Proof.
  intros d l l' H. unfold variance. pose proof (mean_ext _ _ H) as Hm.
  assert (E : Forall2 Qeq (map (fun x => (x - mean l) * (x - mean l))%Q l)
                          (map (fun x => (x - mean l') * (x - mean l'))%Q l')).
  { apply F2_map2; [|exact H]. intros p q Hpq. rewrite Hpq, Hm. reflexivity. }
  rewrite (sum_ext _ _ E).
  unfold count. rewrite (F2_length _ _ H). reflexivity.
Qed.

Lemma nansq_fold : forall l m c, no_infinity l -> exists s,
  fold_left (fun c v => if isnan v then c else add c (mul (sub v (Fin m)) (sub v (Fin m)))) l (Fin c) = Fin s /\
  (s == c + sum (map (fun x => (x - m) * (x - m)) (vals l)))%Q.
Proof.
  induction l as [|x l IH]; intros m c H.
  - exists c. split; [reflexivity|]. cbn [vals map sum]. ring.
  - pose proof (no_inf_hd _ _ H) as Hx. apply no_inf_cons in H.
    destruct Hx as [->|[q ->]]; cbn [fold_left isnan XQnum xq_isnan].
    + destruct (IH m c H) as (s & E & Hs). exists s. split; [exact E|exact Hs].
    + rewrite sub_fin, mul_fin, add_fin.
      destruct (IH m (Qred (c + Qred (Qred (q - m) * Qred (q - m)))) H) as (s & E & Hs).
      exists s. split; [exact E|]. rewrite Hs, !Qred_correct. cbn [vals map sum]. ring.
Qed.

Lemma nanvar_run : forall l, no_infinity l -> vals l <> [] ->
  is_number (np_nanvar l) (sum (map (fun x => (x - mean (vals l)) * (x - mean (vals l))) (vals l)) / count (vals l))%Q.
Proof.
  intros l H Hne. unfold np_nanvar. destruct (nanmean_run l H Hne) as (m & -> & Hm). cbv zeta.
  change zero with (Fin 0). destruct (nansq_fold l m 0 H) as (s & -> & Hs).
  rewrite count_numbers_vals by exact H. pose proof (count_pos _ Hne) as Hp. unfold count in Hp.
  change (ofZ (Z.of_nat (length (vals l)))) with (Fin (inject_Z (Z.of_nat (length (vals l))))).
  rewrite div_fin by lra. eexists. split; [reflexivity|]. rewrite Qred_correct, Hs.
  rewrite (sum_map_ext _ (fun x => (x - m) * (x - m))%Q
             (fun x => (x - mean (vals l)) * (x - mean (vals l)))%Q) by (intros x _; rewrite Hm; reflexivity).
  unfold count. rewrite Qplus_0_l. reflexivity.
Qed.

Section Ratios.
  Variables (sqrt : XQ -> XQ) (root : Q -> Q) (pow : XQ -> XQ -> XQ) (power_of : Q -> Q -> Q).
  Hypothesis Hroot : computes_root sqrt root.
  Hypothesis Hpow : computes_power pow power_of.

  Lemma sqrt_number : forall y q, is_number y q -> is_number (sqrt y) (root q).
  Proof. intros y q (p & -> & Hp). exists (root p). split; [apply Hroot|]. now apply Hroot. Qed.
  Lemma pow_number : forall y z a e, is_number y a -> is_number z e -> is_number (pow y z) (power_of a e).
  Proof.
    intros y z a e (p & -> & Hp) (q & -> & Hq). exists (power_of p q). split; [apply Hpow|]. now apply Hpow.
  Qed.
  Lemma mul_number : forall y z a b, is_number y a -> is_number z b -> is_number (mul y z) (a * b)%Q.
  Proof.
    intros y z a b (p & -> & Hp) (q & -> & Hq). rewrite mul_fin. eexists. split; [reflexivity|].
    rewrite Qred_correct, Hp, Hq. reflexivity.
  Qed.
  Lemma add_number : forall y z a b, is_number y a -> is_number z b -> is_number (add y z) (a + b)%Q.
  Proof.
    intros y z a b (p & -> & Hp) (q & -> & Hq). rewrite add_fin. eexists. split; [reflexivity|].
    rewrite Qred_correct, Hp, Hq. reflexivity.
  Qed.
  Lemma sub_number : forall y z a b, is_number y a -> is_number z b -> is_number (sub y z) (a - b)%Q.
  Proof.
    intros y z a b (p & -> & Hp) (q & -> & Hq). rewrite sub_fin. eexists. split; [reflexivity|].
    rewrite Qred_correct, Hp, Hq. reflexivity.
  Qed.
  Lemma div_number : forall y z a b, is_number y a -> is_number z b -> ~ (b == 0)%Q -> is_number (div y z) (a / b)%Q.
  Proof.
    intros y z a b (p & -> & Hp) (q & -> & Hq) Hb. rewrite div_fin by (rewrite Hq; exact Hb).
    eexists. split; [reflexivity|]. rewrite Qred_correct, Hp, Hq. reflexivity.
  Qed.
  Lemma number_ext : forall y a b, is_number y a -> (a == b)%Q -> is_number y b.
  Proof. intros y a b (p & -> & Hp) H. exists p. split; [reflexivity|]. rewrite Hp. exact H. Qed.
  Lemma fin_number : forall q, is_number (Fin q) q.
  Proof. intros q. exists q. split; reflexivity. Qed.
  Lemma eqb_zero_number : forall y q, is_number y q -> eqb y zero = Qeq_bool q 0.
  Proof.
    intros y q (p & -> & Hp). cbn [eqb XQnum xq_eqb zero ofZ]. apply eq_iff_eq_true.
    rewrite !Qeq_bool_iff. rewrite Hp. reflexivity.
  Qed.

  Lemma nanstd_run : forall l ddof, no_infinity l -> (ddof < Z.of_nat (length (vals l)))%Z -> vals l <> [] ->
    is_number (nanstd_1d_nb sqrt l ddof) (root (variance ddof (vals l))).
  Proof.
    intros l ddof H Hd Hne. unfold nanstd_1d_nb. rewrite count_numbers_vals by exact H. cbv zeta.
    set (n := Z.of_nat (length (vals l))) in *.
    replace (Z.max (n - ddof) 0) with (n - ddof)%Z by lia.
    destruct (Z.eqb_spec (n - ddof) 0) as [E|_]; [lia|].
    apply sqrt_number. pose proof (count_pos _ Hne) as Hp. unfold count in Hp. fold n in Hp.
    assert (Hnd : (0 < inject_Z (n - ddof))%Q).
    { change 0%Q with (inject_Z 0). rewrite <- Zlt_Qlt. lia. }
    assert (Hnd' : (inject_Z (n - ddof) == inject_Z n - inject_Z ddof)%Q).
    { unfold Z.sub. rewrite inject_Z_plus, inject_Z_opp. reflexivity. }
    eapply number_ext.
    - apply div_number; [apply mul_number; [apply nanvar_run; assumption|apply fin_number]|apply fin_number|lra].
    - unfold variance, count. fold n. rewrite Hnd' in *. field. lra.
  Qed.

  Lemma nanstd_nan : forall l ddof, no_infinity l -> (Z.of_nat (length (vals l)) <= ddof)%Z ->
    nanstd_1d_nb sqrt l ddof = NaN.
  Proof.
    intros l ddof H Hd. unfold nanstd_1d_nb. rewrite count_numbers_vals by exact H. cbv zeta.
    rewrite Z.max_r by lia. reflexivity.
  Qed.

  Lemma excess_run : forall rs r, no_infinity rs ->
    no_infinity (map (fun x => sub x (Fin r)) rs) /\
    Forall2 Qeq (vals (map (fun x => sub x (Fin r)) rs)) (excess r (vals rs)).
  Proof.
    intros rs r H. apply (vals_map (fun x => sub x (Fin r)) (fun x => x - r)%Q); [|reflexivity|exact H].
    intros q. eexists. rewrite sub_fin. split; [reflexivity|]. apply Qred_correct.
  Qed.

  Lemma F2_nonempty : forall l l', Forall2 Qeq l l' -> l' <> [] -> l <> [].
  Proof. intros l l' H Hn ->. inversion H; subst. congruence. Qed.
  Lemma excess_nonempty : forall r xs, xs <> [] -> excess r xs <> [].
  Proof. intros r [|x xs] H; [congruence|discriminate]. Qed.

  Lemma volatility_run : forall rs af alpha ddof, no_infinity rs -> 2 <= length rs -> ~ (alpha == 0)%Q ->
    ((ddof < Z.of_nat (length (vals rs)))%Z -> vals rs <> [] ->
       exists y, annualized_volatility_1d_nb pow sqrt rs (Fin af) (Fin alpha) ddof = Ok y /\
         is_number y (root (variance ddof (vals rs)) * power_of af (1 / alpha))%Q) /\
    ((Z.of_nat (length (vals rs)) <= ddof)%Z ->
       annualized_volatility_1d_nb pow sqrt rs (Fin af) (Fin alpha) ddof = Ok NaN).
  Proof.
    intros rs af alpha ddof H Hl Ha. unfold annualized_volatility_1d_nb.
    replace (Nat.ltb (length rs) 2) with false by (symmetry; apply Nat.ltb_ge; exact Hl).
    assert (E : sdiv one (Fin alpha) = Ok (div one (Fin alpha))).
    { unfold sdiv. rewrite (eqb_zero_number (Fin alpha) alpha (fin_number alpha)).
      destruct (Qeq_bool alpha 0) eqn:Eq; [apply Qeq_bool_iff in Eq; contradiction|reflexivity]. }
    rewrite E. cbn [bind]. split.
    - intros Hd Hne. eexists. split; [reflexivity|]. apply mul_number; [apply nanstd_run; assumption|].
      apply pow_number; [apply fin_number|]. apply div_number; [apply fin_number|apply fin_number|exact Ha].
    - intros Hd. rewrite nanstd_nan by assumption. reflexivity.
  Qed.

  Lemma sharpe_run : forall rs af r ddof, no_infinity rs -> 2 <= length rs -> vals rs <> [] ->
    (ddof < Z.of_nat (length (vals rs)))%Z ->
    let risk := root (variance ddof (excess r (vals rs))) in
    ((risk == 0)%Q -> sharpe_ratio_1d_nb sqrt rs (Fin af) (Fin r) ddof = PInf) /\
    (~ (risk == 0)%Q ->
       is_number (sharpe_ratio_1d_nb sqrt rs (Fin af) (Fin r) ddof)
         (mean (excess r (vals rs)) / risk * root af)%Q).
  Proof.
    intros rs af r ddof H Hl Hne Hd risk. unfold sharpe_ratio_1d_nb.
    replace (Nat.ltb (length rs) 2) with false by (symmetry; apply Nat.ltb_ge; exact Hl).
    destruct (excess_run rs r H) as [I F].
    assert (Hne' : vals (map (fun x => sub x (Fin r)) rs) <> []).
    { eapply F2_nonempty; [exact F|]. now apply excess_nonempty. }
    assert (Hs : is_number (nanstd_1d_nb sqrt (map (fun x => sub x (Fin r)) rs) ddof) risk).
    { eapply number_ext; [apply nanstd_run; [exact I| |exact Hne']|].
      - rewrite (F2_length _ _ F). unfold excess. rewrite map_length. exact Hd.
      - apply Hroot. now apply variance_ext. }
    cbv zeta. rewrite (eqb_zero_number _ _ Hs). split; intros Hr.
    - rewrite (proj2 (Qeq_bool_iff _ _) Hr). reflexivity.
    - destruct (Qeq_bool risk 0) eqn:E; [apply Qeq_bool_iff in E; contradiction|].
      apply mul_number; [|apply sqrt_number, fin_number]. apply div_number; [|exact Hs|exact Hr].
      eapply number_ext; [apply nanmean_run; assumption|]. now apply mean_ext.
  Qed.

  Lemma downside_run : forall rs af r, no_infinity rs -> vals rs <> [] ->
    is_number (downside_risk_1d_nb sqrt rs (Fin af) (Fin r))
      (root (mean (squares (shortfalls (excess r (vals rs))))) * root af)%Q.
  Proof.
    intros rs af r H Hne. unfold downside_risk_1d_nb. cbv zeta.
    apply mul_number; [|apply sqrt_number, fin_number]. apply sqrt_number.
    rewrite map_map.
    destruct (vals_map (fun x => mul (if gtb (sub x (Fin r)) zero then zero else sub x (Fin r))
                                     (if gtb (sub x (Fin r)) zero then zero else sub x (Fin r)))
                (fun q => let x := (if qlt_bool 0 (q - r)%Q then 0 else q - r)%Q in (x * x)%Q) rs) as [I F].
    - intros q. rewrite sub_fin.
      assert (E : gtb (Fin (Qred (q - r)%Q)) zero = qlt_bool 0 (q - r)%Q).
      { unfold gtb. cbn [ltb XQnum xq_ltb zero ofZ]. unfold qlt_bool. f_equal. apply eq_iff_eq_true.
        rewrite !Qle_bool_iff, Qred_correct. reflexivity. }
      rewrite E. destruct (qlt_bool 0 (q - r)%Q).
      + eexists. split; [reflexivity|]. cbv zeta. reflexivity.
      + rewrite mul_fin. eexists. split; [reflexivity|]. cbv zeta. rewrite !Qred_correct. reflexivity.
    - reflexivity.
    - exact H.
    - eapply number_ext; [apply nanmean_run; [exact I|]|].
      + eapply F2_nonempty; [exact F|]. destruct (vals rs); [congruence|discriminate].
      + apply mean_ext. unfold squares, shortfalls, excess. rewrite !map_map. exact F.
  Qed.

  Lemma sortino_run : forall rs af r, no_infinity rs -> 2 <= length rs -> vals rs <> [] ->
    let risk := (root (mean (squares (shortfalls (excess r (vals rs))))) * root af)%Q in
    ((risk == 0)%Q -> sortino_ratio_1d_nb sqrt rs (Fin af) (Fin r) = PInf) /\
    (~ (risk == 0)%Q ->
       is_number (sortino_ratio_1d_nb sqrt rs (Fin af) (Fin r)) (mean (excess r (vals rs)) * af / risk)%Q).
  Proof.
    intros rs af r H Hl Hne risk. unfold sortino_ratio_1d_nb.
    replace (Nat.ltb (length rs) 2) with false by (symmetry; apply Nat.ltb_ge; exact Hl).
    pose proof (downside_run rs af r H Hne) as Hs. fold risk in Hs. cbv zeta.
    rewrite (eqb_zero_number _ _ Hs). destruct (excess_run rs r H) as [I F]. split; intros Hr.
    - rewrite (proj2 (Qeq_bool_iff _ _) Hr). reflexivity.
    - destruct (Qeq_bool risk 0) eqn:E; [apply Qeq_bool_iff in E; contradiction|].
      apply div_number; [|exact Hs|exact Hr]. apply mul_number; [|apply fin_number].
      eapply number_ext; [apply nanmean_run; [exact I|]|now apply mean_ext].
      eapply F2_nonempty; [exact F|]. now apply excess_nonempty.
  Qed.

  (** ** Omega *)
  Lemma omega_sums : forall rs rf t, no_infinity rs ->
    let l := map (fun r => sub (sub r (Fin rf)) (Fin t)) rs in
    is_number (np_sum (filter (fun x => gtb x zero) l)) (gains (excess (rf + t)%Q (vals rs))) /\
    is_number (mul (neg one) (np_sum (filter (fun x => ltb x zero) l))) (losses (excess (rf + t)%Q (vals rs))).
  Proof.
    intros rs rf t H l.
    assert (S : forall (p : XQ -> bool) (f : Q -> Q) rs, no_infinity rs -> p NaN = false ->
      (forall q, f q == if p (Fin (Qred (Qred (q - rf) - t))) then q - rf - t else 0)%Q ->
      forall c, exists s, fold_left add (filter p (map (fun r => sub (sub r (Fin rf)) (Fin t)) rs)) (Fin c) = Fin s /\
        (s == c + sum (map f (vals rs)))%Q).
    { intros p f. induction rs0 as [|x rs0 IH]; intros Hi Hp Hf c.
      - exists c. split; [reflexivity|]. cbn [vals map sum]. ring.
      - pose proof (no_inf_hd _ _ Hi) as Hx. apply no_inf_cons in Hi. destruct Hx as [->|[q ->]]; cbn [map filter].
        + change (sub (sub NaN (Fin rf)) (Fin t)) with NaN. rewrite Hp. cbn [vals]. now apply IH.
        + rewrite !sub_fin. cbn [vals map sum]. specialize (Hf q) as Hq.
          destruct (p (Fin (Qred (Qred (q - rf) - t)))).
          * cbn [fold_left]. rewrite add_fin.
            destruct (IH Hi Hp Hf (Qred (c + Qred (Qred (q - rf) - t)))) as (s & E & Hs).
            exists s. split; [exact E|]. rewrite Hs, Hq, !Qred_correct. ring.
          * destruct (IH Hi Hp Hf c) as (s & E & Hs). exists s. split; [exact E|]. rewrite Hs, Hq. ring. }
    assert (B : forall q, (Qred (Qred (q - rf) - t) == q - (rf + t))%Q) by (intros q; rewrite !Qred_correct; ring).
    split.
    - destruct (S (fun x => @gtb _ XQnum x (Fin 0)) (fun q => let x := (q - (rf + t))%Q in if qlt_bool 0 x then x else 0%Q) rs H
        eq_refl) with (c := 0%Q) as (s & E & Hs).
      + intros q. cbv zeta. unfold gtb. cbn [ltb XQnum xq_ltb zero ofZ].
        replace (qlt_bool 0 (Qred (Qred (q - rf) - t))) with (qlt_bool 0 (q - (rf + t))%Q).
        * destruct (qlt_bool 0 (q - (rf + t))%Q); [ring|reflexivity].
        * unfold qlt_bool. f_equal. apply eq_iff_eq_true. rewrite !Qle_bool_iff, B. reflexivity.
      + exists s. split; [exact E|]. rewrite Hs. unfold gains, excess. rewrite map_map. ring.
    - destruct (S (fun x => @ltb _ XQnum x (Fin 0)) (fun q => let x := (q - (rf + t))%Q in if qlt_bool x 0 then x else 0%Q) rs H
        eq_refl) with (c := 0%Q) as (s & E & Hs).
      + intros q. cbv zeta. cbn [ltb XQnum xq_ltb zero ofZ].
        replace (qlt_bool (Qred (Qred (q - rf) - t)) 0) with (qlt_bool (q - (rf + t))%Q 0).
        * destruct (qlt_bool (q - (rf + t))%Q 0); [ring|reflexivity].
        * unfold qlt_bool. f_equal. apply eq_iff_eq_true. rewrite !Qle_bool_iff, B. reflexivity.
      + unfold np_sum, l. change zero with (Fin 0). rewrite E.
        change (neg one) with (Fin (-1)). rewrite mul_fin. eexists. split; [reflexivity|]. rewrite Qred_correct, Hs.
        unfold losses, excess. rewrite map_map.
        rewrite (sum_map_ext _ (fun x => if qlt_bool (x - (rf + t)) 0 then - (x - (rf + t)) else 0)%Q
          (fun x => (-1) * (if qlt_bool (x - (rf + t)) 0 then x - (rf + t) else 0))%Q)
          by (intros x _; destruct (qlt_bool (x - (rf + t)) 0); ring).
        rewrite sum_map_scale. ring.
  Qed.

  Lemma gains_ext : forall l l', Forall2 Qeq l l' -> (gains l == gains l')%Q /\ (losses l == losses l')%Q.
  Proof.
    assert (Q1 : forall p q, (p == q)%Q -> qlt_bool 0 p = qlt_bool 0 q /\ qlt_bool p 0 = qlt_bool q 0).
    { intros p q E. unfold qlt_bool. split; f_equal; apply eq_iff_eq_true; rewrite !Qle_bool_iff, E; reflexivity. }
    intros l l' H. unfold gains, losses. split; apply sum_ext; (apply F2_map; [|exact H]); intros p q E;
      destruct (Q1 p q E) as [E1 E2]; [rewrite E1; destruct (qlt_bool 0 q)|rewrite E2; destruct (qlt_bool q 0)];
      rewrite ?E; reflexivity.
  Qed.

  Lemma omega_run : forall rs af rf rr, no_infinity rs -> (-1 < af)%Q -> ~ (af == 0)%Q ->
    let threshold := if Qeq_bool af 1 then rr else (power_of (1 + rr) (1 / af) - 1)%Q in
    let xs := excess (rf + threshold)%Q (vals rs) in
    ((losses xs == 0)%Q -> omega_ratio_1d_nb pow rs (Fin af) (Fin rf) (Fin rr) = Ok PInf) /\
    (~ (losses xs == 0)%Q -> exists y, omega_ratio_1d_nb pow rs (Fin af) (Fin rf) (Fin rr) = Ok y /\
       is_number y (gains xs / losses xs)%Q).
  Proof.
    intros rs af rf rr H Haf Haf0 threshold xs. unfold omega_ratio_1d_nb. cbv zeta.
    assert (R : forall t, (t == threshold)%Q ->
      let l := map (fun r => sub (sub r (Fin rf)) (Fin t)) rs in
      let answer := if eqb (mul (neg one) (np_sum (filter (fun x => ltb x zero) l))) zero then Ok pinf
         else Ok (div (np_sum (filter (fun x => gtb x zero) l))
                      (mul (neg one) (np_sum (filter (fun x => ltb x zero) l)))) in
      ((losses xs == 0)%Q -> answer = Ok PInf) /\
      (~ (losses xs == 0)%Q -> exists y, answer = Ok y /\ is_number y (gains xs / losses xs)%Q)).
    { intros t Ht l. destruct (omega_sums rs rf t H) as [G L]. fold l in G, L.
      assert (F : Forall2 Qeq (excess (rf + t)%Q (vals rs)) xs).
      { unfold xs, excess. clear -Ht. induction (vals rs); constructor; auto. rewrite Ht. reflexivity. }
      destruct (gains_ext _ _ F) as [Eg El]. cbv zeta.
      pose proof (number_ext _ _ _ G Eg) as G'. pose proof (number_ext _ _ _ L El) as L'.
      rewrite (eqb_zero_number _ _ L'). split; intros Hz.
      - rewrite (proj2 (Qeq_bool_iff _ _) Hz). reflexivity.
      - destruct (Qeq_bool (losses xs) 0) eqn:E; [apply Qeq_bool_iff in E; contradiction|].
        eexists. split; [reflexivity|]. now apply div_number. }
    assert (E1 : eqb (Fin af) one = Qeq_bool af 1) by reflexivity. rewrite E1.
    unfold threshold in R, xs |- *. destruct (Qeq_bool af 1) eqn:Ea.
    - exact (R rr (Qeq_refl _)).
    - assert (E2 : leb (Fin af) (neg one) = false).
      { apply not_true_iff_false. intros E. change (Qle_bool af (-1) = true) in E. apply Qle_bool_iff in E. lra. }
      rewrite E2.
      assert (E3 : sdiv one (Fin af) = Ok (div one (Fin af))).
      { unfold sdiv. rewrite (eqb_zero_number (Fin af) af (fin_number af)).
        destruct (Qeq_bool af 0) eqn:Eq; [apply Qeq_bool_iff in Eq; contradiction|reflexivity]. }
      rewrite E3. cbn [bind].
      destruct (sub_number (pow (add one (Fin rr)) (div one (Fin af))) one (power_of (1 + rr) (1 / af)) 1) as (t & Et & Ht).
      { apply pow_number; [apply add_number; apply fin_number|].
        apply div_number; [apply fin_number|apply fin_number|exact Haf0]. }
      { apply fin_number. }
      rewrite Et. exact (R t Ht).
  Qed.

  (** ** Against a benchmark *)
  Lemma differences_run : forall rb, no_infinite_pair rb ->
    no_infinity (map (fun x => sub (fst x) (snd x)) rb) /\
    Forall2 Qeq (vals (map (fun x => sub (fst x) (snd x)) rb)) (differences (pairs rb)).
  Proof.
    induction rb as [|[r b] rb IH]; intros H; [split; [intros x []|constructor]|].
    apply pairs_cons in H as [H Hc]. destruct (IH H) as [I1 I2]. cbn [map fst snd].
    destruct Hc as [[En ->]|(p & q & -> & -> & ->)].
    - assert (E : sub r b = NaN).
      { destruct r; try discriminate En; try reflexivity; destruct b; try discriminate En; reflexivity. }
      rewrite E. split; [|exact I2]. intros x [<-|Hx]; [split; discriminate|auto].
    - rewrite sub_fin. cbn [vals differences map fst snd]. split.
      + intros x [<-|Hx]; [split; discriminate|auto].
      + constructor; [apply Qred_correct|exact I2].
  Qed.

  Lemma information_run : forall rb ddof, no_infinite_pair rb -> 2 <= length rb -> pairs rb <> [] ->
    (ddof < Z.of_nat (length (pairs rb)))%Z ->
    let risk := root (variance ddof (differences (pairs rb))) in
    ((risk == 0)%Q -> information_ratio_1d_nb sqrt rb ddof = PInf) /\
    (~ (risk == 0)%Q -> is_number (information_ratio_1d_nb sqrt rb ddof) (mean (differences (pairs rb)) / risk)%Q).
  Proof.
    intros rb ddof H Hl Hne Hd risk. unfold information_ratio_1d_nb.
    replace (Nat.ltb (length rb) 2) with false by (symmetry; apply Nat.ltb_ge; exact Hl).
    destruct (differences_run rb H) as [I F].
    assert (Hne' : vals (map (fun x => sub (fst x) (snd x)) rb) <> []).
    { eapply F2_nonempty; [exact F|]. destruct (pairs rb); [congruence|discriminate]. }
    assert (Hs : is_number (nanstd_1d_nb sqrt (map (fun x => sub (fst x) (snd x)) rb) ddof) risk).
    { eapply number_ext; [apply nanstd_run; [exact I| |exact Hne']|].
      - rewrite (F2_length _ _ F). unfold differences. rewrite map_length. exact Hd.
      - apply Hroot. now apply variance_ext. }
    cbv zeta. rewrite (eqb_zero_number _ _ Hs). split; intros Hr.
    - rewrite (proj2 (Qeq_bool_iff _ _) Hr). reflexivity.
    - destruct (Qeq_bool risk 0) eqn:E; [apply Qeq_bool_iff in E; contradiction|].
      apply div_number; [|exact Hs|exact Hr].
      eapply number_ext; [apply nanmean_run; assumption|]. now apply mean_ext.
  Qed.

  Lemma alpha_series_run : forall rb b rf, no_infinite_pair rb ->
    let f := fun x => sub (sub (fst x) (Fin rf)) (mul (Fin b) (sub (snd x) (Fin rf))) in
    no_infinity (map f rb) /\
    Forall2 Qeq (vals (map f rb)) (map (fun x => fst x - rf - b * (snd x - rf)) (pairs rb))%Q.
  Proof.
    intros rb b rf H f. revert H. induction rb as [|[r k] rb IH]; intros H; [split; [intros x []|constructor]|].
    apply pairs_cons in H as [H Hc]. destruct (IH H) as [I1 I2]. cbn [map].
    destruct Hc as [[En ->]|(p & q & -> & -> & ->)].
    - assert (E : f (r, k) = NaN).
      { unfold f. cbn [fst snd].
        destruct r; try discriminate En; try reflexivity; destruct k; try discriminate En; reflexivity. }
      rewrite E. split; [|exact I2]. intros x [<-|Hx]; [split; discriminate|auto].
    - unfold f at 1 3. cbn [fst snd]. rewrite !sub_fin, mul_fin, sub_fin. cbn [vals map fst snd]. split.
      + intros x [<-|Hx]; [split; discriminate|auto].
      + constructor; [rewrite !Qred_correct; reflexivity|exact I2].
  Qed.

  Lemma alpha_run : forall rb af rf beta, no_infinite_pair rb -> 2 <= length rb -> pairs rb <> [] ->
    is_number (beta_1d_nb rb) beta ->
    is_number (alpha_1d_nb pow rb (Fin af) (Fin rf))
      (power_of (mean (map (fun x => fst x - rf - beta * (snd x - rf)) (pairs rb)) + 1) af - 1)%Q.
  Proof.
    intros rb af rf beta H Hl Hne (b & Eb & Hb). unfold alpha_1d_nb.
    replace (Nat.ltb (length rb) 2) with false by (symmetry; apply Nat.ltb_ge; exact Hl).
    cbv zeta. rewrite Eb. destruct (alpha_series_run rb b rf H) as [I F].
    apply sub_number; [|apply fin_number]. apply pow_number; [|apply fin_number].
    apply add_number; [|apply fin_number].
    eapply number_ext; [apply nanmean_run; [exact I|]|].
    - eapply F2_nonempty; [exact F|]. destruct (pairs rb); [congruence|discriminate].
    - rewrite (mean_ext _ _ F). apply mean_ext. clear -Hb. induction (pairs rb) as [|x l IH]; constructor; auto.
      rewrite Hb. reflexivity.
  Qed.

  (** ** Growth *)
  Lemma annualized_run : forall rs af, no_infinity rs -> rs <> [] ->
    is_number (annualized_return_1d_nb pow rs (Fin af)) (yearly power_of af rs).
  Proof.
    intros rs af H Hne. unfold annualized_return_1d_nb. destruct rs as [|x rs]; [congruence|].
    set (l := x :: rs) in *. apply sub_number; [|apply fin_number]. apply pow_number.
    - pose proof (final_run l 1 H) as F. eapply number_ext; [exact F|]. cbn. ring.
    - apply div_number; [apply fin_number|apply fin_number|].
      unfold l. cbn [length]. rewrite Nat2Z.inj_succ.
      assert (0 < inject_Z (Z.succ (Z.of_nat (length rs))))%Q.
      { change 0%Q with (inject_Z 0). rewrite <- Zlt_Qlt. lia. }
      lra.
  Qed.

  Lemma calmar_run : forall rs af d, no_infinity rs -> rs <> [] ->
    (exists y, max_drawdown_1d_nb rs = Ok y /\ is_number y d) ->
    ((d == 0)%Q -> calmar_ratio_1d_nb pow rs (Fin af) = Ok NaN) /\
    (~ (d == 0)%Q -> exists z, calmar_ratio_1d_nb pow rs (Fin af) = Ok z /\
       is_number z (yearly power_of af rs / Qabs d)%Q).
  Proof.
    intros rs af d H Hne (y & Ey & Hy). unfold calmar_ratio_1d_nb. rewrite Ey. cbn [bind].
    rewrite (eqb_zero_number _ _ Hy). split; intros Hd.
    - rewrite (proj2 (Qeq_bool_iff _ _) Hd). reflexivity.
    - destruct (Qeq_bool d 0) eqn:E; [apply Qeq_bool_iff in E; contradiction|].
      eexists. split; [reflexivity|]. apply div_number; [now apply annualized_run| |].
      + destruct Hy as (p & -> & Hp). cbn [abs XQnum xq_abs]. destruct (Qle_bool 0 p) eqn:El.
        * apply Qle_bool_iff in El. exists p. split; [reflexivity|]. rewrite <- Hp, Qabs_pos by exact El. reflexivity.
        * exists (Qred (- p)). split; [reflexivity|]. rewrite Qred_correct, <- Hp, Qabs_neg; [reflexivity|].
          assert (~ (0 <= p)%Q) by (intros Hc; apply Qle_bool_iff in Hc; congruence). lra.
      + intros Ha. apply Hd. revert Ha. apply Qabs_case; intros; lra.
  Qed.

  Lemma capture_run : forall rb af, no_infinite_pair rb -> rb <> [] ->
    let benchmark := yearly power_of af (map snd rb) in
    ((benchmark == 0)%Q -> capture_1d_nb pow rb (Fin af) = PInf) /\
    (~ (benchmark == 0)%Q ->
       is_number (capture_1d_nb pow rb (Fin af)) (yearly power_of af (map fst rb) / benchmark)%Q).
  Proof.
    intros rb af [H1 H2] Hne benchmark. unfold capture_1d_nb. cbv zeta.
    assert (Hs : is_number (annualized_return_1d_nb pow (map snd rb) (Fin af)) benchmark).
    { apply annualized_run; [exact H2|]. destruct rb; [congruence|discriminate]. }
    rewrite (eqb_zero_number _ _ Hs). split; intros Hr.
    - rewrite (proj2 (Qeq_bool_iff _ _) Hr). reflexivity.
    - destruct (Qeq_bool benchmark 0) eqn:E; [apply Qeq_bool_iff in E; contradiction|].
      apply div_number; [|exact Hs|exact Hr]. apply annualized_run; [exact H1|]. destruct rb; [congruence|discriminate].
  Qed.

  Lemma up_down_run : forall rb af, no_infinite_pair rb ->
    up_capture_1d_nb pow rb (Fin af) =
      (match rising rb with [] => NaN | _ => capture_1d_nb pow (rising rb) (Fin af) end) /\
    down_capture_1d_nb pow rb (Fin af) =
      (match falling rb with [] => NaN | _ => capture_1d_nb pow (falling rb) (Fin af) end).
  Proof.
    intros rb af [_ H]. unfold up_capture_1d_nb, down_capture_1d_nb.
    assert (E : filter (fun x => gtb (snd x) zero) rb = rising rb /\ filter (fun x => ltb (snd x) zero) rb = falling rb).
    { unfold rising, falling. split; apply filter_ext_in; intros [r b] Hin; cbn [snd];
        (destruct (H b (in_map snd _ _ Hin)) as [Hb1 Hb2]); destruct b; try congruence; reflexivity. }
    destruct E as [-> ->]. split; [destruct (rising rb)|destruct (falling rb)]; reflexivity.
  Qed.
End Ratios.

Lemma tail_run : forall rs, no_infinity rs -> vals rs <> [] -> exists hi lo,
  value_at_risk_1d_nb xq_trunc rs (Fin (95 # 100)) = Ok (Fin hi) /\
  value_at_risk_1d_nb xq_trunc rs (Fin (5 # 100)) = Ok (Fin lo) /\
  ((lo == 0)%Q -> tail_ratio_1d_nb xq_trunc rs = Ok PInf) /\
  (~ (lo == 0)%Q -> exists y, tail_ratio_1d_nb xq_trunc rs = Ok y /\ is_number y (Qabs hi / Qabs lo)%Q).
Proof.
  intros rs H Hne.
  destruct (var_counts rs (95 # 100) H Hne) as (hi & Ehi & _); [split; discriminate|].
  destruct (var_counts rs (5 # 100) H Hne) as (lo & Elo & _); [split; discriminate|].
  exists hi, lo. split; [exact Ehi|]. split; [exact Elo|].
  unfold value_at_risk_1d_nb in Ehi, Elo. unfold tail_ratio_1d_nb. cbv zeta in *.
  destruct (drop_nan rs) as [|x l] eqn:Ed; [discriminate Ehi|].
  change (mul (ofZ 100) (Fin (95 # 100))) with (ofZ (T := XQ) 95) in Ehi.
  change (mul (ofZ 100) (Fin (5 # 100))) with (ofZ (T := XQ) 5) in Elo.
  rewrite Ehi. cbn [bind]. rewrite Elo. cbn [bind].
  assert (A : forall p, is_number (abs (Fin p)) (Qabs p)).
  { intros p. destruct (xq_abs_fin p) as (r & E & Hr). exists r. split; [exact E|exact Hr]. }
  rewrite (eqb_zero_number _ _ (A lo)). split; intros Hz.
  - assert (Ez : (Qabs lo == 0)%Q) by (rewrite Hz; reflexivity).
    rewrite (proj2 (Qeq_bool_iff _ _) Ez). reflexivity.
  - destruct (Qeq_bool (Qabs lo) 0) eqn:E.
    + exfalso. apply Hz. apply Qeq_bool_iff in E. revert E. apply Qabs_case; intros; lra.
    + eexists. split; [reflexivity|]. apply div_number; [apply A|apply A|].
      intros Ez. apply Qeq_bool_iff in Ez. congruence.
Qed.
