(** * Lemmas about exponential means *)
From Coq Require Import ZArith QArith Bool List Arith Lia Lqa Setoid Morphisms.
From Verif Require Import Base Num GenericNb XQFacts GenericSpec GenericLemmas GenericLemmas2.
Import ListNotations.
Local Open Scope Q_scope.

Lemma sum_scale : forall r l, sum (map (fun x => r * x) l) == r * sum l.
Proof. intros r l. induction l as [|x l IH]; cbn [map sum]; [ring|]. rewrite IH. ring. Qed.

Lemma weighted_cons : forall f r x h, weighted f r (x :: h) == f x + r * weighted f r h.
Proof.
  intros f r x h. unfold weighted. cbn [length seq map sum]. rewrite <- seq_shift, map_map.
  cbn [power nth]. rewrite <- sum_scale, map_map.
  assert (E : forall l, sum (map (fun k => power r (S k) * f (nth (S k) (x :: h) NaN)) l) ==
                    sum (map (fun k => r * (power r k * f (nth k h NaN))) l)).
  { induction l as [|k l IH]; cbn [map sum]; [reflexivity|]. rewrite IH. cbn [power nth]. ring. }
  rewrite E. ring.
Qed.

Lemma weighted_proper : forall f h r r', r == r' -> weighted f r h == weighted f r' h.
Proof.
  intros f h r r' E. induction h as [|x h IH]; [reflexivity|]. rewrite !weighted_cons, IH, E. reflexivity.
Qed.

Lemma weighted_present_nonneg : forall r h, 0 <= r -> 0 <= weighted present r h.
Proof.
  intros r h Hr. induction h as [|x h IH]; [cbn; lra|]. rewrite weighted_cons.
  assert (0 <= r * weighted present r h) by (apply Qmult_le_0_compat; auto). destruct x; cbn [present]; lra.
Qed.
Lemma weighted_present_pos : forall r h, 0 < r -> vals h <> [] -> 0 < weighted present r h.
Proof.
  intros r h Hr. induction h as [|x h IH]; intros H; [cbn in H; congruence|]. rewrite weighted_cons.
  assert (H0 : 0 <= r * weighted present r h) by (apply Qmult_le_0_compat; [lra|apply weighted_present_nonneg; lra]).
  destruct x; cbn [present vals] in *; try lra; specialize (IH H);
    assert (0 < r * weighted present r h) by (apply Qmult_lt_0_compat; auto); lra.
Qed.

Lemma share_pos : forall span, (1 <= span)%nat -> 0 < share span /\ share span <= 1.
Proof.
  intros span H. unfold share.
  assert (Hs : 1 <= inject_Z (Z.of_nat span)) by (change 1 with (inject_Z 1); rewrite <- Zle_Qle; lia).
  split.
  - apply Qlt_shift_div_l; lra.
  - apply Qle_shift_div_r; lra.
Qed.
Lemma share_lt1 : forall span, (2 <= span)%nat -> share span < 1.
Proof.
  intros span H. unfold share.
  assert (Hs : 2 <= inject_Z (Z.of_nat span)) by (change 2 with (inject_Z 2); rewrite <- Zle_Qle; lia).
  apply Qlt_shift_div_r; lra.
Qed.

(** The model's alpha *)
Lemma alpha_fin : forall span, (1 <= span)%nat ->
  exists al, sdiv one (add one (div (ofZ (Z.of_nat span - 1)) two)) = Ok (Fin al) /\ al == share span /\
    exists r, sub one (Fin al) = Fin r /\ r == 1 - share span.
Proof.
  intros span H.
  assert (Hs : 1 <= inject_Z (Z.of_nat span)) by (change 1 with (inject_Z 1); rewrite <- Zle_Qle; lia).
  change (ofZ (Z.of_nat span - 1) : XQ) with (Fin (inject_Z (Z.of_nat span - 1))).
  change (two : XQ) with (Fin (inject_Z 2)). change (one : XQ) with (Fin (inject_Z 1)).
  change (inject_Z 1) with 1. change (inject_Z 2) with 2.
  rewrite div_fin by lra. rewrite add_fin.
  assert (E : Qred (1 + Qred (inject_Z (Z.of_nat span - 1) / 2)) == (inject_Z (Z.of_nat span) + 1) / 2).
  { rewrite !Qred_correct. unfold Zminus. rewrite inject_Z_plus, inject_Z_opp. change (inject_Z 1) with 1. field. }
  match type of E with (?t == _)%Q => set (M := t) in *; clearbody M end.
  assert (HM : 0 < M) by (rewrite E; apply Qlt_shift_div_l; lra).
  unfold sdiv. cbn [eqb XQnum xq_eqb zero ofZ]. change (inject_Z 0) with 0.
  replace (Qeq_bool M 0) with false by (symmetry; qbg; lra).
  rewrite div_fin by lra. eexists. split; [reflexivity|].
  assert (Ea : Qred (1 / M) == share span).
  { rewrite Qred_correct, E. unfold share. field. lra. }
  split; auto. rewrite sub_fin. eexists. split; [reflexivity|]. rewrite Qred_correct, Ea. reflexivity.
Qed.

Definition ewm_inv (adjust : bool) (span : nat) (a : list XQ) (k : nat) (s : XQ * nat * XQ) : Prop :=
  let '(avg, nobs, old_wt) := s in
  let hist := rev (firstn k a) in
  nobs = length (vals hist) /\
  ((vals hist = [] /\ avg = NaN /\ exists o, old_wt = Fin o /\ o == 1) \/
   (vals hist <> [] /\ exists q o, avg = Fin q /\ old_wt = Fin o /\ 0 <= o /\
      if adjust then
        o == weighted present (1 - share span) hist /\ q * o == weighted (number_or 0) (1 - share span) hist /\
        (0 < o \/ ~ 0 < 1 - share span)
      else exists y j, recursive_mean (share span) hist = Some (y, j) /\ q == y /\ o == power (1 - share span) j)).

Lemma recursive_none : forall al h, vals h = [] -> no_infinity h -> recursive_mean al h = None.
Proof.
  intros al h. induction h as [|x h IH]; intros H HT; auto. cbn [recursive_mean].
  assert (HT' : no_infinity h) by (intros z Hz; apply HT; right; auto).
  destruct x; cbn [vals] in H; try discriminate; rewrite IH; auto.
Qed.

Lemma vals_rev : forall l, vals (rev l) = rev (vals l).
Proof.
  induction l as [|x l IH]; auto. cbn [rev]. rewrite vals_app, IH. destruct x; cbn [vals rev]; rewrite ?app_nil_r; auto.
Qed.

Lemma power_nonneg : forall r k, 0 <= r -> 0 <= power r k.
Proof. intros r k Hr. induction k; cbn [power]; [lra|]. apply Qmult_le_0_compat; auto. Qed.

Lemma weighted_none : forall f r h, vals h = [] -> no_infinity h -> f NaN == 0 -> weighted f r h == 0.
Proof.
  intros f r h H HT Hf. induction h as [|x h IH]; [reflexivity|]. rewrite weighted_cons.
  assert (HT' : no_infinity h) by (intros z Hz; apply HT; right; auto).
  destruct (HT x (or_introl eq_refl)). destruct x; cbn [vals] in H; try congruence. rewrite IH, Hf; auto. ring.
Qed.

Lemma no_inf_hist : forall a k, no_infinity a -> no_infinity (rev (firstn k a)).
Proof.
  intros a k H x Hx. apply in_rev in Hx. apply H. rewrite <- (firstn_skipn k a). apply in_or_app; auto.
Qed.

Lemma ewm_step : forall adjust span al r a mp k s x, (1 <= span)%nat -> no_infinity a -> al == share span -> r == 1 - share span ->
  nth_error a k = Some x -> ewm_inv adjust span a k s -> (adjust = false \/ adjust = true) ->
  exists s', ewm_inv adjust span a (S k) s' /\
    ewm_mean_step (Fin r) (if adjust then one else Fin al) adjust mp k s x =
      Ok (s', let '(avg, nobs, _) := s' in if Nat.leb mp nobs then avg else NaN).
Proof.
  intros adjust span al r a mp k [[avg nobs] old_wt] x Hsp HT Hal Hr Hx [Hn HI] _.
  pose proof (share_pos span Hsp) as [Sp0 Sp1].
  unfold ewm_inv, ewm_mean_step. rewrite (firstn_snoc _ _ _ _ Hx), rev_app_distr. cbn [rev app].
  pose proof (no_inf_hist a k HT) as HH. set (h := rev (firstn k a)) in *.
  destruct (tame_at _ _ _ HT Hx) as [->|[c ->]].
  - (* no value at this bar *)
    cbn [eqb XQnum xq_eqb vals]. destruct HI as [(Hv & -> & o & -> & Ho)|(Hv & q & o & -> & -> & Ho & HI)].
    + cbn [xq_eqb bind]. eexists (_, _, _). split; [|reflexivity]. cbn. split; auto. left. repeat split; auto. eauto.
    + cbn [xq_eqb bind]. replace (Qeq_bool q q) with true by (symmetry; qbg; reflexivity).
      cbn [bind]. eexists (_, _, _). split; [|reflexivity]. cbn [mul XQnum xq_mul fin]. split; auto. right. split; auto.
      exists q. eexists. split; auto. split; [reflexivity|].
      assert (Hr0 : 0 <= r) by lra.
      split; [rewrite Qred_correct; apply Qmult_le_0_compat; auto|].
      destruct adjust.
      * destruct HI as (H1 & H2 & H3). rewrite !Qred_correct, !weighted_cons. cbn [present number_or].
        split; [rewrite H1, Hr; ring|]. split; [rewrite <- H2, Hr; ring|].
        destruct H3 as [H3|H3]; auto. destruct (Qlt_le_dec 0 (1 - share span)) as [Hp|Hp]; [left|right; lra].
        apply Qmult_lt_0_compat; lra.
      * destruct HI as (y & j & E1 & E2 & E3). cbn [recursive_mean]. rewrite E1. exists y, (S j).
        repeat split; auto. rewrite Qred_correct. cbn [power]. rewrite E3, Hr. ring.
  - (* a value *)
    cbn [eqb XQnum xq_eqb vals]. replace (Qeq_bool c c) with true by (symmetry; qbg; reflexivity).
    destruct HI as [(Hv & -> & o & -> & Ho)|(Hv & q & o & -> & -> & Ho & HI)].
    + cbn [xq_eqb bind]. eexists (_, _, _). split; [|reflexivity]. split; [rewrite Hn; auto|]. right. split; [discriminate|].
      exists c, o. split; auto. split; auto. split; [lra|]. destruct adjust.
      * rewrite !weighted_cons, !weighted_none by (auto; reflexivity). cbn [present number_or].
        split; [rewrite Ho; ring|]. split; [rewrite Ho; ring|left; lra].
      * cbn [recursive_mean]. rewrite recursive_none by auto. exists c, O. repeat split; auto; reflexivity.
    + cbn [xq_eqb bind]. replace (Qeq_bool q q) with true by (symmetry; qbg; reflexivity).
      assert (Hr0 : 0 <= r) by lra.
      set (nw := if adjust then 1 else al).
      assert (Hnw : 0 < nw) by (unfold nw; destruct adjust; lra).
      assert (Ew : (if adjust then one else Fin al) = Fin nw) by (unfold nw; destruct adjust; reflexivity).
      rewrite Ew.
      assert (Eo : exists o', mul (Fin o) (Fin r) = Fin o' /\ o' == o * r) by (rewrite mul_fin; eexists; split; [reflexivity|apply Qred_correct]).
      destruct Eo as (o' & Eo & Eo').
      rewrite !Eo.
      assert (Ho' : 0 <= o') by (rewrite Eo'; apply Qmult_le_0_compat; auto).
      assert (Hav : exists q', (if neb (Fin q) (Fin c) then
                sdiv (add (mul (Fin o') (Fin q)) (mul (Fin nw) (Fin c))) (add (Fin o') (Fin nw)) else Ok (Fin q)) = Ok (Fin q') /\
              q' * (o' + nw) == o' * q + nw * c).
      { unfold neb. cbn [eqb XQnum xq_eqb]. destruct (Qeq_bool q c) eqn:Eqc; cbn [negb].
        - qb. exists q. split; auto. rewrite <- Eqc. ring.
        - rewrite !mul_fin, !add_fin. unfold sdiv. cbn [eqb XQnum xq_eqb zero ofZ]. change (inject_Z 0) with 0.
          assert (Hne : 0 < Qred (o' + nw)) by (rewrite Qred_correct; lra).
          replace (Qeq_bool (Qred (o' + nw)) 0) with false by (symmetry; qbg; lra).
          rewrite div_fin by lra. eexists. split; [reflexivity|]. rewrite !Qred_correct. field. lra. }
      destruct Hav as (q' & Eq' & Hq').
      rewrite Eq'. cbn [bind]. eexists (_, _, _). split; [|reflexivity]. split; [rewrite Hn; auto|]. right. split; [discriminate|].
      exists q'. destruct adjust.
      * destruct HI as (H1 & H2 & H3). unfold nw in *. cbn [add XQnum xq_add fin].
        eexists. split; auto. split; [reflexivity|]. rewrite !Qred_correct, !weighted_cons. cbn [present number_or].
        split; [lra|]. split; [rewrite Eo', H1, Hr; ring|]. split; [|left; lra].
        rewrite Hq', Eo', <- H2, Hr. ring.
      * destruct HI as (y & j & E1 & E2 & E3). exists 1. split; auto. split; [reflexivity|]. split; [lra|].
        cbn [recursive_mean]. rewrite E1. eexists _, O. split; [reflexivity|]. split; [|reflexivity].
        cbn [power]. unfold nw in *.
        assert (Ew2 : (1 - share span) * power (1 - share span) j == o') by (rewrite Eo', E3, Hr; ring).
        rewrite Ew2, <- E2, <- Hal. assert (Hnz : 0 < o' + al) by lra.
        apply Qeq_sym. assert (Ex : o' * q + al * c == q' * (o' + al)) by (rewrite Hq'; reflexivity).
        rewrite Ex. field. lra.
Qed.

Lemma ewm_run : forall adjust span a mp out, (1 <= span)%nat -> no_infinity a ->
  ewm_mean_1d_nb a span mp adjust = Ok out ->
  length out = length a /\
  forall i, (i < length a)%nat -> exists s, ewm_inv adjust span a (S i) s /\
    nth_error out i = Some (let '(avg, nobs, _) := s in
      if Nat.leb (match mp with None => span | Some m => m end) nobs then avg else NaN).
Proof.
  intros adjust span a mp out Hsp HT H. unfold ewm_mean_1d_nb in H. apply raise_if_ok in H as [Hm H].
  set (m := match mp with None => span | Some m => m end) in *.
  destruct a as [|a0 a'].
  - injection H as <-. split; auto. cbn. intros; lia.
  - destruct (alpha_fin span Hsp) as (al & Eal & Hal & r & Er & Hr). rewrite Eal in H. cbn [bind] in H. rewrite Er in H.
    apply bind_ok in H as (out' & Hs & H). injection H as <-.
    split; [cbn [length]; f_equal; eapply scanM_length; eauto|].
    set (a := a0 :: a') in *.
    assert (I0 : ewm_inv adjust span a 1 (a0, if eqb a0 a0 then 1%nat else 0%nat, one)).
    { assert (H0 : nth_error a 0 = Some a0) by reflexivity.
      unfold ewm_inv. cbn [firstn rev app a]. destruct (tame_at a 0 a0 HT H0) as [->|[q ->]]; cbn [eqb XQnum xq_eqb vals].
      - split; auto. left. repeat split; auto. exists 1. split; reflexivity.
      - replace (Qeq_bool q q) with true by (symmetry; qbg; reflexivity). split; auto. right. split; [discriminate|].
        exists q, 1. split; auto. split; [reflexivity|]. split; [lra|]. destruct adjust.
        + rewrite !weighted_cons. cbn. unfold weighted. cbn. split; [ring|]. split; [ring|left; lra].
        + cbn [recursive_mean]. exists q, O. repeat split; reflexivity. }
    intros [|i] Hi.
    + exists (a0, if eqb a0 a0 then 1%nat else 0%nat, one). split; auto.
    + cbn [nth_error]. destruct (nth_error a' i) as [x|] eqn:Ex; [|apply nth_error_None in Ex; cbn in Hi; lia].
      destruct (scanM_spec_at _ (ewm_inv adjust span a) a' 1 _ out' Hs I0) with (k := i) (x := x) as (s0 & s' & b & HI & Hst & Hb); auto.
      * intros k s z s' b Hz HI Hst.
        destruct (ewm_step adjust span al r a m (1 + k) s z Hsp HT Hal Hr) as (s2 & HI2 & E); auto; [destruct adjust; auto|].
        rewrite E in Hst. injection Hst as <- _. auto.
      * destruct (ewm_step adjust span al r a m (1 + i) s0 x Hsp HT Hal Hr) as (s2 & HI2 & E); auto; [destruct adjust; auto|].
        rewrite E in Hst. injection Hst as _ <-. exists s2. split; auto.
Qed.

Lemma ewm_accepts : forall adjust span a mp, (1 <= span)%nat -> no_infinity a ->
  (match mp with None => span | Some m => m end <= span)%nat ->
  exists out, ewm_mean_1d_nb a span mp adjust = Ok out.
Proof.
  intros adjust span a mp Hsp HT Hm. unfold ewm_mean_1d_nb.
  set (m := match mp with None => span | Some m => m end) in *.
  replace (Nat.ltb span m) with false by (symmetry; apply Nat.ltb_ge; auto). cbn [raise_if].
  destruct a as [|a0 a']; [eauto|].
  destruct (alpha_fin span Hsp) as (al & Eal & Hal & r & Er & Hr). rewrite Eal. cbn [bind]. rewrite Er.
  set (a := a0 :: a') in *.
  destruct (scanM_ok_at (ewm_mean_step (Fin r) (if adjust then one else Fin al) adjust m) (ewm_inv adjust span a) a' 1
     (a0, if eqb a0 a0 then 1%nat else 0%nat, one)) as (out & E).
  - assert (H0 : nth_error a 0 = Some a0) by reflexivity.
    unfold ewm_inv. cbn [firstn rev app a]. destruct (tame_at a 0 a0 HT H0) as [->|[q ->]]; cbn [eqb XQnum xq_eqb vals].
    + split; auto. left. repeat split; auto. exists 1. split; reflexivity.
    + replace (Qeq_bool q q) with true by (symmetry; qbg; reflexivity). split; auto. right. split; [discriminate|].
      exists q, 1. split; auto. split; [reflexivity|]. split; [lra|]. destruct adjust.
      * rewrite !weighted_cons. cbn. unfold weighted. cbn. split; [ring|]. split; [ring|left; lra].
      * cbn [recursive_mean]. exists q, O. repeat split; reflexivity.
  - intros k s z Hz HI.
    destruct (ewm_step adjust span al r a m (1 + k) s z Hsp HT Hal Hr) as (s2 & HI2 & E); auto; [destruct adjust; auto|].
    eexists _, _. split; [exact E|exact HI2].
  - rewrite E. cbn [bind]. eauto.
Qed.

Lemma ewm_adjusted : forall span a mp out, (2 <= span)%nat -> no_infinity a ->
  ewm_mean_1d_nb a span mp true = Ok out ->
  length out = length a /\
  forall i, (i < length a)%nat -> exists y, nth_error out i = Some y /\
    let hist := rev (firstn (S i) a) in
    let m := match mp with None => span | Some m => m end in
    (vals hist = [] \/ (length (vals hist) < m)%nat -> y = NaN) /\
    (vals hist <> [] -> (m <= length (vals hist))%nat -> exists q, y = Fin q /\ q == weighted_mean (1 - share span) hist).
Proof.
  intros span a mp out Hsp HT H. destruct (ewm_run true span a mp out ltac:(lia) HT H) as [HL HR]. split; auto.
  intros i Hi. destruct (HR i Hi) as ([[avg nobs] ow] & (Hn & HI) & E). eexists. split; [exact E|]. cbv zeta.
  set (h := rev (firstn (S i) a)) in *. subst nobs. split.
  - intros Hv. destruct (Nat.leb _ _) eqn:El; auto. apply Nat.leb_le in El.
    destruct Hv as [Hv|Hv]; [|lia]. destruct HI as [(_ & -> & _)|(C & _)]; [auto|congruence].
  - intros Hv Hl. replace (Nat.leb _ _) with true by (symmetry; apply Nat.leb_le; auto).
    destruct HI as [(C & _)|(_ & q & o & -> & _ & Ho & H1 & H2 & H3)]; [congruence|].
    exists q. split; auto. pose proof (share_lt1 span Hsp).
    unfold weighted_mean. rewrite <- H2, <- H1. field. destruct H3; lra.
Qed.

Lemma ewm_recursive : forall span a mp out, (1 <= span)%nat -> no_infinity a ->
  ewm_mean_1d_nb a span mp false = Ok out ->
  length out = length a /\
  forall i, (i < length a)%nat -> exists y, nth_error out i = Some y /\
    let hist := rev (firstn (S i) a) in
    let m := match mp with None => span | Some m => m end in
    (vals hist = [] \/ (length (vals hist) < m)%nat -> y = NaN) /\
    (vals hist <> [] -> (m <= length (vals hist))%nat ->
       exists q v k, y = Fin q /\ recursive_mean (share span) hist = Some (v, k) /\ q == v).
Proof.
  intros span a mp out Hsp HT H. destruct (ewm_run false span a mp out Hsp HT H) as [HL HR]. split; auto.
  intros i Hi. destruct (HR i Hi) as ([[avg nobs] ow] & (Hn & HI) & E). eexists. split; [exact E|]. cbv zeta.
  set (h := rev (firstn (S i) a)) in *. subst nobs. split.
  - intros Hv. destruct (Nat.leb _ _) eqn:El; auto. apply Nat.leb_le in El.
    destruct Hv as [Hv|Hv]; [|lia]. destruct HI as [(_ & -> & _)|(C & _)]; [auto|congruence].
  - intros Hv Hl. replace (Nat.leb _ _) with true by (symmetry; apply Nat.leb_le; auto).
    destruct HI as [(C & _)|(_ & q & o & -> & _ & Ho & y & j & E1 & E2 & E3)]; [congruence|].
    exists q, y, j. auto.
Qed.
