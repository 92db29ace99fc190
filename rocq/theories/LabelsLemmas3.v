(** * Trend labels on positive prices *)
From Coq Require Import String ZArith QArith Qabs Bool List Arith Lia Lqa.
From Verif Require Import Base Num XQFacts OrdLaws GenericNb GenericSpec GenericLemmas GenericLemmas2 ReturnsNb ReturnsSpec
  ReturnsLemmas ReturnsLemmas2 ReturnsLemmas3 NumFacts LabelsNb LabelsSpec LabelsLemmas LabelsLemmas2.
Import ListNotations.
Local Open Scope list_scope.
Local Open Scope nat_scope.

Lemma price_at : forall close i c, price_is close i c -> price close i = Fin c.
Proof. intros close i c H. unfold price. apply nth_error_nth. exact H. Qed.
Lemma price_exists : forall close i, positive_prices close -> i < length close -> exists c, price_is close i c /\ (0 < c)%Q.
Proof.
  intros close i Hp Hi. destruct (nth_error close i) as [x|] eqn:E; [|apply nth_error_None in E; lia].
  destruct (Hp x (nth_error_In _ _ E)) as (q & -> & Hq). exists q. auto.
Qed.
Lemma price_fun : forall close i c c', price_is close i c -> price_is close i c' -> c = c'.
Proof. unfold price_is. congruence. Qed.

Lemma up_by_number : forall close i j c d t, price_is close i c -> price_is close j d ->
  up_by close (Fin t) i j = Qle_bool (c * (1 + Qabs t)) d.
Proof.
  intros close i j c d t H1 H2. unfold up_by. rewrite (price_at _ _ _ H1), (price_at _ _ _ H2).
  apply in_leb; [|apply in_fin]. apply in_mul; [apply in_fin|]. apply in_add; [apply in_one|apply in_abs, in_fin].
Qed.
Lemma down_by_number : forall close i j c d t, price_is close i c -> price_is close j d ->
  down_by close (Fin t) i j = Qle_bool d (c * (1 - Qabs t)).
Proof.
  intros close i j c d t H1 H2. unfold down_by. rewrite (price_at _ _ _ H1), (price_at _ _ _ H2).
  apply in_leb; [apply in_fin|]. apply in_mul; [apply in_fin|]. apply in_sub; [apply in_one|apply in_abs, in_fin].
Qed.

Lemma abs_pos : forall t, ~ (t == 0)%Q -> (0 < Qabs t)%Q.
Proof. intros t H. destruct (Qabs_cases t) as [[H1 H2]|[H1 H2]]; rewrite H2; [|lra]. destruct (Qeq_dec t 0); [tauto|lra]. Qed.

Section Trend.
  Variables (close : list XQ) (pos_th neg_th : nat -> XQ) (ext : list Z).
  Hypothesis Hpos : positive_prices close.
  Hypothesis Hpt : real_thresholds pos_th.
  Hypothesis Hnt : real_thresholds neg_th.
  Hypothesis Hext : local_extrema_apply_nb close pos_th neg_th = Ok ext.

  Lemma ext_length : length ext = length close.
  Proof. apply (m_len _ _ _ _ (f_marks _ _ _ _ (extrema_final _ _ _ _ Hext))). Qed.

  Lemma trend_facts : forall p q, adjacent ext p q ->
    exists a b tp tn, price_is close p a /\ price_is close q b /\ pos_th p = Fin tp /\ neg_th p = Fin tn /\
      (0 < a)%Q /\ (0 < b)%Q /\ (0 < Qabs tp)%Q /\ (0 < Qabs tn)%Q /\
      ((nth p ext 0%Z = (-1)%Z /\ (a * (1 + Qabs tp) <= b)%Q /\ (a < b)%Q /\
          forall i c, p <= i < q -> price_is close i c -> (c < b)%Q) \/
       (nth p ext 0%Z = 1%Z /\ (b <= a * (1 - Qabs tn))%Q /\ (b < a)%Q /\
          forall i c, p <= i < q -> price_is close i c -> (b < c)%Q)).
  Proof.
    intros p q Ha. assert (HM := f_marks _ _ _ _ (extrema_final _ _ _ _ Hext)). assert (Hl := ext_length).
    assert (Hlk := m_adj _ _ _ _ HM p q Ha). destruct Ha as ((H1 & H2) & H3 & H4 & H5).
    destruct (price_exists close p Hpos ltac:(lia)) as (a & Pa & Ha).
    destruct (price_exists close q Hpos ltac:(lia)) as (b & Pb & Hb).
    destruct (Hpt p) as (tp & Etp & Htp). destruct (Hnt p) as (tn & Etn & Htn). apply abs_pos in Htp, Htn.
    exists a, b, tp, tn. repeat (split; [assumption|]). destruct Hlk as (_ & Hu & Hd).
    destruct (m_vals _ _ _ _ HM p) as [E|[E|E]]; [left|congruence|right].
    - destruct (Hu E) as [U B]. rewrite Etp, (up_by_number _ _ _ _ _ _ Pa Pb) in U. qb.
      assert (X : (0 < a * Qabs tp)%Q) by (apply Qmult_lt_0_compat; auto).
      assert (Y : (a * (1 + Qabs tp) == a + a * Qabs tp)%Q) by ring.
      split; auto. split; auto. split; [lra|]. intros i c Hi Pc.
      destruct (Nat.eq_dec i p) as [->|Hn]; [rewrite (price_fun _ _ _ _ Pc Pa); lra|].
      specialize (B i ltac:(lia)). rewrite (price_at _ _ _ Pb), (price_at _ _ _ Pc) in B. cbn in B. qb. auto.
    - destruct (Hd E) as [U B]. rewrite Etn, (down_by_number _ _ _ _ _ _ Pa Pb) in U. qb.
      assert (X : (0 < a * Qabs tn)%Q) by (apply Qmult_lt_0_compat; auto).
      assert (Y : (a * (1 - Qabs tn) == a - a * Qabs tn)%Q) by ring.
      split; auto. split; auto. split; [lra|]. intros i c Hi Pc.
      destruct (Nat.eq_dec i p) as [->|Hn]; [rewrite (price_fun _ _ _ _ Pc Pa); lra|].
      specialize (B i ltac:(lia)). rewrite (price_at _ _ _ Pb), (price_at _ _ _ Pc) in B. cbn in B. qb. auto.
  Qed.

  Lemma covers_price : forall p q i, covers ext p q i -> exists c, price_is close i c /\ (0 < c)%Q /\ i < length close.
  Proof.
    intros p q i [((H1 & H2) & _) Hi]. rewrite ext_length in H2.
    destruct (price_exists close i Hpos ltac:(lia)) as (c & Pc & Hc). exists c. repeat split; auto. lia.
  Qed.

  (** The least and the greatest price from [p] to [q]. *)
  Lemma slice_range : forall p q x, In x (slice p (S q) close) <-> exists i, p <= i <= q /\ nth_error close i = Some x.
  Proof.
    intros p q x. unfold slice. split.
    - intros H. apply In_nth_error in H as (k & H). rewrite nth_error_skipn_add in H.
      assert (k + p < S q).
      { assert (Hlt : p + k < length (firstn (S q) close)) by (apply nth_error_Some; congruence). rewrite firstn_length in Hlt. lia. }
      rewrite nth_error_firstn_lt in H by lia. exists (p + k). split; auto. lia.
    - intros (i & Hi & H). apply (nth_error_In _ (i - p)). rewrite nth_error_skipn_add.
      replace (p + (i - p)) with i by lia. rewrite nth_error_firstn_lt by lia. auto.
  Qed.

  Lemma slice_extremes : forall p q, p <= q < length close ->
    exists lo hi, np_min (slice p (S q) close) = Ok (Fin lo) /\ np_max (slice p (S q) close) = Ok (Fin hi) /\
      (exists i, p <= i <= q /\ price_is close i lo) /\ (exists i, p <= i <= q /\ price_is close i hi) /\
      forall i c, p <= i <= q -> price_is close i c -> (lo <= c <= hi)%Q.
  Proof.
    intros p q Hpq.
    assert (Hne : slice p (S q) close <> []).
    { destruct (price_exists close p Hpos ltac:(lia)) as (a & Pa & _).
      assert (H : In (Fin a) (slice p (S q) close)) by (apply slice_range; exists p; split; auto; lia). intros E. rewrite E in H. destruct H. }
    assert (Hf : forall x, In x (slice p (S q) close) -> exists c, x = Fin c).
    { intros x Hx. apply slice_range in Hx as (i & _ & Hx). destruct (Hpos x (nth_error_In _ _ Hx)) as (c & -> & _). eauto. }
    destruct (np_min_number _ Hne Hf) as (lo & E1 & L1 & L2). destruct (np_max_number _ Hne Hf) as (hi & E2 & L3 & L4).
    exists lo, hi. split; auto. split; auto. apply slice_range in L1, L3. split; auto. split; auto.
    intros i c Hi Pc. assert (In (Fin c) (slice p (S q) close)) by (apply slice_range; eauto). split; auto.
  Qed.

  Definition trend_spec (out : list XQ) (P : nat -> nat -> nat -> XQ -> Prop) : Prop :=
    length out = length close /\
    (forall i p q, covers ext p q i -> P p q i (nth i out NaN)) /\
    (forall i, (forall p q, ~ covers ext p q i) -> nth i out NaN = NaN).

  Lemma trend_from : forall label (P : nat -> nat -> nat -> XQ -> Prop),
    (forall i p q, covers ext p q i -> exists y, label p q i = Ok y /\ P p q i y) ->
    exists out, between_extrema label (length close) ext = Ok out /\ trend_spec out P.
  Proof.
    intros label P H. destruct (between_ok label (length close) ext ext_length) as [out E].
    { intros i p q Hc. destruct (H i p q Hc) as (y & Hy & _). eauto. }
    exists out. split; auto. destruct (between_spec label _ ext out ext_length E) as (H1 & H2 & H3).
    split; auto. split; [|exact H3]. intros i p q Hc. destruct (H i p q Hc) as (y & Hy & HP).
    rewrite (H2 i p q Hc) in Hy. injection Hy as <-. exact HP.
  Qed.

  Lemma binary_run : exists out, bn_trend_labels_nb close ext = Ok out /\
    trend_spec out (fun p q i y => (nth p ext 0%Z = (-1)%Z -> y = Fin 1) /\ (nth p ext 0%Z = 1%Z -> y = Fin 0)).
  Proof.
    apply trend_from. intros i p q [Ha Hi]. eexists. split; [reflexivity|].
    destruct (trend_facts p q Ha) as (a & b & tp & tn & Pa & Pb & _ & _ & _ & _ & _ & _ & Hc).
    change (nth q close nan) with (price close q). change (nth p close nan) with (price close p).
    rewrite (price_at _ _ _ Pa), (price_at _ _ _ Pb). unfold gtb.
    rewrite (in_ltb _ _ _ _ (in_fin a) (in_fin b)). destruct Hc as [(E & _ & Hlt & _)|(E & _ & Hlt & _)].
    - apply qlt_t in Hlt. rewrite Hlt. split; [reflexivity|]. rewrite E. discriminate.
    - assert (Hf : qlt_bool a b = false) by (apply qlt_f; lra). rewrite Hf. split; [rewrite E; discriminate|reflexivity].
  Qed.

  Lemma cont_run : exists out, bn_cont_trend_labels_nb close ext = Ok out /\
    trend_spec out (fun p q i y => exists c lo hi, price_is close i c /\
      (exists j, p <= j <= q /\ price_is close j lo) /\ (exists j, p <= j <= q /\ price_is close j hi) /\
      (forall j d, p <= j <= q -> price_is close j d -> (lo <= d <= hi)%Q) /\ (lo < hi)%Q /\
      is_number y (1 - (c - lo) / (hi - lo))).
  Proof.
    apply trend_from. intros i p q Hcov. destruct (covers_price _ _ _ Hcov) as (c & Pc & _ & _).
    destruct Hcov as [Ha Hi]. assert (Hl := ext_length).
    destruct (trend_facts p q Ha) as (a & b & tp & tn & Pa & Pb & _ & _ & _ & _ & _ & _ & Hc).
    destruct (slice_extremes p q) as (lo & hi & E1 & E2 & X1 & X2 & X3); [destruct Ha; lia|].
    cbn beta. rewrite E1. cbn [bind]. rewrite E2. cbn [bind]. eexists. split; [reflexivity|].
    exists c, lo, hi. split; auto. split; auto. split; auto. split; auto.
    assert (Hlt : (lo < hi)%Q).
    { assert (A := X3 p a ltac:(lia) Pa). assert (B := X3 q b ltac:(lia) Pb).
      destruct Hc as [(_ & _ & H & _)|(_ & _ & H & _)]; lra. }
    split; auto. change (nth i close nan) with (price close i). rewrite (price_at _ _ _ Pc).
    apply in_sub; [apply in_one|]. apply in_div; [apply in_sub; apply in_fin|apply in_sub; apply in_fin|lra].
  Qed.

  Lemma sat_run : exists out, bn_cont_sat_trend_labels_nb close ext pos_th neg_th = Ok out /\
    trend_spec out (fun p q i y => exists c b tp tn, price_is close i c /\ price_is close q b /\
      pos_th p = Fin tp /\ neg_th p = Fin tn /\
      (nth p ext 0%Z = (-1)%Z ->
         ((c * (1 + Qabs tp) <= b)%Q -> is_number y 1) /\
         ((b < c * (1 + Qabs tp))%Q -> let s := (b / (1 + Qabs tp))%Q in is_number y (1 - (c - s) / (b - s)))) /\
      (nth p ext 0%Z = 1%Z ->
         ((b <= c * (1 - Qabs tn))%Q -> is_number y 0) /\
         ((c * (1 - Qabs tn) < b)%Q -> let s := (b / (1 - Qabs tn))%Q in is_number y (1 - (c - b) / (s - b)))) /\
      exists v, is_number y v /\ (0 <= v <= 1)%Q).
  Proof.
    apply trend_from. intros i p q Hcov. destruct (covers_price _ _ _ Hcov) as (c & Pc & Hc0 & _).
    destruct Hcov as [Ha Hi]. assert (Hl := ext_length).
    destruct (trend_facts p q Ha) as (a & b & tp & tn & Pa & Pb & Etp & Etn & Ha0 & Hb0 & Htp & Htn & Hc).
    destruct (slice_extremes p q) as (lo & hi & E1 & E2 & X1 & X2 & X3); [destruct Ha; lia|].
    assert (Hpq : p < q) by (destruct Ha; lia).
    cbn beta zeta. change (nth i close nan) with (price close i). change (nth q close nan) with (price close q).
    change (nth p close nan) with (price close p).
    rewrite (price_at _ _ _ Pa), (price_at _ _ _ Pb), (price_at _ _ _ Pc), Etp, Etn, E1, E2.
    rewrite (in_eqb _ _ _ _ (in_abs _ _ (in_fin tp)) in_zero), (in_eqb _ _ _ _ (in_abs _ _ (in_fin tn)) in_zero).
    assert (Z1 : Qeq_bool (Qabs tp) 0 = false) by (apply qeq_f; lra).
    assert (Z2 : Qeq_bool (Qabs tn) 0 = false) by (apply qeq_f; lra).
    rewrite Z1, Z2. cbn [raise_if bind]. unfold gtb. rewrite (in_ltb _ _ _ _ (in_fin a) (in_fin b)).
    remember (Qabs tp) as t eqn:Et in *. remember (Qabs tn) as u eqn:Eu in *.
    assert (It : is_number (add one (abs (Fin tp))) (1 + t)) by (subst t; apply in_add; [apply in_one|apply in_abs, in_fin]).
    assert (Iu : is_number (sub one (abs (Fin tn))) (1 - u)) by (subst u; apply in_sub; [apply in_one|apply in_abs, in_fin]).
    assert (Ap := X3 p a ltac:(lia) Pa). assert (Ac := X3 i c ltac:(lia) Pc). assert (Aq := X3 q b ltac:(lia) Pb).
    destruct Hc as [(E & Hup & Hlt & Hall)|(E & Hdn & Hlt & Hall)].
    - assert (Hhi : (hi == b)%Q).
      { destruct X2 as (j & Hj & Pj). destruct (Nat.eq_dec j q) as [->|Hn].
        - rewrite (price_fun _ _ _ _ Pj Pb). reflexivity.
        - assert (H := Hall j hi ltac:(lia) Pj). lra. }
      apply qlt_t in Hlt as Hlt'. rewrite Hlt'.
      destruct (in_sdiv (Fin hi) _ b _ (in_eq _ _ _ (in_fin hi) Hhi) It) as (st & -> & Ist); [lra|]. cbn [bind].
      assert (Hs : (b / (1 + t) * (1 + t) == b)%Q) by (field; lra). remember (b / (1 + t))%Q as s eqn:Es in *.
      assert (G : geb (Fin hi) (mul (Fin lo) (add one (abs (Fin tp)))) = true).
      { unfold geb. rewrite (in_leb _ _ _ _ (in_mul _ _ _ _ (in_fin lo) It) (in_fin hi)). apply qle_t.
        assert (lo * (1 + t) <= a * (1 + t))%Q by (apply Qmult_le_compat_r; lra). lra. }
      rewrite G. cbn [andb]. rewrite (in_leb _ _ _ _ (in_fin c) Ist).
      assert (Hst : (0 < s * t)%Q).
      { apply Qmult_lt_0_compat; auto. destruct (Qlt_le_dec 0 s) as [|Hle]; auto. exfalso.
        assert (s * (1 + t) <= 0 * (1 + t))%Q by (apply Qmult_le_compat_r; lra). lra. }
      assert (Hsb : (s < b)%Q) by (rewrite <- Hs; assert (s * (1 + t) == s + s * t)%Q by ring; lra).
      destruct (Qle_bool c s) eqn:Ecs; qb.
      + eexists. split; [reflexivity|]. exists c, b, tp, tn. cbn zeta. rewrite <- Et, <- Eu, <- Es. split; [assumption|]. split; [assumption|]. split; [auto|]. split; [auto|].
        assert (Hle : (c * (1 + t) <= s * (1 + t))%Q) by (apply Qmult_le_compat_r; lra).
        split; [intros _; split; [intros _; apply in_one|intros; exfalso; lra]|].
        split; [rewrite E; discriminate|]. exists 1%Q. split; [apply in_one|lra].
      + destruct (in_sdiv (sub (Fin c) st) (sub (Fin hi) st) (c - s) (b - s)) as (r & -> & Ir).
        { apply in_sub; auto using in_fin. } { apply in_sub; auto. apply (in_eq _ hi); auto using in_fin. } { lra. }
        cbn [bind]. eexists. split; [reflexivity|]. exists c, b, tp, tn. cbn zeta. rewrite <- Et, <- Eu, <- Es. split; [assumption|]. split; [assumption|]. split; [auto|]. split; [auto|].
        assert (Hgt : (s * (1 + t) < c * (1 + t))%Q) by (apply Qmult_lt_compat_r; lra).
        assert (Iy := in_sub _ _ _ _ in_one Ir).
        split; [intros _; split; [intros; exfalso; lra|intros _; exact Iy]|].
        split; [rewrite E; discriminate|]. eexists. split; [exact Iy|].
        assert (Hcb := Hall i c Hi Pc).
        assert (0 <= (c - s) / (b - s))%Q by (apply Qle_shift_div_l; lra).
        assert ((c - s) / (b - s) <= 1)%Q by (apply Qle_shift_div_r; lra). lra.
    - assert (Hlo : (lo == b)%Q).
      { destruct X1 as (j & Hj & Pj). destruct (Nat.eq_dec j q) as [->|Hn].
        - rewrite (price_fun _ _ _ _ Pj Pb). reflexivity.
        - assert (H := Hall j lo ltac:(lia) Pj). lra. }
      assert (Hf : qlt_bool a b = false) by (apply qlt_f; lra). rewrite Hf.
      assert (Hu1 : (0 < 1 - u)%Q).
      { destruct (Qlt_le_dec 0 (1 - u)) as [|Hle]; auto. exfalso.
        assert (H : ((1 - u) * a <= 0 * a)%Q) by (apply Qmult_le_compat_r; lra).
        assert (a * (1 - u) == (1 - u) * a)%Q by ring. lra. }
      destruct (in_sdiv (Fin lo) _ b _ (in_eq _ _ _ (in_fin lo) Hlo) Iu) as (st & -> & Ist); [lra|]. cbn [bind].
      assert (Hs : (b / (1 - u) * (1 - u) == b)%Q) by (field; lra). remember (b / (1 - u))%Q as s eqn:Es in *.
      assert (G : leb (Fin lo) (mul (Fin hi) (sub one (abs (Fin tn)))) = true).
      { rewrite (in_leb _ _ _ _ (in_fin lo) (in_mul _ _ _ _ (in_fin hi) Iu)). apply qle_t.
        assert (a * (1 - u) <= hi * (1 - u))%Q by (apply Qmult_le_compat_r; lra). lra. }
      rewrite G. cbn [andb]. unfold geb. rewrite (in_leb _ _ _ _ Ist (in_fin c)).
      assert (Hs0 : (0 < s)%Q).
      { destruct (Qlt_le_dec 0 s) as [|Hle]; auto. exfalso.
        assert (s * (1 - u) <= 0 * (1 - u))%Q by (apply Qmult_le_compat_r; lra). lra. }
      assert (Hsb : (b < s)%Q).
      { assert (0 < s * u)%Q by (apply Qmult_lt_0_compat; auto). assert (s * (1 - u) == s - s * u)%Q by ring. lra. }
      destruct (Qle_bool s c) eqn:Ecs; qb.
      + eexists. split; [reflexivity|]. exists c, b, tp, tn. cbn zeta. rewrite <- Et, <- Eu, <- Es. split; [assumption|]. split; [assumption|]. split; [auto|]. split; [auto|].
        assert (Hle : (s * (1 - u) <= c * (1 - u))%Q) by (apply Qmult_le_compat_r; lra).
        split; [rewrite E; discriminate|].
        split; [intros _; split; [intros _; apply in_zero|intros; exfalso; lra]|]. exists 0%Q. split; [apply in_zero|lra].
      + destruct (in_sdiv (sub (Fin c) (Fin lo)) (sub st (Fin lo)) (c - b) (s - b)) as (r & -> & Ir).
        { apply in_sub; [apply in_fin|apply (in_eq _ lo); auto using in_fin]. }
        { apply in_sub; auto. apply (in_eq _ lo); auto using in_fin. } { lra. }
        cbn [bind]. eexists. split; [reflexivity|]. exists c, b, tp, tn. cbn zeta. rewrite <- Et, <- Eu, <- Es. split; [assumption|]. split; [assumption|]. split; [auto|]. split; [auto|].
        assert (Hgt : (c * (1 - u) < s * (1 - u))%Q) by (apply Qmult_lt_compat_r; lra).
        assert (Iy := in_sub _ _ _ _ in_one Ir).
        split; [rewrite E; discriminate|].
        split; [intros _; split; [intros; exfalso; lra|intros _; exact Iy]|]. eexists. split; [exact Iy|].
        assert (Hcb := Hall i c Hi Pc).
        assert (0 <= (c - b) / (s - b))%Q by (apply Qle_shift_div_l; lra).
        assert ((c - b) / (s - b) <= 1)%Q by (apply Qle_shift_div_r; lra). lra.
  Qed.

  Lemma pct_run : forall normalize, exists out, pct_trend_labels_nb close ext normalize = Ok out /\
    trend_spec out (fun p q i y => exists c b, price_is close i c /\ price_is close q b /\
      is_number y ((b - c) / (if normalize && Z.eqb (nth p ext 0%Z) (-1) then b else c))).
  Proof.
    intros normalize. apply trend_from. intros i p q Hcov. destruct (covers_price _ _ _ Hcov) as (c & Pc & Hc0 & _).
    destruct Hcov as [Ha Hi].
    destruct (trend_facts p q Ha) as (a & b & tp & tn & Pa & Pb & Etp & Etn & Ha0 & Hb0 & Htp & Htn & Hc).
    cbn beta zeta. change (nth i close nan) with (price close i). change (nth q close nan) with (price close q).
    change (nth p close nan) with (price close p).
    rewrite (price_at _ _ _ Pa), (price_at _ _ _ Pb), (price_at _ _ _ Pc).
    unfold gtb. rewrite (in_ltb _ _ _ _ (in_fin a) (in_fin b)). cbn zeta.
    assert (Ei : qlt_bool a b = Z.eqb (nth p ext 0%Z) (-1)).
    { destruct Hc as [(E & _ & Hlt & _)|(E & _ & Hlt & _)]; rewrite E; [apply qlt_t; auto|apply qlt_f; lra]. }
    rewrite Ei, andb_comm. destruct (normalize && _)%bool.
    - destruct (in_sdiv (sub (Fin b) (Fin c)) (Fin b) (b - c) b) as (r & -> & Ir); auto using in_fin, in_sub; try lra. eauto 10.
    - destruct (in_sdiv (sub (Fin b) (Fin c)) (Fin c) (b - c) c) as (r & -> & Ir); auto using in_fin, in_sub; try lra. eauto 10.
  Qed.
End Trend.
