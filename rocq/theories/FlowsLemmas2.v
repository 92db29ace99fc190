(** * Lemmas about free cash replayed from an order history *)
From Coq Require Import ZArith QArith Qabs Qminmax Qfield Bool Lia Lqa List Setoid Morphisms Sorted.
From Verif Require Import Base Num MathNb TolSpec Order Account AccountSpec XQFacts OrderLemmas4 Replay ReplaySpec
  ReplayLemmas ReplayLemmas2 FlowsSpec FlowsLemmas.
Import ListNotations.

(** An addition that is clearly not zero, or exactly zero, is exact. *)
Lemma approx_add_clear : forall a b r m, approx_add a b r -> Qabs a <= m -> Qabs b <= m ->
  a + b == 0 \/ slack m < Qabs (a + b) -> r == a + b.
Proof.
  intros a b r m H Ha Hb [HC|HC]; destruct H as [[H1 H2]|[H1 H2]]; try lra.
  pose proof (tolq_slack a b m Ha Hb). lra.
Qed.

Lemma Qmult_le_compat_l : forall x y z, x <= y -> 0 <= z -> z * x <= z * y.
Proof. intros x y z H Hz. rewrite !(Qmult_comm z). apply Qmult_le_compat_r; auto. Qed.

Section FreeDiff.
  (** One order: position [p] (code) before, [s] bought, debt [d] *)
  Variables p p' s d price fees m : Q.
  Hypothesis Hs : p' == p + s.
  Hypothesis Hp : Qabs p <= m.
  Hypothesis Hp' : Qabs p' <= m.
  Hypothesis Cs : slack m < Qabs s.
  Hypothesis Cp' : p' == 0 \/ slack m < Qabs p'.
  Hypothesis Hd : 0 <= d.
  Hypothesis Hpr : 0 <= price.

  Lemma free_diff : exists d' f,
    get_free_cash_diff_nb (Fin p) (Fin p') (Fin d) (Fin price) (Fin fees) = Ok (Fin d', Fin f) /\
    0 <= d' /\
    Qabs (d' - (if Qle_bool 0 s then (if Qle_bool 0 p then d else d * (shorted p' / shorted p))
                else d + price * (shorted p' - shorted p))) <= (1 # 1000000000000) /\
    (forall M, 2 * d + Qabs (- s * price - fees) + 2 * price * Qabs s <= M ->
       within 3 M f ((- s * price - fees) - 2 * (d' - d))) /\
    Qabs f + 2 * d' <= 2 * d + Qabs (- s * price - fees) + 4 * (price * Qabs s) /\
    (0 <= p' -> (0 <= p -> d == 0) -> d' == 0).
  Proof.
    unfold get_free_cash_diff_nb.
    destruct (neg_fin p) as (n & En & Hn). rewrite En.
    destruct (add_nb_fin p' n) as (z & Ez & Hz). rewrite Ez.
    assert (Ezs : z == s).
    { assert (E : p' + n == s) by lra. rewrite <- E. apply (approx_add_clear _ _ _ m Hz Hp').
      - rewrite Hn, Qabs_opp. exact Hp.
      - right. rewrite E. exact Cs. }
    pose proof (slack_pos m) as Hsl.
    assert (Ez0 : is_close_nb (Fin z) zero = false) by (apply is_close_zero_f; rewrite Ezs; lra).
    rewrite Ez0. change (gtb (Fin z) zero) with (qlt_bool 0 z).
    change (ltb (Fin p) zero) with (qlt_bool p 0). change (ltb (Fin p') zero) with (qlt_bool p' 0).
    assert (Efc : exists fc, sub (mul (neg (Fin z)) (Fin price)) (Fin fees) = Fin fc /\ fc == - s * price - fees).
    { eexists. split; [reflexivity|]. cbn. rewrite ?Qred_correct, Ezs. ring. }
    destruct Efc as (fc & Efc & Hfc). rewrite Efc.
    assert (Habs : forall x, exists r, abs (Fin x) = Fin r /\ r == Qabs x) by (intros x; apply xq_abs_fin).
    assert (Hfca : Qabs (- s * price - fees) == Qabs fc) by (rewrite Hfc; reflexivity).
    pose proof (Qabs_nonneg s) as Hsn. pose proof (Qabs_nonneg fc) as Hfn.
    pose proof (Qmult_le_0_compat _ _ Hpr Hsn) as Hps.
    destruct (qlt_bool 0 z) eqn:B1; qb.
    - assert (Bs : Qle_bool 0 s = true) by (apply qle_t; lra). rewrite Bs.
      destruct (qlt_bool p 0) eqn:B2; qb.
      + assert (Bp : Qle_bool 0 p = false) by (apply qle_f; lra). rewrite Bp.
        destruct (Habs z) as (az & Eaz & Haz). rewrite Eaz.
        destruct (Habs p) as (ap & Eap & Hap). rewrite Eap.
        assert (Hapv : ap == - p) by (rewrite Hap; qabs_all; lra).
        assert (Hazv : az == s) by (rewrite Haz, Ezs; qabs_all; lra).
        set (ss := if qlt_bool p' 0 then az else ap).
        assert (Ess : (if qlt_bool p' 0 then Fin az else Fin ap) = Fin ss) by (unfold ss; destruct (qlt_bool p' 0); reflexivity).
        rewrite Ess.
        assert (Ediv : exists avg, sdiv (Fin d) (Fin ap) = Ok (Fin avg) /\ avg == d / ap).
        { unfold sdiv. assert (Ea : eqb (Fin ap) zero = false).
          { change (Qeq_bool ap 0 = false). apply qeq_f. lra. }
          rewrite Ea. change (Qeq_bool ap 0 = false) in Ea.
          change (div (Fin d) (Fin ap)) with (xq_div (Fin d) (Fin ap)). unfold xq_div. rewrite Ea. eexists. split; [reflexivity|]. apply Qred_correct. }
        destruct Ediv as (avg & Ediv & Havg). rewrite Ediv. cbn [bind].
        assert (Edd : exists dd, mul (Fin ss) (Fin avg) = Fin dd /\ dd == ss * (d / ap)).
        { eexists. split; [reflexivity|]. rewrite Qred_correct, Havg. reflexivity. }
        destruct Edd as (dd & Edd & Hdd). rewrite Edd.
        destruct (neg_fin dd) as (nd & End & Hnd). rewrite End.
        destruct (add_nb_fin d nd) as (d' & Ed' & Hd'). rewrite Ed'.
        assert (E2 : exists w, mul two (Fin dd) = Fin w /\ w == 2 * dd).
        { eexists. split; [reflexivity|]. rewrite Qred_correct. reflexivity. }
        destruct E2 as (w & E2 & Hw). rewrite E2.
        destruct (add_nb_fin w fc) as (f & Ef & Hf). rewrite Ef.
        exists d', f. split; [reflexivity|].
        assert (Hap0 : 0 < ap) by lra.
        (* the share that stays owed *)
        assert (Hshare : d - dd == d * (shorted p' / shorted p) /\ 0 <= dd /\ dd <= d /\
                  (d - dd == 0 \/ (1 # 1000000000) * d < d - dd)).
        { destruct (shorted_cases p) as [[? _]|[_ Sp]]; [exfalso; lra|].
          unfold ss in *. destruct (qlt_bool p' 0) eqn:B3; qb.
          - destruct (shorted_cases p') as [[? _]|[_ Sp']]; [exfalso; lra|].
            assert (E : d - dd == d * (- p' / ap)).
            { rewrite Hdd, Hazv, Hs. assert (Hx : p == - ap) by lra. rewrite Hx. field. lra. }
            assert (Hr : 0 <= - p' / ap).
            { apply Qle_shift_div_l; lra. }
            assert (Hr1 : (1 # 1000000000) < - p' / ap).
            { apply Qlt_shift_div_l; [exact Hap0|].
              destruct Cp' as [C|C]; [exfalso; lra|].
              assert (slack m >= (1 # 1000000000) * m) by (unfold slack; apply Q.le_max_l).
              assert (ap <= m) by (rewrite Hap; exact Hp). 
              assert (Qabs p' == - p') by (qabs_all; lra). lra. }
            assert (Hr2 : - p' / ap <= 1).
            { apply Qle_shift_div_r; lra. }
            pose proof (Qmult_le_0_compat _ _ Hd Hr) as Hdr.
            assert (Hdr1 : d * (- p' / ap) <= d).
            { assert (Hx : d * (- p' / ap) <= d * 1) by (apply Qmult_le_compat_l; auto). lra. }
            split; [|split; [lra|split; [lra|]]].
            + rewrite E, Sp, Sp', Hapv. reflexivity.
            + destruct (Qlt_le_dec 0 d) as [Hd0|Hd0].
              * right. rewrite E.
                assert (Hx : d * (1 # 1000000000) < d * (- p' / ap)) by (apply Qmult_lt_l; auto). lra.
              * left. rewrite E. assert (Hx : d == 0) by lra. rewrite Hx. ring.
          - destruct (shorted_cases p') as [[_ Sp']|[? _]]; [|exfalso; lra].
            assert (E : dd == d) by (rewrite Hdd; field; lra).
            assert (E0 : d - dd == 0) by lra.
            split; [|split; [lra|split; [lra|left; exact E0]]].
            rewrite E0, Sp'. unfold Qdiv. ring. }
        destruct Hshare as (Hsh & Hd1 & Hd2 & Hd3).
        assert (Hd'e : Qabs (d' - (d - dd)) <= (1 # 1000000000000) /\ 0 <= d' /\ d' <= d - dd).
        { destruct Hd' as [[K1 K2]|[K1 K2]].
          - assert (K3 : Qabs (d - dd) <= (1 # 1000000000000)).
            { destruct Hd3 as [Hd3|Hd3]; [rewrite Hd3; change (Qabs 0) with 0; lra|].
              apply tolq_le_iff in K2. qabs_all. lra. }
            split; [|split]; [qabs_all; lra|lra|lra].
          - assert (E : d' == d - dd) by lra. split; [|split]; [|lra|lra].
            assert (E' : d' - (d - dd) == 0) by lra. rewrite E'. change (Qabs 0) with 0. lra. }
        destruct Hd'e as (Hde & Hd'0 & Hd'1).
        split; [exact Hd'0|]. split; [rewrite <- Hsh; exact Hde|]. split.
        * intros M HM. unfold within. change (inject_Z (Z.of_nat 3)) with 3.
          pose proof (approx_add_bound _ _ _ Hf) as HB.
          assert (HM2 : 0 <= 2 * price * Qabs s) by lra.
          assert (Ht : tolq w fc <= slack M).
          { apply tolq_slack; [|lra]. rewrite Hw. assert (E : Qabs (2 * dd) == 2 * dd) by (apply Qabs_pos; lra). lra. }
          pose proof (slack_pos M). rewrite <- Hfc. qabs_all. lra.
        * pose proof (approx_add_le _ _ _ Hf) as HB.
          assert (E : Qabs w == 2 * dd) by (rewrite Hw; apply Qabs_pos; lra). split; [lra|].
          intros Hp0 _. destruct (shorted_cases p') as [[_ Sp']|[? _]]; [|exfalso; lra].
          assert (E0 : d * (shorted p' / shorted p) == 0) by (rewrite Sp'; unfold Qdiv; ring). lra.
      + assert (Bp : Qle_bool 0 p = true) by (apply qle_t; lra). rewrite Bp.
        exists d, fc. split; [reflexivity|]. split; [exact Hd|]. split; [|split].
        * assert (E : d - d == 0) by ring. rewrite E. change (Qabs 0) with 0. lra.
        * intros M _. apply within_refl. rewrite Hfc. ring.
        * split; [lra|]. intros ? Hz0. apply Hz0. lra.
    - assert (Bs : Qle_bool 0 s = false) by (apply qle_f; qabs_all; lra). rewrite Bs. qb.
      destruct (qlt_bool p' 0) eqn:B2; qb.
      + destruct (shorted_cases p') as [[? _]|[_ Sp']]; [exfalso; lra|].
        destruct (Habs z) as (az & Eaz & Haz). rewrite Eaz.
        destruct (Habs p') as (ap & Eap & Hap). rewrite Eap.
        set (ss := if qlt_bool p 0 then az else ap).
        assert (Ess : (if qlt_bool p 0 then Fin az else Fin ap) = Fin ss) by (unfold ss; destruct (qlt_bool p 0); reflexivity).
        rewrite Ess.
        assert (Hss : ss == shorted p' - shorted p /\ 0 <= ss /\ ss <= Qabs s).
        { rewrite Sp'. unfold ss. rewrite Ezs in Haz. destruct (qlt_bool p 0) eqn:B3; qb;
          destruct (shorted_cases p) as [[? Sp]|[? Sp]]; try (exfalso; lra); rewrite Sp; qabs_all; lra. }
        destruct Hss as (Hss & Hss0 & Hss1).
        assert (Esv : exists sv, mul (Fin ss) (Fin price) = Fin sv /\ sv == ss * price).
        { eexists. split; [reflexivity|]. apply Qred_correct. }
        destruct Esv as (sv & Esv & Hsv). rewrite Esv.
        assert (Ed' : exists d', add (Fin d) (Fin sv) = Fin d' /\ d' == d + sv).
        { eexists. split; [reflexivity|]. apply Qred_correct. }
        destruct Ed' as (d' & Ed' & Hd'). rewrite Ed'.
        assert (E2 : exists w, mul (neg two) (Fin sv) = Fin w /\ w == - (2) * sv).
        { eexists. split; [reflexivity|]. rewrite Qred_correct. reflexivity. }
        destruct E2 as (w & E2 & Hw). rewrite E2.
        destruct (add_nb_fin fc w) as (f & Ef & Hf). rewrite Ef.
        exists d', f. split; [reflexivity|].
        assert (Hsv0 : 0 <= sv) by (rewrite Hsv; apply Qmult_le_0_compat; auto).
        assert (Hsv1 : sv <= price * Qabs s).
        { rewrite Hsv, (Qmult_comm ss). apply Qmult_le_compat_l; auto. }
        assert (Hwa : Qabs w == 2 * sv) by (rewrite Hw; qabs_all; lra).
        split; [lra|]. split; [|split].
        * assert (E : d' - (d + price * (shorted p' - shorted p)) == 0) by (rewrite Hd', Hsv, Hss; ring).
          rewrite E. change (Qabs 0) with 0. lra.
        * intros M HM. unfold within. change (inject_Z (Z.of_nat 3)) with 3.
          pose proof (approx_add_bound _ _ _ Hf) as HB.
          assert (Ht : tolq fc w <= slack M) by (apply tolq_slack; lra).
          pose proof (slack_pos M). rewrite <- Hfc. qabs_all. lra.
        * pose proof (approx_add_le _ _ _ Hf) as HB. split; [lra|]. intros ?. exfalso; lra.
      + exists d, fc. split; [reflexivity|]. split; [exact Hd|]. split; [|split].
        * destruct (shorted_cases p) as [[? Sp]|[? Sp]]; [|exfalso; lra].
          destruct (shorted_cases p') as [[? Sp']|[? Sp']]; [|exfalso; lra].
          assert (E : d - (d + price * (shorted p' - shorted p)) == 0) by (rewrite Sp, Sp'; ring).
          rewrite E. change (Qabs 0) with 0. lra.
        * intros M _. apply within_refl. rewrite Hfc. ring.
        * split; [lra|]. intros ? Hz0. apply Hz0. lra.
  Qed.
End FreeDiff.

(** ** The debt of the ledger, order by order *)
#[global] Instance held_proper : Proper (Qeq ==> Qeq) held.
Proof. intros a b H. unfold held. rewrite H. reflexivity. Qed.
#[global] Instance shorted_proper : Proper (Qeq ==> Qeq) shorted.
Proof. intros a b H. unfold shorted. rewrite H. reflexivity. Qed.
Lemma debt_after_proper : forall p p' d d' r, p == p' -> d == d' -> debt_after p d r == debt_after p' d' r.
Proof.
  intros p p' d d' r Hp Hd. unfold debt_after. destruct (Qle_bool 0 (bought_size r)); rewrite Hp, Hd; reflexivity.
Qed.
Lemma debt_from_app : forall l p d r,
  debt_from p d (l ++ [r]) == debt_after (p + ledger_position l) (debt_from p d l) r.
Proof.
  induction l as [|x l IH]; intros p d r; cbn [app debt_from].
  - apply debt_after_proper; [|reflexivity]. unfold ledger_position. cbn [total]. ring.
  - rewrite IH. apply debt_after_proper; [|reflexivity]. unfold ledger_position. cbn [total]. ring.
Qed.
Lemma ledger_debt_app : forall l r, ledger_debt (l ++ [r]) == debt_after (ledger_position l) (ledger_debt l) r.
Proof. intros l r. unfold ledger_debt. rewrite debt_from_app. apply debt_after_proper; [ring|reflexivity]. Qed.

Lemma share_bounds : forall p s, 0 <= s -> 0 <= shorted (p + s) / shorted p /\ shorted (p + s) / shorted p <= 1.
Proof.
  intros p s Hs. destruct (shorted_cases p) as [[Hp Sp]|[Hp Sp]].
  - rewrite Sp. unfold Qdiv. change (/ 0) with 0. split; lra.
  - destruct (shorted_cases (p + s)) as [[Hq Sq]|[Hq Sq]]; rewrite Sp, Sq.
    + unfold Qdiv. split; lra.
    + split; [apply Qle_shift_div_l; lra|apply Qle_shift_div_r; lra].
Qed.

Lemma turnover_app : forall l r, turnover (l ++ [r]) ==
  turnover l + (Qabs (bought_size r * qty (or_price r)) + Qabs (qty (or_fees r))).
Proof. intros l r. unfold turnover. rewrite total_app. cbn [total]. ring. Qed.
Lemma ledger_cash_app : forall l r, ledger_cash (l ++ [r]) == ledger_cash l + cash_effect r.
Proof. intros l r. unfold ledger_cash. rewrite total_app. cbn [total]. ring. Qed.
Lemma turnover_nonneg : forall l, 0 <= turnover l.
Proof.
  intros l. pose proof (cash_effect_turnover l). pose proof (total_abs_nonneg cash_effect l). lra.
Qed.
Lemma turnover_prefix : forall l1 l2, turnover l1 <= turnover (l1 ++ l2).
Proof.
  intros l1 l2. pose proof (turnover_nonneg l2) as H. unfold turnover in *. rewrite total_app. lra.
Qed.
Lemma volume_prefix : forall l1 l2, volume l1 <= volume (l1 ++ l2).
Proof. intros l1 l2. pose proof (volume_nonneg l2) as H. unfold volume in *. rewrite total_app. lra. Qed.
Lemma ledger_position_volume : forall l, Qabs (ledger_position l) <= volume l.
Proof.
  intros l. unfold ledger_position, volume. induction l as [|r l IH]; cbn [total]; [apply Qle_refl|].
  eapply Qle_trans; [apply Qabs_triangle|]. lra.
Qed.

Definition free_inv (i : nat) (M : Q) (pre : list (OrderRec XQ)) (s : Z * XQ * XQ * (nat -> XQ)) : Prop :=
  exists p d ms, snd (fst (fst s)) = Fin p /\ p == ledger_position pre /\
    snd (fst s) = Fin d /\ 0 <= d /\ (0 <= p -> d == 0) /\ (0 <= p -> ledger_debt pre == 0) /\
    Qabs (d - ledger_debt pre) <= inject_Z (Z.of_nat (length pre)) * (1 # 1000000000000) /\
    Forall (fun r => (or_idx r <= i)%nat) ms /\ length ms = length pre /\
    recorded carried i ms (snd s) /\
    within (3 * length pre) M (total carried ms) (ledger_cash pre - 2 * d) /\
    total (fun r => Qabs (carried r)) ms + 2 * d <= 5 * turnover pre.

Lemma free_step : forall i M whole pre r post s, whole = pre ++ r :: post -> clear_cut whole ->
  5 * turnover (pre ++ [r]) <= M -> proper r -> priced r -> (or_idx r <= i)%nat -> free_inv i M pre s ->
  exists s', cash_flow_step true s r = check_id (fst (fst (fst s))) r (Ok s') /\
    fst (fst (fst s')) = Z.of_nat (or_id r) /\ free_inv i M (pre ++ [r]) s'.
Proof.
  intros i M whole pre r post [[[last pos] dbt] o] Hwh (HC1 & HC2) HM Hpr Hprc Hi
    (p & d & ms & Ep & Hp & Ed & Hd & Hd0 & HD0 & HdD & Hms & Hl & Hrec & Hw & Ht).
  cbn [fst snd] in *. subst pos dbt.
  assert (Hwh' : whole = (pre ++ [r]) ++ post) by (rewrite <- app_assoc; exact Hwh).
  destruct (signed_size_fin r Hpr) as (q & Eq & Hq).
  destruct (add_nb_fin p q) as (p' & Ep' & Hp').
  set (V := volume whole) in *.
  assert (HpV : Qabs p <= V).
  { rewrite Hp. eapply Qle_trans; [apply ledger_position_volume|]. unfold V. rewrite Hwh. apply volume_prefix. }
  assert (HqV : Qabs q <= V).
  { rewrite Hq. eapply Qle_trans with (y := volume (pre ++ [r])).
    - rewrite volume_app. pose proof (volume_nonneg pre). lra.
    - unfold V. rewrite Hwh'. apply volume_prefix. }
  assert (HL : p + q == ledger_position (pre ++ [r])) by (rewrite ledger_position_app, Hp, Hq; reflexivity).
  assert (Hp'e : p' == p + q).
  { apply (approx_add_clear _ _ _ V Hp' HpV HqV). rewrite HL. apply (HC1 _ post Hwh'). }
  assert (Hp'V : Qabs p' <= V).
  { rewrite Hp'e, HL. eapply Qle_trans; [apply ledger_position_volume|]. unfold V. rewrite Hwh'. apply volume_prefix. }
  assert (Cq : slack V < Qabs q).
  { rewrite Hq. apply HC2. rewrite Hwh. apply in_or_app. right. left. reflexivity. }
  assert (Cp' : p' == 0 \/ slack V < Qabs p').
  { rewrite Hp'e, HL. apply (HC1 _ post Hwh'). }
  destruct Hpr as (_ & (price & Epr) & (fees & Efe) & _).
  assert (Hprice : 0 <= price) by (unfold priced in Hprc; rewrite Epr in Hprc; exact Hprc).
  destruct (free_diff p p' q d price fees V Hp'e HpV Hp'V Cq Cp' Hd Hprice)
    as (d' & f & Edf & Hd' & Hd'e & Hf & Hfa & Hz).
  assert (Hce : - q * price - fees == cash_effect r).
  { unfold cash_effect. rewrite Epr, Efe, Hq. cbn [qty]. ring. }
  assert (Hpq : price * Qabs q == Qabs (bought_size r * qty (or_price r))).
  { rewrite Epr. cbn [qty]. rewrite Qabs_Qmult, Hq, (Qabs_pos price Hprice). ring. }
  assert (Hcea : Qabs (- q * price - fees) <= Qabs (bought_size r * qty (or_price r)) + Qabs (qty (or_fees r))).
  { pose proof (cash_effect_turnover [r]) as K. unfold turnover in K. cbn [total] in K.
    assert (E : Qabs (- q * price - fees) == Qabs (cash_effect r)) by (rewrite Hce; reflexivity). lra. }
  pose proof (total_abs_nonneg carried ms) as HTn.
  pose proof (turnover_app pre r) as HTa.
  pose proof (Qabs_nonneg (qty (or_fees r))) as Hfn.
  pose proof (Qabs_nonneg (bought_size r * qty (or_price r))) as Hbn.
  exists (Z.of_nat (or_id r), Fin p', Fin d', fupd o (or_idx r) (add_nb (o (or_idx r)) (Fin f))).
  split; [|split; [reflexivity|]].
  { unfold cash_flow_step. rewrite Eq, Ep', Epr, Efe, Edf. reflexivity. }
  exists p', d', (ms ++ [mark (or_idx r) f]). cbn [fst snd]. rewrite !app_length, Hl. cbn [length].
  (* the debt *)
  assert (Hda : ledger_debt (pre ++ [r]) == debt_after p (ledger_debt pre) r).
  { rewrite ledger_debt_app. apply debt_after_proper; [symmetry; exact Hp|reflexivity]. }
  assert (HLq : p + bought_size r == p') by (rewrite Hp'e, Hq; reflexivity).
  split; [reflexivity|]. split; [rewrite Hp'e; exact HL|]. split; [reflexivity|]. split; [exact Hd'|].
  split; [intros; apply Hz; auto|].
  split.
  { intros H0. rewrite Hda. unfold debt_after. destruct (shorted_cases p') as [[_ Sp']|[? _]]; [|exfalso; lra].
    cbv zeta. destruct (Qle_bool 0 (bought_size r)) eqn:B; rewrite HLq, Sp'; qb.
    - unfold Qdiv. ring.
    - destruct (shorted_cases p) as [[? Sp]|[? Sp]]; [|exfalso; lra]. rewrite Sp, HD0 by auto. ring. }
  split.
  { rewrite inject_add. change (inject_Z (Z.of_nat 1)) with 1. rewrite Qmult_plus_distr_l.
    rewrite Hda. unfold debt_after. cbv zeta.
    assert (EB : Qle_bool 0 q = Qle_bool 0 (bought_size r)).
    { destruct (Qle_bool 0 q) eqn:B1, (Qle_bool 0 (bought_size r)) eqn:B2; auto; qb; exfalso; lra. }
    rewrite EB in Hd'e. destruct (Qle_bool 0 (bought_size r)) eqn:B; rewrite HLq; qb.
    - destruct (Qle_bool 0 p) eqn:B2; qb.
      + specialize (Hd0 B2). specialize (HD0 B2). rewrite HD0. rewrite HD0, Hd0 in HdD. rewrite Hd0 in Hd'e.
        assert (E : 0 * (shorted p' / shorted p) == 0) by ring. rewrite E.
        assert (E0 : Qabs (0 - 0) == 0) by reflexivity. lra.
      + destruct (share_bounds p (bought_size r) B) as (S0 & S1). rewrite HLq in S0, S1.
        set (sh := shorted p' / shorted p) in *. clearbody sh.
        assert (E : d' - ledger_debt pre * sh == (d' - d * sh) + (d - ledger_debt pre) * sh) by ring.
        rewrite E. eapply Qle_trans; [apply Qabs_triangle|]. rewrite Qabs_Qmult, (Qabs_pos sh S0).
        assert (Qabs (d - ledger_debt pre) * sh <= Qabs (d - ledger_debt pre) * 1)
          by (apply Qmult_le_compat_l; [exact S1|apply Qabs_nonneg]). lra.
    - rewrite Epr. cbn [qty].
      set (X := price * (shorted p' - shorted p)) in *. clearbody X.
      assert (E : d' - (ledger_debt pre + X) == (d' - (d + X)) + (d - ledger_debt pre)) by ring.
      rewrite E. eapply Qle_trans; [apply Qabs_triangle|]. lra. }
  split; [apply Forall_app; split; auto|]. split; [reflexivity|].
  split.
  { change (or_idx r) with (or_idx (mark (or_idx r) f)) at 2 3. apply recorded_step; [exact Hrec|reflexivity]. }
  split.
  { rewrite total_app. cbn [total carried mark or_price qty].
    replace (3 * (length pre + 1))%nat with (3 + 3 * length pre)%nat by lia.
    eapply within_trans with (b := total carried ms + (cash_effect r - 2 * (d' - d))).
    - specialize (Hf M ltac:(lra)). rewrite Hce in Hf.
      apply within_shift with (c := total carried ms) in Hf.
      eapply within_proper; [reflexivity|reflexivity| | |exact Hf]; ring.
    - apply within_shift with (c := cash_effect r - 2 * (d' - d)) in Hw.
      eapply within_proper; [reflexivity|reflexivity|reflexivity| |exact Hw].
      rewrite ledger_cash_app. ring. }
  rewrite total_app. cbn [total carried mark or_price qty]. lra.
Qed.

Lemma free_fold : forall i M whole l pre s s' post, whole = pre ++ l ++ post -> clear_cut whole ->
  5 * turnover (pre ++ l) <= M -> Forall proper l -> Forall priced l -> Forall (fun r => (or_idx r <= i)%nat) l ->
  free_inv i M pre s -> foldM (cash_flow_step true) s l = Ok s' -> free_inv i M (pre ++ l) s'.
Proof.
  intros i M whole l. induction l as [|r l IH]; intros pre s s' post Hwh HC HM HP HQ HI Hs H.
  - injection H as <-. rewrite app_nil_r. exact Hs.
  - inversion HP; inversion HQ; inversion HI; subst. cbn [foldM] in H. apply bind_ok in H as (s1 & Hs1 & Hs2).
    assert (E : pre ++ r :: l = (pre ++ [r]) ++ l) by (rewrite <- app_assoc; reflexivity).
    rewrite E in *.
    destruct (free_step i M (pre ++ (r :: l) ++ post) pre r (l ++ post) s eq_refl HC) as (s2 & E2 & _ & H2'); auto.
    { eapply Qle_trans; [|exact HM]. pose proof (turnover_prefix (pre ++ [r]) l). lra. }
    rewrite E2 in Hs1. unfold check_id in Hs1. apply raise_if_ok in Hs1 as [_ Hs1]. injection Hs1 as <-.
    apply (IH (pre ++ [r]) s2 s' post); auto. rewrite <- app_assoc. reflexivity.
Qed.

Lemma free_init : forall i M, free_inv i M [] ((-1)%Z, zero, zero, fun _ => zero).
Proof.
  intros i M. exists 0, 0, []. cbn [fst snd length]. split; [reflexivity|]. split; [reflexivity|].
  split; [reflexivity|]. split; [apply Qle_refl|]. split; [reflexivity|]. split; [reflexivity|].
  split; [vm_compute; discriminate|]. split; [constructor|]. split; [reflexivity|].
  split; [apply recorded_init|]. split; [apply within_refl; reflexivity|]. vm_compute; discriminate.
Qed.

Lemma cash_flow_later : forall free i l s s', Forall (fun r => (i < or_idx r)%nat) l ->
  foldM (cash_flow_step free) s l = Ok s' -> forall j, (j <= i)%nat -> snd s' j = snd s j :> XQ.
Proof.
  intros free i l. induction l as [|r l IH]; intros s s' HF H j Hj.
  - injection H as <-. reflexivity.
  - inversion HF as [|? ? Hr HFl]; subst. cbn [foldM] in H. apply bind_ok in H as (s1 & H1 & H2).
    rewrite (IH _ _ HFl H2 j Hj). destruct s as [[[last p] d] o]. unfold cash_flow_step, check_id in H1.
    apply raise_if_ok in H1 as [_ H1]. apply bind_ok in H1 as ((d' & cf) & _ & H1).
    apply f_equal with (f := fun x => match x with Ok y => snd y | Err _ => o end) in H1. cbn [snd] in H1.
    rewrite <- H1. cbn [snd]. apply fupd_other. lia.
Qed.

Lemma free_ledger : forall recs c flow i c0,
  Forall proper (of_col c recs) -> Forall priced (of_col c recs) -> by_bar (of_col c recs) -> clear_cut (of_col c recs) ->
  cash_flow_nb true recs c = Ok flow ->
  exists q, cash_nb flow (Fin c0) i = Fin q /\
    within (7 * length (until i (of_col c recs)) + 1) (Qabs c0 + 5 * turnover (until i (of_col c recs)))
      q (c0 + ledger_cash (until i (of_col c recs)) - 2 * ledger_debt (until i (of_col c recs))).
Proof.
  intros recs c flow i c0 HP HQ HB HC H. unfold cash_flow_nb in H. apply bind_ok in H as (s & H & E).
  injection E as <-. rewrite column_records_of_col in H. set (l := of_col c recs) in *.
  destruct (by_bar_split i l HB) as (l2 & El & H2 & H1).
  rewrite El in H. apply foldM_app_ok in H as (s1 & Hs1 & Hs2).
  assert (Hi : free_inv i (5 * turnover (until i l)) (until i l) s1).
  { refine (free_fold i _ l (until i l) [] _ s1 l2 El HC (Qle_refl _) (Forall_until _ _ _ HP) (Forall_until _ _ _ HQ) H1 _ Hs1).
    apply free_init. }
  destruct Hi as (p & d & ms & Ep & Hp & Ed & Hd & Hd0 & HD0 & HdD & Hms & Hl & Hrec & Hw & Ht).
  destruct (recorded_cumulated _ _ _ _ Hrec c0) as (q & Eq & Hq & _).
  rewrite (until_all _ _ Hms), Hl in Hq.
  exists q. split.
  { unfold cash_nb. rewrite <- Eq. apply fold_seq_ext. intros j Hj. apply (cash_flow_later _ _ _ _ _ H2 Hs2 j Hj). }
  set (n := length (until i l)) in *. set (T := turnover (until i l)) in *.
  assert (HM : Qabs c0 + total (fun r => Qabs (carried r)) ms <= Qabs c0 + 5 * T) by lra.
  replace (7 * n + 1)%nat with ((2 * n + 1) + (3 * n + 2 * n))%nat by lia.
  eapply within_trans; [eapply within_le; [apply Nat.le_refl|exact HM|exact Hq]|].
  pose proof (Qabs_nonneg c0) as Hc0.
  eapply within_trans with (b := c0 + (ledger_cash (until i l) - 2 * d)).
  - apply within_le with (n' := (3 * n)%nat) (m' := Qabs c0 + 5 * T) in Hw; [|lia|lra].
    apply within_shift with (c := c0) in Hw.
    eapply within_proper; [reflexivity|reflexivity| | |exact Hw]; ring.
  - unfold within. replace (2 * n)%nat with (n + n)%nat by lia. rewrite inject_add.
    pose proof (slack_pos (Qabs c0 + 5 * T)) as Hs.
    assert (E : c0 + (ledger_cash (until i l) - 2 * d) - (c0 + ledger_cash (until i l) - 2 * ledger_debt (until i l))
              == - (2) * (d - ledger_debt (until i l))) by ring.
    rewrite E, Qabs_Qmult. change (Qabs (- (2))) with 2.
    assert (inject_Z (Z.of_nat n) * (1 # 1000000000000) <= inject_Z (Z.of_nat n) * slack (Qabs c0 + 5 * T))
      by (apply Qmult_le_compat_l; [exact Hs|apply inject_nonneg]). lra.
Qed.

Lemma free_succeeds : forall recs c,
  Forall proper (of_col c recs) -> Forall priced (of_col c recs) -> clear_cut (of_col c recs) ->
  StronglySorted (fun a b => (or_id a <= or_id b)%nat) recs ->
  exists flow, cash_flow_nb true recs c = Ok flow.
Proof.
  intros recs c HP HQ HC HS. unfold cash_flow_nb. rewrite column_records_of_col.
  apply (filter_sorted _ _ (fun r => Nat.eqb (or_col r) c)) in HS. fold (of_col c recs) in HS.
  set (l := of_col c recs) in *. clearbody l.
  set (i := list_max (map (@or_idx XQ) l)).
  assert (HI : Forall (fun r => (or_idx r <= i)%nat) l).
  { rewrite Forall_forall. intros r Hr. unfold i.
    pose proof (proj1 (list_max_le (map (@or_idx XQ) l) (list_max (map (@or_idx XQ) l))) (Nat.le_refl _)) as K.
    rewrite Forall_forall in K. apply K. apply in_map. exact Hr. }
  assert (G : forall l2 pre s, l = pre ++ l2 -> Forall proper l2 -> Forall priced l2 -> Forall (fun r => (or_idx r <= i)%nat) l2 ->
    StronglySorted (fun a b => (or_id a <= or_id b)%nat) l2 ->
    Forall (fun r => (fst (fst (fst s)) <= Z.of_nat (or_id r))%Z) l2 -> free_inv i (5 * turnover l) pre s ->
    exists s', foldM (cash_flow_step true) s l2 = Ok s').
  { induction l2 as [|r l2 IH]; intros pre s El HP2 HQ2 HI2 HS2 HL2 Hinv; [exists s; reflexivity|].
    inversion HP2; inversion HQ2; inversion HI2; inversion HS2; inversion HL2; subst.
    destruct (free_step i (5 * turnover (pre ++ r :: l2)) (pre ++ r :: l2) pre r l2 s eq_refl HC) as (s2 & E2 & Eid & H2'); auto.
    { pose proof (turnover_prefix (pre ++ [r]) l2) as K. rewrite <- app_assoc in K. cbn [app] in K. lra. }
    cbn [foldM]. rewrite E2. unfold check_id.
    assert (Hlt : Z.ltb (Z.of_nat (or_id r)) (fst (fst (fst s))) = false) by (apply Z.ltb_ge; auto).
    rewrite Hlt. cbn [raise_if bind]. apply (IH (pre ++ [r]) s2); auto.
    - rewrite <- app_assoc. reflexivity.
    - rewrite Eid. rewrite Forall_forall in *. intros x Hx.
      match goal with K : forall x, In x l2 -> (or_id r <= or_id x)%nat |- _ => specialize (K x Hx); lia end. }
  destruct (G l [] ((-1)%Z, @zero XQ XQnum, @zero XQ XQnum, fun _ : nat => @zero XQ XQnum) eq_refl HP HQ HI HS) as (s' & Es').
  - rewrite Forall_forall. intros x _. cbn [fst]. lia.
  - apply free_init.
  - rewrite Es'. eexists. reflexivity.
Qed.
