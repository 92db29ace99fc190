(** * Inversion of execute_order_nb over exact arithmetic *)
From Coq Require Import ZArith QArith Qabs Qround Qminmax Bool Lia Lqa List.
From Verif Require Import Base Num MathNb TolSpec Order XQFacts OrderFacts.
Import ListNotations.

(** What the argument checks of execute_order_nb guarantee. *)
Record Checked (es : ExecState XQ) (o : Order XQ) (p d price f ff slip mn rp : Q) : Prop := {
  ck_cash : cash_ok (es_cash es);
  ck_pos : es_position es = Fin p;
  ck_debt : es_debt es = Fin d;
  ck_debt0 : 0 <= d;
  ck_free : es_free_cash es <> NaN;
  ck_price : o_price o = Fin price;
  ck_price1 : 0 < price;
  ck_long : o_direction o = LongOnly -> 0 <= p;
  ck_short : o_direction o = ShortOnly -> p <= 0;
  ck_fees : o_fees o = Fin f;
  ck_ffees : o_fixed_fees o = Fin ff;
  ck_slip : o_slippage o = Fin slip;
  ck_slip0 : 0 <= slip;
  ck_min : o_min_size o = Fin mn;
  ck_min0 : 0 <= mn;
  ck_max : size_ok (o_max_size o);
  ck_gran : gran_ok (o_size_granularity o);
  ck_rp : o_reject_prob o = Fin rp;
  ck_rp0 : 0 <= rp <= 1 }.

Lemma isfinite_fin : forall x, isfinite x = true -> exists q, x = Fin q.
Proof. intros [| | |q] H; try discriminate; eauto. Qed.

Lemma check_state_order_inv : forall (es : ExecState XQ) (o : Order XQ) A (k : res A) r,
  isnan (o_price o) = false ->
  check_state_order es o k = Ok r ->
  k = Ok r /\ exists p d price f ff slip mn rp, Checked es o p d price f ff slip mn rp.
Proof.
  intros es o A k r Hpn H. unfold check_state_order in H.
  repeat (apply raise_if_ok in H; let Hc := fresh "C" in destruct H as [Hc H]).
  split; [exact H|].
  apply orb_false_iff in C as [Cn Cl].
  apply negb_false_iff in C0. apply isfinite_fin in C0 as (p & Hp).
  apply orb_false_iff in C1 as [C1 C1l]. apply negb_false_iff in C1. apply isfinite_fin in C1 as (d & Hd).
  apply orb_false_iff in C3 as [C3 C3l]. apply negb_false_iff in C3. apply isfinite_fin in C3 as (pr & Hpr).
  apply negb_false_iff in C6. apply isfinite_fin in C6 as (f & Hf).
  apply negb_false_iff in C7. apply isfinite_fin in C7 as (ff & Hff).
  apply orb_false_iff in C8 as [C8 C8l]. apply negb_false_iff in C8. apply isfinite_fin in C8 as (sl & Hsl).
  apply orb_false_iff in C9 as [C9 C9l]. apply negb_false_iff in C9. apply isfinite_fin in C9 as (mn & Hmn).
  apply orb_false_iff in C10 as [C10 C10l].
  apply orb_false_iff in C11 as [C11 C11l].
  apply orb_false_iff in C12 as [C12 C12g]. apply orb_false_iff in C12 as [C12 C12l].
  apply negb_false_iff in C12. apply isfinite_fin in C12 as (rp & Hrp).
  rewrite Hp, Hd, Hpr, Hsl, Hmn, Hrp in *.
  unfold gtb, geb, zero, one in *. cbn [ltb leb XQnum ofZ] in *.
  change (inject_Z 0) with 0 in *. change (inject_Z 1) with 1 in *.
  cbn [xq_ltb xq_leb] in *. qb.
  exists p, d, pr, f, ff, sl, mn, rp.
  constructor; auto; try lra.
  - destruct (es_cash es) as [| | |c] eqn:E; cbn in *; try discriminate; [left; auto|right].
    exists c; split; auto. qb. lra.
  - intros C; rewrite C in C2; discriminate.
  - intros E; rewrite E in C4. cbn [is_long_only andb] in C4. qb. lra.
  - intros E; rewrite E in C5. cbn [is_short_only andb] in C5. qb. lra.
  - destruct (o_max_size o) as [| | |m]; cbn in *; try discriminate; [left; auto|right].
    exists m; split; auto. qb. lra.
  - destruct (o_size_granularity o) as [| | |m]; cbn in *; try discriminate; [left; auto|right].
    exists m; split; auto. qb. lra.
Qed.

(** A result of execute_order_nb is either an unfilled order with the
    (snapped) state, or the outcome of buy_nb/sell_nb on it. *)
Lemma execute_order_inv : forall draws k (s : ProcState XQ) (o : Order XQ) es' r k',
  execute_order_nb draws k s o = Ok (es', r, k') ->
  unfilled (snap_state s) es' r \/
  exists p d price f ff slip mn rp osz pct,
    isnan (o_size o) = false /\
    Checked (snap_state s) o p d price f ff slip mn rp /\
    resolve_size o (es_position (snap_state s)) (snap (ps_val_price s)) (snap (ps_value s))
      = Ok (inr (osz, pct)) /\
    buy_or_sell (snap_state s) o osz pct = Ok (es', r).
Proof.
  intros draws k s o es' r k' H. unfold execute_order_nb in H. cbv zeta in H.
  destruct (isnan (o_size o)) eqn:Hsn.
  { injection H as <- <- _. left. split; eauto. do 2 eexists; split; [|reflexivity]; discriminate. }
  destruct (isnan (o_price o)) eqn:Hpn.
  { injection H as <- <- _. left. split; eauto. do 2 eexists; split; [|reflexivity]; discriminate. }
  apply check_state_order_inv in H; auto.
  destruct H as (H & p & d & price & f & ff & slip & mn & rp & Hck).
  apply bind_ok in H as (rs & Hrs & H).
  destruct rs as [[st info]|[osz pct]].
  { injection H as <- <- _. left. split; auto.
    assert (st <> Filled).
    { clear - Hrs. unfold resolve_size in Hrs. cbv zeta in Hrs.
      destruct (resolve_target_percent _ _ _) as [e|[s1 t1]] eqn:E1.
      - injection Hrs as ->. unfold resolve_target_percent in E1.
        destruct (o_size_type o); try discriminate.
        destruct (isnan _); [injection E1 as <- <-; discriminate|].
        destruct (leb _ _); [injection E1 as <- <-; discriminate|discriminate].
      - apply bind_ok in Hrs as (r & Hr & H). destruct r as [e|[s2 t2]]; [|discriminate].
        injection H as ->. unfold resolve_value in Hr.
        destruct t1; try discriminate.
        + destruct (_ || _)%bool; [discriminate|]. destruct (isnan _); [injection Hr as <- <-; discriminate|].
          apply bind_ok in Hr as (? & _ & C); discriminate.
        + destruct (_ || _)%bool; [discriminate|]. destruct (isnan _); [injection Hr as <- <-; discriminate|].
          apply bind_ok in Hr as (? & _ & C); discriminate. }
    eauto. }
  apply bind_ok in H as ([es1 r1] & Hbs & H).
  destruct (gtb (o_reject_prob o) zero).
  - destruct (ltb (draws k) (o_reject_prob o)).
    + injection H as <- <- _. left. split; auto. do 2 eexists; split; [|reflexivity]; discriminate.
    + injection H as <- <- _. right. exists p, d, price, f, ff, slip, mn, rp, osz, pct. auto.
  - injection H as <- <- _. right. exists p, d, price, f, ff, slip, mn, rp, osz, pct. auto.
Qed.

Lemma gtb_size_ok : forall x, gtb x zero = true -> size_ok x.
Proof.
  intros [| | |q] H; cbn in H; try discriminate; [left; auto|right].
  unfold gtb in H. cbn [ltb XQnum zero ofZ] in H. change (inject_Z 0) with 0 in H.
  exists q; split; auto. cbn [xq_ltb] in H. qb; auto.
Qed.

(** The buy branch *)
Lemma exec_buy : forall (s : ProcState XQ) (o : Order XQ) p d price f ff slip mn rp osz pct es' r,
  Checked (snap_state s) o p d price f ff slip mn rp -> - (1) < f ->
  gtb osz zero = true ->
  buy_or_sell (snap_state s) o osz pct = Ok (es', r) ->
  let es := snap_state s in
  let ap := Qred (price * Qred (inject_Z 1 + slip)) in
  unfilled es es' r \/
  exists cl fs fee req,
    buy_cash_limit es (Fin ap) (Fin f) (Fin ff) (o_lock_cash o) pct = Ok cl /\
    BuyCert es osz ap (o_direction o) f ff mn (o_max_size o) (o_size_granularity o) cl
      (o_allow_partial o) es' r fs fee req.
Proof.
  intros s o p d price f ff slip mn rp osz pct es' r C Hf Hgt H es ap.
  unfold buy_or_sell in H. rewrite Hgt in H. fold es in H, C. clearbody es.
  destruct C as [Kcash Kpos Kdebt Kd0 Kfree Kprice Kprice0 Klong Kshort Kfees Kff Kslip Kslip0 Kmin Kmin0 Kmax Kgran Krp Krp0].
  destruct es as [cash pos debt free]. cbn [es_cash es_position es_debt es_free_cash] in *.
  subst pos debt. 
  rewrite Kprice, Kfees, Kff, Kslip, Kmin in H.
  eapply buy_nb_cert in H; eauto using gtb_size_ok.
Qed.

(** The sell branch, for orders whose size is a number *)
Lemma exec_sell : forall (s : ProcState XQ) (o : Order XQ) p d price f ff slip mn rp osz pct es' r,
  Checked (snap_state s) o p d price f ff slip mn rp ->
  gtb osz zero = false ->
  ((o_direction o = LongOnly /\ neg osz = NaN /\ pct <> NaN) \/ nonneg_x (neg osz)) ->
  (pct = NaN \/ exists pc, pct = Fin pc /\ 0 <= pc /\ (o_direction o <> LongOnly -> 0 < pc /\ neg osz = PInf)) ->
  buy_or_sell (snap_state s) o osz pct = Ok (es', r) ->
  let es := snap_state s in
  let ap := Qred (price * Qred (inject_Z 1 - slip)) in
  unfilled es es' r \/
  exists fs, SellCert es (neg osz) ap (o_direction o) f ff mn (o_max_size o) (o_size_granularity o) pct
               (o_lock_cash o) (o_allow_partial o) es' r fs /\ r_status r = Filled.
Proof.
  intros s o p d price f ff slip mn rp osz pct es' r C Hgt Hsz Hpct H es ap.
  unfold buy_or_sell in H. rewrite Hgt in H. fold es in H, C. clearbody es.
  destruct C as [Kcash Kpos Kdebt Kd0 Kfree Kprice Kprice0 Klong Kshort Kfees Kff Kslip Kslip0 Kmin Kmin0 Kmax Kgran Krp Krp0].
  destruct es as [cash pos debt free]. cbn [es_cash es_position es_debt es_free_cash] in *.
  subst pos debt.
  rewrite Kprice, Kfees, Kff, Kslip, Kmin in H.
  eapply sell_nb_cert in H; eauto.
Qed.

(** ** Sizes that are numbers

    An order is [regular] in a state of value [v] when its requested size is a
    number after conversion: percentages are finite and non-zero, and
    a zero target percentage is not applied to an infinite value. *)
Definition regular (o : Order XQ) (v : XQ) : Prop :=
  match o_size_type o with
  | Percent => exists q, o_size o = Fin q /\ ~ q == 0
  | TargetPercent => v = PInf -> forall q, o_size o = Fin q -> ~ q == 0
  | _ => True
  end.

Definition converted (osz pct : XQ) : Prop :=
  (pct = NaN /\ osz <> NaN) \/
  (exists pc, pct = Fin pc /\ 0 < pc /\ (osz = PInf \/ osz = NInf)).

Lemma resolve_amount_converted : forall dir p sz st osz pct,
  sz <> NaN -> (st = Percent -> exists q, sz = Fin q /\ ~ q == 0) ->
  resolve_amount dir (Fin p) sz st = (osz, pct) -> converted osz pct.
Proof.
  intros dir p sz st osz pct Hsz Hpc H. unfold resolve_amount in H.
  assert (Hgen : forall z, z <> NaN ->
    (let '(order_size, st0) :=
       if (negb (is_long_only dir) && (ltb z zero && isinf z))%bool then (neg one, Percent) else (z, Amount) in
     match st0 with Percent => (mul (sign order_size) pinf, abs order_size) | _ => (order_size, nan) end)
    = (osz, pct) -> converted osz pct).
  { intros z Hz Hr. destruct (negb (is_long_only dir) && _)%bool.
    - injection Hr as <- <-. right. exists (Qred 1). split; [reflexivity|]. split; [rewrite Qred_correct; lra|].
      right. vm_compute. reflexivity.
    - injection Hr as <- <-. left. auto. }
  destruct st.
  - apply Hgen with (z := sz); auto.
  - injection H as <- <-. left; auto.
  - destruct (Hpc eq_refl) as (q & -> & Hq). injection H as <- <-. right.
    destruct (xq_abs_fin q) as (rq & Erq & Hrq).
    exists rq. split; [exact Erq|].
    split; [rewrite Hrq; qabs_all; lra|].
    change (mul (sign (Fin q)) pinf = PInf \/ mul (sign (Fin q)) pinf = NInf).
    rewrite sign_fin. destruct (qlt_bool 0 q) eqn:E1; [left; reflexivity|].
    destruct (qlt_bool q 0) eqn:E2; [right; reflexivity|]. qb. lra.
  - apply Hgen with (z := sub sz (Fin p)); auto. destruct sz; try congruence; discriminate.
  - injection H as <- <-. left; auto.
  - injection H as <- <-. left; auto.
Qed.

Lemma neg_nn : forall x, x <> NaN -> mul x (neg one) <> NaN.
Proof. intros [| | |q] H; try congruence; vm_compute; discriminate. Qed.

Lemma resolve_size_converted : forall (o : Order XQ) p vp v osz pct,
  o_size o <> NaN -> regular o v ->
  resolve_size o (Fin p) vp v = Ok (inr (osz, pct)) -> converted osz pct.
Proof.
  intros o p vp v osz pct Hs Hreg H. unfold resolve_size in H. cbv zeta in H.
  set (sz := if is_short_only (o_direction o) then mul (o_size o) (neg one) else o_size o) in *.
  assert (Hsz : sz <> NaN) by (unfold sz; destruct (is_short_only _); auto using neg_nn).
  assert (Hz : forall q, sz = Fin q -> exists q', o_size o = Fin q' /\ (q == 0 <-> q' == 0)).
  { intros q. unfold sz. destruct (is_short_only _).
    - destruct (o_size o) as [| | |q']; try (vm_compute; discriminate). cbn. intros E. inversion E.
      exists q'. split; auto. rewrite !Qred_correct. change (inject_Z 1) with 1. lra.
    - intros ->. exists q. split; auto. reflexivity. }
  assert (Hpz : o_size_type o = Percent -> exists q, sz = Fin q /\ ~ q == 0).
  { intros E. unfold regular in Hreg. rewrite E in Hreg. destruct Hreg as (q & Hq & Hq0).
    unfold sz. rewrite Hq. destruct (is_short_only _).
    - eexists. split; [reflexivity|]. cbn. rewrite !Qred_correct. change (inject_Z 1) with 1. lra.
    - eauto. }
  destruct (resolve_target_percent v sz (o_size_type o)) as [e|[s1 t1]] eqn:E1; [discriminate|].
  assert (H1 : s1 <> NaN /\ (t1 = Percent -> s1 = sz /\ o_size_type o = Percent)).
  { unfold resolve_target_percent in E1. destruct (o_size_type o) eqn:Et;
      try (injection E1 as <- <-; split; [exact Hsz|intros C; try discriminate; auto]).
    destruct (isnan v) eqn:Hvn; [discriminate|]. destruct (leb v zero) eqn:Hvl; [discriminate|].
    injection E1 as <- <-. split; [|discriminate].
    unfold regular in Hreg. rewrite Et in Hreg.
    destruct v as [| | |vq]; cbn in Hvn, Hvl; try discriminate.
    - destruct sz as [| | |q] eqn:Es; try congruence; try (vm_compute; discriminate).
      destruct (Hz q eq_refl) as (q' & Hq' & Hqq). specialize (Hreg eq_refl q' Hq').
      cbn. unfold xq_sgn_inf. destruct (Qeq_bool q 0) eqn:Eq; [qb; tauto|].
      destruct (Bool.eqb _ _); discriminate.
    - change (inject_Z 0) with 0 in Hvl. qb.
      destruct sz as [| | |q]; try congruence; cbn; unfold xq_sgn_inf;
      try (destruct (Qeq_bool vq 0) eqn:Eq; [qb; lra|]; destruct (Bool.eqb _ _)); discriminate. }
  destruct H1 as [H1n H1p].
  apply bind_ok in H as (r & Hr & H). destruct r as [e|[s2 t2]]; [discriminate|].
  injection H as H.
  assert (H2 : s2 <> NaN /\ (t2 = Percent -> s2 = s1 /\ t1 = Percent)).
  { unfold resolve_value in Hr. destruct t1;
      try (injection Hr as <- <-; split; [exact H1n|intros C; try discriminate; auto]).
    - destruct (isinf vp || leb vp zero)%bool eqn:Ev; [discriminate|].
      destruct (isnan vp) eqn:Evn; [discriminate|].
      apply bind_ok in Hr as (sq & Hsq & Hr). injection Hr as <- <-. split; [|discriminate].
      destruct vp as [| | |vq]; cbn in *; try discriminate.
      destruct s1 as [| | |q]; try congruence.
      + apply isinf_nn. eapply sdiv_inf; [|exact Hsq]; reflexivity.
      + apply isinf_nn. eapply sdiv_inf; [|exact Hsq]; reflexivity.
      + apply sdiv_fin in Hsq as (x & -> & _). discriminate.
    - destruct (isinf vp || leb vp zero)%bool eqn:Ev; [discriminate|].
      destruct (isnan vp) eqn:Evn; [discriminate|].
      apply bind_ok in Hr as (sq & Hsq & Hr). injection Hr as <- <-. split; [|discriminate].
      destruct vp as [| | |vq]; cbn in *; try discriminate.
      destruct s1 as [| | |q]; try congruence.
      + apply isinf_nn. eapply sdiv_inf; [|exact Hsq]; reflexivity.
      + apply isinf_nn. eapply sdiv_inf; [|exact Hsq]; reflexivity.
      + apply sdiv_fin in Hsq as (x & -> & _). discriminate. }
  destruct H2 as [H2n H2p].
  eapply resolve_amount_converted; [exact H2n| |exact H].
  intros E. destruct (H2p E) as [-> E1']. destruct (H1p E1') as [-> E2']. auto.
Qed.

Lemma converted_sell : forall osz pct dir, converted osz pct -> gtb osz zero = false ->
  ((dir = LongOnly /\ neg osz = NaN /\ pct <> NaN) \/ nonneg_x (neg osz)) /\
  (pct = NaN \/ exists pc, pct = Fin pc /\ 0 <= pc /\ (dir <> LongOnly -> 0 < pc /\ neg osz = PInf)).
Proof.
  intros osz pct dir [(-> & Hn)|(pc & -> & Hpc & Ho)] Hgt.
  - split; auto. right. destruct osz as [| | |q]; try congruence; cbn in Hgt; try discriminate.
    + left; reflexivity.
    + right. cbn. exists (Qred (- q)). split; auto. rewrite Qred_correct.
      unfold gtb in Hgt. cbn in Hgt. change (inject_Z 0) with 0 in Hgt. qb. lra.
  - destruct Ho as [-> | ->]; [discriminate|]. split; [right; left; reflexivity|].
    right. exists pc. repeat split; auto. lra.
Qed.

(** The main inversion: regular orders. *)
Lemma execute_order_cert : forall draws k (s : ProcState XQ) (o : Order XQ) es' r k',
  (forall f, o_fees o = Fin f -> - (1) < f) ->
  regular o (snap (ps_value s)) ->
  execute_order_nb draws k s o = Ok (es', r, k') ->
  let es := snap_state s in
  unfilled es es' r \/
  exists p d price f ff slip mn rp osz pct,
    Checked es o p d price f ff slip mn rp /\ - (1) < f /\ converted osz pct /\
    resolve_size o (es_position es) (snap (ps_val_price s)) (snap (ps_value s)) = Ok (inr (osz, pct)) /\
    ((gtb osz zero = true /\
      exists cl fs fee req,
        let ap := Qred (price * Qred (inject_Z 1 + slip)) in
        buy_cash_limit es (Fin ap) (Fin f) (Fin ff) (o_lock_cash o) pct = Ok cl /\
        BuyCert es osz ap (o_direction o) f ff mn (o_max_size o) (o_size_granularity o) cl
          (o_allow_partial o) es' r fs fee req) \/
     (gtb osz zero = false /\
      exists fs,
        let ap := Qred (price * Qred (inject_Z 1 - slip)) in
        SellCert es (neg osz) ap (o_direction o) f ff mn (o_max_size o) (o_size_granularity o) pct
               (o_lock_cash o) (o_allow_partial o) es' r fs /\ r_status r = Filled)).
Proof.
  intros draws k s o es' r k' Hf Hreg H es.
  apply execute_order_inv in H as [H|(p & d & price & f & ff & slip & mn & rp & osz & pct & Hsn & Hck & Hrs & Hbs)];
    [left; exact H|].
  assert (Hf' : - (1) < f) by (apply Hf; apply (ck_fees _ _ _ _ _ _ _ _ _ _ Hck)).
  assert (Hconv : converted osz pct).
  { rewrite (ck_pos _ _ _ _ _ _ _ _ _ _ Hck) in Hrs.
    eapply resolve_size_converted; [|exact Hreg|exact Hrs].
    intros E; rewrite E in Hsn; discriminate. }
  destruct (gtb osz zero) eqn:Hgt.
  - destruct (exec_buy _ _ _ _ _ _ _ _ _ _ _ _ _ _ Hck Hf' Hgt Hbs) as [Hu|Hb]; [left; exact Hu|right].
    exists p, d, price, f, ff, slip, mn, rp, osz, pct. repeat (split; [assumption|]). left; auto.
  - destruct (converted_sell _ _ (o_direction o) Hconv Hgt) as [Hs1 Hs2].
    destruct (exec_sell _ _ _ _ _ _ _ _ _ _ _ _ _ _ Hck Hgt Hs1 Hs2 Hbs) as [Hu|Hb]; [left; exact Hu|right].
    exists p, d, price, f, ff, slip, mn, rp, osz, pct. repeat (split; [assumption|]). right; auto.
Qed.
