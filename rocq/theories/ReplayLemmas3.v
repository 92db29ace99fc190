(** * Lemmas about accounts rebuilt from order records: the simulated account *)
From Coq Require Import ZArith QArith Qabs Qminmax Bool Lia Lqa List Setoid Morphisms Permutation Sorting.
From Verif Require Import Base Num MathNb TolSpec Order OrderSpec OrderGen Account AccountSpec XQFacts OrderFacts ExecFacts OrderLemmas
  OrderLemmas2 OrderLemmas4 OrderRuns CallSeq Simulate SimSpec SimLemmas SimLemmas2 SimLemmas3
  Replay ReplaySpec ReplayLemmas ReplayLemmas2.
Import ListNotations.

Definition noinf (x : XQ) : Prop := x = NaN \/ exists q, x = Fin q.

Lemma noinf_add : forall a b : XQ, noinf a -> noinf b -> noinf (add a b).
Proof. intros a b [->|[p ->]] [->|[q ->]]; unfold noinf; cbn; (first [left; reflexivity | right; eexists; reflexivity]). Qed.
Lemma noinf_sub : forall a b : XQ, noinf a -> noinf b -> noinf (sub a b).
Proof. intros a b [->|[p ->]] [->|[q ->]]; unfold noinf; cbn; (first [left; reflexivity | right; eexists; reflexivity]). Qed.
Lemma noinf_mul : forall a b : XQ, noinf a -> noinf b -> noinf (mul a b).
Proof. intros a b [->|[p ->]] [->|[q ->]]; unfold noinf; cbn; (first [left; reflexivity | right; eexists; reflexivity]). Qed.
Lemma noinf_fin : forall q, noinf (Fin q).
Proof. intros; right; eauto. Qed.

Section SimSide.
  Variables (inp : Inputs XQ) (fl : Flags) (sh : bool) (f len : nat) (c0 : Q).
  Hypothesis HT : tame_inputs inp f len.

  Definition cash_ok (rs : list (OrderRec XQ)) (c : Q) : Prop :=
    Qabs c <= Qabs c0 + turnover rs /\
    (within (3 * length rs) (Qabs c0 + turnover rs) c (c0 + ledger_cash rs) \/
     c == 0 /\ within (3 * length rs + 1) (Qabs c0 + turnover rs) c (c0 + ledger_cash rs)).

  Definition pos_ok (rs : list (OrderRec XQ)) (p : Q) : Prop :=
    Qabs p <= volume rs /\ settled p /\ within (length rs) (volume rs) p (ledger_position rs).

  Record SI (st : Sim XQ) : Prop := mkSI {
    si_cash : exists c, sm_cash st = Fin c /\ cash_ok (of_cols f len (rc_orders (sm_rc st))) c;
    si_pos : forall c, (f <= c < f + len)%nat -> exists p, sm_pos st c = Fin p /\
               pos_ok (of_col c (rc_orders (sm_rc st))) p;
    si_vp : forall c, (f <= c < f + len)%nat -> noinf (sm_vp st c);
    si_proper : Forall proper (of_cols f len (rc_orders (sm_rc st)));
    si_ids : forall k r, nth_error (rc_orders (sm_rc st)) k = Some r -> or_id r = k }.

  (** ** Steps that do not execute orders *)
  Lemma close_noinf : forall i c, (f <= c < f + len)%nat -> noinf (in_close inp i c).
  Proof.
    intros i c Hc. destruct (HT i c Hc) as (_ & _ & H1 & H2).
    destruct (in_close inp i c) as [| | |q]; [left; auto|congruence|congruence|right; eauto].
  Qed.

  Lemma resolve_price_noinf : forall i c, (f <= c < f + len)%nat -> noinf (resolve_price inp i c).
  Proof.
    intros i c Hc. unfold resolve_price. destruct (in_price inp i c) as [| | |q]; cbn.
    - left; auto.
    - apply close_noinf; auto.
    - destruct i; [left; auto|apply close_noinf; auto].
    - right; eauto.
  Qed.

  Lemma resolve_val_price_noinf : forall i c p, (f <= c < f + len)%nat -> noinf p -> noinf (resolve_val_price inp i c p).
  Proof.
    intros i c p Hc Hp. unfold resolve_val_price. destruct (in_val_price inp i c) as [| | |q]; cbn.
    - left; auto.
    - auto.
    - destruct i; [left; auto|apply close_noinf; auto].
    - right; eauto.
  Qed.

  Lemma price_SI : forall i st c, (f <= c < f + len)%nat -> SI st -> SI (price_step inp fl i st c).
  Proof.
    intros i st c Hc [A B C D E]. constructor; auto.
    intros c' Hc'. cbn. unfold store_val_price. destruct (_ || _)%bool; auto. unfold fupd.
    destruct (Nat.eqb c' c); auto. apply resolve_val_price_noinf; auto using resolve_price_noinf.
  Qed.

  Lemma prices_SI : forall i l st, (forall c, In c l -> (f <= c < f + len)%nat) -> SI st ->
    SI (fold_left (price_step inp fl i) l st).
  Proof.
    intros i. induction l as [|c l IH]; intros st Hl HS; cbn; auto.
    apply IH; [intros; apply Hl; right; auto|]. apply price_SI; auto. apply Hl; left; auto.
  Qed.

  Lemma group_value_noinf : forall st, SI st ->
    noinf (get_group_value_nb f len (sm_cash st) (sm_pos st) (sm_vp st)).
  Proof.
    intros st HS. unfold get_group_value_nb. destruct (si_cash st HS) as (c & -> & _).
    assert (G : forall l v, (forall c, In c l -> (f <= c < f + len)%nat) -> noinf v ->
      noinf (fold_left (fun v col => if neb (sm_pos st col) zero then add v (mul (sm_pos st col) (sm_vp st col)) else v) l v)).
    { induction l as [|x l IH]; intros v Hl Hv; cbn [fold_left]; auto.
      apply IH; [intros; apply Hl; right; auto|]. destruct (neb _ _); auto.
      apply noinf_add; auto. apply noinf_mul; [|apply (si_vp st HS); apply Hl; left; auto].
      destruct (si_pos st HS x) as (p & -> & _); [apply Hl; left; auto|apply noinf_fin]. }
    apply G; [intros x Hx; apply in_seq in Hx; lia|apply noinf_fin].
  Qed.

  Lemma sort_SI : forall i st, SI st -> SI (sort_step inp fl sh i f len st) /\
    (sh = true -> noinf (sm_value (sort_step inp fl sh i f len st))).
  Proof.
    intros i st HS. pose proof (group_value_noinf st HS) as Hv. unfold sort_step. destruct sh.
    - split; [|intros _; exact Hv]. destruct HS as [A B C D E]. constructor; auto.
    - split; [auto|discriminate].
  Qed.

  (** ** Executing an order *)
  Lemma snapped_fin : forall x c, snapped x (Fin c) -> exists q, x = Fin q /\ (q = c \/ (c == 0 /\ Qabs q <= (1 # 1000000000000))).
  Proof.
    intros x c [[H _]|[H (q & -> & Hq)]].
    - subst x. exists c. auto.
    - injection H as ->. exists q. split; auto. right. split; [reflexivity|auto].
  Qed.

  Lemma snapped_settled : forall p p', settled p -> snapped (Fin p) (Fin p') -> p == p'.
  Proof.
    intros p p' Hs H. apply snapped_fin in H as (q & E & [->|[H1 H2]]); injection E as <-; [reflexivity|].
    destruct Hs as [Hs|Hs]; [rewrite Hs, H1; reflexivity|lra].
  Qed.

  Lemma cash_ok_snap : forall rs c x, cash_ok rs c -> snapped (Fin c) x ->
    exists c', x = Fin c' /\ cash_ok rs c'.
  Proof.
    intros rs c x [Hb Hw] [[-> _]|[-> (q & E & Hq)]].
    - exists c. split; [reflexivity|]. split; auto.
    - injection E as <-. exists 0. split; [reflexivity|]. split.
      + assert (E : Qabs 0 == 0) by reflexivity. rewrite E. eapply Qle_trans; [apply Qabs_nonneg|exact Hb].
      + right. split; [reflexivity|]. destruct Hw as [Hw|[H0 Hw]].
        * rewrite Nat.add_comm. eapply within_trans with (b := c); [|exact Hw]. apply within_one.
          pose proof (slack_pos (Qabs c0 + turnover rs)). assert (E : 0 - c == - c) by ring. rewrite E, Qabs_opp. lra.
        * rewrite <- H0. exact Hw.
  Qed.

  Lemma cash_ok_any : forall rs c, cash_ok rs c ->
    within (3 * length rs + 1) (Qabs c0 + turnover rs) c (c0 + ledger_cash rs).
  Proof. intros rs c [_ [H|[_ H]]]; auto. eapply within_le; [|apply Qle_refl|exact H]. lia. Qed.

  Lemma turnover_app : forall rs r, turnover (rs ++ [r]) ==
    turnover rs + (Qabs (bought_size r * qty (or_price r)) + Qabs (qty (or_fees r))).
  Proof. intros. unfold turnover. rewrite total_app. cbn [total]. ring. Qed.
  Lemma ledger_cash_app : forall rs r, ledger_cash (rs ++ [r]) == ledger_cash rs + cash_effect r.
  Proof. intros. unfold ledger_cash. rewrite total_app. cbn [total]. ring. Qed.

  Lemma turnover_nonneg : forall rs, 0 <= turnover rs.
  Proof.
    unfold turnover. induction rs as [|r rs IH]; cbn [total]; [lra|].
    pose proof (Qabs_nonneg (bought_size r * qty (or_price r))). pose proof (Qabs_nonneg (qty (or_fees r))). lra.
  Qed.

  (** A fill adds its cash effect with at most two roundings. *)
  Lemma cash_ok_fill : forall rs r c c',
    cash_ok rs c ->
    Qabs c' <= Qabs c + (Qabs (bought_size r * qty (or_price r)) + Qabs (qty (or_fees r))) ->
    within 1 (Qabs c0 + turnover (rs ++ [r])) c' (c + cash_effect r) ->
    cash_ok (rs ++ [r]) c'.
  Proof.
    intros rs r c c' H Hb Hw. pose proof (cash_ok_any _ _ H) as Ha. destruct H as [Hc _].
    split; [rewrite turnover_app; lra|left].
    rewrite app_length. cbn [length].
    eapply within_le with (n := (1 + (3 * length rs + 1))%nat); [lia|apply Qle_refl|].
    eapply within_trans; [exact Hw|]. rewrite ledger_cash_app, Qplus_assoc. apply within_shift.
    eapply within_le; [apply Nat.le_refl| |exact Ha].
    rewrite turnover_app. pose proof (Qabs_nonneg (bought_size r * qty (or_price r))).
    pose proof (Qabs_nonneg (qty (or_fees r))). lra.
  Qed.

  Lemma pos_ok_fill : forall rs r p p',
    pos_ok rs p -> approx_add p (bought_size r) p' -> pos_ok (rs ++ [r]) p'.
  Proof.
    intros rs r p p' (Hb & Hs & Hw) H. pose proof (approx_add_le _ _ _ H) as Hl.
    unfold pos_ok, volume, ledger_position in *. rewrite !total_app, app_length. cbn [total length].
    pose proof (Qabs_nonneg p). pose proof (Qabs_nonneg (bought_size r)).
    split; [lra|]. split; [apply (approx_add_gap _ _ _ H)|].
    rewrite Nat.add_comm. eapply within_trans with (b := p + bought_size r).
    - apply approx_add_within with (1 := H); lra.
    - rewrite (Qplus_0_r (bought_size r)). apply within_shift.
      eapply within_le; [apply Nat.le_refl| |exact Hw]. lra.
  Qed.

  Lemma of_cols_snoc : forall rs r, (f <= or_col r < f + len)%nat -> of_cols f len (rs ++ [r]) = of_cols f len rs ++ [r].
  Proof.
    intros rs r H. unfold of_cols. rewrite filter_app. cbn [filter].
    rewrite (proj2 (Nat.leb_le _ _)), (proj2 (Nat.ltb_lt _ _)) by lia. reflexivity.
  Qed.
  Lemma of_col_snoc : forall rs r c, of_col c (rs ++ [r]) = of_col c rs ++ (if Nat.eqb (or_col r) c then [r] else []).
  Proof. intros rs r c. unfold of_col. rewrite filter_app. reflexivity. Qed.

  Lemma execute_unfilled_cash : forall draws k (s : ProcState XQ) (o : Order XQ) es r k',
    execute_order_nb draws k s o = Ok (es, r, k') -> is_filled r = false ->
    es_cash es = snap (ps_cash s) /\ es_position es = snap (ps_position s).
  Proof.
    intros draws k s o es r k' H Hf.
    assert (es = snap_state s).
    { apply execute_outcome in H. destruct H as [(E & _)|(E & _)]; [exact E|].
      unfold is_filled in Hf. rewrite E in Hf. discriminate. }
    subst es. auto.
  Qed.

  Lemma order_SI : forall draws i g st k st',
    (k < len)%nat -> SI st -> (sh = true -> noinf (sm_value st)) ->
    order_step draws inp fl sh i g f len st k = Ok st' ->
    SI st' /\ (sh = true -> noinf (sm_value st')).
  Proof.
    intros draws i g st k st' Hk HS HV H. unfold order_step in H.
    apply bind_ok in H as (col & Hp & H). apply bind_ok in H as ([[r s'] rc'] & Hpr & H). injection H as <-.
    apply pick_col_in in Hp as (j & Hj & -> & _ & _); auto.
    set (col := (f + j)%nat) in *. assert (Hcol : (f <= col < f + len)%nat) by (subst col; lia). clearbody col.
    destruct HS as [(c & Ec & Hc) B C D E].
    destruct (B col Hcol) as (p & Ep & Hpos).
    set (o := make_order inp i col (sm_price st col)) in *.
    set (s := order_state sh st col) in *.
    assert (Sc : ps_cash s = Fin c) by exact Ec.
    assert (Sp : ps_position s = Fin p) by exact Ep.
    assert (Svp : noinf (ps_val_price s)) by (apply C; auto).
    assert (Sv : noinf (ps_value s)).
    { subst s. unfold order_state. cbn [ps_value]. destruct sh; [apply HV; auto|].
      rewrite Ec, Ep. destruct (neb _ _); [|apply noinf_fin]. apply noinf_add; [apply noinf_fin|].
      apply noinf_mul; [apply noinf_fin|apply C; auto]. }
    destruct (HT i col Hcol) as (Hfee & Hsz & _).
    assert (Hreg : regular o (snap (ps_value s))).
    { apply regular_of_number_sized. unfold number_sized. subst o. cbn [o_size_type o_size make_order].
      destruct (in_size_type inp i col) eqn:Est; auto.
      intros E1. exfalso. rewrite E1 in Sv. destruct Sv as [Sv|[q Sv]]; discriminate. }
    assert (Hf : forall f, o_fees o = Fin f -> - (1) < f) by exact Hfee.
    apply process_order_inv in Hpr as (es & Hex & _ & Es' & Hu1 & Hu2 & Ho & _ & _ & _ & _ & _).
    assert (X : exists c' p', es_cash es = Fin c' /\ es_position es = Fin p' /\
      (is_filled r = false -> cash_ok (of_cols f len (rc_orders (sm_rc st))) c' /\ pos_ok (of_col col (rc_orders (sm_rc st))) p') /\
      (is_filled r = true -> exists rec, rc_orders rc' = rc_orders (sm_rc st) ++ [rec] /\ or_col rec = col /\
         or_id rec = length (rc_orders (sm_rc st)) /\ proper rec /\ or_price rec = r_price r /\
         cash_ok (of_cols f len (rc_orders (sm_rc st)) ++ [rec]) c' /\
         pos_ok (of_col col (rc_orders (sm_rc st)) ++ [rec]) p')).
    { destruct (is_filled r) eqn:Hfil.
      - assert (Hst : r_status r = Filled) by (unfold is_filled in Hfil; destruct (r_status r); congruence).
        destruct (fill_accounting _ _ _ _ _ _ _ Hf Hreg Hex Hst)
          as (cash & p1 & p' & size & px & fee & price & slip & fe & ff & Scash & Spos & Ep' & _ & _ & _ & _ & Rs & Rp & Rf & Hsz0 & _ & Hcase).
        rewrite Sc in Scash. rewrite Sp in Spos.
        destruct (cash_ok_snap _ _ _ Hc Scash) as (c1 & -> & Hc1).
        pose proof (snapped_settled _ _ (proj1 (proj2 Hpos)) Spos) as Epp.
        set (rec := mkOrderRec (length (rc_orders (sm_rc st))) col i (r_size r) (r_price r) (r_fees r) (r_side r)) in *.
        assert (Hposn : forall b, approx_add p1 b p' -> b == bought_size rec -> pos_ok (of_col col (rc_orders (sm_rc st)) ++ [rec]) p').
        { intros b Hb Eb. apply pos_ok_fill with (p := p); auto. unfold approx_add in *. rewrite Epp, <- Eb. exact Hb. }
        assert (Hpr : r_side r <> None -> proper rec).
        { intros Hs. split; [exists size; exact Rs|]. split; [exists px; exact Rp|]. split; [exists fee; exact Rf|exact Hs]. }
        destruct Hcase as [(Rside & _ & Hcash & Hpp)|(Rside & _ & (net & Hnet & Hn0 & Hcash) & Hpp)].
        + destruct Hcash as (c' & Ec' & Hc'). exists c', p'. split; auto. split; auto.
          split; [discriminate|]. intros _. exists rec. rewrite Ho.
          assert (Eb : bought_size rec == size) by (unfold bought_size; cbn; rewrite Rside, Rs; reflexivity).
          assert (Ee : cash_effect rec == - (size * px + fee)) by (unfold cash_effect; rewrite Eb; cbn; rewrite Rp, Rf; cbn; ring).
          split; auto. split; auto. split; auto. split; [apply Hpr; congruence|]. split; auto.
          split; [|eapply Hposn; [exact Hpp|symmetry; exact Eb]].
          pose proof (approx_add_le _ _ _ Hc') as Hle.
          assert (Hf1 : Qabs (- (size * px + fee)) <= Qabs (bought_size rec * qty (or_price rec)) + Qabs (qty (or_fees rec))).
          { rewrite Eb. cbn. rewrite Rp, Rf. cbn. rewrite Qabs_opp. apply Qabs_triangle. }
          eapply cash_ok_fill; [exact Hc1|lra|]. rewrite Ee. destruct Hc1 as [Hcb _].
          apply approx_add_within with (1 := Hc'); rewrite turnover_app.
          * pose proof (Qabs_nonneg (bought_size rec * qty (or_price rec))). pose proof (Qabs_nonneg (qty (or_fees rec))). lra.
          * pose proof (turnover_nonneg (of_cols f len (rc_orders (sm_rc st)))). pose proof (Qabs_nonneg c0). lra.
        + destruct Hcash as (c' & Ec' & Hc'). exists c', p'. split; auto. split; auto.
          split; [discriminate|]. intros _. exists rec. rewrite Ho.
          assert (Eb : bought_size rec == - size) by (unfold bought_size; cbn; rewrite Rside, Rs; reflexivity).
          assert (Ee : cash_effect rec == size * px + - fee) by (unfold cash_effect; rewrite Eb; cbn; rewrite Rp, Rf; cbn; ring).
          split; auto. split; auto. split; auto. split; [apply Hpr; congruence|]. split; auto.
          split; [|eapply Hposn; [exact Hpp|symmetry; exact Eb]].
          pose proof (approx_add_le _ _ _ Hnet) as Hle.
          assert (E1 : Qabs (bought_size rec * qty (or_price rec)) == Qabs (size * px)).
          { rewrite Eb. cbn. rewrite Rp. cbn. assert (Z : - size * px == - (size * px)) by ring. rewrite Z. apply Qabs_opp. }
          assert (E2 : Qabs (qty (or_fees rec)) == Qabs (- fee)) by (cbn; rewrite Rf; cbn; symmetry; apply Qabs_opp).
          eapply cash_ok_fill; [exact Hc1| |].
          * rewrite Hc', E1, E2. eapply Qle_trans; [apply Qabs_triangle|]. lra.
          * rewrite Ee, Hc'. rewrite (Qplus_comm c1 net), (Qplus_comm c1). apply within_shift.
            pose proof (turnover_nonneg (of_cols f len (rc_orders (sm_rc st)))). pose proof (Qabs_nonneg c0).
            pose proof (Qabs_nonneg (size * px)). pose proof (Qabs_nonneg (- fee)).
            apply approx_add_within with (1 := Hnet); rewrite turnover_app, E1, E2; lra.
      - destruct (execute_unfilled_cash _ _ _ _ _ _ _ Hex Hfil) as [E1 E2].
        pose proof (snap_snapped (ps_cash s)) as S1. rewrite Sc in S1.
        pose proof (snap_snapped (ps_position s)) as S2. rewrite Sp in S2.
        rewrite Sc in E1. rewrite Sp in E2.
        destruct (cash_ok_snap _ _ _ Hc S1) as (c' & Ec' & Hc').
        destruct (OrderLemmas.snap_fin p) as (p' & Ep' & _).
        exists c', p'. split; [congruence|]. split; [congruence|]. split; [intros _|discriminate].
        split; auto. rewrite Ep' in S2. pose proof (snapped_settled _ _ (proj1 (proj2 Hpos)) S2) as Epp.
        destruct Hpos as (P1 & P2 & P3). unfold pos_ok, settled in *. rewrite <- Epp. auto. }
    destruct X as (c' & p' & Ec' & Ep' & Xn & Xf). clear HV.
    assert (Hvp' : noinf (ps_val_price s') /\ noinf (ps_value s')).
    { destruct (is_filled r && update_value fl)%bool eqn:Ef.
      - specialize (Hu1 eq_refl). apply andb_prop in Ef as [Ef _]. destruct (Xf Ef) as (rec & _ & _ & _ & (_ & (px & Hpx) & _) & Epx & _).
        rewrite Hpx in Epx. rewrite <- Epx, Sc, Sp, Ec', Ep' in Hu1.
        unfold update_value_nb in Hu1. apply pair_equal_spec in Hu1 as [Ev1 Ev2]. rewrite Ev1, Ev2.
        split; [apply noinf_fin|]. apply noinf_add; [apply noinf_add; [auto|apply noinf_fin]|].
        apply noinf_sub; match goal with |- noinf (if ?b then _ else _) => destruct b end;
          first [apply noinf_fin|apply noinf_mul; auto using noinf_fin].
      - destruct (Hu2 eq_refl) as [-> ->]. auto. }
    split; [|intros _; cbn; apply Hvp'].
    rewrite Es'. destruct (is_filled r) eqn:Hfil.
    - destruct (Xf eq_refl) as (rec & Er & Erc & Eid & Hprop & _ & Hc' & Hp'). clear Xn Xf.
      constructor; cbn [sm_cash sm_pos sm_vp sm_rc store_state ps_cash ps_position ps_val_price].
      + exists c'. split; auto. rewrite Er, of_cols_snoc by lia. exact Hc'.
      + intros x Hx. unfold fupd. rewrite Er, of_col_snoc, Erc. destruct (Nat.eqb x col) eqn:Ex.
        * apply Nat.eqb_eq in Ex. subst x. rewrite Nat.eqb_refl. eauto.
        * rewrite Nat.eqb_sym, Ex, app_nil_r. apply B. auto.
      + intros x Hx. unfold store_val_price. destruct (_ || _)%bool; auto. unfold fupd. destruct (Nat.eqb x col); auto. apply Hvp'.
      + rewrite Er, of_cols_snoc by lia. apply Forall_app. split; auto.
      + intros n q Hq. rewrite Er in Hq. destruct (Nat.lt_ge_cases n (length (rc_orders (sm_rc st)))) as [Hn|Hn].
        * rewrite nth_error_app1 in Hq by auto. eauto.
        * rewrite nth_error_app2 in Hq by auto. destruct (n - length (rc_orders (sm_rc st)))%nat as [|m] eqn:En; cbn in Hq.
          -- injection Hq as <-. lia.
          -- destruct m; discriminate.
    - destruct (Xn eq_refl) as [Hc' Hp']. clear Xn Xf.
      constructor; cbn [sm_cash sm_pos sm_vp sm_rc store_state ps_cash ps_position ps_val_price]; rewrite ?Ho; auto.
      + exists c'. auto.
      + intros x Hx. unfold fupd. destruct (Nat.eqb x col) eqn:Ex; [|apply B; auto].
        apply Nat.eqb_eq in Ex. subst x. eauto.
      + intros x Hx. unfold store_val_price. destruct (_ || _)%bool; auto. unfold fupd. destruct (Nat.eqb x col); auto. apply Hvp'.
  Qed.

  Lemma bar_SI : forall draws g st i st', SI st -> bar_step draws inp fl sh g f len st i = Ok st' -> SI st'.
  Proof.
    intros draws g st i st' HS H. unfold bar_step in H.
    assert (H0 : SI (fold_left (price_step inp fl i) (seq f len) st))
      by (apply prices_SI; auto; intros c Hc; apply in_seq in Hc; lia).
    apply sort_SI with (i := i) in H0.
    enough (G : SI st' /\ (sh = true -> noinf (sm_value st'))) by apply G.
    eapply (foldM_inv _ _ (fun s => SI s /\ (sh = true -> noinf (sm_value s)))); [| |exact H]; [|exact H0].
    intros s k s' [HS1 HV1] Hk Hs. apply in_seq in Hk. eapply order_SI; [|exact HS1|exact HV1|exact Hs]. lia.
  Qed.

  Lemma bars_SI : forall draws g l st st', SI st -> foldM (bar_step draws inp fl sh g f len) st l = Ok st' -> SI st'.
  Proof.
    intros draws g l st st' HS H. eapply (foldM_inv _ _ SI); [| |exact H]; auto.
    intros s i s' Hs _ Hb. eapply bar_SI; eauto.
  Qed.
End SimSide.
