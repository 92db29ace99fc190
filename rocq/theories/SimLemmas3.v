(** * Independence of groups; order and number of records *)
From Coq Require Import String ZArith Bool List Arith Lia Permutation.
From Verif Require Import Base Num Order OrderGen OrdLaws CallSeq CallSeqLemmas Account Simulate SimSpec SimLemmas SimLemmas2.
Import ListNotations.
Open Scope list_scope.

Section SimLemmas3.
  Context {T : Type} {N : Num T}.
  Implicit Types (st : Sim T) (inp : Inputs T).

  (** ** A group of one column does not need the cash sharing code *)
  Lemma bar_lock_single : forall draws t f1 f2 i1 i2 fl i g1 g2 st1 st2 st1',
    agree t f1 f2 1 i1 i2 -> i < t ->
    lock t f1 f2 1 (norej i1 t f1 1) st1 st2 ->
    bar_step draws i1 fl true g1 f1 1 st1 i = Ok st1' ->
    exists st2', bar_step draws i2 fl false g2 f2 1 st2 i = Ok st2' /\
      lock t f1 f2 1 (norej i1 t f1 1) st1' st2' /\
      appended f1 f2 (sm_rc st1) (sm_rc st1') (sm_rc st2) (sm_rc st2').
  Proof.
    intros draws t f1 f2 i1 i2 fl i g1 g2 st1 st2 st1' H Hi HL Hb. unfold bar_step in *.
    pose proof (prices_lock _ _ _ _ _ _ _ fl _ _ _ H Hi HL) as HL1.
    destruct (price_step_rc i1 fl i (seq f1 1) st1) as [Er1 _].
    destruct (price_step_rc i2 fl i (seq f2 1) st2) as [Er2 _]. cbv zeta in Er1, Er2.
    set (p1 := fold_left (price_step i1 fl i) (seq f1 1) st1) in *.
    set (p2 := fold_left (price_step i2 fl i) (seq f2 1) st2) in *.
    clearbody p1 p2. destruct HL1 as [Lc Lf Lp Ld Lv Lpr Ls Lr Lro].
    assert (E0 : forall f, f + 0 = f) by (intros; lia).
    cbn [seq foldM] in Hb. apply bind_ok in Hb as (st1'' & Hb & E). injection E as <-.
    unfold order_step in Hb. apply bind_ok in Hb as (col & Hp & Hs).
    unfold pick_col in Hp. apply raise_if_ok in Hp as [Hlt Hp].
    match type of Hp with Ok ?a = Ok ?b => assert (Ecol : b = a) by congruence end. subst col. apply Nat.leb_gt in Hlt.
    match type of Hlt with ?x < 1 => assert (Hz : x = 0) by lia end. rewrite Hz in Hs.
    apply bind_ok in Hs as ([[r s'] rc1'] & Hpr & Hs). injection Hs as <-.
    assert (ES : order_state true (sort_step i1 fl true i f1 1 p1) (f1 + 0) = order_state false p2 (f2 + 0)).
    { unfold order_state. cbn [sort_step sm_cash sm_free sm_pos sm_debt sm_vp sm_value].
      unfold get_group_value_nb. cbn [seq fold_left].
      pose proof (Lp 0 Nat.lt_0_1) as Lp0. pose proof (Ld 0 Nat.lt_0_1) as Ld0. pose proof (Lv 0 Nat.lt_0_1) as Lv0.
      rewrite !E0 in *. rewrite Lc, Lf, Lp0, Ld0, Lv0. reflexivity. }
    rewrite ES in Hpr. rewrite (make_order_agree _ _ _ _ _ _ _ _ _ H Hi (Nat.lt_0_1)) in Hpr.
    cbn [sort_step sm_price sm_rc] in Hpr. rewrite Lpr in Hpr by lia.
    eapply process_lock in Hpr as (rc2' & E & R' & A' & K').
    - cbn [sort_step seq foldM]. unfold order_step at 1. cbn [pick_col bind]. rewrite E. cbn [bind].
      eexists. split; [reflexivity|]. split; [|rewrite <- Er1, <- Er2; exact A'].
      constructor; cbn; auto.
      + apply fupd_lock; auto.
      + apply fupd_lock; auto.
      + apply store_vp_lock; auto.
      + intros i' k Hi' Hk. assert (k = 0) by lia. subst k.
        destruct (auto_call_seq fl) eqn:Ea; auto.
        cbn [sort_step sm_seq] in Hz. rewrite Ea in Hz.
        unfold set_slice in *. cbn [map seq insert_argsort_nb fold_left insert_back rev app snd length] in *.
        destruct (Nat.eqb_spec i' i) as [->|Hne]; cbn [andb]; auto.
        replace (f1 + 0 - f1) with 0 by lia. cbn [nth].
        match goal with |- (if ?c then _ else _) = _ => destruct c; auto end.
      + destruct Lr; auto.
    - destruct Lr as [Lr|Lr]; [left|right]; auto. cbn.
      pose proof (H i 0 Hi Nat.lt_0_1) as Ec. unfold cell in Ec. injection Ec as ? ? ? ? ? ? ? ? ? ? E11 ? ? ? ? ? ? ?.
      rewrite <- E11. apply Lr; auto.
    - exact Lro.
  Qed.

  Lemma bars_lock_single : forall draws t f1 f2 i1 i2 fl g1 g2 l st1 st2 st1',
    agree t f1 f2 1 i1 i2 -> (forall i, In i l -> i < t) ->
    lock t f1 f2 1 (norej i1 t f1 1) st1 st2 ->
    foldM (bar_step draws i1 fl true g1 f1 1) st1 l = Ok st1' ->
    exists st2', foldM (bar_step draws i2 fl false g2 f2 1) st2 l = Ok st2' /\
      lock t f1 f2 1 (norej i1 t f1 1) st1' st2' /\
      appended f1 f2 (sm_rc st1) (sm_rc st1') (sm_rc st2) (sm_rc st2').
  Proof.
    intros draws t f1 f2 i1 i2 fl g1 g2 l. induction l as [|i l IH]; intros st1 st2 st1' H Hl HL Hf; cbn [foldM] in Hf.
    - injection Hf as <-. exists st2. cbn. split; auto. split; auto. apply appended_refl.
    - apply bind_ok in Hf as (m1 & H1 & H2).
      assert (Hi : i < t) by (apply Hl; left; auto).
      destruct (bar_lock_single _ _ _ _ _ _ _ _ g1 g2 _ _ _ H Hi HL H1) as (m2 & E & L' & A').
      destruct (IH m1 m2 st1' H) as (e2 & E2 & L2 & A2); auto.
      { intros. apply Hl; right; auto. }
      exists e2. cbn [foldM]. rewrite E. cbn [bind]. split; auto. split; auto. eapply appended_trans; eauto.
  Qed.

  (** ** Groups before and after the one looked at *)
  Lemma groups_one : forall draws inp fl sh nrows lens g from init st st',
    sim_groups draws inp fl sh nrows g from lens init st = Ok st' ->
    kept from (sum_lens lens) st st' /\
    grown (fun c b => from <= c < from + sum_lens lens /\ b < nrows) (sm_rc st) (sm_rc st').
  Proof.
    intros draws inp fl sh nrows lens. induction lens as [|len lens IH]; intros g from init st st' H; cbn in H.
    - injection H as <-. split; [apply kept_refl|apply grown_refl].
    - destruct (nth_error init g) as [c|]; [|discriminate].
      apply bind_ok in H as (m & H1 & H2). apply IH in H2 as [K2 G2].
      unfold sim_group in H1. apply bars_one in H1 as [K1 G1].
      change (sum_lens (len :: lens)) with (len + sum_lens lens).
      split.
      + destruct K1 as [a1 a2 a3 a4 a5 [a6 a7]], K2 as [b1 b2 b3 b4 b5 [b6 b7]]. cbn in *.
        assert (O1 : forall c, outside from (len + sum_lens lens) c -> outside from len c) by (unfold outside; intros; lia).
        assert (O2 : forall c, outside from (len + sum_lens lens) c -> outside (from + len) (sum_lens lens) c)
          by (unfold outside; intros; lia).
        constructor; [..|split; congruence]; intros; rewrite ?b1, ?b2, ?b3, ?b4, ?b5 by auto; auto.
      + cbn [sm_rc] in G1. eapply grown_trans.
        * eapply grown_weaken; [|exact G1]. cbn. intros c0 b [? Hb]. apply in_seq in Hb. lia.
        * eapply grown_weaken; [|exact G2]. cbn. intros c0 b [? Hb]. lia.
  Qed.

  Lemma groups_app : forall draws inp fl sh nrows l1 l2 g from init st,
    sim_groups draws inp fl sh nrows g from (l1 ++ l2) init st =
    let! m := sim_groups draws inp fl sh nrows g from l1 init st in
    sim_groups draws inp fl sh nrows (g + length l1) (from + sum_lens l1) l2 init m.
  Proof.
    intros draws inp fl sh nrows l1. induction l1 as [|len l1 IH]; intros l2 g from init st; cbn.
    - rewrite !Nat.add_0_r. auto.
    - destruct (nth_error init g); auto. destruct (sim_group _ _ _ _ _ _ _ _ _ _) as [m|e]; cbn; auto.
      rewrite IH. destruct (sim_groups _ _ _ _ _ (S g) _ _ _ _); cbn; auto.
      f_equal; [lia|unfold sum_lens; lia].
  Qed.

  Lemma orders_in_app : forall from len (a b : list (OrderRec T)), orders_in from len (a ++ b) = orders_in from len a ++ orders_in from len b.
  Proof. intros; apply filter_app. Qed.

  Lemma in_cols_true : forall from len c, from <= c < from + len -> in_cols from len c = true.
  Proof. intros. unfold in_cols. apply andb_true_iff. split; [apply Nat.leb_le|apply Nat.ltb_lt]; lia. Qed.
  Lemma in_cols_false : forall from len c, outside from len c -> in_cols from len c = false.
  Proof.
    intros from len c [H|H]; unfold in_cols; [rewrite (proj2 (Nat.leb_gt _ _)) by lia; auto|].
    rewrite (proj2 (Nat.ltb_ge _ _)) by lia. apply andb_false_r.
  Qed.

  Lemma group_independent : forall draws rng rng' nrows ncols lens init inp fl mo ml o l s g len cash from,
    never_random inp ->
    simulate_from_orders_nb draws rng nrows ncols lens init inp fl (Some mo) ml = Ok (o, l, s) ->
    nth_error lens g = Some len -> nth_error init g = Some cash -> 0 < len ->
    from = sum_lens (firstn g lens) ->
    exists oa la sa,
      simulate_from_orders_nb draws rng' nrows len [len] [cash] (shift_inputs from inp) fl (Some mo) ml
        = Ok (oa, la, sa) /\
      map (order_view from) (orders_in from len o) = map (order_view 0) oa /\
      map (log_view from) (logs_in from len l) = map (log_view 0) la.
  Proof.
    intros draws rng rng' nrows ncols lens init inp fl mo ml o l s g len cash from Hnr H Hg Hc Hlen Hfrom.
    unfold simulate_from_orders_nb in H.
    apply raise_if_ok in H as [C1 H]. apply raise_if_ok in H as [C2 H].
    apply bind_ok in H as (fin & H & E). injection E as <- <- <-.
    destruct (nth_error_split lens g Hg) as (l1 & l2 & El & Elg).
    assert (Ef : firstn g lens = l1).
    { rewrite El, <- Elg, firstn_app, Nat.sub_diag, firstn_all. cbn. apply app_nil_r. }
    rewrite Ef in Hfrom. subst from.
    rewrite El in H at 2. rewrite groups_app in H. apply bind_ok in H as (m1 & H1 & H).
    rewrite Nat.add_0_l, Elg in H. cbn [sim_groups] in H. rewrite Hc in H.
    apply bind_ok in H as (m2 & H2 & H3).
    apply groups_one in H1 as [K1 G1]. apply groups_one in H3 as [K3 G3].
    rewrite !Nat.add_0_l in *.
    set (from := sum_lens l1) in *.
    unfold sim_group in H2.
    match type of H2 with foldM _ ?s _ = _ => set (s1 := s) in * end.
    pose (s2 := mkSim cash cash (nan : T) (fun _ => zero) (fun _ => zero) (fun _ => nan) (fun _ => nan)
                  (in_call_seq (shift_inputs from inp)) (mkRecs [] [] mo (if Nat.eqb ml 0 then 1 else ml) rng')).
    assert (Hag : agree nrows from 0 len inp (shift_inputs from inp)) by (intros i k _ _; reflexivity).
    assert (HL : lock nrows from 0 len (norej inp nrows from len) s1 s2).
    { destruct K1 as [a1 a2 a3 a4 a5 [a6 a7]]. cbn in *.
      assert (Ho : forall k, outside 0 from (from + k)) by (intros; right; lia).
      constructor; cbn; auto; intros.
      - right. intros i k _ _. apply Hnr.
      - unfold room. cbn. rewrite a6, a7. lia. }
    assert (Hl : forall i, In i (seq 0 nrows) -> i < nrows) by (intros i Hi; apply in_seq in Hi; lia).
    assert (RUN : exists m2', foldM (bar_step draws (shift_inputs from inp) fl (is_grouped [len]) 0 0 len) s2 (seq 0 nrows) = Ok m2' /\
              appended from 0 (sm_rc s1) (sm_rc m2) (sm_rc s2) (sm_rc m2')).
    { assert (Eg : is_grouped [len] = Nat.ltb 1 len) by (unfold is_grouped, existsb; apply orb_false_r).
      rewrite Eg. destruct (Nat.ltb 1 len) eqn:E1.
      - assert (Hgr : is_grouped lens = true).
        { unfold is_grouped. apply existsb_exists. exists len. split; auto. eapply nth_error_In; eauto. }
        rewrite Hgr in H2.
        destruct (bars_lock _ _ _ _ _ _ _ _ _ g 0 _ _ _ _ Hag Hl HL H2) as (m & E & _ & A). eauto.
      - apply Nat.ltb_ge in E1. assert (len = 1) by lia. subst len.
        destruct (is_grouped lens).
        + destruct (bars_lock_single _ _ _ _ _ _ _ g 0 _ _ _ _ Hag Hl HL H2) as (m & E & _ & A). eauto.
        + destruct (bars_lock _ _ _ _ _ _ _ _ _ g 0 _ _ _ _ Hag Hl HL H2) as (m & E & _ & A). eauto. }
    destruct RUN as (m2' & ER & A).
    exists (rc_orders (sm_rc m2')), (rc_logs (sm_rc m2')), (sm_seq m2').
    split.
    { unfold simulate_from_orders_nb. cbn [sum_lens fold_right]. rewrite Nat.add_0_r, Nat.eqb_refl. cbn [negb raise_if length].
      assert (Ec : negb (Nat.eqb 1 (if is_grouped [len] then 1 else len)) = false).
      { unfold is_grouped, existsb. rewrite orb_false_r. destruct (Nat.ltb_spec 1 len); auto. assert (len = 1) by lia. subst. auto. }
      rewrite Ec. cbn [raise_if sim_groups nth_error]. unfold sim_group. cbn [sim_init sm_value sm_pos sm_debt sm_vp sm_price sm_seq sm_rc].
      fold s2. rewrite ER. reflexivity. }
    apply bars_one in H2 as [_ G2].
    destruct A as [(x1 & x2 & E1 & E2 & E3) (y1 & y2 & E4 & E5 & E6)].
    destruct G1 as [(b1 & B1 & B2) (c1 & D1 & D2)], G2 as [(b2 & B3 & B4) (c2 & D3 & D4)],
             G3 as [(b3 & B5 & B6) (c3 & D5 & D6)]. cbn in B1, D1.
    rewrite E1 in B3. apply app_inv_head in B3 as <-. rewrite E4 in D3. apply app_inv_head in D3 as <-.
    cbn [s2 sm_rc rc_orders rc_logs app] in E2, E5.
    rewrite B5, E1, D5, E4. cbn [s1 sm_rc]. rewrite B1, D1. rewrite E2, E5.
    unfold orders_in, logs_in. rewrite !filter_app.
    rewrite (filter_none _ _ b1), (filter_all _ _ x1), (filter_none _ _ b3), app_nil_r.
    rewrite (filter_none _ _ c1), (filter_all _ _ y1), (filter_none _ _ c3), app_nil_r.
    - auto.
    - eapply Forall_impl; [|exact D6]. cbn. intros r Hr. apply in_cols_false. right. lia.
    - eapply Forall_impl; [|exact D4]. cbn. intros r Hr. apply in_cols_true. lia.
    - eapply Forall_impl; [|exact D2]. cbn. intros r Hr. apply in_cols_false. left. lia.
    - eapply Forall_impl; [|exact B6]. cbn. intros r Hr. apply in_cols_false. right. lia.
    - eapply Forall_impl; [|exact B4]. cbn. intros r Hr. apply in_cols_true. lia.
    - eapply Forall_impl; [|exact B2]. cbn. intros r Hr. apply in_cols_false. left. lia.
  Qed.
End SimLemmas3.
