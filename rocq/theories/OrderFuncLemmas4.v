(** * Simulation with callbacks: the account shown is that of the order records *)
From Coq Require Import String ZArith QArith Qabs Bool List Arith Lia Lqa.
From Verif Require Import Base Num MathNb TolSpec Order OrderSpec OrderGen Account AccountSpec XQFacts OrderFacts ExecFacts OrderLemmas
  OrderLemmas2 OrderLemmas4 OrderRuns CallSeq Simulate SimSpec SimLemmas ReturnsNb Replay ReplaySpec ReplayLemmas ReplayLemmas2 ReplayLemmas3
  OrderFunc OrderFuncSpec OrderFuncLemmas OrderFuncLemmas2 OrderFuncLemmas3.
Import ListNotations.
Open Scope list_scope.
Local Open Scope Q_scope.

(** ** One order *)
Lemma order_ledger : forall draws c0 f len i col gi s upd (o : Order XQ) rc r s' rc' c p,
  (f <= col < f + len)%nat -> tame_order o ->
  ps_cash s = Fin c -> cash_ok c0 (of_cols f len (rc_orders rc)) c ->
  ps_position s = Fin p -> pos_ok (of_col col (rc_orders rc)) p ->
  noinf (ps_val_price s) -> noinf (ps_value s) ->
  process_order_nb draws i col gi s upd o rc = Ok (r, s', rc') ->
  exists c' p', ps_cash s' = Fin c' /\ ps_position s' = Fin p' /\ noinf (ps_val_price s') /\ noinf (ps_value s') /\
    ((rc_orders rc' = rc_orders rc /\ cash_ok c0 (of_cols f len (rc_orders rc)) c' /\ pos_ok (of_col col (rc_orders rc)) p') \/
     exists rec, rc_orders rc' = rc_orders rc ++ [rec] /\ or_col rec = col /\ proper rec /\
       cash_ok c0 (of_cols f len (rc_orders rc) ++ [rec]) c' /\ pos_ok (of_col col (rc_orders rc) ++ [rec]) p').
Proof.
  intros draws c0 f len i col gi s upd o rc r s' rc' c p Hcol [Hfee Hsz] Sc Hc Sp Hpos Svp Sv Hpr.
  assert (Hreg : regular o (snap (ps_value s))).
  { apply regular_of_number_sized. unfold number_sized. destruct (o_size_type o) eqn:Est; auto.
    intros E1. exfalso. rewrite E1 in Sv. destruct Sv as [Sv|[q Sv]]; discriminate. }
  apply process_order_inv in Hpr as (es & Hex & _ & Es' & Hu1 & Hu2 & Ho & _ & _ & _ & _ & _).
  assert (X : exists c' p', es_cash es = Fin c' /\ es_position es = Fin p' /\
    (is_filled r = false -> cash_ok c0 (of_cols f len (rc_orders rc)) c' /\ pos_ok (of_col col (rc_orders rc)) p') /\
    (is_filled r = true -> exists rec, rc_orders rc' = rc_orders rc ++ [rec] /\ or_col rec = col /\
       proper rec /\ or_price rec = r_price r /\
       cash_ok c0 (of_cols f len (rc_orders rc) ++ [rec]) c' /\
       pos_ok (of_col col (rc_orders rc) ++ [rec]) p')).
  { destruct (is_filled r) eqn:Hfil.
    - assert (Hst : r_status r = Filled) by (unfold is_filled in Hfil; destruct (r_status r); congruence).
      destruct (fill_accounting _ _ _ _ _ _ _ Hfee Hreg Hex Hst)
        as (cash & p1 & p' & size & px & fee & price & slip & fe & ff & Scash & Spos & Ep' & _ & _ & _ & _ & Rs & Rp & Rf & Hsz0 & _ & Hcase).
      rewrite Sc in Scash. rewrite Sp in Spos.
      destruct (cash_ok_snap _ _ _ _ Hc Scash) as (c1 & -> & Hc1).
      pose proof (snapped_settled _ _ (proj1 (proj2 Hpos)) Spos) as Epp.
      set (rec := mkOrderRec (length (rc_orders rc)) col i (r_size r) (r_price r) (r_fees r) (r_side r)) in *.
      assert (Hposn : forall b, approx_add p1 b p' -> b == bought_size rec -> pos_ok (of_col col (rc_orders rc) ++ [rec]) p').
      { intros b Hb Eb. apply pos_ok_fill with (p := p); auto. unfold approx_add in *. rewrite Epp, <- Eb. exact Hb. }
      assert (Hpr : r_side r <> None -> proper rec).
      { intros Hs. split; [exists size; exact Rs|]. split; [exists px; exact Rp|]. split; [exists fee; exact Rf|exact Hs]. }
      destruct Hcase as [(Rside & _ & Hcash & Hpp)|(Rside & _ & (net & Hnet & Hn0 & Hcash) & Hpp)].
      + destruct Hcash as (c' & Ec' & Hc'). exists c', p'. split; auto. split; auto.
        split; [discriminate|]. intros _. exists rec. rewrite Ho.
        assert (Eb : bought_size rec == size) by (unfold bought_size; cbn; rewrite Rside, Rs; reflexivity).
        assert (Ee : cash_effect rec == - (size * px + fee)) by (unfold cash_effect; rewrite Eb; cbn; rewrite Rp, Rf; cbn; ring).
        split; auto. split; auto. split; [apply Hpr; congruence|]. split; auto.
        split; [|eapply Hposn; [exact Hpp|symmetry; exact Eb]].
        pose proof (approx_add_le _ _ _ Hc') as Hle.
        assert (Hf1 : Qabs (- (size * px + fee)) <= Qabs (bought_size rec * qty (or_price rec)) + Qabs (qty (or_fees rec))).
        { rewrite Eb. cbn. rewrite Rp, Rf. cbn. rewrite Qabs_opp. apply Qabs_triangle. }
        eapply cash_ok_fill; [exact Hc1|lra|]. rewrite Ee. destruct Hc1 as [Hcb _].
        apply approx_add_within with (1 := Hc'); rewrite turnover_app.
        * pose proof (Qabs_nonneg (bought_size rec * qty (or_price rec))). pose proof (Qabs_nonneg (qty (or_fees rec))). lra.
        * pose proof (turnover_nonneg (of_cols f len (rc_orders rc))). pose proof (Qabs_nonneg c0). lra.
      + destruct Hcash as (c' & Ec' & Hc'). exists c', p'. split; auto. split; auto.
        split; [discriminate|]. intros _. exists rec. rewrite Ho.
        assert (Eb : bought_size rec == - size) by (unfold bought_size; cbn; rewrite Rside, Rs; reflexivity).
        assert (Ee : cash_effect rec == size * px + - fee) by (unfold cash_effect; rewrite Eb; cbn; rewrite Rp, Rf; cbn; ring).
        split; auto. split; auto. split; [apply Hpr; congruence|]. split; auto.
        split; [|eapply Hposn; [exact Hpp|symmetry; exact Eb]].
        pose proof (approx_add_le _ _ _ Hnet) as Hle.
        assert (E1 : Qabs (bought_size rec * qty (or_price rec)) == Qabs (size * px)).
        { rewrite Eb. cbn. rewrite Rp. cbn. assert (Z : - size * px == - (size * px)) by ring. rewrite Z. apply Qabs_opp. }
        assert (E2 : Qabs (qty (or_fees rec)) == Qabs (- fee)) by (cbn; rewrite Rf; cbn; symmetry; apply Qabs_opp).
        eapply cash_ok_fill; [exact Hc1| |].
        * rewrite Hc', E1, E2. eapply Qle_trans; [apply Qabs_triangle|]. lra.
        * rewrite Ee, Hc'. rewrite (Qplus_comm c1 net), (Qplus_comm c1). apply within_shift.
          pose proof (turnover_nonneg (of_cols f len (rc_orders rc))). pose proof (Qabs_nonneg c0).
          pose proof (Qabs_nonneg (size * px)). pose proof (Qabs_nonneg (- fee)).
          apply approx_add_within with (1 := Hnet); rewrite turnover_app, E1, E2; lra.
    - destruct (execute_unfilled_cash _ _ _ _ _ _ _ Hex Hfil) as [E1 E2].
      pose proof (snap_snapped (ps_cash s)) as S1. rewrite Sc in S1.
      pose proof (snap_snapped (ps_position s)) as S2. rewrite Sp in S2.
      rewrite Sc in E1. rewrite Sp in E2.
      destruct (cash_ok_snap _ _ _ _ Hc S1) as (c' & Ec' & Hc').
      destruct (OrderLemmas.snap_fin p) as (p' & Ep' & _).
      exists c', p'. split; [congruence|]. split; [congruence|]. split; [intros _|discriminate].
      split; auto. rewrite Ep' in S2. pose proof (snapped_settled _ _ (proj1 (proj2 Hpos)) S2) as Epp.
      destruct Hpos as (P1 & P2 & P3). unfold pos_ok, settled in *. rewrite <- Epp. auto. }
  destruct X as (c' & p' & Ec' & Ep' & Xn & Xf).
  assert (Hvp' : noinf (ps_val_price s') /\ noinf (ps_value s')).
  { destruct (is_filled r && upd)%bool eqn:Ef.
    - specialize (Hu1 eq_refl). apply andb_prop in Ef as [Ef _]. destruct (Xf Ef) as (rec & _ & _ & (_ & (px & Hpx) & _) & Epx & _).
      rewrite Hpx in Epx. rewrite <- Epx, Sc, Sp, Ec', Ep' in Hu1.
      unfold update_value_nb in Hu1. apply pair_equal_spec in Hu1 as [Ev1 Ev2]. rewrite Ev1, Ev2.
      split; [apply noinf_fin|]. apply noinf_add; [apply noinf_add; [auto|apply noinf_fin]|].
      apply noinf_sub; match goal with |- noinf (if ?b then _ else _) => destruct b end;
        first [apply noinf_fin|apply noinf_mul; auto using noinf_fin].
    - destruct (Hu2 eq_refl) as [-> ->]. auto. }
  exists c', p'. rewrite Es' in *. cbn [ps_cash ps_position ps_val_price ps_value] in *.
  split; [exact Ec'|]. split; [exact Ep'|]. split; [apply Hvp'|]. split; [apply Hvp'|].
  destruct (is_filled r).
  - right. destruct (Xf eq_refl) as (rec & A1 & A2 & A3 & _ & A4 & A5). exists rec. auto.
  - left. destruct (Xn eq_refl). auto.
Qed.

Lemma noinf_not : forall f : nat -> XQ, (forall c, noinf (f c)) -> forall c, not_infinite (f c).
Proof. intros f H c. unfold not_infinite. destruct (H c) as [->|[q ->]]; split; discriminate. Qed.

(** ** The invariant *)
Section Accounts.
  Variables (op : FOpts XQ) (lens : list nat) (cash : list XQ).
  Notation groups := (segs 0 0 lens).
  Hypothesis Hcash : Forall (fun x => exists q, x = Fin q) cash.
  Hypothesis Hclose : forall i c, noinf (fo_close op i c).

  Definition span (g : Seg) (col : nat) : nat * nat := if fo_sharing op then (sg_from g, sg_len g) else (col, 1%nat).
  Definition mine (g : Seg) (col : nat) (recs : list (OrderRec XQ)) := of_cols (fst (span g col)) (snd (span g col)) recs.

  Definition acct (st : FState XQ) (g : Seg) (col : nat) : Prop := exists c0 c p,
    nth_error cash (slot op g col) = Some (Fin c0) /\
    fs_cash st (slot op g col) = Fin c /\ cash_ok c0 (mine g col (rc_orders (fs_rc st))) c /\
    fs_pos st col = Fin p /\ pos_ok (of_col col (rc_orders (fs_rc st))) p.
  Definition accounts (st : FState XQ) : Prop :=
    (forall k, noinf (fs_cash st k) /\ noinf (fs_value st k)) /\ (forall c, noinf (fs_vp st c)) /\
    forall g col, In g groups -> in_seg g col -> acct st g col.

  Lemma of_cols_one : forall c recs, of_cols c 1 recs = of_col c recs.
  Proof.
    intros c recs. unfold of_cols, of_col. induction recs as [|r l IH]; cbn [filter]; [reflexivity|]. rewrite IH.
    replace (Nat.leb c (or_col r) && Nat.ltb (or_col r) (c + 1))%bool with (Nat.eqb (or_col r) c); [reflexivity|].
    destruct (Nat.eqb_spec (or_col r) c) as [->|]; symmetry.
    - rewrite (proj2 (Nat.leb_le _ _)), (proj2 (Nat.ltb_lt _ _)) by lia. reflexivity.
    - apply andb_false_iff. destruct (Nat.lt_ge_cases (or_col r) c); [left; apply Nat.leb_gt; lia|right; apply Nat.ltb_ge; lia].
  Qed.
  Lemma span_in : forall g col, in_seg g col -> (fst (span g col) <= col < fst (span g col) + snd (span g col))%nat.
  Proof. intros g col H. unfold span, in_seg in *. destruct (fo_sharing op); cbn; lia. Qed.

  Lemma acct_same : forall st st' g col, fs_cash st' = fs_cash st -> fs_pos st' = fs_pos st -> fs_rc st' = fs_rc st -> acct st g col -> acct st' g col.
  Proof. intros st st' g col E1 E2 E3 H. unfold acct in *. rewrite E1, E2, E3. exact H. Qed.

  Lemma column_value_noinf : forall st g c, accounts st -> In g groups -> in_seg g c -> fo_sharing op = false -> noinf (column_value st c).
  Proof.
    intros st g c (_ & Hvp & HA) Hg Hc Es. destruct (HA g c Hg Hc) as (c0 & x & p & _ & E & _ & E2 & _). unfold slot in E. rewrite Es in E.
    unfold column_value. rewrite E, E2. destruct (eqb _ _); [apply noinf_fin|]. apply noinf_add; [apply noinf_fin|]. apply noinf_mul; [apply noinf_fin|apply Hvp].
  Qed.
  Lemma group_value_noinf' : forall st g, accounts st -> In g groups ->
    noinf (get_group_value_nb (sg_from g) (sg_len g) (fs_cash st (sg_group g)) (fs_pos st) (fs_vp st)).
  Proof.
    intros st g (Hcv & Hvp & HA) Hg. unfold get_group_value_nb.
    assert (G : forall l v, (forall c, In c l -> in_seg g c) -> noinf v ->
      noinf (fold_left (fun v col => if neb (fs_pos st col) zero then add v (mul (fs_pos st col) (fs_vp st col)) else v) l v)).
    { induction l as [|x l IH]; intros v Hl Hv; cbn [fold_left]; auto.
      apply IH; [intros; apply Hl; right; auto|]. destruct (neb _ _); auto.
      apply noinf_add; auto. destruct (HA g x Hg (Hl x (or_introl eq_refl))) as (c0 & c1 & p & _ & _ & _ & -> & _).
      apply noinf_mul; [apply noinf_fin|apply Hvp]. }
    apply G; [intros x Hx; apply in_seq in Hx; exact Hx|apply Hcv].
  Qed.

  Lemma fupd_noinf : forall (f : nat -> XQ) k v, (forall j, noinf (f j)) -> noinf v -> forall j, noinf (fupd f k v j).
  Proof. intros f k v Hf Hv j. unfold fupd. destruct (Nat.eqb j k); auto. Qed.

  Lemma accounts_take : forall g i vp calls st, (forall c, not_infinite (vp c)) -> accounts st -> accounts (take_segment g i vp calls st).
  Proof.
    intros g i vp calls st Hv (H1 & H2 & H3). split; [exact H1|]. split; [|exact H3].
    intros c. cbn. destruct (_ && _)%bool; [|apply H2]. destruct (Hv c) as [A B]. destruct (vp c) as [| | |q]; [left; reflexivity|congruence|congruence|apply noinf_fin].
  Qed.
  Lemma accounts_recs : forall st r, accounts st -> accounts (with_recs st r).
  Proof. intros st r H. exact H. Qed.

  (** Changes of values only *)
  Definition values_only (st st' : FState XQ) : Prop :=
    fs_cash st' = fs_cash st /\ fs_pos st' = fs_pos st /\ fs_rc st' = fs_rc st /\ fs_vp st' = fs_vp st.
  Lemma accounts_values : forall st st', values_only st st' -> (forall k, noinf (fs_value st' k)) -> accounts st -> accounts st'.
  Proof.
    intros st st' (E1 & E2 & E3 & E4) Hv (H1 & H2 & H3). split; [|split].
    - intros k. rewrite E1. split; [apply H1|apply Hv].
    - rewrite E4. exact H2.
    - intros g col Hg Hc. eapply acct_same; [exact E1|exact E2|exact E3|]. exact (H3 g col Hg Hc).
  Qed.

  Lemma accounts_revalue : forall g st, In g groups -> accounts st -> accounts (revalue op g st).
  Proof.
    intros g st Hg H. unfold revalue. destruct (fo_sharing op) eqn:Es.
    - apply (accounts_values st); [repeat split| |exact H]. cbn. apply fupd_noinf; [apply H|]. apply group_value_noinf'; assumption.
    - assert (forall l s, (forall c, In c l -> in_seg g c) -> accounts s -> accounts (fold_left (fun st col =>
        let v := column_value st col in with_value st (fupd (fs_value st) col v) (fupd (fs_return st) col (get_return_nb (fs_second st col) v))) l s)) as G;
        [|apply G; [intros c Hc; apply in_seq in Hc; exact Hc|exact H]].
      induction l as [|x l IH]; intros s Hl Hs; cbn [fold_left]; [exact Hs|]. apply IH; [intros c Hc; apply Hl; now right|].
      apply (accounts_values s); [repeat split| |exact Hs]. cbn. apply fupd_noinf; [apply Hs|].
      apply (column_value_noinf s g); auto. apply Hl. now left.
  Qed.
  Lemma accounts_close_vp : forall g i st, accounts st -> accounts (close_vp op g i st).
  Proof.
    intros g i st (H1 & H2 & H3). split; [exact H1|]. split; [|exact H3]. cbn. revert H2. generalize (fs_vp st).
    induction (seq (sg_from g) (sg_len g)) as [|x l IH]; intros vp H2; cbn [fold_left]; [exact H2|].
    apply IH. unfold store_vp. destruct (_ || _)%bool; [apply fupd_noinf; auto|exact H2].
  Qed.
  Lemma accounts_close : forall g i st, In g groups -> accounts st -> accounts (close_value op g (close_vp op g i st)).
  Proof.
    intros g i st Hg H. apply accounts_close_vp with (g := g) (i := i) in H. unfold close_value.
    destruct (fo_sharing op) eqn:Es.
    - apply (accounts_values (close_vp op g i st)); [repeat split| |exact H]. cbn [fs_value shift_value]. apply fupd_noinf; [apply H|]. apply group_value_noinf'; assumption.
    - revert H. generalize (close_vp op g i st). intros s0 H.
      assert (forall l s, (forall c, In c l -> in_seg g c) -> accounts s ->
        accounts (fold_left (fun st col => shift_value st col (column_value st col)) l s)) as G;
        [|apply G; [intros c Hc; apply in_seq in Hc; exact Hc|exact H]].
      induction l as [|x l IH]; intros s Hl Hs; cbn [fold_left]; [exact Hs|]. apply IH; [intros c Hc; apply Hl; now right|].
      apply (accounts_values s); [repeat split| |exact Hs]. cbn. apply fupd_noinf; [apply Hs|].
      apply (column_value_noinf s g); auto. apply Hl. now left.
  Qed.

  Lemma resolve_tame : forall i col o, tame_order o -> tame_order (resolve_order_price (fo_close op) i col o).
  Proof. intros i col o H. unfold resolve_order_price. destruct (isinf (o_price o)); exact H. Qed.

  Lemma accounts_order : forall draws g i col st o r s' rc' st', In g groups -> in_seg g col -> tame_order o -> accounts st ->
    process_order_nb draws i col (sg_group g) (order_state_now op st g col) (fo_update op) o (fs_rc st) = Ok (r, s', rc') ->
    store_order op g i col st r s' rc' = Ok st' -> accounts st'.
  Proof.
    intros draws g i col st o r s' rc' st' Hg Hcol Ho (H1 & H2 & H3) Hp Hs.
    unfold store_order in Hs. apply bind_ok in Hs as (rec' & _ & Hs). inversion Hs; subst; clear Hs.
    destruct (H3 g col Hg Hcol) as (c0 & c & p & E0 & Ec & Hc & Ep & Hpos).
    destruct (order_ledger draws c0 (fst (span g col)) (snd (span g col)) i col (sg_group g) (order_state_now op st g col) (fo_update op) o (fs_rc st) r s' rc' c p
      (span_in g col Hcol) Ho Ec Hc Ep Hpos (H2 col) (proj2 (H1 _)) Hp) as (c' & p' & Ec' & Ep' & Hvp' & Hv' & Hcase).
    split; [|split].
    - intros k. cbn [fs_cash fs_value]. split; apply fupd_noinf; try apply H1; [rewrite Ec'; apply noinf_fin|exact Hv'].
    - cbn [fs_vp]. unfold store_vp. destruct (_ || _)%bool; [apply fupd_noinf; auto|exact H2].
    - intros g' col' Hg' Hcol'. destruct (H3 g' col' Hg' Hcol') as (d0 & d & q & F0 & Fc & Gc & Fp & Gp).
      exists d0. unfold acct. cbn [fs_cash fs_pos fs_rc].
      assert (exists x, fupd (fs_cash st) (slot op g col) (ps_cash s') (slot op g' col') = Fin x /\ cash_ok d0 (mine g' col' (rc_orders rc')) x) as (x & X1 & X2).
      { unfold fupd. destruct (Nat.eqb_spec (slot op g' col') (slot op g col)) as [E|E].
        - exists c'. split; [exact Ec'|].
          assert (g' = g) by (eapply slots_apart; [exact Hg'|exact Hg|exact Hcol'|exact Hcol|exact E]). subst g'.
          assert (span g col' = span g col) as Esp by (unfold span, slot in *; destruct (fo_sharing op); [reflexivity|now rewrite E]).
          unfold mine. rewrite Esp. rewrite E, E0 in F0. inversion F0; subst d0.
          destruct Hcase as [(-> & A & _)|(rec & -> & Er & _ & A & _)]; [exact A|].
          rewrite of_cols_snoc; [exact A|rewrite Er; apply span_in; exact Hcol].
        - exists d. split; [exact Fc|]. destruct Hcase as [(-> & _)|(rec & -> & Er & _)]; [exact Gc|].
          unfold mine, of_cols. rewrite filter_app. cbn [filter]. rewrite Er.
          replace (Nat.leb (fst (span g' col')) col && Nat.ltb col (fst (span g' col') + snd (span g' col')))%bool with false; [rewrite app_nil_r; exact Gc|].
          symmetry. apply not_true_iff_false. intros C. apply andb_prop in C as [C1 C2]. apply Nat.leb_le in C1. apply Nat.ltb_lt in C2.
          unfold span, slot in *. destruct (fo_sharing op); cbn in C1, C2; [|lia].
          apply E. f_equal. apply (segs_apart lens 0 0); [exact Hg'|exact Hg|right]. exists col. split; [split; assumption|exact Hcol]. }
      assert (exists y, fupd (fs_pos st) col (ps_position s') col' = Fin y /\ pos_ok (of_col col' (rc_orders rc')) y) as (y & Y1 & Y2).
      { unfold fupd. destruct (Nat.eqb_spec col' col) as [->|E].
        - exists p'. split; [exact Ep'|]. destruct Hcase as [(-> & _ & A)|(rec & -> & Er & _ & _ & A)]; [exact A|].
          rewrite of_col_snoc, Er, Nat.eqb_refl. exact A.
        - exists q. split; [exact Fp|]. destruct Hcase as [(-> & _)|(rec & -> & Er & _)]; [exact Gp|].
          rewrite of_col_snoc, Er. replace (Nat.eqb col col') with false by (symmetry; apply Nat.eqb_neq; congruence). now rewrite app_nil_r. }
      exists x, y. auto.
  Qed.

  Lemma accounts_ok : forall st, accounts st -> account_of_records op groups cash st.
  Proof.
    intros st (_ & _ & H) g col Hg Hc recs m. destruct (H g col Hg Hc) as (c0 & c & p & A & B & C & D & E).
    exists c0, c, p. split; [exact A|]. split; [exact B|]. split; [|split; [exact D|apply E]].
    replace m with (mine g col recs); [apply cash_ok_any; exact C|].
    unfold m, mine, span. destruct (fo_sharing op); cbn; [reflexivity|apply of_cols_one].
  Qed.

  Lemma accounts_init : forall e cs nrows ncols mo ml rng, sum_lens lens = ncols ->
    List.length cash = (if fo_sharing op then List.length lens else ncols) ->
    accounts (finit cash e cs nrows ncols mo ml rng).
  Proof.
    intros e cs nrows ncols mo ml rng Hn Hl.
    assert (Hnth : forall k, noinf (nth k cash nan)).
    { intros k. destruct (nth_in_or_default k cash (nan : XQ)) as [Hi| ->]; [|left; reflexivity].
      rewrite Forall_forall in Hcash. destruct (Hcash _ Hi) as (q & ->). apply noinf_fin. }
    split; [intros k; split; apply Hnth|]. split; [intros c; left; reflexivity|].
    intros g col Hg Hc.
    assert (Hb : forall l k f g, In g (segs k f l) -> (sg_group g < k + List.length l)%nat /\ (sg_from g + sg_len g <= f + sum_lens l)%nat).
    { clear. induction l as [|n l IH]; intros k f g H; cbn in H; [contradiction|]. destruct H as [<-|H]; cbn; [unfold sum_lens; cbn; lia|].
      apply IH in H. unfold sum_lens in *. cbn. lia. }
    apply Hb in Hg as [B1 B2]. destruct Hc as [C1 C2]. rewrite Hn in B2.
    assert (Hk : (slot op g col < List.length cash)%nat) by (rewrite Hl; unfold slot; destruct (fo_sharing op); lia).
    destruct (nth_error cash (slot op g col)) as [x|] eqn:En; [|apply nth_error_None in En; lia].
    rewrite Forall_forall in Hcash. destruct (Hcash x (nth_error_In _ _ En)) as (q & ->).
    exists q, q, 0. split; [exact En|]. cbn [finit fs_cash fs_pos fs_rc rc_orders]. split; [apply nth_error_nth; exact En|].
    split; [|split; [reflexivity|]].
    - unfold cash_ok, mine, of_cols. cbn. split; [lra|]. left. unfold within. cbn. rewrite (Qabs_wd _ 0) by (cbn; ring). cbn. rewrite (Qmult_0_l (slack _) : inject_Z 0 * slack _ == 0). apply Qle_refl.
    - unfold pos_ok, settled, volume, ledger_position, within, of_col. cbn. split; [lra|]. split; [left; reflexivity|].
      rewrite (Qmult_0_l (slack _) : inject_Z 0 * slack _ == 0). cbn. apply Qle_refl.
  Qed.
End Accounts.

Lemma columns_account : forall {U A0 A1 A2} draws op (cb : Callbacks XQ U A0 A1 A2) m nrows ncols lens cash e cs mo ml rng u st u' t,
  full_call_seq cb -> tame_callbacks cb -> Forall (fun x => exists q, x = Fin q) cash -> (forall i c, not_infinite (fo_close op i c)) ->
  simulate_nb draws op (spy cb) m nrows ncols lens cash (finit cash e cs nrows ncols mo ml rng) (u, []) = Ok (st, (u', t)) ->
  Forall (fun ev => account_of_records op (segs 0 0 lens) cash (snd ev)) t /\ account_of_records op (segs 0 0 lens) cash st.
Proof.
  intros U A0 A1 A2 draws op cb m nrows ncols lens cash e cs mo ml rng u st u' t HF (T1 & T2 & T3) Hcash Hcl H.
  assert (Hclose : forall i c, noinf (fo_close op i c)).
  { intros i c. destruct (Hcl i c) as [A B]. destruct (fo_close op i c) as [| | |q]; [left; reflexivity|congruence|congruence|apply noinf_fin]. }
  assert (Hi : accounts op lens cash (finit cash e cs nrows ncols mo ml rng)).
  { unfold simulate_nb, check_groups in H. apply raise_if_ok in H as [K1 H]. apply raise_if_ok in H as [K2 _].
    apply negb_false_iff, Nat.eqb_eq in K1, K2. apply accounts_init; auto. }
  pose proof (simulate_spy op (segs 0 0 lens) draws (fun vp => forall c, not_infinite (vp c)) tame_order (accounts op lens cash)
    (fun g i vp calls st _ Hv => accounts_take op lens cash g i vp calls st Hv) (accounts_recs op lens cash)
    (accounts_revalue op lens cash) (accounts_close op lens cash Hclose)
    (fun g i col st o r s' rc' st' Hg Hc Ho => accounts_order op lens cash draws g i col st _ r s' rc' st' Hg Hc (resolve_tame op i col o Ho))
    cb HF (fun a g i st u a' vp calls u' HP => T1 a g i st u a' vp calls u' (noinf_not _ (proj1 (proj2 HP)))) (fun a g i c k st u o u' _ => T2 a g i c k st u o u')
    (fun a g i k st u c o u' _ => T3 a g i k st u c o u')
    (fun _ _ => True) (fun _ _ _ _ _ => I) (fun _ _ _ _ _ _ _ _ _ _ _ _ _ _ _ => I) m nrows ncols lens cash _ u eq_refl Hi I) as L.
  rewrite H in L. unfold shadows in L. destruct (simulate_nb draws op cb m nrows ncols lens cash _ u) as [[st1 u1]|]; [|discriminate].
  destruct L as (t' & E & _ & Hg & HP & _). inversion E; subst. split; [|apply accounts_ok; exact HP].
  eapply Forall_impl; [|exact Hg]. intros ev. apply accounts_ok.
Qed.

Lemma rows_account : forall {U A0 A1 A2} draws op (cb : Callbacks XQ U A0 A1 A2) m nrows ncols lens cash e cs mo ml rng u st u' t,
  full_call_seq cb -> tame_callbacks cb -> Forall (fun x => exists q, x = Fin q) cash -> (forall i c, not_infinite (fo_close op i c)) ->
  simulate_row_wise_nb draws op (spy cb) m nrows ncols lens cash (finit cash e cs nrows ncols mo ml rng) (u, []) = Ok (st, (u', t)) ->
  Forall (fun ev => account_of_records op (segs 0 0 lens) cash (snd ev)) t /\ account_of_records op (segs 0 0 lens) cash st.
Proof.
  intros U A0 A1 A2 draws op cb m nrows ncols lens cash e cs mo ml rng u st u' t HF (T1 & T2 & T3) Hcash Hcl H.
  assert (Hclose : forall i c, noinf (fo_close op i c)).
  { intros i c. destruct (Hcl i c) as [A B]. destruct (fo_close op i c) as [| | |q]; [left; reflexivity|congruence|congruence|apply noinf_fin]. }
  assert (Hi : accounts op lens cash (finit cash e cs nrows ncols mo ml rng)).
  { unfold simulate_row_wise_nb, check_groups in H. apply raise_if_ok in H as [K1 H]. apply raise_if_ok in H as [K2 _].
    apply negb_false_iff, Nat.eqb_eq in K1, K2. apply accounts_init; auto. }
  pose proof (simulate_row_wise_spy op (segs 0 0 lens) draws (fun vp => forall c, not_infinite (vp c)) tame_order (accounts op lens cash)
    (fun g i vp calls st _ Hv => accounts_take op lens cash g i vp calls st Hv) (accounts_recs op lens cash)
    (accounts_revalue op lens cash) (accounts_close op lens cash Hclose)
    (fun g i col st o r s' rc' st' Hg Hc Ho => accounts_order op lens cash draws g i col st _ r s' rc' st' Hg Hc (resolve_tame op i col o Ho))
    cb HF (fun a g i st u a' vp calls u' HP => T1 a g i st u a' vp calls u' (noinf_not _ (proj1 (proj2 HP)))) (fun a g i c k st u o u' _ => T2 a g i c k st u o u')
    (fun a g i k st u c o u' _ => T3 a g i k st u c o u')
    (fun _ _ => True) (fun _ _ _ _ _ => I) (fun _ _ _ _ _ _ _ _ _ _ _ _ _ _ _ => I) m nrows ncols lens cash _ u eq_refl Hi I) as L.
  rewrite H in L. unfold shadows in L. destruct (simulate_row_wise_nb draws op cb m nrows ncols lens cash _ u) as [[st1 u1]|]; [|discriminate].
  destruct L as (t' & E & _ & Hg & HP & _). inversion E; subst. split; [|apply accounts_ok; exact HP].
  eapply Forall_impl; [|exact Hg]. intros ev. apply accounts_ok.
Qed.
