(** * Two simulations from signals in lockstep *)
From Coq Require Import String ZArith Bool List Arith Lia.
From Verif Require Import Base Num Order OrderGen CallSeq Account Simulate SimSpec SimLemmas SimLemmas2
  FromSignals FromSignalsSpec.
Import ListNotations.
Local Open Scope nat_scope.

Section SLock.
  Context {T : Type} {N : Num T}.
  Implicit Types (st : SSim T) (inp : SigInputs T).

  Definition sagree (t f1 f2 len : nat) (i1 i2 : SigInputs T) : Prop :=
    forall i k, i < t -> k < len -> same_cell i1 i2 i (f1 + k) (f2 + k).

  Definition cols_agree (f1 f2 len : nat) (a b : nat -> Col T) : Prop :=
    forall k, k < len -> a (f1 + k) = b (f2 + k).

  Record slock (t f1 f2 len : nat) (nr : Prop) st1 st2 : Prop := mkSLock {
    sk_cash : ss_cash st1 = ss_cash st2;
    sk_free : ss_free st1 = ss_free st2;
    sk_cols : cols_agree f1 f2 len (ss_cols st1) (ss_cols st2);
    sk_seq : forall i k, i < t -> k < len -> ss_seq st1 i (f1 + k) = ss_seq st2 i (f2 + k);
    sk_rng : rc_rng (ss_rc st1) = rc_rng (ss_rc st2) \/ nr;
    sk_room : room (ss_rc st1) (ss_rc st2) }.

  (** Consequences of agreeing inputs *)
  Lemma agree_base : forall t f1 f2 len i1 i2, sagree t f1 f2 len i1 i2 ->
    agree t f1 f2 len (si_base i1) (si_base i2).
  Proof. intros t f1 f2 len i1 i2 H i k Hi Hk. apply (sc_base _ _ _ _ _ (H i k Hi Hk)). Qed.

  Lemma cell_fields : forall (b1 b2 : Inputs T) i c1 c2, cell b1 i c1 = cell b2 i c2 ->
    in_size b1 i c1 = in_size b2 i c2 /\ in_price b1 i c1 = in_price b2 i c2 /\
    in_size_type b1 i c1 = in_size_type b2 i c2 /\ in_slippage b1 i c1 = in_slippage b2 i c2 /\
    in_close b1 i c1 = in_close b2 i c2 /\ in_reject_prob b1 i c1 = in_reject_prob b2 i c2.
  Proof. intros b1 b2 i c1 c2 E. unfold cell in E. repeat split; congruence. Qed.

  Lemma sig_price_agree : forall t f1 f2 len i1 i2 i k,
    sagree t f1 f2 len i1 i2 -> i < t -> k < len ->
    resolve_sig_price i1 i (f1 + k) = resolve_sig_price i2 i (f2 + k).
  Proof.
    intros t f1 f2 len i1 i2 i k H Hi Hk. unfold resolve_sig_price.
    destruct (H i k Hi Hk) as [E B _ _ _ _ _]. injection B as B1 B2 B3.
    apply cell_fields in E as (_ & E2 & _ & _ & E5 & _). rewrite E2, E5, B1.
    destruct i as [|i]; auto.
    destruct (H i k ltac:(lia) Hk) as [E' _ _ _ _ _ _]. apply cell_fields in E' as (_ & _ & _ & _ & E6 & _).
    rewrite E6. auto.
  Qed.

  Lemma resolve_bar_agree : forall t f1 f2 len i1 i2 i k,
    sagree t f1 f2 len i1 i2 -> i < t -> k < len ->
    resolve_bar i1 i (f1 + k) = resolve_bar i2 i (f2 + k).
  Proof.
    intros t f1 f2 len i1 i2 i k H Hi Hk. unfold resolve_bar.
    destruct (H i k Hi Hk) as [E B _ _ _ _ _]. injection B as B1 B2 B3.
    apply cell_fields in E as (_ & _ & _ & _ & E5 & _). rewrite B1, B2, B3, E5. auto.
  Qed.

  Lemma sig_price_step_lock : forall t f1 f2 len i1 i2 fl i k a b,
    sagree t f1 f2 len i1 i2 -> i < t -> k < len -> cols_agree f1 f2 len a b ->
    cols_agree f1 f2 len (sig_price_step i1 fl i a (f1 + k)) (sig_price_step i2 fl i b (f2 + k)).
  Proof.
    intros t f1 f2 len i1 i2 fl i k a b H Hi Hk HC.
    unfold sig_price_step. rewrite (HC k Hk), (sig_price_agree _ _ _ _ _ _ _ _ H Hi Hk).
    destruct (resolve_prices_agree _ _ _ _ _ _ _ _ (agree_base _ _ _ _ _ _ H) Hi Hk) as [_ E2].
    rewrite E2. intros j Hj. apply (fupd_lock _ _ _ _ _ len); auto.
  Qed.

  Lemma signal_step_lock : forall t f1 f2 len i1 i2 fl i cash free k a b a',
    sagree t f1 f2 len i1 i2 -> i < t -> k < len -> cols_agree f1 f2 len a b ->
    signal_step i1 fl i cash free a (f1 + k) = Ok a' ->
    exists b', signal_step i2 fl i cash free b (f2 + k) = Ok b' /\ cols_agree f1 f2 len a' b'.
  Proof.
    intros t f1 f2 len i1 i2 fl i cash free k a b a' H Hi Hk HC HS.
    assert (ES : stop_step i1 fl i (f1 + k) (a (f1 + k)) = stop_step i2 fl i (f2 + k) (b (f2 + k))).
    { unfold stop_step. rewrite (HC k Hk), (resolve_bar_agree _ _ _ _ _ _ _ _ H Hi Hk).
      unfold adjust_stops. rewrite (sc_sl _ _ _ _ _ (H i k Hi Hk)).
      destruct (use_stops fl); auto. destruct (si_adjust_sl i2 _ _ _ _ _) as [sl tr].
      rewrite (sc_tp _ _ _ _ _ (H i k Hi Hk)). auto. }
    assert (EP : forall sp, pick_signals i1 fl i (f1 + k) (a (f1 + k)) sp = pick_signals i2 fl i (f2 + k) (b (f2 + k)) sp).
    { intros sp. unfold pick_signals. rewrite (HC k Hk).
      destruct (H i k Hi Hk) as [E _ M S G _ _]. injection M as M1 M2 M3 M4 M5.
      injection S as S1 S2 S3 S4 S5 S6 S7.
      apply cell_fields in E as (_ & _ & _ & E4 & E5 & _).
      rewrite E4, E5, M1, M2, M3, M4, M5, S5, S6, G. auto. }
    unfold signal_step in *. rewrite ES in HS.
    apply bind_ok in HS as ([sp stops] & -> & HS). cbn [bind]. rewrite EP in HS.
    destruct (pick_signals i2 fl i (f2 + k) (b (f2 + k)) sp) as [[s acc] [price slip]].
    apply bind_ok in HS as ([[size stype] dir] & HZ & HS). injection HS as <-.
    destruct (H i k Hi Hk) as [E _ _ _ _ _ _]. apply cell_fields in E as (E1 & _ & E3 & _).
    rewrite (HC k Hk), E1, E3 in HZ. rewrite HZ. cbn [bind]. eexists. split; [reflexivity|].
    rewrite (HC k Hk). intros j Hj. apply (fupd_lock _ _ _ _ _ len); auto.
  Qed.

  Lemma foldM_shift : forall A (f : A -> nat -> res A) from len a,
    foldM f a (seq from len) = foldM (fun a k => f a (from + k)) a (seq 0 len).
  Proof.
    intros A f from len a. replace from with (from + 0) at 1 by lia.
    generalize 0. revert a. induction len as [|len IH]; intros a n; cbn; auto.
    destruct (f a (from + n)) as [x|]; cbn; auto. rewrite <- IH. f_equal. f_equal. lia.
  Qed.

  Lemma signals_lock : forall t f1 f2 len i1 i2 fl i cash free l a b a',
    sagree t f1 f2 len i1 i2 -> i < t -> (forall k, In k l -> k < len) -> cols_agree f1 f2 len a b ->
    foldM (fun a k => signal_step i1 fl i cash free a (f1 + k)) a l = Ok a' ->
    exists b', foldM (fun a k => signal_step i2 fl i cash free a (f2 + k)) b l = Ok b' /\ cols_agree f1 f2 len a' b'.
  Proof.
    intros t f1 f2 len i1 i2 fl i cash free l. induction l as [|k l IH]; intros a b a' H Hi Hl HC HF; cbn in HF.
    - injection HF as <-. exists b. cbn. auto.
    - apply bind_ok in HF as (m & H1 & H2).
      assert (Hk : k < len) by (apply Hl; left; auto).
      destruct (signal_step_lock _ _ _ _ _ _ _ _ _ _ _ _ _ _ H Hi Hk HC H1) as (m' & E & C').
      cbn. rewrite E. cbn. eapply IH; eauto. intros; apply Hl; right; auto.
  Qed.

  Lemma sig_prepare_lock : forall t f1 f2 len nr i1 i2 fl sh i st1 st2 st1',
    sagree t f1 f2 len i1 i2 -> i < t -> slock t f1 f2 len nr st1 st2 ->
    sig_prepare i1 fl sh f1 len st1 i = Ok st1' ->
    exists st2', sig_prepare i2 fl sh f2 len st2 i = Ok st2' /\
      slock t f1 f2 len nr st1' st2' /\ (sh = true -> ss_value st1' = ss_value st2') /\
      ss_rc st1' = ss_rc st1 /\ ss_rc st2' = ss_rc st2.
  Proof.
    intros t f1 f2 len nr i1 i2 fl sh i st1 st2 st1' H Hi [Kc Kf Kcols Ks Kr Kro] HP.
    unfold sig_prepare in *. apply bind_ok in HP as (c1 & H1 & HP). injection HP as <-.
    rewrite foldM_shift in H1.
    rewrite (seq_shift_fold _ _ f1) in H1.
    assert (C1 : cols_agree f1 f2 len
      (fold_left (fun a k => sig_price_step i1 fl i a (f1 + k)) (seq 0 len) (ss_cols st1))
      (fold_left (fun a k => sig_price_step i2 fl i a (f2 + k)) (seq 0 len) (ss_cols st2))).
    { apply (fold_left_rel _ _ _ (cols_agree f1 f2 len)); auto.
      intros a b c Hc. apply in_seq in Hc. apply sig_price_step_lock with (t := t); auto. lia. }
    assert (Hseq : forall k, In k (seq 0 len) -> k < len) by (intros k Hk; apply in_seq in Hk; lia).
    destruct (signals_lock _ _ _ _ _ _ _ _ _ _ _ _ _ _ H Hi Hseq C1 H1) as (c2 & E2 & C2).
    rewrite foldM_shift, (seq_shift_fold _ _ f2), <- Kc, <- Kf, E2. cbn [bind].
    eexists. split; [reflexivity|].
    unfold sig_sort_step. destruct sh; cbn [ss_rc ss_value ss_cols ss_cash ss_seq ss_free].
    - assert (EV : get_group_value_nb f1 len (ss_cash st1) (fun c => c_pos (c1 c)) (fun c => c_vp (c1 c))
                 = get_group_value_nb f2 len (ss_cash st1) (fun c => c_pos (c2 c)) (fun c => c_vp (c2 c))).
      { apply group_value_lock; intros k Hk; rewrite (C2 k Hk); auto. }
      split; [|auto]. constructor; cbn; auto.
      destruct (auto_call_seq (sf_base fl)); auto.
      intros i' k Hi' Hk.
      match goal with |- set_slice _ _ _ (map snd (insert_argsort_nb ?a)) _ _ = set_slice _ _ _ (map snd (insert_argsort_nb ?b)) _ _ =>
        assert (EM : a = b) end.
      { apply map_ext_in. intros j Hj. apply in_seq in Hj. rewrite C2, Ks by lia. auto. }
      rewrite EM. eapply set_slice_lock; eauto.
    - split; [|split; [discriminate|auto]]. constructor; cbn; auto.
  Qed.

  Definition snorej (inp : SigInputs T) (t f len : nat) : Prop := norej (si_base inp) t f len.

  Lemma sig_order_agree : forall t f1 f2 len i1 i2 i k c,
    sagree t f1 f2 len i1 i2 -> i < t -> k < len ->
    make_sig_order i1 i (f1 + k) c = make_sig_order i2 i (f2 + k) c.
  Proof.
    intros t f1 f2 len i1 i2 i k c H Hi Hk. destruct (H i k Hi Hk) as [E _ _ _ _ _ _].
    unfold cell in E. injection E as ? ? ? ? ? ? ? ? ? ? ? ? ? ? ? ? ? ?. unfold make_sig_order. congruence.
  Qed.

  Lemma update_stops_agree : forall t f1 f2 len i1 i2 i k o r p p' v s,
    sagree t f1 f2 len i1 i2 -> i < t -> k < len ->
    update_stops i1 i (f1 + k) o r p p' v s = update_stops i2 i (f2 + k) o r p p' v s.
  Proof.
    intros t f1 f2 len i1 i2 i k o r p p' v s H Hi Hk. destruct (H i k Hi Hk) as [E _ _ S _ _ _].
    injection S as S1 S2 S3 S4 S5 S6 S7. apply cell_fields in E as (_ & _ & _ & _ & E5 & _).
    unfold update_stops, entry_stop_price. rewrite S1, S2, S3, S4, S7, E5. auto.
  Qed.

  Lemma sig_order_step_lock : forall draws t f1 f2 len i1 i2 fl sh i g1 g2 k st1 st2 st1',
    sagree t f1 f2 len i1 i2 -> i < t -> k < len ->
    slock t f1 f2 len (snorej i1 t f1 len) st1 st2 -> (sh = true -> ss_value st1 = ss_value st2) ->
    sig_order_step draws i1 fl sh i g1 f1 len st1 k = Ok st1' ->
    exists st2', sig_order_step draws i2 fl sh i g2 f2 len st2 k = Ok st2' /\
      slock t f1 f2 len (snorej i1 t f1 len) st1' st2' /\ (sh = true -> ss_value st1' = ss_value st2') /\
      appended f1 f2 (ss_rc st1) (ss_rc st1') (ss_rc st2) (ss_rc st2').
  Proof.
    intros draws t f1 f2 len i1 i2 fl sh i g1 g2 k st1 st2 st1' H Hi Hk [Kc Kf Kcols Ks Kr Kro] HV Hs.
    unfold sig_order_step in *. apply bind_ok in Hs as (col & Hp & Hs).
    assert (Hpk : exists j, j < len /\ col = f1 + j /\ pick_col sh (ss_seq st2) i f2 len k = Ok (f2 + j)).
    { unfold pick_col in *. destruct sh.
      - apply raise_if_ok in Hp as [Hlt Hp]. injection Hp as <-. apply Nat.leb_gt in Hlt.
        eexists. split; [exact Hlt|]. split; auto. rewrite <- Ks by auto.
        apply Nat.leb_gt in Hlt. rewrite Hlt. reflexivity.
      - injection Hp as <-. eauto. }
    destruct Hpk as (j & Hj & -> & ->). cbn [bind].
    rewrite (Kcols j Hj) in Hs.
    destruct (neb (c_size (ss_cols st2 (f2 + j))) zero).
    2:{ injection Hs as <-. exists st2. split; auto. split; [constructor; auto|]. split; auto. apply appended_refl. }
    apply bind_ok in Hs as ([[r s'] rc1'] & Hpr & Hs). injection Hs as <-.
    assert (ES : sig_order_state sh st1 (f1 + j) = sig_order_state sh st2 (f2 + j)).
    { unfold sig_order_state. rewrite Kc, Kf, (Kcols j Hj). destruct sh; [rewrite HV by auto|]; auto. }
    rewrite ES, (sig_order_agree _ _ _ _ _ _ _ _ _ H Hi Hj) in Hpr by auto.
    eapply process_lock in Hpr as (rc2' & E & R' & A' & K'); [rewrite E|..].
    - cbn [bind]. eexists. split; [reflexivity|]. split; [|split; [reflexivity|exact A']].
      rewrite (sig_order_agree _ _ _ _ _ _ _ _ _ H Hi Hj), (update_stops_agree _ _ _ _ _ _ _ _ _ _ _ _ _ _ H Hi Hj).
      constructor; cbn; auto.
      + intros m Hm. apply (fupd_lock _ _ _ _ _ len); auto.
      + destruct Kr; auto.
    - destruct Kr as [Kr|Kr]; auto. right. cbn.
      destruct (H i j Hi Hj) as [E _ _ _ _ _ _]. apply cell_fields in E as (_ & _ & _ & _ & _ & E6).
      rewrite <- E6. apply Kr; auto.
    - exact Kro.
  Qed.

  Lemma sig_orders_lock : forall draws t f1 f2 len i1 i2 fl sh i g1 g2 l st1 st2 st1',
    sagree t f1 f2 len i1 i2 -> i < t -> (forall k, In k l -> k < len) ->
    slock t f1 f2 len (snorej i1 t f1 len) st1 st2 -> (sh = true -> ss_value st1 = ss_value st2) ->
    foldM (sig_order_step draws i1 fl sh i g1 f1 len) st1 l = Ok st1' ->
    exists st2', foldM (sig_order_step draws i2 fl sh i g2 f2 len) st2 l = Ok st2' /\
      slock t f1 f2 len (snorej i1 t f1 len) st1' st2' /\
      appended f1 f2 (ss_rc st1) (ss_rc st1') (ss_rc st2) (ss_rc st2').
  Proof.
    intros draws t f1 f2 len i1 i2 fl sh i g1 g2 l. induction l as [|k l IH];
      intros st1 st2 st1' H Hi Hl HL HV Hf; cbn in Hf.
    - injection Hf as <-. exists st2. cbn. split; auto. split; auto. apply appended_refl.
    - apply bind_ok in Hf as (m1 & H1 & H2).
      assert (Hk : k < len) by (apply Hl; left; auto).
      destruct (sig_order_step_lock _ _ _ _ _ _ _ _ _ _ g1 g2 _ _ _ _ H Hi Hk HL HV H1) as (m2 & E & L' & V' & A').
      destruct (IH m1 m2 st1' H Hi) as (e2 & E2 & L2 & A2); auto.
      { intros. apply Hl; right; auto. }
      exists e2. cbn. rewrite E. cbn. split; auto. split; auto. eapply appended_trans; eauto.
  Qed.

  Lemma sig_bar_lock : forall draws t f1 f2 len i1 i2 fl sh i g1 g2 st1 st2 st1',
    sagree t f1 f2 len i1 i2 -> i < t ->
    slock t f1 f2 len (snorej i1 t f1 len) st1 st2 ->
    sig_bar_step draws i1 fl sh g1 f1 len st1 i = Ok st1' ->
    exists st2', sig_bar_step draws i2 fl sh g2 f2 len st2 i = Ok st2' /\
      slock t f1 f2 len (snorej i1 t f1 len) st1' st2' /\
      appended f1 f2 (ss_rc st1) (ss_rc st1') (ss_rc st2) (ss_rc st2').
  Proof.
    intros draws t f1 f2 len i1 i2 fl sh i g1 g2 st1 st2 st1' H Hi HL Hb. unfold sig_bar_step in *.
    apply bind_ok in Hb as (m1 & H1 & Hb).
    destruct (sig_prepare_lock _ _ _ _ _ _ _ _ _ _ _ _ _ H Hi HL H1) as (m2 & E & L1 & V1 & R1 & R2).
    rewrite E. cbn [bind].
    assert (Hseq : forall k, In k (seq 0 len) -> k < len) by (intros k Hk; apply in_seq in Hk; lia).
    destruct (sig_orders_lock _ _ _ _ _ _ _ _ _ _ g1 g2 _ _ _ _ H Hi Hseq L1 V1 Hb)
      as (st2' & E' & L' & A').
    exists st2'. rewrite R1, R2 in A'. auto.
  Qed.

  Lemma sig_bars_lock : forall draws t f1 f2 len i1 i2 fl sh g1 g2 l st1 st2 st1',
    sagree t f1 f2 len i1 i2 -> (forall i, In i l -> i < t) ->
    slock t f1 f2 len (snorej i1 t f1 len) st1 st2 ->
    foldM (sig_bar_step draws i1 fl sh g1 f1 len) st1 l = Ok st1' ->
    exists st2', foldM (sig_bar_step draws i2 fl sh g2 f2 len) st2 l = Ok st2' /\
      slock t f1 f2 len (snorej i1 t f1 len) st1' st2' /\
      appended f1 f2 (ss_rc st1) (ss_rc st1') (ss_rc st2) (ss_rc st2').
  Proof.
    intros draws t f1 f2 len i1 i2 fl sh g1 g2 l. induction l as [|i l IH];
      intros st1 st2 st1' H Hl HL Hf; cbn in Hf.
    - injection Hf as <-. exists st2. cbn. split; auto. split; auto. apply appended_refl.
    - apply bind_ok in Hf as (m1 & H1 & H2).
      assert (Hi : i < t) by (apply Hl; left; auto).
      destruct (sig_bar_lock _ _ _ _ _ _ _ _ _ _ g1 g2 _ _ _ H Hi HL H1) as (m2 & E & L' & A').
      destruct (IH m1 m2 st1' H) as (e2 & E2 & L2 & A2); auto.
      { intros. apply Hl; right; auto. }
      exists e2. cbn. rewrite E. cbn. split; auto. split; auto. eapply appended_trans; eauto.
  Qed.

  (** ** One run: what it touches and what it appends *)
  Record skept (f len : nat) st st' : Prop := mkSKept {
    sp_cols : forall c, outside f len c -> ss_cols st' c = ss_cols st c;
    sp_seq : forall i c, outside f len c -> ss_seq st' i c = ss_seq st i c;
    sp_max : rc_max_orders (ss_rc st') = rc_max_orders (ss_rc st) /\
             rc_max_logs (ss_rc st') = rc_max_logs (ss_rc st) }.

  Lemma skept_refl : forall f len st, skept f len st st.
  Proof. intros; constructor; auto. Qed.
  Lemma skept_trans : forall f len a b c, skept f len a b -> skept f len b c -> skept f len a c.
  Proof.
    intros f len a b c [P S [M1 M2]] [P' S' [M1' M2']].
    constructor; [..|split; congruence]; intros; rewrite ?P', ?S' by auto; auto.
  Qed.

  Lemma sig_order_step_one : forall draws inp fl sh i g f len st k st',
    k < len -> sig_order_step draws inp fl sh i g f len st k = Ok st' ->
    exists j, j < len /\ (sh = true -> j = ss_seq st i (f + k)) /\ (sh = false -> j = k) /\
      skept f len st st' /\ grown (fun c b => c = f + j /\ b = i) (ss_rc st) (ss_rc st') /\
      ss_seq st' = ss_seq st.
  Proof.
    intros draws inp fl sh i g f len st k st' Hk H. unfold sig_order_step in H.
    apply bind_ok in H as (col & Hp & H).
    apply pick_col_in in Hp as (j & Hj & -> & Ht & Hf); auto.
    destruct (neb _ zero).
    2:{ injection H as <-. exists j. split; auto. split; auto. split; auto. split; [apply skept_refl|].
        split; auto. apply grown_refl. }
    apply bind_ok in H as ([[r s'] rc'] & Hpr & H). injection H as <-.
    apply process_grown in Hpr as (G & M1 & M2).
    exists j. repeat split; auto; cbn.
    - intros. eapply fupd_kept; eauto.
    - apply G.
    - apply G.
  Qed.

  Lemma sig_prepare_cols : forall inp fl sh f len st i st',
    sig_prepare inp fl sh f len st i = Ok st' ->
    (forall c, outside f len c -> ss_cols st' c = ss_cols st c) /\
    ss_rc st' = ss_rc st /\ ss_cash st' = ss_cash st /\ ss_free st' = ss_free st /\
    (forall i' c, outside f len c \/ i' <> i -> ss_seq st' i' c = ss_seq st i' c).
  Proof.
    intros inp fl sh f len st i st' H. unfold sig_prepare in H.
    apply bind_ok in H as (c2 & H2 & H). injection H as <-.
    assert (C : forall c, outside f len c -> c2 c = ss_cols st c).
    { rewrite foldM_shift in H2. intros c Hc.
      eapply (foldM_inv _ _ (fun a => a c = ss_cols st c)); [| |exact H2].
      - intros a k a' Ha Hk Hs. apply in_seq in Hk. unfold signal_step in Hs.
        apply bind_ok in Hs as ([sp stops] & _ & Hs).
        destruct (pick_signals _ _ _ _ _ _) as [[s acc] [price slip]].
        apply bind_ok in Hs as ([[size stype] dir] & _ & Hs). injection Hs as <-.
        rewrite (fupd_kept _ _ f len k) by (auto; lia). auto.
      - rewrite seq_shift_fold.
        assert (G : forall l a, (forall k, In k l -> k < len) ->
          fold_left (fun a k => sig_price_step inp fl i a (f + k)) l a c = a c).
        { induction l as [|k l IH]; intros a Hl; cbn; auto. rewrite IH by (intros; apply Hl; right; auto).
          unfold sig_price_step. apply (fupd_kept _ _ f len k); auto. apply Hl; left; auto. }
        apply G. intros k Hk. apply in_seq in Hk; lia. }
    unfold sig_sort_step. destruct sh; cbn; auto. split; auto. split; auto. split; auto. split; auto.
    intros i' c Hc. destruct (auto_call_seq (sf_base fl)); auto. unfold set_slice.
    rewrite map_length, argsort_length, map_length, seq_length.
    destruct (Nat.eqb i' i && Nat.leb f c && Nat.ltb c (f + len))%bool eqn:E; auto.
    apply andb_prop in E as [E E3]. apply andb_prop in E as [E1 E2].
    apply Nat.eqb_eq in E1. apply Nat.leb_le in E2. apply Nat.ltb_lt in E3.
    destruct Hc as [Hc|Hc]; [|congruence]. unfold outside in Hc. lia.
  Qed.

  Lemma sig_bar_one : forall draws inp fl sh g f len st i st',
    sig_bar_step draws inp fl sh g f len st i = Ok st' ->
    skept f len st st' /\ grown (fun c b => f <= c < f + len /\ b = i) (ss_rc st) (ss_rc st') /\
    (forall i' c, i' <> i -> ss_seq st' i' c = ss_seq st i' c).
  Proof.
    intros draws inp fl sh g f len st i st' H. unfold sig_bar_step in H.
    apply bind_ok in H as (m & Hm & H).
    apply sig_prepare_cols in Hm as (C & R & _ & _ & S). rewrite <- R.
    assert (K : skept f len st m) by (constructor; auto; rewrite R; auto).
    eapply (foldM_inv _ _ (fun s => skept f len st s /\ grown (fun c b => f <= c < f + len /\ b = i) (ss_rc m) (ss_rc s) /\
      (forall i' c, i' <> i -> ss_seq s i' c = ss_seq st i' c))); [| |exact H].
    - intros s k s' (HK & HG & HS) Hk Hs. apply in_seq in Hk.
      apply sig_order_step_one in Hs as (j & Hj & _ & _ & K' & G' & S'); [|lia].
      split; [eapply skept_trans; eauto|]. split.
      + eapply grown_trans; [exact HG|]. eapply grown_weaken; [|exact G']. cbn. intros c b [-> ->]. lia.
      + intros. rewrite S'. auto.
    - split; auto. split; [apply grown_refl|]. auto.
  Qed.

  Lemma sig_bars_one : forall draws inp fl sh g f len l st st',
    foldM (sig_bar_step draws inp fl sh g f len) st l = Ok st' ->
    skept f len st st' /\ grown (fun c b => f <= c < f + len /\ In b l) (ss_rc st) (ss_rc st') /\
    (forall i c, ~ In i l -> ss_seq st' i c = ss_seq st i c).
  Proof.
    intros draws inp fl sh g f len l st st' H.
    eapply (foldM_inv _ _ (fun s => skept f len st s /\ grown (fun c b => f <= c < f + len /\ In b l) (ss_rc st) (ss_rc s) /\
      (forall i c, ~ In i l -> ss_seq s i c = ss_seq st i c)));
      [| |exact H].
    - intros s i s' (HK & HG & HS) Hi Hs. apply sig_bar_one in Hs as (K' & G' & S').
      split; [eapply skept_trans; eauto|]. split.
      + eapply grown_trans; [exact HG|]. eapply grown_weaken; [|exact G']. cbn. intros c b [? ->]. auto.
      + intros i' c Hi'. rewrite S' by (intros ->; auto). auto.
    - split; [apply skept_refl|]. split; [apply grown_refl|auto].
  Qed.
End SLock.
