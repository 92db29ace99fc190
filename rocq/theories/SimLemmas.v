(** * Two simulations in lockstep *)
From Coq Require Import ZArith Bool List Arith Lia.
From Verif Require Import Base Num Order OrderGen CallSeq Account Simulate SimSpec.
Import ListNotations.

Section Lock.
  Context {T : Type} {N : Num T}.
  Implicit Types (st : Sim T) (inp : Inputs T).

  Lemma execute_rng : forall draws k1 k2 (s : ProcState T) (o : Order T) es r k1',
    execute_order_nb draws k1 s o = Ok (es, r, k1') ->
    k1 = k2 \/ gtb (o_reject_prob o) zero = false ->
    exists k2', execute_order_nb draws k2 s o = Ok (es, r, k2') /\ (k1 = k2 -> k1' = k2').
  Proof.
    intros draws k1 k2 s o es r k1' H [<-|Hr]; [eauto|].
    unfold execute_order_nb in *.
    destruct (isnan (o_size o)); [injection H as <- <- <-; eauto|].
    destruct (isnan (o_price o)); [injection H as <- <- <-; eauto|].
    unfold check_state_order in *.
    repeat (apply raise_if_ok in H as [? H]).
    revert Hr.
    repeat match goal with E : _ = false |- _ => rewrite E; cbn [raise_if]; clear E end.
    intros Hr.
    apply bind_ok in H as (x & Hx & H). rewrite Hx. cbn [bind].
    destruct x as [[? ?]|[? ?]]; [injection H as <- <- <-; eauto|].
    apply bind_ok in H as (y & Hy & H). rewrite Hy. cbn [bind].
    rewrite Hr in *. injection H as -> <-. eauto.
  Qed.

  Definition room (rc1 rc2 : Recs T) : Prop :=
    rc_max_orders rc1 + length (rc_orders rc2) <= rc_max_orders rc2 + length (rc_orders rc1) /\
    rc_max_logs rc1 + length (rc_logs rc2) <= rc_max_logs rc2 + length (rc_logs rc1).

  (** What two runs append, columns counted from [f1] and [f2]. *)
  Definition appended (f1 f2 : nat) (rc1 rc1' rc2 rc2' : Recs T) : Prop :=
    (exists a1 a2, rc_orders rc1' = rc_orders rc1 ++ a1 /\ rc_orders rc2' = rc_orders rc2 ++ a2 /\
       map (order_view f1) a1 = map (order_view f2) a2) /\
    (exists a1 a2, rc_logs rc1' = rc_logs rc1 ++ a1 /\ rc_logs rc2' = rc_logs rc2 ++ a2 /\
       map (log_view f1) a1 = map (log_view f2) a2).

  Lemma appended_refl : forall f1 f2 rc1 rc2, appended f1 f2 rc1 rc1 rc2 rc2.
  Proof. intros. split; exists [], []; rewrite !app_nil_r; auto. Qed.

  Lemma appended_trans : forall f1 f2 a1 b1 c1 a2 b2 c2,
    appended f1 f2 a1 b1 a2 b2 -> appended f1 f2 b1 c1 b2 c2 -> appended f1 f2 a1 c1 a2 c2.
  Proof.
    intros f1 f2 a1 b1 c1 a2 b2 c2 [(x1 & x2 & E1 & E2 & E3) (y1 & y2 & E4 & E5 & E6)]
      [(u1 & u2 & F1 & F2 & F3) (v1 & v2 & F4 & F5 & F6)].
    split.
    - exists (x1 ++ u1), (x2 ++ u2). rewrite F1, F2, E1, E2, !app_assoc, !map_app. split; [|split]; congruence.
    - exists (y1 ++ v1), (y2 ++ v2). rewrite F4, F5, E4, E5, !app_assoc, !map_app. split; [|split]; congruence.
  Qed.

  Lemma process_lock : forall draws i f1 f2 k g1 g2 (s : ProcState T) u (o : Order T) rc1 rc2 r s' rc1',
    process_order_nb draws i (f1 + k) g1 s u o rc1 = Ok (r, s', rc1') ->
    (rc_rng rc1 = rc_rng rc2 \/ gtb (o_reject_prob o) zero = false) ->
    room rc1 rc2 ->
    exists rc2', process_order_nb draws i (f2 + k) g2 s u o rc2 = Ok (r, s', rc2') /\
      room rc1' rc2' /\ appended f1 f2 rc1 rc1' rc2 rc2' /\
      (rc_rng rc1 = rc_rng rc2 -> rc_rng rc1' = rc_rng rc2').
  Proof.
    intros draws i f1 f2 k g1 g2 s u o rc1 rc2 r s' rc1' H Hr [R1 R2].
    pose proof H as H0. unfold process_order_nb in H.
    apply bind_ok in H as ([[es r0] k1'] & He & H).
    destruct (execute_rng _ _ _ _ _ _ _ _ He Hr) as (k2' & He2 & Hk).
    apply raise_if_ok in H as [Hrej H].
    destruct (if is_filled r0 && u then _ else _)%bool as [nvp nv] eqn:Ev in H. cbv zeta in H.
    apply raise_if_ok in H as [Ho H]. apply raise_if_ok in H as [Hl H]. injection H as <- <- <-.
    unfold process_order_nb. rewrite He2. cbn [bind]. rewrite Hrej. cbn [raise_if]. rewrite Ev. cbv zeta.
    assert (Ho2 : (is_filled r0 && Nat.leb (rc_max_orders rc2) (length (rc_orders rc2)))%bool = false).
    { destruct (is_filled r0); auto. cbn in *. apply Nat.leb_gt in Ho. apply Nat.leb_gt. lia. }
    assert (Hl2 : (o_log o && Nat.leb (rc_max_logs rc2) (length (rc_logs rc2)))%bool = false).
    { destruct (o_log o); auto. cbn in *. apply Nat.leb_gt in Hl. apply Nat.leb_gt. lia. }
    rewrite Ho2, Hl2. cbn [raise_if].
    eexists. split; [reflexivity|]. split; [|split; [|exact Hk]].
    - unfold room. cbn. destruct (is_filled r0), (o_log o); rewrite ?app_length; cbn; lia.
    - unfold appended. cbn [rc_orders rc_logs]. split.
      + destruct (is_filled r0).
        * eexists [_], [_]. repeat split. cbn. unfold order_view; cbn. do 6 f_equal. lia.
        * exists [], []. rewrite !app_nil_r. auto.
      + destruct (o_log o).
        * eexists [_], [_]. repeat split. cbn. unfold log_view; cbn. do 6 f_equal. lia.
        * exists [], []. rewrite !app_nil_r. auto.
  Qed.

  (** States of two runs agreeing on their group's columns; [t] bars ahead. *)
  Record lock (t f1 f2 len : nat) (norej : Prop) st1 st2 : Prop := mkLock {
    lk_cash : sm_cash st1 = sm_cash st2;
    lk_free : sm_free st1 = sm_free st2;
    lk_pos : forall k, k < len -> sm_pos st1 (f1 + k) = sm_pos st2 (f2 + k);
    lk_debt : forall k, k < len -> sm_debt st1 (f1 + k) = sm_debt st2 (f2 + k);
    lk_vp : forall k, k < len -> sm_vp st1 (f1 + k) = sm_vp st2 (f2 + k);
    lk_price : forall k, k < len -> sm_price st1 (f1 + k) = sm_price st2 (f2 + k);
    lk_seq : forall i k, i < t -> k < len -> sm_seq st1 i (f1 + k) = sm_seq st2 i (f2 + k);
    lk_rng : rc_rng (sm_rc st1) = rc_rng (sm_rc st2) \/ norej;
    lk_room : room (sm_rc st1) (sm_rc st2) }.

  (** Initial states only need the values the loop does not overwrite first. *)
  Definition agree (t f1 f2 len : nat) (i1 i2 : Inputs T) : Prop :=
    forall i k, i < t -> k < len -> cell i1 i (f1 + k) = cell i2 i (f2 + k).

  Lemma fupd_lock : forall A (g1 g2 : nat -> A) f1 f2 len j v,
    j < len -> (forall k, k < len -> g1 (f1 + k) = g2 (f2 + k)) ->
    forall k, k < len -> fupd g1 (f1 + j) v (f1 + k) = fupd g2 (f2 + j) v (f2 + k).
  Proof.
    intros A g1 g2 f1 f2 len j v Hj H k Hk. unfold fupd.
    destruct (Nat.eqb_spec (f1 + k) (f1 + j)), (Nat.eqb_spec (f2 + k) (f2 + j)); auto; lia.
  Qed.

  Lemma store_vp_lock : forall fl (g1 g2 : nat -> T) f1 f2 len j v,
    j < len -> (forall k, k < len -> g1 (f1 + k) = g2 (f2 + k)) ->
    forall k, k < len -> store_val_price fl g1 (f1 + j) v (f1 + k) = store_val_price fl g2 (f2 + j) v (f2 + k).
  Proof.
    intros A g1 g2 f1 f2 len j v Hj H k Hk. unfold store_val_price.
    destruct (_ || _)%bool; auto. eapply fupd_lock; eauto.
  Qed.

  Lemma seq_shift_fold : forall A (f : A -> nat -> A) from len a,
    fold_left f (seq from len) a = fold_left (fun a k => f a (from + k)) (seq 0 len) a.
  Proof.
    intros A f from len a. replace from with (from + 0) at 1 by lia.
    generalize 0. revert a. induction len as [|len IH]; intros a n; cbn; auto.
    rewrite <- IH. f_equal. f_equal. lia.
  Qed.

  Lemma fold_left_rel : forall A B C (R : A -> B -> Prop) (f : A -> C -> A) (g : B -> C -> B) l a b,
    (forall a b c, In c l -> R a b -> R (f a c) (g b c)) -> R a b ->
    R (fold_left f l a) (fold_left g l b).
  Proof.
    intros A B C R f g. induction l as [|c l IH]; intros a b H HR; cbn; auto.
    apply IH; [|apply H; [left|]; auto]. intros. apply H; [right|]; auto.
  Qed.

  Lemma resolve_prices_agree : forall t f1 f2 len i1 i2 i k,
    agree t f1 f2 len i1 i2 -> i < t -> k < len ->
    resolve_price i1 i (f1 + k) = resolve_price i2 i (f2 + k) /\
    forall p, resolve_val_price i1 i (f1 + k) p = resolve_val_price i2 i (f2 + k) p.
  Proof.
    intros t f1 f2 len i1 i2 i k H Hi Hk.
    pose proof (H i k Hi Hk) as E. unfold cell in E. injection E as ? E2 ? ? ? ? ? ? ? ? ? ? ? ? ? E16 E17 ?.
    unfold resolve_price, resolve_val_price. rewrite E2, E16, E17. destruct i as [|i]; auto.
    assert (E' : in_close i1 i (f1 + k) = in_close i2 i (f2 + k)).
    { assert (Hi' : i < t) by lia. pose proof (H i k Hi' Hk) as E. unfold cell in E. congruence. }
    rewrite E'. auto.
  Qed.

  Lemma make_order_agree : forall t f1 f2 len i1 i2 i k p,
    agree t f1 f2 len i1 i2 -> i < t -> k < len ->
    make_order i1 i (f1 + k) p = make_order i2 i (f2 + k) p.
  Proof.
    intros t f1 f2 len i1 i2 i k p H Hi Hk.
    pose proof (H i k Hi Hk) as E. unfold cell in E. injection E as ? ? ? ? ? ? ? ? ? ? ? ? ? ? ? ? ? ?.
    unfold make_order. congruence.
  Qed.

  Lemma price_step_lock : forall t f1 f2 len nr i1 i2 fl i k st1 st2,
    agree t f1 f2 len i1 i2 -> i < t -> k < len -> lock t f1 f2 len nr st1 st2 ->
    lock t f1 f2 len nr (price_step i1 fl i st1 (f1 + k)) (price_step i2 fl i st2 (f2 + k)).
  Proof.
    intros t f1 f2 len nr i1 i2 fl i k st1 st2 H Hi Hk [].
    destruct (resolve_prices_agree _ _ _ _ _ _ _ _ H Hi Hk) as [E1 E2].
    constructor; cbn; auto.
    - rewrite E1, E2. apply store_vp_lock; auto.
    - rewrite E1. apply fupd_lock; auto.
  Qed.

  Lemma price_step_rc : forall inp fl i l st,
    let st' := fold_left (price_step inp fl i) l st in
    sm_rc st' = sm_rc st /\ sm_seq st' = sm_seq st /\ sm_pos st' = sm_pos st /\
    sm_debt st' = sm_debt st /\ sm_cash st' = sm_cash st /\ sm_free st' = sm_free st.
  Proof.
    intros inp fl i l. induction l as [|c l IH]; intros st; cbn; [repeat split|].
    destruct (IH (price_step inp fl i st c)) as (E1 & E2 & E3 & E4 & E5 & E6).
    rewrite E1, E2, E3, E4, E5, E6. repeat split.
  Qed.

  Lemma prices_lock : forall t f1 f2 len nr i1 i2 fl i st1 st2,
    agree t f1 f2 len i1 i2 -> i < t -> lock t f1 f2 len nr st1 st2 ->
    lock t f1 f2 len nr (fold_left (price_step i1 fl i) (seq f1 len) st1)
                        (fold_left (price_step i2 fl i) (seq f2 len) st2).
  Proof.
    intros t f1 f2 len nr i1 i2 fl i st1 st2 H Hi HL.
    rewrite (seq_shift_fold _ _ f1), (seq_shift_fold _ _ f2).
    apply (fold_left_rel _ _ _ (fun a b => lock t f1 f2 len nr a b)); auto.
    intros a b c Hc. apply in_seq in Hc. apply price_step_lock; auto. lia.
  Qed.

  Lemma group_value_lock : forall f1 f2 len c (p1 p2 v1 v2 : nat -> T),
    (forall k, k < len -> p1 (f1 + k) = p2 (f2 + k)) ->
    (forall k, k < len -> v1 (f1 + k) = v2 (f2 + k)) ->
    get_group_value_nb f1 len c p1 v1 = get_group_value_nb f2 len c p2 v2.
  Proof.
    intros f1 f2 len c p1 p2 v1 v2 Hp Hv. unfold get_group_value_nb.
    rewrite (seq_shift_fold _ _ f1), (seq_shift_fold _ _ f2).
    apply (fold_left_rel _ _ _ eq); auto.
    intros a b k Hk ->. apply in_seq in Hk. rewrite Hp, Hv by lia. auto.
  Qed.

  Lemma set_slice_lock : forall s1 s2 i f1 f2 len vals i' k,
    s1 i' (f1 + k) = s2 i' (f2 + k) -> k < len ->
    set_slice s1 i f1 vals i' (f1 + k) = set_slice s2 i f2 vals i' (f2 + k).
  Proof.
    intros s1 s2 i f1 f2 len vals i' k H Hk. unfold set_slice.
    replace (Nat.leb f1 (f1 + k)) with true by (symmetry; apply Nat.leb_le; lia).
    replace (Nat.leb f2 (f2 + k)) with true by (symmetry; apply Nat.leb_le; lia).
    replace (Nat.ltb (f2 + k) (f2 + length vals)) with (Nat.ltb (f1 + k) (f1 + length vals)).
    2:{ destruct (Nat.ltb_spec (f1 + k) (f1 + length vals)), (Nat.ltb_spec (f2 + k) (f2 + length vals)); auto; lia. }
    rewrite H. destruct (_ && _)%bool; auto. f_equal. lia.
  Qed.

  Lemma sort_lock : forall t f1 f2 len nr i1 i2 fl sh i st1 st2,
    agree t f1 f2 len i1 i2 -> i < t -> lock t f1 f2 len nr st1 st2 ->
    lock t f1 f2 len nr (sort_step i1 fl sh i f1 len st1) (sort_step i2 fl sh i f2 len st2) /\
    (sh = true -> sm_value (sort_step i1 fl sh i f1 len st1) = sm_value (sort_step i2 fl sh i f2 len st2)).
  Proof.
    intros t f1 f2 len nr i1 i2 fl [] i st1 st2 H Hi HL; [|split; [exact HL|discriminate]].
    destruct HL as [Lc Lf Lp Ld Lv Lpr Ls Lr Lro].
    assert (EV : get_group_value_nb f1 len (sm_cash st1) (sm_pos st1) (sm_vp st1)
               = get_group_value_nb f2 len (sm_cash st2) (sm_pos st2) (sm_vp st2))
      by (rewrite Lc; apply group_value_lock; auto).
    split; [|intros _; exact EV].
    constructor; cbn; auto.
    destruct (auto_call_seq fl); auto.
    intros i' k Hi' Hk. rewrite <- EV.
    match goal with |- set_slice _ _ _ (map snd (insert_argsort_nb ?a)) _ _ = set_slice _ _ _ (map snd (insert_argsort_nb ?b)) _ _ =>
      assert (EM : a = b) end.
    { apply map_ext_in. intros j Hj. apply in_seq in Hj.
      pose proof (H i j Hi ltac:(lia)) as E. unfold cell in E. injection E as ? ? ? ? ? ? ? ? ? ? ? ? ? ? ? ? ? ?.
      rewrite Lp, Lv, Ls by lia. congruence. }
    rewrite EM. eapply set_slice_lock; eauto.
  Qed.

  Definition norej (inp : Inputs T) (t f len : nat) : Prop :=
    forall i k, i < t -> k < len -> gtb (in_reject_prob inp i (f + k)) zero = false.

  Lemma order_step_lock : forall draws t f1 f2 len i1 i2 fl sh i g1 g2 k st1 st2 st1',
    agree t f1 f2 len i1 i2 -> i < t -> k < len ->
    lock t f1 f2 len (norej i1 t f1 len) st1 st2 -> (sh = true -> sm_value st1 = sm_value st2) ->
    order_step draws i1 fl sh i g1 f1 len st1 k = Ok st1' ->
    exists st2', order_step draws i2 fl sh i g2 f2 len st2 k = Ok st2' /\
      lock t f1 f2 len (norej i1 t f1 len) st1' st2' /\ (sh = true -> sm_value st1' = sm_value st2') /\
      appended f1 f2 (sm_rc st1) (sm_rc st1') (sm_rc st2) (sm_rc st2').
  Proof.
    intros draws t f1 f2 len i1 i2 fl sh i g1 g2 k st1 st2 st1' H Hi Hk [Lc Lf Lp Ld Lv Lpr Ls Lr Lro] HV Hs.
    unfold order_step in *. apply bind_ok in Hs as (col & Hp & Hs).
    assert (Hpk : exists j, j < len /\ col = f1 + j /\ pick_col sh (sm_seq st2) i f2 len k = Ok (f2 + j)).
    { unfold pick_col in *. destruct sh.
      - apply raise_if_ok in Hp as [Hlt Hp]. injection Hp as <-. apply Nat.leb_gt in Hlt.
        eexists. split; [exact Hlt|]. split; auto. rewrite <- Ls by auto.
        apply Nat.leb_gt in Hlt. rewrite Hlt. reflexivity.
      - injection Hp as <-. eauto. }
    destruct Hpk as (j & Hj & -> & ->). cbn [bind].
    apply bind_ok in Hs as ([[r s'] rc1'] & Hpr & Hs). injection Hs as <-.
    assert (ES : order_state sh st1 (f1 + j) = order_state sh st2 (f2 + j)).
    { unfold order_state. rewrite Lc, Lf, Lp, Ld, Lv by auto. destruct sh; [rewrite HV by auto|]; auto. }
    rewrite ES, (make_order_agree _ _ _ _ _ _ _ _ _ H Hi Hj), Lpr in Hpr by auto.
    eapply process_lock in Hpr as (rc2' & E & R' & A' & K'); [rewrite E|..].
    - cbn [bind]. eexists. split; [reflexivity|]. split; [|split; [reflexivity|exact A']].
      constructor; cbn; auto.
      + apply fupd_lock; auto.
      + apply fupd_lock; auto.
      + apply store_vp_lock; auto.
      + destruct Lr; auto.
    - destruct Lr as [Lr|Lr]; auto. right. cbn.
      pose proof (H i j Hi Hj) as E. unfold cell in E. injection E as ? ? ? ? ? ? ? ? ? ? E11 ? ? ? ? ? ? ?.
      rewrite <- E11. apply Lr; auto.
    - exact Lro.
  Qed.

  Lemma orders_lock : forall draws t f1 f2 len i1 i2 fl sh i g1 g2 l st1 st2 st1',
    agree t f1 f2 len i1 i2 -> i < t -> (forall k, In k l -> k < len) ->
    lock t f1 f2 len (norej i1 t f1 len) st1 st2 -> (sh = true -> sm_value st1 = sm_value st2) ->
    foldM (order_step draws i1 fl sh i g1 f1 len) st1 l = Ok st1' ->
    exists st2', foldM (order_step draws i2 fl sh i g2 f2 len) st2 l = Ok st2' /\
      lock t f1 f2 len (norej i1 t f1 len) st1' st2' /\
      appended f1 f2 (sm_rc st1) (sm_rc st1') (sm_rc st2) (sm_rc st2').
  Proof.
    intros draws t f1 f2 len i1 i2 fl sh i g1 g2 l. induction l as [|k l IH];
      intros st1 st2 st1' H Hi Hl HL HV Hf; cbn in Hf.
    - injection Hf as <-. exists st2. cbn. split; auto. split; auto. apply appended_refl.
    - apply bind_ok in Hf as (m1 & H1 & H2).
      assert (Hk : k < len) by (apply Hl; left; auto).
      destruct (order_step_lock _ _ _ _ _ _ _ _ _ _ g1 g2 _ _ _ _ H Hi Hk HL HV H1) as (m2 & E & L' & V' & A').
      destruct (IH m1 m2 st1' H Hi) as (e2 & E2 & L2 & A2); auto.
      { intros. apply Hl; right; auto. }
      exists e2. cbn. rewrite E. cbn. split; auto. split; auto. eapply appended_trans; eauto.
  Qed.

  Lemma sort_rc : forall inp fl sh i f len st, sm_rc (sort_step inp fl sh i f len st) = sm_rc st.
  Proof. intros inp fl [] i f len st; reflexivity. Qed.

  Lemma bar_lock : forall draws t f1 f2 len i1 i2 fl sh i g1 g2 st1 st2 st1',
    agree t f1 f2 len i1 i2 -> i < t ->
    lock t f1 f2 len (norej i1 t f1 len) st1 st2 ->
    bar_step draws i1 fl sh g1 f1 len st1 i = Ok st1' ->
    exists st2', bar_step draws i2 fl sh g2 f2 len st2 i = Ok st2' /\
      lock t f1 f2 len (norej i1 t f1 len) st1' st2' /\
      appended f1 f2 (sm_rc st1) (sm_rc st1') (sm_rc st2) (sm_rc st2').
  Proof.
    intros draws t f1 f2 len i1 i2 fl sh i g1 g2 st1 st2 st1' H Hi HL Hb. unfold bar_step in *.
    pose proof (prices_lock _ _ _ _ _ _ _ fl _ _ _ H Hi HL) as HL1.
    destruct (sort_lock _ _ _ _ _ _ _ fl sh _ _ _ H Hi HL1) as [HL2 HV2].
    assert (Hseq : forall k, In k (seq 0 len) -> k < len) by (intros k Hk; apply in_seq in Hk; lia).
    destruct (orders_lock _ _ _ _ _ _ _ _ _ _ g1 g2 _ _ _ _ H Hi Hseq HL2 HV2 Hb)
      as (st2' & E & L' & A').
    exists st2'. split; auto. split; auto.
    rewrite !sort_rc in A'.
    destruct (price_step_rc i1 fl i (seq f1 len) st1) as [E1 _].
    destruct (price_step_rc i2 fl i (seq f2 len) st2) as [E2 _].
    cbv zeta in E1, E2. rewrite E1, E2 in A'. exact A'.
  Qed.

  Lemma bars_lock : forall draws t f1 f2 len i1 i2 fl sh g1 g2 l st1 st2 st1',
    agree t f1 f2 len i1 i2 -> (forall i, In i l -> i < t) ->
    lock t f1 f2 len (norej i1 t f1 len) st1 st2 ->
    foldM (bar_step draws i1 fl sh g1 f1 len) st1 l = Ok st1' ->
    exists st2', foldM (bar_step draws i2 fl sh g2 f2 len) st2 l = Ok st2' /\
      lock t f1 f2 len (norej i1 t f1 len) st1' st2' /\
      appended f1 f2 (sm_rc st1) (sm_rc st1') (sm_rc st2) (sm_rc st2').
  Proof.
    intros draws t f1 f2 len i1 i2 fl sh g1 g2 l. induction l as [|i l IH];
      intros st1 st2 st1' H Hl HL Hf; cbn in Hf.
    - injection Hf as <-. exists st2. cbn. split; auto. split; auto. apply appended_refl.
    - apply bind_ok in Hf as (m1 & H1 & H2).
      assert (Hi : i < t) by (apply Hl; left; auto).
      destruct (bar_lock _ _ _ _ _ _ _ _ _ _ g1 g2 _ _ _ H Hi HL H1) as (m2 & E & L' & A').
      destruct (IH m1 m2 st1' H) as (e2 & E2 & L2 & A2); auto.
      { intros. apply Hl; right; auto. }
      exists e2. cbn. rewrite E. cbn. split; auto. split; auto. eapply appended_trans; eauto.
  Qed.

  (** ** One run: what it touches and what it appends *)

  (** Columns outside the group keep their state. *)
  Definition outside (f len : nat) (c : nat) : Prop := c < f \/ f + len <= c.
  Record kept (f len : nat) st st' : Prop := mkKept {
    kp_pos : forall c, outside f len c -> sm_pos st' c = sm_pos st c;
    kp_debt : forall c, outside f len c -> sm_debt st' c = sm_debt st c;
    kp_vp : forall c, outside f len c -> sm_vp st' c = sm_vp st c;
    kp_price : forall c, outside f len c -> sm_price st' c = sm_price st c;
    kp_seq : forall i c, outside f len c -> sm_seq st' i c = sm_seq st i c;
    kp_max : rc_max_orders (sm_rc st') = rc_max_orders (sm_rc st) /\
             rc_max_logs (sm_rc st') = rc_max_logs (sm_rc st) }.

  Lemma kept_refl : forall f len st, kept f len st st.
  Proof. intros; constructor; auto. Qed.
  Lemma kept_trans : forall f len a b c, kept f len a b -> kept f len b c -> kept f len a c.
  Proof.
    intros f len a b c [P D V O S [M1 M2]] [P' D' V' O' S' [M1' M2']].
    constructor; [..|split; congruence]; intros; rewrite ?P', ?D', ?V', ?O', ?S' by auto; auto.
  Qed.

  (** Records appended, all satisfying [P] (column, bar). *)
  Definition grown (P : nat -> nat -> Prop) (rc rc' : Recs T) : Prop :=
    (exists a, rc_orders rc' = rc_orders rc ++ a /\ Forall (fun r => P (or_col r) (or_idx r)) a) /\
    (exists a, rc_logs rc' = rc_logs rc ++ a /\ Forall (fun r => P (lg_col r) (lg_idx r)) a).

  Lemma grown_refl : forall P rc, grown P rc rc.
  Proof. intros; split; exists []; rewrite app_nil_r; auto. Qed.
  Lemma grown_trans : forall P a b c, grown P a b -> grown P b c -> grown P a c.
  Proof.
    intros P a b c [(x & E & F) (y & E2 & F2)] [(u & E3 & F3) (v & E4 & F4)].
    split; [exists (x ++ u)|exists (y ++ v)]; rewrite ?E3, ?E4, ?E, ?E2, <- app_assoc;
      split; auto; apply Forall_app; auto.
  Qed.
  Lemma grown_weaken : forall (P Q : nat -> nat -> Prop) a b,
    (forall c i, P c i -> Q c i) -> grown P a b -> grown Q a b.
  Proof.
    intros P Q a b H [(x & E & F) (y & E2 & F2)]. split; [exists x|exists y]; split; auto;
      eapply Forall_impl; eauto; cbn; auto.
  Qed.

  Lemma process_grown : forall draws i col g (s : ProcState T) u o rc r s' rc',
    process_order_nb draws i col g s u o rc = Ok (r, s', rc') ->
    grown (fun c j => c = col /\ j = i) rc rc' /\
    rc_max_orders rc' = rc_max_orders rc /\ rc_max_logs rc' = rc_max_logs rc.
  Proof.
    intros draws i col g s u o rc r s' rc' H.
    apply process_order_inv in H as (es & _ & _ & _ & _ & _ & Ho & Hl & _ & _ & M1 & M2).
    split; [|auto]. unfold grown. rewrite Ho, Hl.
    split; [destruct (is_filled r)|destruct (o_log o)];
      try (exists []; rewrite app_nil_r; auto; fail); eexists [_]; split; auto.
  Qed.

  Lemma fupd_kept : forall A (g : nat -> A) f len j v c, j < len -> outside f len c ->
    fupd g (f + j) v c = g c.
  Proof. intros A g f len j v c Hj Ho. apply fupd_other. unfold outside in Ho. lia. Qed.

  Lemma pick_col_in : forall sh sq i f len k col, pick_col sh sq i f len k = Ok col -> k < len ->
    exists j, j < len /\ col = f + j /\ (sh = true -> j = sq i (f + k)) /\ (sh = false -> j = k).
  Proof.
    intros [] sq i f len k col H Hk; unfold pick_col in H.
    - apply raise_if_ok in H as [Hlt H]. injection H as <-. apply Nat.leb_gt in Hlt.
      eexists; repeat split; eauto; discriminate.
    - injection H as <-. exists k; repeat split; auto; discriminate.
  Qed.

  Lemma order_step_one : forall draws inp fl sh i g f len st k st',
    k < len -> order_step draws inp fl sh i g f len st k = Ok st' ->
    exists j, j < len /\ (sh = true -> j = sm_seq st i (f + k)) /\ (sh = false -> j = k) /\
      kept f len st st' /\ grown (fun c b => c = f + j /\ b = i) (sm_rc st) (sm_rc st') /\
      sm_seq st' = sm_seq st.
  Proof.
    intros draws inp fl sh i g f len st k st' Hk H. unfold order_step in H.
    apply bind_ok in H as (col & Hp & H). apply bind_ok in H as ([[r s'] rc'] & Hpr & H). injection H as <-.
    apply pick_col_in in Hp as (j & Hj & -> & Ht & Hf); auto.
    apply process_grown in Hpr as (G & M1 & M2).
    exists j. repeat split; auto; cbn.
    - intros. eapply fupd_kept; eauto.
    - intros. eapply fupd_kept; eauto.
    - intros. unfold store_val_price. destruct (_ || _)%bool; auto. eapply fupd_kept; eauto.
    - apply G.
    - apply G.
  Qed.

  Lemma price_fold_kept : forall inp fl i f len st,
    kept f len st (fold_left (price_step inp fl i) (seq f len) st).
  Proof.
    intros inp fl i f len st. rewrite seq_shift_fold.
    assert (G : forall l a, (forall k, In k l -> k < len) -> kept f len st a ->
      kept f len st (fold_left (fun a k => price_step inp fl i a (f + k)) l a)).
    { induction l as [|k l IH]; intros a Hl HK; cbn; auto.
      apply IH; [intros; apply Hl; right; auto|]. eapply kept_trans; [exact HK|].
      assert (Hk : k < len) by (apply Hl; left; auto).
      constructor; cbn; auto; intros.
      - unfold store_val_price. destruct (_ || _)%bool; auto. eapply fupd_kept; eauto.
      - eapply fupd_kept; eauto. }
    apply G; [intros k Hk; apply in_seq in Hk; lia|apply kept_refl].
  Qed.

  Lemma argsort_length : forall l : list (T * nat), length (insert_argsort_nb l) = length l.
  Proof.
    intros l. unfold insert_argsort_nb. rewrite rev_length.
    assert (I : forall x r, length (insert_back x r) = S (length r)).
    { intros x r. induction r as [|y r IH]; cbn; auto. destruct (goes_after _ _); cbn; auto. }
    assert (G : forall (l r : list (T * nat)), length (fold_left (fun r x => insert_back x r) l r) = length l + length r).
    { clear l. induction l as [|x l IH]; intros r; cbn; auto. rewrite IH, I. lia. }
    rewrite G. cbn. lia.
  Qed.

  Lemma sort_kept : forall inp fl sh i f len st, kept f len st (sort_step inp fl sh i f len st).
  Proof.
    intros inp fl [] i f len st; [|apply kept_refl]. constructor; cbn; auto.
    intros i' c Hc. destruct (auto_call_seq fl); auto. unfold set_slice.
    rewrite map_length, argsort_length, map_length, seq_length.
    destruct (Nat.eqb i' i && Nat.leb f c && Nat.ltb c (f + len))%bool eqn:E; auto.
    apply andb_prop in E as [E E3]. apply andb_prop in E as [_ E2].
    apply Nat.leb_le in E2. apply Nat.ltb_lt in E3. unfold outside in Hc. lia.
  Qed.

  Lemma bar_one : forall draws inp fl sh g f len st i st',
    bar_step draws inp fl sh g f len st i = Ok st' ->
    kept f len st st' /\ grown (fun c b => f <= c < f + len /\ b = i) (sm_rc st) (sm_rc st').
  Proof.
    intros draws inp fl sh g f len st i st' H. unfold bar_step in H.
    assert (E : sm_rc (sort_step inp fl sh i f len (fold_left (price_step inp fl i) (seq f len) st)) = sm_rc st).
    { rewrite sort_rc. apply (price_step_rc inp fl i (seq f len) st). }
    rewrite <- E.
    assert (K : kept f len st (sort_step inp fl sh i f len (fold_left (price_step inp fl i) (seq f len) st)))
      by (eapply kept_trans; [apply price_fold_kept|apply sort_kept]).
    eapply (foldM_inv _ _ (fun s => kept f len st s /\ grown (fun c b => f <= c < f + len /\ b = i)
      (sm_rc (sort_step inp fl sh i f len (fold_left (price_step inp fl i) (seq f len) st))) (sm_rc s))); [| |exact H].
    - intros s k s' [HK HG] Hk Hs. apply in_seq in Hk.
      apply order_step_one in Hs as (j & Hj & _ & _ & K' & G' & _); [|lia].
      split; [eapply kept_trans; eauto|]. eapply grown_trans; [exact HG|].
      eapply grown_weaken; [|exact G']. cbn. intros c b [-> ->]. lia.
    - split; auto. apply grown_refl.
  Qed.

  Lemma bars_one : forall draws inp fl sh g f len l st st',
    foldM (bar_step draws inp fl sh g f len) st l = Ok st' ->
    kept f len st st' /\ grown (fun c b => f <= c < f + len /\ In b l) (sm_rc st) (sm_rc st').
  Proof.
    intros draws inp fl sh g f len l st st' H.
    eapply (foldM_inv _ _ (fun s => kept f len st s /\ grown (fun c b => f <= c < f + len /\ In b l) (sm_rc st) (sm_rc s)));
      [| |exact H].
    - intros s i s' [HK HG] Hi Hs. apply bar_one in Hs as (K' & G').
      split; [eapply kept_trans; eauto|]. eapply grown_trans; [exact HG|].
      eapply grown_weaken; [|exact G']. cbn. intros c b [? ->]. auto.
    - split; [apply kept_refl|apply grown_refl].
  Qed.
End Lock.
