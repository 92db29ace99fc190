(** * No look-ahead, group independence and order of records of simulations *)
From Coq Require Import ZArith Bool List Arith Lia Permutation.
From Verif Require Import Base Num Order OrderGen CallSeq Account Simulate SimSpec SimLemmas.
Import ListNotations.

Section SimLemmas2.
  Context {T : Type} {N : Num T}.
  Implicit Types (st : Sim T) (inp : Inputs T).

  Definition with_caps (mo ml : nat) st : Sim T :=
    mkSim (sm_cash st) (sm_free st) (sm_value st) (sm_pos st) (sm_debt st) (sm_vp st) (sm_price st)
      (sm_seq st) (mkRecs (rc_orders (sm_rc st)) (rc_logs (sm_rc st)) mo ml (rc_rng (sm_rc st))).

  (** [lock] without capacities. *)
  Record agreeing (t f1 f2 len : nat) (nr : Prop) st1 st2 : Prop := mkAgr {
    ag_cash : sm_cash st1 = sm_cash st2;
    ag_free : sm_free st1 = sm_free st2;
    ag_pos : forall k, k < len -> sm_pos st1 (f1 + k) = sm_pos st2 (f2 + k);
    ag_debt : forall k, k < len -> sm_debt st1 (f1 + k) = sm_debt st2 (f2 + k);
    ag_vp : forall k, k < len -> sm_vp st1 (f1 + k) = sm_vp st2 (f2 + k);
    ag_price : forall k, k < len -> sm_price st1 (f1 + k) = sm_price st2 (f2 + k);
    ag_seq : forall i k, i < t -> k < len -> sm_seq st1 i (f1 + k) = sm_seq st2 i (f2 + k);
    ag_rng : rc_rng (sm_rc st1) = rc_rng (sm_rc st2) \/ nr }.

  Lemma bars_agree : forall draws t f1 f2 len i1 i2 fl sh g1 g2 l st1 st2 st1' st2',
    agree t f1 f2 len i1 i2 -> (forall i, In i l -> i < t) ->
    agreeing t f1 f2 len (norej i1 t f1 len) st1 st2 ->
    foldM (bar_step draws i1 fl sh g1 f1 len) st1 l = Ok st1' ->
    foldM (bar_step draws i2 fl sh g2 f2 len) st2 l = Ok st2' ->
    agreeing t f1 f2 len (norej i1 t f1 len) st1' st2' /\
    appended f1 f2 (sm_rc st1) (sm_rc st1') (sm_rc st2) (sm_rc st2').
  Proof.
    intros draws t f1 f2 len i1 i2 fl sh g1 g2 l st1 st2 st1' st2' H Hl [] H1 H2.
    pose (mo := rc_max_orders (sm_rc st1) + rc_max_orders (sm_rc st2) + length (rc_orders (sm_rc st2))).
    pose (ml := rc_max_logs (sm_rc st1) + rc_max_logs (sm_rc st2) + length (rc_logs (sm_rc st2))).
    assert (L1 : lock t f1 f2 len (norej i1 t f1 len) st1 (with_caps mo ml st2)).
    { constructor; cbn; auto. unfold room; cbn. subst mo ml. lia. }
    assert (L2 : lock t f2 f2 len (norej i2 t f2 len) st2 (with_caps mo ml st2)).
    { constructor; cbn; auto. unfold room; cbn. subst mo ml. lia. }
    destruct (bars_lock _ _ _ _ _ _ _ _ _ g1 g2 _ _ _ _ H Hl L1 H1) as (e & E & M & A).
    assert (H' : agree t f2 f2 len i2 i2) by (intros ? ? ? ?; auto).
    destruct (bars_lock _ _ _ _ _ _ _ _ _ g2 g2 _ _ _ _ H' Hl L2 H2) as (e' & E' & M' & A').
    rewrite E in E'. injection E' as <-.
    destruct M as [a1 a2 a3 a4 a5 a6 a7 a8 _], M' as [b1 b2 b3 b4 b5 b6 b7 b8 _].
    split.
    - constructor; try congruence; intros.
      + rewrite a3, b3; auto. + rewrite a4, b4; auto. + rewrite a5, b5; auto.
      + rewrite a6, b6; auto. + rewrite a7, b7; auto.
      + destruct a8 as [a8|]; auto. destruct b8 as [b8|b8]; [left; congruence|].
        right. intros i k Hi Hk. pose proof (H i k Hi Hk) as Ec. unfold cell in Ec.
        injection Ec as ? ? ? ? ? ? ? ? ? ? E11 ? ? ? ? ? ? ?. rewrite E11. auto.
    - destruct A as [(x1 & x2 & P1 & P2 & P3) (y1 & y2 & Q1 & Q2 & Q3)].
      destruct A' as [(u1 & u2 & R1 & R2 & R3) (v1 & v2 & S1 & S2 & S3)]. cbn in *.
      rewrite P2 in R2. apply app_inv_head in R2 as <-.
      rewrite Q2 in S2. apply app_inv_head in S2 as <-.
      split; [exists x1, u1|exists y1, v1]; repeat split; auto; congruence.
  Qed.

  (** ** No look-ahead *)

  (** Between groups: the columns still to come agree, and so do the records
      of the first [t] bars. *)
  Record between (nc t from : nat) (nr : Prop) st1 st2 : Prop := mkBet {
    bt_pos : forall c, from <= c -> sm_pos st1 c = sm_pos st2 c;
    bt_debt : forall c, from <= c -> sm_debt st1 c = sm_debt st2 c;
    bt_vp : forall c, from <= c -> sm_vp st1 c = sm_vp st2 c;
    bt_price : forall c, from <= c -> sm_price st1 c = sm_price st2 c;
    bt_seq : forall i c, i < t -> c < nc -> sm_seq st1 i c = sm_seq st2 i c;
    bt_rng : rc_rng (sm_rc st1) = rc_rng (sm_rc st2) \/ nr;
    bt_orders : map (order_view 0) (orders_before t (rc_orders (sm_rc st1))) =
                map (order_view 0) (orders_before t (rc_orders (sm_rc st2)));
    bt_logs : map (log_view 0) (logs_before t (rc_logs (sm_rc st1))) =
              map (log_view 0) (logs_before t (rc_logs (sm_rc st2))) }.

  Lemma filter_all : forall A (p : A -> bool) l, Forall (fun x => p x = true) l -> filter p l = l.
  Proof. intros A p l H. induction H; cbn; auto. rewrite H. f_equal; auto. Qed.
  Lemma filter_none : forall A (p : A -> bool) l, Forall (fun x => p x = false) l -> filter p l = [].
  Proof. intros A p l H. induction H; cbn; auto. rewrite H. auto. Qed.

  Lemma order_view_0 : forall f (a1 a2 : list (OrderRec T)),
    Forall (fun r => f <= or_col r) a1 -> Forall (fun r => f <= or_col r) a2 ->
    map (order_view f) a1 = map (order_view f) a2 -> map (order_view 0) a1 = map (order_view 0) a2.
  Proof.
    intros f a1. induction a1 as [|x a1 IH]; intros [|y a2] F1 F2 E; cbn in *; try discriminate; auto.
    inversion F1; inversion F2; subst. injection E as E1 E2 E3 E4 E5 E6 E7. f_equal; auto.
    unfold order_view. rewrite E2, E3, E4, E5, E6. do 5 f_equal. lia.
  Qed.
  Lemma log_view_0 : forall f (a1 a2 : list (LogRec T)),
    Forall (fun r => f <= lg_col r) a1 -> Forall (fun r => f <= lg_col r) a2 ->
    map (log_view f) a1 = map (log_view f) a2 -> map (log_view 0) a1 = map (log_view 0) a2.
  Proof.
    intros f a1. induction a1 as [|x a1 IH]; intros [|y a2] F1 F2 E; cbn in *; try discriminate; auto.
    inversion F1; inversion F2; subst. injection E as E1 E2 E3 E4 E5 E6 E7. f_equal; auto.
    unfold log_view. rewrite E2, E3, E4, E5, E6. do 5 f_equal. lia.
  Qed.

  Lemma grown_before : forall f (P : nat -> nat -> Prop) (rc rc' rc2 rc2' : Recs T) t,
    (forall c b, P c b -> f <= c /\ b < t) ->
    appended f f rc rc' rc2 rc2' -> grown P rc rc' -> grown P rc2 rc2' ->
    map (order_view 0) (orders_before t (rc_orders rc)) = map (order_view 0) (orders_before t (rc_orders rc2)) ->
    map (log_view 0) (logs_before t (rc_logs rc)) = map (log_view 0) (logs_before t (rc_logs rc2)) ->
    map (order_view 0) (orders_before t (rc_orders rc')) = map (order_view 0) (orders_before t (rc_orders rc2')) /\
    map (log_view 0) (logs_before t (rc_logs rc')) = map (log_view 0) (logs_before t (rc_logs rc2')).
  Proof.
    intros f P rc rc' rc2 rc2' t HP [(x1 & x2 & E1 & E2 & E3) (y1 & y2 & E4 & E5 & E6)]
      [(a & A1 & A2) (b & B1 & B2)] [(c & C1 & C2) (d & D1 & D2)] Ho Hl.
    rewrite E1 in A1. apply app_inv_head in A1 as <-. rewrite E4 in B1. apply app_inv_head in B1 as <-.
    rewrite E2 in C1. apply app_inv_head in C1 as <-. rewrite E5 in D1. apply app_inv_head in D1 as <-.
    unfold orders_before, logs_before in *. rewrite E1, E2, E4, E5, !filter_app, !map_app, Ho, Hl.
    rewrite !(filter_all _ _ x1), !(filter_all _ _ x2), !(filter_all _ _ y1), !(filter_all _ _ y2).
    2-5: (eapply Forall_impl; [|eassumption]); cbn; intros r Hr; apply Nat.ltb_lt; apply (HP _ _ Hr).
    split; f_equal.
    - apply (order_view_0 f); auto; (eapply Forall_impl; [|eassumption]); cbn; intros r Hr; apply (HP _ _ Hr).
    - apply (log_view_0 f); auto; (eapply Forall_impl; [|eassumption]); cbn; intros r Hr; apply (HP _ _ Hr).
  Qed.

  Lemma grown_after : forall (P : nat -> nat -> Prop) (rc rc' : Recs T) t,
    (forall c b, P c b -> t <= b) -> grown P rc rc' ->
    orders_before t (rc_orders rc') = orders_before t (rc_orders rc) /\
    logs_before t (rc_logs rc') = logs_before t (rc_logs rc).
  Proof.
    intros P rc rc' t HP [(a & A1 & A2) (b & B1 & B2)]. unfold orders_before, logs_before.
    rewrite A1, B1, !filter_app.
    rewrite (filter_none _ _ a), (filter_none _ _ b), !app_nil_r; auto;
      (eapply Forall_impl; [|eassumption]); cbn; intros r Hr; apply Nat.ltb_ge; apply (HP _ _ Hr).
  Qed.

  (** The call sequence of rows other than the current one is not touched. *)
  Lemma bar_seq_rows : forall draws inp fl sh g f len st i st',
    bar_step draws inp fl sh g f len st i = Ok st' ->
    forall i' c, i' <> i -> sm_seq st' i' c = sm_seq st i' c.
  Proof.
    intros draws inp fl sh g f len st i st' H i' c Hi. unfold bar_step in H.
    assert (E : sm_seq st' = sm_seq (sort_step inp fl sh i f len (fold_left (price_step inp fl i) (seq f len) st))).
    { eapply (foldM_inv _ _ (fun s => sm_seq s = sm_seq (sort_step inp fl sh i f len (fold_left (price_step inp fl i) (seq f len) st))));
        [| |exact H]; auto.
      intros s k s' HS Hk Hs. apply in_seq in Hk. apply order_step_one in Hs as (j & _ & _ & _ & _ & _ & E); [|lia].
      congruence. }
    rewrite E. unfold sort_step. destruct sh; cbn.
    - destruct (price_step_rc inp fl i (seq f len) st) as (_ & E2 & _). cbv zeta in E2.
      destruct (auto_call_seq fl); cbn; [|rewrite E2; auto].
      unfold set_slice. apply Nat.eqb_neq in Hi. rewrite Hi. cbn. rewrite E2; auto.
    - destruct (price_step_rc inp fl i (seq f len) st) as (_ & E2 & _). cbv zeta in E2. rewrite E2; auto.
  Qed.

  Lemma bars_seq_rows : forall draws inp fl sh g f len l st st',
    foldM (bar_step draws inp fl sh g f len) st l = Ok st' ->
    forall i c, ~ In i l -> sm_seq st' i c = sm_seq st i c.
  Proof.
    intros draws inp fl sh g f len l. induction l as [|i l IH]; intros st st' H i' c Hi; cbn in H.
    - injection H as <-; auto.
    - apply bind_ok in H as (m & H1 & H2).
      rewrite (IH _ _ H2) by (intros C; apply Hi; right; auto).
      eapply bar_seq_rows; eauto. intros ->. apply Hi; left; auto.
  Qed.

  Lemma seq_split : forall t n, t <= n -> seq 0 n = seq 0 t ++ seq t (n - t).
  Proof. intros t n H. replace n with (t + (n - t)) at 1 by lia. apply seq_app. Qed.

  Lemma group_between : forall draws nc t n1 n2 from len i1 i2 fl sh g c st1 st2 st1' st2',
    agree t from from len i1 i2 -> t <= n1 -> t <= n2 -> from + len <= nc ->
    between nc t from (norej i1 t from len) st1 st2 ->
    sim_group draws i1 fl sh n1 g from len c st1 = Ok st1' ->
    sim_group draws i2 fl sh n2 g from len c st2 = Ok st2' ->
    between nc t (from + len) True st1' st2'.
  Proof.
    intros draws nc t n1 n2 from len i1 i2 fl sh g c st1 st2 st1' st2' H Hn1 Hn2 Hnc HB H1 H2.
    unfold sim_group in *.
    rewrite (seq_split t n1 Hn1), foldM_app in H1. apply bind_ok in H1 as (m1 & H1 & H1').
    rewrite (seq_split t n2 Hn2), foldM_app in H2. apply bind_ok in H2 as (m2 & H2 & H2').
    destruct HB as [b1 b2 b3 b4 b5 b6 b7 b8].
    match type of H1 with foldM _ ?s _ = _ => set (s1 := s) in * end.
    match type of H2 with foldM _ ?s _ = _ => set (s2 := s) in * end.
    assert (Hl : forall i, In i (seq 0 t) -> i < t) by (intros i Hi; apply in_seq in Hi; lia).
    assert (A0 : agreeing t from from len (norej i1 t from len) s1 s2).
    { constructor; cbn; auto; intros; auto with arith. apply b5; lia. }
    destruct (bars_agree _ _ _ _ _ _ _ _ _ _ _ _ _ _ _ _ H Hl A0 H1 H2) as [[] A].
    destruct (bars_one _ _ _ _ _ _ _ _ _ _ H1) as [[k1 k2 k3 k4 k5 _] G1].
    destruct (bars_one _ _ _ _ _ _ _ _ _ _ H2) as [[l1 l2 l3 l4 l5 _] G2].
    destruct (bars_one _ _ _ _ _ _ _ _ _ _ H1') as [[k1' k2' k3' k4' k5' _] G1'].
    destruct (bars_one _ _ _ _ _ _ _ _ _ _ H2') as [[l1' l2' l3' l4' l5' _] G2'].
    assert (Hout : forall c, from + len <= c -> outside from len c) by (intros; right; auto).
    assert (HP : forall c b, from <= c < from + len /\ In b (seq 0 t) -> from <= c /\ b < t)
      by (intros ? ? [? Hb]; apply in_seq in Hb; lia).
    destruct (grown_before from _ _ _ _ _ t HP A G1 G2 b7 b8) as [Eo El].
    assert (HP' : forall n c b, from <= c < from + len /\ In b (seq t (n - t)) -> t <= b)
      by (intros n ? ? [? Hb]; apply in_seq in Hb; lia).
    destruct (grown_after _ _ _ t (HP' n1) G1') as [Eo1 El1].
    destruct (grown_after _ _ _ t (HP' n2) G2') as [Eo2 El2].
    constructor.
    - intros x Hx. rewrite k1', l1', k1, l1 by auto. cbn. apply b1; lia.
    - intros x Hx. rewrite k2', l2', k2, l2 by auto. cbn. apply b2; lia.
    - intros x Hx. rewrite k3', l3', k3, l3 by auto. cbn. apply b3; lia.
    - intros x Hx. rewrite k4', l4', k4, l4 by auto. cbn. apply b4; lia.
    - intros i x Hi Hxn.
      rewrite (bars_seq_rows _ _ _ _ _ _ _ _ _ _ H1') by (intros C; apply in_seq in C; lia).
      rewrite (bars_seq_rows _ _ _ _ _ _ _ _ _ _ H2') by (intros C; apply in_seq in C; lia).
      destruct (le_lt_dec from x) as [Hx|Hx]; [destruct (le_lt_dec (from + len) x) as [Hy|Hy]|].
      + rewrite k5, l5 by auto. cbn. auto.
      + replace x with (from + (x - from)) by lia. apply ag_seq0; auto. lia.
      + rewrite k5, l5 by (left; auto). cbn. auto.
    - auto.
    - rewrite Eo1, Eo2. exact Eo.
    - rewrite El1, El2. exact El.
  Qed.

  Lemma between_weaken : forall nc t from (P Q : Prop) st1 st2,
    (P -> Q) -> between nc t from P st1 st2 -> between nc t from Q st1 st2.
  Proof. intros nc t from P Q st1 st2 HPQ []; constructor; auto. destruct bt_rng0; auto. Qed.

  Lemma groups_between : forall draws nc t n1 n2 i1 i2 fl sh lens from g init st1 st2 st1' st2',
    (forall i c, i < t -> c < from + sum_lens lens -> cell i1 i c = cell i2 i c) -> t <= n1 -> t <= n2 -> from + sum_lens lens <= nc ->
    (forall i c, i < t -> c < from + sum_lens lens -> gtb (in_reject_prob i1 i c) zero = false) \/
      (length lens <= 1 /\ rc_rng (sm_rc st1) = rc_rng (sm_rc st2)) ->
    between nc t from True st1 st2 ->
    sim_groups draws i1 fl sh n1 g from lens init st1 = Ok st1' ->
    sim_groups draws i2 fl sh n2 g from lens init st2 = Ok st2' ->
    between nc t (from + sum_lens lens) True st1' st2'.
  Proof.
    intros draws nc t n1 n2 i1 i2 fl sh lens. induction lens as [|len lens IH];
      intros from g init st1 st2 st1' st2' H Hn1 Hn2 Hnc Hr HB H1 H2; cbn in *.
    - injection H1 as <-. injection H2 as <-. rewrite Nat.add_0_r. auto.
    - destruct (nth_error init g) as [c|]; [|discriminate].
      apply bind_ok in H1 as (m1 & H1 & H1'). apply bind_ok in H2 as (m2 & H2 & H2').
      assert (B : between nc t (from + len) True m1 m2).
      { eapply group_between; [| | | | |exact H1|exact H2]; auto; [|lia|].
        - intros i k Hi Hk. apply H; lia.
        - destruct HB; constructor; auto. destruct Hr as [Hr|[_ Hr]]; auto. right.
          intros i k Hi Hk. apply Hr; lia. }
      rewrite Nat.add_assoc.
      destruct lens as [|l2 lens].
      + cbn in *. injection H1' as <-. injection H2' as <-. rewrite Nat.add_0_r. auto.
      + eapply IH; [| | | | | |exact H1'|exact H2']; auto.
        * intros; apply H; cbn in *; lia.
        * cbn in *; lia.
        * destruct Hr as [Hr|[Hr _]]; [left|cbn in Hr; lia]. intros; apply Hr; cbn in *; lia.
  Qed.

  Lemma no_look_ahead : forall draws rng t n1 n2 ncols lens init i1 i2 fl mo1 ml1 mo2 ml2 o1 l1 s1 o2 l2 s2,
    (forall i c, i < t -> c < ncols -> cell i1 i c = cell i2 i c) -> t <= n1 -> t <= n2 ->
    (forall i c, i < t -> c < ncols -> gtb (in_reject_prob i1 i c) zero = false) \/ length lens <= 1 ->
    simulate_from_orders_nb draws rng n1 ncols lens init i1 fl mo1 ml1 = Ok (o1, l1, s1) ->
    simulate_from_orders_nb draws rng n2 ncols lens init i2 fl mo2 ml2 = Ok (o2, l2, s2) ->
    map (order_view 0) (orders_before t o1) = map (order_view 0) (orders_before t o2) /\
    map (log_view 0) (logs_before t l1) = map (log_view 0) (logs_before t l2) /\
    forall i c, i < t -> c < ncols -> s1 i c = s2 i c.
  Proof.
    intros draws rng t n1 n2 ncols lens init i1 i2 fl mo1 ml1 mo2 ml2 o1 l1 s1 o2 l2 s2 H Hn1 Hn2 Hr H1 H2.
    unfold simulate_from_orders_nb in *.
    apply raise_if_ok in H1 as [C1 H1]. apply raise_if_ok in H1 as [C2 H1].
    rewrite C1, C2 in H2. cbn [raise_if] in H2.
    apply bind_ok in H1 as (m1 & H1 & E1). apply bind_ok in H2 as (m2 & H2 & E2).
    injection E1 as <- <- <-. injection E2 as <- <- <-.
    apply negb_false_iff, Nat.eqb_eq in C1. subst ncols.
    assert (B0 : between (sum_lens lens) t 0 True (sim_init i1 n1 (sum_lens lens) mo1 ml1 rng)
                                                 (sim_init i2 n2 (sum_lens lens) mo2 ml2 rng)).
    { constructor; cbn; auto. intros i c Hi Hc. pose proof (H i c Hi Hc) as E. unfold cell in E. congruence. }
    eapply groups_between in H2; [| | | | | |exact B0|exact H1]; auto; [|destruct Hr; auto].
    destruct H2. auto.
  Qed.
End SimLemmas2.
