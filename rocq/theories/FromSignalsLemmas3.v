(** * Simulation from signals: no look-ahead and independent groups *)
From Coq Require Import String ZArith Bool List Arith Lia.
From Verif Require Import Base Num Order OrderGen CallSeq Account Simulate SimSpec SimLemmas SimLemmas2
  CallSeqLemmas SimLemmas3 FromSignals FromSignalsSpec FromSignalsLemmas2.
Import ListNotations.
Local Open Scope nat_scope.
Local Open Scope list_scope.

Section SLook.
  Context {T : Type} {N : Num T}.
  Implicit Types (st : SSim T) (inp : SigInputs T).

  Definition swith_caps (mo ml : nat) st : SSim T :=
    mkSSim (ss_cash st) (ss_free st) (ss_value st) (ss_cols st)
      (ss_seq st) (mkRecs (rc_orders (ss_rc st)) (rc_logs (ss_rc st)) mo ml (rc_rng (ss_rc st))).

  (** [slock] without capacities. *)
  Record sagreeing (t f1 f2 len : nat) (nr : Prop) st1 st2 : Prop := mkSAgr {
    sg_cash : ss_cash st1 = ss_cash st2;
    sg_free : ss_free st1 = ss_free st2;
    sg_cols : cols_agree f1 f2 len (ss_cols st1) (ss_cols st2);
    sg_seq : forall i k, i < t -> k < len -> ss_seq st1 i (f1 + k) = ss_seq st2 i (f2 + k);
    sg_rng : rc_rng (ss_rc st1) = rc_rng (ss_rc st2) \/ nr }.

  Lemma sig_bars_agree : forall draws t f1 f2 len i1 i2 fl sh g1 g2 l st1 st2 st1' st2',
    sagree t f1 f2 len i1 i2 -> (forall i, In i l -> i < t) ->
    sagreeing t f1 f2 len (snorej i1 t f1 len) st1 st2 ->
    foldM (sig_bar_step draws i1 fl sh g1 f1 len) st1 l = Ok st1' ->
    foldM (sig_bar_step draws i2 fl sh g2 f2 len) st2 l = Ok st2' ->
    sagreeing t f1 f2 len (snorej i1 t f1 len) st1' st2' /\
    appended f1 f2 (ss_rc st1) (ss_rc st1') (ss_rc st2) (ss_rc st2').
  Proof.
    intros draws t f1 f2 len i1 i2 fl sh g1 g2 l st1 st2 st1' st2' H Hl [] H1 H2.
    pose (mo := rc_max_orders (ss_rc st1) + rc_max_orders (ss_rc st2) + length (rc_orders (ss_rc st2))).
    pose (ml := rc_max_logs (ss_rc st1) + rc_max_logs (ss_rc st2) + length (rc_logs (ss_rc st2))).
    assert (L1 : slock t f1 f2 len (snorej i1 t f1 len) st1 (swith_caps mo ml st2)).
    { constructor; cbn; auto. unfold room; cbn. subst mo ml. lia. }
    assert (L2 : slock t f2 f2 len (snorej i2 t f2 len) st2 (swith_caps mo ml st2)).
    { constructor; cbn; auto. - intros k _; auto. - unfold room; cbn. subst mo ml. lia. }
    destruct (sig_bars_lock _ _ _ _ _ _ _ _ _ g1 g2 _ _ _ _ H Hl L1 H1) as (e & E & M & A).
    assert (H' : sagree t f2 f2 len i2 i2) by (intros ? ? ? ?; constructor; auto).
    destruct (sig_bars_lock _ _ _ _ _ _ _ _ _ g2 g2 _ _ _ _ H' Hl L2 H2) as (e' & E' & M' & A').
    rewrite E in E'. injection E' as <-.
    destruct M as [a1 a2 a3 a4 a5 _], M' as [b1 b2 b3 b4 b5 _].
    split.
    - constructor; try congruence; intros.
      + intros k Hk. rewrite a3, b3; auto.
      + rewrite a4, b4; auto.
      + destruct a5 as [a5|]; auto. destruct b5 as [b5|b5]; [left; congruence|].
        right. intros i k Hi Hk. destruct (H i k Hi Hk) as [Ec _ _ _ _ _ _].
        apply cell_fields in Ec as (_ & _ & _ & _ & _ & E6). rewrite E6. apply b5; auto.
    - destruct A as [(x1 & x2 & P1 & P2 & P3) (y1 & y2 & Q1 & Q2 & Q3)].
      destruct A' as [(u1 & u2 & R1 & R2 & R3) (v1 & v2 & S1 & S2 & S3)]. cbn in *.
      rewrite P2 in R2. apply app_inv_head in R2 as <-.
      rewrite Q2 in S2. apply app_inv_head in S2 as <-.
      split; [exists x1, u1|exists y1, v1]; repeat split; auto; congruence.
  Qed.

  Record sbetween (nc t from : nat) (nr : Prop) st1 st2 : Prop := mkSBet {
    sb_cols : forall c, from <= c -> ss_cols st1 c = ss_cols st2 c;
    sb_seq : forall i c, i < t -> c < nc -> ss_seq st1 i c = ss_seq st2 i c;
    sb_rng : rc_rng (ss_rc st1) = rc_rng (ss_rc st2) \/ nr;
    sb_orders : map (order_view 0) (orders_before t (rc_orders (ss_rc st1))) =
                map (order_view 0) (orders_before t (rc_orders (ss_rc st2)));
    sb_logs : map (log_view 0) (logs_before t (rc_logs (ss_rc st1))) =
              map (log_view 0) (logs_before t (rc_logs (ss_rc st2))) }.

  Lemma sig_group_between : forall draws nc t n1 n2 from len i1 i2 fl sh g c st1 st2 st1' st2',
    sagree t from from len i1 i2 -> t <= n1 -> t <= n2 -> from + len <= nc ->
    sbetween nc t from (snorej i1 t from len) st1 st2 ->
    sig_group draws i1 fl sh n1 g from len c st1 = Ok st1' ->
    sig_group draws i2 fl sh n2 g from len c st2 = Ok st2' ->
    sbetween nc t (from + len) True st1' st2'.
  Proof.
    intros draws nc t n1 n2 from len i1 i2 fl sh g c st1 st2 st1' st2' H Hn1 Hn2 Hnc HB H1 H2.
    unfold sig_group in *.
    rewrite (seq_split t n1 Hn1), foldM_app in H1. apply bind_ok in H1 as (m1 & H1 & H1').
    rewrite (seq_split t n2 Hn2), foldM_app in H2. apply bind_ok in H2 as (m2 & H2 & H2').
    destruct HB as [b1 b5 b6 b7 b8].
    match type of H1 with foldM _ ?s _ = _ => set (s1 := s) in * end.
    match type of H2 with foldM _ ?s _ = _ => set (s2 := s) in * end.
    assert (Hl : forall i, In i (seq 0 t) -> i < t) by (intros i Hi; apply in_seq in Hi; lia).
    assert (A0 : sagreeing t from from len (snorej i1 t from len) s1 s2).
    { constructor; cbn; auto; intros.
      - intros k Hk. apply b1. lia.
      - apply b5; lia. }
    destruct (sig_bars_agree _ _ _ _ _ _ _ _ _ _ _ _ _ _ _ _ H Hl A0 H1 H2) as [[] A].
    destruct (sig_bars_one _ _ _ _ _ _ _ _ _ _ H1) as ([k1 k5 _] & G1 & _).
    destruct (sig_bars_one _ _ _ _ _ _ _ _ _ _ H2) as ([l1 l5 _] & G2 & _).
    destruct (sig_bars_one _ _ _ _ _ _ _ _ _ _ H1') as ([k1' k5' _] & G1' & R1).
    destruct (sig_bars_one _ _ _ _ _ _ _ _ _ _ H2') as ([l1' l5' _] & G2' & R2).
    assert (Hout : forall c, from + len <= c -> outside from len c) by (intros; right; auto).
    assert (HP : forall c b, from <= c < from + len /\ In b (seq 0 t) -> from <= c /\ b < t)
      by (intros ? ? [? Hb]; apply in_seq in Hb; lia).
    destruct (grown_before from _ _ _ _ _ t HP A G1 G2 b7 b8) as [Eo El].
    assert (HP' : forall n c b, from <= c < from + len /\ In b (seq t (n - t)) -> t <= b)
      by (intros n ? ? [? Hb]; apply in_seq in Hb; lia).
    destruct (grown_after _ _ _ t (HP' n1) G1') as [Eo1 El1].
    destruct (grown_after _ _ _ t (HP' n2) G2') as [Eo2 El2].
    constructor.
    - intros x Hx. rewrite k1', l1', k1, l1 by auto. cbn. apply b1; lia.
    - intros i x Hi Hxn.
      rewrite R1 by (intros C; apply in_seq in C; lia).
      rewrite R2 by (intros C; apply in_seq in C; lia).
      destruct (le_lt_dec from x) as [Hx|Hx]; [destruct (le_lt_dec (from + len) x) as [Hy|Hy]|].
      + rewrite k5, l5 by auto. cbn. auto.
      + replace x with (from + (x - from)) by lia. apply sg_seq0; auto. lia.
      + rewrite k5, l5 by (left; auto). cbn. auto.
    - auto.
    - rewrite Eo1, Eo2. exact Eo.
    - rewrite El1, El2. exact El.
  Qed.

  Lemma sig_groups_between : forall draws nc t n1 n2 i1 i2 fl sh lens from g init st1 st2 st1' st2',
    (forall i c, i < t -> c < from + sum_lens lens -> same_cell i1 i2 i c c) -> t <= n1 -> t <= n2 -> from + sum_lens lens <= nc ->
    (forall i c, i < t -> c < from + sum_lens lens -> gtb (in_reject_prob (si_base i1) i c) zero = false) \/
      (length lens <= 1 /\ rc_rng (ss_rc st1) = rc_rng (ss_rc st2)) ->
    sbetween nc t from True st1 st2 ->
    sig_groups draws i1 fl sh n1 g from lens init st1 = Ok st1' ->
    sig_groups draws i2 fl sh n2 g from lens init st2 = Ok st2' ->
    sbetween nc t (from + sum_lens lens) True st1' st2'.
  Proof.
    intros draws nc t n1 n2 i1 i2 fl sh lens. induction lens as [|len lens IH];
      intros from g init st1 st2 st1' st2' H Hn1 Hn2 Hnc Hr HB H1 H2; cbn in *.
    - injection H1 as <-. injection H2 as <-. rewrite Nat.add_0_r. auto.
    - destruct (nth_error init g) as [c|]; [|discriminate].
      apply bind_ok in H1 as (m1 & H1 & H1'). apply bind_ok in H2 as (m2 & H2 & H2').
      assert (B : sbetween nc t (from + len) True m1 m2).
      { eapply sig_group_between; [| | | | |exact H1|exact H2]; auto; [|lia|].
        - intros i k Hi Hk. apply H; lia.
        - destruct HB; constructor; auto. destruct Hr as [Hr|[_ Hr]]; auto. right.
          intros i k Hi Hk. apply Hr; lia. }
      rewrite Nat.add_assoc.
      destruct lens as [|l2 lens].
      + cbn in *. injection H1' as <-. injection H2' as <-. rewrite Nat.add_0_r. auto.
      + eapply IH; [| | | | | |exact H1'|exact H2']; auto.
        * intros; apply H; cbn in *; lia.
        * cbn in *; lia.
        * destruct Hr as [Hr|[Hr _]]; [left|cbn in Hr; lia]. intros; apply Hr; cbn in *; lia.
  Qed.

  Lemma sig_no_look_ahead : forall draws rng t n1 n2 ncols lens init i1 i2 fl mo1 ml1 mo2 ml2 o1 l1 s1 o2 l2 s2,
    (forall i c, i < t -> c < ncols -> same_cell i1 i2 i c c) -> t <= n1 -> t <= n2 ->
    (forall i c, i < t -> c < ncols -> gtb (in_reject_prob (si_base i1) i c) zero = false) \/ length lens <= 1 ->
    simulate_from_signal_func_nb draws rng n1 ncols lens init i1 fl mo1 ml1 = Ok (o1, l1, s1) ->
    simulate_from_signal_func_nb draws rng n2 ncols lens init i2 fl mo2 ml2 = Ok (o2, l2, s2) ->
    map (order_view 0) (orders_before t o1) = map (order_view 0) (orders_before t o2) /\
    map (log_view 0) (logs_before t l1) = map (log_view 0) (logs_before t l2) /\
    forall i c, i < t -> c < ncols -> s1 i c = s2 i c.
  Proof.
    intros draws rng t n1 n2 ncols lens init i1 i2 fl mo1 ml1 mo2 ml2 o1 l1 s1 o2 l2 s2 H Hn1 Hn2 Hr H1 H2.
    unfold simulate_from_signal_func_nb in *.
    apply raise_if_ok in H1 as [C1 H1]. apply raise_if_ok in H1 as [C2 H1].
    rewrite C1, C2 in H2. cbn [raise_if] in H2.
    apply bind_ok in H1 as (m1 & H1 & E1). apply bind_ok in H2 as (m2 & H2 & E2).
    injection E1 as <- <- <-. injection E2 as <- <- <-.
    apply negb_false_iff, Nat.eqb_eq in C1. subst ncols.
    assert (B0 : sbetween (sum_lens lens) t 0 True (sig_init i1 n1 (sum_lens lens) mo1 ml1 rng)
                                                 (sig_init i2 n2 (sum_lens lens) mo2 ml2 rng)).
    { constructor; cbn; auto. intros i c Hi Hc. destruct (H i c Hi Hc) as [E _ _ _ _ _ _]. unfold cell in E. congruence. }
    eapply sig_groups_between in H2; [| | | | | |exact B0|exact H1]; auto; [|destruct Hr; auto].
    destruct H2. auto.
  Qed.

  (** ** Groups *)

  Lemma sig_bar_lock_single : forall draws t f1 f2 i1 i2 fl i g1 g2 st1 st2 st1',
    sagree t f1 f2 1 i1 i2 -> i < t ->
    slock t f1 f2 1 (snorej i1 t f1 1) st1 st2 ->
    sig_bar_step draws i1 fl true g1 f1 1 st1 i = Ok st1' ->
    exists st2', sig_bar_step draws i2 fl false g2 f2 1 st2 i = Ok st2' /\
      slock t f1 f2 1 (snorej i1 t f1 1) st1' st2' /\
      appended f1 f2 (ss_rc st1) (ss_rc st1') (ss_rc st2) (ss_rc st2').
  Proof.
    intros draws t f1 f2 i1 i2 fl i g1 g2 st1 st2 st1' H Hi HL Hb. unfold sig_bar_step in *.
    apply bind_ok in Hb as (m1 & H1 & Hb).
    assert (P1 : exists p1, sig_prepare i1 fl false f1 1 st1 i = Ok p1 /\ m1 = sig_sort_step fl true i f1 1 p1).
    { unfold sig_prepare in *. apply bind_ok in H1 as (c2 & E & H1). rewrite E. cbn [bind].
      eexists. split; [reflexivity|]. cbn [sig_sort_step]. injection H1 as <-. reflexivity. }
    destruct P1 as (p1 & HP1 & ->). clear H1.
    destruct (sig_prepare_lock _ _ _ _ _ _ _ _ _ _ _ _ _ H Hi HL HP1) as (p2 & HP2 & [Kc Kf Kcols Ks Kr Kro] & _ & R1 & R2).
    rewrite HP2. cbn [bind].
    assert (E0 : forall f, f + 0 = f) by (intros; lia).
    cbn [seq foldM] in Hb. apply bind_ok in Hb as (st1'' & Hb & E). injection E as <-.
    unfold sig_order_step in Hb. apply bind_ok in Hb as (col & Hp & Hs).
    unfold pick_col in Hp. apply raise_if_ok in Hp as [Hlt Hp].
    match type of Hp with Ok ?a = Ok ?b => assert (Ecol : b = a) by congruence end. subst col. apply Nat.leb_gt in Hlt.
    match type of Hlt with ?x < 1 => assert (Hz : x = 0) by lia end. rewrite Hz in Hs.
    assert (SEQ : forall i' k, i' < t -> k < 1 ->
      ss_seq (sig_sort_step fl true i f1 1 p1) i' (f1 + k) = ss_seq p2 i' (f2 + k)).
    { intros i' k Hi' Hk. assert (k = 0) by lia. subst k. rewrite <- Ks by auto.
      cbn [sig_sort_step ss_seq] in *. destruct (auto_call_seq (sf_base fl)) eqn:Ea; auto.
      unfold set_slice in *. cbn [map seq insert_argsort_nb fold_left insert_back rev app snd length] in *.
      destruct (Nat.eqb_spec i' i) as [->|Hne]; cbn [andb]; auto.
      replace (f1 + 0 - f1) with 0 by lia. cbn [nth].
      match goal with |- (if ?c then _ else _) = _ => destruct c; auto end. }
    cbn [seq foldM]. unfold sig_order_step at 1. cbn [pick_col bind].
    change (ss_cols (sig_sort_step fl true i f1 1 p1)) with (ss_cols p1) in Hs.
    rewrite (Kcols 0 Nat.lt_0_1) in Hs.
    destruct (neb (c_size (ss_cols p2 (f2 + 0))) zero).
    2:{ injection Hs as <-. cbn [bind]. eexists. split; [reflexivity|]. split.
        - constructor; cbn [sig_sort_step ss_cash ss_free ss_cols ss_rc]; auto.
        - cbn [sig_sort_step ss_rc]. rewrite R1, R2. apply appended_refl. }
    apply bind_ok in Hs as ([[r s'] rc1'] & Hpr & Hs). injection Hs as <-.
    assert (ES : sig_order_state true (sig_sort_step fl true i f1 1 p1) (f1 + 0) = sig_order_state false p2 (f2 + 0)).
    { unfold sig_order_state. cbn [sig_sort_step ss_cash ss_free ss_cols ss_value].
      unfold get_group_value_nb. cbn [seq fold_left].
      pose proof (Kcols 0 Nat.lt_0_1) as K0.
      rewrite !E0 in *. rewrite Kc, Kf, K0. reflexivity. }
    rewrite ES in Hpr. rewrite (sig_order_agree _ _ _ _ _ _ _ _ _ H Hi (Nat.lt_0_1)) in Hpr.
    cbn [sig_sort_step ss_rc] in Hpr.
    eapply process_lock in Hpr as (rc2' & E & R' & A' & K').
    - rewrite E. cbn [bind].
      eexists. split; [reflexivity|]. split; [|rewrite <- R1, <- R2; exact A'].
      rewrite (sig_order_agree _ _ _ _ _ _ _ _ _ H Hi (Nat.lt_0_1)), (update_stops_agree _ _ _ _ _ _ _ _ _ _ _ _ _ _ H Hi (Nat.lt_0_1)).
      constructor; cbn [ss_cash ss_free ss_cols ss_seq ss_rc]; auto.
      + intros m Hm. apply (fupd_lock _ _ _ _ _ 1); auto.
      + destruct Kr; auto.
    - destruct Kr as [Kr|Kr]; [left|right]; auto. cbn.
      destruct (H i 0 Hi Nat.lt_0_1) as [Ec _ _ _ _ _ _]. apply cell_fields in Ec as (_ & _ & _ & _ & _ & E6).
      rewrite <- E6. apply Kr; auto.
    - exact Kro.
  Qed.

  Lemma sig_bars_lock_single : forall draws t f1 f2 i1 i2 fl g1 g2 l st1 st2 st1',
    sagree t f1 f2 1 i1 i2 -> (forall i, In i l -> i < t) ->
    slock t f1 f2 1 (snorej i1 t f1 1) st1 st2 ->
    foldM (sig_bar_step draws i1 fl true g1 f1 1) st1 l = Ok st1' ->
    exists st2', foldM (sig_bar_step draws i2 fl false g2 f2 1) st2 l = Ok st2' /\
      slock t f1 f2 1 (snorej i1 t f1 1) st1' st2' /\
      appended f1 f2 (ss_rc st1) (ss_rc st1') (ss_rc st2) (ss_rc st2').
  Proof.
    intros draws t f1 f2 i1 i2 fl g1 g2 l. induction l as [|i l IH]; intros st1 st2 st1' H Hl HL Hf; cbn [foldM] in Hf.
    - injection Hf as <-. exists st2. cbn. split; auto. split; auto. apply appended_refl.
    - apply bind_ok in Hf as (m1 & H1 & H2).
      assert (Hi : i < t) by (apply Hl; left; auto).
      destruct (sig_bar_lock_single _ _ _ _ _ _ _ _ g1 g2 _ _ _ H Hi HL H1) as (m2 & E & L' & A').
      destruct (IH m1 m2 st1' H) as (e2 & E2 & L2 & A2); auto.
      { intros. apply Hl; right; auto. }
      exists e2. cbn [foldM]. rewrite E. cbn [bind]. split; auto. split; auto. eapply appended_trans; eauto.
  Qed.

  Lemma sig_groups_one : forall draws inp fl sh nrows lens g from init st st',
    sig_groups draws inp fl sh nrows g from lens init st = Ok st' ->
    skept from (sum_lens lens) st st' /\
    grown (fun c b => from <= c < from + sum_lens lens /\ b < nrows) (ss_rc st) (ss_rc st').
  Proof.
    intros draws inp fl sh nrows lens. induction lens as [|len lens IH]; intros g from init st st' H; cbn in H.
    - injection H as <-. split; [apply skept_refl|apply grown_refl].
    - destruct (nth_error init g) as [c|]; [|discriminate].
      apply bind_ok in H as (m & H1 & H2). apply IH in H2 as [K2 G2].
      unfold sig_group in H1. apply sig_bars_one in H1 as (K1 & G1 & _).
      change (sum_lens (len :: lens)) with (len + sum_lens lens).
      split.
      + destruct K1 as [a1 a5 [a6 a7]], K2 as [b1 b5 [b6 b7]]. cbn in *.
        assert (O1 : forall c, outside from (len + sum_lens lens) c -> outside from len c) by (unfold outside; intros; lia).
        assert (O2 : forall c, outside from (len + sum_lens lens) c -> outside (from + len) (sum_lens lens) c)
          by (unfold outside; intros; lia).
        constructor; [..|split; congruence]; intros; rewrite ?b1, ?b5 by auto; auto.
      + cbn [ss_rc] in G1. eapply grown_trans.
        * eapply grown_weaken; [|exact G1]. cbn. intros c0 b [? Hb]. apply in_seq in Hb. lia.
        * eapply grown_weaken; [|exact G2]. cbn. intros c0 b [? Hb]. lia.
  Qed.

  Lemma sig_groups_app : forall draws inp fl sh nrows l1 l2 g from init st,
    sig_groups draws inp fl sh nrows g from (l1 ++ l2) init st =
    let! m := sig_groups draws inp fl sh nrows g from l1 init st in
    sig_groups draws inp fl sh nrows (g + length l1) (from + sum_lens l1) l2 init m.
  Proof.
    intros draws inp fl sh nrows l1. induction l1 as [|len l1 IH]; intros l2 g from init st; cbn.
    - rewrite !Nat.add_0_r. auto.
    - destruct (nth_error init g); auto. destruct (sig_group _ _ _ _ _ _ _ _ _ _) as [m|e]; cbn; auto.
      rewrite IH. destruct (sig_groups _ _ _ _ _ (S g) _ _ _ _); cbn; auto.
      f_equal; [lia|unfold sum_lens; lia].
  Qed.

  Lemma sig_group_independent : forall draws rng rng' nrows ncols lens init inp fl mo ml o l s g len cash from,
    never_random (si_base inp) ->
    simulate_from_signal_func_nb draws rng nrows ncols lens init inp fl (Some mo) ml = Ok (o, l, s) ->
    nth_error lens g = Some len -> nth_error init g = Some cash -> 0 < len ->
    from = sum_lens (firstn g lens) ->
    exists oa la sa,
      simulate_from_signal_func_nb draws rng' nrows len [len] [cash] (shift_sig from inp) fl (Some mo) ml
        = Ok (oa, la, sa) /\
      map (order_view from) (orders_in from len o) = map (order_view 0) oa /\
      map (log_view from) (logs_in from len l) = map (log_view 0) la.
  Proof.
    intros draws rng rng' nrows ncols lens init inp fl mo ml o l s g len cash from Hnr H Hg Hc Hlen Hfrom.
    unfold simulate_from_signal_func_nb in H.
    apply raise_if_ok in H as [C1 H]. apply raise_if_ok in H as [C2 H].
    apply bind_ok in H as (fin & H & E). injection E as <- <- <-.
    destruct (nth_error_split lens g Hg) as (l1 & l2 & El & Elg).
    assert (Ef : firstn g lens = l1).
    { rewrite El, <- Elg, firstn_app, Nat.sub_diag, firstn_all. cbn. apply app_nil_r. }
    rewrite Ef in Hfrom. subst from.
    rewrite El in H at 2. rewrite sig_groups_app in H. apply bind_ok in H as (m1 & H1 & H).
    rewrite Nat.add_0_l, Elg in H. cbn [sig_groups] in H. rewrite Hc in H.
    apply bind_ok in H as (m2 & H2 & H3).
    apply sig_groups_one in H1 as [K1 G1]. apply sig_groups_one in H3 as [K3 G3].
    rewrite !Nat.add_0_l in *.
    set (from := sum_lens l1) in *.
    unfold sig_group in H2.
    match type of H2 with foldM _ ?s _ = _ => set (s1 := s) in * end.
    pose (s2 := mkSSim cash cash (nan : T) (fun _ => mkCol zero zero nan nan zero zero Amount LongOnly nan no_stops)
                  (in_call_seq (shift_inputs from (si_base inp))) (mkRecs [] [] mo (if Nat.eqb ml 0 then 1 else ml) rng')).
    assert (Hag : sagree nrows from 0 len inp (shift_sig from inp)) by (intros i k _ _; constructor; reflexivity).
    assert (HL : slock nrows from 0 len (snorej inp nrows from len) s1 s2).
    { destruct K1 as [a1 a5 [a6 a7]]. cbn in *.
      assert (Ho : forall k, outside 0 from (from + k)) by (intros; right; lia).
      constructor; cbn; auto; intros.
      - intros k _. apply a1; auto.
      - right. intros i k _ _. apply Hnr.
      - unfold room. cbn. rewrite a6, a7. lia. }
    assert (Hl : forall i, In i (seq 0 nrows) -> i < nrows) by (intros i Hi; apply in_seq in Hi; lia).
    assert (RUN : exists m2', foldM (sig_bar_step draws (shift_sig from inp) fl (is_grouped [len]) 0 0 len) s2 (seq 0 nrows) = Ok m2' /\
              appended from 0 (ss_rc s1) (ss_rc m2) (ss_rc s2) (ss_rc m2')).
    { assert (Eg : is_grouped [len] = Nat.ltb 1 len) by (unfold is_grouped, existsb; apply orb_false_r).
      rewrite Eg. destruct (Nat.ltb 1 len) eqn:E1.
      - assert (Hgr : is_grouped lens = true).
        { unfold is_grouped. apply existsb_exists. exists len. split; auto. eapply nth_error_In; eauto. }
        rewrite Hgr in H2.
        destruct (sig_bars_lock _ _ _ _ _ _ _ _ _ g 0 _ _ _ _ Hag Hl HL H2) as (m & E & _ & A). eauto.
      - apply Nat.ltb_ge in E1. assert (len = 1) by lia. subst len.
        destruct (is_grouped lens).
        + destruct (sig_bars_lock_single _ _ _ _ _ _ _ g 0 _ _ _ _ Hag Hl HL H2) as (m & E & _ & A). eauto.
        + destruct (sig_bars_lock _ _ _ _ _ _ _ _ _ g 0 _ _ _ _ Hag Hl HL H2) as (m & E & _ & A). eauto. }
    destruct RUN as (m2' & ER & A).
    exists (rc_orders (ss_rc m2')), (rc_logs (ss_rc m2')), (ss_seq m2').
    split.
    { unfold simulate_from_signal_func_nb. cbn [sum_lens fold_right]. rewrite Nat.add_0_r, Nat.eqb_refl. cbn [negb raise_if length].
      assert (Ec : negb (Nat.eqb 1 (if is_grouped [len] then 1 else len)) = false).
      { unfold is_grouped, existsb. rewrite orb_false_r. destruct (Nat.ltb_spec 1 len); auto. assert (len = 1) by lia. subst. auto. }
      rewrite Ec. cbn [raise_if sig_groups nth_error]. unfold sig_group. cbn [sig_init ss_value ss_cols ss_seq ss_rc shift_sig si_base].
      fold s2. rewrite ER. reflexivity. }
    apply sig_bars_one in H2 as (_ & G2 & _).
    destruct A as [(x1 & x2 & E1 & E2 & E3) (y1 & y2 & E4 & E5 & E6)].
    destruct G1 as [(b1 & B1 & B2) (c1 & D1 & D2)], G2 as [(b2 & B3 & B4) (c2 & D3 & D4)],
             G3 as [(b3 & B5 & B6) (c3 & D5 & D6)]. cbn in B1, D1.
    rewrite E1 in B3. apply app_inv_head in B3 as <-. rewrite E4 in D3. apply app_inv_head in D3 as <-.
    cbn [s2 ss_rc rc_orders rc_logs app] in E2, E5.
    rewrite B5, E1, D5, E4. cbn [s1 ss_rc]. rewrite B1, D1. rewrite E2, E5.
    unfold orders_in, logs_in. rewrite !filter_app.
    rewrite (filter_none _ _ b1), (filter_all _ _ x1), (filter_none _ _ b3), app_nil_r.
    rewrite (filter_none _ _ c1), (filter_all _ _ y1), (filter_none _ _ c3), app_nil_r.
    - auto.
    - eapply Forall_impl; [|exact D6]. cbn. intros r Hr. apply in_cols_false. right. lia.
    - eapply Forall_impl; [|exact D4]. cbn. intros r Hr. apply in_cols_true. lia.
    - eapply Forall_impl; [|exact D2]. cbn. intros r Hr. apply in_cols_false. left. lia.
    - eapply Forall_impl; [|exact B6]. cbn. intros r Hr. apply in_cols_false. right. lia.
    - eapply Forall_impl; [|exact B4]. cbn. intros r Hr. apply in_cols_true. lia.
    - eapply Forall_impl; [|exact B2]. cbn. intros r Hr. apply in_cols_false. left. lia.
  Qed.
End SLook.
