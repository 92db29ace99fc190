(** * Simulation from signals: the prices of the orders of a bar *)
From Coq Require Import String ZArith QArith Bool List Arith Lia.
From Verif Require Import Base Num MathNb OrdLaws Order OrderGen XQFacts CallSeq Account Simulate SimSpec SimLemmas SimLemmas2
  CallSeqLemmas SimLemmas3 SimLemmas4 FromSignals FromSignalsSpec FromSignalsLemmas FromSignalsLemmas2 FromSignalsLemmas4
  FromSignalsLemmas5.
Import ListNotations.
Local Open Scope nat_scope.
Local Open Scope list_scope.

Section SPrice.
  Context {T : Type} {N : Num T}.
  Implicit Types (st : SSim T) (inp : SigInputs T) (fl : SigFlags) (c : Col T).

  Definition priced (price slip : T) (r : OrderResult T) : Prop :=
    is_filled r = true ->
    r_side r = Some Buy /\ r_price r = mul price (add one slip) \/
    r_side r = Some Sell /\ r_price r = mul price (sub one slip).

  Lemma priced_nf : forall es os info price slip es' r, os <> Filled ->
    not_filled es os info = Ok (es', r) -> priced price slip r.
  Proof.
    intros es os info price slip es' r Hst H. unfold not_filled in H. injection H as <- <-.
    intros F. unfold is_filled in F. cbn in F. destruct os; discriminate || congruence.
  Qed.

  Ltac nfp H := eapply priced_nf; [|exact H]; discriminate.

  Lemma buy_nb_price : forall es sz price dir f ff slip mn mx gran lock allow pct es' r,
    buy_nb es sz price dir f ff slip mn mx gran lock allow pct = Ok (es', r) -> priced price slip r.
  Proof.
    intros es sz price dir f ff slip mn mx gran lock allow pct es' r H.
    unfold buy_nb in H. cbv zeta in H. apply bind_ok in H as (cl & _ & H).
    destruct (_ && _)%bool in H; [nfp H|].
    destruct (_ && _)%bool in H; [discriminate|].
    destruct (_ && _)%bool in H; [nfp H|].
    destruct (eqb _ zero) in H; [nfp H|].
    destruct (_ && _)%bool in H; [nfp H|].
    apply bind_ok in H as (adj & _ & H).
    unfold buy_sized in H. apply bind_ok in H as (am & _ & H).
    destruct am as [[[fs fee] req]|]; [|nfp H].
    destruct (is_close_nb adj zero); [nfp H|].
    destruct (is_less_nb fs mn); [nfp H|].
    destruct (_ && _)%bool in H; [nfp H|].
    unfold buy_fill in H. cbv zeta in H. apply bind_ok in H as (df & _ & H). injection H as _ <-.
    intros _. left. auto.
  Qed.

  Lemma sell_nb_price : forall es sz price dir f ff slip mn mx gran lock allow pct es' r,
    sell_nb es sz price dir f ff slip mn mx gran lock allow pct = Ok (es', r) -> priced price slip r.
  Proof.
    intros es sz price dir f ff slip mn mx gran lock allow pct es' r H.
    unfold sell_nb in H. cbv zeta in H. apply bind_ok in H as (lim & Hlim & H).
    destruct lim as [info|[sl p']]; [nfp H|].
    destruct (_ && _)%bool in H; [nfp H|].
    unfold sell_sized in H.
    destruct (_ && _)%bool in H; [discriminate|].
    destruct (_ && _)%bool in H; [nfp H|].
    apply bind_ok in H as (z & _ & H).
    destruct (is_close_nb z zero); [nfp H|].
    destruct (is_less_nb z mn); [nfp H|].
    destruct (_ && _)%bool in H; [nfp H|].
    unfold sell_fill in H. cbv zeta in H.
    destruct (ltb _ zero) in H; [nfp H|].
    destruct (if ltb (add_nb (es_position es) _) zero then _ else _) as [nd nfc] in H.
    injection H as _ <-. intros _. right. auto.
  Qed.

  Lemma execute_price : forall draws k (s : ProcState T) (o : Order T) es' r k',
    execute_order_nb draws k s o = Ok (es', r, k') -> priced (o_price o) (o_slippage o) r.
  Proof.
    intros draws k s o es' r k' H. unfold execute_order_nb in H. cbv zeta in H.
    assert (Hnf : forall os info, os <> Filled -> r = order_not_filled os info -> priced (o_price o) (o_slippage o) r).
    { intros os info Hst -> F. unfold is_filled in F. cbn in F. destruct os; discriminate || congruence. }
    destruct (isnan (o_size o)); [injection H as _ <- _; eapply Hnf; eauto; discriminate|].
    destruct (isnan (o_price o)); [injection H as _ <- _; eapply Hnf; eauto; discriminate|].
    unfold check_state_order in H.
    do 14 (apply raise_if_ok in H; destruct H as [_ H]).
    apply bind_ok in H as (rs & Hrs & H).
    destruct rs as [[st info]|[osz pct]].
    { injection H as _ <- _. eapply Hnf; eauto.
      unfold resolve_size in Hrs. cbv zeta in Hrs.
      destruct (resolve_target_percent _ _ _) as [e|[s1 t1]] eqn:E1.
      - injection Hrs as ->. unfold resolve_target_percent in E1.
        destruct (o_size_type o); try discriminate.
        destruct (isnan _); [injection E1 as <- <-; discriminate|].
        destruct (leb _ _); [injection E1 as <- <-; discriminate|discriminate].
      - apply bind_ok in Hrs as (r' & Hr & H). destruct r' as [e|[s2 t2]]; [|discriminate].
        injection H as ->. unfold resolve_value in Hr.
        destruct t1; try discriminate.
        + destruct (_ || _)%bool; [discriminate|]. destruct (isnan _); [injection Hr as <- <-; discriminate|].
          apply bind_ok in Hr as (? & _ & C); discriminate.
        + destruct (_ || _)%bool; [discriminate|]. destruct (isnan _); [injection Hr as <- <-; discriminate|].
          apply bind_ok in Hr as (? & _ & C); discriminate. }
    apply bind_ok in H as ([es1 r1] & Hbs & H).
    assert (Ho : priced (o_price o) (o_slippage o) r1).
    { unfold buy_or_sell in Hbs. destruct (gtb osz zero);
      eauto using buy_nb_price, sell_nb_price. }
    destruct (gtb (o_reject_prob o) zero).
    - destruct (ltb (draws k) (o_reject_prob o)).
      + injection H as _ <- _. eapply Hnf; eauto; discriminate.
      + injection H as _ <- _. exact Ho.
    - injection H as _ <- _. exact Ho.
  Qed.

  Definition fills_at (price slip : T) (r : OrderRec T) : Prop :=
    or_side r = Some Buy /\ or_price r = mul price (add one slip) \/
    or_side r = Some Sell /\ or_price r = mul price (sub one slip).

  Lemma sig_order_step_price : forall draws inp fl sh i g f len st k st' col,
    sig_order_step draws inp fl sh i g f len st k = Ok st' ->
    c_price (ss_cols st' col) = c_price (ss_cols st col) /\ c_slip (ss_cols st' col) = c_slip (ss_cols st col) /\
    exists a, rc_orders (ss_rc st') = rc_orders (ss_rc st) ++ a /\
      Forall (fun r => or_col r = col -> or_idx r = i /\ fills_at (c_price (ss_cols st col)) (c_slip (ss_cols st col)) r) a.
  Proof.
    intros draws inp fl sh i g f len st k st' col H. unfold sig_order_step in H.
    apply bind_ok in H as (j & _ & H).
    destruct (neb _ zero); [|injection H as <-; split; auto; split; auto; exists []; rewrite app_nil_r; auto].
    apply bind_ok in H as ([[r s'] rc'] & Hp & H). injection H as <-. cbn [ss_cols ss_rc].
    apply process_order_inv in Hp as (es & He & _ & Es & _ & _ & Ho & _).
    split; [unfold fupd; destruct (Nat.eqb_spec col j) as [<-|]; auto|].
    split; [unfold fupd; destruct (Nat.eqb_spec col j) as [<-|]; auto|].
    apply execute_price in He. cbn [make_sig_order o_price o_slippage] in He.
    destruct (is_filled r) eqn:Er.
    - eexists. split; [exact Ho|]. constructor; auto. cbn [or_col or_idx]. intros <-.
      split; auto. apply He in Er. exact Er.
    - exists []. rewrite app_nil_r. auto.
  Qed.

  Lemma sig_orders_price : forall draws inp fl sh i g f len col l st st',
    foldM (sig_order_step draws inp fl sh i g f len) st l = Ok st' ->
    exists a, rc_orders (ss_rc st') = rc_orders (ss_rc st) ++ a /\
      Forall (fun r => or_col r = col -> or_idx r = i /\ fills_at (c_price (ss_cols st col)) (c_slip (ss_cols st col)) r) a.
  Proof.
    intros draws inp fl sh i g f len col l. induction l as [|k l IH]; intros st st' H; cbn [foldM] in H.
    - injection H as <-. exists []. rewrite app_nil_r. auto.
    - apply bind_ok in H as (m & H1 & H2).
      destruct (sig_order_step_price _ _ _ _ _ _ _ _ _ _ _ col H1) as (P1 & P2 & a & E & F).
      destruct (IH _ _ H2) as (b & E2 & F2). rewrite P1, P2 in F2.
      exists (a ++ b). rewrite E2, E, app_assoc. split; auto. apply Forall_app; auto.
  Qed.

  (** A bar: the column before its signals, after them, and its orders. *)
  Lemma sig_bar_price : forall draws inp fl sh g f len st i st' col,
    sig_bar_step draws inp fl sh g f len st i = Ok st' -> f <= col < f + len ->
    exists cash free cols cols' a,
      signal_step inp fl i cash free cols col = Ok cols' /\
      c_pos (cols col) = c_pos (ss_cols st col) /\ c_stops (cols col) = c_stops (ss_cols st col) /\
      rc_orders (ss_rc st') = rc_orders (ss_rc st) ++ a /\
      Forall (fun r => or_col r = col -> or_idx r = i /\ fills_at (c_price (cols' col)) (c_slip (cols' col)) r) a.
  Proof.
    intros draws inp fl sh g f len st i st' col H Hcol.
    unfold sig_bar_step, sig_prepare in H. apply bind_ok in H as (m & H1 & H).
    apply bind_ok in H1 as (cols & H1 & E). injection E as <-.
    match type of H with foldM _ (sig_sort_step _ _ _ _ _ ?s) _ = _ => set (s0 := s) in * end.
    assert (Rc : ss_rc (sig_sort_step fl sh i f len s0) = ss_rc st) by (rewrite sig_sort_rc; reflexivity).
    assert (Cc : ss_cols (sig_sort_step fl sh i f len s0) = cols) by (destruct sh; reflexivity).
    destruct (signals_col inp fl i (ss_cash st) (ss_free st) col (seq f len) _ _ (seq_NoDup _ _) (proj2 (in_seq _ _ _) Hcol) H1) as (a & a' & S1 & S2 & S3).
    destruct (prices_col inp fl i col (seq f len) (ss_cols st)) as [P1 P2]. cbv zeta in *.
    rewrite <- S2 in P1, P2.
    apply sig_orders_price with (col := col) in H as (x & E & F).
    rewrite Rc in E. rewrite Cc, S3 in F.
    exists (ss_cash st), (ss_free st), a, a', x. auto.
  Qed.
End SPrice.

(** With a limit stop that triggers, whatever is filled is filled at the stop
    price. *)
Lemma limit_stop_fills : forall draws (inp : SigInputs XQ) fl sh g f len st i st' col sd o l h p,
  sig_bar_step draws inp fl sh g f len st i = Ok st' -> f <= col < f + len ->
  use_stops fl = true -> si_adjust_sl inp = no_adjust_sl -> si_adjust_tp inp = no_adjust_tp ->
  on_side (c_pos (ss_cols st col)) sd -> sd <> Flat ->
  resolve_bar inp i col = (o, l, h) -> leb l o = true -> leb o h = true ->
  si_exit_price inp i col = StopLimit ->
  let s := c_stops (ss_cols st col) in
  triggers sd true (sl_curr_price s) (sl_curr_stop s) o l h (Fin p) \/
  (silent sd true (sl_curr_price s) (sl_curr_stop s) l h /\
   triggers sd false (tp_init_price s) (tp_curr_stop s) o l h (Fin p)) ->
  exists a, rc_orders (ss_rc st') = rc_orders (ss_rc st) ++ a /\
    Forall (fun r => or_col r = col -> or_idx r = i /\ exists q, or_price r = Fin q /\ (q == p)%Q) a.
Proof.
  intros draws inp fl sh g f len st i st' col sd o l h p H Hcol Hu A1 A2 Hs Hf Hb Hlo Hoh He s Ht.
  destruct (sig_bar_price _ _ _ _ _ _ _ _ _ _ _ H Hcol) as (cash & free & cols & cols' & a & S1 & P1 & P2 & E & F).
  exists a. split; auto.
  rewrite <- P1 in Hs.
  pose proof (stop_decides _ _ _ _ _ _ _ _ _ _ _ _ S1 Hu A1 A2 eq_refl Hs Hf Hb Hlo Hoh) as [D _]. cbv zeta in D.
  rewrite P2 in D. fold s in D. destruct (D (Fin p) Ht) as [_ D2]. rewrite He in D2. cbn in D2.
  injection D2 as D2 D3. rewrite D2, D3 in F.
  eapply Forall_impl; [|exact F]. cbn beta. intros r Hr Hc. destruct (Hr Hc) as [Hi Hfl]. split; auto.
  destruct Hfl as [[_ ->]|[_ ->]]; eexists; (split; [reflexivity|]); rewrite !Qred_correct; unfold inject_Z; ring.
Qed.
