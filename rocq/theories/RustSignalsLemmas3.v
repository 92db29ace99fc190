(** * From signals: exact numbers and doubles *)
From Coq Require Import ZArith QArith Bool List String Arith Lia.
From Flocq Require Import BinarySingleNaN.
From Verif Require Import Base Num B64 OrdLaws XQFacts MathNb Order OrderSpec CallSeq Account Simulate FromSignals ExecFacts FillFacts
  OrderLemmas OrderGen FillView RustOrder RustSim RustLemmas RustLawsXQ RustLemmas2 RustLawsB64 RustLemmas3 RustSpec RustSimLemmas
  RustSimLemmas2 RustSignals RustSignalsSpec RustSignalsLemmas RustSignalsLemmas2.
Import ListNotations.
Open Scope list_scope.
Local Open Scope nat_scope.

(** ** Doubles *)
Lemma minus_one_f64 : b64_ofZ (-1) = @neg _ B64num (@one _ B64num).
Proof. apply B2SF_inj. vm_compute. reflexivity. Qed.

Lemma flip_f64 : forall x : f64, b64_eqb x (b64_ofZ 0) = false -> b64_eqb (b64_mul x (b64_ofZ (-1))) (b64_ofZ 0) = false.
Proof. intros x H. rewrite minus_one_f64. destruct (@rl_flip _ B64num B64rust B64rustlaws x) as (_ & E & _). etransitivity; [exact E|exact H]. Qed.

Lemma signals_agree_f64 : forall draws rng nrows ncols lens init_cash a (inp : SigInputs f64) fl max_orders max_logs,
  comparable_signals_f64 nrows ncols (si_base inp) (auto_call_seq (sf_base fl)) ->
  (forall n, In n lens -> 0 < n) ->
  let nb := @simulate_from_signals_nb _ B64num draws rng nrows ncols lens init_cash a inp fl max_orders max_logs in
  nb = Err ZeroDivision \/
  @rs_simulate_from_signals _ B64num B64rust draws rng nrows ncols lens init_cash a inp (use_stops fl) (auto_call_seq (sf_base fl))
    (ffill_val_price (sf_base fl)) (update_value (sf_base fl)) max_orders max_logs = rust_outcome nb.
Proof.
  intros draws rng nrows ncols lens ic a inp fl mo ml [Hg Hl Ha] Hn.
  apply (@signals_agree _ B64num B64rust B64rustlaws draws rng nrows ncols lens ic a inp fl mo ml (fun _ => True) (fun _ => True)); auto.
  intros st i col _ Hi Hc [S1 S2] Hz. apply order_ok_f64. constructor; cbn [make_sig_order o_size_granularity o_lock_cash o_size_type o_size].
  - apply Hg; auto.
  - left. apply Hl; auto.
  - intros _. destruct (is_short_only _); [apply flip_f64|]; exact Hz.
  - intros E. cbn in E. rewrite E in S1. discriminate.
Qed.

(** ** Exact numbers *)
Lemma not_zero : forall q, eqb (Fin q) zero = false -> nonzero_number (Fin q).
Proof. intros q H. exists q. split; auto. intros Hq. apply Qeq_bool_iff in Hq. cbn in H. unfold inject_Z in H. congruence. Qed.

Section XQRun.
  Variables (nrows ncols : nat) (init_cash : list XQ) (inp : SigInputs XQ) (a : SigArrays) (fl : SigFlags) (lens : list nat).
  Hypothesis HC : comparable_signals nrows ncols init_cash (si_base inp) (auto_call_seq (sf_base fl)).
  Definition ssh : bool := is_grouped lens.
  Let inp' := with_signals (fun i col _ _ => merge_signals a (in_direction (si_base inp)) i col) inp.

  Record SPG (st : SSim XQ) : Prop := mkSPG {
    spg_pos : forall c, a_number (c_pos (ss_cols st c)); spg_debt : forall c, a_number (c_debt (ss_cols st c)) }.
  Record SP (st : SSim XQ) : Prop := mkSP {
    sp_pg : SPG st; sp_cash : cashlike (ss_cash st); sp_free : cashlike (ss_free st) }.

  Lemma sx_size : forall st i col, i < nrows -> col < ncols -> sized inp i (ss_cols st) col ->
    eqb (c_size (ss_cols st col)) zero = false ->
    let o := make_sig_order inp' i col (ss_cols st col) in
    (o_size_type o = Percent -> o_size o = NaN \/ nonzero_number (o_size o)) /\ o_size_type o <> TargetPercent.
  Proof.
    intros st i col Hi Hc [S1 S2] Hz o. unfold o, make_sig_order; cbn [o_size o_size_type]. split.
    - intros E. destruct (S2 E) as [Ep Es]. pose proof (cs_percent _ _ _ _ _ HC i col Hi Hc Ep) as Hinf.
      assert (Hs : c_size (ss_cols st col) = NaN \/ nonzero_number (c_size (ss_cols st col))).
      { destruct Es as [Es|[Es|Es]]; [rewrite Es in Hz; discriminate| |];
          (destruct (in_size (si_base inp) i col) as [| | |q];
           [|exfalso; apply Hinf; left; reflexivity|exfalso; apply Hinf; right; reflexivity|]; cbn in Es; [left; auto|]);
          rewrite Es in Hz |- *; right; apply not_zero; exact Hz. }
      destruct (is_short_only _); [|exact Hs].
      destruct Hs as [->|(q & -> & Hq)]; [left; reflexivity|]. right. eexists. split; [reflexivity|].
      rewrite Qred_correct. intros Hq'. apply Hq. apply (Qmult_integral_l (inject_Z (-1))); [discriminate|]. rewrite Qmult_comm. exact Hq'.
    - intros E. rewrite E in S1. discriminate.
  Qed.

  Lemma sx_comparable : forall st i col, SP st -> i < nrows -> col < ncols -> sized inp i (ss_cols st) col ->
    eqb (c_size (ss_cols st col)) zero = false ->
    comparable (sig_order_state ssh st col) (make_sig_order inp' i col (ss_cols st col)).
  Proof.
    intros st i col HP Hi Hc Hs Hz. destruct (sx_size st i col Hi Hc Hs Hz) as [H1 H2].
    constructor; [exact H1|intros E; contradiction|].
    cbn. destruct HP as [_ _ [[q ->]| ->]]; discriminate.
  Qed.

  Lemma sx_order : forall draws st i group from len k st', SP st -> i < nrows -> from + len <= ncols -> k < len ->
    (forall col, from <= col < from + len -> sized inp i (ss_cols st) col) ->
    sig_order_step draws inp' fl ssh i group from len st k = Ok st' -> SP st'.
  Proof.
    intros draws st i group from len k st' HP Hi Hl Hk Hz H. unfold sig_order_step in H.
    apply bind_ok in H as (col & Hcol & H). cbv zeta in H.
    assert (Hc : from <= col < from + len).
    { unfold pick_col in Hcol. destruct ssh; [apply raise_if_ok in Hcol as [E1 Hcol]; apply Nat.leb_gt in E1|];
        injection Hcol as <-; lia. }
    unfold neb in H at 1. destruct (eqb (c_size (ss_cols st col)) zero) eqn:Ez; cbn [negb] in H.
    { injection H as <-. destruct HP as [[H1 H2] H3 H4]. constructor; auto. constructor; auto. }
    apply bind_ok in H as ([[r s'] rc'] & Hpr & H). injection H as <-.
    set (o := make_sig_order inp' i col (ss_cols st col)) in *.
    apply process_order_inv in Hpr as (es & He & _ & Hs & _).
    destruct (sx_size st i col Hi ltac:(lia) (Hz col Hc) Ez) as [C1 C2]. fold o in C1, C2.
    destruct HP as [[H1 H2] H4 H5].
    assert (Hreg : o_size o = NaN \/ regular o (snap (ps_value (sig_order_state ssh st col)))).
    { unfold regular. destruct (o_size_type o) eqn:Et; auto. }
    assert (Hfi : fine false (snap_state (sig_order_state ssh st col))).
    { constructor; cbn.
      - destruct (H1 col) as [q ->]. apply snap_num.
      - destruct (H2 col) as [q ->]. apply snap_num.
      - apply snap_cashlike; auto.
      - apply snap_cashlike; auto.
      - discriminate. }
    assert (Hfe : forall f, o_fees o = Fin f -> (- (1) < f)%Q) by (intros f; apply (cs_fees _ _ _ _ _ HC i col f Hi); lia).
    destruct (exec_fine _ _ _ _ _ _ _ false Hfe Hreg Hfi He) as [[F1 F2 F3 F4 F5] Fp].
    rewrite Hs. constructor; cbn [ss_cash ss_free ps_cash ps_free_cash]; auto.
    constructor; cbn [ss_cols ps_position ps_debt]; intros c;
      (destruct (Nat.eq_dec c col) as [->|Hn]; [rewrite fupd_same; cbn [c_pos c_debt]; auto|rewrite fupd_other; auto]).
  Qed.
End XQRun.

Lemma signals_agree_xq : forall draws rng nrows ncols lens init_cash a (inp : SigInputs XQ) fl max_orders max_logs,
  comparable_signals nrows ncols init_cash (si_base inp) (auto_call_seq (sf_base fl)) ->
  (forall n, In n lens -> 0 < n) ->
  let nb := simulate_from_signals_nb draws rng nrows ncols lens init_cash a inp fl max_orders max_logs in
  nb = Err ZeroDivision \/
  rs_simulate_from_signals draws rng nrows ncols lens init_cash a inp (use_stops fl) (auto_call_seq (sf_base fl))
    (ffill_val_price (sf_base fl)) (update_value (sf_base fl)) max_orders max_logs = rust_outcome nb.
Proof.
  intros draws rng nrows ncols lens ic a inp fl mo ml HC Hn.
  apply (signals_agree draws rng nrows ncols lens ic a inp fl mo ml SP SPG); auto.
  - intros c st [H1 H2] Hc. pose proof (cs_cash _ _ _ _ _ HC c Hc) as H. constructor; [constructor; auto|exact H|exact H].
  - intros st H. apply H.
  - intros st st' E1 E2 E3 E4 [[H1 H2] H3 H4]. constructor; [constructor; intros; rewrite ?E3, ?E4; auto| |]; congruence.
  - intros st i group from len k st' HP Hi Hl Hk Hz H. eapply (sx_order nrows ncols ic inp a fl lens); eauto.
  - intros st i col HP Hi Hc Hs Hz. apply order_ok_xq. eapply sx_comparable; eauto.
  - apply (cs_auto _ _ _ _ _ HC).
  - constructor; intros c; eexists; reflexivity.
Qed.
