(** * Simulations on exact numbers and on doubles *)
From Coq Require Import ZArith QArith Qabs Bool List String Arith Lia.
From Flocq Require Import BinarySingleNaN.
From Verif Require Import Base Num B64 OrdLaws XQFacts MathNb TolSpec Order OrderSpec CallSeq Account Simulate ExecFacts FillFacts OrderLemmas
  OrderGen FillView RustOrder RustSim RustLemmas RustLawsXQ RustLemmas2 RustLawsB64 RustLemmas3 RustSpec RustSimLemmas.
Import ListNotations.
Open Scope list_scope.

(** ** Doubles *)
Lemma simulate_agrees_f64 : forall draws rng nrows ncols lens init_cash (inp : Inputs f64) fl max_orders max_logs,
  comparable_inputs_f64 nrows ncols inp (auto_call_seq fl) ->
  (forall n, In n lens -> (0 < n)%nat) ->
  agrees (@simulate_from_orders_nb _ B64num draws rng nrows ncols lens init_cash inp fl max_orders max_logs)
    (@rs_simulate_from_orders _ B64num B64rust draws rng nrows ncols lens init_cash inp (auto_call_seq fl) (ffill_val_price fl)
       (update_value fl) max_orders max_logs).
Proof.
  intros draws rng nrows ncols lens ic inp fl mo ml [Hg Hl Hp Ha] Hn.
  apply (@simulate_agrees _ B64num B64rust B64rustlaws draws rng nrows ncols lens ic inp fl mo ml (fun _ => True) (fun _ => True)); auto.
  intros st i col p _ Hi Hc. apply order_ok_f64. constructor; cbn; auto.
Qed.

(** ** Exact numbers *)
Definition cashlike (x : XQ) : Prop := a_number x \/ x = PInf.

Lemma snap_num : forall q, a_number (snap (Fin q)).
Proof. intros q. destruct (snap_fin q) as (z & E & _). exists z. exact E. Qed.

Lemma snap_cashlike : forall x, cashlike x -> cashlike (snap x).
Proof. intros x [[q ->]| ->]; [left; apply snap_num|right; reflexivity]. Qed.

Lemma xadd_approx_num : forall x b r, xadd_approx x b r -> (a_number x -> a_number r) /\ (x = PInf -> r = PInf).
Proof.
  intros x b r H. split.
  - intros [q ->]. destruct H as (z & -> & _). eexists; reflexivity.
  - intros ->. exact H.
Qed.

Lemma xadd_exact_num : forall x b r, xadd_exact x b r -> (a_number x -> a_number r) /\ (x = PInf -> r = PInf).
Proof.
  intros x b r H. split.
  - intros [q ->]. destruct H as (z & -> & _). eexists; reflexivity.
  - intros ->. exact H.
Qed.

Record fine (num : bool) (es : ExecState XQ) : Prop := mkFine {
  fi_pos : a_number (es_position es); fi_debt : a_number (es_debt es);
  fi_cash : cashlike (es_cash es); fi_free : cashlike (es_free_cash es);
  fi_num : num = true -> a_number (es_cash es) /\ a_number (es_free_cash es) }.

Lemma exec_fine : forall draws k (s : ProcState XQ) (o : Order XQ) es' r k' num,
  (forall f, o_fees o = Fin f -> - (1) < f) ->
  o_size o = NaN \/ regular o (snap (ps_value s)) ->
  fine num (snap_state s) ->
  execute_order_nb draws k s o = Ok (es', r, k') ->
  fine num es' /\ (r_status r = Filled -> a_number (r_price r)).
Proof.
  intros draws k s o es' r k' num Hf [Hn|Hreg] Hfi H.
  - rewrite execute_nan_size in H by (rewrite Hn; reflexivity). injection H as <- <- _. split; [auto|discriminate].
  - apply filled_view in H as [[-> Hu]|(cash & p & d & free & price & f & ff & slip & mn & rp & osz & pct & Es & Hck & Hf' & Hcv & Hrs & Hfl & Hbs)];
      auto; [split; [auto|]; destruct Hu as (st0 & info0 & Hne & ->); intros E; exfalso; exact (Hne E)|].
    rewrite Es in Hfi. destruct Hfi as [F1 F2 F3 F4 F5]. cbn [es_cash es_free_cash] in *.
    assert (Hx : forall x b r, cashlike x -> xadd_approx x b r -> cashlike r).
    { intros x b r0 [Hx|Hx] Ha; destruct (xadd_approx_num _ _ _ Ha); [left|right]; auto. }
    assert (Hy : forall x b r, cashlike x -> xadd_exact x b r -> cashlike r).
    { intros x b r0 [Hx'|Hx'] Ha; destruct (xadd_exact_num _ _ _ Ha); [left|right]; auto. }
    destruct Hbs as [(Hgt & cl & fs & fee & req & np & nd & Hcl & C & E)|(Hgt & fs & fee & net & np & nd & C & E)].
    + split; [|intros _; rewrite (be_res _ _ _ _ _ _ _ _ _ _ _ _ E); eexists; reflexivity].
      pose proof (be_cash _ _ _ _ _ _ _ _ _ _ _ _ E) as Ec.
      constructor.
      * rewrite (be_pos _ _ _ _ _ _ _ _ _ _ _ _ E). eexists; reflexivity.
      * rewrite (be_debt _ _ _ _ _ _ _ _ _ _ _ _ E). eexists; reflexivity.
      * exact (Hx _ _ _ F3 Ec).
      * destruct (Qlt_le_dec p 0) as [Hlt|Hge].
        -- destruct (be_short _ _ _ _ _ _ _ _ _ _ _ _ E Hlt) as (diff & fr & _ & _ & E1 & E2). exact (Hx _ _ _ (Hy _ _ _ F4 E1) E2).
        -- destruct (be_long _ _ _ _ _ _ _ _ _ _ _ _ E Hge) as [_ E1]. exact (Hx _ _ _ F4 E1).
      * intros Hnum. destruct (F5 Hnum) as [G1 G2]. split; [apply (xadd_approx_num _ _ _ Ec); auto|].
        destruct (Qlt_le_dec p 0) as [Hlt|Hge].
        -- destruct (be_short _ _ _ _ _ _ _ _ _ _ _ _ E Hlt) as (diff & fr & _ & _ & E1 & E2).
           apply (xadd_approx_num _ _ _ E2). apply (xadd_exact_num _ _ _ E1). auto.
        -- destruct (be_long _ _ _ _ _ _ _ _ _ _ _ _ E Hge) as [_ E1]. apply (xadd_approx_num _ _ _ E1). auto.
    + split; [|intros _; rewrite (se_res _ _ _ _ _ _ _ _ _ _ _ _ _ _ E); eexists; reflexivity].
      pose proof (se_cash _ _ _ _ _ _ _ _ _ _ _ _ _ _ E) as Ec.
      constructor.
      * rewrite (se_pos _ _ _ _ _ _ _ _ _ _ _ _ _ _ E). eexists; reflexivity.
      * rewrite (se_debt _ _ _ _ _ _ _ _ _ _ _ _ _ _ E). eexists; reflexivity.
      * exact (Hy _ _ _ F3 Ec).
      * destruct (Qlt_le_dec np 0) as [Hlt|Hge].
        -- destruct (se_short _ _ _ _ _ _ _ _ _ _ _ _ _ _ E Hlt) as (sv & diff & _ & _ & _ & E2). exact (Hx _ _ _ F4 E2).
        -- destruct (se_long _ _ _ _ _ _ _ _ _ _ _ _ _ _ E Hge) as [_ E1]. exact (Hy _ _ _ F4 E1).
      * intros Hnum. destruct (F5 Hnum) as [G1 G2]. split; [apply (xadd_exact_num _ _ _ Ec); auto|].
        destruct (Qlt_le_dec np 0) as [Hlt|Hge].
        -- destruct (se_short _ _ _ _ _ _ _ _ _ _ _ _ _ _ E Hlt) as (sv & diff & _ & _ & _ & E2).
           apply (xadd_approx_num _ _ _ E2). auto.
        -- destruct (se_long _ _ _ _ _ _ _ _ _ _ _ _ _ _ E Hge) as [_ E1]. apply (xadd_exact_num _ _ _ E1). auto.
Qed.

(** Arithmetic without infinities *)
Definition tame (x : XQ) : Prop := ~ infinite x.

Lemma tame_cases : forall x, tame x <-> x = NaN \/ a_number x.
Proof.
  intros x. unfold tame, infinite, a_number. destruct x as [| | |q]; split; intros H; auto;
    try (exfalso; apply H; auto; fail); try (destruct H as [H|[? H]]; discriminate).
  - intros [?|?]; discriminate.
  - right. eauto.
  - intros [?|?]; discriminate.
Qed.

Lemma tame_add : forall a b, tame a -> tame b -> tame (add a b).
Proof. intros a b. rewrite !tame_cases. intros [-> | [p ->]] [-> | [q ->]]; cbn; auto; right; eexists; reflexivity. Qed.
Lemma tame_sub : forall a b, tame a -> tame b -> tame (sub a b).
Proof. intros a b. rewrite !tame_cases. intros [-> | [p ->]] [-> | [q ->]]; cbn; auto; right; eexists; reflexivity. Qed.
Lemma tame_mul : forall a b, tame a -> tame b -> tame (mul a b).
Proof. intros a b. rewrite !tame_cases. intros [-> | [p ->]] [-> | [q ->]]; cbn; auto; right; eexists; reflexivity. Qed.
Lemma tame_num : forall a, a_number a -> tame a.
Proof. intros a H. apply tame_cases. auto. Qed.
Lemma tame_zero : tame zero.
Proof. apply tame_num. eexists; reflexivity. Qed.

Section XQRun.
  Variables (nrows ncols : nat) (init_cash : list XQ) (inp : Inputs XQ) (fl : Flags) (lens : list nat).
  Hypothesis HC : comparable_inputs nrows ncols init_cash inp (auto_call_seq fl).
  Definition sh : bool := is_grouped lens.

  Definition no_zero_target : Prop :=
    forall i col, (i < nrows)%nat -> (col < ncols)%nat -> in_size_type inp i col = TargetPercent ->
       nonzero_number (in_size inp i col) \/ ~ a_number (in_size inp i col).
  Definition all_finite : Prop :=
    (forall c, In c init_cash -> a_number c) /\
    (forall i col, (i < nrows)%nat -> (col < ncols)%nat -> ~ infinite (in_close inp i col)).
  Variable b : bool.
  Hypothesis Hb : if b then all_finite else no_zero_target.

  Record PG (st : Sim XQ) : Prop := mkPG {
    pg_pos : forall c, a_number (sm_pos st c); pg_debt : forall c, a_number (sm_debt st c);
    pg_vp : b = true -> (forall c, tame (sm_vp st c)) /\ tame (sm_value st) }.
  Record P (st : Sim XQ) : Prop := mkP {
    p_pg : PG st;
    p_cash : cashlike (sm_cash st); p_free : cashlike (sm_free st);
    p_num : b = true -> a_number (sm_cash st) /\ a_number (sm_free st) }.

  Lemma fin_b : b = true -> all_finite.
  Proof. intros E. rewrite E in Hb. exact Hb. Qed.

  Lemma x_start : forall c st, PG st -> In c init_cash ->
    P (mkSim c c (sm_value st) (sm_pos st) (sm_debt st) (sm_vp st) (sm_price st) (sm_seq st) (sm_rc st)).
  Proof.
    intros c st [H1 H2 H3] Hc. pose proof (ci_cash _ _ _ _ _ HC c Hc) as Hcc.
    constructor; [constructor; auto|exact Hcc|exact Hcc|].
    intros E. split; apply (fin_b E); auto.
  Qed.

  Lemma tame_price : forall i col, (i < nrows)%nat -> (col < ncols)%nat -> all_finite -> tame (resolve_price inp i col).
  Proof.
    intros i col Hi Hc [_ Hf]. unfold resolve_price. destruct (isinf (in_price inp i col)) eqn:E.
    - destruct (gtb _ _); [apply Hf; auto|]. destruct i; [apply tame_cases; auto|apply Hf; auto; lia].
    - intros [H|H]; rewrite H in E; discriminate.
  Qed.

  Lemma tame_val_price : forall i col, (i < nrows)%nat -> (col < ncols)%nat -> all_finite ->
    tame (resolve_val_price inp i col (resolve_price inp i col)).
  Proof.
    intros i col Hi Hc Hf. unfold resolve_val_price. destruct (isinf (in_val_price inp i col)) eqn:E.
    - destruct (gtb _ _); [apply tame_price; auto|]. destruct i; [apply tame_cases; auto|apply Hf; auto; lia].
    - intros [H|H]; rewrite H in E; discriminate.
  Qed.

  Lemma tame_store : forall vp col v, (forall c, tame (vp c)) -> tame v -> forall c, tame (store_val_price fl vp col v c).
  Proof.
    intros vp col v H Hv c. unfold store_val_price. destruct (_ || _)%bool; auto.
    destruct (Nat.eq_dec c col) as [->|Hn]; [rewrite fupd_same|rewrite fupd_other]; auto.
  Qed.

  Lemma x_price : forall st i col, P st -> (i < nrows)%nat -> (col < ncols)%nat -> P (price_step inp fl i st col).
  Proof.
    intros st i col [[H1 H2 H3] H4 H5 H6] Hi Hc. constructor; auto. constructor; auto.
    intros E. destruct (H3 E) as [H7 H8]. cbn. split; [|auto].
    apply tame_store; auto. apply tame_val_price; auto. apply fin_b; auto.
  Qed.

  Lemma tame_group : forall cols st v, (forall c, a_number (sm_pos st c)) -> (forall c, tame (sm_vp st c)) -> tame v ->
    tame (fold_left (fun v col => if neb (sm_pos st col) zero then add v (mul (sm_pos st col) (sm_vp st col)) else v) cols v).
  Proof.
    induction cols as [|c cols IH]; intros st v H1 H2 Hv; cbn [fold_left]; auto.
    apply IH; auto. destruct (neb _ _); auto. apply tame_add; auto. apply tame_mul; auto. apply tame_num; auto.
  Qed.

  Lemma x_sort : forall st i from len, P st -> P (sort_step inp fl sh i from len st).
  Proof.
    intros st i from len [[H1 H2 H3] H4 H5 H6]. unfold sort_step. destruct sh; [|constructor; auto; constructor; auto].
    constructor; auto. constructor; auto. intros E. destruct (H3 E) as [H7 H8]. split; [auto|]. cbn [sm_value].
    apply tame_group; auto. apply tame_num, H6; auto.
  Qed.

  Lemma tame_snap : forall x, tame x -> tame (snap x).
  Proof.
    intros x Hx. apply tame_cases in Hx as [->|[q ->]]; [apply tame_cases; left; reflexivity|]. apply tame_num, snap_num.
  Qed.

  Lemma tame_state : forall st col, P st -> b = true -> tame (ps_value (order_state sh st col)).
  Proof.
    intros st col [[H1 H2 H3] H4 H5 H6] E. destruct (H3 E) as [H7 H8]. destruct (H6 E) as [H9 _]. cbn.
    destruct sh; auto. destruct (neb _ _); [|apply tame_num; auto].
    apply tame_add; [apply tame_num; auto|]. apply tame_mul; auto. apply tame_num; auto.
  Qed.

  Lemma x_comparable : forall st i col p, P st -> (i < nrows)%nat -> (col < ncols)%nat ->
    comparable (order_state sh st col) (make_order inp i col p).
  Proof.
    intros st i col p HP Hi Hc. constructor; cbn [make_order o_size_type o_size].
    - apply (ci_percent _ _ _ _ _ HC); auto.
    - intros Ht. destruct (bool_dec b true) as [Eb|Eb].
      + left. intros Hv. apply (tame_state st col HP Eb). left; auto.
      + right. apply not_true_is_false in Eb. pose proof Hb as Hb'. rewrite Eb in Hb'. destruct (Hb' i col Hi Hc Ht) as [H|H]; auto. right. intros q Hq. apply H. exists q; auto.
    - cbn. destruct HP as [_ _ [[q ->]| ->] _]; discriminate.
  Qed.

  Lemma x_order : forall draws st i group from len k st', P st -> (i < nrows)%nat -> (from + len <= ncols)%nat -> (k < len)%nat ->
    order_step draws inp fl sh i group from len st k = Ok st' -> P st'.
  Proof.
    intros draws st i group from len k st' HP Hi Hl Hk H. unfold order_step in H.
    apply bind_ok in H as (col & Hcol & H). apply bind_ok in H as ([[r s'] rc'] & Hpr & H). injection H as <-.
    assert (Hc : (col < ncols)%nat).
    { unfold pick_col in Hcol. destruct sh; [apply raise_if_ok in Hcol as [E1 Hcol]; apply Nat.leb_gt in E1|];
        injection Hcol as <-; lia. }
    set (o := make_order inp i col (sm_price st col)) in *.
    apply process_order_inv in Hpr as (es & He & _ & Hs & Hv1 & Hv2 & _).
    pose proof (x_comparable st i col (sm_price st col) HP Hi Hc) as [C1 C2 C3]. fold o in C1, C2.
    destruct HP as [[H1 H2 H3] H4 H5 H6].
    assert (Hreg : o_size o = NaN \/ regular o (snap (ps_value (order_state sh st col)))).
    { unfold regular. destruct (o_size_type o) eqn:Et; auto.
      - right. intros Hv q Hq. destruct (C2 eq_refl) as [H|[(q' & H & H')|H]].
        + apply snap_pinf in Hv. congruence.
        + congruence.
        + exfalso; eapply H; eauto. }
    assert (Hfi : fine b (snap_state (order_state sh st col))).
    { constructor; cbn.
      - destruct (H1 col) as [q ->]. apply snap_num.
      - destruct (H2 col) as [q ->]. apply snap_num.
      - apply snap_cashlike; auto.
      - apply snap_cashlike; auto.
      - intros E. destruct (H6 E) as [[q ->] [q' ->]]. split; apply snap_num. }
    assert (Hfe : forall f, o_fees o = Fin f -> - (1) < f) by (intros f; apply (ci_fees _ _ _ _ _ HC i col f Hi Hc)).
    destruct (exec_fine _ _ _ _ _ _ _ b Hfe Hreg Hfi He) as [[F1 F2 F3 F4 F5] Fp].
    rewrite Hs. constructor; cbn [store_state sm_cash sm_free ps_cash ps_free_cash]; auto.
    constructor; cbn [store_state sm_pos sm_debt sm_vp sm_value ps_position ps_debt].
    - intros c. destruct (Nat.eq_dec c col) as [->|Hn]; [rewrite fupd_same|rewrite fupd_other]; auto.
    - intros c. destruct (Nat.eq_dec c col) as [->|Hn]; [rewrite fupd_same|rewrite fupd_other]; auto.
    - intros E. destruct (H3 E) as [H7 H8]. destruct (H6 E) as [H9 H10].
      assert (Hval : tame (ps_val_price s') /\ tame (ps_value s')).
      { destruct (is_filled r && update_value fl)%bool eqn:Ef.
        - specialize (Hv1 eq_refl). unfold update_value_nb in Hv1. injection Hv1 as -> ->.
          apply andb_true_iff in Ef as [Ef _]. unfold is_filled in Ef.
          assert (Hpx : a_number (r_price r)) by (apply Fp; destruct (r_status r); auto; discriminate).
          split; [apply tame_num; auto|].
          destruct (F5 E) as [F6 F7].
          apply tame_add; [apply tame_add|].
          + apply tame_state; auto. constructor; auto. constructor; auto.
          + apply tame_sub; apply tame_num; auto.
          + apply tame_sub; destruct (neb _ _); try apply tame_zero; apply tame_mul; try (apply tame_num; auto; fail);
              cbn; auto; apply tame_num; apply H1.
        - destruct (Hv2 eq_refl) as [-> ->]. split; [cbn; auto|].
          apply tame_state; auto. constructor; auto. constructor; auto. }
      destruct Hval. cbn [ps_val_price ps_value]. split; [|auto]. apply tame_store; auto.
  Qed.

  Lemma x_init : forall mo ml rng, PG (sim_init inp nrows ncols mo ml rng).
  Proof.
    intros. constructor; cbn; try (intros; eexists; reflexivity).
    intros _. split; [intros|]; apply tame_cases; auto.
  Qed.
End XQRun.

Lemma simulate_agrees_xq : forall draws rng nrows ncols lens init_cash (inp : Inputs XQ) fl max_orders max_logs,
  comparable_inputs nrows ncols init_cash inp (auto_call_seq fl) ->
  (forall n, In n lens -> (0 < n)%nat) ->
  agrees (simulate_from_orders_nb draws rng nrows ncols lens init_cash inp fl max_orders max_logs)
    (rs_simulate_from_orders draws rng nrows ncols lens init_cash inp (auto_call_seq fl) (ffill_val_price fl)
       (update_value fl) max_orders max_logs).
Proof.
  intros draws rng nrows ncols lens ic inp fl mo ml HC Hn.
  assert (Hb : exists b, if b : bool then all_finite nrows ncols ic inp else no_zero_target nrows ncols inp)
    by (destruct (ci_target _ _ _ _ _ HC); [exists false|exists true]; auto).
  destruct Hb as [b Hb].
  apply (simulate_agrees draws rng nrows ncols lens ic inp fl mo ml (P b) (PG b)); auto.
  - intros c st. eapply x_start; eauto.
  - intros st HP. apply (p_pg _ _ HP).
  - intros st i col. eapply x_price; eauto.
  - intros st i from len HP _ _. eapply x_sort; eauto.
  - intros st i group from len k st'. eapply x_order; eauto.
  - intros st i col p HP Hi Hc. apply order_ok_xq. eapply x_comparable; eauto.
  - intros st i col HP Hi Hc Ha. left. apply (ci_auto _ _ _ _ _ HC Ha i col Hi Hc).
  - apply x_init.
Qed.
