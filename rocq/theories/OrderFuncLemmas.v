(** * Simulation with callbacks: the future does not change the past *)
From Coq Require Import String ZArith Bool List Arith Lia.
From Verif Require Import Base Num Order OrderGen CallSeq Account Simulate SimSpec OrderFunc OrderFuncSpec.
Import ListNotations.
Open Scope list_scope.

Section Ext.
  Context {A B : Type}.
  Lemma foldM_ext_in : forall (f g : B -> A -> res B) l b, (forall b a, In a l -> f b a = g b a) -> foldM f b l = foldM g b l.
  Proof.
    intros f g. induction l as [|a l IH]; intros b H; cbn [foldM]; [reflexivity|].
    rewrite H by now left. destruct (g b a) as [b'|e]; cbn [bind]; [|reflexivity]. apply IH. intros. apply H. now right.
  Qed.
  Lemma fold_left_ext_in : forall (f g : B -> A -> B) l b, (forall b a, In a l -> f b a = g b a) -> fold_left f l b = fold_left g l b.
  Proof.
    intros f g. induction l as [|a l IH]; intros b H; cbn [fold_left]; [reflexivity|].
    rewrite H by now left. apply IH. intros. apply H. now right.
  Qed.
End Ext.

Section Agree.
  Context {T : Type} {N : Num T} {U A0 A1 A2 : Type}.
  Implicit Types (st : FState T) (u : U) (cb : Callbacks T U A0 A1 A2) (op : FOpts T).

  Lemma open_stats_agree : forall op1 op2 g st, fo_fill_pos op1 = fo_fill_pos op2 -> open_stats op1 g st = open_stats op2 g st.
  Proof. intros op1 op2 g st H. unfold open_stats. rewrite H. reflexivity. Qed.
  Lemma revalue_agree : forall op1 op2 g st, fo_sharing op1 = fo_sharing op2 -> revalue op1 g st = revalue op2 g st.
  Proof. intros op1 op2 g st H. unfold revalue. rewrite H. reflexivity. Qed.
  Lemma close_value_agree : forall op1 op2 g st, fo_sharing op1 = fo_sharing op2 -> close_value op1 g st = close_value op2 g st.
  Proof. intros op1 op2 g st H. unfold close_value. rewrite H. reflexivity. Qed.
  Lemma close_vp_agree : forall t op1 op2 g i st, opts_agree t op1 op2 -> i < t -> close_vp op1 g i st = close_vp op2 g i st.
  Proof.
    intros t op1 op2 g i st H Hi. unfold close_vp. f_equal. apply fold_left_ext_in. intros vp c _.
    unfold store_vp. rewrite (oa_close _ _ _ H) by assumption. rewrite (oa_ffill _ _ _ H). reflexivity.
  Qed.

  Lemma process_step_agree : forall draws t op1 op2 cb1 cb2 a g i col k o st u,
    opts_agree t op1 op2 -> calls_agree t cb1 cb2 -> i < t ->
    process_step draws op1 cb1 a g i col k o st u = process_step draws op2 cb2 a g i col k o st u.
  Proof.
    intros draws t op1 op2 cb1 cb2 a g i col k o st u HO HC Hi. unfold process_step.
    assert (E1 : order_state_now op1 st g col = order_state_now op2 st g col).
    { unfold order_state_now, slot. rewrite (oa_sharing _ _ _ HO). reflexivity. }
    assert (E2 : resolve_order_price (fo_close op1) i col o = resolve_order_price (fo_close op2) i col o).
    { unfold resolve_order_price. destruct (isinf (o_price o)); [|reflexivity].
      rewrite (oa_close _ _ _ HO) by assumption. destruct i as [|i']; [reflexivity|].
      rewrite (oa_close _ _ _ HO) by lia. reflexivity. }
    rewrite E1, E2, (oa_update _ _ _ HO).
    destruct (process_order_nb _ _ _ _ _ _ _ _) as [[[r s'] rc']|e]; cbn [bind]; [|reflexivity].
    assert (E3 : store_order op1 g i col st r s' rc' = store_order op2 g i col st r s' rc').
    { unfold store_order, slot, store_vp. rewrite (oa_sharing _ _ _ HO), (oa_ffill _ _ _ HO), (oa_fill_pos _ _ _ HO). reflexivity. }
    rewrite E3. destruct (store_order op2 g i col st r s' rc') as [st'|e]; cbn [bind]; [|reflexivity].
    rewrite (ca_post_order _ _ _ HC) by assumption. reflexivity.
  Qed.

  Lemma flex_loop_agree : forall draws t op1 op2 cb1 cb2 a g i fuel k st u,
    opts_agree t op1 op2 -> calls_agree t cb1 cb2 -> i < t ->
    flex_loop draws op1 cb1 a g i fuel k st u = flex_loop draws op2 cb2 a g i fuel k st u.
  Proof.
    intros draws t op1 op2 cb1 cb2 a g i fuel. induction fuel as [|fuel IH]; intros k st u HO HC Hi; cbn [flex_loop];
      rewrite (ca_flex _ _ _ HC) by assumption; destruct (cb_flex_order cb2 a g i k st u) as [[[[c|] o] u']|e]; try reflexivity;
      rewrite (process_step_agree draws t op1 op2 cb1 cb2) by assumption; [reflexivity|].
    destruct (Nat.ltb c (sg_from g) || Nat.leb (sg_from g + sg_len g) c); [reflexivity|].
    destruct (process_step _ _ _ _ _ _ _ _ _ _ _) as [[st' u'']|e]; [apply IH; assumption|reflexivity].
  Qed.

  Lemma segment_agree : forall draws t op1 op2 cb1 cb2 m a g i su,
    opts_agree t op1 op2 -> calls_agree t cb1 cb2 -> i < t ->
    segment draws op1 cb1 m a g i su = segment draws op2 cb2 m a g i su.
  Proof.
    intros draws t op1 op2 cb1 cb2 m a g i [st u] HO HC Hi. unfold segment.
    rewrite (oa_mask _ _ _ HO), (oa_pre _ _ _ HO), (oa_post _ _ _ HO), (ca_pre_segment _ _ _ HC) by assumption.
    assert (B : forall A (x : res A) B (f h : A -> res B), (forall a, f a = h a) -> (let! a := x in f a) = (let! a := x in h a)).
    { intros A [x|e] B f h H; cbn; auto. }
    apply B. intros [[out st1] u1]. rewrite (open_stats_agree op1 op2) by apply HO. apply B. intros st2.
    rewrite (revalue_agree op1 op2) by apply HO.
    assert (E : forall a2 st u, orders_of_segment draws op1 cb1 m a2 g i st u = orders_of_segment draws op2 cb2 m a2 g i st u).
    { clear - HO HC Hi. intros a2 st u. unfold orders_of_segment. destruct m as [|fuel].
      - apply foldM_ext_in. intros [st0 u0] k _. unfold call_step.
        rewrite (ca_order _ _ _ HC) by assumption. f_equal.
        destruct (cb_order cb2 a2 g i _ k st0 u0) as [[o u']|e]; cbn [bind]; [|reflexivity]. eapply process_step_agree; eassumption.
      - rewrite (flex_loop_agree draws t op1 op2 cb1 cb2) by assumption. reflexivity. }
    assert (E' : (if fo_mask op2 i (sg_group g) then match out with Some a2 => orders_of_segment draws op1 cb1 m a2 g i (revalue op2 g st2) u1 | None => Err (TypeError "UnboundLocalError"%string) end else Ok (revalue op2 g st2, u1)) =
                 (if fo_mask op2 i (sg_group g) then match out with Some a2 => orders_of_segment draws op2 cb2 m a2 g i (revalue op2 g st2) u1 | None => Err (TypeError "UnboundLocalError"%string) end else Ok (revalue op2 g st2, u1))).
    { destruct (fo_mask op2 i (sg_group g)); [|reflexivity]. destruct out; [apply E|reflexivity]. }
    rewrite E'. apply B. intros [st4 u4].
    rewrite (close_vp_agree t op1 op2) by assumption. rewrite (close_value_agree op1 op2) by apply HO.
    rewrite (open_stats_agree op1 op2) by apply HO. apply B. intros st6.
    rewrite (ca_post_segment _ _ _ HC) by assumption. reflexivity.
  Qed.

  Lemma row_agree : forall draws t op1 op2 cb1 cb2 m groups a0 su i,
    opts_agree t op1 op2 -> calls_agree t cb1 cb2 -> i < t ->
    row_run draws op1 cb1 m groups a0 su i = row_run draws op2 cb2 m groups a0 su i.
  Proof.
    intros draws t op1 op2 cb1 cb2 m groups a0 [st u] i HO HC Hi. unfold row_run.
    rewrite (ca_pre_row _ _ _ HC) by assumption. destruct (cb_pre_row cb2 a0 i st u) as [[a1 u1]|e]; cbn [bind]; [|reflexivity].
    rewrite (foldM_ext_in (fun su g => segment draws op1 cb1 m a1 g i su) (fun su g => segment draws op2 cb2 m a1 g i su))
      by (intros; eapply segment_agree; eassumption).
    destruct (foldM _ _ _) as [[st2 u2]|e]; cbn [bind]; [|reflexivity]. rewrite (ca_post_row _ _ _ HC) by assumption. reflexivity.
  Qed.

  (** ** Records are appended, with the row at which they arise *)
  Definition appended (P : nat -> Prop) st st' : Prop :=
    (exists l, rc_orders (fs_rc st') = rc_orders (fs_rc st) ++ l /\ Forall (fun r => P (or_idx r)) l) /\
    (exists l, rc_logs (fs_rc st') = rc_logs (fs_rc st) ++ l /\ Forall (fun r => P (lg_idx r)) l).

  Lemma appended_refl : forall P st st', fs_rc st' = fs_rc st -> appended P st st'.
  Proof. intros P st st' H. split; exists []; rewrite H, app_nil_r; auto. Qed.
  Lemma appended_trans : forall P a b c, appended P a b -> appended P b c -> appended P a c.
  Proof.
    intros P a b c [(l1 & E1 & F1) (m1 & G1 & H1)] [(l2 & E2 & F2) (m2 & G2 & H2)]. split.
    - exists (l1 ++ l2). rewrite E2, E1, app_assoc. split; [reflexivity|]. apply Forall_app. auto.
    - exists (m1 ++ m2). rewrite G2, G1, app_assoc. split; [reflexivity|]. apply Forall_app. auto.
  Qed.
  Lemma appended_weaken : forall (P Q : nat -> Prop) a b, (forall i, P i -> Q i) -> appended P a b -> appended Q a b.
  Proof.
    intros P Q a b HPQ [(l & E & F) (l' & E' & F')]. split; eexists; (split; [eassumption|]);
      (eapply Forall_impl; [|eassumption]); cbn; auto.
  Qed.
  Lemma appended_fold : forall A P (f : FState T * U -> A -> res (FState T * U)) l su su',
    (forall su a su', In a l -> f su a = Ok su' -> appended P (fst su) (fst su')) ->
    foldM f su l = Ok su' -> appended P (fst su) (fst su').
  Proof.
    intros A P f. induction l as [|a l IH]; intros su su' Hf H; cbn [foldM] in H.
    - inversion H; subst. apply appended_refl. reflexivity.
    - apply bind_ok in H as (s1 & H1 & H2). eapply appended_trans; [eapply Hf; [now left|exact H1]|].
      apply IH; [|exact H2]. intros. eapply Hf; [right|]; eassumption.
  Qed.

  Lemma fold_rc : forall (f : FState T -> nat -> FState T) l st,
    (forall st k, fs_rc (f st k) = fs_rc st) -> fs_rc (fold_left f l st) = fs_rc st.
  Proof. intros f l. induction l as [|k l IH]; intros st H; cbn; [reflexivity|]. rewrite IH by assumption. apply H. Qed.
  Lemma revalue_rc : forall op g st, fs_rc (revalue op g st) = fs_rc st.
  Proof. intros. unfold revalue. destruct (fo_sharing op); [reflexivity|]. apply fold_rc. reflexivity. Qed.
  Lemma close_value_rc : forall op g st, fs_rc (close_value op g st) = fs_rc st.
  Proof. intros. unfold close_value. destruct (fo_sharing op); [reflexivity|]. apply fold_rc. reflexivity. Qed.
  Lemma open_stats_rc : forall op g st st', open_stats op g st = Ok st' -> fs_rc st' = fs_rc st.
  Proof.
    intros op g st st' H. unfold open_stats in H. destruct (fo_fill_pos op); [|inversion H; reflexivity].
    refine (foldM_inv nat _ (fun s => fs_rc s = fs_rc st) open_stats_step _ st st' _ eq_refl H).
    intros s a s' Hs _ Hf. unfold open_stats_step in Hf. apply bind_ok in Hf as (r & _ & Hf). inversion Hf; subst. exact Hs.
  Qed.

  Lemma process_step_appended : forall draws op cb a g i col k o st u st' u',
    process_step draws op cb a g i col k o st u = Ok (st', u') -> appended (eq i) st st'.
  Proof.
    intros draws op cb a g i col k o st u st' u' H. unfold process_step in H.
    apply bind_ok in H as ([[r s'] rc'] & H1 & H). apply bind_ok in H as (st1 & H2 & H). apply bind_ok in H as (u1 & _ & H).
    inversion H; subst. unfold store_order in H2. apply bind_ok in H2 as (rec' & _ & H2). inversion H2; subst. cbn.
    apply process_order_inv in H1 as (es & _ & _ & _ & _ & _ & Ho & Hl & _). unfold appended. cbn [fs_rc]. rewrite Ho, Hl. split.
    - destruct (is_filled r); eexists; [split; [reflexivity|]; constructor; auto|]. rewrite app_nil_r. auto.
    - destruct (o_log _); eexists; [split; [reflexivity|]; constructor; auto|]. rewrite app_nil_r. auto.
  Qed.

  Lemma flex_loop_appended : forall draws op cb a g i fuel k st u st' u',
    flex_loop draws op cb a g i fuel k st u = Some (Ok (st', u')) -> appended (eq i) st st'.
  Proof.
    intros draws op cb a g i fuel. induction fuel as [|fuel IH]; intros k st u st' u' H; cbn [flex_loop] in H;
      (destruct (cb_flex_order cb a g i k st u) as [[[[c|] o] u0]|e]; [|inversion H; subst; now apply appended_refl|discriminate]);
      (destruct (Nat.ltb c (sg_from g) || Nat.leb (sg_from g + sg_len g) c); [discriminate|]);
      (destruct (process_step _ _ _ _ _ _ _ _ _ _ _) as [[st1 u1]|e] eqn:Ep; [|discriminate]); [discriminate|].
    eapply appended_trans; [eapply process_step_appended; eassumption|]. eapply IH. eassumption.
  Qed.

  Lemma segment_appended : forall draws op cb m a g i su su',
    segment draws op cb m a g i su = Ok su' -> appended (eq i) (fst su) (fst su').
  Proof.
    intros draws op cb m a g i [st u] [st' u'] H. unfold segment in H.
    apply bind_ok in H as ([[out st1] u1] & H1 & H). apply bind_ok in H as (st2 & H2 & H).
    apply bind_ok in H as ([st4 u4] & H3 & H). apply bind_ok in H as (st6 & H4 & H). apply bind_ok in H as (u6 & _ & H).
    inversion H; subst. cbn [fst].
    assert (E1 : fs_rc st1 = fs_rc st).
    { destruct (fo_call_pre op || fo_mask op i (sg_group g)); [|inversion H1; reflexivity].
      apply bind_ok in H1 as ([[[a2 vp] calls] u0] & _ & H1). inversion H1; subst. reflexivity. }
    apply open_stats_rc in H2. apply open_stats_rc in H4. rewrite close_value_rc in H4. change (fs_rc (close_vp op g i st4)) with (fs_rc st4) in H4.
    apply appended_trans with (b := st4); [|apply appended_refl; exact H4].
    apply appended_trans with (b := revalue op g st2); [apply appended_refl; rewrite revalue_rc; congruence|].
    destruct (fo_mask op i (sg_group g)); [|inversion H3; subst; now apply appended_refl].
    destruct out as [a2|]; [|discriminate]. unfold orders_of_segment in H3. destruct m as [|fuel].
    - change st4 with (fst (st4, u4)). change (revalue op g st2) with (fst (revalue op g st2, u1)).
      eapply appended_fold; [|exact H3]. intros [s v] k [s' v'] _ Hk. cbn [fst]. unfold call_step in Hk.
      apply raise_if_ok in Hk as [_ Hk]. apply bind_ok in Hk as ([o v1] & _ & Hk). eapply process_step_appended. exact Hk.
    - destruct (flex_loop _ _ _ _ _ _ _ _ _ _) as [r|] eqn:Ef; [|discriminate]. subst. eapply flex_loop_appended. exact Ef.
  Qed.

  Lemma row_appended : forall draws op cb m groups a0 su i su',
    row_run draws op cb m groups a0 su i = Ok su' -> appended (eq i) (fst su) (fst su').
  Proof.
    intros draws op cb m groups a0 [st u] i [st' u'] H. unfold row_run in H.
    apply bind_ok in H as ([a1 u1] & _ & H). apply bind_ok in H as ([st2 u2] & H & H'). apply bind_ok in H' as (u3 & _ & H').
    inversion H'; subst. cbn [fst]. change st with (fst (st, u1)). change st' with (fst (st', u2)).
    eapply appended_fold; [|exact H]. intros su g su' _ Hg. eapply segment_appended. exact Hg.
  Qed.

  Lemma rows_appended : forall draws op cb m groups a0 n k su su',
    foldM (row_run draws op cb m groups a0) su (seq k n) = Ok su' ->
    appended (fun i => k <= i < k + n) (fst su) (fst su').
  Proof.
    intros draws op cb m groups a0 n k su su' H. eapply appended_fold; [|exact H].
    intros s i s' Hi Hr. apply in_seq in Hi. eapply appended_weaken; [|eapply row_appended; exact Hr]. intros j <-. lia.
  Qed.

  Lemma filter_all : forall A (f : A -> bool) l, Forall (fun a => f a = true) l -> filter f l = l.
  Proof. intros A f l H. induction H as [|a l Ha _ IH]; cbn; [reflexivity|]. now rewrite Ha, IH. Qed.
  Lemma filter_none : forall A (f : A -> bool) l, Forall (fun a => f a = false) l -> filter f l = [].
  Proof. intros A f l H. induction H as [|a l Ha _ IH]; cbn; [reflexivity|]. now rewrite Ha. Qed.

  Lemma row_wise_no_look_ahead : forall draws t n1 n2 op1 op2 cb1 cb2 m ncols lens cash init u st1 u1 st2 u2,
    opts_agree t op1 op2 -> calls_agree t cb1 cb2 -> t <= n1 -> t <= n2 ->
    rc_orders (fs_rc init) = [] -> rc_logs (fs_rc init) = [] ->
    simulate_row_wise_nb draws op1 cb1 m n1 ncols lens cash init u = Ok (st1, u1) ->
    simulate_row_wise_nb draws op2 cb2 m n2 ncols lens cash init u = Ok (st2, u2) ->
    orders_before t (rc_orders (fs_rc st1)) = orders_before t (rc_orders (fs_rc st2)) /\
    logs_before t (rc_logs (fs_rc st1)) = logs_before t (rc_logs (fs_rc st2)).
  Proof.
    intros draws t n1 n2 op1 op2 cb1 cb2 m ncols lens cash init u st1 u1 st2 u2 HO HC Ht1 Ht2 I1 I2 H1 H2.
    unfold simulate_row_wise_nb, check_groups in H1, H2.
    apply raise_if_ok in H1 as [_ H1]. apply raise_if_ok in H1 as [_ H1]. apply raise_if_ok in H2 as [_ H2]. apply raise_if_ok in H2 as [_ H2].
    apply bind_ok in H1 as ([a0 v1] & P1 & H1). apply bind_ok in H1 as ([s1 w1] & F1 & H1). apply bind_ok in H1 as (x1 & _ & H1). inversion H1; subst; clear H1.
    apply bind_ok in H2 as ([a0' v2] & P2 & H2). apply bind_ok in H2 as ([s2 w2] & F2 & H2). apply bind_ok in H2 as (x2 & _ & H2). inversion H2; subst; clear H2.
    rewrite (ca_pre_sim _ _ _ HC) in P1. rewrite P1 in P2. inversion P2; subst; clear P2.
    replace n1 with (t + (n1 - t)) in F1 by lia. replace n2 with (t + (n2 - t)) in F2 by lia.
    rewrite seq_app, foldM_app in F1, F2. apply bind_ok in F1 as ([m1 y1] & G1 & F1). apply bind_ok in F2 as ([m2 y2] & G2 & F2).
    rewrite (foldM_ext_in _ (row_run draws op2 cb2 m (segs 0 0 lens) a0')) in G1.
    2:{ intros b i Hi. apply in_seq in Hi. eapply row_agree; [exact HO|exact HC|lia]. }
    rewrite G1 in G2. inversion G2; subst; clear G2.
    apply rows_appended in G1. apply rows_appended in F1. apply rows_appended in F2. cbn [fst] in *.
    destruct G1 as [(l & E & P) (l' & E' & P')]. destruct F1 as [(p & Ep & Pp) (p' & Ep' & Pp')]. destruct F2 as [(q & Eq & Pq) (q' & Eq' & Pq')].
    rewrite I1 in E. rewrite I2 in E'. cbn [app] in E, E'.
    unfold orders_before, logs_before. rewrite Ep, Eq, Ep', Eq', E, E', !filter_app.
    rewrite !(filter_none _ _ p), !(filter_none _ _ q), !(filter_none _ _ p'), !(filter_none _ _ q'); [split; reflexivity| | | |];
      (eapply Forall_impl; [|eassumption]); cbn; intros a Ha; apply Nat.ltb_ge; lia.
  Qed.

  Lemma row_wise_failures : forall draws t n op1 op2 cb1 cb2 m ncols lens cash init u e,
    opts_agree t op1 op2 -> calls_agree t cb1 cb2 -> t <= n ->
    (forall st u, exists u', cb_post_sim cb1 st u = Ok u') ->
    simulate_row_wise_nb draws op1 cb1 m t ncols lens cash init u = Err e ->
    simulate_row_wise_nb draws op2 cb2 m n ncols lens cash init u = Err e.
  Proof.
    intros draws t n op1 op2 cb1 cb2 m ncols lens cash init u e HO HC Ht Hp H.
    unfold simulate_row_wise_nb, check_groups in *. rewrite <- (oa_sharing _ _ _ HO).
    destruct (negb (Nat.eqb (sum_lens lens) ncols)); cbn [raise_if] in *; [exact H|].
    destruct (negb (Nat.eqb (length cash) _)); cbn [raise_if] in *; [exact H|].
    rewrite <- (ca_pre_sim _ _ _ HC). destruct (cb_pre_sim cb1 init u) as [[a0 u1]|e1]; cbn [bind] in *; [|exact H].
    replace n with (t + (n - t)) by lia. rewrite seq_app, foldM_app.
    rewrite <- (foldM_ext_in (row_run draws op1 cb1 m (segs 0 0 lens) a0)).
    2:{ intros b i Hi. apply in_seq in Hi. eapply row_agree; [exact HO|exact HC|lia]. }
    destruct (foldM _ (init, u1) (seq 0 t)) as [[st u2]|e2]; cbn [bind] in *; [|exact H].
    destruct (Hp st u2) as (u' & E). rewrite E in H. discriminate.
  Qed.
End Agree.
