(** * Order execution for every number type: unfilled orders have no effect *)
From Coq Require Import ZArith Bool List Lia.
From Verif Require Import Base Num MathNb Order.
Import ListNotations.

Section OrderGen.
  Context {T : Type} {N : Num T}.

  Definition outcome (es es' : ExecState T) (r : OrderResult T) : Prop :=
    (es' = es /\ exists st info, st <> Filled /\ r = order_not_filled st info) \/
    (r_status r = Filled /\ r_info r = None /\ exists side, r_side r = Some side).

  Lemma outcome_nf : forall es st info es' r, st <> Filled ->
    not_filled es st info = Ok (es', r) -> outcome es es' r.
  Proof.
    intros es st info es' r Hst H. unfold not_filled in H. injection H as <- <-.
    left; split; eauto.
  Qed.

  Ltac nfg H := eapply outcome_nf; [|exact H]; discriminate.

  Lemma buy_nb_outcome : forall es sz price dir f ff slip mn mx gran lock allow pct es' r,
    buy_nb es sz price dir f ff slip mn mx gran lock allow pct = Ok (es', r) -> outcome es es' r.
  Proof.
    intros es sz price dir f ff slip mn mx gran lock allow pct es' r H.
    unfold buy_nb in H. cbv zeta in H. apply bind_ok in H as (cl & _ & H).
    destruct (_ && _)%bool in H; [nfg H|].
    destruct (_ && _)%bool in H; [discriminate|].
    destruct (_ && _)%bool in H; [nfg H|].
    destruct (eqb _ zero) in H; [nfg H|].
    destruct (_ && _)%bool in H; [nfg H|].
    apply bind_ok in H as (adj & _ & H).
    unfold buy_sized in H. apply bind_ok in H as (am & _ & H).
    destruct am as [[[fs fee] req]|]; [|nfg H].
    destruct (is_close_nb adj zero); [nfg H|].
    destruct (is_less_nb fs mn); [nfg H|].
    destruct (_ && _)%bool in H; [nfg H|].
    unfold buy_fill in H. cbv zeta in H. apply bind_ok in H as (df & _ & H). injection H as _ <-.
    right. split; [reflexivity|split; [reflexivity|eexists; reflexivity]].
  Qed.

  Lemma sell_nb_outcome : forall es sz price dir f ff slip mn mx gran lock allow pct es' r,
    sell_nb es sz price dir f ff slip mn mx gran lock allow pct = Ok (es', r) -> outcome es es' r.
  Proof.
    intros es sz price dir f ff slip mn mx gran lock allow pct es' r H.
    unfold sell_nb in H. cbv zeta in H. apply bind_ok in H as (lim & Hlim & H).
    destruct lim as [info|[sl p']]; [nfg H|].
    destruct (_ && _)%bool in H; [nfg H|].
    unfold sell_sized in H.
    destruct (_ && _)%bool in H; [discriminate|].
    destruct (_ && _)%bool in H; [nfg H|].
    apply bind_ok in H as (z & _ & H).
    destruct (is_close_nb z zero); [nfg H|].
    destruct (is_less_nb z mn); [nfg H|].
    destruct (_ && _)%bool in H; [nfg H|].
    unfold sell_fill in H. cbv zeta in H.
    destruct (ltb _ zero) in H; [nfg H|].
    destruct (if ltb (add_nb (es_position es) _) zero then _ else _) as [nd nfc] in H.
    injection H as _ <-. right. split; [reflexivity|split; [reflexivity|eexists; reflexivity]].
  Qed.

  Lemma execute_outcome : forall draws k (s : ProcState T) (o : Order T) es' r k',
    execute_order_nb draws k s o = Ok (es', r, k') -> outcome (snap_state s) es' r.
  Proof.
    intros draws k s o es' r k' H. unfold execute_order_nb in H. cbv zeta in H.
    assert (Hnf : forall st info, st <> Filled -> es' = snap_state s -> r = order_not_filled st info ->
                  outcome (snap_state s) es' r) by (intros; left; eauto).
    destruct (isnan (o_size o)); [injection H as <- <- _; eapply Hnf; eauto; discriminate|].
    destruct (isnan (o_price o)); [injection H as <- <- _; eapply Hnf; eauto; discriminate|].
    unfold check_state_order in H.
    do 14 (apply raise_if_ok in H; destruct H as [_ H]).
    apply bind_ok in H as (rs & Hrs & H).
    destruct rs as [[st info]|[osz pct]].
    { injection H as <- <- _. eapply Hnf; eauto.
      unfold resolve_size in Hrs. cbv zeta in Hrs.
      destruct (resolve_target_percent _ _ _) as [e|[s1 t1]] eqn:E1.
      - injection Hrs as ->. unfold resolve_target_percent in E1.
        destruct (o_size_type o); try discriminate.
        destruct (isnan _); [injection E1 as <- <-; discriminate|].
        destruct (leb _ _); [injection E1 as <- <-; discriminate|discriminate].
      - apply bind_ok in Hrs as (r' & Hr & H). destruct r' as [e|[s2 t2]]; [|discriminate].
        injection H as ->. unfold resolve_value in Hr.
        destruct t1; try discriminate.
        + destruct (_ || _)%bool; [discriminate|]. destruct (isnan _); [injection Hr as <- <-; discriminate|].
          apply bind_ok in Hr as (? & _ & C); discriminate.
        + destruct (_ || _)%bool; [discriminate|]. destruct (isnan _); [injection Hr as <- <-; discriminate|].
          apply bind_ok in Hr as (? & _ & C); discriminate. }
    apply bind_ok in H as ([es1 r1] & Hbs & H).
    assert (Ho : outcome (snap_state s) es1 r1).
    { unfold buy_or_sell in Hbs. destruct (gtb osz zero);
      eauto using buy_nb_outcome, sell_nb_outcome. }
    destruct (gtb (o_reject_prob o) zero).
    - destruct (ltb (draws k) (o_reject_prob o)).
      + injection H as <- <- _. eapply Hnf; eauto; discriminate.
      + injection H as <- <- _. exact Ho.
    - injection H as <- <- _. exact Ho.
  Qed.

  Lemma execute_nan_size : forall draws k (s : ProcState T) (o : Order T),
    isnan (o_size o) = true ->
    execute_order_nb draws k s o = Ok (snap_state s, order_not_filled Ignored SizeNaN, k).
  Proof. intros draws k s o H. unfold execute_order_nb. rewrite H. reflexivity. Qed.

  (** process_order_nb: what happens to state and records *)
  Lemma process_order_inv : forall draws i col group (s : ProcState T) upd (o : Order T) rc r s' rc',
    process_order_nb draws i col group s upd o rc = Ok (r, s', rc') ->
    exists es,
      execute_order_nb draws (rc_rng rc) s o = Ok (es, r, rc_rng rc') /\
      (is_rejected r && o_raise_reject o)%bool = false /\
      s' = mkProc (es_cash es) (es_position es) (es_debt es) (es_free_cash es) (ps_val_price s') (ps_value s') /\
      (is_filled r && upd = true ->
        (ps_val_price s', ps_value s') =
        update_value_nb (ps_cash s) (es_cash es) (ps_position s) (es_position es)
          (ps_val_price s) (r_price r) (ps_value s)) /\
      (is_filled r && upd = false -> ps_val_price s' = ps_val_price s /\ ps_value s' = ps_value s) /\
      rc_orders rc' = (if is_filled r then
        rc_orders rc ++ [mkOrderRec (List.length (rc_orders rc)) col i (r_size r) (r_price r) (r_fees r) (r_side r)]
        else rc_orders rc) /\
      rc_logs rc' = (if o_log o then
        rc_logs rc ++ [mkLogRec (List.length (rc_logs rc)) group col i s o s' r
                         (if is_filled r then Some (List.length (rc_orders rc)) else None)]
        else rc_logs rc) /\
      (is_filled r = true -> List.length (rc_orders rc) < rc_max_orders rc) /\
      (o_log o = true -> List.length (rc_logs rc) < rc_max_logs rc) /\
      rc_max_orders rc' = rc_max_orders rc /\ rc_max_logs rc' = rc_max_logs rc.
  Proof.
    intros draws i col group s upd o rc r s' rc' H. unfold process_order_nb in H.
    apply bind_ok in H as ([[es r0] rng'] & He & H).
    apply raise_if_ok in H as [Hrej H].
    destruct (if is_filled r0 && upd then _ else _)%bool as [nvp nv] eqn:Ev in H.
    cbv zeta in H.
    apply raise_if_ok in H as [Ho H]. apply raise_if_ok in H as [Hl H].
    injection H as <- <- <-.
    exists es. cbn [rc_rng rc_orders rc_logs rc_max_orders rc_max_logs ps_val_price ps_value].
    repeat split; auto.
    - intros E. rewrite E in Ev. symmetry. exact Ev.
    - rewrite H in Ev. injection Ev as <- <-. reflexivity.
    - rewrite H in Ev. injection Ev as <- <-. reflexivity.
    - intros E. rewrite E in Ho. cbn in Ho. apply Nat.leb_gt in Ho. exact Ho.
    - intros E. rewrite E in Hl. cbn in Hl. apply Nat.leb_gt in Hl. exact Hl.
  Qed.
End OrderGen.
