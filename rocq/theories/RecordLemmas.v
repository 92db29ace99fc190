(** * Bookkeeping of order and log records, for every number type (C11) *)
From Coq Require Import ZArith Bool List Lia Arith.
From Verif Require Import Base Num MathNb Order OrderGen Records.
Import ListNotations.

Section RecordLemmas.
  Context {T : Type} {N : Num T}.

  Lemma numbered_snoc : forall A (id : A -> nat) l x,
    numbered id l -> id x = List.length l -> numbered id (l ++ [x]).
  Proof.
    intros A id l x H Hx n y Hn.
    destruct (Nat.lt_ge_cases n (List.length l)) as [Hl|Hl].
    - rewrite nth_error_app1 in Hn by auto. auto.
    - rewrite nth_error_app2 in Hn by auto. destruct (n - List.length l) as [|m] eqn:E.
      + cbn in Hn. injection Hn as <-. lia.
      + cbn in Hn. destruct m; discriminate.
  Qed.

  Lemma call_step : forall draws (rc : Recs T) c rc',
    run_call draws rc c = Ok rc' ->
    exists r s', process_order_nb draws (cl_i c) (cl_col c) (cl_group c) (cl_state c) (cl_upd c) (cl_order c) rc
      = Ok (r, s', rc').
  Proof.
    intros draws rc c rc' H. unfold run_call in H. apply bind_ok in H as ([[r s'] rc1] & Hp & H).
    injection H as <-. eauto.
  Qed.

  Definition books (rc : Recs T) : Prop :=
    numbered (@or_id T) (rc_orders rc) /\ numbered (@lg_id T) (rc_logs rc) /\
    List.length (rc_orders rc) <= rc_max_orders rc /\ List.length (rc_logs rc) <= rc_max_logs rc /\
    Forall (log_linked (rc_orders rc)) (rc_logs rc).

  Lemma log_linked_app : forall os x (l : LogRec T), log_linked os l -> log_linked (os ++ x) l.
  Proof.
    intros os x l H. unfold log_linked in *. destruct (lg_order_id l) as [k|]; auto.
    destruct H as (H1 & rec & H2 & H3). split; auto. exists rec. split; auto.
    rewrite nth_error_app1; auto. apply nth_error_Some. congruence.
  Qed.

  Lemma call_books : forall draws rc c rc', books rc -> run_call draws rc c = Ok rc' ->
    books rc' /\ (exists xo, rc_orders rc' = rc_orders rc ++ xo) /\
    (exists xl, rc_logs rc' = rc_logs rc ++ xl /\ List.length xl = if o_log (cl_order c) then 1 else 0).
  Proof.
    intros draws rc c rc' (B1 & B2 & B3 & B4 & B5) H.
    apply call_step in H as (r & s' & H).
    apply process_order_inv in H as (es & He & _ & Hs & Hv1 & Hv2 & Ho & Hl & Hom & Hlm & Hm1 & Hm2).
    unfold books. rewrite Ho, Hl, Hm1, Hm2.
    split; [|split].
    - split; [|split; [|split; [|split]]].
      + destruct (is_filled r); auto. apply numbered_snoc; auto.
      + destruct (o_log _); auto. apply numbered_snoc; auto.
      + destruct (is_filled r); auto. specialize (Hom eq_refl). rewrite app_length. cbn. lia.
      + destruct (o_log _); auto. specialize (Hlm eq_refl). rewrite app_length. cbn. lia.
      + assert (Hold : Forall (log_linked (if is_filled r then
             rc_orders rc ++ [mkOrderRec (List.length (rc_orders rc)) (cl_col c) (cl_i c) (r_size r) (r_price r) (r_fees r) (r_side r)]
             else rc_orders rc)) (rc_logs rc)).
        { destruct (is_filled r); auto. eapply Forall_impl; [|exact B5]. intros l. apply log_linked_app. }
        destruct (o_log _); auto. apply Forall_app. split; auto. constructor; auto.
        unfold log_linked. cbn [lg_order_id lg_result lg_col lg_idx].
        unfold is_filled. destruct (r_status r) eqn:Es; try discriminate.
        split; auto. eexists. rewrite nth_error_app2 by auto. rewrite Nat.sub_diag. cbn.
        split; [reflexivity|]. cbn. repeat split; reflexivity.
    - destruct (is_filled r); [eexists; reflexivity|exists []; rewrite app_nil_r; auto].
    - destruct (o_log _); [eexists; split; reflexivity|exists []; rewrite app_nil_r; auto].
  Qed.

  Lemma run_books : forall draws calls rc rc', books rc ->
    foldM (run_call draws) rc calls = Ok rc' ->
    books rc' /\ (exists xo, rc_orders rc' = rc_orders rc ++ xo) /\
    (exists xl, rc_logs rc' = rc_logs rc ++ xl /\
       List.length xl = List.length (filter (fun c => o_log (cl_order c)) calls)).
  Proof.
    intros draws; induction calls as [|c calls IH]; intros rc rc' B H; cbn [foldM] in H.
    - injection H as <-. split; auto. split; exists []; rewrite app_nil_r; auto.
    - apply bind_ok in H as (rc1 & H1 & H2).
      destruct (call_books _ _ _ _ B H1) as (B1 & (xo1 & E1) & (xl1 & F1 & L1)).
      destruct (IH _ _ B1 H2) as (B2 & (xo2 & E2) & (xl2 & F2 & L2)).
      split; auto. split.
      + exists (xo1 ++ xo2). rewrite E2, E1, app_assoc. auto.
      + exists (xl1 ++ xl2). rewrite F2, F1, app_assoc. split; auto.
        rewrite app_length, L1, L2. cbn [filter]. destruct (o_log (cl_order c)); reflexivity.
  Qed.

  Lemma empty_books : forall mo ml k, books (mkRecs [] [] mo ml k).
  Proof.
    intros. split; [|split; [|split; [|split]]]; cbn; try lia; auto; intros [|n] x Hx; discriminate.
  Qed.

  (** Full buffers raise. *)
  Lemma full_orders_raise : forall draws i col group s upd (o : Order T) rc es r k,
    execute_order_nb draws (rc_rng rc) s o = Ok (es, r, k) ->
    r_status r = Filled -> rc_max_orders rc <= List.length (rc_orders rc) ->
    exists e, process_order_nb draws i col group s upd o rc = Err e.
  Proof.
    intros draws i col group s upd o rc es r k He Hr Hfull.
    destruct (process_order_nb draws i col group s upd o rc) as [[[r' s'] rc']|e] eqn:E; [|eauto].
    apply process_order_inv in E as (es' & He' & _ & _ & _ & _ & _ & _ & Hom & _).
    rewrite He in He'. injection He' as <- <- _. exfalso.
    assert (is_filled r = true) by (unfold is_filled; rewrite Hr; auto).
    specialize (Hom H). lia.
  Qed.

  Lemma full_logs_raise : forall draws i col group s upd (o : Order T) rc,
    o_log o = true -> rc_max_logs rc <= List.length (rc_logs rc) ->
    exists e, process_order_nb draws i col group s upd o rc = Err e.
  Proof.
    intros draws i col group s upd o rc Hl Hfull.
    destruct (process_order_nb draws i col group s upd o rc) as [[[r' s'] rc']|e] eqn:E; [|eauto].
    apply process_order_inv in E as (es' & He' & _ & _ & _ & _ & _ & _ & _ & Hlm & _).
    specialize (Hlm Hl). lia.
  Qed.
End RecordLemmas.

Section Statements.
  Context {T : Type} {N : Num T}.

  Lemma unfilled_no_effect : forall draws i col group (s : ProcState T) upd o rc r s' rc',
    process_order_nb draws i col group s upd o rc = Ok (r, s', rc') ->
    r_status r <> Filled ->
    ps_cash s' = snap (ps_cash s) /\ ps_position s' = snap (ps_position s) /\
    ps_debt s' = snap (ps_debt s) /\ ps_free_cash s' = snap (ps_free_cash s) /\
    ps_val_price s' = ps_val_price s /\ ps_value s' = ps_value s /\
    rc_orders rc' = rc_orders rc.
  Proof.
    intros draws i col group s upd o rc r s' rc' H Hst.
    apply process_order_inv in H as (es & He & _ & Hs & _ & Hv & Ho & _).
    assert (Hif : is_filled r = false) by (unfold is_filled; destruct (r_status r); congruence).
    rewrite Hif in *. destruct (Hv eq_refl) as [Hv1 Hv2].
    apply execute_outcome in He as [[-> _]|(C & _)]; [|congruence].
    rewrite Hs. cbn. rewrite <- Hv1, <- Hv2. repeat split; auto.
  Qed.

  Lemma filled_one_record : forall draws i col group (s : ProcState T) upd o rc r s' rc',
    process_order_nb draws i col group s upd o rc = Ok (r, s', rc') ->
    r_status r = Filled ->
    exists rec, rc_orders rc' = rc_orders rc ++ [rec] /\
      or_col rec = col /\ or_idx rec = i /\ or_size rec = r_size r /\ or_price rec = r_price r /\
      or_fees rec = r_fees r /\ or_side rec = r_side r.
  Proof.
    intros draws i col group s upd o rc r s' rc' H Hst.
    apply process_order_inv in H as (es & He & _ & Hs & _ & Hv & Ho & _).
    assert (Hif : is_filled r = true) by (unfold is_filled; rewrite Hst; auto).
    rewrite Hif in *. eexists. split; [exact Ho|]. cbn. repeat split.
  Qed.

  Lemma value_unchanged_without_update : forall draws i col group (s : ProcState T) o rc r s' rc',
    process_order_nb draws i col group s false o rc = Ok (r, s', rc') ->
    ps_val_price s' = ps_val_price s /\ ps_value s' = ps_value s.
  Proof.
    intros draws i col group s o rc r s' rc' H.
    apply process_order_inv in H as (es & He & _ & Hs & _ & Hv & _).
    rewrite andb_false_r in Hv. auto.
  Qed.

  Lemma record_bookkeeping : forall draws (calls : list (Call T)) mo ml k rc',
    foldM (run_call draws) (mkRecs [] [] mo ml k) calls = Ok rc' ->
    numbered (@or_id T) (rc_orders rc') /\ numbered (@lg_id T) (rc_logs rc') /\
    List.length (rc_orders rc') <= mo /\ List.length (rc_logs rc') <= ml /\
    Forall (log_linked (rc_orders rc')) (rc_logs rc') /\
    List.length (rc_logs rc') = List.length (filter (fun c => o_log (cl_order c)) calls).
  Proof.
    intros draws calls mo ml k rc' H.
    assert (Hm : rc_max_orders rc' = mo /\ rc_max_logs rc' = ml).
    { eapply (foldM_inv _ _ (fun rc => rc_max_orders rc = mo /\ rc_max_logs rc = ml)); [| |exact H]; [|auto].
      intros rc c rc1 [<- <-] _ Hc. apply call_step in Hc as (r & s' & Hc).
      apply process_order_inv in Hc as (es & _ & _ & _ & _ & _ & _ & _ & _ & _ & Hm1 & Hm2). auto. }
    apply run_books in H as ((B1 & B2 & B3 & B4 & B5) & _ & (xl & E & L)); [|apply empty_books].
    destruct Hm as [<- <-]. cbn in E. rewrite E in *. auto 10.
  Qed.

  Lemma records_append_only : forall draws (calls1 calls2 : list (Call T)) mo ml k rc1 rc2,
    foldM (run_call draws) (mkRecs [] [] mo ml k) calls1 = Ok rc1 ->
    foldM (run_call draws) (mkRecs [] [] mo ml k) (calls1 ++ calls2) = Ok rc2 ->
    (exists more, rc_orders rc2 = rc_orders rc1 ++ more) /\
    (exists more, rc_logs rc2 = rc_logs rc1 ++ more).
  Proof.
    intros draws calls1 calls2 mo ml k rc1 rc2 H1 H2.
    rewrite foldM_app, H1 in H2. cbn in H2.
    apply run_books in H1 as (B & _ & _); [|apply empty_books].
    apply run_books in H2 as (_ & Ho & (xl & El & _)); auto. split; eauto.
  Qed.

  Lemma full_buffers_raise : forall draws i col group (s : ProcState T) upd o rc,
    ((exists es r k, execute_order_nb draws (rc_rng rc) s o = Ok (es, r, k) /\ r_status r = Filled) /\
       rc_max_orders rc <= List.length (rc_orders rc)) \/
    (o_log o = true /\ rc_max_logs rc <= List.length (rc_logs rc)) ->
    exists e, process_order_nb draws i col group s upd o rc = Err e.
  Proof.
    intros draws i col group s upd o rc [[(es & r & k & He & Hf) Hl]|[Hl1 Hl2]].
    - eapply full_orders_raise; eauto.
    - eapply full_logs_raise; eauto.
  Qed.
End Statements.
