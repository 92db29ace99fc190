(** * Simulation with callbacks: who is called when, and what the calls see *)
From Coq Require Import String ZArith Bool List Arith Lia.
From Verif Require Import Base Num Order OrderGen CallSeq Account Simulate SimSpec OrderFunc OrderFuncSpec OrderFuncLemmas.
Import ListNotations.
Open Scope list_scope.

Section Spy.
  Context {T : Type} {N : Num T} {U A0 A1 A2 : Type}.
  Implicit Types (st : FState T) (u : U).
  Notation events := (list (Call * FState T)).

  (** The spied run does the same, and [Q] holds of what it writes down *)
  Definition shadows (l : events) (r : res (FState T * U)) (r' : res (FState T * (U * events)))
      (Q : FState T -> events -> Prop) : Prop :=
    match r with
    | Err e => r' = Err e
    | Ok (st, u) => exists t, r' = Ok (st, (u, l ++ t)) /\ Q st t
    end.

  Section Inv.
    (** An invariant of all states that callbacks are shown, provided they return
        valuation prices and orders that are all right *)
    Variables (op : FOpts T) (groups : list Seg) (draws : nat -> T).
    Variables (ok_vp : (nat -> T) -> Prop) (ok_order : Order T -> Prop) (P : FState T -> Prop).
    Hypothesis P_take : forall g i vp calls st, In g groups -> ok_vp vp -> P st -> P (take_segment g i vp calls st).
    Hypothesis P_recs : forall st r, P st -> P (with_recs st r).
    Hypothesis P_revalue : forall g st, In g groups -> P st -> P (revalue op g st).
    Hypothesis P_close : forall g i st, In g groups -> P st -> P (close_value op g (close_vp op g i st)).
    Hypothesis P_order : forall g i col st o r s' rc' st', In g groups -> sg_from g <= col < sg_from g + sg_len g -> ok_order o -> P st ->
      process_order_nb draws i col (sg_group g) (order_state_now op st g col) (fo_update op)
        (resolve_order_price (fo_close op) i col o) (fs_rc st) = Ok (r, s', rc') ->
      store_order op g i col st r s' rc' = Ok st' -> P st'.
    Variable cb : Callbacks T U A0 A1 A2.
    Hypothesis HF : full_call_seq cb.
    Hypothesis HV : forall a g i st u a' vp calls u', P st -> cb_pre_segment cb a g i st u = Ok (a', vp, calls, u') -> ok_vp vp.
    Hypothesis HO : forall a g i c k st u o u', P st -> cb_order cb a g i c k st u = Ok (o, u') -> ok_order o.
    Hypothesis HX : forall a g i k st u c o u', P st -> cb_flex_order cb a g i k st u = Ok (Some c, o, u') -> ok_order o.

    Definition good (t : events) : Prop := Forall (fun e => P (snd e)) t.

    Lemma process_spy : forall a g i col k o st u l, In g groups -> sg_from g <= col < sg_from g + sg_len g -> ok_order o -> P st ->
      shadows l (process_step draws op cb a g i col k o st u) (process_step draws op (spy cb) a g i col k o st (u, l))
        (fun st' t => map fst t = [PostOrderCall (sg_group g) i k col] /\ good t /\ P st' /\ fs_seq st' = fs_seq st).
    Proof.
      intros a g i col k o st u l Hg Hcol Hok HP. unfold process_step.
      destruct (process_order_nb _ _ _ _ _ _ _ _) as [[[r s'] rc']|e] eqn:Ep; cbn [bind shadows]; [|reflexivity].
      destruct (store_order op g i col st r s' rc') as [st'|e] eqn:Es; cbn [bind shadows]; [|reflexivity].
      cbn [spy cb_post_order]. destruct (cb_post_order cb a g i col k _ r st' u) as [u'|e]; cbn [bind shadows]; [|reflexivity].
      eexists. split; [reflexivity|]. split; [reflexivity|].
      assert (P st') by (eapply P_order; eassumption). split; [repeat constructor; assumption|]. split; [assumption|].
      unfold store_order in Es. apply bind_ok in Es as (rec' & _ & Es). inversion Es; subst. reflexivity.
    Qed.

    Lemma order_calls_from : forall g i from cs k j c, In (OrderCall g i j c) (order_calls g i from k cs) -> k <= j.
    Proof.
      intros g i from. induction cs as [|x cs IH]; intros k j c; cbn; [contradiction|].
      intros [C|[C|C]]; [inversion C; lia|discriminate|]. apply IH in C. lia.
    Qed.
    Lemma flex_calls_from : forall g i cs k j c, In (FlexCall g i j c) (flex_calls g i k cs) -> k <= j.
    Proof.
      intros g i. induction cs as [|x cs IH]; intros k j c; cbn; [intros [C|[]]; inversion C; lia|].
      intros [C|[C|C]]; [inversion C; lia|discriminate|]. apply IH in C. lia.
    Qed.

    Lemma calls_spy : forall a g i n k st u l, In g groups -> P st ->
      let calls := map (fun j => fs_seq st i (sg_from g + j)) (seq k n) in
      shadows l (foldM (call_step draws op cb a g i) (st, u) (seq k n))
        (foldM (call_step draws op (spy cb) a g i) (st, (u, l)) (seq k n))
        (fun st' t => map fst t = order_calls (sg_group g) i (sg_from g) k calls /\ Forall (fun c => c < sg_len g) calls /\
           good t /\ P st' /\ (forall c s, In (OrderCall (sg_group g) i k c, s) t -> s = st)).
    Proof.
      intros a g i n. induction n as [|n IH]; intros k st u l Hg HP calls.
      - exists []. rewrite app_nil_r. repeat split; auto; try constructor. intros c s [].
      - subst calls. cbn [seq foldM map]. unfold call_step at 1 3.
        destruct (Nat.leb (sg_len g) (fs_seq st i (sg_from g + k))) eqn:Ec; cbn [raise_if]; [reflexivity|].
        apply Nat.leb_gt in Ec. cbn [spy cb_order].
        set (col := sg_from g + fs_seq st i (sg_from g + k)).
        destruct (cb_order cb a g i col k st u) as [[o u']|e] eqn:Eo; cbn [bind shadows]; [|reflexivity]. apply HO in Eo; [|exact HP].
        assert (Hcol : sg_from g <= col < sg_from g + sg_len g) by (unfold col; lia).
        pose proof (process_spy a g i col k o st u' (l ++ [(OrderCall (sg_group g) i k col, st)]) Hg Hcol Eo HP) as Hs.
        destruct (process_step draws op cb a g i col k o st u') as [[st1 u1]|e]; cbn [shadows] in Hs.
        2:{ rewrite Hs. reflexivity. }
        destruct Hs as (t1 & -> & Et1 & G1 & P1 & Q1). cbn [bind].
        pose proof (IH (S k) st1 u1 ((l ++ [(OrderCall (sg_group g) i k col, st)]) ++ t1) Hg P1) as Hi.
        destruct (foldM (call_step draws op cb a g i) (st1, u1) (seq (S k) n)) as [[st2 u2]|e]; cbn [shadows] in Hi |- *.
        2:{ exact Hi. }
        destruct Hi as (t2 & E2 & Et2 & F2 & G2 & P2 & _). exists ((OrderCall (sg_group g) i k col, st) :: t1 ++ t2).
        split; [rewrite E2; do 3 f_equal; rewrite <- !app_assoc; reflexivity|].
        rewrite Q1 in Et2, F2. split; [|split; [constructor; assumption|split; [|split; [exact P2|]]]].
        + cbn [map fst]. rewrite map_app, Et1, Et2. reflexivity.
        + constructor; [exact HP|]. apply Forall_app. auto.
        + intros c s [C|C]; [inversion C; reflexivity|]. apply in_app_or in C as [C|C]; apply in_map with (f := fst) in C; cbn [fst] in C.
          * rewrite Et1 in C. destruct C as [C|[]]. discriminate.
          * rewrite Et2 in C. apply order_calls_from in C. lia.
    Qed.

    Lemma flex_spy : forall a g i fuel k st u l, In g groups -> P st ->
      match flex_loop draws op cb a g i fuel k st u with
      | None => flex_loop draws op (spy cb) a g i fuel k st (u, l) = None
      | Some r => exists r', flex_loop draws op (spy cb) a g i fuel k st (u, l) = Some r' /\
          shadows l r r' (fun st' t => (exists cols, map fst t = flex_calls (sg_group g) i k cols /\
             Forall (fun c => sg_from g <= c < sg_from g + sg_len g) cols) /\ good t /\ P st' /\
             (forall c s, In (FlexCall (sg_group g) i k c, s) t -> s = st))
      end.
    Proof.
      intros a g i fuel. induction fuel as [|fuel IH]; intros k st u l Hg HP; cbn [flex_loop spy cb_flex_order];
        (destruct (cb_flex_order cb a g i k st u) as [[[[c|] o] u0]|e] eqn:Eo; cbn [bind];
          [|eexists; (split; [reflexivity|]); eexists; (split; [reflexivity|]); (split; [exists []; split; [reflexivity|constructor]|]);
             (split; [repeat constructor; assumption|]); (split; [assumption|]); intros c s [C|[]]; congruence
           |eexists; split; reflexivity]);
        (destruct (Nat.ltb c (sg_from g) || Nat.leb (sg_from g + sg_len g) c) eqn:Ec; [eexists; split; reflexivity|]);
        apply orb_false_elim in Ec as [Ec1 Ec2]; apply Nat.ltb_ge in Ec1; apply Nat.leb_gt in Ec2;
        (apply HX in Eo; [|exact HP]);
        pose proof (process_spy a g i c k o st u0 (l ++ [(FlexCall (sg_group g) i k (Some c), st)]) Hg (conj Ec1 Ec2) Eo HP) as Hs;
        (destruct (process_step draws op cb a g i c k o st u0) as [[st1 u1]|e]; cbn [shadows] in Hs;
          [destruct Hs as (t1 & -> & Et1 & G1 & P1 & _)|rewrite Hs; eexists; split; reflexivity]); [reflexivity|].
      pose proof (IH (S k) st1 u1 ((l ++ [(FlexCall (sg_group g) i k (Some c), st)]) ++ t1) Hg P1) as Hi.
      destruct (flex_loop draws op cb a g i fuel (S k) st1 u1) as [[[st2 u2]|e]|]; [| |exact Hi].
      - destruct Hi as (r' & E & t2 & E2 & (cols & Ec & Fc) & G2 & P2 & _). eexists. split; [exact E|]. cbn [shadows].
        exists ((FlexCall (sg_group g) i k (Some c), st) :: t1 ++ t2).
        split; [rewrite E2; do 3 f_equal; rewrite <- !app_assoc; reflexivity|].
        split; [|split; [|split; [exact P2|]]].
        + exists (c :: cols). split; [cbn [map fst flex_calls]; rewrite map_app, Et1, Ec; reflexivity|]. constructor; auto.
        + constructor; [exact HP|]. apply Forall_app. auto.
        + intros c' s [C|C]; [inversion C; reflexivity|]. apply in_app_or in C as [C|C]; apply in_map with (f := fst) in C; cbn [fst] in C.
          * rewrite Et1 in C. destruct C as [C|[]]. discriminate.
          * rewrite Ec in C. apply flex_calls_from in C. lia.
      - destruct Hi as (r' & E & Hi). eexists. split; [exact E|exact Hi].
    Qed.

    Lemma open_stats_P : forall g st st', P st -> open_stats op g st = Ok st' -> P st' /\ fs_seq st' = fs_seq st.
    Proof.
      intros g st st' HP H. unfold open_stats in H. destruct (fo_fill_pos op); [|inversion H; subst; auto].
      refine (foldM_inv nat _ (fun s => P s /\ fs_seq s = fs_seq st) open_stats_step _ st st' _ (conj HP eq_refl) H).
      intros s a s' [Hs Hq] _ Hf. unfold open_stats_step in Hf. apply bind_ok in Hf as (r & _ & Hf). inversion Hf; subst.
      split; [now apply P_recs|exact Hq].
    Qed.
    Lemma revalue_seq : forall g st, fs_seq (revalue op g st) = fs_seq st.
    Proof.
      intros g st. unfold revalue. destruct (fo_sharing op); [reflexivity|].
      generalize (seq (sg_from g) (sg_len g)). intros l. revert st. induction l as [|k l IH]; intros st; cbn; [reflexivity|]. now rewrite IH.
    Qed.

    Lemma set_slice_read : forall (sq : nat -> nat -> nat) i from calls,
      map (fun j => set_slice sq i from calls i (from + j)) (seq 0 (length calls)) = calls.
    Proof.
      intros sq i from calls. apply nth_ext with (d := 0) (d' := 0); [now rewrite map_length, seq_length|].
      intros n Hn. rewrite map_length, seq_length in Hn.
      rewrite (nth_indep _ 0 (set_slice sq i from calls i (from + 0))) by now rewrite map_length, seq_length.
      rewrite (map_nth (fun j => set_slice sq i from calls i (from + j))). rewrite seq_nth by assumption. unfold set_slice.
      rewrite Nat.eqb_refl. replace (Nat.leb from (from + (0 + n))) with true by (symmetry; apply Nat.leb_le; lia).
      replace (Nat.ltb (from + (0 + n)) (from + length calls)) with true by (symmetry; apply Nat.ltb_lt; lia).
      cbn [andb]. f_equal. lia.
    Qed.

    (** The events of a segment: the last one, if any, shows the final state *)
    Definition segment_events m g i st st' (t : events) : Prop :=
      segment_calls op m g i (map fst t) /\ good t /\ P st' /\
      (forall s c, In (PreSegment (sg_group g) i c, s) t -> s = st) /\
      (forall s, In (PostSegment (sg_group g) i, s) t -> s = st') /\
      (forall s c, In (OrderCall (sg_group g) i 0 c, s) t -> exists s0, s = revalue op g s0) /\
      (forall s c, In (FlexCall (sg_group g) i 0 c, s) t -> exists s0, s = revalue op g s0).

    Lemma order_calls_not : forall g i from cs k,
      (forall c, ~ In (PreSegment g i c) (order_calls g i from k cs)) /\ ~ In (PostSegment g i) (order_calls g i from k cs).
    Proof.
      induction cs as [|x cs IH]; intros k; cbn; [auto|]. destruct (IH (S k)) as [A B].
      split; [intros c [C|[C|C]]|intros [C|[C|C]]]; try discriminate; [eapply A|apply B]; exact C.
    Qed.
    Lemma flex_calls_not : forall g i cs k,
      (forall c, ~ In (PreSegment g i c) (flex_calls g i k cs)) /\ ~ In (PostSegment g i) (flex_calls g i k cs).
    Proof.
      induction cs as [|x cs IH]; intros k; cbn.
      - split; [intros c [C|C]|intros [C|C]]; try discriminate; auto.
      - destruct (IH (S k)) as [A B]. split; [intros c [C|[C|C]]|intros [C|[C|C]]]; try discriminate; [eapply A|apply B]; exact C.
    Qed.

    Lemma in_fst : forall (c : Call) (s : FState T) (t : events), In (c, s) t -> In c (map fst t).
    Proof. intros c s t H. apply in_map with (f := fst) in H. exact H. Qed.

    Lemma segment_spy : forall m a g i st u l, In g groups -> P st ->
      shadows l (segment draws op cb m a g i (st, u)) (segment draws op (spy cb) m a g i (st, (u, l)))
        (segment_events m g i st).
    Proof.
      intros m a g i st u l Hg HP. unfold segment.
      destruct (fo_mask op i (sg_group g)) eqn:Em.
      - rewrite orb_true_r. cbn [spy cb_pre_segment]. destruct (cb_pre_segment cb a g i st u) as [[[[a2 vp] calls] u1]|e] eqn:Ep; cbn [bind shadows]; [|reflexivity].
        pose proof (HV _ _ _ _ _ _ _ _ _ HP Ep) as Hvp.
        apply HF in Ep. assert (HP1 : P (take_segment g i vp calls st)) by (apply P_take; assumption).
        destruct (open_stats op g (take_segment g i vp calls st)) as [st2|e] eqn:Eo; cbn [bind shadows]; [|reflexivity].
        destruct (open_stats_P _ _ _ HP1 Eo) as [HP2 Hq2].
        pose proof (P_revalue g st2 Hg HP2) as HP3. pose proof (revalue_seq g st2) as Hq3.
        set (ev := (PreSegment (sg_group g) i calls, st)). rewrite orb_true_r.
        assert (Ho : shadows (l ++ [ev]) (orders_of_segment draws op cb m a2 g i (revalue op g st2) u1)
                       (orders_of_segment draws op (spy cb) m a2 g i (revalue op g st2) (u1, l ++ [ev]))
                       (fun st' t => good t /\ P st' /\ segment_calls op m g i (PreSegment (sg_group g) i calls :: map fst t ++ [PostSegment (sg_group g) i]) /\
                          ((forall c, ~ In (PreSegment (sg_group g) i c) (map fst t)) /\ ~ In (PostSegment (sg_group g) i) (map fst t)) /\
                          (forall s c, In (OrderCall (sg_group g) i 0 c, s) t -> s = revalue op g st2) /\
                          (forall s c, In (FlexCall (sg_group g) i 0 c, s) t -> s = revalue op g st2))).
        { unfold orders_of_segment. destruct m as [|fuel].
          - pose proof (calls_spy a2 g i (sg_len g) 0 (revalue op g st2) u1 (l ++ [ev]) Hg HP3) as Hc. cbn zeta in Hc.
            assert (Hread : map (fun j => fs_seq (revalue op g st2) i (sg_from g + j)) (seq 0 (sg_len g)) = calls).
            { rewrite Hq3, Hq2. cbn [take_segment with_vp_seq fs_seq]. rewrite firstn_all2 by lia. rewrite <- Ep at 1. apply set_slice_read. }
            rewrite Hread in Hc.
            destruct (foldM (call_step draws op cb a2 g i) _ _) as [[st4 u4]|e]; cbn [shadows] in Hc |- *; [|exact Hc].
            destruct Hc as (t & E & Et & Ft & G & P4 & Fi). exists t. split; [exact E|]. split; [exact G|]. split; [exact P4|].
            rewrite Et. split; [apply sc_active; auto|]. split; [apply order_calls_not|]. split; [intros s c Hs; eapply Fi; exact Hs|].
            intros s c Hs. apply in_fst in Hs. rewrite Et in Hs. exfalso. revert Hs. clear. generalize 0 at 2. induction calls as [|x calls IH]; intros n Hs; cbn in Hs; [contradiction|].
            destruct Hs as [Hs|[Hs|Hs]]; try discriminate. eapply IH. exact Hs.
          - pose proof (flex_spy a2 g i fuel 0 (revalue op g st2) u1 (l ++ [ev]) Hg HP3) as Hc.
            destruct (flex_loop draws op cb a2 g i fuel 0 _ u1) as [[[st4 u4]|e]|]; cbn [shadows].
            + destruct Hc as (r' & -> & t & -> & (cols & Ec & Fc) & G & P4 & Fi). exists t. split; [reflexivity|]. split; [exact G|]. split; [exact P4|].
              rewrite Ec. split; [eapply sc_flexible; eauto|]. split; [apply flex_calls_not|]. split; [|intros s c Hs; eapply Fi; exact Hs].
              intros s c Hs. apply in_fst in Hs. rewrite Ec in Hs. exfalso. revert Hs. clear. generalize 0 at 2. induction cols as [|x cols IH]; intros n Hs; cbn in Hs; [destruct Hs as [Hs|[]]; discriminate|].
              destruct Hs as [Hs|[Hs|Hs]]; try discriminate. eapply IH. exact Hs.
            + destruct Hc as (r' & -> & Hc). exact Hc.
            + rewrite Hc. reflexivity. }
        destruct (orders_of_segment draws op cb m a2 g i (revalue op g st2) u1) as [[st4 u4]|e]; cbn [shadows] in Ho.
        2:{ rewrite Ho. reflexivity. }
        destruct Ho as (t & -> & G & P4 & Hsc & (N1 & N2) & Fi1 & Fi2). cbn [bind].
        destruct (open_stats op g (close_value op g (close_vp op g i st4))) as [st6|e] eqn:Eo2; cbn [bind shadows]; [|reflexivity].
        destruct (open_stats_P _ _ _ (P_close g i st4 Hg P4) Eo2) as [HP6 _].
        cbn [spy cb_post_segment]. destruct (cb_post_segment cb a g i st6 u4) as [u6|e]; cbn [bind shadows]; [|reflexivity].
        exists (ev :: t ++ [(PostSegment (sg_group g) i, st6)]).
        split; [do 3 f_equal; rewrite <- !app_assoc; reflexivity|].
        split; [cbn [map fst ev]; rewrite map_app; exact Hsc|].
        split; [constructor; [exact HP|]; apply Forall_app; split; [exact G|repeat constructor; exact HP6]|].
        split; [exact HP6|]. split; [|split; [|split]].
        + intros s c [C|C]; [inversion C; reflexivity|]. apply in_app_or in C as [C|[C|[]]]; [|discriminate].
          apply in_fst in C. now apply N1 in C.
        + intros s [C|C]; [discriminate|]. apply in_app_or in C as [C|[C|[]]]; [|inversion C; reflexivity].
          apply in_fst in C. now apply N2 in C.
        + intros s c [C|C]; [discriminate|]. apply in_app_or in C as [C|[C|[]]]; [|discriminate]. exists st2. eapply Fi1. exact C.
        + intros s c [C|C]; [discriminate|]. apply in_app_or in C as [C|[C|[]]]; [|discriminate]. exists st2. eapply Fi2. exact C.
      - rewrite !orb_false_r. cbn [spy cb_pre_segment cb_post_segment].
        assert (H1 : exists st1 u1 calls,
          match (if fo_call_pre op then let! (a2, vp, calls, u') := cb_pre_segment cb a g i st u in Ok (Some a2, take_segment g i vp calls st, u') else Ok (None, st, u)) with
          | Err e => (if fo_call_pre op then let! (a2, vp, calls, u') := (let! (a', vp, calls, u') := cb_pre_segment cb a g i st u in
              Ok (a', vp, calls, (u', l ++ [(PreSegment (sg_group g) i calls, st)]))) in Ok (Some a2, take_segment g i vp calls st, u') else Ok (None, st, (u, l))) = Err e
          | Ok (out, s1, v1) => s1 = st1 /\ v1 = u1 /\ P st1 /\
             (if fo_call_pre op then let! (a2, vp, calls, u') := (let! (a', vp, calls, u') := cb_pre_segment cb a g i st u in
              Ok (a', vp, calls, (u', l ++ [(PreSegment (sg_group g) i calls, st)]))) in Ok (Some a2, take_segment g i vp calls st, u') else Ok (None, st, (u, l)))
              = Ok (out, st1, (u1, l ++ (if fo_call_pre op then [(PreSegment (sg_group g) i calls, st)] else [])))
          end).
        { destruct (fo_call_pre op).
          - destruct (cb_pre_segment cb a g i st u) as [[[[a2 vp] calls] u1]|e] eqn:Ep; cbn [bind].
            + pose proof (HV _ _ _ _ _ _ _ _ _ HP Ep) as Hvp.
              do 3 eexists. split; [reflexivity|]. split; [reflexivity|]. split; [apply P_take; assumption|]. reflexivity.
            + exists st, u, []. reflexivity.
          - exists st, u, []. rewrite app_nil_r. auto. }
        destruct H1 as (st1 & u1 & calls & H1).
        destruct (if fo_call_pre op then _ else _) as [[[out s1] v1]|e] in H1 |- *; cbn [bind shadows].
        2:{ rewrite H1. reflexivity. }
        destruct H1 as (-> & -> & HP1 & ->). cbn [bind].
        destruct (open_stats op g st1) as [st2|e] eqn:Eo; cbn [bind shadows]; [|reflexivity].
        destruct (open_stats_P _ _ _ HP1 Eo) as [HP2 _].
        pose proof (P_revalue g st2 Hg HP2) as HP3.
        destruct (open_stats op g (close_value op g (close_vp op g i (revalue op g st2)))) as [st6|e] eqn:Eo2; cbn [bind shadows]; [|reflexivity].
        destruct (open_stats_P _ _ _ (P_close g i _ Hg HP3) Eo2) as [HP6 _].
        assert (H6 : match (if fo_call_post op then cb_post_segment cb a g i st6 u1 else Ok u1) with
           | Err e => (if fo_call_post op then let! u' := cb_post_segment cb a g i st6 u1 in Ok (u', (l ++ (if fo_call_pre op then [(PreSegment (sg_group g) i calls, st)] else [])) ++ [(PostSegment (sg_group g) i, st6)])
                       else Ok (u1, l ++ (if fo_call_pre op then [(PreSegment (sg_group g) i calls, st)] else []))) = Err e
           | Ok u6 => (if fo_call_post op then let! u' := cb_post_segment cb a g i st6 u1 in Ok (u', (l ++ (if fo_call_pre op then [(PreSegment (sg_group g) i calls, st)] else [])) ++ [(PostSegment (sg_group g) i, st6)])
                       else Ok (u1, l ++ (if fo_call_pre op then [(PreSegment (sg_group g) i calls, st)] else []))) =
                      Ok (u6, l ++ (if fo_call_pre op then [(PreSegment (sg_group g) i calls, st)] else []) ++ (if fo_call_post op then [(PostSegment (sg_group g) i, st6)] else [])) end).
        { destruct (fo_call_post op).
          - destruct (cb_post_segment cb a g i st6 u1) as [u6|e]; cbn [bind]; [|reflexivity]. rewrite <- app_assoc. reflexivity.
          - rewrite app_nil_r. reflexivity. }
        destruct (if fo_call_post op then cb_post_segment cb a g i st6 u1 else Ok u1) as [u6|e]; cbn [bind shadows]; rewrite H6; cbn [bind]; [|reflexivity].
        eexists. split; [reflexivity|]. split.
        + rewrite map_app. assert (E : forall b (x : Call * FState T), map fst (if b : bool then [x] else []) = if b then [fst x] else []) by (intros []; reflexivity).
          rewrite !E. cbn [fst]. apply sc_inactive. exact Em.
        + split; [apply Forall_app; split; [destruct (fo_call_pre op)|destruct (fo_call_post op)]; repeat constructor; assumption|].
          split; [exact HP6|]. split; [|split; [|split]].
          * intros s c C. apply in_app_or in C as [C|C]; [destruct (fo_call_pre op)|destruct (fo_call_post op)]; cbn in C; intuition congruence.
          * intros s C. apply in_app_or in C as [C|C]; [destruct (fo_call_pre op)|destruct (fo_call_post op)]; cbn in C; intuition congruence.
          * intros s c C. exfalso. apply in_app_or in C as [C|C]; [destruct (fo_call_pre op)|destruct (fo_call_post op)]; cbn in C; intuition congruence.
          * intros s c C. exfalso. apply in_app_or in C as [C|C]; [destruct (fo_call_pre op)|destruct (fo_call_post op)]; cbn in C; intuition congruence.
    Qed.

    (** A history: what holds of the state and all calls so far *)
    Variable J : FState T -> events -> Prop.
    Definition outer (c : Call) : Prop :=
      match c with PreSim | PostSim | PreGroup _ | PostGroup _ | PreRow _ | PostRow _ => True | _ => False end.
    Hypothesis J_outer : forall st l c, outer c -> J st l -> J st (l ++ [(c, st)]).
    Hypothesis J_segment : forall m a g i st u st' u' l t, In g groups -> P st -> J st l ->
      segment draws op cb m a g i (st, u) = Ok (st', u') -> segment_events m g i st st' t -> J st' (l ++ t).

    Definition kept (l : events) (calls : list Call -> Prop) st' (t : events) : Prop :=
      calls (map fst t) /\ good t /\ P st' /\ J st' (l ++ t).

    Lemma shadows_segment : forall m a g i st u l, In g groups -> P st -> J st l ->
      shadows l (segment draws op cb m a g i (st, u)) (segment draws op (spy cb) m a g i (st, (u, l)))
        (kept l (segment_calls op m g i)).
    Proof.
      intros m a g i st u l Hg HP HJ. pose proof (segment_spy m a g i st u l Hg HP) as H.
      destruct (segment draws op cb m a g i (st, u)) as [[st' u']|e] eqn:E; cbn [shadows] in *; [|exact H].
      destruct H as (t & Et & Ht). exists t. split; [exact Et|]. pose proof Ht as (H1 & H2 & H3 & _).
      split; [exact H1|]. split; [exact H2|]. split; [exact H3|]. exact (J_segment m a g i st u st' u' l t Hg HP HJ E Ht).
    Qed.

    (** One run after the other *)
    Lemma shadows_fold : forall X (one : X -> list Call -> Prop)
        (f : FState T * U -> X -> res (FState T * U)) (f' : FState T * (U * events) -> X -> res (FState T * (U * events))) xs st u l,
      (forall x st u l, In x xs -> P st -> J st l -> shadows l (f (st, u) x) (f' (st, (u, l)) x) (kept l (one x))) ->
      P st -> J st l ->
      shadows l (foldM f (st, u) xs) (foldM f' (st, (u, l)) xs) (kept l (in_turn one xs)).
    Proof.
      intros X one f f'. induction xs as [|x xs IH]; intros st u l Hf HP HJ; cbn [foldM].
      - exists []. rewrite app_nil_r. split; [reflexivity|]. split; [constructor|]. split; [constructor|]. rewrite app_nil_r. auto.
      - pose proof (Hf x st u l (or_introl eq_refl) HP HJ) as H.
        destruct (f (st, u) x) as [[st1 u1]|e]; cbn [shadows bind] in *; [|rewrite H; reflexivity].
        destruct H as (t1 & -> & C1 & G1 & P1 & J1). cbn [bind].
        pose proof (IH st1 u1 (l ++ t1) (fun x st u l Hx => Hf x st u l (or_intror Hx)) P1 J1) as H2.
        destruct (foldM f (st1, u1) xs) as [[st2 u2]|e]; cbn [shadows] in *; [|exact H2].
        destruct H2 as (t2 & E2 & C2 & G2 & P2 & J2). exists (t1 ++ t2). rewrite app_assoc. split; [exact E2|].
        split; [rewrite map_app; constructor; assumption|]. split; [apply Forall_app; auto|]. split; [exact P2|]. rewrite app_assoc. exact J2.
    Qed.

    Lemma outer_wrap : forall first last A (one : A -> list Call -> Prop) xs l st1 t st2,
      outer first -> outer last -> P st1 -> P st2 -> good t -> in_turn one xs (map fst t) ->
      J st2 ((l ++ [(first, st1)]) ++ t) ->
      kept l (between first last one xs) st2 ((first, st1) :: t ++ [(last, st2)]).
    Proof.
      intros first last A one xs l st1 t st2 O1 O2 P1 P2 G C HJ. split; [|split; [|split]].
      - cbn [map fst]. rewrite map_app. constructor. exact C.
      - constructor; [exact P1|]. apply Forall_app. split; [exact G|repeat constructor; exact P2].
      - exact P2.
      - replace (l ++ (first, st1) :: t ++ [(last, st2)]) with (((l ++ [(first, st1)]) ++ t) ++ [(last, st2)]) by (rewrite <- !app_assoc; reflexivity).
        apply J_outer; assumption.
    Qed.

    Lemma group_spy : forall m nrows a0 g st u l, In g groups -> P st -> J st l ->
      shadows l (group_run draws op cb m nrows a0 (st, u) g) (group_run draws op (spy cb) m nrows a0 (st, (u, l)) g)
        (kept l (group_calls op m nrows g)).
    Proof.
      intros m nrows a0 g st u l Hg HP HJ. unfold group_run. cbn [spy cb_pre_group cb_post_group].
      destruct (cb_pre_group cb a0 g st u) as [[a1 u1]|e]; cbn [bind shadows]; [|reflexivity].
      pose proof (shadows_fold nat (segment_calls op m g) (fun su i => segment draws op cb m a1 g i su)
        (fun su i => segment draws op (spy cb) m a1 g i su) (seq 0 nrows) st u1 (l ++ [(PreGroup (sg_group g), st)])) as H.
      specialize (H (fun i st u l _ HP HJ => shadows_segment m a1 g i st u l Hg HP HJ) HP (J_outer _ _ (PreGroup (sg_group g)) I HJ)).
      destruct (foldM _ (st, u1) (seq 0 nrows)) as [[st2 u2]|e]; cbn [shadows] in H; [|rewrite H; reflexivity].
      destruct H as (t & -> & C & G & P2 & J2). cbn [bind].
      destruct (cb_post_group cb a0 g st2 u2) as [u3|e]; cbn [bind shadows]; [|reflexivity].
      exists ((PreGroup (sg_group g), st) :: t ++ [(PostGroup (sg_group g), st2)]).
      split; [do 3 f_equal; rewrite <- !app_assoc; reflexivity|]. apply outer_wrap; cbn; auto.
    Qed.

    Lemma row_spy : forall m a0 i st u l, P st -> J st l ->
      shadows l (row_run draws op cb m groups a0 (st, u) i) (row_run draws op (spy cb) m groups a0 (st, (u, l)) i)
        (kept l (row_calls op m groups i)).
    Proof.
      intros m a0 i st u l HP HJ. unfold row_run. cbn [spy cb_pre_row cb_post_row].
      destruct (cb_pre_row cb a0 i st u) as [[a1 u1]|e]; cbn [bind shadows]; [|reflexivity].
      pose proof (shadows_fold Seg (fun g => segment_calls op m g i) (fun su g => segment draws op cb m a1 g i su)
        (fun su g => segment draws op (spy cb) m a1 g i su) groups st u1 (l ++ [(PreRow i, st)])) as H.
      specialize (H (fun g st u l Hg HP HJ => shadows_segment m a1 g i st u l Hg HP HJ) HP (J_outer _ _ (PreRow i) I HJ)).
      destruct (foldM _ (st, u1) groups) as [[st2 u2]|e]; cbn [shadows] in H; [|rewrite H; reflexivity].
      destruct H as (t & -> & C & G & P2 & J2). cbn [bind].
      destruct (cb_post_row cb a0 i st2 u2) as [u3|e]; cbn [bind shadows]; [|reflexivity].
      exists ((PreRow i, st) :: t ++ [(PostRow i, st2)]).
      split; [do 3 f_equal; rewrite <- !app_assoc; reflexivity|]. apply outer_wrap; cbn; auto.
    Qed.

    Lemma simulate_spy : forall m nrows ncols lens cash init u, groups = segs 0 0 lens -> P init -> J init [] ->
      shadows [] (simulate_nb draws op cb m nrows ncols lens cash init u)
        (simulate_nb draws op (spy cb) m nrows ncols lens cash init (u, []))
        (kept [] (simulation_calls op m nrows groups)).
    Proof.
      intros m nrows ncols lens cash init u Hg HP HJ. unfold simulate_nb, check_groups.
      destruct (negb (Nat.eqb (sum_lens lens) ncols)); cbn [raise_if shadows]; [reflexivity|].
      destruct (negb (Nat.eqb (List.length cash) _)); cbn [raise_if shadows]; [reflexivity|].
      cbn [spy cb_pre_sim cb_post_sim]. rewrite <- Hg.
      destruct (cb_pre_sim cb init u) as [[a0 u1]|e]; cbn [bind shadows]; [|reflexivity].
      pose proof (shadows_fold Seg (group_calls op m nrows) (group_run draws op cb m nrows a0)
        (group_run draws op (spy cb) m nrows a0) groups init u1 ([] ++ [(PreSim, init)])) as H.
      specialize (H (fun g st u l Hg HP HJ => group_spy m nrows a0 g st u l Hg HP HJ) HP (J_outer _ _ PreSim I HJ)).
      destruct (foldM (group_run draws op cb m nrows a0) (init, u1) groups) as [[st2 u2]|e]; cbn [shadows] in H; [|rewrite H; reflexivity].
      destruct H as (t & -> & C & G & P2 & J2). cbn [bind].
      destruct (cb_post_sim cb st2 u2) as [u3|e]; cbn [bind shadows]; [|reflexivity].
      exists ((PreSim, init) :: t ++ [(PostSim, st2)]). split; [reflexivity|]. apply outer_wrap; cbn; auto.
    Qed.

    Lemma simulate_row_wise_spy : forall m nrows ncols lens cash init u, groups = segs 0 0 lens -> P init -> J init [] ->
      shadows [] (simulate_row_wise_nb draws op cb m nrows ncols lens cash init u)
        (simulate_row_wise_nb draws op (spy cb) m nrows ncols lens cash init (u, []))
        (kept [] (row_simulation_calls op m nrows groups)).
    Proof.
      intros m nrows ncols lens cash init u Hg HP HJ. unfold simulate_row_wise_nb, check_groups.
      destruct (negb (Nat.eqb (sum_lens lens) ncols)); cbn [raise_if shadows]; [reflexivity|].
      destruct (negb (Nat.eqb (List.length cash) _)); cbn [raise_if shadows]; [reflexivity|].
      cbn [spy cb_pre_sim cb_post_sim]. rewrite <- Hg.
      destruct (cb_pre_sim cb init u) as [[a0 u1]|e]; cbn [bind shadows]; [|reflexivity].
      pose proof (shadows_fold nat (row_calls op m groups) (row_run draws op cb m groups a0)
        (row_run draws op (spy cb) m groups a0) (seq 0 nrows) init u1 ([] ++ [(PreSim, init)])) as H.
      specialize (H (fun i st u l _ HP HJ => row_spy m a0 i st u l HP HJ) HP (J_outer _ _ PreSim I HJ)).
      destruct (foldM (row_run draws op cb m groups a0) (init, u1) (seq 0 nrows)) as [[st2 u2]|e]; cbn [shadows] in H; [|rewrite H; reflexivity].
      destruct H as (t & -> & C & G & P2 & J2). cbn [bind].
      destruct (cb_post_sim cb st2 u2) as [u3|e]; cbn [bind shadows]; [|reflexivity].
      exists ((PreSim, init) :: t ++ [(PostSim, st2)]). split; [reflexivity|]. apply outer_wrap; cbn; auto.
    Qed.
  End Inv.
End Spy.
