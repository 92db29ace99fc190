(** * Simulation from signals: chronology and number of the order records *)
From Coq Require Import String ZArith Bool List Arith Lia Permutation Sorting.
From Verif Require Import Base Num Order OrderGen Records RecordLemmas CallSeq Account Simulate SimSpec SimLemmas SimLemmas2
  CallSeqLemmas SimLemmas3 SimLemmas4 FromSignals FromSignalsSpec FromSignalsLemmas2 FromSignalsLemmas3.
Import ListNotations.
Local Open Scope nat_scope.
Local Open Scope list_scope.

Section SChron.
  Context {T : Type} {N : Num T}.
  Implicit Types (st : SSim T) (inp : SigInputs T) (fl : SigFlags).

  Lemma sig_order_step_orders : forall draws inp fl sh i g f len st k st',
    k < len -> sig_order_step draws inp fl sh i g f len st k = Ok st' ->
    exists a, rc_orders (ss_rc st') = rc_orders (ss_rc st) ++ a /\ length a <= 1 /\
      Forall (fun r => or_idx r = i /\ or_col r = f + (if sh then ss_seq st i (f + k) else k)) a /\
      ss_seq st' = ss_seq st.
  Proof.
    intros draws inp fl sh i g f len st k st' Hk H. unfold sig_order_step in H.
    apply bind_ok in H as (col & Hc & H).
    destruct (neb _ _).
    2:{ injection H as <-. exists []. rewrite app_nil_r. cbn. auto. }
    apply bind_ok in H as ([[r s'] rc'] & Hp & E).
    injection E as <-. cbn.
    apply pick_col_in in Hc as (j & Hj & -> & J1 & J2); auto.
    apply process_order_inv in Hp as (es & _ & _ & _ & _ & _ & Ho & _).
    rewrite Ho. destruct (is_filled r).
    - eexists; split; [reflexivity|]. split; [cbn; lia|]. split; auto. constructor; auto. cbn. split; auto.
      destruct sh; [rewrite J1|rewrite J2]; auto.
    - exists []. rewrite app_nil_r. cbn. auto.
  Qed.

  Lemma sig_orders_fold : forall draws inp fl sh i g f len l st st',
    (forall k, In k l -> k < len) ->
    foldM (sig_order_step draws inp fl sh i g f len) st l = Ok st' ->
    exists a, rc_orders (ss_rc st') = rc_orders (ss_rc st) ++ a /\ length a <= length l /\
      Forall (fun r => or_idx r = i /\ In (or_col r) (map (fun k => f + (if sh then ss_seq st i (f + k) else k)) l)) a /\
      (NoDup (map (fun k => f + (if sh then ss_seq st i (f + k) else k)) l) -> NoDup (map or_col a)) /\
      ss_seq st' = ss_seq st.
  Proof.
    intros draws inp fl sh i g f len l. induction l as [|k l IH]; intros st st' Hl H; cbn [foldM] in H.
    - injection H as <-. exists []. rewrite app_nil_r. cbn. repeat split; auto.
    - apply bind_ok in H as (m & H1 & H2).
      apply sig_order_step_orders in H1 as (a1 & E1 & L1 & F1 & S1); [|apply Hl; left; auto].
      apply IH in H2 as (a2 & E2 & L2 & F2 & N2 & S2); [|intros; apply Hl; right; auto].
      rewrite S1 in *. exists (a1 ++ a2). rewrite E2, E1, app_assoc. split; auto.
      split; [rewrite app_length; cbn; lia|]. split; [|split].
      + apply Forall_app. split.
        * eapply Forall_impl; [|exact F1]. cbn. intros r [? ->]. auto.
        * eapply Forall_impl; [|exact F2]. cbn. intros r [? ?]. auto.
      + cbn [map]. intros ND. inversion ND as [|? ? Hni ND']; subst.
        destruct a1 as [|r [|? ?]]; cbn in L1; [|..|lia]; cbn; auto.
        inversion F1 as [|? ? [_ Hr] _]; subst. constructor; auto. rewrite Hr.
        intros Hin. apply in_map_iff in Hin as (r2 & Hr2 & Hin). rewrite Forall_forall in F2.
        destruct (F2 _ Hin) as [_ C]. rewrite Hr2 in C. auto.
      + auto.
  Qed.

  Lemma sig_sort_row : forall fl sh i f len st,
    Permutation (map (fun k => ss_seq st i (f + k)) (seq 0 len))
                (map (fun k => ss_seq (sig_sort_step fl sh i f len st) i (f + k)) (seq 0 len)).
  Proof.
    intros fl [] i f len st; cbn; auto. destruct (auto_call_seq (sf_base fl)); auto.
    match goal with |- context [insert_argsort_nb ?p] => set (pairs := p) end.
    assert (Lp : length (map snd (insert_argsort_nb pairs)) = len).
    { rewrite map_length, argsort_length. unfold pairs. rewrite map_length, seq_length. auto. }
    assert (E : map (fun k => set_slice (ss_seq st) i f (map snd (insert_argsort_nb pairs)) i (f + k)) (seq 0 len)
                = map snd (insert_argsort_nb pairs)).
    { apply nth_ext with (d := 0) (d' := 0).
      - rewrite map_length, seq_length. auto.
      - intros n Hn. rewrite map_length, seq_length in Hn.
        set (F := fun k => set_slice (ss_seq st) i f (map snd (insert_argsort_nb pairs)) i (f + k)).
        rewrite (nth_indep (map F (seq 0 len)) 0 (F 0)) by (rewrite map_length, seq_length; auto).
        rewrite map_nth. unfold F. rewrite seq_nth by auto. cbn [Nat.add]. unfold set_slice.
        rewrite Nat.eqb_refl, Lp. rewrite (proj2 (Nat.leb_le f (f + n))) by lia.
        rewrite (proj2 (Nat.ltb_lt (f + n) (f + len))) by lia. cbn [andb].
        f_equal. lia. }
    rewrite E. eapply perm_trans; [|apply Permutation_map, argsort_perm].
    unfold pairs. rewrite map_map. cbn. auto.
  Qed.

  Lemma sig_sort_rc : forall fl sh i f len st, ss_rc (sig_sort_step fl sh i f len st) = ss_rc st.
  Proof. intros fl [] i f len st; reflexivity. Qed.

  Lemma sig_bar_orders : forall draws inp fl sh g f len st i st',
    sig_bar_step draws inp fl sh g f len st i = Ok st' ->
    exists a, rc_orders (ss_rc st') = rc_orders (ss_rc st) ++ a /\ length a <= len /\
      Forall (fun r => or_idx r = i) a /\
      ((sh = true -> NoDup (map (fun k => ss_seq st i (f + k)) (seq 0 len))) -> NoDup (map or_col a)) /\
      (forall i' c, i' <> i -> ss_seq st' i' c = ss_seq st i' c).
  Proof.
    intros draws inp fl sh g f len st i st' H. unfold sig_bar_step, sig_prepare in H.
    apply bind_ok in H as (m & H1 & H). apply bind_ok in H1 as (cols & _ & E1). injection E1 as <-.
    match type of H with foldM _ (sig_sort_step _ _ _ _ _ ?s) _ = _ => set (s0 := s) in * end.
    apply sig_orders_fold in H as (a & E & L & F & ND & S);
      [|intros k Hk; apply in_seq in Hk; lia].
    exists a. rewrite sig_sort_rc in E. rewrite seq_length in L. split; auto. split; auto.
    split; [eapply Forall_impl; [|exact F]; cbn; tauto|]. split.
    - intros Hn. apply ND. destruct sh.
      + specialize (Hn eq_refl).
        rewrite <- (map_map (fun k => ss_seq _ i (f + k)) (fun x => f + x)).
        apply NoDup_map_plus. eapply Permutation_NoDup; [apply sig_sort_row|]. auto.
      + apply NoDup_map_plus. apply seq_NoDup.
    - intros i' c Hi. rewrite S. destruct sh; cbn [sig_sort_step ss_seq]; [|auto].
      destruct (auto_call_seq (sf_base fl)); [|auto]. unfold set_slice.
      rewrite (proj2 (Nat.eqb_neq i' i) Hi). cbn. auto.
  Qed.

  Lemma sig_bars_orders : forall draws inp fl sh g f len s n b st st',
    foldM (sig_bar_step draws inp fl sh g f len) st (seq b n) = Ok st' ->
    (s = true -> sh = true -> forall i, b <= i < b + n -> NoDup (map (fun k => ss_seq st i (f + k)) (seq 0 len))) ->
    exists a, rc_orders (ss_rc st') = rc_orders (ss_rc st) ++ a /\ length a <= n * len /\
      Forall (fun r => b <= or_idx r < b + n) a /\ ForallOrdPairs (later s) a.
  Proof.
    intros draws inp fl sh g f len s n. induction n as [|n IH]; intros b st st' H HN; cbn [seq foldM] in H.
    - injection H as <-. exists []. rewrite app_nil_r. cbn. repeat split; auto. constructor.
    - apply bind_ok in H as (m & H1 & H2).
      apply sig_bar_orders in H1 as (a1 & E1 & L1 & F1 & N1 & S1).
      apply IH in H2 as (a2 & E2 & L2 & F2 & O2).
      2:{ intros Hs Hsh i Hi. erewrite map_ext; [apply (HN Hs Hsh i); lia|].
          intros k. cbn. apply S1. lia. }
      exists (a1 ++ a2). rewrite E2, E1, app_assoc. split; auto.
      split; [rewrite app_length; cbn; lia|]. split.
      + apply Forall_app; split; (eapply Forall_impl; [|eassumption]); cbn; intros; lia.
      + apply fop_later_app; auto.
        * eapply same_bar_later; eauto. intros Hs. apply N1. intros Hsh. apply HN; auto. lia.
        * intros x y Hx Hy. rewrite Forall_forall in F1, F2. specialize (F1 _ Hx). specialize (F2 _ Hy).
          intros _. destruct s; lia.
  Qed.

  Lemma sig_groups_orders : forall draws inp fl sh nrows s lens g from init st st',
    sig_groups draws inp fl sh nrows g from lens init st = Ok st' ->
    (s = true -> sh = true -> forall i k len, i < nrows -> nth_error lens k = Some len ->
       NoDup (map (ss_seq st i) (seq (from + sum_lens (firstn k lens)) len))) ->
    exists a, rc_orders (ss_rc st') = rc_orders (ss_rc st) ++ a /\ length a <= nrows * sum_lens lens /\
      Forall (fun r => from <= or_col r < from + sum_lens lens /\ or_idx r < nrows) a /\
      ForallOrdPairs (later s) a.
  Proof.
    intros draws inp fl sh nrows s lens. induction lens as [|len lens IH]; intros g from init st st' H HN.
    - cbn in H. injection H as <-. exists []. rewrite app_nil_r. cbn. repeat split; auto; [lia|constructor].
    - pose proof (sig_groups_one _ _ _ _ _ _ _ _ _ _ _ H) as [_ [(aa & Eaa & Faa) _]].
      cbn [sig_groups] in H.
      destruct (nth_error init g) as [c|]; [|discriminate].
      apply bind_ok in H as (m & H1 & H2). unfold sig_group in H1.
      pose proof (sig_bars_one _ _ _ _ _ _ _ _ _ _ H1) as [K1 [[(x1 & X1 & Fx1) _] _]].
      cbn [ss_rc] in X1.
      apply (sig_bars_orders _ _ _ _ _ _ _ s) in H1 as (a1 & E1 & L1 & F1 & O1).
      2:{ intros Hs Hsh i Hi. cbn [ss_seq].
          specialize (HN Hs Hsh i 0 len ltac:(lia) eq_refl). cbn [firstn sum_lens fold_right] in HN.
          rewrite Nat.add_0_r in HN. rewrite <- (map_map (fun k => from + k) (ss_seq st i)).
          replace (map (fun k => from + k) (seq 0 len)) with (seq from len); auto.
          clear. rewrite <- (Nat.add_0_r from) at 1. generalize 0.
          induction len as [|len IHl]; intros n; cbn; auto. f_equal. rewrite <- IHl. f_equal. lia. }
      cbn [ss_rc] in E1.
      pose proof (sig_groups_one _ _ _ _ _ _ _ _ _ _ _ H2) as [_ [(x2 & X2 & Fx2) _]].
      apply IH in H2 as (a2 & E2 & L2 & F2 & O2).
      2:{ intros Hs Hsh i k len' Hi Hk. specialize (HN Hs Hsh i (S k) len' Hi Hk).
          cbn [firstn sum_lens fold_right] in HN. fold (sum_lens (firstn k lens)) in HN.
          rewrite Nat.add_assoc in HN. erewrite map_ext_in; [exact HN|].
          intros c' Hc'. apply in_seq in Hc'. destruct K1 as [_ K1 _]. rewrite K1; cbn; auto. right. lia. }
      rewrite E1 in X1. apply app_inv_head in X1 as <-. rewrite E2 in X2. apply app_inv_head in X2 as <-.
      assert (Eq : aa = a1 ++ a2). { rewrite E2, E1, <- app_assoc in Eaa. apply app_inv_head in Eaa. auto. }
      subst aa. exists (a1 ++ a2). split; auto. change (sum_lens (len :: lens)) with (len + sum_lens lens) in *.
      split; [rewrite app_length; lia|]. split; [exact Faa|].
      apply fop_later_app; auto. intros x y Hx Hy Ec. rewrite Forall_forall in Fx1, Fx2.
      specialize (Fx1 _ Hx). specialize (Fx2 _ Hy). cbn in *. lia.
  Qed.

  Lemma sig_orders_chronological : forall draws rng nrows ncols lens init inp fl mo ml o l s,
    simulate_from_signal_func_nb draws rng nrows ncols lens init inp fl mo ml = Ok (o, l, s) ->
    Forall (fun r => or_col r < ncols /\ or_idx r < nrows) o /\
    length o <= nrows * ncols /\
    ForallOrdPairs (fun a b => or_col a = or_col b -> or_idx a <= or_idx b) o.
  Proof.
    intros draws rng nrows ncols lens init inp fl mo ml o l s H. unfold simulate_from_signal_func_nb in H.
    apply raise_if_ok in H as [C1 H]. apply raise_if_ok in H as [_ H].
    apply bind_ok in H as (m & H & E). injection E as <- <- <-.
    apply negb_false_iff, Nat.eqb_eq in C1. subst ncols.
    apply (sig_groups_orders _ _ _ _ _ false) in H as (a & E & L & F & O); [|discriminate].
    cbn in E. rewrite E. split; [eapply Forall_impl; [|exact F]; cbn; lia|]. split; auto.
  Qed.

  Lemma sig_orders_one_per_bar : forall draws rng nrows ncols lens init inp fl mo ml o l s,
    simulate_from_signal_func_nb draws rng nrows ncols lens init inp fl mo ml = Ok (o, l, s) ->
    (forall i g len, i < nrows -> nth_error lens g = Some len ->
       NoDup (map (in_call_seq (si_base inp) i) (seq (sum_lens (firstn g lens)) len))) ->
    ForallOrdPairs (fun a b => or_col a = or_col b -> or_idx a < or_idx b) o.
  Proof.
    intros draws rng nrows ncols lens init inp fl mo ml o l s H HN. unfold simulate_from_signal_func_nb in H.
    apply raise_if_ok in H as [C1 H]. apply raise_if_ok in H as [_ H].
    apply bind_ok in H as (m & H & E). injection E as <- <- <-.
    apply (sig_groups_orders _ _ _ _ _ true) in H as (a & E & L & F & O); [|intros; apply HN; auto].
    cbn in E. rewrite E. auto.
  Qed.

  (** ** The default buffer is large enough *)
  Ltac nx := repeat first
    [ apply noidx_ok
    | apply noidx_raise; [discriminate|]
    | apply noidx_bind; [|intros]
    | match goal with
      | |- noidx (Err _) => let E := fresh in intros E; discriminate E
      | |- noidx (if ?c then _ else _) => destruct c
      | |- noidx (match ?x with _ => _ end) => destruct x
      end ].

  Lemma noidx_signals_to_size : forall (p : T) s size t a vp, noidx (signals_to_size_nb p s size t a vp).
  Proof.
    intros. unfold signals_to_size_nb, reversal_size, sdiv. nx.
  Qed.
  Lemma noidx_stop_step : forall inp fl i c (x : Col T), noidx (stop_step inp fl i c x).
  Proof.
    intros. unfold stop_step, stop_hit, get_stop_price_nb, resolve_bar. nx.
  Qed.
  Lemma noidx_signal_step : forall inp fl i cash free cols c, noidx (signal_step inp fl i cash free cols c).
  Proof.
    intros. unfold signal_step. apply noidx_bind; [apply noidx_stop_step|]. intros [sp stops] _.
    destruct (pick_signals _ _ _ _ _ _) as [[s acc] [price slip]].
    apply noidx_bind; [apply noidx_signals_to_size|]. intros [[size stype] dir] _. apply noidx_ok.
  Qed.
  Lemma noidx_fold : forall A B (f : A -> B -> res A) l a, (forall a b, noidx (f a b)) -> noidx (foldM f a l).
  Proof.
    intros A B f l. induction l as [|b l IH]; intros a H; cbn [foldM]; [apply noidx_ok|].
    apply noidx_bind; auto.
  Qed.
  Lemma noidx_prepare : forall inp fl sh f len st i, noidx (sig_prepare inp fl sh f len st i).
  Proof.
    intros. unfold sig_prepare. apply noidx_bind; [|intros; apply noidx_ok].
    apply noidx_fold. intros. apply noidx_signal_step.
  Qed.

  Lemma sig_order_step_full : forall draws inp fl sh i g f len st k,
    length (rc_orders (ss_rc st)) < rc_max_orders (ss_rc st) ->
    noidx (sig_order_step draws inp fl sh i g f len st k).
  Proof.
    intros draws inp fl sh i g f len st k H.
    unfold sig_order_step. apply noidx_bind.
    - unfold pick_col. nx.
    - intros col _. destruct (neb _ _); [|apply noidx_ok]. apply noidx_bind; [|intros; nx].
      unfold process_order_nb. apply noidx_bind; [apply noidx_execute|].
      intros [[es r] rng'] _. apply noidx_raise; [discriminate|].
      destruct (if is_filled r && update_value (sf_base fl) then _ else _) as [v1 v2].
      rewrite (proj2 (Nat.leb_gt _ _)) by exact H. rewrite andb_false_r. cbn [raise_if]. nx.
  Qed.

  Lemma foldM_sroom : forall A (f : SSim T -> A -> res (SSim T)) w l st,
    (forall st a, In a l -> (length (rc_orders (ss_rc st)) + w <= rc_max_orders (ss_rc st)) -> noidx (f st a)) ->
    (forall st a st', In a l -> f st a = Ok st' ->
       length (rc_orders (ss_rc st')) <= length (rc_orders (ss_rc st)) + w /\ rc_max_orders (ss_rc st') = rc_max_orders (ss_rc st)) ->
    length (rc_orders (ss_rc st)) + length l * w <= rc_max_orders (ss_rc st) ->
    noidx (foldM f st l).
  Proof.
    intros A f w l. induction l as [|a l IH]; intros st H1 H2 H; cbn [foldM]; [apply noidx_ok|].
    cbn [length Nat.mul] in H.
    destruct (f st a) as [m|e] eqn:E.
    - cbn [bind]. destruct (H2 _ _ _ (or_introl eq_refl) E) as [L M]. apply IH; [| |lia].
      + intros st0 a0 Ha. apply H1; right; auto.
      + intros st0 a0 st0' Ha. apply H2; right; auto.
    - cbn [bind]. rewrite <- E. apply H1; [left; auto|]. lia.
  Qed.

  Lemma sig_bar_full : forall draws inp fl sh g f len st i,
    length (rc_orders (ss_rc st)) + len <= rc_max_orders (ss_rc st) ->
    noidx (sig_bar_step draws inp fl sh g f len st i).
  Proof.
    intros draws inp fl sh g f len st i H. unfold sig_bar_step.
    apply noidx_bind; [apply noidx_prepare|]. intros m E.
    assert (R : ss_rc m = ss_rc st).
    { unfold sig_prepare in E. apply bind_ok in E as (cols & _ & E1). injection E1 as <-. rewrite sig_sort_rc; reflexivity. }
    apply foldM_sroom with (w := 1).
    - intros st0 k _ Hr. apply sig_order_step_full. lia.
    - intros st0 k st0' Hk E0. apply in_seq in Hk.
      pose proof (sig_order_step_one _ _ _ _ _ _ _ _ _ _ _ (proj2 Hk) E0) as (j & _ & _ & _ & [_ _ K] & _).
      apply sig_order_step_orders in E0 as (a & E0 & L & _); [|lia].
      rewrite E0, app_length. split; [lia|]. apply K.
    - rewrite R, seq_length. lia.
  Qed.

  Lemma sig_groups_full : forall draws inp fl sh nrows lens g from init st,
    length (rc_orders (ss_rc st)) + nrows * sum_lens lens <= rc_max_orders (ss_rc st) ->
    noidx (sig_groups draws inp fl sh nrows g from lens init st).
  Proof.
    intros draws inp fl sh nrows lens. induction lens as [|len lens IH]; intros g from init st H; cbn [sig_groups]; [apply noidx_ok|].
    change (sum_lens (len :: lens)) with (len + sum_lens lens) in H.
    destruct (nth_error init g) as [c|]; [|discriminate].
    apply noidx_bind.
    - unfold sig_group. apply foldM_sroom with (w := len); cbn [ss_rc].
      + intros st0 i _ Hr. apply sig_bar_full. auto.
      + intros st0 i st0' _ E. pose proof (sig_bar_one _ _ _ _ _ _ _ _ _ _ E) as [[_ _ K] _].
        apply sig_bar_orders in E as (a & E & L & _). rewrite E, app_length. split; [lia|]. apply K.
      + rewrite seq_length. lia.
    - intros m E. apply IH. unfold sig_group in E.
      pose proof (sig_bars_one _ _ _ _ _ _ _ _ _ _ E) as [[_ _ [M _]] _].
      apply (sig_bars_orders _ _ _ _ _ _ _ false) in E as (a & E & L & _); [|discriminate].
      cbn [ss_rc] in *. rewrite M, E, app_length. lia.
  Qed.

  Lemma sig_default_buffer_suffices : forall draws rng nrows ncols lens init inp fl ml,
    simulate_from_signal_func_nb draws rng nrows ncols lens init inp fl None ml <> Err full_orders.
  Proof.
    intros draws rng nrows ncols lens init inp fl ml. unfold simulate_from_signal_func_nb.
    destruct (Nat.eqb_spec (sum_lens lens) ncols) as [<-|?]; cbn [negb raise_if]; [|discriminate].
    apply noidx_raise; [discriminate|]. apply noidx_bind; [|intros; apply noidx_ok].
    apply sig_groups_full. cbn. lia.
  Qed.
End SChron.
