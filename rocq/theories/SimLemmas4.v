(** * Chronology and number of the order records of a simulation (C14) *)
From Coq Require Import String ZArith Bool List Arith Lia Permutation Sorting.
From Verif Require Import Base Num Order OrderGen Records RecordLemmas CallSeq Simulate SimSpec SimLemmas SimLemmas2 CallSeqLemmas SimLemmas3.
Import ListNotations.
Open Scope list_scope.
Open Scope nat_scope.

Section SimLemmas4.
  Context {T : Type} {N : Num T}.
  Implicit Types (inp : Inputs T) (fl : Flags) (st : Sim T).

  Definition later (strict : bool) (a b : OrderRec T) : Prop :=
    or_col a = or_col b -> if strict then or_idx a < or_idx b else or_idx a <= or_idx b.

  Lemma order_step_orders : forall draws inp fl sh i g f len st k st',
    k < len -> order_step draws inp fl sh i g f len st k = Ok st' ->
    exists a, rc_orders (sm_rc st') = rc_orders (sm_rc st) ++ a /\ length a <= 1 /\
      Forall (fun r => or_idx r = i /\ or_col r = f + (if sh then sm_seq st i (f + k) else k)) a /\
      sm_seq st' = sm_seq st.
  Proof.
    intros draws inp fl sh i g f len st k st' Hk H. unfold order_step in H.
    apply bind_ok in H as (col & Hc & H). apply bind_ok in H as ([[r s'] rc'] & Hp & E).
    injection E as <-. cbn.
    apply pick_col_in in Hc as (j & Hj & -> & J1 & J2); auto.
    apply process_order_inv in Hp as (es & _ & _ & _ & _ & _ & Ho & _).
    rewrite Ho. destruct (is_filled r).
    - eexists; split; [reflexivity|]. split; [cbn; lia|]. split; auto. constructor; auto. cbn. split; auto.
      destruct sh; [rewrite J1|rewrite J2]; auto.
    - exists []. rewrite app_nil_r. cbn. auto.
  Qed.

  Lemma orders_fold : forall draws inp fl sh i g f len l st st',
    (forall k, In k l -> k < len) ->
    foldM (order_step draws inp fl sh i g f len) st l = Ok st' ->
    exists a, rc_orders (sm_rc st') = rc_orders (sm_rc st) ++ a /\ length a <= length l /\
      Forall (fun r => or_idx r = i /\ In (or_col r) (map (fun k => f + (if sh then sm_seq st i (f + k) else k)) l)) a /\
      (NoDup (map (fun k => f + (if sh then sm_seq st i (f + k) else k)) l) -> NoDup (map or_col a)) /\
      sm_seq st' = sm_seq st.
  Proof.
    intros draws inp fl sh i g f len l. induction l as [|k l IH]; intros st st' Hl H; cbn [foldM] in H.
    - injection H as <-. exists []. rewrite app_nil_r. cbn. repeat split; auto.
    - apply bind_ok in H as (m & H1 & H2).
      apply order_step_orders in H1 as (a1 & E1 & L1 & F1 & S1); [|apply Hl; left; auto].
      apply IH in H2 as (a2 & E2 & L2 & F2 & N2 & S2); [|intros; apply Hl; right; auto].
      rewrite S1 in *. exists (a1 ++ a2). rewrite E2, E1, app_assoc. split; auto.
      split; [rewrite app_length; cbn; lia|]. split; [|split].
      + apply Forall_app. split.
        * eapply Forall_impl; [|exact F1]. cbn. intros r [? ->]. auto.
        * eapply Forall_impl; [|exact F2]. cbn. intros r [? ?]. auto.
      + cbn [map]. intros ND. inversion ND as [|? ? Hni ND']; subst.
        destruct a1 as [|r [|? ?]]; cbn in L1; [|..|lia]; cbn; auto.
        inversion F1 as [|? ? [_ Hr] _]; subst. constructor; auto. rewrite Hr.
        intros Hin. apply in_map_iff in Hin as (r2 & Hr2 & Hin). rewrite Forall_forall in F2.
        destruct (F2 _ Hin) as [_ C]. rewrite Hr2 in C. auto.
      + auto.
  Qed.

  (** The sorted row is a permutation of the given one. *)
  Lemma sort_row : forall inp fl sh i f len st,
    Permutation (map (fun k => sm_seq st i (f + k)) (seq 0 len))
                (map (fun k => sm_seq (sort_step inp fl sh i f len st) i (f + k)) (seq 0 len)).
  Proof.
    intros inp fl [] i f len st; cbn; auto. destruct (auto_call_seq fl); auto.
    match goal with |- context [insert_argsort_nb ?p] => set (pairs := p) end.
    assert (Lp : length (map snd (insert_argsort_nb pairs)) = len).
    { rewrite map_length, argsort_length. unfold pairs. rewrite map_length, seq_length. auto. }
    assert (E : map (fun k => set_slice (sm_seq st) i f (map snd (insert_argsort_nb pairs)) i (f + k)) (seq 0 len)
                = map snd (insert_argsort_nb pairs)).
    { apply nth_ext with (d := 0) (d' := 0).
      - rewrite map_length, seq_length. auto.
      - intros n Hn. rewrite map_length, seq_length in Hn.
        set (F := fun k => set_slice (sm_seq st) i f (map snd (insert_argsort_nb pairs)) i (f + k)).
        rewrite (nth_indep (map F (seq 0 len)) 0 (F 0)) by (rewrite map_length, seq_length; auto).
        rewrite map_nth. unfold F. rewrite seq_nth by auto. cbn [Nat.add]. unfold set_slice.
        rewrite Nat.eqb_refl, Lp. rewrite (proj2 (Nat.leb_le f (f + n))) by lia.
        rewrite (proj2 (Nat.ltb_lt (f + n) (f + len))) by lia. cbn [andb].
        f_equal. lia. }
    rewrite E. eapply perm_trans; [|apply Permutation_map, argsort_perm].
    unfold pairs. rewrite map_map. cbn. auto.
  Qed.

  Lemma NoDup_map_plus : forall f l, NoDup l -> NoDup (map (fun x => f + x) l).
  Proof.
    intros f l H. induction H; cbn; constructor; auto.
    rewrite in_map_iff. intros (y & E & Hy). assert (y = x) by lia. subst. auto.
  Qed.

  Lemma bar_orders : forall draws inp fl sh g f len st i st',
    bar_step draws inp fl sh g f len st i = Ok st' ->
    exists a, rc_orders (sm_rc st') = rc_orders (sm_rc st) ++ a /\ length a <= len /\
      Forall (fun r => or_idx r = i) a /\
      ((sh = true -> NoDup (map (fun k => sm_seq st i (f + k)) (seq 0 len))) -> NoDup (map or_col a)) /\
      (forall i' c, i' <> i -> sm_seq st' i' c = sm_seq st i' c).
  Proof.
    intros draws inp fl sh g f len st i st' H. unfold bar_step in H.
    destruct (price_step_rc inp fl i (seq f len) st) as (P1 & P2 & _).
    apply orders_fold in H as (a & E & L & F & ND & S);
      [|intros k Hk; apply in_seq in Hk; lia].
    exists a. rewrite sort_rc, P1 in E. rewrite seq_length in L. split; auto. split; auto.
    split; [eapply Forall_impl; [|exact F]; cbn; tauto|]. split.
    - intros Hn. apply ND. destruct sh.
      + specialize (Hn eq_refl).
        rewrite <- (map_map (fun k => sm_seq _ i (f + k)) (fun x => f + x)).
        apply NoDup_map_plus. eapply Permutation_NoDup; [apply sort_row|]. rewrite P2. auto.
      + apply NoDup_map_plus. apply seq_NoDup.
    - intros i' c Hi. rewrite S. destruct sh; cbn [sort_step sm_seq]; [|rewrite P2; auto].
      destruct (auto_call_seq fl); [|rewrite P2; auto]. unfold set_slice.
      rewrite (proj2 (Nat.eqb_neq i' i) Hi). cbn. rewrite P2. auto.
  Qed.

  Lemma fop_later_app : forall s l1 l2,
    ForallOrdPairs (later s) l1 -> ForallOrdPairs (later s) l2 ->
    (forall x y, In x l1 -> In y l2 -> later s x y) -> ForallOrdPairs (later s) (l1 ++ l2).
  Proof.
    intros s l1 l2 H1 H2 H. induction H1 as [|x l1 Hx H1 IH]; cbn; auto.
    constructor.
    - apply Forall_app. split; auto. apply Forall_forall. intros y Hy. apply H; [left|]; auto.
    - apply IH. intros; apply H; [right|]; auto.
  Qed.

  Lemma same_bar_later : forall s i a, Forall (fun r => or_idx r = i) a ->
    (s = true -> NoDup (map or_col a)) -> ForallOrdPairs (later s) a.
  Proof.
    intros s i a F. induction F as [|r a Hr F IH]; intros HN; constructor.
    - apply Forall_forall. intros y Hy. rewrite Forall_forall in F. specialize (F _ Hy). unfold later. intros Ec.
      destruct s; [|lia]. specialize (HN eq_refl). cbn in HN. inversion HN; subst.
      exfalso. match goal with H : ~ In _ _ |- _ => apply H end. rewrite Ec. apply in_map; auto.
    - apply IH. intros Es. specialize (HN Es). cbn in HN. inversion HN; auto.
  Qed.

  Lemma bars_orders : forall draws inp fl sh g f len s n b st st',
    foldM (bar_step draws inp fl sh g f len) st (seq b n) = Ok st' ->
    (s = true -> sh = true -> forall i, b <= i < b + n -> NoDup (map (fun k => sm_seq st i (f + k)) (seq 0 len))) ->
    exists a, rc_orders (sm_rc st') = rc_orders (sm_rc st) ++ a /\ length a <= n * len /\
      Forall (fun r => b <= or_idx r < b + n) a /\ ForallOrdPairs (later s) a.
  Proof.
    intros draws inp fl sh g f len s n. induction n as [|n IH]; intros b st st' H HN; cbn [seq foldM] in H.
    - injection H as <-. exists []. rewrite app_nil_r. cbn. repeat split; auto. constructor.
    - apply bind_ok in H as (m & H1 & H2).
      apply bar_orders in H1 as (a1 & E1 & L1 & F1 & N1 & S1).
      apply IH in H2 as (a2 & E2 & L2 & F2 & O2).
      2:{ intros Hs Hsh i Hi. erewrite map_ext; [apply (HN Hs Hsh i); lia|].
          intros k. cbn. apply S1. lia. }
      exists (a1 ++ a2). rewrite E2, E1, app_assoc. split; auto.
      split; [rewrite app_length; cbn; lia|]. split.
      + apply Forall_app; split; (eapply Forall_impl; [|eassumption]); cbn; intros; lia.
      + apply fop_later_app; auto.
        * eapply same_bar_later; eauto. intros Hs. apply N1. intros Hsh. apply HN; auto. lia.
        * intros x y Hx Hy. rewrite Forall_forall in F1, F2. specialize (F1 _ Hx). specialize (F2 _ Hy).
          intros _. destruct s; lia.
  Qed.

  Lemma groups_orders : forall draws inp fl sh nrows s lens g from init st st',
    sim_groups draws inp fl sh nrows g from lens init st = Ok st' ->
    (s = true -> sh = true -> forall i k len, i < nrows -> nth_error lens k = Some len ->
       NoDup (map (sm_seq st i) (seq (from + sum_lens (firstn k lens)) len))) ->
    exists a, rc_orders (sm_rc st') = rc_orders (sm_rc st) ++ a /\ length a <= nrows * sum_lens lens /\
      Forall (fun r => from <= or_col r < from + sum_lens lens /\ or_idx r < nrows) a /\
      ForallOrdPairs (later s) a.
  Proof.
    intros draws inp fl sh nrows s lens. induction lens as [|len lens IH]; intros g from init st st' H HN.
    - cbn in H. injection H as <-. exists []. rewrite app_nil_r. cbn. repeat split; auto; [lia|constructor].
    - pose proof (groups_one _ _ _ _ _ _ _ _ _ _ _ H) as [_ [(aa & Eaa & Faa) _]].
      cbn [sim_groups] in H.
      destruct (nth_error init g) as [c|]; [|discriminate].
      apply bind_ok in H as (m & H1 & H2). unfold sim_group in H1.
      pose proof (bars_one _ _ _ _ _ _ _ _ _ _ H1) as [K1 [(x1 & X1 & Fx1) _]].
      cbn [sm_rc] in X1.
      apply (bars_orders _ _ _ _ _ _ _ s) in H1 as (a1 & E1 & L1 & F1 & O1).
      2:{ intros Hs Hsh i Hi. cbn [sm_seq].
          specialize (HN Hs Hsh i 0 len ltac:(lia) eq_refl). cbn [firstn sum_lens fold_right] in HN.
          rewrite Nat.add_0_r in HN. rewrite <- (map_map (fun k => from + k) (sm_seq st i)).
          replace (map (fun k => from + k) (seq 0 len)) with (seq from len); auto.
          clear. rewrite <- (Nat.add_0_r from) at 1. generalize 0.
          induction len as [|len IHl]; intros n; cbn; auto. f_equal. rewrite <- IHl. f_equal. lia. }
      cbn [sm_rc] in E1.
      pose proof (groups_one _ _ _ _ _ _ _ _ _ _ _ H2) as [_ [(x2 & X2 & Fx2) _]].
      apply IH in H2 as (a2 & E2 & L2 & F2 & O2).
      2:{ intros Hs Hsh i k len' Hi Hk. specialize (HN Hs Hsh i (S k) len' Hi Hk).
          cbn [firstn sum_lens fold_right] in HN. fold (sum_lens (firstn k lens)) in HN.
          rewrite Nat.add_assoc in HN. erewrite map_ext_in; [exact HN|].
          intros c' Hc'. apply in_seq in Hc'. rewrite (kp_seq _ _ _ _ K1); cbn; auto. right. lia. }
      rewrite E1 in X1. apply app_inv_head in X1 as <-. rewrite E2 in X2. apply app_inv_head in X2 as <-.
      assert (Eq : aa = a1 ++ a2). { rewrite E2, E1, <- app_assoc in Eaa. apply app_inv_head in Eaa. auto. }
      subst aa. exists (a1 ++ a2). split; auto. change (sum_lens (len :: lens)) with (len + sum_lens lens) in *.
      split; [rewrite app_length; lia|]. split; [exact Faa|].
      apply fop_later_app; auto. intros x y Hx Hy Ec. rewrite Forall_forall in Fx1, Fx2.
      specialize (Fx1 _ Hx). specialize (Fx2 _ Hy). cbn in *. lia.
  Qed.

  Lemma sim_orders_chronological : forall draws rng nrows ncols lens init inp fl mo ml o l s,
    simulate_from_orders_nb draws rng nrows ncols lens init inp fl mo ml = Ok (o, l, s) ->
    Forall (fun r => or_col r < ncols /\ or_idx r < nrows) o /\
    length o <= nrows * ncols /\
    ForallOrdPairs (fun a b => or_col a = or_col b -> or_idx a <= or_idx b) o.
  Proof.
    intros draws rng nrows ncols lens init inp fl mo ml o l s H. unfold simulate_from_orders_nb in H.
    apply raise_if_ok in H as [C1 H]. apply raise_if_ok in H as [_ H].
    apply bind_ok in H as (m & H & E). injection E as <- <- <-.
    apply negb_false_iff, Nat.eqb_eq in C1. subst ncols.
    apply (groups_orders _ _ _ _ _ false) in H as (a & E & L & F & O); [|discriminate].
    cbn in E. rewrite E. split; [eapply Forall_impl; [|exact F]; cbn; lia|]. split; auto.
  Qed.

  Lemma sim_orders_one_per_bar : forall draws rng nrows ncols lens init inp fl mo ml o l s,
    simulate_from_orders_nb draws rng nrows ncols lens init inp fl mo ml = Ok (o, l, s) ->
    (forall i g len, i < nrows -> nth_error lens g = Some len ->
       NoDup (map (in_call_seq inp i) (seq (sum_lens (firstn g lens)) len))) ->
    ForallOrdPairs (fun a b => or_col a = or_col b -> or_idx a < or_idx b) o.
  Proof.
    intros draws rng nrows ncols lens init inp fl mo ml o l s H HN. unfold simulate_from_orders_nb in H.
    apply raise_if_ok in H as [C1 H]. apply raise_if_ok in H as [_ H].
    apply bind_ok in H as (m & H & E). injection E as <- <- <-.
    apply (groups_orders _ _ _ _ _ true) in H as (a & E & L & F & O); [|intros; apply HN; auto].
    cbn in E. rewrite E. auto.
  Qed.

  (** ** The default buffer is large enough *)
  Definition full_orders : err := IndexError "order_records index out of range. Set a higher max_orders."%string.

  Definition noidx {A} (r : res A) : Prop := r <> Err full_orders.

  Lemma noidx_bind : forall A B (x : res A) (f : A -> res B),
    noidx x -> (forall a, x = Ok a -> noidx (f a)) -> noidx (bind x f).
  Proof. intros A B [a|e] f Hx Hf; cbn; [auto|]. intros E. apply Hx. congruence. Qed.
  Lemma noidx_raise : forall A c e (k : res A), e <> full_orders -> noidx k -> noidx (raise_if c e k).
  Proof. intros A [] e k He Hk; cbn; auto. intros E. apply He. congruence. Qed.
  Lemma noidx_ok : forall A (a : A), noidx (Ok a).
  Proof. intros A a E. discriminate. Qed.

  Ltac nx := repeat first
    [ apply noidx_ok
    | apply noidx_raise; [discriminate|]
    | apply noidx_bind; [|intros]
    | match goal with
      | |- noidx (Err _) => let E := fresh in intros E; discriminate E
      | |- noidx (if ?c then _ else _) => destruct c
      | |- noidx (match ?x with _ => _ end) => destruct x
      end ].

  Lemma noidx_sdiv : forall a b : T, noidx (sdiv a b).
  Proof. intros a b. unfold sdiv. nx. Qed.
  Lemma noidx_granulate : forall a b : T, noidx (granulate a b).
  Proof. intros a b. unfold granulate, sfdiv. nx. Qed.
  Ltac nxx := repeat first [progress nx | apply noidx_granulate | apply noidx_sdiv | progress cbv beta zeta].

  Lemma noidx_buy : forall es size price d f ff sl mi ma gr lc ap p, noidx (buy_nb es size price d f ff sl mi ma gr lc ap p : res (ExecState T * _)).
  Proof.
    intros. unfold buy_nb, buy_cash_limit, buy_lock_limit, not_filled, buy_sized, buy_amounts, buy_fill, not_filled.
    nxx.
  Qed.
  Lemma noidx_sell : forall es size price d f ff sl mi ma gr lc ap p, noidx (sell_nb es size price d f ff sl mi ma gr lc ap p : res (ExecState T * _)).
  Proof.
    intros. unfold sell_nb, sell_limit, sell_short_limit, not_filled, sell_sized, sell_fill, not_filled.
    nxx.
  Qed.
  Ltac nxx0 := repeat first
    [ apply noidx_buy | apply noidx_sell | apply noidx_sdiv | apply noidx_ok
    | apply noidx_raise; [discriminate|]
    | apply noidx_bind; [|intros]
    | match goal with
      | |- noidx (Err _) => let E := fresh in intros E; discriminate E
      | |- noidx (if ?c then _ else _) => destruct c
      | |- noidx (match ?x with _ => _ end) => destruct x
      end ].

  Lemma noidx_execute : forall draws k (s : ProcState T) o, noidx (execute_order_nb draws k s o).
  Proof.
    intros. unfold execute_order_nb, check_state_order, resolve_size, resolve_value, buy_or_sell.
    nxx0.
  Qed.

  Lemma order_step_full : forall draws inp fl sh i g f len st k,
    length (rc_orders (sm_rc st)) < rc_max_orders (sm_rc st) ->
    order_step draws inp fl sh i g f len st k <> Err full_orders.
  Proof.
    intros draws inp fl sh i g f len st k H. change (noidx (order_step draws inp fl sh i g f len st k)).
    unfold order_step. apply noidx_bind.
    - unfold pick_col. nx.
    - intros col _. apply noidx_bind; [|intros; nx].
      unfold process_order_nb. apply noidx_bind; [apply noidx_execute|].
      intros [[es r] rng'] _. apply noidx_raise; [discriminate|].
      destruct (if is_filled r && update_value fl then _ else _) as [v1 v2].
      rewrite (proj2 (Nat.leb_gt _ _)) by exact H. rewrite andb_false_r. cbn [raise_if]. nx.
  Qed.

  (** A fold whose steps each use at most one unit of room. *)
  Lemma foldM_room : forall A (f : Sim T -> A -> res (Sim T)) w l st,
    (forall st a, In a l -> (length (rc_orders (sm_rc st)) + w <= rc_max_orders (sm_rc st)) -> noidx (f st a)) ->
    (forall st a st', In a l -> f st a = Ok st' ->
       length (rc_orders (sm_rc st')) <= length (rc_orders (sm_rc st)) + w /\ rc_max_orders (sm_rc st') = rc_max_orders (sm_rc st)) ->
    length (rc_orders (sm_rc st)) + length l * w <= rc_max_orders (sm_rc st) ->
    foldM f st l <> Err full_orders.
  Proof.
    intros A f w l. induction l as [|a l IH]; intros st H1 H2 H; cbn [foldM]; [discriminate|].
    cbn [length Nat.mul] in H.
    destruct (f st a) as [m|e] eqn:E.
    - cbn [bind]. destruct (H2 _ _ _ (or_introl eq_refl) E) as [L M]. apply IH; [| |lia].
      + intros st0 a0 Ha. apply H1; right; auto.
      + intros st0 a0 st0' Ha. apply H2; right; auto.
    - cbn [bind]. rewrite <- E. apply H1; [left; auto|]. lia.
  Qed.

  Lemma bar_full : forall draws inp fl sh g f len st i,
    length (rc_orders (sm_rc st)) + len <= rc_max_orders (sm_rc st) ->
    bar_step draws inp fl sh g f len st i <> Err full_orders.
  Proof.
    intros draws inp fl sh g f len st i H. unfold bar_step.
    destruct (price_step_rc inp fl i (seq f len) st) as (P1 & _).
    apply foldM_room with (w := 1).
    - intros st0 k _ Hr. apply order_step_full. lia.
    - intros st0 k st0' Hk E. apply in_seq in Hk.
      pose proof (order_step_one _ _ _ _ _ _ _ _ _ _ _ (proj2 Hk) E) as (j & _ & _ & _ & K & _).
      apply order_step_orders in E as (a & E & L & _); [|lia].
      rewrite E, app_length. split; [lia|]. apply K.
    - rewrite sort_rc, P1, seq_length. lia.
  Qed.

  Lemma groups_full : forall draws inp fl sh nrows lens g from init st,
    length (rc_orders (sm_rc st)) + nrows * sum_lens lens <= rc_max_orders (sm_rc st) ->
    sim_groups draws inp fl sh nrows g from lens init st <> Err full_orders.
  Proof.
    intros draws inp fl sh nrows lens. induction lens as [|len lens IH]; intros g from init st H; cbn [sim_groups]; [discriminate|].
    change (sum_lens (len :: lens)) with (len + sum_lens lens) in H.
    destruct (nth_error init g) as [c|]; [|discriminate].
    apply noidx_bind.
    - unfold sim_group, noidx. apply foldM_room with (w := len); cbn [sm_rc].
      + intros st0 i _ Hr. apply bar_full. auto.
      + intros st0 i st0' _ E. pose proof (bar_one _ _ _ _ _ _ _ _ _ _ E) as [K _].
        apply bar_orders in E as (a & E & L & _). rewrite E, app_length. split; [lia|]. apply K.
      + rewrite seq_length. lia.
    - intros m E. apply IH. unfold sim_group in E.
      pose proof (bars_one _ _ _ _ _ _ _ _ _ _ E) as [K _]. destruct K as [_ _ _ _ _ [M _]].
      apply (bars_orders _ _ _ _ _ _ _ false) in E as (a & E & L & _); [|discriminate].
      cbn [sm_rc] in *. rewrite M, E, app_length. lia.
  Qed.

  Lemma default_buffer_suffices : forall draws rng nrows ncols lens init inp fl ml,
    simulate_from_orders_nb draws rng nrows ncols lens init inp fl None ml <> Err full_orders.
  Proof.
    intros draws rng nrows ncols lens init inp fl ml. unfold simulate_from_orders_nb.
    destruct (Nat.eqb_spec (sum_lens lens) ncols) as [<-|?]; cbn [negb raise_if]; [|discriminate].
    apply noidx_raise; [discriminate|]. apply noidx_bind; [|intros; apply noidx_ok].
    apply groups_full. cbn. lia.
  Qed.
End SimLemmas4.
