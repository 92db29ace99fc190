(** * From signals: the simulations of the two engines agree *)
From Coq Require Import ZArith Bool List String Arith Lia.
From Verif Require Import Base Num MathNb OrdLaws Order CallSeq Account Simulate FromSignals RustOrder RustSim RustLemmas
  OrderGen RustSimLemmas RustSignals RustSignalsSpec RustSignalsLemmas.
Import ListNotations.
Open Scope string_scope.
Open Scope list_scope.
Local Open Scope nat_scope.

Section Run.
  Context {T : Type} {N : Num T} {R : RustOps T} {L : RustLaws N R}.
  Local Instance Lordr : OrdLaws N := rl_ord.
  Variables (draws : nat -> T) (inp : SigInputs T) (a : SigArrays) (fl : SigFlags) (sharing : bool) (nrows ncols : nat).
  Variable init_cash : list T.
  Let inp' := with_signals (fun i col _ _ => merge_signals a (in_direction (si_base inp)) i col) inp.
  Let bfl := sf_base fl.

  (** The size and size type of the order of a column *)
  Definition sized (i : nat) (cols : nat -> Col T) (col : nat) : Prop :=
    signal_size_type (c_stype (cols col)) = true /\
    (c_stype (cols col) = Percent -> in_size_type (si_base inp) i col = Percent /\
      (c_size (cols col) = zero \/ c_size (cols col) = in_size (si_base inp) i col \/
       c_size (cols col) = neg (in_size (si_base inp) i col))).

  (** What holds of cash, free cash, positions and debts *)
  Variables (P PG : SSim T -> Prop).
  Hypothesis H_start : forall c st, PG st -> In c init_cash ->
    P (mkSSim c c (ss_value st) (ss_cols st) (ss_seq st) (ss_rc st)).
  Hypothesis H_end : forall st, P st -> PG st.
  Hypothesis H_same : forall st st', ss_cash st' = ss_cash st -> ss_free st' = ss_free st ->
    (forall c, c_pos (ss_cols st' c) = c_pos (ss_cols st c)) ->
    (forall c, c_debt (ss_cols st' c) = c_debt (ss_cols st c)) -> P st -> P st'.
  Hypothesis H_order : forall st i group from len k st', P st -> i < nrows -> from + len <= ncols -> k < len ->
    (forall col, from <= col < from + len -> sized i (ss_cols st) col) ->
    sig_order_step draws inp' fl sharing i group from len st k = Ok st' -> P st'.
  Hypothesis H_ok : forall st i col, P st -> i < nrows -> col < ncols -> sized i (ss_cols st) col ->
    eqb (c_size (ss_cols st col)) zero = false ->
    order_ok (sig_order_state sharing st col) (make_sig_order inp' i col (ss_cols st col)).
  Hypothesis H_auto : auto_call_seq bfl = true -> forall i col, i < nrows -> col < ncols ->
    in_size_type (si_base inp) i col <> Percent.

  Variable M : nat.
  Local Notation K := (nrows * ncols).

  Lemma to_size_kind : forall (p : T) s size st acc vp q st' d,
    signals_to_size_nb p s size st acc vp = Ok (q, st', d) ->
    signal_size_type st' = true /\ (st' = Percent -> st = Percent /\ (q = zero \/ q = size \/ q = neg size)).
  Proof.
    intros p s size st acc vp q st' d H. unfold signals_to_size_nb in H.
    apply raise_if_ok in H as [H1 H]. apply negb_false_iff in H1. cbv zeta in H.
    apply raise_if_ok in H as [_ H].
    repeat match type of H with (if ?c then _ else _) = _ => destruct c end;
      try (apply bind_ok in H as (? & _ & H)); injection H as <- <- <-; split; auto; try discriminate; auto.
  Qed.

  (** ** Prices *)
  Lemma price_cut : forall i col cols cols', (forall c, cols' c = cutc (cols c)) ->
    forall c, rs_sig_price_pass inp (ffill_val_price bfl) i cols' col c = cutc (sig_price_step inp' fl i cols col c).
  Proof.
    intros i col cols cols' H c. unfold rs_sig_price_pass, sig_price_step. cbv zeta.
    rewrite (sig_price_eq inp a). fold inp'. rewrite val_price_eq. change (si_base inp') with (si_base inp).
    change (sf_base fl) with bfl.
    destruct (Nat.eq_dec c col) as [->|Hn]; [rewrite !fupd_same|rewrite !fupd_other by auto; auto].
    rewrite H. unfold cutc. cbn [rc_pos rc_debt rc_vp rc_size rc_stype rc_slip rc_dir rc_stops c_pos c_debt c_vp c_price c_size
      c_stype c_slip c_dir c_stops]. reflexivity.
  Qed.

  Lemma prices_cut : forall i l cols cols', (forall c, cols' c = cutc (cols c)) ->
    forall c, fold_left (rs_sig_price_pass inp (ffill_val_price bfl) i) l cols' c =
              cutc (fold_left (sig_price_step inp' fl i) l cols c).
  Proof.
    intros i l; induction l as [|x l IH]; intros cols cols' H c; cbn [fold_left]; auto.
    apply IH. intros c'. apply price_cut; auto.
  Qed.

  Lemma prices_account : forall i l cols c,
    c_pos (fold_left (sig_price_step inp' fl i) l cols c) = c_pos (cols c) /\
    c_debt (fold_left (sig_price_step inp' fl i) l cols c) = c_debt (cols c).
  Proof.
    intros i l; induction l as [|x l IH]; intros cols c; cbn [fold_left]; auto.
    destruct (IH (sig_price_step inp' fl i cols x) c) as [-> ->]. unfold sig_price_step. cbv zeta.
    destruct (Nat.eq_dec c x) as [->|Hn]; [rewrite !fupd_same|rewrite !fupd_other by auto]; auto.
  Qed.

  (** ** Signals *)
  Record srel (i from k : nat) (cols0 cols : nat -> Col T) (y : (nat -> RsCells T) * (nat -> T)) : Prop := mkSrel {
    sr_cols : forall c, fst y c = cutc (cols c);
    sr_tov : sharing = true -> auto_call_seq bfl = true -> forall j, j < k -> snd y j = c_tov (cols (from + j));
    sr_sized : forall j, j < k -> sized i cols (from + j);
    sr_acc : forall c, c_pos (cols c) = c_pos (cols0 c) /\ c_debt (cols c) = c_debt (cols0 c) }.

  Lemma order_value_eq : forall (c : Col T) cash free size st d, st <> Percent -> signal_size_type st = true ->
    rs_sig_order_value (cutc c) cash free size st d = signal_order_value (c_pos c) (c_vp c) cash free size st d.
  Proof. intros c cash free size st d H1 H2. destruct st; try discriminate; [reflexivity|reflexivity|congruence]. Qed.

  Lemma signal_srel : forall i from k cash free cols0 cols y, i < nrows -> from + k < ncols ->
    srel i from k cols0 cols y ->
    out_res (srel i from (S k) cols0) (signal_step inp' fl i cash free cols (from + k))
      (rs_signal_pass inp a (use_stops fl) sharing (auto_call_seq bfl) i from cash free y k).
  Proof.
    intros i from k cash free cols0 cols [cols' tov] Hi Hk [H1 H2 H3 H4]. cbn [fst snd] in *.
    unfold rs_signal_pass, signal_step. cbv zeta.
    set (col := from + k) in *. rewrite (H1 col).
    set (c := cols col) in *.
    pose proof (decide_out inp a fl i col c) as HD. unfold decide, rs_decide in HD. fold inp' in HD.
    change (si_base inp') with (si_base inp).
    destruct (stop_step inp' fl i col c) as [[sp stops]|e]; cbn [bind] in HD |- *.
    2:{ destruct HD as [HD|[(e' & HD & HD')|(x & y & HD & _)]]; [injection HD as ->; left; auto| |discriminate].
        injection HD as ->. right; left. exists e'. split; auto.
        destruct (rs_process_signals_at _ _ _ _ _ _ _ _ _) as [[[[? ?] [? ?]] ?]|e1]; cbn [bind] in HD' |- *; [|injection HD' as ->; reflexivity].
        destruct (rs_signals_to_size _ _ _ _ _ _) as [[[? ?] ?]|e1]; cbn [bind] in HD' |- *; [discriminate|injection HD' as ->; reflexivity]. }
    destruct (pick_signals inp' fl i col c sp) as [[s acc] [price slip]].
    destruct (signals_to_size_nb (c_pos c) s _ _ acc (c_vp c)) as [[[q st'] d]|e] eqn:ES; cbn [bind] in HD |- *.
    2:{ destruct HD as [HD|[(e' & HD & HD')|(x & y & HD & _)]]; [injection HD as ->; left; auto| |discriminate].
        injection HD as ->. right; left. exists e'. split; auto.
        destruct (rs_process_signals_at _ _ _ _ _ _ _ _ _) as [[[[? ?] [? ?]] ?]|e1]; cbn [bind] in HD' |- *; [|injection HD' as ->; reflexivity].
        destruct (rs_signals_to_size _ _ _ _ _ _) as [[[? ?] ?]|e1]; cbn [bind] in HD' |- *; [discriminate|injection HD' as ->; reflexivity]. }
    destruct HD as [HD|[(e' & HD & _)|(x & y & HD & HD' & Hy)]]; [discriminate|discriminate|].
    injection HD as <-. cbn [fst snd] in Hy. subst y.
    destruct (rs_process_signals_at _ _ _ _ _ _ _ _ _) as [[[[s1 acc1] [price1 slip1]] stops1]|e1]; cbn [bind] in HD' |- *; [|discriminate].
    destruct (rs_signals_to_size _ _ _ _ _ _) as [[[q1 t1] d1]|e1]; cbn [bind] in HD' |- *; [|discriminate].
    injection HD' as -> -> -> -> -> ->.
    apply to_size_kind in ES as [ES1 ES2].
    assert (Hother : forall j, j < k -> from + j <> col) by (intros; unfold col; lia).
    apply out_ok. constructor; cbn [fst snd].
    - intros c0. destruct (Nat.eq_dec c0 col) as [->|Hn]; [rewrite !fupd_same; reflexivity|rewrite !fupd_other; auto].
    - intros Es Ea j Hj. rewrite Es, Ea. cbn [andb].
      destruct (Nat.eq_dec j k) as [->|Hn].
      + fold col. rewrite !fupd_same. cbn [c_tov]. apply order_value_eq; auto.
        intros ->. destruct (ES2 eq_refl) as [E _]. apply (H_auto Ea i col); auto.
      + rewrite !fupd_other by (auto; apply Hother; lia). apply H2; auto. lia.
    - intros j Hj. unfold sized. destruct (Nat.eq_dec j k) as [->|Hn].
      + fold col. rewrite !fupd_same. cbn [c_stype c_size]. auto.
      + rewrite !fupd_other by (apply Hother; lia). apply H3. lia.
    - intros c0. destruct (H4 c0) as [E1 E2].
      destruct (Nat.eq_dec c0 col) as [->|Hn]; [rewrite !fupd_same; cbn [c_pos c_debt]; auto|rewrite !fupd_other; auto].
  Qed.

  (** ** States *)
  Record rel (n : nat) (x : SSim T) (y : RsSigSim T) : Prop := mkRel {
    rl_cash : rz_cash y = ss_cash x; rl_free : rz_free y = ss_free x;
    rl_value : sharing = true -> rz_value y = ss_value x;
    rl_cols : forall c, rz_cols y c = cutc (ss_cols x c);
    rl_seq : rz_seq y = ss_seq x;
    rl_rc : rz_rc y = cap (Nat.min M K) (ss_rc x);
    rl_max : rc_max_orders (ss_rc x) = M;
    rl_len : List.length (rc_orders (ss_rc x)) <= n }.

  Lemma fold_seq : forall A (f : A -> nat -> res A) from len x,
    foldM f x (seq from len) = foldM (fun s k => f s (from + k)) x (seq 0 len).
  Proof.
    intros A f from len. replace (seq from len) with (map (fun k => from + k) (seq 0 len)).
    - generalize (seq 0 len). induction l as [|y l IH]; intros x; cbn [map foldM]; auto.
      destruct (f x (from + y)); cbn [bind]; auto.
    - assert (H : forall n s, map (fun k => from + k) (seq s n) = seq (from + s) n).
      { induction n as [|n IH]; intros s; cbn [seq map]; auto. f_equal. rewrite IH. f_equal. lia. }
      rewrite H, Nat.add_0_r. auto.
  Qed.

  Lemma fold_ext : forall A B (f g : A -> B -> A) l x, (forall x y, f x y = g x y) -> fold_left f l x = fold_left g l x.
  Proof. intros A B f g l; induction l as [|y l IH]; intros x H; cbn [fold_left]; auto. rewrite H. auto. Qed.

  Definition grouped_sized (i from len : nat) (x : SSim T) : Prop :=
    forall col, from <= col < from + len -> sized i (ss_cols x) col.

  Lemma sort_account : forall i from len st, ss_cash (sig_sort_step fl sharing i from len st) = ss_cash st /\
    ss_free (sig_sort_step fl sharing i from len st) = ss_free st /\
    ss_cols (sig_sort_step fl sharing i from len st) = ss_cols st.
  Proof. intros. unfold sig_sort_step. destruct sharing; auto. Qed.

  Lemma prepare_out : forall n i from len x y, rel n x y -> P x -> i < nrows -> from + len <= ncols ->
    out_res (fun x1 y1 => rel n x1 y1 /\ P x1 /\ grouped_sized i from len x1)
      (sig_prepare inp' fl sharing from len x i)
      (bind (foldM (rs_signal_pass inp a (use_stops fl) sharing (auto_call_seq bfl) i from (rz_cash y) (rz_free y))
               (fold_left (rs_sig_price_pass inp (ffill_val_price bfl) i) (seq from len) (rz_cols y), rz_tov y) (seq 0 len))
         (fun '(cols2, tov) => Ok (rs_sig_sort sharing (auto_call_seq bfl) i from len
            (mkRsSigSim (rz_cash y) (rz_free y) (rz_value y) cols2 tov (rz_seq y) (rz_rc y))))).
  Proof.
    intros n i from len x y [H1 H2 H3 H4 H5 H6 H7 H8] HP Hi Hl. unfold sig_prepare. cbv zeta.
    rewrite fold_seq. rewrite H1, H2.
    set (cols1 := fold_left (sig_price_step inp' fl i) (seq from len) (ss_cols x)).
    pose proof (out_fold _ _ _ (fun k => srel i from k cols1)
      (fun s k => signal_step inp' fl i (ss_cash x) (ss_free x) s (from + k))
      (rs_signal_pass inp a (use_stops fl) sharing (auto_call_seq bfl) i from (ss_cash x) (ss_free x)) (seq 0 len) 0
      cols1 (fold_left (rs_sig_price_pass inp (ffill_val_price bfl) i) (seq from len) (rz_cols y), rz_tov y)) as HF.
    eapply out_bind; [apply HF|].
    - intros k j c y' Hk Hs. apply nth_error_seq in Hk as [-> Hk]. cbn [Nat.add] in *.
      apply signal_srel; auto. lia.
    - constructor; cbn [fst snd]; [intros c; apply prices_cut; auto|intros; lia|intros; lia|auto].
    - intros cols2 [cols2' tov] _ _ [S1 S2 S3 S4]. rewrite seq_length in *. cbn [fst snd Nat.add] in *.
      apply out_ok. split; [|split].
      + unfold rs_sig_sort, sig_sort_step. cbv zeta. change (auto_call_seq (sf_base fl)) with (auto_call_seq bfl).
        destruct sharing eqn:Es; cbn [andb].
        * constructor; cbn [rz_cash rz_free rz_value rz_cols rz_tov rz_seq rz_rc ss_cash ss_free ss_value ss_cols ss_seq ss_rc]; auto.
          -- intros _. unfold rs_get_group_value, get_group_value_nb.
             replace (from + len - from) with len by lia. apply fold_ext.
             intros v c. rewrite S1. reflexivity.
          -- rewrite H5. destruct (auto_call_seq bfl) eqn:Ea; auto. rewrite argsort_eq. do 3 f_equal.
             apply map_ext_in. intros k Hk. apply in_seq in Hk. f_equal. apply S2; auto. lia.
        * constructor; cbn; auto. congruence.
      + apply (H_same x); auto.
        * rewrite (proj1 (sort_account _ _ _ _)). reflexivity.
        * rewrite (proj1 (proj2 (sort_account _ _ _ _))). reflexivity.
        * intros c. rewrite (proj2 (proj2 (sort_account _ _ _ _))). cbn [ss_cols]. rewrite (proj1 (S4 c)).
          apply prices_account.
        * intros c. rewrite (proj2 (proj2 (sort_account _ _ _ _))). cbn [ss_cols]. rewrite (proj2 (S4 c)).
          apply prices_account.
      + intros col Hcol. rewrite (proj2 (proj2 (sort_account _ _ _ _))). cbn [ss_cols].
        replace col with (from + (col - from)) by lia. apply S3. lia.
  Qed.

  Lemma process_out : forall i col group s o rc, order_ok s o ->
    rc_max_orders rc = M -> List.length (rc_orders rc) < K ->
    out_res (fun x y => y = (fst (fst x), snd (fst x), cap (Nat.min M K) (snd x)))
      (process_order_nb draws i col group s (update_value bfl) o rc)
      (rs_process_order draws i col group s (update_value bfl) o (cap (Nat.min M K) rc)).
  Proof.
    intros i col group s o rc Hok Hm Hlen.
    pose proof (process_agrees draws i col group s (update_value bfl) o (cap (Nat.min M K) rc) Hok) as Hagr.
    rewrite process_cap in Hagr by (rewrite Hm; apply leb_cap; auto).
    pose proof (plain_process draws i col group s (update_value bfl) o rc) as Hp.
    destruct (process_order_nb draws i col group s (update_value bfl) o rc) as [[[r s'] rc']|e];
      cbn [cap_res] in Hagr; unfold agrees in Hagr.
    - destruct Hagr as [Hagr|Hagr]; [discriminate|]. rewrite Hagr. apply out_ok. reflexivity.
    - destruct Hagr as [Hagr|Hagr]; [injection Hagr as ->; left; reflexivity|].
      rewrite Hagr. apply out_err. symmetry. apply Hp. reflexivity.
  Qed.

  Lemma order_out : forall n i group from len k x y, rel n x y -> P x -> grouped_sized i from len x -> n < K -> i < nrows ->
    from + len <= ncols -> k < len ->
    out_res (fun x1 y1 => rel (S n) x1 y1 /\ P x1 /\ grouped_sized i from len x1)
      (sig_order_step draws inp' fl sharing i group from len x k)
      (rs_sig_order_pass draws inp (use_stops fl) (ffill_val_price bfl) (update_value bfl) sharing i group from len y k).
  Proof.
    intros n i group from len k x y H HP Hz Hn Hi Hl Hk.
    assert (HO : out_res (fun x1 y1 => rel (S n) x1 y1 /\ grouped_sized i from len x1)
      (sig_order_step draws inp' fl sharing i group from len x k)
      (rs_sig_order_pass draws inp (use_stops fl) (ffill_val_price bfl) (update_value bfl) sharing i group from len y k)).
    { destruct H as [H1 H2 H3 H4 H5 H6 H7 H8]. unfold sig_order_step, rs_sig_order_pass.
      eapply (out_bind _ _ _ _ (fun c c' : nat => c' = c /\ from <= c < from + len)).
      { unfold pick_col, raise_if. rewrite H5. destruct sharing.
        - destruct (Nat.leb len _) eqn:E; [apply out_err; reflexivity|]. apply Nat.leb_gt in E. apply out_ok. lia.
        - apply out_ok. lia. }
      intros col c' _ _ [-> Hc]. cbv zeta. rewrite H4. set (c := ss_cols x col).
      cbn [cutc rc_pos rc_debt rc_vp rc_price rc_size rc_stype rc_slip rc_dir rc_stops].
      unfold neb at 1 2. destruct (eqb (c_size c) zero) eqn:Ez; cbn [negb].
      { apply out_ok. split; [|exact Hz]. constructor; cbn [rz_cash rz_free rz_value rz_cols rz_seq rz_rc]; auto.
        intros Es. rewrite Es. cbn [negb]. auto. }
      rewrite (sig_order_eq inp a). fold inp'.
      assert (Hst : mkProc (rz_cash y) (c_pos c) (c_debt c) (rz_free y) (c_vp c)
         (if negb sharing then if neb (c_pos c) zero then add (rz_cash y) (mul (c_pos c) (c_vp c)) else rz_cash y
          else rz_value y) = sig_order_state sharing x col).
      { unfold sig_order_state. fold c. rewrite H1, H2. f_equal. destruct sharing; cbn [negb]; auto. }
      rewrite Hst, H6.
      eapply out_bind.
      { apply process_out; [|exact H7|lia]. apply H_ok; auto. lia. }
      intros [[r s'] rc'] y' E _ ->. cbn [fst snd]. apply process_lengths in E as [Hlen Hmax].
      apply out_ok. split.
      - constructor; cbn [rz_cash rz_free rz_value rz_cols rz_tov rz_seq rz_rc ss_cash ss_free ss_value ss_cols ss_seq ss_rc]; auto; try congruence.
        + intros c0. destruct (Nat.eq_dec c0 col) as [->|Hne]; [rewrite !fupd_same|rewrite !fupd_other; auto].
          rewrite (update_stops_eq inp a). fold inp'. reflexivity.
        + lia.
      - intros c0 Hc0. unfold sized. cbn [ss_cols].
        destruct (Nat.eq_dec c0 col) as [->|Hne]; [rewrite !fupd_same; apply (Hz col Hc)|rewrite !fupd_other by auto; apply Hz; auto]. }
    eapply out_mono; [exact HO|]. intros x1 y1 E _ [R1 R2]. split; [auto|]. split; [|auto]. eapply H_order; eauto.
  Qed.

  Lemma bar_out : forall n group from len i x y, rel n x y -> P x -> n + len <= K -> i < nrows -> from + len <= ncols ->
    out_res (fun x y => rel (n + len) x y /\ P x) (sig_bar_step draws inp' fl sharing group from len x i)
      (rs_sig_bar draws inp a (use_stops fl) (auto_call_seq bfl) (ffill_val_price bfl) (update_value bfl) sharing group from len y i).
  Proof.
    intros n group from len i x y H HP Hn Hi Hl. unfold sig_bar_step, rs_sig_bar. cbv zeta.
    pose proof (prepare_out n i from len x y H HP Hi Hl) as HR.
    destruct (sig_prepare inp' fl sharing from len x i) as [x1|e] eqn:E1; cbn [bind].
    2:{ destruct HR as [HR|[(e' & HR & HR')|(? & ? & HR & _)]]; [injection HR as ->; left; auto| |discriminate].
        injection HR as ->. right; left. exists e'. split; auto.
        destruct (foldM (rs_signal_pass _ _ _ _ _ _ _ _ _) _ _) as [[? ?]|e1]; cbn [bind] in HR' |- *;
          [discriminate|injection HR' as ->; reflexivity]. }
    destruct HR as [HR|[(e' & HR & HR')|(x2 & y2 & HR & HR' & R1 & R2 & R3)]]; [discriminate|discriminate|].
    injection HR as <-.
    destruct (foldM (rs_signal_pass _ _ _ _ _ _ _ _ _) _ _) as [[cols2 tov]|e1]; cbn [bind] in HR' |- *; [|discriminate].
    injection HR' as HR'. rewrite HR'.
    pose proof (out_fold _ _ _ (fun m x y => rel m x y /\ P x /\ grouped_sized i from len x)
      (sig_order_step draws inp' fl sharing i group from len)
      (rs_sig_order_pass draws inp (use_stops fl) (ffill_val_price bfl) (update_value bfl) sharing i group from len)
      (seq 0 len) n x1 y2) as HF.
    rewrite seq_length in HF. eapply out_mono; [apply HF; auto|].
    - intros k j x' y' Hk (Q1 & Q2 & Q3). apply nth_error_seq in Hk as [-> Hk]. cbn [Nat.add].
      apply order_out; auto. lia.
    - intros x3 y3 _ _ (Q1 & Q2 & Q3). auto.
  Qed.

  Lemma group_out : forall group from len c x y, rel (nrows * from) x y -> PG x -> In c init_cash ->
    from + len <= ncols ->
    out_res (fun x y => rel (nrows * (from + len)) x y /\ PG x)
      (sig_group draws inp' fl sharing nrows group from len c x)
      (foldM (rs_sig_bar draws inp a (use_stops fl) (auto_call_seq bfl) (ffill_val_price bfl) (update_value bfl) sharing group from len)
         (mkRsSigSim c c (rz_value y) (rz_cols y) (rz_tov y) (rz_seq y) (rz_rc y)) (seq 0 nrows)).
  Proof.
    intros group from len c x y H HP Hc Hl. unfold sig_group.
    pose proof (out_fold _ _ _ (fun m x y => rel (nrows * from + m * len) x y /\ P x)
      (sig_bar_step draws inp' fl sharing group from len)
      (rs_sig_bar draws inp a (use_stops fl) (auto_call_seq bfl) (ffill_val_price bfl) (update_value bfl) sharing group from len)
      (seq 0 nrows) 0
      (mkSSim c c (ss_value x) (ss_cols x) (ss_seq x) (ss_rc x))
      (mkRsSigSim c c (rz_value y) (rz_cols y) (rz_tov y) (rz_seq y) (rz_rc y))) as HF.
    rewrite seq_length in HF. eapply out_mono; [apply HF|].
    - intros k i x' y' Hk [Hr Hp]. apply nth_error_seq in Hk as [-> Hk]. cbn [Nat.add] in *.
      eapply out_mono; [apply (bar_out (nrows * from + k * len)); auto|].
      + assert (nrows * (from + len) <= nrows * ncols) by (apply Nat.mul_le_mono_l; auto).
        assert (S k * len <= nrows * len) by (apply Nat.mul_le_mono_r; lia). lia.
      + intros x2 y2 _ _ [H1 H2]. split; auto. replace (nrows * from + S k * len) with (nrows * from + k * len + len) by lia. auto.
    - split; [|apply H_start; auto]. destruct H. constructor; cbn; auto. lia.
    - intros x2 y2 _ _ [H1 H2]. split; auto. replace (nrows * (from + len)) with (nrows * from + (0 + nrows) * len) by lia. auto.
  Qed.

  Lemma groups_out : forall lens group from x y, rel (nrows * from) x y -> PG x ->
    from + sum_lens lens <= ncols ->
    out_res (fun x y => rel (nrows * (from + sum_lens lens)) x y /\ PG x)
      (sig_groups draws inp' fl sharing nrows group from lens init_cash x)
      (rs_sig_groups draws inp a (use_stops fl) (auto_call_seq bfl) (ffill_val_price bfl) (update_value bfl) sharing nrows group from
         lens init_cash y).
  Proof.
    induction lens as [|len lens IH]; intros group from x y H HP Hl; cbn [sig_groups rs_sig_groups sum_lens fold_right] in *.
    - rewrite Nat.add_0_r. apply out_ok; auto.
    - destruct (nth_error init_cash group) as [c|] eqn:Ec; [|apply out_err; reflexivity].
      apply nth_error_In in Ec. change (fold_right Nat.add 0 lens) with (sum_lens lens) in *. eapply out_bind.
      + apply group_out; eauto. lia.
      + intros x' y' _ _ [H1 H2]. rewrite Nat.add_assoc. apply IH; auto. lia.
  Qed.

  (** ** Column by column *)
  Record crel (seq0 : nat -> nat -> nat) (col n : nat) (x : SSim T) (y : RsSigCol T) : Prop := mkCrel {
    cl_cash : rh_cash y = ss_cash x; cl_free : rh_free y = ss_free x;
    cl_pos : rh_pos y = c_pos (ss_cols x col); cl_debt : rh_debt y = c_debt (ss_cols x col);
    cl_vp : rh_vp y = c_vp (ss_cols x col); cl_stops : rh_stops y = cut (c_stops (ss_cols x col));
    cl_rc : rh_rc y = cap (Nat.min M K) (ss_rc x);
    cl_max : rc_max_orders (ss_rc x) = M;
    cl_len : List.length (rc_orders (ss_rc x)) <= n;
    cl_seq : ss_seq x = seq0 }.

  Definition fresh_col (c : Col T) : Prop := c_pos c = zero /\ c_debt c = zero /\ c_vp c = nan /\ c_stops c = no_stops.

  Hypothesis Hsh : sharing = false.

  Lemma col_bar_out : forall seq0 col n i x y, crel seq0 col n x y -> P x -> n < K -> i < nrows -> col < ncols ->
    out_res (fun x1 y1 => crel seq0 col (S n) x1 y1 /\ P x1 /\ forall c, c <> col -> ss_cols x1 c = ss_cols x c)
      (sig_bar_step draws inp' fl sharing col col 1 x i)
      (rs_sig_col_bar draws inp a (use_stops fl) (ffill_val_price bfl) (update_value bfl) col y i).
  Proof.
    intros seq0 col n i x y [H1 H2 H3 H4 H5 H5' H6 H7 H8 H9] HP Hn Hi Hc.
    unfold sig_bar_step, sig_prepare. cbv zeta. cbn [seq fold_left foldM].
    set (cols1 := sig_price_step inp' fl i (ss_cols x) col).
    set (c := cols1 col).
    assert (Hcc : cutc c = mkRsCells (rh_pos y) (rh_debt y)
       (if negb (isnan (rs_val_price_now (si_base inp) i col (rs_sig_price inp i col))) || negb (ffill_val_price bfl)
        then rs_val_price_now (si_base inp) i col (rs_sig_price inp i col) else rh_vp y)
       (rs_sig_price inp i col) (c_size c) (c_stype c) (c_slip c) (c_dir c) (rh_stops y)).
    { unfold c, cols1, sig_price_step. cbv zeta. rewrite fupd_same. unfold cutc.
      cbn [c_pos c_debt c_vp c_price c_size c_stype c_slip c_dir c_stops].
      rewrite (sig_price_eq inp a). fold inp'. rewrite val_price_eq. change (si_base inp') with (si_base inp).
      rewrite H3, H4, H5, H5'. reflexivity. }
    unfold rs_sig_col_bar. cbv zeta.
    set (vp := if negb (isnan (rs_val_price_now (si_base inp) i col (rs_sig_price inp i col))) || negb (ffill_val_price bfl)
        then rs_val_price_now (si_base inp) i col (rs_sig_price inp i col) else rh_vp y) in *.
    assert (Hoth : forall c0, c0 <> col -> cols1 c0 = ss_cols x c0).
    { intros c0 Hc0. unfold cols1, sig_price_step. cbv zeta. apply fupd_other; auto. }
    pose proof (decide_out inp a fl i col c) as HD. rewrite Hcc in HD.
    unfold decide, rs_decide in HD. fold inp' in HD. cbn [rc_pos rc_price rc_stops rc_vp] in HD.
    unfold signal_step at 1. cbv zeta. fold c. change (si_base inp') with (si_base inp).
    destruct (stop_step inp' fl i col c) as [[sp stops]|e]; cbn [bind] in HD |- *.
    2:{ destruct HD as [HD|[(e' & HD & HD')|(? & ? & HD & _)]]; [injection HD as ->; left; auto| |discriminate].
        injection HD as ->. right; left. exists e'. split; auto.
        destruct (rs_process_signals_at _ _ _ _ _ _ _ _ _) as [[[[? ?] [? ?]] ?]|e1]; cbn [bind] in HD' |- *; [|injection HD' as ->; reflexivity].
        destruct (rs_signals_to_size _ _ _ _ _ _) as [[[? ?] ?]|e1]; cbn [bind] in HD' |- *; [discriminate|injection HD' as ->; reflexivity]. }
    destruct (pick_signals inp' fl i col c sp) as [[s acc] [price slip]].
    destruct (signals_to_size_nb (c_pos c) s _ _ acc (c_vp c)) as [[[q st'] d]|e] eqn:ES; cbn [bind] in HD |- *.
    2:{ destruct HD as [HD|[(e' & HD & HD')|(? & ? & HD & _)]]; [injection HD as ->; left; auto| |discriminate].
        injection HD as ->. right; left. exists e'. split; auto.
        destruct (rs_process_signals_at _ _ _ _ _ _ _ _ _) as [[[[? ?] [? ?]] ?]|e1]; cbn [bind] in HD' |- *; [|injection HD' as ->; reflexivity].
        destruct (rs_signals_to_size _ _ _ _ _ _) as [[[? ?] ?]|e1]; cbn [bind] in HD' |- *; [discriminate|injection HD' as ->; reflexivity]. }
    destruct HD as [HD|[(e' & HD & _)|(x0 & y0 & HD & HD' & Hy)]]; [discriminate|discriminate|].
    injection HD as <-. cbn [fst snd] in Hy. subst y0.
    destruct (rs_process_signals_at _ _ _ _ _ _ _ _ _) as [[[[s1 acc1] [price1 slip1]] stops1]|e1]; cbn [bind] in HD' |- *; [|discriminate].
    destruct (rs_signals_to_size _ _ _ _ _ _) as [[[q1 t1] d1]|e1]; cbn [bind] in HD' |- *; [|discriminate].
    injection HD' as -> -> -> -> -> ->. apply to_size_kind in ES as [ES1 ES2].
    assert (Hpos : c_pos c = rh_pos y /\ c_debt c = rh_debt y /\ c_vp c = vp).
    { pose proof (f_equal (@rc_pos T) Hcc) as E1. pose proof (f_equal (@rc_debt T) Hcc) as E2.
      pose proof (f_equal (@rc_vp T) Hcc) as E3. cbn in E1, E2, E3. auto. }
    destruct Hpos as (Ep & Ed & Ev).
    unfold sig_sort_step. rewrite Hsh.
    set (c2 := mkCol (c_pos c) (c_debt c) (c_vp c) price slip q st' d
                 (signal_order_value (c_pos c) (c_vp c) (ss_cash x) (ss_free x) q st' d) stops).
    set (x1 := mkSSim (ss_cash x) (ss_free x) (ss_value x) (fupd cols1 col c2) (ss_seq x) (ss_rc x)).
    assert (HP1 : P x1).
    { apply (H_same x); auto; intros c0; cbn [x1 ss_cols];
        (destruct (Nat.eq_dec c0 col) as [->|Hne]; [rewrite fupd_same; cbn; congruence|rewrite fupd_other by auto; rewrite Hoth; auto]). }
    assert (Hz : grouped_sized i col 1 x1).
    { intros c0 Hc0. replace c0 with col by lia. unfold sized. cbn [x1 ss_cols]. rewrite fupd_same. cbn [c2 c_stype c_size]. auto. }
    assert (Hone : forall st', sig_order_step draws inp' fl false i col col 1 x1 0 = Ok st' -> P st').
    { intros st1 E. eapply H_order; [exact HP1|exact Hi| |constructor|exact Hz|rewrite Hsh; exact E]. lia. }
    unfold sig_order_step in Hone |- *. cbn [pick_col bind] in Hone |- *. rewrite Nat.add_0_r in Hone |- *.
    cbn [x1 ss_cols] in Hone |- *. rewrite fupd_same in Hone |- *. cbn [c2 c_size] in Hone |- *.
    unfold neb at 1. unfold neb at 1 in Hone. unfold neb at 1.
    destruct (eqb q zero) eqn:Ez; cbn [negb bind] in Hone |- *.
    - apply out_ok. split; [|split].
      + constructor; cbn [x1 ss_cash ss_free ss_cols ss_rc ss_seq rh_cash rh_free rh_pos rh_debt rh_vp rh_stops rh_rc]; auto;
          try (rewrite fupd_same; cbn [c2 c_pos c_debt c_vp c_stops]; auto).
      + apply Hone. reflexivity.
      + intros c0 Hc0. cbn [x1 ss_cols]. rewrite fupd_other by auto. apply Hoth; auto.
    - fold c2 in Hone |- *.
      change (rs_sig_order inp i col q price slip st' d) with
        (rs_sig_order inp i col (c_size c2) (c_price c2) (c_slip c2) (c_stype c2) (c_dir c2)).
      rewrite (sig_order_eq inp a). fold inp'.
      assert (Hst : mkProc (rh_cash y) (rh_pos y) (rh_debt y) (rh_free y) vp
         (if neb (rh_pos y) zero then add (rh_cash y) (mul (rh_pos y) vp) else rh_cash y) = sig_order_state false x1 col).
      { unfold sig_order_state. cbn [x1 ss_cols ss_cash ss_free]. rewrite fupd_same. cbn [c2 c_pos c_debt c_vp].
        rewrite Ep, Ed, Ev, H1, H2. reflexivity. }
      rewrite Hst, H6. fold x1 in Hone |- *.
      pose proof (process_out i col col (sig_order_state false x1 col) (make_sig_order inp' i col c2) (ss_rc x)) as HPO.
      assert (Hx : fupd cols1 col c2 col = c2) by apply fupd_same.
      pose proof (H_ok x1 i col HP1 Hi Hc (Hz col ltac:(lia))) as Hk. cbn [x1 ss_cols] in Hk. rewrite Hx in Hk.
      rewrite Hsh in Hk. specialize (HPO (Hk Ez) H7 ltac:(lia)).
      change (ss_rc x1) with (ss_rc x) in Hone |- *. change (sf_base fl) with bfl in Hone |- *.
      destruct (process_order_nb draws i col col (sig_order_state false x1 col) (update_value bfl) (make_sig_order inp' i col c2)
        (ss_rc x)) as [[[r s'] rc']|e] eqn:EP; cbn [bind] in Hone |- *.
      2:{ destruct HPO as [HPO|[(e' & HPO & HPO')|(? & ? & HPO & _)]]; [injection HPO as ->; left; auto| |discriminate].
          injection HPO as ->. right; left. exists e'. split; auto. rewrite HPO'. reflexivity. }
      destruct HPO as [HPO|[(e' & HPO & _)|(x0 & y0 & HPO & HPO' & Hy)]]; [discriminate|discriminate|].
      injection HPO as <-. cbn [fst snd] in Hy. subst y0. rewrite HPO'. cbn [bind].
      apply process_lengths in EP as [Hlen Hmax].
      apply out_ok. split; [|split].
      + constructor; cbn [x1 ss_cash ss_free ss_cols ss_rc ss_seq rh_cash rh_free rh_pos rh_debt rh_vp rh_stops rh_rc]; auto;
          try (rewrite fupd_same; cbn [c2 c_pos c_debt c_vp c_stops]; auto); try congruence; try lia.
        * rewrite Ev. reflexivity.
        * rewrite (update_stops_eq inp a). fold inp'. rewrite Ep. reflexivity.
      + apply Hone. reflexivity.
      + intros c0 Hc0. cbn [x1 ss_cols]. rewrite !fupd_other by auto. apply Hoth; auto.
  Qed.

  Lemma cols_out : forall seq0 lens from x rc, (forall l, In l lens -> l = 1) -> from + List.length lens = ncols ->
    PG x -> rc = cap (Nat.min M K) (ss_rc x) -> rc_max_orders (ss_rc x) = M ->
    List.length (rc_orders (ss_rc x)) <= nrows * from -> ss_seq x = seq0 ->
    (forall c, from <= c -> fresh_col (ss_cols x c)) ->
    out_res (fun x rc => rc = cap (Nat.min M K) (ss_rc x) /\ ss_seq x = seq0)
      (sig_groups draws inp' fl sharing nrows from from lens init_cash x)
      (foldM (fun rc col =>
        match nth_error init_cash col with
        | None => Err (IndexError "init_cash")
        | Some c =>
            let! st := foldM (rs_sig_col_bar draws inp a (use_stops fl) (ffill_val_price bfl) (update_value bfl) col)
                         (mkRsSigCol c c zero zero nan rs_no_stops rc) (seq 0 nrows) in
            Ok (rh_rc st)
        end) rc (seq from (List.length lens))).
  Proof.
    intros seq0; induction lens as [|len lens IH]; intros from x rc Hl Hlen HP Hrc Hm Hn Hs Hf;
      cbn [sig_groups List.length seq foldM] in *.
    - apply out_ok; auto.
    - rewrite (Hl len) by (left; auto).
      destruct (nth_error init_cash from) as [c|] eqn:Ec; [|apply out_err; reflexivity].
      apply nth_error_In in Ec.
      eapply (out_bind _ _ _ _ (fun x' rc' => PG x' /\ rc' = cap (Nat.min M K) (ss_rc x') /\
        rc_max_orders (ss_rc x') = M /\ List.length (rc_orders (ss_rc x')) <= nrows * S from /\
        ss_seq x' = seq0 /\ (forall c, S from <= c -> fresh_col (ss_cols x' c)))).
      + pose proof (out_fold _ _ _ (fun m x y => crel seq0 from (nrows * from + m) x y /\ P x /\
            (forall c, S from <= c -> fresh_col (ss_cols x c)))
          (sig_bar_step draws inp' fl sharing from from 1)
          (rs_sig_col_bar draws inp a (use_stops fl) (ffill_val_price bfl) (update_value bfl) from) (seq 0 nrows) 0
          (mkSSim c c (ss_value x) (ss_cols x) (ss_seq x) (ss_rc x))
          (mkRsSigCol c c zero zero nan rs_no_stops rc)) as HF.
        rewrite seq_length in HF. unfold sig_group.
        lapply HF; [clear HF; intros HF; lapply HF; [clear HF; intros HF|]|].
        * assert (HF' : out_res (fun x' rc' => PG x' /\ rc' = cap (Nat.min M K) (ss_rc x') /\
            rc_max_orders (ss_rc x') = M /\ List.length (rc_orders (ss_rc x')) <= nrows * S from /\
            ss_seq x' = seq0 /\ (forall c, S from <= c -> fresh_col (ss_cols x' c)))
            (bind (foldM (sig_bar_step draws inp' fl sharing from from 1)
               (mkSSim c c (ss_value x) (ss_cols x) (ss_seq x) (ss_rc x)) (seq 0 nrows)) Ok)
            (bind (foldM (rs_sig_col_bar draws inp a (use_stops fl) (ffill_val_price bfl) (update_value bfl) from)
               (mkRsSigCol c c zero zero nan rs_no_stops rc) (seq 0 nrows)) (fun st => Ok (rh_rc st)))).
          { eapply out_bind; [exact HF|]. intros x' y' _ _ ([? ? ? ? ? ? ? ? ? ?] & HPa & Hre).
            apply out_ok. split; [auto|]. split; [auto|]. split; [auto|]. split; [lia|]. split; auto. }
          destruct (foldM (sig_bar_step _ _ _ _ _ _ _) _ _) in HF' |- *; exact HF'.
        * split; [|split; [apply H_start; auto|intros c1 Hc1; cbn [ss_cols]; apply Hf; lia]].
          destruct (Hf from (Nat.le_refl _)) as (F1 & F2 & F3 & F4).
          constructor; cbn [rh_cash rh_free rh_pos rh_debt rh_vp rh_stops rh_rc ss_cash ss_free ss_cols ss_rc ss_seq]; auto; [|lia].
          rewrite F4. reflexivity.
        * intros k i x' y' Hk (Hr & Hp & Hre). apply nth_error_seq in Hk as [-> Hk]. cbn [Nat.add] in *.
          replace (nrows * from + S k) with (S (nrows * from + k)) by lia.
          eapply out_mono; [apply col_bar_out; eauto; [|lia]|].
          -- assert (nrows * S from <= nrows * ncols) by (apply Nat.mul_le_mono_l; lia). lia.
          -- intros x2 y2 _ _ (Q1 & Q2 & Q3). split; [auto|]. split; [auto|].
             intros c1 Hc1. rewrite Q3 by lia. auto.
      + intros x' rc' _ _ (Q1 & Q2 & Q3 & Q4 & Q5 & Q6).
        replace (from + 1) with (S from) by lia.
        apply IH; auto; [|lia]. intros l Hin. apply Hl. right; auto.
  Qed.
End Run.

Section Simulate.
  Context {T : Type} {N : Num T} {R : RustOps T} {L : RustLaws N R}.

  Lemma sig_groups_seq : forall draws (inp : SigInputs T) fl sharing nrows lens group from init_cash (st st' : SSim T),
    auto_call_seq (sf_base fl) = false ->
    sig_groups draws inp fl sharing nrows group from lens init_cash st = Ok st' -> ss_seq st' = ss_seq st.
  Proof.
    intros draws inp fl sharing nrows lens. induction lens as [|len lens IH]; intros group from ic st st' Ha H; cbn in H.
    - injection H as <-. auto.
    - destruct (nth_error ic group); [|discriminate]. apply bind_ok in H as (st1 & H1 & H2).
      apply IH in H2; auto. rewrite H2. unfold sig_group in H1.
      apply (foldM_inv _ _ (fun x => ss_seq x = ss_seq st)) in H1; auto.
      intros s i s1 Hs _ Hb. unfold sig_bar_step in Hb. apply bind_ok in Hb as (s0 & Hp & Hb).
      assert (Hs0 : ss_seq s0 = ss_seq st).
      { unfold sig_prepare in Hp. apply bind_ok in Hp as (cols2 & _ & Hp). injection Hp as <-.
        unfold sig_sort_step. rewrite Ha. destruct sharing; cbn [ss_seq]; auto. }
      apply (foldM_inv _ _ (fun x => ss_seq x = ss_seq st)) in Hb; auto.
      intros s2 k s3 Hs2 _ Ho. unfold sig_order_step in Ho. apply bind_ok in Ho as (col & _ & Ho). cbv zeta in Ho.
      destruct (neb _ _); [|injection Ho as <-; auto].
      apply bind_ok in Ho as ([[r s'] rc'] & _ & Ho). injection Ho as <-. auto.
  Qed.

  Lemma signals_agree : forall draws rng nrows ncols lens init_cash a (inp : SigInputs T) fl max_orders max_logs
      (P PG : SSim T -> Prop),
    let sharing := is_grouped lens in
    let inp' := with_signals (fun i col _ _ => merge_signals a (in_direction (si_base inp)) i col) inp in
    (forall c st, PG st -> In c init_cash ->
      P (mkSSim c c (ss_value st) (ss_cols st) (ss_seq st) (ss_rc st))) ->
    (forall st, P st -> PG st) ->
    (forall st st', ss_cash st' = ss_cash st -> ss_free st' = ss_free st ->
      (forall c, c_pos (ss_cols st' c) = c_pos (ss_cols st c)) ->
      (forall c, c_debt (ss_cols st' c) = c_debt (ss_cols st c)) -> P st -> P st') ->
    (forall st i group from len k st', P st -> i < nrows -> from + len <= ncols -> k < len ->
      (forall col, from <= col < from + len -> sized inp i (ss_cols st) col) ->
      sig_order_step draws inp' fl sharing i group from len st k = Ok st' -> P st') ->
    (forall st i col, P st -> i < nrows -> col < ncols -> sized inp i (ss_cols st) col ->
      eqb (c_size (ss_cols st col)) zero = false ->
      order_ok (sig_order_state sharing st col) (make_sig_order inp' i col (ss_cols st col))) ->
    (auto_call_seq (sf_base fl) = true -> forall i col, i < nrows -> col < ncols -> in_size_type (si_base inp) i col <> Percent) ->
    PG (sig_init inp nrows ncols max_orders max_logs rng) ->
    (forall n, In n lens -> 0 < n) ->
    let nb := simulate_from_signals_nb draws rng nrows ncols lens init_cash a inp fl max_orders max_logs in
    nb = Err ZeroDivision \/
    rs_simulate_from_signals draws rng nrows ncols lens init_cash a inp (use_stops fl) (auto_call_seq (sf_base fl))
      (ffill_val_price (sf_base fl)) (update_value (sf_base fl)) max_orders max_logs = rust_outcome nb.
  Proof.
    intros draws rng nrows ncols lens init_cash a inp fl mo ml P PG sharing inp' H1 H2 H3 H4 H5 H6 H7 Hpos nb. unfold nb; clear nb.
    unfold simulate_from_signals_nb, simulate_from_signal_func_nb, rs_simulate_from_signals, raise_if. fold inp'.
    change (existsb (fun g => Nat.ltb 1 g) lens) with (is_grouped lens).
    change (fold_right Nat.add 0 lens) with (sum_lens lens). cbv zeta. fold sharing.
    destruct (negb (Nat.eqb (sum_lens lens) ncols)) eqn:E1; [right; reflexivity|].
    apply negb_false_iff, Nat.eqb_eq in E1.
    destruct (negb (Nat.eqb (List.length init_cash) _)); [right; reflexivity|].
    set (M := match mo with Some m => m | None => nrows * ncols end).
    set (st0 := sig_init inp' nrows ncols mo ml rng).
    assert (H7' : PG st0) by exact H7.
    destruct (negb sharing && negb (auto_call_seq (sf_base fl)))%bool eqn:E2.
    - apply andb_true_iff in E2 as [E2 E3]. apply negb_true_iff in E2.
      pose proof (no_groups_ones lens E2 Hpos) as Hone.
      pose proof (sum_ones lens Hone) as Hlen. rewrite E1 in Hlen.
      pose proof (cols_out draws inp a fl sharing nrows ncols init_cash P PG H1 H2 H3 H4 H5 M E2 (in_call_seq (si_base inp))
        lens 0 st0 (rs_recs nrows ncols mo ml rng) Hone (eq_sym Hlen) H7' eq_refl eq_refl) as HR.
      rewrite <- Hlen in HR. unfold rs_sig_cols.
      destruct HR as [HR|[(e & HR1 & HR2)|(x & y & HR1 & HR2 & HR3 & HR4)]].
      + cbn. lia.
      + reflexivity.
      + intros c _. repeat split; reflexivity.
      + unfold inp'. rewrite HR. left; reflexivity.
      + right. unfold inp'. rewrite HR1, HR2. reflexivity.
      + right. unfold inp'. rewrite HR1, HR2. cbn [bind rust_outcome]. rewrite HR3, HR4. reflexivity.
    - pose proof (groups_out draws inp a fl sharing nrows ncols init_cash P PG H1 H2 H3 H4 H5 H6 M lens 0 0 st0
        (mkRsSigSim nan nan nan
           (fun _ => mkRsCells zero zero nan nan zero Amount zero LongOnly rs_no_stops) (fun _ => zero) (in_call_seq (si_base inp))
           (rs_recs nrows ncols mo ml rng))) as HR.
      destruct HR as [HR|[(e & HR1 & HR2)|(x & y & HR1 & HR2 & HR3 & HR4)]].
      + constructor; cbn; auto; lia.
      + exact H7'.
      + lia.
      + unfold inp'. rewrite HR. left; reflexivity.
      + right. unfold inp'. rewrite HR1, HR2. reflexivity.
      + right. unfold inp'. rewrite HR1, HR2. cbn [bind rust_outcome].
        destruct HR3 as [Q1 Q2 Q3 Q4 Q5 Q6 Q7 Q8]. rewrite Q5, Q6. cbn [cap rc_orders rc_logs].
        destruct (auto_call_seq (sf_base fl)) eqn:Ea; [reflexivity|].
        apply sig_groups_seq in HR1; auto. rewrite HR1. reflexivity.
  Qed.
End Simulate.
