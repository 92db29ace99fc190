(** * Trades come column by column and belong to positions *)
From Coq Require Import ZArith Bool List String Lia.
From Verif Require Import Base Num MathNb Order OrdLaws RustOrder RustLemmas Account Replay Trades
  RustTrades RustTradesSpec RustTradesLemmas.
Import ListNotations.
Open Scope list_scope.

Section Columns.
  Context {T : Type} {N : Num T}.

  Definition grown (col : nat) (l l' : list (TradeRec T)) : Prop :=
    exists ts, l' = l ++ ts /\ Forall (fun t => tr_col t = col /\ (0 <= tr_parent t)%Z) ts.

  Lemma grown_refl : forall col l, grown col l l.
  Proof. intros. exists []. rewrite app_nil_r. auto. Qed.

  Lemma grown_trans : forall col l l' l'', grown col l l' -> grown col l' l'' -> grown col l l''.
  Proof.
    intros col l l' l'' (ts & -> & H) (ts' & -> & H'). exists (ts ++ ts'). rewrite app_assoc.
    split; auto. apply Forall_app. auto.
  Qed.

  Lemma fill_grown : forall id col (size : T) ei ep ef xi xp xf dir st par t,
    fill_trade_record_nb id col size ei ep ef xi xp xf dir st par = Ok t ->
    tr_col t = col /\ tr_parent t = par.
  Proof.
    intros id col size ei ep ef xi xp xf dir st par t H. unfold fill_trade_record_nb in H.
    destruct (get_trade_stats_nb _ _ _ _ _ _) as [[pnl ret]|]; cbn [bind] in H; [|discriminate].
    assert (E : t = mkTradeRec id col size ei ep ef xi xp xf pnl ret dir st par) by congruence.
    subst t. auto.
  Qed.

  Lemma exit_trade_grown : forall tidx col (p : XPos T) size xi xp xf st par t,
    exit_trade tidx col p size xi xp xf st par = Ok t -> tr_col t = col /\ tr_parent t = par.
  Proof.
    intros tidx col p size xi xp xf st par t H. unfold exit_trade in H.
    destruct (sdiv (xp_gross p) (xp_size p)); cbn [bind] in H; [|discriminate].
    destruct (sdiv size (xp_size p)); cbn [bind] in H; [|discriminate].
    eapply fill_grown; eauto.
  Qed.

  Definition xinv (s : XState T) : Prop :=
    (-1 <= xs_parent s)%Z /\ (xs_pos s <> None -> 0 <= xs_parent s)%Z.

  Lemma exit_step_grown : forall col s (r : OrderRec T) s', xinv s -> exit_step col s r = Ok s' ->
    xinv s' /\ grown col (xs_out s) (xs_out s').
  Proof.
    intros col s r s' [I1 I2] H. unfold exit_step, check_record, check_id, raise_if in H.
    destruct (Z.ltb _ _); [discriminate|]. destruct (leb (or_size r) zero); [discriminate|].
    destruct (leb (or_price r) zero); [discriminate|].
    assert (K : exists p par, (0 <= par)%Z /\
       match xs_pos s with Some p => (p, xs_parent s)
       | None => (mkXPos (or_idx r) (opened_dir r) zero zero zero, (xs_parent s + 1)%Z) end = (p, par)).
    { destruct (xs_pos s).
      - exists x, (xs_parent s). split; auto. apply I2. discriminate.
      - repeat eexists. lia. }
    destruct K as (p & par & Hp & K). rewrite K in H. clear K.
    destruct (is_entry (xp_dir p) r).
    { match type of H with Ok ?x = _ => assert (E : s' = x) by congruence end. subst s'.
      split; [split; cbn; intros; lia|apply grown_refl]. }
    destruct (is_exit (xp_dir p) r).
    2:{ match type of H with Ok ?x = _ => assert (E : s' = x) by congruence end. subst s'.
        split; [split; cbn; intros; lia|apply grown_refl]. }
    destruct (is_close_or_less_nb (or_size r) (xp_size p)).
    - apply bind_ok in H. destruct H as (t & Ht & H). apply exit_trade_grown in Ht. destruct Ht as (C & P).
      destruct (is_close_nb (or_size r) (xp_size p)).
      + match type of H with Ok ?x = _ => assert (E : s' = x) by congruence end. subst s'.
        split; [split; cbn; intros; lia|]. exists [t]. split; auto. repeat constructor; auto. lia.
      + apply bind_ok in H. destruct H as (f & Hf & H).
        match type of H with Ok ?x = _ => assert (E : s' = x) by congruence end. subst s'.
        split; [split; cbn; intros; lia|]. exists [t]. split; auto. repeat constructor; auto. lia.
    - apply bind_ok in H. destruct H as (f & Hf & H).
      apply bind_ok in H. destruct H as (t & Ht & H). apply exit_trade_grown in Ht. destruct Ht as (C & P).
      match type of H with Ok ?x = _ => assert (E : s' = x) by congruence end. subst s'.
      split; [split; cbn; intros; lia|]. exists [t]. split; auto. repeat constructor; auto. lia.
  Qed.

  Lemma foldM_grown : forall X S' (out : S' -> list (TradeRec T)) (inv : S' -> Prop) (f : S' -> X -> res S') col l,
    (forall s x s', inv s -> f s x = Ok s' -> inv s' /\ grown col (out s) (out s')) ->
    forall s s', inv s -> foldM f s l = Ok s' -> inv s' /\ grown col (out s) (out s').
  Proof.
    intros X S' out inv f col l Hf. induction l as [|x l IH]; intros s s' Hi H; cbn [foldM] in H.
    - assert (s' = s) by congruence. subst. split; auto. apply grown_refl.
    - apply bind_ok in H. destruct H as (s1 & H1 & H). apply Hf in H1; auto. destruct H1 as (I1 & G1).
      apply IH in H; auto. destruct H as (I2 & G2). split; auto. eapply grown_trans; eauto.
  Qed.

  Lemma exit_column_grown : forall nrows lc (recs : list (OrderRec T)) s col s', (-1 <= xs_parent s)%Z ->
    exit_column nrows lc recs s col = Ok s' -> (-1 <= xs_parent s')%Z /\ grown col (xs_out s) (xs_out s').
  Proof.
    intros nrows lc recs s col s' Hp H. unfold exit_column in H.
    destruct (column_records col recs) as [|r l].
    { assert (s' = s) by congruence. subst. split; auto. apply grown_refl. }
    apply bind_ok in H. destruct H as (s1 & H1 & H).
    apply (foldM_grown _ _ xs_out xinv) with (col := col) in H1.
    2:{ intros. eapply exit_step_grown; eauto. }
    2:{ split; cbn; auto. intros; contradiction. }
    destruct H1 as ((I1 & I2) & G). cbn [xs_out] in G.
    unfold exit_finish in H. destruct (xs_pos s1) as [p|] eqn:Ep.
    2:{ assert (s' = s1) by congruence. subst. auto. }
    destruct (is_less_nb _ _).
    2:{ assert (s' = s1) by congruence. subst. auto. }
    apply bind_ok in H. destruct H as (t & Ht & H). apply exit_trade_grown in Ht. destruct Ht as (C & P).
    match type of H with Ok ?x = _ => assert (E : s' = x) by congruence end. subst s'. cbn [xs_parent xs_out].
    split; auto. eapply grown_trans; [exact G|]. exists [t]. split; auto.
    assert (0 <= xs_parent s1)%Z by (apply I2; discriminate). repeat constructor; auto. lia.
  Qed.

  (** ** Entry trades *)

  Lemma fill_entry_grown : forall (fsize ffees : T) col xi xs xg xf dir st par first_c l c tidx r, (0 <= par)%Z ->
    fill_entry_trades first_c c l col fsize ffees xi xs xg xf dir st par tidx = Ok r ->
    Forall (fun t => tr_col t = col /\ (0 <= tr_parent t)%Z) (snd r).
  Proof.
    intros fsize ffees col xi xs xg xf dir st par first_c l.
    induction l as [|o l IH]; intros c tidx r Hp H; cbn [fill_entry_trades] in H.
    { assert (E : r = (tidx, [])) by congruence. subst. cbn. auto. }
    destruct (is_exit dir o). { eapply IH; eauto. }
    apply bind_ok in H. destruct H as (x1 & _ & H).
    apply bind_ok in H. destruct H as (x2 & _ & H).
    apply bind_ok in H. destruct H as (t & Ht & H). apply fill_grown in Ht.
    apply bind_ok in H. destruct H as ([ti ts] & Hr & H). apply IH in Hr; auto.
    assert (E : r = (ti, t :: ts)) by congruence. subst. cbn in *. constructor; auto.
    destruct Ht. split; auto. lia.
  Qed.

  Definition einv (s : EState T) : Prop :=
    (-1 <= es_parent s)%Z /\ (es_pos s <> None -> 0 <= es_parent s)%Z.

  Lemma entry_step_grown : forall crecs col s (cr : nat * OrderRec T) s', einv s -> entry_step crecs col s cr = Ok s' ->
    einv s' /\ grown col (es_trades s) (es_trades s').
  Proof.
    intros crecs col s [c r] s' [I1 I2] H. unfold entry_step, check_record, check_id, raise_if in H.
    destruct (Z.ltb _ _); [discriminate|]. destruct (leb (or_size r) zero); [discriminate|].
    destruct (leb (or_price r) zero); [discriminate|].
    assert (K : exists p par, (0 <= par)%Z /\
       match es_pos s with Some p => (p, es_parent s)
       | None => (mkEPos c (opened_dir r) zero zero zero zero zero zero (or_size r) (or_fees r), (es_parent s + 1)%Z) end
       = (p, par)).
    { destruct (es_pos s).
      - exists e, (es_parent s). split; auto. apply I2. discriminate.
      - repeat eexists. lia. }
    destruct K as (p & par & Hp & K). rewrite K in H. clear K.
    destruct (is_entry (ep_dir p) r).
    { match type of H with Ok ?x = _ => assert (E : s' = x) by congruence end. subst s'.
      split; [split; cbn; intros; lia|apply grown_refl]. }
    destruct (is_exit (ep_dir p) r).
    2:{ match type of H with Ok ?x = _ => assert (E : s' = x) by congruence end. subst s'.
        split; [split; cbn; intros; lia|apply grown_refl]. }
    destruct (is_close_nb _ _); [|destruct (is_less_nb _ _)].
    - apply bind_ok in H. destruct H as ([ti ts] & Ht & H). apply fill_entry_grown in Ht; auto.
      match type of H with Ok ?x = _ => assert (E : s' = x) by congruence end. subst s'.
      split; [split; cbn; intros; lia|]. exists ts. split; auto.
    - match type of H with Ok ?x = _ => assert (E : s' = x) by congruence end. subst s'.
      split; [split; cbn; intros; lia|apply grown_refl].
    - apply bind_ok in H. destruct H as (f & Hf & H).
      apply bind_ok in H. destruct H as ([ti ts] & Ht & H). apply fill_entry_grown in Ht; auto.
      apply bind_ok in H. destruct H as (g & Hg & H).
      match type of H with Ok ?x = _ => assert (E : s' = x) by congruence end. subst s'.
      split; [split; cbn; intros; lia|]. exists ts. split; auto.
  Qed.

  Lemma entry_column_grown : forall nrows lc (recs : list (OrderRec T)) s col s', (-1 <= es_parent s)%Z ->
    entry_column nrows lc recs s col = Ok s' -> (-1 <= es_parent s')%Z /\ grown col (es_trades s) (es_trades s').
  Proof.
    intros nrows lc recs s col s' Hp H. unfold entry_column in H.
    destruct (column_records col recs) as [|r l].
    { assert (s' = s) by congruence. subst. split; auto. apply grown_refl. }
    apply bind_ok in H. destruct H as (s1 & H1 & H).
    apply (foldM_grown _ _ es_trades einv) with (col := col) in H1.
    2:{ intros. eapply entry_step_grown; eauto. }
    2:{ split; cbn; auto. intros; contradiction. }
    destruct H1 as ((I1 & I2) & G). cbn [es_trades] in G.
    unfold entry_finish in H. destruct (es_pos s1) as [p|] eqn:Ep.
    2:{ assert (s' = s1) by congruence. subst. auto. }
    destruct (is_less_nb _ _).
    2:{ assert (s' = s1) by congruence. subst. auto. }
    apply bind_ok in H. destruct H as ([ti ts] & Ht & H). apply fill_entry_grown in Ht.
    2:{ apply I2. discriminate. }
    match type of H with Ok ?x = _ => assert (E : s' = x) by congruence end. subst s'. cbn [es_parent es_trades].
    split; auto. eapply grown_trans; [exact G|]. exists ts. split; auto.
  Qed.

  (** ** All columns *)

  Definition in_order (ts : list (TradeRec T)) : Prop :=
    forall i j a b, i < j -> nth_error ts i = Some a -> nth_error ts j = Some b -> tr_col a <= tr_col b.

  Lemma in_order_together : forall ts, in_order ts -> columns_together ts.
  Proof.
    intros ts H i j k a b c Hij Hjk Ha Hb Hc E.
    assert (tr_col a <= tr_col b) by (apply (H i j); auto).
    assert (tr_col b <= tr_col c) by (apply (H j k); auto). lia.
  Qed.

  Definition linv (k : nat) (ts : list (TradeRec T)) : Prop :=
    in_order ts /\ positions_given ts /\ (forall t, In t ts -> tr_col t < k).

  Lemma grown_linv : forall k l l', linv k l -> grown k l l' -> linv (S k) l'.
  Proof.
    intros k l l' (I1 & I2 & I3) (ts & -> & F). rewrite Forall_forall in F.
    split; [|split].
    - intros i j a b Hij Ha Hb.
      destruct (Nat.lt_ge_cases j (List.length l)).
      + rewrite nth_error_app1 in Ha, Hb by lia. apply (I1 i j); auto.
      + rewrite (nth_error_app2 l ts) in Hb by lia. apply nth_error_In in Hb. apply F in Hb. destruct Hb as (-> & _).
        destruct (Nat.lt_ge_cases i (List.length l)).
        * rewrite nth_error_app1 in Ha by lia. apply nth_error_In in Ha. apply I3 in Ha. lia.
        * rewrite nth_error_app2 in Ha by lia. apply nth_error_In in Ha. apply F in Ha. destruct Ha. lia.
    - intros t Ht. apply in_app_or in Ht. destruct Ht as [Ht|Ht]; [apply I2; auto|apply F; auto].
    - intros t Ht. apply in_app_or in Ht. destruct Ht as [Ht|Ht].
      + apply I3 in Ht. lia.
      + apply F in Ht. lia.
  Qed.

  Lemma columns_fold : forall S' (out : S' -> list (TradeRec T)) (par : S' -> Z) (f : S' -> nat -> res S'),
    (forall s col s', (-1 <= par s)%Z -> f s col = Ok s' -> (-1 <= par s')%Z /\ grown col (out s) (out s')) ->
    forall n k s s', linv k (out s) -> (-1 <= par s)%Z -> foldM f s (seq k n) = Ok s' -> linv (k + n) (out s').
  Proof.
    intros S' out par f Hf n. induction n; intros k s s' Hl Hp H; cbn [seq foldM] in H.
    - assert (s' = s) by congruence. subst. rewrite Nat.add_0_r. auto.
    - apply bind_ok in H. destruct H as (s1 & H1 & H). apply Hf in H1; auto. destruct H1 as (P1 & G).
      replace (k + S n) with (S k + n) by lia. eapply IHn; eauto. eapply grown_linv; eauto.
  Qed.

  Lemma linv_nil : forall k, linv k [].
  Proof.
    intros k. split; [|split].
    - intros [|i] j a b; discriminate.
    - intros t [].
    - intros t [].
  Qed.

  Lemma exit_trades_columns : forall nrows ncols lc (recs : list (OrderRec T)) ts,
    get_exit_trades_nb nrows ncols lc recs = Ok ts -> columns_together ts /\ positions_given ts.
  Proof.
    intros nrows ncols lc recs ts H. unfold get_exit_trades_nb in H.
    apply bind_ok in H. destruct H as (s & Hs & H). assert (xs_out s = ts) by congruence. subst ts.
    apply (columns_fold _ xs_out xs_parent) in Hs.
    - destruct Hs as (A & B & _). split; auto. apply in_order_together. auto.
    - intros. eapply exit_column_grown; eauto.
    - apply linv_nil.
    - cbn. lia.
  Qed.

  Lemma entry_trades_columns : forall nrows ncols lc (recs : list (OrderRec T)) ts,
    get_entry_trades_nb nrows ncols lc recs = Ok ts -> columns_together ts /\ positions_given ts.
  Proof.
    intros nrows ncols lc recs ts H. unfold get_entry_trades_nb in H.
    apply bind_ok in H. destruct H as (s & Hs & H). assert (es_trades s = ts) by congruence. subst ts.
    apply (columns_fold _ es_trades es_parent) in Hs.
    - destruct Hs as (A & B & _). split; auto. apply in_order_together. auto.
    - intros. eapply entry_column_grown; eauto.
    - apply linv_nil.
    - cbn. lia.
  Qed.
End Columns.

Section Both.
  Context {T : Type} {N : Num T} {R : RustOps T} {L : RustLaws N R}.

  Lemma exit_trades_agree : forall nrows ncols lc (recs : list (OrderRec T)),
    get_exit_trades_nb nrows ncols lc recs <> Err ZeroDivision ->
    get_exit_trades_rs nrows ncols lc recs = trade_outcome (get_exit_trades_nb nrows ncols lc recs).
  Proof. intros. apply sim_outcome; auto. apply exit_trades_sim. Qed.

  Lemma entry_trades_agree : forall nrows ncols lc (recs : list (OrderRec T)),
    get_entry_trades_nb nrows ncols lc recs <> Err ZeroDivision ->
    get_entry_trades_rs nrows ncols lc recs = trade_outcome (get_entry_trades_nb nrows ncols lc recs).
  Proof. intros. apply sim_outcome; auto. apply entry_trades_sim. Qed.

  Lemma foldM_no_words : forall A X (f : A -> X -> res A) l,
    (forall a x, In x l -> trade_outcome (f a x) = f a x) -> forall a, trade_outcome (foldM f a l) = foldM f a l.
  Proof.
    induction l as [|x l IH]; intros H a; cbn [foldM]; auto.
    specialize (H a x (or_introl eq_refl)) as Hx. destruct (f a x); cbn [bind]; auto.
    apply IH. intros. apply H. right. auto.
  Qed.

  (** get_positions_nb only complains about ids *)
  Lemma positions_words : forall ncols (trades : list (TradeRec T)),
    trade_outcome (get_positions_nb ncols trades) = get_positions_nb ncols trades.
  Proof.
    intros. unfold get_positions_nb. apply foldM_no_words. intros out col _.
    assert (W : forall a b c, trade_outcome (position_of trades a b c) = position_of trades a b c).
    { intros a b c. unfold position_of. destruct (Nat.ltb 1 (c - b)).
      - unfold fill_position_record_nb. destruct (firstn _ _); auto. cbv zeta.
        unfold get_trade_stats_nb, sdiv.
        destruct (eqb _ zero); cbn [bind]; auto. destruct (eqb _ zero); cbn [bind]; auto.
      - destruct (nth_error trades b); auto. }
    assert (B : forall A B (x : res A) (f : A -> res B), trade_outcome x = x ->
      (forall a, trade_outcome (f a) = f a) -> trade_outcome (let! a := x in f a) = (let! a := x in f a)).
    { intros A B x f Hx Hf. destruct x; cbn [bind]; auto. cbn in *. congruence. }
    unfold position_column. destruct (column_trades trades col) as [|i l]; auto.
    apply B.
    - apply foldM_no_words. intros a x _. unfold position_step. destruct (nth_error trades x); auto.
      unfold raise_if. destruct (Z.ltb _ _); auto. destruct (Z.eqb _ _); auto. destruct (Z.eqb _ _); auto.
    - intros a. apply B; auto.
  Qed.

  Lemma positions_agree : forall ncols (trades : list (TradeRec T)),
    columns_together trades -> positions_given trades ->
    get_positions_nb ncols trades <> Err ZeroDivision ->
    get_positions_rs ncols trades = get_positions_nb ncols trades.
  Proof. intros. rewrite <- positions_words. apply sim_outcome; auto. apply positions_sim; auto. Qed.

  Lemma positions_of_orders_agree : forall nrows ncols lc (recs : list (OrderRec T)) ts,
    get_exit_trades_nb nrows ncols lc recs = Ok ts \/ get_entry_trades_nb nrows ncols lc recs = Ok ts ->
    get_positions_nb ncols ts <> Err ZeroDivision ->
    get_positions_rs ncols ts = get_positions_nb ncols ts.
  Proof.
    intros nrows ncols lc recs ts H Hz.
    assert (K : columns_together ts /\ positions_given ts).
    { destruct H as [H|H]; [eapply exit_trades_columns; eauto|eapply entry_trades_columns; eauto]. }
    destruct K. apply positions_agree; auto.
  Qed.
End Both.
