(** * Simulation from signals: what a bar decides, and trailing stops over time *)
From Coq Require Import String ZArith Bool List Arith Lia.
From Verif Require Import Base Num MathNb OrdLaws Order OrderGen CallSeq Account Simulate SimSpec SimLemmas SimLemmas2
  CallSeqLemmas SimLemmas3 SimLemmas4 FromSignals FromSignalsSpec FromSignalsLemmas FromSignalsLemmas2 FromSignalsLemmas4.
Import ListNotations.
Local Open Scope nat_scope.
Local Open Scope list_scope.

Section SDecide.
  Context {T : Type} {N : Num T} {L : OrdLaws N}.
  Implicit Types (st : SSim T) (inp : SigInputs T) (fl : SigFlags) (c : Col T).

  Lemma get_stop_cases : forall (pos ref stop open low high : T) sd loss r,
    on_side pos sd -> sd <> Flat -> isnan stop = false ->
    leb low open = true -> leb open high = true ->
    get_stop_price_nb pos ref stop open low high loss = Ok r ->
    (isnan r = false /\ triggers sd loss ref stop open low high r) \/
    (isnan r = true /\ silent sd loss ref stop low high).
  Proof.
    intros pos ref stop open low high sd loss r Hs Hf Hn Hlo Hoh H.
    pose proof (stop_price_exact _ _ _ _ _ _ _ _ _ Hs Hf Hlo Hoh H) as (A & B & C). cbv zeta in *.
    destruct (isnan r) eqn:E; [right|left]; split; auto.
    - right. intros R. apply A in R. discriminate.
    - assert (R : reaches (from_above sd loss) (stop_level sd loss ref stop) low high) by (apply A; auto).
      split; auto.
  Qed.

  (** The three cases of a bar with stops. *)
  Lemma stop_hit_cases : forall (pos : T) s o l h sd r,
    on_side pos sd -> sd <> Flat -> leb l o = true -> leb o h = true -> isnan (nan : T) = true ->
    stop_hit pos s o l h = Ok r ->
    (isnan r = false /\ triggers sd true (sl_curr_price s) (sl_curr_stop s) o l h r) \/
    (isnan r = false /\ silent sd true (sl_curr_price s) (sl_curr_stop s) l h /\
       triggers sd false (tp_init_price s) (tp_curr_stop s) o l h r) \/
    (isnan r = true /\ silent sd true (sl_curr_price s) (sl_curr_stop s) l h /\
       silent sd false (tp_init_price s) (tp_curr_stop s) l h).
  Proof.
    intros pos s o l h sd r Hs Hf Hlo Hoh Hnan H. unfold stop_hit in H.
    apply bind_ok in H as (sp & H1 & H).
    assert (K : (isnan sp = false /\ triggers sd true (sl_curr_price s) (sl_curr_stop s) o l h sp) \/
                (isnan sp = true /\ silent sd true (sl_curr_price s) (sl_curr_stop s) l h)).
    { destruct (isnan (sl_curr_stop s)) eqn:E; cbn [negb] in H1.
      - injection H1 as <-. right. split; auto. left; auto.
      - eapply get_stop_cases; eauto. }
    destruct K as [[E K]|[E K]]; rewrite E in H; cbn [andb] in H.
    - injection H as <-. auto.
    - destruct (isnan (tp_curr_stop s)) eqn:E2; cbn [negb] in H.
      + injection H as <-. right; right. split; auto. split; auto. left; auto.
      + destruct (get_stop_cases _ _ _ _ _ _ _ _ _ Hs Hf E2 Hlo Hoh H) as [[A B]|[A B]]; auto.
  Qed.

  Lemma no_adjust : forall inp i col (pos vp : T) s,
    si_adjust_sl inp = no_adjust_sl -> si_adjust_tp inp = no_adjust_tp ->
    adjust_stops inp i col pos vp s = s.
  Proof. intros inp i col pos vp s H1 H2. unfold adjust_stops. rewrite H1, H2. destruct s; reflexivity. Qed.

  Lemma fupd_same : forall A (f : nat -> A) k v, fupd f k v k = v.
  Proof. intros. unfold fupd. rewrite Nat.eqb_refl. auto. Qed.

  (** What the signal loop leaves in a column. *)
  Lemma signal_step_inv : forall inp fl i cash free cols col cols',
    signal_step inp fl i cash free cols col = Ok cols' ->
    exists sp stops s acc price slip size stype dir,
      stop_step inp fl i col (cols col) = Ok (sp, stops) /\
      pick_signals inp fl i col (cols col) sp = ((s, acc), (price, slip)) /\
      signals_to_size_nb (c_pos (cols col)) s (in_size (si_base inp) i col) (in_size_type (si_base inp) i col)
        acc (c_vp (cols col)) = Ok (size, stype, dir) /\
      c_pos (cols' col) = c_pos (cols col) /\ c_stops (cols' col) = stops /\
      c_price (cols' col) = price /\ c_slip (cols' col) = slip /\
      c_size (cols' col) = size /\ c_stype (cols' col) = stype /\ c_dir (cols' col) = dir.
  Proof.
    intros inp fl i cash free cols col cols' H. unfold signal_step in H.
    apply bind_ok in H as ([sp stops] & H1 & H).
    destruct (pick_signals _ _ _ _ _ _) as [[s acc] [price slip]] eqn:E.
    apply bind_ok in H as ([[size stype] dir] & H2 & H). injection H as <-.
    exists sp, stops, s, acc, price, slip, size, stype, dir. rewrite fupd_same. cbn. auto 20.
  Qed.

  Definition placed (c : Col T) : res (T * SizeType * Direction) := Ok (c_size c, c_stype c, c_dir c).

  (** A stop that triggers decides the bar, whatever the user's signals. *)
  Lemma stop_decides : forall inp fl i cash free cols col cols' o l h sd,
    signal_step inp fl i cash free cols col = Ok cols' ->
    use_stops fl = true -> si_adjust_sl inp = no_adjust_sl -> si_adjust_tp inp = no_adjust_tp ->
    isnan (nan : T) = true ->
    on_side (c_pos (cols col)) sd -> sd <> Flat ->
    resolve_bar inp i col = (o, l, h) -> leb l o = true -> leb o h = true ->
    let c := cols col in let c' := cols' col in let s := c_stops c in
    let acts a := same_order (placed c') (order_of sd (c_pos c) (in_size (si_base inp) i col) (c_vp c)
                                            (in_size_type (si_base inp) i col) a) in
    (forall p, triggers sd true (sl_curr_price s) (sl_curr_stop s) o l h p \/
               (silent sd true (sl_curr_price s) (sl_curr_stop s) l h /\
                triggers sd false (tp_init_price s) (tp_curr_stop s) o l h p) ->
       acts (stop_act (si_stop_exit inp i col) (si_accumulate inp i col)) /\
       (c_price c', c_slip c') = exit_terms (si_exit_price inp i col) p (c_price c)
         (in_close (si_base inp) i col) (in_slippage (si_base inp) i col)) /\
    (silent sd true (sl_curr_price s) (sl_curr_stop s) l h ->
     silent sd false (tp_init_price s) (tp_curr_stop s) l h ->
       acts (documented_act sd (si_long_conflict inp i col) (si_short_conflict inp i col)
               (si_dir_conflict inp i col) (si_opposite inp i col) (si_accumulate inp i col)
               (si_signals inp i col (c_pos c) (c_vp c))) /\
       (c_price c', c_slip c') = (c_price c, in_slippage (si_base inp) i col)).
  Proof.
    intros inp fl i cash free cols col cols' o l h sd H Hu Ha1 Ha2 Hnan Hs Hf Hb Hlo Hoh c c' s acts.
    apply signal_step_inv in H as (sp & stops & sg & acc & price & slip & size & stype & dir & H1 & H2 & H3 & _ & _ & E1 & E2 & E3 & E4 & E5).
    fold c in H1, H2, H3. fold c' in E1, E2, E3, E4, E5.
    pose proof (bad_size_refused _ _ _ _ _ _ _ H3) as [Ht Hz].
    unfold acts, placed. rewrite E1, E2, E3, E4, E5. clear acts.
    assert (SH : (isnan sp = false /\ (triggers sd true (sl_curr_price s) (sl_curr_stop s) o l h sp \/
                    silent sd true (sl_curr_price s) (sl_curr_stop s) l h /\
                    triggers sd false (tp_init_price s) (tp_curr_stop s) o l h sp)) \/
                 (isnan sp = true /\ silent sd true (sl_curr_price s) (sl_curr_stop s) l h /\
                    silent sd false (tp_init_price s) (tp_curr_stop s) l h)).
    { unfold stop_step in H1. rewrite Hu, (no_adjust _ _ _ _ _ _ Ha1 Ha2) in H1. fold s in H1.
      destruct (isnan (sl_curr_stop s)) eqn:A, (isnan (tp_curr_stop s)) eqn:B; cbn [negb orb] in H1.
      1:{ injection H1 as <- _. right. split; auto. split; left; auto. }
      all: rewrite Hb in H1; apply bind_ok in H1 as (sp' & H1 & E); injection E as <- _;
        destruct (stop_hit_cases _ _ _ _ _ _ _ Hs Hf Hlo Hoh Hnan H1) as [[]|[(? & ? & ?)|(? & ? & ?)]]; auto 10. }
    assert (UNI : forall p, triggers sd true (sl_curr_price s) (sl_curr_stop s) o l h p ->
              silent sd true (sl_curr_price s) (sl_curr_stop s) l h -> False).
    { intros p (A & B & _) [C|C]; [congruence|auto]. }
    assert (UNI2 : forall p, triggers sd false (tp_init_price s) (tp_curr_stop s) o l h p ->
              silent sd false (tp_init_price s) (tp_curr_stop s) l h -> False).
    { intros p (A & B & _) [C|C]; [congruence|auto]. }
    assert (SAME : forall loss ref stop p q, triggers sd loss ref stop o l h p -> triggers sd loss ref stop o l h q -> p = q).
    { intros loss ref stop p q (_ & _ & A & B) (_ & _ & A' & B').
      assert (D : gaps (from_above sd loss) (stop_level sd loss ref stop) o \/ ~ gaps (from_above sd loss) (stop_level sd loss ref stop) o).
      { unfold gaps. destruct (from_above sd loss); match goal with |- ?b = true \/ _ => destruct b end; auto; right; discriminate. }
      destruct D as [D|D]; [rewrite (A D), (A' D)|rewrite (B D), (B' D)]; auto. }
    unfold pick_signals in H2. rewrite Hu in H2. cbn [andb] in H2.
    split.
    - intros p Hp. destruct SH as [[En SH]|(En & S1 & S2)].
      2:{ exfalso. destruct Hp as [Hp|[_ Hp]]; eauto. }
      assert (sp = p).
      { destruct SH as [SH|[S1 S2]], Hp as [Hp|[P1 P2]]; eauto; exfalso; eauto. }
      subst sp. rewrite En in H2. cbn [negb] in H2. injection H2 as Eg Ep.
      pose proof (stop_documented (c_pos c) (in_size (si_base inp) i col) (c_vp c) sd (si_stop_exit inp i col)
                    (si_accumulate inp i col) (in_size_type (si_base inp) i col) Hs Hf Ht Hz) as D.
      rewrite Eg in D. rewrite H3 in D. split; auto.
    - intros S1 S2. destruct SH as [[En SH]|(En & _ & _)].
      1:{ exfalso. destruct SH as [SH|[_ SH]]; eauto. }
      rewrite En in H2. cbn [negb] in H2. injection H2 as Eg Ep1 Ep2.
      pose proof (signals_documented (c_pos c) (in_size (si_base inp) i col) (c_vp c) sd
                    (si_signals inp i col (c_pos c) (c_vp c)) (si_long_conflict inp i col) (si_short_conflict inp i col)
                    (si_dir_conflict inp i col) (si_opposite inp i col)
                    (si_accumulate inp i col) (in_size_type (si_base inp) i col) Hs Ht Hz) as D.
      rewrite Eg in D. rewrite H3 in D. split; auto. congruence.
  Qed.

  (** Without stops, or when flat, the user's signals decide. *)
  Lemma signals_decide : forall inp fl i cash free cols col cols' sd,
    signal_step inp fl i cash free cols col = Ok cols' ->
    on_side (c_pos (cols col)) sd ->
    use_stops fl = false \/ c_stops (cols col) = no_stops /\ isnan (nan : T) = true /\
      si_adjust_sl inp = no_adjust_sl /\ si_adjust_tp inp = no_adjust_tp ->
    let c := cols col in let c' := cols' col in
    same_order (placed c') (order_of sd (c_pos c) (in_size (si_base inp) i col) (c_vp c)
      (in_size_type (si_base inp) i col)
      (documented_act sd (si_long_conflict inp i col) (si_short_conflict inp i col)
               (si_dir_conflict inp i col) (si_opposite inp i col) (si_accumulate inp i col)
               (si_signals inp i col (c_pos c) (c_vp c)))) /\
    (c_price c', c_slip c') = (c_price c, in_slippage (si_base inp) i col).
  Proof.
    intros inp fl i cash free cols col cols' sd H Hs Hc c c'.
    apply signal_step_inv in H as (sp & stops & sg & acc & price & slip & size & stype & dir & H1 & H2 & H3 & _ & _ & E1 & E2 & E3 & E4 & E5).
    fold c in H1, H2, H3. fold c' in E1, E2, E3, E4, E5.
    pose proof (bad_size_refused _ _ _ _ _ _ _ H3) as [Ht Hz].
    unfold placed. rewrite E1, E2, E3, E4, E5.
    assert (En : (use_stops fl && negb (isnan sp))%bool = false).
    { destruct Hc as [->|(Hn & Hnan & A1 & A2)]; auto. destruct (use_stops fl) eqn:Eu; auto.
      unfold stop_step in H1. rewrite Eu, (no_adjust _ _ _ _ _ _ A1 A2) in H1. unfold c in H1. rewrite Hn in H1.
      cbn [no_stops sl_curr_stop tp_curr_stop] in H1. rewrite Hnan in H1. cbn [negb orb] in H1.
      injection H1 as <- _. rewrite Hnan. auto. }
    unfold pick_signals in H2. rewrite En in H2. injection H2 as Eg Ep1 Ep2.
    pose proof (signals_documented (c_pos c) (in_size (si_base inp) i col) (c_vp c) sd
                  (si_signals inp i col (c_pos c) (c_vp c)) (si_long_conflict inp i col) (si_short_conflict inp i col)
                  (si_dir_conflict inp i col) (si_opposite inp i col)
                  (si_accumulate inp i col) (in_size_type (si_base inp) i col) Hs Ht Hz) as D.
    rewrite Eg in D. rewrite H3 in D. split; auto. congruence.
  Qed.

  (** ** A column over one bar without an order of its own *)

  Definition no_order_of (col : nat) (old new : list (OrderRec T)) : Prop :=
    exists a, new = old ++ a /\ Forall (fun r => or_col r <> col) a.

  Lemma no_order_split : forall col (x y z : list (OrderRec T)),
    (exists a, y = x ++ a) -> (exists b, z = y ++ b) -> no_order_of col x z ->
    no_order_of col x y /\ no_order_of col y z.
  Proof.
    intros col x y z (a & ->) (b & ->) (e & E & F). rewrite <- app_assoc in E. apply app_inv_head in E. subst e.
    apply Forall_app in F as [F1 F2]. split; eexists; eauto.
  Qed.

  Lemma sig_order_step_col : forall draws inp fl sh i g f len st k st' col,
    sig_order_step draws inp fl sh i g f len st k = Ok st' ->
    no_order_of col (rc_orders (ss_rc st)) (rc_orders (ss_rc st')) ->
    is_close_nb (c_pos (ss_cols st col)) zero = false ->
    c_pos (ss_cols st' col) = c_pos (ss_cols st col) /\ c_stops (ss_cols st' col) = c_stops (ss_cols st col).
  Proof.
    intros draws inp fl sh i g f len st k st' col H (a & Ha & Fa) Hc. unfold sig_order_step in H.
    apply bind_ok in H as (j & _ & H).
    destruct (neb _ zero); [|injection H as <-; auto].
    apply bind_ok in H as ([[r s'] rc'] & Hp & H). injection H as <-. cbn [ss_cols ss_rc] in *.
    apply process_order_inv in Hp as (es & He & _ & Es & _ & _ & Ho & _).
    unfold fupd. destruct (Nat.eqb_spec col j) as [<-|Hne]; auto. cbn [c_pos c_stops].
    destruct (is_filled r) eqn:Er.
    { exfalso. rewrite Ho in Ha. apply app_inv_head in Ha. subst a. inversion Fa; subst. cbn in *. auto. }
    assert (Eu : update_stops inp i col (make_sig_order inp i col (ss_cols st col)) r (c_pos (ss_cols st col))
                   (ps_position s') (ps_val_price s') (c_stops (ss_cols st col)) = c_stops (ss_cols st col)).
    { unfold update_stops. rewrite Er. auto. }
    rewrite Eu. split; [|destruct (use_stops fl); auto].
    apply execute_outcome in He. rewrite Es. cbn [ps_position].
    destruct He as [(E1 & _)|(Hfill & _)].
    - rewrite E1. unfold snap_state, sig_order_state. cbn. unfold snap. rewrite Hc. auto.
    - exfalso. unfold is_filled in Er. rewrite Hfill in Er. discriminate.
  Qed.

  Lemma sig_order_step_ext : forall draws inp fl sh i g f len st k st',
    sig_order_step draws inp fl sh i g f len st k = Ok st' ->
    exists a, rc_orders (ss_rc st') = rc_orders (ss_rc st) ++ a.
  Proof.
    intros draws inp fl sh i g f len st k st' H. unfold sig_order_step in H.
    apply bind_ok in H as (j & _ & H).
    destruct (neb _ zero); [|injection H as <-; exists []; rewrite app_nil_r; auto].
    apply bind_ok in H as ([[r s'] rc'] & Hp & H). injection H as <-. cbn [ss_rc].
    apply process_order_inv in Hp as (es & _ & _ & _ & _ & _ & Ho & _).
    destruct (is_filled r); eauto. exists []. rewrite app_nil_r; auto.
  Qed.

  Lemma fold_ext : forall A (f : SSim T -> A -> res (SSim T)) l st st',
    (forall s a s', f s a = Ok s' -> exists x, rc_orders (ss_rc s') = rc_orders (ss_rc s) ++ x) ->
    foldM f st l = Ok st' -> exists x, rc_orders (ss_rc st') = rc_orders (ss_rc st) ++ x.
  Proof.
    intros A f l. induction l as [|a l IH]; intros st st' Hf H; cbn [foldM] in H.
    - injection H as <-. exists []. rewrite app_nil_r; auto.
    - apply bind_ok in H as (m & H1 & H2). apply Hf in H1 as (x & E). apply IH in H2 as (y & E2); auto.
      exists (x ++ y). rewrite E2, E, app_assoc. auto.
  Qed.

  Lemma sig_orders_col : forall draws inp fl sh i g f len col l st st',
    foldM (sig_order_step draws inp fl sh i g f len) st l = Ok st' ->
    no_order_of col (rc_orders (ss_rc st)) (rc_orders (ss_rc st')) ->
    is_close_nb (c_pos (ss_cols st col)) zero = false ->
    c_pos (ss_cols st' col) = c_pos (ss_cols st col) /\ c_stops (ss_cols st' col) = c_stops (ss_cols st col).
  Proof.
    intros draws inp fl sh i g f len col l. induction l as [|k l IH]; intros st st' H Hn Hc; cbn [foldM] in H.
    - injection H as <-. auto.
    - apply bind_ok in H as (m & H1 & H2).
      destruct (no_order_split col _ _ _ (sig_order_step_ext _ _ _ _ _ _ _ _ _ _ _ H1)
                  (fold_ext _ _ _ _ _ (sig_order_step_ext draws inp fl sh i g f len) H2) Hn) as [N1 N2].
      destruct (sig_order_step_col _ _ _ _ _ _ _ _ _ _ _ _ H1 N1 Hc) as [P1 S1].
      destruct (IH _ _ H2 N2) as [P2 S2]; [rewrite P1; auto|]. split; congruence.
  Qed.

  (** The signal loop changes the column only in its own pass. *)
  Lemma signals_col : forall inp fl i cash free col l cols cols',
    NoDup l -> In col l -> foldM (signal_step inp fl i cash free) cols l = Ok cols' ->
    exists a a', signal_step inp fl i cash free a col = Ok a' /\ a col = cols col /\ cols' col = a' col.
  Proof.
    intros inp fl i cash free col l. induction l as [|k l IH]; intros cols cols' Hd Hin H; [destruct Hin|].
    cbn [foldM] in H. apply bind_ok in H as (m & H1 & H2). inversion Hd as [|? ? Hni Hd']; subst.
    assert (OTH : forall x y j, signal_step inp fl i cash free x j = Ok y -> j <> col -> y col = x col).
    { intros x y j Hs Hne. unfold signal_step in Hs.
      apply bind_ok in Hs as ([sp stops] & _ & Hs).
      destruct (pick_signals _ _ _ _ _ _) as [[s acc] [price slip]].
      apply bind_ok in Hs as ([[size stype] dir] & _ & Hs). injection Hs as <-.
      unfold fupd. destruct (Nat.eqb_spec col j); [congruence|auto]. }
    destruct (Nat.eq_dec k col) as [->|Hne].
    - exists cols, m. split; auto. split; auto.
      assert (G : forall l x y, ~ In col l -> foldM (signal_step inp fl i cash free) x l = Ok y -> y col = x col).
      { clear - OTH. induction l as [|j l IHl]; intros x y Hn Hf; cbn [foldM] in Hf; [injection Hf as <-; auto|].
        apply bind_ok in Hf as (z & A & B). rewrite (IHl z y); auto.
        - eapply OTH; eauto. intros ->. apply Hn; left; auto.
        - intros C; apply Hn; right; auto. }
      eapply G; eauto.
    - destruct Hin as [->|Hin]; [congruence|]. destruct (IH _ _ Hd' Hin H2) as (a & a' & A & B & C).
      exists a, a'. split; auto. split; auto. rewrite B. eapply OTH; eauto.
  Qed.

  Lemma prices_col : forall inp fl i col l (cols : nat -> Col T),
    let d := fold_left (sig_price_step inp fl i) l cols in
    c_pos (d col) = c_pos (cols col) /\ c_stops (d col) = c_stops (cols col).
  Proof.
    intros inp fl i col l. induction l as [|k l IH]; intros cols; cbn [fold_left]; auto.
    cbv zeta in *. destruct (IH (sig_price_step inp fl i cols k)) as [-> ->].
    unfold sig_price_step, fupd. destruct (Nat.eqb_spec col k) as [<-|]; auto.
  Qed.

  (** The stops of a column after a bar in which it has no order. *)
  Lemma sig_bar_stops : forall draws inp fl sh g f len st i st' col,
    sig_bar_step draws inp fl sh g f len st i = Ok st' -> f <= col < f + len ->
    no_order_of col (rc_orders (ss_rc st)) (rc_orders (ss_rc st')) ->
    is_close_nb (c_pos (ss_cols st col)) zero = false ->
    use_stops fl = true -> si_adjust_sl inp = no_adjust_sl -> si_adjust_tp inp = no_adjust_tp ->
    isnan (sl_curr_stop (c_stops (ss_cols st col))) = false ->
    c_pos (ss_cols st' col) = c_pos (ss_cols st col) /\
    c_stops (ss_cols st' col) =
      trail_update i (c_pos (ss_cols st col)) (c_stops (ss_cols st col)) (bar_low inp i col) (bar_high inp i col).
  Proof.
    intros draws inp fl sh g f len st i st' col H Hcol Hn Hc Hu A1 A2 Hsl.
    unfold sig_bar_step, sig_prepare in H. apply bind_ok in H as (m & H1 & H).
    apply bind_ok in H1 as (cols & H1 & E). injection E as <-.
    match type of H with foldM _ (sig_sort_step _ _ _ _ _ ?s) _ = _ => set (s0 := s) in * end.
    assert (Rc : ss_rc (sig_sort_step fl sh i f len s0) = ss_rc st) by (rewrite sig_sort_rc; reflexivity).
    assert (Cc : ss_cols (sig_sort_step fl sh i f len s0) = cols) by (destruct sh; reflexivity).
    destruct (signals_col inp fl i (ss_cash st) (ss_free st) col (seq f len) _ _ (seq_NoDup _ _) (proj2 (in_seq _ _ _) Hcol) H1) as (a & a' & S1 & S2 & S3).
    destruct (prices_col inp fl i col (seq f len) (ss_cols st)) as [P1 P2]. cbv zeta in *.
    rewrite <- S2 in P1, P2.
    apply signal_step_inv in S1 as (sp & stops & sg & acc & price & slip & size & stype & dir & K1 & _ & _ & K2 & K3 & _).
    apply sig_orders_col with (col := col) in H.
    - destruct H as [Q1 Q2]. rewrite Q1, Q2, Cc, S3, K2, K3, P1. split; auto.
      unfold stop_step in K1. rewrite Hu, (no_adjust _ _ _ _ _ _ A1 A2), P1, P2, Hsl in K1. cbn [negb orb] in K1.
      unfold bar_low, bar_high. destruct (resolve_bar inp i col) as [[o l] h]. cbn [fst snd].
      apply bind_ok in K1 as (sp' & _ & K1). injection K1 as _ <-. auto.
    - rewrite Rc. auto.
    - rewrite Cc, S3, K2, P1. auto.
  Qed.

  Lemma sig_bar_ext : forall draws inp fl sh g f len st i st',
    sig_bar_step draws inp fl sh g f len st i = Ok st' ->
    exists a, rc_orders (ss_rc st') = rc_orders (ss_rc st) ++ a.
  Proof.
    intros draws inp fl sh g f len st i st' H. apply sig_bar_orders in H as (a & E & _). eauto.
  Qed.

  Lemma trailing_long : forall draws inp fl sh g f len col n b st st',
    foldM (sig_bar_step draws inp fl sh g f len) st (seq b n) = Ok st' -> f <= col < f + len ->
    no_order_of col (rc_orders (ss_rc st)) (rc_orders (ss_rc st')) ->
    is_close_nb (c_pos (ss_cols st col)) zero = false -> on_side (c_pos (ss_cols st col)) InLong ->
    use_stops fl = true -> si_adjust_sl inp = no_adjust_sl -> si_adjust_tp inp = no_adjust_tp ->
    isnan (sl_curr_stop (c_stops (ss_cols st col))) = false -> sl_curr_trail (c_stops (ss_cols st col)) = true ->
    isnan (sl_curr_price (c_stops (ss_cols st col))) = false ->
    let s := c_stops (ss_cols st col) in let s' := c_stops (ss_cols st' col) in
    c_pos (ss_cols st' col) = c_pos (ss_cols st col) /\
    sl_curr_stop s' = sl_curr_stop s /\ sl_curr_trail s' = true /\
    largest_of (sl_curr_price s') (sl_curr_price s) (map (fun i => bar_high inp i col) (seq b n)).
  Proof.
    intros draws inp fl sh g f len col n. induction n as [|n IH]; intros b st st' H Hcol Hn Hc Hs Hu A1 A2 Hsl Htr Hp s s';
      cbn [seq foldM] in H.
    - injection H as <-. subst s'. fold s. split; auto. split; auto. split; auto. split; [apply leb_refl; auto|].
      split; [left; auto|]. cbn. tauto.
    - apply bind_ok in H as (m & H1 & H2).
      destruct (no_order_split col _ _ _ (sig_bar_ext _ _ _ _ _ _ _ _ _ _ H1)
                  (fold_ext _ _ _ _ _ (sig_bar_ext draws inp fl sh g f len) H2) Hn) as [N1 N2].
      destruct (sig_bar_stops _ _ _ _ _ _ _ _ _ _ _ H1 Hcol N1 Hc Hu A1 A2 Hsl) as [P1 S1].
      destruct (trail_long b _ _ (bar_low inp b col) (bar_high inp b col) Hs Hsl Htr) as (T1 & T2 & T3). cbv zeta in *.
      rewrite <- S1 in T1, T2, T3.
      assert (Hp' : isnan (sl_curr_price (c_stops (ss_cols m col))) = false).
      { rewrite T1. destruct (gtb _ _) eqn:E; auto. apply ltb_notnan in E. tauto. }
      destruct (IH _ _ _ H2 Hcol N2) as (Q1 & Q2 & Q3 & Q4 & Q5 & Q6); auto; try (rewrite ?P1, ?T2; auto; fail).
      fold s in T1, T2. fold s' in Q2, Q3, Q4, Q5, Q6.
      split; [congruence|]. split; [congruence|]. split; auto.
      assert (LE : leb (sl_curr_price s) (sl_curr_price (c_stops (ss_cols m col))) = true /\
                   (isnan (bar_high inp b col) = false -> leb (bar_high inp b col) (sl_curr_price (c_stops (ss_cols m col))) = true) /\
                   (sl_curr_price (c_stops (ss_cols m col)) = sl_curr_price s \/ sl_curr_price (c_stops (ss_cols m col)) = bar_high inp b col)).
      { rewrite T1. destruct (gtb (bar_high inp b col) (sl_curr_price s)) eqn:E.
        - unfold gtb in E. split; [apply ltb_leb; auto|]. split; [intros; apply leb_refl; auto|auto].
        - split; [apply leb_refl; auto|]. split; [|auto]. intros Hh. apply ltb_false_leb; auto. }
      destruct LE as (L1 & L2 & L3). cbn [map].
      split; [eapply leb_trans; eauto|]. split.
      + destruct Q5 as [Q5|Q5]; [|right; right; auto]. rewrite Q5. destruct L3 as [L3|L3]; rewrite L3; [left|right; left]; auto.
      + intros x [<-|Hx] Hnx; [|apply Q6; auto]. eapply leb_trans; eauto.
  Qed.

  Lemma trailing_short : forall draws inp fl sh g f len col n b st st',
    foldM (sig_bar_step draws inp fl sh g f len) st (seq b n) = Ok st' -> f <= col < f + len ->
    no_order_of col (rc_orders (ss_rc st)) (rc_orders (ss_rc st')) ->
    is_close_nb (c_pos (ss_cols st col)) zero = false -> on_side (c_pos (ss_cols st col)) InShort ->
    use_stops fl = true -> si_adjust_sl inp = no_adjust_sl -> si_adjust_tp inp = no_adjust_tp ->
    isnan (sl_curr_stop (c_stops (ss_cols st col))) = false -> sl_curr_trail (c_stops (ss_cols st col)) = true ->
    isnan (sl_curr_price (c_stops (ss_cols st col))) = false ->
    let s := c_stops (ss_cols st col) in let s' := c_stops (ss_cols st' col) in
    c_pos (ss_cols st' col) = c_pos (ss_cols st col) /\
    sl_curr_stop s' = sl_curr_stop s /\ sl_curr_trail s' = true /\
    smallest_of (sl_curr_price s') (sl_curr_price s) (map (fun i => bar_low inp i col) (seq b n)).
  Proof.
    intros draws inp fl sh g f len col n. induction n as [|n IH]; intros b st st' H Hcol Hn Hc Hs Hu A1 A2 Hsl Htr Hp s s';
      cbn [seq foldM] in H.
    - injection H as <-. subst s'. fold s. split; auto. split; auto. split; auto. split; [apply leb_refl; auto|].
      split; [left; auto|]. cbn. tauto.
    - apply bind_ok in H as (m & H1 & H2).
      destruct (no_order_split col _ _ _ (sig_bar_ext _ _ _ _ _ _ _ _ _ _ H1)
                  (fold_ext _ _ _ _ _ (sig_bar_ext draws inp fl sh g f len) H2) Hn) as [N1 N2].
      destruct (sig_bar_stops _ _ _ _ _ _ _ _ _ _ _ H1 Hcol N1 Hc Hu A1 A2 Hsl) as [P1 S1].
      destruct (trail_short b _ _ (bar_low inp b col) (bar_high inp b col) Hs Hsl Htr) as (T1 & T2 & T3). cbv zeta in *.
      rewrite <- S1 in T1, T2, T3.
      assert (Hp' : isnan (sl_curr_price (c_stops (ss_cols m col))) = false).
      { rewrite T1. destruct (ltb _ _) eqn:E; auto. apply ltb_notnan in E. tauto. }
      destruct (IH _ _ _ H2 Hcol N2) as (Q1 & Q2 & Q3 & Q4 & Q5 & Q6); auto; try (rewrite ?P1, ?T2; auto; fail).
      fold s in T1, T2. fold s' in Q2, Q3, Q4, Q5, Q6.
      split; [congruence|]. split; [congruence|]. split; auto.
      assert (LE : leb (sl_curr_price (c_stops (ss_cols m col))) (sl_curr_price s) = true /\
                   (isnan (bar_low inp b col) = false -> leb (sl_curr_price (c_stops (ss_cols m col))) (bar_low inp b col) = true) /\
                   (sl_curr_price (c_stops (ss_cols m col)) = sl_curr_price s \/ sl_curr_price (c_stops (ss_cols m col)) = bar_low inp b col)).
      { rewrite T1. destruct (ltb (bar_low inp b col) (sl_curr_price s)) eqn:E.
        - split; [apply ltb_leb; auto|]. split; [intros; apply leb_refl; auto|auto].
        - split; [apply leb_refl; auto|]. split; [|auto]. intros Hh. apply ltb_false_leb; auto. }
      destruct LE as (L1 & L2 & L3). cbn [map].
      split; [eapply leb_trans; eauto|]. split.
      + destruct Q5 as [Q5|Q5]; [|right; right; auto]. rewrite Q5. destruct L3 as [L3|L3]; rewrite L3; [left|right; left]; auto.
      + intros x [<-|Hx] Hnx; [|apply Q6; auto]. eapply leb_trans; eauto.
  Qed.
End SDecide.
