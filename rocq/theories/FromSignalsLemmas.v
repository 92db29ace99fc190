(** * Signal resolution and stop prices *)
From Coq Require Import String ZArith Bool List Arith Lia.
From Verif Require Import Base Num MathNb Order OrdLaws CallSeq Account Simulate SimSpec FromSignals FromSignalsSpec.
Import ListNotations.

Section FSL.
  Context {T : Type} {N : Num T} {L : OrdLaws N}.

  (** What each side says about the comparisons the code makes. *)
  Lemma side_long : forall p : T, on_side p InLong ->
    gtb p zero = true /\ ltb p zero = false /\ eqb p zero = false.
  Proof.
    intros p H. cbn in H. unfold gtb. split; auto.
    assert (E : ltb p zero = false) by (apply ol_asym; auto). split; auto.
    rewrite ol_eqb. rewrite (ltb_true_leb_false _ _ H). auto.
  Qed.
  Lemma side_short : forall p : T, on_side p InShort ->
    gtb p zero = false /\ ltb p zero = true /\ eqb p zero = false.
  Proof.
    intros p H. cbn in H. unfold gtb. split; [apply ol_asym; auto|]. split; auto.
    rewrite ol_eqb. rewrite (ltb_true_leb_false _ _ H). apply andb_false_r.
  Qed.
  Lemma side_flat : forall p : T, on_side p Flat ->
    gtb p zero = false /\ ltb p zero = false /\ eqb p zero = true.
  Proof.
    intros p H. cbn in H. unfold gtb. pose proof H as H0. rewrite ol_eqb in H0.
    apply andb_prop in H0 as [H1 H2]. rewrite ol_leb in H1, H2.
    apply andb_prop in H1 as [_ H1]. apply andb_prop in H2 as [_ H2].
    apply negb_true_iff in H1, H2. auto.
  Qed.

  Definition in_pos (sd : Side) : bool := match sd with Flat => false | _ => true end.

  Lemma conflict_resolved : forall (p : T) sd d m e x, on_side p sd -> d <> BothDir ->
    resolve_signal_conflict_nb p e x d m =
      (entry_counts m (in_pos sd) e x, exit_counts m (in_pos sd) e x).
  Proof.
    intros p sd d m e x Hs Hd. unfold resolve_signal_conflict_nb, entry_counts, exit_counts.
    destruct e, x; cbn [andb negb orb]; auto.
    destruct d; [| |congruence]; destruct sd;
      [apply side_long in Hs|apply side_short in Hs|apply side_flat in Hs
      |apply side_long in Hs|apply side_short in Hs|apply side_flat in Hs];
      destruct Hs as (_ & _ & ->); destruct m; reflexivity.
  Qed.

  Lemma dir_resolved : forall (p : T) sd m e x, on_side p sd ->
    resolve_dir_conflict_nb p e x m = (long_counts m sd e x, short_counts m sd e x).
  Proof.
    intros p sd m e x Hs. unfold resolve_dir_conflict_nb, long_counts, short_counts.
    destruct e, x; cbn [andb negb orb]; auto.
    destruct sd; [apply side_long in Hs|apply side_short in Hs|apply side_flat in Hs];
      destruct Hs as (E1 & E2 & _); rewrite ?E1, ?E2; destruct m; reflexivity.
  Qed.

  Lemma counts_none : forall m b x, entry_counts m b false x = false /\ exit_counts m b false x = x.
  Proof. intros m b []; cbn; auto. Qed.

  (** The user's signals lead to the documented order. *)
  Lemma signals_documented : forall (p size vp : T) sd s lc sc dc oe acc stype,
    on_side p sd -> signal_size_type stype = true -> is_less_nb size zero = false ->
    let '(s', acc') := resolve_conflicts p s lc sc dc oe acc in
    same_order (signals_to_size_nb p s' size stype acc' vp)
               (order_of sd p size vp stype (documented_act sd lc sc dc oe acc s)).
  Proof.
    intros p size vp sd s lc sc dc oe acc stype Hs Ht Hz.
    unfold resolve_conflicts, documented_act.
    rewrite (conflict_resolved p sd LongOnly), (conflict_resolved p sd ShortOnly) by (auto; discriminate).
    change (match sd with Flat => false | _ => true end) with (in_pos sd).
    set (le1 := entry_counts lc (in_pos sd) (g_le s) (g_lx s)).
    set (se1 := entry_counts sc (in_pos sd) (g_se s) (g_sx s)).
    set (lx := exit_counts lc (in_pos sd) (g_le s) (g_lx s)).
    set (sx := exit_counts sc (in_pos sd) (g_se s) (g_sx s)).
    rewrite (dir_resolved p sd) by auto.
    assert (EX : long_counts dc sd le1 se1 && short_counts dc sd le1 se1 = false).
    { unfold long_counts, short_counts. destruct le1, se1, dc, sd; reflexivity. }
    assert (E0 : g_le s || g_se s = false ->
      long_counts dc sd le1 se1 = false /\ short_counts dc sd le1 se1 = false /\ lx = g_lx s /\ sx = g_sx s).
    { intros E. apply orb_false_iff in E as [E1 E2]. subst le1 se1 lx sx. rewrite E1, E2.
      pose proof (counts_none lc (in_pos sd) (g_lx s)) as [-> ->].
      pose proof (counts_none sc (in_pos sd) (g_sx s)) as [-> ->]. auto. }
    set (le := long_counts dc sd le1 se1) in *. set (se := short_counts dc sd le1 se1) in *.
    assert (ES : forall s1 acc1, 
      (s1, acc1) = resolve_opposite_entry_nb p (mkSig le lx se sx) oe acc ->
      same_order (signals_to_size_nb p s1 size stype acc1 vp)
        (order_of sd p size vp stype
          match sd with
          | Flat => if le then OpenLong else if se then OpenShort else Nothing
          | InLong => in_position_act oe acc le lx se
          | InShort => in_position_act oe acc se sx le
          end)).
    { intros s1 acc1 E. unfold resolve_opposite_entry_nb, opposite_of_long, opposite_of_short in E.
      unfold signals_to_size_nb. rewrite Ht, Hz. cbn [negb raise_if].
      clearbody le lx se sx. clear - L E Hs EX.
      assert (R : forall op base, same_order
          (let! q := reversal_size size stype vp op base in Ok (q, Amount, BothDir))
          (if isnan size then Ok (base, Amount, BothDir)
           else match stype with
                | Percent => Err (ValueError "SizeType.Percent does not support position reversal using signals")
                | Value => if eqb vp zero then Err ZeroDivision else Ok (op base (div size vp), Amount, BothDir)
                | _ => Ok (op base size, Amount, BothDir) end)).
      { intros op base. unfold reversal_size, sdiv. destruct (isnan size); cbn; auto.
        destruct stype; cbn; auto. destruct (eqb vp zero); cbn; auto. }
      destruct sd; [apply side_long in Hs|apply side_short in Hs|apply side_flat in Hs];
        destruct Hs as (H1 & H2 & H3); rewrite H1, H2 in *; cbn [andb] in E.
      - destruct se, oe, le, lx; try discriminate EX; cbn in E; injection E as -> ->; cbn [g_se g_lx g_le];
          destruct acc; try apply R; cbn; auto.
      - destruct le, oe, se, sx; try discriminate EX; cbn in E; injection E as -> ->; cbn [g_se g_sx g_le];
          destruct acc; try apply R; cbn; auto.
      - injection E as -> ->. cbn [g_se g_le]. destruct le, se; cbn; auto. }
    destruct (g_le s || g_se s) eqn:EE.
    - destruct (resolve_opposite_entry_nb p _ oe acc) as [s1 acc1] eqn:E. apply ES. auto.
    - destruct (E0 eq_refl) as (F1 & F2 & F3 & F4).
      replace s with (mkSig le lx se sx) at 1.
      2:{ destruct s; cbn in *. apply orb_false_iff in EE as [-> ->]. congruence. }
      apply ES. unfold resolve_opposite_entry_nb, opposite_of_long, opposite_of_short. cbn.
      rewrite F1, F2, !andb_false_r. reflexivity.
  Qed.

  (** A stop leads to the documented order, whatever the user's signals. *)
  Lemma stop_documented : forall (p size vp : T) sd m acc stype,
    on_side p sd -> sd <> Flat -> signal_size_type stype = true -> is_less_nb size zero = false ->
    let '(s', acc') := generate_stop_signal_nb p m acc in
    same_order (signals_to_size_nb p s' size stype acc' vp)
               (order_of sd p size vp stype (stop_act m acc)).
  Proof.
    intros p size vp sd m acc stype Hs Hf Ht Hz.
    assert (R : forall op base, same_order
          (let! q := reversal_size size stype vp op base in Ok (q, Amount, BothDir))
          (if isnan size then Ok (base, Amount, BothDir)
           else match stype with
                | Percent => Err (ValueError "SizeType.Percent does not support position reversal using signals")
                | Value => if eqb vp zero then Err ZeroDivision else Ok (op base (div size vp), Amount, BothDir)
                | _ => Ok (op base size, Amount, BothDir) end)).
    { intros op base. unfold reversal_size, sdiv. destruct (isnan size); cbn; auto.
      destruct stype; cbn; auto. destruct (eqb vp zero); cbn; auto. }
    unfold generate_stop_signal_nb, signals_to_size_nb. rewrite Ht, Hz. cbn [negb raise_if].
    destruct sd; [apply side_long in Hs|apply side_short in Hs|congruence];
      destruct Hs as (H1 & H2 & H3); rewrite ?H1, ?H2;
      destruct m, acc; cbn [acc_removes g_se g_lx g_le g_sx]; try apply R; cbn; auto.
  Qed.

  (** Sizes below zero and unsupported size types are refused. *)
  Lemma bad_size_refused : forall (p size vp : T) s acc stype r,
    signals_to_size_nb p s size stype acc vp = Ok r ->
    signal_size_type stype = true /\ is_less_nb size zero = false.
  Proof.
    intros p size vp s acc stype r H. unfold signals_to_size_nb in H.
    apply raise_if_ok in H as [H1 H]. apply raise_if_ok in H as [H2 _].
    apply negb_false_iff in H1. auto.
  Qed.

  (** ** Stop prices *)

  Lemma stop_price_exact : forall (pos ref stop open low high : T) sd loss r,
    on_side pos sd -> sd <> Flat ->
    leb low open = true -> leb open high = true ->
    get_stop_price_nb pos ref stop open low high loss = Ok r ->
    let level := stop_level sd loss ref stop in
    let above := from_above sd loss in
    (isnan r = false <-> reaches above level low high) /\
    (gaps above level open -> r = open) /\
    (~ gaps above level open -> reaches above level low high -> r = level).
  Proof.
    intros pos ref stop open low high sd loss r Hs Hf Hlo Hoh H level above.
    unfold get_stop_price_nb in H. apply raise_if_ok in H as [Hst H].
    pose proof (leb_notnan _ _ Hlo) as [N1 N2]. pose proof (leb_notnan _ _ Hoh) as [_ N3].
    assert (HB : (gtb pos zero && loss || ltb pos zero && negb loss)%bool = above /\
                 (ltb pos zero && loss || gtb pos zero && negb loss)%bool = negb above).
    { subst above. destruct sd; [apply side_long in Hs|apply side_short in Hs|congruence];
        destruct Hs as (E1 & E2 & _); rewrite ?E1, ?E2; destruct loss; auto. }
    destruct HB as [HB1 HB2]. rewrite HB1, HB2 in H.
    destruct above eqn:EA; cbn [negb] in H.
    - assert (EL : mul ref (sub one stop) = level).
      { subst above level. unfold stop_level. destruct sd, loss; cbn in EA; congruence. }
      rewrite EL in H. clear EL. cbn [reaches gaps].
      destruct (leb open level) eqn:E1.
      + injection H as <-. split; [|split; auto; congruence].
        split; auto. intros _. eapply leb_trans; eauto.
      + destruct (leb low level) eqn:E2; cbn [andb] in H.
        * assert (NL : isnan level = false) by (eapply leb_notnan; eauto).
          assert (E3 : leb level high = true).
          { eapply leb_trans; [|exact Hoh]. apply ltb_leb. apply leb_false_ltb; auto. }
          rewrite E3 in H. injection H as <-. split; [tauto|]. split; [congruence|auto].
        * injection H as <-. rewrite ol_nan. split; [split; discriminate|]. split; [congruence|].
          intros _ C; discriminate.
    - assert (EL : mul ref (add one stop) = level).
      { subst above level. unfold stop_level. destruct sd, loss; cbn in EA; congruence. }
      rewrite EL in H. clear EL. cbn [reaches gaps].
      destruct (leb level open) eqn:E1.
      + injection H as <-. split; [|split; auto; congruence].
        split; auto. intros _. eapply leb_trans; eauto.
      + destruct (leb level high) eqn:E2.
        * assert (NL : isnan level = false) by (apply (leb_notnan _ _ E2)).
          assert (E3 : leb low level = true).
          { eapply leb_trans; [exact Hlo|]. apply ltb_leb. apply leb_false_ltb; auto. }
          rewrite E3 in H. cbn [andb] in H. injection H as <-. split; [tauto|]. split; [congruence|auto].
        * rewrite andb_false_r in H. injection H as <-. rewrite ol_nan. split; [split; discriminate|].
          split; [congruence|]. intros _ C; discriminate.
  Qed.

  (** The bar used for stops is well formed if the given one is. *)
  Lemma resolved_bar_ok : forall (inp : SigInputs T) i c,
    let o0 := si_open inp i c in let l0 := si_low inp i c in
    let h0 := si_high inp i c in let cl := in_close (si_base inp) i c in
    isnan cl = false ->
    (isnan l0 = false -> leb l0 cl = true /\ (isnan o0 = false -> leb l0 o0 = true)) ->
    (isnan h0 = false -> leb cl h0 = true /\ (isnan o0 = false -> leb o0 h0 = true)) ->
    let '(o, l, h) := resolve_bar inp i c in
    leb l o = true /\ leb o h = true /\ (isnan o0 = false -> o = o0) /\
    (isnan l0 = false -> l = l0) /\ (isnan h0 = false -> h = h0).
  Proof.
    intros inp i c o0 l0 h0 cl Hc Hl Hh. unfold resolve_bar. fold o0 l0 h0 cl.
    assert (HO : isnan (if isnan o0 then cl else o0) = false) by (destruct (isnan o0) eqn:E; auto).
    assert (HO2 : isnan o0 = false -> (if isnan o0 then cl else o0) = o0) by (intros ->; auto).
    set (o := if isnan o0 then cl else o0) in *.
    split; [|split; [|split; [|split]]]; auto.
    - destruct (isnan l0) eqn:E.
      + unfold min2. destruct (ltb cl o) eqn:E2; [apply ltb_leb; auto|apply leb_refl; auto].
      + destruct (Hl eq_refl) as [H1 H2]. subst o. destruct (isnan o0); auto.
    - destruct (isnan h0) eqn:E.
      + unfold max2. destruct (ltb o cl) eqn:E2; [apply ltb_leb; auto|apply leb_refl; auto].
      + destruct (Hh eq_refl) as [H1 H2]. subst o. destruct (isnan o0); auto.
    - intros E. rewrite E. auto.
    - intros E. rewrite E. auto.
  Qed.

  (** Trailing over one bar *)
  Lemma trail_long : forall i (pos : T) s low high,
    on_side pos InLong -> isnan (sl_curr_stop s) = false -> sl_curr_trail s = true ->
    let s' := trail_update i pos s low high in
    sl_curr_price s' = (if gtb high (sl_curr_price s) then high else sl_curr_price s) /\
    sl_curr_stop s' = sl_curr_stop s /\ sl_curr_trail s' = true.
  Proof.
    intros i pos s low high Hs H1 H2. unfold trail_update. rewrite H1, H2. cbn [negb andb].
    apply side_long in Hs as (-> & _ & _). destruct (gtb high (sl_curr_price s)); cbn; auto.
  Qed.
  Lemma trail_short : forall i (pos : T) s low high,
    on_side pos InShort -> isnan (sl_curr_stop s) = false -> sl_curr_trail s = true ->
    let s' := trail_update i pos s low high in
    sl_curr_price s' = (if ltb low (sl_curr_price s) then low else sl_curr_price s) /\
    sl_curr_stop s' = sl_curr_stop s /\ sl_curr_trail s' = true.
  Proof.
    intros i pos s low high Hs H1 H2. unfold trail_update. rewrite H1, H2. cbn [negb andb].
    apply side_short in Hs as (-> & -> & _). destruct (ltb low (sl_curr_price s)); cbn; auto.
  Qed.
End FSL.
