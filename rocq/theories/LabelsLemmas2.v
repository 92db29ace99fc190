(** * Filling between extrema, breakouts, periods ahead *)
From Coq Require Import String ZArith Bool List Arith Lia.
From Verif Require Import Base Num OrdLaws GenericNb GenericSpec GenericLemmas ReturnsNb LabelsNb LabelsSpec LabelsLemmas.
Import ListNotations.
Local Open Scope list_scope.
Local Open Scope nat_scope.

(** ** Adjacent extrema *)
Lemma adjacent_unique : forall ext p q p' q' i, covers ext p q i -> covers ext p' q' i -> p = p' /\ q = q'.
Proof.
  intros ext p q p' q' i [(H1 & H2 & H3 & H4) Hi] [(H1' & H2' & H3' & H4') Hi'].
  assert (p = p').
  { destruct (lt_eq_lt_dec p p') as [[Hlt|]|Hlt]; auto; exfalso.
    - apply H2'. apply H4. lia.
    - apply H2. apply H4'. lia. }
  split; auto. destruct (lt_eq_lt_dec q q') as [[Hlt|]|Hlt]; auto; exfalso.
  - apply H3. apply H4'. lia.
  - apply H3'. apply H4. lia.
Qed.

Lemma filter_seq_pairs : forall (f : nat -> bool) m a p q,
  In (p, q) (let l := filter f (seq a m) in combine l (tl l)) <->
  a <= p < q /\ q < a + m /\ f p = true /\ f q = true /\ forall i, p < i < q -> f i = false.
Proof.
  intros f. induction m as [|m IH]; intros a p q.
  - cbn. split; [tauto|lia].
  - cbn [seq filter]. destruct (f a) eqn:Ea.
    + cbn zeta. cbn [tl]. specialize (IH (S a) p q). cbn zeta in IH.
      assert (Hhd : match filter f (seq (S a) m) with
                    | [] => forall i, S a <= i < S a + m -> f i = false
                    | b :: _ => S a <= b < S a + m /\ f b = true /\ forall i, S a <= i < b -> f i = false end).
      { clear. generalize (S a) as b. induction m as [|m IH]; intros b; cbn [seq filter]; [intros; lia|].
        destruct (f b) eqn:Eb; [repeat split; auto; lia|]. specialize (IH (S b)).
        destruct (filter f (seq (S b) m)).
        - intros i Hi. destruct (Nat.eq_dec i b) as [->|]; auto. apply IH. lia.
        - destruct IH as (H1 & H2 & H3). repeat split; auto; try lia.
          intros i Hi. destruct (Nat.eq_dec i b) as [->|]; auto. apply H3. lia. }
      destruct (filter f (seq (S a) m)) as [|b l] eqn:El.
      * cbn [combine In]. split; [tauto|]. intros (H1 & H2 & H3 & H4 & H5).
        rewrite Hhd in H4 by lia. discriminate.
      * destruct Hhd as (B1 & B2 & B3). cbn [tl] in IH. change (combine (a :: b :: l) (b :: l)) with ((a, b) :: combine (b :: l) l).
        cbn [In]. rewrite IH. split.
        -- intros [E|H].
           ++ injection E as <- <-. repeat split; auto; try lia.
           ++ destruct H as (H1 & H2 & H3 & H4 & H5). repeat split; auto; lia.
        -- intros (H1 & H2 & H3 & H4 & H5). destruct (Nat.eq_dec p a) as [->|Hn].
           ++ left. f_equal. destruct (lt_eq_lt_dec b q) as [[Hlt|]|Hlt]; auto.
              ** rewrite (H5 b) in B2 by lia. discriminate.
              ** rewrite B3 in H4 by lia. discriminate.
           ++ right. repeat split; auto; lia.
    + specialize (IH (S a) p q). cbn zeta in *. rewrite IH. split; intros (H1 & H2 & H3 & H4 & H5); repeat split; auto; try lia.
      destruct (Nat.eq_dec p a) as [->|]; [congruence|lia].
Qed.

Lemma pairs_adjacent : forall ext p q,
  In (p, q) (combine (flatnonzero ext) (tl (flatnonzero ext))) <-> adjacent ext p q.
Proof.
  intros ext p q. unfold flatnonzero.
  pose proof (filter_seq_pairs (fun i => negb (Z.eqb (nth i ext 0%Z) 0)) (length ext) 0 p q) as X. cbn zeta in X.
  rewrite X. clear X. unfold adjacent.
  assert (B : forall i, negb (Z.eqb (nth i ext 0%Z) 0) = true <-> nth i ext 0%Z <> 0%Z).
  { intros i. rewrite negb_true_iff. apply Z.eqb_neq. }
  assert (B' : forall i, negb (Z.eqb (nth i ext 0%Z) 0) = false <-> nth i ext 0%Z = 0%Z).
  { intros i. rewrite negb_false_iff. apply Z.eqb_eq. }
  split; [intros (H1 & H2 & H3 & H4 & H5)|intros ((H1 & H2) & H3 & H4 & H5)].
  - apply B in H3, H4. split; [lia|]. split; [auto|]. split; [auto|]. intros i Hi. apply B'. auto.
  - apply B in H3, H4. split; [lia|]. split; [lia|]. split; [auto|]. split; [auto|]. intros i Hi. apply B'. auto.
Qed.

Section Fill.
  Context {T : Type} {N : Num T}.
  Variable label : nat -> nat -> nat -> res T.

  Definition fill1 (out : list T) (pq : nat * nat) : res (list T) :=
    foldM (fun out i => let! v := label (fst pq) (snd pq) i in Ok (upd out i v)) out (range (fst pq) (snd pq)).

  Lemma fill1_spec : forall p q out out', p <= q -> q <= length out -> fill1 out (p, q) = Ok out' ->
    length out' = length out /\
    forall i, (p <= i < q -> label p q i = Ok (nth i out' nan)) /\ (~ p <= i < q -> nth i out' nan = nth i out nan).
  Proof.
    intros p q out out' Hpq Hq H. unfold fill1, range in H. cbn [fst snd] in H.
    pose (P := fun k (o : list T) => length o = length out /\
      forall i, (p <= i < k -> label p q i = Ok (nth i o nan)) /\ (~ p <= i < k -> nth i o nan = nth i out nan)).
    assert (HP : P (p + (q - p)) out').
    { refine (foldM_seq_inv _ P _ _ _ _ _ _ _ H).
      - split; [reflexivity|intros i; split; [lia|auto]].
      - intros k o o' Hk [Hlen HI] Hs. apply bind_ok in Hs as (v & Hv & Hs). injection Hs as <-.
        split; [rewrite upd_length; auto|]. intros i. rewrite nth_upd.
        destruct (Nat.eqb_spec k i) as [->|Hn]; cbn [andb].
        + replace (Nat.ltb i (length o)) with true by (symmetry; apply Nat.ltb_lt; lia). split; auto. lia.
        + split; intros; apply HI; lia. }
    replace (p + (q - p)) with q in HP by lia. exact HP.
  Qed.

  Lemma fill1_ok : forall p q out, p <= q -> (forall i, p <= i < q -> exists v, label p q i = Ok v) ->
    exists out', fill1 out (p, q) = Ok out'.
  Proof.
    intros p q out Hpq H. unfold fill1, range. cbn [fst snd].
    apply (foldM_seq_ok _ (fun _ _ => True)); auto.
    intros k o Hk _. destruct (H k ltac:(lia)) as [v ->]. cbn [bind]. eauto.
  Qed.

  Lemma fill_spec : forall ext prs out out', length out = length ext ->
    (forall p q, In (p, q) prs -> adjacent ext p q) -> foldM fill1 out prs = Ok out' ->
    length out' = length out /\
    (forall i p q, In (p, q) prs -> p <= i < q -> label p q i = Ok (nth i out' nan)) /\
    (forall i, (forall p q, In (p, q) prs -> ~ p <= i < q) -> nth i out' nan = nth i out nan).
  Proof.
    intros ext. induction prs as [|[p q] prs IH]; intros out out' Hl Hadj H; cbn [foldM] in H.
    - injection H as <-. repeat split; auto. intros i p q [].
    - apply bind_ok in H as (o1 & H1 & H2). assert (Ha := Hadj p q (or_introl eq_refl)).
      destruct (fill1_spec p q out o1) as [L1 S1]; auto; try (destruct Ha; lia).
      destruct (IH o1 out') as (L2 & S2 & S3); auto; try congruence.
      { intros; apply Hadj; right; auto. }
      split; [congruence|]. split.
      + intros i p' q' [E|Hin] Hi; [|eapply S2; eauto]. injection E as <- <-.
        assert (Hd : {pq | In pq prs /\ fst pq <= i < snd pq} + {forall pq, In pq prs -> ~ fst pq <= i < snd pq}).
        { clear - prs. induction prs as [|[a b] l [[pq H]|H]]; [right; intros ? []|left; exists pq; cbn; tauto|].
          destruct (le_lt_dec a i); [destruct (le_lt_dec b i)|].
          - right. intros pq [<-|Hin]; [cbn; lia|auto].
          - left. exists (a, b). cbn. auto.
          - right. intros pq [<-|Hin]; [cbn; lia|auto]. }
        destruct Hd as [[[p2 q2] [Hin Hi2]]|Hno].
        * cbn [fst snd] in Hi2. destruct (adjacent_unique ext p q p2 q2 i) as [-> ->]; [split; auto|split; auto; apply Hadj; right; auto|].
          apply S2; auto.
        * rewrite S3; [apply S1; auto|]. intros p2 q2 Hin. apply (Hno (p2, q2) Hin).
      + intros i Hno. rewrite S3; [apply S1; apply Hno; left; auto|]. intros; apply Hno; right; auto.
  Qed.

  Lemma between_spec : forall n ext out, length ext = n -> between_extrema label n ext = Ok out ->
    length out = n /\
    (forall i p q, covers ext p q i -> label p q i = Ok (nth i out nan)) /\
    (forall i, (forall p q, ~ covers ext p q i) -> nth i out nan = nan).
  Proof.
    intros n ext out Hn H. unfold between_extrema in H. fold fill1 in H.
    assert (Hr : length (repeat (@nan T N) n) = length ext) by (rewrite repeat_length; auto).
    destruct (fill_spec ext _ _ _ Hr (fun p q => proj1 (pairs_adjacent ext p q)) H) as (H1 & H2 & H3).
    rewrite repeat_length in H1. split; auto. split.
    - intros i p q [Ha Hi]. apply H2; auto. apply pairs_adjacent; auto.
    - intros i Hno. rewrite H3.
      + destruct (le_lt_dec n i); [apply nth_overflow; rewrite repeat_length; auto|].
        apply nth_repeat.
      + intros p q Hin Hi. apply pairs_adjacent in Hin. apply (Hno p q). split; auto.
  Qed.

  Lemma between_ok : forall n ext, length ext = n -> (forall i p q, covers ext p q i -> exists v, label p q i = Ok v) ->
    exists out, between_extrema label n ext = Ok out.
  Proof.
    intros n ext Hn H. unfold between_extrema. fold fill1.
    assert (G : forall prs out, (forall p q, In (p, q) prs -> adjacent ext p q) -> exists out', foldM fill1 out prs = Ok out').
    { induction prs as [|[p q] prs IH]; intros out Ha; cbn [foldM]; [eauto|].
      destruct (fill1_ok p q out) as [o1 E].
      - destruct (Ha p q (or_introl eq_refl)); lia.
      - intros i Hi. apply (H i p q). split; auto. apply Ha; left; auto.
      - rewrite E. cbn [bind]. apply IH. intros; apply Ha; right; auto. }
    apply G. intros p q. apply pairs_adjacent.
  Qed.
End Fill.

(** ** Breakouts *)
Section Breakout.
  Context {T : Type} {N : Num T}.
  Variables (close : list T) (pos_th neg_th : nat -> T).

  Definition hit_up (i j : nat) : bool := gtb (abs (pos_th i)) zero && up_by close (pos_th i) i j.
  Definition hit_down (i j : nat) : bool := gtb (abs (neg_th i)) zero && down_by close (neg_th i) i j.

  Lemma first_breakout_seq : forall i m a,
    let r := first_breakout close (nth i close nan) (abs (pos_th i)) (abs (neg_th i)) (seq a m) in
    (r = 1%Z /\ exists j, a <= j < a + m /\ hit_up i j = true /\ forall k, a <= k < j -> hit_up i k = false /\ hit_down i k = false) \/
    (r = (-1)%Z /\ exists j, a <= j < a + m /\ hit_down i j = true /\ hit_up i j = false /\
       forall k, a <= k < j -> hit_up i k = false /\ hit_down i k = false) \/
    (r = 0%Z /\ forall k, a <= k < a + m -> hit_up i k = false /\ hit_down i k = false).
  Proof.
    intros i. induction m as [|m IH]; intros a r; unfold r; cbn [seq first_breakout].
    - right. right. split; auto. intros; lia.
    - change (gtb (abs (pos_th i)) zero && geb (nth a close nan) (mul (nth i close nan) (add one (abs (pos_th i))))) with (hit_up i a).
      change (gtb (abs (neg_th i)) zero && leb (nth a close nan) (mul (nth i close nan) (sub one (abs (neg_th i))))) with (hit_down i a).
      destruct (hit_up i a) eqn:Eu; [left; split; auto; exists a; repeat split; auto; try lia; intros; lia|].
      destruct (hit_down i a) eqn:Ed; [right; left; split; auto; exists a; repeat split; auto; try lia; intros; lia|].
      specialize (IH (S a)). cbn zeta in IH.
      assert (G : forall j, (forall k, S a <= k < j -> hit_up i k = false /\ hit_down i k = false) ->
                  forall k, a <= k < j -> hit_up i k = false /\ hit_down i k = false).
      { intros j H k Hk. destruct (Nat.eq_dec k a) as [->|]; auto. apply H. lia. }
      destruct IH as [(E & j & H1 & H2 & H3)|[(E & j & H1 & H2 & H3 & H4)|(E & H)]].
      + left. split; auto. exists j. repeat split; auto; try lia; apply (G j); auto; lia.
      + right. left. split; auto. exists j. repeat split; auto; try lia; apply (G j); auto; lia.
      + right. right. split; auto. intros k Hk. apply (G (a + S m)); auto. intros k' Hk'. apply H. lia.
  Qed.

  Lemma breakout_run : forall window wait i, i < length close ->
    exists r, nth_error (breakout_labels_nb close window pos_th neg_th wait) i = Some r /\
    let reach j := in_period close window wait i j in
    (r = 1%Z \/ r = (-1)%Z \/ r = 0%Z) /\
    (r = 1%Z <-> exists j, reach j /\ hit_up i j = true /\ forall k, reach k -> k < j -> hit_up i k = false /\ hit_down i k = false) /\
    (r = (-1)%Z <-> exists j, reach j /\ hit_down i j = true /\ hit_up i j = false /\
       forall k, reach k -> k < j -> hit_up i k = false /\ hit_down i k = false) /\
    (r = 0%Z <-> forall j, reach j -> hit_up i j = false /\ hit_down i j = false).
  Proof.
    intros window wait i Hi. unfold breakout_labels_nb. eexists. split.
    { erewrite map_nth_error; [reflexivity|]. rewrite nth_error_nth' with (d := 0) by (rewrite seq_length; auto).
      rewrite seq_nth; auto. }
    cbn [Nat.add]. unfold range. cbn zeta.
    assert (B := first_breakout_seq i (Nat.min (i + window + wait) (length close) - (i + wait)) (i + wait)).
    cbn zeta in B.
    assert (R : forall j, i + wait <= j < i + wait + (Nat.min (i + window + wait) (length close) - (i + wait)) <-> in_period close window wait i j).
    { intros j. unfold in_period. lia. }
    destruct B as [(-> & j & H1 & H2 & H3)|[(-> & j & H1 & H2 & H3 & H4)|(-> & H)]].
    - assert (X : exists j, in_period close window wait i j /\ hit_up i j = true /\ forall k, in_period close window wait i k -> k < j -> hit_up i k = false /\ hit_down i k = false).
      { exists j. split; [apply R; auto|]. split; [auto|]. intros k Hk Hlt. apply H3. apply R in Hk. lia. }
      split; [tauto|]. split; [tauto|]. split; split; intros E; try discriminate.
      + destruct E as (j' & E1 & E2 & E3 & E4). exfalso. apply R in E1.
        destruct (lt_eq_lt_dec j j') as [[Hlt|Heq]|Hlt].
        * destruct (E4 j ltac:(apply R; auto) Hlt). congruence.
        * subst. congruence.
        * destruct (H3 j' ltac:(lia)). congruence.
      + destruct (E j ltac:(apply R; auto)). congruence.
    - assert (X : exists j, in_period close window wait i j /\ hit_down i j = true /\ hit_up i j = false /\ forall k, in_period close window wait i k -> k < j -> hit_up i k = false /\ hit_down i k = false).
      { exists j. split; [apply R; auto|]. split; [auto|]. split; [auto|]. intros k Hk Hlt. apply H4. apply R in Hk. lia. }
      split; [tauto|]. split; [|split; [tauto|]]; split; intros E; try discriminate.
      + destruct E as (j' & E1 & E2 & E3). exfalso. apply R in E1.
        destruct (lt_eq_lt_dec j j') as [[Hlt|Heq]|Hlt].
        * destruct (E3 j ltac:(apply R; auto) Hlt). congruence.
        * subst. congruence.
        * destruct (H4 j' ltac:(lia)). congruence.
      + destruct (E j ltac:(apply R; auto)). congruence.
    - split; [tauto|]. split; [|split]; split; intros E; try discriminate; auto.
      + destruct E as (j & E1 & E2 & _). apply R in E1. destruct (H j E1). congruence.
      + destruct E as (j & E1 & E2 & _). apply R in E1. destruct (H j E1). congruence.
      + intros j Hj. apply H, R, Hj.
  Qed.

  Lemma breakout_length : forall window wait, length (breakout_labels_nb close window pos_th neg_th wait) = length close.
  Proof. intros. unfold breakout_labels_nb. rewrite map_length, seq_length. reflexivity. Qed.
End Breakout.

(** ** Periods ahead *)
Section Future.
  Context {T : Type} {N : Num T}.

  Lemma window_rev : forall (a : list T) w i, i < length a ->
    window w (length a - 1 - i) (rev a) = rev (firstn w (skipn i a)).
  Proof.
    intros a w i Hi. unfold window. replace (S (length a - 1 - i)) with (length a - i) by lia.
    rewrite firstn_rev. replace (length a - (length a - i)) with i by lia.
    rewrite skipn_rev. f_equal. rewrite skipn_length.
    destruct (le_lt_dec w (length a - i)).
    - f_equal. lia.
    - rewrite !firstn_all2; auto; rewrite skipn_length; lia.
  Qed.

  Lemma nth_error_rev : forall A (l : list A) i, i < length l -> nth_error (rev l) i = nth_error l (length l - 1 - i).
  Proof.
    intros A l i Hi. destruct l as [|d l0]; [cbn in Hi; lia|]. set (l := d :: l0) in *.
    rewrite !nth_error_nth' with (d := d) by (rewrite ?rev_length; lia).
    f_equal. rewrite rev_nth by auto. f_equal. lia.
  Qed.

  Lemma maybe_bshift_at : forall wait (out : list T) i, i < length out ->
    length (maybe_bshift wait out) = length out /\
    (i + wait < length out -> nth_error (maybe_bshift wait out) i = nth_error out (i + wait)) /\
    (length out <= i + wait -> nth_error (maybe_bshift wait out) i = Some nan).
  Proof.
    intros wait out i Hi. unfold maybe_bshift. destruct (Nat.ltb_spec 0 wait).
    - rewrite bshift_spec. split; [rewrite app_length, skipn_length, repeat_length; lia|]. split; intros H'.
      + rewrite nth_error_app1 by (rewrite skipn_length; lia).
        rewrite <- (firstn_skipn wait out) at 2. rewrite nth_error_app2; rewrite firstn_length; [|lia].
        f_equal. lia.
      + rewrite nth_error_app2 by (rewrite skipn_length; lia). rewrite skipn_length.
        rewrite nth_error_nth' with (d := nan) by (rewrite repeat_length; lia). f_equal. apply nth_repeat.
    - replace wait with 0 by lia. rewrite Nat.add_0_r. split; auto. split; auto. lia.
  Qed.

  (** From a rolling result on the reversed series to the period ahead. *)
  Lemma ahead : forall (close : list T) w wait (roll : list T) (P : list T -> T -> Prop),
    length roll = length close ->
    (forall i, i < length close -> exists y, nth_error roll i = Some y /\ P (window w i (rev close)) y) ->
    (forall i, length close <= i -> P [] nan) ->
    let out := maybe_bshift wait (rev roll) in
    length out = length close /\
    forall i, i < length close -> exists y, nth_error out i = Some y /\ P (rev (next_bars w wait i close)) y.
  Proof.
    intros close w wait roll P Hl HP Hn out.
    assert (Lr : length (rev roll) = length close) by (rewrite rev_length; auto).
    split.
    - unfold out. destruct close as [|c close'].
      + cbn in Lr. destruct (rev roll); [|discriminate]. unfold maybe_bshift. destruct (Nat.ltb 0 wait); reflexivity.
      + destruct (maybe_bshift_at wait (rev roll) 0) as [E _]; [rewrite Lr; cbn; lia|]. congruence.
    - intros i Hi. destruct (maybe_bshift_at wait (rev roll) i) as (_ & E1 & E2); [lia|]. rewrite Lr in *.
      destruct (le_lt_dec (length close) (i + wait)) as [H|H].
      + exists nan. split; [apply E2; auto|]. unfold next_bars. rewrite skipn_all2 by auto. rewrite firstn_nil. apply (Hn (i + wait)). auto.
      + unfold out. rewrite E1 by auto. rewrite nth_error_rev by lia. rewrite Hl.
        destruct (HP (length close - 1 - (i + wait)) ltac:(lia)) as (y & Hy & HPy).
        exists y. split; auto. rewrite window_rev in HPy by auto. exact HPy.
  Qed.

  Lemma numbers_rev : forall l : list T, numbers (rev l) = rev (numbers l).
  Proof.
    unfold numbers. induction l as [|x l IH]; auto. cbn [rev]. rewrite filter_app, IH. cbn [filter].
    destruct (negb (isnan x)); cbn [rev]; [auto|rewrite app_nil_r; auto].
  Qed.
  Lemma is_min_rev : forall m (l : list T), is_min m (rev l) -> is_min m l.
  Proof. intros m l [H1 H2]. split; [apply in_rev; auto|]. intros x Hx. apply H2. apply in_rev. rewrite rev_involutive. auto. Qed.
  Lemma is_max_rev : forall m (l : list T), is_max m (rev l) -> is_max m l.
  Proof. intros m l [H1 H2]. split; [apply in_rev; auto|]. intros x Hx. apply H2. apply in_rev. rewrite rev_involutive. auto. Qed.

  Lemma numbers_full : forall (l : list T), length (numbers l) = length l -> numbers l = l.
  Proof.
    unfold numbers. induction l as [|x l IH]; intros H; auto. cbn [filter] in *.
    destruct (negb (isnan x)).
    - cbn [length] in H. f_equal. apply IH. lia.
    - assert (length (filter (fun x => negb (isnan x)) l) <= length l).
      { clear. induction l as [|y l IH]; cbn [filter]; auto. destruct (negb (isnan y)); cbn [length]; lia. }
      cbn [length] in H. lia.
  Qed.
  Lemma numbers_le : forall (l : list T), length (numbers l) <= length l.
  Proof. unfold numbers. induction l as [|y l IH]; cbn [filter]; auto. destruct (negb (isnan y)); cbn [length]; lia. Qed.
End Future.

Section FutureExtremes.
  Context {T : Type} {N : Num T} {L : OrdLaws N}.

  Lemma future_min_run : forall (close : list T) w wait out, 1 <= w ->
    future_min_apply_nb close w wait = Ok out ->
    length out = length close /\
    forall i, i < length close -> exists y, nth_error out i = Some y /\
      let l := next_bars w wait i close in
      (length l = w -> (forall x, In x l -> isnan x = false) -> is_min y l) /\
      (length l < w \/ (exists x, In x l /\ isnan x = true) -> isnan y = true).
  Proof.
    intros close w wait out Hw H. unfold future_min_apply_nb in H. apply bind_ok in H as (roll & H & E). injection E as <-.
    destruct (rolling_min_run _ _ _ _ Hw H) as [H1 H2]. rewrite rev_length in *.
    destruct (ahead close w wait roll (fun l y =>
      (length (numbers l) < w -> isnan y = true) /\ (w <= length (numbers l) -> numbers l <> [] -> is_min y (numbers l))) H1) as [A1 A2].
    - intros i Hi. destruct (H2 i Hi) as (y & Hy & B1 & B2 & _). eauto.
    - intros _ _. split; [intros _; apply ol_nan|cbn; lia].
    - split; auto. intros i Hi. destruct (A2 i Hi) as (y & Hy & B1 & B2). exists y. split; auto.
      rewrite numbers_rev, rev_length in *. set (l := next_bars w wait i close) in *. cbn zeta. split.
      + intros Hl Hx. assert (E : numbers l = l).
        { unfold numbers. clear - Hx. induction l as [|x l IH]; auto. cbn [filter]. rewrite Hx by (left; auto). cbn [negb].
          f_equal. apply IH. intros; apply Hx; right; auto. }
        rewrite E in *. apply is_min_rev. apply B2; [lia|]. intros E'. apply (f_equal (@length T)) in E'.
        rewrite rev_length in E'. cbn in E'. lia.
      + intros Hc. apply B1. assert (Hle := numbers_le l).
        assert (length l <= w) by (unfold l, next_bars; apply firstn_le_length).
        destruct Hc as [Hc|(x & Hx & Hn)]; [lia|]. destruct (Nat.eq_dec (length (numbers l)) (length l)) as [E|]; [|lia].
        apply numbers_full in E. rewrite <- E in Hx. apply filter_In in Hx as [_ Hx]. rewrite Hn in Hx. discriminate.
  Qed.

  Lemma future_max_run : forall (close : list T) w wait out, 1 <= w ->
    future_max_apply_nb close w wait = Ok out ->
    length out = length close /\
    forall i, i < length close -> exists y, nth_error out i = Some y /\
      let l := next_bars w wait i close in
      (length l = w -> (forall x, In x l -> isnan x = false) -> is_max y l) /\
      (length l < w \/ (exists x, In x l /\ isnan x = true) -> isnan y = true).
  Proof.
    intros close w wait out Hw H. unfold future_max_apply_nb in H. apply bind_ok in H as (roll & H & E). injection E as <-.
    destruct (rolling_max_run _ _ _ _ Hw H) as [H1 H2]. rewrite rev_length in *.
    destruct (ahead close w wait roll (fun l y =>
      (length (numbers l) < w -> isnan y = true) /\ (w <= length (numbers l) -> numbers l <> [] -> is_max y (numbers l))) H1) as [A1 A2].
    - intros i Hi. destruct (H2 i Hi) as (y & Hy & B1 & B2 & _). eauto.
    - intros _ _. split; [intros _; apply ol_nan|cbn; lia].
    - split; auto. intros i Hi. destruct (A2 i Hi) as (y & Hy & B1 & B2). exists y. split; auto.
      rewrite numbers_rev, rev_length in *. set (l := next_bars w wait i close) in *. cbn zeta. split.
      + intros Hl Hx. assert (E : numbers l = l).
        { unfold numbers. clear - Hx. induction l as [|x l IH]; auto. cbn [filter]. rewrite Hx by (left; auto). cbn [negb].
          f_equal. apply IH. intros; apply Hx; right; auto. }
        rewrite E in *. apply is_max_rev. apply B2; [lia|]. intros E'. apply (f_equal (@length T)) in E'.
        rewrite rev_length in E'. cbn in E'. lia.
      + intros Hc. apply B1. assert (Hle := numbers_le l).
        assert (length l <= w) by (unfold l, next_bars; apply firstn_le_length).
        destruct Hc as [Hc|(x & Hx & Hn)]; [lia|]. destruct (Nat.eq_dec (length (numbers l)) (length l)) as [E|]; [|lia].
        apply numbers_full in E. rewrite <- E in Hx. apply filter_In in Hx as [_ Hx]. rewrite Hn in Hx. discriminate.
  Qed.

  Lemma future_extremes_accept : forall (close : list T) w wait,
    (exists out, future_min_apply_nb close w wait = Ok out) /\ (exists out, future_max_apply_nb close w wait = Ok out).
  Proof.
    intros close w wait. unfold future_min_apply_nb, future_max_apply_nb, rolling_min_1d_nb, rolling_max_1d_nb, check_minp.
    rewrite Nat.ltb_irrefl. cbn [raise_if bind]. eauto.
  Qed.

  Lemma future_extremes : forall (close : list T) w wait, 1 <= w ->
    exists lo hi, future_min_apply_nb close w wait = Ok lo /\ future_max_apply_nb close w wait = Ok hi /\
    length lo = length close /\ length hi = length close /\
    forall i, i < length close -> exists x y, nth_error lo i = Some x /\ nth_error hi i = Some y /\
      let l := next_bars w wait i close in
      (length l = w -> (forall z, In z l -> isnan z = false) -> is_min x l /\ is_max y l) /\
      (length l < w \/ (exists z, In z l /\ isnan z = true) -> isnan x = true /\ isnan y = true).
  Proof.
    intros close w wait Hw. destruct (future_extremes_accept close w wait) as [[lo Elo] [hi Ehi]].
    exists lo, hi. destruct (future_min_run close w wait lo Hw Elo) as [A1 A2].
    destruct (future_max_run close w wait hi Hw Ehi) as [B1 B2]. repeat (split; [assumption|]).
    intros i Hi. destruct (A2 i Hi) as (x & Hx & A3 & A4). destruct (B2 i Hi) as (y & Hy & B3 & B4).
    exists x, y. split; [assumption|]. split; [assumption|]. cbn zeta in *. split.
    - intros Hl Hn. split; auto.
    - intros Hc. split; auto.
  Qed.
End FutureExtremes.
