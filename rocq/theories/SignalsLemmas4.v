(** * Lemmas on stop signals (C35), built-in choice functions (C33), ranks
    (C36), n-th index (C37) *)
From Coq Require Import ZArith Bool List Arith Lia Sorting Permutation.
From Verif Require Import Base Num OrdLaws SignalsNb SignalsSpec SignalsLemmas.
Import ListNotations.
Open Scope list_scope.
Open Scope nat_scope.

Lemma before_S : forall from k, from <= k -> before from (S k) = before from k ++ [k].
Proof.
  intros from k H. unfold before. replace (S k - from) with (S (k - from)) by lia.
  rewrite seq_S. do 2 f_equal. lia.
Qed.

Lemma before_self : forall k, before k k = [].
Proof. intros. unfold before. rewrite Nat.sub_diag. reflexivity. Qed.

Section Stops.
  Context {T : Type} {N : Num T} {L : OrdLaws N}.

  Lemma lowest_snoc : forall (p0 : T) ps p, lowest p0 (ps ++ [p]) = if ltb p (lowest p0 ps) then p else lowest p0 ps.
  Proof. intros. unfold lowest. rewrite fold_left_app. reflexivity. Qed.
  Lemma highest_snoc : forall (p0 : T) ps p, highest p0 (ps ++ [p]) = if gtb p (highest p0 ps) then p else highest p0 ps.
  Proof. intros. unfold highest. rewrite fold_left_app. reflexivity. Qed.

  Lemma highest_not_below : forall (p0 : T) ps, ltb (highest p0 ps) (lowest p0 ps) = false.
  Proof.
    intros p0 ps. induction ps as [|p ps IH] using rev_ind; [apply ltb_irrefl|].
    rewrite lowest_snoc, highest_snoc. unfold gtb.
    destruct (ltb p (lowest p0 ps)) eqn:E1, (ltb (highest p0 ps) p) eqn:E2; auto.
    apply ltb_irrefl.
  Qed.

  (** The lowest price is one of the prices and none is below it. *)
  Lemma lowest_in : forall ps (p0 : T), In (lowest p0 ps) (p0 :: ps).
  Proof.
    intros ps p0. induction ps as [|p ps IH] using rev_ind; [cbn; auto|].
    rewrite lowest_snoc. destruct (ltb p _); [right; apply in_or_app; cbn; auto|].
    destruct IH as [<-|IH]; [left; auto|right; apply in_or_app; auto].
  Qed.
  Lemma highest_in : forall ps (p0 : T), In (highest p0 ps) (p0 :: ps).
  Proof.
    intros ps p0. induction ps as [|p ps IH] using rev_ind; [cbn; auto|].
    rewrite highest_snoc. destruct (gtb p _); [right; apply in_or_app; cbn; auto|].
    destruct IH as [<-|IH]; [left; auto|right; apply in_or_app; auto].
  Qed.
  Lemma lowest_notnan : forall ps (p0 : T), isnan p0 = false -> isnan (lowest p0 ps) = false.
  Proof.
    intros ps p0 H. induction ps as [|p ps IH] using rev_ind; auto. rewrite lowest_snoc.
    destruct (ltb p (lowest p0 ps)) eqn:E; auto. apply ltb_notnan in E. apply E.
  Qed.
  Lemma highest_notnan : forall ps (p0 : T), isnan p0 = false -> isnan (highest p0 ps) = false.
  Proof.
    intros ps p0 H. induction ps as [|p ps IH] using rev_ind; auto. rewrite highest_snoc. unfold gtb.
    destruct (ltb (highest p0 ps) p) eqn:E; auto. apply ltb_notnan in E. apply E.
  Qed.
  Lemma lowest_least : forall ps (p0 p : T), isnan p0 = false -> In p (p0 :: ps) -> ltb p (lowest p0 ps) = false.
  Proof.
    intros ps p0 p Hn. revert p. induction ps as [|q ps IH] using rev_ind; intros p Hp.
    - destruct Hp as [<-|[]]. apply ltb_irrefl.
    - rewrite lowest_snoc. assert (Hp' : In p (p0 :: ps) \/ p = q).
      { destruct Hp as [<-|Hp]; [left; cbn; auto|]. apply in_app_or in Hp as [Hp|[<-|[]]]; cbn; auto. }
      destruct (ltb q (lowest p0 ps)) eqn:E.
      + destruct Hp' as [Hp'| ->]; [|apply ltb_irrefl]. specialize (IH _ Hp').
        apply (ol_negtrans p (lowest p0 ps) q); auto; [apply lowest_notnan; auto|apply ol_asym; auto].
      + destruct Hp' as [Hp'| ->]; auto.
  Qed.
  Lemma highest_greatest : forall ps (p0 p : T), isnan p0 = false -> In p (p0 :: ps) -> ltb (highest p0 ps) p = false.
  Proof.
    intros ps p0 p Hn. revert p. induction ps as [|q ps IH] using rev_ind; intros p Hp.
    - destruct Hp as [<-|[]]. apply ltb_irrefl.
    - rewrite highest_snoc. unfold gtb. assert (Hp' : In p (p0 :: ps) \/ p = q).
      { destruct Hp as [<-|Hp]; [left; cbn; auto|]. apply in_app_or in Hp as [Hp|[<-|[]]]; cbn; auto. }
      destruct (ltb (highest p0 ps) q) eqn:E.
      + destruct Hp' as [Hp'| ->]; [|apply ltb_irrefl]. specialize (IH _ Hp').
        apply (ol_negtrans q (highest p0 ps) p); auto; [apply highest_notnan; auto|apply ol_asym; auto].
      + destruct Hp' as [Hp'| ->]; auto.
  Qed.

  Lemma stop_loop_pick : forall ts p0 st (tra : bool) bars lo hi,
    stop_loop ts p0 st tra true lo hi bars = firstn 1 (stop_loop ts p0 st tra false lo hi bars).
  Proof.
    intros ts p0 st tra. induction bars as [|i bars IH]; intros lo hi; [reflexivity|].
    cbn [stop_loop]. rewrite andb_true_r, andb_false_r.
    destruct (negb (isnan st) && _).
    - destruct (if tra then _ else _); reflexivity.
    - destruct (if tra then _ else _); apply IH.
  Qed.

  Lemma stop_loop_filter : forall ts st (tra : bool) entry from m k lo hi, from <= k ->
    (tra = true -> lo = lowest (ts entry) (map ts (before from k)) /\ hi = highest (ts entry) (map ts (before from k))) ->
    stop_loop ts (ts entry) st tra false lo hi (seq k m) = filter (stop_reached ts st tra entry from) (seq k m).
  Proof.
    intros ts st tra entry from m. induction m as [|m IH]; intros k lo hi Hk Hlh; [reflexivity|].
    cbn [stop_loop seq filter]. rewrite andb_false_r.
    assert (Eh : negb (isnan st) && stop_hit st (stop_level tra (ts entry) st lo hi) (ts k) = stop_reached ts st tra entry from k).
    { unfold stop_reached, stop_hit, stop_level, level_at. destruct tra; auto. destruct Hlh as [-> ->]; auto. }
    rewrite Eh.
    assert (E : (if tra then if ltb (ts k) lo then (ts k, hi) else if gtb (ts k) hi then (lo, ts k) else (lo, hi) else (lo, hi))
       = (if tra && ltb (ts k) lo then ts k else lo, if tra && gtb (ts k) hi then ts k else hi)).
    { destruct tra; auto. cbn [andb]. destruct (ltb (ts k) lo) eqn:E1; [|destruct (gtb (ts k) hi); auto].
      unfold gtb. destruct (ltb hi (ts k)) eqn:E2; auto. exfalso.
      pose proof (ltb_trans _ _ _ E2 E1) as C. destruct Hlh as [-> ->]; auto. rewrite highest_not_below in C. discriminate. }
    rewrite E. clear E. rewrite IH; [destruct (stop_reached ts st tra entry from k); reflexivity|lia|].
    intros ->. destruct Hlh as [-> ->]; auto. rewrite before_S by auto. rewrite map_app. cbn [map andb].
    rewrite lowest_snoc, highest_snoc. auto.
  Qed.

  Lemma stop_choice_spec : forall ts stop trailing wait from to,
    let entry := from - wait in
    stop_choice_nb ts stop trailing wait false from to
      = filter (stop_reached ts (stop entry) (trailing entry) entry from) (seq from (to - from)) /\
    stop_choice_nb ts stop trailing wait true from to
      = firstn 1 (filter (stop_reached ts (stop entry) (trailing entry) entry from) (seq from (to - from))).
  Proof.
    intros ts stop trailing wait from to entry. unfold stop_choice_nb. rewrite stop_loop_pick.
    fold entry. rewrite (stop_loop_filter ts (stop entry) (trailing entry) entry from); auto.
    rewrite before_self. cbn. auto.
  Qed.

  (** *** OHLC stops *)
  Lemma ohlc_loop_pick : forall bar a entry p0 os bars lo hi,
    ohlc_loop bar a entry p0 os true lo hi bars = firstn 1 (ohlc_loop bar a entry p0 os false lo hi bars).
  Proof.
    intros bar a entry p0 os. induction bars as [|i bars IH]; intros lo hi; [reflexivity|].
    cbn [ohlc_loop]. destruct (if Nat.ltb entry i || os then _ else _) as [h l].
    destruct (ohlc_hit a p0 lo hi h l) as [[p ty]|]; [reflexivity|apply IH].
  Qed.

  Lemma ohlc_loop_exits : forall bar a entry os from m k lo hi, from <= k ->
    lo = (if oa_trail a then lowest (b_open (bar entry)) (map (low_at bar os entry) (before from k)) else b_open (bar entry)) ->
    hi = (if oa_trail a then highest (b_open (bar entry)) (map (high_at bar os entry) (before from k)) else b_open (bar entry)) ->
    ohlc_loop bar a entry (b_open (bar entry)) os false lo hi (seq k m) = flat_map (exit_at bar a os entry from) (seq k m).
  Proof.
    intros bar a entry os from m. induction m as [|m IH]; intros k lo hi Hk Hlo Hhi; [reflexivity|].
    cbn [ohlc_loop seq flat_map].
    replace (if Nat.ltb entry k || os then _ else _) with (high_at bar os entry k, low_at bar os entry k).
    2:{ unfold high_at, low_at. destruct (Nat.ltb entry k || os); auto. }
    rewrite IH; [|lia| |].
    2:{ rewrite before_S, map_app by auto. cbn [map]. rewrite lowest_snoc, Hlo. destruct (oa_trail a); auto. }
    2:{ rewrite before_S, map_app by auto. cbn [map]. rewrite highest_snoc, Hhi. destruct (oa_trail a); auto. }
    assert (E : ohlc_hit a (b_open (bar entry)) lo hi (high_at bar os entry k) (low_at bar os entry k)
       = match exit_at bar a os entry from k with (_, p, ty) :: _ => Some (p, ty) | [] => None end).
    { unfold exit_at, ohlc_hit, sl_reached, tp_reached.
      assert (Es : sl_level a (b_open (bar entry)) lo hi = sl_at bar a os entry from k).
      { unfold sl_level, sl_at. rewrite Hlo, Hhi. destruct (oa_trail a), (oa_reverse a); auto. }
      rewrite Es. change (tp_level a (b_open (bar entry))) with (tp_at bar a entry).
      destruct (oa_reverse a); cbn [negb andb orb]; rewrite ?orb_false_r;
        destruct (negb (isnan (oa_sl a)) && _); auto; destruct (negb (isnan (oa_tp a)) && _); auto. }
    rewrite E. clear E IH. set (R := flat_map _ _). clearbody R. unfold exit_at.
    destruct (sl_reached bar a os entry from k); auto. destruct (tp_reached bar a os entry k); auto.
  Qed.

  Lemma ohlc_choice_spec : forall bar args os wait from to,
    let entry := from - wait in
    ltb (oa_sl (args entry)) zero = false -> ltb (oa_tp (args entry)) zero = false ->
    ohlc_stop_choice_nb bar args os wait false from to
      = Ok (flat_map (exit_at bar (args entry) os entry from) (seq from (to - from))) /\
    ohlc_stop_choice_nb bar args os wait true from to
      = Ok (firstn 1 (flat_map (exit_at bar (args entry) os entry from) (seq from (to - from)))).
  Proof.
    intros bar args os wait from to entry H1 H2. unfold ohlc_stop_choice_nb. fold entry. rewrite H1, H2. cbn [raise_if].
    rewrite ohlc_loop_pick, (ohlc_loop_exits bar (args entry) entry os from); auto; rewrite before_self; destruct (oa_trail _); reflexivity.
  Qed.
End Stops.

(** ** The built-in choice functions return bars of their window *)
Lemma find_seq_in : forall (a : nat -> bool) from n i, find a (seq from n) = Some i -> from <= i < from + n /\ a i = true.
Proof. intros a from n i H. apply find_some in H as [H1 H2]. apply in_seq in H1. auto. Qed.

Lemma first_choice_in : forall a from to i, In i (first_choice_nb from to a) -> from <= i < to.
Proof.
  intros a from to i H. unfold first_choice_nb in H. destruct (find a _) eqn:E; [|destruct H]. destruct H as [<-|[]].
  apply find_seq_in in E. lia.
Qed.

Lemma rand_choice_in : forall perm from to n i, (forall l, Permutation (perm l) l) ->
  In i (rand_choice_nb perm from to n) -> from <= i < to.
Proof.
  intros perm from to n i Hp H. unfold rand_choice_nb in H. apply in_map_iff in H as (j & <- & H).
  assert (In j (perm (seq 0 (to - from)))) as H'.
  { rewrite <- (firstn_skipn (Nat.min (to - from) n)). apply in_or_app. auto. }
  eapply Permutation_in in H'; [|apply Hp]. apply in_seq in H'. lia.
Qed.

Lemma NoDup_firstn : forall {A} (l : list A) k, NoDup l -> NoDup (firstn k l).
Proof.
  intros A l. induction l as [|x l IH]; intros [|k] H; cbn; try constructor.
  - inversion H; subst. intros C. apply H2. rewrite <- (firstn_skipn k l). apply in_or_app. auto.
  - inversion H; auto.
Qed.

Lemma rand_choice_nodup : forall perm from to n, (forall l, Permutation (perm l) l) ->
  NoDup (rand_choice_nb perm from to n) /\ length (rand_choice_nb perm from to n) = Nat.min (to - from) n.
Proof.
  intros perm from to n Hp. unfold rand_choice_nb. split.
  - apply FinFun.Injective_map_NoDup; [intros x y; lia|].
    assert (ND : NoDup (perm (seq 0 (to - from)))) by (eapply Permutation_NoDup; [apply Permutation_sym, Hp|apply seq_NoDup]).
    apply NoDup_firstn. auto.
  - rewrite map_length, firstn_length. assert (E := Permutation_length (Hp (seq 0 (to - from)))). rewrite E, seq_length. lia.
Qed.

Section Prob.
  Context {T : Type} {N : Num T}.
  Lemma rand_by_prob_in : forall u (prob : nat -> T) pf from to i, In i (rand_by_prob_choice_nb u prob pf from to) -> from <= i < to.
  Proof.
    intros u prob pf from to i. unfold rand_by_prob_choice_nb.
    assert (G : forall bars k, In i (rand_by_prob_loop u prob pf k bars) -> In i bars).
    { induction bars as [|b bars IH]; intros k H; [destruct H|]. cbn [rand_by_prob_loop] in H.
      destruct (ltb (u k) (prob b)); [destruct pf|]; cbn in *; intuition eauto. }
    intros H. apply G, in_seq in H. lia.
  Qed.
  Lemma stop_choice_in : forall {L : OrdLaws N} (ts stop : nat -> T) trailing wait pf from to i,
    In i (stop_choice_nb ts stop trailing wait pf from to) -> from <= i < to.
  Proof.
    intros L ts stop trailing wait pf from to i H. pose proof (stop_choice_spec ts stop trailing wait from to) as [E1 E2].
    assert (H' : In i (filter (stop_reached ts (stop (from - wait)) (trailing (from - wait)) (from - wait) from) (seq from (to - from)))).
    { destruct pf; [rewrite E2 in H|rewrite E1 in H; auto]. rewrite <- (firstn_skipn 1). apply in_or_app. auto. }
    apply filter_In in H' as [H' _]. apply in_seq in H'. lia.
  Qed.
End Prob.

(** ** N-th index *)
Lemma nth_fwd_spec : forall l i found n, (found < n)%Z ->
  nth_fwd (Z.of_nat i) found n l =
  match nth_error (true_idxs i l) (Z.to_nat (n - found - 1)) with Some j => Z.of_nat j | None => (-1)%Z end.
Proof.
  induction l as [|x l IH]; intros i found n H; cbn [nth_fwd true_idxs].
  - destruct (Z.to_nat _); reflexivity.
  - replace (Z.of_nat i + 1)%Z with (Z.of_nat (S i)) by lia. destruct x.
    + destruct (Z.eqb_spec (found + 1) n) as [<-|Hn].
      * replace (found + 1 - found - 1)%Z with 0%Z by lia. reflexivity.
      * rewrite IH by lia. replace (Z.to_nat (n - found - 1)) with (S (Z.to_nat (n - (found + 1) - 1))) by lia. reflexivity.
    + apply IH. auto.
Qed.

Lemma true_idxs_app : forall l l' i, true_idxs i (l ++ l') = true_idxs i l ++ true_idxs (i + length l) l'.
Proof.
  induction l as [|x l IH]; intros l' i; cbn [true_idxs app length]; [f_equal; lia|].
  replace (i + S (length l)) with (S i + length l) by lia. destruct x; rewrite IH; reflexivity.
Qed.

Lemma nth_bwd_spec : forall l found n, (n < found)%Z ->
  nth_bwd (Z.of_nat (length l) - 1) found n l =
  match nth_error (rev (flatnonzero (rev l))) (Z.to_nat (found - n - 1)) with Some j => Z.of_nat j | None => (-1)%Z end.
Proof.
  unfold flatnonzero. induction l as [|x l IH]; intros found n H; cbn [nth_bwd].
  - destruct (Z.to_nat _); reflexivity.
  - replace (Z.of_nat (length (x :: l)) - 1)%Z with (Z.of_nat (length l)) by (cbn [length]; lia).
    cbn [rev]. rewrite true_idxs_app, rev_length, rev_app_distr. cbn [true_idxs plus].
    destruct x; cbn [rev app].
    + destruct (Z.eqb_spec (found - 1) n) as [<-|Hn].
      * replace (found - (found - 1) - 1)%Z with 0%Z by lia. reflexivity.
      * rewrite IH by lia. replace (Z.to_nat (found - n - 1)) with (S (Z.to_nat (found - 1 - n - 1))) by lia. reflexivity.
    + apply IH. auto.
Qed.

Lemma nth_index_spec : forall a n,
  nth_index_1d_nb a n =
  match (if (0 <=? n)%Z then nth_error (flatnonzero a) (Z.to_nat n) else nth_error (rev (flatnonzero a)) (Z.to_nat (- n - 1))) with
  | Some j => Z.of_nat j
  | None => (-1)%Z
  end.
Proof.
  intros a n. unfold nth_index_1d_nb. destruct (Z.leb_spec 0 n) as [H|H].
  - change 0%Z with (Z.of_nat 0). rewrite (nth_fwd_spec a 0 (-1) n) by lia. replace (n - -1 - 1)%Z with n by lia. reflexivity.
  - rewrite <- rev_length. rewrite nth_bwd_spec by lia. rewrite rev_involutive.
    replace (0 - n - 1)%Z with (- n - 1)%Z by lia. reflexivity.
Qed.
