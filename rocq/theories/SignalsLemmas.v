(** * Lemmas on cleaned signals, true indices and generated exits *)
From Coq Require Import ZArith Bool List Arith Lia Sorting.
From Verif Require Import Base Num SignalsNb SignalsSpec.
Import ListNotations.
Open Scope list_scope.
Open Scope nat_scope.

(** ** True indices *)
Lemma true_idxs_in : forall l k i, In i (true_idxs k l) <-> k <= i /\ nth (i - k) l false = true.
Proof.
  induction l as [|b l IH]; intros k i; cbn [true_idxs].
  - split; [intros []|intros [_ H]; destruct (i - k); discriminate].
  - assert (E : In i (true_idxs (S k) l) <-> S k <= i /\ nth (i - k) (b :: l) false = true).
    { rewrite IH. split; intros [H1 H2]; split; auto; replace (i - k) with (S (i - S k)) in * by lia; auto. }
    destruct b; cbn [In]; rewrite E.
    + split.
      * intros [<-|[H1 H2]]; [rewrite Nat.sub_diag; split; auto|split; auto; lia].
      * intros [H1 H2]. destruct (Nat.eq_dec k i); auto. right. split; auto. lia.
    + split; [intros [H1 H2]; split; auto; lia|]. intros [H1 H2].
      destruct (Nat.eq_dec k i) as [->|]; [rewrite Nat.sub_diag in H2; discriminate|]. split; auto. lia.
Qed.

Lemma flatnonzero_in : forall l i, In i (flatnonzero l) <-> tr l i.
Proof. intros l i. unfold flatnonzero. rewrite true_idxs_in, Nat.sub_0_r. unfold tr. intuition lia. Qed.

Lemma true_idxs_sorted : forall l k, StronglySorted lt (true_idxs k l).
Proof.
  induction l as [|b l IH]; intros k; cbn; [constructor|]. destruct b; auto.
  constructor; auto. apply Forall_forall. intros i Hi. apply true_idxs_in in Hi. lia.
Qed.

Lemma flatnonzero_sorted : forall l, StronglySorted lt (flatnonzero l).
Proof. intros; apply true_idxs_sorted. Qed.

Lemma tr_lt : forall l i, tr l i -> i < length l.
Proof. intros l i H. destruct (Nat.lt_ge_cases i (length l)); auto. unfold tr in H. rewrite nth_overflow in H by auto. discriminate. Qed.

(** ** Cleaning *)
Definition phase_step (p : Phase) (s : bool * bool) : Phase :=
  if fst s then LastEntry else if snd s then LastExit else p.
Definition phase_after (p : Phase) (o : list (bool * bool)) : Phase := fold_left phase_step o p.

(** What the cleaning writes for signals [s] when the phase is [p] *)
Definition clean_rule (ef : bool) (p : Phase) (s : bool * bool) : bool * bool :=
  match s with
  | (true, false) => (match p with LastEntry => false | _ => true end, false)
  | (false, true) => (false, match p with LastEntry => true | NoSignal => negb ef | LastExit => false end)
  | _ => (false, false)
  end.

Lemma clean_loop_cons : forall ef p s l,
  clean_loop ef p (s :: l) = clean_rule ef p s :: clean_loop ef (phase_step p (clean_rule ef p s)) l.
Proof. intros [] [] [[] []] l; reflexivity. Qed.

Lemma clean_length : forall ef l p, length (clean_loop ef p l) = length l.
Proof. intros ef. induction l as [|s l IH]; intros p; auto. rewrite clean_loop_cons. cbn. auto. Qed.

Lemma clean_nth : forall ef l p i, i < length l ->
  nth i (clean_loop ef p l) (false, false) =
  clean_rule ef (phase_after p (firstn i (clean_loop ef p l))) (nth i l (false, false)).
Proof.
  intros ef. induction l as [|s l IH]; intros p i Hi; cbn in Hi; [lia|].
  rewrite clean_loop_cons. destruct i as [|i]; cbn [nth firstn]; [reflexivity|].
  rewrite IH by lia. reflexivity.
Qed.

Lemma clean_idem : forall ef l p, clean_loop ef p (clean_loop ef p l) = clean_loop ef p l.
Proof.
  intros ef. induction l as [|s l IH]; intros p; auto.
  rewrite (clean_loop_cons ef p s l).
  assert (E : clean_rule ef p (clean_rule ef p s) = clean_rule ef p s).
  { destruct ef, p, s as [[] []]; reflexivity. }
  rewrite clean_loop_cons, E. f_equal. apply IH.
Qed.

Lemma phase_exit_between : forall o p, phase_after p o <> LastEntry -> p = LastEntry ->
  exists k, k < length o /\ snd (nth k o (false, false)) = true /\ fst (nth k o (false, false)) = false.
Proof.
  induction o as [|s o IH]; intros p H Hp; cbn in *; [congruence|].
  destruct (phase_step p s) eqn:E.
  - unfold phase_step in E. destruct (fst s), (snd s); subst; discriminate.
  - unfold phase_step in E. destruct (fst s) eqn:E1; [discriminate|]. destruct (snd s) eqn:E2; [|congruence].
    exists 0. cbn. repeat split; auto. lia.
  - destruct (IH _ H eq_refl) as (k & K1 & K2 & K3). exists (S k). cbn. split; [lia|auto].
Qed.

Lemma phase_entry_between : forall o p, phase_after p o = LastEntry -> p <> LastEntry ->
  exists k, k < length o /\ fst (nth k o (false, false)) = true.
Proof.
  induction o as [|s o IH]; intros p H Hp; cbn in *; [congruence|].
  destruct (fst s) eqn:E1; [exists 0; cbn; split; auto; lia|].
  assert (Hq : phase_step p s <> LastEntry). { unfold phase_step. rewrite E1. destruct (snd s); congruence. }
  destruct (IH _ H Hq) as (k & K1 & K2). exists (S k). cbn. split; [lia|auto].
Qed.

Lemma split_between : forall A (o : list A) i j, i < j -> j <= length o ->
  exists mid, firstn j o = firstn (S i) o ++ mid /\ length mid = j - S i /\
    forall d k, k < length mid -> nth k mid d = nth (S i + k) o d.
Proof.
  intros A o i j Hij Hj. exists (firstn (j - S i) (skipn (S i) o)).
  split; [|split].
  - rewrite <- (firstn_skipn (S i) o) at 1. rewrite firstn_app, firstn_firstn, firstn_length_le by lia.
    rewrite Nat.min_r by lia. reflexivity.
  - rewrite firstn_length, skipn_length. lia.
  - intros d k Hk. rewrite firstn_length, skipn_length in Hk.
    rewrite <- (firstn_skipn (S i) o) at 2. rewrite app_nth2; rewrite firstn_length_le by lia; [|lia].
    replace (S i + k - S i) with k by lia.
    rewrite <- (firstn_skipn (j - S i) (skipn (S i) o)) at 2. rewrite app_nth1; auto.
    rewrite firstn_length, skipn_length. lia.
Qed.

Lemma firstn_S_nth : forall A (o : list A) i d, i < length o -> firstn (S i) o = firstn i o ++ [nth i o d].
Proof.
  induction o as [|x o IH]; intros i d H; cbn in *; [lia|]. destruct i; cbn; auto. f_equal. apply IH. lia.
Qed.

Section Clean.
  Variables (en ex : list bool) (ef : bool).
  Hypothesis Hlen : length en = length ex.
  Let o := clean_loop ef NoSignal (combine en ex).
  Let eo := fst (clean_enex_1d_nb en ex ef).
  Let xo := snd (clean_enex_1d_nb en ex ef).

  Lemma o_length : length o = length en.
  Proof. unfold o. rewrite clean_length, combine_length. lia. Qed.
  Lemma eo_nth : forall i, nth i eo false = fst (nth i o (false, false)).
  Proof. intros i. unfold eo, clean_enex_1d_nb. cbn [fst]. change false with (fst (false, false)) at 1. rewrite map_nth. auto. Qed.
  Lemma xo_nth : forall i, nth i xo false = snd (nth i o (false, false)).
  Proof. intros i. unfold xo, clean_enex_1d_nb. cbn [snd]. change false with (snd (false, false)) at 1. rewrite map_nth. auto. Qed.
  Lemma in_nth : forall i, i < length en -> nth i (combine en ex) (false, false) = (nth i en false, nth i ex false).
  Proof. intros i Hi. apply combine_nth. auto. Qed.
  Lemma o_rule : forall i, i < length en ->
    nth i o (false, false) = clean_rule ef (phase_after NoSignal (firstn i o)) (nth i en false, nth i ex false).
  Proof. intros i Hi. unfold o at 1. rewrite clean_nth by (rewrite combine_length; lia). rewrite in_nth by auto. reflexivity. Qed.

  Lemma clean_subset : forall i,
    (tr eo i -> tr en i /\ ~ tr ex i) /\ (tr xo i -> tr ex i /\ ~ tr en i).
  Proof.
    intros i. unfold tr. rewrite eo_nth, xo_nth.
    destruct (Nat.lt_ge_cases i (length en)) as [Hi|Hi].
    - rewrite o_rule by auto. destruct (nth i en false), (nth i ex false); cbn; try match goal with |- context [phase_after ?a ?b] => destruct (phase_after a b) end; destruct ef; cbn; intuition congruence.
    - rewrite (nth_overflow o) by (rewrite o_length; auto). cbn. intuition congruence.
  Qed.

  Lemma clean_disjoint : forall i, ~ (tr eo i /\ tr xo i).
  Proof. intros i [H1 H2]. apply (clean_subset i) in H1. apply (clean_subset i) in H2. tauto. Qed.

  Lemma after_entry : forall i, tr eo i -> phase_after NoSignal (firstn (S i) o) = LastEntry.
  Proof.
    intros i H. unfold tr in H. rewrite eo_nth in H.
    assert (Hi : i < length o).
    { destruct (Nat.lt_ge_cases i (length o)); auto. rewrite nth_overflow in H by auto. discriminate. }
    rewrite (firstn_S_nth _ o i (false, false) Hi). unfold phase_after. rewrite fold_left_app. cbn.
    unfold phase_step at 1. rewrite H. reflexivity.
  Qed.
  Lemma after_exit : forall i, tr xo i -> phase_after NoSignal (firstn (S i) o) = LastExit.
  Proof.
    intros i H. assert (He : ~ tr eo i) by (intros C; eapply clean_disjoint; eauto).
    unfold tr in H, He. rewrite xo_nth in H. rewrite eo_nth in He.
    assert (Hi : i < length o).
    { destruct (Nat.lt_ge_cases i (length o)); auto. rewrite nth_overflow in H by auto. discriminate. }
    rewrite (firstn_S_nth _ o i (false, false) Hi). unfold phase_after. rewrite fold_left_app. cbn.
    unfold phase_step at 1. rewrite H. destruct (fst (nth i o _)); [congruence|auto].
  Qed.
  Lemma entry_phase : forall j, tr eo j -> j < length en /\ phase_after NoSignal (firstn j o) <> LastEntry.
  Proof.
    intros j H. assert (Hj : j < length en).
    { apply clean_subset in H. apply tr_lt. tauto. }
    split; auto. unfold tr in H. rewrite eo_nth, o_rule in H by auto.
    destruct (nth j en false), (nth j ex false); cbn in H; try discriminate. intros C. rewrite C in H. discriminate.
  Qed.
  Lemma exit_phase : forall j, tr xo j -> j < length en /\
    (phase_after NoSignal (firstn j o) = LastEntry \/ (ef = false /\ phase_after NoSignal (firstn j o) = NoSignal)).
  Proof.
    intros j H. assert (Hj : j < length en).
    { apply clean_subset in H. rewrite Hlen. apply tr_lt. tauto. }
    split; auto. unfold tr in H. rewrite xo_nth, o_rule in H by auto.
    destruct (nth j en false), (nth j ex false); cbn in H; try discriminate.
    destruct (phase_after _ _); auto; [|discriminate]. destruct ef; auto; discriminate.
  Qed.

  Lemma clean_alternate_entries : forall i j, i < j -> tr eo i -> tr eo j -> exists k, i < k < j /\ tr xo k.
  Proof.
    intros i j Hij Hi Hj. pose proof (after_entry i Hi) as A. destruct (entry_phase j Hj) as [Hjl B].
    destruct (split_between _ o i j Hij) as (mid & E & L & Hn); [rewrite o_length; lia|].
    rewrite E in B. unfold phase_after in A, B. rewrite fold_left_app, A in B.
    destruct (phase_exit_between mid LastEntry B eq_refl) as (k & K1 & K2 & _).
    exists (S i + k). split; [lia|]. unfold tr. rewrite xo_nth, <- Hn; auto.
  Qed.
  Lemma clean_alternate_exits : forall i j, i < j -> tr xo i -> tr xo j -> exists k, i < k < j /\ tr eo k.
  Proof.
    intros i j Hij Hi Hj. pose proof (after_exit i Hi) as A. destruct (exit_phase j Hj) as [Hjl B].
    destruct (split_between _ o i j Hij) as (mid & E & L & Hn); [rewrite o_length; lia|].
    assert (M : phase_after NoSignal (firstn j o) = phase_after LastExit mid).
    { rewrite E. unfold phase_after in *. rewrite fold_left_app, A. reflexivity. }
    assert (B' : phase_after LastExit mid = LastEntry).
    { destruct B as [B|[_ B]]; [congruence|]. exfalso. rewrite M in B. clear - B.
      assert (G : forall l p, p <> NoSignal -> phase_after p l <> NoSignal).
      { induction l as [|s l IH]; intros p Hp; cbn; auto. apply IH. unfold phase_step.
        destruct (fst s), (snd s); congruence. }
      eapply G; [|exact B]. discriminate. }
    destruct (phase_entry_between mid LastExit B') as (k & K1 & K2); [discriminate|].
    exists (S i + k). split; [lia|]. unfold tr. rewrite eo_nth, <- Hn; auto.
  Qed.
  Lemma clean_entry_first : ef = true -> forall j, tr xo j -> exists k, k < j /\ tr eo k.
  Proof.
    intros Hef j Hj. destruct (exit_phase j Hj) as [Hjl [B|[C _]]]; [|congruence].
    destruct (phase_entry_between (firstn j o) NoSignal B) as (k & K1 & K2); [discriminate|].
    rewrite firstn_length, o_length in K1.
    exists k. split; [lia|]. unfold tr. rewrite eo_nth.
    rewrite <- (firstn_skipn j o), app_nth1; auto. rewrite firstn_length, o_length. lia.
  Qed.

  (** Nothing is dropped without a reason. *)
  Lemma clean_complete_entry : forall i, tr en i -> ~ tr ex i -> ~ tr eo i ->
    exists k, k < i /\ tr eo k /\ forall m, k < m < i -> ~ tr xo m.
  Proof.
    intros i Hen Hex Heo. assert (Hi : i < length en) by (apply tr_lt; auto).
    assert (B : phase_after NoSignal (firstn i o) = LastEntry).
    { unfold tr in *. rewrite eo_nth, o_rule in Heo by auto. rewrite Hen in Heo.
      destruct (nth i ex false); [congruence|]. cbn in Heo. destruct (phase_after _ _); congruence. }
    clear Hen Hex Heo. assert (Hio : i <= length o) by (rewrite o_length; lia). clear Hi.
    induction i as [|i IH]; [discriminate|].
    rewrite (firstn_S_nth _ o i (false, false)) in B by lia. unfold phase_after in B. rewrite fold_left_app in B. cbn in B.
    unfold phase_step at 1 in B. destruct (fst (nth i o (false, false))) eqn:E1.
    - exists i. split; auto. split; [unfold tr; rewrite eo_nth; auto|]. intros; lia.
    - destruct (snd (nth i o (false, false))) eqn:E2; [discriminate|].
      destruct IH as (k & K1 & K2 & K3); auto; [lia|]. exists k. split; [lia|]. split; auto.
      intros m Hm. destruct (Nat.eq_dec m i) as [->|]; [unfold tr; rewrite xo_nth; congruence|apply K3; lia].
  Qed.
  Lemma clean_complete_exit : forall i, tr ex i -> ~ tr en i -> ~ tr xo i ->
    (exists k, k < i /\ tr xo k /\ forall m, k < m < i -> ~ tr eo m) \/
    (ef = true /\ forall m, m < i -> ~ tr eo m).
  Proof.
    intros i Hex Hen Hxo. assert (Hi : i < length en) by (rewrite Hlen; apply tr_lt; auto).
    assert (B : phase_after NoSignal (firstn i o) = LastExit \/ (ef = true /\ phase_after NoSignal (firstn i o) = NoSignal)).
    { unfold tr in *. rewrite xo_nth, o_rule in Hxo by auto. rewrite Hex in Hxo.
      destruct (nth i en false); [congruence|]. cbn in Hxo. destruct (phase_after _ _); auto; [|congruence].
      destruct ef; auto. }
    clear Hen Hex Hxo. assert (Hio : i <= length o) by (rewrite o_length; lia). clear Hi.
    induction i as [|i IH].
    - destruct B as [B|[B1 B2]]; [discriminate|]. right. split; auto. intros; lia.
    - rewrite (firstn_S_nth _ o i (false, false)) in B by lia. unfold phase_after in B. rewrite fold_left_app in B. cbn in B.
      unfold phase_step at 1 3 in B. destruct (fst (nth i o (false, false))) eqn:E1.
      { destruct B as [B|[_ B]]; discriminate. }
      destruct (snd (nth i o (false, false))) eqn:E2.
      + left. exists i. split; auto. split; [unfold tr; rewrite xo_nth; auto|]. intros; lia.
      + destruct IH as [(k & K1 & K2 & K3)|[K1 K2]]; auto; [lia|left|right].
        * exists k. split; [lia|]. split; auto.
          intros m Hm. destruct (Nat.eq_dec m i) as [->|]; [unfold tr; rewrite eo_nth; congruence|apply K3; lia].
        * split; auto. intros m Hm. destruct (Nat.eq_dec m i) as [->|]; [unfold tr; rewrite eo_nth; congruence|apply K2; lia].
  Qed.

  Lemma clean_twice : clean_enex_1d_nb eo xo ef = (eo, xo).
  Proof.
    unfold eo, xo, clean_enex_1d_nb. cbn [fst snd]. fold o.
    assert (C : combine (map fst o) (map snd o) = o).
    { clear. induction o as [|[a b] l IH]; cbn; f_equal; auto. }
    rewrite C. unfold o at 1 2. rewrite clean_idem. reflexivity.
  Qed.

  Lemma clean_lengths : length eo = length en /\ length xo = length ex.
  Proof. unfold eo, xo, clean_enex_1d_nb. cbn. rewrite !map_length. fold o. rewrite o_length. auto. Qed.
End Clean.
