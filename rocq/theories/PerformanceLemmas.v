(** * Lemmas about values and returns in the order of the simulation *)
From Coq Require Import ZArith QArith Qabs Bool List Arith Lia Lqa Permutation.
From Verif Require Import Base Num XQFacts MathNb GenericNb GenericSpec GenericLemmas GenericLemmas2 ReturnsNb ReturnsSpec
  ReturnsLemmas Simulate Performance PerformanceSpec.
Import ListNotations.
Local Open Scope nat_scope.

(** ** Loops that write one element per step *)
Section Writes.
  Context {St T : Type} (f : St -> nat -> St) (val : St -> nat -> T) (ki kc : nat -> nat).
  Definition wstep (s : St * (nat -> nat -> T)) (j : nat) : St * (nat -> nat -> T) :=
    (f (fst s) j, upd2 (snd s) (ki j) (kc j) (val (fst s) j)).

  Lemma upd2_same : forall (o : nat -> nat -> T) i c v, upd2 o i c v i c = v.
  Proof. intros. unfold upd2. now rewrite !Nat.eqb_refl. Qed.
  Lemma upd2_other : forall (o : nat -> nat -> T) i c v i' c', ~ (i' = i /\ c' = c) -> upd2 o i c v i' c' = o i' c'.
  Proof.
    intros o i c v i' c' H. unfold upd2. destruct (Nat.eqb_spec i' i), (Nat.eqb_spec c' c); cbn [andb]; auto. tauto.
  Qed.

  Lemma w_state : forall n s0 o, fst (fold_left wstep (seq 0 n) (s0, o)) = fold_left f (seq 0 n) s0.
  Proof.
    induction n as [|n IH]; intros s0 o; [reflexivity|].
    rewrite seq_S, !fold_left_app. cbn [fold_left Nat.add wstep fst]. now rewrite IH.
  Qed.

  Lemma w_untouched : forall n s0 o i c, (forall j, j < n -> ~ (i = ki j /\ c = kc j)) ->
    snd (fold_left wstep (seq 0 n) (s0, o)) i c = o i c.
  Proof.
    induction n as [|n IH]; intros s0 o i c H; [reflexivity|].
    rewrite seq_S, !fold_left_app. cbn [fold_left Nat.add wstep snd].
    rewrite upd2_other by (apply H; lia). apply IH. intros j Hj. apply H. lia.
  Qed.

  Lemma w_written : forall n s0 o j, j < n -> (forall j', j < j' < n -> ~ (ki j = ki j' /\ kc j = kc j')) ->
    snd (fold_left wstep (seq 0 n) (s0, o)) (ki j) (kc j) = val (fold_left f (seq 0 j) s0) j.
  Proof.
    induction n as [|n IH]; intros s0 o j Hj H; [lia|].
    rewrite seq_S, !fold_left_app. cbn [fold_left Nat.add wstep snd].
    destruct (Nat.eq_dec j n) as [->|Hn].
    - rewrite upd2_same. now rewrite w_state.
    - rewrite upd2_other by (apply H; lia). apply IH; [lia|]. intros j' Hj'. apply H. lia.
  Qed.
End Writes.

Lemma over_groups_out : forall {T} (body : nat -> nat -> nat -> (nat -> nat -> T) -> nat -> nat -> T) lens g0 f0 a i c,
  (forall g len a i c, nth_error lens g = Some len ->
     ~ (f0 + first_col lens g <= c < f0 + first_col lens g + len) -> body (g0 + g) (f0 + first_col lens g) len a i c = a i c) ->
  c < f0 -> over_groups body g0 f0 lens a i c = a i c.
Proof.
  intros T body lens. induction lens as [|len lens IH]; intros g0 f0 a i c H Hc; [reflexivity|].
  cbn [over_groups]. rewrite IH.
  - specialize (H 0 len a i c eq_refl). unfold first_col in H. cbn [firstn sum_lens fold_right] in H.
    rewrite !Nat.add_0_r in H. apply H. lia.
  - intros g l a' i' c' Hg Hr. specialize (H (S g) l a' i' c' Hg). unfold first_col in *.
    cbn [firstn sum_lens fold_right] in H. fold (sum_lens (firstn g lens)) in H.
    replace (S g0 + g) with (g0 + S g) by lia. rewrite <- Nat.add_assoc in Hr |- *. rewrite Nat.add_assoc in H. 
    rewrite <- Nat.add_assoc in H. apply H. lia.
  - lia.
Qed.

Lemma over_groups_in : forall {T} (body : nat -> nat -> nat -> (nat -> nat -> T) -> nat -> nat -> T) lens g0 f0 a k len i c,
  (forall g len a i c, nth_error lens g = Some len ->
     ~ (f0 + first_col lens g <= c < f0 + first_col lens g + len) -> body (g0 + g) (f0 + first_col lens g) len a i c = a i c) ->
  nth_error lens k = Some len -> f0 + first_col lens k <= c < f0 + first_col lens k + len ->
  exists a', over_groups body g0 f0 lens a i c = body (g0 + k) (f0 + first_col lens k) len a' i c.
Proof.
  intros T body lens. induction lens as [|l lens IH]; intros g0 f0 a k len i c H Hk Hc; [destruct k; discriminate|].
  cbn [over_groups].
  assert (H' : forall g len a i c, nth_error lens g = Some len ->
     ~ (f0 + l + first_col lens g <= c < f0 + l + first_col lens g + len) ->
     body (S g0 + g) (f0 + l + first_col lens g) len a i c = a i c).
  { intros g l' a' i' c' Hg Hr. specialize (H (S g) l' a' i' c' Hg). unfold first_col in *.
    cbn [firstn sum_lens fold_right] in H. fold (sum_lens (firstn g lens)) in H.
    replace (S g0 + g) with (g0 + S g) by lia. rewrite <- Nat.add_assoc in Hr |- *. apply H. lia. }
  destruct k as [|k].
  - injection Hk as ->. unfold first_col in *. cbn [firstn sum_lens fold_right] in *.
    exists a. rewrite over_groups_out; auto; [|lia]. now rewrite !Nat.add_0_r.
  - cbn [nth_error] in Hk. destruct (IH (S g0) (f0 + l) (body g0 f0 l a) k len i c H' Hk) as (a' & E).
    + unfold first_col in *. cbn [firstn sum_lens fold_right] in Hc. fold (sum_lens (firstn k lens)) in Hc. lia.
    + exists a'. rewrite E. unfold first_col. cbn [firstn sum_lens fold_right]. fold (sum_lens (firstn k lens)).
      replace (S g0 + k) with (g0 + S k) by lia. now rewrite Nat.add_assoc.
Qed.

(** ** The calls of a group *)
Section Calls.
  Variables (cs : nat -> nat -> nat) (from len nrows : nat).
  Hypothesis Hlen : 0 < len.
  Hypothesis Hp : forall i, i < nrows -> Permutation (order_at cs from len i) (seq from len).

  Lemma div_call : forall i k, k < len -> (i * len + k) / len = i.
  Proof. intros. rewrite Nat.div_add_l by lia. rewrite Nat.div_small by lia. lia. Qed.
  Lemma mod_call : forall i k, k < len -> (i * len + k) mod len = k.
  Proof. intros. rewrite Nat.add_comm, Nat.mod_add by lia. now apply Nat.mod_small. Qed.

  Lemma order_nth : forall i k, k < len -> nth_error (order_at cs from len i) k = Some (from + cs i (from + k)).
  Proof.
    intros i k Hk. unfold order_at. rewrite nth_error_map.
    rewrite (nth_error_nth' _ 0) by (rewrite seq_length; lia). rewrite seq_nth by lia. reflexivity.
  Qed.

  Lemma order_NoDup : forall i, i < nrows -> NoDup (order_at cs from len i).
  Proof. intros i Hi. eapply Permutation_NoDup; [symmetry; now apply Hp|apply seq_NoDup]. Qed.

  Lemma order_in : forall i c, i < nrows -> In c (order_at cs from len i) <-> from <= c < from + len.
  Proof.
    intros i c Hi. split; intros H.
    - apply (Permutation_in _ (Hp i Hi)), in_seq in H. lia.
    - apply (Permutation_in _ (Permutation_sym (Hp i Hi))), in_seq. lia.
  Qed.

  Lemma call_split : forall j, exists k, j = call_bar len j * len + k /\ k < len /\ k = j mod len.
  Proof.
    intros j. exists (j mod len). unfold call_bar. pose proof (Nat.div_mod_eq j len). pose proof (Nat.mod_upper_bound j len).
    repeat split; lia.
  Qed.

  Lemma call_bar_lt : forall j, j < nrows * len -> call_bar len j < nrows.
  Proof. intros j Hj. apply Nat.div_lt_upper_bound; lia. Qed.

  Lemma call_col_range : forall j, j < nrows * len -> from <= call_col cs from len j < from + len.
  Proof.
    intros j Hj. apply (order_in (call_bar len j)); [now apply call_bar_lt|].
    eapply nth_error_In with (n := j mod len). unfold call_col. rewrite order_nth; [reflexivity|].
    apply Nat.mod_upper_bound. lia.
  Qed.

  Lemma call_inj : forall j j', j < nrows * len -> j' < nrows * len -> call_bar len j = call_bar len j' ->
    call_col cs from len j = call_col cs from len j' -> j = j'.
  Proof.
    intros j j' Hj Hj' Hb Hc. destruct (call_split j) as (k & E & Hk & Ek). destruct (call_split j') as (k' & E' & Hk' & Ek').
    assert (k = k'); [|lia].
    pose proof (order_NoDup _ (call_bar_lt j Hj)) as ND. rewrite NoDup_nth_error in ND. apply ND.
    - unfold order_at. now rewrite map_length, seq_length.
    - rewrite !order_nth by auto. f_equal. unfold call_col in Hc. fold (call_bar len j) (call_bar len j') in Hc.
      rewrite <- Ek, <- Ek', <- Hb in Hc. exact Hc.
  Qed.

  Lemma call_at : forall i k, k < len -> call_bar len (i * len + k) = i /\
    call_col cs from len (i * len + k) = from + cs i (from + k).
  Proof. intros i k Hk. unfold call_bar, call_col. now rewrite div_call, mod_call. Qed.

  Lemma calls_enumerated : forall n, calls cs from len n =
    map (fun j => (call_bar len j, call_col cs from len j)) (seq 0 (n * len)).
  Proof.
    induction n as [|n IH]; [reflexivity|].
    unfold calls. rewrite seq_S, flat_map_app. fold (calls cs from len n). rewrite IH.
    replace (S n * len) with (n * len + len) by lia. rewrite seq_app, map_app. f_equal.
    cbn [flat_map Nat.add]. rewrite app_nil_r. unfold order_at. rewrite map_map.
    transitivity (map (fun k => (call_bar len (n * len + k), call_col cs from len (n * len + k))) (seq 0 len)).
    - apply map_ext_in. intros k Hk. apply in_seq in Hk. destruct (call_at n k) as [-> ->]; [lia|]. reflexivity.
    - clear. generalize (n * len) as m. intros m. 
      replace (seq m len) with (map (fun k => m + k) (seq 0 len)).
      + now rewrite map_map.
      + induction len as [|l IH]; [reflexivity|]. rewrite !seq_S, map_app, IH. cbn [map Nat.add]. reflexivity.
  Qed.
End Calls.
