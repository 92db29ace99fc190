(** * Lemmas about cash in simulation order *)
From Coq Require Import ZArith QArith Qabs Qminmax Bool Lia Lqa List Setoid Morphisms Sorted Permutation.
From Verif Require Import Base Num MathNb TolSpec Order Account AccountSpec XQFacts OrderLemmas4 Replay ReplaySpec
  ReplayLemmas ReplayLemmas2 FlowsSpec FlowsLemmas FlowsLemmas2.
Import ListNotations.

Lemma sumL_app : forall l1 l2, sumL (l1 ++ l2) == sumL l1 + sumL l2.
Proof. intros l1 l2. induction l1 as [|x l1 IH]; cbn; [ring|rewrite IH; ring]. Qed.
Lemma sumL_perm : forall l1 l2, Permutation l1 l2 -> sumL l1 == sumL l2.
Proof.
  induction 1 as [|x l l' HP IH|x y l|a b c H1 IH1 H2 IH2]; cbn; [reflexivity|rewrite IH; reflexivity|ring|].
  rewrite IH1. exact IH2.
Qed.
Lemma sum_to_list : forall f n, sum_to f n == sumL (map f (seq 0 n)).
Proof.
  intros f n. induction n as [|n IH]; [reflexivity|]. rewrite seq_S, map_app, sumL_app. cbn [sum_to map sumL Nat.add].
  rewrite IH. ring.
Qed.
Lemma sum_to_ext : forall f g n, (forall k, (k < n)%nat -> f k == g k) -> sum_to f n == sum_to g n.
Proof.
  intros f g n. induction n as [|n IH]; intros H; [reflexivity|]. cbn [sum_to]. rewrite IH, H; [reflexivity|lia|].
  intros k Hk. apply H. lia.
Qed.

Lemma calls_perm : forall cs from len j, calls_each cs from len ->
  Permutation (map (fun k => cs j (from + k)%nat) (seq 0 len)) (seq 0 len).
Proof.
  intros cs from len j H. symmetry. apply NoDup_Permutation_bis.
  - apply seq_NoDup.
  - rewrite map_length. apply Nat.le_refl.
  - intros c Hc. apply in_seq in Hc. destruct (H j c ltac:(lia)) as (k & Hk & E). apply in_map_iff. exists k.
    split; [exact E|]. apply in_seq. lia.
Qed.
Lemma calls_sum : forall cs from len j (f : nat -> Q), calls_each cs from len ->
  sum_to (fun k => f (from + cs j (from + k))%nat) len == sum_to (fun c => f (from + c)%nat) len.
Proof.
  intros cs from len j f H. rewrite !sum_to_list.
  rewrite <- (map_map (fun k => cs j (from + k)%nat) (fun c => f (from + c)%nat)).
  apply sumL_perm, Permutation_map, calls_perm, H.
Qed.

Definition bar_calls (f : nat -> nat -> Q) (cs : nat -> nat -> nat) (from j n : nat) : list Q :=
  map (fun m => f j (from + cs j (from + m))%nat) (seq 0 n).
Definition all_calls (f : nat -> nat -> Q) cs from len i k : list Q :=
  flat_map (fun j => bar_calls f cs from j len) (seq 0 i) ++ bar_calls f cs from i k.

Lemma fold_left_map : forall {A B C} (g : A -> B -> A) (h : C -> B) l a,
  fold_left (fun a c => g a (h c)) l a = fold_left g (map h l) a.
Proof. intros A B C g h l. induction l as [|x l IH]; intros a; cbn; auto. Qed.
Lemma fold_left_flat : forall {A B C} (g : A -> B -> A) (h : C -> list B) l a,
  fold_left (fun a c => fold_left g (h c) a) l a = fold_left g (flat_map h l) a.
Proof. intros A B C g h l. induction l as [|x l IH]; intros a; cbn; auto. rewrite fold_left_app. apply IH. Qed.
Lemma fold_left_ext : forall {A B} (g h : A -> B -> A) l a, (forall a b, g a b = h a b) -> fold_left g l a = fold_left h l a.
Proof. intros A B g h l. induction l as [|x l IH]; intros a H; cbn; auto. rewrite H. apply IH, H. Qed.

Lemma cash_iso_list : forall flow f cs from len c0 i k, (forall j c, flow j c = Fin (f j c)) ->
  cash_in_sim_order_nb flow cs from len c0 i k = fold_left (fun p x => add_nb p (Fin x)) (all_calls f cs from len i k) c0.
Proof.
  intros flow f cs from len c0 i k Hf. unfold cash_in_sim_order_nb, all_calls, bar_calls.
  rewrite fold_left_app, <- fold_left_flat, <- fold_left_map.
  rewrite (fold_left_ext _ (fun p m => add_nb p (Fin (f i (from + cs i (from + m))%nat)))) by (intros; rewrite Hf; reflexivity).
  f_equal. apply fold_left_ext. intros a j. rewrite <- fold_left_map. apply fold_left_ext. intros. rewrite Hf. reflexivity.
Qed.

Lemma all_calls_sum : forall f cs from len i k, calls_each cs from len ->
  sumL (all_calls f cs from len i k) == moved_before f cs from len i k.
Proof.
  intros f cs from len i k H. unfold all_calls, moved_before. rewrite sumL_app. unfold bar_calls at 2.
  rewrite <- sum_to_list.
  assert (E : sumL (flat_map (fun j => bar_calls f cs from j len) (seq 0 i)) ==
              sum_to (fun j => sum_to (fun c => f j (from + c)%nat) len) i).
  { induction i as [|i IH]; [reflexivity|]. rewrite seq_S, flat_map_app, sumL_app, IH. cbn [sum_to flat_map Nat.add].
    rewrite app_nil_r. unfold bar_calls. rewrite <- sum_to_list. rewrite (calls_sum cs from len i (f i) H). reflexivity. }
  rewrite E. reflexivity.
Qed.
Lemma all_calls_length : forall f cs from len i k, length (all_calls f cs from len i k) = (i * len + k)%nat.
Proof.
  intros. unfold all_calls. rewrite app_length. unfold bar_calls at 2. rewrite map_length, seq_length. f_equal.
  generalize 0%nat at 1. induction i as [|i IH]; intros z; [reflexivity|]. cbn [seq flat_map].
  rewrite app_length, IH. unfold bar_calls. rewrite map_length, seq_length. lia.
Qed.
Lemma all_calls_abs : forall f cs from len i k,
  map Qabs (all_calls f cs from len i k) = all_calls (fun j c => Qabs (f j c)) cs from len i k.
Proof.
  intros. unfold all_calls, bar_calls. rewrite map_app, map_map. f_equal.
  generalize (seq 0 i). intros l. induction l as [|j l IH]; [reflexivity|]. cbn [flat_map].
  rewrite map_app, map_map, IH. reflexivity.
Qed.
Lemma filter_len : forall A (p : A -> bool) l, (length (filter p l) <= length l)%nat.
Proof. intros A p l. induction l as [|x l IH]; cbn; auto. destruct (p x); cbn; lia. Qed.

Lemma cash_iso : forall flow f cs from len c0 i k, (forall j c, flow j c = Fin (f j c)) -> calls_each cs from len ->
  exists q, cash_in_sim_order_nb flow cs from len (Fin c0) i k = Fin q /\
    within (i * len + k + 1) (Qabs c0 + moved_before (fun j c => Qabs (f j c)) cs from len i k)
      q (c0 + moved_before f cs from len i k).
Proof.
  intros flow f cs from len c0 i k Hf Hc. rewrite (cash_iso_list _ f) by auto.
  set (L := all_calls f cs from len i k).
  assert (HM : Qabs c0 + absL L <= Qabs c0 + moved_before (fun j c => Qabs (f j c)) cs from len i k).
  { unfold absL, L. rewrite all_calls_abs, all_calls_sum by auto. apply Qle_refl. }
  destruct (fold_add_nb_any L c0 _ HM) as (q & E & _ & W). exists q. split; [exact E|].
  unfold L in W at 2. rewrite all_calls_sum in W by auto. eapply within_le; [|apply Qle_refl|exact W].
  unfold nonzeros. pose proof (filter_len _ (fun x => negb (Qeq_bool x 0)) L) as K.
  unfold L in K at 2. rewrite all_calls_length in K. lia.
Qed.

Lemma moved_bar : forall f cs from len i, calls_each cs from len ->
  moved_before f cs from len i len == sum_to (fun j => sum_to (fun c => f j (from + c)%nat) len) (S i).
Proof. intros f cs from len i H. unfold moved_before. cbn [sum_to]. rewrite (calls_sum cs from len i (f i) H). reflexivity. Qed.
