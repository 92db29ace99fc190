(** * Causality of the remaining series functions; expanding statistics *)
From Coq Require Import ZArith QArith Bool List Arith Lia.
From Verif Require Import Base Num GenericNb XQFacts GenericSpec OrdLaws GenericLemmas GenericLemmas2 GenericLemmas3.
Import ListNotations.
Local Open Scope nat_scope.

Lemma scan_ext : forall S A B (f g : nat -> S -> A -> S * B) l i s,
  (forall k s x, nth_error l k = Some x -> f (i + k) s x = g (i + k) s x) -> scan f i s l = scan g i s l.
Proof.
  intros S A B f g l. induction l as [|x l IH]; intros i s H; [reflexivity|]. cbn [scan].
  pose proof (H 0 s x eq_refl) as H0. rewrite Nat.add_0_r in H0. rewrite H0. destruct (g i s x) as [s' b]. f_equal.
  apply IH. intros k s2 y Hy. replace (Datatypes.S i + k) with (i + Datatypes.S k) by lia. apply H. auto.
Qed.

Lemma nth_firstn' : forall A (a : list A) n i d, i < n -> nth i (firstn n a) d = nth i a d.
Proof.
  intros A a. induction a as [|x a IH]; intros [|n] [|i] d H; auto; try lia. cbn. apply IH. lia.
Qed.

Lemma rolling_std_causal : forall {T} {N : Num T} sqrt tol (a : list T) n w mp ddof out,
  rolling_std_1d_nb sqrt tol a w mp ddof = Ok out ->
  rolling_std_1d_nb sqrt tol (firstn n a) w mp ddof = Ok (firstn n out).
Proof.
  intros T N sqrt tol a n w mp ddof out H. unfold rolling_std_1d_nb, check_minp in *. apply raise_if_ok in H as [H1 H].
  rewrite H1. cbn [raise_if]. injection H as <-. f_equal. rewrite <- scan_firstn. apply scan_ext.
  intros k s x Hk. cbn [Nat.add]. assert (Hl : k < n).
  { assert (k < length (firstn n a)) by (apply nth_error_Some; congruence). rewrite firstn_length in H. lia. }
  unfold rolling_std_step, slice. rewrite firstn_firstn. replace (Nat.min (S k) n) with (S k) by lia.
  rewrite nth_firstn' by lia. reflexivity.
Qed.

Lemma ffill_causal : forall {T} {N : Num T} (a : list T) n, ffill_1d_nb (firstn n a) = firstn n (ffill_1d_nb a).
Proof.
  intros T N a [|n]; [reflexivity|]. unfold ffill_1d_nb. rewrite <- scan_firstn. destruct a; reflexivity.
Qed.

Lemma expanding_causal : forall {T} {N : Num T} (a : list T) m n,
  expanding_min_1d_nb (firstn n a) m = firstn n (expanding_min_1d_nb a m) /\
  expanding_max_1d_nb (firstn n a) m = firstn n (expanding_max_1d_nb a m).
Proof.
  intros T N a m [|n]; [split; reflexivity|]. unfold expanding_min_1d_nb, expanding_max_1d_nb.
  rewrite <- !scan_firstn. destruct a; split; reflexivity.
Qed.

Lemma ewm_causal : forall {T} {N : Num T} (a : list T) span mp adjust n out,
  ewm_mean_1d_nb a span mp adjust = Ok out -> ewm_mean_1d_nb (firstn n a) span mp adjust = Ok (firstn n out).
Proof.
  intros T N a span mp adjust n out H. unfold ewm_mean_1d_nb in *. apply raise_if_ok in H as [H1 H]. rewrite H1. cbn [raise_if].
  destruct a as [|a0 a']; [injection H as <-; destruct n; reflexivity|]. destruct n as [|n]; [reflexivity|]. cbn [firstn].
  apply bind_ok in H as (al & -> & H). cbn [bind]. apply bind_ok in H as (o & Ho & H). injection H as <-.
  rewrite (scanM_firstn _ _ n _ _ _ Ho). reflexivity.
Qed.

(** The last [length a] bars are all bars so far. *)
Lemma window_all : forall {T} (a : list T) i, i < length a -> window (length a) i a = firstn (S i) a.
Proof. intros T a i H. unfold window. replace (S i - length a) with 0 by lia. reflexivity. Qed.

Lemma expanding_mean_run : forall a m out, no_infinity a -> expanding_mean_1d_nb a m = Ok out ->
  length out = length a /\
  forall i, i < length a -> exists y, nth_error out i = Some y /\
    let l := vals (firstn (S i) a) in
    (length l < m -> y = NaN) /\ (m <= length l -> exists q, y = Fin q /\ l <> [] /\ (q == mean l)%Q).
Proof.
  intros a m out HT H. destruct a as [|a0 a'].
  { unfold expanding_mean_1d_nb, rolling_mean_1d_nb, check_minp in H. apply raise_if_ok in H as [_ H]. injection H as <-.
    split; auto. cbn. intros; lia. }
  destruct (rolling_mean_run (a0 :: a') (length (a0 :: a')) (Some m) out HT ltac:(cbn; lia) H) as [HL HR]. split; auto.
  intros i Hi. destruct (HR i Hi) as (y & Hy & H1 & H2). exists y. rewrite window_all in * by auto. auto.
Qed.

Lemma expanding_std_run : forall sqrt tol a m ddof out, no_infinity a -> expanding_std_1d_nb sqrt tol a m ddof = Ok out ->
  length out = length a /\
  forall i, i < length a -> exists y, nth_error out i = Some y /\
    let l := vals (firstn (S i) a) in
    (length l < Nat.max m 1 \/ (Z.of_nat (length l) <= ddof)%Z -> y = NaN) /\
    (Nat.max m 1 <= length l -> (ddof < Z.of_nat (length l))%Z ->
       exists v, y = sqrt (Fin v) /\ (v == variance ddof l)%Q).
Proof.
  intros sqrt tol a m ddof out HT H. destruct (rolling_std_run sqrt tol a _ (Some m) ddof out HT H) as [HL HR]. split; auto.
  intros i Hi. destruct (HR i Hi) as (y & Hy & H1 & H2). exists y. rewrite window_all in * by auto. auto.
Qed.

Lemma crosses_asym : forall {T} {N : Num T} {L : OrdLaws N} (a b : list T) w w' i, crosses a b w i -> crosses b a w' i -> False.
Proof.
  intros T N L a b w w' i (_ & H & _) (_ & H' & _).
  destruct (H i ltac:(lia)) as (x & y & [Hx _] & [Hy _] & E). destruct (H' i ltac:(lia)) as (y' & x' & [Hy' _] & [Hx' _] & E').
  assert (x' = x) by congruence. assert (y' = y) by congruence. subst. rewrite (ol_asym _ _ E) in E'. discriminate.
Qed.
