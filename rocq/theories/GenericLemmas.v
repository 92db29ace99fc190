(** * Lemmas about filling, shifting, rolling and expanding extremes *)
From Coq Require Import ZArith Bool List Arith Lia.
From Verif Require Import Base Num OrdLaws GenericNb XQFacts GenericSpec.
Import ListNotations.
Local Open Scope nat_scope.

(** ** Loops *)
Section Scan.
  Context {St A B : Type}.

  Lemma scan_length : forall (f : nat -> St -> A -> St * B) l i s, length (scan f i s l) = length l.
  Proof. intros f l. induction l as [|x l IH]; intros i s; cbn; auto. destruct (f i s x). cbn. rewrite IH. auto. Qed.

  Lemma scan_spec_at : forall (f : nat -> St -> A -> St * B) (P : nat -> St -> Prop) l i s,
    P i s -> (forall k s x, nth_error l k = Some x -> P (i + k) s -> P (S (i + k)) (fst (f (i + k) s x))) ->
    forall k x, nth_error l k = Some x ->
    exists s', P (i + k) s' /\ nth_error (scan f i s l) k = Some (snd (f (i + k) s' x)).
  Proof.
    intros f P l. induction l as [|y l IH]; intros i s H0 Hs k x Hk; [destruct k; discriminate|].
    cbn [scan]. destruct (f i s y) as [s1 b] eqn:E. destruct k as [|k]; cbn in Hk |- *.
    - injection Hk as ->. exists s. rewrite Nat.add_0_r. rewrite E. auto.
    - replace (i + S k) with (S i + k) by lia. apply IH; auto.
      + specialize (Hs 0 s y eq_refl). rewrite Nat.add_0_r, E in Hs. auto.
      + intros j s2 z Hj HP. replace (S i + j) with (i + S j) in * by lia. apply (Hs (S j)); auto.
  Qed.

  Lemma scan_spec : forall (f : nat -> St -> A -> St * B) (P : nat -> St -> Prop) l s,
    P 0 s -> (forall k s x, nth_error l k = Some x -> P k s -> P (S k) (fst (f k s x))) ->
    forall k x, nth_error l k = Some x ->
    exists s', P k s' /\ nth_error (scan f 0 s l) k = Some (snd (f k s' x)).
  Proof. intros f P l s H0 Hs k x Hk. apply (scan_spec_at f P l 0 s); auto. Qed.

  Lemma scan_firstn : forall (f : nat -> St -> A -> St * B) l n i s,
    scan f i s (firstn n l) = firstn n (scan f i s l).
  Proof.
    intros f l. induction l as [|x l IH]; intros n i s; destruct n; auto; cbn.
    destruct (f i s x). cbn. rewrite IH. auto.
  Qed.

  Lemma scanM_length : forall (f : nat -> St -> A -> res (St * B)) l i s out,
    scanM f i s l = Ok out -> length out = length l.
  Proof.
    intros f l. induction l as [|x l IH]; intros i s out H; cbn in H.
    - injection H as <-. auto.
    - apply bind_ok in H as ([s' b] & _ & H). apply bind_ok in H as (r & Hr & H). injection H as <-.
      cbn. rewrite (IH _ _ _ Hr). auto.
  Qed.

  Lemma scanM_spec_at : forall (f : nat -> St -> A -> res (St * B)) (P : nat -> St -> Prop) l i s out,
    scanM f i s l = Ok out ->
    P i s -> (forall k s x s' b, nth_error l k = Some x -> P (i + k) s -> f (i + k) s x = Ok (s', b) -> P (S (i + k)) s') ->
    forall k x, nth_error l k = Some x ->
    exists s0 s' b, P (i + k) s0 /\ f (i + k) s0 x = Ok (s', b) /\ nth_error out k = Some b.
  Proof.
    intros f P l. induction l as [|y l IH]; intros i s out H H0 Hs k x Hk; [destruct k; discriminate|].
    cbn in H. apply bind_ok in H as ([s1 b] & E & H). apply bind_ok in H as (r & Hr & H). injection H as <-.
    destruct k as [|k]; cbn in Hk |- *.
    - injection Hk as ->. exists s, s1, b. rewrite Nat.add_0_r. auto.
    - replace (i + S k) with (S i + k) by lia. eapply IH; eauto.
      + specialize (Hs 0 s y s1 b eq_refl). rewrite Nat.add_0_r in Hs. auto.
      + intros j s2 z s3 b' Hj HP. replace (S i + j) with (i + S j) in * by lia. apply (Hs (S j)); auto.
  Qed.

  Lemma scanM_spec : forall (f : nat -> St -> A -> res (St * B)) (P : nat -> St -> Prop) l s out,
    scanM f 0 s l = Ok out ->
    P 0 s -> (forall k s x s' b, nth_error l k = Some x -> P k s -> f k s x = Ok (s', b) -> P (S k) s') ->
    forall k x, nth_error l k = Some x ->
    exists s0 s' b, P k s0 /\ f k s0 x = Ok (s', b) /\ nth_error out k = Some b.
  Proof. intros f P l s out H H0 Hs k x Hk. eapply (scanM_spec_at f P l 0); eauto. Qed.

  (** A loop whose steps never raise under an invariant *)
  Lemma scanM_ok_at : forall (f : nat -> St -> A -> res (St * B)) (P : nat -> St -> Prop) l i s,
    P i s -> (forall k s x, nth_error l k = Some x -> P (i + k) s ->
       exists s' b, f (i + k) s x = Ok (s', b) /\ P (S (i + k)) s') ->
    exists out, scanM f i s l = Ok out.
  Proof.
    intros f P l. induction l as [|y l IH]; intros i s H0 Hs; cbn; [eauto|].
    destruct (Hs 0 s y eq_refl) as (s1 & b & E & H1); [rewrite Nat.add_0_r; auto|].
    rewrite Nat.add_0_r in E, H1. rewrite E. cbn.
    destruct (IH (S i) s1) as (r & ->); auto; [|cbn; eauto].
    intros k s2 x Hk HP. replace (S i + k) with (i + S k) in * by lia. apply Hs; auto.
  Qed.
  Lemma scanM_ok : forall (f : nat -> St -> A -> res (St * B)) (P : nat -> St -> Prop) l s,
    P 0 s -> (forall k s x, nth_error l k = Some x -> P k s ->
       exists s' b, f k s x = Ok (s', b) /\ P (S k) s') ->
    exists out, scanM f 0 s l = Ok out.
  Proof. intros f P l s H0 Hs. apply (scanM_ok_at f P l 0 s); auto. Qed.

  Lemma scanM_firstn : forall (f : nat -> St -> A -> res (St * B)) l n i s out,
    scanM f i s l = Ok out -> scanM f i s (firstn n l) = Ok (firstn n out).
  Proof.
    intros f l. induction l as [|x l IH]; intros n i s out H; cbn in H.
    - injection H as <-. destruct n; auto.
    - apply bind_ok in H as ([s' b] & E & H). apply bind_ok in H as (r & Hr & H). injection H as <-.
      destruct n; cbn; auto. rewrite E. cbn. erewrite IH by eauto. auto.
  Qed.
End Scan.

Lemma nth_error_map_seq : forall A (f : nat -> A) n i, i < n -> nth_error (map f (seq 0 n)) i = Some (f i).
Proof.
  intros A f n i H. rewrite nth_error_map.
  rewrite (nth_error_nth' (seq 0 n) 0) by (rewrite seq_length; auto). rewrite seq_nth; auto.
Qed.

Lemma firstn_snoc : forall A (l : list A) i x, nth_error l i = Some x -> firstn (S i) l = firstn i l ++ [x].
Proof.
  intros A l. induction l as [|y l IH]; intros [|i] x H; try discriminate.
  - cbn in H. injection H as ->. auto.
  - cbn in H. cbn [firstn app]. f_equal. rewrite <- (IH i x H). auto.
Qed.

Section Fill.
  Context {T : Type} {N : Num T}.

  Lemma nth_error_lt : forall (l : list T) i x, nth_error l i = Some x -> i < length l.
  Proof. intros l i x H. apply nth_error_Some. congruence. Qed.

  Lemma ffill_run : forall (a : list T) i x, nth_error a i = Some x ->
    exists y, nth_error (ffill_1d_nb a) i = Some y /\
      (last_valid a i y \/ (isnan y = true /\ blank a 0 i)).
  Proof.
    intros a i x Hx. unfold ffill_1d_nb.
    destruct (scan_spec ffill_step
      (fun k s => (k = 0 /\ s = hd nan a) \/
         (0 < k /\ (last_valid a (k - 1) s \/ (isnan s = true /\ blank a 0 (k - 1)))))
      a (hd nan a)) with (k := i) (x := x) as (s & HP & Hn); auto.
    - intros k s z Hk HP. right. split; [lia|]. replace (S k - 1) with k by lia.
      unfold ffill_step. destruct (isnan z) eqn:Ez; cbn.
      + assert (Hb : forall w, ~ holds a k w) by (intros w [Hw1 Hw2]; congruence).
        destruct HP as [[-> ->]|[Hk0 [(j & Hj & Hh & Hbl)|[Hs Hbl]]]].
        * right. destruct a as [|a0 a]; [discriminate|]. cbn in Hk. injection Hk as ->. cbn. split; auto.
          intros k w Hkk. replace k with 0 by lia. apply Hb.
        * left. exists j. split; [lia|]. split; auto. intros k' w Hk'.
          destruct (Nat.eq_dec k' k) as [->|]; [apply Hb|apply Hbl; lia].
        * right. split; auto. intros k' w Hk'. destruct (Nat.eq_dec k' k) as [->|]; [apply Hb|apply Hbl; lia].
      + left. exists k. split; auto. split; [split; auto|]. intros k' w Hk'; lia.
    - (* the output at bar i *)
      exists (snd (ffill_step i s x)). split; auto. unfold ffill_step.
      destruct (isnan x) eqn:Ex; cbn.
      + assert (Hb : forall w, ~ holds a i w) by (intros w [Hw1 Hw2]; congruence).
        destruct HP as [[-> ->]|[Hk0 [(j & Hj & Hh & Hbl)|[Hs Hbl]]]].
        * right. destruct a as [|a0 a]; [discriminate|]. cbn in Hx. injection Hx as ->. cbn. split; auto.
          intros k w Hkk. replace k with 0 by lia. apply Hb.
        * left. exists j. split; [lia|]. split; auto. intros k' w Hk'.
          destruct (Nat.eq_dec k' i) as [->|]; [apply Hb|apply Hbl; lia].
        * right. split; auto. intros k' w Hk'. destruct (Nat.eq_dec k' i) as [->|]; [apply Hb|apply Hbl; lia].
      + left. exists i. split; auto. split; [split; auto|]. intros k' w Hk'; lia.
  Qed.

  Lemma ffill_length : forall a : list T, length (ffill_1d_nb a) = length a.
  Proof. intros. apply scan_length. Qed.

  Lemma ffill_idem : forall a : list T, ffill_1d_nb (ffill_1d_nb a) = ffill_1d_nb a.
  Proof.
    (* the loop started from any value, replayed on its own output *)
    assert (G : forall (l : list T) i v w, (isnan v = false \/ v = w) ->
      scan ffill_step i w (scan ffill_step i v l) = scan ffill_step i v l).
    { induction l as [|x l IH]; intros i v w Hv; cbn; auto.
      unfold ffill_step at 2 4. destruct (isnan x) eqn:Ex; cbn.
      - unfold ffill_step at 1. destruct Hv as [Hv| ->].
        + rewrite Hv. rewrite IH; auto.
        + destruct (isnan w) eqn:Ew; rewrite IH; auto.
      - unfold ffill_step at 1. rewrite Ex. rewrite IH; auto. }
    intros a. unfold ffill_1d_nb. destruct a as [|a0 a]; auto. apply G.
    right. cbn. unfold ffill_step. destruct (isnan a0); reflexivity.
  Qed.

  Lemma nth_error_rev : forall A (l : list A) i, i < length l -> nth_error (rev l) i = nth_error l (length l - 1 - i).
  Proof.
    intros A l i H. destruct l as [|d l']; [cbn in H; lia|]. set (l := d :: l') in *.
    rewrite (nth_error_nth' (rev l) d) by (rewrite rev_length; auto).
    rewrite (nth_error_nth' l d) by lia. f_equal. rewrite rev_nth by auto. f_equal. lia.
  Qed.

  Lemma holds_rev : forall (a : list T) i y, i < length a -> holds (rev a) i y <-> holds a (length a - 1 - i) y.
  Proof. intros a i y H. unfold holds. rewrite nth_error_rev by auto. reflexivity. Qed.

  Lemma bfill_rev : forall a : list T, bfill_1d_nb a = rev (ffill_1d_nb (rev a)).
  Proof.
    intros a. unfold bfill_1d_nb, ffill_1d_nb. f_equal. f_equal.
    destruct a as [|x a _] using rev_ind; auto. rewrite last_last, rev_unit. auto.
  Qed.

  Lemma bfill_run : forall (a : list T) i x, nth_error a i = Some x ->
    exists y, nth_error (bfill_1d_nb a) i = Some y /\
      (first_valid a i y \/ (isnan y = true /\ blank a i (length a))).
  Proof.
    intros a i x Hx. pose proof (nth_error_lt _ _ _ Hx) as Hi. rewrite bfill_rev.
    assert (Hx' : nth_error (rev a) (length a - 1 - i) = Some x).
    { rewrite nth_error_rev by lia. replace (length a - 1 - (length a - 1 - i)) with i by lia. auto. }
    destruct (ffill_run (rev a) _ x Hx') as (y & Hy & HH). exists y. split.
    - rewrite nth_error_rev by (rewrite ffill_length, rev_length; auto).
      rewrite ffill_length, rev_length. auto.
    - destruct HH as [(j & Hj & Hh & Hb)|[Hn Hb]]; [left|right].
      + exists (length a - 1 - j). split; [lia|]. split; [apply holds_rev; auto; lia|].
        intros k w Hk Hw. apply (Hb (length a - 1 - k) w); [lia|]. apply holds_rev; [lia|].
        replace (length a - 1 - (length a - 1 - k)) with k by lia. auto.
      + split; auto. intros k w Hk Hw. destruct (Nat.lt_ge_cases k (length a)) as [Hl|Hl].
        * apply (Hb (length a - 1 - k) w); [lia|]. apply holds_rev; [lia|].
          replace (length a - 1 - (length a - 1 - k)) with k by lia. auto.
        * destruct Hw as [Hw _]. apply nth_error_lt in Hw. lia.
  Qed.

  Lemma bfill_length : forall a : list T, length (bfill_1d_nb a) = length a.
  Proof. intros. rewrite bfill_rev, rev_length, ffill_length, rev_length. auto. Qed.

  Lemma bfill_idem : forall a : list T, bfill_1d_nb (bfill_1d_nb a) = bfill_1d_nb a.
  Proof. intros. rewrite !bfill_rev, rev_involutive, ffill_idem. auto. Qed.

  (** ** Shifting *)
  Lemma fshift_spec : forall (a : list T) n v,
    fshift_1d_nb a n v = firstn (length a) (repeat v n ++ a).
  Proof.
    intros a n v. apply nth_ext with (d := v) (d' := v).
    - unfold fshift_1d_nb. rewrite map_length, seq_length, firstn_length, app_length, repeat_length. lia.
    - intros i Hi. unfold fshift_1d_nb in *. rewrite map_length, seq_length in Hi.
      rewrite (nth_error_nth _ _ v (nth_error_map_seq _ _ _ _ Hi)).
      assert (E : nth i (firstn (length a) (repeat v n ++ a)) v = nth i (repeat v n ++ a) v).
      { rewrite <- (firstn_skipn (length a) (repeat v n ++ a)) at 2. rewrite app_nth1; auto.
        rewrite firstn_length, app_length, repeat_length. lia. }
      rewrite E. destruct (Nat.leb n i) eqn:En.
      + apply Nat.leb_le in En. rewrite app_nth2 by (rewrite repeat_length; lia). rewrite repeat_length.
        apply nth_indep. lia.
      + apply Nat.leb_gt in En. rewrite app_nth1 by (rewrite repeat_length; lia). symmetry. apply nth_repeat.
  Qed.

  Lemma bshift_spec : forall (a : list T) n v,
    bshift_1d_nb a n v = skipn n a ++ repeat v (Nat.min n (length a)).
  Proof.
    intros a n v. apply nth_ext with (d := v) (d' := v).
    - unfold bshift_1d_nb. rewrite map_length, seq_length, app_length, skipn_length, repeat_length. lia.
    - intros i Hi. unfold bshift_1d_nb in *. rewrite map_length, seq_length in Hi.
      rewrite (nth_error_nth _ _ v (nth_error_map_seq _ _ _ _ Hi)).
      assert (E : forall d, nth i (skipn n a) d = nth (i + n) a d).
      { intros d. rewrite <- (firstn_skipn n a) at 2. destruct (Nat.lt_ge_cases n (length a)) as [Hl|Hl].
        - rewrite app_nth2; rewrite firstn_length_le by lia; [f_equal; lia|lia].
        - rewrite (skipn_all2 a) by auto. rewrite app_nil_r. rewrite firstn_all2 by auto.
          rewrite (nth_overflow a) by lia. destruct i; auto. }
      destruct (Nat.leb (i + n + 1) (length a)) eqn:En.
      + apply Nat.leb_le in En. rewrite app_nth1 by (rewrite skipn_length; lia). rewrite E.
        apply nth_indep. lia.
      + apply Nat.leb_gt in En. rewrite app_nth2 by (rewrite skipn_length; lia). symmetry. apply nth_repeat.
  Qed.
End Fill.

(** ** Rolling and expanding extremes *)
Section Extreme.
  Context {T : Type} {N : Num T} {L : OrdLaws N}.
  Variable better : T -> T -> bool.
  Hypothesis better_nan : forall x y, better x y = true -> isnan x = false.
  Hypothesis better_irrefl : forall x, better x x = false.
  Hypothesis better_trans : forall x y z, better x y = true -> better y z = true -> better x z = true.

  Definition best (m : T) (l : list T) : Prop := isnan m = false /\ In m l /\ forall x, In x l -> better x m = false.

  Lemma extreme_fold : forall x0 xs p m cnt,
    cnt = length (numbers p) ->
    ((isnan m = true /\ numbers p = [] /\ m = x0) \/
     (isnan m = false /\ (In m (numbers p) \/ m = x0) /\ forall x, In x (numbers p) -> better x m = false)) ->
    let (m', cnt') := fold_left (extreme_step better) xs (m, cnt) in
    cnt' = length (numbers (p ++ xs)) /\
    ((isnan m' = true /\ numbers (p ++ xs) = [] /\ m' = x0) \/
     (isnan m' = false /\ (In m' (numbers (p ++ xs)) \/ m' = x0) /\ forall x, In x (numbers (p ++ xs)) -> better x m' = false)).
  Proof.
    intros x0 xs. induction xs as [|x xs IH]; intros p m cnt Hc H; cbn [fold_left].
    - rewrite app_nil_r. auto.
    - replace (p ++ x :: xs) with ((p ++ [x]) ++ xs) by (rewrite <- app_assoc; auto).
      assert (En : numbers (p ++ [x]) = numbers p ++ (if isnan x then [] else [x])).
      { unfold numbers. rewrite filter_app. cbn. destruct (isnan x); auto. }
      unfold extreme_step at 2. destruct (isnan x) eqn:Ex.
      + apply IH; rewrite En, app_nil_r; auto.
      + apply IH; rewrite En; [rewrite app_length; cbn; lia|].
        right. destruct H as [(Hm & Hp & _)|(Hm & Hin & Hall)].
        * rewrite Hm. cbn. split; auto. split; [left; apply in_or_app; right; left; auto|].
          rewrite Hp. intros y [<-|[]]. apply better_irrefl.
        * rewrite Hm. cbn. destruct (better x m) eqn:Eb.
          -- split; auto. split; [left; apply in_or_app; right; left; auto|].
             intros y Hy. apply in_app_or in Hy as [Hy|[<-|[]]]; [|apply better_irrefl].
             destruct (better y x) eqn:Ey; auto. rewrite <- (Hall y Hy). symmetry. eapply better_trans; eauto.
          -- split; auto. split; [destruct Hin; [left; apply in_or_app|]; auto|].
             intros y Hy. apply in_app_or in Hy as [Hy|[<-|[]]]; auto.
  Qed.

  Lemma window_last : forall (a : list T) w i x, 1 <= w -> nth_error a i = Some x -> In x (window w i a).
  Proof.
    intros a w i x Hw Hx. unfold window. rewrite (firstn_snoc _ _ _ _ Hx).
    rewrite skipn_app. apply in_or_app. right.
    pose proof (nth_error_lt _ _ _ Hx). rewrite firstn_length_le by lia.
    replace (S i - w - i) with 0 by lia. left; auto.
  Qed.

  Lemma rolling_extreme_spec : forall (a : list T) w m i, 1 <= w -> i < length a ->
    let l := numbers (window w i a) in
    (length l < m -> rolling_extreme better a w m i = nan) /\
    (m <= length l -> l <> [] -> best (rolling_extreme better a w m i) l) /\
    (l = [] -> isnan nan = true -> isnan (rolling_extreme better a w m i) = true).
  Proof.
    intros a w m i Hw Hi l. unfold rolling_extreme. change (slice (S i - w) (S i) a) with (window w i a).
    destruct (nth_error a i) as [x|] eqn:Ex; [|apply nth_error_None in Ex; lia].
    rewrite (nth_error_nth _ _ nan Ex).
    pose proof (extreme_fold x (window w i a) [] x 0 eq_refl) as H. cbn [app] in H.
    destruct (fold_left (extreme_step better) (window w i a) (x, 0)) as [m' cnt'].
    assert (H0 : isnan x = true /\ numbers ([] : list T) = [] /\ x = x \/
     isnan x = false /\ (In x (numbers []) \/ x = x) /\ (forall x1 : T, In x1 (numbers []) -> better x1 x = false)).
    { destruct (isnan x); [left|right]; repeat split; auto. intros ? []. }
    apply H in H0 as [Hc HH]. fold l in HH, Hc. subst cnt'. clear H.
    repeat split.
    - intros Hlt. apply Nat.ltb_lt in Hlt. rewrite Hlt. auto.
    - replace (Nat.ltb (length l) m) with false by (symmetry; apply Nat.ltb_ge; lia).
      destruct HH as [(_ & E & _)|(HH & _)]; [congruence|auto].
    - replace (Nat.ltb (length l) m) with false by (symmetry; apply Nat.ltb_ge; lia).
      destruct HH as [(_ & E & _)|(Hn & [Hin| ->] & _)]; [congruence|auto|].
      unfold l, numbers. apply filter_In. split; [apply window_last; auto|]. rewrite Hn; auto.
    - replace (Nat.ltb (length l) m) with false by (symmetry; apply Nat.ltb_ge; lia).
      destruct HH as [(_ & E & _)|(_ & _ & HH)]; [congruence|auto].
    - intros E Hnan. destruct (Nat.ltb (length l) m); auto.
      destruct HH as [(HH & _)|(Hn & [Hin| ->] & _)]; auto; [rewrite E in Hin; destruct Hin|].
      exfalso. assert (In x l); [|rewrite E in *; auto].
      unfold l, numbers. apply filter_In. split; [apply window_last; auto|]. rewrite Hn; auto.
  Qed.

  Lemma numbers_snoc : forall (p : list T) x, numbers (p ++ [x]) = numbers p ++ (if isnan x then [] else [x]).
  Proof. intros. unfold numbers. rewrite filter_app. cbn. destruct (isnan x); auto. Qed.

  Lemma expanding_extreme_run : forall (a : list T) m i x, nth_error a i = Some x ->
    exists y, nth_error (scan (expanding_extreme_step better m) 0 (hd nan a, 0) a) i = Some y /\
    let l := numbers (firstn (S i) a) in
    (length l < m -> y = nan) /\
    (m <= length l -> l <> [] -> best y l) /\
    (l = [] -> isnan nan = true -> isnan y = true).
  Proof.
    intros a m i x Hx.
    set (Q := fun k (s : T * nat) => snd s = length (numbers (firstn k a)) /\
         ((k = 0 /\ fst s = hd nan a) \/
          (0 < k /\ ((isnan (fst s) = true /\ numbers (firstn k a) = []) \/ best (fst s) (numbers (firstn k a)))))).
    assert (Step : forall k s z, nth_error a k = Some z -> Q k s ->
      Q (S k) (fst (expanding_extreme_step better m k s z))).
    { intros k [mv c] z Hk [Hc HP]. unfold Q. cbn [fst snd expanding_extreme_step] in *.
      rewrite (firstn_snoc _ _ _ _ Hk), numbers_snoc. split.
      { destruct (isnan z); rewrite app_length; cbn; lia. }
      right. split; [lia|]. destruct (isnan mv) eqn:Emv; cbn.
      - assert (En : numbers (firstn k a) = []).
        { destruct HP as [[-> _]|[_ [[_ E]|[E _]]]]; auto. congruence. }
        rewrite En. destruct (isnan z) eqn:Ez; [left; auto|right]. split; auto. split; [left; auto|].
        intros y [<-|[]]; apply better_irrefl.
      - destruct (better z mv) eqn:Eb.
        + rewrite (better_nan _ _ Eb). right. split; [apply (better_nan _ _ Eb)|].
          split; [apply in_or_app; right; left; auto|].
          intros y Hy. apply in_app_or in Hy as [Hy|[<-|[]]]; [|apply better_irrefl].
          destruct HP as [[-> ->]|[_ [[E _]|(_ & _ & Hall)]]]; [destruct Hy|congruence|].
          destruct (better y z) eqn:Ey; auto. rewrite <- (Hall y Hy). symmetry. eapply better_trans; eauto.
        + right. split; auto.
          assert (Hin : In mv (numbers (firstn k a) ++ (if isnan z then [] else [z]))).
          { apply in_or_app. destruct HP as [[-> ->]|[_ [[E _]|(_ & Hin & _)]]]; [right|congruence|left; auto].
            destruct a as [|a0 a']; [discriminate|]. cbn in Hk. injection Hk as ->. cbn in Emv |- *. rewrite Emv. left; auto. }
          split; auto. intros y Hy. apply in_app_or in Hy as [Hy|Hy].
          * destruct HP as [[-> ->]|[_ [[E _]|(_ & _ & Hall)]]]; [destruct Hy|congruence|auto].
          * destruct (isnan z); [destruct Hy|destruct Hy as [<-|[]]; auto]. }
    destruct (scan_spec (expanding_extreme_step better m) Q a (hd nan a, 0)) with (k := i) (x := x) as (s & HP & Hn); auto.
    { split; auto. }
    eexists. split; [exact Hn|]. specialize (Step i s x Hx HP). destruct s as [mv c].
    cbn [expanding_extreme_step fst snd] in *.
    set (mv' := if isnan mv || better x mv then x else mv) in *. set (c' := if isnan x then c else S c) in *.
    destruct Step as [Hc HS]. cbn [fst snd] in Hc, HS. rewrite Hc.
    destruct HS as [[C _]|[_ HS]]; [discriminate|]. split; [|split].
    - intros Hlt. apply Nat.ltb_lt in Hlt. rewrite Hlt. auto.
    - intros Hm Hne. replace (Nat.ltb _ m) with false by (symmetry; apply Nat.ltb_ge; lia).
      destruct HS as [[_ E2]|HS]; [congruence|exact HS].
    - intros E Hnan. destruct (Nat.ltb (length _) m); auto.
      destruct HS as [[E2 _]|(_ & Hin & _)]; auto. rewrite E in Hin. destruct Hin.
  Qed.
End Extreme.

Section ExtremeUse.
  Context {T : Type} {N : Num T} {L : OrdLaws N}.

  Lemma numbers_notnan : forall (l : list T) x, In x (numbers l) -> isnan x = false.
  Proof. intros l x H. apply filter_In in H as [_ H]. apply negb_true_iff in H. auto. Qed.

  Lemma best_min : forall m (l : list T), best ltb m (numbers l) -> is_min m (numbers l).
  Proof.
    intros m l (H1 & H2 & H3). split; auto. intros x Hx. apply ltb_false_leb; auto. eapply numbers_notnan; eauto.
  Qed.
  Lemma best_max : forall m (l : list T), best gtb m (numbers l) -> is_max m (numbers l).
  Proof.
    intros m l (H1 & H2 & H3). split; auto. intros x Hx. apply ltb_false_leb; auto.
    - eapply numbers_notnan; eauto.
    - apply (H3 x Hx).
  Qed.

  Lemma gtb_trans : forall x y z : T, gtb x y = true -> gtb y z = true -> gtb x z = true.
  Proof. unfold gtb. intros. eapply ltb_trans; eauto. Qed.

  Lemma check_minp_ok : forall A w mp (k : nat -> res A) out, check_minp w mp k = Ok out ->
    exists m, m <= w /\ m = match mp with None => w | Some m => m end /\ k m = Ok out.
  Proof.
    intros A w mp k out H. unfold check_minp in H. apply raise_if_ok in H as [H1 H2].
    apply Nat.ltb_ge in H1. eauto.
  Qed.

  Lemma rolling_min_run : forall (a : list T) w mp out, 1 <= w ->
    rolling_min_1d_nb a w mp = Ok out ->
    length out = length a /\
    forall i, i < length a -> exists y, nth_error out i = Some y /\
      let l := numbers (window w i a) in
      let m := match mp with None => w | Some m => m end in
      (length l < m -> isnan y = true) /\
      (m <= length l -> l <> [] -> is_min y l) /\ (l = [] -> isnan y = true).
  Proof.
    intros a w mp out Hw H. apply check_minp_ok in H as (m & Hm & Em & H). injection H as <-.
    split; [rewrite map_length, seq_length; auto|]. intros i Hi. rewrite nth_error_map_seq by auto.
    eexists. split; [reflexivity|]. rewrite <- Em.
    destruct (rolling_extreme_spec ltb ltb_irrefl ltb_trans a w m i Hw Hi) as (H1 & H2 & H3). repeat split.
    - intros Hl. rewrite H1 by auto. apply ol_nan.
    - apply best_min; auto.
    - apply best_min; auto.
    - intros E. apply H3; auto. apply ol_nan.
  Qed.

  Lemma rolling_max_run : forall (a : list T) w mp out, 1 <= w ->
    rolling_max_1d_nb a w mp = Ok out ->
    length out = length a /\
    forall i, i < length a -> exists y, nth_error out i = Some y /\
      let l := numbers (window w i a) in
      let m := match mp with None => w | Some m => m end in
      (length l < m -> isnan y = true) /\
      (m <= length l -> l <> [] -> is_max y l) /\ (l = [] -> isnan y = true).
  Proof.
    intros a w mp out Hw H. apply check_minp_ok in H as (m & Hm & Em & H). injection H as <-.
    split; [rewrite map_length, seq_length; auto|]. intros i Hi. rewrite nth_error_map_seq by auto.
    eexists. split; [reflexivity|]. rewrite <- Em.
    destruct (rolling_extreme_spec gtb ltb_irrefl gtb_trans a w m i Hw Hi) as (H1 & H2 & H3). repeat split.
    - intros Hl. rewrite H1 by auto. apply ol_nan.
    - apply best_max; auto.
    - apply best_max; auto.
    - intros E. apply H3; auto. apply ol_nan.
  Qed.

  Lemma rolling_accepts : forall (a : list T) w mp,
    match mp with None => w | Some m => m end <= w <->
    (exists out, rolling_min_1d_nb a w mp = Ok out) /\ (exists out, rolling_max_1d_nb a w mp = Ok out).
  Proof.
    intros a w mp. unfold rolling_min_1d_nb, rolling_max_1d_nb, check_minp, raise_if.
    destruct (Nat.ltb w _) eqn:E; [apply Nat.ltb_lt in E|apply Nat.ltb_ge in E]; split.
    - lia.
    - intros [[? H] _]. discriminate.
    - eauto.
    - auto.
  Qed.

  Lemma rolling_extreme_firstn : forall better (a : list T) n w m i, i < n ->
    rolling_extreme better (firstn n a) w m i = rolling_extreme better a w m i.
  Proof.
    intros better a n w m i Hi. unfold rolling_extreme, slice. rewrite firstn_firstn.
    replace (Nat.min (S i) n) with (S i) by lia.
    replace (nth i (firstn n a) nan) with (nth i a nan); auto.
    destruct (Nat.lt_ge_cases i (length a)) as [Hl|Hl].
    - rewrite <- (firstn_skipn n a) at 1. rewrite app_nth1; auto. rewrite firstn_length. lia.
    - rewrite !nth_overflow; auto. rewrite firstn_length. lia.
  Qed.

  Lemma firstn_map_seq : forall A (f g : nat -> A) n len, (forall i, i < n -> f i = g i) ->
    map f (seq 0 (Nat.min n len)) = firstn n (map g (seq 0 len)).
  Proof.
    intros A f g n len H. rewrite firstn_map.
    replace (firstn n (seq 0 len)) with (seq 0 (Nat.min n len)).
    - apply map_ext_in. intros i Hi. apply in_seq in Hi. apply H. lia.
    - destruct (Nat.le_ge_cases n len) as [Hl|Hl].
      + rewrite Nat.min_l by auto. replace len with (n + (len - n)) by lia. rewrite seq_app.
        rewrite firstn_app, seq_length, Nat.sub_diag, firstn_O, app_nil_r. symmetry. apply firstn_all2. rewrite seq_length; auto.
      + rewrite Nat.min_r by auto. symmetry. apply firstn_all2. rewrite seq_length; auto.
  Qed.

  Lemma rolling_min_causal : forall (a : list T) n w mp out,
    rolling_min_1d_nb a w mp = Ok out -> rolling_min_1d_nb (firstn n a) w mp = Ok (firstn n out).
  Proof.
    intros a n w mp out H. unfold rolling_min_1d_nb, check_minp in *. apply raise_if_ok in H as [H1 H].
    rewrite H1. cbn. injection H as <-. f_equal. rewrite firstn_length.
    apply firstn_map_seq. intros. apply rolling_extreme_firstn; auto.
  Qed.
  Lemma rolling_max_causal : forall (a : list T) n w mp out,
    rolling_max_1d_nb a w mp = Ok out -> rolling_max_1d_nb (firstn n a) w mp = Ok (firstn n out).
  Proof.
    intros a n w mp out H. unfold rolling_max_1d_nb, check_minp in *. apply raise_if_ok in H as [H1 H].
    rewrite H1. cbn. injection H as <-. f_equal. rewrite firstn_length.
    apply firstn_map_seq. intros. apply rolling_extreme_firstn; auto.
  Qed.

  Lemma expanding_min_run : forall (a : list T) m i, i < length a ->
    exists y, nth_error (expanding_min_1d_nb a m) i = Some y /\
      let l := numbers (firstn (S i) a) in
      (length l < m -> isnan y = true) /\
      (m <= length l -> l <> [] -> is_min y l) /\ (l = [] -> isnan y = true).
  Proof.
    intros a m i Hi. destruct (nth_error a i) as [x|] eqn:Ex; [|apply nth_error_None in Ex; lia].
    destruct (expanding_extreme_run ltb (fun x y H => proj1 (ltb_notnan x y H)) ltb_irrefl ltb_trans a m i x Ex) as (y & Hy & H1 & H2 & H3).
    exists y. split; auto. cbv zeta. repeat split.
    - intros Hl. rewrite H1 by auto. apply ol_nan.
    - apply best_min; auto.
    - apply best_min; auto.
    - intros E. apply H3; auto. apply ol_nan.
  Qed.
  Lemma expanding_max_run : forall (a : list T) m i, i < length a ->
    exists y, nth_error (expanding_max_1d_nb a m) i = Some y /\
      let l := numbers (firstn (S i) a) in
      (length l < m -> isnan y = true) /\
      (m <= length l -> l <> [] -> is_max y l) /\ (l = [] -> isnan y = true).
  Proof.
    intros a m i Hi. destruct (nth_error a i) as [x|] eqn:Ex; [|apply nth_error_None in Ex; lia].
    destruct (expanding_extreme_run gtb (fun x y H => proj2 (ltb_notnan y x H)) ltb_irrefl gtb_trans a m i x Ex) as (y & Hy & H1 & H2 & H3).
    exists y. split; auto. cbv zeta. repeat split.
    - intros Hl. rewrite H1 by auto. apply ol_nan.
    - apply best_max; auto.
    - apply best_max; auto.
    - intros E. apply H3; auto. apply ol_nan.
  Qed.
End ExtremeUse.
