(** * Positions of extremes in the Rust kernels (C97) *)
From Coq Require Import String ZArith Bool List Lia.
From Verif Require Import Base Num OrdLaws GenericNb Reduce ReduceSpec ReduceLemmas3 RustGeneric RustGenericSpec.
Import ListNotations.
Open Scope nat_scope.

Section Arg.
  Context {T : Type} {N : Num T}.
  Variable better : T -> T -> bool.
  Hypothesis B1 : forall x y, better x y = true -> isnan x = false.
  Hypothesis B2 : forall x y z, isnan y = false -> isnan z = false -> better x y = true -> better z y = false -> better x z = true.
  Hypothesis B3 : forall x y, better x y = true -> better y x = false.
  Hypothesis B4 : forall x y, isnan x = true -> better x y = false.

  Definition best_of (a : list T) (n : nat) (s : nat * T) : Prop :=
    fst s < n /\ nth (fst s) a nan = snd s /\ isnan (snd s) = false /\
    forall q, q < n -> better (nth q a nan) (snd s) = false /\ (q < fst s -> isnan (nth q a nan) = true \/ better (snd s) (nth q a nan) = true).

  Lemma arg_run : forall (a l : list T) i s, (forall k, k < length l -> nth k l nan = nth (i + k) a nan) -> best_of a i s ->
    best_of a (i + length l) (fold_left (fun '(bi, bv) '(j, v) => if better v bv then (j, v) else (bi, bv)) (combine (seq i (length l)) l) s).
  Proof.
    intros a l. induction l as [|x l IH]; intros i [bi bv] Hl Hb; cbn [length seq combine fold_left]; [rewrite Nat.add_0_r; auto|].
    replace (i + S (length l)) with (S i + length l) by lia.
    pose proof (Hl 0 ltac:(cbn; lia)) as Hx. cbn [nth] in Hx. rewrite Nat.add_0_r in Hx.
    apply IH.
    - intros k Hk. replace (S i + k) with (i + S k) by lia. rewrite <- Hl by (cbn; lia). reflexivity.
    - destruct Hb as (H1 & H2 & H3 & H4). cbn [fst snd] in *. destruct (better x bv) eqn:E.
      + unfold best_of. cbn [fst snd]. split; [lia|]. split; [auto|]. split; [exact (B1 _ _ E)|]. intros q Hq.
        assert (K : q < i -> isnan (nth q a nan) = true \/ better x (nth q a nan) = true).
        { intros Hqi. destruct (isnan (nth q a nan)) eqn:En; auto. right. apply (B2 x bv); auto. apply H4. auto. }
        split; [|auto]. destruct (Nat.eq_dec q i) as [->|].
        * rewrite <- Hx. destruct (better x x) eqn:E2; auto. rewrite <- E2 at 1. apply B3. auto.
        * destruct (K ltac:(lia)); [apply B4; auto|apply B3; auto].
      + unfold best_of. cbn [fst snd]. split; [lia|]. split; [auto|]. split; [auto|]. intros q Hq. destruct (Nat.eq_dec q i) as [->|].
        * rewrite <- Hx. split; [auto|lia].
        * apply H4. lia.
  Qed.

  Lemma first_number : forall (l : list T) i,
    match rs_first_number i l with
    | None => forallb isnan l = true
    | Some (p, v) => forallb isnan l = false /\ exists k, p = i + k /\ k < length l /\ nth k l nan = v /\ isnan v = false /\ forall q, q < k -> isnan (nth q l nan) = true
    end.
  Proof.
    induction l as [|x l IH]; intros i; cbn [rs_first_number forallb]; [reflexivity|]. destruct (isnan x) eqn:E; cbn [andb].
    - specialize (IH (S i)). destruct (rs_first_number (S i) l) as [[p v]|]; auto. destruct IH as [F (k & -> & Hk & Hv & Hn & Hq)].
      split; auto. exists (S k). cbn [length nth]. repeat split; auto; try lia. intros [|q] H; [auto|apply Hq; lia].
    - split; auto. exists 0. cbn. repeat split; auto; lia.
  Qed.

  Lemma skipn_enumerate : forall A (l : list A) k s, skipn k (combine (seq s (length l)) l) = combine (seq (s + k) (length (skipn k l))) (skipn k l).
  Proof.
    intros A l. induction l as [|x l IH]; intros [|k] s; cbn [skipn length seq combine]; auto.
    - rewrite Nat.add_0_r. auto.
    - rewrite IH. do 2 f_equal. lia.
  Qed.

  Lemma rs_arg_ok : forall xs : list T,
    (forallb isnan xs = true -> rs_arg_reduce better xs = Err (ValueError "All-NaN slice encountered")) /\
    (forallb isnan xs = false -> exists p, rs_arg_reduce better xs = Ok p /\ first_extreme better xs p).
  Proof.
    intros xs. unfold rs_arg_reduce. pose proof (first_number xs 0) as F. destruct (rs_first_number 0 xs) as [[p v]|]; [|split; intros; [auto|congruence]].
    destruct F as [F (k & -> & Hk & Hv & Hn & Hq)]. cbn [Nat.add] in *. split; intros E; [congruence|]. eexists. split; [reflexivity|].
    unfold enumerate. rewrite skipn_enumerate. cbn [Nat.add].
    pose proof (arg_run xs (skipn (k + 1) xs) (k + 1) (k, v)) as K.
    replace (k + 1 + length (skipn (k + 1) xs)) with (length xs) in K by (rewrite skipn_length; lia).
    destruct K as (K1 & K2 & K3 & K4).
    - intros j Hj. rewrite skipn_length in Hj. clear -Hj. revert k j Hj. induction xs as [|x xs IH]; intros k j Hj; [cbn in Hj; lia|].
      destruct k as [|k]; cbn [Nat.add skipn nth]; [destruct xs; reflexivity|]. apply IH. cbn in Hj. lia.
    - unfold best_of. cbn [fst snd]. split; [lia|]. split; auto. split; auto. intros q Hqk. destruct (Nat.eq_dec q k) as [->|].
      + rewrite Hv. split; [|lia]. destruct (better v v) eqn:Eb; auto. rewrite <- Eb at 1. apply B3. auto.
      + specialize (Hq q ltac:(lia)). split; auto.
    - split; auto. split; [rewrite K2; auto|]. intros q Hl. rewrite K2. apply K4. auto.
  Qed.
  Lemma first_extreme_unique : forall (xs : list T) p p', first_extreme better xs p -> first_extreme better xs p' -> p = p'.
  Proof.
    intros xs p p' (L & Nn & H) (L' & Nn' & H'). destruct (lt_eq_lt_dec p p') as [[Hp|]|Hp]; auto.
    - destruct (H' p L) as [_ K]. destruct (K Hp) as [K1|K1]; [congruence|]. destruct (H p' L') as [K2 _]. congruence.
    - destruct (H p' L') as [_ K]. destruct (K Hp) as [K1|K1]; [congruence|]. destruct (H' p L) as [K2 _]. congruence.
  Qed.
End Arg.

Section Both.
  Context {T : Type} {N : Num T} {L : OrdLaws N}.
  Lemma lt_first : forall x y z : T, isnan y = false -> isnan z = false -> ltb x y = true -> ltb z y = false -> ltb x z = true.
  Proof. intros x y z Hy Hz H1 H2. apply (ltb_leb_trans x y z); auto. rewrite ol_leb, Hy, Hz, H2. reflexivity. Qed.
  Lemma gt_first : forall x y z : T, isnan y = false -> isnan z = false -> gtb x y = true -> gtb z y = false -> gtb x z = true.
  Proof. unfold gtb. intros x y z Hy Hz H1 H2. apply (leb_ltb_trans z y x); auto. rewrite ol_leb, Hy, Hz, H2. reflexivity. Qed.

  Lemma argmin_ok : forall xs : list T,
    (forallb isnan xs = true -> rs_argmin_reduce xs = Err (ValueError "All-NaN slice encountered")) /\
    (forallb isnan xs = false -> exists p, rs_argmin_reduce xs = Ok p /\ first_extreme ltb xs p).
  Proof. apply rs_arg_ok; intros; [apply (ltb_notnan x y); auto|apply (lt_first x y z); auto|apply ol_asym; auto|apply ol_nan_l; auto]. Qed.
  Lemma argmax_ok : forall xs : list T,
    (forallb isnan xs = true -> rs_argmax_reduce xs = Err (ValueError "All-NaN slice encountered")) /\
    (forallb isnan xs = false -> exists p, rs_argmax_reduce xs = Ok p /\ first_extreme gtb xs p).
  Proof. apply rs_arg_ok; intros; [unfold gtb in *; apply (ltb_notnan y x); auto|apply (gt_first x y z); auto|unfold gtb in *; apply ol_asym; auto|unfold gtb; apply ol_nan_r; auto]. Qed.

  Lemma arg_same : infinity_on_top N -> forall g (xs : list T),
    ((exists q, q < length xs /\ ltb (nth q xs nan) pinf = true) -> rs_argmin_reduce xs = argmin_reduce_nb g xs) /\
    ((exists q, q < length xs /\ gtb (nth q xs nan) ninf = true) -> rs_argmax_reduce xs = argmax_reduce_nb g xs).
  Proof.
    intros P g xs. split; intros (q & Hq & E).
    - assert (F : forallb isnan xs = false).
      { apply not_true_iff_false. intros F. rewrite forallb_forall in F. specialize (F _ (nth_In xs nan Hq)). rewrite (ol_nan_l _ _ F) in E. discriminate. }
      destruct (argmin_finds P g xs) as [_ K]. destruct (K F) as (p & -> & Kp). destruct (argmin_ok xs) as [_ R]. destruct (R F) as (p' & -> & Rp).
      f_equal. apply (first_extreme_unique ltb xs); [exact Rp|]. apply Kp. eauto.
    - assert (F : forallb isnan xs = false).
      { apply not_true_iff_false. intros F. rewrite forallb_forall in F. specialize (F _ (nth_In xs nan Hq)). unfold gtb in E. rewrite (ol_nan_r _ _ F) in E. discriminate. }
      destruct (argmax_finds P g xs) as [_ K]. destruct (K F) as (p & -> & Kp). destruct (argmax_ok xs) as [_ R]. destruct (R F) as (p' & -> & Rp).
      f_equal. apply (first_extreme_unique gtb xs); [exact Rp|]. apply Kp. eauto.
  Qed.
End Both.
