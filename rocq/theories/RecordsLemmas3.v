(** * Top and bottom N values of every column *)
From Coq Require Import ZArith Bool List Arith Lia Sorted Permutation.
From Verif Require Import Base Num OrdLaws GenericNb RecordsNb RecordsSpec RecordsLemmas RecordsLemmas2.
Import ListNotations.

(** ** Counting *)
Definition count {A} (p : A -> bool) (l : list A) : nat := length (filter p l).

Lemma count_app : forall A (p : A -> bool) l l', count p (l ++ l') = count p l + count p l'.
Proof. intros. unfold count. rewrite filter_app, app_length. auto. Qed.
Lemma count_perm : forall A (p : A -> bool) l l', Permutation l l' -> count p l = count p l'.
Proof.
  intros A p l l' H. unfold count. induction H; cbn; auto.
  - destruct (p x); cbn; auto.
  - destruct (p x), (p y); cbn; auto.
  - congruence.
Qed.
Lemma count_le : forall A (p : A -> bool) l, count p l <= length l.
Proof. intros A p l. unfold count. induction l as [|x l IH]; cbn; auto. destruct (p x); cbn; lia. Qed.
Lemma count_none : forall A (p : A -> bool) l, (forall x, In x l -> p x = false) -> count p l = 0.
Proof.
  intros A p l. unfold count. induction l as [|x l IH]; intros H; cbn; auto. rewrite H by (left; auto). apply IH. intros; apply H; right; auto.
Qed.
Lemma count_all : forall A (p : A -> bool) l, (forall x, In x l -> p x = true) -> count p l = length l.
Proof.
  intros A p l. unfold count. induction l as [|x l IH]; intros H; cbn; auto. rewrite H by (left; auto). cbn. f_equal. apply IH. intros; apply H; right; auto.
Qed.
Lemma count_ext : forall A (p q : A -> bool) l, (forall x, In x l -> p x = q x) -> count p l = count q l.
Proof. intros A p q l H. unfold count. f_equal. apply filter_ext_in. auto. Qed.
Lemma count_map : forall A B (f : A -> B) p l, count p (map f l) = count (fun x => p (f x)) l.
Proof. intros. unfold count. induction l as [|x l IH]; cbn; auto. destruct (p (f x)); cbn; auto. Qed.
Lemma count_split : forall A (p q r : A -> bool) l, (forall x, In x l -> p x = true -> q x = true -> False) ->
  (forall x, In x l -> r x = p x || q x) -> count r l = count p l + count q l.
Proof.
  intros A p q r l. unfold count. induction l as [|x l IH]; intros H1 H2; cbn; auto.
  rewrite (H2 x) by (left; auto). pose proof (H1 x (or_introl eq_refl)) as Hx.
  assert (IH' : length (filter r l) = length (filter p l) + length (filter q l)).
  { apply IH; intros; [eapply H1; eauto; right; auto|apply H2; right; auto]. }
  destruct (p x), (q x); cbn; try lia; exfalso; auto.
Qed.
Lemma count_filter : forall A (p q : A -> bool) l, count p (filter q l) = count (fun x => q x && p x) l.
Proof. intros. unfold count. induction l as [|x l IH]; cbn; auto. destruct (q x); cbn; auto. destruct (p x); cbn; auto. Qed.

(** ** Marking *)
Lemma mark_until_fold : forall p idxs ps n m, 1 <= n ->
  mark_until p idxs ps n m = fold_left (mark idxs) (firstn n (filter p ps)) m.
Proof.
  intros p idxs ps. induction ps as [|i ps IH]; intros n m Hn; cbn [mark_until filter].
  - destruct n; reflexivity.
  - destruct (p i); [|apply IH; auto]. destruct n as [|n]; [lia|]. cbn [firstn fold_left]. rewrite Nat.sub_succ, Nat.sub_0_r.
    destruct n as [|n]; [reflexivity|]. cbn [Nat.eqb]. apply IH. lia.
Qed.

Lemma marks_length : forall idxs sel m, length (fold_left (mark idxs) sel m) = length m.
Proof. intros idxs sel. induction sel as [|i sel IH]; intros m; cbn; auto. rewrite IH. unfold mark. apply upd_length. Qed.

Lemma marks_nth : forall idxs sel m r, r < length m -> (forall i, In i sel -> nth i idxs 0 < length m) ->
  nth r (fold_left (mark idxs) sel m) false = true <-> nth r m false = true \/ exists i, In i sel /\ nth i idxs 0 = r.
Proof.
  intros idxs sel. induction sel as [|i sel IH]; intros m r Hr Hs; cbn [fold_left].
  - split; [auto|]. intros [H|(i & [] & _)]; auto.
  - rewrite IH; [|unfold mark; rewrite upd_length; auto|intros j Hj; unfold mark; rewrite upd_length; apply Hs; right; auto].
    unfold mark. destruct (Nat.eq_dec (nth i idxs 0) r) as [Er|Hn].
    + subst r. rewrite upd_nth_same by auto. split; [|auto]. intros _. right. exists i. split; [left|]; auto.
    + rewrite upd_nth_other by auto. split; intros [H|(j & Hj & Ej)]; auto.
      * right. exists j. split; [right|]; auto.
      * destruct Hj as [<-|Hj]; [contradiction|]. right. exists j; auto.
Qed.

(** ** Positions visited in order *)
Definition dir_lt (later : bool) (i j : nat) : Prop := if later then j < i else i < j.

Lemma seq_sorted : forall n s, StronglySorted lt (seq s n).
Proof.
  induction n as [|n IH]; intros s; cbn; constructor; auto. apply Forall_forall. intros x Hx. apply in_seq in Hx. lia.
Qed.

Lemma ss_app : forall A (R : A -> A -> Prop) l l', StronglySorted R l -> StronglySorted R l' -> (forall x y, In x l -> In y l' -> R x y) -> StronglySorted R (l ++ l').
Proof.
  intros A R l l'. induction l as [|x l IH]; intros H1 H2 H3; cbn; auto. inversion H1; subst. constructor.
  - apply IH; auto. intros; apply H3; auto. right; auto.
  - apply Forall_app. split; auto. apply Forall_forall. intros; apply H3; auto. left; auto.
Qed.

Lemma ss_rev : forall l, StronglySorted lt l -> StronglySorted (fun i j => j < i) (rev l).
Proof.
  induction l as [|x l IH]; intros H; cbn; [constructor|]. inversion H; subst. apply ss_app; auto.
  - constructor; [constructor|]. constructor.
  - intros y z Hy [<-|[]]. rewrite <- in_rev in Hy. rewrite Forall_forall in H3. auto.
Qed.

Lemma ss_filter : forall A (R : A -> A -> Prop) p l, StronglySorted R l -> StronglySorted R (filter p l).
Proof.
  intros A R p l H. induction H as [|x l H IH Hx]; cbn; [constructor|]. destruct (p x); auto. constructor; auto.
  rewrite Forall_forall in *. intros y Hy. apply filter_In in Hy as (Hy & _). auto.
Qed.

Lemma ss_firstn : forall A (R : A -> A -> Prop) l k x y, StronglySorted R l -> In x (firstn k l) -> In y (skipn k l) -> R x y.
Proof.
  intros A R l k x y H. revert k. induction H as [|z l H IH Hz]; intros k Hx Hy.
  - destruct k; destruct Hx.
  - destruct k as [|k]; [destruct Hx|]. cbn in *. destruct Hx as [<-|Hx]; [|eauto].
    rewrite Forall_forall in Hz. apply Hz. rewrite <- (firstn_skipn k l). apply in_or_app; auto.
Qed.

(** The two directions *)
Definition scan_of (later : bool) : list nat -> list nat := if later then @rev nat else (fun ps => ps).

Lemma scan_in : forall later i ps, In i (scan_of later ps) <-> In i ps.
Proof. intros [] i ps; cbn; [symmetry; apply in_rev|tauto]. Qed.
Lemma scan_sorted : forall later n p, StronglySorted (dir_lt later) (filter p (scan_of later (seq 0 n))).
Proof.
  intros later n p. apply ss_filter. destruct later; cbn; [apply ss_rev|]; apply seq_sorted.
Qed.
Lemma scan_nodup : forall later n, NoDup (scan_of later (seq 0 n)).
Proof. intros [] n; cbn; [apply NoDup_rev|]; apply seq_NoDup. Qed.
Lemma scan_count : forall later p n, length (filter p (scan_of later (seq 0 n))) = count p (seq 0 n).
Proof.
  intros [] p n; cbn; auto. apply (count_perm _ p (rev (seq 0 n)) (seq 0 n)). apply Permutation_sym, Permutation_rev.
Qed.

Lemma scan_first : forall later p n k i j, In i (firstn k (filter p (scan_of later (seq 0 n)))) ->
  j < n -> p j = true -> ~ In j (firstn k (filter p (scan_of later (seq 0 n)))) -> dir_lt later i j.
Proof.
  intros later p n k i j Hi Hj Hp Hn. eapply ss_firstn; [apply scan_sorted|exact Hi|].
  assert (Hin : In j (filter p (scan_of later (seq 0 n)))). { apply filter_In. split; auto. apply scan_in, in_seq. lia. }
  rewrite <- (firstn_skipn k) in Hin. apply in_app_or in Hin as [|]; tauto.
Qed.

Lemma in_firstn : forall A k (l : list A) x, In x (firstn k l) -> In x l.
Proof. intros A k l x H. rewrite <- (firstn_skipn k l). apply in_or_app. auto. Qed.

Lemma firstn_nodup : forall A k (l : list A), NoDup l -> NoDup (firstn k l).
Proof.
  intros A k. induction k as [|k IH]; intros [|x l] H; cbn; try constructor; inversion H; subst; auto. intros Hx. apply in_firstn in Hx. auto.
Qed.

Lemma nodup_app : forall A (l l' : list A), NoDup l -> NoDup l' -> (forall x, In x l -> In x l' -> False) -> NoDup (l ++ l').
Proof.
  intros A l l' H1 H2 H3. induction H1 as [|x l Hx H1 IH]; cbn; auto. constructor.
  - rewrite in_app_iff. intros [|Hx']; auto. apply (H3 x); auto. left; auto.
  - apply IH. intros y Hy. apply H3. right; auto.
Qed.

Section Top.
  Context {T : Type} {N : Num T} {L : OrdLaws N}.

  (** ** The pivot *)
  Definition nd (a b : T) : Prop := ltb b a = false.

  Lemma insert_perm : forall x l, Permutation (insert_asc x l) (x :: l).
  Proof.
    intros x l. induction l as [|y l IH]; cbn; auto. destruct (ltb x y); auto.
    eapply perm_trans; [apply perm_skip, IH|apply perm_swap].
  Qed.
  Lemma sort_perm : forall l, Permutation (sort_asc l) l.
  Proof. induction l as [|x l IH]; cbn; auto. eapply perm_trans; [apply insert_perm|auto]. Qed.

  Lemma insert_sorted : forall x l, StronglySorted nd l -> StronglySorted nd (insert_asc x l).
  Proof.
    intros x l H. induction H as [|y l H IH Hy]; cbn; [constructor; constructor|].
    destruct (ltb x y) eqn:E.
    - constructor; [constructor; auto|]. constructor; [apply ol_asym; auto|].
      rewrite Forall_forall in *. intros z Hz. specialize (Hy z Hz). unfold nd in *. destruct (ltb z x) eqn:E2; auto.
      rewrite (ltb_trans z x y) in Hy; auto.
    - constructor; auto. rewrite Forall_forall in *. intros z Hz. apply (Permutation_in _ (insert_perm x l)) in Hz as [<-|Hz]; auto.
  Qed.
  Lemma sort_sorted : forall l, StronglySorted nd (sort_asc l).
  Proof. induction l as [|x l IH]; cbn; [constructor|]. apply insert_sorted; auto. Qed.

  Lemma split_at : forall A (l : list A) k d, k < length l -> l = firstn k l ++ nth k l d :: skipn (S k) l.
  Proof.
    induction l as [|x l IH]; intros k d Hk; cbn in Hk; [lia|]. destruct k as [|k]; cbn; auto. f_equal. apply IH. lia.
  Qed.

  Lemma ss_inv_app : forall A (R : A -> A -> Prop) l1 x l2, StronglySorted R (l1 ++ x :: l2) ->
    (forall y, In y l1 -> R y x) /\ (forall y, In y l2 -> R x y).
  Proof.
    intros A R l1 x l2. induction l1 as [|z l1 IH]; cbn; intros H; inversion H; subst.
    - split; [intros y []|]. rewrite Forall_forall in H3. auto.
    - destruct (IH H2) as (A1 & A2). split; auto. intros y [<-|Hy]; auto. rewrite Forall_forall in H3. apply H3. apply in_or_app. right; left; auto.
  Qed.

  Lemma pivot_counts : forall l k, k < length l ->
    let v := partition_at l k in
    In v l /\ count (fun x => ltb x v) l <= k /\ count (fun x => ltb v x) l <= length l - 1 - k /\
    S k <= count (fun x => negb (ltb v x)) l /\ length l - k <= count (fun x => negb (ltb x v)) l.
  Proof.
    intros l k Hk v. pose proof (sort_perm l) as HP. pose proof (Permutation_length HP) as HL. pose proof (sort_sorted l) as HS.
    assert (Hk' : k < length (sort_asc l)) by lia.
    pose proof (split_at _ (sort_asc l) k nan Hk') as E. fold (partition_at l k) in E. fold v in E.
    assert (L1 : length (firstn k (sort_asc l)) = k) by (rewrite firstn_length; lia).
    assert (L2 : length (skipn (S k) (sort_asc l)) = length l - 1 - k) by (rewrite skipn_length; lia).
    rewrite E in HS. destruct (ss_inv_app _ _ _ _ _ HS) as (B1 & B2).
    assert (Irr : ltb v v = false) by apply ltb_irrefl.
    split. { apply (Permutation_in _ HP). rewrite E. apply in_or_app. right; left; auto. }
    assert (C : forall p, count p l = count p (firstn k (sort_asc l)) + ((if p v then 1 else 0) + count p (skipn (S k) (sort_asc l)))).
    { intros p. rewrite <- (count_perm _ p _ _ HP). rewrite E at 1. rewrite count_app. f_equal. unfold count at 1. cbn [filter]. destruct (p v); cbn; auto. }
    repeat split; rewrite C; rewrite Irr; cbn [negb].
    - rewrite (count_none _ _ (skipn (S k) _)) by (intros; apply B2; auto). pose proof (count_le _ (fun x => ltb x v) (firstn k (sort_asc l))). lia.
    - rewrite (count_none _ _ (firstn k _)) by (intros; apply B1; auto). pose proof (count_le _ (fun x => ltb v x) (skipn (S k) (sort_asc l))). lia.
    - rewrite (count_all _ _ (firstn k _)) by (intros x Hx; pose proof (B1 x Hx) as B; unfold nd in B; rewrite B; auto). lia.
    - rewrite (count_all _ _ (skipn (S k) _)) by (intros x Hx; pose proof (B2 x Hx) as B; unfold nd in B; rewrite B; auto). lia.
  Qed.

  (** ** One column *)
  Definition better_of (later : bool) : T -> T -> bool := if later then gtb else ltb.
  Definition pivot_of (later : bool) (n n_valid : nat) : nat := if later then n_valid - n else n - 1.

  Lemma valid_notnan : forall a : T, eqb a a = negb (isnan a).
  Proof.
    intros a. rewrite ol_eqb, ol_leb. destruct (isnan a) eqn:E; cbn; auto. rewrite ltb_irrefl. reflexivity.
  Qed.

  (** The chosen positions are among the [m] positions, [k] in number and each
      ranks above those not chosen. *)
  Definition chosen (later : bool) (arr : list T) (n : nat) (sel : list nat) : Prop :=
    NoDup sel /\ (forall i, In i sel -> i < length arr) /\ length sel = Nat.min n (length arr) /\
    forall i j, In i sel -> j < length arr -> ~ In j sel ->
      ranks_above (better_of later) later (nth i arr nan) (nth j arr nan) i j.

  Lemma eq_notbetter : forall later (a b : T), isnan a = false -> isnan b = false -> better_of later a b = false -> better_of later b a = false -> eqb a b = true.
  Proof.
    intros later a b Ha Hb H1 H2. rewrite ol_eqb, !ol_leb, Ha, Hb. destruct later; cbn in *; unfold gtb in *; rewrite H1, H2; reflexivity.
  Qed.
  Lemma eq_better : forall later (a b : T), eqb a b = true -> isnan a = false /\ isnan b = false /\ better_of later a b = false /\ better_of later b a = false.
  Proof.
    intros later a b H. rewrite ol_eqb, !ol_leb in H. destruct (isnan a), (isnan b), (ltb b a) eqn:E1, (ltb a b) eqn:E2; cbn in H; try discriminate.
    destruct later; cbn; unfold gtb; rewrite E1, E2; auto.
  Qed.
  Lemma better_irrefl : forall later (a : T), better_of later a a = false.
  Proof. intros [] a; cbn; unfold gtb; apply ltb_irrefl. Qed.
  Lemma better_notnan : forall later (a b : T), better_of later a b = true -> isnan a = false /\ isnan b = false.
  Proof. intros [] a b H; cbn in H; unfold gtb in H; apply ltb_notnan in H; tauto. Qed.
  Lemma better_negtrans : forall later (a b c : T), isnan b = false -> better_of later a b = false -> better_of later b c = false -> better_of later a c = false.
  Proof. intros [] a b c H H1 H2; cbn in *; unfold gtb in *; eapply ol_negtrans; eauto. Qed.
  Lemma better_asym : forall later (a b : T), better_of later a b = true -> better_of later b a = false.
  Proof. intros [] a b H; cbn in *; unfold gtb in *; apply ol_asym; auto. Qed.

  Lemma column_chosen : forall later idxs arr n inout, length idxs = length arr ->
    exists sel, n_inout_map (scan_of later) (better_of later) (pivot_of later n) inout idxs arr n = fold_left (mark idxs) sel inout /\
      chosen later arr n sel.
  Proof.
    intros later idxs arr n inout Hl. unfold n_inout_map.
    destruct (Nat.leb_spec n 0) as [Hn0|Hn0].
    { exists []. split; [reflexivity|]. split; [constructor|]. split; [intros i []|]. split; [cbn; lia|]. intros i j []. }
    destruct (Nat.leb_spec (length arr) n) as [Hnl|Hnl].
    { exists (seq 0 (length arr)). split.
      - rewrite <- Hl. unfold mark. assert (E : idxs = map (fun i => nth i idxs 0) (seq 0 (length idxs))).
        { apply (nth_ext _ _ 0 0); [rewrite map_length, seq_length; auto|]. intros k Hk. rewrite (nth_map_seq _ (fun i => nth i idxs 0)); auto. }
        rewrite E at 1. rewrite fold_left_map. reflexivity.
      - split; [apply seq_NoDup|]. split; [intros i Hi; apply in_seq in Hi; lia|]. split; [rewrite seq_length; lia|].
        intros i j Hi Hj Hn. exfalso. apply Hn, in_seq. lia. }
    set (valid := fun i => eqb (nth i arr nan) (nth i arr nan)).
    assert (Hv : forall i, valid i = negb (isnan (nth i arr nan))) by (intros; apply valid_notnan).
    set (ps := seq 0 (length arr)). set (nv := length (filter valid ps)).
    assert (Hps : length ps = length arr) by (unfold ps; apply seq_length).
    assert (Hnv : nv <= length arr). { unfold nv. pose proof (count_le _ valid ps). unfold count in H. lia. }
    destruct (Nat.eqb_spec nv 0) as [Hz|Hz].
    { (* no numbers at all *)
      assert (Hall : forall i, i < length arr -> isnan (nth i arr nan) = true).
      { intros i Hi. destruct (isnan (nth i arr nan)) eqn:E; auto. exfalso.
        assert (Hin : In i (filter valid ps)) by (apply filter_In; split; [unfold ps; apply in_seq; lia|rewrite Hv, E; auto]).
        unfold nv in Hz. apply length_zero_iff_nil in Hz. rewrite Hz in Hin. destruct Hin. }
      exists (firstn n (filter (fun _ => true) (scan_of later ps))). split; [apply mark_until_fold; lia|].
      split; [apply firstn_nodup, NoDup_filter, scan_nodup|]. split.
      { intros i Hi. apply in_firstn, filter_In in Hi as (Hi & _). apply scan_in, in_seq in Hi. lia. }
      split.
      { rewrite firstn_length. unfold ps. rewrite scan_count, count_all by auto. rewrite seq_length. reflexivity. }
      intros i j Hi Hj Hnj. right; right. assert (Hi' : i < length arr). { apply in_firstn, filter_In in Hi as (Hi & _). apply scan_in, in_seq in Hi. lia. }
      rewrite !Hall by auto. split; [destruct later; cbn; unfold gtb; apply ol_nan_r; auto|]. split; auto.
      apply (scan_first later (fun _ => true) (length arr) n i j); auto. }
    destruct (Nat.ltb_spec nv n) as [Hlt|Hge].
    { (* all numbers and some NaN *)
      set (nans := filter (fun i => neb (nth i arr nan) (nth i arr nan)) (scan_of later ps)).
      exists (filter valid ps ++ firstn (n - nv) nans). split; [rewrite fold_left_app; apply mark_until_fold; lia|].
      assert (Hnan : forall i, neb (nth i arr nan) (nth i arr nan) = isnan (nth i arr nan)).
      { intros i. unfold neb. rewrite valid_notnan, negb_involutive. auto. }
      assert (Hin1 : forall i, In i (filter valid ps) -> i < length arr /\ isnan (nth i arr nan) = false).
      { intros i Hi. apply filter_In in Hi as (A1 & A2). apply in_seq in A1. rewrite Hv in A2. apply negb_true_iff in A2. split; [lia|auto]. }
      assert (Hin2 : forall i, In i (firstn (n - nv) nans) -> i < length arr /\ isnan (nth i arr nan) = true).
      { intros i Hi. apply in_firstn in Hi. unfold nans in Hi. apply filter_In in Hi as (A1 & A2). apply scan_in, in_seq in A1. rewrite Hnan in A2. split; [lia|auto]. }
      split; [apply nodup_app; [apply NoDup_filter, seq_NoDup|apply firstn_nodup, NoDup_filter, scan_nodup|]|].
      { intros x H1 H2. apply Hin1 in H1. apply Hin2 in H2. destruct H1, H2; congruence. }
      split. { intros i Hi. apply in_app_or in Hi as [Hi|Hi]; [apply Hin1|apply Hin2]; auto. }
      split.
      { rewrite app_length, firstn_length. fold nv. unfold nans, ps. rewrite scan_count. fold ps.
        assert (E : length ps = count valid ps + count (fun i => neb (nth i arr nan) (nth i arr nan)) ps).
        { rewrite <- (count_all _ (fun _ => true) ps) by auto. apply count_split.
          - intros x _ H1 H2. rewrite Hv in H1. rewrite Hnan in H2. rewrite H2 in H1. discriminate.
          - intros x _. rewrite Hv, Hnan. destruct (isnan (nth x arr nan)); auto. }
        unfold count at 1 in E. fold nv in E. lia. }
      intros i j Hi Hj Hnj. rewrite in_app_iff in Hnj.
      assert (Hjn : isnan (nth j arr nan) = true).
      { destruct (isnan (nth j arr nan)) eqn:E; auto. exfalso. apply Hnj. left. apply filter_In. split; [apply in_seq; lia|rewrite Hv, E; auto]. }
      apply in_app_or in Hi as [Hi|Hi].
      - right; left. split; auto. apply Hin1; auto.
      - right; right. destruct (Hin2 i Hi) as (A1 & A2). rewrite A2, Hjn. split; [destruct later; cbn; unfold gtb; apply ol_nan_r; auto|]. split; auto.
        apply (scan_first later (fun i => neb (nth i arr nan) (nth i arr nan)) (length arr) (n - nv) i j); auto. rewrite Hnan. auto. }
    (* enough numbers *)
    set (vals := map (fun i => nth i arr nan) (filter valid ps)).
    assert (Hlv : length vals = nv) by (unfold vals; rewrite map_length; auto).
    assert (Hk : pivot_of later n nv < length vals) by (rewrite Hlv; destruct later; cbn; lia).
    pose proof (pivot_counts vals (pivot_of later n nv) Hk) as PC. set (v := partition_at vals (pivot_of later n nv)) in *. cbn zeta in PC.
    destruct PC as (Pin & Pl & Pg & Pnl & Png).
    assert (Hvn : isnan v = false).
    { unfold vals in Pin. apply in_map_iff in Pin as (i & E & Hi). apply filter_In in Hi as (_ & Hi). rewrite Hv in Hi. apply negb_true_iff in Hi. congruence. }
    set (pb := fun i => valid i && better_of later (nth i arr nan) v). set (pe := fun i => valid i && eqb (nth i arr nan) v).
    assert (Cb : count pb ps <= n - 1).
    { assert (E : count pb ps = count (fun x => better_of later x v) vals) by (unfold vals; rewrite count_map, count_filter; reflexivity).
      rewrite E, Hlv in *. destruct later; cbn in *; unfold gtb in *; lia. }
    assert (Cge : n <= count pb ps + count pe ps).
    { assert (E : count (fun x => negb (better_of later v x)) vals = count pb ps + count pe ps).
      { unfold vals. rewrite count_map, count_filter. apply count_split.
        - intros x _ H1 H2. unfold pb, pe in *. apply andb_true_iff in H1 as (_ & H1). apply andb_true_iff in H2 as (_ & H2).
          apply (eq_better later) in H2. destruct H2 as (_ & _ & H2 & _). congruence.
        - intros x _. unfold pb, pe. destruct (valid x) eqn:E1; auto. cbn [andb]. rewrite Hv in E1. apply negb_true_iff in E1.
          destruct (better_of later (nth x arr nan) v) eqn:E2; cbn [orb]; [rewrite better_asym; auto|].
          destruct (better_of later v (nth x arr nan)) eqn:E3; cbn [negb].
          + destruct (eqb (nth x arr nan) v) eqn:E4; auto. apply (eq_better later) in E4. destruct E4 as (_ & _ & _ & E4). congruence.
          + symmetry. apply (eq_notbetter later); auto. }
      rewrite <- E. rewrite Hlv in *. destruct later; cbn in *; unfold gtb in *; lia. }
    fold ps. change (filter (fun i => eqb (nth i arr nan) (nth i arr nan) && better_of later (nth i arr nan) v) ps) with (filter pb ps).
    change (length (filter pb ps)) with (count pb ps). destruct (Nat.leb_spec n (count pb ps)) as [Hx|_]; [lia|].
    set (eqs := filter pe (scan_of later ps)).
    exists (filter pb ps ++ firstn (n - count pb ps) eqs). split; [rewrite fold_left_app; apply mark_until_fold; lia|].
    assert (Hin1 : forall i, In i (filter pb ps) -> i < length arr /\ isnan (nth i arr nan) = false /\ better_of later (nth i arr nan) v = true).
    { intros i Hi. apply filter_In in Hi as (A1 & A2). apply in_seq in A1. unfold pb in A2. rewrite Hv in A2. apply andb_true_iff in A2 as (A2 & A3).
      apply negb_true_iff in A2. split; [lia|auto]. }
    assert (Hin2 : forall i, In i (firstn (n - count pb ps) eqs) -> i < length arr /\ isnan (nth i arr nan) = false /\ eqb (nth i arr nan) v = true).
    { intros i Hi. apply in_firstn in Hi. unfold eqs in Hi. apply filter_In in Hi as (A1 & A2). apply scan_in, in_seq in A1. unfold pe in A2.
      rewrite Hv in A2. apply andb_true_iff in A2 as (A2 & A3). apply negb_true_iff in A2. split; [lia|auto]. }
    split; [apply nodup_app; [apply NoDup_filter, seq_NoDup|apply firstn_nodup, NoDup_filter, scan_nodup|]|].
    { intros x H1 H2. apply Hin1 in H1 as (_ & _ & H1). apply Hin2 in H2 as (_ & _ & H2). apply (eq_better later) in H2. destruct H2 as (_ & _ & H2 & _). congruence. }
    split. { intros i Hi. apply in_app_or in Hi as [Hi|Hi]; [apply Hin1|apply Hin2]; auto. }
    split. { rewrite app_length, firstn_length. unfold eqs, ps. rewrite scan_count. fold ps. fold (count pb ps). lia. }
    intros i j Hi Hj Hnj. rewrite in_app_iff in Hnj.
    assert (Hin : isnan (nth i arr nan) = false) by (apply in_app_or in Hi as [Hi|Hi]; [apply Hin1|apply Hin2]; auto).
    destruct (isnan (nth j arr nan)) eqn:Ej; [right; left; auto|].
    assert (Bj : better_of later (nth j arr nan) v = false).
    { destruct (better_of later (nth j arr nan) v) eqn:E; auto. exfalso. apply Hnj. left. apply filter_In. split; [apply in_seq; lia|].
      unfold pb. rewrite Hv, Ej, E. auto. }
    destruct (eqb (nth j arr nan) v) eqn:Eq.
    - pose proof (eq_better later _ _ Eq) as (_ & _ & E1 & E2). apply in_app_or in Hi as [Hi|Hi].
      + left. destruct (Hin1 i Hi) as (_ & _ & B). destruct (better_of later (nth i arr nan) (nth j arr nan)) eqn:E; auto.
        rewrite (better_negtrans later _ (nth j arr nan) v) in B; auto.
      + right; right. destruct (Hin2 i Hi) as (_ & _ & B). pose proof (eq_better later _ _ B) as (_ & _ & B1 & B2).
        split; [apply (better_negtrans later _ v); auto|]. split; [congruence|].
        apply (scan_first later pe (length arr) (n - count pb ps) i j); auto. unfold pe. rewrite Hv, Ej, Eq. auto.
    - left. assert (Bv : better_of later v (nth j arr nan) = true).
      { destruct (better_of later v (nth j arr nan)) eqn:E; auto. rewrite (eq_notbetter later) in Eq; auto. }
      destruct (better_of later (nth i arr nan) (nth j arr nan)) eqn:E; auto.
      apply in_app_or in Hi as [Hi|Hi].
      + destruct (Hin1 i Hi) as (_ & _ & B). rewrite <- Bv. symmetry. apply (better_negtrans later _ (nth i arr nan)); auto. apply better_asym; auto.
      + destruct (Hin2 i Hi) as (_ & _ & B). apply (eq_better later) in B as (_ & _ & B1 & B2). rewrite <- Bv. symmetry. apply (better_negtrans later _ (nth i arr nan)); auto.
  Qed.

  (** ** All columns *)
  Lemma rows_of_sorted : forall c l, StronglySorted lt (rows_of c l).
  Proof. intros. unfold rows_of. apply ss_filter, seq_sorted. Qed.

  Lemma ss_nth : forall l i j, StronglySorted lt l -> i < j < length l -> nth i l 0 < nth j l 0.
  Proof.
    intros l i j H. revert i j. induction H as [|x l H IH Hx]; intros i j Hij; cbn in Hij; [lia|].
    destruct j as [|j]; [lia|]. destruct i as [|i]; cbn.
    - rewrite Forall_forall in Hx. apply Hx, nth_In. lia.
    - apply IH. lia.
  Qed.

  Definition col_mask (later : bool) (arr : list T) (cm : list nat * list nat) (n : nat) : list bool :=
    mapped_to_mask_nb nan arr cm (fun m idxs col a => n_inout_map (scan_of later) (better_of later) (pivot_of later n) m idxs a n).

  Lemma NoDup_nth_inj : forall (l : list nat) i j, NoDup l -> i < length l -> j < length l -> nth i l 0 = nth j l 0 -> i = j.
  Proof. intros l i j H Hi Hj E. rewrite (NoDup_nth l 0) in H. auto. Qed.

  Lemma mask_invariant : forall later mem col_arr n ncols vals, cols_below ncols col_arr -> length vals = length col_arr ->
    keeps_best (better_of later) later n ncols col_arr vals (col_mask later vals (col_map_nb mem col_arr ncols) n).
  Proof.
    intros later mem col_arr n ncols vals Hb Hl. unfold col_mask, mapped_to_mask_nb. rewrite col_map_ncols by auto.
    (* after the first [k] columns *)
    assert (G : forall k, k <= ncols ->
      let mask := fold_left (fun inout col => if Nat.eqb (col_len (col_map_nb mem col_arr ncols) col) 0 then inout
        else n_inout_map (scan_of later) (better_of later) (pivot_of later n) inout (col_seg (col_map_nb mem col_arr ncols) col)
               (take nan vals (col_seg (col_map_nb mem col_arr ncols) col)) n) (seq 0 k) (repeat false (length vals)) in
      length mask = length vals /\ (forall r, r < length vals -> k <= nth r col_arr 0 -> nth r mask false = false) /\
      forall c, c < k -> exists sel, chosen later (values_of nan c col_arr vals) n sel /\
        forall r, In r (rows_of c col_arr) -> (nth r mask false = true <-> exists i, In i sel /\ nth i (rows_of c col_arr) 0 = r)).
    { induction k as [|k IH]; intros Hk mask.
      - unfold mask. cbn. split; [apply repeat_length|]. split; [|intros c Hc; lia]. intros r Hr _. apply nth_repeat.
      - destruct IH as (I1 & I2 & I3); [lia|]. unfold mask. rewrite seq_S, fold_left_app. cbn [fold_left Nat.add].
        set (m0 := fold_left _ (seq 0 k) _) in *. clearbody m0. rewrite col_map_len, col_map_seg by (auto; lia).
        set (rows := rows_of k col_arr).
        assert (Hrow : forall r, In r rows <-> r < length vals /\ nth r col_arr 0 = k) by (intros; unfold rows; rewrite rows_of_in, Hl; tauto).
        fold (values_of nan k col_arr vals). change (take nan vals rows) with (values_of nan k col_arr vals).
        assert (Hsel : exists sel, (if Nat.eqb (length rows) 0 then m0 else
            n_inout_map (scan_of later) (better_of later) (pivot_of later n) m0 rows (values_of nan k col_arr vals) n) = fold_left (mark rows) sel m0 /\
            chosen later (values_of nan k col_arr vals) n sel).
        { assert (Hlen : length rows = length (values_of nan k col_arr vals)) by (rewrite values_of_length; auto).
          destruct (Nat.eqb_spec (length rows) 0) as [E|_]; [|apply column_chosen; auto].
          exists []. split; [reflexivity|]. rewrite E in Hlen. split; [constructor|]. split; [intros i []|]. split; [cbn; lia|intros i j []]. }
        destruct Hsel as (sel & -> & Hch). pose proof Hch as (Hch1 & Hch2 & _). rewrite values_of_length in Hch2. fold rows in Hch2.
        assert (Hbnd : forall i, In i sel -> nth i rows 0 < length m0).
        { intros i Hi. rewrite I1. apply Hrow. apply nth_In, Hch2. auto. }
        assert (Hcol : forall i, In i sel -> nth (nth i rows 0) col_arr 0 = k).
        { intros i Hi. apply Hrow. apply nth_In, Hch2. auto. }
        split; [rewrite marks_length; auto|]. split.
        + intros r Hr Hc. destruct (nth r (fold_left (mark rows) sel m0) false) eqn:E; auto. apply marks_nth in E; [|lia|auto].
          destruct E as [E|(i & Hi & E)]; [rewrite I2 in E; auto; lia|]. specialize (Hcol i Hi). rewrite E in Hcol. lia.
        + intros c Hc. destruct (Nat.eq_dec c k) as [->|Hne].
          * exists sel. split; auto. intros r Hr. fold rows in Hr |- *. rewrite marks_nth; [|apply Hrow in Hr; lia|auto].
            rewrite I2 by (apply Hrow in Hr; lia). split; [intros [|]; [discriminate|auto]|auto].
          * destruct (I3 c) as (sel' & C1 & C2); [lia|]. exists sel'. split; auto. intros r Hr. rewrite <- C2 by auto.
            apply rows_of_in in Hr as (Hr1 & Hr2). rewrite marks_nth by (auto; lia). split; [|auto]. intros [|(i & Hi & E)]; auto.
            specialize (Hcol i Hi). rewrite E in Hcol. lia. }
    destruct (G ncols (le_n _)) as (G1 & _ & G3). split; [exact G1|]. intros c Hc. destruct (G3 c Hc) as (sel & (C1 & C2 & C3 & C4) & C5). clear G G1 G3.
    set (mask := fold_left _ _ _) in *. clearbody mask. rewrite values_of_length in C2, C3, C4. set (rows := rows_of c col_arr) in *.
    assert (HN : NoDup rows) by apply rows_of_nodup.
    assert (Hpos : forall r, In r rows -> exists i, i < length rows /\ nth i rows 0 = r) by (intros r Hr; apply In_nth; auto).
    split.
    - rewrite <- C3. symmetry. rewrite <- (map_length (fun i => nth i rows 0) sel). apply Permutation_length, NoDup_Permutation.
      + assert (F : forall l, NoDup l -> (forall i, In i l -> i < length rows) -> NoDup (map (fun i => nth i rows 0) l)).
        { clear - HN. induction l as [|i l IH]; intros H1 H2; cbn; [constructor|]. inversion H1; subst. constructor.
          - intros Hi. apply in_map_iff in Hi as (j & E & Hj). apply NoDup_nth_inj in E; auto; [subst; auto|apply H2; right; auto|apply H2; left; auto].
          - apply IH; auto. intros; apply H2; right; auto. }
        apply F; auto.
      + apply NoDup_filter; auto.
      + intros r. rewrite in_map_iff, filter_In. split.
        * intros (i & E & Hi). assert (Hr : In r rows) by (rewrite <- E; apply nth_In; auto). split; auto. apply C5; auto. exists i; auto.
        * intros (Hr & E). apply C5 in E as (i & Hi & E); auto. exists i; auto.
    - intros r r' Hr Hr' M1 M2. apply C5 in M1 as (i & Hi & Ei); auto.
      destruct (Hpos r' Hr') as (j & Hj & Ej).
      assert (Hnj : ~ In j sel). { intros Hin. assert (X : nth r' mask false = true) by (apply C5; auto; exists j; auto). congruence. }
      specialize (C4 i j Hi Hj Hnj). unfold values_of in C4. fold rows in C4.
      assert (V : forall k, k < length rows -> nth k (map (fun r => nth r vals nan) rows) nan = nth (nth k rows 0) vals nan).
      { intros k Hk. rewrite (nth_indep _ nan (nth 0 vals nan)) by (rewrite map_length; auto). apply (map_nth (fun r => nth r vals nan)). }
      rewrite !V in C4 by auto. rewrite Ei, Ej in C4.
      destruct C4 as [C|[C|(C & C' & C'')]]; [left; auto|right; left; auto|]. right; right. split; auto. split; auto.
      pose proof (rows_of_sorted c col_arr) as HS. fold rows in HS. specialize (C2 i Hi). subst r r'.
      destruct later; apply ss_nth; auto.
  Qed.
End Top.
