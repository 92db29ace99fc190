(** * Lemmas on ranks (C36) and ranges (C38) *)
From Coq Require Import ZArith Bool List Arith Lia Sorting.
From Verif Require Import Base Num SignalsNb SignalsSpec SignalsLemmas SignalsLemmas2.
Import ListNotations.
Open Scope list_scope.
Open Scope nat_scope.

(** ** Ranks *)

(** A rank function only looks at two facts: whether this is the first signal
    since the last reset, and whether it begins a run. *)
Definition by_facts (f : Z -> Z -> Z -> Z -> Z -> Z * Z) (g : bool -> bool -> Z -> Z) : Prop :=
  forall s i r pe ps,
    f s i r pe ps = let s' := g ((pe <? r) && (Z.max r ps =? i))%Z (ps =? i)%Z s in (s', s').

  Lemma count_step : forall (p : nat -> bool) lo i, lo <= i -> count_in p lo (S i) = count_in p lo i + (if p i then 1 else 0).
  Proof.
    intros p lo i H. unfold count_in. replace (S i - lo) with (S (i - lo)) by lia.
    rewrite seq_S, filter_app, app_length. replace (lo + (i - lo)) with i by lia. cbn. destruct (p i); auto.
  Qed.
  Lemma count_self : forall (p : nat -> bool) i, count_in p i i = 0.
  Proof. intros. unfold count_in. rewrite Nat.sub_diag. auto. Qed.

Lemma last_reset_le : forall q i, last_reset q i <= i.
Proof. intros q. induction i as [|i IH]; cbn [last_reset]; destruct (nth _ q false); lia. Qed.
Lemma run_start_le : forall c i, run_start c i <= i.
Proof. intros c. induction i as [|i IH]; cbn [run_start]; [lia|]. destruct (c i); lia. Qed.

Section Rank.
  Context (a q : list bool) (af : bool) (Hlen : length q = length a).
  Context (f : Z -> Z -> Z -> Z -> Z -> Z * Z) (g : bool -> bool -> Z -> Z) (Hf : by_facts f g).

  Notation c := (counts a af).

  Definition fresh (i : nat) : bool := Nat.eqb (count_in c (last_reset q i) i) 0.
  Definition newrun (i : nat) : bool := Nat.eqb (run_start c i) i.

  (** The state before bar [i] *)
  Fixpoint state (i : nat) : Z :=
    match i with
    | O => (-1)%Z
    | S j => if c j then g (fresh j) (newrun j) (state j) else state j
    end.

  Definition last_reset_before (i : nat) : nat := match i with O => O | S j => last_reset q j end.


  Lemma last_reset_step : forall i, last_reset q i = if nth i q false then i else last_reset_before i.
  Proof. intros [|i]; reflexivity. Qed.


  Lemma run_start_all : forall i j, run_start c i <= j < i -> c j = true.
  Proof.
    induction i as [|i IH]; intros j H; cbn [run_start] in H; [lia|]. destruct (c i) eqn:E; [|lia].
    destruct (Nat.eq_dec j i) as [->|]; auto. apply IH. lia.
  Qed.

  Lemma run_start_prev : forall i, run_start c i = 0 \/ c (run_start c i - 1) = false.
  Proof.
    induction i as [|i IH]; cbn [run_start]; auto. destruct (c i) eqn:E; auto. right.
    replace (S i - 1) with i by lia. auto.
  Qed.

  Lemma count_zero : forall lo hi, count_in c lo hi = 0 <-> forall j, lo <= j < hi -> c j = false.
  Proof.
    intros lo hi. unfold count_in. rewrite length_zero_iff_nil. split.
    - intros H j Hj. destruct (c j) eqn:E; auto. exfalso.
      assert (In j (filter c (seq lo (hi - lo)))) as F by (apply filter_In; split; auto; apply in_seq; lia).
      rewrite H in F. destruct F.
    - intros H. destruct (filter c (seq lo (hi - lo))) as [|j l] eqn:E; auto. exfalso.
      assert (In j (filter c (seq lo (hi - lo)))) as F by (rewrite E; cbn; auto).
      apply filter_In in F as [F1 F2]. apply in_seq in F1. rewrite H in F2; [discriminate|lia].
  Qed.

  (** What the loop knows before bar [i] *)
  Definition knows (i : nat) (reset_i prev_end part_start : Z) (in_part false_seen : bool) : Prop :=
    reset_i = Z.of_nat (last_reset_before i) /\
    in_part = negb (Nat.eqb (run_start c i) i) /\
    (in_part = true -> part_start = Z.of_nat (run_start c i)) /\
    (-1 <= prev_end < Z.of_nat i)%Z /\
    (0 <= prev_end -> c (Z.to_nat prev_end) = true)%Z /\
    (forall j, (prev_end < Z.of_nat j)%Z -> j < run_start c i -> c j = false) /\
    (prev_end < Z.of_nat (run_start c i))%Z /\
    false_seen = (negb af || existsb (fun j => negb (nth j a false)) (seq 0 i)).

  Lemma existsb_S : forall (p : nat -> bool) i, existsb p (seq 0 (S i)) = existsb p (seq 0 i) || p i.
  Proof. intros p i. rewrite seq_S, existsb_app. cbn. rewrite orb_false_r. reflexivity. Qed.

  Lemma run_start_lt : forall i, run_start c i < i -> 0 < i /\ c (i - 1) = true.
  Proof. intros i H. split; [lia|]. apply (run_start_all i). lia. Qed.

  Lemma cond_fresh : forall i reset_i prev_end part_start in_part fs,
    knows i reset_i prev_end part_start in_part fs ->
    ((prev_end <? Z.of_nat (last_reset q i)) && (Z.max (Z.of_nat (last_reset q i)) (Z.of_nat (run_start c i)) =? Z.of_nat i))%Z = fresh i.
  Proof.
    intros i reset_i prev_end part_start in_part fs (K1 & K2 & K3 & K4 & K5 & K6 & K7 & K8).
    pose proof (last_reset_le q i) as Hr. pose proof (run_start_le c i) as Hp.
    apply eq_true_iff_eq. unfold fresh. rewrite andb_true_iff, Z.ltb_lt, Z.eqb_eq, Nat.eqb_eq, count_zero. split.
    - intros [A B] j Hj. destruct (Nat.eq_dec (run_start c i) i) as [E|E].
      + apply K6; lia.
      + lia.
    - intros H. split.
      + destruct (Z.lt_ge_cases prev_end (Z.of_nat (last_reset q i))) as [|C]; auto. exfalso.
        assert (F : c (Z.to_nat prev_end) = true) by (apply K5; lia). rewrite H in F; [discriminate|lia].
      + destruct (Nat.eq_dec (last_reset q i) i) as [E|E]; [lia|].
        destruct (Nat.eq_dec (run_start c i) i) as [E'|E']; [lia|]. exfalso.
        destruct (run_start_lt i) as [A B]; [lia|]. rewrite H in B; [discriminate|lia].
  Qed.

  Lemma skipn_combine_cons : forall i, i < length a ->
    skipn i (combine a q) = (nth i a false, nth i q false) :: skipn (S i) (combine a q).
  Proof.
    intros i Hi. assert (Hl : i < length (combine a q)) by (rewrite combine_length; lia).
    destruct (nth_error (combine a q) i) as [[x y]|] eqn:E; [|apply nth_error_None in E; lia].
    rewrite <- (combine_nth a q i false false (eq_sym Hlen)). rewrite (nth_error_nth _ _ _ E).
    clear - E. revert i E. induction (combine a q) as [|z l IH]; intros [|i] E; try discriminate.
    - cbn in E. injection E as ->. reflexivity.
    - cbn [skipn]. cbn in E. apply IH in E. rewrite E. reflexivity.
  Qed.

  Lemma rank_loop_spec : forall m i reset_i prev_end part_start in_part fs, i + m = length a ->
    knows i reset_i prev_end part_start in_part fs ->
    rank_loop f (Z.of_nat i) reset_i prev_end part_start in_part af fs (state i) (skipn i (combine a q))
    = map (fun j => if c j then state (S j) else (-1)%Z) (seq i m).
  Proof.
    induction m as [|m IH]; intros i reset_i prev_end part_start in_part fs Hm K.
    - rewrite skipn_all2; [reflexivity|]. rewrite combine_length. lia.
    - rewrite skipn_combine_cons by lia. cbn [rank_loop seq map].
      pose proof (cond_fresh _ _ _ _ _ _ K) as Hc.
      pose proof (last_reset_step i) as Hr. pose proof (run_start_le c i) as Hp.
      destruct K as (K1 & K2 & K3 & K4 & K5 & K6 & K7 & K8).
      replace (if nth i q false then Z.of_nat i else reset_i) with (Z.of_nat (last_reset q i))
        by (rewrite Hr, K1; destruct (nth i q false); auto).
      assert (Ec : nth i a false && negb (af && negb fs) = c i).
      { unfold counts. rewrite K8. destruct (nth i a false), af; cbn; auto. rewrite negb_involutive. auto. }
      rewrite Ec. replace (Z.of_nat i + 1)%Z with (Z.of_nat (S i)) by lia.
      destruct (c i) eqn:Ei.
      + replace (if in_part then part_start else Z.of_nat i) with (Z.of_nat (run_start c i)).
        2:{ destruct in_part; [rewrite K3; auto|]. symmetry in K2. apply negb_false_iff, Nat.eqb_eq in K2. rewrite K2. auto. }
        rewrite Hf. cbn zeta. rewrite Hc.
        replace (Z.of_nat (run_start c i) =? Z.of_nat i)%Z with (newrun i).
        2:{ unfold newrun. apply eq_true_iff_eq. rewrite Nat.eqb_eq, Z.eqb_eq. lia. }
        replace (g (fresh i) (newrun i) (state i)) with (state (S i)) by (cbn [state]; rewrite Ei; auto).
        f_equal. apply IH; [lia|].
        assert (Er : run_start c (S i) = run_start c i) by (cbn [run_start]; rewrite Ei; auto).
        unfold knows. rewrite Er. repeat split; auto; try lia.
        * symmetry. apply negb_true_iff, Nat.eqb_neq. lia.
        * rewrite K8, existsb_S. assert (nth i a false = true) as -> by (apply andb_true_iff in Ec; apply Ec). cbn. rewrite orb_false_r. auto.
      + assert (Er : run_start c (S i) = S i) by (cbn [run_start]; rewrite Ei; auto).
        assert (Es : state (S i) = state i) by (cbn [state]; rewrite Ei; auto).
        destruct (nth i a false) eqn:Ex; cbn [negb].
        * (* true, but no false seen *)
          rewrite <- Es. f_equal. apply IH; [lia|].
          cbn [andb] in Ec. apply negb_false_iff, andb_true_iff in Ec as [Ea Ef]. apply negb_true_iff in Ef.
          rewrite Ea in K8. cbn [negb orb] in K8. rewrite Ef in K8. symmetry in K8.
          assert (Hno : forall j, j <= i -> c j = false).
          { intros j Hj. destruct (c j) eqn:Ej; auto. exfalso. unfold counts in Ej. apply andb_true_iff in Ej as [_ Ej].
            rewrite Ea in Ej. cbn in Ej. apply existsb_exists in Ej as (j' & J1 & J2). apply in_seq in J1.
            enough (existsb (fun j => negb (nth j a false)) (seq 0 i) = true) by congruence.
            apply existsb_exists. exists j'. split; auto. apply in_seq. lia. }
          assert (Ers : run_start c i = i).
          { destruct (Nat.eq_dec (run_start c i) i); auto. destruct (run_start_lt i) as [A B]; [lia|]. rewrite Hno in B; [discriminate|lia]. }
          unfold knows. rewrite Er. repeat split; auto; try lia.
          -- rewrite Nat.eqb_refl. rewrite K2, Ers, Nat.eqb_refl. auto.
          -- intros ->. rewrite Ers, Nat.eqb_refl in K2. discriminate.
          -- intros j J1 J2. apply Hno. lia.
          -- rewrite existsb_S, Ex, K8, Ea, Ef. auto.
        * rewrite <- Es. f_equal. apply IH; [lia|]. unfold knows. rewrite Er.
          destruct in_part.
          -- symmetry in K2. apply negb_true_iff, Nat.eqb_neq in K2. destruct (run_start_lt i) as [A B]; [lia|].
             repeat split; auto; try lia.
             ++ rewrite Nat.eqb_refl. auto.
             ++ intros _. replace (Z.to_nat (Z.of_nat i - 1)) with (i - 1) by lia. auto.
             ++ intros j J1 J2. replace j with i by lia. auto.
             ++ rewrite existsb_S, Ex. cbn. rewrite !orb_true_r. auto.
          -- symmetry in K2. apply negb_false_iff, Nat.eqb_eq in K2. repeat split; auto; try lia.
             ++ rewrite Nat.eqb_refl. auto.
             ++ intros j J1 J2. destruct (Nat.eq_dec j i) as [->|]; auto. apply K6; auto. lia.
             ++ rewrite existsb_S, Ex. cbn. rewrite !orb_true_r. auto.
  Qed.

  Lemma rank_spec : rank_nb f a q af (-1)%Z = map (fun j => if c j then state (S j) else (-1)%Z) (seq 0 (length a)).
  Proof.
    unfold rank_nb. change 0%Z with (Z.of_nat 0) at 1. change (-1)%Z with (state 0) at 3.
    apply (rank_loop_spec (length a) 0); auto. unfold knows. cbn [last_reset_before run_start].
    repeat split; auto; try lia; try discriminate. destruct af; reflexivity.
  Qed.

  Lemma last_reset_before_le : forall i, last_reset_before i <= i.
  Proof. intros [|i]; cbn; auto. pose proof (last_reset_le q i). lia. Qed.

  (** *** Position in the whole array *)
  Lemma state_gaps : (forall fr nr s, g fr nr s = if fr then 0 else s + 1)%Z ->
    forall i, 0 < count_in c (last_reset_before i) i -> state i = (Z.of_nat (count_in c (last_reset_before i) i) - 1)%Z.
  Proof.
    intros Hg. induction i as [|i IH]; intros H; [cbn in H; lia|].
    cbn [last_reset_before] in *. pose proof (last_reset_le q i) as Hle. cbn [state].
    rewrite count_step in * by auto. unfold fresh. rewrite Hg. destruct (c i) eqn:E.
    - destruct (Nat.eqb_spec (count_in c (last_reset q i) i) 0) as [->|Hn]; [lia|].
      rewrite last_reset_step in *. destruct (nth i q false); [rewrite count_self in Hn; lia|]. rewrite IH by lia. lia.
    - rewrite last_reset_step in *. destruct (nth i q false); [rewrite count_self in H; lia|]. rewrite IH by lia. lia.
  Qed.

  (** *** Position in the partition *)
  Lemma state_nogaps : (forall fr nr s, g fr nr s = if fr || nr then 0 else s + 1)%Z ->
    forall i, run_start c i < i -> state i = (Z.of_nat i - 1 - Z.of_nat (Nat.max (last_reset_before i) (run_start c i)))%Z.
  Proof.
    intros Hg. induction i as [|i IH]; intros H; [lia|].
    cbn [last_reset_before run_start] in *. destruct (c i) eqn:E; [|lia].
    pose proof (last_reset_le q i) as Hle. pose proof (run_start_le c i) as Hrs. cbn [state]. rewrite E, Hg. unfold fresh, newrun.
    destruct (Nat.eqb_spec (run_start c i) i) as [Er|Er]; [rewrite orb_true_r; lia|]. rewrite orb_false_r.
    destruct (Nat.eqb_spec (count_in c (last_reset q i) i) 0) as [Ef|Ef].
    - destruct (Nat.eq_dec (last_reset q i) i) as [El|El]; [lia|].
      destruct (run_start_lt i) as [A B]; [lia|]. rewrite count_zero in Ef. rewrite Ef in B; [discriminate|lia].
    - rewrite last_reset_step in *. destruct (nth i q false); [rewrite count_self in Ef; lia|]. rewrite IH by lia.
      pose proof (last_reset_before_le i). lia.
  Qed.

  (** *** Number of the partition *)
  Lemma state_parts : (forall fr nr s, g fr nr s = if fr then 0 else if nr then s + 1 else s)%Z ->
    forall i, 0 < count_in c (last_reset_before i) i ->
    state i = (Z.of_nat (count_in (begins c (last_reset_before i)) (last_reset_before i) i) - 1)%Z.
  Proof.
    intros Hg. assert (Hfree : forall lo i, count_in c lo i = 0 -> count_in (begins c lo) lo i = 0).
    { intros lo i H. rewrite count_zero in H. unfold count_in. apply length_zero_iff_nil.
      destruct (filter (begins c lo) (seq lo (i - lo))) as [|j l] eqn:E; auto. exfalso.
      assert (In j (filter (begins c lo) (seq lo (i - lo)))) as F by (rewrite E; cbn; auto).
      apply filter_In in F as [F1 F2]. apply in_seq in F1. unfold begins in F2. rewrite H in F2; [discriminate|lia]. }
    induction i as [|i IH]; intros H; [cbn in H; lia|].
    cbn [last_reset_before] in *. pose proof (last_reset_le q i) as Hle. cbn [state].
    rewrite count_step in * by auto. unfold fresh, newrun. rewrite Hg. unfold begins at 2. destruct (c i) eqn:E.
    - destruct (Nat.eqb_spec (count_in c (last_reset q i) i) 0) as [Ef|Hn].
      + rewrite Hfree by auto. cbn [andb].
        destruct (Nat.eqb_spec i (last_reset q i)) as [|El]; cbn [orb]; [lia|].
        rewrite count_zero in Ef. rewrite (Ef (i - 1)) by lia. cbn. lia.
      + cbn [andb].
        assert (Ei : i <> last_reset q i). { intros C. rewrite <- C, count_self in Hn. lia. }
        rewrite (proj2 (Nat.eqb_neq i _)) by auto. cbn [orb].
        assert (En : Nat.eqb (run_start c i) i = negb (c (i - 1))).
        { destruct i as [|i']; [lia|]. replace (S i' - 1) with i' by lia. cbn [run_start].
          destruct (c i') eqn:E'; cbn [negb]; [|apply Nat.eqb_refl]. apply Nat.eqb_neq. pose proof (run_start_le c i'). lia. }
        rewrite En. rewrite last_reset_step in *. destruct (nth i q false); [lia|]. rewrite IH by lia.
        destruct (negb (c (i - 1))); lia.
    - cbn [andb]. rewrite last_reset_step in *. destruct (nth i q false); [rewrite count_self in H; lia|]. rewrite IH by lia. lia.
  Qed.
End Rank.

Lemma nth_map_seq : forall {B} (F : nat -> B) n i d, i < n -> nth i (map F (seq 0 n)) d = F i.
Proof.
  intros B F n i d H. rewrite (nth_indep _ d (F 0)) by (rewrite map_length, seq_length; auto).
  rewrite map_nth, seq_nth by auto. reflexivity.
Qed.

Lemma sig_by_facts : forall ag, by_facts (sig_pos_rank_nb ag) (fun fr nr s => if fr || (negb ag && nr) then 0 else s + 1)%Z.
Proof.
  intros ag s i r pe ps. unfold sig_pos_rank_nb. cbn zeta.
  destruct (_ && _)%bool; [reflexivity|]. destruct (negb ag && _)%bool; reflexivity.
Qed.
Lemma part_by_facts : by_facts part_pos_rank_nb (fun fr nr s => if fr then 0 else if nr then s + 1 else s)%Z.
Proof. intros s i r pe ps. reflexivity. Qed.

(** The ranks, bar by bar *)
Lemma sig_rank_gaps : forall a q af i, length q = length a -> i < length a ->
  nth i (rank_nb (sig_pos_rank_nb true) a q af (-1)%Z) (-1)%Z =
  if counts a af i then Z.of_nat (count_in (counts a af) (last_reset q i) i) else (-1)%Z.
Proof.
  intros a q af i Hl Hi. rewrite (rank_spec a q af Hl _ _ (sig_by_facts true)), nth_map_seq by auto.
  destruct (counts a af i) eqn:E; auto.
  rewrite (state_gaps a q af Hl); [|intros [] [] s; reflexivity|]; cbn [last_reset_before];
    rewrite count_step, E by apply last_reset_le; lia.
Qed.

Lemma sig_rank_nogaps : forall a q af i, length q = length a -> i < length a ->
  nth i (rank_nb (sig_pos_rank_nb false) a q af (-1)%Z) (-1)%Z =
  if counts a af i then Z.of_nat (i - Nat.max (last_reset q i) (run_start (counts a af) i)) else (-1)%Z.
Proof.
  intros a q af i Hl Hi. rewrite (rank_spec a q af Hl _ _ (sig_by_facts false)), nth_map_seq by auto.
  destruct (counts a af i) eqn:E; auto.
  pose proof (last_reset_le q i). pose proof (run_start_le (counts a af) i).
  assert (Er : run_start (counts a af) (S i) = run_start (counts a af) i) by (cbn [run_start]; rewrite E; auto).
  rewrite (state_nogaps a q af Hl); [|intros [] [] s; reflexivity|]; rewrite Er; cbn [last_reset_before]; lia.
Qed.

Lemma part_rank : forall a q af i, length q = length a -> i < length a ->
  nth i (rank_nb part_pos_rank_nb a q af (-1)%Z) (-1)%Z =
  if counts a af i then (Z.of_nat (count_in (begins (counts a af) (last_reset q i)) (last_reset q i) (S i)) - 1)%Z else (-1)%Z.
Proof.
  intros a q af i Hl Hi. rewrite (rank_spec a q af Hl _ _ part_by_facts), nth_map_seq by auto.
  destruct (counts a af i) eqn:E; auto.
  rewrite (state_parts a q af Hl); [reflexivity|intros [] [] s; reflexivity|]. cbn [last_reset_before].
  rewrite count_step, E by apply last_reset_le. lia.
Qed.
