(** * Lemmas about the statistics of columns: Numba *)
From Coq Require Import ZArith QArith Qabs Qround Bool List Arith Lia Lqa Sorting Permutation.
From Verif Require Import Base Num XQFacts OrdLaws GenericNb GenericSpec GenericLemmas GenericLemmas2
  ReturnsNb ReturnsSpec ReturnsLemmas ReturnsLemmas2 ReturnsLemmas3 ReturnsLemmas4 Reduce RustGeneric RatiosSpec RatiosLemmas Describe DescribeSpec.
Import ListNotations.
Local Open Scope nat_scope.

Lemma numbers_vals : forall l, no_infinity l -> numbers l = map Fin (vals l).
Proof. exact drop_nan_vals. Qed.

Lemma sum_run : forall l c, no_infinity l -> exists y, sum_reduce_nb c l = Ok y /\ is_number y (sum (vals l)).
Proof.
  intros l c H. unfold sum_reduce_nb. eexists. split; [reflexivity|]. change zero with (Fin 0).
  destruct (nansum_fold l 0 H) as (s & -> & Hs). exists s. split; [reflexivity|]. rewrite Hs. ring.
Qed.
Lemma prod_fold : forall l c, no_infinity l ->
  exists s, fold_left (fun c v => if isnan v then c else mul c v) l (Fin c) = Fin s /\ (s == c * product (vals l))%Q.
Proof.
  induction l as [|x l IH]; intros c H.
  - exists c. split; [reflexivity|]. cbn [vals product]. ring.
  - destruct (no_inf_hd _ _ H) as [->|[q ->]]; apply no_inf_cons in H; cbn [fold_left isnan XQnum xq_isnan].
    + destruct (IH c H) as (s & E & Hs). exists s. split; [exact E|exact Hs].
    + change (mul (Fin c) (Fin q)) with (Fin (Qred (c * q))). destruct (IH (Qred (c * q)) H) as (s & E & Hs). exists s. split; [exact E|].
      rewrite Hs, Qred_correct. cbn [vals product]. ring.
Qed.
Lemma prod_run : forall l, no_infinity l -> is_number (np_nanprod l) (product (vals l)).
Proof.
  intros l H. unfold np_nanprod. change one with (Fin 1). destruct (prod_fold l 1 H) as (s & -> & Hs).
  exists s. split; [reflexivity|]. rewrite Hs. ring.
Qed.

(** A running fold is the fold of the part so far. *)
Lemma scan_fold : forall A B (f : B -> A -> B) l k s i, i < length l ->
  nth_error (scan (fun _ s x => let s' := f s x in (s', s')) k s l) i = Some (fold_left f (firstn (S i) l) s).
Proof.
  intros A B f. induction l as [|x l IH]; intros k s i Hi; cbn [length] in Hi; [lia|]. cbn [scan]. cbv zeta.
  destruct i as [|i]; [reflexivity|]. cbn [nth_error]. rewrite IH by lia. reflexivity.
Qed.
Lemma scan_len : forall S A B (f : nat -> S -> A -> S * B) l k s, length (scan f k s l) = length l.
Proof. intros S A B f. induction l as [|x l IH]; intros; cbn [scan]; auto. destruct (f k s x). cbn [length]. f_equal. apply IH. Qed.
Lemma no_inf_firstn : forall n l, no_infinity l -> no_infinity (firstn n l).
Proof. intros n l H x Hx. apply H. rewrite <- (firstn_skipn n l). apply in_or_app. now left. Qed.

Lemma cumsum_run : forall l i, no_infinity l -> i < length l ->
  exists y, nth_error (Describe.nancumsum l) i = Some y /\ is_number y (sum (vals (firstn (S i) l))).
Proof.
  intros l i H Hi. unfold Describe.nancumsum. rewrite (scan_fold _ _ (fun s x => if isnan x then s else add s x)) by exact Hi.
  eexists. split; [reflexivity|]. change zero with (Fin 0). destruct (nansum_fold _ 0 (no_inf_firstn (S i) l H)) as (s & -> & Hs).
  exists s. split; [reflexivity|]. rewrite Hs. ring.
Qed.
Lemma cumprod_run : forall l i, no_infinity l -> i < length l ->
  exists y, nth_error (nancumprod l) i = Some y /\ is_number y (product (vals (firstn (S i) l))).
Proof.
  intros l i H Hi. unfold nancumprod. rewrite (scan_fold _ _ (fun s x => if isnan x then s else mul s x)) by exact Hi.
  eexists. split; [reflexivity|]. change one with (Fin 1). destruct (prod_fold _ 1 (no_inf_firstn (S i) l H)) as (s & -> & Hs).
  exists s. split; [reflexivity|]. rewrite Hs. ring.
Qed.

(** ** Order *)
Lemma qsort_len : forall l, length (qsort l) = length l.
Proof. intros l. symmetry. apply Permutation_length, qsort_perm. Qed.
Lemma qsort_in_order : forall l, in_order (qsort l) l.
Proof.
  intros l. split; [apply qsort_perm|]. intros i j Hij Hj.
  assert (Hi : i < length (qsort l)) by lia.
  eapply sorted_nth; [apply qsort_sorted|exact Hij|apply nth_error_nth'; exact Hi|apply nth_error_nth'; exact Hj].
Qed.
Lemma nth_fin : forall l k, k < length l -> nth k (map Fin l) nan = Fin (nth k l 0%Q).
Proof. intros l k H. rewrite (nth_indep _ nan (Fin 0)) by now rewrite map_length. apply map_nth. Qed.

Definition qmedian (s : list Q) : Q :=
  let n := length s in
  if Nat.even n then ((nth (n / 2 - 1) s 0 + nth (n / 2) s 0) / 2)%Q else nth (n / 2) s 0%Q.
Lemma qmedian_ok : forall l, is_median l (qmedian (qsort l)).
Proof.
  intros l. exists (qsort l). split; [apply qsort_in_order|]. intros k. unfold qmedian. rewrite qsort_len.
  split; intros E; rewrite E.
  - replace (Nat.even (2 * k + 1)) with false.
    2:{ symmetry. replace (2 * k + 1) with (S (2 * k)) by lia. rewrite Nat.even_succ. rewrite <- Nat.negb_even, Nat.even_mul. reflexivity. }
    replace ((2 * k + 1) / 2) with k; [reflexivity|]. apply (Nat.div_unique (2 * k + 1) 2 k 1); lia.
  - replace (Nat.even (2 * k + 2)) with true.
    2:{ symmetry. replace (2 * k + 2) with (2 * (k + 1)) by lia. rewrite Nat.even_mul. reflexivity. }
    replace ((2 * k + 2) / 2) with (k + 1); [|apply (Nat.div_unique (2 * k + 2) 2 (k + 1) 0); lia].
    replace (k + 1 - 1) with k by lia. reflexivity.
Qed.

Lemma median_run : forall l, no_infinity l ->
  (vals l = [] -> np_nanmedian l = NaN) /\ (vals l <> [] -> is_number (np_nanmedian l) (qmedian (qsort (vals l)))).
Proof.
  intros l H. unfold np_nanmedian. rewrite numbers_vals by exact H. rewrite sort_fin, map_length, qsort_len. cbv zeta. split.
  - intros ->. reflexivity.
  - intros Hne. assert (Hn : length (vals l) <> 0) by (destruct (vals l); [congruence|discriminate]).
    rewrite (proj2 (Nat.eqb_neq _ _) Hn). unfold qmedian. rewrite qsort_len.
    assert (Hh : length (vals l) / 2 < length (vals l)) by (apply Nat.div_lt; lia).
    destruct (Nat.even (length (vals l))).
    + rewrite !nth_fin by (rewrite qsort_len; lia).
      change (@two XQ XQnum) with (Fin 2). rewrite add_fin, div_fin by (intros E; discriminate E).
      eexists. split; [reflexivity|]. rewrite !Qred_correct. reflexivity.
    + rewrite nth_fin by (rewrite qsort_len; lia). apply fin_number.
Qed.

(** ** Quantiles *)
Definition qpoint (c : Q) (s : list Q) : Q :=
  let position := (c * inject_Z (Z.of_nat (length s) - 1))%Q in
  let k := Z.to_nat (Qfloor position) in
  (nth k s 0 + (position - inject_Z (Qfloor position)) * (nth (k + 1) s (nth k s 0) - nth k s 0))%Q.
Lemma qpoint_ok : forall c l v, (v == qpoint c (qsort l))%Q -> is_quantile c l v.
Proof.
  intros c l v Hv. exists (qsort l). split; [apply qsort_in_order|]. cbv zeta. rewrite Hv. unfold qpoint. rewrite qsort_len. reflexivity.
Qed.
Lemma qpoint_whole : forall c s k, (c * inject_Z (Z.of_nat (length s) - 1) == inject_Z (Z.of_nat k))%Q -> (qpoint c s == nth k s 0)%Q.
Proof.
  intros c s k E. unfold qpoint. cbv zeta. rewrite (Qfloor_comp _ _ E), Qfloor_Z, Nat2Z.id, E. ring.
Qed.
Lemma rank_lt : forall n c, 2 <= n -> (0 <= c)%Q -> (c < 1)%Q ->
  (0 <= Qfloor (c * inject_Z (Z.of_nat n - 1)))%Z /\ S (Z.to_nat (Qfloor (c * inject_Z (Z.of_nat n - 1)))) < n.
Proof.
  intros n c Hn H0 H1. set (n1 := inject_Z (Z.of_nat n - 1)).
  assert (Hn1 : (1 <= n1)%Q) by (unfold n1; change 1%Q with (inject_Z 1); rewrite <- Zle_Qle; lia).
  assert (Hnc : (0 <= c * n1)%Q) by (apply Qmult_le_0_compat; lra).
  assert (Hnc1 : (c * n1 < n1)%Q).
  { assert (0 < (1 - c) * n1)%Q by (apply Qmult_lt_0_compat; lra). lra. }
  assert (Hfl0 : (0 <= Qfloor (c * n1))%Z).
  { change 0%Z with (Qfloor (inject_Z 0)). apply Qfloor_resp_le. exact Hnc. }
  split; [exact Hfl0|].
  assert (H : (inject_Z (Qfloor (c * n1)) < n1)%Q) by (pose proof (Qfloor_le (c * n1)); lra).
  unfold n1 in H at 2. rewrite <- Zlt_Qlt in H. lia.
Qed.

Lemma floor_plus_one : forall x, Qfloor (1 + x) = (Qfloor x + 1)%Z.
Proof.
  intros x. apply Z.le_antisymm.
  - assert (H := Qfloor_le (1 + x)). assert (H2 := Qlt_floor x).
    assert (Hlt : (inject_Z (Qfloor (1 + x)) < inject_Z (Qfloor x + 1 + 1))%Q).
    { rewrite inject_Z_plus. change (inject_Z 1) with 1%Q. lra. }
    rewrite <- Zlt_Qlt in Hlt. lia.
  - assert (H : (inject_Z (Qfloor x + 1) <= 1 + x)%Q).
    { rewrite inject_Z_plus. change (inject_Z 1) with 1%Q. assert (H := Qfloor_le x). lra. }
    apply Qfloor_resp_le in H. rewrite Qfloor_Z in H. exact H.
Qed.

Lemma least_first : forall l v, is_least l v -> (v == nth 0 (qsort l) 0)%Q.
Proof.
  intros l v [Hin Hle]. destruct (qsort_in_order l) as [HP HO].
  assert (Hl : 0 < length (qsort l)) by (rewrite qsort_len; destruct l; [destruct Hin|cbn; lia]).
  apply Qle_antisym.
  - apply Hle. eapply Permutation_in; [apply Permutation_sym, HP|]. apply nth_In. exact Hl.
  - apply (Permutation_in _ HP) in Hin. destruct (In_nth _ _ 0%Q Hin) as (j & Hj & <-). apply HO; lia.
Qed.
Lemma greatest_last : forall l v, is_greatest l v -> (v == nth (length l - 1) (qsort l) 0)%Q.
Proof.
  intros l v [Hin Hle]. destruct (qsort_in_order l) as [HP HO].
  assert (Hl : 0 < length (qsort l)) by (rewrite qsort_len; destruct l; [destruct Hin|cbn; lia]).
  pose proof (qsort_len l) as Hq.
  apply Qle_antisym.
  - apply (Permutation_in _ HP) in Hin. destruct (In_nth _ _ 0%Q Hin) as (j & Hj & <-). apply HO; lia.
  - apply Hle. eapply Permutation_in; [apply Permutation_sym, HP|]. apply nth_In. lia.
Qed.

Lemma least_run : forall qs, qs <> [] -> exists v, np_min (map Fin qs) = Ok (Fin v) /\ is_least qs v.
Proof.
  intros qs Hne. destruct (np_min_number (map Fin qs)) as (v & E & Hv & Hle).
  - destruct qs; [congruence|discriminate].
  - intros x Hx. apply in_map_iff in Hx as (q & <- & _). eauto.
  - exists v. split; [exact E|]. split.
    + apply in_map_iff in Hv as (q & Eq & Hq). injection Eq as <-. exact Hq.
    + intros q Hq. apply Hle, in_map, Hq.
Qed.
Lemma greatest_run : forall qs, qs <> [] -> exists v, np_max (map Fin qs) = Ok (Fin v) /\ is_greatest qs v.
Proof.
  intros qs Hne. destruct (np_max_number (map Fin qs)) as (v & E & Hv & Hle).
  - destruct qs; [congruence|discriminate].
  - intros x Hx. apply in_map_iff in Hx as (q & <- & _). eauto.
  - exists v. split; [exact E|]. split.
    + apply in_map_iff in Hv as (q & Eq & Hq). injection Eq as <-. exact Hq.
    + intros q Hq. apply Hle, in_map, Hq.
Qed.

Lemma percentile_exact : forall qs c q, qs <> [] -> (0 <= c <= 1)%Q -> (q == 100 * c)%Q ->
  exists v, np_percentile xq_trunc (map Fin qs) (Fin q) = Ok (Fin v) /\ (v == qpoint c (qsort qs))%Q.
Proof.
  intros qs c q Hne Hc Hq. unfold np_percentile. cbn [zero ofZ XQnum leb xq_leb eqb xq_eqb].
  replace (Qle_bool (inject_Z 0) q) with true.
  2:{ symmetry. qbg. change (inject_Z 0) with 0%Q. lra. }
  replace (Qle_bool q (inject_Z 100)) with true.
  2:{ symmetry. qbg. change (inject_Z 100) with 100%Q. lra. }
  cbn [andb negb raise_if].
  destruct qs as [|q0 qs]; [congruence|]. destruct qs as [|q1 qs].
  { exists q0. split; [reflexivity|]. rewrite (qpoint_whole c _ 0); [reflexivity|]. cbn [qsort fold_right qinsert length]. change (inject_Z (Z.of_nat 1 - 1)) with 0%Q. change (inject_Z (Z.of_nat 0)) with 0%Q. ring. }
  set (l := q0 :: q1 :: qs) in *.
  change (map Fin l) with (Fin q0 :: Fin q1 :: map Fin qs). cbv iota.
  change (Fin q0 :: Fin q1 :: map Fin qs) with (map Fin l).
  change (inject_Z 100) with 100%Q. change (inject_Z 0) with 0%Q.
  assert (L2 : 2 <= length l) by (cbn [length l]; lia).
  pose proof (qsort_len l) as Ls.
  destruct (Qeq_bool q 100) eqn:E1; [|destruct (Qeq_bool q 0) eqn:E2]; qb.
  - destruct (greatest_run l Hne) as (v & -> & Hv). cbn [bind]. exists v. split; [reflexivity|].
    rewrite (greatest_last _ _ Hv), (qpoint_whole c _ (length l - 1)); [reflexivity|].
    rewrite Ls. setoid_replace c with 1%Q by lra. replace (Z.of_nat (length l - 1)) with (Z.of_nat (length l) - 1)%Z by lia. ring.
  - destruct (least_run l Hne) as (v & -> & Hv). cbn [bind]. exists v. split; [reflexivity|].
    rewrite (least_first _ _ Hv), (qpoint_whole c _ 0); [reflexivity|].
    setoid_replace c with 0%Q by lra. change (inject_Z (Z.of_nat 0)) with 0%Q. ring.
  - destruct (rank_lt (length l) c L2) as [Hf Hk]; [lra|lra|].
    rewrite map_length, sort_fin. set (n1 := inject_Z (Z.of_nat (length l) - 1)) in *.
    cbn [one ofZ XQnum add xq_add mul xq_mul fin div xq_div].
    change (inject_Z 100) with 100%Q. change (inject_Z 1) with 1%Q.
    replace (Qeq_bool 100 0) with false by reflexivity. fold n1. unfold fin.
    set (rank := Qred (1 + Qred (n1 * Qred (q / 100)))).
    assert (Hr : (rank == 1 + c * n1)%Q).
    { unfold rank. rewrite !Qred_correct, Hq. field. }
    assert (Hpos : (0 <= c * n1)%Q).
    { apply Qmult_le_0_compat; [lra|]. unfold n1. change 0%Q with (inject_Z 0). rewrite <- Zle_Qle. lia. }
    assert (Et : xq_trunc (Fin rank) = (Qfloor (c * n1) + 1)%Z).
    { cbn [xq_trunc]. replace (Qle_bool 0 rank) with true by (symmetry; qbg; lra). rewrite (Qfloor_comp _ _ Hr). apply floor_plus_one. }
    rewrite Et. replace (Qfloor (c * n1) + 1 - 1)%Z with (Qfloor (c * n1)) by lia.
    set (k := Z.to_nat (Qfloor (c * n1))) in *.
    rewrite !nth_fin by lia. cbn [sub xq_sub XQnum fin mul xq_mul add xq_add].
    eexists. split; [reflexivity|]. unfold qpoint. rewrite Ls. cbv zeta. fold n1. fold k.
    rewrite (nth_indep (qsort l) (nth k (qsort l) 0%Q) 0%Q) by lia. replace (k + 1) with (S k) by lia.
    unfold fin. rewrite !Qred_correct, Hr, inject_Z_plus. change (inject_Z 1) with 1%Q. ring.
Qed.
