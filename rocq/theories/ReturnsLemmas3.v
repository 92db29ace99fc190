(** * Lemmas about value at risk *)
From Coq Require Import ZArith QArith Qabs Qround Bool List Arith Lia Lqa Sorting Permutation.
From Verif Require Import Base Num XQFacts OrdLaws GenericNb GenericSpec GenericLemmas GenericLemmas2
  ReturnsNb ReturnsSpec ReturnsLemmas ReturnsLemmas2.
Import ListNotations.
Local Open Scope nat_scope.

(** ** Sorting *)
Fixpoint qinsert (x : Q) (l : list Q) : list Q :=
  match l with [] => [x] | y :: r => if qlt_bool x y then x :: l else y :: qinsert x r end.
Definition qsort (l : list Q) : list Q := fold_right qinsert [] l.

Lemma insert_fin : forall x l, np_insert (Fin x) (map Fin l) = map Fin (qinsert x l).
Proof.
  induction l as [|y l IH]; [reflexivity|]. cbn [map np_insert qinsert]. cbn [ltb XQnum xq_ltb isnan xq_isnan].
  rewrite orb_false_r. destruct (qlt_bool x y); [reflexivity|]. cbn [map]. f_equal. exact IH.
Qed.
Lemma sort_fin : forall l, np_sort (map Fin l) = map Fin (qsort l).
Proof. induction l as [|x l IH]; [reflexivity|]. cbn [map np_sort fold_right qsort]. fold (np_sort (map Fin l)). rewrite IH. apply insert_fin. Qed.
Lemma qinsert_perm : forall x l, Permutation (x :: l) (qinsert x l).
Proof.
  induction l as [|y l IH]; cbn [qinsert]; auto. destruct (qlt_bool x y); auto.
  eapply perm_trans; [apply perm_swap|]. now constructor.
Qed.
Lemma qsort_perm : forall l, Permutation l (qsort l).
Proof.
  induction l as [|x l IH]; [constructor|]. cbn [qsort fold_right]. fold (qsort l).
  eapply perm_trans; [apply perm_skip, IH|apply qinsert_perm].
Qed.
Lemma qinsert_sorted : forall x l, StronglySorted Qle l -> StronglySorted Qle (qinsert x l).
Proof.
  intros x l H. induction H as [|y l Hl IH Hy]; cbn [qinsert]; [repeat constructor|].
  destruct (qlt_bool x y) eqn:E; qb.
  - constructor; [constructor; auto|]. constructor; [lra|]. eapply Forall_impl; [|exact Hy]. cbn. intros; lra.
  - constructor; auto. rewrite Forall_forall in *. intros z Hz.
    apply (Permutation_in _ (Permutation_sym (qinsert_perm x l))) in Hz. destruct Hz as [<-|Hz]; auto.
Qed.
Lemma qsort_sorted : forall l, StronglySorted Qle (qsort l).
Proof. induction l as [|x l IH]; [constructor|]. apply qinsert_sorted, IH. Qed.

Lemma sorted_nth : forall l i j x y, StronglySorted Qle l -> i <= j -> nth_error l i = Some x -> nth_error l j = Some y -> (x <= y)%Q.
Proof.
  intros l i j x y H. revert i j x y. induction H as [|z l Hl IH Hz]; intros i j x y Hij Hi Hj; [destruct i; discriminate|].
  destruct i as [|i], j as [|j]; cbn in Hi, Hj; try lia.
  - assert (x = y) as -> by congruence. lra.
  - injection Hi as <-. rewrite Forall_forall in Hz. apply Hz. eapply nth_error_In; eauto.
  - eapply IH; [|eauto|eauto]. lia.
Qed.

Lemma filter_perm : forall (f : Q -> bool) l l', Permutation l l' -> length (filter f l) = length (filter f l').
Proof. intros f l l' H. induction H; cbn; repeat destruct (f _); cbn; congruence. Qed.
Lemma filter_all : forall (f : Q -> bool) l, (forall x, In x l -> f x = true) -> filter f l = l.
Proof. induction l as [|x l IH]; intros H; cbn; auto. rewrite H by now left. f_equal. apply IH. intros; apply H; now right. Qed.
Lemma filter_none : forall (f : Q -> bool) l, (forall x, In x l -> f x = false) -> filter f l = [].
Proof. induction l as [|x l IH]; intros H; cbn; auto. rewrite H by now left. apply IH. intros; apply H; now right. Qed.
Lemma filter_le : forall (f : Q -> bool) l, length (filter f l) <= length l.
Proof. induction l as [|x l IH]; cbn; auto. destruct (f x); cbn; lia. Qed.

Lemma nth_error_skipn_add : forall A (l : list A) n i, nth_error (skipn n l) i = nth_error l (n + i).
Proof. induction l as [|x l IH]; intros [|n] i; cbn; auto. destruct i; auto. Qed.

Lemma at_most_sorted : forall l s k v x, Permutation l s -> StronglySorted Qle s -> nth_error s k = Some x -> (x <= v)%Q ->
  S k <= n_at_most v l.
Proof.
  intros l s k v x HP HS Hx Hv. unfold n_at_most. rewrite (filter_perm _ _ _ HP).
  rewrite <- (firstn_skipn (S k) s), filter_app, app_length.
  rewrite (filter_all _ (firstn (S k) s)).
  - rewrite firstn_length. pose proof (nth_error_lt _ _ _ Hx). lia.
  - intros y Hy. apply In_nth_error in Hy as [j Hj]. pose proof (nth_error_lt _ _ _ Hj) as HL. rewrite firstn_length in HL.
    rewrite nth_error_firstn_lt in Hj by lia. qbg. assert (y <= x)%Q by (eapply sorted_nth; [eauto| |eauto|eauto]; lia). lra.
Qed.
Lemma below_sorted : forall l s k v, Permutation l s -> StronglySorted Qle s -> (forall x, nth_error s k = Some x -> (v <= x)%Q) ->
  n_below v l <= k.
Proof.
  intros l s k v HP HS Hx. unfold n_below. rewrite (filter_perm _ _ _ HP).
  rewrite <- (firstn_skipn k s), filter_app, app_length.
  rewrite (filter_none _ (skipn k s)).
  - cbn [length]. pose proof (filter_le (fun y => qlt_bool y v) (firstn k s)). rewrite firstn_length in H. lia.
  - intros y Hy. qbg. destruct (nth_error s k) as [x|] eqn:E.
    + apply In_nth_error in Hy as [j Hj]. rewrite nth_error_skipn_add in Hj.
      assert (x <= y)%Q by (eapply sorted_nth; [eauto| |eauto|eauto]; lia). specialize (Hx x eq_refl). lra.
    + apply nth_error_None in E. rewrite skipn_all2 in Hy by auto. contradiction.
Qed.

(** ** Percentiles *)
Lemma np_max_number : forall (l : list XQ), l <> [] -> (forall x, In x l -> exists q, x = Fin q) ->
  exists q, np_max l = Ok (Fin q) /\ In (Fin q) l /\ forall p, In (Fin p) l -> (p <= q)%Q.
Proof.
  intros [|x l] Hne Hl; [congruence|]. unfold np_max, np_extreme.
  replace (existsb isnan (x :: l)) with false.
  2:{ symmetry. apply not_true_is_false. intros E. apply existsb_exists in E as (z & Hz & Ez).
      destruct (Hl z Hz) as [q ->]. discriminate. }
  destruct (Hl x (or_introl eq_refl)) as [q0 ->].
  assert (H : forall l q0, (forall x, In x l -> exists q, x = Fin q) ->
    exists q, fold_left (fun m v => if gtb v m then v else m) l (Fin q0) = Fin q /\
      (Fin q = Fin q0 \/ In (Fin q) l) /\ (q0 <= q)%Q /\ forall p, In (Fin p) l -> (p <= q)%Q).
  { clear. induction l as [|y l IH]; intros q0 Hl.
    - exists q0. cbn. repeat split; auto; try lra. contradiction.
    - destruct (Hl y (or_introl eq_refl)) as [p ->]. cbn [fold_left]. unfold gtb at 2. cbn [ltb XQnum xq_ltb].
      destruct (qlt_bool q0 p) eqn:E; qb;
        match goal with |- context [fold_left _ l (Fin ?s)] => destruct (IH s) as (q & Eq & Hin & Hle & Hall) end;
        try (intros; apply Hl; now right); exists q; split; auto; split.
      + right. destruct Hin as [Hin|Hin]; [left; congruence|now right].
      + split; [lra|]. intros p' [Hp'|Hp']; [|auto]. injection Hp' as <-. lra.
      + destruct Hin as [Hin|Hin]; [now left|right; now right].
      + split; [lra|]. intros p' [Hp'|Hp']; [|auto]. injection Hp' as <-. lra. }
  destruct (H l q0) as (q & Eq & Hin & Hle & Hall); [intros; apply Hl; now right|].
  exists q. split; [now rewrite Eq|]. split.
  - destruct Hin as [Hin|Hin]; [left; congruence|now right].
  - intros p [Hp|Hp]; auto. injection Hp as <-. auto.
Qed.

Lemma rank_bounds : forall n c, 1 <= n -> (0 <= c <= 1)%Q -> cutoff_rank n c <= n - 1.
Proof.
  intros n c Hn Hc. unfold cutoff_rank.
  assert (H0 : (0 <= inject_Z (Z.of_nat n - 1))%Q) by (change 0%Q with (inject_Z 0); rewrite <- Zle_Qle; lia).
  assert (H1 : (inject_Z (Z.of_nat n - 1) * c <= inject_Z (Z.of_nat n - 1))%Q).
  { rewrite <- (Qmult_1_r (inject_Z (Z.of_nat n - 1))) at 2. rewrite !(Qmult_comm (inject_Z _)). apply Qmult_le_compat_r; lra. }
  apply Qfloor_resp_le in H1. rewrite Qfloor_Z in H1.
  assert (0 <= Qfloor (inject_Z (Z.of_nat n - 1) * c))%Z.
  { change 0%Z with (Qfloor (inject_Z 0)). apply Qfloor_resp_le. apply Qmult_le_0_compat; [auto|lra]. }
  lia.
Qed.

Lemma percentile_run : forall qs c, qs <> [] -> (0 <= c <= 1)%Q ->
  exists v, np_percentile xq_trunc (map Fin qs) (Fin (Qred (100 * c))) = Ok (Fin v) /\
    let k := cutoff_rank (length qs) c in
    exists x, nth_error (qsort qs) k = Some x /\ (x <= v)%Q /\
      forall y, nth_error (qsort qs) (S k) = Some y -> (v <= y)%Q.
Proof.
  intros qs c Hne Hc. unfold np_percentile. cbn [zero ofZ XQnum leb xq_leb eqb xq_eqb].
  replace (Qle_bool (inject_Z 0) (Qred (100 * c))) with true.
  2:{ symmetry. qbg. rewrite Qred_correct. change (inject_Z 0) with 0%Q. lra. }
  replace (Qle_bool (Qred (100 * c)) (inject_Z 100)) with true.
  2:{ symmetry. qbg. rewrite Qred_correct. change (inject_Z 100) with 100%Q. lra. }
  cbn [andb negb raise_if].
  assert (Lk : cutoff_rank (length qs) c <= length qs - 1).
  { apply rank_bounds; auto. destruct qs; [congruence|cbn [length]; lia]. }
  pose proof (Permutation_length (qsort_perm qs)) as Ls.
  assert (Hfin : forall x, In x (map Fin qs) -> exists q, x = Fin q) by (intros x Hx; apply in_map_iff in Hx as (q & <- & _); eauto).
  assert (Hin : forall q, In (Fin q) (map Fin qs) -> In q qs) by (intros q Hx; apply in_map_iff in Hx as (q' & E & Hq); injection E as <-; auto).
  destruct qs as [|q0 qs]; [congruence|]. destruct qs as [|q1 qs].
  { exists q0. split; [reflexivity|]. cbv zeta. cbn [length] in Lk. replace (cutoff_rank (length [q0]) c) with 0 by (cbn [length]; lia).
    exists q0. split; [reflexivity|]. split; [lra|]. intros y H. discriminate. }
  set (l := q0 :: q1 :: qs) in *.
  assert (Hl : map Fin l <> []) by discriminate.
  change (map Fin l) with (Fin q0 :: Fin q1 :: map Fin qs). cbv iota.
  change (Fin q0 :: Fin q1 :: map Fin qs) with (map Fin l).
  change (inject_Z 100) with 100%Q. change (inject_Z 0) with 0%Q. change (inject_Z 1) with 1%Q.
  assert (Hnth : forall k, k < length l -> exists x, nth_error (qsort l) k = Some x).
  { intros k Hk. destruct (nth_error (qsort l) k) as [x|] eqn:E; eauto. apply nth_error_None in E. lia. }
  assert (L2 : 2 <= length l) by (cbn [length l]; lia).
  destruct (Qeq_bool (Qred (100 * c)) 100) eqn:E1; [|destruct (Qeq_bool (Qred (100 * c)) 0) eqn:E2]; qb.
  - rewrite Qred_correct in E1. destruct (np_max_number (map Fin l) Hl Hfin) as (v & -> & Hv & Hmax). cbn [bind].
    exists v. split; [reflexivity|]. cbv zeta.
    assert (Ek : cutoff_rank (length l) c = length l - 1).
    { unfold cutoff_rank. setoid_replace (inject_Z (Z.of_nat (length l) - 1) * c)%Q with (inject_Z (Z.of_nat (length l) - 1)).
      - rewrite Qfloor_Z. lia.
      - setoid_replace c with 1%Q by lra. ring. }
    rewrite Ek. destruct (Hnth (length l - 1)) as [x Hx]; [lia|]. exists x. split; auto. split.
    + apply Hmax, in_map. eapply Permutation_in; [apply Permutation_sym, qsort_perm|]. eapply nth_error_In; eauto.
    + intros y Hy. apply nth_error_lt in Hy. lia.
  - rewrite Qred_correct in E2. destruct (np_min_number (map Fin l) Hl Hfin) as (v & -> & Hv & Hmin). cbn [bind].
    exists v. split; [reflexivity|]. cbv zeta.
    assert (Ek : cutoff_rank (length l) c = 0).
    { unfold cutoff_rank. setoid_replace (inject_Z (Z.of_nat (length l) - 1) * c)%Q with 0%Q; [reflexivity|].
      setoid_replace c with 0%Q by lra. ring. }
    rewrite Ek. destruct (Hnth 0) as [x Hx]; [lia|]. exists x. split; auto. split.
    + apply Hin in Hv. apply (Permutation_in _ (qsort_perm l)) in Hv. apply In_nth_error in Hv as [j Hj].
      eapply sorted_nth; [apply qsort_sorted| |exact Hx|exact Hj]. lia.
    + intros y Hy. apply Hmin, in_map. eapply Permutation_in; [apply Permutation_sym, qsort_perm|]. eapply nth_error_In; eauto.
  - rewrite Qred_correct in E1, E2. rewrite map_length, sort_fin.
    set (n1 := inject_Z (Z.of_nat (length l) - 1)).
    assert (Hn1 : (1 <= n1)%Q) by (unfold n1; change 1%Q with (inject_Z 1); rewrite <- Zle_Qle; lia).
    assert (Hnc : (0 <= n1 * c)%Q) by (apply Qmult_le_0_compat; lra).
    assert (Hnc1 : (n1 * c < n1)%Q).
    { assert (c < 1)%Q by lra. assert (0 < n1 * (1 - c))%Q by (apply Qmult_lt_0_compat; lra). lra. }
    cbn [one ofZ XQnum add xq_add mul xq_mul fin div xq_div].
    change (inject_Z 100) with 100%Q. change (inject_Z 1) with 1%Q.
    replace (Qeq_bool 100 0) with false by reflexivity. fold n1.
    unfold fin.
    set (rank := Qred (1 + Qred (n1 * Qred (Qred (100 * c) / 100)))).
    assert (Hr : (rank == 1 + n1 * c)%Q).
    { unfold rank. rewrite !Qred_correct. field. }
    assert (Et : xq_trunc (Fin rank) = (Qfloor (n1 * c) + 1)%Z).
    { cbn [xq_trunc]. replace (Qle_bool 0 rank) with true by (symmetry; qbg; lra).
      rewrite Hr. rewrite (Qplus_comm 1).
      apply Z.le_antisymm.
      - assert (H := Qfloor_le (n1 * c + 1)). assert (H2 := Qlt_floor (n1 * c)).
        assert (Hlt : (inject_Z (Qfloor (n1 * c + 1)) < inject_Z (Qfloor (n1 * c) + 1 + 1))%Q).
        { rewrite inject_Z_plus. change (inject_Z 1) with 1%Q. lra. }
        rewrite <- Zlt_Qlt in Hlt. lia.
      - assert (H : (inject_Z (Qfloor (n1 * c) + 1) <= n1 * c + 1)%Q).
        { rewrite inject_Z_plus. change (inject_Z 1) with 1%Q. assert (H := Qfloor_le (n1 * c)). lra. }
        apply Qfloor_resp_le in H. rewrite Qfloor_Z in H. exact H. }
    rewrite Et.
    assert (Ekk : Z.to_nat (Qfloor (n1 * c) + 1 - 1) = cutoff_rank (length l) c).
    { unfold cutoff_rank. fold n1. f_equal. lia. }
    rewrite Ekk. set (k := cutoff_rank (length l) c) in *.
    assert (Hfl0 : (0 <= Qfloor (n1 * c))%Z).
    { change 0%Z with (Qfloor (inject_Z 0)). apply Qfloor_resp_le. auto. }
    assert (Hk1 : S k < length l).
    { assert (H : (inject_Z (Qfloor (n1 * c)) < n1)%Q) by (pose proof (Qfloor_le (n1 * c)); lra).
      unfold n1 in H at 2. rewrite <- Zlt_Qlt in H. unfold k, cutoff_rank. fold n1. lia. }
    destruct (Hnth k) as [x Hx]; [lia|]. destruct (Hnth (S k)) as [y Hy]; [lia|].
    assert (Nx : nth k (map Fin (qsort l)) nan = Fin x).
    { apply nth_error_nth. now rewrite nth_error_map, Hx. }
    assert (Ny : nth (S k) (map Fin (qsort l)) nan = Fin y).
    { apply nth_error_nth. now rewrite nth_error_map, Hy. }
    rewrite Nx, Ny. cbn [sub xq_sub XQnum fin mul xq_mul add xq_add].
    eexists. split; [reflexivity|]. cbv zeta. exists x. split; auto.
    set (m := (n1 * c - inject_Z (Qfloor (n1 * c)))%Q).
    assert (Hm : (0 <= m < 1)%Q).
    { unfold m. pose proof (Qfloor_le (n1 * c)). pose proof (Qlt_floor (n1 * c)) as H2. rewrite inject_Z_plus in H2.
      change (inject_Z 1) with 1%Q in H2. lra. }
    assert (Hxy : (x <= y)%Q) by (eapply sorted_nth; [apply qsort_sorted| |exact Hx|exact Hy]; lia).
    assert (Hv : (Qred (Qred (x * Qred (1 - Qred (rank - inject_Z (Qfloor (n1 * c) + 1)))) + Qred (y * Qred (rank - inject_Z (Qfloor (n1 * c) + 1))))
      == x + m * (y - x))%Q).
    { rewrite !Qred_correct, Hr, inject_Z_plus. change (inject_Z 1) with 1%Q. unfold m. ring. }
    rewrite Hv. assert (0 <= m * (y - x))%Q by (apply Qmult_le_0_compat; lra).
    assert (0 <= (1 - m) * (y - x))%Q by (apply Qmult_le_0_compat; lra).
    split; [lra|]. intros y' Hy'. assert (y' = y) as -> by congruence. lra.
Qed.

Lemma drop_nan_vals : forall rs, no_infinity rs -> drop_nan rs = map Fin (vals rs).
Proof.
  induction rs as [|r rs IH]; intros H; [reflexivity|]. unfold drop_nan. cbn [filter]. fold (drop_nan rs).
  destruct (no_inf_hd _ _ H) as [->|[q ->]]; apply no_inf_cons in H; cbn [isnan XQnum xq_isnan negb vals map]; rewrite IH by auto; reflexivity.
Qed.

Lemma var_run : forall rs c, no_infinity rs -> vals rs <> [] -> (0 <= c <= 1)%Q ->
  exists v, value_at_risk_1d_nb xq_trunc rs (Fin c) = Ok (Fin v) /\
    let k := cutoff_rank (length (vals rs)) c in
    exists x, nth_error (qsort (vals rs)) k = Some x /\ (x <= v)%Q /\
      forall y, nth_error (qsort (vals rs)) (S k) = Some y -> (v <= y)%Q.
Proof.
  intros rs c H Hne Hc. destruct (percentile_run (vals rs) c Hne Hc) as (v & E & Hv).
  exists v. split; auto. unfold value_at_risk_1d_nb. rewrite drop_nan_vals by auto.
  change (mul (ofZ 100) (Fin c)) with (Fin (Qred (100 * c))). rewrite E.
  destruct (vals rs); [congruence|reflexivity].
Qed.

Lemma np_sum_fin : forall qs, exists s, np_sum (map Fin qs) = Fin s /\ (s == sum qs)%Q.
Proof.
  intros qs. unfold np_sum.
  assert (H : forall qs c, exists s, fold_left add (map Fin qs) (Fin c) = Fin s /\ (s == c + sum qs)%Q).
  { clear. induction qs as [|q qs IH]; intros c; cbn [map fold_left sum].
    - exists c. split; [reflexivity|]. ring.
    - rewrite add_fin. destruct (IH (Qred (c + q))) as (s & E & Hs). exists s. split; [exact E|]. rewrite Hs, Qred_correct. ring. }
  destruct (H qs 0%Q) as (s & E & Hs). exists s. split; [exact E|]. rewrite Hs. ring.
Qed.
Lemma np_mean_fin : forall qs, qs <> [] -> is_number (np_mean (map Fin qs)) (mean qs).
Proof.
  intros qs Hne. unfold np_mean. destruct (np_sum_fin qs) as (s & -> & Hs). rewrite map_length.
  pose proof (count_pos qs Hne) as Hp. unfold count in Hp.
  change (ofZ (Z.of_nat (length qs))) with (Fin (inject_Z (Z.of_nat (length qs)))).
  rewrite div_fin by lra. eexists. split; [reflexivity|]. rewrite Qred_correct, Hs. reflexivity.
Qed.

Lemma cvar_run : forall qs c, qs <> [] -> (0 <= c <= 1)%Q ->
  let k := cutoff_rank (length qs) c in
  is_number (cond_value_at_risk_1d_nb xq_trunc (map Fin qs) (Fin c)) (mean (firstn (S k) (qsort qs))).
Proof.
  intros qs c Hne Hc k. unfold cond_value_at_risk_1d_nb.
  destruct qs as [|q qs]; [congruence|]. set (l := q :: qs) in *. change (map Fin l) with (Fin q :: map Fin qs) at 1. cbv iota.
  rewrite map_length. unfold np_partition. rewrite sort_fin.
  change (mul (ofZ (Z.of_nat (length l) - 1)) (Fin c)) with (Fin (Qred (inject_Z (Z.of_nat (length l) - 1) * c))).
  assert (H0 : (0 <= inject_Z (Z.of_nat (length l) - 1))%Q).
  { change 0%Q with (inject_Z 0). rewrite <- Zle_Qle. cbn [length l]. lia. }
  assert (Hnc : (0 <= inject_Z (Z.of_nat (length l) - 1) * c)%Q) by (apply Qmult_le_0_compat; lra).
  cbn [xq_trunc]. replace (Qle_bool 0 _) with true by (symmetry; qbg; rewrite Qred_correct; auto).
  rewrite Qred_correct. fold (cutoff_rank (length l) c). fold k. rewrite firstn_map. apply np_mean_fin.
  intros E. apply (f_equal (@length Q)) in E. rewrite firstn_length in E.
  pose proof (Permutation_length (qsort_perm l)) as HL. cbn [length] in E. unfold l in HL. cbn [length] in HL. fold l in HL. lia.
Qed.

Lemma mean_le : forall l x, l <> [] -> (forall y, In y l -> (y <= x)%Q) -> (mean l <= x)%Q.
Proof.
  intros l x Hne H. unfold mean. apply Qle_shift_div_r; [now apply count_pos|].
  clear Hne. induction l as [|y l IH]; [cbn [sum]; change (count []) with 0%Q; lra|].
  cbn [sum]. rewrite count_cons. assert (y <= x)%Q by (apply H; now left).
  assert (sum l <= x * count l)%Q by (apply IH; intros; apply H; now right). lra.
Qed.
